(** Model of [weldx/time.py], class [Time].  Points in time and durations are
    integers (nanoseconds; [pandas] stores 64 bit counts, overflow is not
    modelled).  Strings, numpy and DataArray inputs are converted to a pandas
    index before any of the modelled code runs, so inputs are pandas values,
    quantities or [Time] objects. *)
From Coq Require Import List ZArith Bool.
From Verif Require Import Base.
Import ListNotations.
Open Scope Z_scope.

(** time.py 786: the types which [Time._time] can have *)
Inductive ptime : Type :=
| PDelta (z : Z)            (* pd.Timedelta *)
| PStamp (z : Z)            (* pd.Timestamp *)
| PDeltas (l : list Z)      (* pd.TimedeltaIndex *)
| PStamps (l : list Z).     (* pd.DatetimeIndex *)

(** time.py 299-300: the attributes [_time] and [_time_ref] *)
Record time : Type := mkTime { t_val : ptime; t_ref : option Z }.

(** The accepted inputs.  A quantity consists of nanoseconds and the attribute
    [time_ref] (time.py 456, 665); the conversion to seconds and back is taken to
    be exact.  A DataArray is the same (time.py 680-693): values and the
    reference time stored in its attributes. *)
Inductive tlike : Type :=
| LTime (t : time)
| LPandas (p : ptime)
| LQuantity (l : list Z) (ref : option Z).

(** pandas [Index.is_monotonic_increasing] *)
Fixpoint monotonic (l : list Z) : bool :=
  match l with
  | [] => true
  | a :: r => match r with
              | [] => true
              | b :: _ => (a <=? b) && monotonic r
              end
  end.

(** time.py 319-321: an index with one element is replaced by the element *)
Definition squeeze (p : ptime) : ptime :=
  match p with
  | PDeltas [z] => PDelta z
  | PStamps [z] => PStamp z
  | _ => p
  end.

(** time.py 660-677 [_convert_quantity] (always an index) *)
Definition convert_quantity (l : list Z) (ref : option Z) : ptime :=
  match ref with
  | None => PDeltas l
  | Some r => PStamps (map (fun z => z + r) l)
  end.

(** time.py 302-322 [_get_time_input] *)
Definition get_time_input (x : tlike) (ref : option Z) : ptime * option Z :=
  match x with
  | LTime t => (squeeze (t_val t), match ref with Some r => Some r | None => t_ref t end)
  | LPandas p => (squeeze p, ref)
  | LQuantity l r => (squeeze (convert_quantity l r), ref)
  end.

(** time.py 288-294: time deltas with a reference time become absolute *)
Definition apply_ref (p : ptime) (ref : option Z) : ptime :=
  match ref, p with
  | Some r, PDelta z => PStamp (z + r)
  | Some r, PDeltas l => PStamps (map (fun z => z + r) l)
  | _, _ => p
  end.

(** time.py 277-300 [__init__] *)
Definition mk_time (x : tlike) (ref : option Z) : res time :=
  let '(p, ref) := get_time_input x ref in
  let p := apply_ref p ref in
  match p with
  | PDeltas l | PStamps l => if monotonic l then Ok (mkTime p ref) else Err ValueError
  | _ => Ok (mkTime p ref)
  end.

(** time.py 537-540 [is_absolute] *)
Definition is_absolute (t : time) : bool :=
  match t_val t with PStamp _ | PStamps _ => true | _ => false end.

(** time.py 523-530 [reference_time]; [self._time[0]] of an empty index raises *)
Definition reference_time (t : time) : res (option Z) :=
  match t_val t with
  | PStamps l =>
      match t_ref t with
      | Some r => Ok (Some r)
      | None => match l with [] => Err IndexError | z :: _ => Ok (Some z) end
      end
  | PStamp z => Ok (Some (match t_ref t with Some r => r | None => z end))
  | PDelta _ | PDeltas _ => Ok None
  end.

(** time.py 532-535: the setter of [reference_time] *)
Definition set_reference_time (t : time) (r : Z) : time := mkTime (t_val t) (Some r).

(** time.py 490-499 [as_pandas_index]: the values as list *)
Definition vals (t : time) : list Z :=
  match t_val t with
  | PDelta z | PStamp z => [z]
  | PDeltas l | PStamps l => l
  end.

(** pandas: element wise operation of two indexes; lengths must agree *)
Fixpoint zip_with (f : Z -> Z -> Z) (a b : list Z) : res (list Z) :=
  match a, b with
  | [], [] => Ok []
  | x :: a', y :: b' =>
      match zip_with f a' b' with
      | Ok r => Ok (f x y :: r)
      | Err e => Err e
      end
  | _, _ => Err ValueError
  end.

Definition rmap {A B : Type} (f : A -> B) (r : res A) : res B :=
  match r with Ok a => Ok (f a) | Err e => Err e end.

(** pandas [a + b] *)
Definition padd (a b : ptime) : res ptime :=
  match a, b with
  | PDelta x, PDelta y => Ok (PDelta (x + y))
  | PDelta x, PStamp y | PStamp x, PDelta y => Ok (PStamp (x + y))
  | PStamp _, PStamp _ => Err TypeError
  | PDelta x, PDeltas l => Ok (PDeltas (map (fun y => x + y) l))
  | PDelta x, PStamps l => Ok (PStamps (map (fun y => x + y) l))
  | PStamp x, PDeltas l => Ok (PStamps (map (fun y => x + y) l))
  | PStamp _, PStamps _ => Err TypeError
  | PDeltas l, PDelta y => Ok (PDeltas (map (fun x => x + y) l))
  | PDeltas l, PStamp y => Ok (PStamps (map (fun x => x + y) l))
  | PStamps l, PDelta y => Ok (PStamps (map (fun x => x + y) l))
  | PStamps _, PStamp _ => Err TypeError
  | PDeltas l, PDeltas m => rmap PDeltas (zip_with Z.add l m)
  | PDeltas l, PStamps m | PStamps l, PDeltas m => rmap PStamps (zip_with Z.add l m)
  | PStamps _, PStamps _ => Err TypeError
  end.

(** pandas [a - b] *)
Definition psub (a b : ptime) : res ptime :=
  match a, b with
  | PDelta x, PDelta y => Ok (PDelta (x - y))
  | PDelta _, PStamp _ => Err TypeError
  | PStamp x, PDelta y => Ok (PStamp (x - y))
  | PStamp x, PStamp y => Ok (PDelta (x - y))
  | PDelta x, PDeltas l => Ok (PDeltas (map (fun y => x - y) l))
  | PDelta _, PStamps _ => Err TypeError
  | PStamp x, PDeltas l => Ok (PStamps (map (fun y => x - y) l))
  | PStamp x, PStamps l => Ok (PDeltas (map (fun y => x - y) l))
  | PDeltas l, PDelta y => Ok (PDeltas (map (fun x => x - y) l))
  | PDeltas _, PStamp _ => Err TypeError
  | PStamps l, PDelta y => Ok (PStamps (map (fun x => x - y) l))
  | PStamps l, PStamp y => Ok (PDeltas (map (fun x => x - y) l))
  | PDeltas l, PDeltas m => rmap PDeltas (zip_with Z.sub l m)
  | PDeltas _, PStamps _ => Err TypeError
  | PStamps l, PDeltas m => rmap PStamps (zip_with Z.sub l m)
  | PStamps l, PStamps m => rmap PDeltas (zip_with Z.sub l m)
  end.

(** time.py 324-332 [__add__]; [__radd__] is [self + other] *)
Definition time_add (self : time) (other : tlike) : res time :=
  bind (mk_time other None) (fun o =>
  bind (reference_time (if is_absolute self then self else o)) (fun ref =>
  bind (padd (t_val self) (t_val o)) (fun p => mk_time (LPandas p) ref))).
Definition time_radd (self : time) (other : tlike) : res time := time_add self other.

(** time.py 334-338 [__sub__] *)
Definition time_sub (self : time) (other : tlike) : res time :=
  bind (mk_time other None) (fun o =>
  bind (if is_absolute o then Ok None else reference_time self) (fun ref =>
  bind (psub (t_val self) (t_val o)) (fun p => mk_time (LPandas p) ref))).

(** time.py 340-344 [__rsub__] *)
Definition time_rsub (self : time) (other : tlike) : res time :=
  bind (mk_time other None) (fun o =>
  bind (if is_absolute self then Ok None else reference_time o) (fun ref =>
  bind (psub (t_val o) (t_val self)) (fun p => mk_time (LPandas p) ref))).

(** an index of the kind of [t] with the given values *)
Definition like (t : time) (l : list Z) : ptime :=
  if is_absolute t then PStamps l else PDeltas l.

Fixpoint pick (l : list Z) (idx : list nat) : res (list Z) :=
  match idx with
  | [] => Ok []
  | i :: r => match nth_error l i with
              | None => Err IndexError
              | Some z => rmap (cons z) (pick l r)
              end
  end.

(** time.py 365-367 [__getitem__]: pandas resolves the item (integer, slice, mask
    or list of positions) to a list of positions *)
Definition time_getitem (self : time) (idx : list nat) : res time :=
  bind (pick (vals self) idx) (fun l =>
  bind (reference_time self) (fun ref => mk_time (LPandas (like self l)) ref)).

(** pandas [==] of scalars and indexes, reduced by [np.all]; values of different
    kind are never equal; indexes of different length raise *)
Fixpoint all_eq (l m : list Z) : res bool :=
  match l, m with
  | [], [] => Ok true
  | x :: l', y :: m' => rmap (andb (x =? y)) (all_eq l' m')
  | _, _ => Err ValueError
  end.

Definition peq_all (a b : ptime) : res bool :=
  match a, b with
  | PDelta x, PDelta y | PStamp x, PStamp y => Ok (x =? y)
  | PDelta x, PDeltas l | PStamp x, PStamps l
  | PDeltas l, PDelta x | PStamps l, PStamp x => Ok (forallb (fun y => y =? x) l)
  | PDeltas l, PDeltas m | PStamps l, PStamps m => all_eq l m
  | PDelta _, PStamp _ | PStamp _, PDelta _ => Ok false
  | PDelta _, PStamps l | PStamp _, PDeltas l
  | PDeltas l, PStamp _ | PStamps l, PDelta _ => Ok (match l with [] => true | _ => false end)
  | PDeltas l, PStamps m | PStamps l, PDeltas m =>
      if Nat.eqb (length l) (length m)
      then Ok (match l with [] => true | _ => false end) else Err ValueError
  end.

Definition opt_eqb (a b : option Z) : bool :=
  match a, b with
  | Some x, Some y => x =? y
  | None, None => true
  | _, _ => false
  end.

(** time.py 346-353 and 395-410: [__eq__] converts the other operand first,
    [equals] compares the private attribute [_time_ref] *)
Definition time_equals (self other : time) : res bool :=
  bind (mk_time (LTime other) None) (fun o =>
  bind (peq_all (t_val self) (t_val o)) (fun b =>
  Ok (b && opt_eqb (t_ref self) (t_ref other)))).

(** time.py 459-470 [as_timedelta], [as_timedelta_index] *)
Definition as_timedelta (t : time) : res ptime :=
  if is_absolute t then
    bind (reference_time t) (fun ref =>
      match ref with
      | Some r => psub (t_val t) (PStamp r)
      | None => Err TypeError
      end)
  else Ok (t_val t).

Definition as_timedelta_index (t : time) : res (list Z) :=
  bind (as_timedelta t) (fun p => Ok (vals (mkTime p None))).

(** time.py 432-457 [as_quantity] *)
Definition as_quantity (t : time) : res tlike :=
  bind (as_timedelta_index t) (fun l =>
  bind (if is_absolute t then reference_time t else Ok None) (fun ref =>
  Ok (LQuantity l ref))).

(** pandas [Index.union] of sorted indexes: sorted, values with the larger of both
    multiplicities *)
Fixpoint zunion (a : list Z) : list Z -> list Z :=
  match a with
  | [] => fun b => b
  | x :: a' =>
      fix inner (b : list Z) : list Z :=
        match b with
        | [] => a
        | y :: b' =>
            if x <? y then x :: zunion a' b
            else if y <? x then y :: inner b'
            else x :: zunion a' b'
        end
  end.

(** union of two indexes; if one contains time deltas and the other time stamps
    the result has no time type and is rejected (time.py 718-721).  (pandas
    accepts an empty index of the other kind; not modelled.) *)
Definition punion (a b : bool * list Z) : res (bool * list Z) :=
  if Bool.eqb (fst a) (fst b) then Ok (fst a, zunion (snd a) (snd b)) else Err TypeError.

Fixpoint union_fold (acc : bool * list Z) (ts : list tlike) : res (bool * list Z) :=
  match ts with
  | [] => Ok acc
  | x :: r =>
      bind (mk_time x None) (fun t =>
      bind (punion acc (is_absolute t, vals t)) (fun acc' => union_fold acc' r))
  end.

(** time.py 771-782 [_union_class]; [reduce] of an empty sequence raises *)
Definition time_union (ts : list tlike) : res time :=
  match ts with
  | [] => Err TypeError
  | x :: r =>
      bind (mk_time x None) (fun t =>
      bind (union_fold (is_absolute t, vals t) r) (fun acc =>
      mk_time (LPandas (if fst acc then PStamps (snd acc) else PDeltas (snd acc))) None))
  end.

(** minimum and maximum of an index *)
Definition zmin_list (l : list Z) (d : Z) : Z := fold_right Z.min d l.
Definition zmax_list (l : list Z) (d : Z) : Z := fold_right Z.max d l.

(** [pd.timedelta_range(start, end, periods=n)] is [linspace] truncated to
    integers (the division is exact arithmetic here); [n >= 2] *)
Definition range_periods (t0 t1 : Z) (n : nat) : list Z :=
  map (fun i => Z.quot (t0 * (Z.of_nat n - 1) + Z.of_nat i * (t1 - t0)) (Z.of_nat n - 1))
      (seq 0 n).

(** [pd.timedelta_range(start, end, freq=dt)], [dt > 0] *)
Definition range_freq (t0 t1 dt : Z) : list Z :=
  map (fun i => t0 + Z.of_nat i * dt) (seq 0 (S (Z.to_nat ((t1 - t0) / dt)))).

(** the argument of [resample] *)
Inductive resample_arg : Type :=
| RNumber (n : Z)
| RInterval (x : tlike).

(** time.py 585-658 [resample] *)
Definition time_resample (self : time) (a : resample_arg) : res time :=
  if (length (vals self) <=? 1)%nat then Err RuntimeError
  else
    bind (as_timedelta_index self) (fun tdi =>
    let t0 := zmin_list tdi (hd 0 tdi) in
    let t1 := zmax_list tdi (hd 0 tdi) in
    bind
      (match a with
       | RNumber n => if n <? 2 then Err ValueError else Ok (range_periods t0 t1 (Z.to_nat n))
       | RInterval x =>
           bind (mk_time x None) (fun d =>
           bind (as_timedelta d) (fun p =>
             match p with
             | PDelta freq => if freq <=? 0 then Err ValueError else Ok (range_freq t0 t1 freq)
             | PDeltas _ => Err ValueError (* truth value of an array *)
             | _ => Err TypeError
             end))
       end)
      (fun new =>
         let new := if last new t1 =? t1 then new else new ++ [t1] in
         bind (reference_time self) (fun ref => mk_time (LPandas (PDeltas new)) ref))).

(** Programs over the public operations, for statements about everything that can
    be computed with [Time] objects. *)
Inductive texpr : Type :=
| TNew (x : tlike_e) (ref : option Z)
| TAdd (e : texpr) (x : tlike_e)
| TSub (e : texpr) (x : tlike_e)
| TRsub (e : texpr) (x : tlike_e)
| TItem (e : texpr) (idx : list nat)
| TUnion (x : tlike_e) (xs : tlikes_e)
| TResampleN (e : texpr) (n : Z)
| TResampleI (e : texpr) (x : tlike_e)
| TSetRef (e : texpr) (r : Z)
with tlike_e : Type :=
| XPandas (p : ptime)
| XQuantity (l : list Z) (ref : option Z)
| XTime (e : texpr)
with tlikes_e : Type :=
| XNil
| XCons (x : tlike_e) (r : tlikes_e).

Fixpoint teval (e : texpr) : res time :=
  match e with
  | TNew x ref => bind (xeval x) (fun v => mk_time v ref)
  | TAdd e x => bind (teval e) (fun t => bind (xeval x) (fun v => time_add t v))
  | TSub e x => bind (teval e) (fun t => bind (xeval x) (fun v => time_sub t v))
  | TRsub e x => bind (teval e) (fun t => bind (xeval x) (fun v => time_rsub t v))
  | TItem e idx => bind (teval e) (fun t => time_getitem t idx)
  | TUnion x xs => bind (xeval x) (fun v => bind (xseval xs) (fun vs => time_union (v :: vs)))
  | TResampleN e n => bind (teval e) (fun t => time_resample t (RNumber n))
  | TResampleI e x => bind (teval e) (fun t => bind (xeval x) (fun v => time_resample t (RInterval v)))
  | TSetRef e r => bind (teval e) (fun t => Ok (set_reference_time t r))
  end
with xeval (x : tlike_e) : res tlike :=
  match x with
  | XPandas p => Ok (LPandas p)
  | XQuantity l ref => Ok (LQuantity l ref)
  | XTime e => bind (teval e) (fun t => Ok (LTime t))
  end
with xseval (xs : tlikes_e) : res (list tlike) :=
  match xs with
  | XNil => Ok []
  | XCons x r => bind (xeval x) (fun v => bind (xseval r) (fun vs => Ok (v :: vs)))
  end.
