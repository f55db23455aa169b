(** The constructor of [LocalCoordinateSystem] (weldx/transformations/local_cs.py 40-121
    and 269-410) with its inputs and times, on top of [TimeModel] and [TsModel].

    Orientations and positions are of any types [A] and [B]; units of type [U]. [norm]
    checks and normalises an orientation (349-374), [interp_o] and [interp_c] give the
    values at other times. Labels of the dimensions besides time are taken to be
    correct, data arrays have no scalar coordinate "time". *)
From Coq Require Import List ZArith Bool.
From Verif Require Import Base TimeModel TsModel.
Import ListNotations.
Open Scope Z_scope.

Inductive plain (A : Type) : Type := One (a : A) | Many (l : list A).
Arguments One {A}. Arguments Many {A}.
(** a data array: without time, with time deltas, with dates *)
Inductive xin (A : Type) : Type :=
| IStatic (a : A)
| IDeltas (d : darr A)
| IDates (d : darr A).
Arguments IStatic {A}. Arguments IDeltas {A}. Arguments IDates {A}.
(** a data array with time deltas or without time *)
Inductive xarr (A : Type) : Type := XStatic (a : A) | XSer (d : darr A).
Arguments XStatic {A}. Arguments XSer {A}.

Inductive ori_in (A : Type) : Type := ONone | OPlain (x : plain A) | OArr (x : xin A).
Arguments ONone {A}. Arguments OPlain {A}. Arguments OArr {A}.
(** Plain data and data arrays without unit have the unit [None]. Of a discrete time
    series [cols] is [shape[1]], if there is one. *)
Inductive crd_in (B U : Type) : Type :=
| CNone
| CPlain (u : option U) (x : plain B)
| CArr (u : option U) (x : xin B)
| CDisc (u : U) (cols : option nat) (d : darr B)
| CExpr (u : U).
Arguments CNone {B U}. Arguments CPlain {B U}. Arguments CArr {B U}. Arguments CDisc {B U}. Arguments CExpr {B U}.

Inductive pos (B : Type) : Type := PArr (x : xarr B) | PExpr.
Arguments PArr {B}. Arguments PExpr {B}.

Inductive warning : Type := TimeDropped | ReferenceDropped.

Definition is_series {A : Type} (x : xarr A) : bool := match x with XSer _ => true | XStatic _ => false end.

(** [WeldxAccessor.time_ref_restore], util/xarray.py 799-812 *)
Definition restore {A : Type} (x : xin A) : res (xarr A) :=
  match x with
  | IStatic a => Ok (XStatic a)
  | IDeltas d => Ok (XSer d)
  | IDates d =>
      match a_ref d, a_times d with
      | Some r, ts => Ok (XSer (Da (map (fun t => t - r) ts) (Some r) (a_vals d)))
      | None, t0 :: _ => Ok (XSer (Da (map (fun t => t - t0) (a_times d)) (Some t0) (a_vals d)))
      | None, [] => Err IndexError
      end
  end.
(** [xr_3d_matrix] and [xr_3d_vector], util/xarray.py 577-663 *)
Definition from_plain {A : Type} (x : plain A) (t : option time) : res (xarr A) :=
  match x, t with
  | One a, _ => Ok (XStatic a)
  | Many _, None => Err ValueError
  | Many l, Some t => bind (create_data_array l t) (fun d => Ok (XSer d))
  end.

Section New.
  Context {A B U : Type} (eye : A) (zero : B) (is_length : U -> bool) (norm : A -> res A).
  Context (interp_o : list Z -> list A -> list Z -> res (list A)) (interp_c : list Z -> list B -> list Z -> res (list B)).

  (** [_build_time], 332-346 *)
  Definition build_time (c : crd_in B U) (t : option tlike) (ref : option Z) : res (option time) :=
    match t with
    | Some x => bind (mk_time x ref) (fun t => Ok (Some t))
    | None =>
        match c, ref with
        | CDisc _ _ d, _ =>
            bind (d_time d) (fun t =>
            match t with None => Ok None | Some t => bind (mk_time (LTime t) ref) (fun t => Ok (Some t)) end)
        | _, Some r => bind (mk_time (LPandas (PStamp r)) ref) (fun t => Ok (Some t))
        | _, None => Ok None
        end
    end.

  (** [_build_orientation], 269-288 *)
  Definition build_orientation (o : ori_in A) (t : option time) : res (xarr A) :=
    match o with
    | ONone => from_plain (One eye) t
    | OPlain x => from_plain x t
    | OArr x => restore x
    end.

  (** [_coords_from_discrete_time_series], 388-402 *)
  Definition from_series (cols : option nat) (d : darr B) : res (xarr B) :=
    match cols with
    | None => Err IndexError
    | Some n =>
        if Nat.eqb n 3 then
          match a_vals d with [b] => Ok (XStatic b) | _ => Ok (XSer d) end
        else Err ValueError
    end.
  Definition check_unit (u : option U) : res unit :=
    match u with
    | Some u => if is_length u then Ok tt else Err DimensionalityError
    | None => Err DimensionalityError
    end.
  (** [_build_coordinates], 290-329 *)
  Definition build_coordinates (c : crd_in B U) (t : option time) : res (pos B) :=
    match c with
    | CExpr u => bind (check_unit (Some u)) (fun _ => Ok PExpr)
    | CDisc u cols d => bind (from_series cols d) (fun x => bind (check_unit (Some u)) (fun _ => Ok (PArr x)))
    | CNone => bind (from_plain (One zero) t) (fun x => Ok (PArr x))
    | CPlain u x => bind (from_plain x t) (fun x => bind (check_unit u) (fun _ => Ok (PArr x)))
    | CArr u x => bind (check_unit u) (fun _ => bind (restore x) (fun x => Ok (PArr x)))
    end.

  (** 82-93: the warning about dropped times *)
  Definition time_warning (t : option tlike) (o : xarr A) (c : pos B) : res (list warning) :=
    match t with
    | None => Ok []
    | Some x =>
        bind (mk_time x None) (fun t =>
        Ok (if Nat.ltb 1 (length (vals t)) && negb (is_series o) &&
               match c with PExpr => true | PArr c => negb (is_series c) end
            then [TimeDropped] else []))
    end.

  Fixpoint norm_all (l : list A) : res (list A) :=
    match l with
    | [] => Ok []
    | a :: r => bind (norm a) (fun a => bind (norm_all r) (fun r => Ok (a :: r)))
    end.
  Definition norm_orientation (o : xarr A) : res (xarr A) :=
    match o with
    | XStatic a => bind (norm a) (fun a => Ok (XStatic a))
    | XSer d => bind (norm_all (a_vals d)) (fun l => Ok (XSer (Da (a_times d) (a_ref d) l)))
    end.

  Fixpoint same_times (a b : list Z) : bool :=
    match a, b with
    | [], [] => true
    | x :: a, y :: b => (x =? y) && same_times a b
    | _, _ => false
    end.
  Definition relative (ts : list Z) (ref : option Z) : list Z :=
    match ref with None => ts | Some r => map (fun t => t - r) ts end.
  (** the end of [xr_interp_orientation_in_time] and [xr_interp_coordinates_in_time],
      util/xarray.py 704-712 and 739-747 *)
  Definition interpolated {X : Type} (d : darr X) (ts : list Z) (l : list X) : xarr X :=
    match l with [x] => XStatic x | _ => XSer (Da (relative ts (a_ref d)) (a_ref d) l) end.
  (** [_unify_time_axis], 404-419 *)
  Definition unify (o : xarr A) (c : pos B) : res (xarr A * pos B) :=
    match o, c with
    | XSer od, PArr (XSer cd) =>
        if same_times (a_times od) (a_times cd) then Ok (o, c)
        else
          bind (time_union [LQuantity (a_times od) (a_ref od); LQuantity (a_times cd) (a_ref cd)]) (fun u =>
          bind (match a_vals od with
                | [a] => Ok (XStatic a)
                | _ => bind (interp_o (time_ref_unset (a_times od) (a_ref od)) (a_vals od) (vals u)) (fun l =>
                       Ok (interpolated od (vals u) l))
                end) (fun o =>
          bind (interp_c (time_ref_unset (a_times cd) (a_ref cd)) (a_vals cd) (vals u)) (fun l =>
          Ok (o, PArr (interpolated cd (vals u) l)))))
    | _, _ => Ok (o, c)
    end.

  (** The system: time deltas and [time_ref] of the dataset, the values, [_time_ref]. *)
  Inductive pvals : Type := VArr (x : plain B) | VExpr.
  Record sys : Type := Sys { y_axis : option (list Z * option Z); y_ori : plain A; y_pos : pvals; y_ref : option Z }.
  Definition values {X : Type} (x : xarr X) : plain X :=
    match x with XStatic a => One a | XSer d => Many (a_vals d) end.
  Definition axis {X : Type} (x : xarr X) : option (list Z * option Z) :=
    match x with XStatic _ => None | XSer d => Some (a_times d, a_ref d) end.
  (** [xr.merge(dataset_items, join="exact")], 109: the labels have to be the same, the
      attributes of the first array are kept *)
  Definition merge (o : xarr A) (c : pos B) : res (option (list Z * option Z)) :=
    match c with
    | PExpr => Ok (axis o)
    | PArr c =>
        match axis o, axis c with
        | Some a, Some b => if same_times (fst a) (fst b) then Ok (Some a) else Err ValueError
        | Some a, None => Ok (Some a)
        | None, b => Ok b
        end
    end.
  (** the setter [WeldxAccessor.time_ref], util/xarray.py 830-849 *)
  Definition set_ref (a : list Z * option Z) (r : Z) : list Z * option Z :=
    match snd a with
    | Some r0 => (map (fun t => t - (r - r0)) (fst a), Some r)
    | None => (fst a, Some r)
    end.

  (** [__init__], 40-121 *)
  Definition new (o : ori_in A) (c : crd_in B U) (t : option tlike) (ref : option Z) (checks : bool)
    : res (sys * list warning) :=
    bind (build_time c t ref) (fun tc =>
    bind (build_orientation o tc) (fun o =>
    bind (build_coordinates c tc) (fun c =>
    bind (time_warning t o c) (fun w1 =>
    bind (if checks then norm_orientation o else Ok o) (fun o =>
    bind (unify o c) (fun oc =>
    bind (merge (fst oc) (snd oc)) (fun a =>
    bind (match tc with Some t => reference_time t | None => Ok None end) (fun r =>
    let a := match a, r with Some a, Some r => Some (set_ref a r) | _, _ => a end in
    let w2 := match ref, t, r with Some _, None, None => [ReferenceDropped] | _, _, _ => [] end in
    Ok (Sys a (values (fst oc)) (match snd oc with PArr x => VArr (values x) | PExpr => VExpr end) r, w1 ++ w2))))))))).

  (** [reference_time], 600-611 *)
  Definition system_ref (y : sys) : option Z :=
    match y_pos y with
    | VExpr => y_ref y
    | VArr _ => match y_axis y with Some a => snd a | None => None end
    end.
  (** [time], 613-625 *)
  Definition system_time (y : sys) : res (option time) :=
    match y_axis y with
    | None => Ok None
    | Some a => bind (mk_time (LQuantity (fst a) (snd a)) (system_ref y)) (fun t => Ok (Some t))
    end.
End New.
