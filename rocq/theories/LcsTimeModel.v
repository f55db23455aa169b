(** Time dependent [LocalCoordinateSystem] (weldx/transformations/local_cs.py).

    Simplifications: exact real numbers, one time axis per system (the
    constructor unifies the axes of orientation and coordinates, 395-410), the
    expression of a [TimeSeries] is a function of the time delta and has no
    reference time of its own, attributes and units are not modelled. The
    spherical interpolation of scipy ([Slerp]) is the parameter [sl]. *)
From Coq Require Import Reals List ZArith Bool.
From Verif Require Import Base RigidModel InterpModel LinModel.
Import ListNotations.
Open Scope Z_scope.

(** coordinates: a data array or a [TimeSeries] with an expression *)
Inductive coords : Type :=
| CArr (x : arr vec)
| CExpr (f : Z -> vec).

(** A coordinate system. [tl_at] is a scalar coordinate "time" of the dataset: it
    remains if the time dimension is removed by [isel(time=0)]. [tl_ref] is the
    property [reference_time], 600-611. Times are relative to [tl_ref] if there is
    one. *)
Record tlcs : Type := TL {
  tl_ori : arr mat;
  tl_pos : coords;
  tl_at : option Z;
  tl_ref : option Z
}.

(** a [Time] as time deltas and reference time *)
Record rtime : Type := RT { r_times : list Z; r_ref : option Z }.

Definition is_ser {A : Type} (x : arr A) : bool :=
  match x with Ser _ => true | Const _ => false end.
Definition is_some {A : Type} (o : option A) : bool :=
  match o with Some _ => true | None => false end.
Definition is_expr (l : tlcs) : bool := match tl_pos l with CExpr _ => true | CArr _ => false end.

(** "time" in [_dataset.dims] *)
Definition has_axis (l : tlcs) : bool :=
  is_ser (tl_ori l) || match tl_pos l with CArr x => is_ser x | CExpr _ => false end.
(** [is_time_dependent], 570-579 *)
Definition is_time_dependent (l : tlcs) : bool := is_expr l || has_axis l.

(** [time], 613-625 *)
Definition lcs_axis (l : tlcs) : option (list Z) :=
  match tl_ori l, tl_pos l with
  | Ser s, _ => Some (map fst s)
  | Const _, CArr (Ser s) => Some (map fst s)
  | _, _ => match tl_at l with Some t => Some [t] | None => None end
  end.
Definition lcs_time (l : tlcs) : option rtime :=
  match lcs_axis l with Some ts => Some (RT ts (tl_ref l)) | None => None end.

(** element by element operations of xarray; the axes have to be the same *)
Definition map_ser {A B : Type} (f : A -> B) (s : samples A) : samples B :=
  map (fun p => (fst p, f (snd p))) s.
Definition amap {A B : Type} (f : A -> B) (x : arr A) : arr B :=
  match x with Const a => Const (f a) | Ser s => Ser (map_ser f s) end.
Fixpoint zip_ser {A B C : Type} (f : A -> B -> C) (x : samples A) (y : samples B) : res (samples C) :=
  match x, y with
  | [], [] => Ok []
  | (t, a) :: x', (u, b) :: y' =>
      if t =? u then bind (zip_ser f x' y') (fun r => Ok ((t, f a b) :: r)) else Err ValueError
  | _, _ => Err ValueError
  end.
Definition amap2 {A B C : Type} (f : A -> B -> C) (x : arr A) (y : arr B) : res (arr C) :=
  match x, y with
  | Const a, _ => Ok (amap (f a) y)
  | Ser s, Const b => Ok (Ser (map_ser (fun a => f a b) s))
  | Ser s, Ser s' => bind (zip_ser f s s') (fun r => Ok (Ser r))
  end.
(** functions that may raise, applied to all elements *)
Fixpoint res_ser {A B : Type} (f : A -> res B) (s : samples A) : res (samples B) :=
  match s with
  | [] => Ok []
  | (t, a) :: r => bind (f a) (fun b => bind (res_ser f r) (fun w => Ok ((t, b) :: w)))
  end.
Definition ares {A B : Type} (f : A -> res B) (x : arr A) : res (arr B) :=
  match x with
  | Const a => bind (f a) (fun b => Ok (Const b))
  | Ser s => bind (res_ser f s) (fun r => Ok (Ser r))
  end.

Fixpoint same_times (a b : list Z) : bool :=
  match a, b with
  | [], [] => true
  | x :: a', y :: b' => (x =? y) && same_times a' b'
  | _, _ => false
  end.

Definition shift_ser {A : Type} (k : Z) (s : samples A) : samples A :=
  map (fun p => (fst p + k, snd p)) s.
Definition shift_arr {A : Type} (k : Z) (x : arr A) : arr A :=
  match x with Const a => Const a | Ser s => Ser (shift_ser k s) end.
Definition shift_pos (k : Z) (p : coords) : coords :=
  match p with CArr x => CArr (shift_arr k x) | CExpr f => CExpr f end.

Section Oracle.
  Context (sl : segment mat).

  (** [_unify_time_axis], 395-410 *)
  Definition unify (o : arr mat) (p : coords) : res (arr mat * coords) :=
    match o, p with
    | Ser so, CArr (Ser sp) =>
        if same_times (map fst so) (map fst sp) then Ok (o, p)
        else
          let u := union_times (map fst so) (map fst sp) in
          bind (interp_orientation sl lin_mat o u) (fun o' =>
          bind (interp_coordinates lin_vec (Ser sp) u) (fun p' => Ok (o', CArr p')))
    | _, _ => Ok (o, p)
    end.

  (** [__init__], 40-121, for data arrays whose times are relative to [ref] already.
      Without time axis and scalar time there is no reference time (611). *)
  Definition mk_tlcs (o : arr mat) (p : coords) (at_ : option Z) (ref : option Z) : res tlcs :=
    bind (ares check_orientation o) (fun o' =>
    bind (unify o' p) (fun op =>
      let l := TL (fst op) (snd op) at_ ref in
      Ok (TL (fst op) (snd op) (if has_axis l then None else at_)
             (if is_time_dependent l || is_some at_ then ref else None)))).

  (** [reset_reference_time], 867-882, and the setter [WeldxAccessor.time_ref],
      util/xarray.py 830-848. The expression of a [TimeSeries] is not touched. *)
  Definition reset_reference_time (l : tlcs) (new : Z) : tlcs :=
    let k := match tl_ref l with Some old => old - new | None => 0 end in
    TL (shift_arr k (tl_ori l)) (shift_pos k (tl_pos l))
       (match tl_at l with Some t => Some (t + k) | None => None end)
       (if is_time_dependent l || is_some (tl_at l) then Some new else None).

  (** The edge cases of [_interp_time_orientation] and [_interp_time_coordinates],
      693-728: no overlap of the requested times with the data. *)
  Definition edge_case {A : Type} (s : samples A) (req : list Z) : option A :=
    match s, req with
    | (t0, a) :: _, t :: _ =>
        if last req t <=? t0 then Some a
        else if last_time s t0 <=? hd t req then
               match rev s with (_, b) :: _ => Some b | [] => None end
             else None
    | _, _ => None
    end.

  (** the scalar time that remains if the time dimension of [r] was removed by
      [isel(time=0)] *)
  Definition left_over {A : Type} (t : option Z) (r : arr A) : option Z :=
    match r with Ser _ => None | Const _ => t end.

  (** [_interp_time_orientation], 693-703, and the scalar time that remains: the
      requested time, or the time of a single sample (util/xarray.py 683-684) *)
  Definition interp_ori (x : arr mat) (req : list Z) : res (arr mat * option Z) :=
    match x with
    | Const _ => Ok (x, None)
    | Ser s =>
        match edge_case s req with
        | Some a => Ok (Const a, None)
        | None => bind (interp_orientation sl lin_mat x req) (fun r =>
                    Ok (r, left_over (match s with [(t, _)] => Some t | _ => hd_error req end) r))
        end
    end.

  (** [_interp_time_coordinates], 705-728 *)
  Definition interp_pos (p : coords) (req : list Z) : res (arr vec * option Z) :=
    match p with
    | CExpr f =>
        match req with
        | [t] => Ok (Const (f t), None)
        | _ => Ok (Ser (map (fun t => (t, f t)) req), None)
        end
    | CArr (Const a) => Ok (Const a, None)
    | CArr (Ser s) =>
        match edge_case s req with
        | Some a => Ok (Const a, None)
        | None => bind (interp_coordinates lin_vec (Ser s) req) (fun r => Ok (r, left_over (hd_error req) r))
        end
    end.

  (** [interp_time], 730-772. The interpolation happens in times relative to the
      reference time of the system; the result is converted to the requested
      reference time by the constructor (93-95). A single remaining value keeps
      the time of the system as scalar coordinate. *)
  Definition interp_time (l : tlcs) (time : option rtime) : res tlcs :=
    match time with
    | None => Ok l
    | Some rt =>
        if negb (is_time_dependent l) then Ok l
        else if negb (Bool.eqb (is_some (tl_ref l)) (is_some (r_ref rt))) then Err TypeError
        else
          let k := match tl_ref l, r_ref rt with Some a, Some b => b - a | _, _ => 0 end in
          let req := map (fun t => t + k) (r_times rt) in
          bind (interp_ori (tl_ori l) req) (fun o =>
          bind (interp_pos (tl_pos l) req) (fun p =>
            if is_ser (fst o) || is_ser (fst p)
            then mk_tlcs (shift_arr (- k) (fst o)) (CArr (shift_arr (- k) (fst p))) None (r_ref rt)
            else mk_tlcs (fst o) (CArr (fst p))
                         (match snd o with Some t => Some t | None => snd p end) (tl_ref l)))
    end.

  (** a scalar coordinate is kept if it does not differ *)
  Definition merge_at (a b : option Z) : option Z :=
    match a, b with
    | Some x, Some y => if x =? y then Some x else None
    | Some x, None => Some x
    | None, y => y
    end.

  (** [__add__], 130-211 *)
  Definition tlcs_add (lhs rhs : tlcs) : res tlcs :=
    if is_expr lhs || is_expr rhs then Err WeldxException
    else
      let '(lhs, rhs, time_ref) :=
        match tl_ref lhs, tl_ref rhs with
        | Some a, Some b =>
            if a =? b then (lhs, rhs, Some a)
            else if a <? b then (lhs, reset_reference_time rhs a, Some a)
            else (reset_reference_time lhs b, rhs, Some b)
        | None, r => (lhs, rhs, r)
        | l, _ => (lhs, rhs, l)
        end in
      let time := match lcs_axis lhs with Some ts => Some (RT ts time_ref) | None => None end in
      bind (interp_time rhs time) (fun rhs =>
      match tl_pos lhs, tl_pos rhs with
      | CArr pl, CArr pr =>
          bind (amap2 mmul (tl_ori rhs) (tl_ori lhs)) (fun o =>
          bind (amap2 mvec (tl_ori rhs) pl) (fun q =>
          bind (amap2 vadd q pr) (fun p =>
            mk_tlcs o (CArr p) (merge_at (tl_at lhs) (tl_at rhs)) time_ref)))
      | _, _ => Err WeldxException
      end).

  (** [invert], 774-801 *)
  Definition tlcs_invert (l : tlcs) : res tlcs :=
    match tl_pos l with
    | CExpr _ => Err WeldxException
    | CArr p =>
        bind (amap2 (fun o v => mvec (mtrans o) (vscale (-1) v)) (tl_ori l) p) (fun q =>
          mk_tlcs (amap mtrans (tl_ori l)) (CArr q) (tl_at l) (tl_ref l))
    end.

  (** [__sub__], 213-247 *)
  Definition tlcs_sub (lhs rhs : tlcs) : res tlcs :=
    bind (tlcs_invert rhs) (fun i => tlcs_add lhs i).
End Oracle.
