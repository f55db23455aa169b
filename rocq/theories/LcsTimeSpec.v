(** Motions: what a time dependent coordinate system means, independent of the
    algorithms. *)
From Coq Require Import Reals List ZArith Sorting.Sorted.
From Verif Require Import Base RigidModel RigidSpec InterpModel InterpSpec LinModel LcsTimeModel.
Import ListNotations.
Open Scope Z_scope.

(** all elements of a data array *)
Definition elements {A : Type} (x : arr A) (a : A) : Prop :=
  match x with Const b => a = b | Ser s => exists t, In (t, a) s end.

(** what is required of the spherical interpolation *)
Record slerp_ok (sl : segment mat) : Prop := {
  so_exact : exact_seg sl;
  so_orth : forall t0 t1 a b t, t0 < t1 -> t0 <= t <= t1 ->
              orthonormal a -> orthonormal b -> orthonormal (sl t0 t1 a b t);
  so_shift : forall k t0 t1 a b t, sl (t0 + k) (t1 + k) a b (t + k) = sl t0 t1 a b t
}.

(** a coordinate system as the constructor builds it: increasing times, the same
    axis for orientation and coordinates, orthonormal matrices *)
Record valid_t (l : tlcs) : Prop := {
  vt_ori : arr_ok (tl_ori l);
  vt_pos : match tl_pos l with CArr x => arr_ok x | CExpr _ => True end;
  vt_orth : forall m, elements (tl_ori l) m -> orthonormal m;
  vt_axis : match tl_ori l, tl_pos l with
            | Ser s, CArr (Ser s') => map fst s = map fst s'
            | _, _ => True
            end;
  vt_at : has_axis l = true -> tl_at l = None;
  vt_ref : is_time_dependent l = false -> tl_at l = None -> tl_ref l = None
}.

(** [x] is the pose at the time [t] of the system, [t] relative to its reference
    time if it has one *)
Definition pose_at (sl : segment mat) (l : tlcs) (t : Z) (x : lcs) : Prop :=
  arr_at sl (tl_ori l) t (l_ori x) /\
  match tl_pos l with
  | CArr p => arr_at lin_vec p t (l_pos x)
  | CExpr f => l_pos x = f t
  end.

(** the time of a system that belongs to the time [t] relative to [ref] *)
Definition local_time (l : tlcs) (ref : option Z) (t : Z) : Z :=
  match tl_ref l, ref with
  | Some a, Some b => t + b - a
  | _, _ => t
  end.

(** the pose at an absolute moment *)
Definition pose_abs (sl : segment mat) (l : tlcs) (moment : Z) (x : lcs) : Prop :=
  exists r, tl_ref l = Some r /\ pose_at sl l (moment - r) x.

(** [t] belongs to the time axis; a system without time is valid at all times *)
Definition on_axis (l : tlcs) (t : Z) : Prop :=
  match lcs_axis l with Some ts => In t ts | None => True end.

Definition reset_all (l : tlcs) (refs : list Z) : tlcs := fold_left reset_reference_time refs l.
