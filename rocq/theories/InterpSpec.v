(** What interpolation has to compute, independent of the algorithm. *)
From Coq Require Import List ZArith.
From Verif Require Import Base InterpModel.
Import ListNotations.
Open Scope Z_scope.

Section Spec.
  Context {A : Type}.

  Fixpoint increasing_from (t : Z) (s : list (Z * A)) : Prop :=
    match s with
    | [] => True
    | (u, _) :: r => t < u /\ increasing_from u r
    end.
  (** non-empty with strictly increasing times *)
  Definition sampled (s : list (Z * A)) : Prop :=
    match s with
    | [] => False
    | (t, _) :: r => increasing_from t r
    end.

  (** [p] and [q] are neighbours in [s] *)
  Definition neighbours (s : list (Z * A)) (p q : Z * A) : Prop :=
    exists l r, s = l ++ p :: q :: r.

  (** [v] is the value of the samples at time [t]: the first sample before the
      data, the last sample after the data and the value given by [seg] between
      two neighbouring samples. *)
  Inductive value_at (seg : segment A) (s : list (Z * A)) (t : Z) (v : A) : Prop :=
  | va_before : forall t0 r, s = (t0, v) :: r -> t <= t0 -> value_at seg s t v
  | va_after : forall t1 l, s = l ++ [(t1, v)] -> t1 <= t -> value_at seg s t v
  | va_between : forall t0 t1 a b, neighbours s (t0, a) (t1, b) ->
      t0 <= t <= t1 -> v = seg t0 t1 a b t -> value_at seg s t v.

  (** [v] is the last sample that is not after [t], or the first one *)
  Inductive step_value (s : list (Z * A)) (t : Z) (v : A) : Prop :=
  | sv_before : forall t0 r, s = (t0, v) :: r -> t < t0 -> step_value s t v
  | sv_at : forall u, In (u, v) s -> u <= t ->
      (forall u' v', In (u', v') s -> u' <= t -> u' <= u) -> step_value s t v.

  (** the interpolation hits the samples *)
  Definition exact_seg (seg : segment A) : Prop :=
    forall t0 t1 a b, t0 < t1 -> seg t0 t1 a b t0 = a /\ seg t0 t1 a b t1 = b.
  (** it is constant between equal samples *)
  Definition const_seg (seg : segment A) : Prop :=
    forall t0 t1 a t, t0 < t1 -> t0 <= t <= t1 -> seg t0 t1 a a t = a.
  (** a part of the segment is the segment between its end points *)
  Definition refining_seg (seg : segment A) : Prop :=
    forall t0 t1 a b u w t, t0 <= u -> u < w -> w <= t1 -> u <= t <= w ->
      seg u w (seg t0 t1 a b u) (seg t0 t1 a b w) t = seg t0 t1 a b t.

  (** value of a data array at a time *)
  Definition arr_at (seg : segment A) (x : arr A) (t : Z) (v : A) : Prop :=
    match x with
    | Const a => v = a
    | Ser s => value_at seg s t v
    end.
  Definition arr_ok (x : arr A) : Prop :=
    match x with Const _ => True | Ser s => sampled s end.
End Spec.
