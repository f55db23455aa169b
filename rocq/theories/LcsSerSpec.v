(** Vocabulary for C52. *)
From Coq Require Import Reals List ZArith Bool Lia Lra.
From Verif Require Import Base RigidModel RigidSpec InterpModel InterpSpec LinModel LcsTimeModel LcsTimeSpec LcsSerModel.
Import ListNotations.
Open Scope Z_scope.

(** the tolerance of numpy around zero and one *)
Definition near0 (x : R) : Prop := (Rabs x <= / 100000000)%R.
Definition near1 (x : R) : Prop := (Rabs (x - 1) <= / 100000000 + / 100000)%R.
Definition near_identity (m : mat) : Prop :=
  near1 (m00 m) /\ near0 (m01 m) /\ near0 (m02 m) /\
  near0 (m10 m) /\ near1 (m11 m) /\ near0 (m12 m) /\
  near0 (m20 m) /\ near0 (m21 m) /\ near1 (m22 m).
Definition near_zero (v : vec) : Prop := near0 (vx v) /\ near0 (vy v) /\ near0 (vz v).

(** a part of a system is written unless all its values are closer to the neutral
    value than this tolerance *)
Definition neutral_ori (l : tlcs) : Prop := forall m, elements (tl_ori l) m -> near_identity m.
Definition neutral_pos (l : tlcs) : Prop :=
  match tl_pos l with CArr x => forall v, elements x v -> near_zero v | CExpr _ => False end.
