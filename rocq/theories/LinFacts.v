(** Properties of linear interpolation between two samples. *)
From Coq Require Import Reals ZArith Lia Lra.
From Verif Require Import Base RigidModel InterpModel InterpSpec LinModel.
Open Scope R_scope.

Lemma span_pos : forall t0 t1 : Z, (t0 < t1)%Z -> 0 < IZR (t1 - t0).
Proof. intros t0 t1 H. apply IZR_lt. lia. Qed.

Lemma lin_exact : exact_seg lin.
Proof.
  intros t0 t1 a b H. assert (P := span_pos _ _ H). unfold lin. split.
  - replace (t0 - t0)%Z with 0%Z by lia. field. lra.
  - field. lra.
Qed.

Lemma lin_const : const_seg lin.
Proof. intros t0 t1 a t H _. unfold lin. assert (P := span_pos _ _ H). field. lra. Qed.

Lemma lin_refining : refining_seg lin.
Proof.
  intros t0 t1 a b u w t H1 H2 H3 H4. unfold lin.
  assert (P1 := span_pos _ _ H2). assert (P2 : 0 < IZR (t1 - t0)) by (apply IZR_lt; lia).
  rewrite !minus_IZR in *. field. lra.
Qed.

Lemma lin_between : forall lo hi t0 t1 a b t, (t0 < t1)%Z -> (t0 <= t <= t1)%Z ->
  lo <= a <= hi -> lo <= b <= hi -> lo <= lin t0 t1 a b t <= hi.
Proof.
  intros lo hi t0 t1 a b t H Ht Ha Hb. assert (P := span_pos _ _ H).
  assert (0 <= IZR (t - t0) <= IZR (t1 - t0)) as Q by (split; [ apply (IZR_le 0); lia | apply IZR_le; lia ]).
  unfold lin. set (d := IZR (t1 - t0)) in *. set (x := IZR (t - t0)) in *.
  assert (exists k, 0 <= k <= 1 /\ x = k * d) as (k & Hk & ->).
  { exists (x / d). assert (0 <= / d) by (left; apply Rinv_0_lt_compat; assumption).
    split; [ | unfold Rdiv; rewrite Rmult_assoc, Rinv_l; lra ]. split.
    - unfold Rdiv. apply Rmult_le_pos; lra.
    - apply (Rmult_le_reg_r d); [ assumption | ]. unfold Rdiv. rewrite Rmult_assoc, Rinv_l by lra. lra. }
  replace ((b - a) / d * (k * d) + a) with ((1 - k) * a + k * b) by (field; lra).
  assert (0 <= k * (b - lo)) by (apply Rmult_le_pos; lra).
  assert (0 <= (1 - k) * (a - lo)) by (apply Rmult_le_pos; lra).
  assert (0 <= k * (hi - b)) by (apply Rmult_le_pos; lra).
  assert (0 <= (1 - k) * (hi - a)) by (apply Rmult_le_pos; lra).
  lra.
Qed.

Lemma lin_vec_exact : exact_seg lin_vec.
Proof.
  intros t0 t1 [ax ay az] [bx b_y bz] H. unfold lin_vec. cbn [vx vy vz].
  split; f_equal; apply lin_exact; assumption.
Qed.
Lemma lin_vec_const : const_seg lin_vec.
Proof. intros t0 t1 [ax ay az] t H Ht. unfold lin_vec. cbn [vx vy vz]. f_equal; apply lin_const; assumption. Qed.
Lemma lin_vec_refining : refining_seg lin_vec.
Proof.
  intros t0 t1 [ax ay az] [bx b_y bz] u w t H1 H2 H3 H4. unfold lin_vec. cbn [vx vy vz].
  f_equal; apply lin_refining; assumption.
Qed.
Lemma lin_mat_exact : exact_seg lin_mat.
Proof.
  intros t0 t1 [a1 a2 a3 a4 a5 a6 a7 a8 a9] [b1 b2 b3 b4 b5 b6 b7 b8 b9] H. unfold lin_mat.
  cbn [m00 m01 m02 m10 m11 m12 m20 m21 m22].
  split; f_equal; apply lin_exact; assumption.
Qed.
