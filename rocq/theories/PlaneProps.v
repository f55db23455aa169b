(** C109: points and planes. *)
From Coq Require Import Reals ZArith Bool Lra Lia List.
From Verif Require Import Base GeoModel RigidModel RigidSpec PlaneModel.
Import ListNotations.
Open Scope R_scope.

Lemma vec_eq : forall a b : vec, a = b <-> vx a = vx b /\ vy a = vy b /\ vz a = vz b.
Proof. intros [] []. cbn. split; [intros E; injection E; auto|intros (-> & -> & ->); reflexivity]. Qed.
Lemma close_iff : forall x, close_to_zero x = true <-> x = 0.
Proof.
  intros x. unfold close_to_zero. rewrite Rminus_0_r, Rabs_R0.
  assert (M : Rmax (Rabs x) 0 = Rabs x) by (apply Rmax_left, Rabs_pos). rewrite M.
  pose proof (Rabs_pos x) as P. destruct (Rle_dec (Rabs x) (/ 1000000000 * Rabs x)) as [L|L].
  - split; [intros _|reflexivity]. destruct (Req_dec x 0) as [E|E]; [exact E|]. apply Rabs_pos_lt in E. lra.
  - split; [discriminate|]. intros ->. rewrite Rabs_R0 in L. lra.
Qed.
Lemma dot_zero : forall v, dot v v = 0 <-> v = vzero.
Proof.
  intros v. rewrite vec_eq. unfold dot, vzero. cbn. split.
  - intros H. pose proof (Rle_0_sqr (vx v)). pose proof (Rle_0_sqr (vy v)). pose proof (Rle_0_sqr (vz v)). unfold Rsqr in *.
    repeat split; apply Rsqr_eq_0; unfold Rsqr; lra.
  - intros (-> & -> & ->). ring.
Qed.
Lemma dot_pos : forall v, 0 <= dot v v.
Proof. intros v. unfold dot. pose proof (Rle_0_sqr (vx v)). pose proof (Rle_0_sqr (vy v)). pose proof (Rle_0_sqr (vz v)). unfold Rsqr in *. lra. Qed.
Lemma norm_zero : forall v, norm v = 0 <-> v = vzero.
Proof.
  intros v. rewrite <- dot_zero. unfold norm. split; [apply sqrt_eq_0, dot_pos|]. intros ->. apply sqrt_0.
Qed.
Lemma sub_zero : forall a b, vsub a b = vzero <-> a = b.
Proof. intros a b. rewrite !vec_eq. unfold vsub, vadd, vscale, vzero. cbn. split; intros (H1 & H2 & H3); repeat split; lra. Qed.
Lemma det_rows : forall a b p, mdet (mtrans (of_cols a b p)) = dot (cross a b) p.
Proof. intros [] [] []. unfold mdet, mtrans, of_cols, dot, cross, col0, col1, col2. cbn. ring. Qed.
Lemma sign_iff : forall x, (rsign x = 1%Z <-> 0 < x) /\ (rsign x = (-1)%Z <-> x < 0) /\ (rsign x = 0%Z <-> x = 0).
Proof.
  intros x. unfold rsign, rlt. destruct (Rlt_dec 0 x); [|destruct (Rlt_dec x 0)]; repeat split; intros; try lra; try discriminate; reflexivity.
Qed.
Lemma side_value : forall p a b c, a <> b -> a <> c -> b <> c ->
  side p a b c = Ok (rsign (dot (cross (vsub b a) (vsub c a)) (vsub p a))).
Proof.
  intros p a b c AB AC BC. unfold side, side_origin. rewrite det_rows.
  destruct (close_to_zero (norm (vsub b a))) eqn:E1; [rewrite close_iff, norm_zero, sub_zero in E1; congruence|].
  destruct (close_to_zero (norm (vsub c a))) eqn:E2; [rewrite close_iff, norm_zero, sub_zero in E2; congruence|].
  destruct (close_to_zero (norm (vsub (vsub c a) (vsub b a)))) eqn:E3; [|reflexivity].
  rewrite close_iff, norm_zero, sub_zero, vec_eq in E3. destruct BC. apply vec_eq.
  unfold vsub, vadd, vscale in E3. cbn in E3. destruct E3 as (H1 & H2 & H3). repeat split; lra.
Qed.

(** Points that are not distinct are refused, nothing else. *)
Theorem c109_accepts : forall p a b c,
  ((a = b \/ a = c \/ b = c) -> side p a b c = Err ValueError) /\
  (~ (a = b \/ a = c \/ b = c) -> exists s, side p a b c = Ok s /\ (s = 1 \/ s = -1 \/ s = 0)%Z).
Proof.
  intros p a b c. split.
  - intros H. unfold side, side_origin.
    assert (Z : forall u v, u = v -> close_to_zero (norm (vsub v u)) = true) by (intros u v ->; apply close_iff, norm_zero, sub_zero; reflexivity).
    destruct H as [H|[H|H]]; [rewrite (Z a b H); reflexivity|rewrite (Z a c H), orb_true_r; reflexivity|].
    subst c. rewrite (proj2 (close_iff (norm (vsub (vsub b a) (vsub b a))))), orb_true_r; [reflexivity|]. apply norm_zero, sub_zero. reflexivity.
  - intros H. rewrite side_value by tauto. eexists. split; [reflexivity|].
    unfold rsign. destruct (rlt _ _); [auto|destruct (rlt _ _); auto].
Qed.
Print Assumptions c109_accepts.

(** Every point is a point of the plane plus a multiple of the normal vector; the result is
    the sign of this multiple. *)
Theorem c109_side : forall p a b c, let n := cross (vsub b a) (vsub c a) in n <> vzero ->
  exists u v k, p = vadd (vadd a (vadd (vscale u (vsub b a)) (vscale v (vsub c a)))) (vscale k n) /\
    side p a b c = Ok (rsign k) /\
    (forall u' v' k', p = vadd (vadd a (vadd (vscale u' (vsub b a)) (vscale v' (vsub c a)))) (vscale k' n) -> k' = k).
Proof.
  intros p a b c n N. assert (NN : dot n n <> 0) by (rewrite dot_zero; exact N).
  assert (DD : a <> b /\ a <> c /\ b <> c).
  { repeat split; intros ->; apply N; apply vec_eq; unfold n, cross, vsub, vadd, vscale, vzero; cbn; repeat split; ring. }
  set (w := vsub p a).
  exists (dot (cross w (vsub c a)) n / dot n n), (dot (cross (vsub b a) w) n / dot n n), (dot n w / dot n n). split; [|split].
  - apply vec_eq. cbn.
    assert (K : forall x y, x * dot n n = y * dot n n -> x = y) by (intros x y H; apply (Rmult_eq_reg_r (dot n n)); assumption).
    unfold vadd, vscale. cbn. repeat split; apply K; field_simplify; try exact NN; unfold n, w, dot, cross, vsub, vadd, vscale; cbn; ring.
  - rewrite side_value by tauto. fold n w. f_equal. pose proof (dot_pos n) as P. assert (0 < dot n n) as P' by lra.
    destruct (sign_iff (dot n w)) as (S1 & S2 & S3). destruct (sign_iff (dot n w / dot n n)) as (T1 & T2 & T3).
    destruct (Rtotal_order (dot n w) 0) as [Q|[Q|Q]].
    + rewrite (proj2 S2 Q), (proj2 T2); [reflexivity|]. unfold Rdiv. rewrite <- (Rmult_0_l (/ dot n n)). apply Rmult_lt_compat_r; [apply Rinv_0_lt_compat; exact P'|exact Q].
    + rewrite (proj2 S3 Q), (proj2 T3); [reflexivity|]. rewrite Q. unfold Rdiv. ring.
    + rewrite (proj2 S1 Q), (proj2 T1); [reflexivity|]. unfold Rdiv. apply Rmult_lt_0_compat; [exact Q|apply Rinv_0_lt_compat; exact P'].
  - intros u' v' k' E. assert (dot n w = k' * dot n n) as ->; [|field; exact NN].
    unfold w. rewrite E. unfold n, dot, cross, vsub, vadd, vscale. cbn. ring.
Qed.
Print Assumptions c109_side.

(** The order of the points *)
Theorem c109_order : forall p a b c s, side p a b c = Ok s ->
  side p b c a = Ok s /\ side p a c b = Ok (- s)%Z.
Proof.
  intros p a b c s H.
  assert (D : a <> b /\ a <> c /\ b <> c).
  { repeat split; intros E; rewrite (proj1 (c109_accepts p a b c)) in H by auto; discriminate. }
  destruct D as (AB & AC & BC). rewrite side_value in H by assumption. rewrite !side_value by auto. injection H as <-.
  split; f_equal.
  - f_equal. unfold dot, cross, vsub, vadd, vscale. cbn. ring.
  - replace (dot (cross (vsub c a) (vsub b a)) (vsub p a)) with (- dot (cross (vsub b a) (vsub c a)) (vsub p a))
      by (unfold dot, cross, vsub, vadd, vscale; cbn; ring).
    set (x := dot (cross (vsub b a) (vsub c a)) (vsub p a)).
    destruct (sign_iff x) as (S1 & S2 & S3). destruct (sign_iff (- x)) as (T1 & T2 & T3).
    destruct (Rtotal_order x 0) as [Q|[Q|Q]].
    + rewrite (proj2 S2 Q), (proj2 T1); [reflexivity|lra].
    + rewrite (proj2 S3 Q), (proj2 T3); [reflexivity|lra].
    + rewrite (proj2 S1 Q), (proj2 T2); [reflexivity|lra].
Qed.
Print Assumptions c109_order.

(** Invertible affine maps keep the side, or exchange both sides if they contain a reflection. *)
Theorem c109_affine : forall m t p a b c s, mdet m <> 0 -> side p a b c = Ok s ->
  let f v := vadd (mvec m v) t in
  side (f p) (f a) (f b) (f c) = Ok (rsign (mdet m) * s)%Z.
Proof.
  intros m t p a b c s DM H f.
  assert (D : a <> b /\ a <> c /\ b <> c).
  { repeat split; intros E; rewrite (proj1 (c109_accepts p a b c)) in H by auto; discriminate. }
  destruct D as (AB & AC & BC).
  assert (INJ : forall u v, u <> v -> f u <> f v).
  { intros u v N E. apply N. apply vec_eq in E. unfold f, vadd, mvec in E. cbn in E. destruct E as (E1 & E2 & E3).
    assert (K : forall x y, mdet m * (x - y) = 0 -> x = y).
    { intros x y Q. apply Rmult_integral in Q. destruct Q; [contradiction|lra]. }
    set (dx := vx u - vx v). set (dy := vy u - vy v). set (dz := vz u - vz v).
    assert (F1 : m00 m * dx + m01 m * dy + m02 m * dz = 0) by (unfold dx, dy, dz; lra).
    assert (F2 : m10 m * dx + m11 m * dy + m12 m * dz = 0) by (unfold dx, dy, dz; lra).
    assert (F3 : m20 m * dx + m21 m * dy + m22 m * dz = 0) by (unfold dx, dy, dz; lra).
    apply vec_eq. repeat split; apply K; fold dx dy dz; unfold mdet, dot, cross, col0, col1, col2; cbn.
    - transitivity ((m11 m * m22 m - m12 m * m21 m) * (m00 m * dx + m01 m * dy + m02 m * dz) + (m02 m * m21 m - m01 m * m22 m) * (m10 m * dx + m11 m * dy + m12 m * dz) + (m01 m * m12 m - m02 m * m11 m) * (m20 m * dx + m21 m * dy + m22 m * dz)); [ring|rewrite F1, F2, F3; ring].
    - transitivity ((m12 m * m20 m - m10 m * m22 m) * (m00 m * dx + m01 m * dy + m02 m * dz) + (m00 m * m22 m - m02 m * m20 m) * (m10 m * dx + m11 m * dy + m12 m * dz) + (m02 m * m10 m - m00 m * m12 m) * (m20 m * dx + m21 m * dy + m22 m * dz)); [ring|rewrite F1, F2, F3; ring].
    - transitivity ((m10 m * m21 m - m11 m * m20 m) * (m00 m * dx + m01 m * dy + m02 m * dz) + (m01 m * m20 m - m00 m * m21 m) * (m10 m * dx + m11 m * dy + m12 m * dz) + (m00 m * m11 m - m01 m * m10 m) * (m20 m * dx + m21 m * dy + m22 m * dz)); [ring|rewrite F1, F2, F3; ring]. }
  rewrite side_value in H by assumption. injection H as <-. rewrite side_value by (apply INJ; auto). f_equal.
  replace (dot (cross (vsub (f b) (f a)) (vsub (f c) (f a))) (vsub (f p) (f a))) with (mdet m * dot (cross (vsub b a) (vsub c a)) (vsub p a)).
  2:{ unfold f, mdet, dot, cross, vsub, vadd, vscale, mvec, col0, col1, col2. cbn. ring. }
  set (x := dot (cross (vsub b a) (vsub c a)) (vsub p a)). set (d := mdet m) in *.
  destruct (sign_iff x) as (S1 & S2 & S3). destruct (sign_iff d) as (D1 & D2 & D3). destruct (sign_iff (d * x)) as (T1 & T2 & T3).
  destruct (Rtotal_order d 0) as [E|[E|E]]; [|contradiction|]; destruct (Rtotal_order x 0) as [Q|[Q|Q]];
    rewrite ?(proj2 S1 Q), ?(proj2 S2 Q), ?(proj2 S3 Q), ?(proj2 D1 E), ?(proj2 D2 E).
  - apply T1. replace (d * x) with ((- d) * (- x)) by ring. apply Rmult_lt_0_compat; lra.
  - apply T3. rewrite Q. ring.
  - apply T2. assert (0 < (- d) * x) by (apply Rmult_lt_0_compat; lra). lra.
  - apply T2. assert (0 < d * (- x)) by (apply Rmult_lt_0_compat; lra). lra.
  - apply T3. rewrite Q. ring.
  - apply T1. apply Rmult_lt_0_compat; lra.
Qed.
Print Assumptions c109_affine.

(** Three points on a line do not define a plane, but they are accepted. *)
Theorem c109_collinear_refuted : forall p a v k, v <> vzero -> k <> 0 -> k <> 1 ->
  side p a (vadd a v) (vadd a (vscale k v)) = Ok 0%Z.
Proof.
  intros p a v k N K0 K1.
  assert (X : forall x y, vadd a (vscale x v) = vadd a (vscale y v) -> x = y).
  { intros x y E. apply vec_eq in E. unfold vadd, vscale in E. cbn in E. destruct E as (E1 & E2 & E3).
    destruct (Req_dec x y) as [Q|Q]; [exact Q|]. exfalso. apply N. apply vec_eq. cbn.
    assert (Z : forall z, (x - y) * z = 0 -> z = 0) by (intros z H; apply Rmult_integral in H; destruct H; lra).
    repeat split; apply Z; lra. }
  assert (A0 : a = vadd a (vscale 0 v)) by (apply vec_eq; unfold vadd, vscale; cbn; repeat split; ring).
  assert (A1 : vadd a v = vadd a (vscale 1 v)) by (apply vec_eq; unfold vadd, vscale; cbn; repeat split; ring).
  rewrite side_value.
  - f_equal. apply sign_iff. unfold dot, cross, vsub, vadd, vscale. cbn. ring.
  - intros E. rewrite A1 in E. rewrite A0 in E at 1. apply X in E. lra.
  - intros E. rewrite A0 in E at 1. apply X in E. congruence.
  - intros E. rewrite A1 in E. apply X in E. congruence.
Qed.
Print Assumptions c109_collinear_refuted.

(** Looking at the plane: [f] is a right handed system of orthonormal columns whose third
    axis is orthogonal to the plane and points to the side of [p], so that one looks from
    [p]'s side along the negative third axis and sees the first axis to the right and the
    second axis upwards. *)
Definition looks_from (f : mat) (p a b c : vec) : Prop :=
  orthonormal f /\ mdet f = 1 /\ dot (col2 f) (vsub b a) = 0 /\ dot (col2 f) (vsub c a) = 0 /\ 0 < dot (col2 f) (vsub p a).
Definition seen (f : mat) (v : vec) : pt := P (dot (col0 f) v) (dot (col1 f) v).
(** The result is 1 if the triangle is counter-clockwise seen from the side of the point. *)
Theorem c109_winding : forall f p a b c, a <> b -> a <> c -> b <> c -> looks_from f p a b c ->
  side p a b c = Ok (point_left (seen f c) (seen f a) (seen f b)).
Proof.
  intros f p a b c AB AC BC (O & D & B0 & C0 & P0). rewrite side_value by assumption. f_equal.
  unfold point_left, vector_left.
  assert (E : dot (cross (vsub b a) (vsub c a)) (vsub p a) =
    pdet (psub (seen f b) (seen f a)) (psub (seen f c) (seen f a)) * dot (col2 f) (vsub p a)).
  { set (u := vsub b a) in *. set (v := vsub c a) in *. set (w := vsub p a) in *.
    transitivity (mdet f * dot (cross u v) w); [rewrite D; ring|].
    transitivity (dot (cross (V (dot (col0 f) u) (dot (col1 f) u) (dot (col2 f) u)) (V (dot (col0 f) v) (dot (col1 f) v) (dot (col2 f) v))) (V (dot (col0 f) w) (dot (col1 f) w) (dot (col2 f) w))).
    - unfold mdet, dot, cross, col0, col1, col2. cbn. ring.
    - rewrite B0, C0. unfold u, v, w, pdet, psub, seen, dot, cross, vsub, vadd, vscale, col0, col1, col2. cbn. ring. }
  rewrite E. set (x := pdet _ _). set (k := dot (col2 f) (vsub p a)) in *.
  destruct (sign_iff x) as (S1 & S2 & S3). destruct (sign_iff (x * k)) as (T1 & T2 & T3).
  destruct (Rtotal_order x 0) as [Q|[Q|Q]].
  - rewrite (proj2 S2 Q). apply T2. assert (0 < (- x) * k) by (apply Rmult_lt_0_compat; lra). lra.
  - rewrite (proj2 S3 Q). apply T3. rewrite Q. ring.
  - rewrite (proj2 S1 Q). apply T1. apply Rmult_lt_0_compat; assumption.
Qed.
Print Assumptions c109_winding.
(** documented: 1 if the triangle is clockwise seen from the side of the point *)
Theorem c109_clockwise_refuted : exists f p a b c, a <> b /\ a <> c /\ b <> c /\ looks_from f p a b c /\
  side p a b c = Ok 1%Z /\ point_left (seen f c) (seen f a) (seen f b) = 1%Z.
Proof.
  exists mid, (V 0 0 1), vzero, (V 1 0 0), (V 0 1 0).
  assert (D1 : vzero <> V 1 0 0) by (intros E; injection E; lra).
  assert (D2 : vzero <> V 0 1 0) by (intros E; injection E; lra).
  assert (D3 : V 1 0 0 <> V 0 1 0) by (intros E; injection E; lra).
  assert (L : looks_from mid (V 0 0 1) vzero (V 1 0 0) (V 0 1 0)).
  { unfold looks_from, orthonormal, mdet, dot, cross, vsub, vadd, vscale, mid, vzero, col0, col1, col2. cbn. repeat split; lra. }
  assert (Q : point_left (seen mid (V 0 1 0)) (seen mid vzero) (seen mid (V 1 0 0)) = 1%Z).
  { unfold point_left, vector_left. apply sign_iff. unfold pdet, psub, seen, dot, mid, vzero, col0, col1. cbn. lra. }
  repeat (split; [assumption|]). split; [|exact Q]. rewrite (c109_winding mid) by assumption. rewrite Q. reflexivity.
Qed.
Print Assumptions c109_clockwise_refuted.

(** scaling *)
Theorem c109_scale : forall x y z v, mvec (scale_matrix x y z) v = V (x * vx v) (y * vy v) (z * vz v) /\
  mdet (scale_matrix x y z) = x * y * z /\
  (forall x' y' z', mmul (scale_matrix x y z) (scale_matrix x' y' z') = scale_matrix (x * x') (y * y') (z * z')).
Proof.
  intros x y z v. split; [apply vec_eq; cbn; repeat split; ring|]. split; [unfold mdet, dot, cross, col0, col1, col2; cbn; ring|].
  intros. unfold mmul, scale_matrix. cbn. f_equal; ring.
Qed.
Print Assumptions c109_scale.

Example ex_c109 : side (V 5 5 (-2)) vzero (V 1 0 0) (V 0 1 0) = Ok (-1)%Z /\ side (V 7 (-3) 0) vzero (V 1 0 0) (V 0 1 0) = Ok 0%Z.
Proof.
  assert (D1 : vzero <> V 1 0 0) by (intros E; injection E; lra).
  assert (D2 : vzero <> V 0 1 0) by (intros E; injection E; lra).
  assert (D3 : V 1 0 0 <> V 0 1 0) by (intros E; injection E; lra).
  split; rewrite side_value by assumption; f_equal; apply sign_iff; unfold dot, cross, vsub, vadd, vscale, vzero; cbn; lra.
Qed.
