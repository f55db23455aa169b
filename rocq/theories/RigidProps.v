(** Properties C07 - C09: the algebra of static coordinate systems. *)
From Coq Require Import Reals List Lra.
From Verif Require Import Base RigidModel RigidSpec RigidFacts.
Open Scope R_scope.

(** ** C07 *)
(** the operations never raise for valid systems and describe the composition
    and the inverse of the maps from system to reference coordinates *)
Theorem c07_add_is_composition : forall a b, valid a -> valid b ->
  exists c, lcs_add a b = Ok c /\ valid c /\
    forall v, lcs_apply c v = lcs_apply b (lcs_apply a v).
Proof.
  intros a b Ha Hb. exists (radd a b). split; [ apply lcs_add_ok; assumption | ].
  split; [ apply radd_valid; assumption | apply apply_radd ].
Qed.
Print Assumptions c07_add_is_composition.

Theorem c07_invert_is_inverse : forall a, valid a ->
  exists c, lcs_invert a = Ok c /\ valid c /\
    (forall v, lcs_apply c (lcs_apply a v) = v) /\ (forall v, lcs_apply a (lcs_apply c v) = v).
Proof.
  intros a Ha. exists (rinv a). split; [ apply lcs_invert_ok; assumption | ].
  split; [ apply rinv_valid; assumption | ]. split; intros v; [ apply apply_rinv; assumption | ].
  rewrite <- apply_radd, radd_inv_l by exact Ha. apply apply_rid.
Qed.
Print Assumptions c07_invert_is_inverse.

Theorem c07_group : forall a b c, valid a -> valid b -> valid c ->
  exists ab bc abc ia ib iab e,
    lcs_add a b = Ok ab /\ lcs_add b c = Ok bc /\ lcs_add ab c = Ok abc /\ lcs_add a bc = Ok abc /\
    lcs_default = Ok e /\ lcs_add a e = Ok a /\ lcs_add e a = Ok a /\
    lcs_invert a = Ok ia /\ lcs_invert b = Ok ib /\ lcs_invert ab = Ok iab /\
    lcs_add a ia = Ok e /\ lcs_add ia a = Ok e /\ lcs_invert ia = Ok a /\
    lcs_add ib ia = Ok iab.
Proof.
  intros a b c Ha Hb Hc.
  exists (radd a b), (radd b c), (radd (radd a b) c), (rinv a), (rinv b), (rinv (radd a b)), rid.
  assert (Vab := radd_valid _ _ Ha Hb). assert (Vbc := radd_valid _ _ Hb Hc).
  assert (Vi := rinv_valid _ Ha). assert (Vj := rinv_valid _ Hb). assert (Ve := rid_valid).
  rewrite !lcs_add_ok, !lcs_invert_ok, lcs_default_ok by assumption.
  rewrite radd_assoc, radd_id_l, radd_id_r, radd_inv_l, radd_inv_r, rinv_rinv, rinv_radd by assumption.
  repeat split; reflexivity.
Qed.
Print Assumptions c07_group.

Theorem c07_sub_add : forall a b, valid a -> valid b ->
  exists s d, lcs_add a b = Ok s /\ lcs_sub s b = Ok a /\
              lcs_sub a b = Ok d /\ lcs_add d b = Ok a.
Proof.
  intros a b Ha Hb. exists (radd a b), (radd a (rinv b)).
  assert (Vi := rinv_valid _ Hb). assert (Vab := radd_valid _ _ Ha Hb). assert (Vd := radd_valid _ _ Ha Vi).
  rewrite !lcs_sub_ok, !lcs_add_ok by assumption. rewrite !radd_assoc, radd_inv_r, radd_inv_l, radd_id_r by assumption.
  repeat split; reflexivity.
Qed.
Print Assumptions c07_sub_add.

(** a system is determined by its map *)
Theorem c07_extensional : forall a b, (forall v, lcs_apply a v = lcs_apply b v) -> a = b.
Proof. exact apply_inj. Qed.
Print Assumptions c07_extensional.

Example c07_ex : valid (Lcs (M 0 (-1) 0 1 0 0 0 0 1) (V 1 2 3)) /\
  lcs_apply (Lcs (M 0 (-1) 0 1 0 0 0 0 1) (V 1 2 3)) (V 1 0 0) = V 1 3 3.
Proof.
  split; [ unfold valid, orthonormal, dot; cbn; repeat split; lra | ].
  unfold lcs_apply, mvec, vadd. cbn. f_equal; lra.
Qed.

(** ** C08 *)
Theorem c08_orthonormal_closed : forall e, all_base valid e ->
  exists l, eval e = Ok l /\ valid l /\ mdet (l_ori l) = handedness e.
Proof. exact eval_valid. Qed.
Print Assumptions c08_orthonormal_closed.

Theorem c08_right_handed_closed : forall e,
  all_base (fun l => valid l /\ mdet (l_ori l) = 1) e ->
  exists l, eval e = Ok l /\ valid l /\ mdet (l_ori l) = 1.
Proof.
  intros e H. assert (V : all_base valid e /\ handedness e = 1).
  { induction e as [l|a IHa b IHb|a IHa b IHb|a IHa]; cbn [all_base handedness] in *.
    - exact H.
    - destruct H as [H1 H2]. destruct (IHa H1) as [? ->]. destruct (IHb H2) as [? ->]. split; [ auto | ring ].
    - destruct H as [H1 H2]. destruct (IHa H1) as [? ->]. destruct (IHb H2) as [? ->]. split; [ auto | ring ].
    - auto. }
  destruct V as [V D]. destruct (eval_valid e V) as (l & E & Vl & Dl). exists l. rewrite Dl. auto.
Qed.
Print Assumptions c08_right_handed_closed.

(** the determinant of a valid system is 1 or -1 *)
Theorem c08_determinant : forall l, valid l -> mdet (l_ori l) = 1 \/ mdet (l_ori l) = -1.
Proof. intros l. apply orthonormal_det. Qed.
Print Assumptions c08_determinant.

(** The constructor accepts orientations that are orthogonal within a tolerance
    only. For those the sum of two accepted systems can be rejected. *)
Theorem c08_tolerance_refuted : exists a,
  mk_lcs (l_ori a) (l_pos a) = Ok a /\ lcs_add a a = Err ValueError.
Proof. destruct skew_sum_rejected as (m & H). exists (Lcs m vzero). exact H. Qed.
Print Assumptions c08_tolerance_refuted.

Example c08_ex : let l := Lcs (M 0 (-1) 0 1 0 0 0 0 1) (V 1 2 3) in
  all_base (fun l => valid l /\ mdet (l_ori l) = 1) (ESub (EAdd (EBase l) (EInv (EBase l))) (EBase l)).
Proof. cbn [all_base]. unfold valid, orthonormal, dot, mdet, cross. cbn. unfold dot; cbn. repeat split; lra. Qed.

(** ** C09 *)
(** [a] and [b] are the given axes in cyclic order: (y, z), (z, x) or (x, y) *)
Theorem c09_two_axes : forall (i : nat) a b p, (i < 3)%nat ->
  dot a a <> 0 -> dot b b <> 0 -> dot a b = 0 ->
  let args := match i with
              | O => (None, Some a, Some b)
              | S O => (Some b, None, Some a)
              | _ => (Some a, Some b, None)
              end in
  exists l, from_axis_vectors (fst (fst args)) (snd (fst args)) (snd args) p = Ok l /\
    valid l /\ l_pos l = p /\ mdet (l_ori l) = 1 /\
    match i with
    | O => col1 (l_ori l) = vscale (/ norm a) a /\ col2 (l_ori l) = vscale (/ norm b) b
    | S O => col2 (l_ori l) = vscale (/ norm a) a /\ col0 (l_ori l) = vscale (/ norm b) b
    | _ => col0 (l_ori l) = vscale (/ norm a) a /\ col1 (l_ori l) = vscale (/ norm b) b
    end.
Proof. exact from_two_axes. Qed.
Print Assumptions c09_two_axes.

Theorem c09_three_axes : forall x y z p,
  dot x x <> 0 -> dot y y <> 0 -> dot z z <> 0 -> dot x y = 0 -> dot x z = 0 -> dot y z = 0 ->
  exists l, from_axis_vectors (Some x) (Some y) (Some z) p = Ok l /\ valid l /\ l_pos l = p /\
    col0 (l_ori l) = vscale (/ norm x) x /\ col1 (l_ori l) = vscale (/ norm y) y /\
    col2 (l_ori l) = vscale (/ norm z) z.
Proof.
  intros x y z p Hx Hy Hz Hxy Hxz Hyz.
  destruct (mk_cols x y z p Hx Hy Hz Hxy Hxz Hyz) as (l & E & Vl & P & C0 & C1 & C2 & _).
  exists l. auto 10.
Qed.
Print Assumptions c09_three_axes.

Theorem c09_too_few_axes : forall (v : option vec) p,
  from_axis_vectors v None None p = Err ValueError /\
  from_axis_vectors None v None p = Err ValueError /\
  from_axis_vectors None None v p = Err ValueError.
Proof. intros [v|] p; repeat split. Qed.
Print Assumptions c09_too_few_axes.

(** with three axes a left handed system is accepted *)
Example c09_ex_left_handed : exists l,
  from_axis_vectors (Some (V 1 0 0)) (Some (V 0 2 0)) (Some (V 0 0 (-3))) vzero = Ok l /\ mdet (l_ori l) = -1.
Proof.
  assert (H : forall a b c : R, dot (V a b c) (V a b c) = a * a + b * b + c * c) by (intros; unfold dot; cbn; ring).
  destruct (mk_cols (V 1 0 0) (V 0 2 0) (V 0 0 (-3)) vzero) as (l & E & Vl & _ & C0 & C1 & C2 & D);
    try (rewrite H; lra); try (unfold dot; cbn; lra).
  exists l. split; [ exact E | ]. destruct (orthonormal_det _ Vl) as [K|K]; [ exfalso | exact K ].
  rewrite K in D. revert D.
  assert (N1 := norm_pos (V 1 0 0)). assert (N2 := norm_pos (V 0 2 0)). assert (N3 := norm_pos (V 0 0 (-3))).
  rewrite H in N1, N2, N3.
  assert (0 < / norm (V 1 0 0)) by (apply Rinv_0_lt_compat, N1; lra).
  assert (0 < / norm (V 0 2 0)) by (apply Rinv_0_lt_compat, N2; lra).
  assert (0 < / norm (V 0 0 (-3))) by (apply Rinv_0_lt_compat, N3; lra).
  intros D. assert (Q : dot (V 1 0 0) (cross (V 0 2 0) (V 0 0 (-3))) = -6) by (unfold dot, cross; cbn; ring).
  rewrite Q in D.
  assert (0 < / norm (V 1 0 0) * / norm (V 0 2 0) * / norm (V 0 0 (-3))) by (repeat apply Rmult_lt_0_compat; assumption).
  lra.
Qed.
