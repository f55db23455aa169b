(** Lemmas about matrices and static coordinate systems. *)
From Coq Require Import Reals List Lra Psatz Bool.
From Verif Require Import Base RigidModel RigidSpec.
Import ListNotations.
Open Scope R_scope.

Ltac mring :=
  intros; repeat match goal with x : mat |- _ => destruct x | x : vec |- _ => destruct x end;
  unfold mdet, vsub, mmul, mvec, mtrans, mid, vadd, vscale, vzero, of_cols, col0, col1, col2, cross, dot;
  cbn [vx vy vz m00 m01 m02 m10 m11 m12 m20 m21 m22]; try (f_equal; ring); try ring.

Lemma mmul_assoc : forall a b c, mmul (mmul a b) c = mmul a (mmul b c).
Proof. mring. Qed.
Lemma mmul_id_l : forall a, mmul mid a = a.
Proof. mring. Qed.
Lemma mmul_id_r : forall a, mmul a mid = a.
Proof. mring. Qed.
Lemma mvec_mmul : forall a b v, mvec (mmul a b) v = mvec a (mvec b v).
Proof. mring. Qed.
Lemma mvec_id : forall v, mvec mid v = v.
Proof. mring. Qed.
Lemma mvec_add : forall a u v, mvec a (vadd u v) = vadd (mvec a u) (mvec a v).
Proof. mring. Qed.
Lemma mvec_scale : forall a k v, mvec a (vscale k v) = vscale k (mvec a v).
Proof. mring. Qed.
Lemma mvec_zero : forall a, mvec a vzero = vzero.
Proof. mring. Qed.
Lemma mtrans_mul : forall a b, mtrans (mmul a b) = mmul (mtrans b) (mtrans a).
Proof. mring. Qed.
Lemma mtrans_mtrans : forall a, mtrans (mtrans a) = a.
Proof. mring. Qed.
Lemma mdet_mul : forall a b, mdet (mmul a b) = mdet a * mdet b.
Proof. mring. Qed.
Lemma mdet_trans : forall a, mdet (mtrans a) = mdet a.
Proof. mring. Qed.
Lemma vadd_assoc : forall a b c, vadd (vadd a b) c = vadd a (vadd b c).
Proof. mring. Qed.
Lemma vadd_comm : forall a b, vadd a b = vadd b a.
Proof. mring. Qed.
Lemma vadd_zero_r : forall a, vadd a vzero = a.
Proof. mring. Qed.
Lemma vadd_zero_l : forall a, vadd vzero a = a.
Proof. mring. Qed.
Lemma vadd_opp : forall a, vadd (vscale (-1) a) a = vzero.
Proof. mring. Qed.
Lemma vadd_opp_r : forall a, vadd a (vscale (-1) a) = vzero.
Proof. mring. Qed.
Lemma vscale_opp : forall a, vscale (-1) (vscale (-1) a) = a.
Proof. mring. Qed.

Definition mscale (k : R) (m : mat) : mat :=
  M (k * m00 m) (k * m01 m) (k * m02 m) (k * m10 m) (k * m11 m) (k * m12 m)
    (k * m20 m) (k * m21 m) (k * m22 m).
Definition madj (m : mat) : mat :=
  M (m11 m * m22 m - m12 m * m21 m) (m02 m * m21 m - m01 m * m22 m) (m01 m * m12 m - m02 m * m11 m)
    (m12 m * m20 m - m10 m * m22 m) (m00 m * m22 m - m02 m * m20 m) (m02 m * m10 m - m00 m * m12 m)
    (m10 m * m21 m - m11 m * m20 m) (m01 m * m20 m - m00 m * m21 m) (m00 m * m11 m - m01 m * m10 m).
Lemma madj_l : forall m, mmul (madj m) m = mscale (mdet m) mid.
Proof. unfold madj, mscale. mring. Qed.
Lemma mscale_mmul : forall k a b, mmul (mscale k a) b = mscale k (mmul a b).
Proof. unfold mscale. mring. Qed.
Lemma mscale_inj : forall k a b, k <> 0 -> mscale k a = mscale k b -> a = b.
Proof.
  intros k [] [] H E. unfold mscale in E. cbn in E. injection E. intros.
  f_equal; apply Rmult_eq_reg_l with k; assumption.
Qed.

(** a one sided inverse is two sided *)
Lemma inverse_sided : forall a b, mmul a b = mid -> mmul b a = mid.
Proof.
  intros a b H.
  assert (D : mdet a * mdet b = 1).
  { rewrite <- mdet_mul, H. unfold mdet, mid, dot, cross, col0, col1, col2. cbn. ring. }
  assert (Da : mdet a <> 0) by (intros K; rewrite K in D; lra).
  apply (mscale_inj (mdet a)); [ exact Da | ].
  rewrite <- mscale_mmul.
  assert (E : mscale (mdet a) b = madj a).
  { transitivity (mmul (madj a) (mmul a b)).
    - rewrite <- mmul_assoc, madj_l, mscale_mmul, mmul_id_l. reflexivity.
    - rewrite H. apply mmul_id_r. }
  rewrite E. apply madj_l.
Qed.

Lemma orthonormal_iff : forall m, orthonormal m <-> mmul (mtrans m) m = mid.
Proof.
  intros []. unfold orthonormal, mmul, mtrans, mid, dot, col0, col1, col2. cbn. split.
  - intros (H1 & H2 & H3 & H4 & H5 & H6). f_equal; try assumption; lra.
  - intros E. injection E. intros. repeat split; assumption.
Qed.
Lemma orthonormal_iff_r : forall m, orthonormal m <-> mmul m (mtrans m) = mid.
Proof. intros m. rewrite orthonormal_iff. split; apply inverse_sided. Qed.

Lemma orthonormal_mid : orthonormal mid.
Proof. apply orthonormal_iff. mring. Qed.
Lemma orthonormal_mul : forall a b, orthonormal a -> orthonormal b -> orthonormal (mmul a b).
Proof.
  intros a b Ha Hb. rewrite orthonormal_iff in *. rewrite mtrans_mul, mmul_assoc.
  rewrite <- (mmul_assoc (mtrans a)), Ha, mmul_id_l. exact Hb.
Qed.
Lemma orthonormal_trans : forall a, orthonormal a -> orthonormal (mtrans a).
Proof. intros a H. apply orthonormal_iff. rewrite mtrans_mtrans. apply orthonormal_iff_r. exact H. Qed.
Lemma orthonormal_det : forall a, orthonormal a -> mdet a = 1 \/ mdet a = -1.
Proof.
  intros a H. apply orthonormal_iff in H. assert (D := f_equal mdet H).
  rewrite mdet_mul, mdet_trans in D.
  replace (mdet mid) with 1 in D by (unfold mdet, mid, dot, cross, col0, col1, col2; cbn; ring).
  assert ((mdet a - 1) * (mdet a + 1) = 0) by lra.
  apply Rmult_integral in H0. destruct H0; [ left | right ]; lra.
Qed.
Lemma orthonormal_inv_vec : forall a v, orthonormal a -> mvec (mtrans a) (mvec a v) = v.
Proof. intros a v H. rewrite <- mvec_mmul. apply orthonormal_iff in H. rewrite H. apply mvec_id. Qed.
Lemma orthonormal_inv_vec_r : forall a v, orthonormal a -> mvec a (mvec (mtrans a) v) = v.
Proof. intros a v H. rewrite <- mvec_mmul. apply orthonormal_iff_r in H. rewrite H. apply mvec_id. Qed.

(** ** the constructor *)
Lemma isclose_refl : forall a, isclose a a = true.
Proof.
  intros a. unfold isclose. destruct (Rle_dec _ _) as [|H]; [ reflexivity | exfalso; apply H ].
  rewrite Rminus_diag_eq by reflexivity. rewrite Rabs_R0. assert (K := Rabs_pos a). lra.
Qed.

Lemma is_orthogonal_exact : forall m, orthonormal m -> is_orthogonal m = true.
Proof.
  intros m H. apply orthonormal_iff_r in H. unfold is_orthogonal. rewrite H. unfold mid.
  cbn [forallb fst snd m00 m01 m02 m10 m11 m12 m20 m21 m22]. rewrite !isclose_refl. reflexivity.
Qed.

Lemma normalize_unit : forall a, dot a a = 1 -> normalize a = Ok a.
Proof.
  intros [x y z] H. unfold normalize, norm. rewrite H, sqrt_1.
  destruct (Req_EM_T 1 0); [ lra | ]. cbn. unfold Rdiv. rewrite Rinv_1, !Rmult_1_r. reflexivity.
Qed.

Lemma of_cols_col : forall m, of_cols (col0 m) (col1 m) (col2 m) = m.
Proof. mring. Qed.

Lemma check_exact : forall m, orthonormal m -> check_orientation m = Ok m.
Proof.
  intros m H. assert (K := is_orthogonal_exact m H). destruct H as (H1 & H2 & H3 & _).
  unfold check_orientation. rewrite !normalize_unit by assumption. cbn [bind].
  rewrite of_cols_col, K. reflexivity.
Qed.
Lemma mk_exact : forall o p, orthonormal o -> mk_lcs o p = Ok (Lcs o p).
Proof. intros o p H. unfold mk_lcs. rewrite check_exact by exact H. reflexivity. Qed.

Lemma lcs_ext : forall a b, l_ori a = l_ori b -> l_pos a = l_pos b -> a = b.
Proof. intros [] [] H1 H2. cbn in *. subst. reflexivity. Qed.

(** the results of the operations on valid systems *)
Definition radd (l r : lcs) : lcs :=
  Lcs (mmul (l_ori r) (l_ori l)) (vadd (mvec (l_ori r) (l_pos l)) (l_pos r)).
Definition rinv (l : lcs) : lcs :=
  Lcs (mtrans (l_ori l)) (mvec (mtrans (l_ori l)) (vscale (-1) (l_pos l))).
Definition rid : lcs := Lcs mid vzero.

Lemma radd_valid : forall a b, valid a -> valid b -> valid (radd a b).
Proof. intros a b Ha Hb. apply orthonormal_mul; assumption. Qed.
Lemma rinv_valid : forall a, valid a -> valid (rinv a).
Proof. intros a Ha. apply orthonormal_trans; assumption. Qed.
Lemma rid_valid : valid rid.
Proof. exact orthonormal_mid. Qed.
Lemma lcs_add_ok : forall a b, valid a -> valid b -> lcs_add a b = Ok (radd a b).
Proof. intros a b Ha Hb. apply mk_exact. apply orthonormal_mul; assumption. Qed.
Lemma lcs_invert_ok : forall a, valid a -> lcs_invert a = Ok (rinv a).
Proof. intros a Ha. apply mk_exact. apply orthonormal_trans; assumption. Qed.
Lemma lcs_sub_ok : forall a b, valid a -> valid b -> lcs_sub a b = Ok (radd a (rinv b)).
Proof.
  intros a b Ha Hb. unfold lcs_sub. rewrite lcs_invert_ok by exact Hb. cbn [bind].
  apply lcs_add_ok; [ exact Ha | apply rinv_valid; exact Hb ].
Qed.
Lemma lcs_default_ok : lcs_default = Ok rid.
Proof. apply mk_exact. exact orthonormal_mid. Qed.

Lemma radd_assoc : forall a b c, radd (radd a b) c = radd a (radd b c).
Proof.
  intros a b c. apply lcs_ext; cbn [radd l_ori l_pos].
  - symmetry. apply mmul_assoc.
  - rewrite mvec_add, <- mvec_mmul, vadd_assoc. reflexivity.
Qed.
Lemma radd_id_l : forall a, radd rid a = a.
Proof.
  intros a. apply lcs_ext; cbn [radd rid l_ori l_pos]; [ apply mmul_id_r | ].
  rewrite mvec_zero. apply vadd_zero_l.
Qed.
Lemma radd_id_r : forall a, radd a rid = a.
Proof.
  intros a. apply lcs_ext; cbn [radd rid l_ori l_pos]; [ apply mmul_id_l | ].
  rewrite mvec_id. apply vadd_zero_r.
Qed.
Lemma radd_inv_r : forall a, valid a -> radd a (rinv a) = rid.
Proof.
  intros a H. apply lcs_ext; cbn [radd rid rinv l_ori l_pos].
  - apply orthonormal_iff. exact H.
  - rewrite <- mvec_add, vadd_opp_r. apply mvec_zero.
Qed.
Lemma radd_inv_l : forall a, valid a -> radd (rinv a) a = rid.
Proof.
  intros a H. apply lcs_ext; cbn [radd rid rinv l_ori l_pos].
  - apply orthonormal_iff_r. exact H.
  - rewrite orthonormal_inv_vec_r by exact H. apply vadd_opp.
Qed.
Lemma rinv_rinv : forall a, valid a -> rinv (rinv a) = a.
Proof.
  intros a H. transitivity (radd (rinv (rinv a)) (radd (rinv a) a)).
  - rewrite radd_inv_l by exact H. symmetry. apply radd_id_r.
  - rewrite <- radd_assoc, radd_inv_l by (apply rinv_valid; exact H). apply radd_id_l.
Qed.
Lemma rinv_radd : forall a b, valid a -> valid b -> rinv (radd a b) = radd (rinv b) (rinv a).
Proof.
  intros a b Ha Hb.
  assert (H : radd (radd (rinv b) (rinv a)) (radd a b) = rid).
  { rewrite radd_assoc, <- (radd_assoc (rinv a)), radd_inv_l by exact Ha. rewrite radd_id_l. apply radd_inv_l. exact Hb. }
  rewrite <- (radd_id_l (rinv (radd a b))), <- H, radd_assoc.
  rewrite radd_inv_r by (apply radd_valid; assumption). apply radd_id_r.
Qed.

(** ** maps *)
Lemma apply_radd : forall a b v, lcs_apply (radd a b) v = lcs_apply b (lcs_apply a v).
Proof.
  intros a b v. unfold lcs_apply. cbn [radd l_ori l_pos].
  rewrite mvec_mmul, mvec_add, vadd_assoc. reflexivity.
Qed.
Lemma apply_rid : forall v, lcs_apply rid v = v.
Proof. intros v. unfold lcs_apply. cbn [rid l_ori l_pos]. rewrite mvec_id. apply vadd_zero_r. Qed.
Lemma apply_rinv : forall a v, valid a -> lcs_apply (rinv a) (lcs_apply a v) = v.
Proof. intros a v H. rewrite <- apply_radd, radd_inv_r by exact H. apply apply_rid. Qed.

Lemma dist2_dot : forall a b, dist2 a b = dot (vsub a b) (vsub a b).
Proof. unfold dist2. mring. Qed.
Lemma dot_mvec : forall m u v, dot (mvec m u) (mvec m v) = dot u (mvec (mmul (mtrans m) m) v).
Proof. mring. Qed.
Lemma apply_dist : forall a u v, valid a -> dist2 (lcs_apply a u) (lcs_apply a v) = dist2 u v.
Proof.
  intros a u v H. rewrite !dist2_dot.
  assert (E : vsub (lcs_apply a u) (lcs_apply a v) = mvec (l_ori a) (vsub u v)) by (unfold lcs_apply; mring).
  rewrite E, dot_mvec. apply orthonormal_iff in H. rewrite H, mvec_id. reflexivity.
Qed.

(** the orientation of a system is determined by its map *)
Lemma apply_inj : forall a b, (forall v, lcs_apply a v = lcs_apply b v) -> a = b.
Proof.
  intros [[] []] [[] []] H. unfold lcs_apply, mvec, vadd in H. cbn in H.
  assert (H0 := H (V 0 0 0)). assert (H1 := H (V 1 0 0)). assert (H2 := H (V 0 1 0)). assert (H3 := H (V 0 0 1)).
  cbn in *. injection H0. injection H1. injection H2. injection H3. clear H H0 H1 H2 H3. intros.
  f_equal; f_equal; lra.
Qed.

(** ** expressions *)
Lemma eval_valid : forall e, all_base valid e ->
  exists l, eval e = Ok l /\ valid l /\ mdet (l_ori l) = handedness e.
Proof.
  induction e as [l|a IHa b IHb|a IHa b IHb|a IHa]; cbn [all_base eval handedness].
  - intros H. exists l. auto.
  - intros [Ha Hb]. destruct (IHa Ha) as (x & -> & Vx & Dx). destruct (IHb Hb) as (y & -> & Vy & Dy).
    cbn [bind]. rewrite lcs_add_ok by assumption. eexists. split; [ reflexivity | ].
    split; [ apply radd_valid; assumption | ]. cbn [radd l_ori]. rewrite mdet_mul, Dx, Dy. ring.
  - intros [Ha Hb]. destruct (IHa Ha) as (x & -> & Vx & Dx). destruct (IHb Hb) as (y & -> & Vy & Dy).
    cbn [bind]. rewrite lcs_sub_ok by assumption. eexists. split; [ reflexivity | ].
    split; [ apply radd_valid; [ | apply rinv_valid ]; assumption | ].
    cbn [radd rinv l_ori]. rewrite mdet_mul, mdet_trans, Dx, Dy. ring.
  - intros Ha. destruct (IHa Ha) as (x & -> & Vx & Dx). cbn [bind]. rewrite lcs_invert_ok by assumption.
    eexists. split; [ reflexivity | ]. split; [ apply rinv_valid; assumption | ].
    cbn [rinv l_ori]. rewrite mdet_trans. exact Dx.
Qed.

(** ** from_axis_vectors *)
Lemma norm_pos : forall a, dot a a <> 0 -> 0 < norm a.
Proof.
  intros a H. apply sqrt_lt_R0. assert (0 <= dot a a); [ | lra ].
  destruct a. unfold dot. cbn. nra.
Qed.
Lemma norm_sq : forall a, norm a * norm a = dot a a.
Proof. intros a. apply sqrt_sqrt. destruct a. unfold dot. cbn. nra. Qed.
Lemma normalize_ok : forall a, dot a a <> 0 -> normalize a = Ok (vscale (/ norm a) a).
Proof.
  intros a H. apply norm_pos in H. unfold normalize. destruct (Req_EM_T (norm a) 0); [ lra | ].
  unfold vscale, Rdiv. f_equal. f_equal; ring.
Qed.
Lemma dot_vscale : forall k l a b, dot (vscale k a) (vscale l b) = k * l * dot a b.
Proof. mring. Qed.
Lemma dot_unit : forall a, dot a a <> 0 -> dot (vscale (/ norm a) a) (vscale (/ norm a) a) = 1.
Proof.
  intros a H. rewrite dot_vscale, <- norm_sq. apply norm_pos in H. field. lra.
Qed.
Lemma cross_norm : forall a b, dot (cross a b) (cross a b) = dot a a * dot b b - dot a b * dot a b.
Proof. mring. Qed.
Lemma cross_dot_l : forall a b, dot a (cross a b) = 0.
Proof. mring. Qed.
Lemma cross_dot_r : forall a b, dot b (cross a b) = 0.
Proof. mring. Qed.
Lemma dot_comm : forall a b, dot a b = dot b a.
Proof. mring. Qed.
Lemma col_of_cols : forall a b c, col0 (of_cols a b c) = a /\ col1 (of_cols a b c) = b /\ col2 (of_cols a b c) = c.
Proof. intros [] [] []. repeat split. Qed.

Lemma mk_cols : forall a b c p, dot a a <> 0 -> dot b b <> 0 -> dot c c <> 0 ->
  dot a b = 0 -> dot a c = 0 -> dot b c = 0 ->
  exists l, mk_lcs (of_cols a b c) p = Ok l /\ valid l /\ l_pos l = p /\
    col0 (l_ori l) = vscale (/ norm a) a /\ col1 (l_ori l) = vscale (/ norm b) b /\
    col2 (l_ori l) = vscale (/ norm c) c /\
    mdet (l_ori l) = / norm a * / norm b * / norm c * dot a (cross b c).
Proof.
  intros a b c p Ha Hb Hc Hab Hac Hbc. unfold mk_lcs, check_orientation.
  destruct (col_of_cols a b c) as (-> & -> & ->). rewrite !normalize_ok by assumption. cbn [bind].
  set (m := of_cols _ _ _).
  assert (O : orthonormal m).
  { unfold m, orthonormal. destruct (col_of_cols (vscale (/ norm a) a) (vscale (/ norm b) b) (vscale (/ norm c) c)) as (-> & -> & ->).
    rewrite !dot_unit by assumption. rewrite !dot_vscale, Hab, Hac, Hbc. repeat split; ring. }
  rewrite (is_orthogonal_exact m O). cbn [bind]. eexists. split; [ reflexivity | ]. split; [ exact O | ].
  split; [ reflexivity | ]. cbn [l_ori]. unfold m.
  destruct (col_of_cols (vscale (/ norm a) a) (vscale (/ norm b) b) (vscale (/ norm c) c)) as (E1 & E2 & E3).
  rewrite E1, E2, E3. repeat split. unfold mdet. rewrite E1, E2, E3. mring.
Qed.

Lemma norm_dot_self : forall a, dot a a <> 0 -> / norm a * / norm a * dot a a = 1.
Proof. intros a H. rewrite <- norm_sq. apply norm_pos in H. field. lra. Qed.

Lemma norm_cross : forall a b, dot a b = 0 -> norm (cross a b) = norm a * norm b.
Proof.
  intros a b H. unfold norm. rewrite cross_norm, H.
  replace (dot a a * dot b b - 0 * 0) with (dot a a * dot b b) by ring.
  apply sqrt_mult; [ destruct a | destruct b ]; unfold dot; cbn; nra.
Qed.

Lemma axis_det : forall a b, dot a a <> 0 -> dot b b <> 0 -> dot a b = 0 ->
  / norm a * / norm b * / norm (cross a b) * dot (cross a b) (cross a b) = 1.
Proof.
  intros a b Ha Hb H. rewrite norm_cross by exact H. rewrite cross_norm, H, <- !norm_sq.
  apply norm_pos in Ha. apply norm_pos in Hb. field. lra.
Qed.

Lemma from_two_axes : forall (i : nat) a b p, (i < 3)%nat -> dot a a <> 0 -> dot b b <> 0 -> dot a b = 0 ->
  let args := match i with
              | O => (None, Some a, Some b)
              | S O => (Some b, None, Some a)
              | _ => (Some a, Some b, None)
              end in
  exists l, from_axis_vectors (fst (fst args)) (snd (fst args)) (snd args) p = Ok l /\
    valid l /\ l_pos l = p /\ mdet (l_ori l) = 1 /\
    match i with
    | O => col1 (l_ori l) = vscale (/ norm a) a /\ col2 (l_ori l) = vscale (/ norm b) b
    | S O => col2 (l_ori l) = vscale (/ norm a) a /\ col0 (l_ori l) = vscale (/ norm b) b
    | _ => col0 (l_ori l) = vscale (/ norm a) a /\ col1 (l_ori l) = vscale (/ norm b) b
    end.
Proof.
  intros i a b p Hi Ha Hb Hab.
  assert (Hc : dot (cross a b) (cross a b) <> 0).
  { rewrite cross_norm, Hab. intros K. assert (K' : dot a a * dot b b = 0) by lra.
    apply Rmult_integral in K'. destruct K'; contradiction. }
  assert (D := axis_det a b Ha Hb Hab).
  destruct i as [|[|[|i]]]; [ | | | exfalso; inversion Hi as [|? H1]; inversion H1 as [|? H2]; inversion H2 as [|? H3]; inversion H3 ];
    cbn [fst snd from_axis_vectors]; cbv zeta; cbn [fst snd from_axis_vectors].
  - destruct (mk_cols (cross a b) a b p) as (l & E & Vl & P & C0 & C1 & C2 & De); auto.
    { rewrite dot_comm. apply cross_dot_l. } { rewrite dot_comm. apply cross_dot_r. }
    exists l. rewrite De. repeat split; auto; try apply Vl. lra.
  - destruct (mk_cols b (cross a b) a p) as (l & E & Vl & P & C0 & C1 & C2 & De); auto.
    { apply cross_dot_r. } { rewrite dot_comm. exact Hab. } { rewrite dot_comm. apply cross_dot_l. }
    exists l. rewrite De. repeat split; auto; try apply Vl.
    replace (dot b (cross (cross a b) a)) with (dot (cross a b) (cross a b)) by mring. lra.
  - destruct (mk_cols a b (cross a b) p) as (l & E & Vl & P & C0 & C1 & C2 & De); auto.
    { apply cross_dot_l. } { apply cross_dot_r. }
    exists l. rewrite De. repeat split; auto; try apply Vl.
    replace (dot a (cross b (cross a b))) with (dot (cross a b) (cross a b)) by mring. lra.
Qed.

(** ** systems that are orthogonal only within the tolerance *)
Lemma skew_exists : exists e s, e = 9 / 1000000000 /\ e * e + s * s = 1 /\ 99 / 100 <= s <= 1.
Proof.
  exists (9 / 1000000000), (sqrt (1 - 9 / 1000000000 * (9 / 1000000000))).
  split; [ reflexivity | ]. split.
  - rewrite sqrt_sqrt by lra. lra.
  - split.
    + rewrite <- (sqrt_square (99 / 100)) at 1 by lra. apply sqrt_le_1; lra.
    + apply Rle_trans with (sqrt 1); [ apply sqrt_le_1; lra | rewrite sqrt_1; lra ].
Qed.

Lemma isclose_true : forall a b, Rabs (a - b) <= / 100000000 + / 100000 * Rabs b -> isclose a b = true.
Proof. intros a b H. unfold isclose. destruct (Rle_dec _ _); [ reflexivity | contradiction ]. Qed.
Lemma isclose_zero_false : forall a, / 100000000 < a -> isclose a 0 = false.
Proof.
  intros a H. unfold isclose. destruct (Rle_dec _ _) as [K|]; [ exfalso | reflexivity ].
  rewrite Rminus_0_r, Rabs_R0, Rabs_right in K by lra. lra.
Qed.

Lemma isclose_bound : forall a b d, a - b = d -> - / 100000000 <= d <= / 100000000 -> isclose a b = true.
Proof.
  intros a b d E H. apply isclose_true. rewrite E.
  assert (K := Rabs_pos b). assert (Rabs d <= / 100000000); [ apply Rabs_le; exact H | ]. lra.
Qed.

Lemma skew_sum_rejected : exists m,
  mk_lcs m vzero = Ok (Lcs m vzero) /\ lcs_add (Lcs m vzero) (Lcs m vzero) = Err ValueError.
Proof.
  destruct skew_exists as (e & s & He & Hu & Hs).
  exists (of_cols (V 1 0 0) (V e s 0) (V 0 0 1)).
  assert (E2 : 0 <= e * e <= / 100000000) by (subst e; lra).
  assert (Ee : 0 <= e <= / 100000000) by (subst e; lra).
  split.
  - unfold mk_lcs, check_orientation.
    destruct (col_of_cols (V 1 0 0) (V e s 0) (V 0 0 1)) as (-> & -> & ->).
    rewrite !normalize_unit by (unfold dot; cbn; lra). cbn [bind].
    assert (O : is_orthogonal (of_cols (V 1 0 0) (V e s 0) (V 0 0 1)) = true).
    { unfold is_orthogonal, mmul, mtrans, of_cols. cbn [m00 m01 m02 m10 m11 m12 m20 m21 m22 vx vy vz forallb fst snd].
      assert (Q : 0 <= e * s <= / 100000000) by nra.
      repeat (rewrite andb_true_iff; split); try reflexivity.
      - apply (isclose_bound _ _ (e * e)); lra.
      - apply (isclose_bound _ _ (e * s)); lra.
      - apply (isclose_bound _ _ 0); lra.
      - apply (isclose_bound _ _ (e * s)); lra.
      - apply (isclose_bound _ _ (- (e * e))); lra.
      - apply (isclose_bound _ _ 0); lra.
      - apply (isclose_bound _ _ 0); lra.
      - apply (isclose_bound _ _ 0); lra.
      - apply (isclose_bound _ _ 0); lra. }
    rewrite O. reflexivity.
  - unfold lcs_add, mk_lcs, check_orientation. cbn [l_ori l_pos].
    set (a := e + e * s). set (b := s * s).
    assert (P : mmul (of_cols (V 1 0 0) (V e s 0) (V 0 0 1)) (of_cols (V 1 0 0) (V e s 0) (V 0 0 1)) =
                of_cols (V 1 0 0) (V a b 0) (V 0 0 1)) by (unfold a, b; mring).
    rewrite P. destruct (col_of_cols (V 1 0 0) (V a b 0) (V 0 0 1)) as (-> & -> & ->).
    rewrite (normalize_unit (V 1 0 0)) by (unfold dot; cbn; lra).
    rewrite (normalize_unit (V 0 0 1)) by (unfold dot; cbn; lra).
    assert (Hb : 97 / 100 <= b <= 1) by (unfold b; nra).
    assert (Ha : 17 / 1000000000 <= a <= 1 / 10000) by (unfold a; subst e; lra).
    assert (Hd : dot (V a b 0) (V a b 0) = a * a + b * b) by (unfold dot; cbn; ring).
    assert (Hn : dot (V a b 0) (V a b 0) <> 0) by (rewrite Hd; nra).
    rewrite (normalize_ok _ Hn). cbn [bind]. set (n := norm (V a b 0)).
    assert (Np : 0 < n) by (apply norm_pos; exact Hn).
    assert (Nn : n * n = a * a + b * b) by (unfold n; rewrite norm_sq; exact Hd).
    assert (O : is_orthogonal (of_cols (V 1 0 0) (vscale (/ n) (V a b 0)) (V 0 0 1)) = false).
    { unfold is_orthogonal, mmul, mtrans, of_cols, vscale.
      cbn [m00 m01 m02 m10 m11 m12 m20 m21 m22 vx vy vz forallb fst snd].
      assert (K : isclose (1 * 0 + / n * a * (/ n * b) + 0 * 0) 0 = false).
      { apply isclose_zero_false.
        replace (1 * 0 + / n * a * (/ n * b) + 0 * 0) with (a * b / (n * n)) by (field; lra).
        rewrite Nn. apply Rmult_lt_reg_r with (a * a + b * b); [ nra | ].
        unfold Rdiv. rewrite Rmult_assoc, Rinv_l by nra. nra. }
      rewrite K. apply andb_false_r. }
    rewrite O. reflexivity.
Qed.
