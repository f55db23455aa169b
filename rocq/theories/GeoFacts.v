(** Lemmas about the model of plane geometry. *)
From Coq Require Import Reals List ZArith Lra Lia Psatz.
From Verif Require Import Base GeoModel GeoSpec.
Import ListNotations.
Open Scope R_scope.

(** ** Booleans *)
Lemma rle_true : forall a b, rle a b = true <-> a <= b.
Proof. intros; unfold rle; destruct (Rle_dec a b); split; intros; try easy; lra. Qed.
Lemma rle_false : forall a b, rle a b = false <-> b < a.
Proof. intros; unfold rle; destruct (Rle_dec a b); split; intros; try easy; lra. Qed.
Lemma rlt_true : forall a b, rlt a b = true <-> a < b.
Proof. intros; unfold rlt; destruct (Rlt_dec a b); split; intros; try easy; lra. Qed.
Lemma rlt_false : forall a b, rlt a b = false <-> b <= a.
Proof. intros; unfold rlt; destruct (Rlt_dec a b); split; intros; try easy; lra. Qed.
Lemma req_true : forall a b, req a b = true <-> a = b.
Proof. intros; unfold req; destruct (Req_EM_T a b); split; intros; try easy; lra. Qed.
Lemma req_false : forall a b, req a b = false <-> a <> b.
Proof. intros; unfold req; destruct (Req_EM_T a b); split; intros; try easy; lra. Qed.

(** ** Points *)
Lemma sq_sum : forall a b, 0 <= a * a + b * b.
Proof. intros; nra. Qed.
Lemma sq_sum_zero : forall a b, a * a + b * b = 0 -> a = 0 /\ b = 0.
Proof. intros; split; nra. Qed.
Lemma pt_eq : forall p q, px p = px q -> py p = py q -> p = q.
Proof. intros [a b] [c d]; cbn; intros; subst; reflexivity. Qed.

Lemma pdot_pos : forall v, 0 <= pdot v v.
Proof. intros; unfold pdot; nra. Qed.
Lemma pnorm_pos : forall v, 0 <= pnorm v.
Proof. intros; apply sqrt_pos. Qed.
Lemma pnorm_sq : forall v, pnorm v * pnorm v = pdot v v.
Proof. intros; apply sqrt_sqrt, pdot_pos. Qed.
Lemma pnorm_dist : forall p q, pnorm (psub p q) = dist p q.
Proof. reflexivity. Qed.
Lemma dist_pos : forall p q, 0 <= dist p q.
Proof. intros; apply sqrt_pos. Qed.
Lemma dist_sq : forall p q,
  dist p q * dist p q = (px p - px q) * (px p - px q) + (py p - py q) * (py p - py q).
Proof. intros; apply sqrt_sqrt, sq_sum. Qed.
Lemma dist_sym : forall p q, dist p q = dist q p.
Proof. intros; unfold dist; f_equal; ring. Qed.
Lemma dist_zero : forall p q, dist p q = 0 <-> p = q.
Proof.
  intros p q; split; [intros H|intros ->].
  - pose proof (dist_sq p q) as D; rewrite H, Rmult_0_l in D; symmetry in D;
    apply sq_sum_zero in D; apply pt_eq; lra.
  - unfold dist; rewrite !Rminus_diag_eq by reflexivity.
    replace (0 * 0 + 0 * 0) with 0 by ring; apply sqrt_0.
Qed.
Lemma dist_eq_sq : forall p q r, 0 <= r ->
  (px p - px q) * (px p - px q) + (py p - py q) * (py p - py q) = r * r -> dist p q = r.
Proof. intros p q r H E; unfold dist; rewrite E; apply sqrt_square; exact H. Qed.
Lemma dist_ne : forall p q, p <> q -> 0 < dist p q.
Proof.
  intros p q H; destruct (Rle_lt_or_eq_dec 0 (dist p q) (dist_pos p q)); [easy|].
  exfalso; apply H, dist_zero; congruence.
Qed.

Lemma lagrange : forall u v, pdot u v * pdot u v + pdet u v * pdet u v = pdot u u * pdot v v.
Proof. intros; unfold pdot, pdet; ring. Qed.

(** ** np.sign *)
Lemma rsign_pos : forall x, rsign x = 1%Z <-> 0 < x.
Proof.
  intros; unfold rsign; destruct (rlt 0 x) eqn:A; [apply rlt_true in A|apply rlt_false in A];
    destruct (rlt x 0) eqn:B; [apply rlt_true in B|apply rlt_false in B|apply rlt_true in B|apply rlt_false in B];
    split; intros; try easy; lra.
Qed.
Lemma rsign_neg : forall x, rsign x = (-1)%Z <-> x < 0.
Proof.
  intros; unfold rsign; destruct (rlt 0 x) eqn:A; [apply rlt_true in A|apply rlt_false in A];
    destruct (rlt x 0) eqn:B; [apply rlt_true in B|apply rlt_false in B|apply rlt_true in B|apply rlt_false in B];
    split; intros; try easy; lra.
Qed.
Lemma rsign_zero : forall x, rsign x = 0%Z <-> x = 0.
Proof.
  intros; unfold rsign; destruct (rlt 0 x) eqn:A; [apply rlt_true in A|apply rlt_false in A];
    destruct (rlt x 0) eqn:B; [apply rlt_true in B|apply rlt_false in B|apply rlt_true in B|apply rlt_false in B];
    split; intros; try easy; lra.
Qed.
Lemma rsign_opp : forall x, rsign (- x) = (- rsign x)%Z.
Proof.
  intros; destruct (Rtotal_order x 0) as [H|[H|H]].
  - rewrite (proj2 (rsign_pos (- x))) by lra. rewrite (proj2 (rsign_neg x)) by lra. reflexivity.
  - subst. rewrite Ropp_0. now rewrite (proj2 (rsign_zero 0)).
  - rewrite (proj2 (rsign_neg (- x))) by lra. rewrite (proj2 (rsign_pos x)) by lra. reflexivity.
Qed.
Lemma rsign_scale : forall k x, 0 < k -> rsign (k * x) = rsign x.
Proof.
  intros k x K; destruct (Rtotal_order x 0) as [H|[H|H]].
  - rewrite (proj2 (rsign_neg (k * x))) by nra. now rewrite (proj2 (rsign_neg x)).
  - subst. now rewrite Rmult_0_r.
  - rewrite (proj2 (rsign_pos (k * x))) by nra. now rewrite (proj2 (rsign_pos x)).
Qed.

(** ** Angles *)
Lemma clip1_id : forall x, -1 <= x <= 1 -> clip1 x = x.
Proof. intros x H; unfold clip1. rewrite Rmax_left by lra. apply Rmin_left; lra. Qed.

Definition punit (v : pt) : pt := P (px v / pnorm v) (py v / pnorm v).

Lemma normalize_ok : forall v, pnorm v <> 0 -> normalize v = Ok (punit v).
Proof. intros v H; unfold normalize; now rewrite (proj2 (req_false _ _) H). Qed.
Lemma normalize_inv : forall v u, normalize v = Ok u -> pnorm v <> 0 /\ u = punit v.
Proof.
  intros v u H; unfold normalize in H; destruct (req (pnorm v) 0) eqn:E; [easy|].
  apply req_false in E. inversion H; split; [exact E|reflexivity].
Qed.
Lemma punit_norm : forall v, pnorm v <> 0 -> pdot (punit v) (punit v) = 1.
Proof.
  intros v H; pose proof (pnorm_sq v) as S; unfold pdot, punit in *; cbn [px py] in *.
  replace (px v / pnorm v * (px v / pnorm v) + py v / pnorm v * (py v / pnorm v))
    with ((px v * px v + py v * py v) / (pnorm v * pnorm v)) by (field; exact H).
  rewrite <- S; field; exact H.
Qed.
Lemma punit_scale : forall v, pnorm v <> 0 -> v = pscale (pnorm v) (punit v).
Proof. intros v H; apply pt_eq; unfold pscale, punit; cbn [px py]; field; exact H. Qed.

Lemma sqrt_abs : forall x y, x * x + y * y = 1 -> sqrt (1 - x²) = Rabs y.
Proof.
  intros x y H; replace (1 - x²) with (y²) by (unfold Rsqr; lra). apply sqrt_Rsqr_abs.
Qed.

(** the angle between two unit vectors *)
Lemma acos_pair : forall x y, x * x + y * y = 1 ->
  cos (acos x) = x /\ sin (acos x) = Rabs y /\ 0 <= acos x <= PI.
Proof.
  intros x y H.
  assert (B : -1 <= x <= 1) by nra.
  split; [apply cos_acos; exact B|split].
  - rewrite sin_acos by exact B. apply sqrt_abs; exact H.
  - apply acos_bound.
Qed.

Lemma acos_lt : forall x, -1 <= x < 1 -> 0 < acos x.
Proof.
  intros x H. destruct (acos_bound x) as [[A|A] B]; [exact A|].
  assert (C : cos (acos x) = x) by (apply cos_acos; lra).
  rewrite <- A, cos_0 in C. lra.
Qed.
Lemma acos_zero : acos 1 = 0.
Proof. exact acos_1. Qed.

Definition angle_of (u e : pt) (w : Z) (m : R) : Prop :=
  cos m = pdot u e /\ IZR w * sin m = pdet u e /\ 0 <= m < 2 * PI.

Lemma arc_angle_inv : forall ps pe pc w m, (w = 1 \/ w = -1)%Z ->
  arc_angle ps pe pc w = Ok m ->
  ps <> pc /\ pe <> pc /\
  angle_of (punit (psub ps pc)) (punit (psub pe pc)) w m.
Proof.
  intros ps pe pc w m W H; unfold arc_angle in H.
  destruct (normalize (psub ps pc)) as [us|] eqn:US; [|easy].
  destruct (normalize (psub pe pc)) as [ue|] eqn:UE; [|easy].
  cbn [bind] in H.
  apply normalize_inv in US. destruct US as [NS US].
  apply normalize_inv in UE. destruct UE as [NE UE].
  split; [intros ->; apply NS; rewrite pnorm_dist; now apply dist_zero|].
  split; [intros ->; apply NE; rewrite pnorm_dist; now apply dist_zero|].
  rewrite <- US, <- UE in *.
  assert (LU : pdot us us = 1) by (rewrite US; apply punit_norm; exact NS).
  assert (LE : pdot ue ue = 1) by (rewrite UE; apply punit_norm; exact NE).
  pose proof (lagrange us ue) as L. rewrite LU, LE in L.
  assert (L1 : pdot us ue * pdot us ue + pdet us ue * pdet us ue = 1) by lra.
  destruct (acos_pair _ _ L1) as (C & S & B).
  assert (Bd : -1 <= pdot us ue <= 1) by nra.
  rewrite (clip1_id _ Bd) in H. unfold vector_left in H.
  assert (PP := PI_RGT_0).
  unfold angle_of.
  destruct (Rtotal_order (pdet us ue) 0) as [X|[X|X]].
  - rewrite (proj2 (rsign_neg _) X) in H. rewrite Rabs_left in S by exact X.
    assert (A0 : 0 < acos (pdot us ue)) by (apply acos_lt; nra).
    destruct W; subst w; cbn in H; inversion H; subst m.
    + rewrite cos_minus, sin_minus, cos_2PI, sin_2PI, C, S. repeat split; lra.
    + rewrite C, S. repeat split; lra.
  - rewrite (proj2 (rsign_zero _) X) in H. rewrite X, Rabs_R0 in S.
    assert (m = acos (pdot us ue)) by (destruct W; subst w; cbn in H; now inversion H).
    subst m. rewrite C, S, X. repeat split; lra.
  - rewrite (proj2 (rsign_pos _) X) in H. rewrite Rabs_right in S by lra.
    assert (A0 : 0 < acos (pdot us ue)) by (apply acos_lt; nra).
    destruct W; subst w; cbn in H; inversion H; subst m.
    + rewrite C, S. repeat split; lra.
    + rewrite cos_minus, sin_minus, cos_2PI, sin_2PI, C, S. repeat split; lra.
Qed.

Lemma arc_angle_total : forall ps pe pc w, ps <> pc -> pe <> pc ->
  exists m, arc_angle ps pe pc w = Ok m.
Proof.
  intros ps pe pc w A B; unfold arc_angle.
  assert (A1 := dist_ne _ _ A). assert (B1 := dist_ne _ _ B).
  rewrite (normalize_ok (psub ps pc)) by (rewrite pnorm_dist; lra).
  rewrite (normalize_ok (psub pe pc)) by (rewrite pnorm_dist; lra).
  cbn [bind]. destruct (_ <? _)%Z; eauto.
Qed.

(** the angle is determined by its cosine, the signed sine and the range *)
Lemma angle_unique : forall x y, 0 <= x < 2 * PI -> 0 <= y < 2 * PI ->
  cos x = cos y -> sin x = sin y -> x = y.
Proof.
  assert (Z : forall z, 0 <= z < 2 * PI -> cos z = 1 -> z = 0).
  { intros z [Hz Hz2] C.
    destruct (Req_dec z 0) as [|N]; [easy|exfalso].
    assert (S : sin (z / 2) = 0).
    { pose proof (cos_2a_sin (z / 2)) as D. replace (2 * (z / 2)) with z in D by lra.
      rewrite C in D. nra. }
    assert (0 < sin (z / 2)) by (apply sin_gt_0; lra). lra. }
  intros x y Hx Hy C S.
  assert (D : cos (x - y) = 1).
  { rewrite cos_minus, C, S. pose proof (sin2_cos2 y) as Q. unfold Rsqr in Q. lra. }
  destruct (Rle_dec y x).
  - assert (x - y = 0) by (apply Z; [lra|exact D]). lra.
  - assert (y - x = 0).
    { apply Z; [lra|]. rewrite <- (cos_neg (y - x)). replace (- (y - x)) with (x - y) by ring. exact D. }
    lra.
Qed.

Lemma start_angle : forall d, pnorm d <> 0 ->
  let a := acos (px d / pnorm d) * (if rlt (py d) 0 then -1 else 1) in
  px d = pnorm d * cos a /\ py d = pnorm d * sin a.
Proof.
  intros d H a.
  pose proof (punit_norm d H) as U. unfold pdot, punit in U; cbn [px py] in U.
  destruct (acos_pair _ _ U) as (C & S & _).
  assert (NP : 0 < pnorm d) by (pose proof (pnorm_pos d); lra).
  unfold a; destruct (rlt (py d) 0) eqn:E.
  - apply rlt_true in E.
    replace (acos (px d / pnorm d) * -1) with (- acos (px d / pnorm d)) by ring.
    rewrite cos_neg, sin_neg, C, S.
    rewrite Rabs_left by (apply Rmult_lt_reg_r with (pnorm d); [exact NP|]; field_simplify; lra).
    split; field; exact H.
  - apply rlt_false in E. rewrite Rmult_1_r, C, S.
    rewrite Rabs_right.
    + split; field; exact H.
    + apply Rle_ge, Rmult_le_pos; [exact E|]. left; now apply Rinv_0_lt_compat.
Qed.

(** ** Arcs *)
Lemma fold_padd : forall l a b, fold_left padd l (padd a b) = padd a (fold_left padd l b).
Proof.
  induction l as [|c l IH]; intros a b; cbn [fold_left]; [reflexivity|].
  replace (padd (padd a b) c) with (padd a (padd b c)); [apply IH|].
  apply pt_eq; cbn; ring.
Qed.

Lemma update_arc_ok : forall ps pe pc w n, (w = 1 \/ w = -1)%Z ->
  update_arc ps pe pc w = Ok n ->
  exists m a, arc_angle ps pe pc w = Ok m /\
    n = Arc ps pe pc w pc (dist ps pc) a w [] m (dist ps pc) (dist ps pc * m) /\
    0 < dist ps pc /\
    px ps - px pc = dist ps pc * cos a /\ py ps - py pc = dist ps pc * sin a.
Proof.
  intros ps pe pc w n W H; unfold update_arc in H.
  destruct (arc_angle ps pe pc w) as [m|] eqn:A; [|easy]. cbn [bind] in H.
  destruct (arc_angle_inv _ _ _ _ _ W A) as (N & _ & _).
  assert (D := dist_ne _ _ N).
  destruct (start_angle (psub ps pc)) as [X Y]; [rewrite pnorm_dist; lra|].
  rewrite pnorm_dist in X, Y.
  eexists m, _. split; [reflexivity|]. inversion H; subst n.
  split; [reflexivity|]. split; [exact D|]. split; [exact X|exact Y].
Qed.

Lemma update_arc_total : forall ps pe pc w, (w = 1 \/ w = -1)%Z -> ps <> pc -> pe <> pc ->
  exists n, update_arc ps pe pc w = Ok n.
Proof.
  intros ps pe pc w W A B; unfold update_arc.
  destruct (arc_angle_total ps pe pc w A B) as [m ->]. cbn [bind]; eauto.
Qed.

Lemma check_arc_ok : forall n u, check_arc n = Ok u ->
  0 < a_len n /\
  Rabs (dist (a_end n) (a_center n) - dist (a_start n) (a_center n)) <= / 100000000.
Proof.
  intros n u H; unfold check_arc in H.
  destruct (rle (a_len n) 0) eqn:E; [easy|]. apply rle_false in E.
  rewrite !pnorm_dist in H. unfold isclose, tol8 in H.
  destruct (rle _ _) eqn:F in H; [|easy]. apply rle_true in F.
  rewrite Rabs_R0, Rminus_0_r in F. split; lra.
Qed.
Lemma check_arc_intro : forall n, 0 < a_len n ->
  Rabs (dist (a_end n) (a_center n) - dist (a_start n) (a_center n)) <= / 100000000 ->
  check_arc n = Ok tt.
Proof.
  intros n L D; unfold check_arc. rewrite (proj2 (rle_false _ _) L).
  rewrite !pnorm_dist. unfold isclose, tol8.
  rewrite (proj2 (rle_true _ _)); [reflexivity|]. rewrite Rabs_R0, Rminus_0_r. lra.
Qed.

Lemma update_check_ok : forall ps pe pc w n u, (w = 1 \/ w = -1)%Z ->
  update_arc ps pe pc w = Ok n -> check_arc n = Ok u -> arc_ok n.
Proof.
  intros ps pe pc w n u W U C.
  destruct (update_arc_ok _ _ _ _ _ W U) as (m & a & A & -> & D & X & Y).
  apply check_arc_ok in C; cbn [a_len a_start a_end a_center] in C. destruct C as [L E].
  constructor; cbn; auto. nra.
Qed.

Lemma mk_arc_ok : forall ps pe pc ccw s, mk_arc ps pe pc ccw = Ok s ->
  exists a, s = SArc a /\ arc_ok a /\ a_start a = ps /\ a_end a = pe /\ a_center a = pc /\
    a_wind a = wsign ccw.
Proof.
  intros ps pe pc ccw s H; unfold mk_arc in H.
  assert (W : (wsign ccw = 1 \/ wsign ccw = -1)%Z) by (destruct ccw; auto).
  destruct (update_arc ps pe pc (wsign ccw)) as [n|] eqn:U; [|easy]; cbn [bind] in H.
  destruct (check_arc n) as [u|] eqn:C; [|easy]; cbn [bind] in H.
  inversion H; subst s. exists n; split; [reflexivity|].
  split; [exact (update_check_ok _ _ _ _ _ _ W U C)|].
  destruct (update_arc_ok _ _ _ _ _ W U) as (m & a & A & -> & D & X & Y).
  cbn; auto.
Qed.

(** the curve of an arc: the start turned around the center *)
Lemma arc_point_turned_gen : forall a s, center_of a = a_center a -> s_w a = a_wind a ->
  px (a_start a) - px (a_center a) = s_r a * cos (s_a a) ->
  py (a_start a) - py (a_center a) = s_r a * sin (s_a a) ->
  arc_point a s = turned (IZR (a_wind a) * s) (a_center a) (a_start a).
Proof.
  intros a s C W X Y; unfold arc_point. rewrite fold_padd.
  fold (center_of a). rewrite C, W.
  unfold turned, rot; apply pt_eq; cbn [px py padd]; rewrite X, Y.
  - rewrite cos_plus. rewrite (Rmult_comm s). ring.
  - rewrite sin_plus. rewrite (Rmult_comm s). ring.
Qed.
Lemma arc_point_turned : forall a s, arc_ok a ->
  arc_point a s = turned (IZR (a_wind a) * s) (a_center a) (a_start a).
Proof. intros a s K; destruct (ok_a a K); apply arc_point_turned_gen; auto; apply K. Qed.

Lemma turned_zero : forall c p, turned 0 c p = p.
Proof.
  intros; unfold turned, rot; apply pt_eq; cbn [px py]; rewrite cos_0, sin_0; ring.
Qed.
Lemma turned_dist : forall t c p, dist (turned t c p) c = dist p c.
Proof.
  intros; apply dist_eq_sq; [apply dist_pos|]. rewrite dist_sq.
  unfold turned, rot; cbn [px py]. pose proof (sin2_cos2 t) as Q. unfold Rsqr in Q.
  transitivity ((sin t * sin t + cos t * cos t) *
    ((px p - px c) * (px p - px c) + (py p - py c) * (py p - py c))); [ring|].
  rewrite Q; ring.
Qed.

Lemma cos_wind : forall w m, (w = 1 \/ w = -1)%Z -> cos (IZR w * m) = cos m.
Proof.
  intros w m [-> | ->]; [f_equal; ring|]. replace (-1 * m) with (- m) by ring. apply cos_neg.
Qed.
Lemma sin_wind : forall w m, (w = 1 \/ w = -1)%Z -> sin (IZR w * m) = IZR w * sin m.
Proof.
  intros w m [-> | ->]; [rewrite !Rmult_1_l; reflexivity|].
  replace (-1 * m) with (- m) by ring. rewrite sin_neg. ring.
Qed.

(** the end of an arc lies in the direction of the end point *)
Lemma turned_end_direction : forall ps pe pc w m, (w = 1 \/ w = -1)%Z ->
  arc_angle ps pe pc w = Ok m ->
  turned (IZR w * m) pc ps = padd pc (pscale (dist ps pc) (punit (psub pe pc))).
Proof.
  intros ps pe pc w m W K.
  destruct (arc_angle_inv _ _ _ _ _ W K) as (NS & NE & C & S & _).
  assert (DS := dist_ne _ _ NS). assert (DE := dist_ne _ _ NE).
  unfold turned, rot. rewrite (cos_wind _ _ W), (sin_wind _ _ W).
  rewrite C, S.
  set (u := punit (psub ps pc)) in *.
  set (e := punit (psub pe pc)) in *.
  assert (U : pdot u u = 1) by (apply punit_norm; rewrite pnorm_dist; lra).
  assert (PU : psub ps pc = pscale (dist ps pc) u)
    by (rewrite <- pnorm_dist; apply punit_scale; rewrite pnorm_dist; lra).
  assert (X : px ps - px pc = dist ps pc * px u)
    by (change (px (psub ps pc) = px (pscale (dist ps pc) u)); now rewrite PU).
  assert (Y : py ps - py pc = dist ps pc * py u)
    by (change (py (psub ps pc) = py (pscale (dist ps pc) u)); now rewrite PU).
  unfold pdot in U.
  apply pt_eq; cbn [px py padd pscale]; rewrite X, Y; unfold pdot, pdet.
  - transitivity (px pc + dist ps pc * (px e * (px u * px u + py u * py u))); [ring|].
    rewrite U; ring.
  - transitivity (py pc + dist ps pc * (py e * (px u * px u + py u * py u))); [ring|].
    rewrite U; ring.
Qed.

Lemma arc_end_direction : forall a, arc_ok a ->
  arc_point a (a_max a) =
  padd (a_center a)
    (pscale (dist (a_start a) (a_center a)) (punit (psub (a_end a) (a_center a)))).
Proof.
  intros a K. rewrite (arc_point_turned a _ K).
  exact (turned_end_direction _ _ _ _ _ (ok_wind a K) (ok_max a K)).
Qed.
Lemma update_arc_end : forall ps pe pc w n, (w = 1 \/ w = -1)%Z ->
  update_arc ps pe pc w = Ok n ->
  arc_point n (a_max n) = padd pc (pscale (dist ps pc) (punit (psub pe pc))).
Proof.
  intros ps pe pc w n W H. destruct (update_arc_ok _ _ _ _ _ W H) as (m & a & A & -> & _ & X & Y).
  rewrite arc_point_turned_gen; [|reflexivity|reflexivity|exact X|exact Y].
  exact (turned_end_direction _ _ _ _ _ W A).
Qed.

Lemma arc_end_dist : forall a, arc_ok a ->
  dist (arc_point a (a_max a)) (a_end a) =
  Rabs (dist (a_end a) (a_center a) - dist (a_start a) (a_center a)).
Proof.
  intros a K. rewrite (arc_end_direction a K).
  destruct (arc_angle_inv _ _ _ _ _ (ok_wind a K) (ok_max a K)) as (_ & NE & _).
  assert (DE := dist_ne _ _ NE).
  apply dist_eq_sq; [apply Rabs_pos|].
  rewrite <- Rabs_mult. rewrite Rabs_right by (apply Rle_ge, Rle_0_sqr).
  set (e := punit (psub (a_end a) (a_center a))).
  assert (U : pdot e e = 1) by (apply punit_norm; rewrite pnorm_dist; lra).
  assert (PE : psub (a_end a) (a_center a) = pscale (dist (a_end a) (a_center a)) e)
    by (rewrite <- pnorm_dist; apply punit_scale; rewrite pnorm_dist; lra).
  assert (X : px (a_end a) = px (a_center a) + dist (a_end a) (a_center a) * px e).
  { assert (Q := f_equal px PE); cbn in Q; cbn; lra. }
  assert (Y : py (a_end a) = py (a_center a) + dist (a_end a) (a_center a) * py e).
  { assert (Q := f_equal py PE); cbn in Q; cbn; lra. }
  cbn [px py padd pscale]. unfold pdot in U.
  transitivity ((dist (a_end a) (a_center a) - dist (a_start a) (a_center a)) *
    (dist (a_end a) (a_center a) - dist (a_start a) (a_center a)) * (px e * px e + py e * py e)).
  - assert (X2 : px (a_center a) + dist (a_start a) (a_center a) * px e - px (a_end a) =
      (dist (a_start a) (a_center a) - dist (a_end a) (a_center a)) * px e) by (rewrite X at 1; ring).
    assert (Y2 : py (a_center a) + dist (a_start a) (a_center a) * py e - py (a_end a) =
      (dist (a_start a) (a_center a) - dist (a_end a) (a_center a)) * py e) by (rewrite Y at 1; ring).
    rewrite X2, Y2; ring.
  - rewrite U; ring.
Qed.
