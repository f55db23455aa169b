(** Lemmas about the operations on shapes. *)
From Coq Require Import Reals List ZArith Lra Lia Psatz Bool.
From Verif Require Import Base GeoModel GeoSpec GeoFacts.
Import ListNotations.
Open Scope R_scope.

(** ** Affine maps and lines *)
Definition affine (f : pt -> pt) : Prop :=
  forall a b t, f (padd (pscale (1 - t) a) (pscale t b)) =
                padd (pscale (1 - t) (f a)) (pscale t (f b)).

Lemma affine_linear : forall m, affine (mapply m).
Proof. intros m a b t; apply pt_eq; cbn; ring. Qed.
Lemma affine_shift : forall v, affine (fun p => padd p v).
Proof. intros v a b t; apply pt_eq; cbn; ring. Qed.

Lemma image_line : forall f k a b l l', affine f ->
  image f k (SLine a b l) (SLine (f a) (f b) l').
Proof.
  intros f k a b l l' A; cbn. repeat split; auto.
  intros x; unfold line_point; symmetry; apply A.
Qed.

Lemma image_compose : forall f g k l s t u,
  image f k s t -> image g l t u -> image (fun p => g (f p)) (k * l) s u.
Proof.
  intros f g k l s t u (A & M & G) (B & N & H).
  split; [|split; [congruence|intros x; rewrite H, G; reflexivity]].
  destruct s, t, u; try contradiction.
  - destruct A as [A1 A2], B as [B1 B2]. rewrite B1, B2, A1, A2; auto.
  - destruct A as (A1 & A2 & A3 & A4), B as (B1 & B2 & B3 & B4).
    rewrite B1, B2, B3, B4, A1, A2, A3, A4. repeat split; auto. ring.
Qed.
Lemma image_ext : forall f g k l s t, (forall p, f p = g p) -> k = l -> image f k s t -> image g l s t.
Proof.
  intros f g k l s t E -> (A & M & G). split; [|split; [exact M|intros x; now rewrite G]].
  destruct s, t; try contradiction.
  - destruct A as [A1 A2]. rewrite A1, A2. split; apply E.
  - destruct A as (A1 & A2 & A3 & A4). rewrite A1, A2, A3, A4. repeat split; auto.
Qed.
Lemma images_compose : forall f g k l s t u,
  Forall2 (image f k) s t -> Forall2 (image g l) t u ->
  Forall2 (image (fun p => g (f p)) (k * l)) s u.
Proof.
  intros f g k l s t u H; revert u; induction H as [|a b s t I H IH]; intros u J;
    inversion J; subst; constructor; [eapply image_compose; eauto|apply IH; auto].
Qed.
Lemma images_ext : forall f g k l s t, (forall p, f p = g p) -> k = l ->
  Forall2 (image f k) s t -> Forall2 (image g l) s t.
Proof.
  intros f g k l s t E K H; induction H; constructor; auto. eapply image_ext; eauto.
Qed.

Lemma image_start : forall f k s t, image f k s t -> point_start t = f (point_start s).
Proof. intros f k s t (_ & _ & G); apply G. Qed.
Lemma image_end : forall f k s t, image f k s t -> point_end t = f (point_end s).
Proof. intros f k s t (_ & M & G); unfold point_end; rewrite M; apply G. Qed.

Lemma images_joined : forall f k l l', Forall2 (image f k) l l' -> joined l -> joined l'.
Proof.
  intros f k l l' H; induction H as [|a b l l' I H IH]; [auto|].
  destruct H as [|c d l l' J H]; [auto|]. intros [E R]; split; [|exact (IH R)].
  rewrite (image_end _ _ _ _ I), (image_start _ _ _ _ J), E. reflexivity.
Qed.

(** ** Translations *)
Lemma psub_shift : forall a b v, psub (padd a v) (padd b v) = psub a b.
Proof. intros; apply pt_eq; cbn; ring. Qed.
Lemma dist_shift : forall a b v, dist (padd a v) (padd b v) = dist a b.
Proof. intros; rewrite <- !pnorm_dist, psub_shift; reflexivity. Qed.

Lemma translate_ok : forall v s, seg_ok s ->
  seg_ok (translate_seg v s) /\ image (fun p => padd p v) 1 s (translate_seg v s).
Proof.
  intros v [a b l|a] K; cbn [translate_seg].
  - split; [|exact (image_line (fun p => padd p v) 1 a b l l (affine_shift v))]. cbn in *. now rewrite dist_shift.
  - assert (Q : forall x, arc_point (Arc (padd (a_start a) v) (padd (a_end a) v)
        (padd (a_center a) v) (a_wind a) (s_o a) (s_r a) (s_a a) (s_w a) (s_t a ++ [v])
        (a_max a) (a_radius a) (a_len a)) x = padd (arc_point a x) v).
    { intros x; unfold arc_point; cbn. now rewrite fold_left_app. }
    split.
    + cbn [seg_ok] in *. destruct K. constructor; cbn [a_start a_end a_center a_wind s_o s_r s_a s_w s_t a_max a_radius a_len].
      * unfold center_of in *; cbn. rewrite fold_left_app; cbn. now rewrite ok_center.
      * exact ok_wind.
      * exact ok_w.
      * now rewrite dist_shift.
      * exact ok_pos.
      * cbn. destruct ok_a; split; lra.
      * unfold arc_angle in *. now rewrite !psub_shift.
      * exact ok_len.
      * exact ok_len_pos.
      * now rewrite !dist_shift.
    + cbn [image]. split; [cbn; repeat split; ring|split; [reflexivity|exact Q]].
Qed.

Lemma translate_shape_ok : forall v sh, Forall seg_ok sh ->
  Forall seg_ok (translate_shape v sh) /\
  Forall2 (image (fun p => padd p v) 1) sh (translate_shape v sh).
Proof.
  intros v sh K; induction K as [|s sh H K [IH1 IH2]]; cbn; [auto|].
  destruct (translate_ok v s H). split; constructor; auto.
Qed.

(** ** Similarity transformations *)
Definition similarity (m : mat2) (c : R) (k : Z) : Prop :=
  0 < c /\ (k = 1 \/ k = -1)%Z /\
  q00 m * q00 m + q10 m * q10 m = c * c /\
  q11 m = IZR k * q00 m /\ q01 m = - IZR k * q10 m.

Lemma orthogonal_similarity : forall m c, 0 < c ->
  q00 m * q00 m + q10 m * q10 m = c * c ->
  q01 m * q01 m + q11 m * q11 m = c * c ->
  q00 m * q01 m + q10 m * q11 m = 0 -> exists k, similarity m c k.
Proof.
  intros m c C A B D.
  assert (E : mdet m * mdet m = (c * c) * (c * c)).
  { unfold mdet. transitivity ((q00 m * q00 m + q10 m * q10 m) * (q01 m * q01 m + q11 m * q11 m)
      - (q00 m * q01 m + q10 m * q11 m) * (q00 m * q01 m + q10 m * q11 m)); [ring|].
    rewrite A, B, D; ring. }
  assert (F : (mdet m - c * c) * (mdet m + c * c) = 0) by (ring_simplify; lra).
  assert (S11 : c * c * q11 m = mdet m * q00 m).
  { unfold mdet. rewrite <- A.
    transitivity (q00 m * q00 m * q11 m + q10 m * (q10 m * q11 m)); [ring|].
    replace (q10 m * q11 m) with (- (q00 m * q01 m)) by lra. ring. }
  assert (S01 : c * c * q01 m = - mdet m * q10 m).
  { unfold mdet. rewrite <- A.
    transitivity (q00 m * (q00 m * q01 m) + q10 m * q10 m * q01 m); [ring|].
    replace (q00 m * q01 m) with (- (q10 m * q11 m)) by lra. ring. }
  assert (CC : c * c <> 0) by nra.
  apply Rmult_integral in F; destruct F as [F|F].
  - exists 1%Z. repeat split; auto.
    + apply Rmult_eq_reg_l with (c * c); [|exact CC]. rewrite S11.
      replace (mdet m) with (c * c) by lra. ring.
    + apply Rmult_eq_reg_l with (c * c); [|exact CC]. rewrite S01.
      replace (mdet m) with (c * c) by lra. ring.
  - exists (-1)%Z. repeat split; auto.
    + apply Rmult_eq_reg_l with (c * c); [|exact CC]. rewrite S11.
      replace (mdet m) with (- (c * c)) by lra. ring.
    + apply Rmult_eq_reg_l with (c * c); [|exact CC]. rewrite S01.
      replace (mdet m) with (- (c * c)) by lra. ring.
Qed.

Section Similar.
Variable m : mat2.
Variable c : R.
Variable k : Z.
Hypothesis H : similarity m c k.

Lemma k_sq : IZR k * IZR k = 1.
Proof. destruct H as (_ & [-> | ->] & _); ring. Qed.
Lemma k_case : (k = 1 \/ k = -1)%Z.
Proof. apply H. Qed.
Lemma sim_dot : forall u v, pdot (mapply m u) (mapply m v) = c * c * pdot u v.
Proof.
  intros u v; destruct H as (C & K & A & B & D); unfold pdot, mapply; cbn [px py]; rewrite B, D.
  destruct K as [-> | ->]; rewrite <- A; ring.
Qed.
Lemma sim_det : forall u v, pdet (mapply m u) (mapply m v) = IZR k * (c * c) * pdet u v.
Proof.
  intros u v; destruct H as (C & K & A & B & D); unfold pdet, mapply; cbn [px py]; rewrite B, D.
  destruct K as [-> | ->]; rewrite <- A; ring.
Qed.
Lemma sim_mdet : mdet m = IZR k * (c * c).
Proof.
  destruct H as (C & K & A & B & D); unfold mdet; rewrite B, D.
  destruct K as [-> | ->]; rewrite <- A; ring.
Qed.
Lemma sim_reflection : reflection_sign m = Ok k.
Proof.
  unfold reflection_sign. rewrite sim_mdet. destruct H as (C & K & _).
  assert (CC : 0 < c * c) by nra.
  destruct K as [-> | ->].
  - rewrite (proj2 (rsign_pos _)) by nra. reflexivity.
  - rewrite (proj2 (rsign_neg _)) by nra. reflexivity.
Qed.
Lemma mapply_sub : forall a b, psub (mapply m a) (mapply m b) = mapply m (psub a b).
Proof. intros; apply pt_eq; cbn; ring. Qed.
Lemma sim_norm : forall v, pnorm (mapply m v) = c * pnorm v.
Proof.
  intros v; unfold pnorm. rewrite sim_dot. destruct H as (C & _).
  rewrite sqrt_mult; [|nra|apply pdot_pos]. rewrite sqrt_square by lra. reflexivity.
Qed.
Lemma sim_dist : forall a b, dist (mapply m a) (mapply m b) = c * dist a b.
Proof. intros; rewrite <- !pnorm_dist, mapply_sub, sim_norm; reflexivity. Qed.
Lemma sim_unit : forall v, pnorm v <> 0 ->
  punit (mapply m v) = pscale (/ c) (mapply m (punit v)).
Proof.
  intros v N; destruct H as (C & _). unfold punit at 1. rewrite sim_norm.
  apply pt_eq; unfold punit; cbn [px py pscale mapply]; field; split; lra.
Qed.

Lemma sim_angle : forall ps pe pc w, (w = 1 \/ w = -1)%Z ->
  arc_angle (mapply m ps) (mapply m pe) (mapply m pc) (w * k) = arc_angle ps pe pc w.
Proof.
  intros ps pe pc w W; unfold arc_angle. rewrite !mapply_sub.
  assert (C : 0 < c) by apply H.
  assert (N : forall v, normalize (mapply m v) =
    bind (normalize v) (fun u => Ok (pscale (/ c) (mapply m u)))).
  { intros v; unfold normalize at 2. destruct (req (pnorm v) 0) eqn:E.
    - apply req_true in E. unfold normalize. rewrite sim_norm, E, Rmult_0_r.
      now rewrite (proj2 (req_true 0 0)).
    - apply req_false in E. cbn [bind]. rewrite normalize_ok.
      + now rewrite sim_unit.
      + rewrite sim_norm. intros Q. apply Rmult_integral in Q. lra. }
  rewrite !N.
  destruct (normalize (psub ps pc)) as [us|]; [|reflexivity]; cbn [bind].
  destruct (normalize (psub pe pc)) as [ue|]; [|reflexivity]; cbn [bind].
  assert (DD : pdot (pscale (/ c) (mapply m us)) (pscale (/ c) (mapply m ue)) = pdot us ue).
  { transitivity (/ c * / c * pdot (mapply m us) (mapply m ue)); [unfold pdot, pscale; cbn [px py]; ring|].
    rewrite sim_dot. field; lra. }
  assert (DT : pdet (pscale (/ c) (mapply m us)) (pscale (/ c) (mapply m ue)) = IZR k * pdet us ue).
  { transitivity (/ c * / c * pdet (mapply m us) (mapply m ue)); [unfold pdet, pscale; cbn [px py]; ring|].
    rewrite sim_det. field; lra. }
  unfold vector_left. rewrite DD, DT.
  assert (SG : (0 <? Z.abs (rsign (IZR k * pdet us ue) + w * k))%Z =
               (0 <? Z.abs (rsign (pdet us ue) + w))%Z).
  { destruct k_case as [-> | ->].
    - now rewrite Rmult_1_l, Z.mul_1_r.
    - replace (-1 * pdet us ue) with (- pdet us ue) by ring. rewrite rsign_opp.
      replace (- rsign (pdet us ue) + w * -1)%Z with (- (rsign (pdet us ue) + w))%Z by ring.
      now rewrite Z.abs_opp. }
  now rewrite SG.
Qed.

Lemma sim_turned : forall t p q,
  mapply m (turned t q p) = turned (IZR k * t) (mapply m q) (mapply m p).
Proof.
  intros t p q; destruct H as (C & K & A & B & D).
  unfold turned, rot, mapply; apply pt_eq; cbn [px py]; rewrite B, D;
    destruct K as [-> | ->]; rewrite ?Rmult_1_l;
    replace (-1 * t) with (- t) by ring; rewrite ?cos_neg, ?sin_neg; ring.
Qed.

Lemma transform_sim : forall s, seg_ok s -> c <= 1 \/ exact_radius s ->
  exists s', transform_seg m s = (s', Ok tt) /\ seg_ok s' /\ image (mapply m) k s s' /\
    (exact_radius s -> exact_radius s').
Proof.
  intros [a b l|a] K E.
  - cbn in K. destruct K as [-> L]. cbn [transform_seg].
    rewrite mapply_sub, sim_norm.
    assert (P : 0 < c * pnorm (psub b a)).
    { rewrite pnorm_dist, dist_sym. assert (0 < c) by apply H. nra. }
    rewrite (proj2 (rle_false _ _) P). eexists; split; [reflexivity|]. split.
    + cbn. rewrite sim_dist, pnorm_dist, (dist_sym b a). split; [reflexivity|].
      now rewrite pnorm_dist, (dist_sym b a) in P.
    + split; [apply (image_line (mapply m)), affine_linear|auto].
  - cbn [seg_ok] in K. cbn [transform_seg]. rewrite sim_reflection.
    assert (WK : (a_wind a * k = 1 \/ a_wind a * k = -1)%Z).
    { destruct (ok_wind a K) as [-> | ->], k_case as [-> | ->]; auto. }
    assert (AN := sim_angle (a_start a) (a_end a) (a_center a) (a_wind a) (ok_wind a K)).
    rewrite (ok_max a K) in AN.
    destruct (update_arc (mapply m (a_start a)) (mapply m (a_end a)) (mapply m (a_center a))
                (a_wind a * k)) as [n|] eqn:U.
    2:{ unfold update_arc in U. rewrite AN in U. discriminate. }
    destruct (update_arc_ok _ _ _ _ _ WK U) as (mm & al & A2 & EN & D & X & Y).
    rewrite AN in A2. inversion A2; subst mm.
    assert (LP : 0 < a_len n) by (rewrite EN; cbn [a_len]; pose proof (ok_len_pos a K); nra).
    rewrite (proj2 (rle_false _ _) LP).
    assert (R : Rabs (dist (a_end n) (a_center n) - dist (a_start n) (a_center n)) <= / 100000000).
    { rewrite EN; cbn [a_end a_center a_start]. rewrite !sim_dist.
      rewrite <- Rmult_minus_distr_l, Rabs_mult. assert (0 < c) by apply H.
      rewrite (Rabs_right c) by lra. pose proof (ok_end a K).
      destruct E as [E|E].
      - pose proof (Rabs_pos (dist (a_end a) (a_center a) - dist (a_start a) (a_center a))). nra.
      - cbn in E. rewrite E, Rminus_diag_eq, Rabs_R0, Rmult_0_r by reflexivity. lra. }
    assert (CH : check_arc n = Ok tt) by (apply check_arc_intro; assumption).
    assert (NK : arc_ok n) by exact (update_check_ok _ _ _ _ _ _ WK U CH).
    rewrite CH. exists (SArc n). split; [reflexivity|]. split; [exact NK|]. split.
    + cbn [image]. split; [rewrite EN; cbn; auto|]. split; [cbn; rewrite EN; reflexivity|].
      intros x; cbn [get_point]. rewrite (arc_point_turned n x NK), (arc_point_turned a x K).
      rewrite sim_turned. rewrite EN; cbn [a_wind a_center a_start].
      f_equal. rewrite mult_IZR. ring.
    + cbn. rewrite EN; cbn. rewrite !sim_dist. congruence.
Qed.

Lemma transform_shape_sim : forall sh, Forall seg_ok sh ->
  (c <= 1 \/ Forall exact_radius sh) ->
  exists sh', transform_shape m sh = (sh', Ok tt) /\ Forall seg_ok sh' /\
    Forall2 (image (mapply m) k) sh sh' /\ (Forall exact_radius sh -> Forall exact_radius sh').
Proof.
  intros sh K; induction K as [|s sh A K IH]; intros E; cbn [transform_shape].
  - exists []; auto.
  - destruct (transform_sim s A) as (s' & -> & B & I & X).
    { destruct E as [E|E]; [now left|right; now inversion E]. }
    destruct IH as (r' & -> & C & J & Y).
    { destruct E as [E|E]; [now left|right; now inversion E]. }
    exists (s' :: r'); split; [reflexivity|]. split; [now constructor|]. split; [now constructor|].
    intros F; inversion F; subst; constructor; auto.
Qed.
End Similar.

(** invertible matrices on lines *)
Lemma transform_lines : forall m sh, mdet m <> 0 -> Forall seg_ok sh -> Forall is_line sh ->
  exists sh', transform_shape m sh = (sh', Ok tt) /\ Forall seg_ok sh' /\
    Forall2 (image (mapply m) 1) sh sh'.
Proof.
  intros m sh D K; induction K as [|s sh A K IH]; intros L; cbn [transform_shape].
  - exists []; auto.
  - inversion L; subst. destruct s as [a b l|]; [|contradiction].
    destruct A as [-> Lp]. cbn [transform_seg].
    assert (P : 0 < pnorm (psub (mapply m b) (mapply m a))).
    { rewrite pnorm_dist. apply dist_ne. intros E.
      assert (a = b); [|subst; rewrite (proj2 (dist_zero b b) eq_refl) in Lp; lra].
      assert (E1 := f_equal px E); assert (E2 := f_equal py E); cbn in E1, E2.
      unfold mdet in D. apply pt_eq.
      - apply Rmult_eq_reg_l with (q00 m * q11 m - q01 m * q10 m); [|exact D].
        apply Rminus_diag_uniq.
        transitivity (q11 m * ((q00 m * px a + q01 m * py a) - (q00 m * px b + q01 m * py b)) - q01 m * ((q10 m * px a + q11 m * py a) - (q10 m * px b + q11 m * py b))); [ring|]. rewrite E1, E2; ring.
      - apply Rmult_eq_reg_l with (q00 m * q11 m - q01 m * q10 m); [|exact D].
        apply Rminus_diag_uniq.
        transitivity (- q10 m * ((q00 m * px a + q01 m * py a) - (q00 m * px b + q01 m * py b)) - - q00 m * ((q10 m * px a + q11 m * py a) - (q10 m * px b + q11 m * py b))); [ring|]. rewrite E1, E2; ring. }
    rewrite (proj2 (rle_false _ _) P).
    destruct IH as (r' & -> & C & J); [assumption|].
    eexists; split; [reflexivity|]. split; constructor; auto.
    + cbn. split; [rewrite pnorm_dist; apply dist_sym|exact P].
    + apply (image_line (mapply m)), affine_linear.
Qed.

(** ** Closeness *)
Lemma isclose_iff : forall t a b, isclose t a b = true <-> Rabs (a - b) <= t + / 100000 * Rabs b.
Proof. intros; apply rle_true. Qed.
Lemma vector_is_close_iff : forall p q, vector_is_close p q = true <-> near p q.
Proof.
  intros; unfold vector_is_close, near. rewrite andb_true_iff, !isclose_iff.
  unfold tol9; reflexivity.
Qed.
Lemma near_refl : forall p, near p p.
Proof.
  intros p; unfold near; rewrite !Rminus_diag_eq, Rabs_R0 by reflexivity.
  pose proof (Rabs_pos (px p)); pose proof (Rabs_pos (py p)); split; lra.
Qed.
Lemma column_close_iff : forall p q, column_is_close p q = true <->
  near p q /\ near (P (py p) (px p)) q.
Proof.
  intros; unfold column_is_close, near; cbn [px py]. rewrite !andb_true_iff, !isclose_iff.
  unfold tol9; tauto.
Qed.

Lemma check_connected_iff : forall l, check_connected l = Ok tt <-> nearly_joined l.
Proof.
  induction l as [|a [|b r] IH]; [cbn; tauto|cbn; tauto|].
  change (check_connected (a :: b :: r)) with
    (if vector_is_close (point_end a) (point_start b) then check_connected (b :: r) else Err ValueError).
  change (nearly_joined (a :: b :: r)) with
    (near (point_end a) (point_start b) /\ nearly_joined (b :: r)).
  rewrite <- vector_is_close_iff, <- IH.
  destruct (vector_is_close _ _); split; intros; [split; auto|tauto|discriminate|].
  destruct H; discriminate.
Qed.
Lemma check_connected_res : forall l, check_connected l = Ok tt \/ check_connected l = Err ValueError.
Proof.
  induction l as [|a [|b r] IH]; [now left|now left|].
  change (check_connected (a :: b :: r)) with
    (if vector_is_close (point_end a) (point_start b) then check_connected (b :: r) else Err ValueError).
  destruct (vector_is_close _ _); [exact IH|now right].
Qed.
Lemma joined_nearly : forall l, joined l -> nearly_joined l.
Proof.
  induction l as [|a [|b r] IH]; [auto|auto|]. intros [E R]; split; [rewrite E; apply near_refl|exact (IH R)].
Qed.

Lemma joined_app : forall (f : pt -> pt -> Prop) (jn : list seg -> Prop),
  (forall a b r, jn (a :: b :: r) <-> f (point_end a) (point_start b) /\ jn (b :: r)) ->
  (forall a, jn [a]) -> jn [] ->
  forall l a b r, jn (l ++ [a]) -> f (point_end a) (point_start b) -> jn (b :: r) ->
  jn (l ++ a :: b :: r).
Proof.
  intros f jn C S N l; induction l as [|x l IH]; intros a b r A B R.
  - cbn. apply C; auto.
  - destruct l as [|y l].
    + cbn in *. apply C in A. apply C. split; [tauto|]. apply C; auto.
    + cbn in *. apply C in A. destruct A as [A1 A2]. apply C. split; [exact A1|]. now apply IH.
Qed.
Lemma joined_cons : forall a b r,
  joined (a :: b :: r) <-> point_end a = point_start b /\ joined (b :: r).
Proof. intros; reflexivity. Qed.
Lemma nearly_cons : forall a b r,
  nearly_joined (a :: b :: r) <-> near (point_end a) (point_start b) /\ nearly_joined (b :: r).
Proof. intros; reflexivity. Qed.

Lemma rev_cases : forall (A : Type) (l : list A), l = [] /\ rev l = [] \/
  exists h x, l = h ++ [x] /\ exists t, rev l = x :: t.
Proof.
  intros A l; destruct (rev l) as [|x t] eqn:E.
  - left; split; [|reflexivity]. rewrite <- (rev_involutive l), E. reflexivity.
  - right; exists (rev t), x. split; [|eauto]. rewrite <- (rev_involutive l), E. reflexivity.
Qed.

(** what [add_segments] does *)
Lemma add_segments_cases : forall sh new sh' o, add_segments sh new = (sh', o) ->
  (exists e, o = Err e /\ sh' = sh) \/
  (o = Ok tt /\ sh' = sh ++ new /\ nearly_joined new /\
   match sh with
   | [] => True
   | _ => exists h a f t, sh = h ++ [a] /\ new = f :: t /\ near (point_end a) (point_start f)
   end).
Proof.
  intros sh new sh' o H; unfold add_segments in H.
  destruct (rev_cases _ sh) as [[-> _]|(h & x & -> & t & R)].
  - cbn [rev] in H. destruct (check_connected_res new) as [C|C]; rewrite C in H; inversion H; subst.
    + right; repeat split; auto. now apply check_connected_iff.
    + left; eauto.
  - rewrite R in H. destruct new as [|f r]; [inversion H; left; eauto|].
    destruct (check_connected_res [x; f]) as [C|C]; rewrite C in H; [|inversion H; left; eauto].
    destruct (check_connected_res (f :: r)) as [D|D]; rewrite D in H; inversion H; subst; [|left; eauto].
    right; split; [reflexivity|split; [reflexivity|split]].
    + now apply check_connected_iff.
    + apply check_connected_iff in C. destruct C as [C _].
      destruct (h ++ [x]) eqn:Q; [exact I|]. rewrite <- Q. exists h, x, f, r; auto.
Qed.

Lemma add_segments_nearly : forall sh new sh' o, add_segments sh new = (sh', o) ->
  nearly_joined sh -> nearly_joined sh'.
Proof.
  intros sh new sh' o H J. destruct (add_segments_cases _ _ _ _ H) as [(e & _ & ->)|(_ & -> & N & M)];
    [exact J|].
  destruct sh as [|s sh]; [exact N|]. destruct M as (h & a & f & t & E & -> & C).
  rewrite E in *. rewrite <- app_assoc. cbn.
  apply (joined_app near nearly_joined nearly_cons); auto; cbn; auto.
Qed.

(** lines through a list of points *)
Lemma line_point_0 : forall a b, line_point a b 0 = a.
Proof.
  intros; unfold line_point, clip01. rewrite Rmax_left, Rmin_left by lra.
  apply pt_eq; cbn; ring.
Qed.
Lemma line_point_1 : forall a b, line_point a b 1 = b.
Proof.
  intros; unfold line_point, clip01. rewrite Rmax_left by lra. rewrite Rmin_left by lra.
  apply pt_eq; cbn; ring.
Qed.
Lemma mk_line_cases : forall a b,
  (a <> b /\ mk_line a b = Ok (SLine a b (dist a b))) \/ (a = b /\ mk_line a b = Err ValueError).
Proof.
  intros a b; unfold mk_line. rewrite pnorm_dist, dist_sym.
  destruct (rle (dist a b) 0) eqn:E.
  - apply rle_true in E. right; split; [|reflexivity]. apply dist_zero. pose proof (dist_pos a b); lra.
  - apply rle_false in E. left; split; [|reflexivity]. intros ->.
    rewrite (proj2 (dist_zero b b) eq_refl) in E; lra.
Qed.
Lemma mk_line_ok : forall a b s, mk_line a b = Ok s ->
  a <> b /\ s = SLine a b (dist a b) /\ seg_ok s.
Proof.
  intros a b s H; destruct (mk_line_cases a b) as [[N E]|[N E]]; rewrite E in H; inversion H; subst.
  split; [exact N|]. split; [reflexivity|]. cbn. split; [reflexivity|]. now apply dist_ne.
Qed.

Lemma line_chain_ok : forall l segs, line_chain l = Ok segs ->
  Forall seg_ok segs /\ Forall is_line segs /\ joined segs /\
  map point_start segs = removelast l /\ map point_end segs = tl l.
Proof.
  induction l as [|a [|b r] IH]; intros segs H; [inversion H; cbn; auto|inversion H; cbn; auto|].
  change (line_chain (a :: b :: r)) with
    (bind (mk_line a b) (fun s => bind (line_chain (b :: r)) (fun t => Ok (s :: t)))) in H.
  destruct (mk_line a b) as [s|] eqn:S; [|easy]; cbn [bind] in H.
  destruct (line_chain (b :: r)) as [t|] eqn:T; [|easy]; cbn [bind] in H.
  inversion H; subst segs. destruct (IH t eq_refl) as (K & L & J & MS & ME).
  apply mk_line_ok in S. destruct S as (N & ES & SO).
  split; [now constructor|]. split; [constructor; [rewrite ES; exact I|exact L]|].
  assert (PE : point_end s = b) by (rewrite ES; apply line_point_1).
  assert (PS : point_start s = a) by (rewrite ES; apply line_point_0).
  split.
  - destruct t as [|u t]; [exact I|]. apply joined_cons. split; [|exact J].
    rewrite PE. destruct r as [|c r]; [discriminate MS|]. cbn in MS. now inversion MS.
  - split.
    + cbn [map]. rewrite MS, PS. reflexivity.
    + cbn [map tl]. rewrite ME, PE. reflexivity.
Qed.

Lemma line_chain_total : forall l,
  (forall i, (S i < length l)%nat -> nth i l (P 0 0) <> nth (S i) l (P 0 0)) ->
  exists segs, line_chain l = Ok segs.
Proof.
  induction l as [|a [|b r] IH]; intros H; [cbn; eauto|cbn; eauto|].
  change (line_chain (a :: b :: r)) with
    (bind (mk_line a b) (fun s => bind (line_chain (b :: r)) (fun t => Ok (s :: t)))).
  destruct IH as [t T].
  { intros i Hi. apply (H (S i)). cbn in *; lia. }
  assert (N : a <> b) by (apply (H 0%nat); cbn; lia).
  destruct (mk_line_cases a b) as [[_ E]|[Q _]]; [|contradiction].
  rewrite E; cbn [bind]. rewrite T; cbn [bind]; eauto.
Qed.

(** ** Reflections *)
Lemma householder_similarity : forall n, pdot n n <> 0 -> similarity (householder n) 1 (-1).
Proof.
  intros n N; unfold similarity, householder; cbn [q00 q01 q10 q11].
  split; [lra|]. split; [auto|]. unfold pdot in *. split; [|split]; field; exact N.
Qed.

Definition mirror_map (n : pt) (d : R) (p : pt) : pt :=
  let off := reflection_offset n d in
  padd (mapply (householder n) (padd p (P (- px off) (- py off)))) off.

Lemma mirror_map_spec : forall n d p, pdot n n <> 0 -> mirror_normal n d p (mirror_map n d p).
Proof.
  intros n d p N.
  assert (S : sqrt (pdot n n) * sqrt (pdot n n) = pdot n n) by (apply sqrt_sqrt, pdot_pos).
  assert (S0 : sqrt (pdot n n) <> 0) by (intros Q; rewrite Q in S; lra).
  unfold mirror_normal, on_normal_line, midpoint, mirror_map, reflection_offset, householder.
  change (px n * px n + py n * py n) with (pdot n n).
  cbn [px py padd mapply q00 q01 q10 q11].
  set (s := sqrt (pdot n n)) in *. set (q := pdot n n) in *.
  assert (Q : q = px n * px n + py n * py n) by reflexivity.
  split.
  - assert (E : px n * px n + py n * py n = s * s) by (rewrite <- Q; lra).
    assert (E2 : q = s * s) by lra. rewrite E2.
    apply Rmult_eq_reg_l with (s * s * s); [|repeat apply Rmult_integral_contrapositive_currified; exact S0].
    field_simplify; [|exact S0].
    replace (px n ^ 2) with (s * s - py n * py n) by nra.
    replace (px n ^ 3) with (px n * (s * s - py n * py n)) by (rewrite <- E; ring).
    replace (px n ^ 4) with ((s * s - py n * py n) * (s * s - py n * py n)) by (rewrite <- E; ring).
    field.
  - field. split; [exact S0|rewrite Q in N; exact N].
Qed.

Lemma mirror_solve : forall n d p q, px n * px n + py n * py n <> 0 -> mirror_normal n d p q ->
  let N := px n * px n + py n * py n in
  let s := px n * px p + py n * py p in
  px q * N = px p * N + (2 * d * sqrt N - 2 * s) * px n /\
  py q * N = py p * N + (2 * d * sqrt N - 2 * s) * py n.
Proof.
  intros n d p q NZ [A B]; unfold on_normal_line, midpoint in A; cbn [px py] in A; cbv zeta.
  set (r := d * sqrt (px n * px n + py n * py n)) in *.
  replace (2 * d * sqrt (px n * px n + py n * py n)) with (2 * r) by (unfold r; ring).
  assert (C : px n * px q + py n * py q = 2 * r - (px n * px p + py n * py p)) by lra.
  assert (B2 : px n * py q - py n * px q = px n * py p - py n * px p) by lra.
  split.
  - transitivity (px n * (px n * px q + py n * py q) - py n * (px n * py q - py n * px q)); [ring|].
    rewrite C, B2; ring.
  - transitivity (py n * (px n * px q + py n * py q) + px n * (px n * py q - py n * px q)); [ring|].
    rewrite C, B2; ring.
Qed.
Lemma mirror_unique : forall n d p q q', px n * px n + py n * py n <> 0 ->
  mirror_normal n d p q -> mirror_normal n d p q' -> q = q'.
Proof.
  intros n d p q q' N A B. apply mirror_solve in A; [|exact N]. apply mirror_solve in B; [|exact N].
  cbv zeta in A, B. destruct A as [A1 A2], B as [B1 B2].
  apply pt_eq; apply Rmult_eq_reg_r with (px n * px n + py n * py n); congruence.
Qed.
Lemma mirror_sym : forall n d p q, mirror_normal n d p q -> mirror_normal n d q p.
Proof.
  intros n d p q [A B]; split; [|lra].
  unfold on_normal_line, midpoint in *; cbn [px py] in *. rewrite (Rplus_comm (px q)), (Rplus_comm (py q)).
  exact A.
Qed.
Lemma mirror_fixed : forall n d p, on_normal_line n d p -> mirror_normal n d p p.
Proof.
  intros n d p A; split; [|ring]. unfold on_normal_line, midpoint in *; cbn [px py].
  replace ((px p + px p) / 2) with (px p) by field. replace ((py p + py p) / 2) with (py p) by field.
  exact A.
Qed.
Lemma mirror_dist : forall n d p q p' q', px n * px n + py n * py n <> 0 ->
  mirror_normal n d p p' -> mirror_normal n d q q' -> dist p' q' = dist p q.
Proof.
  intros n d p q p' q' N A B. apply mirror_solve in A; [|exact N]. apply mirror_solve in B; [|exact N].
  cbv zeta in A, B. destruct A as [A1 A2], B as [B1 B2].
  apply dist_eq_sq; [apply dist_pos|]. rewrite dist_sq.
  set (NN := px n * px n + py n * py n) in *.
  assert (X : (px p' - px q') * NN = (px p - px q) * NN - 2 * (px n * (px p - px q) + py n * (py p - py q)) * px n) by lra.
  assert (Y : (py p' - py q') * NN = (py p - py q) * NN - 2 * (px n * (px p - px q) + py n * (py p - py q)) * py n) by lra.
  apply Rmult_eq_reg_r with (NN * NN); [|nra].
  transitivity (((px p' - px q') * NN) * ((px p' - px q') * NN) + ((py p' - py q') * NN) * ((py p' - py q') * NN)); [ring|].
  rewrite X, Y. unfold NN. ring.
Qed.

Lemma not_close_zero : forall n, vector_is_close n (P 0 0) = false -> pdot n n <> 0.
Proof.
  intros n H Q. apply sq_sum_zero in Q. destruct Q as [A B].
  assert (n = P 0 0) by (apply pt_eq; assumption). subst n.
  rewrite (proj2 (vector_is_close_iff _ _) (near_refl _)) in H. discriminate.
Qed.

Lemma reflect_shape_ok : forall n d sh, vector_is_close n (P 0 0) = false -> Forall seg_ok sh ->
  exists sh', reflect_shape n d sh = (sh', Ok tt) /\ Forall seg_ok sh' /\
    Forall2 (image (mirror_map n d) (-1)) sh sh'.
Proof.
  intros n d sh C K; unfold reflect_shape. rewrite C.
  set (off := reflection_offset n d).
  destruct (translate_shape_ok (P (- px off) (- py off)) sh K) as [K1 I1].
  assert (S := householder_similarity n (not_close_zero n C)).
  destruct (transform_shape_sim _ _ _ S _ K1) as (s2 & -> & K2 & I2 & _); [left; lra|].
  destruct (translate_shape_ok off s2 K2) as [K3 I3].
  eexists; split; [reflexivity|]. split; [exact K3|].
  assert (J := images_compose _ _ _ _ _ _ _ (images_compose _ _ _ _ _ _ _ I1 I2) I3).
  eapply images_ext; [|reflexivity|exact J]. intros p; reflexivity.
Qed.

(** the reflection across the line through two points *)
Lemma across_not_close : forall a b, vector_is_close a b = false ->
  a <> b /\ vector_is_close (line_normal a b) (P 0 0) = false.
Proof.
  intros a b H.
  assert (NN : ~ near a b) by (intros Q; apply vector_is_close_iff in Q; congruence).
  split; [intros ->; apply NN, near_refl|].
  destruct (vector_is_close (line_normal a b) (P 0 0)) eqn:E; [|reflexivity].
  exfalso; apply NN. apply vector_is_close_iff in E. unfold near in E; cbn [px py] in E.
  rewrite Rabs_R0, !Rminus_0_r, Rmult_0_r, Rplus_0_r in E.
  unfold line_normal in E. unfold near.
  pose proof (Rabs_pos (px b)); pose proof (Rabs_pos (py b)).
  assert (X : Rabs (px a - px b) = Rabs (px b - px a)) by apply Rabs_minus_sym.
  assert (Y : Rabs (py a - py b) = Rabs (py b - py a)) by apply Rabs_minus_sym.
  destruct (0 <? point_left (P 0 0) a b)%Z; cbn [px py psub] in E; rewrite ?Rabs_Ropp in E; lra.
Qed.

Lemma line_normal_facts : forall a b, a <> b ->
  let n := line_normal a b in
  px n * (px b - px a) + py n * (py b - py a) = 0 /\
  px n * px n + py n * py n = dist a b * dist a b /\
  px n * px a + py n * py a = line_distance a b * sqrt (px n * px n + py n * py n).
Proof.
  intros a b N n. assert (D := dist_ne _ _ N).
  assert (NN : px n * px n + py n * py n = dist a b * dist a b).
  { rewrite dist_sq. unfold n, line_normal. destruct (0 <? _)%Z; cbn [px py psub]; ring. }
  split; [unfold n, line_normal; destruct (0 <? _)%Z; cbn [px py psub]; ring|].
  split; [exact NN|]. rewrite NN, sqrt_square by lra.
  unfold line_distance. rewrite pnorm_dist, (dist_sym b a).
  replace (Rabs (py a * px b - px a * py b) / dist a b * dist a b)
    with (Rabs (py a * px b - px a * py b)) by (field; lra).
  unfold n, line_normal, point_left, vector_left.
  set (t := pdet (psub b a) (psub (P 0 0) a)).
  assert (T : t = px a * py b - py a * px b) by (unfold t, pdet, psub; cbn [px py]; ring).
  destruct (0 <? rsign t)%Z eqn:E; cbn [px py psub].
  - apply Z.ltb_lt in E. assert (0 < t).
    { destruct (Rtotal_order t 0) as [Q|[Q|Q]]; [|rewrite (proj2 (rsign_zero t) Q) in E; lia|exact Q].
      rewrite (proj2 (rsign_neg t) Q) in E; lia. }
    rewrite Rabs_left by lra. ring.
  - apply Z.ltb_ge in E. assert (t <= 0).
    { destruct (Rtotal_order t 0) as [Q|[Q|Q]]; [lra|lra|].
      rewrite (proj2 (rsign_pos t) Q) in E; lia. }
    rewrite Rabs_right by lra. ring.
Qed.

Lemma on_line_iff : forall a b p, a <> b ->
  (on_line a b p <-> on_normal_line (line_normal a b) (line_distance a b) p).
Proof.
  intros a b p N. destruct (line_normal_facts a b N) as (O & L & F).
  assert (D := dist_ne _ _ N). unfold on_normal_line. rewrite <- F.
  set (n := line_normal a b) in *. split.
  - intros (t & X & Y). rewrite X, Y.
    transitivity (px n * px a + py n * py a + t * (px n * (px b - px a) + py n * (py b - py a))); [ring|].
    rewrite O; ring.
  - intros E.
    assert (Q : px n * (px p - px a) + py n * (py p - py a) = 0) by lra.
    rewrite dist_sq in L.
    exists (((px b - px a) * (px p - px a) + (py b - py a) * (py p - py a)) /
            (dist a b * dist a b)).
    assert (DD := dist_sq a b).
    set (v := px b - px a) in *. set (w := py b - py a) in *.
    assert (VW : dist a b * dist a b = v * v + w * w) by (rewrite DD; unfold v, w; ring).
    assert (NV : px n = - w /\ py n = v \/ px n = w /\ py n = - v).
    { unfold n, line_normal; destruct (0 <? _)%Z; cbn [px py psub]; fold v w; auto. }
    assert (C : v * (py p - py a) = w * (px p - px a)).
    { destruct NV as [[N1 N2]|[N1 N2]]; rewrite N1, N2 in Q; lra. }
    assert (P0 : v * v + w * w <> 0) by (rewrite <- VW; nra).
    rewrite VW. split.
    + apply Rmult_eq_reg_r with (v * v + w * w); [|exact P0].
      transitivity (px a * (v * v + w * w) + (v * v * (px p - px a) + w * (w * (px p - px a)))); [ring|].
      rewrite <- C. field. exact P0.
    + apply Rmult_eq_reg_r with (v * v + w * w); [|exact P0].
      transitivity (py a * (v * v + w * w) + (v * (v * (py p - py a)) + w * w * (py p - py a))); [ring|].
      rewrite C. field. exact P0.
Qed.

Lemma mirror_line_iff : forall a b p q, a <> b ->
  (mirror_line a b p q <-> mirror_normal (line_normal a b) (line_distance a b) p q).
Proof.
  intros a b p q N; unfold mirror_line, mirror_normal. rewrite (on_line_iff a b _ N).
  assert (E : px (line_normal a b) * (py q - py p) = py (line_normal a b) * (px q - px p) <->
    (px b - px a) * (px q - px p) + (py b - py a) * (py q - py p) = 0).
  { unfold line_normal; destruct (0 <? _)%Z; cbn [px py psub]; split; intros; lra. }
  tauto.
Qed.

(** ** Rasters *)
Lemma int_part_bounds : forall x, IZR (Int_part x) <= x < IZR (Int_part x) + 1.
Proof. intros x; destruct (base_Int_part x); lra. Qed.
Lemma np_round_nearest : forall x, nearest (np_round x) x.
Proof.
  intros x; unfold np_round, nearest. pose proof (int_part_bounds x).
  destruct (rlt (x - IZR (Int_part x)) (/ 2)) eqn:A; [apply rlt_true in A|apply rlt_false in A].
  - apply Rabs_le; lra.
  - destruct (rlt (/ 2) (x - IZR (Int_part x))) eqn:B; [apply rlt_true in B|apply rlt_false in B].
    + rewrite plus_IZR. apply Rabs_le; lra.
    + destruct (Z.even (Int_part x)); rewrite ?plus_IZR; apply Rabs_le; lra.
Qed.

Lemma num_points_ge : forall l w, (2 <= num_points l w)%nat.
Proof. intros; unfold num_points; lia. Qed.

Lemma seg_raster_ok : forall s w l, seg_raster s w = Ok l ->
  0 < w /\ length l = num_points (seg_length s) w /\
  forall i, (i < length l)%nat ->
    nth i l (P 0 0) = get_point s (INR i / INR (length l - 1) * max_coord s).
Proof.
  intros s w l H; unfold seg_raster in H. destruct (rle w 0) eqn:E; [easy|].
  apply rle_false in E. inversion H as [Q]. clear H.
  set (n := num_points (seg_length s) w) in *.
  assert (L : length (map (fun v => get_point s (v * max_coord s)) (linspace01 n)) = n).
  { unfold linspace01. now rewrite !map_length, seq_length. }
  rewrite L. split; [exact E|]. split; [reflexivity|]. intros i Hi.
  rewrite nth_indep with (d' := get_point s (0 * max_coord s)) by (rewrite L; exact Hi).
  rewrite (map_nth (fun v => get_point s (v * max_coord s))).
  unfold linspace01.
  rewrite nth_indep with (d' := INR 0 / INR (n - 1)) by (rewrite map_length, seq_length; exact Hi).
  rewrite (map_nth (fun i => INR i / INR (n - 1))), seq_nth by exact Hi. reflexivity.
Qed.

Lemma seg_raster_ends : forall s w l, seg_raster s w = Ok l ->
  nth 0 l (P 0 0) = point_start s /\ last_pt l = point_end s.
Proof.
  intros s w l H. destruct (seg_raster_ok s w l H) as (_ & L & N).
  assert (G := num_points_ge (seg_length s) w).
  split.
  - rewrite N by lia. cbn [INR]. unfold point_start. f_equal. unfold Rdiv. ring.
  - unfold last_pt.
    assert (E : last l (P 0 0) = nth (length l - 1) l (P 0 0)).
    { clear. induction l as [|a [|b r] IH]; [reflexivity|reflexivity|].
      change (last (a :: b :: r) (P 0 0)) with (last (b :: r) (P 0 0)). rewrite IH.
      cbn [length]. replace (S (S (length r)) - 1)%nat with (S (S (length r) - 1)) by lia.
      reflexivity. }
    rewrite E, N by lia. unfold point_end. f_equal.
    rewrite <- (Rmult_1_l (max_coord s)) at 2. f_equal. field.
    apply not_0_INR; lia.
Qed.

Lemma raster_parts_ok : forall sh w, 0 < w ->
  exists pts, raster_parts sh w = Ok pts /\
  pts = concat (map (fun s => removelast (map (fun v => get_point s (v * max_coord s))
      (linspace01 (num_points (seg_length s) w)))) sh).
Proof.
  intros sh w W; induction sh as [|s sh (pts & IH & E)]; cbn [raster_parts map concat]; [eauto|].
  unfold seg_raster. rewrite (proj2 (rle_false _ _) W). cbn [bind]. rewrite IH; cbn [bind].
  rewrite E; eauto.
Qed.

(** ** Interpolation *)
Lemma clip01_id : forall w, 0 <= w <= 1 -> clip01 w = w.
Proof. intros w H; unfold clip01; rewrite Rmax_left by lra; apply Rmin_left; lra. Qed.
Lemma clip01_low : forall w, w <= 0 -> clip01 w = 0.
Proof. intros w H; unfold clip01; rewrite Rmax_right by lra; apply Rmin_left; lra. Qed.
Lemma clip01_high : forall w, 1 <= w -> clip01 w = 1.
Proof. intros w H; unfold clip01; rewrite Rmax_left by lra; apply Rmin_right; lra. Qed.
Lemma clip01_idem : forall w, clip01 (clip01 w) = clip01 w.
Proof.
  intros w; apply clip01_id. unfold clip01; split.
  - apply Rmin_glb; [apply Rmax_r|lra].
  - apply Rmin_r.
Qed.

Lemma interpolate_seg_ok : forall s t w c, interpolate_seg s t w = Ok c ->
  exists a b l a' b' l', s = SLine a b l /\ t = SLine a' b' l' /\
    let p := padd (pscale (1 - clip01 w) a) (pscale (clip01 w) a') in
    let q := padd (pscale (1 - clip01 w) b) (pscale (clip01 w) b') in
    p <> q /\ c = SLine p q (dist p q) /\ seg_ok c.
Proof.
  intros [a b l|] [a' b' l'|] w c H; cbn [interpolate_seg] in H; try discriminate.
  exists a, b, l, a', b', l'. split; [reflexivity|]. split; [reflexivity|]. cbv zeta.
  apply mk_line_ok in H. exact H.
Qed.

Lemma interpolate_segs_ok : forall a b w c, interpolate_segs a b w = Ok c ->
  length a = length b ->
  length c = length a /\ Forall seg_ok c /\
  (joined a -> joined b -> joined c).
Proof.
  induction a as [|s a IH]; intros [|t b] w c H L; try discriminate L.
  - inversion H; cbn; auto.
  - cbn [interpolate_segs] in H.
    destruct (interpolate_seg s t w) as [d|] eqn:D; [|easy]; cbn [bind] in H.
    destruct (interpolate_segs a b w) as [r|] eqn:R; [|easy]; cbn [bind] in H.
    inversion H; subst c. assert (L2 : length a = length b) by (cbn in L; lia).
    destruct (IH b w r R L2) as (LR & K & J).
    destruct (interpolate_seg_ok _ _ _ _ D) as (p & q & l & p' & q' & l' & -> & -> & NE & -> & KD).
    split; [cbn; lia|]. split; [constructor; assumption|].
    intros JA JB. destruct a as [|s2 a], b as [|t2 b]; try discriminate L2.
    + cbn in R. inversion R. exact I.
    + destruct r as [|d2 r]; [discriminate LR|].
      apply joined_cons in JA. apply joined_cons in JB. apply joined_cons.
      destruct JA as [EA JA], JB as [EB JB]. split; [|apply J; assumption].
      cbn [interpolate_segs] in R.
      destruct (interpolate_seg s2 t2 w) as [e|] eqn:E2; [|easy]; cbn [bind] in R.
      destruct (interpolate_segs a b w) as [r2|] eqn:R2; [|easy]; cbn [bind] in R.
      inversion R; subst d2 r.
      destruct (interpolate_seg_ok _ _ _ _ E2) as (p2 & q2 & m & p2' & q2' & m' & -> & -> & NE2 & -> & KD2).
      unfold point_end, point_start in *. cbn [get_point max_coord] in *.
      rewrite line_point_0, line_point_1 in *. now rewrite EA, EB.
Qed.

(** ** The ordering of polygons *)
Lemma ordering_telescope : forall a l, ordering_sum (a :: l) =
  px (last_pt (a :: l)) * py (last_pt (a :: l)) - px a * py a - area2 (a :: l).
Proof.
  intros a l; revert a; induction l as [|b l IH]; intros a; [unfold last_pt; cbn; ring|].
  change (ordering_sum (a :: b :: l)) with
    ((px b - px a) * (py b + py a) + ordering_sum (b :: l)).
  change (area2 (a :: b :: l)) with ((px a * py b - px b * py a) + area2 (b :: l)).
  change (last_pt (a :: b :: l)) with (last_pt (b :: l)).
  rewrite (IH b). ring.
Qed.
Lemma ordering_closed : forall a l, last_pt (a :: l) = a -> ordering_sum (a :: l) = - area2 (a :: l).
Proof. intros a l E; rewrite ordering_telescope, E; ring. Qed.

Lemma last_pt_app : forall l a, last_pt (l ++ [a]) = a.
Proof. intros; unfold last_pt; apply last_last. Qed.
Lemma area2_app : forall l a b r, area2 (l ++ [a] ++ b :: r) =
  area2 (l ++ [a]) + area2 (a :: b :: r).
Proof.
  induction l as [|x l IH]; intros a b r.
  - change ([] ++ [a] ++ b :: r) with (a :: b :: r). change (area2 ([] ++ [a])) with 0. ring.
  - destruct l as [|y l].
    + cbn [app]. change (area2 [x; a]) with ((px x * py a - px a * py x) + 0).
      change (area2 (x :: a :: b :: r)) with ((px x * py a - px a * py x) + area2 (a :: b :: r)). ring.
    + change (area2 ((x :: y :: l) ++ [a] ++ b :: r)) with
        ((px x * py y - px y * py x) + area2 ((y :: l) ++ [a] ++ b :: r)).
      change (area2 ((x :: y :: l) ++ [a])) with
        ((px x * py y - px y * py x) + area2 ((y :: l) ++ [a])).
      rewrite IH; ring.
Qed.
Lemma area2_rev : forall l, area2 (rev l) = - area2 l.
Proof.
  induction l as [|a [|b r] IH]; [cbn; ring|cbn; ring|].
  change (rev (a :: b :: r)) with ((rev r ++ [b]) ++ [a]). rewrite <- app_assoc.
  change ([b] ++ [a]) with ([b] ++ a :: []). rewrite area2_app.
  change (rev r ++ [b]) with (rev (b :: r)). rewrite IH.
  change (area2 (a :: b :: r)) with ((px a * py b - px b * py a) + area2 (b :: r)).
  change (area2 [b; a]) with ((px b * py a - px a * py b) + 0). ring.
Qed.
Lemma area2_shift : forall v l a, area2 (map (fun p => padd p v) (a :: l)) =
  area2 (a :: l) + (px v * (py (last_pt (a :: l)) - py a) - py v * (px (last_pt (a :: l)) - px a)).
Proof.
  intros v l; induction l as [|b l IH]; intros a; [unfold last_pt; cbn; ring|].
  change (area2 (map (fun p => padd p v) (a :: b :: l))) with
    ((px (padd a v) * py (padd b v) - px (padd b v) * py (padd a v)) +
     area2 (map (fun p => padd p v) (b :: l))).
  change (area2 (a :: b :: l)) with ((px a * py b - px b * py a) + area2 (b :: l)).
  change (last_pt (a :: b :: l)) with (last_pt (b :: l)).
  rewrite (IH b). cbn [padd px py]. ring.
Qed.
Lemma last_map : forall (f : pt -> pt) a l, last_pt (map f (a :: l)) = f (last_pt (a :: l)).
Proof.
  intros f a l; revert a; induction l as [|b l IH]; intros a; [reflexivity|]. exact (IH b).
Qed.

(** ** Distances along rasters *)
Lemma turned_add : forall s t c p, turned (s + t) c p = turned s c (turned t c p).
Proof.
  intros; unfold turned, rot; apply pt_eq; cbn [px py]; rewrite cos_plus, sin_plus; ring.
Qed.
Lemma turned_isometry : forall t c p q, dist (turned t c p) (turned t c q) = dist p q.
Proof.
  intros; apply dist_eq_sq; [apply dist_pos|]. rewrite dist_sq.
  unfold turned, rot; cbn [px py]. pose proof (sin2_cos2 t) as Q. unfold Rsqr in Q.
  transitivity ((sin t * sin t + cos t * cos t) *
    ((px p - px q) * (px p - px q) + (py p - py q) * (py p - py q))); [ring|].
  rewrite Q; ring.
Qed.

Lemma line_point_dist : forall a b x y, 0 <= x -> x <= y -> y <= 1 ->
  dist (line_point a b x) (line_point a b y) = (y - x) * dist a b.
Proof.
  intros a b x y A B C; apply dist_eq_sq; [apply Rmult_le_pos; [lra|apply dist_pos]|].
  unfold line_point. rewrite !clip01_id by lra. cbn [px py padd pscale].
  transitivity ((y - x) * (y - x) * (dist a b * dist a b)); [rewrite dist_sq; ring|ring].
Qed.

Lemma frac_bounds : forall i n, (S i <= n)%nat -> 0 <= INR i / INR n /\
  INR (S i) / INR n <= 1 /\ INR (S i) / INR n - INR i / INR n = / INR n /\ 0 < INR n.
Proof.
  intros i n H.
  assert (N : 0 < INR n) by (apply lt_0_INR; lia).
  assert (I : 0 <= INR i) by apply pos_INR.
  assert (S1 : INR (S i) <= INR n) by (apply le_INR; exact H).
  rewrite S_INR in *. repeat split.
  - apply Rmult_le_pos; [exact I|left; now apply Rinv_0_lt_compat].
  - apply Rmult_le_reg_r with (INR n); [exact N|]. field_simplify; lra.
  - field; lra.
  - exact N.
Qed.

Lemma raster_line_spacing : forall a b len w l i, seg_raster (SLine a b len) w = Ok l ->
  (S i < length l)%nat ->
  dist (nth i l (P 0 0)) (nth (S i) l (P 0 0)) = dist a b / INR (length l - 1).
Proof.
  intros a b len w l i H Hi. destruct (seg_raster_ok _ _ _ H) as (_ & L & N).
  rewrite !N by lia. cbn [get_point max_coord]. rewrite !Rmult_1_r.
  destruct (frac_bounds i (length l - 1)) as (A & B & C & D); [lia|].
  assert (0 < / INR (length l - 1)) by now apply Rinv_0_lt_compat.
  rewrite line_point_dist by lra. rewrite C. unfold Rdiv; ring.
Qed.
Lemma raster_arc_spacing : forall a w l i, arc_ok a -> seg_raster (SArc a) w = Ok l ->
  (S i < length l)%nat ->
  dist (nth i l (P 0 0)) (nth (S i) l (P 0 0)) = dist (nth 0 l (P 0 0)) (nth 1 l (P 0 0)).
Proof.
  intros a w l i K H Hi. destruct (seg_raster_ok _ _ _ H) as (_ & L & N).
  rewrite !N by lia. cbn [get_point max_coord]. rewrite !(arc_point_turned a _ K).
  destruct (frac_bounds i (length l - 1)) as (_ & _ & C & D); [lia|].
  set (n := INR (length l - 1)) in *.
  replace (IZR (a_wind a) * (INR (S i) / n * a_max a))
    with (IZR (a_wind a) * (INR i / n * a_max a) + IZR (a_wind a) * (INR 1 / n * a_max a)).
  2:{ change (INR 1) with 1. rewrite S_INR. field; lra. }
  rewrite turned_add. change (INR 1) with 1. change (INR 0) with 0.
  replace (IZR (a_wind a) * (0 / n * a_max a)) with 0 by (field; lra).
  rewrite turned_zero.
  apply turned_isometry.
Qed.

(** ** Construction with a radius *)
Lemma radius_center_sq : forall ps pe r left, ps <> pe ->
  let c := radius_center ps pe r left in
  let k := Rmax (r * r / (dist ps pe * dist ps pe) - / 4) 0 in
  let D := dist ps pe * dist ps pe in
  (px c - px ps) * (px c - px ps) + (py c - py ps) * (py c - py ps) = (/ 4 + k) * D /\
  (px c - px pe) * (px c - px pe) + (py c - py pe) * (py c - py pe) = (/ 4 + k) * D /\
  pdet (psub pe ps) (psub c ps) = (if left then 1 else -1) * sqrt k * D.
Proof.
  intros ps pe r left N c k D.
  assert (DD : D = (px pe - px ps) * (px pe - px ps) + (py pe - py ps) * (py pe - py ps))
    by (unfold D; rewrite dist_sq; ring).
  assert (PD : pdot (psub pe ps) (psub pe ps) = D) by (rewrite DD; reflexivity).
  assert (K0 : 0 <= k) by apply Rmax_r.
  assert (SK : sqrt k * sqrt k = k) by (apply sqrt_sqrt; exact K0).
  unfold c, radius_center. rewrite PD. set (q := sqrt k) in *.
  change (sqrt (Rmax (r * r / D - / 4) 0)) with q.
  cbn [px py padd pscale psub]. unfold pdet; cbn [px py padd pscale psub].
  rewrite <- SK, DD. clear SK K0. clearbody q. destruct left; repeat split; cbv iota; try field.
Qed.

Lemma radius_large : forall ps pe r left, ps <> pe -> dist ps pe <= 2 * r ->
  let c := radius_center ps pe r left in
  dist c ps = r /\ dist c pe = r /\
  point_left c ps pe =
    (if req (dist ps pe) (2 * r) then 0 else if left then 1 else -1)%Z.
Proof.
  intros ps pe r left N H c.
  assert (D := dist_ne _ _ N).
  destruct (radius_center_sq ps pe r left N) as (A & B & C). fold c in A, B, C.
  set (L := dist ps pe) in *.
  assert (E : Rmax (r * r / (L * L) - / 4) 0 = r * r / (L * L) - / 4).
  { apply Rmax_left. apply Rmult_le_reg_r with (4 * (L * L)); [nra|]. field_simplify; nra. }
  rewrite E in A, B, C.
  assert (F : (/ 4 + (r * r / (L * L) - / 4)) * (L * L) = r * r) by (field; lra).
  rewrite F in A, B.
  split; [apply dist_eq_sq; [lra|exact A]|]. split; [apply dist_eq_sq; [lra|exact B]|].
  unfold point_left, vector_left. rewrite C.
  set (k := r * r / (L * L) - / 4).
  assert (KD : k * (4 * (L * L)) = (2 * r - L) * (2 * r + L)) by (unfold k; field; lra).
  destruct (req L (2 * r)) eqn:Q.
  - apply req_true in Q. assert (K0 : k = 0).
    { rewrite Q in KD. replace ((2 * r - 2 * r) * (2 * r + 2 * r)) with 0 in KD by ring.
      rewrite <- Q in KD. apply Rmult_integral in KD. destruct KD; [assumption|nra]. }
    rewrite K0, sqrt_0, Rmult_0_r, Rmult_0_l. now apply rsign_zero.
  - apply req_false in Q. assert (K0 : 0 < k).
    { apply Rmult_lt_reg_r with (4 * (L * L)); [nra|]. rewrite KD, Rmult_0_l.
      apply Rmult_lt_0_compat; lra. }
    assert (S0 := sqrt_lt_R0 k K0).
    assert (LL : 0 < sqrt k * (L * L)) by (apply Rmult_lt_0_compat; [exact S0|nra]).
    destruct left; [apply rsign_pos|apply rsign_neg]; lra.
Qed.

Lemma radius_small : forall ps pe r left, ps <> pe -> 0 <= r -> 2 * r <= dist ps pe ->
  radius_center ps pe r left = midpoint ps pe.
Proof.
  intros ps pe r left N R0 H.
  assert (D := dist_ne _ _ N).
  assert (PD : pdot (psub pe ps) (psub pe ps) = dist ps pe * dist ps pe)
    by (rewrite dist_sq; unfold pdot, psub; cbn [px py]; ring).
  unfold radius_center. rewrite PD.
  rewrite Rmax_right.
  - rewrite sqrt_0. apply pt_eq; cbn [px py padd pscale psub midpoint]; field.
  - apply Rmult_le_reg_r with (4 * (dist ps pe * dist ps pe)); [nra|]. field_simplify; nra.
Qed.

(** an arc between two points of the same circle is valid *)
Lemma mk_arc_total : forall ps pe pc ccw, ps <> pe -> ps <> pc -> pe <> pc ->
  dist pe pc = dist ps pc -> exists s, mk_arc ps pe pc ccw = Ok s.
Proof.
  intros ps pe pc ccw N NS NE D; unfold mk_arc.
  assert (W : (wsign ccw = 1 \/ wsign ccw = -1)%Z) by (destruct ccw; auto).
  destruct (update_arc_total ps pe pc _ W NS NE) as [n U]. rewrite U; cbn [bind].
  destruct (update_arc_ok _ _ _ _ _ W U) as (m & a & A & EN & DP & X & Y).
  rewrite check_arc_intro; [cbn [bind]; eauto| |].
  - rewrite EN; cbn [a_len]. apply Rmult_lt_0_compat; [exact DP|].
    destruct (arc_angle_inv _ _ _ _ _ W A) as (_ & _ & C & S & M).
    destruct (Req_dec m 0) as [M0|M0]; [exfalso|lra].
    assert (TE := turned_end_direction _ _ _ _ _ W A).
    rewrite M0, Rmult_0_r, turned_zero, <- D in TE.
    apply N. rewrite TE. rewrite <- pnorm_dist, <- punit_scale.
    + apply pt_eq; cbn; ring.
    + rewrite pnorm_dist; pose proof (dist_ne _ _ NE); lra.
  - rewrite EN; cbn [a_end a_center a_start]. rewrite D, Rminus_diag_eq, Rabs_R0 by reflexivity. lra.
Qed.

Lemma mk_arc_closed : forall p c ccw, mk_arc p p c ccw = Err ValueError.
Proof.
  intros p c ccw; unfold mk_arc.
  assert (W : (wsign ccw = 1 \/ wsign ccw = -1)%Z) by (destruct ccw; auto).
  destruct (Req_dec (dist p c) 0) as [Z|Z].
  - unfold update_arc, arc_angle, normalize. rewrite pnorm_dist, (proj2 (req_true _ _) Z). reflexivity.
  - assert (N : p <> c) by (intros ->; apply Z, dist_zero; reflexivity).
    destruct (update_arc_total p p c _ W N N) as [n U]. rewrite U; cbn [bind].
    destruct (update_arc_ok _ _ _ _ _ W U) as (m & a & A & EN & DP & X & Y).
    destruct (arc_angle_inv _ _ _ _ _ W A) as (_ & _ & C & S & M).
    assert (U1 : pdot (punit (psub p c)) (punit (psub p c)) = 1)
      by (apply punit_norm; rewrite pnorm_dist; exact Z).
    rewrite U1 in C. replace (pdet (punit (psub p c)) (punit (psub p c))) with 0 in S by (unfold pdet; ring).
    assert (S0 : sin m = sin 0).
    { rewrite sin_0. destruct W as [E|E]; rewrite E in S; lra. }
    assert (M0 : m = 0).
    { apply angle_unique; [exact M|pose proof PI_RGT_0; lra|rewrite cos_0; exact C|exact S0]. }
    unfold check_arc. rewrite (proj2 (rle_true _ _)); [reflexivity|].
    rewrite EN, M0; cbn [a_len]. lra.
Qed.

(** ** Reachable shapes *)
Lemma add_lines_joined : forall sh pts sh' o, add_line_segments sh pts = (sh', o) ->
  Forall seg_ok sh -> joined sh -> Forall seg_ok sh' /\ joined sh'.
Proof.
  intros sh pts sh' o H K J; unfold add_line_segments in H.
  destruct (rev_cases _ sh) as [[-> _]|(h & x & -> & t & R)].
  - cbn [rev] in H. destruct (_ <=? _)%nat; [inversion H; auto|].
    destruct (line_chain pts) as [new|] eqn:C; [|inversion H; auto].
    destruct (line_chain_ok _ _ C) as (NK & _ & NJ & _).
    destruct (add_segments_cases _ _ _ _ H) as [(e & _ & ->)|(_ & -> & _)]; auto.
  - rewrite R in H.
    destruct (line_chain (point_end x :: pts)) as [new|] eqn:C; [|inversion H; subst; auto].
    destruct (line_chain_ok _ _ C) as (NK & _ & NJ & S & _).
    destruct (add_segments_cases _ _ _ _ H) as [(e & _ & ->)|(_ & -> & _ & M)]; [auto|].
    split; [apply Forall_app; auto|].
    destruct new as [|f r].
    + rewrite app_nil_r. exact J.
    + rewrite <- app_assoc. apply (joined_app eq joined joined_cons); cbn; auto.
      destruct pts; [discriminate S|]. cbn in S. now inversion S.
Qed.

Lemma reflect_joined : forall n d sh sh' o, reflect_shape n d sh = (sh', o) ->
  Forall seg_ok sh -> joined sh -> Forall seg_ok sh' /\ joined sh'.
Proof.
  intros n d sh sh' o H K J. destruct (vector_is_close n (P 0 0)) eqn:E.
  - unfold reflect_shape in H. rewrite E in H. inversion H; subst; auto.
  - destruct (reflect_shape_ok n d sh E K) as (s2 & R & K2 & I). rewrite R in H.
    inversion H; subst. split; [exact K2|]. exact (images_joined _ _ _ _ I J).
Qed.

Lemma rotation_similarity : forall t, similarity (M2 (cos t) (- sin t) (sin t) (cos t)) 1 1.
Proof.
  intros t; unfold similarity; cbn [q00 q01 q10 q11]. pose proof (sin2_cos2 t) as Q. unfold Rsqr in Q.
  repeat split; auto; lra.
Qed.
Lemma scaling_similarity : forall k, 0 < k -> similarity (M2 k 0 0 k) k 1.
Proof. intros k H; unfold similarity; cbn [q00 q01 q10 q11]; repeat split; auto; lra. Qed.

Lemma reach_joined : forall sh, reach sh -> Forall seg_ok sh /\ joined sh.
Proof.
  intros sh R; induction R.
  - unfold mk_shape in H1. destruct (check_connected l); [|easy]. inversion H1; subst; auto.
  - destruct IHR. eapply add_lines_joined; eauto.
  - destruct IHR as [K J]. destruct (translate_shape_ok v sh K) as [K2 I].
    split; [exact K2|exact (images_joined _ _ _ _ I J)].
  - destruct IHR. eapply reflect_joined; eauto.
  - destruct IHR. unfold reflect_across in H. destruct (vector_is_close a b); [inversion H; subst; auto|].
    eapply reflect_joined; eauto.
  - destruct IHR as [K J].
    destruct (transform_shape_sim _ _ _ (rotation_similarity t) sh K) as (s2 & E & K2 & I & _); [left; lra|].
    rewrite E in H; inversion H; subst. split; [exact K2|exact (images_joined _ _ _ _ I J)].
  - destruct IHR as [K J].
    destruct (transform_lines m sh H0 K H) as (s2 & E & K2 & I).
    rewrite E in H1; inversion H1; subst. split; [exact K2|exact (images_joined _ _ _ _ I J)].
  - destruct IHR as [K J].
    destruct (transform_shape_sim _ _ _ (scaling_similarity k H0) sh K) as (s2 & E & K2 & I & _); [right; exact H|].
    rewrite E in H1; inversion H1; subst. split; [exact K2|exact (images_joined _ _ _ _ I J)].
  - destruct IHR1 as [_ JA], IHR2 as [_ JB]. unfold interpolate_shape in H.
    destruct (Nat.eqb _ _) eqn:L; [|easy]. apply Nat.eqb_eq in L.
    destruct (interpolate_segs a b (clip01 w)) as [c|] eqn:C; [|easy]. cbn [bind] in H.
    unfold mk_shape in H. destruct (check_connected c); [|easy]. inversion H; subst.
    destruct (interpolate_segs_ok _ _ _ _ C L) as (_ & K & J). auto.
Qed.

(** ** Rasters of shapes *)
Lemma rasterize_ok : forall h f l w, 0 < w -> f :: h = l -> forall g r, f :: h = g ++ [r] ->
  exists rasters, Forall2 (fun s q => seg_raster s w = Ok q) l rasters /\
    rasterize l w = Ok (concat (map (@removelast pt) rasters) ++
      (if column_is_close (point_end r) (point_start f) then [] else [point_end r])).
Proof.
  intros h f l w W <- g r E.
  set (ras := fun s => map (fun v => get_point s (v * max_coord s))
      (linspace01 (num_points (seg_length s) w))).
  exists (map ras (f :: h)). split.
  - assert (G : forall m, Forall2 (fun s q => seg_raster s w = Ok q) m (map ras m)).
    { induction m; cbn; constructor; auto. unfold seg_raster. now rewrite (proj2 (rle_false _ _) W). }
    apply G.
  - unfold rasterize.
    assert (RV : rev (f :: h) = r :: rev g) by (rewrite E, rev_app_distr; reflexivity).
    rewrite RV, (proj2 (rle_false _ _) W).
    destruct (raster_parts_ok (f :: h) w W) as (pts & -> & EP). cbn [bind].
    rewrite map_map. change (concat (map (fun x => removelast (ras x)) (f :: h))) with
      (concat (map (fun s => removelast (map (fun v => get_point s (v * max_coord s))
         (linspace01 (num_points (seg_length s) w)))) (f :: h))). rewrite <- EP.
    destruct (column_is_close _ _); [now rewrite app_nil_r|reflexivity].
Qed.

(** ** The number of raster points *)
Lemma abs_le_inv : forall x y, Rabs x <= y -> - y <= x <= y.
Proof. intros x y H; unfold Rabs in H; destruct (Rcase_abs x); lra. Qed.
Lemma num_points_spacing : forall len w, 0 < w -> w / 2 <= len ->
  let n := (num_points len w - 1)%nat in
  Rabs (len / INR n - w) <= w / (2 * INR n).
Proof.
  intros len w W H n. unfold n, num_points.
  pose proof (np_round_nearest (len / w)) as Q. unfold nearest in Q.
  set (z := np_round (len / w)) in *.
  assert (X : / 2 <= len / w).
  { apply Rmult_le_reg_r with w; [exact W|]. field_simplify; lra. }
  apply abs_le_inv in Q.
  assert (Z0 : (0 <= z)%Z) by (apply le_IZR; lra).
  destruct (Z.eq_dec z 0) as [E|E].
  - assert (N : INR (Z.to_nat (Z.max (z + 1) 2) - 1) = 1) by (rewrite E; reflexivity).
    rewrite N. rewrite E in Q.
    assert (L : len / w = / 2) by lra.
    assert (L2 : len = w / 2) by (apply Rmult_eq_reg_r with (/ w); [unfold Rdiv in *; rewrite L; field; lra|apply Rinv_neq_0_compat; lra]).
    rewrite L2. apply Rabs_le; lra.
  - assert (N : INR (Z.to_nat (Z.max (z + 1) 2) - 1) = IZR z).
    { rewrite INR_IZR_INZ. f_equal. lia. }
    rewrite N. assert (ZP : 1 <= IZR z) by (apply IZR_le; lia).
    replace (len / IZR z - w) with ((len / w - IZR z) * (w / IZR z)) by (field; lra).
    rewrite Rabs_mult. rewrite (Rabs_right (w / IZR z)).
    2:{ apply Rle_ge, Rmult_le_pos; [lra|]. left; apply Rinv_0_lt_compat; lra. }
    replace (w / (2 * IZR z)) with (/ 2 * (w / IZR z)) by (field; lra).
    apply Rmult_le_compat_r.
    + apply Rmult_le_pos; [lra|]. left; apply Rinv_0_lt_compat; lra.
    + apply Rabs_le; lra.
Qed.
