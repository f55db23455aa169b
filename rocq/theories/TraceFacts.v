(** Facts about traces. *)
From Coq Require Import Reals List ZArith Lia Lra.
From Verif Require Import Base RigidModel RigidSpec RigidFacts TraceModel TraceSpec.
From Verif Require GeoModel GeoSpec GeoFacts GeoShapeFacts.
Import ListNotations.
Open Scope R_scope.

Lemma rle_true : forall a b, rle a b = true <-> a <= b.
Proof. exact GeoFacts.rle_true. Qed.
Lemma rle_false : forall a b, rle a b = false <-> b < a.
Proof. exact GeoFacts.rle_false. Qed.
Lemma rlt_true : forall a b, rlt a b = true <-> a < b.
Proof. exact GeoFacts.rlt_true. Qed.
Lemma rlt_false : forall a b, rlt a b = false <-> b <= a.
Proof. exact GeoFacts.rlt_false. Qed.
Lemma vec_eq : forall a b, vx a = vx b -> vy a = vy b -> vz a = vz b -> a = b.
Proof. intros [] [] A B C; cbn in *; subst; reflexivity. Qed.
Lemma cs1 : forall t, cos t * cos t + sin t * sin t = 1.
Proof. intros t. pose proof (sin2_cos2 t) as H. unfold Rsqr in H. lra. Qed.

(** ** coordinate systems from tangents *)
Lemma rotz_valid : forall t, orthonormal (rotz t).
Proof.
  intros t. pose proof (cs1 t). unfold orthonormal, rotz, dot, col0, col1, col2; cbn.
  repeat split; lra.
Qed.
Lemma norm_is : forall v r, 0 <= r -> dot v v = r * r -> norm v = r.
Proof. intros v r R E. unfold norm. rewrite E. apply sqrt_square; exact R. Qed.
Lemma tangent_horizontal : forall k t c, 0 < k ->
  lcs_from_tangent c (V (k * cos t) (k * sin t) 0) false = Ok (Lcs (rotz t) c).
Proof.
  intros k t c K. unfold lcs_from_tangent. pose proof (cs1 t) as T.
  assert (E : (k * cos t) * (k * cos t) + (k * sin t) * (k * sin t) = k * k)
    by (transitivity (k * k * (cos t * cos t + sin t * sin t)); [ring|rewrite T; ring]).
  set (x := V (k * cos t) (k * sin t) 0).
  assert (Y : cross (V 0 0 1) x = V (- (k * sin t)) (k * cos t) 0) by (apply vec_eq; cbn; ring).
  assert (Z : cross x (cross (V 0 0 1) x) = V 0 0 (k * k)) by (rewrite Y, <- E; apply vec_eq; cbn; ring).
  rewrite Z, Y.
  assert (N1 : norm x = k) by (apply norm_is; [lra|unfold dot; cbn; lra]).
  assert (N2 : norm (V (- (k * sin t)) (k * cos t) 0) = k) by (apply norm_is; [lra|unfold dot; cbn; lra]).
  assert (P : 0 < k * k) by nra.
  assert (N3 : norm (V 0 0 (k * k)) = k * k) by (apply norm_is; [lra|unfold dot; cbn; lra]).
  destruct (mk_cols x (V (- (k * sin t)) (k * cos t) 0) (V 0 0 (k * k)) c) as (l & L & _ & LP & C0 & C1 & C2 & _);
    try (unfold x, dot; cbn; lra).
  { unfold dot; cbn. nra. }
  rewrite L. f_equal. apply lcs_ext; [|exact LP]. rewrite N1 in C0. rewrite N2 in C1. rewrite N3 in C2.
  destruct l as [[a b d e f g h i j] q]. unfold x in C0. cbn in C0, C1, C2.
  injection C0 as -> -> ->. injection C1 as -> -> ->. injection C2 as -> -> ->.
  unfold rotz. cbn [l_ori]. f_equal; field; lra.
Qed.

Lemma rotz_zero : rotz 0 = mid.
Proof. unfold rotz, mid. rewrite sin_0, cos_0, Ropp_0. reflexivity. Qed.

(** ** linear segments *)
Lemma norm_x : forall l, 0 < l -> norm (vsub (V l 0 0) vzero) = l.
Proof. intros l L. apply norm_is; [lra|]. unfold dot; cbn. ring. Qed.
Lemma mk_linear_ok : forall l, 0 < l -> mk_linear l = Ok (TDisc [(0, vzero); (1, V l 0 0)] false l).
Proof.
  intros l L. unfold mk_linear. rewrite (proj2 (rle_false _ _) L). unfold mk_disc.
  cbn [map snd polyline_length]. rewrite (norm_x l L), Rplus_0_r, (proj2 (rle_false _ _) L). reflexivity.
Qed.
Lemma eval_linear : forall l w, eval_disc [(0, vzero); (1, V l 0 0)] w = V (clip w 0 1 * l) 0 0.
Proof.
  intros l w. cbn [eval_disc]. unfold clip.
  destruct (rle w 0) eqn:A; [apply rle_true in A|apply rle_false in A].
  - rewrite Rmax_right by lra. rewrite Rmin_left by lra. apply vec_eq; cbn; ring.
  - rewrite Rmax_left by lra. destruct (rle w 1) eqn:B; [apply rle_true in B|apply rle_false in B].
    + rewrite Rmin_left by lra. apply vec_eq; cbn; field.
    + rewrite Rmin_right by lra. apply vec_eq; cbn; ring.
Qed.
Lemma tangent_linear : forall l w, 0 <= w ->
  tangent_disc [(0, vzero); (1, V l 0 0)] w = V l 0 0.
Proof.
  intros l w W. unfold tangent_disc.
  assert (T : forall b : bool, (let '(lo, hi) := if b then (0, 1)%nat else (0, 1)%nat in
     vsub (eval_disc [(0, vzero); (1, V l 0 0)] (nth hi [0; 1] 0))
          (eval_disc [(0, vzero); (1, V l 0 0)] (nth lo [0; 1] 0))) = V l 0 0).
  { intros b. assert (Q : vsub (eval_disc [(0, vzero); (1, V l 0 0)] 1) (eval_disc [(0, vzero); (1, V l 0 0)] 0) = V l 0 0).
    { rewrite !eval_linear. unfold clip. rewrite (Rmax_left 1 0), (Rmin_left 1 1), (Rmax_left 0 0), (Rmin_left 0 1) by lra.
      apply vec_eq; cbn; ring. }
    destruct b; exact Q. }
  cbn [map fst argmin argmin_from length]. destruct (rlt (Rabs (1 - w)) (Rabs (0 - w))) eqn:A.
  - cbn [nth Nat.eqb Nat.add]. rewrite Bool.orb_true_r. exact (T true).
  - cbn [nth Nat.eqb Nat.add]. rewrite (proj2 (rlt_false w 0) W). exact (T false).
Qed.
(** before the start of the segment the neighbours are the last and the first point *)
Lemma tangent_linear_neg : forall l w, w < 0 ->
  tangent_disc [(0, vzero); (1, V l 0 0)] w = V (- l) 0 0.
Proof.
  intros l w W. unfold tangent_disc. cbn [map fst argmin argmin_from length].
  destruct (rlt (Rabs (1 - w)) (Rabs (0 - w))) eqn:A.
  { apply rlt_true in A. rewrite !Rabs_right in A by lra. lra. }
  cbn [nth Nat.eqb Nat.add Nat.sub]. rewrite (proj2 (rlt_true w 0) W). cbn [orb nth].
  rewrite !eval_linear. unfold clip. rewrite (Rmax_left 1 0), (Rmin_left 1 1), (Rmax_left 0 0), (Rmin_left 0 1) by lra.
  apply vec_eq; cbn; ring.
Qed.
Lemma seg_linear : forall l w, 0 < l -> 0 <= w <= 1 ->
  seg_lcs (TDisc [(0, vzero); (1, V l 0 0)] false l) w = Ok (Lcs mid (V (w * l) 0 0)).
Proof.
  intros l w L W. cbn [seg_lcs]. rewrite tangent_linear, eval_linear by lra.
  replace (V l 0 0) with (V (l * cos 0) (l * sin 0) 0) by (rewrite cos_0, sin_0; f_equal; ring).
  rewrite tangent_horizontal by exact L. rewrite rotz_zero. unfold clip.
  rewrite Rmax_left, Rmin_left by lra. reflexivity.
Qed.

(** ** radial segments *)
Lemma winding_cases : forall cw, winding cw = 1 \/ winding cw = -1.
Proof. intros []; auto. Qed.
Lemma radial_norm : forall r cw s, 0 < r -> norm (radial_tangent r (winding cw) s) = r.
Proof.
  intros r cw s R. apply norm_is; [lra|]. pose proof (cs1 s) as T.
  transitivity (r * r * (cos s * cos s + sin s * sin s)); [|rewrite T; ring].
  destruct (winding_cases cw) as [E|E]; rewrite E; unfold dot, radial_tangent; cbn; ring.
Qed.
Lemma mk_radial_ok : forall I r a cw, integral_ok I -> 0 < r -> 0 < a ->
  mk_radial I r a cw = Ok (TExpr (radial_point r (winding cw)) (radial_tangent r (winding cw)) a false (r * a)).
Proof.
  intros I r a cw H R A. unfold mk_radial. rewrite (proj2 (rle_false _ _) R), (proj2 (rle_false _ _) A).
  unfold mk_expr. rewrite (H _ r a (fun s => radial_norm r cw s R)).
 rewrite (proj2 (rle_false (r * a) 0)) by nra. reflexivity.
Qed.
Lemma seg_radial : forall r a cw len w, 0 < r ->
  seg_lcs (TExpr (radial_point r (winding cw)) (radial_tangent r (winding cw)) a false len) w =
  Ok (Lcs (rotz (- winding cw * (w * a))) (radial_point r (winding cw) (w * a))).
Proof.
  intros r a cw len w R. cbn [seg_lcs]. set (s := w * a).
  replace (radial_tangent r (winding cw) s) with
    (V (r * cos (- winding cw * s)) (r * sin (- winding cw * s)) 0); [apply tangent_horizontal; exact R|].
  destruct (winding_cases cw) as [E|E]; rewrite E; unfold radial_tangent.
  - replace (Ropp 1 * s) with (- s) by ring. rewrite cos_neg, sin_neg. apply vec_eq; cbn; ring.
  - replace (Ropp (-1) * s) with s by ring. apply vec_eq; cbn; ring.
Qed.

(** ** segments of pieces *)
Definition built (I : (R -> R) -> R -> R) (p : piece) (s : tseg) : Prop := segment_of I p = Ok s.
Lemma piece_length_pos : forall p, piece_ok p -> 0 < piece_length p.
Proof. intros [l|r a cw]; cbn; [auto|intros [A B]; nra]. Qed.
Lemma segment_total : forall I p, integral_ok I -> piece_ok p -> exists s, segment_of I p = Ok s.
Proof.
  intros I [l|r a cw] H K; cbn [segment_of].
  - rewrite mk_linear_ok by exact K. eauto.
  - destruct K. rewrite mk_radial_ok by assumption. eauto.
Qed.
Lemma segment_length : forall I p s, integral_ok I -> piece_ok p -> segment_of I p = Ok s ->
  seg_len s = piece_length p.
Proof.
  intros I [l|r a cw] s H K E; cbn [segment_of] in E.
  - rewrite mk_linear_ok in E by exact K. injection E as <-. reflexivity.
  - destruct K. rewrite mk_radial_ok in E by assumption. injection E as <-. reflexivity.
Qed.
Lemma segment_pose : forall I p s x, integral_ok I -> piece_ok p -> segment_of I p = Ok s ->
  0 <= x <= piece_length p -> seg_lcs s (x / piece_length p) = Ok (piece_pose p x).
Proof.
  intros I [l|r a cw] s x H K E X; cbn [segment_of piece_length] in *.
  - cbn in K. rewrite mk_linear_ok in E by exact K. injection E as <-.
    assert (B : 0 <= x / l <= 1).
    { split; [apply Rmult_le_pos; [lra|left; apply Rinv_0_lt_compat; exact K]|].
      apply (Rmult_le_reg_r l); [exact K|]. replace (x / l * l) with x by (field; lra). lra. }
    rewrite (seg_linear l (x / l) K B). cbn [piece_pose].
    replace (x / l * l) with x by (field; lra). reflexivity.
  - destruct K as [R A]. rewrite mk_radial_ok in E by assumption. injection E as <-.
    rewrite seg_radial by exact R. replace (x / (r * a) * a) with (x / r) by (field; lra).
    cbn [piece_pose]. set (t := x / r). destruct cw; cbn [winding]; do 2 f_equal.
    + replace (Ropp 1 * t) with (- t) by ring. reflexivity.
    + unfold radial_point. apply vec_eq; cbn; ring.
    + replace (Ropp (-1) * t) with t by ring. reflexivity.
    + unfold radial_point. apply vec_eq; cbn; ring.
Qed.

Lemma piece_pose_valid : forall p s, valid (piece_pose p s).
Proof. intros [l|r a []] s; unfold valid; cbn [piece_pose l_ori]; [apply orthonormal_mid|apply rotz_valid|apply rotz_valid]. Qed.
Lemma piece_pose_zero : forall p, piece_pose p 0 = rid.
Proof.
  intros [l|r a cw]; [reflexivity|]. cbn [piece_pose]. replace (0 / r) with 0 by (unfold Rdiv; ring).
  rewrite Ropp_0, rotz_zero, sin_0, cos_0. unfold rid, vzero.
  destruct cw; f_equal; apply vec_eq; cbn; ring.
Qed.
Lemma placed_valid : forall a b, valid a -> valid b -> valid (placed a b).
Proof. intros a b A B. exact (radd_valid b a B A). Qed.
Lemma placed_zero : forall a p, placed a (piece_pose p 0) = a.
Proof. intros a p. rewrite piece_pose_zero. exact (radd_id_l a). Qed.

(** ** the path *)
Lemma path_zero : forall ps start, Forall piece_ok ps -> path_pose ps start 0 = start.
Proof.
  intros [|p r] start F; [reflexivity|]. cbn [path_pose]. inversion F; subst.
  pose proof (piece_length_pos p ltac:(assumption)). destruct (Rle_dec 0 (piece_length p)); [|lra].
  apply placed_zero.
Qed.
Lemma path_skip : forall p ps start s, Forall piece_ok ps -> piece_length p <= s ->
  path_pose (p :: ps) start s = path_pose ps (placed start (piece_pose p (piece_length p))) (s - piece_length p).
Proof.
  intros p ps start s F S. cbn [path_pose]. destruct (Rle_dec s (piece_length p)); [|reflexivity].
  assert (s = piece_length p) by lra. subst s. rewrite Rminus_diag_eq by reflexivity.
  rewrite path_zero by exact F. reflexivity.
Qed.
Lemma path_valid : forall ps start s, valid start -> valid (path_pose ps start s).
Proof.
  induction ps as [|p r IH]; intros start s V; [exact V|]. cbn [path_pose]. destruct (Rle_dec _ _).
  - apply placed_valid; [exact V|apply piece_pose_valid].
  - apply IH, placed_valid; [exact V|apply piece_pose_valid].
Qed.
Lemma total_nonneg : forall ps, Forall piece_ok ps -> 0 <= total_length ps.
Proof.
  induction 1 as [|p r P F IH]; [cbn; lra|]. cbn. apply piece_length_pos in P. unfold total_length in IH. lra.
Qed.

(** ** the lookup tables *)
Fixpoint starts (ps : list piece) (start : lcs) : list lcs :=
  match ps with
  | [] => []
  | p :: r => let e := placed start (piece_pose p (piece_length p)) in e :: starts r e
  end.
Fixpoint totals (ps : list piece) (x : R) : list R :=
  match ps with
  | [] => []
  | p :: r => (x + piece_length p) :: totals r (x + piece_length p)
  end.
Lemma lookups_ok : forall I ps segs start x, integral_ok I -> Forall piece_ok ps -> Forall2 (built I) ps segs ->
  valid start -> lookups segs start x = Ok (starts ps start, totals ps x, map piece_length ps).
Proof.
  intros I ps segs start x H F B. revert start x. induction B as [|p s ps segs P B IH]; intros start x V; [reflexivity|].
  inversion F as [|? ? K F']; subst. cbn [lookups].
  assert (E := segment_pose I p s (piece_length p) H K P).
  pose proof (piece_length_pos p K). unfold Rdiv in E. rewrite Rinv_r in E by lra.
  rewrite E by lra. cbn [bind]. rewrite lcs_add_ok by (try apply piece_pose_valid; exact V). cbn [bind].
  change (radd (piece_pose p (piece_length p)) start) with (placed start (piece_pose p (piece_length p))).
  rewrite (segment_length I p s H K P).
  rewrite (IH F') by (apply placed_valid; [exact V|apply piece_pose_valid]). reflexivity.
Qed.
Lemma totals_last : forall ps x, last (x :: totals ps x) 0 = x + total_length ps.
Proof.
  induction ps as [|p r IH]; intros x; [cbn; ring|]. cbn [totals].
  transitivity (last ((x + piece_length p) :: totals r (x + piece_length p)) 0); [reflexivity|].
  rewrite IH. cbn. unfold total_length. ring.
Qed.
Definition trace_of (segs : list tseg) (ps : list piece) (start : lcs) : trace :=
  Trace segs (start :: starts ps start) (0 :: totals ps 0) (map piece_length ps).
Lemma mk_trace_ok : forall I ps segs start, integral_ok I -> Forall piece_ok ps -> Forall2 (built I) ps segs ->
  ps <> [] -> valid start -> mk_trace segs (Some start) = Ok (trace_of segs ps start) /\
    trace_length (trace_of segs ps start) = total_length ps /\ 0 < total_length ps.
Proof.
  intros I ps segs start H F B N V.
  assert (L : trace_length (trace_of segs ps start) = total_length ps)
    by (unfold trace_length, trace_of; cbn [t_totals]; rewrite totals_last; ring).
  assert (P : 0 < total_length ps).
  { destruct ps as [|p r]; [contradiction|]. inversion F; subst. cbn. pose proof (piece_length_pos p ltac:(assumption)).
    pose proof (total_nonneg r ltac:(assumption)) as Q. unfold total_length in Q. lra. }
  split; [|split; [exact L|exact P]]. unfold mk_trace. cbn [bind]. rewrite (lookups_ok I ps segs start 0 H F B V).
  cbn [bind]. fold (trace_of segs ps start). rewrite L, (proj2 (rle_false _ _) P). reflexivity.
Qed.

(** entry i of the tables *)
Lemma totals_length : forall ps x, length (totals ps x) = length ps.
Proof. induction ps; intros; cbn; auto. Qed.
Lemma starts_length : forall ps s, length (starts ps s) = length ps.
Proof. induction ps; intros; cbn; auto. Qed.
Lemma system_entry : forall I ps segs start x i s, integral_ok I -> Forall piece_ok ps -> Forall2 (built I) ps segs ->
  valid start -> (i < length ps)%nat ->
  nth i (x :: totals ps x) 0 <= s <= nth (S i) (x :: totals ps x) 0 ->
  system_at (Trace segs (start :: starts ps start) (x :: totals ps x) (map piece_length ps)) i s =
    Ok (path_pose ps start (s - x)).
Proof.
  intros I ps segs start x i s H F B. revert start x i. induction B as [|p g ps segs P B IH]; intros start x i V L E; [cbn in L; lia|].
  inversion F as [|? ? K F']; subst. destruct i as [|i].
  - cbn [nth totals] in E. unfold system_at. cbn [t_segments t_totals t_lengths t_systems nth_error map].
    rewrite (segment_pose I p g (s - x) H K P) by lra. cbn [bind].
    rewrite lcs_add_ok by (try apply piece_pose_valid; exact V). cbn [path_pose].
    destruct (Rle_dec (s - x) (piece_length p)); [reflexivity|lra].
  - assert (L' : (i < length ps)%nat) by (cbn in L; lia).
    cbn [totals] in E. set (x' := x + piece_length p) in *.
    assert (E' : nth i (x' :: totals ps x') 0 <= s <= nth (S i) (x' :: totals ps x') 0) by exact E.
    transitivity (system_at (Trace segs (starts (p :: ps) start) (totals (p :: ps) x) (map piece_length ps)) i s); [reflexivity|].
    cbn [starts totals]. fold x'.
    rewrite (IH F' (placed start (piece_pose p (piece_length p))) x' i ltac:(apply placed_valid; [exact V|apply piece_pose_valid]) L' E').
    assert (G : x' <= s).
    { destruct E' as [E' _]. assert (Q : forall qs y j, Forall piece_ok qs -> (j < length (y :: totals qs y))%nat -> y <= nth j (y :: totals qs y) 0).
      { induction qs as [|q qs IQ]; intros y j Fq J; destruct j; cbn [totals nth] in *; try (cbn in J; lia); try lra.
        inversion Fq; subst. pose proof (piece_length_pos q ltac:(assumption)).
        pose proof (IQ (y + piece_length q) j ltac:(assumption) ltac:(cbn in *; lia)). cbn [nth] in *. lra. }
      pose proof (Q ps x' i F' ltac:(cbn; rewrite totals_length; lia)). lra. }
    rewrite path_skip by (try exact F'; unfold x' in G; lra). do 2 f_equal. unfold x'. ring.
Qed.

(** ** index of the segment *)
Lemma first_index_ok : forall count i ts p j, first_index i count ts p = Some j ->
  (i <= j < i + count)%nat /\ p <= nth (j + 1) ts 0 /\ (forall k, (i <= k < j)%nat -> nth (k + 1) ts 0 < p).
Proof.
  induction count as [|c IH]; intros i ts p j E; [discriminate|]. cbn [first_index] in E.
  destruct (rle p (nth (i + 1) ts 0)) eqn:A.
  - injection E as <-. apply rle_true in A. split; [lia|]. split; [exact A|intros; lia].
  - apply rle_false in A. destruct (IH _ _ _ _ E) as (B & C & D). split; [lia|]. split; [exact C|].
    intros k K. destruct (Nat.eq_dec k i) as [->|]; [exact A|apply D; lia].
Qed.
Lemma first_index_none : forall count i ts p, first_index i count ts p = None ->
  forall k, (i <= k < i + count)%nat -> nth (k + 1) ts 0 < p.
Proof.
  induction count as [|c IH]; intros i ts p E k K; [lia|]. cbn [first_index] in E.
  destruct (rle p (nth (i + 1) ts 0)) eqn:A; [discriminate|]. apply rle_false in A.
  destruct (Nat.eq_dec k i) as [->|]; [exact A|apply (IH _ _ _ E); lia].
Qed.
Lemma clip_id : forall x lo hi, lo <= x <= hi -> clip x lo hi = x.
Proof. intros x lo hi H. unfold clip. rewrite Rmax_left, Rmin_left; lra. Qed.
Lemma last_nth : forall (l : list R) d, last l d = nth (length l - 1) l d.
Proof.
  induction l as [|a [|b l] IH]; intros d; [reflexivity|reflexivity|].
  transitivity (last (b :: l) d); [reflexivity|]. rewrite IH. cbn. rewrite Nat.sub_0_r. reflexivity.
Qed.
Lemma segment_index_ok : forall ps segs start s, Forall piece_ok ps -> length segs = length ps -> ps <> [] ->
  0 <= s <= total_length ps ->
  let t := trace_of segs ps start in
  let i := segment_index t s in
  (i < length ps)%nat /\ nth i (0 :: totals ps 0) 0 <= s <= nth (S i) (0 :: totals ps 0) 0.
Proof.
  intros ps segs start s F LS N S t i.
  assert (L : trace_length t = total_length ps)
    by (unfold trace_length, t, trace_of; cbn [t_totals]; rewrite totals_last; ring).
  assert (NP : (0 < length ps)%nat) by (destruct ps; [contradiction|cbn; lia]).
  assert (LT : length (t_totals t) = Datatypes.S (length ps)) by (unfold t; cbn; rewrite totals_length; reflexivity).
  unfold i, segment_index. rewrite L, clip_id by exact S. rewrite LT.
  change (t_totals t) with (0 :: totals ps 0). change (t_segments t) with segs. rewrite LS.
  destruct (first_index 0 (Datatypes.S (length ps) - 2) (0 :: totals ps 0) s) as [j|] eqn:E.
  - destruct (first_index_ok _ _ _ _ _ E) as (A & B & C). rewrite Nat.add_1_r in B.
    split; [lia|]. split; [|exact B]. destruct j as [|j]; [cbn; lra|].
    specialize (C j ltac:(lia)). rewrite Nat.add_1_r in C. lra.
  - assert (C := first_index_none _ _ _ _ E). split; [lia|].
    replace (Datatypes.S (length ps - 1)) with (length (0%R :: totals ps 0%R) - 1)%nat by (cbn; rewrite totals_length; lia).
    rewrite <- last_nth, totals_last. split; [|lra]. destruct (length ps - 1)%nat as [|j] eqn:J; [cbn; lra|].
    specialize (C j ltac:(lia)). rewrite Nat.add_1_r in C. lra.
Qed.
Lemma f2_len : forall {A B} (P : A -> B -> Prop) l m, Forall2 P l m -> length l = length m.
Proof. induction 1; cbn; congruence. Qed.
Lemma local_cs_ok : forall I ps segs start s, integral_ok I -> Forall piece_ok ps -> Forall2 (built I) ps segs ->
  ps <> [] -> valid start -> 0 <= s <= total_length ps ->
  local_cs (trace_of segs ps start) s = Ok (path_pose ps start s).
Proof.
  intros I ps segs start s H F B N V S. unfold local_cs.
  destruct (segment_index_ok ps segs start s F (eq_sym (f2_len _ _ _ B)) N S) as [A E].
  unfold trace_of at 1. rewrite (system_entry I ps segs start 0 _ s H F B V A E). rewrite Rminus_0_r. reflexivity.
Qed.

(** ** distances along the path *)
Lemma dist2_tri : forall a b c x y, 0 <= x -> 0 <= y -> dist2 a b <= x * x -> dist2 b c <= y * y ->
  dist2 a c <= (x + y) * (x + y).
Proof.
  intros a b c x y X Y A B. rewrite dist2_dot in *.
  set (u := vsub a b) in *. set (v := vsub b c) in *.
  replace (vsub a c) with (vadd u v) by (unfold u, v; apply vec_eq; cbn; ring).
  assert (E : dot (vadd u v) (vadd u v) = dot u u + dot v v + 2 * dot u v) by (unfold dot; cbn; ring).
  assert (C : dot u v * dot u v <= dot u u * dot v v).
  { pose proof (cross_norm u v) as Q. assert (0 <= dot (cross u v) (cross u v)) by (unfold dot; nra). lra. }
  assert (U0 : 0 <= dot u u) by (unfold dot; nra). assert (V0 : 0 <= dot v v) by (unfold dot; nra).
  assert (D : dot u v * dot u v <= (x * y) * (x * y)).
  { apply (Rle_trans _ (dot u u * dot v v)); [exact C|].
    apply (Rle_trans _ ((x * x) * (y * y))); [apply Rmult_le_compat; assumption|right; ring]. }
  assert (P : dot u v <= x * y).
  { destruct (Rle_dec (dot u v) (x * y)) as [|G]; [assumption|]. exfalso. apply Rnot_le_lt in G.
    assert (0 <= x * y) by nra. nra. }
  rewrite E. nra.
Qed.
Lemma sin_le_abs : forall x, sin x * sin x <= x * x.
Proof.
  assert (P : forall x, 0 <= x -> sin x * sin x <= x * x).
  { intros x X. destruct (Rle_lt_or_eq_dec 0 x X) as [L|<-]; [|rewrite sin_0; lra].
    destruct (Rle_dec 1 x) as [G|G].
    - pose proof (cs1 x). nra.
    - pose proof (sin_lt_x x L). assert (0 <= sin x) by (apply sin_ge_0; pose proof PI2_3_2; lra). nra. }
  intros x. destruct (Rle_dec 0 x) as [X|X]; [apply P; exact X|].
  specialize (P (- x) ltac:(lra)). rewrite sin_neg in P. nra.
Qed.
Lemma cos_bound : forall d, 2 - 2 * cos d <= d * d.
Proof.
  intros d. replace d with (2 * (d / 2)) at 1 by field. rewrite cos_2a_sin.
  pose proof (sin_le_abs (d / 2)). nra.
Qed.
Lemma chord : forall a b, (sin a - sin b) * (sin a - sin b) + (cos a - cos b) * (cos a - cos b) = 2 - 2 * cos (a - b).
Proof.
  intros a b. rewrite cos_minus. pose proof (cs1 a). pose proof (cs1 b).
  transitivity ((cos a * cos a + sin a * sin a) + (cos b * cos b + sin b * sin b) - 2 * (cos a * cos b + sin a * sin b)); [ring|].
  lra.
Qed.
Lemma piece_lipschitz : forall p a b, piece_ok p ->
  dist2 (l_pos (piece_pose p a)) (l_pos (piece_pose p b)) <= (b - a) * (b - a).
Proof.
  intros [l|r g cw] a b K.
  - unfold dist2. cbn. right. ring.
  - destruct K as [R _]. pose proof (cos_bound (a / r - b / r)) as C. rewrite <- chord in C.
    assert (E : dist2 (l_pos (piece_pose (Bend r g cw) a)) (l_pos (piece_pose (Bend r g cw) b)) =
       r * r * ((sin (a / r) - sin (b / r)) * (sin (a / r) - sin (b / r)) +
                (cos (a / r) - cos (b / r)) * (cos (a / r) - cos (b / r))))
      by (destruct cw; unfold dist2; cbn; ring).
    rewrite E. apply (Rle_trans _ (r * r * ((a / r - b / r) * (a / r - b / r)))).
    + apply Rmult_le_compat_l; [nra|exact C].
    + right. field. lra.
Qed.
Lemma piece_turns : forall p k a b v, piece_ok p -> bends_at_most k p ->
  dist2 (mvec (l_ori (piece_pose p a)) v) (mvec (l_ori (piece_pose p b)) v) <= (k * (b - a)) * (k * (b - a)) * dot v v.
Proof.
  intros [l|r g cw] k a b v K B.
  - cbn [piece_pose l_ori]. rewrite !mvec_id. unfold dist2.
    assert (0 <= k * (b - a) * (k * (b - a)) * dot v v).
    { apply Rmult_le_pos; [apply Rle_0_sqr|unfold dot; nra]. } nra.
  - destruct K as [R _]. cbn in B.
    assert (S1 : forall s t, dist2 (mvec (rotz s) v) (mvec (rotz t) v) = (2 - 2 * cos (s - t)) * (vx v * vx v + vy v * vy v)).
    { intros s t. rewrite <- chord. unfold dist2. cbn. ring. }
    assert (S2 : dist2 (mvec (l_ori (piece_pose (Bend r g cw) a)) v) (mvec (l_ori (piece_pose (Bend r g cw) b)) v)
       = (2 - 2 * cos (a / r - b / r)) * (vx v * vx v + vy v * vy v)).
    { cbn [piece_pose]. destruct cw; cbn [l_ori]; rewrite S1; [|reflexivity].
      replace (- (a / r) - - (b / r)) with (- (a / r - b / r)) by ring. rewrite cos_neg. reflexivity. }
    rewrite S2. pose proof (cos_bound (a / r - b / r)) as C.
    assert (D : (a / r - b / r) * (a / r - b / r) <= k * (b - a) * (k * (b - a))).
    { replace ((a / r - b / r) * (a / r - b / r)) with ((/ r * / r) * ((b - a) * (b - a))) by (field; lra).
      replace (k * (b - a) * (k * (b - a))) with ((k * k) * ((b - a) * (b - a))) by ring.
      apply Rmult_le_compat_r; [apply Rle_0_sqr|]. assert (0 < / r) by (apply Rinv_0_lt_compat; exact R).
      apply Rmult_le_compat; lra. }
    pose proof (COS_bound (a / r - b / r)). apply Rmult_le_compat; [lra|nra|lra|unfold dot; nra].
Qed.
Lemma placed_pos_dist : forall s a b, valid s ->
  dist2 (l_pos (placed s a)) (l_pos (placed s b)) = dist2 (l_pos a) (l_pos b).
Proof. intros s a b V. exact (apply_dist s (l_pos a) (l_pos b) V). Qed.
Lemma mvec_dist : forall m a b, orthonormal m -> dist2 (mvec m a) (mvec m b) = dist2 a b.
Proof.
  intros m a b O. pose proof (apply_dist (Lcs m vzero) a b O) as E. unfold lcs_apply in E. cbn in E.
  rewrite !vadd_zero_r in E. exact E.
Qed.
Lemma path_lipschitz : forall ps start a b, Forall piece_ok ps -> valid start -> 0 <= a -> a <= b -> b <= total_length ps ->
  dist2 (l_pos (path_pose ps start a)) (l_pos (path_pose ps start b)) <= (b - a) * (b - a).
Proof.
  induction ps as [|p r IH]; intros start a b F V A AB B.
  - cbn [path_pose]. unfold dist2. nra.
  - inversion F as [|? ? K F']; subst.
    assert (VP : valid (placed start (piece_pose p (piece_length p)))) by (apply placed_valid; [exact V|apply piece_pose_valid]).
    assert (B' : b - piece_length p <= total_length r) by (cbn in B; unfold total_length; lra).
    destruct (Rle_dec (piece_length p) a) as [LA|LA].
    + rewrite !path_skip by (try exact F'; lra).
      replace ((b - a) * (b - a)) with ((b - piece_length p - (a - piece_length p)) * (b - piece_length p - (a - piece_length p))) by ring.
      apply IH; try assumption; lra.
    + apply Rnot_le_lt in LA.
      assert (EA : path_pose (p :: r) start a = placed start (piece_pose p a))
        by (cbn [path_pose]; destruct (Rle_dec a (piece_length p)); [reflexivity|lra]).
      rewrite EA. destruct (Rle_dec b (piece_length p)) as [LB|LB].
      * assert (EB : path_pose (p :: r) start b = placed start (piece_pose p b))
          by (cbn [path_pose]; destruct (Rle_dec b (piece_length p)); [reflexivity|lra]).
        rewrite EB, placed_pos_dist by exact V. apply piece_lipschitz; exact K.
      * apply Rnot_le_lt in LB. rewrite path_skip by (try exact F'; lra).
        replace (b - a) with ((piece_length p - a) + (b - piece_length p)) by ring.
        apply (dist2_tri _ (l_pos (placed start (piece_pose p (piece_length p))))); [lra|lra| |].
        -- rewrite placed_pos_dist by exact V. apply piece_lipschitz; exact K.
        -- pose proof (IH (placed start (piece_pose p (piece_length p))) 0 (b - piece_length p) F' VP ltac:(lra) ltac:(lra) B') as Q.
           rewrite path_zero in Q by exact F'. rewrite Rminus_0_r in Q. exact Q.
Qed.
Lemma placed_ori_dist : forall s a b v, valid s ->
  dist2 (mvec (l_ori (placed s a)) v) (mvec (l_ori (placed s b)) v) = dist2 (mvec (l_ori a) v) (mvec (l_ori b) v).
Proof. intros s a b v V. cbn [placed l_ori]. rewrite !mvec_mmul. apply mvec_dist; exact V. Qed.
Lemma path_turns : forall k v ps start a b, 0 <= k -> Forall piece_ok ps -> Forall (bends_at_most k) ps -> valid start ->
  0 <= a -> a <= b -> b <= total_length ps ->
  dist2 (mvec (l_ori (path_pose ps start a)) v) (mvec (l_ori (path_pose ps start b)) v) <=
    (k * (b - a) * norm v) * (k * (b - a) * norm v).
Proof.
  intros k v. assert (NS : norm v * norm v = dot v v) by apply norm_sq.
  assert (N0 : 0 <= norm v) by apply sqrt_pos.
  assert (ST : forall p a b, piece_ok p -> bends_at_most k p ->
    dist2 (mvec (l_ori (piece_pose p a)) v) (mvec (l_ori (piece_pose p b)) v) <= (k * (b - a) * norm v) * (k * (b - a) * norm v)).
  { intros p a b K B. pose proof (piece_turns p k a b v K B) as Q. rewrite <- NS in Q.
    replace (k * (b - a) * norm v * (k * (b - a) * norm v)) with (k * (b - a) * (k * (b - a)) * (norm v * norm v)) by ring. exact Q. }
  induction ps as [|p r IH]; intros start a b K0 F G V A AB B.
  - cbn [path_pose]. apply (Rle_trans _ 0); [unfold dist2; right; ring|apply Rle_0_sqr].
  - inversion F as [|? ? K F']; subst. inversion G as [|? ? G1 G']; subst.
    assert (VP : valid (placed start (piece_pose p (piece_length p)))) by (apply placed_valid; [exact V|apply piece_pose_valid]).
    assert (B' : b - piece_length p <= total_length r) by (cbn in B; unfold total_length; lra).
    destruct (Rle_dec (piece_length p) a) as [LA|LA].
    + rewrite !path_skip by (try exact F'; lra).
      replace (b - a) with (b - piece_length p - (a - piece_length p)) by ring.
      apply IH; try assumption; lra.
    + apply Rnot_le_lt in LA.
      assert (EA : path_pose (p :: r) start a = placed start (piece_pose p a))
        by (cbn [path_pose]; destruct (Rle_dec a (piece_length p)); [reflexivity|lra]).
      rewrite EA. destruct (Rle_dec b (piece_length p)) as [LB|LB].
      * assert (EB : path_pose (p :: r) start b = placed start (piece_pose p b))
          by (cbn [path_pose]; destruct (Rle_dec b (piece_length p)); [reflexivity|lra]).
        rewrite EB, placed_ori_dist by exact V. apply ST; assumption.
      * apply Rnot_le_lt in LB. rewrite path_skip by (try exact F'; lra).
        replace (k * (b - a) * norm v) with (k * (piece_length p - a) * norm v + k * (b - piece_length p) * norm v) by ring.
        assert (Q1 : 0 <= k * (piece_length p - a) * norm v) by (apply Rmult_le_pos; [apply Rmult_le_pos; lra|exact N0]).
        assert (Q2 : 0 <= k * (b - piece_length p) * norm v) by (apply Rmult_le_pos; [apply Rmult_le_pos; lra|exact N0]).
        apply (dist2_tri _ (mvec (l_ori (placed start (piece_pose p (piece_length p)))) v)); [exact Q1|exact Q2| |].
        -- rewrite placed_ori_dist by exact V. apply ST; assumption.
        -- pose proof (IH (placed start (piece_pose p (piece_length p))) 0 (b - piece_length p) K0 F' G' VP ltac:(lra) ltac:(lra) B') as Q.
           rewrite path_zero in Q by exact F'. rewrite Rminus_0_r in Q. exact Q.
Qed.

(** ** rasters *)
Lemma raster_number_pos : forall len w, 0 < w <= len ->
  (1 <= raster_number len w)%nat /\ Rabs (INR (raster_number len w) - len / w) <= / 2.
Proof.
  intros len w W. unfold raster_number.
  assert (X : 1 <= len / w).
  { apply (Rmult_le_reg_r w); [lra|]. unfold Rdiv. rewrite Rmult_assoc, Rinv_l, Rmult_1_r by lra. lra. }
  pose proof (GeoShapeFacts.np_round_nearest (len / w)) as Q. unfold GeoSpec.nearest in Q.
  set (z := GeoModel.np_round (len / w)) in *.
  assert (Z : (0 < z)%Z) by (apply lt_IZR; apply GeoShapeFacts.abs_le_inv in Q; lra).
  split; [lia|]. rewrite INR_IZR_INZ, Z2Nat.id by lia. exact Q.
Qed.
Lemma advance_ok : forall ts loc fuel idx, (idx + 1 < length ts)%nat -> (length ts <= fuel + idx)%nat ->
  nth idx ts 0 <= loc <= nth (length ts - 1) ts 0 ->
  exists j, advance fuel idx ts loc = Ok j /\ (idx <= j)%nat /\ (j + 1 < length ts)%nat /\
    nth j ts 0 <= loc <= nth (j + 1) ts 0.
Proof.
  intros ts loc. induction fuel as [|f IH]; intros idx L F B; [lia|]. cbn [advance].
  rewrite (nth_error_nth' ts 0) by exact L. destruct (rle loc (nth (idx + 1) ts 0)) eqn:A.
  - apply rle_true in A. exists idx. split; [reflexivity|]. split; [lia|]. split; [exact L|lra].
  - apply rle_false in A.
    assert (L' : (S idx + 1 < length ts)%nat).
    { destruct (Nat.eq_dec (idx + 1) (length ts - 1)) as [E|]; [rewrite E in A; lra|lia]. }
    destruct (IH (S idx) L' ltac:(lia)) as (j & E & J1 & J2 & J3); [rewrite Nat.add_1_r in A; lra|].
    exists j. split; [exact E|]. split; [lia|]. split; [exact J2|exact J3].
Qed.
Lemma raster_loop_ok : forall I ps segs start w, integral_ok I -> Forall piece_ok ps -> Forall2 (built I) ps segs ->
  ps <> [] -> valid start -> 0 <= w -> forall k i idx, (idx < length ps)%nat ->
  nth idx (0 :: totals ps 0) 0 <= INR i * w -> (INR (i + k) - 1) * w <= total_length ps ->
  raster_loop (trace_of segs ps start) w idx (seq i k) =
    Ok (map (fun j => l_pos (path_pose ps start (INR j * w))) (seq i k)).
Proof.
  intros I ps segs start w H F B N V W. induction k as [|k IH]; intros i idx L A T; [reflexivity|].
  cbn [seq raster_loop]. unfold trace_of at 1 2. cbn [t_totals].
  assert (LT : length (0 :: totals ps 0) = S (length ps)) by (cbn; rewrite totals_length; reflexivity).
  assert (TL : nth (length (0%R :: totals ps 0%R) - 1) (0 :: totals ps 0) 0 = total_length ps)
    by (rewrite <- last_nth, totals_last; ring).
  assert (B2 : INR i * w <= total_length ps).
  { apply (Rle_trans _ ((INR (i + S k) - 1) * w)); [|exact T]. apply Rmult_le_compat_r; [exact W|].
    rewrite plus_INR, S_INR. pose proof (pos_INR k). lra. }
  destruct (advance_ok (0 :: totals ps 0) (INR i * w) (S (length (0 :: totals ps 0))) idx) as (j & E & J1 & J2 & J3);
    [rewrite LT; lia|lia|rewrite TL; lra|].
  rewrite E. cbn [bind]. assert (J4 : (j < length ps)%nat) by (rewrite LT in J2; lia).
  unfold trace_of at 1. rewrite (system_entry I ps segs start 0 j (INR i * w) H F B V J4) by (rewrite Nat.add_1_r in J3; exact J3).
  cbn [bind]. rewrite IH; [| exact J4 | | replace (S i + k)%nat with (i + S k)%nat by lia; exact T].
  - cbn [bind map]. rewrite Rminus_0_r. reflexivity.
  - apply (Rle_trans _ (INR i * w)); [lra|]. apply Rmult_le_compat_r; [exact W|]. apply le_INR; lia.
Qed.
Lemma starts_last : forall ps start d, Forall piece_ok ps -> last (start :: starts ps start) d = path_pose ps start (total_length ps).
Proof.
  induction ps as [|p r IH]; intros start d F; [reflexivity|]. inversion F; subst. cbn [starts].
  transitivity (last (placed start (piece_pose p (piece_length p)) :: starts r (placed start (piece_pose p (piece_length p)))) d); [reflexivity|].
  rewrite IH by assumption. pose proof (total_nonneg r ltac:(assumption)) as T.
  rewrite path_skip; [|assumption|cbn; unfold total_length in T; lra].
  f_equal. cbn. unfold total_length. ring.
Qed.
Lemma rasterize_ok : forall I ps segs start w, integral_ok I -> Forall piece_ok ps -> Forall2 (built I) ps segs ->
  ps <> [] -> valid start -> 0 < w ->
  let n := raster_number (total_length ps) (Rmin w (total_length ps)) in
  rasterize (trace_of segs ps start) w =
    Ok (map (fun j => l_pos (path_pose ps start (INR j * (total_length ps / INR n)))) (seq 0 (S n))).
Proof.
  intros I ps segs start w H F B N V W n.
  destruct (mk_trace_ok I ps segs start H F B N V) as (_ & L & P).
  unfold rasterize. rewrite (proj2 (rle_false _ _) W), L.
  assert (C : clip w 0 (total_length ps) = Rmin w (total_length ps)) by (unfold clip; rewrite Rmax_left by lra; reflexivity).
  rewrite C. fold n.
  assert (M : 0 < Rmin w (total_length ps) <= total_length ps).
  { split; [apply Rmin_glb_lt; assumption|apply Rmin_r]. }
  destruct (raster_number_pos _ _ M) as [N1 _]. fold n in N1.
  assert (NR : 1 <= INR n) by (change 1 with (INR 1); apply le_INR; exact N1).
  assert (E : INR n * (total_length ps / INR n) = total_length ps) by (field; lra).
  assert (E0 : 0 < total_length ps / INR n) by (apply Rdiv_lt_0_compat; lra).
  rewrite (raster_loop_ok I ps segs start (total_length ps / INR n) H F B N V (Rlt_le _ _ E0)).
  - cbn [bind]. replace (S n) with (n + 1)%nat by lia. rewrite seq_app, map_app. cbn [seq map Nat.add].
    rewrite E. unfold trace_of. cbn [t_systems]. rewrite starts_last by exact F. reflexivity.
  - destruct ps; [contradiction|cbn; lia].
  - cbn. lra.
  - rewrite Nat.add_0_l. lra.
Qed.

Lemma ceil_half : forall n, (1 <= n)%nat -> ceil_nat (INR n - / 2) = n.
Proof.
  intros n N. unfold ceil_nat. pose proof (GeoShapeFacts.int_part_bounds (- (INR n - / 2))) as B.
  set (z := Int_part (- (INR n - / 2))) in *.
  assert (Z : z = (- Z.of_nat n)%Z).
  { clearbody z. rewrite INR_IZR_INZ in B. apply Z.le_antisymm.
    - apply Zlt_succ_le. apply lt_IZR. rewrite succ_IZR, opp_IZR. lra.
    - apply Zlt_succ_le. apply lt_IZR. rewrite succ_IZR, opp_IZR. lra. }
  rewrite Z. lia.
Qed.
Lemma raster_locations_ok : forall len w, 0 < len -> 0 < w ->
  let n := raster_number len (Rmin w len) in
  raster_locations len w = Ok (map (fun i => INR i * (len / INR n)) (seq 0 (S n))).
Proof.
  intros len w L W n. unfold raster_locations. rewrite (proj2 (rle_false _ _) W). fold n.
  assert (M : 0 < Rmin w len <= len) by (split; [apply Rmin_glb_lt; assumption|apply Rmin_r]).
  destruct (raster_number_pos _ _ M) as [N1 _]. fold n in N1.
  assert (NR : 1 <= INR n) by (change 1 with (INR 1); apply le_INR; exact N1).
  unfold arange0. replace ((len - len / INR n / 2) / (len / INR n)) with (INR n - / 2) by (field; lra).
  rewrite ceil_half by exact N1. replace (S n) with (n + 1)%nat by lia. rewrite seq_app, map_app.
  cbn [seq map Nat.add]. replace (INR n * (len / INR n)) with len by (field; lra). reflexivity.
Qed.

(** ** variable profiles *)
Lemma ascending_ok : forall n l, length l = S n -> ascending n l = true <-> increasing l.
Proof.
  induction n as [|n IH]; intros [|a [|b l]] L; try discriminate L; cbn [ascending increasing]; [tauto|].
  destruct (rle b a) eqn:E; [apply rle_true in E|apply rle_false in E].
  - split; [discriminate|intros [A _]; lra].
  - rewrite IH by (cbn in *; lia). tauto.
Qed.
Lemma increasing_nth : forall l i j, increasing l -> (i < j < length l)%nat -> nth i l 0 < nth j l 0.
Proof.
  induction l as [|a l IH]; intros i j H L; [cbn in L; lia|].
  destruct j as [|j]; [lia|]. destruct l as [|b l]; [cbn in L; lia|]. destruct H as [H1 H2].
  destruct i as [|i].
  - destruct j as [|j]; [exact H1|]. specialize (IH 0%nat (S j) H2 ltac:(cbn in *; lia)). cbn [nth] in *. lra.
  - apply (IH i j H2). cbn in *; lia.
Qed.
Lemma location_index_ok : forall ls x fuel idx, increasing ls -> (idx + 1 < length ls)%nat -> (length ls <= fuel + idx)%nat ->
  x <= nth (length ls - 1) ls 0 -> (idx = 0%nat \/ nth idx ls 0 < x) ->
  exists j, location_index fuel idx ls x = Ok j /\ (j + 1 < length ls)%nat /\
    x <= nth (j + 1) ls 0 /\ (j = 0%nat \/ nth j ls 0 < x).
Proof.
  intros ls x. induction fuel as [|f IH]; intros idx I L F B S; [lia|]. cbn [location_index].
  rewrite (nth_error_nth' ls 0) by exact L. destruct (rlt (nth (idx + 1) ls 0) x) eqn:A.
  - apply rlt_true in A.
    assert (L' : (Datatypes.S idx + 1 < length ls)%nat).
    { destruct (Nat.eq_dec (idx + 1) (length ls - 1)) as [E|]; [rewrite E in A; lra|lia]. }
    apply IH; [exact I|exact L'|lia|exact B|]. right. rewrite Nat.add_1_r in A. exact A.
  - apply rlt_false in A. exists idx. auto.
Qed.

(** ** positions outside of the trace *)
Lemma totals_increasing : forall ps x, Forall piece_ok ps -> increasing (x :: totals ps x).
Proof.
  induction ps as [|p r IH]; intros x F; [exact Logic.I|]. inversion F; subst. pose proof (piece_length_pos p ltac:(assumption)).
  split; [lra|]. apply IH; assumption.
Qed.
Lemma index_end : forall ps segs start s, Forall piece_ok ps -> length segs = length ps -> ps <> [] ->
  total_length ps <= s -> segment_index (trace_of segs ps start) s = (length ps - 1)%nat.
Proof.
  intros ps segs start s F LS N G.
  assert (L : trace_length (trace_of segs ps start) = total_length ps)
    by (unfold trace_length, trace_of; cbn [t_totals]; rewrite totals_last; ring).
  pose proof (total_nonneg ps F) as T. unfold segment_index. rewrite L.
  replace (clip s 0 (total_length ps)) with (total_length ps) by (unfold clip; rewrite Rmax_left, Rmin_right; lra).
  unfold trace_of. cbn [t_totals t_segments length]. rewrite totals_length, LS.
  destruct (first_index 0 (S (length ps) - 2) (0 :: totals ps 0) (total_length ps)) as [j|] eqn:E; [exfalso|reflexivity].
  destruct (first_index_ok _ _ _ _ _ E) as (A & B & _).
  pose proof (increasing_nth (0 :: totals ps 0) (j + 1) (length ps) (totals_increasing ps 0 F) ltac:(cbn; rewrite totals_length; lia)) as C.
  replace (nth (length ps) (0 :: totals ps 0) 0) with (total_length ps) in C; [lra|].
  transitivity (last (0 :: totals ps 0) 0); [rewrite totals_last; ring|].
  rewrite last_nth. cbn [length]. rewrite totals_length. f_equal. lia.
Qed.
Lemma index_start : forall ps segs start s, Forall piece_ok ps -> length segs = length ps -> ps <> [] ->
  s <= 0 -> segment_index (trace_of segs ps start) s = 0%nat.
Proof.
  intros ps segs start s F LS N G.
  assert (L : trace_length (trace_of segs ps start) = total_length ps)
    by (unfold trace_length, trace_of; cbn [t_totals]; rewrite totals_last; ring).
  pose proof (total_nonneg ps F) as T. unfold segment_index. rewrite L.
  replace (clip s 0 (total_length ps)) with 0 by (unfold clip; rewrite Rmax_right, Rmin_left; lra).
  unfold trace_of. cbn [t_totals t_segments length]. rewrite totals_length, LS.
  destruct ps as [|p r]; [contradiction|]. inversion F; subst. pose proof (piece_length_pos p ltac:(assumption)).
  destruct (length (p :: r) - 1)%nat as [|k] eqn:E.
  - replace (S (length (p :: r)) - 2)%nat with 0%nat by lia. reflexivity.
  - replace (S (length (p :: r)) - 2)%nat with (S k) by lia. cbn [first_index totals Nat.add nth].
    rewrite (proj2 (rle_true 0 (0 + piece_length p))) by lra. reflexivity.
Qed.
Lemma rotz_pi : forall l, 0 < l -> V (- l) 0 0 = V (l * cos PI) (l * sin PI) 0.
Proof. intros l _. rewrite cos_PI, sin_PI. apply vec_eq; cbn; ring. Qed.
Lemma seg_linear_low : forall l w, 0 < l -> w < 0 ->
  seg_lcs (TDisc [(0, vzero); (1, V l 0 0)] false l) w = Ok (Lcs (rotz PI) vzero).
Proof.
  intros l w L W. unfold seg_lcs. rewrite tangent_linear_neg by exact W. rewrite eval_linear.
  rewrite (rotz_pi l L), tangent_horizontal by exact L. unfold clip. rewrite Rmax_right, Rmin_left by lra.
  do 2 f_equal. apply vec_eq; cbn; ring.
Qed.
Lemma seg_linear_high : forall l w, 0 < l -> 1 <= w ->
  seg_lcs (TDisc [(0, vzero); (1, V l 0 0)] false l) w = Ok (Lcs mid (V l 0 0)).
Proof.
  intros l w L W. unfold seg_lcs. rewrite tangent_linear by lra. rewrite eval_linear.
  replace (V l 0 0) with (V (l * cos 0) (l * sin 0) 0) at 1 by (rewrite cos_0, sin_0; f_equal; ring).
  rewrite tangent_horizontal by exact L. rewrite rotz_zero. unfold clip.
  rewrite Rmax_left, Rmin_right by lra. do 2 f_equal. apply vec_eq; cbn; ring.
Qed.
Lemma totals_app : forall ps qs x, totals (ps ++ qs) x = totals ps x ++ totals qs (x + total_length ps).
Proof.
  induction ps as [|p r IH]; intros qs x; cbn [app totals].
  - f_equal. cbn. ring.
  - f_equal. rewrite IH. do 2 f_equal. cbn. unfold total_length. ring.
Qed.
Lemma totals_nth_len : forall ps qs x, nth (length ps) (x :: totals (ps ++ qs) x) 0 = x + total_length ps.
Proof.
  intros ps qs x. rewrite <- totals_last. rewrite last_nth. cbn [length]. rewrite totals_length.
  replace (S (length ps) - 1)%nat with (length ps) by lia.
  rewrite totals_app. change (x :: totals ps x ++ ?y) with ((x :: totals ps x) ++ y).
  apply app_nth1. cbn. rewrite totals_length. lia.
Qed.
Lemma total_app : forall ps qs, total_length (ps ++ qs) = total_length ps + total_length qs.
Proof. induction ps as [|p r IH]; intros qs; unfold total_length in *; cbn [app fold_right]; [ring|rewrite IH; ring]. Qed.
