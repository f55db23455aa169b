(** C62 - C65 and C79 - C81: traces, variable profiles and rasters of geometries. *)
From Coq Require Import Reals List ZArith Lia Lra.
From Verif Require Import Base RigidModel RigidSpec RigidFacts TraceModel TraceSpec TraceFacts.
From Verif Require GeoModel GeoSpec GeoFacts GeoShapeFacts GeoProps.
Import ListNotations.
Open Scope R_scope.

(** ** C62 Traces are continuous *)
(** Every list of straight lines and bends is a trace. *)
Theorem c62_total : forall I ps start, integral_ok I -> Forall piece_ok ps -> ps <> [] -> valid start ->
  exists segs t, Forall2 (fun p s => segment_of I p = Ok s) ps segs /\
    mk_trace segs (Some start) = Ok t /\ trace_length t = total_length ps.
Proof.
  intros I ps start H F N V.
  assert (E : exists segs, Forall2 (built I) ps segs).
  { clear N. induction F as [|p r K F [segs IH]]; [exists []; constructor|].
    destruct (segment_total I p H K) as [s S]. exists (s :: segs). constructor; assumption. }
  destruct E as [segs B]. destruct (mk_trace_ok I ps segs start H F B N V) as (E & L & _).
  exists segs, (trace_of segs ps start). auto.
Qed.
Print Assumptions c62_total.

(** The coordinate system at a position is the pose of somebody who walked this
    distance along the lines and bends. *)
Theorem c62_pose : forall I ps segs start t s, integral_ok I -> Forall piece_ok ps -> ps <> [] -> valid start ->
  Forall2 (fun p s => segment_of I p = Ok s) ps segs -> mk_trace segs (Some start) = Ok t ->
  0 <= s <= total_length ps -> local_cs t s = Ok (path_pose ps start s).
Proof.
  intros I ps segs start t s H F N V B E S.
  destruct (mk_trace_ok I ps segs start H F B N V) as (E' & _ & _). rewrite E in E'. injection E' as ->.
  apply (local_cs_ok I); assumption.
Qed.
Print Assumptions c62_pose.

Theorem c62_start : forall I ps segs start t, integral_ok I -> Forall piece_ok ps -> ps <> [] -> valid start ->
  Forall2 (fun p s => segment_of I p = Ok s) ps segs -> mk_trace segs (Some start) = Ok t ->
  local_cs t 0 = Ok start.
Proof.
  intros I ps segs start t H F N V B E. rewrite (c62_pose I ps segs start t 0 H F N V B E).
  - rewrite path_zero by exact F. reflexivity.
  - split; [lra|apply total_nonneg; exact F].
Qed.
Print Assumptions c62_start.

(** Between two positions the system moves at most by their distance and turns at
    most by the distance divided by the smallest radius: there are no jumps, neither
    at the segment boundaries nor elsewhere. *)
Theorem c62_continuous : forall I ps segs start t k a b, integral_ok I -> Forall piece_ok ps -> ps <> [] -> valid start ->
  Forall2 (fun p s => segment_of I p = Ok s) ps segs -> mk_trace segs (Some start) = Ok t ->
  0 <= k -> Forall (bends_at_most k) ps -> 0 <= a -> a <= b -> b <= total_length ps ->
  exists la lb, local_cs t a = Ok la /\ local_cs t b = Ok lb /\ valid la /\ valid lb /\
    dist3 (l_pos la) (l_pos lb) <= b - a /\
    forall v, dist3 (mvec (l_ori la) v) (mvec (l_ori lb) v) <= k * (b - a) * norm v.
Proof.
  intros I ps segs start t k a b H F N V B E K G A AB T.
  exists (path_pose ps start a), (path_pose ps start b).
  split; [apply (c62_pose I ps segs start t a); auto; lra|].
  split; [apply (c62_pose I ps segs start t b); auto; lra|].
  split; [apply path_valid; exact V|]. split; [apply path_valid; exact V|]. unfold dist3. split.
  - rewrite <- (sqrt_square (b - a)) by lra. apply sqrt_le_1_alt. apply path_lipschitz; assumption.
  - intros v. assert (P : 0 <= k * (b - a) * norm v) by (repeat apply Rmult_le_pos; try lra; apply sqrt_pos).
    rewrite <- (sqrt_square (k * (b - a) * norm v)) by exact P. apply sqrt_le_1_alt. apply path_turns; assumption.
Qed.
Print Assumptions c62_continuous.

(** A trace continues where its first part ends. *)
Theorem c62_boundary : forall I ps qs segs1 segs2 start t t1 e, integral_ok I -> Forall piece_ok ps -> Forall piece_ok qs ->
  ps <> [] -> qs <> [] -> valid start ->
  Forall2 (fun p s => segment_of I p = Ok s) ps segs1 -> Forall2 (fun p s => segment_of I p = Ok s) qs segs2 ->
  mk_trace segs1 (Some start) = Ok t1 -> mk_trace (segs1 ++ segs2) (Some start) = Ok t ->
  local_cs t1 (total_length ps) = Ok e ->
  (forall s, 0 <= s <= total_length ps -> local_cs t s = local_cs t1 s) /\
  exists t2, mk_trace segs2 (Some e) = Ok t2 /\ trace_length t = trace_length t1 + trace_length t2 /\
    forall s, 0 <= s <= total_length qs -> local_cs t (total_length ps + s) = local_cs t2 s.
Proof.
  intros I ps qs segs1 segs2 start t t1 e H F G N1 N2 V B1 B2 E1 E EE.
  assert (FG : Forall piece_ok (ps ++ qs)) by (apply Forall_app; auto).
  assert (B : Forall2 (built I) (ps ++ qs) (segs1 ++ segs2)) by (apply Forall2_app; assumption).
  assert (N : ps ++ qs <> []) by (destruct ps; [contradiction|discriminate]).
  assert (TP := total_nonneg ps F). assert (TQ := total_nonneg qs G).
  assert (TT : total_length (ps ++ qs) = total_length ps + total_length qs).
  { clear. unfold total_length. induction ps as [|p r IH]; cbn [app fold_right]; [ring|rewrite IH; ring]. }
  assert (A1 : forall start s, 0 <= s <= total_length ps -> path_pose (ps ++ qs) start s = path_pose ps start s).
  { clear - F G. induction F as [|p r K F IH]; intros start s S.
    - change (total_length []) with 0 in S. assert (s = 0) by lra. subst s. cbn [app]. rewrite path_zero by exact G. reflexivity.
    - cbn [app]. destruct (Rle_dec s (piece_length p)) as [L|L].
      + cbn [path_pose]. destruct (Rle_dec s (piece_length p)); [reflexivity|lra].
      + apply Rnot_le_lt in L. rewrite !path_skip; try (apply Forall_app; auto); try assumption; try lra.
        apply IH. cbn in S. unfold total_length. lra. }
  assert (A2 : forall start s, 0 <= s -> path_pose (ps ++ qs) start (total_length ps + s) =
     path_pose qs (path_pose ps start (total_length ps)) s).
  { clear - F G. induction F as [|p r K F IH]; intros start s S.
    - cbn. f_equal. ring.
    - cbn [app]. assert (TR := total_nonneg r F).
      change (total_length (p :: r)) with (piece_length p + total_length r).
      rewrite path_skip; [|apply Forall_app; auto|lra].
      replace (piece_length p + total_length r + s - piece_length p) with (total_length r + s) by ring.
      rewrite IH by exact S. f_equal. rewrite path_skip by (try exact F; lra). f_equal. ring. }
  rewrite (c62_pose I ps segs1 start t1 (total_length ps) H F N1 V B1 E1) in EE by lra. injection EE as <-.
  assert (VE := path_valid ps start (total_length ps) V).
  destruct (mk_trace_ok I qs segs2 _ H G B2 N2 VE) as (E2 & L2 & _).
  destruct (mk_trace_ok I ps segs1 start H F B1 N1 V) as (E1' & L1 & _).
  destruct (mk_trace_ok I (ps ++ qs) (segs1 ++ segs2) start H FG B N V) as (E' & L & _).
  rewrite E1 in E1'; injection E1' as ->. rewrite E in E'; injection E' as ->. split.
  - intros s S. rewrite (c62_pose I (ps ++ qs) (segs1 ++ segs2) start _ s H FG N V B E) by lra.
    rewrite (c62_pose I ps segs1 start _ s H F N1 V B1 E1) by lra. rewrite A1 by exact S. reflexivity.
  - exists (trace_of segs2 qs (path_pose ps start (total_length ps))). split; [exact E2|]. split; [lra|].
    intros s S. rewrite (c62_pose I (ps ++ qs) (segs1 ++ segs2) start _ _ H FG N V B E) by lra.
    rewrite (c62_pose I qs segs2 _ _ s H G N2 VE B2 E2) by lra. rewrite A2 by lra. reflexivity.
Qed.
Print Assumptions c62_boundary.

(** the segment that is evaluated contains the position *)
Theorem c62_index : forall I ps segs start t s, integral_ok I -> Forall piece_ok ps -> ps <> [] -> valid start ->
  Forall2 (fun p s => segment_of I p = Ok s) ps segs -> mk_trace segs (Some start) = Ok t ->
  0 <= s <= total_length ps ->
  let i := segment_index t s in
  (i < length ps)%nat /\ total_length (firstn i ps) <= s <= total_length (firstn (S i) ps).
Proof.
  intros I ps segs start t s H F N V B E S i.
  destruct (mk_trace_ok I ps segs start H F B N V) as (E' & _ & _). rewrite E in E'. injection E' as ->.
  destruct (segment_index_ok ps segs start s F (eq_sym (f2_len _ _ _ B)) N S) as [A Q]. fold i in A, Q.
  assert (TN : forall qs x j, (j <= length qs)%nat -> nth j (x :: totals qs x) 0 = x + total_length (firstn j qs)).
  { clear. induction qs as [|q qs IH]; intros x j J; destruct j as [|j]; try (cbn in J; lia); try (cbn; ring).
    transitivity (nth j (x + piece_length q :: totals qs (x + piece_length q)) 0); [reflexivity|].
    rewrite IH by (cbn in J; lia). cbn. unfold total_length. ring. }
  split; [exact A|]. rewrite !TN in Q by lia. lra.
Qed.
Print Assumptions c62_index.

(** without a coordinate system the trace starts at the origin; without segments
    there is no trace *)
Theorem c62_defaults : forall segs, mk_trace segs None = mk_trace segs (Some (Lcs mid vzero)) /\
  (forall cs, valid cs -> mk_trace [] (Some cs) = Err ValueError).
Proof.
  intros segs. split.
  - unfold mk_trace. rewrite (mk_exact mid vzero orthonormal_mid). reflexivity.
  - intros cs V. unfold mk_trace. cbn. unfold trace_length. cbn. rewrite (proj2 (rle_true 0 0)) by lra. reflexivity.
Qed.
Print Assumptions c62_defaults.

(** A [DynamicTraceSegment] that does not start at the origin makes the trace jump:
    here by one length unit within any short distance. *)
Definition shifted_line : list (R * vec) := [(0, V 0 1 0); (1, V 1 1 0)].
Theorem c62_dynamic_refuted : exists a b t, mk_linear 1 = Ok a /\ mk_disc shifted_line false = Ok b /\
  mk_trace [a; b] None = Ok t /\ forall d, 0 < d <= 1 ->
  exists l1 l2, local_cs t 1 = Ok l1 /\ local_cs t (1 + d) = Ok l2 /\ 1 <= dist3 (l_pos l1) (l_pos l2).
Proof.
  exists (TDisc [(0, vzero); (1, V 1 0 0)] false 1), (TDisc shifted_line false 1).
  assert (T : forall w, 0 <= w -> tangent_disc shifted_line w = V 1 0 0).
  { intros w W. assert (Q0 : eval_disc shifted_line 0 = V 0 1 0) by (cbn; rewrite (proj2 (rle_true 0 0)) by lra; reflexivity).
    assert (Q1 : eval_disc shifted_line 1 = V 1 1 0).
    { cbn. rewrite (proj2 (rle_false 1 0)), (proj2 (rle_true 1 1)) by lra. apply vec_eq; cbn; field. }
    unfold tangent_disc. cbn [shifted_line map fst argmin argmin_from length].
    destruct (rlt (Rabs (1 - w)) (Rabs (0 - w))); cbn [nth Nat.eqb Nat.add].
    - rewrite Bool.orb_true_r. cbn [nth]. fold shifted_line. rewrite Q0, Q1. apply vec_eq; cbn; ring.
    - rewrite (proj2 (rlt_false w 0) W). cbn [orb nth]. fold shifted_line. rewrite Q0, Q1. apply vec_eq; cbn; ring. }
  assert (EV : forall w, 0 <= w <= 1 -> eval_disc shifted_line w = V w 1 0).
  { intros w W. cbn. destruct (rle w 0) eqn:A; [apply rle_true in A; f_equal; lra|].
    rewrite (proj2 (rle_true w 1)) by lra. apply vec_eq; cbn; field. }
  assert (S : forall w, 0 <= w <= 1 -> seg_lcs (TDisc shifted_line false 1) w = Ok (Lcs mid (V w 1 0))).
  { intros w W. cbn [seg_lcs]. rewrite T, EV by lra.
    replace (V 1 0 0) with (V (1 * cos 0) (1 * sin 0) 0) by (rewrite cos_0, sin_0; f_equal; ring).
    rewrite tangent_horizontal by lra. rewrite rotz_zero. reflexivity. }
  set (l1 := Lcs mid (V 1 0 0)).
  assert (A1 : lcs_add (Lcs mid (V (1 * 1) 0 0)) (Lcs mid vzero) = Ok l1).
  { rewrite lcs_add_ok by exact orthonormal_mid. f_equal. unfold radd, l1; cbn [l_ori l_pos]. f_equal; [apply mmul_id_l|apply vec_eq; cbn; ring]. }
  assert (A2 : forall w, lcs_add (Lcs mid (V w 1 0)) l1 = Ok (Lcs mid (V (1 + w) 1 0))).
  { intros w. rewrite lcs_add_ok by exact orthonormal_mid. f_equal. unfold radd, l1; cbn [l_ori l_pos]. f_equal; [apply mmul_id_l|apply vec_eq; cbn; ring]. }
  set (t := Trace [TDisc [(0, vzero); (1, V 1 0 0)] false 1; TDisc shifted_line false 1]
     [Lcs mid vzero; l1; Lcs mid (V (1 + 1) 1 0)] [0; 0 + 1; 0 + 1 + 1] [1; 1]).
  assert (LL : trace_length t = 2) by (unfold trace_length; cbn; ring).
  exists t. split; [apply mk_linear_ok; lra|]. split.
  { unfold mk_disc. cbn [shifted_line map snd polyline_length].
    rewrite (norm_is (vsub (V 1 1 0) (V 0 1 0)) 1) by (try lra; unfold dot; cbn; ring).
    rewrite (proj2 (rle_false (1 + 0) 0)) by lra. rewrite Rplus_0_r. reflexivity. }
  split.
  { rewrite (proj1 (c62_defaults _)). unfold mk_trace. cbn [bind lookups]. rewrite seg_linear by lra. cbn [bind].
    rewrite A1. cbn [bind]. rewrite S by lra. cbn [bind]. rewrite A2. cbn [bind seg_len].
    fold t. rewrite LL, (proj2 (rle_false 2 0)) by lra. reflexivity. }
  intros d D. exists l1, (Lcs mid (V (1 + d) 1 0)).
  assert (I1 : segment_index t 1 = 0%nat).
  { unfold segment_index. rewrite LL, clip_id by lra. cbn. rewrite (proj2 (rle_true 1 (0 + 1))) by lra. reflexivity. }
  assert (I2 : segment_index t (1 + d) = 1%nat).
  { unfold segment_index. rewrite LL, clip_id by lra. cbn. rewrite (proj2 (rle_false (1 + d) (0 + 1))) by lra. reflexivity. }
  split; [|split].
  - unfold local_cs. rewrite I1. cbn [system_at t t_segments t_totals t_lengths t_systems nth_error].
    replace ((1 - 0) / 1) with 1 by field. rewrite seg_linear by lra. cbn [bind]. exact A1.
  - unfold local_cs. rewrite I2. cbn [system_at t t_segments t_totals t_lengths t_systems nth_error].
    replace ((1 + d - (0 + 1)) / 1) with d by field. rewrite S by lra. cbn [bind]. apply A2.
  - unfold dist3. rewrite <- sqrt_1 at 1. apply sqrt_le_1_alt. unfold dist2. cbn. nra.
Qed.
Print Assumptions c62_dynamic_refuted.
(** a trace of a line and two bends *)
Definition toy : list piece := [Straight 2; Bend 1 PI true; Bend 3 (PI / 2) false].
Example c62_ex : Forall piece_ok toy /\ toy <> [] /\ Forall (bends_at_most 1) toy /\ valid (Lcs mid vzero).
Proof.
  pose proof PI_RGT_0. split; [repeat constructor; cbn; lra|]. split; [discriminate|].
  split; [repeat constructor; cbn; lra|exact orthonormal_mid].
Qed.
Example c62_ex_integral : integral_ok (fun f m => f 0 * m).
Proof. intros f c m E. rewrite E. reflexivity. Qed.

(** ** C63 Radial trace segments follow a circle *)
Theorem c63_radial : forall I r a cw, integral_ok I -> 0 < r -> 0 < a ->
  exists s, mk_radial I r a cw = Ok s /\ seg_len s = r * a /\
    forall w, exists l, seg_lcs s w = Ok l /\ valid l /\
      dist3 (l_pos l) (V 0 (if cw then - r else r) 0) = r /\ vz (l_pos l) = 0 /\
      col0 (l_ori l) = V (cos (w * a)) (if cw then - sin (w * a) else sin (w * a)) 0 /\
      col2 (l_ori l) = V 0 0 1 /\
      dot (col0 (l_ori l)) (vsub (l_pos l) (V 0 (if cw then - r else r) 0)) = 0.
Proof.
  intros I r a cw H R A. eexists. split; [apply mk_radial_ok; assumption|]. split; [reflexivity|].
  intros w. eexists. split; [apply seg_radial; exact R|]. split; [apply rotz_valid|].
  set (s := w * a). cbn [l_pos l_ori]. pose proof (cs1 s) as T.
  assert (C : cos (- winding cw * s) = cos s /\ sin (- winding cw * s) = if cw then - sin s else sin s).
  { destruct cw; cbn [winding].
    - replace (Ropp 1 * s) with (- s) by ring. rewrite cos_neg, sin_neg. auto.
    - replace (Ropp (-1) * s) with s by ring. auto. }
  destruct C as [C1 C2]. split; [|split; [reflexivity|split; [|split]]].
  - unfold dist3. transitivity (sqrt (r * r)); [f_equal|apply sqrt_square; lra]. unfold dist2.
    transitivity (r * r * (cos s * cos s + sin s * sin s)); [|rewrite T; ring].
    destruct cw; cbn; ring.
  - unfold rotz, col0. cbn. rewrite C1, C2. reflexivity.
  - reflexivity.
  - unfold dot, rotz, col0; cbn. rewrite C1, C2. destruct cw; cbn; ring.
Qed.
Print Assumptions c63_radial.

(** radius and angle have to be positive *)
Theorem c63_invalid : forall I r a cw, r <= 0 \/ a <= 0 -> mk_radial I r a cw = Err ValueError.
Proof.
  intros I r a cw [R|A]; unfold mk_radial.
  - rewrite (proj2 (rle_true _ _) R). reflexivity.
  - destruct (rle r 0); [reflexivity|]. rewrite (proj2 (rle_true _ _) A). reflexivity.
Qed.
Print Assumptions c63_invalid.
(** the weight is the fraction of the length and of the angle: half of the segment
    is half of the turn *)
Example c63_ex : forall I, integral_ok I -> exists s l, mk_radial I 2 PI false = Ok s /\ seg_len s = 2 * PI /\
  seg_lcs s (/ 2) = Ok l /\ l_pos l = V 2 2 0.
Proof.
  intros I H. pose proof PI_RGT_0. rewrite mk_radial_ok by (assumption || lra). do 2 eexists. split; [reflexivity|].
  split; [reflexivity|]. split; [apply seg_radial; lra|]. cbn [l_pos winding]. unfold radial_point.
  replace (/ 2 * PI) with (PI / 2) by field. rewrite sin_PI2, cos_PI2. apply vec_eq; cbn; ring.
Qed.

(** ** C64 VariableProfile *)
(** what the constructor accepts *)
Definition locations_ok (l : list R) : Prop := increasing l /\ nth 0 l 1 = 0.
Theorem c64_construct : forall (A : Type) (ps : list A) ls fs v, mk_varprofile ps ls fs = Ok v ->
  v_profiles v = ps /\ v_schemes v = fs /\ (v_locations v = ls \/ v_locations v = 0 :: ls) /\
  locations_ok (v_locations v) /\ length (v_locations v) = length ps /\ length ps = S (length fs).
Proof.
  intros A ps ls fs v E. unfold mk_varprofile in E. destruct ls as [|x ls]; [discriminate|].
  set (locs := if req x 0 then x :: ls else 0 :: x :: ls) in *.
  destruct (Nat.eqb (length ps) (length locs)) eqn:E1; [apply Nat.eqb_eq in E1|discriminate]. cbn [negb] in E.
  destruct (Nat.eqb (length fs + 1) (length ps)) eqn:E2; [apply Nat.eqb_eq in E2|discriminate]. cbn [negb] in E.
  destruct (ascending (length ps - 1) locs) eqn:E3; [|discriminate]. injection E as <-. cbn [v_profiles v_schemes v_locations].
  split; [reflexivity|]. split; [reflexivity|].
  apply (ascending_ok (length ps - 1) locs) in E3; [|lia].
  split; [unfold locs; destruct (req x 0); auto|]. split; [|split; [auto|lia]]. split; [exact E3|].
  unfold locs. destruct (req x 0) eqn:Q; [apply GeoFacts.req_true in Q; exact Q|reflexivity].
Qed.
Print Assumptions c64_construct.

(** Every location in range is served by the scheme of the enclosing interval with
    the relative position as weight; other locations are served like the ends. *)
Theorem c64_local : forall (A : Type) (v : varprofile A) x p0, locations_ok (v_locations v) ->
  (2 <= length (v_locations v))%nat -> length (v_profiles v) = length (v_locations v) ->
  length (v_profiles v) = S (length (v_schemes v)) ->
  exists i f, (S i < length (v_locations v))%nat /\ nth_error (v_schemes v) i = Some f /\
    let a := nth i (v_locations v) 0 in
    let b := nth (S i) (v_locations v) 0 in
    let y := Rmin (Rmax x 0) (last (v_locations v) 0) in
    a <= y <= b /\
    local_profile v x = f (nth i (v_profiles v) p0) (nth (S i) (v_profiles v) p0) ((y - a) / (b - a)).
Proof.
  intros A [ps ls fs] x p0 [I Z] L LP LF. cbn [v_profiles v_locations v_schemes] in *.
  assert (Z0 : nth 0 ls 0 = 0) by (destruct ls; [cbn in L; lia|exact Z]).
  set (y := Rmin (Rmax x 0) (last ls 0)).
  assert (LZ : 0 < last ls 0).
  { rewrite last_nth. rewrite <- Z0 at 1. apply increasing_nth; [exact I|lia]. }
  assert (Y : 0 <= y <= last ls 0) by (unfold y; split; [apply Rmin_glb; [apply Rmax_r|lra]|apply Rmin_r]).
  destruct (location_index_ok ls y (S (length ls)) 0 I ltac:(lia) ltac:(lia)) as (j & E & J1 & J2 & J3);
    [rewrite <- last_nth; lra|auto|].
  destruct (nth_error fs j) as [f|] eqn:NF; [|apply nth_error_None in NF; lia].
  exists j, f. split; [lia|]. split; [exact NF|]. cbv zeta. fold y. rewrite Nat.add_1_r in J2.
  split; [destruct J3 as [->|]; [rewrite Z0|]; lra|].
  unfold local_profile. cbn [v_profiles v_locations v_schemes]. unfold clip. fold y. rewrite E. cbn [bind].
  rewrite Nat.add_1_r. rewrite (nth_error_nth' ls 0) by lia. rewrite (nth_error_nth' ls 0) by lia.
  rewrite NF. rewrite (nth_error_nth' ps p0) by lia. rewrite (nth_error_nth' ps p0) by lia. reflexivity.
Qed.
Print Assumptions c64_local.

(** At its locations the profile is the given one, if the schemes return their
    inputs for the weights 0 and 1. *)
Definition exact_scheme {A : Type} (f : scheme A) (p q : A) : Prop := f p q 0 = Ok p /\ f p q 1 = Ok q.
Theorem c64_exact : forall (A : Type) (v : varprofile A) i p0, locations_ok (v_locations v) ->
  (2 <= length (v_locations v))%nat -> length (v_profiles v) = length (v_locations v) ->
  length (v_profiles v) = S (length (v_schemes v)) ->
  (forall j f, nth_error (v_schemes v) j = Some f ->
     exact_scheme f (nth j (v_profiles v) p0) (nth (S j) (v_profiles v) p0)) ->
  (i < length (v_locations v))%nat ->
  local_profile v (nth i (v_locations v) 0) = Ok (nth i (v_profiles v) p0).
Proof.
  intros A v i p0 K L LP LF X LI.
  destruct (c64_local A v (nth i (v_locations v) 0) p0 K L LP LF) as (j & f & J & NF & B & E).
  cbv zeta in B, E. destruct K as [I Z].
  assert (Z0 : nth 0 (v_locations v) 0 = 0) by (destruct (v_locations v); [cbn in L; lia|exact Z]).
  assert (R : 0 <= nth i (v_locations v) 0 <= last (v_locations v) 0).
  { rewrite last_nth. split.
    - destruct i as [|i]; [rewrite Z0; lra|]. rewrite <- Z0 at 1. left. apply increasing_nth; [exact I|lia].
    - destruct (Nat.eq_dec i (length (v_locations v) - 1)) as [->|]; [lra|]. left. apply increasing_nth; [exact I|lia]. }
  rewrite (clip_id _ 0 (last (v_locations v) 0) R : Rmin (Rmax _ 0) _ = _) in B, E.
  destruct (X j f NF) as [X0 X1]. rewrite E.
  assert (AB := increasing_nth (v_locations v) j (S j) I ltac:(lia)).
  assert (C : i = j \/ i = S j).
  { destruct (Nat.lt_trichotomy i j) as [Q|[Q|Q]]; [exfalso| auto |].
    - pose proof (increasing_nth (v_locations v) i j I ltac:(lia)). lra.
    - destruct (Nat.eq_dec i (S j)); [auto|exfalso].
      pose proof (increasing_nth (v_locations v) (S j) i I ltac:(lia)). lra. }
  destruct C as [->| ->].
  - replace ((nth j (v_locations v) 0 - nth j (v_locations v) 0) / _) with 0 by (field; lra). exact X0.
  - replace ((nth (S j) (v_locations v) 0 - nth j (v_locations v) 0) / _) with 1 by (field; lra). exact X1.
Qed.
Print Assumptions c64_exact.

(** locations outside of the range *)
Theorem c64_clamped : forall (A : Type) (v : varprofile A) x, 0 <= last (v_locations v) 0 ->
  (x <= 0 -> local_profile v x = local_profile v 0) /\
  (last (v_locations v) 0 <= x -> local_profile v x = local_profile v (last (v_locations v) 0)).
Proof.
  intros A v x L. unfold local_profile. split; intros X.
  - replace (clip x 0 (last (v_locations v) 0)) with (clip 0 0 (last (v_locations v) 0)); [reflexivity|].
    unfold clip. rewrite (Rmax_right x 0), (Rmax_right 0 0) by lra. reflexivity.
  - replace (clip x 0 (last (v_locations v) 0)) with (clip (last (v_locations v) 0) 0 (last (v_locations v) 0)); [reflexivity|].
    unfold clip. rewrite !Rmax_left by lra. rewrite !Rmin_right by lra. reflexivity.
Qed.
Print Assumptions c64_clamped.

(** The linear interpolation of profiles of straight lines is such a scheme. *)
Definition line_pair (s t : GeoModel.seg) : Prop :=
  GeoSpec.is_line s /\ GeoSpec.is_line t /\ GeoSpec.seg_ok s /\ GeoSpec.seg_ok t.
Definition shape_pair (a b : GeoModel.shape) : Prop :=
  Forall2 line_pair a b /\ GeoSpec.joined a /\ GeoSpec.joined b.
Theorem c64_linear : forall p q, Forall2 shape_pair p q -> exact_scheme linear_sbs p q.
Proof.
  intros p q F. unfold exact_scheme, linear_sbs. rewrite (f2_len _ _ _ F), Nat.eqb_refl.
  rewrite !clip_id by lra.
  assert (SG : forall a b, Forall2 line_pair a b -> GeoModel.interpolate_segs a b 0 = Ok a /\ GeoModel.interpolate_segs a b 1 = Ok b).
  { induction 1 as [|s t a b (L1 & L2 & K1 & K2) _ [IH0 IH1]]; [auto|].
    destruct s as [a1 b1 l1|]; [|contradiction]. destruct t as [a2 b2 l2|]; [|contradiction].
    cbn [GeoModel.interpolate_segs].
    rewrite (proj1 (GeoProps.c61_ends _ _ _ _ _ _ 0 K1 K2)) by lra.
    rewrite (proj2 (GeoProps.c61_ends _ _ _ _ _ _ 1 K1 K2)) by lra. cbn [bind]. rewrite IH0, IH1. auto. }
  assert (SH : forall a b, shape_pair a b -> GeoModel.interpolate_shape a b 0 = Ok a /\ GeoModel.interpolate_shape a b 1 = Ok b).
  { intros a b (S & J1 & J2). unfold GeoModel.interpolate_shape. rewrite (f2_len _ _ _ S), Nat.eqb_refl.
    rewrite !GeoShapeFacts.clip01_id by lra. destruct (SG a b S) as [-> ->]. cbn [bind].
    rewrite (proj2 (proj1 (GeoProps.c60_construct a)) (GeoShapeFacts.joined_nearly _ J1)).
    rewrite (proj2 (proj1 (GeoProps.c60_construct b)) (GeoShapeFacts.joined_nearly _ J2)). auto. }
  induction F as [|a b p q S F [IH0 IH1]]; [auto|]. cbn [interpolate_shapes].
  destruct (SH a b S) as [-> ->]. cbn [bind]. rewrite IH0, IH1. auto.
Qed.
Print Assumptions c64_linear.

(** A profile with an arc can not be interpolated, not even at its own location. *)
Theorem c64_arc_refuted : forall a p q w, length p = length q -> linear_sbs ([GeoModel.SArc a] :: p) ([GeoModel.SArc a] :: q) w = Err NotImplementedError.
Proof.
  intros a p q w L. unfold linear_sbs. destruct (Nat.eqb _ _) eqn:Q; [reflexivity|].
  apply Nat.eqb_neq in Q. destruct Q. cbn [length]. f_equal. exact L.
Qed.
Print Assumptions c64_arc_refuted.

(** A variable profile of a single profile can be constructed, but not evaluated. *)
Theorem c64_single_refuted : forall (A : Type) (p : A), exists v, mk_varprofile [p] [0] [] = Ok v /\
  forall x, local_profile v x = Err IndexError.
Proof.
  intros A p. exists (VarProfile [p] [0] []). split.
  - unfold mk_varprofile. rewrite (proj2 (GeoFacts.req_true 0 0) eq_refl : req 0 0 = true). reflexivity.
  - intros x. reflexivity.
Qed.
Print Assumptions c64_single_refuted.
Definition square (k : R) : profile :=
  [[GeoModel.SLine (GeoModel.P 0 0) (GeoModel.P k 0) k; GeoModel.SLine (GeoModel.P k 0) (GeoModel.P k k) k]].
Example c64_ex : exists v, mk_varprofile [square 1; square 2] [10] [linear_sbs] = Ok v /\
  local_profile v 0 = Ok (square 1) /\ local_profile v 10 = Ok (square 2).
Proof.
  set (v := VarProfile [square 1; square 2] [0; 10] [linear_sbs]). exists v.
  assert (E : mk_varprofile [square 1; square 2] [10] [linear_sbs] = Ok v).
  { unfold mk_varprofile. rewrite (proj2 (GeoFacts.req_false 10 0) ltac:(lra) : req 10 0 = false).
    cbn [length Nat.eqb negb Nat.add Nat.sub ascending]. rewrite (proj2 (rle_false 10 0)) by lra. reflexivity. }
  split; [exact E|]. destruct (c64_construct _ _ _ _ _ E) as (P1 & P2 & _ & K & L1 & L2).
  assert (SO : forall k, 0 < k -> GeoSpec.seg_ok (GeoModel.SLine (GeoModel.P 0 0) (GeoModel.P k 0) k) /\
                                  GeoSpec.seg_ok (GeoModel.SLine (GeoModel.P k 0) (GeoModel.P k k) k)).
  { intros k KP. split; (split; [symmetry; apply GeoFacts.dist_eq_sq; cbn; lra|exact KP]). }
  assert (JO : forall k, GeoSpec.joined [GeoModel.SLine (GeoModel.P 0 0) (GeoModel.P k 0) k; GeoModel.SLine (GeoModel.P k 0) (GeoModel.P k k) k]).
  { intros k. split; [|exact Logic.I]. unfold GeoModel.point_end, GeoModel.point_start. cbn [GeoModel.get_point GeoModel.max_coord].
    unfold GeoModel.line_point. rewrite !GeoShapeFacts.clip01_id by lra. apply GeoFacts.pt_eq; cbn; ring. }
  assert (X : exact_scheme linear_sbs (square 1) (square 2)).
  { apply c64_linear. constructor; [|constructor]. destruct (SO 1 ltac:(lra)) as [A1 A2]. destruct (SO 2 ltac:(lra)) as [B1 B2].
    split; [|split; apply JO].
    constructor; [exact (conj Logic.I (conj Logic.I (conj A1 B1)))|].
    constructor; [exact (conj Logic.I (conj Logic.I (conj A2 B2)))|constructor]. }
  assert (XX : forall j f, nth_error (v_schemes v) j = Some f -> exact_scheme f (nth j (v_profiles v) []) (nth (S j) (v_profiles v) [])).
  { intros [|[|j]] f NF; cbn in NF; try discriminate. injection NF as <-. exact X. }
  split.
  - exact (c64_exact _ v 0 [] K ltac:(cbn; lia) ltac:(reflexivity) ltac:(reflexivity) XX ltac:(cbn; lia)).
  - exact (c64_exact _ v 1 [] K ltac:(cbn; lia) ltac:(reflexivity) ltac:(reflexivity) XX ltac:(cbn; lia)).
Qed.

(** ** C65 Geometry trace raster covers the trace *)
Theorem c65_locations : forall len w, 0 < len -> 0 < w ->
  exists n ls, raster_locations len w = Ok ls /\ (1 <= n)%nat /\ length ls = S n /\
    Rabs (INR n - len / Rmin w len) <= / 2 /\
    (forall i, (i <= n)%nat -> nth i ls 0 = INR i * len / INR n) /\
    nth 0 ls 1 = 0 /\ last ls 0 = len /\ increasing ls.
Proof.
  intros len w L W. set (n := raster_number len (Rmin w len)).
  assert (M : 0 < Rmin w len <= len) by (split; [apply Rmin_glb_lt; assumption|apply Rmin_r]).
  destruct (raster_number_pos _ _ M) as [N1 N2]. fold n in N1, N2.
  assert (NR : 1 <= INR n) by (change 1 with (INR 1); apply le_INR; exact N1).
  exists n. eexists. split; [apply raster_locations_ok; assumption|]. fold n.
  split; [exact N1|]. split; [rewrite map_length, seq_length; reflexivity|]. split; [exact N2|].
  set (f := fun i => INR i * (len / INR n)).
  assert (NTH : forall i d, (i <= n)%nat -> nth i (map f (seq 0 (S n))) d = f i).
  { intros i d I. rewrite (nth_indep _ d (f 0%nat)) by (rewrite map_length, seq_length; lia).
    rewrite map_nth, seq_nth by lia. reflexivity. }
  split; [intros i I; rewrite NTH by exact I; unfold f; field; lra|].
  split; [rewrite NTH by lia; unfold f; cbn; ring|].
  split; [rewrite last_nth, map_length, seq_length, NTH by lia; unfold f; replace (S n - 1)%nat with n by lia; field; lra|].
  assert (P : 0 < len / INR n) by (apply Rdiv_lt_0_compat; lra).
  assert (G : forall k i, increasing (map f (seq i k))).
  { induction k as [|k IH]; intros i; [exact Logic.I|]. specialize (IH (S i)). destruct k as [|k]; [exact Logic.I|].
    cbn [seq map] in *. split; [|exact IH]. unfold f. apply Rmult_lt_compat_r; [exact P|]. apply lt_INR; lia. }
  apply G.
Qed.
Print Assumptions c65_locations.
Theorem c65_width : forall len w, w <= 0 -> raster_locations len w = Err ValueError.
Proof. intros len w W. unfold raster_locations. rewrite (proj2 (rle_true _ _) W). reflexivity. Qed.
Print Assumptions c65_width.

(** ** C79 Trace.rasterize *)
Theorem c79_raster : forall I ps segs start t w, integral_ok I -> Forall piece_ok ps -> ps <> [] -> valid start ->
  Forall2 (fun p s => segment_of I p = Ok s) ps segs -> mk_trace segs (Some start) = Ok t -> 0 < w ->
  exists n pts, rasterize t w = Ok pts /\ (1 <= n)%nat /\ length pts = S n /\
    Rabs (INR n - trace_length t / Rmin w (trace_length t)) <= / 2 /\
    (forall i, (i <= n)%nat -> exists l, local_cs t (INR i * trace_length t / INR n) = Ok l /\ nth i pts vzero = l_pos l) /\
    (forall i, (i < n)%nat -> dist3 (nth i pts vzero) (nth (S i) pts vzero) <= trace_length t / INR n).
Proof.
  intros I ps segs start t w H F N V B E W.
  destruct (mk_trace_ok I ps segs start H F B N V) as (E' & L & P). rewrite E in E'. injection E' as ->. rewrite L.
  set (n := raster_number (total_length ps) (Rmin w (total_length ps))).
  assert (M : 0 < Rmin w (total_length ps) <= total_length ps) by (split; [apply Rmin_glb_lt; assumption|apply Rmin_r]).
  destruct (raster_number_pos _ _ M) as [N1 N2]. fold n in N1, N2.
  assert (NR : 1 <= INR n) by (change 1 with (INR 1); apply le_INR; exact N1).
  exists n. eexists. split; [apply (rasterize_ok I); assumption|]. fold n.
  split; [exact N1|]. split; [rewrite map_length, seq_length; reflexivity|]. split; [exact N2|].
  set (f := fun j => l_pos (path_pose ps start (INR j * (total_length ps / INR n)))).
  assert (NTH : forall i, (i <= n)%nat -> nth i (map f (seq 0 (S n))) vzero = f i).
  { intros i J. rewrite (nth_indep _ vzero (f 0%nat)) by (rewrite map_length, seq_length; lia).
    rewrite map_nth, seq_nth by lia. reflexivity. }
  assert (R : forall i, (i <= n)%nat -> 0 <= INR i * (total_length ps / INR n) <= total_length ps).
  { intros i J. assert (0 < total_length ps / INR n) by (apply Rdiv_lt_0_compat; lra). split.
    - apply Rmult_le_pos; [apply pos_INR|lra].
    - replace (total_length ps) with (INR n * (total_length ps / INR n)) at 2 by (field; lra).
      apply Rmult_le_compat_r; [lra|apply le_INR; exact J]. }
  split.
  - intros i J. exists (path_pose ps start (INR i * (total_length ps / INR n))). split; [|apply NTH; exact J].
    replace (INR i * total_length ps / INR n) with (INR i * (total_length ps / INR n)) by (field; lra).
    apply (c62_pose I ps segs start); auto.
  - intros i J. rewrite !NTH by lia. unfold f, dist3.
    assert (D : INR (S i) * (total_length ps / INR n) - INR i * (total_length ps / INR n) = total_length ps / INR n) by (rewrite S_INR; ring).
    rewrite <- (sqrt_square (total_length ps / INR n)) at 3 by (left; apply Rdiv_lt_0_compat; lra).
    apply sqrt_le_1_alt. rewrite <- D at 3 4. apply path_lipschitz; [exact F|exact V|apply R; lia| |apply R; lia].
    assert (0 < total_length ps / INR n) by (apply Rdiv_lt_0_compat; lra). lra.
Qed.
Print Assumptions c79_raster.
Theorem c79_width : forall t w, w <= 0 -> rasterize t w = Err ValueError.
Proof. intros t w W. unfold rasterize. rewrite (proj2 (rle_true _ _) W). reflexivity. Qed.
Print Assumptions c79_width.

(** ** C80 Positions outside of the trace *)
(** behind a straight end the system stays at the end *)
Theorem c80_behind : forall I qs l segs start t s, integral_ok I -> Forall piece_ok (qs ++ [Straight l]) -> valid start ->
  Forall2 (fun p s => segment_of I p = Ok s) (qs ++ [Straight l]) segs -> mk_trace segs (Some start) = Ok t ->
  trace_length t <= s -> local_cs t s = local_cs t (trace_length t).
Proof.
  intros I qs l segs start t s H F V B E G.
  assert (N : qs ++ [Straight l] <> []) by (destruct qs; discriminate).
  destruct (mk_trace_ok I _ segs start H F B N V) as (E' & L & P). rewrite E in E'. injection E' as ->. rewrite L in *.
  pose proof (f2_len _ _ _ B) as LL. unfold local_cs.
  rewrite !index_end by (assumption || congruence || lra). rewrite app_length. cbn [length].
  replace (length qs + 1 - 1)%nat with (length qs) by lia.
  destruct (Forall2_app_inv_l _ _ B) as (s1 & s2 & B1 & B2 & ->). inversion B2 as [|? sg ? r2 SG R2]; subst. inversion R2; subst.
  apply Forall_app in F. destruct F as [F1 F2]. inversion F2 as [|? ? K _]; subst. cbn in K.
  cbn [segment_of] in SG. rewrite mk_linear_ok in SG by exact K. injection SG as <-.
  assert (L1 := f2_len _ _ _ B1). unfold system_at, trace_of. cbn [t_segments t_totals t_lengths t_systems].
  rewrite nth_error_app2 by lia. rewrite L1, Nat.sub_diag. cbn [nth_error].
  destruct (nth_error (0 :: totals _ 0) (length s1)) as [x|] eqn:X; [|reflexivity].
  apply nth_error_nth with (d := 0) in X. rewrite <- L1, totals_nth_len in X. subst x.
  rewrite map_app. rewrite nth_error_app2 by (rewrite map_length; lia). rewrite map_length, L1, Nat.sub_diag. cbn [map nth_error piece_length].
  rewrite total_app in *. change (total_length [Straight l]) with (l + 0) in *.
  rewrite (seg_linear_high l _ K), (seg_linear_high l _ K); [reflexivity| |].
  - right. field. lra.
  - apply (Rmult_le_reg_r l); [exact K|]. unfold Rdiv. rewrite Rmult_assoc, Rinv_l, Rmult_1_r by lra. lra.
Qed.
Print Assumptions c80_behind.

(** In front of a straight start the position is the one of the start, but the
    heading is reversed: the x- and y-axes point backwards. *)
Theorem c80_front_refuted : forall I l qs segs start t s, integral_ok I -> Forall piece_ok (Straight l :: qs) -> valid start ->
  Forall2 (fun p s => segment_of I p = Ok s) (Straight l :: qs) segs -> mk_trace segs (Some start) = Ok t ->
  s < 0 -> exists e, local_cs t s = Ok e /\ l_pos e = l_pos start /\
    (forall v, mvec (l_ori e) v = mvec (l_ori start) (V (- vx v) (- vy v) (vz v))) /\ l_ori e <> l_ori start.
Proof.
  intros I l qs segs start t s H F VS B E G.
  assert (N : Straight l :: qs <> []) by discriminate.
  destruct (mk_trace_ok I _ segs start H F B N VS) as (E' & _ & _). rewrite E in E'. injection E' as ->.
  unfold local_cs. rewrite index_start by (assumption || (symmetry; apply (f2_len _ _ _ B)) || lra).
  inversion F as [|? ? K F']; subst. cbn in K. inversion B as [|? sg ? r SG BR]; subst.
  cbn [segment_of] in SG. rewrite mk_linear_ok in SG by exact K. injection SG as <-.
  unfold system_at, trace_of. cbn [t_segments t_totals t_lengths t_systems nth_error map piece_length].
  rewrite seg_linear_low; [|exact K|unfold Rdiv; pose proof (Rinv_0_lt_compat l K); nra]. cbn [bind].
  rewrite lcs_add_ok by (try exact VS; apply rotz_valid). eexists. split; [reflexivity|].
  assert (Z : mvec (l_ori start) vzero = vzero) by apply mvec_zero.
  assert (A : forall v, mvec (mmul (l_ori start) (rotz PI)) v = mvec (l_ori start) (V (- vx v) (- vy v) (vz v))).
  { intros v. rewrite mvec_mmul. f_equal. unfold rotz. rewrite cos_PI, sin_PI. apply vec_eq; cbn; ring. }
  unfold radd. cbn [l_pos l_ori]. split; [rewrite Z, vadd_zero_l; reflexivity|]. split; [exact A|].
  intros Q. specialize (A (V 1 0 0)). rewrite Q in A.
  apply (f_equal (mvec (mtrans (l_ori start)))) in A. rewrite !orthonormal_inv_vec in A by exact VS.
  apply (f_equal vx) in A. cbn in A. lra.
Qed.
Print Assumptions c80_front_refuted.

(** a bend is continued on its circle on both sides *)
Theorem c80_bend : forall I r a cw sg start t s, integral_ok I -> 0 < r -> 0 < a -> valid start ->
  mk_radial I r a cw = Ok sg -> mk_trace [sg] (Some start) = Ok t ->
  local_cs t s = Ok (placed start (piece_pose (Bend r a cw) s)).
Proof.
  intros I r a cw sg start t s H R A V SG E.
  assert (B : Forall2 (built I) [Bend r a cw] [sg]) by (constructor; [exact SG|constructor]).
  assert (F : Forall piece_ok [Bend r a cw]) by (constructor; [split; assumption|constructor]).
  destruct (mk_trace_ok I _ [sg] start H F B ltac:(discriminate) V) as (E' & _ & _). rewrite E in E'. injection E' as ->.
  rewrite mk_radial_ok in SG by assumption. injection SG as <-.
  unfold local_cs. cbn [segment_index t_totals trace_of totals length Nat.sub first_index t_segments].
  unfold system_at, trace_of. cbn [t_segments t_totals t_lengths t_systems nth_error map piece_length].
  rewrite seg_radial by exact R. cbn [bind]. rewrite lcs_add_ok by (try exact V; apply rotz_valid).
  replace ((s - 0) / (r * a) * a) with (s / r) by (field; lra).
  unfold radd, placed, piece_pose. f_equal. destruct cw; cbn [winding l_ori l_pos].
  - replace (Ropp 1 * (s / r)) with (- (s / r)) by ring. do 3 f_equal. unfold radial_point. apply vec_eq; cbn; ring.
  - replace (- -1 * (s / r)) with (s / r) by ring. do 3 f_equal. unfold radial_point. apply vec_eq; cbn; ring.
Qed.
Print Assumptions c80_bend.

(** ** C81 Cross sections of a geometry *)
Theorem c81_sections : forall I ps segs start t p data pw w, integral_ok I -> Forall piece_ok ps -> ps <> [] -> valid start ->
  Forall2 (fun p s => segment_of I p = Ok s) ps segs -> mk_trace segs (Some start) = Ok t ->
  profile_raster p pw = Ok data -> 0 < w ->
  exists n secs, rasterize_geometry p t pw w = Ok secs /\ (1 <= n)%nat /\ length secs = S n /\
    Rabs (INR n - trace_length t / Rmin w (trace_length t)) <= / 2 /\
    forall i, (i <= n)%nat ->
      exists l, local_cs t (INR i * trace_length t / INR n) = Ok l /\ valid l /\
        length (nth i secs []) = length data /\
        forall j k, (j < length data)%nat -> (k < length data)%nat ->
          let q := nth j data (GeoModel.P 0 0) in
          let x := nth j (nth i secs []) vzero in
          let y := nth k (nth i secs []) vzero in
          x = vadd (l_pos l) (vadd (vscale (GeoModel.px q) (col1 (l_ori l))) (vscale (GeoModel.py q) (col2 (l_ori l)))) /\
          dot (vsub x (l_pos l)) (col0 (l_ori l)) = 0 /\
          dist3 x y = GeoSpec.dist q (nth k data (GeoModel.P 0 0)).
Proof.
  intros I ps segs start t p data pw w H F N V B E D W.
  destruct (mk_trace_ok I ps segs start H F B N V) as (E' & L & P). rewrite E in E'. injection E' as ->.
  assert (TL : 0 < trace_length (trace_of segs ps start)) by lra.
  destruct (c65_locations _ w TL W) as (n & ls & EL & N1 & LN & NB & NTH & _).
  unfold rasterize_geometry. rewrite EL, D. cbn [bind].
  assert (LR : forall i, (i <= n)%nat -> 0 <= nth i ls 0 <= total_length ps).
  { intros i Li. rewrite NTH by exact Li. rewrite L. assert (0 < INR n) by (apply lt_0_INR; lia).
    assert (INR i <= INR n) by (apply le_INR; exact Li). pose proof (pos_INR i). split.
    - apply Rmult_le_pos; [nra|left; apply Rinv_0_lt_compat; lra].
    - apply (Rmult_le_reg_r (INR n)); [lra|]. unfold Rdiv. rewrite Rmult_assoc, Rinv_l, Rmult_1_r by lra. nra. }
  assert (G : forall xs, (forall i, (i < length xs)%nat -> 0 <= nth i xs 0 <= total_length ps) ->
    sections (trace_of segs ps start) (map point_3d data) xs =
    Ok (map (fun x => map (lcs_apply (path_pose ps start x)) (map point_3d data)) xs)).
  { induction xs as [|x xs IH]; intros A; [reflexivity|]. cbn [sections]. unfold transformed_data.
    rewrite (c62_pose I ps segs start _ x H F N V B E) by (apply (A 0%nat); cbn; lia). cbn [bind].
    rewrite IH by (intros i Li; apply (A (S i)); cbn; lia). reflexivity. }
  rewrite G by (intros i Li; apply LR; lia).
  exists n. eexists. split; [reflexivity|]. split; [exact N1|]. split; [rewrite map_length; exact LN|]. split; [exact NB|].
  intros i Li. set (l := path_pose ps start (nth i ls 0)). exists l.
  split; [rewrite <- NTH by exact Li; apply (c62_pose I ps segs start); auto|].
  assert (VL : valid l) by (apply path_valid; exact V). split; [exact VL|].
  assert (SE : nth i (map (fun x => map (lcs_apply (path_pose ps start x)) (map point_3d data)) ls) [] = map (lcs_apply l) (map point_3d data)).
  { rewrite (nth_indep _ [] (map (lcs_apply (path_pose ps start 0)) (map point_3d data))) by (rewrite map_length; lia).
    rewrite (map_nth (fun x => map (lcs_apply (path_pose ps start x)) (map point_3d data)) ls 0 i). reflexivity. }
  rewrite SE. split; [rewrite !map_length; reflexivity|].
  assert (X : forall j, (j < length data)%nat ->
    nth j (map (lcs_apply l) (map point_3d data)) vzero = lcs_apply l (point_3d (nth j data (GeoModel.P 0 0)))).
  { intros j J. rewrite (nth_indep _ vzero (lcs_apply l (point_3d (GeoModel.P 0 0)))) by (rewrite !map_length; exact J).
    rewrite !map_nth. reflexivity. }
  intros j k J K. cbv zeta. rewrite !X by assumption. set (q := nth j data _). set (q' := nth k data _).
  split; [unfold lcs_apply, point_3d; apply vec_eq; cbn; ring|]. split.
  - destruct VL as (C0 & C1 & C2 & C01 & C02 & C12). unfold lcs_apply, point_3d.
    transitivity (GeoModel.px q * dot (col0 (l_ori l)) (col1 (l_ori l)) + GeoModel.py q * dot (col0 (l_ori l)) (col2 (l_ori l)));
      [unfold dot, vsub; cbn; ring|]. rewrite ?C01, ?C02, ?C12. ring.
  - unfold dist3. rewrite (apply_dist l _ _ VL). unfold GeoSpec.dist. f_equal. unfold dist2, point_3d. cbn. ring.
Qed.
Print Assumptions c81_sections.
Theorem c81_errors : forall p t pw w, (w <= 0 -> rasterize_geometry p t pw w = Err ValueError) /\
  (forall e, profile_raster p pw = Err e -> 0 < w -> rasterize_geometry p t pw w = Err e).
Proof.
  intros p t pw w. unfold rasterize_geometry, raster_locations. split.
  - intros W. rewrite (proj2 (rle_true _ _) W). reflexivity.
  - intros e E W. rewrite (proj2 (rle_false _ _) W), E. reflexivity.
Qed.
Print Assumptions c81_errors.
Example c81_ex : exists data, profile_raster (square 1) 1 = Ok data.
Proof.
  destruct (GeoProps.c55_raster (GeoModel.SLine (GeoModel.P 0 0) (GeoModel.P 1 0) 1)
    [GeoModel.SLine (GeoModel.P 1 0) (GeoModel.P 1 1) 1] [GeoModel.SLine (GeoModel.P 0 0) (GeoModel.P 1 0) 1]
    (GeoModel.SLine (GeoModel.P 1 0) (GeoModel.P 1 1) 1) 1 Rlt_0_1 eq_refl) as (ra & tl & _ & E & _).
  unfold square. cbn [profile_raster]. rewrite E. cbn [bind]. eauto.
Qed.
