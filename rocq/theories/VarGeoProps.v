(** C103 and C104: rasters of geometries with variable profiles and rasters that keep
    the shapes apart. *)
From Coq Require Import Reals List ZArith Lia Lra Permutation.
From Verif Require Import Base RigidModel RigidSpec RigidFacts TraceModel TraceSpec TraceFacts TraceProps VarGeoModel VarGeoFacts.
From Verif Require GeoModel GeoSpec GeoFacts GeoProps.
Import ListNotations.
Open Scope R_scope.

(** where a point of a profile is put by a coordinate system of the trace *)
Definition put (l : lcs) (q : GeoModel.pt) : vec :=
  vadd (l_pos l) (vadd (vscale (GeoModel.px q) (col1 (l_ori l))) (vscale (GeoModel.py q) (col2 (l_ori l)))).
Lemma put_eq : forall l q, vadd (mvec (l_ori l) (point_3d q)) (l_pos l) = put l q.
Proof. intros l q. unfold put, point_3d. apply vec_eq; cbn; ring. Qed.

(** a trace of lines and bends *)
Definition walk (t : trace) : Prop :=
  exists I ps segs start, integral_ok I /\ Forall piece_ok ps /\ ps <> [] /\ valid start /\
    Forall2 (fun p s => segment_of I p = Ok s) ps segs /\ mk_trace segs (Some start) = Ok t.
Lemma walk_cs : forall t, walk t -> 0 < trace_length t /\
  forall x, 0 <= x <= trace_length t -> exists l, local_cs t x = Ok l /\ valid l.
Proof.
  intros t (I & ps & segs & start & H & F & N & V & B & E).
  destruct (mk_trace_ok I ps segs start H F B N V) as (E' & L & P).
  assert (T : trace_length t = total_length ps) by (rewrite E in E'; injection E' as ->; exact L).
  split; [lra|]. intros x X. exists (path_pose ps start x). split; [|apply path_valid; exact V].
  apply (c62_pose I ps segs start); auto. lra.
Qed.
Lemma raster_range : forall i n len, 0 < len -> (1 <= n)%nat -> (i <= n)%nat -> 0 <= INR i * len / INR n <= len.
Proof.
  intros i n len L N Li. assert (0 < INR n) by (apply lt_0_INR; lia).
  assert (INR i <= INR n) by (apply le_INR; exact Li). pose proof (pos_INR i). split.
  - apply Rmult_le_pos; [nra|left; apply Rinv_0_lt_compat; lra].
  - apply (Rmult_le_reg_r (INR n)); [lra|]. unfold Rdiv. rewrite Rmult_assoc, Rinv_l, Rmult_1_r by lra. nra.
Qed.

(** ** C103 Rasters of geometries with a variable profile *)
(** Section i of n shows the profile at the same fraction i / n of the profile, put
    into the coordinate system at this fraction of the trace; the raster exists if
    and only if all these profiles do and can be rasterised. *)
Theorem c103_sections : forall t v pw w, walk t -> 0 < w ->
  exists n, (1 <= n)%nat /\ Rabs (INR n - trace_length t / Rmin w (trace_length t)) <= / 2 /\
    ((exists secs, rasterize_variable v t pw w = Ok secs) <->
     forall i, (i <= n)%nat -> exists p d, local_profile v (INR i / INR n * last (v_locations v) 0) = Ok p /\
       profile_raster p pw = Ok d) /\
    forall secs, rasterize_variable v t pw w = Ok secs -> length secs = S n /\
      forall i, (i <= n)%nat -> exists l p d, local_cs t (INR i * trace_length t / INR n) = Ok l /\ valid l /\
        local_profile v (INR i / INR n * last (v_locations v) 0) = Ok p /\ profile_raster p pw = Ok d /\
        nth i secs [] = map (put l) d.
Proof.
  intros t v pw w H W. destruct (walk_cs t H) as [L C].
  destruct (c65_locations _ w L W) as (n & ls & EL & N1 & LN & NB & NTH & _).
  exists n. split; [exact N1|]. split; [exact NB|].
  assert (INn : 0 < INR n) by (apply lt_0_INR; lia).
  assert (FR : forall i, (i <= n)%nat -> nth i ls 0 / trace_length t = INR i / INR n).
  { intros i Li. rewrite NTH by exact Li. field. lra. }
  unfold rasterize_variable. rewrite EL. cbn [bind].
  assert (G : forall secs, variable_sections v t pw ls = Ok secs -> length secs = S n /\
    forall i, (i <= n)%nat -> section_at v t pw (nth i ls 0) (nth i secs [])).
  { intros secs E. apply variable_sections_iff in E. split; [rewrite <- LN; symmetry; apply (f2_len _ _ _ E)|].
    intros i Li. apply f2_nth; [exact E|lia]. }
  split; [split|].
  - intros [secs E] i Li. destruct (proj2 (G secs E) i Li) as (p & d & l & P & D & _). rewrite FR in P by exact Li. eauto.
  - intros X. destruct (f2_ex (section_at v t pw) ls) as [secs S].
    + intros x Ix. destruct (In_nth ls x 0 Ix) as (i & Li & <-). rewrite LN in Li.
      destruct (X i ltac:(lia)) as (p & d & P & D).
      destruct (C (nth i ls 0)) as (l & Q & _); [rewrite NTH by lia; apply raster_range; [exact L|exact N1|lia]|].
      eexists. exists p, d, l. rewrite FR by lia. repeat (split; [eassumption|]). reflexivity.
    + exists secs. apply variable_sections_iff. exact S.
  - intros secs E. destruct (G secs E) as [SL SN]. split; [exact SL|]. intros i Li.
    destruct (SN i Li) as (p & d & l & P & D & Q & ->). exists l, p, d. rewrite NTH in Q by exact Li.
    rewrite FR in P by exact Li. destruct (C _ (raster_range i n _ L N1 Li)) as (l' & Q' & V).
    assert (l' = l) by congruence. subst l'.
    split; [exact Q|]. split; [exact V|]. split; [exact P|]. split; [exact D|].
    apply map_ext. apply put_eq.
Qed.
Print Assumptions c103_sections.

(** The ends of the geometry show the first and the last profile. *)
Theorem c103_ends : forall t v pw w secs p0, walk t -> 0 < w -> locations_ok (v_locations v) ->
  (2 <= length (v_locations v))%nat -> length (v_profiles v) = length (v_locations v) ->
  length (v_profiles v) = S (length (v_schemes v)) ->
  (forall j f, nth_error (v_schemes v) j = Some f ->
     exact_scheme f (nth j (v_profiles v) p0) (nth (S j) (v_profiles v) p0)) ->
  rasterize_variable v t pw w = Ok secs ->
  exists a b da db, local_cs t 0 = Ok a /\ local_cs t (trace_length t) = Ok b /\
    profile_raster (nth 0 (v_profiles v) p0) pw = Ok da /\ profile_raster (last (v_profiles v) p0) pw = Ok db /\
    nth 0 secs [] = map (put a) da /\ last secs [] = map (put b) db.
Proof.
  intros t v pw w secs p0 H W K L2 LP LF X E.
  destruct (c103_sections t v pw w H W) as (n & N1 & _ & _ & G). destruct (G secs E) as [SL SN].
  assert (INn : 0 < INR n) by (apply lt_0_INR; lia).
  destruct (SN 0%nat ltac:(lia)) as (a & p & da & A1 & _ & A3 & A4 & A5).
  destruct (SN n ltac:(lia)) as (b & q & db & B1 & _ & B3 & B4 & B5).
  replace (INR 0 * trace_length t / INR n) with 0 in A1 by (cbn; field; lra).
  replace (INR n * trace_length t / INR n) with (trace_length t) in B1 by (field; lra).
  assert (Z0 : nth 0 (v_locations v) 0 = 0).
  { destruct K as [_ Z]. destruct (v_locations v); [cbn in L2; lia|exact Z]. }
  replace (INR 0 / INR n * last (v_locations v) 0) with (nth 0 (v_locations v) 0) in A3 by (rewrite Z0; cbn; field; lra).
  replace (INR n / INR n * last (v_locations v) 0) with (nth (length (v_locations v) - 1) (v_locations v) 0) in B3
    by (rewrite last_nth; field; lra).
  rewrite (c64_exact _ v 0 p0 K L2 LP LF X) in A3 by lia. injection A3 as <-.
  rewrite (c64_exact _ v (length (v_locations v) - 1) p0 K L2 LP LF X) in B3 by lia. injection B3 as <-.
  assert (LL : forall (A : Type) (l : list A) d, last l d = nth (length l - 1) l d).
  { intros A l d. induction l as [|x l IH]; [reflexivity|]. destruct l as [|y l]; [reflexivity|].
    change (last (x :: y :: l) d) with (last (y :: l) d). rewrite IH. cbn [length Nat.sub nth].
    rewrite Nat.sub_0_r. reflexivity. }
  exists a, b, da, db. split; [exact A1|]. split; [exact B1|]. split; [exact A4|].
  split; [rewrite LL, LP; exact B4|]. split; [exact A5|].
  rewrite LL, SL. replace (S n - 1)%nat with n by lia. exact B5.
Qed.
Print Assumptions c103_ends.

(** A variable profile that does not vary gives the raster of the constant profile. *)
Theorem c103_constant : forall t v p pw w, locations_ok (v_locations v) ->
  (2 <= length (v_locations v))%nat -> length (v_profiles v) = length (v_locations v) ->
  length (v_profiles v) = S (length (v_schemes v)) ->
  (forall q, In q (v_profiles v) -> q = p) ->
  (forall f x, In f (v_schemes v) -> 0 <= x <= 1 -> f p p x = Ok p) ->
  rasterize_variable v t pw w = rasterize_geometry p t pw w.
Proof.
  intros t v p pw w K L2 LP LF A S.
  assert (Q : forall x, local_profile v x = Ok p).
  { intros x. destruct (c64_local _ v x p K L2 LP LF) as (i & f & Li & NF & B & E). cbv zeta in B, E. rewrite E.
    rewrite (A (nth i (v_profiles v) p)) by (apply nth_In; lia). rewrite (A (nth (Datatypes.S i) (v_profiles v) p)) by (apply nth_In; lia).
    apply S; [apply nth_error_In with (n := i); exact NF|].
    pose proof (increasing_nth (v_locations v) i (Datatypes.S i) (proj1 K) ltac:(lia)) as IN. split.
    - apply Rmult_le_pos; [lra|left; apply Rinv_0_lt_compat; lra].
    - apply (Rmult_le_reg_r (nth (Datatypes.S i) (v_locations v) 0 - nth i (v_locations v) 0)); [lra|].
      unfold Rdiv. rewrite Rmult_assoc, Rinv_l, Rmult_1_r by lra. lra. }
  unfold rasterize_variable, rasterize_geometry.
  destruct (raster_locations (trace_length t) w) as [ls|e] eqn:EL; [|reflexivity]. cbn [bind].
  assert (NE : ls <> []).
  { unfold raster_locations in EL. destruct (rle w 0); [discriminate|]. injection EL as <-. intros X. apply app_eq_nil in X. destruct X; discriminate. }
  destruct (profile_raster p pw) as [d|e] eqn:D; cbn [bind].
  - clear NE EL. induction ls as [|x ls IH]; [reflexivity|]. cbn [variable_sections sections]. unfold local_profile_data.
    rewrite Q. cbn [bind]. rewrite D. cbn [bind]. rewrite IH. reflexivity.
  - destruct ls as [|x ls]; [congruence|]. cbn [variable_sections]. unfold local_profile_data. rewrite Q. cbn [bind]. rewrite D. reflexivity.
Qed.
Print Assumptions c103_constant.

(** errors: the raster width of the trace, then the first section that fails *)
Theorem c103_errors : forall t v pw w, (w <= 0 -> rasterize_variable v t pw w = Err ValueError) /\
  (0 < w -> 0 < trace_length t -> forall e, local_profile v 0 = Err e -> rasterize_variable v t pw w = Err e) /\
  (0 < w -> 0 < trace_length t -> forall p e, local_profile v 0 = Ok p -> profile_raster p pw = Err e ->
     rasterize_variable v t pw w = Err e).
Proof.
  intros t v pw w. unfold rasterize_variable. split; [intros W; rewrite c65_width by exact W; reflexivity|].
  assert (G : 0 < w -> 0 < trace_length t -> exists r, raster_locations (trace_length t) w = Ok (0 :: r)).
  { intros W L. destruct (c65_locations _ w L W) as (n & ls & EL & _ & LN & _ & _ & Z & _).
    destruct ls as [|x r]; [discriminate|]. cbn in Z. subst x. eauto. }
  assert (Z : 0 / trace_length t * last (v_locations v) 0 = 0) by (unfold Rdiv; ring).
  split.
  - intros W L e E. destruct (G W L) as [r ->]. cbn [bind variable_sections]. unfold local_profile_data.
    rewrite Z, E. reflexivity.
  - intros W L p e P E. destruct (G W L) as [r ->]. cbn [bind variable_sections]. unfold local_profile_data.
    rewrite Z, P. cbn [bind]. rewrite E. reflexivity.
Qed.
Print Assumptions c103_errors.

(** A geometry with a variable profile of one profile can not be rasterised. *)
Theorem c103_single_refuted : forall p, exists v, mk_varprofile [p] [0] [] = Ok v /\
  forall t pw w, walk t -> 0 < w -> rasterize_variable v t pw w = Err IndexError.
Proof.
  intros p. destruct (c64_single_refuted profile p) as (v & E & X). exists v. split; [exact E|].
  intros t pw w H W. apply c103_errors; [exact W|apply walk_cs; exact H|apply X].
Qed.
Print Assumptions c103_single_refuted.

(** [rasterize(stack=False)] is a list with the sections of each shape: not for variable
    profiles, which return the points of all sections in one array as with [stack=True]. *)
Theorem c103_stack_refuted : forall v t pw w stack r, rasterize (Varying v) t pw w stack = Ok r ->
  exists secs, rasterize_variable v t pw w = Ok secs /\ r = Stacked (concat secs).
Proof.
  intros v t pw w stack r E. unfold rasterize in E. destruct (rasterize_variable v t pw w) as [secs|]; [|discriminate].
  injection E as <-. eauto.
Qed.
Print Assumptions c103_stack_refuted.

(** ** C104 Rasters that keep the shapes apart *)
Lemma shape_sections_concat : forall t xs ds d,
  match shape_sections t xs (d :: ds) with
  | Ok ss => exists secs, sections t (concat (d :: ds)) xs = Ok secs /\
      (forall i, nth i secs [] = concat (map (fun s => nth i s []) ss)) /\
      Permutation (concat secs) (concat (concat ss))
  | Err e => sections t (concat (d :: ds)) xs = Err e
  end.
Proof.
  intros t xs. induction ds as [|e ds IH]; intros d.
  - cbn [shape_sections concat]. rewrite app_nil_r. destruct (sections t d xs) as [a|]; [|reflexivity]. cbn [bind].
    exists a. split; [reflexivity|]. split; [intros i; cbn; rewrite app_nil_r; reflexivity|]. cbn [concat]. rewrite app_nil_r. reflexivity.
  - change (concat (d :: e :: ds)) with (d ++ concat (e :: ds)). rewrite sections_app.
    cbn [shape_sections]. specialize (IH e). cbn [shape_sections] in IH.
    destruct (sections t d xs) as [a|] eqn:A; [|reflexivity]. cbn [bind].
    destruct (bind (sections t e xs) _) as [ss|x]; [|rewrite IH; reflexivity]. cbn [bind].
    destruct IH as (secs & B & N & P). rewrite B. eexists. split; [reflexivity|].
    assert (L : length a = length secs) by (rewrite (sections_length _ _ _ _ A), (sections_length _ _ _ _ B); reflexivity).
    split.
    + intros i. rewrite combine_nth_app by exact L. cbn [map concat]. f_equal. apply N.
    + rewrite combine_perm by exact L. cbn [concat]. rewrite concat_app. apply Permutation_app_head. exact P.
Qed.

(** Both rasters succeed together and fail with the same error, section i of the stacked
    raster consists of the sections i of the shapes, and the points are the same. *)
Theorem c104_stack : forall p t pw w, p <> [] ->
  match rasterize_shapes p t pw w with
  | Ok ss => exists secs, rasterize_geometry p t pw w = Ok secs /\ length ss = length p /\
      (forall s, In s ss -> length s = length secs) /\
      (forall i, nth i secs [] = concat (map (fun s => nth i s []) ss)) /\
      Permutation (concat secs) (concat (concat ss))
  | Err e => rasterize_geometry p t pw w = Err e
  end.
Proof.
  intros p t pw w N. unfold rasterize_shapes, rasterize_geometry.
  destruct (raster_locations (trace_length t) w) as [xs|]; [|reflexivity]. cbn [bind]. rewrite shape_rasters_stack.
  assert (SL : forall ds, shape_rasters p pw = Ok ds -> length ds = length p).
  { clear N. induction p as [|s p IH]; intros ds E; cbn [shape_rasters] in E; [injection E as <-; reflexivity|].
    destruct (GeoModel.rasterize s pw) as [a|]; [|discriminate]. cbn [bind] in E.
    destruct (shape_rasters p pw) as [b|]; [|discriminate]. cbn [bind] in E. injection E as <-. cbn. rewrite (IH b) by reflexivity. reflexivity. }
  destruct (shape_rasters p pw) as [ds|]; [|reflexivity]. specialize (SL ds eq_refl). cbn [bind]. rewrite concat_map.
  destruct ds as [|d ds]; [destruct p; [congruence|discriminate]|]. cbn [map].
  pose proof (shape_sections_concat t xs (map (map point_3d) ds) (map point_3d d)) as G.
  destruct (shape_sections t xs _) as [ss|] eqn:E; [|exact G]. destruct G as (secs & B & S1 & S2).
  apply shape_sections_iff in E. exists secs. split; [exact B|].
  split; [rewrite <- SL; rewrite <- (f2_len _ _ _ E); cbn; rewrite map_length; reflexivity|]. split; [|split; assumption].
  intros s I. rewrite (sections_length _ _ _ _ B). destruct (In_nth ss s [] I) as (i & Li & <-).
  rewrite <- (f2_len _ _ _ E) in Li. apply (sections_length t _ xs _ (f2_nth _ _ _ [] [] E i Li)).
Qed.
Print Assumptions c104_stack.

(** Every shape is swept along the trace on its own. *)
Theorem c104_shape : forall p t pw w ss k, rasterize_shapes p t pw w = Ok ss -> (k < length p)%nat ->
  rasterize_geometry [nth k p []] t pw w = Ok (nth k ss []).
Proof.
  intros p t pw w ss k E K. unfold rasterize_shapes in E. unfold rasterize_geometry.
  destruct (raster_locations (trace_length t) w) as [xs|]; [|discriminate]. cbn [bind] in *.
  revert ss k E K. induction p as [|s p IH]; intros ss k E K; [cbn in K; lia|]. cbn [shape_rasters] in E.
  destruct (GeoModel.rasterize s pw) as [a|] eqn:A; [|discriminate]. cbn [bind] in E.
  destruct (shape_rasters p pw) as [b|]; [|discriminate]. cbn [bind map shape_sections] in *.
  destruct (sections t (map point_3d a) xs) as [r|] eqn:S1; [|discriminate]. cbn [bind] in E.
  destruct (shape_sections t xs (map (map point_3d) b)) as [r'|] eqn:S2; [|discriminate]. cbn [bind] in E. injection E as <-.
  destruct k as [|k]; cbn [nth].
  - cbn [profile_raster]. rewrite A. cbn [bind]. rewrite app_nil_r. exact S1.
  - apply IH; [reflexivity|cbn in K; lia].
Qed.
Print Assumptions c104_shape.

(** [Geometry.rasterize] with a constant profile *)
Theorem c104_rasterize : forall p t pw w r, p <> [] ->
  (rasterize (Constant p) t pw w false = Ok (PerShape r) -> exists l,
     rasterize (Constant p) t pw w true = Ok (Stacked l) /\ Permutation l (concat (concat r))) /\
  (forall e, rasterize (Constant p) t pw w false = Err e <-> rasterize (Constant p) t pw w true = Err e).
Proof.
  intros p t pw w r N. pose proof (c104_stack p t pw w N) as G. unfold rasterize.
  destruct (rasterize_shapes p t pw w) as [ss|e]; cbn [bind].
  - destruct G as (secs & -> & _ & _ & _ & P). cbn [bind]. split; [|split; discriminate].
    intros E. injection E as <-. exists (concat secs). auto.
  - rewrite G. cbn [bind]. split; [discriminate|]. intros x. tauto.
Qed.
Print Assumptions c104_rasterize.

(** non-vacuity: a straight trace of length 2 and squares that jump from 1 to 2 *)
Example ex_c103_walk : exists t, walk t /\ trace_length t = 2.
Proof.
  assert (F : Forall piece_ok [Straight 2]) by (constructor; [cbn; lra|constructor]).
  destruct c62_ex as (_ & _ & _ & V).
  destruct (c62_total _ [Straight 2] _ c62_ex_integral F ltac:(discriminate) V) as (segs & t & B & E & L).
  exists t. split; [|rewrite L; cbn; ring].
  exists (fun f m => f 0 * m), [Straight 2], segs, (Lcs mid vzero).
  split; [exact c62_ex_integral|]. split; [exact F|]. split; [discriminate|]. split; [exact V|]. split; [exact B|exact E].
Qed.
Definition jump : scheme profile := fun p q x => Ok (if rlt x 1 then p else q).
Lemma square_raster : forall k, 0 < k -> exists d, profile_raster (square k) 1 = Ok d.
Proof.
  intros k _.
  destruct (GeoProps.c55_raster (GeoModel.SLine (GeoModel.P 0 0) (GeoModel.P k 0) k)
    [GeoModel.SLine (GeoModel.P k 0) (GeoModel.P k k) k] [GeoModel.SLine (GeoModel.P 0 0) (GeoModel.P k 0) k]
    (GeoModel.SLine (GeoModel.P k 0) (GeoModel.P k k) k) 1 Rlt_0_1 eq_refl) as (ra & tl & _ & E & _).
  unfold square. cbn [profile_raster]. rewrite E. cbn [bind]. eauto.
Qed.
Example ex_c103 : exists t v secs, walk t /\ mk_varprofile [square 1; square 2] [10] [jump] = Ok v /\
  (forall j f, nth_error (v_schemes v) j = Some f -> exact_scheme f (nth j (v_profiles v) []) (nth (S j) (v_profiles v) [])) /\
  rasterize_variable v t 1 1 = Ok secs.
Proof.
  destruct ex_c103_walk as (t & H & L). set (v := VarProfile [square 1; square 2] [0; 10] [jump]). exists t, v.
  assert (E : mk_varprofile [square 1; square 2] [10] [jump] = Ok v).
  { unfold mk_varprofile. rewrite (proj2 (GeoFacts.req_false 10 0) ltac:(lra) : req 10 0 = false).
    cbn [length Nat.eqb negb Nat.add Nat.sub ascending]. rewrite (proj2 (rle_false 10 0)) by lra. reflexivity. }
  destruct (c103_sections t v 1 1 H Rlt_0_1) as (n & _ & _ & [_ G] & _).
  destruct G as [secs S].
  - intros i _. destruct (c64_construct _ _ _ _ _ E) as (P1 & P2 & _ & K & L1 & L2).
    destruct (c64_local _ v (INR i / INR n * last (v_locations v) 0) [] K ltac:(cbn; lia) ltac:(reflexivity) ltac:(reflexivity))
      as (j & f & J & NF & _ & EQ).
    cbv zeta in EQ. rewrite EQ. destruct j as [|[|j]]; cbn in NF; try discriminate. injection NF as <-. unfold jump.
    destruct (rlt _ 1); [destruct (square_raster 1 ltac:(lra)) as [d D]|destruct (square_raster 2 ltac:(lra)) as [d D]]; eauto.
  - exists secs. split; [exact H|]. split; [exact E|]. split; [|exact S].
    intros [|[|j]] f NF; cbn in NF; try discriminate. injection NF as <-. unfold exact_scheme, jump.
    rewrite (proj2 (GeoFacts.rlt_true 0 1) ltac:(lra) : rlt 0 1 = true).
    rewrite (proj2 (GeoFacts.rlt_false 1 1) ltac:(lra) : rlt 1 1 = false). split; reflexivity.
Qed.
Example ex_c104 : exists t ss, walk t /\ rasterize_shapes (square 1 ++ square 2) t 1 1 = Ok ss /\ length ss = 2%nat.
Proof.
  destruct ex_c103_walk as (t & H & L). exists t.
  pose proof (c104_stack (square 1 ++ square 2) t 1 1 ltac:(discriminate)) as G.
  assert (A : exists d, profile_raster (square 1 ++ square 2) 1 = Ok d).
  { destruct (square_raster 1 ltac:(lra)) as [a A]. destruct (square_raster 2 ltac:(lra)) as [b B].
    unfold square in *. cbn [profile_raster app] in *.
    destruct (GeoModel.rasterize _ 1) as [x|]; [|discriminate]. cbn [bind] in *.
    destruct (GeoModel.rasterize [GeoModel.SLine (GeoModel.P 0 0) (GeoModel.P 2 0) 2; _] 1) as [y|]; [|discriminate]. cbn [bind]. eauto. }
  destruct A as [d D]. destruct H as (I & ps & segs & start & H1 & H2 & H3 & H4 & H5 & H6).
  destruct (c81_sections I ps segs start t _ d 1 1 H1 H2 H3 H4 H5 H6 D Rlt_0_1) as (n & secs & E & _).
  destruct (rasterize_shapes (square 1 ++ square 2) t 1 1) as [ss|e]; [|congruence].
  destruct G as (_ & _ & LE & _). exists ss. split; [|split; [reflexivity|exact LE]].
  exists I, ps, segs, start. auto 10.
Qed.
