(** The reference time of the systems returned by [get_cs], and both directions of
    an edge. *)
From Coq Require Import Reals List String ZArith Bool Lia Sorting.Sorted.
From Verif Require Import Base RigidModel RigidSpec RigidFacts InterpModel InterpSpec InterpFacts
  LinModel LinFacts CsmModel CsmSpec TreeFacts CsmGraphFacts CsmTreeFacts CsmSubFacts CsmDataFacts CsmOpFacts CsmHistFacts
  LcsTimeModel LcsTimeSpec LcsTimeFacts CsmGetModel CsmGetSpec CsmGetFacts CsmPathFacts CsmPoseFacts.
Import ListNotations.
Open Scope Z_scope.

Section Refs.
  Context (sl : segment mat) (SL : slerp_ok sl) {D : Type}.
  Notation mgr := (csm tlcs D).
  Notation ops := (tlcs_ops sl).
  Notation is_treeT := (@is_tree tlcs D ops).

  Definition refd (l : tlcs) (R : option Z) : Prop := lcs_axis l <> None -> tl_ref l = R.

  Lemma mk_refd : forall o p R r, mk_tlcs sl o p None R = Ok r -> is_expr r = false -> refd r R.
  Proof.
    intros o p R r E X H. unfold mk_tlcs in E. destruct (ares check_orientation o) as [o'|]; [ | discriminate ]. cbn [bind] in E.
    destruct (unify sl o' p) as [[o2 p2]|]; [ | discriminate ]. cbn [bind fst snd] in E. injection E as <-. cbn [tl_ref].
    destruct (is_time_dependent (TL o2 p2 None R)) eqn:Dp; [ reflexivity | ]. exfalso. apply H.
    unfold is_time_dependent, is_expr, has_axis in Dp. unfold lcs_axis. cbn [tl_ori tl_pos tl_at] in *.
    destruct p2 as [p2|]; [ | discriminate ]. destruct o2; [ | discriminate ]. destruct p2; [ | discriminate ]. reflexivity.
  Qed.

  Lemma interp_refd : forall l ts R r, valid_t l -> plain l -> StronglySorted Z.lt ts -> ts <> [] -> (forall t, ts <> [t]) ->
    is_time_dependent l = true -> (tl_ref l = None <-> R = None) ->
    interp_time sl l (Some (RT ts R)) = Ok r -> refd r R.
  Proof.
    intros l ts R r W [P1 P2] S N N1 Dp C E.
    destruct (interp_time_ok sl SL l ts R W S N (fun _ => C)) as (r' & E' & Wr & Er & Pr & Hr & _ & Hat).
    rewrite E in E'. injection E' as <-. rewrite Dp in Er. cbn [negb] in Er. rewrite andb_false_r in Er.
    intros H. destruct (has_axis r) eqn:Ha; [ apply Hr; reflexivity | ].
    exfalso. apply H. rewrite (axis_static r Ha Er).
    destruct (Hat eq_refl Dp) as [A|[(t & A & _)|(t & a & A & _)]]; [ rewrite A; reflexivity | exfalso; exact (N1 _ A) | exfalso; exact (P2 _ A) ].
  Qed.

  Lemma static_refd : forall l R, valid_t l -> plain l -> is_time_dependent l = false -> refd l R.
  Proof.
    intros l R W P Dl H. exfalso. apply H. rewrite (stat_form sl l W P Dl). reflexivity.
  Qed.

  Lemma base_refd : forall (c : mgr) l rt tref r, valid_t l -> plain l ->
    StronglySorted Z.lt (r_times rt) -> r_times rt <> [] -> (forall t, r_times rt <> [t]) ->
    fits c (r_ref rt) l -> (c_ref c <> None -> r_ref rt <> None) -> with_ref tref rt = rt ->
    base_on_edge sl c l (Some rt) tref false = Ok r -> is_expr r = false -> refd r (r_ref rt).
  Proof.
    intros c l [ts R] tref r W P S N N1 F CR Wr E X. cbn [r_times r_ref] in *. unfold base_on_edge in E.
    destruct (is_time_dependent l) eqn:Dl; [ | injection E as <-; apply static_refd; assumption ].
    specialize (F Dl).
    assert (G : (tl_ref l = None <-> R = None) -> interp_time sl l (option_map (with_ref tref) (Some (RT ts R))) = Ok r -> refd r R).
    { intros C Ei. cbn [option_map] in Ei. rewrite Wr in Ei. eapply interp_refd; eassumption. }
    destruct (tl_ref l) as [rl|] eqn:Rl.
    - apply G; [ | exact E ]. split; [ discriminate | ]. intros ->. destruct F as [F|[_ F]]; [ exfalso; apply CR; auto | ]. discriminate F; reflexivity.
    - destruct (c_ref c) as [rc|] eqn:Rc.
      + cbn [r_ref r_times] in E. destruct R as [a|]; [ | discriminate ].
        destruct (interp_time sl l _) as [i|]; [ | discriminate ]. cbn [bind] in E.
        destruct (tl_pos i); [ | discriminate ]. eapply mk_refd; eassumption.
      + apply G; [ | exact E ]. destruct F as [F|F]; [ contradiction | exact F ].
  Qed.

  Lemma invert_refd : forall l i R, valid_t l -> is_expr l = false -> tlcs_invert sl l = Ok i -> refd l R -> refd i R.
  Proof.
    intros l i R W X E H H1. destruct (tlcs_invert_ok sl SL l W X) as (i' & E' & _ & _ & L & Rr & _). rewrite E in E'. injection E' as <-.
    rewrite Rr. apply H. congruence.
  Qed.

  Lemma add_refd : forall a b c ts R, aligned a ts R -> aligned b ts R -> refd a R -> refd b R ->
    tlcs_add sl a b = Ok c -> refd c R.
  Proof.
    intros a b c ts R (Wa & Ea & Ha) (Wb & Eb & Hb) Ra Rb E H.
    assert (Na := axis_none_ref a Wa Ea). assert (Nb := axis_none_ref b Wb Eb).
    destruct (tlcs_add_ok sl SL a b Wa Wb Ea Eb) as (c' & Ec & Wc & Xc & _ & L2 & _ & Rc & _).
    { intros H1 H2 H3. destruct Ha as [Ha|[_ Ha]]; [ congruence | ].
      apply (dep_has_axis b Eb) in H2. destruct Hb as [Hb|[_ Hb]]; [ congruence | ]. intros N. apply H3, Ha, Hb, N. }
    rewrite E in Ec. injection Ec as <-. rewrite Rc.
    destruct (lcs_axis c) as [w|]; [ | contradiction ]. cbn [LcsTimeModel.is_some].
    destruct (lcs_axis a) as [wa|] eqn:La.
    - rewrite Ra by congruence. destruct (lcs_axis b) eqn:Lb; [ rewrite Rb by congruence | rewrite (Nb eq_refl) ];
        destruct R as [x|]; cbn; try reflexivity. rewrite Z.min_id. reflexivity.
    - rewrite (Na eq_refl). cbn [sum_ref]. apply Rb. rewrite L2 by reflexivity. discriminate.
  Qed.

  Lemma edge_refd : forall (c : mgr) e l inv rt tref r, edge_lcs c e = Ok (l, inv) -> valid_t l -> plain l ->
    StronglySorted Z.lt (r_times rt) -> r_times rt <> [] -> (forall t, r_times rt <> [t]) ->
    fits c (r_ref rt) l -> (c_ref c <> None -> r_ref rt <> None) -> with_ref tref rt = rt ->
    cs_on_edge sl c e (Some rt) tref false = Ok r -> refd r (r_ref rt).
  Proof.
    intros c e l inv rt tref r E W P S N N1 F CR Wr Er. rewrite (cs_on_edge_base sl c e _ _ _ l inv E) in Er.
    destruct (base_aligned sl SL c l rt tref W P S N F CR Wr) as (b & Eb & (Wb & Xb & _) & _).
    assert (Rb := base_refd c l rt tref b W P S N N1 F CR Wr Eb Xb).
    rewrite Eb in Er. cbn [bind] in Er. destruct inv; [ eapply invert_refd; eassumption | injection Er as <-; exact Rb ].
  Qed.

  Lemma up_refd : forall (c : mgr) rt tref es ls acc r, edges_ok c (r_ref rt) es ls ->
    StronglySorted Z.lt (r_times rt) -> r_times rt <> [] -> (forall t, r_times rt <> [t]) ->
    (c_ref c <> None -> r_ref rt <> None) -> with_ref tref rt = rt ->
    aligned acc (r_times rt) (r_ref rt) -> refd acc (r_ref rt) ->
    add_edges_up sl c acc es (Some rt) tref = Ok r -> refd r (r_ref rt).
  Proof.
    intros c rt tref es ls acc r H S N N1 CR Wr. revert acc. induction H as [|e [l inv] es ls (E & W & P & F) H IH]; intros acc A Ra Er.
    - injection Er as <-. exact Ra.
    - cbn [add_edges_up] in Er. destruct (edge_aligned sl SL c e l inv rt tref E W P S N F CR Wr) as (b & Eb & Ab & _).
      rewrite Eb in Er. cbn [bind] in Er.
      assert (Rb := edge_refd c e l inv rt tref b E W P S N N1 F CR Wr Eb).
      destruct (aligned_add sl SL acc b _ _ A Ab) as (s & Es & As & _). rewrite Es in Er. cbn [bind] in Er.
      eapply IH; [ exact As | eapply add_refd; [ exact A | exact Ab | exact Ra | exact Rb | exact Es ] | exact Er ].
  Qed.

  Lemma get_cs_ref : forall (c : mgr) a b rt tref, is_treeT c -> good c ->
    In a (cs_names c) -> In b (cs_names c) -> a <> b ->
    StronglySorted Z.lt (r_times rt) -> r_times rt <> [] -> (forall t, r_times rt <> [t]) ->
    (forall e l, In e (c_edges c) -> e_def e = true -> e_tr e = Some l -> fits c (request_ref c rt tref) l) ->
    forall p, shortest_path (c_edges c) a b = Some p -> simple_path (linked c) a p b ->
    (exists tr, eff_ref c tref = Some tr) \/ List.length p <> 2%nat ->
    forall l, get_cs sl c a (Some b) (Some rt) tref = Ok l -> lcs_axis l <> None ->
      tl_ref l = match eff_ref c tref with Some r => Some r | None => r_ref rt end.
  Proof.
    intros c a b rt tref Tr G Ha Hb Ne S N N1 F p Sp [W Nd] Hp l El Hl.
    rewrite (get_cs_unfold sl c a b p rt tref Ha Hb Ne Sp) in El. cbv zeta in El.
    set (R := request_ref c rt tref) in *. set (tr := eff_ref c tref) in *. set (rt' := with_ref tr rt) in *.
    destruct (with_ref_sorted tr rt S N) as [S' N']. fold rt' in S', N'.
    assert (N1' : forall t, r_times rt' <> [t]).
    { intros t E. assert (Q : List.length (r_times rt') = List.length (r_times rt)).
      { unfold rt', with_ref. destruct (r_ref rt), tr; cbn [r_times]; try rewrite map_length; reflexivity. }
      rewrite E in Q. destruct (r_times rt) as [|x [|]]; try discriminate. exact (N1 x eq_refl). }
    assert (HR : r_ref rt' = None <-> R = None) by apply with_ref_none.
    assert (Fx : forall e l, In e (c_edges c) -> e_def e = true -> e_tr e = Some l -> fits c (r_ref rt') l).
    { intros e l0 H1 H2 H3. apply (fits_none c R); [ tauto | eapply F; eassumption ]. }
    assert (CR : c_ref c <> None -> r_ref rt' <> None).
    { intros H1 H2. apply HR in H2. unfold R, request_ref in H2. destruct (r_ref rt); [ discriminate | ].
      destruct tref; [ discriminate | ]. contradiction. }
    assert (Wr : with_ref tr rt' = rt') by apply with_ref_idem.
    assert (Er : r_ref rt' = match tr with Some r => Some r | None => r_ref rt end).
    { unfold rt', with_ref. destruct (r_ref rt) eqn:Q, tr; cbn [r_ref]; congruence. }
    destruct (path_systems sl SL c (r_ref rt') p a b Tr G Fx W) as [ls Hls].
    rewrite <- Er. revert Hl. change (refd l (r_ref rt')).
    assert (Ne' := walk_steps_nonempty _ _ _ _ W Ne).
    destruct (steps p) as [|e es] eqn:Ep; [ contradiction | ].
    inversion Hls as [|? [l1 inv] ? ls' ((E & Wl & Pl & Fl) & _ & _) H]; subst. cbn [fst snd] in *.
    destruct (edge_aligned sl SL c e l1 inv rt' tr E Wl Pl S' N' Fl CR Wr) as (l0 & E0 & A0 & V0).
    assert (R0 := edge_refd c e l1 inv rt' tr l0 E Wl Pl S' N' N1' Fl CR Wr E0).
    destruct es as [|e2 es].
    - destruct tr as [b0|] eqn:Q; cbn [LcsTimeModel.is_some negb] in El.
      + rewrite E0 in El. injection El as <-. exact R0.
      + exfalso. destruct Hp as [[x Hx]|Hx]; [ discriminate | ]. apply Hx. destruct p as [|? [|? [|? ?]]]; try discriminate; reflexivity.
    - rewrite E0 in El. cbn [bind] in El. eapply (up_refd c rt' tr (e2 :: es) ls'); try eassumption.
      clear -H. induction H as [|? ? ? ? (Hg & _) H IH]; constructor; [ exact Hg | exact IH ].
  Qed.

  (** ** Both directions of an edge *)
  Lemma fval_map : forall (A : Type) (seg : segment A) (f : A -> A),
    (forall t0 t1 a b t, f (seg t0 t1 a b t) = seg t0 t1 (f a) (f b) t) ->
    forall s d d' t, s <> [] -> fval seg (map_ser f s) d' t = f (fval seg s d t).
  Proof.
    intros A seg f Hf [|[t0 a] r] d d' t N; [ contradiction | ]. clear N. unfold map_ser. cbn [map fval fst snd]. revert t0 a.
    induction r as [|[t1 b] r IH]; intros t0 a; cbn [map fst snd fv] in *; [ destruct (t <=? t0); reflexivity | ].
    destruct (t <=? t0); [ reflexivity | ]. destruct (t <=? t1); [ symmetry; apply Hf | apply IH ].
  Qed.

  Lemma lin_linear : forall o t0 t1 a b t,
    mvec o (vscale (-1) (lin_vec t0 t1 a b t)) = lin_vec t0 t1 (mvec o (vscale (-1) a)) (mvec o (vscale (-1) b)) t.
  Proof.
    intros [] t0 t1 [] [] t. unfold lin_vec, lin, mvec, vscale, Rdiv. cbn. f_equal; ring.
  Qed.

  Lemma const_invert : forall l i o t, valid_t l -> is_expr l = false -> tl_ori l = Const o -> tlcs_invert sl l = Ok i ->
    posef sl i t = rinv (posef sl l t).
  Proof.
    intros l i o t W X O E. assert (Oi := invert_ori sl SL l i W E). rewrite O in Oi. cbn [amap] in Oi.
    unfold tlcs_invert in E. rewrite O in E. unfold is_expr in X. destruct (tl_pos l) as [p|] eqn:Ep; [ | discriminate ].
    cbn [amap2 bind amap] in E. unfold mk_tlcs in E. destruct (ares _ _) as [o'|] eqn:Eo; [ | discriminate ].
    assert (exists m, o' = Const m) as [m ->]. { cbn in Eo. destruct (check_orientation (mtrans o)); [ | discriminate ]. injection Eo as <-. eauto. }
    cbn [bind unify fst snd] in E. injection E as <-. cbn [tl_ori] in Oi. injection Oi as ->.
    unfold posef, rinv. cbn [tl_ori tl_pos l_ori l_pos]. rewrite O, Ep. cbn [aval]. f_equal.
    destruct p as [v|s]; [ reflexivity | ]. cbn [amap aval].
    apply (fval_map _ lin_vec (fun v => mvec (mtrans o) (vscale (-1) v))); [ intros; apply lin_linear | ].
    assert (Q := vt_pos _ W). rewrite Ep in Q. cbn in Q. destruct s; [ destruct Q | discriminate ].
  Qed.

  Lemma fval_out : forall (A : Type) (seg : segment A) (s : samples A) d t t', exact_seg seg -> sampled s ->
    In t' (map fst s) -> (forall u, In u (map fst s) -> t <= u) /\ (forall u, In u (map fst s) -> t' <= u) \/
        (forall u, In u (map fst s) -> u <= t) /\ (forall u, In u (map fst s) -> u <= t') ->
    fval seg s d t = fval seg s d t'.
  Proof.
    intros A seg s d t t' X S I [[H H']|[H H']].
    - assert (first_time s 0 = t').
      { destruct s as [|[t0 a] r]; [ destruct I | ]. cbn [first_time]. assert (t' <= t0) by (apply H'; left; reflexivity).
        destruct I as [I|I]; [ exact I | ]. apply sampled_sorted in S. cbn [map fst] in S. inversion S as [|? ? _ F]; subst.
        rewrite Forall_forall in F. specialize (F t' I). lia. }
      rewrite (fval_before seg s d t), H0; [ reflexivity | ]. rewrite H0. apply H. exact I.
    - assert (last_time s 0 = t').
      { clear H X. assert (Sx := sampled_sorted _ S). destruct s as [|[t0 a] r]; [ destruct I | ].
        assert (G : forall (r : samples A) t0 (a : A), StronglySorted Z.lt (map fst ((t0, a) :: r)) -> In (last_time ((t0, a) :: r) 0) (map fst ((t0, a) :: r)) /\
             forall u, In u (map fst ((t0, a) :: r)) -> u <= last_time ((t0, a) :: r) 0).
        { clear. induction r as [|[t1 b] r IH]; intros t0 a Sx.
          - cbn. split; [ auto | ]. intros u [<-|[]]. lia.
          - inversion Sx as [|? ? Sx' F]; subst. destruct (IH t1 b Sx') as [H1 H2].
            assert (E : last_time ((t0, a) :: (t1, b) :: r) 0 = last_time ((t1, b) :: r) 0) by reflexivity. rewrite E.
            split; [ right; exact H1 | ]. intros u [<-|Hu]; [ | apply H2; exact Hu ]. cbn [fst].
            rewrite Forall_forall in F. specialize (F _ H1). lia. }
        destruct (G r t0 a Sx) as [G1 G2]. apply Z.le_antisymm; [ apply H'; exact G1 | apply G2; exact I ]. }
      rewrite (fval_after seg s d t X S), H0; [ reflexivity | ]. rewrite H0. apply H. exact I.
  Qed.

  Lemma sorted_first_last : forall ts, StronglySorted Z.lt ts -> ts <> [] ->
    (exists u, In u ts /\ forall v, In v ts -> u <= v) /\ (exists u, In u ts /\ forall v, In v ts -> v <= u).
  Proof.
    intros ts S N. induction S as [|t ts S IH F]; [ contradiction | ]. rewrite Forall_forall in F. split.
    - exists t. split; [ left; reflexivity | ]. intros v [<-|Hv]; [ lia | ]. specialize (F v Hv). lia.
    - destruct ts as [|t2 ts]; [ exists t; split; [ left; reflexivity | intros v [<-|[]]; lia ] | ].
      destruct IH as [_ (u & Hu & H)]; [ discriminate | ]. exists u. split; [ right; exact Hu | ].
      intros v [<-|Hv]; [ specialize (F u Hu); lia | auto ].
  Qed.

  Lemma posef_out : forall l ts t t', valid_t l -> is_expr l = false -> lcs_axis l = Some ts -> In t' ts ->
    (forall u, In u ts -> t <= u) /\ (forall u, In u ts -> t' <= u) \/ (forall u, In u ts -> u <= t) /\ (forall u, In u ts -> u <= t') ->
    posef sl l t = posef sl l t'.
  Proof.
    intros l ts t t' W X L I H. destruct (has_axis l) eqn:Ha.
    2:{ apply static_posef. rewrite dep_axis; assumption. }
    unfold is_expr in X. destruct (tl_pos l) as [p|] eqn:Ep; [ | discriminate ].
    destruct (ax_in_lcs l p ts W Ep Ha L) as [A1 A2].
    assert (G : forall (A : Type) (seg : segment A) d (x : arr A), exact_seg seg -> arr_ok x -> ax_in ts x -> aval seg d x t = aval seg d x t').
    { intros A seg d [a|s] Xs K [Q|Q]; cbn [axis_of] in Q; try discriminate; try reflexivity. injection Q as <-.
      cbn [aval]. apply fval_out; assumption. }
    unfold posef. rewrite Ep. f_equal; apply G; try assumption; try exact lin_vec_exact; try exact (so_exact _ SL); try apply W.
    assert (Q := vt_pos _ W). rewrite Ep in Q. exact Q.
  Qed.

  Lemma invert_exact : forall l i t, valid_t l -> is_expr l = false -> tlcs_invert sl l = Ok i -> inverse_exact l t ->
    posef sl i t = rinv (posef sl l t).
  Proof.
    intros l i t W X E H. destruct (tlcs_invert_ok sl SL l W X) as (i' & E' & Wi & Xi & Li & Ri & _ & Pi).
    rewrite E in E'. injection E' as <-. destruct H as [H|[H|[(o & H)|(ts & L & H)]]].
    - apply Pi. exact H.
    - congruence.
    - eapply const_invert; eassumption.
    - destruct (axis_sorted l ts W X L) as [S N]. destruct (sorted_first_last ts S N) as [(u & Iu & Hu) (w & Iw & Hw)].
      assert (exists t', In t' ts /\ ((forall u, In u ts -> t <= u) /\ (forall u, In u ts -> t' <= u) \/ (forall u, In u ts -> u <= t) /\ (forall u, In u ts -> u <= t')))
        as (t' & It & Ht).
      { destruct H as [H|H]; [ exists u | exists w ]; auto. }
      rewrite (posef_out i ts t t' Wi Xi ltac:(congruence) It Ht), (posef_out l ts t t' W X L It Ht).
      apply Pi. unfold on_axis. rewrite L. exact It.
  Qed.

  Lemma stored_edge : forall (c : mgr) u v l inv, NoDup (map ekey (c_edges c)) -> stored c u v l inv -> edge_lcs c (u, v) = Ok (l, inv).
  Proof.
    intros c u v l inv N S. unfold edge_lcs. cbn [fst snd]. destruct inv; cbn [stored] in S.
    - destruct S as [(d & H1) (d' & H2)]. assert (F1 := find_edge_In _ _ N H1). assert (F2 := find_edge_In _ _ N H2).
      cbn [e_src e_dst] in *. rewrite F1, F2. reflexivity.
    - destruct S as (d & H1). assert (F1 := find_edge_In _ _ N H1). cbn [e_src e_dst] in *. rewrite F1. reflexivity.
  Qed.

  Lemma edge_directions : forall (c : mgr) a b R t l x y, is_treeT c -> good c ->
    In (Edge a b (Some l) true) (c_edges c) -> inverse_exact l (edge_time c R l t) ->
    edge_pose sl c R t (a, b) x -> edge_pose sl c R t (b, a) y ->
    forall v, lcs_apply y (lcs_apply x v) = v /\ lcs_apply x (lcs_apply y v) = v.
  Proof.
    intros c a b R t l x y Tr G He Hx (lx & ix & px & Sx & Px & Ex) (ly & iy & py & Sy & Py & Ey) v.
    assert (N : NoDup (map ekey (c_edges c))) by exact (tr_edges _ Tr). cbn [fst snd] in *.
    destruct (G _ l He eq_refl eq_refl) as [W P].
    assert (S1 : edge_lcs c (a, b) = Ok (l, false)) by (apply stored_edge; [ exact N | exists true; exact He ]).
    apply (stored_edge c a b lx ix N) in Sx. rewrite S1 in Sx. injection Sx as <- <-. subst px.
    apply (stored_edge c b a ly iy N) in Sy.
    destruct (tr_reverse _ Tr _ He eq_refl) as (t0 & E0 & Hr). cbn [e_tr e_src e_dst] in *. injection E0 as <-.
    unfold stored_inverse in Hr. cbn [l_expr l_inv tlcs_ops] in Hr.
    assert (Ex' := proj1 (pose_at_iff sl SL l _ _ W) Px).
    assert (V := posef_valid sl SL l (edge_time c R l t) W).
    destruct (is_expr l) eqn:X.
    - assert (S2 : edge_lcs c (b, a) = Ok (l, true)).
      { apply stored_edge; [ exact N | ]. split; [ exists false; exact Hr | exists true; exact He ]. }
      rewrite S2 in Sy. injection Sy as <- <-. assert (Ey' := proj1 (pose_at_iff sl SL l _ _ W) Py). subst py x. apply Ey.
    - destruct (invert_good sl SL l W P X) as (i & Ei & Wi & Pi & Xi & Li & Ri & Hi & _). rewrite Ei in Hr.
      assert (S2 : edge_lcs c (b, a) = Ok (i, false)) by (apply stored_edge; [ exact N | exists false; exact Hr ]).
      rewrite S2 in Sy. injection Sy as <- <-. assert (Ey' := proj1 (pose_at_iff sl SL i _ _ Wi) Py). subst py x y.
      assert (edge_time c R i t = edge_time c R l t) as -> by (unfold edge_time; rewrite Ri; reflexivity).
      rewrite (invert_exact l i _ W X Ei Hx). split; [ apply apply_rinv; exact V | ].
      rewrite <- apply_radd, radd_inv_l by exact V. apply apply_rid.
  Qed.

  Lemma reachable_path : forall (c : mgr) a b, @reachable tlcs D ops c -> In a (cs_names c) -> In b (cs_names c) ->
    exists p, shortest_path (c_edges c) a b = Some p /\ simple_path (linked c) a p b.
  Proof.
    intros c a b R Ha Hb. assert (Tr := reachable_is_tree c R). destruct (reachable_inv c R) as [[l G] _].
    destruct (tr_path _ Tr a b Ha Hb) as (p & Sp & _). exists p. split; [ | exact Sp ].
    eapply gtree_sp; [ exact G | exact Ha | ]. apply (walk_iff _ _ (gt_adj _ _ _ _ G)). exact Sp.
  Qed.

  Lemma linked_neq : forall (c : mgr) a b, @reachable tlcs D ops c -> linked c a b -> a <> b.
  Proof.
    intros c a b R L. destruct (reachable_inv c R) as [[w Gt] _]. assert (Q := proj1 (gt_adj _ _ _ _ Gt a b) L).
    assert (Gr := gt_grows _ _ _ _ Gt). intros ->. destruct Q as [Q|Q]; destruct (grows_ends _ _ Gr _ _ Q) as (_ & _ & Q' & _); contradiction.
  Qed.

  Lemma edge_both : forall (c : mgr) a b l rt tref, @reachable tlcs D ops c -> good c ->
    In (Edge a b (Some l) true) (c_edges c) ->
    StronglySorted Z.lt (r_times rt) -> r_times rt <> [] ->
    (forall e l, In e (c_edges c) -> e_def e = true -> e_tr e = Some l -> fits c (request_ref c rt tref) l) ->
    exists ab ba, get_cs sl c a (Some b) (Some rt) tref = Ok ab /\ get_cs sl c b (Some a) (Some rt) tref = Ok ba /\
      valid_t ab /\ valid_t ba /\
      forall t, In t (r_times rt) -> exists x y,
        edge_pose sl c (request_ref c rt tref) t (a, b) x /\ edge_pose sl c (request_ref c rt tref) t (b, a) y /\
        (forall v, lcs_apply (posef sl ab (local_time ab (request_ref c rt tref) t)) v = lcs_apply x v) /\
        (forall v, lcs_apply (posef sl ba (local_time ba (request_ref c rt tref) t)) v = lcs_apply y v).
  Proof.
    intros c a b l rt tref R G He S N F. assert (Tr := reachable_is_tree c R).
    destruct (tr_ends _ Tr _ He) as [Ha Hb]. cbn [e_src e_dst] in *.
    assert (Lab : linked c a b) by (eexists; split; [ exact He | auto ]).
    destruct (tr_reverse _ Tr _ He eq_refl) as (t0 & _ & Hr). cbn [e_src e_dst] in Hr.
    assert (Lba : linked c b a) by (eexists; split; [ exact Hr | auto ]).
    assert (Ne : a <> b) by (eapply linked_neq; eassumption).
    assert (P1 : simple_path (linked c) a [a; b] b).
    { split; [ econstructor; [ exact Lab | constructor ] | ]. repeat constructor; cbn; intuition. }
    assert (P2 : simple_path (linked c) b [b; a] a).
    { split; [ econstructor; [ exact Lba | constructor ] | ]. repeat constructor; cbn; intuition. }
    destruct (reachable_path c a b R Ha Hb) as (p & Sp & Pp).
    destruct (tr_path _ Tr a b Ha Hb) as (p0 & _ & U). assert (p = [a; b]) as -> by (rewrite (U p), (U [a; b]); auto). clear p0 U Pp.
    destruct (reachable_path c b a R Hb Ha) as (q & Sq & Pq).
    destruct (tr_path _ Tr b a Hb Ha) as (p0 & _ & U). assert (q = [b; a]) as -> by (rewrite (U q), (U [b; a]); auto). clear p0 U Pq.
    destruct (get_cs_path sl SL c a b rt tref Tr G Ha Hb Ne S N F _ Sp P1) as (ab & E1 & W1 & _ & _ & V1).
    destruct (get_cs_path sl SL c b a rt tref Tr G Hb Ha (not_eq_sym Ne) S N F _ Sq P2) as (ba & E2 & W2 & _ & _ & V2).
    exists ab, ba. split; [ exact E1 | ]. split; [ exact E2 | ]. split; [ exact W1 | ]. split; [ exact W2 | ].
    intros t Ht. destruct (V1 t Ht) as (xs & F1 & _ & A1). destruct (V2 t Ht) as (ys & F2 & _ & A2).
    cbn [steps] in F1, F2. inversion F1 as [|? x ? ? Hx F1']; subst. inversion F1'; subst.
    inversion F2 as [|? y ? ? Hy F2']; subst. inversion F2'; subst. exists x, y. auto.
  Qed.
End Refs.
