(** Single operations of the manager: deletion, reference times, relabelling,
    failures. *)
From Coq Require Import List String Bool Arith Lia Permutation ZArith.
From Verif Require Import Base CsmModel CsmSpec TreeFacts CsmGraphFacts CsmTreeFacts CsmSubFacts CsmDataFacts.
Import ListNotations.

Section Ops.
  Context {T D : Type} {ops : LcsOps T}.
  Notation mgr := (csm T D).

  Lemma below_anc : forall (c : mgr) l, ctree_by c l -> forall x y, In y (cs_names c) ->
    (below c x y <-> anc l x y).
  Proof.
    intros c l G x y Hy. assert (Gr := gt_grows _ _ _ _ G).
    apply (gt_names _ _ _ _ G) in Hy. destruct (root_path _ _ Gr _ Hy) as (p & S & _).
    assert (S' : simple_path (linked c) y p (c_root c)) by (apply (walk_iff _ _ (gt_adj _ _ _ _ G)); exact S).
    split.
    - intros (q & Sq & Hx). apply (anc_dec_path _ _ Gr x _ q); [ | exact Hx ].
      apply (walk_iff _ _ (gt_adj _ _ _ _ G)). exact Sq.
    - intros A. exists p. split; [ exact S' | ]. apply (anc_dec_path _ _ Gr x _ p S). exact A.
  Qed.

  Lemma children_linked : forall (c : mgr) l x, ctree_by c l -> In x (cs_names c) ->
    ((exists y, In (y, x) l) <-> exists y, y <> x /\ In y (cs_names c) /\ below c x y).
  Proof.
    intros c l x G Hx. assert (Gr := gt_grows _ _ _ _ G). split.
    - intros [y H]. exists y. destruct (grows_ends _ _ Gr _ _ H) as (V & _ & N & _).
      apply (gt_names _ _ _ _ G) in V. split; [ exact N | ]. split; [ exact V | ].
      apply (below_anc c l G); [ exact V | ]. eapply anc_child; [ exact H | apply anc_refl ].
    - intros (y & N & V & B). apply (below_anc c l G) in B; [ | exact V ]. destruct B as [k Hk].
      clear V. induction Hk as [x|k x p y H IH Hin]; [ congruence | ].
      destruct (string_dec p x) as [->|Np]; [ eauto | apply IH; assumption ].
  Qed.

  (** ** delete_cs *)
  Lemma delete_exact : forall (c : mgr) x b, ctree c -> cswf c ->
    In x (cs_names c) -> x <> c_root c ->
    (b = true \/ forall y, In y (cs_names c) -> below c x y -> y = x) ->
    exists keep subs, delete_cs c x b = (set_subs subs (restrict keep c), Ok tt) /\
      forall y, In y (cs_names c) -> (keep y = true <-> ~ below c x y).
  Proof.
    intros c x b [l G] W Hx Hr Hb.
    destruct (delete_cs_cases c l x b G) as [(N & _)|[(E & _)|[(e & _ & _ & _ & [(_ & B & Y)|Dr])|(drop & ch & _ & _ & _ & _ & I & Dr & E)]]].
    - contradiction.
    - contradiction.
    - apply (children_linked c l x G Hx) in Y. destruct Y as (y & N & V & Bl).
      destruct Hb as [->|Hb]; [ discriminate | ]. exfalso. apply N. auto.
    - exfalso. destruct (dropped_subs_ok c l x G (c_subs c)) as [d Ed]; [ | congruence ].
      intros s Hs. destruct (sw_incl _ _ _ _ W s Hs) as [Inc _]. apply Inc.
      apply (sw_in _ _ _ _ W s s Hs (w_refl s)).
    - eexists. eexists. split; [ exact E | ]. intros y Hy. rewrite (keep_spec l x ch I).
      rewrite (below_anc c l G) by exact Hy. reflexivity.
  Qed.

  Lemma delete_children_error : forall (c : mgr) x y, ctree c -> In x (cs_names c) -> x <> c_root c ->
    In y (cs_names c) -> y <> x -> below c x y -> delete_cs c x false = (c, Err WeldxException).
  Proof.
    intros c x y [l G] Hx Hr Hy N B.
    destruct (get_all_children_spec _ _ G _ Hx) as (ch & E & _ & I).
    assert (Hin : exists j, lev l (S j) x y).
    { apply (below_anc c l G) in B; [ | exact Hy ]. destruct B as [[|k] Hk]; [ inversion Hk; congruence | eauto ]. }
    apply I in Hin. unfold delete_cs. apply has_cs_In in Hx. rewrite Hx. cbn [negb].
    destruct (String.eqb_spec x (c_root c)); [ contradiction | ]. rewrite E.
    destruct ch as [|z ch]; [ destruct Hin | ]. reflexivity.
  Qed.

  Lemma delete_subs : forall (c : mgr) x b, ctree c -> cswf c -> In x (cs_names c) -> x <> c_root c ->
    snd (delete_cs c x b) = Ok tt -> forall s, In s (c_subs c) ->
    ((exists y, In y (s_members s) /\ below c x y) -> ~ In s (c_subs (fst (delete_cs c x b)))) /\
    (In s (c_subs (fst (delete_cs c x b))) \/
       exists s', In s' (c_subs c) /\ s_name s' = s_name s /\ exists y, In y (s_members s') /\ below c x y).
  Proof.
    intros c x b [l G] W Hx Hr Hok s Hs.
    destruct (delete_cs_cases c l x b G) as [(N & _)|[(E & _)|[(e & E & _)|(drop & ch & _ & _ & _ & _ & I & Dr & E)]]];
      try contradiction.
    { rewrite E in Hok. discriminate. }
    rewrite E. cbn [fst c_subs set_subs].
    assert (conv : forall s', In s' (c_subs c) -> forall y, In y (s_members s') -> (below c x y <-> anc l x y)).
    { intros s' Hs' y Hy. apply (below_anc c l G). apply (sw_incl _ _ _ _ W s' Hs'). exact Hy. }
    split.
    - intros (y & Hy & B) H. apply filter_In in H. destruct H as [_ K].
      apply negb_true_iff, smem_false in K. apply K.
      eapply dropped_subs_spec; [ exact Dr | exact Hs | ].
      apply (dropped_iff c l x s G W Hs). exists y. split; [ exact Hy | ]. apply (conv s Hs y Hy). exact B.
    - destruct (smem (s_name s) drop) eqn:M.
      + right. apply smem_In in M. destruct (dropped_subs_sound _ _ _ _ Dr _ M) as (s' & Hs' & En & K).
        exists s'. split; [ exact Hs' | ]. split; [ exact En | ].
        apply (dropped_iff c l x s' G W Hs') in K. destruct K as (y & Hy & A).
        exists y. split; [ exact Hy | ]. apply (conv s' Hs' y Hy). exact A.
      + left. apply filter_In. rewrite M. auto.
  Qed.

  Lemma swf_intact : forall (c : mgr) s, cswf c -> In s (c_subs c) -> sub_intact c s.
  Proof.
    intros c s W Hs. destruct (sw_incl _ _ _ _ W s Hs) as [Inc _].
    destruct (sw_in _ _ _ _ W s s Hs (w_refl s)) as [[Ir Ic Cn] _].
    split; [ exact Inc | ]. split; [ exact Ir | ]. split; [ exact Ic | ]. exact Cn.
  Qed.

  Lemma extract_ok : forall (c : mgr) s, ctree c -> cswf c -> In s (c_subs c) ->
    exists sub, extract_sub c s = Ok sub /\
      (forall n, In n (cs_names sub) <-> In n (s_members s)) /\
      c_edges sub = filter (fun e => smem (e_src e) (s_members s) && smem (e_dst e) (s_members s)) (c_edges c) /\
      c_name sub = s_name s /\ c_root sub = s_root s /\ c_ref sub = s_ref s /\ c_subs sub = s_subs s.
  Proof.
    intros c s [l G] W Hs. destruct (swf_intact c s W Hs) as (Inc & _ & Ic & _).
    unfold extract_sub.
    assert (Hm := Inc _ Ic). unfold cs_names in Hm. apply dget_key in Hm. destruct Hm as [dc Ed].
    assert (Es : dget (s_common s) (filter (fun nd => smem (fst nd) (s_members s)) (c_nodes c)) = Some dc).
    { rewrite (dget_filter (fun n => smem n (s_members s))). apply smem_In in Ic. rewrite Ic. exact Ed. }
    rewrite Es. unfold node_data. rewrite Ed. eexists. split; [ reflexivity | ].
    split; [ | auto 10 ]. intros n. unfold cs_names. cbn [c_nodes].
    rewrite dset_keys. rewrite (filter_keys_In (dict D) (fun n => smem n (s_members s))), smem_In.
    split; [ intros [->|[_ H]]; assumption | ]. intros H. right. split; [ apply Inc; exact H | exact H ].
  Qed.

  (** ** reference times *)
  Definition refs_ok (ts : list T) : Prop :=
    (forall t, In t ts -> l_ref t <> None) \/ (forall t, In t ts -> l_ref t = None).

  Lemma defined_lcs_In : forall (c : mgr) t, In t (defined_lcs c) <->
    exists e, In e (c_edges c) /\ e_tr e = Some t /\ e_def e = true.
  Proof.
    intros c t. unfold defined_lcs. rewrite in_flat_map. split.
    - intros (e & H & K). exists e. destruct (e_tr e) as [t'|]; [ | destruct K ].
      destruct (e_def e); [ | destruct K ]. destruct K as [->|[]]. auto.
    - intros (e & H & E1 & E2). exists e. split; [ exact H | ]. rewrite E1, E2. left; reflexivity.
  Qed.

  Lemma put_edges_lcs : forall es a b t x, NoDup (map ekey es) -> a <> b ->
    In x (put_edges a b t es) -> e_def x = true -> In x es \/ e_tr x = Some t.
  Proof.
    intros es a b t x N Hn H Hd. apply put_edges_In in H; [ | assumption | assumption ].
    destruct H as [->|[->|(H & _)]]; auto. discriminate.
  Qed.

  Lemma put_edges_lcs_conv : forall es a b t x, NoDup (map ekey es) -> a <> b ->
    In x es -> ekey x <> (a, b) -> ekey x <> (b, a) -> In x (put_edges a b t es).
  Proof.
    intros es a b t x N Hn H H1 H2. apply put_edges_In; auto.
  Qed.

  Lemma timedep_In : forall (c : mgr) t, In t (lcs_time_dependent c) <-> In t (defined_lcs c) /\ l_timedep t = true.
  Proof. intros c t. unfold lcs_time_dependent. apply filter_In. Qed.

  Lemma add_cs_lcs : forall (c : mgr) n p t b c', ctree c -> add_cs c n p t b = (c', Ok tt) -> forall x,
    In x (lcs_time_dependent c') -> In x (lcs_time_dependent c) \/ (x = t /\ l_timedep t = true).
  Proof.
    intros c n p t b c' [l G] E x Hx. apply timedep_In in Hx. destruct Hx as [Hx Td].
    apply defined_lcs_In in Hx. destruct Hx as (e & He & Et & Ed).
    assert (N := ew_keys _ (gt_ewf _ _ _ _ G)).
    assert (K : In e (if b then put_edges n p t (c_edges c) else put_edges p n t (c_edges c)) /\ n <> p).
    { apply add_cs_cases in E. destruct E as [[_ [er E]]|[(_ & Hn & L & ->)|(_ & Hn & Hp & ->)]].
      - discriminate.
      - split; [ exact He | ]. apply elinked_key in L. apply (gtree_ends _ _ _ _ G) in L. tauto.
      - split; [ exact He | ]. intros ->. contradiction. }
    destruct K as [K Hnp].
    assert (In e (c_edges c) \/ e_tr e = Some t) as [H|H].
    { destruct b; (eapply put_edges_lcs; [ exact N | | exact K | exact Ed ]); congruence. }
    - left. apply timedep_In. split; [ apply defined_lcs_In; eauto | exact Td ].
    - right. assert (x = t) as -> by congruence. auto.
  Qed.

  Lemma has_ref_iff : forall (c : mgr), has_lcs_with_ref c = true <->
    exists t, In t (lcs_time_dependent c) /\ l_ref t <> None.
  Proof.
    intros c. unfold has_lcs_with_ref. rewrite existsb_exists. split; intros (t & H & K); exists t; split; auto.
    - destruct (l_ref t); [ discriminate | discriminate K ].
    - destruct (l_ref t); [ reflexivity | congruence ].
  Qed.

  Lemma add_no_conflict : forall (c : mgr) n p t b c', add_cs c n p t b = (c', Ok tt) -> add_ref_conflict c t = false.
  Proof.
    intros c n p t b c' H. unfold add_cs in H. destruct (add_ref_conflict c t); [ discriminate | reflexivity ].
  Qed.

  Lemma add_cs_refs : forall (c : mgr) n p t b c', ctree c -> c_ref c = None ->
    refs_ok (lcs_time_dependent c) -> add_cs c n p t b = (c', Ok tt) ->
    refs_ok (lcs_time_dependent c').
  Proof.
    intros c n p t b c' G R A E. assert (L := add_cs_lcs _ _ _ _ _ _ G E).
    apply add_no_conflict in E. unfold add_ref_conflict in E. unfold uses_absolute_times in E.
    rewrite R in E. cbn [is_some negb] in E. rewrite !orb_false_r, !andb_true_r in E.
    destruct (l_timedep t) eqn:Td; cbn [andb] in E.
    2:{ assert (K : forall x, In x (lcs_time_dependent c') -> In x (lcs_time_dependent c)).
        { intros x Hx. destruct (L x Hx) as [H|[_ H]]; [ exact H | discriminate ]. }
        destruct A as [A|A]; [ left | right ]; auto. }
    destruct (Nat.ltb 0 (n_time_dependent c)) eqn:Nt; cbn [andb] in E.
    - assert (Hne : exists t0, In t0 (lcs_time_dependent c)).
      { unfold n_time_dependent in Nt. destruct (lcs_time_dependent c) as [|t0 r]; [ discriminate | exists t0; left; reflexivity ]. }
      apply orb_false_iff in E. destruct E as [E1 E2].
      destruct Hne as [t0 H0].
      destruct A as [A|A].
      + assert (has_lcs_with_ref c = true) as Hh by (apply has_ref_iff; eauto).
        rewrite Hh in *. rewrite andb_true_r in E2. left. intros x Hx.
        destruct (L x Hx) as [H|[-> _]]; [ auto | ]. destruct (l_ref t); [ discriminate | discriminate E2 ].
      + assert (has_lcs_with_ref c = false) as Hh.
        { destruct (has_lcs_with_ref c) eqn:Hh; [ | reflexivity ]. apply has_ref_iff in Hh.
          destruct Hh as (y & Hy & K). exfalso. auto. }
        rewrite Hh in *. cbn [negb] in E1. rewrite andb_true_r in E1. right. intros x Hx.
        destruct (L x Hx) as [H|[-> _]]; [ auto | ]. destruct (l_ref t); [ discriminate E1 | reflexivity ].
    - assert (Hno : lcs_time_dependent c = []).
      { unfold n_time_dependent in Nt. destruct (lcs_time_dependent c); [ reflexivity | discriminate ]. }
      destruct (l_ref t) eqn:Rt; [ left | right ]; intros x Hx; destruct (L x Hx) as [H|[-> _]];
        try (rewrite Hno in H; destruct H); congruence.
  Qed.

  Lemma delete_cs_lcs : forall (c : mgr) x b t, ctree c ->
    In t (lcs_time_dependent (fst (delete_cs c x b))) -> In t (lcs_time_dependent c).
  Proof.
    intros c x b t [l G].
    destruct (delete_cs_cases c l x b G) as [(_ & ->)|[(_ & ->)|[(e & -> & _)|(drop & ch & Hx & Hr & _ & _ & I & Dr & ->)]]];
      cbn [fst]; auto.
    rewrite !timedep_In, !defined_lcs_In. cbn [c_edges set_subs restrict set_graph].
    intros [(e & H & K) Td]. apply filter_In in H. destruct H as [H _]. eauto.
  Qed.

  Lemma refs_ok_incl : forall a b, refs_ok b -> (forall t, In t a -> In t b) -> refs_ok a.
  Proof. intros a b [A|A] I; [ left | right ]; auto. Qed.

  (** merge *)
  Lemma merge_lcs : forall (c o : mgr), ctree c -> ctree o -> snd (merge c o) = Ok tt -> forall t,
    In t (lcs_time_dependent (fst (merge c o))) <-> In t (lcs_time_dependent c) \/ In t (lcs_time_dependent o).
  Proof.
    intros c o [l G] [lo Go] Hok t.
    destruct (merge_cases c o) as [[e E]|(m & dc & d_o & F & _ & Hd & E1 & E2 & E)]; rewrite E in *; cbn [fst snd] in *.
    { discriminate. }
    destruct (single_common _ _ _ F) as (Mc & Mo & Mi).
    rewrite !timedep_In, !defined_lcs_In. cbn [c_edges set_subs set_graph].
    unfold compose_edges. fold (compose_edges (c_edges c) (c_edges o)).
    rewrite compose_edges_new.
    - split.
      + intros [(e & H & K) Td]. apply in_app_iff in H. destruct H; [ left | right ]; eauto.
      + intros [[(e & H & K) Td]|[(e & H & K) Td]]; (split; [ | exact Td ]); exists e;
          (split; [ apply in_app_iff; auto | exact K ]).
    - apply (gt_ewf _ _ _ _ Go).
    - apply (edges_disjoint _ _ _ _ _ _ _ _ m G Go). exact Mi.
  Qed.

  Lemma merge_ref_name : forall (c o : mgr), c_ref (fst (merge c o)) = c_ref c /\ c_name (fst (merge c o)) = c_name c /\
    c_root (fst (merge c o)) = c_root c.
  Proof.
    intros c o. destruct (merge_cases c o) as [[e E]|(m & dc & d_o & F & _ & Hd & E1 & E2 & E)]; rewrite E; auto.
  Qed.

  Lemma merge_no_conflict : forall (c o : mgr), snd (merge c o) = Ok tt -> merge_ref_conflict c o = false.
  Proof. intros c o H. unfold merge in H. destruct (merge_ref_conflict c o); [ discriminate | reflexivity ]. Qed.

  Lemma merge_refs : forall (c o : mgr), ctree c -> ctree o -> snd (merge c o) = Ok tt ->
    c_ref c = None ->
    refs_ok (lcs_time_dependent c) -> refs_ok (lcs_time_dependent o) ->
    (c_ref o = None \/ (forall t, In t (lcs_time_dependent o) -> l_ref t <> None) \/ has_lcs_with_ref c = false) ->
    refs_ok (lcs_time_dependent (fst (merge c o))).
  Proof.
    intros c o G Go Hok R A Ao Side. assert (L := merge_lcs c o G Go Hok).
    apply merge_no_conflict in Hok. unfold merge_ref_conflict, uses_absolute_times in Hok. rewrite R in Hok.
    cbn [is_some negb andb] in Hok. rewrite !orb_false_r, !andb_true_r in Hok.
    destruct (Nat.ltb 0 (n_time_dependent o)) eqn:Nt.
    2:{ assert (Hno : lcs_time_dependent o = []).
        { unfold n_time_dependent in Nt. destruct (lcs_time_dependent o); [ reflexivity | discriminate ]. }
        eapply refs_ok_incl; [ exact A | ]. intros t Ht. apply L in Ht. rewrite Hno in Ht. destruct Ht as [H|[]]; exact H. }
    assert (Hne : exists t0, In t0 (lcs_time_dependent o)).
    { unfold n_time_dependent in Nt. destruct (lcs_time_dependent o) as [|t0 r]; [ discriminate | exists t0; left; reflexivity ]. }
    destruct Hne as [t0 H0]. cbn [andb] in Hok. apply orb_false_iff in Hok. destruct Hok as [K1 K2].
    destruct (has_lcs_with_ref c) eqn:Hc; cbn [negb andb] in K1, K2.
    - (* self absolute *)
      assert (Ac : forall t, In t (lcs_time_dependent c) -> l_ref t <> None).
      { destruct A as [A|A]; [ exact A | ]. apply has_ref_iff in Hc. destruct Hc as (y & Hy & K). exfalso. auto. }
      assert (Aoo : forall t, In t (lcs_time_dependent o) -> l_ref t <> None).
      { destruct Side as [S|[S|S]]; [ | exact S | discriminate ].
        rewrite S in K2. cbn [is_some] in K2. rewrite orb_false_r in K2. apply negb_false_iff in K2.
        destruct Ao as [Ao|Ao]; [ exact Ao | ]. apply has_ref_iff in K2. destruct K2 as (y & Hy & K). exfalso. auto. }
      left. intros t Ht. apply L in Ht. destruct Ht; auto.
    - apply orb_false_iff in K1. destruct K1 as [K1 _].
      right. intros t Ht. apply L in Ht. destruct Ht as [Ht|Ht].
      + destruct (l_ref t) eqn:Rt; [ | reflexivity ]. exfalso.
        assert (has_lcs_with_ref c = true); [ apply has_ref_iff; exists t; split; [ exact Ht | congruence ] | congruence ].
      + destruct (l_ref t) eqn:Rt; [ | reflexivity ]. exfalso.
        assert (has_lcs_with_ref o = true); [ apply has_ref_iff; exists t; split; [ exact Ht | congruence ] | congruence ].
  Qed.

  (** ** failures *)
  Lemma fail_add : forall (c : mgr) n p t b e, snd (add_cs c n p t b) = Err e -> fst (add_cs c n p t b) = c.
  Proof.
    intros c n p t b e H. destruct (add_cs c n p t b) as [c' r] eqn:E. cbn [fst snd] in *.
    apply add_cs_cases in E. destruct E as [[-> _]|[(-> & _)|(-> & _)]]; [ reflexivity | discriminate | discriminate ].
  Qed.

  Lemma fail_delete : forall (c : mgr) x b e, ctree c -> snd (delete_cs c x b) = Err e -> fst (delete_cs c x b) = c.
  Proof.
    intros c x b e [l G] H.
    destruct (delete_cs_cases c l x b G) as [(_ & E)|[(_ & E)|[(e' & E & _)|(drop & ch & _ & _ & _ & _ & _ & _ & E)]]];
      rewrite E in *; cbn [fst snd] in *; reflexivity || discriminate.
  Qed.

  Lemma fail_assign : forall f (c : mgr) v k r tg e, snd (assign_data f c v k r tg) = Err e ->
    fst (assign_data f c v k r tg) = c.
  Proof.
    intros f c v k r tg e H. destruct (assign_data f c v k r tg) as [c' rr] eqn:E. cbn [fst snd] in *.
    apply assign_data_cases in E. destruct E as [[-> _]|(n & w & d & -> & _)]; [ reflexivity | discriminate ].
  Qed.

  Lemma fail_merge : forall (c o : mgr) e, snd (merge c o) = Err e -> fst (merge c o) = c.
  Proof.
    intros c o e H. destruct (merge_cases c o) as [[e' E]|(m & dc & d_o & _ & _ & _ & _ & _ & E)]; rewrite E in *;
      cbn [fst snd] in *; [ reflexivity | discriminate ].
  Qed.

  Lemma filter_none : forall k l, ~ In k l -> filter (fun n => negb (String.eqb k n)) l = l.
  Proof.
    intros k l. induction l as [|x l IH]; intros H; cbn [filter]; [ reflexivity | ].
    destruct (String.eqb_spec k x) as [->|]; [ exfalso; apply H; left; reflexivity | ].
    cbn [negb]. f_equal. apply IH. intros K; apply H; right; exact K.
  Qed.

  Lemma fail_delete_data : forall (c : mgr) k e, snd (delete_data c k) = Err e ->
    (forall s, In s (c_subs c) -> ~ In k (s_data s)) -> fst (delete_data c k) = c.
  Proof.
    intros c k e H Hs. unfold delete_data in *. cbn [c_nodes set_subs] in *.
    destruct (pop_data (c_nodes c) k); cbn [fst snd] in *; [ discriminate | ].
    destruct c as [nm rf rt sb nd ed]. unfold set_subs. cbn [c_name c_ref c_root c_subs c_nodes c_edges] in *.
    f_equal. clear -Hs. induction sb as [|s sb IH]; cbn [map]; [ reflexivity | ]. f_equal.
    - rewrite filter_none by (apply Hs; left; reflexivity). destruct s; reflexivity.
    - apply IH. intros s' H. apply Hs. right; exact H.
  Qed.

  (** ** relabel *)
  Lemma relabel_node_data : forall (c : mgr) old new n, ctree c -> ~ In new (cs_names c) ->
    In n (cs_names c) ->
    node_data (relabel_graph old new c) (ren old new n) = node_data c n.
  Proof.
    intros c old new n [l G] Hn Hin. unfold node_data, ren.
    destruct (dget old (c_nodes c)) as [d|] eqn:E.
    - rewrite (relabel_nodes_eq _ _ _ _ Hn E). rewrite (dget_app (V := dict D)), (dget_ddel (dict D)).
      destruct (String.eqb_spec n old) as [->|Hne].
      + assert (old <> new) by (intros ->; apply Hn; apply dget_key; eauto).
        destruct (String.eqb_spec old new); [ contradiction | ].
        assert (dget new (c_nodes c) = None) as -> by (apply dget_none; exact Hn).
        cbn [dget]. rewrite String.eqb_refl. congruence.
      + destruct (String.eqb_spec old n); [ congruence | ].
        apply dget_key in Hin. destruct Hin as [v Ev]. rewrite Ev. reflexivity.
    - unfold relabel_graph. rewrite E. destruct (String.eqb_spec n old) as [->|]; [ | reflexivity ].
      exfalso. apply dget_none in E. contradiction.
  Qed.

  Lemma relabel_length : forall (c : mgr) old new, ctree c -> ~ In new (cs_names c) ->
    List.length (c_nodes (relabel_graph old new c)) = List.length (c_nodes c).
  Proof.
    intros c old new [l G] Hn. destruct (dget old (c_nodes c)) as [d|] eqn:E.
    - rewrite (relabel_nodes_eq _ _ _ _ Hn E). rewrite app_length. cbn [List.length].
      assert (N := gt_nodup _ _ _ _ G). unfold cs_names in N.
      destruct (dget_split _ _ _ E) as (a & b & Ec & Na & _). rewrite Ec in *.
      unfold dkeys in N. rewrite map_app in N. cbn [map fst] in N. apply NoDup_remove_2 in N.
      unfold ddel. rewrite filter_app. cbn [filter fst]. rewrite String.eqb_refl. cbn [negb].
      change (filter (fun p : string * dict D => negb (String.eqb old (fst p))) a) with (ddel old a).
      change (filter (fun p : string * dict D => negb (String.eqb old (fst p))) b) with (ddel old b).
      rewrite !ddel_absent; [ | intros H; apply N; apply in_or_app; right; exact H | exact Na ].
      rewrite !app_length. cbn [List.length]. lia.
    - unfold relabel_graph. rewrite E. reflexivity.
  Qed.

  Lemma relabel_edge_map : forall (c : mgr) old new, ctree c -> ~ In new (cs_names c) ->
    Permutation (c_edges (relabel_graph old new c)) (map (redge (ren old new)) (c_edges c)).
  Proof.
    intros c old new [l G] Hn. destruct (dget old (c_nodes c)) as [d|] eqn:E.
    - assert (Hon : old <> new) by (intros ->; apply Hn; apply dget_key; eauto).
      destruct (relabel_edges c l old new G Hn Hon) as [Ec P].
      unfold relabel_graph. rewrite E. destruct (String.eqb_spec old new); [ contradiction | ].
      cbn [c_nodes c_edges set_graph remove_node set_nodes].
      change (filter (fun e => negb (String.eqb old (e_src e)) && negb (String.eqb old (e_dst e))) (c_edges c))
        with (filter (both (fun m => negb (String.eqb old m))) (c_edges c)).
      change (fun e : edge T => Edge (ren old new (e_src e)) (ren old new (e_dst e)) (e_tr e) (e_def e))
        with (redge (T := T) (ren old new)).
      rewrite Ec. exact P.
    - unfold relabel_graph. rewrite E. apply dget_none in E.
      assert (H : map (redge (ren old new)) (c_edges c) = c_edges c); [ | rewrite H; reflexivity ].
      assert (En : forall e, In e (c_edges c) -> In (e_src e) (cs_names c) /\ In (e_dst e) (cs_names c)).
      { intros e H. assert (K : elinked (c_edges c) (e_src e) (e_dst e)) by (exists e; auto).
        apply elinked_key in K. apply (gtree_ends _ _ _ _ G) in K. tauto. }
      rewrite <- (map_id (c_edges c)) at 2. apply map_ext_in. intros [s d tr df] H.
      destruct (En _ H) as [H1 H2]. cbn [e_src e_dst] in *. unfold redge, ren. cbn [e_src e_dst e_tr e_def].
      destruct (String.eqb_spec s old) as [->|]; [ contradiction | ].
      destruct (String.eqb_spec d old) as [->|]; [ contradiction | ]. reflexivity.
  Qed.

  (** ** reachable managers *)
  Lemma below_path : forall (c : mgr) x y, ctree c -> In y (cs_names c) ->
    (below c x y <-> exists p, shortest_path (c_edges c) y (c_root c) = Some p /\ In x p).
  Proof.
    intros c x y [l G] Hy. assert (Hv := Hy). apply (gt_names _ _ _ _ G) in Hv.
    destruct (root_path _ _ (gt_grows _ _ _ _ G) _ Hv) as (p & S & _).
    assert (E := gtree_sp _ _ _ _ G _ _ _ Hy S).
    rewrite (below_anc c l G) by exact Hy. rewrite <- (anc_dec_path _ _ (gt_grows _ _ _ _ G) x y p S). split.
    - intros Hx. exists p. auto.
    - intros (q & Eq & Hx). congruence.
  Qed.

  Lemma run_ops_reachable : forall l (c : mgr), reachable c ->
    (forall o other, In o l -> o = OMerge other -> reachable other) -> reachable (run_ops c l).
  Proof.
    induction l as [|o l IH]; intros c R H; [ exact R | ]. unfold run_ops. cbn [fold_left]. apply IH.
    - apply r_op; [ exact R | ]. intros other E. apply (H o); [ left; reflexivity | exact E ].
    - intros o' other Ho. apply H. right; exact Ho.
  Qed.

  Definition add_or_delete (o : op (T := T) (D := D)) : Prop :=
    match o with OAdd _ _ _ _ => True | ODelete _ _ => True | _ => False end.

  Lemma add_ref_same : forall (c : mgr) n p t b, c_ref (fst (add_cs c n p t b)) = c_ref c.
  Proof.
    intros c n p t b. destruct (add_cs c n p t b) as [c' r] eqn:E. cbn [fst].
    apply add_cs_cases in E. destruct E as [[-> _]|[(_ & _ & _ & ->)|(_ & _ & _ & ->)]]; reflexivity.
  Qed.

  Lemma delete_ref_same : forall (c : mgr) x b, ctree c -> c_ref (fst (delete_cs c x b)) = c_ref c.
  Proof.
    intros c x b [l G].
    destruct (delete_cs_cases c l x b G) as [(_ & ->)|[(_ & ->)|[(e & -> & _)|(drop & ch & Hx & Hr & _ & _ & I & Dr & ->)]]];
      reflexivity.
  Qed.

  Lemma run_ops_refs : forall l (c : mgr), reachable c -> c_ref c = None -> refs_ok (lcs_time_dependent c) ->
    (forall o, In o l -> add_or_delete o) ->
    c_ref (run_ops c l) = None /\ refs_ok (lcs_time_dependent (run_ops c l)).
  Proof.
    induction l as [|o l IH]; intros c R N A H; [ auto | ]. unfold run_ops. cbn [fold_left].
    assert (Ho := H o (or_introl eq_refl)). destruct (reachable_inv c R) as [G _].
    assert (R1 : reachable (fst (run_op c o))).
    { apply r_op; [ exact R | ]. intros other ->. destruct Ho. }
    apply IH; [ exact R1 | | | intros o' Ho'; apply H; right; exact Ho' ].
    - destruct o as [n r t b|x b| | | |]; destruct Ho; cbn [run_op].
      + rewrite add_ref_same. exact N.
      + rewrite delete_ref_same by exact G. exact N.
    - destruct o as [n r t b|x b| | | |]; destruct Ho; cbn [run_op].
      + destruct (add_cs c n r t b) as [c' [u|e]] eqn:E; cbn [fst].
        * destruct u. eapply add_cs_refs; eassumption.
        * assert (K := fail_add c n r t b e). rewrite E in K. cbn [fst snd] in K. rewrite K by reflexivity. exact A.
      + eapply refs_ok_incl; [ exact A | ]. intros t Ht. eapply delete_cs_lcs; eassumption.
  Qed.

  Lemma add_conflict : forall (c : mgr) n p t b t0, c_ref c = None -> refs_ok (lcs_time_dependent c) ->
    In t0 (lcs_time_dependent c) -> l_timedep t = true ->
    (l_ref t0 = None /\ l_ref t <> None \/ l_ref t0 <> None /\ l_ref t = None) ->
    add_cs c n p t b = (c, Err WeldxException).
  Proof.
    intros c n p t b t0 R A H0 Td Mix. unfold add_cs.
    assert (add_ref_conflict c t = true) as ->; [ | reflexivity ].
    unfold add_ref_conflict, uses_absolute_times. rewrite R, Td. cbn [is_some andb negb].
    assert (Nat.ltb 0 (n_time_dependent c) = true) as ->.
    { unfold n_time_dependent. destruct (lcs_time_dependent c); [ destruct H0 | reflexivity ]. }
    rewrite orb_false_r. cbn [andb]. destruct Mix as [[M1 M2]|[M1 M2]].
    - assert (has_lcs_with_ref c = false) as ->.
      { destruct (has_lcs_with_ref c) eqn:Hh; [ | reflexivity ]. apply has_ref_iff in Hh.
        destruct Hh as (y & Hy & K). destruct A as [A|A]; exfalso; [ apply (A t0); assumption | apply K; auto ]. }
      destruct (l_ref t); [ reflexivity | congruence ].
    - assert (has_lcs_with_ref c = true) as -> by (apply has_ref_iff; eauto).
      rewrite M2. reflexivity.
  Qed.

  Lemma merge_consistent : forall (c o : mgr), ctree c -> ctree o -> snd (merge c o) = Ok tt ->
    times_consistent c -> times_consistent o ->
    times_consistent (fst (merge c o)) \/
    (c_ref c = None /\ c_ref o <> None /\
     (exists t, In t (lcs_time_dependent c) /\ l_ref t <> None) /\
     exists t, In t (lcs_time_dependent o) /\ l_ref t = None).
  Proof.
    intros c o G Go Hok A Ao. unfold times_consistent. destruct (merge_ref_name c o) as (Er & _). rewrite Er.
    destruct (c_ref c) as [z|] eqn:R; [ left; left; discriminate | ].
    assert (A' : refs_ok (lcs_time_dependent c)) by (destruct A as [A|A]; [ congruence | exact A ]).
    destruct (has_lcs_with_ref c) eqn:Hc.
    - destruct (c_ref o) as [z|] eqn:Ro.
      + assert (dec : (forall t, In t (lcs_time_dependent o) -> l_ref t <> None) \/
                      exists t, In t (lcs_time_dependent o) /\ l_ref t = None).
        { clear. induction (lcs_time_dependent o) as [|t r IH]; [ left; intros t [] | ].
          destruct (l_ref t) eqn:E; [ | right; exists t; split; [ left; reflexivity | exact E ] ].
          destruct IH as [IH|(t' & H1 & H2)].
          - left. intros t' [<-|H]; [ congruence | auto ].
          - right. exists t'. split; [ right; exact H1 | exact H2 ]. }
        destruct dec as [dec|dec].
        * left. right. apply merge_refs; auto. left; exact dec.
        * right. split; [ reflexivity | ]. split; [ discriminate | ]. split; [ apply has_ref_iff; exact Hc | exact dec ].
      + left. right. apply merge_refs; auto. destruct Ao as [Ao|Ao]; [ congruence | exact Ao ].
    - left. right. assert (K := merge_no_conflict c o Hok).
      unfold merge_ref_conflict, uses_absolute_times in K. rewrite R, Hc in K. cbn [is_some negb andb orb] in K.
      rewrite !orb_false_r in K. assert (L := merge_lcs c o G Go Hok).
      destruct (Nat.ltb 0 (n_time_dependent o)) eqn:Nt; cbn [andb] in K.
      + apply orb_false_iff in K. destruct K as [K1 K2].
        apply merge_refs; auto. right. intros t Ht. destruct (l_ref t) eqn:E; [ | reflexivity ].
        assert (has_lcs_with_ref o = true); [ apply has_ref_iff; exists t; split; [ exact Ht | congruence ] | congruence ].
      + assert (Hno : lcs_time_dependent o = []).
        { unfold n_time_dependent in Nt. destruct (lcs_time_dependent o); [ reflexivity | discriminate ]. }
        eapply refs_ok_incl; [ exact A' | ]. intros t Ht. apply L in Ht. rewrite Hno in Ht. destruct Ht as [H|[]]; exact H.
  Qed.

  Lemma relabel_shape : forall (c : mgr) old new, c_subs c = [] ->
    relabel c old new = (Csm (c_name c) (c_ref c) (ren old new (c_root c)) []
      (c_nodes (relabel_graph old new c)) (c_edges (relabel_graph old new c)), Ok tt).
  Proof.
    intros c old new S. unfold relabel, subsystems. rewrite S. cbn [extract_subs]. f_equal.
    unfold ren. destruct (String.eqb (c_root c) old).
    - unfold relabel_graph. cbn [c_nodes c_edges]. destruct (dget old (c_nodes c)) as [d|].
      + destruct (String.eqb old new); [ reflexivity | ].
        unfold remove_node, set_nodes, set_graph. cbn [c_name c_ref c_root c_subs c_nodes c_edges]. reflexivity.
      + reflexivity.
    - unfold relabel_graph. destruct (dget old (c_nodes c)) as [d|].
      + destruct (String.eqb old new).
        * destruct c. cbn in *. subst. reflexivity.
        * unfold remove_node, set_nodes, set_graph. cbn [c_name c_ref c_root c_subs c_nodes c_edges]. rewrite S. reflexivity.
      + destruct c. cbn in *. subst. reflexivity.
  Qed.
End Ops.
