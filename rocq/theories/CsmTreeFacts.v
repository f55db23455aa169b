(** The tree invariant of the manager and its preservation. *)
From Coq Require Import List String Bool Arith Lia Permutation.
From Verif Require Import Base CsmModel CsmSpec TreeFacts CsmGraphFacts.
Import ListNotations.

Section TreeInv.
  Context {T D : Type} {ops : LcsOps T}.
  Notation mgr := (csm T D).

  (** [l] is a parent list that builds the graph *)
  Record gtree (r : string) (names : list string) (es : list (edge T))
         (l : list (string * string)) : Prop := {
    gt_grows : grows r l;
    gt_nodup : NoDup names;
    gt_names : forall x, In x names <-> In x (verts r l);
    gt_ewf : ewf es;
    gt_adj : forall u v, elinked es u v <-> adjl l u v
  }.

  Definition ctree_by (c : mgr) (l : list (string * string)) : Prop :=
    gtree (c_root c) (cs_names c) (c_edges c) l.
  Definition ctree (c : mgr) : Prop := exists l, ctree_by c l.

  Lemma gtree_length : forall r names es l, gtree r names es l ->
    List.length names = S (List.length l) /\ List.length l <= List.length es.
  Proof.
    intros r names es l G. split.
    - assert (P : Permutation names (verts r l)).
      { apply NoDup_Permutation; [ apply G | apply grows_nodup; apply G | apply G ]. }
      rewrite (Permutation_length P). unfold verts. cbn [List.length]. rewrite map_length. reflexivity.
    - rewrite <- (map_length ekey es). apply NoDup_incl_length.
      + assert (N := grows_nodup _ _ (gt_grows _ _ _ _ G)). unfold verts in N.
        inversion N as [|? ? _ N']; subst. eapply NoDup_map_inv; eassumption.
      + intros [u v] H. apply elinked_key. apply (gt_adj _ _ _ _ G). left; assumption.
  Qed.

  Lemma walk_iff : forall (R S : string -> string -> Prop), (forall u v, R u v <-> S u v) ->
    forall a p b, simple_path R a p b <-> simple_path S a p b.
  Proof.
    intros R S H a p b. split; intros [W N]; (split; [ | assumption ]);
      (eapply walk_mono; [ | exact W ]); intros u v; apply H.
  Qed.

  Lemma gtree_sp : forall r names es l, gtree r names es l -> forall a p b,
    In a names -> simple_path (adjl l) a p b -> shortest_path es a b = Some p.
  Proof.
    intros r names es l G a p b Ha S.
    assert (E := walk_iff _ _ (gt_adj _ _ _ _ G)).
    assert (Gr := gt_grows _ _ _ _ G).
    apply shortest_path_unique.
    - apply E. assumption.
    - assert (L := gtree_length _ _ _ _ G). destruct S as [W N].
      assert (List.length p <= List.length (verts r l)).
      { apply NoDup_incl_length; [ assumption | ]. intros x Hx.
        eapply (walk_nodes (adjl l) (fun x => In x (verts r l))); [ | | exact W | exact Hx ].
        - apply adjl_verts. assumption.
        - apply (gt_names _ _ _ _ G). assumption. }
      unfold verts in H. cbn [List.length] in H. rewrite map_length in H. lia.
    - intros q Sq. apply E in Sq. eapply simple_path_unique; eassumption.
  Qed.

  Lemma gtree_reroot : forall r names es l, gtree r names es l -> forall m, In m names ->
    exists l', gtree m names es l'.
  Proof.
    intros r names es l G m Hm.
    destruct (reroot _ _ (gt_grows _ _ _ _ G) m) as (l' & G' & A & V).
    { apply (gt_names _ _ _ _ G). assumption. }
    exists l'. split.
    - assumption.
    - apply G.
    - intros x. rewrite (gt_names _ _ _ _ G). symmetry. apply V.
    - apply G.
    - intros u v. rewrite (gt_adj _ _ _ _ G). symmetry. apply A.
  Qed.

  Lemma gtree_is_tree : forall c, ctree c -> is_tree c.
  Proof.
    intros c [l G]. assert (Gr := gt_grows _ _ _ _ G).
    assert (E := walk_iff _ _ (gt_adj _ _ _ _ G)). split.
    - apply (gt_names _ _ _ _ G). left; reflexivity.
    - apply G.
    - apply (ew_keys _ (gt_ewf _ _ _ _ G)).
    - intros e H. assert (elinked (c_edges c) (e_src e) (e_dst e)) as L by (exists e; auto).
      apply (gt_adj _ _ _ _ G) in L. destruct (adjl_verts _ _ Gr _ _ L).
      split; apply (gt_names _ _ _ _ G); assumption.
    - apply (ew_rev _ (gt_ewf _ _ _ _ G)).
    - apply (ew_def _ (gt_ewf _ _ _ _ G)).
    - intros a b Ha Hb. apply (gt_names _ _ _ _ G) in Ha. apply (gt_names _ _ _ _ G) in Hb.
      destruct (simple_path_exists_unique _ _ Gr _ _ Ha Hb) as (p & S & U).
      exists p. split; [ apply E; assumption | ]. intros q Sq. apply U. apply E. assumption.
  Qed.

  Lemma has_cs_In : forall (c : mgr) n, has_cs c n = true <-> In n (cs_names c).
  Proof. intros c n. unfold has_cs, cs_names. apply dmem_In. Qed.

  Lemma has_cs_false : forall (c : mgr) n, has_cs c n = false <-> ~ In n (cs_names c).
  Proof. intros c n. rewrite <- has_cs_In. destruct (has_cs c n); split; intros; congruence. Qed.

  (** ** fresh manager *)
  Lemma new_ctree : forall root name ref, ctree (new_csm root name ref).
  Proof.
    intros root name ref. exists []. split.
    - constructor.
    - cbn. constructor; [ intros [] | constructor ].
    - intros x. reflexivity.
    - apply ewf_nil.
    - intros u v. split; [ intros (e & [] & _) | intros [[]|[]] ].
  Qed.

  (** ** add_cs *)
  Lemma gtree_add_leaf : forall r names es l n p t (b : bool), gtree r names es l ->
    In p names -> ~ In n names ->
    gtree r (names ++ [n]) (if b then put_edges n p t es else put_edges p n t es) ((n, p) :: l).
  Proof.
    intros r names es l n p t b G Hp Hn.
    assert (Hnp : n <> p) by (intros ->; contradiction).
    assert (N := ew_keys _ (gt_ewf _ _ _ _ G)). split.
    - constructor; [ apply G | apply (gt_names _ _ _ _ G); assumption | ].
      rewrite <- (gt_names _ _ _ _ G). assumption.
    - apply NoDup_app_disjoint; [ apply G | constructor; [ intros [] | constructor ] | ].
      intros k [<-|[]]; assumption.
    - intros x. rewrite in_app_iff, (gt_names _ _ _ _ G). unfold verts. cbn [map fst In].
      intuition.
    - destruct b; apply put_edges_ewf; try apply G; congruence.
    - intros u v. assert (A := gt_adj _ _ _ _ G u v). unfold adjl in *. cbn [In].
      destruct b; rewrite put_edges_keys by congruence; rewrite A; split; intros; intuition congruence.
  Qed.

  Lemma gtree_update : forall r names es l n p t (b : bool), gtree r names es l ->
    elinked es n p ->
    gtree r names (if b then put_edges n p t es else put_edges p n t es) l.
  Proof.
    intros r names es l n p t b G L.
    assert (N := ew_keys _ (gt_ewf _ _ _ _ G)).
    assert (Hnp : n <> p).
    { apply (gt_adj _ _ _ _ G) in L. assert (Gr := gt_grows _ _ _ _ G).
      destruct L as [H|H]; apply (grows_ends _ _ Gr) in H; intuition. }
    split.
    - apply G.
    - apply G.
    - apply G.
    - destruct b; apply put_edges_ewf; try apply G; congruence.
    - intros u v. rewrite <- (gt_adj _ _ _ _ G).
      assert (L' := ewf_sym _ (gt_ewf _ _ _ _ G) _ _ L).
      destruct b; rewrite put_edges_keys by congruence;
        (split; [ intros [[-> ->]|[[-> ->]|H]]; assumption | auto ]).
  Qed.

  Lemma add_cs_cases : forall (c : mgr) n p t b c' r, add_cs c n p t b = (c', r) ->
    (c' = c /\ exists e, r = Err e) \/
    (r = Ok tt /\ has_cs c n = true /\ elinked (c_edges c) n p /\
     c' = set_graph (c_nodes c) (if b then put_edges n p t (c_edges c) else put_edges p n t (c_edges c)) c) \/
    (r = Ok tt /\ ~ In n (cs_names c) /\ In p (cs_names c) /\
     c' = set_graph (c_nodes c ++ [(n, [])])
                    (if b then put_edges n p t (c_edges c) else put_edges p n t (c_edges c)) c).
  Proof.
    intros c n p t b c' r H. unfold add_cs in H.
    destruct (add_ref_conflict c t).
    { injection H as <- <-. left. eauto. }
    destruct (has_cs c n) eqn:Hn.
    - unfold is_neighbor_of in H. rewrite Hn in H. destruct (has_cs c p).
      + destruct (smem p (nbs (c_edges c) n)) eqn:Hs.
        * injection H as <- <-. right; left. apply smem_In in Hs. apply nbs_In in Hs. auto.
        * injection H as <- <-. left. eauto.
      + injection H as <- <-. left. eauto.
    - destruct (has_cs c p) eqn:Hp.
      + injection H as <- <-. right; right. apply has_cs_false in Hn. apply has_cs_In in Hp.
        rewrite dset_new by assumption. auto.
      + injection H as <- <-. left. eauto.
  Qed.

  Lemma add_cs_ctree : forall (c : mgr) n p t b, ctree c -> ctree (fst (add_cs c n p t b)).
  Proof.
    intros c n p t b [l G]. destruct (add_cs c n p t b) as [c' r] eqn:E. cbn [fst].
    apply add_cs_cases in E. destruct E as [[-> _]|[(_ & Hn & L & ->)|(_ & Hn & Hp & ->)]].
    - exists l. assumption.
    - exists l. apply gtree_update; assumption.
    - exists ((n, p) :: l). unfold ctree_by, cs_names, set_graph. cbn [c_root c_nodes c_edges].
      unfold dkeys. rewrite map_app. cbn [map fst]. apply gtree_add_leaf; assumption.
  Qed.

  (** ** parents and children *)
  Lemma get_parent_spec : forall (c : mgr) l, ctree_by c l -> forall x p, In (x, p) l ->
    get_parent c x = Ok (Some p).
  Proof.
    intros c l G x p H. unfold get_parent. assert (Gr := gt_grows _ _ _ _ G).
    destruct (grows_ends _ _ Gr _ _ H) as (A & B & C & E).
    destruct (String.eqb_spec x (c_root c)); [ congruence | ].
    apply (gt_names _ _ _ _ G) in A. assert (A' := A). apply has_cs_In in A'. rewrite A'.
    destruct (root_path_parent _ _ Gr _ _ H) as [q S].
    rewrite (gtree_sp _ _ _ _ G _ _ _ A S). reflexivity.
  Qed.

  Lemma get_parent_root : forall (c : mgr), get_parent c (c_root c) = Ok None.
  Proof. intros c. unfold get_parent. rewrite String.eqb_refl. reflexivity. Qed.

  Lemma vert_cases : forall r l x, In x (verts r l) -> x = r \/ exists p, In (x, p) l.
  Proof.
    intros r l x [<-|H]; [ auto | right ]. apply in_map_iff in H.
    destruct H as ((c, p) & E & H). cbn [fst] in E. subst. eauto.
  Qed.

  Lemma get_children_spec : forall (c : mgr) l, ctree_by c l -> forall x, In x (cs_names c) ->
    exists ch, get_children c x = Ok ch /\ NoDup ch /\ forall y, In y ch <-> In (y, x) l.
  Proof.
    intros c l G x Hx. unfold get_children, neighbors. assert (Hx' := Hx).
    apply has_cs_In in Hx'. rewrite Hx'. cbn [bind].
    assert (Gr := gt_grows _ _ _ _ G).
    assert (Nb : NoDup (nbs (c_edges c) x)) by (apply nbs_NoDup; apply (ew_keys _ (gt_ewf _ _ _ _ G))).
    assert (Ib : forall y, In y (nbs (c_edges c) x) <-> In (x, y) l \/ In (y, x) l).
    { intros y. rewrite nbs_In, (gt_adj _ _ _ _ G). reflexivity. }
    destruct (nbs (c_edges c) x) as [|n nb] eqn:En.
    - exists []. split; [ reflexivity | split; [ constructor | ] ].
      intros y. split; [ intros [] | ]. intros H. apply Ib. auto.
    - set (ns := n :: nb) in *. clearbody ns.
      assert (Hv := Hx). apply (gt_names _ _ _ _ G) in Hv. apply vert_cases in Hv.
      destruct Hv as [->|[p Hp]].
      + rewrite get_parent_root. cbn [bind is_parent negb].
        exists (filter (fun _ => true) ns). split; [ reflexivity | ].
        assert (F : filter (fun _ : string => true) ns = ns)
          by (clear; induction ns as [|y r IH]; cbn; [ reflexivity | rewrite IH; reflexivity ]).
        rewrite F. split; [ assumption | ]. intros y. rewrite Ib. split; [ | auto ].
        intros [H|H]; [ | assumption ]. exfalso. apply (grows_ends _ _ Gr) in H. intuition.
      + rewrite (get_parent_spec _ _ G _ _ Hp). cbn [bind].
        eexists. split; [ reflexivity | ]. split; [ apply NoDup_filter; assumption | ].
        intros y. rewrite filter_In, Ib. cbn [is_parent]. split.
        * intros [[H|H] K]; [ | assumption ].
          assert (y = p) as -> by (eapply grows_parent_unique; eassumption).
          rewrite String.eqb_refl in K. discriminate.
        * intros H. split; [ auto | ]. destruct (String.eqb_spec y p) as [->|]; [ | reflexivity ].
          exfalso. eapply grows_antisym; eassumption.
  Qed.

  Lemma children_of_all_spec : forall (c : mgr) l, ctree_by c l -> forall ns,
    NoDup ns -> incl ns (cs_names c) ->
    exists ch, children_of_all c ns = Ok ch /\ NoDup ch /\
               forall y, In y ch <-> exists x, In x ns /\ In (y, x) l.
  Proof.
    intros c l G. assert (Gr := gt_grows _ _ _ _ G).
    induction ns as [|n ns IH]; intros N I; cbn [children_of_all].
    - exists []. split; [ reflexivity | split; [ constructor | ] ].
      intros y. split; [ intros [] | intros (x & [] & _) ].
    - inversion N as [|? ? Nin N']; subst.
      destruct (get_children_spec _ _ G n) as (c1 & E1 & N1 & I1); [ apply I; left; reflexivity | ].
      destruct IH as (c2 & E2 & N2 & I2); [ assumption | intros x Hx; apply I; right; assumption | ].
      rewrite E1. cbn [bind]. rewrite E2. cbn [bind]. exists (c1 ++ c2).
      split; [ reflexivity | ]. split.
      + apply NoDup_app_disjoint; [ assumption | assumption | ].
        intros y H2 H1. apply I1 in H1. apply I2 in H2. destruct H2 as (x & Hx & H2).
        assert (x = n) by (eapply grows_parent_unique; eassumption). subst. contradiction.
      + intros y. rewrite in_app_iff, I1, I2. split.
        * intros [H|(x & Hx & H)]; [ exists n | exists x ]; cbn [In]; auto.
        * intros (x & [<-|Hx] & H); [ auto | right; eauto ].
  Qed.

  Lemma lev_names : forall (c : mgr) l, ctree_by c l -> forall k x y,
    lev l k x y -> In x (cs_names c) -> In y (cs_names c).
  Proof.
    intros c l G k x y H Hx. inversion H as [|? ? ? ? _ Hin]; subst; [ assumption | ].
    apply (gt_names _ _ _ _ G). apply (grows_ends _ _ (gt_grows _ _ _ _ G) _ _ Hin).
  Qed.

  Lemma descend_spec : forall (c : mgr) l, ctree_by c l -> forall x, In x (cs_names c) ->
    forall fuel k cur all, List.length l < fuel + k ->
    NoDup cur -> (forall y, In y cur <-> lev l (S k) x y) ->
    NoDup all -> (forall y, In y all <-> exists j, j <= k /\ lev l (S j) x y) ->
    exists res, descend fuel c cur all = Ok res /\ NoDup res /\
                forall y, In y res <-> exists j, lev l (S j) x y.
  Proof.
    intros c l G x Hx. assert (Gr := gt_grows _ _ _ _ G).
    induction fuel as [|fuel IH]; intros k cur all L Nc Ic Na Ia.
    - assert (cur = []) as ->.
      { destruct cur as [|y cur]; [ reflexivity | ]. exfalso.
        assert (lev l (S k) x y) as Hy by (apply Ic; left; reflexivity).
        apply (lev_bound _ _ Gr) in Hy. lia. }
      exists all. split; [ reflexivity | split; [ assumption | ] ].
      intros y. rewrite Ia. split; [ intros (j & _ & H); eauto | ].
      intros (j & H). exists j. split; [ | assumption ]. apply (lev_bound _ _ Gr) in H. lia.
    - destruct cur as [|c0 cur0] eqn:Ecur.
      + exists all. split; [ reflexivity | split; [ assumption | ] ].
        intros y. rewrite Ia. split; [ intros (j & _ & H); eauto | ].
        intros (j & H). exists j. split; [ | assumption ].
        destruct (Nat.le_gt_cases j k) as [|Hgt]; [ assumption | exfalso ].
        (* a vertex at level j > k has an ancestor at level k+1 *)
        assert (up : forall j y, lev l j x y -> S k <= j -> exists z, lev l (S k) x z).
        { clear -G. intros j. induction j as [|j IHj]; intros y H Hle; [ lia | ].
          destruct (Nat.eq_dec (S j) (S k)) as [E|E]; [ rewrite <- E; eauto | ].
          inversion H; subst. eapply IHj; [ eassumption | lia ]. }
        destruct (up (S j) y H) as [z Hz]; [ lia | ]. apply Ic in Hz. destruct Hz.
      + rewrite <- Ecur in *. assert (incl cur (cs_names c)) as Inc.
        { intros y Hy. apply Ic in Hy. eapply lev_names; eassumption. }
        destruct (children_of_all_spec _ _ G cur Nc Inc) as (new & En & Nn & In_).
        assert (Il : forall y, In y new <-> lev l (S (S k)) x y).
        { intros y. rewrite In_. split.
          - intros (z & Hz & H). apply Ic in Hz. econstructor; eassumption.
          - intros H. inversion H as [|? ? z ? Hz Hin]; subst. exists z. split; [ | assumption ].
            apply Ic. assumption. }
        assert (descend (S fuel) c cur all = descend fuel c new (all ++ new)) as ->.
        { rewrite Ecur at 1. cbn [descend]. rewrite <- Ecur. rewrite En. reflexivity. }
        apply (IH (S k)).
        * lia.
        * assumption.
        * assumption.
        * apply NoDup_app_disjoint; [ assumption | assumption | ].
          intros y H1 H2. apply Il in H1. apply Ia in H2. destruct H2 as (j & Hj & H2).
          assert (S j = S (S k)) by (eapply lev_unique; eassumption). lia.
        * intros y. rewrite in_app_iff, Ia, Il. split.
          -- intros [(j & Hj & H)|H]; [ exists j | exists (S k) ]; split; auto; lia.
          -- intros (j & Hj & H). destruct (Nat.eq_dec j (S k)) as [->|]; [ auto | left ].
             exists j. split; [ lia | assumption ].
  Qed.

  Lemma get_all_children_spec : forall (c : mgr) l, ctree_by c l -> forall x, In x (cs_names c) ->
    exists ch, get_all_children c x = Ok ch /\ NoDup ch /\
               forall y, In y ch <-> exists j, lev l (S j) x y.
  Proof.
    intros c l G x Hx. unfold get_all_children.
    destruct (get_children_spec _ _ G _ Hx) as (ch & E & N & I). rewrite E. cbn [bind].
    assert (I0 : forall y, In y ch <-> lev l 1 x y).
    { intros y. rewrite I. split.
      - intros H. econstructor; [ constructor | assumption ].
      - intros H. inversion H as [|? ? p ? H0 Hin]; subst. inversion H0; subst. assumption. }
    apply (descend_spec _ _ G _ Hx _ 0).
    - destruct (gtree_length _ _ _ _ G) as [L _]. unfold cs_names, dkeys in L.
      rewrite map_length in L. lia.
    - assumption.
    - assumption.
    - assumption.
    - intros y. rewrite I0. split; [ intros H; exists 0; auto | ].
      intros (j & Hj & H). assert (j = 0) by lia. subst. assumption.
  Qed.

  (** ** deletion *)
  Definition restrict (keep : string -> bool) (c : mgr) : mgr :=
    set_graph (filter (fun nd => keep (fst nd)) (c_nodes c)) (filter (both keep) (c_edges c)) c.

  Lemma filter_filter : forall (A : Type) (f g : A -> bool) l,
    filter f (filter g l) = filter (fun x => g x && f x) l.
  Proof.
    intros A f g l. induction l as [|x l IH]; cbn [filter]; [ reflexivity | ].
    destruct (g x); cbn [filter andb]; [ destruct (f x); rewrite IH; reflexivity | assumption ].
  Qed.

  Lemma remove_node_restrict : forall n (c : mgr),
    remove_node n c = restrict (fun m => negb (String.eqb n m)) c.
  Proof. reflexivity. Qed.

  Lemma restrict_restrict : forall f g (c : mgr),
    restrict f (restrict g c) = restrict (fun n => g n && f n) c.
  Proof.
    intros f g c. unfold restrict, set_graph. cbn [c_name c_ref c_root c_subs c_nodes c_edges].
    f_equal.
    - apply filter_filter.
    - rewrite filter_filter. apply filter_ext. intros e. unfold both.
      destruct (g (e_src e)), (g (e_dst e)), (f (e_src e)), (f (e_dst e)); reflexivity.
  Qed.

  Lemma restrict_ext : forall f g (c : mgr), (forall n, f n = g n) -> restrict f c = restrict g c.
  Proof.
    intros f g c H. unfold restrict. f_equal; apply filter_ext; intros x; unfold both; rewrite ?H; reflexivity.
  Qed.

  Lemma restrict_names : forall keep (c : mgr) x,
    In x (cs_names (restrict keep c)) <-> In x (cs_names c) /\ keep x = true.
  Proof. intros keep c x. unfold cs_names, restrict. apply filter_keys_In. Qed.

  Lemma remove_nodes_ok : forall ns (c : mgr), NoDup ns -> incl ns (cs_names c) ->
    remove_nodes ns c = (restrict (fun n => negb (smem n ns)) c, Ok tt).
  Proof.
    induction ns as [|n ns IH]; intros c N I; cbn [remove_nodes].
    - f_equal. unfold restrict, set_graph. destruct c as [nm rf rt sb nd ed]. cbn. f_equal.
      + clear. induction nd as [|x r IH]; cbn; [ reflexivity | f_equal; assumption ].
      + clear. induction ed as [|x r IH]; cbn; [ reflexivity | f_equal; assumption ].
    - inversion N as [|? ? Nin N']; subst.
      assert (has_cs c n = true) as -> by (apply has_cs_In, I; left; reflexivity).
      rewrite IH; [ | assumption | ].
      + rewrite remove_node_restrict, restrict_restrict. f_equal. apply restrict_ext.
        intros m. cbn [smem existsb]. unfold smem. rewrite negb_orb. f_equal.
        rewrite String.eqb_sym. reflexivity.
      + intros x Hx. rewrite remove_node_restrict. apply restrict_names.
        split; [ apply I; right; assumption | ].
        destruct (String.eqb_spec n x) as [->|]; [ contradiction | reflexivity ].
  Qed.

  Lemma restrict_ctree : forall (c : mgr) l keep, ctree_by c l -> keep (c_root c) = true ->
    (forall y p, In (y, p) l -> keep y = true -> keep p = true) ->
    ctree_by (restrict keep c) (filter (fun cp => keep (fst cp)) l).
  Proof.
    intros c l keep G Kr K. assert (Gr := gt_grows _ _ _ _ G). split; cbn [c_root restrict set_graph c_edges].
    - apply prune; assumption.
    - unfold cs_names, restrict. apply NoDup_filter_keys. apply G.
    - intros x. rewrite restrict_names, prune_verts by assumption.
      rewrite (gt_names _ _ _ _ G). reflexivity.
    - apply filter_ewf. apply G.
    - intros u v. rewrite filter_elinked, (gt_adj _ _ _ _ G). symmetry.
      eapply prune_adj; eassumption.
  Qed.

  (** what a successful deletion of [x] leaves *)
  Lemma keep_spec : forall l x ch, (forall y, In y ch <-> exists j, lev l (S j) x y) -> forall y,
    negb (smem y (ch ++ [x])) = true <-> ~ anc l x y.
  Proof.
    intros l x ch I y. rewrite negb_true_iff, smem_false, in_app_iff, I. cbn [In]. split.
    - intros H [k Hk]. apply H. destruct k as [|k]; [ inversion Hk; auto | left; eauto ].
    - intros H [(j & Hj)|[<-|[]]]; apply H; [ exists (S j); assumption | apply anc_refl ].
  Qed.

  Lemma set_subs_ctree : forall s (c : mgr) l, ctree_by c l -> ctree_by (set_subs s c) l.
  Proof. intros s c l G. exact G. Qed.

  Lemma restrict_set_subs : forall keep s (c : mgr),
    restrict keep (set_subs s c) = set_subs s (restrict keep c).
  Proof. reflexivity. Qed.

  (** complete description of [delete_cs] on a tree *)
  Lemma delete_cs_cases : forall (c : mgr) l x b, ctree_by c l ->
    (~ In x (cs_names c) /\ delete_cs c x b = (c, Ok tt)) \/
    (x = c_root c /\ delete_cs c x b = (c, Err ValueError)) \/
    (exists e, delete_cs c x b = (c, Err e) /\ In x (cs_names c) /\ x <> c_root c /\
       ((e = WeldxException /\ b = false /\ exists y, In (y, x) l) \/
        dropped_subs c x (c_subs c) = Err e)) \/
    (exists drop ch, In x (cs_names c) /\ x <> c_root c /\
       get_all_children c x = Ok ch /\ (b = false -> ch = []) /\
       (forall y, In y ch <-> exists j, lev l (S j) x y) /\
       dropped_subs c x (c_subs c) = Ok drop /\
       delete_cs c x b =
         (set_subs (filter (fun s => negb (smem (s_name s) drop)) (c_subs c))
                   (restrict (fun n => negb (smem n (ch ++ [x]))) c), Ok tt)).
  Proof.
    intros c l x b G. unfold delete_cs. assert (Gr := gt_grows _ _ _ _ G).
    destruct (has_cs c x) eqn:Hx; cbn [negb].
    2:{ left. apply has_cs_false in Hx. auto. }
    apply has_cs_In in Hx. right.
    destruct (String.eqb_spec x (c_root c)) as [Hr|Hr]; [ auto | right ].
    destruct (get_all_children_spec _ _ G _ Hx) as (ch & E & N & I). rewrite E.
    destruct (negb b && Nat.ltb 0 (List.length ch)) eqn:Cond.
    { left. exists WeldxException. split; [ reflexivity | ]. split; [ assumption | ].
      split; [ assumption | ]. left. split; [ reflexivity | ].
      apply andb_true_iff in Cond. destruct Cond as [B Lt]. split; [ destruct b; [ discriminate | reflexivity ] | ].
      destruct ch as [|y ch]; [ discriminate | ].
      assert (Hy : exists j, lev l (S j) x y) by (apply I; left; reflexivity).
      destruct Hy as [j Hy].
      clear -Hy. remember (S j) as k. revert j Heqk.
      induction Hy as [|k x p y H IH Hin]; intros j E; [ discriminate | ].
      destruct k as [|k]; [ inversion H; subst; eauto | eapply IH; reflexivity ]. }
    destruct (dropped_subs c x (c_subs c)) as [drop|e] eqn:Dr.
    2:{ left. exists e. auto. }
    right. exists drop, ch. split; [ assumption | ]. split; [ assumption | ].
    split; [ reflexivity | ].
    assert (Hb : b = false -> ch = []).
    { intros ->. destruct ch; [ reflexivity | discriminate ]. }
    split; [ assumption | ]. split; [ assumption | ]. split; [ reflexivity | ].
    assert (Hch : (if b then ch else []) = ch) by (destruct b; [ reflexivity | symmetry; auto ]).
    rewrite Hch. rewrite remove_nodes_ok.
    - reflexivity.
    - apply NoDup_app_disjoint; [ assumption | constructor; [ intros [] | constructor ] | ].
      intros k [<-|[]] H. apply I in H. destruct H as [j Hj].
      apply (lev_self _ _ Gr) in Hj. discriminate.
    - intros y H. apply in_app_or in H. destruct H as [H|[<-|[]]]; [ | exact Hx ].
      apply I in H. destruct H as [j Hj]. eapply lev_names; eassumption.
  Qed.

  Lemma delete_ctree_by : forall (c : mgr) l x ch, ctree_by c l -> x <> c_root c ->
    (forall y, In y ch <-> exists j, lev l (S j) x y) ->
    ctree_by (restrict (fun n => negb (smem n (ch ++ [x]))) c)
             (filter (fun cp => negb (smem (fst cp) (ch ++ [x]))) l).
  Proof.
    intros c l x ch G Hr I. assert (Gr := gt_grows _ _ _ _ G).
    assert (K := keep_spec l x ch I).
    apply (restrict_ctree c l (fun n => negb (smem n (ch ++ [x])))); [ assumption | | ].
    - apply K. intros H. apply (anc_root _ _ Gr) in H. congruence.
    - intros y p H Hy. apply K in Hy. apply K. intros H'. apply Hy. eapply anc_child; eassumption.
  Qed.

  Lemma delete_cs_ctree : forall (c : mgr) x b, ctree c -> ctree (fst (delete_cs c x b)).
  Proof.
    intros c x b [l G].
    destruct (delete_cs_cases c l x b G) as [(_ & ->)|[(_ & ->)|[(e & -> & _)|(drop & ch & Hx & Hr & _ & _ & I & _ & ->)]]];
      cbn [fst]; try (exists l; assumption).
    eexists. apply set_subs_ctree. apply delete_ctree_by; eassumption.
  Qed.

  (** ** data operations do not touch the graph *)
  Lemma set_nodes_ctree : forall (c : mgr) ns l, dkeys ns = cs_names c -> ctree_by c l ->
    ctree_by (set_nodes ns c) l.
  Proof.
    intros c ns l E G. unfold ctree_by, set_nodes, set_graph, cs_names.
    cbn [c_root c_nodes c_edges]. rewrite E. exact G.
  Qed.

  Lemma assign_data_ctree : forall f (c : mgr) v k ref tg, ctree c ->
    ctree (fst (assign_data f c v k ref tg)).
  Proof.
    intros f c v k ref tg [l G]. unfold assign_data.
    assert (P : forall n w, ctree (fst (match node_data c n with
              | None => (c, Err KeyError)
              | Some d => (set_nodes (dset n (dset k w d) (c_nodes c)) c, Ok tt)
              end))).
    { intros n w. destruct (node_data c n) as [d|] eqn:E; cbn [fst]; exists l; [ | assumption ].
      apply set_nodes_ctree; [ | assumption ]. apply dset_keys_old.
      apply dget_key. eauto. }
    destruct (smem k (data_names c)); [ exists l; assumption | ].
    destruct (negb (has_cs c ref)); [ exists l; assumption | ].
    destruct tg as [tg|]; [ | apply P ].
    destruct (negb (has_cs c tg)); [ exists l; assumption | ].
    destruct (f v ref tg); [ apply P | exists l; assumption ].
  Qed.

  Lemma pop_data_keys : forall (ns : dict (dict D)) k ns', pop_data ns k = Some ns' -> dkeys ns' = dkeys ns.
  Proof.
    induction ns as [|[n d] ns IH]; intros k ns' H; cbn [pop_data] in H; [ discriminate | ].
    destruct (dmem k d).
    - injection H as <-. reflexivity.
    - destruct (pop_data ns k) as [r|] eqn:E; [ | discriminate ]. injection H as <-.
      cbn [dkeys map fst]. f_equal. apply (IH _ _ E).
  Qed.

  Lemma delete_data_ctree : forall (c : mgr) k, ctree c -> ctree (fst (delete_data c k)).
  Proof.
    intros c k [l G]. unfold delete_data. cbn [c_nodes set_subs].
    destruct (pop_data (c_nodes c) k) as [ns|] eqn:E; cbn [fst]; exists l.
    - apply set_nodes_ctree; [ | assumption ]. apply (pop_data_keys _ _ _ E).
    - assumption.
  Qed.

  (** ** merge *)
  Lemma compose_nodes_keys : forall h (g : dict (dict D)), NoDup (dkeys g) ->
    NoDup (dkeys (compose_nodes g h)) /\
    forall x, In x (dkeys (compose_nodes g h)) <-> In x (dkeys g) \/ In x (dkeys h).
  Proof.
    unfold compose_nodes. induction h as [|[n d] h IH]; intros g N; cbn [fold_left fst snd].
    - split; [ assumption | ]. intros x. cbn [dkeys map In]. tauto.
    - destruct (IH (dset n d g)) as [N' I']; [ apply dset_keys_NoDup; assumption | ].
      split; [ assumption | ]. intros x. rewrite I', dset_keys. cbn [dkeys map fst In].
      split; intros H; intuition.
  Qed.

  Lemma single_common : forall (c o : mgr) m, filter (fun n => has_cs o n) (cs_names c) = [m] ->
    In m (cs_names c) /\ In m (cs_names o) /\
    forall x, In x (cs_names c) -> In x (cs_names o) -> x = m.
  Proof.
    intros c o m E.
    assert (I : forall x, In x (cs_names c) /\ has_cs o x = true <-> x = m).
    { intros x. assert (H := filter_In (fun n => has_cs o n) x (cs_names c)).
      rewrite E in H. cbn [In] in H. split.
      - intros K. apply H in K. destruct K as [K|[]]. symmetry. assumption.
      - intros ->. apply H. left. reflexivity. }
    destruct (proj2 (I m) eq_refl) as [A B]. apply has_cs_In in B. split; [ assumption | ].
    split; [ assumption | ]. intros x H1 H2. apply I. split; [ assumption | ].
    apply has_cs_In. assumption.
  Qed.

  Lemma gtree_ends : forall r names es l, gtree r names es l -> forall u v,
    In (u, v) (map ekey es) -> In u names /\ In v names /\ u <> v.
  Proof.
    intros r names es l G u v H. apply elinked_key in H. apply (gt_adj _ _ _ _ G) in H.
    assert (Gr := gt_grows _ _ _ _ G). destruct (adjl_verts _ _ Gr _ _ H).
    split; [ apply (gt_names _ _ _ _ G); assumption | ].
    split; [ apply (gt_names _ _ _ _ G); assumption | ].
    destruct H as [H|H]; apply (grows_ends _ _ Gr) in H; intuition.
  Qed.

  Lemma edges_disjoint : forall r1 n1 es1 l1 r2 n2 es2 l2 m,
    gtree r1 n1 es1 l1 -> gtree r2 n2 es2 l2 -> (forall x, In x n1 -> In x n2 -> x = m) ->
    forall k, In k (map ekey es2) -> ~ In k (map ekey es1).
  Proof.
    intros r1 n1 es1 l1 r2 n2 es2 l2 m G1 G2 I [u v] H2 H1.
    destruct (gtree_ends _ _ _ _ G1 _ _ H1) as (A & B & C).
    destruct (gtree_ends _ _ _ _ G2 _ _ H2) as (A' & B' & _).
    apply C. transitivity m; [ apply I; assumption | symmetry; apply I; assumption ].
  Qed.

  Lemma merge_cases : forall (c o : mgr), 
    (exists e, merge c o = (c, Err e)) \/
    (exists m dc d_o, filter (fun n => has_cs o n) (cs_names c) = [m] /\
       merge_ref_conflict c o = false /\
       (forall k, In k (data_names o) -> ~ In k (data_names c)) /\
       node_data c m = Some dc /\ node_data o m = Some d_o /\
       merge c o = (set_subs (c_subs c ++ [info_of o m])
          (set_graph (dset m (dict_join dc d_o) (compose_nodes (c_nodes c) (c_nodes o)))
                     (compose_edges (c_edges c) (c_edges o)) c), Ok tt)).
  Proof.
    intros c o. unfold merge. destruct (merge_ref_conflict c o); [ left; eauto | ].
    destruct (filter (fun n => has_cs o n) (cs_names c)) as [|m [|m' r]] eqn:F; [ left; eauto | | left; eauto ].
    destruct (existsb (fun k => smem k (data_names c)) (data_names o)) eqn:X; [ left; eauto | ].
    destruct (node_data c m) as [dc|] eqn:E1; [ | left; eauto ].
    destruct (node_data o m) as [d_o|] eqn:E2; [ | left; eauto ].
    right. exists m, dc, d_o. repeat split; auto. intros k Hk Hc.
    assert (existsb (fun k => smem k (data_names c)) (data_names o) = true); [ | congruence ].
    apply existsb_exists. exists k. split; [ assumption | apply smem_In; assumption ].
  Qed.

  Lemma merge_ctree : forall (c o : mgr), ctree c -> ctree o -> ctree (fst (merge c o)).
  Proof.
    intros c o [l G] [lo Go].
    destruct (merge_cases c o) as [[e ->]|(m & dc & d_o & F & _ & _ & E1 & E2 & ->)]; cbn [fst]; [ exists l; assumption | ].
    destruct (single_common _ _ _ F) as (Mc & Mo & Mi).
    destruct (gtree_reroot _ _ _ _ Go m Mo) as [lm Gm].
    exists (lm ++ l).
    assert (Ed := edges_disjoint _ _ _ _ _ _ _ _ m G Gm Mi).
    assert (Ec : compose_edges (c_edges c) (c_edges o) = c_edges c ++ c_edges o).
    { apply compose_edges_new; [ apply (ew_keys _ (gt_ewf _ _ _ _ Gm)) | assumption ]. }
    destruct (compose_nodes_keys (c_nodes o) (c_nodes c) (gt_nodup _ _ _ _ G)) as [Nn In_].
    split; cbn [c_root set_subs set_graph c_edges].
    - apply graft with (m := m); [ apply G | apply Gm | apply (gt_names _ _ _ _ G); assumption | ].
      intros x H1 H2. apply Mi; [ apply (gt_names _ _ _ _ G) | apply (gt_names _ _ _ _ Gm) ]; assumption.
    - unfold cs_names. cbn [c_nodes set_subs set_graph]. apply dset_keys_NoDup. assumption.
    - intros x. unfold cs_names. cbn [c_nodes set_subs set_graph]. rewrite dset_keys, In_.
      change (dkeys (c_nodes c)) with (cs_names c). change (dkeys (c_nodes o)) with (cs_names o).
      rewrite (gt_names _ _ _ _ G), (gt_names _ _ _ _ Gm). unfold verts. rewrite map_app.
      cbn [In]. rewrite in_app_iff.
      apply (gt_names _ _ _ _ G) in Mc. unfold verts in Mc. cbn [In] in Mc.
      split; intros H; intuition; subst; auto.
    - rewrite Ec. apply app_ewf; [ apply G | apply Gm | assumption ].
    - intros u v. rewrite Ec, app_elinked, adjl_app, (gt_adj _ _ _ _ G), (gt_adj _ _ _ _ Gm). tauto.
  Qed.

  (** ** remove_subsystems *)
  Lemma strip_subs_ctree : forall ss (c : mgr), ctree c -> ctree (fst (strip_subs c ss)).
  Proof.
    induction ss as [|s ss IH]; intros c [l G]; cbn [strip_subs]; [ exists l; assumption | ].
    destruct (sub_common_neighbors c s); [ | exists l; assumption ].
    destruct (node_data c (s_common s)) as [d|] eqn:E; [ | exists l; assumption ].
    match goal with |- context [strip_subs ?c1 ss] => specialize (IH c1); destruct (strip_subs c1 ss) as [c2 [q|e]] end;
      cbn [fst] in *; apply IH; exists l; (apply set_nodes_ctree; [ | assumption ]);
      apply dset_keys_old; apply dget_key; eauto.
  Qed.

  Lemma delete_all_ctree : forall ns (c : mgr), ctree c -> ctree (fst (delete_all c ns)).
  Proof.
    induction ns as [|n ns IH]; intros c G; cbn [delete_all]; [ assumption | ].
    assert (G1 := delete_cs_ctree c n true G).
    destruct (delete_cs c n true) as [c1 [u|e]]; cbn [fst] in *; [ apply IH | ]; assumption.
  Qed.

  Lemma remove_subsystems_ctree : forall (c : mgr), ctree c -> ctree (fst (remove_subsystems c)).
  Proof.
    intros c G. unfold remove_subsystems. assert (G1 := strip_subs_ctree (c_subs c) c G).
    destruct (strip_subs c (c_subs c)) as [c1 [del|e]]; cbn [fst] in *; [ | assumption ].
    apply delete_all_ctree. destruct G1 as [l G1]. exists l. exact G1.
  Qed.
End TreeInv.
