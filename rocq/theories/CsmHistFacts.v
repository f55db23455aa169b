(** Merging, adding and unmerging again. *)
From Coq Require Import List String Bool Arith Lia Permutation ZArith.
From Verif Require Import Base CsmModel CsmSpec TreeFacts CsmGraphFacts CsmTreeFacts CsmSubFacts CsmDataFacts CsmOpFacts.
Import ListNotations.

Lemma dict_ext : forall (V : Type) (a b : dict V), dkeys a = dkeys b -> NoDup (dkeys a) ->
  (forall k, dget k a = dget k b) -> a = b.
Proof.
  intros V. induction a as [|[k v] a IH]; intros [|[k' v'] b] E N H; try discriminate; [ reflexivity | ].
  cbn [dkeys map fst] in E. injection E as E1 E2. subst k'.
  inversion N as [|? ? Nin N']; subst.
  assert (v = v') as ->.
  { assert (Hk := H k). cbn [dget] in Hk. rewrite String.eqb_refl in Hk. congruence. }
  f_equal. apply IH; [ exact E2 | exact N' | ]. intros x.
  assert (Hx := H x). cbn [dget] in Hx. destruct (String.eqb_spec x k) as [E|]; [ | exact Hx ].
  rewrite E. assert (dget k a = None) as -> by (apply dget_none; exact Nin).
  symmetry. apply dget_none. unfold dkeys in *. rewrite <- E2. exact Nin.
Qed.

Lemma filter_all : forall (A : Type) (f : A -> bool) l, (forall x, In x l -> f x = true) -> filter f l = l.
Proof.
  intros A f. induction l as [|x l IH]; intros H; cbn [filter]; [ reflexivity | ].
  rewrite H by (left; reflexivity). f_equal. apply IH. intros y Hy. apply H. right; exact Hy.
Qed.

Lemma filter_nothing : forall (A : Type) (f : A -> bool) l, (forall x, In x l -> f x = false) -> filter f l = [].
Proof.
  intros A f. induction l as [|x l IH]; intros H; cbn [filter]; [ reflexivity | ].
  rewrite H by (left; reflexivity). apply IH. intros y Hy. apply H. right; exact Hy.
Qed.

Section Hist.
  Context {T D : Type} {ops : LcsOps T}.
  Notation mgr := (csm T D).

  (** ** normal forms of the two operations *)
  Lemma merge_shape : forall (c o : mgr) l, ctree_by c l -> ctree o -> duniq o -> snd (merge c o) = Ok tt ->
    exists m dc d_o lm,
      In m (cs_names c) /\ In m (cs_names o) /\
      (forall x, In x (cs_names c) -> In x (cs_names o) -> x = m) /\
      (forall k, In k (data_names o) -> ~ In k (data_names c)) /\
      node_data c m = Some dc /\ node_data o m = Some d_o /\
      gtree m (cs_names o) (c_edges o) lm /\
      fst (merge c o) =
        Csm (c_name c) (c_ref c) (c_root c) (c_subs c ++ [info_of o m])
            (dset m (dc ++ d_o) (c_nodes c) ++ ddel m (c_nodes o)) (c_edges c ++ c_edges o) /\
      ctree_by (fst (merge c o)) (lm ++ l).
  Proof.
    intros c o l G [lo Go] Uo Hok.
    destruct (merge_cases c o) as [[e E]|(m & dc & d_o & F & _ & Hd & E1 & E2 & E)].
    { rewrite E in Hok. discriminate. }
    destruct (single_common _ _ _ F) as (Mc & Mo & Mi).
    destruct (gtree_reroot _ _ _ _ Go m Mo) as [lm Gm].
    assert (Ed := edges_disjoint _ _ _ _ _ _ _ _ m G Gm Mi).
    assert (Ec : compose_edges (c_edges c) (c_edges o) = c_edges c ++ c_edges o).
    { apply compose_edges_new; [ apply (ew_keys _ (gt_ewf _ _ _ _ Gm)) | assumption ]. }
    assert (Sh : fst (merge c o) =
        Csm (c_name c) (c_ref c) (c_root c) (c_subs c ++ [info_of o m])
            (dset m (dc ++ d_o) (c_nodes c) ++ ddel m (c_nodes o)) (c_edges c ++ c_edges o)).
    { rewrite E. cbn [fst]. unfold set_subs, set_graph. cbn [c_name c_ref c_root c_subs c_nodes c_edges].
      rewrite Ec. rewrite (merge_nodes c o l lo m dc d_o G Go Uo F Hd E1 E2). reflexivity. }
    exists m, dc, d_o, lm. do 7 (split; [ assumption | ]). split; [ exact Sh | ].
    rewrite Sh. split; cbn [c_root c_edges].
    - apply graft with (m := m); [ apply G | apply Gm | apply (gt_names _ _ _ _ G); assumption | ].
      intros x H1 H2. apply Mi; [ apply (gt_names _ _ _ _ G) | apply (gt_names _ _ _ _ Gm) ]; assumption.
    - unfold cs_names. cbn [c_nodes]. unfold dkeys. rewrite map_app. apply NoDup_app_disjoint.
      + apply dset_keys_NoDup. apply G.
      + apply (NoDup_filter_keys _ (fun k => negb (String.eqb m k))). apply Go.
      + intros k H K. apply (filter_keys_In _ (fun k => negb (String.eqb m k))) in H. destruct H as [H Hm].
        apply dset_keys in K. destruct K as [->|K]; [ rewrite String.eqb_refl in Hm; discriminate | ].
        rewrite (Mi k K H), String.eqb_refl in Hm. discriminate.
    - intros x. unfold cs_names. cbn [c_nodes]. unfold dkeys. rewrite map_app, in_app_iff.
      change (map fst (dset m (dc ++ d_o) (c_nodes c))) with (dkeys (dset m (dc ++ d_o) (c_nodes c))).
      rewrite dset_keys. unfold ddel.
      change (map fst (filter (fun p : string * dict D => negb (String.eqb m (fst p))) (c_nodes o)))
        with (dkeys (filter (fun p : string * dict D => negb (String.eqb m (fst p))) (c_nodes o))).
      rewrite (filter_keys_In _ (fun k => negb (String.eqb m k))).
      change (dkeys (c_nodes c)) with (cs_names c). change (dkeys (c_nodes o)) with (cs_names o).
      rewrite (gt_names _ _ _ _ G), (gt_names _ _ _ _ Gm).
      apply (gt_names _ _ _ _ G) in Mc. unfold verts in *. rewrite map_app.
      cbn [In] in *. rewrite in_app_iff. split.
      + intros [[->|H]|[[->|H] K]]; try tauto. 
      + intros [->|[H|H]]; [ tauto | | tauto ].
        destruct (String.eqb_spec m x) as [->|]; [ tauto | ]. right. split; [ tauto | reflexivity ].
    - apply app_ewf; [ apply G | apply Gm | assumption ].
    - intros u v. rewrite app_elinked, adjl_app, (gt_adj _ _ _ _ G), (gt_adj _ _ _ _ Gm). tauto.
  Qed.

  Lemma put_edges_fresh : forall (es : list (edge T)) a b t, a <> b ->
    ~ elinked es a b -> ~ elinked es b a ->
    put_edges a b t es = es ++ [Edge a b (Some t) true; Edge b a (reverse_tr t) false].
  Proof.
    intros es a b t Hab H1 H2. unfold put_edges.
    rewrite (set_edge_new (Edge a b (Some t) true)).
    - rewrite set_edge_new; [ rewrite <- app_assoc; reflexivity | ].
      rewrite map_app, in_app_iff. cbn [map In ekey e_src e_dst].
      intros [H|[H|[]]]; [ | injection H as E1 E2; congruence ].
      apply H2. apply elinked_key. exact H.
    - intros H. apply H1. apply elinked_key. exact H.
  Qed.

  Lemma add_shape : forall (c : mgr) l n p t b, ctree_by c l -> ~ In n (cs_names c) ->
    snd (add_cs c n p t b) = Ok tt ->
    In p (cs_names c) /\ exists e1 e2, ((e_src e1 = n /\ e_dst e1 = p) \/ (e_src e1 = p /\ e_dst e1 = n)) /\
      e_src e2 = e_dst e1 /\ e_dst e2 = e_src e1 /\
      fst (add_cs c n p t b) = Csm (c_name c) (c_ref c) (c_root c) (c_subs c)
         (c_nodes c ++ [(n, [])]) (c_edges c ++ [e1; e2]) /\
      ctree_by (fst (add_cs c n p t b)) ((n, p) :: l).
  Proof.
    intros c l n p t b G Hn Hok.
    destruct (add_cs c n p t b) as [c' r] eqn:E. cbn [fst snd] in *.
    apply add_cs_cases in E. destruct E as [[_ [e ->]]|[(_ & Hc & _)|(_ & _ & Hp & ->)]].
    - discriminate.
    - apply has_cs_In in Hc. contradiction.
    - split; [ exact Hp | ].
      assert (Hnp : n <> p) by (intros ->; contradiction).
      assert (No : forall x, ~ elinked (c_edges c) n x /\ ~ elinked (c_edges c) x n).
      { intros x. split; intros H; apply elinked_key in H; apply (gtree_ends _ _ _ _ G) in H; tauto. }
      destruct (No p) as [No1 No2].
      assert (Ct : ctree_by (set_graph (c_nodes c ++ [(n, [])])
           (if b then put_edges n p t (c_edges c) else put_edges p n t (c_edges c)) c) ((n, p) :: l)).
      { unfold ctree_by, cs_names, set_graph. cbn [c_root c_nodes c_edges].
        unfold dkeys. rewrite map_app. cbn [map fst]. apply gtree_add_leaf; assumption. }
      destruct b.
      + rewrite put_edges_fresh in * by auto.
        exists (Edge n p (Some t) true), (Edge p n (reverse_tr t) false).
        split; [ left; split; reflexivity | ]. cbn [e_src e_dst].
        split; [ reflexivity | ]. split; [ reflexivity | ]. split; [ reflexivity | exact Ct ].
      + rewrite put_edges_fresh in * by auto.
        exists (Edge p n (Some t) true), (Edge n p (reverse_tr t) false).
        split; [ right; split; reflexivity | ]. cbn [e_src e_dst].
        split; [ reflexivity | ]. split; [ reflexivity | ]. split; [ reflexivity | exact Ct ].
  Qed.

  (** ** the deletions at the end of [remove_subsystems] *)
  Lemma anc_prune : forall l (keep : string -> bool) x y,
    (forall y p, In (y, p) l -> keep y = true -> keep p = true) -> keep y = true ->
    (anc (filter (fun cp => keep (fst cp)) l) x y <-> anc l x y).
  Proof.
    intros l keep x y K Hy. split; intros [k Hk]; exists k.
    - clear Hy. induction Hk as [x|k x p y H IH Hin]; [ constructor | ].
      apply filter_In in Hin. econstructor; [ exact IH | apply Hin ].
    - induction Hk as [x|k x p y H IH Hin]; [ constructor | ].
      econstructor; [ apply IH; eapply K; eassumption | ]. apply filter_In. auto.
  Qed.

  Lemma delete_all_spec : forall ns (c : mgr) l, ctree_by c l -> c_subs c = [] ->
    (forall x, In x ns -> x <> c_root c) ->
    exists keep, delete_all c ns = (restrict keep c, Ok tt) /\
      forall y, In y (cs_names c) -> (keep y = true <-> forall x, In x ns -> ~ anc l x y).
  Proof.
    induction ns as [|x ns IH]; intros c l G S Hr; cbn [delete_all].
    - exists (fun _ => true). split.
      + f_equal. unfold restrict, set_graph. destruct c as [nm rf rt sb nd ed]. cbn.
        f_equal; symmetry; apply filter_all; reflexivity.
      + intros y Hy. split; [ intros _ z [] | reflexivity ].
    - assert (Gr := gt_grows _ _ _ _ G).
      destruct (delete_cs_cases c l x true G) as [(N & E)|[(E & _)|[(e & _ & _ & _ & [(_ & B & _)|Dr])|(drop & ch & Hx & Hxr & _ & _ & I & Dr & E)]]].
      + rewrite E. destruct (IH c l G S) as (keep & Ek & K); [ intros z Hz; apply Hr; right; exact Hz | ].
        exists keep. split; [ exact Ek | ]. intros y Hy. rewrite (K y Hy). split.
        * intros H z [<-|Hz]; [ | auto ]. intros A. apply N.
          destruct A as [k Hk]. clear -G Hy Hk Gr. induction Hk as [z|k z p y H IHk Hin]; [ exact Hy | ].
          apply IHk. apply (gt_names _ _ _ _ G). apply (grows_ends _ _ Gr _ _ Hin).
        * intros H z Hz. apply H. right; exact Hz.
      + exfalso. apply (Hr x (or_introl eq_refl)). exact E.
      + discriminate.
      + rewrite S in Dr. discriminate.
      + rewrite E. rewrite S. cbn [filter].
        set (k1 := fun n => negb (smem n (ch ++ [x]))) in *.
        assert (K1 : forall y, k1 y = true <-> ~ anc l x y) by (apply keep_spec; exact I).
        assert (Up : forall y p, In (y, p) l -> k1 y = true -> k1 p = true).
        { intros y p H Hy. apply K1 in Hy. apply K1. intros A. apply Hy. eapply anc_child; eassumption. }
        assert (G1 := delete_ctree_by c l x ch G Hxr I). fold k1 in G1.
        destruct (IH (set_subs [] (restrict k1 c)) _ (set_subs_ctree [] _ _ G1) eq_refl) as (keep & Ek & K).
        { intros z Hz. apply Hr. right; exact Hz. }
        exists (fun n => k1 n && keep n). split.
        * rewrite Ek. rewrite restrict_set_subs, restrict_restrict. f_equal.
          unfold set_subs, restrict, set_graph. cbn [c_name c_ref c_root c_subs c_nodes c_edges]. rewrite S. reflexivity.
        * intros y Hy. rewrite andb_true_iff. split.
          -- intros [A1 A2] z [<-|Hz]; [ apply K1; exact A1 | ].
             assert (Hy1 : In y (cs_names (set_subs [] (restrict k1 c)))) by (apply (restrict_names k1 c); auto).
             apply (K y Hy1) with (x := z) in A2; [ | exact Hz ].
             intros A. apply A2. apply (anc_prune l k1 z y); assumption.
          -- intros H. assert (A1 : k1 y = true) by (apply K1; apply H; left; reflexivity).
             split; [ exact A1 | ].
             assert (Hy1 : In y (cs_names (set_subs [] (restrict k1 c)))) by (apply (restrict_names k1 c); auto).
             apply (K y Hy1). intros z Hz A. apply (H z (or_intror Hz)).
             apply (anc_prune l k1 z y) in A; assumption.
  Qed.

  Definition strip (ss : list subinfo) (n : string) (d : dict D) : dict D :=
    filter (fun kv => negb (existsb (fun s => String.eqb n (s_common s) && smem (fst kv) (s_data s)) ss)) d.

  Lemma strip_subs_spec : forall ss (c : mgr), (forall s, In s ss -> In (s_common s) (cs_names c)) ->
    exists q, snd (strip_subs c ss) = Ok q /\
      (forall x, In x q <-> exists s, In s ss /\ In x (s_members s) /\ elinked (c_edges c) (s_common s) x) /\
      forall n, node_data (fst (strip_subs c ss)) n = option_map (strip ss n) (node_data c n).
  Proof.
    induction ss as [|s ss IH]; intros c H; cbn [strip_subs].
    - exists []. split; [ reflexivity | ]. split.
      + intros x. split; [ intros [] | intros (s & [] & _) ].
      + intros n. cbn [fst]. destruct (node_data c n) as [d|]; cbn [option_map]; [ | reflexivity ].
        unfold strip. cbn [existsb negb]. rewrite filter_all by reflexivity. reflexivity.
    - assert (Hs := H s (or_introl eq_refl)).
      unfold sub_common_neighbors. assert (has_cs c (s_common s) = true) as -> by (apply has_cs_In; exact Hs).
      unfold cs_names in Hs. apply dget_key in Hs. destruct Hs as [d Ed]. fold (node_data c (s_common s)) in Ed.
      rewrite Ed. cbv zeta.
      set (d' := filter (fun kv : string * D => negb (smem (fst kv) (sub_common_data d s))) d).
      match goal with |- context [strip_subs ?x ss] => set (c1 := x) end.
      destruct (IH c1) as (q & Eq & Iq & Dq).
      { intros s' Hs'. unfold c1, cs_names. cbn [c_nodes set_nodes set_graph]. apply dset_keys.
        right. apply H. right; exact Hs'. }
      destruct (strip_subs c1 ss) as [c2 r2]. cbn [fst snd] in *. rewrite Eq. cbn [fst snd].
      exists (filter (fun n => smem n (s_members s)) (nbs (c_edges c) (s_common s)) ++ q).
      split; [ reflexivity | ]. split.
      + intros x. rewrite in_app_iff, filter_In, nbs_In, smem_In, Iq. split.
        * intros [[L M]|(s' & Hs' & K)]; [ exists s; split; [ left; reflexivity | auto ] | ].
          exists s'. split; [ right; exact Hs' | exact K ].
        * intros (s' & [<-|Hs'] & M & L); [ left; auto | right; exists s'; auto ].
      + intros n. rewrite Dq. unfold c1. rewrite node_data_set_nodes.
        destruct (String.eqb_spec n (s_common s)) as [->|Hn].
        * rewrite Ed. cbn [option_map]. f_equal. unfold strip, d'. rewrite filter_filter.
          apply filter_ext_in. intros [k v] Hk. cbn [fst existsb]. rewrite String.eqb_refl. cbn [andb].
          rewrite negb_orb. f_equal. f_equal. unfold sub_common_data.
          apply eq_true_iff_eq. rewrite !smem_In, filter_In, smem_In. split; [ tauto | ].
          intros Hd. split; [ | exact Hd ]. apply in_map_iff. exists (k, v). auto.
        * destruct (node_data c n) as [dn|]; cbn [option_map]; [ | reflexivity ]. f_equal.
          unfold strip. apply filter_ext. intros kv. cbn [existsb].
          destruct (String.eqb_spec n (s_common s)); [ contradiction | ]. reflexivity.
  Qed.

  (** [unmerge] never raises on a manager whose subsystems are intact *)
  Lemma remove_subsystems_ok : forall (c : mgr), ctree c -> cswf c -> snd (remove_subsystems c) = Ok tt.
  Proof.
    intros c [l G] W. unfold remove_subsystems.
    destruct (strip_subs_spec (c_subs c) c) as (q & Eq & Iq & _).
    { intros s Hs. apply (sw_incl _ _ _ _ W s Hs). apply (sw_in _ _ _ _ W s s Hs (w_refl s)). }
    destruct (strip_subs_same (c_subs c) c) as (P1 & P2 & P3 & P4 & P5 & P6).
    destruct (strip_subs c (c_subs c)) as [c1 r1]. cbn [fst snd] in *. rewrite Eq.
    assert (G1 : ctree_by (set_subs [] c1) l).
    { unfold ctree_by. cbn [c_root c_edges set_subs]. rewrite P1, P3.
      change (cs_names (set_subs [] c1)) with (cs_names c1). rewrite P2. exact G. }
    destruct (delete_all_spec q (set_subs [] c1) l G1 eq_refl) as (keep & Ed & K).
    { intros x Hx Er. apply Iq in Hx. destruct Hx as (s & Hs & Hm & L).
      cbn [c_root set_subs] in Er. rewrite P1 in Er. subst x.
      apply elinked_key in L. apply (gtree_ends _ _ _ _ G) in L. destruct L as (_ & _ & L).
      apply L. symmetry. apply (sw_incl _ _ _ _ W s Hs). exact Hm. }
    rewrite Ed. reflexivity.
  Qed.

  Lemma extract_subs_some : forall (c : mgr) ss, (forall s, In s ss -> exists sub, extract_sub c s = Ok sub) ->
    exists subs, extract_subs c ss = Ok subs /\ Forall2 (fun s sub => extract_sub c s = Ok sub) ss subs.
  Proof.
    induction ss as [|s ss IH]; intros H.
    - exists []. split; [ reflexivity | constructor ].
    - destruct (H s (or_introl eq_refl)) as [x Ex]. destruct IH as (y & Ey & F).
      { intros s' Hs'. apply H. right; exact Hs'. }
      exists (x :: y). cbn [extract_subs]. rewrite Ex, Ey. split; [ reflexivity | constructor; assumption ].
  Qed.

  Lemma unmerge_ok : forall (c : mgr), ctree c -> cswf c -> exists subs,
    snd (unmerge c) = Ok subs /\ Forall2 (fun s sub => extract_sub c s = Ok sub) (c_subs c) subs.
  Proof.
    intros c G W. unfold unmerge, subsystems.
    destruct (extract_subs_some c (c_subs c)) as (subs & E & F).
    { intros s Hs. destruct (extract_ok c s G W Hs) as (sub & Ex & _). eauto. }
    rewrite E. assert (R := remove_subsystems_ok c G W).
    destruct (remove_subsystems c) as [c1 r]. cbn [snd] in R. rewrite R. exists subs. split; [ reflexivity | exact F ].
  Qed.

  (** ** invariant of histories *)
  Record merged_at (c : mgr) (s : subinfo) (o : mgr) : Prop := {
    ma_reach : reachable o;
    ma_info : s = info_of o (s_common s);
    ma_common : In (s_common s) (cs_names o);
    ma_names : incl (cs_names o) (cs_names c);
    ma_edges : filter (both (fun n => smem n (cs_names o))) (c_edges c) = c_edges o;
    ma_data : incl (data_names o) (data_names c);
    ma_cdata : exists d d_o, node_data c (s_common s) = Some d /\ node_data o (s_common s) = Some d_o /\
                 filter (fun kv => smem (fst kv) (data_names o)) d = d_o
  }.

  Record hinv (strict : bool) (c0 c : mgr) (own : list string) (ms : list mgr) (l : list (string * string)) : Prop := {
    hi_tree : ctree_by c l;
    hi_swf : cswf c;
    hi_uniq : duniq c;
    hi_head : c_name c = c_name c0 /\ c_ref c = c_ref c0 /\ c_root c = c_root c0;
    hi_own : filter (fun n => smem n own) (cs_names c) = own;
    hi_root : In (c_root c) own;
    hi_up : forall y p, In (y, p) l -> In y own -> In p own;
    hi_cover : forall y, In y (cs_names c) -> ~ In y own ->
       exists s x, In s (c_subs c) /\ In x (s_members s) /\ elinked (c_edges c) (s_common s) x /\ anc l x y;
    hi_sub_own : forall s x, In s (c_subs c) -> In x (s_members s) -> x <> s_common s -> ~ In x own;
    hi_subs : Forall2 (merged_at c) (c_subs c) ms;
    hi_strict : strict = true -> Forall2 (fun s o => In (s_common s) own /\
       forall n, In n (cs_names o) -> n <> s_common s -> node_data c n = node_data o n) (c_subs c) ms;
    hi_ext : exists ext ad, own = cs_names c0 ++ ext /\
       filter (both (fun n => smem n own)) (c_edges c) = c_edges c0 ++ ad /\ (ext = [] -> ad = []);
    hi_base : forall s k, In s (c_subs c) -> In k (s_data s) -> ~ In k (data_names c0);
    hi_data : forall n, In n own -> exists ex,
       node_data c n = Some ((match node_data c0 n with Some d => d | None => [] end) ++ ex) /\
       forall k, In k (dkeys ex) -> exists s, In s (c_subs c) /\ s_common s = n /\ In k (s_data s);
    hi_new : forall n, In n own -> In n (cs_names c0) \/ node_data c0 n = None
  }.

  Lemma both_smem : forall (e : edge T) ns, both (fun n => smem n ns) e = true <->
    In (e_src e) ns /\ In (e_dst e) ns.
  Proof. intros e ns. unfold both. rewrite andb_true_iff, !smem_In. reflexivity. Qed.

  Lemma both_smem_false : forall (e : edge T) ns, both (fun n => smem n ns) e = false <->
    ~ (In (e_src e) ns /\ In (e_dst e) ns).
  Proof. intros e ns. rewrite <- both_smem. destruct (both _ e); split; congruence. Qed.

  Lemma edge_ends : forall r names (es : list (edge T)) l, gtree r names es l -> forall e, In e es ->
    In (e_src e) names /\ In (e_dst e) names /\ e_src e <> e_dst e.
  Proof.
    intros r names es l G e H. apply (gtree_ends _ _ _ _ G). apply elinked_key. exists e. auto.
  Qed.

  Lemma hinv_start : forall strict (c0 : mgr) l, ctree_by c0 l -> duniq c0 -> c_subs c0 = [] ->
    hinv strict c0 c0 (cs_names c0) [] l.
  Proof.
    intros strict c0 l G U S.
    assert (Fa : filter (fun n => smem n (cs_names c0)) (cs_names c0) = cs_names c0).
    { apply filter_all. intros x Hx. apply smem_In. exact Hx. }
    split; auto.
    - unfold cswf. rewrite S. apply swf_nil.
    - apply (gt_names _ _ _ _ G). left; reflexivity.
    - intros y p H Hy. apply (gt_names _ _ _ _ G). apply (grows_ends _ _ (gt_grows _ _ _ _ G) _ _ H).
    - intros y H1 H2. contradiction.
    - rewrite S. intros s x [].
    - rewrite S. constructor.
    - rewrite S. constructor.
    - exists [], []. split; [ rewrite app_nil_r; reflexivity | ]. split; [ | reflexivity ].
      rewrite app_nil_r. apply filter_all. intros e He. apply both_smem.
      destruct (edge_ends _ _ _ _ G e He) as (A & B & _). auto.
    - rewrite S. intros s k [].
    - intros n Hn. exists []. split; [ | intros k [] ]. rewrite app_nil_r.
      unfold cs_names in Hn. apply dget_key in Hn. destruct Hn as [d E]. unfold node_data. rewrite E. reflexivity.
  Qed.

  Lemma node_data_names : forall (c : mgr) n, In n (cs_names c) <-> exists d, node_data c n = Some d.
  Proof. intros c n. unfold cs_names, node_data. rewrite <- dget_key. reflexivity. Qed.

  Lemma Forall2_mono : forall (A B : Type) (P Q : A -> B -> Prop) a b, (forall x y, In x a -> In y b -> P x y -> Q x y) ->
    Forall2 P a b -> Forall2 Q a b.
  Proof.
    intros A B P Q a b H F. induction F as [|x y a b Pxy F IH]; constructor.
    - apply H; [ left; reflexivity | left; reflexivity | exact Pxy ].
    - apply IH. intros x' y' Hx Hy. apply H; right; assumption.
  Qed.

  Lemma merged_at_merge : forall (c o : mgr) c' m dc d_o l s o', 
    ctree_by c l -> ctree o -> duniq o ->
    (forall x, In x (cs_names c) -> In x (cs_names o) -> x = m) ->
    (forall k, In k (data_names o) -> ~ In k (data_names c)) ->
    node_data c m = Some dc -> node_data o m = Some d_o ->
    c' = Csm (c_name c) (c_ref c) (c_root c) (c_subs c ++ [info_of o m])
            (dset m (dc ++ d_o) (c_nodes c) ++ ddel m (c_nodes o)) (c_edges c ++ c_edges o) ->
    (forall n, node_data c' n = if String.eqb n m then Some (dc ++ d_o)
      else match node_data c n with Some d => Some d | None => node_data o n end) ->
    (forall x, In x (cs_names c') <-> In x (cs_names c) \/ In x (cs_names o)) ->
    (forall k, In k (data_names c') <-> In k (data_names c) \/ In k (data_names o)) ->
    merged_at c s o' -> merged_at c' s o'.
  Proof.
    intros c o c' m dc d_o l s o' G [lo Go] Uo Mi Hd E1 E2 Sh Nd Nn Dn [R I C N E Dt (d & d0 & F1 & F2 & F3)].
    split; [ exact R | exact I | exact C | | | | ].
    - intros x Hx. apply Nn. left. apply N; exact Hx.
    - rewrite Sh. cbn [c_edges]. rewrite filter_app, E.
      rewrite (filter_nothing _ _ (c_edges o)); [ apply app_nil_r | ].
      intros e He. apply both_smem_false. intros [H1 H2].
      destruct (edge_ends _ _ _ _ Go e He) as (A & B & K). apply K.
      rewrite (Mi _ (N _ H1) A), (Mi _ (N _ H2) B). reflexivity.
    - intros k Hk. apply Dn. left. apply Dt; exact Hk.
    - rewrite Nd. destruct (String.eqb_spec (s_common s) m) as [Em|Em].
      + exists (dc ++ d_o), d0. split; [ reflexivity | ]. split; [ exact F2 | ].
        rewrite Em in F1. assert (dc = d) as -> by congruence.
        rewrite filter_app, F3. rewrite (filter_nothing _ _ d_o); [ apply app_nil_r | ].
        intros [k v] Hk. cbn [fst]. apply smem_false. intros H. apply Dt in H.
        apply (Hd k); [ | exact H ]. eapply data_in_node; [ exact E2 | ]. apply in_map_iff. exists (k, v). auto.
      + exists d, d0. rewrite F1. auto.
  Qed.

  Lemma hinv_merge : forall strict (c0 c : mgr) own ms l o, hinv strict c0 c own ms l ->
    reachable o -> snd (merge c o) = Ok tt ->
    (strict = true -> forall m, In m (cs_names c) -> In m (cs_names o) -> In m own) ->
    exists l', hinv strict c0 (fst (merge c o)) own (ms ++ [o]) l'.
  Proof.
    intros strict c0 c own ms l o H Ro Hok Hs.
    destruct (reachable_inv o Ro) as [Go Wo]. assert (Uo := reachable_duniq o Ro).
    assert (G := hi_tree _ _ _ _ _ _ H).
    destruct (merge_shape c o l G Go Uo Hok) as (m & dc & d_o & lm & Mc & Mo & Mi & Hd & E1 & E2 & Gm & Sh & Gt).
    assert (W' := merge_swf c o (ex_intro _ l G) (hi_swf _ _ _ _ _ _ H) Go Wo).
    assert (U' := merge_duniq c o (ex_intro _ l G) Go (hi_uniq _ _ _ _ _ _ H) Uo).
    assert (P := merge_data_names c o (ex_intro _ l G) Go Uo Hok).
    set (c' := fst (merge c o)) in *.
    assert (Nd : forall n, node_data c' n = if String.eqb n m then Some (dc ++ d_o)
      else match node_data c n with Some d => Some d | None => node_data o n end).
    { intros n. rewrite Sh. unfold node_data at 1. cbn [c_nodes].
      rewrite (dget_app (V := dict D)), (dget_dset (dict D)).
      destruct (String.eqb_spec n m) as [->|Hn]; [ reflexivity | ].
      unfold node_data. destruct (dget n (c_nodes c)) as [x|]; [ reflexivity | ].
      rewrite (dget_ddel (dict D)). destruct (String.eqb_spec m n); [ congruence | reflexivity ]. }
    assert (Nn : forall x, In x (cs_names c') <-> In x (cs_names c) \/ In x (cs_names o)).
    { intros x. rewrite (node_data_names c'), Nd. split.
      - intros [d E]. destruct (String.eqb_spec x m) as [->|]; [ auto | ].
        destruct (node_data c x) eqn:Ex; [ left; apply node_data_names; eauto | right; apply node_data_names; eauto ].
      - intros K. destruct (String.eqb_spec x m) as [->|]; [ eauto | ].
        destruct (node_data c x) eqn:Ex; [ eauto | ].
        destruct K as [K|K]; apply node_data_names in K; destruct K as [d K]; [ congruence | eauto ]. }
    assert (Dn : forall k, In k (data_names c') <-> In k (data_names c) \/ In k (data_names o)).
    { intros k. rewrite <- in_app_iff. split; apply Permutation_in; [ exact P | apply Permutation_sym; exact P ]. }
    assert (Subs : c_subs c' = c_subs c ++ [info_of o m]) by (rewrite Sh; reflexivity).
    assert (Lk : forall u v, elinked (c_edges c') u v <-> elinked (c_edges c) u v \/ elinked (c_edges o) u v).
    { intros u v. rewrite Sh. cbn [c_edges]. apply app_elinked. }
    assert (Oin : forall x, In x own -> In x (cs_names c)).
    { intros x Hx. rewrite <- (hi_own _ _ _ _ _ _ H) in Hx. apply filter_In in Hx. apply Hx. }
    assert (Grm := gt_grows _ _ _ _ Gm).
    assert (Lm : forall y p, In (y, p) lm -> In y (cs_names o) /\ In p (cs_names o) /\ y <> m).
    { intros y p K. destruct (grows_ends _ _ Grm _ _ K) as (A & B & _ & C).
      split; [ apply (gt_names _ _ _ _ Gm); exact A | ]. split; [ apply (gt_names _ _ _ _ Gm); exact B | exact C ]. }
    exists (lm ++ l). split.
    - exact Gt.
    - exact W'.
    - exact U'.
    - rewrite Sh. apply (hi_head _ _ _ _ _ _ H).
    - rewrite Sh. unfold cs_names at 1. cbn [c_nodes]. unfold dkeys. rewrite map_app.
      change (map fst (dset m (dc ++ d_o) (c_nodes c))) with (dkeys (dset m (dc ++ d_o) (c_nodes c))).
      rewrite dset_keys_old by exact Mc. rewrite filter_app.
      change (dkeys (c_nodes c)) with (cs_names c). rewrite (hi_own _ _ _ _ _ _ H).
      rewrite filter_nothing; [ apply app_nil_r | ]. intros x Hx. apply smem_false. intros Hxo.
      unfold ddel in Hx. apply (filter_keys_In _ (fun k => negb (String.eqb m k))) in Hx. destruct Hx as [Hx Hm].
      rewrite (Mi x (Oin x Hxo) Hx), String.eqb_refl in Hm. discriminate.
    - rewrite Sh. apply (hi_root _ _ _ _ _ _ H).
    - intros y p K Hy. apply in_app_iff in K. destruct K as [K|K]; [ | eapply (hi_up _ _ _ _ _ _ H); eassumption ].
      exfalso. destruct (Lm _ _ K) as (A & _ & C). apply C. apply Mi; [ apply Oin; exact Hy | exact A ].
    - intros y Hy Hyo. apply Nn in Hy.
      destruct (in_dec string_dec y (cs_names c)) as [Hyc|Hyc].
      + destruct (hi_cover _ _ _ _ _ _ H y Hyc Hyo) as (s & x & A & B & C & A').
        exists s, x. split; [ rewrite Subs; apply in_app_iff; auto | ]. split; [ exact B | ].
        split; [ apply Lk; auto | ]. destruct A' as [k Hk]. exists k.
        clear -Hk. induction Hk as [x|k x p y H IH Hin]; [ constructor | ].
        econstructor; [ exact IH | apply in_app_iff; auto ].
      + destruct Hy as [Hy|Hy]; [ contradiction | ].
        assert (Hym : y <> m) by (intros ->; contradiction).
        assert (Hc : exists x, In (x, m) lm /\ anc lm x y).
        { apply (gt_names _ _ _ _ Gm) in Hy. clear -Hy Hym Grm.
          revert y Hy Hym. induction Grm as [|c p k Gk IH Hp Hc]; intros y Hy Hym.
          - destruct Hy as [<-|[]]. congruence.
          - assert (up : forall x z, anc k x z -> anc ((c, p) :: k) x z).
            { intros x z [j Hj]. exists j. clear -Hj. induction Hj as [x|j x q z H IH Hin]; [ constructor | ].
              econstructor; [ exact IH | right; exact Hin ]. }
            destruct (string_dec y c) as [->|Hyc].
            + destruct (string_dec p m) as [->|Hpm].
              * exists c. split; [ left; reflexivity | apply anc_refl ].
              * destruct (IH p Hp Hpm) as (x & A & B). exists x. split; [ right; exact A | ].
                eapply anc_child; [ left; reflexivity | apply up; exact B ].
            + destruct Hy as [<-|[Hy|Hy]]; [ congruence | cbn [fst] in Hy; congruence | ].
              destruct (IH y (or_intror Hy) Hym) as (x & A & B). exists x. split; [ right; exact A | apply up; exact B ]. }
        destruct Hc as (x & Hx & A). exists (info_of o m), x.
        split; [ rewrite Subs; apply in_app_iff; right; left; reflexivity | ].
        split; [ apply (Lm _ _ Hx) | ]. split.
        * apply Lk. right. apply (gt_adj _ _ _ _ Gm). right. exact Hx.
        * destruct A as [k Hk]. exists k.
          clear -Hk. induction Hk as [x|k x p y H IH Hin]; [ constructor | ].
          econstructor; [ exact IH | apply in_app_iff; auto ].
    - intros s x K. rewrite Subs in K. apply in_app_iff in K. destruct K as [K|[<-|[]]].
      + apply (hi_sub_own _ _ _ _ _ _ H). exact K.
      + intros Hx Hxm Hxo. apply Hxm. apply Mi; [ apply Oin; exact Hxo | exact Hx ].
    - rewrite Subs. apply Forall2_app.
      + eapply Forall2_mono; [ | exact (hi_subs _ _ _ _ _ _ H) ]. intros s o' _ _ K.
        exact (merged_at_merge c o c' m dc d_o l s o' G Go Uo Mi Hd E1 E2 Sh Nd Nn Dn K).
      + constructor; [ | constructor ]. split.
        * exact Ro.
        * reflexivity.
        * exact Mo.
        * intros x Hx. apply Nn. auto.
        * rewrite Sh. cbn [c_edges]. rewrite filter_app.
          rewrite (filter_nothing _ _ (c_edges c)).
          -- cbn [app]. apply filter_all. intros e He. apply both_smem.
             destruct (edge_ends _ _ _ _ Gm e He) as (A & B & _). auto.
          -- intros e He. apply both_smem_false. intros [H1 H2].
             destruct (edge_ends _ _ _ _ G e He) as (A & B & K). apply K.
             rewrite (Mi _ A H1), (Mi _ B H2). reflexivity.
        * intros k Hk. apply Dn. auto.
        * exists (dc ++ d_o), d_o. cbn [s_common info_of]. rewrite Nd, String.eqb_refl.
          split; [ reflexivity | ]. split; [ exact E2 | ]. rewrite filter_app.
          rewrite (filter_nothing _ _ dc).
          -- cbn [app]. apply filter_all. intros [k v] Hk. cbn [fst]. apply smem_In.
             eapply data_in_node; [ exact E2 | ]. apply in_map_iff. exists (k, v). auto.
          -- intros [k v] Hk. cbn [fst]. apply smem_false. intros K. apply (Hd k K).
             eapply data_in_node; [ exact E1 | ]. apply in_map_iff. exists (k, v). auto.
    - intros Es. rewrite Subs. apply Forall2_app.
      + assert (B := hi_subs _ _ _ _ _ _ H). assert (S := hi_strict _ _ _ _ _ _ H Es).
        assert (BS : Forall2 (fun s o' => merged_at c s o' /\ (In (s_common s) own /\
           forall n, In n (cs_names o') -> n <> s_common s -> node_data c n = node_data o' n)) (c_subs c) ms).
        { clear -B S. induction B as [|s o' ss ms M F IH]; inversion S; subst; constructor; auto. }
        eapply Forall2_mono; [ | exact BS ]. intros s o' Hin _ (M & Hco & Hda).
        split; [ exact Hco | ]. intros n Hn Hnc. rewrite Nd.
        assert (Hno : ~ In n own).
        { apply (hi_sub_own _ _ _ _ _ _ H s n Hin); [ | exact Hnc ].
          rewrite (ma_info _ _ _ M). exact Hn. }
        destruct (String.eqb_spec n m) as [->|].
        { exfalso. apply Hno. apply (Hs Es); assumption. }
        assert (Hnn := ma_names _ _ _ M n Hn). apply node_data_names in Hnn. destruct Hnn as [d Ed].
        rewrite Ed, <- (Hda n Hn Hnc). congruence.
      + constructor; [ | constructor ]. cbn [s_common info_of]. split; [ apply (Hs Es); assumption | ].
        intros n Hn Hnm. rewrite Nd. destruct (String.eqb_spec n m); [ contradiction | ].
        destruct (node_data c n) eqn:En; [ | reflexivity ].
        exfalso. apply Hnm. apply Mi; [ apply node_data_names; eauto | exact Hn ].
    - destruct (hi_ext _ _ _ _ _ _ H) as (ext & ad & O & F & Z). exists ext, ad.
      split; [ exact O | ]. split; [ | exact Z ]. rewrite Sh. cbn [c_edges]. rewrite filter_app, F.
      rewrite (filter_nothing _ _ (c_edges o)); [ apply app_nil_r | ].
      intros e He. apply both_smem_false. intros [H1 H2].
      destruct (edge_ends _ _ _ _ Gm e He) as (A & B & K). apply K.
      rewrite (Mi _ (Oin _ H1) A), (Mi _ (Oin _ H2) B). reflexivity.
    - intros s k K Hk. rewrite Subs in K. apply in_app_iff in K. destruct K as [K|[<-|[]]].
      + eapply (hi_base _ _ _ _ _ _ H); eassumption.
      + intros K0. apply (Hd k Hk).
        apply flat_In in K0. destruct K0 as (n & d & Hn & Hkd).
        destruct (hi_ext _ _ _ _ _ _ H) as (ext & ad & O & _ & _).
        assert (Hnn : In n (cs_names c0)) by (apply in_map_iff; exists (n, d); auto).
        destruct (hi_data _ _ _ _ _ _ H n) as (ex & En & _); [ rewrite O; apply in_app_iff; auto | ].
        (* the entry of n in c0 *)
        assert (Hc0 : exists d1, node_data c0 n = Some d1) by (apply node_data_names; exact Hnn).
        destruct Hc0 as [d1 Ed1]. rewrite Ed1 in En.
        destruct (in_dec string_dec k (dkeys d1)) as [Hk1|Hk1].
        * eapply data_in_node; [ exact En | ]. unfold dkeys. rewrite map_app. apply in_app_iff. left; exact Hk1.
        * exfalso. apply Hk1. (* node names of c0 are unique *)
          assert (N0 : NoDup (dkeys (c_nodes c0))).
          { change (NoDup (cs_names c0)). assert (NN := gt_nodup _ _ _ _ G).
            apply (NoDup_filter (fun x => smem x own)) in NN. rewrite (hi_own _ _ _ _ _ _ H), O in NN.
            clear -NN. induction (cs_names c0) as [|x r IH]; [ constructor | ]. cbn [app] in NN. inversion NN; subst.
            constructor; [ intros Q; apply H1; apply in_app_iff; auto | auto ]. }
          apply (dget_In _ _ _ N0) in Hn. unfold node_data in Ed1. rewrite Hn in Ed1. injection Ed1 as <-. exact Hkd.
    - intros n Hn. destruct (hi_data _ _ _ _ _ _ H n Hn) as (ex & En & Hex). rewrite Nd.
      destruct (String.eqb_spec n m) as [->|Hnm].
      + exists (ex ++ d_o). split.
        * rewrite E1 in En. injection En as En. rewrite En, <- app_assoc. reflexivity.
        * intros k Hk. unfold dkeys in Hk. rewrite map_app, in_app_iff in Hk. destruct Hk as [Hk|Hk].
          -- destruct (Hex k Hk) as (s & A & B). exists s. split; [ rewrite Subs; apply in_app_iff; auto | exact B ].
          -- exists (info_of o m). split; [ rewrite Subs; apply in_app_iff; right; left; reflexivity | ].
             split; [ reflexivity | ]. eapply data_in_node; [ exact E2 | exact Hk ].
      + exists ex. rewrite En. split; [ reflexivity | ]. intros k Hk.
        destruct (Hex k Hk) as (s & A & B). exists s. split; [ rewrite Subs; apply in_app_iff; auto | exact B ].
    - apply (hi_new _ _ _ _ _ _ H).
  Qed.

  Lemma merged_at_add : forall (c c' : mgr) n e1 e2 s o,
    c' = Csm (c_name c) (c_ref c) (c_root c) (c_subs c) (c_nodes c ++ [(n, [])]) (c_edges c ++ [e1; e2]) ->
    ~ In n (cs_names c) ->
    (e_src e1 = n \/ e_dst e1 = n) -> e_src e2 = e_dst e1 -> e_dst e2 = e_src e1 ->
    merged_at c s o -> merged_at c' s o.
  Proof.
    intros c c' n e1 e2 s o Sh Hn He1 He2 He2' [R I C N E Dt (d & d0 & F1 & F2 & F3)].
    assert (Hno : ~ In n (cs_names o)) by (intros H; apply Hn; apply N; exact H).
    split; [ exact R | exact I | exact C | | | | ].
    - intros x Hx. rewrite Sh. unfold cs_names. cbn [c_nodes]. unfold dkeys. rewrite map_app. apply in_app_iff.
      left. apply N. exact Hx.
    - rewrite Sh. cbn [c_edges]. rewrite filter_app, E. rewrite (filter_nothing _ _ [e1; e2]); [ apply app_nil_r | ].
      intros e He. apply both_smem_false. intros [H1 H2].
      destruct He as [<-|[<-|[]]]; destruct He1 as [He1|He1]; congruence.
    - intros k Hk. rewrite Sh. unfold data_names. cbn [c_nodes]. rewrite flat_map_app. apply in_app_iff.
      left. apply Dt. exact Hk.
    - exists d, d0. split; [ | auto ]. rewrite Sh. unfold node_data. cbn [c_nodes].
      rewrite (dget_app (V := dict D)). unfold node_data in F1. rewrite F1. reflexivity.
  Qed.

  Lemma hinv_add : forall strict (c0 c : mgr) own ms l n p t b own', hinv strict c0 c own ms l ->
    ~ In n (cs_names c) -> snd (add_cs c n p t b) = Ok tt ->
    (In p own /\ own' = own ++ [n]) \/ (~ In p own /\ own' = own) ->
    exists l', hinv strict c0 (fst (add_cs c n p t b)) own' ms l'.
  Proof.
    intros strict c0 c own ms l n p t b own' H Hn Hok Ho.
    assert (G := hi_tree _ _ _ _ _ _ H).
    destruct (add_shape c l n p t b G Hn Hok) as (Hp & e1 & e2 & He1 & He2 & He2' & Sh & Gt).
    assert (W' := add_cs_swf c n p t b (ex_intro _ l G) (hi_swf _ _ _ _ _ _ H)).
    assert (U' := add_cs_duniq c n p t b (hi_uniq _ _ _ _ _ _ H)).
    set (c' := fst (add_cs c n p t b)) in *.
    assert (Hnp : n <> p) by (intros ->; contradiction).
    assert (Oin : forall x, In x own -> In x (cs_names c)).
    { intros x Hx. rewrite <- (hi_own _ _ _ _ _ _ H) in Hx. apply filter_In in Hx. apply Hx. }
    assert (Nno : ~ In n own) by (intros K; apply Hn; apply Oin; exact K).
    assert (Own' : forall x, In x own' <-> In x own \/ (x = n /\ In p own)).
    { intros x. destruct Ho as [[A ->]|[A ->]]; [ rewrite in_app_iff; cbn [In] | ].
      - split; [ intros [K|[<-|[]]]; auto | intros [K|[-> _]]; auto ].
      - tauto. }
    assert (Nd : forall x, x <> n -> node_data c' x = node_data c x).
    { intros x Hx. rewrite Sh. unfold node_data. cbn [c_nodes]. rewrite (dget_app (V := dict D)).
      destruct (dget x (c_nodes c)) as [d|]; [ reflexivity | ]. cbn [dget].
      destruct (String.eqb_spec x n); [ contradiction | reflexivity ]. }
    assert (Ndn : node_data c' n = Some []).
    { rewrite Sh. unfold node_data. cbn [c_nodes]. rewrite (dget_app (V := dict D)).
      assert (dget n (c_nodes c) = None) as -> by (apply dget_none; exact Hn).
      cbn [dget]. rewrite String.eqb_refl. reflexivity. }
    assert (Nn : forall x, In x (cs_names c') <-> In x (cs_names c) \/ x = n).
    { intros x. rewrite Sh. unfold cs_names. cbn [c_nodes]. unfold dkeys. rewrite map_app, in_app_iff. cbn [map fst In].
      split; [ intros [K|[<-|[]]]; auto | intros [K| ->]; auto ]. }
    assert (Subs : c_subs c' = c_subs c) by (rewrite Sh; reflexivity).
    assert (Lk : forall u v, elinked (c_edges c) u v -> elinked (c_edges c') u v).
    { intros u v K. rewrite Sh. cbn [c_edges]. apply app_elinked. auto. }
    assert (He1n : e_src e1 = n \/ e_dst e1 = n) by tauto.
    assert (up : forall x z, anc l x z -> anc ((n, p) :: l) x z).
    { intros x z [j Hj]. exists j. clear -Hj. induction Hj as [x|j x q z K IH Hin]; [ constructor | ].
      econstructor; [ exact IH | right; exact Hin ]. }
    assert (Smem : forall x, In x (cs_names c) -> smem x own' = smem x own).
    { intros x Hx. apply eq_true_iff_eq. rewrite !smem_In, Own'. split; [ | auto ].
      intros [K|[-> _]]; [ exact K | contradiction ]. }
    exists ((n, p) :: l). split.
    - exact Gt.
    - exact W'.
    - exact U'.
    - rewrite Sh. apply (hi_head _ _ _ _ _ _ H).
    - rewrite Sh. unfold cs_names. cbn [c_nodes]. unfold dkeys. rewrite map_app, filter_app. cbn [map fst filter].
      change (map fst (c_nodes c)) with (cs_names c).
      rewrite (filter_ext_in _ (fun x => smem x own)) by exact Smem.
      rewrite (hi_own _ _ _ _ _ _ H).
      destruct Ho as [[A ->]|[A ->]].
      + assert (smem n (own ++ [n]) = true) as -> by (apply smem_In; apply in_app_iff; right; left; reflexivity).
        reflexivity.
      + assert (smem n own = false) as -> by (apply smem_false; exact Nno). apply app_nil_r.
    - apply Own'. left. rewrite Sh. apply (hi_root _ _ _ _ _ _ H).
    - intros y q [E|K] Hy.
      + injection E as E1 E2. subst y q. apply Own' in Hy. apply Own'. destruct Hy as [Hy|[_ Hy]]; [ contradiction | auto ].
      + apply Own' in Hy. apply Own'. left. destruct Hy as [Hy|[-> _]]; [ eapply (hi_up _ _ _ _ _ _ H); eassumption | ].
        exfalso. apply Hn. apply (gt_names _ _ _ _ G). apply (grows_ends _ _ (gt_grows _ _ _ _ G) _ _ K).
    - intros y Hy Hyo. rewrite Own' in Hyo. rewrite Nn in Hy. rewrite Subs.
      destruct (string_dec y n) as [->|Hyn].
      + assert (Hpo : ~ In p own) by tauto.
        destruct (hi_cover _ _ _ _ _ _ H p Hp Hpo) as (s & x & A & B & C & A').
        exists s, x. split; [ exact A | ]. split; [ exact B | ]. split; [ apply Lk; exact C | ].
        eapply anc_child; [ left; reflexivity | apply up; exact A' ].
      + destruct Hy as [Hy|Hy]; [ | contradiction ].
        destruct (hi_cover _ _ _ _ _ _ H y Hy) as (s & x & A & B & C & A'); [ tauto | ].
        exists s, x. split; [ exact A | ]. split; [ exact B | ]. split; [ apply Lk; exact C | apply up; exact A' ].
    - rewrite Subs. intros s x Hs Hx Hxc Hxo. apply Own' in Hxo. destruct Hxo as [Hxo|[-> _]].
      + exact (hi_sub_own _ _ _ _ _ _ H s x Hs Hx Hxc Hxo).
      + apply Hn. apply (sw_incl _ _ _ _ (hi_swf _ _ _ _ _ _ H) s Hs). exact Hx.
    - rewrite Subs. eapply Forall2_mono; [ | exact (hi_subs _ _ _ _ _ _ H) ]. intros s o _ _ K.
      eapply merged_at_add; eassumption.
    - intros Es. rewrite Subs.
      assert (B := hi_subs _ _ _ _ _ _ H). assert (S := hi_strict _ _ _ _ _ _ H Es).
      assert (BS : Forall2 (fun s o' => merged_at c s o' /\ (In (s_common s) own /\
           forall n, In n (cs_names o') -> n <> s_common s -> node_data c n = node_data o' n)) (c_subs c) ms).
      { clear -B S. induction B as [|s o' ss ms M F IH]; inversion S; subst; constructor; auto. }
      eapply Forall2_mono; [ | exact BS ]. intros s o' Hin _ (M & Hco & Hda).
      split; [ apply Own'; auto | ]. intros x Hx Hxc. rewrite Nd; [ auto | ].
      intros ->. apply Hn. apply (ma_names _ _ _ M). exact Hx.
    - destruct (hi_ext _ _ _ _ _ _ H) as (ext & ad & O & F & Z).
      assert (Fo : filter (both (fun x => smem x own')) (c_edges c) = c_edges c0 ++ ad).
      { rewrite <- F. apply filter_ext_in. intros e He.
        destruct (edge_ends _ _ _ _ G e He) as (A & B & _). unfold both. rewrite !Smem by assumption. reflexivity. }
      destruct Ho as [[A ->]|[A ->]].
      + exists (ext ++ [n]), (ad ++ [e1; e2]). split; [ rewrite O, app_assoc; reflexivity | ].
        split; [ | intros K; destruct ext; discriminate ].
        rewrite Sh. cbn [c_edges]. rewrite filter_app, Fo, <- app_assoc. f_equal. f_equal.
        apply filter_all. intros e He. apply both_smem. rewrite !in_app_iff. cbn [In].
        destruct He as [<-|[<-|[]]]; destruct He1 as [[K1 K2]|[K1 K2]]; rewrite ?He2, ?He2', K1, K2; auto.
      + exists ext, ad. split; [ exact O | ]. split; [ | exact Z ].
        rewrite Sh. cbn [c_edges]. rewrite filter_app, Fo.
        rewrite (filter_nothing _ _ [e1; e2]); [ apply app_nil_r | ].
        intros e He. apply both_smem_false. intros [H1 H2].
        destruct He as [<-|[<-|[]]]; destruct He1n as [He1n|He1n]; congruence.
    - rewrite Subs. apply (hi_base _ _ _ _ _ _ H).
    - intros x Hx. rewrite Subs. apply Own' in Hx. destruct (string_dec x n) as [->|Hxn].
      + exists []. rewrite Ndn. split; [ | intros k [] ].
        assert (node_data c0 n = None) as ->; [ | reflexivity ].
        destruct (node_data c0 n) as [d|] eqn:E; [ | reflexivity ]. exfalso. apply Hn. apply Oin.
        destruct (hi_ext _ _ _ _ _ _ H) as (ext & ad & O & _ & _). rewrite O. apply in_app_iff. left.
        apply node_data_names. eauto.
      + rewrite Nd by exact Hxn. apply (hi_data _ _ _ _ _ _ H). destruct Hx as [Hx|[-> _]]; [ exact Hx | contradiction ].
    - intros x Hx. destruct (node_data c0 x) eqn:E; [ left; apply node_data_names; eauto | auto ].
  Qed.

  Lemma history_hinv : forall strict (c0 c : mgr) own ms, reachable c0 -> c_subs c0 = [] ->
    history strict c0 c own ms -> exists l, hinv strict c0 c own ms l.
  Proof.
    intros strict c0 c own ms R S Hh.
    induction Hh as [|c own ms o Hh IH Ro Hok Hs|c own ms n p t b Hh IH Hn Hp Hok|c own ms n p t b Hh IH Hn Hp Hok].
    - destruct (reachable_inv c0 R) as [[l G] _]. exists l. apply hinv_start; [ exact G | apply reachable_duniq; exact R | exact S ].
    - destruct IH as [l IH]. eapply hinv_merge; eassumption.
    - destruct IH as [l IH]. eapply hinv_add; [ exact IH | exact Hn | exact Hok | left; auto ].
    - destruct IH as [l IH]. eapply hinv_add; [ exact IH | exact Hn | exact Hok | right; auto ].
  Qed.

  (** ** unmerge *)
  Lemma merged_extract : forall (c : mgr) s o, ctree c -> cswf c -> In s (c_subs c) -> merged_at c s o ->
    exists sub, extract_sub c s = Ok sub /\ same_structure sub o /\
      node_data sub (s_common s) = node_data o (s_common s) /\
      forall n, In n (cs_names o) -> n <> s_common s -> node_data sub n = node_data c n.
  Proof.
    intros c s o G W Hs [R I C N E Dt (d & d0 & F1 & F2 & F3)].
    destruct (extract_ok c s G W Hs) as (sub & Ex & Nn & Ee & A1 & A2 & A3 & A4).
    exists sub. split; [ exact Ex | ].
    assert (Im : s_members s = cs_names o) by (rewrite I; reflexivity).
    assert (Id : s_data s = data_names o) by (rewrite I; reflexivity).
    split.
    { split; [ rewrite A1, I; reflexivity | ]. split; [ rewrite A3, I; reflexivity | ].
      split; [ rewrite A2, I; reflexivity | ]. split; [ rewrite A4, I; reflexivity | ].
      split; [ rewrite Ee, Im; exact E | ]. intros n. rewrite Nn, Im. reflexivity. }
    unfold extract_sub in Ex. rewrite Im in Ex.
    assert (Es : dget (s_common s) (filter (fun nd => smem (fst nd) (cs_names o)) (c_nodes c)) = Some d).
    { rewrite (dget_filter (fun n => smem n (cs_names o))). apply smem_In in C. rewrite C. exact F1. }
    rewrite Es, F1 in Ex. injection Ex as <-. unfold node_data at 1 3. cbn [c_nodes].
    split.
    - rewrite (dget_dset (dict D)), String.eqb_refl, F2, <- F3. f_equal. apply filter_ext_in.
      intros [k v] Hk. cbn [fst]. unfold sub_common_data. rewrite Id.
      apply eq_true_iff_eq. rewrite !smem_In, filter_In, smem_In. split; [ tauto | ].
      intros Hd. split; [ | exact Hd ]. apply in_map_iff. exists (k, v). auto.
    - intros n Hn Hnc. rewrite (dget_dset (dict D)). destruct (String.eqb_spec n (s_common s)); [ contradiction | ].
      rewrite (dget_filter (fun n => smem n (cs_names o))). apply smem_In in Hn. rewrite Hn. reflexivity.
  Qed.

  Lemma extract_subs_ok : forall (c : mgr) (Q : subinfo -> mgr -> mgr -> Prop) ss ms,
    Forall2 (fun s o => exists sub, extract_sub c s = Ok sub /\ Q s sub o) ss ms ->
    exists subs, extract_subs c ss = Ok subs /\ Forall2 (fun sub o => exists s, Q s sub o) subs ms.
  Proof.
    intros c Q ss ms F. induction F as [|s o ss ms (sub & E & K) F IH].
    - exists []. split; [ reflexivity | constructor ].
    - destruct IH as (subs & E' & K'). exists (sub :: subs). cbn [extract_subs]. rewrite E, E'.
      split; [ reflexivity | ]. constructor; eauto.
  Qed.

  Lemma unmerge_history : forall strict (c0 c : mgr) own ms, reachable c0 -> c_subs c0 = [] ->
    history strict c0 c own ms ->
    exists c' subs ext ad,
      unmerge c = (c', Ok subs) /\
      own = cs_names c0 ++ ext /\
      c' = Csm (c_name c0) (c_ref c0) (c_root c0) []
               (c_nodes c0 ++ map (fun n => (n, [])) ext) (c_edges c0 ++ ad) /\
      (ext = [] -> ad = []) /\
      Forall2 same_structure subs ms /\
      (strict = true -> Forall2 same_data subs ms).
  Proof.
    intros strict c0 c own ms R0 S0 Hh.
    destruct (history_hinv _ _ _ _ _ R0 S0 Hh) as [l H].
    assert (G := hi_tree _ _ _ _ _ _ H). assert (W := hi_swf _ _ _ _ _ _ H).
    assert (Gc : ctree c) by (exists l; exact G).
    assert (B := hi_subs _ _ _ _ _ _ H).
    (* the returned instances *)
    assert (X : exists subs, extract_subs c (c_subs c) = Ok subs /\ Forall2 same_structure subs ms /\
                  (strict = true -> Forall2 same_data subs ms)).
    { assert (F : Forall2 (fun s o => exists sub, extract_sub c s = Ok sub /\
                 (same_structure sub o /\ (strict = true -> same_data sub o))) (c_subs c) ms).
      { assert (BS : Forall2 (fun s o => merged_at c s o /\ (strict = true ->
                  forall n, In n (cs_names o) -> n <> s_common s -> node_data c n = node_data o n)) (c_subs c) ms).
        { destruct strict.
          - assert (S := hi_strict _ _ _ _ _ _ H eq_refl). clear -B S.
            induction B as [|s o ss ms M F IH]; inversion S as [|? ? ? ? [_ K] ? ]; subst; constructor; auto.
          - eapply Forall2_mono; [ | exact B ]. intros s o _ _ M. split; [ exact M | discriminate ]. }
        eapply Forall2_mono; [ | exact BS ]. intros s o Hs _ [M St].
        destruct (merged_extract c s o Gc W Hs M) as (sub & Ex & Ss & Dc & Dn).
        exists sub. split; [ exact Ex | ]. split; [ exact Ss | ]. intros Es n.
        destruct (in_dec string_dec n (cs_names o)) as [Hn|Hn].
        - destruct (string_dec n (s_common s)) as [->|Hnc]; [ exact Dc | ].
          rewrite (Dn n Hn Hnc). apply St; assumption.
        - assert (E1 : node_data o n = None).
          { destruct (node_data o n) eqn:E; [ exfalso; apply Hn; apply node_data_names; eauto | reflexivity ]. }
          assert (E2 : node_data sub n = None).
          { destruct (node_data sub n) eqn:E; [ | reflexivity ]. exfalso. apply Hn.
            destruct Ss as (_ & _ & _ & _ & _ & Ns). apply Ns. apply node_data_names; eauto. }
          congruence. }
      destruct (extract_subs_ok c (fun _ sub o => same_structure sub o /\ (strict = true -> same_data sub o)) _ _ F)
        as (subs & Es & K).
      exists subs. split; [ exact Es | ]. split.
      - eapply Forall2_mono; [ | exact K ]. intros sub o _ _ [s [A _]]. exact A.
      - intros E. eapply Forall2_mono; [ | exact K ]. intros sub o _ _ [s [_ A]]. auto. }
    destruct X as (subs & Es & Ss & Sd).
    (* the manager itself *)
    destruct (strip_subs_spec (c_subs c) c) as (q & Eq & Iq & Dq).
    { intros s Hs. apply (sw_incl _ _ _ _ W s Hs). apply (sw_in _ _ _ _ W s s Hs (w_refl s)). }
    destruct (strip_subs_same (c_subs c) c) as (P1 & P2 & P3 & P4 & P5 & P6).
    assert (Ur : unmerge c = match delete_all (set_subs [] (fst (strip_subs c (c_subs c)))) q with
                             | (c1, Err e) => (c1, Err e)
                             | (c1, Ok _) => (c1, Ok subs)
                             end).
    { unfold unmerge, subsystems, remove_subsystems. rewrite Es.
      destruct (strip_subs c (c_subs c)) as [c1 r1]. cbn [fst snd] in *. rewrite Eq. reflexivity. }
    set (c1 := fst (strip_subs c (c_subs c))) in *.
    assert (G1 : ctree_by (set_subs [] c1) l).
    { unfold ctree_by. cbn [c_root c_edges set_subs]. rewrite P1, P3.
      change (cs_names (set_subs [] c1)) with (cs_names c1). rewrite P2. exact G. }
    assert (Oin : forall x, In x own -> In x (cs_names c)).
    { intros x Hx. rewrite <- (hi_own _ _ _ _ _ _ H) in Hx. apply filter_In in Hx. apply Hx. }
    destruct (delete_all_spec q (set_subs [] c1) l G1 eq_refl) as (keep & Ed & K).
    { intros x Hx Er. apply Iq in Hx. destruct Hx as (s & Hs & Hm & L).
      cbn [c_root set_subs] in Er. rewrite P1 in Er. subst x.
      assert (s_common s <> c_root c).
      { intros Ec. apply elinked_key in L. apply (gtree_ends _ _ _ _ G) in L. destruct L as (_ & _ & L). auto. }
      apply (hi_sub_own _ _ _ _ _ _ H s (c_root c) Hs Hm); [ congruence | apply (hi_root _ _ _ _ _ _ H) ]. }
    assert (Kown : forall y, In y (cs_names c) -> keep y = smem y own).
    { intros y Hy. assert (Hy1 : In y (cs_names (set_subs [] c1))).
      { change (In y (cs_names c1)). rewrite P2. exact Hy. }
      apply eq_true_iff_eq. rewrite (K y Hy1), smem_In. split.
      - intros Hq. destruct (in_dec string_dec y own) as [|Hn]; [ assumption | exfalso ].
        destruct (hi_cover _ _ _ _ _ _ H y Hy Hn) as (s & x & A1 & A2 & A3 & A4).
        apply (Hq x); [ | exact A4 ]. apply Iq. eauto.
      - intros Hyo x Hx A. apply Iq in Hx. destruct Hx as (s & Hs & Hm & L).
        apply (hi_sub_own _ _ _ _ _ _ H s x Hs Hm).
        + apply elinked_key in L. apply (gtree_ends _ _ _ _ G) in L. intros ->. tauto.
        + destruct A as [k Hk]. clear -Hk Hyo H. induction Hk as [x|k x p y Hk IH Hin]; [ exact Hyo | ].
          apply IH. eapply (hi_up _ _ _ _ _ _ H); eassumption. }
    destruct (hi_ext _ _ _ _ _ _ H) as (ext & ad & O & F & Z).
    exists (restrict keep (set_subs [] c1)), subs, ext, ad.
    split; [ rewrite Ur, Ed; reflexivity | ]. split; [ exact O | ]. split; [ | auto ].
    destruct (hi_head _ _ _ _ _ _ H) as (N1 & N2 & N3).
    assert (Nd1 : NoDup (dkeys (c_nodes c1))) by (change (NoDup (cs_names c1)); rewrite P2; apply G).
    assert (No : NoDup own).
    { rewrite <- (hi_own _ _ _ _ _ _ H). apply NoDup_filter. apply G. }
    assert (Keys : dkeys (filter (fun nd => keep (fst nd)) (c_nodes c1)) = own).
    { rewrite filter_keys_eq. change (dkeys (c_nodes c1)) with (cs_names c1). rewrite P2.
      rewrite <- (hi_own _ _ _ _ _ _ H). apply filter_ext_in. intros y Hy. apply Kown. exact Hy. }
    unfold restrict, set_graph. cbn [c_name c_ref c_root c_subs c_nodes c_edges set_subs].
    rewrite P1, P3, P5, P6, N1, N2, N3.
    assert (Ed1 : filter (both keep) (c_edges c) = c_edges c0 ++ ad).
    { rewrite <- F. apply filter_ext_in. intros e He. destruct (edge_ends _ _ _ _ G e He) as (A1 & A2 & _).
      unfold both. rewrite !Kown by assumption. reflexivity. }
    rewrite Ed1. f_equal.
    apply dict_ext.
    - rewrite Keys, O. unfold dkeys. rewrite map_app, map_map. cbn [fst]. rewrite map_id. reflexivity.
    - rewrite Keys. exact No.
    - intros k. rewrite (dget_filter keep). rewrite (dget_app (V := dict D)).
      destruct (in_dec string_dec k own) as [Hk|Hk].
      + assert (keep k = true) as -> by (rewrite Kown; [ apply smem_In; exact Hk | apply Oin; exact Hk ]).
        change (dget k (c_nodes c1)) with (node_data c1 k). rewrite Dq.
        destruct (hi_data _ _ _ _ _ _ H k Hk) as (ex & En & Hex). rewrite En. cbn [option_map].
        change (dget k (c_nodes c0)) with (node_data c0 k).
        unfold strip. rewrite filter_app.
        rewrite (filter_nothing _ _ ex).
        2:{ intros [k1 v1] Hk1. cbn [fst]. destruct (Hex k1) as (s & A1 & A2 & A3).
            { apply in_map_iff. exists (k1, v1). auto. }
            apply negb_false_iff. apply existsb_exists. exists s. split; [ exact A1 | ].
            rewrite A2, String.eqb_refl. apply smem_In. exact A3. }
        rewrite app_nil_r. destruct (node_data c0 k) as [d0|] eqn:E0.
        * f_equal. apply filter_all. intros [k1 v1] Hk1. cbn [fst]. apply negb_true_iff.
          destruct (existsb _ (c_subs c)) eqn:Ee; [ | reflexivity ]. exfalso.
          apply existsb_exists in Ee. destruct Ee as (s & A1 & A2). apply andb_true_iff in A2. destruct A2 as [_ A2].
          apply smem_In in A2. apply (hi_base _ _ _ _ _ _ H s k1 A1 A2).
          eapply data_in_node; [ exact E0 | ]. apply in_map_iff. exists (k1, v1). auto.
        * cbn [filter]. assert (Hke : In k ext).
          { rewrite O in Hk. apply in_app_iff in Hk. destruct Hk as [Hk|Hk]; [ | exact Hk ].
            apply node_data_names in Hk. destruct Hk as [d Hk]. congruence. }
          clear -Hke. induction ext as [|x ext IH]; [ destruct Hke | ]. cbn [map dget].
          destruct (String.eqb_spec k x); [ reflexivity | ]. apply IH. destruct Hke; [ congruence | assumption ].
      + assert (E1 : (if keep k then dget k (c_nodes c1) else None) = None).
        { destruct (keep k) eqn:Ek; [ | reflexivity ]. apply dget_none. intros Hin.
          change (In k (cs_names c1)) in Hin. rewrite P2 in Hin. rewrite (Kown k Hin) in Ek. apply smem_In in Ek. contradiction. }
        rewrite E1. symmetry.
        assert (dget k (c_nodes c0) = None) as ->.
        { apply dget_none. intros Hin. apply Hk. rewrite O. apply in_app_iff. left; exact Hin. }
        apply dget_none. unfold dkeys. rewrite map_map. cbn [fst]. rewrite map_id. intros Hin.
        apply Hk. rewrite O. apply in_app_iff. right; exact Hin.
  Qed.

  (** ** statements used by CsmProps.v *)
  Lemma merge_unmerge_many : forall (c0 c : mgr) ms, reachable c0 -> c_subs c0 = [] ->
    history false c0 c (cs_names c0) ms ->
    exists subs, unmerge c = (c0, Ok subs) /\ Forall2 same_structure subs ms.
  Proof.
    intros c0 c ms R S Hh.
    destruct (unmerge_history _ _ _ _ _ R S Hh) as (c' & subs & ext & ad & E & O & Ec & Z & F & _).
    assert (ext = []).
    { destruct ext as [|x ext]; [ reflexivity | exfalso ].
      assert (L := f_equal (@List.length string) O). rewrite app_length in L. cbn [List.length] in L. lia. }
    subst ext. rewrite (Z eq_refl) in Ec. cbn [map] in Ec. rewrite !app_nil_r in Ec.
    assert (c' = c0) as -> by (rewrite Ec, <- S; destruct c0; reflexivity).
    exists subs. auto.
  Qed.

  Lemma merge_unmerge_one : forall (c o : mgr), reachable c -> reachable o -> c_subs c = [] ->
    snd (merge c o) = Ok tt ->
    exists sub, unmerge (fst (merge c o)) = (c, Ok [sub]) /\ same_structure sub o /\ same_data sub o.
  Proof.
    intros c o R Ro S Hok.
    assert (Hh : history true c (fst (merge c o)) (cs_names c) [o]).
    { apply (h_merge true c c (cs_names c) [] o); auto. constructor. }
    destruct (unmerge_history _ _ _ _ _ R S Hh) as (c' & subs & ext & ad & E & O & Ec & Z & F & Fd).
    assert (ext = []).
    { destruct ext as [|x ext]; [ reflexivity | exfalso ].
      assert (L := f_equal (@List.length string) O). rewrite app_length in L. cbn [List.length] in L. lia. }
    subst ext. rewrite (Z eq_refl) in Ec. cbn [map] in Ec. rewrite !app_nil_r in Ec.
    assert (c' = c) as -> by (rewrite Ec, <- S; destruct c; reflexivity).
    specialize (Fd eq_refl). inversion F as [|sub o' ss ms Q F']; subst. inversion F'; subst.
    inversion Fd; subst. exists sub. auto.
  Qed.

  Lemma unmerge_names : forall strict (c0 c : mgr) own ms, reachable c0 -> c_subs c0 = [] ->
    history strict c0 c own ms ->
    exists c' subs, unmerge c = (c', Ok subs) /\ cs_names c' = own /\
      (forall n d, node_data c0 n = Some d -> node_data c' n = Some d) /\
      (forall e, In e (c_edges c0) -> In e (c_edges c')) /\
      Forall2 (fun sub o => forall n, In n (cs_names sub) <-> In n (cs_names o)) subs ms.
  Proof.
    intros strict c0 c own ms R S Hh.
    destruct (unmerge_history _ _ _ _ _ R S Hh) as (c' & subs & ext & ad & E & O & Ec & Z & F & _).
    exists c', subs. split; [ exact E | ]. rewrite Ec. split.
    { unfold cs_names. cbn [c_nodes]. unfold dkeys. rewrite map_app, map_map. cbn [fst]. rewrite map_id. symmetry. exact O. }
    split.
    { intros n d Hn. unfold node_data in *. cbn [c_nodes]. rewrite (dget_app (V := dict D)), Hn. reflexivity. }
    split.
    { intros e He. cbn [c_edges]. apply in_app_iff. auto. }
    eapply Forall2_mono; [ | exact F ]. intros sub o _ _ K. apply K.
  Qed.

  Lemma unmerge_data : forall (c0 c : mgr) own ms, reachable c0 -> c_subs c0 = [] ->
    history true c0 c own ms ->
    exists c' subs, unmerge c = (c', Ok subs) /\
      Forall2 (fun sub o => same_structure sub o /\ same_data sub o) subs ms.
  Proof.
    intros c0 c own ms R S Hh.
    destruct (unmerge_history _ _ _ _ _ R S Hh) as (c' & subs & ext & ad & E & O & Ec & Z & F & Fd).
    exists c', subs. split; [ exact E | ]. specialize (Fd eq_refl). clear -F Fd.
    induction F as [|sub o ss ms K F IH]; inversion Fd; subst; constructor; auto.
  Qed.

  Lemma delete_root_unknown : forall (c : mgr) x b, reachable c ->
    delete_cs c (c_root c) b = (c, Err ValueError) /\
    (~ In x (cs_names c) -> delete_cs c x b = (c, Ok tt)).
  Proof.
    intros c x b R. destruct (reachable_inv c R) as [[l G] _]. split.
    - unfold delete_cs. assert (has_cs c (c_root c) = true) as ->.
      { apply has_cs_In. apply (gt_names _ _ _ _ G). left; reflexivity. }
      cbn [negb]. rewrite String.eqb_refl. reflexivity.
    - intros H. unfold delete_cs. apply has_cs_false in H. rewrite H. reflexivity.
  Qed.

  Lemma reachable_sub_intact : forall (c : mgr) s, reachable c -> In s (c_subs c) ->
    sub_intact c s /\ exists sub, extract_sub c s = Ok sub /\ is_tree sub /\
      (forall n, In n (cs_names sub) <-> In n (s_members s)).
  Proof.
    intros c s R Hs. destruct (reachable_inv c R) as [G W]. split; [ apply swf_intact; assumption | ].
    destruct (extract_ok c s G W Hs) as (sub & Ex & Nn & _). exists sub. split; [ exact Ex | ].
    split; [ | exact Nn ]. apply reachable_is_tree. eapply r_extract; eassumption.
  Qed.

  Lemma unaffected_kept : forall (c : mgr) x b s, reachable c -> NoDup (map s_name (c_subs c)) ->
    In s (c_subs c) -> (forall y, In y (s_members s) -> ~ below c x y) ->
    In s (c_subs (fst (delete_cs c x b))).
  Proof.
    intros c x b s R N Hs Hy. destruct (reachable_inv c R) as [G W].
    destruct (delete_cs c x b) as [c' [u|e]] eqn:E.
    - cbn [fst]. destruct (in_dec string_dec x (cs_names c)) as [Hx|Hx].
      + destruct (string_dec x (c_root c)) as [Hr|Hr].
        { subst x. rewrite (proj1 (delete_root_unknown c "" b R)) in E. discriminate. }
        assert (Hok : snd (delete_cs c x b) = Ok tt) by (rewrite E; destruct u; reflexivity).
        destruct (delete_subs c x b G W Hx Hr Hok s Hs) as [_ K]. rewrite E in K. cbn [fst] in K.
        destruct K as [K|(s' & Hs' & En & y & Hym & Hb)]; [ exact K | exfalso ].
        assert (s' = s); [ | subst; apply (Hy y); assumption ].
        clear -N Hs Hs' En. induction (c_subs c) as [|a r IH]; [ destruct Hs | ].
        cbn [map] in N. inversion N as [|? ? Nin N']; subst.
        destruct Hs as [->|Hs]; destruct Hs' as [->|Hs']; auto.
        * exfalso. apply Nin. rewrite <- En. apply in_map. exact Hs'.
        * exfalso. apply Nin. rewrite En. apply in_map. exact Hs.
      + rewrite (proj2 (delete_root_unknown c x b R) Hx) in E. injection E as <- _. exact Hs.
    - cbn [fst]. assert (K := fail_delete c x b e G). rewrite E in K. cbn [fst snd] in K.
      rewrite K by reflexivity. exact Hs.
  Qed.

  Lemma assign_find : forall (c : mgr) f v k n tg, reachable c -> snd (assign_data f c v k n tg) = Ok tt ->
    exists w, find_data (fst (assign_data f c v k n tg)) k =
        Ok (match tg with Some m => m | None => n end, w) /\
      match tg with Some m => f v n m = Ok w | None => w = v end.
  Proof.
    intros c f v k n tg R H.
    assert (R' : reachable (fst (assign_data f c v k n tg))).
    { apply (r_op c (OAssign f v k n tg)); [ exact R | discriminate ]. }
    destruct (assign_data f c v k n tg) as [c' r] eqn:E. cbn [fst snd] in *.
    apply assign_data_cases in E.
    destruct E as [[_ [e ->]]|(m & w & d & _ & Hk & Hd & Ec & K)]; [ discriminate | ].
    assert (F : find_data c' k = Ok (m, w)).
    { apply find_data_iff; [ apply reachable_inv; exact R' | apply reachable_duniq; exact R' | ].
      exists (d ++ [(k, w)]). split.
      - rewrite Ec. unfold node_data. cbn [c_nodes set_nodes set_graph].
        rewrite (dget_dset (dict D)), String.eqb_refl. reflexivity.
      - rewrite dget_app. assert (dget k d = None) as ->.
        { apply dget_none. intros K'. apply Hk. eapply data_in_node; eassumption. }
        cbn [dget]. rewrite String.eqb_refl. reflexivity. }
    exists w. destruct K as [(-> & -> & ->)|(-> & Ff)]; auto.
  Qed.

  Lemma data_stable : forall (c : mgr) o k n v, reachable c ->
    (forall other, o = OMerge other -> reachable other) -> o <> ODeleteData k -> o <> ORemoveSubs ->
    find_data c k = Ok (n, v) -> In n (cs_names (fst (run_op c o))) ->
    find_data (fst (run_op c o)) k = Ok (n, v).
  Proof.
    intros c o k n v R Ro H1 H2 Hf Hn.
    assert (R' : reachable (fst (run_op c o))) by (apply r_op; assumption).
    destruct (reachable_inv c R) as [G W]. assert (U := reachable_duniq c R).
    apply (find_data_iff c G U) in Hf. destruct Hf as (d & Hd & Hv).
    apply find_data_iff; [ apply reachable_inv; exact R' | apply reachable_duniq; exact R' | ].
    eapply owner_stable; try eassumption.
    - intros other E. split; [ apply reachable_inv; auto | apply reachable_duniq; auto ].
    - destruct o; cbn [keeps_data]; auto; congruence.
  Qed.

  Lemma relabel_fresh : forall (c : mgr) old new, reachable c -> c_subs c = [] -> ~ In new (cs_names c) ->
    let f := fun n => if String.eqb n old then new else n in
    exists c', relabel c old new = (c', Ok tt) /\
      List.length (c_nodes c') = List.length (c_nodes c) /\
      (forall n, In n (cs_names c) -> node_data c' (f n) = node_data c n) /\
      Permutation (c_edges c')
        (map (fun e => Edge (f (e_src e)) (f (e_dst e)) (e_tr e) (e_def e)) (c_edges c)) /\
      c_root c' = f (c_root c) /\ c_name c' = c_name c /\ c_ref c' = c_ref c /\ c_subs c' = [].
  Proof.
    intros c old new R S Hn f. destruct (reachable_inv c R) as [G _].
    eexists. split; [ apply relabel_shape; exact S | ]. cbn [c_nodes c_edges c_root c_name c_ref c_subs].
    split; [ apply relabel_length; assumption | ]. split.
    { intros n H. unfold node_data at 1. cbn [c_nodes]. apply (relabel_node_data c old new n G Hn H). }
    split; [ apply (relabel_edge_map c old new G Hn) | ]. auto.
  Qed.

  Lemma relabel_protected : forall (c : mgr) old new, reachable c -> c_subs c <> [] ->
    relabel c old new = (c, Err NotImplementedError).
  Proof.
    intros c old new R S. destruct (reachable_inv c R) as [G W]. unfold relabel, subsystems.
    destruct (extract_subs_some c (c_subs c)) as (subs & E & F).
    { intros s Hs. destruct (extract_ok c s G W Hs) as (sub & Ex & _). eauto. }
    rewrite E. destruct F; [ congruence | reflexivity ].
  Qed.

  Lemma failure_changes_nothing : forall (c : mgr) o e, reachable c -> snd (run_op c o) = Err e ->
    (forall k s, o = ODeleteData k -> In s (c_subs c) -> ~ In k (s_data s)) ->
    fst (run_op c o) = c.
  Proof.
    intros c o e R H Hd. destruct (reachable_inv c R) as [G W].
    destruct o as [n r t b|x b|f v k r tg|k|other|]; cbn [run_op] in *.
    - eapply fail_add; exact H.
    - eapply fail_delete; eassumption.
    - eapply fail_assign; exact H.
    - eapply fail_delete_data; [ exact H | ]. intros s. apply Hd. reflexivity.
    - eapply fail_merge; exact H.
    - rewrite (remove_subsystems_ok c G W) in H. discriminate.
  Qed.

  Lemma add_conflict_inv : forall (c : mgr) n p t b, add_cs c n p t b = (c, Err WeldxException) ->
    l_timedep t = true /\ c_ref c = None /\
    exists t0, In t0 (lcs_time_dependent c) /\
      (l_ref t <> None /\ (forall t1, In t1 (lcs_time_dependent c) -> l_ref t1 = None) \/
       l_ref t = None /\ exists t1, In t1 (lcs_time_dependent c) /\ l_ref t1 <> None).
  Proof.
    intros c n p t b H. unfold add_cs in H. destruct (add_ref_conflict c t) eqn:K.
    2:{ unfold is_neighbor_of in H. destruct (has_cs c n); destruct (has_cs c p); try discriminate.
        destruct (smem p (nbs (c_edges c) n)); discriminate. }
    clear H. unfold add_ref_conflict, uses_absolute_times in K.
    apply andb_true_iff in K. destruct K as [K1 K2]. apply andb_true_iff in K1. destruct K1 as [Td Nt].
    assert (Hne : exists t0, In t0 (lcs_time_dependent c)).
    { unfold n_time_dependent in Nt. destruct (lcs_time_dependent c) as [|t0 r]; [ discriminate | exists t0; left; reflexivity ]. }
    destruct Hne as [t0 H0]. split; [ exact Td | ].
    apply orb_true_iff in K2. destruct K2 as [K2|K2].
    - apply andb_true_iff in K2. destruct K2 as [Rt K2]. apply negb_true_iff, orb_false_iff in K2.
      destruct K2 as [Hh Rc]. split; [ destruct (c_ref c); [ discriminate | reflexivity ] | ].
      exists t0. split; [ exact H0 | ]. left. split; [ destruct (l_ref t); [ discriminate | discriminate Rt ] | ].
      intros t1 H1. destruct (l_ref t1) eqn:E; [ | reflexivity ].
      assert (has_lcs_with_ref c = true); [ apply has_ref_iff; exists t1; split; [ exact H1 | congruence ] | congruence ].
    - apply andb_true_iff in K2. destruct K2 as [K2 K3]. apply andb_true_iff in K2. destruct K2 as [Rt Rc].
      destruct (c_ref c); [ discriminate | ]. split; [ reflexivity | ].
      exists t0. split; [ exact H0 | ]. right. split; [ destruct (l_ref t); [ discriminate | reflexivity ] | ].
      cbn [is_some] in K3. rewrite orb_false_r in K3. apply has_ref_iff. exact K3.
  Qed.
End Hist.
