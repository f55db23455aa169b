(** [CoordinateSystemManager.interp_time] as a whole. *)
From Coq Require Import Reals List String ZArith Bool Lia Sorting.Sorted.
From Verif Require Import Base RigidModel RigidSpec InterpModel InterpSpec LinModel LinFacts CsmModel CsmSpec CsmGraphFacts
  CsmTreeFacts LcsTimeModel LcsTimeSpec LcsTimeFacts CsmGetModel CsmGetSpec CsmHeapModel CsmHeapFacts CsmPathFacts
  TreeFacts CsmInterpModel CsmInterpSpec CsmInterpFacts.
Import ListNotations.
Open Scope Z_scope.
Open Scope list_scope.

Section Tree.
  Context (sl : segment mat) (SL : slerp_ok sl) {D : Type}.
  Notation env := (env D).
  Notation ops := (tlcs_ops sl).
  Notation treeV := (@is_tree tlcs D ops).

  Lemma tree_keys : forall s : env, treeV (view s) -> keys_ok s.
  Proof. intros s T. unfold keys_ok. rewrite <- view_keys. exact (tr_edges _ T). Qed.

  (** ** the affected edges *)
  Lemma linked_flag : forall (s : env) u v, treeV (view s) -> linked (view s) u v ->
    (exists d, flag s u v = Some d) /\ linked (view s) v u.
  Proof.
    intros s u v T (e & He & <- & <-). assert (K := tree_keys s T). split.
    - exists (e_def e). assert (F := find_edge_In _ e (tr_edges _ T) He). cbn [view c_edges] in F.
      rewrite find_map in F by reflexivity. unfold flag.
      destruct (find_edge (c_edges (v_mgr s)) (e_src e) (e_dst e)) as [x|]; [ | discriminate ].
      cbn [option_map] in *. injection F as <-. reflexivity.
    - destruct (e_def e) eqn:De.
      + destruct (tr_reverse _ T e He De) as (t & _ & Q). eexists. split; [ exact Q | auto ].
      + destruct (tr_defined _ T e He De) as (t & Q & _). eexists. split; [ exact Q | auto ].
  Qed.

  Lemma flag_linked : forall (s : env) u v d, flag s u v = Some d -> linked (view s) u v.
  Proof.
    intros s u v d H. destruct (flag_find s u v d H) as (x & _ & _ & Hx & E1 & E2).
    exists (view_edge (v_objs s) x). split; [ cbn [view c_edges]; apply in_map; exact Hx | split; assumption ].
  Qed.

  Lemma parent_path : forall (s : env) n, treeV (view s) -> In n (cs_names (v_mgr s)) -> n <> c_root (v_mgr s) ->
    exists p q, get_parent (v_mgr s) n = Ok (Some p) /\ simple_path (linked (view s)) n (n :: p :: q) (c_root (v_mgr s)) /\
      linked (view s) n p.
  Proof.
    intros s n T Hn Nr. destruct (tr_path _ T n (c_root (v_mgr s)) Hn (tr_root _ T)) as (p & P & U).
    assert (S : shortest_path (c_edges (view s)) n (c_root (v_mgr s)) = Some p).
    { apply shortest_path_unique; [ exact P | eapply path_bound; exact P | exact U ]. }
    cbn [view c_edges] in S. rewrite shortest_path_map in S by reflexivity.
    destruct P as [W N]. inversion W as [|? b ? p' L W' E1 E2 E3]; [ congruence | ]. subst.
    destruct (walk_head _ _ _ _ W') as [q ->].
    exists b, q. split; [ | split; [ split; assumption | exact L ] ].
    unfold get_parent. destruct (String.eqb_spec n (c_root (v_mgr s))) as [Q|_]; [ contradiction | ].
    apply has_cs_In in Hn. rewrite Hn, S. reflexivity.
  Qed.

  Definition keys_of (c : csm nat D) (names : option (list string)) : res (list pair_key) :=
    match names with
    | Some ns => affected_edges c ns
    | None => Ok (map (fun x => (Some (e_src x), Some (e_dst x))) (c_edges c))
    end.

  Lemma affected_ok : forall (s : env) names, treeV (view s) -> names_ok s names ->
    exists ks, keys_of (v_mgr s) names = Ok ks /\ (forall k, In k ks -> present s k) /\
      (forall u v d, flag s u v = Some d -> (In (Some u, Some v) ks <-> concerns s names u v)).
  Proof.
    intros s [ns|] T Hn; cbn [keys_of names_ok concerns] in *.
    - induction ns as [|n ns IH]; cbn [affected_edges].
      + exists []. split; [ reflexivity | ]. split; [ intros k [] | ]. intros u v d _. split; [ intros [] | intros (n & p & q & [] & _) ].
      + destruct (Hn n (or_introl eq_refl)) as [N1 N2]. destruct (parent_path s n T N1 N2) as (p & q & E & P & L).
        destruct IH as (ks & Ek & Pk & Ck); [ intros m Hm; apply Hn; right; exact Hm | ].
        rewrite E. cbn [bind]. rewrite Ek. cbn [bind]. eexists. split; [ reflexivity | ].
        destruct (linked_flag s n p T L) as [[d1 F1] L']. destruct (linked_flag s p n T L') as [[d2 F2] _]. split.
        * intros k [<-|[<-|H]]; [ exists n, p, d1; auto | exists p, n, d2; auto | auto ].
        * intros u v d F. cbn [In]. rewrite (Ck u v d F). split.
          -- intros [H|[H|(m & p' & q' & H & H')]].
             ++ injection H as <- <-. exists n, p, q. auto.
             ++ injection H as <- <-. exists n, p, q. auto.
             ++ exists m, p', q'. auto.
          -- intros (m & p' & q' & [<-|H] & P' & Q); [ | right; right; exists m, p', q'; auto ].
             assert (p' :: q' = p :: q) as Eq.
             { destruct (tr_path _ T n (c_root (v_mgr s)) N1 (tr_root _ T)) as (r & _ & U).
               assert (n :: p' :: q' = n :: p :: q) as X by (rewrite (U _ P), (U _ P'); reflexivity). injection X as -> ->. reflexivity. }
             injection Eq as -> ->. destruct Q as [[-> ->]|[-> ->]]; auto.
    - eexists. split; [ reflexivity | ]. assert (K := tree_keys s T). split.
      + intros k H. apply in_map_iff in H. destruct H as (x & <- & H). exists (e_src x), (e_dst x), (e_def x).
        split; [ reflexivity | ]. unfold flag. rewrite find_edge_In by assumption. reflexivity.
      + intros u v d F. split; [ auto | ]. intros _. destruct (flag_find s u v d F) as (x & _ & _ & Hx & <- & <-).
        apply in_map_iff. exists x. auto.
  Qed.

  Lemma interp_unfold : forall (s : env) t tref names, interp_in_place sl s t tref names =
    match keys_of (v_mgr s) names with
    | Err e => (s, Err e)
    | Ok ks =>
        match interp_defined sl s ks (option_map (with_ref tref) t) with
        | (s', Err e) => (s', Err e)
        | (s', Ok _) => invert_others sl s' ks
        end
    end.
  Proof. intros s t tref [ns|]; reflexivity. Qed.

  (** ** the whole operation *)
  Lemma tree_flags : forall (s : env) u v, treeV (view s) -> flag s u v = Some false ->
    flag s v u = Some true.
  Proof.
    intros s u v T F. destruct (flag_find s u v false F) as (x & _ & Dx & Hx & <- & <-).
    assert (He : In (view_edge (v_objs s) x) (c_edges (view s))) by (cbn [view c_edges]; apply in_map; exact Hx).
    destruct (tr_defined _ T _ He Dx) as (t & Q & _). apply (proj1 (system_iff s (e_dst x) (e_src x) true t (tree_keys s T)) Q).
  Qed.
  Lemma tree_flags' : forall (s : env) u v, treeV (view s) -> flag s u v = Some true ->
    flag s v u = Some false /\ exists l, obj s u v = Some l.
  Proof.
    intros s u v T F. destruct (flag_find s u v true F) as (x & Fx & Dx & Hx & <- & <-).
    assert (He : In (view_edge (v_objs s) x) (c_edges (view s))) by (cbn [view c_edges]; apply in_map; exact Hx).
    destruct (tr_reverse _ T _ He Dx) as (t & E & Q). cbn [view_edge e_src e_dst] in Q. split.
    - assert (F2 := find_edge_In _ _ (tr_edges _ T) Q). cbn [e_src e_dst] in F2. cbn [view c_edges] in F2.
      rewrite find_map in F2 by reflexivity. unfold flag.
      destruct (find_edge (c_edges (v_mgr s)) (e_dst x) (e_src x)) as [y|]; [ | discriminate ].
      cbn [option_map] in *. apply (f_equal (option_map e_def)) in F2. exact F2.
    - exists t. unfold obj. rewrite Fx. exact E.
  Qed.

  (** ** the result is a tree again *)
  Lemma view_find : forall (s : env) u v d, flag s u v = Some d -> In (Edge u v (obj s u v) d) (c_edges (view s)).
  Proof.
    intros s u v d F. destruct (flag_find s u v d F) as (x & Fx & Dx & Hx & Ex & Ey).
    unfold obj. rewrite Fx. subst. cbn [view c_edges]. apply (in_map (view_edge (v_objs s))) in Hx. exact Hx.
  Qed.
  Lemma view_In : forall (s : env) e, keys_ok s -> In e (c_edges (view s)) ->
    flag s (e_src e) (e_dst e) = Some (e_def e) /\ e_tr e = obj s (e_src e) (e_dst e).
  Proof.
    intros s e K H. cbn [view c_edges] in H. apply in_map_iff in H. destruct H as (x & <- & Hx).
    cbn [view_edge e_src e_dst e_def e_tr]. unfold flag, obj. rewrite find_edge_In by assumption. split; reflexivity.
  Qed.

  Lemma tree_transfer : forall s s' : env, treeV (view s) -> same_frame (v_mgr s) (v_mgr s') ->
    (forall u v, flag s u v = Some true -> exists l, obj s' u v = Some l /\ obj s' v u = @stored_inverse tlcs ops l) ->
    treeV (view s').
  Proof.
    intros s s' T Fr H. assert (K := tree_keys s T). assert (K' : keys_ok s') by (eapply frame_keys; eassumption).
    assert (Fl : forall u v, flag s' u v = flag s u v) by (intros; apply frame_flag; exact Fr).
    assert (Ns : cs_names (view s') = cs_names (view s)) by (unfold cs_names; cbn [view c_nodes]; destruct Fr as (_ & _ & _ & _ & -> & _); reflexivity).
    assert (Rs : c_root (view s') = c_root (view s)) by (cbn [view c_root]; destruct Fr as (_ & _ & -> & _); reflexivity).
    assert (Ls : forall u v, linked (view s') u v <-> linked (view s) u v).
    { intros u v. split; intros (e & He & <- & <-).
      - apply view_In in He; [ | exact K' ]. destruct He as [He _]. rewrite Fl in He. eapply flag_linked. exact He.
      - apply view_In in He; [ | exact K ]. destruct He as [He _]. rewrite <- Fl in He. eapply flag_linked. exact He. }
    constructor.
    - rewrite Ns, Rs. apply (tr_root _ T).
    - rewrite Ns. apply (tr_nodes _ T).
    - exact (eq_ind_r (fun l => NoDup l) K' (view_keys s')).
    - intros e He. rewrite Ns. assert (L : linked (view s') (e_src e) (e_dst e)) by (exists e; auto).
      apply Ls in L. destruct L as (e0 & He0 & <- & <-). exact (tr_ends _ T e0 He0).
    - intros e He De. apply view_In in He; [ | exact K' ]. destruct He as [F E]. rewrite De, Fl in F.
      destruct (H _ _ F) as (l & O & O'). exists l. split; [ congruence | ]. rewrite <- O'. apply view_find.
      rewrite Fl. apply (tree_flags' s _ _ T F).
    - intros e He De. apply view_In in He; [ | exact K' ]. destruct He as [F E]. rewrite De, Fl in F.
      assert (F' := tree_flags s _ _ T F). destruct (H _ _ F') as (l & O & O'). exists l. split; [ | congruence ].
      rewrite <- O. apply view_find. rewrite Fl. exact F'.
    - intros a b Ha Hb. rewrite Ns in Ha, Hb. destruct (tr_path _ T a b Ha Hb) as (p & P & U). exists p.
      split; [ apply (walk_iff _ _ Ls); exact P | ]. intros q Q. apply U. apply (walk_iff _ _ Ls). exact Q.
  Qed.

  Variable ts : list Z.
  Variable R : option Z.
  Hypothesis Sorted_ts : StronglySorted Z.lt ts.
  Hypothesis Some_ts : ts <> [].

  Lemma in_place_ok : forall (s : env) t tref names, treeV (view s) -> names_ok s names ->
    option_map (with_ref tref) t = Some (RT ts R) ->
    (forall u v l, system s u v true l -> fine (v_mgr s) R l) ->
    exists s', interp_in_place sl s t tref names = (s', Ok tt) /\ same_frame (v_mgr s) (v_mgr s') /\
      (forall u v l, system s u v true l ->
         (concerns s names u v -> exists l' i, system s' u v true l' /\ same_poses sl (v_mgr s) ts R l l' /\ done ts R l' /\
            tlcs_invert sl l' = Ok i /\ system s' v u false i) /\
         (~ concerns s names u v -> exists l', system s' u v true l' /\ (l' = l \/ l' = dated (c_ref (v_mgr s)) l))) /\
      (forall u v i, system s u v false i -> ~ concerns s names u v ->
         exists i', system s' u v false i' /\ (i' = i \/ i' = dated (c_ref (v_mgr s)) i)) /\
      (forall u v, ~ concerns s names u v -> find_edge (c_edges (v_mgr s')) u v = find_edge (c_edges (v_mgr s)) u v) /\
      (forall u v, names = None -> flag s u v = Some true -> exists l, system s u v true l).
  Proof.
    intros s t tref names T Hn Et Hf. destruct (affected_ok s names T Hn) as (ks & Ek & Pk & Ck).
    assert (K := tree_keys s T).
    assert (Af : all_fine (v_mgr s) R s).
    { intros u v F. destruct (tree_flags' s u v T F) as [_ [l O]]. exists l. split; [ exact O | ].
      apply (Hf u v). apply system_iff; auto. }
    destruct (interp_defined_ok sl SL (v_mgr s) ts R Sorted_ts Some_ts ks s K eq_refl Af Pk) as (s1 & E1 & V1 & Q1).
    assert (Af1 := evolves_fine sl (v_mgr s) ts R _ _ _ V1 Af).
    assert (V := V1). destruct V as (Fr1 & Da1 & Po1 & Fi1).
    assert (K1 : keys_ok s1) by (eapply frame_keys; eassumption).
    assert (Sy : forall u v, concerns s names u v <-> concerns s names v u).
    { intros u v. unfold concerns. destruct names as [ns|]; [ | tauto ].
      split; intros (n & p & q & H & P & Q); exists n, p, q; (split; [ exact H | split; [ exact P | tauto ] ]). }
    destruct (invert_others_ok sl SL ks s1 K1) as (s2 & E2 & V2).
    { intros k H. destruct (Pk k H) as (u & v & d & -> & F). exists u, v, d. split; [ reflexivity | ].
      rewrite (frame_flag s s1 u v Fr1). exact F. }
    { intros u v H F. rewrite (frame_flag s s1 u v Fr1) in F. assert (F' := tree_flags s u v T F).
      split; [ rewrite (frame_flag s s1 v u Fr1); exact F' | ].
      assert (H' : In (Some v, Some u) ks) by (apply (Ck v u true F'); apply Sy; apply (Ck u v false F); exact H).
      destruct (Q1 v u H' F') as (l & O & Dn). exists l. split; [ exact O | ].
      destruct (Af1 v u) as (l2 & O2 & Fl); [ rewrite (frame_flag s s1 v u Fr1); exact F' | ].
      rewrite O in O2. injection O2 as <-. split; [ apply Fl | apply Dn ]. }
    assert (V := V2). destruct V as (Fr2 & Da2 & Fi2 & Po2).
    assert (Fr : same_frame (v_mgr s) (v_mgr s2)) by (eapply frame_trans; eassumption).
    assert (K2 : keys_ok s2) by (eapply frame_keys; eassumption).
    assert (Fl2 : forall u v, flag s2 u v = flag s u v) by (intros; apply frame_flag; exact Fr).
    assert (Fl1 : forall u v, flag s1 u v = flag s u v) by (intros; apply frame_flag; exact Fr1).
    assert (Nc : forall u v, ~ concerns s names u v -> find_edge (c_edges (v_mgr s2)) u v = find_edge (c_edges (v_mgr s)) u v).
    { intros u v H. assert (~ In (Some u, Some v) ks) as Nk.
      { intros Hk. destruct (Pk _ Hk) as (u' & v' & d & E & F). injection E as <- <-. apply H. apply (Ck u v d F). exact Hk. }
      rewrite Fi2, Fi1; [ reflexivity | right; exact Nk | right; exact Nk ]. }
    assert (Dt : forall u v l, ~ concerns s names u v -> obj s u v = Some l ->
              exists l', obj s2 u v = Some l' /\ (l' = l \/ l' = dated (c_ref (v_mgr s)) l)).
    { intros u v l H O. unfold obj in *. rewrite (Nc u v H). destruct (find_edge (c_edges (v_mgr s)) u v) as [x|]; [ | discriminate ].
      destruct (e_tr x) as [a|]; [ | discriminate ]. destruct (Da1 a l O) as (l' & O' & Q). exists l'. split; [ apply Da2; exact O' | exact Q ]. }
    exists s2. split.
    { rewrite interp_unfold, Ek, Et, E1. exact E2. }
    split; [ exact Fr | ]. split; [ | split; [ | split; [ exact Nc | ] ] ].
    - intros u v l Sl. apply system_iff in Sl; [ | exact K ]. destruct Sl as [O F]. split.
      + intros C. assert (Hk : In (Some u, Some v) ks) by (apply (Ck u v true F); exact C).
        destruct (Po1 u v l F O) as (l' & O' & P' & _).
        { apply (Hf u v). apply system_iff; auto. }
        destruct (Q1 u v Hk F) as (l2 & O2 & Dn). rewrite O' in O2. injection O2 as <-.
        destruct (tree_flags' s u v T F) as [F' _].
        assert (Hk' : In (Some v, Some u) ks) by (apply (Ck v u false F'); apply Sy; exact C).
        destruct (Po2 v u l' Hk') as (i & Ei & Oi); [ rewrite Fl1; exact F' | exact O' | ].
        exists l', i. split.
        { apply system_iff; [ exact K2 | ]. split; [ | rewrite Fl2; exact F ].
          apply (turned_obj sl ks s1 s2); [ exact V2 | left; rewrite Fl1; congruence | exact O' ]. }
        split; [ exact P' | ]. split; [ exact Dn | ]. split; [ exact Ei | ].
        apply system_iff; [ exact K2 | ]. split; [ exact Oi | rewrite Fl2; exact F' ].
      + intros C. destruct (Dt u v l C O) as (l' & O' & Q). exists l'. split; [ | exact Q ].
        apply system_iff; [ exact K2 | ]. split; [ exact O' | rewrite Fl2; exact F ].
    - intros u v i Si C. apply system_iff in Si; [ | exact K ]. destruct Si as [O F].
      destruct (Dt u v i C O) as (i' & O' & Q). exists i'. split; [ | exact Q ].
      apply system_iff; [ exact K2 | ]. split; [ exact O' | rewrite Fl2; exact F ].
    - intros u v _ F. destruct (tree_flags' s u v T F) as [_ [l O]]. exists l. apply system_iff; auto.
  Qed.

  Lemma in_place_tree : forall (s : env) t tref names s', treeV (view s) -> names_ok s names ->
    option_map (with_ref tref) t = Some (RT ts R) ->
    (forall u v l, system s u v true l -> fine (v_mgr s) R l) ->
    names = None \/ c_ref (v_mgr s) = None -> no_dangling s ->
    interp_in_place sl s t tref names = (s', Ok tt) -> treeV (view s').
  Proof.
    intros s t tref names s' T Hn Et Hf Hc Cl E.
    destruct (in_place_ok s t tref names T Hn Et Hf) as (s2 & E2 & Fr & P1 & P2 & P3 & _). rewrite E in E2. injection E2 as <-.
    assert (K := tree_keys s T). assert (K' : keys_ok s') by (eapply frame_keys; eassumption).
    apply (tree_transfer s); [ exact T | exact Fr | ]. intros u v F.
    destruct (tree_flags' s u v T F) as [F' [l O]].
    assert (Sl : system s u v true l) by (apply system_iff; auto). destruct (P1 u v l Sl) as [Q1 Q2].
    assert (Aff : concerns s names u v -> exists l, obj s' u v = Some l /\ obj s' v u = @stored_inverse tlcs ops l).
    { intros C. destruct (Q1 C) as (l' & i & S1 & _ & Dn & Ei & S2). apply system_iff in S1; [ | exact K' ]. apply system_iff in S2; [ | exact K' ].
      exists l'. split; [ apply S1 | ]. destruct S2 as [-> _]. unfold stored_inverse. cbn [tlcs_ops l_expr l_inv]. destruct Dn as [-> _]. rewrite Ei. reflexivity. }
    destruct Hc as [->|Hc]; [ apply Aff; exact Logic.I | ].
    assert (Id : forall l, dated (c_ref (v_mgr s)) l = l).
    { intros k. unfold dated. rewrite Hc. destruct (tl_ref k); reflexivity. }
    assert (Dec : concerns s names u v \/ ~ concerns s names u v).
    { destruct (affected_ok s names T Hn) as (ks & _ & _ & Ck). specialize (Ck u v true F).
      destruct (in_dec (fun a b : pair_key => ltac:(decide equality; decide equality; apply string_dec)) (Some u, Some v) ks); tauto. }
    destruct Dec as [C|C]; [ auto | ]. destruct (Q2 C) as (l' & S1 & Q). assert (l' = l) as -> by (destruct Q as [->| ->]; auto).
    apply system_iff in S1; [ | exact K' ]. exists l. split; [ apply S1 | ].
    assert (C' : ~ concerns s names v u).
    { intros H. apply C. unfold concerns in *. destruct names as [ns|]; [ | exact H ].
      destruct H as (n & p & q & H1 & H2 & H3). exists n, p, q. tauto. }
    assert (Or : obj s v u = @stored_inverse tlcs ops l).
    { assert (Hd := view_find s u v true F). rewrite O in Hd. destruct (tr_reverse _ T _ Hd eq_refl) as (k & E1 & E2). cbn in E1. injection E1 as <-.
      apply view_In in E2; [ | exact K ]. symmetry. exact (proj2 E2). }
    rewrite <- Or. destruct (obj s v u) as [i|] eqn:Oi.
    - destruct (P2 v u i) as (i' & S2 & Q'); [ apply system_iff; auto | exact C' | ]. apply system_iff in S2; [ | exact K' ].
      destruct S2 as [-> _]. destruct Q' as [->| ->]; rewrite ?Id; reflexivity.
    - assert (Fe := P3 v u C'). unfold obj in *. rewrite Fe.
      destruct (find_edge (c_edges (v_mgr s)) v u) as [x|] eqn:Fx; [ | reflexivity ]. destruct (e_tr x) as [a|] eqn:Ex; [ | reflexivity ].
      exfalso. apply find_edge_Some in Fx. apply nth_error_None in Oi. assert (L := Cl x a (proj1 Fx) Ex). lia.
  Qed.
End Tree.

Section Copy.
  Context (sl : segment mat) {D : Type}.
  Notation env := (env D).

  Lemma view_copy : forall s : env, view (deepcopy s) = view s.
  Proof.
    intros [c h]. unfold view, deepcopy. cbn [v_mgr v_objs set_graph c_name c_ref c_root c_subs c_nodes c_edges].
    f_equal. rewrite map_map. apply map_ext. intros [u v [a|] d]; [ | reflexivity ].
    unfold view_edge, move. cbn [e_src e_dst e_tr e_def option_map]. f_equal.
    rewrite nth_error_app2 by lia. f_equal. lia.
  Qed.

  (** ** which objects change *)
  Definition above (n : nat) (s : env) : Prop :=
    (n <= List.length (v_objs s))%nat /\ forall x a, In x (c_edges (v_mgr s)) -> e_tr x = Some a -> (n <= a)%nat.
  Definition low_same (n : nat) (s s' : env) : Prop := forall a, (a < n)%nat -> nth_error (v_objs s') a = nth_error (v_objs s) a.

  Lemma set_edge_sub : forall (T : Type) (e x : edge T) es, In x (set_edge e es) -> x = e \/ In x es.
  Proof.
    intros T e x es. induction es as [|y es IH]; cbn [set_edge]; [ intros [<-|[]]; auto | ].
    destruct (String.eqb (e_src y) (e_src e) && String.eqb (e_dst y) (e_dst e)); cbn [In]; [ intuition | ].
    intros [<-|H]; [ auto | ]. destruct (IH H); auto.
  Qed.

  Lemma above_new : forall n (c : csm nat D) h h' x, above n (Env c h) -> (List.length h <= List.length h')%nat ->
    above n (Env (set_tr c x (List.length h)) h').
  Proof.
    intros n c h h' x [A1 A2] L. cbn [v_objs v_mgr] in *. split; [ cbn [v_objs]; lia | ].
    intros y a Hy Ey. cbn [v_mgr set_tr set_graph c_edges] in Hy. apply set_edge_sub in Hy. destruct Hy as [->|Hy].
    - cbn in Ey. injection Ey as <-. exact A1.
    - exact (A2 y a Hy Ey).
  Qed.

  Lemma interp_edge_low : forall n s x t s' r, above n s -> In x (c_edges (v_mgr s)) -> interp_edge sl s x t = (s', r) ->
    above n s' /\ low_same n s s'.
  Proof.
    intros n [c h] x t s' r A Hx H. unfold interp_edge in H. cbn [v_mgr v_objs] in *.
    destruct (e_tr x) as [a|] eqn:Ea; [ | injection H as <- <-; split; [ exact A | intros ? ?; reflexivity ] ].
    destruct (nth_error h a) as [l|] eqn:El; [ | injection H as <- <-; split; [ exact A | intros ? ?; reflexivity ] ].
    assert (La : (n <= a)%nat) by (destruct A as [_ A]; exact (A x a Hx Ea)).
    set (d := dated (c_ref c) l) in H. set (h1 := upd a d h) in H.
    assert (A1 : above n (Env c h1)).
    { destruct A as [A1 A2]. split; cbn [v_objs v_mgr] in *; [ unfold h1; rewrite upd_length; exact A1 | exact A2 ]. }
    assert (L1 : forall k, (k < n)%nat -> nth_error h1 k = nth_error h k) by (intros k Hk; apply upd_other; lia).
    destruct (negb (is_time_dependent d) || negb (LcsTimeModel.is_some t)); [ injection H as <- <-; split; [ exact A1 | exact L1 ] | ].
    destruct (interp_time sl d t) as [l'|e]; injection H as <- <-; (split; [ | ]).
    - apply above_new; [ exact A1 | rewrite app_length; lia ].
    - intros k Hk. cbn [v_objs]. rewrite nth_error_app1; [ apply L1; exact Hk | destruct A1 as [A1 _]; cbn [v_objs] in A1; lia ].
    - exact A1.
    - exact L1.
  Qed.

  Lemma lookup_In : forall (c : csm nat D) k x, lookup c k = Ok x -> In x (c_edges c).
  Proof.
    intros c [[u|] [v|]] x H; cbn [lookup] in H; try discriminate.
    destruct (find_edge (c_edges c) u v) as [y|] eqn:F; [ | discriminate ]. injection H as <-.
    apply find_edge_Some in F. apply F.
  Qed.

  Lemma interp_defined_low : forall n ks s t s' r, above n s -> interp_defined sl s ks t = (s', r) -> above n s' /\ low_same n s s'.
  Proof.
    intros n ks. induction ks as [|k ks IH]; intros s t s' r A H; cbn [interp_defined] in H.
    - injection H as <- <-. split; [ exact A | intros ? ?; reflexivity ].
    - destruct (lookup (v_mgr s) k) as [x|e] eqn:L; [ | injection H as <- <-; split; [ exact A | intros ? ?; reflexivity ] ].
      destruct (e_def x); [ | eauto ]. destruct (interp_edge sl s x t) as [s1 [u|e]] eqn:E.
      + destruct (interp_edge_low n s x t s1 _ A (lookup_In _ _ _ L) E) as [A1 L1].
        destruct (IH s1 t s' r A1 H) as [A2 L2]. split; [ exact A2 | ]. intros a Ha. rewrite (L2 a Ha). apply L1. exact Ha.
      + injection H as <- <-. exact (interp_edge_low n s x t s1 _ A (lookup_In _ _ _ L) E).
  Qed.

  Lemma invert_others_low : forall n ks s s' r, above n s -> invert_others sl s ks = (s', r) -> above n s' /\ low_same n s s'.
  Proof.
    intros n ks. induction ks as [|k ks IH]; intros s s' r A H; cbn [invert_others] in H.
    - injection H as <- <-. split; [ exact A | intros ? ?; reflexivity ].
    - assert (St : forall e : exn, (s, Err e : res unit) = (s', r) -> above n s' /\ low_same n s s').
      { intros e Q. injection Q as <- <-. split; [ exact A | intros ? ?; reflexivity ]. }
      destruct (lookup (v_mgr s) k) as [x|e] eqn:L; [ | eauto ]. destruct (e_def x); [ eauto | ].
      destruct (lookup (v_mgr s) (snd k, fst k)) as [y|e]; [ | eauto ]. destruct (e_tr y) as [a|]; [ | eauto ].
      destruct (nth_error (v_objs s) a) as [l|]; [ | eauto ]. destruct (tlcs_invert sl l) as [i|e]; [ | eauto ].
      destruct (IH _ s' r (above_new n (v_mgr s) (v_objs s) (v_objs s ++ [i]) x (match s as s return above n s -> above n (Env (v_mgr s) (v_objs s)) with Env _ _ => fun H => H end A) ltac:(rewrite app_length; lia)) H) as [A2 L2].
      split; [ exact A2 | ]. intros b Hb. rewrite (L2 b Hb). cbn [v_objs]. rewrite nth_error_app1; [ reflexivity | destruct A as [A _]; lia ].
  Qed.

  Lemma in_place_low : forall n s t tref names s' r, above n s -> interp_in_place sl s t tref names = (s', r) ->
    above n s' /\ low_same n s s'.
  Proof.
    intros n s t tref names s' r A H. rewrite interp_unfold in H.
    destruct (keys_of (v_mgr s) names) as [ks|e]; [ | injection H as <- <-; split; [ exact A | intros ? ?; reflexivity ] ].
    destruct (interp_defined sl s ks (option_map (with_ref tref) t)) as [s1 [u|e]] eqn:E.
    - destruct (interp_defined_low n ks s _ s1 _ A E) as [A1 L1]. destruct (invert_others_low n ks s1 s' r A1 H) as [A2 L2].
      split; [ exact A2 | ]. intros a Ha. rewrite (L2 a Ha). apply L1. exact Ha.
    - injection H as <- <-. exact (interp_defined_low n ks s _ s1 _ A E).
  Qed.

  Lemma copy_above : forall s : env, above (List.length (v_objs s)) (deepcopy s).
  Proof.
    intros s. split; [ cbn [deepcopy v_objs]; rewrite app_length; lia | ].
    intros x a Hx Ex. cbn [deepcopy v_mgr set_graph c_edges] in Hx. apply in_map_iff in Hx. destruct Hx as (y & <- & _).
    cbn [move e_tr] in Ex. destruct (e_tr y); [ | discriminate ]. cbn in Ex. injection Ex as <-. lia.
  Qed.

  (** in place: old objects only get a reference time, and only those on defined edges *)
  Definition held (c : csm nat D) (n a : nat) : Prop := exists x, In x (c_edges c) /\ e_def x = true /\ e_tr x = Some a /\ (a < n)%nat.
  Definition touches (n : nat) (s s' : env) : Prop :=
    c_ref (v_mgr s') = c_ref (v_mgr s) /\
    (forall a l, nth_error (v_objs s) a = Some l -> exists l', nth_error (v_objs s') a = Some l' /\
       (l' = l \/ (l' = dated (c_ref (v_mgr s)) l /\ ((a < n)%nat -> held (v_mgr s) n a)))) /\
    (forall a, held (v_mgr s') n a -> held (v_mgr s) n a).

  Lemma touches_refl : forall n s, touches n s s.
  Proof. intros n s. split; [ reflexivity | ]. split; [ eauto | auto ]. Qed.
  Lemma touches_trans : forall n a b c, touches n a b -> touches n b c -> touches n a c.
  Proof.
    intros n a b c (A1 & A2 & A3) (B1 & B2 & B3). split; [ congruence | ]. split; [ | auto ].
    intros k l H. destruct (A2 k l H) as (l' & H' & Q). destruct (B2 k l' H') as (l'' & H'' & Q'). exists l''. split; [ exact H'' | ].
    rewrite A1 in Q'. destruct Q as [->|[-> Q]], Q' as [->|[-> Q']]; auto.
    right. rewrite dated_idem. auto.
  Qed.

  Lemma held_new : forall n (c : csm nat D) x k a, (n <= k)%nat -> held (set_tr c x k) n a -> held c n a.
  Proof.
    intros n c x k a L (y & Hy & Dy & Ey & La). cbn [set_tr set_graph c_edges] in Hy. apply set_edge_sub in Hy.
    destruct Hy as [->|Hy]; [ cbn in Ey; injection Ey as <-; lia | ]. exists y. auto.
  Qed.

  Lemma interp_edge_touches : forall n s x t s' r, (n <= List.length (v_objs s))%nat -> In x (c_edges (v_mgr s)) -> e_def x = true ->
    interp_edge sl s x t = (s', r) -> touches n s s' /\ (n <= List.length (v_objs s'))%nat.
  Proof.
    intros n [c h] x t s' r L Hx Dx H. unfold interp_edge in H. cbn [v_mgr v_objs] in *.
    destruct (e_tr x) as [a|] eqn:Ea; [ | injection H as <- <-; split; [ apply touches_refl | exact L ] ].
    destruct (nth_error h a) as [l|] eqn:El; [ | injection H as <- <-; split; [ apply touches_refl | exact L ] ].
    set (d := dated (c_ref c) l) in H. set (h1 := upd a d h) in H.
    assert (L1 : (n <= List.length h1)%nat) by (unfold h1; rewrite upd_length; exact L).
    assert (T1 : forall b k, nth_error h b = Some k -> exists k', nth_error h1 b = Some k' /\ (k' = k \/ (k' = dated (c_ref c) k /\ ((b < n)%nat -> held c n b)))).
    { intros b k Hb. destruct (Nat.eq_dec b a) as [->|Ne].
      - rewrite El in Hb. injection Hb as <-. exists d. split; [ apply upd_same; apply nth_error_Some; congruence | ].
        right. split; [ reflexivity | ]. intros Lb. exists x. auto.
      - exists k. split; [ unfold h1; rewrite upd_other by exact Ne; exact Hb | auto ]. }
    destruct (negb (is_time_dependent d) || negb (LcsTimeModel.is_some t)).
    { injection H as <- <-. split; [ split; [ reflexivity | split; [ exact T1 | auto ] ] | exact L1 ]. }
    destruct (interp_time sl d t) as [l'|e]; injection H as <- <-.
    - split; [ | cbn [v_objs]; rewrite app_length; lia ]. split; [ reflexivity | ]. split.
      + intros b k Hb. destruct (T1 b k Hb) as (k' & H' & Q). exists k'. split; [ | exact Q ].
        cbn [v_objs]. rewrite nth_error_app1; [ exact H' | apply nth_error_Some; congruence ].
      + intros b. apply held_new. exact L1.
    - split; [ split; [ reflexivity | split; [ exact T1 | auto ] ] | exact L1 ].
  Qed.

  Lemma interp_defined_touches : forall n ks s t s' r, (n <= List.length (v_objs s))%nat ->
    interp_defined sl s ks t = (s', r) -> touches n s s' /\ (n <= List.length (v_objs s'))%nat.
  Proof.
    intros n ks. induction ks as [|k ks IH]; intros s t s' r L H; cbn [interp_defined] in H.
    - injection H as <- <-. split; [ apply touches_refl | exact L ].
    - destruct (lookup (v_mgr s) k) as [x|e] eqn:Lk; [ | injection H as <- <-; split; [ apply touches_refl | exact L ] ].
      destruct (e_def x) eqn:Dx; [ | eauto ]. destruct (interp_edge sl s x t) as [s1 [u|e]] eqn:E.
      + destruct (interp_edge_touches n s x t s1 _ L (lookup_In _ _ _ Lk) Dx E) as [T1 L1].
        destruct (IH s1 t s' r L1 H) as [T2 L2]. split; [ eapply touches_trans; eassumption | exact L2 ].
      + injection H as <- <-. exact (interp_edge_touches n s x t s1 _ L (lookup_In _ _ _ Lk) Dx E).
  Qed.

  Lemma invert_others_touches : forall n ks s s' r, (n <= List.length (v_objs s))%nat ->
    invert_others sl s ks = (s', r) -> touches n s s' /\ (n <= List.length (v_objs s'))%nat.
  Proof.
    intros n ks. induction ks as [|k ks IH]; intros s s' r L H; cbn [invert_others] in H.
    - injection H as <- <-. split; [ apply touches_refl | exact L ].
    - assert (St : forall e : exn, (s, Err e : res unit) = (s', r) -> touches n s s' /\ (n <= List.length (v_objs s'))%nat).
      { intros e Q. injection Q as <- <-. split; [ apply touches_refl | exact L ]. }
      destruct (lookup (v_mgr s) k) as [x|e] eqn:Lk; [ | eauto ]. destruct (e_def x) eqn:Dx; [ eauto | ].
      destruct (lookup (v_mgr s) (snd k, fst k)) as [y|e]; [ | eauto ]. destruct (e_tr y) as [a|]; [ | eauto ].
      destruct (nth_error (v_objs s) a) as [l|]; [ | eauto ]. destruct (tlcs_invert sl l) as [i|e]; [ | eauto ].
      assert (L1 : (n <= List.length (v_objs s ++ [i]))%nat) by (rewrite app_length; lia).
      match type of H with invert_others _ ?e _ = _ => destruct (IH e s' r L1 H) as [T2 L2] end. split; [ | exact L2 ].
      eapply touches_trans; [ | exact T2 ]. split; [ reflexivity | ]. split.
      + intros b m Hb. exists m. split; [ cbn [v_objs]; rewrite nth_error_app1; [ exact Hb | apply nth_error_Some; congruence ] | auto ].
      + intros b. apply held_new. exact L.
  Qed.

  Lemma in_place_touches : forall s t tref names s' r, interp_in_place sl s t tref names = (s', r) ->
    touches (List.length (v_objs s)) s s'.
  Proof.
    intros s t tref names s' r H. rewrite interp_unfold in H.
    destruct (keys_of (v_mgr s) names) as [ks|e]; [ | injection H as <- <-; apply touches_refl ].
    destruct (interp_defined sl s ks (option_map (with_ref tref) t)) as [s1 [u|e]] eqn:E.
    - destruct (interp_defined_touches _ ks s _ s1 _ (le_n _) E) as [T1 L1]. destruct (invert_others_touches _ ks s1 s' r L1 H) as [T2 _].
      eapply touches_trans; eassumption.
    - injection H as <- <-. exact (proj1 (interp_defined_touches _ ks s _ s1 _ (le_n _) E)).
  Qed.
End Copy.
