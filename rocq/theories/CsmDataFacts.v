(** Data dictionaries of the manager: names are unique, owners are stable. *)
From Coq Require Import List String Bool Arith Lia Permutation.
From Verif Require Import Base CsmModel CsmSpec TreeFacts CsmGraphFacts CsmTreeFacts CsmSubFacts.
Import ListNotations.

(** ** dictionaries *)
Section Dict.
  Context {V : Type}.

  Lemma dget_split : forall k (d : dict V) v, dget k d = Some v ->
    exists a b, d = a ++ (k, v) :: b /\ ~ In k (dkeys a) /\
                forall w, dset k w d = a ++ (k, w) :: b.
  Proof.
    intros k d. induction d as [|[k' v'] d IH]; intros v H; cbn [dget] in H; [ discriminate | ].
    destruct (String.eqb_spec k k') as [->|Hn].
    - injection H as ->. exists [], d. split; [ reflexivity | ]. split; [ intros [] | ].
      intros w. cbn [dset app]. rewrite String.eqb_refl. reflexivity.
    - destruct (IH v H) as (a & b & -> & Na & S). exists ((k', v') :: a), b.
      split; [ reflexivity | ]. split.
      + cbn [dkeys map fst In]. intros [E|E]; [ congruence | apply Na; exact E ].
      + intros w. cbn [dset app]. destruct (String.eqb_spec k k'); [ congruence | ].
        f_equal. apply S.
  Qed.

  Lemma dset_self : forall k (d : dict V) v, dget k d = Some v -> dset k v d = d.
  Proof.
    intros k d v H. destruct (dget_split _ _ _ H) as (a & b & E & _ & S). rewrite S, E. reflexivity.
  Qed.

  Lemma dset_dset : forall k v w (d : dict V), dset k w (dset k v d) = dset k w d.
  Proof.
    intros k v w d. induction d as [|[k' v'] d IH]; cbn [dset].
    - rewrite String.eqb_refl. reflexivity.
    - destruct (String.eqb_spec k k') as [->|Hn]; cbn [dset].
      + rewrite String.eqb_refl. reflexivity.
      + destruct (String.eqb_spec k k'); [ congruence | ]. f_equal. assumption.
  Qed.

  Lemma dset_app_l : forall k v (a b : dict V), In k (dkeys a) -> dset k v (a ++ b) = dset k v a ++ b.
  Proof.
    intros k v a b. induction a as [|[k' v'] a IH]; cbn [dkeys map fst In app dset]; intros H; [ destruct H | ].
    destruct (String.eqb_spec k k') as [->|Hn]; [ reflexivity | ]. cbn [app]. f_equal.
    apply IH. destruct H; [ congruence | assumption ].
  Qed.

  Lemma dget_app : forall k (a b : dict V),
    dget k (a ++ b) = match dget k a with Some v => Some v | None => dget k b end.
  Proof.
    intros k a b. induction a as [|[k' v'] a IH]; cbn [dget app]; [ reflexivity | ].
    destruct (String.eqb k k'); [ reflexivity | assumption ].
  Qed.

  Lemma fold_dset_new : forall (h g : dict V), NoDup (dkeys h) ->
    (forall k, In k (dkeys h) -> ~ In k (dkeys g)) ->
    fold_left (fun acc kv => dset (fst kv) (snd kv) acc) h g = g ++ h.
  Proof.
    induction h as [|[k v] h IH]; intros g N Hd; cbn [fold_left fst snd].
    - rewrite app_nil_r. reflexivity.
    - inversion N as [|? ? Nin N']; subst. rewrite dset_new by (apply Hd; left; reflexivity).
      rewrite IH; [ rewrite <- app_assoc; reflexivity | assumption | ].
      intros x Hx. unfold dkeys. rewrite map_app, in_app_iff. cbn [map fst In].
      intros [H|[->|[]]]; [ apply (Hd x); [ right; exact Hx | exact H ] | contradiction ].
  Qed.

  Lemma ddel_absent : forall k (d : dict V), ~ In k (dkeys d) -> ddel k d = d.
  Proof.
    intros k d. unfold ddel. induction d as [|[k' v'] d IH]; cbn [dkeys map fst In filter]; intros H; [ reflexivity | ].
    destruct (String.eqb_spec k k') as [->|]; [ exfalso; auto | ]. cbn [negb]. f_equal. apply IH. tauto.
  Qed.

  Lemma fold_dset_common : forall (h g : dict V) m J, NoDup (dkeys h) -> In m (dkeys h) -> In m (dkeys g) ->
    (forall k, In k (dkeys h) -> In k (dkeys g) -> k = m) ->
    dset m J (fold_left (fun acc kv => dset (fst kv) (snd kv) acc) h g) = dset m J g ++ ddel m h.
  Proof.
    intros h g m J N Mh Mg Hc.
    assert (Mh' := Mh). apply dget_key in Mh'. destruct Mh' as [d E].
    destruct (dget_split _ _ _ E) as (h1 & h2 & -> & N1 & _).
    unfold dkeys in N. rewrite map_app in N. cbn [map fst] in N.
    assert (N2 : ~ In m (dkeys h2)) by (apply NoDup_remove_2 in N; intros H; apply N; apply in_or_app; right; exact H).
    apply NoDup_remove_1 in N.
    assert (Hd1 : forall k, In k (dkeys h1) -> ~ In k (dkeys g)).
    { intros k H1 H2. assert (k = m); [ | subst; contradiction ]. apply Hc; [ | assumption ].
      unfold dkeys. rewrite map_app. apply in_or_app. left; exact H1. }
    rewrite fold_left_app. cbn [fold_left fst snd].
    rewrite (fold_dset_new h1 g); [ | | assumption ].
    2:{ clear -N. induction h1 as [|x h1 IH]; cbn [map app] in N; [ constructor | ].
        inversion N; subst. cbn [dkeys map]. constructor; [ intros H; apply H1; apply in_or_app; left; exact H | auto ]. }
    rewrite dset_app_l by assumption.
    rewrite fold_dset_new.
    - rewrite <- !app_assoc. rewrite dset_app_l by (apply dset_keys; auto). rewrite dset_dset.
      f_equal. unfold ddel. rewrite filter_app. cbn [filter fst]. rewrite String.eqb_refl. cbn [negb].
      change (filter (fun p : string * V => negb (String.eqb m (fst p))) h1) with (ddel m h1).
      change (filter (fun p : string * V => negb (String.eqb m (fst p))) h2) with (ddel m h2).
      rewrite !ddel_absent by assumption. reflexivity.
    - clear -N. induction h1 as [|x h1 IH]; [ exact N | ]. cbn [map app] in N. inversion N; auto.
    - intros k Hk. unfold dkeys. rewrite map_app, in_app_iff. intros [H|H].
      + apply dset_keys in H. destruct H as [->|H]; [ contradiction | ].
        assert (k = m); [ | subst; contradiction ]. apply Hc; [ | assumption ].
        unfold dkeys. rewrite map_app. apply in_or_app. right; right; exact Hk.
      + clear -N H Hk. unfold dkeys in Hk. induction h1 as [|x h1 IH]; [ destruct H | ].
        cbn [map app] in N. inversion N as [|? ? Nin N']; subst. destruct H as [<-|H].
        * apply Nin. apply in_or_app. right; exact Hk.
        * auto.
  Qed.

  Lemma dget_filter : forall (f : string -> bool) k (d : dict V),
    dget k (filter (fun kv => f (fst kv)) d) = if f k then dget k d else None.
  Proof.
    intros f k d. induction d as [|[k' v'] d IH]; cbn [filter dget fst]; [ destruct (f k); reflexivity | ].
    destruct (f k') eqn:F; cbn [dget]; destruct (String.eqb_spec k k') as [->|Hn].
    - rewrite F. reflexivity.
    - exact IH.
    - rewrite F in *. rewrite IH. reflexivity.
    - exact IH.
  Qed.

  Lemma NoDup_keys_filter_app : forall (f : string -> bool) (a b : dict V),
    (forall k, In k (dkeys a) -> f k = true) -> (forall k, In k (dkeys b) -> f k = false) ->
    filter (fun kv => f (fst kv)) (a ++ b) = a.
  Proof.
    intros f a b Ha Hb. rewrite filter_app.
    assert (filter (fun kv : string * V => f (fst kv)) b = []) as ->.
    { clear Ha. induction b as [|[k v] b IH]; cbn [filter fst]; [ reflexivity | ].
      rewrite Hb by (left; reflexivity). apply IH. intros x Hx. apply Hb. right; exact Hx. }
    rewrite app_nil_r. clear Hb. induction a as [|[k v] a IH]; cbn [filter fst]; [ reflexivity | ].
    rewrite Ha by (left; reflexivity). f_equal. apply IH. intros x Hx. apply Ha. right; exact Hx.
  Qed.
End Dict.

Section Data.
  Context {T D : Type} {ops : LcsOps T}.
  Notation mgr := (csm T D).

  Definition flat (ns : dict (dict D)) : list string := flat_map (fun nd => dkeys (snd nd)) ns.

  Lemma flat_app : forall a b, flat (a ++ b) = flat a ++ flat b.
  Proof. intros a b. unfold flat. apply flat_map_app. Qed.

  Lemma flat_In : forall ns k, In k (flat ns) <-> exists n d, In (n, d) ns /\ In k (dkeys d).
  Proof.
    intros ns k. unfold flat. rewrite in_flat_map. split.
    - intros ((n, d) & H & K). exists n, d. auto.
    - intros (n & d & H & K). exists (n, d). auto.
  Qed.

  Lemma count_filter_le : forall f (l : list string) x,
    count_occ string_dec (filter f l) x <= count_occ string_dec l x.
  Proof.
    intros f l x. induction l as [|y l IH]; cbn [filter]; [ lia | ].
    destruct (f y); cbn [count_occ]; destruct (string_dec y x); lia.
  Qed.

  Lemma flat_dset_filter_NoDup : forall ns n d f, NoDup (flat ns) -> dget n ns = Some d ->
    NoDup (flat (dset n (filter (fun kv => f (fst kv)) d) ns)).
  Proof.
    intros ns n d f N E. destruct (dget_split _ _ _ E) as (a & b & -> & _ & S). rewrite S.
    rewrite (NoDup_count_occ string_dec) in N |- *. intros x. specialize (N x).
    rewrite !flat_app in *. cbn [flat flat_map snd] in *. rewrite !count_occ_app in *.
    rewrite filter_keys_eq. pose proof (count_filter_le f (dkeys d) x).
    fold (flat b) in *. lia.
  Qed.

  Lemma flat_filter_NoDup : forall ns (f : string * dict D -> bool), NoDup (flat ns) -> NoDup (flat (filter f ns)).
  Proof.
    intros ns f N. rewrite (NoDup_count_occ string_dec) in N |- *. intros x. specialize (N x).
    assert (count_occ string_dec (flat (filter f ns)) x <= count_occ string_dec (flat ns) x); [ | lia ].
    clear N. induction ns as [|nd ns IH]; cbn [filter]; [ lia | ].
    unfold flat in *. destruct (f nd); cbn [flat_map]; rewrite ?count_occ_app; lia.
  Qed.

  Lemma flat_dset_app : forall ns n d e, dget n ns = Some d ->
    Permutation (flat (dset n (d ++ e) ns)) (flat ns ++ dkeys e).
  Proof.
    intros ns n d e E. destruct (dget_split _ _ _ E) as (a & b & -> & _ & S). rewrite S.
    rewrite !flat_app. cbn [flat flat_map snd]. unfold dkeys at 1. rewrite map_app.
    fold (dkeys d). fold (dkeys e). fold (flat b).
    rewrite <- !app_assoc. apply Permutation_app_head. apply Permutation_app_head. apply Permutation_app_comm.
  Qed.

  Lemma flat_NoDup_keys : forall ns n d, NoDup (flat ns) -> In (n, d) ns -> NoDup (dkeys d).
  Proof.
    intros ns n d N H. apply in_split in H. destruct H as (a & b & ->). rewrite flat_app in N.
    cbn [flat flat_map snd] in N. fold (flat b) in N.
    rewrite (NoDup_count_occ string_dec) in N |- *. intros x. specialize (N x).
    rewrite !count_occ_app in N. lia.
  Qed.

  Definition duniq (c : mgr) : Prop := NoDup (flat (c_nodes c)).

  Lemma add_cs_duniq : forall (c : mgr) n p t b, duniq c -> duniq (fst (add_cs c n p t b)).
  Proof.
    intros c n p t b H. destruct (add_cs c n p t b) as [c' r] eqn:E. cbn [fst].
    apply add_cs_cases in E. destruct E as [[-> _]|[(_ & Hn & L & ->)|(_ & Hn & Hp & ->)]]; try assumption.
    unfold duniq. cbn [c_nodes set_graph]. rewrite flat_app. cbn [flat flat_map snd]. cbn.
    rewrite app_nil_r. exact H.
  Qed.

  Lemma delete_cs_duniq : forall (c : mgr) x b, ctree c -> duniq c -> duniq (fst (delete_cs c x b)).
  Proof.
    intros c x b [l G] W.
    destruct (delete_cs_cases c l x b G) as [(_ & ->)|[(_ & ->)|[(e & -> & _)|(drop & ch & Hx & Hr & _ & _ & I & Dr & ->)]]];
      cbn [fst]; try assumption.
    unfold duniq. cbn [c_nodes set_subs restrict set_graph]. apply flat_filter_NoDup. assumption.
  Qed.

  Lemma node_data_In : forall (c : mgr) n d, node_data c n = Some d -> In (n, d) (c_nodes c).
  Proof.
    intros c n d H. destruct (dget_split _ _ _ H) as (a & b & E & _). rewrite E.
    apply in_or_app. right; left; reflexivity.
  Qed.

  Lemma data_in_node : forall (c : mgr) n d k, node_data c n = Some d -> In k (dkeys d) -> In k (data_names c).
  Proof. intros c n d k H K. apply flat_In. exists n, d. split; [ apply node_data_In; exact H | exact K ]. Qed.

  Lemma assign_data_cases : forall f (c : mgr) v k ref tg c' r, assign_data f c v k ref tg = (c', r) ->
    (c' = c /\ exists e, r = Err e) \/
    (exists n w d, r = Ok tt /\ ~ In k (data_names c) /\ node_data c n = Some d /\
       c' = set_nodes (dset n (d ++ [(k, w)]) (c_nodes c)) c /\
       ((tg = None /\ n = ref /\ w = v) \/ (tg = Some n /\ f v ref n = Ok w))).
  Proof.
    intros f c v k ref tg c' r H. unfold assign_data in H.
    destruct (smem k (data_names c)) eqn:M; [ injection H as <- <-; left; eauto | ].
    apply smem_false in M.
    destruct (negb (has_cs c ref)); [ injection H as <- <-; left; eauto | ].
    destruct tg as [tg|].
    - destruct (negb (has_cs c tg)); [ injection H as <- <-; left; eauto | ].
      destruct (f v ref tg) as [w|e] eqn:F; [ | injection H as <- <-; left; eauto ].
      destruct (node_data c tg) as [d|] eqn:E; [ | injection H as <- <-; left; eauto ].
      injection H as <- <-. right. exists tg, w, d.
      rewrite (dset_new D k w d) by (intros K; apply M; eapply data_in_node; eassumption). auto 10.
    - destruct (node_data c ref) as [d|] eqn:E; [ | injection H as <- <-; left; eauto ].
      injection H as <- <-. right. exists ref, v, d.
      rewrite (dset_new D k v d) by (intros K; apply M; eapply data_in_node; eassumption). auto 10.
  Qed.

  Lemma assign_data_duniq : forall f (c : mgr) v k ref tg, duniq c -> duniq (fst (assign_data f c v k ref tg)).
  Proof.
    intros f c v k ref tg W. destruct (assign_data f c v k ref tg) as [c' r] eqn:E. cbn [fst].
    apply assign_data_cases in E. destruct E as [[-> _]|(n & w & d & _ & Hk & Hd & -> & _)]; [ assumption | ].
    unfold duniq. cbn [c_nodes set_nodes set_graph].
    eapply Permutation_NoDup; [ apply Permutation_sym, flat_dset_app; exact Hd | ].
    apply NoDup_app_disjoint; [ exact W | constructor; [ intros [] | constructor ] | ].
    intros x [<-|[]]. exact Hk.
  Qed.

  Lemma pop_data_spec : forall (ns : dict (dict D)) k ns', NoDup (dkeys ns) -> pop_data ns k = Some ns' ->
    exists n d, dget n ns = Some d /\ In k (dkeys d) /\ ns' = dset n (ddel k d) ns.
  Proof.
    induction ns as [|[n d] ns IH]; intros k ns' N H; cbn [pop_data] in H; [ discriminate | ].
    inversion N as [|? ? Nin N']; subst.
    destruct (dmem k d) eqn:M.
    - injection H as <-. apply dmem_In in M. exists n, d. cbn [dget dset].
      rewrite String.eqb_refl. auto.
    - destruct (pop_data ns k) as [r|] eqn:E; [ | discriminate ]. injection H as <-.
      destruct (IH _ _ N' E) as (n1 & d1 & G & K & ->). exists n1, d1.
      assert (n1 <> n) by (intros ->; apply Nin; apply dget_key; eauto).
      cbn [dget dset]. destruct (String.eqb_spec n1 n); [ congruence | ]. auto.
  Qed.

  Lemma pop_data_none : forall (ns : dict (dict D)) k, pop_data ns k = None <-> ~ In k (flat ns).
  Proof.
    induction ns as [|[n d] ns IH]; intros k; cbn [pop_data flat flat_map snd]; [ tauto | ].
    rewrite in_app_iff. fold (flat ns). destruct (dmem k d) eqn:M.
    - apply dmem_In in M. split; [ discriminate | tauto ].
    - assert (~ In k (dkeys d)) by (rewrite <- dmem_In; congruence).
      specialize (IH k). destruct (pop_data ns k); split; intros H'; try tauto; try discriminate.
      exfalso. assert (Some d0 = None) by (apply IH; tauto). discriminate.
  Qed.

  Lemma delete_data_duniq : forall (c : mgr) k, ctree c -> duniq c -> duniq (fst (delete_data c k)).
  Proof.
    intros c k [l G] W. unfold delete_data. cbn [c_nodes set_subs].
    destruct (pop_data (c_nodes c) k) as [ns|] eqn:E; cbn [fst]; [ | exact W ].
    apply pop_data_spec in E; [ | apply G ]. destruct E as (n & d & Hd & _ & ->).
    unfold duniq. cbn [c_nodes set_nodes set_graph].
    apply (flat_dset_filter_NoDup _ _ _ (fun x => negb (String.eqb k x))); assumption.
  Qed.

  (** the node list after a merge *)
  Lemma merge_nodes : forall (c o : mgr) l lo m dc d_o, ctree_by c l -> ctree_by o lo -> duniq o ->
    filter (fun n => has_cs o n) (cs_names c) = [m] ->
    (forall k, In k (data_names o) -> ~ In k (data_names c)) ->
    node_data c m = Some dc -> node_data o m = Some d_o ->
    dset m (dict_join dc d_o) (compose_nodes (c_nodes c) (c_nodes o)) =
    dset m (dc ++ d_o) (c_nodes c) ++ ddel m (c_nodes o).
  Proof.
    intros c o l lo m dc d_o G Go Uo F Hd Ec Eo.
    destruct (single_common _ _ _ F) as (Mc & Mo & Mi).
    unfold compose_nodes. rewrite fold_dset_common.
    - f_equal. f_equal. unfold dict_join. apply fold_dset_new.
      + eapply flat_NoDup_keys; [ exact Uo | apply node_data_In; exact Eo ].
      + intros k H1 H2. eapply Hd; eapply data_in_node; eassumption.
    - apply Go.
    - exact Mo.
    - exact Mc.
    - intros k H1 H2. apply Mi; assumption.
  Qed.

  Lemma flat_ddel : forall (ns : dict (dict D)) m d, NoDup (dkeys ns) -> dget m ns = Some d ->
    Permutation (dkeys d ++ flat (ddel m ns)) (flat ns).
  Proof.
    intros ns m d N E. destruct (dget_split _ _ _ E) as (a & b & -> & Na & _).
    unfold dkeys in N. rewrite map_app in N. cbn [map fst] in N. apply NoDup_remove_2 in N.
    unfold ddel. rewrite filter_app. cbn [filter fst]. rewrite String.eqb_refl. cbn [negb].
    change (filter (fun p : string * dict D => negb (String.eqb m (fst p))) a) with (ddel m a).
    change (filter (fun p : string * dict D => negb (String.eqb m (fst p))) b) with (ddel m b).
    rewrite !ddel_absent; [ | intros H; apply N; apply in_or_app; right; exact H | exact Na ].
    rewrite !flat_app. cbn [flat flat_map snd]. fold (flat b).
    rewrite !app_assoc. apply Permutation_app_tail. apply Permutation_app_comm.
  Qed.

  Lemma merge_data_names : forall (c o : mgr), ctree c -> ctree o -> duniq o ->
    snd (merge c o) = Ok tt ->
    Permutation (data_names (fst (merge c o))) (data_names c ++ data_names o).
  Proof.
    intros c o [l G] [lo Go] Uo Hok.
    destruct (merge_cases c o) as [[e E]|(m & dc & d_o & F & _ & Hd & E1 & E2 & ->)].
    { rewrite E in Hok. discriminate. }
    cbn [fst]. unfold data_names. cbn [c_nodes set_subs set_graph].
    rewrite (merge_nodes c o l lo m dc d_o G Go Uo F Hd E1 E2).
    change (Permutation (flat (dset m (dc ++ d_o) (c_nodes c) ++ ddel m (c_nodes o)))
                        (flat (c_nodes c) ++ flat (c_nodes o))).
    rewrite flat_app. rewrite (flat_dset_app _ _ _ _ E1). rewrite <- app_assoc.
    apply Permutation_app_head. apply flat_ddel; [ apply Go | exact E2 ].
  Qed.

  Lemma merge_duniq : forall (c o : mgr), ctree c -> ctree o -> duniq c -> duniq o -> duniq (fst (merge c o)).
  Proof.
    intros c o Gc Go Uc Uo.
    assert (P := merge_data_names c o Gc Go Uo).
    destruct (merge_cases c o) as [[e E]|(m & dc & d_o & F & _ & Hd & E1 & E2 & E)].
    { rewrite E. exact Uc. }
    rewrite E in P. cbn [snd] in P. specialize (P eq_refl). rewrite E.
    unfold duniq. eapply Permutation_NoDup; [ apply Permutation_sym; exact P | ].
    apply NoDup_app_disjoint; assumption.
  Qed.

  Lemma strip_subs_duniq : forall ss (c : mgr), duniq c -> duniq (fst (strip_subs c ss)).
  Proof.
    induction ss as [|s ss IH]; intros c W; cbn [strip_subs]; [ assumption | ].
    destruct (sub_common_neighbors c s); [ | assumption ].
    destruct (node_data c (s_common s)) as [d|] eqn:E; [ | assumption ].
    match goal with |- context [strip_subs ?c1 ss] => assert (H : duniq c1) end.
    { unfold duniq. cbn [c_nodes set_nodes set_graph].
      apply (flat_dset_filter_NoDup _ _ _ (fun x => negb (smem x (sub_common_data d s)))); assumption. }
    apply IH in H. revert H.
    match goal with |- context [strip_subs ?c1 ss] => destruct (strip_subs c1 ss) as [c2 [q|e]] end;
      intros H; exact H.
  Qed.

  Lemma delete_all_duniq : forall ns (c : mgr), ctree c -> duniq c -> duniq (fst (delete_all c ns)).
  Proof.
    induction ns as [|n ns IH]; intros c G W; cbn [delete_all]; [ assumption | ].
    assert (G1 := delete_cs_ctree c n true G). assert (W1 := delete_cs_duniq c n true G W).
    destruct (delete_cs c n true) as [c1 [u|e]]; cbn [fst] in *; [ apply IH | ]; assumption.
  Qed.

  Lemma remove_subsystems_duniq : forall (c : mgr), ctree c -> duniq c -> duniq (fst (remove_subsystems c)).
  Proof.
    intros c G W. unfold remove_subsystems. assert (G1 := strip_subs_ctree (c_subs c) c G).
    assert (W1 := strip_subs_duniq (c_subs c) c W).
    destruct (strip_subs c (c_subs c)) as [c1 [del|e]]; cbn [fst] in *; [ | assumption ].
    apply delete_all_duniq; [ destruct G1 as [l G1]; exists l; exact G1 | exact W1 ].
  Qed.

  Lemma extract_duniq : forall (c : mgr) s sub, duniq c -> extract_sub c s = Ok sub -> duniq sub.
  Proof.
    intros c s sub W E. unfold extract_sub in E.
    destruct (dget (s_common s) _) as [d|] eqn:E1; [ | discriminate ].
    destruct (node_data c (s_common s)) as [dc|]; [ | discriminate ].
    injection E as <-. unfold duniq. cbn [c_nodes].
    apply (flat_dset_filter_NoDup _ _ _ (fun x => smem x (sub_common_data dc s))); [ | exact E1 ].
    apply flat_filter_NoDup. exact W.
  Qed.

  Lemma relabel_nodes_eq : forall (c : mgr) old new d, ~ In new (cs_names c) -> dget old (c_nodes c) = Some d ->
    c_nodes (relabel_graph old new c) = ddel old (c_nodes c) ++ [(new, d)].
  Proof.
    intros c old new d Hn E.
    assert (Hon : old <> new) by (intros ->; apply Hn; apply dget_key; eauto).
    unfold relabel_graph. rewrite E. destruct (String.eqb_spec old new); [ contradiction | ].
    cbn [c_nodes set_graph remove_node set_nodes]. rewrite dset_new by exact Hn.
    unfold ddel. rewrite filter_app. cbn [filter fst].
    destruct (String.eqb_spec old new); [ contradiction | ]. reflexivity.
  Qed.

  Lemma relabel_graph_duniq : forall (c : mgr) old new, ctree c -> duniq c -> ~ In new (cs_names c) ->
    duniq (relabel_graph old new c).
  Proof.
    intros c old new [l G] W Hn. destruct (dget old (c_nodes c)) as [d|] eqn:E.
    - unfold duniq. rewrite (relabel_nodes_eq _ _ _ _ Hn E).
      eapply Permutation_NoDup; [ | exact W ]. apply Permutation_sym.
      rewrite flat_app. cbn [flat flat_map snd]. rewrite app_nil_r.
      rewrite Permutation_app_comm. apply flat_ddel; [ apply G | exact E ].
    - unfold relabel_graph. rewrite E. exact W.
  Qed.

  Lemma relabel_duniq : forall (c : mgr) old new, ctree c -> duniq c -> ~ In new (cs_names c) ->
    duniq (fst (relabel c old new)).
  Proof.
    intros c old new G W Hn. unfold relabel. destruct (subsystems c) as [[|s ss]|]; try assumption.
    cbn [fst].
    assert (H := relabel_graph_duniq c old new G W Hn). revert H. unfold duniq.
    destruct (String.eqb (c_root c) old); [ | auto ].
    unfold relabel_graph. cbn [c_nodes c_edges]. destruct (dget old (c_nodes c)); [ | auto ].
    destruct (String.eqb old new); auto.
  Qed.

  Lemma reachable_duniq : forall (c : mgr), reachable c -> duniq c.
  Proof.
    intros c H. induction H as [root name ref|c o Hc W Ho IHo|c old new Hc W Hn|c s sub Hc W Hs E].
    - constructor.
    - destruct (reachable_inv c Hc) as [G _].
      destruct o as [n r t b|x b|f v k r tg|k|other|]; cbn [run_op].
      + apply add_cs_duniq; assumption.
      + apply delete_cs_duniq; assumption.
      + apply assign_data_duniq; assumption.
      + apply delete_data_duniq; assumption.
      + destruct (reachable_inv other (Ho other eq_refl)) as [Go _].
        apply merge_duniq; auto.
      + apply remove_subsystems_duniq; assumption.
    - apply relabel_duniq; [ apply reachable_inv | | ]; assumption.
    - eapply extract_duniq; eassumption.
  Qed.

  (** ** owners *)
  Lemma find_data_iff : forall (c : mgr), ctree c -> duniq c -> forall k n v,
    find_data c k = Ok (n, v) <-> exists d, node_data c n = Some d /\ dget k d = Some v.
  Proof.
    intros c [l G] U k n v. unfold find_data, node_data. unfold duniq in U.
    assert (N : NoDup (dkeys (c_nodes c))) by apply G. revert U N.
    generalize (c_nodes c) as ns. induction ns as [|[n0 d0] ns IH]; intros U N; cbn [find_data_in dget].
    - split; [ discriminate | intros (d & H & _); discriminate ].
    - cbn [flat flat_map snd] in U. fold (flat ns) in U. inversion N as [|? ? Nin N']; subst.
      assert (Un : NoDup (flat ns)).
      { rewrite (NoDup_count_occ string_dec) in U |- *. intros x. specialize (U x). rewrite count_occ_app in U. lia. }
      assert (dis : forall x, In x (dkeys d0) -> ~ In x (flat ns)).
      { intros x H1 H2. rewrite (NoDup_count_occ string_dec) in U. specialize (U x). rewrite count_occ_app in U.
        apply (count_occ_In string_dec) in H1. apply (count_occ_In string_dec) in H2. lia. }
      destruct (dget k d0) as [v0|] eqn:E.
      + split.
        * intros H. injection H as <- <-. exists d0. rewrite String.eqb_refl. auto.
        * intros (d & H & Hv). destruct (String.eqb_spec n n0) as [->|].
          -- injection H as <-. congruence.
          -- exfalso. apply (dis k); [ apply dget_key; eauto | ]. apply flat_In. exists n, d.
             split; [ apply dget_In in H; assumption | apply dget_key; eauto ].
      + rewrite (IH Un N'). split; intros (d & H & Hv); exists d.
        * destruct (String.eqb_spec n n0) as [->|]; [ | auto ].
          exfalso. apply Nin. apply dget_key. eauto.
        * destruct (String.eqb_spec n n0) as [->|]; [ | auto ].
          injection H as <-. congruence.
  Qed.

  Lemma node_data_set_nodes : forall (c : mgr) m d n,
    node_data (set_nodes (dset m d (c_nodes c)) c) n = if String.eqb n m then Some d else node_data c n.
  Proof. intros c m d n. unfold node_data. cbn [c_nodes set_nodes set_graph]. apply dget_dset. Qed.

  Lemma merge_node_data : forall (c o : mgr), ctree c -> ctree o -> duniq o -> forall m dc d_o,
    filter (fun n => has_cs o n) (cs_names c) = [m] ->
    (forall k, In k (data_names o) -> ~ In k (data_names c)) ->
    node_data c m = Some dc -> node_data o m = Some d_o -> forall n,
    dget n (dset m (dc ++ d_o) (c_nodes c) ++ ddel m (c_nodes o)) =
      if String.eqb n m then Some (dc ++ d_o)
      else match node_data c n with Some d => Some d | None => node_data o n end.
  Proof.
    intros c o _ _ _ m dc d_o _ _ _ _ n. rewrite (dget_app (V := dict D)), (dget_dset (dict D)).
    destruct (String.eqb_spec n m) as [->|Hn]; [ reflexivity | ].
    unfold node_data. destruct (dget n (c_nodes c)) as [x|]; [ reflexivity | ].
    unfold ddel. rewrite (dget_filter (fun k => negb (String.eqb m k))).
    destruct (String.eqb_spec m n); [ congruence | reflexivity ].
  Qed.

  (** owner and value of data are not changed by operations that do not delete it *)
  Definition keeps_data (k : string) (o : op (T := T) (D := D)) : Prop :=
    match o with
    | ODeleteData k' => k' <> k
    | ORemoveSubs => False
    | _ => True
    end.

  Lemma dget_ddel : forall (V : Type) k k' (d : dict V),
    dget k (ddel k' d) = if String.eqb k' k then None else dget k d.
  Proof.
    intros V k k' d. unfold ddel. rewrite (dget_filter (fun x => negb (String.eqb k' x))).
    destruct (String.eqb k' k); reflexivity.
  Qed.

  Lemma owner_stable : forall (c : mgr) o k n d v, ctree c -> duniq c ->
    (forall other, o = OMerge other -> ctree other /\ duniq other) -> keeps_data k o ->
    node_data c n = Some d -> dget k d = Some v -> In n (cs_names (fst (run_op c o))) ->
    exists d', node_data (fst (run_op c o)) n = Some d' /\ dget k d' = Some v.
  Proof.
    intros c o k n d v G U Ho K Hd Hv Hn.
    destruct o as [a r t b|x b|f w k' r tg|k'|other|]; cbn [run_op] in *.
    - destruct (add_cs c a r t b) as [c' rr] eqn:E. cbn [fst] in *.
      apply add_cs_cases in E. destruct E as [[-> _]|[(_ & Hna & L & ->)|(_ & Hna & Hp & ->)]]; eauto.
      exists d. unfold node_data. cbn [c_nodes set_graph]. rewrite dget_app.
      unfold node_data in Hd. rewrite Hd. auto.
    - destruct G as [l G].
      destruct (delete_cs_cases c l x b G) as [(_ & E)|[(_ & E)|[(e & E & _)|(drop & ch & Hx & Hr & _ & _ & I & Dr & E)]]];
        rewrite E in *; cbn [fst] in *; eauto.
      exists d. unfold cs_names in Hn. unfold node_data. cbn [c_nodes set_subs restrict set_graph] in *.
      apply (filter_keys_In (dict D) (fun y => negb (smem y (ch ++ [x])))) in Hn. destruct Hn as [_ Kn].
      rewrite (dget_filter (fun y => negb (smem y (ch ++ [x])))). rewrite Kn. unfold node_data in Hd. auto.
    - destruct (assign_data f c w k' r tg) as [c' rr] eqn:E. cbn [fst] in *.
      apply assign_data_cases in E. destruct E as [[-> _]|(m & w' & dm & _ & Hk & Hm & -> & _)]; [ eauto | ].
      rewrite node_data_set_nodes. destruct (String.eqb_spec n m) as [->|]; [ | eauto ].
      exists (dm ++ [(k', w')]). split; [ reflexivity | ]. rewrite dget_app.
      assert (dm = d) by congruence. subst. rewrite Hv. reflexivity.
    - unfold delete_data in *. cbn [c_nodes set_subs] in *.
      destruct (pop_data (c_nodes c) k') as [ns|] eqn:E; cbn [fst] in *.
      + destruct G as [l G]. apply pop_data_spec in E; [ | apply G ].
        destruct E as (m & dm & Hm & _ & ->). unfold node_data in *. cbn [c_nodes set_nodes set_graph set_subs] in *.
        rewrite dget_dset. destruct (String.eqb_spec n m) as [->|]; [ | eauto ].
        assert (dm = d) by congruence. subst. exists (ddel k' d). split; [ reflexivity | ].
        rewrite dget_ddel. cbn [keeps_data] in K. destruct (String.eqb_spec k' k); [ congruence | assumption ].
      + exists d. auto.
    - destruct (Ho other eq_refl) as [[lo Go] Uo]. destruct G as [l G].
      destruct (merge_cases c other) as [[e E]|(m & dc & d_o & F & _ & Hdis & E1 & E2 & E)]; rewrite E in *; cbn [fst] in *.
      { eauto. }
      unfold node_data at 1. cbn [c_nodes set_subs set_graph].
      rewrite (merge_nodes c other l lo m dc d_o G Go Uo F Hdis E1 E2).
      rewrite (merge_node_data c other (ex_intro _ l G) (ex_intro _ lo Go) Uo m dc d_o F Hdis E1 E2).
      destruct (String.eqb_spec n m) as [->|].
      + exists (dc ++ d_o). split; [ reflexivity | ]. rewrite dget_app.
        assert (dc = d) by congruence. subst. rewrite Hv. reflexivity.
      + rewrite Hd. eauto.
    - destruct K.
  Qed.
End Data.
