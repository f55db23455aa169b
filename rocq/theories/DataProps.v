(** Property C154: the data of a manager from assignment to deletion. *)
From Coq Require Import List String Bool ZArith Permutation Lia.
From Verif Require Import Base CsmModel CsmSpec CsmToy TreeFacts CsmGraphFacts CsmTreeFacts
  CsmSubFacts CsmDataFacts CsmOpFacts CsmHistFacts DataModel RigidModel InterpModel InterpSpec LinModel
  LcsTimeModel LcsTimeSpec LcsTimeFacts CsmGetModel CsmGetSpec CsmGetFacts CsmGetProps.
Import ListNotations.
Open Scope string_scope.
Open Scope list_scope.

Section Lemmas.
  Context {T D : Type} {ops : LcsOps T}.

  Lemma find_missing : forall (ns : dict (dict D)) k, ~ In k (flat ns) -> find_data_in ns k = Err KeyError.
  Proof.
    induction ns as [|[n d] ns IH]; intros k H; cbn [find_data_in]; [ reflexivity | ].
    cbn [flat flat_map snd] in H. rewrite in_app_iff in H. fold (flat ns) in H.
    assert (dget k d = None) as -> by (apply dget_none; tauto). apply IH. tauto.
  Qed.

  Lemma find_present : forall (ns : dict (dict D)) k, In k (flat ns) -> exists nv, find_data_in ns k = Ok nv.
  Proof.
    induction ns as [|[n d] ns IH]; intros k H; cbn [find_data_in]; [ destruct H | ].
    cbn [flat flat_map snd] in H. rewrite in_app_iff in H. fold (flat ns) in H.
    destruct (dget k d) as [v|] eqn:E; [ eauto | ]. apply IH. destruct H as [H|H]; [ | exact H ].
    apply dget_key in H. destruct H as [v Hv]. congruence.
  Qed.

  Lemma find_skip : forall (ns : dict (dict D)) n d e k, dget n ns = Some d -> dget k e = dget k d ->
    find_data_in (dset n e ns) k = find_data_in ns k.
  Proof.
    induction ns as [|[m x] ns IH]; intros n d e k H E; cbn [dget dset] in *; [ discriminate | ].
    destruct (String.eqb_spec n m) as [->|].
    - injection H as ->. cbn [find_data_in]. rewrite E. reflexivity.
    - cbn [find_data_in]. rewrite (IH n d e k H E). reflexivity.
  Qed.

  Lemma pop_dset : forall (ns : dict (dict D)) n d e k, dget n ns = Some d -> dget k d = None ->
    (forall m x, In (m, x) ns -> dget k x = None) -> dmem k e = true ->
    pop_data (dset n e ns) k = Some (dset n (ddel k e) ns).
  Proof.
    induction ns as [|[m x] ns IH]; intros n d e k H E A M; cbn [dget dset] in *; [ discriminate | ].
    destruct (String.eqb_spec n m) as [->|].
    - cbn [pop_data]. rewrite M. reflexivity.
    - cbn [pop_data]. assert (dmem k x = false) as ->.
      { destruct (dmem k x) eqn:Q; [ | reflexivity ]. apply dmem_In in Q. apply dget_key in Q.
        destruct Q as [v Hv]. rewrite (A m x) in Hv by (left; reflexivity). discriminate. }
      rewrite (IH n d e k H E); [ reflexivity | | exact M ]. intros m' x' I. apply (A m'). right. exact I.
  Qed.

  Lemma ddel_last : forall k (d : dict D) w, dget k d = None -> ddel k (d ++ [(k, w)]) = d.
  Proof.
    intros k d w H. apply dget_none in H. unfold ddel. rewrite filter_app. cbn [filter fst].
    rewrite String.eqb_refl. cbn [negb]. rewrite app_nil_r. apply (ddel_absent k d H).
  Qed.
End Lemmas.

Theorem c154_get : forall (T D : Type) (ops : LcsOps T) f (c : csm T D) k tg w,
  reachable c ->
  (get_data f c k tg = Ok w <->
   exists n d v, node_data c n = Some d /\ dget k d = Some v /\
     (((tg = None \/ tg = Some n) /\ w = v) \/
      exists t, tg = Some t /\ t <> n /\ f v n t = Ok w)).
Proof.
  intros T D ops f c k tg w R.
  assert (F := find_data_iff c (proj1 (reachable_inv _ R)) (reachable_duniq _ R) k). unfold get_data. split.
  - destruct (find_data c k) as [[n v]|e] eqn:E; cbn [bind fst snd]; [ | discriminate ]. intros H.
    destruct (proj1 (F n v) eq_refl) as (d & Hd & Hv). exists n, d, v. split; [ exact Hd | ].
    split; [ exact Hv | ]. destruct tg as [t|].
    + destruct (String.eqb_spec t n) as [->|Q]; [ injection H as <-; auto | right; eauto ].
    + injection H as <-. auto.
  - intros (n & d & v & Hd & Hv & H). rewrite (proj2 (F n v)) by eauto. cbn [bind fst snd].
    destruct H as [[[->| ->] ->]|(t & -> & Q & H)]; [ reflexivity | rewrite String.eqb_refl; reflexivity | ].
    apply String.eqb_neq in Q. rewrite Q. exact H.
Qed.
Print Assumptions c154_get.

(** a missing name is a [KeyError] for the questions and a [ValueError] for the deletion *)
Theorem c154_missing : forall (T D : Type) (ops : LcsOps T) f (c : csm T D) k tg,
  ~ In k (data_names c) ->
  get_data f c k tg = Err KeyError /\ get_data_system_name c k = Err KeyError /\
  snd (delete_data c k) = Err ValueError.
Proof.
  intros T D ops f c k tg H. unfold get_data, get_data_system_name, find_data, delete_data.
  rewrite (find_missing (c_nodes c) k H). cbn [c_nodes set_subs].
  rewrite (proj2 (pop_data_none (c_nodes c) k) H). repeat split.
Qed.
Print Assumptions c154_missing.

Theorem c154_known : forall (T D : Type) (ops : LcsOps T) f (c : csm T D) k,
  In k (data_names c) ->
  (exists v, get_data f c k None = Ok v) /\ (exists n, get_data_system_name c k = Ok n) /\
  snd (delete_data c k) = Ok tt.
Proof.
  intros T D ops f c k H. unfold get_data, get_data_system_name, find_data, delete_data.
  destruct (find_present (c_nodes c) k H) as [nv ->]. cbn [bind c_nodes set_subs]. repeat split; eauto.
  destruct (pop_data (c_nodes c) k) eqn:E; [ reflexivity | ]. apply pop_data_none in E. contradiction.
Qed.
Print Assumptions c154_known.

(** the owner answers [has_data] with [True], and only the owner *)
Theorem c154_owner : forall (T D : Type) (ops : LcsOps T) (c : csm T D) n k,
  reachable c -> (get_data_system_name c k = Ok n <-> has_data c n k = Ok true).
Proof.
  intros T D ops c n k R.
  assert (F := find_data_iff c (proj1 (reachable_inv _ R)) (reachable_duniq _ R) k).
  unfold get_data_system_name, has_data. split.
  - destruct (find_data c k) as [[m v]|e] eqn:E; cbn [bind fst]; [ | discriminate ]. intros H.
    injection H as ->. destruct (proj1 (F n v) eq_refl) as (d & -> & Hv). f_equal. apply dmem_In.
    apply dget_key. eauto.
  - destruct (node_data c n) as [d|] eqn:E; [ | discriminate ]. intros H. injection H as H.
    apply dmem_In in H. apply dget_key in H. destruct H as [v Hv].
    rewrite (proj2 (F n v)) by eauto. reflexivity.
Qed.
Print Assumptions c154_owner.

(** [has_data] of a system that does not exist raises *)
Theorem c154_has_unknown_refuted : exists (c : tmgr) n k,
  reachable c /\ ~ In n (cs_names c) /\ has_data c n k <> Ok false.
Proof. exists (new_csm "r" "m" None), "q", "x". split; [ constructor | ]. split; [ cbn; intuition discriminate | discriminate ]. Qed.
Print Assumptions c154_has_unknown_refuted.

(** assigned data, fetched in any system *)
Theorem c154_assigned : forall (T D : Type) (ops : LcsOps T) f (c : csm T D) v k ref t,
  reachable c -> snd (assign_data f c v k ref None) = Ok tt ->
  let c' := fst (assign_data f c v k ref None) in
  get_data_system_name c' k = Ok ref /\ get_data f c' k None = Ok v /\
  get_data f c' k (Some ref) = Ok v /\ (t <> ref -> get_data f c' k (Some t) = f v ref t).
Proof.
  intros T D ops f c v k ref t R H c'. destruct (assign_find c f v k ref None R H) as (w & F & ->).
  fold c' in F. unfold get_data, get_data_system_name. rewrite F. cbn [bind fst snd].
  rewrite String.eqb_refl. repeat split. intros Q. apply String.eqb_neq in Q. rewrite Q. reflexivity.
Qed.
Print Assumptions c154_assigned.

Theorem c154_assigned_target : forall (T D : Type) (ops : LcsOps T) f (c : csm T D) v k ref m t,
  reachable c -> snd (assign_data f c v k ref (Some m)) = Ok tt ->
  let c' := fst (assign_data f c v k ref (Some m)) in
  exists w, f v ref m = Ok w /\ get_data_system_name c' k = Ok m /\ get_data f c' k None = Ok w /\
  get_data f c' k (Some m) = Ok w /\ (t <> m -> get_data f c' k (Some t) = f w m t).
Proof.
  intros T D ops f c v k ref m t R H c'. destruct (assign_find c f v k ref (Some m) R H) as (w & F & E).
  fold c' in F. exists w. unfold get_data, get_data_system_name. rewrite F. cbn [bind fst snd].
  rewrite String.eqb_refl. repeat split; [ exact E | ]. intros Q. apply String.eqb_neq in Q. rewrite Q. reflexivity.
Qed.
Print Assumptions c154_assigned_target.

(** if transforming in two steps is transforming in one, it does not matter to
    which system the data were assigned *)
Theorem c154_any_target : forall (T D : Type) (ops : LcsOps T) f (c : csm T D) v k ref m t,
  (forall u a b d w, f u a b = Ok w -> f w b d = f u a d) ->
  (forall u a, f u a a = Ok u) ->
  reachable c -> snd (assign_data f c v k ref (Some m)) = Ok tt ->
  get_data f (fst (assign_data f c v k ref (Some m))) k (Some t) = f v ref t /\
  (snd (assign_data f c v k ref None) = Ok tt ->
   get_data f (fst (assign_data f c v k ref None)) k (Some t) = f v ref t).
Proof.
  intros T D ops f c v k ref m t C I R H. split.
  - destruct (c154_assigned_target T D ops f c v k ref m t R H) as (w & E & _ & _ & G & G').
    destruct (string_dec t m) as [->|Q]; [ rewrite G; symmetry; exact E | ].
    rewrite (G' Q). apply C. exact E.
  - intros H'. destruct (c154_assigned T D ops f c v k ref t R H') as (_ & _ & G & G').
    destruct (string_dec t ref) as [->|Q]; [ rewrite G, I; reflexivity | apply G'; exact Q ].
Qed.
Print Assumptions c154_any_target.

(** other data are not touched *)
Theorem c154_others : forall (T D : Type) (ops : LcsOps T) f g (c : csm T D) v k k' ref m t,
  reachable c -> k' <> k ->
  get_data g (fst (assign_data f c v k ref m)) k' t = get_data g c k' t /\
  get_data g (fst (delete_data c k)) k' t = get_data g c k' t.
Proof.
  intros T D ops f g c v k k' ref m t R Q. unfold get_data. split.
  - destruct (assign_data f c v k ref m) as [c' r] eqn:E. cbn [fst]. apply assign_data_cases in E.
    destruct E as [[-> _]|(n & w & d & _ & Hk & Hd & -> & _)]; [ reflexivity | ].
    unfold find_data. cbn [c_nodes set_nodes set_graph]. rewrite (find_skip _ n d); [ reflexivity | exact Hd | ].
    rewrite dget_app. destruct (dget k' d); [ reflexivity | ]. cbn [dget].
    destruct (String.eqb_spec k' k); [ contradiction | reflexivity ].
  - unfold delete_data. cbn [c_nodes set_subs].
    destruct (pop_data (c_nodes c) k) as [ns|] eqn:E; [ | reflexivity ].
    destruct (reachable_inv _ R) as [[l G] _]. apply pop_data_spec in E; [ | apply G ].
    destruct E as (n & d & Hd & _ & ->). unfold find_data. cbn [fst c_nodes set_nodes set_graph].
    rewrite (find_skip _ n d); [ reflexivity | exact Hd | ]. rewrite dget_ddel.
    destruct (String.eqb_spec k k'); [ congruence | ]. destruct (String.eqb_spec k' k); [ contradiction | reflexivity ].
Qed.
Print Assumptions c154_others.

Theorem c154_deleted : forall (T D : Type) (ops : LcsOps T) f (c : csm T D) k t n,
  reachable c ->
  ~ In k (data_names (fst (delete_data c k))) /\
  get_data f (fst (delete_data c k)) k t = Err KeyError /\
  has_data (fst (delete_data c k)) n k <> Ok true.
Proof.
  intros T D ops f c k t n R.
  assert (R' : reachable (fst (delete_data c k))) by (apply (r_op c (ODeleteData k)); [ exact R | discriminate ]).
  assert (M : ~ In k (data_names (fst (delete_data c k)))).
  { intros I. destruct (find_present _ _ I) as [[m v] F].
    apply (find_data_iff _ (proj1 (reachable_inv _ R')) (reachable_duniq _ R')) in F. destruct F as (d & Hd & Hv).
    unfold delete_data in Hd, I. cbn [c_nodes set_subs] in Hd, I.
    destruct (pop_data (c_nodes c) k) as [ns|] eqn:E.
    - destruct (reachable_inv _ R) as [[l G] _]. apply pop_data_spec in E; [ | apply G ].
      destruct E as (n0 & d0 & Hd0 & K0 & ->). unfold node_data in Hd.
      cbn [fst c_nodes set_nodes set_graph] in Hd. rewrite (dget_dset (dict D)) in Hd.
      destruct (String.eqb_spec m n0) as [->|Q].
      + injection Hd as <-. rewrite dget_ddel, String.eqb_refl in Hv. discriminate.
      + apply dget_key in K0. destruct K0 as [v0 Hv0]. apply Q.
        assert (F := find_data_iff c (ex_intro _ l G) (reachable_duniq _ R) k).
        assert (F1 := proj2 (F m v) (ex_intro _ d (conj Hd Hv))).
        assert (F2 := proj2 (F n0 v0) (ex_intro _ d0 (conj Hd0 Hv0))). congruence.
    - apply pop_data_none in E. apply E. exact I. }
  split; [ exact M | ]. split; [ apply (c154_missing T D ops f _ k t M) | ].
  intros H. apply (c154_owner T D ops _ n k R') in H.
  rewrite (proj1 (proj2 (c154_missing T D ops f _ k t M))) in H. discriminate.
Qed.
Print Assumptions c154_deleted.

(** deleting what was just assigned gives the same graph again *)
Theorem c154_undo : forall (T D : Type) (ops : LcsOps T) f (c : csm T D) v k ref m,
  snd (assign_data f c v k ref m) = Ok tt ->
  let c2 := delete_data (fst (assign_data f c v k ref m)) k in
  snd c2 = Ok tt /\ c_nodes (fst c2) = c_nodes c /\ c_edges (fst c2) = c_edges c.
Proof.
  intros T D ops f c v k ref m H. destruct (assign_data f c v k ref m) as [c' r] eqn:E. cbn [fst snd] in *.
  apply assign_data_cases in E. destruct E as [[_ [e ->]]|(n & w & d & _ & Hk & Hd & -> & _)]; [ discriminate | ].
  assert (A : forall m x, In (m, x) (c_nodes c) -> dget k x = None).
  { intros m0 x I. apply dget_none. intros K. apply Hk. apply flat_In. eauto. }
  assert (Q : dget k d = None) by (apply (A n); apply node_data_In; exact Hd).
  unfold delete_data. cbn [c_nodes set_subs set_nodes set_graph].
  rewrite (pop_dset (c_nodes c) n d); [ | exact Hd | exact Q | exact A | ].
  - cbn [fst snd c_nodes c_edges set_subs set_nodes set_graph]. split; [ reflexivity | ].
    split; [ | reflexivity ]. rewrite ddel_last by exact Q. apply dset_self. exact Hd.
  - apply dmem_In. apply dget_key. exists w. rewrite dget_app, Q. cbn [dget].
    rewrite String.eqb_refl. reflexivity.
Qed.
Print Assumptions c154_undo.

(** exactly these assignments are accepted *)
Theorem c154_accepted : forall (T D : Type) (ops : LcsOps T) f (c : csm T D) v k ref m,
  snd (assign_any f c v k ref m) = Ok tt <->
  exists k', k = Some k' /\ ~ In k' (data_names c) /\ In ref (cs_names c) /\
    match m with
    | None => True
    | Some t => In t (cs_names c) /\ exists w, f v ref t = Ok w
    end.
Proof.
  intros T D ops f c v [k|] ref m; cbn [assign_any snd].
  2:{ split; [ discriminate | intros (k' & E & _); discriminate ]. }
  unfold assign_data, has_cs, node_data. cbv zeta.
  assert (P : forall n, In n (cs_names c) -> exists d, dget n (c_nodes c) = Some d)
    by (intros n; apply dget_key).
  split.
  - intros H. exists k. split; [ reflexivity | ].
    destruct (smem k (data_names c)) eqn:M; [ discriminate | ]. apply smem_false in M.
    split; [ exact M | ]. destruct (dmem ref (c_nodes c)) eqn:E; cbn [negb] in H.
    2:{ discriminate. }
    apply dmem_In in E. split; [ exact E | ]. destruct m as [t|]; [ | exact I ].
    destruct (dmem t (c_nodes c)) eqn:E'; cbn [negb] in H; [ | discriminate ]. apply dmem_In in E'.
    split; [ exact E' | ]. destruct (f v ref t); [ eauto | discriminate ].
  - intros (k' & E & M & I & H). injection E as <-. apply smem_false in M. rewrite M.
    destruct (P ref I) as [d Hd]. apply dmem_In in I. rewrite I. cbn [negb].
    destruct m as [t|]; [ | rewrite Hd; reflexivity ]. destruct H as [It [w Hw]].
    destruct (P t It) as [d' Hd']. apply dmem_In in It. rewrite It, Hw. cbn [negb]. rewrite Hd'. reflexivity.
Qed.
Print Assumptions c154_accepted.

(** a refused assignment changes nothing; a name that is no string is a
    [TypeError], a used one or an unknown system a [ValueError] *)
Theorem c154_refused : forall (T D : Type) (ops : LcsOps T) f (c : csm T D) v k ref m,
  (forall e, snd (assign_any f c v k ref m) = Err e -> fst (assign_any f c v k ref m) = c) /\
  (k = None -> assign_any f c v k ref m = (c, Err TypeError)) /\
  (forall k', k = Some k' -> In k' (data_names c) \/ ~ In ref (cs_names c) \/
     (exists t, m = Some t /\ ~ In t (cs_names c)) ->
     assign_any f c v k ref m = (c, Err ValueError)).
Proof.
  intros T D ops f c v k ref m. split; [ | split ].
  - intros e H. destruct k as [k|]; [ | reflexivity ]. cbn [assign_any] in *.
    destruct (assign_data f c v k ref m) as [c' r] eqn:E. cbn [fst snd] in *. apply assign_data_cases in E.
    destruct E as [[-> _]|(n & w & d & -> & _)]; [ reflexivity | discriminate ].
  - intros ->. reflexivity.
  - intros k' -> H. cbn [assign_any]. unfold assign_data, has_cs.
    destruct (smem k' (data_names c)) eqn:M; [ reflexivity | ]. apply smem_false in M.
    destruct (dmem ref (c_nodes c)) eqn:E; cbn [negb]; [ | reflexivity ]. apply dmem_In in E.
    destruct H as [H|[H|(t & -> & H)]]; [ contradiction | contradiction | ].
    destruct (dmem t (c_nodes c)) eqn:E'; [ apply dmem_In in E'; contradiction | reflexivity ].
Qed.
Print Assumptions c154_refused.

(** the transformations only depend on the names and the edges of the systems *)
Section Transform.
  Context (sl : segment mat) {D : Type}.
  Lemma edge_systems_nodes : forall (c : csm tlcs D) ns es, edge_systems (set_nodes ns c) es = edge_systems c es.
  Proof.
    intros c ns. induction es as [|e r IH]; [ reflexivity | ]. cbn [edge_systems]. rewrite IH. reflexivity.
  Qed.
  Lemma add_edges_nodes : forall (c : csm tlcs D) ns es acc t r,
    add_edges_up sl (set_nodes ns c) acc es t r = add_edges_up sl c acc es t r.
  Proof.
    intros c ns. induction es as [|e es IH]; intros acc t r; [ reflexivity | ]. cbn [add_edges_up].
    change (cs_on_edge sl (set_nodes ns c) e t r false) with (cs_on_edge sl c e t r false).
    destruct (cs_on_edge sl c e t r false) as [l|x]; cbn [bind]; [ | reflexivity ].
    destruct (tlcs_add sl acc l); cbn [bind]; [ apply IH | reflexivity ].
  Qed.
  Lemma transform_nodes : forall (c : csm tlcs D) ns pts a b,
    (forall n, dmem n ns = dmem n (c_nodes c)) ->
    transform_data sl (set_nodes ns c) pts a b = transform_data sl c pts a b.
  Proof.
    intros c ns pts a b H. unfold transform_data. f_equal. unfold get_cs. cbn [bind]. unfold has_cs.
    cbn [c_nodes set_nodes set_graph]. rewrite !H.
    destruct (negb (dmem a (c_nodes c) && dmem b (c_nodes c))); [ reflexivity | ].
    destruct (String.eqb a b); [ reflexivity | ].
    cbn [c_edges c_ref set_nodes set_graph].
    destruct (shortest_path (c_edges c) a b) as [p|]; [ | reflexivity ].
    cbv zeta. unfold time_union. rewrite edge_systems_nodes.
    destruct (edge_systems c (path_edges p)) as [all|x]; cbn [bind]; [ | reflexivity ].
    match goal with |- bind (bind ?A _) _ = bind (bind ?B _) _ => change A with B; destruct B as [tm|x] end;
      cbn [bind]; [ | reflexivity ].
    destruct (path_edges p) as [|e [|e' es]]; [ reflexivity | reflexivity | ].
    match goal with |- bind ?A _ = bind ?B _ => change A with B; destruct B as [l|x] end; cbn [bind]; [ | reflexivity ].
    apply add_edges_nodes.
  Qed.
End Transform.

(** with the actual transformation of points: in a manager of static systems the
    points fetched in any system are those transformed directly, whatever the
    system they were assigned to *)
Theorem c154_static_points : forall sl (c : csm tlcs (list vec)), slerp_ok sl ->
  @reachable tlcs (list vec) (tlcs_ops sl) c -> good c -> static_csm c ->
  forall a b t k pts, In a (cs_names c) -> In b (cs_names c) -> In t (cs_names c) ->
    ~ In k (data_names c) ->
    let c' := fst (assign_data (transform_data sl c) c pts k a (Some b)) in
    snd (assign_data (transform_data sl c) c pts k a (Some b)) = Ok tt /\
    get_data (transform_data sl c') c' k (Some t) = transform_data sl c pts a t /\
    get_data (transform_data sl c') c' k (Some a) = Ok pts.
Proof.
  intros sl c SL R G S a b t k pts Ha Hb Ht Hk c'.
  assert (A : snd (assign_data (transform_data sl c) c pts k a (Some b)) = Ok tt).
  { apply (proj2 (@c154_accepted tlcs (list vec) (tlcs_ops sl) (transform_data sl c) c pts (Some k) a (Some b))).
    exists k. destruct (c16_transform sl _ c SL R G S a b a pts Ha Hb Ha) as (qs & rs & E & _). eauto 10. }
  split; [ exact A | ].
  assert (TN : forall ps x y, transform_data sl c' ps x y = transform_data sl c ps x y).
  { intros ps x y. unfold c'. destruct (assign_data (transform_data sl c) c pts k a (Some b)) as [c2 r] eqn:E.
    cbn [fst]. apply assign_data_cases in E.
    destruct E as [[-> _]|(n & w & d & _ & _ & Hd & -> & _)]; [ reflexivity | ]. apply transform_nodes.
    intros m. unfold dmem. rewrite (dget_dset (dict (list vec))). unfold node_data in Hd.
    destruct (String.eqb_spec m n) as [->|]; [ rewrite Hd; reflexivity | reflexivity ]. }
  assert (GT : forall x, get_data (transform_data sl c') c' k x = get_data (transform_data sl c) c' k x).
  { intros x. unfold get_data. destruct (find_data c' k) as [nv|e]; [ | reflexivity ]. cbn [bind].
    destruct x as [x|]; [ | reflexivity ]. rewrite TN. reflexivity. }
  assert (K : forall x, In x (cs_names c) ->
    get_data (transform_data sl c') c' k (Some x) = transform_data sl c pts a x).
  { intros x Hx. rewrite GT. destruct (c16_transform sl _ c SL R G S a b x pts Ha Hb Hx) as (qs & rs & E & E' & E'' & _).
    destruct (@c154_assigned_target tlcs (list vec) (tlcs_ops sl) (transform_data sl c) c pts k a b x R A)
      as (w & Ew & _ & _ & G1 & G2). fold c' in G1, G2. assert (w = qs) by congruence. subst w.
    destruct (string_dec x b) as [->|Q]; [ congruence | ]. rewrite (G2 Q). congruence. }
  split; [ apply K; exact Ht | ]. rewrite (K a Ha).
  destruct (c16_transform sl _ c SL R G S a b a pts Ha Hb Ha) as (qs & rs & E & E' & E'' & E3 & _). congruence.
Qed.
Print Assumptions c154_static_points.

(** a manager with data, numbers that are moved by the length of the names *)
Example c154_ex :
  let f := fun v a b => if String.eqb b "q" then Err KeyError else Ok (v + Z.of_nat (String.length b))%Z in
  get_data f m1 "x" None = Ok 7%Z /\ get_data f m1 "x" (Some "b") = Ok 7%Z /\
  get_data f m1 "x" (Some "r") = Ok 8%Z /\ get_data f m1 "x" (Some "q") = Err KeyError /\
  get_data_system_name m1 "x" = Ok "b" /\
  get_data f (fst (assign_any f m1 1%Z (Some "y") "a" (Some "c"))) "y" None = Ok 2%Z /\
  snd (assign_any f m1 1%Z (Some "x") "a" None) = Err ValueError /\
  snd (delete_data (fst (delete_data m1 "x")) "x") = Err ValueError.
Proof. repeat split. Qed.
Example c154_ex_laws : let f := fun (v : Z) (a b : string) =>
    Ok (v + Z.of_nat (String.length b) - Z.of_nat (String.length a))%Z in
  (forall u a b d w, f u a b = Ok w -> f w b d = f u a d) /\ (forall u a, f u a a = Ok u).
Proof. split; [ intros u a b d w E; injection E as <-; f_equal; lia | intros; f_equal; lia ]. Qed.
