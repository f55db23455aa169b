(** Properties C14, C17 - C25, C27 and C28: the graph, the data and the
    subsystems of [CoordinateSystemManager]. *)
From Coq Require Import List String Bool ZArith Permutation.
From Verif Require Import Base CsmModel CsmSpec CsmToy TreeFacts CsmGraphFacts CsmTreeFacts
  CsmSubFacts CsmDataFacts CsmOpFacts CsmHistFacts.
Import ListNotations.
Open Scope string_scope.
Open Scope list_scope.

(** ** C14 *)
Theorem c14_reachable_is_tree : forall (T D : Type) (ops : LcsOps T) (c : csm T D),
  reachable c -> is_tree c.
Proof. exact @reachable_is_tree. Qed.
Print Assumptions c14_reachable_is_tree.

(** the path used by the manager is the only simple path *)
Theorem c14_shortest_path : forall (T D : Type) (ops : LcsOps T) (c : csm T D) a b,
  reachable c -> In a (cs_names c) -> In b (cs_names c) ->
  exists p, shortest_path (c_edges c) a b = Some p /\ simple_path (linked c) a p b.
Proof.
  intros T D ops c a b R Ha Hb. destruct (reachable_inv c R) as [[l G] _].
  assert (Va := Ha). assert (Vb := Hb). apply (gt_names _ _ _ _ G) in Va. apply (gt_names _ _ _ _ G) in Vb.
  destruct (tree_connected _ _ (gt_grows _ _ _ _ G) _ _ Va Vb) as [p S].
  exists p. split; [ eapply gtree_sp; eassumption | ]. apply (walk_iff _ _ (gt_adj _ _ _ _ G)). exact S.
Qed.
Print Assumptions c14_shortest_path.

Example c14_ex_m1 : reachable m1.
Proof. unfold m1, mk. apply run_ops_reachable; [ apply r_new | ]. cbn [In]. intuition (subst; discriminate). Qed.
Example c14_ex_m2 : reachable m2.
Proof. unfold m2, mk. apply run_ops_reachable; [ apply r_new | ]. cbn [In]. intuition (subst; discriminate). Qed.
Example c14_ex_m3 : reachable m3.
Proof. unfold m3, mk. apply run_ops_reachable; [ apply r_new | ]. cbn [In]. intuition (subst; discriminate). Qed.
Example c14_ex_n1 : reachable n1.
Proof. unfold n1, mk. apply run_ops_reachable; [ apply r_new | ]. cbn [In]. intuition (subst; discriminate). Qed.
Example c14_ex_n2 : reachable n2.
Proof. unfold n2, mk. apply run_ops_reachable; [ apply r_new | ]. cbn [In]. intuition (subst; discriminate). Qed.
Example c14_ex_ma : reachable ma.
Proof. unfold ma, mk. apply run_ops_reachable; [ apply r_new | ]. cbn [In]. intuition (subst; discriminate). Qed.
Example c14_ex_mr : reachable mr.
Proof. unfold mr, mk. apply run_ops_reachable; [ apply r_new | ]. cbn [In]. intuition (subst; discriminate). Qed.
Example c14_ex_m12 : reachable m12 /\ cs_names m12 = ["r"; "a"; "b"; "c"; "d"; "e"] /\
  map (fun e => (e_src e, e_dst e, e_tr e, e_def e)) (c_edges m12) =
    [("a", "r", Some (st 1), true); ("r", "a", Some (st (-1)), false);
     ("b", "a", Some (st 2), true); ("a", "b", Some (st (-2)), false);
     ("c", "r", Some (st 3), true); ("r", "c", Some (st (-3)), false);
     ("b", "d", Some (st 4), true); ("d", "b", Some (st (-4)), false);
     ("b", "e", Some (st 5), true); ("e", "b", Some (st (-5)), false)].
Proof.
  split; [ | split; reflexivity ]. apply (r_op m1 (OMerge m2)); [ apply c14_ex_m1 | ].
  intros other E. injection E as <-. apply c14_ex_m2.
Qed.

(** ** C17 *)
Theorem c17_all_or_none : forall (T D : Type) (ops : LcsOps T) root name (l : list (op (T := T) (D := D))),
  (forall o, In o l -> match o with OAdd _ _ _ _ => True | ODelete _ _ => True | _ => False end) ->
  c_ref (run_ops (new_csm root name None) l) = None /\
  ((forall t, In t (lcs_time_dependent (run_ops (new_csm root name None) l)) -> l_ref t <> None) \/
   (forall t, In t (lcs_time_dependent (run_ops (new_csm root name None) l)) -> l_ref t = None)).
Proof.
  intros T D ops root name l H. apply run_ops_refs; [ apply r_new | reflexivity | | exact H ].
  left. intros t [].
Qed.
Print Assumptions c17_all_or_none.

Theorem c17_mixing_rejected : forall (T D : Type) (ops : LcsOps T) (c : csm T D) n p t b t0,
  c_ref c = None -> times_consistent c ->
  In t0 (lcs_time_dependent c) -> l_timedep t = true ->
  (l_ref t0 = None /\ l_ref t <> None \/ l_ref t0 <> None /\ l_ref t = None) ->
  add_cs c n p t b = (c, Err WeldxException).
Proof.
  intros T D ops c n p t b t0 R A. apply add_conflict; [ exact R | ].
  destruct A as [A|A]; [ congruence | exact A ].
Qed.
Print Assumptions c17_mixing_rejected.

(** reference times are never the reason for an exception otherwise *)
Theorem c17_only_mixing_rejected : forall (T D : Type) (ops : LcsOps T) (c : csm T D) n p t b,
  add_cs c n p t b = (c, Err WeldxException) ->
  l_timedep t = true /\ c_ref c = None /\
  exists t0, In t0 (lcs_time_dependent c) /\
    (l_ref t <> None /\ (forall t1, In t1 (lcs_time_dependent c) -> l_ref t1 = None) \/
     l_ref t = None /\ exists t1, In t1 (lcs_time_dependent c) /\ l_ref t1 <> None).
Proof. exact @add_conflict_inv. Qed.
Print Assumptions c17_only_mixing_rejected.

Example c17_ex_absolute : exists c', add_cs ma "b" "a" (ta 2 7) true = (c', Ok tt).
Proof. eexists. reflexivity. Qed.
Example c17_ex_mixed : add_cs ma "b" "a" (td 2) true = (ma, Err WeldxException).
Proof. reflexivity. Qed.
(** replacing the only time dependent system is refused too *)
Example c17_ex_update : add_cs ma "a" "r" (td 2) true = (ma, Err WeldxException).
Proof. reflexivity. Qed.

(** ** C18 *)
Theorem c18_merge_consistent : forall (T D : Type) (ops : LcsOps T) (c o : csm T D),
  reachable c -> reachable o -> times_consistent c -> times_consistent o ->
  snd (merge c o) = Ok tt ->
  (c_ref c <> None \/ c_ref o = None \/
   (forall t, In t (lcs_time_dependent c) -> l_ref t = None) \/
   (forall t, In t (lcs_time_dependent o) -> l_ref t <> None)) ->
  times_consistent (fst (merge c o)).
Proof.
  intros T D ops c o Rc Ro A Ao Hok Side.
  destruct (merge_consistent c o (proj1 (reachable_inv c Rc)) (proj1 (reachable_inv o Ro)) Hok A Ao)
    as [K|(K1 & K2 & (t1 & H1 & H2) & (t2 & H3 & H4))]; [ exact K | exfalso ].
  destruct Side as [S|[S|[S|S]]]; [ congruence | congruence | | ].
  - apply H2. apply S. exact H1.
  - apply (S t2); assumption.
Qed.
Print Assumptions c18_merge_consistent.

Theorem c18_merge_refuted : exists (c o : tmgr),
  reachable c /\ reachable o /\ times_consistent c /\ times_consistent o /\
  snd (merge c o) = Ok tt /\ ~ times_consistent (fst (merge c o)).
Proof.
  exists ma, mr. split; [ apply c14_ex_ma | ]. split; [ apply c14_ex_mr | ].
  split; [ right; left; intros t [<-|[]]; discriminate | ].
  split; [ left; discriminate | ]. split; [ reflexivity | ].
  intros [H|[H|H]].
  - apply H. reflexivity.
  - apply (H (td 2)); [ | reflexivity ]. right. left. reflexivity.
  - specialize (H (ta 1 100)). cbn in H. discriminate H. left. reflexivity.
Qed.
Print Assumptions c18_merge_refuted.

Example c18_ex_conflict : snd (merge mr ma) = Err ValueError.
Proof. reflexivity. Qed.

(** ** C19 *)
Theorem c19_merge_unmerge : forall (T D : Type) (ops : LcsOps T) (c o : csm T D),
  reachable c -> reachable o -> c_subs c = [] -> snd (merge c o) = Ok tt ->
  exists sub, unmerge (fst (merge c o)) = (c, Ok [sub]) /\ same_structure sub o /\ same_data sub o.
Proof. exact @merge_unmerge_one. Qed.
Print Assumptions c19_merge_unmerge.

(** any number of managers merged one after the other *)
Theorem c19_merge_unmerge_many : forall (T D : Type) (ops : LcsOps T) (c0 c : csm T D) ms,
  reachable c0 -> c_subs c0 = [] -> history false c0 c (cs_names c0) ms ->
  exists subs, unmerge c = (c0, Ok subs) /\ Forall2 same_structure subs ms.
Proof. exact @merge_unmerge_many. Qed.
Print Assumptions c19_merge_unmerge_many.

(** If [self] has subsystems already, [unmerge] separates those as well: the
    subsystem list is not restored. *)
Theorem c19_subsystem_list_refuted : exists (c o : tmgr),
  reachable c /\ reachable o /\ snd (merge c o) = Ok tt /\
  c_subs (fst (unmerge (fst (merge c o)))) <> c_subs c /\
  cs_names (fst (unmerge (fst (merge c o)))) <> cs_names c.
Proof.
  exists m12, m3. split; [ apply c14_ex_m12 | ]. split; [ apply c14_ex_m3 | ].
  split; [ reflexivity | ]. vm_compute. split; discriminate.
Qed.
Print Assumptions c19_subsystem_list_refuted.

Example c19_ex : exists sub, unmerge m12 = (m1, Ok [sub]) /\ cs_names sub = ["b"; "d"; "e"] /\
  node_data sub "b" = Some [("y", 8%Z)] /\ c_edges sub = c_edges m2 /\ c_root sub = "d".
Proof. eexists. split; [ reflexivity | ]. repeat split. Qed.

(** [unmerge] succeeds on every reachable manager *)
Theorem c19_unmerge_succeeds : forall (T D : Type) (ops : LcsOps T) (c : csm T D),
  reachable c -> exists subs, snd (unmerge c) = Ok subs /\
    Forall2 (fun s sub => extract_sub c s = Ok sub) (c_subs c) subs.
Proof. intros T D ops c R. destruct (reachable_inv c R) as [G W]. apply unmerge_ok; assumption. Qed.
Print Assumptions c19_unmerge_succeeds.

(** ** C20 *)
Theorem c20_own_systems_kept : forall (T D : Type) (ops : LcsOps T) strict (c0 c : csm T D) own ms,
  reachable c0 -> c_subs c0 = [] -> history strict c0 c own ms ->
  exists c' subs, unmerge c = (c', Ok subs) /\
    cs_names c' = own /\
    (forall n d, node_data c0 n = Some d -> node_data c' n = Some d) /\
    (forall e, In e (c_edges c0) -> In e (c_edges c')) /\
    Forall2 (fun sub o => forall n, In n (cs_names sub) <-> In n (cs_names o)) subs ms.
Proof. exact @unmerge_names. Qed.
Print Assumptions c20_own_systems_kept.

Theorem c20_added_below_subsystem_refuted : exists (c o : tmgr) (n p : string) (t : toy),
  reachable c /\ reachable o /\ snd (merge c o) = Ok tt /\
  let c1 := fst (merge c o) in
  snd (add_cs c1 n p t true) = Ok tt /\
  exists c2 subs, unmerge (fst (add_cs c1 n p t true)) = (c2, Ok subs) /\
    ~ In n (cs_names c2) /\ forall sub, In sub subs -> ~ In n (cs_names sub).
Proof.
  exists m1, m2, "new", "e", (st 1). split; [ apply c14_ex_m1 | ]. split; [ apply c14_ex_m2 | ].
  split; [ reflexivity | ]. cbv zeta. split; [ reflexivity | ].
  eexists. eexists. split; [ vm_compute; reflexivity | ]. split.
  - vm_compute. intuition discriminate.
  - intros sub [<-|[]]. vm_compute. intuition discriminate.
Qed.
Print Assumptions c20_added_below_subsystem_refuted.

Example c20_ex : cs_names (fst (unmerge (run_ops m12 [add "new" "b" (st 1); add "lost" "d" (st 1)]))) =
  ["r"; "a"; "b"; "c"; "new"].
Proof. reflexivity. Qed.

(** ** C21 *)
Theorem c21_own_data_returned : forall (T D : Type) (ops : LcsOps T) (c0 c : csm T D) own ms,
  reachable c0 -> c_subs c0 = [] -> history true c0 c own ms ->
  exists c' subs, unmerge c = (c', Ok subs) /\
    Forall2 (fun sub o => same_structure sub o /\ same_data sub o) subs ms.
Proof. exact @unmerge_data. Qed.
Print Assumptions c21_own_data_returned.

(** a later merge at a node of an earlier subsystem leaves its data there *)
Theorem c21_foreign_data_refuted : exists (c o1 o2 : tmgr),
  reachable c /\ reachable o1 /\ reachable o2 /\
  snd (merge c o1) = Ok tt /\ snd (merge (fst (merge c o1)) o2) = Ok tt /\
  exists c' sub1 sub2, unmerge (fst (merge (fst (merge c o1)) o2)) = (c', Ok [sub1; sub2]) /\
    In "w" (data_names sub1) /\ ~ In "w" (data_names o1).
Proof.
  exists m1, m2, m3. split; [ apply c14_ex_m1 | ]. split; [ apply c14_ex_m2 | ]. split; [ apply c14_ex_m3 | ].
  split; [ vm_compute; reflexivity | ]. split; [ vm_compute; reflexivity | ].
  eexists. eexists. eexists. split; [ vm_compute; reflexivity | ]. split.
  - vm_compute. tauto.
  - vm_compute. intuition discriminate.
Qed.
Print Assumptions c21_foreign_data_refuted.

(** ** C22 *)
Theorem c22_delete_subtree : forall (T D : Type) (ops : LcsOps T) (c : csm T D) x b,
  reachable c -> In x (cs_names c) -> x <> c_root c ->
  (b = true \/ forall y, In y (cs_names c) -> below c x y -> y = x) ->
  exists c' (keep : string -> bool), delete_cs c x b = (c', Ok tt) /\
    (forall y, In y (cs_names c) -> (keep y = true <-> ~ below c x y)) /\
    c_nodes c' = filter (fun nd => keep (fst nd)) (c_nodes c) /\
    c_edges c' = filter (fun e => keep (e_src e) && keep (e_dst e)) (c_edges c) /\
    c_root c' = c_root c /\ c_name c' = c_name c /\ c_ref c' = c_ref c.
Proof.
  intros T D ops c x b R Hx Hr Hb. destruct (reachable_inv c R) as [G W].
  destruct (delete_exact c x b G W Hx Hr Hb) as (keep & subs & E & K).
  eexists. exists keep. split; [ exact E | ]. split; [ exact K | ]. repeat split; reflexivity.
Qed.
Print Assumptions c22_delete_subtree.

Theorem c22_children_protected : forall (T D : Type) (ops : LcsOps T) (c : csm T D) x y,
  reachable c -> In x (cs_names c) -> x <> c_root c ->
  In y (cs_names c) -> y <> x -> below c x y ->
  delete_cs c x false = (c, Err WeldxException).
Proof. intros T D ops c x y R. apply delete_children_error. apply reachable_inv. exact R. Qed.
Print Assumptions c22_children_protected.

Theorem c22_root_and_unknown : forall (T D : Type) (ops : LcsOps T) (c : csm T D) x b,
  reachable c ->
  delete_cs c (c_root c) b = (c, Err ValueError) /\
  (~ In x (cs_names c) -> delete_cs c x b = (c, Ok tt)).
Proof. exact @delete_root_unknown. Qed.
Print Assumptions c22_root_and_unknown.

Example c22_ex : cs_names (fst (delete_cs m12 "b" true)) = ["r"; "a"; "c"] /\
  delete_cs m12 "b" false = (m12, Err WeldxException) /\
  cs_names (fst (delete_cs m12 "c" false)) = ["r"; "a"; "b"; "d"; "e"].
Proof. repeat split. Qed.

(** ** C23 *)
Theorem c23_subsystems_intact : forall (T D : Type) (ops : LcsOps T) (c : csm T D) s,
  reachable c -> In s (c_subs c) ->
  sub_intact c s /\ exists sub, extract_sub c s = Ok sub /\ is_tree sub /\
    (forall n, In n (cs_names sub) <-> In n (s_members s)).
Proof. exact @reachable_sub_intact. Qed.
Print Assumptions c23_subsystems_intact.

Theorem c23_affected_dropped : forall (T D : Type) (ops : LcsOps T) (c : csm T D) x b s y,
  reachable c -> In x (cs_names c) -> x <> c_root c -> snd (delete_cs c x b) = Ok tt ->
  In s (c_subs c) -> In y (s_members s) -> below c x y ->
  ~ In s (c_subs (fst (delete_cs c x b))).
Proof.
  intros T D ops c x b s y R Hx Hr Hok Hs Hy Hb. destruct (reachable_inv c R) as [G W].
  apply (delete_subs c x b G W Hx Hr Hok s Hs). exists y. auto.
Qed.
Print Assumptions c23_affected_dropped.

Example c23_ex : List.length (c_subs m12) = 1 /\
  List.length (c_subs (fst (delete_cs m12 "c" true))) = 1 /\
  c_subs (fst (delete_cs m12 "e" true)) = [] /\ c_subs (fst (delete_cs m12 "a" true)) = [].
Proof. repeat split. Qed.

(** ** C24 *)
Theorem c24_unaffected_kept : forall (T D : Type) (ops : LcsOps T) (c : csm T D) x b s,
  reachable c -> NoDup (map s_name (c_subs c)) -> In s (c_subs c) ->
  (forall y, In y (s_members s) -> ~ below c x y) ->
  In s (c_subs (fst (delete_cs c x b))).
Proof. exact @unaffected_kept. Qed.
Print Assumptions c24_unaffected_kept.

Theorem c24_same_name_refuted : exists (c : tmgr) x s,
  reachable c /\ In s (c_subs c) /\ (forall y, In y (s_members s) -> ~ below c x y) /\
  snd (delete_cs c x true) = Ok tt /\ ~ In s (c_subs (fst (delete_cs c x true))).
Proof.
  set (c := fst (merge (fst (merge m1 n1)) n2)).
  assert (R : reachable c).
  { apply (r_op (fst (merge m1 n1)) (OMerge n2)); [ apply (r_op m1 (OMerge n1)); [ apply c14_ex_m1 | ] | ];
      intros other E; injection E as <-; [ apply c14_ex_n1 | apply c14_ex_n2 ]. }
  exists c, "g", (info_of n2 "r"). split; [ exact R | ]. split; [ right; left; reflexivity | ]. split.
  - intros y Hy B. apply below_path in B; [ | apply reachable_inv; exact R | ].
    + destruct B as (p & E & Hp). destruct Hy as [<-|[<-|[]]]; vm_compute in E; injection E as <-;
        cbn [In] in Hp; intuition discriminate.
    + destruct Hy as [<-|[<-|[]]]; cbn; intuition.
  - split; [ reflexivity | ]. intros H. vm_compute in H. exact H.
Qed.
Print Assumptions c24_same_name_refuted.

(** ** C25 *)
Theorem c25_data_names_unique : forall (T D : Type) (ops : LcsOps T) (c : csm T D),
  reachable c -> NoDup (data_names c).
Proof. exact @reachable_duniq. Qed.
Print Assumptions c25_data_names_unique.

Theorem c25_find_data : forall (T D : Type) (ops : LcsOps T) (c : csm T D) k n v,
  reachable c ->
  (find_data c k = Ok (n, v) <-> exists d, node_data c n = Some d /\ dget k d = Some v).
Proof.
  intros T D ops c k n v R. apply find_data_iff; [ apply reachable_inv; exact R | apply reachable_duniq; exact R ].
Qed.
Print Assumptions c25_find_data.

Theorem c25_assign_find : forall (T D : Type) (ops : LcsOps T) (c : csm T D) f v k n tg,
  reachable c -> snd (assign_data f c v k n tg) = Ok tt ->
  exists w, find_data (fst (assign_data f c v k n tg)) k =
      Ok (match tg with Some m => m | None => n end, w) /\
    match tg with Some m => f v n m = Ok w | None => w = v end.
Proof. exact @assign_find. Qed.
Print Assumptions c25_assign_find.

(** data stay where they are, unless they are deleted with their system, by
    name or by removing the subsystems *)
Theorem c25_data_stable : forall (T D : Type) (ops : LcsOps T) (c : csm T D) o k n v,
  reachable c -> (forall other, o = OMerge other -> reachable other) ->
  o <> ODeleteData k -> o <> ORemoveSubs ->
  find_data c k = Ok (n, v) -> In n (cs_names (fst (run_op c o))) ->
  find_data (fst (run_op c o)) k = Ok (n, v).
Proof. exact @data_stable. Qed.
Print Assumptions c25_data_stable.

Theorem c25_name_clash_rejected : forall (T D : Type) (ops : LcsOps T) (c : csm T D) f v k n tg,
  In k (data_names c) -> assign_data f c v k n tg = (c, Err ValueError).
Proof.
  intros T D ops c f v k n tg H. unfold assign_data. apply smem_In in H. rewrite H. reflexivity.
Qed.
Print Assumptions c25_name_clash_rejected.

Example c25_ex : data_names m12 = ["x"; "y"; "z"] /\ find_data m12 "y" = Ok ("b", 8%Z).
Proof. split; reflexivity. Qed.

(** ** C27 *)
Theorem c27_relabel_fresh : forall (T D : Type) (ops : LcsOps T) (c : csm T D) old new,
  reachable c -> c_subs c = [] -> ~ In new (cs_names c) ->
  let f := fun n => if String.eqb n old then new else n in
  exists c', relabel c old new = (c', Ok tt) /\
    List.length (c_nodes c') = List.length (c_nodes c) /\
    (forall n, In n (cs_names c) -> node_data c' (f n) = node_data c n) /\
    Permutation (c_edges c')
      (map (fun e => Edge (f (e_src e)) (f (e_dst e)) (e_tr e) (e_def e)) (c_edges c)) /\
    c_root c' = f (c_root c) /\ c_name c' = c_name c /\ c_ref c' = c_ref c /\ c_subs c' = [].
Proof. exact @relabel_fresh. Qed.
Print Assumptions c27_relabel_fresh.

Theorem c27_subsystems_protected : forall (T D : Type) (ops : LcsOps T) (c : csm T D) old new,
  reachable c -> c_subs c <> [] -> relabel c old new = (c, Err NotImplementedError).
Proof. exact @relabel_protected. Qed.
Print Assumptions c27_subsystems_protected.

(** renaming to a name in use merges the two systems *)
Theorem c27_existing_name_refuted : exists (c : tmgr) old new,
  reachable c /\ In old (cs_names c) /\ In new (cs_names c) /\ old <> new /\
  snd (relabel c old new) = Ok tt /\
  List.length (c_nodes (fst (relabel c old new))) <> List.length (c_nodes c) /\
  ~ is_tree (fst (relabel c old new)).
Proof.
  exists m1, "b", "c". split; [ apply c14_ex_m1 | ].
  split; [ cbn; intuition | ]. split; [ cbn; intuition | ]. split; [ discriminate | ].
  split; [ reflexivity | ]. split; [ discriminate | ]. intros Tr.
  destruct (tr_path _ Tr "r" "a") as (p & _ & U); [ cbn; intuition | cbn; intuition | ].
  assert (L : forall u v tr df, In (Edge u v tr df) (c_edges (fst (relabel m1 "b" "c"))) ->
            linked (fst (relabel m1 "b" "c")) u v).
  { intros u v tr df H. exists (Edge u v tr df). auto. }
  assert (P1 : simple_path (linked (fst (relabel m1 "b" "c"))) "r" ["r"; "a"] "a").
  { split; [ | repeat constructor; cbn; intuition discriminate ].
    econstructor; [ | constructor ]. eapply L. cbn. intuition. }
  assert (P2 : simple_path (linked (fst (relabel m1 "b" "c"))) "r" ["r"; "c"; "a"] "a").
  { split; [ | repeat constructor; cbn; intuition discriminate ].
    econstructor; [ | econstructor; [ | constructor ] ]; eapply L; cbn.
    - do 3 right. left. reflexivity.
    - do 4 right. left. reflexivity. }
  apply U in P1. apply U in P2. congruence.
Qed.
Print Assumptions c27_existing_name_refuted.

Example c27_ex : cs_names (fst (relabel m1 "a" "q")) = ["r"; "b"; "c"; "q"] /\
  c_root (fst (relabel m1 "r" "q")) = "q" /\ cs_names (fst (relabel m1 "r" "q")) = ["a"; "b"; "c"; "q"].
Proof. repeat split. Qed.

(** ** C28 *)
Theorem c28_failure_changes_nothing : forall (T D : Type) (ops : LcsOps T) (c : csm T D) o e,
  reachable c -> snd (run_op c o) = Err e ->
  (forall k s, o = ODeleteData k -> In s (c_subs c) -> ~ In k (s_data s)) ->
  fst (run_op c o) = c.
Proof. exact @failure_changes_nothing. Qed.
Print Assumptions c28_failure_changes_nothing.

(** [delete_data] of a name that only a nested record still lists *)
Theorem c28_delete_data_refuted : exists (c : tmgr) k e,
  reachable c /\ snd (delete_data c k) = Err e /\ fst (delete_data c k) <> c.
Proof.
  set (inner := fst (merge m2 m3)). set (outer := fst (merge m1 inner)).
  set (outer' := fst (delete_data outer "w")).
  assert (Ri : reachable inner).
  { apply (r_op m2 (OMerge m3)); [ apply c14_ex_m2 | ]. intros other E. injection E as <-. apply c14_ex_m3. }
  assert (Ro : reachable outer').
  { apply (r_op outer (ODeleteData "w")); [ | discriminate ].
    apply (r_op m1 (OMerge inner)); [ apply c14_ex_m1 | ]. intros other E. injection E as <-. exact Ri. }
  destruct (extract_sub outer' (s_set_data ["y"; "z"] (info_of inner "b"))) as [sub|e] eqn:E.
  2:{ vm_compute in E. discriminate. }
  exists sub, "w", ValueError.
  split; [ eapply r_extract; [ exact Ro | | exact E ]; left; reflexivity | ].
  vm_compute in E. injection E as <-. split; [ reflexivity | discriminate ].
Qed.
Print Assumptions c28_delete_data_refuted.

Example c28_ex : add_cs m1 "a" "c" (st 1) true = (m1, Err ValueError) /\
  merge m1 n1 <> (m1, Err ValueError) /\ merge m1 m3 = (m1, Err ValueError).
Proof. repeat split. discriminate. Qed.
