(** Lemmas for C26: the remaining operations, seen from the manager itself, are those
    of the value model. *)
From Coq Require Import List String Bool ZArith Arith Lia.
From Verif Require Import Base CsmModel CsmSpec CsmGraphFacts CsmDataFacts CsmHeapModel CsmHeapSpec CsmHeapFacts CsmHeapValueFacts.
Import ListNotations.
Open Scope list_scope.

Section Sim.
  Context {T D : Type} {ops : LcsOps T}.
  Notation wld := (world T D).

  (** the manager [i] of the new world is seen as [c] *)
  Definition sees (w : wld) (i : nat) (c : csm T D) : Prop :=
    exists m, nth_error (w_mgrs w) i = Some m /\ view w m = c.

  Lemma sees_set : forall (w : wld) i m m', nth_error (w_mgrs w) i = Some m -> nth_error (w_mgrs (set_mgr i m' w)) i = Some m'.
  Proof. intros w i m m' E. cbn. apply upd_same, nth_error_Some. congruence. Qed.

  Lemma sim_add : forall w i m n r t b, inv w -> nth_error (w_mgrs w) i = Some m ->
    sees (fst (h_add_cs w i m n r t b)) i (fst (add_cs (view w m) n r t b)) /\
    snd (h_add_cs w i m n r t b) = snd (add_cs (view w m) n r t b).
  Proof.
    intros w i m n r t b I E. pose proof (inv_cell_ok w i m I E) as (N & U & B & _).
    assert (SAME : forall e : exn, sees w i (view w m) /\ Err (A := unit) e = Err e) by (intros; split; [exists m; auto|reflexivity]).
    unfold h_add_cs, add_cs. destruct (add_ref_conflict _ _); [apply SAME|].
    destruct (has_cs (view w m) n) eqn:H.
    - destruct (is_neighbor_of _ _ _) as [[|]|]; try apply SAME. cbn [fst snd]. split; [|reflexivity].
      eexists. split; [apply (sees_set w i m _ E)|]. destruct b; reflexivity.
    - destruct (has_cs (view w m) r); [|apply SAME]. cbn [fst snd]. split; [|reflexivity].
      eexists. split; [exact (sees_set (new_dict [] w) i m _ E)|].
      unfold view at 1, see, set_graph. cbn [with_nodes h_name h_ref h_root h_subs h_nodes h_edges].
      assert (Q : map (fun na => (fst na, dict_at (set_mgr i (with_nodes (dset n (List.length (w_dicts w)) (h_nodes m)) (if b then put_edges n r t (h_edges m) else put_edges r n t (h_edges m)) m) (new_dict [] w)) (snd na)))
                (dset n (List.length (w_dicts w)) (h_nodes m)) = dset n [] (c_nodes (view w m))).
      { match goal with |- map (fun na => (fst na, dict_at ?w2 (snd na))) ?ns = _ => change (read w2 ns = dset n [] (read w (h_nodes m))); set (w2' := w2) end.
        rewrite read_dset. replace (dict_at w2' (List.length (w_dicts w))) with (@nil (string * D)) by (symmetry; exact (dict_at_fresh w [])).
        f_equal. apply read_ext. intros k c J. exact (dict_at_new w [] c (B k c J)). }
      rewrite Q. destruct b; reflexivity.
  Qed.

  (** deletion *)
  Lemma remove_nodes_subs : forall l (c : csm T D) s, remove_nodes l (set_subs s c) = (set_subs s (fst (remove_nodes l c)), snd (remove_nodes l c)).
  Proof.
    induction l as [|n r IH]; intros c s; [reflexivity|]. cbn [remove_nodes].
    change (has_cs (set_subs s c) n) with (has_cs c n). destruct (has_cs c n); [|reflexivity].
    change (remove_node n (set_subs s c)) with (set_subs s (remove_node n c)). apply IH.
  Qed.
  Lemma remove_nodes_fields : forall l (c : csm T D), c_name (fst (remove_nodes l c)) = c_name c /\ c_ref (fst (remove_nodes l c)) = c_ref c /\
    c_root (fst (remove_nodes l c)) = c_root c /\ c_subs (fst (remove_nodes l c)) = c_subs c.
  Proof.
    induction l as [|n r IH]; intros c; [cbn; auto|]. cbn [remove_nodes]. destruct (has_cs c n); [|cbn; auto]. apply (IH (remove_node n c)).
  Qed.
  Lemma ddel_filter : forall (V : Type) n (d : dict V), ddel n d = filter (fun kv => negb (String.eqb n (fst kv))) d.
  Proof. reflexivity. Qed.
  Lemma remove_nodes_kept : forall l (c : csm T D), c_nodes (fst (remove_nodes l c)) = filter (fun nd => has_cs (fst (remove_nodes l c)) (fst nd)) (c_nodes c).
  Proof.
    assert (ALL : forall c : csm T D, c_nodes c = filter (fun nd => has_cs c (fst nd)) (c_nodes c)).
    { intros c. symmetry. assert (H : forall d, (forall nd, In nd d -> In nd (c_nodes c)) -> filter (fun nd => has_cs c (fst nd)) d = d).
      { induction d as [|[k v] d IH]; intros H; [reflexivity|]. cbn. unfold has_cs at 1. rewrite (proj2 (dmem_In _ k (c_nodes c))).
        - f_equal. apply IH. intros nd J. apply H. right. exact J.
        - apply in_map_iff. exists (k, v). split; [reflexivity|]. apply H. left. reflexivity. }
      apply H. auto. }
    induction l as [|n r IH]; intros c; [apply ALL|]. cbn [remove_nodes]. destruct (has_cs c n); [|apply ALL].
    rewrite IH at 1. set (c1 := fst (remove_nodes r (remove_node n c))).
    assert (Z : has_cs c1 n = false).
    { destruct (has_cs c1 n) eqn:Hn; [|reflexivity]. exfalso. unfold has_cs in Hn. apply dmem_In in Hn. unfold c1 in Hn. rewrite IH in Hn.
      unfold dkeys in Hn. apply in_map_iff in Hn. destruct Hn as ([k v] & K & J). cbn in K. subst k. apply filter_In in J. destruct J as [J _].
      cbn in J. rewrite ddel_filter in J. apply filter_In in J. destruct J as [_ J]. cbn in J. rewrite String.eqb_refl in J. discriminate. }
    cbn [remove_node set_graph c_nodes]. rewrite ddel_filter.
    generalize (c_nodes c). induction d as [|[k v] d IHd]; [reflexivity|]. cbn [filter fst].
    destruct (String.eqb_spec n k) as [<-|NE]; cbn [negb].
    - rewrite Z. exact IHd.
    - cbn [filter fst]. destruct (has_cs c1 k); [f_equal|]; exact IHd.
  Qed.
  Lemma read_filter : forall (w : wld) (f : string -> bool) ns, read w (filter (fun na => f (fst na)) ns) = filter (fun nd => f (fst nd)) (read w ns).
  Proof. intros w f. induction ns as [|[k a] r IH]; [reflexivity|]. cbn. destruct (f k); cbn; [f_equal|]; exact IH. Qed.

  Lemma sim_delete_cs : forall w i m x b, inv w -> nth_error (w_mgrs w) i = Some m ->
    sees (fst (h_delete_cs w i m x b)) i (fst (delete_cs (view w m) x b)) /\
    snd (h_delete_cs w i m x b) = snd (delete_cs (view w m) x b).
  Proof.
    intros w i m x b I E.
    assert (SAME : forall e : res unit, sees w i (view w m) /\ e = e) by (intros; split; [exists m; auto|reflexivity]).
    unfold h_delete_cs, delete_cs. destruct (negb _); [apply SAME|].
    change (c_root (view w m)) with (h_root m). destruct (String.eqb x (h_root m)); [apply SAME|].
    destruct (get_all_children _ _) as [ch|]; [|apply SAME]. destruct (negb b && _); [apply SAME|].
    destruct (dropped_subs _ _ _) as [dr|]; [|apply SAME].
    rewrite remove_nodes_subs. set (l := (if b then ch else []) ++ [x]).
    pose proof (remove_nodes_kept l (view w m)) as K. pose proof (remove_nodes_fields l (view w m)) as (F1 & F2 & F3 & _).
    destruct (remove_nodes l (view w m)) as [c1 r] eqn:Er. cbn [fst snd] in *. split; [|reflexivity].
    set (kept := filter _ (list_at w (h_subs m))). eexists. split; [exact (sees_set (new_list kept w) i m _ E)|].
    set (m' := with_subs _ _). set (w2 := set_mgr i m' (new_list kept w)).
    unfold view at 1, see, set_subs. rewrite F1, F2, F3. cbn [m' with_subs with_nodes h_name h_ref h_root h_subs h_nodes h_edges view see c_name c_ref c_root]. f_equal.
    - assert (L2 : list_at w2 (List.length (w_lists w)) = kept) by (unfold list_at; apply nth_error_nth; cbn; apply nth_error_last).
      rewrite L2. change (infos_at w2 kept) with (infos_at w kept). unfold kept, view, see. cbn [c_subs].
      generalize (list_at w (h_subs m)). induction l0 as [|a q IH]; [reflexivity|]. cbn [filter infos_at flat_map].
      fold (infos_at w q). destruct (nth_error (w_infos w) a) as [y|] eqn:Y; [|exact IH].
      cbn [app map filter see_info s_name]. destruct (smem (i_name y) dr) eqn:S; cbn [negb]; [exact IH|].
      unfold infos_at at 1. cbn [flat_map map app]. rewrite Y. cbn [map app]. f_equal. exact IH.
    - change (read w (filter (fun na => has_cs c1 (fst na)) (h_nodes m)) = c_nodes c1).
      rewrite (read_filter w (has_cs c1)). symmetry. exact K.
  Qed.

  Lemma sim_delete_all : forall l w i m, inv w -> nth_error (w_mgrs w) i = Some m ->
    sees (fst (h_delete_all w i l)) i (fst (delete_all (view w m) l)) /\
    snd (h_delete_all w i l) = snd (delete_all (view w m) l).
  Proof.
    induction l as [|n r IH]; intros w i m I E; [split; [exists m; auto|reflexivity]|].
    cbn [h_delete_all delete_all]. rewrite E. pose proof (sim_delete_cs w i m n true I E) as [(m1 & E1 & V1) R1].
    pose proof (inv_delete_cs w i m n true I E) as I1.
    destruct (h_delete_cs w i m n true) as [w1 q1]. destruct (delete_cs (view w m) n true) as [c1 q2]. cbn [fst snd] in *. subst c1 q2.
    destruct q1 as [u|e]; [|split; [exists m1; auto|reflexivity]]. apply IH; assumption.
  Qed.

  (** extraction *)
  Lemma sub_filter : forall (d : dict D) s, filter (fun kv => smem (fst kv) (sub_common_data d s)) d = filter (fun kv => smem (fst kv) (s_data s)) d.
  Proof.
    intros d s. apply filter_ext_in. intros [k v] J. cbn [fst]. unfold sub_common_data.
    destruct (smem k (s_data s)) eqn:Q.
    - apply smem_In, filter_In. split; [apply in_map_iff; exists (k, v); auto|exact Q].
    - destruct (smem k (filter _ _)) eqn:P; [|reflexivity]. apply smem_In, filter_In in P. destruct P as [_ P]. congruence.
  Qed.

  Lemma see_info_ext : forall n (w w' : wld) x, w_infos w' = w_infos w -> w_lists w' = w_lists w -> see_info n w' x = see_info n w x.
  Proof.
    induction n as [|n IH]; intros w w' x F L; [reflexivity|]. cbn [see_info]. f_equal. unfold list_at, infos_at. rewrite F, L.
    apply map_ext. intros y. apply IH; assumption.
  Qed.
  Lemma sim_extract : forall (w : wld) m x n, (forall k a, In (k, a) (h_nodes m) -> a < List.length (w_dicts w)) ->
    match extract_sub (see 1 w m) (see_info (S n) w x) with
    | Ok c => snd (h_extract w m x) = Ok tt /\ exists m', w_mgrs (fst (h_extract w m x)) = w_mgrs w ++ [m'] /\
        see n (fst (h_extract w m x)) m' = c /\ (forall k a, In (k, a) (h_nodes m') -> a < List.length (w_dicts (fst (h_extract w m x))))
    | Err e => h_extract w m x = (w, Err e)
    end /\ w_infos (fst (h_extract w m x)) = w_infos w /\ w_lists (fst (h_extract w m x)) = w_lists w /\
    (exists d, w_dicts (fst (h_extract w m x)) = w_dicts w ++ d).
  Proof.
    intros w m x n B. unfold h_extract, extract_sub, node_data. cbn [see_info s_members s_common s_name s_ref s_root s_subs].
    change (c_nodes (see 1 w m)) with (read w (h_nodes m)). change (c_edges (see 1 w m)) with (h_edges m).
    rewrite <- (read_filter w (fun k => smem k (i_members x))). rewrite !read_dget.
    set (ns := filter (fun na => smem (fst na) (i_members x)) (h_nodes m)).
    destruct (dget (i_common x) ns) as [a|] eqn:A.
    2:{ split; [reflexivity|]. split; [reflexivity|]. split; [reflexivity|]. exists []. symmetry. apply app_nil_r. }
    assert (A' : dget (i_common x) (h_nodes m) = Some a).
    { unfold ns in A. rewrite (dget_filter (fun k => smem k (i_members x))) in A. destruct (smem _ _); [exact A|discriminate]. }
    rewrite A'. cbn [fst snd]. split; [|split; [reflexivity|split; [reflexivity|eexists; reflexivity]]].
    split; [reflexivity|]. eexists. split; [reflexivity|].
    set (s := Sub _ _ _ _ _ _ _). set (d := filter _ (dict_at w a)). set (w2 := new_mgr _ (new_dict d w)).
    assert (NS : forall k c, In (k, c) ns -> c < List.length (w_dicts w)) by (intros k c J; apply filter_In in J; apply (B k c), J).
    split.
    - unfold see. cbn [h_name h_ref h_root h_subs h_nodes h_edges]. f_equal; [apply map_ext; intros y; apply see_info_ext; reflexivity|].
      change (read w2 (dset (i_common x) (List.length (w_dicts w)) ns) = dset (i_common x) (filter (fun kv => smem (fst kv) (sub_common_data (dict_at w a) s)) (dict_at w a)) (read w ns)).
      rewrite read_dset. replace (dict_at w2 (List.length (w_dicts w))) with d by (symmetry; exact (dict_at_fresh w d)).
      rewrite sub_filter. unfold d. cbn [s s_data]. f_equal. apply read_ext. intros k c J. exact (dict_at_new w d c (NS k c J)).
    - cbn. intros k c J. rewrite app_length. cbn. apply dset_pairs in J. destruct J as [[_ ->]|J]; [lia|]. pose proof (NS k c J). lia.
  Qed.
  Lemma see_grown : forall n (w w' : wld) m, w_infos w' = w_infos w -> w_lists w' = w_lists w -> (exists d, w_dicts w' = w_dicts w ++ d) ->
    (forall k a, In (k, a) (h_nodes m) -> a < List.length (w_dicts w)) -> see n w' m = see n w m.
  Proof.
    intros n w w' m F L (d & G) B. unfold see. f_equal.
    - unfold list_at, infos_at. rewrite F, L. apply map_ext. intros y. apply see_info_ext; assumption.
    - apply map_ext_in. intros [k a] J. cbn. f_equal. unfold dict_at. rewrite G. apply app_nth1, (B k a J).
  Qed.
  Lemma extract_all_grows : forall l (w : wld) m, (forall k a, In (k, a) (h_nodes m) -> a < List.length (w_dicts w)) ->
    w_infos (fst (h_extract_all w m l)) = w_infos w /\ w_lists (fst (h_extract_all w m l)) = w_lists w /\
    (exists d, w_dicts (fst (h_extract_all w m l)) = w_dicts w ++ d) /\ (exists q, w_mgrs (fst (h_extract_all w m l)) = w_mgrs w ++ q).
  Proof.
    induction l as [|x r IH]; intros w m B; cbn [h_extract_all].
    - split; [reflexivity|]. split; [reflexivity|]. split; exists []; symmetry; apply app_nil_r.
    - destruct (sim_extract w m x 0 B) as (H & F & L & (d & G)).
      assert (M : exists q, w_mgrs (fst (h_extract w m x)) = w_mgrs w ++ q).
      { destruct (extract_sub _ _); [destruct H as (_ & m' & H & _); eauto|]. rewrite H. exists []. symmetry. apply app_nil_r. }
      destruct M as (q0 & M). destruct (h_extract w m x) as [w1 [u|e]]; cbn [fst] in *; [|split; [|split; [|split]]; eauto].
      destruct (IH w1 m) as (F1 & L1 & (d1 & G1) & (q1 & M1)).
      { intros k a J. rewrite G, app_length. pose proof (B k a J). lia. }
      split; [congruence|]. split; [congruence|]. rewrite G1, G, M1, M. split; eexists; symmetry; apply app_assoc.
  Qed.
  Lemma sim_extract_all : forall l (w : wld) m n, (forall k a, In (k, a) (h_nodes m) -> a < List.length (w_dicts w)) ->
    match extract_subs (see 1 w m) (map (see_info (S n) w) l) with
    | Ok cs => snd (h_extract_all w m l) = Ok tt /\ forall p, nth_error cs p = seen n (fst (h_extract_all w m l)) (List.length (w_mgrs w) + p)
    | Err e => snd (h_extract_all w m l) = Err e
    end.
  Proof.
    induction l as [|x r IH]; intros w m n B; cbn [h_extract_all extract_subs map].
    - split; [reflexivity|]. intros p. unfold seen. cbn [fst]. rewrite (proj2 (nth_error_None (w_mgrs w) (List.length (w_mgrs w) + p))) by lia. destruct p; reflexivity.
    - destruct (sim_extract w m x n B) as (H & F & L & (d & G)).
      destruct (extract_sub (see 1 w m) (see_info (S n) w x)) as [c|e] eqn:X; cbn [bind]; [|rewrite H; reflexivity].
      destruct H as (R & m' & M & SE & B').
      assert (B1 : forall k a, In (k, a) (h_nodes m) -> a < List.length (w_dicts (fst (h_extract w m x)))).
      { intros k a J. rewrite G, app_length. pose proof (B k a J). lia. }
      destruct (h_extract w m x) as [w1 q]. cbn [fst snd] in *. subst q.
      pose proof (IH w1 m n B1) as IH1. destruct (extract_all_grows r w1 m B1) as (F2 & L2 & D2 & (q2 & M2)).
      rewrite (see_grown 1 w w1 m F L (ex_intro _ d G) B) in IH1.
      replace (map (see_info (S n) w1) r) with (map (see_info (S n) w) r) in IH1 by (apply map_ext; intros y; symmetry; apply see_info_ext; assumption).
      destruct (extract_subs (see 1 w m) (map (see_info (S n) w) r)) as [cs|e]; cbn [bind]; [|exact IH1].
      destruct IH1 as [R1 S1]. split; [exact R1|]. intros [|p].
      + cbn [nth_error]. unfold seen. rewrite M2, M, Nat.add_0_r, <- app_assoc. rewrite nth_error_app2 by lia. rewrite Nat.sub_diag. cbn [app nth_error].
        f_equal. rewrite (see_grown n w1 _ m' F2 L2 D2 B'). symmetry. exact SE.
      + cbn [nth_error]. rewrite S1. f_equal. rewrite M, app_length. cbn. lia.
  Qed.

  (** removal of the subsystems *)
  Lemma strip_filter : forall (d : dict D) s, filter (fun kv => negb (smem (fst kv) (sub_common_data d s))) d = filter (fun kv => negb (smem (fst kv) (s_data s))) d.
  Proof.
    intros d s. apply filter_ext_in. intros [k v] J. cbn [fst]. f_equal. unfold sub_common_data.
    destruct (smem k (s_data s)) eqn:Q.
    - apply smem_In, filter_In. split; [apply in_map_iff; exists (k, v); auto|exact Q].
    - destruct (smem k (filter _ _)) eqn:P; [|reflexivity]. apply smem_In, filter_In in P. destruct P as [_ P]. congruence.
  Qed.
  Lemma sim_strip : forall l (w : wld) i m, inv w -> nth_error (w_mgrs w) i = Some m ->
    view (fst (fst (h_strip w i m l))) (snd (fst (h_strip w i m l))) = fst (strip_subs (view w m) (map (see_info 0 w) l)) /\
    snd (h_strip w i m l) = snd (strip_subs (view w m) (map (see_info 0 w) l)).
  Proof.
    induction l as [|x r IH]; intros w i m I E; [split; reflexivity|]. cbn [h_strip strip_subs map].
    pose proof (inv_strip [x] w i m I E) as ONE. cbn [h_strip] in ONE.
    unfold sub_common_neighbors, node_data. cbn [see_info s_common s_members]. rewrite view_cs.
    change (c_nodes (view w m)) with (read w (h_nodes m)). rewrite read_dget. unfold dmem.
    pose proof (inv_cell_ok w i m I E) as (_ & _ & B & _).
    destruct (dget (i_common x) (h_nodes m)) as [a|] eqn:A; [|split; reflexivity].
    set (d := filter _ (dict_at w a)) in *. set (m1 := with_nodes _ _ m) in *. set (w1 := set_mgr i m1 (new_dict d w)) in *.
    cbn [fst snd] in ONE. destruct ONE as [I1 E1]. destruct (IH w1 i m1 I1 E1) as [V1 R1].
    rewrite (strip_filter (dict_at w a)). cbn [s_data].
    assert (V : view w1 m1 = set_nodes (dset (i_common x) d (read w (h_nodes m))) (view w m)).
    { unfold view at 1, see, set_nodes, set_graph. cbn [m1 with_nodes h_name h_ref h_root h_subs h_nodes h_edges view see c_name c_ref c_root c_subs c_edges]. f_equal.
      change (read w1 (dset (i_common x) (List.length (w_dicts w)) (h_nodes m)) = dset (i_common x) d (read w (h_nodes m))).
      rewrite read_dset. replace (dict_at w1 (List.length (w_dicts w))) with d by (symmetry; exact (dict_at_fresh w d)).
      f_equal. apply read_ext. intros k c J. exact (dict_at_new w d c (B k c J)). }
    rewrite V in V1, R1. change (map (see_info 0 w1) r) with (map (see_info 0 w) r) in V1, R1.
    destruct (h_strip w1 i m1 r) as [[w2 m2] q]. cbn [fst snd] in *.
    change (filter (fun kv => negb (smem (fst kv) (i_data x))) (dict_at w a)) with d.
    destruct (strip_subs _ _) as [c2 q2]. cbn [fst snd] in *. subst c2 q2. destruct q; split; reflexivity.
  Qed.
  Lemma sim_remove_subs : forall (w : wld) i m, inv w -> nth_error (w_mgrs w) i = Some m ->
    sees (fst (h_remove_subs w i m)) i (fst (remove_subsystems (view w m))) /\
    snd (h_remove_subs w i m) = snd (remove_subsystems (view w m)).
  Proof.
    intros w i m I E. unfold h_remove_subs, remove_subsystems.
    change (c_subs (view w m)) with (map (see_info 0 w) (infos_at w (list_at w (h_subs m)))).
    set (l := infos_at w _). destruct (sim_strip l w i m I E) as [V R]. destruct (inv_strip l w i m I E) as [I1 E1].
    destruct (h_strip w i m l) as [[w1 m1] q]. destruct (strip_subs _ _) as [c1 q1]. cbn [fst snd] in *. subst c1 q1.
    destruct q as [del|e]; [|split; [exists m1; auto|reflexivity]].
    set (m2 := with_subs (List.length (w_lists w1)) m1). set (w2 := set_mgr i m2 (new_list [] w1)).
    assert (I2 : inv w2).
    { split.
      + pose proof (good_new_list everything everything everything everything w1 [] (proj1 I1) (fun a F => match F with end)) as G1.
        refine (good_wf _ _ (good_set_mgr everything everything everything everything _ i _ (good_wf _ _ G1) Logic.I _)).
        destruct (cl_mgrs _ _ _ _ w1 (proj1 I1) i m1 Logic.I E1) as (A & B & K). split; [exact A|]. split; [exact Logic.I|]. cbn. rewrite app_length. cbn. lia.
      + apply (names_set w1 i m2 EmptyString _ I1); [reflexivity| |]; cbn.
        * apply (no_keys w1 (proj2 I1) i m1 E1).
        * intros n a J. left. exists i, m1. auto. }
    assert (E2 : nth_error (w_mgrs w2) i = Some m2) by exact (sees_set (new_list [] w1) i m1 m2 E1).
    assert (V2 : view w2 m2 = set_subs [] (view w1 m1)).
    { unfold view at 1, see, set_subs. cbn [m2 with_subs h_name h_ref h_root h_subs h_nodes h_edges]. f_equal.
      unfold list_at. replace (nth (List.length (w_lists w1)) (w_lists w2) []) with (@nil nat); [reflexivity|].
      symmetry. apply nth_error_nth. cbn. apply nth_error_last. }
    rewrite <- V2. apply sim_delete_all; assumption.
  Qed.
End Sim.
