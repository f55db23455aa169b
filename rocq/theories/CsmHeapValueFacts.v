(** Lemmas for C26: names of the cells, and the value model as view of one manager. *)
From Coq Require Import List String Bool ZArith Arith Lia.
From Verif Require Import Base CsmModel CsmSpec CsmGraphFacts CsmHeapModel CsmHeapSpec CsmHeapFacts.
Import ListNotations.
Open Scope list_scope.

Notation everything := (fun _ : nat => True).
Notation wf := (closed everything everything everything everything).

Section Names.
  Context {T D : Type} {ops : LcsOps T}.
  Notation wld := (world T D).

  (** the cell [a] holds the data of system [n] *)
  Definition pairs (w : wld) (n : string) (a : nat) : Prop :=
    exists i m, nth_error (w_mgrs w) i = Some m /\ In (n, a) (h_nodes m).
  Record names_ok (w : wld) : Prop := {
    no_keys : forall i m, nth_error (w_mgrs w) i = Some m -> NoDup (dkeys (h_nodes m));
    no_cells : forall n n' a, pairs w n a -> pairs w n' a -> n = n'
  }.
  Definition inv (w : wld) : Prop := wf w /\ names_ok w.

  Lemma wf_bound : forall w n a, wf w -> pairs w n a -> a < List.length (w_dicts w).
  Proof. intros w n a C (i & m & E & J). destruct (cl_mgrs _ _ _ _ w C i m Logic.I E) as (A & _). apply (A n a J). Qed.

  (** one new cell at most *)
  Lemma names_step : forall w w' n0, inv w ->
    (forall i m, nth_error (w_mgrs w') i = Some m -> NoDup (dkeys (h_nodes m))) ->
    (forall n a, pairs w' n a -> pairs w n a \/ (n = n0 /\ a = List.length (w_dicts w))) -> names_ok w'.
  Proof.
    intros w w' n0 [C [K U]] K' P. constructor; [exact K'|]. intros n n' a A B.
    destruct (P n a A) as [A'|[-> ->]]; destruct (P n' _ B) as [B'|[-> EB]]; auto.
    - exact (U n n' a A' B').
    - subst a. apply wf_bound in A'; [lia|exact C].
    - apply wf_bound in B'; [lia|exact C].
  Qed.
  (** the manager [i] is replaced *)
  Lemma names_set : forall w i m n0 (w' : wld), inv w -> w_mgrs w' = upd i m (w_mgrs w) -> NoDup (dkeys (h_nodes m)) ->
    (forall n a, In (n, a) (h_nodes m) -> pairs w n a \/ (n = n0 /\ a = List.length (w_dicts w))) -> names_ok w'.
  Proof.
    intros w i m n0 w' I E N P. apply (names_step w w' n0 I).
    - intros k x H. rewrite E in H. destruct (Nat.eq_dec k i) as [->|NE].
      + rewrite upd_same in H; [injection H as <-; exact N|]. rewrite <- (upd_length _ _ i m). apply nth_error_Some. congruence.
      + rewrite upd_other in H by exact NE. apply (no_keys w (proj2 I) k x H).
    - intros n a (k & x & H & J). rewrite E in H. destruct (Nat.eq_dec k i) as [->|NE].
      + rewrite upd_same in H; [injection H as <-; apply P, J|]. rewrite <- (upd_length _ _ i m). apply nth_error_Some. congruence.
      + rewrite upd_other in H by exact NE. left. exists k, x. auto.
  Qed.
  Lemma names_add : forall w m n0 (w' : wld), inv w -> w_mgrs w' = w_mgrs w ++ [m] -> NoDup (dkeys (h_nodes m)) ->
    (forall n a, In (n, a) (h_nodes m) -> pairs w n a \/ (n = n0 /\ a = List.length (w_dicts w))) -> names_ok w'.
  Proof.
    intros w m n0 w' I E N P. apply (names_step w w' n0 I).
    - intros k x H. rewrite E in H. destruct (Nat.eq_dec k (List.length (w_mgrs w))) as [->|NE].
      + rewrite nth_error_last in H. injection H as <-. exact N.
      + rewrite nth_error_new in H by exact NE. apply (no_keys w (proj2 I) k x H).
    - intros n a (k & x & H & J). rewrite E in H. destruct (Nat.eq_dec k (List.length (w_mgrs w))) as [->|NE].
      + rewrite nth_error_last in H. injection H as <-. apply P, J.
      + rewrite nth_error_new in H by exact NE. left. exists k, x. auto.
  Qed.
  Lemma names_same : forall w (w' : wld), inv w -> w_mgrs w' = w_mgrs w -> names_ok w'.
  Proof.
    intros w w' I E. apply (names_step w w' EmptyString I).
    - intros k x H. rewrite E in H. apply (no_keys w (proj2 I) k x H).
    - intros n a (k & x & H & J). rewrite E in H. left. exists k, x. auto.
  Qed.

  Lemma good_wf : forall w w' : wld, good everything everything everything everything w w' -> wf w'.
  Proof. intros w w' [_ C]. exact C. Qed.
  Lemma filter_keys : forall (V : Type) (f : string * V -> bool) d, NoDup (dkeys d) -> NoDup (dkeys (filter f d)).
  Proof.
    intros V f. induction d as [|[k v] r IH]; cbn; intros N; [constructor|]. apply NoDup_cons_iff in N. destruct N as [N1 N2].
    destruct (f (k, v)); [|apply IH, N2]. cbn. constructor; [|apply IH, N2]. intros J. apply N1. apply in_map_iff in J.
    destruct J as ([k' v'] & <- & J). apply filter_In in J. apply in_map_iff. exists (k', v'). tauto.
  Qed.
  Lemma dset_pairs : forall (V : Type) k (v : V) d n a, In (n, a) (dset k v d) -> (n = k /\ a = v) \/ In (n, a) d.
  Proof.
    intros V k v. induction d as [|[k' v'] r IH]; intros n a; cbn.
    - intros [E|[]]. injection E as -> ->. auto.
    - destruct (String.eqb k k') eqn:K.
      + intros [E|J]; [injection E as -> ->; apply String.eqb_eq in K; auto|auto].
      + intros [E|J]; [right; left; exact E|]. destruct (IH n a J) as [H|H]; auto.
  Qed.
  Lemma compose_cells_pairs : forall h g n a, In (n, a) (compose_cells g h) -> In (n, a) g \/ In (n, a) h.
  Proof.
    induction h as [|[k b] r IH]; intros g n a; cbn; [auto|]. intros J. apply IH in J. destruct J as [J|J]; [|auto].
    apply dset_pairs in J. cbn in J. destruct J as [[-> ->]|J]; auto.
  Qed.
  Lemma compose_cells_keys : forall h g, NoDup (dkeys g) -> NoDup (dkeys (compose_cells g h)).
  Proof. induction h as [|[k b] r IH]; intros g N; cbn; [exact N|]. apply IH, dset_keys_NoDup, N. Qed.

  Lemma discard_mgrs : forall k l (w : wld), w_mgrs (discard_data k w l) = w_mgrs w /\ w_dicts (discard_data k w l) = w_dicts w /\ w_lists (discard_data k w l) = w_lists w.
  Proof.
    intros k. induction l as [|a r IH]; intros w; [auto|]. cbn [discard_data fold_left]. destruct (nth_error (w_infos w) a); [|apply IH].
    match goal with |- w_mgrs (fold_left _ r ?w1) = _ /\ _ => exact (IH w1) end.
  Qed.

  Lemma inv_delete_cs : forall w i m x b, inv w -> nth_error (w_mgrs w) i = Some m -> inv (fst (h_delete_cs w i m x b)).
  Proof.
    intros w i m x b I E. split; [apply (good_wf w), good_h_delete_cs; [apply I|exact Logic.I|exact E]|].
    unfold h_delete_cs. destruct (negb _); [apply I|]. destruct (String.eqb _ _); [apply I|].
    destruct (get_all_children _ _) as [ch|]; [|apply I]. destruct (negb b && _); [apply I|].
    destruct (dropped_subs _ _ _) as [dr|]; [|apply I]. destruct (remove_nodes _ _) as [c1 r1]. cbn [fst].
    apply (names_set w i (with_subs (List.length (w_lists w)) (with_nodes (filter (fun na => has_cs c1 (fst na)) (h_nodes m)) (c_edges c1) m)) EmptyString _ I); [reflexivity| |].
    - cbn. apply filter_keys, (no_keys w (proj2 I) i m E).
    - intros n a J. cbn in J. apply filter_In in J. left. exists i, m. tauto.
  Qed.
  Lemma inv_extract : forall w i m x, inv w -> nth_error (w_mgrs w) i = Some m -> In x (w_infos w) -> inv (fst (h_extract w m x)).
  Proof.
    intros w i m x I E HX. apply In_nth_error in HX. destruct HX as (a0 & HX). split.
    - apply (good_wf w), good_h_extract; [apply I|apply (cl_mgrs _ _ _ _ w (proj1 I) i m Logic.I E)|exact Logic.I|].
      apply (cl_infos _ _ _ _ w (proj1 I) a0 x Logic.I HX).
    - unfold h_extract. destruct (dget _ _) as [a|]; [|apply I]. cbn [fst].
      apply (names_add w (Hm (i_name x) (i_ref x) (i_root x) (i_subs x) (dset (i_common x) (List.length (w_dicts w)) (filter (fun na => smem (fst na) (i_members x)) (h_nodes m)))
               (filter (fun e => smem (e_src e) (i_members x) && smem (e_dst e) (i_members x)) (h_edges m))) (i_common x) _ I); [reflexivity| |].
      + cbn. apply dset_keys_NoDup, filter_keys, (no_keys w (proj2 I) i m E).
      + intros n b J. cbn in J. apply dset_pairs in J. destruct J as [J|J]; [right; exact J|]. apply filter_In in J. left. exists i, m. tauto.
  Qed.
  Lemma infos_at_In : forall (w : wld) l x, In x (infos_at w l) -> In x (w_infos w).
  Proof.
    intros w l x J. unfold infos_at in J. apply in_flat_map in J. destruct J as (a & _ & J).
    destruct (nth_error (w_infos w) a) eqn:E; [|contradiction]. destruct J as [<-|[]]. apply nth_error_In in E. exact E.
  Qed.
  Lemma inv_extract_all : forall l w i m, inv w -> nth_error (w_mgrs w) i = Some m -> (forall x, In x l -> In x (w_infos w)) -> inv (fst (h_extract_all w m l)).
  Proof.
    induction l as [|x r IH]; intros w i m I E H; [exact I|]. cbn [h_extract_all].
    pose proof (inv_extract w i m x I E (H x (or_introl eq_refl))) as I1.
    assert (Q : w_infos (fst (h_extract w m x)) = w_infos w /\ (nth_error (w_mgrs (fst (h_extract w m x))) i = Some m)).
    { unfold h_extract. destruct (dget _ _); cbn; [|auto]. split; [reflexivity|]. rewrite nth_error_app1; [exact E|]. apply nth_error_Some. congruence. }
    destruct (h_extract w m x) as [w1 [u|e]]; cbn [fst] in *; [|exact I1]. destruct Q as [Q1 Q2].
    apply (IH w1 i m I1 Q2). intros y J. rewrite Q1. apply H. right. exact J.
  Qed.
  Lemma inv_strip : forall l w i m, inv w -> nth_error (w_mgrs w) i = Some m ->
    inv (fst (fst (h_strip w i m l))) /\ nth_error (w_mgrs (fst (fst (h_strip w i m l)))) i = Some (snd (fst (h_strip w i m l))).
  Proof.
    induction l as [|x r IH]; intros w i m I E; [split; assumption|]. cbn [h_strip].
    destruct (dget (i_common x) (h_nodes m)) as [a|]; [|split; assumption].
    set (d := filter _ (dict_at w a)). set (m1 := with_nodes _ _ _).
    assert (I1 : inv (set_mgr i m1 (new_dict d w))).
    { split.
      - pose proof (good_new_dict everything everything everything everything w d (proj1 I)) as G1.
        refine (good_wf _ _ (good_set_mgr everything everything everything everything _ i m1 (good_wf _ _ G1) Logic.I _)).
        destruct (cl_mgrs _ _ _ _ w (proj1 I) i m Logic.I E) as (A & B & K). split; [|split; [exact B|exact K]].
        intros n b J. cbn in J. cbn. rewrite app_length. cbn. apply In_dset in J. destruct J as [->|J]; [split; [exact Logic.I|lia]|].
        destruct (A n b J). split; [assumption|lia].
      - apply (names_set w i m1 (i_common x) _ I); [reflexivity| |].
        + cbn. apply dset_keys_NoDup, (no_keys w (proj2 I) i m E).
        + intros n b J. cbn in J. apply dset_pairs in J. destruct J as [J|J]; [right; exact J|]. left. exists i, m. auto. }
    assert (E1 : nth_error (w_mgrs (set_mgr i m1 (new_dict d w))) i = Some m1).
    { cbn. apply upd_same. apply nth_error_Some. congruence. }
    destruct (IH _ i m1 I1 E1) as [I2 E2].
    destruct (h_strip (set_mgr i m1 (new_dict d w)) i m1 r) as [[w2 m2] [q|e]]; cbn [fst snd] in *; split; assumption.
  Qed.
  Lemma inv_delete_all : forall l w i, inv w -> inv (fst (h_delete_all w i l)).
  Proof.
    induction l as [|n r IH]; intros w i I; [exact I|]. cbn [h_delete_all].
    destruct (nth_error (w_mgrs w) i) as [m|] eqn:E; [|exact I]. pose proof (inv_delete_cs w i m n true I E) as I1.
    destruct (h_delete_cs w i m n true) as [w1 [u|e]]; cbn [fst] in *; [apply IH, I1|exact I1].
  Qed.
  Lemma inv_run : forall w o, inv w -> inv (fst (run_wop w o)).
  Proof.
    intros w o I.
    assert (W : wf (fst (run_wop w o))) by (apply (good_wf w), good_run; [apply I|intros; exact Logic.I]).
    destruct o; cbn [run_wop] in *; unfold with_mgr in *; try (destruct (nth_error (w_mgrs w) i) as [m|] eqn:E; [|exact I]).
    - split; [exact W|]. apply (names_add w (Hm name ref root (List.length (w_lists w)) [(root, List.length (w_dicts w))] []) root _ I); [reflexivity| |].
      + cbn. repeat constructor. intros [].
      + intros n a [J|[]]. injection J as <- <-. auto.
    - split; [exact W|]. unfold h_add_cs. destruct (add_ref_conflict _ _); [apply I|]. destruct (has_cs (view w m) name).
      + destruct (is_neighbor_of _ _ _) as [[|]|]; try apply I. cbn [fst].
        match goal with |- names_ok (set_mgr i ?m1 _) => apply (names_set w i m1 EmptyString _ I) end; [reflexivity| |]; cbn.
        * apply (no_keys w (proj2 I) i m E).
        * intros n a J. left. exists i, m. auto.
      + destruct (has_cs (view w m) ref); [|apply I]. cbn [fst].
        match goal with |- names_ok (set_mgr i ?m1 _) => apply (names_set w i m1 name _ I) end; [reflexivity| |]; cbn.
        * apply dset_keys_NoDup, (no_keys w (proj2 I) i m E).
        * intros n a J. apply dset_pairs in J. destruct J as [J|J]; [right; exact J|]. left. exists i, m. auto.
    - apply inv_delete_cs; assumption.
    - split; [exact W|]. apply (names_same w _ I). unfold h_assign.
      destruct (smem _ _); [reflexivity|]. destruct (negb _); [reflexivity|].
      destruct target as [tg|]; [destruct (negb _); [reflexivity|]; destruct (transform v ref tg); [|reflexivity]; destruct (dget tg _); reflexivity|].
      destruct (dget ref _); reflexivity.
    - split; [exact W|]. apply (names_same w _ I). unfold h_delete_data. destruct (holder _ _ _); cbn; apply discard_mgrs.
    - destruct (nth_error (w_mgrs w) j) as [o|] eqn:Ej; [|exact I]. split; [exact W|]. unfold h_merge.
      destruct (merge_ref_conflict _ _); [apply I|]. destruct (filter _ _) as [|n [|n' r]]; try apply I.
      destruct (existsb _ _); [apply I|]. destruct (dget n (h_nodes m)) as [a|]; [|apply I]. destruct (dget n (h_nodes o)) as [b|]; [|apply I]. cbn [fst].
      match goal with |- names_ok (set_list _ _ (set_mgr i ?m1 _)) => apply (names_set w i m1 n _ I) end; [reflexivity| |]; cbn.
      + apply dset_keys_NoDup, compose_cells_keys, (no_keys w (proj2 I) i m E).
      + intros k c J. apply dset_pairs in J. destruct J as [J|J]; [right; exact J|]. left. apply compose_cells_pairs in J.
        destruct J as [J|J]; [exists i, m; auto|exists j, o; auto].
    - unfold h_subsystems. apply (inv_extract_all _ w i m I E). intros x. apply infos_at_In.
    - unfold h_remove_subs. destruct (inv_strip (infos_at w (list_at w (h_subs m))) w i m I E) as [I1 E1].
      destruct (h_strip w i m _) as [[w1 m1] [del|e]]; cbn [fst snd] in *; [|exact I1].
      apply inv_delete_all. split.
      + pose proof (good_new_list everything everything everything everything w1 [] (proj1 I1) (fun a F => match F with end)) as G1.
        refine (good_wf _ _ (good_set_mgr everything everything everything everything _ i _ (good_wf _ _ G1) Logic.I _)).
        destruct (cl_mgrs _ _ _ _ w1 (proj1 I1) i m1 Logic.I E1) as (A & B & K). split; [exact A|]. split; [exact Logic.I|]. cbn. rewrite app_length. cbn. lia.
      + match goal with |- names_ok (set_mgr i ?m2 _) => apply (names_set w1 i m2 EmptyString _ I1) end; [reflexivity| |]; cbn.
        * apply (no_keys w1 (proj2 I1) i m1 E1).
        * intros n a J. left. exists i, m1. auto.
  Qed.
  Lemma reachable_inv : forall w, reachable_w w -> inv w.
  Proof.
    intros w H. induction H as [|w o H IH]; [|apply inv_run, IH]. split; [apply reachable_wf; constructor|].
    constructor.
    - intros i m E. destruct i; discriminate.
    - intros n n' a (i & m & E & _). destruct i; discriminate.
  Qed.
End Names.

(** reading and changing cells *)
Section Value.
  Context {T D : Type} {ops : LcsOps T}.
  Notation wld := (world T D).

  Definition read (w : wld) (ns : dict nat) : dict (dict D) := map (fun na => (fst na, dict_at w (snd na))) ns.

  Lemma read_keys : forall w ns, dkeys (read w ns) = dkeys ns.
  Proof. intros w ns. unfold dkeys, read. rewrite map_map. reflexivity. Qed.
  Lemma read_dget : forall w n ns, dget n (read w ns) = match dget n ns with Some a => Some (dict_at w a) | None => None end.
  Proof. intros w n. induction ns as [|[k a] r IH]; cbn; [reflexivity|]. destruct (String.eqb n k); [reflexivity|exact IH]. Qed.
  Lemma read_dset : forall w n a ns, read w (dset n a ns) = dset n (dict_at w a) (read w ns).
  Proof. intros w n a. induction ns as [|[k b] r IH]; cbn; [reflexivity|]. destruct (String.eqb n k); cbn; [reflexivity|]. f_equal. exact IH. Qed.
  Lemma read_compose : forall w h g, read w (compose_cells g h) = compose_nodes (read w g) (read w h).
  Proof. intros w. induction h as [|[k b] r IH]; intros g; [reflexivity|].
  change (read w (compose_cells (dset k b g) r) = compose_nodes (dset k (dict_at w b) (read w g)) (read w r)).
  rewrite IH, read_dset. reflexivity. Qed.
  Lemma read_ext : forall w w' ns, (forall n a, In (n, a) ns -> dict_at w' a = dict_at w a) -> read w' ns = read w ns.
  Proof. intros w w' ns H. apply map_ext_in. intros [n a] J. cbn. rewrite (H n a J). reflexivity. Qed.
  Lemma dict_at_upd : forall (w : wld) a d b, a < List.length (w_dicts w) -> dict_at (set_dict a d w) b = if Nat.eqb b a then d else dict_at w b.
  Proof.
    intros w a d b L. unfold dict_at. destruct (Nat.eqb_spec b a) as [->|N].
    - apply nth_error_nth. cbn. apply upd_same, L.
    - apply nth_of_error. cbn. apply upd_other, N.
  Qed.
  Lemma dict_at_new : forall (w : wld) d b, b < List.length (w_dicts w) -> dict_at (new_dict d w) b = dict_at w b.
  Proof. intros w d b L. unfold dict_at. apply nth_of_error. cbn. apply nth_error_new. lia. Qed.
  Lemma dict_at_fresh : forall (w : wld) d, dict_at (new_dict d w) (List.length (w_dicts w)) = d.
  Proof. intros w d. unfold dict_at. apply nth_error_nth. cbn. apply nth_error_last. Qed.

  Lemma read_set_dict : forall w ns n a d, NoDup (dkeys ns) -> (forall k, In (k, a) ns -> k = n) ->
    dget n ns = Some a -> a < List.length (w_dicts w) -> read (set_dict a d w) ns = dset n d (read w ns).
  Proof.
    intros w ns n a d. induction ns as [|[k b] r IH]; intros N U E L; [discriminate|].
    cbn [dkeys map fst] in N. apply NoDup_cons_iff in N. destruct N as [N1 N2]. unfold read. cbn [map fst snd dset]. fold (read w r). fold (read (set_dict a d w) r).
    rewrite dict_at_upd by exact L. cbn [dget] in E. destruct (String.eqb_spec n k) as [->|NE].
    - injection E as ->. rewrite Nat.eqb_refl. f_equal. apply read_ext. intros n' c J. rewrite dict_at_upd by exact L.
      destruct (Nat.eqb_spec c a) as [->|]; [|reflexivity]. exfalso. apply N1.
      assert (n' = k) by (apply U; right; exact J). subst n'. apply in_map_iff. exists (k, a). auto.
    - destruct (Nat.eqb_spec b a) as [->|NB]; [exfalso; apply NE; symmetry; apply U; left; reflexivity|].
      f_equal. apply IH; [exact N2|intros k' J; apply U; right; exact J|exact E|exact L].
  Qed.

  Lemma view_cs : forall (w : wld) m n, has_cs (view w m) n = dmem n (h_nodes m).
  Proof.
    intros w m n. unfold has_cs, dmem. cbn [view see c_nodes]. fold (read w (h_nodes m)). rewrite read_dget.
    destruct (dget n (h_nodes m)); reflexivity.
  Qed.
  Lemma view_names : forall (w : wld) m, cs_names (view w m) = dkeys (h_nodes m).
  Proof. intros w m. apply read_keys. Qed.
  Lemma flat_view : forall (w : wld) m, flat (view w m) = view w m.
  Proof.
    intros w m. unfold flat, view, see. cbn. f_equal. rewrite map_map. apply map_ext. intros x. reflexivity.
  Qed.

  (** [cell_ok]: within a manager a cell belongs to one system *)
  Definition cell_ok (w : wld) (m : hmgr T) : Prop :=
    NoDup (dkeys (h_nodes m)) /\ (forall k n a, In (k, a) (h_nodes m) -> In (n, a) (h_nodes m) -> k = n) /\
    (forall n a, In (n, a) (h_nodes m) -> a < List.length (w_dicts w)) /\ h_subs m < List.length (w_lists w) /\
    (forall a, In a (list_at w (h_subs m)) -> a < List.length (w_infos w)).
  Lemma inv_cell_ok : forall w i m, inv w -> nth_error (w_mgrs w) i = Some m -> cell_ok w m.
  Proof.
    intros w i m [C [K U]] E. destruct (cl_mgrs _ _ _ _ w C i m Logic.I E) as (A & _ & B). split; [apply (K i m E)|]. split; [|split; [|split]].
    - intros k n a J1 J2. apply (U k n a); exists i, m; auto.
    - intros n a J. apply (A n a J).
    - exact B.
    - intros a J. apply (cl_list_at everything everything everything everything w (h_subs m) a C Logic.I J).
  Qed.

  Lemma view_assign : forall w m f v k r tg, cell_ok w m ->
    view (fst (h_assign f w m v k r tg)) m = fst (assign_data f (view w m) v k r tg) /\
    snd (h_assign f w m v k r tg) = snd (assign_data f (view w m) v k r tg).
  Proof.
    intros w m f v k r tg (N & U & B & _). unfold h_assign, assign_data.
    destruct (smem k (data_names (view w m))); [split; reflexivity|]. destruct (negb (has_cs (view w m) r)); [split; reflexivity|].
    assert (P : forall n u, view (fst (match dget n (h_nodes m) with None => (w, Err KeyError) | Some a => (set_dict a (dset k u (dict_at w a)) w, Ok tt) end)) m =
                fst (match node_data (view w m) n with None => (view w m, Err KeyError) | Some d => (set_nodes (dset n (dset k u d) (c_nodes (view w m))) (view w m), Ok tt) end) /\
                snd (match dget n (h_nodes m) with None => (w, Err KeyError) | Some a => (set_dict a (dset k u (dict_at w a)) w, Ok tt) end) =
                snd (match node_data (view w m) n with None => (view w m, Err KeyError) | Some d => (set_nodes (dset n (dset k u d) (c_nodes (view w m))) (view w m), Ok tt) end)).
    { intros n u. unfold node_data. cbn [view see c_nodes]. fold (read w (h_nodes m)). rewrite read_dget. destruct (dget n (h_nodes m)) as [a|] eqn:E; [|split; reflexivity].
      cbn [fst snd]. split; [|reflexivity]. unfold view, see, set_nodes, set_graph. cbn [c_name c_ref c_root c_subs c_edges]. f_equal.
      fold (read w (h_nodes m)). fold (read (set_dict a (dset k u (dict_at w a)) w) (h_nodes m)).
      pose proof (dget_mem _ _ _ _ E) as J. apply read_set_dict; [exact N| |exact E|exact (B n a J)]. intros k' J'. exact (U k' n a J' J). }
    destruct tg as [tg|]; [|apply P]. destruct (negb _); [split; reflexivity|]. destruct (f v r tg); [apply P|split; reflexivity].
  Qed.

  (** deleting data *)
  Definition drop (k : string) (x : info) : info :=
    Info (i_name x) (i_root x) (i_common x) (i_ref x) (i_members x) (filter (fun n => negb (String.eqb k n)) (i_data x)) (i_subs x).
  Lemma filter_twice : forall (A : Type) (f : A -> bool) l, filter f (filter f l) = filter f l.
  Proof. intros A f. induction l as [|a r IH]; cbn; [reflexivity|]. destruct (f a) eqn:E; [|exact IH]. cbn. rewrite E, IH. reflexivity. Qed.
  Lemma drop_twice : forall k x, drop k (drop k x) = drop k x.
  Proof. intros k x. unfold drop. cbn. rewrite filter_twice. reflexivity. Qed.
  Lemma discard_infos : forall k l (w : wld) a,
    nth_error (w_infos (discard_data k w l)) a =
      if existsb (Nat.eqb a) l then option_map (drop k) (nth_error (w_infos w) a) else nth_error (w_infos w) a.
  Proof.
    intros k. induction l as [|b r IH]; intros w a; [reflexivity|]. cbn [discard_data fold_left existsb].
    destruct (nth_error (w_infos w) b) as [x|] eqn:E.
    - change (fold_left _ r ?w1) with (discard_data k w1 r). rewrite IH. fold (drop k x). cbn [set_info w_infos]. destruct (Nat.eqb_spec a b) as [->|NE]; cbn [orb].
      + rewrite upd_same by (apply nth_error_Some; congruence). rewrite E. cbn [option_map]. rewrite drop_twice. destruct (existsb _ r); reflexivity.
      + rewrite upd_other by exact NE. reflexivity.
    - change (fold_left _ r w) with (discard_data k w r). rewrite IH. destruct (Nat.eqb_spec a b) as [->|NE]; cbn [orb]; [|reflexivity]. rewrite E. destruct (existsb _ r); reflexivity.
  Qed.
  Lemma infos_discard : forall k l l' (w : wld), (forall a, In a l' -> In a l) -> infos_at (discard_data k w l) l' = map (drop k) (infos_at w l').
  Proof.
    intros k l l' w H. unfold infos_at. induction l' as [|a r IH]; [reflexivity|]. cbn. rewrite map_app, <- IH by (intros b J; apply H; right; exact J). f_equal.
    rewrite discard_infos. replace (existsb (Nat.eqb a) l) with true.
    - destruct (nth_error (w_infos w) a); reflexivity.
    - symmetry. apply existsb_exists. exists a. split; [apply H; left; reflexivity|apply Nat.eqb_refl].
  Qed.
  Lemma holder_pop : forall (w : wld) k ns, NoDup (dkeys ns) -> (forall m n a, In (m, a) ns -> In (n, a) ns -> m = n) ->
    (forall n a, In (n, a) ns -> a < List.length (w_dicts w)) ->
    match holder w k ns with
    | Some a => pop_data (read w ns) k = Some (read (set_dict a (ddel k (dict_at w a)) w) ns)
    | None => pop_data (read w ns) k = None
    end.
  Proof.
    intros w k. induction ns as [|[n a] r IH]; intros N U B; [reflexivity|]. cbn [holder]. unfold read. cbn [map fst snd pop_data]. fold (read w r).
    cbn [dkeys map fst] in N. apply NoDup_cons_iff in N. destruct N as [N1 N2]. assert (LA : a < List.length (w_dicts w)) by (apply (B n a); left; reflexivity).
    destruct (dmem k (dict_at w a)) eqn:M.
    - f_equal. f_equal; [f_equal; rewrite dict_at_upd by exact LA; rewrite Nat.eqb_refl; reflexivity|].
      symmetry. apply read_ext. intros n' c J. rewrite dict_at_upd by exact LA. destruct (Nat.eqb_spec c a) as [->|]; [|reflexivity]. exfalso. apply N1.
      assert (n = n') by (apply (U n n' a); [left; reflexivity|right; exact J]). subst n'. apply in_map_iff. exists (n, a). auto.
    - specialize (IH N2 (fun m n' c J1 J2 => U m n' c (or_intror J1) (or_intror J2)) (fun m c J => B m c (or_intror J))).
      destruct (holder w k r) as [b|] eqn:H; rewrite IH; [|reflexivity]. f_equal. f_equal. f_equal.
      apply holder_In in H. destruct H as (n' & J). assert (LB : b < List.length (w_dicts w)) by (apply (B n' b); right; exact J).
      rewrite dict_at_upd by exact LB. destruct (Nat.eqb_spec a b) as [<-|]; [|reflexivity]. exfalso. apply N1.
      assert (n = n') by (apply (U n n' a); [left; reflexivity|right; exact J]). subst n'. apply in_map_iff. exists (n, a). auto.
  Qed.
  Lemma view_delete_data : forall w m k, cell_ok w m ->
    view (fst (h_delete_data w m k)) m = fst (delete_data (view w m) k) /\ snd (h_delete_data w m k) = snd (delete_data (view w m) k).
  Proof.
    intros w m k (N & U & B & _). unfold h_delete_data, delete_data.
    set (l := list_at w (h_subs m)). set (w1 := discard_data k w l).
    destruct (discard_mgrs k l w) as (Q1 & Q2 & Q3). fold w1 in Q1, Q2, Q3.
    assert (B1 : forall n a, In (n, a) (h_nodes m) -> a < List.length (w_dicts w1)) by (intros n a J; rewrite Q2; exact (B n a J)).
    pose proof (holder_pop w1 k (h_nodes m) N U B1) as P.
    assert (R1 : read w1 (h_nodes m) = read w (h_nodes m)) by (apply read_ext; intros; unfold dict_at; rewrite Q2; reflexivity).
    assert (S1 : forall w2 : wld, w_infos w2 = w_infos w1 -> w_lists w2 = w_lists w1 ->
                 map (see_info 0 w2) (infos_at w2 (list_at w2 (h_subs m))) =
                 map (fun s => s_set_data (filter (fun n => negb (String.eqb k n)) (s_data s)) s) (c_subs (view w m))).
    { intros w2 A1 A2. unfold list_at. rewrite A2, Q3. fold (list_at w (h_subs m)). fold l.
      replace (infos_at w2 l) with (infos_at w1 l) by (unfold infos_at; rewrite A1; reflexivity). unfold w1. rewrite infos_discard by auto.
      cbn [view see c_subs]. fold l. rewrite !map_map. apply map_ext. intros x. reflexivity. }
    cbn [set_subs c_nodes view see]. fold (read w (h_nodes m)). rewrite <- R1.
    destruct (holder w1 k (h_nodes m)) as [a|]; rewrite P; cbn [fst snd]; (split; [|reflexivity]).
    - unfold view at 1, see, set_nodes, set_graph, set_subs. cbn [c_name c_ref c_root c_subs c_edges]. f_equal. apply S1; reflexivity.
    - unfold view at 1, see, set_subs. cbn [c_name c_ref c_root c_subs c_edges c_nodes]. f_equal; [apply S1; reflexivity|].
      change (map (fun na => (fst na, dict_at w1 (snd na))) (h_nodes m)) with (read w1 (h_nodes m)). rewrite R1. reflexivity.
  Qed.

  Lemma infos_at_app : forall (w : wld) l l', infos_at w (l ++ l') = infos_at w l ++ infos_at w l'.
  Proof. intros. apply flat_map_app. Qed.
  Lemma infos_at_new : forall (w : wld) x l, (forall a, In a l -> a < List.length (w_infos w)) -> infos_at (new_info x w) l = infos_at w l.
  Proof.
    intros w x l H. unfold infos_at. induction l as [|a r IH]; [reflexivity|]. cbn. rewrite nth_error_app1 by (apply H; left; reflexivity).
    f_equal. apply IH. intros b J. apply H. right. exact J.
  Qed.
  (** merging: the merged manager sees what the value model says *)
  Lemma view_merge : forall w i m o, cell_ok w m -> cell_ok w o -> nth_error (w_mgrs w) i = Some m ->
    snd (h_merge w i m o) = snd (merge (view w m) (view w o)) /\
    exists m', nth_error (w_mgrs (fst (h_merge w i m o))) i = Some m' /\
      view (fst (h_merge w i m o)) m' = flat (fst (merge (view w m) (view w o))).
  Proof.
    intros w i m o (N & U & B & LS & LI) (No & Uo & Bo & _) E. unfold h_merge, merge.
    destruct (merge_ref_conflict _ _); [split; [reflexivity|]; exists m; split; [exact E|symmetry; apply flat_view]|].
    destruct (filter _ _) as [|n [|n' r]]; try (split; [reflexivity|]; exists m; split; [exact E|symmetry; apply flat_view]).
    destruct (existsb _ _); [split; [reflexivity|]; exists m; split; [exact E|symmetry; apply flat_view]|].
    unfold node_data. cbn [view see c_nodes]. fold (read w (h_nodes m)). fold (read w (h_nodes o)). rewrite !read_dget.
    destruct (dget n (h_nodes m)) as [a|] eqn:A; [|split; [reflexivity|]; exists m; split; [exact E|symmetry; apply flat_view]].
    destruct (dget n (h_nodes o)) as [b|] eqn:Bn; [|split; [reflexivity|]; exists m; split; [exact E|symmetry; apply flat_view]].
    cbn [fst snd]. split; [reflexivity|]. eexists. split.
    - cbn. apply upd_same. apply nth_error_Some. congruence.
    - set (d := dict_join _ _). set (x := Info _ _ _ _ _ _ _). set (m' := with_nodes _ _ _). set (w1 := new_info x (new_dict d w)).
      set (w2 := set_list _ _ (set_mgr i m' w1)).
      unfold view at 1, see, flat, set_subs, set_graph. cbn [c_name c_ref c_root c_subs c_edges c_nodes]. f_equal.
      + (* records *)
        assert (L2 : list_at w2 (h_subs m') = list_at w (h_subs m) ++ [List.length (w_infos w)]).
        { unfold list_at at 1. apply nth_error_nth. cbn. apply upd_same, LS. }
        rewrite L2. replace (infos_at w2 (list_at w (h_subs m) ++ [List.length (w_infos w)])) with (infos_at w (list_at w (h_subs m)) ++ [x]).
        * rewrite !map_app. f_equal. unfold view, see. cbn [c_subs]. rewrite map_map. apply map_ext. intros y. reflexivity.
        * rewrite infos_at_app. f_equal.
          -- symmetry. exact (infos_at_new (new_dict d w) x (list_at w (h_subs m)) LI).
          -- unfold infos_at. cbn [flat_map]. change (w_infos w2) with (w_infos w ++ [x]). rewrite nth_error_last. reflexivity.
      + (* data *)
        change (map (fun na => (fst na, dict_at w2 (snd na))) (h_nodes m')) with (read w2 (dset n (List.length (w_dicts w)) (compose_cells (h_nodes m) (h_nodes o)))).
        rewrite read_dset. replace (dict_at w2 (List.length (w_dicts w))) with d by (symmetry; exact (dict_at_fresh w d)). f_equal.
        rewrite read_compose. f_equal; apply read_ext; intros k c J; [exact (dict_at_new w d c (B k c J))|exact (dict_at_new w d c (Bo k c J))].
  Qed.

  (** cells after merging *)
  Lemma compose_cells_get : forall h g n, NoDup (dkeys h) -> dget n (compose_cells g h) = match dget n h with Some a => Some a | None => dget n g end.
  Proof.
    induction h as [|[k b] r IH]; intros g n N; [reflexivity|]. cbn [dkeys map fst] in N. apply NoDup_cons_iff in N. destruct N as [N1 N2].
    change (compose_cells g ((k, b) :: r)) with (compose_cells (dset k b g) r). rewrite IH by exact N2. cbn [dget].
    rewrite dget_dset. destruct (String.eqb_spec n k) as [->|NE]; [|reflexivity].
    rewrite (proj2 (dget_none _ k r)); [reflexivity|exact N1].
  Qed.
  Lemma merge_cells : forall (w : wld) i m o, nth_error (w_mgrs w) i = Some m -> NoDup (dkeys (h_nodes o)) -> snd (h_merge w i m o) = Ok tt ->
    exists n m', In n (dkeys (h_nodes m)) /\ In n (dkeys (h_nodes o)) /\ (forall k, In k (dkeys (h_nodes m)) -> In k (dkeys (h_nodes o)) -> k = n) /\
      nth_error (w_mgrs (fst (h_merge w i m o))) i = Some m' /\
      (forall j, j <> i -> nth_error (w_mgrs (fst (h_merge w i m o))) j = nth_error (w_mgrs w) j) /\
      h_subs m' = h_subs m /\
      (forall k, dget k (h_nodes m') = if String.eqb k n then Some (List.length (w_dicts w)) else match dget k (h_nodes o) with Some a => Some a | None => dget k (h_nodes m) end) /\
      (exists d, w_dicts (fst (h_merge w i m o)) = w_dicts w ++ [d]) /\
      (exists x, w_infos (fst (h_merge w i m o)) = w_infos w ++ [x] /\ i_subs x = h_subs o /\ i_name x = h_name o) /\
      w_lists (fst (h_merge w i m o)) = upd (h_subs m) (list_at w (h_subs m) ++ [List.length (w_infos w)]) (w_lists w) /\
      (forall k, In k (data_names (view w m)) -> ~ In k (data_names (view w o))).
  Proof.
    intros w i m o E No H. unfold h_merge in *. destruct (merge_ref_conflict _ _); [discriminate|].
    destruct (filter (fun n => has_cs (view w o) n) (cs_names (view w m))) as [|n [|n' r]] eqn:F; try discriminate.
    destruct (existsb _ _) eqn:X; [discriminate|]. destruct (dget n (h_nodes m)) as [a|] eqn:A; [|discriminate]. destruct (dget n (h_nodes o)) as [b|] eqn:Bn; [|discriminate].
    exists n. eexists. split; [apply dget_key; eauto|]. split; [apply dget_key; eauto|]. split.
    - intros k K1 K2. assert (J : In k [n]).
      { rewrite <- F. apply filter_In. rewrite view_names, view_cs. split; [exact K1|]. apply dmem_In. exact K2. }
      destruct J as [<-|[]]. reflexivity.
    - cbn [fst]. split; [cbn; apply upd_same, nth_error_Some; congruence|]. split; [intros j NE; cbn; apply upd_other, NE|]. split; [reflexivity|]. split.
      + intros k. cbn [with_nodes h_nodes]. rewrite dget_dset. destruct (String.eqb k n); [reflexivity|]. apply compose_cells_get, No.
      + split; [eexists; reflexivity|]. split; [eexists; split; [reflexivity|split; reflexivity]|]. split; [reflexivity|].
        intros k K1 K2. assert (Q : existsb (fun k => smem k (data_names (view w m))) (data_names (view w o)) = true).
        { apply existsb_exists. exists k. split; [exact K2|]. apply smem_In, K1. }
        congruence.
  Qed.
End Value.
