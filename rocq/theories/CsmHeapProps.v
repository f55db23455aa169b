(** Theorems C26: which managers share objects. *)
From Coq Require Import List String Bool ZArith Arith Lia.
From Verif Require Import Base CsmModel CsmSpec CsmGraphFacts CsmHeapModel CsmHeapSpec CsmHeapFacts CsmHeapValueFacts CsmHeapSimFacts CsmToy.
Import ListNotations.
Open Scope list_scope.

Section Props.
  Context {T D : Type} {ops : LcsOps T}.
  Notation wld := (world T D).

  (** managers that have no object in common with [j] never change [j], whatever is
      done with them and with the managers made from them *)
  Theorem c26_separate : forall (w : wld) (group : nat -> Prop) j l, reachable_w w -> (j < List.length (w_mgrs w))%nat ->
    (forall i, group i -> separate w i j) ->
    (forall o i, In o l -> In i (used o) -> group i \/ (List.length (w_mgrs w) <= i)%nat) ->
    forall depth, seen depth (run_wops w l) j = seen depth w j.
  Proof. intros w group j l R L S U. apply (group_frame w group j l (reachable_wf w R) L S U). Qed.

  (** a new manager has no object in common with the others *)
  Theorem c26_new : forall (w : wld) root name ref j, reachable_w w -> (j < List.length (w_mgrs w))%nat ->
    separate (fst (run_wop w (WNew root name ref))) (List.length (w_mgrs w)) j.
  Proof.
    intros w root name ref j R L. pose proof (reachable_wf w R) as WF. cbn [run_wop fst]. set (w' := h_new root name ref w).
    assert (NEW : nth_error (w_mgrs w') (List.length (w_mgrs w)) = Some (Hm name ref root (List.length (w_lists w)) [(root, List.length (w_dicts w))] [])) by apply nth_error_last.
    assert (OLD : nth_error (w_mgrs w') j = nth_error (w_mgrs w) j) by (apply nth_error_new; lia).
    assert (LAT : forall a, a <> List.length (w_lists w) -> list_at w' a = list_at w a) by (intros a N; apply nth_of_error; apply nth_error_new, N).
    assert (EMPTY : list_at w' (List.length (w_lists w)) = []) by (apply nth_error_nth; apply nth_error_last).
    assert (RL : forall a, reach_list w' (List.length (w_mgrs w)) a -> a = List.length (w_lists w)).
    { intros a H. induction H as [m E|l a x H IH J E].
      - rewrite NEW in E. injection E as <-. reflexivity.
      - subst l. rewrite EMPTY in J. contradiction. }
    assert (RJ : forall a, reach_list w' j a -> (a < List.length (w_lists w))%nat).
    { intros a H. destruct H as [m E|l a x H J E].
      - rewrite OLD in E. apply (cl_mgrs _ _ _ _ w WF j m Logic.I E).
      - apply (cl_infos _ _ _ _ w WF a x Logic.I E). }
    split; [|split].
    - intros a (m & n & E & J) (m' & n' & E' & J'). rewrite NEW in E. injection E as <-. destruct J as [J|[]]. injection J as _ <-.
      rewrite OLD in E'. destruct (cl_mgrs _ _ _ _ w WF j m' Logic.I E') as (A & _). destruct (A n' _ J'). lia.
    - intros a H1 H2. apply RL in H1. apply RJ in H2. lia.
    - intros a (l & H1 & J) _. apply RL in H1. subst l. rewrite EMPTY in J. contradiction.
  Qed.

  Lemma data_at_cell : forall (w : wld) i m n, wf w -> nth_error (w_mgrs w) i = Some m ->
    data_at w i n = match dget n (h_nodes m) with Some a => Some (dict_at w a) | None => None end.
  Proof.
    intros w i m n C E. unfold data_at. rewrite E. destruct (dget n (h_nodes m)) as [a|] eqn:A; [|reflexivity].
    destruct (cl_mgrs _ _ _ _ w C i m Logic.I E) as (B & _). destruct (B n a (dget_mem _ _ _ _ A)) as [_ L].
    destruct (nth_error (w_dicts w) a) as [d|] eqn:H; [|apply nth_error_None in H; lia]. symmetry. f_equal. apply nth_error_nth, H.
  Qed.
  Lemma not_in_names : forall (w : wld) m n a k, dget n (h_nodes m) = Some a -> smem k (data_names (view w m)) = false -> dget k (dict_at w a) = None.
  Proof.
    intros w m n a k A S. apply dget_none. intros J. apply smem_false in S. apply S. unfold data_names. apply in_flat_map.
    exists (n, dict_at w a). split; [|exact J]. cbn [view see c_nodes]. apply in_map_iff. exists (n, a). split; [reflexivity|apply dget_mem, A].
  Qed.
  Lemma assign_cell : forall (w : wld) f m v k n w', h_assign f w m v k n None = (w', Ok tt) ->
    exists a, dget n (h_nodes m) = Some a /\ w' = set_dict a (dset k v (dict_at w a)) w /\ smem k (data_names (view w m)) = false.
  Proof.
    intros w f m v k n w' H. unfold h_assign in H. destruct (smem k _) eqn:S; [discriminate|]. destruct (negb _); [discriminate|].
    destruct (dget n (h_nodes m)) as [a|]; [|discriminate]. injection H as <-. exists a. auto.
  Qed.

  (** assigning data in the merged manager at a system of the other one changes the
      other one *)
  Theorem c26_assign_refuted : forall (w : wld) i j n f v k w1 w2, reachable_w w -> i <> j ->
    run_wop w (WMerge i j) = (w1, Ok tt) -> has_system w j n -> ~ has_system w i n ->
    run_wop w1 (WAssign i f v k n None) = (w2, Ok tt) ->
    exists d, data_at w j n = Some d /\ data_at w1 j n = Some d /\ dget k d = None /\
      data_at w2 j n = Some (dset k v d) /\ data_at w2 i n = Some (dset k v d).
  Proof.
    intros w i j n f v k w1 w2 R NE M HJ HI A. pose proof (reachable_inv w R) as I. pose proof (proj1 I) as C.
    assert (R1 : reachable_w w1) by (replace w1 with (fst (run_wop w (WMerge (T := T) (D := D) i j))) by (rewrite M; reflexivity); constructor; exact R).
    assert (R2 : reachable_w w2) by (replace w2 with (fst (run_wop w1 (WAssign i f v k n None))) by (rewrite A; reflexivity); constructor; exact R1).
    cbn [run_wop] in M. unfold with_mgr in M. destruct (nth_error (w_mgrs w) i) as [m|] eqn:Ei; [|discriminate]. destruct (nth_error (w_mgrs w) j) as [o|] eqn:Ej; [|discriminate].
    pose proof (no_keys w (proj2 I) j o Ej) as No.
    destruct (merge_cells w i m o Ei No) as (c & m' & C1 & C2 & C3 & E1 & E2 & _ & CG & (d0 & CD) & _); [rewrite M; reflexivity|]. rewrite M in *. cbn [fst] in *.
    rewrite <- (E2 j) in Ej by auto. unfold has_system in HJ, HI. rewrite (data_at_cell w i m n C Ei) in HI. rewrite (data_at_cell w j o n C) in HJ by (rewrite <- E2 by auto; exact Ej).
    destruct (dget n (h_nodes o)) as [b|] eqn:B; [|congruence]. assert (NC : n <> c).
    { intros ->. destruct (proj2 (dget_key _ c (h_nodes m)) C1) as (x & X). rewrite X in HI. apply HI. discriminate. }
    cbn [run_wop] in A. unfold with_mgr in A. rewrite E1 in A. apply assign_cell in A. destruct A as (a & A1 & A2 & A3).
    assert (AB : a = b). { rewrite CG, (proj2 (String.eqb_neq n c) NC), B in A1. congruence. } subst b.
    assert (LB : (a < List.length (w_dicts w))%nat).
    { destruct (cl_mgrs _ _ _ _ w C j o Logic.I) as (Q & _); [rewrite <- E2 by auto; exact Ej|]. apply (Q n a (dget_mem _ _ _ _ B)). }
    assert (D1 : dict_at w1 a = dict_at w a) by (unfold dict_at; rewrite CD; apply app_nth1, LB).
    assert (L1 : (a < List.length (w_dicts w1))%nat) by (rewrite CD, app_length; lia).
    assert (D2 : dict_at w2 a = dset k v (dict_at w a)).
    { rewrite A2, dict_at_upd by exact L1. rewrite Nat.eqb_refl, D1. reflexivity. }
    exists (dict_at w a). split; [rewrite (data_at_cell w j o n C), B; [reflexivity|rewrite <- E2 by auto; exact Ej]|].
    split; [rewrite (data_at_cell w1 j o n (reachable_wf w1 R1) Ej), B, D1; reflexivity|].
    split; [rewrite <- D1; apply (not_in_names w1 m' n); assumption|].
    assert (Ej2 : nth_error (w_mgrs w2) j = Some o) by (rewrite A2; exact Ej). assert (Ei2 : nth_error (w_mgrs w2) i = Some m') by (rewrite A2; exact E1).
    split; [rewrite (data_at_cell w2 j o n (reachable_wf w2 R2) Ej2), B, D2; reflexivity|].
    rewrite (data_at_cell w2 i m' n (reachable_wf w2 R2) Ei2), A1, D2. reflexivity.
  Qed.

  (** and the other way round: the merged manager gets data that is assigned to the
      other one *)
  Theorem c26_back_refuted : forall (w : wld) i j n f v k w1 w2, reachable_w w -> i <> j ->
    run_wop w (WMerge i j) = (w1, Ok tt) -> has_system w j n -> ~ has_system w i n ->
    run_wop w1 (WAssign j f v k n None) = (w2, Ok tt) ->
    exists d, data_at w1 i n = Some d /\ dget k d = None /\ data_at w2 i n = Some (dset k v d).
  Proof.
    intros w i j n f v k w1 w2 R NE M HJ HI A. pose proof (reachable_inv w R) as I. pose proof (proj1 I) as C.
    assert (R1 : reachable_w w1) by (replace w1 with (fst (run_wop w (WMerge (T := T) (D := D) i j))) by (rewrite M; reflexivity); constructor; exact R).
    assert (R2 : reachable_w w2) by (replace w2 with (fst (run_wop w1 (WAssign j f v k n None))) by (rewrite A; reflexivity); constructor; exact R1).
    cbn [run_wop] in M. unfold with_mgr in M. destruct (nth_error (w_mgrs w) i) as [m|] eqn:Ei; [|discriminate]. destruct (nth_error (w_mgrs w) j) as [o|] eqn:Ej; [|discriminate].
    pose proof (no_keys w (proj2 I) j o Ej) as No.
    destruct (merge_cells w i m o Ei No) as (c & m' & C1 & C2 & C3 & E1 & E2 & _ & CG & (d0 & CD) & _); [rewrite M; reflexivity|]. rewrite M in *. cbn [fst] in *.
    unfold has_system in HJ, HI. rewrite (data_at_cell w i m n C Ei) in HI. rewrite (data_at_cell w j o n C Ej) in HJ.
    destruct (dget n (h_nodes o)) as [b|] eqn:B; [|congruence]. assert (NC : n <> c).
    { intros ->. destruct (proj2 (dget_key _ c (h_nodes m)) C1) as (x & X). rewrite X in HI. apply HI. discriminate. }
    cbn [run_wop] in A. unfold with_mgr in A. rewrite (E2 j) in A by auto. rewrite Ej in A. apply assign_cell in A. destruct A as (a & A1 & A2 & A3).
    rewrite B in A1. injection A1 as <-.
    assert (G : dget n (h_nodes m') = Some b) by (rewrite CG, (proj2 (String.eqb_neq n c) NC), B; reflexivity).
    assert (L1 : (b < List.length (w_dicts w1))%nat).
    { destruct (cl_mgrs _ _ _ _ w1 (reachable_wf w1 R1) i m' Logic.I E1) as (Q & _). apply (Q n b (dget_mem _ _ _ _ G)). }
    exists (dict_at w1 b). split; [rewrite (data_at_cell w1 i m' n (reachable_wf w1 R1) E1), G; reflexivity|].
    split; [apply (not_in_names w1 o n); assumption|].
    assert (Ei2 : nth_error (w_mgrs w2) i = Some m') by (rewrite A2; exact E1).
    rewrite (data_at_cell w2 i m' n (reachable_wf w2 R2) Ei2), G, A2, dict_at_upd by exact L1. rewrite Nat.eqb_refl. reflexivity.
  Qed.

  (** deleting data of the other manager in the merged one *)
  Theorem c26_delete_refuted : forall (w : wld) i j n d k w1, reachable_w w -> i <> j ->
    run_wop w (WMerge i j) = (w1, Ok tt) -> ~ has_system w i n -> data_at w j n = Some d -> dmem k d = true ->
    (forall n' d', n' <> n -> data_at w1 i n' = Some d' -> dmem k d' = false) ->
    exists w2, run_wop w1 (WDeleteData i k) = (w2, Ok tt) /\ data_at w2 j n = Some (ddel k d).
  Proof.
    intros w i j n d k w1 R NE M HI HJ HK ONLY. pose proof (reachable_inv w R) as I. pose proof (proj1 I) as C.
    assert (R1 : reachable_w w1) by (replace w1 with (fst (run_wop w (WMerge (T := T) (D := D) i j))) by (rewrite M; reflexivity); constructor; exact R).
    cbn [run_wop] in M. unfold with_mgr in M. destruct (nth_error (w_mgrs w) i) as [m|] eqn:Ei; [|discriminate]. destruct (nth_error (w_mgrs w) j) as [o|] eqn:Ej; [|discriminate].
    pose proof (no_keys w (proj2 I) j o Ej) as No.
    destruct (merge_cells w i m o Ei No) as (c & m' & C1 & C2 & C3 & E1 & E2 & _ & CG & (d0 & CD) & _); [rewrite M; reflexivity|]. rewrite M in *. cbn [fst] in *.
    unfold has_system in HI. rewrite (data_at_cell w i m n C Ei) in HI. rewrite (data_at_cell w j o n C Ej) in HJ.
    destruct (dget n (h_nodes o)) as [b|] eqn:B; [|discriminate]. injection HJ as HJ. assert (NC : n <> c).
    { intros ->. destruct (proj2 (dget_key _ c (h_nodes m)) C1) as (x & X). rewrite X in HI. apply HI. discriminate. }
    assert (LB : (b < List.length (w_dicts w))%nat).
    { destruct (cl_mgrs _ _ _ _ w C j o Logic.I Ej) as (Q & _). apply (Q n b (dget_mem _ _ _ _ B)). }
    assert (D1 : dict_at w1 b = d) by (rewrite <- HJ; unfold dict_at; rewrite CD; apply app_nth1, LB).
    assert (G : dget n (h_nodes m') = Some b) by (rewrite CG, (proj2 (String.eqb_neq n c) NC), B; reflexivity).
    cbn [run_wop]. unfold with_mgr. rewrite E1. unfold h_delete_data.
    set (l := list_at w1 (h_subs m')). destruct (discard_mgrs k l w1) as (Q1 & Q2 & Q3). set (w1' := discard_data k w1 l) in *.
    assert (DA : forall a, dict_at w1' a = dict_at w1 a) by (intros a; unfold dict_at; rewrite Q2; reflexivity).
    assert (H : holder w1' k (h_nodes m') = Some b).
    { pose proof (no_keys w1 (proj2 (reachable_inv w1 R1)) i m' E1) as Nm.
      assert (ONLY' : forall n' a, In (n', a) (h_nodes m') -> n' <> n -> dmem k (dict_at w1' a) = false).
      { intros n' a J NN. rewrite DA. apply (ONLY n'); [exact NN|]. rewrite (data_at_cell w1 i m' n' (reachable_wf w1 R1) E1).
        rewrite (proj2 (dget_In _ n' (h_nodes m') Nm a) J). reflexivity. }
      apply dget_mem in G. clear -G ONLY' DA D1 HK Nm. induction (h_nodes m') as [|[n' a] r IH]; [contradiction|]. cbn [holder].
      cbn [dkeys map fst] in Nm. apply NoDup_cons_iff in Nm. destruct Nm as [N1 N2]. destruct G as [G|G].
      - injection G as -> ->. rewrite DA, D1, HK. reflexivity.
      - rewrite (ONLY' n' a); [|left; reflexivity|intros ->; apply N1, in_map_iff; exists (n, b); auto].
        apply IH; [exact G|exact N2|]. intros n'' a'' J. apply ONLY'. right. exact J. }
    rewrite H. eexists. split; [reflexivity|]. unfold data_at. cbn [set_dict w_mgrs w_dicts]. rewrite Q1, (E2 j) by auto. rewrite Ej, B.
    rewrite upd_same by (rewrite Q2, CD, app_length; lia). rewrite DA, D1. reflexivity.
  Qed.

  (** data at systems the merged manager had before, the common one included, is its
      own *)
  Theorem c26_own : forall (w : wld) i j n f v k w1 w2, reachable_w w -> separate w i j ->
    run_wop w (WMerge i j) = (w1, Ok tt) -> has_system w i n -> run_wop w1 (WAssign i f v k n None) = (w2, Ok tt) ->
    forall depth, seen depth w2 j = seen depth w j.
  Proof.
    intros w i j n f v k w1 w2 R (SD & SL & SI) M HI A. pose proof (reachable_inv w R) as I. pose proof (proj1 I) as C.
    cbn [run_wop] in M. unfold with_mgr in M. destruct (nth_error (w_mgrs w) i) as [m|] eqn:Ei; [|discriminate]. destruct (nth_error (w_mgrs w) j) as [o|] eqn:Ej; [|discriminate].
    assert (NE : i <> j) by (intros ->; apply (SL (h_subs o)); apply rl_own, Ej).
    pose proof (no_keys w (proj2 I) j o Ej) as No.
    destruct (merge_cells w i m o Ei No) as (c & m' & C1 & C2 & C3 & E1 & E2 & HS & CG & (d0 & CD) & (x & CI & _) & CL & _); [rewrite M; reflexivity|]. rewrite M in *. cbn [fst] in *.
    unfold has_system in HI. rewrite (data_at_cell w i m n C Ei) in HI. destruct (dget n (h_nodes m)) as [am|] eqn:Am; [|congruence].
    cbn [run_wop] in A. unfold with_mgr in A. rewrite E1 in A. apply assign_cell in A. destruct A as (a & A1 & A2 & A3).
    assert (NJ : ~ reach_dict w j a).
    { intros RJ. rewrite CG in A1. destruct (String.eqb_spec n c) as [->|NC].
      - injection A1 as <-. destruct RJ as (q & n' & E & J). destruct (cl_mgrs _ _ _ _ w C j q Logic.I E) as (Q & _). destruct (Q n' _ J). lia.
      - destruct (dget n (h_nodes o)) as [b|] eqn:B.
        + exfalso. apply NC, C3; apply dget_key; eauto.
        + apply (SD a); [|exact RJ]. exists m, n. split; [exact Ei|]. apply dget_mem. congruence. }
    apply see_same.
    - intros b RB. rewrite A2. cbn [set_dict w_dicts]. rewrite upd_other by (intros ->; auto). rewrite CD. apply nth_error_app1.
      destruct RB as (q & n' & E & J). destruct (cl_mgrs _ _ _ _ w C j q Logic.I E) as (Q & _). apply (Q n' b J).
    - intros l RL. rewrite A2. cbn [set_dict w_lists]. rewrite CL. apply upd_other. intros ->. apply (SL (h_subs m)); [apply rl_own, Ei|exact RL].
    - intros b (l & RL & J). rewrite A2. cbn [set_dict w_infos]. rewrite CI. apply nth_error_app1.
      apply (cl_list_at everything everything everything everything w l b C Logic.I J).
    - rewrite A2. cbn [set_dict w_mgrs]. apply E2. auto.
  Qed.

  (** merging into the other manager afterwards changes the record of the merged one *)
  Theorem c26_nested_refuted : forall (w : wld) i j k w1 w2 c1 c2, reachable_w w -> separate w i j ->
    run_wop w (WMerge i j) = (w1, Ok tt) -> run_wop w1 (WMerge j k) = (w2, Ok tt) ->
    seen 1 w1 i = Some c1 -> seen 1 w2 i = Some c2 ->
    exists s s' r, last (c_subs c1) s = s /\ last (c_subs c2) s' = s' /\ s_subs s' = s_subs s ++ [r] /\ List.length (c_subs c2) = List.length (c_subs c1).
  Proof.
    intros w i j k w1 w2 c1 c2 R (SD & SL & SI) M M2 S1 S2. pose proof (reachable_inv w R) as I. pose proof (proj1 I) as C.
    assert (R1 : reachable_w w1) by (replace w1 with (fst (run_wop w (WMerge (T := T) (D := D) i j))) by (rewrite M; reflexivity); constructor; exact R).
    cbn [run_wop] in M. unfold with_mgr in M. destruct (nth_error (w_mgrs w) i) as [m|] eqn:Ei; [|discriminate]. destruct (nth_error (w_mgrs w) j) as [o|] eqn:Ej; [|discriminate].
    assert (NE : i <> j) by (intros ->; apply (SL (h_subs o)); apply rl_own, Ej).
    pose proof (no_keys w (proj2 I) j o Ej) as No.
    destruct (merge_cells w i m o Ei No) as (c & m' & _ & _ & _ & E1 & E2 & HS & _ & _ & (x & CI & XS & _) & CL & _); [rewrite M; reflexivity|]. rewrite M in *. cbn [fst] in *.
    rewrite <- (E2 j) in Ej by auto. cbn [run_wop] in M2. unfold with_mgr in M2. rewrite Ej in M2. destruct (nth_error (w_mgrs w1) k) as [p|] eqn:Ek; [|discriminate].
    pose proof (no_keys w1 (proj2 (reachable_inv w1 R1)) k p Ek) as Np.
    destruct (merge_cells w1 j o p Ej Np) as (cc & o' & _ & _ & _ & _ & F2 & _ & _ & _ & (y & DI & _) & DL & _); [rewrite M2; reflexivity|]. rewrite M2 in *. cbn [fst] in *.
    unfold seen in S1, S2. rewrite E1 in S1. rewrite (F2 i), E1 in S2 by auto. injection S1 as <-. injection S2 as <-. cbn [see c_subs].
    assert (LM : (h_subs m < List.length (w_lists w))%nat) by apply (cl_mgrs _ _ _ _ w C i m Logic.I Ei).
    assert (LO : (h_subs o < List.length (w_lists w1))%nat) by apply (cl_mgrs _ _ _ _ w1 (reachable_wf w1 R1) j o Logic.I Ej).
    assert (DIFF : h_subs m <> h_subs o).
    { intros Q. apply (SL (h_subs m)); [apply rl_own, Ei|]. rewrite Q. apply rl_own. rewrite <- E2 by auto. exact Ej. }
    assert (L1 : list_at w1 (h_subs m') = list_at w (h_subs m) ++ [List.length (w_infos w)]).
    { unfold list_at at 1. apply nth_error_nth. rewrite CL, HS. apply upd_same, LM. }
    assert (L2 : list_at w2 (h_subs m') = list_at w1 (h_subs m')).
    { unfold list_at. apply nth_of_error. rewrite DL, HS. apply upd_other, DIFF. }
    assert (L3 : list_at w2 (h_subs o) = list_at w1 (h_subs o) ++ [List.length (w_infos w1)]).
    { unfold list_at at 1. apply nth_error_nth. rewrite DL. apply upd_same, LO. }
    assert (B1 : forall l a, In a (list_at w1 l) -> (a < List.length (w_infos w1))%nat).
    { intros l a J. apply (cl_list_at everything everything everything everything w1 l a (reachable_wf w1 R1) Logic.I J). }
    assert (X1 : infos_at w1 [List.length (w_infos w)] = [x]) by (unfold infos_at; cbn [flat_map]; rewrite CI, nth_error_last; reflexivity).
    assert (X2 : infos_at w2 [List.length (w_infos w)] = [x]).
    { unfold infos_at. cbn [flat_map]. rewrite DI, nth_error_app1, CI, nth_error_last; [reflexivity|]. rewrite CI, app_length. cbn. lia. }
    assert (SAME : forall l, (forall a, In a l -> (a < List.length (w_infos w1))%nat) -> infos_at w2 l = infos_at w1 l).
    { intros l H. unfold infos_at. induction l as [|a r IH]; [reflexivity|]. cbn [flat_map].
      rewrite DI at 1. rewrite nth_error_app1 by (apply H; left; reflexivity). f_equal. apply IH. intros b J. apply H. right. exact J. }
    rewrite L2, L1, !infos_at_app, !map_app, X1, X2. cbn [map].
    exists (see_info 1 w1 x), (see_info 1 w2 x), (see_info 0 w2 y). split; [apply last_last|]. split; [apply last_last|]. split.
    - cbn [see_info s_subs]. rewrite XS, L3, infos_at_app, map_app. f_equal.
      + rewrite SAME by (apply B1). reflexivity.
      + unfold infos_at. cbn [flat_map]. rewrite DI, nth_error_last. reflexivity.
    - rewrite !app_length, !map_length. f_equal. rewrite SAME; [reflexivity|]. intros a J. apply (B1 (h_subs m')). rewrite L1. apply in_or_app. auto.
  Qed.

  (** the instances given by [subsystems] *)
  Lemma extract_all_nth : forall l (w : wld) i m w1, nth_error (w_mgrs w) i = Some m -> h_extract_all w m l = (w1, Ok tt) ->
    nth_error (w_mgrs w1) i = Some m /\
    (forall a, (a < List.length (w_mgrs w))%nat -> nth_error (w_mgrs w1) a = nth_error (w_mgrs w) a) /\
    forall p x, nth_error l p = Some x -> exists e, nth_error (w_mgrs w1) (List.length (w_mgrs w) + p) = Some e /\ h_name e = i_name x /\
      h_subs e = i_subs x /\ forall n, n <> i_common x -> dget n (h_nodes e) = if smem n (i_members x) then dget n (h_nodes m) else None.
  Proof.
    induction l as [|x r IH]; intros w i m w1 E H.
    - cbn in H. injection H as <-. split; [exact E|]. split; [auto|]. intros [|p] y Y; discriminate.
    - cbn [h_extract_all] in H. unfold h_extract in H. destruct (dget (i_common x) _) as [a|]; [|discriminate].
      match type of H with h_extract_all ?w' m r = _ => set (w0 := w') in * end.
      assert (E0 : nth_error (w_mgrs w0) i = Some m) by (cbn; rewrite nth_error_app1; [exact E|apply nth_error_Some; congruence]).
      destruct (IH w0 i m w1 E0 H) as (A & B & P). split; [exact A|].
      assert (LEN : List.length (w_mgrs w0) = Datatypes.S (List.length (w_mgrs w))) by (cbn; rewrite app_length; cbn; lia).
      split; [intros b L; rewrite B by (rewrite LEN; lia); cbn; apply nth_error_app1, L|].
      intros [|p] y Y.
      + cbn in Y. injection Y as <-. rewrite Nat.add_0_r. rewrite B by (rewrite LEN; lia). eexists. split; [cbn; apply nth_error_last|].
        cbn [h_name h_subs h_nodes]. split; [reflexivity|]. split; [reflexivity|]. intros n N. rewrite dget_dset, (proj2 (String.eqb_neq _ _) N).
        clear. induction (h_nodes m) as [|[k v] q IH]; cbn; [destruct (smem n _); reflexivity|]. destruct (smem k (i_members x)) eqn:S; cbn.
        * destruct (String.eqb_spec n k) as [->|]; [rewrite S; reflexivity|exact IH].
        * destruct (String.eqb_spec n k) as [->|]; [rewrite S in *; rewrite IH; reflexivity|exact IH].
      + cbn in Y. destruct (P p y Y) as (e & Q). exists e. rewrite LEN in Q. rewrite Nat.add_succ_r. exact Q.
  Qed.
  Theorem c26_extract_refuted : forall (w : wld) i c p s n f v k w1 w2, reachable_w w -> seen 0 w i = Some c ->
    run_wop w (WSubsystems i) = (w1, Ok tt) -> nth_error (c_subs c) p = Some s ->
    In n (s_members s) -> n <> s_common s -> run_wop w1 (WAssign i f v k n None) = (w2, Ok tt) ->
    exists d, data_at w1 (List.length (w_mgrs w) + p) n = Some d /\ dget k d = None /\
      data_at w2 (List.length (w_mgrs w) + p) n = Some (dset k v d).
  Proof.
    intros w i c p s n f v k w1 w2 R SEE X P HN NC A.
    assert (R1 : reachable_w w1) by (replace w1 with (fst (run_wop w (WSubsystems (T := T) (D := D) i))) by (rewrite X; reflexivity); constructor; exact R).
    assert (R2 : reachable_w w2) by (replace w2 with (fst (run_wop w1 (WAssign i f v k n None))) by (rewrite A; reflexivity); constructor; exact R1).
    unfold seen in SEE. cbn [run_wop] in X, A. unfold with_mgr in X, A. destruct (nth_error (w_mgrs w) i) as [m|] eqn:E; [|discriminate]. injection SEE as <-.
    cbn [see c_subs] in P. rewrite nth_error_map in P. unfold h_subsystems in X.
    destruct (nth_error (infos_at w (list_at w (h_subs m))) p) as [x|] eqn:PX; [|discriminate]. injection P as <-. cbn [see_info s_members s_common] in HN, NC.
    destruct (extract_all_nth _ w i m w1 E X) as (E1 & _ & Q). destruct (Q p x PX) as (e & EE & _ & _ & G). specialize (G n NC).
    rewrite (proj2 (smem_In _ _) HN) in G. rewrite E1 in A. apply assign_cell in A. destruct A as (a & A1 & A2 & A3). rewrite A1 in G.
    assert (L1 : (a < List.length (w_dicts w1))%nat).
    { destruct (cl_mgrs _ _ _ _ w1 (reachable_wf w1 R1) i m Logic.I E1) as (B & _). apply (B n a (dget_mem _ _ _ _ A1)). }
    exists (dict_at w1 a). split; [rewrite (data_at_cell w1 _ e n (reachable_wf w1 R1) EE), G; reflexivity|]. split; [apply (not_in_names w1 m n); assumption|].
    assert (EE2 : nth_error (w_mgrs w2) (List.length (w_mgrs w) + p) = Some e) by (rewrite A2; exact EE).
    rewrite (data_at_cell w2 _ e n (reachable_wf w2 R2) EE2), G, A2, dict_at_upd by exact L1. rewrite Nat.eqb_refl. reflexivity.
  Qed.

  (** a manager with nothing but a root can be merged into itself; its record then
      contains itself, and writing it to a tree never ends *)
  Lemma tree_loop : forall (w : wld) x, infos_at w (list_at w (i_subs x)) = [x] -> forall fuel, info_to_tree fuel w x = Err OutOfFuel.
  Proof. intros w x H. induction fuel as [|f IH]; [reflexivity|]. cbn [info_to_tree]. rewrite H, IH. reflexivity. Qed.
  Definition alone (root name : string) (ref : option Z) : wld := fst (run_wop (World [] [] [] []) (WNew root name ref)).
  Theorem c26_cycle_refuted : forall root name ref, exists w1 x, run_wop (alone root name ref) (WMerge 0 0) = (w1, Ok tt) /\
    infos_at w1 (list_at w1 0) = [x] /\ i_subs x = 0%nat /\ forall fuel, info_to_tree fuel w1 x = Err OutOfFuel.
  Proof.
    intros root name ref. unfold alone. cbn [run_wop fst h_new]. unfold with_mgr. cbn.
    unfold h_merge, merge_ref_conflict, view, see. cbn. unfold has_cs, dmem. cbn. rewrite String.eqb_refl. cbn. rewrite String.eqb_refl. cbn.
    eexists. eexists. split; [reflexivity|]. split; [reflexivity|]. split; [reflexivity|].
    apply tree_loop. reflexivity.
  Qed.

  (** seen from the manager itself its operations are those of the model without
      sharing *)
  Theorem c26_value_model : forall (w : wld) i m, reachable_w w -> nth_error (w_mgrs w) i = Some m ->
    (forall f v k r tg, seen 0 (fst (run_wop w (WAssign i f v k r tg))) i = Some (fst (assign_data f (view w m) v k r tg)) /\
                        snd (run_wop w (WAssign i f v k r tg)) = snd (assign_data f (view w m) v k r tg)) /\
    (forall k, seen 0 (fst (run_wop w (WDeleteData i k))) i = Some (fst (delete_data (view w m) k)) /\
               snd (run_wop w (WDeleteData i k)) = snd (delete_data (view w m) k)) /\
    (forall j o, nth_error (w_mgrs w) j = Some o ->
               seen 0 (fst (run_wop w (WMerge i j))) i = Some (flat (fst (merge (view w m) (view w o)))) /\
               snd (run_wop w (WMerge i j)) = snd (merge (view w m) (view w o))).
  Proof.
    intros w i m R E. pose proof (reachable_inv w R) as I. pose proof (inv_cell_ok w i m I E) as K. cbn [run_wop]. unfold with_mgr. rewrite E. split; [|split].
    - intros f v k r tg. destruct (view_assign w m f v k r tg K) as [A B]. split; [|exact B]. unfold seen.
      assert (M : w_mgrs (fst (h_assign f w m v k r tg)) = w_mgrs w).
      { unfold h_assign. destruct (smem _ _); [reflexivity|]. destruct (negb _); [reflexivity|].
        destruct tg as [tg|]; [destruct (negb _); [reflexivity|]; destruct (f v r tg); [|reflexivity]; destruct (dget tg _); reflexivity|].
        destruct (dget r _); reflexivity. }
      rewrite M, E. f_equal. exact A.
    - intros k. destruct (view_delete_data w m k K) as [A B]. split; [|exact B]. unfold seen.
      assert (M : w_mgrs (fst (h_delete_data w m k)) = w_mgrs w) by (unfold h_delete_data; destruct (holder _ _ _); cbn; apply discard_mgrs).
      rewrite M, E. f_equal. exact A.
    - intros j o Ej. rewrite Ej. destruct (view_merge w i m o K (inv_cell_ok w j o I Ej) E) as [A (m' & B & V)]. split; [|exact A].
      unfold seen. rewrite B. f_equal. exact V.
  Qed.
  (** the same for the systems *)
  Theorem c26_value_systems : forall (w : wld) i m, reachable_w w -> nth_error (w_mgrs w) i = Some m ->
    (forall n r t b, seen 0 (fst (run_wop w (WAdd i n r t b))) i = Some (fst (add_cs (view w m) n r t b)) /\
                     snd (run_wop w (WAdd i n r t b)) = snd (add_cs (view w m) n r t b)) /\
    (forall x b, seen 0 (fst (run_wop w (WDeleteCs i x b))) i = Some (fst (delete_cs (view w m) x b)) /\
                 snd (run_wop w (WDeleteCs i x b)) = snd (delete_cs (view w m) x b)) /\
    (seen 0 (fst (run_wop w (WRemoveSubs i))) i = Some (fst (remove_subsystems (view w m))) /\
     snd (run_wop w (WRemoveSubs i)) = snd (remove_subsystems (view w m))).
  Proof.
    intros w i m R E. pose proof (reachable_inv w R) as I. cbn [run_wop]. unfold with_mgr. rewrite E.
    assert (S : forall (w' : wld) (c : csm T D), sees w' i c -> seen 0 w' i = Some c) by (intros w' c (m' & E' & <-); unfold seen; rewrite E'; reflexivity).
    split; [|split].
    - intros n r t b. destruct (sim_add w i m n r t b I E) as [A B]. split; [exact (S _ _ A)|exact B].
    - intros x b. destruct (sim_delete_cs w i m x b I E) as [A B]. split; [exact (S _ _ A)|exact B].
    - destruct (sim_remove_subs w i m I E) as [A B]. split; [exact (S _ _ A)|exact B].
  Qed.

  (** [subsystems] creates the managers of the value model, with all nested records *)
  Theorem c26_value_subsystems : forall (w : wld) i m depth, reachable_w w -> nth_error (w_mgrs w) i = Some m ->
    match subsystems (see (S depth) w m) with
    | Ok l => snd (run_wop w (WSubsystems i)) = Ok tt /\
        forall p, seen depth (fst (run_wop w (WSubsystems (T := T) (D := D) i))) (List.length (w_mgrs w) + p) = nth_error l p
    | Err e => snd (run_wop w (WSubsystems i)) = Err e
    end.
  Proof.
    intros w i m depth R E. pose proof (reachable_inv w R) as I. pose proof (inv_cell_ok w i m I E) as (_ & _ & B & _).
    cbn [run_wop]. unfold with_mgr. rewrite E.
    pose proof (sim_extract_all (infos_at w (list_at w (h_subs m))) w m depth B) as H.
    assert (Q : forall l, extract_subs (see (S depth) w m) l = extract_subs (see 1 w m) l).
    { induction l as [|s r IH]; [reflexivity|]. cbn [extract_subs]. rewrite IH. reflexivity. }
    unfold subsystems, h_subsystems. rewrite Q. change (c_subs (see (S depth) w m)) with (map (see_info (S depth) w) (infos_at w (list_at w (h_subs m)))).
    destruct (extract_subs _ _) as [l|e]; [|exact H]. destruct H as [A P]. split; [exact A|]. intros p. symmetry. apply P.
  Qed.
End Props.
Print Assumptions c26_separate.
Print Assumptions c26_new.
Print Assumptions c26_assign_refuted.
Print Assumptions c26_back_refuted.
Print Assumptions c26_delete_refuted.
Print Assumptions c26_own.
Print Assumptions c26_nested_refuted.
Print Assumptions c26_extract_refuted.
Print Assumptions c26_cycle_refuted.
Print Assumptions c26_value_model.
Print Assumptions c26_value_systems.
Print Assumptions c26_value_subsystems.

(** r - a with data at a, b - r - c with data at c; the second is merged into the first *)
Definition start_w : world toy Z :=
  run_wops (World [] [] [] []) [WNew "r" "m" None; WAdd 0 "a" "r" (st 1) true; WAssign 0 (fun v _ _ => Ok v) 5%Z "x" "a" None;
                                WNew "b" "o" None; WAdd 1 "r" "b" (st 2) true; WAdd 1 "c" "r" (st 3) true; WAssign 1 (fun v _ _ => Ok v) 6%Z "y" "c" None].
Definition merged_w : world toy Z := fst (run_wop start_w (WMerge 0 1)).
Lemma start_reachable : reachable_w start_w.
Proof. unfold start_w, run_wops. cbn [fold_left]. repeat apply rw_op. apply rw_start. Qed.
Example ex_c26_merged : snd (run_wop start_w (WMerge 0 1)) = Ok tt /\ data_at merged_w 0 "c" = Some [("y", 6%Z)] /\ data_at merged_w 0 "b" = Some [].
Proof. vm_compute. auto. Qed.
(** assigned in the first manager, found in the second *)
Example ex_c26_assign : data_at (run_wops merged_w [WAssign 0 (fun v _ _ => Ok v) 7%Z "z" "b" None]) 1 "b" = Some [("z", 7%Z)].
Proof. vm_compute. reflexivity. Qed.
Example ex_c26_delete : data_at (run_wops merged_w [WDeleteData 0 "y"]) 1 "c" = Some [].
Proof. vm_compute. reflexivity. Qed.
Example ex_c26_own : data_at (run_wops merged_w [WAssign 0 (fun v _ _ => Ok v) 7%Z "z" "r" None]) 1 "r" = Some [] /\
  data_at (run_wops merged_w [WAssign 0 (fun v _ _ => Ok v) 7%Z "z" "r" None]) 0 "r" = Some [("z", 7%Z)].
Proof. vm_compute. auto. Qed.
(** an extracted instance is changed as well *)
Example ex_c26_extract : data_at (run_wops merged_w [WSubsystems 0; WAssign 0 (fun v _ _ => Ok v) 7%Z "z" "b" None]) 2 "b" = Some [("z", 7%Z)].
Proof. vm_compute. reflexivity. Qed.
(** two managers without common objects *)
Example ex_c26_separate : forall depth, seen depth (run_wops start_w [WAssign 0 (fun v _ _ => Ok v) 7%Z "z" "r" None; WDeleteData 0 "x"]) 1 = seen depth start_w 1.
Proof.
  apply (c26_separate start_w (fun i => i = 0%nat)); [apply start_reachable|vm_compute; lia| |].
  - intros i ->. split; [|split].
    + intros a (m & n & E & J) (m' & n' & E' & J'). vm_compute in E, E'. injection E as <-. injection E' as <-. cbn in J, J'.
      repeat (destruct J as [J|J]; [injection J as _ <-; repeat (destruct J' as [J'|J']; [discriminate J'|]); contradiction|]). contradiction.
    + assert (Q : forall i l, reach_list start_w i l -> l = i).
      { intros i l H. induction H as [m E|l a x H IH J E].
        - destruct i as [|[|i]]; vm_compute in E; try (injection E as <-; reflexivity). destruct i; discriminate.
        - subst l. destruct i as [|[|i]]; vm_compute in J; try contradiction. destruct i; contradiction. }
      intros l H1 H2. apply Q in H1, H2. congruence.
    + intros a (l & _ & J) _. destruct l as [|[|[|l]]]; vm_compute in J; try contradiction. 
  - intros o i [<-|[<-|[]]] [<-|[]]; left; reflexivity.
Qed.

(** after a merge a data name can be used twice *)
Theorem c26_unique_refuted : exists w : world toy Z, reachable_w w /\ exists c,
  seen 0 w 0 = Some c /\ ~ NoDup (data_names c).
Proof.
  exists (run_wops merged_w [WAssign 0 (fun v _ _ => Ok v) 7%Z "z" "a" None; WAssign 1 (fun v _ _ => Ok v) 8%Z "z" "b" None]). split.
  - unfold merged_w. cbn [run_wops fold_left]. do 3 apply rw_op. apply start_reachable.
  - eexists. split; [vm_compute; reflexivity|]. vm_compute. intros N. inversion N as [|? ? N1 N2]. inversion N2 as [|? ? N3 N4]. apply N3. cbn. auto.
Qed.
Print Assumptions c26_unique_refuted.
Example ex_c26_value : match nth_error (w_mgrs merged_w) 0 with
  | Some m => match subsystems (see 1 merged_w m) with Ok l => List.length l = 1%nat | Err _ => False end
  | None => False end.
Proof. vm_compute. reflexivity. Qed.
