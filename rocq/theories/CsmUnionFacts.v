(** The times of [get_cs] without time. *)
From Coq Require Import Reals List String ZArith Bool Lia Sorting.Sorted.
From Verif Require Import Base RigidModel RigidSpec RigidFacts InterpModel InterpSpec InterpFacts
  LinModel LinFacts CsmModel CsmSpec TreeFacts CsmGraphFacts CsmTreeFacts CsmSubFacts CsmDataFacts CsmOpFacts CsmHistFacts
  LcsTimeModel LcsTimeSpec LcsTimeFacts CsmGetModel CsmGetSpec CsmGetFacts CsmPathFacts CsmPoseFacts CsmRefFacts.
Import ListNotations.
Open Scope Z_scope.

Lemma unions_In : forall ls x, In x (fold_right union_times [] ls) <-> exists l, In l ls /\ In x l.
Proof.
  induction ls as [|l ls IH]; intros x; cbn [fold_right].
  - split; [ intros [] | intros (l & [] & _) ].
  - rewrite union_times_In, IH. split.
    + intros [H|(k & H1 & H2)]; [ exists l; split; [ left; reflexivity | exact H ] | exists k; split; [ right; exact H1 | exact H2 ] ].
    + intros (k & [<-|H1] & H2); [ left; exact H2 | right; exists k; auto ].
Qed.
Lemma unions_sorted : forall ls, StronglySorted Z.lt (fold_right union_times [] ls).
Proof. intros [|l ls]; [ constructor | apply union_times_sorted ]. Qed.

Section Union.
  Context (sl : segment mat) (SL : slerp_ok sl) {D : Type}.
  Notation mgr := (csm tlcs D).
  Notation ops := (tlcs_ops sl).

  Definition axis_or (l : tlcs) : list Z := match lcs_axis l with Some ts => ts | None => [] end.

  Lemma time_union_ok : forall (c : mgr) es ls, edge_systems c es = Ok ls -> 
    (exists l u, In l ls /\ In u (axis_or l)) ->
    c_ref c <> None \/ (forall l, In l ls -> lcs_axis l <> None -> tl_ref l <> None) \/
      ((forall l, In l ls -> lcs_axis l <> None -> tl_ref l = None) /\ @uses_absolute_times tlcs D ops c = false) ->
    exists rt, time_union sl c es = Ok (Some rt) /\ StronglySorted Z.lt (r_times rt) /\ r_times rt <> [] /\
      (r_ref rt = None <-> c_ref c = None /\ exists l, In l ls /\ lcs_axis l <> None /\ tl_ref l = None) /\
      (forall l u, In l ls -> In u (axis_or l) -> exists t, In t (r_times rt) /\ edge_time c (r_ref rt) l t = u) /\
      (forall t, In t (r_times rt) -> exists l, In l ls /\ In (edge_time c (r_ref rt) l t) (axis_or l)).
  Proof.
    intros c es all E (l0 & u0 & Hl0 & Hu0) Hc. unfold time_union. rewrite E. cbn [bind].
    set (ls := filter (fun l => LcsTimeModel.is_some (lcs_axis l)) all).
    assert (Hls : forall l, In l ls <-> In l all /\ lcs_axis l <> None).
    { intros l. unfold ls. rewrite filter_In. unfold LcsTimeModel.is_some. destruct (lcs_axis l); split; intros [H1 H2]; split; auto; try discriminate; contradiction. }
    assert (I0 : In l0 ls) by (apply Hls; split; [ exact Hl0 | unfold axis_or in Hu0; destruct (lcs_axis l0); [ discriminate | destruct Hu0 ] ]).
    destruct ls as [|l1 lr] eqn:Els; [ destruct I0 | ]. rewrite <- Els in *. clear Els l1 lr.
    set (ref := match c_ref c with Some r => Some r | None => if @uses_absolute_times tlcs D ops c
                  then min_list (somes (map tl_ref (@lcs_time_dependent tlcs D ops c))) else None end).
    set (absolute := fun l => match tl_ref l, ref with
                          | Some r, _ => map (fun t => t + r) (match lcs_axis l with Some ts => ts | None => [] end)
                          | None, Some r => map (fun t => t + r) (match lcs_axis l with Some ts => ts | None => [] end)
                          | None, None => match lcs_axis l with Some ts => ts | None => [] end
                          end).
    change (match ls with [] => _ | _ => _ end) with
      (match ls with [] => Ok None | _ =>
        if forallb (fun l => LcsTimeModel.is_some (tl_ref l) || LcsTimeModel.is_some ref) ls then
          match fold_right union_times [] (map absolute ls) with
          | [] => Ok (Some (RT [] None))
          | t0 :: _ => Ok (Some (RT (map (fun t => t - t0) (fold_right union_times [] (map absolute ls))) (Some t0)))
          end
        else if forallb (fun l => negb (LcsTimeModel.is_some (tl_ref l))) ls then Ok (Some (RT (fold_right union_times [] (map absolute ls)) None))
        else Err TypeError end).
    destruct ls as [|l1 lr] eqn:Els; [ destruct I0 | ]. rewrite <- Els in *. clear Els l1 lr.
    set (un := fold_right union_times [] (map absolute ls)).
    assert (Su : StronglySorted Z.lt un) by apply unions_sorted.
    assert (Iu : forall x, In x un <-> exists l, In l ls /\ In x (absolute l)).
    { intros x. unfold un. rewrite unions_In. split.
      - intros (k & H1 & H2). apply in_map_iff in H1. destruct H1 as (l & <- & H1). exists l. auto.
      - intros (l & H1 & H2). exists (absolute l). split; [ apply in_map; exact H1 | exact H2 ]. }
    assert (Nu : un <> []).
    { intros Q. assert (exists x, In x (absolute l0)) as [x Hx].
      { unfold axis_or in Hu0. unfold absolute. destruct (tl_ref l0); [ eexists; apply (in_map (fun t => t + z)); exact Hu0 | ].
        destruct ref; [ eexists; apply (in_map (fun t => t + z)); exact Hu0 | exists u0; exact Hu0 ]. }
      assert (In x un) by (apply Iu; exists l0; auto). rewrite Q in *. destruct H. }
    assert (Hin : forall l, In l ls -> In l all) by (intros l H; apply Hls; exact H).
    destruct (forallb (fun l => LcsTimeModel.is_some (tl_ref l) || LcsTimeModel.is_some ref) ls) eqn:Fa.
    - (* dates *)
      rewrite forallb_forall in Fa.
      assert (Hnone : ~ (c_ref c = None /\ exists l, In l all /\ lcs_axis l <> None /\ tl_ref l = None)).
      { intros [Rc (l & H1 & H2 & H3)]. assert (Hl : In l ls) by (apply Hls; auto). specialize (Fa l Hl). rewrite H3 in Fa. cbn [LcsTimeModel.is_some orb] in Fa.
        destruct Hc as [Hc|[Hc|[_ Hc]]]; [ contradiction | exact (Hc l H1 H2 H3) | ]. unfold ref in Fa. rewrite Rc, Hc in Fa. discriminate. }
      assert (Habs : forall l, In l ls -> exists r, absolute l = map (fun t => t + r) (axis_or l) /\
                 forall t0 t, edge_time c (Some t0) l (t - t0) = t - r).
      { intros l Hl. unfold absolute, edge_time, axis_or. destruct (tl_ref l) as [r|] eqn:Rl; [ exists r; split; [ reflexivity | intros; lia ] | ].
        destruct (c_ref c) as [r|] eqn:Rc; [ exists r; unfold ref; split; [ reflexivity | intros; lia ] | ].
        exfalso. apply Hnone. split; [ reflexivity | ]. exists l. apply Hls in Hl. tauto. }
      destruct un as [|t0 ur] eqn:Eu; [ contradiction | ]. rewrite <- Eu in *.
      eexists. split; [ reflexivity | ]. cbn [r_times r_ref]. split.
      { rewrite (map_ext _ (fun x => x + - t0)) by (intros; lia). apply sorted_shift. exact Su. }
      split; [ rewrite Eu; discriminate | ].
      split; [ split; [ discriminate | intros H; contradiction ] | ].
      split.
      + intros l u Hl Hu. assert (Hl' : In l ls) by (apply Hls; split; [ exact Hl | unfold axis_or in Hu; destruct (lcs_axis l); [ discriminate | destruct Hu ] ]).
        destruct (Habs l Hl') as (r & Ha & He). exists (u + r - t0). split; [ | rewrite He; lia ].
        apply (in_map (fun t => t - t0)). apply Iu. exists l. split; [ exact Hl' | ]. rewrite Ha. apply (in_map (fun t => t + r)). exact Hu.
      + intros t Ht. apply in_map_iff in Ht. destruct Ht as (x & <- & Hx). apply Iu in Hx. destruct Hx as (l & Hl & Hx).
        destruct (Habs l Hl) as (r & Ha & He). exists l. split; [ apply Hin; exact Hl | ]. rewrite He. rewrite Ha in Hx.
        apply in_map_iff in Hx. destruct Hx as (w & <- & Hw). replace (w + r - r) with w by lia. exact Hw.
    - (* deltas *)
      assert (Hex : exists l, In l ls /\ tl_ref l = None /\ ref = None).
      { destruct ref as [r|] eqn:Er.
        - exfalso. enough (forallb (fun l => LcsTimeModel.is_some (tl_ref l) || LcsTimeModel.is_some (Some r)) ls = true) by congruence.
          apply forallb_forall. intros. apply orb_true_r.
        - clear -Fa. induction ls as [|l ls IH]; [ discriminate | ]. cbn [forallb] in Fa. apply andb_false_iff in Fa. destruct Fa as [Fa|Fa].
          + exists l. split; [ left; reflexivity | ]. rewrite orb_false_r in Fa. destruct (tl_ref l); [ discriminate | auto ].
          + destruct (IH Fa) as (l' & H1 & H2). exists l'. split; [ right; exact H1 | exact H2 ]. }
      destruct Hex as (l2 & Hl2 & Rl2 & Er).
      assert (Rc : c_ref c = None) by (unfold ref in Er; destruct (c_ref c); [ discriminate | reflexivity ]).
      assert (Hn : forall l, In l ls -> tl_ref l = None).
      { apply Hls in Hl2. destruct Hc as [Hc|[Hc|[Hc _]]]; [ contradiction | exfalso; apply (Hc l2); tauto | ].
        intros l Hl. apply Hls in Hl. apply Hc; apply Hl. }
      assert (forallb (fun l => negb (LcsTimeModel.is_some (tl_ref l))) ls = true) as ->.
      { apply forallb_forall. intros l Hl. rewrite (Hn l Hl). reflexivity. }
      assert (Habs : forall l, In l ls -> absolute l = axis_or l).
      { intros l Hl. unfold absolute. rewrite (Hn l Hl), Er. reflexivity. }
      eexists. split; [ reflexivity | ]. cbn [r_times r_ref]. split; [ exact Su | ]. split; [ exact Nu | ].
      split; [ split; [ intros _; split; [ exact Rc | ]; exists l2; apply Hls in Hl2; tauto | reflexivity ] | ]. split.
      + intros l u Hl Hu. exists u. split; [ | reflexivity ]. apply Iu. exists l.
        assert (Hl' : In l ls) by (apply Hls; split; [ exact Hl | unfold axis_or in Hu; destruct (lcs_axis l); [ discriminate | destruct Hu ] ]).
        split; [ exact Hl' | ]. rewrite (Habs l Hl'). exact Hu.
      + intros t Ht. apply Iu in Ht. destruct Ht as (l & Hl & Ht). exists l. split; [ apply Hin; exact Hl | ].
        rewrite (Habs l Hl) in Ht. exact Ht.
  Qed.

  Lemma get_cs_union : forall (c : mgr) a b tref p rt, shortest_path (c_edges c) a b = Some p -> 
    time_union sl c (steps p) = Ok (Some rt) ->
    get_cs sl c a (Some b) None tref = get_cs sl c a (Some b) (Some rt) None.
  Proof.
    intros c a b tref p rt Sp Hu. unfold get_cs. cbn [bind]. destruct (negb _); [ reflexivity | ].
    destruct (String.eqb a b); [ reflexivity | ]. rewrite Sp, steps_edges, Hu. reflexivity.
  Qed.

  Notation is_treeT := (@is_tree tlcs D ops).

  Lemma stored_refs : forall (c : mgr) u v l inv, is_treeT c -> good c -> stored c u v l inv ->
    (forall e l, In e (c_edges c) -> e_def e = true -> e_tr e = Some l -> tl_ref l = None) -> tl_ref l = None.
  Proof.
    intros c u v l inv Tr G S H.
    assert (N : NoDup (map ekey (c_edges c))) by exact (tr_edges _ Tr).
    assert (E := stored_edge c u v l inv N S).
    assert (L : linked c u v).
    { destruct inv; [ destruct S as [(d & S) _] | destruct S as (d & S) ]; (eexists; split; [ exact S | auto ]). }
    destruct (edge_lcs_ok sl SL c u v Tr G L) as (l' & inv' & E' & _ & _ & _ & _ & (l0 & u' & v' & I0 & _ & R0)).
    rewrite E in E'. injection E' as <- <-. rewrite R0. apply (H _ l0 I0); reflexivity.
  Qed.

  Lemma path_list : forall (c : mgr) es, is_treeT c -> good c -> Forall (fun e => linked c (fst e) (snd e)) es ->
    exists ls, edge_systems c es = Ok ls /\
      forall l, In l ls <-> exists e inv, In e es /\ stored c (fst e) (snd e) l inv.
  Proof.
    intros c es Tr G F. assert (N : NoDup (map ekey (c_edges c))) by exact (tr_edges _ Tr).
    induction F as [|[u v] es H F IH].
    - exists []. split; [ reflexivity | ]. intros l. split; [ intros [] | intros (e & inv & [] & _) ].
    - destruct IH as (ls & E & Hls). cbn [fst snd] in *.
      destruct (edge_lcs_ok sl SL c u v Tr G H) as (l & inv & El & Sl & _).
      exists (l :: ls). split; [ cbn [edge_systems]; rewrite El; cbn [bind fst]; rewrite E; reflexivity | ].
      intros l'. split.
      + intros [<-|H']; [ exists (u, v), inv; split; [ left; reflexivity | exact Sl ] | ].
        apply Hls in H'. destruct H' as (e & i & H1 & H2). exists e, i. split; [ right; exact H1 | exact H2 ].
      + intros (e & i & [<-|H1] & H2).
        * left. cbn [fst snd] in H2. apply (stored_edge c u v l' i N) in H2. congruence.
        * right. apply Hls. exists e, i. auto.
  Qed.

  Lemma no_refs : forall (c : mgr), is_treeT c -> c_ref c = None ->
    (forall e l, In e (c_edges c) -> e_def e = true -> e_tr e = Some l -> tl_ref l = None) ->
    @uses_absolute_times tlcs D ops c = false.
  Proof.
    intros c Tr Rc H. unfold uses_absolute_times. rewrite Rc. cbn [CsmModel.is_some]. rewrite orb_false_r.
    unfold has_lcs_with_ref. apply not_true_is_false. intros E. apply existsb_exists in E. destruct E as (t & Ht & Et).
    unfold lcs_time_dependent in Ht. apply filter_In in Ht. destruct Ht as [Ht _].
    apply defined_lcs_In in Ht. destruct Ht as (e & He & Ee & De). cbn [l_ref tlcs_ops] in Et. rewrite (H e t He De Ee) in Et. discriminate.
  Qed.
End Union.
