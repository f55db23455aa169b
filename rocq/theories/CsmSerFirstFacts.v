(** The root is the first system of a manager unless it is renamed or extracted. *)
From Coq Require Import List String Bool Arith ZArith Lia.
From Verif Require Import Base CsmModel CsmSpec TreeFacts CsmGraphFacts CsmTreeFacts CsmSubFacts CsmDataFacts.
Import ListNotations.

Section First.
  Context {T D : Type} {ops : LcsOps T}.
  Notation mgr := (csm T D).
  Definition rfirst (c : mgr) : Prop := hd_error (cs_names c) = Some (c_root c).

  Lemma dset_pos' : forall (V : Type) k (v : V) d w, dget k d = Some w -> dkeys (dset k v d) = dkeys d.
  Proof.
    intros V k v d w. unfold dkeys. induction d as [|[k' v'] d IH]; intros H; [discriminate|]. cbn [dset]. cbn [dget] in H.
    destruct (String.eqb_spec k k') as [->|N]; [reflexivity|]. cbn [map fst]. f_equal. exact (IH H).
  Qed.
  Lemma hd_dset : forall (V : Type) k (v : V) d x, hd_error (dkeys d) = Some x -> hd_error (dkeys (dset k v d)) = Some x.
  Proof.
    intros V k v [|[k' v'] d] x H; [discriminate|]. cbn [dset]. destruct (String.eqb k k'); exact H.
  Qed.
  Lemma hd_compose : forall (h g : dict (dict D)) x, hd_error (dkeys g) = Some x -> hd_error (dkeys (compose_nodes g h)) = Some x.
  Proof.
    unfold compose_nodes. induction h as [|[n d] h IH]; intros g x H; [exact H|]. cbn [fold_left]. apply IH. apply hd_dset. exact H.
  Qed.

  Lemma delete_rfirst : forall (c : mgr) x b, ctree c -> rfirst c -> rfirst (fst (delete_cs c x b)).
  Proof.
    intros c x b [l G] H.
    destruct (delete_cs_cases c l x b G) as [(_ & ->)|[(_ & ->)|[(e & -> & _)|(drop & ch & Hx & Hr & _ & _ & IC & _ & ->)]]];
      cbn [fst]; try exact H.
    assert (G' := delete_ctree_by c l x ch G Hr IC). unfold rfirst in *.
    assert (R : In (c_root c) (cs_names (restrict (fun n => negb (smem n (ch ++ [x]))) c))).
    { apply (gt_names _ _ _ _ G'). left. reflexivity. }
    apply restrict_names in R. destruct R as [_ R].
    unfold cs_names, restrict, set_subs, set_graph in *. cbn [c_nodes c_root] in *.
    destruct (c_nodes c) as [|[n d] ns]; [discriminate|]. cbn in H. injection H as ->. cbn [filter fst]. rewrite R. reflexivity.
  Qed.

  Lemma strip_rfirst : forall s (c : mgr), rfirst c -> rfirst (fst (strip_subs c s)).
  Proof.
    induction s as [|s r IH]; intros c H; [exact H|]. cbn [strip_subs].
    destruct (sub_common_neighbors c s); [|exact H]. destruct (node_data c (s_common s)) as [d|] eqn:E; [|exact H].
    set (c1 := set_nodes _ c). assert (H1 : rfirst c1).
    { unfold rfirst, cs_names, c1, set_nodes, set_graph. cbn [c_nodes c_root]. apply hd_dset. exact H. }
    specialize (IH c1 H1). destruct (strip_subs c1 r) as [c2 [q|e]]; exact IH.
  Qed.
  Lemma delete_all_rfirst : forall l (c : mgr), ctree c -> rfirst c -> rfirst (fst (delete_all c l)).
  Proof.
    induction l as [|n l IH]; intros c G H; [exact H|]. cbn [delete_all].
    assert (G1 := delete_cs_ctree c n true G). assert (H1 := delete_rfirst c n true G H).
    destruct (delete_cs c n true) as [c1 [u|e]]; [exact (IH c1 G1 H1)|exact H1].
  Qed.

  Lemma op_rfirst : forall (c : mgr) o, ctree c -> rfirst c -> rfirst (fst (run_op c o)).
  Proof.
    intros c o G H. destruct o as [n r t b|x b|f v k r tg|k|other|]; cbn [run_op].
    - destruct (add_cs c n r t b) as [c' q] eqn:E. cbn [fst]. apply add_cs_cases in E.
      destruct E as [[-> _]|[(_ & _ & _ & ->)|(_ & _ & _ & ->)]]; [exact H|exact H|].
      unfold rfirst, cs_names, dkeys, set_graph in *. cbn [c_nodes c_root] in *.
      destruct (c_nodes c) as [|[m d] ns]; [discriminate|exact H].
    - apply delete_rfirst; assumption.
    - destruct (assign_data f c v k r tg) as [c' q] eqn:E. cbn [fst]. apply assign_data_cases in E.
      destruct E as [[-> _]|(n & w & d & _ & _ & _ & -> & _)]; [exact H|].
      unfold rfirst, cs_names, set_nodes, set_graph. cbn [c_nodes c_root]. apply hd_dset. exact H.
    - unfold delete_data. cbn [c_nodes set_subs]. destruct (pop_data (c_nodes c) k) as [ns|] eqn:E; cbn [fst].
      + unfold rfirst, cs_names, set_nodes, set_graph, set_subs in *. cbn [c_nodes c_root] in *.
        rewrite (pop_data_keys _ _ _ E). exact H.
      + exact H.
    - destruct (merge_cases c other) as [[e ->]|(m & dc & d_o & _ & _ & _ & _ & _ & ->)]; cbn [fst]; [exact H|].
      unfold rfirst, cs_names, set_subs, set_graph in *. cbn [c_nodes c_root] in *. apply hd_dset. apply hd_compose. exact H.
    - unfold remove_subsystems. assert (G1 := strip_subs_ctree (c_subs c) c G). assert (H1 := strip_rfirst (c_subs c) c H).
      destruct (strip_subs c (c_subs c)) as [c1 [del|e]]; cbn [fst] in *; [|exact H1].
      apply delete_all_rfirst; [|exact H1]. destruct G1 as [l G1]. exists l. apply set_subs_ctree. exact G1.
  Qed.

  (** histories whose merged managers are reachable *)
  Definition sound (o : op (T := T) (D := D)) : Prop := forall other, o = OMerge other -> reachable other.

  Lemma run_rfirst : forall l (c : mgr), reachable c -> rfirst c -> Forall sound l ->
    reachable (run_ops c l) /\ rfirst (run_ops c l).
  Proof.
    induction l as [|o l IH]; intros c R H S; [split; assumption|]. inversion S as [|? ? So Sl]; subst. cbn [run_ops fold_left].
    apply IH; [apply r_op; assumption| |exact Sl]. apply op_rfirst; [apply reachable_inv; exact R|exact H].
  Qed.
End First.
