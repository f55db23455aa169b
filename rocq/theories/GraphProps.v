(** Properties of the converter of directed graphs: C32. *)
From Coq Require Import List String Bool Arith Lia.
From Verif Require Import Base GraphModel GraphSpec GraphFacts.
Import ListNotations.
Open Scope string_scope.
Open Scope list_scope.

(** Directed tree with the edges base -> tool, work -> base and work -> seam *)
Definition ex_graph : digraph nat :=
  DG [("base", [("x", 1)]); ("tool", []); ("work", [("x", 2); ("y", 3)]); ("seam", [])]
     [(("base", "tool"), [("w", 7)]); (("work", "base"), []); (("work", "seam"), [("w", 8)])].
(** Two nodes with edges in both directions *)
Definition ex_double : digraph nat := DG [("a", []); ("b", [])] [(("a", "b"), []); (("b", "a"), [])].
(** A single node with an attribute that has the name of a parameter of [add_node] *)
Definition ex_reserved : digraph nat := DG [("a", [("node_for_adding", 1)])] [].

Example ex_wf : wf ex_graph.
Proof.
  split; cbn; try (repeat constructor; cbn; intuition discriminate).
  - intros u v H. repeat (destruct H as [H|H]; [injection H as <- <-; tauto|]). destruct H.
  - intros n a H. repeat (destruct H as [H|H]; [injection H as <- <-; cbn; repeat constructor; cbn; intuition discriminate|]). destruct H.
  - intros n a H. repeat (destruct H as [H|H]; [injection H as <- <-; cbn; repeat constructor; cbn; intuition discriminate|]). destruct H.
Qed.
Example ex_plain : plain ex_graph.
Proof.
  split; intros n a H; cbn in H; repeat (destruct H as [H|H]; [injection H as <- <-; cbn; intuition discriminate|]); destruct H.
Qed.
Example ex_tree : tree (nodes ex_graph) (links ex_graph).
Proof.
  split; [|reflexivity].
  assert (H : forall v, In v (nodes ex_graph) -> reach (links ex_graph) "base" v).
  { cbn. intros v H. repeat (destruct H as [<-|H]); try destruct H.
    - constructor.
    - apply r_step with "base"; [constructor|]. left. cbn. auto.
    - apply r_step with "base"; [constructor|]. right. cbn. auto.
    - apply r_step with "work"; [apply r_step with "base"; [constructor|right; cbn; auto]|]. left. cbn. auto. }
  intros u v Iu Iv. eapply reach_trans; [apply reach_sym, H, Iu|apply H, Iv].
Qed.

(** For every directed tree, whatever the directions of its edges, and from every start node
    [build_tree] terminates, and the graph that is built from the tree that went through a
    file has the same nodes, edges and attributes. *)
Theorem c32_round_trip : forall {A : Type} (g : digraph A) n,
  wf g -> plain g -> tree (nodes g) (links g) -> In n (nodes g) ->
  exists t h, build_tree (2 * List.length (nodes g)) g n None = Ok t /\ from_tree (file_node t) = Ok h /\ same h g.
Proof. intros A. exact round_trip. Qed.
Print Assumptions c32_round_trip.

(** The converter accepts exactly the trees. *)
Theorem c32_only_trees : forall {A : Type} is_tree (g : digraph A),
  (is_tree g = true <-> tree (nodes g) (links g)) -> wf g ->
  ((exists t, to_tree is_tree (2 * List.length (nodes g)) g = Ok t) <-> tree (nodes g) (links g)).
Proof.
  intros A is_tree g O WF. unfold to_tree. destruct (d_nodes g) as [|[n a] ns] eqn:E.
  - split; [intros [t H]; discriminate|]. intros [_ H]. unfold nodes in H. rewrite E in H. discriminate.
  - split.
    + intros [t H]. destruct (is_tree g) eqn:T; [apply O; reflexivity|discriminate].
    + intros T. rewrite (proj2 O T).
      destruct (build_tree_good g WF (2 * List.length (nodes g)) n None) as [t [H _]]; eauto.
      * apply (tree_short _ (nodes g)); auto; [apply WF|exact (wf_ends _ WF)|]. unfold nodes. rewrite E. left. reflexivity.
      * unfold nodes. rewrite E. left. reflexivity.
Qed.
Print Assumptions c32_only_trees.

(** A graph with edges in both directions between two nodes is not a tree in this sense. *)
Theorem c32_double_edges : ~ tree (nodes ex_double) (links ex_double).
Proof. intros [_ H]. discriminate. Qed.
Print Assumptions c32_double_edges.

(** Without the file in between, [build_graph(build_tree(g))] raises a [TypeError] for every
    graph and start: the last node of each branch has [None] instead of a list of edges. *)
Theorem c32_direct_refuted : forall {A : Type} k (g : digraph A) n q t h,
  build_tree k g n q = Ok t -> is_ok (build_graph t h) = false.
Proof.
  intros A. assert (X : forall k (g : digraph A) n q t, build_tree k g n q = Ok t -> forall h, is_ok (build_graph t h) = false).
  2:{ intros. eapply X; eauto. }
  induction k as [|k IH]; intros g n q t H h; [discriminate|]. cbn [build_tree] in H.
  destruct (children _ _ true _ _) as [ts|] eqn:C1; [|discriminate].
  destruct (children (fun m => build_tree k g m (Some n)) (fun m => eget (m, n) (d_edges g)) false q (preds g n)) as [us|] eqn:C2; [|discriminate]. cbn [bind] in H.
  destruct (dget n (d_nodes g)) as [a|]; [|discriminate]. injection H as <-.
  assert (F : forall rec edge d q l ts, children (A:=A) rec edge d q l = Ok ts -> forall x, In x ts -> exists m, rec m = Ok (fst (fst x))).
  { clear. intros rec edge d q l. induction l as [|m l IHl]; intros ts H x I; cbn [children] in H.
    - injection H as <-. destruct I.
    - destruct (match q with Some p => String.eqb m p | None => false end); [eapply IHl; eauto|].
      destruct (rec m) as [t|] eqn:R; [|discriminate]. cbn [bind] in H. destruct (edge m); [|discriminate].
      destruct (children rec edge d q l) as [r|] eqn:C; [|discriminate]. injection H as <-. destruct I as [<-|I]; [eauto|eapply IHl; eauto]. }
  assert (G : forall x, In x (ts ++ us) -> forall h, is_ok (build_graph (fst (fst x)) h) = false).
  { intros x I. apply in_app_iff in I. destruct I as [I|I]; [apply (F _ _ _ _ _ _ C1) in I|apply (F _ _ _ _ _ _ C2) in I]; destruct I as [m R]; eapply IH; exact R. }
  destruct (ts ++ us) as [|[[t b] d] r].
  - cbn. destruct (add_node n a h); reflexivity.
  - specialize (G (t, b, d) (or_introl eq_refl)). cbn [fst] in G.
    change (is_ok (bind (add_node n a h) (fun g => build_edges n (ECons t b d (to_edges r)) g)) = false).
    destruct (add_node n a h) as [h1|]; [|reflexivity]. cbn [bind].
    destruct b as [b|]; [|reflexivity]. destruct t as [tn ta te].
    change (is_ok (bind (if d then add_edge n tn b h1 else add_edge tn n b h1) (fun g =>
      bind (build_graph (DiNode tn ta te) g) (fun g => build_edges n (to_edges r) g))) = false).
    destruct (if d then _ else _) as [h2|]; [|reflexivity]. cbn [bind]. specialize (G h2).
    destruct (build_graph (DiNode tn ta te) h2); [discriminate|reflexivity].
Qed.
Print Assumptions c32_direct_refuted.

(** An attribute with the name of a parameter of [add_node] can be saved but not loaded. *)
Theorem c32_reserved_refuted : exists t,
  build_tree 2 ex_reserved "a" None = Ok t /\ from_tree (file_node t) = Err TypeError.
Proof. eexists. split; reflexivity. Qed.
Print Assumptions c32_reserved_refuted.

(** The file of the example, read from the node "tool": the order of the nodes is another one. *)
Example c32_ex : exists t h, build_tree 8 ex_graph "tool" None = Ok t /\ from_tree (file_node t) = Ok h /\
  nodes h = ["tool"; "base"; "work"; "seam"] /\ links h = [("base", "tool"); ("work", "base"); ("work", "seam")].
Proof. eexists. eexists. repeat split. Qed.
