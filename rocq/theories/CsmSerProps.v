(** Saving and loading managers (C29). *)
From Coq Require Import List String Bool ZArith Permutation.
From Verif Require Import Base CsmModel CsmSpec CsmTreeFacts CsmSubFacts CsmToy GraphModel GraphSpec
  CsmSerModel CsmSerSpec CsmSerFacts CsmSerFirstFacts.
Import ListNotations.
Open Scope string_scope.
Open Scope list_scope.

Section Props.
  Context {T D : Type} {ops : LcsOps T} (io_t : T -> T) (io_d : D -> D)
    (order : list string -> list string) (isT : forall A : Type, digraph A -> bool).
  (** what is assumed about Python sets and networkx *)
  Hypothesis order_perm : forall l, Permutation (order l) l.
  Hypothesis isT_tree : forall g : digraph (attr T D), isT _ g = true <-> GraphSpec.tree (nodes g) (links g).

  (** A manager with two or more systems and without expressions can be saved and loaded.
      Name, reference time, systems, data, transformations and records of subsystems are the
      same, the inverse transformations are computed again. The root of the loaded manager is
      the first system of the saved one. *)
  Theorem c29_round_trip : forall (c : csm T D), reachable c -> 2 <= List.length (cs_names c) ->
    (forall u v t, In (Edge u v (Some t) true) (c_edges c) -> l_expr (io_t t) = false) ->
    exists y c', to_yaml order isT c = Ok y /\ from_yaml io_t io_d y = Ok c' /\
      same_manager io_t io_d c c' /\ hd_error (cs_names c) = Some (c_root c').
  Proof.
    intros c R L2 NX. destruct (reachable_inv c R) as [[l G] _].
    exact (loaded io_t io_d order isT order_perm isT_tree c l G L2 NX).
  Qed.

  (** Managers that are built with the constructor and the other operations keep their
      root. *)
  Theorem c29_root : forall root name ref (l : list (op (T := T) (D := D))),
    let c := run_ops (new_csm root name ref) l in
    (forall o other, In o l -> o = OMerge other -> reachable other) ->
    2 <= List.length (cs_names c) ->
    (forall u v t, In (Edge u v (Some t) true) (c_edges c) -> l_expr (io_t t) = false) ->
    exists y c', to_yaml order isT c = Ok y /\ from_yaml io_t io_d y = Ok c' /\
      same_manager io_t io_d c c' /\ c_root c' = c_root c.
  Proof.
    intros root name ref l c S L2 NX.
    destruct (run_rfirst l (new_csm root name ref)) as [R F].
    - apply r_new.
    - reflexivity.
    - apply Forall_forall. intros o Ho other E. exact (S o other Ho E).
    - destruct (c29_round_trip c R L2 NX) as (y & c' & A & B & C & E). exists y, c'.
      split; [exact A|]. split; [exact B|]. split; [exact C|]. unfold rfirst in F. fold c in F. congruence.
  Qed.

  (** A manager that has its root only can not be saved. *)
  Theorem c29_root_only_refuted : forall (c : csm T D), reachable c -> List.length (cs_names c) = 1 ->
    to_yaml order isT c = Err NetworkXError.
  Proof.
    intros c R L1. destruct (reachable_inv c R) as [[l G] _].
    exact (root_only order isT c l G L1).
  Qed.

  (** A manager with an expression can be saved, but the file can not be loaded. *)
  Theorem c29_expression_refuted : forall (c : csm T D), reachable c ->
    (exists u v t, In (Edge u v (Some t) true) (c_edges c) /\ l_expr (io_t t) = true) ->
    exists y, to_yaml order isT c = Ok y /\ from_yaml io_t io_d y = Err WeldxException.
  Proof.
    intros c R X. destruct (reachable_inv c R) as [[l G] _].
    exact (expr_load io_t io_d order isT isT_tree c l G X).
  Qed.
End Props.
Print Assumptions c29_round_trip.
Print Assumptions c29_root.
Print Assumptions c29_root_only_refuted.
Print Assumptions c29_expression_refuted.

(** values that are not changed by the file, sets in their order, all graphs are trees *)
Definition save (c : tmgr) : res (ymgr toy Z) := to_yaml (fun l => l) (fun _ _ => true) c.
Definition load (y : ymgr toy Z) : res tmgr := from_yaml (fun t => t) (fun d => d) y.

(** The root of a manager after it was renamed, saved and loaded is another one. *)
Theorem c29_relabel_refuted : exists (c : tmgr), reachable c /\
  exists y c', save c = Ok y /\ load y = Ok c' /\ c_root c = "base" /\ c_root c' = "a".
Proof.
  exists (fst (relabel m1 "r" "base")). split.
  - apply r_relabel; [|cbn; intros [H|[H|[H|[H|[]]]]]; discriminate].
    unfold m1, mk, run_ops. cbn [fold_left]. repeat (apply r_op; [|discriminate]). apply r_new.
  - eexists. eexists. split; [vm_compute; reflexivity|]. split; [vm_compute; reflexivity|]. split; reflexivity.
Qed.
Print Assumptions c29_relabel_refuted.

(** The same holds for a manager that [subsystems] or [unmerge] returns: [m2] has the root "d"
    and was merged at "b". *)
Theorem c29_extract_refuted : exists (c sub : tmgr), reachable c /\
  unmerge c = (m1, Ok [sub]) /\ c_root sub = c_root m2 /\
  exists y c', save sub = Ok y /\ load y = Ok c' /\ c_root c' <> c_root sub.
Proof.
  exists m12. eexists. split.
  - change m12 with (fst (run_op m1 (OMerge m2))). apply r_op.
    + unfold m1, mk, run_ops. cbn [fold_left]. repeat (apply r_op; [|discriminate]). apply r_new.
    + intros other E. injection E as <-. unfold m2, mk, run_ops. cbn [fold_left].
      repeat (apply r_op; [|discriminate]). apply r_new.
  - split; [vm_compute; reflexivity|]. split; [reflexivity|].
    eexists. eexists. split; [vm_compute; reflexivity|]. split; [vm_compute; reflexivity|]. discriminate.
Qed.
Print Assumptions c29_extract_refuted.

(** a merged manager: everything is there again *)
Example c29_ex : exists y c', save m12 = Ok y /\ load y = Ok c' /\
  c_root c' = "r" /\ cs_names c' = ["r"; "a"; "b"; "d"; "e"; "c"] /\
  node_data c' "b" = Some [("x", 7%Z); ("y", 8%Z)] /\ map s_name (c_subs c') = ["m2"] /\
  map (fun s => s_members s) (c_subs c') = map (fun s => s_members s) (c_subs m12) /\
  List.length (c_edges c') = List.length (c_edges m12).
Proof.
  eexists. eexists. split; [vm_compute; reflexivity|]. split; [vm_compute; reflexivity|].
  vm_compute. repeat split.
Qed.

(** expressions: the transformations are flags that say whether they are one *)
Definition flag_ops : LcsOps bool :=
  {| l_inv b := b; l_expr b := b; l_timedep b := b; l_ref _ := None |}.
Example c29_ex_expr :
  let c := fst (add_cs (ops := flag_ops) (D := Z) (new_csm "r" "m" None) "a" "r" true true) in
  c_edges c = [Edge "a" "r" (Some true) true; Edge "r" "a" None false] /\
  exists y, to_yaml (fun l => l) (fun _ _ => true) c = Ok y /\
            from_yaml (ops := flag_ops) (fun t => t) (fun d => d) y = Err WeldxException.
Proof. split; [reflexivity|]. eexists. split; vm_compute; reflexivity. Qed.
Example c29_ex_root_only : save (new_csm "r" "m" None) = Err NetworkXError.
Proof. reflexivity. Qed.
