(** Vocabulary for C26. *)
From Coq Require Import List String Bool ZArith Arith.
From Verif Require Import Base CsmModel CsmSpec CsmHeapModel.
Import ListNotations.

Section Spec.
  Context {T D : Type} {ops : LcsOps T}.
  Notation wld := (world T D).

  (** the data a manager has at a system *)
  Definition data_at (w : wld) (i : nat) (n : string) : option (dict D) :=
    match nth_error (w_mgrs w) i with
    | Some m => match dget n (h_nodes m) with Some a => nth_error (w_dicts w) a | None => None end
    | None => None
    end.
  Definition has_system (w : wld) (i : nat) (n : string) : Prop := data_at w i n <> None.
  (** everything that can be seen of a manager *)
  Definition seen (depth : nat) (w : wld) (i : nat) : option (csm T D) :=
    match nth_error (w_mgrs w) i with Some m => Some (see depth w m) | None => None end.

  (** the objects a manager refers to, directly or through its records *)
  Definition reach_dict (w : wld) (i a : nat) : Prop :=
    exists m n, nth_error (w_mgrs w) i = Some m /\ In (n, a) (h_nodes m).
  Inductive reach_list (w : wld) (i : nat) : nat -> Prop :=
  | rl_own : forall m, nth_error (w_mgrs w) i = Some m -> reach_list w i (h_subs m)
  | rl_nested : forall l a x, reach_list w i l -> In a (list_at w l) -> nth_error (w_infos w) a = Some x ->
      reach_list w i (i_subs x).
  Definition reach_info (w : wld) (i a : nat) : Prop := exists l, reach_list w i l /\ In a (list_at w l).

  (** two managers that have no object in common *)
  Definition separate (w : wld) (i j : nat) : Prop :=
    (forall a, reach_dict w i a -> ~ reach_dict w j a) /\
    (forall l, reach_list w i l -> ~ reach_list w j l) /\
    (forall a, reach_info w i a -> ~ reach_info w j a).

  (** the managers an operation is applied to *)
  Definition used (o : wop T D) : list nat :=
    match o with
    | WNew _ _ _ => []
    | WAdd i _ _ _ _ | WDeleteCs i _ _ | WAssign i _ _ _ _ _ | WDeleteData i _ | WSubsystems i | WRemoveSubs i => [i]
    | WMerge i j => [i; j]
    end.

  (** what a program can have *)
  Inductive reachable_w : wld -> Prop :=
  | rw_start : reachable_w (World [] [] [] [])
  | rw_op : forall w o, reachable_w w -> reachable_w (fst (run_wop w o)).

  (** the same up to the nested records *)
  Definition flat (c : csm T D) : csm T D :=
    Csm (c_name c) (c_ref c) (c_root c)
        (map (fun s => Sub (s_name s) (s_root s) (s_common s) (s_ref s) (s_members s) (s_data s) []) (c_subs c))
        (c_nodes c) (c_edges c).
End Spec.
