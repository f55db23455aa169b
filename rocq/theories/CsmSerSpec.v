(** What a saved and loaded manager has to look like. *)
From Coq Require Import List String Bool ZArith.
From Verif Require Import Base CsmModel CsmSpec.
Import ListNotations.

Definition same_set (a b : list string) : Prop := forall x, In x a <-> In x b.

(** the same record of a subsystem: members and names of data are sets *)
Inductive same_sub : subinfo -> subinfo -> Prop :=
| same_Sub : forall n r c t m m' d d' l l', same_set m m' -> same_set d d' -> Forall2 same_sub l l' ->
    same_sub (Sub n r c t m d l) (Sub n r c t m' d' l').

Section Spec.
  Context {T D : Type} {ops : LcsOps T} (io_t : T -> T) (io_d : D -> D).

  (** [c'] is [c] with all values written and read, apart from the root and the order *)
  Record same_manager (c c' : csm T D) : Prop := {
    sm_name : c_name c' = c_name c;
    sm_ref : c_ref c' = c_ref c;
    sm_systems : forall n, In n (cs_names c') <-> In n (cs_names c);
    sm_data : forall n d, node_data c n = Some d ->
                node_data c' n = Some (map (fun kv => (fst kv, io_d (snd kv))) d);
    sm_defined : forall u v t, In (Edge u v (Some t) true) (c_edges c') <->
                   exists t0, t = io_t t0 /\ In (Edge u v (Some t0) true) (c_edges c);
    sm_subs : Forall2 same_sub (c_subs c) (c_subs c');
    sm_tree : is_tree c'
  }.
End Spec.
