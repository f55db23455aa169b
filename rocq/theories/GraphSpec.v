(** Directed trees and equality of graphs. *)
From Coq Require Import List String Bool Arith.
From Verif Require Import Base GraphModel.
Import ListNotations.

Definition step (es : list (string * string)) (u v : string) : Prop := In (u, v) es \/ In (v, u) es.
Inductive reach (es : list (string * string)) : string -> string -> Prop :=
| r_here : forall a, reach es a a
| r_step : forall a b c, reach es a b -> step es b c -> reach es a c.
(** what [nx.is_tree] tests: weakly connected with one edge less than nodes *)
Definition tree (ns : list string) (es : list (string * string)) : Prop :=
  (forall u v, In u ns -> In v ns -> reach es u v) /\ S (List.length es) = List.length ns.

Section Spec.
  Context {A : Type}.
  Definition nodes (g : digraph A) : list string := map fst (d_nodes g).
  Definition links (g : digraph A) : list (string * string) := map fst (d_edges g).

  (** every [DiGraph] satisfies this *)
  Record wf (g : digraph A) : Prop := {
    wf_nodes : NoDup (nodes g);
    wf_links : NoDup (links g);
    wf_ends : forall u v, In (u, v) (links g) -> In u (nodes g) /\ In v (nodes g);
    wf_nattr : forall n a, In (n, a) (d_nodes g) -> NoDup (map fst a);
    wf_eattr : forall e a, In (e, a) (d_edges g) -> NoDup (map fst a)
  }.

  (** no attribute has the name of a parameter of [add_node] or [add_edge] *)
  Definition plain (g : digraph A) : Prop :=
    (forall n a, In (n, a) (d_nodes g) -> ~ In "self"%string (map fst a) /\ ~ In "node_for_adding"%string (map fst a)) /\
    (forall e a, In (e, a) (d_edges g) ->
       ~ In "self"%string (map fst a) /\ ~ In "u_of_edge"%string (map fst a) /\ ~ In "v_of_edge"%string (map fst a)).

  (** the same nodes, edges and attributes *)
  Record same (g h : digraph A) : Prop := {
    same_nodes : forall n, In n (nodes g) <-> In n (nodes h);
    same_links : forall e, In e (links g) <-> In e (links h);
    same_nattr : forall n a b k, In (n, a) (d_nodes g) -> In (n, b) (d_nodes h) -> dget k a = dget k b;
    same_eattr : forall e a b k, In (e, a) (d_edges g) -> In (e, b) (d_edges h) -> dget k a = dget k b
  }.
End Spec.
