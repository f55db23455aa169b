(** What a measurement chain has to be, independent of its operations. *)
From Coq Require Import List String Bool Arith.
From Verif Require Import Base MeasModel.
Import ListNotations.

Section Spec.
  Context {U D : Type}.

  Definition names (g : @graph U) : list string := map fst (g_nodes g).
  Definition links (g : @graph U) : list (string * string) := map fst (g_edges g).

  Inductive path (es : list (string * string)) : string -> string -> Prop :=
  | p_here : forall a, path es a a
  | p_step : forall a b c, path es a b -> In (b, c) es -> path es a c.

  (** a tree with the root [r] whose edges lead away from it *)
  Record rooted_tree (r : string) (g : @graph U) : Prop := {
    rt_root : In r (names g);
    rt_names : NoDup (names g);
    rt_ends : forall u v, In (u, v) (links g) -> In u (names g) /\ In v (names g);
    rt_in : forall v, In v (names g) -> v <> r -> exists u, In (u, v) (links g) /\ forall u', In (u', v) (links g) -> u' = u;
    rt_once : NoDup (links g);
    rt_source : forall u, ~ In (u, r) (links g);
    rt_conn : forall v, In v (names g) -> path (links g) r v
  }.

  (** every transformation carries the name of its output signal *)
  Definition named (g : @graph U) : Prop := forall u v t, In (u, v, t) (g_edges g) -> t_name t = v.

  (** [b] is the signal that the transformation makes of [a] *)
  Definition makes (t : @transf U) (a b : @signal U D) : Prop :=
    match t_type t with None => s_type b = s_type a | Some (x, y) => s_type a = x /\ s_type b = y end /\
    match t_func t with None => s_unit b = s_unit a | Some f => f_unit f (s_unit a) = Some (s_unit b) end.

  (** the signal objects of a graph and its content *)
  Definition refs (g : @graph U) : list nat := map snd (g_nodes g).
  Definition view (w : @world U D) (c : @chain) : list (string * option signal) * list (string * string * transf) :=
    (map (fun nr => (fst nr, nth_error (w_sigs w) (snd nr))) (g_nodes (graph_at w c)), g_edges (graph_at w c)).

  (** two chains have no object in common *)
  Definition separate (w : @world U D) (c d : @chain) : Prop :=
    c_graph c <> c_graph d /\ (forall r, In r (refs (graph_at w c)) -> ~ In r (refs (graph_at w d))).

  (** all addresses of a chain are valid *)
  Definition well (w : @world U D) (c : @chain) : Prop :=
    c_graph c < List.length (w_graphs w) /\ forall r, In r (refs (graph_at w c)) -> r < List.length (w_sigs w).

  (** chains that were created from a source and extended *)
  Inductive built (uo : unit_ops U) : @world U D -> @chain -> Prop :=
  | b_new : forall w src w' c, src_sig src < List.length (w_sigs w) -> new_chain w src = (w', c) -> built uo w' c
  | b_op : forall w c o w' c' r, built uo w c -> run_op uo w c o = (w', c', r) -> built uo w' c'.
End Spec.
