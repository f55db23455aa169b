(** The converter of directed graphs, weldx/tags/core/graph.py.

    Simplifications: the names of the nodes are strings (UUIDs are not modelled), the
    limit of the recursion depth of Python is replaced by fuel. A [DiGraph] is the list
    of its nodes with attributes and the list of its edges with attributes, both in the
    order of insertion. [nx.is_tree] is an oracle. *)
From Coq Require Import List String Bool Arith.
From Verif Require Import Base.
Import ListNotations.
Open Scope string_scope.
Open Scope list_scope.

Section Graph.
  Context {A : Type}.
  Notation attrs := (dict A).

  Definition ename : Type := (string * string)%type.
  Definition ename_eqb (a b : ename) : bool := String.eqb (fst a) (fst b) && String.eqb (snd a) (snd b).
  Record digraph : Type := DG { d_nodes : dict attrs; d_edges : list (ename * attrs) }.

  Fixpoint eget (e : ename) (l : list (ename * attrs)) : option attrs :=
    match l with [] => None | (k, a) :: r => if ename_eqb e k then Some a else eget e r end.
  Fixpoint eset (e : ename) (x : attrs) (l : list (ename * attrs)) : list (ename * attrs) :=
    match l with
    | [] => [(e, x)]
    | (k, a) :: r => if ename_eqb e k then (k, x) :: r else (k, a) :: eset e x r
    end.

  (** [dict.update] *)
  Definition dupdate (d x : attrs) : attrs := fold_left (fun d kv => dset (fst kv) (snd kv) d) x d.

  (** networkx [DiGraph.successors] and [predecessors] *)
  Definition succs (g : digraph) (n : string) : list string :=
    map snd (filter (fun e => String.eqb (fst e) n) (map fst (d_edges g))).
  Definition preds (g : digraph) (n : string) : list string :=
    map fst (filter (fun e => String.eqb (snd e) n) (map fst (d_edges g))).

  (** networkx [add_node(name, **attr)] and [add_edge(u, v, **attr)]: attributes with the
      name of a parameter of these functions are a [TypeError] *)
  Definition reserved (ns : list string) (a : attrs) : bool := existsb (fun k => smem k ns) (dkeys a).
  Definition ensure (n : string) (g : digraph) : digraph :=
    if dmem n (d_nodes g) then g else DG (d_nodes g ++ [(n, [])]) (d_edges g).
  Definition add_node (n : string) (a : attrs) (g : digraph) : res digraph :=
    if reserved ["self"; "node_for_adding"] a then Err TypeError
    else let g := ensure n g in
         match dget n (d_nodes g) with
         | Some o => Ok (DG (dset n (dupdate o a) (d_nodes g)) (d_edges g))
         | None => Err KeyError
         end.
  Definition add_edge (u v : string) (a : attrs) (g : digraph) : res digraph :=
    if reserved ["self"; "u_of_edge"; "v_of_edge"] a then Err TypeError
    else let g := ensure v (ensure u g) in
         let o := match eget (u, v) (d_edges g) with Some o => o | None => [] end in
         Ok (DG (d_nodes g) (eset (u, v) (dupdate o a) (d_edges g))).

  (** [DiNode] and [DiEdge], 12-18 and 39-45: the edges are [None] or a list, the
      attributes [None] or a dictionary, the flag is the direction "fwd" *)
  Inductive dinode : Type := DiNode (name : string) (at_ : option attrs) (edges : diedges)
  with diedges : Type :=
  | ENone
  | ENil
  | ECons (target : dinode) (at_ : option attrs) (fwd : bool) (rest : diedges).
  Definition node_name (t : dinode) : string := let 'DiNode n _ _ := t in n.

  Fixpoint to_edges (l : list (dinode * option attrs * bool)) : diedges :=
    match l with [] => ENil | (t, a, d) :: r => ECons t a d (to_edges r) end.
  (** the two loops of [build_tree], 92-105 *)
  Fixpoint children (rec : string -> res dinode) (edge : string -> option attrs) (fwd : bool)
           (parent : option string) (l : list string) : res (list (dinode * option attrs * bool)) :=
    match l with
    | [] => Ok []
    | n :: r =>
        if match parent with Some p => String.eqb n p | None => false end then children rec edge fwd parent r
        else bind (rec n) (fun t =>
             match edge n with
             | None => Err KeyError
             | Some a => bind (children rec edge fwd parent r) (fun ts => Ok ((t, Some a, fwd) :: ts))
             end)
    end.
  (** [build_tree], 68-114 *)
  Fixpoint build_tree (fuel : nat) (g : digraph) (name : string) (parent : option string) : res dinode :=
    match fuel with
    | O => Err OutOfFuel
    | S f =>
        bind (children (fun n => build_tree f g n (Some name)) (fun n => eget (name, n) (d_edges g)) true parent (succs g name)) (fun a =>
        bind (children (fun n => build_tree f g n (Some name)) (fun n => eget (n, name) (d_edges g)) false parent (preds g name)) (fun b =>
        match dget name (d_nodes g) with
        | None => Err KeyError
        | Some at_ => Ok (DiNode name (Some at_) (match a ++ b with [] => ENone | l => to_edges l end))
        end))
    end.

  (** [build_graph], 117-145: iterating over [None] and [**None] are [TypeError]s *)
  Fixpoint build_graph (t : dinode) (g : digraph) {struct t} : res digraph :=
    let 'DiNode name at_ es := t in
    match at_ with
    | None => Err TypeError
    | Some a => bind (add_node name a g) (fun g => build_edges name es g)
    end
  with build_edges (name : string) (es : diedges) (g : digraph) {struct es} : res digraph :=
    match es with
    | ENone => Err TypeError
    | ENil => Ok g
    | ECons t at_ fwd rest =>
        match at_ with
        | None => Err TypeError
        | Some a =>
            let 'DiNode tn _ _ := t in
            bind (if fwd then add_edge name tn a g else add_edge tn name a g) (fun g =>
            bind (build_graph t g) (fun g => build_edges name rest g))
        end
    end.

  (** The converters of nodes and edges, 21-35 and 48-62: empty attributes are replaced by
      [None], ASDF does not write [None], and missing values get the defaults of the
      dataclasses on loading. *)
  Definition store_attrs (a : option attrs) : option attrs := match a with Some [] => None | _ => a end.
  Definition load_attrs (a : option attrs) : option attrs := match a with None => Some [] | _ => a end.
  Fixpoint file_node (t : dinode) : dinode :=
    let 'DiNode n a es := t in DiNode n (load_attrs (store_attrs a)) (file_edges es)
  with file_edges (es : diedges) : diedges :=
    match es with
    | ENone | ENil => ENil
    | ECons t a d r => ECons (file_node t) (load_attrs (store_attrs a)) d (file_edges r)
    end.

  (** [DiGraphConverter.to_yaml_tree], 154-162 and [from_yaml_tree], 164-166. [nx.is_tree]
      raises an exception for an empty graph. *)
  Definition to_tree (is_tree : digraph -> bool) (fuel : nat) (g : digraph) : res dinode :=
    match d_nodes g with
    | [] => Err NetworkXError
    | (n, _) :: _ => if is_tree g then build_tree fuel g n None else Err ValueError
    end.
  Definition from_tree (t : dinode) : res digraph := build_graph t (DG [] []).
End Graph.
Arguments digraph : clear implicits.
Arguments dinode : clear implicits.
Arguments diedges : clear implicits.
