(** Saving and loading a [CoordinateSystemManager],
    weldx/tags/core/transformations/coordinate_system_hierarchy.py and the functions of
    weldx/transformations/cs_manager.py it calls.

    Simplifications: the value of a transformation or of data after it was written and read
    again is given by the oracles [io_t] and [io_d]; the converters of these values do not
    see the rest of the file. The order in which Python lists the elements of a set is the
    oracle [order]. A loaded graph with a node without "data" or an edge without
    "transformation" or "defined" is an error here; weldx only fails when it uses them. *)
From Coq Require Import List String Bool ZArith.
From Verif Require Import Base CsmModel GraphModel.
Import ListNotations.
Open Scope string_scope.
Open Scope list_scope.

Section Ser.
  Context {T D : Type} {ops : LcsOps T}.
  Variable io_t : T -> T.
  Variable io_d : D -> D.
  Variable order : list string -> list string.
  Variable is_tree : forall {A : Type}, digraph A -> bool.
  Notation mgr := (csm T D).

  (** the values of the attributes of nodes ([data]) and edges ([transformation] and
      [defined]) *)
  Inductive attr : Type := AData (d : dict D) | ATrans (t : option T) | ABool (b : bool).
  Notation graph := (digraph attr).

  (** [graph.edge_subgraph(defined_edges)], 16-18: the edges and the nodes that are an end
      of one of them, in the order of the graph (networkx keeps the order of the graph if the
      view has at least half of its nodes) *)
  Definition node_attrs (d : dict D) : dict attr := [("data", AData d)].
  Definition edge_attrs (t : option T) (b : bool) : dict attr :=
    [("transformation", ATrans t); ("defined", ABool b)].
  Definition is_end (es : list (edge T)) (n : string) : bool :=
    existsb (fun e => String.eqb (e_src e) n || String.eqb (e_dst e) n) es.
  Definition defined_graph (c : mgr) : graph :=
    let es := filter e_def (c_edges c) in
    DG (map (fun nd => (fst nd, node_attrs (snd nd))) (filter (fun nd => is_end es (fst nd)) (c_nodes c)))
       (map (fun e => ((e_src e, e_dst e), edge_attrs (e_tr e) (e_def e))) es).

  (** the dictionary of a subsystem; [None] is not written *)
  Inductive ysub : Type :=
    YSub (name root common : string) (ref : option Z) (members data : list string) (subs : list ysub).

  (** [SubsystemInfo.to_yaml_tree], 64-74 *)
  Fixpoint sub_to_yaml (s : subinfo) : ysub :=
    let 'Sub n r c t m d l := s in
    YSub n r c t (order m) (order d) (map sub_to_yaml l).
  (** [SubsystemInfo.from_yaml_tree], 76-93; [set] of a list *)
  Definition to_set (l : list string) : list string := nodup string_dec l.
  Fixpoint sub_from_yaml (y : ysub) : subinfo :=
    let 'YSub n r c t m d l := y in
    Sub n r c t (to_set m) (to_set d) (match l with [] => [] | _ => map sub_from_yaml l end).

  (** the dictionary of a manager *)
  Record ymgr : Type := YMgr {
    y_name : string;
    y_ref : option Z;
    y_graph : dinode attr;
    y_subs : list ysub
  }.

  (** [CoordinateSystemManagerConverter.to_yaml_tree], 14-28, and the converter of graphs that
      ASDF calls for its entry "graph" *)
  Definition to_yaml (c : mgr) : res ymgr :=
    let g := defined_graph c in
    bind (to_tree is_tree (2 * List.length (d_nodes g)) g) (fun t =>
    Ok (YMgr (c_name c) (c_ref c) t (map sub_to_yaml (c_subs c)))).

  (** the file: values are written and read, see [file_node] for the graph *)
  Definition file_attr (a : attr) : attr :=
    match a with
    | AData d => AData (map (fun kv => (fst kv, io_d (snd kv))) d)
    | ATrans (Some t) => ATrans (Some (io_t t))
    | ATrans None => ATrans None
    | ABool b => ABool b
    end.
  Definition file_attrs (a : dict attr) : dict attr := map (fun kv => (fst kv, file_attr (snd kv))) a.
  Definition load_graph (t : dinode attr) : res graph :=
    bind (from_tree (file_node t)) (fun g =>
    Ok (DG (map (fun na => (fst na, file_attrs (snd na))) (d_nodes g))
           (map (fun ea => (fst ea, file_attrs (snd ea))) (d_edges g)))).

  (** the loop of [_from_yaml_tree], 1768-1775. The edges that are added while the loop runs
      come last; their reverse edge exists and they are skipped. *)
  Fixpoint add_inverses (todo : list ename) (es : list (ename * dict attr)) : res (list (ename * dict attr)) :=
    match todo with
    | [] => Ok es
    | (u, v) :: r =>
        match eget (v, u) es with
        | Some _ => add_inverses r es
        | None =>
            match eget (u, v) es with
            | None => Err KeyError
            | Some a =>
                match dget "transformation" a with
                | None => Err KeyError
                | Some (ATrans (Some t)) =>
                    if l_expr t then Err WeldxException
                    else add_inverses r (es ++ [((v, u), edge_attrs (Some (l_inv t)) false)])
                | Some _ => Err AttributeError
                end
            end
        end
    end.
  (** [graph.edges]: node by node *)
  Definition edge_view (g : graph) : list ename :=
    flat_map (fun n => filter (fun e => String.eqb (fst e) n) (map fst (d_edges g))) (map fst (d_nodes g)).

  (** the attributes of the loaded graph as those of a manager *)
  Fixpoint all_ok {A B : Type} (f : A -> res B) (l : list A) : res (list B) :=
    match l with
    | [] => Ok []
    | x :: r => bind (f x) (fun y => bind (all_ok f r) (fun ys => Ok (y :: ys)))
    end.
  Definition node_of (na : string * dict attr) : res (string * dict D) :=
    match dget "data" (snd na) with Some (AData d) => Ok (fst na, d) | _ => Err KeyError end.
  Definition edge_of (ea : ename * dict attr) : res (edge T) :=
    match dget "transformation" (snd ea), dget "defined" (snd ea) with
    | Some (ATrans t), Some (ABool b) => Ok (Edge (fst (fst ea)) (snd (fst ea)) t b)
    | _, _ => Err KeyError
    end.

  (** [_from_yaml_tree], 1762-1787, and [_from_subsystem_graph], 1789-1807: the first node is
      the root *)
  Definition from_yaml (y : ymgr) : res mgr :=
    bind (load_graph (y_graph y)) (fun g =>
    bind (add_inverses (edge_view g) (d_edges g)) (fun es =>
    bind (all_ok node_of (d_nodes g)) (fun ns =>
    bind (all_ok edge_of es) (fun es =>
    match ns with
    | [] => Err IndexError
    | (n, _) :: _ =>
        Ok (Csm (y_name y) (y_ref y) n
                (match y_subs y with [] => [] | l => map sub_from_yaml l end) ns es)
    end)))).
End Ser.
Arguments attr : clear implicits.
Arguments ymgr : clear implicits.
