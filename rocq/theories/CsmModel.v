(** Model of the graph, data and subsystem bookkeeping of
    [CoordinateSystemManager] (weldx/transformations/cs_manager.py).

    Simplifications, valid for the whole file:
    - names are strings (the [isinstance(..., str)] checks always succeed);
    - a [networkx.DiGraph] is a dictionary of nodes in insertion order and a
      list of edges in insertion order; only the order of the edges that leave
      one node is observable through [neighbors];
    - the transformation on an edge is an abstract value of type [T]; what the
      manager asks it is in the record [LcsOps];
    - python objects are values: the aliasing of dictionaries between a manager
      and the managers it was merged from is modelled in CsmHeapModel.v only;
    - warnings are not modelled. *)
From Coq Require Import List String Bool ZArith Arith.
From Verif Require Import Base.
Import ListNotations.
Open Scope string_scope.
Open Scope list_scope.

(** What the manager asks a [LocalCoordinateSystem]:
    [l_inv] is [invert] (local_cs.py 774-801), [l_expr] is
    [isinstance(lcs.coordinates, TimeSeries)], [l_timedep] is
    [is_time_dependent] (570-579), [l_ref] is [reference_time] (600-611). *)
Class LcsOps (T : Type) : Type := {
  l_inv : T -> T;
  l_expr : T -> bool;
  l_timedep : T -> bool;
  l_ref : T -> option Z
}.

(** One directed edge with its attributes [transformation] and [defined]. *)
Record edge (T : Type) : Type := Edge {
  e_src : string;
  e_dst : string;
  e_tr : option T;
  e_def : bool
}.
Arguments Edge {T} e_src e_dst e_tr e_def.
Arguments e_src {T} e.
Arguments e_dst {T} e.
Arguments e_tr {T} e.
Arguments e_def {T} e.

(** [SubsystemInfo], cs_manager.py 42-62. Sets are lists. *)
Inductive subinfo : Type :=
| Sub (s_name s_root s_common : string) (s_ref : option Z)
      (s_members s_data : list string) (s_subs : list subinfo).

Definition s_name (s : subinfo) := match s with Sub n _ _ _ _ _ _ => n end.
Definition s_root (s : subinfo) := match s with Sub _ r _ _ _ _ _ => r end.
Definition s_common (s : subinfo) := match s with Sub _ _ c _ _ _ _ => c end.
Definition s_ref (s : subinfo) := match s with Sub _ _ _ t _ _ _ => t end.
Definition s_members (s : subinfo) := match s with Sub _ _ _ _ m _ _ => m end.
Definition s_data (s : subinfo) := match s with Sub _ _ _ _ _ d _ => d end.
Definition s_subs (s : subinfo) := match s with Sub _ _ _ _ _ _ l => l end.

Definition s_set_data (d : list string) (s : subinfo) : subinfo :=
  match s with Sub n r c t m _ l => Sub n r c t m d l end.

Section Graph.
  Context {T : Type}.

  (** [graph.edges[(u, v)]] *)
  Definition find_edge (es : list (edge T)) (u v : string) : option (edge T) :=
    find (fun e => String.eqb (e_src e) u && String.eqb (e_dst e) v) es.

  (** [graph.add_edge(u, v, transformation=.., defined=..)]: an existing edge
      gets the new attributes, a new one is appended. *)
  Fixpoint set_edge (e : edge T) (es : list (edge T)) : list (edge T) :=
    match es with
    | [] => [e]
    | x :: r =>
        if String.eqb (e_src x) (e_src e) && String.eqb (e_dst x) (e_dst e)
        then e :: r
        else x :: set_edge e r
    end.

  (** [graph.neighbors(u)] (successors of a directed graph) *)
  Definition nbs (es : list (edge T)) (u : string) : list string :=
    map e_dst (filter (fun e => String.eqb (e_src e) u) es).

  (** all simple paths from [a] to [b] with at most [fuel] edges that do not
      use a node of [seen] *)
  Fixpoint simple_paths (fuel : nat) (es : list (edge T)) (seen : list string)
           (a b : string) : list (list string) :=
    if String.eqb a b then [[a]]
    else match fuel with
         | O => []
         | S f =>
             flat_map
               (fun n => map (cons a) (simple_paths f es (a :: seen) n b))
               (filter (fun n => negb (smem n (a :: seen))) (nbs es a))
         end.

  (** a shortest element of a list of lists *)
  Fixpoint shortest (ps : list (list string)) : option (list string) :=
    match ps with
    | [] => None
    | p :: r =>
        match shortest r with
        | None => Some p
        | Some q => if Nat.leb (List.length p) (List.length q) then Some p else Some q
        end
    end.

  (** [networkx.shortest_path(graph, a, b)]: [None] stands for NetworkXNoPath
      and NodeNotFound. Which of several shortest paths networkx picks is not
      specified; on the graphs built by the manager there is only one. *)
  Definition shortest_path (es : list (edge T)) (a b : string) : option (list string) :=
    shortest (simple_paths (List.length es) es [] a b).
End Graph.

(** The attributes of a [CoordinateSystemManager] (128-133). *)
Record csm (T D : Type) : Type := Csm {
  c_name : string;
  c_ref : option Z;
  c_root : string;
  c_subs : list subinfo;
  c_nodes : dict (dict D);
  c_edges : list (edge T)
}.
Arguments Csm {T D} c_name c_ref c_root c_subs c_nodes c_edges.
Arguments c_name {T D} c.
Arguments c_ref {T D} c.
Arguments c_root {T D} c.
Arguments c_subs {T D} c.
Arguments c_nodes {T D} c.
Arguments c_edges {T D} c.

Section Manager.
  Context {T D : Type} {ops : LcsOps T}.
  Notation mgr := (csm T D).

  Definition set_subs (s : list subinfo) (c : mgr) : mgr :=
    Csm (c_name c) (c_ref c) (c_root c) s (c_nodes c) (c_edges c).
  Definition set_graph (n : dict (dict D)) (e : list (edge T)) (c : mgr) : mgr :=
    Csm (c_name c) (c_ref c) (c_root c) (c_subs c) n e.
  Definition set_nodes (n : dict (dict D)) (c : mgr) : mgr :=
    set_graph n (c_edges c) c.

  (** [__init__], 97-133 *)
  Definition new_csm (root name : string) (ref : option Z) : mgr :=
    Csm name ref root [] [(root, [])] [].

  (** [coordinate_system_names], 940-949 *)
  Definition cs_names (c : mgr) : list string := dkeys (c_nodes c).

  (** [has_coordinate_system], 1276-1290 *)
  Definition has_cs (c : mgr) (n : string) : bool := dmem n (c_nodes c).

  (** [neighbors], 1398-1413 *)
  Definition neighbors (c : mgr) (n : string) : res (list string) :=
    if has_cs c n then Ok (nbs (c_edges c) n) else Err ValueError.

  (** [is_neighbor_of], 1380-1396 *)
  Definition is_neighbor_of (c : mgr) (a b : string) : res bool :=
    if has_cs c a then
      if has_cs c b then Ok (smem b (nbs (c_edges c) a)) else Err ValueError
    else Err ValueError.

  (** [lcs], 193-209 *)
  Definition defined_lcs (c : mgr) : list T :=
    flat_map (fun e => match e_tr e with
                       | Some t => if e_def e then [t] else []
                       | None => []
                       end) (c_edges c).

  (** [lcs_time_dependent], 212-221 *)
  Definition lcs_time_dependent (c : mgr) : list T :=
    filter l_timedep (defined_lcs c).

  Definition is_some {A : Type} (o : option A) : bool :=
    match o with Some _ => true | None => false end.

  (** [_has_lcs_with_time_ref], 322-332 *)
  Definition has_lcs_with_ref (c : mgr) : bool :=
    existsb (fun t => is_some (l_ref t)) (lcs_time_dependent c).

  (** [uses_absolute_times], 224-234 *)
  Definition uses_absolute_times (c : mgr) : bool :=
    has_lcs_with_ref c || is_some (c_ref c).

  (** [_number_of_time_dependent_lcs], 339-351 *)
  Definition n_time_dependent (c : mgr) : nat := List.length (lcs_time_dependent c).

  (** the transformation stored on the reverse edge, 268-274 and 372-377 *)
  Definition reverse_tr (t : T) : option T :=
    if l_expr t then None else Some (l_inv t).

  (** [_add_edges] 253-274; [_update_local_coordinate_system] 353-377 assigns
      the same four attributes on edges that exist already. *)
  Definition put_edges (from to : string) (t : T) (es : list (edge T)) : list (edge T) :=
    set_edge (Edge to from (reverse_tr t) false)
             (set_edge (Edge from to (Some t) true) es).

  (** the reference time condition of [add_cs], 498-508 *)
  Definition add_ref_conflict (c : mgr) (t : T) : bool :=
    l_timedep t && Nat.ltb 0 (n_time_dependent c) &&
    ((is_some (l_ref t) && negb (uses_absolute_times c)) ||
     (negb (is_some (l_ref t)) && negb (is_some (c_ref c)) && uses_absolute_times c)).

  (** [add_cs], 438-552 ([child_in_parent] is the resolved flag) *)
  Definition add_cs (c : mgr) (name ref : string) (t : T) (child_in_parent : bool)
    : mgr * res unit :=
    if add_ref_conflict c t then (c, Err WeldxException)
    else if has_cs c name then
      match is_neighbor_of c name ref with
      | Err e => (c, Err e)
      | Ok false => (c, Err ValueError)
      | Ok true =>
          let es := if child_in_parent then put_edges name ref t (c_edges c)
                    else put_edges ref name t (c_edges c) in
          (set_graph (c_nodes c) es c, Ok tt)
      end
    else if has_cs c ref then
      let ns := dset name [] (c_nodes c) in
      let es := if child_in_parent then put_edges name ref t (c_edges c)
                else put_edges ref name t (c_edges c) in
      (set_graph ns es c, Ok tt)
    else (c, Err ValueError).

  (** [get_parent_system_name], 1248-1274 *)
  Definition get_parent (c : mgr) (n : string) : res (option string) :=
    if String.eqb n (c_root c) then Ok None
    else if has_cs c n then
      match shortest_path (c_edges c) n (c_root c) with
      | Some p => match nth_error p 1 with
                  | Some q => Ok (Some q)
                  | None => Err IndexError
                  end
      | None => Err NetworkXNoPath
      end
    else Err ValueError.

  Definition is_parent (p : option string) (n : string) : bool :=
    match p with Some q => String.eqb n q | None => false end.

  (** [get_child_system_names(n, True)], 921-926. The parent is only asked for
      if there are neighbours. *)
  Definition get_children (c : mgr) (n : string) : res (list string) :=
    bind (neighbors c n) (fun nb =>
      match nb with
      | [] => Ok []
      | _ => bind (get_parent c n) (fun p =>
               Ok (filter (fun m => negb (is_parent p m)) nb))
      end).

  (** the inner [for] loop 932-933 *)
  Fixpoint children_of_all (c : mgr) (ns : list string) : res (list string) :=
    match ns with
    | [] => Ok []
    | n :: r => bind (get_children c n) (fun x =>
                bind (children_of_all c r) (fun y => Ok (x ++ y)))
    end.

  (** the [while] loop 930-935; [fuel] bounds the number of rounds *)
  Fixpoint descend (fuel : nat) (c : mgr) (current all : list string)
    : res (list string) :=
    match current with
    | [] => Ok all
    | _ =>
        match fuel with
        | O => Err OutOfFuel
        | S f => bind (children_of_all c current) (fun new =>
                 descend f c new (all ++ new))
        end
    end.

  (** [get_child_system_names(n, False)], 928-937 *)
  Definition get_all_children (c : mgr) (n : string) : res (list string) :=
    bind (get_children c n) (fun cur =>
      descend (S (List.length (c_nodes c))) c cur cur).

  (** [graph.remove_node(n)] *)
  Definition remove_node (n : string) (c : mgr) : mgr :=
    set_graph (ddel n (c_nodes c))
              (filter (fun e => negb (String.eqb n (e_src e)) &&
                                negb (String.eqb n (e_dst e))) (c_edges c)) c.

  (** the loop 896-899; networkx raises NetworkXError for unknown nodes *)
  Fixpoint remove_nodes (ns : list string) (c : mgr) : mgr * res unit :=
    match ns with
    | [] => (c, Ok tt)
    | n :: r => if has_cs c n then remove_nodes r (remove_node n c)
                else (c, Err NetworkXError)
    end.

  (** the loop 880-887: names of the subsystems that are dropped *)
  Fixpoint dropped_subs (c : mgr) (x : string) (l : list subinfo) : res (list string) :=
    match l with
    | [] => Ok []
    | s :: r =>
        bind (if smem x (s_members s) then Ok true
              else match shortest_path (c_edges c) (s_root s) (c_root c) with
                   | None => Err NetworkXNoPath
                   | Some p => Ok (smem x p)
                   end)
             (fun b => bind (dropped_subs c x r) (fun q =>
                Ok (if b : bool then s_name s :: q else q)))
    end.

  (** [delete_cs], 846-899 *)
  Definition delete_cs (c : mgr) (x : string) (delete_children : bool) : mgr * res unit :=
    if negb (has_cs c x) then (c, Ok tt)
    else if String.eqb x (c_root c) then (c, Err ValueError)
    else match get_all_children c x with
         | Err e => (c, Err e)
         | Ok children =>
             if negb delete_children && Nat.ltb 0 (List.length children)
             then (c, Err WeldxException)
             else match dropped_subs c x (c_subs c) with
                  | Err e => (c, Err e)
                  | Ok drop =>
                      let c1 := set_subs (filter (fun s => negb (smem (s_name s) drop))
                                                 (c_subs c)) c in
                      remove_nodes ((if delete_children then children else []) ++ [x]) c1
                  end
         end.

  (** [data_names], 952-964 *)
  Definition data_names (c : mgr) : list string :=
    flat_map (fun nd => dkeys (snd nd)) (c_nodes c).

  (** [_find_data], 966-972 *)
  Fixpoint find_data_in (ns : dict (dict D)) (k : string) : res (string * D) :=
    match ns with
    | [] => Err KeyError
    | (n, d) :: r => match dget k d with
                     | Some v => Ok (n, v)
                     | None => find_data_in r k
                     end
    end.
  Definition find_data (c : mgr) (k : string) : res (string * D) :=
    find_data_in (c_nodes c) k.

  (** [self._graph.nodes[n]["data"]] *)
  Definition node_data (c : mgr) (n : string) : option (dict D) := dget n (c_nodes c).

  (** [has_data], 1292-1308 *)
  Definition has_data (c : mgr) (n k : string) : res bool :=
    match node_data c n with
    | None => Err KeyError
    | Some d => Ok (dmem k d)
    end.

  (** [assign_data], 577-630. [transform] is [self.transform_data]; it is only
      used if a target system is given. *)
  Definition assign_data (transform : D -> string -> string -> res D)
             (c : mgr) (v : D) (k ref : string) (target : option string)
    : mgr * res unit :=
    if smem k (data_names c) then (c, Err ValueError)
    else if negb (has_cs c ref) then (c, Err ValueError)
    else
      let place (n : string) (v : D) :=
        match node_data c n with
        | None => (c, Err KeyError)
        | Some d => (set_nodes (dset n (dset k v d) (c_nodes c)) c, Ok tt)
        end in
      match target with
      | None => place ref v
      | Some tg =>
          if negb (has_cs c tg) then (c, Err ValueError)
          else match transform v ref tg with
               | Err e => (c, Err e)
               | Ok v' => place tg v'
               end
      end.

  (** removal of [k] from the first node that has it, 649-654 *)
  Fixpoint pop_data (ns : dict (dict D)) (k : string) : option (dict (dict D)) :=
    match ns with
    | [] => None
    | (n, d) :: r =>
        if dmem k d then Some ((n, ddel k d) :: r)
        else match pop_data r k with
             | None => None
             | Some r' => Some ((n, d) :: r')
             end
    end.

  (** [delete_data], 632-656. The subsystem records are changed first. *)
  Definition delete_data (c : mgr) (k : string) : mgr * res unit :=
    let c1 := set_subs (map (fun s => s_set_data
                 (filter (fun n => negb (String.eqb k n)) (s_data s)) s) (c_subs c)) c in
    match pop_data (c_nodes c1) k with
    | Some ns => (set_nodes ns c1, Ok tt)
    | None => (c1, Err ValueError)
    end.

  (** [networkx.compose(G, H)] on nodes: attributes of [H] win *)
  Definition compose_nodes (g h : dict (dict D)) : dict (dict D) :=
    fold_left (fun acc nd => dset (fst nd) (snd nd) acc) h g.
  Definition compose_edges (g h : list (edge T)) : list (edge T) :=
    fold_left (fun acc e => set_edge e acc) h g.

  (** [{**a, **b}] *)
  Definition dict_join (a b : dict D) : dict D :=
    fold_left (fun acc kv => dset (fst kv) (snd kv) acc) b a.

  Definition ref_eqb (a b : option Z) : bool :=
    match a, b with
    | None, None => true
    | Some x, Some y => Z.eqb x y
    | _, _ => false
    end.

  (** the reference time condition of [merge], 1839-1849 *)
  Definition merge_ref_conflict (c o : mgr) : bool :=
    Nat.ltb 0 (n_time_dependent o) &&
    ((negb (uses_absolute_times c) && uses_absolute_times o) ||
     (uses_absolute_times c && negb (is_some (c_ref c)) && negb (uses_absolute_times o)) ||
     (is_some (c_ref c) && uses_absolute_times o && negb (ref_eqb (c_ref c) (c_ref o)))).

  (** the record stored by [merge], 1881-1891 *)
  Definition info_of (o : mgr) (common : string) : subinfo :=
    Sub (c_name o) (c_root o) common (c_ref o) (cs_names o) (data_names o) (c_subs o).

  (** [merge], 1825-1891 *)
  Definition merge (c o : mgr) : mgr * res unit :=
    if merge_ref_conflict c o then (c, Err ValueError)
    else match filter (fun n => has_cs o n) (cs_names c) with
         | [m] =>
             if existsb (fun k => smem k (data_names c)) (data_names o)
             then (c, Err NameError)
             else match node_data c m, node_data o m with
                  | Some dc, Some d_o =>
                      let joined := dict_join dc d_o in
                      let ns := dset m joined (compose_nodes (c_nodes c) (c_nodes o)) in
                      let es := compose_edges (c_edges c) (c_edges o) in
                      (set_subs (c_subs c ++ [info_of o m]) (set_graph ns es c), Ok tt)
                  | _, _ => (c, Err KeyError)
                  end
         | _ => (c, Err ValueError)
         end.

  (** [_subsystem_common_node_data], 1809-1815; the data of the common node
      is a parameter *)
  Definition sub_common_data (d : dict D) (s : subinfo) : list string :=
    filter (fun k => smem k (s_data s)) (dkeys d).

  (** one round of the loop in [subsystems], 1984-1998 *)
  Definition extract_sub (c : mgr) (s : subinfo) : res mgr :=
    let ns := filter (fun nd => smem (fst nd) (s_members s)) (c_nodes c) in
    let es := filter (fun e => smem (e_src e) (s_members s) &&
                               smem (e_dst e) (s_members s)) (c_edges c) in
    match dget (s_common s) ns, node_data c (s_common s) with
    | Some d, Some dc =>
        let d' : dict D := filter (fun kv => smem (fst kv) (sub_common_data dc s)) d in
        Ok (Csm (s_name s) (s_ref s) (s_root s) (s_subs s) (dset (s_common s) d' ns) es)
    | _, _ => Err KeyError
    end.

  Fixpoint extract_subs (c : mgr) (l : list subinfo) : res (list mgr) :=
    match l with
    | [] => Ok []
    | s :: r => bind (extract_sub c s) (fun x =>
                bind (extract_subs c r) (fun y => Ok (x :: y)))
    end.

  (** [subsystems], 1974-2000 *)
  Definition subsystems (c : mgr) : res (list mgr) := extract_subs c (c_subs c).

  (** [_subsystem_common_node_neighbors], 1817-1823 *)
  Definition sub_common_neighbors (c : mgr) (s : subinfo) : res (list string) :=
    if has_cs c (s_common s)
    then Ok (filter (fun n => smem n (s_members s)) (nbs (c_edges c) (s_common s)))
    else Err NetworkXError.

  (** the first loop of [remove_subsystems], 1895-1904: collects the systems to
      delete and removes the subsystem's data from the common node *)
  Fixpoint strip_subs (c : mgr) (l : list subinfo) : mgr * res (list string) :=
    match l with
    | [] => (c, Ok [])
    | s :: r =>
        match sub_common_neighbors c s with
        | Err e => (c, Err e)
        | Ok nb =>
            match node_data c (s_common s) with
            | None => (c, Err KeyError)
            | Some d =>
                let d' : dict D := filter (fun kv => negb (smem (fst kv) (sub_common_data d s))) d in
                let c1 := set_nodes (dset (s_common s) d' (c_nodes c)) c in
                match strip_subs c1 r with
                | (c2, Ok q) => (c2, Ok (nb ++ q))
                | (c2, Err e) => (c2, Err e)
                end
            end
        end
    end.

  (** the second loop, 1907-1908 *)
  Fixpoint delete_all (c : mgr) (l : list string) : mgr * res unit :=
    match l with
    | [] => (c, Ok tt)
    | n :: r => match delete_cs c n true with
                | (c1, Ok _) => delete_all c1 r
                | (c1, Err e) => (c1, Err e)
                end
    end.

  (** [remove_subsystems], 1893-1908 *)
  Definition remove_subsystems (c : mgr) : mgr * res unit :=
    match strip_subs c (c_subs c) with
    | (c1, Err e) => (c1, Err e)
    | (c1, Ok del) => delete_all (set_subs [] c1) del
    end.

  (** [unmerge], 1910-1942 (the warning is left out) *)
  Definition unmerge (c : mgr) : mgr * res (list mgr) :=
    match subsystems c with
    | Err e => (c, Err e)
    | Ok subs => match remove_subsystems c with
                 | (c1, Err e) => (c1, Err e)
                 | (c1, Ok _) => (c1, Ok subs)
                 end
    end.

  (** [networkx.relabel_nodes(graph, {old: new}, copy=False)] for a single pair
      (networkx 2.6+, [_relabel_inplace]): the attributes of [old] are copied to
      [new] (replacing those of an existing node), [old] is removed and its
      edges are added again with the new name: first the outgoing, then the
      incoming ones. Unknown [old] names are ignored. *)
  Definition ren (old new n : string) : string := if String.eqb n old then new else n.

  Definition relabel_graph (old new : string) (c : mgr) : mgr :=
    match dget old (c_nodes c) with
    | None => c
    | Some d =>
        if String.eqb old new then c
        else
          let outs := filter (fun e => String.eqb (e_src e) old) (c_edges c) in
          let ins := filter (fun e => String.eqb (e_dst e) old) (c_edges c) in
          let moved := map (fun e => Edge (ren old new (e_src e)) (ren old new (e_dst e))
                                          (e_tr e) (e_def e)) (outs ++ ins) in
          let c1 := remove_node old (set_nodes (dset new d (c_nodes c)) c) in
          set_graph (c_nodes c1) (compose_edges (c_edges c1) moved) c1
    end.

  (** [relabel({old: new})], 554-575. [if self.subsystems] is truthy for a
      non-empty list of subsystems. *)
  Definition relabel (c : mgr) (old new : string) : mgr * res unit :=
    match subsystems c with
    | Err e => (c, Err e)
    | Ok (_ :: _) => (c, Err NotImplementedError)
    | Ok [] =>
        let c1 := if String.eqb (c_root c) old
                  then Csm (c_name c) (c_ref c) new (c_subs c) (c_nodes c) (c_edges c)
                  else c in
        (relabel_graph old new c1, Ok tt)
    end.

  (** The mutating public operations on one manager. [OAssign]'s [transform] is
      an arbitrary function (the numbers are modelled elsewhere). *)
  Inductive op : Type :=
  | OAdd (name ref : string) (t : T) (child_in_parent : bool)
  | ODelete (x : string) (delete_children : bool)
  | OAssign (transform : D -> string -> string -> res D) (v : D) (k ref : string)
            (target : option string)
  | ODeleteData (k : string)
  | OMerge (other : mgr)
  | ORemoveSubs.

  Definition run_op (c : mgr) (o : op) : mgr * res unit :=
    match o with
    | OAdd n r t b => add_cs c n r t b
    | ODelete x b => delete_cs c x b
    | OAssign f v k r tg => assign_data f c v k r tg
    | ODeleteData k => delete_data c k
    | OMerge other => merge c other
    | ORemoveSubs => remove_subsystems c
    end.
End Manager.
