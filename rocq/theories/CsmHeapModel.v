(** The managers of cs_manager.py as python objects: which dictionaries, subsystem
    records and lists they share.

    Simplifications: a graph is owned by one manager ([networkx.compose] and
    [subgraph(..).copy()] make new graphs with new attribute dictionaries of nodes
    and edges), so nodes and edges are values; the inner dictionary ["data"] of a
    node is copied as a reference by both functions and is a cell of the heap. The
    transformations are immutable values. Everything that is only read is read with
    the functions of CsmModel.v. *)
From Coq Require Import List String Bool ZArith Arith.
From Verif Require Import Base CsmModel.
Import ListNotations.
Open Scope list_scope.

(** [SubsystemInfo], cs_manager.py 42-62, as mutable object. [i_subs] is the address
    of the list [subsystems]. *)
Record info : Type := Info {
  i_name : string;
  i_root : string;
  i_common : string;
  i_ref : option Z;
  i_members : list string;
  i_data : list string;
  i_subs : nat
}.

(** A manager (128-133). [h_subs] is the address of the list [_subsystems],
    [h_nodes] has the addresses of the dictionaries ["data"]. *)
Record hmgr (T : Type) : Type := Hm {
  h_name : string;
  h_ref : option Z;
  h_root : string;
  h_subs : nat;
  h_nodes : dict nat;
  h_edges : list (edge T)
}.
Arguments Hm {T} h_name h_ref h_root h_subs h_nodes h_edges.
Arguments h_name {T} h.
Arguments h_ref {T} h.
Arguments h_root {T} h.
Arguments h_subs {T} h.
Arguments h_nodes {T} h.
Arguments h_edges {T} h.

(** all objects: cells are never freed *)
Record world (T D : Type) : Type := World {
  w_dicts : list (dict D);
  w_infos : list info;
  w_lists : list (list nat);
  w_mgrs : list (hmgr T)
}.
Arguments World {T D} w_dicts w_infos w_lists w_mgrs.
Arguments w_dicts {T D} w.
Arguments w_infos {T D} w.
Arguments w_lists {T D} w.
Arguments w_mgrs {T D} w.

(** change of one element of a list *)
Fixpoint upd {A : Type} (n : nat) (x : A) (l : list A) : list A :=
  match l, n with
  | [], _ => []
  | _ :: r, O => x :: r
  | y :: r, S m => y :: upd m x r
  end.

Section Heap.
  Context {T D : Type} {ops : LcsOps T}.
  Notation wld := (world T D).

  Definition dict_at (w : wld) (a : nat) : dict D := nth a (w_dicts w) [].
  Definition list_at (w : wld) (a : nat) : list nat := nth a (w_lists w) [].
  Definition infos_at (w : wld) (l : list nat) : list info :=
    flat_map (fun a => match nth_error (w_infos w) a with Some x => [x] | None => [] end) l.

  Definition set_dict (a : nat) (d : dict D) (w : wld) : wld :=
    World (upd a d (w_dicts w)) (w_infos w) (w_lists w) (w_mgrs w).
  Definition set_info (a : nat) (x : info) (w : wld) : wld :=
    World (w_dicts w) (upd a x (w_infos w)) (w_lists w) (w_mgrs w).
  Definition set_list (a : nat) (l : list nat) (w : wld) : wld :=
    World (w_dicts w) (w_infos w) (upd a l (w_lists w)) (w_mgrs w).
  Definition set_mgr (i : nat) (m : hmgr T) (w : wld) : wld :=
    World (w_dicts w) (w_infos w) (w_lists w) (upd i m (w_mgrs w)).
  (** new objects get the next free address *)
  Definition new_dict (d : dict D) (w : wld) : wld :=
    World (w_dicts w ++ [d]) (w_infos w) (w_lists w) (w_mgrs w).
  Definition new_info (x : info) (w : wld) : wld :=
    World (w_dicts w) (w_infos w ++ [x]) (w_lists w) (w_mgrs w).
  Definition new_list (l : list nat) (w : wld) : wld :=
    World (w_dicts w) (w_infos w) (w_lists w ++ [l]) (w_mgrs w).
  Definition new_mgr (m : hmgr T) (w : wld) : wld :=
    World (w_dicts w) (w_infos w) (w_lists w) (w_mgrs w ++ [m]).

  (** what can be seen of a record, up to a depth of nesting *)
  Fixpoint see_info (depth : nat) (w : wld) (x : info) : subinfo :=
    Sub (i_name x) (i_root x) (i_common x) (i_ref x) (i_members x) (i_data x)
        (match depth with
         | O => []
         | S n => map (see_info n w) (infos_at w (list_at w (i_subs x)))
         end).
  (** what can be seen of a manager *)
  Definition see (depth : nat) (w : wld) (m : hmgr T) : csm T D :=
    Csm (h_name m) (h_ref m) (h_root m)
        (map (see_info depth w) (infos_at w (list_at w (h_subs m))))
        (map (fun na => (fst na, dict_at w (snd na))) (h_nodes m))
        (h_edges m).
  (** enough for all functions of a manager: they do not look into nested records *)
  Definition view (w : wld) (m : hmgr T) : csm T D := see 0 w m.

  Definition with_nodes (ns : dict nat) (es : list (edge T)) (m : hmgr T) : hmgr T :=
    Hm (h_name m) (h_ref m) (h_root m) (h_subs m) ns es.
  Definition with_subs (l : nat) (m : hmgr T) : hmgr T :=
    Hm (h_name m) (h_ref m) (h_root m) l (h_nodes m) (h_edges m).

  (** [__init__], 97-133 *)
  Definition h_new (root name : string) (ref : option Z) (w : wld) : wld :=
    let a := List.length (w_dicts w) in
    let l := List.length (w_lists w) in
    new_mgr (Hm name ref root l [(root, a)] []) (new_list [] (new_dict [] w)).

  (** [add_cs], 438-552 *)
  Definition h_add_cs (w : wld) (i : nat) (m : hmgr T) (name ref : string) (t : T)
             (child_in_parent : bool) : wld * res unit :=
    let c := view w m in
    let es := if child_in_parent then put_edges name ref t (h_edges m)
              else put_edges ref name t (h_edges m) in
    if add_ref_conflict c t then (w, Err WeldxException)
    else if has_cs c name then
      match is_neighbor_of c name ref with
      | Err e => (w, Err e)
      | Ok false => (w, Err ValueError)
      | Ok true => (set_mgr i (with_nodes (h_nodes m) es m) w, Ok tt)
      end
    else if has_cs c ref then
      let a := List.length (w_dicts w) in
      (set_mgr i (with_nodes (dset name a (h_nodes m)) es m) (new_dict [] w), Ok tt)
    else (w, Err ValueError).

  (** [delete_cs], 846-899. The list [_subsystems] is a new one, with the same
      records. *)
  Definition h_delete_cs (w : wld) (i : nat) (m : hmgr T) (x : string) (delete_children : bool)
    : wld * res unit :=
    let c := view w m in
    if negb (has_cs c x) then (w, Ok tt)
    else if String.eqb x (h_root m) then (w, Err ValueError)
    else match get_all_children c x with
         | Err e => (w, Err e)
         | Ok children =>
             if negb delete_children && Nat.ltb 0 (List.length children)
             then (w, Err WeldxException)
             else match dropped_subs c x (c_subs c) with
                  | Err e => (w, Err e)
                  | Ok drop =>
                      let kept := filter (fun a => match nth_error (w_infos w) a with
                                                   | Some y => negb (smem (i_name y) drop)
                                                   | None => false
                                                   end) (list_at w (h_subs m)) in
                      let l := List.length (w_lists w) in
                      let (c1, r) := remove_nodes ((if delete_children then children else []) ++ [x]) c in
                      let ns := filter (fun na => has_cs c1 (fst na)) (h_nodes m) in
                      (set_mgr i (with_subs l (with_nodes ns (c_edges c1) m)) (new_list kept w), r)
                  end
         end.

  (** [assign_data], 577-630: the dictionary of the node is changed *)
  Definition h_assign (transform : D -> string -> string -> res D)
             (w : wld) (m : hmgr T) (v : D) (k ref : string) (target : option string)
    : wld * res unit :=
    let c := view w m in
    if smem k (data_names c) then (w, Err ValueError)
    else if negb (has_cs c ref) then (w, Err ValueError)
    else
      let place (n : string) (v : D) :=
        match dget n (h_nodes m) with
        | None => (w, Err KeyError)
        | Some a => (set_dict a (dset k v (dict_at w a)) w, Ok tt)
        end in
      match target with
      | None => place ref v
      | Some tg =>
          if negb (has_cs c tg) then (w, Err ValueError)
          else match transform v ref tg with
               | Err e => (w, Err e)
               | Ok v' => place tg v'
               end
      end.

  (** lines 646-647: the records of the list are changed *)
  Definition discard_data (k : string) (w : wld) (l : list nat) : wld :=
    fold_left (fun w a => match nth_error (w_infos w) a with
                          | Some x => set_info a (Info (i_name x) (i_root x) (i_common x) (i_ref x) (i_members x)
                                        (filter (fun n => negb (String.eqb k n)) (i_data x)) (i_subs x)) w
                          | None => w
                          end) l w.
  (** lines 649-654 *)
  Fixpoint holder (w : wld) (k : string) (ns : dict nat) : option nat :=
    match ns with
    | [] => None
    | (_, a) :: r => if dmem k (dict_at w a) then Some a else holder w k r
    end.
  (** [delete_data], 632-656 *)
  Definition h_delete_data (w : wld) (m : hmgr T) (k : string) : wld * res unit :=
    let w1 := discard_data k w (list_at w (h_subs m)) in
    match holder w1 k (h_nodes m) with
    | Some a => (set_dict a (ddel k (dict_at w1 a)) w1, Ok tt)
    | None => (w1, Err ValueError)
    end.

  (** [networkx.compose] on nodes: the attribute ["data"] of the second graph wins *)
  Definition compose_cells (g h : dict nat) : dict nat :=
    fold_left (fun acc nd => dset (fst nd) (snd nd) acc) h g.

  (** [merge], 1825-1891: a new dictionary at the common system, the cells of the
      other manager at its other systems; the new record refers to the list of the
      other manager and is appended in place *)
  Definition h_merge (w : wld) (i : nat) (m o : hmgr T) : wld * res unit :=
    let c := view w m in
    let oc := view w o in
    if merge_ref_conflict c oc then (w, Err ValueError)
    else match filter (fun n => has_cs oc n) (cs_names c) with
         | [n] =>
             if existsb (fun k => smem k (data_names c)) (data_names oc)
             then (w, Err NameError)
             else match dget n (h_nodes m), dget n (h_nodes o) with
                  | Some a, Some b =>
                      let d := List.length (w_dicts w) in
                      let s := List.length (w_infos w) in
                      let x := Info (h_name o) (h_root o) n (h_ref o) (cs_names oc) (data_names oc) (h_subs o) in
                      let m' := with_nodes (dset n d (compose_cells (h_nodes m) (h_nodes o)))
                                           (compose_edges (h_edges m) (h_edges o)) m in
                      let w1 := new_info x (new_dict (dict_join (dict_at w a) (dict_at w b)) w) in
                      (set_list (h_subs m) (list_at w (h_subs m) ++ [s]) (set_mgr i m' w1), Ok tt)
                  | _, _ => (w, Err KeyError)
                  end
         | _ => (w, Err ValueError)
         end.

  (** one round of the loop in [subsystems], 1984-1998: a new dictionary at the common
      system, the cells of the manager at the others, the list of the record *)
  Definition h_extract (w : wld) (m : hmgr T) (x : info) : wld * res unit :=
    let ns := filter (fun na => smem (fst na) (i_members x)) (h_nodes m) in
    let es := filter (fun e => smem (e_src e) (i_members x) && smem (e_dst e) (i_members x)) (h_edges m) in
    match dget (i_common x) ns with
    | Some a =>
        let d := filter (fun kv => smem (fst kv) (i_data x)) (dict_at w a) in
        let b := List.length (w_dicts w) in
        (new_mgr (Hm (i_name x) (i_ref x) (i_root x) (i_subs x) (dset (i_common x) b ns) es) (new_dict d w), Ok tt)
    | None => (w, Err KeyError)
    end.
  Fixpoint h_extract_all (w : wld) (m : hmgr T) (l : list info) : wld * res unit :=
    match l with
    | [] => (w, Ok tt)
    | x :: r => match h_extract w m x with
                | (w1, Ok _) => h_extract_all w1 m r
                | (w1, Err e) => (w1, Err e)
                end
    end.
  (** [subsystems], 1974-2000; the new managers are appended to the world *)
  Definition h_subsystems (w : wld) (m : hmgr T) : wld * res unit :=
    h_extract_all w m (infos_at w (list_at w (h_subs m))).

  (** the first loop of [remove_subsystems], 1895-1904: new dictionaries at the common
      systems *)
  Fixpoint h_strip (w : wld) (i : nat) (m : hmgr T) (l : list info) : wld * hmgr T * res (list string) :=
    match l with
    | [] => (w, m, Ok [])
    | x :: r =>
        match dget (i_common x) (h_nodes m) with
        | None => (w, m, Err NetworkXError)
        | Some a =>
            let nb := filter (fun n => smem n (i_members x)) (nbs (h_edges m) (i_common x)) in
            let d := filter (fun kv => negb (smem (fst kv) (i_data x))) (dict_at w a) in
            let m1 := with_nodes (dset (i_common x) (List.length (w_dicts w)) (h_nodes m)) (h_edges m) m in
            match h_strip (set_mgr i m1 (new_dict d w)) i m1 r with
            | (w2, m2, Ok q) => (w2, m2, Ok (nb ++ q))
            | (w2, m2, Err e) => (w2, m2, Err e)
            end
        end
    end.
  (** the second loop, 1907-1908 *)
  Fixpoint h_delete_all (w : wld) (i : nat) (l : list string) : wld * res unit :=
    match l with
    | [] => (w, Ok tt)
    | n :: r => match nth_error (w_mgrs w) i with
                | None => (w, Err IndexError)
                | Some m => match h_delete_cs w i m n true with
                            | (w1, Ok _) => h_delete_all w1 i r
                            | (w1, Err e) => (w1, Err e)
                            end
                end
    end.
  (** [remove_subsystems], 1893-1908: [_subsystems] is a new list *)
  Definition h_remove_subs (w : wld) (i : nat) (m : hmgr T) : wld * res unit :=
    match h_strip w i m (infos_at w (list_at w (h_subs m))) with
    | (w1, _, Err e) => (w1, Err e)
    | (w1, m1, Ok del) =>
        h_delete_all (set_mgr i (with_subs (List.length (w_lists w1)) m1) (new_list [] w1)) i del
    end.

  (** operations of a program on its managers; managers are numbered in the order of
      their creation *)
  Inductive wop : Type :=
  | WNew (root name : string) (ref : option Z)
  | WAdd (i : nat) (name ref : string) (t : T) (child_in_parent : bool)
  | WDeleteCs (i : nat) (x : string) (delete_children : bool)
  | WAssign (i : nat) (transform : D -> string -> string -> res D) (v : D) (k ref : string) (target : option string)
  | WDeleteData (i : nat) (k : string)
  | WMerge (i j : nat)
  | WSubsystems (i : nat)
  | WRemoveSubs (i : nat).

  Definition with_mgr (w : wld) (i : nat) (f : hmgr T -> wld * res unit) : wld * res unit :=
    match nth_error (w_mgrs w) i with
    | None => (w, Err IndexError)
    | Some m => f m
    end.
  Definition run_wop (w : wld) (o : wop) : wld * res unit :=
    match o with
    | WNew root name ref => (h_new root name ref w, Ok tt)
    | WAdd i n r t b => with_mgr w i (fun m => h_add_cs w i m n r t b)
    | WDeleteCs i x b => with_mgr w i (fun m => h_delete_cs w i m x b)
    | WAssign i f v k r tg => with_mgr w i (fun m => h_assign f w m v k r tg)
    | WDeleteData i k => with_mgr w i (fun m => h_delete_data w m k)
    | WMerge i j => with_mgr w i (fun m => with_mgr w j (fun o => h_merge w i m o))
    | WSubsystems i => with_mgr w i (fun m => h_subsystems w m)
    | WRemoveSubs i => with_mgr w i (fun m => h_remove_subs w i m)
    end.
  Definition run_wops (w : wld) (l : list wop) : wld :=
    fold_left (fun w o => fst (run_wop w o)) l w.

  (** [SubsystemInfo.to_yaml_tree], 64-74, calls itself for the nested records *)
  Fixpoint info_to_tree (fuel : nat) (w : wld) (x : info) : res subinfo :=
    match fuel with
    | O => Err OutOfFuel
    | S f => bind ((fix all (l : list info) : res (list subinfo) :=
                      match l with
                      | [] => Ok []
                      | y :: r => bind (info_to_tree f w y) (fun a => bind (all r) (fun q => Ok (a :: q)))
                      end) (infos_at w (list_at w (i_subs x))))
                  (fun q => Ok (Sub (i_name x) (i_root x) (i_common x) (i_ref x) (i_members x) (i_data x) q))
    end.
End Heap.
Arguments wop : clear implicits.
