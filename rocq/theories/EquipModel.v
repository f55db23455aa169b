(** Measurement equipment and its use in measurement chains, weldx/measurement.py, on top
    of [MeasModel]. A piece of equipment is a value (name, sources, transformations); the
    signals of its sources are addresses, as there. The attribute "equipment" of the
    edges is kept beside the graphs, one list for each [DiGraph] object: an assignment
    puts an entry in front and the first one counts. Errors (deviations) are left out. *)
From Coq Require Import List String Ascii Bool Arith.
From Verif Require Import Base MeasModel.
Import ListNotations.
Open Scope string_scope.
Open Scope list_scope.

Section Equip.
  Context {U D : Type} (uo : unit_ops U).

  Record equipment : Type := Eq { q_name : string; q_sources : list source; q_transfs : list (@transf U) }.

  (** [len(names) != len(set(names))] *)
  Fixpoint duplicates (l : list string) : bool :=
    match l with
    | [] => false
    | x :: r => existsb (String.eqb x) r || duplicates r
    end.
  (** [MeasurementEquipment.__post_init__], 140-152 *)
  Definition mk_equipment (name : string) (ss : list source) (ts : list (@transf U)) : res equipment :=
    if duplicates (map src_name ss) then Err ValueError
    else if duplicates (map t_name ts) then Err ValueError
    else Ok (Eq name ss ts).
  (** [get_source], 154-171 *)
  Definition get_source (e : equipment) (n : string) : res source :=
    match find (fun s => String.eqb (src_name s) n) (q_sources e) with Some s => Ok s | None => Err KeyError end.
  (** [get_transformation], 185-202 *)
  Definition find_transformation (e : equipment) (n : string) : res (@transf U) :=
    match find (fun t => String.eqb (t_name t) n) (q_transfs e) with Some t => Ok t | None => Err KeyError end.

  (** the choice in [from_equipment], 355-366, and [add_transformation_from_equipment], 737-747 *)
  Definition choose {A : Type} (l : list A) (get : string -> res A) (n : option string) : res A :=
    match l with
    | [] => Err ValueError
    | [x] => Ok x
    | _ => match n with None => Err ValueError | Some n => get n end
    end.

  Record eworld : Type := EW { e_world : @world U D; e_edges : list (list (string * string * equipment)) }.
  Record echain : Type := EC { ec_name : string; ec_chain : @chain; ec_equip : option equipment }.

  (** [MeasurementChain(name, source)], 261-268 *)
  Definition new (w : eworld) (name : string) (src : source) (q : option equipment) : eworld * echain :=
    let '(w1, c) := new_chain (e_world w) src in
    (EW w1 (e_edges w ++ [[]]), EC name c q).
  (** [from_equipment], 306-370 *)
  Definition from_equipment (w : eworld) (name : string) (q : equipment) (n : option string) : res (eworld * echain) :=
    bind (choose (q_sources q) (get_source q) n) (fun s => Ok (new w name s (Some q))).
  (** [from_parameters], 371-422, with [Signal.__post_init__], 42-46 *)
  Definition from_parameters (w : eworld) (name sname type : string) (u : U) (data : option D) : res (eworld * echain) :=
    bind (if String.eqb type "analog" then Ok Analog
          else if String.eqb type "digital" then Ok Digital else Err ValueError) (fun ty =>
    let w1 := W (w_sigs (e_world w) ++ [Sig ty u data]) (w_graphs (e_world w)) in
    Ok (new (EW w1 (e_edges w)) name (Src sname (List.length (w_sigs (e_world w)))) None)).

  Definition edge_is (u v : string) (x : string * string) : bool := String.eqb (fst x) u && String.eqb (snd x) v.

  (** [add_transformation_from_equipment], 737-753 *)
  Definition add_from_equipment (w : eworld) (c : echain) (q : equipment) (data : option D) (n tname : option string)
    : eworld * echain * res unit :=
    match choose (q_transfs q) (find_transformation q) tname with
    | Err e => (w, c, Err e)
    | Ok t =>
        match node_name (e_world w) (ec_chain c) n with
        | Err e => (w, c, Err e)
        | Ok i =>
            let '(w1, c1, r) := add_transformation (e_world w) (ec_chain c) t data (Some i) in
            match r with
            | Err e => (EW w1 (e_edges w), EC (ec_name c) c1 (ec_equip c), Err e)
            | Ok _ =>
                match c_prev c1 with
                | None => (EW w1 (e_edges w), EC (ec_name c) c1 (ec_equip c), Err KeyError)
                | Some p =>
                    if existsb (fun x => edge_is i p (fst x)) (g_edges (graph_at w1 c1))
                    then (EW w1 (upd (c_graph c1) ((i, p, q) :: nth (c_graph c1) (e_edges w) []) (e_edges w)),
                          EC (ec_name c) c1 (ec_equip c), Ok tt)
                    else (EW w1 (e_edges w), EC (ec_name c) c1 (ec_equip c), Err KeyError)
                end
            end
        end
    end.

  (** [get_equipment], 857-876 *)
  Definition get_equipment (w : eworld) (c : echain) (n : string) : res (option equipment) :=
    if String.eqb n (src_name (c_src (ec_chain c))) then Ok (ec_equip c)
    else match find (fun x => String.eqb (snd (fst x)) n) (g_edges (graph_at (e_world w) (ec_chain c))) with
         | None => Err KeyError
         | Some x =>
             Ok (option_map snd (find (fun y => edge_is (fst (fst x)) (snd (fst x)) (fst y))
                                      (nth (c_graph (ec_chain c)) (e_edges w) [])))
         end.
  (** [get_signal_data], 895-915 *)
  Definition get_signal_data (w : eworld) (c : echain) (n : option string) : res D :=
    bind (node_name (e_world w) (ec_chain c) n) (fun n =>
    bind (node_signal (e_world w) (graph_at (e_world w) (ec_chain c)) n) (fun s =>
    match s_data s with Some d => Ok d | None => Err KeyError end)).

  (** the calls on one chain *)
  Inductive eop : Type :=
  | EOp (o : @op U D)
  | EEquip (q : equipment) (data : option D) (n tname : option string).
  Definition run_eop (w : eworld) (c : echain) (o : eop) : eworld * echain * res unit :=
    match o with
    | EOp o => let '(w1, c1, r) := run_op uo (e_world w) (ec_chain c) o in
               (EW w1 (e_edges w), EC (ec_name c) c1 (ec_equip c), r)
    | EEquip q data n tname => add_from_equipment w c q data n tname
    end.

  (** ** [__eq__], 272-282

      [nodes] of a [DiGraph] compare as mappings: names and attributes, here the signals.
      [edges] compare as sets: the pairs of names, without attributes. Signals and
      equipment compare by their content. *)
  Section Equal.
    Context (sig_eqb : @signal U D -> @signal U D -> bool) (equip_eqb : equipment -> equipment -> bool).

    Definition at_eqb (w : @world U D) (r r' : nat) : bool :=
      match nth_error (w_sigs w) r, nth_error (w_sigs w) r' with
      | Some s, Some s' => sig_eqb s s'
      | None, None => true
      | _, _ => false
      end.
    Definition nodes_eqb (w : @world U D) (g g' : @graph U) : bool :=
      Nat.eqb (List.length (g_nodes g)) (List.length (g_nodes g')) &&
      forallb (fun x => match dget (fst x) (g_nodes g') with Some r => at_eqb w (snd x) r | None => false end) (g_nodes g).
    Definition edges_eqb (g g' : @graph U) : bool :=
      Nat.eqb (List.length (g_edges g)) (List.length (g_edges g')) &&
      forallb (fun x => existsb (fun y => edge_is (fst (fst x)) (snd (fst x)) (fst y)) (g_edges g')) (g_edges g).
    Definition chain_eqb (w : eworld) (c d : echain) : bool :=
      String.eqb (ec_name c) (ec_name d) &&
      (String.eqb (src_name (c_src (ec_chain c))) (src_name (c_src (ec_chain d))) &&
       at_eqb (e_world w) (src_sig (c_src (ec_chain c))) (src_sig (c_src (ec_chain d)))) &&
      match ec_equip c, ec_equip d with
      | Some a, Some b => equip_eqb a b
      | None, None => true
      | _, _ => false
      end &&
      nodes_eqb (e_world w) (graph_at (e_world w) (ec_chain c)) (graph_at (e_world w) (ec_chain d)) &&
      edges_eqb (graph_at (e_world w) (ec_chain c)) (graph_at (e_world w) (ec_chain d)).
  End Equal.
End Equip.
