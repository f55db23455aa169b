(** Measurement chains, weldx/measurement.py.

    Simplifications: a [MathematicalExpression] is the number of its variables and the
    unit of its value for an input with the magnitude 1 and a given unit ([None]: the
    evaluation raises an exception); units are an arbitrary type with multiplication,
    division and a compatibility test; errors, equipment, shapes and meta data are
    left out. Python objects that can be shared are addresses: the [Signal] instances
    and the [DiGraph] instances live in a world. *)
From Coq Require Import List String Ascii Bool Arith.
From Verif Require Import Base.
Import ListNotations.
Open Scope string_scope.
Open Scope list_scope.

Inductive sigtype : Type := Analog | Digital.
Definition sigtype_eqb (a b : sigtype) : bool :=
  match a, b with Analog, Analog | Digital, Digital => true | _, _ => false end.

Record unit_ops (U : Type) : Type := UOps {
  u_mul : U -> U -> U;
  u_div : U -> U -> U;
  u_compat : U -> U -> bool
}.
Arguments u_mul {U}. Arguments u_div {U}. Arguments u_compat {U}.

Section Meas.
  Context {U D : Type} (uo : unit_ops U).

  Record signal : Type := Sig { s_type : sigtype; s_unit : U; s_data : option D }.
  Record func : Type := Func { f_vars : nat; f_unit : U -> option U }.
  Record transf : Type := Tf { t_name : string; t_func : option func; t_type : option (sigtype * sigtype) }.
  (** [SignalSource]: the name and the address of the output signal *)
  Record source : Type := Src { src_name : string; src_sig : nat }.

  Record graph : Type := G { g_nodes : list (string * nat); g_edges : list (string * string * transf) }.
  Record world : Type := W { w_sigs : list signal; w_graphs : list graph }.
  Record chain : Type := Ch { c_src : source; c_graph : nat; c_prev : option string }.

  Fixpoint upd {A : Type} (n : nat) (x : A) (l : list A) : list A :=
    match l, n with
    | [], _ => []
    | _ :: r, O => x :: r
    | a :: r, S n => a :: upd n x r
    end.

  Definition graph_at (w : world) (c : chain) : graph := nth (c_graph c) (w_graphs w) (G [] []).
  Definition has_node (g : graph) (n : string) : bool := dmem n (g_nodes g).
  Definition node_signal (w : world) (g : graph) (n : string) : res signal :=
    match dget n (g_nodes g) with
    | None => Err KeyError
    | Some r => match nth_error (w_sigs w) r with Some s => Ok s | None => Err KeyError end
    end.

  (** [SignalTransformation.__post_init__], 99-119; the type is given by its two letters *)
  Definition mk_type (a b : ascii) : res (sigtype * sigtype) :=
    let f c := if Ascii.eqb c "A" || Ascii.eqb c "a" then Some Analog
               else if Ascii.eqb c "D" || Ascii.eqb c "d" then Some Digital else None in
    match f a, f b with Some x, Some y => Ok (x, y) | _, _ => Err ValueError end.
  Definition mk_transf (name : string) (fn : option func) (ty : option (ascii * ascii)) : res transf :=
    bind (match ty with None => Ok None | Some (a, b) => bind (mk_type a b) (fun t => Ok (Some t)) end) (fun t =>
      match fn, t with
      | None, None => Err ValueError
      | Some f, _ => if Nat.eqb (f_vars f) 1 then Ok (Tf name fn t) else Err ValueError
      | None, _ => Ok (Tf name fn t)
      end).

  (** [_determine_output_signal_type], 491-519 *)
  Definition output_type (t : option (sigtype * sigtype)) (i : sigtype) : res sigtype :=
    match t with
    | Some (a, b) => if sigtype_eqb i a then Ok b else Err ValueError
    | None => Ok i
    end.
  (** [_determine_output_signal_unit], 521-556 *)
  Definition output_unit (f : option func) (u : U) : res U :=
    match f with
    | Some f => if Nat.eqb (f_vars f) 1
                then match f_unit f u with Some v => Ok v | None => Err ValueError end
                else Err ValueError
    | None => Ok u
    end.
  (** [_determine_output_signal], 456-489 *)
  Definition output_signal (t : transf) (s : signal) (data : option D) : res signal :=
    bind (output_type (t_type t) (s_type s)) (fun ty =>
    bind (output_unit (t_func t) (s_unit s)) (fun u => Ok (Sig ty u data))).

  (** [_check_and_get_node_name], 445-454; an address is never missing, [KeyError] stands for the
      look-up of [None] in the graph *)
  Definition node_name (w : world) (c : chain) (n : option string) : res string :=
    match n with
    | None => match c_prev c with Some p => Ok p | None => Err KeyError end
    | Some n => if has_node (graph_at w c) n then Ok n else Err KeyError
    end.

  (** [__init__] without data, 261-268: a new graph with the signal of the source *)
  Definition new_chain (w : world) (src : source) : world * chain :=
    (W (w_sigs w) (w_graphs w ++ [G [(src_name src, src_sig src)] []]),
     Ch src (List.length (w_graphs w)) (Some (src_name src))).

  (** [add_signal_data], 579-595, with [_raise_if_data_exist], 558-565 *)
  Definition add_signal_data (w : world) (c : chain) (data : D) (n : option string) : world * chain * res unit :=
    match node_name w c n with
    | Err e => (w, c, Err e)
    | Ok n =>
        match node_signal w (graph_at w c) n with
        | Err e => (w, c, Err e)
        | Ok s =>
            match s_data s with
            | Some _ => (w, c, Err KeyError)
            | None =>
                match dget n (g_nodes (graph_at w c)) with
                | None => (w, c, Err KeyError)
                | Some r => (W (upd r (Sig (s_type s) (s_unit s) (Some data)) (w_sigs w)) (w_graphs w), c, Ok tt)
                end
            end
        end
    end.

  (** [_add_signal], 424-443: the new signal object is stored in the graph *)
  Definition add_signal (w : world) (c : chain) (n : string) (s : signal) : world * chain * res unit :=
    let g := graph_at w c in
    if has_node g n then (w, c, Err KeyError)
    else (W (w_sigs w ++ [s]) (upd (c_graph c) (G (g_nodes g ++ [(n, List.length (w_sigs w))]) (g_edges g)) (w_graphs w)),
          Ch (c_src c) (c_graph c) (Some n), Ok tt).
  Definition add_edge (w : world) (c : chain) (u v : string) (t : transf) : world :=
    let g := graph_at w c in
    W (w_sigs w) (upd (c_graph c) (G (g_nodes g) (g_edges g ++ [(u, v, t)])) (w_graphs w)).

  (** [add_transformation], 653-666 *)
  Definition add_transformation (w : world) (c : chain) (t : transf) (data : option D) (n : option string)
    : world * chain * res unit :=
    match node_name w c n with
    | Err e => (w, c, Err e)
    | Ok i =>
        match node_signal w (graph_at w c) i with
        | Err e => (w, c, Err e)
        | Ok s =>
            match output_signal t s data with
            | Err e => (w, c, Err e)
            | Ok o =>
                let '(w1, c1, r) := add_signal w c (t_name t) o in
                match r with
                | Err e => (w1, c1, Err e)
                | Ok _ => (add_edge w1 c1 i (t_name t) t, c1, Ok tt)
                end
            end
        end
    end.

  Definition type_letter (t : sigtype) : ascii := match t with Analog => "a" | Digital => "d" end.
  Definition type_name (t : sigtype) : string := match t with Analog => "analog" | Digital => "digital" end.
  Definition first_letter (s : string) : res ascii :=
    match s with EmptyString => Err IndexError | String a _ => Ok a end.
  (** ["a*x"] with the parameter [1 unit]: 846-850 *)
  Definition conversion (u : U) : func := Func 1 (fun x => Some (u_mul uo u x)).

  (** [create_transformation], 824-855 *)
  Definition create_transformation (w : world) (c : chain) (name : string) (otype : option string)
             (ounit : option U) (fn : option func) (data : option D) (n : option string) : world * chain * res unit :=
    match node_name w c n with
    | Err e => (w, c, Err e)
    | Ok i =>
        match node_signal w (graph_at w c) i with
        | Err e => (w, c, Err e)
        | Ok s =>
            let r := bind (first_letter (match otype with Some t => t | None => type_name (s_type s) end)) (fun b =>
                     bind (match ounit, fn with
                           | Some u, Some f => bind (output_unit fn (s_unit s)) (fun v =>
                                                 if u_compat uo u v then Ok fn else Err ValueError)
                           | Some u, None => Ok (Some (conversion (u_div uo u (s_unit s))))
                           | None, _ => Ok fn
                           end) (fun fn => mk_transf name fn (Some (type_letter (s_type s), b)))) in
            match r with
            | Err e => (w, c, Err e)
            | Ok t => add_transformation w c t data (Some i)
            end
        end
    end.

  (** the signal, 878-893, and the transformation with a name, 917-936 *)
  Definition get_signal (w : world) (c : chain) (n : string) : res signal := node_signal w (graph_at w c) n.
  Definition get_transformation (w : world) (c : chain) (n : string) : res transf :=
    match find (fun e => String.eqb (snd (fst e)) n) (g_edges (graph_at w c)) with
    | Some e => Ok (snd e)
    | None => Err KeyError
    end.

  Definition is_leaf (g : graph) (n : string) : bool :=
    negb (existsb (fun e => String.eqb (fst (fst e)) n) (g_edges g)).
  (** [from_dict(to_dict(c))], 287-304, 1050-1064: the graph is the same object *)
  Definition from_dict (w : world) (c : chain) : world * chain :=
    let '(w1, c1) := new_chain w (c_src c) in
    (w1, Ch (c_src c) (c_graph c)
            (match find (is_leaf (graph_at w c)) (map fst (g_nodes (graph_at w c))) with
             | Some n => Some n
             | None => c_prev c1
             end)).

  (** the calls on one chain *)
  Inductive op : Type :=
  | OAdd (t : transf) (data : option D) (n : option string)
  | OCreate (name : string) (otype : option string) (ounit : option U) (fn : option func) (data : option D) (n : option string)
  | OData (data : D) (n : option string).
  Definition run_op (w : world) (c : chain) (o : op) : world * chain * res unit :=
    match o with
    | OAdd t d n => add_transformation w c t d n
    | OCreate m t u f d n => create_transformation w c m t u f d n
    | OData d n => add_signal_data w c d n
    end.
  Fixpoint run (w : world) (c : chain) (l : list op) : world * chain :=
    match l with
    | [] => (w, c)
    | o :: r => let '(w', c', _) := run_op w c o in run w' c' r
    end.
End Meas.
