(** Saving and loading of mathematical expressions.

    Models [MathematicalExpressionConverter] (weldx/tags/core/mathematical_expression.py)
    with the part of [MathematicalExpression.set_parameters] (weldx/core/math_expression.py
    154-182) it uses.

    Parameters are quantities or DataArrays. The quantities and the data of the DataArrays
    (also quantities) are objects, because the converter sets the attribute [wx_metadata]
    on them. Simplifications: the attribute is a dictionary with the key "dims" or one
    without it; [wx_user] is left out; asdf writes the parameters after [to_yaml_tree] is
    done, with their attributes at that time, and restores the attributes of each object.
    If an object is used twice, the file either contains it once or two times ([keep]).
    No proofs in this file. *)
From Coq Require Import List String Bool Arith.
From Verif Require Import Base.
Import ListNotations.
Open Scope string_scope.

Section MathSer.
  (** magnitudes with units, sympy expressions *)
  Context {V Ex : Type}.
  (** number of dimensions of a quantity *)
  Variable ndim : V -> nat.
  (** [str(expression)], [sympy.sympify] and the names of [free_symbols] *)
  Variable show : Ex -> string.
  Variable parse : string -> res Ex.
  Variable free : Ex -> list string.

  Inductive meta : Type := MDims (dims : list string) | MOther.
  Record qobj : Type := Obj { o_val : V; o_meta : option meta }.
  (** A quantity, or a DataArray: dimensions, data and number of coordinates. *)
  Inductive param : Type := PQ (r : nat) | PA (dims : list string) (r : nat) (coords : nat).
  Record expr : Type := Expr { x_expr : Ex; x_params : dict param }.

  (** [setattr(v, META_ATTR, dict(dims=dims))] *)
  Fixpoint set_meta (m : list qobj) (r : nat) (d : option meta) : list qobj :=
    match m, r with
    | [], _ => []
    | o :: m', 0 => Obj (o_val o) d :: m'
    | o :: m', S r' => o :: set_meta m' r' d
    end.

  (** The loop of [to_yaml_tree] (21-31): parameters, memory and number of warnings. *)
  Fixpoint save_params (ps : dict param) (m : list qobj) : dict nat * list qobj * nat :=
    match ps with
    | [] => ([], m, 0)
    | (k, PQ r) :: t => let '(d, m', w) := save_params t m in ((k, r) :: d, m', w)
    | (k, PA dims r c) :: t =>
        let '(d, m', w) := save_params t (set_meta m r (Some (MDims dims))) in
        ((k, r) :: d, m', if Nat.ltb 0 c then S w else w)
    end.
  Record tree : Type := Tree { t_expr : string; t_params : dict nat }.
  (** [to_yaml_tree] (18-33) *)
  Definition save (x : expr) (m : list qobj) : tree * list qobj * nat :=
    let '(d, m', w) := save_params (x_params x) m in (Tree (show (x_expr x)) d, m', w).

  (** Loaded parameters. *)
  Inductive value : Type := LQ (v : V) | LA (dims : list string) (v : V).
  Inductive item : Type := IQuantity (v : V) | ITuple (v : V) (dims : list string).

  (** The loop of [from_yaml_tree] (38-44); [gone]: the objects whose attribute was
      deleted already. *)
  Fixpoint load_params (keep : bool) (gone : list nat) (ps : dict nat) (m : list qobj) : res (dict item) :=
    match ps with
    | [] => Ok []
    | (k, r) :: t =>
        match nth_error m r with
        | None => Err RuntimeError
        | Some o =>
            match (if keep && existsb (Nat.eqb r) gone then None else o_meta o) with
            | None => bind (load_params keep gone t m) (fun d => Ok ((k, IQuantity (o_val o)) :: d))
            | Some MOther => Err KeyError
            | Some (MDims dims) => bind (load_params keep (r :: gone) t m) (fun d => Ok ((k, ITuple (o_val o) dims) :: d))
            end
        end
    end.
  (** [set_parameters] (154-182) for new names *)
  Fixpoint set_parameters (names : list string) (ps : dict item) : res (dict value) :=
    match ps with
    | [] => Ok []
    | (k, i) :: t =>
        if smem k names then
          match i with
          | IQuantity v => bind (set_parameters names t) (fun d => Ok ((k, LQ v) :: d))
          | ITuple v dims =>
              if Nat.eqb (List.length dims) (ndim v)
              then bind (set_parameters names t) (fun d => Ok ((k, LA dims v) :: d)) else Err ValueError
          end
        else Err ValueError
    end.
  (** [from_yaml_tree] (35-48) *)
  Definition load (keep : bool) (t : tree) (m : list qobj) : res (Ex * dict value) :=
    bind (load_params keep [] (t_params t) m) (fun ps =>
    bind (parse (t_expr t)) (fun e =>
    bind (set_parameters (free e) ps) (fun d => Ok (e, d)))).
End MathSer.
Arguments qobj : clear implicits. Arguments expr : clear implicits. Arguments value : clear implicits.
Arguments item : clear implicits.
