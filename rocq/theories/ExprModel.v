(** Expression based [GenericSeries] (weldx/core/generic_series.py):
    [_evaluate_preprocessor] (499-511), [_evaluate_expr] (513-533) and the parts of
    [MathematicalExpression] they use (weldx/core/math_expression.py):
    [set_parameters] (154-179), [num_variables] (193-203), [get_variable_names]
    (229-242) and [evaluate] (244-273).

    The expression is the list of its free symbols together with the function made
    by [sympy.lambdify], which gets the values of the symbols in this order. It
    computes the data and the dimensions of the result and may raise if lengths or
    units do not fit. The coordinates of the result are the ones of the arguments
    (xarray). Coordinates passed to [evaluate] are quantities, either a single value
    or one dimensional; the classes derived from [GenericSeries] and their
    constraints and preprocessors are not part of this file. *)
From Coq Require Import List String Bool Arith.
From Verif Require Import Base.
Import ListNotations.
Open Scope list_scope.

Section Expr.
  (** values of a quantity, its unit, data with dimensions of a result *)
  Context {D U T : Type}.

  (** an argument of the function: [xarray.DataArray] with dimensions, values and
      coordinates *)
  Record arg : Type := Arg {
    a_dims : list string;
    a_vals : list D;
    a_coords : list (string * list D)
  }.
  Definition value_of (a : arg) : list string * list D := (a_dims a, a_vals a).

  Record eseries : Type := Es {
    es_free : list string;                                 (** [free_symbols] *)
    es_fn : list (list string * list D) -> res T;          (** [function] *)
    es_params : dict arg;                                  (** [_parameters] *)
    es_dims : dict string;                                 (** [_symbol_dims] *)
    es_units : dict U                                      (** [_variable_units] *)
  }.

  (** a quantity passed as coordinate *)
  Inductive coord : Type :=
  | Single (d : D)
  | Many (l : list D).

  Inductive result : Type :=
  | Discrete (v : T) (coords : list (string * list D))
  | Expression (g : eseries).

  (** [num_variables], 203 *)
  Definition num_variables (g : eseries) : nat := List.length (es_free g) - List.length (es_params g).
  (** [get_variable_names], 238-242 *)
  Definition variable_names (g : eseries) : list string :=
    filter (fun s => negb (dmem s (es_params g))) (es_free g).

  (** [self._symbol_dims.inverse.get(k, k)], 507 *)
  Fixpoint inverse_get (k : string) (d : dict string) : string :=
    match d with
    | [] => k
    | (s, k') :: r => if String.eqb k k' then s else inverse_get k r
    end.

  (** [SeriesParameter.data_array], 862-870, with [assign_coords] (518-520): a single
      value gets a dimension *)
  Definition coord_arg (dim : string) (c : coord) : arg :=
    let l := match c with Single d => [d] | Many l => l end in Arg [dim] l [(dim, l)].

  (** lines 516-522 *)
  Fixpoint eval_args (g : eseries) (kw : list (string * coord)) (acc : dict arg) : dict arg :=
    match kw with
    | [] => acc
    | (k, c) :: r => eval_args g r (dset (inverse_get k (es_dims g)) (coord_arg k c) acc)
    end.

  (** calling the function with keyword arguments: every symbol needs a value *)
  Fixpoint positional (free : list string) (vars params : dict arg) : res (list arg) :=
    match free with
    | [] => Ok []
    | s :: r =>
        match dget s vars, dget s params with
        | Some a, _ => bind (positional r vars params) (fun l => Ok (a :: l))
        | None, Some a => bind (positional r vars params) (fun l => Ok (a :: l))
        | None, None => Err TypeError
        end
    end.

  (** [MathematicalExpression.evaluate], 258-273 *)
  Definition evaluate_math (g : eseries) (vars : dict arg) : res (T * list (string * list D)) :=
    if existsb (fun p => dmem (fst p) (es_params g)) vars then Err ValueError
    else if negb (forallb (fun p => smem (fst p) (es_free g)) vars) then Err TypeError
    else bind (positional (es_free g) vars (es_params g)) (fun args =>
         bind (es_fn g (map value_of args)) (fun v => Ok (v, flat_map a_coords args))).

  (** lines 526-532 for one coordinate: [set_parameter] with a tuple (168-179),
      [xr.DataArray(value, dims=dim)] raises if the value has no dimension. The
      symbols have been looked up in [self] before the loop (503-511). *)
  Definition set_coord_of (self g : eseries) (k : string) (c : coord) : res eseries :=
    let s := inverse_get k (es_dims self) in
    if negb (smem s (es_free g)) then Err ValueError
    else match c with
         | Single _ => Err ValueError
         | Many l =>
             if negb (dmem s (es_dims g)) then Err KeyError
             else if negb (dmem s (es_units g)) then Err KeyError
             else Ok (Es (es_free g) (es_fn g) (dset s (Arg [k] l []) (es_params g))
                         (ddel s (es_dims g)) (ddel s (es_units g)))
         end.
  Fixpoint set_coords (self g : eseries) (kw : list (string * coord)) : res eseries :=
    match kw with
    | [] => Ok g
    | (k, c) :: r => bind (set_coord_of self g k c) (fun g' => set_coords self g' r)
    end.

  (** [evaluate] (462-497) of an expression: [_evaluate_expr], 513-533 *)
  Definition evaluate_expr (g : eseries) (kw : list (string * coord)) : res result :=
    if Nat.eqb (List.length kw) (num_variables g)
    then bind (evaluate_math g (eval_args g kw [])) (fun p => Ok (Discrete (fst p) (snd p)))
    else bind (set_coords g g kw) (fun g' => Ok (Expression g')).

  (** several evaluations one after another *)
  Fixpoint evaluate_all (g : eseries) (l : list (list (string * coord))) : res result :=
    match l with
    | [] => Ok (Expression g)
    | kw :: r => bind (evaluate_expr g kw) (fun x =>
                 match x with
                 | Expression g' => evaluate_all g' r
                 | Discrete v c => match r with [] => Ok x | _ => Err KeyError end
                 end)
    end.
End Expr.
Arguments arg : clear implicits.
Arguments coord : clear implicits.
Arguments eseries : clear implicits.
Arguments result : clear implicits.
