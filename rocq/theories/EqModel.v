(** Equality of expressions (weldx/core/math_expression.py 70-136), of generic
    series (weldx/core/generic_series.py 244-264), of time series
    (weldx/core/time_series.py 81-105) and of local coordinate systems
    (weldx/transformations/local_cs.py 249-265), with the parameters of an expression
    (math_expression.py 22-51, 138-203, 227-241) and the dispatch of the operator ==
    by python. *)
From Coq Require Import List String Bool Arith ZArith.
From Verif Require Import Base NestedModel.
Import ListNotations.
Open Scope string_scope.

(** A [MathematicalExpression]: [x_expr] stands for the sympy expression, two of them
    are structurally equal if the numbers are; [x_id] is the identity of the dictionary
    of the parameters.  The values of parameters are quantities or arrays ([VOther]),
    as they are stored by [set_parameters]: numbers have become quantities, tuples
    arrays, and arrays have units. *)
Record mexpr : Type := Mx { x_expr : nat; x_id : nat; x_params : list (string * val) }.

(** A [GenericSeries]: its class and either an expression with the dimensions and the
    units of the variables or an array with the name of the interpolation.  An array
    stands for everything that [DataArray.identical] compares. *)
Inductive gbody : Type :=
| GExpr (dims : list (string * string)) (units : list (string * nat)) (e : mexpr)
| GDisc (interpolation : string) (array : nat).
Record gseries : Type := Gs { g_class : nat; g_body : gbody }.

(** A [TimeSeries]; an expression comes with the reference time *)
Inductive tseries : Type :=
| TExpr (e : mexpr) (reference : option Z)
| TDisc (array : nat).

(** A [LocalCoordinateSystem]: the array of the orientations, the coordinates and the
    reference time (of the dataset or, for a series, of the system itself) *)
Inductive coords : Type := CArray (array : nat) | CSeries (s : tseries).
Record lcs : Type := Lcs { l_orientation : nat; l_coordinates : coords; l_reference : option Z }.

(** Objects.  [OOther n] has the [__eq__] of [object]; [n] is its identity. *)
Inductive obj : Type :=
| OExpr (e : mexpr)
| OGeneric (g : gseries)
| OTime (s : tseries)
| OLcs (l : lcs)
| OOther (n : nat).

Section Equality.
  (** [int(s)] as in NestedModel.v *)
  Variable parse_int : string -> option nat.
  (** the names of the free symbols of an expression *)
  Variable free : nat -> list string.
  (** [simplify(a - b) == 0] *)
  Variable math_equal : nat -> nat -> bool.
  (** [issubclass(a, b)] of the classes of generic series *)
  Variable sub : nat -> nat -> bool.

  (** *** parameters *)
  (** math_expression.py 151-179: [None] is an argument that is no dictionary.  The
      parameters before the first unknown name are set. *)
  Fixpoint set_loop (e : nat) (ps d : list (string * val)) : list (string * val) * res unit :=
    match ps with
    | [] => (d, Ok tt)
    | (k, v) :: r => if smem k (free e) then set_loop e r (dset k v d) else (d, Err ValueError)
    end.
  Definition set_parameters (x : mexpr) (ps : option (list (string * val))) : mexpr * res unit :=
    match ps with
    | None => (x, Err ValueError)
    | Some l => let p := set_loop (x_expr x) l (x_params x) in (Mx (x_expr x) (x_id x) (fst p), snd p)
    end.

  (** 22-51: without parameters the dictionary is empty *)
  Definition new_expression (e id : nat) (ps : option (list (string * val))) : res mexpr :=
    match ps with
    | None => Ok (Mx e id [])
    | Some l => let p := set_parameters (Mx e id []) (Some l) in bind (snd p) (fun _ => Ok (fst p))
    end.

  (** 193-203 and 227-241 *)
  Definition num_variables (x : mexpr) : nat := List.length (free (x_expr x)) - List.length (x_params x).
  Definition variable_names (x : mexpr) : list string :=
    filter (fun n => negb (smem n (map fst (x_params x)))) (free (x_expr x)).

  (** *** [MathematicalExpression.equals], 92-136 *)
  Definition params_dict (x : mexpr) : val :=
    VCon CDict (x_id x) (map (fun p => (KStr (fst p), snd p)) (x_params x)).
  Definition equals (x : mexpr) (o : obj) (check_parameters structural : bool) : res bool :=
    match o with
    | OExpr y =>
        let equality := if structural then Nat.eqb (x_expr x) (x_expr y) else math_equal (x_expr x) (x_expr y) in
        if check_parameters then
          if equality then compare_nested parse_int (params_dict x) (params_dict y) else Ok false
        else Ok equality
    | _ => Ok false
    end.
  (** 70-88 *)
  Definition expr_eq (x : mexpr) (o : obj) : res bool := equals x o true true.

  (** *** [GenericSeries.__eq__], 244-264; the dictionaries of the dimensions and units
      are objects of their own, their identities do not matter (0) *)
  Definition dims_dict (l : list (string * string)) : val :=
    VCon CDict 0 (map (fun p => (KStr (fst p), VStr (snd p))) l).
  Definition units_dict (l : list (string * nat)) : val :=
    VCon CDict 0 (map (fun p => (KStr (fst p), VOther 2 (snd p))) l).
  Definition generic_eq (a : gseries) (o : obj) : res bool :=
    match o with
    | OGeneric b =>
        if negb (sub (g_class b) (g_class a)) then Ok false
        else
          match g_body a, g_body b with
          | GExpr da ua xa, GExpr db ub xb =>
              bind (compare_nested parse_int (dims_dict da) (dims_dict db)) (fun c =>
              if negb c then Ok false
              else
                bind (compare_nested parse_int (units_dict ua) (units_dict ub)) (fun c =>
                if negb c then Ok false else expr_eq xa (OExpr xb)))
          | GDisc ia va, GDisc ib vb =>
              if negb (String.eqb ia ib) then Ok false else Ok (Nat.eqb va vb)
          | _, _ => Ok false
          end
    | _ => Ok false
    end.

  (** *** [TimeSeries.__eq__], 81-105 *)
  Definition time_eq (a : tseries) (o : obj) : res bool :=
    match o with
    | OTime b =>
        match a, b with
        | TDisc va, TDisc vb => Ok (Nat.eqb va vb)
        | TDisc _, TExpr _ _ => Ok false
        | TExpr x _, TExpr y _ => expr_eq x (OExpr y)
        | TExpr x _, TDisc _ => Ok false
        end
    | _ => Ok false
    end.

  (** *** [LocalCoordinateSystem.__eq__], 249-265; [None] is NotImplemented *)
  Definition option_eqb (a b : option Z) : bool :=
    match a, b with Some x, Some y => Z.eqb x y | None, None => true | _, _ => false end.
  Definition comp_coords (a b : coords) : res bool :=
    match a, b with
    | CArray va, CArray vb => Ok (Nat.eqb va vb)
    | CSeries s, CSeries t => time_eq s (OTime t)
    | _, _ => Ok false
    end.
  Definition lcs_eq (a : lcs) (o : obj) : option (res bool) :=
    match o with
    | OLcs b =>
        Some (if Nat.eqb (l_orientation a) (l_orientation b)
              then bind (comp_coords (l_coordinates a) (l_coordinates b)) (fun c =>
                   if c then Ok (option_eqb (l_reference a) (l_reference b)) else Ok false)
              else Ok false)
    | _ => None
    end.

  (** *** a == b *)
  (** [a.__eq__(b)] *)
  Definition method (a b : obj) : option (res bool) :=
    match a with
    | OExpr x => Some (expr_eq x b)
    | OGeneric g => Some (generic_eq g b)
    | OTime s => Some (time_eq s b)
    | OLcs l => lcs_eq l b
    | OOther n => match b with OOther m => if Nat.eqb n m then Some (Ok true) else None | _ => None end
    end.
  (** is the class of [b] a proper subclass of the class of [a] ? *)
  Definition proper_subclass (b a : obj) : bool :=
    match a, b with
    | OGeneric g, OGeneric h => (negb (Nat.eqb (g_class g) (g_class h)) && sub (g_class h) (g_class g))%bool
    | _, _ => false
    end.
  (** Python asks the right operand first if its class is a subclass of that of the
      left one, otherwise if the left one returns NotImplemented; in the end the
      identities are compared. *)
  Definition same_object (a b : obj) : bool :=
    match a, b with OOther n, OOther m => Nat.eqb n m | _, _ => false end.
  Definition op_eq (a b : obj) : res bool :=
    let (first, second) := if proper_subclass b a then (method b a, method a b) else (method a b, method b a) in
    match first with
    | Some r => r
    | None => match second with Some r => r | None => Ok (same_object a b) end
    end.
End Equality.
