(** The texts that describe expressions, series, shapes and profiles
    (weldx/core/math_expression.py 53-67, weldx/core/time_series.py 109-124, weldx/core/generic_series.py 434-460,
    weldx/geometry.py 916-919, 1332-1338).

    Simplification: the texts of numbers, arrays, units, expressions and segments are parameters. *)
From Coq Require Import List String Ascii Bool Arith.
From Verif Require Import Base.
Import ListNotations.
Open Scope string_scope.

Definition nl : string := String "010" "".
Definition tab : string := String "009" "".
Definition concat (l : list string) : string := fold_right append "" l.

(** [s.replace(p, "")] for a text [p] that is not empty: occurrences from left to right; [skip] characters of the
    current occurrence are left *)
Fixpoint remove_go (p : string) (skip : nat) (s : string) : string :=
  match s with
  | EmptyString => EmptyString
  | String c r =>
      match skip with
      | S k => remove_go p k r
      | O => if String.prefix p s then remove_go p (String.length p - 1) r
             else String c (remove_go p 0 r)
      end
  end.
Definition remove (p s : string) : string := remove_go p 0 s.

(** math_expression.py 53-67: the text of the expression, and names and texts of the parameters *)
Record expression : Type := Expression { x_text : string; x_parameters : list (string * string) }.
Definition expression_repr (x : expression) : string :=
  "<MathematicalExpression>" ++ nl ++ "Expression:" ++ nl ++ tab ++ x_text x ++ nl ++ "Parameters:" ++ nl ++
  match x_parameters x with
  | [] => tab ++ "None"
  | l => concat (map (fun p => tab ++ fst p ++ " = " ++ snd p ++ nl) l)
  end.

(** time_series.py 109-124: one value, several values or an expression *)
Inductive time_data : Type :=
| TOne (value : string)
| TMany (time values interpolation : string)
| TExpr (x : expression).
Definition time_series_repr (d : time_data) (units : string) : string :=
  "<TimeSeries>" ++
  match d with
  | TOne v => nl ++ "Constant value:" ++ nl ++ tab ++ v ++ nl
  | TMany t v i =>
      nl ++ "Time:" ++ nl ++ tab ++ t ++ nl ++ "Values:" ++ nl ++ tab ++ v ++ nl ++
      "Interpolation:" ++ nl ++ tab ++ i ++ nl
  | TExpr x => remove "<MathematicalExpression>" (expression_repr x)
  end ++ "Units:" ++ nl ++ tab ++ units ++ nl.

(** [s.ljust(n)] *)
Fixpoint spaces (n : nat) : string := match n with O => "" | S k => String " " (spaces k) end.
Definition ljust (n : nat) (s : string) : string := s ++ spaces (n - String.length s).

(** generic_series.py 434-460: values, dimensions and coordinates (name, values, unit), or an expression with the
    units of its variables, its dimensions and the dimension of each symbol; [show] is the text of a list *)
Inductive generic_data : Type :=
| GValues (values dims : string) (coords : list (string * (string * string)))
| GExpr (x : expression) (variables : dict string) (symbol_dims : dict string) (dims : list string).
Definition or_self (k : string) (d : dict string) : string :=
  match dget k d with Some v => v | None => k end.
Definition other_dims (variables symbol_dims : dict string) (dims : list string) : list string :=
  filter (fun v => negb (smem v (map (fun p => or_self (fst p) symbol_dims) variables))) dims.
Definition generic_series_repr (show : list string -> string) (cls : string) (d : generic_data) (units : string)
  : string :=
  "<" ++ cls ++ ">" ++ nl ++
  match d with
  | GValues v ds cs =>
      "Values:" ++ nl ++ tab ++ v ++ nl ++ "Dimensions:" ++ nl ++ tab ++ ds ++ nl ++ "Coordinates:" ++ nl ++
      concat (map (fun p => ljust 7 (tab ++ fst p) ++ " = " ++ fst (snd p) ++ " " ++ snd (snd p) ++ nl) cs)
  | GExpr x vs sd ds =>
      remove ("<MathematicalExpression>" ++ nl) (expression_repr x) ++
      "Free Dimensions:" ++ nl ++ concat (map (fun p => tab ++ fst p ++ " in " ++ snd p ++ nl) vs) ++
      "Other Dimensions:" ++ nl ++ tab ++ show (other_dims vs sd ds) ++ nl
  end ++ "Units:" ++ nl ++ tab ++ units ++ nl.

(** [sep.join(l)] *)
Definition join (sep : string) (l : list string) : string := String.concat sep l.
(** geometry.py 916-919: the texts of the segments *)
Definition shape_str (segments : list string) : string := join nl segments.
(** geometry.py 1332-1338; [number] is the text of a number *)
Fixpoint number_shapes (number : nat -> string) (i : nat) (shapes : list (list string)) : list string :=
  match shapes with
  | [] => []
  | s :: r => ("Shape " ++ number i ++ ":" ++ nl ++ shape_str s) :: number_shapes number (S i) r
  end.
Definition profile_str (number : nat -> string) (shapes : list (list string)) : string :=
  "Profile with " ++ number (List.length shapes) ++ " shape(s)" ++ nl ++
  join (nl ++ nl) (number_shapes number 0 shapes).
