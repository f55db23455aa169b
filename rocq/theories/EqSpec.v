(** Vocabulary of the statements about equality. *)
From Coq Require Import List String Bool Arith ZArith.
From Verif Require Import Base NestedModel EqModel.
Import ListNotations.

(** the same entries in any order *)
Definition same_entries {V : Type} (l m : list (string * V)) : Prop :=
  forall k v, In (k, v) l <-> In (k, v) m.
Definition names {V : Type} (l : list (string * V)) : list string := map fst l.

(** a value of a parameter: a quantity or an array *)
Definition atomic (v : val) : Prop := exists t c, v = VOther t c.

(** The expressions that can be built: names of symbols are not empty, the symbols are
    different, parameters are symbols of the expression. *)
Definition expr_ok (free : nat -> list string) (x : mexpr) : Prop :=
  NoDup (free (x_expr x)) /\ ~ In ""%string (free (x_expr x)) /\
  NoDup (names (x_params x)) /\ incl (names (x_params x)) (free (x_expr x)) /\
  forall k v, In (k, v) (x_params x) -> atomic v.

(** The variables of an expression are the symbols that are no parameters. *)
Definition variable (free : nat -> list string) (x : mexpr) (n : string) : Prop :=
  In n (free (x_expr x)) /\ ~ In n (names (x_params x)).

(** Series have a dimension and a unit for every variable and at least one variable. *)
Definition generic_ok (free : nat -> list string) (g : gseries) : Prop :=
  match g_body g with
  | GExpr d u x =>
      expr_ok free x /\ NoDup (names d) /\ NoDup (names u) /\ d <> [] /\
      (forall n, In n (names d) <-> variable free x n) /\ (forall n, In n (names u) <-> variable free x n)
  | GDisc _ _ => True
  end.
(** The expression of a time series has one variable. *)
Definition time_ok (free : nat -> list string) (s : tseries) : Prop :=
  match s with
  | TExpr x _ => expr_ok free x /\ List.length (free (x_expr x)) = S (List.length (x_params x))
  | TDisc _ => True
  end.
Definition lcs_ok (free : nat -> list string) (l : lcs) : Prop :=
  match l_coordinates l with CArray _ => True | CSeries s => time_ok free s end.
Definition obj_ok (free : nat -> list string) (o : obj) : Prop :=
  match o with
  | OExpr x => expr_ok free x
  | OGeneric g => generic_ok free g
  | OTime s => time_ok free s
  | OLcs l => lcs_ok free l
  | OOther _ => True
  end.

(** the order of classes *)
Definition classes_ok (sub : nat -> nat -> bool) : Prop :=
  (forall c, sub c c = true) /\ (forall c d, sub c d = true -> sub d c = true -> c = d).

(** what it means that two objects are equal *)
Definition same_expr (x y : mexpr) : Prop := x_expr x = x_expr y /\ same_entries (x_params x) (x_params y).
Definition same_generic (a b : gseries) : Prop :=
  match g_body a, g_body b with
  | GExpr d u x, GExpr d' u' y => same_entries d d' /\ same_entries u u' /\ same_expr x y
  | GDisc i v, GDisc i' v' => i = i' /\ v = v'
  | _, _ => False
  end.
(** the reference times of time series are not compared *)
Definition same_time (a b : tseries) : Prop :=
  match a, b with
  | TExpr x _, TExpr y _ => same_expr x y
  | TDisc v, TDisc w => v = w
  | _, _ => False
  end.
Definition same_lcs (a b : lcs) : Prop :=
  l_orientation a = l_orientation b /\ l_reference a = l_reference b /\
  match l_coordinates a, l_coordinates b with
  | CArray v, CArray w => v = w
  | CSeries s, CSeries t => same_time s t
  | _, _ => False
  end.
