(** Inherited documentation and deprecated functions.

    Models [inherit_docstrings] (weldx/util/util.py 137-168) and [deprecated] (40-81).

    Simplifications: classes have a dictionary of attributes and a method resolution order
    (MRO); attributes are objects with a documentation ([__doc__], text or nothing); the
    names given by [dir(cls)] are an argument; metaclasses and instance dictionaries are
    left out.  No proofs in this file. *)
From Coq Require Import List String Bool Arith.
From Verif Require Import Base.
Import ListNotations.
Open Scope string_scope.

(** A class: its own attributes (references to objects) and its MRO, itself first. *)
Record class : Type := Class { own : dict nat; mro : list nat }.

Section Docs.
  Variable classes : list class.
  (** [isfunction(x) or isinstance(x, property)] (153-155) *)
  Variable is_member : nat -> bool.

  Definition own_of (c : nat) : dict nat :=
    match nth_error classes c with Some k => own k | None => [] end.
  Definition mro_of (c : nat) : list nat :=
    match nth_error classes c with Some k => mro k | None => [] end.

  (** [getattr(cls, name)]: the first class of the MRO with the attribute *)
  Fixpoint find (cs : list nat) (name : string) : option nat :=
    match cs with
    | [] => None
    | c :: r => match dget name (own_of c) with Some o => Some o | None => find r name end
    end.
  Definition lookup (c : nat) (name : string) : option nat := find (mro_of c) name.

  (** The documentation of all objects and the names in warnings. *)
  Record state : Type := State { doc : nat -> option string; warned : list string }.

  Definition has_text (d : option string) : bool :=
    match d with Some "" => false | Some _ => true | None => false end.

  Definition set_doc (s : state) (f : nat) (d : option string) : state :=
    State (fun o => if Nat.eqb o f then d else doc s o) (warned s).
  Definition warn (s : state) (name : string) : state := State (doc s) (warned s ++ [name]).

  (** The loop over the parents (158-166), which does not stop. *)
  Fixpoint parents (ps : list nat) (name : string) (f : nat) (s : state) : state :=
    match ps with
    | [] => s
    | p :: r =>
        match lookup p name with
        | None => parents r name f s
        | Some o =>
            let s1 := set_doc s f (doc s o) in
            let s2 := if has_text (doc s1 f) then s1 else warn s1 name in
            parents r name f s2
        end
    end.

  (** The loop over the members (153-157), in the order of [dir(cls)]. *)
  Fixpoint members (c : nat) (names : list string) (s : state) : state :=
    match names with
    | [] => s
    | n :: r =>
        match lookup c n with
        | None => members c r s
        | Some f =>
            if negb (is_member f) || has_text (doc s f) || prefix "_" n
            then members c r s
            else members c r (parents (tl (mro_of c)) n f s)
        end
    end.

  Definition inherit_docstrings (c : nat) (names : list string) (s : state) : state :=
    members c names s.
End Docs.

(** [deprecated] (66-79): the text of the warning; the call itself follows. *)
Definition newline : string := String (Ascii.ascii_of_nat 10) "".
Definition opt_line (head : string) (o : option string) : string :=
  match o with Some t => head ++ t ++ newline | None => "" end.
Definition deprecated_text (since removed message : option string) (name : string) : string :=
  "Call to deprecated function " ++ name ++ "." ++ newline
  ++ opt_line "Deprecated since: " since
  ++ opt_line "Removed in: " removed
  ++ match message with Some t => t | None => "" end.
(** The wrapped function: the warnings and the result of the call. *)
Definition deprecated {A B : Type} (since removed message : option string) (name : string)
    (func : A -> res B) (args : A) : list string * res B :=
  ([deprecated_text since removed message name], func args).

(** [apply_func_by_mapping] (412-414): the functions are applied in the order of the
    inputs, the first exception ends the loop. *)
Fixpoint apply_func_by_mapping {V : Type} (funcs : dict (V -> res V)) (inputs : dict V) : res (dict V) :=
  match inputs with
  | [] => Ok []
  | (k, v) :: r =>
      bind (match dget k funcs with Some f => f v | None => Ok v end) (fun w =>
      bind (apply_func_by_mapping funcs r) (fun d => Ok ((k, w) :: d)))
  end.
