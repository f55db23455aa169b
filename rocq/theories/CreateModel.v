(** Adding and creating coordinate systems of a manager: all arguments of [add_cs] and the methods [create_cs],
    [create_cs_from_euler] and [create_cs_from_axis_vectors] (weldx/transformations/cs_manager.py 438-552,
    658-830). The graph is the one of CsmModel.

    Simplification: what the constructors of [LocalCoordinateSystem] do with their arguments is a parameter. *)
From Coq Require Import List String Bool ZArith.
From Verif Require Import Base CsmModel.
Import ListNotations.

Section Create.
  Context {T D : Type} {ops : LcsOps T}.

  (** the argument [lcs]: a coordinate system or any other object *)
  Inductive arg : Type :=
  | ALcs (t : T)
  | AOther.

  (** lines 479-489: the direction that is used and whether there is a warning *)
  Definition direction (lcs_child_in_parent lsc_child_in_parent : bool) : bool * bool :=
    if negb lsc_child_in_parent
    then ((if lcs_child_in_parent then lsc_child_in_parent else lcs_child_in_parent), true)
    else (lcs_child_in_parent, false).

  (** lines 438-552: the manager and the result, and whether there is a warning *)
  Definition add_cs_args (c : csm T D) (name ref : string) (a : arg) (lcs_child lsc_child : bool)
    : csm T D * res unit * bool :=
    let '(child_in_parent, warns) := direction lcs_child lsc_child in
    match a with
    | AOther => (c, Err TypeError, warns)
    | ALcs t => (add_cs c name ref t child_in_parent, warns)
    end.

  (** arguments of the three methods for the constructors: orientation, coordinates and time; a sequence of axes
      with angles; two or three axes *)
  Context {O A X Y : Type}.
  Variable construct : O -> Y -> res T.
  Variable from_euler : string -> A -> bool -> Y -> res T.
  Variable from_axis_vectors : X -> X -> X -> Y -> res T.

  Definition add_result (c : csm T D) (name ref : string) (r : res T) (lcs_child : bool)
    : csm T D * res unit * bool :=
    match r with
    | Err e => (c, Err e, false)
    | Ok t => add_cs_args c name ref (ALcs t) lcs_child true
    end.

  (** lines 658-701; [y] are coordinates, time and reference time *)
  Definition create_cs (c : csm T D) (name ref : string) (o : O) (y : Y) (lcs_child : bool) :=
    add_result c name ref (construct o y) lcs_child.
  (** lines 703-765 *)
  Definition create_cs_from_euler (c : csm T D) (name ref : string) (s : string) (a : A) (degrees : bool) (y : Y)
      (lcs_child : bool) :=
    add_result c name ref (from_euler s a degrees y) lcs_child.
  (** lines 767-830 *)
  Definition create_cs_from_axis_vectors (c : csm T D) (name ref : string) (x1 x2 x3 : X) (y : Y)
      (lcs_child : bool) :=
    add_result c name ref (from_axis_vectors x1 x2 x3 y) lcs_child.
End Create.
Arguments arg T : clear implicits.
