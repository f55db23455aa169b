(** What the evaluation of an expression series has to do. *)
From Coq Require Import List String Bool Arith.
From Verif Require Import Base ExprModel.
Import ListNotations.

Section Spec.
  Context {D U T : Type}.
  Implicit Types g : eseries D U T.

  (** every free symbol is either a parameter or a variable with a dimension and a
      unit; no two variables have the same dimension *)
  Definition consistent g : Prop :=
    NoDup (es_free g) /\ NoDup (dkeys (es_params g)) /\ NoDup (dkeys (es_dims g)) /\ NoDup (map snd (es_dims g)) /\
    (forall s, In s (es_free g) <-> In s (dkeys (es_params g)) \/ In s (dkeys (es_dims g))) /\
    (forall s, In s (dkeys (es_params g)) -> ~ In s (dkeys (es_dims g))) /\
    (forall s, In s (dkeys (es_dims g)) <-> In s (dkeys (es_units g))).

  (** the dimensions of the variables *)
  Definition free_dims g : list string := map snd (es_dims g).

  (** coordinates for different dimensions of the series *)
  Definition named g (kw : list (string * coord D)) : Prop :=
    NoDup (map fst kw) /\ incl (map fst kw) (free_dims g).
  (** none of them is a single value *)
  Definition all_axes (kw : list (string * coord D)) : Prop :=
    forall k c, In (k, c) kw -> exists l, c = Many l.

  Definition points (c : coord D) : list D := match c with Single d => [d] | Many l => l end.

  (** the value that the symbol [s] gets: its parameter or the coordinates of its dimension *)
  Definition gets g (kw : list (string * coord D)) (s : string) (v : list string * list D) : Prop :=
    (exists a, dget s (es_params g) = Some a /\ v = (a_dims a, a_vals a)) \/
    (exists d c, In (s, d) (es_dims g) /\ In (d, c) kw /\ v = ([d], points c)).

  (** value and coordinates of a discrete result *)
  Definition is_value (r : res (result D U T)) (v : res T) : Prop :=
    match v with
    | Ok x => exists c, r = Ok (Discrete x c)
    | Err e => r = Err e
    end.
End Spec.
