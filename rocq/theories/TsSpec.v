(** The meaning of a time series, independent of the computation. *)
From Coq Require Import List ZArith String.
From Verif Require Import Base TimeModel TimeSpec InterpModel InterpSpec TsModel.
Import ListNotations.
Open Scope Z_scope.

Section Spec.
  Context {A E : Type}.
  Variable seg : string -> segment A.
  Variable ev : E -> Z -> A.

  (** moments of the samples: time stamps with a reference time, else time deltas *)
  Definition moment (ref : option Z) (t : Z) : Z :=
    match ref with None => t | Some r => t + r end.
  Definition moments (d : darr A) : list (Z * A) :=
    combine (map (moment (a_ref d)) (a_times d)) (a_vals d).

  (** The value at a moment. A series with one sample has this value always. A
      series with several samples is defined at moments of its own kind, an
      expression at the time since its reference time. *)
  Definition has_value (s : series A E) (z : Z) (v : A) : Prop :=
    match s_data s with
    | SDisc d m =>
        match a_vals d with
        | [w] => v = w
        | _ => if String.eqb m "step" then step_value (moments d) z v
               else value_at (seg m) (moments d) z v
        end
    | SExpr e r => v = ev e (match r with None => z | Some r => z - r end)
    end.

  (** what the constructor can return for discrete values with pairwise different
      times *)
  Definition discrete (s : series A E) : Prop :=
    match s_data s with
    | SDisc d m => sampled (moments d) /\ List.length (a_times d) = List.length (a_vals d)
                   /\ (In m valid_interpolations)
                   /\ (List.length (a_vals d) = 1%nat -> m = "step"%string)
    | SExpr _ _ => False
    end.

  (** the moments that are meant by a requested time *)
  Definition requested (ref : option Z) (t : time) : list Z :=
    if is_absolute t then vals t else map (moment ref) (vals t).

  (** times that can be requested: both absolute, both relative, or the series is
      constant *)
  Definition can_request (s : series A E) (t : time) : Prop :=
    match s_data s with
    | SDisc d _ => List.length (a_vals d) = 1%nat \/ a_ref d <> None \/ is_absolute t = false
    | SExpr _ _ => True
    end.
End Spec.
