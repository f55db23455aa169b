(** What the evaluation of a two dimensional series has to compute. *)
From Coq Require Import List ZArith Reals.
From Verif Require Import Base InterpModel InterpSpec LinModel SeriesModel.
Import ListNotations.

Fixpoint increasing (l : list Z) : Prop :=
  match l with
  | a :: ((b :: _) as r) => (a < b)%Z /\ increasing r
  | _ => True
  end.

(** an array with its coordinates: axes are not empty and increase, one row for
    each coordinate of the first axis, one value for each one of the second *)
Definition wf (g : gseries) : Prop :=
  gs_us g <> [] /\ gs_vs g <> [] /\ increasing (gs_us g) /\ increasing (gs_vs g) /\
  List.length (gs_rows g) = List.length (gs_us g) /\
  Forall (fun row => List.length row = List.length (gs_vs g)) (gs_rows g).

(** value of one axis according to a method *)
Definition along {A} (seg : segment A) (m : method) (s : list (Z * A)) (t : Z) (v : A) : Prop :=
  match m with Linear => value_at seg s t v | Step => step_value s t v end.

(** the value of the series at the point [(x, y)]: first along the rows, then in
    the interpolated row *)
Definition value2 (g : gseries) (x y : Z) (v : R) : Prop :=
  exists row, along row_lin (gs_method g) (combine (gs_us g) (gs_rows g)) x row /\
              along lin (gs_method g) (combine (gs_vs g) row) y v.

(** [h] has the coordinates [xs] and [ys] and at each of its points a value given by [P] *)
Definition table (P : Z -> Z -> R -> Prop) (xs ys : list Z) (h : gseries) : Prop :=
  gs_us h = xs /\ gs_vs h = ys /\
  Forall2 (fun x row => Forall2 (fun y v => P x y v) ys row) xs (gs_rows h).
