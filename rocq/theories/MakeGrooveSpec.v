(* Vocabulary of the statements about the creation of grooves. *)
From Coq Require Import List String Bool ZArith.
From Verif Require Import Base MakeGrooveModel.
Import ListNotations.
Open Scope string_scope.

(* What counts as a quantity: quantities, numbers (without dimension) and text
   that the unit parser can read. *)
Inductive is_quantity (parse : string -> res (dim * Z)) : value -> dim -> Z -> Prop :=
| q_quantity d m : is_quantity parse (VQ d m) d m
| q_number m : is_quantity parse (VNum m) Dimensionless m
| q_text s d m : parse s = Ok (d, m) -> is_quantity parse (VText s) d m.

(* The values of the fields for positional and named arguments *)
Inductive bound (kw : dict value) : list fld -> list value -> list value -> Prop :=
| b_none : bound kw [] [] []
| b_position f r v a vs : dget (f_name f) kw = None -> bound kw r a vs ->
    bound kw (f :: r) (v :: a) (v :: vs)
| b_named f r v vs : dget (f_name f) kw = Some v -> bound kw r [] vs ->
    bound kw (f :: r) [] (v :: vs)
| b_default f r v vs : dget (f_name f) kw = None -> f_default f = Some v -> bound kw r [] vs ->
    bound kw (f :: r) [] (v :: vs).

(* All values have the dimensions that are demanded *)
Definition fits (parse : string -> res (dim * Z)) (dims : list (option dim)) (vs : list value) : Prop :=
  forall i d v, nth_error dims i = Some (Some d) -> nth_error vs i = Some v ->
    exists m, is_quantity parse v d m.

(* The dimensions by the names of ISO 9692-1 *)
Definition lengths : list string := ["t"; "t_1"; "t_2"; "b"; "c"; "h"; "h1"; "h2"; "R"; "R2"; "e"].
Definition angles : list string := ["alpha"; "alpha_1"; "alpha_2"; "beta"; "beta_1"; "beta_2"].

(* The parameters of get_groove *)
Definition parameters : list string :=
  ["workpiece_thickness"; "workpiece_thickness2"; "root_gap"; "root_face"; "root_face2"; "root_face3";
   "bevel_radius"; "bevel_radius2"; "bevel_angle"; "bevel_angle2"; "groove_angle"; "groove_angle2";
   "special_depth"; "code_number"].
