(** Points and planes, weldx/transformations/util.py 20-38 and 63-133. *)
From Coq Require Import Reals ZArith Bool.
From Verif Require Import Base GeoModel RigidModel.
Open Scope R_scope.

(** [scale_matrix], 20-38 *)
Definition scale_matrix (x y z : R) : mat := M x 0 0 0 y 0 0 0 z.

(** [math.isclose(x, 0)] with the default tolerances 1e-9 (relative) and 0 *)
Definition close_to_zero (x : R) : bool :=
  if Rle_dec (Rabs (x - 0)) (/ 1000000000 * Rmax (Rabs x) (Rabs 0)) then true else false.

(** [orientation_point_plane_containing_origin], 63-102: [det] of the rows a, b, point *)
Definition side_origin (p a b : vec) : res Z :=
  if close_to_zero (norm a) || close_to_zero (norm b) || close_to_zero (norm (vsub b a))
  then Err ValueError
  else Ok (rsign (mdet (mtrans (of_cols a b p)))).
(** [orientation_point_plane], 105-133 *)
Definition side (p a b c : vec) : res Z := side_origin (vsub p a) (vsub b a) (vsub c a).
