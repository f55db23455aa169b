(** Static part of [LocalCoordinateSystem] (weldx/transformations/local_cs.py)
    over real numbers: an orientation matrix and the coordinates of the origin.
    Numbers are exact reals instead of floats; units are already converted. *)
From Coq Require Import Reals List.
From Verif Require Import Base.
Import ListNotations.
Open Scope R_scope.

(** vectors with the coordinate labels x, y, z (dimension "c") *)
Record vec : Type := V { vx : R; vy : R; vz : R }.
(** 3x3 matrices; row index is "c", column index is "v" *)
Record mat : Type := M {
  m00 : R; m01 : R; m02 : R;
  m10 : R; m11 : R; m12 : R;
  m20 : R; m21 : R; m22 : R
}.

Definition vzero : vec := V 0 0 0.
Definition vadd (a b : vec) : vec := V (vx a + vx b) (vy a + vy b) (vz a + vz b).
Definition vscale (k : R) (a : vec) : vec := V (k * vx a) (k * vy a) (k * vz a).
Definition vsub (a b : vec) : vec := vadd a (vscale (-1) b).
Definition dot (a b : vec) : R := vx a * vx b + vy a * vy b + vz a * vz b.
(** [numpy.cross] *)
Definition cross (a b : vec) : vec :=
  V (vy a * vz b - vz a * vy b) (vz a * vx b - vx a * vz b) (vx a * vy b - vy a * vx b).
(** [numpy.linalg.norm] *)
Definition norm (a : vec) : R := sqrt (dot a a).

(** [numpy.eye(3)] *)
Definition mid : mat := M 1 0 0 0 1 0 0 0 1.
(** columns of a matrix and the matrix with given columns
    ([mat.transpose((1, 0))] of a list of vectors, local_cs.py 540-541) *)
Definition col0 (m : mat) : vec := V (m00 m) (m10 m) (m20 m).
Definition col1 (m : mat) : vec := V (m01 m) (m11 m) (m21 m).
Definition col2 (m : mat) : vec := V (m02 m) (m12 m) (m22 m).
Definition of_cols (a b c : vec) : mat :=
  M (vx a) (vx b) (vx c) (vy a) (vy b) (vy c) (vz a) (vz b) (vz c).
(** [xr_transpose_matrix_data], util/xarray.py 80-101 *)
Definition mtrans (m : mat) : mat :=
  M (m00 m) (m10 m) (m20 m) (m01 m) (m11 m) (m21 m) (m02 m) (m12 m) (m22 m).
(** [xr_matmul] of two matrices, util/xarray.py 104-173 *)
Definition mmul (a b : mat) : mat :=
  M (m00 a * m00 b + m01 a * m10 b + m02 a * m20 b)
    (m00 a * m01 b + m01 a * m11 b + m02 a * m21 b)
    (m00 a * m02 b + m01 a * m12 b + m02 a * m22 b)
    (m10 a * m00 b + m11 a * m10 b + m12 a * m20 b)
    (m10 a * m01 b + m11 a * m11 b + m12 a * m21 b)
    (m10 a * m02 b + m11 a * m12 b + m12 a * m22 b)
    (m20 a * m00 b + m21 a * m10 b + m22 a * m20 b)
    (m20 a * m01 b + m21 a * m11 b + m22 a * m21 b)
    (m20 a * m02 b + m21 a * m12 b + m22 a * m22 b).
(** [xr_matmul] of a matrix and a vector ([mat_vec_mul], util/xarray.py 40-56) *)
Definition mvec (a : mat) (v : vec) : vec :=
  V (m00 a * vx v + m01 a * vy v + m02 a * vz v)
    (m10 a * vx v + m11 a * vy v + m12 a * vz v)
    (m20 a * vx v + m21 a * vy v + m22 a * vz v).
(** [numpy.linalg.det] *)
Definition mdet (m : mat) : R := dot (col0 m) (cross (col1 m) (col2 m)).

(** [numpy.isclose(a, b)] with the default tolerances *)
Definition isclose (a b : R) : bool :=
  if Rle_dec (Rabs (a - b)) (/ 100000000 + / 100000 * Rabs b) then true else false.
(** [xr_is_orthogonal_matrix], util/xarray.py 176-198 *)
Definition is_orthogonal (m : mat) : bool :=
  let p := mmul m (mtrans m) in
  forallb (fun ab => isclose (fst ab) (snd ab))
    [(m00 p, 1); (m01 p, 0); (m02 p, 0);
     (m10 p, 0); (m11 p, 1); (m12 p, 0);
     (m20 p, 0); (m21 p, 0); (m22 p, 1)].

(** [normalize], transformations/util.py 41-60, for one vector *)
Definition normalize (a : vec) : res vec :=
  if Req_EM_T (norm a) 0 then Err ValueError
  else Ok (V (vx a / norm a) (vy a / norm a) (vz a / norm a)).

(** [_check_and_normalize_orientation], 345-371: the columns are normalised
    ([normalize] acts on dimension "c"), then orthogonality is tested *)
Definition check_orientation (m : mat) : res mat :=
  bind (normalize (col0 m)) (fun a =>
  bind (normalize (col1 m)) (fun b =>
  bind (normalize (col2 m)) (fun c =>
    let m' := of_cols a b c in
    if is_orthogonal m' then Ok m' else Err ValueError))).

(** A static [LocalCoordinateSystem] *)
Record lcs : Type := Lcs { l_ori : mat; l_pos : vec }.

(** [__init__] without time, 40-121 *)
Definition mk_lcs (o : mat) (p : vec) : res lcs :=
  bind (check_orientation o) (fun o' => Ok (Lcs o' p)).

(** the defaults of [__init__], 275-276 and 307-308 *)
Definition lcs_default : res lcs := mk_lcs mid vzero.

(** [__add__], 130-211, static systems *)
Definition lcs_add (l r : lcs) : res lcs :=
  mk_lcs (mmul (l_ori r) (l_ori l)) (vadd (mvec (l_ori r) (l_pos l)) (l_pos r)).

(** [invert], 774-801 *)
Definition lcs_invert (l : lcs) : res lcs :=
  mk_lcs (mtrans (l_ori l)) (mvec (mtrans (l_ori l)) (vscale (-1) (l_pos l))).

(** [__sub__], 213-247 *)
Definition lcs_sub (l r : lcs) : res lcs :=
  bind (lcs_invert r) (fun i => lcs_add l i).

(** [from_axis_vectors], 481-541, for single vectors. [mat[idx]] is computed by
    [cross(mat[(idx - 2) % 3], mat[(idx - 1) % 3])]. *)
Definition from_axis_vectors (x y z : option vec) (p : vec) : res lcs :=
  match x, y, z with
  | Some x, Some y, Some z => mk_lcs (of_cols x y z) p
  | None, Some y, Some z => mk_lcs (of_cols (cross y z) y z) p
  | Some x, None, Some z => mk_lcs (of_cols x (cross z x) z) p
  | Some x, Some y, None => mk_lcs (of_cols x y (cross x y)) p
  | _, _, _ => Err ValueError
  end.

(** the formula of [transform_data] for one point, cs_manager.py 1754-1757 *)
Definition lcs_apply (l : lcs) (v : vec) : vec := vadd (mvec (l_ori l) v) (l_pos l).

(** [SpatialData] point clouds are transformed point by point *)
Definition lcs_apply_all (l : lcs) (vs : list vec) : list vec := map (lcs_apply l) vs.
