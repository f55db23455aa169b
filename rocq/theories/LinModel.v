(** Linear interpolation between two samples with real values, vectors and
    matrices (scipy/numpy, called by [interp_like], util/xarray.py 382). *)
From Coq Require Import Reals ZArith.
From Verif Require Import Base RigidModel InterpModel.
Open Scope R_scope.

(** slope * (t - t0) + a; times are exact integers *)
Definition lin : segment R :=
  fun t0 t1 a b t => (b - a) / IZR (t1 - t0) * IZR (t - t0) + a.
Definition lin_vec : segment vec :=
  fun t0 t1 a b t => V (lin t0 t1 (vx a) (vx b) t) (lin t0 t1 (vy a) (vy b) t) (lin t0 t1 (vz a) (vz b) t).
Definition lin_mat : segment mat :=
  fun t0 t1 a b t =>
    M (lin t0 t1 (m00 a) (m00 b) t) (lin t0 t1 (m01 a) (m01 b) t) (lin t0 t1 (m02 a) (m02 b) t)
      (lin t0 t1 (m10 a) (m10 b) t) (lin t0 t1 (m11 a) (m11 b) t) (lin t0 t1 (m12 a) (m12 b) t)
      (lin t0 t1 (m20 a) (m20 b) t) (lin t0 t1 (m21 a) (m21 b) t) (lin t0 t1 (m22 a) (m22 b) t).
