(** Rigid motions of space, independent of the code: what a coordinate system
    is, as a map that takes the coordinates of a point in the system to its
    coordinates in the reference system. *)
From Coq Require Import Reals List.
From Verif Require Import Base RigidModel.
Open Scope R_scope.

(** squared distance *)
Definition dist2 (a b : vec) : R :=
  (vx a - vx b) * (vx a - vx b) + (vy a - vy b) * (vy a - vy b) + (vz a - vz b) * (vz a - vz b).

(** the columns are unit vectors and mutually orthogonal *)
Definition orthonormal (m : mat) : Prop :=
  dot (col0 m) (col0 m) = 1 /\ dot (col1 m) (col1 m) = 1 /\ dot (col2 m) (col2 m) = 1 /\
  dot (col0 m) (col1 m) = 0 /\ dot (col0 m) (col2 m) = 0 /\ dot (col1 m) (col2 m) = 0.

Definition valid (l : lcs) : Prop := orthonormal (l_ori l).

(** expressions over coordinate systems *)
Inductive expr : Type :=
| EBase (l : lcs)
| EAdd (a b : expr)
| ESub (a b : expr)
| EInv (a : expr).

Fixpoint eval (e : expr) : res lcs :=
  match e with
  | EBase l => Ok l
  | EAdd a b => bind (eval a) (fun x => bind (eval b) (fun y => lcs_add x y))
  | ESub a b => bind (eval a) (fun x => bind (eval b) (fun y => lcs_sub x y))
  | EInv a => bind (eval a) (fun x => lcs_invert x)
  end.

Fixpoint all_base (P : lcs -> Prop) (e : expr) : Prop :=
  match e with
  | EBase l => P l
  | EAdd a b | ESub a b => all_base P a /\ all_base P b
  | EInv a => all_base P a
  end.

(** product of the determinants of all systems in the expression *)
Fixpoint handedness (e : expr) : R :=
  match e with
  | EBase l => mdet (l_ori l)
  | EAdd a b | ESub a b => handedness a * handedness b
  | EInv a => handedness a
  end.
