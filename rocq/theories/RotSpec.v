(** Vocabulary for rotations. *)
From Coq Require Import Reals List String.
From Verif Require Import RigidModel RotModel.
Import ListNotations.
Open Scope R_scope.

(** a proper rotation *)
Definition proper (m : mat) : Prop := mmul m (mtrans m) = mid /\ mdet m = 1.
Definition members (r : rots) : list mat := match r with Single m => [m] | Stack l => l end.

(** What SciPy promises about [as_euler]: the angles describe the rotation. If the first
    and the last axis differ, the angle in the middle lies between -90 and 90 degrees, and
    the last angle is 0 for gimbal lock. *)
Definition euler_angles (as_euler : string -> mat -> list R) (m : mat) : Prop :=
  forall s i p q r, parse s = Some (i, [p; q; r]) ->
  exists a b c, as_euler s m = [a; b; c] /\ euler i [p; q; r] [a; b; c] = m /\
    (p <> r -> 0 <= cos b /\ (cos b = 0 -> c = 0)).

(** A rotation that was made from angles for these axes. With two axes the second angle
    lies between -90 and 90 degrees. *)
Definition small_angles (i : bool) (l : list axis) (m : mat) : Prop :=
  exists a, List.length a = List.length l /\ euler i l a = m /\
    match a with [_; b] => 0 <= cos b | _ => True end.

(** The axes in their cyclic order and their directions. *)
Definition next (p : axis) : axis := match p with AX => AY | AY => AZ | AZ => AX end.
Definition unit_vec (p : axis) : vec := match p with AX => V 1 0 0 | AY => V 0 1 0 | AZ => V 0 0 1 end.
