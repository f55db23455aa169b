(** Small concrete managers for the examples and counterexamples. A
    transformation is a number (its inverse is the negative), a flag that says
    whether it is time dependent and a reference time. Data are numbers. *)
From Coq Require Import List String Bool ZArith.
From Verif Require Import Base CsmModel CsmSpec.
Import ListNotations.
Open Scope string_scope.
Open Scope list_scope.

Definition toy : Type := (Z * (bool * option Z))%type.
#[global] Instance toy_ops : LcsOps toy := {
  l_inv t := (Z.opp (fst t), snd t);
  l_expr _ := false;
  l_timedep t := fst (snd t);
  l_ref t := snd (snd t)
}.
Definition tmgr : Type := csm toy Z.
Definition top : Type := op (T := toy) (D := Z).

(** a static transformation, one with time deltas, one with absolute times *)
Definition st (z : Z) : toy := (z, (false, None)).
Definition td (z : Z) : toy := (z, (true, None)).
Definition ta (z r : Z) : toy := (z, (true, Some r)).

Definition add (n p : string) (t : toy) : top := OAdd n p t true.
Definition put (k n : string) (v : Z) : top := OAssign (fun v _ _ => Ok v) v k n None.

Definition mk (root name : string) (ref : option Z) (l : list top) : tmgr :=
  run_ops (new_csm root name ref) l.

(** r - a - b, r - c, data at b *)
Definition m1 : tmgr :=
  mk "r" "m1" None [add "a" "r" (st 1); add "b" "a" (st 2); add "c" "r" (st 3); put "x" "b" 7%Z].
(** b - d, b - e, data at b and e *)
Definition m2 : tmgr :=
  mk "d" "m2" None [add "b" "d" (st 4); OAdd "e" "b" (st 5) false; put "y" "b" 8%Z; put "z" "e" 9%Z].
(** m1 with m2 merged at b *)
Definition m12 : tmgr := fst (merge m1 m2).
(** e - f with data at e and f *)
Definition m3 : tmgr := mk "e" "m3" None [add "f" "e" (st 6); put "w" "e" 10%Z].
(** r - g and r - h: two managers with the same name *)
Definition n1 : tmgr := mk "r" "same" None [add "g" "r" (st 1)].
Definition n2 : tmgr := mk "r" "same" None [add "h" "r" (st 2)].
(** systems with absolute times; systems with deltas and a manager reference *)
Definition ma : tmgr := mk "r" "ma" None [add "a" "r" (ta 1 100)].
Definition mr : tmgr := mk "r" "mr" (Some 50%Z) [add "b" "r" (td 2)].
