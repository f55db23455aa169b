(** Vocabulary of the statements about the drawing of managers. *)
From Coq Require Import List String Bool ZArith QArith.
From Verif Require Import Base CsmModel DrawModel.
Import ListNotations.

Section Draw.
  Context {T D : Type} {ops : LcsOps T}.

  (** The [i]-th of [k] equal parts of a strip, one level below, with its centre. *)
  Definition part (s : slot) (k i : nat) : slot :=
    let d := (sl_hi s - sl_lo s) / inject_Z (Z.of_nat k) in
    let j := inject_Z (Z.of_nat i) in
    Slot (sl_lo s + (j + (1 # 2)) * d) (sl_level s - 1) (sl_lo s + j * d) (sl_lo s + (j + 1) * d).

  (** The root has the whole strip from 0 to 2, and each system shares its strip among
      its children. *)
  Inductive placed (c : csm T D) : string -> slot -> Prop :=
  | P_root : placed c (c_root c) (Slot 1 0 0 2)
  | P_child : forall x s ch i y, placed c x s -> get_children c x = Ok ch -> nth_error ch i = Some y ->
      placed c y (part s (List.length ch) i).
End Draw.
