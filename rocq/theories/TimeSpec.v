(** Vocabulary for the properties of [Time]. *)
From Coq Require Import List ZArith Bool.
From Verif Require Import Base TimeModel.
Import ListNotations.
Open Scope Z_scope.

Definition nondecreasing (l : list Z) : Prop :=
  forall i j a b, (i <= j)%nat -> nth_error l i = Some a -> nth_error l j = Some b -> a <= b.

Definition strictly_increasing (l : list Z) : Prop :=
  forall i j a b, (i < j)%nat -> nth_error l i = Some a -> nth_error l j = Some b -> a < b.

(** what the constructor can return *)
Definition constructed (t : time) : Prop := exists x ref, mk_time x ref = Ok t.

(** scalar times have the same value at each position *)
Definition is_scalar (t : time) : bool :=
  match t_val t with PDelta _ | PStamp _ => true | _ => false end.
Definition at_pos (t : time) (i : nat) : option Z :=
  match t_val t with
  | PDelta z | PStamp z => Some z
  | PDeltas l | PStamps l => nth_error l i
  end.
Definition tlen (t : time) : nat := length (vals t).
Definition compatible (a b : time) : Prop :=
  is_scalar a = true \/ is_scalar b = true \/ tlen a = tlen b.

Definition op2 (f : Z -> Z -> Z) (a b : option Z) : option Z :=
  match a, b with Some x, Some y => Some (f x y) | _, _ => None end.

(** number of occurrences *)
Definition count (v : Z) (l : list Z) : nat := count_occ Z.eq_dec l v.

(** programs without assignments to the attribute [reference_time] *)
Fixpoint no_set_ref (e : texpr) : bool :=
  match e with
  | TNew x _ => no_set_ref_x x
  | TAdd e x | TSub e x | TRsub e x | TResampleI e x => no_set_ref e && no_set_ref_x x
  | TItem e _ | TResampleN e _ => no_set_ref e
  | TUnion x xs => no_set_ref_x x && no_set_ref_xs xs
  | TSetRef _ _ => false
  end
with no_set_ref_x (x : tlike_e) : bool :=
  match x with XTime e => no_set_ref e | _ => true end
with no_set_ref_xs (xs : tlikes_e) : bool :=
  match xs with XNil => true | XCons x r => no_set_ref_x x && no_set_ref_xs r end.

(** largest multiplicity of a value in one of several lists *)
Definition maxcount (v : Z) (ls : list (list Z)) : nat :=
  fold_right (fun l m => Nat.max (count v l) m) 0%nat ls.

Definition first_last (l : list Z) (a b : Z) : Prop :=
  nth_error l 0 = Some a /\ nth_error l (length l - 1) = Some b.
