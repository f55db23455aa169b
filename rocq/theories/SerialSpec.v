(** Vocabulary for the theorems about serialisation helpers. *)
From Coq Require Import List String Ascii Bool Arith ZArith Sorted.
From Verif Require Import Base SerialModel.
Import ListNotations.
Open Scope list_scope.

(** no [None] below the root *)
Inductive complete : yaml -> Prop :=
| complete_none : complete YNone
| complete_leaf : forall n, complete (YLeaf n)
| complete_list : forall l, (forall x, In x l -> x <> YNone /\ complete x) -> complete (YList l)
| complete_dict : forall d, (forall k x, In (k, x) d -> x <> YNone /\ complete x) -> complete (YDict d).

(** the texts of numbers and releases: a number is a list of digits *)
Definition digit_text (d : nat) : string := String (ascii_of_nat (48 + d)) EmptyString.
Definition number_text (ds : list nat) : string := fold_right (fun d s => (digit_text d ++ s)%string) EmptyString ds.
Definition number (ds : list nat) : nat := fold_left (fun acc d => 10 * acc + d) ds 0.
Definition is_number (ds : list nat) : Prop := ds <> [] /\ Forall (fun d => d < 10) ds.
Fixpoint release_text (l : list (list nat)) : string :=
  match l with
  | [] => EmptyString
  | [ds] => number_text ds
  | ds :: r => (number_text ds ++ "." ++ release_text r)%string
  end.
Definition tag_text (base : string) (l : list (list nat)) : string := (base ++ "-" ++ release_text l)%string.

(** order of releases: the first component that differs decides, missing ones are
    zero *)
Definition not_newer (a b : list nat) : Prop :=
  (forall j, nth j a 0 = nth j b 0) \/
  exists i, (forall j, j < i -> nth j a 0 = nth j b 0) /\ nth i a 0 < nth i b 0.

Definition le_string (a b : string) : Prop := String.leb a b = true.

(** lengths of the fixed frequencies of pandas in nanoseconds, old and new names *)
Definition old_alias : list (string * Z) :=
  [("H", 3600000000000); ("T", 60000000000); ("S", 1000000000); ("L", 1000000); ("U", 1000); ("N", 1)]%string%Z.
Definition new_alias : list (string * Z) :=
  [("D", 86400000000000); ("h", 3600000000000); ("min", 60000000000); ("s", 1000000000); ("ms", 1000000); ("us", 1000); ("ns", 1)]%string%Z.

(** the values of an index with constant step *)
Definition progression (a d : Z) (n : nat) : list Z := map (fun i => (a + Z.of_nat i * d)%Z) (seq 0 n).
