(* Vocabulary of the statements about shown headers. *)
From Coq Require Import List String Bool ZArith.
From Verif Require Import Base ShowModel.
Import ListNotations.
Open Scope string_scope.

(* The same tree without tags. *)
Inductive plain : node -> node -> Prop :=
| p_num n : plain (NNum n) (NNum n)
| p_str t s : plain (NStr t s) (NStr None s)
| p_list t l l' : Forall2 plain l l' -> plain (NList t l) (NList None l')
| p_dict t d d' :
    Forall2 (fun p q => fst p = fst q /\ plain (snd p) (snd q)) d d' ->
    plain (NDict t d) (NDict None d').

(* The position of an index in n items: from the front or from the back. *)
Definition position (n : nat) (z : Z) (i : nat) : Prop :=
  i < n /\ (z = Z.of_nat i \/ z = (Z.of_nat i - Z.of_nat n)%Z).

(* The integer that a segment stands for *)
Definition stands_for (parse_int : string -> option Z) (k : key) (z : Z) : Prop :=
  match k with KStr s => parse_int s = Some z | KInt x => x = z end.

(* The part of a tree that a path leads to.  Items of lists and letters of
   strings have numbers, also as text. *)
Inductive reaches (parse_int : string -> option Z) : node -> list key -> node -> Prop :=
| r_here v : reaches parse_int v [] v
| r_entry t d s x r w : dget s d = Some x -> reaches parse_int x r w ->
    reaches parse_int (NDict t d) (KStr s :: r) w
| r_item t l k z i x r w : stands_for parse_int k z -> position (List.length l) z i ->
    nth_error l i = Some x -> reaches parse_int x r w ->
    reaches parse_int (NList t l) (k :: r) w
| r_letter t s k z i r w : stands_for parse_int k z -> position (String.length s) z i ->
    reaches parse_int (NStr None (substring i 1 s)) r w ->
    reaches parse_int (NStr t s) (k :: r) w.

(* Trees that are the same up to the data of arrays *)
Inductive same_but_data : tree -> tree -> Prop :=
| s_num n : same_but_data (TNum n) (TNum n)
| s_str t s : same_but_data (TStr t s) (TStr t s)
| s_array dt sh a b : same_but_data (TArray dt sh a) (TArray dt sh b)
| s_list t l l' : Forall2 same_but_data l l' -> same_but_data (TList t l) (TList t l')
| s_dict t d d' :
    Forall2 (fun p q => fst p = fst q /\ same_but_data (snd p) (snd q)) d d' ->
    same_but_data (TDict t d) (TDict t d').

Definition container (v : node) : Prop :=
  match v with NDict _ _ | NList _ _ => True | _ => False end.

(* The header of a tree: the same tree, with arrays described but empty *)
Inductive written : tree -> node -> Prop :=
| w_num n : written (TNum n) (NNum n)
| w_str t s : written (TStr t s) (NStr t s)
| w_array dt sh a : written (TArray dt sh a)
    (NDict (Some "!core/ndarray-1.0.0")
       [("data", NList None []); ("datatype", NStr None dt); ("shape", NList None (map NNum sh))])
| w_list t l l' : Forall2 written l l' -> written (TList t l) (NList t l')
| w_dict t d d' : Forall2 (fun p q => fst p = fst q /\ written (snd p) (snd q)) d d' ->
    written (TDict t d) (NDict t d').
