(** What the name of a manifest file says, and which entry of a list of pairs counts. *)
From Coq Require Import List String Ascii.
From Verif Require Import Base StdModel.
Import ListNotations.
Open Scope string_scope.
Open Scope list_scope.

Definition without (c : ascii) (s : string) : Prop := ~ In c (list_ascii_of_string s).

Section Spec.
  Context {version : Type} (vparse : string -> res version).

  (** The file [f] belongs to the version [v] of the standard [n]. *)
  Definition names (f n : string) (v : version) : Prop :=
    exists s ext, f = (n ++ "-" ++ s ++ "." ++ ext)%string /\
      without "-" s /\ without "." ext /\ vparse s = Ok v.

  Definition of_version (v : version) (fm : string * manifest) : Prop := exists n, names (fst fm) n v.

  (** [fm] is the last of the files for the version [v]. *)
  Definition last_of (v : version) (files : list (string * manifest)) (fm : string * manifest) : Prop :=
    exists l r, files = l ++ fm :: r /\ of_version v fm /\ Forall (fun x => ~ of_version v x) r.

  Definition complete (m : manifest) : Prop := m_id m <> None /\ m_tags m <> None.
End Spec.

(** The last pair with the key [k] has the value [x]. *)
Definition last_pair {A : Type} (k : string) (l : list (string * A)) (x : A) : Prop :=
  exists a b, l = a ++ (k, x) :: b /\ ~ In k (map fst b).

(** ** Registry *)
(** what the entry points return, one after the other *)
Definition returned {version : Type} (eps : list (@loaded version)) : list (option (@standard version)) :=
  List.concat (map (fun x => match x with LList l => l | LOne q => [q] end) eps).

(** the standard a name stands for after the given ones were registered one by one: the
    last of that name *)
Definition stands_for {version : Type} (n : option string) (l : list (@standard version)) (q : @standard version) : Prop :=
  exists a b, l = a ++ q :: b /\ q_name q = n /\ forall p, In p b -> q_name p <> n.
