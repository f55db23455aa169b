(** Vocabulary of the statements about converter classes. A list of class statements
    defines the classes 1, 2, ...; the class 0 is [WeldxConverter]. *)
From Coq Require Import List String Bool.
From Verif Require Import Base SerialModel TagModel ConvModel.
Import ListNotations.
Open Scope string_scope.

(** The method or name of the nearest class of the line of bases that states one. *)
Inductive nearest {A : Type} (own : decl -> option A) (default : option A) (ds : list decl) : nat -> option A -> Prop :=
| N_base : nearest own default ds 0 default
| N_own : forall i d a, nth_error ds i = Some d -> own d = Some a -> nearest own default ds (S i) (Some a)
| N_inherit : forall i d o, nth_error ds i = Some d -> own d = None -> nearest own default ds (d_base d) o ->
    nearest own default ds (S i) o.

(** [o] is a name that counts *)
Definition named (o : option string) : Prop := exists n, o = Some n /\ n <> "".

(** The tags of a class *)
Inductive tagged (ds : list decl) : nat -> ctags -> Prop :=
| T_base : tagged ds 0 TNone
| T_name : forall i n, nearest d_name None ds (S i) (Some n) -> n <> "" ->
    tagged ds (S i) (TPat (PList ["asdf://weldx.bam.de/weldx/tags/" ++ n ++ "-0.1.*"]))
| T_own : forall i d o t, nearest d_name None ds (S i) o -> ~ named o -> nth_error ds i = Some d -> d_tags d = Some t ->
    tagged ds (S i) t
| T_inherit : forall i d o t, nearest d_name None ds (S i) o -> ~ named o -> nth_error ds i = Some d -> d_tags d = None ->
    tagged ds (d_base d) t -> tagged ds (S i) t.

Definition direct (ds : list decl) (i : nat) : Prop :=
  exists j d, i = S j /\ nth_error ds j = Some d /\ d_base d = 0.
