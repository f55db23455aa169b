(** What a tag pattern means, independent of the matcher. *)
From Coq Require Import List String Ascii.
Import ListNotations.
Open Scope string_scope.

(** [Denotes p s]: the pattern [p] stands for the text [s]. *)
Inductive Denotes : string -> string -> Prop :=
| d_nil : Denotes "" ""
| d_char : forall a p s, a <> "*"%char -> Denotes p s -> Denotes (String a p) (String a s)
| d_any : forall p s t, Denotes p s -> Denotes ("**" ++ p) (t ++ s)
| d_segment : forall p s t,
    prefix "*" p = false -> ~ In "/"%char (list_ascii_of_string t) ->
    Denotes p s -> Denotes ("*" ++ p) (t ++ s).

Definition plain (p : string) : Prop := ~ In "*"%char (list_ascii_of_string p).
