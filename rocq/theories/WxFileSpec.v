(** Vocabulary for the theorems about [WeldxFile]. *)
From Coq Require Import List String Bool.
From Verif Require Import Base WxFileModel.
Import ListNotations.

(** the schemas that hold for a constructor call: an entry in the keyword arguments
    comes first *)
Definition effective (kw : option nat) (cs : spec) (w : world) : spec :=
  match kw with None => cs | Some k => match kwargs w k with Some s => s | None => cs end end.

Definition is_asdf (c : content) : Prop := match c with CAsdf _ => True | _ => False end.

Definition satisfies (valid : schema -> tree -> bool) (s : option schema) (t : tree) : Prop :=
  match s with None => True | Some s => valid s t = true end.

(** the file is as it was *)
Definition untouched (l : loc) (w w' : world) : Prop := files w' l = files w l.

(** the same schema for reading and writing, in all places where it is kept *)
Definition one_schema (f : wx) (s : option schema) (w : world) : Prop :=
  w_read f = s /\ w_write f = s /\ h_schema f = option_map SOne s /\ kwargs w (w_kwargs f) = option_map SOne s.
