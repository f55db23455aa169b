(** What the unit validator should report, independent of the walk. *)
From Coq Require Import List String.
From Verif Require Import Base TagModel TagSpec UnitValModel.
Import ListNotations.
Open Scope string_scope.
Open Scope list_scope.

(** The leaves of a validation dictionary. *)
Inductive leaf_at : vspec -> list string -> string -> Prop :=
| leaf_here : forall e, leaf_at (VLeaf e) [] e
| leaf_below : forall d k s p e, In (k, s) d -> leaf_at s p e -> leaf_at (VDict d) (k :: p) e.

(** The values of a tree; the first entry of a key is the one that is found. *)
Inductive node_at : tnode -> list string -> tnode -> Prop :=
| node_here : forall n, node_at n [] n
| node_below : forall d t k c p n,
    (exists l r, d = l ++ (k, c) :: r /\ ~ In k (map fst l)) ->
    node_at c p n -> node_at (TMap d t) (k :: p) n.

(** [n] can be asked for the key [k] and has none: no entry of a mapping, no string of a
    sequence, no part of a string. *)
Inductive lacks : tnode -> string -> Prop :=
| la_map : forall d t k, ~ In k (map fst d) -> lacks (TMap d t) k
| la_list : forall l t k, (forall t', ~ In (TStr k t') l) -> lacks (TList l t) k
| la_str : forall s t k, (forall a b, s <> (a ++ k ++ b)%string) -> lacks (TStr s t) k.

Section Spec.
  Context {unit dim : Type} (parse : string -> res unit) (dimless : unit)
          (dimension : unit -> dim) (show : tnode -> string).

  Definition tag_of (n : tnode) : option string :=
    match n with TStr _ t | TList _ t | TMap _ t => t | _ => None end.
  Definition is_array (n : tnode) : Prop :=
    exists t s, tag_of n = Some t /\ t = ("tag:stsci.edu:asdf/core/ndarray" ++ s)%string.
  Definition is_data_array (n : tnode) : Prop :=
    exists t, tag_of n = Some t /\ Denotes "asdf://weldx.bam.de/weldx/tags/core/data_array-0.1.*" t.

  (** The unit a value has. *)
  Inductive has_unit : tnode -> unit -> Prop :=
  | hu_number : has_unit TNum dimless
  | hu_string : forall n s t u, node_at n ["units"] (TStr s t) -> parse s = Ok u -> has_unit n u
  | hu_value : forall n v u, node_at n ["units"] v -> (forall s t, v <> TStr s t) ->
      parse (show v) = Ok u -> has_unit n u
  | hu_array : forall n, (forall v, ~ node_at n ["units"] v) -> is_array n -> has_unit n dimless
  | hu_data : forall n v u, (forall v, ~ node_at n ["units"] v) -> ~ is_array n -> is_data_array n ->
      node_at n ["data"] v -> has_unit v u -> has_unit n u.

  (** A value without a unit. *)
  Inductive no_unit : tnode -> Prop :=
  | nu_plain : forall n, n <> TNum -> (forall v, ~ node_at n ["units"] v) ->
      ~ is_array n -> ~ is_data_array n -> no_unit n
  | nu_data : forall n v, (forall v, ~ node_at n ["units"] v) -> ~ is_array n -> is_data_array n ->
      node_at n ["data"] v -> no_unit v -> no_unit n.

  (** The reports that are due. *)
  Definition due (wx : vspec) (n : tnode) (r : report) : Prop :=
    exists e c, leaf_at wx (fst r) e /\ node_at n (fst r) c /\
    match snd r with
    | NoUnit => no_unit c
    | Mismatch => exists u x, has_unit c u /\ parse e = Ok x /\ dimension u <> dimension x
    end.

  (** A leaf is satisfied by a value: it has a unit of the wanted dimension. *)
  Definition satisfied (e : string) (c : tnode) : Prop :=
    exists u x, has_unit c u /\ parse e = Ok x /\ dimension u = dimension x.

  (** The tree offers what the validation dictionary addresses: every nested
      dictionary of the latter meets a mapping that has its key, values next to leaves
      are mappings, sequences or strings without the key. *)
  Inductive addressable : tnode -> vspec -> Prop :=
  | ad_leaf : forall n e, (no_unit n \/ exists u x, has_unit n u /\ parse e = Ok x) -> addressable n (VLeaf e)
  | ad_dict : forall n d,
      (forall k s, In (k, VDict s) d -> exists c, node_at n [k] c /\ addressable c (VDict s)) ->
      (forall k e, In (k, VLeaf e) d ->
         (exists c, node_at n [k] c /\ addressable c (VLeaf e)) \/
         lacks n k) ->
      addressable n (VDict d).

  (** The same tree with some units replaced by units of the same dimension. *)
  Inductive rescaled : tnode -> tnode -> Prop :=
  | rs_same : forall n, rescaled n n
  | rs_map : forall d d' t,
      Forall2 (fun a b => fst a = fst b /\
        (snd a = snd b \/
         (fst a <> "units" /\ rescaled (snd a) (snd b)) \/
         (fst a = "units" /\ exists s s' u u', snd a = TStr s None /\ snd b = TStr s' None /\
            parse s = Ok u /\ parse s' = Ok u' /\ dimension u = dimension u'))) d d' ->
      rescaled (TMap d t) (TMap d' t).
End Spec.

(** A validation dictionary that does not address the entries "units" themselves. *)
Inductive leaves_units_alone : vspec -> Prop :=
| lu_leaf : forall e, leaves_units_alone (VLeaf e)
| lu_dict : forall d, (forall k s, In (k, s) d -> k <> "units" /\ leaves_units_alone s) ->
    leaves_units_alone (VDict d).
