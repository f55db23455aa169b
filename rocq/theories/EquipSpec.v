(** Which equipment belongs to which signal, and what equal chains have in common. *)
From Coq Require Import List String Bool Arith.
From Verif Require Import Base MeasModel MeasSpec EquipModel.
Import ListNotations.

Section Spec.
  Context {U D : Type}.
  Notation eworld := (@eworld U D).
  Notation echain := (@echain U).
  Notation equipment := (@equipment U).

  Definition egraph (w : eworld) (c : echain) : @graph U := graph_at (e_world w) (ec_chain c).

  (** the equipment mentioned by a call *)
  Definition mentioned (o : @eop U D) : option equipment :=
    match o with EOp _ => None | EEquip q _ _ _ => Some q end.

  (** A chain with its history: the signals in the order in which they were added, each
      with the equipment of the call that added it. *)
  Inductive ebuilt (uo : unit_ops U) : eworld -> echain -> list (string * option equipment) -> Prop :=
  | eb_new : forall w name src q,
      List.length (e_edges w) = List.length (w_graphs (e_world w)) ->
      src_sig src < List.length (w_sigs (e_world w)) ->
      (forall e, q = Some e -> In src (q_sources e)) ->
      ebuilt uo (fst (new w name src q)) (snd (new w name src q)) [(src_name src, q)]
  | eb_op : forall w c log o w' c' r,
      ebuilt uo w c log -> run_eop uo w c o = (w', c', r) ->
      ebuilt uo w' c' (log ++ map (fun n => (n, mentioned o)) (skipn (List.length (names (egraph w c))) (names (egraph w' c')))).

  (** a consistent chain *)
  Definition proper (w : eworld) (c : echain) : Prop :=
    well (e_world w) (ec_chain c) /\ rooted_tree (src_name (c_src (ec_chain c))) (egraph w c).

  (** the two chains have, under every name, equal signals or none *)
  Definition same_signals (sig_eqb : @signal U D -> @signal U D -> bool) (w : eworld) (c d : echain) : Prop :=
    forall n, match get_signal (e_world w) (ec_chain c) n, get_signal (e_world w) (ec_chain d) n with
              | Ok s, Ok t => sig_eqb s t = true
              | Err _, Err _ => True
              | _, _ => False
              end.
End Spec.
