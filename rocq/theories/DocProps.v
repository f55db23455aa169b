(** Theorems about inherited documentation (C134). *)
From Coq Require Import List String Bool Arith Lia.
From Verif Require Import Base DocModel.
Import ListNotations.
Open Scope string_scope.

(** Spec: what the classes after [c] in the MRO offer for a name, other than [f] itself. *)
Definition offers (classes : list class) (c : nat) (name : string) (f : nat) : list nat :=
  flat_map (fun p => match lookup classes p name with
                     | Some o => if Nat.eqb o f then [] else [o]
                     | None => []
                     end) (tl (mro_of classes c)).

(** Spec: no object has two names. *)
Definition one_name (classes : list class) : Prop :=
  forall p q n m o, lookup classes p n = Some o -> lookup classes q m = Some o -> n = m.

Definition public (n : string) : Prop := prefix "_" n = false.

Lemma flat_map_ext_in' : forall (A B : Type) (f g : A -> list B) l,
  (forall x, In x l -> f x = g x) -> flat_map f l = flat_map g l.
Proof.
  induction l; intro H; [reflexivity|]. cbn. rewrite H, IHl; [reflexivity| |left; reflexivity].
  intros; apply H; right; assumption.
Qed.

Section Proofs.
  Variable classes : list class.
  Variable is_member : nat -> bool.
  Notation look := (lookup classes).
  Notation run := (inherit_docstrings classes is_member).

  Lemma parents_doc : forall ps n f s o, o <> f -> doc (parents classes ps n f s) o = doc s o.
  Proof.
    induction ps as [|p ps IH]; intros n f s o H; [reflexivity|]. cbn [parents].
    destruct (look p n) as [q|]; [|now apply IH].
    rewrite IH by exact H.
    assert (E1 : doc (set_doc s f (doc s q)) o = doc s o).
    { cbn. destruct (Nat.eqb_spec o f); [contradiction|reflexivity]. }
    destruct (has_text _); [exact E1|exact E1].
  Qed.

  Lemma parents_self : forall ps n f s,
    doc (parents classes ps n f s) f
    = match rev (flat_map (fun p => match look p n with
                     | Some o => if Nat.eqb o f then [] else [o]
                     | None => []
                     end) ps) with
      | o :: _ => doc s o
      | [] => doc s f
      end.
  Proof.
    induction ps as [|p ps IH]; intros n f s; [reflexivity|]. cbn [parents flat_map].
    destruct (look p n) as [q|]; [|apply IH].
    assert (E1 : forall o, doc (if has_text (doc (set_doc s f (doc s q)) f) then set_doc s f (doc s q) else warn (set_doc s f (doc s q)) n) o
                 = if Nat.eqb o f then doc s q else doc s o) by (intro o; destruct (has_text _); reflexivity).
    rewrite IH, rev_app_distr, !E1.
    assert (Hf : forall o, In o (rev (flat_map (fun p => match look p n with
                     | Some o => if Nat.eqb o f then [] else [o]
                     | None => [] end) ps)) -> Nat.eqb o f = false).
    { intros o Ho. apply in_rev, in_flat_map in Ho as [x [_ Ho]].
      destruct (look x n) as [y|]; [|destruct Ho]. destruct (Nat.eqb_spec y f); [destruct Ho|].
      destruct Ho as [<-|[]]. now apply Nat.eqb_neq. }
    destruct (rev _) as [|o r]; cbn [app].
    - rewrite Nat.eqb_refl. destruct (Nat.eqb_spec q f); [subst; reflexivity|reflexivity].
    - rewrite E1, (Hf o) by (left; reflexivity). reflexivity.
  Qed.

  Lemma members_skip : forall c names s o,
    (forall n, In n names -> look c n = Some o -> prefix "_" n = true) \/ has_text (doc s o) = true \/ is_member o = false ->
    doc (members classes is_member c names s) o = doc s o.
  Proof.
    intros c. induction names as [|n names IH]; intros s o H; [reflexivity|]. cbn [members].
    assert (T : (forall n', In n' names -> look c n' = Some o -> prefix "_" n' = true) \/ has_text (doc s o) = true \/ is_member o = false).
    { destruct H as [H|H]; [left; intros n' Hn'; apply H; right; exact Hn'|right; exact H]. }
    destruct (look c n) as [f|] eqn:Ef; [|now apply IH].
    destruct (negb (is_member f) || has_text (doc s f) || prefix "_" n) eqn:Eb; [now apply IH|].
    apply orb_false_elim in Eb as [Eb Ep]. apply orb_false_elim in Eb as [Em Ed]. apply negb_false_iff in Em.
    assert (Hne : o <> f).
    { intros ->. destruct H as [H|[H|H]]; [|congruence|congruence].
      rewrite (H n) in Ep; [discriminate|left; reflexivity|exact Ef]. }
    rewrite IH; [now apply parents_doc|]. rewrite parents_doc by exact Hne. exact T.
  Qed.

  (** Existing documentation is kept, and so is that of objects that are no functions or
      properties or are not found through a public name of the class. *)
  Theorem c134_kept : forall c names s o,
    has_text (doc s o) = true \/ is_member o = false \/
    (forall n, In n names -> look c n = Some o -> ~ public n) ->
    doc (run c names s) o = doc s o.
  Proof.
    intros c names s o H. apply members_skip. destruct H as [H|[H|H]]; auto.
    left. intros n H1 H2. specialize (H n H1 H2). unfold public in H. destruct (prefix "_" n); congruence.
  Qed.

  (** A public function without documentation gets the one of the last parent that has
      the attribute. *)
  Theorem c134_last : one_name classes -> forall c names s n f,
    NoDup names -> In n names -> public n ->
    look c n = Some f -> is_member f = true -> has_text (doc s f) = false ->
    doc (run c names s) f = match rev (offers classes c n f) with o :: _ => doc s o | [] => doc s f end.
  Proof.
    intros One c names s n f ND Hin Pub Lk Mem Txt.
    assert (Out : forall l m s', NoDup (m :: l) -> look c m = Some f -> doc (members classes is_member c l s') f = doc s' f).
    { intros l m s' Hd Lm. apply members_skip. left. intros n' Hn' Ln'. exfalso.
      inversion Hd; subst. apply H1. now rewrite (One c c m n' f Lm Ln'). }
    assert (Other : forall m g s' o, look c m = Some g -> m <> n -> (o = f \/ exists p, look p n = Some o) ->
              doc (parents classes (tl (mro_of classes c)) m g s') o = doc s' o).
    { intros m g s' o Lm Hm Ho. apply parents_doc. intros ->. apply Hm. destruct Ho as [->|[p Hp]].
      - now apply (One c c m n f).
      - now apply (One c p m n g). }
    unfold inherit_docstrings. revert s Txt. induction names as [|m names IH]; intros s Txt; [destruct Hin|].
    cbn [members]. destruct (String.eqb_spec m n) as [->|Hmn].
    - rewrite Lk, Mem, Txt. cbn. unfold public in Pub. rewrite Pub.
      rewrite (Out names n _ ND Lk). apply parents_self.
    - assert (Hin' : In n names) by (destruct Hin as [E1|H]; [contradiction|exact H]).
      assert (ND' : NoDup names) by now inversion ND.
      destruct (look c m) as [g|] eqn:Lm; [|now apply IH].
      destruct (negb (is_member g) || has_text (doc s g) || prefix "_" m); [now apply IH|].
      rewrite IH; try assumption.
      + destruct (rev (offers classes c n f)) as [|o r] eqn:Er.
        * apply (Other m g s f Lm Hmn). left; reflexivity.
        * apply (Other m g s o Lm Hmn). right.
          assert (Ho : In o (offers classes c n f)) by (apply in_rev; rewrite Er; left; reflexivity).
          apply in_flat_map in Ho as [p [_ Ho]]. exists p.
          destruct (look p n) as [y|]; [|destruct Ho]. destruct (Nat.eqb y f); [destruct Ho|].
          destruct Ho as [<-|[]]. reflexivity.
      + rewrite (Other m g s f Lm Hmn); [exact Txt|left; reflexivity].
  Qed.

  (** "Traverses the MRO until it finds a docstring to use": true if all parents offer the
      same documentation, for example if only one has the attribute. *)
  Theorem c134_first : one_name classes -> forall c names s n f d,
    NoDup names -> In n names -> public n ->
    look c n = Some f -> is_member f = true -> has_text (doc s f) = false ->
    offers classes c n f <> [] -> (forall o, In o (offers classes c n f) -> doc s o = d) ->
    doc (run c names s) f = d.
  Proof.
    intros One c names s n f d ND Hin Pub Lk Mem Txt Ne Same.
    rewrite (c134_last One c names s n f) by assumption.
    destruct (rev (offers classes c n f)) as [|o r] eqn:Er.
    - exfalso. apply Ne. rewrite <- (rev_involutive (offers classes c n f)), Er. reflexivity.
    - apply Same. apply in_rev. rewrite Er. left; reflexivity.
  Qed.

  (** One warning for every parent whose attribute has no documentation. *)
  Lemma parents_warned : forall ps n f s, (forall p, In p ps -> look p n <> Some f) ->
    warned (parents classes ps n f s)
    = (warned s ++ flat_map (fun p => match look p n with
         | Some o => if has_text (doc s o) then [] else [n]
         | None => [] end) ps)%list.
  Proof.
    induction ps as [|p ps IH]; intros n f s H; [cbn; now rewrite app_nil_r|]. cbn [parents flat_map].
    destruct (look p n) as [q|] eqn:Eq; [|apply IH; intros; apply H; right; assumption].
    assert (Hq : q <> f) by (intros ->; apply (H p); [left; reflexivity|exact Eq]).
    rewrite IH by (intros; apply H; right; assumption).
    assert (Ef : forall o, o <> f -> doc (if has_text (doc (set_doc s f (doc s q)) f) then set_doc s f (doc s q) else warn (set_doc s f (doc s q)) n) o = doc s o).
    { intros o Ho. destruct (has_text _); cbn; destruct (Nat.eqb_spec o f); congruence. }
    assert (Es : doc (set_doc s f (doc s q)) f = doc s q) by (cbn; now rewrite Nat.eqb_refl).
    rewrite Es in *.
    replace (flat_map (fun p0 => match look p0 n with
         | Some o => if has_text (doc (if has_text (doc s q) then set_doc s f (doc s q) else warn (set_doc s f (doc s q)) n) o) then [] else [n]
         | None => [] end) ps)
      with (flat_map (fun p0 => match look p0 n with
         | Some o => if has_text (doc s o) then [] else [n]
         | None => [] end) ps).
    - destruct (has_text (doc s q)); cbn [warned set_doc warn]; [reflexivity|]. now rewrite <- app_assoc.
    - apply flat_map_ext_in'. intros x Hx. destruct (look x n) as [o|] eqn:Eo; [|reflexivity].
      rewrite Ef; [reflexivity|]. intros ->. apply (H x); [right; exact Hx|exact Eo].
  Qed.

  Lemma parents_other : forall ps m n f s, m <> n ->
    count_occ string_dec (warned (parents classes ps m f s)) n = count_occ string_dec (warned s) n.
  Proof.
    induction ps as [|p ps IH]; intros m n f s H; [reflexivity|]. cbn [parents].
    destruct (look p m) as [q|]; [|now apply IH]. rewrite IH by exact H.
    destruct (has_text _); [reflexivity|]. cbn [warned warn set_doc]. rewrite count_occ_app. cbn.
    destruct (string_dec m n); [contradiction|lia].
  Qed.

  Lemma members_other : forall c names n s, ~ In n names ->
    count_occ string_dec (warned (members classes is_member c names s)) n = count_occ string_dec (warned s) n.
  Proof.
    intros c. induction names as [|m names IH]; intros n s H; [reflexivity|]. cbn [members].
    assert (H1 : m <> n) by (intros ->; apply H; left; reflexivity).
    assert (H2 : ~ In n names) by (intro; apply H; right; assumption).
    destruct (look c m) as [g|]; [|now apply IH].
    destruct (negb _ || _ || _); [now apply IH|]. rewrite IH by exact H2. now apply parents_other.
  Qed.

  Lemma count_flat : forall (g : nat -> bool) n ps,
    count_occ string_dec (flat_map (fun p => if g p then [n] else []) ps) n = List.length (filter g ps).
  Proof.
    induction ps as [|p ps IH]; [reflexivity|]. cbn [flat_map filter]. rewrite count_occ_app, IH.
    destruct (g p); cbn; [|reflexivity]. destruct (string_dec n n); [reflexivity|congruence].
  Qed.

  (** Spec: the parent has the attribute without documentation. *)
  Definition blank (s : state) (n : string) (p : nat) : bool :=
    match look p n with Some o => negb (has_text (doc s o)) | None => false end.

  (** For a function of the class itself there is one warning for every parent whose
      attribute has no documentation. *)
  Theorem c134_warnings : one_name classes -> forall c names s n f,
    NoDup names -> In n names -> public n ->
    look c n = Some f -> is_member f = true -> has_text (doc s f) = false ->
    (forall p, In p (tl (mro_of classes c)) -> look p n <> Some f) ->
    count_occ string_dec (warned (run c names s)) n
    = count_occ string_dec (warned s) n + List.length (filter (blank s n) (tl (mro_of classes c))).
  Proof.
    intros One c names s n f ND Hin Pub Lk Mem Txt Self.
    unfold inherit_docstrings. revert s Txt. induction names as [|m names IH]; intros s Txt; [destruct Hin|].
    cbn [members]. destruct (String.eqb_spec m n) as [->|Hmn].
    - rewrite Lk, Mem, Txt. cbn. unfold public in Pub. rewrite Pub.
      rewrite members_other by now inversion ND.
      rewrite parents_warned by exact Self. rewrite count_occ_app. f_equal.
      rewrite <- (count_flat (blank s n) n). f_equal. apply flat_map_ext_in'. intros p _.
      unfold blank. destruct (look p n) as [o|]; [|reflexivity]. destruct (has_text (doc s o)); reflexivity.
    - assert (Hin' : In n names) by (destruct Hin as [E1|H]; [contradiction|exact H]).
      assert (ND' : NoDup names) by now inversion ND.
      destruct (look c m) as [g|] eqn:Lm; [|now apply IH].
      destruct (negb (is_member g) || has_text (doc s g) || prefix "_" m); [now apply IH|].
      assert (Keep : forall p o, look p n = Some o -> doc (parents classes (tl (mro_of classes c)) m g s) o = doc s o).
      { intros p o Hp. apply parents_doc. intros ->. apply Hmn. now apply (One c p m n g). }
      rewrite IH; try assumption; [|rewrite (Keep c f Lk); exact Txt].
      rewrite parents_other by exact Hmn. f_equal. f_equal.
      apply filter_ext. intro p. unfold blank. destruct (look p n) as [o|] eqn:Eo; [|reflexivity].
      now rewrite (Keep p o Eo).
  Qed.
End Proofs.
Print Assumptions c134_kept.
Print Assumptions c134_last.
Print Assumptions c134_first.
Print Assumptions c134_warnings.

(** Two classes with a function [f] and a class that inherits from both and overrides it. *)
Definition ex_classes : list class :=
  [Class [] [0]; Class [("f", 1)] [1; 0]; Class [("f", 2)] [2; 0]; Class [("f", 3); ("_g", 4)] [3; 1; 2; 0]].
Definition ex_docs (a b : option string) : state :=
  State (fun o => match o with 1 => a | 2 => b | _ => None end) [].

Lemma ex_one : one_name ex_classes.
Proof.
  assert (L : forall p n o, lookup ex_classes p n = Some o -> (n = "f" /\ (o = 1 \/ o = 2 \/ o = 3)) \/ (n = "_g" /\ o = 4)).
  { intros p n o. unfold lookup, mro_of.
    destruct p as [|[|[|[|p]]]]; cbn;
      repeat match goal with |- context[String.eqb n ?t] => destruct (String.eqb_spec n t) end;
      try (intro H; injection H as <-); subst; auto; try discriminate.
    destruct p; discriminate. }
  intros p q n m o H1 H2. apply L in H1, H2. intuition (subst; congruence).
Qed.

Example ex_c134 :
  let s := inherit_docstrings ex_classes (fun _ => true) 3 ["_g"; "f"] (ex_docs (Some "a") (Some "a")) in
  doc s 3 = Some "a" /\ doc s 4 = None /\ warned s = [].
Proof. vm_compute. repeat split. Qed.

(** Missing and empty documentation count alike, any other text is documentation. *)
Theorem c134_text : forall d, has_text d = false <-> d = None \/ d = Some "".
Proof.
  intros [[|a s]|]; cbn; split; intro H; auto; try discriminate.
  destruct H; discriminate.
Qed.
Print Assumptions c134_text.

(** "until it finds a docstring": false, a documentation that was found is replaced by
    that of a later parent ... *)
Theorem c134_first_refuted :
  ~ (forall classes is_member c names s n f o r, one_name classes -> NoDup names -> In n names -> public n ->
       lookup classes c n = Some f -> is_member f = true -> has_text (doc s f) = false ->
       offers classes c n f = o :: r -> has_text (doc s o) = true ->
       doc (inherit_docstrings classes is_member c names s) f = doc s o).
Proof.
  intro H.
  specialize (H ex_classes (fun _ => true) 3 ["f"] (ex_docs (Some "a") (Some "b")) "f" 3 1 [2] ex_one
    ltac:(repeat constructor; auto) ltac:(left; reflexivity) eq_refl eq_refl eq_refl eq_refl eq_refl eq_refl).
  vm_compute in H. discriminate.
Qed.
Print Assumptions c134_first_refuted.

(** ... even if that is empty: "or leave it blank, in case no parent has a docstring
    available" is false, too. *)
Theorem c134_blank_refuted :
  ~ (forall classes is_member c names s n f, one_name classes -> NoDup names -> In n names -> public n ->
       lookup classes c n = Some f -> is_member f = true ->
       has_text (doc (inherit_docstrings classes is_member c names s) f) = false ->
       forall o, In o (offers classes c n f) -> has_text (doc s o) = false).
Proof.
  intro H.
  specialize (H ex_classes (fun _ => true) 3 ["f"] (ex_docs (Some "a") None) "f" 3 ex_one
    ltac:(repeat constructor; auto) ltac:(left; reflexivity) eq_refl eq_refl eq_refl eq_refl 1 ltac:(left; reflexivity)).
  vm_compute in H. discriminate.
Qed.
Print Assumptions c134_blank_refuted.

(** The functions of other classes change as well: an inherited function without
    documentation. *)
Theorem c134_own_refuted :
  ~ (forall classes is_member c names s o, one_name classes ->
       (forall n, dget n (own_of classes c) <> Some o) ->
       doc (inherit_docstrings classes is_member c names s) o = doc s o).
Proof.
  intro H.
  specialize (H [Class [("f", 1)] [0]; Class [("f", 2)] [1; 0]; Class [] [2; 1; 0]] (fun _ => true) 2 ["f"]
    (ex_docs (Some "a") None) 2).
  vm_compute in H. assert (Z : @None string = Some "a"); [|discriminate].
  symmetry. apply H; [|discriminate].
  assert (L : forall p n o, lookup [Class [("f", 1)] [0]; Class [("f", 2)] [1; 0]; Class [] [2; 1; 0]] p n = Some o -> n = "f").
  { intros p n o. unfold lookup, mro_of.
    destruct p as [|[|[|p]]]; cbn;
      repeat match goal with |- context[String.eqb n ?t] => destruct (String.eqb_spec n t) end;
      try (intro H1; injection H1 as <-); subst; auto; try discriminate.
    destruct p; discriminate. }
  intros p q n m o H1 H2. apply L in H1, H2. congruence.
Qed.
Print Assumptions c134_own_refuted.

(** ** C135 Deprecated functions and functions for keys *)

(** The wrapped function does what the function does, after exactly one warning. *)
Theorem c135_call : forall (A B : Type) since removed message name (func : A -> res B) args,
  snd (deprecated since removed message name func args) = func args /\
  exists text, fst (deprecated since removed message name func args) = [text].
Proof. intros. split; [reflexivity|]. eexists. reflexivity. Qed.
Print Assumptions c135_call.

Lemma app_assoc_s : forall a b c : string, (a ++ b) ++ c = a ++ (b ++ c).
Proof. induction a; intros; cbn; [reflexivity|]. now rewrite IHa. Qed.

(** The warning is made of lines: the name and what is given, in this order. *)
Theorem c135_text : forall since removed message name,
  deprecated_text since removed message name
  = String.concat newline
      ([("Call to deprecated function " ++ name ++ ".")%string]
       ++ match since with Some t => [("Deprecated since: " ++ t)%string] | None => [] end
       ++ match removed with Some t => [("Removed in: " ++ t)%string] | None => [] end
       ++ [match message with Some t => t | None => "" end])%list.
Proof.
  intros since removed message name. unfold deprecated_text, opt_line.
  destruct since, removed; cbn [app String.concat]; rewrite !app_assoc_s; reflexivity.
Qed.
Print Assumptions c135_text.
Example ex_c135 : deprecated_text (Some "0.6") (Some "0.7") (Some "m") "f" =
  "Call to deprecated function f." ++ newline ++ "Deprecated since: 0.6" ++ newline ++ "Removed in: 0.7" ++ newline ++ "m".
Proof. reflexivity. Qed.

(** Keys and their order are kept; values with a function are replaced by its result, the
    others kept. *)
Theorem c135_mapping : forall (V : Type) (funcs : dict (V -> res V)) inputs d,
  apply_func_by_mapping funcs inputs = Ok d ->
  dkeys d = dkeys inputs /\
  Forall2 (fun i o => match dget (fst i) funcs with Some f => f (snd i) = Ok (snd o) | None => snd o = snd i end) inputs d.
Proof.
  intros V funcs. induction inputs as [|[k v] r IH]; intros d H; cbn in H.
  - injection H as <-. split; constructor.
  - destruct (match dget k funcs with Some f => f v | None => Ok v end) as [w|] eqn:E1; [|discriminate].
    destruct (apply_func_by_mapping funcs r) as [d'|]; [|discriminate]. cbn in H. injection H as <-.
    destruct (IH d' eq_refl) as [I1 I2]. split; [unfold dkeys in *; cbn; now rewrite I1|]. constructor; [|exact I2]. cbn.
    destruct (dget k funcs); congruence.
Qed.
Print Assumptions c135_mapping.

(** It fails exactly if a function fails, with the exception of the first one. *)
Theorem c135_mapping_fails : forall (V : Type) (funcs : dict (V -> res V)) inputs e,
  apply_func_by_mapping funcs inputs = Err e <->
  exists a k v f b, inputs = (a ++ (k, v) :: b)%list /\ dget k funcs = Some f /\ f v = Err e /\
    Forall (fun i => match dget (fst i) funcs with Some g => is_ok (g (snd i)) = true | None => True end) a.
Proof.
  intros V funcs inputs e. split.
  - revert inputs. induction inputs as [|[k v] r IH]; intro H; cbn in H; [discriminate|].
    destruct (dget k funcs) as [f|] eqn:Ek.
    + destruct (f v) as [w|x] eqn:Ev.
      * cbn in H. destruct (apply_func_by_mapping funcs r) as [d|x]; [discriminate|]. cbn in H. injection H as ->.
        destruct (IH eq_refl) as (a & k2 & v2 & f2 & b & -> & H2 & H3 & H4).
        exists ((k, v) :: a), k2, v2, f2, b. repeat split; try assumption. constructor; [|exact H4]. cbn. now rewrite Ek, Ev.
      * cbn in H. injection H as ->. exists [], k, v, f, r. repeat split; auto.
    + cbn in H. destruct (apply_func_by_mapping funcs r) as [d|x]; [discriminate|]. cbn in H. injection H as ->.
      destruct (IH eq_refl) as (a & k2 & v2 & f2 & b & -> & H2 & H3 & H4).
      exists ((k, v) :: a), k2, v2, f2, b. repeat split; try assumption. constructor; [|exact H4]. cbn. now rewrite Ek.
  - intros (a & k & v & f & b & -> & Hk & Hf & Ha). induction Ha as [|[k2 v2] a H1 H2 IH]; cbn.
    + rewrite Hk, Hf. reflexivity.
    + cbn in H1. destruct (dget k2 funcs) as [g|].
      * destruct (g v2) as [w|]; [|discriminate]. cbn. now rewrite IH.
      * cbn. now rewrite IH.
Qed.
Print Assumptions c135_mapping_fails.
Example ex_c135_mapping : apply_func_by_mapping [("a", fun x => Ok (x + 1)); ("z", fun _ => Err ValueError)] [("b", 5); ("a", 1)] = Ok [("b", 5); ("a", 2)].
Proof. reflexivity. Qed.
