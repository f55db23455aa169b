(** Lemmas about expression series. *)
From Coq Require Import List String Bool Arith Permutation Lia.
From Verif Require Import Base ExprModel ExprSpec CsmGraphFacts.
Import ListNotations.
Open Scope list_scope.

Section Inverse.
  Lemma inverse_get_in : forall s d (dims : dict string), NoDup (map snd dims) -> In (s, d) dims -> inverse_get d dims = s.
  Proof.
    intros s d. induction dims as [|[s' d'] r IH]; intros N I; [destruct I|]. cbn [map snd] in N. inversion N as [|? ? N1 N2]; subst.
    cbn [inverse_get]. destruct I as [E|I].
    - injection E as -> ->. rewrite String.eqb_refl. reflexivity.
    - destruct (String.eqb_spec d d') as [->|_]; [|exact (IH N2 I)].
      exfalso. apply N1. apply (in_map snd) in I. exact I.
  Qed.
  Lemma inverse_get_out : forall k (dims : dict string), ~ In k (map snd dims) -> inverse_get k dims = k.
  Proof.
    intros k. induction dims as [|[s d] r IH]; intros N; [reflexivity|]. cbn [inverse_get]. cbn in N.
    destruct (String.eqb_spec k d) as [->|_]; [tauto|]. apply IH. tauto.
  Qed.
End Inverse.

Lemma ddel_In : forall (V : Type) k (d : dict V) p, In p (ddel k d) <-> In p d /\ fst p <> k.
Proof.
  intros V k d p. unfold ddel. rewrite filter_In. destruct (String.eqb_spec k (fst p)) as [E|E]; cbn; split; intros [H1 H2]; split; try exact H1; congruence.
Qed.
Lemma ddel_keys : forall (V : Type) k (d : dict V) x, In x (dkeys (ddel k d)) <-> In x (dkeys d) /\ x <> k.
Proof.
  intros V k d x. unfold dkeys. rewrite !in_map_iff. split.
  - intros (p & E & I). apply ddel_In in I. destruct I as [I N]. subst x. split; [eauto|exact N].
  - intros ((p & E & I) & N). exists p. split; [exact E|]. apply ddel_In. split; [exact I|congruence].
Qed.
Lemma NoDup_map_filter : forall (A B : Type) (h : A -> B) f l, NoDup (map h l) -> NoDup (map h (filter f l)).
Proof.
  intros A B h f. induction l as [|a l IH]; intros N; [constructor|]. inversion N as [|? ? N1 N2]; subst. cbn [filter].
  destruct (f a); [|exact (IH N2)]. cbn [map]. constructor; [|exact (IH N2)]. intros I. apply N1.
  apply in_map_iff in I. destruct I as (b & E & I). apply filter_In in I. apply in_map_iff. exists b. tauto.
Qed.

Section Facts.
  Context {D U T : Type}.
  Implicit Types g : eseries D U T.

  Lemma num_variables_dims : forall g, consistent g -> num_variables g = List.length (es_dims g).
  Proof.
    intros g (Nf & Np & Nd & _ & F & X & _). unfold num_variables.
    assert (P : Permutation (es_free g) (dkeys (es_params g) ++ dkeys (es_dims g))).
    { apply NoDup_Permutation; [exact Nf| |].
      - revert Np X. generalize (dkeys (es_params g)). induction l as [|a l IH]; intros Np X; [exact Nd|]. inversion Np as [|? ? N1 N2]; subst.
        cbn. constructor.
        + intros I. apply in_app_or in I. destruct I as [I|I]; [contradiction|]. exact (X a (or_introl eq_refl) I).
        + apply IH; [exact N2|]. intros s I. apply X. right; exact I.
      - intros x. rewrite in_app_iff. apply F. }
    rewrite (Permutation_length P), app_length. unfold dkeys. rewrite !map_length. lia.
  Qed.

  (** [h] is [g] after the coordinates [kw] have become parameters *)
  Definition after g (kw : list (string * coord D)) (h : eseries D U T) : Prop :=
    es_free h = es_free g /\ es_fn h = es_fn g /\ consistent h /\
    (forall p, In p (es_dims h) <-> In p (es_dims g) /\ ~ In (snd p) (map fst kw)) /\
    (forall s a, dget s (es_params g) = Some a -> dget s (es_params h) = Some a) /\
    (forall s d l, In (s, d) (es_dims g) -> In (d, Many l) kw -> dget s (es_params h) = Some (Arg [d] l [])).

  Lemma after_nil : forall g, consistent g -> after g [] g.
  Proof.
    intros g C. split; [reflexivity|]. split; [reflexivity|]. split; [exact C|]. split; [|split].
    - intros p. cbn. tauto.
    - auto.
    - intros s d l _ [].
  Qed.

  Lemma after_app : forall g a h b k, NoDup (map fst (a ++ b)) -> after g a h -> after h b k -> after g (a ++ b) k.
  Proof.
    intros g a h b k N (F1 & G1 & C1 & D1 & P1 & S1) (F2 & G2 & C2 & D2 & P2 & S2).
    split; [congruence|]. split; [congruence|]. split; [exact C2|]. split; [|split].
    - intros p. rewrite D2, D1, map_app, in_app_iff. tauto.
    - intros s x E. apply P2, P1, E.
    - intros s d l I J. apply in_app_or in J. destruct J as [J|J]; [apply P2; exact (S1 s d l I J)|].
      apply (S2 s d l); [|exact J]. apply D1. split; [exact I|]. cbn [snd]. intros M.
      apply (in_map fst) in J. cbn [fst] in J. rewrite map_app in N.
      apply in_split in M. destruct M as (x & y & E). rewrite E, <- app_assoc in N. cbn in N.
      apply NoDup_remove_2 in N. apply N. rewrite !in_app_iff. auto.
  Qed.

  Lemma in_dims_key : forall g s d, In (s, d) (es_dims g) -> In s (dkeys (es_dims g)).
  Proof. intros g s d I. apply (in_map fst) in I. exact I. Qed.

  (** one coordinate *)
  Lemma set_one : forall self g s d l, consistent self -> consistent g -> incl (es_dims g) (es_dims self) -> In (s, d) (es_dims g) ->
    exists h, set_coord_of self g d (Many l) = Ok h /\ after g [(d, Many l)] h /\ incl (es_dims h) (es_dims self).
  Proof.
    intros self g s d l Cs C X I. pose proof C as (Nf & Np & Nd & Ns & F & Y & Un).
    unfold set_coord_of. assert (E : inverse_get d (es_dims self) = s).
    { apply inverse_get_in; [apply Cs|]. apply X, I. }
    pose proof (in_dims_key g s d I) as K.
    rewrite E. replace (smem s (es_free g)) with true by (symmetry; apply smem_In, F; auto).
    replace (dmem s (es_dims g)) with true by (symmetry; apply dmem_In; exact K).
    replace (dmem s (es_units g)) with true by (symmetry; apply dmem_In, Un; exact K). cbn [negb].
    eexists. split; [reflexivity|]. split; [|intros p Q; apply ddel_In in Q; apply X, Q].
    assert (Q : forall p, In p (ddel s (es_dims g)) <-> In p (es_dims g) /\ snd p <> d).
    { intros [s' d']. rewrite ddel_In. cbn [fst snd]. split; intros [H1 H2]; split; try exact H1; intros ->; apply H2.
      - rewrite <- (inverse_get_in s' d _ Ns H1). exact (inverse_get_in s d _ Ns I).
      - pose proof (proj2 (dget_In _ s _ Nd d') H1) as A1. pose proof (proj2 (dget_In _ s _ Nd d) I) as A2. congruence. }
    split; [reflexivity|]. split; [reflexivity|]. split; [|split; [|split]]; cbn [es_free es_fn es_params es_dims es_units].
    - split; [exact Nf|]. split; [apply dset_keys_NoDup; exact Np|]. split; [apply NoDup_map_filter; exact Nd|].
      split; [apply NoDup_map_filter; exact Ns|]. split; [|split].
      + intros x. cbn [es_free es_params es_dims]. rewrite dset_keys, ddel_keys, F. destruct (string_dec x s); subst; tauto.
      + intros x. cbn [es_params es_dims]. rewrite dset_keys, ddel_keys. intros [->|H] [H1 H2]; [congruence|]. exact (Y x H H1).
      + intros x. cbn [es_units es_dims]. rewrite !ddel_keys, Un. tauto.
    - intros p. cbn [map fst In]. rewrite Q. split; intros [H1 H2]; split; try exact H1; [intros [H|[]]|]; auto.
    - intros x a H. rewrite dget_dset. destruct (String.eqb_spec x s) as [->|_]; [|exact H].
      exfalso. apply (Y s); [apply dget_key; eauto|exact K].
    - intros s' d' l' H [H'|[]]. injection H' as <- <-. rewrite dget_dset.
      replace s' with s; [rewrite String.eqb_refl; reflexivity|].
      rewrite <- (inverse_get_in s d _ Ns I). exact (inverse_get_in s' d _ Ns H).
  Qed.

  Lemma set_coords_after : forall self kw g, consistent self -> consistent g -> incl (es_dims g) (es_dims self) ->
    named g kw -> all_axes kw -> exists h, set_coords self g kw = Ok h /\ after g kw h.
  Proof.
    intros self. induction kw as [|[d c] r IH]; intros g Cs C X N A; [exists g; split; [reflexivity|exact (after_nil g C)]|].
    destruct (A d c (or_introl eq_refl)) as [l ->]. destruct N as [N1 N2].
    assert (exists s, In (s, d) (es_dims g)) as [s I].
    { assert (M : In d (free_dims g)) by (apply N2; left; reflexivity). unfold free_dims in M. apply in_map_iff in M.
      destruct M as ([s d'] & <- & I). exists s. exact I. }
    destruct (set_one self g s d l Cs C X I) as (h & E & H & X'). cbn [set_coords]. rewrite E. cbn [bind].
    cbn [map fst] in N1. inversion N1 as [|? ? M1 M2]; subst.
    destruct (IH h Cs) as (k & E' & H').
    - apply H.
    - exact X'.
    - split; [exact M2|]. intros x J. assert (M : In x (free_dims g)) by (apply N2; right; exact J). unfold free_dims in *.
      apply in_map_iff in M. destruct M as ([s' d'] & <- & I'). cbn [snd] in *. apply in_map_iff. exists (s', d'). split; [reflexivity|].
      destruct H as (_ & _ & _ & H & _). apply H. split; [exact I'|]. cbn. intros [->|[]]. contradiction.
    - intros k c J. exact (A k c (or_intror J)).
    - exists k. split; [exact E'|]. exact (after_app g [(d, Many l)] h r k N1 H H').
  Qed.

  (** the arguments of the function when everything is evaluated at once *)
  Lemma eval_args_other : forall g kw acc s, (forall d c, In (d, c) kw -> inverse_get d (es_dims g) <> s) ->
    dget s (eval_args g kw acc) = dget s acc.
  Proof.
    intros g. induction kw as [|[d c] r IH]; intros acc s H; [reflexivity|]. cbn [eval_args]. rewrite IH.
    - rewrite dget_dset. destruct (String.eqb_spec s (inverse_get d (es_dims g))) as [E|_]; [|reflexivity].
      exfalso. exact (H d c (or_introl eq_refl) (eq_sym E)).
    - intros d' c' I. exact (H d' c' (or_intror I)).
  Qed.
  Lemma eval_args_get : forall g kw acc s d c, consistent g -> named g kw -> In (s, d) (es_dims g) -> In (d, c) kw ->
    dget s (eval_args g kw acc) = Some (coord_arg d c).
  Proof.
    intros g. induction kw as [|[d' c'] r IH]; intros acc s d c C [N1 N2] I J; [destruct J|].
    cbn [map fst] in N1. inversion N1 as [|? ? M1 M2]; subst. cbn [eval_args]. destruct J as [E|J].
    - injection E as -> ->. rewrite eval_args_other.
      + rewrite (inverse_get_in s d); [|apply C|exact I]. rewrite dget_dset, String.eqb_refl. reflexivity.
      + intros d' c' J E. assert (K : In d' (free_dims g)) by (apply N2; right; apply (in_map fst) in J; exact J).
        unfold free_dims in K. apply in_map_iff in K. destruct K as ([s' d''] & <- & K). cbn [snd] in *.
        assert (NS : NoDup (map snd (es_dims g))) by apply C. rewrite (inverse_get_in s' d'' _ NS K) in E. subst s'.
        assert (ND : NoDup (dkeys (es_dims g))) by apply C.
        pose proof (proj2 (dget_In _ s _ ND d'') K). pose proof (proj2 (dget_In _ s _ ND d) I).
        assert (d'' = d) by congruence. subst. apply M1. apply (in_map fst) in J. exact J.
    - apply IH; [exact C| |exact I|exact J]. split; [exact M2|]. intros x Q. apply N2. right. exact Q.
  Qed.
  Lemma eval_args_keys : forall g kw acc s, In s (dkeys (eval_args g kw acc)) ->
    In s (dkeys acc) \/ exists d c, In (d, c) kw /\ inverse_get d (es_dims g) = s.
  Proof.
    intros g. induction kw as [|[d c] r IH]; intros acc s I; [left; exact I|]. cbn [eval_args] in I. apply IH in I.
    destruct I as [I|(d' & c' & J & E)].
    - apply dset_keys in I. destruct I as [->|I]; [right; exists d, c; split; [left; reflexivity|reflexivity]|left; exact I].
    - right. exists d', c'. split; [right; exact J|exact E].
  Qed.

  Lemma positional_ok : forall free (vars params : dict (arg D)), (forall s, In s free -> In s (dkeys vars) \/ In s (dkeys params)) ->
    exists args, positional free vars params = Ok args /\
      Forall2 (fun s a => dget s vars = Some a \/ (dget s vars = None /\ dget s params = Some a)) free args.
  Proof.
    intros free vars params. induction free as [|s r IH]; intros H; [exists (@nil (arg D)); split; [reflexivity|constructor]|].
    destruct IH as (args & E & F); [intros x I; apply H; right; exact I|]. cbn [positional]. rewrite E. cbn [bind].
    destruct (dget s vars) as [a|] eqn:V.
    - exists (a :: args). split; [reflexivity|]. constructor; [left; exact V|exact F].
    - destruct (dget s params) as [a|] eqn:P.
      + exists (a :: args). split; [reflexivity|]. constructor; [right; split; assumption|exact F].
      + exfalso. apply dget_none in V. apply dget_none in P. destruct (H s (or_introl eq_refl)); contradiction.
  Qed.

  Lemma covers : forall g kw, consistent g -> named g kw -> List.length kw = num_variables g -> forall d, In d (free_dims g) -> In d (map fst kw).
  Proof.
    intros g kw C [N I] L. rewrite (num_variables_dims g C) in L.
    apply (NoDup_length_incl N); [|exact I]. unfold free_dims. rewrite !map_length. lia.
  Qed.

  Lemma at_once_args : forall g kw, consistent g -> named g kw -> List.length kw = num_variables g ->
    exists args, evaluate_expr g kw = bind (es_fn g (map value_of args)) (fun v => Ok (Discrete v (flat_map a_coords args))) /\
      Forall2 (fun s a => dget s (es_params g) = Some a \/ exists d c, In (s, d) (es_dims g) /\ In (d, c) kw /\ a = coord_arg d c)
        (es_free g) args.
  Proof.
    intros g kw C N L. pose proof C as (Nf & Np & Nd & Ns & F & Y & Un). pose proof N as [N1 N2].
    assert (S : forall s, In s (dkeys (eval_args g kw [])) -> In s (dkeys (es_dims g))).
    { intros s I. apply eval_args_keys in I. destruct I as [[]|(d & c & J & E)].
      assert (K : In d (free_dims g)) by (apply N2; apply (in_map fst) in J; exact J). apply in_map_iff in K.
      destruct K as ([s' d'] & <- & K). cbn [snd] in *. rewrite (inverse_get_in s' d' _ Ns K) in E. subst s'.
      exact (in_dims_key g s d' K). }
    destruct (positional_ok (es_free g) (eval_args g kw []) (es_params g)) as (args & E & A).
    { intros s I. apply F in I. destruct I as [I|I]; [right; exact I|left].
      apply in_map_iff in I. destruct I as ([s' d] & <- & I). cbn [fst].
      assert (K : In d (map fst kw)) by (apply (covers g kw C N L); apply (in_map snd) in I; exact I).
      apply in_map_iff in K. destruct K as ([d' c] & <- & K). cbn [fst] in I. apply dget_key. exists (coord_arg d' c).
      exact (eval_args_get g kw [] s' d' c C N I K). }
    exists args. split.
    - unfold evaluate_expr. rewrite L, Nat.eqb_refl. unfold evaluate_math.
      replace (existsb _ (eval_args g kw [])) with false.
      + replace (forallb _ (eval_args g kw [])) with true.
        * cbn [negb]. rewrite E. cbn [bind]. destruct (es_fn g (map value_of args)); reflexivity.
        * symmetry. apply forallb_forall. intros [s a] I. cbn [fst]. apply smem_In, F. right. apply S.
          apply (in_map fst) in I. exact I.
      + symmetry. destruct (existsb _ _) eqn:Q; [|reflexivity]. exfalso. apply existsb_exists in Q. destruct Q as ([s a] & I & Q).
        cbn [fst] in Q. apply dmem_In in Q. apply (Y s Q). apply S. apply (in_map fst) in I. exact I.
    - assert (forall s, In s (es_free g) -> forall a, (dget s (eval_args g kw []) = Some a \/ dget s (eval_args g kw []) = None /\ dget s (es_params g) = Some a) ->
        dget s (es_params g) = Some a \/ exists d c, In (s, d) (es_dims g) /\ In (d, c) kw /\ a = coord_arg d c) as Q.
      { intros s I a [H|[_ H]]; [right|left; exact H].
        assert (K : In s (dkeys (es_dims g))) by (apply S; apply dget_key; eauto).
        apply in_map_iff in K. destruct K as ([s' d] & <- & K). cbn [fst] in *.
        assert (M : In d (map fst kw)) by (apply (covers g kw C N L); apply (in_map snd) in K; exact K).
        apply in_map_iff in M. destruct M as ([d' c] & <- & M). cbn [fst] in *. exists d', c. split; [exact K|]. split; [exact M|].
        rewrite (eval_args_get g kw [] s' d' c C N K M) in H. congruence. }
      clear E L. revert A Q. generalize (es_free g). intros free A. induction A as [|s a fs as' H A IH]; intros Q; constructor.
      + apply Q; [left; reflexivity|exact H].
      + apply IH. intros s' I. apply Q. right. exact I.
  Qed.

  (** what a symbol gets is determined *)
  Lemma gets_fun : forall g kw s v w, consistent g -> named g kw -> gets g kw s v -> gets g kw s w -> v = w.
  Proof.
    intros g kw s v w (_ & Np & Nd & Ns & F & Y & _) [N1 N2] [(a & A & ->)|(d & c & I & J & ->)] [(a' & A' & ->)|(d' & c' & I' & J' & ->)].
    - congruence.
    - exfalso. apply (Y s); [apply dget_key; eauto|exact (in_dims_key g s d' I')].
    - exfalso. apply (Y s); [apply dget_key; eauto|exact (in_dims_key g s d I)].
    - pose proof (proj2 (dget_In _ s _ Nd d) I). pose proof (proj2 (dget_In _ s _ Nd d') I'). assert (d = d') by congruence. subst d'.
      pose proof (proj2 (dget_In _ d kw N1 c) J). pose proof (proj2 (dget_In _ d kw N1 c') J'). assert (c = c') by congruence. subst c'. reflexivity.
  Qed.

  Lemma Forall2_unique : forall (A B : Type) (P : A -> B -> Prop) l x y,
    (forall a b c, In a l -> P a b -> P a c -> b = c) -> Forall2 P l x -> Forall2 P l y -> x = y.
  Proof.
    intros A B P l x y H X. revert y H. induction X as [|a b l x Pab X IH]; intros y H Z; inversion Z as [|? c ? y' Pac Z']; subst; [reflexivity|].
    f_equal; [exact (H a b c (or_introl eq_refl) Pab Pac)|]. apply IH; [|exact Z']. intros a' b' c' I. apply H. right; exact I.
  Qed.

  (** arguments as described by [gets] *)
  Lemma args_gets : forall g kw free args,
    Forall2 (fun s a => dget s (es_params g) = Some a \/ exists d c, In (s, d) (es_dims g) /\ In (d, c) kw /\ a = coord_arg d c) free args ->
    Forall2 (gets g kw) free (map value_of args).
  Proof.
    intros g kw free args F. induction F as [|s a free args H F IH]; [constructor|]. cbn [map]. constructor; [|exact IH].
    destruct H as [H|(d & c & I & J & ->)]; [left; exists a; auto|right; exists d, c; auto].
  Qed.

  Lemma gets_after : forall g a h b s v, after g a h -> all_axes a -> gets h b s v -> In s (es_free g) -> consistent g -> gets g (a ++ b) s v.
  Proof.
    intros g a h b s v (F1 & G1 & C1 & D1 & P1 & S1) A [(x & X & ->)|(d & c & I & J & ->)] M C.
    - assert (K : In s (dkeys (es_params g)) \/ In s (dkeys (es_dims g))) by (apply C; exact M). destruct K as [K|K].
      + apply dget_key in K. destruct K as [y K]. left. exists x. split; [|reflexivity]. rewrite (P1 s y K) in X. congruence.
      + apply in_map_iff in K. destruct K as ([s' d] & <- & K). cbn [fst] in *.
        destruct (in_dec string_dec d (map fst a)) as [Q|Q].
        * apply in_map_iff in Q. destruct Q as ([d' c] & <- & Q). cbn [fst] in *. destruct (A d' c Q) as [l ->].
          rewrite (S1 s' d' l K Q) in X. injection X as <-. right. exists d', (Many l). cbn. rewrite in_app_iff. auto.
        * exfalso. assert (R : In (s', d) (es_dims h)) by (apply D1; auto).
          destruct C1 as (_ & _ & _ & _ & _ & Y & _). apply (Y s'); [apply dget_key; eauto|exact (in_dims_key h s' d R)].
    - right. exists d, c. split; [apply D1, I|]. split; [apply in_or_app; right; exact J|reflexivity].
  Qed.
End Facts.

Lemma Forall2_in_l : forall (A B : Type) (P : A -> B -> Prop) l m a, Forall2 P l m -> In a l -> exists b, In b m /\ P a b.
Proof.
  intros A B P l m a F. induction F as [|x y l m H F IH]; intros I; [destruct I|]. destruct I as [->|I].
  - exists y. split; [left; reflexivity|exact H].
  - destruct (IH I) as (b & J & Q). exists b. split; [right; exact J|exact Q].
Qed.
Lemma Forall2_impl_in : forall (A B : Type) (P Q : A -> B -> Prop) l m, Forall2 P l m ->
  (forall a b, In a l -> P a b -> Q a b) -> Forall2 Q l m.
Proof.
  intros A B P Q l m F. induction F as [|x y l m H F IH]; intros X; constructor; [apply X; [left; reflexivity|exact H]|].
  apply IH. intros a b I. apply X. right; exact I.
Qed.
Arguments Forall2_in_l {A B P l m a}.
Arguments Forall2_impl_in {A B P} Q l {m}.

Lemma NoDup_app_l : forall (A : Type) (a b : list A), NoDup (a ++ b) -> NoDup a.
Proof.
  intros A a b. induction a as [|x a IH]; intros N; [constructor|]. inversion N as [|? ? N1 N2]; subst. constructor; [|exact (IH N2)].
  intros I. apply N1. apply in_or_app; left; exact I.
Qed.
Lemma NoDup_app_r : forall (A : Type) (a b : list A), NoDup (a ++ b) -> NoDup b.
Proof. intros A a b. induction a as [|x a IH]; intros N; [exact N|]. inversion N as [|? ? N1 N2]; subst. exact (IH N2). Qed.
Lemma NoDup_app_disjoint : forall (A : Type) (a b : list A) x, NoDup (a ++ b) -> In x b -> ~ In x a.
Proof.
  intros A a b x N I J. apply in_split in J. destruct J as (p & q & ->). rewrite <- app_assoc in N. cbn in N.
  apply NoDup_remove_2 in N. apply N. rewrite !in_app_iff. auto.
Qed.
Arguments NoDup_app_l {A}.
Arguments NoDup_app_r {A}.
Arguments NoDup_app_disjoint {A}.

Lemma eval_args_mono : forall (D U T : Type) (g : eseries D U T) kw acc s, In s (dkeys acc) -> In s (dkeys (eval_args g kw acc)).
Proof.
  intros D U T g. induction kw as [|[k c] r IH]; intros acc s I; [exact I|]. cbn [eval_args]. apply IH. apply dset_keys. right; exact I.
Qed.

Lemma is_value_fun : forall (D U T : Type) (r : res (result D U T)) v w, is_value r v -> is_value r w -> v = w.
Proof.
  intros D U T r [v|e] [w|e'] H H'; cbn in *.
  - destruct H as (c & ->). destruct H' as (c' & E). injection E as -> _. reflexivity.
  - destruct H as (c & ->). discriminate H'.
  - destruct H' as (c & ->). discriminate H.
  - rewrite H in H'. injection H' as ->. reflexivity.
Qed.
