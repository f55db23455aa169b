(** Facts about the shape validation. *)
From Coq Require Import List String Ascii Bool ZArith DecimalString DecimalN Lia.
From Verif Require Import Base ShapeModel ShapeSpec.
Import ListNotations.
Open Scope Z_scope.
Open Scope list_scope.

(** ** Characters *)
Lemma digit_iff : forall a, is_digit a = true <-> 48 <= Z.of_N (N_of_ascii a) <= 57.
Proof. intros a. unfold is_digit. rewrite andb_true_iff, !N.leb_le. lia. Qed.
Lemma letter_iff : forall a, is_letter a = true <->
  65 <= Z.of_N (N_of_ascii a) <= 90 \/ 97 <= Z.of_N (N_of_ascii a) <= 122.
Proof. intros a. unfold is_letter. rewrite orb_true_iff, !andb_true_iff, !N.leb_le. lia. Qed.

Definition alnum (a : ascii) : bool := is_digit a || is_letter a.

Lemma all_chars_app : forall p s t, all_chars p (s ++ t) = all_chars p s && all_chars p t.
Proof. induction s as [|a s IH]; intros t; cbn; [ reflexivity | ]. rewrite IH. apply andb_assoc. Qed.
Lemma all_chars_impl : forall (p q : ascii -> bool) s, (forall a, p a = true -> q a = true) ->
  all_chars p s = true -> all_chars q s = true.
Proof.
  induction s as [|a s IH]; intros H K; cbn in *; [ reflexivity | ].
  apply andb_true_iff in K. destruct K. rewrite H, IH; auto.
Qed.

Lemma each_alnum : forall s, each_char alnum_char s <-> all_chars alnum s = true.
Proof.
  induction s as [|a s IH]; cbn; [ tauto | ]. rewrite andb_true_iff, <- IH. unfold alnum at 1, alnum_char at 1.
  rewrite orb_true_iff, digit_iff, letter_iff. tauto.
Qed.

(** a character that is excluded by [p] does not occur *)
Lemma no_char : forall p c s, all_chars p s = true -> p c = false -> has_char c s = false.
Proof.
  induction s as [|a s IH]; intros H K; cbn in *; [ reflexivity | ].
  apply andb_true_iff in H. destruct H as [H1 H2]. rewrite IH by assumption.
  destruct (Ascii.eqb_spec a c); [ congruence | reflexivity ].
Qed.
Lemma remove_none : forall c s, has_char c s = false -> remove_char c s = s.
Proof.
  induction s as [|a s IH]; intros H; cbn in *; [ reflexivity | ].
  apply orb_false_iff in H. destruct H as [H1 H2]. rewrite H1, IH by assumption. reflexivity.
Qed.
Lemma remove_app : forall c s t, remove_char c (s ++ t) = (remove_char c s ++ remove_char c t)%string.
Proof. induction s as [|a s IH]; intros t; cbn; [ reflexivity | ]. destruct (Ascii.eqb a c); rewrite IH; reflexivity. Qed.
Lemma has_char_app : forall c s t, has_char c (s ++ t) = has_char c s || has_char c t.
Proof. induction s as [|a s IH]; intros t; cbn; [ reflexivity | ]. rewrite IH. apply orb_assoc. Qed.
Lemma no_dots : forall s, has_char "." s = false -> has_dots s = false.
Proof.
  induction s as [|a s IH]; intros H; [ reflexivity | ]. cbn [has_char] in H. apply orb_false_iff in H. destruct H as [H1 H2].
  cbn [has_dots]. rewrite IH by assumption. rewrite orb_false_r. cbn [prefix].
  destruct (Ascii.ascii_dec "." a) as [E|]; [ | reflexivity ]. subst a. discriminate.
Qed.
Lemma split_none : forall c s, has_char c s = false -> split c s = [s].
Proof.
  induction s as [|a s IH]; intros H; cbn in *; [ reflexivity | ].
  apply orb_false_iff in H. destruct H as [H1 H2]. rewrite H1, IH by assumption. reflexivity.
Qed.
Lemma split_one : forall c s t, has_char c s = false -> has_char c t = false -> split c (s ++ String c t) = [s; t].
Proof.
  induction s as [|a s IH]; intros t H K; cbn in *.
  - rewrite Ascii.eqb_refl, split_none by assumption. reflexivity.
  - apply orb_false_iff in H. destruct H as [H1 H2]. rewrite H1, IH by assumption. reflexivity.
Qed.

(** ** Numerals *)
Lemma digits_uint : forall u, all_chars is_digit (NilEmpty.string_of_uint u) = true.
Proof. induction u; cbn [NilEmpty.string_of_uint all_chars]; try reflexivity; rewrite IHu; reflexivity. Qed.
Lemma digits_parse : forall s, all_chars is_digit s = true -> exists u, NilEmpty.uint_of_string s = Some u /\ s = NilEmpty.string_of_uint u.
Proof.
  induction s as [|a s IH]; intros H; [ exists Decimal.Nil; auto | ]. cbn [all_chars] in H.
  apply andb_true_iff in H. destruct H as [H1 H2]. destruct (IH H2) as (u & E & ->).
  destruct a as [[] [] [] [] [] [] [] []]; try discriminate H1; cbn [NilEmpty.uint_of_string]; rewrite E; eexists; (split; [ reflexivity | reflexivity ]).
Qed.

Lemma numeral_iff : forall s n, numeral s n <-> isnumeric s = true /\ int_of s = Ok n.
Proof.
  intros s n. unfold isnumeric, int_of. split.
  - intros (u & Hu & -> & ->). rewrite digits_uint, NilEmpty.usu.
    assert (nonempty (NilEmpty.string_of_uint u) = true) as -> by (destruct u; [ contradiction | reflexivity .. ]). auto.
  - intros [H1 H2]. apply andb_true_iff in H1. destruct H1 as [H1 H3]. destruct (digits_parse s H3) as (u & E & F).
    rewrite E, H1 in H2. injection H2 as <-. exists u. split; [ intros ->; subst s; discriminate | auto ].
Qed.
Lemma numeral_digits : forall s n, numeral s n -> all_chars is_digit s = true /\ s <> ""%string.
Proof. intros s n (u & Hu & -> & _). split; [ apply digits_uint | destruct u; [ contradiction | discriminate .. ] ]. Qed.
Lemma numeral_nonneg : forall s n, numeral s n -> 0 <= n.
Proof. intros s n (u & _ & _ & ->). lia. Qed.
Lemma numeric_numeral : forall s, isnumeric s = true -> exists n, numeral s n.
Proof.
  intros s H. assert (K := H). unfold isnumeric in H. apply andb_true_iff in H. destruct H as [H1 H2]. destruct (digits_parse s H2) as (u & E & F).
  exists (Z.of_N (N.of_uint u)). apply numeral_iff. split; [ exact K | ]. unfold int_of. rewrite E, H1. reflexivity.
Qed.
Lemma str_of_numeral : forall z, 0 <= z -> numeral (str_of z) z.
Proof.
  intros z Hz. unfold numeral, str_of. exists (N.to_uint (Z.to_N z)). split.
  - destruct z as [|p|p]; [ discriminate | | lia ]. cbn [Z.to_N]. unfold N.to_uint. intros E.
    assert (Q := DecimalPos.Unsigned.to_uint_nonnil p). contradiction.
  - split; [ destruct z; [ reflexivity | reflexivity | lia ] | ]. rewrite DecimalN.Unsigned.of_to. lia.
Qed.

(** ** Written dimensions *)
Definition plain_char (a : ascii) : bool := alnum a || Ascii.eqb a "~".
Lemma digit_plain : forall a, is_digit a = true -> plain_char a = true.
Proof. intros a H. unfold plain_char, alnum. rewrite H. reflexivity. Qed.
Lemma digit_alnum : forall a, is_digit a = true -> alnum a = true.
Proof. intros a H. unfold alnum. rewrite H. reflexivity. Qed.
Lemma alnum_plain : forall a, alnum a = true -> plain_char a = true.
Proof. intros a H. unfold plain_char. rewrite H. reflexivity. Qed.

Lemma bound_digits : forall s o, bound s o -> all_chars is_digit s = true.
Proof. intros s o [|? ? H]; [ reflexivity | ]. apply (numeral_digits _ _ H). Qed.

Lemma written_plain : forall s p, written s p -> all_chars plain_char s = true.
Proof.
  intros s p [s' n H|s' H|s' t lo hi Hs Ht _].
  - eapply all_chars_impl; [ exact digit_plain | ]. apply (numeral_digits _ _ H).
  - destruct H as (_ & H & _). apply each_alnum in H. eapply all_chars_impl; [ exact alnum_plain | exact H ].
  - rewrite all_chars_app. cbn [all_chars]. rewrite !(all_chars_impl is_digit plain_char); auto using digit_plain.
    + eapply bound_digits; eassumption.
    + eapply bound_digits; eassumption.
Qed.

Lemma numeral_alnum : forall s n, numeral s n -> isalnum s = true /\ isnumeric s = true /\ has_char "~" s = false.
Proof.
  intros s n H. assert (Q := proj1 (numeral_iff s n) H). destruct (numeral_digits _ _ H) as [D E].
  split; [ | split; [ apply Q | ] ].
  - unfold isalnum. fold alnum. rewrite (all_chars_impl is_digit alnum s digit_alnum D). destruct s; [ contradiction | reflexivity ].
  - apply (no_char is_digit); [ exact D | reflexivity ].
Qed.

(** what the algorithm makes of a dimension *)
Definition is_name (s : string) : bool := isalnum s && negb (isnumeric s).

Lemma alnum_no_tilde : forall s, isalnum s = true -> has_char "~" s = false.
Proof. intros s H. unfold isalnum in H. apply andb_true_iff in H. destruct H as [_ H]. apply (no_char _ _ _ H). reflexivity. Qed.

Lemma bound_lower : forall s lo, bound s lo -> lower_bound s = Ok (match lo with Some a => a | None => 0 end).
Proof.
  intros s lo [|s' n H]; [ reflexivity | ]. unfold lower_bound. destruct (numeral_digits _ _ H) as [_ E].
  apply numeral_iff in H. destruct H as [H1 H2]. rewrite H1, H2. destruct s'; [ contradiction | reflexivity ].
Qed.
Lemma bound_upper : forall n s hi, bound s hi -> upper_bound n s = Ok (match hi with Some a => a | None => n end).
Proof.
  intros m s lo [|s' n H]; [ reflexivity | ]. unfold upper_bound. destruct (numeral_digits _ _ H) as [_ E].
  apply numeral_iff in H. destruct H as [H1 H2]. rewrite H1, H2. destruct s'; [ contradiction | reflexivity ].
Qed.

Lemma range_tilde : forall s t, has_char "~" (s ++ String "~" t) = true.
Proof. intros s t. rewrite has_char_app. cbn. apply orb_true_r. Qed.

Lemma compare_range : forall n s t lo hi, 0 <= n -> bound s lo -> bound t hi ->
  compare n (s ++ String "~" t) =
    let a := match lo with Some a => a | None => 0 end in
    let b := match hi with Some b => b | None => n end in
    if b <? a then Err WxSyntaxError else Ok ((a <=? n) && (n <=? b)).
Proof.
  intros n s t lo hi Hn Hs Ht. unfold compare. destruct (Z.ltb_spec n 0); [ lia | ]. rewrite range_tilde, split_one.
  - rewrite (bound_lower s lo Hs), (bound_upper n t hi Ht). reflexivity.
  - apply (no_char is_digit); [ eapply bound_digits; eassumption | reflexivity ].
  - apply (no_char is_digit); [ eapply bound_digits; eassumption | reflexivity ].
Qed.

Lemma compare_num : forall n s m, 0 <= n -> numeral s m -> compare n s = Ok (n =? m).
Proof.
  intros n s m Hn H. unfold compare. destruct (Z.ltb_spec n 0); [ lia | ]. destruct (numeral_alnum s m H) as (_ & _ & ->).
  apply numeral_iff in H. destruct H as [_ ->]. reflexivity.
Qed.

Lemma bound_nonneg : forall s o a, bound s o -> o = Some a -> 0 <= a.
Proof. intros s o a [|s' n H] E; [ discriminate | ]. injection E as <-. eapply numeral_nonneg; eassumption. Qed.

Lemma written_cases : forall s p, written s p ->
  (is_name s = true /\ p = PName s) \/
  (is_name s = false /\ forall env n, 0 <= n ->
     match compare n s with
     | Ok b => b = true <-> pat_match env n p
     | Err _ => ~ pat_match env n p
     end).
Proof.
  intros s p [s' n H|s' H|s' t lo hi Hs Ht A].
  - right. split; [ unfold is_name; destruct (numeral_alnum _ _ H) as (_ & -> & _); apply andb_false_r | ].
    intros env k Hk. rewrite (compare_num k s' n Hk H). apply Z.eqb_eq.
  - left. split; [ | reflexivity ]. destruct H as (H1 & H2 & H3). unfold is_name, isalnum. fold alnum. apply each_alnum in H2. rewrite H2.
    destruct (isnumeric s') eqn:E; [ exfalso; apply H3, numeric_numeral, E | ]. destruct s'; [ contradiction | reflexivity ].
  - right. split.
    + unfold is_name. destruct (isalnum (s' ++ String "~" t)) eqn:E; [ | reflexivity ]. apply alnum_no_tilde in E. rewrite range_tilde in E. discriminate.
    + intros env n Hn. rewrite (compare_range n s' t lo hi Hn Hs Ht). cbn zeta. cbn [pat_match].
      destruct lo as [a|], hi as [b|]; cbn [ascending] in A.
      * destruct (Z.ltb_spec b a); [ lia | ]. rewrite andb_true_iff, !Z.leb_le. tauto.
      * destruct (Z.ltb_spec n a); [ lia | ]. rewrite andb_true_iff, !Z.leb_le. lia.
      * assert (0 <= b) by (eapply bound_nonneg; [ exact Ht | reflexivity ]).
        destruct (Z.ltb_spec b 0); [ lia | ]. rewrite andb_true_iff, !Z.leb_le. lia.
      * destruct (Z.ltb_spec n 0); [ lia | ]. rewrite andb_true_iff, !Z.leb_le. lia.
Qed.

Lemma written_format : forall s p, written s p -> is_range_format_valid s = true.
Proof.
  intros s p H. destruct H as [s' n H|s' H|s' t lo hi Hs Ht A]; unfold is_range_format_valid.
  - destruct (numeral_alnum _ _ H) as (E1 & _ & E2). rewrite E1, E2. reflexivity.
  - destruct H as (H1 & H2 & H3). apply each_alnum in H2. assert (isalnum s' = true) as E.
    { unfold isalnum. fold alnum. rewrite H2. destruct s'; [ contradiction | reflexivity ]. }
    rewrite (alnum_no_tilde _ E). exact E.
  - assert (Ds := bound_digits _ _ Hs). assert (Dt := bound_digits _ _ Ht).
    assert (Ns : has_char "~" s' = false) by (apply (no_char is_digit); [ exact Ds | reflexivity ]).
    assert (Nt : has_char "~" t = false) by (apply (no_char is_digit); [ exact Dt | reflexivity ]).
    rewrite range_tilde, split_one by assumption. cbn [List.length Nat.eqb].
    rewrite remove_app. cbn [remove_char]. rewrite Ascii.eqb_refl, !remove_none by assumption.
    unfold isalnum. fold alnum. rewrite all_chars_app, !(all_chars_impl is_digit alnum _ digit_alnum) by assumption.
    destruct (nonempty (s' ++ t)); reflexivity.
Qed.

Lemma upto_last_app : forall c s, upto_last c (s ++ String c "") = Some s.
Proof. induction s as [|a s IH]; cbn; [ rewrite Ascii.eqb_refl; reflexivity | ]. rewrite IH. reflexivity. Qed.

(** ** Elements *)
Lemma required_str : forall e p, required e p -> written (str e) p.
Proof. intros e p [z H|s p' H]; [ | exact H ]. apply w_num, str_of_numeral, H. Qed.

Lemma required_chars : forall e p, required e p ->
  has_dots (str e) = false /\ has_char "(" (str e) = false /\ blank_free e = e /\ is_range_format_valid (str e) = true.
Proof.
  intros e p H. assert (W := required_str e p H). assert (C := written_plain _ _ W). split; [ | split; [ | split ] ].
  - apply no_dots, (no_char plain_char); [ exact C | reflexivity ].
  - apply (no_char plain_char); [ exact C | reflexivity ].
  - destruct H as [|s p' H]; [ reflexivity | ]. cbn. f_equal. apply remove_none, (no_char plain_char); [ exact C | reflexivity ].
  - eapply written_format; eassumption.
Qed.

Lemma optional_chars : forall e p, optional e p -> exists s, written s p /\ str e = String "(" (s ++ ")") /\
  has_dots (str e) = false /\ has_char "(" (str e) = true /\ blank_free e = e /\ in_parens (str e) = Some s /\
  is_range_format_valid s = true.
Proof.
  intros e p [s p' W]. assert (C := written_plain _ _ W). exists s. split; [ exact W | ]. split; [ reflexivity | ].
  assert (K : forall c, plain_char c = false -> Ascii.eqb "(" c = false -> Ascii.eqb ")" c = false -> has_char c (String "(" (s ++ ")")) = false).
  { intros c H1 H2 H3. cbn [has_char]. rewrite has_char_app, (no_char plain_char c s C H1). cbn [has_char]. rewrite H2, H3. reflexivity. }
  split; [ apply no_dots, K; reflexivity | ]. split; [ reflexivity | ]. split; [ | split ].
  - cbn [blank_free]. rewrite remove_none; [ reflexivity | ]. apply K; reflexivity.
  - cbn. apply upto_last_app.
  - eapply written_format; eassumption.
Qed.

(** ** Dictionaries of names *)
Lemma dget_dset_eq : forall (d : dict Z) k v, dget k (dset k v d) = Some v.
Proof.
  induction d as [|[k' v'] d IH]; intros k v; cbn; [ rewrite String.eqb_refl; reflexivity | ].
  destruct (String.eqb k k') eqn:E; cbn; rewrite E; auto.
Qed.
Lemma dget_dset_neq : forall (d : dict Z) k k' v, k <> k' -> dget k (dset k' v d) = dget k d.
Proof.
  induction d as [|[q w] d IH]; intros k k' v N; cbn.
  - destruct (String.eqb_spec k k'); [ contradiction | reflexivity ].
  - destruct (String.eqb_spec k' q); cbn; [ subst q; destruct (String.eqb_spec k k'); [ contradiction | reflexivity ] | ].
    destruct (String.eqb k q); [ reflexivity | ]. apply IH. assumption.
Qed.
Lemma agrees_set : forall env d k v, dget k d = None -> (agrees env (dset k v d) <-> agrees env d /\ env k = v).
Proof.
  intros env d k v N. unfold agrees. split.
  - intros H. split; [ | apply H, dget_dset_eq ]. intros x w E. apply H. rewrite dget_dset_neq; [ exact E | congruence ].
  - intros [H K] x w E. destruct (String.eqb_spec x k) as [->|Ne].
    + rewrite dget_dset_eq in E. congruence.
    + rewrite dget_dset_neq in E by exact Ne. auto.
Qed.

Definition env_of (d : dict Z) (x : string) : Z := match dget x d with Some v => v | None => 0 end.
Lemma agrees_env_of : forall d, agrees (env_of d) d.
Proof. intros d x v E. unfold env_of. rewrite E. reflexivity. Qed.

Lemma merge_agrees : forall new d,
  match merge_values d new with
  | Some r => forall env, agrees env r <-> agrees env d /\ Forall (fun kv => env (fst kv) = snd kv) new
  | None => forall env, agrees env d -> ~ Forall (fun kv => env (fst kv) = snd kv) new
  end.
Proof.
  induction new as [|[k v] new IH]; intros d; cbn [merge_values].
  - intros env. split; [ auto | tauto ].
  - destruct (dget k d) as [w|] eqn:E.
    + destruct (Z.eqb_spec v w) as [->|N].
      * specialize (IH d). destruct (merge_values d new).
        -- intros env. rewrite IH, Forall_cons_iff. cbn [fst snd]. split; [ intros [H K]; auto | intros (H & _ & K); auto ].
        -- intros env A F. inversion F; subst. eapply IH; eassumption.
      * intros env A F. inversion F; subst. cbn in *. apply N. rewrite <- (A k w E). auto.
    + specialize (IH (dset k v d)). destruct (merge_values (dset k v d) new).
      * intros env. rewrite IH, agrees_set, Forall_cons_iff by exact E. cbn [fst snd]. tauto.
      * intros env A F. inversion F; subst. eapply IH; [ | eassumption ]. apply agrees_set; auto.
Qed.

(** ** The comparison of lists *)
Fixpoint match_opt (env : string -> Z) (l : list Z) (qs : list pat) (any : bool) {struct qs} : Prop :=
  match qs with
  | [] => any = true \/ l = []
  | q :: qs => match l with [] => True | n :: l => pat_match env n q /\ match_opt env l qs any end
  end.
Fixpoint match_from (env : string -> Z) (l : list Z) (ps qs : list pat) (any : bool) {struct ps} : Prop :=
  match ps with
  | [] => match_opt env l qs any
  | p :: ps => match l with [] => False | n :: l => pat_match env n p /\ match_from env l ps qs any end
  end.

Lemma match_opt_iff : forall env any qs l, match_opt env l qs any <->
  exists l2 l3, l = l2 ++ l3 /\ (exists qs1 rest, qs = qs1 ++ rest /\ Forall2 (pat_match env) l2 qs1 /\ (l3 <> [] -> rest = [])) /\
    (l3 <> [] -> any = true).
Proof.
  intros env any. induction qs as [|q qs IH]; intros l; cbn [match_opt].
  - split.
    + intros H. exists [], l. split; [ reflexivity | ]. split; [ exists [], []; auto | ]. intros N. destruct H; [ assumption | contradiction ].
    + intros (l2 & l3 & -> & (qs1 & rest & E & F & _) & A). symmetry in E. apply app_eq_nil in E. destruct E as [-> ->].
      inversion F; subst. cbn. destruct l3; [ auto | left; apply A; discriminate ].
  - destruct l as [|n l].
    + split; [ | auto ]. intros _. exists [], []. split; [ reflexivity | ]. split; [ | intros N; contradiction ].
      exists [], (q :: qs). split; [ reflexivity | ]. split; [ constructor | intros N; contradiction ].
    + rewrite IH. split.
      * intros (H & l2 & l3 & -> & (qs1 & rest & -> & F & R) & A). exists (n :: l2), l3. split; [ reflexivity | ].
        split; [ | exact A ]. exists (q :: qs1), rest. split; [ reflexivity | ]. split; [ constructor; assumption | exact R ].
      * intros (l2 & l3 & E & (qs1 & rest & Q & F & R) & A). inversion F as [|a b l2' qs1' H F']; subst.
        -- cbn in Q, E. rewrite <- E in R. rewrite <- Q in R. assert (q :: qs = []) by (apply R; discriminate). discriminate.
        -- cbn in Q, E. injection Q as -> ->. injection E as -> ->. split; [ exact H | ]. exists l2', l3. split; [ reflexivity | ].
           split; [ eauto | exact A ].
Qed.

Lemma match_from_iff : forall env ps qs any l, match_from env l ps qs any <-> matches env l (Pat ps qs any).
Proof.
  intros env ps qs any. unfold matches. cbn [p_req p_opt p_any]. induction ps as [|p ps IH]; intros l; cbn [match_from].
  - rewrite match_opt_iff. split.
    + intros (l2 & l3 & -> & H). exists [], l2, l3. split; [ reflexivity | ]. split; [ constructor | exact H ].
    + intros (l1 & l2 & l3 & -> & F & H). inversion F; subst. exists l2, l3. auto.
  - destruct l as [|n l].
    + split; [ tauto | ]. intros (l1 & l2 & l3 & E & F & _). inversion F; subst. discriminate.
    + rewrite IH. split.
      * intros (H & l1 & l2 & l3 & -> & F & R). exists (n :: l1), l2, l3. split; [ reflexivity | ]. split; [ constructor; assumption | exact R ].
      * intros (l1 & l2 & l3 & E & F & R). inversion F as [|a b l1' ps' H F']; subst. injection E as -> ->. split; [ exact H | ]. exists l1', l2, l3. auto.
Qed.

Definition tail (any : bool) : list elem := if any then [EStr "..."%string] else [].

Lemma compare_opt : forall os qs any, Forall2 optional os qs -> forall l d, Forall (fun n => 0 <= n) l ->
  match compare_from l (os ++ tail any) d with
  | Ok (Some d') => forall env, agrees env d' <-> agrees env d /\ match_opt env l qs any
  | _ => forall env, agrees env d -> ~ match_opt env l qs any
  end.
Proof.
  intros os qs any F. induction F as [|e q os qs He F IH]; intros l d Hl.
  - cbn [app match_opt]. destruct any; cbn.
    + intros env. tauto.
    + destruct l; [ tauto | ]. intros env _ [H|H]; discriminate.
  - destruct (optional_chars e q He) as (s & W & _ & D1 & D2 & _ & D3 & _).
    cbn [app compare_from]. rewrite D1, D2, D3. destruct l as [|n l].
    + cbn [bind tl match_opt]. assert (Q := IH [] d (Forall_nil _)).
      assert (T : forall env, match_opt env [] qs any) by (intros env; destruct qs; cbn; auto).
      destruct (compare_from [] (os ++ tail any) d) as [[d'|]|x].
      * intros env. rewrite Q. specialize (T env). tauto.
      * intros env A _. exact (Q env A (T env)).
      * intros env A _. exact (Q env A (T env)).
    + cbn [bind match_opt]. fold (is_name s). inversion Hl as [|? ? Hn Hl']; subst. destruct (written_cases s q W) as [[-> ->]|[-> C]].
      * cbn [pat_match]. destruct (dget s d) as [m|] eqn:G.
        -- destruct (Z.eqb_spec n m) as [->|Ne].
           ++ specialize (IH l d Hl'). destruct (compare_from l (os ++ tail any) d) as [[d'|]|x].
              ** intros env. rewrite IH. split; [ intros [A M]; auto | tauto ].
              ** intros env A [_ M]. exact (IH env A M).
              ** intros env A [_ M]. exact (IH env A M).
           ++ intros env A [M _]. apply Ne. rewrite <- M. apply A. exact G.
        -- specialize (IH l (dset s n d) Hl'). destruct (compare_from l (os ++ tail any) (dset s n d)) as [[d'|]|x].
           ++ intros env. rewrite IH, agrees_set by exact G. tauto.
           ++ intros env A [E M]. refine (IH env _ M). apply agrees_set; auto.
           ++ intros env A [E M]. refine (IH env _ M). apply agrees_set; auto.
      * specialize (IH l d Hl'). assert (C' := fun env => C env n Hn). clear C. destruct (compare n s) as [b|x]; cbn [bind].
        -- destruct b.
           ++ destruct (compare_from l (os ++ tail any) d) as [[d'|]|x].
              ** intros env. rewrite IH. specialize (C' env). tauto.
              ** intros env A [_ M]. exact (IH env A M).
              ** intros env A [_ M]. exact (IH env A M).
           ++ intros env A [M _]. apply C' in M. discriminate.
        -- intros env A [M _]. exact (C' env M).
Qed.

Lemma compare_all : forall rs ps os qs any, Forall2 required rs ps -> Forall2 optional os qs ->
  forall l d, Forall (fun n => 0 <= n) l ->
  match compare_from l (rs ++ os ++ tail any) d with
  | Ok (Some d') => forall env, agrees env d' <-> agrees env d /\ match_from env l ps qs any
  | _ => forall env, agrees env d -> ~ match_from env l ps qs any
  end.
Proof.
  intros rs ps os qs any F Fo. induction F as [|e p rs ps He F IH]; intros l d Hl.
  - cbn [app match_from]. apply compare_opt; assumption.
  - destruct (required_chars e p He) as (D1 & D2 & _). assert (W := required_str e p He). set (s := str e) in *.
    cbn [app compare_from]. fold s. rewrite D1, D2. cbn [bind match_from]. fold (is_name s).
    destruct l as [|n l].
    + destruct (is_name s); intros env _ [].
    + inversion Hl as [|? ? Hn Hl']; subst. destruct (written_cases s p W) as [[-> ->]|[-> C]].
      * cbn [pat_match]. destruct (dget s d) as [m|] eqn:G.
        -- destruct (Z.eqb_spec n m) as [->|Ne].
           ++ specialize (IH l d Hl'). destruct (compare_from l (rs ++ os ++ tail any) d) as [[d'|]|x].
              ** intros env. rewrite IH. split; [ intros [A M]; auto | tauto ].
              ** intros env A [_ M]. exact (IH env A M).
              ** intros env A [_ M]. exact (IH env A M).
           ++ intros env A [M _]. apply Ne. rewrite <- M. apply A. exact G.
        -- specialize (IH l (dset s n d) Hl'). destruct (compare_from l (rs ++ os ++ tail any) (dset s n d)) as [[d'|]|x].
           ++ intros env. rewrite IH, agrees_set by exact G. tauto.
           ++ intros env A [E M]. refine (IH env _ M). apply agrees_set; auto.
           ++ intros env A [E M]. refine (IH env _ M). apply agrees_set; auto.
      * specialize (IH l d Hl'). assert (C' := fun env => C env n Hn). clear C. destruct (compare n s) as [b|x]; cbn [bind].
        -- destruct b.
           ++ destruct (compare_from l (rs ++ os ++ tail any) d) as [[d'|]|x].
              ** intros env. rewrite IH. specialize (C' env). tauto.
              ** intros env A [_ M]. exact (IH env A M).
              ** intros env A [_ M]. exact (IH env A M).
           ++ intros env A [M _]. apply C' in M. discriminate.
        -- intros env A [M _]. exact (C' env M).
Qed.

(** ** Results have each name once *)
Lemma dset_keys : forall (d : dict Z) k v x, In x (dkeys (dset k v d)) -> x = k \/ In x (dkeys d).
Proof.
  induction d as [|[q w] d IH]; intros k v x H; cbn in *; [ intuition | ].
  destruct (String.eqb_spec k q); cbn in *; [ intuition | ]. destruct H as [H|H]; [ auto | ]. apply IH in H. tauto.
Qed.
Lemma dset_nodup : forall (d : dict Z) k v, NoDup (dkeys d) -> NoDup (dkeys (dset k v d)).
Proof.
  induction d as [|[q w] d IH]; intros k v H; cbn in *; [ repeat constructor; intuition | ].
  inversion H; subst. destruct (String.eqb_spec k q); cbn; [ constructor; assumption | ].
  constructor; [ | apply IH; assumption ]. intros X. apply dset_keys in X. destruct X; [ congruence | contradiction ].
Qed.
Lemma compare_nodup : forall exp l d d', NoDup (dkeys d) -> compare_from l exp d = Ok (Some d') -> NoDup (dkeys d').
Proof.
  induction exp as [|e exp IH]; intros l d d' N H; cbn [compare_from] in H.
  - destruct l; [ injection H as <-; exact N | discriminate ].
  - destruct (has_dots (str e)); [ injection H as <-; exact N | ].
    match type of H with bind ?x _ = _ => destruct x as [[x'|]|] end; cbn [bind] in H; try discriminate; [ | eauto ].
    destruct (isalnum x' && negb (isnumeric x')); destruct l as [|n l]; try discriminate.
    + destruct (dget x' d); [ | eapply IH; [ apply dset_nodup; exact N | exact H ] ]. destruct (n =? z); [ eauto | discriminate ].
    + destruct (compare n x') as [[]|]; cbn [bind] in H; try discriminate. eauto.
Qed.
Lemma merge_nodup : forall new d r, NoDup (dkeys d) -> merge_values d new = Some r -> NoDup (dkeys r).
Proof.
  induction new as [|[k v] new IH]; intros d r N H; cbn in H; [ congruence | ].
  destruct (dget k d) as [w|]; [ destruct (v =? w); [ eauto | discriminate ] | ]. eapply IH; [ | exact H ]. apply dset_nodup. exact N.
Qed.
Lemma agrees_forall : forall env d, NoDup (dkeys d) -> (agrees env d <-> Forall (fun kv => env (fst kv) = snd kv) d).
Proof.
  intros env. induction d as [|[k v] d IH]; intros N; [ split; [ constructor | intros _ x w E; discriminate ] | ].
  inversion N; subst. rewrite Forall_cons_iff, <- IH by assumption. cbn [fst snd]. unfold agrees. cbn [dget]. split.
  - intros H. split; [ apply H; rewrite String.eqb_refl; reflexivity | ]. intros x w E. apply H.
    destruct (String.eqb_spec x k) as [->|]; [ | exact E ]. exfalso. match goal with K : ~ In _ _ |- _ => apply K end.
    clear - E. induction d as [|[q u] d IH]; cbn in *; [ discriminate | ]. destruct (String.eqb_spec k q); [ auto | right; auto ].
  - intros [H K] x w. destruct (String.eqb_spec x k) as [->|]; [ congruence | apply K ].
Qed.

(** ** Lists *)
Lemma length_append : forall s t, String.length (s ++ t) = (String.length s + String.length t)%nat.
Proof. induction s as [|a s IH]; intros t; cbn; [ reflexivity | ]. rewrite IH. reflexivity. Qed.
Lemma validate_opt : forall os qs any v, Forall2 optional os qs -> (v <= 1)%nat ->
  validate_expected v (os ++ tail any) = Ok tt.
Proof.
  intros os qs any v F. revert v. induction F as [|e q os qs He F IH]; intros v Hv.
  - destruct any; [ | reflexivity ]. cbn. destruct v as [|[|]]; [ reflexivity | reflexivity | lia ].
  - destruct (optional_chars e q He) as (s & _ & E & D1 & D2 & _ & D3 & D4).
    cbn [app validate_expected]. rewrite D1, D2, D3, D4. cbn [orb negb]. rewrite andb_false_r.
    destruct (Nat.eqb_spec v 2); [ lia | ]. rewrite E.
    assert (String.length (String "(" (s ++ ")")) = String.length s + 2)%nat as ->.
    { cbn. rewrite length_append. cbn. lia. }
    rewrite Nat.eqb_refl. cbn [andb]. apply IH. lia.
Qed.
(** a list with a dimension behind an optional one, or with anything behind the dots *)
Lemma validate_err : forall es v x, validate_expected v es = Err x -> x = WxSyntaxError.
Proof.
  induction es as [|e r IH]; intros v x H; cbn [validate_expected] in H; [ discriminate | ].
  repeat match type of H with
  | Err _ = Err _ => congruence
  | validate_expected _ _ = _ => exact (IH _ _ H)
  | context [if ?b then _ else _] => destruct b
  | context [match ?z with EInt _ => _ | _ => _ end] => destruct z
  | context [match in_parens ?z with Some _ => _ | None => _ end] => destruct (in_parens z)
  | context [match ?z with EmptyString => _ | _ => _ end] => destruct z
  | context [match ?z with Ascii.Ascii _ _ _ _ _ _ _ _ => _ end] => destruct z
  end.
Qed.
Lemma validate_prefix : forall pre es, (forall v, validate_expected v es <> Ok tt) ->
  forall v, validate_expected v (pre ++ es) <> Ok tt.
Proof.
  intros pre es K. induction pre as [|e r IH]; intros v H; [ exact (K v H) | ].
  cbn [app validate_expected] in H.
  repeat match type of H with
  | Err _ = Ok _ => discriminate H
  | validate_expected _ _ = _ => exact (IH _ H)
  | context [if ?b then _ else _] => destruct b
  | context [match ?z with EInt _ => _ | _ => _ end] => destruct z
  | context [match in_parens ?z with Some _ => _ | None => _ end] => destruct (in_parens z)
  | context [match ?z with EmptyString => _ | _ => _ end] => destruct z
  | context [match ?z with Ascii.Ascii _ _ _ _ _ _ _ _ => _ end] => destruct z
  end.
Qed.
Lemma validate_order : forall pre e1 p1 e2 p2 post, optional e1 p1 -> required e2 p2 ->
  validate_expected 0 (pre ++ e1 :: e2 :: post) = Err WxSyntaxError.
Proof.
  intros pre e1 p1 e2 p2 post H1 H2.
  destruct (validate_expected 0 (pre ++ e1 :: e2 :: post)) as [[]|x] eqn:E; [ | f_equal; exact (validate_err _ _ _ E) ].
  exfalso. revert E. apply validate_prefix. intros v E.
  destruct (optional_chars e1 p1 H1) as (s & _ & _ & D1 & D2 & _ & D3 & D4).
  destruct (required_chars e2 p2 H2) as (D5 & D6 & _ & _).
  cbn [validate_expected] in E. rewrite D1, D2, D3, D4 in E. cbn [orb negb] in E. rewrite andb_false_r in E.
  destruct (Nat.eqb v 2); [ discriminate | ]. destruct (_ && _); [ | discriminate ].
  rewrite D5, D6 in E. discriminate.
Qed.
Lemma validate_dots : forall pre e post, validate_expected 0 (pre ++ EStr "..." :: e :: post) = Err WxSyntaxError.
Proof.
  intros pre e post.
  destruct (validate_expected 0 (pre ++ EStr "..." :: e :: post)) as [[]|x] eqn:E; [ | f_equal; exact (validate_err _ _ _ E) ].
  exfalso. revert E. apply validate_prefix. intros v E. cbn in E.
  destruct v as [|[|[|v]]]; cbn in E; discriminate.
Qed.
Lemma validate_all : forall rs ps os qs any, Forall2 required rs ps -> Forall2 optional os qs ->
  validate_expected 0 (rs ++ os ++ tail any) = Ok tt.
Proof.
  intros rs ps os qs any F Fo. induction F as [|e p rs ps He F IH]; [ eapply validate_opt; [ exact Fo | lia ] | ].
  destruct (required_chars e p He) as (D1 & D2 & _ & D3). cbn [app validate_expected]. rewrite D1, D2, D3. exact IH.
Qed.

Lemma denotes_end_form : forall es sp, denotes_end es sp ->
  exists rs os, es = rs ++ os ++ tail (p_any sp) /\ Forall2 required rs (p_req sp) /\ Forall2 optional os (p_opt sp).
Proof. intros es sp [rs os ps qs F G|rs os ps qs F G]; exists rs, os; cbn; rewrite ?app_nil_r; auto. Qed.

Lemma blank_ids : forall es sp, denotes_end es sp -> map blank_free es = es.
Proof.
  intros es sp H. destruct (denotes_end_form es sp H) as (rs & os & -> & F & G). rewrite <- (map_id (rs ++ _)) at 2.
  apply map_ext_in. intros e He. rewrite !in_app_iff in He. destruct He as [He|[He|He]].
  - clear - F He. induction F as [|x p rs ps Hx F IH]; [ destruct He | ]. destruct He as [<-|He]; [ apply (required_chars _ _ Hx) | auto ].
  - clear - G He. induction G as [|x p rs ps Hx F IH]; [ destruct He | ]. destruct He as [<-|He]; [ | auto ].
    destruct (optional_chars _ _ Hx) as (s & _ & _ & _ & _ & E & _). exact E.
  - destruct (p_any sp); [ | destruct He ]. destruct He as [<-|[]]. reflexivity.
Qed.

Lemma compare_denotes : forall es sp l, denotes_end es sp -> Forall (fun n => 0 <= n) l ->
  match compare_lists l es with
  | Ok (Some d) => NoDup (dkeys d) /\ forall env, agrees env d <-> matches env l sp
  | _ => forall env, ~ matches env l sp
  end.
Proof.
  intros es sp l H Hl. destruct (denotes_end_form es sp H) as (rs & os & -> & F & G). destruct sp as [ps qs any]. cbn [p_req p_opt p_any] in *.
  assert (Q := compare_all rs ps os qs any F G l [] Hl). unfold compare_lists.
  assert (T : forall env, agrees env []) by (intros env x v E; discriminate).
  destruct (compare_from l (rs ++ os ++ tail any) []) as [[d|]|x] eqn:E.
  - split; [ eapply compare_nodup; [ | exact E ]; constructor | ]. intros env. rewrite Q, match_from_iff. specialize (T env). tauto.
  - intros env M. apply (Q env (T env)). apply match_from_iff. exact M.
  - intros env M. apply (Q env (T env)). apply match_from_iff. exact M.
Qed.

Lemma prepare_denotes : forall es back sp l, denotes es back sp ->
  exists es', prepare_list l es = Ok (if back then rev l else l, es') /\ denotes_end es' sp.
Proof.
  intros es back sp l [es' sp' Hp H|es' e sp' He Ho H].
  - exists es'. split; [ | exact H ]. unfold prepare_list. rewrite (blank_ids es' sp' H).
    destruct (denotes_end_form es' sp' H) as (rs & os & -> & F & G). inversion F as [E|e p rs' ps' Hr F' Er Ep]; [ congruence | ].
    destruct (required_chars e p Hr) as (D1 & D2 & _). cbn [app]. rewrite D1, D2. reflexivity.
  - exists (rev es'). split; [ | exact H ]. unfold prepare_list.
    assert (B : map blank_free es' = es').
    { rewrite <- (rev_involutive es') at 1. rewrite map_rev, (blank_ids _ _ H). apply rev_involutive. }
    rewrite B. destruct es' as [|e' es']; [ discriminate | ]. injection He as ->.
    assert (has_char "(" (str e) || has_dots (str e) = true) as ->; [ | reflexivity ].
    destruct Ho as [(p & Ho)| -> ]; [ | reflexivity ]. destruct (optional_chars e p Ho) as (s & _ & _ & _ & -> & _). reflexivity.
Qed.

Lemma Forall_rev_nonneg : forall (back : bool) l, Forall (fun n => 0 <= n) l -> Forall (fun n => 0 <= n) (if back then rev l else l).
Proof. intros [] l H; [ apply Forall_rev; exact H | exact H ]. Qed.

Lemma instance_ok : forall n es back sp opt l, denotes es back sp -> n_shape n = Some l -> Forall (fun n => 0 <= n) l ->
  match validate_instance n es opt with
  | Ok d => NoDup (dkeys d) /\ forall env, agrees env d <-> matches env (if back then rev l else l) sp
  | Err _ => forall env, ~ matches env (if back then rev l else l) sp
  end.
Proof.
  intros n es back sp opt l H E Hl. unfold validate_instance. rewrite E.
  destruct (prepare_denotes es back sp l H) as (es' & -> & H'). cbn [bind fst snd].
  destruct (denotes_end_form es' sp H') as (rs & os & Ee & F & G). rewrite Ee, (validate_all rs _ os _ _ F G), <- Ee. cbn [bind].
  assert (Q := compare_denotes es' sp _ H' (Forall_rev_nonneg back l Hl)).
  destruct (compare_lists (if back then rev l else l) es') as [[d|]|x]; exact Q.
Qed.

(** ** Nested specifications *)
Definition spec_ind' (P : spec -> Prop) (f : forall l, P (SList l)) (g : forall s, P (SStr s))
  (h : forall d, Forall (fun ks => P (snd ks)) d -> P (SDict d)) : forall s, P s :=
  fix F s := match s with
             | SList l => f l
             | SStr s => g s
             | SDict d => h d ((fix G (d : list (string * spec)) : Forall (fun ks => P (snd ks)) d :=
                                  match d with [] => Forall_nil _ | ks :: r => Forall_cons ks (F (snd ks)) (G r) end) d)
             end.

(** the loop over the keys *)
Definition items (n : node) : list (string * spec) -> dict Z -> res (option (dict Z)) :=
  fix items (d : list (string * spec)) (acc : dict Z) {struct d} : res (option (dict Z)) :=
    match d with
    | [] => Ok (Some acc)
    | (key, item) :: r =>
        let opt := prefix "(" key && ends_with ")" key in
        let key' := if opt then drop_end 1 (substring 1 (String.length key - 1) key) else key in
        if opt && negb (nonempty key') then Err WxSyntaxError
        else
          match dget key' (n_children n) with
          | None => Ok (Some acc)
          | Some child =>
              bind (shape_validator child item opt) (fun o =>
              match o with
              | None => Err TypeError
              | Some v =>
                  match merge_values acc v with
                  | Some acc' => items r acc'
                  | None => Ok None
                  end
              end)
          end
    end.
Lemma validator_dict : forall n d opt, shape_validator n (SDict d) opt = items n d [].
Proof. reflexivity. Qed.

Lemma prefix_empty : forall s, prefix "" s = true.
Proof. destruct s; reflexivity. Qed.
Lemma substring_full : forall s, substring 0 (String.length s) s = s.
Proof. induction s as [|a s IH]; cbn; [ reflexivity | rewrite IH; reflexivity ]. Qed.
Lemma substring_end : forall s t, substring (String.length s) (String.length t) (s ++ t) = t.
Proof. induction s as [|a s IH]; intros t; cbn; [ apply substring_full | apply IH ]. Qed.
Lemma ends_with_app : forall t s, ends_with t (s ++ t) = true.
Proof.
  intros t s. unfold ends_with. rewrite length_append. apply andb_true_iff. split; [ apply Nat.leb_le; lia | ].
  replace (String.length s + String.length t - String.length t)%nat with (String.length s) by lia.
  rewrite substring_end. apply String.eqb_refl.
Qed.
Lemma drop_end_app : forall s a, drop_end 1 (s ++ String a "") = s.
Proof.
  induction s as [|b s IH]; intros a; [ reflexivity | ]. cbn [append drop_end String.length]. rewrite IH, length_append. cbn [String.length].
  destruct (Nat.leb_spec (S (String.length s + 1)) 1); [ lia | reflexivity ].
Qed.

Lemma keyed_parse : forall key k o, keyed key k o ->
  prefix "(" key && ends_with ")" key = o /\
  (if o then drop_end 1 (substring 1 (String.length key - 1) key) else key) = k /\ (o = true -> nonempty k = true).
Proof.
  intros key k o [k' H|k' H].
  - split; [ | split; [ reflexivity | discriminate ] ]. destruct k' as [|a r]; [ reflexivity | ]. cbn [prefix].
    destruct (Ascii.ascii_dec "(" a) as [E|]; [ | reflexivity ]. subst. exfalso. eapply H. reflexivity.
  - split; [ | split ].
    + change (String "(" (k' ++ ")")) with (String "(" k' ++ ")")%string. rewrite ends_with_app. cbn. rewrite prefix_empty. reflexivity.
    + cbn [String.length substring]. rewrite Nat.sub_succ, Nat.sub_0_r, substring_full. apply drop_end_app.
    + intros _. destruct k'; [ contradiction | reflexivity ].
Qed.

Lemma natural_child : forall n k c, natural n -> dget k (n_children n) = Some c -> natural c.
Proof.
  intros n k c [s ch _ F] E. cbn in E. clear s. induction F as [|[q d] ch H F IH]; cbn in *; [ discriminate | ].
  destruct (String.eqb k q); [ injection E as <-; exact H | auto ].
Qed.

Lemma sat_dict_inv : forall env n d opt, sat env n (SDict d) opt ->
  Forall (fun ks => exists k o c, keyed (fst ks) k o /\ dget k (n_children n) = Some c /\ sat env c (snd ks) o) d.
Proof. intros env n d opt S. inversion S; subst. assumption. Qed.

Lemma validator_ok : forall s n opt, wf_spec s -> complete n s -> natural n ->
  match shape_validator n s opt with
  | Ok (Some d) => NoDup (dkeys d) /\ forall env, agrees env d <-> sat env n s opt
  | _ => forall env, ~ sat env n s opt
  end.
Proof.
  induction s as [es|s|d IH] using spec_ind'; intros n opt W C Nn.
  - inversion W as [? back sp D|]; subst. cbn [shape_validator].
    destruct (n_shape n) as [l|] eqn:E.
    + assert (Hl : Forall (fun n => 0 <= n) l) by (destruct Nn as [s c H _]; apply H; exact E).
      assert (Q : forall back sp, denotes es back sp -> match validate_instance n es opt with
        | Ok d => NoDup (dkeys d) /\ forall env, agrees env d <-> matches env (if back then rev l else l) sp
        | Err _ => forall env, ~ matches env (if back then rev l else l) sp end) by (intros; apply instance_ok; assumption).
      destruct (validate_instance n es opt) as [d|x]; cbn [bind].
      * destruct (Q back sp D) as [N H]. split; [ exact N | ]. intros env. rewrite H. split.
        -- intros M. eapply sat_list; [ exact E | ]. exists back, sp. auto.
        -- intros S. inversion S as [? ? ? l' E' (b' & sp' & D' & M)|? ? E'|]; subst; [ | congruence ].
           rewrite E in E'. injection E' as <-. apply H, (proj2 (Q b' sp' D')), M.
      * intros env S. inversion S as [? ? ? l' E' (b' & sp' & D' & M)|? ? E'|]; subst; [ | congruence ].
        rewrite E in E'. injection E' as <-. exact (Q b' sp' D' env M).
    + unfold validate_instance. rewrite E. destruct opt; cbn [bind].
      * split; [ constructor | ]. intros env. split; [ intros _; apply sat_skip; exact E | intros _ x v H; discriminate ].
      * intros env S. inversion S; subst. congruence.
  - inversion W.
  - rewrite validator_dict. inversion W as [|? Wd]; subst. inversion C as [|? ? Cd]; subst.
    assert (Q : forall acc, NoDup (dkeys acc) ->
      match items n d acc with
      | Ok (Some r) => NoDup (dkeys r) /\ forall env, agrees env r <-> agrees env acc /\ sat env n (SDict d) opt
      | _ => forall env, agrees env acc -> ~ sat env n (SDict d) opt
      end).
    { clear W C. induction d as [|[key item] d IHd]; intros acc Nacc; cbn [items].
      - split; [ exact Nacc | ]. intros env. split; [ intros A; split; [ exact A | constructor; constructor ] | tauto ].
      - inversion IH as [|? ? I1 I2]; subst. inversion Wd as [|? ? (k1 & o1 & K1 & W1) Wd']; subst.
        inversion Cd as [|? ? (k2 & o2 & c & K2 & Ec & C2) Cd']; subst. cbn [fst snd] in *.
        destruct (keyed_parse key k2 o2 K2) as (P1 & P2 & P3). rewrite P1, P2, Ec.
        assert ((o2 && negb (nonempty k2)) = false) as -> by (destruct o2; [ rewrite P3; reflexivity | reflexivity ]).
        specialize (I1 c o2 W1 C2 (natural_child n k2 c Nn Ec)).
        assert (U : forall env, sat env n (SDict ((key, item) :: d)) opt <-> sat env c item o2 /\ sat env n (SDict d) opt).
        { intros env. split.
          - intros S. apply sat_dict_inv in S. apply Forall_cons_iff in S. destruct S as [(k3 & o3 & c3 & K3 & E3 & S3) F']. cbn [fst snd] in *.
            destruct (keyed_parse key k3 o3 K3) as (R1 & R2 & _). rewrite P1 in R1. subst o3. rewrite P2 in R2. subst k3.
            rewrite Ec in E3. injection E3 as <-. split; [ exact S3 | constructor; exact F' ].
          - intros [S1 S2]. apply sat_dict_inv in S2. constructor. constructor; [ | exact S2 ]. exists k2, o2, c. auto. }
        destruct (shape_validator c item o2) as [[v|]|x]; cbn [bind].
        + destruct I1 as [Nv I1]. assert (M := merge_agrees v acc). destruct (merge_values acc v) as [acc'|] eqn:Em.
          * specialize (IHd I2 Wd' Cd' acc' (merge_nodup _ _ _ Nacc Em)).
            assert (A : forall env, agrees env acc' <-> agrees env acc /\ sat env c item o2).
            { intros env. rewrite M, <- I1, (agrees_forall env v Nv). tauto. }
            destruct (items n d acc') as [[r|]|x].
            -- destruct IHd as [Nr IHd]. split; [ exact Nr | ]. intros env. rewrite IHd, A, U. tauto.
            -- intros env Ha S. apply U in S. apply (IHd env); [ apply A | ]; tauto.
            -- intros env Ha S. apply U in S. apply (IHd env); [ apply A | ]; tauto.
          * intros env Ha S. apply U in S. apply (M env Ha). apply (agrees_forall env v Nv), I1. tauto.
        + intros env Ha S. apply U in S. apply (I1 env). tauto.
        + intros env Ha S. apply U in S. apply (I1 env). tauto. }
    specialize (Q [] (NoDup_nil _)). assert (T : forall env, agrees env []) by (intros env x v E; discriminate).
    destruct (items n d []) as [[r|]|x].
    + destruct Q as [N Q]. split; [ exact N | ]. intros env. rewrite Q. specialize (T env). tauto.
    + intros env. apply Q, T.
    + intros env. apply Q, T.
Qed.
