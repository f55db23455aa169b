(** Properties C40 - C42: the validation of shapes. *)
From Coq Require Import List String Ascii Bool ZArith Lia.
From Verif Require Import Base ShapeModel ShapeSpec ShapeFacts.
Import ListNotations.
Open Scope Z_scope.
Open Scope list_scope.

(** ** C41 *)
Theorem c41_number : forall n m s, 0 <= n -> numeral s m -> compare n s = Ok (n =? m).
Proof. intros n m s Hn H. apply compare_num; assumption. Qed.
Print Assumptions c41_number.

Theorem c41_range : forall n s t lo hi env, 0 <= n -> bound s lo -> bound t hi -> ascending (PRange lo hi) ->
  hi <> None \/ (forall a, lo = Some a -> a <= n) ->
  is_range_format_valid (s ++ String "~" t) = true /\
  exists b, compare n (s ++ String "~" t) = Ok b /\ (b = true <-> pat_match env n (PRange lo hi)).
Proof.
  intros n s t lo hi env Hn Hs Ht A H. assert (W := w_range s t lo hi Hs Ht A). split; [ eapply written_format; exact W | ].
  destruct (written_cases _ _ W) as [[_ E]|[_ C]]; [ discriminate | ]. specialize (C env n Hn).
  rewrite (compare_range n s t lo hi Hn Hs Ht) in *. cbn zeta in *.
  destruct (Z.ltb_spec (match hi with Some b => b | None => n end) (match lo with Some a => a | None => 0 end)) as [L|L].
  - exfalso. destruct lo as [a|], hi as [b|]; cbn in *.
    + lia.
    + destruct H as [H|H]; [ congruence | specialize (H a eq_refl); lia ].
    + assert (0 <= b) by (eapply bound_nonneg; [ exact Ht | reflexivity ]). lia.
    + lia.
  - eexists. split; [ reflexivity | exact C ].
Qed.
Print Assumptions c41_range.
Example c41_ex : compare 5 "4~6" = Ok true /\ compare 3 "4~6" = Ok false /\ compare 5 "~" = Ok true /\
  compare 5 "3~" = Ok true /\ compare 5 "~4" = Ok false /\ compare 5 "5" = Ok true /\ bound "4" (Some 4) /\ bound "" None.
Proof.
  do 6 (split; [ reflexivity | ]). split; [ | constructor ]. constructor. exists (Decimal.D4 Decimal.Nil).
  split; [ discriminate | split; reflexivity ].
Qed.

(** An interval without upper limit raises an exception for each number below it. *)
Theorem c41_open_refuted : forall n a s, 0 <= n < a -> numeral s a ->
  is_range_format_valid (s ++ "~") = true /\ compare n (s ++ "~") = Err WxSyntaxError.
Proof.
  intros n a s H N. assert (B : bound s (Some a)) by (constructor; exact N).
  split; [ eapply written_format, (w_range s "" (Some a) None B b_open I) | ].
  rewrite (compare_range n s "" (Some a) None (proj1 H) B b_open). cbn zeta.
  destruct (Z.ltb_spec n a); [ reflexivity | lia ].
Qed.
Print Assumptions c41_open_refuted.
Example c41_ex_open : compare 5 "6~" = Err WxSyntaxError.
Proof. reflexivity. Qed.

(** The format check accepts intervals that cannot be evaluated. *)
Theorem c41_format_refuted : exists s, is_range_format_valid s = true /\ forall n, compare n s = Err WxSyntaxError.
Proof. exists "a~b"%string. split; [ reflexivity | ]. intros n. unfold compare. destruct (n <? 0); reflexivity. Qed.
Print Assumptions c41_format_refuted.

(** ** C40 *)
(** A list of dimensions is accepted exactly if it matches; the names in the result
    are the ones of every match. *)
Theorem c40_lists : forall es sp l, denotes_end es sp -> Forall (fun n => 0 <= n) l ->
  ((exists d, compare_lists l es = Ok (Some d)) <-> exists env, matches env l sp) /\
  forall d, compare_lists l es = Ok (Some d) -> forall env, agrees env d <-> matches env l sp.
Proof.
  intros es sp l H Hl. assert (Q := compare_denotes es sp l H Hl). split.
  - split.
    + intros (d & E). rewrite E in Q. exists (env_of d). apply Q, agrees_env_of.
    + intros (env & M). destruct (compare_lists l es) as [[d|]|x]; [ eauto | exfalso; exact (Q env M) | exfalso; exact (Q env M) ].
  - intros d E. rewrite E in Q. apply Q.
Qed.
Print Assumptions c40_lists.

(** The same with the check of the syntax and the direction of reading. *)
Theorem c40_shapes : forall n es back sp opt l, denotes es back sp -> n_shape n = Some l -> Forall (fun n => 0 <= n) l ->
  ((exists d, validate_instance n es opt = Ok d) <-> exists env, matches env (if back then rev l else l) sp) /\
  forall d, validate_instance n es opt = Ok d -> forall env, agrees env d <-> matches env (if back then rev l else l) sp.
Proof.
  intros n es back sp opt l H E Hl. assert (Q := instance_ok n es back sp opt l H E Hl). split.
  - split.
    + intros (d & F). rewrite F in Q. exists (env_of d). apply Q, agrees_env_of.
    + intros (env & M). destruct (validate_instance n es opt) as [d|x]; [ eauto | exfalso; exact (Q env M) ].
  - intros d F. rewrite F in Q. apply Q.
Qed.
Print Assumptions c40_shapes.

Example ex_two : numeral "2" 2.
Proof. exists (Decimal.D2 Decimal.Nil). split; [ discriminate | split; reflexivity ]. Qed.
Example ex_name : name "n".
Proof.
  split; [ discriminate | ]. split; [ cbn; unfold alnum_char; cbn; split; [ lia | exact I ] | ].
  intros (m & H). apply numeral_digits in H. destruct H as [H _]. discriminate.
Qed.
(** [3, "n", "2~", "(n)", "..."] *)
Definition ex_list : list elem := [EInt 3; EStr "n"; EStr "2~"; EStr "(n)"; EStr "..."].
Definition ex_pat : shape_pat := Pat [PNum 3; PName "n"; PRange (Some 2) None] [PName "n"] true.
Example c40_ex_denotes : denotes ex_list false ex_pat /\ denotes_end ex_list ex_pat.
Proof.
  assert (denotes_end ex_list ex_pat) as D.
  { apply (d_dots [EInt 3; EStr "n"; EStr "2~"] [EStr "(n)"]).
    - constructor; [ constructor; lia | ]. constructor; [ constructor; constructor; exact ex_name | ].
      constructor; [ | constructor ]. constructor. apply (w_range "2" "" (Some 2) None); [ constructor; exact ex_two | constructor | exact I ].
    - constructor; [ | constructor ]. apply (o_str "n"). constructor. exact ex_name. }
  split; [ apply d_forward; [ discriminate | exact D ] | exact D ].
Qed.
Example c40_ex : compare_lists [3; 7; 2] ex_list = Ok (Some [("n"%string, 7)]) /\
  compare_lists [3; 7; 2; 7; 1; 1] ex_list = Ok (Some [("n"%string, 7)]) /\
  compare_lists [3; 7; 2; 8] ex_list = Ok None /\ compare_lists [3; 7] ex_list = Ok None /\
  validate_instance (Node (Some [5; 3]) []) [EStr "..."; EStr "a"; EInt 3] false = Ok [("a"%string, 5)].
Proof. repeat split. Qed.

(** Lists that do not describe shapes are refused, whatever stands around the wrong
    place: a dimension that is not optional behind an optional one, anything behind
    the dots. *)
Theorem c40_order : forall pre e1 p1 e2 p2 post, optional e1 p1 -> required e2 p2 ->
  validate_expected 0 (pre ++ e1 :: e2 :: post) = Err WxSyntaxError.
Proof. exact validate_order. Qed.
Print Assumptions c40_order.
Theorem c40_dots_last : forall pre e post, validate_expected 0 (pre ++ EStr "..." :: e :: post) = Err WxSyntaxError.
Proof. exact validate_dots. Qed.
Print Assumptions c40_dots_last.
Example c40_ex_order : validate_instance (Node (Some [5; 3; 2]) []) [EInt 5; EStr "(3)"; EInt 2] false = Err WxSyntaxError /\
  validate_instance (Node (Some [5; 3; 2]) []) [EInt 5; EStr "..."; EInt 2] false = Err WxSyntaxError.
Proof. split; reflexivity. Qed.

(** [None] is not a dimension of arbitrary length: all of them have to be equal. *)
Theorem c40_none_refuted : forall n m, n <> m -> compare_lists [n; m] [ENone; ENone] = Ok None.
Proof. intros n m H. unfold compare_lists. cbn. destruct (Z.eqb_spec m n); [ congruence | reflexivity ]. Qed.
Print Assumptions c40_none_refuted.

(** A missing named dimension is an exception instead of a mismatch. *)
Theorem c40_missing_refuted : exists es l sp, denotes_end es sp /\ compare_lists l es = Err IndexError.
Proof.
  exists [EInt 1; EStr "n"], [1], (Pat [PNum 1; PName "n"] [] false). split; [ | reflexivity ].
  apply (d_end [EInt 1; EStr "n"] []); [ | constructor ]. constructor; [ constructor; lia | ].
  constructor; [ constructor; constructor; exact ex_name | constructor ].
Qed.
Print Assumptions c40_missing_refuted.

(** ** C42 *)
(** If all expected keys are there, the node is accepted exactly if all shapes match
    with the same numbers for the same names. *)
Theorem c42_all_keys : forall n s opt, wf_spec s -> complete n s -> natural n ->
  ((exists d, shape_validator n s opt = Ok (Some d)) <-> exists env, sat env n s opt) /\
  forall d, shape_validator n s opt = Ok (Some d) -> forall env, agrees env d <-> sat env n s opt.
Proof.
  intros n s opt W C N. assert (Q := validator_ok s n opt W C N). split.
  - split.
    + intros (d & E). rewrite E in Q. exists (env_of d). apply Q, agrees_env_of.
    + intros (env & M). destruct (shape_validator n s opt) as [[d|]|x]; [ eauto | exfalso; exact (Q env M) | exfalso; exact (Q env M) ].
  - intros d E. rewrite E in Q. apply Q.
Qed.
Print Assumptions c42_all_keys.

Definition ex_spec : spec := SDict [("a"%string, SList [EStr "n"]); ("(b)"%string, SDict [("c"%string, SList [EStr "n"; EInt 2])])].
Definition ex_node (n m : Z) : node :=
  Node None [("a"%string, Node (Some [n]) []); ("b"%string, Node None [("c"%string, Node (Some [m; 2]) [])])].
Example c42_ex_wf : wf_spec ex_spec /\ forall n m, 0 <= n -> 0 <= m -> complete (ex_node n m) ex_spec /\ natural (ex_node n m).
Proof.
  assert (Ka : keyed "a" "a" false) by (constructor; intros r E; discriminate).
  assert (Kc : keyed "c" "c" false) by (constructor; intros r E; discriminate).
  assert (Kb : keyed "(b)" "b" true) by (apply (k_opt "b"); discriminate).
  split.
  - constructor. constructor; [ exists "a"%string, false; split; [ exact Ka | ] | constructor; [ exists "b"%string, true; split; [ exact Kb | ] | constructor ] ].
    + apply (wf_list _ false (Pat [PName "n"] [] false)). apply d_forward; [ discriminate | ].
      apply (d_end [EStr "n"] []); [ | constructor ]. constructor; [ constructor; constructor; exact ex_name | constructor ].
    + constructor. constructor; [ exists "c"%string, false; split; [ exact Kc | ] | constructor ].
      apply (wf_list _ false (Pat [PName "n"; PNum 2] [] false)). apply d_forward; [ discriminate | ].
      apply (d_end [EStr "n"; EInt 2] []); [ | constructor ]. constructor; [ constructor; constructor; exact ex_name | ].
      constructor; [ constructor; lia | constructor ].
  - intros n m Hn Hm. split.
    + constructor. constructor; [ exists "a"%string, false, (Node (Some [n]) []); split; [ exact Ka | split; [ reflexivity | constructor ] ] | ].
      constructor; [ | constructor ]. eexists "b"%string, true, _. split; [ exact Kb | ]. split; [ reflexivity | ].
      constructor. constructor; [ | constructor ]. eexists "c"%string, false, _. split; [ exact Kc | ]. split; [ reflexivity | constructor ].
    + constructor; [ discriminate | ]. constructor; [ | constructor; [ | constructor ] ]; cbn [snd].
      * constructor; [ | constructor ]. intros l E. injection E as <-. repeat constructor. exact Hn.
      * constructor; [ discriminate | ]. constructor; [ | constructor ]. cbn [snd]. constructor; [ | constructor ].
        intros l E. injection E as <-. constructor; [ exact Hm | ]. constructor; [ lia | constructor ].
Qed.
Example c42_ex : shape_validator (ex_node 4 4) ex_spec false = Ok (Some [("n"%string, 4)]) /\
  shape_validator (ex_node 4 5) ex_spec false = Ok None.
Proof. split; reflexivity. Qed.

(** A missing key ends the validation: the keys after it are not checked. *)
Theorem c42_missing_refuted : exists n s, wf_spec s /\ shape_validator n s false = Ok (Some []) /\
  forall env, ~ exists c, dget "c" (n_children n) = Some c /\ sat env c (SList [EInt 2]) false.
Proof.
  exists (Node None [("c"%string, Node (Some [3]) [])]), (SDict [("a"%string, SList [EInt 1]); ("c"%string, SList [EInt 2])]).
  assert (D : forall z, 0 <= z -> denotes_end [EInt z] (Pat [PNum z] [] false)).
  { intros z Hz. apply (d_end [EInt z] []); [ | constructor ]. constructor; [ constructor; exact Hz | constructor ]. }
  split; [ | split; [ reflexivity | ] ].
  - constructor. constructor; [ exists "a"%string, false | constructor; [ exists "c"%string, false | constructor ] ];
      (split; [ constructor; intros r E; discriminate | ]).
    + apply (wf_list _ false (Pat [PNum 1] [] false)). apply d_forward; [ discriminate | apply D; lia ].
    + apply (wf_list _ false (Pat [PNum 2] [] false)). apply d_forward; [ discriminate | apply D; lia ].
  - intros env (c & E & S). injection E as <-.
    assert (W : wf_spec (SList [EInt 2])) by (apply (wf_list _ false (Pat [PNum 2] [] false)), d_forward; [ discriminate | apply D; lia ]).
    assert (N : natural (Node (Some [3]) [])) by (constructor; [ intros l E; injection E as <-; repeat constructor; lia | constructor ]).
    exact (validator_ok (SList [EInt 2]) (Node (Some [3]) []) false W (c_list _ _) N env S).
Qed.
Print Assumptions c42_missing_refuted.

(** A conflict of names below the first level is a TypeError instead of a mismatch. *)
Theorem c42_conflict_refuted : exists n s, shape_validator n s false = Ok None /\
  shape_validator (Node None [("a"%string, n)]) (SDict [("a"%string, s)]) false = Err TypeError.
Proof.
  exists (Node None [("c"%string, Node (Some [1]) []); ("d"%string, Node (Some [2]) [])]),
    (SDict [("c"%string, SList [EStr "n"]); ("d"%string, SList [EStr "n"])]).
  split; reflexivity.
Qed.
Print Assumptions c42_conflict_refuted.

(** ** The format of a dimension *)
Lemma split_two : forall s a b, split "~" s = [a; b] -> s = (a ++ String "~" b)%string /\ has_char "~" a = false /\ has_char "~" b = false.
Proof.
  assert (One : forall s b, split "~" s = [b] -> s = b /\ has_char "~" b = false).
  { induction s as [|c s IH]; intros b H; cbn [split] in H.
    - injection H as <-. now split.
    - destruct (Ascii.eqb c "~") eqn:E.
      + injection H as <- H. destruct s as [|x s]; cbn in H; [discriminate|]. destruct (Ascii.eqb x "~"); [discriminate|]. destruct (split "~" s); discriminate.
      + destruct (split "~" s) as [|h t] eqn:Q.
        * destruct s as [|x s]; cbn in Q; [discriminate|]. destruct (Ascii.eqb x "~"); [discriminate|]. destruct (split "~" s); discriminate.
        * injection H as <- ->. destruct (IH h eq_refl) as [-> K]. cbn [has_char]. rewrite E. now split. }
  induction s as [|c s IH]; intros a b H; cbn [split] in H; [discriminate|].
  destruct (Ascii.eqb c "~") eqn:E.
  - injection H as <- H. apply Ascii.eqb_eq in E. subst c. destruct (One s b H) as [-> K]. now repeat split.
  - destruct (split "~" s) as [|h t]; [discriminate|]. injection H as <- ->. destruct (IH h b eq_refl) as (-> & K & L).
    cbn [append has_char]. rewrite E. now repeat split.
Qed.
(** Accepted are letters and digits, or two parts of letters and digits around one tilde, which may be empty. *)
Theorem c41_format : forall s, is_range_format_valid s = true <->
  (s <> ""%string /\ each_char alnum_char s) \/
  (exists a b, s = (a ++ String "~" b)%string /\ each_char alnum_char a /\ each_char alnum_char b).
Proof.
  assert (NT : forall s, all_chars alnum s = true -> has_char "~" s = false) by (intros s H; eapply no_char; [exact H|reflexivity]).
  intro s. unfold is_range_format_valid. destruct (has_char "~" s) eqn:T.
  - split.
    + destruct (Nat.eqb_spec (List.length (split "~" s)) 2) as [L|]; [|discriminate]. intro H. right.
      destruct (split "~" s) as [|a [|b [|c l]]] eqn:Q; try discriminate. apply split_two in Q as (-> & A & B).
      exists a, b. split; [reflexivity|]. rewrite !each_alnum. revert H. rewrite remove_app. cbn [remove_char]. rewrite Ascii.eqb_refl.
      rewrite (remove_none _ a A), (remove_none _ b B).
      assert (P : isalnum (a ++ b) || negb (nonempty (a ++ b)) = true -> all_chars alnum (a ++ b) = true).
      { unfold isalnum. fold alnum. destruct (a ++ b)%string; [reflexivity|]. cbn [nonempty negb andb]. rewrite orb_false_r. exact (fun H => H). }
      intro H. apply P in H. rewrite all_chars_app in H. now apply andb_true_iff in H.
    + intros [[_ H]|(a & b & -> & A & B)]; [apply each_alnum, NT in H; congruence|]. apply each_alnum in A, B.
      rewrite split_one by now apply NT. cbn [List.length Nat.eqb]. rewrite remove_app. cbn [remove_char]. rewrite Ascii.eqb_refl.
      rewrite (remove_none _ a), (remove_none _ b) by now apply NT.
      assert (P : all_chars alnum (a ++ b) = true) by (rewrite all_chars_app, A, B; reflexivity).
      unfold isalnum. fold alnum. destruct (a ++ b)%string; [reflexivity|]. cbn [nonempty negb andb]. rewrite orb_false_r. exact P.
  - unfold isalnum. fold alnum. rewrite andb_true_iff. split.
    + intros [N H]. left. split; [destruct s; [discriminate|discriminate]|]. now apply each_alnum.
    + intros [[N H]|(a & b & -> & _)]; [|rewrite range_tilde in T; discriminate]. split; [destruct s; [congruence|reflexivity]|]. now apply each_alnum.
Qed.
Print Assumptions c41_format.
Example c41_format_ex : is_range_format_valid "1~2~3" = false /\ is_range_format_valid "~" = true /\ is_range_format_valid "" = false.
Proof. now repeat split. Qed.
