(** Lemmas about [SerialModel]. *)
From Coq Require Import List String Ascii Bool Arith ZArith NArith Lia Sorted Permutation.
From Verif Require Import Base SerialModel SerialSpec.
Import ListNotations.
Open Scope list_scope.

(** ** hashes *)
Section Hash.
  Variables (alg state : Type) (start : alg -> state) (feed : alg -> state -> nat -> state) (digest : alg -> state -> string).
  Lemma read_loop_all : forall size a fuel data s, size <> 0%Z -> List.length data < fuel ->
    read_loop alg state feed fuel a size s data = Ok (fold_left (feed a) data s).
  Proof.
    intros size a. induction fuel as [|fuel IH]; intros data s NZ L; [lia|]. cbn [read_loop]. unfold read.
    destruct (size <? 0)%Z eqn:E.
    - destruct data as [|x r]; [reflexivity|]. rewrite IH; [reflexivity|exact NZ|cbn in *; lia].
    - apply Z.ltb_ge in E. destruct (Z.to_nat size) as [|n] eqn:N; [lia|]. destruct data as [|x r]; [reflexivity|].
      cbn [firstn skipn]. rewrite IH; [|exact NZ|cbn in L; rewrite skipn_length; lia].
      unfold update. rewrite <- fold_left_app. change (x :: firstn n r) with ([x] ++ firstn n r). rewrite <- app_assoc, firstn_skipn. reflexivity.
  Qed.
End Hash.

(** ** trees *)
Fixpoint yaml_ind2 (P : yaml -> Prop) (HN : P YNone) (HL : forall n, P (YLeaf n))
  (HS : forall l, Forall P l -> P (YList l)) (HD : forall d, Forall (fun p => P (snd p)) d -> P (YDict d)) (y : yaml) : P y :=
  match y with
  | YNone => HN
  | YLeaf n => HL n
  | YList l => HS l ((fix go l := match l return Forall P l with [] => Forall_nil _ | x :: r => Forall_cons x (yaml_ind2 P HN HL HS HD x) (go r) end) l)
  | YDict d => HD d ((fix go d := match d return Forall (fun p => P (snd p)) d with
      | [] => Forall_nil _ | p :: r => Forall_cons p (yaml_ind2 P HN HL HS HD (snd p)) (go r) end) d)
  end.
Lemma drop_list : forall l, drop (YList l) = YList (map drop (filter (fun x => negb (is_none x)) l)).
Proof.
  intros l. cbn [drop]. f_equal. induction l as [|x r IH]; [reflexivity|]. cbn [filter]. destruct (is_none x); cbn [negb map]; rewrite IH; reflexivity.
Qed.
Lemma drop_dict : forall d, drop (YDict d) = YDict (map (fun p => (fst p, drop (snd p))) (filter (fun p => negb (is_none (snd p))) d)).
Proof.
  intros d. cbn [drop]. f_equal. induction d as [|[k x] r IH]; [reflexivity|]. cbn [filter snd]. destruct (is_none x); cbn [negb map fst snd]; rewrite IH; reflexivity.
Qed.
Lemma drop_not_none : forall y, y <> YNone -> drop y <> YNone.
Proof. intros [] N; cbn; congruence. Qed.
Lemma drop_complete : forall y, complete (drop y).
Proof.
  induction y as [|n|l IH|d IH] using yaml_ind2; [constructor|constructor| |].
  - rewrite drop_list. constructor. intros x I. apply in_map_iff in I. destruct I as (z & <- & I). apply filter_In in I. destruct I as [I N].
    rewrite Forall_forall in IH. split; [apply drop_not_none; destruct z; cbn in N; congruence|apply IH, I].
  - rewrite drop_dict. constructor. intros k x I. apply in_map_iff in I. destruct I as ([k' z] & E & I). injection E as <- <-.
    apply filter_In in I. destruct I as [I N]. cbn in *.
    rewrite Forall_forall in IH. split; [apply drop_not_none; destruct z; cbn in N; congruence|apply (IH _ I)].
Qed.
Lemma drop_id : forall y, complete y -> drop y = y.
Proof.
  induction y as [|n|l IH|d IH] using yaml_ind2; intros C; [reflexivity|reflexivity| |].
  - rewrite drop_list. inversion C as [| |? H|]; subst. f_equal. rewrite Forall_forall in IH.
    clear C. induction l as [|x r IHl]; [reflexivity|]. cbn [filter]. destruct (H x (or_introl eq_refl)) as [NX CX].
    destruct (is_none x) eqn:E; [destruct x; cbn in E; congruence|]. cbn [negb map]. rewrite (IH x (or_introl eq_refl) CX). f_equal.
    apply IHl; intros z I; [apply IH|apply H]; right; exact I.
  - rewrite drop_dict. inversion C as [| | |? H]; subst. f_equal. rewrite Forall_forall in IH.
    clear C. induction d as [|[k x] r IHd]; [reflexivity|]. cbn [filter snd]. destruct (H k x (or_introl eq_refl)) as [NX CX].
    destruct (is_none x) eqn:E; [destruct x; cbn in E; congruence|]. cbn [negb map fst snd]. pose proof (IH (k, x) (or_introl eq_refl) CX) as DX. cbn [snd] in DX. rewrite DX. f_equal.
    apply IHd; [intros z I; apply IH; right; exact I|intros k' z I; apply (H k'); right; exact I].
Qed.

(** ** order of strings *)
Lemma leb_iff : forall a b, String.leb a b = true <-> String.compare a b <> Gt.
Proof. intros a b. unfold String.leb. destruct (String.compare a b); split; congruence. Qed.
Lemma compare_refl : forall a, String.compare a a = Eq.
Proof.
  induction a as [|c r IH]; [reflexivity|]. cbn. unfold Ascii.compare. rewrite N.compare_refl. exact IH.
Qed.
Lemma leb_trans : forall a b c, String.leb a b = true -> String.leb b c = true -> String.leb a c = true.
Proof.
  intros a b c. rewrite !leb_iff. revert b c. induction a as [|x a IH]; intros [|y b] [|z c]; cbn; try congruence.
  unfold Ascii.compare. destruct (N.compare_spec (N_of_ascii x) (N_of_ascii y)) as [E|L|L], (N.compare_spec (N_of_ascii y) (N_of_ascii z)) as [F|M|M];
    try congruence; intros A B.
  - rewrite E, F, N.compare_refl. eauto.
  - rewrite E. apply N.compare_lt_iff in M. rewrite M. congruence.
  - rewrite <- F. apply N.compare_lt_iff in L. rewrite L. congruence.
  - assert (Q : (N_of_ascii x < N_of_ascii z)%N) by lia. apply N.compare_lt_iff in Q. rewrite Q. congruence.
Qed.
Lemma leb_total' : forall a b, String.leb a b = false -> String.leb b a = true.
Proof. intros a b E. destruct (String.leb_total a b); congruence. Qed.

(** ** insertion sort *)
Section Sort.
  Variable A : Type.
  Variable le : A -> A -> bool.
  Hypothesis total : forall a b, le a b = false -> le b a = true.
  Hypothesis trans : forall a b c, le a b = true -> le b c = true -> le a c = true.
  Fixpoint ins (x : A) (l : list A) : list A :=
    match l with [] => [x] | y :: r => if le x y then x :: l else y :: ins x r end.
  Definition isort (l : list A) : list A := fold_right ins [] l.
  Lemma ins_perm : forall x l, Permutation (x :: l) (ins x l).
  Proof.
    intros x. induction l as [|y r IH]; [apply Permutation_refl|]. cbn [ins]. destruct (le x y); [apply Permutation_refl|].
    eapply perm_trans; [apply perm_swap|]. apply perm_skip. exact IH.
  Qed.
  Lemma isort_perm : forall l, Permutation l (isort l).
  Proof. induction l as [|x r IH]; [constructor|]. cbn. eapply perm_trans; [apply perm_skip, IH|apply ins_perm]. Qed.
  Lemma ins_sorted : forall x l, StronglySorted (fun a b => le a b = true) l -> StronglySorted (fun a b => le a b = true) (ins x l).
  Proof.
    intros x. induction l as [|y r IH]; intros S; cbn [ins]; [constructor; constructor|]. inversion S as [|? ? SR F]; subst.
    destruct (le x y) eqn:E.
    - constructor; [exact S|]. constructor; [exact E|]. rewrite Forall_forall in *. intros z Z. eauto.
    - constructor; [auto|]. apply (Permutation_Forall (ins_perm x r)). constructor; [auto|exact F].
  Qed.
  Lemma isort_sorted : forall l, StronglySorted (fun a b => le a b = true) (isort l).
  Proof. induction l as [|x r IH]; [constructor|]. cbn. apply ins_sorted, IH. Qed.
  Lemma isort_id : forall l, Sorted (fun a b => le a b = true) l -> isort l = l.
  Proof.
    induction l as [|x r IH]; intros S; [reflexivity|]. cbn [isort fold_right]. fold (isort r). inversion S as [|? ? SR H]; subst.
    rewrite IH by exact SR. destruct r as [|y r]; [reflexivity|]. cbn [ins]. inversion H as [|? ? E]; subst. rewrite E. reflexivity.
  Qed.
  Lemma sorted_last : forall l, StronglySorted (fun a b => le a b = true) l -> l <> [] ->
    exists m, last (map Some l) None = Some m /\ In m l /\ forall x, In x l -> x = m \/ le x m = true.
  Proof.
    induction l as [|x r IH]; intros S N; [congruence|]. inversion S as [|? ? SR F]; subst. destruct r as [|y r].
    - exists x. cbn. split; [reflexivity|]. split; [auto|]. intros z [->|[]]. auto.
    - destruct (IH SR ltac:(discriminate)) as (m & L & I & M). exists m. split; [exact L|]. split; [right; exact I|].
      intros z [->|Z]; [|auto]. right. rewrite Forall_forall in F. apply F, I.
  Qed.
  Lemma isort_last : forall l, l <> [] -> exists m, last (map Some (isort l)) None = Some m /\ In m l /\ forall x, In x l -> x = m \/ le x m = true.
  Proof.
    intros l N. destruct (sorted_last (isort l) (isort_sorted l)) as (m & L & I & M).
    - intros E. pose proof (isort_perm l) as P. rewrite E in P. apply Permutation_sym, Permutation_nil in P. contradiction.
    - exists m. split; [exact L|]. split; [apply (Permutation_in _ (Permutation_sym (isort_perm l))), I|].
      intros x X. apply M. apply (Permutation_in _ (isort_perm l)), X.
  Qed.
End Sort.
Lemma sorted_isort : forall l, sorted l = isort string String.leb l.
Proof.
  assert (E : forall x l, insert x l = ins string String.leb x l).
  { intros x. induction l as [|y r IH]; [reflexivity|]. cbn. rewrite IH. reflexivity. }
  induction l as [|x r IH]; [reflexivity|]. cbn [sorted isort fold_right]. fold (sorted r). fold (isort string String.leb r). rewrite IH. apply E.
Qed.
Definition tag_le (a b : string * list nat) : bool := release_le (snd a) (snd b).
Lemma sort_tags_isort : forall l, sort_tags l = isort _ tag_le l.
Proof.
  assert (E : forall x l, insert_tag x l = ins _ tag_le x l).
  { intros x. induction l as [|y r IH]; [reflexivity|]. cbn. rewrite IH. reflexivity. }
  induction l as [|x r IH]; [reflexivity|]. cbn [sort_tags isort fold_right]. fold (sort_tags r). fold (isort _ tag_le r). rewrite IH. apply E.
Qed.

(** ** releases *)
Lemma zeros_iff : forall a, forallb (Nat.eqb 0) a = true <-> forall j, nth j a 0 = 0.
Proof.
  intros a. rewrite forallb_forall. split.
  - intros H j. destruct (Nat.lt_ge_cases j (List.length a)) as [L|L]; [|apply nth_overflow; exact L].
    symmetry. apply Nat.eqb_eq. apply H, nth_In, L.
  - intros H x I. destruct (In_nth _ _ 0 I) as (j & _ & <-). rewrite H. reflexivity.
Qed.
Lemma release_le_iff : forall a b, release_le a b = true <-> not_newer a b.
Proof.
  induction a as [|x a IH]; intros b; cbn [release_le].
  - split; [|reflexivity]. intros _. unfold not_newer.
    destruct (forallb (Nat.eqb 0) b) eqn:Z.
    + left. intros j. rewrite zeros_iff in Z. rewrite Z. destruct j; reflexivity.
    + right. assert (X : exists i, (forall j, j < i -> nth j b 0 = 0) /\ nth i b 0 > 0).
      { induction b as [|y b IHb]; [discriminate|]. cbn [forallb] in Z. destruct (Nat.eqb 0 y) eqn:Y.
        - apply Nat.eqb_eq in Y. subst y. destruct (IHb Z) as (i & A & B). exists (S i). split; [|exact B]. intros [|j] L; [reflexivity|]. apply A. lia.
        - apply Nat.eqb_neq in Y. exists 0. split; [intros j L; lia|cbn; lia]. }
      destruct X as (i & A & B). exists i. assert (N0 : forall j, nth j (@nil nat) 0 = 0) by (intros [|j]; reflexivity).
      split; [intros j L; rewrite N0, A; auto|rewrite N0; exact B].
  - destruct b as [|y b].
    + rewrite zeros_iff. assert (N0 : forall j, nth j (@nil nat) 0 = 0) by (intros [|j]; reflexivity). unfold not_newer. split.
      * intros H. left. intros j. rewrite H, N0. reflexivity.
      * intros [H|(i & _ & L)]; [intros j; rewrite H, N0; reflexivity|rewrite N0 in L; lia].
    + rewrite orb_true_iff, andb_true_iff, Nat.ltb_lt, Nat.eqb_eq, IH. unfold not_newer. split.
      * intros [L|[-> [H|(i & A & B)]]].
        -- right. exists 0. split; [intros j J; lia|exact L].
        -- left. intros [|j]; [reflexivity|apply H].
        -- right. exists (S i). split; [|exact B]. intros [|j] J; [reflexivity|]. apply A. lia.
      * intros [H|(i & A & B)].
        -- right. split; [apply (H 0)|]. left. intros j. apply (H (S j)).
        -- destruct i as [|i]; [left; exact B|]. right. split; [apply (A 0); lia|]. right. exists i. split; [|exact B]. intros j J. apply (A (S j)). lia.
Qed.
Lemma tag_le_total : forall a b, tag_le a b = false -> tag_le b a = true.
Proof.
  intros [s a] [t b]. unfold tag_le. cbn [snd]. clear s t. revert b. induction a as [|x a IH]; intros [|y b]; cbn [release_le]; try congruence.
  - intros E. apply orb_false_iff in E. destruct E as [L E]. apply Nat.ltb_ge in L. rewrite orb_true_iff, andb_true_iff.
    destruct (Nat.eq_dec x y) as [->|N]; [|left; apply Nat.ltb_lt; lia]. rewrite Nat.eqb_refl in E. right. split; [apply Nat.eqb_refl|auto].
Qed.
Lemma not_newer_trans : forall a b c, not_newer a b -> not_newer b c -> not_newer a c.
Proof.
  intros a b c [H|(i & A & B)] [K|(j & C & D)].
  - left. intros k. rewrite H. apply K.
  - right. exists j. split; [intros k L; rewrite H; auto|rewrite H; exact D].
  - right. exists i. split; [intros k L; rewrite <- K; auto|rewrite <- K; exact B].
  - right. exists (Nat.min i j). split.
    + intros k L. rewrite A, C by lia. reflexivity.
    + destruct (Nat.lt_trichotomy i j) as [L|[L|L]].
      * rewrite Nat.min_l by lia. rewrite <- C by exact L. exact B.
      * subst j. rewrite Nat.min_id. lia.
      * rewrite Nat.min_r by lia. rewrite A by exact L. exact D.
Qed.
Lemma tag_le_trans : forall a b c, tag_le a b = true -> tag_le b c = true -> tag_le a c = true.
Proof. intros a b c. unfold tag_le. rewrite !release_le_iff. apply not_newer_trans. Qed.

Lemma parse_all_ok : forall tags l, parse_all tags = Ok l ->
  map fst l = tags /\ forall t v, In (t, v) l -> parse_release None (version_text t) = Some v.
Proof.
  induction tags as [|t r IH]; intros l E; cbn [parse_all] in E.
  - injection E as <-. split; [reflexivity|intros t v []].
  - destruct (parse_release None (version_text t)) as [v|] eqn:P; [|discriminate]. destruct (parse_all r) as [l'|]; [|discriminate].
    injection E as <-. destruct (IH l' eq_refl) as [<- H]. split; [reflexivity|]. intros t' v' [Q|Q]; [injection Q as <- <-; exact P|auto].
Qed.
Lemma last_map : forall (A B : Type) (f : A -> B) l, last (map (fun p => Some (f p)) l) None = option_map f (last (map Some l) None).
Proof.
  intros A B f. induction l as [|x r IH]; [reflexivity|]. destruct r as [|y r]; [reflexivity|]. cbn [map] in *. cbn [last] in *. exact IH.
Qed.

(** texts *)
Lemma digit_ok : forall d, d < 10 -> digit (ascii_of_nat (48 + d)) = Some d.
Proof. intros d L. do 10 (destruct d as [|d]; [reflexivity|]). lia. Qed.
Lemma digit_dot : digit "."%char = None.
Proof. reflexivity. Qed.
Lemma parse_number : forall ds acc s, Forall (fun d => d < 10) ds ->
  parse_release (Some acc) (number_text ds ++ s)%string = parse_release (Some (fold_left (fun a d => 10 * a + d) ds acc)) s.
Proof.
  induction ds as [|d r IH]; intros acc s F; [reflexivity|]. inversion F; subst. cbn [number_text fold_right append fold_left]. unfold digit_text at 1. cbn [append parse_release].
  rewrite digit_ok by assumption. apply IH. assumption.
Qed.
Lemma parse_number0 : forall ds s, is_number ds ->
  parse_release None (number_text ds ++ s)%string = parse_release (Some (number ds)) s.
Proof.
  intros [|d r] s [N F]; [congruence|]. inversion F; subst. cbn [number_text fold_right append]. unfold digit_text at 1. cbn [append parse_release].
  rewrite digit_ok by assumption. apply parse_number. assumption.
Qed.
Lemma append_nil : forall s, (s ++ "")%string = s.
Proof. induction s as [|c r IH]; [reflexivity|]. cbn. rewrite IH. reflexivity. Qed.
Lemma append_assoc : forall a b c, ((a ++ b) ++ c)%string = (a ++ (b ++ c))%string.
Proof. induction a as [|x a IH]; intros b c; [reflexivity|]. cbn. rewrite IH. reflexivity. Qed.
Lemma parse_text : forall l, l <> [] -> Forall is_number l -> parse_release None (release_text l) = Some (map number l).
Proof.
  induction l as [|ds r IH]; intros N F; [congruence|]. inversion F as [|? ? D FR]; subst. cbn [release_text]. destruct r as [|e r].
  - rewrite <- (append_nil (number_text ds)). rewrite parse_number0 by exact D. reflexivity.
  - rewrite parse_number0 by exact D. cbn [append parse_release]. rewrite digit_dot. cbn [Ascii.eqb Bool.eqb].
    change ("" ++ release_text (e :: r))%string with (release_text (e :: r)).
    rewrite IH; [reflexivity|discriminate|exact FR].
Qed.
Fixpoint has_char (c : ascii) (s : string) : Prop := match s with EmptyString => False | String x r => x = c \/ has_char c r end.
Lemma rpartition_none : forall c s, ~ has_char c s -> rpartition c s = None.
Proof.
  intros c. induction s as [|x r IH]; intros N; [reflexivity|]. cbn in *. rewrite IH by tauto.
  destruct (Ascii.eqb x c) eqn:E; [apply Ascii.eqb_eq in E; tauto|reflexivity].
Qed.
Lemma rpartition_app : forall c a b, ~ has_char c b -> rpartition c (a ++ String c b)%string = Some (a, b).
Proof.
  intros c. induction a as [|x a IH]; intros b N; cbn [append rpartition].
  - rewrite rpartition_none by exact N. rewrite Ascii.eqb_refl. reflexivity.
  - rewrite IH by exact N. reflexivity.
Qed.
Lemma has_char_app : forall c a b, has_char c (a ++ b)%string <-> has_char c a \/ has_char c b.
Proof. intros c. induction a as [|x a IH]; intros b; cbn; [tauto|]. rewrite IH. tauto. Qed.
Lemma number_no_minus : forall ds, Forall (fun d => d < 10) ds -> ~ has_char "-"%char (number_text ds).
Proof.
  induction ds as [|d r IH]; intros F; [tauto|]. inversion F as [|? ? L FR]; subst. cbn [number_text fold_right]. rewrite has_char_app.
  intros [[E|[]]|H]; [|exact (IH FR H)]. do 10 (destruct d as [|d]; [discriminate|]). lia.
Qed.
Lemma release_no_minus : forall l, Forall is_number l -> ~ has_char "-"%char (release_text l).
Proof.
  induction l as [|ds r IH]; intros F; [tauto|]. inversion F as [|? ? [_ D] FR]; subst. cbn [release_text]. destruct r as [|e r].
  - apply number_no_minus, D.
  - rewrite has_char_app. intros [H|H]; [exact (number_no_minus ds D H)|]. cbn [append has_char] in H.
    destruct H as [H|H]; [discriminate|]. exact (IH FR H).
Qed.
Lemma tag_parts : forall base l, Forall is_number l -> base_tag (tag_text base l) = base /\ version_text (tag_text base l) = release_text l.
Proof.
  intros base l F. unfold base_tag, version_text, tag_text. cbn [append].
  rewrite rpartition_app by (apply release_no_minus; exact F). auto.
Qed.

(** ** frequencies *)
Lemma replace_app : forall c r a b, replace c r (a ++ b)%string = (replace c r a ++ replace c r b)%string.
Proof.
  intros c r. induction a as [|x a IH]; intros b; [reflexivity|]. cbn [append replace]. destruct (Ascii.eqb x c); rewrite IH; [|reflexivity].
  rewrite append_assoc. reflexivity.
Qed.
Lemma convert_app : forall a b, convert_freq (a ++ b)%string = (convert_freq a ++ convert_freq b)%string.
Proof.
  unfold convert_freq. generalize suffixes. induction l as [|[c r] l IH]; intros a b; [reflexivity|]. cbn [fold_left fst snd].
  rewrite replace_app. apply IH.
Qed.
Lemma convert_number : forall ds, Forall (fun d => d < 10) ds -> convert_freq (number_text ds) = number_text ds.
Proof.
  induction ds as [|d r IH]; intros F; [reflexivity|]. inversion F as [|? ? L FR]; subst. cbn [number_text fold_right].
  rewrite convert_app. fold (number_text r). rewrite (IH FR). f_equal. do 10 (destruct d as [|d]; [reflexivity|]). lia.
Qed.
