(** Lemmas on tag patterns, tag versions and the property tag validator. *)
From Coq Require Import List String Ascii Bool Arith Lia Permutation.
From Verif Require Import Base TagModel TagSpec.
Import ListNotations.
Open Scope string_scope.
Open Scope list_scope.

Lemma app_nil_str : forall s : string, (s ++ "")%string = s.
Proof. induction s; simpl; congruence. Qed.

Lemma prefix_ex : forall a s, prefix a s = true <-> exists b, s = (a ++ b)%string.
Proof.
  induction a as [|x a IH]; intro s.
  - split; [exists s; reflexivity|intros _; destruct s; reflexivity].
  - destruct s as [|y s].
    + split; [discriminate|]. intros [b E]. discriminate.
    + change (prefix (String x a) (String y s)) with (if ascii_dec x y then prefix a s else false).
      destruct (ascii_dec x y) as [->|N].
      * rewrite IH. split; intros [b E]; exists b; [subst; reflexivity|injection E as ->; reflexivity].
      * split; [discriminate|]. intros [b E]. injection E as -> _. exfalso. apply N. reflexivity.
Qed.

(** ** The matcher *)
Definition anyf (p : string) := fix any (s : string) : bool :=
  glob p s || match s with EmptyString => false | String _ r => any r end.
Definition segf (p : string) := fix seg (s : string) : bool :=
  glob p s || match s with EmptyString => false | String c r => negb (Ascii.eqb c slash) && seg r end.

Lemma glob_any : forall p s, glob ("**" ++ p)%string s = anyf p s.
Proof. reflexivity. Qed.

Lemma glob_seg : forall p s, prefix "*" p = false -> glob ("*" ++ p)%string s = segf p s.
Proof.
  intros p s N. destruct p as [|b p].
  - change (glob ("*" ++ "") s) with
      ((fix seg (s : string) : bool := match s with EmptyString => true | String c r => negb (Ascii.eqb c slash) && seg r end) s).
    induction s as [|c r IH]; [reflexivity|]. simpl. rewrite IH. reflexivity.
  - assert (Ascii.eqb b star = false) as Nb.
    { destruct (Ascii.eqb_spec b star) as [->|]; [|reflexivity]. unfold star in N. simpl in N. destruct p; discriminate N. }
    change (glob ("*" ++ String b p) s) with
      (if Ascii.eqb b star then anyf p s else segf (String b p) s).
    rewrite Nb. reflexivity.
Qed.

Lemma anyf_iff : forall p s, anyf p s = true <-> exists t u, s = (t ++ u)%string /\ glob p u = true.
Proof.
  induction s as [|c r IH].
  - simpl. rewrite orb_false_r. split.
    + intro G. exists ""%string, ""%string. auto.
    + intros [[|? ?] [u [E G]]]; [|discriminate]. simpl in E. subst. exact G.
  - change (anyf p (String c r)) with (glob p (String c r) || anyf p r).
    rewrite orb_true_iff, IH. split.
    + intros [G|[t [u [-> G]]]].
      * exists ""%string, (String c r). auto.
      * exists (String c t), u. auto.
    + intros [[|c' t] [u [E G]]].
      * left. simpl in E. subst. exact G.
      * injection E as -> ->. right. exists t, u. auto.
Qed.

Lemma segf_iff : forall p s,
  segf p s = true <-> exists t u, s = (t ++ u)%string /\ ~ In slash (list_ascii_of_string t) /\ glob p u = true.
Proof.
  induction s as [|c r IH].
  - simpl. rewrite orb_false_r. split.
    + intro G. exists ""%string, ""%string. split; [reflexivity|]. split; [intros []|exact G].
    + intros [[|? ?] [u [E [_ G]]]]; [|discriminate]. simpl in E. subst. exact G.
  - change (segf p (String c r)) with (glob p (String c r) || (negb (Ascii.eqb c slash) && segf p r)).
    rewrite orb_true_iff, andb_true_iff, IH, negb_true_iff, Ascii.eqb_neq. split.
    + intros [G|[N [t [u [-> [M G]]]]]].
      * exists ""%string, (String c r). split; [reflexivity|]. split; [intros []|exact G].
      * exists (String c t), u. split; [reflexivity|]. split; [|exact G].
        intros [E|H]; [exact (N E)|exact (M H)].
    + intros [[|c' t] [u [E [M G]]]].
      * left. simpl in E. subst. exact G.
      * injection E as -> ->. right. simpl in M. split; [intro E; apply M; left; exact E|].
        exists t, u. split; [reflexivity|]. split; [intro H; apply M; right; exact H|exact G].
Qed.

Lemma glob_denotes_n : forall n p s, (String.length p <= n)%nat -> (glob p s = true <-> Denotes p s).
Proof.
  induction n as [|n IH]; intros p s L.
  - destruct p; [|simpl in L; lia]. destruct s; simpl; split; intro H; try constructor; try discriminate.
    inversion H.
  - destruct p as [|a p].
    { destruct s; simpl; split; intro H; try constructor; try discriminate. inversion H. }
    simpl in L.
    destruct (Ascii.eqb_spec a star) as [->|Na].
    + destruct p as [|b p].
      * change (glob (String star "") s) with (glob ("*" ++ "")%string s).
        rewrite (glob_seg "" s eq_refl), segf_iff. split.
        -- intros [t [u [-> [M G]]]]. apply (d_segment "" u t); auto.
           apply (IH ""%string u); [simpl; lia|exact G].
        -- intro D. inversion D as [|? ? ? N D'|? s' t' D' E|? s' t' N M D' E]; subst.
           ++ exfalso. apply N. reflexivity.
           ++ exists t', s'. split; [reflexivity|]. split; [exact M|].
              apply (IH ""%string s'); [simpl; lia|exact D'].
      * simpl in L. destruct (Ascii.eqb_spec b star) as [->|Nb].
        -- change (glob (String star (String star p)) s) with (anyf p s). rewrite anyf_iff. split.
           ++ intros [t [u [-> G]]]. apply (d_any p u t). apply IH; [lia|exact G].
           ++ intro D. inversion D as [|? ? ? N D'|? s' t' D' E|? s' t' N M D' E]; subst.
              ** exfalso. apply N. reflexivity.
              ** exists t', s'. split; [reflexivity|]. apply IH; [lia|exact D'].
              ** unfold star in N. simpl in N. destruct p; discriminate N.
        -- assert (prefix "*" (String b p) = false) as Np.
           { destruct (prefix "*" (String b p)) eqn:Q; [|reflexivity]. apply prefix_ex in Q.
             destruct Q as [q Q]. injection Q as -> _. exfalso. apply Nb. reflexivity. }
           change (String star (String b p)) with ("*" ++ String b p)%string.
           rewrite (glob_seg _ s Np), segf_iff. split.
           ++ intros [t [u [-> [M G]]]]. apply d_segment; auto. apply IH; [simpl; lia|exact G].
           ++ intro D. inversion D as [|? ? ? N D'|? s' t' D' E|? s' t' N M D' E]; subst.
              ** exfalso. apply N. reflexivity.
              ** exfalso. apply Nb. reflexivity.
              ** exists t', s'. split; [reflexivity|]. split; [exact M|]. apply IH; [simpl; lia|exact D'].
    + assert (forall s, glob (String a p) s = match s with String c r => Ascii.eqb a c && glob p r | EmptyString => false end) as U.
      { intro. simpl. apply Ascii.eqb_neq in Na. rewrite Na. reflexivity. }
      rewrite U. destruct s as [|c r].
      * split; [discriminate|]. intro D. inversion D; subst; exfalso; apply Na; reflexivity.
      * rewrite andb_true_iff, Ascii.eqb_eq. split.
        -- intros [<- G]. constructor; [exact Na|]. apply IH; [lia|exact G].
        -- intro D. inversion D; subst; try (exfalso; apply Na; reflexivity).
           split; [reflexivity|]. apply IH; [lia|assumption].
Qed.

Lemma glob_denotes : forall p s, glob p s = true <-> Denotes p s.
Proof. intros. apply (glob_denotes_n (String.length p)). lia. Qed.

Lemma denotes_plain : forall b q t, plain b ->
  (Denotes (b ++ q) t <-> exists s, t = (b ++ s)%string /\ Denotes q s).
Proof.
  unfold plain. induction b as [|a b IH]; intros q t P; simpl.
  - split; [intro D; exists t; auto|intros [s [-> D]]; exact D].
  - split.
    + intro D. inversion D; subst; try (exfalso; apply P; left; reflexivity).
      apply IH in H3; [|intro; apply P; right; assumption].
      destruct H3 as [s' [-> D']]. exists s'. auto.
    + intros [s [-> D]]. constructor.
      * intros ->. apply P. left. reflexivity.
      * apply IH; [intro; apply P; right; assumption|]. eauto.
Qed.

Lemma denotes_star : forall s, Denotes "*" s <-> ~ In "/"%char (list_ascii_of_string s).
Proof.
  intro s. split.
  - intro D. inversion D as [|? ? ? N D'|? s' t' D' E|? s' t' N M D' E]; subst.
    + exfalso. apply N. reflexivity.
    + inversion D'. subst. rewrite app_nil_str. exact M.
  - intro N. rewrite <- (app_nil_str s). apply (d_segment "" "" s); auto. constructor.
Qed.

Lemma denotes_nil : forall s, Denotes "" s <-> s = ""%string.
Proof. split; [intro D; inversion D; reflexivity|intros ->; constructor]. Qed.

(** ** The last dash *)
Definition dashless (s : string) : Prop := ~ In "-"%char (list_ascii_of_string s).

Lemma rpartition_some : forall t b v,
  rpartition t = Some (b, v) <-> t = (b ++ String "-" v)%string /\ dashless v.
Proof.
  unfold dashless.
  assert (forall t, rpartition t = None <-> ~ In "-"%char (list_ascii_of_string t)) as None_.
  { induction t as [|a t IH]; simpl; [tauto|].
    destruct (rpartition t) as [[b v]|].
    - split; [discriminate|]. intro N. exfalso.
      assert (Some (b, v) = None) as X by (apply IH; tauto). discriminate X.
    - assert (~ In "-"%char (list_ascii_of_string t)) as Nt by (apply IH; reflexivity).
      destruct (Ascii.eqb_spec a "-") as [->|N]; split; try discriminate; try tauto. }
  induction t as [|a t IH]; intros b v; simpl.
  - split; [discriminate|]. intros [E _]. destruct b; discriminate.
  - specialize (None_ t). destruct (rpartition t) as [[b' v']|].
    + split.
      * intro E. injection E as <- <-. destruct (proj1 (IH b' v') eq_refl) as [-> D]. auto.
      * intros [E D]. destruct b as [|c b].
        -- injection E as -> ->. exfalso.
           assert (Some (b', v') = None) as X by (apply None_; exact D). discriminate X.
        -- injection E as -> E. pose proof (proj2 (IH b v) (conj E D)) as X. injection X as -> ->. reflexivity.
    + assert (~ In "-"%char (list_ascii_of_string t)) as Nt by (apply None_; reflexivity).
      destruct (Ascii.eqb_spec a "-") as [->|N].
      * split.
        -- intro E. injection E as <- <-. auto.
        -- intros [E D]. destruct b as [|c b]; [injection E as ->; reflexivity|].
           injection E as <- ->. exfalso. apply Nt.
           clear. induction b as [|x b IHb]; [left; reflexivity|right; exact IHb].
      * split; [discriminate|]. intros [E D]. destruct b as [|c b].
        -- injection E as -> _. exfalso. apply N. reflexivity.
        -- injection E as -> E. discriminate (proj2 (IH b v) (conj E D)).
Qed.

Lemma tag_split : forall b v, dashless v ->
  tag_base (b ++ String "-" v) = b /\ tag_version (b ++ String "-" v) = v.
Proof.
  intros b v D. unfold tag_base, tag_version.
  rewrite (proj2 (rpartition_some (b ++ String "-" v) b v) (conj eq_refl D)). auto.
Qed.

Lemma prefix_app : forall a b, prefix a (a ++ b) = true.
Proof. intros. apply prefix_ex. eauto. Qed.

(** ** Sorting by version *)
Section Highest.
  Context {V : Type} (ver : string -> res V) (vleb : V -> V -> bool).
  Hypothesis total : forall a b, vleb a b = true \/ vleb b a = true.
  Hypothesis trans : forall a b c, vleb a b = true -> vleb b c = true -> vleb a c = true.

  Lemma insert_perm : forall x l, Permutation (insert vleb x l) (x :: l).
  Proof.
    induction l as [|y l IH]; simpl; [reflexivity|]. destruct (vleb (fst x) (fst y)); [reflexivity|].
    rewrite IH. constructor.
  Qed.
  Lemma sort_perm : forall l, Permutation (sort vleb l) l.
  Proof. induction l; simpl; [reflexivity|]. rewrite insert_perm. constructor. exact IHl. Qed.

  (** the last element is above all others *)
  Definition top (l : list (V * string)) : Prop :=
    forall d y, In y l -> vleb (fst y) (fst (last l d)) = true.

  Lemma refl_v : forall a, vleb a a = true.
  Proof. intro a. destruct (total a a); assumption. Qed.

  Lemma last_cons : forall (A : Type) (x : A) l d, l <> [] -> last (x :: l) d = last l d.
  Proof. intros A x [|y l] d N; [congruence|reflexivity]. Qed.
  Lemma last_indep : forall (A : Type) (l : list A) d d', l <> [] -> last l d = last l d'.
  Proof. induction l as [|x [|y l] IH]; intros d d' N; [congruence|reflexivity|]. apply IH. discriminate. Qed.

  Lemma insert_top : forall x l, top l -> top (insert vleb x l).
  Proof.
    unfold top. induction l as [|y l IH]; intros T d z I; simpl in *.
    - destruct I as [<-|[]]. apply refl_v.
    - destruct (vleb (fst x) (fst y)) eqn:L.
      + destruct I as [<-|I].
        * change (last (x :: y :: l) d) with (last (y :: l) d).
          apply (trans _ (fst y)); [exact L|]. apply T. left. reflexivity.
        * change (last (x :: y :: l) d) with (last (y :: l) d). apply T. exact I.
      + assert (insert vleb x l <> []) as N.
        { intro X. pose proof (insert_perm x l) as Q. rewrite X in Q. apply Permutation_nil in Q. discriminate Q. }
        change (match insert vleb x l with [] => y | _ => last (insert vleb x l) d end)
          with (last (y :: insert vleb x l) d).
        rewrite last_cons by exact N.
        assert (forall d y, In y l -> vleb (fst y) (fst (last l d)) = true) as T'.
        { intros d' w Iw. rewrite (last_indep _ l d' d) by (destruct l; [destruct Iw|discriminate]).
          rewrite <- (last_cons _ y l d) by (destruct l; [destruct Iw|discriminate]).
          apply T. right. exact Iw. }
        destruct I as [<-|I]; [|apply IH; assumption].
        destruct l as [|w l].
        * simpl. destruct (total (fst y) (fst x)) as [G|G]; congruence.
        * apply (trans _ (fst (last (w :: l) d))).
          -- rewrite <- (last_cons _ y (w :: l) d) by discriminate. apply T. left. reflexivity.
          -- apply IH; [exact T'|].
             apply (Permutation_in _ (Permutation_sym (insert_perm x (w :: l)))).
             right. clear. revert w. induction l as [|v l IHl]; intro w; [left; reflexivity|].
             right. apply IHl.
  Qed.
  Lemma sort_top : forall l, top (sort vleb l).
  Proof. induction l; simpl; [intros d y []|]. apply insert_top. exact IHl. Qed.

  Lemma keyed_ok : forall tags l, keyed ver tags = Ok l ->
    map snd l = tags /\ forall v t, In (v, t) l -> ver (tag_version t) = Ok v.
  Proof.
    induction tags as [|t tags IH]; intros l K; simpl in K.
    - injection K as <-. split; [reflexivity|intros v t []].
    - destruct (ver (tag_version t)) as [v|e] eqn:Ev; [|discriminate].
      destruct (keyed ver tags) as [l'|e]; [|discriminate]. injection K as <-.
      destruct (IH l' eq_refl) as [M W]. split; [simpl; rewrite M; reflexivity|].
      intros v' t' [E|I]; [injection E as <- <-; exact Ev|exact (W v' t' I)].
  Qed.
  Lemma keyed_total : forall tags, (forall t, In t tags -> exists v, ver (tag_version t) = Ok v) ->
    exists l, keyed ver tags = Ok l.
  Proof.
    induction tags as [|t tags IH]; intro A; simpl; [eauto|].
    destruct (A t) as [v ->]; [left; reflexivity|]. simpl.
    destruct IH as [l ->]; [intros; apply A; right; assumption|]. simpl. eauto.
  Qed.

  Lemma last_in : forall (A : Type) (l : list A) d, l <> [] -> In (last l d) l.
  Proof.
    induction l as [|x [|y l] IH]; intros d N; [congruence|left; reflexivity|].
    right. apply (IH d). discriminate.
  Qed.
  Lemma last_map : forall (A B : Type) (f : A -> B) l d, last (map f l) (f d) = f (last l d).
  Proof. induction l as [|x [|y l] IH]; intro d; [reflexivity|reflexivity|]. apply IH. Qed.

  Lemma sorted_tags : forall tags l, keyed ver tags = Ok l -> Permutation (map snd (sort vleb l)) tags.
  Proof.
    intros tags l K. destruct (keyed_ok tags l K) as [M _]. rewrite (Permutation_map snd (sort_perm l)).
    rewrite M. reflexivity.
  Qed.

  Lemma sorted_last : forall tags l, keyed ver tags = Ok l -> tags <> [] ->
    let h := last (map snd (sort vleb l)) ""%string in
    In h tags /\ exists v, ver (tag_version h) = Ok v /\
      forall t, In t tags -> exists w, ver (tag_version t) = Ok w /\ vleb w v = true.
  Proof.
    intros tags l K N h.
    assert (Permutation (map snd (sort vleb l)) tags) as P by (apply sorted_tags; exact K).
    destruct (keyed_ok tags l K) as [M W].
    assert (exists x0, In x0 (sort vleb l)) as [x0 I0].
    { destruct (sort vleb l) as [|x r]; [|exists x; left; reflexivity].
      apply Permutation_nil in P. contradiction. }
    assert (sort vleb l <> []) as Ns by (destruct (sort vleb l); [destruct I0|discriminate]).
    assert (h = snd (last (sort vleb l) x0)) as Eh.
    { unfold h. rewrite <- (last_map _ _ snd). apply last_indep. destruct (sort vleb l); [congruence|discriminate]. }
    split.
    - apply (Permutation_in _ P). rewrite Eh. apply in_map. apply last_in. exact Ns.
    - exists (fst (last (sort vleb l) x0)). split.
      + rewrite Eh. apply W. apply (Permutation_in _ (sort_perm l)).
        rewrite <- surjective_pairing. apply last_in. exact Ns.
      + intros t I. apply (Permutation_in _ (Permutation_sym P)) in I. apply in_map_iff in I.
        destruct I as [[w t'] [E I]]. simpl in E. subst t'. exists w. split.
        * apply W. apply (Permutation_in _ (sort_perm l)). exact I.
        * apply (sort_top l x0 (w, t) I).
  Qed.
End Highest.
