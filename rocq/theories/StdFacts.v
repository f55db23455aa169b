(** Lemmas on quality standards. *)
From Coq Require Import List String Ascii Bool Permutation.
From Verif Require Import Base TagModel TagFacts StdModel StdSpec.
Import ListNotations.
Open Scope string_scope.
Open Scope list_scope.

(** ** File names *)
Lemma stem_none : forall f, stem f = None <-> without "." f.
Proof.
  unfold without. induction f as [|a f IH]; simpl; [tauto|].
  destruct (stem f) as [s|].
  - split; [discriminate|]. intro N. exfalso. assert (Some s = None) as X by (apply IH; tauto). discriminate X.
  - assert (~ In "."%char (list_ascii_of_string f)) as Nf by (apply IH; reflexivity).
    destruct (Ascii.eqb_spec a ".") as [->|N]; split; try discriminate; tauto.
Qed.

Lemma stem_some : forall f s, stem f = Some s <-> exists ext, f = (s ++ "." ++ ext)%string /\ without "." ext.
Proof.
  induction f as [|a f IH]; intro s; simpl.
  - split; [discriminate|]. intros [ext [E _]]. destruct s; discriminate E.
  - pose proof (stem_none f) as N. destruct (stem f) as [s'|].
    + split.
      * intro E. injection E as <-. destruct (proj1 (IH s') eq_refl) as [ext [-> D]]. exists ext. auto.
      * intros [ext [E D]]. destruct s as [|c s].
        -- injection E as -> ->. discriminate (proj2 N D).
        -- injection E as -> E. pose proof (proj2 (IH s) (ex_intro _ ext (conj E D))) as X. injection X as ->. reflexivity.
    + assert (without "." f) as Nf by (apply N; reflexivity).
      destruct (Ascii.eqb_spec a ".") as [->|Na].
      * split.
        -- intro E. injection E as <-. exists f. auto.
        -- intros [ext [E D]]. destruct s as [|c s]; [reflexivity|]. exfalso. injection E as <- ->. apply Nf.
           clear. induction s as [|x s IHs]; [left; reflexivity|right; exact IHs].
      * split; [discriminate|]. intros [ext [E D]]. destruct s as [|c s].
        -- injection E as -> _. exfalso. apply Na. reflexivity.
        -- injection E as -> E. discriminate (proj2 (IH s) (ex_intro _ ext (conj E D))).
Qed.

Lemma app_str_assoc : forall a b c : string, ((a ++ b) ++ c = a ++ (b ++ c))%string.
Proof. induction a; intros; simpl; congruence. Qed.

Section Std.
  Context {version : Type} (vparse : string -> res version)
          (veqb : version -> version -> bool) (vltb : version -> version -> bool).
  Hypothesis veqb_iff : forall a b, veqb a b = true <-> a = b.

  Lemma names_iff : forall f n v, name_and_version vparse f = Ok (n, v) <-> names vparse f n v.
  Proof.
    intros f n v. unfold name_and_version, names. pose proof (stem_some f) as S. split.
    - destruct (stem f) as [s|]; [|discriminate]. destruct (proj1 (S s) eq_refl) as [ext [-> D]].
      pose proof (rpartition_some s) as R. destruct (rpartition s) as [[n' s']|]; [|discriminate].
      destruct (proj1 (R n' s') eq_refl) as [-> D']. unfold bind.
      destruct (vparse s') as [v'|] eqn:P; [|discriminate]. intro E. injection E as -> ->.
      exists s', ext. rewrite app_str_assoc. repeat split; auto.
    - intros [s [ext [-> [D [D' P]]]]].
      assert (stem (n ++ "-" ++ s ++ "." ++ ext) = Some (n ++ String "-" s)%string) as ->.
      { apply stem_some. exists ext. rewrite app_str_assoc. split; [reflexivity|exact D']. }
      rewrite (proj2 (rpartition_some (n ++ String "-" s) n s) (conj eq_refl D)). simpl. rewrite P. reflexivity.
  Qed.

  Lemma names_fun : forall f n v n' v', names vparse f n v -> names vparse f n' v' -> n = n' /\ v = v'.
  Proof. intros f n v n' v' A B. apply names_iff in A. apply names_iff in B. rewrite A in B. injection B as -> ->. auto. Qed.

  Lemma of_version_iff : forall v fm n w, names vparse (fst fm) n w -> (of_version vparse v fm <-> v = w).
  Proof.
    intros v fm n w N. split.
    - intros [n' N']. destruct (names_fun _ _ _ _ _ N N') as [_ ->]. reflexivity.
    - intros ->. exists n. exact N.
  Qed.

  (** ** Versions *)
  Lemma vget_vset : forall v w e l, vget veqb v (vset veqb w e l) = if veqb v w then Some e else vget veqb v l.
  Proof.
    intros v w e. induction l as [|[x y] l IH]; simpl.
    - destruct (veqb v w); reflexivity.
    - destruct (veqb w x) eqn:Wx; simpl.
      + apply veqb_iff in Wx. subst x. destruct (veqb v w); reflexivity.
      + destruct (veqb v x) eqn:Vx; [|exact IH].
        destruct (veqb v w) eqn:Vw; [|reflexivity].
        apply veqb_iff in Vx. apply veqb_iff in Vw. subst.
        rewrite (proj2 (veqb_iff _ _) eq_refl) in Wx. discriminate Wx.
  Qed.

  Lemma entry_complete : forall f m, complete m <-> exists e, entry_of f m = Ok e.
  Proof.
    intros f m. unfold complete, entry_of. destruct (m_id m), (m_tags m); split; intros.
    - eexists. reflexivity.
    - split; discriminate.
    - destruct H as [_ H]. congruence.
    - destruct H as [e H]. discriminate.
    - destruct H as [H _]. congruence.
    - destruct H as [e H]. discriminate.
    - destruct H as [H _]. congruence.
    - destruct H as [e H]. discriminate.
  Qed.

  Notation ld := (load vparse veqb vltb).

  Definition started (q : standard (version := version)) : Prop := q_name q <> None /\ q_max q <> None.
  Definition fresh (q : standard (version := version)) : Prop := q_name q = None.

  Lemma started_std : forall fs n x vs, fresh (Std fs (Some n) (Some x) vs) \/ started (Std fs (Some n) (Some x) vs).
  Proof. intros. right. split; discriminate. Qed.

  Definition higher (x : option version) (v : version) : version :=
    match x with Some y => if vltb y v then v else y | None => v end.

  (** one step of the loop *)
  Lemma load_cons : forall f m r q q', (fresh q \/ started q) ->
    ld ((f, m) :: r) q = Ok q' <->
    exists n v e, names vparse f n v /\ entry_of f m = Ok e /\ (q_name q = None \/ q_name q = Some n) /\
      ld r (Std (q_fs q) (Some n) (Some (higher (if q_name q then q_max q else None) v))
                (vset veqb v e (q_versions q))) = Ok q'.
  Proof.
    intros f m r q q' FS. simpl. pose proof (names_iff f) as N.
    destruct (name_and_version vparse f) as [[n v]|x] eqn:NV; unfold bind at 1.
    2:{ split; [discriminate|]. intros [n [v [e [A _]]]]. discriminate (proj2 (N n v) A). }
    assert (names vparse f n v) as A by (apply N; reflexivity).
    destruct (q_name q) as [n'|] eqn:Q.
    - destruct FS as [Hf|[_ Hm]]; [unfold fresh in Hf; congruence|].
      destruct (q_max q) as [x|]; [|congruence].
      destruct (String.eqb_spec n n') as [->|D]; simpl.
      + split.
        * destruct (entry_of f m) as [e|] eqn:Ee; [|discriminate]. simpl. intro L. exists n', v, e.
          repeat split; auto. destruct (vltb x v); exact L.
        * intros [n2 [v2 [e [A2 [Ee [[X|X] L]]]]]]; [discriminate|]. rewrite Ee. simpl.
          destruct (names_fun _ _ _ _ _ A A2) as [<- <-]. destruct (vltb x v); exact L.
      + split; [discriminate|]. intros [n2 [v2 [e [A2 [_ [[X|X] _]]]]]]; [discriminate|].
        destruct (names_fun _ _ _ _ _ A A2) as [<- _]. congruence.
    - simpl. split.
      + destruct (entry_of f m) as [e|] eqn:Ee; [|discriminate]. simpl. intro L. exists n, v, e. repeat split; auto.
      + intros [n2 [v2 [e [A2 [Ee [_ L]]]]]]. rewrite Ee. simpl.
        destruct (names_fun _ _ _ _ _ A A2) as [<- <-]. exact L.
  Qed.

  Lemma load_ok : forall files q, (fresh q \/ started q) ->
    ((exists q', ld files q = Ok q') <->
     exists n, (q_name q = None \/ q_name q = Some n) /\
       forall f m, In (f, m) files -> (exists v, names vparse f n v) /\ complete m).
  Proof.
    induction files as [|[f m] r IH]; intros q FS.
    - split.
      + intros _. destruct (q_name q) as [n|]; [exists n|exists ""%string]; (split; [auto|intros f m []]).
      + intros _. exists q. reflexivity.
    - split.
      + intros [q' L]. apply (load_cons f m r q q' FS) in L. destruct L as [n [v [e [A [Ee [Q L]]]]]].
        edestruct IH as [I1 _]; [|destruct I1 as [n2 [Q2 I1]]; [exists q'; exact L|]].
        * right. split; discriminate.
        * simpl in Q2. destruct Q2 as [X|X]; [discriminate|]. injection X as <-.
          exists n. split; [exact Q|]. intros f' m' [E|I]; [|exact (I1 f' m' I)].
          injection E as <- <-. split; [exists v; exact A|apply (entry_complete f); exists e; exact Ee].
      + intros [n [Q A]]. destruct (A f m) as [[v Nv] Cm]; [left; reflexivity|].
        apply (entry_complete f) in Cm. destruct Cm as [e Ee].
        pose (q1 := Std (q_fs q) (Some n) (Some (higher (if q_name q then q_max q else None) v)) (vset veqb v e (q_versions q))).
        assert (started q1) as S1 by (split; discriminate).
        destruct (proj2 (IH q1 (or_intror S1))) as [q' L].
        * exists n. split; [right; reflexivity|]. intros f' m' I. apply A. right. exact I.
        * exists q'. apply (load_cons f m r q q' FS). exists n, v, e. auto.
  Qed.

  Lemma load_keeps : forall files q q', (fresh q \/ started q) -> ld files q = Ok q' ->
    q_fs q' = q_fs q /\ (files = [] -> q' = q) /\
    (forall n, q_name q = Some n -> q_name q' = Some n) /\
    (forall f m n v, In (f, m) files -> names vparse f n v -> q_name q' = Some n).
  Proof.
    induction files as [|[f m] r IH]; intros q q' FS L.
    - simpl in L. injection L as <-. repeat split; auto. intros f m n v [].
    - apply (load_cons f m r q q' FS) in L. destruct L as [n [v [e [A [Ee [Q L]]]]]].
      destruct (IH _ _ (started_std _ _ _ _) L) as [I1 [_ [I2 I3]]]. simpl in *.
      split; [exact I1|]. split; [discriminate|]. split.
      + intros n' Q'. destruct Q as [Q|Q]; rewrite Q in Q'; [discriminate|]. injection Q' as <-. apply I2. reflexivity.
      + intros f' m' n' v' [E|I] N'; [|exact (I3 f' m' n' v' I N')]. injection E as <- <-.
        destruct (names_fun _ _ _ _ _ A N') as [<- _]. apply I2. reflexivity.
  Qed.

  (** the entries: the last file of a version counts *)
  Lemma load_versions : forall files q q' v, (fresh q \/ started q) -> ld files q = Ok q' ->
    (forall e, vget veqb v (q_versions q') = Some e <->
       (exists fm, last_of vparse v files fm /\ entry_of (fst fm) (snd fm) = Ok e) \/
       (Forall (fun fm => ~ of_version vparse v fm) files /\ vget veqb v (q_versions q) = Some e)).
  Proof.
    induction files as [|[f m] r IH]; intros q q' v FS L e.
    - simpl in L. injection L as <-. split.
      + intro G. right. split; [constructor|exact G].
      + intros [[fm [[l [r [E _]]] _]]|[_ G]]; [destruct l; discriminate E|exact G].
    - apply (load_cons f m r q q' FS) in L. destruct L as [n [w [e0 [A [Ee [Q L]]]]]].
      rewrite (IH _ _ v (started_std _ _ _ _) L e). simpl. rewrite vget_vset.
      pose proof (of_version_iff v (f, m) n w A) as OV. split.
      + intros [[fm [[l [r' [-> [O F]]]] E]]|[F G]].
        * left. exists fm. split; [|exact E]. exists ((f, m) :: l), r'. auto.
        * destruct (veqb v w) eqn:V.
          -- injection G as ->. apply veqb_iff in V. left. exists (f, m). split; [|exact Ee].
             exists [], r. split; [reflexivity|]. split; [apply OV; exact V|exact F].
          -- right. split; [|exact G]. constructor; [|exact F]. intro O. apply OV in O.
             apply veqb_iff in O. congruence.
      + intros [[fm [[l [r' [E [O F]]]] Ef]]|[F G]].
        * destruct l as [|x l].
          -- injection E as <- <-. right. split; [exact F|]. apply OV in O. rewrite (proj2 (veqb_iff v w) O).
             simpl in Ef. congruence.
          -- injection E as <- ->. left. exists fm. split; [|exact Ef]. exists l, r'. auto.
        * inversion F as [|? ? NO F']; subst. right. split; [exact F'|].
          destruct (veqb v w) eqn:V; [|exact G]. exfalso. apply NO. apply OV. apply veqb_iff. exact V.
  Qed.

  (** ** The highest version *)
  Hypothesis irrefl : forall a, vltb a a = false.
  Hypothesis asym : forall a b, vltb a b = true -> vltb b a = false.
  Hypothesis neg_trans : forall a b c, vltb a b = false -> vltb b c = false -> vltb a c = false.

  Lemma load_max : forall files q q', (fresh q \/ started q) -> ld files q = Ok q' ->
    (forall x, q_name q <> None -> q_max q = Some x -> exists y, q_max q' = Some y /\ vltb y x = false) /\
    (forall f m n v, In (f, m) files -> names vparse f n v -> exists y, q_max q' = Some y /\ vltb y v = false) /\
    (forall y, q_max q' = Some y -> q_max q = Some y \/ exists f m n, In (f, m) files /\ names vparse f n y).
  Proof.
    induction files as [|[f m] r IH]; intros q q' FS L.
    - simpl in L. injection L as <-. split; [intros x _ Hx; exists x; auto|]. split; [intros f m n v []|auto].
    - apply (load_cons f m r q q' FS) in L. destruct L as [n [w [e0 [A [Ee [Q L]]]]]].
      destruct (IH _ _ (started_std _ _ _ _) L) as [I1 [I2 I3]]. simpl in *.
      set (o := if q_name q then q_max q else None) in *.
      destruct (I1 (higher o w) ltac:(discriminate) eq_refl) as [y [Ey Ly]].
      assert (vltb y w = false) as Lw.
      { apply (neg_trans y (higher o w) w); [exact Ly|]. unfold higher. destruct o as [x|]; [|apply irrefl].
        destruct (vltb x w) eqn:X; [apply irrefl|exact X]. }
      split; [|split].
      + intros x Nn Hx. exists y. split; [exact Ey|]. apply (neg_trans y (higher o w) x); [exact Ly|].
        subst o. destruct (q_name q); [|congruence]. rewrite Hx. unfold higher.
        destruct (vltb x w) eqn:X; [apply asym; exact X|apply irrefl].
      + intros f' m' n' v [E|I] N'; [|exact (I2 f' m' n' v I N')]. injection E as <- <-.
        destruct (names_fun _ _ _ _ _ A N') as [_ <-]. exists y. auto.
      + intros z Hz. destruct (I3 z Hz) as [E|[f' [m' [n' [I N']]]]].
        * injection E as E. unfold higher in E. subst o. destruct (q_name q).
          -- destruct (q_max q) as [x|].
             ++ destruct (vltb x w); subst z; [right; exists f, m, n; auto|auto].
             ++ subst z. right. exists f, m, n. auto.
          -- subst z. right. exists f, m, n. auto.
        * right. exists f', m', n'. auto.
  Qed.
End Std.

(** ** Mappings *)
Lemma dget_dset : forall (A : Type) k k' (x : A) d, dget k (dset k' x d) = if String.eqb k k' then Some x else dget k d.
Proof.
  intros A k k' x. induction d as [|[c y] d IH]; simpl.
  - reflexivity.
  - destruct (String.eqb_spec k' c) as [->|N]; simpl.
    + destruct (String.eqb k c); reflexivity.
    + rewrite IH. destruct (String.eqb_spec k c) as [->|]; [|reflexivity].
      destruct (String.eqb_spec c k') as [->|]; [congruence|reflexivity].
Qed.

Definition collect (tags : list (string * string)) (d : dict string) : dict string :=
  fold_left (fun d t => dset (fst t) (snd t ++ ".yaml")%string d) tags d.

Lemma collect_get : forall tags d uri f, dget uri (collect tags d) = Some f <->
  (exists x, last_pair uri tags x /\ f = (x ++ ".yaml")%string) \/
  (~ In uri (map fst tags) /\ dget uri d = Some f).
Proof.
  unfold collect, last_pair. induction tags as [|[u x] tags IH]; intros d uri f; simpl.
  - split; [auto|]. intros [[x [[a [b [E _]]] _]]|[_ G]]; [destruct a; discriminate E|exact G].
  - rewrite IH. rewrite dget_dset. split.
    + intros [[y [[a [b [-> M]]] ->]]|[N G]].
      * left. exists y. split; [|reflexivity]. exists ((u, x) :: a), b. auto.
      * destruct (String.eqb_spec uri u) as [->|Nu].
        -- injection G as <-. left. exists x. split; [|reflexivity]. exists [], tags. auto.
        -- right. split; [|exact G]. intros [E|I]; [congruence|exact (N I)].
    + intros [[y [[a [b [E M]]] ->]]|[N G]].
      * destruct a as [|p a].
        -- injection E as -> -> ->. right. split; [exact M|]. rewrite String.eqb_refl. reflexivity.
        -- injection E as <- ->. left. exists y. split; [|reflexivity]. exists a, b. auto.
      * right. split; [tauto|]. destruct (String.eqb_spec uri u) as [->|]; [|exact G]. exfalso. apply N. left. reflexivity.
Qed.

Lemma collect_nodup : forall tags d, NoDup (map fst d) -> NoDup (map fst (collect tags d)).
Proof.
  assert (forall k x (d : dict string), NoDup (map fst d) -> NoDup (map fst (dset k x d))) as S.
  { intros k x. induction d as [|[c y] d IH]; simpl; intro N; [constructor; [intros []|constructor]|].
    inversion N as [|? ? N1 N2]; subst. destruct (String.eqb_spec k c) as [->|D]; simpl; [constructor; assumption|].
    constructor; [|apply IH; exact N2]. intro I. apply N1. clear - I D.
    induction d as [|[c' y'] d IH]; simpl in *.
    - destruct I as [E|[]]. congruence.
    - destruct (String.eqb k c'); simpl in *; [exact I|]. destruct I as [E|I]; auto. }
  unfold collect. induction tags as [|t tags IH]; intros d N; simpl; [exact N|]. apply IH. apply S. exact N.
Qed.

Lemma map_content_ok : forall read files, NoDup (map fst files) ->
  match map_content read files with
  | Ok l => map fst l = map fst files /\
      forall uri t, dget uri l = Some t <-> exists f, dget uri files = Some f /\ read f = Some t
  | Err e => e = FileNotFoundError /\ exists uri f, In (uri, f) files /\ read f = None
  end.
Proof.
  intro read. induction files as [|[u f] files IH]; intro N; simpl.
  - split; [reflexivity|]. intros uri t. split; [discriminate|]. intros [f [E _]]. discriminate.
  - inversion N as [|? ? N1 N2]; subst. specialize (IH N2). destruct (read f) as [t|] eqn:Rf.
    + destruct (map_content read files) as [l|e]; simpl.
      * destruct IH as [M G]. split; [rewrite M; reflexivity|]. intros uri t'.
        destruct (String.eqb uri u); [|apply G]. split.
        -- intro E. injection E as <-. exists f. auto.
        -- intros [f' [E R']]. injection E as <-. congruence.
      * destruct IH as [-> [uri [f' [I R']]]]. split; [reflexivity|]. exists uri, f'. auto.
    + split; [reflexivity|]. exists u, f. auto.
Qed.

(** ** Created standards *)
Section Made.
  Context {version : Type} (vparse : string -> res version)
          (veqb : version -> version -> bool) (vltb : version -> version -> bool).
  Hypothesis veqb_iff : forall a b, veqb a b = true <-> a = b.

  Lemma fresh_std : forall fs, fresh (version := version) (Std fs None None []) \/ started (version := version) (Std fs None None []).
  Proof. intro. left. reflexivity. Qed.

  Lemma of_version_dec : forall v fm, of_version vparse v fm \/ ~ of_version vparse v fm.
  Proof.
    intros v [f m]. pose proof (names_iff vparse f) as N. unfold of_version. simpl.
    destruct (name_and_version vparse f) as [[n w]|e].
    - assert (names vparse f n w) as A by (apply N; reflexivity).
      pose proof (of_version_iff vparse v (f, m) n w A) as O. unfold of_version in O. simpl in O.
      destruct (veqb v w) eqn:V.
      + left. apply O. apply veqb_iff. exact V.
      + right. intro X. apply O in X. apply veqb_iff in X. congruence.
    - right. intros [n X]. discriminate (proj2 (N n v) X).
  Qed.

  Lemma some_or_none : forall v l,
    (exists y, In y l /\ of_version vparse v y) \/ Forall (fun y => ~ of_version vparse v y) l.
  Proof.
    intro v. induction l as [|y l IH]; [right; constructor|]. destruct (of_version_dec v y) as [O|N].
    - left. exists y. split; [left; reflexivity|exact O].
    - destruct IH as [[z [Iz Oz]]|F]; [left; exists z; split; [right; exact Iz|exact Oz]|right; constructor; assumption].
  Qed.

  Lemma last_exists : forall v l, (exists y, In y l /\ of_version vparse v y) -> exists fm, last_of vparse v l fm.
  Proof.
    intro v. induction l as [|z l IH]; intros [y [I O]]; [destruct I|].
    destruct (some_or_none v l) as [S|F].
    - destruct (IH S) as [fm [l1 [r1 [-> R]]]]. exists fm, (z :: l1), r1. auto.
    - destruct I as [->|I]; [exists y, [], l; auto|]. exfalso. rewrite Forall_forall in F. exact (F y I O).
  Qed.

  Lemma last_fun : forall v l a b, last_of vparse v l a -> last_of vparse v l b -> a = b.
  Proof.
    intros v l a b [l1 [r1 [E1 [O1 F1]]]] [l2 [r2 [E2 [O2 F2]]]]. subst l. revert l2 E2.
    induction l1 as [|x l1 IH]; intros l2 E2; destruct l2 as [|y l2]; simpl in E2; injection E2 as E E'.
    - exact E.
    - subst. apply Forall_app in F1. destruct F1 as [_ F1]. inversion F1. contradiction.
    - subst. apply Forall_app in F2. destruct F2 as [_ F2]. inversion F2. contradiction.
    - apply (IH l2). exact E'.
  Qed.

  Lemma read_listed : forall fs f m, NoDup (map fst (fs_manifests fs)) -> In (f, m) (fs_manifests fs) ->
    read_manifest fs f = Some (m_text m).
  Proof.
    intros fs f m ND I. unfold read_manifest. induction (fs_manifests fs) as [|[g x] l IH]; [destruct I|].
    simpl in *. inversion ND as [|? ? N1 N2]; subst. destruct I as [E|I].
    - injection E as -> ->. rewrite String.eqb_refl. reflexivity.
    - destruct (String.eqb_spec f g) as [->|]; [|apply IH; assumption].
      exfalso. apply N1. apply in_map_iff. exists (g, m). auto.
  Qed.

  Definition produced (fs : filesystem) (f : string) (m : manifest) (i : string) (tags : list (string * string))
    : res (dict string * dict string) :=
    bind (map_content (read_schema fs) (collect tags [])) (fun s => Ok ([(i, m_text m)], s)).

  (** the mappings of a version in terms of its last manifest *)
  Lemma mappings_eq : forall fs q v, make vparse veqb vltb fs = Ok q -> NoDup (map fst (fs_manifests fs)) ->
    (Forall (fun fm => ~ of_version vparse v fm) (fs_manifests fs) -> get_mappings vparse veqb q (RVer v) = Err KeyError) /\
    (forall f m, last_of vparse v (fs_manifests fs) (f, m) -> exists i tags, m_id m = Some i /\ m_tags m = Some tags /\
       get_mappings vparse veqb q (RVer v) = produced fs f m i tags).
  Proof.
    intros fs q v M ND.
    pose proof (load_versions vparse veqb vltb veqb_iff _ _ _ v (fresh_std fs) M) as LV.
    destruct (load_keeps vparse veqb vltb _ _ _ (fresh_std fs) M) as [Kf _]. simpl in Kf. split.
    - intro F. unfold get_mappings. simpl. destruct (vget veqb v (q_versions q)) as [e|]; [|reflexivity].
      destruct (proj1 (LV e) eq_refl) as [[fm [[l [r [E [O _]]]] _]]|[_ X]]; [|discriminate X].
      exfalso. rewrite E in F. apply Forall_app in F. destruct F as [_ F]. inversion F. contradiction.
    - intros f m LO.
      assert (In (f, m) (fs_manifests fs)) as I by (destruct LO as [l [r [-> _]]]; apply in_app_iff; right; left; reflexivity).
      destruct (proj1 (load_ok vparse veqb vltb _ _ (fresh_std fs)) (ex_intro _ q M)) as [n [_ A]].
      destruct (A f m I) as [_ C]. apply (entry_complete f) in C. destruct C as [e Ee].
      pose proof (proj2 (LV e) (or_introl (ex_intro _ (f, m) (conj LO Ee)))) as V.
      unfold entry_of in Ee. destruct (m_id m) as [i|]; [|discriminate]. destruct (m_tags m) as [tags|]; [|discriminate].
      injection Ee as <-. exists i, tags. split; [reflexivity|]. split; [reflexivity|].
      unfold get_mappings, produced. simpl. rewrite V. simpl. rewrite Kf, (read_listed fs f m ND I). reflexivity.
  Qed.

  Lemma produced_err : forall fs f m i tags e, produced fs f m i tags = Err e -> e = FileNotFoundError.
  Proof.
    intros fs f m i tags e. unfold produced.
    pose proof (map_content_ok (read_schema fs) (collect tags []) (collect_nodup tags [] (NoDup_nil _))) as MC.
    destruct (map_content (read_schema fs) (collect tags [])); [discriminate|]. simpl. intro E. injection E as <-. apply MC.
  Qed.

  Lemma produced_ok : forall fs f m i tags ms ss, produced fs f m i tags = Ok (ms, ss) ->
    ms = [(i, m_text m)] /\ forall uri t, dget uri ss = Some t <->
        exists x, last_pair uri tags x /\ dget (x ++ ".yaml") (fs_schemas fs) = Some t.
  Proof.
    intros fs f m i tags ms ss. unfold produced.
    pose proof (map_content_ok (read_schema fs) (collect tags []) (collect_nodup tags [] (NoDup_nil _))) as MC.
    destruct (map_content (read_schema fs) (collect tags [])) as [l|]; [|discriminate]. intro G. injection G as <- <-.
    split; [reflexivity|]. intros uri t. rewrite (proj2 MC uri t). unfold read_schema. split.
    - intros [g [Eg Rg]]. apply collect_get in Eg. destruct Eg as [[x [Lx ->]]|[_ X]]; [|discriminate X]. exists x. auto.
    - intros [x [Lx Rx]]. exists (x ++ ".yaml")%string. split; [|exact Rx]. apply collect_get. left. exists x. auto.
  Qed.

  Lemma dget_some_in : forall (d : dict string) k, In k (map fst d) -> exists x, dget k d = Some x.
  Proof.
    induction d as [|[u g] l IH]; intros k I; [destruct I|]. simpl in *.
    destruct (String.eqb_spec k u) as [->|N]; [eauto|]. apply IH. destruct I as [E|I]; [congruence|exact I].
  Qed.
  Lemma dget_in_fst : forall (d : dict string) k x, dget k d = Some x -> In k (map fst d).
  Proof.
    induction d as [|[u g] d IH]; intros k x G; [discriminate|]. simpl in *.
    destruct (String.eqb_spec k u) as [->|]; [left; reflexivity|right; exact (IH k x G)].
  Qed.
  Lemma dget_nodup : forall (d : dict string) k x, NoDup (map fst d) -> In (k, x) d -> dget k d = Some x.
  Proof.
    induction d as [|[u g] d IH]; intros k x N I; [destruct I|]. simpl in *. inversion N as [|? ? N1 N2]; subst.
    destruct I as [E|I]; [injection E as -> ->; rewrite String.eqb_refl; reflexivity|].
    destruct (String.eqb_spec k u) as [->|]; [|apply IH; assumption].
    exfalso. apply N1. apply in_map_iff. exists (u, x). auto.
  Qed.

  Lemma produced_iff : forall fs f m i tags, (exists r, produced fs f m i tags = Ok r) <->
    forall uri x, last_pair uri tags x -> dget (x ++ ".yaml") (fs_schemas fs) <> None.
  Proof.
    intros fs f m i tags. unfold produced. pose proof (collect_nodup tags [] (NoDup_nil _)) as N.
    pose proof (map_content_ok (read_schema fs) (collect tags []) N) as MC.
    destruct (map_content (read_schema fs) (collect tags [])) as [l|e]; simpl.
    - split; [|eauto]. intros _ uri x Lx Nx.
      assert (dget uri (collect tags []) = Some (x ++ ".yaml")%string) as Eg by (apply collect_get; left; exists x; auto).
      destruct (dget_some_in l uri) as [t Et]; [rewrite (proj1 MC); exact (dget_in_fst _ _ _ Eg)|].
      apply (proj2 MC uri t) in Et. destruct Et as [g [Eg' Rg]]. rewrite Eg in Eg'. injection Eg' as <-.
      unfold read_schema in Rg. congruence.
    - split; [intros [r X]; discriminate X|]. intro A. exfalso. destruct MC as [_ [uri [g [I Rg]]]].
      pose proof (dget_nodup _ _ _ N I) as Eg. apply collect_get in Eg.
      destruct Eg as [[x [Lx ->]]|[_ X]]; [|discriminate X]. exact (A uri x Lx Rg).
  Qed.
End Made.

Section Order.
  Context {version : Type} (vparse : string -> res version)
          (veqb : version -> version -> bool) (vltb : version -> version -> bool).
  Hypothesis irrefl : forall a, vltb a a = false.
  Hypothesis asym : forall a b, vltb a b = true -> vltb b a = false.
  Hypothesis neg_trans : forall a b c, vltb a b = false -> vltb b c = false -> vltb a c = false.
  Hypothesis connected : forall a b, vltb a b = false -> vltb b a = false -> a = b.

  Lemma max_in : forall fs q v, make vparse veqb vltb fs = Ok q -> q_max q = Some v ->
    exists f m n, In (f, m) (fs_manifests fs) /\ names vparse f n v.
  Proof.
    intros fs q v M Ev.
    destruct (load_max vparse veqb vltb irrefl asym neg_trans _ _ _ (fresh_std fs) M) as [_ [_ B]].
    destruct (B v Ev) as [X|X]; [discriminate X|exact X].
  Qed.
  Lemma max_ge : forall fs q f m n v, make vparse veqb vltb fs = Ok q -> In (f, m) (fs_manifests fs) -> names vparse f n v ->
    exists y, q_max q = Some y /\ vltb y v = false.
  Proof.
    intros fs q f m n v M.
    destruct (load_max vparse veqb vltb irrefl asym neg_trans _ _ _ (fresh_std fs) M) as [_ [A _]]. apply A.
  Qed.

  Lemma max_same : forall fs fs' q q', (forall x, In x (fs_manifests fs') <-> In x (fs_manifests fs)) ->
    make vparse veqb vltb fs = Ok q -> make vparse veqb vltb fs' = Ok q' -> q_max q' = q_max q.
  Proof.
    intros fs fs' q q' IP M M'.
    destruct (q_max q) as [v|] eqn:Ev.
    - destruct (max_in fs q v M Ev) as [f [m [n [I N]]]].
      destruct (max_ge fs' q' f m n v M' (proj2 (IP _) I) N) as [y [Ey Ly]].
      destruct (max_in fs' q' y M' Ey) as [f' [m' [n' [I' N']]]].
      destruct (max_ge fs q f' m' n' y M (proj1 (IP _) I') N') as [z [Ez Lz]].
      rewrite Ev in Ez. injection Ez as <-. rewrite Ey. f_equal. apply connected; assumption.
    - destruct (q_max q') as [v|] eqn:Ev'; [|reflexivity].
      destruct (max_in fs' q' v M' Ev') as [f [m [n [I N]]]].
      destruct (max_ge fs q f m n v M (proj1 (IP _) I) N) as [y [Ey _]]. congruence.
  Qed.
End Order.

(** ** The registry *)
Section Registry.
  Context {version : Type} (vparse : string -> res version) (veqb : version -> version -> bool).

  Lemma name_eqb_iff : forall a b, name_eqb a b = true <-> a = b.
  Proof.
    intros [x|] [y|]; simpl; try (split; [discriminate|intro E; discriminate E]); try tauto.
    rewrite String.eqb_eq. split; congruence.
  Qed.
  Lemma sget_sset : forall n (q : @standard version) l m,
    (m = n -> sget m (sset n q l) = Some q) /\ (m <> n -> sget m (sset n q l) = sget m l).
  Proof.
    intros n q l m. pose proof (name_eqb_iff m n) as MN. induction l as [|[o p] l IH]; simpl.
    - destruct (name_eqb m n); split; intro E; try reflexivity; [exfalso; apply E; apply MN; reflexivity|].
      discriminate (proj2 MN E).
    - pose proof (name_eqb_iff n o) as NO. pose proof (name_eqb_iff m o) as MO. destruct (name_eqb n o); simpl.
      + assert (n = o) as <- by (apply NO; reflexivity). destruct (name_eqb m n); split; intro E; try reflexivity.
        * exfalso. apply E, MN. reflexivity.
        * discriminate (proj2 MN E).
      + destruct (name_eqb m o).
        * assert (m = o) as -> by (apply MO; reflexivity). split; [|reflexivity].
          intros ->. discriminate (proj2 NO eq_refl).
        * exact IH.
  Qed.

  Lemma register_app : forall l r (k : @config version),
    register k (map Some l ++ r) = register (fold_left add_standard l k) r.
  Proof. induction l as [|q l IH]; intros r k; [reflexivity|]. simpl. apply IH. Qed.

  Lemma installed_flat : forall eps (k : @config version),
    load_installed k eps = register k (flat_map (fun x => match x with LList l => l | LOne q => [q] end) eps).
  Proof.
    induction eps as [|x eps IH]; intro k; [reflexivity|]. simpl.
    set (l := match x with LList l => l | LOne q => [q] end). clearbody l. revert k.
    induction l as [|[q|] l IHl]; intro k; [apply IH|apply IHl|reflexivity].
  Qed.

  Lemma added_fold : forall l (k : @config version), k_added (fold_left add_standard l k) = k_added k.
  Proof. induction l as [|q l IH]; intro k; [reflexivity|]. simpl. rewrite IH. reflexivity. Qed.

  Lemma sget_fold : forall l (k : @config version) n, (forall q, In q l -> q_name q <> n) ->
    sget n (k_standards (fold_left add_standard l k)) = sget n (k_standards k).
  Proof.
    induction l as [|q l IH]; intros k n A; [reflexivity|]. simpl. rewrite IH by (intros p I; apply A; right; exact I).
    simpl. apply sget_sset. intro E. apply (A q (or_introl eq_refl)). auto.
  Qed.
End Registry.
