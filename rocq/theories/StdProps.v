(** C95: the content of a quality standard. C96: registering and enabling standards. *)
From Coq Require Import List String Ascii Bool Arith Permutation Lia.
From Verif Require Import Base TagModel TagFacts StdModel StdSpec StdFacts.
Import ListNotations.
Open Scope string_scope.
Open Scope list_scope.

Section C95.
  Context {version : Type} (vparse : string -> res version)
          (veqb : version -> version -> bool) (vltb : version -> version -> bool).
  Hypothesis veqb_iff : forall a b, veqb a b = true <-> a = b.
  Hypothesis irrefl : forall a, vltb a a = false.
  Hypothesis asym : forall a b, vltb a b = true -> vltb b a = false.
  Hypothesis neg_trans : forall a b c, vltb a b = false -> vltb b c = false -> vltb a c = false.
  Hypothesis connected : forall a b, vltb a b = false -> vltb b a = false -> a = b.

  Notation make := (make vparse veqb vltb).
  Notation get_mappings := (get_mappings vparse veqb).

  (** A standard is created iff all manifest files are versions of one standard and
      have their entries; its name is that standard. *)
  Theorem c95_made : forall fs,
    ((exists q, make fs = Ok q) <->
     exists n, forall f m, In (f, m) (fs_manifests fs) -> (exists v, names vparse f n v) /\ complete m) /\
    (forall q, make fs = Ok q ->
       (fs_manifests fs = [] /\ q_name q = None) \/
       exists n, fs_manifests fs <> [] /\ q_name q = Some n /\
         forall f m, In (f, m) (fs_manifests fs) -> exists v, names vparse f n v).
  Proof.
    intro fs. split.
    - unfold StdModel.make. rewrite (load_ok vparse veqb vltb (fs_manifests fs) (Std fs None None []) (fresh_std fs)). simpl.
      split; [intros [n [_ A]]; exists n; exact A|intros [n A]; exists n; auto].
    - intros q M. unfold StdModel.make in M. destruct (fs_manifests fs) as [|[f m] r].
      + left. split; [reflexivity|]. injection M as <-. reflexivity.
      + right. destruct (proj1 (load_ok vparse veqb vltb _ _ (fresh_std fs)) (ex_intro _ q M)) as [n [_ A]].
        exists n. split; [discriminate|]. split; [|intros f' m' I; apply (A f' m' I)].
        destruct (A f m (or_introl eq_refl)) as [[v Nv] _].
        destruct (load_keeps vparse veqb vltb _ _ _ (fresh_std fs) M) as [_ [_ [_ K]]].
        apply (K f m n v); [left; reflexivity|exact Nv].
  Qed.

  (** A first manifest whose name is not of this form, or whose entries are missing, is
      reported as such. *)
  Theorem c95_errors : forall f m r schemas,
    (without "." f -> make (FS ((f, m) :: r) schemas) = Err ValueError) /\
    (forall b ext, f = (b ++ "." ++ ext)%string -> without "." ext -> without "-" b ->
       make (FS ((f, m) :: r) schemas) = Err ValueError) /\
    (forall n s ext e, f = (n ++ "-" ++ s ++ "." ++ ext)%string -> without "." ext -> without "-" s -> vparse s = Err e ->
       make (FS ((f, m) :: r) schemas) = Err e) /\
    (forall n v, names vparse f n v -> ~ complete m -> make (FS ((f, m) :: r) schemas) = Err KeyError) /\
    (forall n v g m' r' n' v', names vparse f n v -> complete m -> r = (g, m') :: r' -> names vparse g n' v' -> n' <> n ->
       make (FS ((f, m) :: r) schemas) = Err ValueError).
  Proof.
    intros f m r schemas. unfold StdModel.make. simpl. split; [|split; [|split; [|split]]].
    - intro W. unfold name_and_version. rewrite (proj2 (stem_none f) W). reflexivity.
    - intros b ext E W D. unfold name_and_version. rewrite (proj2 (stem_some f b) (ex_intro _ ext (conj E W))).
      destruct (rpartition b) as [[x y]|] eqn:P; [|reflexivity]. apply rpartition_some in P. destruct P as [-> _].
      exfalso. apply D. clear. induction x as [|c x IH]; [left; reflexivity|right; exact IH].
    - intros n s ext e E W D P. unfold name_and_version.
      assert (stem f = Some (n ++ String "-" s)%string) as ->.
      { apply stem_some. exists ext. rewrite E, app_str_assoc. split; [reflexivity|exact W]. }
      rewrite (proj2 (rpartition_some (n ++ String "-" s) n s) (conj eq_refl D)). simpl. rewrite P. reflexivity.
    - intros n v N C. apply names_iff in N. rewrite N. simpl. unfold entry_of, complete in *.
      destruct (m_id m), (m_tags m); try reflexivity. exfalso. apply C. split; discriminate.
    - intros n v g m' r' n' v' N C -> N' D. apply names_iff in N. apply names_iff in N'. rewrite N. simpl.
      apply (entry_complete f) in C. destruct C as [e ->]. simpl. rewrite N'. simpl.
      destruct (String.eqb_spec n' n) as [->|]; [congruence|reflexivity].
  Qed.

  (** The mappings of a version are those of its manifest (the last one listed): the
      id with the text of the file, and each uri with the text of its schema file. *)
  Theorem c95_mappings : forall fs q v ms ss,
    make fs = Ok q -> NoDup (map fst (fs_manifests fs)) ->
    get_mappings q (RVer v) = Ok (ms, ss) ->
    exists f m i tags, last_of vparse v (fs_manifests fs) (f, m) /\
      m_id m = Some i /\ m_tags m = Some tags /\ ms = [(i, m_text m)] /\
      forall uri t, dget uri ss = Some t <->
        exists x, last_pair uri tags x /\ dget (x ++ ".yaml") (fs_schemas fs) = Some t.
  Proof.
    intros fs q v ms ss M ND G. destruct (mappings_eq vparse veqb vltb veqb_iff fs q v M ND) as [A B].
    destruct (some_or_none vparse veqb veqb_iff v (fs_manifests fs)) as [S|F]; [|rewrite (A F) in G; discriminate].
    destruct (last_exists vparse veqb veqb_iff v _ S) as [[f m] LO].
    destruct (B f m LO) as [i [tags [Hi [Ht E]]]]. rewrite E in G.
    exists f, m, i, tags. split; [exact LO|]. split; [exact Hi|]. split; [exact Ht|]. exact (produced_ok _ _ _ _ _ _ _ G).
  Qed.

  (** A version without manifest is a [KeyError]; otherwise the call succeeds iff all
      schema files of the last manifest of the version exist. *)
  Theorem c95_available : forall fs q v,
    make fs = Ok q -> NoDup (map fst (fs_manifests fs)) ->
    (get_mappings q (RVer v) = Err KeyError <-> Forall (fun fm => ~ of_version vparse v fm) (fs_manifests fs)) /\
    (forall f m tags, last_of vparse v (fs_manifests fs) (f, m) -> m_tags m = Some tags ->
       ((exists r, get_mappings q (RVer v) = Ok r) <->
        forall uri x, last_pair uri tags x -> dget (x ++ ".yaml") (fs_schemas fs) <> None)).
  Proof.
    intros fs q v M ND. destruct (mappings_eq vparse veqb vltb veqb_iff fs q v M ND) as [A B]. split; [split; [|exact A]|].
    - intro G. destruct (some_or_none vparse veqb veqb_iff v (fs_manifests fs)) as [S|F]; [|exact F].
      destruct (last_exists vparse veqb veqb_iff v _ S) as [[f m] LO].
      destruct (B f m LO) as [i [tags [_ [_ E]]]]. rewrite E in G. discriminate (produced_err _ _ _ _ _ _ G).
    - intros f m tags LO T. destruct (B f m LO) as [i [tags' [_ [T' ->]]]]. rewrite T in T'. injection T' as <-.
      apply produced_iff.
  Qed.

  (** Without a version the highest one is used; a version can be given as string. *)
  Theorem c95_latest : forall fs q,
    make fs = Ok q -> fs_manifests fs <> [] ->
    exists v, get_mappings q RNone = get_mappings q (RVer v) /\
      (exists fm, In fm (fs_manifests fs) /\ of_version vparse v fm) /\
      (forall fm w, In fm (fs_manifests fs) -> of_version vparse w fm -> vltb v w = false) /\
      forall s, vparse s = Ok v -> get_mappings q (RStr s) = get_mappings q RNone.
  Proof.
    intros fs q M N.
    destruct (load_max vparse veqb vltb irrefl asym neg_trans _ _ _ (fresh_std fs) M) as [_ [A B]].
    destruct (proj1 (load_ok vparse veqb vltb _ _ (fresh_std fs)) (ex_intro _ q M)) as [n [_ C]].
    destruct (fs_manifests fs) as [|[f m] r]; [congruence|].
    destruct (C f m (or_introl eq_refl)) as [[v0 Nv] _].
    destruct (A f m n v0 (or_introl eq_refl) Nv) as [v [Ev _]]. exists v.
    unfold StdModel.get_mappings. rewrite Ev. split; [reflexivity|]. split; [|split].
    - destruct (B v Ev) as [X|[f' [m' [n' [I N']]]]]; [discriminate|]. exists (f', m'). split; [exact I|exists n'; exact N'].
    - intros [f' m'] w I [n' N']. destruct (A f' m' n' w I N') as [y [Ey Ly]]. rewrite Ev in Ey. injection Ey as <-. exact Ly.
    - intros s P. rewrite P. reflexivity.
  Qed.

  (** The order in which the directory lists the manifests does not matter if there is
      one manifest for each version. *)
  Theorem c95_order : forall fs fs' q,
    Permutation (fs_manifests fs) (fs_manifests fs') -> fs_schemas fs' = fs_schemas fs ->
    NoDup (map fst (fs_manifests fs)) ->
    (forall a b v, In a (fs_manifests fs) -> In b (fs_manifests fs) -> of_version vparse v a -> of_version vparse v b -> a = b) ->
    make fs = Ok q ->
    exists q', make fs' = Ok q' /\ q_name q' = q_name q /\ forall r, get_mappings q' r = get_mappings q r.
  Proof.
    intros fs fs' q P S ND U M.
    assert (forall x, In x (fs_manifests fs') <-> In x (fs_manifests fs)) as InP.
    { intro x. split; apply Permutation_in; [apply Permutation_sym|]; exact P. }
    destruct (proj2 (proj1 (c95_made fs'))) as [q' M'].
    { destruct (proj1 (proj1 (c95_made fs)) (ex_intro _ q M)) as [n A]. exists n. intros f m I. apply A. apply InP. exact I. }
    assert (NoDup (map fst (fs_manifests fs'))) as ND' by (apply (Permutation_NoDup (Permutation_map fst P) ND)).
    assert (forall v, get_mappings q' (RVer v) = get_mappings q (RVer v)) as Same.
    { intro v. destruct (mappings_eq vparse veqb vltb veqb_iff fs q v M ND) as [A B].
      destruct (mappings_eq vparse veqb vltb veqb_iff fs' q' v M' ND') as [A' B'].
      destruct (some_or_none vparse veqb veqb_iff v (fs_manifests fs)) as [[x Sx]|F].
      - destruct (last_exists vparse veqb veqb_iff v (fs_manifests fs) (ex_intro _ x Sx)) as [[f m] LO].
        assert (exists y, In y (fs_manifests fs') /\ of_version vparse v y) as Sy by (exists x; rewrite InP; exact Sx).
        destruct (last_exists vparse veqb veqb_iff v _ Sy) as [[f' m'] LO'].
        assert ((f', m') = (f, m)) as E.
        { destruct LO as [l [r [E [O _]]]]. destruct LO' as [l' [r' [E' [O' _]]]]. apply (U _ _ v); auto.
          - apply InP. rewrite E'. apply in_app_iff. right. left. reflexivity.
          - rewrite E. apply in_app_iff. right. left. reflexivity. }
        injection E as -> ->. destruct (B f m LO) as [i [tags [Hi [Ht ->]]]]. destruct (B' f m LO') as [i' [tags' [Hi' [Ht' ->]]]].
        rewrite Hi in Hi'. rewrite Ht in Ht'. injection Hi' as <-. injection Ht' as <-.
        unfold produced, read_schema. rewrite S. reflexivity.
      - rewrite (A F), A'; [reflexivity|]. rewrite Forall_forall in *. intros y I. apply F. apply InP. exact I. }
    exists q'. split; [exact M'|]. split.
    - destruct (proj2 (c95_made fs) q M) as [[E ->]|[n [N [-> A]]]].
      + rewrite E in P. apply Permutation_nil in P.
        destruct (proj2 (c95_made fs') q' M') as [[_ ->]|[n [X _]]]; [reflexivity|contradiction].
      + destruct (proj2 (c95_made fs') q' M') as [[X _]|[n' [N' [-> A']]]].
        * rewrite X in P. apply Permutation_sym, Permutation_nil in P. contradiction.
        * destruct (fs_manifests fs) as [|[f m] l]; [congruence|].
          destruct (A f m (or_introl eq_refl)) as [v Nv].
          destruct (A' f m (proj2 (InP _) (or_introl eq_refl))) as [v' Nv'].
          f_equal. symmetry. exact (proj1 (names_fun vparse _ _ _ _ _ Nv Nv')).
    - pose proof (max_same vparse veqb vltb irrefl asym neg_trans connected fs fs' q q' InP M M') as Q.
      unfold StdModel.get_mappings in *. simpl in Same. intros [|s|v]; [rewrite Q|..]; simpl; [|destruct (vparse s) as [v|]|];
        try reflexivity; [|exact (Same v)|exact (Same v)].
      destruct (q_max q) as [v|]; [exact (Same v)|reflexivity].
  Qed.
End C95.
Print Assumptions c95_made.
Print Assumptions c95_errors.
Print Assumptions c95_mappings.
Print Assumptions c95_available.
Print Assumptions c95_latest.
Print Assumptions c95_order.

(** Versions of one digit, for examples. *)
Definition digit (s : string) : res nat :=
  match s with
  | String a EmptyString => let n := nat_of_ascii a in
      if Nat.leb 48 n && Nat.leb n 57 then Ok (n - 48) else Err ValueError
  | _ => Err ValueError
  end.
Definition man (t : string) : manifest := Manifest t (Some "id") (Some [("u", "a"); ("w", "b"); ("u", "c")]).
Definition ex_fs : filesystem :=
  FS [("std-2.yml", man "two"); ("std-3.yaml", man "three"); ("std-1.yml", man "one")]
     [("b.yaml", "B"); ("c.yaml", "C")].
Definition ex_made : standard := 
  match make digit Nat.eqb Nat.ltb ex_fs with Ok q => q | Err _ => Std ex_fs None None [] end.

Example ex_c95 :
  make digit Nat.eqb Nat.ltb ex_fs = Ok ex_made /\
  q_name ex_made = Some "std"%string /\
  get_mappings digit Nat.eqb ex_made RNone = Ok ([("id", "three")], [("u", "C"); ("w", "B")]) /\
  get_mappings digit Nat.eqb ex_made (RStr "1") = Ok ([("id", "one")], [("u", "C"); ("w", "B")]) /\
  get_mappings digit Nat.eqb ex_made (RVer 4) = Err KeyError /\
  get_mappings digit Nat.eqb ex_made (RStr "x") = Err ValueError /\
  make digit Nat.eqb Nat.ltb (FS [("std-2.yml", man ""); ("sta-3.yaml", man "")] []) = Err ValueError /\
  make digit Nat.eqb Nat.ltb (FS [("std-2.yml", Manifest "" (Some "id") None)] []) = Err KeyError /\
  make digit Nat.eqb Nat.ltb (FS [("std2.yml", man "")] []) = Err ValueError.
Proof. vm_compute. repeat split. Qed.

(** It is not true that the content alone decides: with two manifests for one version,
    such as [std-1.yml] and [std-1.yaml], it is the order of the listing. *)
Theorem c95_order_refuted :
  ~ (forall fs fs' q q' r,
       Permutation (fs_manifests fs) (fs_manifests fs') -> fs_schemas fs' = fs_schemas fs ->
       NoDup (map fst (fs_manifests fs)) ->
       make digit Nat.eqb Nat.ltb fs = Ok q -> make digit Nat.eqb Nat.ltb fs' = Ok q' ->
       get_mappings digit Nat.eqb q' r = get_mappings digit Nat.eqb q r).
Proof.
  intro H.
  specialize (H (FS [("s-1.yml", Manifest "A" (Some "i") (Some [])); ("s-1.yaml", Manifest "B" (Some "i") (Some []))] [])
                (FS [("s-1.yaml", Manifest "B" (Some "i") (Some [])); ("s-1.yml", Manifest "A" (Some "i") (Some []))] [])).
  assert (NoDup ["s-1.yml"; "s-1.yaml"]) as N by (repeat constructor; simpl; intuition discriminate).
  pose proof (H _ _ RNone (perm_swap _ _ []) eq_refl N eq_refl eq_refl) as X. vm_compute in X. discriminate X.
Qed.
Print Assumptions c95_order_refuted.

(** It is not true that a created standard has a latest version: one without manifest
    files is created without an error, has no name, and has no version. *)
Theorem c95_latest_refuted :
  ~ (forall fs q, make digit Nat.eqb Nat.ltb fs = Ok q -> q_name q <> None /\ get_mappings digit Nat.eqb q RNone <> Err KeyError).
Proof. intro H. destruct (H (FS [] []) _ eq_refl) as [A _]. apply A. reflexivity. Qed.
Print Assumptions c95_latest_refuted.

Section C96.
  Context {version : Type} (vparse : string -> res version) (veqb : version -> version -> bool).
  Notation enable := (enable vparse veqb).
  Notation get_mappings := (get_mappings vparse veqb).
  Implicit Types (k : @config version) (q : @standard version).

  (** After registering a standard its name stands for it; the other names and the
      enabled mappings are as before. *)
  Theorem c96_add : forall k q,
    sget (q_name q) (k_standards (add_standard k q)) = Some q /\
    (forall n, n <> q_name q -> sget n (k_standards (add_standard k q)) = sget n (k_standards k)) /\
    k_added (add_standard k q) = k_added k.
  Proof.
    intros k q. split; [apply sget_sset; reflexivity|]. split; [|reflexivity].
    intros n N. apply sget_sset. exact N.
  Qed.

  (** After registering a list of standards a name stands for the last one of that
      name, or for what it stood for before. *)
  Theorem c96_last : forall l k n,
    (forall q, stands_for n l q -> sget n (k_standards (fold_left add_standard l k)) = Some q) /\
    ((forall q, In q l -> q_name q <> n) ->
      sget n (k_standards (fold_left add_standard l k)) = sget n (k_standards k)).
  Proof.
    intros l k n. split; [|apply sget_fold].
    intros q [a [b [-> [<- A]]]]. rewrite fold_left_app. simpl. rewrite sget_fold by exact A. apply c96_add.
  Qed.

  (** Enabling succeeds iff the name is registered and its standard has the mappings of
      the version; then just these two are added, after the ones before. An error
      leaves everything as it was. *)
  Theorem c96_enable : forall k n r,
    (forall q m s, sget n (k_standards k) = Some q -> get_mappings q r = Ok (m, s) ->
       enable k n r = (Config (k_standards k) (k_added k ++ [m; s]), Ok tt)) /\
    (forall q e, sget n (k_standards k) = Some q -> get_mappings q r = Err e -> enable k n r = (k, Err e)) /\
    (sget n (k_standards k) = None -> enable k n r = (k, Err KeyError)).
  Proof.
    intros k n r. unfold StdModel.enable. split; [|split].
    - intros q m s -> ->. reflexivity.
    - intros q e -> ->. reflexivity.
    - intros ->. reflexivity.
  Qed.

  (** Enabling a standard just registered gives its own mappings, whatever was
      registered under that name before. *)
  Theorem c96_enable_added : forall k q r m s,
    get_mappings q r = Ok (m, s) ->
    k_added (fst (enable (add_standard k q) (q_name q) r)) = k_added k ++ [m; s].
  Proof.
    intros k q r m s G. destruct (c96_enable (add_standard k q) (q_name q) r) as [A _].
    rewrite (A q m s (proj1 (c96_add k q)) G). reflexivity.
  Qed.

  (** Loading the installed standards: all that is returned is registered in order if
      all of it are standards; otherwise it is a [TypeError], and what was returned
      before the first other value stays registered. *)
  Theorem c96_installed : forall k eps,
    (forall l, returned eps = map Some l -> load_installed k eps = (fold_left add_standard l k, Ok tt)) /\
    (forall l r, returned eps = map Some l ++ None :: r ->
       load_installed k eps = (fold_left add_standard l k, Err TypeError)) /\
    ((exists l, returned eps = map Some l) \/ exists l r, returned eps = map Some l ++ None :: r).
  Proof.
    intros k eps. rewrite installed_flat. unfold returned. rewrite <- flat_map_concat_map.
    set (x := flat_map _ eps). clearbody x. split; [|split].
    - intros l ->. rewrite <- (app_nil_r (map Some l)), register_app. reflexivity.
    - intros l r ->. rewrite register_app. reflexivity.
    - induction x as [|[q|] x [[l ->]|[l [r ->]]]].
      + left. exists []. reflexivity.
      + left. exists (q :: l). reflexivity.
      + right. exists (q :: l), r. reflexivity.
      + right. exists [], (map Some l). reflexivity.
      + right. exists [], (map Some l ++ None :: r). reflexivity.
  Qed.
End C96.
Print Assumptions c96_add.
Print Assumptions c96_last.
Print Assumptions c96_enable.
Print Assumptions c96_enable_added.
Print Assumptions c96_installed.

Definition named (n : string) : @standard nat := Std ex_fs (Some n) (Some 1) [(1, Entry [] [("u", "b.yaml")])].
Example ex_c96 :
  load_installed (Config [] []) [LList [Some ex_made; Some (named "a")]; LOne (Some (named "std"))]
    = (Config [(Some "std", named "std"); (Some "a", named "a")] [], Ok tt) /\
  load_installed (Config [] []) [LOne (Some (named "a")); LList [Some (named "b"); None; Some (named "c")]; LOne (Some ex_made)]
    = (Config [(Some "a", named "a"); (Some "b", named "b")] [], Err TypeError) /\
  enable digit Nat.eqb (Config [(Some "a", named "a")] [[("x", "X")]]) (Some "a"%string) RNone
    = (Config [(Some "a", named "a")] [[("x", "X")]; []; [("u", "B")]], Ok tt) /\
  enable digit Nat.eqb (Config [(Some "a", named "a")] []) (Some "b"%string) RNone = (Config [(Some "a", named "a")] [], Err KeyError).
Proof. vm_compute. repeat split. Qed.

(** It is not true that loading registers all or nothing. *)
Theorem c96_atomic_refuted :
  ~ (forall (k k' : @config nat) eps e, load_installed k eps = (k', Err e) -> k' = k).
Proof. intro H. pose proof (H (Config [] []) _ [LOne (Some ex_made); LOne None] TypeError eq_refl) as X. discriminate X. Qed.
Print Assumptions c96_atomic_refuted.

(** It is not true that enabling another version replaces the one enabled before: the
    mappings of both stay. *)
Theorem c96_replace_refuted :
  ~ (forall k k' k'' n r r', enable digit Nat.eqb k n r = (k', Ok tt) -> enable digit Nat.eqb k' n r' = (k'', Ok tt) ->
       k_added k'' = k_added (fst (enable digit Nat.eqb k n r'))).
Proof.
  intro H. pose proof (H (Config [(Some "std"%string, ex_made)] []) _ _ (Some "std"%string) (RVer 1) (RVer 2) eq_refl eq_refl) as X.
  vm_compute in X. discriminate X.
Qed.
Print Assumptions c96_replace_refuted.
