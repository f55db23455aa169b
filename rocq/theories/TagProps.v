(** C92: tag patterns and the validation of the tags of properties.
    C93: the converter of a tag and the highest version of a tag. *)
From Coq Require Import List String Ascii Bool Arith Lia Permutation.
From Verif Require Import Base TagModel TagSpec TagFacts.
Import ListNotations.
Open Scope string_scope.
Open Scope list_scope.

(** A uri matches a pattern argument iff one of the patterns stands for it. *)
Theorem c92_match : forall p s,
  uri_match p s = true <->
  match p with
  | PStr q => Denotes q s
  | PList l => exists q, In q l /\ Denotes q s
  end.
Proof.
  intros [q|l] s; unfold uri_match.
  - apply glob_denotes.
  - rewrite existsb_exists. split; intros [q [I D]]; exists q; (split; [exact I|]); apply glob_denotes; exact D.
Qed.
Print Assumptions c92_match.

(** The patterns of weldx, a base followed by a star: exactly the tags that continue
    the base without another slash. *)
Theorem c92_versions : forall b t, plain b ->
  (uri_match (PStr (b ++ "*")) t = true <->
   exists v, t = (b ++ v)%string /\ ~ In "/"%char (list_ascii_of_string v)).
Proof.
  intros b t P. rewrite c92_match, (denotes_plain b "*" t P).
  split; intros [v [E D]]; exists v; (split; [exact E|]); apply denotes_star; exact D.
Qed.
Print Assumptions c92_versions.

(** A pattern without a star stands for itself only. *)
Theorem c92_plain : forall p t, plain p -> (uri_match (PStr p) t = true <-> t = p).
Proof.
  intros p t P. rewrite c92_match. rewrite <- (app_nil_str p) at 1. rewrite (denotes_plain p "" t P). split.
  - intros [s [-> D]]. apply denotes_nil in D. subst. apply app_nil_str.
  - intros ->. exists ""%string. rewrite app_nil_str. split; [reflexivity|constructor].
Qed.
Print Assumptions c92_plain.

Definition uuid : string := "asdf://weldx.bam.de/weldx/tags/uuid-".
Example ex_c92_match :
  uri_match (PStr (uuid ++ "*")) (uuid ++ "0.1.0") = true /\
  uri_match (PStr (uuid ++ "*")) (uuid ++ "0.1.0/x") = false /\
  uri_match (PStr (uuid ++ "**")) (uuid ++ "0.1.0/x") = true /\
  uri_match (PList ["tag:a-*"; "tag:b-1.*.0"]) "tag:b-1.22.0" = true /\
  uri_match (PList ["tag:a-*"; "tag:b-1.*.0"]) "tag:b-1.22.1" = false /\
  uri_match (PList []) "tag:a" = false.
Proof. vm_compute. repeat split. Qed.

(** The validator reports exactly the properties with a tag that no pattern stands
    for, each once and in the order of the document. *)
Theorem c92_errors : forall p d,
  exists errors, property_tag (PT p) (PMap d) = Ok errors /\
  (forall k, In k errors <-> exists t, In (k, Some t) d /\ uri_match p t = false) /\
  (NoDup (map fst d) -> NoDup errors) /\
  (forall d1 d2 e1 e2, d = d1 ++ d2 -> property_tag (PT p) (PMap d1) = Ok e1 ->
     property_tag (PT p) (PMap d2) = Ok e2 -> errors = e1 ++ e2) /\
  (forall n, property_tag PTOther n = Err WxSyntaxError) /\
  property_tag (PT p) PNoMap = Err AttributeError.
Proof.
  intros p d. eexists. split; [reflexivity|]. split; [|split; [|split; [|split; reflexivity]]].
  - intro k. rewrite in_flat_map. split.
    + intros [[k' [t|]] [I H]]; simpl in H; [|destruct H].
      destruct (uri_match p t) eqn:M; [destruct H|]. destruct H as [<-|[]]. eauto.
    + intros [t [I M]]. exists (k, Some t). split; [exact I|]. simpl. rewrite M. left. reflexivity.
  - induction d as [|[k o] d IH]; intro N; [constructor|].
    inversion N as [|? ? Nk Nd]; subst. specialize (IH Nd).
    destruct o as [t|]; simpl; [|exact IH]. destruct (uri_match p t); [exact IH|].
    constructor; [|exact IH]. intro I. apply Nk. apply in_flat_map in I.
    destruct I as [[k' o'] [I H]]. apply in_map_iff. exists (k', o'). split; [|exact I].
    destruct o' as [t'|]; [|destruct H]. simpl in H. destruct (uri_match p t'); [destruct H|]. destruct H as [<-|[]]. reflexivity.
  - intros d1 d2 e1 e2 -> H1 H2. injection H1 as <-. injection H2 as <-. apply flat_map_app.
Qed.
Print Assumptions c92_errors.

(** Further patterns never add a report. *)
Theorem c92_more_patterns : forall l l' d e e', incl l l' ->
  property_tag (PT (PList l)) (PMap d) = Ok e -> property_tag (PT (PList l')) (PMap d) = Ok e' -> incl e' e.
Proof.
  intros l l' d e e' C He He' k I.
  destruct (c92_errors (PList l) d) as [x [E [A _]]]. rewrite He in E. injection E as <-.
  destruct (c92_errors (PList l') d) as [y [E [B _]]]. rewrite He' in E. injection E as <-.
  apply B in I. destruct I as [t [I M]]. apply A. exists t. split; [exact I|].
  destruct (uri_match (PList l) t) eqn:M'; [|reflexivity].
  apply c92_match in M'. destruct M' as [q [Iq D]].
  rewrite (proj2 (c92_match (PList l') t) (ex_intro _ q (conj (C q Iq) D))) in M. discriminate M.
Qed.
Print Assumptions c92_more_patterns.

Example ex_c92_errors :
  property_tag (PT (PStr "tag:ts-0.1.*"))
    (PMap [("a", Some "tag:ts-0.1.0"); ("b", Some "tag:ts-0.2.0"); ("c", Some "tag:q-0.1.0"); ("d", Some "tag:ts-0.1.1")])
  = Ok ["b"; "c"] /\
  property_tag PTOther (PMap []) = Err WxSyntaxError /\
  property_tag (PT (PStr "tag:ts-0.1.*")) PNoMap = Err AttributeError.
Proof. vm_compute. repeat split. Qed.

(** It is not true that every accepted property has a wanted tag: a value of a type
    that asdf knows no tag for is accepted with any pattern, even with none. *)
Theorem c92_untagged_refuted :
  exists p d k, property_tag (PT p) (PMap d) = Ok [] /\ In k (map fst d) /\
  ~ exists t, In (k, Some t) d /\ uri_match p t = true.
Proof.
  exists (PList []), [("value", None)], "value". split; [reflexivity|]. split; [left; reflexivity|].
  intros [t [_ M]]. discriminate M.
Qed.
Print Assumptions c92_untagged_refuted.

(** ** C93 *)

(** The converter of a tag is the first registered one with a matching pattern;
    the warning is issued iff a second one matches. *)
Theorem c93_converter : forall (C : Type) (subclasses : list (C * patterns)) tag c w,
  get_converter_for_tag subclasses tag = (c, w) ->
  (forall x, c = Some x <-> exists l p r, subclasses = l ++ (x, p) :: r /\ uri_match p tag = true /\
     Forall (fun s => uri_match (snd s) tag = false) l) /\
  (c = None <-> Forall (fun s => uri_match (snd s) tag = false) subclasses) /\
  (w = true <-> exists l x m y r, subclasses = l ++ x :: m ++ y :: r /\
     uri_match (snd x) tag = true /\ uri_match (snd y) tag = true).
Proof.
  intros C s tag c w. unfold get_converter_for_tag.
  set (f := fun s : C * patterns => uri_match (snd s) tag). intro G.
  assert (forall l, filter f l = [] <-> Forall (fun s => f s = false) l) as Nil.
  { induction l as [|x l IH]; simpl; [split; constructor|]. destruct (f x) eqn:F.
    - split; [discriminate|]. intro A. inversion A. congruence.
    - rewrite IH. split; [constructor; assumption|intro A; inversion A; assumption]. }
  assert (forall l x r, filter f l = x :: r -> exists a b, l = a ++ x :: b /\ f x = true /\
            Forall (fun s => f s = false) a /\ filter f b = r) as Cons.
  { induction l as [|y l IH]; intros x r E; [discriminate|]. simpl in E. destruct (f y) eqn:F.
    - injection E as -> E. exists [], l. repeat split; auto.
    - destruct (IH x r E) as [a [b [-> [T [A B]]]]]. exists (y :: a), b. repeat split; auto. }
  assert (forall a b, Forall (fun s => f s = false) a -> filter f (a ++ b) = filter f b) as Skip.
  { intros a b A. rewrite filter_app. rewrite (proj2 (Nil a) A). reflexivity. }
  split; [|split].
  - intro x. split.
    + intros ->. destruct (filter f s) as [|[x' p] r] eqn:F; [discriminate|]. injection G as -> _.
      destruct (Cons _ _ _ F) as [a [b [-> [T [A _]]]]]. exists a, p, b. auto.
    + intros [l [p [r [-> [T A]]]]]. rewrite (Skip l ((x, p) :: r) A) in G.
      simpl in G. unfold f at 1 in G. simpl in G. rewrite T in G.
      injection G as <- _. reflexivity.
  - change (c = None <-> Forall (fun s => f s = false) s).
    rewrite <- Nil. destruct (filter f s) as [|[x p] r]; injection G as <- _; split; congruence.
  - assert (w = Nat.ltb 1 (List.length (filter f s))) as Ew.
    { destruct (filter f s) as [|[x p] r]; injection G as _ <-; reflexivity. }
    rewrite Ew, Nat.ltb_lt. split.
    + intro L. destruct (filter f s) as [|x [|y q]] eqn:F; simpl in L; try lia.
      destruct (Cons _ _ _ F) as [a [b [-> [T [_ F']]]]].
      destruct (Cons _ _ _ F') as [a' [b' [-> [T' _]]]]. exists a, x, a', y, b'. auto.
    + intros [l [x [m [y [r [-> [T T']]]]]]]. rewrite filter_app, app_length. simpl.
      change (f x = true) in T. change (f y = true) in T'. rewrite T. simpl.
      rewrite filter_app, app_length. simpl. rewrite T'. simpl. lia.
Qed.
Print Assumptions c93_converter.

Example ex_c93_converter :
  get_converter_for_tag [("time", PStr "t:time-*"); ("data", PList ["t:a-*"; "t:b-*"]); ("all", PStr "t:*")] "t:b-1" = (Some "data", true) /\
  get_converter_for_tag [("time", PStr "t:time-*"); ("data", PStr "t:a-*")] "t:time-1" = (Some "time", false) /\
  get_converter_for_tag [("time", PStr "t:time-*")] "t:x" = (None, false).
Proof. vm_compute. repeat split. Qed.

Section C93.
  Context {V : Type} (ver : string -> res V) (vleb : V -> V -> bool).
  Hypothesis total : forall a b, vleb a b = true \/ vleb b a = true.
  Hypothesis trans : forall a b c, vleb a b = true -> vleb b c = true -> vleb a c = true.

  (** The result is a matching tag of the extension, no matching tag has a higher
      version, and all matching tags begin with its base. *)
  Theorem c93_highest : forall ext p r,
    get_highest_tag_version ver vleb ext p = Ok (Some r) ->
    In r ext /\ uri_match p r = true /\
    exists v, ver (tag_version r) = Ok v /\
    forall t, In t ext -> uri_match p t = true ->
      (exists w, ver (tag_version t) = Ok w /\ vleb w v = true) /\
      exists s, t = (tag_base r ++ s)%string.
  Proof.
    intros ext p r G. unfold get_highest_tag_version in G.
    assert (forall t, In t (filter (uri_match p) ext) <-> In t ext /\ uri_match p t = true) as F
      by (intro; apply filter_In).
    destruct (filter (uri_match p) ext) as [|t0 ts]; [discriminate|].
    destruct (keyed ver (t0 :: ts)) as [l|e] eqn:K; [|discriminate]. unfold bind in G.
    pose proof (sorted_tags ver vleb (t0 :: ts) l K) as P.
    destruct (sorted_last ver vleb total trans (t0 :: ts) l K ltac:(discriminate)) as [I [v [Ev A]]].
    destruct (forallb _ _) eqn:B in G; [|discriminate]. injection G as <-.
    apply F in I. destruct I as [I M]. split; [exact I|]. split; [exact M|]. exists v. split; [exact Ev|].
    intros t It Mt. assert (In t (t0 :: ts)) as J by (apply F; auto). split; [apply A; exact J|].
    rewrite forallb_forall in B. apply prefix_ex. apply B.
    apply (Permutation_in _ (Permutation_sym P)). exact J.
  Qed.

  (** No result iff no tag matches. *)
  Theorem c93_none : forall ext p,
    get_highest_tag_version ver vleb ext p = Ok None <-> forall t, In t ext -> uri_match p t = false.
  Proof.
    intros ext p. unfold get_highest_tag_version. split.
    - intros G t I. destruct (uri_match p t) eqn:M; [|reflexivity]. exfalso.
      assert (In t (filter (uri_match p) ext)) as J by (apply filter_In; auto).
      destruct (filter (uri_match p) ext) as [|t0 ts]; [destruct J|].
      destruct (keyed ver (t0 :: ts)); [|discriminate]. unfold bind in G.
      destruct (forallb _ _) in G; discriminate.
    - intro A. destruct (filter (uri_match p) ext) as [|t0 ts] eqn:F; [reflexivity|]. exfalso.
      assert (In t0 (filter (uri_match p) ext)) as J by (rewrite F; left; reflexivity).
      apply filter_In in J. destruct J as [I M]. rewrite (A t0 I) in M. discriminate M.
  Qed.

  (** With one base and readable versions there is a result; it does not depend on
      the order of the extension when no two matching tags have equal versions. *)
  Theorem c93_one_base : forall ext p b,
    (exists t, In t ext /\ uri_match p t = true) ->
    (forall t, In t ext -> uri_match p t = true ->
       exists s v, t = (b ++ "-" ++ s)%string /\ dashless s /\ ver s = Ok v) ->
    exists r, get_highest_tag_version ver vleb ext p = Ok (Some r) /\ tag_base r = b /\
    forall ext', Permutation ext ext' ->
      (forall t t' v w, In t ext -> In t' ext -> uri_match p t = true -> uri_match p t' = true ->
         ver (tag_version t) = Ok v -> ver (tag_version t') = Ok w ->
         vleb v w = true -> vleb w v = true -> t = t') ->
      get_highest_tag_version ver vleb ext' p = Ok (Some r).
  Proof.
    assert (forall ext p b,
      (exists t, In t ext /\ uri_match p t = true) ->
      (forall t, In t ext -> uri_match p t = true ->
         exists s v, t = (b ++ "-" ++ s)%string /\ dashless s /\ ver s = Ok v) ->
      exists r, get_highest_tag_version ver vleb ext p = Ok (Some r) /\ tag_base r = b) as Ex.
    { intros ext p b [t [I M]] A. unfold get_highest_tag_version.
      assert (forall t, In t (filter (uri_match p) ext) <-> In t ext /\ uri_match p t = true) as F
        by (intro; apply filter_In).
      assert (In t (filter (uri_match p) ext)) as J by (apply F; auto).
      destruct (filter (uri_match p) ext) as [|t0 ts]; [destruct J|].
      assert (forall t, In t (t0 :: ts) -> tag_base t = b /\ prefix b t = true /\ exists v, ver (tag_version t) = Ok v) as W.
      { intros x Ix. apply F in Ix. destruct Ix as [Ix Mx]. destruct (A x Ix Mx) as [s [v [-> [D Ev]]]].
        destruct (tag_split b s D) as [B' V']. change ("-" ++ s)%string with (String "-" s). rewrite B', V'.
        split; [reflexivity|]. split; [apply prefix_app|]. eauto. }
      destruct (keyed_total ver (t0 :: ts) (fun t I => proj2 (proj2 (W t I)))) as [l K].
      rewrite K. unfold bind.
      pose proof (sorted_tags ver vleb (t0 :: ts) l K) as P.
      destruct (sorted_last ver vleb total trans (t0 :: ts) l K ltac:(discriminate)) as [Il _].
      destruct (W _ Il) as [B' _].
      replace (forallb _ _) with true.
      - eexists. split; [reflexivity|exact B'].
      - symmetry. apply forallb_forall. intros x Ix. rewrite B'. apply (W x).
        apply (Permutation_in _ P). exact Ix. }
    intros ext p b N A. destruct (Ex ext p b N A) as [r [G B]]. exists r. split; [exact G|]. split; [exact B|].
    intros ext' P D.
    destruct (Ex ext' p b) as [r' [G' B']].
    { destruct N as [t [I M]]. exists t. split; [apply (Permutation_in _ P); exact I|exact M]. }
    { intros t I M. apply A; [apply (Permutation_in _ (Permutation_sym P)); exact I|exact M]. }
    rewrite G'. f_equal. f_equal.
    destruct (c93_highest ext p r G) as [I [M [v [Ev H]]]].
    destruct (c93_highest ext' p r' G') as [I' [M' [v' [Ev' H']]]].
    assert (In r' ext) as J by (apply (Permutation_in _ (Permutation_sym P)); exact I').
    assert (In r ext') as J' by (apply (Permutation_in _ P); exact I).
    destruct (H r' J M') as [[w [Ew Lw]] _]. rewrite Ev' in Ew. injection Ew as <-.
    destruct (H' r J' M) as [[w' [Ew' Lw']] _]. rewrite Ev in Ew'. injection Ew' as <-.
    exact (D r' r v' v J I M' M Ev' Ev Lw Lw').
  Qed.
End C93.
Print Assumptions c93_highest.
Print Assumptions c93_none.
Print Assumptions c93_one_base.

(** versions of one digit for the examples *)
Definition digit (s : string) : res nat :=
  match s with
  | String a EmptyString => let n := nat_of_ascii a in
      if Nat.leb 48 n && Nat.leb n 57 then Ok (n - 48) else Err ValueError
  | _ => Err ValueError
  end.

Example ex_c93 :
  get_highest_tag_version digit Nat.leb ["uuid-1"; "time-9"; "uuid-3"; "uuid-2"] (PStr "uuid-*") = Ok (Some "uuid-3") /\
  get_highest_tag_version digit Nat.leb ["uuid-1"; "time-9"] (PStr "*") = Err ValueError /\
  get_highest_tag_version digit Nat.leb ["uuid-1"; "uuid-x"] (PStr "uuid-*") = Err ValueError /\
  get_highest_tag_version digit Nat.leb ["uuid-1"] (PStr "time-*") = Ok None.
Proof. vm_compute. repeat split. Qed.

(** It is not true that a result means that the pattern matched one base tag only:
    the other bases only have to begin with the base of the highest version, and
    whether the ambiguity is noticed depends on the versions. *)
Theorem c93_bases_refuted :
  (exists ext p r, get_highest_tag_version digit Nat.leb ext p = Ok (Some r) /\
     exists t, In t ext /\ uri_match p t = true /\ tag_base t <> tag_base r) /\
  get_highest_tag_version digit Nat.leb ["quantity-2"; "quantity_range-1"] (PStr "quantity*") = Ok (Some "quantity-2") /\
  get_highest_tag_version digit Nat.leb ["quantity-1"; "quantity_range-2"] (PStr "quantity*") = Err ValueError.
Proof.
  split; [|split; vm_compute; reflexivity].
  exists ["quantity-2"; "quantity_range-1"], (PStr "quantity*"), "quantity-2".
  split; [vm_compute; reflexivity|]. exists "quantity_range-1".
  split; [right; left; reflexivity|]. split; [vm_compute; reflexivity|discriminate].
Qed.
Print Assumptions c93_bases_refuted.
