(** C94: the validation of the units of a document. *)
From Coq Require Import List String Ascii Bool Arith Lia.
From Verif Require Import Base TagModel TagSpec UnitValModel UnitValSpec UnitValFacts.
Import ListNotations.
Open Scope string_scope.
Open Scope list_scope.

Section C94.
  Context {unit dim : Type} (parse : string -> res unit) (dimless : unit)
          (dimension : unit -> dim) (compatible : unit -> unit -> bool) (show : tnode -> string).
  Hypothesis compatible_iff : forall u x, compatible u x = true <-> dimension u = dimension x.

  (** The unit that is read from a value is the unit the value has. *)
  Theorem c94_units : forall n,
    (forall u, get_units parse dimless show n = Ok (Some u) <-> has_unit parse dimless show n u) /\
    (get_units parse dimless show n = Ok None <-> no_unit n).
  Proof. intro n. split; [apply gu_unit|apply gu_none]. Qed.

  (** Whatever is reported is due, also when the validation ends in an exception;
      when it does not, all that is due is reported. *)
  Theorem c94_reports : forall wx n reports outcome,
    validate parse dimless compatible show wx n = (reports, outcome) ->
    (forall r, In r reports -> due parse dimless dimension show wx n r) /\
    (outcome = None -> forall r, due parse dimless dimension show wx n r -> In r reports).
  Proof.
    intros wx n reports outcome W. unfold validate in W. split.
    - intros [p k] I. destruct (walk_sound parse dimless dimension compatible show compatible_iff wx n [] p k) as [q [-> D]].
      + rewrite W. exact I.
      + exact D.
    - intros -> [q k] D.
      pose proof (walk_complete parse dimless dimension compatible show compatible_iff wx n [] q k) as X.
      rewrite W in X. exact (X eq_refl D).
  Qed.

  (** It ends without an exception iff the document offers what is addressed. *)
  Theorem c94_runs : forall wx n,
    snd (validate parse dimless compatible show wx n) = None <-> addressable parse dimless show n wx.
  Proof. intros wx n. exact (walk_runs parse dimless dimension compatible show compatible_iff wx n []). Qed.

  (** A document is accepted iff in addition every value next to a leaf has a unit of
      the wanted dimension. *)
  Theorem c94_accepted : forall wx n,
    validate parse dimless compatible show wx n = ([], None) <->
    addressable parse dimless show n wx /\
    forall p e c, leaf_at wx p e -> node_at n p c -> satisfied parse dimless dimension show e c.
  Proof.
    intros wx n. pose proof (c94_runs wx n) as R. destruct (validate parse dimless compatible show wx n) as [rs o] eqn:W.
    destruct (c94_reports wx n rs o W) as [S C]. simpl in R. split.
    - intro E. injection E as -> ->. split; [apply R; reflexivity|]. intros p e c L N.
      destruct (uv_cases parse dimless dimension compatible show compatible_iff c e p) as [[x [_ A]]|[_ [[_ Sat]|[k [_ [_ K]]]]]].
      + exfalso. apply A. destruct R as [R _]. specialize (R eq_refl). clear - R L N.
        revert n R N. induction L as [e|d k s p e I L IH]; intros n R N.
        * inversion N. subst. exact R.
        * apply node_at_cons in N. destruct N as [c' [G N]]. apply (IH c'); [|exact N].
          inversion R as [|? ? AD AL]; subst. destruct s as [e'|s].
          -- destruct (AL k e' I) as [[c'' [N' A]]|C].
             ++ apply node_at_one in N'. rewrite G in N'. injection N' as <-. exact A.
             ++ apply contains_lacks in C. rewrite (get_contains n k c' G) in C. discriminate C.
          -- destruct (AD k s I) as [c'' [N' A]]. apply node_at_one in N'. rewrite G in N'. injection N' as <-. exact A.
      + exact Sat.
      + exfalso. refine (C eq_refl (p, k) _). exists e, c. split; [exact L|]. split; [exact N|]. simpl. apply K. reflexivity.
    - intros [A Sat]. apply R in A. subst o. f_equal. destruct rs as [|[p k] rs]; [reflexivity|]. exfalso.
      destruct (S (p, k) (or_introl eq_refl)) as [e [c [L [N M]]]]. simpl in L, N, M.
      destruct (Sat p e c L N) as [u [x [Hu [P D]]]]. destruct k.
      + apply (gu_unit parse dimless show) in Hu. apply (gu_none parse dimless show) in M. congruence.
      + destruct M as [u' [x' [Hu' [P' Nd]]]]. apply (gu_unit parse dimless show) in Hu.
        apply (gu_unit parse dimless show) in Hu'. congruence.
  Qed.

  (** Replacing units by others of the same dimension changes nothing. *)
  Theorem c94_rescaled : forall wx n n',
    leaves_units_alone wx -> rescaled parse dimension n n' ->
    validate parse dimless compatible show wx n = validate parse dimless compatible show wx n'.
  Proof. intros wx n n' L R. exact (rs_walk parse dimless dimension compatible show compatible_iff wx n n' [] L R). Qed.
End C94.
Print Assumptions c94_units.
Print Assumptions c94_reports.
Print Assumptions c94_runs.
Print Assumptions c94_accepted.
Print Assumptions c94_rescaled.

(** The order of the reports is that of the validation dictionary. *)
Theorem c94_order : forall (unit : Type) (parse : string -> res unit) dimless compatible show d1 d2 n r1 r2 o,
  validate parse dimless compatible show (VDict d1) n = (r1, None) ->
  validate parse dimless compatible show (VDict d2) n = (r2, o) ->
  validate parse dimless compatible show (VDict (d1 ++ d2)) n = (r1 ++ r2, o).
Proof.
  unfold validate. intros unit parse dimless compatible show d1 d2 n r1 r2 o. rewrite !walk_dict.
  revert r1. induction d1 as [|kv d1 IH]; intros r1 A B.
  - injection A as <-. exact B.
  - change (then_ (itemf parse dimless compatible show n [] kv) (itemsf parse dimless compatible show n [] d1) = (r1, None)) in A.
    change (then_ (itemf parse dimless compatible show n [] kv) (itemsf parse dimless compatible show n [] (d1 ++ d2)) = (r1 ++ r2, o)).
    destruct (itemf parse dimless compatible show n [] kv) as [a [e|]]; [discriminate A|]. unfold then_ in *. simpl in *.
    destruct (itemsf parse dimless compatible show n [] d1) as [b o']. simpl in A. injection A as <- ->.
    rewrite (IH b eq_refl B). simpl. rewrite app_assoc. reflexivity.
Qed.
Print Assumptions c94_order.

(** ** Examples: the unit is the pair of dimension and scale *)
Definition toy_units (s : string) : res (nat * nat) :=
  if String.eqb s "m" then Ok (1, 0) else if String.eqb s "mm" then Ok (1, 1) else
  if String.eqb s "s" then Ok (2, 0) else if String.eqb s "" then Ok (0, 0) else Err AttributeError.
Definition toy_compat (a b : nat * nat) : bool := Nat.eqb (fst a) (fst b).
Definition toy_validate := validate toy_units (0, 0) toy_compat (fun _ => "").
Definition quantity (u : string) : tnode := TMap [("value", TNum); ("units", TStr u None)] None.
Definition array (tag : string) : tnode := TMap [("source", TNum)] (Some tag).
Definition data_array (u : string) : tnode :=
  TMap [("data", quantity u)] (Some "asdf://weldx.bam.de/weldx/tags/core/data_array-0.1.0").

Definition ex_schema : vspec :=
  VDict [("length", VLeaf "m"); ("nested", VDict [("a", VLeaf "m"); ("b", VLeaf "s")]); ("factor", VLeaf "")].
Example ex_c94 :
  toy_validate ex_schema (TMap [("length", quantity "mm"); ("nested", TMap [("a", data_array "m")] None); ("factor", TNum)] None)
    = ([], None) /\
  toy_validate ex_schema (TMap [("length", quantity "s"); ("nested", TMap [("a", TStr "m" None); ("b", quantity "m")] None); ("factor", array "tag:stsci.edu:asdf/core/ndarray-1.0.0")] None)
    = ([(["length"], Mismatch); (["nested"; "a"], NoUnit); (["nested"; "b"], Mismatch)], None) /\
  toy_validate ex_schema (TMap [("length", quantity "parsec"); ("nested", TNull)] None) = ([], Some AttributeError) /\
  toy_validate ex_schema (TMap [("length", quantity "s"); ("nested", TNull)] None) = ([(["length"], Mismatch)], Some TypeError) /\
  toy_validate (VLeaf "s") (quantity "m") = ([([], Mismatch)], None).
Proof. vm_compute. repeat split. Qed.

Example ex_c94_rescaled :
  rescaled toy_units fst (TMap [("length", quantity "mm"); ("x", TNum)] None) (TMap [("length", quantity "m"); ("x", TNum)] None)
  /\ leaves_units_alone ex_schema.
Proof.
  split.
  - apply rs_map. constructor; [|constructor; [split; [reflexivity|left; reflexivity]|constructor]].
    split; [reflexivity|]. right. left. split; [discriminate|]. apply rs_map.
    constructor; [split; [reflexivity|left; reflexivity]|]. constructor; [|constructor].
    split; [reflexivity|]. right. right. split; [reflexivity|].
    exists "mm", "m", (1, 1), (1, 0). repeat split.
  - constructor. intros k s [E|[E|[E|[]]]]; injection E as <- <-; (split; [discriminate|]); try constructor.
    intros k s [E|[E|[]]]; injection E as <- <-; (split; [discriminate|constructor]).
Qed.

(** It is not true that a document that lacks a validated value is reported: a
    missing leaf is accepted, and a missing mapping ends the validation with a
    [KeyError] instead of a report. *)
Theorem c94_missing_refuted :
  (exists wx n p e, leaf_at wx p e /\ (forall c, ~ node_at n p c) /\ toy_validate wx n = ([], None)) /\
  (exists wx n p e, leaf_at wx p e /\ (forall c, ~ node_at n p c) /\ toy_validate wx n = ([], Some KeyError)).
Proof.
  split.
  - exists (VDict [("length", VLeaf "m")]), (TMap [] None), ["length"], "m".
    split; [econstructor; [left; reflexivity|constructor]|]. split; [|reflexivity].
    intros c N. apply node_at_one in N. discriminate N.
  - exists (VDict [("nested", VDict [("a", VLeaf "m")])]), (TMap [] None), ["nested"; "a"], "m".
    split; [econstructor; [left; reflexivity|econstructor; [left; reflexivity|constructor]]|]. split; [|reflexivity].
    intros c N. apply node_at_cons in N. destruct N as [x [G _]]. discriminate G.
Qed.
Print Assumptions c94_missing_refuted.

(** It is not true that an unreadable expected unit is always noticed: a value
    without a unit is reported before the expectation is read. *)
Theorem c94_expectation_refuted :
  exists wx n, toy_validate wx n = ([([], NoUnit)], None) /\
  (exists e, wx = VLeaf e /\ toy_units e = Err AttributeError) /\
  toy_validate wx (quantity "m") = ([], Some AttributeError).
Proof. exists (VLeaf "furlong"), TNull. split; [reflexivity|]. split; [exists "furlong"; split; reflexivity|reflexivity]. Qed.
Print Assumptions c94_expectation_refuted.
