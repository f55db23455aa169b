(** C43 and C30: comparison of nested structures and of managers. *)
From Coq Require Import List String Ascii Bool Arith ZArith Lia.
From Verif Require Import Base NestedModel NestedSpec NestedFacts.
Import ListNotations.

(** ** C43 compare_nested *)
(** What is compared: every item of the first structure has to be in the second
    one; if it has no parts it has to be equal, and only then the sizes or keys of
    the surrounding structures are compared. *)
Theorem c43_exact : forall pi a b, wf a -> wf b -> container a -> tree a ->
  (compare_nested pi a b = Ok true <-> covers a b).
Proof. exact compare_iff. Qed.
Print Assumptions c43_exact.

(** If the result is True, every path of the first structure exists in the second
    one, with equal values at the ends. *)
Theorem c43_sound : forall pi a b k p x, wf a -> wf b -> container a -> tree a ->
  compare_nested pi a b = Ok true -> reaches a (k :: p) x ->
  exists y, reaches b (k :: p) y /\ (leaf x -> same_leaf x y).
Proof.
  intros pi a b k p x WA WB C T E R. apply (c43_exact pi a b WA WB C T) in E. clear C T WA WB pi.
  remember (k :: p) as q eqn:Q. revert k p Q b E. induction R as [x|a k u p x EN R IH]; intros k' p' Q b E; [discriminate|].
  injection Q as <- <-. destruct E as [kd id items w H]. inversion EN as [? ? ? ? ? IN|]; subst.
  destruct (H k u IN) as (v & EW & L & NL). destruct (leaf_dec u) as [LU|NU].
  - destruct (L LU) as [SL _]. inversion R as [z|? k2 u2 p2 ? E2 R2]; subst.
    + exists v. split; [econstructor; [exact EW|constructor]|auto].
    + destruct SL as [[NC <-]|[ED _]].
      * exists x. split; [econstructor; eassumption|]. intros LX. apply same_leaf_refl; exact LX.
      * destruct u as [| | |[] ? [|]]; try destruct ED. apply entry_con in E2. destruct E2.
  - specialize (NL NU). inversion R as [z|? k2 u2 p2 ? E2 R2]; subst.
    + exists v. split; [econstructor; [exact EW|constructor]|]. intros LX. contradiction.
    + destruct (IH k2 p2 eq_refl v NL) as (y & RY & LY). exists y. split; [econstructor; eassumption|exact LY].
Qed.
Print Assumptions c43_sound.

(** Equal structures are accepted, also if they contain the same object twice; the
    comparison is reflexive. *)
Lemma keys_length : forall (i j : list (key * val)), NoDup (map fst i) -> NoDup (map fst j) ->
  (forall k, (exists x, In (k, x) i) <-> (exists y, In (k, y) j)) -> List.length i = List.length j.
Proof.
  assert (HALF : forall i j : list (key * val), NoDup (map fst i) ->
    (forall k, (exists x, In (k, x) i) -> (exists y, In (k, y) j)) -> List.length i <= List.length j).
  { intros i j N H. rewrite <- (map_length fst i), <- (map_length fst j). apply NoDup_incl_length; [exact N|].
    intros k I. apply in_map_iff in I. destruct I as ([k' x] & <- & I). destruct (H k' (ex_intro _ x I)) as [y Y].
    apply in_map_iff. exists (k', y). auto. }
  intros i j N1 N2 H. apply Nat.le_antisymm; apply HALF; auto; intros k; apply H.
Qed.
Lemma equal_covers : forall a b, wf a -> wf b -> container a -> equal a b -> covers a b.
Proof.
  induction a as [z|s|t c|kd id items IH] using val_ind2; intros b WA WB C E; try destruct C.
  rewrite Forall_forall in IH. inversion WA as [| | |? ? ? N1 _ F1]; subst. rewrite Forall_forall in F1.
  inversion E as [? ? SL|? ? ? id' j K H]; subst.
  - pose proof (same_leaf_l _ _ SL) as L. destruct kd; try destruct L. destruct items; [|destruct L].
    constructor. intros k x [].
  - inversion WB as [| | |? ? ? N2 _ F2]; subst. constructor. intros k x I.
    destruct (proj1 (K k) (ex_intro _ x I)) as [y J]. exists y. split; [constructor; exact J|].
    specialize (H k x y I J). split.
    + intros L. split.
      * inversion H; subst; [assumption|]. destruct kd0; try destruct L. destruct i; [|destruct L].
        right. split; [exact Logic.I|]. destruct j0 as [|[q z] r]; [exact Logic.I|].
        destruct (proj2 (H0 q) (ex_intro _ z (or_introl eq_refl))) as [? []].
      * destruct kd; cbn [level_ok size]; try (apply keys_length; assumption).
        intros q _. split; intros [z Z]; apply entry_con in Z.
        -- destruct (proj1 (K q) (ex_intro _ z Z)) as [z' Z']. exists z'. constructor. exact Z'.
        -- destruct (proj2 (K q) (ex_intro _ z Z)) as [z' Z']. exists z'. constructor. exact Z'.
    + intros NL. apply (IH (k, x) I y).
      * apply (F1 _ I).
      * rewrite Forall_forall in F2. apply (F2 _ J).
      * destruct x; cbn in *; tauto.
      * exact H.
Qed.
Theorem c43_complete : forall pi a b, wf a -> wf b -> container a -> equal a b -> compare_nested pi a b = Ok true.
Proof. intros pi a b WA WB C E. apply compare_covers; auto using equal_covers. Qed.
Print Assumptions c43_complete.
Lemma equal_refl : forall a, wf a -> equal a a.
Proof.
  induction a as [z|s|t c|kd id items IH] using val_ind2; intros W; try (apply Eq_leaf; apply same_leaf_refl; exact Logic.I).
  inversion W as [| | |? ? ? N _ F]; subst. rewrite Forall_forall in IH, F. apply Eq_con; [tauto|].
  intros k x y I J. rewrite (unique_entry _ _ _ _ N J I). apply (IH _ I), (F _ I).
Qed.
Theorem c43_reflexive : forall pi a, wf a -> container a -> compare_nested pi a a = Ok true.
Proof. intros pi a W C. apply c43_complete; auto using equal_refl. Qed.
Print Assumptions c43_reflexive.

(** If both directions are True, the structures are equal up to the classes of
    their containers. *)
Lemma covers_same : forall a b, wf a -> wf b -> container a -> container b -> covers a b -> covers b a -> same a b.
Proof.
  induction a as [z|s|t c|kd id i IH] using val_ind2; intros b WA WB CA CB AB BA; try destruct CA.
  destruct b as [| | |kd' id' j]; try destruct CB. rewrite Forall_forall in IH.
  inversion AB as [? ? ? ? H1]; subst. inversion BA as [? ? ? ? H2]; subst.
  inversion WA as [| | |? ? ? N1 _ F1]; subst. inversion WB as [| | |? ? ? N2 _ F2]; subst. rewrite Forall_forall in F1, F2.
  apply Same_con.
  - intros k. split; intros [x I].
    + destruct (H1 k x I) as (y & E & _). apply entry_con in E. eauto.
    + destruct (H2 k x I) as (y & E & _). apply entry_con in E. eauto.
  - intros k x y I J. destruct (H1 k x I) as (y' & E1 & L1 & NL1). destruct (H2 k y J) as (x' & E2 & L2 & NL2).
    apply entry_con in E1, E2. rewrite (unique_entry _ _ _ _ N2 E1 J) in *. rewrite (unique_entry _ _ _ _ N1 E2 I) in *.
    destruct (leaf_dec x) as [L|NL]; [apply Same_leaf; apply L1; exact L|].
    assert (NY : ~ leaf y) by (intros LY; apply NL; destruct (L2 LY) as [S _]; exact (same_leaf_r _ _ S)).
    apply (IH (k, x) I y (F1 _ I) (F2 _ J)); auto.
    + destruct x; cbn in *; tauto.
    + destruct y; cbn in *; tauto.
Qed.
Theorem c43_both : forall pi a b, wf a -> wf b -> container a -> container b -> tree a -> tree b ->
  compare_nested pi a b = Ok true -> compare_nested pi b a = Ok true -> same a b.
Proof.
  intros pi a b WA WB CA CB TA TB AB BA. apply covers_same; auto; eapply c43_exact; eauto.
Qed.
Print Assumptions c43_both.

(** The comparison is transitive if the middle structure has no keys that count as
    false. *)
Lemma level_trans : forall kx ix i ky iy j z k t, wf (VCon kx ix i) -> wf (VCon ky iy j) -> plain (VCon ky iy j) ->
  (forall k x, In (k, x) i -> exists y, In (k, y) j) -> entry z k t ->
  level_ok (VCon kx ix i) (VCon ky iy j) -> level_ok (VCon ky iy j) z -> level_ok (VCon kx ix i) z.
Proof.
  intros kx ix i ky iy j z k t WX WY P INC EZ L1 L2.
  inversion WX as [| | |? ? ? N1 _ _]; subst. inversion WY as [| | |? ? ? N2 _ _]; subst.
  assert (SZ : List.length i = List.length j).
  { destruct ky; try exact L1. destruct kx; try destruct L1. apply keys_length; auto. intros q. split.
    - intros [x I]. apply (INC q x I).
    - intros [y J]. inversion P as [? NC|? ? ? PF _]; subst; [destruct NC; exact Logic.I|].
      destruct (proj2 (L1 q (PF eq_refl q y J)) (ex_intro _ y (E_con _ _ _ _ _ J))) as [x X]. apply entry_con in X. eauto. }
  destruct EZ as [kz iz l k t I|s n c G].
  - destruct kz; cbn [level_ok size] in *; try congruence.
    destruct ky; try destruct L2. destruct kx; try destruct L1. intros q Q. rewrite (L1 q Q). apply L2; exact Q.
  - cbn [level_ok size] in *. congruence.
Qed.
Lemma covers_trans : forall x y z, wf x -> wf y -> wf z -> plain y -> covers x y -> covers y z \/ same_leaf y z -> covers x z.
Proof.
  induction x as [n|s|t c|kd id items IH] using val_ind2; intros y z WX WY WZ P XY YZ; try (inversion XY; fail).
  rewrite Forall_forall in IH. inversion XY as [? ? ? ? H]; subst. destruct YZ as [YZ|SL].
  - destruct YZ as [ky iy j z H2]. constructor. intros k u I. destruct (H k u I) as (v & EV & LU & NU).
    inversion EV as [? ? ? ? ? J|]; subst. destruct (H2 k v J) as (t & ET & LV & NV). exists t. split; [exact ET|].
    inversion P as [? NC|? ? ? _ PV]; subst; [destruct NC; exact Logic.I|]. split.
    + intros L. destruct (LU L) as [S1 O1]. destruct (LV (same_leaf_r _ _ S1)) as [S2 O2].
      split; [eapply same_leaf_trans; eassumption|].
      refine (level_trans _ _ _ _ _ _ _ _ _ WX WY P _ ET O1 O2).
      intros q x Q. destruct (H q x Q) as (y & Y & _). apply entry_con in Y. eauto.
    + intros L. inversion WX as [| | |? ? ? _ _ F]; subst. rewrite Forall_forall in F.
      apply (IH (k, u) I v t (F _ I) (entry_wf _ _ _ WY EV) (entry_wf _ _ _ WZ ET) (PV _ _ J) (NU L)).
      destruct (leaf_dec v) as [LV'|NV']; [right; apply LV; exact LV'|left; apply NV; exact NV'].
  - destruct SL as [[NC <-]|[E1 E2]]; [exact XY|]. constructor. intros k u I. exfalso.
    destruct (H k u I) as (v & EV & _). destruct y as [| | |[] ? [|]]; try destruct E1. apply entry_con in EV. destruct EV.
Qed.
Theorem c43_transitive : forall pi a b c, wf a -> wf b -> wf c -> container a -> container b -> tree a -> tree b -> plain b ->
  compare_nested pi a b = Ok true -> compare_nested pi b c = Ok true -> compare_nested pi a c = Ok true.
Proof.
  intros pi a b c WA WB WC CA CB TA TB P AB BC. apply compare_covers; auto.
  apply (covers_trans a b c); auto; [apply (c43_exact pi a b); auto|left; apply (c43_exact pi b c); auto].
Qed.
Print Assumptions c43_transitive.

(** *** what is not compared *)
Definition vlist (id : nat) (l : list val) : val := VCon CList id (combine (map KInt (seq 0 (List.length l))) l).
Definition vtuple (id : nat) (l : list val) : val := VCon CTuple id (combine (map KInt (seq 0 (List.length l))) l).

(** [[1]] "equals" [[1], [2]], but not the other way round *)
Theorem c43_symmetric_refuted : forall pi,
  let a := vlist 0 [vlist 1 [VInt 1]] in
  let b := vlist 2 [vlist 3 [VInt 1]; vlist 4 [VInt 2]] in
  compare_nested pi a b = Ok true /\ compare_nested pi b a = Ok false.
Proof. intros pi. split; reflexivity. Qed.
Print Assumptions c43_symmetric_refuted.
(** The other way round the empty list is different from every list that starts with
    a simple value: the missing element is noticed. *)
Theorem c43_missing : forall pi kd kd' id id' k x items, kd <> CDict -> kd' <> CDict -> ~ container x ->
  compare_nested pi (VCon kd id ((KInt k, x) :: items)) (VCon kd' id' []) = Ok false.
Proof.
  intros pi kd kd' id id' k x items K K' N. unfold compare_nested. cbn [walk walk_items].
  assert (V : visit pi (VCon kd id ((KInt k, x) :: items)) (VCon kd' id' []) [] (KInt k) x = Err IndexError).
  { unfold visit. cbn [get_path bind index lookup]. destruct kd'; try congruence; reflexivity. }
  destruct x as [z|s|t c|c i l]; try (rewrite V; reflexivity). exfalso. apply N. exact Logic.I.
Qed.
Print Assumptions c43_missing.
(** A dictionary with the key "0" is not different from a list: the path to the
    inner value is found with the index 0, then the comparison raises. *)
Theorem c43_numeric_refuted : forall pi, pi "0"%string = Some 0 ->
  compare_nested pi (VCon CDict 0 [(KStr "0", VCon CDict 1 [(KStr "x", VInt 1)])])
                    (vlist 2 [VCon CDict 3 [(KStr "x", VInt 1)]]) = Err TypeError.
Proof. intros pi H. cbv -[Z.eqb]. rewrite H. reflexivity. Qed.
Print Assumptions c43_numeric_refuted.
(** an empty list "equals" everything, an empty dictionary only as root *)
Theorem c43_empty_refuted : forall pi id b, compare_nested pi (vlist id []) b = Ok true /\
  compare_nested pi (VCon CDict id []) b = Ok true /\
  compare_nested pi (vlist id [vlist (S id) []]) (vlist 7 [b]) = Ok true.
Proof.
  intros pi id b. split; [reflexivity|]. split; [reflexivity|]. unfold compare_nested, vlist.
  cbn [List.length seq map combine walk walk_items]. destruct (nmem (S id) [id]); reflexivity.
Qed.
Print Assumptions c43_empty_refuted.
(** lists, tuples and some dictionaries are not distinguished *)
Theorem c43_class_refuted : forall pi,
  compare_nested pi (vlist 0 [VInt 1]) (vtuple 1 [VInt 1]) = Ok true /\
  compare_nested pi (vlist 0 [vlist 1 [VInt 1]]) (VCon CDict 2 [(KInt 0, vlist 3 [VInt 1])]) = Ok true /\
  compare_nested pi (vlist 0 [vlist 1 [VStr "x"]]) (vlist 2 [VStr "x"]) = Ok true.
Proof. intros pi. repeat split; reflexivity. Qed.
Print Assumptions c43_class_refuted.
(** additional keys that count as false are not noticed: {"a": 1} and {"a": 1, "": 2} *)
Theorem c43_keys_refuted : forall pi,
  let a := VCon CDict 0 [(KStr "a", VInt 1)] in
  let b := VCon CDict 1 [(KStr "a", VInt 1); (KStr "", VInt 2)] in
  compare_nested pi a b = Ok true /\ compare_nested pi b a = Ok false.
Proof. intros pi. split; reflexivity. Qed.
Print Assumptions c43_keys_refuted.
(** the second occurrence of an object is not compared: [x, x] with x = [1] and
    [[1], [2]] *)
Theorem c43_shared_refuted : forall pi,
  let x := vlist 1 [VInt 1] in
  let a := vlist 0 [x; x] in
  let b := vlist 2 [vlist 3 [VInt 1]; vlist 4 [VInt 2]] in
  compare_nested pi a b = Ok true /\ compare_nested pi b a = Ok false /\
  ~ covers a b.
Proof.
  intros pi. split; [reflexivity|]. split; [reflexivity|]. intros C. inversion C as [? ? ? ? H]; subst.
  destruct (H (KInt 1) (vlist 1 [VInt 1])) as (y & E & _ & N); [right; left; reflexivity|].
  specialize (N ltac:(cbn; tauto)). apply entry_con in E. destruct E as [E|[E|[]]]; [discriminate|].
  injection E as <-. inversion N as [? ? ? ? H2]; subst.
  destruct (H2 (KInt 0) (VInt 1) (or_introl eq_refl)) as (y & E & L & _). apply entry_con in E.
  destruct E as [E|[]]. injection E as <-. destruct (L Logic.I) as [[[_ S]|[[] _]] _]. discriminate.
Qed.
Print Assumptions c43_shared_refuted.
(** transitivity fails for keys that count as false: {1: 5}, {1: 5, 0: 6}, [6, 5] *)
Theorem c43_transitive_refuted : forall pi,
  let a := VCon CDict 0 [(KInt 1, VInt 5)] in
  let b := VCon CDict 1 [(KInt 1, VInt 5); (KInt 0, VInt 6)] in
  let c := vlist 2 [VInt 6; VInt 5] in
  compare_nested pi a b = Ok true /\ compare_nested pi b c = Ok true /\ compare_nested pi a c = Ok false.
Proof. intros pi. repeat split; reflexivity. Qed.
Print Assumptions c43_transitive_refuted.
(** nested structures of different depth raise instead of giving False *)
Theorem c43_total_refuted : forall pi,
  compare_nested pi (vlist 0 [vlist 1 [VInt 1]]) (vlist 2 [VInt 1]) = Err TypeError /\
  compare_nested pi (vlist 0 [VInt 1]) (VCon CDict 1 [(KInt 0, VInt 1)]) = Err AttributeError /\
  compare_nested pi (VCon CDict 0 [(KStr "a", VInt 1)]) (vlist 1 [VInt 1]) = Err TypeError.
Proof. intros pi. repeat split; reflexivity. Qed.
Print Assumptions c43_total_refuted.
Example c43_ex : let a := VCon CDict 0 [(KStr "a", vlist 1 [VInt 1; VStr "x"]); (KStr "b", VInt 3)] in
  wf a /\ container a /\ tree a /\ plain a /\
  compare_nested (fun _ => None) a (VCon CDict 5 [(KStr "b", VInt 3); (KStr "a", vlist 6 [VInt 1; VStr "x"])]) = Ok true /\
  compare_nested (fun _ => None) a (VCon CDict 5 [(KStr "b", VInt 4); (KStr "a", vlist 6 [VInt 1; VStr "x"])]) = Ok false.
Proof.
  assert (NAB : NoDup [KStr "a"; KStr "b"]) by (constructor; [intros [Q|[]]; discriminate|constructor; [intros []|constructor]]).
  assert (N01 : NoDup [KInt 0; KInt 1]) by (constructor; [intros [Q|[]]; discriminate|constructor; [intros []|constructor]]).
  split.
  - constructor; [exact NAB|intros Q; destruct Q; reflexivity|].
    constructor; [|constructor; [constructor|constructor]].
    constructor; [exact N01|reflexivity|]. constructor; [constructor|]. constructor; [constructor|constructor].
  - split; [exact Logic.I|]. split; [constructor; [intros [Q|[]]; discriminate|constructor; [intros []|constructor]]|]. split; [|split; reflexivity].
    apply plain_con.
    + intros _ k x [Q|[Q|[]]]; injection Q as <- <-; intros [F|F]; discriminate.
    + intros k x [Q|[Q|[]]]; injection Q as <- <-; [|apply plain_atom; cbn; tauto].
      apply plain_con; [discriminate|]. intros k x [Q|[Q|[]]]; injection Q as <- <-; apply plain_atom; cbn; tauto.
Qed.

(** equality of dataclasses with [dataclass_nested_eq] *)
Theorem c43_dataclass : forall pi sub a b, wf (o_dict a) -> wf (o_dict b) -> container (o_dict a) ->
  (sub (o_class b) (o_class a) = false -> nested_eq pi sub a b = Ok false) /\
  (sub (o_class b) (o_class a) = true -> equal (o_dict a) (o_dict b) -> nested_eq pi sub a b = Ok true) /\
  (sub (o_class a) (o_class a) = true -> nested_eq pi sub a a = Ok true).
Proof.
  intros pi sub a b WA WB C. unfold nested_eq. split; [intros ->; reflexivity|]. split.
  - intros -> E. apply c43_complete; assumption.
  - intros ->. apply c43_reflexive; assumption.
Qed.
Print Assumptions c43_dataclass.

(** ** C30 Equality of managers *)
Lemma equal_sym : forall a b, equal a b -> equal b a.
Proof.
  induction a as [z|s|t c|kd id i IH] using val_ind2; intros b E; try (inversion E; subst; apply Eq_leaf, same_leaf_sym; assumption).
  rewrite Forall_forall in IH. inversion E as [? ? SL|? ? ? id' j K H]; subst; [apply Eq_leaf, same_leaf_sym; exact SL|].
  apply Eq_con; [intros k; symmetry; apply K|]. intros k x y J I. apply (IH (k, y) I). apply (H k y x I J).
Qed.
Lemma flat_equal : forall d e, flat d -> flat e -> ~ empty_dict d -> covers d e -> equal d e.
Proof.
  intros d e (WD & _ & _ & id & i & -> & LD) (WE & PE & _ & id' & j & -> & LE) NE C.
  inversion C as [? ? ? ? H]; subst. inversion WE as [| | |? ? ? N2 _ _]; subst.
  destruct i as [|[k0 x0] i0] eqn:EI; [destruct NE; exact Logic.I|]. rewrite <- EI in *.
  assert (AT : forall k x, In (k, x) i -> exists y, In (k, y) j /\ same_leaf x y /\ level_ok (VCon CDict id i) (VCon CDict id' j)).
  { intros k x I. destruct (H k x I) as (y & E & L & _). apply entry_con in E. exists y. split; [exact E|]. apply L.
    pose proof (LD k x I). destruct x; cbn in *; tauto. }
  assert (LV : level_ok (VCon CDict id i) (VCon CDict id' j)).
  { destruct (AT k0 x0) as (y & _ & _ & L); [rewrite EI; left; reflexivity|exact L]. }
  apply Eq_con.
  - intros k. split.
    + intros [x I]. destruct (AT k x I) as (y & J & _). eauto.
    + intros [y J]. inversion PE as [? NC|? ? ? PF _]; subst; [destruct NC; exact Logic.I|].
      destruct (proj2 (LV k (PF eq_refl k y J)) (ex_intro _ y (E_con _ _ _ _ _ J))) as [x X]. apply entry_con in X. eauto.
  - intros k x y I J. destruct (AT k x I) as (y' & J' & S & _). rewrite (unique_entry _ _ _ _ N2 J J'). apply Eq_leaf. exact S.
Qed.
Lemma empty_dec : forall v, empty_dict v \/ ~ empty_dict v.
Proof. intros [| | |[] ? [|]]; cbn; tauto. Qed.
Lemma node_equal : forall a b, node_ok a -> node_ok b -> covers a b -> equal a b.
Proof.
  intros a b (WA & _ & id & d & -> & FD) (WB & _ & id' & e & -> & FE) C. inversion C as [? ? ? ? H]; subst.
  destruct (H (KStr "data") d (or_introl eq_refl)) as (y & E & L & NL). apply entry_con in E. destruct E as [E|[]]. injection E as <-.
  apply Eq_con.
  - intros k. split; intros [x [Q|[]]]; injection Q as <- <-; eexists; left; reflexivity.
  - intros k x y [Q|[]] [Q'|[]]. injection Q as <- <-. injection Q' as <-. destruct (empty_dec d) as [ED|ND].
    + assert (LD : leaf d) by (destruct d as [| | |[] ? [|]]; cbn in *; tauto). apply Eq_leaf. apply L. exact LD.
    + apply flat_equal; auto. apply NL. destruct FD as (_ & _ & _ & i & l & -> & _). destruct l; cbn in *; tauto.
Qed.
Lemma all_found_iff : forall pi (K : Type) (look : K -> option val) l,
  all_found pi look l = Ok true <-> forall k v, In (k, v) l -> exists w, look k = Some w /\ compare_nested pi v w = Ok true.
Proof.
  intros pi K look. induction l as [|[k v] r IH]; cbn [all_found]; [split; [intros _ k v []|reflexivity]|]. split.
  - intros E. destruct (look k) as [w|] eqn:L; [|discriminate]. destruct (compare_nested pi v w) as [[]|] eqn:C; try discriminate.
    cbn [bind] in E. intros k' v' [Q|Q]; [injection Q as <- <-; eauto|]. apply IH; assumption.
  - intros H. destruct (H k v (or_introl eq_refl)) as (w & -> & ->). cbn [bind]. apply IH. intros k' v' Q. apply H. right. exact Q.
Qed.
Lemma find_node_iff : forall n v l, NoDup (map fst l) -> (find_node n l = Some v <-> In (n, v) l).
Proof.
  intros n v l N. unfold find_node. split.
  - destruct (find _ l) as [[m w]|] eqn:F; [|discriminate]. intros E. injection E as ->. apply find_some in F. cbn in F.
    destruct F as [I E]. apply String.eqb_eq in E. subst. exact I.
  - intros I. induction l as [|[m w] r IH]; [destruct I|]. cbn [map fst] in N. apply NoDup_cons_iff in N. destruct N as [N1 N2].
    cbn [find fst]. destruct (String.eqb n m) eqn:E.
    + apply String.eqb_eq in E. subst. destruct I as [I|I]; [injection I as ->; reflexivity|]. destruct N1. apply in_map_iff. exists (m, v). auto.
    + destruct I as [I|I]; [injection I as -> ->; rewrite String.eqb_refl in E; discriminate|]. apply IH; assumption.
Qed.
Lemma find_edge_iff : forall e v l, NoDup (map fst l) -> (find_edge e l = Some v <-> In (e, v) l).
Proof.
  intros [p q] v l N. unfold find_edge. cbn [fst snd]. split.
  - destruct (find _ l) as [[[m m'] w]|] eqn:F; [|discriminate]. intros E. injection E as ->. apply find_some in F. cbn in F.
    destruct F as [I E]. apply andb_true_iff in E. destruct E as [E1 E2]. apply String.eqb_eq in E1, E2. subst. exact I.
  - intros I. induction l as [|[[m m'] w] r IH]; [destruct I|]. cbn [map fst] in N. apply NoDup_cons_iff in N. destruct N as [N1 N2].
    cbn [find fst snd]. destruct (String.eqb p m && String.eqb q m')%bool eqn:E.
    + apply andb_true_iff in E. destruct E as [E1 E2]. apply String.eqb_eq in E1, E2. subst.
      destruct I as [I|I]; [injection I as ->; reflexivity|]. destruct N1. apply in_map_iff. exists (m, m', v). auto.
    + destruct I as [I|I]; [injection I as -> -> ->; rewrite !String.eqb_refl in E; discriminate|]. apply IH; assumption.
Qed.
Lemma manager_eq_iff : forall pi s o, manager_eq pi s o = Ok true <->
  m_name s = m_name o /\ m_reference s = m_reference o /\ List.length (m_nodes s) = List.length (m_nodes o) /\
  compare_nested pi (m_subs s) (m_subs o) = Ok true /\
  all_found pi (fun n => find_node n (m_nodes o)) (m_nodes s) = Ok true /\
  all_found pi (fun e => find_edge e (m_edges o)) (m_edges s) = Ok true.
Proof.
  intros pi s o. unfold manager_eq. split.
  - intros E. destruct (String.eqb (m_name s) (m_name o)) eqn:A; [apply String.eqb_eq in A|discriminate]. cbn [negb] in E.
    destruct (option_eqb (m_reference s) (m_reference o)) eqn:B; [|discriminate]. cbn [negb] in E.
    assert (B' : m_reference s = m_reference o).
    { destruct (m_reference s), (m_reference o); cbn in B; try discriminate; [apply Z.eqb_eq in B; congruence|reflexivity]. }
    destruct (Nat.eqb _ _) eqn:C in E; [apply Nat.eqb_eq in C|discriminate]. cbn [negb] in E.
    destruct (compare_nested pi (m_subs s) (m_subs o)) as [[]|] eqn:D; try discriminate. cbn [bind negb] in E.
    destruct (all_found pi (fun n => find_node n (m_nodes o)) (m_nodes s)) as [[]|] eqn:F; try discriminate. cbn [bind negb] in E.
    repeat split; assumption.
  - intros (A & B & C & D & F & G). rewrite A, B, C, D, F, String.eqb_refl, Nat.eqb_refl. cbn [negb].
    replace (option_eqb (m_reference o) (m_reference o)) with true; [exact G|].
    destruct (m_reference o); [symmetry; apply Z.eqb_refl|reflexivity].
Qed.
Lemma keys_incl : forall (K : Type) (l m : list (K * val)), NoDup (map fst l) -> List.length m <= List.length l ->
  (forall k x, In (k, x) l -> exists y, In (k, y) m) -> forall k y, In (k, y) m -> exists x, In (k, x) l.
Proof.
  intros K l m N L H k y I.
  assert (INC : incl (map fst m) (map fst l)).
  { apply NoDup_length_incl; [exact N|rewrite !map_length; exact L|]. intros q Q. apply in_map_iff in Q. destruct Q as ([q' x] & <- & Q).
    destruct (H q' x Q) as [z Z]. apply in_map_iff. exists (q', z). auto. }
  assert (Q : In k (map fst l)) by (apply INC, in_map_iff; exists (k, y); auto).
  apply in_map_iff in Q. destruct Q as ([k' x] & <- & Q). eauto.
Qed.

Lemma in_fst_unique : forall (K : Type) (l : list (K * val)) k x y, NoDup (map fst l) -> In (k, x) l -> In (k, y) l -> x = y.
Proof.
  intros K l k x y N. induction l as [|[q z] l IH]; [intros []|]. cbn [map fst] in N. apply NoDup_cons_iff in N. destruct N as [NA NB].
  intros [I|I] [J|J].
  - congruence.
  - injection I as -> ->. destruct NA. apply in_map_iff. exists (k, y). auto.
  - injection J as -> ->. destruct NA. apply in_map_iff. exists (k, x). auto.
  - exact (IH NB I J).
Qed.

(** True implies the same name, reference time, systems with equal data, and the
    transformations and subsystems of the first manager are in the second one. *)
Theorem c30_sound : forall pi s o, manager_ok s -> manager_ok o -> manager_eq pi s o = Ok true ->
  m_name s = m_name o /\ m_reference s = m_reference o /\ same_dict (m_nodes s) (m_nodes o) /\
  (forall e v, In (e, v) (m_edges s) -> exists w, In (e, w) (m_edges o) /\ equal v w) /\
  (edge_count s -> edge_count o -> same_dict (m_edges s) (m_edges o)) /\
  (empty_dict (m_subs s) \/ equal (m_subs s) (m_subs o)).
Proof.
  intros pi s o (N1 & E1 & A1 & B1 & S1) (N2 & E2 & A2 & B2 & S2) E. apply manager_eq_iff in E.
  destruct E as (EN & ER & EL & ES & EA & EE). split; [exact EN|]. split; [exact ER|].
  rewrite all_found_iff in EA, EE.
  assert (FA : forall n v, In (n, v) (m_nodes s) -> exists w, In (n, w) (m_nodes o) /\ equal v w).
  { intros n v I. destruct (EA n v I) as (w & F & C). apply find_node_iff in F; [|exact N2]. exists w. split; [exact F|].
    pose proof (A1 n v I) as OV. pose proof (A2 n w F) as OW. apply node_equal; auto.
    destruct OV as (WV & TV & i & d & -> & _). apply (c43_exact pi _ _ WV (proj1 OW) Logic.I TV). exact C. }
  assert (FE : forall e v, In (e, v) (m_edges s) -> exists w, In (e, w) (m_edges o) /\ equal v w).
  { intros e v I. destruct (EE e v I) as (w & F & C). apply find_edge_iff in F; [|exact E2]. exists w. split; [exact F|].
    destruct (B1 e v I) as [FV NV]. destruct (B2 e w F) as [FW _]. apply flat_equal; auto.
    destruct FV as (WV & _ & TV & i & d & -> & _). apply (c43_exact pi _ _ WV (proj1 FW) Logic.I TV). exact C. }
  assert (SD : forall (K : Type) (l m : list (K * val)), NoDup (map fst l) -> NoDup (map fst m) -> List.length m <= List.length l ->
    (forall k v, In (k, v) l -> exists w, In (k, w) m /\ equal v w) -> same_dict l m).
  { intros K l m NL NM L H. split.
    - intros k. split; [intros [x I]; destruct (H k x I) as (w & J & _); eauto|].
      intros [y J]. apply (keys_incl K l m NL L) with (y := y); [|exact J]. intros q x Q. destruct (H q x Q) as (w & W & _). eauto.
    - intros k x y I J. destruct (H k x I) as (w & W & Q). replace y with w; [exact Q|].
      exact (in_fst_unique _ m k w y NM W J). }
  split; [apply SD; auto; lia|]. split; [exact FE|]. split.
  - intros C1 C2. apply SD; auto. unfold edge_count in *. lia.
  - destruct (empty_dec (m_subs s)) as [ED|ND]; [left; exact ED|right]. apply flat_equal; auto.
    destruct S1 as (WS & _ & TS & i & d & EQ & _). apply (c43_exact pi (m_subs s) (m_subs o) WS (proj1 S2)); auto. rewrite EQ. exact Logic.I.
Qed.
Print Assumptions c30_sound.

(** reflexive, and complete for equal managers *)
Theorem c30_complete : forall pi s o, manager_ok s -> manager_ok o -> m_name s = m_name o -> m_reference s = m_reference o ->
  List.length (m_nodes s) = List.length (m_nodes o) -> same_dict (m_nodes s) (m_nodes o) ->
  same_dict (m_edges s) (m_edges o) -> equal (m_subs s) (m_subs o) -> manager_eq pi s o = Ok true.
Proof.
  intros pi s o (N1 & E1 & A1 & B1 & S1) (N2 & E2 & A2 & B2 & S2) EN ER EL [KN HN] [KE HE] ES.
  apply manager_eq_iff. rewrite !all_found_iff. split; [exact EN|]. split; [exact ER|]. split; [exact EL|].
  assert (CF : forall d e, flat d -> flat e -> equal d e -> compare_nested pi d e = Ok true).
  { intros d e FD FE Q. apply c43_complete; auto; [apply FD|apply FE|]. destruct FD as (_ & _ & _ & i & l & -> & _). exact Logic.I. }
  split; [apply CF; auto|]. split.
  - intros n v I. destruct (proj1 (KN n) (ex_intro _ v I)) as [w W]. exists w. split; [apply find_node_iff; assumption|].
    apply c43_complete; [apply (A1 n v I)|apply (A2 n w W)| |apply (HN n v w I W)].
    destruct (A1 n v I) as (_ & _ & i & d & -> & _). exact Logic.I.
  - intros e v I. destruct (proj1 (KE e) (ex_intro _ v I)) as [w W]. exists w. split; [apply find_edge_iff; assumption|].
    apply CF; [apply (B1 e v I)|apply (B2 e w W)|apply (HE e v w I W)].
Qed.
Print Assumptions c30_complete.
Theorem c30_reflexive : forall pi s, manager_ok s -> manager_eq pi s s = Ok true.
Proof.
  intros pi s M. pose proof M as (N1 & E1 & A1 & B1 & S1). 
  assert (U : forall (K : Type) (l : list (K * val)), NoDup (map fst l) -> (forall k v, In (k, v) l -> wf v) -> same_dict l l).
  { intros K l N W. split; [tauto|]. intros k x y I J. rewrite (in_fst_unique _ l k y x N J I). apply equal_refl. eauto. }
  apply c30_complete; auto.
  - apply U; auto. intros k v I. apply (A1 k v I).
  - apply U; auto. intros k v I. apply (B1 k v I).
  - apply equal_refl. apply S1.
Qed.
Print Assumptions c30_reflexive.
(** symmetric, if the first manager has subsystems or the second one has none *)
Theorem c30_symmetric : forall pi s o, manager_ok s -> manager_ok o -> edge_count s -> edge_count o ->
  (empty_dict (m_subs s) -> empty_dict (m_subs o)) -> manager_eq pi s o = Ok true -> manager_eq pi o s = Ok true.
Proof.
  intros pi s o MS MO CS CO SUB E. pose proof (c30_sound pi s o MS MO E) as (EN & ER & SN & _ & SE & SS).
  apply manager_eq_iff in E. destruct E as (_ & _ & EL & _).
  assert (SY : forall (K : Type) (l m : list (K * val)), same_dict l m -> same_dict m l).
  { intros K l m [A B]. split; [intros k; symmetry; apply A|]. intros k x y I J. apply equal_sym. apply (B k y x J I). }
  apply c30_complete; auto. destruct SS as [ED|Q]; [|apply equal_sym; exact Q].
  apply Eq_leaf. right. auto.
Qed.
Print Assumptions c30_symmetric.

Definition no_data (id : nat) : val := VCon CDict id [(KStr "data", VCon CDict (S id) [])].
Definition edge_attr (id c : nat) (defined : bool) : val :=
  VCon CDict id [(KStr "transformation", VOther 1 c); (KStr "defined", VOther 2 (if defined then 1 else 0))].
Definition csm (root : string) (subs : list (key * val)) : manager :=
  Manager "csm" root None [("A"%string, no_data 0); ("B"%string, no_data 2)]
    [(("A", "B"), edge_attr 10 5 false); (("B", "A"), edge_attr 11 6 true)]%string (VCon CDict 20 subs).
(** A manager without subsystems equals every manager with the same graph and any
    subsystems, but not the other way round. *)
Theorem c30_symmetric_refuted : forall pi,
  let s := csm "A" [] in
  let o := csm "A" [(KStr "sub", VOther 3 0)] in
  manager_eq pi s o = Ok true /\ manager_eq pi o s = Ok false.
Proof. intros pi. split; reflexivity. Qed.
Print Assumptions c30_symmetric_refuted.
(** the root is not compared *)
Theorem c30_root_refuted : forall pi, manager_eq pi (csm "A" []) (csm "B" []) = Ok true /\
  m_root (csm "A" []) <> m_root (csm "B" []).
Proof. intros pi. split; [reflexivity|discriminate]. Qed.
Print Assumptions c30_root_refuted.
Example c30_ex : manager_ok (csm "A" [(KStr "sub", VOther 3 0)]) /\ edge_count (csm "A" [(KStr "sub", VOther 3 0)]).
Proof.
  assert (ND : forall (A : Type) (x y : A), x <> y -> NoDup [x; y]).
  { intros A x y N. constructor; [intros [Q|[]]; auto|constructor; [intros []|constructor]]. }
  assert (N1 : forall (A : Type) (x : A), NoDup [x]) by (intros; constructor; [intros []|constructor]).
  assert (FL : forall id items, NoDup (map fst items) -> (forall k x, In (k, x) items -> ~ container x /\ ~ falsy k) -> flat (VCon CDict id items)).
  { intros id items N H. split; [|split; [|split]].
    - constructor; [exact N|intros Q; destruct Q; reflexivity|]. apply Forall_forall. intros [k x] I. destruct (H k x I) as [C _].
      cbn. destruct x; [constructor|constructor|constructor|destruct C; exact Logic.I].
    - apply plain_con; [intros _ k x I; apply (H k x I)|]. intros k x I. apply plain_atom. apply (H k x I).
    - unfold tree. cbn [ids]. replace (flat_map (fun p => ids (snd p)) items) with (@nil nat); [apply N1|].
      clear N. induction items as [|[k x] r IH]; [reflexivity|]. cbn [flat_map snd]. rewrite <- IH.
      + pose proof (proj1 (H k x (or_introl eq_refl))). destruct x; cbn in *; tauto.
      + intros k' x' I. apply (H k' x'). right. exact I.
    - exists id, items. split; [reflexivity|]. intros k x I. apply (H k x I). }
  assert (NO : forall id, node_ok (no_data id)).
  { intros id. assert (F : flat (VCon CDict (S id) [])) by (apply FL; [constructor|intros k x []]). split; [|split].
    - constructor; [apply N1|intros Q; destruct Q; reflexivity|]. constructor; [apply F|constructor].
    - unfold tree, no_data. cbn. apply ND. lia.
    - exists id, (VCon CDict (S id) []). split; [reflexivity|exact F]. }
  assert (EO : forall id c b, flat (edge_attr id c b) /\ ~ empty_dict (edge_attr id c b)).
  { intros id c b. split; [|cbn; tauto]. apply FL; [apply ND; discriminate|].
    intros k x [Q|[Q|[]]]; injection Q as <- <-; (split; [cbn; tauto|intros [F|F]; discriminate]). }
  split; [|reflexivity]. split; [apply ND; discriminate|]. split; [apply ND; discriminate|]. split; [|split].
  - intros n v [Q|[Q|[]]]; injection Q as <- <-; apply NO.
  - intros e v [Q|[Q|[]]]; injection Q as <- <-; apply EO.
  - apply FL; [apply N1|]. intros k x [Q|[]]. injection Q as <- <-. split; [cbn; tauto|intros [F|F]; discriminate].
Qed.
