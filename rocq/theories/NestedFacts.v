(** Lemmas about nested structures. *)
From Coq Require Import List String Ascii Bool Arith ZArith Lia.
From Verif Require Import Base NestedModel NestedSpec.
Import ListNotations.

Section Ind.
  Variable P : val -> Prop.
  Hypothesis HI : forall z, P (VInt z).
  Hypothesis HS : forall s, P (VStr s).
  Hypothesis HO : forall t c, P (VOther t c).
  Hypothesis HC : forall k id items, Forall (fun p => P (snd p)) items -> P (VCon k id items).
  Fixpoint val_ind2 (v : val) : P v :=
    match v with
    | VInt z => HI z
    | VStr s => HS s
    | VOther t c => HO t c
    | VCon k id items =>
        HC k id items ((fix go l : Forall (fun p => P (snd p)) l :=
          match l with
          | [] => Forall_nil _
          | p :: r => Forall_cons p (val_ind2 (snd p)) (go r)
          end) items)
    end.
End Ind.

Lemma key_eqb_eq : forall a b, key_eqb a b = true <-> a = b.
Proof.
  intros [n|s] [m|t]; cbn; split; intros H; try discriminate.
  - apply Nat.eqb_eq in H. congruence.
  - injection H as ->. apply Nat.eqb_refl.
  - apply String.eqb_eq in H. congruence.
  - injection H as ->. apply String.eqb_refl.
Qed.
Lemma lookup_in : forall k items x, lookup k items = Some x -> In (k, x) items.
Proof.
  intros k. induction items as [|[k' v] r IH]; intros x E; [discriminate|]. cbn in E.
  destruct (key_eqb k k') eqn:K; [apply key_eqb_eq in K; injection E as ->; subst; left; reflexivity|right; apply IH; exact E].
Qed.
Lemma in_lookup : forall k items x, NoDup (map fst items) -> In (k, x) items -> lookup k items = Some x.
Proof.
  intros k. induction items as [|[k' v] r IH]; intros x N I; [destruct I|]. cbn in N. inversion N as [|? ? N1 N2]; subst. cbn.
  destruct I as [E|I].
  - injection E as -> ->. rewrite (proj2 (key_eqb_eq k k) eq_refl). reflexivity.
  - destruct (key_eqb k k') eqn:K; [|apply IH; assumption].
    apply key_eqb_eq in K; subst. destruct N1. apply (in_map fst) in I. exact I.
Qed.
Lemma unique_entry : forall k (items : list (key * val)) x y, NoDup (map fst items) -> In (k, x) items -> In (k, y) items -> x = y.
Proof. intros k items x y N A B. apply in_lookup in A; [|exact N]. apply in_lookup in B; [|exact N]. congruence. Qed.
Lemma index_entry : forall w k y, wf w -> (index w k = Ok y <-> entry w k y).
Proof.
  intros w k y W. split.
  - intros E. destruct w as [z|s|t c|kd id items]; cbn in E; try discriminate.
    + destruct k as [n|]; [|discriminate]. destruct (String.get n s) eqn:G; [|discriminate]. injection E as <-. constructor. exact G.
    + constructor. destruct kd.
      * destruct k; [|discriminate]. destruct (lookup _ _) eqn:L; [|discriminate]. injection E as ->. apply lookup_in; exact L.
      * destruct k; [|discriminate]. destruct (lookup _ _) eqn:L; [|discriminate]. injection E as ->. apply lookup_in; exact L.
      * destruct (lookup _ _) eqn:L; [|discriminate]. injection E as ->. apply lookup_in; exact L.
  - intros E. destruct E as [kd id items k y I|s n c G]; [|cbn; rewrite G; reflexivity].
    inversion W as [| | |? ? ? N Q F]; subst. pose proof (in_lookup _ _ _ N I) as L.
    assert (K : kd <> CDict -> exists n, k = KInt n).
    { intros D. specialize (Q D). apply (in_map fst) in I. rewrite Q in I. apply in_map_iff in I. destruct I as (n & A & _). eauto. }
    destruct kd; cbn; [|
      |rewrite L; reflexivity]; (destruct (K ltac:(discriminate)) as [n ->]; rewrite L; reflexivity).
Qed.
Lemma entry_unique : forall w k x y, wf w -> entry w k x -> entry w k y -> x = y.
Proof. intros w k x y W A B. apply index_entry in A; [|exact W]. apply index_entry in B; [|exact W]. congruence. Qed.
Lemma entry_wf : forall w k y, wf w -> entry w k y -> wf y.
Proof.
  intros w k y W E. destruct E as [kd id items k y I|]; [|constructor]. inversion W as [| | |? ? ? _ _ F]; subst.
  rewrite Forall_forall in F. apply (F (k, y) I).
Qed.
Lemma leaf_traversed : forall v, leaf v <-> traversed v = false.
Proof. intros [| | |[] id [|p r]]; cbn; split; intros H; try discriminate; try reflexivity; try exact I; destruct H. Qed.
Lemma leaf_dec : forall v, leaf v \/ ~ leaf v.
Proof. intros v. destruct (traversed v) eqn:T; [right|left]; rewrite leaf_traversed; congruence. Qed.
Lemma compare_leaf_iff : forall x y, leaf x -> (compare_leaf x y = true <-> same_leaf x y).
Proof.
  intros x y L. unfold same_leaf. destruct x as [z|s|t c|kd id i].
  - destruct y; cbn; split; intros H; try discriminate; try (destruct H as [[_ H]|[[] _]]; discriminate).
    + apply Z.eqb_eq in H. left. split; [tauto|congruence].
    + destruct H as [[_ H]|[[] _]]. injection H as ->. apply Z.eqb_refl.
  - destruct y; cbn; split; intros H; try discriminate; try (destruct H as [[_ H]|[[] _]]; discriminate).
    + apply String.eqb_eq in H. left. split; [tauto|congruence].
    + destruct H as [[_ H]|[[] _]]. injection H as ->. apply String.eqb_refl.
  - destruct y; cbn; split; intros H; try discriminate; try (destruct H as [[_ H]|[[] _]]; discriminate).
    + apply andb_true_iff in H. destruct H as [A B]. apply Nat.eqb_eq in A, B. left. split; [tauto|congruence].
    + destruct H as [[_ H]|[[] _]]. injection H as -> ->. rewrite !Nat.eqb_refl. reflexivity.
  - destruct kd; try destruct L. destruct i; [|destruct L].
    destruct y as [| | |[] id' [|]]; cbn; split; intros H; try discriminate; try (destruct H as [[[] _]|[_ []]]; exact I); auto.
Qed.
Lemma same_leaf_l : forall x y, same_leaf x y -> leaf x.
Proof. intros x y [[A _]|[A _]]; destruct x as [| | |[] ? [|]]; cbn in *; tauto. Qed.
Lemma same_leaf_r : forall x y, same_leaf x y -> leaf y.
Proof. intros x y [[A <-]|[_ A]]; [|destruct y as [| | |[] ? [|]]; cbn in *; tauto]. destruct x; cbn in *; tauto. Qed.
Lemma same_leaf_sym : forall x y, same_leaf x y -> same_leaf y x.
Proof. intros x y [[A <-]|[A B]]; [left|right]; auto. Qed.
Lemma same_leaf_refl : forall x, leaf x -> same_leaf x x.
Proof. intros x L. destruct x as [| | |[] ? [|]]; cbn in L; try tauto; unfold same_leaf; cbn; auto. Qed.
Lemma same_leaf_trans : forall x y z, same_leaf x y -> same_leaf y z -> same_leaf x z.
Proof.
  intros x y z [[A <-]|[A B]] [[C <-]|[C D]].
  - left; auto.
  - right; auto.
  - right; auto.
  - right; auto.
Qed.

Lemma truthy_iff : forall k, truthy k = true <-> ~ falsy k.
Proof.
  intros [n|s]; unfold falsy; cbn.
  - destruct n; cbn; split; intros H; try discriminate; try reflexivity; [destruct H; auto|intros [A|A]; discriminate].
  - destruct (String.eqb s "") eqn:E; cbn; split; intros H; try discriminate.
    + apply String.eqb_eq in E. destruct H. right. congruence.
    + intros [A|A]; [discriminate|]. injection A as ->. discriminate.
    + reflexivity.
Qed.
Lemma has_key_iff : forall k items, has_key k items = true <-> exists x, In (k, x) items.
Proof.
  intros k items. unfold has_key. destruct (lookup k items) eqn:L.
  - split; [|reflexivity]. intros _. apply lookup_in in L. eauto.
  - split; [discriminate|]. intros [x I]. exfalso. induction items as [|[k' v] r IH]; [destruct I|]. cbn in L.
    destruct (key_eqb k k') eqn:K; [discriminate|]. destruct I as [E|I]; [|exact (IH L I)].
    injection E as -> ->. rewrite (proj2 (key_eqb_eq k k) eq_refl) in K. discriminate.
Qed.
Lemma entry_con : forall kd id items k x, entry (VCon kd id items) k x <-> In (k, x) items.
Proof. intros kd id items k x. split; [intros E; inversion E; assumption|constructor; assumption]. Qed.
Lemma keys_diff : forall i j, existsb (fun p : key * val => truthy (fst p) && negb (has_key (fst p) i))%bool j = false <->
  forall k, ~ falsy k -> (exists x, In (k, x) j) -> exists x, In (k, x) i.
Proof.
  intros i j. split.
  - intros E k F [x I]. apply has_key_iff. destruct (has_key k i) eqn:H; [reflexivity|exfalso].
    assert (T : existsb (fun p : key * val => truthy (fst p) && negb (has_key (fst p) i))%bool j = true).
    { apply existsb_exists. exists (k, x). split; [exact I|]. cbn. rewrite H. apply truthy_iff in F. rewrite F. reflexivity. }
    congruence.
  - intros H. destruct (existsb _ j) eqn:E; [exfalso|reflexivity]. apply existsb_exists in E. destruct E as ((k, x) & I & E).
    cbn in E. apply andb_true_iff in E. destruct E as [T N]. apply truthy_iff in T. apply negb_true_iff in N.
    rewrite (proj2 (has_key_iff k i) (H k T (ex_intro _ x I))) in N. discriminate.
Qed.
Lemma check_level_iff : forall kd id items w k y, wf w -> entry w k y ->
  (check_level (VCon kd id items) w = Ok tt <-> level_ok (VCon kd id items) w).
Proof.
  intros kd id items w k y W E. destruct E as [kd' id' j k y I|s n c G].
  - destruct kd'; cbn [check_level level_ok len size].
    + rewrite Nat.eqb_sym. destruct (Nat.eqb _ _) eqn:Q; [apply Nat.eqb_eq in Q|apply Nat.eqb_neq in Q]; split; intros; congruence.
    + rewrite Nat.eqb_sym. destruct (Nat.eqb _ _) eqn:Q; [apply Nat.eqb_eq in Q|apply Nat.eqb_neq in Q]; split; intros; congruence.
    + destruct kd; [split; [discriminate|intros []]|split; [discriminate|intros []]|].
      destruct (existsb _ j) eqn:A; cbn [orb].
      * split; [discriminate|]. intros H. assert (F : existsb (fun p : key * val => truthy (fst p) && negb (has_key (fst p) items))%bool j = false).
        { apply keys_diff. intros q F [x Q]. destruct (H q F) as [_ B]. destruct B as [z B]; [exists x; apply entry_con; exact Q|].
          exists z. apply entry_con in B. exact B. } congruence.
      * destruct (existsb _ items) eqn:B.
        -- split; [discriminate|]. intros H. assert (F : existsb (fun p : key * val => truthy (fst p) && negb (has_key (fst p) j))%bool items = false).
           { apply keys_diff. intros q F [x Q]. destruct (H q F) as [C _]. destruct C as [z C]; [exists x; apply entry_con; exact Q|].
             exists z. apply entry_con in C. exact C. } congruence.
        -- split; [|reflexivity]. intros _ q F. pose proof (proj1 (keys_diff _ _) A q F) as A'. pose proof (proj1 (keys_diff _ _) B q F) as B'.
           split; intros [x X]; apply entry_con in X; [destruct (B' (ex_intro _ x X)) as [z Z]|destruct (A' (ex_intro _ x X)) as [z Z]];
             exists z; apply entry_con; exact Z.
  - cbn [check_level level_ok len size]. rewrite Nat.eqb_sym.
    destruct (Nat.eqb _ _) eqn:Q; [apply Nat.eqb_eq in Q|apply Nat.eqb_neq in Q]; split; intros; congruence.
Qed.

(** ** the traversal *)
Section Walk.
  Variable parse_int : string -> option nat.
  Notation step := (step parse_int).
  Notation get_path := (get_path parse_int).
  Notation visit := (visit parse_int).
  Notation walk := (walk parse_int).
  Lemma step_entry : forall w k y, wf w -> entry w k y -> step w k = Ok y.
  Proof. intros w k y W E. unfold NestedModel.step. apply index_entry in E; [|exact W]. rewrite E. reflexivity. Qed.
  Lemma get_path_snoc : forall p v k, get_path v (p ++ [k]) = bind (get_path v p) (fun c => step c k).
  Proof.
    induction p as [|q p IH]; intros v k; cbn [app NestedModel.get_path].
    - cbn [bind]. destruct (step v k); reflexivity.
    - destruct (step v q); cbn [bind]; [apply IH|reflexivity].
  Qed.
  Lemma visit_iff : forall a b path kd id items w k x, wf w -> get_path a path = Ok (VCon kd id items) -> get_path b path = Ok w ->
    (visit a b path k x = Ok tt <-> exists y, entry w k y /\ (leaf x -> same_leaf x y /\ level_ok (VCon kd id items) w)).
  Proof.
    intros a b path kd id items w k x W A B. unfold NestedModel.visit. rewrite A, B. cbn [bind]. split.
    - intros E. destruct (index w k) as [y|] eqn:I; [|discriminate]. cbn [bind] in E. apply index_entry in I; [|exact W].
      exists y. split; [exact I|]. intros L. rewrite (proj1 (leaf_traversed x) L) in E.
      destruct (check_level (VCon kd id items) w) as [[]|] eqn:C; [|discriminate]. cbn [bind] in E.
      destruct (compare_leaf x y) eqn:Q; [|discriminate]. split; [apply compare_leaf_iff; assumption|].
      apply (check_level_iff _ _ _ _ _ _ W I). exact C.
    - intros (y & I & L). rewrite (proj2 (index_entry w k y W) I). cbn [bind].
      destruct (traversed x) eqn:T; [reflexivity|]. apply leaf_traversed in T. destruct (L T) as [S O].
      apply (check_level_iff _ _ _ _ _ _ W I) in O. rewrite O. cbn [bind].
      rewrite (proj2 (compare_leaf_iff x y T) S). reflexivity.
  Qed.

  (** covering structures are accepted, whatever objects are shared *)
  Lemma walk_covers : forall a b v path w reg, get_path a path = Ok v -> get_path b path = Ok w -> wf v -> wf w ->
    covers v w -> exists reg', walk a b path v reg = Ok reg'.
  Proof.
    intros a b. induction v as [z|s|t c|kd id items IH] using val_ind2; intros path w reg A B WV W C; try (inversion C; fail).
    inversion C as [? ? ? ? H]; subst. inversion WV as [| | |? ? ? N _ FW]; subst. cbn [NestedModel.walk].
    assert (G : forall l, incl l items -> forall reg, exists reg', walk_items (visit a b path)
       (fun x reg' k => walk a b (path ++ [k]) x reg') l reg = Ok reg').
    { induction l as [|[k x] l IHl]; intros IN rg; [eexists; reflexivity|]. cbn [walk_items].
      assert (IX : In (k, x) items) by (apply IN; left; reflexivity).
      destruct (H k x IX) as (y & E & L & NL).
      assert (V : visit a b path k x = Ok tt) by (apply (visit_iff a b path kd id items w k x W A B); eauto).
      assert (IN' : incl l items) by (intros q Q; apply IN; right; exact Q).
      destruct x as [z|s|t c|kd' id' j].
      - rewrite V. cbn [bind]. apply IHl; exact IN'.
      - rewrite V. cbn [bind]. apply IHl; exact IN'.
      - rewrite V. cbn [bind]. apply IHl; exact IN'.
      - destruct (nmem id' rg); [rewrite V; cbn [bind]; apply IHl; exact IN'|].
        assert (K : exists r', walk a b (path ++ [k]) (VCon kd' id' j) (id' :: rg) = Ok r').
        { destruct (leaf_dec (VCon kd' id' j)) as [LF|NF].
          - destruct kd'; try destruct LF. destruct j; [|destruct LF]. eexists; reflexivity.
          - rewrite Forall_forall in IH, FW. apply (IH (k, VCon kd' id' j) IX (path ++ [k]) y).
            + rewrite get_path_snoc, A. cbn [bind]. apply step_entry; [exact WV|]. constructor. exact IX.
            + rewrite get_path_snoc, B. cbn [bind]. apply step_entry; assumption.
            + apply (FW _ IX).
            + eapply entry_wf; eassumption.
            + apply NL; exact NF. }
        destruct K as [r' ->]. cbn [bind]. rewrite V. cbn [bind]. apply IHl; exact IN'. }
    apply G. apply incl_refl.
  Qed.

  Lemma nodup_l : forall (l m : list nat), NoDup (l ++ m) -> NoDup l.
  Proof.
    induction l as [|x l IH]; intros m N; [constructor|]. cbn in N. apply NoDup_cons_iff in N. destruct N as [A B].
    constructor; [intros I; apply A, in_or_app; auto|exact (IH m B)].
  Qed.
  Lemma nodup_r : forall (l m : list nat), NoDup (l ++ m) -> NoDup m.
  Proof. induction l as [|x l IH]; intros m N; [exact N|]. cbn in N. apply NoDup_cons_iff in N. apply IH. tauto. Qed.
  (** without shared objects nothing else is accepted *)
  Lemma nmem_iff : forall n l, nmem n l = true <-> In n l.
  Proof.
    intros n l. unfold nmem. rewrite existsb_exists. split.
    - intros (m & I & E). apply Nat.eqb_eq in E. congruence.
    - intros I. exists n. split; [exact I|apply Nat.eqb_refl].
  Qed.
  Lemma walk_reg : forall a b v path reg reg', walk a b path v reg = Ok reg' ->
    forall n, In n reg' -> In n reg \/ In n (tl (ids v)).
  Proof.
    intros a b. induction v as [z|s|t c|kd id items IH] using val_ind2; intros path reg reg' E n I;
      try (cbn in E; injection E as <-; auto; fail).
    cbn [NestedModel.walk] in E. cbn [ids tl].
    revert reg E. induction items as [|[k x] l IHl]; intros reg E; [cbn in E; injection E as <-; auto|].
    inversion IH as [|? ? IHx IHr]; subst. cbn [walk_items] in E. cbn [flat_map]. rewrite in_app_iff. cbn [snd] in *.
    assert (S : forall rg, bind (visit a b path k x) (fun _ => walk_items (visit a b path)
        (fun x reg' k => walk a b (path ++ [k]) x reg') l rg) = Ok reg' -> In n rg \/ In n (flat_map (fun p => ids (snd p)) l)).
    { intros rg Q. destruct (visit a b path k x); [|discriminate]. cbn [bind] in Q. apply (IHl IHr _ Q). }
    destruct x as [z|s|t c|kd' id' j]; try (destruct (S _ E); auto; fail).
    destruct (nmem id' reg); [destruct (S _ E); auto|].
    destruct (walk a b (path ++ [k]) (VCon kd' id' j) (id' :: reg)) as [r'|] eqn:WE; [|discriminate]. cbn [bind] in E.
    destruct (S _ E) as [Q|Q]; [|auto]. destruct (IHx _ _ _ WE n Q) as [[Z|Z]|Z]; auto.
    - subst. right. left. left. reflexivity.
    - right. left. right. exact Z.
  Qed.
  Lemma walk_exact : forall a b v path w reg reg', get_path a path = Ok v -> get_path b path = Ok w -> wf v -> wf w -> container v ->
    NoDup (ids v) -> (forall n, In n (tl (ids v)) -> ~ In n reg) -> walk a b path v reg = Ok reg' -> covers v w.
  Proof.
    intros a b. induction v as [z|s|t c|kd id items IH] using val_ind2; intros path w reg reg' A B WV W C ND FR E; try destruct C.
    constructor. cbn [NestedModel.walk] in E. inversion WV as [| | |? ? ? N _ FW]; subst.
    rewrite Forall_forall in FW, IH. cbn [ids tl] in ND, FR. apply NoDup_cons_iff in ND. destruct ND as [_ ND].
    assert (G : forall l, incl l items -> NoDup (flat_map (fun p => ids (snd p)) l) ->
      forall reg, (forall n, In n (flat_map (fun p => ids (snd p)) l) -> ~ In n reg) ->
      walk_items (visit a b path) (fun x reg' k => walk a b (path ++ [k]) x reg') l reg = Ok reg' ->
      forall k x, In (k, x) l -> exists y, entry w k y /\ (leaf x -> same_leaf x y /\ level_ok (VCon kd id items) w) /\ (~ leaf x -> covers x y)).
    { clear ND FR E reg. induction l as [|[k x] l IHl]; intros IN ND reg FR E k0 x0 I0; [destruct I0|].
      assert (IX : In (k, x) items) by (apply IN; left; reflexivity).
      assert (IN' : incl l items) by (intros q Q; apply IN; right; exact Q).
      cbn [flat_map snd] in ND, FR. cbn [walk_items] in E.
      pose proof (nodup_r _ _ ND) as NDl. pose proof (nodup_l _ _ ND) as NDx.
      assert (DJ : forall n, In n (ids x) -> ~ In n (flat_map (fun p => ids (snd p)) l)).
      { clear - ND. induction (ids x) as [|m xs IHx]; intros n I J; [destruct I|]. cbn in ND. apply NoDup_cons_iff in ND.
        destruct ND as [N1 N2]. destruct I as [->|I]; [apply N1, in_or_app; auto|exact (IHx N2 n I J)]. }
      assert (S : forall rg, (forall n, In n (flat_map (fun p => ids (snd p)) l) -> ~ In n rg) ->
        bind (visit a b path k x) (fun _ => walk_items (visit a b path) (fun x reg' k => walk a b (path ++ [k]) x reg') l rg) = Ok reg' ->
        (exists y, entry w k y /\ (leaf x -> same_leaf x y /\ level_ok (VCon kd id items) w)) /\
        (In (k0, x0) l -> exists y, entry w k0 y /\ (leaf x0 -> same_leaf x0 y /\ level_ok (VCon kd id items) w) /\ (~ leaf x0 -> covers x0 y))).
      { intros rg FR' Q. destruct (visit a b path k x) as [[]|] eqn:V; [|discriminate]. cbn [bind] in Q. split.
        - apply (visit_iff a b path kd id items w k x W A B). exact V.
        - intros J. exact (IHl IN' NDl rg FR' Q k0 x0 J). }
      assert (FRl : forall n, In n (flat_map (fun p => ids (snd p)) l) -> ~ In n reg) by (intros n J; apply FR, in_or_app; auto).
      destruct x as [z|s|t c|kd' id' j]; try (destruct (S reg FRl E) as [P1 P2];
        destruct I0 as [I0|I0]; [injection I0 as <- <-; destruct P1 as (y & P1 & P3); exists y; split; [exact P1|]; split; [exact P3|]; intros NL; destruct NL; exact Logic.I|exact (P2 I0)]; fail).
      assert (F0 : nmem id' reg = false).
      { destruct (nmem id' reg) eqn:Q; [|reflexivity]. apply nmem_iff in Q. destruct (FR id'); [left; reflexivity|exact Q]. }
      rewrite F0 in E. destruct (walk a b (path ++ [k]) (VCon kd' id' j) (id' :: reg)) as [r'|] eqn:WE; [|discriminate]. cbn [bind] in E.
      assert (FR' : forall n, In n (flat_map (fun p => ids (snd p)) l) -> ~ In n r').
      { intros n J Q. destruct (walk_reg _ _ _ _ _ _ WE n Q) as [[Z|Z]|Z].
        - subst. apply (DJ n); [left; reflexivity|exact J].
        - apply (FR n); [apply in_or_app; auto|exact Z].
        - apply (DJ n); [right; exact Z|exact J]. }
      destruct (S r' FR' E) as [(y & P1 & P3) P2]. destruct I0 as [I0|I0]; [|exact (P2 I0)].
      injection I0 as <- <-. exists y. split; [exact P1|]. split; [exact P3|]. intros _.
      apply (IH (k, VCon kd' id' j) IX (path ++ [k]) y (id' :: reg) r').
      - rewrite get_path_snoc, A. cbn [bind]. apply step_entry; [exact WV|]. constructor. exact IX.
      - rewrite get_path_snoc, B. cbn [bind]. apply step_entry; assumption.
      - apply (FW _ IX).
      - eapply entry_wf; eassumption.
      - exact Logic.I.
      - exact NDx.
      - intros n J [Z|Z]; [|apply (FR n); [apply in_or_app; left; right; exact J|exact Z]].
        subst. cbn [ids snd] in NDx. apply NoDup_cons_iff in NDx. destruct NDx as [Q _]. apply Q. exact J.
      - exact WE. }
    intros k x I. exact (G items (incl_refl _) ND reg FR E k x I).
  Qed.
  Lemma compare_iff : forall a b, wf a -> wf b -> container a -> tree a ->
    (compare_nested parse_int a b = Ok true <-> covers a b).
  Proof.
    intros a b WA WB C T. destruct a as [| | |kd id items]; try destruct C. unfold compare_nested. split.
    - intros E. destruct (NestedModel.walk parse_int (VCon kd id items) b [] (VCon kd id items) [id]) as [r|e] eqn:WE.
      + refine (walk_exact (VCon kd id items) b (VCon kd id items) [] b [id] r eq_refl eq_refl WA WB Logic.I T _ WE).
        intros n I [J|[]]. subst. unfold tree in T. cbn [ids] in T. apply NoDup_cons_iff in T. destruct T as [T _]. apply T. exact I.
      + destruct e; discriminate.
    - intros H. destruct (walk_covers (VCon kd id items) b (VCon kd id items) [] b [id] eq_refl eq_refl WA WB H) as [r ->]. reflexivity.
  Qed.
  Lemma compare_covers : forall a b, wf a -> wf b -> covers a b -> compare_nested parse_int a b = Ok true.
  Proof.
    intros a b WA WB H. destruct a as [| | |kd id items]; try (inversion H; fail). unfold compare_nested.
    destruct (walk_covers (VCon kd id items) b (VCon kd id items) [] b [id] eq_refl eq_refl WA WB H) as [r ->]. reflexivity.
  Qed.
End Walk.
