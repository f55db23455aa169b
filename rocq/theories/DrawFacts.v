(** Facts about the drawing of managers. *)
From Coq Require Import List String Bool ZArith QArith Arith Lia Lqa.
From Verif Require Import Base CsmModel CsmSpec TreeFacts CsmGraphFacts CsmTreeFacts CsmSubFacts CsmDataFacts CsmOpFacts DrawModel DrawSpec.
Import ListNotations.
Close Scope Q_scope.

Lemma dset_fresh : forall (V : Type) k (v : V) (m : dict V), ~ In k (map fst m) -> dset k v m = (m ++ [(k, v)])%list.
Proof.
  intros V k v m H. induction m as [|[a b] m IH]; [reflexivity|]. cbn in *. destruct (String.eqb_spec k a) as [->|N].
  - destruct H. auto.
  - rewrite IH; [reflexivity|]. tauto.
Qed.
Lemma dget_in : forall (V : Type) k (v : V) (m : dict V), dget k m = Some v -> In (k, v) m.
Proof.
  intros V k v m. induction m as [|[a b] m IH]; cbn; [discriminate|]. destruct (String.eqb_spec k a) as [->|N].
  - intros E. injection E as ->. auto.
  - auto.
Qed.
Lemma in_dget : forall (V : Type) k (v : V) (m : dict V), NoDup (map fst m) -> In (k, v) m -> dget k m = Some v.
Proof.
  intros V k v m. induction m as [|[a b] m IH]; cbn; intros N I; [destruct I|]. inversion N as [|? ? NI N']; subst.
  destruct I as [E|I].
  - injection E as -> ->. rewrite String.eqb_refl. reflexivity.
  - destruct (String.eqb_spec k a) as [->|NE]; [|auto]. destruct NI. apply in_map_iff. exists (a, v). auto.
Qed.

Lemma nodup_both : forall (A : Type) (l m : list A), NoDup (l ++ m)%list -> forall y, In y l -> ~ In y m.
Proof.
  intros A l m. induction l as [|a l IH]; intros N y I J; [destruct I|]. cbn in N. inversion N as [|? ? NI N']; subst.
  destruct I as [->|I]; [apply NI, in_app_iff; auto|exact (IH N' y I J)].
Qed.
Lemma nodup_right : forall (A : Type) (l m : list A), NoDup (l ++ m)%list -> NoDup m.
Proof. intros A l m. induction l as [|a l IH]; intros N; [exact N|]. cbn in N. inversion N; auto. Qed.

Section Draw.
  Context {T D : Type} {ops : LcsOps T}.
  Notation mgr := (csm T D).

  (** the children of one system *)
  Lemma put_children_spec : forall ch i lo delta level (m : dict slot), NoDup ch -> NoDup (map fst m) ->
    (forall y, In y ch -> ~ In y (map fst m)) ->
    let m' := put_children ch i lo delta level m in
    map fst m' = (map fst m ++ ch)%list /\
    forall n s, In (n, s) m' <-> In (n, s) m \/ exists j, nth_error ch j = Some n /\
      s = Slot (lo + (num (i + j) + (1 # 2)) * delta)%Q (- level) (lo + num (i + j) * delta)%Q (lo + (num (i + j) + 1) * delta)%Q.
  Proof.
    induction ch as [|a ch IH]; intros i lo delta level m N M F; cbn [put_children].
    - split; [rewrite app_nil_r; reflexivity|]. intros n s. split; [auto|]. intros [H|(j & H & _)]; [exact H|].
      destruct j; discriminate.
    - inversion N as [|? ? NI N']; subst. rewrite dset_fresh by (apply F; left; reflexivity).
      set (s0 := Slot _ _ _ _). destruct (IH (S i) lo delta level (m ++ [(a, s0)])%list) as [K E].
      + exact N'.
      + rewrite map_app. cbn [map fst]. apply NoDup_app_disjoint; [exact M|constructor; [intros []|constructor]|].
        intros y [<-|[]]. apply F. left. reflexivity.
      + intros y Y. rewrite map_app, in_app_iff. cbn [map fst In]. intros [H|[H|[]]]; [apply (F y); [right; exact Y|exact H]|].
        subst. contradiction.
      + split.
        * rewrite K, map_app. cbn [map fst]. rewrite <- app_assoc. reflexivity.
        * intros n s. rewrite E, in_app_iff. cbn [In]. split.
          -- intros [[H|[H|[]]]|(j & H & ->)]; [auto| |].
             ++ injection H as <- <-. right. exists 0%nat. split; [reflexivity|]. unfold s0. rewrite Nat.add_0_r. reflexivity.
             ++ right. exists (S j). split; [exact H|]. rewrite Nat.add_succ_r. reflexivity.
          -- intros [H|(j & H & ->)]; [auto|]. destruct j as [|j]; cbn in H.
             ++ injection H as ->. left. right. left. unfold s0. rewrite Nat.add_0_r. reflexivity.
             ++ right. exists j. split; [exact H|]. rewrite Nat.add_succ_r. reflexivity.
  Qed.

  Definition good (c : mgr) (m : dict slot) : Prop := NoDup (map fst m) /\ forall n s, In (n, s) m -> placed c n s.

  Lemma put_level_spec : forall (c : mgr) l, ctree_by c l -> forall ns level m next chs,
    incl ns (cs_names c) -> NoDup ns -> good c m -> children_of_all c ns = Ok chs ->
    (forall x, In x ns -> exists s, In (x, s) m) -> (forall x s, In x ns -> In (x, s) m -> sl_level s = (1 - level)%Z) ->
    NoDup chs -> (forall y, In y chs -> ~ In y (map fst m)) -> (forall y, In y chs -> ~ In y ns) ->
    exists m', put_level c ns level m next = Ok (m', (next ++ chs)%list) /\ good c m' /\ map fst m' = (map fst m ++ chs)%list.
  Proof.
    intros c l G. induction ns as [|x ns IH]; intros level m next chs I N GM C P L NC F Q.
    - cbn in C. injection C as <-. exists m. cbn [put_level]. rewrite !app_nil_r. auto.
    - cbn [children_of_all] in C. destruct (get_children_spec c l G x (I x (or_introl eq_refl))) as (ch & E & NCH & _).
      rewrite E in C. cbn [bind] in C. destruct (children_of_all c ns) as [rest|] eqn:R; [|discriminate]. injection C as <-.
      inversion N as [|? ? NI N']; subst. cbn [put_level]. rewrite E. cbn [bind].
      assert (NR : NoDup rest) by (apply nodup_right in NC; exact NC).
      assert (FF : forall y, In y ch \/ In y rest -> ~ In y (map fst m)) by (intros y Y; apply F; apply in_app_iff; exact Y).
      assert (QQ : forall y, In y ch \/ In y rest -> ~ In y (x :: ns)) by (intros y Y; apply Q; apply in_app_iff; exact Y).
      assert (DD : forall y, In y ch -> ~ In y rest) by (intros y Y; exact (nodup_both _ _ _ NC y Y)).
      destruct ch as [|a ch'].
      + destruct (IH level m next rest) as (m' & A & B & K); auto.
        * intros z Z. apply I. right. exact Z.
        * intros z Z. apply P. right. exact Z.
        * intros z s Z. apply L. right. exact Z.
        * intros y Y H. apply (Q y Y). right. exact H.
        * exists m'. auto.
      + cbn iota. set (ch := a :: ch') in *. clearbody ch. clear a ch'. destruct (P x (or_introl eq_refl)) as [s S].
        rewrite (in_dget _ _ _ _ (proj1 GM) S).
        set (delta := ((sl_hi s - sl_lo s) / num (List.length ch))%Q).
        destruct (put_children_spec ch 0 (sl_lo s) delta level m NCH (proj1 GM)) as [K EN].
        { intros y Y. apply FF. auto. }
        set (m1 := put_children ch 0 (sl_lo s) delta level m) in *.
        destruct (IH level m1 (next ++ ch)%list rest) as (m' & A & B & K').
        * intros z Z. apply I. right. exact Z.
        * exact N'.
        * split.
          -- rewrite K. apply NoDup_app_disjoint; [apply GM|exact NCH|]. intros y Y H. exact (FF y (or_introl Y) H).
          -- intros n t H. apply EN in H. destruct H as [H|(j & H & ->)]; [apply GM; exact H|].
             assert (LV : (- level = sl_level s - 1)%Z) by (rewrite (L x s (or_introl eq_refl) S); lia).
             rewrite LV. apply (P_child c x s ch j n); [apply GM; exact S|exact E|exact H].
        * reflexivity.
        * intros z Z. destruct (P z (or_intror Z)) as [t H]. exists t. apply EN. auto.
        * intros z t Z H. apply EN in H. destruct H as [H|(j & H & _)]; [apply (L z t (or_intror Z) H)|].
          exfalso. apply nth_error_In in H. exact (QQ z (or_introl H) (or_intror Z)).
        * exact NR.
        * intros y Y. rewrite K, in_app_iff. intros [H|H]; [exact (FF y (or_intror Y) H)|].
          exact (DD y H Y).
        * intros y Y H. exact (QQ y (or_intror Y) (or_intror H)).
        * exists m'. rewrite K', K, !app_assoc. rewrite <- app_assoc in A. rewrite A. rewrite <- !app_assoc. auto.
  Qed.

  (** ** levels *)
  Lemma placed_name : forall (c : mgr) l, ctree_by c l -> forall n s, placed c n s ->
    In n (cs_names c) /\ exists k, lev l k (c_root c) n /\ sl_level s = (- Z.of_nat k)%Z.
  Proof.
    intros c l G n s P. induction P as [|x s ch i y P [IN (k & K & L)] E H].
    - split; [apply (gt_names _ _ _ _ G); left; reflexivity|]. exists 0%nat. split; [constructor|reflexivity].
    - destruct (get_children_spec c l G x IN) as (ch' & E' & _ & C). rewrite E in E'. injection E' as <-.
      apply nth_error_In in H. apply C in H. split.
      + apply (gt_names _ _ _ _ G). apply (grows_ends _ _ (gt_grows _ _ _ _ G) _ _ H).
      + exists (S k). split; [econstructor; eassumption|]. cbn [part sl_level]. rewrite L. lia.
  Qed.

  Lemma put_levels_spec : forall (c : mgr) l, ctree_by c l -> forall fuel k cur m, List.length l < fuel + k ->
    NoDup cur -> (forall y, In y cur <-> lev l k (c_root c) y) ->
    good c m -> (forall y, In y (map fst m) <-> exists j, j <= k /\ lev l j (c_root c) y) ->
    exists m', put_levels fuel c cur (Z.of_nat k + 1) m = Ok m' /\ good c m' /\
      forall y, In y (map fst m') <-> exists j, lev l j (c_root c) y.
  Proof.
    intros c l G. assert (Gr := gt_grows _ _ _ _ G). assert (RT : In (c_root c) (cs_names c)) by (apply (gt_names _ _ _ _ G); left; reflexivity).
    induction fuel as [|fuel IH]; intros k cur m L N C GM K.
    - assert (cur = []) as ->.
      { destruct cur as [|y cur]; [reflexivity|exfalso]. assert (H : lev l k (c_root c) y) by (apply C; left; reflexivity).
        apply (lev_bound _ _ Gr) in H. lia. }
      exists m. split; [reflexivity|]. split; [exact GM|]. intros y. rewrite K. split; [intros (j & _ & H); eauto|].
      intros (j & H). exists j. split; [|exact H]. apply (lev_bound _ _ Gr) in H. lia.
    - destruct cur as [|c0 cur0] eqn:EC.
      + exists m. split; [reflexivity|]. split; [exact GM|]. intros y. rewrite K. split; [intros (j & _ & H); eauto|].
        intros (j & H). exists j. split; [|exact H]. destruct (Nat.le_gt_cases j k) as [|GT]; [assumption|exfalso].
        assert (up : forall j y, lev l j (c_root c) y -> k <= j -> exists z, lev l k (c_root c) z).
        { clear. intros j. induction j as [|j IHj]; intros y H Hle.
          - assert (k = 0) as -> by lia. eauto.
          - destruct (Nat.eq_dec (S j) k) as [E|E]; [rewrite <- E; eauto|]. inversion H; subst. eapply IHj; [eassumption|lia]. }
        destruct (up j y H) as [z Z]; [lia|]. apply C in Z. destruct Z.
      + rewrite <- EC in *. assert (INC : incl cur (cs_names c)).
        { intros y Y. apply C in Y. eapply lev_names; [exact G|exact Y|exact RT]. }
        destruct (children_of_all_spec _ _ G cur N INC) as (new & EN & NN & IN_).
        assert (IL : forall y, In y new <-> lev l (S k) (c_root c) y).
        { intros y. rewrite IN_. split.
          - intros (z & Z & H). apply C in Z. econstructor; eassumption.
          - intros H. inversion H as [|? ? z ? Z HI]; subst. exists z. split; [apply C; exact Z|exact HI]. }
        destruct (put_level_spec c l G cur (Z.of_nat k + 1) m [] new INC N GM EN) as (m' & A & B & KK).
        * intros x X. assert (H : In x (map fst m)) by (apply K; exists k; split; [lia|apply C; exact X]).
          apply in_map_iff in H. destruct H as ([a s] & <- & H). exists s. exact H.
        * intros x s X S. apply GM in S. destruct (placed_name c l G x s S) as (_ & j & J & LV).
          apply C in X. rewrite (lev_unique _ _ Gr _ _ _ X _ J) in LV. lia.
        * exact NN.
        * intros y Y H. apply IL in Y. apply K in H. destruct H as (j & LE & J). rewrite (lev_unique _ _ Gr _ _ _ Y _ J) in LE. lia.
        * intros y Y H. apply IL in Y. apply C in H. pose proof (lev_unique _ _ Gr _ _ _ Y _ H). lia.
        * assert (E : put_levels (S fuel) c cur (Z.of_nat k + 1) m = put_levels fuel c new (Z.of_nat (S k) + 1) m').
          { rewrite EC at 1. cbn [put_levels]. rewrite <- EC. rewrite A. cbn [bind fst snd app].
            replace (Z.of_nat k + 1 + 1)%Z with (Z.of_nat (S k) + 1)%Z by lia. reflexivity. }
          rewrite E. apply IH; [lia|exact NN|exact IL|exact B|]. intros y. rewrite KK, in_app_iff, K, IL. split.
          -- intros [(j & LE & J)|H]; [exists j|exists (S k)]; split; auto; lia.
          -- intros (j & LE & J). destruct (Nat.eq_dec j (S k)) as [->|]; [auto|left]. exists j. split; [lia|exact J].
  Qed.

  Lemma root_level : forall r l, grows r l -> forall x, In x (verts r l) -> exists k, lev l k r x.
  Proof.
    intros r l G x H. destruct (root_path _ _ G x H) as (p & S & _).
    apply (anc_dec_path _ _ G r x p S). destruct S as [W _]. eapply walk_in_end. exact W.
  Qed.
  Lemma child_of : forall (c : mgr) l, ctree_by c l -> forall x ch y, In x (cs_names c) -> get_children c x = Ok ch -> In y ch -> In (y, x) l.
  Proof.
    intros c l G x ch y IN E H. destruct (get_children_spec c l G x IN) as (ch' & E' & _ & C). rewrite E in E'. injection E' as <-.
    apply C. exact H.
  Qed.

  (** each system has one place *)
  Lemma placed_unique : forall (c : mgr) l, ctree_by c l -> forall n s, placed c n s -> forall t, placed c n t -> s = t.
  Proof.
    intros c l G n s P. assert (Gr := gt_grows _ _ _ _ G). induction P as [|x s ch i y P IH E H]; intros t Q.
    - inversion Q as [|x s ch i y P E H]; subst; [reflexivity|exfalso]. apply nth_error_In in H.
      destruct (placed_name c l G x s P) as [IN _]. pose proof (child_of c l G x ch (c_root c) IN E H) as K.
      apply (grows_ends _ _ Gr _ _ K). reflexivity.
    - destruct (placed_name c l G x s P) as [IN _]. assert (HY := nth_error_In _ _ H). pose proof (child_of c l G x ch y IN E HY) as K.
      inversion Q as [|x' s' ch' i' y' P' E' H']; subst.
      + exfalso. apply (grows_ends _ _ Gr _ _ K). reflexivity.
      + destruct (placed_name c l G x' s' P') as [IN' _]. assert (HY' := nth_error_In _ _ H').
        pose proof (child_of c l G x' ch' y IN' E' HY') as K'. assert (x' = x) as -> by (eapply grows_parent_unique; eassumption).
        rewrite E in E'. injection E' as <-. rewrite (IH s' P').
        destruct (get_children_spec c l G x IN) as (ch'' & E'' & N & _). rewrite E in E''. injection E'' as <-.
        assert (i' = i) as ->; [|reflexivity]. apply (proj1 (NoDup_nth_error ch) N); [|congruence].
        apply nth_error_Some. congruence.
  Qed.

  Lemma layout_spec : forall (c : mgr) l, ctree_by c l ->
    exists m, layout c = Ok m /\ good c m /\ (forall y, In y (map fst m) <-> In y (cs_names c)) /\
      forall n s, dget n m = Some s <-> placed c n s.
  Proof.
    intros c l G. assert (Gr := gt_grows _ _ _ _ G). unfold layout.
    destruct (put_levels_spec c l G (S (List.length (c_nodes c))) 0 [c_root c] [(c_root c, Slot 1 0 0 2)]) as (m & E & GM & K).
    - destruct (gtree_length _ _ _ _ G) as [LL _]. unfold cs_names, dkeys in LL. rewrite map_length in LL. lia.
    - constructor; [intros []|constructor].
    - intros y. split.
      + intros [<-|[]]. constructor.
      + intros H. inversion H; subst. left. reflexivity.
    - split; [constructor; [intros []|constructor]|]. intros n s [H|[]]. injection H as <- <-. constructor.
    - intros y. cbn [map fst In]. split.
      + intros [<-|[]]. exists 0%nat. split; [lia|constructor].
      + intros (j & LE & J). assert (j = 0) as -> by lia. inversion J; subst. left. reflexivity.
    - exists m. split; [exact E|]. split; [exact GM|]. split.
      + intros y. rewrite K. rewrite (gt_names _ _ _ _ G). split.
        * intros [j J]. apply (gt_names _ _ _ _ G). eapply lev_names; [exact G|exact J|]. apply (gt_names _ _ _ _ G). left. reflexivity.
        * intros H. apply root_level; assumption.
      + intros n s. split.
        * intros H. apply GM. apply dget_in. exact H.
        * intros P. destruct (placed_name c l G n s P) as (IN & k & J & _).
          assert (H : In n (map fst m)) by (apply K; eauto). apply in_map_iff in H. destruct H as ([a t] & HA & H). cbn in HA. subst a.
          rewrite (placed_unique c l G n s P t (proj2 GM _ _ H)). apply in_dget; [apply GM|exact H].
  Qed.

  Lemma placed_exists : forall (c : mgr) l, ctree_by c l -> forall x, In x (cs_names c) -> exists s, placed c x s.
  Proof.
    intros c l G x IN. destruct (layout_spec c l G) as (m & _ & GM & MN & _). apply MN in IN. apply in_map_iff in IN.
    destruct IN as ([a s] & <- & H). exists s. apply GM. exact H.
  Qed.

  (** ** strips *)
  Open Scope Q_scope.
  Lemma num_pos : forall k, (0 < k)%nat -> 0 < inject_Z (Z.of_nat k).
  Proof. intros k K. change 0 with (inject_Z 0). rewrite <- Zlt_Qlt. lia. Qed.
  Lemma num_le : forall i j, (i <= j)%nat -> inject_Z (Z.of_nat i) <= inject_Z (Z.of_nat j).
  Proof. intros i j K. rewrite <- Zle_Qle. lia. Qed.
  Lemma num_succ : forall i, inject_Z (Z.of_nat (S i)) == inject_Z (Z.of_nat i) + 1.
  Proof. intros i. rewrite Nat2Z.inj_succ. unfold Z.succ. rewrite inject_Z_plus. reflexivity. Qed.
  Lemma width_pos : forall s k, (0 < k)%nat -> sl_lo s < sl_hi s -> 0 < (sl_hi s - sl_lo s) / inject_Z (Z.of_nat k).
  Proof. intros s k K H. apply Qlt_shift_div_l; [apply num_pos; exact K|]. lra. Qed.
  Lemma part_shape : forall s k i, (i < k)%nat -> sl_lo s < sl_hi s ->
    sl_lo (part s k i) < sl_x (part s k i) /\ sl_x (part s k i) < sl_hi (part s k i) /\
    sl_lo s <= sl_lo (part s k i) /\ sl_hi (part s k i) <= sl_hi s.
  Proof.
    intros s k i K H. assert (KP : (0 < k)%nat) by lia. pose proof (width_pos s k KP H) as W. unfold part. cbn [sl_lo sl_x sl_hi].
    set (d := (sl_hi s - sl_lo s) / inject_Z (Z.of_nat k)) in *. pose proof (num_le 0 i (Nat.le_0_l i)) as I0. change (inject_Z (Z.of_nat 0)) with 0 in I0.
    assert (TOT : inject_Z (Z.of_nat k) * d == sl_hi s - sl_lo s).
    { unfold d. field. intros Z. pose proof (num_pos k KP). lra. }
    assert (ID : 0 <= inject_Z (Z.of_nat i) * d) by (apply Qmult_le_0_compat; lra).
    assert (LE : (inject_Z (Z.of_nat i) + 1) * d <= inject_Z (Z.of_nat k) * d).
    { rewrite <- num_succ. apply Qmult_le_compat_r; [apply num_le; lia|lra]. }
    repeat split; try lra; nra.
  Qed.
  Lemma part_apart : forall s k i j, (i < j)%nat -> (j < k)%nat -> sl_lo s < sl_hi s -> sl_hi (part s k i) <= sl_lo (part s k j).
  Proof.
    intros s k i j IJ K H. assert (KP : (0 < k)%nat) by lia. pose proof (width_pos s k KP H) as W. unfold part. cbn [sl_lo sl_x sl_hi].
    set (d := (sl_hi s - sl_lo s) / inject_Z (Z.of_nat k)) in *.
    assert (LE : (inject_Z (Z.of_nat i) + 1) * d <= inject_Z (Z.of_nat j) * d).
    { rewrite <- num_succ. apply Qmult_le_compat_r; [apply num_le; lia|lra]. }
    lra.
  Qed.

  Lemma placed_shape : forall (c : mgr) n s, placed c n s -> sl_lo s < sl_x s /\ sl_x s < sl_hi s.
  Proof.
    intros c n s P. induction P as [|x s ch i y P [A B] E H]; [cbn; split; lra|].
    assert (I : (i < List.length ch)%nat) by (apply nth_error_Some; congruence).
    destruct (part_shape s (List.length ch) i I) as (U & V & _); [lra|auto].
  Qed.
  Lemma placed_child : forall (c : mgr) l, ctree_by c l -> forall x y s t, placed c x s -> placed c y t -> In (y, x) l ->
    exists ch i, get_children c x = Ok ch /\ nth_error ch i = Some y /\ t = part s (List.length ch) i.
  Proof.
    intros c l G x y s t P Q K. destruct (placed_name c l G x s P) as [IN _].
    destruct (get_children_spec c l G x IN) as (ch & E & _ & C). apply C in K. apply In_nth_error in K. destruct K as [i K].
    exists ch, i. split; [exact E|]. split; [exact K|]. eapply placed_unique; [exact G|exact Q|]. eapply P_child; eassumption.
  Qed.
  (** everything below a system is in its strip *)
  Lemma placed_inside : forall (c : mgr) l, ctree_by c l -> forall k x y s t, lev l k x y -> placed c x s -> placed c y t ->
    sl_lo s <= sl_lo t /\ sl_hi t <= sl_hi s.
  Proof.
    intros c l G k. induction k as [|k IH]; intros x y s t L P Q; inversion L as [|? ? p ? L' K]; subst.
    - rewrite (placed_unique c l G y s P t Q). split; lra.
    - destruct (layout_spec c l G) as (m & _ & _ & MN & MP).
      destruct (placed_name c l G x s P) as [IX _].
      assert (IP : In p (cs_names c)) by (eapply lev_names; eassumption).
      destruct (placed_exists c l G p IP) as [u PP].
      destruct (IH x p s u L' P PP) as [A B].
      destruct (placed_child c l G p y u t PP Q K) as (ch & i & E & H & ->).
      assert (I : (i < List.length ch)%nat) by (apply nth_error_Some; congruence).
      destruct (placed_shape c p u PP). destruct (part_shape u (List.length ch) i I) as (_ & _ & V & W); [lra|]. split; lra.
  Qed.

  (** strips of one level do not overlap *)
  Lemma placed_apart : forall (c : mgr) l, ctree_by c l -> forall k x y s t, lev l k (c_root c) x -> lev l k (c_root c) y -> x <> y ->
    placed c x s -> placed c y t -> sl_hi s <= sl_lo t \/ sl_hi t <= sl_lo s.
  Proof.
    intros c l G k. assert (RT : In (c_root c) (cs_names c)) by (apply (gt_names _ _ _ _ G); left; reflexivity).
    induction k as [|k IH]; intros x y s t X Y N P Q; inversion X as [|? ? p ? XP XK]; subst; inversion Y as [|? ? q ? YQ YK]; subst.
    - destruct (N eq_refl).
    - assert (IP : In p (cs_names c)) by (eapply lev_names; [exact G|exact XP|exact RT]).
      assert (IQ : In q (cs_names c)) by (eapply lev_names; [exact G|exact YQ|exact RT]).
      destruct (placed_exists c l G p IP) as [u PU]. destruct (placed_exists c l G q IQ) as [v QV].
      destruct (placed_shape c p u PU) as [SU1 SU2].
      destruct (string_dec p q) as [->|NE].
      + rewrite <- (placed_unique c l G q u PU v QV) in QV.
        destruct (placed_child c l G q x u s PU P XK) as (ch & i & E & H & ->).
        destruct (placed_child c l G q y u t PU Q YK) as (ch' & j & E' & H' & ->). rewrite E in E'. injection E' as <-.
        assert (I : (i < List.length ch)%nat) by (apply nth_error_Some; congruence).
        assert (J : (j < List.length ch)%nat) by (apply nth_error_Some; congruence).
        destruct (Nat.lt_trichotomy i j) as [LT|[->|LT]].
        * left. apply part_apart; [exact LT|exact J|lra].
        * congruence.
        * right. apply part_apart; [exact LT|exact I|lra].
      + destruct (placed_inside c l G 1 p x u s) as [A1 A2]; [econstructor; [constructor|exact XK]|exact PU|exact P|].
        destruct (placed_inside c l G 1 q y v t) as [B1 B2]; [econstructor; [constructor|exact YK]|exact QV|exact Q|].
        destruct (IH p q u v XP YQ NE PU QV); [left|right]; lra.
  Qed.
  Lemma placed_level : forall (c : mgr) l, ctree_by c l -> forall n s p, placed c n s -> simple_path (linked c) n p (c_root c) ->
    sl_level s = (1 - Z.of_nat (List.length p))%Z.
  Proof.
    intros c l G n s p P W. assert (Gr := gt_grows _ _ _ _ G). apply (walk_iff _ _ (gt_adj _ _ _ _ G)) in W.
    revert p W. induction P as [|x s ch i y P IH E H]; intros p W.
    - assert (p = [c_root c]) as ->; [|reflexivity]. apply (simple_path_unique _ _ Gr (c_root c) (c_root c) p [c_root c] W).
      split; [constructor|constructor; [intros []|constructor]].
    - destruct (placed_name c l G x s P) as [IN _]. assert (HY := nth_error_In _ _ H). pose proof (child_of c l G x ch y IN E HY) as K.
      destruct (root_path_parent _ _ Gr _ _ K) as [q S]. rewrite (simple_path_unique _ _ Gr _ _ _ _ W S).
      destruct S as [S N]. inversion S as [|? b ? ? R S']; subst. inversion N as [|? ? _ N']; subst.
      destruct (walk_head _ _ _ _ S') as [q' EQ]. injection EQ as <- <-.
      cbn [part sl_level]. rewrite (IH (x :: q) (conj S' N')). cbn [List.length]. lia.
  Qed.
  Lemma placed_centre : forall (c : mgr) n s, placed c n s -> sl_x s == (sl_lo s + sl_hi s) * (1 # 2).
  Proof. intros c n s P. inversion P; subst; unfold part; cbn [sl_lo sl_x sl_hi]; [lra|]. ring. Qed.
  Close Scope Q_scope.

  (** ** edges *)
  Lemma same_edge_eq : forall a b, same_edge a b = true <-> a = b.
  Proof.
    intros [a b] [a' b']. unfold same_edge. cbn [fst snd]. rewrite Bool.andb_true_iff, !String.eqb_eq. split; [intros [-> ->]; reflexivity|].
    intros E. injection E as -> ->. auto.
  Qed.
  Lemma in_tdp : forall (c : mgr) a, In a (tdp_edges c) <-> In a (all_edges c) /\ edge_time_dependent c a = true.
  Proof. intros. apply filter_In. Qed.
  Lemma in_stc : forall (c : mgr) a, In a (stc_edges c) <-> In a (all_edges c) /\ edge_time_dependent c a = false.
  Proof.
    intros c a. unfold stc_edges. rewrite filter_In. split; intros [A B]; split; auto.
    - destruct (edge_time_dependent c a) eqn:E; [|reflexivity]. assert (H : In a (tdp_edges c)) by (apply in_tdp; auto).
      assert (X : existsb (same_edge a) (tdp_edges c) = true) by (apply existsb_exists; exists a; split; [exact H|apply same_edge_eq; reflexivity]).
      rewrite X in B. discriminate.
    - destruct (existsb (same_edge a) (tdp_edges c)) eqn:X; [|reflexivity]. apply existsb_exists in X. destruct X as (b & H & E).
      apply same_edge_eq in E. subst b. apply in_tdp in H. destruct H. congruence.
  Qed.
  Lemma in_all : forall (c : mgr) u v, In (u, v) (all_edges c) <-> exists e, In e (c_edges c) /\ e_src e = u /\ e_dst e = v /\ e_def e = false.
  Proof.
    intros c u v. unfold all_edges. rewrite in_map_iff. split.
    - intros (e & E & H). injection E as A B. apply filter_In in H. destruct H as [H F]. exists e. destruct (e_def e); [discriminate|auto].
    - intros (e & H & A & B & F). exists e. split; [congruence|]. apply filter_In. split; [exact H|]. rewrite F. reflexivity.
  Qed.
  Lemma all_nodup : forall c : mgr, is_tree c -> NoDup (all_edges c).
  Proof.
    intros c I. pose proof (tr_edges _ I) as N. unfold all_edges. revert N. generalize (c_edges c) as es. clear. intros es.
    induction es as [|e es IH]; [constructor|]. cbn [map filter]. intros N. inversion N as [|? ? H N']; subst.
    destruct (negb (e_def e)); [|auto]. cbn [map]. constructor; [|auto]. intros K. apply H.
    apply in_map_iff in K. destruct K as (x & E & K). apply filter_In in K. apply in_map_iff. exists x. split; [exact E|apply K].
  Qed.
  Lemma unique_edge : forall c : mgr, is_tree c -> forall e e', In e (c_edges c) -> In e' (c_edges c) ->
    e_src e = e_src e' -> e_dst e = e_dst e' -> e = e'.
  Proof.
    intros c I e e' H H' A B. pose proof (tr_edges _ I) as N. pose proof (find_edge_In (c_edges c) e N H) as F.
    pose proof (find_edge_In (c_edges c) e' N H') as F'. rewrite A, B in F. congruence.
  Qed.
  Lemma drawn_edges : forall c : mgr, is_tree c -> NoDup (tdp_edges c ++ stc_edges c)%list /\
    (forall u v, In (u, v) (tdp_edges c ++ stc_edges c)%list <-> exists e, In e (c_edges c) /\ e_src e = u /\ e_dst e = v /\ e_def e = false).
  Proof.
    intros c I. split.
    - assert (app : forall (a b : list (string * string)), NoDup a -> NoDup b -> (forall x, In x a -> ~ In x b) -> NoDup (a ++ b)%list).
      { clear. intros a b A B H. induction a as [|x a IH]; [exact B|]. inversion A; subst. cbn. constructor.
        - rewrite in_app_iff. intros [K|K]; [auto|]. apply (H x); [left; reflexivity|exact K].
        - apply IH; [assumption|]. intros y Y. apply H. right. exact Y. }
      apply app; [apply NoDup_filter, all_nodup, I|apply NoDup_filter, all_nodup, I|]. intros a A B. apply in_tdp in A. apply in_stc in B.
      destruct A, B. congruence.
    - intros u v. rewrite in_app_iff, in_tdp, in_stc, <- in_all. destruct (edge_time_dependent c (u, v)); intuition congruence.
  Qed.
  Lemma drawn_kind : forall c : mgr, is_tree c -> forall e, In e (c_edges c) -> e_def e = false ->
    edge_time_dependent c (e_src e, e_dst e) = match e_tr e with None => true | Some t => l_timedep t end.
  Proof.
    intros c I e H F. unfold edge_time_dependent. cbn [fst snd]. rewrite (find_edge_In (c_edges c) e (tr_edges _ I) H). reflexivity.
  Qed.
End Draw.
