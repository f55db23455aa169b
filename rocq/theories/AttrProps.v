(** Theorems about attributes of files (C133). *)
From Coq Require Import List String Bool Arith Lia.
From Verif Require Import Base AttrModel.
Import ListNotations.

(** Spec: several keys one after the other, [f["a"]["b"]] and [f.a.b]. *)
Fixpoint item_path (h : heap) (v : val) (p : list string) : res val :=
  match p with [] => Ok v | k :: q => bind (get_item h v k) (fun w => item_path h w q) end.
Fixpoint attr_path (h : heap) (v : val) (p : list string) : res val :=
  match p with [] => Ok v | k :: q => bind (get_attr h v k) (fun w => attr_path h w q) end.

(** Spec: the mappings of the memory exist and have distinct keys. *)
Definition good_items (h : heap) (its : dict val) : Prop :=
  NoDup (map fst its) /\ forall k m, In (k, Ref m) its -> m < List.length h.
Definition good (h : heap) : Prop :=
  forall r c, nth_error h r = Some c -> good_items h (c_items c).

(** * Memory *)

Lemma upd_length : forall h r c, List.length (upd h r c) = List.length h.
Proof. induction h; destruct r; cbn; intros; [reflexivity|reflexivity|reflexivity|]. now rewrite IHh. Qed.

Lemma upd_same : forall h r c, r < List.length h -> nth_error (upd h r c) r = Some c.
Proof. induction h; destruct r; cbn; intros; try lia; [reflexivity|]. apply IHh; lia. Qed.

Lemma upd_other : forall h r c i, i <> r -> nth_error (upd h r c) i = nth_error h i.
Proof.
  induction h; destruct r; cbn; intros; try reflexivity.
  - destruct i; [congruence|reflexivity].
  - destruct i; [reflexivity|]. cbn. apply IHh. congruence.
Qed.

Lemma dset_fresh : forall (d : dict val) k v, ~ In k (map fst d) -> dset k v d = d ++ [(k, v)].
Proof.
  induction d as [|[k' v'] d IH]; cbn; intros k v H; [reflexivity|].
  destruct (String.eqb_spec k k'); [exfalso; apply H; left; congruence|].
  rewrite IH; [reflexivity|]. intro Hi; apply H; right; exact Hi.
Qed.

Lemma dget_dset_same : forall (d : dict val) k v, dget k (dset k v d) = Some v.
Proof.
  induction d as [|[k' v'] d IH]; cbn; intros k v.
  - now rewrite String.eqb_refl.
  - destruct (String.eqb k k') eqn:E1; cbn; rewrite E1; [reflexivity|apply IH].
Qed.

Lemma dget_dset_other : forall (d : dict val) k k2 v, k2 <> k -> dget k2 (dset k v d) = dget k2 d.
Proof.
  induction d as [|[k' v'] d IH]; cbn; intros k k2 v H.
  - destruct (String.eqb_spec k2 k); [contradiction|reflexivity].
  - destruct (String.eqb_spec k k').
    + subst. cbn. destruct (String.eqb_spec k2 k'); [contradiction|reflexivity].
    + cbn. destruct (String.eqb k2 k'); [reflexivity|now apply IH].
Qed.

Lemma dget_filter : forall f (d : dict val) k,
  dget k (filter (fun p => f (fst p)) d) = if f k then dget k d else None.
Proof.
  induction d as [|[k' v'] d IH]; cbn; intro k; [destruct (f k); reflexivity|].
  destruct (String.eqb_spec k k') as [->|Hn].
  - destruct (f k') eqn:Ef; cbn; [now rewrite String.eqb_refl|]. rewrite IH, Ef. reflexivity.
  - destruct (f k') eqn:Ef; cbn; [|apply IH].
    destruct (String.eqb_spec k k'); [contradiction|apply IH].
Qed.

Lemma dget_in : forall (d : dict val) k v, dget k d = Some v -> In (k, v) d.
Proof.
  induction d as [|[k' v'] d IH]; cbn; intros k v H; [discriminate|].
  destruct (String.eqb_spec k k'); [left; congruence|right; now apply IH].
Qed.

Lemma items_of_good : forall h r, good h -> good_items h (items_of h r).
Proof.
  intros h r G. unfold items_of. destruct (nth_error h r) eqn:E1; [now apply (G r)|].
  split; [constructor|intros k m []].
Qed.

(** * The memory after wrapping *)

(** [m] is an [AttrDict] for the items, [lo] bounds the new objects from below. *)
Fixpoint mirror (n lo : nat) (h0 h : heap) (m : nat) (its : dict val) : Prop :=
  match n with
  | 0 => False
  | S n' =>
      lo <= m /\ exists ats, nth_error h m = Some (Cell its (Some ats)) /\
      Forall2 (fun p q => fst p = fst q /\
                 match snd p, snd q with
                 | Leaf x, Leaf y => x = y
                 | Ref a, Ref b => mirror n' (S m) h0 h b (items_of h0 a)
                 | _, _ => False
                 end) its ats
  end.

Lemma Forall2_mono : forall (A B : Type) (P Q : A -> B -> Prop) l1 l2,
  (forall a b, P a b -> Q a b) -> Forall2 P l1 l2 -> Forall2 Q l1 l2.
Proof. intros A B P Q l1 l2 H F; induction F; constructor; auto. Qed.

Lemma mirror_lt : forall n lo h0 h m its, mirror n lo h0 h m its -> m < List.length h.
Proof.
  destruct n; cbn; intros; [contradiction|].
  destruct H as [_ [ats [H _]]]. apply nth_error_Some. rewrite H. discriminate.
Qed.

Lemma mirror_ext : forall n lo h0 h h' m its,
  (forall i, lo <= i -> i < List.length h -> nth_error h' i = nth_error h i) ->
  mirror n lo h0 h m its -> mirror n lo h0 h' m its.
Proof.
  induction n; cbn; intros lo h0 h h' m its H M; [contradiction|].
  destruct M as [Hlo [ats [Hn F]]]. split; [exact Hlo|]. exists ats.
  assert (Hm : m < List.length h) by (apply nth_error_Some; rewrite Hn; discriminate).
  split; [rewrite H; assumption|].
  revert F. apply Forall2_mono. intros [k v] [k2 v2]; cbn. intros [E1 E2]. split; [exact E1|].
  destruct v, v2; try exact E2. eapply IHn; [|exact E2]. intros; apply H; lia.
Qed.

Lemma mirror_lo : forall n lo lo' h0 h m its, lo' <= lo -> mirror n lo h0 h m its -> mirror n lo' h0 h m its.
Proof. destruct n; cbn; intros; [contradiction|]. destruct H0; split; [lia|assumption]. Qed.

(** What [AttrDict(value)] does to the memory. *)
Definition makes (h0 : heap) (n : nat) (mk : heap -> dict val -> res (nat * heap)) : Prop :=
  forall h its r h', firstn (List.length h0) h = h0 -> good_items h0 its ->
    mk h its = Ok (r, h') ->
    r = List.length h /\ firstn (List.length h) h' = h /\ mirror n r h0 h' r its.

Lemma firstn_nth : forall (A : Type) (h h' : list A) i,
  firstn (List.length h) h' = h -> i < List.length h -> nth_error h' i = nth_error h i.
Proof.
  induction h; cbn; intros h' i H Hi; [lia|].
  destruct h'; cbn in H; [discriminate|]. injection H as -> H.
  destruct i; [reflexivity|]. cbn. apply IHh; [exact H|lia].
Qed.

Lemma nth_firstn : forall (A : Type) (h h' : list A),
  (forall i, i < List.length h -> nth_error h' i = nth_error h i) -> firstn (List.length h) h' = h.
Proof.
  induction h; cbn; intros h' H; [reflexivity|].
  destruct h'; [specialize (H 0 ltac:(lia)); discriminate|].
  assert (H0 := H 0 ltac:(lia)). cbn in H0. injection H0 as ->. f_equal.
  apply IHh. intros i Hi. exact (H (S i) ltac:(lia)).
Qed.

Lemma firstn_le : forall (A : Type) (h h' : list A),
  firstn (List.length h) h' = h -> List.length h <= List.length h'.
Proof.
  intros A h h' H. assert (H1 := firstn_length (List.length h) h'). rewrite H in H1. lia.
Qed.

Lemma fill_makes : forall h0 n mk, makes h0 n mk ->
  forall l its ats r h h',
    List.length h0 <= r -> firstn (List.length h0) h = h0 ->
    nth_error h r = Some (Cell its (Some ats)) ->
    NoDup (map fst l) -> (forall k, In k (map fst l) -> ~ In k (map fst ats)) ->
    (forall k m, In (k, Ref m) l -> m < List.length h0) -> good h0 ->
    fill mk r l h = Ok h' ->
    firstn r h' = firstn r h /\ List.length h <= List.length h' /\
    (forall i, r < i -> i < List.length h -> nth_error h' i = nth_error h i) /\
    exists ats2, nth_error h' r = Some (Cell its (Some (ats ++ ats2))) /\
      Forall2 (fun p q => fst p = fst q /\
                 match snd p, snd q with
                 | Leaf x, Leaf y => x = y
                 | Ref a, Ref b => mirror n (S r) h0 h' b (items_of h0 a)
                 | _, _ => False
                 end) l ats2.
Proof.
  intros h0 n mk Mk. induction l as [|[k v] l IH]; cbn [map]; intros its ats r h h' Hr H0 Hc ND Dj Rf G E1.
  - cbn in E1. injection E1 as <-. repeat split; try reflexivity; try lia.
    exists []. rewrite app_nil_r. split; [exact Hc|constructor].
  - inversion ND as [|? ? Nk ND']; subst.
    assert (Hlt : r < List.length h) by (apply nth_error_Some; rewrite Hc; discriminate).
    assert (Step : forall hm w, firstn (List.length h) hm = h ->
        bind (put_attr hm r k w) (fill mk r l) = Ok h' ->
        match v, w with
        | Leaf x, Leaf y => x = y
        | Ref a, Ref b => mirror n (S r) h0 hm b (items_of h0 a)
        | _, _ => False
        end ->
        firstn r h' = firstn r h /\ List.length h <= List.length h' /\
        (forall i, r < i -> i < List.length h -> nth_error h' i = nth_error h i) /\
        exists ats2, nth_error h' r = Some (Cell its (Some (ats ++ ats2))) /\
          Forall2 (fun p q => fst p = fst q /\
                 match snd p, snd q with
                 | Leaf x, Leaf y => x = y
                 | Ref a, Ref b => mirror n (S r) h0 h' b (items_of h0 a)
                 | _, _ => False
                 end) ((k, v) :: l) ats2).
    { intros hm w Hm B1 R1.
      assert (Hl := firstn_le _ _ _ Hm).
      assert (Hcm : nth_error hm r = Some (Cell its (Some ats)))
        by (rewrite (firstn_nth _ _ _ _ Hm Hlt); exact Hc).
      unfold put_attr in B1. rewrite Hcm in B1. cbn [bind] in B1.
      rewrite dset_fresh in B1 by (apply Dj; left; reflexivity).
      destruct (fun x1 x2 x3 x4 x5 => IH its (ats ++ [(k, w)]) r _ h' Hr x1 x2 x3 x4 x5 G B1) as [P1 [P2 [P3 [ats2 [P4 P5]]]]].
      - apply nth_firstn. intros i Hi. rewrite upd_other by lia.
        rewrite (firstn_nth _ _ _ _ Hm) by lia. apply (firstn_nth _ _ _ _ H0 Hi).
      - apply upd_same. lia.
      - exact ND'.
      - intros k2 Hk2 Hin. rewrite map_app in Hin. apply in_app_or in Hin. destruct Hin as [Hin|[Hin|[]]].
        + apply (Dj k2); [right; exact Hk2|exact Hin].
        + cbn in Hin. subst. contradiction.
      - intros k2 m Hi; apply (Rf k2); right; exact Hi.
      - rewrite upd_length in P2, P3.
        assert (P0 : forall i, r < i -> i < List.length hm -> nth_error h' i = nth_error hm i).
        { intros i H1 H2. rewrite P3 by assumption. apply upd_other. lia. }
        split; [|split; [lia|split]].
        + rewrite P1. apply (f_equal (firstn r)) in Hm.
          rewrite firstn_firstn, Nat.min_l in Hm by lia. rewrite <- Hm.
          assert (Lr : forall (l : heap) j c, firstn j (upd l j c) = firstn j l)
            by (clear; induction l; destruct j; cbn; intros; [reflexivity|reflexivity|reflexivity|f_equal; apply IHl]).
          apply Lr.
        + intros i H1 H2. rewrite P0 by lia. apply (firstn_nth _ _ _ _ Hm H2).
        + exists ((k, w) :: ats2). rewrite <- app_assoc in P4. split; [exact P4|].
          constructor; [|exact P5]. cbn. split; [reflexivity|].
          destruct v, w; try exact R1. eapply mirror_ext; [|exact R1]. intros; apply P0; lia. }
    destruct v as [x|m]; cbn [fill] in E1.
    + apply (Step h (Leaf x)); [apply firstn_all|exact E1|reflexivity].
    + assert (Em : items_of h m = items_of h0 m).
      { unfold items_of. rewrite (firstn_nth _ _ _ _ H0); [reflexivity|].
        apply (Rf k); left; reflexivity. }
      rewrite Em in E1.
      destruct (mk h (items_of h0 m)) as [[b hm]|e] eqn:Emk; [|discriminate].
      cbn [bind fst snd] in E1.
      destruct (Mk _ _ _ _ H0 (items_of_good h0 m G) Emk) as [Q1 [Q2 Q3]].
      apply (Step hm (Ref b)); [exact Q2|exact E1|].
      apply (mirror_lo n b); [lia|exact Q3].
Qed.

Lemma attr_dict_makes : forall h0 n, good h0 -> makes h0 n (attr_dict n).
Proof.
  intros h0 n G. induction n; intros h its r h' H0 Hg E1; [discriminate|].
  cbn [attr_dict] in E1.
  destruct (fill (attr_dict n) (List.length h) its (h ++ [Cell its (Some [])])) as [h2|] eqn:Ef; [|discriminate].
  cbn [bind] in E1. injection E1 as <- <-.
  assert (Hle := firstn_le _ _ _ H0).
  assert (Hn : nth_error (h ++ [Cell its (Some [])]) (List.length h) = Some (Cell its (Some []))).
  { rewrite nth_error_app2, Nat.sub_diag by lia. reflexivity. }
  assert (H00 : firstn (List.length h0) (h ++ [Cell its (Some [])]) = h0).
  { rewrite firstn_app, H0. replace (List.length h0 - List.length h) with 0 by lia.
    cbn. apply app_nil_r. }
  destruct Hg as [Hd Hr].
  destruct (fill_makes h0 n _ IHn its its [] _ _ _ Hle H00 Hn Hd (fun _ _ F => F) Hr G Ef) as [P1 [_ [_ [ats [P4 P5]]]]].
  split; [reflexivity|split].
  - rewrite P1, firstn_app, Nat.sub_diag, firstn_all. cbn. apply app_nil_r.
  - cbn [mirror]. split; [lia|]. exists ats. split; [exact P4|exact P5].
Qed.

Lemma good_filter : forall h f its, good_items h its -> good_items h (filter f its).
Proof.
  intros h f its [H1 H2]. split.
  - clear H2. induction its as [|[k v] l IH]; [constructor|].
    cbn in H1 |- *. inversion H1; subst. destruct (f (k, v)); cbn; [|now apply IH].
    constructor; [|now apply IH]. intro Hi. apply H2.
    apply in_map_iff in Hi as [[a b] [E1 E2]]. apply filter_In in E2 as [E2 _].
    apply in_map_iff. exists (a, b). split; assumption.
  - intros k m Hi. apply filter_In in Hi as [Hi _]. now apply (H2 k).
Qed.

(** * Reading *)

Lemma mirror_get : forall n lo h0 h m its k, mirror (S n) lo h0 h m its ->
  match dget k its with
  | Some (Leaf x) => get_attr h (Ref m) k = Ok (Leaf x)
  | Some (Ref a) => exists b, get_attr h (Ref m) k = Ok (Ref b) /\ mirror n (S m) h0 h b (items_of h0 a)
  | None => get_attr h (Ref m) k = Err AttributeError
  end.
Proof.
  intros n lo h0 h m its k M. cbn [mirror] in M. destruct M as [_ [ats [Hn F]]].
  unfold get_attr. rewrite Hn. clear Hn. induction F as [|[k1 v1] [k2 v2] l1 l2 [E1 E2] F IH]; [reflexivity|].
  cbn in E1, E2 |- *. subst k2. destruct (String.eqb k k1); [|exact IH].
  destruct v1 as [x|a], v2 as [y|b]; try contradiction; [congruence|].
  exists b. split; [reflexivity|exact E2].
Qed.

Lemma mirror_items : forall n lo h0 h m its, mirror n lo h0 h m its -> items_of h m = its /\ lo <= m.
Proof.
  destruct n; cbn; intros; [contradiction|]. destruct H as [H1 [ats [H2 _]]].
  unfold items_of. rewrite H2. split; [reflexivity|exact H1].
Qed.

(** Spec: the value found through attributes for a value found through items. *)
Definition shows (h0 h : heap) (v w : val) : Prop :=
  match v, w with
  | Leaf x, Leaf y => x = y
  | Ref a, Ref b => List.length h0 <= b /\ items_of h b = items_of h0 a
  | _, _ => False
  end.

Lemma mirror_path : forall p n lo h0 h m a, List.length h0 <= lo -> mirror n lo h0 h m (items_of h0 a) ->
  match item_path h0 (Ref a) p with
  | Ok v => exists w, attr_path h (Ref m) p = Ok w /\ shows h0 h v w
  | Err _ => attr_path h (Ref m) p = Err AttributeError
  end.
Proof.
  induction p as [|k p IH]; intros n lo h0 h m a Hlo M.
  - cbn. exists (Ref m). split; [reflexivity|]. destruct (mirror_items _ _ _ _ _ _ M). split; [lia|assumption].
  - destruct n; [contradiction|].
    assert (Mg := mirror_get n lo h0 h m _ k M). destruct (mirror_items _ _ _ _ _ _ M) as [_ Hm].
    cbn [item_path attr_path]. unfold get_item.
    destruct (dget k (items_of h0 a)) as [[x|b]|].
    + cbn [bind]. rewrite Mg. cbn [bind]. destruct p as [|k2 p2]; cbn.
      * exists (Leaf x). split; reflexivity.
      * reflexivity.
    + cbn [bind]. destruct Mg as [b2 [E1 M2]]. rewrite E1. cbn [bind].
      apply (IH n (S m)); [lia|exact M2].
    + cbn [bind]. rewrite Mg. reflexivity.
Qed.

(** Through attributes one finds what one finds through the items of the file, at every
    depth: the same value, or a new dictionary with the same items instead of a mapping;
    missing and protected keys are no attributes. *)
Theorem c133_read : forall fuel protected h tree a h' k p, good h ->
  as_attr fuel protected h tree = Ok (a, h') ->
  if smem k protected then attr_path h' (Ref a) (k :: p) = Err AttributeError
  else match item_path h (Ref tree) (k :: p) with
       | Ok v => exists w, attr_path h' (Ref a) (k :: p) = Ok w /\ shows h h' v w
       | Err _ => attr_path h' (Ref a) (k :: p) = Err AttributeError
       end.
Proof.
  intros fuel protected h tree a h' k p G E1. unfold as_attr in E1.
  destruct (attr_dict_makes h fuel G _ _ _ _ (firstn_all h) (good_filter h _ _ (items_of_good h tree G)) E1) as [-> [_ M]].
  destruct fuel; [discriminate|].
  assert (Mg := mirror_get _ _ _ _ _ _ k M).
  rewrite (dget_filter (fun x => negb (smem x protected))) in Mg.
  cbn [item_path attr_path]. unfold get_item.
  destruct (smem k protected); cbn [negb] in Mg; [now rewrite Mg|].
  destruct (dget k (items_of h tree)) as [[x|b]|].
  - rewrite Mg. cbn [bind]. destruct p as [|k2 p2]; cbn; [|reflexivity].
    exists (Leaf x). split; reflexivity.
  - destruct Mg as [b2 [E2 M2]]. rewrite E2. cbn [bind].
    eapply mirror_path; [|exact M2]. lia.
  - rewrite Mg. reflexivity.
Qed.
Print Assumptions c133_read.

(** No object that existed before is changed; the items of the result are those of the
    file (the same objects) without the protected ones. *)
Theorem c133_items : forall fuel protected h tree a h', good h ->
  as_attr fuel protected h tree = Ok (a, h') ->
  firstn (List.length h) h' = h /\ List.length h <= a /\
  forall k, get_item h' (Ref a) k
            = if smem k protected then Err KeyError else get_item h (Ref tree) k.
Proof.
  intros fuel protected h tree a h' G E1. unfold as_attr in E1.
  destruct (attr_dict_makes h fuel G _ _ _ _ (firstn_all h) (good_filter h _ _ (items_of_good h tree G)) E1) as [-> [P1 M]].
  split; [exact P1|split; [lia|]]. intro k.
  destruct (mirror_items _ _ _ _ _ _ M) as [E2 _]. unfold get_item. rewrite E2.
  rewrite (dget_filter (fun x => negb (smem x protected))). destruct (smem k protected); reflexivity.
Qed.
Print Assumptions c133_items.

(** Setting an attribute changes this attribute and no item of any object. *)
Theorem c133_set_attribute : forall h r k v h', put_attr h r k v = Ok h' ->
  get_attr h' (Ref r) k = Ok v /\
  (forall w k2, (w, k2) <> (Ref r, k) -> get_attr h' w k2 = get_attr h w k2) /\
  forall w p, item_path h' w p = item_path h w p.
Proof.
  intros h r k v h' E1. unfold put_attr in E1.
  destruct (nth_error h r) as [[its [ats|]]|] eqn:Hn; try discriminate. injection E1 as <-.
  assert (Hr : r < List.length h) by (apply nth_error_Some; rewrite Hn; discriminate).
  split; [|split].
  - cbn. rewrite upd_same, dget_dset_same by exact Hr. reflexivity.
  - intros w k2 Hne. destruct w as [x|m]; [reflexivity|]. cbn.
    destruct (Nat.eq_dec m r) as [->|Hm]; [|now rewrite upd_other].
    rewrite upd_same, Hn, dget_dset_other by (congruence || exact Hr). reflexivity.
  - intros w p. revert w. induction p as [|k2 p IH]; intro w; [reflexivity|]. cbn [item_path].
    replace (get_item (upd h r (Cell its (Some (dset k v ats)))) w k2) with (get_item h w k2).
    + destruct (get_item h w k2); [apply IH|reflexivity].
    + destruct w as [x|m]; [reflexivity|]. unfold get_item, items_of.
      destruct (Nat.eq_dec m r) as [->|Hm]; [|now rewrite upd_other].
      now rewrite upd_same, Hn by exact Hr.
Qed.
Print Assumptions c133_set_attribute.

(** Setting an item changes no attribute. *)
Theorem c133_set_item : forall h r k v h', put_item h r k v = Ok h' ->
  get_item h' (Ref r) k = Ok v /\
  (forall w k2, (w, k2) <> (Ref r, k) -> get_item h' w k2 = get_item h w k2) /\
  forall w p, attr_path h' w p = attr_path h w p.
Proof.
  intros h r k v h' E1. unfold put_item in E1.
  destruct (nth_error h r) as [[its ats]|] eqn:Hn; try discriminate. injection E1 as <-.
  assert (Hr : r < List.length h) by (apply nth_error_Some; rewrite Hn; discriminate).
  split; [|split].
  - cbn. unfold items_of. rewrite upd_same by exact Hr. cbn. now rewrite dget_dset_same.
  - intros w k2 Hne. destruct w as [x|m]; [reflexivity|]. cbn. unfold items_of.
    destruct (Nat.eq_dec m r) as [->|Hm]; [|now rewrite upd_other].
    rewrite upd_same, Hn by exact Hr. cbn. rewrite dget_dset_other by congruence. reflexivity.
  - intros w p. revert w. induction p as [|k2 p IH]; intro w; [reflexivity|]. cbn [attr_path].
    replace (get_attr (upd h r (Cell (dset k v its) ats)) w k2) with (get_attr h w k2).
    + destruct (get_attr h w k2); [apply IH|reflexivity].
    + destruct w as [x|m]; [reflexivity|]. unfold get_attr.
      destruct (Nat.eq_dec m r) as [->|Hm]; [|now rewrite upd_other].
      now rewrite upd_same, Hn by exact Hr.
Qed.
Print Assumptions c133_set_item.

Lemma attr_dict_S : forall n h its, attr_dict (S n) h its
  = bind (fill (attr_dict n) (List.length h) its (h ++ [Cell its (Some [])])) (fun h' => Ok (List.length h, h')).
Proof. reflexivity. Qed.

(** Files whose mappings do not contain themselves can always be wrapped: with ranks that
    decrease from mappings to the mappings inside. *)
Lemma attr_dict_total : forall h0 rank, good h0 ->
  (forall r k m, In (k, Ref m) (items_of h0 r) -> rank m < rank r) ->
  forall n h its, firstn (List.length h0) h = h0 -> good_items h0 its ->
    (forall k m, In (k, Ref m) its -> rank m < n) ->
    exists r h', attr_dict (S n) h its = Ok (r, h').
Proof.
  intros h0 rank G Rk. induction n; intros h its H0 Hg Hn.
  - exists (List.length h). cbn [attr_dict].
    assert (Fl : forall l its2 ats h2, nth_error h2 (List.length h) = Some (Cell its2 (Some ats)) ->
              (forall k m, ~ In (k, Ref m) l) -> exists h3, fill (fun _ _ => Err OutOfFuel) (List.length h) l h2 = Ok h3).
    { induction l as [|[k [x|m]] l IH]; intros its2 ats h2 Hc Hno; cbn [fill].
      - exists h2; reflexivity.
      - unfold put_attr. rewrite Hc. cbn [bind].
        eapply IH; [apply upd_same; apply nth_error_Some; rewrite Hc; discriminate|].
        intros k2 m Hi; apply (Hno k2 m); right; exact Hi.
      - exfalso. apply (Hno k m). left; reflexivity. }
    destruct (Fl its its [] (h ++ [Cell its (Some [])])) as [h3 E3].
    + rewrite nth_error_app2, Nat.sub_diag by lia. reflexivity.
    + intros k m Hi. specialize (Hn k m Hi). lia.
    + exists h3. change (attr_dict 0) with (fun (_ : heap) (_ : dict val) => @Err (nat * heap) OutOfFuel).
      rewrite E3. reflexivity.
  - exists (List.length h). rewrite attr_dict_S.
    assert (Hle := firstn_le _ _ _ H0).
    assert (Fl : forall l its2 ats h2, nth_error h2 (List.length h) = Some (Cell its2 (Some ats)) ->
              firstn (List.length h0) h2 = h0 ->
              (forall k m, In (k, Ref m) l -> rank m < S n /\ m < List.length h0) ->
              exists h3, fill (attr_dict (S n)) (List.length h) l h2 = Ok h3).
    { induction l as [|[k [x|m]] l IH]; intros its2 ats h2 Hc Hf Hno; cbn [fill].
      - exists h2; reflexivity.
      - unfold put_attr. rewrite Hc. cbn [bind].
        eapply IH; [apply upd_same; apply nth_error_Some; rewrite Hc; discriminate| |].
        + apply nth_firstn. intros i Hi. rewrite upd_other by lia. now apply firstn_nth.
        + intros k2 m Hi; apply (Hno k2 m); right; exact Hi.
      - assert (Hm : rank m < S n /\ m < List.length h0) by (apply (Hno k m); left; reflexivity).
        destruct Hm as [Hm Hml].
        replace (items_of h2 m) with (items_of h0 m)
          by (unfold items_of; rewrite (firstn_nth _ _ _ _ Hf Hml); reflexivity).
        destruct (IHn h2 (items_of h0 m) Hf (items_of_good h0 m G)) as [b [hm Eb]].
        { intros k2 m2 Hi. specialize (Rk m k2 m2 Hi). lia. }
        rewrite Eb. cbn [bind fst snd].
        destruct (attr_dict_makes h0 (S n) G _ _ _ _ Hf (items_of_good h0 m G) Eb) as [_ [Q2 _]].
        assert (Hc2 : nth_error hm (List.length h) = Some (Cell its2 (Some ats))).
        { rewrite (firstn_nth _ _ _ _ Q2); [exact Hc|]. apply nth_error_Some. rewrite Hc. discriminate. }
        unfold put_attr. rewrite Hc2. cbn [bind].
        eapply IH; [apply upd_same; apply nth_error_Some; rewrite Hc2; discriminate| |].
        + apply nth_firstn. intros i Hi. rewrite upd_other by lia.
          rewrite (firstn_nth _ _ _ _ Q2) by (assert (Z := firstn_le _ _ _ Hf); lia). now apply firstn_nth.
        + intros k2 m2 Hi; apply (Hno k2 m2); right; exact Hi. }
    destruct (Fl its its [] (h ++ [Cell its (Some [])])) as [h3 E3].
    + rewrite nth_error_app2, Nat.sub_diag by lia. reflexivity.
    + rewrite firstn_app, H0. replace (List.length h0 - List.length h) with 0 by lia. cbn. apply app_nil_r.
    + intros k m Hi. split; [exact (Hn k m Hi)|]. destruct Hg as [_ Hg]. exact (Hg k m Hi).
    + exists h3. rewrite E3. reflexivity.
Qed.

Theorem c133_total : forall rank protected h tree, good h ->
  (forall r k m, In (k, Ref m) (items_of h r) -> rank m < rank r) ->
  exists a h', as_attr (S (rank tree)) protected h tree = Ok (a, h').
Proof.
  intros rank protected h tree G Rk. unfold as_attr.
  apply (attr_dict_total h rank G Rk); [apply firstn_all|apply good_filter, items_of_good, G|].
  intros k m Hi. apply filter_In in Hi as [Hi _]. now apply (Rk tree k).
Qed.
Print Assumptions c133_total.

(** The file of the example in the documentation, with a protected entry and one mapping
    under two names. *)
Local Open Scope string_scope.
Definition ex_file : heap :=
  [Cell [("welder", Leaf 1)] None; Cell [("history", Leaf 2); ("wx_meta", Ref 0); ("copy", Ref 0)] None].
Example ex_c133 : good ex_file /\
  exists a h, as_attr 5 ["history"] ex_file 1 = Ok (a, h) /\
    attr_path h (Ref a) ["wx_meta"; "welder"] = Ok (Leaf 1) /\
    attr_path h (Ref a) ["history"] = Err AttributeError.
Proof.
  split.
  - intros [|[|r]] c H; cbn in H; [| |destruct r; discriminate]; injection H as <-; split.
    + repeat constructor; cbn; intuition discriminate.
    + intros k m [H|[]]; discriminate.
    + repeat constructor; cbn; intuition discriminate.
    + intros k m [H|[H|[H|[]]]]; try discriminate; injection H as _ <-; cbn; lia.
  - eexists _, _. split; [vm_compute; reflexivity|]. split; vm_compute; reflexivity.
Qed.

(** "We can also change the data easily": false, the assignment of the documented example
    changes neither the file nor the items of the wrapped file. *)
Theorem c133_change_refuted :
  ~ (forall protected h tree a h1 m h2 k1 k2 v, good h ->
       as_attr 5 protected h tree = Ok (a, h1) ->
       attr_path h1 (Ref a) [k1] = Ok (Ref m) -> put_attr h1 m k2 v = Ok h2 ->
       item_path h2 (Ref tree) [k1; k2] = Ok v \/ item_path h2 (Ref a) [k1; k2] = Ok v).
Proof.
  intro H.
  specialize (H ["history"] ex_file 1 2 _ 3 _ "wx_meta" "welder" (Leaf 9) (proj1 ex_c133) eq_refl eq_refl eq_refl).
  vm_compute in H. destruct H; discriminate.
Qed.
Print Assumptions c133_change_refuted.

(** Changes of the file are not visible through attributes ... *)
Theorem c133_follow_refuted :
  ~ (forall protected h tree a h1 m h2 k1 k2 v, good h ->
       as_attr 5 protected h tree = Ok (a, h1) ->
       item_path h1 (Ref tree) [k1] = Ok (Ref m) -> put_item h1 m k2 v = Ok h2 ->
       smem k1 protected = false ->
       attr_path h2 (Ref a) [k1; k2] = Ok v).
Proof.
  intro H.
  specialize (H ["history"] ex_file 1 2 _ 0 _ "wx_meta" "welder" (Leaf 9) (proj1 ex_c133) eq_refl eq_refl eq_refl eq_refl).
  vm_compute in H. discriminate.
Qed.
Print Assumptions c133_follow_refuted.

(** ... but through the items of the wrapped file, which are the mappings of the file. *)
Theorem c133_shared_items : forall fuel protected h tree a h1 m h2 k1 k2 v, good h ->
  as_attr fuel protected h tree = Ok (a, h1) ->
  smem k1 protected = false -> item_path h (Ref tree) [k1] = Ok (Ref m) -> m <> tree ->
  tree < List.length h -> put_item h1 m k2 v = Ok h2 ->
  item_path h2 (Ref tree) [k1; k2] = Ok v /\ item_path h2 (Ref a) [k1; k2] = Ok v.
Proof.
  intros fuel protected h tree a h1 m h2 k1 k2 v G E1 Hk Em Hm Ht E2.
  destruct (c133_items _ _ _ _ _ _ G E1) as [F [La Hi]]. specialize (Hi k1). rewrite Hk in Hi.
  cbn [item_path] in Em. destruct (get_item h (Ref tree) k1) as [w|] eqn:Eg; [|discriminate].
  cbn in Em. injection Em as ->.
  destruct (c133_set_item _ _ _ _ _ E2) as [S1 [S2 _]].
  assert (Et : get_item h1 (Ref tree) k1 = Ok (Ref m)).
  { rewrite <- Eg. unfold get_item, items_of. now rewrite (firstn_nth _ _ _ _ F Ht). }
  assert (Hml : m < List.length h).
  { unfold get_item in Eg. destruct (dget k1 (items_of h tree)) eqn:Ed; [|discriminate].
    injection Eg as ->. destruct (items_of_good h tree G) as [_ Z]. apply (Z k1). now apply dget_in. }
  cbn [item_path]. split.
  - rewrite S2 by congruence. rewrite Et. cbn [bind]. rewrite S1. reflexivity.
  - rewrite S2 by (intro Z; injection Z as Z _; lia). rewrite Hi. cbn [bind]. rewrite S1. reflexivity.
Qed.
Print Assumptions c133_shared_items.

(** One mapping under two names becomes two dictionaries. *)
Theorem c133_same_refuted :
  ~ (forall protected h tree a h1 k1 k2, good h ->
       as_attr 5 protected h tree = Ok (a, h1) ->
       smem k1 protected = false -> smem k2 protected = false ->
       item_path h (Ref tree) [k1] = item_path h (Ref tree) [k2] ->
       attr_path h1 (Ref a) [k1] = attr_path h1 (Ref a) [k2]).
Proof.
  intro H.
  specialize (H ["history"] ex_file 1 2 _ "wx_meta" "copy" (proj1 ex_c133) eq_refl eq_refl eq_refl eq_refl).
  vm_compute in H. discriminate.
Qed.
Print Assumptions c133_same_refuted.

(** Plain values have no items and no attributes: paths that go on below them are errors,
    of different kinds. *)
Theorem c133_leaf : forall h x k p,
  item_path h (Leaf x) (k :: p) = Err TypeError /\ attr_path h (Leaf x) (k :: p) = Err AttributeError.
Proof. split; reflexivity. Qed.
Print Assumptions c133_leaf.
