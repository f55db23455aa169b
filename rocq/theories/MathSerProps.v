(** Properties of saved mathematical expressions (C137). *)
From Coq Require Import List String Bool Arith Lia.
From Verif Require Import Base MathSerModel.
Import ListNotations.
Open Scope string_scope.

(** ** Specification *)
(** The object a parameter consists of, and the objects of the arrays. *)
Definition data_of (p : param) : nat := match p with PQ r => r | PA _ r _ => r end.
Definition arrays (ps : dict param) : list nat :=
  flat_map (fun kp => match snd kp with PA _ r _ => [r] | PQ _ => [] end) ps.
Definition quantities (ps : dict param) : list nat :=
  flat_map (fun kp => match snd kp with PQ r => [r] | PA _ _ _ => [] end) ps.

Section Spec.
  Context {V Ex : Type} (ndim : V -> nat) (show : Ex -> string) (parse : string -> res Ex) (free : Ex -> list string).
  Notation memory := (list (qobj V)).
  Notation saved x m := (fst (fst (save show x m))).
  Notation after x m := (snd (fst (save show x m))).
  Notation warnings x m := (snd (save show x m)).
  Notation reload keep x m := (load ndim parse free keep (saved x m) (after x m)).

  (** The value of a parameter. *)
  Definition value_at (m : memory) (r : nat) (v : V) : Prop := exists d, nth_error m r = Some (Obj v d).
  Definition means (m : memory) (p : param) (l : value V) : Prop :=
    match p with
    | PQ r => exists v, value_at m r v /\ l = LQ v
    | PA dims r _ => exists v, value_at m r v /\ l = LA dims v
    end.
  (** Every object exists, names occur in the expression, dimensions fit the data. *)
  Definition sound (x : expr Ex) (m : memory) : Prop :=
    forall k p, In (k, p) (x_params x) -> In k (free (x_expr x)) /\
      exists v, value_at m (data_of p) v /\ (forall ds r c, p = PA ds r c -> List.length ds = ndim v).
  (** The data of arrays is not used elsewhere in the expression, the quantities have no
      metadata. *)
  Definition separate (x : expr Ex) (m : memory) : Prop :=
    NoDup (arrays (x_params x)) /\
    (forall r, In r (quantities (x_params x)) -> ~ In r (arrays (x_params x)) /\
       forall o, nth_error m r = Some o -> o_meta o = None).

  (** ** Lemmas *)
  Lemma set_meta_len : forall (m : memory) r d, List.length (set_meta m r d) = List.length m.
  Proof. induction m as [|o m IH]; intros [|r] d; cbn; auto. Qed.
  Lemma set_meta_nth : forall (m : memory) r d q, nth_error (set_meta m r d) q =
    match nth_error m q with
    | Some o => Some (if Nat.eqb q r then Obj (o_val o) d else o)
    | None => None
    end.
  Proof.
    induction m as [|o m IH]; intros [|r] d [|q]; cbn; auto.
    destruct (nth_error m q); reflexivity.
  Qed.

  Lemma save_cons : forall k p t (m : memory), save_params ((k, p) :: t) m =
    let m1 := match p with PA ds r _ => set_meta m r (Some (MDims ds)) | PQ _ => m end in
    ((k, data_of p) :: fst (fst (save_params t m1)), snd (fst (save_params t m1)),
     match p with PA _ _ (S _) => S (snd (save_params t m1)) | _ => snd (save_params t m1) end).
  Proof.
    intros k [r|ds r c] t m; cbn.
    - destruct (save_params t m) as [[d m'] w]. reflexivity.
    - destruct (save_params t (set_meta m r (Some (MDims ds)))) as [[d m'] w]. destruct c; reflexivity.
  Qed.

  Lemma save_keys : forall ps (m : memory), fst (fst (save_params ps m)) = map (fun kp => (fst kp, data_of (snd kp))) ps.
  Proof.
    induction ps as [|[k p] t IH]; intros m; [reflexivity|]. rewrite save_cons. cbn [fst snd map]. now rewrite IH.
  Qed.

  (** Dimensions of the last array with this object. *)
  Definition last_dims (ps : dict param) (r : nat) : option (list string) :=
    fold_left (fun a kp => match snd kp with PA ds q _ => if Nat.eqb r q then Some ds else a | PQ _ => a end) ps None.
  Definition last_from (a : option (list string)) (ps : dict param) (r : nat) : option (list string) :=
    fold_left (fun a kp => match snd kp with PA ds q _ => if Nat.eqb r q then Some ds else a | PQ _ => a end) ps a.

  Lemma last_from_none : forall ps r a, last_from a ps r = match last_dims ps r with Some d => Some d | None => a end.
  Proof.
    unfold last_dims, last_from. induction ps as [|[k p] t IH]; intros r a; [reflexivity|].
    cbn [fold_left snd]. destruct p as [q|ds q c]; [apply IH|].
    destruct (Nat.eqb r q); [|apply IH].
    rewrite (IH r (Some ds)). destruct (fold_left _ t None); reflexivity.
  Qed.

  Lemma save_mem : forall ps (m : memory) r, nth_error (snd (fst (save_params ps m))) r =
    match nth_error m r with
    | Some o => Some (match last_dims ps r with Some ds => Obj (o_val o) (Some (MDims ds)) | None => o end)
    | None => None
    end.
  Proof.
    induction ps as [|[k p] t IH]; intros m r.
    - cbn. destruct (nth_error m r); reflexivity.
    - rewrite save_cons. cbn [fst snd]. rewrite IH.
      assert (L : last_dims ((k, p) :: t) r = last_from (match p with PA ds q _ => if Nat.eqb r q then Some ds else None | PQ _ => None end) t r).
      { destruct p; reflexivity. }
      rewrite L, last_from_none. destruct p as [q|ds q c].
      + destruct (nth_error m r), (last_dims t r); reflexivity.
      + rewrite set_meta_nth. destruct (nth_error m r) as [o|]; [|reflexivity].
        destruct (Nat.eqb r q), (last_dims t r); reflexivity.
  Qed.

  Lemma last_some : forall ps r, last_dims ps r <> None <-> In r (arrays ps).
  Proof.
    induction ps as [|[k p] t IH]; intros r; [cbn; tauto|].
    assert (L : last_dims ((k, p) :: t) r = last_from (match p with PA ds q _ => if Nat.eqb r q then Some ds else None | PQ _ => None end) t r).
    { destruct p; reflexivity. }
    rewrite L, last_from_none. unfold arrays. cbn [flat_map snd]. fold (arrays t). specialize (IH r).
    destruct p as [q|ds q c]; cbn [app].
    - destruct (last_dims t r); tauto.
    - cbn [In]. destruct (Nat.eqb_spec r q) as [->|Hq].
      + split; [tauto|]. intros _. destruct (last_dims t q); discriminate.
      + destruct (last_dims t r); [|split]; intuition congruence.
  Qed.

  Lemma last_uniq : forall ps, NoDup (arrays ps) -> forall k ds r c, In (k, PA ds r c) ps -> last_dims ps r = Some ds.
  Proof.
    induction ps as [|[k p] t IH]; intros ND k' ds r c Hin; [destruct Hin|].
    assert (L : last_dims ((k, p) :: t) r = last_from (match p with PA ds q _ => if Nat.eqb r q then Some ds else None | PQ _ => None end) t r).
    { destruct p; reflexivity. }
    rewrite L, last_from_none.
    unfold arrays in ND. cbn [flat_map snd] in ND. fold (arrays t) in ND.
    destruct Hin as [H|H].
    - injection H as -> ->. cbn in ND. apply NoDup_cons_iff in ND. destruct ND as [N1 N2].
      rewrite Nat.eqb_refl. destruct (last_dims t r) eqn:El; [|reflexivity].
      exfalso. apply N1. apply last_some. congruence.
    - rewrite (IH) with (k := k') (ds := ds) (c := c); auto.
      destruct p; [exact ND|]. cbn in ND. apply NoDup_cons_iff in ND. apply ND.
  Qed.

  (** ** Theorems *)
  (** Saving keeps names, order, expression and all values; only the metadata of the data of
      arrays changes: it becomes the dimensions of the last array with this data. *)
  Theorem c137_tree : forall (x : expr Ex) (m : memory),
    saved x m = Tree (show (x_expr x)) (map (fun kp => (fst kp, data_of (snd kp))) (x_params x)).
  Proof.
    intros x m. unfold save. rewrite <- (save_keys (x_params x) m).
    destruct (save_params (x_params x) m) as [[d m'] w]. reflexivity.
  Qed.
  Lemma after_params : forall (x : expr Ex) (m : memory), after x m = snd (fst (save_params (x_params x) m)).
  Proof. intros x m. unfold save. destruct (save_params (x_params x) m) as [[d m'] w]. reflexivity. Qed.

  Theorem c137_memory : forall (x : expr Ex) (m : memory) r,
    (forall v, value_at (after x m) r v <-> value_at m r v) /\
    (~ In r (arrays (x_params x)) -> nth_error (after x m) r = nth_error m r) /\
    (In r (arrays (x_params x)) -> forall o, nth_error (after x m) r = Some o ->
       exists k ds c, In (k, PA ds r c) (x_params x) /\ o_meta o = Some (MDims ds)).
  Proof.
    intros x m r. rewrite after_params. unfold value_at. rewrite save_mem.
    destruct (last_dims (x_params x) r) as [ds|] eqn:El; (split; [|split]).
    - intro v. destruct (nth_error m r) as [[v' d']|]; split; intros [d H]; try discriminate; injection H as -> <-; eauto.
    - intro H. exfalso. apply H, last_some. congruence.
    - intros _ o H. destruct (nth_error m r) as [o'|]; [|discriminate]. injection H as <-. cbn.
      assert (P : forall ps a ds, last_from a ps r = Some ds -> a = Some ds \/ exists k c, In (k, PA ds r c) ps).
      { unfold last_from. induction ps as [|[k p] t IH]; intros a d H; [left; exact H|]. cbn [fold_left snd] in H.
        apply IH in H. destruct H as [H|[k' [c H]]]; [|right; exists k', c; now right].
        destruct p as [q|d' q c]; [now left|].
        destruct (Nat.eqb_spec r q) as [->|]; [|now left].
        injection H as ->. right. exists k, c. now left. }
      destruct (P (x_params x) None ds El) as [H|[k [c H]]]; [discriminate|]. eauto 6.
    - intro v. destruct (nth_error m r) as [[v' d']|]; split; intros [d H]; try discriminate; injection H as -> <-; eauto.
    - intros _. destruct (nth_error m r); reflexivity.
    - intro H. apply last_some in H. congruence.
  Qed.

  (** One warning for every array with coordinates. *)
  Theorem c137_warnings : forall (x : expr Ex) (m : memory),
    warnings x m = List.length (filter (fun kp => match snd kp with PA _ _ c => Nat.ltb 0 c | PQ _ => false end) (x_params x)).
  Proof.
    intros x m. unfold save.
    assert (H : forall ps (m : memory), snd (save_params ps m)
      = List.length (filter (fun kp => match snd kp with PA _ _ c => Nat.ltb 0 c | PQ _ => false end) ps)).
    { induction ps as [|[k p] t IH]; intros m'; [reflexivity|]. rewrite save_cons. cbn [snd filter].
      destruct p as [r|ds r [|c]]; cbn; rewrite IH; reflexivity. }
    rewrite <- (H (x_params x) m). destruct (save_params (x_params x) m) as [[d m'] w]. reflexivity.
  Qed.

  (** Saving a second time gives the same tree and changes nothing more. *)
  Theorem c137_twice : forall (x : expr Ex) (m : memory),
    saved x (after x m) = saved x m /\ after x (after x m) = after x m.
  Proof.
    intros x m. split; [now rewrite !c137_tree|]. rewrite !after_params.
    assert (Eq : forall a b : memory, (forall r, nth_error a r = nth_error b r) -> a = b).
    { induction a as [|y a IH]; intros [|z b] H; auto; try (specialize (H 0); discriminate).
      pose proof (H 0) as H0. injection H0 as ->. f_equal. apply IH. intro r. apply (H (S r)). }
    apply Eq. intro r. rewrite !save_mem. destruct (nth_error m r) as [o|]; [|reflexivity].
    destruct (last_dims (x_params x) r); reflexivity.
  Qed.

  Lemma smem_spec : forall k l, smem k l = true <-> In k l.
  Proof.
    intros k l. unfold smem. rewrite existsb_exists. split.
    - intros [y [H1 H2]]. apply String.eqb_eq in H2. now subst.
    - intro H. exists k. split; auto. apply String.eqb_refl.
  Qed.

  (** ** Round trip *)
  Definition item_of (m : memory) (p : param) (i : item V) : Prop :=
    match p with
    | PQ r => exists v, value_at m r v /\ i = IQuantity v
    | PA ds r _ => exists v, value_at m r v /\ i = ITuple v ds
    end.

  Lemma load_ok : forall keep (m m' : memory) ps gone,
    (forall r v, value_at m r v -> exists d, nth_error m' r = Some (Obj v d)) ->
    (forall k p, In (k, p) ps -> exists v, value_at m (data_of p) v) ->
    NoDup (arrays ps) -> (forall r, In r gone -> ~ In r (arrays ps)) ->
    (forall k r, In (k, PQ r) ps -> forall o, nth_error m' r = Some o -> o_meta o = None) ->
    (forall k ds r c, In (k, PA ds r c) ps -> forall o, nth_error m' r = Some o -> o_meta o = Some (MDims ds)) ->
    exists l, load_params keep gone (map (fun kp => (fst kp, data_of (snd kp))) ps) m' = Ok l /\
      Forall2 (fun kp ki => fst kp = fst ki /\ item_of m (snd kp) (snd ki)) ps l.
  Proof.
    intros keep m m' ps. induction ps as [|[k p] t IH]; intros gone Hv Hx ND Hg Hq Ha.
    - exists []. split; [reflexivity|constructor].
    - cbn [map fst snd load_params]. destruct (Hx k p) as [v Hval]; [now left|].
      destruct (Hv _ _ Hval) as [d Hn]. rewrite Hn.
      unfold arrays in ND. cbn [flat_map snd] in ND. fold (arrays t) in ND.
      destruct p as [r|ds r c]; cbn [data_of] in *.
      + assert (Em : d = None) by (apply (Hq k r (or_introl eq_refl) _ Hn)). subst d.
        cbn [o_meta o_val].
        assert (Z : (if keep && existsb (Nat.eqb r) gone then None else None) = @None meta)
          by (destruct (keep && existsb (Nat.eqb r) gone); reflexivity).
        rewrite Z.
        destruct (IH gone) as [l [Hl1 Hl2]]; auto.
        { intros k' p' H. apply (Hx k' p'). now right. }
        { intros k' r' H. apply (Hq k' r'). now right. }
        { intros k' d' r' c' H. apply (Ha k' d' r' c'). now right. }
        rewrite Hl1. exists ((k, IQuantity v) :: l). split; [reflexivity|].
        constructor; [|exact Hl2]. split; [reflexivity|]. exists v. split; [exact Hval|reflexivity].
      + cbn in ND. apply NoDup_cons_iff in ND. destruct ND as [N1 N2].
        assert (Em : d = Some (MDims ds)) by (apply (Ha k ds r c (or_introl eq_refl) _ Hn)). subst d.
        cbn [o_meta o_val].
        assert (G : existsb (Nat.eqb r) gone = false).
        { apply not_true_is_false. intro H. apply existsb_exists in H. destruct H as [y [H1 H2]].
          apply Nat.eqb_eq in H2. subst y. apply (Hg r H1). unfold arrays. cbn. now left. }
        rewrite G, andb_false_r.
        destruct (IH (r :: gone)) as [l [Hl1 Hl2]]; auto.
        { intros k' p' H. apply (Hx k' p'). now right. }
        { intros r' [<-|H]; [exact N1|]. intro H'. apply (Hg r' H). unfold arrays. cbn. now right. }
        { intros k' r' H. apply (Hq k' r'). now right. }
        { intros k' d' r' c' H. apply (Ha k' d' r' c'). now right. }
        rewrite Hl1. exists ((k, ITuple v ds) :: l). split; [reflexivity|].
        constructor; [|exact Hl2]. split; [reflexivity|]. exists v. split; [exact Hval|reflexivity].
  Qed.

  Lemma set_ok : forall (m : memory) names ps l,
    Forall2 (fun kp ki => fst kp = fst ki /\ item_of m (snd kp) (snd ki)) ps l ->
    (forall k p, In (k, p) ps -> In k names /\
       exists v, value_at m (data_of p) v /\ (forall ds r c, p = PA ds r c -> List.length ds = ndim v)) ->
    exists d, set_parameters ndim names l = Ok d /\
      Forall2 (fun kp kv => fst kp = fst kv /\ means m (snd kp) (snd kv)) ps d.
  Proof.
    intros m names ps l F. induction F as [|[k p] [k' i] ps l [H1 H2] F IH]; intros Hs.
    - exists []. split; [reflexivity|constructor].
    - cbn in H1, H2. subst k'. destruct IH as [d [Hd1 Hd2]].
      { intros k' p' H. apply (Hs k' p'). now right. }
      destruct (Hs k p) as [Hk [v [Hv Hl]]]; [now left|].
      apply smem_spec in Hk. cbn [set_parameters]. rewrite Hk.
      destruct p as [r|ds r c]; destruct H2 as [w [Hw ->]].
      + rewrite Hd1. exists ((k, LQ w) :: d). split; [reflexivity|].
        constructor; [|exact Hd2]. split; [reflexivity|]. exists w. now split.
      + assert (Evw : v = w).
        { destruct Hv as [d1 Hv], Hw as [d2 Hw]. cbn in Hv. rewrite Hv in Hw. now injection Hw. }
        subst w. rewrite (Hl ds r c eq_refl), Nat.eqb_refl, Hd1.
        exists ((k, LA ds v) :: d). split; [reflexivity|].
        constructor; [|exact Hd2]. split; [reflexivity|]. exists v. now split.
  Qed.

  Theorem c137_roundtrip : forall keep (x : expr Ex) (m : memory),
    parse (show (x_expr x)) = Ok (x_expr x) -> sound x m -> separate x m ->
    exists d, reload keep x m = Ok (x_expr x, d) /\
      Forall2 (fun kp kv => fst kp = fst kv /\ means m (snd kp) (snd kv)) (x_params x) d.
  Proof.
    intros keep x m Hp Hs [Hnd Hq]. rewrite c137_tree, after_params. unfold load. cbn [t_params t_expr].
    destruct (load_ok keep m (snd (fst (save_params (x_params x) m))) (x_params x) []) as [l [Hl1 Hl2]]; auto.
    - intros r v [d H]. rewrite save_mem, H. destruct (last_dims (x_params x) r); cbn; eauto.
    - intros k p H. destruct (Hs k p H) as [_ [v [Hv _]]]. eauto.
    - intros k r H o Ho.
      assert (Hr : In r (quantities (x_params x))).
      { unfold quantities. apply in_flat_map. exists (k, PQ r). split; [exact H|now left]. }
      destruct (Hq r Hr) as [H1 H2]. rewrite save_mem in Ho.
      destruct (nth_error m r) as [o'|] eqn:En; [|discriminate].
      destruct (last_dims (x_params x) r) eqn:El.
      + exfalso. apply H1, last_some. congruence.
      + injection Ho as <-. now apply H2.
    - intros k ds r c H o Ho. rewrite save_mem in Ho.
      rewrite (last_uniq _ Hnd k ds r c H) in Ho.
      destruct (nth_error m r); [|discriminate]. now injection Ho as <-.
    - rewrite Hl1. cbv beta iota delta [bind]. rewrite Hp.
      destruct (set_ok m (free (x_expr x)) _ _ Hl2 Hs) as [d [Hd1 Hd2]].
      rewrite Hd1. eauto.
  Qed.

  (** Whatever is loaded without an error has the names and the magnitudes of the saved
      parameters. *)
  Theorem c137_values : forall keep (x : expr Ex) (m : memory) e d,
    reload keep x m = Ok (e, d) ->
    Forall2 (fun kp kv => fst kp = fst kv /\
      exists v, value_at m (data_of (snd kp)) v /\ (snd kv = LQ v \/ exists ds, snd kv = LA ds v)) (x_params x) d.
  Proof.
    intros keep x m e d H. rewrite c137_tree, after_params in H. unfold load in H. cbn [t_params t_expr] in H.
    destruct (load_params _ _ _ _) as [l|] eqn:El in H; [|discriminate]. cbv beta iota delta [bind] in H.
    destruct (parse _) as [e'|]; [|discriminate].
    destruct (set_parameters _ _ _) as [d'|] eqn:Ed in H; [|discriminate]. injection H as <- <-.
    assert (L : forall ps gone l, load_params keep gone (map (fun kp => (fst kp, data_of (snd kp))) ps)
                (snd (fst (save_params (x_params x) m))) = Ok l ->
              Forall2 (fun kp ki => fst kp = fst ki /\ exists v, value_at m (data_of (snd kp)) v /\
                (snd ki = IQuantity v \/ exists ds, snd ki = ITuple v ds)) ps l).
    { induction ps as [|[k p] t IH]; intros gone l0 H.
      - injection H as <-. constructor.
      - cbn [map fst snd load_params] in H. rewrite save_mem in H.
        destruct (nth_error m (data_of p)) as [[v mt]|] eqn:En; [|discriminate].
        assert (Hv : value_at m (data_of p) v) by (exists mt; exact En).
        set (o := match last_dims (x_params x) (data_of p) with Some ds => Obj (o_val (Obj v mt)) (Some (MDims ds)) | None => Obj v mt end) in H.
        assert (Ho : o_val o = v) by (unfold o; destruct (last_dims _ _); reflexivity).
        destruct (if keep && existsb (Nat.eqb (data_of p)) gone then None else o_meta o) as [[ds|]|].
        + destruct (load_params _ _ _ _) as [l1|] eqn:E1 in H; [|discriminate]. injection H as <-.
          constructor; [|exact (IH _ _ E1)]. split; [reflexivity|]. exists v. split; [exact Hv|]. right. exists ds.
          cbn. now rewrite Ho.
        + discriminate.
        + destruct (load_params _ _ _ _) as [l1|] eqn:E1 in H; [|discriminate]. injection H as <-.
          constructor; [|exact (IH _ _ E1)]. split; [reflexivity|]. exists v. split; [exact Hv|]. left.
          cbn. now rewrite Ho. }
    specialize (L _ _ _ El). clear El. revert d' Ed. induction L as [|[k p] [k' i] ps l [H1 H2] F IH]; intros d Ed.
    - injection Ed as <-. constructor.
    - cbn in H1, H2. subst k'. cbn [set_parameters] in Ed. destruct (smem k (free e')); [|discriminate].
      destruct H2 as [v [Hv Hi]]. destruct i as [w|w ds].
      + destruct (set_parameters ndim (free e') l) as [d1|] eqn:E1; [|discriminate]. injection Ed as <-.
        constructor; [|now apply IH]. split; [reflexivity|]. exists v. split; [exact Hv|]. left.
        destruct Hi as [Hi|[z Hi]]; [|discriminate]. injection Hi as ->. reflexivity.
      + destruct (Nat.eqb (List.length ds) (ndim w)); [|discriminate].
        destruct (set_parameters ndim (free e') l) as [d1|] eqn:E1; [|discriminate]. injection Ed as <-.
        constructor; [|now apply IH]. split; [reflexivity|]. exists v. split; [exact Hv|]. right.
        destruct Hi as [Hi|[z Hi]]; [discriminate|]. injection Hi as -> ->. exists z. reflexivity.
  Qed.
End Spec.
Print Assumptions c137_tree.
Print Assumptions c137_memory.
Print Assumptions c137_warnings.
Print Assumptions c137_twice.
Print Assumptions c137_roundtrip.
Print Assumptions c137_values.

(** ** Examples: values are lengths, expressions are lists of names *)
Definition ex_ndim (v : nat) : nat := match v with 0 => 0 | _ => 1 end.
Definition ex_show (e : list string) : string := String.concat " " e.
Definition ex_parse (s : string) : res (list string) :=
  if String.eqb s "a b" then Ok ["a"; "b"] else Err ValueError.
Notation ex_save := (save ex_show).
Notation ex_load := (load ex_ndim ex_parse (fun e => e)).
Definition ex_x : expr (list string) := Expr ["a"; "b"] [("a", PQ 0); ("b", PA ["t"] 1 1)].
Definition ex_m : list (qobj nat) := [Obj 0 None; Obj 3 (Some MOther)].

Example ex_c137 :
  sound ex_ndim (fun e => e) ex_x ex_m /\ separate ex_x ex_m /\
  ex_save ex_x ex_m = (Tree "a b" [("a", 0); ("b", 1)], [Obj 0 None; Obj 3 (Some (MDims ["t"]))], 1) /\
  (forall keep, ex_load keep (fst (fst (ex_save ex_x ex_m))) (snd (fst (ex_save ex_x ex_m)))
                = Ok (["a"; "b"], [("a", LQ 0); ("b", LA ["t"] 3)])).
Proof.
  split; [|split; [|split]].
  - intros k p [H|[H|[]]]; injection H as <- <-; (split; [cbn; auto|]).
    + exists 0. split; [exists None; reflexivity|]. intros; discriminate.
    + exists 3. split; [exists (Some MOther); reflexivity|]. intros ds r c H. injection H as <- <- <-. reflexivity.
  - split; [repeat constructor; intros []|]. intros r [<-|[]]. split; [intros [H|[]]; discriminate|].
    intros o H. injection H as <-. reflexivity.
  - reflexivity.
  - intros [|]; reflexivity.
Qed.

(** False: saving leaves the expression as it is. The metadata of its arrays is replaced. *)
Theorem c137_unchanged_refuted :
  ~ (forall (x : expr (list string)) (m : list (qobj nat)), sound ex_ndim (fun e => e) x m -> separate x m ->
       snd (fst (ex_save x m)) = m).
Proof.
  intro H. destruct ex_c137 as [H1 [H2 _]]. specialize (H ex_x ex_m H1 H2). discriminate.
Qed.
Print Assumptions c137_unchanged_refuted.

(** False: quantities may have metadata. The file cannot be loaded, unless the metadata has
    the key "dims", which turns the quantity into an array. *)
Theorem c137_metadata_refuted :
  let x : expr (list string) := Expr ["a"; "b"] [("a", PQ 0)] in
  forall keep,
  (ex_load keep (fst (fst (ex_save x [Obj 0 (Some MOther)]))) (snd (fst (ex_save x [Obj 0 (Some MOther)])))
   = Err KeyError) /\
  (ex_load keep (fst (fst (ex_save x [Obj 3 (Some (MDims ["t"]))]))) (snd (fst (ex_save x [Obj 3 (Some (MDims ["t"]))])))
   = Ok (["a"; "b"], [("a", LA ["t"] 3)])).
Proof. intros x [|]; split; reflexivity. Qed.
Print Assumptions c137_metadata_refuted.

(** False: two arrays may share their data. One of them gets the dimensions of the other
    or is loaded as quantity. *)
Theorem c137_shared_refuted :
  let x : expr (list string) := Expr ["a"; "b"] [("a", PA ["t"] 0 0); ("b", PA ["u"] 0 0)] in
  let m := [Obj 3 None] in
  sound ex_ndim (fun e => e) x m /\
  (ex_load false (fst (fst (ex_save x m))) (snd (fst (ex_save x m)))
   = Ok (["a"; "b"], [("a", LA ["u"] 3); ("b", LA ["u"] 3)])) /\
  (ex_load true (fst (fst (ex_save x m))) (snd (fst (ex_save x m)))
   = Ok (["a"; "b"], [("a", LA ["u"] 3); ("b", LQ 3)])).
Proof.
  split; [|split; reflexivity].
  intros k p [H|[H|[]]]; injection H as <- <-; (split; [cbn; auto|]);
    exists 3; (split; [exists None; reflexivity|]); intros ds r c H; injection H as <- <- <-; reflexivity.
Qed.
Print Assumptions c137_shared_refuted.
