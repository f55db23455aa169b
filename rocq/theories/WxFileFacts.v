(** Lemmas about [WxFileModel]. *)
From Coq Require Import List String Bool Arith Lia.
From Verif Require Import Base WxFileModel WxFileSpec.
Import ListNotations.

Lemma loc_eqb_eq : forall a b, loc_eqb a b = true <-> a = b.
Proof.
  intros [p|n] [q|m]; cbn; try (split; congruence).
  - rewrite String.eqb_eq. split; congruence.
  - rewrite Nat.eqb_eq. split; congruence.
Qed.
Lemma loc_eqb_refl : forall a, loc_eqb a a = true.
Proof. intros a. apply loc_eqb_eq. reflexivity. Qed.
Lemma mode_eqb_eq : forall a b, mode_eqb a b = true <-> a = b.
Proof. intros [] []; cbn; split; congruence. Qed.
Lemma put_same : forall l c w, files (put l c w) l = Some c.
Proof. intros. cbn. rewrite loc_eqb_refl. reflexivity. Qed.
Lemma put_other : forall l l' c w, l' <> l -> files (put l c w) l' = files w l'.
Proof.
  intros l l' c w N. cbn. destruct (loc_eqb l l') eqn:E; [|reflexivity]. apply loc_eqb_eq in E. congruence.
Qed.
Lemma validate_ok : forall valid s t, validate valid (option_map SOne s) t = Ok tt <-> satisfies valid s t.
Proof. intros valid [s|] t; cbn; [|tauto]. destruct (valid s t); split; congruence. Qed.
Lemma validate_cases : forall valid s t r, validate valid (option_map SOne s) t = r ->
  (r = Ok tt /\ satisfies valid s t) \/ (r = Err ValidationError /\ ~ satisfies valid s t).
Proof. intros valid [s|] t r <-; cbn; [|tauto]. destruct (valid s t); [left|right]; split; congruence. Qed.

(** the handling of the input *)
Lemma input_files : forall i m w w' r, handle_input i m w = (w', r) ->
  kwargs w' = kwargs w /\
  (forall l, files w l <> None -> (forall n, l = LBuf n -> n < buffers w) -> files w' l = files w l).
Proof.
  intros i m w w' r H. destruct i as [|p|l]; cbn in H.
  - injection H as <- <-. cbn. split; [reflexivity|]. intros [p|n] A B; cbn; [reflexivity|].
    specialize (B n eq_refl). destruct (Nat.eqb (buffers w) n) eqn:E; [apply Nat.eqb_eq in E; lia|reflexivity].
  - unfold handle_path in H. destruct (files w (LPath p)) as [c|] eqn:F.
    + destruct (mode_eqb m MReadWrite); [destruct c|]; injection H as <- <-; auto.
    + destruct (mode_eqb m MRead); injection H as <- <-; [auto|]. split; [reflexivity|]. intros l A _. apply put_other. congruence.
  - injection H as <- <-. auto.
Qed.
(** a file that exists and is not created *)
Lemma input_same : forall i m w w' l, handle_input i m w = (w', Ok (l, false)) -> w' = w.
Proof.
  intros i m w w' l H. destruct i as [|p|l']; cbn in H; [discriminate| |injection H; auto].
  unfold handle_path in H. destruct (files w (LPath p)) as [c|]; [|destruct (mode_eqb m MRead); discriminate].
  destruct (mode_eqb m MReadWrite); [destruct c|]; congruence.
Qed.
Lemma input_kind : forall i m w w' l, handle_input i m w = (w', Ok (l, false)) -> i = IHandle l \/ exists p, i = IPath p /\ l = LPath p /\ files w (LPath p) <> None.
Proof.
  intros i m w w' l H. destruct i as [|p|l']; cbn in H; [discriminate| |injection H as _ ->; auto].
  right. exists p. unfold handle_path in H. destruct (files w (LPath p)) as [c|]; [|destruct (mode_eqb m MRead); discriminate].
  split; [reflexivity|]. split; [|discriminate]. destruct (mode_eqb m MReadWrite); [destruct c|]; congruence.
Qed.
Lemma input_created : forall i m w w' l, handle_input i m w = (w', Ok (l, true)) ->
  files w' l = Some CEmpty /\ (m = MReadWrite \/ i = INothing \/ m = MOther) /\
  (forall l', l' <> l -> files w' l' = files w l') /\
  (i = IHandle l \/ (exists p, i = IPath p /\ l = LPath p /\ files w (LPath p) = None) \/ i = INothing /\ l = LBuf (buffers w)).
Proof.
  intros i m w w' l H. destruct i as [|p|l']; cbn in H.
  - injection H as <- <-. cbn. rewrite Nat.eqb_refl. split; [reflexivity|]. split; [auto|]. split; [|auto].
    intros [p|n] N; [reflexivity|]. destruct (Nat.eqb (buffers w) n) eqn:E; [apply Nat.eqb_eq in E; congruence|reflexivity].
  - unfold handle_path in H. destruct (files w (LPath p)) as [c|] eqn:F.
    + destruct (mode_eqb m MReadWrite); [destruct c|]; discriminate.
    + destruct (mode_eqb m MRead) eqn:M; [discriminate|]. injection H as <- <-. split; [apply put_same|].
      split; [destruct m; [discriminate|auto|auto]|]. split; [intros l' N; apply put_other; exact N|]. right. left. eauto.
  - destruct (mode_eqb m MReadWrite) eqn:M; [|discriminate]. apply mode_eqb_eq in M.
    destruct (files w l') as [[]|] eqn:F; try discriminate. injection H as <- <-. auto.
Qed.

Section Init.
  Variable valid : schema -> tree -> bool.

  (** everything a successful constructor does *)
  Lemma init_ok : forall i m kw t sync cs w w' f, init valid i m kw t sync cs w = (w', Ok f) ->
    exists on_read on_write l created w0 w1,
      handle_schema (effective kw cs w) = Ok (on_read, on_write) /\ files w0 = files w /\ buffers w0 = buffers w /\
      handle_input i m w0 = (w1, Ok (l, created)) /\
      w_loc f = l /\ w_mode f = m /\ m <> MOther /\ w_sync f = (sync && mode_eqb m MReadWrite)%bool /\
      w_read f = on_read /\ w_write f = on_write /\
      match kw with Some k => w_kwargs f = k | None => w_kwargs f = dicts w end /\
      kwargs w' (w_kwargs f) = h_schema f /\
      ((exists new, new = match t with Some t => t | None => [] end /\ (new <> [] \/ created = true) /\
          (new <> [] -> m = MReadWrite) /\ h_tree f = new /\ h_schema f = option_map SOne on_write /\
          satisfies valid on_write new /\ files w' = files (put l (CAsdf new) w1) /\
          (created = false -> exists old, files w1 l = Some (CAsdf old) /\ satisfies valid on_write old))
       \/ (created = false /\ (t = None \/ t = Some []) /\ h_schema f = option_map SOne on_read /\ files w' = files w1 /\
          files w1 l = Some (CAsdf (h_tree f)) /\ satisfies valid on_read (h_tree f))).
  Proof.
    intros i m kw t sync cs w w' f H. unfold init in H.
    destruct (match kw with None => new_dict w | Some k => (k, w) end) as [k wa] eqn:K.
    assert (KA : files wa = files w /\ buffers wa = buffers w /\ match kw with Some k0 => k = k0 /\ wa = w | None => k = dicts w /\ kwargs wa k = None end).
    { destruct kw; injection K as <- <-; cbn; [auto|]. rewrite Nat.eqb_refl. auto. }
    destruct KA as (FA & BA & KA).
    destruct (match kwargs wa k with None => (cs, wa) | Some s => (s, set_kw k None wa) end) as [cs' w0] eqn:C.
    assert (CA : files w0 = files w /\ buffers w0 = buffers w /\ kwargs w0 k = None /\ cs' = effective kw cs w).
    { destruct kw as [k0|]; cbn [effective].
      - destruct KA as [-> ->]. destruct (kwargs w k0) as [s|] eqn:E; injection C as <- <-; cbn; rewrite ?Nat.eqb_refl; auto.
      - destruct KA as [-> KN]. rewrite KN in C. injection C as <- <-. auto. }
    destruct CA as (F0 & B0 & K0 & ->). clear C K.
    destruct (handle_schema (effective kw cs w)) as [[on_read on_write]|] eqn:HS; [|discriminate].
    destruct (mode_eqb m MOther) eqn:MO; [discriminate|].
    set (some := match t with Some (_ :: _) => true | _ => false end) in *.
    destruct (some && negb (mode_eqb m MReadWrite))%bool eqn:ST; [discriminate|].
    destruct (handle_input i m w0) as [w1 [[l created]|]] eqn:HI; [|discriminate].
    pose proof (proj1 (input_files _ _ _ _ _ HI)) as KI.
    exists on_read, on_write, l, created, w0, w1. split; [reflexivity|]. split; [exact F0|]. split; [exact B0|]. split; [exact HI|].
    assert (MN : m <> MOther) by (intros ->; discriminate).
    set (new := match t with Some t0 => t0 | None => [] end) in *.
    assert (SN : some = true <-> new <> []) by (unfold some, new; destruct t as [[|]|]; split; congruence).
    assert (KK : match kw with Some k0 => k = k0 | None => k = dicts w end) by (destruct kw; tauto).
    destruct (some || created)%bool eqn:SC.
    - assert (MR : new <> [] -> m = MReadWrite).
      { intros N. apply SN in N. rewrite N in ST. apply mode_eqb_eq. destruct (mode_eqb m MReadWrite); [reflexivity|discriminate]. }
      set (w2 := match on_write with Some s => set_kw k (Some (SOne s)) w1 | None => w1 end) in *.
      assert (K2 : kwargs w2 k = option_map SOne on_write).
      { unfold w2. destruct on_write; cbn; [rewrite Nat.eqb_refl; reflexivity|]. rewrite KI. exact K0. }
      assert (F2 : files w2 = files w1) by (unfold w2; destruct on_write; reflexivity).
      cbv zeta in H. rewrite K2 in H.
      assert (PF : files (put l (CAsdf new) w2) = files (put l (CAsdf new) w1)) by (unfold put; cbn; rewrite F2; reflexivity).
      assert (OR : new <> [] \/ created = true).
      { apply orb_true_iff in SC. rewrite SN in SC. exact SC. }
      destruct created.
      + destruct (validate valid (option_map SOne on_write) new) as [[]|] eqn:VS; [|discriminate]. injection H as <- <-. cbn [w_loc w_mode w_sync w_read w_write w_kwargs h_tree h_schema].
        split; [reflexivity|]. split; [reflexivity|]. split; [exact MN|]. split; [reflexivity|]. split; [reflexivity|]. split; [reflexivity|].
        split; [exact KK|]. split; [exact K2|]. left. exists new. split; [reflexivity|]. split; [exact OR|]. split; [exact MR|]. split; [reflexivity|].
        split; [reflexivity|]. split; [apply validate_ok; exact VS|]. split; [exact PF|]. discriminate.
      + destruct (mode_eqb m MReadWrite); [|discriminate]. cbn [negb] in H. unfold open_asdf in H. rewrite F2 in H.
        destruct (files w1 l) as [[|old|]|] eqn:FL; try discriminate.
        destruct (validate valid (option_map SOne on_write) old) as [[]|] eqn:VO; [|discriminate]. cbn [bind] in H.
        destruct (validate valid (option_map SOne on_write) new) as [[]|] eqn:VS; [|discriminate]. injection H as <- <-. cbn [w_loc w_mode w_sync w_read w_write w_kwargs h_tree h_schema].
        split; [reflexivity|]. split; [reflexivity|]. split; [exact MN|]. split; [reflexivity|]. split; [reflexivity|]. split; [reflexivity|].
        split; [exact KK|]. split; [exact K2|]. left. exists new. split; [reflexivity|]. split; [exact OR|]. split; [exact MR|]. split; [reflexivity|].
        split; [reflexivity|]. split; [apply validate_ok; exact VS|]. split; [exact PF|]. intros _. exists old. split; [reflexivity|apply validate_ok; exact VO].
    - apply orb_false_iff in SC. destruct SC as [SF ->].
      set (w2 := match on_read with Some s => set_kw k (Some (SOne s)) w1 | None => w1 end) in *.
      assert (K2 : kwargs w2 k = option_map SOne on_read).
      { unfold w2. destruct on_read; cbn; [rewrite Nat.eqb_refl; reflexivity|]. rewrite KI. exact K0. }
      assert (F2 : files w2 = files w1) by (unfold w2; destruct on_read; reflexivity).
      cbv zeta in H. rewrite K2 in H. unfold open_asdf in H. rewrite F2 in H.
      destruct (files w1 l) as [[|old|]|] eqn:FL; try discriminate.
      destruct (validate valid (option_map SOne on_read) old) as [[]|] eqn:VO; [|discriminate]. injection H as <- <-. cbn [w_loc w_mode w_sync w_read w_write w_kwargs h_tree h_schema].
      split; [reflexivity|]. split; [reflexivity|]. split; [exact MN|]. split; [reflexivity|]. split; [reflexivity|]. split; [reflexivity|].
      split; [exact KK|]. split; [exact K2|]. right. split; [reflexivity|]. split; [unfold some in SF; destruct t as [[|]|]; auto; discriminate|].
      split; [reflexivity|]. split; [exact F2|]. split; [reflexivity|apply validate_ok; exact VO].
  Qed.
  (** a failing constructor changes at most a file that it has created *)
  Lemma init_err : forall i m kw t sync cs w w' e, init valid i m kw t sync cs w = (w', Err e) ->
    forall l, files w l <> None -> (forall n, l = LBuf n -> n < buffers w) -> files w' l = files w l.
  Proof.
    intros i m kw t sync cs w w' e H l L B. unfold init in H.
    destruct (match kw with None => new_dict w | Some k => (k, w) end) as [k wa] eqn:K.
    assert (FA : files wa = files w /\ buffers wa = buffers w) by (destruct kw; injection K as <- <-; cbn; auto).
    destruct (match kwargs wa k with None => (cs, wa) | Some s => (s, set_kw k None wa) end) as [cs' w0] eqn:C.
    assert (F0 : files w0 = files w /\ buffers w0 = buffers w) by (destruct (kwargs wa k); injection C as <- <-; cbn; tauto).
    destruct F0 as [F0 B0]. clear FA C K.
    destruct (handle_schema cs') as [[on_read on_write]|]; [|injection H as <- <-; rewrite F0; reflexivity].
    destruct (mode_eqb m MOther); [injection H as <- <-; rewrite F0; reflexivity|].
    destruct (match t with Some (_ :: _) => true | _ => false end && negb (mode_eqb m MReadWrite))%bool; [injection H as <- <-; rewrite F0; reflexivity|].
    destruct (handle_input i m w0) as [w1 r] eqn:HI. pose proof (proj2 (input_files _ _ _ _ _ HI) l) as FI. rewrite F0, B0 in FI. specialize (FI L B).
    destruct r as [[l' created]|]; [|injection H as <- <-; exact FI].
    destruct (match t with Some (_ :: _) => true | _ => false end || created)%bool.
    - assert (F2 : files (match on_write with Some s => set_kw k (Some (SOne s)) w1 | None => w1 end) l = files w l) by (destruct on_write; exact FI).
      destruct created; [destruct (validate _ _ _); [discriminate|injection H as <- <-; exact F2]|].
      destruct (negb _); [injection H as <- <-; exact F2|]. destruct (open_asdf _ _ _ _); [|injection H as <- <-; exact F2].
      destruct (validate _ _ _); [discriminate|injection H as <- <-; exact F2].
    - assert (F2 : files (match on_read with Some s => set_kw k (Some (SOne s)) w1 | None => w1 end) l = files w l) by (destruct on_read; exact FI).
      destruct (open_asdf _ _ _ _); [discriminate|injection H as <- <-; exact F2].
  Qed.
End Init.
