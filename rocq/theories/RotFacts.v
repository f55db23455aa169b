(** Lemmas for RotProps.v. *)
From Coq Require Import Reals List String Ascii Bool Lra Lia.
From Verif Require Import Base RigidModel RotModel RotSpec.
Import ListNotations.
Open Scope R_scope.

Lemma mat_ext : forall a b : mat, m00 a = m00 b -> m01 a = m01 b -> m02 a = m02 b -> m10 a = m10 b -> m11 a = m11 b ->
  m12 a = m12 b -> m20 a = m20 b -> m21 a = m21 b -> m22 a = m22 b -> a = b.
Proof. intros [] []. cbn. intros. subst. reflexivity. Qed.
Ltac mring := apply mat_ext; cbn; ring.
Lemma assoc : forall a b c, mmul a (mmul b c) = mmul (mmul a b) c. Proof. intros. mring. Qed.
Lemma id_l : forall a, mmul mid a = a. Proof. intros []. mring. Qed.
Lemma id_r : forall a, mmul a mid = a. Proof. intros []. mring. Qed.
Lemma trans_mul : forall a b, mtrans (mmul a b) = mmul (mtrans b) (mtrans a). Proof. intros. mring. Qed.
Lemma det_mul : forall a b, mdet (mmul a b) = mdet a * mdet b.
Proof. intros [] []. unfold mdet, dot, cross, col0, col1, col2. cbn. ring. Qed.

Lemma sc : forall a, sin a * sin a + cos a * cos a = 1.
Proof. intros a. pose proof (sin2_cos2 a) as H. unfold Rsqr in H. exact H. Qed.
Lemma rot_proper : forall p a, proper (rot p a).
Proof.
  intros p a. pose proof (sc a) as H. split.
  - apply mat_ext; destruct p; cbn; lra.
  - destruct p; unfold mdet, dot, cross, col0, col1, col2; cbn; lra.
Qed.
Lemma proper_mul : forall a b, proper a -> proper b -> proper (mmul a b).
Proof.
  intros a b [A1 A2] [B1 B2]. split; [|rewrite det_mul, A2, B2; ring].
  rewrite trans_mul, assoc, <- (assoc a b), B1, id_r. exact A1.
Qed.
Lemma proper_mid : proper mid.
Proof. split; [mring|unfold mdet, dot, cross, col0, col1, col2; cbn; ring]. Qed.
Lemma euler_proper : forall i l a, proper (euler i l a).
Proof.
  intros i l. induction l as [|p l IH]; intros [|x a]; cbn [euler]; try apply proper_mid.
  destruct i; apply proper_mul; auto using rot_proper.
Qed.
Lemma rot_0 : forall p, rot p 0 = mid.
Proof. intros []; cbn; rewrite sin_0, cos_0; mring. Qed.
Lemma rot_neg : forall p a, mmul (rot p a) (rot p (- a)) = mid /\ mmul (rot p (- a)) (rot p a) = mid.
Proof.
  intros p a. pose proof (sc a) as H. split; apply mat_ext; destruct p; cbn; rewrite ?sin_neg, ?cos_neg; lra.
Qed.
(** only sine and cosine matter *)
Lemma rot_eq : forall p a b, sin a = sin b -> cos a = cos b -> rot p a = rot p b.
Proof. intros [] a b S C; cbn; rewrite S, C; reflexivity. Qed.

Lemma euler_app : forall i l m a b, List.length l = List.length a ->
  euler i (l ++ m) (a ++ b) = if i then mmul (euler i l a) (euler i m b) else mmul (euler i m b) (euler i l a).
Proof.
  intros i l. induction l as [|p l IH]; intros m [|x a] b L; try discriminate L; cbn [app euler].
  - destruct i; [rewrite id_l|rewrite id_r]; reflexivity.
  - injection L as L. rewrite (IH m a b L). destruct i; rewrite assoc; reflexivity.
Qed.
Lemma euler_nil : forall i l, euler i l [] = mid.
Proof. intros i []; reflexivity. Qed.

(** ** the angles of three axes *)
Lemma key : forall i p q r a b a' b' c', p <> q -> q <> r -> p <> r ->
  euler i [p; q; r] [a'; b'; c'] = euler i [p; q] [a; b] ->
  cos b = cos c' * cos b' /\ sin b = sin b' /\ sin c' * cos b' = 0.
Proof.
  intros i p q r a b a' b' c' PQ QR PR H.
  pose proof (f_equal m00 H) as H0. pose proof (f_equal m01 H) as H1. pose proof (f_equal m02 H) as H2.
  pose proof (f_equal m10 H) as H3. pose proof (f_equal m11 H) as H4. pose proof (f_equal m12 H) as H5.
  pose proof (f_equal m20 H) as H6. pose proof (f_equal m21 H) as H7. pose proof (f_equal m22 H) as H8.
  destruct i, p, q, r; try congruence; cbn in *; repeat split; lra.
Qed.

(** ** sequences *)
Lemma lower_iff : forall c p, lower c = Some p <-> c = match p with AX => "x" | AY => "y" | AZ => "z" end%char.
Proof.
  intros c p. unfold lower.
  destruct (Ascii.eqb_spec c "x"); [subst; destruct p; split; congruence || discriminate|].
  destruct (Ascii.eqb_spec c "y"); [subst; destruct p; split; congruence || discriminate|].
  destruct (Ascii.eqb_spec c "z"); [subst; destruct p; split; congruence || discriminate|].
  split; [discriminate|]. destruct p; congruence.
Qed.
Lemma upper_iff : forall c p, upper c = Some p <-> c = match p with AX => "X" | AY => "Y" | AZ => "Z" end%char.
Proof.
  intros c p. unfold upper.
  destruct (Ascii.eqb_spec c "X"); [subst; destruct p; split; congruence || discriminate|].
  destruct (Ascii.eqb_spec c "Y"); [subst; destruct p; split; congruence || discriminate|].
  destruct (Ascii.eqb_spec c "Z"); [subst; destruct p; split; congruence || discriminate|].
  split; [discriminate|]. destruct p; congruence.
Qed.
Definition name (i : bool) (p : axis) : ascii :=
  if i then match p with AX => "X" | AY => "Y" | AZ => "Z" end%char
  else match p with AX => "x" | AY => "y" | AZ => "z" end%char.
Fixpoint names (i : bool) (l : list axis) : string :=
  match l with [] => EmptyString | p :: r => String (name i p) (names i r) end.
Lemma axes_names : forall i s l, axes (if i : bool then upper else lower) s = Some l -> s = names i l.
Proof.
  intros i s. induction s as [|c s IH]; intros l H; cbn [axes] in H; [injection H as <-; reflexivity|].
  destruct ((if i : bool then upper else lower) c) as [p|] eqn:C; [|discriminate].
  destruct (axes (if i : bool then upper else lower) s) as [r|]; [|discriminate]. injection H as <-. cbn [names].
  rewrite <- (IH r eq_refl). f_equal. destruct i; [apply upper_iff in C|apply lower_iff in C]; exact C.
Qed.
Lemma parse_names : forall s i l, parse s = Some (i, l) ->
  s = names i l /\ (1 <= List.length l <= 3)%nat /\ consecutive_differ l = true.
Proof.
  intros s i l H. unfold parse in H.
  assert (C : forall j m, (if Nat.leb 1 (List.length m) && Nat.leb (List.length m) 3 && consecutive_differ m then Some (j, m) else None) = Some (i, l) ->
    j = i /\ m = l /\ (1 <= List.length l <= 3)%nat /\ consecutive_differ l = true).
  { intros j m G. destruct (Nat.leb 1 (List.length m) && Nat.leb (List.length m) 3 && consecutive_differ m) eqn:B; [|discriminate]. injection G as <- <-. apply andb_true_iff in B. destruct B as [B ->].
    apply andb_true_iff in B. destruct B as [B1 B2]. apply Nat.leb_le in B1, B2. auto. }
  destruct (axes lower s) as [m|] eqn:L.
  - destruct (C _ _ H) as (<- & -> & Q1 & Q2). split; [apply (axes_names false); exact L|auto].
  - destruct (axes upper s) as [m|] eqn:U; [|discriminate]. destruct (C _ _ H) as (<- & -> & Q1 & Q2).
    split; [apply (axes_names true); exact U|auto].
Qed.
Lemma differ_2 : forall p q l, consecutive_differ (p :: q :: l) = true -> p <> q.
Proof. intros [] [] l H; try discriminate H; discriminate. Qed.
Lemma names_length : forall i l, String.length (names i l) = List.length l.
Proof. intros i l. induction l as [|p l IH]; cbn; [reflexivity|]. rewrite IH. reflexivity. Qed.

Definition others (l : list axis) : list axis :=
  filter (fun p => negb (existsb (axis_eqb p) l)) [AX; AY; AZ].
(** the completed sequence has three axes; the added ones are new *)
Lemma complete_ok : forall s i l, parse s = Some (i, l) ->
  exists s3 e, complete s = Ok s3 /\ parse s3 = Some (i, l ++ e) /\ (List.length (l ++ e) = 3)%nat /\
    match l with
    | [p; q] => exists r, e = [r] /\ p <> q /\ q <> r /\ p <> r
    | [p] => exists q r, e = [q; r] /\ p <> q /\ q <> r /\ p <> r
    | _ => e = []
    end.
Proof.
  intros s i l H. pose proof (parse_names _ _ _ H) as (-> & L & D).
  destruct l as [|p [|q [|r [|x l]]]]; cbn in L; try lia.
  - exists (names i ([p] ++ others [p])), (others [p]).
    destruct i, p; (split; [reflexivity|]); (split; [reflexivity|]); (split; [reflexivity|]); cbn; do 2 eexists; (split; [reflexivity|]); repeat split; discriminate.
  - exists (names i ([p; q] ++ others [p; q])), (others [p; q]).
    destruct i, p, q; try discriminate D; (split; [reflexivity|]); (split; [reflexivity|]); (split; [reflexivity|]); cbn; eexists; (split; [reflexivity|]); repeat split; discriminate.
  - exists (names i [p; q; r]), []. split; [|auto]. unfold complete. rewrite names_length. reflexivity.
Qed.

(** ** one rotation *)
Lemma trig_one : forall b b', 0 <= cos b' -> sin b = sin b' -> 0 <= cos b -> cos b = cos b'.
Proof.
  intros b b' P S C. pose proof (sc b) as H1. pose proof (sc b') as H2. rewrite S in H1.
  assert (Q : cos b * cos b = cos b' * cos b') by lra.
  assert ((cos b - cos b') * (cos b + cos b') = 0) as Z by lra. apply Rmult_integral in Z. destruct Z as [Z|Z]; lra.
Qed.
Lemma kept : forall i l e m a b c, List.length (l ++ e) = 3%nat ->
  match l with
  | [p; q] => exists r, e = [r] /\ p <> q /\ q <> r /\ p <> r
  | [p] => exists q r, e = [q; r] /\ p <> q /\ q <> r /\ p <> r
  | _ => e = []
  end -> l <> [] ->
  small_angles i l m -> euler i (l ++ e) [a; b; c] = m ->
  (forall p q r, l ++ e = [p; q; r] -> p <> r -> 0 <= cos b /\ (cos b = 0 -> c = 0)) ->
  euler i l (firstn (List.length l) [a; b; c]) = m.
Proof.
  intros i l e m a b c L3 E NE (x & LX & X & XB) EU G.
  destruct l as [|p [|q [|r [|z l]]]]; [congruence| | | |].
  - destruct E as (q & r & -> & PQ & QR & PR). destruct (G p q r eq_refl PR) as [G1 G2].
    destruct x as [|x [|? ?]]; try discriminate LX. cbn [app] in EU.
    assert (H : euler i [p; q; r] [a; b; c] = euler i [p; q] [x; 0]).
    { rewrite EU, <- X. change (euler i [p] [x] = euler i ([p] ++ [q]) ([x] ++ [0])). rewrite euler_app by reflexivity. cbn [euler]. rewrite rot_0. destruct i; rewrite ?id_l, ?id_r; reflexivity. }
    apply key in H; auto. destruct H as (H1 & H2 & H3). rewrite cos_0 in H1. rewrite sin_0 in H2.
    assert (C1 : cos b = 1).
    { rewrite <- cos_0. symmetry. apply trig_one; [exact G1|rewrite sin_0; exact H2|rewrite cos_0; lra]. }
    rewrite C1 in *. cbn [firstn List.length]. rewrite <- EU.
    change (euler i [p] [a] = euler i ([p] ++ [q; r]) ([a] ++ [b; c])). rewrite euler_app by reflexivity.
    assert (Z : euler i [q; r] [b; c] = mid).
    { cbn [euler]. rewrite (rot_eq q b 0), (rot_eq r c 0), !rot_0; rewrite ?sin_0, ?cos_0; try lra. destruct i; rewrite !id_l; reflexivity. }
    rewrite Z. destruct i; rewrite ?id_l, ?id_r; reflexivity.
  - destruct E as (r & -> & PQ & QR & PR). destruct (G p q r eq_refl PR) as [G1 G2].
    destruct x as [|x [|y [|? ?]]]; try discriminate LX. cbn [app] in EU.
    assert (H : euler i [p; q; r] [a; b; c] = euler i [p; q] [x; y]) by congruence.
    apply key in H; auto. destruct H as (H1 & H2 & H3).
    pose proof (trig_one y b G1 H2 XB) as CY.
    assert (Z : rot r c = mid).
    { destruct (Req_dec (cos b) 0) as [Q|Q]; [rewrite (G2 Q); apply rot_0|].
      rewrite <- (rot_0 r). apply rot_eq.
      - rewrite sin_0. apply Rmult_integral in H3. destruct H3; [assumption|contradiction].
      - rewrite cos_0. apply (Rmult_eq_reg_r (cos b)); [lra|exact Q]. }
    cbn [firstn List.length]. rewrite <- EU.
    change (euler i [p; q] [a; b] = euler i ([p; q] ++ [r]) ([a; b] ++ [c])). rewrite euler_app by reflexivity.
    assert (Z2 : euler i [r] [c] = mid) by (cbn [euler]; rewrite Z; destruct i; rewrite id_l; reflexivity).
    rewrite Z2. destruct i; rewrite ?id_l, ?id_r; reflexivity.
  - subst e. rewrite app_nil_r in EU. exact EU.
  - cbn in L3. lia.
Qed.
