(** Properties of the drawing of managers (C144). *)
From Coq Require Import List String Bool ZArith QArith Arith Lia Lqa.
From Verif Require Import Base CsmModel CsmSpec TreeFacts CsmGraphFacts CsmTreeFacts CsmSubFacts CsmDataFacts CsmOpFacts CsmHistFacts CsmToy
  DrawModel DrawSpec DrawFacts CsmProps.
Import ListNotations.
Close Scope Q_scope.

(** ** positions *)
(** Every manager can be laid out: each system gets exactly one place, and it is the
    place that it gets by sharing the strip of each system equally among its children. *)
Theorem c144_layout : forall (T D : Type) (ops : LcsOps T) (c : csm T D), reachable c ->
  exists m, layout c = Ok m /\ NoDup (dkeys m) /\ (forall n, In n (dkeys m) <-> In n (cs_names c)) /\
    forall n s, dget n m = Some s <-> placed c n s.
Proof.
  intros T D ops c R. destruct (reachable_inv c R) as [[l G] _]. destruct (layout_spec c l G) as (m & E & GM & K & P).
  exists m. split; [exact E|]. split; [apply GM|]. split; assumption.
Qed.
Print Assumptions c144_layout.

(** The positions are the centres and levels of the places. *)
Theorem c144_positions : forall (T D : Type) (ops : LcsOps T) (c : csm T D), reachable c ->
  exists p, positions c = Ok p /\ NoDup (dkeys p) /\ (forall n, In n (dkeys p) <-> In n (cs_names c)) /\
    forall n x z, dget n p = Some (x, z) <-> exists s, placed c n s /\ x = sl_x s /\ z = sl_level s.
Proof.
  intros T D ops c R. destruct (c144_layout T D ops c R) as (m & E & N & K & P). unfold positions. rewrite E. cbn [bind].
  exists (map (fun p => (fst p, (sl_x (snd p), sl_level (snd p)))) m). split; [reflexivity|].
  assert (KE : dkeys (map (fun p => (fst p, (sl_x (snd p), sl_level (snd p)))) m) = dkeys m)
    by (unfold dkeys; rewrite map_map; reflexivity).
  rewrite KE. split; [exact N|]. split; [exact K|]. intros n x z.
  assert (GE : dget n (map (fun p => (fst p, (sl_x (snd p), sl_level (snd p)))) m) = option_map (fun s => (sl_x s, sl_level s)) (dget n m)).
  { clear. induction m as [|[a s] m IH]; [reflexivity|]. cbn. destruct (String.eqb n a); [reflexivity|exact IH]. }
  rewrite GE. split.
  - destruct (dget n m) as [s|] eqn:S; [|discriminate]. cbn. intros H. injection H as <- <-. exists s. split; [apply P, S|auto].
  - intros (s & S & -> & ->). apply P in S. rewrite S. reflexivity.
Qed.
Print Assumptions c144_positions.

(** The height of a system is the number of steps to the root, downwards, and all
    systems are drawn between 0 and 2, with the root at (1, 0). *)
Theorem c144_height : forall (T D : Type) (ops : LcsOps T) (c : csm T D) p n x z q, reachable c ->
  positions c = Ok p -> dget n p = Some (x, z) -> simple_path (linked c) n q (c_root c) ->
  z = (1 - Z.of_nat (List.length q))%Z /\ (0 < x /\ x < 2)%Q /\ (n = c_root c -> x = 1%Q).
Proof.
  intros T D ops c p n x z q R E H W. destruct (c144_positions T D ops c R) as (p' & E' & _ & _ & P). rewrite E in E'. injection E' as <-.
  apply P in H. destruct H as (s & S & -> & ->). destruct (reachable_inv c R) as [[l G] _].
  split; [eapply placed_level; eassumption|]. split.
  - destruct (placed_shape c n s S) as [A B]. destruct (placed_name c l G n s S) as (_ & k & L & _).
    destruct (placed_inside c l G k (c_root c) n _ s L (P_root c) S) as [U V]. cbn [sl_lo sl_hi] in U, V. split; lra.
  - intros ->. rewrite (placed_unique c l G _ s S _ (P_root c)). reflexivity.
Qed.
Print Assumptions c144_height.

(** No two systems are drawn at the same position. *)
Theorem c144_distinct : forall (T D : Type) (ops : LcsOps T) (c : csm T D) p a b x x' z, reachable c ->
  positions c = Ok p -> dget a p = Some (x, z) -> dget b p = Some (x', z) -> (x == x')%Q -> a = b.
Proof.
  intros T D ops c p a b x x' z R E A B X. destruct (c144_positions T D ops c R) as (p' & E' & _ & _ & P). rewrite E in E'. injection E' as <-.
  apply P in A. apply P in B. destruct A as (s & S & -> & ->). destruct B as (t & Q & -> & LV). destruct (reachable_inv c R) as [[l G] _].
  destruct (placed_name c l G a s S) as (_ & k & K & KZ). destruct (placed_name c l G b t Q) as (_ & j & J & JZ).
  assert (j = k) as -> by lia. destruct (string_dec a b) as [|N]; [assumption|exfalso].
  destruct (placed_shape c a s S). destruct (placed_shape c b t Q).
  destruct (placed_apart c l G k a b s t K J N S Q); lra.
Qed.
Print Assumptions c144_distinct.

(** The branches do not cross: of two systems side by side, everything below the left
    one is left of everything below the right one. *)
Theorem c144_no_crossing : forall (T D : Type) (ops : LcsOps T) (c : csm T D) p a b a' b' xa xb xa' xb' z za zb, reachable c ->
  positions c = Ok p -> dget a p = Some (xa, z) -> dget b p = Some (xb, z) -> (xa < xb)%Q ->
  dget a' p = Some (xa', za) -> dget b' p = Some (xb', zb) -> below c a a' -> below c b b' -> (xa' < xb')%Q.
Proof.
  intros T D ops c p a b a' b' xa xb xa' xb' z za zb R E A B X A' B' BA BB.
  destruct (c144_positions T D ops c R) as (p' & E' & _ & _ & P). rewrite E in E'. injection E' as <-.
  apply P in A. apply P in B. apply P in A'. apply P in B'. destruct A as (s & S & -> & ->). destruct B as (t & Q & -> & LV).
  destruct A' as (s' & S' & -> & _). destruct B' as (t' & Q' & -> & _). destruct (reachable_inv c R) as [[l G] _].
  destruct (placed_name c l G a s S) as (_ & k & K & KZ). destruct (placed_name c l G b t Q) as (_ & j & J & JZ).
  assert (j = k) as -> by lia. assert (N : a <> b).
  { intros ->. rewrite (placed_unique c l G b s S t Q) in X. lra. }
  apply (below_anc c l G) in BA; [|apply (placed_name c l G a' s' S')]. apply (below_anc c l G) in BB; [|apply (placed_name c l G b' t' Q')].
  destruct BA as [u BA]. destruct BB as [v BB].
  destruct (placed_inside c l G u a a' s s' BA S S'). destruct (placed_inside c l G v b b' t t' BB Q Q').
  destruct (placed_shape c a s S). destruct (placed_shape c b t Q). destruct (placed_shape c a' s' S'). destruct (placed_shape c b' t' Q').
  destruct (placed_apart c l G k a b s t K J N S Q); lra.
Qed.
Print Assumptions c144_no_crossing.

(** The children of a system are drawn symmetrically below it; an only child is
    exactly below. *)
Theorem c144_symmetric : forall (T D : Type) (ops : LcsOps T) (c : csm T D) p n ch i a b x xa xb z za zb, reachable c ->
  positions c = Ok p -> get_children c n = Ok ch -> nth_error ch i = Some a -> nth_error (rev ch) i = Some b ->
  dget n p = Some (x, z) -> dget a p = Some (xa, za) -> dget b p = Some (xb, zb) ->
  (xa + xb == 2 * x)%Q /\ za = (z - 1)%Z /\ zb = (z - 1)%Z.
Proof.
  intros T D ops c p n ch i a b x xa xb z za zb R E C IA IB N A B.
  destruct (c144_positions T D ops c R) as (p' & E' & _ & _ & P). rewrite E in E'. injection E' as <-.
  apply P in N. apply P in A. apply P in B. destruct N as (s & PS & -> & ->). destruct A as (t & TA & -> & ->). destruct B as (u & UB & -> & ->).
  destruct (reachable_inv c R) as [[l G] _].
  assert (I : i < List.length ch) by (apply nth_error_Some; congruence).
  assert (IR : nth_error ch (List.length ch - S i) = Some b).
  { rewrite <- IB. rewrite (nth_error_nth' ch b) by lia. rewrite (nth_error_nth' (rev ch) b) by (rewrite rev_length; lia). rewrite rev_nth by lia. reflexivity. }
  rewrite (placed_unique c l G a t TA _ (P_child c n s ch i a PS C IA)).
  rewrite (placed_unique c l G b u UB _ (P_child c n s ch _ b PS C IR)).
  split; [|split; reflexivity]. rewrite (placed_centre c n s PS). unfold part. cbn [sl_x].
  assert (KP : (0 < inject_Z (Z.of_nat (List.length ch)))%Q) by (apply num_pos; lia).
  assert (NE : (inject_Z (Z.of_nat (List.length ch - S i)) == inject_Z (Z.of_nat (List.length ch)) - inject_Z (Z.of_nat i) - 1)%Q).
  { rewrite Nat2Z.inj_sub by lia. rewrite Nat2Z.inj_succ. unfold Z.succ, Z.sub. rewrite !inject_Z_plus, inject_Z_opp, inject_Z_plus. ring. }
  rewrite NE. field. intros Z0. lra.
Qed.
Print Assumptions c144_symmetric.

(** Non-vacuity: r has the children a and c, b is below a, and d and e below b. *)
Example c144_m12 : exists p, positions m12 = Ok p /\ map (fun q => (fst q, (Qred (fst (snd q)), snd (snd q)))) p =
  [("r", (1, 0%Z)); ("a", (1 # 2, (-1)%Z)); ("c", (3 # 2, (-1)%Z)); ("b", (1 # 2, (-2)%Z)); ("d", (1 # 4, (-3)%Z)); ("e", (3 # 4, (-3)%Z))]%string%Q.
Proof. eexists. split; vm_compute; reflexivity. Qed.

(** ** edges *)
(** Each link is drawn once, either as a time dependent or as a static one, in the
    direction that was not defined. *)
Theorem c144_each_link_once : forall (T D : Type) (ops : LcsOps T) (c : csm T D), reachable c ->
  let drawn := (tdp_edges c ++ stc_edges c)%list in
  NoDup drawn /\ (forall u v, In (u, v) drawn -> exists e, In e (c_edges c) /\ e_src e = u /\ e_dst e = v /\ e_def e = false) /\
  forall u v, linked c u v -> (In (u, v) drawn /\ ~ In (v, u) drawn) \/ (In (v, u) drawn /\ ~ In (u, v) drawn).
Proof.
  intros T D ops c R drawn. pose proof (c14_reachable_is_tree T D ops c R) as I. destruct (drawn_edges c I) as [N K].
  split; [exact N|]. split.
  - intros u v H. apply K. exact H.
  - assert (one : forall u v, In (u, v) drawn -> In (v, u) drawn -> False).
    { intros u v H H'. apply K in H. apply K in H'. destruct H as (e & H & A & B & F). destruct H' as (e' & H' & A' & B' & F').
      destruct (tr_defined _ I e H F) as (t & X & _).
      assert (Y : e' = Edge (e_dst e) (e_src e) (Some t) true) by (apply (unique_edge c I); [exact H'|exact X|cbn; congruence|cbn; congruence]).
      rewrite Y in F'. discriminate. }
    intros u v (e & H & <- & <-). destruct (e_def e) eqn:F.
    + right. destruct (tr_reverse _ I e H F) as (t & _ & X). assert (Y : In (e_dst e, e_src e) drawn).
      { apply K. exists (Edge (e_dst e) (e_src e) (stored_inverse t) false). auto. }
      split; [exact Y|]. intros Z. eapply one; eassumption.
    + left. assert (Y : In (e_src e, e_dst e) drawn) by (apply K; exists e; auto). split; [exact Y|]. intros Z. eapply one; eassumption.
Qed.
Print Assumptions c144_each_link_once.

(** A link is drawn as time dependent when its transformation is an expression or its
    inverse is time dependent, and as static otherwise. *)
Theorem c144_link_colour : forall (T D : Type) (ops : LcsOps T) (c : csm T D) e t, reachable c ->
  In e (c_edges c) -> e_def e = true -> e_tr e = Some t ->
  (In (e_dst e, e_src e) (tdp_edges c) <-> l_expr t = true \/ l_timedep (l_inv t) = true) /\
  (In (e_dst e, e_src e) (stc_edges c) <-> l_expr t = false /\ l_timedep (l_inv t) = false).
Proof.
  intros T D ops c e t R H F E. pose proof (c14_reachable_is_tree T D ops c R) as I. destruct (tr_reverse _ I e H F) as (t' & E' & X).
  rewrite E in E'. injection E' as <-. pose proof (drawn_kind c I _ X eq_refl) as K. cbn [e_src e_dst e_tr] in K.
  rewrite in_tdp, in_stc, K, in_all. unfold stored_inverse in *.
  assert (J : exists e0, In e0 (c_edges c) /\ e_src e0 = e_dst e /\ e_dst e0 = e_src e /\ e_def e0 = false) by (eexists; split; [exact X|auto]).
  destruct (l_expr t); [intuition congruence|]. destruct (l_timedep (l_inv t)); intuition congruence.
Qed.
Print Assumptions c144_link_colour.

(** Non-vacuity: a is static, b moves. *)
Definition m_colour : tmgr := mk "r" "m" None [add "a" "r" (st 1); OAdd "b" "a" (td 2) false].
Example c144_colours : tdp_edges m_colour = [("b", "a")]%string /\ stc_edges m_colour = [("r", "a")]%string.
Proof. vm_compute. auto. Qed.
