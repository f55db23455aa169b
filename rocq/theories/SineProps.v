(** Properties of series that are created by [sine]. *)
From Coq Require Import Reals ZArith Bool Lra Lia.
From Verif Require Import Base SineModel.
Open Scope R_scope.

Lemma dim_ok a b : dim_eqb a b = true <-> a = b.
Proof.
  destruct a as [a1 a2], b as [b1 b2]. unfold dim_eqb. cbn [fst snd].
  rewrite andb_true_iff, !Z.eqb_eq. split; [intros [-> ->]; reflexivity|intros [= -> ->]; auto].
Qed.
Definition or_zero (o : option qty) : R := match o with Some q => q_val q | None => 0 end.
Lemma eval_ok a b o p t : q_dim o = (-1, 0)%Z -> q_dim p = (0, 0)%Z -> q_dim b = q_dim a ->
  evaluate (Pa a b o p) (seconds t) =
  Ok (Qt (q_val a * sin (q_val o * t + q_val p) + q_val b) (q_dim a)).
Proof.
  intros O P B. unfold evaluate, qadd at 1. cbn [p_a p_b p_o p_p]. unfold qmul at 1 2 3 4. cbn [q_dim q_val seconds].
  rewrite O, P. cbn [fst snd]. change (dim_eqb (-1 + 1, 0 + 0)%Z (0, 0)%Z) with true. cbv iota. cbn [bind].
  unfold qsin. cbn [q_dim q_val]. change (dim_eqb (-1 + 1, 0 + 0)%Z (0, 0)%Z) with true. cbv iota. cbn [bind].
  unfold qadd, qmul. cbn [q_dim q_val fst snd]. rewrite !Z.add_0_r, B.
  destruct (q_dim a) as [x y]. cbn [fst snd]. now rewrite (proj2 (dim_ok (x, y) (x, y)) eq_refl).
Qed.

(** The series is created exactly if the units fit. *)
Theorem c114_accepts f amp bias phase :
  (exists s, sine f amp bias phase = Ok s) <->
  (forall b, bias = Some b -> q_dim b = q_dim amp) /\
  (forall p, phase = Some p -> q_dim p = (0, 0)%Z) /\ q_dim f = (-1, 0)%Z.
Proof.
  split.
  - intros [s H]. unfold sine, evaluate, qadd, qsin, qmul in H. cbn [p_a p_b p_o p_p q_dim q_val seconds fst snd] in H.
    set (ph := match phase with Some p => p | None => Qt 0 (0, 0)%Z end) in *.
    set (bi := match bias with Some b => b | None => Qt 0 (q_dim amp) end) in *.
    destruct (dim_eqb (0 + fst (q_dim f) + 1, 0 + snd (q_dim f) + 0)%Z (q_dim ph)) eqn:A; [|discriminate].
    cbn [bind q_dim q_val] in H.
    destruct (dim_eqb (0 + fst (q_dim f) + 1, 0 + snd (q_dim f) + 0)%Z (0, 0)%Z) eqn:B; [|discriminate].
    cbn [bind q_dim q_val fst snd] in H.
    destruct (dim_eqb (fst (q_dim amp) + 0, snd (q_dim amp) + 0)%Z (q_dim bi)) eqn:C; [|discriminate].
    apply dim_ok in A, B, C. rewrite !Z.add_0_r in C. repeat split.
    + intros b ->. subst bi. rewrite <- C. now destruct (q_dim amp).
    + intros p ->. subst ph. now rewrite <- A.
    + destruct (q_dim f) as [x y]. cbn [fst snd] in B. injection B as B1 B2. f_equal; lia.
  - intros (B & P & F). unfold sine. rewrite eval_ok; [eexists; reflexivity| | |].
    + unfold qmul. cbn [q_dim]. now rewrite F.
    + destruct phase as [p|]; [now apply P|reflexivity].
    + destruct bias as [b|]; [now apply B|reflexivity].
Qed.
Print Assumptions c114_accepts.
Theorem c114_errors f amp bias phase e : sine f amp bias phase = Err e -> e = WeldxException.
Proof.
  unfold sine, evaluate, qadd, qsin. intros H.
  repeat (match type of H with context [if ?c then _ else _] => destruct c end; cbn [bind] in H; try (now injection H as <-); try discriminate).
Qed.
Print Assumptions c114_errors.
(** Its values; a missing bias or phase is 0. *)
Theorem c114_values f amp bias phase s t : sine f amp bias phase = Ok s ->
  evaluate s (seconds t) =
  Ok (Qt (q_val amp * sin (2 * PI * q_val f * t + or_zero phase) + or_zero bias) (q_dim amp)).
Proof.
  intros H. destruct (proj1 (c114_accepts f amp bias phase) (ex_intro _ _ H)) as (B & P & F).
  revert H. unfold sine.
  set (ph := match phase with Some p => p | None => Qt 0 (0, 0)%Z end).
  set (bi := match bias with Some b => b | None => Qt 0 (q_dim amp) end).
  assert (O : q_dim (qmul (Qt (2 * PI) (0, 0)%Z) f) = (-1, 0)%Z) by (unfold qmul; cbn [q_dim]; now rewrite F).
  assert (P' : q_dim ph = (0, 0)%Z) by (subst ph; destruct phase; [now apply P|reflexivity]).
  assert (B' : q_dim bi = q_dim amp) by (subst bi; destruct bias; [now apply B|reflexivity]).
  rewrite eval_ok by assumption. intros [= <-]. rewrite eval_ok by assumption.
  unfold qmul. cbn [q_val]. subst ph bi. now destruct phase, bias.
Qed.
Print Assumptions c114_values.
(** The period is 1/f and the values stay within the amplitude around the bias. *)
Theorem c114_period f amp bias phase s t : sine f amp bias phase = Ok s -> q_val f <> 0 ->
  evaluate s (seconds (t + 1 / q_val f)) = evaluate s (seconds t).
Proof.
  intros H N. rewrite !(c114_values _ _ _ _ _ _ H). do 4 f_equal.
  replace (2 * PI * q_val f * (t + 1 / q_val f) + or_zero phase)
    with (2 * PI * q_val f * t + or_zero phase + 2 * INR 1 * PI) by (cbn [INR]; field; exact N).
  apply sin_period.
Qed.
Print Assumptions c114_period.
Theorem c114_bounds f amp bias phase s t v : sine f amp bias phase = Ok s -> evaluate s (seconds t) = Ok v ->
  Rabs (q_val v - or_zero bias) <= Rabs (q_val amp).
Proof.
  intros H E. rewrite (c114_values _ _ _ _ _ _ H) in E. injection E as <-. cbn [q_val].
  replace (q_val amp * sin (2 * PI * q_val f * t + or_zero phase) + or_zero bias - or_zero bias)
    with (q_val amp * sin (2 * PI * q_val f * t + or_zero phase)) by ring.
  rewrite Rabs_mult. rewrite <- (Rmult_1_r (Rabs (q_val amp))) at 2.
  apply Rmult_le_compat_l; [apply Rabs_pos|]. apply Rabs_le. pose proof (SIN_bound (2 * PI * q_val f * t + or_zero phase)). lra.
Qed.
Print Assumptions c114_bounds.
(** False, but documented: the values are amp*sin(f*t+phase)+bias. *)
Theorem c114_formula_refuted : exists f amp s t v,
  sine f amp None None = Ok s /\ evaluate s (seconds t) = Ok v /\ q_val v <> q_val amp * sin (q_val f * t).
Proof.
  exists (Qt 1 (-1, 0)%Z), (Qt 1 (0, 1)%Z).
  destruct (proj2 (c114_accepts (Qt 1 (-1, 0)%Z) (Qt 1 (0, 1)%Z) None None)) as [s H].
  { repeat split; discriminate. }
  exists s, 1. eexists. split; [exact H|]. split; [apply (c114_values _ _ _ _ _ 1 H)|].
  cbn [q_val or_zero]. replace (2 * PI * 1 * 1 + 0) with (2 * PI) by ring. rewrite sin_2PI.
  assert (0 < sin (1 * 1)); [|lra]. rewrite Rmult_1_l. apply sin_gt_0; [lra|]. pose proof PI2_1. lra.
Qed.
Print Assumptions c114_formula_refuted.

Example ex_c114 : exists s, sine (Qt 2 (-1, 0)%Z) (Qt 3 (0, 1)%Z) (Some (Qt 5 (0, 1)%Z)) None = Ok s /\
  evaluate s (seconds (1 / 8)) = Ok (Qt 8 (0, 1)%Z).
Proof.
  destruct (proj2 (c114_accepts (Qt 2 (-1, 0)%Z) (Qt 3 (0, 1)%Z) (Some (Qt 5 (0, 1)%Z)) None)) as [s H].
  { repeat split; intros ? [= <-]; reflexivity. }
  exists s. split; [exact H|]. rewrite (c114_values _ _ _ _ _ _ H). cbn [q_val or_zero q_dim]. do 2 f_equal.
  replace (2 * PI * 2 * (1 / 8) + 0) with (PI / 2) by field. rewrite sin_PI2. ring.
Qed.
