(** Properties of [TimeSeries]. *)
From Coq Require Import List ZArith String Bool Lia Reals.
From Verif Require Import Base TimeModel TimeSpec TimeFacts InterpModel InterpSpec InterpFacts LinModel LinFacts TsModel TsSpec TsFacts.
Import ListNotations.
Open Scope Z_scope.
Open Scope list_scope.

(** * C86: values at the requested moments *)

(** Discrete values: the result has the values of the series at the requested
    moments, and the requested times. *)
Theorem c86_discrete : forall (A E : Type) (seg : string -> segment A) (ev : E -> Z -> A) s x t d m,
  s_data s = SDisc d m -> discrete s -> exact_seg (seg m) ->
  mk_time x None = Ok t -> tlen t <> 0%nat -> can_request s t ->
  exists td r l m', interp_time seg ev s x = Ok (Ts (SDisc (Da td r l) m') (S (s_count s)))
    /\ Forall2 (has_value seg ev s) (requested (series_ref s) t) l
    /\ map (moment r) td = vals t
    /\ m' = (if Nat.leb 2 (tlen t) then m else "step"%string).
Proof.
  intros A E seg ev s x t d m Sd D X Mt Lt C.
  destruct (interp_disc seg ev s x t d m Sd D X Mt Lt C) as (l & F & td & r & Rt & Mo & Ei).
  pose proof (F2_length _ _ _ F) as L. rewrite requested_length in L. rewrite L.
  exists td, r, l, (if Nat.leb 2 (List.length l) then m else "step"%string). split; [assumption|].
  unfold series_ref. rewrite Sd. auto.
Qed.
Print Assumptions c86_discrete.

(** the value at a moment is unique, and the samples are values *)
Theorem c86_value_unique : forall (A E : Type) (seg : string -> segment A) (ev : E -> Z -> A) s z v w,
  discrete s -> (forall m, exact_seg (seg m)) -> has_value seg ev s z v -> has_value seg ev s z w -> v = w.
Proof.
  intros A E seg ev s z v w D X. destruct (s_data s) as [d m|e r] eqn:Sd.
  - apply (has_value_fun seg ev s z v w d m Sd D (X m)).
  - unfold discrete in D. rewrite Sd in D. destruct D.
Qed.
Print Assumptions c86_value_unique.

Theorem c86_samples : forall (A E : Type) (seg : string -> segment A) (ev : E -> Z -> A) s d m z v,
  s_data s = SDisc d m -> discrete s -> (forall m, exact_seg (seg m)) -> In (z, v) (moments d) -> has_value seg ev s z v.
Proof. intros A E seg ev s d m z v Sd D X. apply (has_value_sample seg ev s z v d m Sd D (X m)). Qed.
Print Assumptions c86_samples.

(** Interpolating the result again at the same times changes nothing. *)
Theorem c86_again : forall (A E : Type) (seg : string -> segment A) (ev : E -> Z -> A) s x t r,
  discrete s -> (forall m, exact_seg (seg m)) ->
  mk_time x None = Ok t -> tlen t <> 0%nat -> strictly_increasing (vals t) -> can_request s t ->
  interp_time seg ev s x = Ok r ->
  exists r', interp_time seg ev r x = Ok r' /\ s_data r' = s_data r.
Proof.
  intros A E seg ev s x t r D X Mt Lt Inc C H. destruct (s_data s) as [d m|e q] eqn:Sd.
  - apply (interp_again seg ev s x t d m r Sd D (X m) (X _) Mt Lt Inc C H).
  - unfold discrete in D. rewrite Sd in D. destruct D.
Qed.
Print Assumptions c86_again.

(** Expressions are evaluated at the time since the reference time of the series;
    without one, since the reference time of the request. *)
Theorem c86_expression : forall (A E : Type) (seg : string -> segment A) (ev : E -> Z -> A) s x t e ref,
  s_data s = SExpr e ref -> mk_time x None = Ok t -> tlen t <> 0%nat ->
  exists td b, (match ref with Some r => Ok (Some r) | None => reference_time t end) = Ok b
    /\ map (moment b) td = requested ref t
    /\ interp_time seg ev s x = Ok (Ts (SDisc (Da td b (map (ev e) td)) "step"%string) (S (s_count s))).
Proof. intros A E seg ev s x t e ref Sd Mt Lt. exact (interp_expr seg ev s x t e ref Sd Mt Lt). Qed.
Print Assumptions c86_expression.

Definition ex_seg : string -> segment Z := fun _ t0 t1 a b t => if t <=? t0 then a else if t1 <=? t then b else a + (b - a) * (t - t0) / (t1 - t0).
Definition ex_ev : unit -> Z -> Z := fun _ t => t.
Definition ex_series : series Z unit := Ts (SDisc (Da [0; 10; 20] (Some 100) [1; 5; 3]) "linear"%string) 0.
Example c86_ex_exact : forall m, exact_seg (ex_seg m).
Proof.
  intros m t0 t1 a b H. unfold ex_seg. rewrite Z.leb_refl. split; [reflexivity|].
  destruct (Z.leb_spec t1 t0); [lia|]. rewrite Z.leb_refl. reflexivity.
Qed.
Example c86_ex : discrete ex_series /\ can_request ex_series (mkTime (PDeltas [5; 15]) None)
  /\ interp_time ex_seg ex_ev ex_series (LPandas (PDeltas [5; 15]))
     = Ok (Ts (SDisc (Da [5; 15] None [3; 4]) "linear"%string) 1)
  /\ interp_time ex_seg ex_ev ex_series (LPandas (PStamps [90; 105; 115; 300]))
     = Ok (Ts (SDisc (Da [0; 15; 25; 210] (Some 90) [1; 3; 4; 3]) "linear"%string) 1).
Proof.
  split; [|split; [right; left; discriminate|split; reflexivity]].
  split; [cbn; lia|]. split; [reflexivity|]. split; [right; left; reflexivity|discriminate].
Qed.
(** the constructor makes such series *)
Example c86_ex_new : @new_series Z unit (IQuantity [1; 5; 3]) (Some (LPandas (PDeltas [0; 10; 20]))) (Some "linear"%string) (Some 100)
  = Ok ex_series.
Proof. reflexivity. Qed.

(** * C87: reference times of interpolated series *)

(** The result has the reference time of the request, not the one of the series. *)
Theorem c87_discrete : forall (A E : Type) (seg : string -> segment A) (ev : E -> Z -> A) s x t r,
  discrete s -> (forall m, exact_seg (seg m)) ->
  mk_time x None = Ok t -> tlen t <> 0%nat -> can_request s t ->
  interp_time seg ev s x = Ok r -> Ok (series_ref r) = reference_time t.
Proof.
  intros A E seg ev s x t r D X Mt Lt C H. destruct (s_data s) as [d m|e q] eqn:Sd.
  - destruct (interp_disc seg ev s x t d m Sd D (X m) Mt Lt C) as (l & F & td & q & Rt & Mo & Ei).
    rewrite Ei in H. injection H as <-. symmetry. exact Rt.
  - unfold discrete in D. rewrite Sd in D. destruct D.
Qed.
Print Assumptions c87_discrete.

(** So relative times give a relative series, and the moments of an absolute series
    are lost; the same request keeps the reference time of an expression. *)
Theorem c87_lost_refuted : exists (s e : series Z unit) x r q,
  discrete s /\ series_ref s = Some 100 /\ series_ref e = Some 100
  /\ interp_time ex_seg ex_ev s x = Ok r /\ series_ref r = None
  /\ interp_time ex_seg ex_ev e x = Ok q /\ series_ref q = Some 100.
Proof.
  exists ex_series, (Ts (SExpr tt (Some 100)) 0), (LPandas (PDeltas [5; 15])). do 2 eexists.
  split; [exact (proj1 c86_ex)|]. repeat split.
Qed.
Print Assumptions c87_lost_refuted.

Theorem c87_expression : forall (A E : Type) (seg : string -> segment A) (ev : E -> Z -> A) s x t e ref r,
  s_data s = SExpr e ref -> mk_time x None = Ok t -> tlen t <> 0%nat -> interp_time seg ev s x = Ok r ->
  Ok (series_ref r) = match ref with Some z => Ok (Some z) | None => reference_time t end.
Proof.
  intros A E seg ev s x t e ref r Sd Mt Lt H.
  destruct (interp_expr seg ev s x t e ref Sd Mt Lt) as (td & b & B & _ & Ei).
  rewrite Ei in H. injection H as <-. symmetry. exact B.
Qed.
Print Assumptions c87_expression.

(** * C88: saving and loading *)

Theorem c88_time : forall t, constructed t -> time_io t = Ok t.
Proof. intros t H. apply time_io_id, constructed_wf, H. Qed.
Print Assumptions c88_time.

Theorem c88_discrete : forall (A E : Type) (s : series A E) d m,
  s_data s = SDisc d m -> discrete s -> (2 <= List.length (a_vals d))%nat ->
  bind (to_yaml s) from_yaml = Ok (Ts (s_data s) 0).
Proof. intros A E s d m. exact (io_discrete s d m). Qed.
Print Assumptions c88_discrete.

Example c88_ex : bind (to_yaml ex_series) from_yaml = Ok ex_series.
Proof. reflexivity. Qed.

(** a constant keeps its value at every time *)
Theorem c88_constant : forall (A E : Type) (seg : string -> segment A) (ev : E -> Z -> A) (s : series A E) d m v,
  s_data s = SDisc d m -> a_vals d = [v] ->
  exists s', bind (to_yaml s) from_yaml = Ok s' /\
    (forall z w, has_value seg ev s z w <-> has_value seg ev s' z w).
Proof.
  intros A E seg ev s d m v Sd V. eexists. unfold to_yaml. rewrite Sd, V.
  split; [reflexivity|]. intros z w. unfold has_value. rewrite Sd, V. cbn. tauto.
Qed.
Print Assumptions c88_constant.

(** but not its time: the loaded series is not equal to the saved one *)
Theorem c88_constant_refuted : exists (s s' : series Z unit),
  new_series (IQuantity [7]) (Some (LPandas (PDelta 5))) None (Some 100) = Ok s
  /\ bind (to_yaml s) from_yaml = Ok s' /\ series_eq Z.eqb (fun _ _ => true) s s' = false
  /\ series_ref s = Some 100 /\ series_ref s' = None.
Proof. do 2 eexists. repeat split. Qed.
Print Assumptions c88_constant_refuted.

Theorem c88_expression : forall (A E : Type) (s : series A E) e, s_data s = SExpr e None ->
  bind (to_yaml s) from_yaml = Ok (Ts (s_data s) 0).
Proof. intros A E s e Sd. unfold to_yaml. rewrite Sd. reflexivity. Qed.
Print Assumptions c88_expression.

(** The reference time of an expression is lost: the loaded series has other values
    at the same moments (and is nevertheless "equal"). *)
Theorem c88_expression_refuted : exists (s s' r r' : series Z unit) x,
  new_series (IExpr tt) None None (Some 100) = Ok s
  /\ bind (to_yaml s) from_yaml = Ok s'
  /\ interp_time ex_seg ex_ev s x = Ok r /\ interp_time ex_seg ex_ev s' x = Ok r'
  /\ s_data r = SDisc (Da [30; 40] (Some 100) [30; 40]) "step"%string
  /\ s_data r' = SDisc (Da [0; 10] (Some 130) [0; 10]) "step"%string
  /\ series_eq Z.eqb (fun _ _ => true) s s' = true.
Proof. do 4 eexists. exists (LPandas (PStamps [130; 140])). repeat split. Qed.
Print Assumptions c88_expression_refuted.

(** * C89: equality *)

Lemma list_eqb_eq {B} (f : B -> B -> bool) : (forall x y, f x y = true -> x = y) ->
  forall l m, list_eqb f l m = true -> l = m.
Proof.
  intros H. induction l as [|x l IH]; intros [|y m]; cbn; try discriminate; [reflexivity|].
  intros K. apply andb_prop in K as [K1 K2]. f_equal; auto.
Qed.

(** Discrete series that compare equal are the same apart from the counter. *)
Theorem c89_discrete : forall (A E : Type) (veqb : A -> A -> bool) (eeqb : E -> E -> bool) s s' d m,
  (forall x y, veqb x y = true -> x = y) ->
  s_data s = SDisc d m -> series_eq veqb eeqb s s' = true -> s_data s = s_data s'.
Proof.
  intros A E veqb eeqb s s' d m V Sd. unfold series_eq. rewrite Sd. destruct (s_data s') as [d' m'|]; [|discriminate].
  intros H. apply andb_prop in H as [H Hm]. apply andb_prop in H as [H Hv]. apply andb_prop in H as [Ht Hr].
  apply (list_eqb_eq Z.eqb) in Ht; [|intros; apply Z.eqb_eq; assumption].
  apply (list_eqb_eq veqb) in Hv; [|assumption].
  apply opt_eqb_spec in Hr. apply String.eqb_eq in Hm.
  destruct d, d'; cbn in *. congruence.
Qed.
Print Assumptions c89_discrete.

Theorem c89_values : forall (A E : Type) (seg : string -> segment A) (ev : E -> Z -> A)
    (veqb : A -> A -> bool) (eeqb : E -> E -> bool) s s',
  (forall x y, veqb x y = true -> x = y) -> (forall x y, eeqb x y = true -> forall t, ev x t = ev y t) ->
  series_eq veqb eeqb s s' = true -> series_ref s = series_ref s' ->
  forall z v, has_value seg ev s z v <-> has_value seg ev s' z v.
Proof.
  intros A E seg ev veqb eeqb s s' V Q H R z v. destruct (s_data s) as [d m|e r] eqn:Sd.
  - pose proof (c89_discrete A E veqb eeqb s s' d m V Sd H) as K. unfold has_value. rewrite <- K. tauto.
  - unfold series_eq in H. rewrite Sd in H. destruct (s_data s') as [|e' r'] eqn:Sd'; [discriminate|].
    unfold series_ref in R. rewrite Sd, Sd' in R. subst r'.
    unfold has_value. rewrite Sd, Sd', (Q e e' H). tauto.
Qed.
Print Assumptions c89_values.

(** expressions with different reference times compare equal *)
Theorem c89_expression_refuted : exists (s s' : series Z unit) z v,
  series_eq Z.eqb (fun _ _ => true) s s' = true
  /\ has_value ex_seg ex_ev s z v /\ ~ has_value ex_seg ex_ev s' z v.
Proof.
  exists (Ts (SExpr tt (Some 100)) 0), (Ts (SExpr tt (Some 0)) 0), 130, 30.
  split; [reflexivity|]. split; [reflexivity|]. cbn. unfold ex_ev. lia.
Qed.
Print Assumptions c89_expression_refuted.

(** reflexive and symmetric *)
Theorem c89_reflexive : forall (A E : Type) (veqb : A -> A -> bool) (eeqb : E -> E -> bool) (s : series A E),
  (forall x, veqb x x = true) -> (forall x, eeqb x x = true) -> series_eq veqb eeqb s s = true.
Proof.
  intros A E veqb eeqb s V Q. unfold series_eq.
  assert (L : forall B (f : B -> B -> bool), (forall x, f x x = true) -> forall l, list_eqb f l l = true).
  { intros B f H. induction l as [|x l IH]; cbn; [reflexivity|]. rewrite H, IH. reflexivity. }
  destruct (s_data s) as [d m|e r]; [|apply Q].
  rewrite (L Z Z.eqb Z.eqb_refl), (L A veqb V), String.eqb_refl.
  rewrite (proj2 (opt_eqb_spec (a_ref d) (a_ref d)) eq_refl). reflexivity.
Qed.
Print Assumptions c89_reflexive.

Theorem c89_symmetric : forall (A E : Type) (veqb : A -> A -> bool) (eeqb : E -> E -> bool) (s s' : series A E),
  (forall x y, veqb x y = veqb y x) -> (forall x y, eeqb x y = eeqb y x) ->
  series_eq veqb eeqb s s' = series_eq veqb eeqb s' s.
Proof.
  intros A E veqb eeqb s s' V Q. unfold series_eq.
  assert (L : forall B (f : B -> B -> bool), (forall x y, f x y = f y x) -> forall l m, list_eqb f l m = list_eqb f m l).
  { intros B f H. induction l as [|x l IH]; intros [|y m]; cbn; try reflexivity. rewrite H, IH. reflexivity. }
  destruct (s_data s) as [d m|e r], (s_data s') as [d' m'|e' r']; try reflexivity; [|apply Q].
  rewrite (L Z Z.eqb Z.eqb_sym), (L A veqb V), String.eqb_sym.
  assert (O : opt_eqb (a_ref d) (a_ref d') = opt_eqb (a_ref d') (a_ref d)).
  { destruct (a_ref d), (a_ref d'); cbn; try reflexivity. apply Z.eqb_sym. }
  rewrite O. reflexivity.
Qed.
Print Assumptions c89_symmetric.

(** Another reference time does not change the moments of the samples. *)
Theorem c86_reset : forall (A : Type) (d : darr A) r r0, a_ref d = Some r0 ->
  moments (reset_ref d r) = moments d /\ a_ref (reset_ref d r) = Some r /\ a_vals (reset_ref d r) = a_vals d.
Proof.
  intros A d r r0 H. unfold reset_ref, moments. rewrite H. cbn [a_ref a_times a_vals]. split; [|now split]. f_equal.
  rewrite map_map. apply map_ext. intro t. cbn [moment]. lia.
Qed.
Print Assumptions c86_reset.
(** Without a reference time the times become relative to the new one. *)
Theorem c86_reset_deltas : forall (A : Type) (d : darr A) r, a_ref d = None ->
  a_times (reset_ref d r) = a_times d /\ a_ref (reset_ref d r) = Some r /\ a_vals (reset_ref d r) = a_vals d.
Proof. intros A d r H. unfold reset_ref. rewrite H. now repeat split. Qed.
Print Assumptions c86_reset_deltas.
