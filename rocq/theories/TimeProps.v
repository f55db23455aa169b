(** Properties C01-C06: class [Time]. *)
From Coq Require Import List ZArith Bool Permutation.
From Verif Require Import Base TimeModel TimeSpec TimeFacts.
Import ListNotations.
Open Scope Z_scope.

(** C01: whatever is computed with public operations (including assignments to
    [reference_time]) has non-decreasing values. *)
Theorem c01_values_nondecreasing :
  forall e t, teval e = Ok t -> nondecreasing (vals t).
Proof. exact teval_sorted. Qed.
Print Assumptions c01_values_nondecreasing.

(** C01: values which are not sorted are rejected with ValueError. *)
Theorem c01_unsorted_rejected :
  forall l ref, ~ nondecreasing l ->
  mk_time (LPandas (PDeltas l)) ref = Err ValueError
  /\ mk_time (LPandas (PStamps l)) ref = Err ValueError
  /\ (forall q, mk_time (LQuantity l q) ref = Err ValueError).
Proof. exact unsorted_rejected. Qed.
Print Assumptions c01_unsorted_rejected.

(** All programs without assignment to [reference_time] yield times that the
    constructor could have produced; this is the hypothesis of the statements
    below. *)
Theorem c01_results_are_constructed :
  forall e t, no_set_ref e = true -> teval e = Ok t -> constructed t.
Proof. exact teval_constructed. Qed.
Print Assumptions c01_results_are_constructed.

Example c01_example :
  teval (TUnion (XTime (TAdd (TNew (XPandas (PDeltas [1; 3])) None) (XPandas (PStamp 10))))
                (XCons (XPandas (PStamps [5; 12])) XNil))
  = Ok (mkTime (PStamps [5; 11; 12; 13]) None).
Proof. reflexivity. Qed.
Example c01_unsorted : ~ nondecreasing [2; 1].
Proof. intros H. specialize (H 0%nat 1%nat 2 1 (le_S _ _ (le_n _)) eq_refl eq_refl). now apply H. Qed.
(** equal neighbours are accepted: the values need not be strictly increasing *)
Example c01_duplicates : mk_time (LPandas (PDeltas [1; 1])) None = Ok (mkTime (PDeltas [1; 1]) None).
Proof. reflexivity. Qed.

(** C02: absolute time plus delta, in both orders: the moments are shifted and the
    reference time is kept.  The sum exists exactly for compatible lengths. *)
Theorem c02_add_absolute_delta :
  forall t d ref,
  constructed t -> constructed d -> is_absolute t = true -> is_absolute d = false ->
  reference_time t = Ok ref ->
  (compatible t d ->
   exists r, time_add t (LTime d) = Ok r /\ time_add d (LTime t) = Ok r
     /\ is_absolute r = true /\ reference_time r = Ok ref
     /\ tlen r = (if is_scalar t then tlen d else tlen t)
     /\ forall i, (i < tlen r)%nat -> at_pos r i = op2 Z.add (at_pos t i) (at_pos d i))
  /\ (~ compatible t d -> time_add t (LTime d) = Err ValueError /\ time_add d (LTime t) = Err ValueError).
Proof. exact add_abs_delta_c. Qed.
Print Assumptions c02_add_absolute_delta.

(** C02: (t + d) - d is t again (repeated if t is a scalar and d is not). *)
Theorem c02_add_sub_cancel :
  forall t d r,
  constructed t -> constructed d -> is_absolute t = true -> is_absolute d = false ->
  time_add t (LTime d) = Ok r ->
  exists t', time_sub r (LTime d) = Ok t'
    /\ is_absolute t' = true /\ reference_time t' = reference_time t
    /\ tlen t' = tlen r
    /\ forall i, (i < tlen t')%nat -> at_pos t' i = at_pos t i.
Proof. exact add_sub_cancel_c. Qed.
Print Assumptions c02_add_sub_cancel.

(** C02: the difference of absolute times is relative. *)
Theorem c02_sub_absolute_absolute :
  forall a b,
  constructed a -> constructed b -> is_absolute a = true -> is_absolute b = true ->
  (forall r, time_sub a (LTime b) = Ok r ->
     is_absolute r = false /\ reference_time r = Ok None
     /\ forall i, (i < tlen r)%nat -> at_pos r i = op2 Z.sub (at_pos a i) (at_pos b i))
  /\ time_rsub b (LTime a) = time_sub a (LTime b).
Proof. exact sub_abs_abs_c. Qed.
Print Assumptions c02_sub_absolute_absolute.

(** C02: absolute + absolute and delta - absolute are errors. *)
Theorem c02_invalid_operations :
  forall a b,
  constructed a -> constructed b -> tlen a <> 0%nat -> is_absolute b = true ->
  (is_absolute a = true -> time_add a (LTime b) = Err TypeError)
  /\ (is_absolute a = false -> time_sub a (LTime b) = Err TypeError
        /\ time_rsub b (LTime a) = Err TypeError).
Proof. exact invalid_operations. Qed.
Print Assumptions c02_invalid_operations.

(** C02: time deltas stay time deltas. *)
Theorem c02_delta_delta :
  forall a b r, constructed a -> constructed b -> is_absolute a = false -> is_absolute b = false ->
  (time_add a (LTime b) = Ok r \/ time_sub a (LTime b) = Ok r) ->
  is_absolute r = false /\ reference_time r = Ok None.
Proof. exact delta_delta_c. Qed.
Print Assumptions c02_delta_delta.

(** C02 is false for a time delta whose attribute [reference_time] was assigned:
    the object itself stays relative and without reference time, but used as right
    operand it turns the sum into an absolute time. *)
Theorem c02_delta_delta_after_assignment_refuted :
  exists a d r, constructed a /\ constructed d
    /\ is_absolute a = false
    /\ is_absolute (set_reference_time d 1000) = false
    /\ reference_time (set_reference_time d 1000) = Ok None
    /\ time_add a (LTime (set_reference_time d 1000)) = Ok r /\ is_absolute r = true.
Proof.
  exists (mkTime (PDelta 1) None), (mkTime (PDelta 2) None), (mkTime (PStamp 1003) (Some 1000)).
  repeat split; [exists (LPandas (PDelta 1)), None|exists (LPandas (PDelta 2)), None]; reflexivity.
Qed.
Print Assumptions c02_delta_delta_after_assignment_refuted.

(** C03: deltas plus reference time are the moments, and rebuilding from both
    gives the same moments and the same reference time. *)
Theorem c03_timedelta_round_trip :
  forall t, constructed t -> is_absolute t = true -> tlen t <> 0%nat ->
  exists r p l t', reference_time t = Ok (Some r) /\ as_timedelta t = Ok p
    /\ as_timedelta_index t = Ok l /\ map (fun z => z + r) l = vals t
    /\ mk_time (LPandas p) (Some r) = Ok t' /\ vals t' = vals t /\ reference_time t' = reference_time t.
Proof. exact rebuild_timedelta_c. Qed.
Print Assumptions c03_timedelta_round_trip.

(** C03: the round trip through a quantity (or DataArray) keeps the moments ... *)
Theorem c03_quantity_moments :
  forall t q, constructed t -> as_quantity t = Ok q ->
  exists t', mk_time q None = Ok t' /\ vals t' = vals t /\ is_absolute t' = is_absolute t.
Proof. exact quantity_moments_c. Qed.
Print Assumptions c03_quantity_moments.

(** ... but not the reference time: it becomes the first time stamp. *)
Theorem c03_quantity_reference_refuted :
  exists t q t', constructed t /\ as_quantity t = Ok q /\ mk_time q None = Ok t'
    /\ reference_time t = Ok (Some 0) /\ reference_time t' = Ok (Some 10).
Proof.
  exists (mkTime (PStamps [10; 20]) (Some 0)), (LQuantity [10; 20] (Some 0)), (mkTime (PStamps [10; 20]) None).
  repeat split. exists (LPandas (PStamps [10; 20])), (Some 0). reflexivity.
Qed.
Print Assumptions c03_quantity_reference_refuted.

(** C03: the reference time survives exactly if it is the first moment. *)
Theorem c03_quantity_reference :
  forall t q t', constructed t -> is_absolute t = true -> tlen t <> 0%nat ->
  as_quantity t = Ok q -> mk_time q None = Ok t' ->
  reference_time t' = Ok (nth_error (vals t) 0).
Proof. intros. eapply quantity_reference; eassumption. Qed.
Print Assumptions c03_quantity_reference.

Theorem c03_quantity_reference_kept :
  forall t q t', constructed t -> is_absolute t = true -> tlen t <> 0%nat ->
  as_quantity t = Ok q -> mk_time q None = Ok t' ->
  (reference_time t' = reference_time t <-> reference_time t = Ok (nth_error (vals t) 0)).
Proof.
  intros t q t' C A L Q M. rewrite (quantity_reference t q t' C A Q M L). split; congruence.
Qed.
Print Assumptions c03_quantity_reference_kept.

Example c03_example :
  constructed (mkTime (PStamps [10; 20]) None) /\ as_timedelta (mkTime (PStamps [10; 20]) None) = Ok (PDeltas [0; 10]).
Proof. split; [exists (LPandas (PStamps [10; 20])), None|]; reflexivity. Qed.

(** C04: union of duplicate-free inputs: strictly increasing, same elements. *)
Theorem c04_union_is_set_union :
  forall ts r us, time_union ts = Ok r ->
  Forall2 (fun x t => mk_time x None = Ok t) ts us ->
  (forall t, In t us -> NoDup (vals t)) ->
  strictly_increasing (vals r) /\ forall v, In v (vals r) <-> exists t, In t us /\ In v (vals t).
Proof. exact union_strict. Qed.
Print Assumptions c04_union_is_set_union.

(** C04: with duplicates the union is sorted and has the largest multiplicity. *)
Theorem c04_union_multiplicities :
  forall ts r us, time_union ts = Ok r ->
  Forall2 (fun x t => mk_time x None = Ok t) ts us ->
  nondecreasing (vals r) /\ forall v, count v (vals r) = maxcount v (map vals us).
Proof. exact union_mult. Qed.
Print Assumptions c04_union_multiplicities.

(** C04: the union exists for every non-empty list of inputs of one kind. *)
Theorem c04_union_exists :
  forall ts k us, ts <> [] ->
  Forall2 (fun x t => mk_time x None = Ok t /\ is_absolute t = k) ts us ->
  exists r, time_union ts = Ok r /\ is_absolute r = k.
Proof. exact time_union_ok. Qed.
Print Assumptions c04_union_exists.

(** C04: independent of order ... *)
Theorem c04_union_order_independent :
  forall ts ts' r, Permutation ts ts' -> time_union ts = Ok r -> time_union ts' = Ok r.
Proof. exact time_union_perm. Qed.
Print Assumptions c04_union_order_independent.

(** ... and grouping. *)
Theorem c04_union_grouping_independent :
  forall ts1 ts2 r r1, time_union (ts1 ++ ts2) = Ok r -> ts1 <> [] ->
  time_union ts1 = Ok r1 -> time_union (LTime r1 :: ts2) = Ok r.
Proof. exact union_group. Qed.
Print Assumptions c04_union_grouping_independent.

Example c04_example :
  time_union [LPandas (PDeltas [1; 3; 4]); LPandas (PDeltas [2; 4; 5]); LPandas (PDelta 3)]
  = Ok (mkTime (PDeltas [1; 2; 3; 4; 5]) None).
Proof. reflexivity. Qed.

(** C05: resampling with a number of steps [n]: exactly [n] sorted values, same
    first and last value, every value less than a nanosecond away from the exact
    division of the duration. *)
Theorem c05_resample_number :
  forall t n v0 v1, constructed t -> (2 <= tlen t)%nat -> 2 <= n -> first_last (vals t) v0 v1 ->
  exists r, time_resample t (RNumber n) = Ok r
    /\ is_absolute r = is_absolute t /\ reference_time r = reference_time t
    /\ Z.of_nat (tlen r) = n /\ first_last (vals r) v0 v1 /\ nondecreasing (vals r)
    /\ forall i v, nth_error (vals r) i = Some v ->
         Z.abs (v * (n - 1) - (v0 * (n - 1) + Z.of_nat i * (v1 - v0))) < n - 1.
Proof. intros t n v0 v1 H. apply constructed_wf in H. exact (resample_number t n v0 v1 H). Qed.
Print Assumptions c05_resample_number.

(** C05: resampling with an interval: all steps equal the interval, except for the
    last one, which is positive and not larger. *)
Theorem c05_resample_interval :
  forall t x d dt v0 v1, constructed t -> (2 <= tlen t)%nat ->
  mk_time x None = Ok d -> t_val d = PDelta dt -> 0 < dt -> first_last (vals t) v0 v1 ->
  exists r, time_resample t (RInterval x) = Ok r
    /\ is_absolute r = is_absolute t /\ reference_time r = reference_time t
    /\ first_last (vals r) v0 v1 /\ nondecreasing (vals r)
    /\ forall i a b, nth_error (vals r) i = Some a -> nth_error (vals r) (S i) = Some b ->
         if (S (S i) =? tlen r)%nat then 0 < b - a <= dt else b - a = dt.
Proof. intros t x d dt v0 v1 H. apply constructed_wf in H. exact (resample_interval t x d dt v0 v1 H). Qed.
Print Assumptions c05_resample_interval.

(** C05: invalid arguments. *)
Theorem c05_resample_errors :
  forall t,
  ((tlen t <= 1)%nat -> forall a, time_resample t a = Err RuntimeError)
  /\ (constructed t -> (2 <= tlen t)%nat -> forall n, n < 2 -> time_resample t (RNumber n) = Err ValueError)
  /\ (constructed t -> (2 <= tlen t)%nat -> forall x d dt, mk_time x None = Ok d -> t_val d = PDelta dt ->
        dt <= 0 -> time_resample t (RInterval x) = Err ValueError).
Proof. intros t. rewrite constructed_wf. exact (resample_errors t). Qed.
Print Assumptions c05_resample_errors.

Example c05_example_number :
  time_resample (mkTime (PDeltas [3; 6; 7; 9]) None) (RNumber 4) = Ok (mkTime (PDeltas [3; 5; 7; 9]) None).
Proof. reflexivity. Qed.
Example c05_example_interval :
  time_resample (mkTime (PStamps [3; 6; 7; 9]) None) (RInterval (LPandas (PDelta 4)))
  = Ok (mkTime (PStamps [3; 7; 9]) (Some 3)).
Proof. reflexivity. Qed.

(** C06: for constructed times of the same length, [equals] compares the values
    and the reference times that were passed explicitly. *)
Theorem c06_equals_decides :
  forall a b, constructed a -> constructed b -> tlen a = tlen b -> tlen a <> 0%nat ->
  exists r, time_equals a b = Ok r /\ (r = true <-> t_val a = t_val b /\ t_ref a = t_ref b).
Proof. intros a b Ha Hb. apply constructed_wf in Ha, Hb. exact (equals_same_length a b Ha Hb). Qed.
Print Assumptions c06_equals_decides.

(** C06: any two times.  A scalar is compared with each value of an index.  The
    result is [True] exactly if both are absolute or both are not, all values
    agree, and the reference times that were passed explicitly agree.  Indexes of
    different length raise. *)
Theorem c06_equals_exact :
  forall a b, constructed a -> constructed b -> tlen a <> 0%nat -> tlen b <> 0%nat ->
  (compatible a b -> exists r, time_equals a b = Ok r /\
     (r = true <-> is_absolute a = is_absolute b /\ t_ref a = t_ref b /\
        forall i, (i < Nat.max (tlen a) (tlen b))%nat -> at_pos a i = at_pos b i))
  /\ (~ compatible a b -> time_equals a b = Err ValueError).
Proof. intros a b Ha Hb. apply constructed_wf in Ha, Hb. exact (equals_total a b Ha Hb). Qed.
Print Assumptions c06_equals_exact.

Example c06_ex_exact :
  compatible (mkTime (PDelta 1) None) (mkTime (PDeltas [1; 1]) None)
  /\ time_equals (mkTime (PDelta 1) None) (mkTime (PDeltas [1; 1]) None) = Ok true
  /\ time_equals (mkTime (PDelta 1) None) (mkTime (PDeltas [1; 2]) None) = Ok false.
Proof. repeat split. left. reflexivity. Qed.

Theorem c06_equals_symmetric :
  forall a b, constructed a -> constructed b -> time_equals a b = time_equals b a.
Proof. intros a b Ha Hb. apply constructed_wf in Ha, Hb. exact (equals_sym a b Ha Hb). Qed.
Print Assumptions c06_equals_symmetric.

(** C06: an equivalence relation among the times of one length *)
Theorem c06_equals_transitive :
  forall a b c, constructed a -> constructed b -> constructed c ->
  tlen a = tlen b -> tlen b = tlen c -> tlen a <> 0%nat ->
  time_equals a b = Ok true -> time_equals b c = Ok true -> time_equals a c = Ok true.
Proof.
  intros a b c Ha Hb Hc L1 L2 L0 E1 E2. apply constructed_wf in Ha, Hb, Hc.
  destruct (equals_same_length a b Ha Hb L1 L0) as (r & E & X). rewrite E1 in E. injection E as <-.
  destruct (equals_same_length b c Hb Hc L2 ltac:(congruence)) as (r & E & Y). rewrite E2 in E. injection E as <-.
  destruct (equals_same_length a c Ha Hc ltac:(congruence) L0) as (r & E & Z). rewrite E. f_equal.
  apply Z. destruct (proj1 X eq_refl), (proj1 Y eq_refl). split; congruence.
Qed.
Print Assumptions c06_equals_transitive.

(** C06: [True] implies equal values and equal public reference times, unless a
    scalar is compared with an index. *)
Theorem c06_equals_sound :
  forall a b, constructed a -> constructed b -> is_scalar a = is_scalar b -> tlen a <> 0%nat ->
  time_equals a b = Ok true -> vals a = vals b /\ reference_time a = reference_time b.
Proof. intros a b Ha Hb. apply constructed_wf in Ha, Hb. exact (equals_sound a b Ha Hb). Qed.
Print Assumptions c06_equals_sound.

Theorem c06_equals_reflexive : forall a, constructed a -> time_equals a a = Ok true.
Proof. intros a Ha. apply constructed_wf in Ha. exact (equals_refl a Ha). Qed.
Print Assumptions c06_equals_reflexive.

(** C06 is false: same values and same [reference_time], but not equal. *)
Theorem c06_equals_implicit_reference_refuted :
  exists a b, constructed a /\ constructed b /\ vals a = vals b
    /\ reference_time a = reference_time b /\ time_equals a b = Ok false.
Proof.
  exists (mkTime (PStamps [1; 2]) None), (mkTime (PStamps [1; 2]) (Some 1)).
  repeat split; [exists (LPandas (PStamps [1; 2])), None|exists (LPandas (PStamps [1; 2])), (Some 1)]; reflexivity.
Qed.
Print Assumptions c06_equals_implicit_reference_refuted.

(** C06 is false: comparing times of different lengths raises. *)
Theorem c06_equals_different_length_refuted :
  exists a b, constructed a /\ constructed b /\ time_equals a b = Err ValueError.
Proof.
  exists (mkTime (PDeltas [1; 2]) None), (mkTime (PDeltas [1; 2; 3]) None).
  repeat split; [exists (LPandas (PDeltas [1; 2])), None|exists (LPandas (PDeltas [1; 2; 3])), None]; reflexivity.
Qed.
Print Assumptions c06_equals_different_length_refuted.

(** C06 is false: a constant index equals a scalar, and [equals] is not transitive. *)
Theorem c06_equals_scalar_refuted :
  exists a b c, constructed a /\ constructed b /\ constructed c
    /\ vals a <> vals b
    /\ time_equals a b = Ok true /\ time_equals b c = Ok true /\ time_equals a c <> Ok true.
Proof.
  exists (mkTime (PDeltas [1; 1]) None), (mkTime (PDelta 1) None), (mkTime (PDeltas [1; 1; 1]) None).
  repeat split; try discriminate;
    [exists (LPandas (PDeltas [1; 1])), None|exists (LPandas (PDelta 1)), None
    |exists (LPandas (PDeltas [1; 1; 1])), None]; reflexivity.
Qed.
Print Assumptions c06_equals_scalar_refuted.
