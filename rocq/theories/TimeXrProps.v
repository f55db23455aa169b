(** Properties of times in xarray objects and of comparisons with tolerances. *)
From Coq Require Import List ZArith Bool Lia.
From Verif Require Import Base TimeModel TimeSpec TimeFacts TimeXrModel.
Import ListNotations.
Open Scope Z_scope.

(** Time deltas with the reference time as attribute give back the same points in time, but
    without the reference time. *)
Theorem c115_roundtrip : forall t a, constructed t -> as_data_array t true = Ok a ->
  exists t', time_of_array a = Ok t' /\ t_val t' = t_val t /\ t_ref t' = None.
Proof.
  intros t a C H. apply constructed_wf in C. destruct C as [N W].
  unfold as_data_array in H. destruct (as_timedelta_index t) as [l|] eqn:L; [|discriminate].
  destruct (reference_time t) as [r|] eqn:Q; [|discriminate]. cbn [bind fst snd] in H. injection H as <-.
  unfold time_of_array, convert_xarray. cbn [a_ref a_stamps a_vals].
  destruct (is_absolute t) eqn:A.
  - destruct (ref_abs _ _ A Q) as [z ->]. rewrite (as_timedelta_moments _ _ _ A Q L). cbn [bind].
    destruct t as [[x|x|m|m] r0]; cbn in A; try discriminate; cbn [vals t_val]; unfold mk_time; cbn [get_time_input].
    + cbn. eexists. repeat split.
    + cbn [norm_val t_val] in N. rewrite (squeeze_id (PStamps m) N). cbn [apply_ref]. destruct N as [_ ->].
      eexists. repeat split.
  - rewrite (ref_delta _ A) in Q. injection Q as <-. cbn [bind].
    unfold as_timedelta_index, as_timedelta in L. rewrite A in L. injection L as <-.
    destruct t as [[x|x|m|m] r0]; cbn in A; try discriminate; cbn [vals t_val]; unfold mk_time; cbn [get_time_input].
    + cbn. eexists. repeat split.
    + cbn [norm_val t_val] in N. rewrite (squeeze_id (PDeltas m) N). cbn [apply_ref]. destruct N as [_ ->].
      eexists. repeat split.
Qed.
Print Assumptions c115_roundtrip.
(** The array exists unless the time is an empty list of time stamps without reference. *)
Theorem c115_array : forall t b, constructed t ->
  ((exists a, as_data_array t b = Ok a) <-> t <> mkTime (PStamps []) None).
Proof.
  intros [[x|x|m|m] r0] b C; unfold as_data_array, as_timedelta_index, as_timedelta, reference_time; cbn [is_absolute t_val t_ref];
    try (split; [discriminate|]; intros _; destruct b; eexists; reflexivity).
  destruct r0; [split; [discriminate|]; intros _; destruct b; eexists; reflexivity|].
  destruct m as [|z m]; split; try (intros [a H]; destruct b; discriminate); try congruence.
  intros _. destruct b; eexists; reflexivity.
Qed.
Print Assumptions c115_array.
Theorem c115_content : forall t a, as_data_array t true = Ok a ->
  a_stamps a = false /\ reference_time t = Ok (a_ref a) /\ as_timedelta_index t = Ok (a_vals a).
Proof.
  intros t a. unfold as_data_array. destruct (as_timedelta_index t); [|discriminate].
  cbn [bind]. destruct (reference_time t); [|discriminate]. now intros [= <-].
Qed.
Print Assumptions c115_content.
(** False: the reference time is kept. *)
Theorem c115_reference_refuted : exists t a t', constructed t /\ as_data_array t true = Ok a /\
  time_of_array a = Ok t' /\ reference_time t' <> reference_time t.
Proof.
  exists (mkTime (PStamps [5; 7]) (Some 3)). eexists _, _. split.
  { exists (LPandas (PStamps [5; 7])), (Some 3). reflexivity. }
  split; [reflexivity|]. split; [reflexivity|]. discriminate.
Qed.
Print Assumptions c115_reference_refuted.
(** False: arrays with time stamps can be converted back. They never can. *)
Theorem c115_stamps_refuted : forall t a, is_absolute t = true -> as_data_array t false = Ok a ->
  a_vals a = vals t /\ time_of_array a = Err TypeError.
Proof.
  intros t a A H. unfold as_data_array in H. cbn [bind fst snd] in H.
  destruct (reference_time t) as [r|] eqn:Q; [|discriminate]. destruct (ref_abs _ _ A Q) as [z ->].
  injection H as <-. unfold time_of_array, convert_xarray. cbn [a_ref a_stamps]. now rewrite A.
Qed.
Print Assumptions c115_stamps_refuted.
(** For time deltas both kinds of arrays are the same. *)
Theorem c115_deltas : forall t b, is_absolute t = false -> as_data_array t b = as_data_array t true.
Proof.
  intros t b A. unfold as_data_array, as_timedelta_index, as_timedelta. rewrite A. destruct b; [reflexivity|].
  cbn [bind fst snd]. now destruct t as [[]].
Qed.
Print Assumptions c115_deltas.
(** Only single time stamps are time stamps, and only absolute times are dates. *)
Theorem c115_conversions : forall t,
  (forall z, as_timestamp t = Ok z <-> t_val t = PStamp z) /\
  (as_timestamp t = Err TypeError <-> forall z, t_val t <> PStamp z) /\
  (as_datetime t = if is_absolute t then Ok (t_val t) else Err TypeError).
Proof.
  intros [[x|x|m|m] r]; unfold as_timestamp, as_datetime; cbn [t_val]; repeat split; intros; try discriminate; try congruence.
  all: try (now elim (H x)).
Qed.
Print Assumptions c115_conversions.

(** ** all_close *)
(** |a - b| is at most 10 ns plus a part of 100000 of |b| *)
Definition near (a b : Z) : Prop := 100000 * Z.abs (a - b) <= 1000000 + Z.abs b.
Lemma isclose_near a b : isclose a b = true <-> near a b.
Proof. apply Z.leb_le. Qed.
Lemma allclose_same l : allclose l l = Ok true.
Proof.
  unfold allclose. rewrite Nat.eqb_refl. f_equal. induction l as [|a l IH]; [reflexivity|].
  cbn [combine forallb fst snd]. rewrite IH, andb_true_r. apply isclose_near. unfold near. lia.
Qed.
Lemma all_close_refs a b r s : reference_time a = Ok r -> reference_time b = Ok s ->
  all_close a b = if opt_eqb r s then
    bind (as_timedelta_index a) (fun l => bind (as_timedelta_index b) (fun m => allclose l m)) else Ok false.
Proof. intros A B. unfold all_close. now rewrite A, B. Qed.
Lemma opt_eqb_ok r s : opt_eqb r s = true <-> r = s.
Proof.
  destruct r, s; cbn; try (split; discriminate || reflexivity).
  rewrite Z.eqb_eq. split; [now intros ->|now intros [= ->]].
Qed.

(** Different reference times are never close. *)
Theorem c116_reference : forall a b r s, reference_time a = Ok r -> reference_time b = Ok s -> r <> s ->
  all_close a b = Ok false.
Proof.
  intros a b r s A B N. rewrite (all_close_refs _ _ _ _ A B).
  destruct (opt_eqb r s) eqn:X; [apply opt_eqb_ok in X; contradiction|reflexivity].
Qed.
Print Assumptions c116_reference.
(** With the same reference time and as many values, the values are compared one by one. *)
Theorem c116_values : forall a b r l m, reference_time a = Ok r -> reference_time b = Ok r ->
  as_timedelta_index a = Ok l -> as_timedelta_index b = Ok m -> length l = length m ->
  exists x, all_close a b = Ok x /\
    (x = true <-> forall i p q, nth_error l i = Some p -> nth_error m i = Some q -> near p q).
Proof.
  intros a b r l m A B L M N. rewrite (all_close_refs _ _ _ _ A B), (proj2 (opt_eqb_ok r r) eq_refl), L, M.
  cbn [bind]. unfold allclose. rewrite N, Nat.eqb_refl. eexists. split; [reflexivity|].
  clear - N. revert m N. induction l as [|p l IH]; intros [|q m] N; try discriminate N; cbn [combine forallb fst snd].
  - split; [|reflexivity]. intros _ [|i] p q; discriminate.
  - rewrite andb_true_iff, isclose_near, (IH m) by now injection N. split.
    + intros [X Y] [|i] u v; cbn [nth_error]; [now intros [= <-] [= <-]|apply Y].
    + intros X. split; [now apply (X 0%nat)|]. intros i. apply (X (S i)).
Qed.
Print Assumptions c116_values.
(** Otherwise one of them has to be a single value (ValueError otherwise), which is compared
    with all values of the other. *)
Theorem c116_lengths : forall a b r l m, reference_time a = Ok r -> reference_time b = Ok r ->
  as_timedelta_index a = Ok l -> as_timedelta_index b = Ok m -> length l <> length m ->
  (length l <> 1%nat -> length m <> 1%nat -> all_close a b = Err ValueError) /\
  (forall p, l = [p] -> exists x, all_close a b = Ok x /\ (x = true <-> forall q, In q m -> near p q)) /\
  (forall q, m = [q] -> exists x, all_close a b = Ok x /\ (x = true <-> forall p, In p l -> near p q)).
Proof.
  intros a b r l m A B L M N. rewrite (all_close_refs _ _ _ _ A B), (proj2 (opt_eqb_ok r r) eq_refl), L, M.
  cbn [bind]. unfold allclose. rewrite (proj2 (Nat.eqb_neq _ _) N). repeat split.
  - intros X Y. destruct l as [|p [|]]; [..|]; try (now elim X); destruct m as [|q [|]]; try (now elim Y); reflexivity.
  - intros p ->. eexists. split; [reflexivity|]. rewrite forallb_forall.
    split; intros H q I; apply isclose_near; now apply H.
  - intros q ->. destruct l as [|p [|p' l]]; [..|]; try (now elim N); (eexists; split; [reflexivity|]);
      rewrite forallb_forall; split; intros H u I; apply isclose_near; now apply H.
Qed.
Print Assumptions c116_lengths.
(** Any time is close to itself. *)
Theorem c116_reflexive : forall t, constructed t -> t <> mkTime (PStamps []) None -> all_close t t = Ok true.
Proof.
  intros t C N. destruct (proj2 (c115_array t true C) N) as [a H]. apply c115_content in H as (_ & R & L).
  rewrite (all_close_refs _ _ _ _ R R), (proj2 (opt_eqb_ok _ _) eq_refl), L. cbn [bind]. apply allclose_same.
Qed.
Print Assumptions c116_reflexive.
(** False: symmetry, transitivity, and that close times have the same number of values. *)
Theorem c116_symmetric_refuted : exists a b, constructed a /\ constructed b /\
  all_close a b = Ok true /\ all_close b a = Ok false.
Proof.
  exists (mkTime (PDelta 99999000010) None), (mkTime (PDelta 100000000020) None).
  repeat split; [exists (LPandas (PDelta 99999000010)), None|exists (LPandas (PDelta 100000000020)), None]; reflexivity.
Qed.
Print Assumptions c116_symmetric_refuted.
Theorem c116_transitive_refuted : exists a b c, constructed a /\ constructed b /\ constructed c /\
  all_close a b = Ok true /\ all_close b c = Ok true /\ all_close a c = Ok false.
Proof.
  exists (mkTime (PDelta 0) None), (mkTime (PDelta 10) None), (mkTime (PDelta 20) None).
  repeat split; [exists (LPandas (PDelta 0)), None|exists (LPandas (PDelta 10)), None|exists (LPandas (PDelta 20)), None]; reflexivity.
Qed.
Print Assumptions c116_transitive_refuted.
Theorem c116_length_refuted : forall z n, (2 <= n)%nat ->
  let a := mkTime (PDeltas (repeat z n)) None in let b := mkTime (PDelta z) None in
  constructed a /\ constructed b /\ all_close a b = Ok true /\ all_close b a = Ok true.
Proof.
  intros z n N a b.
  assert (C : constructed a).
  { apply constructed_wf. split; [|reflexivity]. cbn [norm_val t_val a]. rewrite repeat_length. split; [lia|].
    clear. induction n as [|[|n] IH]; try reflexivity.
    change ((z <=? z) && monotonic (repeat z (S n)) = true). rewrite IH, Z.leb_refl. reflexivity. }
  assert (M : length (repeat z n) <> length [z]) by (rewrite repeat_length; cbn; lia).
  assert (K : forall p, In p (repeat z n) -> near p z) by (intros p I; apply repeat_spec in I; subst; unfold near; lia).
  assert (K' : forall p, In p (repeat z n) -> near z p) by (intros p I; apply repeat_spec in I; subst; unfold near; lia).
  split; [exact C|]. split; [exists (LPandas (PDelta z)), None; reflexivity|]. split.
  - destruct (c116_lengths a b None (repeat z n) [z] eq_refl eq_refl eq_refl eq_refl M) as (_ & _ & X).
    destruct (X z eq_refl) as (x & -> & E). f_equal. now apply E.
  - destruct (c116_lengths b a None [z] (repeat z n) eq_refl eq_refl eq_refl eq_refl (not_eq_sym M)) as (_ & X & _).
    destruct (X z eq_refl) as (x & -> & E). f_equal. now apply E.
Qed.
Print Assumptions c116_length_refuted.
(** The tolerance grows with the time: a second after about 28 hours. *)
Theorem c116_second_refuted : forall s, 100000 <= s ->
  all_close (mkTime (PDelta ((s + 1) * 1000000000)) None) (mkTime (PDelta (s * 1000000000)) None) = Ok true.
Proof.
  intros s H. unfold all_close. cbn [reference_time t_val bind opt_eqb as_timedelta_index as_timedelta is_absolute vals].
  unfold allclose. cbn [length Nat.eqb combine forallb fst snd]. rewrite andb_true_r. f_equal.
  apply isclose_near. unfold near. lia.
Qed.
Print Assumptions c116_second_refuted.

Example ex_c115 : exists a, as_data_array (mkTime (PStamps [5; 7]) None) true = Ok a /\
  a = TArr false [0; 2] (Some 5) /\ time_of_array a = Ok (mkTime (PStamps [5; 7]) None).
Proof. eexists. repeat split. Qed.
