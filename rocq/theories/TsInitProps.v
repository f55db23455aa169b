(** Properties of the construction of time series. *)
From Coq Require Import List ZArith String Bool Lia.
From Verif Require Import Base TimeModel TimeSpec TimeFacts InterpModel InterpSpec TsModel TsSpec TsFacts TsInitModel.
Import ListNotations.
Open Scope Z_scope.

(** Arrays are accepted exactly if they are quantities with time deltas along a dimension
    "time". *)
Theorem c126_accepts : forall a, (exists r, init_array a = Ok r) <->
  (exists u, dget "time" (x_coords a) = Some (CDelta u)) /\ x_quantity a = true /\ In "time"%string (x_dims a).
Proof.
  intros [ds cs q]. unfold init_array, check_data_array, time_first, smem. cbn [x_coords x_dims x_quantity].
  assert (X : existsb (String.eqb "time") ds = true <-> In "time"%string ds).
  { rewrite existsb_exists. split; [intros (y & I & Q); apply String.eqb_eq in Q; now subst|intros I; eexists; split; [exact I|reflexivity]]. }
  rewrite <- X. destruct (dget "time" cs) as [[u|u|]|]; cbn [is_delta bind].
  - destruct q; cbn [bind].
    + destruct (existsb (String.eqb "time") ds); split.
      * intros _. repeat split. exists u. reflexivity.
      * intros _. eexists. reflexivity.
      * intros [r [=]].
      * intros (_ & _ & [=]).
    + split; [intros [r [=]]|intros (_ & [=] & _)].
  - split; [intros [r [=]]|intros ([w [=]] & _)].
  - split; [intros [r [=]]|intros ([w [=]] & _)].
  - split; [intros [r [=]]|intros ([w [=]] & _)].
Qed.
Print Assumptions c126_accepts.
(** The time becomes the first dimension, the order of the others is kept. *)
Theorem c126_dims : forall a r, init_array a = Ok r -> x_coords r = x_coords a /\ x_quantity r = x_quantity a /\
  exists rest, x_dims r = "time"%string :: rest /\ rest = filter (fun d => negb (String.eqb d "time")) (x_dims a) /\
  (forall pre post, NoDup (x_dims a) -> x_dims a = (pre ++ "time"%string :: post)%list -> rest = (pre ++ post)%list).
Proof.
  intros [ds cs q] r H. unfold init_array in H. destruct (check_data_array _); [|discriminate]. cbn [bind] in H.
  unfold time_first in H. cbn [x_dims x_coords x_quantity] in *. destruct (smem "time" ds); [|discriminate]. injection H as <-.
  split; [reflexivity|]. split; [reflexivity|]. eexists. split; [reflexivity|]. split; [reflexivity|].
  intros pre post N ->. rewrite filter_app. cbn [filter String.eqb negb].
  assert (K : forall l, ~ In "time"%string l -> filter (fun d => negb (String.eqb d "time")) l = l).
  { induction l as [|y l IH]; [reflexivity|]. intros I. cbn [filter]. destruct (String.eqb_spec y "time") as [->|]; [elim I; now left|].
    cbn [negb]. f_equal. apply IH. intros J. apply I. now right. }
  apply NoDup_remove_2 in N. rewrite !K; [reflexivity|intros I; apply N, in_or_app; now right|intros I; apply N, in_or_app; now left].
Qed.
Print Assumptions c126_dims.
Theorem c126_errors : forall a e, init_array a = Err e ->
  (e = KeyError /\ dget "time" (x_coords a) = None) \/
  (e = TypeError /\ exists d, dget "time" (x_coords a) = Some d /\ ((forall u, d <> CDelta u) \/ x_quantity a = false)) \/
  (e = ValueError /\ ~ In "time"%string (x_dims a)).
Proof.
  intros [ds cs q] e. unfold init_array, check_data_array, time_first. cbn [x_coords x_dims x_quantity].
  destruct (dget "time" cs) as [[u|u|]|]; cbn [is_delta bind].
  - destruct q; cbn [bind]; [|intros [= <-]; right; left; split; [reflexivity|]; eexists; split; [reflexivity|now right]].
    destruct (smem "time" ds) eqn:S; [discriminate|]. intros [= <-]. right. right. split; [reflexivity|]. intros I.
    assert (smem "time" ds = true); [|congruence]. apply existsb_exists. eexists. split; [exact I|reflexivity].
  - intros [= <-]. right. left. split; [reflexivity|]. eexists. split; [reflexivity|]. left. discriminate.
  - intros [= <-]. right. left. split; [reflexivity|]. eexists. split; [reflexivity|]. left. discriminate.
  - intros [= <-]. now left.
Qed.
Print Assumptions c126_errors.
(** False: an array that passes the check can be used. A single time is no dimension. *)
Theorem c126_check_refuted : exists a, check_data_array a = Ok tt /\ init_array a = Err ValueError.
Proof. exists (Xr ["x"%string] [("time"%string, CDelta "ns")] true). split; reflexivity. Qed.
Print Assumptions c126_check_refuted.
(** False: the time deltas must be in nanoseconds. Any unit is accepted. *)
Theorem c126_unit_refuted : forall u, check_data_array (Xr ["time"%string] [("time"%string, CDelta u)] true) = Ok tt.
Proof. reflexivity. Qed.
Print Assumptions c126_unit_refuted.

Section Init.
  Context {A E : Type}.
  Notation new := (@new_series A E).
  (** Quantities with as many values as times give these values at these times. *)
  Theorem c127_quantity : forall l x ref m t, mk_time x ref = Ok t -> tlen t <> 0%nat -> List.length l = tlen t ->
    In m valid_interpolations -> exists td r,
      new (IQuantity l) (Some x) (Some m) ref = Ok (Ts (SDisc (Da td r l) (if Nat.leb 2 (List.length l) then m else "step"%string)) 0)
      /\ map (moment r) td = vals t /\ reference_time t = Ok r.
  Proof.
    intros l x ref m t M L Ll V. destruct (new_quantity (E := E) l x ref t m M L Ll V) as (td & r & _ & R & Mo & H).
    exists td, r. auto.
  Qed.
  Theorem c127_lengths : forall l x ref m t, mk_time x ref = Ok t -> tlen t <> 0%nat -> List.length l <> tlen t ->
    new (IQuantity l) (Some x) m ref = Err ValueError.
  Proof.
    intros l x ref m t M L N. pose proof (mk_time_wf _ _ _ M) as W.
    destruct (das t W L) as (td & r & D & _ & _ & _ & Lt & _).
    unfold new_series. rewrite M. cbn [bind]. unfold create_data_array. rewrite D. cbn [bind fst snd].
    rewrite Lt. destruct (Nat.eqb_spec (tlen t) (List.length l)); [congruence|reflexivity].
  Qed.
  (** Without times there is one value, at the reference time or at zero. *)
  Theorem c127_constant : forall l m ref, In m valid_interpolations ->
    new (IQuantity l) None (Some m) ref =
    match l with [v] => Ok (Ts (SDisc (Da [0] ref [v]) "step"%string) 0) | _ => Err ValueError end.
  Proof.
    intros l m ref V. assert (M : exists t, mk_time (LPandas (PDelta 0)) ref = Ok t /\ tlen t = 1%nat /\ as_data_array t = Ok ([0], ref)).
    { destruct ref as [r|]; eexists; (split; [reflexivity|]); (split; [reflexivity|]); [|reflexivity].
      unfold as_data_array. cbn. now rewrite Z.sub_diag. }
    destruct M as (t & M & L & D). unfold new_series. rewrite M. cbn [bind]. unfold create_data_array. rewrite D. cbn [bind fst snd].
    destruct l as [|v [|w l]]; try reflexivity. cbn [List.length Nat.eqb bind]. unfold set_interpolation.
    rewrite (valid_in m V). reflexivity.
  Qed.
  (** The method is one of the known ones. *)
  Theorem c127_method : forall d x m ref s, (forall e, d <> IExpr e) -> new d x (Some m) ref = Ok s ->
    In m valid_interpolations.
  Proof.
    intros d x m ref s N H.
    assert (K : forall (a : darr A) r, set_interpolation a m = Ok r -> In m valid_interpolations).
    { intros a r. unfold set_interpolation. destruct (existsb (String.eqb m) valid_interpolations) eqn:Q; [|discriminate].
      intros _. apply existsb_exists in Q as (y & I & Q). apply String.eqb_eq in Q. now subst. }
    destruct d as [l|a|e]; [| |now elim (N e)]; unfold new_series in H.
    - destruct (mk_time _ ref) as [t|]; [|discriminate]. cbn [bind] in H. destruct (create_data_array l t) as [a|]; [|discriminate].
      cbn [bind] in H. destruct (set_interpolation a m) as [r|] eqn:Q; [|discriminate]. now apply (K a r).
    - destruct (set_interpolation a m) as [r|] eqn:Q; [|discriminate]. now apply (K a r).
  Qed.
  (** Times and reference times given with an array are ignored. False: they are used. *)
  Theorem c127_ignored_refuted : forall d x m ref, new (IArray d) x m ref = new (IArray d) None m None.
  Proof. reflexivity. Qed.
  (** Arrays with unsorted times are refused. *)
  Theorem c127_unsorted : forall d x m ref, ~ nondecreasing (a_times d) -> new (IArray d) x m ref = Err ValueError.
  Proof.
    intros d x m ref N. unfold new_series, set_interpolation. destruct (existsb _ _); [|reflexivity]. unfold d_time.
    assert (L : (2 <= List.length (a_times d))%nat).
    { destruct (a_times d) as [|y [|z l]]; cbn; try lia; elim N; apply monotonic_spec; reflexivity. }
    rewrite (proj2 (Nat.leb_le _ _) L). rewrite (proj1 (unsorted_rejected (a_times d) (a_ref d) N)). reflexivity.
  Qed.
  (** Series can be rebuilt from their array with their method. *)
  Theorem c127_rebuild : forall (s : series A E) d m, s_data s = SDisc d m -> nondecreasing (a_times d) ->
    In m valid_interpolations -> (2 <= List.length (a_times d))%nat ->
    new (IArray d) None (Some m) None = Ok (Ts (s_data s) 0).
  Proof.
    intros s d m Sd N V L. unfold new_series. rewrite (set_interp d m V) by now apply monotonic_spec.
    rewrite (proj2 (Nat.leb_le _ _) L). cbn [bind]. now rewrite Sd.
  Qed.
  (** False: also without naming the method. It becomes "step". *)
  Theorem c127_rebuild_refuted : forall (s : series A E) d m, s_data s = SDisc d m -> nondecreasing (a_times d) ->
    (2 <= List.length (a_times d))%nat -> m <> "step"%string ->
    exists s', new (IArray d) None None None = Ok s' /\ s_data s' = SDisc d "step" /\ s_data s' <> s_data s.
  Proof.
    intros s d m Sd N L M. eexists. split; [|split].
    - unfold new_series. rewrite (set_interp d "step"); [|now left|now apply monotonic_spec].
      rewrite (proj2 (Nat.leb_le _ _) L). reflexivity.
    - reflexivity.
    - rewrite Sd. cbn [s_data]. congruence.
  Qed.
End Init.
Print Assumptions c127_quantity.
Print Assumptions c127_lengths.
Print Assumptions c127_constant.
Print Assumptions c127_method.
Print Assumptions c127_ignored_refuted.
Print Assumptions c127_unsorted.
Print Assumptions c127_rebuild.
Print Assumptions c127_rebuild_refuted.
Example ex_c126 : init_array (Xr ["x"; "time"]%string [("time"%string, CDelta "ns")] true) =
  Ok (Xr ["time"; "x"]%string [("time"%string, CDelta "ns")] true).
Proof. reflexivity. Qed.
Example ex_c127 : exists s : series Z unit, new_series (IQuantity [7; 8]) (Some (LPandas (PDeltas [0; 5]))) (Some "linear"%string) (Some 100) = Ok s
  /\ s_data s = SDisc (Da [0; 5] (Some 100) [7; 8]) "linear" /\ ~ nondecreasing [5; 0].
Proof. eexists. split; [reflexivity|]. split; [reflexivity|]. rewrite <- monotonic_spec. discriminate. Qed.
