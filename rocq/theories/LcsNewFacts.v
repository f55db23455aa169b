(** Lemmas for LcsNewProps.v. *)
From Coq Require Import List ZArith Bool Lia.
From Verif Require Import Base TimeModel TimeSpec TimeFacts TsModel LcsNewModel LcsNewSpec.
Import ListNotations.
Open Scope Z_scope.

Lemma map_shift0 : forall (l : list Z) r, map (fun t => t - (r - r)) l = l.
Proof. intros l r. rewrite <- (map_id l) at 2. apply map_ext. intros. lia. Qed.

Lemma same_times_iff : forall a b, same_times a b = true <-> a = b.
Proof.
  induction a as [|x a IH]; intros [|y b]; cbn; try (split; congruence).
  rewrite andb_true_iff, Z.eqb_eq, IH. split; [intros [-> ->]; reflexivity|]. intros E; injection E; auto.
Qed.
Lemma same_times_refl : forall a, same_times a a = true.
Proof. intros a. apply same_times_iff. reflexivity. Qed.

(** [Time(time)] exists if [Time(time, time_ref)] does *)
Lemma mk_time_none : forall x ref t, mk_time x ref = Ok t ->
  exists t', mk_time x None = Ok t' /\ length (vals t') = length (vals t).
Proof.
  assert (Q : forall p r r' t, match apply_ref p r with
      | PDeltas l | PStamps l => if monotonic l then Ok (mkTime (apply_ref p r) r) else Err ValueError
      | _ => Ok (mkTime (apply_ref p r) r) end = Ok t ->
    exists t', match apply_ref p r' with
      | PDeltas l | PStamps l => if monotonic l then Ok (mkTime (apply_ref p r') r') else Err ValueError
      | _ => Ok (mkTime (apply_ref p r') r') end = Ok t' /\ length (vals t') = length (vals t)).
  { intros p r r' t H. destruct p as [z|z|l|l], r as [r|], r' as [r'|]; cbn in *;
      rewrite ?monotonic_map_add in *;
      try (injection H as <-; eexists; split; [reflexivity|reflexivity]);
      (destruct (monotonic l); [|discriminate]; injection H as <-; eexists; split; [reflexivity|cbn; rewrite ?map_length; reflexivity]). }
  intros x ref t H. unfold mk_time in *. destruct x as [t0|p|l r]; cbn [get_time_input] in *.
  - destruct ref as [r|]; [|exists t; split; [exact H|reflexivity]].
    exact (Q _ (Some r) (t_ref t0) t H).
  - exact (Q _ ref None t H).
  - exact (Q _ ref None t H).
Qed.

(** the axis made from a [Time] *)
Lemma as_data_array_ok : forall t, wf t -> vals t <> [] ->
  exists ts r, as_data_array t = Ok (ts, r) /\ reference_time t = Ok r /\ moments ts r = vals t /\ length ts = length (vals t).
Proof.
  intros t W N. unfold as_data_array. destruct (is_absolute t) eqn:A.
  - destruct (as_timedelta_exists t A N) as (l & r & R & L & LL). rewrite L, R. cbn [bind].
    exists l, (Some r). split; [reflexivity|]. split; [reflexivity|]. split; [|exact LL].
    exact (as_timedelta_moments t r l A R L).
  - unfold as_timedelta_index, as_timedelta. rewrite A. cbn [bind]. rewrite (ref_delta t A). cbn [bind].
    assert (V : vals (mkTime (t_val t) None) = vals t) by reflexivity. rewrite V.
    exists (vals t), None. split; [reflexivity|]. split; [reflexivity|]. split; [apply map_id|reflexivity].
Qed.

Lemma create_ok : forall (X : Type) (l : list X) t, wf t -> vals t <> [] ->
  exists ts r, reference_time t = Ok r /\ moments ts r = vals t /\ length ts = length (vals t) /\
    as_data_array t = Ok (ts, r) /\
    create_data_array l t = if Nat.eqb (length l) (length (vals t)) then Ok (Da ts r l) else Err ValueError.
Proof.
  intros X l t W N. destruct (as_data_array_ok t W N) as (ts & r & E & R & M & L).
  exists ts, r. split; [exact R|]. split; [exact M|]. split; [exact L|]. split; [exact E|].
  unfold create_data_array. rewrite E. cbn [bind fst snd]. rewrite L, (Nat.eqb_sym (length (vals t))). reflexivity.
Qed.

Lemma restore_ok : forall (X : Type) (x : xin X), array_ok x ->
  match x with
  | IStatic a => restore x = Ok (XStatic a)
  | _ => exists ts, restore x = Ok (XSer (Da ts (array_ref x) match x with IStatic _ => [] | IDeltas d | IDates d => a_vals d end)) /\
      moments ts (array_ref x) = array_moments x
  end.
Proof.
  intros X [a|d|d] K; cbn [restore].
  - reflexivity.
  - exists (a_times d). destruct d; split; reflexivity.
  - cbn [array_ok] in K. destruct K as [L N]. destruct d as [ts [r|] vs]; cbn [a_ref a_times a_vals array_ref array_moments] in *.
    + exists (map (fun t => t - r) ts). split; [reflexivity|]. unfold moments. rewrite map_map.
      rewrite <- (map_id ts) at 2. apply map_ext. intros. lia.
    + destruct ts as [|t0 ts]; [destruct (N eq_refl); reflexivity|]. cbn [hd_error].
      exists (map (fun t => t - t0) (t0 :: ts)). split; [reflexivity|]. unfold moments. rewrite map_map.
      rewrite <- (map_id (t0 :: ts)) at 2. apply map_ext. intros. lia.
Qed.

Lemma set_ref_moments : forall a r, snd (set_ref a r) = Some r /\
  moments (fst (set_ref a r)) (Some r) = match snd a with Some _ => moments (fst a) (snd a) | None => moments (fst a) (Some r) end.
Proof.
  intros [ts [r0|]] r; unfold set_ref; cbn [fst snd]; (split; [reflexivity|]); [|reflexivity].
  unfold moments. rewrite map_map. apply map_ext. intros. lia.
Qed.

Section Norm.
  Context {A : Type} (norm : A -> res A).
  Lemma norm_all_iff : forall l m, norm_all norm l = Ok m <-> Forall2 (fun a b => norm a = Ok b) l m.
  Proof.
    induction l as [|a l IH]; intros m; cbn [norm_all].
    - split; intros H; [injection H as <-; constructor|inversion H; reflexivity].
    - split.
      + intros H. destruct (norm a) as [b|] eqn:E; [|discriminate]. cbn [bind] in H.
        destruct (norm_all norm l) as [r|]; [|discriminate]. cbn [bind] in H. injection H as <-.
        constructor; [exact E|apply IH; reflexivity].
      + intros H. inversion H as [|? b ? r E F]; subst. rewrite E. cbn [bind]. rewrite (proj2 (IH r) F). reflexivity.
  Qed.
End Norm.
