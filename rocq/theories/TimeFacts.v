From Coq Require Import List ZArith Bool Lia Permutation.
From Verif Require Import Base TimeModel TimeSpec.
Import ListNotations.
Open Scope Z_scope.

(** * Sortedness *)

Lemma nondecreasing_cons a l :
  nondecreasing (a :: l) <-> (forall b, In b l -> a <= b) /\ nondecreasing l.
Proof.
  split.
  - intros H. split.
    + intros b Hb. apply In_nth_error in Hb as [j Hj]. apply (H 0%nat (S j) a b); [lia|reflexivity|exact Hj].
    + intros i j x y Hij Hx Hy. apply (H (S i) (S j)); [lia|exact Hx|exact Hy].
  - intros [H1 H2] i j x y Hij Hx Hy. destruct i as [|i], j as [|j]; cbn in *; try lia.
    + assert (x = y) by congruence; lia.
    + injection Hx as <-. apply H1. eapply nth_error_In; eassumption.
    + apply (H2 i j); [lia|assumption|assumption].
Qed.

Lemma nondecreasing_nil : nondecreasing [].
Proof. intros i j a b _ H. destruct i; discriminate. Qed.

Lemma monotonic_spec l : monotonic l = true <-> nondecreasing l.
Proof.
  induction l as [|a l IH]; [split; [intros _; apply nondecreasing_nil|reflexivity]|].
  destruct l as [|b l].
  - split; [|reflexivity]. intros _. apply nondecreasing_cons. split; [intros ? []|apply nondecreasing_nil].
  - change (monotonic (a :: b :: l)) with ((a <=? b) && monotonic (b :: l)).
    rewrite andb_true_iff, IH, Z.leb_le. rewrite (nondecreasing_cons a (b :: l)). split.
    + intros [H1 H2]. split; [|assumption]. intros c [<-|Hc]; [assumption|].
      apply nondecreasing_cons in H2 as [H2 _]. specialize (H2 c Hc). lia.
    + intros [H1 H2]. split; [apply H1; left; reflexivity|assumption].
Qed.

Lemma nondecreasing_map f l : (forall a b, a <= b -> f a <= f b) ->
  nondecreasing l -> nondecreasing (map f l).
Proof.
  intros Hf H i j a b Hij Ha Hb.
  rewrite nth_error_map in Ha, Hb.
  destruct (nth_error l i) as [x|] eqn:Ex; [|discriminate].
  destruct (nth_error l j) as [y|] eqn:Ey; [|discriminate].
  cbn in Ha, Hb. injection Ha as <-. injection Hb as <-. apply Hf. eapply H; eassumption.
Qed.

Lemma monotonic_map_add l r : monotonic (map (fun z => z + r) l) = monotonic l.
Proof.
  induction l as [|a l IH]; [reflexivity|]. destruct l as [|b l]; [reflexivity|].
  change (((a + r <=? b + r) && monotonic (map (fun z => z + r) (b :: l)))
          = ((a <=? b) && monotonic (b :: l))).
  rewrite IH. f_equal. destruct (Z.leb_spec (a + r) (b + r)), (Z.leb_spec a b); lia || reflexivity.
Qed.

(** * The constructor *)

Definition norm_val (p : ptime) : Prop :=
  match p with
  | PDeltas l | PStamps l => length l <> 1%nat /\ monotonic l = true
  | _ => True
  end.

(** constructed times: sorted, no index of length one, no reference time for deltas *)
Definition wf (t : time) : Prop := norm_val (t_val t) /\ (is_absolute t = false -> t_ref t = None).

Lemma squeeze_length p : match squeeze p with
                         | PDeltas l | PStamps l => length l <> 1%nat
                         | _ => True end.
Proof. destruct p as [z|z|[|a [|b l]]|[|a [|b l]]]; cbn; lia || exact I. Qed.

Lemma squeeze_id p : norm_val p -> squeeze p = p.
Proof. destruct p as [z|z|[|a [|b l]]|[|a [|b l]]]; cbn; intros H; try reflexivity; destruct H; lia. Qed.

Definition norm_len (p : ptime) : Prop :=
  match p with PDeltas l | PStamps l => length l <> 1%nat | _ => True end.

Lemma get_time_input_len x ref p r : get_time_input x ref = (p, r) -> norm_len p.
Proof.
  destruct x; cbn; intros H; injection H as <- _; apply squeeze_length.
Qed.

Lemma mk_time_wf x ref t : mk_time x ref = Ok t -> wf t.
Proof.
  unfold mk_time. destruct (get_time_input x ref) as [p r] eqn:E.
  apply get_time_input_len in E. unfold norm_len in E.
  destruct p as [z|z|l|l]; destruct r as [r|]; cbn [apply_ref];
    try (intros H; injection H as <-; split; [exact I|cbn; congruence]).
  - destruct (monotonic _) eqn:M; [|discriminate]. intros H; injection H as <-.
    split; [|cbn; congruence]. cbn. rewrite map_length. split; assumption.
  - destruct (monotonic _) eqn:M; [|discriminate]. intros H; injection H as <-.
    split; [|cbn; congruence]. cbn. split; assumption.
  - destruct (monotonic _) eqn:M; [|discriminate]. intros H; injection H as <-.
    split; [|cbn; congruence]. cbn. split; assumption.
  - destruct (monotonic _) eqn:M; [|discriminate]. intros H; injection H as <-.
    split; [|cbn; congruence]. cbn. split; assumption.
Qed.

Lemma wf_mk_time t : wf t -> mk_time (LTime t) None = Ok t.
Proof.
  intros [H1 H2]. unfold mk_time. cbn [get_time_input]. rewrite squeeze_id by assumption.
  destruct t as [p r]. cbn [t_val t_ref] in *. unfold is_absolute in H2. cbn [t_val] in H2.
  destruct p as [z|z|l|l]; destruct r as [r|]; cbn [apply_ref];
    try (specialize (H2 eq_refl); discriminate); try reflexivity;
    destruct H1 as [_ H1]; rewrite H1; reflexivity.
Qed.

Lemma constructed_wf t : constructed t <-> wf t.
Proof.
  split.
  - intros (x & r & H). eapply mk_time_wf; eassumption.
  - intros H. exists (LTime t), None. apply wf_mk_time. assumption.
Qed.

Lemma wf_sorted t : norm_val (t_val t) -> nondecreasing (vals t).
Proof.
  unfold vals. destruct (t_val t) as [z|z|l|l]; cbn; intros H.
  - apply nondecreasing_cons. split; [intros ? []|apply nondecreasing_nil].
  - apply nondecreasing_cons. split; [intros ? []|apply nondecreasing_nil].
  - apply monotonic_spec, H.
  - apply monotonic_spec, H.
Qed.

(** * C01 *)

Lemma bind_ok {A B} (r : res A) (f : A -> res B) b :
  bind r f = Ok b -> exists a, r = Ok a /\ f a = Ok b.
Proof. destruct r; cbn; [eauto|discriminate]. Qed.

Scheme texpr_mut := Induction for texpr Sort Prop
  with tlike_e_mut := Induction for tlike_e Sort Prop
  with tlikes_e_mut := Induction for tlikes_e Sort Prop.

Lemma time_add_wf t x r : time_add t x = Ok r -> wf r.
Proof.
  unfold time_add. intros H. apply bind_ok in H as (o & _ & H).
  apply bind_ok in H as (ref & _ & H). apply bind_ok in H as (p & _ & H).
  eapply mk_time_wf; eassumption.
Qed.
Lemma time_sub_wf t x r : time_sub t x = Ok r -> wf r.
Proof.
  unfold time_sub. intros H. apply bind_ok in H as (o & _ & H).
  apply bind_ok in H as (ref & _ & H). apply bind_ok in H as (p & _ & H).
  eapply mk_time_wf; eassumption.
Qed.
Lemma time_rsub_wf t x r : time_rsub t x = Ok r -> wf r.
Proof.
  unfold time_rsub. intros H. apply bind_ok in H as (o & _ & H).
  apply bind_ok in H as (ref & _ & H). apply bind_ok in H as (p & _ & H).
  eapply mk_time_wf; eassumption.
Qed.
Lemma time_getitem_wf t i r : time_getitem t i = Ok r -> wf r.
Proof.
  unfold time_getitem. intros H. apply bind_ok in H as (o & _ & H).
  apply bind_ok in H as (ref & _ & H). eapply mk_time_wf; eassumption.
Qed.
Lemma time_union_wf ts r : time_union ts = Ok r -> wf r.
Proof.
  unfold time_union. destruct ts; [discriminate|]. intros H.
  apply bind_ok in H as (o & _ & H). apply bind_ok in H as (ref & _ & H).
  eapply mk_time_wf; eassumption.
Qed.
Lemma time_resample_wf t a r : time_resample t a = Ok r -> wf r.
Proof.
  unfold time_resample. destruct (_ <=? _)%nat; [discriminate|]. intros H.
  apply bind_ok in H as (o & _ & H). apply bind_ok in H as (ref & _ & H).
  apply bind_ok in H as (ref' & _ & H).
  eapply mk_time_wf; eassumption.
Qed.

Lemma teval_norm e t : teval e = Ok t -> norm_val (t_val t).
Proof.
  revert t. induction e; cbn [teval]; intros t H.
  - apply bind_ok in H as (v & _ & H). apply mk_time_wf in H. apply H.
  - apply bind_ok in H as (t' & _ & H). apply bind_ok in H as (v & _ & H). apply time_add_wf in H. apply H.
  - apply bind_ok in H as (t' & _ & H). apply bind_ok in H as (v & _ & H). apply time_sub_wf in H. apply H.
  - apply bind_ok in H as (t' & _ & H). apply bind_ok in H as (v & _ & H). apply time_rsub_wf in H. apply H.
  - apply bind_ok in H as (t' & _ & H). apply time_getitem_wf in H. apply H.
  - apply bind_ok in H as (v & _ & H). apply bind_ok in H as (vs & _ & H). apply time_union_wf in H. apply H.
  - apply bind_ok in H as (t' & _ & H). apply time_resample_wf in H. apply H.
  - apply bind_ok in H as (t' & _ & H). apply bind_ok in H as (v & _ & H). apply time_resample_wf in H. apply H.
  - apply bind_ok in H as (t' & H' & H). injection H as <-. cbn. apply IHe. assumption.
Qed.

Lemma teval_sorted e t : teval e = Ok t -> nondecreasing (vals t).
Proof. intros H. apply wf_sorted. eapply teval_norm; eassumption. Qed.

Lemma teval_constructed e t : no_set_ref e = true -> teval e = Ok t -> constructed t.
Proof.
  intros Hn H. apply constructed_wf. destruct e; cbn [teval no_set_ref] in *; try discriminate.
  - apply bind_ok in H as (v & _ & H). eapply mk_time_wf; eassumption.
  - apply bind_ok in H as (t' & _ & H). apply bind_ok in H as (v & _ & H). eapply time_add_wf; eassumption.
  - apply bind_ok in H as (t' & _ & H). apply bind_ok in H as (v & _ & H). eapply time_sub_wf; eassumption.
  - apply bind_ok in H as (t' & _ & H). apply bind_ok in H as (v & _ & H). eapply time_rsub_wf; eassumption.
  - apply bind_ok in H as (t' & _ & H). eapply time_getitem_wf; eassumption.
  - apply bind_ok in H as (v & _ & H). apply bind_ok in H as (vs & _ & H). eapply time_union_wf; eassumption.
  - apply bind_ok in H as (t' & _ & H). eapply time_resample_wf; eassumption.
  - apply bind_ok in H as (t' & _ & H). apply bind_ok in H as (v & _ & H). eapply time_resample_wf; eassumption.
Qed.

Lemma not_monotonic_not_one l : monotonic l = false -> length l <> 1%nat.
Proof. destruct l as [|a [|b l]]; cbn; lia || discriminate. Qed.

Lemma unsorted_rejected l ref :
  ~ nondecreasing l ->
  mk_time (LPandas (PDeltas l)) ref = Err ValueError
  /\ mk_time (LPandas (PStamps l)) ref = Err ValueError
  /\ (forall q, mk_time (LQuantity l q) ref = Err ValueError).
Proof.
  intros H. assert (M : monotonic l = false).
  { destruct (monotonic l) eqn:E; [|reflexivity]. apply monotonic_spec in E. contradiction. }
  assert (S1 : squeeze (PDeltas l) = PDeltas l) by (destruct l as [|a [|b l]]; [reflexivity|discriminate|reflexivity]).
  assert (S2 : forall m, length m = length l -> squeeze (PStamps m) = PStamps m).
  { intros m Hm. apply not_monotonic_not_one in M. destruct m as [|a [|b m]]; cbn in *; [reflexivity|lia|reflexivity]. }
  assert (M2 : forall r, monotonic (map (fun z => z + r) l) = false) by (intros; rewrite monotonic_map_add; assumption).
  split; [|split].
  - unfold mk_time; cbn [get_time_input]. rewrite S1. destruct ref as [r|]; cbn [apply_ref]; rewrite ?M2, ?M; reflexivity.
  - unfold mk_time; cbn [get_time_input]. rewrite S2 by reflexivity. destruct ref as [r|]; cbn [apply_ref]; rewrite M; reflexivity.
  - intros q. destruct q as [q|]; unfold mk_time; cbn [get_time_input convert_quantity].
    + rewrite S2 by apply map_length. destruct ref as [r|]; cbn [apply_ref]; rewrite M2; reflexivity.
    + rewrite S1. destruct ref as [r|]; cbn [apply_ref]; rewrite ?M2, ?M; reflexivity.
Qed.

(** * Arithmetic *)

Lemma zip_with_ok f l m r : zip_with f l m = Ok r ->
  length l = length m /\ length r = length l
  /\ forall i, nth_error r i = op2 f (nth_error l i) (nth_error m i).
Proof.
  revert m r. induction l as [|x l IH]; intros [|y m] r; cbn; try discriminate.
  - intros H; injection H as <-. split; [reflexivity|]. split; [reflexivity|]. intros [|i]; reflexivity.
  - destruct (zip_with f l m) as [r'|] eqn:E; [|discriminate]. intros H; injection H as <-.
    destruct (IH _ _ E) as (H1 & H2 & H3). split; [cbn; lia|]. split; [cbn; lia|].
    intros [|i]; cbn; [reflexivity|apply H3].
Qed.

Lemma zip_with_total f l m : length l = length m -> exists r, zip_with f l m = Ok r.
Proof.
  revert m. induction l as [|x l IH]; intros [|y m] H; cbn in *; try lia; [eauto|].
  destruct (IH m) as [r E]; [lia|]. rewrite E. eauto.
Qed.

Lemma zip_with_err f l m : length l <> length m -> zip_with f l m = Err ValueError.
Proof.
  revert m. induction l as [|x l IH]; intros [|y m] H; cbn in *; try lia; try reflexivity.
  rewrite IH by lia. reflexivity.
Qed.

Lemma zip_with_comm l m : zip_with Z.add l m = zip_with Z.add m l.
Proof.
  revert m. induction l as [|x l IH]; intros [|y m]; cbn; try reflexivity.
  rewrite IH, Z.add_comm. reflexivity.
Qed.

Lemma padd_comm a b : padd a b = padd b a.
Proof.
  destruct a, b; cbn; try reflexivity; try (rewrite Z.add_comm; reflexivity);
    try (rewrite zip_with_comm; reflexivity);
    do 2 f_equal; apply map_ext; intros; lia.
Qed.

Lemma zip_with_mono l m r : zip_with Z.add l m = Ok r ->
  nondecreasing l -> nondecreasing m -> nondecreasing r.
Proof.
  intros H Hl Hm i j a b Hij Ha Hb. apply zip_with_ok in H as (_ & _ & H).
  rewrite H in Ha, Hb.
  destruct (nth_error l i) eqn:E1, (nth_error m i) eqn:E2; cbn in Ha; try discriminate.
  destruct (nth_error l j) eqn:E3, (nth_error m j) eqn:E4; cbn in Hb; try discriminate.
  injection Ha as <-. injection Hb as <-.
  pose proof (Hl i j _ _ Hij E1 E3). pose proof (Hm i j _ _ Hij E2 E4). lia.
Qed.

(** construction from a stamp value with reference *)
Lemma mk_stamp z ref : mk_time (LPandas (PStamp z)) ref = Ok (mkTime (PStamp z) ref).
Proof. unfold mk_time; cbn. destruct ref; reflexivity. Qed.
Lemma mk_stamps l ref : length l <> 1%nat -> monotonic l = true ->
  mk_time (LPandas (PStamps l)) ref = Ok (mkTime (PStamps l) ref).
Proof.
  intros Hl Hm. unfold mk_time; cbn. replace (match l with [z] => PStamp z | _ => PStamps l end) with (PStamps l)
    by (destruct l as [|a [|b l]]; cbn in *; lia || reflexivity).
  destruct ref; cbn; rewrite Hm; reflexivity.
Qed.
Lemma mk_deltas l : length l <> 1%nat -> monotonic l = true ->
  mk_time (LPandas (PDeltas l)) None = Ok (mkTime (PDeltas l) None).
Proof.
  intros Hl Hm. unfold mk_time; cbn. replace (match l with [z] => PDelta z | _ => PDeltas l end) with (PDeltas l)
    by (destruct l as [|a [|b l]]; cbn in *; lia || reflexivity).
  cbn; rewrite Hm; reflexivity.
Qed.

Lemma monotonic_map_addl l r : monotonic (map (fun z => r + z) l) = monotonic l.
Proof.
  rewrite <- (monotonic_map_add l r). f_equal. apply map_ext. intros; lia.
Qed.

Lemma ref_abs t ref : is_absolute t = true -> reference_time t = Ok ref -> exists r, ref = Some r.
Proof.
  destruct t as [[z|z|l|l] r]; cbn; try discriminate; intros _; destruct r; cbn;
    try destruct l; intros H; try discriminate; injection H as <-; eauto.
Qed.

(** constructed absolute values with an explicit reference keep it *)
Lemma add_abs_delta t d ref :
  wf t -> wf d -> is_absolute t = true -> is_absolute d = false ->
  reference_time t = Ok ref ->
  (compatible t d ->
   exists r, time_add t (LTime d) = Ok r
     /\ is_absolute r = true /\ reference_time r = Ok ref
     /\ tlen r = (if is_scalar t then tlen d else tlen t)
     /\ forall i, (i < tlen r)%nat -> at_pos r i = op2 Z.add (at_pos t i) (at_pos d i))
  /\ (~ compatible t d -> time_add t (LTime d) = Err ValueError).
Proof.
  intros Ht Hd At Ad Hr. unfold time_add. rewrite (wf_mk_time d Hd). cbn [bind]. rewrite At, Hr. cbn [bind].
  destruct (ref_abs t ref At Hr) as [rz ->].
  destruct t as [[z|z|l|l] r]; cbn in At; try discriminate;
  destruct d as [[y|y|m|m] r']; cbn in Ad; try discriminate; cbn [t_val padd bind];
  destruct Ht as [Ht _], Hd as [Hd _]; cbn in Ht, Hd.
  - split; [|intros H; exfalso; apply H; left; reflexivity].
    intros _. rewrite mk_stamp. eexists. split; [reflexivity|]. split; [reflexivity|].
    split; [reflexivity|]. split; [reflexivity|]. intros i _. reflexivity.
  - split; [|intros H; exfalso; apply H; left; reflexivity].
    intros _. rewrite mk_stamps; [|rewrite map_length; tauto|rewrite monotonic_map_addl; tauto].
    eexists. split; [reflexivity|]. split; [reflexivity|].
    split; [reflexivity|]. split; [cbn; apply map_length|].
    intros i _. cbn. rewrite nth_error_map. destruct (nth_error m i); reflexivity.
  - split; [|intros H; exfalso; apply H; right; left; reflexivity].
    intros _. rewrite mk_stamps; [|rewrite map_length; tauto|rewrite monotonic_map_add; tauto].
    eexists. split; [reflexivity|]. split; [reflexivity|].
    split; [reflexivity|]. split; [cbn; apply map_length|].
    intros i _. cbn. rewrite nth_error_map. destruct (nth_error l i); reflexivity.
  - split.
    + intros [H|[H|H]]; try discriminate. unfold tlen, vals in H; cbn in H.
      destruct (zip_with_total Z.add l m H) as [v E]. rewrite E. cbn [rmap bind].
      destruct (zip_with_ok _ _ _ _ E) as (E1 & E2 & E3).
      rewrite mk_stamps; [|lia|].
      2:{ apply monotonic_spec. eapply zip_with_mono; [exact E| |]; apply monotonic_spec; tauto. }
      eexists. split; [reflexivity|]. split; [reflexivity|]. split; [reflexivity|].
      split; [exact E2|]. intros i _. apply E3.
    + intros H. rewrite zip_with_err; [reflexivity|]. intros E. apply H. right; right. exact E.
Qed.

Lemma add_comm_time a b : wf a -> wf b -> is_absolute a = true -> is_absolute b = false ->
  time_add b (LTime a) = time_add a (LTime b).
Proof.
  intros Ha Hb Aa Ab. unfold time_add. rewrite (wf_mk_time a Ha), (wf_mk_time b Hb). cbn [bind].
  rewrite Aa, Ab, padd_comm. reflexivity.
Qed.

Lemma radd_same a x : time_radd a x = time_add a x.
Proof. reflexivity. Qed.

Lemma zip_add_sub l m r : zip_with Z.add l m = Ok r -> zip_with Z.sub r m = Ok l.
Proof.
  revert m r. induction l as [|x l IH]; intros [|y m] r; cbn; try discriminate.
  - intros H; injection H as <-. reflexivity.
  - destruct (zip_with Z.add l m) as [r'|] eqn:E; [|discriminate]. intros H; injection H as <-.
    cbn. rewrite (IH _ _ E). repeat f_equal. lia.
Qed.

Lemma zip_map_sub z m : zip_with Z.sub (map (fun y => z + y) m) m = Ok (map (fun _ => z) m).
Proof. induction m as [|y m IH]; cbn; [reflexivity|]. rewrite IH. repeat f_equal. lia. Qed.

Lemma monotonic_const z (m : list Z) : monotonic (map (fun _ => z) m) = true.
Proof.
  induction m as [|y m IH]; [reflexivity|]. destruct m as [|y' m]; [reflexivity|].
  change (((z <=? z) && monotonic (map (fun _ => z) (y' :: m))) = true).
  rewrite IH, Z.leb_refl. reflexivity.
Qed.

Lemma add_sub_cancel t d r :
  wf t -> wf d -> is_absolute t = true -> is_absolute d = false ->
  time_add t (LTime d) = Ok r ->
  exists t', time_sub r (LTime d) = Ok t'
    /\ is_absolute t' = true /\ reference_time t' = reference_time t
    /\ tlen t' = tlen r
    /\ forall i, (i < tlen t')%nat -> at_pos t' i = at_pos t i.
Proof.
  intros Ht Hd At Ad H.
  assert (Hr : exists ref, reference_time t = Ok ref).
  { unfold time_add in H. rewrite (wf_mk_time d Hd) in H. cbn [bind] in H. rewrite At in H.
    destruct (reference_time t); [eauto|discriminate]. }
  destruct Hr as [ref Hr].
  destruct (ref_abs t ref At Hr) as [rz ->]. rewrite Hr.
  unfold time_add in H. rewrite (wf_mk_time d Hd) in H. cbn [bind] in H. rewrite At, Hr in H. cbn [bind] in H.
  unfold time_sub. rewrite (wf_mk_time d Hd). cbn [bind]. rewrite Ad.
  destruct t as [[z|z|l|l] r0]; cbn in At; try discriminate;
  destruct d as [[y|y|m|m] r']; cbn in Ad; try discriminate; cbn [t_val padd bind] in *;
  destruct Ht as [Ht _], Hd as [Hd _]; cbn in Ht, Hd.
  - rewrite mk_stamp in H. injection H as <-. cbn [reference_time t_val t_ref bind psub].
    rewrite mk_stamp. eexists. split; [reflexivity|]. split; [reflexivity|]. split; [reflexivity|].
    split; [reflexivity|]. intros i _. cbn. f_equal. lia.
  - rewrite mk_stamps in H; [|rewrite map_length; tauto|rewrite monotonic_map_addl; tauto].
    injection H as <-. cbn [reference_time t_val t_ref bind psub]. rewrite zip_map_sub. cbn [rmap bind].
    rewrite mk_stamps; [|rewrite map_length; tauto|apply monotonic_const].
    eexists. split; [reflexivity|]. split; [reflexivity|]. split; [reflexivity|].
    unfold tlen, vals; cbn [t_val]. split; [rewrite !map_length; reflexivity|].
    intros i Hi. cbn. rewrite nth_error_map. rewrite map_length in Hi.
    destruct (nth_error m i) eqn:E; [reflexivity|]. apply nth_error_None in E. lia.
  - rewrite mk_stamps in H; [|rewrite map_length; tauto|rewrite monotonic_map_add; tauto].
    injection H as <-. cbn [reference_time t_val t_ref bind psub].
    rewrite map_map. rewrite (map_ext _ (fun x => x)) by (intros; lia). rewrite map_id.
    rewrite mk_stamps by tauto.
    eexists. split; [reflexivity|]. split; [reflexivity|]. split; [reflexivity|].
    unfold tlen, vals; cbn [t_val]. split; [rewrite !map_length; reflexivity|]. reflexivity.
  - destruct (zip_with Z.add l m) as [v|] eqn:E; [|discriminate]. cbn [rmap bind] in H.
    destruct (zip_with_ok _ _ _ _ E) as (E1 & E2 & E3).
    rewrite mk_stamps in H; [|lia|].
    2:{ apply monotonic_spec. eapply zip_with_mono; [exact E| |]; apply monotonic_spec; tauto. }
    injection H as <-. cbn [reference_time t_val t_ref bind psub].
    rewrite (zip_add_sub _ _ _ E). cbn [rmap bind]. rewrite mk_stamps by tauto.
    eexists. split; [reflexivity|]. split; [reflexivity|]. split; [reflexivity|].
    unfold tlen, vals; cbn [t_val]. split; [lia|]. reflexivity.
Qed.

Lemma mk_pandas_none p t : mk_time (LPandas p) None = Ok t -> t_val t = squeeze p /\ t_ref t = None.
Proof.
  unfold mk_time; cbn [get_time_input apply_ref]. destruct (squeeze p) as [z|z|l|l]; intros H.
  - injection H as <-; auto.
  - injection H as <-; auto.
  - destruct (monotonic l); [injection H as <-; auto|discriminate].
  - destruct (monotonic l); [injection H as <-; auto|discriminate].
Qed.

(** value of a pandas object at a position *)
Definition pat (p : ptime) (i : nat) : option Z := at_pos (mkTime p None) i.
Definition plen (p : ptime) : nat := length (vals (mkTime p None)).

Lemma squeeze_pat p i : (i < plen p)%nat -> pat (squeeze p) i = pat p i /\ plen (squeeze p) = plen p.
Proof.
  unfold plen, pat. destruct p as [z|z|[|a [|b l]]|[|a [|b l]]]; cbn; intros; split; try reflexivity;
    assert (i = 0)%nat by lia; subst; reflexivity.
Qed.

Lemma psub_at a b p : psub a b = Ok p ->
  forall i, (i < plen p)%nat -> pat p i = op2 Z.sub (pat a i) (pat b i).
Proof.
  unfold pat, plen. destruct a as [x|x|l|l], b as [y|y|m|m]; cbn; intros H i Hi; try discriminate;
    try (injection H as <-; cbn in *; try reflexivity;
         rewrite nth_error_map; destruct (nth_error _ i); reflexivity).
  all: destruct (zip_with Z.sub l m) as [v|] eqn:E; [|discriminate]; cbn in H; injection H as <-;
       cbn; apply zip_with_ok in E; apply E.
Qed.

Lemma sub_abs_abs a b r :
  wf b -> is_absolute a = true -> is_absolute b = true ->
  time_sub a (LTime b) = Ok r ->
  is_absolute r = false /\ reference_time r = Ok None /\ t_ref r = None
  /\ forall i, (i < tlen r)%nat -> at_pos r i = op2 Z.sub (at_pos a i) (at_pos b i).
Proof.
  intros Hb Aa Ab H. unfold time_sub in H. rewrite (wf_mk_time b Hb) in H. cbn [bind] in H.
  rewrite Ab in H. cbn [bind] in H. apply bind_ok in H as (p & Hp & H).
  apply mk_pandas_none in H as [H1 H2].
  assert (Hd : match p with PDelta _ | PDeltas _ => True | _ => False end).
  { unfold is_absolute in *. destruct (t_val a), (t_val b); cbn in *; try discriminate;
      try (injection Hp as <-; exact I);
      destruct (zip_with Z.sub l l0); cbn in Hp; try discriminate; injection Hp as <-; exact I. }
  assert (Hs : is_absolute r = false).
  { unfold is_absolute. rewrite H1. destruct p as [z|z|[|x [|y l]]|l]; cbn; reflexivity || destruct Hd. }
  split; [assumption|]. split; [|split; [assumption|]].
  - unfold reference_time. unfold is_absolute in Hs. destruct (t_val r); reflexivity || discriminate.
  - intros i Hi.
    assert (Hl : plen (squeeze p) = plen p) by (unfold plen; destruct p as [z|z|[|x [|y l]]|[|x [|y l]]]; reflexivity).
    assert (Hi' : (i < plen p)%nat).
    { rewrite <- Hl. unfold tlen, vals in Hi. unfold plen, vals. cbn [t_val]. rewrite <- H1. assumption. }
    transitivity (pat (squeeze p) i).
    { unfold pat, at_pos. cbn [t_val]. rewrite <- H1. reflexivity. }
    rewrite (proj1 (squeeze_pat p i Hi')). apply (psub_at _ _ _ Hp i Hi').
Qed.

Lemma add_abs_abs a b : wf b -> is_absolute a = true -> is_absolute b = true ->
  reference_time a <> Err IndexError ->
  time_add a (LTime b) = Err TypeError.
Proof.
  intros Hb Aa Ab Hr. unfold time_add. rewrite (wf_mk_time b Hb). cbn [bind]. rewrite Aa.
  assert (exists x, reference_time a = Ok x) as [x ->].
  { unfold reference_time in *. destruct (t_val a) as [|z|l|[|z l]], (t_ref a); eauto; contradiction. }
  cbn [bind]. unfold is_absolute in *. destruct (t_val a), (t_val b); cbn in *; discriminate || reflexivity.
Qed.

Lemma sub_delta_abs a b : wf b -> is_absolute a = false -> is_absolute b = true ->
  time_sub a (LTime b) = Err TypeError.
Proof.
  intros Hb Aa Ab. unfold time_sub. rewrite (wf_mk_time b Hb). cbn [bind]. rewrite Ab. cbn [bind].
  unfold is_absolute in *. destruct (t_val a), (t_val b); cbn in *; discriminate || reflexivity.
Qed.

Lemma rsub_spec a b : wf a -> wf b -> time_rsub a (LTime b) = time_sub b (LTime a).
Proof.
  intros Ha Hb. unfold time_rsub, time_sub. rewrite (wf_mk_time b Hb), (wf_mk_time a Ha). reflexivity.
Qed.

Lemma padd_delta a b p : is_absolute (mkTime a None) = false -> is_absolute (mkTime b None) = false ->
  padd a b = Ok p -> is_absolute (mkTime (squeeze p) None) = false.
Proof.
  destruct a as [x|x|l|l], b as [y|y|m|m]; cbn; try discriminate; intros _ _ H.
  - injection H as <-. reflexivity.
  - injection H as <-. destruct m as [|c [|d m]]; reflexivity.
  - injection H as <-. destruct l as [|c [|d l]]; reflexivity.
  - destruct (zip_with Z.add l m) as [v|]; cbn in H; [|discriminate]. injection H as <-.
    destruct v as [|c [|d v]]; reflexivity.
Qed.
Lemma psub_delta a b p : is_absolute (mkTime a None) = false -> is_absolute (mkTime b None) = false ->
  psub a b = Ok p -> is_absolute (mkTime (squeeze p) None) = false.
Proof.
  destruct a as [x|x|l|l], b as [y|y|m|m]; cbn; try discriminate; intros _ _ H.
  - injection H as <-. reflexivity.
  - injection H as <-. destruct m as [|c [|d m]]; reflexivity.
  - injection H as <-. destruct l as [|c [|d l]]; reflexivity.
  - destruct (zip_with Z.sub l m) as [v|]; cbn in H; [|discriminate]. injection H as <-.
    destruct v as [|c [|d v]]; reflexivity.
Qed.

Lemma ref_delta t : is_absolute t = false -> reference_time t = Ok None.
Proof. destruct t as [[z|z|l|l] r]; cbn; discriminate || reflexivity. Qed.

Lemma delta_delta a b r : wf b -> is_absolute a = false -> is_absolute b = false ->
  (time_add a (LTime b) = Ok r \/ time_sub a (LTime b) = Ok r) ->
  is_absolute r = false /\ t_ref r = None /\ reference_time r = Ok None.
Proof.
  intros Hb Aa Ab H.
  assert (G : is_absolute r = false /\ t_ref r = None).
  { destruct H as [H|H].
    - unfold time_add in H. rewrite (wf_mk_time b Hb) in H. cbn [bind] in H. rewrite Aa in H.
      rewrite (ref_delta b Ab) in H. cbn [bind] in H. apply bind_ok in H as (p & Hp & H).
      apply mk_pandas_none in H as [H1 H2]. split; [|assumption].
      unfold is_absolute. rewrite H1. apply (padd_delta (t_val a) (t_val b)); assumption.
    - unfold time_sub in H. rewrite (wf_mk_time b Hb) in H. cbn [bind] in H. rewrite Ab in H.
      rewrite (ref_delta a Aa) in H. cbn [bind] in H. apply bind_ok in H as (p & Hp & H).
      apply mk_pandas_none in H as [H1 H2]. split; [|assumption].
      unfold is_absolute. rewrite H1. apply (psub_delta (t_val a) (t_val b)); assumption. }
  destruct G as [G1 G2]. split; [assumption|]. split; [assumption|]. apply ref_delta; assumption.
Qed.

(** * Round trips *)

Lemma as_timedelta_moments t r l :
  is_absolute t = true -> reference_time t = Ok (Some r) -> as_timedelta_index t = Ok l ->
  map (fun z => z + r) l = vals t.
Proof.
  intros At Hr H. unfold as_timedelta_index, as_timedelta in H. rewrite At, Hr in H. cbn [bind] in H.
  unfold is_absolute in At. unfold vals. destruct (t_val t) as [z|z|m|m]; try discriminate; cbn in *.
  - injection H as <-. cbn. f_equal. lia.
  - injection H as <-. rewrite map_map. rewrite (map_ext _ (fun x => x)) by (intros; lia). apply map_id.
Qed.

Lemma as_timedelta_exists t : is_absolute t = true -> vals t <> [] ->
  exists l r, reference_time t = Ok (Some r) /\ as_timedelta_index t = Ok l /\ length l = tlen t.
Proof.
  intros At Hv. unfold as_timedelta_index, as_timedelta. rewrite At. unfold tlen.
  unfold is_absolute in At. destruct t as [[z|z|m|[|z m]] [r|]]; cbn in *; try discriminate; try contradiction;
    do 2 eexists; (split; [reflexivity|split; [reflexivity|]]); cbn; rewrite ?map_length; reflexivity.
Qed.

Lemma rebuild_timedelta t r p :
  wf t -> is_absolute t = true -> reference_time t = Ok (Some r) -> as_timedelta t = Ok p ->
  exists t', mk_time (LPandas p) (Some r) = Ok t'
    /\ t_val t' = t_val t /\ reference_time t' = Ok (Some r).
Proof.
  intros [Hw _] At Hr H. unfold as_timedelta in H. rewrite At, Hr in H. cbn [bind] in H.
  destruct t as [[z|z|m|m] r0]; cbn in At; try discriminate; cbn in H, Hw; injection H as <-.
  - unfold mk_time; cbn. eexists. split; [reflexivity|]. cbn. split; [|reflexivity]. f_equal. lia.
  - unfold mk_time; cbn [get_time_input].
    replace (squeeze (PDeltas (map (fun x => x - r) m))) with (PDeltas (map (fun x => x - r) m))
      by (destruct m as [|a [|b m]]; cbn in *; reflexivity || (destruct Hw; lia)).
    cbn [apply_ref]. rewrite map_map. rewrite (map_ext _ (fun x => x)) by (intros; lia). rewrite map_id.
    destruct Hw as [_ Hw]. rewrite Hw. eexists. split; [reflexivity|]. cbn. split; reflexivity.
Qed.

Lemma quantity_moments t q t' : as_quantity t = Ok q -> wf t -> mk_time q None = Ok t' ->
  t_val t' = t_val t.
Proof.
  intros H Hw H'. unfold as_quantity in H. apply bind_ok in H as (l & Hl & H).
  apply bind_ok in H as (ref & Href & H). injection H as <-.
  destruct (is_absolute t) eqn:At.
  - destruct (ref_abs t ref At Href) as [r ->].
    pose proof (as_timedelta_moments t r l At Href Hl) as Hm.
    unfold mk_time in H'. cbn [get_time_input convert_quantity] in H'. rewrite Hm in H'.
    destruct Hw as [Hw _]. destruct t as [[z|z|m|m] r0]; cbn in At; try discriminate; cbn in *.
    + injection H' as <-. reflexivity.
    + replace (match m with [z] => PStamp z | _ => PStamps m end) with (PStamps m) in H'
        by (destruct m as [|a [|b m]]; cbn in *; reflexivity || (destruct Hw; lia)).
      destruct Hw as [_ Hw]. rewrite Hw in H'. injection H' as <-. reflexivity.
  - injection Href as <-. unfold as_timedelta_index, as_timedelta in Hl. rewrite At in Hl.
    injection Hl as <-. destruct Hw as [Hw _]. unfold mk_time in H'. cbn [get_time_input convert_quantity] in H'.
    destruct t as [[z|z|m|m] r0]; cbn in At; try discriminate; cbn in *.
    + injection H' as <-. reflexivity.
    + replace (match m with [z] => PDelta z | _ => PDeltas m end) with (PDeltas m) in H'
        by (destruct m as [|a [|b m]]; cbn in *; reflexivity || (destruct Hw; lia)).
      cbn in H'. destruct Hw as [_ Hw]. rewrite Hw in H'. injection H' as <-. reflexivity.
Qed.

(** * Union *)

Lemma zunion_nil_r a : zunion a [] = a.
Proof. destruct a; reflexivity. Qed.
Lemma zunion_cons x a y b :
  zunion (x :: a) (y :: b)
  = if x <? y then x :: zunion a (y :: b)
    else if y <? x then y :: zunion (x :: a) b
    else x :: zunion a b.
Proof. reflexivity. Qed.

Lemma count_zero_lt x l : (forall b, In b l -> x < b) -> count x l = 0%nat.
Proof.
  intros H. unfold count. apply count_occ_not_In. intros Hi. apply H in Hi. lia.
Qed.

Lemma zunion_spec : forall n a b, (length a + length b <= n)%nat ->
  nondecreasing a -> nondecreasing b ->
  nondecreasing (zunion a b) /\ forall v, count v (zunion a b) = Nat.max (count v a) (count v b).
Proof.
  induction n as [|n IH]; intros a b Hn Ha Hb.
  - destruct a, b; cbn in Hn; try lia. cbn. split; [apply nondecreasing_nil|reflexivity].
  - destruct a as [|x a].
    { cbn. split; [assumption|]. intros v. reflexivity. }
    destruct b as [|y b].
    { rewrite zunion_nil_r. split; [assumption|]. intros v. cbn [count count_occ]. unfold count; cbn [count_occ]. lia. }
    pose proof (proj1 (nondecreasing_cons x a) Ha) as [Hx Ha'].
    pose proof (proj1 (nondecreasing_cons y b) Hb) as [Hy Hb'].
    rewrite zunion_cons. cbn [length] in Hn.
    assert (Hin : forall v a' b', nondecreasing a' -> nondecreasing b' -> (length a' + length b' <= n)%nat ->
              In v (zunion a' b') -> In v a' \/ In v b').
    { intros v a' b' H1 H2 H3 H4. destruct (IH a' b' H3 H1 H2) as [_ Hc]. specialize (Hc v).
      apply (count_occ_In Z.eq_dec) in H4. unfold count in Hc. rewrite Hc in H4.
      destruct (Nat.max_spec (count_occ Z.eq_dec a' v) (count_occ Z.eq_dec b' v)) as [[_ E]|[_ E]]; rewrite E in H4.
      - right. apply (count_occ_In Z.eq_dec). assumption.
      - left. apply (count_occ_In Z.eq_dec). assumption. }
    destruct (Z.ltb_spec x y) as [L1|L1]; [|destruct (Z.ltb_spec y x) as [L2|L2]].
    + destruct (IH a (y :: b)) as [S C]; [cbn; lia|assumption|assumption|]. split.
      * apply nondecreasing_cons. split; [|assumption]. intros v Hv.
        apply Hin in Hv; [|assumption|assumption|cbn; lia]. destruct Hv as [Hv|[<-|Hv]]; [auto|lia|].
        specialize (Hy v Hv). lia.
      * intros v. unfold count in *. cbn [count_occ] in *. rewrite (C v). cbn [count_occ].
        destruct (Z.eq_dec x v) as [->|E1], (Z.eq_dec y v) as [->|E2]; try lia.
        assert (E : count_occ Z.eq_dec b v = 0%nat).
        { apply count_occ_not_In. intros Hi. specialize (Hy v Hi). lia. }
        rewrite E. lia.
    + destruct (IH (x :: a) b) as [S C]; [cbn; lia|assumption|assumption|]. split.
      * apply nondecreasing_cons. split; [|assumption]. intros v Hv.
        apply Hin in Hv; [|assumption|assumption|cbn; lia]. destruct Hv as [[<-|Hv]|Hv]; [lia| |auto].
        specialize (Hx v Hv). lia.
      * intros v. unfold count in *. cbn [count_occ] in *. rewrite (C v). cbn [count_occ].
        destruct (Z.eq_dec x v) as [->|E1], (Z.eq_dec y v) as [->|E2]; try lia.
        assert (E : count_occ Z.eq_dec a v = 0%nat).
        { apply count_occ_not_In. intros Hi. specialize (Hx v Hi). lia. }
        rewrite E. lia.
    + assert (x = y) by lia. subst y.
      destruct (IH a b) as [S C]; [lia|assumption|assumption|]. split.
      * apply nondecreasing_cons. split; [|assumption]. intros v Hv.
        apply Hin in Hv; [|assumption|assumption|lia]. destruct Hv; auto.
      * intros v. unfold count in *. cbn [count_occ] in *. rewrite (C v).
        destruct (Z.eq_dec x v); lia.
Qed.

Lemma union_fold_spec ts : forall acc r, union_fold acc ts = Ok r ->
  nondecreasing (snd acc) ->
  exists ts', Forall2 (fun x t => mk_time x None = Ok t /\ is_absolute t = fst acc) ts ts'
   /\ fst r = fst acc /\ nondecreasing (snd r)
   /\ forall v, count v (snd r) = Nat.max (count v (snd acc)) (maxcount v (map vals ts')).
Proof.
  induction ts as [|x ts IH]; intros acc r H Hs; cbn [union_fold] in H.
  - injection H as <-. exists []. split; [constructor|]. split; [reflexivity|]. split; [assumption|].
    intros v. cbn. lia.
  - apply bind_ok in H as (t & Ht & H). apply bind_ok in H as (acc' & Ha & H).
    unfold punion in Ha. cbn [fst snd] in Ha.
    destruct (Bool.eqb (fst acc) (is_absolute t)) eqn:Eb; [|discriminate]. injection Ha as <-.
    apply Bool.eqb_prop in Eb.
    pose proof (mk_time_wf _ _ _ Ht) as [Hw _]. apply wf_sorted in Hw.
    destruct (zunion_spec _ _ _ (le_n _) Hs Hw) as [S C].
    destruct (IH _ _ H S) as (ts' & F & E1 & S' & C'). cbn [fst snd] in *.
    exists (t :: ts'). split; [constructor; [auto|exact F]|]. split; [assumption|]. split; [assumption|].
    intros v. rewrite C', C. cbn [map maxcount fold_right]. fold (maxcount v (map vals ts')). lia.
Qed.

Lemma time_union_spec ts r : time_union ts = Ok r ->
  exists ts', Forall2 (fun x t => mk_time x None = Ok t /\ is_absolute t = is_absolute r) ts ts'
   /\ nondecreasing (vals r) /\ t_ref r = None
   /\ forall v, count v (vals r) = maxcount v (map vals ts').
Proof.
  destruct ts as [|x ts]; cbn [time_union]; [discriminate|]. intros H.
  apply bind_ok in H as (t & Ht & H). apply bind_ok in H as (acc & Ha & H).
  pose proof (mk_time_wf _ _ _ Ht) as [Hw _]. apply wf_sorted in Hw.
  destruct (union_fold_spec _ _ _ Ha Hw) as (ts' & F & E1 & S & C). cbn [fst snd] in *.
  apply mk_pandas_none in H as [H1 H2].
  assert (Hv : vals r = snd acc).
  { unfold vals. rewrite H1. destruct (fst acc); destruct (snd acc) as [|a [|b l]]; reflexivity. }
  assert (Habs : is_absolute r = is_absolute t).
  { unfold is_absolute at 1. rewrite H1, <- E1. destruct (fst acc); destruct (snd acc) as [|a [|b l]]; reflexivity. }
  exists (t :: ts'). rewrite Habs. split; [constructor; [auto|exact F]|]. rewrite Hv.
  split; [assumption|]. split; [assumption|]. intros v. rewrite C. reflexivity.
Qed.

(** a nondecreasing list is determined by its multiplicities *)
Lemma nondecreasing_unique l m : nondecreasing l -> nondecreasing m ->
  (forall v, count v l = count v m) -> l = m.
Proof.
  revert m. induction l as [|a l IH]; intros m Hl Hm Hc.
  - destruct m as [|b m]; [reflexivity|]. specialize (Hc b). unfold count in Hc. cbn in Hc.
    destruct (Z.eq_dec b b); [lia|congruence].
  - destruct m as [|b m].
    { specialize (Hc a). unfold count in Hc. cbn in Hc. destruct (Z.eq_dec a a); [lia|congruence]. }
    apply nondecreasing_cons in Hl as [Hl1 Hl2]. apply nondecreasing_cons in Hm as [Hm1 Hm2].
    assert (a = b).
    { assert (In a (b :: m)).
      { apply (count_occ_In Z.eq_dec). fold (count a (b :: m)). rewrite <- Hc. unfold count. cbn.
        destruct (Z.eq_dec a a); [lia|congruence]. }
      assert (In b (a :: l)).
      { apply (count_occ_In Z.eq_dec). fold (count b (a :: l)). rewrite Hc. unfold count. cbn.
        destruct (Z.eq_dec b b); [lia|congruence]. }
      destruct H as [H|H]; [congruence|]. destruct H0 as [H0|H0]; [congruence|].
      specialize (Hm1 a H). specialize (Hl1 b H0). lia. }
    subst b. f_equal. apply IH; [assumption|assumption|]. intros v. specialize (Hc v).
    unfold count in *. cbn in Hc. destruct (Z.eq_dec a v); lia.
Qed.

Lemma nodup_strict l : nondecreasing l -> (forall v, (count v l <= 1)%nat) -> strictly_increasing l.
Proof.
  intros H Hc i j a b Hij Ha Hb.
  assert (a <= b) by (eapply H; [|exact Ha|exact Hb]; lia).
  destruct (Z.eq_dec a b) as [->|]; [|lia]. exfalso.
  assert (N : NoDup l) by (apply (NoDup_count_occ Z.eq_dec); exact Hc).
  assert (i = j); [|lia].
  apply (NoDup_nth_error l); [assumption|apply nth_error_Some; congruence|congruence].
Qed.

Lemma maxcount_perm v ls ls' : Permutation ls ls' -> maxcount v ls = maxcount v ls'.
Proof. unfold maxcount. induction 1; cbn [fold_right] in *; lia. Qed.

Lemma Forall2_perm {A B} (R : A -> B -> Prop) l l' : Permutation l l' -> forall m, Forall2 R l m ->
  exists m', Permutation m m' /\ Forall2 R l' m'.
Proof.
  induction 1; intros m F.
  - inversion F; subst. exists []. split; constructor.
  - inversion F; subst. destruct (IHPermutation _ H4) as (m' & P & F'). exists (y :: m'). split; constructor; auto.
  - inversion F; subst. inversion H3; subst. exists (y1 :: y0 :: l'0). split; [constructor|constructor; auto].
  - destruct (IHPermutation1 _ F) as (m1 & P1 & F1). destruct (IHPermutation2 _ F1) as (m2 & P2 & F2).
    exists m2. split; [eapply perm_trans; eassumption|assumption].
Qed.

(** success of the union depends on the kinds only *)
Lemma union_fold_ok ts : forall acc ts',
  Forall2 (fun x t => mk_time x None = Ok t /\ is_absolute t = fst acc) ts ts' ->
  exists r, union_fold acc ts = Ok r.
Proof.
  induction ts as [|x ts IH]; intros acc ts' F; cbn [union_fold]; [eauto|].
  inversion F as [|? ? ? ? [H1 H2] F']; subst. rewrite H1. cbn [bind]. unfold punion. cbn [fst snd].
  rewrite H2, Bool.eqb_reflx. cbn [bind]. eapply IH. cbn [fst]. exact F'.
Qed.

Lemma time_union_ok ts k ts' : ts <> [] ->
  Forall2 (fun x t => mk_time x None = Ok t /\ is_absolute t = k) ts ts' ->
  exists r, time_union ts = Ok r /\ is_absolute r = k.
Proof.
  intros Hne F. destruct ts as [|x ts]; [congruence|]. inversion F as [|? ? ? ? [H1 H2] F']; subst.
  cbn [time_union]. rewrite H1. cbn [bind].
  destruct (union_fold_ok ts (is_absolute y, vals y) l' F') as [r Hr]. rewrite Hr. cbn [bind].
  pose proof (mk_time_wf _ _ _ H1) as [Hw _]. apply wf_sorted in Hw.
  destruct (union_fold_spec _ _ _ Hr Hw) as (ts' & _ & E1 & S & _). cbn [fst snd] in *.
  apply monotonic_spec in S. rewrite <- E1.
  unfold mk_time; cbn [get_time_input]. destruct (fst r); destruct (snd r) as [|a [|b l]];
    cbn [squeeze apply_ref]; try rewrite S; eexists; (split; [reflexivity|reflexivity]).
Qed.

Lemma time_union_perm ts ts' r : Permutation ts ts' -> time_union ts = Ok r -> time_union ts' = Ok r.
Proof.
  intros P H. destruct (time_union_spec ts r H) as (us & F & S & R & C).
  destruct (Forall2_perm _ _ _ P us F) as (us' & P' & F').
  assert (ts' <> []).
  { intros ->. apply Permutation_sym, Permutation_nil in P. subst. discriminate. }
  destruct (time_union_ok ts' _ us' H0 F') as (r' & Hr' & Ha').
  destruct (time_union_spec ts' r' Hr') as (us2 & F2 & S2 & R2 & C2).
  assert (us2 = us').
  { clear - F2 F'. revert us2 F2. induction F' as [|x t l l' [Hx _] F' IH]; intros us2 F2; inversion F2; subst; [reflexivity|].
    destruct H1 as [H1 _]. rewrite Hx in H1. injection H1 as <-. f_equal. apply IH. assumption. }
  subst us2.
  assert (V : vals r' = vals r).
  { apply nondecreasing_unique; [assumption|assumption|]. intros v. rewrite C, C2.
    symmetry. apply maxcount_perm, Permutation_map. assumption. }
  pose proof (time_union_wf _ _ H) as [W _]. pose proof (time_union_wf _ _ Hr') as [W' _].
  rewrite Hr'. f_equal. destruct r as [p q], r' as [p' q']; cbn in *. subst q q'. f_equal.
  unfold vals, is_absolute in *; cbn in *.
  destruct p as [z|z|l|l], p' as [z'|z'|l'|l']; cbn in *; try discriminate; try congruence;
    subst; cbn in *; destruct W, W'; try lia.
Qed.

(** * Resample *)

Lemma fold_min_in l d : In (zmin_list l d) (d :: l).
Proof.
  induction l as [|a l IH]; cbn; [auto|]. unfold zmin_list in *. cbn.
  destruct (Z.min_spec a (fold_right Z.min d l)) as [[_ E]|[_ E]]; rewrite E; [auto|].
  destruct IH as [IH|IH]; auto.
Qed.
Lemma fold_min_le l d : forall x, In x (d :: l) -> zmin_list l d <= x.
Proof.
  induction l as [|a l IH]; cbn; intros x H; [destruct H as [->|[]]; lia|].
  unfold zmin_list in *. cbn. destruct H as [H|[H|H]]; subst;
  [specialize (IH x (or_introl eq_refl)); lia|lia|specialize (IH x (or_intror H)); lia].
Qed.
Lemma fold_max_in l d : In (zmax_list l d) (d :: l).
Proof.
  induction l as [|a l IH]; cbn; [auto|]. unfold zmax_list in *. cbn.
  destruct (Z.max_spec a (fold_right Z.max d l)) as [[_ E]|[_ E]]; rewrite E; [|auto].
  destruct IH as [IH|IH]; auto.
Qed.
Lemma fold_max_ge l d : forall x, In x (d :: l) -> x <= zmax_list l d.
Proof.
  induction l as [|a l IH]; cbn; intros x H; [destruct H as [->|[]]; lia|].
  unfold zmax_list in *. cbn. destruct H as [H|[H|H]]; subst;
  [specialize (IH x (or_introl eq_refl)); lia|lia|specialize (IH x (or_intror H)); lia].
Qed.

Lemma min_sorted a l : nondecreasing (a :: l) -> zmin_list (a :: l) a = a.
Proof.
  intros H. apply nondecreasing_cons in H as [H _].
  assert (zmin_list (a :: l) a <= a) by (apply fold_min_le; cbn; auto).
  pose proof (fold_min_in (a :: l) a) as [Hi|[Hi|Hi]]; [congruence|congruence|].
  specialize (H _ Hi). lia.
Qed.
Lemma last_in {A} (l : list A) d : l <> [] -> In (last l d) l.
Proof.
  induction l as [|a l IH]; [congruence|]. intros _. destruct l as [|b l]; [left; reflexivity|].
  right. apply IH. discriminate.
Qed.
Lemma last_max l d x : nondecreasing l -> In x l -> x <= last l d.
Proof.
  induction l as [|a l IH]; [intros _ []|]. intros H Hi. apply nondecreasing_cons in H as [H1 H2].
  destruct l as [|b l].
  - destruct Hi as [->|[]]. cbn. lia.
  - destruct Hi as [->|Hi].
    + apply H1. change (last (x :: b :: l) d) with (last (b :: l) d). apply last_in. discriminate.
    + apply IH; assumption.
Qed.
Lemma max_sorted a l d : nondecreasing (a :: l) -> zmax_list (a :: l) a = last (a :: l) d.
Proof.
  intros H.
  assert (Hi : In (zmax_list (a :: l) a) (a :: l)).
  { pose proof (fold_max_in (a :: l) a) as [Hi|Hi]; [rewrite <- Hi; left; reflexivity|assumption]. }
  pose proof (last_max _ d _ H Hi).
  assert (In (last (a :: l) d) (a :: l)) by (apply last_in; discriminate).
  pose proof (fold_max_ge (a :: l) a (last (a :: l) d) (or_intror H1)). lia.
Qed.

Lemma range_periods_length t0 t1 n : length (range_periods t0 t1 n) = n.
Proof. unfold range_periods. rewrite map_length, seq_length. reflexivity. Qed.

Lemma range_periods_nth t0 t1 n i : (i < n)%nat ->
  nth_error (range_periods t0 t1 n) i
  = Some (Z.quot (t0 * (Z.of_nat n - 1) + Z.of_nat i * (t1 - t0)) (Z.of_nat n - 1)).
Proof.
  intros H. unfold range_periods. rewrite nth_error_map.
  rewrite (nth_error_nth' (seq 0 n) 0%nat) by (rewrite seq_length; lia).
  rewrite seq_nth by lia. reflexivity.
Qed.

Lemma range_periods_sorted t0 t1 n : t0 <= t1 -> (2 <= n)%nat -> nondecreasing (range_periods t0 t1 n).
Proof.
  intros Ht Hn i j a b Hij Ha Hb.
  assert (Hi : (i < n)%nat) by (rewrite <- (range_periods_length t0 t1 n); apply nth_error_Some; congruence).
  assert (Hj : (j < n)%nat) by (rewrite <- (range_periods_length t0 t1 n); apply nth_error_Some; congruence).
  rewrite range_periods_nth in Ha, Hb by assumption. injection Ha as <-. injection Hb as <-.
  apply Z.quot_le_mono; [lia|]. nia.
Qed.

Lemma last_nth_error {A} (l : list A) d : l <> [] -> nth_error l (length l - 1) = Some (last l d).
Proof.
  induction l as [|a l IH]; [congruence|]. intros _. destruct l as [|b l]; [reflexivity|].
  change (last (a :: b :: l) d) with (last (b :: l) d). rewrite <- IH by discriminate. cbn.
  rewrite Nat.sub_0_r. reflexivity.
Qed.

Lemma range_periods_last t0 t1 n d : (2 <= n)%nat -> last (range_periods t0 t1 n) d = t1.
Proof.
  intros Hn. assert (Hne : range_periods t0 t1 n <> []).
  { intros E. pose proof (range_periods_length t0 t1 n). rewrite E in H. cbn in H. lia. }
  pose proof (last_nth_error _ d Hne) as H. rewrite range_periods_length in H.
  rewrite range_periods_nth in H by lia. injection H as H. rewrite <- H.
  replace (t0 * (Z.of_nat n - 1) + Z.of_nat (n - 1) * (t1 - t0)) with (t1 * (Z.of_nat n - 1)) by lia.
  apply Z.quot_mul. lia.
Qed.

Lemma range_freq_length t0 t1 dt : length (range_freq t0 t1 dt) = S (Z.to_nat ((t1 - t0) / dt)).
Proof. unfold range_freq. rewrite map_length, seq_length. reflexivity. Qed.
Lemma range_freq_nth t0 t1 dt i : (i < S (Z.to_nat ((t1 - t0) / dt)))%nat ->
  nth_error (range_freq t0 t1 dt) i = Some (t0 + Z.of_nat i * dt).
Proof.
  intros H. unfold range_freq. rewrite nth_error_map.
  rewrite (nth_error_nth' (seq 0 _) 0%nat) by (rewrite seq_length; lia).
  rewrite seq_nth by lia. reflexivity.
Qed.

(** the sequence produced for an interval *)
Definition freq_grid (t0 t1 dt : Z) : list Z :=
  if last (range_freq t0 t1 dt) t1 =? t1 then range_freq t0 t1 dt else range_freq t0 t1 dt ++ [t1].

Lemma freq_grid_spec t0 t1 dt : t0 <= t1 -> 0 < dt ->
  let g := freq_grid t0 t1 dt in
  nth_error g 0 = Some t0 /\ last g 0 = t1 /\ nondecreasing g /\ (1 <= length g)%nat
  /\ (forall i a b, nth_error g i = Some a -> nth_error g (S i) = Some b ->
        if (S (S i) =? length g)%nat then 0 < b - a <= dt else b - a = dt).
Proof.
  intros Ht Hd g.
  assert (Hq : 0 <= (t1 - t0) / dt) by (apply Z.div_pos; lia).
  set (k := Z.to_nat ((t1 - t0) / dt)) in *.
  assert (Hk : Z.of_nat k = (t1 - t0) / dt) by (unfold k; lia).
  assert (Hmod : t1 - t0 = dt * Z.of_nat k + (t1 - t0) mod dt) by (rewrite Hk; apply Z.div_mod; lia).
  pose proof (Z.mod_pos_bound (t1 - t0) dt Hd) as Hb.
  assert (Hlast : forall d, last (range_freq t0 t1 dt) d = t0 + Z.of_nat k * dt).
  { intros d. assert (Hne : range_freq t0 t1 dt <> []) by (unfold range_freq; discriminate).
    pose proof (last_nth_error _ d Hne) as H. rewrite range_freq_length in H. fold k in H.
    rewrite range_freq_nth in H by (fold k; lia).
    assert (G : forall a b : Z, Some a = Some b -> a = b) by (intros; congruence). apply G in H.
    rewrite <- H. f_equal. f_equal. lia. }
  assert (Hin : forall x, In x (range_freq t0 t1 dt) -> x <= t0 + Z.of_nat k * dt).
  { intros x Hx. apply in_map_iff in Hx as [i [<- Hi]]. apply in_seq in Hi. fold k in Hi. nia. }
  assert (Hmono : nondecreasing (range_freq t0 t1 dt)).
  { intros i j a b Hij Ha Hb'.
    assert (Hi : (i < S k)%nat) by (unfold k; rewrite <- range_freq_length; apply nth_error_Some; congruence).
    assert (Hj : (j < S k)%nat) by (unfold k; rewrite <- range_freq_length; apply nth_error_Some; congruence).
    rewrite range_freq_nth in Ha, Hb' by assumption. injection Ha as <-. injection Hb' as <-. nia. }
  unfold g, freq_grid. rewrite Hlast.
  destruct (Z.eqb_spec (t0 + Z.of_nat k * dt) t1) as [E|E].
  - split; [rewrite range_freq_nth by (fold k; lia); f_equal; lia|]. split; [rewrite Hlast; assumption|].
    split; [assumption|]. split; [rewrite range_freq_length; lia|].
    intros i a b Ha Hb'. rewrite range_freq_length. fold k.
    assert (Hj : (S i < S k)%nat) by (unfold k; rewrite <- range_freq_length; apply nth_error_Some; congruence).
    rewrite range_freq_nth in Ha, Hb' by (fold k; lia). rewrite Nat2Z.inj_succ in Hb'. injection Ha as <-. injection Hb' as <-.
    destruct (Nat.eqb_spec (S (S i)) (S k)); lia.
  - split; [rewrite nth_error_app1 by (rewrite range_freq_length; lia); rewrite range_freq_nth by (fold k; lia); f_equal; lia|].
    split; [apply last_last|]. split; [|split].
    + intros i j a b Hij Ha Hb'.
      destruct (Nat.lt_ge_cases j (S k)) as [Lj|Lj].
      * rewrite nth_error_app1 in Ha by (rewrite range_freq_length; fold k; lia).
        rewrite nth_error_app1 in Hb' by (rewrite range_freq_length; fold k; lia). apply (Hmono i j a b); assumption.
      * rewrite nth_error_app2 in Hb' by (rewrite range_freq_length; fold k; lia).
        rewrite range_freq_length in Hb'. fold k in Hb'.
        destruct (j - S k)%nat as [|n] eqn:En; [|destruct n; discriminate]. injection Hb' as <-.
        apply nth_error_In, in_app_iff in Ha. destruct Ha as [Ha|[<-|[]]]; [|lia].
        apply Hin in Ha. nia.
    + rewrite app_length. cbn. lia.
    + intros i a b Ha Hb'. rewrite app_length, range_freq_length. fold k. cbn [length].
      destruct (Nat.eqb_spec (S (S i)) (S k + 1)) as [El|El].
      * assert (i = k) by lia. subst i.
        rewrite nth_error_app1 in Ha by (rewrite range_freq_length; fold k; lia).
        rewrite range_freq_nth in Ha by (fold k; lia). injection Ha as <-.
        rewrite nth_error_app2 in Hb' by (rewrite range_freq_length; fold k; lia).
        rewrite range_freq_length in Hb'. fold k in Hb'. replace (S k - S k)%nat with 0%nat in Hb' by lia.
        injection Hb' as <-. nia.
      * assert (Hl : (S i < S k + 1)%nat).
        { assert (nth_error (range_freq t0 t1 dt ++ [t1]) (S i) <> None) by congruence.
          apply nth_error_Some in H. rewrite app_length, range_freq_length in H. fold k in H. exact H. }
        rewrite nth_error_app1 in Ha by (rewrite range_freq_length; fold k; lia).
        rewrite nth_error_app1 in Hb' by (rewrite range_freq_length; fold k; lia).
        rewrite range_freq_nth in Ha, Hb' by (fold k; lia). rewrite Nat2Z.inj_succ in Hb'. injection Ha as <-. injection Hb' as <-. lia.
Qed.

Definition off_of (o : option Z) : Z := match o with Some r => r | None => 0 end.

Lemma deltas_of t : wf t -> (2 <= tlen t)%nat ->
  exists tdi refo, as_timedelta_index t = Ok tdi /\ reference_time t = Ok refo
    /\ vals t = map (fun z => z + off_of refo) tdi /\ nondecreasing tdi /\ (2 <= length tdi)%nat
    /\ (is_absolute t = match refo with Some _ => true | None => false end).
Proof.
  intros [Hw _] Hl. unfold tlen in Hl. pose proof (wf_sorted t Hw) as Hs.
  destruct t as [[z|z|l|l] r]; cbn in Hl; try lia.
  - exists l, None. cbn. unfold as_timedelta_index. cbn. split; [reflexivity|]. split; [reflexivity|].
    split; [|auto]. rewrite (map_ext _ (fun x => x)) by (intros; lia). rewrite map_id. reflexivity.
  - assert (exists ref, reference_time (mkTime (PStamps l) r) = Ok (Some ref)) as [ref Hr].
    { cbn. destruct r; [eauto|]. destruct l; [cbn in Hl; lia|eauto]. }
    exists (map (fun x => x - ref) l), (Some ref).
    unfold as_timedelta_index, as_timedelta. rewrite Hr. cbn.
    split; [reflexivity|]. split; [reflexivity|]. split; [|split; [|split; [rewrite map_length; assumption|reflexivity]]].
    + rewrite map_map. rewrite (map_ext _ (fun x => x)) by (intros; lia). rewrite map_id. reflexivity.
    + apply nondecreasing_map; [intros; lia|exact Hs].
Qed.

Lemma build_deltas new refo : nondecreasing new -> new <> [] ->
  exists r, mk_time (LPandas (PDeltas new)) refo = Ok r
    /\ vals r = map (fun z => z + off_of refo) new
    /\ is_absolute r = match refo with Some _ => true | None => false end
    /\ reference_time r = Ok refo.
Proof.
  intros Hs Hne. apply monotonic_spec in Hs. unfold mk_time. cbn [get_time_input].
  destruct new as [|a [|b l]]; [congruence| |]; cbn [squeeze]; destruct refo as [r|]; cbn [apply_ref].
  - eexists. split; [reflexivity|]. split; [reflexivity|]. split; reflexivity.
  - eexists. split; [reflexivity|]. cbn. split; [f_equal; lia|]. split; reflexivity.
  - rewrite monotonic_map_add, Hs. eexists. split; [reflexivity|]. split; [reflexivity|]. split; reflexivity.
  - rewrite Hs. eexists. split; [reflexivity|]. split; [|split; reflexivity].
    cbn [vals t_val off_of]. symmetry. rewrite (map_ext _ (fun x => x)) by (intros; lia). apply map_id.
Qed.

Lemma map_last {A B} (f : A -> B) l d : last (map f l) (f d) = f (last l d).
Proof. induction l as [|a l IH]; [reflexivity|]. destruct l; [reflexivity|]. exact IH. Qed.

Lemma last_indep {A} (l : list A) d d' : l <> [] -> last l d = last l d'.
Proof.
  induction l as [|a l IH]; [congruence|]. intros _. destruct l as [|b l]; [reflexivity|].
  apply IH. discriminate.
Qed.

Lemma ends_of tdi : (2 <= length tdi)%nat -> nondecreasing tdi ->
  nth_error tdi 0 = Some (zmin_list tdi (hd 0 tdi))
  /\ nth_error tdi (length tdi - 1) = Some (zmax_list tdi (hd 0 tdi))
  /\ zmin_list tdi (hd 0 tdi) <= zmax_list tdi (hd 0 tdi).
Proof.
  destruct tdi as [|a l]; cbn [length]; [lia|]. intros Hl Hs. cbn [hd].
  split; [rewrite min_sorted by assumption; reflexivity|].
  split.
  - rewrite (max_sorted a l 0) by assumption. apply (last_nth_error (a :: l)). discriminate.
  - rewrite min_sorted by assumption. apply fold_max_ge. left. reflexivity.
Qed.

Lemma first_last_map f l a b : first_last l a b -> first_last (map f l) (f a) (f b).
Proof.
  intros [H1 H2]. split; rewrite nth_error_map; [rewrite H1; reflexivity|].
  rewrite map_length, H2. reflexivity.
Qed.

Lemma quot_close x m : 0 < m -> Z.abs (Z.quot x m * m - x) < m.
Proof.
  intros Hm. pose proof (Z.quot_rem' x m) as H. pose proof (Z.rem_bound_abs x m ltac:(lia)). lia.
Qed.

Lemma resample_number t n v0 v1 : wf t -> (2 <= tlen t)%nat -> 2 <= n -> first_last (vals t) v0 v1 ->
  exists r, time_resample t (RNumber n) = Ok r
    /\ is_absolute r = is_absolute t /\ reference_time r = reference_time t
    /\ Z.of_nat (tlen r) = n /\ first_last (vals r) v0 v1 /\ nondecreasing (vals r)
    /\ forall i v, nth_error (vals r) i = Some v ->
         Z.abs (v * (n - 1) - (v0 * (n - 1) + Z.of_nat i * (v1 - v0))) < n - 1.
Proof.
  intros Hw Hl Hn Hfl. unfold time_resample. unfold tlen in Hl.
  destruct (Nat.leb_spec (length (vals t)) 1); [lia|].
  destruct (deltas_of t Hw Hl) as (tdi & refo & H1 & H2 & H3 & H4 & H5 & H6).
  rewrite H1. cbn [bind]. destruct (Z.ltb_spec n 2); [lia|]. cbn [bind].
  destruct (ends_of tdi H5 H4) as (E0 & E1 & Hle).
  set (t0 := zmin_list tdi (hd 0 tdi)) in *. set (t1 := zmax_list tdi (hd 0 tdi)) in *.
  set (k := Z.to_nat n). assert (Hk : (2 <= k)%nat) by lia.
  rewrite range_periods_last by assumption. rewrite Z.eqb_refl. rewrite H2. cbn [bind].
  destruct (build_deltas (range_periods t0 t1 k) refo) as (r & B1 & B2 & B3 & B4).
  - apply range_periods_sorted; assumption.
  - intros E. pose proof (range_periods_length t0 t1 k) as HL. rewrite E in HL. cbn in HL. lia.
  - rewrite B1. exists r. split; [reflexivity|]. split; [congruence|]. split; [congruence|].
    assert (Hv : v0 = t0 + off_of refo /\ v1 = t1 + off_of refo).
    { destruct Hfl as [F1 F2]. rewrite H3 in F1, F2. rewrite map_length in F2.
      rewrite nth_error_map, E0 in F1. rewrite nth_error_map, E1 in F2. cbn in F1, F2.
      split; congruence. }
    destruct Hv as [-> ->].
    split; [unfold tlen; rewrite B2, map_length, range_periods_length; lia|].
    split; [|split].
    + rewrite B2. apply (first_last_map (fun z => z + off_of refo)). split.
      * rewrite range_periods_nth by lia. f_equal.
        replace (t0 * (Z.of_nat k - 1) + Z.of_nat 0 * (t1 - t0)) with (t0 * (Z.of_nat k - 1)) by lia.
        apply Z.quot_mul. lia.
      * rewrite (last_nth_error _ 0).
        -- rewrite range_periods_last by assumption. reflexivity.
        -- intros E. pose proof (range_periods_length t0 t1 k) as HL. rewrite E in HL. cbn in HL. lia.
    + rewrite B2. apply nondecreasing_map; [intros; lia|]. apply range_periods_sorted; assumption.
    + intros i v Hi. rewrite B2 in Hi. rewrite nth_error_map in Hi.
      destruct (nth_error (range_periods t0 t1 k) i) as [w|] eqn:Ew; [|discriminate]. cbn in Hi. injection Hi as <-.
      assert (Li : (i < k)%nat) by (rewrite <- (range_periods_length t0 t1 k); apply nth_error_Some; congruence).
      rewrite range_periods_nth in Ew by assumption. injection Ew as <-.
      replace (Z.of_nat k) with n by lia.
      pose proof (quot_close (t0 * (n - 1) + Z.of_nat i * (t1 - t0)) (n - 1) ltac:(lia)).
      lia.
Qed.

Lemma resample_interval t x d dt v0 v1 : wf t -> (2 <= tlen t)%nat ->
  mk_time x None = Ok d -> t_val d = PDelta dt -> 0 < dt -> first_last (vals t) v0 v1 ->
  exists r, time_resample t (RInterval x) = Ok r
    /\ is_absolute r = is_absolute t /\ reference_time r = reference_time t
    /\ first_last (vals r) v0 v1 /\ nondecreasing (vals r)
    /\ forall i a b, nth_error (vals r) i = Some a -> nth_error (vals r) (S i) = Some b ->
         if (S (S i) =? tlen r)%nat then 0 < b - a <= dt else b - a = dt.
Proof.
  intros Hw Hl Hx Hd Hdt Hfl. unfold time_resample. unfold tlen in Hl.
  destruct (Nat.leb_spec (length (vals t)) 1); [lia|].
  destruct (deltas_of t Hw Hl) as (tdi & refo & H1 & H2 & H3 & H4 & H5 & H6).
  rewrite H1. cbn [bind]. rewrite Hx. cbn [bind].
  assert (Ha : as_timedelta d = Ok (PDelta dt)) by (unfold as_timedelta, is_absolute; rewrite Hd; reflexivity).
  rewrite Ha. cbn [bind]. destruct (Z.leb_spec dt 0); [lia|]. cbn [bind].
  destruct (ends_of tdi H5 H4) as (E0 & E1 & Hle).
  set (t0 := zmin_list tdi (hd 0 tdi)) in *. set (t1 := zmax_list tdi (hd 0 tdi)) in *.
  fold (freq_grid t0 t1 dt).
  destruct (freq_grid_spec t0 t1 dt Hle Hdt) as (G0 & G1 & G2 & G3 & G4).
  set (g := freq_grid t0 t1 dt) in *. rewrite H2. cbn [bind].
  assert (Hne : g <> []) by (intros E; rewrite E in G3; cbn in G3; lia).
  destruct (build_deltas g refo G2 Hne) as (r & B1 & B2 & B3 & B4).
  rewrite B1. exists r. split; [reflexivity|]. split; [congruence|]. split; [congruence|].
  assert (Hv : v0 = t0 + off_of refo /\ v1 = t1 + off_of refo).
  { destruct Hfl as [F1 F2]. rewrite H3 in F1, F2. rewrite map_length in F2.
    rewrite nth_error_map, E0 in F1. rewrite nth_error_map, E1 in F2. cbn in F1, F2.
    split; congruence. }
  destruct Hv as [-> ->]. split; [|split].
  - rewrite B2. apply (first_last_map (fun z => z + off_of refo)). split; [assumption|].
    rewrite (last_nth_error _ 0) by assumption. rewrite G1. reflexivity.
  - rewrite B2. apply nondecreasing_map; [intros; lia|]. assumption.
  - intros i a b Hia Hib. unfold tlen. rewrite B2 in *. rewrite nth_error_map in Hia, Hib.
    destruct (nth_error g i) as [wa|] eqn:Ea; [|discriminate].
    destruct (nth_error g (S i)) as [wb|] eqn:Eb; [|discriminate]. cbn in Hia, Hib.
    injection Hia as <-. injection Hib as <-. rewrite map_length.
    specialize (G4 i wa wb Ea Eb). destruct (S (S i) =? length g)%nat; lia.
Qed.

Lemma resample_errors t :
  ((tlen t <= 1)%nat -> forall a, time_resample t a = Err RuntimeError)
  /\ (wf t -> (2 <= tlen t)%nat -> forall n, n < 2 -> time_resample t (RNumber n) = Err ValueError)
  /\ (wf t -> (2 <= tlen t)%nat -> forall x d dt, mk_time x None = Ok d -> t_val d = PDelta dt ->
        dt <= 0 -> time_resample t (RInterval x) = Err ValueError).
Proof.
  split; [|split].
  - intros H a. unfold time_resample, tlen in *. destruct (Nat.leb_spec (length (vals t)) 1); [reflexivity|lia].
  - intros Hw Hl n Hn. unfold time_resample, tlen in *. destruct (Nat.leb_spec (length (vals t)) 1); [lia|].
    destruct (deltas_of t Hw Hl) as (tdi & refo & H1 & _). rewrite H1. cbn [bind].
    destruct (Z.ltb_spec n 2); [reflexivity|lia].
  - intros Hw Hl x d dt Hx Hd Hdt. unfold time_resample, tlen in *. destruct (Nat.leb_spec (length (vals t)) 1); [lia|].
    destruct (deltas_of t Hw Hl) as (tdi & refo & H1 & _). rewrite H1. cbn [bind]. rewrite Hx. cbn [bind].
    assert (Ha : as_timedelta d = Ok (PDelta dt)) by (unfold as_timedelta, is_absolute; rewrite Hd; reflexivity).
    rewrite Ha. cbn [bind]. destruct (Z.leb_spec dt 0); [reflexivity|lia].
Qed.

(** * equals *)

Lemma opt_eqb_spec a b : opt_eqb a b = true <-> a = b.
Proof.
  destruct a, b; cbn; try (split; congruence). rewrite Z.eqb_eq. split; congruence.
Qed.

Lemma all_eq_spec l m : length l = length m ->
  exists b, all_eq l m = Ok b /\ (b = true <-> l = m).
Proof.
  revert m. induction l as [|x l IH]; intros [|y m] H; cbn in *; try lia.
  - exists true. tauto.
  - destruct (IH m) as (b & E & Hb); [lia|]. rewrite E. cbn. exists ((x =? y) && b). split; [reflexivity|].
    rewrite andb_true_iff, Z.eqb_eq, Hb. split; [intros [-> ->]; reflexivity|intros [= -> ->]; auto].
Qed.

Lemma equals_same_length a b : wf a -> wf b -> tlen a = tlen b -> tlen a <> 0%nat ->
  exists r, time_equals a b = Ok r /\ (r = true <-> t_val a = t_val b /\ t_ref a = t_ref b).
Proof.
  intros Ha Hb Hl Hz. unfold time_equals. rewrite (wf_mk_time b Hb). cbn [bind].
  unfold tlen, vals in *. destruct Ha as [Ha _], Hb as [Hb _].
  assert (exists q, peq_all (t_val a) (t_val b) = Ok q /\ (q = true <-> t_val a = t_val b)) as (q & Eq & Hq).
  { destruct (t_val a) as [x|x|l|l], (t_val b) as [y|y|m|m]; cbn in Hl, Hz, Ha, Hb; cbn [peq_all];
      try (destruct Ha as [Ha _]); try (destruct Hb as [Hb _]); try lia;
      try (eexists; split; [reflexivity|]; rewrite ?Z.eqb_eq; split; congruence).
    - destruct (all_eq_spec l m Hl) as (q & E & Hq). exists q. split; [assumption|]. rewrite Hq. split; congruence.
    - rewrite Hl, Nat.eqb_refl. eexists. split; [reflexivity|]. destruct l; [cbn in Hz; lia|]. split; discriminate.
    - rewrite Hl, Nat.eqb_refl. eexists. split; [reflexivity|]. destruct l; [cbn in Hz; lia|]. split; discriminate.
    - destruct (all_eq_spec l m Hl) as (q & E & Hq). exists q. split; [assumption|]. rewrite Hq. split; congruence. }
  rewrite Eq. cbn [bind]. exists (q && opt_eqb (t_ref a) (t_ref b)). split; [reflexivity|].
  rewrite andb_true_iff, Hq, opt_eqb_spec. tauto.
Qed.

(** [equals] is sound for the documented meaning whenever one operand is not a
    scalar compared with an index *)
Lemma equals_sound a b : wf a -> wf b -> is_scalar a = is_scalar b ->
  (tlen a <> 0)%nat ->
  time_equals a b = Ok true -> vals a = vals b /\ reference_time a = reference_time b.
Proof.
  intros Ha Hb Hs Hz H.
  assert (Hl : tlen a = tlen b).
  { unfold time_equals in H. rewrite (wf_mk_time b Hb) in H. cbn [bind] in H.
    unfold tlen, vals, is_scalar in *.
    destruct (t_val a) as [x|x|l|l], (t_val b) as [y|y|m|m]; try discriminate; try reflexivity.
    - destruct (Nat.eq_dec (length l) (length m)) as [E|E]; [assumption|]. exfalso. cbn in H.
      assert (all_eq l m = Err ValueError); [|rewrite H0 in H; discriminate].
      clear - E. revert m E. induction l as [|x l IH]; intros [|y m] E; cbn in *; try lia; try reflexivity.
      rewrite IH by lia. reflexivity.
    - cbn in H. destruct (Nat.eqb_spec (length l) (length m)); [assumption|discriminate].
    - cbn in H. destruct (Nat.eqb_spec (length l) (length m)); [assumption|discriminate].
    - destruct (Nat.eq_dec (length l) (length m)) as [E|E]; [assumption|]. exfalso. cbn in H.
      assert (all_eq l m = Err ValueError); [|rewrite H0 in H; discriminate].
      clear - E. revert m E. induction l as [|x l IH]; intros [|y m] E; cbn in *; try lia; try reflexivity.
      rewrite IH by lia. reflexivity. }
  destruct (equals_same_length a b Ha Hb Hl Hz) as (r & E & Hr). rewrite H in E. injection E as <-.
  destruct (proj1 Hr eq_refl) as [E1 E2]. unfold vals, reference_time. rewrite E1, E2. auto.
Qed.

Lemma equals_refl a : wf a -> time_equals a a = Ok true.
Proof.
  intros Ha. unfold time_equals. rewrite (wf_mk_time a Ha). cbn [bind].
  assert (O : opt_eqb (t_ref a) (t_ref a) = true) by (apply opt_eqb_spec; reflexivity). rewrite O.
  assert (forall l, all_eq l l = Ok true) as AE.
  { induction l as [|x l IH]; cbn; [reflexivity|]. rewrite IH, Z.eqb_refl. reflexivity. }
  destruct (t_val a); cbn; rewrite ?Z.eqb_refl, ?AE; reflexivity.
Qed.

(** * Summaries used by the property file *)

Lemma constructed_id t : constructed t -> mk_time (LTime t) None = Ok t.
Proof. intros H. apply wf_mk_time, constructed_wf, H. Qed.

Lemma add_abs_delta_c t d ref :
  constructed t -> constructed d -> is_absolute t = true -> is_absolute d = false ->
  reference_time t = Ok ref ->
  (compatible t d ->
   exists r, time_add t (LTime d) = Ok r /\ time_add d (LTime t) = Ok r
     /\ is_absolute r = true /\ reference_time r = Ok ref
     /\ tlen r = (if is_scalar t then tlen d else tlen t)
     /\ forall i, (i < tlen r)%nat -> at_pos r i = op2 Z.add (at_pos t i) (at_pos d i))
  /\ (~ compatible t d -> time_add t (LTime d) = Err ValueError /\ time_add d (LTime t) = Err ValueError).
Proof.
  rewrite !constructed_wf. intros Ht Hd At Ad Hr.
  rewrite (add_comm_time t d Ht Hd At Ad).
  destruct (add_abs_delta t d ref Ht Hd At Ad Hr) as [H1 H2]. split.
  - intros C. destruct (H1 C) as (r & E & H). exists r. auto.
  - intros C. rewrite (H2 C). auto.
Qed.

Lemma add_sub_cancel_c t d r :
  constructed t -> constructed d -> is_absolute t = true -> is_absolute d = false ->
  time_add t (LTime d) = Ok r ->
  exists t', time_sub r (LTime d) = Ok t'
    /\ is_absolute t' = true /\ reference_time t' = reference_time t
    /\ tlen t' = tlen r
    /\ forall i, (i < tlen t')%nat -> at_pos t' i = at_pos t i.
Proof. rewrite !constructed_wf. apply add_sub_cancel. Qed.

Lemma sub_abs_abs_c a b :
  constructed a -> constructed b -> is_absolute a = true -> is_absolute b = true ->
  (forall r, time_sub a (LTime b) = Ok r ->
     is_absolute r = false /\ reference_time r = Ok None
     /\ forall i, (i < tlen r)%nat -> at_pos r i = op2 Z.sub (at_pos a i) (at_pos b i))
  /\ time_rsub b (LTime a) = time_sub a (LTime b).
Proof.
  rewrite !constructed_wf. intros Ha Hb Aa Ab. split.
  - intros r H. destruct (sub_abs_abs a b r Hb Aa Ab H) as (H1 & H2 & _ & H3). auto.
  - apply rsub_spec; assumption.
Qed.

Lemma invalid_operations a b :
  constructed a -> constructed b -> tlen a <> 0%nat -> is_absolute b = true ->
  (is_absolute a = true -> time_add a (LTime b) = Err TypeError)
  /\ (is_absolute a = false -> time_sub a (LTime b) = Err TypeError
        /\ time_rsub b (LTime a) = Err TypeError).
Proof.
  rewrite !constructed_wf. intros Ha Hb Hz Ab. split; intros Aa.
  - apply add_abs_abs; try assumption. unfold reference_time.
    unfold tlen, vals in Hz. destruct (t_val a) as [x|x|l|[|z l]]; try discriminate;
    destruct (t_ref a); try discriminate. cbn in Hz. lia.
  - rewrite rsub_spec by assumption. split; apply sub_delta_abs; assumption.
Qed.

Lemma delta_delta_c a b r : constructed a -> constructed b -> is_absolute a = false -> is_absolute b = false ->
  (time_add a (LTime b) = Ok r \/ time_sub a (LTime b) = Ok r) ->
  is_absolute r = false /\ reference_time r = Ok None.
Proof.
  rewrite !constructed_wf. intros Ha Hb Aa Ab H.
  destruct (delta_delta a b r Hb Aa Ab H) as (H1 & _ & H3). auto.
Qed.

Lemma rebuild_timedelta_c t :
  constructed t -> is_absolute t = true -> tlen t <> 0%nat ->
  exists r p l t', reference_time t = Ok (Some r) /\ as_timedelta t = Ok p
    /\ as_timedelta_index t = Ok l /\ map (fun z => z + r) l = vals t
    /\ mk_time (LPandas p) (Some r) = Ok t' /\ vals t' = vals t /\ reference_time t' = reference_time t.
Proof.
  rewrite constructed_wf. intros Hw At Hz.
  assert (Hne : vals t <> []) by (intros E; unfold tlen in Hz; rewrite E in Hz; cbn in Hz; lia).
  destruct (as_timedelta_exists t At Hne) as (l & r & H1 & H2 & H3).
  unfold as_timedelta_index in H2. apply bind_ok in H2 as (p & Hp & H2).
  destruct (rebuild_timedelta t r p Hw At H1 Hp) as (t' & E1 & E2 & E3).
  exists r, p, l, t'. split; [assumption|]. split; [assumption|].
  assert (Hl : as_timedelta_index t = Ok l) by (unfold as_timedelta_index; rewrite Hp; exact H2).
  split; [assumption|]. split; [eapply as_timedelta_moments; eassumption|].
  split; [assumption|]. split; [unfold vals; rewrite E2; reflexivity|]. congruence.
Qed.

Lemma quantity_moments_c t q : constructed t -> as_quantity t = Ok q ->
  exists t', mk_time q None = Ok t' /\ vals t' = vals t /\ is_absolute t' = is_absolute t.
Proof.
  intros Hc H. apply constructed_wf in Hc as Hw.
  assert (exists t', mk_time q None = Ok t') as [t' Ht'].
  { unfold as_quantity in H. apply bind_ok in H as (l & Hl & H).
    apply bind_ok in H as (ref & Href & H). injection H as <-.
    destruct (is_absolute t) eqn:At.
    - destruct (ref_abs t ref At Href) as [r ->].
      pose proof (as_timedelta_moments t r l At Href Hl) as Hm.
      unfold mk_time. cbn [get_time_input convert_quantity]. rewrite Hm.
      destruct Hw as [Hw _]. apply wf_sorted, monotonic_spec in Hw.
      destruct (vals t) as [|a [|b m]]; cbn [squeeze apply_ref]; try rewrite Hw; eauto.
    - injection Href as <-. unfold as_timedelta_index, as_timedelta in Hl. rewrite At in Hl. injection Hl as <-.
      unfold mk_time. cbn [get_time_input convert_quantity].
      destruct Hw as [Hw _]. apply wf_sorted, monotonic_spec in Hw. unfold vals in *. cbn [t_val].
      destruct (match t_val t with PDelta z | PStamp z => [z] | PDeltas l | PStamps l => l end) as [|a [|b m]];
        cbn [squeeze apply_ref]; try rewrite Hw; eauto. }
  exists t'. split; [assumption|]. pose proof (quantity_moments t q t' H Hw Ht') as E.
  unfold vals, is_absolute. rewrite E. auto.
Qed.

Lemma union_strict ts r us : time_union ts = Ok r ->
  Forall2 (fun x t => mk_time x None = Ok t) ts us ->
  (forall t, In t us -> NoDup (vals t)) ->
  strictly_increasing (vals r) /\ forall v, In v (vals r) <-> exists t, In t us /\ In v (vals t).
Proof.
  intros H F Hn. destruct (time_union_spec ts r H) as (us' & F' & S & _ & C).
  assert (us' = us).
  { clear - F F'. revert us F. induction F' as [|x t l l' [Hx _] F' IH]; intros us F; inversion F; subst; [reflexivity|].
    rewrite Hx in H1. injection H1 as <-. f_equal. apply IH. assumption. }
  subst us'. split.
  - apply nodup_strict; [assumption|]. intros v. rewrite C. clear - Hn. induction us as [|t us IH]; cbn [map maxcount fold_right]; [lia|].
    fold (maxcount v (map vals us)).
    assert (count v (vals t) <= 1)%nat by (apply (NoDup_count_occ Z.eq_dec), Hn; left; reflexivity).
    specialize (IH ltac:(intros; apply Hn; right; assumption)). lia.
  - intros v. rewrite (count_occ_In Z.eq_dec). fold (count v (vals r)). rewrite C. clear.
    induction us as [|t us IH]; cbn [map maxcount fold_right].
    + split; [lia|intros (t & [] & _)].
    + fold (maxcount v (map vals us)). split.
      * intros H. destruct (Nat.max_spec (count v (vals t)) (maxcount v (map vals us))) as [[_ E]|[_ E]]; rewrite E in H.
        -- apply IH in H as (t' & H1 & H2). exists t'. split; [right; assumption|assumption].
        -- exists t. split; [left; reflexivity|]. apply (count_occ_In Z.eq_dec). assumption.
      * intros (t' & [<-|H1] & H2).
        -- apply (count_occ_In Z.eq_dec) in H2. unfold count. lia.
        -- assert (maxcount v (map vals us) > 0)%nat by (apply IH; eauto). lia.
Qed.

Lemma union_mult ts r us : time_union ts = Ok r ->
  Forall2 (fun x t => mk_time x None = Ok t) ts us ->
  nondecreasing (vals r) /\ forall v, count v (vals r) = maxcount v (map vals us).
Proof.
  intros H F. destruct (time_union_spec ts r H) as (us' & F' & S & _ & C).
  assert (us' = us).
  { clear - F F'. revert us F. induction F' as [|x t l l' [Hx _] F' IH]; intros us F; inversion F; subst; [reflexivity|].
    rewrite Hx in H1. injection H1 as <-. f_equal. apply IH. assumption. }
  subst. auto.
Qed.

(** grouping: replacing some inputs by their union does not change the result *)
Lemma union_group ts1 ts2 r r1 : time_union (ts1 ++ ts2) = Ok r -> ts1 <> [] ->
  time_union ts1 = Ok r1 -> time_union (LTime r1 :: ts2) = Ok r.
Proof.
  intros H Hne H1.
  destruct (time_union_spec _ _ H) as (us & F & S & R & C).
  destruct (time_union_spec _ _ H1) as (us1 & F1 & S1 & R1 & C1).
  apply Forall2_app_inv_l in F as (ua & ub & Fa & Fb & ->).
  assert (us1 = ua).
  { clear - Fa F1. revert ua Fa. induction F1 as [|x t l l' [Hx _] F' IH]; intros ua F; inversion F; subst; [reflexivity|].
    destruct H1 as [H1 _]. rewrite Hx in H1. injection H1 as <-. f_equal. apply IH. assumption. }
  subst us1.
  assert (Hk : is_absolute r1 = is_absolute r).
  { destruct ts1; [congruence|]. inversion Fa as [|? ? ? ? [Hx1 Hx2] ?]; subst.
    inversion F1 as [|? ? ? ? [Hy1 Hy2] ?]; subst. congruence. }
  pose proof (time_union_wf _ _ H1) as W1.
  assert (F2 : Forall2 (fun x t => mk_time x None = Ok t /\ is_absolute t = is_absolute r) (LTime r1 :: ts2) (r1 :: ub)).
  { constructor; [|assumption]. split; [apply wf_mk_time; assumption|assumption]. }
  assert (Hne2 : LTime r1 :: ts2 <> []) by discriminate.
  destruct (time_union_ok _ _ _ Hne2 F2) as (r' & Hr' & Hk').
  destruct (time_union_spec _ _ Hr') as (us2 & F3 & S2 & R2 & C2).
  assert (us2 = r1 :: ub).
  { clear - F2 F3. revert us2 F3. induction F2 as [|x t l l' [Hx _] F' IH]; intros us2 F; inversion F; subst; [reflexivity|].
    destruct H1 as [H1 _]. rewrite Hx in H1. injection H1 as <-. f_equal. apply IH. assumption. }
  subst us2.
  assert (V : vals r' = vals r).
  { apply nondecreasing_unique; [assumption|assumption|]. intros v. rewrite C, C2.
    rewrite map_app. cbn [map maxcount fold_right]. rewrite (C1 v). clear.
    fold (maxcount v (map vals ub)). generalize (map vals ua). intros l.
    induction l as [|a l IH]; cbn [maxcount fold_right app]; [reflexivity|].
    unfold maxcount in *. cbn [fold_right]. lia. }
  pose proof (time_union_wf _ _ H) as [W _]. pose proof (time_union_wf _ _ Hr') as [W' _].
  rewrite Hr'. f_equal. destruct r as [p q], r' as [p' q']; cbn in *. subst q q'. f_equal.
  unfold vals, is_absolute in *; cbn in *.
  destruct p as [z|z|l|l], p' as [z'|z'|l'|l']; cbn in *; try discriminate; try congruence;
    subst; cbn in *; destruct W, W'; try lia.
Qed.

(** [equals] of any two times *)
Lemma all_eq_len l m : length l <> length m -> all_eq l m = Err ValueError.
Proof.
  revert m; induction l as [|x l IH]; intros [|y m]; cbn; intros H; try reflexivity; [congruence|].
  rewrite IH by congruence. reflexivity.
Qed.

Lemma nth_ext_bound (l m : list Z) : length l = length m ->
  (forall i, (i < Nat.max (length l) (length m))%nat -> nth_error l i = nth_error m i) -> l = m.
Proof.
  revert m; induction l as [|x l IH]; intros [|y m] Hl H; try discriminate; [reflexivity|].
  injection Hl as Hl. pose proof (H 0%nat ltac:(cbn; lia)) as H0. injection H0 as ->. f_equal.
  apply IH; [assumption|]. intros i Hi. apply (H (S i)). cbn [length]. lia.
Qed.

Lemma forallb_nth x (l : list Z) :
  forallb (fun y => y =? x) l = true <->
  (forall i, (i < Nat.max 1 (length l))%nat -> l <> [] -> Some x = nth_error l i).
Proof.
  rewrite forallb_forall. split.
  - intros H i Hi Hn. assert (i < length l)%nat as Hi' by (destruct l; [congruence|cbn in *; lia]).
    destruct (nth_error l i) as [y|] eqn:E; [|apply nth_error_None in E; lia].
    apply nth_error_In in E. apply H in E. apply Z.eqb_eq in E. congruence.
  - intros H y Hy. apply In_nth_error in Hy as [i Hi].
    assert (i < length l)%nat as Hl by (apply nth_error_Some; congruence).
    rewrite <- H in Hi; [injection Hi as ->; apply Z.eqb_refl|lia|destruct l; cbn in *; [lia|congruence]].
Qed.

Lemma equals_total a b : wf a -> wf b -> tlen a <> 0%nat -> tlen b <> 0%nat ->
  (compatible a b -> exists r, time_equals a b = Ok r /\
     (r = true <-> is_absolute a = is_absolute b /\ t_ref a = t_ref b /\
        forall i, (i < Nat.max (tlen a) (tlen b))%nat -> at_pos a i = at_pos b i))
  /\ (~ compatible a b -> time_equals a b = Err ValueError).
Proof.
  intros Wa Wb La Lb. unfold time_equals. rewrite (wf_mk_time b Wb). cbn [bind].
  unfold compatible, is_scalar, tlen, is_absolute, at_pos, vals in *.
  destruct a as [p q], b as [p' q']; cbn [t_val t_ref] in *.
  destruct p as [z|z|l|l], p' as [z'|z'|m|m]; cbn [peq_all bind length] in *;
    (split; [intros C|intros C; try (exfalso; tauto)]).
  all: try (eexists; split; [reflexivity|]; rewrite andb_true_iff, opt_eqb_spec;
            try (rewrite Z.eqb_eq; split;
              [intros [-> ->]; auto|intros (_ & -> & H); specialize (H 0%nat ltac:(lia)); injection H as ->; auto]);
            try (split; [intros [Hx _]; discriminate|intros [Hx _]; discriminate])).
  all: try (rewrite forallb_nth; split;
              [intros [Hx ->]; split; [reflexivity|split; [reflexivity|]]; intros i Hi; first [apply Hx|symmetry; apply Hx]; [lia|destruct l || destruct m; cbn in *; congruence || lia]
              |intros (_ & -> & Hx); split; [|reflexivity]; intros i Hi _; first [apply Hx|symmetry; apply Hx]; lia]).
  all: try (destruct l as [|? l]; cbn in *; [lia|split; intros [Hx _]; discriminate]).
  all: try (destruct m as [|? m]; cbn in *; [lia|split; intros [Hx _]; discriminate]).
  all: try (destruct C as [C|[C|C]]; try discriminate; destruct (all_eq_spec l m C) as (r & E & Hr); rewrite E; cbn [bind];
            eexists; split; [reflexivity|]; rewrite andb_true_iff, opt_eqb_spec, Hr; split;
            [intros [-> ->]; auto|intros (_ & -> & Hx); split; [apply nth_ext_bound; assumption|reflexivity]]).
  all: try (rewrite all_eq_len by tauto; reflexivity).
  all: try (destruct C as [C|[C|C]]; try discriminate; rewrite C, Nat.eqb_refl; cbn [bind];
            eexists; split; [reflexivity|]; destruct l; cbn in *; [lia|split; [intros Hx; discriminate|intros [Hx _]; discriminate]]).
  all: try (destruct (Nat.eqb_spec (length l) (length m)); [tauto|reflexivity]).
Qed.

Lemma all_eq_sym l m : all_eq l m = all_eq m l.
Proof.
  revert m; induction l as [|x l IH]; intros [|y m]; cbn; try reflexivity.
  rewrite IH, Z.eqb_sym. reflexivity.
Qed.

Lemma equals_sym a b : wf a -> wf b -> time_equals a b = time_equals b a.
Proof.
  intros Wa Wb. unfold time_equals. rewrite (wf_mk_time a Wa), (wf_mk_time b Wb). cbn [bind].
  assert (O : opt_eqb (t_ref a) (t_ref b) = opt_eqb (t_ref b) (t_ref a)).
  { destruct (t_ref a), (t_ref b); cbn; try reflexivity. apply Z.eqb_sym. }
  rewrite O. f_equal.
  destruct (t_val a), (t_val b); cbn; try reflexivity; try (rewrite Z.eqb_sym; reflexivity);
    try apply all_eq_sym;
    rewrite (Nat.eqb_sym (length l)); destruct (Nat.eqb_spec (length l0) (length l)); try reflexivity;
    destruct l, l0; try discriminate; reflexivity.
Qed.

Lemma quantity_reference t q t' : constructed t -> is_absolute t = true -> as_quantity t = Ok q ->
  mk_time q None = Ok t' -> tlen t <> 0%nat -> reference_time t' = Ok (nth_error (vals t) 0).
Proof.
  intros Hc At H Ht' Hn. apply constructed_wf in Hc as Hw.
  unfold as_quantity in H. apply bind_ok in H as (l & Hl & H).
  apply bind_ok in H as (ref & Href & H). injection H as <-. rewrite At in Href.
  destruct (ref_abs t ref At Href) as [r ->].
  pose proof (as_timedelta_moments t r l At Href Hl) as Hm.
  unfold mk_time in Ht'. cbn [get_time_input convert_quantity] in Ht'. rewrite Hm in Ht'.
  unfold tlen in Hn. destruct (vals t) as [|a [|b m]]; cbn [squeeze apply_ref] in Ht'; [cbn in Hn; lia| |].
  - injection Ht' as <-. reflexivity.
  - destruct (monotonic _); [|discriminate]. injection Ht' as <-. reflexivity.
Qed.
