(** Lemmas about time series. *)
From Coq Require Import List ZArith String Bool Lia.
From Verif Require Import Base TimeModel TimeSpec TimeFacts InterpModel InterpSpec InterpFacts InterpProps TsModel TsSpec.
Import ListNotations.
Open Scope Z_scope.
Open Scope list_scope.

Lemma vals_shift t r : is_absolute t = false ->
  vals (mkTime (apply_ref (t_val t) (Some r)) (Some r)) = map (fun z => z + r) (vals t).
Proof. unfold vals, is_absolute. destruct (t_val t); cbn; intros H; try discriminate; reflexivity. Qed.

Lemma retime t ref : wf t ->
  exists ti, mk_time (LTime t) ref = Ok ti /\ wf ti /\ vals ti = requested ref t
   /\ is_absolute ti = (is_absolute t || match ref with Some _ => true | None => false end)%bool
   /\ reference_time ti = match ref with Some r => Ok (Some r) | None => reference_time t end.
Proof.
  intros W. destruct ref as [r|].
  2:{ exists t. rewrite wf_mk_time by assumption. split; [reflexivity|]. split; [assumption|].
      split; [|split; [rewrite orb_false_r; reflexivity|reflexivity]].
      unfold requested. cbn [moment]. rewrite map_id. destruct (is_absolute t); reflexivity. }
  assert (S : squeeze (t_val t) = t_val t) by (apply squeeze_id, W).
  assert (M : exists ti, mk_time (LTime t) (Some r) = Ok ti /\ t_val ti = apply_ref (t_val t) (Some r) /\ t_ref ti = Some r).
  { unfold mk_time. cbn [get_time_input]. rewrite S. destruct W as [W _].
    destruct (t_val t) as [z|z|l|l]; cbn in *; eauto.
    - rewrite monotonic_map_add. destruct W as [_ W]. rewrite W. eauto.
    - destruct W as [_ W]. rewrite W. eauto. }
  destruct M as (ti & M & V & F). exists ti. split; [assumption|]. split; [eapply mk_time_wf; eassumption|].
  unfold requested, is_absolute, reference_time, vals. rewrite V, F.
  destruct (t_val t) as [z|z|l|l]; cbn; auto.
Qed.

Lemma das t : wf t -> tlen t <> 0%nat ->
  exists td r, as_data_array t = Ok (td, r) /\ as_timedelta_index t = Ok td /\ reference_time t = Ok r
   /\ map (moment r) td = vals t /\ List.length td = tlen t
   /\ (match r with Some _ => true | None => false end = is_absolute t).
Proof.
  intros W L. destruct (is_absolute t) eqn:At.
  - apply constructed_wf in W. destruct (rebuild_timedelta_c t W At L) as (r & p & l & t' & R & T & I & M & _).
    exists l, (Some r). unfold as_data_array. rewrite I, R. cbn [bind]. repeat split; try assumption.
    unfold tlen. rewrite <- M, map_length. reflexivity.
  - assert (I : as_timedelta_index t = Ok (vals t)).
    { unfold as_timedelta_index, as_timedelta. rewrite At. reflexivity. }
    assert (R : reference_time t = Ok None).
    { unfold reference_time, is_absolute in *. destruct (t_val t); try discriminate; reflexivity. }
    exists (vals t), None. unfold as_data_array. rewrite I, R. cbn [bind].
    split; [reflexivity|]. split; [reflexivity|]. split; [reflexivity|]. split; [apply map_id|]. split; reflexivity.
Qed.

Lemma unset_moment td r : time_ref_unset td r = map (moment r) td.
Proof. destruct r; cbn; [reflexivity|symmetry; apply map_id]. Qed.

Lemma increasing_monotonic {A} r : forall (ts : list Z) (vs : list A) u,
  List.length ts = List.length vs -> increasing_from (moment r u) (combine (map (moment r) ts) vs) ->
  monotonic (u :: ts) = true.
Proof.
  induction ts as [|t ts IH]; intros [|v vs] u L H; try discriminate; [reflexivity|].
  cbn [map combine increasing_from] in H. destruct H as [H1 H2]. injection L as L.
  change (((u <=? t) && monotonic (t :: ts))%bool = true). rewrite (IH vs t L H2).
  assert (u < t) by (destruct r; cbn in H1; lia).
  rewrite andb_true_r. apply Z.leb_le. lia.
Qed.

Lemma sampled_monotonic {A} (d : darr A) : List.length (a_times d) = List.length (a_vals d) ->
  sampled (moments d) -> monotonic (a_times d) = true.
Proof.
  unfold moments. destruct d as [ts r vs]; cbn [a_times a_vals a_ref]. intros L H.
  destruct ts as [|t ts]; [reflexivity|]. destruct vs as [|v vs]; [discriminate|]. injection L as L.
  cbn [map combine sampled] in H. exact (increasing_monotonic r ts vs t L H).
Qed.

Lemma d_time_some {A} (d : darr A) : (2 <= List.length (a_times d))%nat -> monotonic (a_times d) = true ->
  exists t, d_time d = Ok (Some t) /\ wf t /\ vals t = map (moment (a_ref d)) (a_times d)
    /\ (a_times d <> [] -> reference_time t = Ok (a_ref d))
    /\ t_ref t = a_ref d /\ is_absolute t = match a_ref d with Some _ => true | None => false end.
Proof.
  intros L M. unfold d_time. destruct (Nat.leb_spec 2 (List.length (a_times d))); [|lia].
  assert (S : squeeze (PDeltas (a_times d)) = PDeltas (a_times d)).
  { destruct (a_times d) as [|x [|y l]]; cbn in *; [lia|lia|reflexivity]. }
  assert (X : exists t, mk_time (LPandas (PDeltas (a_times d))) (a_ref d) = Ok t
    /\ t_val t = apply_ref (PDeltas (a_times d)) (a_ref d) /\ t_ref t = a_ref d).
  { unfold mk_time. cbn [get_time_input]. rewrite S. destruct (a_ref d) as [r|]; cbn [apply_ref].
    - rewrite monotonic_map_add, M. eauto.
    - rewrite M. eauto. }
  destruct X as (t & E & V & F). rewrite E. cbn [bind]. exists t.
  split; [reflexivity|]. split; [eapply mk_time_wf; eassumption|].
  unfold vals, reference_time, is_absolute. rewrite V, F.
  destruct (a_ref d) as [r|]; cbn; [auto|]. rewrite map_id. auto.
Qed.

Lemma d_time_none {A} (d : darr A) : (List.length (a_times d) < 2)%nat -> d_time d = Ok None.
Proof. intros L. unfold d_time. destruct (Nat.leb_spec 2 (List.length (a_times d))); [lia|reflexivity]. Qed.

Lemma valid_in m : In m valid_interpolations -> existsb (String.eqb m) valid_interpolations = true.
Proof. intros H. apply existsb_exists. exists m. split; [assumption|apply String.eqb_refl]. Qed.

Lemma valid_step : In "step"%string valid_interpolations.
Proof. left. reflexivity. Qed.

Section Facts.
  Context {A E : Type}.
  Variable seg : string -> segment A.
  Variable ev : E -> Z -> A.

  Lemma set_interp (d : darr A) m : In m valid_interpolations -> monotonic (a_times d) = true ->
    set_interpolation d m = Ok (if Nat.leb 2 (List.length (a_times d)) then m else "step"%string).
  Proof.
    intros V M. unfold set_interpolation. rewrite valid_in by assumption.
    destruct (Nat.leb_spec 2 (List.length (a_times d))) as [L|L].
    - destruct (d_time_some d L M) as (t & -> & _). reflexivity.
    - rewrite d_time_none by assumption. reflexivity.
  Qed.

  (** the constructor for quantities *)
  Lemma new_quantity (l : list A) x ref t m : mk_time x ref = Ok t -> tlen t <> 0%nat ->
    List.length l = tlen t -> In m valid_interpolations ->
    exists td r, as_data_array t = Ok (td, r) /\ reference_time t = Ok r /\ map (moment r) td = vals t /\
      @new_series A E (IQuantity l) (Some x) (Some m) ref
      = Ok (Ts (SDisc (Da td r l) (if Nat.leb 2 (List.length l) then m else "step"%string)) 0).
  Proof.
    intros M L Ll V. pose proof (mk_time_wf _ _ _ M) as W.
    destruct (das t W L) as (td & r & D & I & R & Mo & Lt & _). exists td, r.
    split; [assumption|]. split; [assumption|]. split; [assumption|].
    unfold new_series. rewrite M. cbn [bind]. unfold create_data_array. rewrite D. cbn [bind fst snd].
    rewrite Lt, <- Ll, Nat.eqb_refl. cbn [bind].
    rewrite set_interp; [|assumption|].
    - cbn [a_times]. rewrite Lt, <- Ll. reflexivity.
    - cbn [a_times]. destruct W as [W _]. apply wf_sorted, monotonic_spec in W. rewrite <- Mo in W.
      destruct r as [r|].
      + change (map (moment (Some r)) td) with (map (fun z => z + r) td) in W. rewrite monotonic_map_add in W. exact W.
      + change (moment None) with (fun z : Z => z) in W. rewrite map_id in W. exact W.
  Qed.

  Lemma all_some_ok {B} (r : list (Z * option B)) (P : Z -> B -> Prop) :
    (forall t o, In (t, o) r -> exists v, o = Some v /\ P t v) ->
    exists w, all_some r = Ok w /\ map fst w = map fst r /\ Forall2 P (map fst r) (map snd w).
  Proof.
    induction r as [|[t o] r IH]; intros H; cbn [all_some].
    - exists []. split; [reflexivity|]. split; [reflexivity|]. constructor.
    - destruct (H t o (or_introl eq_refl)) as (v & -> & Hv).
      destruct IH as (w & Ew & Ef & F); [intros; apply H; right; assumption|]. rewrite Ew. cbn [bind].
      exists ((t, v) :: w). split; [reflexivity|]. cbn. split; [congruence|]. constructor; assumption.
  Qed.

  Lemma one_value s0 (v : A) : forall t w, (step_value [(s0, v)] t w -> w = v).
  Proof.
    intros t w H. destruct H as [t0 r H _|u H _ _].
    - injection H as _ -> _. reflexivity.
    - cbn in H. destruct H as [H|[]]. congruence.
  Qed.

  (** interpolation on a common axis *)
  Lemma interp_values (d : darr A) m req : sampled (moments d) -> exact_seg (seg m) ->
    exists l, bind (interp_like (seg m) (method_of m) true (moments d) req) all_some = Ok l
      /\ map fst l = req
      /\ Forall2 (fun z v => if String.eqb m "step" then step_value (moments d) z v
                             else value_at (seg m) (moments d) z v) req (map snd l).
  Proof.
    intros S X. unfold method_of. destruct (String.eqb m "step").
    - destruct (c33_step A (seg m) (moments d) req S) as (r & -> & E1 & H). cbn [bind].
      destruct (all_some_ok r _ H) as (w & -> & E2 & F). exists w. rewrite E1 in *. auto.
    - destruct (c11_interp_like A (seg m) (moments d) req X S) as (r & -> & E1 & H). cbn [bind].
      destruct (all_some_ok r _ H) as (w & -> & E2 & F). exists w. rewrite E1 in *. auto.
  Qed.

  Lemma reset_sampled_one (d : darr A) r v : List.length (a_times d) = 1%nat -> a_vals d = [v] ->
    exists z, moments (reset_ref d r) = [(z, v)] /\ a_ref (reset_ref d r) = Some r.
  Proof.
    destruct d as [[|t [|]] q vs]; cbn; intros L Hv; try discriminate. subst vs.
    unfold reset_ref, moments. cbn. destruct q; cbn; eauto.
  Qed.

  Lemma interp_disc s x t d m : s_data s = SDisc d m -> discrete s -> exact_seg (seg m) ->
    mk_time x None = Ok t -> tlen t <> 0%nat -> can_request s t ->
    exists l, Forall2 (has_value seg ev s) (requested (a_ref d) t) l /\
    exists td r, reference_time t = Ok r /\ map (moment r) td = vals t /\
    interp_time seg ev s x = Ok (Ts (SDisc (Da td r l) (if Nat.leb 2 (List.length l) then m else "step"%string)) (S (s_count s))).
  Proof.
    intros Sd D X Mt Lt C. pose proof (mk_time_wf _ _ _ Mt) as W.
    unfold discrete in D. rewrite Sd in D. destruct D as (Sa & Le & Vm & One).
    unfold can_request in C. rewrite Sd in C.
    destruct (retime t (a_ref d) W) as (ti & Mi & Wi & Vi & Ai & Ri).
    assert (Li : tlen ti <> 0%nat).
    { unfold tlen. rewrite Vi. unfold requested. destruct (is_absolute t); [|rewrite map_length]; exact Lt. }
    destruct (das ti Wi Li) as (td & r & Dd & I & R & Mo & Ln & Ab).
    assert (H : exists l, interp_discrete seg d m ti = Ok l /\ Forall2 (has_value seg ev s) (requested (a_ref d) t) l).
    { unfold interp_discrete.
      destruct (Nat.leb_spec 2 (List.length (a_times d))) as [L2|L2].
      - destruct (d_time_some d L2 (sampled_monotonic d Le Sa)) as (t0 & -> & _). cbn [bind].
        rewrite Dd. cbn [bind fst snd]. rewrite !unset_moment, Mo. fold (moments d).
        assert (K : exists l, bind (bind (interp_like (seg m) (method_of m) true (moments d) (vals ti)) all_some)
                     (fun l0 => Ok (map snd l0)) = Ok l /\ Forall2 (has_value seg ev s) (requested (a_ref d) t) l).
        { destruct (interp_values d m (vals ti) Sa X) as (l & -> & _ & F). cbn [bind].
          exists (map snd l). split; [reflexivity|]. rewrite <- Vi. unfold has_value. rewrite Sd.
          destruct (a_vals d) as [|v [|w q]] eqn:Ev; [rewrite Le in L2; cbn in L2; lia|rewrite Le in L2; cbn in L2; lia|exact F]. }
        rewrite Ai in Ab.
        destruct C as [C|[C|C]]; [lia| |].
        + destruct (a_ref d) as [q|]; [|congruence]. rewrite orb_true_r in Ab. destruct r; [|discriminate]. exact K.
        + rewrite C in Ab. cbn in Ab. destruct (a_ref d) as [q|], r; try discriminate; exact K.
      - rewrite d_time_none by assumption. cbn [bind].
        assert (L1 : List.length (a_times d) = 1%nat).
        { destruct (a_times d) eqn:Et; [|destruct l; [reflexivity|cbn in L2; lia]].
          unfold moments in Sa. rewrite Et in Sa. destruct Sa. }
        destruct (a_vals d) as [|v [|w q]] eqn:Ev; try (rewrite L1 in Le; discriminate).
        assert (Q : exists d', (if is_absolute ti then bind (reference_time ti) (fun r0 =>
                       match r0 with Some r1 => Ok (reset_ref d r1) | None => Err TypeError end) else Ok d) = Ok d'
                     /\ (exists z, moments d' = [(z, v)])
                     /\ match a_ref d' with Some _ => true | None => false end = is_absolute ti).
        { destruct (is_absolute ti) eqn:Ati.
          - rewrite R. destruct r as [r|]; [|discriminate]. cbn [bind].
            destruct (reset_sampled_one d r v L1 Ev) as (z & Z1 & Z2). eexists. split; [reflexivity|].
            split; [eauto|]. rewrite Z2. reflexivity.
          - exists d. split; [reflexivity|]. symmetry in Ai. apply orb_false_elim in Ai as [_ Ai].
            split; [|exact Ai]. unfold moments. rewrite Ev. destruct (a_times d) as [|z0 [|]]; try discriminate. cbn. eauto. }
        destruct Q as (d' & -> & (z & Z1) & Aq). cbn [bind]. rewrite Dd. cbn [bind fst snd].
        rewrite !unset_moment, Mo. fold (moments d').
        assert (Em : m = "step"%string) by (apply One; reflexivity).
        assert (K : exists l, bind (bind (interp_like (seg m) (method_of m) true (moments d') (vals ti)) all_some)
                     (fun l0 => Ok (map snd l0)) = Ok l /\ Forall2 (has_value seg ev s) (requested (a_ref d) t) l).
        { assert (Sa' : sampled (moments d')) by (rewrite Z1; exact Logic.I).
          destruct (interp_values d' m (vals ti) Sa' X) as (l & -> & _ & F). cbn [bind].
          exists (map snd l). split; [reflexivity|]. rewrite <- Vi. unfold has_value. rewrite Sd, Ev.
          rewrite Em in F. cbn [String.eqb Ascii.eqb Bool.eqb] in F. rewrite Z1 in F.
          clear -F. induction F; constructor; [eapply one_value; eassumption|assumption]. }
        rewrite <- Ab in Aq. destruct (a_ref d'), r; try discriminate; exact K. }
    destruct H as (l & Hl & F).
    assert (Ll : List.length l = tlen t).
    { unfold tlen. revert F. unfold requested. clear. intros F.
      assert (N : List.length (if is_absolute t then vals t else map (moment (a_ref d)) (vals t)) = List.length l).
      { induction F; cbn; congruence. }
      rewrite <- N. destruct (is_absolute t); [reflexivity|apply map_length]. }
    destruct (new_quantity l (LTime t) None t m (wf_mk_time t W) Lt Ll Vm) as (td' & r' & _ & R' & Mo' & Nw).
    exists l. split; [assumption|]. exists td', r'. split; [assumption|]. split; [assumption|].
    unfold interp_time. rewrite Mt. cbn [bind].
    assert (Sr : series_ref s = a_ref d) by (unfold series_ref; rewrite Sd; reflexivity). rewrite Sr, Mi. cbn [bind].
    rewrite Sd, Hl. cbn [bind]. rewrite Nw. reflexivity.
  Qed.
End Facts.

Section More.
  Context {A E : Type}.
  Variable seg : string -> segment A.
  Variable ev : E -> Z -> A.

  Lemma increasing_combine : forall (ts : list Z) (vs : list A) u, List.length ts = List.length vs ->
    (forall i x, nth_error ts i = Some x -> u < x) ->
    (forall i j a b, (i < j)%nat -> nth_error ts i = Some a -> nth_error ts j = Some b -> a < b) ->
    increasing_from u (combine ts vs).
  Proof.
    induction ts as [|t ts IH]; intros [|v vs] u L H0 H; try discriminate; cbn; [exact Logic.I|].
    split; [apply (H0 0%nat); reflexivity|]. apply IH.
    - injection L as L. exact L.
    - intros i x Hx. apply (H 0%nat (S i)); [lia|reflexivity|exact Hx].
    - intros i j a b Hij Ha Hb. apply (H (S i) (S j)); [lia|exact Ha|exact Hb].
  Qed.

  Lemma sampled_strict (ts : list Z) (vs : list A) : List.length ts = List.length vs -> ts <> [] ->
    strictly_increasing ts -> sampled (combine ts vs).
  Proof.
    intros L N H. destruct ts as [|t ts]; [congruence|]. destruct vs as [|v vs]; [discriminate|].
    cbn. apply increasing_combine.
    - injection L as L. exact L.
    - intros i x Hx. apply (H 0%nat (S i)); [lia|reflexivity|exact Hx].
    - intros i j a b Hij Ha Hb. apply (H (S i) (S j)); [lia|exact Ha|exact Hb].
  Qed.

  Lemma requested_own t r : reference_time t = Ok r -> requested r t = vals t.
  Proof.
    unfold requested. destruct (is_absolute t) eqn:Ab; [reflexivity|]. intros H.
    assert (r = None) as ->.
    { unfold reference_time, is_absolute in *. destruct (t_val t); try discriminate; congruence. }
    change (moment None) with (fun z : Z => z). apply map_id.
  Qed.

  Lemma relative_ref t : is_absolute t = false -> reference_time t = Ok None.
  Proof. unfold is_absolute, reference_time. destruct (t_val t); try discriminate; reflexivity. Qed.
  Lemma absolute_ref t r : is_absolute t = true -> reference_time t = Ok r -> r <> None.
  Proof.
    unfold is_absolute, reference_time. destruct (t_val t) as [z|z|l|l]; try discriminate; intros _.
    - destruct (t_ref t); intros H; injection H as <-; discriminate.
    - destruct (t_ref t); [intros H; injection H as <-; discriminate|].
      destruct l; [discriminate|]. intros H; injection H as <-; discriminate.
  Qed.

  Lemma has_value_fun s z v w d m : s_data s = SDisc d m -> discrete s -> exact_seg (seg m) ->
    has_value seg ev s z v -> has_value seg ev s z w -> v = w.
  Proof.
    intros Sd D X. unfold discrete in D. rewrite Sd in D. destruct D as (Sa & _).
    unfold has_value. rewrite Sd. destruct (a_vals d) as [|a [|b q]]; try congruence.
    - destruct (String.eqb m "step"); [apply step_value_fun; assumption|apply value_at_fun; assumption].
    - destruct (String.eqb m "step"); [apply step_value_fun; assumption|apply value_at_fun; assumption].
  Qed.

  Lemma step_sample (s : list (Z * A)) z v : sampled s -> In (z, v) s -> step_value s z v.
  Proof. intros S H. apply (sv_at s z v z H); [lia|auto]. Qed.

  (** the samples are values of the series *)
  Lemma has_value_sample s z v d m : s_data s = SDisc d m -> discrete s -> exact_seg (seg m) ->
    In (z, v) (moments d) -> has_value seg ev s z v.
  Proof.
    intros Sd D X H. unfold discrete in D. rewrite Sd in D. destruct D as (Sa & L & _).
    unfold has_value. rewrite Sd.
    assert (K : if String.eqb m "step" then step_value (moments d) z v else value_at (seg m) (moments d) z v).
    { destruct (String.eqb m "step"); [apply step_sample; assumption|].
      rewrite (value_at_iff (seg m) (moments d) v) by assumption. apply fval_sample; assumption. }
    destruct (a_vals d) as [|a [|b q]] eqn:Ev; [exact K| |exact K].
    unfold moments in H. rewrite Ev in H. apply in_combine_r in H. destruct H as [H|[]]. congruence.
  Qed.

  Lemma Forall2_unique {B C} (P Q : B -> C -> Prop) l m m' :
    (forall x y y', In x l -> P x y -> Q x y' -> y = y') -> Forall2 P l m -> Forall2 Q l m' -> m = m'.
  Proof.
    intros U F. revert m'. induction F as [|x y l m H F IH]; intros m' G; inversion G; subst; [reflexivity|].
    f_equal; [eapply U; [left; reflexivity|eassumption|eassumption]|].
    apply IH; [|assumption]. intros; eapply U; [right|..]; eassumption.
  Qed.

  Lemma F2_impl {B C} (P Q : B -> C -> Prop) l m : (forall x y, P x y -> Q x y) -> Forall2 P l m -> Forall2 Q l m.
  Proof. intros H F. induction F; constructor; auto. Qed.

  Lemma Forall2_combine {B C} : forall (l : list B) (m : list C), List.length l = List.length m ->
    Forall2 (fun x y => In (x, y) (combine l m)) l m.
  Proof.
    induction l as [|x l IH]; intros [|y m] L; try discriminate; constructor; [left; reflexivity|].
    injection L as L. specialize (IH m L). cbn [combine].
    apply (F2_impl (fun x0 y0 => In (x0, y0) (combine l m))); [|exact IH]. intros a b Hab. right. exact Hab.
  Qed.

  Lemma F2_length {B C} (P : B -> C -> Prop) l m : Forall2 P l m -> List.length l = List.length m.
  Proof. induction 1; cbn; congruence. Qed.

  Lemma requested_length ref t : List.length (requested ref t) = tlen t.
  Proof. unfold requested, tlen. destruct (is_absolute t); [reflexivity|apply map_length]. Qed.

  Lemma map_moment_inj r : forall l m, map (moment r) l = map (moment r) m -> l = m.
  Proof.
    induction l as [|x l IH]; intros [|y m] H; try discriminate; [reflexivity|].
    injection H as H1 H2. f_equal; [destruct r; cbn in H1; lia|auto].
  Qed.

  Lemma interp_again s x t d m r : s_data s = SDisc d m -> discrete s ->
    exact_seg (seg m) -> exact_seg (seg "step"%string) ->
    mk_time x None = Ok t -> tlen t <> 0%nat -> strictly_increasing (vals t) -> can_request s t ->
    interp_time seg ev s x = Ok r ->
    exists r', interp_time seg ev r x = Ok r' /\ s_data r' = s_data r.
  Proof.
    intros Sd D X Xs Mt Lt Inc C H.
    destruct (interp_disc seg ev s x t d m Sd D X Mt Lt C) as (l & F & td & q & Rt & Mo & Ei).
    rewrite Ei in H. injection H as <-.
    pose proof (F2_length _ _ _ F) as Ll. rewrite requested_length in Ll.
    set (m' := if Nat.leb 2 (List.length l) then m else "step"%string) in *.
    assert (Em : (if Nat.leb 2 (List.length l) then m' else "step"%string) = m').
    { unfold m'. clear. destruct (2 <=? List.length l)%nat; reflexivity. }
    set (r := @Ts A E (SDisc (Da td q l) m') (S (s_count s))).
    assert (Lm : List.length td = List.length l).
    { rewrite <- Ll. unfold tlen. rewrite <- Mo, map_length. reflexivity. }
    assert (Dr : discrete r).
    { unfold discrete. cbn [r s_data a_times a_vals]. split; [|split; [exact Lm|split]].
      - unfold moments. cbn [a_ref a_times a_vals]. rewrite Mo. apply sampled_strict; [|intros Hn|assumption].
        + unfold tlen in Ll. rewrite <- Ll. reflexivity.
        + unfold tlen in Lt. rewrite Hn in Lt. apply Lt. reflexivity.
      - unfold m'. unfold discrete in D. rewrite Sd in D. destruct (Nat.leb 2 (List.length l)); [apply D|apply valid_step].
      - intros L1. unfold m'. rewrite L1. reflexivity. }
    assert (Cr : can_request r t).
    { unfold can_request. cbn [r s_data a_ref]. destruct (is_absolute t) eqn:Ab; [|auto].
      right. left. eapply absolute_ref; eassumption. }
    assert (Xm : exact_seg (seg m')) by (unfold m'; destruct (Nat.leb 2 (List.length l)); assumption).
    destruct (interp_disc seg ev r x t (Da td q l) m' eq_refl Dr Xm Mt Lt Cr) as (l' & F' & td' & q' & Rt' & Mo' & Ei').
    eexists. split; [exact Ei'|]. cbn [s_data]. change (s_data r) with (@SDisc A E (Da td q l) m').
    assert (q' = q) as -> by congruence.
    assert (td' = td) as -> by (apply (map_moment_inj q); congruence).
    cbn [a_ref] in F'. rewrite (requested_own t q Rt) in F'.
    assert (l = l') as <-.
    { refine (Forall2_unique (fun x y => In (x, y) (combine (vals t) l)) _ (vals t) l l' _ (Forall2_combine _ _ Ll) F').
      intros z v v' _ Hv Hv'. eapply has_value_fun; [exact (eq_refl (s_data r))|assumption|assumption| |exact Hv'].
      eapply has_value_sample; [exact (eq_refl (s_data r))|assumption|assumption|].
      unfold moments. cbn [a_ref a_times a_vals]. rewrite Mo. exact Hv. }
    rewrite Em. reflexivity.
  Qed.

  (** time since [base] *)
  Definition base_ref (ref : option Z) (t : time) : res (option Z) :=
    match ref with Some r => Ok (Some r) | None => reference_time t end.

  Lemma interp_expr s x t e ref : s_data s = SExpr e ref -> mk_time x None = Ok t -> tlen t <> 0%nat ->
    exists td b, base_ref ref t = Ok b /\ map (moment b) td = requested ref t /\
    interp_time seg ev s x = Ok (Ts (SDisc (Da td b (map (ev e) td)) "step"%string) (S (s_count s))).
  Proof.
    intros Sd Mt Lt. pose proof (mk_time_wf _ _ _ Mt) as W.
    destruct (retime t ref W) as (ti & Mi & Wi & Vi & Ai & Ri).
    assert (Li : tlen ti <> 0%nat).
    { unfold tlen. rewrite Vi, requested_length. exact Lt. }
    destruct (das ti Wi Li) as (td & b & Dd & Ix & Rx & Mo & Ln & Ab).
    exists td, b. split; [unfold base_ref; destruct ref; congruence|]. split; [congruence|].
    unfold interp_time. rewrite Mt. cbn [bind]. unfold series_ref. rewrite Sd, Mi. cbn [bind].
    unfold interp_expression. rewrite Ix, Dd. cbn [bind fst snd new_series].
    rewrite set_interp; [|apply valid_step|].
    - cbn [bind s_data]. destruct (Nat.leb _ _); reflexivity.
    - cbn [a_times]. destruct Wi as [Wi _]. apply wf_sorted, monotonic_spec in Wi. rewrite <- Mo in Wi.
      destruct b as [b|].
      + change (map (moment (Some b)) td) with (map (fun z => z + b) td) in Wi. rewrite monotonic_map_add in Wi. exact Wi.
      + change (moment None) with (fun z : Z => z) in Wi. rewrite map_id in Wi. exact Wi.
  Qed.

  Lemma time_io_id t : wf t -> time_io t = Ok t.
  Proof.
    intros W. unfold time_io, mk_time. cbn [get_time_input]. rewrite squeeze_id by apply W.
    destruct t as [p q]. cbn [t_val t_ref]. destruct W as [W N]. unfold is_absolute in N. cbn [t_val t_ref norm_val] in *.
    destruct p as [z|z|l|l], q as [q|]; cbn [apply_ref];
      try (specialize (N eq_refl); discriminate); try reflexivity; destruct W as [_ W]; rewrite W; reflexivity.
  Qed.

  Lemma io_discrete (s : series A E) d m : s_data s = SDisc d m -> discrete s -> (2 <= List.length (a_vals d))%nat ->
    bind (to_yaml s) from_yaml = Ok (Ts (s_data s) 0).
  Proof.
    intros Sd D L. unfold discrete in D. rewrite Sd in D. destruct D as (Sa & Le & Vm & _).
    pose proof (sampled_monotonic d Le Sa) as M.
    destruct (d_time_some d ltac:(lia) M) as (t & Et & W & V & R & Tr & Ab).
    unfold to_yaml. rewrite Sd, Et. destruct d as [ts q vs]; cbn [a_times a_vals a_ref] in *.
    destruct vs as [|v [|w vs']]; [cbn in L; lia|cbn in L; lia|]. set (vs := v :: w :: vs') in *.
    cbn [bind from_yaml]. rewrite time_io_id by assumption. cbn [bind].
    assert (Lt : tlen t = List.length vs) by (unfold tlen; rewrite V, map_length; lia).
    destruct (@new_quantity A E vs (LTime t) None t m (wf_mk_time t W) ltac:(lia) (eq_sym Lt) Vm)
      as (td & r & _ & Rt & Mo & ->).
    assert (Nt : ts <> []) by (intros ->; cbn in Le; lia).
    assert (r = q) as -> by (specialize (R Nt); congruence).
    assert (td = ts) as -> by (apply (map_moment_inj q); congruence).
    destruct (Nat.leb_spec 2 (List.length vs)); [reflexivity|lia].
  Qed.
End More.
