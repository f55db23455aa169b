(** C105 and C106: the constructor of [LocalCoordinateSystem]. *)
From Coq Require Import List ZArith Bool Lia.
From Verif Require Import Base TimeModel TimeSpec TimeFacts TsModel LcsNewModel LcsNewSpec LcsNewFacts.
Import ListNotations.
Open Scope Z_scope.

Section New.
  Context {A B U : Type} (eye : A) (zero : B) (is_length : U -> bool) (norm : A -> res A).
  Context (interp_o : list Z -> list A -> list Z -> res (list A)) (interp_c : list Z -> list B -> list Z -> res (list B)).
  Notation new := (new eye zero is_length norm interp_o interp_c).

  (** ** C105 Systems made from plain arrays *)
  (** missing arguments are the identity and the origin *)
  Theorem c105_default : forall o c t ref ch u,
    is_length u = true ->
    new ONone c t ref ch = new (OPlain (One eye)) c t ref ch /\
    new o CNone t ref ch = new o (CPlain (Some u) (One zero)) t ref ch.
  Proof.
    intros o c t ref ch u L. split; [reflexivity|].
    unfold LcsNewModel.new, build_coordinates, from_plain, check_unit. rewrite L. reflexivity.
  Qed.

  (** The system stores the given values at the given times; arrays with times need as
      many values as there are times. *)
  Theorem c105_plain : forall xo xc u x ref t y w, is_length u = true -> mk_time x ref = Ok t -> vals t <> [] ->
    (new (OPlain xo) (CPlain (Some u) xc) (Some x) ref true = Ok (y, w) <->
     exists r, reference_time t = Ok r /\ fits xo (vals t) /\ fits xc (vals t) /\
       normalised norm xo (y_ori y) /\ y_pos y = VArr xc /\ y_ref y = r /\
       ((single xo /\ single xc /\ y_axis y = None /\ w = if Nat.ltb 1 (length (vals t)) then [TimeDropped] else []) \/
        (~ (single xo /\ single xc) /\ w = [] /\
         exists ts, y_axis y = Some (ts, r) /\ as_data_array t = Ok (ts, r) /\ moments ts r = vals t))).
  Proof.
    intros xo xc u x ref t y w L T N. pose proof (mk_time_wf _ _ _ T) as W.
    destruct (as_data_array_ok t W N) as (ts & r & E & R & M & LT).
    assert (C : forall (X : Type) (l : list X), create_data_array l t = if Nat.eqb (length l) (length (vals t)) then Ok (Da ts r l) else Err ValueError).
    { intros X l. unfold create_data_array. rewrite E. cbn [bind fst snd]. rewrite LT, (Nat.eqb_sym (length (vals t))). reflexivity. }
    destruct (mk_time_none _ _ _ T) as (t' & T' & LT').
    unfold LcsNewModel.new, build_time. rewrite T. cbn [bind build_orientation build_coordinates]. unfold check_unit. rewrite L.
    assert (ES : forall X (x : X), single (One x)) by (intros X x0; exists x0; reflexivity).
    assert (EM : forall X (l : list X), ~ single (Many l)) by (intros X l [a Q]; discriminate).
    destruct y as [ya yo yp yr]. cbn [y_axis y_ori y_pos y_ref].
    destruct xo as [a|l], xc as [b|m]; cbn [from_plain bind fits]; rewrite ?C.
    - unfold time_warning. rewrite T'. cbn [bind is_series negb]. rewrite LT', !andb_true_r. cbn [norm_orientation].
      split.
      + intros H. destruct (norm a) as [a'|] eqn:NA; [|discriminate]. cbn [bind unify merge axis fst snd] in H. rewrite R in H. cbn [bind values fst snd] in H.
        exists r.
        assert (H' : Sys None (One a') (VArr (One b)) r = Sys ya yo yp yr /\ (if Nat.ltb 1 (length (vals t)) then [TimeDropped] else []) = w).
        { destruct r; cbn in H; destruct ref; rewrite ?app_nil_r in H; injection H; intros; subst; auto. }
        destruct H' as [H1 H2]. injection H1 as <- <- <- <-.
        repeat (split; [solve [auto]|]). left. auto.
      + intros (r' & R' & _ & _ & NA & -> & -> & D). assert (r' = r) by congruence. subst r'.
        destruct D as [(_ & _ & -> & ->)|(D & _)]; [|destruct D; auto].
        destruct yo as [a'|]; [|contradiction]. cbn in NA. rewrite NA. cbn [bind unify merge axis fst snd]. rewrite R.
        cbn [bind values]. destruct r, ref; rewrite app_nil_r; reflexivity.
    - split.
      + intros H. destruct (Nat.eqb_spec (length m) (length (vals t))) as [LM|]; [|discriminate]. cbn [bind] in H.
        unfold time_warning in H. rewrite T' in H. cbn [bind is_series negb] in H. rewrite andb_false_r in H. cbn [norm_orientation bind] in H.
        destruct (norm a) as [a'|] eqn:NA; [|discriminate]. cbn [bind unify merge axis fst snd a_times a_ref] in H. rewrite R in H. cbn [bind values fst snd a_vals] in H.
        exists r.
        assert (H' : Sys (Some (ts, r)) (One a') (VArr (Many m)) r = Sys ya yo yp yr /\ [] = w).
        { destruct r as [r1|]; [unfold set_ref in H; cbn [fst snd] in H; rewrite map_shift0 in H|]; destruct ref; cbn in H; injection H; intros; subst; auto. }
        destruct H' as [H1 <-]. injection H1 as <- <- <- <-.
        repeat (split; [solve [auto]|]). right. split; [intros [_ Q]; exact (EM _ _ Q)|]. split; [reflexivity|]. exists ts. auto.
      + intros (r' & R' & _ & LM & NA & -> & -> & D). assert (r' = r) by congruence. subst r'.
        destruct D as [(_ & Q & _)|(_ & -> & ts' & -> & E' & _)]; [destruct (EM _ _ Q)|].
        assert (ts' = ts) by congruence. subst ts'. rewrite (proj2 (Nat.eqb_eq _ _) LM). cbn [bind].
        unfold time_warning. rewrite T'. cbn [bind is_series negb]. rewrite andb_false_r. cbn [norm_orientation bind].
        destruct yo as [a'|]; [|contradiction]. cbn in NA. rewrite NA. cbn [bind unify merge axis fst snd a_times a_ref]. rewrite R.
        cbn [bind values a_vals]. destruct r as [r1|]; [unfold set_ref; cbn [fst snd]; rewrite map_shift0|]; destruct ref; reflexivity.
    - split.
      + intros H. destruct (Nat.eqb_spec (length l) (length (vals t))) as [LM|]; [|discriminate]. cbn [bind] in H.
        unfold time_warning in H. rewrite T' in H. cbn [bind is_series negb] in H. rewrite andb_false_r in H. cbn [norm_orientation bind a_vals a_times a_ref] in H.
        destruct (norm_all norm l) as [l'|] eqn:NA; [|discriminate]. cbn [bind unify merge axis fst snd a_times a_ref] in H. rewrite R in H. cbn [bind values fst snd a_vals] in H.
        exists r.
        assert (H' : Sys (Some (ts, r)) (Many l') (VArr (One b)) r = Sys ya yo yp yr /\ [] = w).
        { destruct r as [r1|]; [unfold set_ref in H; cbn [fst snd] in H; rewrite map_shift0 in H|]; destruct ref; cbn in H; injection H; intros; subst; auto. }
        destruct H' as [H1 <-]. injection H1 as <- <- <- <-. apply norm_all_iff in NA.
        repeat (split; [solve [auto]|]). right. split; [intros [Q _]; exact (EM _ _ Q)|]. split; [reflexivity|]. exists ts. auto.
      + intros (r' & R' & LM & _ & NA & -> & -> & D). assert (r' = r) by congruence. subst r'.
        destruct D as [(Q & _ & _)|(_ & -> & ts' & -> & E' & _)]; [destruct (EM _ _ Q)|].
        assert (ts' = ts) by congruence. subst ts'. rewrite (proj2 (Nat.eqb_eq _ _) LM). cbn [bind].
        unfold time_warning. rewrite T'. cbn [bind is_series negb]. rewrite andb_false_r. cbn [norm_orientation bind a_vals a_times a_ref].
        destruct yo as [|l']; [contradiction|]. cbn in NA. apply norm_all_iff in NA. rewrite NA. cbn [bind unify merge axis fst snd a_times a_ref]. rewrite R.
        cbn [bind values a_vals]. destruct r as [r1|]; [unfold set_ref; cbn [fst snd]; rewrite map_shift0|]; destruct ref; reflexivity.
    - split.
      + intros H. destruct (Nat.eqb_spec (length l) (length (vals t))) as [LL|]; [|discriminate]. cbn [bind] in H.
        destruct (Nat.eqb_spec (length m) (length (vals t))) as [LM|]; [|discriminate]. cbn [bind] in H.
        unfold time_warning in H. rewrite T' in H. cbn [bind is_series negb] in H. rewrite andb_false_r in H. cbn [norm_orientation bind a_vals a_times a_ref] in H.
        destruct (norm_all norm l) as [l'|] eqn:NA; [|discriminate]. cbn [bind unify fst snd a_times a_ref] in H.
        rewrite same_times_refl in H. cbn [bind merge axis fst snd a_times a_ref] in H. rewrite same_times_refl in H. cbn [bind] in H. rewrite R in H. cbn [bind values fst snd a_vals] in H.
        exists r.
        assert (H' : Sys (Some (ts, r)) (Many l') (VArr (Many m)) r = Sys ya yo yp yr /\ [] = w).
        { destruct r as [r1|]; [unfold set_ref in H; cbn [fst snd] in H; rewrite map_shift0 in H|]; destruct ref; cbn in H; injection H; intros; subst; auto. }
        destruct H' as [H1 <-]. injection H1 as <- <- <- <-. apply norm_all_iff in NA.
        repeat (split; [solve [auto]|]). right. split; [intros [Q _]; exact (EM _ _ Q)|]. split; [reflexivity|]. exists ts. auto.
      + intros (r' & R' & LL & LM & NA & -> & -> & D). assert (r' = r) by congruence. subst r'.
        destruct D as [(Q & _ & _)|(_ & -> & ts' & -> & E' & _)]; [destruct (EM _ _ Q)|].
        assert (ts' = ts) by congruence. subst ts'. rewrite (proj2 (Nat.eqb_eq _ _) LM), (proj2 (Nat.eqb_eq _ _) LL). cbn [bind].
        unfold time_warning. rewrite T'. cbn [bind is_series negb]. rewrite andb_false_r. cbn [norm_orientation bind a_vals a_times a_ref].
        destruct yo as [|l']; [contradiction|]. cbn in NA. apply norm_all_iff in NA. rewrite NA. cbn [bind unify fst snd a_times a_ref].
        rewrite same_times_refl. cbn [bind merge axis fst snd a_times a_ref]. rewrite same_times_refl. cbn [bind]. rewrite R.
        cbn [bind values a_vals]. destruct r as [r1|]; [unfold set_ref; cbn [fst snd]; rewrite map_shift0|]; destruct ref; reflexivity.
  Qed.

  (** a wrong number of values *)
  Theorem c105_lengths : forall xo xc u x ref t ch, mk_time x ref = Ok t -> vals t <> [] ->
    ~ (fits xo (vals t) /\ fits xc (vals t)) -> new (OPlain xo) (CPlain u xc) (Some x) ref ch = Err ValueError.
  Proof.
    intros xo xc u x ref t ch T N F. pose proof (mk_time_wf _ _ _ T) as W.
    assert (C : forall (X : Type) (p : plain X), (exists q, from_plain p (Some t) = Ok q /\ fits p (vals t)) \/
      (from_plain p (Some t) = Err ValueError /\ ~ fits p (vals t))).
    { intros X [a|l]; [left; exists (XStatic a); split; [reflexivity|exact Logic.I]|]. cbn [from_plain fits].
      destruct (create_ok X l t W N) as (ts & r & _ & _ & _ & _ & ->).
      destruct (Nat.eqb_spec (length l) (length (vals t))) as [Q|Q]; cbn [bind]; [left; eexists; split; [reflexivity|exact Q]|right; auto]. }
    unfold LcsNewModel.new, build_time. rewrite T. cbn [bind build_orientation build_coordinates].
    destruct (C A xo) as [(q & -> & Q)|[-> _]]; [|reflexivity]. cbn [bind].
    destruct (C B xc) as [(p & -> & P)|[-> _]]; [|reflexivity]. destruct F. auto.
  Qed.

  (** Only a reference time: it is the only point in time. *)
  Theorem c105_reference : forall o c r ch, (forall u n d, c <> CDisc u n d) ->
    new o c None (Some r) ch = new o c (Some (LPandas (PStamp r))) (Some r) ch.
  Proof.
    intros o c r ch H. unfold LcsNewModel.new, build_time.
    assert (E : match c with
      | CDisc _ _ d => bind (d_time d) (fun t => match t with None => Ok None | Some t => bind (mk_time (LTime t) (Some r)) (fun t => Ok (Some t)) end)
      | _ => bind (mk_time (LPandas (PStamp r)) (Some r)) (fun t => Ok (Some t)) end =
      bind (mk_time (LPandas (PStamp r)) (Some r)) (fun t => Ok (Some t))).
    { destruct c; try reflexivity. destruct (H u cols d); reflexivity. }
    rewrite E. unfold mk_time at 1 2. cbn [get_time_input squeeze apply_ref bind].
    destruct (build_orientation eye o _) as [xo|]; [|reflexivity]. cbn [bind].
    destruct (build_coordinates zero is_length c _) as [xc|]; [|reflexivity]. cbn [bind].
    unfold time_warning. unfold mk_time. cbn [get_time_input squeeze apply_ref bind vals t_val length Nat.ltb Nat.leb andb reference_time]. reflexivity.
  Qed.
  (** without times there are no arrays of several values *)
  Theorem c105_no_time : forall xo xc u ch, ~ (single xo /\ single xc) ->
    new (OPlain xo) (CPlain u xc) None None ch = Err ValueError.
  Proof.
    intros xo xc u ch F. unfold LcsNewModel.new. cbn [build_time bind build_orientation build_coordinates].
    destruct xo as [a|l]; [|reflexivity]. cbn [from_plain bind]. destruct xc as [b|m]; [|reflexivity].
    destruct F. split; eexists; reflexivity.
  Qed.

  (** Times and reference times that are dropped are reported with a warning: not a single
      time and not a reference time. *)
  Theorem c105_warning_refuted : forall a a' b u r x, is_length u = true -> norm a = Ok a' ->
    (exists y, new (OPlain (One a)) (CPlain (Some u) (One b)) None (Some r) true = Ok (y, []) /\
       y_axis y = None /\ system_ref y = None) /\
    (exists y, new (OPlain (One a)) (CPlain (Some u) (One b)) (Some (LPandas (PDelta x))) None true = Ok (y, []) /\
       y_axis y = None).
  Proof.
    intros a a' b u r x L NA. unfold LcsNewModel.new. cbn [build_time mk_time get_time_input squeeze apply_ref bind build_orientation from_plain build_coordinates].
    unfold check_unit. rewrite L. cbn [bind time_warning mk_time get_time_input squeeze apply_ref vals t_val length Nat.ltb Nat.leb andb norm_orientation].
    rewrite NA. cbn. split; eexists; (split; [reflexivity|]); auto.
  Qed.

  (** the coordinates are lengths *)
  Theorem c105_units : forall o c t ref ch y w, new o c t ref ch = Ok (y, w) ->
    match c with
    | CNone => True
    | CPlain v _ | CArr v _ => exists u, v = Some u /\ is_length u = true
    | CDisc u _ _ | CExpr u => is_length u = true
    end.
  Proof.
    intros o c t ref ch y w H. unfold LcsNewModel.new in H.
    destruct (build_time c t ref) as [tc|]; [|discriminate]. cbn [bind] in H.
    destruct (build_orientation eye o tc) as [xo|]; [|discriminate]. cbn [bind] in H.
    destruct (build_coordinates zero is_length c tc) as [xc|] eqn:E; [|discriminate]. clear H.
    destruct c as [|v x|v x|u n d|u]; cbn [build_coordinates] in E; [exact Logic.I| | | |].
    - destruct (from_plain x tc); [|discriminate]. cbn [bind] in E. destruct v as [u|]; [|discriminate]. cbn in E.
      destruct (is_length u) eqn:L; [eauto|discriminate].
    - destruct v as [u|]; [|discriminate]. cbn in E. destruct (is_length u) eqn:L; [eauto|discriminate].
    - destruct (from_series n d); [|discriminate]. cbn [bind check_unit] in E. destruct (is_length u); [reflexivity|discriminate].
    - cbn [bind check_unit] in E. destruct (is_length u); [reflexivity|discriminate].
  Qed.
  Theorem c105_unit_error : forall xo xc v ch, (forall u, v = Some u -> is_length u = false) ->
    new (OPlain (One xo)) (CPlain v (One xc)) None None ch = Err DimensionalityError.
  Proof.
    intros xo xc v ch H. unfold LcsNewModel.new. cbn [build_time bind build_orientation build_coordinates from_plain].
    unfold check_unit. destruct v as [u|]; [rewrite (H u eq_refl)|]; reflexivity.
  Qed.

  (** ** C106 Systems made from data arrays and time series *)
  Lemma normalised_ok : forall x y, normalised norm x y -> forall d, values d = x ->
    norm_orientation norm d = Ok (match d, y with XSer d, Many l => XSer (Da (a_times d) (a_ref d) l) | _, One a => XStatic a | d, _ => d end).
  Proof.
    intros x y N d E. subst x. destruct d as [a|d], y as [b|m]; cbn in N; try contradiction; cbn [norm_orientation].
    - rewrite N. reflexivity.
    - apply norm_all_iff in N. rewrite N. reflexivity.
  Qed.

  (** One array with times: the points in time are those of the array. A given reference
      time only changes the reference, but for time deltas without reference time it
      defines the points in time. The values of the argument time do not matter. *)
  Theorem c106_one : forall xo xc u t ref tc yo, is_length u = true -> array_ok xo -> array_ok xc ->
    (is_static xo \/ is_static xc) -> ~ (is_static xo /\ is_static xc) -> normalised norm (array_values xo) yo ->
    build_time (CArr (Some u) xc) t ref = Ok tc ->
    let ax := if match xo with IStatic _ => true | _ => false end then (array_moments xc, array_ref xc) else (array_moments xo, array_ref xo) in
    forall r, match tc with Some t => reference_time t | None => Ok None end = Ok r ->
    exists ts y, new (OArr xo) (CArr (Some u) xc) t ref true = Ok (y, []) /\
      y_ori y = yo /\ y_pos y = VArr (array_values xc) /\
      y_axis y = Some (ts, match r with Some r => Some r | None => snd ax end) /\
      moments ts (match r with Some r => Some r | None => snd ax end) =
        match r, snd ax with Some r, None => map (fun t => t + r) (fst ax) | _, _ => fst ax end.
  Proof.
    intros xo xc u t ref tc yo L KO KC S NS NO T ax r R. unfold LcsNewModel.new. rewrite T. cbn [bind build_orientation build_coordinates].
    unfold check_unit. rewrite L. cbn [bind].
    pose proof (restore_ok _ xo KO) as RO. pose proof (restore_ok _ xc KC) as RC.
    assert (W2 : match ref, t, r with Some _, None, None => [ReferenceDropped] | _, _, _ => [] end = []).
    { destruct ref as [z|]; [|reflexivity]. destruct t as [x|]; [reflexivity|]. cbn in T. injection T as <-. cbn in R. injection R as <-. reflexivity. }
    assert (W1 : forall o c, is_series o = true \/ match c with PExpr => False | PArr c => is_series c = true end -> @time_warning A B t o c = Ok []).
    { intros o c D. unfold time_warning. destruct t as [x|]; [|reflexivity]. unfold build_time in T.
      destruct (mk_time x ref) as [t1|] eqn:T1; [|discriminate]. destruct (mk_time_none _ _ _ T1) as (t' & -> & _). cbn [bind].
      destruct D as [->|D]; [cbn [negb]; rewrite andb_false_r; reflexivity|]. destruct c as [c|]; [|contradiction]. rewrite D. cbn [negb]. rewrite andb_false_r. reflexivity. }
    assert (FIN : forall ts rr mo yv pv, moments ts rr = mo ->
      exists ts' (y : @sys A B), Ok (@Sys A B match r with Some r0 => Some (set_ref (ts, rr) r0) | None => Some (ts, rr) end yv (VArr pv) r, @nil warning ++ match ref, t, r with Some _, None, None => [ReferenceDropped] | _, _, _ => [] end) = Ok (y, []) /\
        y_ori y = yv /\ y_pos y = VArr pv /\ y_axis y = Some (ts', match r with Some r => Some r | None => rr end) /\
        moments ts' (match r with Some r => Some r | None => rr end) = match r, rr with Some r, None => map (fun t => t + r) mo | _, _ => mo end).
    { intros ts rr mo yv pv M. rewrite W2. destruct r as [r0|].
      - destruct (set_ref_moments (ts, rr) r0) as [S1 S2]. destruct (set_ref (ts, rr) r0) as [ts' r'] eqn:SE. cbn [fst snd] in *. subst r'.
        exists ts'. eexists. split; [reflexivity|]. cbn [y_ori y_pos y_axis]. repeat (split; [reflexivity|]).
        rewrite S2. destruct rr; [exact M|]. subst mo. unfold moments. rewrite map_map. reflexivity.
      - exists ts. eexists. split; [reflexivity|]. cbn [y_ori y_pos y_axis]. repeat (split; [reflexivity|]). destruct rr; exact M. }
    destruct xo as [a|do|do].
    - rewrite RO. cbn [bind]. cbn [array_values] in NO. destruct yo as [a'|]; [|contradiction]. cbn in NO.
      assert (exists ts dv, restore xc = Ok (XSer (Da ts (array_ref xc) dv)) /\ moments ts (array_ref xc) = array_moments xc /\ array_values xc = Many dv) as (ts & dv & E & M & AV).
      { destruct xc as [b|d|d]; [destruct NS; split; eexists; reflexivity| |]; destruct RC as (ts & E & M); exists ts; eexists; (split; [exact E|]); split; [exact M|reflexivity|exact M|reflexivity]. }
      rewrite E. cbn [bind]. rewrite W1 by (right; reflexivity). cbn [bind norm_orientation]. rewrite NO. cbn [bind unify merge axis fst snd a_times a_ref values a_vals]. rewrite R. cbn [bind].
      rewrite AV. exact (FIN ts (array_ref xc) (array_moments xc) (One a') (Many dv) M).
    - destruct RO as (ts & E & M). rewrite E. cbn [bind].
      assert (exists b, xc = IStatic b) as (b & ->) by (destruct S as [[? Q]|Q]; [discriminate|exact Q]). rewrite RC. cbn [bind].
      rewrite W1 by (left; reflexivity). cbn [bind norm_orientation a_vals a_times a_ref].
      cbn [array_values] in NO. destruct yo as [|l']; [contradiction|]. cbn in NO. apply norm_all_iff in NO. rewrite NO.
      cbn [bind unify merge axis fst snd a_times a_ref values a_vals]. rewrite R. cbn [bind].
      exact (FIN ts _ _ (Many l') (One b) M).
    - destruct RO as (ts & E & M). rewrite E. cbn [bind].
      assert (exists b, xc = IStatic b) as (b & ->) by (destruct S as [[? Q]|Q]; [discriminate|exact Q]). rewrite RC. cbn [bind].
      rewrite W1 by (left; reflexivity). cbn [bind norm_orientation a_vals a_times a_ref].
      cbn [array_values] in NO. destruct yo as [|l']; [contradiction|]. cbn in NO. apply norm_all_iff in NO. rewrite NO.
      cbn [bind unify merge axis fst snd a_times a_ref values a_vals]. rewrite R. cbn [bind].
      exact (FIN ts _ _ (Many l') (One b) M).
  Qed.

  (** Two arrays with the same time deltas. The reference time of the orientation counts:
      with a different reference time the coordinates are moved in time. *)
  Theorem c106_same_deltas_refuted : forall d e u l', is_length u = true ->
    a_times d = a_times e -> length (a_times d) = length (a_vals d) ->
    Forall2 (fun a b => norm a = Ok b) (a_vals d) l' ->
    exists y, new (OArr (IDeltas d)) (CArr (Some u) (IDeltas e)) None None true = Ok (y, []) /\
      y_axis y = Some (a_times d, a_ref d) /\ y_ori y = Many l' /\ y_pos y = VArr (Many (a_vals e)) /\
      (forall r s, a_ref d = Some r -> a_ref e = Some s -> r <> s -> a_times e <> [] ->
         moments (a_times d) (a_ref d) <> array_moments (IDeltas e)).
  Proof.
    intros d e u l' L T LN N. unfold LcsNewModel.new. cbn [build_time bind build_orientation build_coordinates restore].
    unfold check_unit. rewrite L. cbn [bind time_warning norm_orientation]. apply norm_all_iff in N. rewrite N. cbn [bind unify a_times a_ref].
    rewrite T, same_times_refl. cbn [bind merge axis fst snd a_times]. rewrite same_times_refl. cbn [bind values a_vals].
    eexists. split; [reflexivity|]. repeat (split; [reflexivity|]).
    intros r s R S D NE. cbn [array_moments]. rewrite R, S. destruct (a_times e) as [|t0 ts]; [congruence|]. cbn. intros Q. injection Q as Q _. lia.
  Qed.

  (** Different time deltas: the values are interpolated at the union of the points in
      time if both arrays have the same reference time. *)
  Lemma relative_moments : forall ts r, moments (relative ts r) r = ts.
  Proof.
    intros ts [r|]; [|apply map_id]. unfold relative, moments. rewrite map_map. rewrite <- (map_id ts) at 2. apply map_ext. intros. lia.
  Qed.
  Theorem c106_union : forall d e u l' lo lc un, is_length u = true -> a_times d <> a_times e ->
    a_ref d = a_ref e -> Forall2 (fun a b => norm a = Ok b) (a_vals d) l' -> length l' <> 1%nat ->
    time_union [LQuantity (a_times d) (a_ref d); LQuantity (a_times e) (a_ref e)] = Ok un ->
    interp_o (moments (a_times d) (a_ref d)) l' (vals un) = Ok lo -> length lo <> 1%nat ->
    interp_c (moments (a_times e) (a_ref e)) (a_vals e) (vals un) = Ok lc -> length lc <> 1%nat ->
    exists y ts, new (OArr (IDeltas d)) (CArr (Some u) (IDeltas e)) None None true = Ok (y, []) /\
      y_axis y = Some (ts, a_ref d) /\ moments ts (a_ref d) = vals un /\ y_ori y = Many lo /\ y_pos y = VArr (Many lc).
  Proof.
    intros d e u l' lo lc un L T R N N1 UN IO O1 IC C1. unfold LcsNewModel.new. cbn [build_time bind build_orientation build_coordinates restore].
    unfold check_unit. rewrite L. cbn [bind time_warning norm_orientation]. apply norm_all_iff in N. rewrite N. cbn [bind unify a_times a_ref a_vals].
    destruct (same_times (a_times d) (a_times e)) eqn:S; [apply same_times_iff in S; contradiction|]. rewrite UN. cbn [bind].
    assert (UM : forall ts r, time_ref_unset ts r = moments ts r).
    { intros ts [r|]; [reflexivity|]. symmetry. apply map_id. }
    rewrite !UM.
    assert (X : match l' with [a] => Ok (XStatic a) | _ => bind (interp_o (moments (a_times d) (a_ref d)) l' (vals un)) (fun l => Ok (interpolated (Da (a_times d) (a_ref d) l') (vals un) l)) end
      = Ok (XSer (Da (relative (vals un) (a_ref d)) (a_ref d) lo))).
    { rewrite IO. destruct l' as [|x [|y l']]; [|cbn in N1; congruence|]; cbn [bind interpolated a_ref]; destruct lo as [|z [|z' lo]]; try reflexivity; cbn in O1; congruence. }
    rewrite X. cbn [bind]. rewrite IC. cbn [bind].
    assert (Y : interpolated e (vals un) lc = XSer (Da (relative (vals un) (a_ref e)) (a_ref e) lc)).
    { unfold interpolated. destruct lc as [|z [|z' lc]]; try reflexivity; cbn in C1; congruence. }
    rewrite Y. cbn [merge axis fst snd a_times a_ref]. rewrite R, same_times_refl. cbn [bind values a_vals].
    eexists. eexists. split; [reflexivity|]. split; [reflexivity|]. split; [apply relative_moments|]. split; reflexivity.
  Qed.

  (** ... and refused otherwise *)
  Theorem c106_conflict : forall d e u, is_length u = true -> a_times d <> a_times e ->
    length (a_vals d) <> 1%nat -> (a_ref d = None <-> a_ref e <> None) ->
    forall l' y w, norm_all norm (a_vals d) = Ok l' ->
    new (OArr (IDeltas d)) (CArr (Some u) (IDeltas e)) None None true <> Ok (y, w).
  Proof.
    intros d e u L T N1 R l' y w N H. unfold LcsNewModel.new in H. cbn [build_time bind build_orientation build_coordinates restore] in H.
    unfold check_unit in H. rewrite L in H. cbn [bind time_warning norm_orientation] in H. rewrite N in H. cbn [bind unify a_times a_ref a_vals] in H.
    destruct (same_times (a_times d) (a_times e)) eqn:S; [apply same_times_iff in S; contradiction|].
    assert (UN : exists x, time_union [LQuantity (a_times d) (a_ref d); LQuantity (a_times e) (a_ref e)] = Err x).
    { assert (MK : forall l r t, mk_time (LQuantity l r) None = Ok t -> is_absolute t = match r with None => false | Some _ => true end).
      { intros l [r|] t M; unfold mk_time in M; cbn [get_time_input convert_quantity] in M; destruct l as [|z [|z' l]]; cbn in M;
          try (injection M as <-; reflexivity); destruct (_ && _); try discriminate; injection M as <-; reflexivity. }
      unfold time_union. destruct (mk_time (LQuantity (a_times d) (a_ref d)) None) as [t|x] eqn:M1; [|exists x; reflexivity]. cbn [bind union_fold].
      destruct (mk_time (LQuantity (a_times e) (a_ref e)) None) as [t2|x] eqn:M2; [|exists x; reflexivity]. cbn [bind].
      unfold punion. cbn [fst]. rewrite (MK _ _ _ M1), (MK _ _ _ M2).
      destruct (a_ref d) as [r|], (a_ref e) as [s|]; cbn; try (eexists; reflexivity).
      - destruct R as [_ R]. assert (Some r = None) by (apply R; discriminate). discriminate.
      - destruct R as [R _]. destruct (R eq_refl); reflexivity. }
    destruct UN as [x UN]. rewrite UN in H. discriminate.
  Qed.
  Theorem c106_different_references : forall d e u r s, is_length u = true -> a_times d <> a_times e ->
    a_ref d = Some r -> a_ref e = Some s -> r <> s ->
    forall l' lo lc un, norm_all norm (a_vals d) = Ok l' -> length l' <> 1%nat ->
    time_union [LQuantity (a_times d) (a_ref d); LQuantity (a_times e) (a_ref e)] = Ok un -> vals un <> [] ->
    interp_o (moments (a_times d) (a_ref d)) l' (vals un) = Ok lo -> length lo <> 1%nat ->
    interp_c (moments (a_times e) (a_ref e)) (a_vals e) (vals un) = Ok lc -> length lc <> 1%nat ->
    new (OArr (IDeltas d)) (CArr (Some u) (IDeltas e)) None None true = Err ValueError.
  Proof.
    intros d e u r s L T R S D l' lo lc un N N1 UN UNE IO O1 IC C1. unfold LcsNewModel.new. cbn [build_time bind build_orientation build_coordinates restore].
    unfold check_unit. rewrite L. cbn [bind time_warning norm_orientation]. rewrite N. cbn [bind unify a_times a_ref a_vals].
    destruct (same_times (a_times d) (a_times e)) eqn:SS; [apply same_times_iff in SS; contradiction|]. rewrite UN. cbn [bind].
    assert (UM : forall ts r, time_ref_unset ts r = moments ts r).
    { intros ts [x|]; [reflexivity|]. symmetry. apply map_id. }
    rewrite !UM.
    assert (X : match l' with [a] => Ok (XStatic a) | _ => bind (interp_o (moments (a_times d) (a_ref d)) l' (vals un)) (fun l => Ok (interpolated (Da (a_times d) (a_ref d) l') (vals un) l)) end
      = Ok (XSer (Da (relative (vals un) (a_ref d)) (a_ref d) lo))).
    { rewrite IO. destruct l' as [|x [|y l']]; [|cbn in N1; congruence|]; cbn [bind interpolated a_ref]; destruct lo as [|z [|z' lo]]; try reflexivity; cbn in O1; congruence. }
    rewrite X. cbn [bind]. rewrite IC. cbn [bind].
    assert (Y : interpolated e (vals un) lc = XSer (Da (relative (vals un) (a_ref e)) (a_ref e) lc)).
    { unfold interpolated. destruct lc as [|z [|z' lc]]; try reflexivity; cbn in C1; congruence. }
    rewrite Y. cbn [merge axis fst snd a_times a_ref]. rewrite R, S. cbn [relative].
    destruct (same_times (map (fun t => t - r) (vals un)) (map (fun t => t - s) (vals un))) eqn:Q; [|reflexivity]. apply same_times_iff in Q. destruct (vals un) as [|t0 ts]; [congruence|].
    cbn in Q. injection Q as Q _. lia.
  Qed.

  (** Discrete time series: one value is a static system, several values are like an
      array with the times of the series; other shapes are refused. *)
  Theorem c106_series : forall o u cols d t ref ch tc, build_time (CDisc u cols d) t ref = Ok tc ->
    (cols = None -> forall y w, new o (CDisc u cols d) t ref ch <> Ok (y, w)) /\
    (forall n, cols = Some n -> n <> 3%nat -> forall y w, new o (CDisc u cols d) t ref ch <> Ok (y, w)) /\
    (forall a, o = OPlain (One a) -> cols = None -> new o (CDisc u cols d) t ref ch = Err IndexError) /\
    (forall b, cols = Some 3%nat -> a_vals d = [b] -> forall y w, new o (CDisc u cols d) t ref ch = Ok (y, w) -> y_pos y = VArr (One b)).
  Proof.
    intros o u cols d t ref ch tc T.
    assert (P : forall a, build_orientation eye (OPlain (One a)) tc = Ok (XStatic a)) by reflexivity.
    unfold LcsNewModel.new. rewrite T. cbn [bind build_coordinates from_series].
    split; [|split; [|split]].
    - intros -> y w H. destruct (build_orientation eye o tc); discriminate.
    - intros n -> N y w H. destruct (build_orientation eye o tc); [|discriminate]. cbn in H. apply Nat.eqb_neq in N. 
      change (match n with 3%nat => true | _ => false end) with (Nat.eqb n 3) in H || idtac.
      unfold from_series in H. rewrite ?N in H. discriminate.
    - intros a -> ->. rewrite P. reflexivity.
    - intros b -> V y w H. destruct (build_orientation eye o tc) as [xo|]; [|discriminate]. cbn [bind from_series Nat.eqb] in H. rewrite V in H. cbn [bind] in H.
      unfold check_unit in H. destruct (is_length u); [|discriminate]. cbn [bind] in H.
      destruct (time_warning t xo _) as [w1|]; [|discriminate]. cbn [bind] in H.
      destruct (if ch then _ else _) as [xo'|]; [|discriminate]. cbn [bind] in H.
      destruct xo' as [a|dd]; cbn [unify bind merge axis fst snd] in H;
        (destruct (match tc with Some t => reference_time t | None => Ok None end); [|discriminate]);
        cbn [bind values] in H; injection H as <- _; reflexivity.
  Qed.

  Theorem c106_series_times : forall a a' u d ref, is_length u = true -> norm a = Ok a' ->
    length (a_times d) = length (a_vals d) -> (2 <= length (a_times d))%nat -> monotonic (a_times d) = true ->
    exists y ts, new (OPlain (One a)) (CDisc u (Some 3%nat) d) None ref true = Ok (y, []) /\
      y_ori y = One a' /\ y_pos y = VArr (Many (a_vals d)) /\
      y_axis y = Some (ts, match ref with Some r => Some r | None => a_ref d end) /\
      moments ts (match ref with Some r => Some r | None => a_ref d end) =
        match ref, a_ref d with Some r, None => moments (a_times d) (Some r) | _, _ => moments (a_times d) (a_ref d) end.
  Proof.
    intros a a' u d ref L N LN LT M. destruct d as [ts r vs]. cbn [a_times a_vals a_ref] in *.
    assert (T : exists tc, build_time (CDisc u (Some 3%nat) (Da ts r vs)) None ref = Ok (Some tc) /\
      reference_time tc = Ok (match ref with Some r => Some r | None => r end)).
    { unfold build_time, d_time. cbn [a_times a_ref]. rewrite (proj2 (Nat.leb_le _ _) LT).
      assert (SD : squeeze (PDeltas ts) = PDeltas ts) by (destruct ts as [|x [|y q]]; reflexivity || (cbn in LT; lia)).
      assert (SS : forall z, squeeze (PStamps (map (fun t => t + z) ts)) = PStamps (map (fun t => t + z) ts))
        by (intros z; destruct ts as [|x [|y q]]; reflexivity || (cbn in LT; lia)).
      assert (E1 : mk_time (LPandas (PDeltas ts)) r = Ok (mkTime (apply_ref (PDeltas ts) r) r)).
      { unfold mk_time. cbn [get_time_input]. rewrite SD. destruct r as [z|]; cbn [apply_ref]; rewrite ?monotonic_map_add, M; reflexivity. }
      rewrite E1. cbn [bind].
      destruct r as [z|], ref as [s|]; unfold mk_time; cbn [get_time_input t_val t_ref apply_ref]; rewrite ?SS, ?SD; cbn [apply_ref];
        rewrite ?monotonic_map_add, M; cbn [bind]; eexists; (split; [reflexivity|]); reflexivity. }
    destruct T as (tc & T & R). unfold LcsNewModel.new. rewrite T. cbn [bind build_orientation from_plain build_coordinates from_series Nat.eqb a_vals].
    destruct vs as [|v [|v' vs]]; [cbn in *; lia|cbn in *; lia|]. cbn [bind]. unfold check_unit. rewrite L.
    cbn [bind time_warning norm_orientation]. rewrite N. cbn [bind unify merge axis fst snd a_times a_ref]. rewrite R. cbn [bind values a_vals].
    destruct ref as [s|].
    - destruct (set_ref_moments (ts, r) s) as [S1 S2]. destruct (set_ref (ts, r) s) as [ts' r'] eqn:SE. cbn [fst snd] in *. subst r'.
      eexists. exists ts'. split; [reflexivity|]. cbn [y_ori y_pos y_axis]. repeat (split; [reflexivity|]). rewrite S2. destruct r; reflexivity.
    - destruct r as [r|]; (eexists; eexists; split; [reflexivity|]); cbn [y_ori y_pos y_axis]; [unfold set_ref; cbn [fst snd]; rewrite map_shift0|]; auto.
  Qed.

  (** An expression keeps the reference time. *)
  Theorem c106_expression : forall a a' u t ref tc r, is_length u = true -> norm a = Ok a' ->
    build_time (@CExpr B U u) t ref = Ok tc -> match tc with Some t => reference_time t | None => Ok None end = Ok r ->
    exists y w, new (OPlain (One a)) (CExpr u) t ref true = Ok (y, w) /\ y_axis y = None /\ y_ori y = One a' /\ y_pos y = VExpr /\
      system_ref y = r /\ (t = None -> r = ref /\ w = []).
  Proof.
    intros a a' u t ref tc r L N T R. unfold LcsNewModel.new. rewrite T. cbn [bind build_orientation from_plain build_coordinates].
    unfold check_unit. rewrite L. cbn [bind].
    assert (exists w1, @time_warning A B t (XStatic a) PExpr = Ok w1 /\ (t = None -> w1 = [])) as (w1 & W1 & W2).
    { unfold time_warning. destruct t as [x|]; [|eauto]. unfold build_time in T. destruct (mk_time x ref) as [t1|] eqn:T1; [|discriminate].
      destruct (mk_time_none _ _ _ T1) as (t' & -> & _). cbn [bind]. eexists. split; [reflexivity|discriminate]. }
    rewrite W1. cbn [bind norm_orientation]. rewrite N. cbn [bind unify merge axis fst snd]. rewrite R. cbn [bind values].
    eexists. eexists. split; [reflexivity|]. cbn [y_axis y_ori y_pos system_ref y_ref]. repeat (split; [reflexivity|]).
    intros ->. rewrite (W2 eq_refl). unfold build_time in T. destruct ref as [z|]; cbn in T; injection T as <-; cbn in R; injection R as <-; auto.
  Qed.
End New.
Print Assumptions c105_default.
Print Assumptions c105_plain.
Print Assumptions c105_lengths.
Print Assumptions c105_reference.
Print Assumptions c105_no_time.
Print Assumptions c105_warning_refuted.
Print Assumptions c105_units.
Print Assumptions c105_unit_error.
Print Assumptions c106_one.
Print Assumptions c106_same_deltas_refuted.
Print Assumptions c106_union.
Print Assumptions c106_conflict.
Print Assumptions c106_different_references.
Print Assumptions c106_series.
Print Assumptions c106_series_times.
Print Assumptions c106_expression.

(** Numbers instead of matrices and vectors; the norm refuses 0. *)
Definition ex_new := @new Z Z bool 1 0 (fun u => u) (fun a => if a =? 0 then Err ValueError else Ok 1)
  (fun _ _ ts => Ok (map (fun _ => 1) ts)) (fun _ _ ts => Ok ts).
Example ex_c105 :
  ex_new ONone CNone None None true = Ok (Sys None (One 1) (VArr (One 0)) None, []) /\
  ex_new (OPlain (Many [3; 4])) (CPlain (Some true) (One 7)) (Some (LPandas (PStamps [10; 15]))) None true =
    Ok (Sys (Some ([0; 5], Some 10)) (Many [1; 1]) (VArr (One 7)) (Some 10), []) /\
  ex_new (OPlain (One 3)) (CPlain (Some true) (One 7)) (Some (LPandas (PStamps [10; 15]))) None true =
    Ok (Sys None (One 1) (VArr (One 7)) (Some 10), [TimeDropped]) /\
  ex_new (OPlain (Many [3])) (CPlain (Some true) (One 7)) None (Some 10) true =
    Ok (Sys (Some ([0], Some 10)) (Many [1]) (VArr (One 7)) (Some 10), []) /\
  ex_new (OPlain (Many [3; 0])) (CPlain (Some true) (One 7)) (Some (LPandas (PDeltas [1; 2]))) None true = Err ValueError /\
  ex_new (OPlain (One 3)) (CPlain (Some false) (One 7)) None None true = Err DimensionalityError.
Proof. repeat split. Qed.
Example ex_c106 :
  ex_new (OArr (IDates (Da [10; 15] None [3; 4]))) (CArr (Some true) (IStatic 7)) None (Some 4) true =
    Ok (Sys (Some ([6; 11], Some 4)) (Many [1; 1]) (VArr (One 7)) (Some 4), []) /\
  ex_new (OArr (IDeltas (Da [1; 3] (Some 10) [3; 4]))) (CArr (Some true) (IDeltas (Da [2; 3] (Some 10) [5; 6]))) None None true =
    Ok (Sys (Some ([1; 2; 3], Some 10)) (Many [1; 1; 1]) (VArr (Many [11; 12; 13])) None, []) /\
  ex_new (OArr (IDeltas (Da [1; 3] (Some 10) [3; 4]))) (CArr (Some true) (IDeltas (Da [1; 3] (Some 20) [5; 6]))) None None true =
    Ok (Sys (Some ([1; 3], Some 10)) (Many [1; 1]) (VArr (Many [5; 6])) None, []) /\
  ex_new (OArr (IDeltas (Da [1; 3] (Some 10) [3; 4]))) (CArr (Some true) (IDeltas (Da [2; 3] (Some 20) [5; 6]))) None None true = Err ValueError /\
  ex_new (OArr (IDeltas (Da [1; 3] (Some 10) [3; 4]))) (CArr (Some true) (IDeltas (Da [2; 3] None [5; 6]))) None None true = Err TypeError /\
  ex_new (OPlain (One 3)) (CDisc true (Some 3%nat) (Da [0; 2] None [5; 6])) None (Some 10) true =
    Ok (Sys (Some ([0; 2], Some 10)) (One 1) (VArr (Many [5; 6])) (Some 10), []) /\
  ex_new (OPlain (One 3)) (CDisc true (Some 3%nat) (Da [0] None [5])) None (Some 10) true =
    Ok (Sys None (One 1) (VArr (One 5)) None, [ReferenceDropped]) /\
  ex_new (OPlain (One 3)) (CExpr true) None (Some 10) true = Ok (Sys None (One 1) VExpr (Some 10), []).
Proof. repeat split. Qed.
