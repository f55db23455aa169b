(** C142: inputs of [Time], resolutions and saved times. *)
From Coq Require Import List String ZArith Bool Arith Lia.
From Verif Require Import Base TimeModel TimeInModel.
Import ListNotations.
Open Scope Z_scope.

Section Inputs.
  Variables date delta : elem -> option Z.
  Notation time_of := (time_of date delta).

  Lemma map_all_some : forall (l : list Z), map_all (fun x => x) (map (@Some Z) l) = Some l.
  Proof. induction l as [|x l IH]; [reflexivity|]. cbn. now rewrite IH. Qed.
  Lemma forallb_map_true : forall {A : Type} (f : A -> elem) p l, (forall x, p (f x) = true) -> forallb p (map f l) = true.
  Proof. intros A f p l H. induction l as [|x l IH]; [reflexivity|]. cbn. now rewrite H, IH. Qed.
  Lemma new_values : forall abs l ref, new_time abs (map (@Some Z) l) ref = mk_time (LPandas (if abs then PStamps l else PDeltas l)) ref.
  Proof.
    intros abs l ref. unfold new_time. rewrite map_all_some. destruct l as [|a [|b l]]; reflexivity.
  Qed.

  (** Lists of time stamps and lists of durations are taken as they are. *)
  Theorem c142_stamps : forall z zs ref, time_of (IList (map EStamp (z :: zs))) ref = mk_time (LPandas (PStamps (z :: zs))) ref.
  Proof.
    intros z zs ref. unfold time_of, convert_other, index_of. cbn [map forallb is_none andb].
    change (EStamp z :: map EStamp zs) with (map EStamp (z :: zs)). cbn [is_stamp orb andb].
    rewrite (forallb_map_true EStamp) by reflexivity. cbn [bind fst snd]. rewrite map_map.
    apply (new_values true (z :: zs)).
  Qed.
  Theorem c142_deltas : forall z zs ref, time_of (IList (map EDelta (z :: zs))) ref = mk_time (LPandas (PDeltas (z :: zs))) ref.
  Proof.
    intros z zs ref. unfold time_of, convert_other, index_of. cbn [map forallb is_none andb].
    change (EDelta z :: map EDelta zs) with (map EDelta (z :: zs)). cbn [is_stamp is_delta is_none orb andb].
    rewrite (forallb_map_true EDelta) by reflexivity. cbn [bind fst snd]. rewrite map_map.
    apply (new_values false (z :: zs)).
  Qed.

  Lemma texts_objects : forall s ss, index_of (map EText (s :: ss)) = XObjects (map EText (s :: ss)).
  Proof. reflexivity. Qed.
  Lemma map_all_iff : forall (f : elem -> option (option Z)) (g : elem -> option Z) ss zs,
    (forall s, f (EText s) = match g (EText s) with Some z => Some (Some z) | None => None end) ->
    Forall2 (fun s z => g (EText s) = Some z) ss zs -> map_all f (map EText ss) = Some (map (@Some Z) zs).
  Proof.
    intros f g ss zs E H. induction H as [|s z ss zs H _ IH]; [reflexivity|]. cbn. now rewrite E, H, IH.
  Qed.
  Lemma map_all_none : forall (f : elem -> option (option Z)) (g : elem -> option Z) ss s,
    (forall s, f (EText s) = match g (EText s) with Some z => Some (Some z) | None => None end) ->
    In s ss -> g (EText s) = None -> map_all f (map EText ss) = None.
  Proof.
    intros f g ss s E H N. induction ss as [|x ss IH]; [destruct H|]. cbn. destruct H as [-> |H]; [now rewrite E, N|].
    rewrite (IH H). now destruct (f (EText x)).
  Qed.
  (** Texts are dates if all of them can be read as dates, even if they are durations too. *)
  Theorem c142_dates : forall s ss zs ref, Forall2 (fun s z => date (EText s) = Some z) (s :: ss) zs ->
    time_of (IList (map EText (s :: ss))) ref = mk_time (LPandas (PStamps zs)) ref.
  Proof.
    intros s ss zs ref H. unfold time_of, convert_other. rewrite texts_objects.
    rewrite (map_all_iff (to_date date) date (s :: ss) zs) by (try reflexivity; exact H). cbn [bind fst snd]. apply (new_values true).
  Qed.
  (** Otherwise they are durations if all of them can be read as durations. *)
  Theorem c142_durations : forall s ss zs ref x, In x (s :: ss) -> date (EText x) = None ->
    Forall2 (fun s z => delta (EText s) = Some z) (s :: ss) zs ->
    time_of (IList (map EText (s :: ss))) ref = mk_time (LPandas (PDeltas zs)) ref.
  Proof.
    intros s ss zs ref x Hx Nx H. unfold time_of, convert_other. rewrite texts_objects.
    rewrite (map_all_none (to_date date) date (s :: ss) x) by (try reflexivity; assumption).
    rewrite (map_all_iff (to_delta delta) delta (s :: ss) zs) by (try reflexivity; exact H). cbn [bind fst snd]. apply (new_values false).
  Qed.
  Theorem c142_no_times : forall s ss ref x y, In x (s :: ss) -> date (EText x) = None -> In y (s :: ss) -> delta (EText y) = None ->
    time_of (IList (map EText (s :: ss))) ref = Err TypeError.
  Proof.
    intros s ss ref x y Hx Nx Hy Ny. unfold time_of, convert_other. rewrite texts_objects.
    rewrite (map_all_none (to_date date) date (s :: ss) x) by (try reflexivity; assumption).
    now rewrite (map_all_none (to_delta delta) delta (s :: ss) y) by (try reflexivity; assumption).
  Qed.

  (** Numbers are no times. *)
  Theorem c142_numbers : forall z zs ref, time_of (IList (map ENumber (z :: zs))) ref = Err TypeError.
  Proof.
    intros z zs ref. unfold time_of, convert_other, index_of. cbn [map forallb is_none is_stamp is_delta is_number orb andb].
    now rewrite (forallb_map_true ENumber) by reflexivity.
  Qed.
  (** Nor are lists with time stamps and durations. *)
  Lemma map_all_in : forall {A B : Type} (f : A -> option B) x l, In x l -> f x = None -> map_all f l = None.
  Proof.
    intros A B f x l H N. induction l as [|y l IH]; [destruct H|]. cbn. destruct H as [-> |H]; [now rewrite N|].
    rewrite (IH H). now destruct (f y).
  Qed.
  Lemma forallb_in : forall {A : Type} (p : A -> bool) x l, In x l -> p x = false -> forallb p l = false.
  Proof.
    intros A p x l H N. destruct (forallb p l) eqn:Q; [|reflexivity]. rewrite forallb_forall in Q. now rewrite (Q x H) in N.
  Qed.
  Theorem c142_mixed : forall l a b ref, In (EStamp a) l -> In (EDelta b) l -> time_of (IList l) ref = Err TypeError.
  Proof.
    intros l a b ref Ha Hb. unfold time_of, convert_other, index_of.
    rewrite (forallb_in _ _ l Ha), (forallb_in _ _ l Hb), (forallb_in _ _ l Ha), (forallb_in _ _ l Ha) by reflexivity.
    now rewrite (map_all_in _ (EDelta b) l Hb), (map_all_in _ (EStamp a) l Ha) by reflexivity.
  Qed.
  (** A scalar is a list with one element. *)
  Theorem c142_scalar : forall e ref, time_of (IScalar e) ref = time_of (IList [e]) ref.
  Proof. reflexivity. Qed.

  Lemma nth_none : forall (f : elem -> option (option Z)) l v, map_all f l = Some v -> f ENone = Some None -> In ENone l -> In None v.
  Proof.
    intros f l. induction l as [|x l IH]; intros v H E I; [destruct I|]. cbn in H.
    destruct (f x) as [y|] eqn:Fx; [|discriminate]. destruct (map_all f l) as [t|]; [|discriminate]. injection H as <-.
    destruct I as [-> |I]; [rewrite E in Fx; injection Fx as <-; now left|right; now apply IH].
  Qed.
  Lemma new_nat : forall abs v ref, In None v -> exists e, new_time abs v ref = Err e /\ (e = TypeError \/ e = ValueError).
  Proof.
    intros abs v ref H. unfold new_time.
    assert (Q : map_all (fun x : option Z => x) v = None) by (now apply (map_all_in (fun x : option Z => x) None)).
    rewrite Q. destruct v as [|[z|] [|y v]]; eauto.
  Qed.
  (** None is not accepted, alone or in lists. *)
  Theorem c142_none : forall l ref, In ENone l -> exists e, time_of (IList l) ref = Err e /\ (e = TypeError \/ e = ValueError).
  Proof.
    intros l ref H. unfold time_of, convert_other, index_of.
    assert (V : In None (map value l)) by (apply in_map_iff; now exists ENone).
    assert (O : exists e, bind (match map_all (to_date date) l with
        | Some v => Ok (true, v)
        | None => match map_all (to_delta delta) l with Some v => Ok (false, v) | None => Err TypeError end end)
        (fun av => new_time (fst av) (snd av) ref) = Err e /\ (e = TypeError \/ e = ValueError)).
    { destruct (map_all (to_date date) l) as [v|] eqn:D; [cbn [bind fst snd]; apply new_nat; now apply (nth_none _ _ _ D)|].
      destruct (map_all (to_delta delta) l) as [v|] eqn:D2; [cbn [bind fst snd]; apply new_nat; now apply (nth_none _ _ _ D2)|].
      exists TypeError; auto. }
    destruct (forallb is_none l); [exact O|].
    destruct (forallb _ l); [cbn [bind fst snd]; now apply new_nat|].
    destruct (forallb _ l); [cbn [bind fst snd]; now apply new_nat|].
    destruct (forallb _ l); [exists TypeError; auto|exact O].
  Qed.
  (** Missing values between time stamps or durations are a ValueError: the index is not
      monotonic. *)
  Theorem c142_missing : forall l ref, In ENone l -> (2 <= List.length l)%nat ->
    (exists e, In e l /\ is_none e = false) ->
    (forall e, In e l -> e = ENone \/ is_stamp e = true) \/ (forall e, In e l -> e = ENone \/ is_delta e = true) ->
    time_of (IList l) ref = Err ValueError.
  Proof.
    intros l ref H L (e0 & I0 & N0) K. unfold time_of, convert_other, index_of. rewrite (forallb_in is_none e0 l I0 N0).
    assert (V : map_all (fun x : option Z => x) (map value l) = None).
    { apply (map_all_in (fun x : option Z => x) None); [apply in_map_iff; now exists ENone|reflexivity]. }
    assert (NT : forall abs, new_time abs (map value l) ref = Err ValueError).
    { intros abs. unfold new_time. rewrite V. destruct l as [|a [|b l]]; cbn [List.length] in L; try lia.
      cbn [map]. destruct (value a); reflexivity. }
    destruct K as [K|K].
    - replace (forallb (fun e => is_stamp e || is_none e) l) with true; [apply NT|symmetry]. apply forallb_forall.
      intros x X. destruct (K x X) as [-> | ->]; reflexivity.
    - destruct (forallb (fun e => is_stamp e || is_none e) l); [apply NT|].
      replace (forallb (fun e => is_delta e || is_none e) l) with true; [apply NT|symmetry]. apply forallb_forall.
      intros x X. destruct (K x X) as [-> | ->]; reflexivity.
  Qed.
  (** An object without times is not accepted, one with times stands for them. *)
  Theorem c142_dependent : forall ref, time_of (IDependent None) ref = Err TypeError /\
    forall t, time_of (IDependent (Some t)) ref = mk_time (LTime t) ref.
  Proof. split; reflexivity. Qed.
  (** "Every absolute time has a reference time": an empty list is absolute, but has none. *)
  Theorem c142_empty_refuted : exists t, time_of (IList []) None = Ok t /\ is_absolute t = true /\ reference_time t = Err IndexError.
  Proof. eexists. split; [reflexivity|]. split; reflexivity. Qed.
End Inputs.
Print Assumptions c142_stamps.
Print Assumptions c142_deltas.
Print Assumptions c142_dates.
Print Assumptions c142_durations.
Print Assumptions c142_no_times.
Print Assumptions c142_numbers.
Print Assumptions c142_mixed.
Print Assumptions c142_scalar.
Print Assumptions c142_none.
Print Assumptions c142_missing.
Print Assumptions c142_dependent.
Print Assumptions c142_empty_refuted.

(** ** Duration *)
Lemma monotonic_cons : forall a l, monotonic (a :: l) = true -> monotonic l = true /\ Forall (fun x => a <= x) l.
Proof.
  intros a l. revert a. induction l as [|b l IH]; intros a H; [split; [reflexivity|constructor]|].
  cbn in H. apply andb_prop in H as [H1 H2]. apply Z.leb_le in H1. split; [exact H2|].
  constructor; [exact H1|]. apply IH in H2 as [_ H2]. eapply Forall_impl; [|exact H2]. cbn. lia.
Qed.
Lemma zmin_first : forall l a, Forall (fun x => a <= x) l -> zmin_list l a = a.
Proof. intros l a H. unfold zmin_list. induction H as [|x l H _ IH]; cbn; [reflexivity|]. rewrite IH. lia. Qed.
Lemma zmax_spec : forall l a, In (zmax_list l a) (a :: l) /\ forall x, In x (a :: l) -> x <= zmax_list l a.
Proof.
  intros l a. unfold zmax_list. induction l as [|b l [IH1 IH2]]; cbn [fold_right].
  - split; [now left|]. intros x [-> |[]]. lia.
  - split.
    + destruct (Z.max_spec b (fold_right Z.max a l)) as [[_ ->]|[_ ->]]; [|right; now left].
      destruct IH1 as [<-|H]; [now left|right; now right].
    + intros x [-> |[-> |H]]; [|lia|]; [specialize (IH2 x (or_introl eq_refl))|specialize (IH2 x (or_intror H))]; lia.
Qed.
Lemma last_spec : forall l a, monotonic (a :: l) = true -> In (last l a) (a :: l) /\ forall x, In x (a :: l) -> x <= last l a.
Proof.
  induction l as [|b l IH]; intros a H; [split; [now left|]; intros x [-> |[]]; cbn; lia|].
  pose proof (monotonic_cons _ _ H) as [H1 H2]. destruct (IH b H1) as [I1 I2].
  assert (Q : last (b :: l) a = last l b).
  { clear. revert a b. induction l as [|c l IH]; intros a b; [reflexivity|]. change (last (b :: c :: l) a) with (last (c :: l) a). now rewrite !IH. }
  rewrite Q. split; [now right|]. intros x [-> |Hx]; [|now apply I2].
  inversion H2. specialize (I2 b (or_introl eq_refl)). lia.
Qed.
Lemma zmax_last : forall l a, monotonic (a :: l) = true -> zmax_list l a = last l a.
Proof.
  intros l a H. destruct (zmax_spec l a) as [A B], (last_spec l a H) as [C D]. apply Z.le_antisymm; auto.
Qed.
(** The duration is the time from the first to the last value. *)
Theorem c142_duration : forall x ref t, mk_time x ref = Ok t ->
  match vals t with
  | [] => duration t = Err TypeError
  | z :: r => duration t = Ok (mkTime (PDelta (last r z - z)) None)
  end.
Proof.
  intros x ref t H.
  assert (M : monotonic (vals t) = true).
  { unfold mk_time in H. destruct (get_time_input x ref) as [p rf]. destruct (apply_ref p rf) as [z|z|l|l] eqn:E;
      cbn in H; try (injection H as <-; reflexivity); destruct (monotonic l) eqn:Ml; try discriminate; injection H as <-; exact Ml. }
  unfold duration. destruct (vals t) as [|z r]; [reflexivity|].
  rewrite zmin_first by (now apply monotonic_cons). rewrite zmax_last by exact M. reflexivity.
Qed.
Print Assumptions c142_duration.

(** ** Saved times *)
Theorem c142_saved_time : forall x ref t, mk_time x ref = Ok t -> load_time (save_time t) = Ok t.
Proof.
  intros x ref t H. unfold load_time, save_time. cbn [fst snd]. unfold mk_time in H.
  destruct (get_time_input x ref) as [p rf] eqn:E.
  assert (S : squeeze p = p).
  { destruct x as [[v tr]|v|l r]; cbn in E; injection E as <- <-.
    - destruct v as [z|z|[|a [|b l]]|[|a [|b l]]]; reflexivity.
    - destruct v as [z|z|[|a [|b l]]|[|a [|b l]]]; reflexivity.
    - destruct r as [r|]; destruct l as [|a [|b l]]; reflexivity. }
  destruct p as [z|z|l|l]; destruct rf as [rf|]; cbn in H;
    repeat match type of H with (if ?b then _ else _) = _ => let Q := fresh in destruct b eqn:Q; [|discriminate] end; injection H as <-; unfold mk_time; cbn [get_time_input t_val t_ref];
    try reflexivity; destruct l as [|a [|b l]]; cbn [map squeeze apply_ref] in *; try discriminate; try reflexivity;
    repeat match goal with Q : monotonic _ = true |- _ => rewrite Q end; reflexivity.
Qed.
Print Assumptions c142_saved_time.
(** A relative time with a reference time set later is absolute after loading. *)
Theorem c142_setter_refuted : exists t t', load_time (save_time (set_reference_time t 1000)) = Ok t' /\ mk_time (LPandas (PDeltas [1; 2])) None = Ok t /\
  is_absolute (set_reference_time t 1000) = false /\ is_absolute t' = true /\ vals t' = [1001; 1002].
Proof. exists (mkTime (PDeltas [1; 2]) None). eexists. split; [reflexivity|]. repeat split; reflexivity. Qed.
Print Assumptions c142_setter_refuted.

(** ** Resolutions *)
(** The units of pandas. *)
Definition units : list Z := [1; 1000; 1000000; 1000000000].
Lemma units_divide : forall u v, In u units -> In v units -> exists k l, Z.min u v * k = u /\ Z.min u v * l = v /\ 0 < Z.min u v.
Proof.
  intros u v Hu Hv. repeat (destruct Hu as [<-|Hu]; [|]); try destruct Hu;
    repeat (destruct Hv as [<-|Hv]; [|]); try destruct Hv;
    match goal with |- exists k l, Z.min ?a ?b * k = _ /\ _ => exists (a / Z.min a b), (b / Z.min a b); vm_compute; auto end.
Qed.
(** Differences are exact whatever the resolutions, and they are durations. *)
Lemma difference_moments : forall i r, In (i_unit i) units -> In (r_unit r) units ->
  moments (difference i r) = map (fun m => m - r_unit r * r_count r) (moments i).
Proof.
  intros i r Hi Hr. destruct (units_divide _ _ Hi Hr) as (k & l & K & L & P). unfold moments, difference. cbn [i_unit i_counts].
  rewrite !map_map. apply map_ext. intro c. set (u := Z.min (i_unit i) (r_unit r)) in *.
  assert (A : i_unit i / u = k) by (rewrite <- K, Z.mul_comm; apply Z.div_mul; lia).
  assert (B : r_unit r / u = l) by (rewrite <- L, Z.mul_comm; apply Z.div_mul; lia).
  rewrite A, B, <- K, <- L. ring.
Qed.
Theorem c142_difference : forall i r, In (i_unit i) units -> In (r_unit r) units ->
  moments (difference i r) = map (fun m => m - r_unit r * r_count r) (moments i) /\ i_abs (difference i r) = false.
Proof. intros i r Hi Hr. split; [now apply difference_moments|reflexivity]. Qed.
Print Assumptions c142_difference.
(** The durations of a time are durations. *)
Theorem c142_relative : forall i ref d, timedelta i ref = Ok d -> i_abs d = false.
Proof.
  intros i ref d. unfold timedelta. destruct (i_abs i) eqn:A.
  - destruct ref as [r|]; [intros H; injection H as <-; reflexivity|]. destruct (i_counts i); [discriminate|]. intros H. injection H as <-. reflexivity.
  - intros H. injection H as <-. exact A.
Qed.
Print Assumptions c142_relative.

(** The quantity of a time given in nanoseconds is right, and so is the one of a single
    value; others are right up to the unit. *)
Theorem c142_quantity : forall i ref l, In (i_unit i) units -> (forall r, ref = Some r -> In (r_unit r) units) ->
  quantity i ref = Ok l ->
  let zero := if i_abs i then match ref with Some r => r_unit r * r_count r | None => hd 0 (moments i) end else 0 in
  let unit := match i_abs i, ref with true, Some r => Z.min (i_unit i) (r_unit r) | _, _ => i_unit i end in
  let exact := map (fun m => m - zero) (moments i) in
  (unit = 1 \/ List.length l = 1%nat -> l = exact) /\ (List.length l <> 1%nat -> map (Z.mul unit) l = exact).
Proof.
  intros i ref l Hi Hr H zero unit exact. unfold quantity in H.
  assert (T : exists d, timedelta i ref = Ok d /\ i_unit d = unit /\ moments d = exact).
  { unfold timedelta in *. subst zero unit exact. destruct (i_abs i) eqn:A.
    - destruct ref as [r|].
      + eexists. split; [reflexivity|]. split; [reflexivity|]. now apply difference_moments; [|apply Hr].
      + unfold moments at 2. destruct (i_counts i) as [|c cs] eqn:C; [discriminate|]. eexists. split; [reflexivity|].
        split; [cbn; now rewrite Z.min_id|]. rewrite difference_moments by assumption. cbn [r_unit r_count map hd]. reflexivity.
    - eexists. split; [reflexivity|]. split; [reflexivity|]. rewrite <- (map_id (moments i)) at 1. apply map_ext. intro. lia. }
  destruct T as (d & Td & Ud & Md). rewrite Td in H. cbn [bind] in H. rewrite <- Ud, <- Md. unfold moments.
  destruct (i_counts d) as [|a [|b cs]]; injection H as <-.
  - split; reflexivity.
  - split; [reflexivity|]. intro N. exfalso. now apply N.
  - split; [|reflexivity]. intros [-> |N]; [|discriminate]. rewrite <- (map_id (a :: b :: cs)) at 1. apply map_ext. intro. lia.
Qed.
Print Assumptions c142_quantity.
(** So quantities of numpy arrays are right with older versions of pandas, which convert to
    nanoseconds. *)
Theorem c142_array : forall keeps unit counts, keeps = false \/ unit = 1 ->
  quantity (index_of_array keeps false unit counts) None = Ok (map (fun c => unit * c) counts).
Proof.
  intros keeps unit counts H.
  assert (Q : exists l, i_counts (index_of_array keeps false unit counts) = l /\ l = map (fun c => unit * c) counts
    /\ i_unit (index_of_array keeps false unit counts) = 1 /\ i_abs (index_of_array keeps false unit counts) = false).
  { destruct keeps; [destruct H as [H | ->]; [discriminate|]|]; (eexists; split; [reflexivity|]); unfold index_of_array; cbn [i_counts i_unit i_abs].
    - split; [|now split]. rewrite <- (map_id counts) at 1. apply map_ext. intro. now rewrite Z.mul_1_l.
    - now repeat split. }
  destruct Q as (l & Ql & <- & Qu & Qa). unfold quantity, timedelta. rewrite Qa. cbn [bind]. rewrite Ql, Qu.
  destruct l as [|a [|b l]]; try reflexivity. now rewrite Z.mul_1_l.
Qed.
Print Assumptions c142_array.
(** An array becomes an index of the same kind with the same moments. *)
Theorem c142_array_kept : forall keeps abs unit counts,
  i_abs (index_of_array keeps abs unit counts) = abs /\ moments (index_of_array keeps abs unit counts) = map (fun c => unit * c) counts.
Proof.
  intros keeps abs unit counts. destruct keeps; (split; [reflexivity|]); unfold moments, index_of_array; cbn [i_unit i_counts]; [reflexivity|].
  rewrite map_map. apply map_ext. intro. lia.
Qed.
Print Assumptions c142_array_kept.
(** With pandas 2, three seconds become three nanoseconds. *)
Theorem c142_array_refuted : quantity (index_of_array true false 1000000000 [1; 2; 4]) None = Ok [1; 2; 4] /\
  moments (index_of_array true false 1000000000 [1; 2; 4]) = [1000000000; 2000000000; 4000000000].
Proof. split; reflexivity. Qed.
Print Assumptions c142_array_refuted.

Lemma steps_seq : forall d l a, steps d (a :: l) = true -> a :: l = map (fun k => a + Z.of_nat k * d) (seq 0 (S (List.length l))).
Proof.
  intros d l. induction l as [|b l IH]; intros a H.
  - cbn. f_equal. lia.
  - change (steps d (a :: b :: l)) with ((b - a =? d) && steps d (b :: l))%bool in H. apply andb_prop in H as [H1 H2]. apply Z.eqb_eq in H1.
    change (seq 0 (S (List.length (b :: l)))) with (0%nat :: seq 1 (S (List.length l))). rewrite <- seq_shift. cbn [map]. rewrite map_map.
    f_equal; [lia|]. rewrite (IH b H2). apply map_ext. intro k. lia.
Qed.
Lemma last_steps : forall d l a, steps d (a :: l) = true -> last l a = a + Z.of_nat (List.length l) * d.
Proof.
  intros d l. induction l as [|b l IH]; intros a H; [cbn; lia|].
  change (steps d (a :: b :: l)) with ((b - a =? d) && steps d (b :: l))%bool in H. apply andb_prop in H as [H1 H2]. apply Z.eqb_eq in H1.
  assert (Q : last (b :: l) a = last l b).
  { clear. revert a b. induction l as [|c l IH]; intros a b; [reflexivity|]. change (last (b :: c :: l) a) with (last (c :: l) a). now rewrite !IH. }
  rewrite Q, (IH b H2). cbn [List.length]. lia.
Qed.
(** An index with values at equal distances, or in nanoseconds, is loaded with the same values. *)
Theorem c142_index : forall i, i_counts i <> [] -> i_unit i = 1 \/ inferred (moments i) <> None ->
  exists t j, save_index i = Ok t /\ load_index (i_abs i) t = Ok j /\ i_abs j = i_abs i /\ i_unit j = 1 /\ moments j = moments i.
Proof.
  intros i N H. unfold save_index. destruct (moments i) as [|a r] eqn:M; [unfold moments in M; destruct (i_counts i); [congruence|discriminate]|].
  destruct (inferred (a :: r)) as [d|] eqn:D.
  - eexists _, _. split; [reflexivity|]. split; [reflexivity|]. split; [reflexivity|]. split; [reflexivity|].
    unfold moments. cbn [i_unit i_counts n_start n_end]. unfold range. rewrite map_map.
    destruct r as [|b [|c r]]; try discriminate. unfold inferred in D.
    destruct ((0 <? b - a) && steps (b - a) (a :: b :: c :: r))%bool eqn:Q; [|discriminate]. injection D as <-.
    apply andb_prop in Q as [P Q]. apply Z.ltb_lt in P. rewrite (last_steps _ _ _ Q).
    assert (E : Z.to_nat ((a + Z.of_nat (List.length (b :: c :: r)) * (b - a) - a) / (b - a) + 1) = S (List.length (b :: c :: r))).
    { rewrite Z.add_simpl_l, Z.div_mul by lia. lia. }
    rewrite E. transitivity (map (fun k => a + Z.of_nat k * (b - a)) (seq 0 (S (List.length (b :: c :: r))))); [|symmetry; now apply steps_seq].
    apply map_ext. intro. lia.
  - destruct H as [H|H]; [|congruence]. eexists _, _. split; [reflexivity|]. split; [reflexivity|]. split; [reflexivity|]. split; [reflexivity|].
    rewrite <- M. unfold moments. cbn. rewrite H. reflexivity.
Qed.
Print Assumptions c142_index.
(** An empty index cannot be saved. *)
Theorem c142_empty_index : forall i, i_counts i = [] -> save_index i = Err IndexError.
Proof. intros i E. unfold save_index, moments. rewrite E. reflexivity. Qed.
Print Assumptions c142_empty_index.
(** Other indices are loaded with counts of nanoseconds. *)
Theorem c142_index_refuted : exists t j, save_index (RI false 1000 [1; 2; 4]) = Ok t /\ load_index false t = Ok j /\
  moments (RI false 1000 [1; 2; 4]) = [1000; 2000; 4000] /\ moments j = [1; 2; 4].
Proof. eexists _, _. repeat split; reflexivity. Qed.
Print Assumptions c142_index_refuted.
Example index_ex : exists t j, save_index (RI true 1000 [1; 3; 5; 7]) = Ok t /\ load_index true t = Ok j /\ n_freq t = Some 2000 /\ moments j = [1000; 3000; 5000; 7000].
Proof. eexists _, _. repeat split; reflexivity. Qed.
Example quantity_ex : quantity (RI true 1000 [5; 7]) (Some (RS 1 4000)) = Ok [1000; 3000].
Proof. reflexivity. Qed.
Example duration_ex : duration (mkTime (PStamps [3; 5; 9]) None) = Ok (mkTime (PDelta 6) None).
Proof. reflexivity. Qed.
Example texts_ex : let date e := match e with EText "2020" => Some 50 | _ => None end%string in
  let delta e := match e with EText "1s" => Some 1 | EText "2s" => Some 2 | _ => None end%string in
  time_of date delta (IList [EText "1s"; EText "2s"]) (Some 10) = Ok (mkTime (PStamps [11; 12]) (Some 10)) /\
  time_of date delta (IScalar (EText "2020")) None = Ok (mkTime (PStamp 50) None) /\
  time_of date delta (IList [EText "2020"; EText "1s"]) None = Err TypeError.
Proof. repeat split; reflexivity. Qed.
