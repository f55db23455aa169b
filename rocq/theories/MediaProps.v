(** Properties of [MediaFile]: times of the frames, frame counts and the converter. *)
From Coq Require Import Reals List ZArith Bool Lra Lia.
From Verif Require Import Base MediaModel.
Import ListNotations.
Open Scope R_scope.

Lemma linspace_len a b n : length (linspace a b n) = n.
Proof. destruct n as [|[|n]]; cbn [linspace]; auto. now rewrite map_length, seq_length. Qed.
Lemma linspace_nth a b n i d : (2 <= n)%nat -> (i < n)%nat ->
  nth i (linspace a b n) d = a + INR i * ((b - a) / INR (n - 1)).
Proof.
  intros N L. destruct n as [|[|n]]; try lia. unfold linspace.
  rewrite nth_indep with (d' := (fun i => a + INR i * ((b - a) / INR (S (S n) - 1))) 0%nat)
    by (rewrite map_length, seq_length; exact L).
  rewrite (map_nth (fun i => a + INR i * ((b - a) / INR (S (S n) - 1)))), seq_nth by exact L.
  reflexivity.
Qed.
Lemma pred_pos n : (2 <= n)%nat -> 0 < INR (n - 1).
Proof. intros N. apply lt_0_INR. lia. Qed.
Lemma pred_val n : (2 <= n)%nat -> INR (n - 1) = INR n - 1.
Proof. intros N. rewrite minus_INR by lia. reflexivity. Qed.

Section Media.
  Context {F Path : Type} (resolution : F -> nat * nat) (colored : F -> bool) (files : Path -> res (@video F)).
  Notation new := (new_media resolution colored files).

  Lemma new_list l ref fps m : new (FromList l) ref (Some fps) = Ok m ->
    m_arr m = Arr l (Some (linspace 0 (INR (length l) / fps) (length l))) /\
    m_len m = length l /\ m_fps m = fps /\ l <> [].
  Proof.
    unfold new_media, from_sequence, wrap. destruct l as [|f l]; [discriminate|].
    destruct ref; cbn [bind]; try discriminate;
      (destruct (forallb colored (f :: l)); cbn [bind]; [|discriminate]);
      intros [= <-]; repeat split; discriminate.
  Qed.

  (** The times of a list of frames are as many as the frames, start at 0 and end at the
      duration. *)
  Theorem c110_times l ref fps m : 0 < fps -> new (FromList l) ref (Some fps) = Ok m ->
    exists ts, a_times (m_arr m) = Some ts /\ length ts = length l /\ nth 0 ts 0 = 0 /\
      ((2 <= length l)%nat -> nth (length l - 1) ts 0 = duration m) /\
      forall i, (2 <= length l)%nat -> (i < length l)%nat ->
        nth i ts 0 = INR i * INR (length l) / ((INR (length l) - 1) * fps).
  Proof.
    intros P H. destruct (new_list _ _ _ _ H) as (A & L & G & N).
    rewrite A. eexists. split; [reflexivity|]. split; [apply linspace_len|].
    assert (X : forall i, (2 <= length l)%nat -> (i < length l)%nat ->
      nth i (linspace 0 (INR (length l) / fps) (length l)) 0 = INR i * INR (length l) / ((INR (length l) - 1) * fps)).
    { intros i N2 I. rewrite linspace_nth by assumption. pose proof (pred_pos _ N2).
      rewrite pred_val in * by assumption. field. lra. }
    split; [|split; [|exact X]].
    - destruct l as [|f [|g l]]; [contradiction|reflexivity|].
      rewrite X by (cbn [length]; lia). cbn [INR]. unfold Rdiv. now rewrite !Rmult_0_l.
    - intros N2. rewrite X by lia. unfold duration, duration_of. rewrite L, G.
      pose proof (pred_pos _ N2). rewrite pred_val in * by assumption. field. lra.
  Qed.

  (** Frame [i] is not at [i / fps]: it is late by [i / ((n - 1) fps)]. *)
  Theorem c110_frame_time_refuted l ref fps m i : 0 < fps -> new (FromList l) ref (Some fps) = Ok m ->
    (0 < i)%nat -> (i < length l)%nat ->
    exists ts, a_times (m_arr m) = Some ts /\
      nth i ts 0 - INR i / fps = INR i / ((INR (length l) - 1) * fps) /\ INR i / fps < nth i ts 0.
  Proof.
    intros P H I L. destruct (c110_times _ _ _ _ P H) as (ts & A & _ & _ & _ & X).
    exists ts. split; [exact A|]. assert (N2 : (2 <= length l)%nat) by lia.
    pose proof (pred_pos _ N2) as Q. rewrite pred_val in Q by assumption.
    assert (D : nth i ts 0 - INR i / fps = INR i / ((INR (length l) - 1) * fps))
      by (rewrite X by assumption; field; lra).
    split; [exact D|].
    assert (0 < INR i / ((INR (length l) - 1) * fps)); [|lra].
    apply Rdiv_lt_0_compat; [now apply lt_0_INR|]. now apply Rmult_lt_0_compat.
  Qed.

  (** The duration is the number of frames over the rate. *)
  Theorem c110_duration l ref fps m : 0 < fps -> new (FromList l) ref (Some fps) = Ok m ->
    duration m * fps = INR (length l) /\ m_nframes m = Some (Z.of_nat (length l)).
  Proof.
    intros P H. destruct (new_list _ _ _ _ H) as (_ & L & G & _). split.
    - unfold duration, duration_of. rewrite L, G. field. lra.
    - revert H. unfold new_media, from_sequence, wrap. destruct l as [|f l]; [discriminate|].
      destruct ref; cbn [bind]; try discriminate;
        (destruct (forallb colored (f :: l)); cbn [bind]; [|discriminate]); now intros [= <-].
  Qed.

  (** A sequence is accepted exactly if a rate is given, there is a frame, the reference
      time is a timestamp or missing and, unless it is a DataArray, all frames are colored. *)
  Theorem c110_accepts l ref fps :
    (exists m, new (FromList l) ref fps = Ok m) <->
    fps <> None /\ l <> [] /\ ref <> OtherRef /\ forall f, In f l -> colored f = true.
  Proof.
    unfold new_media, from_sequence, wrap. destruct fps as [fps|].
    2:{ split; [intros [? [=]]|intros [? _]; congruence]. }
    destruct l as [|f l]; [split; [intros [? [=]]|intros (_ & ? & _); congruence]|].
    rewrite <- forallb_forall.
    destruct ref, (forallb colored (f :: l)); cbn [bind]; split;
      try (intros [? [=]]; fail); try (intros (_ & _ & ? & ?); congruence);
      intros _; try (repeat split; discriminate); eexists; reflexivity.
  Qed.
  Theorem c110_array a ref fps m : new (FromArr a) ref fps = Ok m -> m_arr m = a.
  Proof.
    unfold new_media, from_sequence. destruct fps; [|discriminate].
    destruct (a_frames a); [discriminate|]. destruct ref; cbn [bind]; try discriminate; now intros [= <-].
  Qed.
  Theorem c110_errors ref fps :
    new FromOther ref fps = Err ValueError /\
    (forall l, new (FromList l) ref None = Err ValueError) /\
    (forall a, new (FromArr a) ref None = Err ValueError).
  Proof. repeat split. Qed.

  (** The reference time is the given one, the resolution that of the first frame. *)
  Theorem c110_sequence s ref fps m : new s ref fps = Ok m -> (forall p, s <> FromPath p) ->
    exists f l, (s = FromList (f :: l) \/ exists t, s = FromArr (Arr (f :: l) t)) /\
      a_frames (m_arr m) = f :: l /\ m_resolution m = resolution f /\ m_path m = None /\ fps = Some (m_fps m) /\
      ref = match m_ref m with Some z => Stamp z | None => NoRef end.
  Proof.
    intros H N. destruct s as [p|[|f l]|[[|f l] t]|]; [now elim (N p)|..]; unfold new_media, from_sequence, wrap in H;
      destruct fps; try discriminate H; cbn [a_frames] in H; exists f, l; (split; [eauto|]);
      destruct ref; cbn [bind] in H; try discriminate H;
      try (destruct (forallb colored (f :: l)); cbn [bind] in H; [|discriminate H]);
      injection H as <-; repeat split.
  Qed.
  (** A video without frames is a RuntimeError, one without a video stream an
      AttributeError, and errors of the libraries are passed on. *)
  Theorem c110_path_errors p ref fps :
    (forall e, files p = Err e -> new (FromPath p) ref fps = Err e) /\
    (forall v, files p = Ok v ->
      (v_first v = None -> new (FromPath p) ref fps = Err RuntimeError) /\
      (v_first v <> None -> v_stream v = None -> new (FromPath p) ref fps = Err AttributeError)).
  Proof.
    unfold new_media, from_path. split; [intros e ->; reflexivity|]. intros v ->. cbn [bind].
    split; [intros ->; reflexivity|]. destruct (v_first v) as [[f d]|]; [|congruence]. now intros _ ->.
  Qed.

  (** The time of a file defaults to its modification; the rate argument is not used. *)
  Theorem c110_path p ref fps fps' m : new (FromPath p) ref fps = Ok m ->
    new (FromPath p) ref fps' = Ok m /\ m_path m = Some p /\
    exists v s f d, files p = Ok v /\ m_ref m = Some (match ref with Stamp z => z | _ => v_mtime v end) /\
      v_first v = Some (f, d) /\ v_stream v = Some s /\ m_resolution m = resolution f /\
      a_frames (m_arr m) = v_frames v /\ frame_rate s = Ok (m_fps m) /\ frame_count d s = Ok (m_nframes m) /\
      a_times (m_arr m) = Some (linspace 0 (duration m) (length (v_frames v))).
  Proof.
    intros H. split; [exact H|]. revert H. unfold new_media, from_path.
    destruct (files p) as [v|]; cbn [bind]; [|discriminate].
    destruct (v_first v) as [[f d]|] eqn:V1; [|discriminate].
    destruct (v_stream v) as [s|] eqn:V2; cbn [bind]; [|discriminate].
    destruct (frame_rate s) eqn:V3; cbn [bind]; [|discriminate].
    destruct (frame_count d s) eqn:V4; cbn [bind]; [|discriminate].
    unfold wrap. destruct (forallb colored (v_frames v)); cbn [bind]; [|discriminate].
    destruct ref; cbn [bind]; try discriminate; intros [= <-]; (split; [reflexivity|]);
      exists v, s, f, d; repeat split; assumption.
  Qed.

  (** Saving and loading gives the same object, as long as the file is unchanged. *)
  Theorem c111_roundtrip s ref fps m : new s ref fps = Ok m ->
    from_tree resolution colored files (to_tree m) = Ok m.
  Proof.
    destruct s as [p|l|a|]; [| | |discriminate].
    - unfold new_media, from_path.
      destruct (files p) as [v|] eqn:V; cbn [bind]; [|discriminate].
      destruct (v_first v) as [[f d]|] eqn:V1; [|discriminate].
      destruct (v_stream v) as [s|] eqn:V2; cbn [bind]; [|discriminate].
      destruct (frame_rate s) as [r|] eqn:V3; cbn [bind]; [|discriminate].
      destruct (frame_count d s) as [n|] eqn:V4; cbn [bind]; [|discriminate].
      destruct (wrap colored (v_frames v) r) as [w|] eqn:V5; cbn [bind]; [|discriminate].
      destruct ref; cbn [bind]; try discriminate; intros [= <-];
        unfold from_tree, to_tree; cbn [m_path m_ref m_fps t_data t_file t_ref t_fps bind];
        unfold new_media, from_path; rewrite V; cbn [bind]; rewrite V1, V2; cbn [bind];
        rewrite V3; cbn [bind]; rewrite V4; cbn [bind]; rewrite V5; reflexivity.
    - unfold new_media, from_sequence, wrap. destruct fps; [|discriminate].
      destruct l as [|f l]; [discriminate|].
      destruct ref; cbn [bind]; try discriminate;
        (destruct (forallb colored (f :: l)); cbn [bind]; [|discriminate]); now intros [= <-].
    - unfold new_media, from_sequence. destruct fps; [|discriminate].
      destruct a as [[|f l] t]; cbn [a_frames]; [discriminate|].
      destruct ref; cbn [bind]; try discriminate; now intros [= <-].
  Qed.
  Theorem c111_tree (m : @media F Path) :
    (t_file (to_tree m) = m_path m) /\ (t_data (to_tree m) = None <-> m_path m <> None) /\
    t_n (to_tree m) = length (a_frames (m_arr m)) /\ t_fps (to_tree m) = m_fps m /\
    t_resolution (to_tree m) = m_resolution m /\ t_ref (to_tree m) = m_ref m.
  Proof.
    unfold to_tree. destruct (m_path m); cbn; repeat split; intros; try congruence.
  Qed.
  Theorem c111_malformed (t : @tree F Path) : t_file t = None -> t_data t = None ->
    from_tree resolution colored files t = Err RuntimeError.
  Proof. intros A B. unfold from_tree. now rewrite A, B. Qed.
End Media.
Print Assumptions c110_times.
Print Assumptions c110_frame_time_refuted.
Print Assumptions c110_duration.
Print Assumptions c110_accepts.
Print Assumptions c110_array.
Print Assumptions c110_errors.
Print Assumptions c110_path.
Print Assumptions c110_sequence.
Print Assumptions c110_path_errors.
Print Assumptions c111_roundtrip.
Print Assumptions c111_tree.
Print Assumptions c111_malformed.

(** The rate and the count of a stream. *)
Theorem c111_rate s r : frame_rate s = Ok r <->
  (num (st_rate s) <> 0%Z /\ den (st_rate s) <> 0%Z /\ r = IZR (num (st_rate s)) / IZR (den (st_rate s))) \/
  ((num (st_rate s) = 0%Z \/ den (st_rate s) = 0%Z) /\ num (st_base s) <> 0%Z /\ den (st_base s) <> 0%Z /\
   r = IZR (den (st_base s)) / IZR (num (st_base s))).
Proof.
  unfold frame_rate, usable, value.
  destruct (Z.eqb_spec (den (st_rate s)) 0), (Z.eqb_spec (num (st_rate s)) 0),
    (Z.eqb_spec (den (st_base s)) 0), (Z.eqb_spec (num (st_base s)) 0); cbn [negb andb];
    split; intros H; try discriminate; try tauto.
  all: try (injection H as <-).
  all: try (left; repeat split; congruence).
  all: try (right; repeat split; try tauto; field; split; now apply not_0_IZR).
  all: destruct H as [(? & ? & ->)|(? & ? & ? & ->)]; try tauto; try reflexivity; try contradiction.
  all: f_equal; field; split; now apply not_0_IZR.
Qed.
Print Assumptions c111_rate.
Theorem c111_count d s : 
  (st_frames s <> 0%Z -> frame_count d s = Ok (Some (st_frames s))) /\
  (st_frames s = 0%Z -> (frame_count d s = Ok None <->
     (st_duration s = None \/ st_duration s = Some 0%Z) /\ (d = None \/ d = Some 0%Z))).
Proof.
  unfold frame_count. split; intros H; [now rewrite (proj2 (Z.eqb_neq _ _) H)|]. rewrite H, Z.eqb_refl. cbn [negb].
  assert (G : forall o, given o = None <-> o = None \/ o = Some 0%Z).
  { intros [z|]; unfold given; [|tauto]. destruct (Z.eqb_spec z 0).
    - subst. tauto.
    - split; [discriminate|]. intros [[=]|[=]]; contradiction. }
  rewrite <- !G. destruct (given (st_duration s)), (given d), (frame_rate s); cbn [bind];
    split; try discriminate; try (intros [? ?]; discriminate); auto.
Qed.
Print Assumptions c111_count.

Lemma trunc_floor x : 0 <= x -> IZR (trunc x) <= x < IZR (trunc x) + 1.
Proof.
  intros H. unfold trunc. destruct (Rle_dec 0 x); [|contradiction].
  destruct (base_Int_part x). lra.
Qed.
Lemma trunc_0 : trunc 0 = 0%Z.
Proof.
  destruct (trunc_floor 0 (Rle_refl 0)) as [A B].
  apply (le_IZR _ 0) in A. assert (0 < IZR (trunc 0 + 1)) as C by (rewrite plus_IZR; lra).
  apply (lt_IZR 0) in C. lia.
Qed.
Lemma pts_floor p b r : 0 <= IZR p * b * r ->
  IZR (pts_to_frame p b r 0) <= IZR p * b * r < IZR (pts_to_frame p b r 0) + 1.
Proof.
  intros H. unfold pts_to_frame. rewrite !Rmult_0_l, trunc_0, Z.sub_0_r. now apply trunc_floor.
Qed.
(** A missing count is the number of whole frames that fit into the duration: the one of
    the stream in its time base, else the other one in microseconds. *)
Theorem c111_whole d s r n : st_frames s = 0%Z -> frame_rate s = Ok r -> 0 <= r ->
  (forall z, st_duration s = Some z -> z <> 0%Z -> 0 <= IZR z * value (st_base s) ->
     exists n, frame_count d s = Ok (Some n) /\
       IZR n <= IZR z * value (st_base s) * r < IZR n + 1) /\
  (st_duration s = None -> d = Some (Zpos n) ->
     exists k, frame_count d s = Ok (Some k) /\ IZR k <= IZR (Zpos n) / 1000000 * r < IZR k + 1).
Proof.
  intros F G P. unfold frame_count. rewrite F, Z.eqb_refl, G. cbn [negb bind]. split.
  - intros z D N B. rewrite D. cbn [given]. rewrite (proj2 (Z.eqb_neq _ _) N).
    eexists. split; [reflexivity|]. apply pts_floor. now apply Rmult_le_pos.
  - intros -> ->. cbn [given Z.eqb]. eexists. split; [reflexivity|].
    assert (0 < IZR (Zpos n)) by now apply (IZR_lt 0).
    replace (IZR (Zpos n) / 1000000) with (IZR (Zpos n) * (1 / 1000000)) by field.
    apply pts_floor. apply Rmult_le_pos; [lra|exact P].
Qed.
Print Assumptions c111_whole.
(** The count is not the number of frames of the file: it is what the stream says. *)
Theorem c111_nframes_refuted : exists (v : @video nat) m,
  new_media (Path := unit) (fun f => (f, f)) (fun _ => true) (fun _ => Ok v) (FromPath tt) NoRef None = Ok m /\
  m_nframes m <> Some (Z.of_nat (length (a_frames (m_arr m)))).
Proof.
  exists (Vi [1; 2]%nat (Some (1%nat, None)) (Some (St (Fr 25 1) (Fr 1 25) 3 None)) 0).
  eexists. split; [reflexivity|]. cbn. discriminate.
Qed.
Print Assumptions c111_nframes_refuted.

Example ex_c110 :
  exists m, new_media (Path := nat) (fun f : nat => (f, f)) (fun _ => true) (fun _ => Err KeyError)
    (FromList [4; 5; 6]%nat) (Stamp 7) (Some 2) = Ok m /\ duration m = 3 / 2 /\
    a_times (m_arr m) = Some (map (fun i => 0 + INR i * ((INR 3 / 2 - 0) / INR 2)) [0; 1; 2]%nat) /\
    m_resolution m = (4, 4)%nat.
Proof.
  eexists. split; [reflexivity|]. repeat split. unfold duration, duration_of. cbn. lra.
Qed.
Example ex_c111 : frame_rate (St (Fr 0 1) (Fr 1 25) 0 None) = Ok (1 / (1 / 25)).
Proof. reflexivity. Qed.
