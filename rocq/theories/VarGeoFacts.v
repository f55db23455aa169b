(** Lemmas for VarGeoProps.v. *)
From Coq Require Import Reals List ZArith Lia Lra Permutation.
From Verif Require Import Base RigidModel RigidSpec RigidFacts TraceModel TraceSpec TraceFacts TraceProps VarGeoModel.
From Verif Require GeoModel GeoSpec.
Import ListNotations.
Open Scope R_scope.

Definition section_at (v : varprofile profile) (t : trace) (pw x : R) (s : list vec) : Prop :=
  exists p d l, local_profile v (x / trace_length t * last (v_locations v) 0) = Ok p /\
    profile_raster p pw = Ok d /\ local_cs t x = Ok l /\
    s = map (fun q => vadd (mvec (l_ori l) (point_3d q)) (l_pos l)) d.

Lemma variable_sections_iff : forall v t pw xs secs,
  variable_sections v t pw xs = Ok secs <-> Forall2 (section_at v t pw) xs secs.
Proof.
  intros v t pw. induction xs as [|x xs IH]; intros secs; cbn [variable_sections].
  - split; intros H; [injection H as <-; constructor|inversion H; reflexivity].
  - unfold local_profile_data, transformed_data. split.
    + intros H. destruct (local_profile v _) as [p|] eqn:P; [|discriminate]. cbn [bind] in H.
      destruct (profile_raster p pw) as [d|] eqn:D; [|discriminate]. cbn [bind] in H.
      destruct (local_cs t x) as [l|] eqn:L; [|discriminate]. cbn [bind] in H.
      destruct (variable_sections v t pw xs) as [b|] eqn:B; [|discriminate]. cbn [bind] in H. injection H as <-.
      constructor; [|apply IH; reflexivity]. exists p, d, l. rewrite map_map. auto.
    + intros H. inversion H as [|? s ? r (p & d & l & P & D & L & ->) F]; subst.
      rewrite P. cbn [bind]. rewrite D. cbn [bind]. rewrite L. cbn [bind].
      rewrite (proj2 (IH r) F). cbn [bind]. rewrite map_map. reflexivity.
Qed.

Lemma f2_nth {A B : Type} (P : A -> B -> Prop) : forall l m a b, Forall2 P l m ->
  forall i, (i < length l)%nat -> P (nth i l a) (nth i m b).
Proof.
  intros l m a b F. induction F as [|x y l m H F IH]; intros i Li; cbn [length] in Li; [lia|].
  destruct i as [|i]; [exact H|]. cbn [nth]. apply IH. lia.
Qed.
Lemma f2_ex {A B : Type} (P : A -> B -> Prop) : forall l, (forall x, In x l -> exists y, P x y) -> exists m, Forall2 P l m.
Proof.
  induction l as [|x l IH]; intros H; [exists []; constructor|].
  destruct (H x (or_introl eq_refl)) as [y Y]. destruct IH as [m M]; [intros z Z; apply H; right; exact Z|].
  exists (y :: m). constructor; assumption.
Qed.

Lemma shape_rasters_stack : forall p w, profile_raster p w =
  bind (shape_rasters p w) (fun l => Ok (concat l)).
Proof.
  induction p as [|s p IH]; intros w; [reflexivity|]. cbn [profile_raster shape_rasters]. rewrite IH.
  destruct (GeoModel.rasterize s w); [|reflexivity]. cbn [bind]. destruct (shape_rasters p w); reflexivity.
Qed.
Lemma sections_iff : forall t d xs secs, sections t d xs = Ok secs <->
  Forall2 (fun x s => exists l, local_cs t x = Ok l /\ s = map (fun q => vadd (mvec (l_ori l) q) (l_pos l)) d) xs secs.
Proof.
  intros t d. induction xs as [|x xs IH]; intros secs; cbn [sections].
  - split; intros H; [injection H as <-; constructor|inversion H; reflexivity].
  - unfold transformed_data. split.
    + intros H. destruct (local_cs t x) as [l|] eqn:L; [|discriminate]. cbn [bind] in H.
      destruct (sections t d xs) as [b|] eqn:B; [|discriminate]. cbn [bind] in H. injection H as <-.
      constructor; [|apply IH; reflexivity]. exists l. auto.
    + intros H. inversion H as [|? s ? r (l & L & ->) F]; subst. rewrite L. cbn [bind].
      rewrite (proj2 (IH r) F). reflexivity.
Qed.
Lemma shape_sections_iff : forall t xs ds r, shape_sections t xs ds = Ok r <->
  Forall2 (fun d s => sections t d xs = Ok s) ds r.
Proof.
  intros t xs. induction ds as [|d ds IH]; intros r; cbn [shape_sections].
  - split; intros H; [injection H as <-; constructor|inversion H; reflexivity].
  - split.
    + intros H. destruct (sections t d xs) as [a|] eqn:L; [|discriminate]. cbn [bind] in H.
      destruct (shape_sections t xs ds) as [b|] eqn:B; [|discriminate]. cbn [bind] in H. injection H as <-.
      constructor; [exact L|apply IH; reflexivity].
    + intros H. inversion H as [|? s ? r' L F]; subst. rewrite L. cbn [bind].
      rewrite (proj2 (IH r') F). reflexivity.
Qed.

(** the sections of the stacked raster are the sections of the shapes one after another *)
Lemma sections_app : forall t d e xs, sections t (d ++ e) xs =
  bind (sections t d xs) (fun a => bind (sections t e xs) (fun b => Ok (map (fun p => fst p ++ snd p) (combine a b)))).
Proof.
  intros t d e. induction xs as [|x xs IH]; [reflexivity|]. cbn [sections]. unfold transformed_data. rewrite IH.
  destruct (local_cs t x) as [l|]; [|reflexivity]. cbn [bind].
  destruct (sections t d xs) as [a|]; [|reflexivity]. cbn [bind].
  destruct (sections t e xs) as [b|]; [|reflexivity]. cbn [bind combine map fst snd]. rewrite map_app. reflexivity.
Qed.
Lemma sections_length : forall t d xs s, sections t d xs = Ok s -> length s = length xs.
Proof. intros t d xs s H. apply sections_iff in H. symmetry. induction H; cbn; congruence. Qed.
Lemma combine_nth_app {A : Type} : forall (a b : list (list A)) i, length a = length b ->
  nth i (map (fun p => fst p ++ snd p) (combine a b)) [] = nth i a [] ++ nth i b [].
Proof.
  induction a as [|x a IH]; intros [|y b] i L; cbn in L; try lia; [destruct i; reflexivity|].
  destruct i as [|i]; [reflexivity|]. cbn. apply IH. lia.
Qed.
Lemma combine_perm {A : Type} : forall (a b : list (list A)), length a = length b ->
  Permutation (concat (map (fun p => fst p ++ snd p) (combine a b))) (concat a ++ concat b).
Proof.
  induction a as [|x a IH]; intros [|y b] L; cbn in L; try lia; [constructor|]. cbn [combine map concat fst snd].
  rewrite (IH b) by lia. rewrite <- !app_assoc. apply Permutation_app_head. rewrite !app_assoc.
  apply Permutation_app_tail. apply Permutation_app_comm.
Qed.
