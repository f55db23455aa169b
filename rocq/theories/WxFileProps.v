(** C49, C82 - C85: files on disk, schemas and copies. *)
From Coq Require Import List String Bool Arith Lia.
From Verif Require Import Base WxFileModel WxFileSpec WxFileFacts.
Import ListNotations.
Open Scope string_scope.

(** opening an ASDF file changes no file *)
Lemma open_untouched : forall valid i l m kw sync cs w w' r t, files w l = Some (CAsdf t) ->
  i = IHandle l \/ (exists p, i = IPath p /\ l = LPath p) -> init valid i m kw None sync cs w = (w', r) ->
  files w' l = Some (CAsdf t) /\ (forall f, r = Ok f -> h_tree f = t).
Proof.
  intros valid i l m kw sync cs w w' r t F I H. destruct r as [f|e].
  - apply init_ok in H. destruct H as (a & b & l' & created & w0 & w1 & _ & F0 & _ & HI & _ & _ & _ & _ & _ & _ & _ & _ & C).
    assert (L : l' = l /\ created = false).
    { destruct I as [->|(p & -> & ->)]; cbn in HI.
      - rewrite F0, F in HI. injection HI as _ <- <-. split; [reflexivity|]. destruct (mode_eqb m MReadWrite); reflexivity.
      - unfold handle_path in HI. rewrite F0, F in HI. destruct (mode_eqb m MReadWrite); injection HI as _ <- <-; auto. }
    destruct L as [-> ->]. apply input_same in HI. subst w1. rewrite F0 in C.
    destruct C as [(new & -> & [N|N] & _)|(_ & _ & _ & -> & G & _)]; [destruct N; reflexivity|discriminate|].
    split; [exact F|]. intros f' E. injection E as <-. congruence.
  - split; [|discriminate]. destruct l as [p|n].
    + rewrite (init_err _ _ _ _ _ _ _ _ _ _ H (LPath p)); [exact F|congruence|discriminate].
    + (* a handle *)
      destruct I as [->|(p & _ & ?)]; [|discriminate]. revert H. unfold init.
      destruct (match kw with None => new_dict w | Some k => (k, w) end) as [k wa] eqn:K.
      assert (FA : files wa = files w) by (destruct kw; injection K as <- <-; reflexivity).
      destruct (match kwargs wa k with None => (cs, wa) | Some s => (s, set_kw k None wa) end) as [cs' w0] eqn:C.
      assert (F0 : files w0 = files w) by (destruct (kwargs wa k); injection C as <- <-; cbn; exact FA).
      destruct (handle_schema cs') as [[a b]|]; [|intros E; injection E as <- <-; rewrite F0; exact F].
      destruct (mode_eqb m MOther); [intros E; injection E as <- <-; rewrite F0; exact F|].
      cbn [andb handle_input]. rewrite F0, F.
      replace (if mode_eqb m MReadWrite then false else false) with false by (destruct (mode_eqb m MReadWrite); reflexivity).
      cbn [orb]. assert (F2 : files (match a with Some s => set_kw k (Some (SOne s)) w0 | None => w0 end) (LBuf n) = Some (CAsdf t)) by (destruct a; cbn; rewrite F0; exact F).
      destruct (open_asdf _ _ _ _); [discriminate|]. intros E. injection E as <- <-. exact F2.
Qed.
Lemma write_file : forall valid f l w w', write_to valid f l w = (w', Ok tt) -> files w' l = Some (CAsdf (h_tree f)) /\ kwargs w' = kwargs w.
Proof.
  intros valid f l w w' H. unfold write_to in H. destruct (validate valid (h_schema f) (h_tree f)); [|discriminate].
  injection H as <-. split; [apply put_same|reflexivity].
Qed.

(** ** C49 *)
(** A file that is no ASDF file is not overwritten by [copy] unless asked to. *)
Theorem c49_refused : forall valid f p w c, files w (LPath p) = Some c -> ~ is_asdf c ->
  copy valid f (IPath p) false w = (w, Err FileExistsError).
Proof.
  intros valid f p w c F N. unfold copy, handle_path. rewrite F. destruct c; [reflexivity|destruct N; exact Logic.I|reflexivity].
Qed.
Print Assumptions c49_refused.
(** With [overwrite] the file gets the content of the copied one. *)
Theorem c49_overwrite : forall valid f p w, validate valid (h_schema f) (h_tree f) = Ok tt ->
  files (fst (copy valid f (IPath p) true w)) (LPath p) = Some (CAsdf (h_tree f)).
Proof.
  intros valid f p w VS. unfold copy.
  assert (E : exists w1 i, (match handle_path p MReadWrite w with
     | (w', Ok (l, _)) => (w', Ok (l, IHandle l))
     | (w', Err FileExistsError) => if negb true then (w', Err FileExistsError) else (w', Ok (LPath p, IPath p))
     | (w', Err e) => (w', Err e) end) = (w1, Ok (LPath p, i)) /\ (i = IHandle (LPath p) \/ exists q, i = IPath q /\ LPath p = LPath q)).
  { unfold handle_path. destruct (files w (LPath p)) as [[| |]|]; cbn; eexists; eexists; (split; [reflexivity|eauto]). }
  destruct E as (w1 & i & -> & I). destruct (write_to valid f (LPath p) w1) as [w2 [[]|e]] eqn:W.
  - destruct (init valid i (w_mode f) (Some (w_kwargs f)) None (w_sync f) (custom_schema f) w2) as [w3 r] eqn:N.
    apply write_file in W. apply (open_untouched _ _ _ _ _ _ _ _ _ _ _ (proj1 W) I N).
  - unfold write_to in W. rewrite VS in W. discriminate.
Qed.
Print Assumptions c49_overwrite.
(** An existing ASDF file is overwritten in any case, and so is the target of
    [write_to]. *)
Theorem c49_asdf_refuted : forall valid f p w old, files w (LPath p) = Some (CAsdf old) ->
  validate valid (h_schema f) (h_tree f) = Ok tt ->
  files (fst (copy valid f (IPath p) false w)) (LPath p) = Some (CAsdf (h_tree f)).
Proof.
  intros valid f p w old F VS. unfold copy, handle_path. rewrite F. cbn [mode_eqb].
  destruct (write_to valid f (LPath p) w) as [w2 [[]|e]] eqn:W.
  - destruct (init valid (IHandle (LPath p)) (w_mode f) (Some (w_kwargs f)) None (w_sync f) (custom_schema f) w2) as [w3 r] eqn:N.
    apply write_file in W. apply (open_untouched _ _ _ _ _ _ _ _ _ _ _ (proj1 W) (or_introl eq_refl) N).
  - unfold write_to in W. rewrite VS in W. discriminate.
Qed.
Print Assumptions c49_asdf_refuted.
Theorem c49_write_to : forall valid f l w, validate valid (h_schema f) (h_tree f) = Ok tt ->
  files (fst (write_to valid f l w)) l = Some (CAsdf (h_tree f)).
Proof. intros valid f l w VS. unfold write_to. rewrite VS. apply put_same. Qed.
Print Assumptions c49_write_to.
(** The constructor never changes a file that is no ASDF file. *)
Theorem c49_constructor : forall valid i m kw t sync cs w p c, files w (LPath p) = Some c -> ~ is_asdf c -> i <> IHandle (LPath p) ->
  untouched (LPath p) w (fst (init valid i m kw t sync cs w)).
Proof.
  intros valid i m kw t sync cs w p c F N NI. destruct (init valid i m kw t sync cs w) as [w' [f|e]] eqn:H; cbn [fst]; unfold untouched.
  - apply init_ok in H. destruct H as (a & b & l & created & w0 & w1 & _ & F0 & B0 & HI & _ & _ & _ & _ & _ & _ & _ & _ & C).
    pose proof (proj2 (input_files _ _ _ _ _ HI) (LPath p)) as FI. rewrite F0 in FI.
    assert (F1 : files w1 (LPath p) = files w (LPath p)) by (apply FI; [congruence|discriminate]).
    destruct C as [(new & _ & _ & _ & _ & _ & _ & -> & O)|(_ & _ & _ & -> & _)]; [|exact F1].
    rewrite put_other; [exact F1|]. intros <-. destruct created.
    + apply input_created in HI. destruct HI as (_ & _ & _ & [->|[(q & -> & Q & Z)|[-> Q]]]); [apply NI; reflexivity| |discriminate].
      injection Q as <-. congruence.
    + destruct (O eq_refl) as (old & G & _). rewrite F1, F in G. injection G as ->. apply N. exact Logic.I.
  - apply (init_err _ _ _ _ _ _ _ _ _ _ H); [congruence|discriminate].
Qed.
Print Assumptions c49_constructor.
Definition w0 : world := World (fun l => match l with LPath "a.wx" => Some (CAsdf [("x", 1)]) | LPath "t.txt" => Some (COther 3) | _ => None end) 0 (fun _ => None) 0.
Definition any : schema -> tree -> bool := fun _ _ => true.
Example c49_ex : exists f w1, init any (IPath "b.wx") MReadWrite None (Some [("y", 2)]) true SNone w0 = (w1, Ok f) /\
  snd (copy any f (IPath "t.txt") false w1) = Err FileExistsError /\
  files (fst (copy any f (IPath "a.wx") false w1)) (LPath "a.wx") = Some (CAsdf [("y", 2)]).
Proof. eexists. eexists. split; [reflexivity|]. split; reflexivity. Qed.

(** ** C82 The file and its content *)
(** After the constructor the file contains the tree of the object. *)
Theorem c82_in_sync : forall valid i m kw t sync cs w w' f, init valid i m kw t sync cs w = (w', Ok f) ->
  files w' (w_loc f) = Some (CAsdf (h_tree f)) /\
  (forall x r, t = Some (x :: r) -> h_tree f = x :: r).
Proof.
  intros valid i m kw t sync cs w w' f H. apply init_ok in H.
  destruct H as (a & b & l & created & w0' & w1 & _ & _ & _ & _ & -> & _ & _ & _ & _ & _ & _ & _ & C).
  destruct C as [(new & -> & _ & _ & -> & _ & _ & -> & _)|(_ & T & _ & -> & G & _)].
  - split; [apply put_same|]. intros x r ->. reflexivity.
  - split; [exact G|]. intros x r ->. destruct T; discriminate.
Qed.
Print Assumptions c82_in_sync.
(** Closing writes the changed content, if the file is synchronised ... *)
Theorem c82_close : forall valid f t w w', w_mode f = MReadWrite -> w_sync f = true ->
  close valid (with_tree f t) w = (w', Ok tt) ->
  files w' (w_loc f) = Some (CAsdf t) /\ forall l, l <> w_loc f -> untouched l w w'.
Proof.
  intros valid f t w w' M S H. unfold close, sync in H. cbn [with_tree w_mode w_sync h_schema h_tree w_loc] in H. rewrite M, S in H. cbn in H.
  destruct (validate valid (h_schema f) t); [|discriminate]. injection H as <-. split; [apply put_same|].
  intros l N. apply put_other. exact N.
Qed.
Print Assumptions c82_close.
(** ... and nothing otherwise. *)
Theorem c82_no_sync : forall valid f w, w_sync f = false -> close valid f w = (w, Ok tt).
Proof. intros valid f w S. unfold close. rewrite S, andb_false_r. reflexivity. Qed.
Print Assumptions c82_no_sync.
(** A file that is opened for reading is never changed, whatever happens to the
    object. *)
Theorem c82_read_only : forall valid i kw t sync cs w l, files w l <> None -> (forall n, l = LBuf n -> n < buffers w) ->
  untouched l w (fst (init valid i MRead kw t sync cs w)) /\
  forall f w' t' w'', init valid i MRead kw t sync cs w = (w', Ok f) ->
    close valid (with_tree f t') w'' = (w'', Ok tt) /\ WxFileModel.sync valid (with_tree f t') w'' = (w'', Err ValueError).
Proof.
  intros valid i kw t sync cs w l L B. split.
  - destruct (init valid i MRead kw t sync cs w) as [w' [f|e]] eqn:H; cbn [fst]; unfold untouched.
    + apply init_ok in H. destruct H as (a & b & l' & created & w0' & w1 & _ & F0 & B0 & HI & _ & _ & _ & _ & _ & _ & _ & _ & C).
      pose proof (proj2 (input_files _ _ _ _ _ HI) l) as FI. rewrite F0, B0 in FI. specialize (FI L B).
      destruct C as [(new & _ & OR & MR & _ & _ & _ & -> & _)|(_ & _ & _ & -> & _)]; [|exact FI].
      destruct OR as [N| ->]; [specialize (MR N); discriminate|].
      pose proof (input_created _ _ _ _ _ HI) as (_ & _ & _ & K). rewrite put_other; [exact FI|]. intros ->.
      destruct K as [->|[(q & -> & -> & Z)|[-> ->]]].
      * cbn in HI. discriminate.
      * rewrite F0 in Z. congruence.
      * specialize (B _ eq_refl). lia.
    + apply (init_err _ _ _ _ _ _ _ _ _ _ H); assumption.
  - intros f w' t' w'' H. apply init_ok in H. destruct H as (a & b & l' & created & w0' & w1 & _ & _ & _ & _ & _ & M & _).
    unfold close, WxFileModel.sync. cbn [with_tree w_mode w_sync h_schema h_tree w_loc]. rewrite M. auto.
Qed.
Print Assumptions c82_read_only.
(** What is written, changed and closed can be read again. *)
Theorem c82_round_trip : forall valid p t t' w w1 w2 f, files w (LPath p) = None ->
  init valid (IPath p) MReadWrite None (Some t) true SNone w = (w1, Ok f) ->
  close valid (with_tree f t') w1 = (w2, Ok tt) ->
  exists w3 g, init valid (IPath p) MRead None None true SNone w2 = (w3, Ok g) /\ h_tree g = t' /\ untouched (LPath p) w2 w3.
Proof.
  intros valid p t t' w w1 w2 f F H C. pose proof H as H'. apply init_ok in H'.
  destruct H' as (a & b & l & created & w0' & w1' & HS & F0 & _ & HI & L & M & _ & S & _).
  assert (LP : w_loc f = LPath p).
  { cbn in HI. unfold handle_path in HI. rewrite F0, F in HI. cbn in HI. injection HI as _ <- _. exact L. }
  apply c82_close in C; [|exact M|rewrite S; reflexivity]. destruct C as [C _]. rewrite LP in C.
  destruct (init valid (IPath p) MRead None None true SNone w2) as [w3 r] eqn:R.
  pose proof (open_untouched _ _ _ _ _ _ _ _ _ _ _ C (or_intror (ex_intro _ p (conj eq_refl eq_refl))) R) as [A B].
  unfold init in R. cbn in R. rewrite Nat.eqb_refl in R. cbn in R. unfold handle_path in R. cbn in R. rewrite C in R. cbn in R.
  rewrite Nat.eqb_refl in R. unfold open_asdf in R. cbn in R. rewrite C in R. cbn in R. injection R as <- <-.
  eexists. eexists. split; [reflexivity|]. split; [reflexivity|]. unfold untouched. rewrite C. exact A.
Qed.
Print Assumptions c82_round_trip.
(** An empty tree does not replace the content of an existing file. *)
Theorem c82_empty_refuted : exists f w', init any (IPath "a.wx") MReadWrite None (Some []) true SNone w0 = (w', Ok f) /\
  h_tree f = [("x", 1)] /\ files w' (LPath "a.wx") = Some (CAsdf [("x", 1)]).
Proof. eexists. eexists. split; [reflexivity|]. split; reflexivity. Qed.
Print Assumptions c82_empty_refuted.
Example c82_ex : exists f w1 w2, init any (IPath "b.wx") MReadWrite None (Some [("y", 2)]) true SNone w0 = (w1, Ok f) /\
  close any (with_tree f [("y", 3)]) w1 = (w2, Ok tt) /\ files w2 (LPath "b.wx") = Some (CAsdf [("y", 3)]).
Proof. eexists. eexists. eexists. split; [reflexivity|]. split; reflexivity. Qed.

(** ** C83 Custom schemas *)
(** With one schema for both purposes the content of every file that was opened or
    written is valid. *)
Theorem c83_single : forall valid i m kw t sync cs w w' f s, init valid i m kw t sync cs w = (w', Ok f) ->
  handle_schema (effective kw cs w) = Ok (s, s) ->
  satisfies valid s (h_tree f) /\ one_schema f s w' /\
  forall t' l w1 w2, write_to valid (with_tree f t') l w1 = (w2, Ok tt) \/ WxFileModel.sync valid (with_tree f t') w1 = (w2, Ok tt) -> satisfies valid s t'.
Proof.
  intros valid i m kw t sync cs w w' f s H E. apply init_ok in H.
  destruct H as (a & b & l & created & w0' & w1 & HS & _ & _ & _ & _ & _ & _ & _ & R & W & _ & K & C).
  rewrite E in HS. injection HS as <- <-.
  assert (HH : h_schema f = option_map SOne s) by (destruct C as [(? & _ & _ & _ & _ & A & _)|(_ & _ & A & _)]; exact A).
  split; [destruct C as [(? & _ & _ & _ & -> & _ & A & _)|(_ & _ & _ & _ & _ & A)]; exact A|].
  split; [split; [exact R|split; [exact W|split; [exact HH|rewrite K; exact HH]]]|].
  intros t' l' w2 w3 [Q|Q].
  - unfold write_to in Q. cbn [with_tree h_schema h_tree] in Q. rewrite HH in Q.
    destruct (validate valid (option_map SOne s) t') as [[]|] eqn:VS; [apply validate_ok; exact VS|discriminate].
  - unfold WxFileModel.sync in Q. cbn [with_tree h_schema h_tree w_mode] in Q. destruct (negb _); [discriminate|]. rewrite HH in Q.
    destruct (validate valid (option_map SOne s) t') as [[]|] eqn:VS; [apply validate_ok; exact VS|discriminate].
Qed.
Print Assumptions c83_single.
(** The schema for writing is used when a tree is passed to the constructor or the
    file is new, that for reading when the file is opened. *)
Theorem c83_roles : forall valid i m kw t sync cs w w' f r s, init valid i m kw t sync cs w = (w', Ok f) ->
  handle_schema (effective kw cs w) = Ok (r, s) ->
  (h_schema f = option_map SOne s /\ satisfies valid s (h_tree f)) \/
  (t = None \/ t = Some []) /\ h_schema f = option_map SOne r /\ satisfies valid r (h_tree f).
Proof.
  intros valid i m kw t sync cs w w' f r s H E. apply init_ok in H.
  destruct H as (a & b & l & created & w0' & w1 & HS & _ & _ & _ & _ & _ & _ & _ & _ & _ & _ & _ & C).
  rewrite E in HS. injection HS as <- <-. destruct C as [(? & _ & _ & _ & -> & A & B & _)|(_ & T & A & _ & _ & B)]; auto.
Qed.
Print Assumptions c83_roles.
(** But an opened file is written with the schema for reading: valid content is
    refused and invalid content written. *)
Definition by_key : schema -> tree -> bool := fun s t => smem s (dkeys t).
Theorem c83_opened_refuted : exists f w1,
  init by_key (IPath "a.wx") MReadWrite None None true (SSeq [Some "x"; Some "y"]) w0 = (w1, Ok f) /\
  w_write f = Some "y" /\
  (by_key "y" [("y", 1)] = true /\ snd (close by_key (with_tree f [("y", 1)]) w1) = Err ValidationError) /\
  (by_key "y" [("x", 5)] = false /\ files (fst (close by_key (with_tree f [("x", 5)]) w1)) (LPath "a.wx") = Some (CAsdf [("x", 5)])).
Proof. eexists. eexists. split; [reflexivity|]. split; [reflexivity|]. split; split; reflexivity. Qed.
Print Assumptions c83_opened_refuted.
(** And replacing the content of a file requires the old content to be valid for the
    schema for writing. *)
Theorem c83_replaced_refuted : by_key "y" [("y", 1)] = true /\
  snd (init by_key (IPath "a.wx") MReadWrite None (Some [("y", 1)]) true (SSeq [None; Some "y"]) w0) = Err ValidationError.
Proof. split; reflexivity. Qed.
Print Assumptions c83_replaced_refuted.
Theorem c83_malformed : forall valid i m t sync l w, List.length l <> 2 ->
  snd (init valid i m None t sync (SSeq l) w) = Err ValueError.
Proof.
  intros valid i m t sync l w N. unfold init. cbn. rewrite Nat.eqb_refl. destruct l as [|? [|? [|]]]; cbn in *; try reflexivity. congruence.
Qed.
Print Assumptions c83_malformed.
Example c83_ex : exists f w1, init by_key INothing MReadWrite None (Some [("s", 1)]) true (SOne "s") w0 = (w1, Ok f) /\
  snd (close by_key (with_tree f [("q", 1)]) w1) = Err ValidationError.
Proof. eexists. eexists. split; reflexivity. Qed.

(** ** C84 Copies *)
(** A copy has the content and settings of the file, if that has one schema. *)
Theorem c84_copy : forall valid f s i overwrite w w' g, one_schema f s w -> copy valid f i overwrite w = (w', Ok g) ->
  h_tree g = h_tree f /\ w_mode g = w_mode f /\ one_schema g s w' /\
  (w_mode f = MReadWrite -> w_sync g = w_sync f) /\ files w' (w_loc g) = Some (CAsdf (h_tree f)).
Proof.
  intros valid f s i overwrite w w' g (R & W & HH & K) H. unfold copy in H.
  destruct (match i with INothing => let (l, w') := new_buffer w in (w', Ok (l, IHandle l)) | _ => _ end) as [w1 r] eqn:T.
  assert (T' : forall l j, r = Ok (l, j) -> kwargs w1 = kwargs w /\ (j = IHandle l \/ exists p, j = IPath p /\ l = LPath p)).
  { intros l j ->. destruct i as [|p|l'].
    - cbn in T. injection T as <- <- <-. auto.
    - unfold handle_path in T. destruct (files w (LPath p)) as [[| |]|]; cbn in T; try (destruct overwrite; cbn in T);
        try discriminate; injection T as <- <- <-; eauto.
    - injection T as <- <- <-. auto. }
  destruct r as [[l j]|]; [|discriminate]. destruct (T' l j eq_refl) as [K1 J]. clear T T'.
  destruct (write_to valid f l w1) as [w2 [[]|]] eqn:WT; [|discriminate]. apply write_file in WT. destruct WT as [F2 K2].
  pose proof (open_untouched _ _ _ _ _ _ _ _ _ _ _ F2 J H) as [F3 TR]. specialize (TR g eq_refl).
  assert (EF : effective (Some (w_kwargs f)) (custom_schema f) w2 = match s with Some x => SOne x | None => SNone end).
  { unfold effective. rewrite K2, K1, K. destruct s; [reflexivity|]. unfold custom_schema. rewrite R, W. reflexivity. }
  assert (HS : handle_schema (effective (Some (w_kwargs f)) (custom_schema f) w2) = Ok (s, s)) by (rewrite EF; destruct s; reflexivity).
  pose proof (c83_single _ _ _ _ _ _ _ _ _ _ _ H HS) as (_ & OS & _).
  pose proof (c82_in_sync _ _ _ _ _ _ _ _ _ _ H) as [G _].
  apply init_ok in H. destruct H as (a & b & l' & created & w0' & w1' & _ & _ & _ & _ & L & M & _ & S & _).
  split; [exact TR|]. split; [exact M|]. split; [exact OS|]. split; [|rewrite G, TR; reflexivity].
  intros MM. rewrite S, MM. cbn. apply andb_true_r.
Qed.
Print Assumptions c84_copy.
(** The property [custom_schema] is a value of the parameter of the same name that stands
    for the two schemas of the file. *)
Theorem c84_property : forall f, handle_schema (custom_schema f) = Ok (w_read f, w_write f).
Proof.
  intros f. unfold custom_schema. destruct (w_read f) as [a|], (w_write f) as [b|]; try reflexivity.
  destruct (String.eqb_spec a b) as [->|]; reflexivity.
Qed.
Print Assumptions c84_property.
Theorem c84_property_single : forall f, (w_read f = w_write f <-> ~ exists l, custom_schema f = SSeq l).
Proof.
  intros f. unfold custom_schema. destruct (w_read f) as [a|], (w_write f) as [b|].
  - destruct (String.eqb_spec a b) as [->|N]; split; intros H; try reflexivity.
    + intros [l E]; discriminate.
    + congruence.
    + exfalso. apply H. eauto.
  - split; intros H; [discriminate|]. exfalso. apply H. eauto.
  - split; intros H; [discriminate|]. exfalso. apply H. eauto.
  - split; intros H; [|reflexivity]. intros [l E]; discriminate.
Qed.
Print Assumptions c84_property_single.
(** With two schemas the copy has one of them for both purposes. *)
Theorem c84_schemas_refuted : exists f w1 g w2,
  init by_key INothing MReadWrite None (Some [("y", 1)]) true (SSeq [Some "x"; Some "y"]) w0 = (w1, Ok f) /\
  copy by_key f INothing false w1 = (w2, Ok g) /\
  (w_read f, w_write f) = (Some "x", Some "y") /\ (w_read g, w_write g) = (Some "y", Some "y").
Proof. eexists. eexists. eexists. eexists. split; [reflexivity|]. split; [reflexivity|]. split; reflexivity. Qed.
Print Assumptions c84_schemas_refuted.
(** A dictionary of keyword arguments that is used twice passes the schema of the
    first file on to the second one. *)
Theorem c84_shared_refuted : exists f w2,
  let w := World (files w0) 0 (fun _ => None) 1 in
  init by_key (IPath "a.wx") MRead (Some 0) None true (SOne "x") w = (w2, Ok f) /\
  kwargs w 0 = None /\ kwargs w2 0 = Some (SOne "x") /\
  snd (init by_key INothing MReadWrite (Some 0) (Some [("y", 2)]) true SNone w2) = Err ValidationError /\
  is_ok (snd (init by_key INothing MReadWrite None (Some [("y", 2)]) true SNone w2)) = true.
Proof. eexists. eexists. cbv zeta. split; [reflexivity|]. repeat split; reflexivity. Qed.
Print Assumptions c84_shared_refuted.
Example c84_ex : exists f w1, init by_key INothing MReadWrite None (Some [("s", 1)]) true (SOne "s") w0 = (w1, Ok f) /\ one_schema f (Some "s") w1 /\
  is_ok (snd (copy by_key f (IPath "new.wx") false w1)) = true.
Proof. eexists. eexists. split; [reflexivity|]. split; [|reflexivity]. repeat split. Qed.

(** ** C85 Failing constructors *)
(** Existing files are not changed by a failing constructor. *)
Theorem c85_existing : forall valid i m kw t sync cs w w' e, init valid i m kw t sync cs w = (w', Err e) ->
  forall p, files w (LPath p) <> None -> untouched (LPath p) w w'.
Proof. intros valid i m kw t sync cs w w' e H p F. apply (init_err _ _ _ _ _ _ _ _ _ _ H); [exact F|discriminate]. Qed.
Print Assumptions c85_existing.
(** But it may leave an empty file, which makes a second attempt fail. *)
Theorem c85_trace_refuted :
  let first := init by_key (IPath "new.wx") MReadWrite None (Some [("a", 1)]) true (SOne "s") w0 in
  snd first = Err ValidationError /\ files w0 (LPath "new.wx") = None /\ files (fst first) (LPath "new.wx") = Some CEmpty /\
  snd (init by_key (IPath "new.wx") MReadWrite None (Some [("s", 1)]) true (SOne "s") (fst first)) = Err FileExistsError /\
  is_ok (snd (init by_key (IPath "new.wx") MReadWrite None (Some [("s", 1)]) true (SOne "s") w0)) = true.
Proof. cbv zeta. repeat split; reflexivity. Qed.
Print Assumptions c85_trace_refuted.
(** Wrong modes and trees for read only files are refused before any file is
    touched. *)
Theorem c85_refused : forall valid i m t sync cs w a b, handle_schema cs = Ok (a, b) ->
  m = MOther \/ (m = MRead /\ exists x r, t = Some (x :: r)) ->
  is_ok (snd (init valid i m None t sync cs w)) = false /\ files (fst (init valid i m None t sync cs w)) = files w.
Proof.
  intros valid i m t sync cs w a b HS M. unfold init. cbn. rewrite Nat.eqb_refl, HS.
  destruct M as [->|(-> & x & r & ->)]; cbn; auto.
Qed.
Print Assumptions c85_refused.
