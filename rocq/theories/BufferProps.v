(** Properties of the arguments for reading asdf files and of headers. *)
From Coq Require Import List String Ascii Bool Arith Lia.
From Verif Require Import Base BufferModel.
Import ListNotations.
Open Scope string_scope.

(** Numbers as text: digits without superfluous zeros. *)
Definition digit (a : ascii) : Prop := In a ["0"; "1"; "2"; "3"; "4"; "5"; "6"; "7"; "8"; "9"]%char.
Definition nonzero (a : ascii) : Prop := In a ["1"; "2"; "3"; "4"; "5"; "6"; "7"; "8"; "9"]%char.
Fixpoint digits (s : string) : Prop := match s with EmptyString => True | String a r => digit a /\ digits r end.
Definition numeral (s : string) : Prop :=
  match s with EmptyString => False | String a r => (nonzero a /\ digits r) \/ (a = "0"%char /\ r = "") end.

Lemma split_digits s : digits s -> forall t, split "." (s ++ String "." t) = s :: split "." t.
Proof.
  induction s as [|a s IH]; intros D t; [reflexivity|]. destruct D as [A D]. cbn [append split].
  rewrite (IH D). repeat (destruct A as [<-|A]; [reflexivity|]). contradiction.
Qed.
Lemma split_last s : digits s -> split "." s = [s].
Proof.
  induction s as [|a s IH]; intros D; [reflexivity|]. destruct D as [A D]. cbn [split].
  rewrite (IH D). repeat (destruct A as [<-|A]; [reflexivity|]). contradiction.
Qed.
Lemma numeral_digits s : numeral s -> digits s.
Proof.
  destruct s as [|a s]; [intros []|]. intros [[A D]|[-> ->]]; [|repeat split; now left].
  split; [right; exact A|exact D].
Qed.
Lemma minor_cmp b : numeral b -> match String.compare b "1" with
  | Lt => b = "0" | Eq => b = "1" | Gt => b <> "0" /\ b <> "1" end.
Proof.
  destruct b as [|a b]; [intros []|]. intros [[A D]|[-> ->]]; [|reflexivity].
  repeat (destruct A as [<-|A]; [destruct b; cbn; try reflexivity; split; discriminate|]). contradiction.
Qed.
Lemma patch_cmp c : numeral c -> tuple_lt [c] ["0"] = false.
Proof.
  destruct c as [|a c]; [intros []|]. intros [[A D]|[-> ->]]; [|reflexivity].
  repeat (destruct A as [<-|A]; [reflexivity|]). contradiction.
Qed.

(** Versions with three numbers are old if the text of the first number is smaller than "3",
    or if they are 3.0. *)
Theorem c117_versions : forall a b c, numeral a -> numeral b -> numeral c ->
  old_asdf (a ++ "." ++ b ++ "." ++ c) = true <-> String.compare a "3" = Lt \/ (a = "3" /\ b = "0").
Proof.
  intros a b c A B C. unfold old_asdf. change ("." ++ b ++ "." ++ c) with (String "." (b ++ String "." c)).
  rewrite split_digits by now apply numeral_digits. rewrite split_digits by now apply numeral_digits.
  rewrite split_last by now apply numeral_digits.
  change (tuple_lt [a; b; c] ["3"; "1"; "0"]) with
    (match String.compare a "3" with Lt => true | Gt => false | Eq =>
       match String.compare b "1" with Lt => true | Gt => false | Eq => tuple_lt [c] ["0"] end end).
  pose proof (String.compare_eq_iff a "3") as X. destruct (String.compare a "3") eqn:Q.
  - pose proof (minor_cmp b B) as M. rewrite (patch_cmp c C).
    assert (a = "3") by now apply X. destruct (String.compare b "1"); split; intros H0; try discriminate; auto;
      destruct H0 as [H0|[_ H0]]; try discriminate; subst; try discriminate; destruct M; contradiction.
  - split; auto.
  - split; [discriminate|]. intros [[=]|[-> _]]. discriminate.
Qed.
Print Assumptions c117_versions.
(** For major versions with one digit this is the order of the numbers. *)
Theorem c117_one_digit : forall a b c, digit a -> numeral b -> numeral c ->
  old_asdf (String a "" ++ "." ++ b ++ "." ++ c) = true <->
  In a ["0"; "1"; "2"]%char \/ (a = "3"%char /\ b = "0").
Proof.
  intros a b c A B C. rewrite c117_versions; [|destruct A as [<-|A]; [right; auto|left; split; [exact A|exact Logic.I]]|exact B|exact C].
  repeat (destruct A as [<-|A]; [cbn; split; intros [H|[H1 H2]]; try discriminate; auto; try (now intuition discriminate);
    right; split; congruence|]). contradiction.
Qed.
Print Assumptions c117_one_digit.
(** False: later versions are never old. Version 10 and (without the last number) 3.1 are. *)
Theorem c117_order_refuted : old_asdf "10.0.0" = true /\ old_asdf "3.1" = true /\ old_asdf "3.1.0" = false.
Proof. repeat split. Qed.
Print Assumptions c117_order_refuted.

(** Both functions set the argument that the version knows, with the same meaning. *)
Definition copies (d : dict bool) : option bool :=
  match dget "copy_arrays" d with Some b => Some b | None => option_map negb (dget "memmap" d) end.
Theorem c117_mapping : forall v m, copies (mapping_kwarg v m) = Some (negb m) /\
  dkeys (mapping_kwarg v m) = [if old_asdf v then "copy_arrays" else "memmap"].
Proof. intros v m. unfold mapping_kwarg. destruct (old_asdf v); split; reflexivity. Qed.
Print Assumptions c117_mapping.
Lemma get_set {V} k k' (v : V) d : dget k (dset k' v d) = if String.eqb k k' then Some v else dget k d.
Proof.
  induction d as [|[a b] d IH]; cbn [dset dget]; [reflexivity|].
  destruct (String.eqb_spec k' a) as [->|N]; cbn [dget].
  - destruct (String.eqb k a); reflexivity.
  - rewrite IH. destruct (String.eqb_spec k a) as [->|]; [|reflexivity].
    destruct (String.eqb_spec a k') as [->|]; [contradiction|reflexivity].
Qed.
Lemma get_del {V} k k' (d : dict V) : dget k (ddel k' d) = if String.eqb k k' then None else dget k d.
Proof.
  unfold ddel. induction d as [|[a b] d IH]; cbn [filter dget fst]; [now destruct (String.eqb k k')|].
  destruct (String.eqb_spec k' a) as [->|N]; cbn [negb dget].
  - rewrite IH. destruct (String.eqb k a); reflexivity.
  - rewrite IH. destruct (String.eqb_spec k a) as [->|]; [|reflexivity].
    destruct (String.eqb_spec a k') as [->|]; [contradiction|reflexivity].
Qed.
Theorem c117_open : forall v d k, dget k (open_kwargs v (Some d)) =
  match dget "memmap" d with
  | Some m => if old_asdf v then
      if String.eqb k "memmap" then None else if String.eqb k "copy_arrays" then Some (negb m) else dget k d
    else dget k d
  | None => dget k d
  end.
Proof.
  intros v d k. unfold open_kwargs. destruct (dget "memmap" d); [|reflexivity]. destruct (old_asdf v); [|reflexivity].
  now rewrite get_del, get_set.
Qed.
Print Assumptions c117_open.
Theorem c117_default : forall v, copies (open_kwargs v None) = Some true /\ dget "lazy_load" (open_kwargs v None) = Some false.
Proof. intros v. unfold open_kwargs. cbn [dget String.eqb]. cbn. now destruct (old_asdf v). Qed.
Print Assumptions c117_default.

Section Read.
  Context {T : Type} (read : dict bool -> res T).
  Theorem c117_read : forall v k, snd (read_buffer read v k false) = read (open_kwargs v k).
  Proof. reflexivity. Qed.
  (** The same arguments can be used again. *)
  Theorem c117_again : forall v d d' r, read_buffer read v (Some d) false = (Some d', r) ->
    read_buffer read v (Some d') false = (Some d', r).
  Proof.
    intros v d d' r. unfold read_buffer. intros [= <- <-].
    assert (X : open_kwargs v (Some (open_kwargs v (Some d))) = open_kwargs v (Some d)); [|now rewrite X].
    pose proof (c117_open v d "memmap") as G. unfold open_kwargs at 1. rewrite G.
    destruct (dget "memmap" d) eqn:M.
    - destruct (old_asdf v) eqn:O; [reflexivity|]. unfold open_kwargs. now rewrite M, O.
    - reflexivity.
  Qed.
  (** False: the arguments of the caller are not changed. *)
  Theorem c117_arguments_refuted : forall v, old_asdf v = true ->
    exists d d' r, read_buffer read v (Some d) false = (Some d', r) /\ d' <> d.
  Proof.
    intros v O. exists [("memmap", true)]. eexists _, _. split; [reflexivity|].
    unfold open_kwargs. rewrite O. discriminate.
  Qed.
  (** False: [_use_weldx_file] reads the file. It never does. *)
  Theorem c117_weldx_refuted : forall v k, snd (read_buffer read v k true) = Err RuntimeError.
  Proof. reflexivity. Qed.
End Read.
Print Assumptions c117_read.
Print Assumptions c117_again.
Print Assumptions c117_arguments_refuted.
Print Assumptions c117_weldx_refuted.

(** ** Headers *)
Definition nl : string := String newline "".
(** one line with its end, and lists of such lines *)
Fixpoint no_newline (s : string) : Prop := match s with EmptyString => True | String a r => a <> newline /\ no_newline r end.
Definition line (l : string) : Prop := exists s, no_newline s /\ l = s ++ nl.
Fixpoint text (ls : list string) : string := match ls with [] => "" | l :: r => l ++ text r end.
Definition end_line (l : string) : Prop := l = "..." ++ nl \/ l = "..." ++ String "013" nl.

Lemma app_assoc_s a b c : (a ++ b) ++ c = a ++ b ++ c.
Proof. induction a as [|x a IH]; cbn; [reflexivity|]. now rewrite IH. Qed.
Lemma len_app a b : String.length (a ++ b) = String.length a + String.length b.
Proof. induction a as [|x a IH]; cbn; [reflexivity|]. now rewrite IH. Qed.
Lemma app_nil_s a : a ++ "" = a.
Proof. induction a as [|x a IH]; cbn; [reflexivity|]. now rewrite IH. Qed.
Lemma readline_line l t : line l -> readline (l ++ t) = (l, t).
Proof.
  intros (s & N & ->). rewrite app_assoc_s. induction s as [|a s IH]; [reflexivity|].
  destruct N as [A N]. cbn [append readline]. rewrite (proj2 (Ascii.eqb_neq _ _) A).
  rewrite (IH N). reflexivity.
Qed.
Lemma readline_last s : no_newline s -> readline s = (s, "").
Proof.
  induction s as [|a s IH]; [reflexivity|]. intros [A N]. cbn [readline].
  rewrite (proj2 (Ascii.eqb_neq _ _) A), (IH N). reflexivity.
Qed.
Lemma end_ok l : is_end l = true <-> end_line l.
Proof. unfold is_end. rewrite orb_true_iff, !String.eqb_eq. reflexivity. Qed.
Lemma line_nonempty l : line l -> String.eqb l "" = false /\ 0 < String.length l.
Proof. intros ([|a s] & _ & ->); split; cbn; trivial; lia. Qed.

(** The header consists of the lines before the first end line; what follows does not
    matter. *)
Lemma header_lines ls e t : Forall line ls -> Forall (fun l => ~ end_line l) ls -> line e -> end_line e ->
  forall k, String.length (text ls ++ e ++ t) < k -> read_header k (text ls ++ e ++ t) = (text ls, t).
Proof.
  intros L N E1 E2. induction ls as [|l ls IH]; intros [|k] K; try lia.
  - cbn [text append read_header]. rewrite (readline_line e t E1). rewrite (proj2 (end_ok e) E2), orb_true_r. reflexivity.
  - inversion_clear L as [|? ? L1 L2]. inversion_clear N as [|? ? N1 N2].
    cbn [text read_header]. rewrite app_assoc_s, (readline_line l _ L1).
    destruct (line_nonempty l L1) as [X Y]. rewrite X. destruct (is_end l) eqn:Q; [apply end_ok in Q; contradiction|].
    cbn [orb]. rewrite IH; [reflexivity|assumption..|].
    cbn [text] in K. rewrite app_assoc_s, len_app in K. lia.
Qed.
Lemma end_is_line e : end_line e -> line e.
Proof. intros [-> | ->]; [exists "..."|exists ("..." ++ String "013" "")]; cbn; repeat split; discriminate. Qed.
Theorem c118_header : forall ls e t, Forall line ls -> Forall (fun l => ~ end_line l) ls -> end_line e ->
  snd (get_yaml_header (FPath (Ok (text ls ++ e ++ t)))) = Ok (text ls).
Proof.
  intros ls e t L N E. unfold get_yaml_header. cbn [bind snd].
  rewrite (header_lines ls e t L N (end_is_line e E) E) by lia. reflexivity.
Qed.
Print Assumptions c118_header.
(** Without an end line everything is header, also a last line without line break (even if
    it is the end mark). *)
Theorem c118_no_end : forall ls s, Forall line ls -> Forall (fun l => ~ end_line l) ls -> no_newline s ->
  snd (get_yaml_header (FPath (Ok (text ls ++ s)))) = Ok (text ls ++ s).
Proof.
  intros ls s L N S. unfold get_yaml_header. cbn [bind snd].
  assert (X : forall k, String.length (text ls ++ s) < k -> read_header k (text ls ++ s) = (text ls ++ s, "")).
  2:{ rewrite X by lia. reflexivity. }
  induction ls as [|l ls IH]; intros [|k] K; try lia.
  - cbn [text append read_header] in *. rewrite (readline_last s S). destruct s as [|a s]; [reflexivity|].
    cbn [String.eqb orb]. destruct (is_end (String a s)) eqn:Q.
    + apply end_ok, end_is_line in Q. destruct Q as (u & _ & Q). exfalso. clear - S Q.
      revert u Q. generalize (String a s) as w, S. clear. intros w.
      induction w as [|b w IH]; intros W [|c u] Q; try discriminate.
      * injection Q as -> _. now destruct W.
      * injection Q as -> Q. apply (IH (proj2 W) u Q).
    + destruct k; [cbn in K; lia|]. cbn [read_header readline String.eqb orb]. now rewrite app_nil_s.
  - inversion_clear L as [|? ? L1 L2]. inversion_clear N as [|? ? N1 N2].
    cbn [text read_header]. rewrite app_assoc_s, (readline_line l _ L1).
    destruct (line_nonempty l L1) as [X Y]. rewrite X. destruct (is_end l) eqn:Q; [apply end_ok in Q; contradiction|].
    cbn [orb]. rewrite IH; [reflexivity|assumption..|]. cbn [text] in K. rewrite app_assoc_s, len_app in K. lia.
Qed.
Print Assumptions c118_no_end.
(** False: the header never contains the end mark. *)
Theorem c118_mark_refuted : exists c, snd (get_yaml_header (FPath (Ok c))) = Ok c /\ c = "a: 1" ++ nl ++ "...".
Proof. eexists. split; [|reflexivity]. reflexivity. Qed.
Print Assumptions c118_mark_refuted.
Lemma sub_all s : substring 0 (String.length s) s = s.
Proof. induction s as [|a s IH]; cbn; [reflexivity|]. now rewrite IH. Qed.
(** Handles with all methods are read from the start; the handle is left behind the end line. *)
Theorem c118_handle : forall ls e t pos, Forall line ls -> Forall (fun l => ~ end_line l) ls -> end_line e ->
  let c := text ls ++ e ++ t in
  get_yaml_header (FHandle false true c pos) =
  (FHandle false true c (String.length (text ls) + String.length e), Ok (text ls)).
Proof.
  intros ls e t pos L N E c. unfold get_yaml_header. rewrite Nat.sub_0_r, sub_all. subst c.
  rewrite (header_lines ls e t L N (end_is_line e E) E) by lia. do 2 f_equal. rewrite !len_app. lia.
Qed.
Print Assumptions c118_handle.
(** False: the header of a handle without [seek] or [write] does not depend on what was read before. *)
Theorem c118_position_refuted : exists c p, snd (get_yaml_header (FHandle false false c 0)) <>
  snd (get_yaml_header (FHandle false false c p)).
Proof. exists ("a" ++ nl ++ "..." ++ nl), 2. discriminate. Qed.
Print Assumptions c118_position_refuted.
Theorem c118_errors : forall f,
  (snd (get_yaml_header f) = Err TypeError <-> f = FOther \/ f = FPath (Err TypeError)) /\
  (forall s c p, get_yaml_header (FHandle true s c p) = (FHandle true s c p, Err ValueError)) /\
  (forall e, get_yaml_header (FPath (Err e)) = (FPath (Err e), Err e)).
Proof.
  intros f. repeat split.
  - destruct f as [[c|e]|[] s c p|]; cbn [get_yaml_header bind snd]; try discriminate; auto.
    + intros [= ->]. auto.
    + destruct (read_header _ _). discriminate.
  - intros [-> | ->]; reflexivity.
Qed.
Print Assumptions c118_errors.

(** The position is restored after the block. False: also after an error. *)
Theorem c118_reset : forall {A} (body : nat -> nat * res A) pos a,
  snd (body pos) = Ok a -> reset_position body pos = (pos, Ok a).
Proof. intros A body pos a H. unfold reset_position. destruct (body pos) as [p r]. cbn in H. now subst. Qed.
Print Assumptions c118_reset.
Theorem c118_reset_refuted : forall {A} (body : nat -> nat * res A) pos p e,
  body pos = (p, Err e) -> reset_position body pos = (p, Err e).
Proof. intros A body pos p e H. unfold reset_position. now rewrite H. Qed.
Print Assumptions c118_reset_refuted.
Example ex_c118 : Forall line ["a: 1" ++ nl] /\ Forall (fun l => ~ end_line l) ["a: 1" ++ nl] /\
  reset_position (A := unit) (fun p => (p + 4, Err KeyError)) 3 = (7, Err KeyError).
Proof.
  split; [|split; [|reflexivity]].
  - constructor; [|constructor]. exists "a: 1". cbn. repeat split; discriminate.
  - constructor; [|constructor]. intros [[=]|[=]].
Qed.
Example ex_c117 : numeral "10" /\ numeral "0" /\ numeral "3" /\ old_asdf "2.15.1" = true /\ old_asdf "3.10.2" = false /\
  open_kwargs "2.15.1" (Some [("memmap", true)]) = [("copy_arrays", false)].
Proof. repeat split; cbn; auto 12; left; repeat split; cbn; auto 12; left; reflexivity. Qed.
