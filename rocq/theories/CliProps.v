(* C146: the command line of the welding example. *)
From Coq Require Import List String Bool Arith Lia.
From Verif Require Import Base CliModel CliSpec.
Import ListNotations.
Open Scope string_scope.

Lemma last_more (vs : list string) : forall v d, List.last (v :: vs) d = List.last vs v.
Proof.
  induction vs as [|w vs IH]; intros v d; [reflexivity|].
  change (List.last (v :: w :: vs) d) with (List.last (w :: vs) d).
  rewrite IH, <- (IH w v). reflexivity.
Qed.

Lemma parse_extras l : forall out p, parse out true l <> Returned p.
Proof.
  induction l as [l IH] using (well_founded_induction (Wf_nat.well_founded_ltof _ (@List.length token))).
  unfold Wf_nat.ltof in IH. intros out p.
  destruct l as [|[| |v|v|v] r]; cbn [parse]; try discriminate;
    try (apply IH; cbn [List.length]; lia).
  destruct r as [|[| |w|w|w] r]; try discriminate.
  apply IH; cbn [List.length]; lia.
Qed.

Lemma parse_gives vs l : outputs vs l -> forall out, parse out false l = Returned (List.last vs out).
Proof.
  induction 1 as [|v a vs r A R IH]; intros out; [reflexivity|].
  destruct A; cbn [app parse]; rewrite IH, last_more; reflexivity.
Qed.

Lemma parse_reads l : forall out p, parse out false l = Returned p ->
  exists vs, outputs vs l /\ p = List.last vs out.
Proof.
  induction l as [l IH] using (well_founded_induction (Wf_nat.well_founded_ltof _ (@List.length token))).
  unfold Wf_nat.ltof in IH. intros out p E.
  destruct l as [|[| |v|v|v] r]; cbn [parse] in E; try discriminate.
  - injection E as <-. exists []. split; [constructor|reflexivity].
  - destruct r as [|[| |w|w|w] r]; try discriminate.
    destruct (IH r) with (out := w) (p := p) as [vs [O ->]]; [cbn [List.length]; lia|exact E|].
    exists (w :: vs). split; [exact (o_more _ _ _ _ (so_pair w) O)|].
    symmetry. apply last_more.
  - destruct (IH r) with (out := v) (p := p) as [vs [O ->]]; [cbn [List.length]; lia|exact E|].
    exists (v :: vs). split; [exact (o_more _ _ _ _ (so_explicit v) O)|].
    symmetry. apply last_more.
  - destruct (parse_extras _ _ _ E).
  - destruct (parse_extras _ _ _ E).
Qed.

Lemma parse_help l : forall out x, parse out x l = Exited 0 <->
  exists a r, l = (a ++ THelp :: r)%list /\ readable a.
Proof.
  induction l as [l IH] using (well_founded_induction (Wf_nat.well_founded_ltof _ (@List.length token))).
  unfold Wf_nat.ltof in IH. intros out x. split.
  - intros E. destruct l as [|[| |v|v|v] r]; cbn [parse] in E.
    + destruct x; discriminate.
    + exists [], r. split; [reflexivity|constructor].
    + destruct r as [|[| |w|w|w] r]; try discriminate.
      apply IH in E; [|cbn [List.length]; lia]. destruct E as [a [t [-> R]]].
      exists ([TOut; TWord w] ++ a)%list, t. split; [reflexivity|].
      exact (r_output w _ _ (so_pair w) R).
    + apply IH in E; [|cbn [List.length]; lia]. destruct E as [a [t [-> R]]].
      exists ([TOutEq v] ++ a)%list, t. split; [reflexivity|].
      exact (r_output v _ _ (so_explicit v) R).
    + apply IH in E; [|cbn [List.length]; lia]. destruct E as [a [t [-> R]]].
      exists (TWord v :: a), t. split; [reflexivity|]. constructor. exact R.
    + apply IH in E; [|cbn [List.length]; lia]. destruct E as [a [t [-> R]]].
      exists (TUnknown v :: a), t. split; [reflexivity|]. constructor. exact R.
  - intros [a [r [-> R]]]. clear IH. revert out x.
    induction R as [|v b t A R IH|v t R IH|v t R IH]; intros out x; [reflexivity| | |].
    + destruct A; cbn [app parse]; apply IH.
    + cbn [app parse]. apply IH.
    + cbn [app parse]. apply IH.
Qed.

Lemma parse_codes l : forall out x, (exists p, parse out x l = Returned p) \/
  parse out x l = Exited 0 \/ parse out x l = Exited 2.
Proof.
  induction l as [l IH] using (well_founded_induction (Wf_nat.well_founded_ltof _ (@List.length token))).
  unfold Wf_nat.ltof in IH. intros out x.
  destruct l as [|[| |v|v|v] r]; cbn [parse]; auto;
    try (apply IH; cbn [List.length]; lia).
  - destruct x; eauto.
  - destruct r as [|[| |w|w|w] r]; auto. apply IH; cbn [List.length]; lia.
Qed.

Lemma occupied_kept fs p : occupied fs p = true <-> kept fs p.
Proof.
  unfold occupied, kept. destruct (fs p) as [[|x b]|]; cbn.
  - split; [discriminate|]. intros [x [b E]]. discriminate.
  - split; [intros _; eauto|reflexivity].
  - split; [discriminate|]. intros [x [b E]]. discriminate.
Qed.

Lemma put_same fs p b : put fs p b p = Some b.
Proof. unfold put. now rewrite String.eqb_refl. Qed.

Lemma put_other fs p b q : q <> p -> put fs p b q = fs q.
Proof. unfold put. destruct (String.eqb_spec q p); [contradiction|reflexivity]. Qed.

(* Arguments are accepted exactly if they only state outputs; the last output
   counts, the default without any. *)
Theorem c146_accepted sys l p :
  parse_args sys (Some l) = Returned p <-> exists vs, outputs vs l /\ p = chosen vs.
Proof.
  unfold parse_args, chosen. split; [apply parse_reads|].
  intros [vs [O ->]]. now apply parse_gives.
Qed.
Print Assumptions c146_accepted.

(* Help is given exactly if all arguments before it can be read, known or not;
   otherwise refused arguments end the process with code 2, and there is no
   other outcome. *)
Theorem c146_refused sys l :
  (parse_args sys (Some l) = Exited 0 <->
     exists a r, l = (a ++ THelp :: r)%list /\ readable a) /\
  (parse_args sys (Some l) = Exited 2 <->
     ~ (exists vs, outputs vs l) /\
     ~ (exists a r, l = (a ++ THelp :: r)%list /\ readable a)).
Proof.
  unfold parse_args. split; [apply parse_help|].
  rewrite <- (parse_help l default_output false). split.
  - intros E. rewrite E. split; [|discriminate].
    intros [vs O]. rewrite (parse_gives _ _ O) in E. discriminate.
  - intros [N H]. destruct (parse_codes l default_output false) as [[p E]|[E|E]].
    + destruct N. destruct (parse_reads _ _ _ E) as [vs [O _]]. eauto.
    + contradiction.
    + exact E.
Qed.
Print Assumptions c146_refused.

Section Main.
  Variable tree : Type.
  Variable example : tree.
  Variable invalid : tree -> option exn.
  Variable bytes : tree -> list nat.
  Variable refused : string -> option exn.
  Notation run := (main tree example invalid bytes refused).
  Notation make := (single_pass tree example invalid bytes refused).

  (* No file that exists and is not empty is changed, whatever the arguments. *)
  Theorem c146_no_overwrite sys fs argv p :
    kept fs p -> fst (run sys fs argv) p = fs p.
  Proof.
    intros K. apply occupied_kept in K. unfold main.
    destruct (parse_args sys argv) as [out|c|e]; try reflexivity.
    destruct (occupied fs out) eqn:O; [reflexivity|].
    unfold single_pass. destruct (invalid example); [reflexivity|].
    cbn [truthy]. destruct (refused out); [reflexivity|]. cbn [fst].
    apply put_other. intros ->. congruence.
  Qed.

  (* A call with arguments is successful exactly if they only state outputs, the
     chosen file does not exist or is empty, the example is valid and the file
     can be written; then this file has the example and no other changes. *)
  Theorem c146_success sys fs l fs' :
    run sys fs (Some l) = (fs', Returned tt) <->
    exists vs, outputs vs l /\ ~ kept fs (chosen vs) /\ invalid example = None /\
      refused (chosen vs) = None /\ fs' = put fs (chosen vs) (bytes example).
  Proof.
    unfold main. split.
    - destruct (parse_args sys (Some l)) as [out|c|e] eqn:P; try discriminate.
      apply c146_accepted in P. destruct P as [vs [O ->]].
      destruct (occupied fs (chosen vs)) eqn:K; [discriminate|].
      unfold single_pass. destruct (invalid example) eqn:I; [discriminate|].
      cbn [truthy]. destruct (refused (chosen vs)) eqn:R; [discriminate|].
      intros [= <-]. exists vs. repeat split; auto.
      rewrite <- occupied_kept, K. discriminate.
    - intros [vs [O [K [I [R ->]]]]].
      rewrite (proj2 (c146_accepted sys l (chosen vs))) by eauto.
      destruct (occupied fs (chosen vs)) eqn:E.
      { destruct K. now apply occupied_kept. }
      unfold single_pass. rewrite I. cbn [truthy]. now rewrite R.
  Qed.

  (* What is written, in the terms of the file system. *)
  Theorem c146_written sys fs l fs' vs :
    run sys fs (Some l) = (fs', Returned tt) -> outputs vs l ->
    fs' (chosen vs) = Some (bytes example) /\
    forall q, q <> chosen vs -> fs' q = fs q.
  Proof.
    intros E O. apply c146_success in E. destruct E as [ws [O' [_ [_ [_ ->]]]]].
    assert (C : chosen vs = chosen ws).
    { assert (Returned (chosen vs) = Returned (chosen ws)) as [= H]; [|exact H].
      rewrite <- (proj2 (c146_accepted sys l (chosen vs))) by eauto.
      apply c146_accepted. eauto. }
    rewrite C. split; [apply put_same|]. intros q. apply put_other.
  Qed.

  (* Every other call leaves all files as they are. *)
  Theorem c146_failure sys fs argv :
    snd (run sys fs argv) <> Returned tt -> fst (run sys fs argv) = fs.
  Proof.
    unfold main. destruct (parse_args sys argv) as [out|c|e]; try reflexivity.
    destruct (occupied fs out); [reflexivity|].
    unfold single_pass. destruct (invalid example); [reflexivity|].
    cbn [truthy]. destruct (refused out); [reflexivity|].
    intros N. now destruct N.
  Qed.

  (* Code 1 means: the arguments are accepted and the chosen file is occupied. *)
  Theorem c146_occupied sys fs l :
    snd (run sys fs (Some l)) = Exited 1 <->
    exists vs, outputs vs l /\ kept fs (chosen vs).
  Proof.
    unfold main. split.
    - destruct (parse_args sys (Some l)) as [out|c|e] eqn:P; cbn [snd].
      + apply c146_accepted in P. destruct P as [vs [O ->]].
        destruct (occupied fs (chosen vs)) eqn:K.
        * intros _. exists vs. split; [exact O|]. now apply occupied_kept.
        * unfold single_pass. destruct (invalid example); [discriminate|].
          cbn [truthy]. destruct (refused (chosen vs)); discriminate.
      + intros [= ->]. unfold parse_args in P.
        destruct (parse_codes l default_output false) as [[p E]|[E|E]]; congruence.
      + discriminate.
    - intros [vs [O K]].
      rewrite (proj2 (c146_accepted sys l (chosen vs))) by eauto.
      apply occupied_kept in K. now rewrite K.
  Qed.

  (* The installed command calls main without arguments.  The name of the
     program is then taken for an argument: help is given or the process ends
     with code 2, and no example is ever written. *)
  Theorem c146_command prog r fs :
    run (TWord prog :: r) fs None = (fs, Exited 0) \/
    run (TWord prog :: r) fs None = (fs, Exited 2).
  Proof.
    unfold main, parse_args. cbn [parse].
    destruct (parse_codes r default_output true) as [[p E]|[E|E]].
    - destruct (parse_extras _ _ _ E).
    - rewrite E. auto.
    - rewrite E. auto.
  Qed.

  (* The same arguments with and without the name of the program. *)
  Theorem c146_command_refuted :
    (forall fs, ~ kept fs default_output -> invalid example = None ->
       refused default_output = None ->
       snd (run [TWord "welding_schema"] fs (Some [])) = Returned tt) /\
    (forall fs, snd (run [TWord "welding_schema"] fs None) = Exited 2).
  Proof.
    split; [|reflexivity].
    intros fs K I R.
    rewrite (proj2 (c146_success [TWord "welding_schema"] fs []
      (put fs (chosen []) (bytes example)))); [reflexivity|].
    exists []. repeat split; auto. constructor.
  Qed.

  (* The function behind the command: without an output, or with an empty
     string, it returns the bytes and the tree and writes nothing; with another
     output it writes the same bytes there and returns nothing.  It overwrites.
     An invalid example is an error before anything is written. *)
  Theorem c146_function fs t :
    match invalid example with
    | Some e => make fs t = (fs, Raised e)
    | None =>
        ((t = NoTarget \/ t = Str "") ->
           make fs t = (fs, Returned (Some (bytes example, example)))) /\
        (forall s, (t = Str s /\ s <> "") \/ t = APath s ->
           match refused s with
           | Some e => make fs t = (fs, Raised e)
           | None => snd (make fs t) = Returned None /\
               fst (make fs t) s = Some (bytes example) /\
               forall q, q <> s -> fst (make fs t) q = fs q
           end)
    end.
  Proof.
    unfold single_pass. destruct (invalid example) as [e|]; [reflexivity|]. split.
    - intros [->| ->]; reflexivity.
    - intros s T. assert (truthy t = Some s) as ->.
      { destruct T as [[-> N]| ->]; cbn [truthy]; [|reflexivity].
        destruct (String.eqb_spec s ""); [contradiction|reflexivity]. }
      destruct (refused s); [reflexivity|]. cbn [fst snd].
      split; [reflexivity|]. split; [apply put_same|]. intros q. apply put_other.
  Qed.
End Main.
Print Assumptions c146_no_overwrite.
Print Assumptions c146_success.
Print Assumptions c146_written.
Print Assumptions c146_failure.
Print Assumptions c146_occupied.
Print Assumptions c146_command.
Print Assumptions c146_command_refuted.
Print Assumptions c146_function.

(* The statements are about something. *)
Definition go := main nat 0 (fun _ => None) (fun _ => [1; 2]) (fun p => if String.eqb p "dir" then Some ValueError else None).
Definition disk : files := put (put (fun _ => None) "full" [7]) "empty" [].
Example c146_x1 : snd (go [] disk (Some [TOut; TWord "empty"])) = Returned tt /\
  fst (go [] disk (Some [TOut; TWord "empty"])) "empty" = Some [1; 2].
Proof. split; reflexivity. Qed.
Example c146_x2 : snd (go [] disk (Some [TOutEq "new"; TOut; TWord "full"])) = Exited 1 /\ kept disk "full".
Proof. split; [reflexivity|]. exists 7, []. reflexivity. Qed.
Example c146_x3 : snd (go [] disk (Some [TUnknown "-x"; TWord "a"; THelp; TOut])) = Exited 0 /\
  snd (go [] disk (Some [TOut; THelp])) = Exited 2.
Proof. split; reflexivity. Qed.
Example c146_x4 : outputs ["a"; "b"] [TOut; TWord "a"; TOutEq "b"] /\ chosen ["a"; "b"] = "b" /\
  chosen [] = default_output.
Proof.
  repeat split. apply (o_more "a" [TOut; TWord "a"] ["b"] [TOutEq "b"]); [constructor|].
  apply (o_more "b" [TOutEq "b"] [] []); constructor.
Qed.
Example c146_x5 : snd (go [] disk (Some [TOut; TWord "dir"])) = Raised ValueError /\
  snd (go [TWord "welding_schema"; TOut; TWord "new"] disk None) = Exited 2 /\
  snd (go [TWord "welding_schema"; THelp] disk None) = Exited 0.
Proof. repeat split. Qed.
