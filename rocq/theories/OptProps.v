(** C149: the options of files. *)
From Coq Require Import List String Bool Arith Lia.
From Verif Require Import Base OptModel.
Import ListNotations.
Open Scope string_scope.

(** ** Specification *)
Section Spec.
  Variable exists_ : string -> bool.
  Variable lookup : string -> res string.
  (** a schema is a path or the name of a schema of the package *)
  Definition found (s p : string) : Prop := exists_ s = true /\ p = s \/ exists_ s = false /\ lookup s = Ok p.
  Definition named (v : val) (r : option string) : Prop :=
    v = VNone /\ r = None \/ exists s p, v = VText s /\ found s p /\ r = Some p.
  (** the schemas for reading and writing that are meant by a value *)
  Definition schemas (v : val) (r w : option string) : Prop :=
    (exists a b, v = VSeq [a; b] /\ named a r /\ named b w) \/
    (exists s p, v = VText s /\ found s p /\ r = Some p /\ w = Some p) \/
    ((forall l, v <> VSeq l) /\ (forall s, v <> VText s) /\ r = None /\ w = None).
End Spec.
(** [d'] is [d] with the schema [s] *)
Definition passes (s : option string) (d d' : opts) : Prop :=
  dget "custom_schema" d' = match s with Some p => if String.eqb p "" then None else Some (VText p) | None => None end /\
  forall k, k <> "custom_schema" -> dget k d' = dget k d.
(** the dictionaries exist and are different ones *)
Definition valid_args (a : args) (h : heap) : Prop :=
  (forall r, a_write a = Some r -> r < List.length h) /\ (forall r, a_asdf a = Some r -> r < List.length h) /\
  (forall r, a_write a = Some r -> a_asdf a <> Some r).
Definition given_write (a : args) (h : heap) : opts :=
  match a_write a with Some r => at_ h r | None => [("all_array_compression", a_compression a)] end.
Definition given_asdf (recent : bool) (a : args) (h : heap) : opts :=
  match a_asdf a with
  | Some r => at_ h r
  | None => if recent then [("memmap", VBool (a_memmap a))] else [("copy_arrays", VBool (negb (a_memmap a)))]
  end.
Definition given_schema (recent : bool) (a : args) (h : heap) : val :=
  match dget "custom_schema" (given_asdf recent a h) with Some s => s | None => a_schema a end.
(** the configuration of asdf with another threshold *)
Definition configured (config : opts) (threshold : val) (c : opts) : Prop :=
  dget "array_inline_threshold" c = Some threshold /\ forall k, k <> "array_inline_threshold" -> dget k c = dget k config.

(** ** Dictionaries *)
Lemma dget_dset : forall (V : Type) k j (v : V) d, dget k (dset j v d) = if String.eqb k j then Some v else dget k d.
Proof.
  intros V k j v d. induction d as [|[i x] d IH]; cbn [dset dget]; [now destruct (String.eqb k j)|].
  destruct (String.eqb_spec j i); cbn [dget]; [subst; now destruct (String.eqb k i)|].
  rewrite IH. destruct (String.eqb_spec k i), (String.eqb_spec k j); congruence.
Qed.
Lemma dget_ddel : forall (V : Type) k j (d : dict V), dget k (ddel j d) = if String.eqb j k then None else dget k d.
Proof.
  intros V k j d. induction d as [|[i x] d IH]; cbn [ddel filter dget fst]; [now destruct (String.eqb j k)|].
  fold (ddel j d). destruct (String.eqb_spec j i); cbn [negb dget]; rewrite IH; destruct (String.eqb_spec j k), (String.eqb_spec k i); congruence.
Qed.
Lemma ddel_absent : forall (V : Type) j (d : dict V), dget j d = None -> ddel j d = d.
Proof.
  intros V j d. induction d as [|[i x] d IH]; cbn [ddel filter dget fst]; [reflexivity|]. fold (ddel j d).
  destruct (String.eqb j i); [discriminate|]. cbn [negb]. intro H. now rewrite IH.
Qed.
Lemma put_length : forall h r d, List.length (put h r d) = List.length h.
Proof. induction h; intros [|r] d; cbn; auto. Qed.
Lemma at_put : forall h r d q, r < List.length h -> at_ (put h r d) q = if Nat.eqb q r then d else at_ h q.
Proof.
  unfold at_. induction h as [|x h IH]; intros r d q H; [inversion H|]. destruct r, q; cbn in *; try reflexivity.
  apply IH. lia.
Qed.
Lemma at_alloc : forall h d r, r < List.length h -> at_ (h ++ [d])%list r = at_ h r.
Proof. intros. unfold at_. now rewrite app_nth1. Qed.
Lemma at_alloc_new : forall h d, at_ (h ++ [d])%list (List.length h) = d.
Proof. intros. unfold at_. now rewrite app_nth2, Nat.sub_diag by lia. Qed.
Lemma pass_with : forall s d, passes s d (with_schema s (ddel "custom_schema" d)).
Proof.
  intros s d. unfold passes, with_schema. destruct s as [p|]; [destruct (String.eqb p "")|].
  1,3: split; [now rewrite dget_ddel|]; intros k Hk; rewrite dget_ddel; destruct (String.eqb_spec "custom_schema" k); congruence.
  split; [now rewrite dget_dset|]. intros k Hk. rewrite dget_dset, dget_ddel.
  destruct (String.eqb_spec k "custom_schema"), (String.eqb_spec "custom_schema" k); congruence.
Qed.

Section Proofs.
  Variable exists_ : string -> bool.
  Variable lookup : string -> res string.
  Variable accepted : list string.
  Variable recent : bool.
  Variable config : opts.
  Let new := new_file exists_ lookup accepted recent config.
  Let schema_of := schemas exists_ lookup.

  (** ** Schemas *)
  Lemma resolve_iff : forall v r, resolve exists_ lookup v = Ok r <-> named exists_ lookup v r.
  Proof.
    intros v r. unfold named, found. destruct v as [|b0|n0|s|l0|]; cbn [resolve];
      try (split; [discriminate|intros [[H _]|(s & p & H & _)]; discriminate]).
    - split; [intro H; injection H as <-; auto|intros [[_ ->]|(s & p & H & _)]; [reflexivity|discriminate]].
    - destruct (exists_ s) eqn:X.
      + split; [intro H; injection H as <-; right; exists s, s; auto 10|].
        intros [[H _]|(s' & p & H & F & ->)]; [discriminate|]. injection H as <-. destruct F as [[_ ->]|[F _]]; [reflexivity|congruence].
      + destruct (lookup s) as [p|e] eqn:L.
        * split; [intro H; injection H as <-; right; exists s, p; auto 10|].
          intros [[H _]|(s' & q & H & F & ->)]; [discriminate|]. injection H as <-. destruct F as [[F _]|[_ F]]; congruence.
        * split; [destruct e; discriminate|].
          intros [[H _]|(s' & q & H & F & ->)]; [discriminate|]. injection H as <-. destruct F as [[F _]|[_ F]]; congruence.
  Qed.
  (** A text is the schema for reading and writing, a pair has both; all other values mean no schema. *)
  Theorem c149_schemas : forall v r w, handle_schema exists_ lookup v = Ok (r, w) <-> schema_of v r w.
  Proof.
    intros v r w. unfold schema_of, schemas. destruct v as [|b0|n0|s|l|]; cbn [handle_schema].
    1,2,3,6: split; [intro H; injection H as <- <-; right; right; repeat split; discriminate|
      intros [(a & b & H & _)|[(s & p & H & _)|(_ & _ & -> & ->)]]; (discriminate || reflexivity)].
    - split.
      + intro H. destruct (resolve exists_ lookup (VText s)) as [q|] eqn:R; [|discriminate]. cbn [bind] in H. injection H as <- <-.
        apply resolve_iff in R as [[R _]|(s' & p & R & F & ->)]; [discriminate|]. right; left. now exists s', p.
      + intros [(a & b & H & _)|[(s' & p & H & F & -> & ->)|(_ & H & _)]]; [discriminate| |exfalso; now apply (H s)].
        assert (R : resolve exists_ lookup (VText s) = Ok (Some p)) by (apply resolve_iff; right; now exists s', p).
        now rewrite R.
    - split.
      + intro H. destruct l as [|a [|b [|c l]]]; try discriminate.
        destruct (resolve exists_ lookup a) as [q|] eqn:R; [|discriminate]. cbn [bind] in H.
        destruct (resolve exists_ lookup b) as [q'|] eqn:R'; [|discriminate]. cbn [bind] in H. injection H as <- <-.
        apply resolve_iff in R, R'. left. now exists a, b.
      + intros [(a & b & H & A & B)|[(s & p & H & _)|(H & _)]]; [|discriminate|exfalso; now apply (H l)].
        injection H as ->. apply resolve_iff in A, B. now rewrite A, B.
  Qed.
  (** Everything else is a ValueError, or a TypeError for a pair with something else than a text or None. *)
  Theorem c149_schema_error : forall v e, (forall s x, lookup s = Err x -> x = ValueError) ->
    handle_schema exists_ lookup v = Err e ->
    e = ValueError \/ e = TypeError /\ exists a b, v = VSeq [a; b] /\
      exists x, (x = a \/ x = b) /\ x <> VNone /\ forall s, x <> VText s.
  Proof.
    intros v e L H.
    assert (R : forall x y, resolve exists_ lookup x = Err y -> y = ValueError \/ y = TypeError /\ x <> VNone /\ forall s, x <> VText s).
    { intros x y. destruct x as [|b0|n0|s|l0|]; cbn [resolve]; try discriminate;
        try (intro Q; injection Q as <-; right; repeat split; discriminate).
      destruct (exists_ s); [discriminate|]. destruct (lookup s) as [p|z] eqn:Z; [discriminate|]. apply L in Z. subst z.
      intro Q. injection Q as <-. now left. }
    destruct v as [|b0|n0|s|l|]; cbn [handle_schema] in H; try discriminate.
    - destruct (resolve exists_ lookup (VText s)) as [q|z] eqn:Z; [discriminate|]. cbn [bind] in H. injection H as <-.
      apply R in Z as [->|(_ & _ & Z)]; [now left|]. exfalso. now apply (Z s).
    - destruct l as [|a [|b [|c l]]]; try (injection H as <-; now left).
      destruct (resolve exists_ lookup a) as [q|z] eqn:Z; cbn [bind] in H.
      + destruct (resolve exists_ lookup b) as [q'|z'] eqn:Z'; [discriminate|]. cbn [bind] in H. injection H as <-.
        apply R in Z' as [->|(-> & A & B)]; [now left|]. right. split; [reflexivity|]. exists a, b. split; [reflexivity|]. exists b. auto.
      + injection H as <-. apply R in Z as [->|(-> & A & B)]; [now left|]. right. split; [reflexivity|].
        exists a, b. split; [reflexivity|]. exists a. auto.
  Qed.

  (** ** The configuration while writing *)
  Lemma config_with_thr : forall t c, configured config t c ->
    forall k, dget k (dset "array_inline_threshold" t config) = dget k c.
  Proof.
    intros t c [H1 H2] k. rewrite dget_dset. destruct (String.eqb_spec k "array_inline_threshold") as [->|N]; [now rewrite H1|].
    now rewrite H2.
  Qed.
  (** The threshold of the file is used unless there is another one. *)
  Theorem c149_threshold : forall t x,
    configured config t (config_with config t []) /\
    configured config (match x with VNone => t | _ => x end) (config_with config t [("array_inline_threshold", x)]).
  Proof.
    intros t x.
    assert (C : forall v, configured config v (dset "array_inline_threshold" v config)).
    { intro v. split; [now rewrite dget_dset|]. intros k Hk. rewrite dget_dset. now apply String.eqb_neq in Hk as ->. }
    split; [apply C|]. destruct x; apply C.
  Qed.

  (** ** New files *)
  Definition rest (created : bool) (a : args) (h : heap) (k w : nat) (schema : val) : heap * list event * res file :=
    match handle_schema exists_ lookup schema with
    | Err e => (h, [], Err e)
    | Ok (rs, ws) =>
        if negb (String.eqb (a_mode a) "r" || String.eqb (a_mode a) "rw") then (h, [], Err ValueError)
        else if a_tree a && negb (String.eqb (a_mode a) "rw") then (h, [], Err RuntimeError)
        else
          let f := File (a_mode a) k w rs ws (a_sync a && String.eqb (a_mode a) "rw") (a_threshold a) in
          if a_tree a || created then
            let h := put h k (with_schema ws (at_ h k)) in
            if created then
              match checked accepted (at_ h w) with
              | Err e => (h, [ENew (at_ h k)], Err e)
              | Ok _ => (h, [ENew (at_ h k); EWrite (at_ h w) (config_with config (a_threshold a) [])], Ok f)
              end
            else
              match checked accepted (at_ h w) with
              | Err e => (h, [EOpen "rw" (at_ h k)], Err e)
              | Ok _ => (h, [EOpen "rw" (at_ h k); EUpdate (at_ h w) (config_with config (a_threshold a) [])], Ok f)
              end
          else
            let h := put h k (with_schema rs (at_ h k)) in
            (h, [EOpen (a_mode a) (at_ h k)], Ok f)
    end.
  Lemma new_rest : forall created a h, valid_args a h -> exists h1 k w,
    new created a h = rest created a h1 k w (given_schema recent a h) /\
    k < List.length h1 /\ w < List.length h1 /\ k <> w /\
    at_ h1 k = ddel "custom_schema" (given_asdf recent a h) /\ at_ h1 w = given_write a h /\
    (forall r, a_asdf a = Some r -> k = r) /\ (forall r, a_write a = Some r -> w = r) /\
    (a_asdf a = None -> List.length h <= k) /\
    forall r, r < List.length h -> a_asdf a <> Some r -> at_ h1 r = at_ h r.
  Proof.
    intros created a h (Vw & Vk & Vd). unfold new, new_file.
    assert (S1 : exists h0 w, (match a_write a with Some w => (h, w) | None => alloc h [("all_array_compression", a_compression a)] end) = (h0, w) /\
      List.length h <= List.length h0 /\ w < List.length h0 /\ at_ h0 w = given_write a h /\ (forall r, a_write a = Some r -> w = r) /\
      (a_write a = None -> w = List.length h) /\ (forall r, r < List.length h -> at_ h0 r = at_ h r)).
    { unfold given_write. destruct (a_write a) as [w|] eqn:W.
      - exists h, w. split; [reflexivity|]. split; [lia|]. split; [now apply Vw|]. split; [reflexivity|]. split; [congruence|]. split; [discriminate|auto].
      - eexists _, _. split; [reflexivity|]. rewrite app_length. cbn [List.length]. split; [lia|]. split; [lia|].
        split; [apply at_alloc_new|]. split; [discriminate|]. split; [reflexivity|]. intros r Hr. now apply at_alloc. }
    destruct S1 as (h0 & w & -> & L0 & Lw & Aw & Ew & Nw & K0).
    assert (S2 : exists h1 k, (match a_asdf a with Some k => (h0, k) | None => alloc h0 (memory_options recent (a_memmap a)) end) = (h1, k) /\
      k < List.length h1 /\ w < List.length h1 /\ k <> w /\ at_ h1 k = given_asdf recent a h /\ at_ h1 w = given_write a h /\
      (forall r, a_asdf a = Some r -> k = r) /\ (a_asdf a = None -> List.length h <= k) /\ (forall r, r < List.length h -> at_ h1 r = at_ h r)).
    { unfold given_asdf. destruct (a_asdf a) as [k|] eqn:K.
      - exists h0, k. assert (k < List.length h) by now apply Vk. split; [reflexivity|]. split; [lia|]. split; [assumption|]. split.
        { intros ->. destruct (a_write a) as [q|] eqn:W; [|specialize (Nw eq_refl); lia].
          apply (Vd q eq_refl). now rewrite <- (Ew q eq_refl). }
        split; [now apply K0|]. split; [assumption|]. split; [congruence|]. split; [discriminate|assumption].
      - eexists _, _. split; [reflexivity|]. rewrite app_length. cbn [List.length]. split; [lia|]. split; [lia|]. split; [lia|].
        split; [rewrite at_alloc_new; reflexivity|]. split; [now rewrite at_alloc|]. split; [discriminate|]. split; [lia|].
        intros r Hr. rewrite at_alloc by lia. now apply K0. }
    destruct S2 as (h1 & k & -> & Lk & Lw1 & Nkw & Ak & Aw1 & Ek & Fk & K1).
    unfold given_schema. rewrite <- Ak. destruct (dget "custom_schema" (at_ h1 k)) as [s|] eqn:D.
    - exists (put h1 k (ddel "custom_schema" (at_ h1 k))), k, w. split; [reflexivity|]. rewrite put_length.
      split; [assumption|]. split; [assumption|]. split; [assumption|]. rewrite !at_put, Nat.eqb_refl by assumption.
      split; [reflexivity|]. split; [destruct (Nat.eqb_spec w k); [congruence|assumption]|].
      split; [assumption|]. split; [assumption|]. split; [assumption|].
      intros r Hr Ha. rewrite at_put by assumption. destruct (Nat.eqb_spec r k) as [->|]; [|now apply K1].
      exfalso. destruct (a_asdf a) as [q|]; [specialize (Ek q eq_refl); congruence|specialize (Fk eq_refl); lia].
    - exists h1, k, w. split; [reflexivity|]. split; [assumption|]. split; [assumption|]. split; [assumption|].
      split; [now rewrite ddel_absent|]. split; [assumption|]. split; [assumption|]. split; [assumption|]. split; [assumption|]. intros. now apply K1.
  Qed.
  Lemma checked_iff : forall o, checked accepted o = Ok tt <-> forall k, In k (dkeys o) -> In k accepted.
  Proof.
    intro o. unfold checked. destruct (forallb _ _) eqn:F.
    - split; [|reflexivity]. intros _ k Hk. rewrite forallb_forall in F. specialize (F k Hk). unfold smem in F.
      apply existsb_exists in F as (x & Hx & E). apply String.eqb_eq in E. now subst.
    - split; [discriminate|]. intro H. enough (forallb (fun k => smem k accepted) (dkeys o) = true) by congruence.
      apply forallb_forall. intros k Hk. apply existsb_exists. exists k. split; [now apply H|apply String.eqb_refl].
  Qed.
  Lemma checked_err : forall o e, checked accepted o = Err e -> e = TypeError /\ exists k, In k (dkeys o) /\ ~ In k accepted.
  Proof.
    intros o e. unfold checked. destruct (forallb _ _) eqn:F; [discriminate|]. intro H. injection H as <-. split; [reflexivity|].
    induction (dkeys o) as [|k l IH]; [discriminate|]. cbn in F. destruct (smem k accepted) eqn:Sm.
    - destruct (IH F) as (x & Hx & Nx). exists x. split; [now right|assumption].
    - exists k. split; [now left|]. intro I. enough (smem k accepted = true) by congruence.
      apply existsb_exists. exists k. split; [assumption|apply String.eqb_refl].
  Qed.

  (** What a new file is and what asdf has to do: the data are written with the given options, the threshold and
      the schema for writing; a file without new data is opened with the schema for reading. Only the given
      dictionary for asdf changes. *)
  Theorem c149_new : forall created a h h' es f, valid_args a h -> new created a h = (h', es, Ok f) ->
    f_mode f = a_mode a /\ f_threshold f = a_threshold a /\ (f_sync f = true <-> a_sync a = true /\ a_mode a = "rw") /\
    schema_of (given_schema recent a h) (f_read_schema f) (f_write_schema f) /\
    at_ h' (f_write f) = given_write a h /\
    passes (if a_tree a || created then f_write_schema f else f_read_schema f) (given_asdf recent a h) (at_ h' (f_asdf f)) /\
    (exists c, configured config (a_threshold a) c /\
      es = if created then [ENew (at_ h' (f_asdf f)); EWrite (given_write a h) c]
           else if a_tree a then [EOpen "rw" (at_ h' (f_asdf f)); EUpdate (given_write a h) c]
           else [EOpen (a_mode a) (at_ h' (f_asdf f))]) /\
    (forall r, a_asdf a = Some r -> f_asdf f = r) /\ (forall r, a_write a = Some r -> f_write f = r) /\
    (f_asdf f < List.length h' /\ f_write f < List.length h' /\ f_asdf f <> f_write f) /\
    forall r, r < List.length h -> a_asdf a <> Some r -> at_ h' r = at_ h r.
  Proof.
    intros created a h h' es f V H. destruct (new_rest created a h V) as (h1 & k & w & E & Lk & Lw & N & Ak & Aw & Ek & Ew & Fk & K).
    rewrite E in H. unfold rest in H. destruct (handle_schema exists_ lookup (given_schema recent a h)) as [[rs ws]|e] eqn:Q; [|discriminate].
    apply c149_schemas in Q. destruct (negb _) eqn:M; [discriminate|]. destruct (a_tree a && negb (a_mode a =? "rw")) eqn:T; [discriminate|].
    assert (Wk : forall d, at_ (put h1 k d) w = at_ h1 w).
    { intro d. rewrite at_put by assumption. destruct (Nat.eqb_spec w k); [congruence|reflexivity]. }
    assert (Kk : forall d, at_ (put h1 k d) k = d) by (intro d; now rewrite at_put, Nat.eqb_refl by assumption).
    assert (Kr : forall d r, r < List.length h -> a_asdf a <> Some r -> at_ (put h1 k d) r = at_ h r).
    { intros d r Hr Hn. rewrite at_put by assumption. destruct (Nat.eqb_spec r k) as [->|]; [|now apply K]. exfalso.
      destruct (a_asdf a) as [q|]; [specialize (Ek q eq_refl); congruence|specialize (Fk eq_refl); lia]. }
    assert (Sy : (a_sync a && (a_mode a =? "rw") = true <-> a_sync a = true /\ a_mode a = "rw")) by (rewrite andb_true_iff, String.eqb_eq; tauto).
    assert (P := fun s => pass_with s (given_asdf recent a h)).
    destruct (c149_threshold (a_threshold a) VNone) as [C _].
    destruct (a_tree a || created) eqn:TC.
    - rewrite Wk, Kk, Aw, Ak in H. destruct created.
      + destruct (checked accepted (given_write a h)); [|discriminate]. injection H as <- <- <-. cbn [f_mode f_threshold f_sync f_read_schema f_write_schema f_write f_asdf].
        rewrite Wk, Kk, Aw, put_length. repeat (split; [first [reflexivity|assumption|apply P|apply Sy]|]).
        split; [eexists; split; [exact C|reflexivity]|]. repeat (split; [now auto|]). auto.
      + rewrite orb_false_r in TC. rewrite TC.
        destruct (checked accepted (given_write a h)); [|discriminate]. injection H as <- <- <-. cbn [f_mode f_threshold f_sync f_read_schema f_write_schema f_write f_asdf].
        rewrite Wk, Kk, Aw, put_length. repeat (split; [first [reflexivity|assumption|apply P|apply Sy]|]).
        split; [eexists; split; [exact C|reflexivity]|]. repeat (split; [now auto|]). auto.
    - apply orb_false_iff in TC as [Ta ->]. rewrite Ta. rewrite Kk, Ak in H. injection H as <- <- <-. cbn [f_mode f_threshold f_sync f_read_schema f_write_schema f_write f_asdf].
      rewrite Wk, Kk, Aw, put_length. repeat (split; [first [reflexivity|assumption|apply P|apply Sy]|]).
      split; [eexists; split; [exact C|reflexivity]|]. repeat (split; [now auto|]). auto.
  Qed.

  (** A file is made iff there are such schemas, the mode is known, data are written in mode "rw" only, and asdf
      knows the options if it writes. *)
  Theorem c149_new_ok : forall created a h, valid_args a h ->
    (exists h' es f, new created a h = (h', es, Ok f)) <->
    (exists r w, schema_of (given_schema recent a h) r w) /\
    (a_mode a = "rw" \/ a_mode a = "r" /\ a_tree a = false) /\
    (a_tree a = true \/ created = true -> forall k, In k (dkeys (given_write a h)) -> In k accepted).
  Proof.
    intros created a h V. destruct (new_rest created a h V) as (h1 & k & w & E & Lk & Lw & N & Ak & Aw & _).
    rewrite E. unfold rest.
    assert (Wk : forall d, at_ (put h1 k d) w = given_write a h).
    { intro d. rewrite at_put by assumption. destruct (Nat.eqb_spec w k); [congruence|assumption]. }
    destruct (handle_schema exists_ lookup (given_schema recent a h)) as [[rs ws]|e] eqn:Q.
    2: { split; [intros (h' & es & f & H); discriminate|]. intros ((r & w' & H) & _). apply c149_schemas in H. congruence. }
    cbv zeta. rewrite !Wk.
    apply c149_schemas in Q. destruct (String.eqb_spec (a_mode a) "r") as [Mr|Mr]; destruct (String.eqb_spec (a_mode a) "rw") as [Mw|Mw]; cbn [orb negb andb].
    - congruence.
    - rewrite andb_true_r. destruct (a_tree a) eqn:T.
      + split; [intros (h' & es & f & H); discriminate|]. intros (_ & [H|[_ H]] & _); congruence.
      + cbn [orb]. destruct created.
        * destruct (checked accepted (given_write a h)) as [[]|e] eqn:C.
          -- pose proof (proj1 (checked_iff _) C) as C2. split; [|intros _; eauto]. intros _. split; [eauto|]. split; [auto|]. intros _. exact C2.
          -- split; [intros (h' & es & f & H); discriminate|]. intros (_ & _ & H).
             assert (checked accepted (given_write a h) = Ok tt) by (apply (proj2 (checked_iff _)), H; auto). congruence.
        * split; [|intros _; eauto]. intros _. split; [eauto|]. split; [auto|]. intros [H|H]; congruence.
    - rewrite andb_false_r. destruct (a_tree a || created) eqn:TC.
      + assert (TC' : a_tree a = true \/ created = true) by now apply orb_true_iff.
        destruct (checked accepted (given_write a h)) as [[]|e] eqn:C.
        * pose proof (proj1 (checked_iff _) C) as C2. split; [|intros _; destruct created; eauto]. intros _. split; [eauto|]. split; [auto|]. intros _. exact C2.
        * split; [destruct created; intros (h' & es & f & H); discriminate|]. intros (_ & _ & H).
          assert (checked accepted (given_write a h) = Ok tt) by (apply (proj2 (checked_iff _)), H; auto). congruence.
      + apply orb_false_iff in TC as [Ta Tc]. split; [|intros _; eauto]. intros _. split; [eauto|]. split; [auto|]. intros [H|H]; congruence.
    - split; [intros (h' & es & f & H); discriminate|]. intros (_ & [H|[H _]] & _); congruence.
  Qed.
  (** The errors otherwise, if the schemas exist. *)
  Theorem c149_new_error : forall created a h h' es e r w, valid_args a h -> schema_of (given_schema recent a h) r w ->
    new created a h = (h', es, Err e) ->
    e = ValueError /\ a_mode a <> "r" /\ a_mode a <> "rw" /\ es = [] \/
    e = RuntimeError /\ a_mode a = "r" /\ a_tree a = true /\ es = [] \/
    e = TypeError /\ exists k, In k (dkeys (given_write a h)) /\ ~ In k accepted.
  Proof.
    intros created a h h' es e r w' V Q H. destruct (new_rest created a h V) as (h1 & k & w & E & Lk & Lw & N & Ak & Aw & _).
    rewrite E in H. unfold rest in H.
    assert (Wk : forall d, at_ (put h1 k d) w = given_write a h).
    { intro d. rewrite at_put by assumption. destruct (Nat.eqb_spec w k); [congruence|assumption]. }
    apply c149_schemas in Q. rewrite Q in H. cbv zeta in H. rewrite !Wk in H.
    destruct (String.eqb_spec (a_mode a) "r") as [Mr|Mr]; destruct (String.eqb_spec (a_mode a) "rw") as [Mw|Mw]; cbn [orb negb andb] in H;
      rewrite ?andb_true_r, ?andb_false_r in H.
    - congruence.
    - destruct (a_tree a) eqn:T; [injection H as <- <- <-; auto 10|]. cbn [orb] in H. destruct created; [|discriminate].
      destruct (checked accepted (given_write a h)) eqn:C; [discriminate|]. injection H as <- <- <-. right. right. now apply checked_err in C.
    - destruct (a_tree a || created); [|discriminate].
      destruct (checked accepted (given_write a h)) eqn:C; [destruct created; discriminate|]. right. right. apply checked_err in C.
      destruct created; injection H as <- <- <-; exact C.
    - injection H as <- <- <-. auto.
  Qed.

  (** ** Writing *)
  (** [sync] takes five options with fixed defaults; everything else is a setting of asdf. *)
  Theorem c149_sync : forall f kw, exists o c, sync config f kw = EUpdate o c /\
    (forall k d, In (k, d) [("all_array_storage", VNone); ("all_array_compression", VText "input"); ("pad_blocks", VBool false);
                            ("include_block_index", VBool true); ("version", VNone)] ->
       dget k o = Some (match dget k kw with Some v => v | None => d end)) /\ List.length o = 5 /\
    ((forall k, In k (dkeys kw) -> In k ["all_array_storage"; "all_array_compression"; "pad_blocks"; "include_block_index"; "version"]) ->
     configured config (f_threshold f) c).
  Proof.
    intros f kw. eexists _, _. split; [reflexivity|]. split; [|split; [reflexivity|]].
    - intros k d [H|[H|[H|[H|[H|[]]]]]]; injection H as <- <-; reflexivity.
    - intro H. assert (filter (fun p => negb (smem (fst p) (map fst sync_names))) kw = []) as ->.
      { induction kw as [|[k v] kw IH]; [reflexivity|]. cbn [filter fst].
        assert (smem k (map fst sync_names) = true) as ->.
        { apply existsb_exists. exists k. split; [|apply String.eqb_refl]. apply (H k). now left. }
        cbn [negb]. apply IH. intros q Hq. apply H. now right. }
      apply (proj1 (c149_threshold (f_threshold f) VNone)).
  Qed.
  (** Other settings, e.g. another threshold. *)
  Theorem c149_sync_setting : forall f k v,
    ~ In k ["all_array_storage"; "all_array_compression"; "pad_blocks"; "include_block_index"; "version"] -> v <> VNone ->
    exists o c, sync config f [(k, v)] = EUpdate o c /\ dget k c = Some v /\
      (forall q, In q ["all_array_storage"; "all_array_compression"; "pad_blocks"; "include_block_index"; "version"] ->
         dget q o = dget q sync_names) /\
      (k <> "array_inline_threshold" -> dget "array_inline_threshold" c = Some (f_threshold f)).
  Proof.
    intros f k v N V. eexists _, _. split; [reflexivity|].
    assert (forall q, In q ["all_array_storage"; "all_array_compression"; "pad_blocks"; "include_block_index"; "version"] -> String.eqb q k = false) as D.
    { intros q Hq. apply String.eqb_neq. intros ->. now apply N. }
    assert (smem k (map fst sync_names) = false) as F.
    { destruct (smem k _) eqn:Q; [|reflexivity]. apply existsb_exists in Q as (x & Hx & E). apply String.eqb_eq in E. subst x. now elim N. }
    cbn [filter fst]. rewrite F. cbn [negb]. split; [|split].
    - unfold config_with. cbn [dget]. destruct (String.eqb_spec "array_inline_threshold" k) as [<-|T].
      + destruct v; try congruence; cbn [fold_left fst snd]; now rewrite dget_dset, String.eqb_refl.
      + cbn [dset]. apply String.eqb_neq in T as T'. rewrite T'. cbn [fold_left fst snd dset]. rewrite !dget_dset, String.eqb_refl.
        destruct (String.eqb_spec k "array_inline_threshold"); congruence.
    - intros q Hq. pose proof (D q Hq) as Dq. cbn in Hq. destruct Hq as [<-|[<-|[<-|[<-|[<-|[]]]]]]; cbn [sync_names map fst snd dget];
        rewrite ?Dq; cbn; rewrite ?Dq; reflexivity.
    - intro T. unfold config_with. cbn [dget]. destruct (String.eqb_spec "array_inline_threshold" k); [congruence|].
      cbn [dset]. destruct (String.eqb_spec "array_inline_threshold" k); [congruence|]. cbn [fold_left fst snd]. now rewrite dget_dset.
  Qed.
  (** Closing writes once with the options of the file if it is to be kept in sync, else nothing. *)
  Theorem c149_close : forall f h, close config f h =
    if f_sync f then if String.eqb (f_mode f) "rw" then [sync config f (at_ h (f_write f))] else [] else [].
  Proof. intros f h. unfold close. now destruct (f_sync f), (String.eqb (f_mode f) "rw"). Qed.
  (** Without options [write_to] takes those of the file; given options replace all of them. The threshold is
      the given one or that of the file. *)
  Theorem c149_write_to : forall f h t kw,
    let o := match kw with [] => at_ h (f_write f) | _ => kw end in
    match write_to accepted config f h t kw with
    | Ok e => (forall k, In k (dkeys o) -> In k accepted) /\
              exists c, e = EWrite o c /\ configured config (match t with VNone => f_threshold f | _ => t end) c
    | Err e => e = TypeError /\ exists k, In k (dkeys o) /\ ~ In k accepted
    end.
  Proof.
    intros f h t kw o. unfold write_to. fold o. destruct (checked accepted o) as [[]|e] eqn:C; cbn [bind].
    - split; [exact (proj1 (checked_iff _) C)|]. eexists. split; [reflexivity|]. apply (proj2 (c149_threshold (f_threshold f) t)).
    - now apply checked_err in C.
  Qed.

  (** ** Copies *)
  Definition holds (f : file) (h : heap) : Prop := f_asdf f < List.length h /\ f_write f < List.length h /\ f_asdf f <> f_write f.
  (** The copy has the mode, the dictionaries, the threshold and the synchronisation of the file. Its schemas are
      those of the file unless there is one in the dictionary for asdf, which is then used for both. *)
  Theorem c149_copy : forall f h h' es g, holds f h -> (f_sync f = true -> f_mode f = "rw") ->
    (forall p, f_read_schema f = Some p \/ f_write_schema f = Some p -> exists_ p = true) ->
    copy exists_ lookup accepted recent config f h = (h', es, Ok g) ->
    f_mode g = f_mode f /\ f_asdf g = f_asdf f /\ f_write g = f_write f /\ f_sync g = f_sync f /\ f_threshold g = f_threshold f /\
    at_ h' (f_write f) = at_ h (f_write f) /\
    match dget "custom_schema" (at_ h (f_asdf f)) with
    | Some v => schema_of v (f_read_schema g) (f_write_schema g)
    | None => f_read_schema g = f_read_schema f /\ f_write_schema g = f_write_schema f
    end.
  Proof.
    intros f h h' es g (Ha & Hw & Hn) Sy X H. unfold copy in H.
    destruct (write_to accepted config f h VNone []) as [e|e] eqn:W; [|discriminate].
    set (a := Args (f_mode f) (Some (f_asdf f)) (Some (f_write f)) false (f_sync f) (custom_schema f) (VText "input") false (f_threshold f)) in *.
    destruct (new_file exists_ lookup accepted recent config false a h) as [[h1 es1] r] eqn:N. injection H as <- <- ->.
    assert (V : valid_args a h).
    { split; [|split]; cbn; intros r E; injection E as <-; try assumption. congruence. }
    destruct (c149_new false a h _ _ _ V N) as (M & T & S & Q & Aw & _ & _ & Ek & Ew & _ & _).
    cbn in M, T. specialize (Ek _ eq_refl). specialize (Ew _ eq_refl). cbn [given_write a a_write] in Aw. rewrite Ew in Aw.
    repeat (split; [first [assumption | idtac]|]).
    - cbn in S. destruct (f_sync f); [apply S; split; [reflexivity|now apply Sy]|].
      destruct (f_sync g); [|reflexivity]. now destruct (proj1 S eq_refl).
    - unfold given_schema in Q. cbn [given_asdf a a_asdf a_schema] in Q.
      destruct (dget "custom_schema" (at_ h (f_asdf f))) as [v|]; [exact Q|].
      apply c149_schemas in Q. revert Q X. unfold custom_schema. clear.
      assert (R : forall p, exists_ p = true -> resolve exists_ lookup (VText p) = Ok (Some p)) by (intros p H; cbn; now rewrite H).
      assert (R0 : resolve exists_ lookup VNone = Ok None) by reflexivity.
      destruct (f_read_schema f) as [p|] eqn:Er, (f_write_schema f) as [q|] eqn:Eq; intros Q X.
      + pose proof (R p (X p (or_introl eq_refl))) as Rp. pose proof (R q (X q (or_intror eq_refl))) as Rq.
        destruct (String.eqb_spec p q) as [<-|D]; cbn [handle_schema] in Q; rewrite ?Rp, ?Rq in Q; cbn [bind] in Q; injection Q as <- <-; now split.
      + pose proof (R p (X p (or_introl eq_refl))) as Rp. cbn [handle_schema schema_val] in Q. rewrite Rp, R0 in Q. cbn [bind] in Q. injection Q as <- <-. now split.
      + pose proof (R q (X q (or_intror eq_refl))) as Rq. cbn [handle_schema schema_val] in Q. rewrite R0, Rq in Q. cbn [bind] in Q. injection Q as <- <-. now split.
      + cbn [handle_schema] in Q. injection Q as <- <-. now split.
  Qed.
End Proofs.
Print Assumptions c149_schemas.
Print Assumptions c149_schema_error.
Print Assumptions c149_threshold.
Print Assumptions c149_new.
Print Assumptions c149_new_ok.
Print Assumptions c149_new_error.
Print Assumptions c149_sync.
Print Assumptions c149_sync_setting.
Print Assumptions c149_close.
Print Assumptions c149_write_to.
Print Assumptions c149_copy.

(** ** Examples and claims that do not hold *)
Definition here (s : string) : bool := String.eqb s "a.yaml" || String.eqb s "b.yaml".
Definition none_found (s : string) : res string := Err ValueError.
Definition known : list string :=
  ["all_array_storage"; "all_array_compression"; "compression_kwargs"; "pad_blocks"; "include_block_index"; "version"].
Definition make := new_file here none_found known true [("array_inline_threshold", VNone)].
Definition dup := copy here none_found known true [("array_inline_threshold", VNone)].
Definition plain : args := Args "rw" None None true true VNone (VText "zlib") false (VNum 10).
Definition with_asdf (k : nat) (schema : val) : args := Args "rw" (Some k) None true true schema (VText "input") false (VNum 10).

Example ex_c149 : make true plain [] =
  ([[("all_array_compression", VText "zlib")]; [("memmap", VBool false)]],
   [ENew [("memmap", VBool false)]; EWrite [("all_array_compression", VText "zlib")] [("array_inline_threshold", VNum 10)]],
   Ok (File "rw" 1 0 None None true (VNum 10))) /\ valid_args plain [].
Proof. split; [reflexivity|]. split; [discriminate|split; discriminate]. Qed.
Example ex_c149_error : (exists h, make true (with_asdf 0 (VSeq [VText "a.yaml"])) [[]] = (h, [], Err ValueError)) /\
  (exists h, make true (with_asdf 0 (VSeq [VText "a.yaml"; VNum 1])) [[]] = (h, [], Err TypeError)) /\
  (exists h, make true (with_asdf 0 (VText "c.yaml")) [[]] = (h, [], Err ValueError)).
Proof. repeat split; eexists; reflexivity. Qed.

(** A copy has the schemas of the file: after writing, the schema for writing is used for both. *)
Theorem c149_copy_refuted : exists a h h1 es f h2 es2 g,
  make true a h = (h1, es, Ok f) /\ dup f h1 = (h2, es2, Ok g) /\
  f_read_schema f = Some "a.yaml" /\ f_write_schema f = Some "b.yaml" /\ f_read_schema g = Some "b.yaml" /\ f_write_schema g = Some "b.yaml".
Proof.
  exists (Args "rw" None None true true (VSeq [VText "a.yaml"; VText "b.yaml"]) (VText "input") false (VNum 10)), [].
  eexists _, _, _, _, _, _. split; [reflexivity|]. split; [reflexivity|]. now repeat split.
Qed.
Print Assumptions c149_copy_refuted.
(** Two copies of a file have the same schemas. *)
Theorem c149_copies_refuted : exists a h h1 es f h2 es2 g h3 es3 g',
  make true a h = (h1, es, Ok f) /\ dup f h1 = (h2, es2, Ok g) /\ dup f h2 = (h3, es3, Ok g') /\
  f_write_schema g = None /\ f_write_schema g' = Some "a.yaml".
Proof.
  exists (Args "rw" None None true true (VSeq [VText "a.yaml"; VNone]) (VText "input") false (VNum 10)), [].
  eexists _, _, _, _, _, _, _, _, _. split; [reflexivity|]. split; [reflexivity|]. split; [reflexivity|]. now split.
Qed.
Print Assumptions c149_copies_refuted.
(** A file without a schema is not validated: not if the dictionary for asdf has been used for another file. *)
Theorem c149_leak_refuted : exists h h1 es f h2 es2 g,
  dget "custom_schema" (at_ h 0) = None /\
  make true (with_asdf 0 (VText "a.yaml")) h = (h1, es, Ok f) /\
  make true (with_asdf 0 VNone) h1 = (h2, es2, Ok g) /\ f_write_schema g = Some "a.yaml" /\
  exists h3 es3 g', make true (with_asdf 0 VNone) h = (h3, es3, Ok g') /\ f_write_schema g' = None.
Proof.
  exists [[("memmap", VBool false)]]. eexists _, _, _, _, _, _. split; [reflexivity|]. split; [reflexivity|]. split; [reflexivity|].
  split; [reflexivity|]. eexists _, _, _. now split.
Qed.
Print Assumptions c149_leak_refuted.
(** A constructor that fails changes nothing: the schema is removed from the dictionary. *)
Theorem c149_failing_refuted : exists h h' es,
  make true (Args "w" (Some 0) None true true VNone VNone false VNone) h = (h', es, Err ValueError) /\
  dget "custom_schema" (at_ h 0) = Some (VText "a.yaml") /\ dget "custom_schema" (at_ h' 0) = None.
Proof. exists [[("custom_schema", VText "a.yaml")]]. eexists _, _. split; [reflexivity|]. now split. Qed.
Print Assumptions c149_failing_refuted.
(** The compression is used: not if there are other options of writing. *)
Theorem c149_compression_refuted : exists h h' kw o c f,
  make true (Args "rw" None (Some 0) true true VNone (VText "zlib") false (VNum 10)) h = (h', [ENew kw; EWrite o c], Ok f) /\
  dget "all_array_compression" o = None.
Proof. exists [[("pad_blocks", VBool true)]]. eexists _, _, _, _, _. split; reflexivity. Qed.
Print Assumptions c149_compression_refuted.
(** [sync] writes with the compression of the file. *)
Theorem c149_sync_refuted : exists h es f o c,
  make true plain [] = (h, es, Ok f) /\ dget "all_array_compression" (at_ h (f_write f)) = Some (VText "zlib") /\
  sync [] f [] = EUpdate o c /\ dget "all_array_compression" o = Some (VText "input").
Proof. eexists _, _, _, _, _. split; [reflexivity|]. split; [reflexivity|]. split; reflexivity. Qed.
Print Assumptions c149_sync_refuted.
(** Closing writes with the options with which the file was written. *)
Theorem c149_close_refuted : exists h h' kw o c f o' c',
  make true (Args "rw" None (Some 0) true true VNone VNone false (VNum 10)) h = (h', [ENew kw; EWrite o c], Ok f) /\
  close [] f h' = [EUpdate o' c'] /\ dget "compression_kwargs" o = Some (VNum 9) /\ dget "compression_kwargs" o' = None.
Proof.
  exists [[("all_array_compression", VText "zlib"); ("compression_kwargs", VNum 9)]]. eexists _, _, _, _, _, _, _.
  split; [reflexivity|]. split; [reflexivity|]. split; reflexivity.
Qed.
Print Assumptions c149_close_refuted.
(** Options that are not given to [write_to] are those of the file. *)
Theorem c149_write_to_refuted : exists h es f o c,
  make true plain [] = (h, es, Ok f) /\ write_to known [] f h VNone [("pad_blocks", VBool true)] = Ok (EWrite o c) /\
  dget "all_array_compression" o = None.
Proof. eexists _, _, _, _, _. split; [reflexivity|]. split; reflexivity. Qed.
Print Assumptions c149_write_to_refuted.
