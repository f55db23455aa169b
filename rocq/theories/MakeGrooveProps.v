(* C148: creation of grooves. *)
From Coq Require Import List String Bool Arith ZArith Lia.
From Verif Require Import Base MakeGrooveModel MakeGrooveSpec.
Import ListNotations.
Open Scope string_scope.

Lemma dim_eqb_spec a b : dim_eqb a b = true <-> a = b.
Proof.
  destruct a, b; cbn; split; try congruence; try discriminate.
  - intros E. apply Nat.eqb_eq in E. congruence.
  - intros [= ->]. apply Nat.eqb_refl.
Qed.

Lemma bind_fields_bound kw fs : forall args vs, bind_fields fs args kw = Ok vs <-> bound kw fs args vs.
Proof.
  induction fs as [|f r IH]; intros args vs; cbn [bind_fields].
  - destruct args; split; try discriminate.
    + intros [= <-]. constructor.
    + intros H. inversion H. reflexivity.
    + intros H. inversion H.
  - destruct args as [|v a].
    + destruct (dget (f_name f) kw) as [v|] eqn:G.
      * split.
        -- destruct (bind_fields r [] kw) as [l|e] eqn:E; [|discriminate]. cbn [bind]. intros [= <-].
           apply b_named; [exact G|]. now apply IH.
        -- intros H. inversion H; subst; [|congruence].
           assert (bind_fields r [] kw = Ok vs0) as -> by now apply IH. cbn [bind]. congruence.
      * destruct (f_default f) as [v|] eqn:D.
        -- split.
           ++ destruct (bind_fields r [] kw) as [l|e] eqn:E; [|discriminate]. cbn [bind]. intros [= <-].
              apply b_default; [exact G|exact D|]. now apply IH.
           ++ intros H. inversion H; subst; [congruence|].
              assert (bind_fields r [] kw = Ok vs0) as -> by now apply IH. cbn [bind]. congruence.
        -- split; [discriminate|]. intros H. inversion H; subst; congruence.
    + assert (M : dmem (f_name f) kw = match dget (f_name f) kw with Some _ => true | None => false end).
      { unfold dmem. induction kw as [|[k x] w IHw]; [reflexivity|]. cbn [dget].
        destruct (String.eqb (f_name f) k); [reflexivity|]. reflexivity. }
      rewrite M. destruct (dget (f_name f) kw) as [w|] eqn:G.
      * split; [discriminate|]. intros H. inversion H. subst. congruence.
      * split.
        -- destruct (bind_fields r a kw) as [l|e] eqn:E; [|discriminate]. cbn [bind]. intros [= <-].
           apply b_position; [exact G|]. now apply IH.
        -- intros H. inversion H; subst.
           assert (bind_fields r a kw = Ok vs0) as -> by now apply IH. reflexivity.
Qed.

Lemma bind_fields_error kw fs : forall args e, bind_fields fs args kw = Err e -> e = TypeError.
Proof.
  induction fs as [|f r IH]; intros args e; cbn [bind_fields].
  - destruct args; congruence.
  - destruct args as [|v a].
    + destruct (dget (f_name f) kw) as [v|]; [|destruct (f_default f) as [v|]; [|congruence]];
        destruct (bind_fields r [] kw) as [l|e0] eqn:E; cbn [bind]; try discriminate;
        intros [= <-]; eapply IH, E.
    + destruct (dmem (f_name f) kw); [congruence|].
      destruct (bind_fields r a kw) as [l|e0] eqn:E; cbn [bind]; try discriminate.
      intros [= <-]. eapply IH, E.
Qed.

Lemma bound_length kw fs args vs : bound kw fs args vs -> List.length vs = List.length fs.
Proof. induction 1; cbn; congruence. Qed.

Lemma known_iff g (kw : dict value) :
  forallb (fun k => smem k (map f_name (g_fields g))) (dkeys kw) = true <->
  (forall k, In k (map fst kw) -> In k (map f_name (g_fields g))).
Proof.
  rewrite forallb_forall. unfold dkeys, smem. split; intros H k I; specialize (H k I).
  - apply existsb_exists in H. destruct H as (x & J & E). apply String.eqb_eq in E. now subst.
  - apply existsb_exists. exists k. split; [exact H|apply String.eqb_refl].
Qed.

(* The arguments are accepted exactly if all names are fields and every field
   has a value, from one source. *)
Theorem c148_arguments g args kw :
  (forall vs, bind_args g args kw = Ok vs <->
     (forall k, In k (map fst kw) -> In k (map f_name (g_fields g))) /\ bound kw (g_fields g) args vs) /\
  (forall e, bind_args g args kw = Err e -> e = TypeError).
Proof.
  pose proof (known_iff g kw) as K. unfold bind_args.
  destruct (forallb (fun k => smem k (map f_name (g_fields g))) (dkeys kw)).
  - split; [|apply bind_fields_error]. intros vs. rewrite bind_fields_bound. split; [|tauto].
    intros B. split; [now apply K|exact B].
  - split; [|congruence]. intros vs. split; [discriminate|]. intros [H _]. apply K in H. discriminate.
Qed.
Print Assumptions c148_arguments.

(* All twelve classes can be defined, and their tables say what the names of
   ISO 9692-1 say: lengths are checked as lengths, angles as numbers without
   dimension.  Not checked are code numbers and the two optional heights, and for
   FFGroove all fields but the first. *)
Definition table_ok (g : groove) : Prop :=
  check_class g = Ok g /\
  NoDup (map f_name (g_fields g)) /\ NoDup (map fst (g_mapping g)) /\ NoDup (map snd (g_mapping g)) /\
  (forall k p, In (k, p) (g_mapping g) -> In k (map f_name (g_fields g)) /\ In p parameters) /\
  (forall f, In f (g_fields g) -> f_name f <> "code_number" -> In (f_name f) (map fst (g_mapping g))) /\
  (forall i f d, nth_error (g_fields g) i = Some f -> nth_error (g_dims g) i = Some d ->
     (d = Some Length -> In (f_name f) lengths) /\ (d = Some Dimensionless -> In (f_name f) angles) /\
     (forall n, d <> Some (OtherDim n)) /\
     (d = None <-> f_name f = "code_number" \/ f_name f = "h1" \/ f_name f = "h2" \/
        (g_name g = "FFGroove" /\ f_name f <> "t_1")) /\
     (d <> None -> f_default f = None \/ exists z, f_default f = Some (VQ Length z))).

Lemma names_distinct : NoDup (map g_name grooves).
Proof. repeat (constructor; [cbn; intuition discriminate|]). constructor. Qed.

Theorem c148_tables : Forall table_ok grooves /\ NoDup (map g_name grooves) /\ List.length grooves = 12.
Proof.
  split; [|split; [exact names_distinct|reflexivity]].
  repeat (apply Forall_cons;
    [unfold table_ok; split; [reflexivity|];
     split; [repeat (constructor; [cbn; intuition discriminate|]); constructor|];
     split; [repeat (constructor; [cbn; intuition discriminate|]); constructor|];
     split; [repeat (constructor; [cbn; intuition discriminate|]); constructor|];
     split; [intros k p I; cbn in I; repeat (destruct I as [[= <- <-]|I]; [split; cbn; tauto|]); contradiction|];
     split; [intros f I; cbn in I; repeat (destruct I as [<-|I]; [cbn; tauto|]); contradiction|];
     intros i f d; do 11 (destruct i as [|i];
       [cbn; first [discriminate |
         intros [= <-] [= <-]; cbn; repeat split; intros; try discriminate; try tauto; try (intuition discriminate); eauto]|]);
     cbn; destruct i; discriminate
    |]).
  apply Forall_nil.
Qed.
Print Assumptions c148_tables.

Section Make.
  Variable parse : string -> res (dim * Z).
  Notation is_q := (is_quantity parse).
  Notation create := (create parse).
  Notation get_groove := (get_groove parse).

  Lemma to_quantity_spec v d m : to_quantity parse v = Ok (d, m) <-> is_q v d m.
  Proof.
    split.
    - destruct v; cbn; try discriminate.
      + intros [= -> ->]. constructor.
      + intros [= <- ->]. constructor.
      + intros E. now constructor.
    - destruct 1; cbn; auto.
  Qed.

  Lemma check_fits dims : forall vs, check parse dims vs = Ok tt <-> fits parse dims vs.
  Proof.
    unfold fits. induction dims as [|[d|] r IH]; intros vs.
    - split; [|reflexivity]. intros _ i d v E. destruct i; discriminate.
    - destruct vs as [|v t].
      + split; [|reflexivity]. intros _ i d' v' _ E. destruct i; discriminate.
      + cbn [check]. destruct (to_quantity parse v) as [[d' m]|e] eqn:Q; cbn [bind fst].
        * destruct (dim_eqb d' d) eqn:D.
          -- apply dim_eqb_spec in D. subst. rewrite IH. split.
             ++ intros H [|i] d0 v0 A0 B0; cbn in A0, B0; [|eapply H; eauto].
                injection A0 as <-. injection B0 as <-. exists m. now apply to_quantity_spec.
             ++ intros H i d0 v0 A0 B0. exact (H (S i) d0 v0 A0 B0).
          -- split; [discriminate|]. intros H. destruct (H 0 d v eq_refl eq_refl) as [m' I].
             apply to_quantity_spec in I. rewrite Q in I. injection I as -> ->.
             assert (dim_eqb d d = true) by now apply dim_eqb_spec. congruence.
        * split; [discriminate|]. intros H. destruct (H 0 d v eq_refl eq_refl) as [m' I].
          apply to_quantity_spec in I. congruence.
    - destruct vs as [|v t].
      + split; [|reflexivity]. intros _ i d' v' _ E. destruct i; discriminate.
      + cbn [check]. rewrite IH. split.
        * intros H [|i] d0 v0 A0 B0; cbn in A0, B0; [discriminate|]. eapply H; eauto.
        * intros H i d0 v0 A0 B0. exact (H (S i) d0 v0 A0 B0).
  Qed.

  Lemma check_first dims : forall vs i d v d' m,
    nth_error dims i = Some (Some d) -> nth_error vs i = Some v -> is_q v d' m -> d' <> d ->
    fits parse (firstn i dims) (firstn i vs) -> check parse dims vs = Err DimensionalityError.
  Proof.
    induction dims as [|x r IH]; intros vs i d v d' m D V Q N F; [destruct i; discriminate|].
    destruct vs as [|w t]; [destruct i; discriminate|]. destruct i as [|i]; cbn [nth_error] in D, V.
    - injection D as ->. injection V as ->. cbn [check]. apply to_quantity_spec in Q. rewrite Q. cbn [bind fst].
      destruct (dim_eqb d' d) eqn:E; [|reflexivity]. apply dim_eqb_spec in E. contradiction.
    - assert (C : check parse r t = Err DimensionalityError).
      { eapply IH; eauto. intros j d0 v0 A0 B0. exact (F (S j) d0 v0 A0 B0). }
      destruct x as [x|]; cbn [check]; [|exact C].
      destruct (F 0 x w eq_refl eq_refl) as [m' I]. apply to_quantity_spec in I. rewrite I. cbn [bind fst].
      assert (dim_eqb x x = true) as -> by now apply dim_eqb_spec. exact C.
  Qed.

  (* A groove class can be called exactly with accepted arguments that have the
     demanded dimensions; the fields then have the values as they were given. *)
  Theorem c148_created g args kw fs : create g args kw = Ok fs <->
    (forall k, In k (map fst kw) -> In k (map f_name (g_fields g))) /\
    exists vs, bound kw (g_fields g) args vs /\ fits parse (g_dims g) vs /\
      fs = combine (map f_name (g_fields g)) vs.
  Proof.
    unfold MakeGrooveModel.create. split.
    - destruct (bind_args g args kw) as [vs|e] eqn:B; [|discriminate]. cbn [bind].
      destruct (check parse (g_dims g) vs) as [[]|e] eqn:C; [|discriminate]. cbn [bind]. intros [= <-].
      apply (proj1 (c148_arguments g args kw)) in B. destruct B as [K B]. split; [exact K|].
      exists vs. split; [exact B|]. split; [|reflexivity]. now apply check_fits.
    - intros [K (vs & B & F & ->)].
      rewrite (proj2 (proj1 (c148_arguments g args kw) vs)) by auto. cbn [bind].
      apply check_fits in F. now rewrite F.
  Qed.

  (* The first field with another dimension is a DimensionalityError. *)
  Theorem c148_dimension g args kw vs i d v d' m :
    bind_args g args kw = Ok vs ->
    nth_error (g_dims g) i = Some (Some d) -> nth_error vs i = Some v -> is_q v d' m -> d' <> d ->
    fits parse (firstn i (g_dims g)) (firstn i vs) ->
    create g args kw = Err DimensionalityError.
  Proof.
    intros B D V Q N F. unfold MakeGrooveModel.create. rewrite B. cbn [bind].
    now rewrite (check_first _ _ _ _ _ _ _ D V Q N F).
  Qed.

  (* Text with the right dimension is accepted and stays text. *)
  Theorem c148_text_refuted s m : parse s = Ok (Length, m) ->
    create IGroove [VText s] [] = Ok [("t", VText s); ("b", VQ Length 0); ("code_number", VFactory)].
  Proof. intros P. cbn. rewrite P. reflexivity. Qed.

  (* FFGroove accepts all dimensions behind the first field. *)
  Theorem c148_front_refuted m v1 v2 v3 v4 v5 :
    create FFGroove [VQ Length m; v1; v2; v3; v4; v5] [] =
    Ok [("t_1", VQ Length m); ("t_2", v1); ("alpha", v2); ("code_number", v3); ("b", v4); ("e", v5)].
  Proof. reflexivity. Qed.

  (** get_groove *)
  Lemma convert_get mp given : forall d, NoDup (map fst mp) -> convert parse mp given = Ok d ->
    (forall k p, In (k, p) mp ->
       (given p = VNone /\ dget k d = None) \/
       (exists x m, is_q (given p) x m /\ dget k d = Some (VQ x m))) /\
    (forall k, ~ In k (map fst mp) -> dget k d = None) /\
    (forall k, In k (map fst d) -> In k (map fst mp)).
  Proof.
    induction mp as [|[k0 p0] r IH]; intros d ND E.
    - injection E as <-. split; [intros k p []|]. split; [reflexivity|intros k []].
    - inversion ND as [|? ? NI ND']; subst. cbn [fst] in NI. cbn [convert] in E.
      assert (Cases : (given p0 = VNone /\ convert parse r given = Ok d) \/
        (exists x m d0, is_q (given p0) x m /\ convert parse r given = Ok d0 /\ d = (k0, VQ x m) :: d0)).
      { destruct (given p0) as [x m|m|s| |] eqn:G; [| | |left; auto|].
        - right. cbn [to_quantity bind fst snd] in E. destruct (convert parse r given) as [d0|]; [|discriminate].
          injection E as <-. exists x, m, d0. split; [constructor|auto].
        - right. cbn [to_quantity bind fst snd] in E. destruct (convert parse r given) as [d0|]; [|discriminate].
          injection E as <-. exists Dimensionless, m, d0. split; [constructor|auto].
        - right. cbn [to_quantity] in E. destruct (parse s) as [[x m]|] eqn:P; [|discriminate]. cbn [bind fst snd] in E.
          destruct (convert parse r given) as [d0|]; [|discriminate].
          injection E as <-. exists x, m, d0. split; [now constructor|auto].
        - discriminate. }
      destruct Cases as [[G E']|(x & m & d0 & Q & E' & ->)].
      + destruct (IH d ND' E') as (I1 & I2 & I3). split; [|split].
        * intros k p [[= <- <-]|I]; [|apply I1, I]. left. split; [exact G|]. now apply I2.
        * intros k N1. apply I2. intros I. apply N1. now right.
        * intros k I. right. now apply I3.
      + destruct (IH d0 ND' E') as (I1 & I2 & I3). split; [|split].
        * intros k p [[= <- <-]|I].
          -- right. exists x, m. split; [exact Q|]. cbn [dget]. now rewrite String.eqb_refl.
          -- cbn [dget]. destruct (String.eqb_spec k k0) as [->|]; [|apply I1, I].
             destruct NI. apply in_map_iff. exists (k0, p). auto.
        * intros k N1. cbn [dget]. destruct (String.eqb_spec k k0) as [->|]; [destruct N1; now left|].
          apply I2. intros I. apply N1. now right.
        * intros k [<-|I]; [now left|right; now apply I3].
  Qed.

  Lemma dget_dset (k n : string) (v : value) d : dget n (dset k v d) = if String.eqb n k then Some v else dget n d.
  Proof.
    induction d as [|[a w] d IH]; cbn.
    - destruct (String.eqb n k); reflexivity.
    - destruct (String.eqb_spec k a) as [->|NE]; cbn.
      + destruct (String.eqb_spec n a); reflexivity.
      + rewrite IH. destruct (String.eqb_spec n a) as [->|N2]; [|reflexivity].
        destruct (String.eqb_spec a k) as [->|]; [congruence|reflexivity].
  Qed.

  Lemma bound_named kw fs : forall vs, bound kw fs [] vs ->
    forall i f, nth_error fs i = Some f ->
    nth_error vs i = match dget (f_name f) kw with Some v => Some v | None => f_default f end.
  Proof.
    induction fs as [|g r IH]; intros vs B i f E; [destruct i; discriminate|].
    inversion B; subst; destruct i as [|i]; cbn [nth_error] in *.
    - injection E as <-. now rewrite H1.
    - now apply IH.
    - injection E as <-. rewrite H1. now symmetry.
    - now apply IH.
  Qed.

  Lemma combine_get names : forall (vs : list value) i k, NoDup names -> List.length vs = List.length names ->
    nth_error names i = Some k -> dget k (combine names vs) = nth_error vs i.
  Proof.
    induction names as [|n r IH]; intros vs i k ND Len E; [destruct i; discriminate|].
    inversion ND as [|? ? NI ND']; subst. destruct vs as [|v t]; [discriminate|]. cbn [combine dget].
    destruct i as [|i]; cbn [nth_error] in *.
    - injection E as <-. now rewrite String.eqb_refl.
    - destruct (String.eqb_spec k n) as [->|]; [destruct NI; eapply nth_error_In, E|].
      apply IH; auto.
  Qed.

  Lemma find_groove ty g : find (fun g => String.eqb (g_name g) ty) grooves = Some g ->
    In g grooves /\ g_name g = ty.
  Proof. intros F. apply find_some in F. destruct F as [I E]. apply String.eqb_eq in E. auto. Qed.

  Lemma table g : In g grooves -> table_ok g.
  Proof. intros I. destruct c148_tables as [T _]. rewrite Forall_forall in T. now apply T. Qed.

  Lemma get_groove_parts ty given n fs : get_groove ty given = Ok (n, fs) ->
    exists g args vs, In g grooves /\ g_name g = ty /\ n = ty /\ convert parse (g_mapping g) given = Ok args /\
      bound (match given "code_number" with VNone => args | v => dset "code_number" v args end) (g_fields g) [] vs /\
      fits parse (g_dims g) vs /\ fs = combine (map f_name (g_fields g)) vs.
  Proof.
    unfold MakeGrooveModel.get_groove. destruct (find _ grooves) as [g|] eqn:F; [|discriminate].
    apply find_groove in F. destruct F as [I E].
    destruct (convert parse (g_mapping g) given) as [args|] eqn:C; [|discriminate]. cbn [bind].
    set (args' := match given "code_number" with VNone => args | v => dset "code_number" v args end).
    destruct (create g [] args') as [fs'|] eqn:M; [|discriminate]. cbn [bind]. intros [= <- <-].
    apply c148_created in M. destruct M as [_ (vs & B & Fi & ->)].
    exists g, args, vs. subst args'. auto 10.
  Qed.

  (* Every field of a created groove has the given parameter as quantity, or its
     default; code numbers are kept as they are. *)
  Theorem c148_fields ty given n fs : get_groove ty given = Ok (n, fs) ->
    n = ty /\ exists g, In g grooves /\ g_name g = ty /\
    forall f, In f (g_fields g) ->
      exists v, dget (f_name f) fs = Some v /\
        (f_name f = "code_number" ->
           (given "code_number" = VNone /\ f_default f = Some v) \/ (given "code_number" <> VNone /\ v = given "code_number")) /\
        (f_name f <> "code_number" -> exists p, In (f_name f, p) (g_mapping g) /\
           ((given p = VNone /\ f_default f = Some v) \/ exists d m, is_q (given p) d m /\ v = VQ d m)).
  Proof.
    intros H. destruct (get_groove_parts _ _ _ _ H) as (g & args & vs & I & E & -> & C & B & Fi & ->).
    split; [reflexivity|]. exists g. split; [exact I|]. split; [exact E|].
    destruct (table g I) as (_ & ND & NM & _ & _ & MF & _).
    destruct (convert_get _ _ _ NM C) as (C1 & C2 & _).
    intros f IF. destruct (In_nth_error _ _ IF) as [i Ei].
    assert (Hv : exists v, nth_error vs i = Some v).
    { destruct (nth_error vs i) as [v|] eqn:Ev; [eauto|]. apply nth_error_None in Ev.
      apply bound_length in B. assert (i < List.length (g_fields g)) by (apply nth_error_Some; congruence). lia. }
    destruct Hv as [v Ev]. exists v. split.
    { rewrite (combine_get _ _ i); auto.
      - rewrite map_length. now apply bound_length in B.
      - now rewrite nth_error_map, Ei. }
    pose proof (bound_named _ _ _ B i f Ei) as G. rewrite Ev in G. split.
    - intros Nm. rewrite Nm in G. destruct (given "code_number") as [x m|m|s| |] eqn:Gc.
      + right. rewrite dget_dset, String.eqb_refl in G. split; congruence.
      + right. rewrite dget_dset, String.eqb_refl in G. split; congruence.
      + right. rewrite dget_dset, String.eqb_refl in G. split; congruence.
      + left. split; [reflexivity|].
        destruct (in_dec string_dec "code_number" (map fst (g_mapping g))) as [Im|Nm'].
        * apply in_map_iff in Im. destruct Im as ([k p] & Ek & Ip). cbn in Ek. subst k.
          assert (p = "code_number") as ->.
          { clear -I Ip. cbn in I. repeat (destruct I as [<-|I]; [cbn in Ip; intuition congruence|]). contradiction. }
          destruct (C1 _ _ Ip) as [[_ D]|(x & m & Q & _)].
          -- rewrite D in G. now symmetry.
          -- rewrite Gc in Q. inversion Q.
        * rewrite (C2 _ Nm') in G. now symmetry.
      + right. rewrite dget_dset, String.eqb_refl in G. split; congruence.
    - intros Nm. specialize (MF f IF Nm). apply in_map_iff in MF. destruct MF as ([k p] & Ek & Ip). cbn in Ek. subst k.
      exists p. split; [exact Ip|].
      assert (G' : Some v = match dget (f_name f) args with Some v => Some v | None => f_default f end).
      { rewrite G. destruct (given "code_number"); try reflexivity;
          rewrite dget_dset; destruct (String.eqb_spec (f_name f) "code_number"); congruence. }
      destruct (C1 _ _ Ip) as [[Gp D]|(x & m & Q & D)]; rewrite D in G'.
      + left. auto.
      + right. exists x, m. split; [exact Q|congruence].
  Qed.

  (* All checked fields are quantities with their dimension. *)
  Theorem c148_quantities ty given n fs : get_groove ty given = Ok (n, fs) ->
    forall g, In g grooves -> g_name g = ty ->
    forall i f d, nth_error (g_fields g) i = Some f -> nth_error (g_dims g) i = Some (Some d) ->
      exists m, dget (f_name f) fs = Some (VQ d m).
  Proof.
    intros H g I E i f d Ef Ed.
    destruct (c148_fields _ _ _ _ H) as (_ & g' & I' & E' & Fields).
    destruct (get_groove_parts _ _ _ _ H) as (g'' & args & vs & I'' & E'' & _ & C & B & Fi & ->).
    assert (U : forall a b, In a grooves -> In b grooves -> g_name a = g_name b -> a = b).
    { clear. intros a b Ia Ib Eq. pose proof names_distinct as ND. revert ND Ia Ib. generalize grooves.
      induction l as [|x r IH]; intros ND Ia Ib; [contradiction|]. inversion ND as [|? ? NI ND']; subst.
      destruct Ia as [->|Ia], Ib as [->|Ib]; auto.
      - destruct NI. rewrite Eq. now apply in_map.
      - destruct NI. rewrite <- Eq. now apply in_map. }
    assert (g' = g) as -> by (apply U; congruence). assert (g'' = g) as -> by (apply U; congruence).
    destruct (table g I) as (_ & ND & _ & _ & _ & _ & T).
    destruct (T i f (Some d) Ef Ed) as (_ & _ & _ & Nc & Df).
    assert (Nm : f_name f <> "code_number").
    { intros X. assert (Some d = None) by (apply Nc; auto). discriminate. }
    destruct (Fields f (nth_error_In _ _ Ef)) as (v & Gv & _ & Fv).
    rewrite (combine_get _ _ i) in Gv; auto;
      [|rewrite map_length; now apply bound_length in B|now rewrite nth_error_map, Ef].
    destruct (Fi i d v Ed Gv) as [m Q]. exists m.
    rewrite (combine_get _ _ i); auto;
      [|rewrite map_length; now apply bound_length in B|now rewrite nth_error_map, Ef].
    rewrite Gv. f_equal.
    destruct (Fv Nm) as (p & _ & [[_ D]|(x & z & _ & ->)]).
    - destruct Df as [D'|[z D']]; [discriminate|congruence|]. rewrite D in D'. injection D' as ->.
      inversion Q. congruence.
    - inversion Q. congruence.
  Qed.

  (* So a parameter with a wrong dimension is an error for every checked field. *)
  Theorem c148_wrong ty given g i f d p d' m : In g grooves -> g_name g = ty ->
    nth_error (g_fields g) i = Some f -> nth_error (g_dims g) i = Some (Some d) ->
    In (f_name f, p) (g_mapping g) -> is_q (given p) d' m -> d' <> d ->
    exists e, get_groove ty given = Err e.
  Proof.
    intros I E Ef Ed Ip Q Ne. destruct (get_groove ty given) as [[n fs]|e] eqn:H; [|eauto]. exfalso.
    destruct (c148_quantities _ _ _ _ H g I E i f d Ef Ed) as [z Gz].
    destruct (get_groove_parts _ _ _ _ H) as (g2 & args & vs & I2 & E2 & _ & C & B & _ & ->).
    assert (g2 = g) as ->.
    { clear -I I2 E E2. cbn in I, I2.
      repeat (destruct I as [<-|I]; [repeat (destruct I2 as [<-|I2]; [first [reflexivity|cbn in E, E2; congruence]|]); contradiction|]).
      contradiction. }
    destruct (table g I) as (_ & ND & NM & _ & _ & _ & T).
    destruct (T i f (Some d) Ef Ed) as (_ & _ & _ & Nc & _).
    assert (Nm : f_name f <> "code_number").
    { intros X. assert (Some d = None) by (apply Nc; auto). discriminate. }
    destruct (convert_get _ _ _ NM C) as (C1 & _ & _).
    rewrite (combine_get _ _ i) in Gz; auto;
      [|rewrite map_length; now apply bound_length in B|now rewrite nth_error_map, Ef].
    rewrite (bound_named _ _ _ B i f Ef) in Gz.
    assert (Ga : dget (f_name f) (match given "code_number" with VNone => args | v => dset "code_number" v args end)
      = dget (f_name f) args).
    { destruct (given "code_number"); try reflexivity;
        rewrite dget_dset; destruct (String.eqb_spec (f_name f) "code_number"); congruence. }
    rewrite Ga in Gz. destruct (C1 _ _ Ip) as [[Gp _]|(x & y & Qx & D)].
    - rewrite Gp in Q. inversion Q.
    - rewrite D in Gz. injection Gz as -> ->. apply to_quantity_spec in Q, Qx. congruence.
  Qed.

  (* Parameters that a groove does not have are ignored, right or wrong. *)
  Theorem c148_ignored_refuted ty given given' :
    (forall g k p, In g grooves -> g_name g = ty -> In (k, p) (g_mapping g) -> given p = given' p) ->
    given "code_number" = given' "code_number" -> get_groove ty given = get_groove ty given'.
  Proof.
    intros H C. unfold MakeGrooveModel.get_groove. destruct (find _ grooves) as [g|] eqn:F; [|reflexivity].
    apply find_groove in F. destruct F as [I E]. rewrite C.
    assert (convert parse (g_mapping g) given = convert parse (g_mapping g) given') as ->; [|reflexivity].
    assert (H' : forall k p, In (k, p) (g_mapping g) -> given p = given' p) by (intros; eapply H; eauto).
    clear H I. induction (g_mapping g) as [|[k p] r IH]; [reflexivity|]. cbn [convert].
    rewrite (H' k p (or_introl eq_refl)), IH by (intros; eapply H'; right; eauto). reflexivity.
  Qed.

  (* Names that are no groove are a KeyError. *)
  Theorem c148_unknown ty given : ~ In ty (map g_name grooves) -> get_groove ty given = Err KeyError.
  Proof.
    intros NI. unfold MakeGrooveModel.get_groove. destruct (find _ grooves) as [g|] eqn:F; [|reflexivity].
    apply find_groove in F. destruct F as [I <-]. destruct NI. now apply in_map.
  Qed.

  (* A missing parameter of a required field is an error; it is a TypeError if
     the given ones can be read. *)
  Theorem c148_missing ty given g f p : In g grooves -> g_name g = ty -> In f (g_fields g) ->
    f_default f = None -> In (f_name f, p) (g_mapping g) -> given p = VNone ->
    match convert parse (g_mapping g) given with
    | Ok _ => get_groove ty given = Err TypeError
    | Err e => get_groove ty given = Err e
    end.
  Proof.
    intros I E IF D Ip Gp.
    assert (Fg : find (fun g => String.eqb (g_name g) ty) grooves = Some g).
    { clear -I E. subst ty. cbn in I. repeat (destruct I as [<-|I]; [reflexivity|]). contradiction. }
    unfold MakeGrooveModel.get_groove. rewrite Fg.
    destruct (convert parse (g_mapping g) given) as [args|e] eqn:C; [|reflexivity]. cbn [bind].
    set (args' := match given "code_number" with VNone => args | v => dset "code_number" v args end).
    unfold MakeGrooveModel.create. destruct (bind_args g [] args') as [vs|e] eqn:B.
    2:{ apply (proj2 (c148_arguments g [] args')) in B. now subst. }
    exfalso. apply (proj1 (c148_arguments g [] args')) in B. destruct B as [_ B].
    destruct (In_nth_error _ _ IF) as [i Ei]. pose proof (bound_named _ _ _ B i f Ei) as G.
    destruct (table g I) as (_ & _ & NM & _ & _ & _ & _). destruct (convert_get _ _ _ NM C) as (C1 & _ & _).
    assert (Nm : f_name f <> "code_number").
    { intros X. clear -I IF D X. cbn in I. repeat (destruct I as [<-|I]; [cbn in IF;
        repeat (destruct IF as [<-|IF]; [cbn in *; congruence|]); contradiction|]). contradiction. }
    assert (Ga : dget (f_name f) args' = dget (f_name f) args).
    { subst args'. destruct (given "code_number"); try reflexivity;
        rewrite dget_dset; destruct (String.eqb_spec (f_name f) "code_number"); congruence. }
    rewrite Ga, D in G. destruct (C1 _ _ Ip) as [[_ X]|(x & y & Q & _)].
    - rewrite X in G. apply nth_error_None in G. apply bound_length in B.
      assert (i < List.length (g_fields g)) by (apply nth_error_Some; congruence). lia.
    - rewrite Gp in Q. inversion Q.
  Qed.
End Make.
Print Assumptions c148_created.
Print Assumptions c148_dimension.
Print Assumptions c148_text_refuted.
Print Assumptions c148_front_refuted.
Print Assumptions c148_fields.
Print Assumptions c148_quantities.
Print Assumptions c148_wrong.
Print Assumptions c148_ignored_refuted.
Print Assumptions c148_unknown.
Print Assumptions c148_missing.

(* The statements are about something. *)
Definition ex_parse (s : string) : res (dim * Z) :=
  if String.eqb s "3 mm" then Ok (Length, 3%Z) else if String.eqb s "1.12" then Ok (Dimensionless, 1%Z) else Err AttributeError.
Definition ex_given (l : list (string * value)) (p : string) : value :=
  match dget p l with Some v => v | None => VNone end.
Example c148_x1 : get_groove ex_parse "VGroove"
  (ex_given [("workpiece_thickness", VText "3 mm"); ("groove_angle", VNum 1); ("code_number", VText "1.3")]) =
  Ok ("VGroove", [("t", VQ Length 3); ("alpha", VQ Dimensionless 1); ("c", VQ Length 0); ("b", VQ Length 0); ("code_number", VText "1.3")]).
Proof. reflexivity. Qed.
Example c148_x2 : get_groove ex_parse "IGroove" (ex_given [("workpiece_thickness", VNum 3)]) = Err DimensionalityError /\
  get_groove ex_parse "IGroove" (ex_given []) = Err TypeError /\
  get_groove ex_parse "igroove" (ex_given []) = Err KeyError.
Proof. repeat split. Qed.
Example c148_x3 : get_groove ex_parse "IGroove"
  (ex_given [("workpiece_thickness", VQ Length 3); ("bevel_angle", VText "nonsense")]) =
  Ok ("IGroove", [("t", VQ Length 3); ("b", VQ Length 0); ("code_number", VFactory)]).
Proof. reflexivity. Qed.
Example c148_x4 : get_groove ex_parse "FFGroove"
  (ex_given [("workpiece_thickness", VQ Length 3); ("root_gap", VQ (OtherDim 0) 1); ("code_number", VText "1.12")]) =
  Ok ("FFGroove", [("t_1", VQ Length 3); ("t_2", VNone); ("alpha", VNone); ("code_number", VText "1.12"); ("b", VQ (OtherDim 0) 1); ("e", VNone)]).
Proof. reflexivity. Qed.
Example c148_x5 : create ex_parse IGroove [VQ Length 1] [("t", VQ Length 2)] = Err TypeError /\
  create ex_parse IGroove [VQ Length 1] [("x", VQ Length 2)] = Err TypeError /\
  create ex_parse IGroove [VQ Length 1; VNone] [] = Err TypeError.
Proof. repeat split. Qed.
