(** C100: checks of coordinates. C101: constraints of discrete derived series.
    C102: constraints of derived series made from expressions. *)
From Coq Require Import List String Bool Arith Lia Permutation.
From Verif Require Import Base StdFacts UnitValFacts CheckModel CheckSpec CheckFacts CheckSeriesFacts.
Import ListNotations.
Open Scope string_scope.
Open Scope list_scope.

(** a small unit system for the examples: 0 is dimensionless, 1 a length *)
Definition toy_parse (s : string) : res nat :=
  if String.eqb s "" then Ok 0 else if String.eqb s "mm" then Ok 1 else Err AttributeError.
Definition toy_dtype (s : string) : option dtype :=
  if String.eqb s "timedelta64[ns]" then Some (DTime true "ns")
  else if String.eqb s "m8[ns]" then Some (DTime true "ns")
  else if String.eqb s "<U1" then Some (DStr 1) else None.
Notation toy_check := (check_coords toy_dtype toy_parse Nat.eqb Nat.eqb String.eqb).

Section C100.
  Context {U V : Type} (np_dtype : string -> option dtype) (parse : string -> res U) (ueqb compat : U -> U -> bool)
          (veqb : V -> V -> bool) (veqb_spec : forall a b, veqb a b = true <-> a = b).

  (** ** C100 *)
  (** The coordinates are accepted iff every entry of the reference is fulfilled. *)
  Theorem c100_accepted : forall coords ref,
    check_coords np_dtype parse ueqb compat veqb coords ref = Ok tt <->
    forall k c, In (k, c) ref -> coord_ok np_dtype parse ueqb compat coords k c.
  Proof. intros coords ref. apply check_coords_ok. exact veqb_spec. Qed.

  (** Otherwise the error is the one of the first check that fails, for the first entry that fails. *)
  Theorem c100_error : forall coords ref e,
    check_coords np_dtype parse ueqb compat veqb coords ref = Err e <->
    exists a k c b, ref = a ++ (k, c) :: b /\
      (forall k' c', In (k', c') a -> coord_ok np_dtype parse ueqb compat coords k' c') /\
      coord_fails np_dtype parse ueqb compat coords k c e.
  Proof. intros coords ref e. apply check_coords_err. exact veqb_spec. Qed.

  (** The order of the reference does not matter for acceptance. *)
  Theorem c100_order : forall coords ref ref', Permutation ref ref' ->
    check_coords np_dtype parse ueqb compat veqb coords ref = Ok tt ->
    check_coords np_dtype parse ueqb compat veqb coords ref' = Ok tt.
  Proof.
    intros coords ref ref' P. rewrite !c100_accepted. intros H k c I. apply H. apply (Permutation_in _ (Permutation_sym P)). exact I.
  Qed.

  (** Required values that differ from each other, at least two, are met exactly. *)
  Theorem c100_values : forall coords ref k c vs,
    check_coords np_dtype parse ueqb compat veqb coords ref = Ok tt -> In (k, c) ref -> ck_values c = Some vs ->
    NoDup vs -> 2 <= List.length vs -> ck_optional c = None -> exists x, dget k coords = Some x /\ cv_values x = vs.
  Proof.
    intros coords ref k c vs H I C N L O. apply c100_accepted with (1 := H) in I || (rewrite c100_accepted in H; apply H in I).
    unfold coord_ok in I. destruct (dget k coords) as [x|]; [|congruence]. exists x. split; [reflexivity|].
    destruct I as [G _]. destruct (G vs C) as [A|[[y [A B]]|[y [A B]]]]; [exact A| |subst vs; simpl in L; lia].
    destruct vs as [|v [|w vs]]; simpl in L; [lia|lia|]. exfalso. inversion N as [|? ? NI _]. apply NI. left.
    rewrite (B v (or_introl eq_refl)). apply B. right. left. reflexivity.
  Qed.

  (** A single type is accepted iff it is equal, a time type given by name (any resolution) or a string type
      (any length). *)
  Theorem c100_types : forall v r,
    check_dtype np_dtype v r = Ok true <->
    exists d, denotes np_dtype r d /\ (v = d \/ (time_name r /\ same_type v d) \/ (d = DStr 0 /\ exists n, v = DStr n)).
  Proof.
    intros v r. rewrite check_dtype_true. unfold type_match. split; intros [d [D H]]; exists d; (split; [exact D|]).
    - destruct H as [H|[H|[H K]]]; auto. subst d. right. right. split; [reflexivity|]. inversion K. eauto.
    - destruct H as [H|[H|[H [n K]]]]; auto. subst d v. right. right. split; [reflexivity|constructor].
  Qed.

  (** The units of a data array *)
  Theorem c100_dimensionality : forall u r,
    (check_dimensionality parse compat u r = Ok tt <->
     match r with None => True | Some r => exists v w, u = Some v /\ unit_is parse r w /\ compat v w = true end) /\
    (forall e, check_dimensionality parse compat u r = Err e -> e = DimensionalityError \/ exists x, r = Some x /\ unit_fails parse x e).
  Proof.
    intros u [r|]; simpl; [|split; [tauto|intros e H; discriminate]].
    destruct (to_unit parse r) as [w|e] eqn:T; cbv beta iota delta [bind].
    - pose proof (proj1 (to_unit_ok parse r w) T) as W. split.
      + destruct u as [v|]; [destruct (compat v w) eqn:C|]; split; try discriminate; try reflexivity; eauto.
        * intros [v' [w' [A [B D]]]]. injection A as <-. apply to_unit_ok in B. congruence.
        * intros [v' [w' [A _]]]. discriminate.
      + intros e H. left. destruct u as [v|]; [destruct (compat v w); [discriminate|]|]; congruence.
    - split; [split; [discriminate|]|].
      + intros [v' [w' [_ [B _]]]]. apply to_unit_ok in B. congruence.
      + intros e' H. injection H as <-. right. exists r. split; [reflexivity|]. apply to_unit_err. exact T.
  Qed.
End C100.
Print Assumptions c100_accepted.
Print Assumptions c100_error.
Print Assumptions c100_order.
Print Assumptions c100_values.
Print Assumptions c100_types.
Print Assumptions c100_dimensionality.

(** Accepted values need not be equal: a single value is repeated, and no values match a single one. *)
Theorem c100_values_refuted : exists coords coords' ref,
  toy_check coords ref = Ok tt /\ (forall x, dget "c" coords = Some x -> cv_values x = ["x"]) /\
  (exists c, dget "c" ref = Some c /\ ck_values c = Some ["x"; "x"]) /\
  toy_check coords' [("c", Ck None (Some ["x"]) None None None)] = Ok tt /\
  (forall x, dget "c" coords' = Some x -> cv_values x = []).
Proof.
  exists [("c", Cv ["x"] (DStr 1) None)], [("c", Cv [] (DStr 1) None)], [("c", Ck None (Some ["x"; "x"]) None None None)].
  split; [reflexivity|]. split; [intros x H; injection H as <-; reflexivity|]. split; [eexists; split; reflexivity|].
  split; [reflexivity|]. intros x H. injection H as <-. reflexivity.
Qed.
Print Assumptions c100_values_refuted.

(** The same unit is rejected if it is the empty string. *)
Theorem c100_units_refuted : exists coords coords' ref,
  (exists x, dget "s" coords = Some x /\ cv_units x = Some (AStr "")) /\ dget "s" ref = Some (Ck None None None (Some (AStr "")) None) /\
  toy_check coords ref = Err ValueError /\
  (exists x, dget "s" coords' = Some x /\ cv_units x = Some (AUnit 0)) /\ toy_check coords' ref = Ok tt.
Proof.
  exists [("s", Cv ["0"] (DNum "int64") (Some (AStr "")))], [("s", Cv ["0"] (DNum "int64") (Some (AUnit 0)))],
    [("s", Ck None None None (Some (AStr "")) None)].
  split; [eexists; split; reflexivity|]. split; [reflexivity|]. split; [reflexivity|]. split; [eexists; split; reflexivity|reflexivity].
Qed.
Print Assumptions c100_units_refuted.

(** The resolution of a time type is checked or not, depending on the spelling of the reference. *)
Theorem c100_resolution_refuted : exists a b,
  toy_dtype a = Some (DTime true "ns") /\ toy_dtype b = Some (DTime true "ns") /\
  check_dtype toy_dtype (DTime true "s") (RName a) = Ok true /\ check_dtype toy_dtype (DTime true "s") (RName b) = Ok false.
Proof. exists "timedelta64[ns]", "m8[ns]". repeat split; reflexivity. Qed.
Print Assumptions c100_resolution_refuted.

Example ex_c100 :
  let coords := [("c", Cv ["x"; "y"; "z"] (DStr 1) None); ("s", Cv ["0"; "1"] (DNum "int64") (Some (AStr "mm")))] in
  toy_check coords [("c", Ck None (Some ["x"; "y"; "z"]) (Some (DOne (RName "<U1"))) None None);
                    ("time", Ck (Some true) None (Some (DOne (RName "timedelta64[ns]"))) None None);
                    ("s", Ck None None None (Some (AStr "mm")) (Some (AUnit 1)))] = Ok tt /\
  toy_check coords [("c", Ck None (Some ["x"; "z"; "y"]) None None None)] = Err ValueError /\
  toy_check coords [("time", Ck None None None None None)] = Err KeyError /\
  toy_check coords [("c", Ck None None (Some (DMany [RName "m8[ns]"; RType (DStr 0)])) None None)] = Ok tt /\
  toy_check coords [("c", Ck None None (Some (DMany [RName "?"; RType (DStr 0)])) None None)] = Err TypeError /\
  toy_check coords [("s", Ck None None None None (Some (AUnit 0)))] = Err DimensionalityError /\
  toy_check coords [("c", Ck None None None None (Some (AUnit 0)))] = Err DimensionalityError.
Proof. repeat split; reflexivity. Qed.

Section C101.
  Context {U V : Type} (np_dtype : string -> option dtype) (parse : string -> res U) (ueqb compat : U -> U -> bool)
          (veqb : V -> V -> bool) (veqb_spec : forall a b, veqb a b = true <-> a = b).
  Context (order : list string -> list string) (order_perm : forall l, Permutation (order l) l).

  (** ** C101 *)
  (** A data array is accepted for a derived class iff it has the required dimensions, a compatible unit, compatible units
      for the dimensions that have required ones and the required coordinates - whatever the order of a set is. *)
  Theorem c101_accepted : forall (k : @cls U V) a, k_base k = false ->
    (constraints_discrete np_dtype parse ueqb compat veqb order k a = Ok tt <->
     incl (k_required_dims k) (da_dims a) /\ unit_fits compat (da_units a) (k_unit k) /\
     (forall d r, dget d (k_dim_units k) = Some r -> In d (da_dims a) -> has_units parse compat (da_coords a) d r) /\
     (forall d vs, dget d (k_dim_coords k) = Some vs -> has_values (da_coords a) d vs /\
        forall r, dget d (k_dim_units k) = Some r -> has_units parse compat (da_coords a) d r)).
  Proof. intros k a B. exact (discrete_ok np_dtype parse ueqb compat veqb veqb_spec order order_perm k a B). Qed.

  (** [GenericSeries] itself accepts everything. *)
  Theorem c101_generic : forall (k : @cls U V) a, k_base k = true ->
    constraints_discrete np_dtype parse ueqb compat veqb order k a = Ok tt.
  Proof. intros k a B. unfold constraints_discrete. rewrite B. reflexivity. Qed.

  (** Missing dimensions are reported first, then the unit, then the coordinates. *)
  Theorem c101_errors : forall (k : @cls U V) a, k_base k = false ->
    (~ incl (k_required_dims k) (da_dims a) -> constraints_discrete np_dtype parse ueqb compat veqb order k a = Err ValueError) /\
    (incl (k_required_dims k) (da_dims a) -> ~ unit_fits compat (da_units a) (k_unit k) ->
     constraints_discrete np_dtype parse ueqb compat veqb order k a = Err DimensionalityError) /\
    (forall e, incl (k_required_dims k) (da_dims a) -> unit_fits compat (da_units a) (k_unit k) ->
     constraints_discrete np_dtype parse ueqb compat veqb order k a = Err e ->
     exists d c, coord_fails np_dtype parse ueqb compat (da_coords a) d c e /\ ck_values c = dget d (k_dim_coords k) /\
       ck_dim c = option_map AUnit (dget d (k_dim_units k)) /\ ck_optional c = None /\ ck_dtype c = None /\ ck_units c = None /\
       (In d (dkeys (k_dim_coords k)) \/ (In d (dkeys (k_dim_units k)) /\ In d (da_dims a)))).
  Proof.
    intros k a B. unfold constraints_discrete. rewrite B.
    destruct (check_req_cases (k_required_dims k) (da_dims a)) as [[-> I]|[-> I]]; cbv beta iota delta [bind].
    2:{ split; [reflexivity|]. split; [intro H; destruct (I H)|]. intros e H. destruct (I H). }
    split; [intro H; destruct (H I)|]. destruct (check_dimensionality_cases parse compat (da_units a) (k_unit k)) as [[-> F]|[-> F]].
    2:{ split; [reflexivity|]. intros e _ H. destruct (F H). }
    split; [intros _ H; destruct (H F)|]. intros e _ _ H. rewrite (check_coords_err np_dtype parse ueqb compat veqb veqb_spec) in H.
    destruct H as [l [d [c [r [E [_ X]]]]]]. exists d, c. split; [exact X|].
    assert (In (d, c) (map (fun x => (x, ref_of k x)) (ref_keys order k (da_dims a)))) as M.
    { rewrite E. apply in_or_app. right. left. reflexivity. }
    apply in_map_iff in M. destruct M as [y [Q M]]. injection Q as -> <-. do 5 (split; [reflexivity|]).
    apply (ref_keys_in np_dtype parse order order_perm) in M. rewrite !dget_dkeys. tauto.
  Qed.
End C101.
Print Assumptions c101_accepted.
Print Assumptions c101_generic.
Print Assumptions c101_errors.

(** [SpatialSeries]: the dimensions "s" and "c", a dimensionless coordinate "s" with units and the coordinates x, y, z. *)
Theorem c101_spatial : forall {U : Type} np_dtype parse ueqb compat (dl : U) order,
  (forall l, Permutation (order l) l) -> forall a,
  (constraints_discrete np_dtype parse ueqb compat String.eqb order (spatial_series dl) a = Ok tt <->
   In "s" (da_dims a) /\ In "c" (da_dims a) /\ has_units parse compat (da_coords a) "s" dl /\
   exists x, dget "c" (da_coords a) = Some x /\ cv_values x = ["x"; "y"; "z"]).
Proof.
  intros U np_dtype parse ueqb compat dl order P a.
  rewrite (c101_accepted np_dtype parse ueqb compat String.eqb String.eqb_eq order P (spatial_series dl) a eq_refl). simpl. split.
  - intros [A [_ [B C]]]. split; [apply A; left; reflexivity|]. split; [apply A; right; left; reflexivity|].
    split; [apply (B "s" dl); [reflexivity|apply A; left; reflexivity]|].
    destruct (C "c" ["x"; "y"; "z"] eq_refl) as [[x [X M]] _]. exists x. split; [exact X|].
    destruct M as [M|[[y [_ M]]|[y [M _]]]]; [exact M| |discriminate].
    pose proof (M "x" (or_introl eq_refl)) as E1. pose proof (M "y" (or_intror (or_introl eq_refl))) as E2. congruence.
  - intros [A [B [C [x [X M]]]]]. split; [intros d [<-|[<-|[]]]; assumption|]. split; [exact Logic.I|]. split.
    + intros d r H _. destruct (String.eqb_spec d "s") as [->|N]; [|discriminate]. injection H as <-. exact C.
    + intros d vs H. destruct (String.eqb_spec d "c") as [->|N]; [|discriminate]. injection H as <-.
      split; [exists x; split; [exact X|left; exact M]|]. intros r R. discriminate.
Qed.
Print Assumptions c101_spatial.

(** Without the attribute "units" the position is not taken as dimensionless. *)
Theorem c101_no_units : forall {U : Type} np_dtype parse ueqb compat (dl : U) order, (forall l, Permutation (order l) l) ->
  forall a x, dget "s" (da_coords a) = Some x -> cv_units x = None ->
  exists e, constraints_discrete np_dtype parse ueqb compat String.eqb order (spatial_series dl) a = Err e.
Proof.
  intros U np_dtype parse ueqb compat dl order P a x X N.
  destruct (constraints_discrete np_dtype parse ueqb compat String.eqb order (spatial_series dl) a) as [[]|e] eqn:C; [|eauto].
  apply (c101_spatial np_dtype parse ueqb compat dl order P) in C. destruct C as [_ [_ [[y [b [u [Y [Z _]]]]] _]]]. congruence.
Qed.
Print Assumptions c101_no_units.

Example ex_c101 :
  let check := constraints_discrete toy_dtype toy_parse Nat.eqb Nat.eqb String.eqb (fun l => l) (spatial_series 0) in
  let c := ("c", Cv ["x"; "y"; "z"] (DStr 1) None) in
  let s := ("s", Cv ["0"; "1"] (DNum "int64") (Some (AUnit 0))) in
  check (Da ["s"; "c"] [s; c] (Some 1)) = Ok tt /\
  check (Da ["s"] [s; c] (Some 1)) = Err ValueError /\
  check (Da ["s"; "c"] [s] (Some 1)) = Err KeyError /\
  check (Da ["s"; "c"] [c; ("s", Cv ["0"] (DNum "int64") (Some (AStr "mm")))] None) = Err DimensionalityError /\
  check (Da ["s"; "c"] [c; ("s", Cv ["0"] (DNum "int64") None)] None) = Err DimensionalityError.
Proof. repeat split; reflexivity. Qed.

Section C102.
  Context {U V : Type} (np_dtype : string -> option dtype) (parse : string -> res U) (ueqb compat : U -> U -> bool)
          (veqb : V -> V -> bool) (veqb_spec : forall a b, veqb a b = true <-> a = b) (dimensionless : U).

  (** ** C102 *)
  (** Every variable gets the given unit, else the one its class requires, else it is dimensionless; nothing else gets a
      unit. KeyError iff a given unit, or a required one of no parameter, belongs to no variable. *)
  Theorem c102_units : forall (k : @cls U V) e units,
    (forall u, updated_units dimensionless k e units = Ok u -> forall v,
       dget v u = if smem v (variables e)
                  then match dget v units, dget v (k_dim_units k) with
                       | Some x, _ => Some x
                       | None, Some x => Some x
                       | None, None => Some dimensionless
                       end
                  else None) /\
    ((exists u, updated_units dimensionless k e units = Ok u) <->
     incl (dkeys units) (variables e) /\
     forall d, In d (dkeys (k_dim_units k)) -> In d (variables e) \/ In d (dkeys (e_params e))) /\
    (forall x, updated_units dimensionless k e units = Err x -> x = KeyError).
  Proof.
    intros k e units. unfold updated_units. cbv zeta.
    pose proof (forall_keys (add_required e (k_dim_units k) units) (variables e)) as K.
    assert ((forall x, In x (dkeys (add_required e (k_dim_units k) units)) -> In x (variables e)) <->
            incl (dkeys units) (variables e) /\
            forall d, In d (dkeys (k_dim_units k)) -> In d (variables e) \/ In d (dkeys (e_params e))) as G.
    { split.
      - intro H. split.
        + intros x X. apply H. rewrite dget_dkeys, add_required_get. apply dget_dkeys in X. destruct X as [u ->]. eauto.
        + intros d D. destruct (in_dec string_dec d (dkeys (e_params e))) as [I|N]; [auto|]. left. apply H.
          rewrite dget_dkeys, add_required_get. destruct (dget d units); [eauto|]. unfold dkeys in N. rewrite <- dmem_in in N.
          destruct (dmem d (e_params e)); [destruct N; reflexivity|]. apply dget_dkeys. exact D.
      - intros [A B] x X. rewrite dget_dkeys, add_required_get in X. destruct X as [u X].
        destruct (dget x units) as [w|] eqn:D.
        + apply A. apply dget_dkeys. eauto.
        + destruct (dmem x (e_params e)) eqn:M; [discriminate|]. destruct (B x) as [H|H]; [apply dget_dkeys; eauto|exact H|].
          unfold dkeys in H. rewrite <- dmem_in in H. congruence. }
    destruct (forallb (fun x => smem (fst x) (variables e)) (add_required e (k_dim_units k) units)) eqn:F.
    - split; [|split; [split; [intros _; apply G; apply K; reflexivity|eauto]|discriminate]].
      intros u H v. injection H as <-. rewrite add_missing_get, add_required_get.
      assert (smem v (variables e) = false -> dget v (add_required e (k_dim_units k) units) = None) as NV.
      { intro S. destruct (dget v (add_required e (k_dim_units k) units)) eqn:D; [|reflexivity].
        assert (In v (variables e)) as Iv by (apply (proj1 K eq_refl); apply dget_dkeys; eauto). apply smem_iff in Iv. congruence. }
      destruct (smem v (variables e)) eqn:S.
      + apply smem_iff, variables_in in S. destruct S as [_ S]. unfold dkeys in S. rewrite <- dmem_in in S.
        destruct (dget v units); [reflexivity|]. destruct (dmem v (e_params e)); [destruct S; reflexivity|].
        destruct (dget v (k_dim_units k)); reflexivity.
      + specialize (NV eq_refl). rewrite add_required_get in NV. destruct (dget v units); [discriminate|].
        rewrite NV. reflexivity.
    - split; [intros u H; discriminate|]. split; [|intros x H; congruence]. split; [intros [u H]; discriminate|].
      intro H. pose proof (proj2 K (proj2 G H)) as X. discriminate.
  Qed.

  (** An expression fulfils the constraints of a derived class iff ... *)
  Theorem c102_constraints : forall (k : @cls U V) e vd vu eu, k_base k = false ->
    NoDup (dkeys (k_dim_units k)) -> NoDup (dkeys (k_dim_coords k)) ->
    (constraints_expression np_dtype parse ueqb compat veqb k e vd vu eu = Ok tt <->
     (k_allowed_vars k = [] \/ incl (variables e) (k_allowed_vars k)) /\
     incl (k_required_vars k) (variables e) /\ incl (k_required_dims k) (expression_dims e vd) /\
     unit_fits compat (Some eu) (k_unit k) /\
     (forall d v, dget d (k_dim_units k) = Some v -> exists u,
        (dget d vu = Some u \/ (dget d vu = None /\ option_map pa_unit (dget d (e_params e)) = Some u)) /\ compat u v = true) /\
     (forall d vs, dget d (k_dim_coords k) = Some vs -> ~ In d (dkeys vd) /\
        forall s p x, In (s, p) (e_params e) -> pa_quantity p = false -> dget d (pa_coords p) = Some x -> values_match (cv_values x) vs)).
  Proof. intros k e vd vu eu. apply expression_ok. exact veqb_spec. Qed.

  Section Init.
    Context (scalar : @expr U V -> dict U -> res U) (arrays : @expr U V -> list (string * nat) -> res unit).
    Context (arrays_clash : forall e l, clash e l -> arrays e l = Err ValueError).
    Notation init := (init_expression np_dtype parse ueqb compat veqb dimensionless scalar arrays).

    (** The series that is created has exactly the given variables, dimensions, units and the tested unit. *)
    Theorem c102_created : forall (k : @cls U V) e dims units s, init k e dims units = Ok s ->
      se_expr s = e /\ variables e <> [] /\ se_dims s = updated_dims e dims /\
      updated_units dimensionless k e units = Ok (se_vunits s) /\ scalar e (se_vunits s) = Ok (se_unit s) /\
      constraints_expression np_dtype parse ueqb compat veqb k e (se_dims s) (se_vunits s) (se_unit s) = Ok tt.
    Proof.
      intros k e dims units s. unfold init_expression. destruct (Nat.eqb_spec (List.length (variables e)) 0) as [|N]; [discriminate|].
      cbv zeta. destruct (updated_units dimensionless k e units) as [u|x]; cbv beta iota delta [bind]; [|discriminate].
      destruct (test_expr scalar arrays e (updated_dims e dims) u) as [eu|x] eqn:T; [|discriminate].
      destruct (constraints_expression np_dtype parse ueqb compat veqb k e (updated_dims e dims) u eu) as [[]|x] eqn:C; [|discriminate].
      destruct (Nat.eqb _ _); [|discriminate]. intro H. injection H as <-. simpl.
      split; [reflexivity|]. split; [intro X; apply N; rewrite X; reflexivity|]. do 2 (split; [reflexivity|]).
      split; [|exact C]. unfold test_expr in T. destruct (scalar e u) as [u1|x]; cbv beta iota delta [bind] in T.
      - destruct (test_arrays arrays e (updated_dims e dims) u 0); [|discriminate].
        destruct (test_arrays arrays e (updated_dims e dims) u 1); [|discriminate]. exact T.
      - destruct x; try discriminate. destruct (test_arrays arrays e (updated_dims e dims) u 0); [|discriminate].
        destruct (test_arrays arrays e (updated_dims e dims) u 1); discriminate.
    Qed.

    (** The free dimensions are different from each other and from the dimensions of the parameters. *)
    Theorem c102_free_dimensions : forall (k : @cls U V) e dims units s, init k e dims units = Ok s ->
      NoDup (map snd (se_dims s)) /\
      forall v d, dget v (se_dims s) = Some d -> forall n p, In (n, p) (e_params e) -> ~ In d (map fst (pa_shape p)).
    Proof.
      intros k e dims units s H. destruct (c102_created _ _ _ _ _ H) as [_ [_ [D [UU _]]]]. rewrite D.
      pose proof (c102_units k e units) as [GU _]. specialize (GU _ UU).
      unfold init_expression in H. destruct (Nat.eqb (List.length (variables e)) 0); [discriminate|].
      cbv zeta in H. rewrite UU in H. cbv beta iota delta [bind] in H.
      destruct (test_expr scalar arrays e (updated_dims e dims) (se_vunits s)) as [eu|x] eqn:T; [|discriminate].
      destruct (constraints_expression np_dtype parse ueqb compat veqb k e (updated_dims e dims) (se_vunits s) eu) as [[]|x]; [|discriminate].
      split.
      - destruct (Nat.eqb_spec (List.length (nodup string_dec (map snd (updated_dims e dims)))) (List.length (updated_dims e dims)))
          as [L|]; [|discriminate]. apply (@NoDup_incl_NoDup _ (nodup string_dec (map snd (updated_dims e dims)))).
        + apply NoDup_nodup.
        + rewrite map_length. lia.
        + intros x X. apply nodup_In in X. exact X.
      - intros v d V' n p P M. apply in_map_iff in M. destruct M as [[d' m] [Q M]]. simpl in Q. subst d'.
        rewrite updated_dims_get in V'. destruct (smem v (variables e)) eqn:Iv; [|discriminate].
        assert (In v (dkeys (se_vunits s))) as Kv.
        { apply dget_dkeys. rewrite GU, Iv. destruct (dget v units); [eauto|]. destruct (dget v (k_dim_units k)); eauto. }
        assert (forall x, In x (dkeys (se_vunits s)) -> In x (dkeys (updated_dims e dims))) as Kd.
        { intros x X. apply dget_dkeys in X. destruct X as [u X]. rewrite GU in X. apply dget_dkeys. rewrite updated_dims_get.
          destruct (smem x (variables e)); [eauto|discriminate]. }
        destruct (array_params_err (updated_dims e dims) (se_vunits s) 2 Kd) as [l0 A0].
        destruct (array_params_err (updated_dims e dims) (se_vunits s) 3 Kd) as [l1 A1].
        assert (dget v (updated_dims e dims) = Some d) as Dv by (rewrite updated_dims_get, Iv; exact V').
        unfold test_expr, test_arrays in T. change (2 + 0) with 2 in T. change (2 + 1) with 3 in T. rewrite A0, A1 in T.
        cbv beta iota delta [bind] in T.
        destruct (param_dim_clash _ _ _ _ _ _ _ _ _ _ A0 A1 Kv Dv P M) as [C|C]; apply arrays_clash in C; rewrite C in T.
        + destruct (match scalar e (se_vunits s) with Ok u => Ok (Some u) | Err ValueError => Ok None | Err x => Err x end); discriminate.
        + destruct (arrays e l0); destruct (match scalar e (se_vunits s) with Ok u => Ok (Some u) | Err ValueError => Ok None | Err x => Err x end);
            discriminate.
    Qed.

    (** Two variables of the same dimension are refused with a ValueError, before [bidict] sees them. *)
    Theorem c102_same_dimension : forall (k : @cls U V) e dims units u eu v w d, v <> w ->
      updated_units dimensionless k e units = Ok u -> scalar e u = Ok eu ->
      dget v (updated_dims e dims) = Some d -> dget w (updated_dims e dims) = Some d ->
      init k e dims units = Err ValueError.
    Proof.
      intros k e dims units u eu v w d N UU SC Dv Dw.
      pose proof (c102_units k e units) as [GU _]. specialize (GU _ UU).
      assert (forall x y, dget x (updated_dims e dims) = Some y -> In x (dkeys u)) as Kx.
      { intros x y X. rewrite updated_dims_get in X. apply dget_dkeys. rewrite GU. destruct (smem x (variables e)); [|discriminate].
        destruct (dget x units); [eauto|]. destruct (dget x (k_dim_units k)); eauto. }
      assert (forall x, In x (dkeys u) -> In x (dkeys (updated_dims e dims))) as Kd.
      { intros x X. apply dget_dkeys in X. destruct X as [y X]. rewrite GU in X. apply dget_dkeys. rewrite updated_dims_get.
        destruct (smem x (variables e)); [eauto|discriminate]. }
      destruct (array_params_err (updated_dims e dims) u 2 Kd) as [l A].
      pose proof (same_dim_clash e _ _ _ _ _ _ _ A N (Kx _ _ Dv) (Kx _ _ Dw) Dv Dw) as C.
      unfold init_expression. destruct (Nat.eqb (List.length (variables e)) 0); [reflexivity|]. cbv zeta. rewrite UU.
      cbv beta iota delta [bind]. unfold test_expr, test_arrays. rewrite SC. change (2 + 0) with 2. rewrite A.
      cbv beta iota delta [bind]. rewrite (arrays_clash _ _ C). reflexivity.
    Qed.

    (** A required unit of a dimension that is neither a variable nor a parameter is a KeyError: the dimension cannot be a
        renamed variable or belong to a parameter of another name. *)
    Theorem c102_renamed_refuted : forall (k : @cls U V) e dims units d, variables e <> [] ->
      In d (dkeys (k_dim_units k)) -> ~ In d (variables e) -> ~ In d (dkeys (e_params e)) ->
      init k e dims units = Err KeyError.
    Proof.
      intros k e dims units d N D NV NP. unfold init_expression.
      destruct (Nat.eqb_spec (List.length (variables e)) 0) as [L|]; [destruct (variables e); [destruct N; reflexivity|discriminate]|].
      cbv zeta. destruct (updated_units dimensionless k e units) as [u|x] eqn:UU; cbv beta iota delta [bind].
      - destruct (proj1 (proj1 (proj2 (c102_units k e units)))) as [_ H]; [eauto|]. destruct (H d D); contradiction.
      - rewrite (proj2 (proj2 (c102_units k e units)) x UU). reflexivity.
    Qed.
  End Init.
End C102.
Print Assumptions c102_units.
Print Assumptions c102_constraints.
Print Assumptions c102_created.
Print Assumptions c102_free_dimensions.
Print Assumptions c102_same_dimension.
Print Assumptions c102_renamed_refuted.

(** The test evaluations: units that do not fit are reported as they are; a ValueError of the first evaluation alone leaves
    the resulting unit undefined. *)
Theorem c102_test : forall {U V : Type} (scalar : @expr U V -> dict U -> res U) arrays e dims units,
  (forall u, test_expr scalar arrays e dims units = Ok u <->
     scalar e units = Ok u /\ exists l0 l1, array_params dims units 2 = Ok l0 /\ array_params dims units 3 = Ok l1 /\
       arrays e l0 = Ok tt /\ arrays e l1 = Ok tt) /\
  (forall x, scalar e units = Err x -> x <> ValueError -> test_expr scalar arrays e dims units = Err x) /\
  (forall l0 l1, scalar e units = Err ValueError -> array_params dims units 2 = Ok l0 -> array_params dims units 3 = Ok l1 ->
     arrays e l0 = Ok tt -> arrays e l1 = Ok tt -> test_expr scalar arrays e dims units = Err NameError) /\
  (forall l0, array_params dims units 2 = Ok l0 -> arrays e l0 = Err ValueError ->
     scalar e units = Err ValueError \/ (exists u, scalar e units = Ok u) -> test_expr scalar arrays e dims units = Err ValueError).
Proof.
  intros U V scalar arrays e dims units. unfold test_expr, test_arrays. change (2 + 0) with 2. change (2 + 1) with 3. split; [|split; [|split]].
  - intro u. split.
    + destruct (scalar e units) as [u'|x]; [|destruct x; try discriminate]; cbv beta iota delta [bind];
        (destruct (array_params dims units 2) as [l0|]; [|discriminate]); (destruct (arrays e l0) as [[]|] eqn:A0; [|discriminate]);
        (destruct (array_params dims units 3) as [l1|]; [|discriminate]); (destruct (arrays e l1) as [[]|] eqn:A1; [|discriminate]);
        intro H; [|discriminate]. split; [exact H|]. exists l0, l1. auto.
    + intros [-> [l0 [l1 [-> [-> [A0 A1]]]]]]. cbv beta iota delta [bind]. rewrite A0, A1. reflexivity.
  - intros x -> N. destruct x; try reflexivity. destruct N. reflexivity.
  - intros l0 l1 -> -> -> A0 A1. cbv beta iota delta [bind]. rewrite A0, A1. reflexivity.
  - intros l0 -> A0 [->|[u ->]]; cbv beta iota delta [bind]; rewrite A0; reflexivity.
Qed.
Print Assumptions c102_test.

(** the dimensions of an expression: those of the variables and those of the parameters
    that are not empty *)
Theorem c102_dimensions : forall {U V : Type} (e : @expr U V) vd d,
  In d (expression_dims e vd) <->
  (exists v, In (v, d) vd) \/
  (exists s p, In (s, p) (e_params e) /\ (forall x, In x (pa_shape p) -> (0 < snd x)%nat) /\ exists n, In (d, n) (pa_shape p)).
Proof.
  intros U V e vd d. unfold expression_dims. rewrite in_app_iff, in_map_iff, in_flat_map. split.
  - intros [([v x] & <- & H)|([s p] & H & G)]; [left; exists v; exact H|]. right. exists s, p. split; [exact H|]. cbn [snd] in G.
    destruct (forallb _ (pa_shape p)) eqn:F; [|destruct G]. rewrite forallb_forall in F. split.
    + intros x X. apply Nat.ltb_lt, F, X.
    + apply in_map_iff in G. destruct G as ([y n] & <- & G). exists n. exact G.
  - intros [[v H]|(s & p & H & F & n & G)]; [left; exists (v, d); auto|]. right. exists (s, p). split; [exact H|]. cbn [snd].
    destruct (forallb (fun d0 => Nat.ltb 0 (snd d0)) (pa_shape p)) eqn:Q.
    + apply in_map_iff. exists (d, n). auto.
    + exfalso. assert (true = false); [|discriminate]. rewrite <- Q. symmetry. apply forallb_forall. intros x X. apply Nat.ltb_lt, F, X.
Qed.
Print Assumptions c102_dimensions.

(** [SpatialSeries]: "s" is a variable without dimension, "c" a dimension but not a variable, and parameters with the
    coordinate "c" have x, y, z. *)
Theorem c102_spatial : forall {U : Type} np_dtype parse ueqb compat (dl : U) e vd vu eu,
  (constraints_expression np_dtype parse ueqb compat String.eqb (spatial_series dl) e vd vu eu = Ok tt <->
   In "s" (variables e) /\ In "s" (expression_dims e vd) /\ In "c" (expression_dims e vd) /\
   (exists u, (dget "s" vu = Some u \/ (dget "s" vu = None /\ option_map pa_unit (dget "s" (e_params e)) = Some u)) /\ compat u dl = true) /\
   ~ In "c" (dkeys vd) /\
   forall n p x, In (n, p) (e_params e) -> pa_quantity p = false -> dget "c" (pa_coords p) = Some x -> cv_values x = ["x"; "y"; "z"]).
Proof.
  intros U np_dtype parse ueqb compat dl e vd vu eu.
  rewrite (c102_constraints np_dtype parse ueqb compat String.eqb String.eqb_eq (spatial_series dl) e vd vu eu eq_refl);
    [|repeat constructor; intros []|repeat constructor; intros []]. simpl. split.
  - intros [_ [A [B [_ [C D]]]]]. split; [apply A; left; reflexivity|]. split; [apply B; left; reflexivity|].
    split; [apply B; right; left; reflexivity|]. split; [exact (C "s" dl eq_refl)|].
    destruct (D "c" ["x"; "y"; "z"] eq_refl) as [D1 D2]. split; [exact D1|]. intros n p x I Q X.
    destruct (D2 n p x I Q X) as [M|[[y [_ M]]|[y [M _]]]]; [exact M| |discriminate].
    pose proof (M "x" (or_introl eq_refl)) as E1. pose proof (M "y" (or_intror (or_introl eq_refl))) as E2. congruence.
  - intros [A [B [C [D [N M]]]]]. split; [auto|]. split; [intros x [<-|[]]; exact A|]. split; [intros x [<-|[<-|[]]]; assumption|].
    split; [exact Logic.I|]. split.
    + intros d v H. destruct (String.eqb_spec d "s") as [->|]; [|discriminate]. injection H as <-. exact D.
    + intros d vs H. destruct (String.eqb_spec d "c") as [->|]; [|discriminate]. injection H as <-. split; [exact N|].
      intros n p x I Q X. left. exact (M n p x I Q X).
Qed.
Print Assumptions c102_spatial.

(** an evaluation that fails exactly if lengths do not fit, and one that always gives a length *)
Definition toy_arrays (e : @expr nat string) (l : list (string * nat)) : res unit :=
  let ps := flat_map (fun p => pa_shape (snd p)) (e_params e) in
  if existsb (fun x => existsb (fun y => String.eqb (fst x) (fst y) && negb (Nat.eqb (snd x) (snd y))) (l ++ ps)) l
  then Err ValueError else Ok tt.
Definition toy_scalar (e : @expr nat string) (units : dict nat) : res nat := Ok 1.
Lemma toy_clash : forall e l, clash e l -> toy_arrays e l = Err ValueError.
Proof.
  intros e l C. unfold toy_arrays.
  replace (existsb _ l) with true; [reflexivity|]. symmetry. rewrite existsb_exists.
  destruct C as [[a [d [n [b [m [c [-> N]]]]]]]|[d [n [m [s [p [L [P [M N]]]]]]]]]; exists (d, n); split.
  - apply in_or_app. right. left. reflexivity.
  - apply existsb_exists. exists (d, m). split.
    + apply in_or_app. left. apply in_or_app. right. right. apply in_or_app. right. left. reflexivity.
    + simpl. rewrite String.eqb_refl. apply Nat.eqb_neq in N. rewrite N. reflexivity.
  - exact L.
  - apply existsb_exists. exists (d, m). split.
    + apply in_or_app. right. apply in_flat_map. exists (s, p). auto.
    + simpl. rewrite String.eqb_refl. apply Nat.eqb_neq in N. rewrite N. reflexivity.
Qed.
Notation toy_init := (init_expression toy_dtype toy_parse Nat.eqb Nat.eqb String.eqb 0 toy_scalar toy_arrays (spatial_series 0)).
Definition xyz : @param nat string := Pa false [("c", 3)] [("c", Cv ["x"; "y"; "z"] (DStr 1) None)] 1.

(** The coordinates of "c" are not ensured: two values without coordinates are accepted, and "c" may be a free dimension
    if the variable has another name. *)
Theorem c102_coordinates_refuted :
  (exists e s p, toy_init e [] [] = Ok s /\ In ("a", p) (e_params e) /\ pa_shape p = [("c", 2)]) /\
  (exists e s, toy_init e [("t", "c")] [] = Ok s /\ In ("t", "c") (se_dims s) /\ e_params e = []).
Proof.
  split.
  - exists (Ex ["a"; "s"] [("a", Pa false [("c", 2)] [] 1)]). eexists. exists (Pa false [("c", 2)] [] 1).
    split; [vm_compute; reflexivity|]. split; [left; reflexivity|reflexivity].
  - exists (Ex ["t"; "s"] []). eexists. split; [vm_compute; reflexivity|]. split; [left; reflexivity|reflexivity].
Qed.
Print Assumptions c102_coordinates_refuted.

Example ex_c102 :
  is_ok (toy_init (Ex ["a"; "s"] [("a", xyz)]) [] []) = true /\
  is_ok (toy_init (Ex ["a"; "s"] [("a", xyz)]) [] [("s", 0)]) = true /\
  toy_init (Ex ["a"; "s"] [("a", xyz)]) [] [("s", 1)] = Err DimensionalityError /\
  toy_init (Ex ["a"; "t"] [("a", xyz)]) [("t", "s")] [] = Err KeyError /\
  toy_init (Ex ["a"; "s"] [("a", xyz)]) [("s", "c")] [] = Err ValueError /\
  toy_init (Ex ["a"] [("a", xyz)]) [] [] = Err ValueError /\
  toy_init (Ex ["a"; "s"; "t"] [("a", xyz)]) [("t", "s")] [] = Err ValueError /\
  toy_init (Ex ["a"; "s"] [("a", Pa true [("dim_0", 2)] [] 1)]) [] [] = Err ValueError /\
  toy_init (Ex ["a"; "s"] [("a", Pa false [("c", 3)] [("c", Cv ["x"; "y"; "w"] (DStr 1) None)] 1)]) [] [] = Err ValueError.
Proof. repeat split; vm_compute; reflexivity. Qed.
