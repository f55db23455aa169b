(** Properties of the arguments of [SpatialSeries]. *)
From Coq Require Import List String Bool Arith Lia.
From Verif Require Import Base SpatialModel.
Import ListNotations.
Open Scope string_scope.

Lemma dget_set {V} k k' (v : V) d : dget k (dset k' v d) = if String.eqb k k' then Some v else dget k d.
Proof.
  induction d as [|[a b] d IH]; cbn [dset dget].
  - reflexivity.
  - destruct (String.eqb_spec k' a) as [->|N]; cbn [dget].
    + destruct (String.eqb k a); reflexivity.
    + rewrite IH. destruct (String.eqb_spec k a) as [->|]; [|reflexivity].
      destruct (String.eqb_spec a k') as [->|]; [contradiction|reflexivity].
Qed.
Lemma dset_same {V} k (v : V) d : dget k d = Some v -> dset k v d = d.
Proof.
  induction d as [|[a b] d IH]; cbn [dset dget]; [discriminate|].
  destruct (String.eqb k a); [now intros [= ->]|]. intros H. now rewrite IH.
Qed.
Lemma dkeys_set {V} k (v : V) d : dkeys (dset k v d) = if dmem k d then dkeys d else (dkeys d ++ [k])%list.
Proof.
  unfold dmem, dkeys. induction d as [|[a b] d IH]; cbn [dset dget map app fst]; [reflexivity|].
  destruct (String.eqb k a); [reflexivity|]. cbn [map fst]. rewrite IH. now destruct (dget k d).
Qed.

Section Spatial.
  Context {D U : Type} (one : U).
  Notation val := (@val D U).
  (** Positions as they are given to xarray. *)
  Definition is_array (v : val) : Prop := match v with VArray _ _ _ _ _ => True | _ => False end.
  (** a list, array or quantity with one dimension as array along "s" *)
  Inductive along_s : val -> val -> Prop :=
  | as_quantity n x u : along_s (VQuantity [n] x u) (VArray ["s"] None [n] x u)
  | as_plain n x : along_s (VPlain [n] x) (VArray ["s"] None [n] x one)
  | as_array v : is_array v -> along_s v v.

  Lemma position_ok s p : position one s = Ok p ->
    along_s s (match p with Some a => a | None => s end) /\ (p = None <-> is_array s) /\
    is_array (match p with Some a => a | None => s end).
  Proof.
    destruct s as [sh x u|sh x|dm nm sh x u|l]; cbn [position]; unfold data_array; try discriminate.
    1,2: destruct sh as [|n [|]]; cbn [List.length Nat.eqb bind]; try discriminate;
      intros [= <-]; repeat split; try constructor; try discriminate; cbn; tauto.
    intros [= <-]. repeat split; constructor; exact Logic.I.
  Qed.

  Notation process := (process_quantity (D := D) one).
  (** The coordinates of the series. *)
  Theorem c113_coordinates dims d c' l e : process dims (CDict d) = (c', Ok (l, e)) ->
    c' = CDict e /\ l = match dims with Some l => l | None => ["s"; "c"] end /\
    (exists s s', dget "s" d = Some s /\ along_s s s' /\ dget "s" e = Some s') /\
    dget "c" e = Some (match dget "c" d with Some v => v | None => VNames ["x"; "y"; "z"] end) /\
    (forall k, k <> "s" -> k <> "c" -> dget k e = dget k d) /\
    dkeys e = if dmem "c" d then dkeys d else (dkeys d ++ ["c"])%list.
  Proof.
    unfold process_quantity, coordinates. destruct (dget "s" d) as [s|] eqn:G; [|discriminate].
    destruct (position one s) as [p|] eqn:P; [|discriminate]. destruct (position_ok _ _ P) as (A & _ & _).
    set (d1 := match p with Some a => dset "s" a d | None => d end).
    assert (C : forall k, k <> "s" -> dget k d1 = dget k d).
    { intros k N. subst d1. destruct p; [|reflexivity]. rewrite dget_set.
      destruct (String.eqb_spec k "s"); [contradiction|reflexivity]. }
    assert (K : dkeys d1 = dkeys d).
    { subst d1. destruct p; [|reflexivity]. rewrite dkeys_set. unfold dmem. now rewrite G. }
    assert (Q : dget "s" d1 = Some (match p with Some a => a | None => s end)).
    { subst d1. destruct p; [|exact G]. now rewrite dget_set. }
    assert (M : dmem "c" d1 = dmem "c" d) by (unfold dmem; rewrite C by discriminate; reflexivity).
    intros H. injection H as <- <- <-. rewrite M. repeat split.
    - exists s, (match p with Some a => a | None => s end). repeat split; [assumption|].
      destruct (dmem "c" d); [exact Q|]. rewrite dget_set. exact Q.
    - unfold dmem in *. destruct (dget "c" d) eqn:X; [rewrite C by discriminate; exact X|]. now rewrite dget_set.
    - intros k N1 N2. destruct (dmem "c" d); [now apply C|]. rewrite dget_set.
      destruct (String.eqb_spec k "c"); [contradiction|now apply C].
    - destruct (dmem "c" d) eqn:X; [exact K|]. rewrite dkeys_set, M, K. reflexivity.
  Qed.

  (** A dictionary is left as it is exactly if there is nothing to add or to convert. *)
  Theorem c113_unchanged dims d c' r : process dims (CDict d) = (c', Ok r) ->
    (c' = CDict d <-> (exists s, dget "s" d = Some s /\ is_array s) /\ dget "c" d <> None).
  Proof.
    intros H. destruct r as [l e]. destruct (c113_coordinates _ _ _ _ _ H) as (-> & _ & (s & s' & G & A & G') & C & _ & _).
    split.
    - intros [= ->]. rewrite G in G'. injection G' as <-. split.
      + exists s. split; [exact G|]. inversion A; subst; trivial.
      + rewrite C. discriminate.
    - intros ((s2 & G2 & B) & N). rewrite G in G2. injection G2 as <-. f_equal.
      revert H. unfold process_quantity, coordinates. rewrite G.
      destruct (position one s) as [p|] eqn:P; [|discriminate].
      destruct (position_ok _ _ P) as (_ & T & _). rewrite (proj2 T B). unfold dmem.
      destruct (dget "c" d); [|contradiction]. now intros [= <- _].
  Qed.
  (** False: arguments are not changed. *)
  Theorem c113_arguments_refuted n (x : D) (u : U) dims :
    exists d c' r, dget "s" d = Some (VQuantity [n] x u) /\ process dims (CDict d) = (c', Ok r) /\ c' <> CDict d.
  Proof. exists [("s", VQuantity [n] x u)]. eexists _, _. repeat split. discriminate. Qed.
  (** The changed dictionary can be used again: it gives the same series and is not changed
      any more. *)
  Theorem c113_reuse dims d c' r : process dims (CDict d) = (c', Ok r) -> process dims c' = (c', Ok r).
  Proof.
    intros H. destruct r as [l e]. destruct (c113_coordinates _ _ _ _ _ H) as (-> & -> & (s & s' & G & A & G') & C & _ & _).
    unfold process_quantity. rewrite G'. unfold coordinates.
    assert (P : position one s' = Ok None) by (inversion A as [| |v B]; subst; [reflexivity|reflexivity|]; destruct s'; try contradiction; reflexivity).
    rewrite P. unfold dmem. rewrite C. reflexivity.
  Qed.
  (** Positions without a dictionary are those of a dictionary with one entry. *)
  Theorem c113_plain dims s : process dims (CPlain s) = (CPlain s, snd (process dims (CDict [("s", s)]))).
  Proof. unfold process_quantity. change (dget "s" [("s", s)]) with (Some s). cbv iota. now destruct (coordinates one [("s", s)] s dims). Qed.
  (** Missing positions are a KeyError, wrong dimensions a ValueError; then nothing is changed. *)
  Theorem c113_errors dims d c' x : process dims (CDict d) = (c', Err x) <->
    c' = CDict d /\ ((dget "s" d = None /\ x = KeyError) \/
      (x = ValueError /\ exists s, dget "s" d = Some s /\ forall s', ~ along_s s s')).
  Proof.
    unfold process_quantity. destruct (dget "s" d) as [s|] eqn:G.
    2:{ split; [intros [= <- <-]; auto|]. intros [-> [[_ ->]|[_ (s & [=] & _)]]]. reflexivity. }
    unfold coordinates. destruct (position one s) as [p|y] eqn:P.
    - split; [discriminate|]. intros [_ [[[=] _]|[_ (s2 & [= <-] & N)]]].
      destruct (position_ok _ _ P) as (A & _). now apply N in A.
    - assert (Y : y = ValueError /\ forall s', ~ along_s s s').
      { revert P. destruct s as [sh z u|sh z|dm nm sh z u|l]; cbn [position]; unfold data_array; try discriminate.
        3:{ intros [= <-]. split; [reflexivity|]. intros s' A. inversion A. contradiction. }
        all: destruct (Nat.eqb_spec (List.length sh) 1) as [|L]; cbn [bind]; [discriminate|];
          intros [= <-]; (split; [reflexivity|]); intros s' A; inversion A; subst; [now apply L|contradiction]. }
      destruct Y as [-> Y]. split.
      + intros [= <- <-]. split; [reflexivity|]. right. split; [reflexivity|]. exists s. auto.
      + intros [-> [[[=] _]|[-> _]]]. reflexivity.
  Qed.

  (** Vectors as parameters. *)
  Definition vector (v : val) : val :=
    match v with VQuantity [3] x u => VArray ["c"] (Some ["x"; "y"; "z"]) [3] x u | _ => v end.
  (** three values with more (or less) than one dimension *)
  Definition odd (v : val) : Prop :=
    match v with VQuantity s _ _ => fold_right Nat.mul 1 s = 3 /\ s <> [3] | _ => False end.
  Lemma parameter_ok (v : val) : (~ odd v /\ parameter v = Ok (vector v)) \/ (odd v /\ parameter v = Err ValueError).
  Proof.
    destruct v as [sh x u|sh x|dm nm sh x u|l]; [|left; split; [intros []|reflexivity]..].
    cbn [parameter odd]. unfold size, data_array.
    destruct (Nat.eqb_spec (fold_right Nat.mul 1 sh) 3) as [S3|S3].
    - destruct sh as [|n [|m sh]]; cbn [List.length Nat.eqb].
      + discriminate.
      + cbn in S3. assert (n = 3) as -> by lia. left. split; [intros [_ N]; now apply N|reflexivity].
      + right. repeat split; [exact S3|discriminate].
    - left. split; [intros [N _]; contradiction|].
      destruct sh as [|[|[|[|[|]]]] [|]]; try reflexivity. now elim S3.
  Qed.
  (** Quantities with three values along one dimension become vectors in the dictionary of
      the caller, everything else is kept. *)
  Theorem c113_parameters (d : dict val) : (forall v, In v (map snd d) -> ~ odd v) ->
    process_parameters d = (map (fun e => (fst e, vector (snd e))) d, Ok tt).
  Proof.
    induction d as [|[k v] d IH]; intros H; [reflexivity|]. cbn [process_parameters map fst snd].
    destruct (parameter_ok v) as [[_ P]|[O _]]; [|elim (H v); [now left|exact O]].
    rewrite P, IH; [reflexivity|]. intros w I. apply H. now right.
  Qed.
  Theorem c113_parameters_reuse (d e : dict val) : process_parameters d = (e, Ok tt) -> process_parameters e = (e, Ok tt).
  Proof.
    revert e. induction d as [|[k v] d IH]; intros e; cbn [process_parameters]; [now intros [= <-]|].
    destruct (parameter v) as [v'|] eqn:P; [|discriminate].
    destruct (process_parameters d) as [r o]. intros [= <- ->]. cbn [process_parameters].
    rewrite (IH _ eq_refl). destruct (parameter_ok v) as [[O Q]|[_ Q]]; rewrite Q in P; [|discriminate].
    injection P as <-.
    destruct v as [[|[|[|[|[|]]]] [|]] x u|sh x|dm nm sh x u|l]; cbn [vector] in *; try rewrite Q; reflexivity.
  Qed.
  (** Other quantities with three values are refused with a ValueError, but the parameters
      before them are changed already. *)
  Theorem c113_parameters_refuted (d : dict val) k v (r : dict val) : (forall w, In w (map snd d) -> ~ odd w) -> odd v ->
    process_parameters (d ++ (k, v) :: r)%list = ((map (fun e => (fst e, vector (snd e))) d ++ (k, v) :: r)%list, Err ValueError).
  Proof.
    induction d as [|[a b] d IH]; intros H O; cbn [process_parameters map fst snd app].
    - destruct (parameter_ok v) as [[N _]|[_ P]]; [contradiction|]. now rewrite P.
    - destruct (parameter_ok b) as [[_ P]|[N _]]; [|elim (H b); [now left|exact N]].
      rewrite P, IH; [reflexivity| |exact O]. intros w I. apply H. now right.
  Qed.
End Spatial.
Print Assumptions c113_coordinates.
Print Assumptions c113_unchanged.
Print Assumptions c113_arguments_refuted.
Print Assumptions c113_reuse.
Print Assumptions c113_plain.
Print Assumptions c113_errors.
Print Assumptions c113_parameters.
Print Assumptions c113_parameters_reuse.
Print Assumptions c113_parameters_refuted.

Example ex_c113 : process_quantity (D := nat) false None (CDict [("s", VPlain [2] 7)]) =
  (CDict [("s", VArray ["s"] None [2] 7 false); ("c", VNames ["x"; "y"; "z"])],
   Ok (["s"; "c"], [("s", VArray ["s"] None [2] 7 false); ("c", VNames ["x"; "y"; "z"])])).
Proof. reflexivity. Qed.
Example ex_c113_parameters :
  process_parameters (D := nat) (U := bool) [("a", VQuantity [3] 1 true); ("b", VQuantity [1; 3] 2 true)] =
  ([("a", VArray ["c"] (Some ["x"; "y"; "z"]) [3] 1 true); ("b", VQuantity [1; 3] 2 true)], Err ValueError).
Proof. reflexivity. Qed.
