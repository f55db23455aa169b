(** Properties of saved series (C138). *)
From Coq Require Import List String Bool Arith Lia Permutation.
From Verif Require Import Base CheckModel SeriesParamModel SeriesSerModel.
Import ListNotations.
Open Scope string_scope.
Open Scope list_scope.

(** ** Dictionaries *)
Lemma dset_new : forall (T : Type) k (v : T) d, ~ In k (dkeys d) -> dset k v d = d ++ [(k, v)].
Proof.
  induction d as [|[k' v'] d IH]; intro H; [reflexivity|]. cbn in *.
  destruct (String.eqb_spec k k') as [->|]; [exfalso; auto|]. rewrite IH; tauto.
Qed.
Lemma dget_app : forall (T : Type) k (a b : dict T),
  dget k (a ++ b) = match dget k a with Some v => Some v | None => dget k b end.
Proof.
  induction a as [|[k' v'] a IH]; intro b; [reflexivity|]. cbn. destruct (String.eqb k k'); auto.
Qed.
Lemma dget_none : forall (T : Type) k (d : dict T), ~ In k (dkeys d) -> dget k d = None.
Proof.
  induction d as [|[k' v'] d IH]; intro H; [reflexivity|]. cbn in *.
  destruct (String.eqb_spec k k') as [->|]; [exfalso; auto|]. apply IH; tauto.
Qed.
Lemma dget_some : forall (T : Type) k (d : dict T), In k (dkeys d) -> exists v, dget k d = Some v.
Proof.
  induction d as [|[k' v'] d IH]; intro H; [destruct H|]. cbn in *.
  destruct (String.eqb_spec k k') as [->|]; [eauto|]. apply IH. intuition congruence.
Qed.
Lemma dmem_in : forall (T : Type) k (d : dict T), dmem k d = true <-> In k (dkeys d).
Proof.
  intros T k d. unfold dmem. destruct (dget k d) eqn:Eg.
  - split; auto. intros _. destruct (in_dec string_dec k (dkeys d)); auto.
    rewrite dget_none in Eg; [discriminate|auto].
  - split; [discriminate|]. intro H. destruct (dget_some _ _ _ H). congruence.
Qed.
Lemma smem_in : forall k l, smem k l = true <-> In k l.
Proof.
  intros k l. unfold smem. rewrite existsb_exists. split.
  - intros [y [H1 H2]]. apply String.eqb_eq in H2. now subst.
  - intro H. exists k. split; auto. apply String.eqb_refl.
Qed.
Lemma nodup_length : forall (l : list string), List.length (nodup string_dec l) = List.length l <-> NoDup l.
Proof.
  intro l. split.
  - induction l as [|a l IH]; intro H; [constructor|]. cbn in H. destruct (in_dec string_dec a l).
    + exfalso. pose proof (NoDup_incl_length (NoDup_nodup string_dec l) (fun x => proj1 (nodup_In string_dec l x))). cbn in H. lia.
    + constructor; auto.
  - intro H. now rewrite nodup_fixed_point.
Qed.

(** ** Specification *)
(** The dimension of a variable. *)
Definition shown (sdims : dict string) (v : string) : string :=
  match dget v sdims with Some d => d | None => v end.

Section Dims.
  Context {U : Type}.
  Definition entry (sdims : dict string) (vu : string * U) : string * free_dim U :=
    (shown sdims (fst vu), Fd (snd vu) (if String.eqb (shown sdims (fst vu)) (fst vu) then None else Some (fst vu))).

  Lemma save_acc : forall (vunits : dict U) sdims acc,
    NoDup (dkeys acc ++ map (fun vu => shown sdims (fst vu)) vunits) ->
    save_dims vunits sdims acc = acc ++ map (entry sdims) vunits.
  Proof.
    induction vunits as [|[v u] r IH]; intros sdims acc ND.
    - now rewrite app_nil_r.
    - cbn [save_dims map].
      assert (St : match dget v sdims with
                   | Some dim => if String.eqb dim v then dset v (Fd u None) acc else dset dim (Fd u (Some v)) acc
                   | None => dset v (Fd u None) acc
                   end = acc ++ [entry sdims (v, u)]).
      { assert (Fr : ~ In (shown sdims v) (dkeys acc)).
        { cbn [map fst] in ND. intro H. apply NoDup_remove_2 in ND. apply ND, in_or_app. now left. }
        unfold entry, shown in *. cbn [fst snd]. destruct (dget v sdims) as [dim|].
        - destruct (String.eqb_spec dim v) as [->|]; now apply dset_new.
        - rewrite String.eqb_refl. now apply dset_new. }
      rewrite St, IH.
      + now rewrite <- app_assoc.
      + unfold dkeys in *. rewrite map_app. cbn [map fst entry]. rewrite <- app_assoc. exact ND.
  Qed.

  Lemma load_acc : forall (vunits : dict U) sdims units dims,
    NoDup (dkeys units ++ dkeys vunits) -> (forall v, In v (dkeys vunits) -> ~ In v (dkeys dims)) ->
    load_dims (map (entry sdims) vunits) units dims =
    (units ++ vunits,
     dims ++ flat_map (fun vu => if String.eqb (shown sdims (fst vu)) (fst vu) then [] else [(fst vu, shown sdims (fst vu))]) vunits).
  Proof.
    induction vunits as [|[v u] r IH]; intros sdims units dims ND Hd.
    - cbn. now rewrite !app_nil_r.
    - cbn [map load_dims entry fst snd fd_symbol fd_units flat_map].
      assert (Fu : ~ In v (dkeys units)).
      { cbn in ND. intro H. apply NoDup_remove_2 in ND. apply ND, in_or_app. now left. }
      assert (ND2 : NoDup (dkeys (units ++ [(v, u)]) ++ dkeys r)).
      { unfold dkeys in *. rewrite map_app. cbn [map fst]. rewrite <- app_assoc. exact ND. }
      assert (Nr : ~ In v (dkeys r)).
      { cbn in ND. apply NoDup_remove_2 in ND. intro H. apply ND, in_or_app. now right. }
      destruct (String.eqb_spec (shown sdims v) v) as [Es|Es].
      + rewrite Es, dset_new by exact Fu. rewrite IH; auto.
        * now rewrite <- app_assoc.
        * intros w H. apply Hd. now right.
      + rewrite dset_new by exact Fu. rewrite (dset_new _ v (shown sdims v)) by (apply Hd; now left). rewrite IH; auto.
        * rewrite <- !app_assoc. reflexivity.
        * intros w H H1. unfold dkeys in H1. rewrite map_app in H1. apply in_app_or in H1. destruct H1 as [H1|[H1|[]]].
          -- revert H1. apply Hd. now right.
          -- cbn in H1. subst. auto.
  Qed.

  (** A file contains one entry for every variable, in order, under the name of the
      dimension; the symbol is there if the names differ. *)
  Theorem c138_file : forall (vunits : dict U) sdims,
    NoDup (map (fun vu => shown sdims (fst vu)) vunits) ->
    save_dims vunits sdims [] = map (entry sdims) vunits.
  Proof. intros. now rewrite save_acc. Qed.

  (** Units and dimensions of all variables are restored. *)
  Theorem c138_dims : forall (vunits : dict U) sdims,
    NoDup (dkeys vunits) -> NoDup (map (fun vu => shown sdims (fst vu)) vunits) ->
    let '(units, dims) := load_dims (save_dims vunits sdims []) [] [] in
    units = vunits /\
    (forall v, In v (dkeys vunits) -> shown dims v = shown sdims v) /\
    (forall v, ~ In v (dkeys vunits) -> dget v dims = None).
  Proof.
    intros vunits sdims N1 N2. rewrite c138_file by exact N2. rewrite load_acc; auto. cbn [app].
    split; [reflexivity|].
    set (f := flat_map _ vunits). assert (K : forall v, dget v f =
      if in_dec string_dec v (dkeys vunits) then (if String.eqb (shown sdims v) v then None else Some (shown sdims v)) else None).
    { intro v. unfold f. clear f N2. induction vunits as [|[w u] r IH]; [reflexivity|].
      cbn [flat_map fst]. rewrite dget_app. cbn in N1. apply NoDup_cons_iff in N1. destruct N1 as [N0 N1].
      specialize (IH N1). rewrite IH.
      destruct (String.eqb_spec (shown sdims w) w) as [Es|Es]; cbn [dget].
      - destruct (in_dec string_dec v (dkeys r)) as [i|i]; destruct (in_dec string_dec v (dkeys ((w, u) :: r))) as [j|j]; auto.
        + exfalso. apply j. now right.
        + destruct j as [<-|j]; [|contradiction]. cbn. rewrite (proj2 (String.eqb_eq _ _) Es). reflexivity.
      - destruct (String.eqb_spec v w) as [->|Hv].
        + destruct (in_dec string_dec w (dkeys ((w, u) :: r))) as [j|j]; [|exfalso; apply j; now left].
          destruct (String.eqb_spec (shown sdims w) w); [contradiction|reflexivity].
        + destruct (in_dec string_dec v (dkeys r)) as [i|i]; destruct (in_dec string_dec v (dkeys ((w, u) :: r))) as [j|j]; auto.
          * exfalso. apply j. now right.
          * destruct j as [j|j]; [cbn in j; congruence|contradiction]. }
    split; intros v Hv.
    - unfold shown at 1. rewrite K. destruct (in_dec string_dec v (dkeys vunits)); [|contradiction].
      destruct (String.eqb_spec (shown sdims v) v); auto.
    - rewrite K. destruct (in_dec string_dec v (dkeys vunits)); [contradiction|reflexivity].
  Qed.
End Dims.
Print Assumptions c138_file.
Print Assumptions c138_dims.

Section Reload.
  Context {U W : Type}.
  Variable dimensionless : U.
  Variables (ueqb compat : U -> U -> bool) (np_dtype : string -> option dtype) (parse : string -> res U)
            (veqb : W -> W -> bool).
  Variable scalar : @expr U W -> dict U -> res U.
  Variable arrays : @expr U W -> list (string * nat) -> res unit.
  Notation init := (init_expression np_dtype parse ueqb compat veqb dimensionless scalar arrays generic).
  Notation reload := (reload_expression dimensionless ueqb compat np_dtype parse veqb scalar arrays).

  Lemma add_missing_in : forall vars (u : dict U), (forall v, In v vars -> In v (dkeys u)) -> add_missing dimensionless vars u = u.
  Proof.
    induction vars as [|v r IH]; intros u H; [reflexivity|]. cbn [add_missing].
    rewrite (proj2 (dmem_in _ v u)) by (apply H; now left). apply IH. intros w Hw. apply H. now right.
  Qed.
  Lemma add_missing_keys : forall vars (u : dict U), NoDup (dkeys u) ->
    NoDup (dkeys (add_missing dimensionless vars u)) /\
    (forall v, In v (dkeys (add_missing dimensionless vars u)) <-> In v (dkeys u) \/ In v vars).
  Proof.
    induction vars as [|v r IH]; intros u ND; [cbn; split; [exact ND|tauto]|]. cbn [add_missing].
    destruct (dmem v u) eqn:Ev.
    - destruct (IH u ND) as [H1 H2]. split; auto. intro w. rewrite H2. apply dmem_in in Ev. cbn. intuition (subst; auto).
    - assert (Nv : ~ In v (dkeys u)) by (intro H; apply dmem_in in H; congruence).
      rewrite dset_new by exact Nv.
      assert (Ek : dkeys (u ++ [(v, dimensionless)]) = dkeys u ++ [v]) by (unfold dkeys; now rewrite map_app).
      destruct (IH (u ++ [(v, dimensionless)])) as [H1 H2].
      + rewrite Ek. apply NoDup_rev in ND. rewrite <- (rev_involutive (dkeys u ++ [v])). apply NoDup_rev.
        rewrite rev_app_distr. cbn. constructor; auto. now rewrite <- in_rev.
      + split; auto. intro w. rewrite H2, Ek, in_app_iff. cbn. tauto.
  Qed.
  Lemma updated_get : forall (e : @expr U W) dims v, In v (variables e) ->
    dget v (updated_dims e dims) = Some (shown dims v).
  Proof.
    intros e dims v. unfold updated_dims. induction (variables e) as [|w r IH]; intro H; [destruct H|]. cbn [map dget].
    destruct (String.eqb_spec v w) as [->|]; [reflexivity|]. apply IH. destruct H; [congruence|auto].
  Qed.
  Lemma updated_out : forall (e : @expr U W) dims v, ~ In v (variables e) -> dget v (updated_dims e dims) = None.
  Proof.
    intros e dims v H. apply dget_none. unfold updated_dims, dkeys. rewrite map_map. cbn. now rewrite map_id.
  Qed.
  Lemma array_same : forall (units : dict U) d1 d2 n, (forall v, In v (dkeys units) -> dget v d1 = dget v d2) ->
    array_params d1 units n = array_params d2 units n.
  Proof.
    induction units as [|[k u] r IH]; intros d1 d2 n H; [reflexivity|]. cbn [array_params].
    rewrite (H k) by now left. destruct (dget k d2); [|reflexivity]. rewrite (IH d1 d2); auto.
    intros v Hv. apply H. now right.
  Qed.

  (** What a constructed series looks like. *)
  Lemma init_inv : forall (e : @expr U W) dims units s, NoDup (dkeys units) -> NoDup (variables e) ->
    init e dims units = Ok s ->
    variables e <> [] /\ se_expr s = e /\ se_dims s = updated_dims e dims /\
    NoDup (map snd (updated_dims e dims)) /\
    NoDup (dkeys (se_vunits s)) /\ (forall v, In v (dkeys (se_vunits s)) <-> In v (variables e)) /\
    test_expr scalar arrays e (updated_dims e dims) (se_vunits s) = Ok (se_unit s).
  Proof.
    intros e dims units s ND NV. unfold init_expression.
    destruct (variables e) as [|v0 vr] eqn:Ev; [discriminate|]. cbn [List.length Nat.eqb]. rewrite <- Ev in *.
    unfold updated_units. cbn [k_dim_units generic add_required]. cbv zeta.
    destruct (forallb _ units) eqn:Ef; [|discriminate]. cbv beta iota delta [bind].
    destruct (test_expr _ _ _ _ _) as [eu|] eqn:Et; [|discriminate].
    cbn [constraints_expression generic k_base]. cbv beta iota.
    destruct (Nat.eqb_spec (List.length (nodup string_dec (map snd (updated_dims e dims)))) (List.length (updated_dims e dims))) as [El|]; [|discriminate].
    intro H. injection H as <-. cbn [se_expr se_dims se_vunits se_unit].
    destruct (add_missing_keys (variables e) units ND) as [K1 K2].
    split; [congruence|]. split; [reflexivity|]. split; [reflexivity|].
    split; [apply nodup_length; now rewrite map_length|]. split; [exact K1|]. split; [|exact Et].
    intro v. rewrite K2. split; [|tauto]. intros [H|H]; auto.
    rewrite forallb_forall in Ef. unfold dkeys in H. apply in_map_iff in H. destruct H as [[k u] [<- H]].
    apply smem_in. apply (Ef _ H).
  Qed.

  Lemma map_shown : forall (sdims : dict string) (l : dict U) vars,
    NoDup (map fst l) -> (forall v, In v (dkeys l) <-> In v vars) -> NoDup (map (shown sdims) vars) ->
    NoDup (map (fun vu => shown sdims (fst vu)) l).
  Proof.
    intros sdims l vars ND Hk NS. rewrite <- (map_map fst (shown sdims)).
    assert (Inj : forall a b, In a vars -> In b vars -> shown sdims a = shown sdims b -> a = b).
    { clear -NS. induction vars as [|x r IH]; intros a b Ha Hb H; [destruct Ha|]. cbn in NS.
      apply NoDup_cons_iff in NS. destruct NS as [N1 N2].
      destruct Ha as [<-|Ha], Hb as [<-|Hb]; auto.
      - exfalso. apply N1. rewrite H. now apply in_map.
      - exfalso. apply N1. rewrite <- H. now apply in_map. }
    assert (Hin : forall v, In v (map fst l) -> In v vars) by (intros v H; now apply Hk).
    clear Hk NS. induction (map fst l) as [|x r IH]; [constructor|]. cbn. apply NoDup_cons_iff in ND. destruct ND as [N1 N2].
    constructor.
    - intro H. apply in_map_iff in H. destruct H as [y [H1 H2]]. apply N1.
      rewrite (Inj x y); auto; [apply Hin; now left|apply Hin; now right].
    - apply IH; auto. intros v H. apply Hin. now right.
  Qed.

  (** A saved series is loaded with the units of all variables, in the same order, the
      dimensions of all variables and the same unit. The free symbols of the loaded
      expression may come in another order. *)
  Theorem c138_reload : forall (e e' : @expr U W) dims units s,
    NoDup (dkeys units) -> NoDup (variables e) -> init e dims units = Ok s ->
    Permutation (variables e') (variables e) ->
    (forall u, scalar e' u = scalar e u) -> (forall l, arrays e' l = arrays e l) ->
    exists s', reload e' s = Ok s' /\ se_expr s' = e' /\
      se_vunits s' = se_vunits s /\ se_unit s' = se_unit s /\
      (forall v, dget v (se_dims s') = dget v (se_dims s)).
  Proof.
    intros e e' dims units s ND NV Hi Per Hs Ha.
    destruct (init_inv e dims units s ND NV Hi) as [Hne [He [Hd [Nd [Nu [Hk Ht]]]]]].
    assert (Sh : forall v, In v (variables e) -> shown (se_dims s) v = shown dims v).
    { intros v Hv. unfold shown at 1. now rewrite Hd, updated_get. }
    assert (Ns : NoDup (map (shown (se_dims s)) (variables e))).
    { unfold updated_dims in Nd. rewrite map_map in Nd. cbn in Nd.
      erewrite map_ext_in; [exact Nd|]. intros v Hv. now apply Sh. }
    assert (P := c138_dims (se_vunits s) (se_dims s) Nu (map_shown _ _ _ Nu Hk Ns)).
    unfold reload_expression. destruct (load_dims _ [] []) as [lu ld]. destruct P as [-> [Pd _]].
    assert (In' : forall v, In v (variables e') <-> In v (variables e)).
    { intro v. split; apply Permutation_in; [exact Per|now apply Permutation_sym]. }
    unfold init_expression.
    destruct (variables e') as [|v0 vr] eqn:Ev'.
    { exfalso. apply Permutation_nil in Per. congruence. }
    cbn [List.length Nat.eqb]. rewrite <- Ev' in *.
    unfold updated_units. cbn [k_dim_units generic add_required]. cbv zeta.
    assert (Ef : forallb (fun x : string * U => smem (fst x) (variables e')) (se_vunits s) = true).
    { apply forallb_forall. intros [k u] H. apply smem_in. cbn. apply In', Hk. unfold dkeys.
      apply in_map_iff. exists (k, u). auto. }
    rewrite Ef. cbv beta iota delta [bind].
    rewrite add_missing_in by (intros v Hv; apply Hk, In', Hv).
    assert (Dm : forall v, dget v (updated_dims e' ld) = dget v (se_dims s)).
    { intro v. rewrite Hd. destruct (in_dec string_dec v (variables e)) as [Hv|Hv].
      - rewrite !updated_get by (auto; now apply In'). f_equal. rewrite Pd by now apply Hk. now apply Sh.
      - rewrite !updated_out; auto. now rewrite In'. }
    assert (Te : test_expr scalar arrays e' (updated_dims e' ld) (se_vunits s) = Ok (se_unit s)).
    { rewrite <- Ht. unfold test_expr, test_arrays. rewrite Hs.
      assert (Ar : forall n, bind (array_params (updated_dims e' ld) (se_vunits s) n) (arrays e')
                = bind (array_params (updated_dims e dims) (se_vunits s) n) (arrays e)).
      { intro n. rewrite (array_same _ (updated_dims e' ld) (updated_dims e dims)).
        - destruct (array_params _ _ _); cbn; auto.
        - intros v _. rewrite Dm. now rewrite Hd. }
      now rewrite !Ar. }
    rewrite Te. cbn [constraints_expression generic k_base]. cbv beta iota.
    assert (El : Nat.eqb (List.length (nodup string_dec (map snd (updated_dims e' ld)))) (List.length (updated_dims e' ld)) = true).
    { apply Nat.eqb_eq. rewrite <- (map_length snd (updated_dims e' ld)). apply nodup_length.
      unfold updated_dims. rewrite map_map. cbn.
      apply (Permutation_NoDup (l := map (shown (se_dims s)) (variables e))); [|exact Ns].
      rewrite (map_ext_in (fun x => match dget x ld with Some d => d | None => x end) (shown (se_dims s))).
      - apply Permutation_map. now apply Permutation_sym.
      - intros v Hv. apply (Pd v). now apply Hk, In'. }
    rewrite El. eexists. split; [reflexivity|]. cbn. repeat split; auto.
  Qed.

  Theorem c138_same : forall (e : @expr U W) dims units s,
    NoDup (dkeys units) -> NoDup (variables e) -> init e dims units = Ok s -> reload e s = Ok s.
  Proof.
    intros e dims units s ND NV Hi.
    destruct (c138_reload e e dims units s ND NV Hi (Permutation_refl _) (fun _ => eq_refl) (fun _ => eq_refl))
      as [s' [H1 [H2 [H3 [H4 H5]]]]].
    rewrite H1. f_equal. destruct (init_inv e dims units s ND NV Hi) as [_ [He [Hd _]]].
    assert (Hd' : exists d, se_dims s' = updated_dims e d).
    { unfold reload_expression in H1. destruct (load_dims _ [] []) as [lu ld]. exists ld.
      unfold init_expression in H1. destruct (Nat.eqb (List.length (variables e)) 0); [discriminate|].
      destruct (updated_units _ _ _ _) as [u|]; [|discriminate]. cbv beta iota delta [bind] in H1.
      destruct (test_expr _ _ _ _ _); [|discriminate]. destruct (constraints_expression _ _ _ _ _ _ _ _ _ _); [|discriminate].
      destruct (Nat.eqb _ _); [|discriminate]. injection H1 as <-. reflexivity. }
    destruct Hd' as [d Hd'].
    assert (Ed : se_dims s' = se_dims s).
    { rewrite Hd, Hd' in *. unfold updated_dims. apply map_ext_in. intros v Hv.
      specialize (H5 v). rewrite !updated_get in H5 by exact Hv. unfold shown in H5. injection H5 as ->. reflexivity. }
    destruct s, s'. cbn in *. congruence.
  Qed.
End Reload.
Print Assumptions c138_reload.
Print Assumptions c138_same.

(** Units are texts; all evaluations succeed. *)
Example ex_c138 :
  let e : @expr string nat := CheckModel.Ex ["a"; "t"; "p"] [("p", CheckModel.Pa true [] [] "m")] in
  let init := init_expression (fun _ => None) Ok String.eqb String.eqb Nat.eqb "" (fun _ _ => Ok "m") (fun _ _ => Ok tt) generic in
  exists s, init e [("a", "b")] [("t", "s")] = Ok s /\
    se_dims s = [("a", "b"); ("t", "t")] /\ se_vunits s = [("t", "s"); ("a", "")] /\
    save_dims (se_vunits s) (se_dims s) [] = [("t", Fd "s" None); ("b", Fd "" (Some "a"))] /\
    reload_expression "" String.eqb String.eqb (fun _ => None) Ok Nat.eqb (fun _ _ => Ok "m") (fun _ _ => Ok tt) e s = Ok s.
Proof. eexists. split; [vm_compute; reflexivity|]. repeat split. Qed.

(** ** Discrete series *)
Section Discrete.
  Context {F U A : Type}.
  Variable truthy : U -> bool.
  Notation dseries := (dseries F U A).
  Notation size s d := (size_of (s_dims s) (q_shape (s_data s)) d).

  (** xarray: as many dimensions as the data has, coordinates fit their dimensions, a
      coordinate with the name of a dimension belongs to it and to no other. *)
  Definition proper (s : dseries) : Prop :=
    List.length (s_dims s) = List.length (q_shape (s_data s)) /\
    forall k c, In (k, c) (s_coords s) ->
      Forall2 (fun d n => size s d = Some n) (c_dims c) (c_shape c) /\
      List.length (c_vals c) = fold_right Nat.mul 1 (c_shape c) /\
      (In k (s_dims s) -> c_dims c = [k]).
  Definition has_unit (c : coord F U) : Prop := exists u, c_unit c = Some u /\ truthy u = true.
  Definition dims_only (s : dseries) : Prop := forall k c, In (k, c) (s_coords s) -> In k (s_dims s).
  Definition plain (s : dseries) : dseries := Ds (s_data s) (s_dims s) (s_coords s) (s_interp s) [].

  Lemma size_in : forall dims shape d n, size_of dims shape d = Some n -> In d dims.
  Proof.
    induction dims as [|x r IH]; intros [|m shape] d n H; try discriminate. cbn in H.
    destruct (String.eqb_spec x d) as [->|]; [now left|]. right. eauto.
  Qed.
  Lemma size_get : forall dims shape d, List.length dims = List.length shape -> In d dims -> exists n, size_of dims shape d = Some n.
  Proof.
    induction dims as [|x r IH]; intros [|m shape] d L H; try discriminate; [destruct H|]. cbn.
    destruct (String.eqb_spec x d) as [->|]; [eauto|]. apply IH; [now injection L|]. destruct H; [contradiction|auto].
  Qed.

  Lemma saved_ok : forall s : dseries, (forall k c, In (k, c) (s_coords s) -> has_unit c) ->
    save_discrete truthy s = Ok (Node (s_data s) (s_dims s)
      (map (fun kc => (fst kc, coord_quantity truthy (snd kc))) (s_coords s)) (s_interp s)).
  Proof.
    intros s H. unfold save_discrete.
    assert (Ef : forallb (fun kc : string * saved_coord => match snd kc with SQuantity _ => true | SArray _ _ => false end)
              (map (fun kc => (fst kc, coord_quantity truthy (snd kc))) (s_coords s)) = true).
    { apply forallb_forall. intros kc Hin. apply in_map_iff in Hin. destruct Hin as [[k c] [<- Hin]].
      destruct (H k c Hin) as [u [H1 H2]]. cbn. unfold coord_quantity. now rewrite H1, H2. }
    now rewrite Ef.
  Qed.

  (** A coordinate without unit: the schema refuses the file. *)
  Theorem c138_unitless : forall (s : dseries) k c, In (k, c) (s_coords s) -> ~ has_unit c ->
    save_discrete truthy s = Err ValidationError.
  Proof.
    intros s k c Hin Hn. unfold save_discrete. destruct (forallb _ _) eqn:Ef; [|reflexivity].
    exfalso. rewrite forallb_forall in Ef.
    specialize (Ef (k, coord_quantity truthy c)). apply Hn. unfold has_unit.
    assert (H : In (k, coord_quantity truthy c) (map (fun kc => (fst kc, coord_quantity truthy (snd kc))) (s_coords s))).
    { apply in_map_iff. now exists (k, c). }
    specialize (Ef H). cbn in Ef. unfold coord_quantity in Ef. destruct (c_unit c) as [u|]; [|discriminate].
    destruct (truthy u) eqn:Et; [|discriminate]. eauto.
  Qed.

  Lemma load_all : forall sz (cs : dict (coord F U)),
    (forall k c, In (k, c) cs -> has_unit c /\ exists n, sz k = Some n /\ c_dims c = [k] /\ c_shape c = [n] /\ List.length (c_vals c) = n) ->
    load_coords (A := A) sz (map (fun kc => (fst kc, coord_quantity truthy (snd kc))) cs) = Ok cs.
  Proof.
    intros sz cs. induction cs as [|[k c] r IH]; intro H; [reflexivity|].
    destruct (H k c) as [[u [H1 H2]] [n [H3 [H4 [H5 H6]]]]]; [now left|].
    cbn [map fst snd load_coords]. unfold coord_quantity at 1. rewrite H1, H2. rewrite H5.
    cbn [load_coords]. cbn [bind series_coord new_param to_quantity coord_tuple p_values p_dim as_coord q_shape q_vals q_unit].
    rewrite H3, H6, Nat.eqb_refl. rewrite IH.
    - cbn [bind]. destruct c as [d s v cu]. cbn in *. subst. reflexivity.
    - intros k' c' Hin. apply H. now right.
  Qed.

  (** Series whose coordinates have units and belong to dimensions come back, without the
      attributes of the array. *)
  Theorem c138_discrete : forall s : dseries, proper s ->
    (forall k c, In (k, c) (s_coords s) -> has_unit c) -> dims_only s ->
    reload_discrete truthy s = Ok (plain s).
  Proof.
    intros s [L P] Hu Hd. unfold reload_discrete. rewrite (saved_ok s Hu). cbn [bind].
    unfold load_discrete. cbn [n_dims n_data n_coords n_interp]. rewrite L, Nat.eqb_refl, load_all; [reflexivity|].
    intros k c Hin. split; [exact (Hu k c Hin)|].
    destruct (P k c Hin) as [P1 [P2 P3]]. specialize (P3 (Hd k c Hin)). rewrite P3 in P1.
    inversion P1 as [|d n ds ns Hn Ht Ed En]; subst. inversion Ht; subst.
    exists n. repeat split; auto. rewrite P2, <- En. cbn. lia.
  Qed.

  (** Any other coordinate can be saved, but the file cannot be loaded. *)
  Theorem c138_auxiliary : forall (s : dseries) k c, proper s ->
    (forall k c, In (k, c) (s_coords s) -> has_unit c) ->
    In (k, c) (s_coords s) -> ~ In k (s_dims s) ->
    reload_discrete truthy s = Err ValueError.
  Proof.
    intros s k c [L P] Hu Hin Hk. unfold reload_discrete. rewrite (saved_ok s Hu). cbn [bind].
    unfold load_discrete. cbn [n_dims n_data n_coords n_interp]. rewrite L, Nat.eqb_refl.
    assert (E0 : load_coords (A := A) (size_of (s_dims s) (q_shape (s_data s)))
              (map (fun kc => (fst kc, coord_quantity truthy (snd kc))) (s_coords s)) = Err ValueError); [|now rewrite E0].
    clear P. revert Hu Hin. induction (s_coords s) as [|[k' c'] r IH]; intros Hu Hin; [destruct Hin|].
    destruct (Hu k' c') as [u [H1 H2]]; [now left|].
    cbn [map fst snd load_coords]. unfold coord_quantity at 1. rewrite H1, H2. cbn [load_coords].
    unfold series_coord. cbn [bind new_param to_quantity coord_tuple p_values p_dim as_coord q_shape q_vals q_unit].
    destruct (c_shape c') as [|n [|n2 sh]]; cbn [bind]; try reflexivity.
    destruct (size_of (s_dims s) (q_shape (s_data s)) k') as [m|] eqn:Es; [|reflexivity].
    destruct (Nat.eqb m (List.length (c_vals c'))); [|reflexivity].
    destruct Hin as [H|H].
    - exfalso. injection H as -> ->. apply size_in in Es. contradiction.
    - rewrite IH; auto. intros k2 c2 H3. apply (Hu k2 c2). now right.
  Qed.
End Discrete.
Print Assumptions c138_unitless.
Print Assumptions c138_discrete.
Print Assumptions c138_auxiliary.

Definition ex_series (attrs : list string) : dseries nat string string :=
  Ds (Qt [2] [10; 20] "V") ["t"] [("t", Co ["t"] [2] [0; 5] (Some "s"))] "linear" attrs.
Notation ex_truthy := (fun u : string => negb (String.eqb u "")).
Example ex_c138_discrete : proper (ex_series []) /\ dims_only (ex_series []) /\
  reload_discrete ex_truthy (ex_series []) = Ok (ex_series []).
Proof.
  split; [|split; [|reflexivity]].
  - split; [reflexivity|]. intros k c [H|[]]. injection H as <- <-. cbn. repeat split; auto. 
  - intros k c [H|[]]. injection H as <- <-. now left.
Qed.
(** False: a loaded series equals the saved one (the attributes are compared). *)
Theorem c138_equal_refuted : proper (ex_series ["note"]) /\ dims_only (ex_series ["note"]) /\
  reload_discrete ex_truthy (ex_series ["note"]) <> Ok (ex_series ["note"]).
Proof.
  split; [exact (proj1 ex_c138_discrete)|]. split; [exact (proj1 (proj2 ex_c138_discrete))|]. discriminate.
Qed.
Print Assumptions c138_equal_refuted.
(** False: every series that can be saved can be loaded. *)
Theorem c138_loadable_refuted :
  ~ (forall s : dseries nat string string, proper s -> forall n, save_discrete ex_truthy s = Ok n ->
       exists s' : dseries nat string string, load_discrete n = Ok s').
Proof.
  intro H.
  specialize (H (Ds (Qt [2] [10; 20] "V") ["t"] [("x", Co [] [] [1] (Some "s"))] "linear" [])).
  destruct (H ltac:(split; [reflexivity|intros k c [E|[]]; injection E as <- <-; cbn; repeat split; auto; intros [Z|[]]; discriminate]) _ eq_refl) as [s' E].
  discriminate.
Qed.
Print Assumptions c138_loadable_refuted.
