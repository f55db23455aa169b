(** Properties of saved variables, DataArrays and Datasets. *)
From Coq Require Import List String Bool ZArith.
From Verif Require Import Base VarFileModel.
Import ListNotations.
Open Scope string_scope.

Section Var.
  Context {U A : Type} (item_dtype : string -> string).
  Notation to_tree := (to_tree (U := U) (A := A) item_dtype).
  (** as many values as the shape tells *)
  Definition well_formed (a : nd) : Prop := List.length (vals a) = fold_right Nat.mul 1 (shp a).
  Definition is_time (a : nd) : Prop := exists s, dt a = DtTime s.

  (** Arrays and points in time are loaded as they were saved. *)
  Theorem c121_arrays : forall v a, v_data v = CArr a -> well_formed a -> shp a <> [] \/ is_time a ->
    exists t, to_tree v = Ok t /\ v_data (from_tree t) = CArr a /\ v_name (from_tree t) = v_name v /\
      v_dims (from_tree t) = v_dims v /\ v_units (from_tree t) = v_units v.
  Proof.
    intros v [d s l] E W H. unfold VarFileModel.to_tree. rewrite E. eexists. split; [reflexivity|].
    unfold from_tree, convert_time_dtypes. cbn [t_dtype t_data t_name t_dims t_units v_data v_name v_dims v_units dt shp vals].
    repeat split. unfold well_formed in W. cbn [shp vals] in *.
    destruct d as [u|u]; cbn [shp vals dt].
    - destruct s as [|n s]; [|reflexivity]. destruct l as [|z [|]]; try discriminate W. reflexivity.
    - destruct s as [|n s]; [|reflexivity]. destruct H as [H|[w [=]]]. contradiction.
  Qed.
  (** Other scalars become plain numbers. *)
  Theorem c121_scalars : forall v a s z, v_data v = CArr a -> a = Nd (DtOther s) [] [z] ->
    exists t, to_tree v = Ok t /\ v_data (from_tree t) = CNum (item_dtype s) z /\ v_units (from_tree t) = v_units v.
  Proof. intros v a s z E ->. unfold VarFileModel.to_tree. rewrite E. eexists. repeat split. Qed.
  (** False: what was loaded can be saved again. *)
  Theorem c121_again_refuted : forall n ds s z u at_, exists t,
    to_tree (Va n ds (CArr (Nd (DtOther s) [] [z])) u at_) = Ok t /\ to_tree (from_tree t) = Err AttributeError.
  Proof. intros. eexists. split; reflexivity. Qed.
  (** Arrays and points in time can be, with the same tree. *)
  Theorem c121_again : forall v a t, v_data v = CArr a -> well_formed a -> shp a <> [] \/ is_time a ->
    to_tree v = Ok t -> to_tree (from_tree t) = Ok t.
  Proof.
    intros v a t E W H T. destruct (c121_arrays v a E W H) as (t' & T' & D & N & S & X).
    assert (t' = t) by congruence. subst t'. clear T'. unfold VarFileModel.to_tree in *. rewrite E in T. rewrite D, N, S, X.
    injection T as <-. cbn [from_tree v_attrs t_attrs]. now destruct (v_attrs v) as [[|]|].
  Qed.
  (** Attributes are kept; without attributes there are none. *)
  Theorem c121_attrs : forall v t, to_tree v = Ok t -> v_attrs (from_tree t) =
    match v_attrs v with Some [] => None | x => x end.
  Proof.
    intros v t. unfold VarFileModel.to_tree. destruct (v_data v); [|discriminate]. intros [= <-].
    cbn. now destruct (v_attrs v) as [[|]|].
  Qed.
  (** False: an empty dictionary stays one. *)
  Theorem c121_attrs_refuted : forall n ds a u, exists t,
    to_tree (Va n ds (CArr a) u (Some [])) = Ok t /\ v_attrs (from_tree t) = None.
  Proof. intros. eexists. split; reflexivity. Qed.
  (** Files contain no arrays of times, only numbers. *)
  Theorem c121_numbers : forall v t, to_tree v = Ok t -> forall a, t_data t = CArr a -> ~ is_time a.
  Proof.
    intros v t. unfold VarFileModel.to_tree. destruct (v_data v) as [[d s l]|]; [|discriminate]. intros [= <-] a.
    cbn [t_data]. unfold convert_time_dtypes. cbn [dt]. destruct d as [u|u]; cbn [shp vals dt].
    - destruct s as [|n s]; [destruct l|]; try discriminate; intros [= <-] [w [=]].
    - destruct s as [|n s]; [destruct l|]; try discriminate; intros [= <-] [w [=]].
  Qed.
  Theorem c121_errors : forall v, (exists t, to_tree v = Ok t) <-> exists a, v_data v = CArr a.
  Proof.
    intros v. unfold VarFileModel.to_tree. destruct (v_data v); split; intros [x H]; try discriminate; eexists; reflexivity.
  Qed.

  (** ** DataArrays and Datasets *)
  (** what numpy makes of the python number keeps the dtype *)
  Definition stable (a : nd) : Prop := shp a <> [] \/ is_time a \/ exists s, dt a = DtOther s /\ item_dtype s = s.
  Definition good (x : xvar U A) : Prop := well_formed (x_data x) /\ stable (x_data x).
  Lemma one_kept n (x : xvar U A) : good x -> exists t, to_tree (to_variable n x) = Ok t /\
    v_name (from_tree t) = n /\ of_variable (from_tree t) = x.
  Proof.
    intros [W S]. destruct x as [ds [d s l] u at_]. unfold VarFileModel.to_tree. cbn [to_variable v_data x_data].
    eexists. split; [reflexivity|]. split; [reflexivity|]. unfold of_variable, from_tree, convert_time_dtypes.
    cbn [t_dtype t_data t_name t_dims t_units t_attrs v_data v_name v_dims v_units v_attrs dt shp vals to_variable x_dims x_units x_attrs].
    unfold well_formed in W. cbn [x_data shp vals] in W.
    f_equal; [|destruct at_; reflexivity].
    destruct d as [w|w]; cbn [shp vals dt].
    - destruct s as [|k s]; [|reflexivity]. destruct l as [|z [|]]; try discriminate W. reflexivity.
    - destruct s as [|k s]; [|reflexivity]. destruct l as [|z [|]]; try discriminate W.
      destruct S as [S|[[y [=]]|(y & [= <-] & S)]]; [now elim S|]. now rewrite S.
  Qed.
  Lemma dset_end {V} k (v : V) d : ~ In k (dkeys d) -> dset k v d = (d ++ [(k, v)])%list.
  Proof.
    induction d as [|[a b] d IH]; intros N; [reflexivity|]. cbn [dset]. destruct (String.eqb_spec k a) as [->|].
    - elim N. now left.
    - cbn [app]. f_equal. apply IH. intros I. apply N. now right.
  Qed.
  Lemma all_kept (d : dict (xvar U A)) : NoDup (dkeys d) -> Forall (fun p => good (snd p)) d ->
    exists l, save_all item_dtype d = Ok l /\ load_all l = d.
  Proof.
    intros N G.
    assert (H : exists l, save_all item_dtype d = Ok l /\ forall acc, NoDup (dkeys (acc ++ d)%list) ->
      fold_left (fun d t => dset (v_name (from_tree t)) (of_variable (from_tree t)) d) l acc = (acc ++ d)%list).
    { clear N. induction d as [|[k x] d IH].
      - exists []. split; [reflexivity|]. intros acc _. cbn. now rewrite app_nil_r.
      - inversion_clear G as [|? ? G1 G2]. destruct (IH G2) as (l & L & F).
        destruct (one_kept k x G1) as (t & T & K & X). exists (t :: l). split.
        { cbn [save_all]. rewrite T. cbn [bind]. now rewrite L. }
        intros acc N. cbn [fold_left]. rewrite K, X.
        assert (NK : ~ In k (dkeys acc)).
        { unfold dkeys in N. rewrite map_app in N. cbn [map fst] in N. apply NoDup_remove_2 in N. intros I. apply N, in_or_app. now left. }
        rewrite (dset_end k x acc NK), F; rewrite <- app_assoc; [reflexivity|exact N]. }
    destruct H as (l & L & F). exists l. split; [exact L|]. apply (F []). exact N.
  Qed.
  (** DataArrays are loaded as saved, without their name. *)
  Theorem c122_arrays : forall a : xarray U A, NoDup (dkeys (xa_coords a)) ->
    Forall (fun p => good (snd p)) (xa_coords a) -> good (xa_data a) ->
    exists t, save_array item_dtype a = Ok t /\ load_array t = Xa None (xa_data a) (xa_coords a).
  Proof.
    intros [n x cs] N G X. destruct (all_kept cs N G) as (l & L & F). cbn [xa_data xa_coords] in *.
    assert (X' : good (Xv (x_dims x) (x_data x) (x_units x) [])) by exact X.
    destruct (one_kept "data" _ X') as (t & T & _ & Y).
    unfold save_array. cbn [xa_coords xa_data]. rewrite L. cbn [bind]. unfold to_variable in T. cbn [x_dims x_data x_units x_attrs] in T.
    match goal with |- context [bind ?y _] => replace y with (Ok t) by (symmetry; exact T) end.
    cbn [bind]. eexists. split; [reflexivity|]. unfold load_array. rewrite Y, F. now destruct x.
  Qed.
  (** False: the name is kept. It is for no array with a name. *)
  Theorem c122_name_refuted : forall (a : xarray U A) n t, xa_name a = Some n -> save_array item_dtype a = Ok t ->
    load_array t <> a.
  Proof. intros a n [[at_ cs] d] N _ H. rewrite <- H in N. discriminate. Qed.
  (** Scalars get the dtype of python numbers. False: it is kept. *)
  Theorem c122_dtype_refuted : forall s z, item_dtype s <> s -> exists (a : xarray U A) t,
    save_array item_dtype a = Ok t /\ dt (x_data (xa_data a)) = DtOther s /\
    x_data (xa_data (load_array t)) = Nd (DtOther (item_dtype s)) [] [z] /\ load_array t <> a.
  Proof.
    intros s z N. exists (Xa None (Xv [] (Nd (DtOther s) [] [z]) None []) []). eexists. split; [reflexivity|].
    split; [reflexivity|]. split; [reflexivity|]. cbn. congruence.
  Qed.
  Theorem c122_values : forall (x : xvar U A) n t, well_formed (x_data x) -> to_tree (to_variable n x) = Ok t ->
    vals (x_data (of_variable (from_tree t))) = vals (x_data x) /\ shp (x_data (of_variable (from_tree t))) = shp (x_data x).
  Proof.
    intros [ds [d s l] u at_] n t W. unfold VarFileModel.to_tree. cbn [to_variable v_data x_data]. intros [= <-].
    unfold of_variable, from_tree, convert_time_dtypes, well_formed in *.
    cbn [t_dtype t_data v_data dt shp vals x_data] in *.
    destruct d as [w|w]; cbn [shp vals dt]; (destruct s as [|k s]; [|split; reflexivity]);
      (destruct l as [|z [|]]; try discriminate W; split; reflexivity).
  Qed.
  (** Datasets are loaded as saved. *)
  Theorem c122_datasets : forall d : dataset U A, NoDup (dkeys (ds_coords d)) -> NoDup (dkeys (ds_vars d)) ->
    Forall (fun p => good (snd p)) (ds_coords d) -> Forall (fun p => good (snd p)) (ds_vars d) ->
    exists t, save_dataset item_dtype d = Ok t /\ load_dataset t = d.
  Proof.
    intros [vs cs at_] N M G F. cbn [ds_coords ds_vars] in *.
    destruct (all_kept cs N G) as (l & L & X). destruct (all_kept vs M F) as (m & L' & Y).
    unfold save_dataset. cbn [ds_coords ds_vars ds_attrs]. rewrite L, L'. cbn [bind]. eexists. split; [reflexivity|].
    cbn. now rewrite X, Y.
  Qed.
End Var.
Print Assumptions c121_arrays.
Print Assumptions c121_scalars.
Print Assumptions c121_again_refuted.
Print Assumptions c121_again.
Print Assumptions c121_attrs.
Print Assumptions c121_attrs_refuted.
Print Assumptions c121_numbers.
Print Assumptions c121_errors.
Print Assumptions c122_arrays.
Print Assumptions c122_name_refuted.
Print Assumptions c122_dtype_refuted.
Print Assumptions c122_values.
Print Assumptions c122_datasets.
Definition ex_item (s : string) : string := if String.eqb s "<f4" then "<f8" else s.
Definition ex_time : xvar unit unit := Xv ["time"] (Nd (DtTime "<m8[ns]") [2] [0; 5]%Z) None [("time_ref", tt)].
Definition ex_scalar : xvar unit unit := Xv [] (Nd (DtOther "<f8") [] [7]%Z) (Some tt) [].
Example ex_c121 : well_formed (x_data ex_time) /\ is_time (x_data ex_time) /\ ex_item "<f4" <> "<f4".
Proof. repeat split; [eexists; reflexivity|discriminate]. Qed.
Example ex_c122 : good ex_item ex_time /\ good ex_item ex_scalar /\
  exists t, save_array ex_item (Xa (Some "a") ex_time [("time", ex_time); ("s", ex_scalar)]) = Ok t /\
    load_array t = Xa None ex_time [("time", ex_time); ("s", ex_scalar)].
Proof.
  split; [split; [reflexivity|left; discriminate]|]. split; [split; [reflexivity|right; right; eexists; split; reflexivity]|].
  eexists. split; reflexivity.
Qed.
