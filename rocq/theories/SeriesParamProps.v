(** Properties of parameters of series. *)
From Coq Require Import List String Bool Arith.
From Verif Require Import Base SeriesParamModel.
Import ListNotations.
Open Scope string_scope.

Section Param.
  Context {F U A O : Type} (quantity_of : O -> res (list nat * list F * U)) (default_dim : nat -> string).
  Notation input := (input F U A O).
  Notation param := (param F U A).
  Notation new_param := (new_param (A := A) quantity_of).
  Notation series_coord := (series_coord (A := A) quantity_of).
  Notation format_params := (format_params (A := A) quantity_of).

  (** Values are quantities or arrays; arrays and quantities are kept. *)
  Theorem c123_values : forall (v : input) dim sym p, new_param v dim sym = Ok p ->
    match v with
    | InParam p0 => p = p0
    | InTuple (RQuantity q) d => p = Pa (VQ q) d sym
    | InTuple (RArray _) _ => False
    | InTuple (ROther o) d => exists q, quantity_of o = Ok (q_shape q, q_vals q, q_unit q) /\ p = Pa (VQ q) d sym
    | InRaw (RQuantity q) => p = Pa (VQ q) dim sym
    | InRaw (RArray a) => p = Pa (VA a) dim sym
    | InRaw (ROther o) => exists q, quantity_of o = Ok (q_shape q, q_vals q, q_unit q) /\ p = Pa (VQ q) dim sym
    end.
  Proof.
    intros v dim sym p H.
    destruct v as [[x d s]|[q|a|o] d|[q|a|o]]; cbn in H; try (now injection H as <-); try discriminate.
    all: destruct (quantity_of o) as [[[s l] u]|e]; [|discriminate]; cbn in H; injection H as <-;
      exists (Qt s l u); split; reflexivity.
  Qed.
  (** Errors are those of [Q_], and arrays in tuples. *)
  Theorem c123_errors : forall (v : input) dim sym e, new_param v dim sym = Err e <->
    (exists o, (v = InRaw (ROther o) \/ exists d, v = InTuple (ROther o) d) /\ quantity_of o = Err e) \/
    (e = TypeError /\ exists a d, v = InTuple (RArray a) d).
  Proof.
    intros v dim sym e. split.
    - destruct v as [p|[q|a|o] d|[q|a|o]]; cbn; try discriminate.
      + intros [= <-]. right. split; [reflexivity|]. exists a, d. reflexivity.
      + destruct (quantity_of o) eqn:Q; [discriminate|]. intros [= <-]. left. exists o. split; [right; exists d; reflexivity|exact Q].
      + destruct (quantity_of o) eqn:Q; [discriminate|]. intros [= <-]. left. exists o. split; [left; reflexivity|exact Q].
    - intros [(o & [-> | [d ->]] & Q)|(-> & a & d & ->)]; cbn; rewrite ?Q; reflexivity.
  Qed.
  (** False: dimension and symbol are those given. Parameters keep their own. *)
  Theorem c123_given_refuted : forall (p : param) dim sym, dim <> p_dim p \/ sym <> p_symbol p ->
    exists r, new_param (InParam p) dim sym = Ok r /\ (p_dim r <> dim \/ p_symbol r <> sym).
  Proof. intros p dim sym H. eexists. split; [reflexivity|]. destruct H; [left|right]; cbn; congruence. Qed.

  (** One-dimensional quantities and their arrays are the same. *)
  Theorem c123_array : forall q d s n, q_shape q = [n] -> exists a,
    param_array default_dim (Pa (VQ q) (Some d) s : param) = Ok a /\
    d_dims a = [d] /\ param_quantity (Pa (VA a) (Some d) s) = param_quantity (Pa (VQ q) (Some d) s : param).
  Proof. intros q d s n H. unfold param_array. cbn [p_values p_dim]. rewrite H. cbn. rewrite H. eexists. repeat split. Qed.
  (** Scalars become arrays with one value. False: they stay scalars. *)
  Theorem c123_scalar_refuted : forall x u d s, exists a,
    param_array default_dim (Pa (VQ (Qt [] [x] u)) (Some d) s : param) = Ok a /\ d_dims a = [d] /\ d_shape a = [1] /\
    d_vals a = [x] /\ d_unit a = Some u.
  Proof. intros. eexists. repeat split. Qed.
  (** Arrays of quantities with several dimensions cannot be made with one name. *)
  Theorem c123_shape : forall q d s, (exists a, param_array default_dim (Pa (VQ q) (Some d) s : param) = Ok a) <->
    List.length (q_shape q) <= 1.
  Proof.
    intros [sh l u] d s. unfold param_array. cbn [p_values p_dim q_shape q_vals q_unit].
    destruct sh as [|n [|m sh]]; cbn; split; auto; intros H; try (eexists; reflexivity).
    - destruct H as [a [=]].
    - apply le_S_n in H. inversion H.
  Qed.
  (** False: the quantity has a unit. *)
  Theorem c123_unit_refuted : forall a d s, d_unit a = None -> snd (param_quantity (Pa (VA a) d s : param)) = None.
  Proof. intros a d s H. exact H. Qed.

  (** ** Coordinates of discrete series *)
  (** Quantities become coordinates along their name. *)
  Theorem c124_quantity : forall k q, series_coord k (InRaw (RQuantity q)) =
    if Nat.eqb (List.length (q_shape q)) 1 then Ok (k, q_vals q, Some (q_unit q)) else Err ValueError.
  Proof. intros k [[|n [|m l]] v u]; reflexivity. Qed.
  Theorem c124_tuple : forall k q d, series_coord k (InTuple (RQuantity q) (Some d)) =
    if Nat.eqb (List.length (q_shape q)) 1 then Ok (d, q_vals q, Some (q_unit q)) else Err ValueError.
  Proof. intros k [[|n [|m l]] v u] d; reflexivity. Qed.
  (** False: so do arrays. They never do with a unit. *)
  Theorem c124_array_refuted : forall k a u, d_unit a = Some u -> forall r, series_coord k (InRaw (RArray a)) <> Ok r.
  Proof.
    intros k [ds sh l un at_] u H r. cbn in H. subst un. unfold SeriesParamModel.series_coord. cbn.
    destruct sh as [|n [|m sh]]; discriminate.
  Qed.
  Theorem c124_array : forall k a n, d_unit a = None -> d_shape a = [n] ->
    series_coord k (InRaw (RArray a)) = Ok (k, d_vals a, None).
  Proof. intros k [ds sh l un at_] n H S. cbn in H, S. subst. reflexivity. Qed.

  (** ** Parameters of expressions *)
  Definition fresh (v : input) : Prop := forall p, v <> InParam p.
  (** what the parameter with the name [k] becomes *)
  Definition expected (v : input) (k : string) (f : formatted F U A) : Prop :=
    match v with
    | InParam p => False
    | InRaw (RArray a) => f = FArray a /\ d_unit a <> None
    | InRaw (RQuantity q) => f = FTuple q None
    | InRaw (ROther o) => exists q, quantity_of o = Ok (q_shape q, q_vals q, q_unit q) /\ f = FTuple q None
    | InTuple (RQuantity q) d => f = if opt_eqb d (Some k) then FQuantity q else FTuple q d
    | InTuple (ROther o) d => exists q, quantity_of o = Ok (q_shape q, q_vals q, q_unit q) /\
        f = if opt_eqb d (Some k) then FQuantity q else FTuple q d
    | InTuple (RArray _) _ => False
    end.
  Lemma opt_eqb_some k k' : opt_eqb (Some k) (Some k') = String.eqb k k'.
  Proof. reflexivity. Qed.
  Lemma set_end k v (d : list (option string * formatted F U A)) : ~ In k (map fst d) -> set_symbol k v d = (d ++ [(k, v)])%list.
  Proof.
    induction d as [|[a b] d IH]; intros N; [reflexivity|]. cbn [set_symbol].
    assert (E : opt_eqb k a = false).
    { destruct (opt_eqb k a) eqn:Q; [|reflexivity]. elim N. left. cbn. destruct k, a; try discriminate Q; [|reflexivity].
      apply String.eqb_eq in Q. now subst. }
    rewrite E. cbn [app]. f_equal. apply IH. intros I. apply N. now right.
  Qed.
  Lemma new_params_all (l : dict input) ps : new_params quantity_of l = Ok ps -> Forall (fun p => fresh (snd p)) l ->
    Forall2 (fun kv p => p_symbol p = Some (fst kv) /\ (param_units p <> None -> expected (snd kv) (fst kv) (format_param p))) l ps.
  Proof.
    revert ps. induction l as [|[k v] l IH]; intros ps H G; cbn [new_params] in H; [injection H as <-; constructor|].
    destruct (new_param v None (Some k)) as [p|] eqn:P; [|discriminate]. cbn [bind] in H.
    destruct (new_params quantity_of l) as [ps'|]; [|discriminate]. cbn [bind] in H. injection H as <-.
    inversion_clear G as [|? ? G1 G2]. constructor; [|now apply IH]. cbn [fst snd] in *.
    pose proof (c123_values _ _ _ _ P) as V. destruct v as [p0|[q|a|o] d|[q|a|o]]; cbn [expected].
    - now elim (G1 p0).
    - subst. split; reflexivity.
    - contradiction.
    - destruct V as (q & Q & ->). split; [reflexivity|]. intros _. exists q. split; [exact Q|reflexivity].
    - subst. split; reflexivity.
    - subst. split; [reflexivity|]. intros X. split; [reflexivity|exact X].
    - destruct V as (q & Q & ->). split; [reflexivity|]. intros _. exists q. split; [exact Q|reflexivity].
  Qed.
  (** The names are kept; arrays are kept; a quantity is kept if its dimension is the name,
      else it is combined with its dimension. *)
  Theorem c125_values : forall l r, NoDup (dkeys l) -> Forall (fun p => fresh (snd p)) l -> format_params l = Ok r ->
    Forall2 (fun kv e => fst e = Some (fst kv) /\ expected (snd kv) (fst kv) (snd e)) l r.
  Proof.
    intros l r N G H. unfold SeriesParamModel.format_params in H. destruct (new_params quantity_of l) as [ps|] eqn:P; [|discriminate].
    cbn [bind] in H. destruct (existsb _ ps) eqn:X; [discriminate|]. injection H as <-.
    pose proof (new_params_all l ps P G) as W. clear P G.
    assert (Y : Forall (fun p : param => param_units p <> None) ps).
    { apply Forall_forall. intros p I C. assert (existsb (fun p : param => match param_units p with None => true | Some _ => false end) ps = true); [|congruence].
      apply existsb_exists. exists p. split; [exact I|]. now rewrite C. }
    clear X.
    assert (Z : forall acc, NoDup (map fst acc ++ map Some (dkeys l))%list ->
      exists r, fold_left (fun d p => set_symbol (p_symbol p) (format_param p) d) ps acc = (acc ++ r)%list /\
        Forall2 (fun kv e => fst e = Some (fst kv) /\ expected (snd kv) (fst kv) (snd e)) l r).
    { clear N. induction W as [|[k v] p l ps [S E] W IH]; intros acc N.
      - exists []. split; [cbn; now rewrite app_nil_r|constructor].
      - inversion_clear Y as [|? ? Y1 Y2]. cbn [fst snd] in *. cbn [fold_left]. rewrite S.
        cbn [dkeys map fst] in N.
        rewrite set_end by (apply NoDup_remove_2 in N; intros I; apply N, in_or_app; now left).
        destruct (IH Y2 (acc ++ [(Some k, format_param p)])%list) as (r & R1 & R2).
        { rewrite map_app, <- app_assoc. exact N. }
        exists ((Some k, format_param p) :: r). split; [rewrite R1, <- app_assoc; reflexivity|].
        constructor; [split; [reflexivity|now apply E]|exact R2]. }
    destruct (Z []) as (r & R1 & R2).
    { cbn [map app]. clear - N. revert N. generalize (dkeys l). intros ks N. induction N as [|x d N1 N2 IH]; cbn [map]; constructor; [|exact IH]. rewrite in_map_iff. intros (y & [= <-] & I). contradiction. }
    rewrite R1. exact R2.
  Qed.
  (** Arrays without unit are refused, numbers are not. False: every parameter needs a unit. *)
  Theorem c125_no_unit : forall l k a ps, In (k, InRaw (RArray a)) l -> d_unit a = None -> new_params quantity_of l = Ok ps ->
    format_params l = Err ValueError.
  Proof.
    intros l k a ps I U0 P. unfold SeriesParamModel.format_params. rewrite P. cbn [bind].
    replace (existsb _ ps) with true; [reflexivity|]. symmetry. apply existsb_exists.
    exists (Pa (VA a) None (Some k)). split; [|cbn; now rewrite U0].
    revert ps P. induction l as [|[k' v] l IH]; intros ps P; [contradiction|]. cbn [new_params] in P.
    destruct (new_param v None (Some k')) as [p|] eqn:Q; [|discriminate]. cbn [bind] in P.
    destruct (new_params quantity_of l) as [ps'|]; [|discriminate]. injection P as <-.
    destruct I as [[= -> ->]|I]; [left; cbn in Q; congruence|right; now apply IH].
  Qed.
  Theorem c125_number_refuted : forall o one k x, quantity_of o = Ok ([], [x], one) ->
    format_params [(k, InRaw (ROther o))] = Ok [(Some k, FTuple (Qt [] [x] one) None)].
  Proof. intros o one k x H. unfold SeriesParamModel.format_params. cbn. rewrite H. reflexivity. Qed.
  (** False: the names are kept for parameters that are such already; they can even be lost, and the
      last value with a name is used. *)
  Theorem c125_names_refuted : forall q q' k, exists l : dict input, dkeys l = [k; ("x" ++ k)%string] /\
    format_params l = Ok [(Some "b", FTuple q None)] /\ exists v, dget k l = Some v /\
    format_params [(k, v)] = Ok [(Some "b", FTuple q' None)].
  Proof.
    intros q q' k. exists [(k, InParam (Pa (VQ q') None (Some "b"))); (("x" ++ k)%string, InParam (Pa (VQ q) None (Some "b")))].
    split; [reflexivity|]. split; [reflexivity|]. eexists. cbn [dget]. rewrite String.eqb_refl. split; reflexivity.
  Qed.
End Param.
Print Assumptions c123_values.
Print Assumptions c123_errors.
Print Assumptions c123_given_refuted.
Print Assumptions c123_array.
Print Assumptions c123_scalar_refuted.
Print Assumptions c123_shape.
Print Assumptions c123_unit_refuted.
Print Assumptions c124_quantity.
Print Assumptions c124_tuple.
Print Assumptions c124_array_refuted.
Print Assumptions c124_array.
Print Assumptions c125_values.
Print Assumptions c125_no_unit.
Print Assumptions c125_number_refuted.
Print Assumptions c125_names_refuted.
Definition ex_q : quantity nat string := Qt [2] [3; 4] "mm".
Definition ex_of (o : bool) : res (list nat * list nat * string) := if o then Ok ([], [5], "") else Err TypeError.
Example ex_c123 : exists p, new_param (A := unit) ex_of (InTuple (RQuantity ex_q) (Some "s")) (Some "k") None = Ok p /\
  p = Pa (VQ ex_q) (Some "s") None /\ new_param (A := unit) ex_of (InRaw (ROther false)) None None = Err TypeError.
Proof. eexists. repeat split. Qed.
Example ex_c124 : series_coord (A := unit) ex_of "s" (InRaw (RQuantity ex_q)) = Ok ("s", [3; 4], Some "mm") /\
  series_coord (A := unit) ex_of "s" (InRaw (RArray (Da ["s"] [2] [3; 4] (Some "mm") []))) = Err TypeError.
Proof. split; reflexivity. Qed.
Example ex_c125 : exists r, format_params (A := unit) ex_of
  [("a", InTuple (RQuantity ex_q) (Some "a")); ("b", InTuple (RQuantity ex_q) (Some "s")); ("c", InRaw (ROther true))] = Ok r /\
  r = [(Some "a", FQuantity ex_q); (Some "b", FTuple ex_q (Some "s")); (Some "c", FTuple (Qt [] [5] "") None)].
Proof. eexists. repeat split. Qed.
