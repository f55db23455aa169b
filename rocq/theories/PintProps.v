(** Theorems about the converters of quantities and units (C151). *)
From Coq Require Import List String Ascii Bool ZArith NArith Lia.
From Verif Require Import Base PintModel.
Import ListNotations.
Open Scope string_scope.

Section Props.
  Variables F U : Type.
  Variable format : U -> string.
  Variable parse : string -> res U.

  (** arrays of numpy: as many numbers as the shape has places, all of them of the type of the array *)
  Definition fits (t : dtype) (n : num F) : Prop :=
    match t, n with
    | DBool, NBool _ _ => True
    | DInt b, NInt _ z => (- 2 ^ (Z.of_nat b - 1) <= z < 2 ^ (Z.of_nat b - 1))%Z /\ (1 <= b <= 64)%nat
    | DUInt b, NInt _ z => (0 <= z < 2 ^ Z.of_nat b)%Z /\ (1 <= b <= 64)%nat
    | DFloat b, NFloat _ _ => (b <= 64)%nat
    | DComplex b, NComplex _ _ _ => (b <= 128)%nat
    | _, _ => False
    end.
  Definition array_ok (a : array F) : Prop :=
    List.length (a_data F a) = fold_right Nat.mul 1%nat (a_shape F a)
    /\ Forall (fits (a_type F a)) (a_data F a).
  (** the types whose scalars keep their type: the largest ones *)
  Definition keeps (a : array F) : Prop :=
    a_shape F a = [] ->
    match a_type F a with
    | DBool | DInt 64 | DFloat 64 | DComplex 128 => True
    | DUInt 64 => exists z, a_data F a = [NInt F z] /\ (2 ^ 63 <= z)%Z
    | _ => False
    end.

  Lemma scalar : forall a, array_ok a -> a_shape F a = [] ->
    exists n, a_data F a = [n] /\ fits (a_type F a) n.
  Proof.
    intros [t s d] [L A] E. cbn in *. subst s. cbn in L.
    destruct d as [|n [|m d]]; try discriminate L. exists n. split; [reflexivity|].
    inversion A; assumption.
  Qed.

  (** saving and loading a quantity: it can be saved, the values, the shape and the unit are the same, and the
      type of the numbers is the same for arrays that are no scalars *)
  Theorem c151_round_trip : forall a u tag, array_ok a -> parse (format u) = Ok u ->
    String.prefix "tag:stsci.edu:asdf" tag = false ->
    exists t b, to_yaml_tree F U (Quantity F U (MArray F a) u) = Ok t
      /\ from_yaml_tree F U parse (save F U format t) tag = Ok (Quantity F U (MArray F b) u)
      /\ a_shape F b = a_shape F a /\ a_data F b = a_data F a
      /\ (a_shape F a <> [] -> b = a).
  Proof.
    intros a u tag A P T. unfold to_yaml_tree, from_yaml_tree. rewrite T. cbn [q_value q_unit].
    destruct (a_shape F a) as [|x s] eqn:S.
    - destruct (scalar a A S) as [n [D _]]. unfold item. rewrite D. cbn [bind].
      eexists. exists (Array F (default_type F n) [] [n]). split; [reflexivity|].
      unfold get, make, save, unit_to_tree. cbn. rewrite P. cbn. repeat split; congruence.
    - cbn [bind]. eexists. exists a. split; [reflexivity|].
      unfold get, make, save, unit_to_tree. cbn. rewrite P. cbn. repeat split; congruence.
  Qed.

  (** the whole quantity is the same iff it is no scalar or has one of the largest types *)
  Theorem c151_type : forall a u tag t, array_ok a -> parse (format u) = Ok u ->
    String.prefix "tag:stsci.edu:asdf" tag = false ->
    to_yaml_tree F U (Quantity F U (MArray F a) u) = Ok t ->
    (from_yaml_tree F U parse (save F U format t) tag = Ok (Quantity F U (MArray F a) u) <-> keeps a).
  Proof.
    intros a u tag t A P T H. unfold to_yaml_tree in H. cbn [q_value q_unit] in H.
    unfold from_yaml_tree. rewrite T.
    destruct (a_shape F a) as [|x s] eqn:S.
    - destruct (scalar a A S) as [n [D Fn]]. unfold item in H. rewrite D in H. cbn [bind] in H.
      injection H as <-. unfold get, make, save, unit_to_tree. cbn [map fst snd dget String.eqb Ascii.eqb Bool.eqb bind].
      rewrite P. cbn [bind]. unfold keeps. destruct a as [ty sh d]. cbn in *. subst sh d.
      destruct ty as [|b|b|b|b|]; destruct n as [v|z|v|v w]; cbn in Fn; try contradiction.
      + cbn. split; auto.
      + destruct Fn as [Fz [B1 B2]].
        assert (R : (- 2 ^ 63 <= z < 2 ^ 63)%Z).
        { assert (2 ^ (Z.of_nat b - 1) <= 2 ^ 63)%Z by (apply Z.pow_le_mono_r; lia). lia. }
        unfold default_type. destruct R as [R1 R2]. apply Z.leb_le in R1. apply Z.ltb_lt in R2.
        rewrite R1, R2. cbn [andb]. split.
        * intros E. injection E as <-. auto.
        * intros K. specialize (K eq_refl).
          destruct (Nat.eq_dec b 64) as [->|N]; [reflexivity|]. exfalso.
          do 65 (destruct b as [|b]; [solve [exact K | now apply N]|]). exact K.
      + destruct Fn as [Fz [B1 B2]].
        assert (R : (0 <= z < 2 ^ 64)%Z).
        { assert (2 ^ Z.of_nat b <= 2 ^ 64)%Z by (apply Z.pow_le_mono_r; lia). lia. }
        unfold default_type. split.
        * destruct (Z.ltb_spec z (2 ^ 63)) as [L|G].
          -- destruct (Z.leb_spec (- 2 ^ 63) z); [|lia]. cbn [andb]. discriminate.
          -- rewrite andb_false_r. destruct R as [R1 R2]. apply Z.leb_le in R1. apply Z.ltb_lt in R2.
             rewrite R1, R2. cbn [andb]. intros E. injection E as <-. intros _. now exists z.
        * intros K. specialize (K eq_refl).
          destruct (Nat.eq_dec b 64) as [->|N].
          -- destruct K as [z' [E G]]. injection E as <-.
             destruct (Z.ltb_spec z (2 ^ 63)); [lia|]. rewrite andb_false_r.
             destruct R as [R1 R2]. apply Z.leb_le in R1. apply Z.ltb_lt in R2.
             now rewrite R1, R2.
          -- exfalso. do 65 (destruct b as [|b]; [solve [exact K | now apply N]|]). exact K.
      + cbn. split.
        * intros E. injection E as <-. auto.
        * intros K. specialize (K eq_refl).
          destruct (Nat.eq_dec b 64) as [->|N]; [reflexivity|]. exfalso.
          do 65 (destruct b as [|b]; [solve [exact K | now apply N]|]). exact K.
      + cbn. split.
        * intros E. injection E as <-. auto.
        * intros K. specialize (K eq_refl).
          destruct (Nat.eq_dec b 128) as [->|N]; [reflexivity|]. exfalso.
          do 129 (destruct b as [|b]; [solve [exact K | now apply N]|]). exact K.
    - cbn [bind] in H. injection H as <-. unfold get, make, save, unit_to_tree.
      cbn [map fst snd dget String.eqb Ascii.eqb Bool.eqb bind]. rewrite P. cbn [bind].
      split; [|reflexivity]. intros _ E. congruence.
  Qed.

  (** false: every quantity of pint can be saved; plain numbers of other registries cannot *)
  Theorem c151_plain_refuted : forall n u,
    to_yaml_tree F U (Quantity F U (MPlain F n) u) = Err AttributeError.
  Proof. reflexivity. Qed.

  (** false: scalars keep the type of their numbers *)
  Theorem c151_type_refuted : forall x u tag, parse (format u) = Ok u ->
    String.prefix "tag:stsci.edu:asdf" tag = false ->
    array_ok (Array F (DFloat 32) [] [NFloat F x]) /\
    exists t, to_yaml_tree F U (Quantity F U (MArray F (Array F (DFloat 32) [] [NFloat F x])) u) = Ok t
      /\ from_yaml_tree F U parse (save F U format t) tag
         = Ok (Quantity F U (MArray F (Array F (DFloat 64) [] [NFloat F x])) u).
  Proof.
    intros x u tag P T. split.
    - split; [reflexivity|]. constructor; [cbn; lia|constructor].
    - eexists. split; [reflexivity|]. unfold from_yaml_tree. rewrite T.
      unfold get, make, save, unit_to_tree. cbn. now rewrite P.
  Qed.

  (** loading: the unit has another name in the trees of asdf itself; a value and this name are needed *)
  Theorem c151_load : forall node tag q, from_yaml_tree F U parse node tag = Ok q <->
    exists v u m w, dget "value" node = Some v
      /\ dget (if String.prefix "tag:stsci.edu:asdf" tag then "unit" else "units") node = Some u
      /\ ((exists n, v = TNum F U n /\ m = Array F (default_type F n) [] [n]) \/ v = TArray F U m)
      /\ (u = TUnit F U w \/ exists s, u = TText F U s /\ parse s = Ok w)
      /\ q = Quantity F U (MArray F m) w.
  Proof.
    intros node tag q. unfold from_yaml_tree, get. cbv zeta.
    destruct (dget "value" node) as [v|]; cbn [bind].
    2:{ split; [discriminate|]. intros (v & u & m & w & H & _). discriminate. }
    destruct (dget (if String.prefix "tag:stsci.edu:asdf" tag then "unit" else "units") node) as [u|]; cbn [bind].
    2:{ split; [discriminate|]. intros (v' & u & m & w & _ & H & _). discriminate. }
    unfold make. split.
    - destruct v as [n|a|x|x]; cbn [bind]; try discriminate;
        (destruct u as [k|k|w|s]; cbn [bind]; try discriminate;
         [|destruct (parse s) as [w|] eqn:P; cbn [bind]; try discriminate];
         intros H; injection H as <-; do 4 eexists; repeat split; eauto).
    - intros (v' & u' & m & w & E1 & E2 & Hv & Hu & ->). injection E1 as <-. injection E2 as <-.
      destruct Hv as [[n [-> ->]]| ->]; destruct Hu as [->|[s [-> P]]]; cbn [bind]; try rewrite P; reflexivity.
  Qed.

  Theorem c151_load_missing : forall node tag,
    dget "value" node = None
    \/ dget (if String.prefix "tag:stsci.edu:asdf" tag then "unit" else "units") node = None ->
    from_yaml_tree F U parse node tag = Err KeyError.
  Proof.
    intros node tag H. unfold from_yaml_tree, get. cbv zeta.
    destruct (dget "value" node); cbn [bind]; [|reflexivity].
    destruct H as [H|H]; [discriminate|]. now rewrite H.
  Qed.

  (** units: the long format is saved *)
  Theorem c151_unit : forall u, parse (format u) = Ok u ->
    unit_from_tree U parse (unit_to_tree U format u) = Ok u.
  Proof. intros u H. exact H. Qed.
End Props.
Print Assumptions c151_round_trip.
Print Assumptions c151_type.
Print Assumptions c151_plain_refuted.
Print Assumptions c151_type_refuted.
Print Assumptions c151_load.
Print Assumptions c151_load_missing.
Print Assumptions c151_unit.

(** a unit is its name; the numbers are integers *)
Example c151_ex :
  let a := Array Z (DInt 64) [] [NInt Z 5%Z] in
  array_ok Z a /\
  bind (to_yaml_tree Z string (Quantity Z string (MArray Z a) "mm"))
       (fun t => from_yaml_tree Z string (fun s => Ok s) (save Z string (fun s => s) t) "asdf://weldx.bam.de/weldx/tags/units/quantity-0.1.0")
  = Ok (Quantity Z string (MArray Z a) "mm").
Proof.
  split; [|reflexivity]. split; [reflexivity|]. constructor; [|constructor].
  cbn -[Z.pow]. split; [split|]; [discriminate|reflexivity|lia].
Qed.

(** the order of texts: the first difference counts *)
Lemma le_refl : forall s, str_le s s = true.
Proof. induction s; cbn; [reflexivity|]. now rewrite N.compare_refl. Qed.
Lemma le_total : forall s t, str_le s t = false -> str_le t s = true.
Proof.
  induction s as [|c s IH]; intros [|d t] H; cbn in *; try discriminate; try reflexivity.
  rewrite (N.compare_antisym (N_of_ascii c)).
  destruct (N.compare (N_of_ascii c) (N_of_ascii d)); cbn; try discriminate; auto.
Qed.
Lemma le_trans : forall s t u, str_le s t = true -> str_le t u = true -> str_le s u = true.
Proof.
  induction s as [|c s IH]; intros [|d t] [|e u] H K; cbn in *; try discriminate; try reflexivity.
  destruct (N.compare_spec (N_of_ascii c) (N_of_ascii d)) as [E1|E1|E1]; try discriminate;
  destruct (N.compare_spec (N_of_ascii d) (N_of_ascii e)) as [E2|E2|E2]; try discriminate.
  - rewrite E1, E2, N.compare_refl. eapply IH; eassumption.
  - rewrite E1. now apply N.compare_lt_iff in E2 as ->.
  - rewrite <- E2. now apply N.compare_lt_iff in E1 as ->.
  - assert (E3 : (N_of_ascii c < N_of_ascii e)%N) by lia. now apply N.compare_lt_iff in E3 as ->.
Qed.
Lemma insert_in : forall x l y, In y (insert x l) <-> y = x \/ In y l.
Proof.
  intros x l y. induction l as [|z l IH]; cbn; [intuition congruence|].
  destruct (str_le x z); cbn; [intuition congruence|]. rewrite IH. intuition congruence.
Qed.
Lemma sorted_in : forall l y, In y (sorted l) <-> In y l.
Proof.
  induction l as [|x l IH]; intros y; cbn; [reflexivity|]. rewrite insert_in.
  rewrite <- IH. unfold sorted. intuition congruence.
Qed.
(** the last element is the largest one *)
Definition last_max (l : list string) : Prop :=
  forall u t v w, l = (u ++ t :: v)%list -> In w v -> str_le t w = true.
Lemma insert_max : forall x l, last_max l -> last_max (insert x l).
Proof.
  intros x l. induction l as [|z l IH]; intros M u t v w E Iw; cbn in E.
  - destruct u as [|? u]; injection E as -> E; [subst v; destruct Iw|destruct u; discriminate].
  - assert (Ml : last_max l).
    { intros u' t' v' w' E' I'. apply (M (z :: u') t' v' w'); [now rewrite E'|exact I']. }
    destruct (str_le x z) eqn:L.
    + destruct u as [|y u]; injection E as -> E.
      * subst v. destruct Iw as [<-|Iw]; [exact L|]. apply (le_trans _ z); [exact L|].
        apply (M [] z l w); [reflexivity|exact Iw].
      * apply (M u t v w); [exact E|exact Iw].
    + destruct u as [|y u]; injection E as -> E.
      * subst v. apply insert_in in Iw. destruct Iw as [->|Iw]; [now apply le_total|].
        apply (M [] t l w); [reflexivity|exact Iw].
      * apply (IH Ml u t v w); [exact E|exact Iw].
Qed.
Lemma sorted_max : forall l, last_max (sorted l).
Proof.
  induction l as [|x l IH]; cbn; [|now apply insert_max].
  intros u t v w E. destruct u; discriminate.
Qed.

(** the selected tag is a tag of weldx of the list, and no other tag of weldx comes after it as a text; without
    tags of weldx there is an IndexError *)
Theorem c151_tag : forall tags t, select_tag tags = Ok t ->
  In t tags /\ String.prefix "asdf://weldx.bam.de/weldx/tags/" t = true
  /\ forall x, In x tags -> String.prefix "asdf://weldx.bam.de/weldx/tags/" x = true -> str_le x t = true.
Proof.
  intros tags t H. unfold select_tag in H.
  destruct (rev (sorted (filter (String.prefix tag_base) tags))) as [|y r] eqn:E; [discriminate|].
  injection H as ->. pose proof (f_equal (@rev string) E) as E'. rewrite rev_involutive in E'. cbn [rev] in E'.
  assert (I : In t (filter (String.prefix tag_base) tags)).
  { apply sorted_in. rewrite E'. apply in_or_app. right. now left. }
  apply filter_In in I. destruct I as [I1 I2]. repeat split; [exact I1|exact I2|].
  intros x Ix Px. assert (J : In x (sorted (filter (String.prefix tag_base) tags))).
  { apply sorted_in, filter_In. now split. }
  rewrite E' in J. apply in_app_or in J. destruct J as [J|[<-|[]]]; [|apply le_refl].
  apply in_split in J. destruct J as [u [v J]].
  apply (sorted_max (filter (String.prefix tag_base) tags) u x (v ++ [t])%list t).
  - rewrite E', J, <- app_assoc. reflexivity.
  - apply in_or_app. right. now left.
Qed.
Print Assumptions c151_tag.

Theorem c151_tag_error : forall tags e, select_tag tags = Err e <->
  e = IndexError /\ forall x, In x tags -> String.prefix "asdf://weldx.bam.de/weldx/tags/" x = false.
Proof.
  intros tags e. unfold select_tag.
  destruct (rev (sorted (filter (String.prefix tag_base) tags))) as [|y r] eqn:E.
  - split.
    + intros H. injection H as <-. split; [reflexivity|]. intros x Ix.
      destruct (String.prefix "asdf://weldx.bam.de/weldx/tags/" x) eqn:P; [|reflexivity].
      assert (J : In x (rev (sorted (filter (String.prefix tag_base) tags)))).
      { rewrite <- in_rev. apply sorted_in, filter_In. now split. }
      rewrite E in J. destruct J.
    + now intros [-> _].
  - split; [discriminate|]. intros [_ H]. exfalso.
    assert (J : In y (filter (String.prefix tag_base) tags)).
    { apply sorted_in, in_rev. rewrite E. now left. }
    apply filter_In in J. destruct J as [J1 J2]. specialize (H y J1). unfold tag_base in J2. congruence.
Qed.
Print Assumptions c151_tag_error.

(** false: the newest version is selected *)
Theorem c151_newest_refuted :
  select_tag ["asdf://weldx.bam.de/weldx/tags/units/quantity-0.1.9";
              "asdf://weldx.bam.de/weldx/tags/units/quantity-0.1.10"; "tag:stsci.edu:asdf/unit/quantity-1.2.0"]
  = Ok "asdf://weldx.bam.de/weldx/tags/units/quantity-0.1.9".
Proof. reflexivity. Qed.
Print Assumptions c151_newest_refuted.
