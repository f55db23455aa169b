(** Lemmas on the checks of coordinates. *)
From Coq Require Import List String Bool Arith Lia Permutation.
From Verif Require Import Base TagFacts UnitValFacts CheckModel CheckSpec.
Import ListNotations.
Open Scope string_scope.
Open Scope list_scope.

Lemma dtype_eqb_iff : forall a b, dtype_eqb a b = true <-> a = b.
Proof.
  intros [x|x|d r] [y|y|d' r']; simpl; try (split; congruence).
  - rewrite String.eqb_eq. split; congruence.
  - rewrite Nat.eqb_eq. split; congruence.
  - rewrite andb_true_iff, String.eqb_eq, Bool.eqb_true_iff. split; [intros [-> ->]; reflexivity|intro H; injection H; auto].
Qed.
Lemma same_scalar_iff : forall a b, same_scalar a b = true <-> same_type a b.
Proof.
  intros [x|x|d r] [y|y|d' r']; simpl; try (split; [discriminate|intro H; inversion H]).
  - rewrite String.eqb_eq. split; [intros ->; constructor|intro H; inversion H; reflexivity].
  - split; [constructor|reflexivity].
  - rewrite Bool.eqb_true_iff. split; [intros ->; constructor|intro H; inversion H; reflexivity].
Qed.
Lemma has_part_iff : forall p s, has_part p s = true <-> part_of p s.
Proof.
  intros p s. unfold has_part. destruct (index 0 p s) as [n|] eqn:X.
  - split; [intros _|reflexivity]. revert n X. induction s as [|c s IH]; intros n X.
    + simpl in X. destruct p; [exists "", ""; reflexivity|discriminate].
    + pose proof (prefix_ex p (String c s)) as P. simpl in X, P.
      match type of X with (if ?b then _ else _) = _ => destruct b eqn:Y end.
      * destruct (proj1 P eq_refl) as [b B]. exists "", b. exact B.
      * destruct (index 0 p s) as [m|]; [|discriminate]. destruct (IH m eq_refl) as [a [b ->]].
        exists (String c a), b. reflexivity.
  - split; [discriminate|]. intros [a [b ->]]. exfalso. exact (proj1 (index_none _ _) X a b eq_refl).
Qed.
Lemma named_time_iff : forall r, named_time r = true <-> time_name r.
Proof.
  intros [s|d]; simpl; unfold time_name.
  - rewrite orb_true_iff, !has_part_iff. split; [intro H; exists s; auto|]. intros [t [A H]]. injection A as <-. exact H.
  - split; [discriminate|]. intros [s [A _]]. discriminate.
Qed.

Lemma smem_iff : forall k l, smem k l = true <-> In k l.
Proof.
  intros k l. unfold smem. rewrite existsb_exists. split.
  - intros [x [I E]]. apply String.eqb_eq in E. congruence.
  - intro I. exists k. split; [exact I|apply String.eqb_refl].
Qed.
Lemma subset_iff : forall a b, subset a b = true <-> incl a b.
Proof.
  intros a b. unfold subset. rewrite forallb_forall. unfold incl. split; intros H x I; apply smem_iff; apply H; exact I.
Qed.

Section Check.
  Context {U V : Type} (np_dtype : string -> option dtype) (parse : string -> res U) (ueqb compat : U -> U -> bool)
          (veqb : V -> V -> bool).
  Context (veqb_spec : forall a b, veqb a b = true <-> a = b).

  Lemma ref_dtype_ok : forall r d, ref_dtype np_dtype r = Ok d <-> denotes np_dtype r d.
  Proof. intros [s|x] d; simpl; [destruct (np_dtype s)|]; split; congruence. Qed.
  Lemma ref_dtype_err : forall r e, ref_dtype np_dtype r = Err e -> e = TypeError /\ forall d, ~ denotes np_dtype r d.
  Proof. intros [s|x] e; simpl; [destruct (np_dtype s) eqn:N|]; intro H; try discriminate. split; [congruence|intros d D; congruence]. Qed.

  Lemma check_dtype_true : forall v r, check_dtype np_dtype v r = Ok true <-> type_match np_dtype v r.
  Proof.
    intros v r. unfold check_dtype, type_match. destruct (ref_dtype np_dtype r) as [d|e] eqn:R; cbv beta iota delta [bind].
    - apply ref_dtype_ok in R.
      assert ((dtype_eqb v d = true \/ (named_time r && same_scalar v d = true) \/ (same_scalar v d && dtype_eqb d (DStr 0) = true)) <->
              exists d, denotes np_dtype r d /\ (v = d \/ (time_name r /\ same_type v d) \/ (d = DStr 0 /\ same_type v d))) as K.
      { rewrite !andb_true_iff, !dtype_eqb_iff, named_time_iff, same_scalar_iff. split.
        - intros [A|[A|A]]; exists d; tauto.
        - intros [d' [D H]]. assert (d' = d) as ->; [|tauto].
          destruct r; simpl in *; congruence. }
      rewrite <- K.
      destruct (dtype_eqb v d); [tauto|]. destruct (named_time r && same_scalar v d); [tauto|].
      destruct (same_scalar v d && dtype_eqb d (DStr 0)); simpl; [tauto|]. split; [discriminate|]. intros [A|[A|A]]; discriminate.
    - destruct (ref_dtype_err _ _ R) as [-> N]. split; [discriminate|]. intros [d [D _]]. destruct (N d D).
  Qed.
  Lemma check_dtype_err : forall v r e, check_dtype np_dtype v r = Err e -> e = TypeError /\ forall d, ~ denotes np_dtype r d.
  Proof.
    intros v r e. unfold check_dtype. destruct (ref_dtype np_dtype r) as [d|x] eqn:R; cbv beta iota delta [bind].
    - destruct (dtype_eqb v d); [discriminate|]. destruct (named_time r && same_scalar v d); [discriminate|].
      destruct (negb _); discriminate.
    - intro H. injection H as <-. exact (ref_dtype_err _ _ R).
  Qed.
  Lemma check_dtype_known : forall v r b, check_dtype np_dtype v r = Ok b -> exists d, denotes np_dtype r d.
  Proof.
    intros v r b. unfold check_dtype. destruct (ref_dtype np_dtype r) as [d|x] eqn:R; cbv beta iota delta [bind]; [|discriminate].
    intros _. exists d. apply ref_dtype_ok. exact R.
  Qed.

  Lemma any_dtype_true : forall v l, any_dtype np_dtype v l = Ok true <->
    exists a r b, l = a ++ r :: b /\ type_match np_dtype v r /\ (forall x, In x a -> exists d, denotes np_dtype x d).
  Proof.
    intros v l. induction l as [|r l IH]; simpl.
    - split; [discriminate|]. intros [[|x a] [r [b [H _]]]]; discriminate.
    - destruct (check_dtype np_dtype v r) as [[|]|e] eqn:C; cbv beta iota delta [bind].
      + split; [intros _|reflexivity]. exists [], r, l. split; [reflexivity|]. split; [apply check_dtype_true; exact C|intros x []].
      + rewrite IH. split.
        * intros [a [x [b [-> [T K]]]]]. exists (r :: a), x, b. split; [reflexivity|]. split; [exact T|].
          intros y [<-|I]; [exact (check_dtype_known _ _ _ C)|exact (K y I)].
        * intros [[|y a] [x [b [H [T K]]]]]; simpl in H; injection H as -> H.
          -- apply check_dtype_true in T. congruence.
          -- subst l. exists a, x, b. split; [reflexivity|]. split; [exact T|]. intros z I. apply K. right. exact I.
      + destruct (check_dtype_err _ _ _ C) as [_ N]. split; [discriminate|].
        intros [[|y a] [x [b [H [T K]]]]]; simpl in H; injection H as -> H.
        * destruct T as [d [D _]]. destruct (N d D).
        * destruct (K y (or_introl eq_refl)) as [d D]. destruct (N d D).
  Qed.
  Lemma any_dtype_err : forall v l e, any_dtype np_dtype v l = Err e -> e = TypeError.
  Proof.
    intros v l e. induction l as [|r l IH]; simpl; [discriminate|].
    destruct (check_dtype np_dtype v r) as [[|]|x] eqn:C; cbv beta iota delta [bind]; [discriminate|exact IH|].
    intro H. injection H as <-. exact (proj1 (check_dtype_err _ _ _ C)).
  Qed.

  Lemma all_eq_iff : forall a b, all_eq veqb a b = true <-> a = b.
  Proof.
    induction a as [|x a IH]; intros [|y b]; simpl; try (split; congruence).
    rewrite andb_true_iff, veqb_spec, IH. split; [intros [-> ->]; reflexivity|intro H; injection H; auto].
  Qed.
  Lemma np_all_eq_iff : forall a b, np_all_eq veqb a b = true <-> values_match a b.
  Proof.
    assert (forall (x : V) b, forallb (fun y => veqb x y) b = true <-> forall y, In y b -> y = x) as F1.
    { intros x b. rewrite forallb_forall. split; intros H y I; [symmetry; apply veqb_spec; exact (H y I)|apply veqb_spec; symmetry; exact (H y I)]. }
    assert (forall (y : V) a, forallb (fun x => veqb x y) a = true <-> forall x, In x a -> x = y) as F2.
    { intros x b. rewrite forallb_forall. split; intros H y I; apply veqb_spec; exact (H y I). }
    assert (forall (a b : list V), (forall x, a <> [x]) -> (forall y, b <> [y]) -> (all_eq veqb a b = true <-> values_match a b)) as G.
    { intros a b A B. rewrite all_eq_iff. unfold values_match. split; [auto|].
      intros [H|[[x [H _]]|[y [H _]]]]; [exact H|destruct (A x H)|destruct (B y H)]. }
    unfold values_match in *.
    intros [|x [|x' a]] [|y [|y' b]]; unfold np_all_eq;
      try (apply G; intros z H; discriminate).
    - rewrite F2. split; [intro H; right; right; exists y; auto|]. intros _ x [].
    - rewrite F1. split; [intro H; right; left; exists x; auto|]. intros _ z [].
    - rewrite veqb_spec. split; [intros ->; auto|].
      intros [H|[[z [H K]]|[z [H K]]]]; [congruence| |].
      + injection H as ->. symmetry. apply K. left. reflexivity.
      + injection H as ->. apply K. left. reflexivity.
    - rewrite F1. split; [intro H; right; left; exists x; auto|].
      intros [H|[[z [H K]]|[z [H K]]]]; [discriminate| |discriminate]. injection H as ->. exact K.
    - rewrite F2. split; [intro H; right; right; exists y; auto|].
      intros [H|[[z [H K]]|[z [H K]]]]; [discriminate|discriminate|]. injection H as ->. exact K.
  Qed.

  Lemma to_unit_ok : forall x u, to_unit parse x = Ok u <-> unit_is parse x u.
  Proof. intros [s|v] u; simpl; split; congruence. Qed.
  Lemma to_unit_err : forall x e, to_unit parse x = Err e <-> unit_fails parse x e.
  Proof.
    intros [s|v] e; simpl; unfold unit_fails; split; try discriminate.
    - intro H. exists s. auto.
    - intros [t [A H]]. injection A as <-. exact H.
    - intros [t [A H]]. discriminate.
  Qed.
  Lemma falsy_iff : forall x : option (unitattr U), falsy x = true <-> x = None \/ x = Some (AStr "").
  Proof.
    intros [[s|u]|]; simpl; try rewrite String.eqb_eq; split; intro H; auto.
    - right. congruence.
    - destruct H as [H|H]; congruence.
    - discriminate.
    - destruct H; discriminate.
  Qed.

  Lemma check_values_cases : forall x (c : @check U V),
    (check_values veqb x c = Ok tt /\ good_values x c) \/ (check_values veqb x c = Err ValueError /\ ~ good_values x c).
  Proof.
    intros x c. unfold check_values, good_values. destruct (ck_values c) as [vs|].
    - pose proof (np_all_eq_iff (cv_values x) vs) as N. destruct (np_all_eq veqb (cv_values x) vs).
      + left. split; [reflexivity|]. intros w H. injection H as <-. apply N. reflexivity.
      + right. split; [reflexivity|]. intro H. specialize (H vs eq_refl). apply N in H. discriminate.
    - left. split; [reflexivity|]. intros w H. discriminate.
  Qed.
  Lemma check_types_cases : forall x (c : @check U V),
    (check_types np_dtype x c = Ok tt /\ good_types np_dtype x c) \/
    (check_types np_dtype x c = Err TypeError /\ ~ good_types np_dtype x c).
  Proof.
    intros x c. unfold check_types, good_types. destruct (ck_dtype c) as [t|].
    - assert ((match t with DOne r => [r] | DMany l => l end) = refs t) as E by reflexivity.
      cbv zeta. rewrite E. pose proof (any_dtype_true (cv_dtype x) (refs t)) as N. fold (types_match np_dtype (cv_dtype x) t) in N.
      destruct (any_dtype np_dtype (cv_dtype x) (refs t)) as [[|]|e] eqn:A; cbv beta iota delta [bind].
      + left. split; [reflexivity|]. intros w H. injection H as <-. apply N. reflexivity.
      + right. split; [reflexivity|]. intro H. specialize (H t eq_refl). apply N in H. discriminate.
      + rewrite (any_dtype_err _ _ _ A). right. split; [reflexivity|]. intro H. specialize (H t eq_refl). apply N in H. discriminate.
    - left. split; [reflexivity|]. intros w H. discriminate.
  Qed.
  Lemma check_units_ok : forall x (c : @check U V), check_units parse ueqb x c = Ok tt <-> good_units parse ueqb x c.
  Proof.
    intros x c. unfold check_units, good_units. destruct (ck_units c) as [r|].
    2:{ split; [intros _ w H; discriminate|reflexivity]. }
    pose proof (falsy_iff (cv_units x)) as F. destruct (falsy (cv_units x)).
    - split; [discriminate|]. intro H. destruct (H r eq_refl) as [a [u [v [A [N _]]]]].
      destruct (proj1 F eq_refl); congruence.
    - destruct (cv_units x) as [a|] eqn:A; [|destruct F as [_ F]; discriminate F; auto].
      assert (a <> AStr "") as NE by (intros ->; destruct F as [_ F]; discriminate F; auto).
      destruct (to_unit parse a) as [u|e] eqn:T; cbv beta iota delta [bind].
      + apply to_unit_ok in T. destruct (to_unit parse r) as [v|e] eqn:T'; cbv beta iota delta [bind].
        * apply to_unit_ok in T'. destruct (ueqb u v) eqn:Q.
          -- split; [intros _|reflexivity]. intros w H. injection H as <-. exists a, u, v. auto.
          -- split; [discriminate|]. intro H. destruct (H r eq_refl) as [a' [u' [v' [A' [_ [B [C D]]]]]]]. injection A' as <-.
             apply to_unit_ok in B, C, T, T'. congruence.
        * split; [discriminate|]. intro H. destruct (H r eq_refl) as [a' [u' [v' [A' [_ [B [C D]]]]]]].
          apply to_unit_ok in C. congruence.
      + split; [discriminate|]. intro H. destruct (H r eq_refl) as [a' [u' [v' [A' [_ [B [C D]]]]]]]. injection A' as <-.
        apply to_unit_ok in B. congruence.
  Qed.
  Lemma check_units_err : forall x (c : @check U V) e, check_units parse ueqb x c = Err e <-> bad_units parse ueqb x c e.
  Proof.
    intros x c e. unfold check_units, bad_units. destruct (ck_units c) as [r|].
    2:{ split; [discriminate|intros [w [H _]]; discriminate]. }
    pose proof (falsy_iff (cv_units x)) as F. destruct (falsy (cv_units x)).
    - split.
      + intro H. injection H as <-. exists r. split; [reflexivity|]. left. split; [apply F; reflexivity|reflexivity].
      + intros [w [W [[_ ->]|[a [A [N _]]]]]]; [reflexivity|]. destruct (proj1 F eq_refl); congruence.
    - destruct (cv_units x) as [a|] eqn:A; [|destruct F as [_ F]; discriminate F; auto].
      assert (a <> AStr "") as NE by (intros ->; destruct F as [_ F]; discriminate F; auto).
      destruct (to_unit parse a) as [u|e'] eqn:T; cbv beta iota delta [bind].
      + destruct (to_unit parse r) as [v|e'] eqn:T'; cbv beta iota delta [bind].
        * destruct (ueqb u v) eqn:Q.
          -- split; [discriminate|]. intros [w [W [[[H|H] _]|[a' [A' [_ [B|[u' [B [C|[v' [C [D _]]]]]]]]]]]]]; try congruence;
               injection W as <-; injection A' as <-.
             ++ apply to_unit_err in B. congruence.
             ++ apply to_unit_err in C. congruence.
             ++ apply to_unit_ok in B, C. congruence.
          -- split.
             ++ intro H. injection H as <-. exists r. split; [reflexivity|]. right. exists a. split; [reflexivity|]. split; [exact NE|].
                right. exists u. split; [apply to_unit_ok; exact T|]. right. exists v. split; [apply to_unit_ok; exact T'|auto].
             ++ intros [w [W [[[H|H] _]|[a' [A' [_ [B|[u' [B [C|[v' [C [D ->]]]]]]]]]]]]]; try congruence;
               injection W as <-; injection A' as <-.
               ** apply to_unit_err in B. congruence.
               ** apply to_unit_err in C. congruence.
        * split.
          -- intro H. injection H as <-. exists r. split; [reflexivity|]. right. exists a. split; [reflexivity|]. split; [exact NE|].
             right. exists u. split; [apply to_unit_ok; exact T|]. left. apply to_unit_err. exact T'.
          -- intros [w [W [[[H|H] _]|[a' [A' [_ [B|[u' [B [C|[v' [C [D ->]]]]]]]]]]]]]; try congruence;
               injection W as <-; injection A' as <-.
             ++ apply to_unit_err in B. congruence.
             ++ apply to_unit_err in C. congruence.
             ++ apply to_unit_ok in C. congruence.
      + split.
        * intro H. injection H as <-. exists r. split; [reflexivity|]. right. exists a. split; [reflexivity|]. split; [exact NE|].
          left. apply to_unit_err. exact T.
        * intros [w [W [[[H|H] _]|[a' [A' [_ [B|[u' [B C]]]]]]]]]; try congruence; injection A' as <-.
          -- apply to_unit_err in B. congruence.
          -- apply to_unit_ok in B. congruence.
  Qed.
  Lemma check_dim_ok : forall x (c : @check U V), check_dim parse compat x c = Ok tt <-> good_dim parse compat x c.
  Proof.
    intros x c. unfold check_dim, good_dim. destruct (ck_dim c) as [r|].
    2:{ split; [intros _ w H; discriminate|reflexivity]. }
    destruct (cv_units x) as [a|] eqn:A.
    2:{ split; [discriminate|]. intro H. destruct (H r eq_refl) as [a [u [v [A' _]]]]. discriminate. }
    destruct (to_unit parse a) as [u|e] eqn:T; cbv beta iota delta [bind].
    - destruct (to_unit parse r) as [v|e] eqn:T'; cbv beta iota delta [bind].
      + destruct (compat u v) eqn:Q.
        * split; [intros _|reflexivity]. intros w H. injection H as <-. apply to_unit_ok in T, T'. exists a, u, v. auto.
        * split; [discriminate|]. intro H. destruct (H r eq_refl) as [a' [u' [v' [A' [B [C D]]]]]]. injection A' as <-.
          apply to_unit_ok in B, C. congruence.
      + split; [discriminate|]. intro H. destruct (H r eq_refl) as [a' [u' [v' [A' [B [C D]]]]]].
        apply to_unit_ok in C. congruence.
    - split; [discriminate|]. intro H. destruct (H r eq_refl) as [a' [u' [v' [A' [B [C D]]]]]]. injection A' as <-.
      apply to_unit_ok in B. congruence.
  Qed.
  Lemma check_dim_err : forall x (c : @check U V) e, check_dim parse compat x c = Err e <-> bad_dim parse compat x c e.
  Proof.
    intros x c e. unfold check_dim, bad_dim. destruct (ck_dim c) as [r|].
    2:{ split; [discriminate|intros [w [H _]]; discriminate]. }
    destruct (cv_units x) as [a|] eqn:A.
    2:{ split; [intro H; injection H as <-; exists r; auto|]. intros [w [W [[_ ->]|[a [A' _]]]]]; [reflexivity|discriminate]. }
    destruct (to_unit parse a) as [u|e'] eqn:T; cbv beta iota delta [bind].
    - destruct (to_unit parse r) as [v|e'] eqn:T'; cbv beta iota delta [bind].
      + destruct (compat u v) eqn:Q.
        * split; [discriminate|]. intros [w [W [[H _]|[a' [A' [B|[u' [B [C|[v' [C [D _]]]]]]]]]]]]; try congruence;
            injection W as <-; injection A' as <-.
          -- apply to_unit_err in B. congruence.
          -- apply to_unit_err in C. congruence.
          -- apply to_unit_ok in B, C. congruence.
        * split.
          -- intro H. injection H as <-. exists r. split; [reflexivity|]. right. exists a. split; [reflexivity|].
             right. exists u. split; [apply to_unit_ok; exact T|]. right. exists v. split; [apply to_unit_ok; exact T'|auto].
          -- intros [w [W [[H _]|[a' [A' [B|[u' [B [C|[v' [C [D ->]]]]]]]]]]]]; try congruence;
               injection W as <-; injection A' as <-.
             ++ apply to_unit_err in B. congruence.
             ++ apply to_unit_err in C. congruence.
      + split.
        * intro H. injection H as <-. exists r. split; [reflexivity|]. right. exists a. split; [reflexivity|].
          right. exists u. split; [apply to_unit_ok; exact T|]. left. apply to_unit_err. exact T'.
        * intros [w [W [[H _]|[a' [A' [B|[u' [B [C|[v' [C [D ->]]]]]]]]]]]]; try congruence;
            injection W as <-; injection A' as <-.
          -- apply to_unit_err in B. congruence.
          -- apply to_unit_err in C. congruence.
          -- apply to_unit_ok in C. congruence.
    - split.
      + intro H. injection H as <-. exists r. split; [reflexivity|]. right. exists a. split; [reflexivity|].
        left. apply to_unit_err. exact T.
      + intros [w [W [[H _]|[a' [A' [B|[u' [B C]]]]]]]]; try congruence; injection A' as <-.
        * apply to_unit_err in B. congruence.
        * apply to_unit_ok in B. congruence.
  Qed.

  Notation ckc := (check_coord np_dtype parse ueqb compat veqb).
  Notation ckcs := (check_coords np_dtype parse ueqb compat veqb).
  Notation cok := (coord_ok np_dtype parse ueqb compat).
  Notation cfails := (coord_fails np_dtype parse ueqb compat).
  Lemma check_coord_ok : forall coords k c, ckc coords k c = Ok tt <-> cok coords k c.
  Proof.
    intros coords k c. unfold check_coord, coord_ok. destruct (dget k coords) as [x|].
    - rewrite <- check_units_ok, <- check_dim_ok.
      destruct (check_values_cases x c) as [[-> A]|[-> A]]; cbv beta iota delta [bind]; [|split; [discriminate|tauto]].
      destruct (check_types_cases x c) as [[-> B]|[-> B]]; cbv beta iota delta [bind]; [|split; [discriminate|tauto]].
      destruct (check_units parse ueqb x c) as [[]|e]; [tauto|]. split; [discriminate|]. intros [_ [_ [H _]]]. discriminate.
    - destruct (ck_optional c) as [[|]|]; split; congruence.
  Qed.
  Lemma check_coord_err : forall coords k c e, ckc coords k c = Err e <-> cfails coords k c e.
  Proof.
    intros coords k c e. unfold check_coord, coord_fails. destruct (dget k coords) as [x|].
    - rewrite <- check_units_ok, <- check_dim_err, <- check_units_err.
      destruct (check_values_cases x c) as [[-> A]|[-> A]]; cbv beta iota delta [bind].
      2:{ split; [intro H; left; split; [exact A|congruence]|]. intros [[_ ->]|[[H _]|[[H _]|[H _]]]]; [reflexivity|destruct (A H)..]. }
      destruct (check_types_cases x c) as [[-> B]|[-> B]]; cbv beta iota delta [bind].
      2:{ split; [intro H; right; left; split; [exact A|split; [exact B|congruence]]|].
          intros [[H _]|[[_ [_ ->]]|[[_ [H _]]|[_ [H _]]]]]; [destruct (H A)|reflexivity|destruct (B H)..]. }
      destruct (check_units parse ueqb x c) as [[]|e'].
      + split; [intro H; right; right; right; auto|]. intros [[H _]|[[_ [H _]]|[[_ [_ H]]|[_ [_ [_ H]]]]]];
          [destruct (H A)|destruct (H B)|discriminate|exact H].
      + split; [intro H; right; right; left; auto|]. intros [[H _]|[[_ [H _]]|[[_ [_ H]]|[_ [_ [H _]]]]]];
          [destruct (H A)|destruct (H B)|exact H|discriminate].
    - destruct (ck_optional c) as [[|]|]; split; try discriminate; try (intros [H _]; congruence); try (intros [_ ->]; reflexivity);
        intro H; split; congruence.
  Qed.

  Lemma check_coords_ok : forall ref coords, ckcs coords ref = Ok tt <-> forall k c, In (k, c) ref -> cok coords k c.
  Proof.
    induction ref as [|[k c] ref IH]; intro coords; simpl; [split; [intros _ k c []|reflexivity]|].
    pose proof (check_coord_ok coords k c) as K. destruct (ckc coords k c) as [[]|e]; cbv beta iota delta [bind].
    - rewrite IH. split; [|intros H k' c' I; apply H; right; exact I].
      intros H k' c' [E|I]; [injection E as <- <-; apply K; reflexivity|exact (H k' c' I)].
    - split; [discriminate|]. intro H. apply K. apply H. left. reflexivity.
  Qed.
  Lemma check_coords_err : forall ref coords e, ckcs coords ref = Err e <->
    exists a k c b, ref = a ++ (k, c) :: b /\ (forall k' c', In (k', c') a -> cok coords k' c') /\ cfails coords k c e.
  Proof.
    induction ref as [|[k c] ref IH]; intros coords e; simpl.
    - split; [discriminate|]. intros [[|x a] [k [c [b [H _]]]]]; discriminate.
    - pose proof (check_coord_ok coords k c) as K. pose proof (check_coord_err coords k c) as F.
      destruct (ckc coords k c) as [[]|e']; cbv beta iota delta [bind].
      + rewrite IH. split.
        * intros [a [k' [c' [b [-> [A B]]]]]]. exists ((k, c) :: a), k', c', b. split; [reflexivity|]. split; [|exact B].
          intros x y [E|I]; [injection E as <- <-; apply K; reflexivity|exact (A x y I)].
        * intros [[|x a] [k' [c' [b [H [A B]]]]]]; simpl in H.
          -- injection H as -> -> ->. apply F in B. discriminate.
          -- injection H as <- ->. exists a, k', c', b. split; [reflexivity|]. split; [|exact B]. intros y z I. apply A. right. exact I.
      + split.
        * intro H. injection H as ->. exists [], k, c, ref. split; [reflexivity|]. split; [intros x y []|]. apply F. reflexivity.
        * intros [[|x a] [k' [c' [b [H [A B]]]]]]; simpl in H.
          -- injection H as -> -> ->. apply F in B. congruence.
          -- injection H as <- ->. assert (cok coords k c) as C by (apply A; left; reflexivity). apply K in C. discriminate.
  Qed.
End Check.
