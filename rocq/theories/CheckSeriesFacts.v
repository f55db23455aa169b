(** Lemmas on the constraints of derived series. *)
From Coq Require Import List String Bool Arith Lia Permutation.
From Verif Require Import Base StdFacts UnitValFacts CheckModel CheckSpec CheckFacts.
Import ListNotations.
Open Scope string_scope.
Open Scope list_scope.

Lemma dget_dkeys : forall {A} (d : dict A) k, In k (dkeys d) <-> exists x, dget k d = Some x.
Proof.
  intros A d k. unfold dkeys. rewrite <- dmem_in. unfold dmem. destruct (dget k d) as [x|]; split; try discriminate; eauto.
  intros [x H]. discriminate.
Qed.

Section Check.
  Context {U V : Type} (np_dtype : string -> option dtype) (parse : string -> res U) (ueqb compat : U -> U -> bool)
          (veqb : V -> V -> bool).
  Context (veqb_spec : forall a b, veqb a b = true <-> a = b).

  Lemma check_req_cases : forall a b, (check_req a b = Ok tt /\ incl a b) \/ (check_req a b = Err ValueError /\ ~ incl a b).
  Proof.
    intros a b. unfold check_req. pose proof (subset_iff a b) as S. destruct (subset a b).
    - left. split; [reflexivity|]. apply S. reflexivity.
    - right. split; [reflexivity|]. intro H. apply S in H. discriminate.
  Qed.
  Lemma check_dimensionality_cases : forall (u r : option U),
    (check_dimensionality parse compat u (option_map AUnit r) = Ok tt /\ unit_fits compat u r) \/
    (check_dimensionality parse compat u (option_map AUnit r) = Err DimensionalityError /\ ~ unit_fits compat u r).
  Proof.
    intros u [r|]; simpl; [|left; auto]. cbv beta iota delta [bind]. destruct u as [u|].
    - destruct (compat u r) eqn:C; [left; split; [reflexivity|exists u; auto]|right; split; [reflexivity|]].
      intros [v [H K]]. injection H as <-. congruence.
    - right. split; [reflexivity|]. intros [v [H K]]. discriminate.
  Qed.

  Lemma ref_ok : forall (k : @cls U V) coords x,
    coord_ok np_dtype parse ueqb compat coords x (ref_of k x) <->
    (exists y, dget x coords = Some y) /\
    (forall r, dget x (k_dim_units k) = Some r -> has_units parse compat coords x r) /\
    (forall vs, dget x (k_dim_coords k) = Some vs -> has_values coords x vs).
  Proof.
    intros k coords x. unfold coord_ok, ref_of, has_units, has_values, good_values, good_types, good_units, good_dim. simpl.
    destruct (dget x coords) as [y|].
    - split.
      + intros [A [_ [_ B]]]. split; [exists y; reflexivity|]. split.
        * intros r R. rewrite R in B. destruct (B (AUnit r) eq_refl) as [a [u [v [P [Q [Z W]]]]]]. simpl in Z. subst v.
          exists y, a, u. auto.
        * intros vs W. exists y. auto.
      + intros [_ [A B]]. split; [|split; [|split]].
        * intros vs W. destruct (B vs W) as [z [Q M]]. injection Q as <-. exact M.
        * intros t T. discriminate.
        * intros t T. discriminate.
        * intros r R. destruct (dget x (k_dim_units k)) as [s|]; [|discriminate]. injection R as <-.
          destruct (A s eq_refl) as [z [a [u [P [Q [Z W]]]]]]. injection P as <-. exists a, u, s. simpl. auto.
    - split; [discriminate|]. intros [[y Y] _]. discriminate.
  Qed.

  Section Order.
    Context (order : list string -> list string) (order_perm : forall l, Permutation (order l) l).
    Lemma ref_keys_in : forall (k : @cls U V) dims x, In x (ref_keys order k dims) <->
      (In x dims /\ exists r, dget x (k_dim_units k) = Some r) \/ (exists vs, dget x (k_dim_coords k) = Some vs).
    Proof.
      intros k dims x. unfold ref_keys.
      rewrite (Permutation_in' eq_refl (order_perm _)), nodup_In, in_app_iff, filter_In, smem_iff, !dget_dkeys. tauto.
    Qed.
    Lemma discrete_ok : forall (k : @cls U V) a, k_base k = false ->
      (constraints_discrete np_dtype parse ueqb compat veqb order k a = Ok tt <->
       incl (k_required_dims k) (da_dims a) /\ unit_fits compat (da_units a) (k_unit k) /\
       (forall d r, dget d (k_dim_units k) = Some r -> In d (da_dims a) -> has_units parse compat (da_coords a) d r) /\
       (forall d vs, dget d (k_dim_coords k) = Some vs -> has_values (da_coords a) d vs /\
          forall r, dget d (k_dim_units k) = Some r -> has_units parse compat (da_coords a) d r)).
    Proof.
      intros k a B. unfold constraints_discrete. rewrite B.
      destruct (check_req_cases (k_required_dims k) (da_dims a)) as [[-> I]|[-> I]]; cbv beta iota delta [bind].
      2:{ split; [discriminate|tauto]. }
      destruct (check_dimensionality_cases (da_units a) (k_unit k)) as [[-> F]|[-> F]].
      2:{ split; [discriminate|tauto]. }
      rewrite (check_coords_ok np_dtype parse ueqb compat veqb veqb_spec). split.
      - intro H. assert (forall x, In x (ref_keys order k (da_dims a)) ->
          (forall r, dget x (k_dim_units k) = Some r -> has_units parse compat (da_coords a) x r) /\
          (forall vs, dget x (k_dim_coords k) = Some vs -> has_values (da_coords a) x vs)) as G.
        { intros x X. apply (ref_ok k). apply H. apply in_map_iff. exists x. auto. }
        split; [exact I|]. split; [exact F|]. split.
        + intros d r R D. apply (G d); [|exact R]. apply ref_keys_in. left. eauto.
        + intros d vs W. split; [|intros r R]; apply (G d); try assumption; apply ref_keys_in; right; eauto.
      - intros [_ [_ [P Q]]] x c X. apply in_map_iff in X. destruct X as [y [E X]]. injection E as -> <-.
        apply ref_ok. apply ref_keys_in in X. destruct X as [[D [r R]]|[vs W]].
        + pose proof (P x r R D) as HU. split; [destruct HU as [y [? [? [? _]]]]; eauto|]. split.
          * intros r' R'. exact (P x r' R' D).
          * intros vs W. exact (proj1 (Q x vs W)).
        + destruct (Q x vs W) as [HV HU]. split; [destruct HV as [y [? _]]; eauto|]. split; [exact HU|].
          intros vs' W'. exact (proj1 (Q x vs' W')).
    Qed.
  End Order.

  (** ** Expressions *)
  Context (dimensionless : U).
  Lemma dmem_dset : forall {A} k k' (x : A) d, dmem k (dset k' x d) = String.eqb k k' || dmem k d.
  Proof. intros A k k' x d. unfold dmem. rewrite dget_dset. destruct (String.eqb k k'); reflexivity. Qed.
  Lemma add_required_get : forall (e : @expr U V) req units k, dget k (add_required e req units) =
    match dget k units with
    | Some u => Some u
    | None => if dmem k (e_params e) then None else dget k req
    end.
  Proof.
    intros e req. induction req as [|[x v] req IH]; intros units k; simpl.
    - destruct (dget k units); [reflexivity|]. destruct (dmem k (e_params e)); reflexivity.
    - rewrite IH. destruct (dmem x units) eqn:M; simpl.
      + destruct (dget k units) eqn:D; [reflexivity|]. destruct (String.eqb_spec k x) as [->|N]; [|reflexivity].
        unfold dmem in M. rewrite D in M. discriminate.
      + destruct (dmem x (e_params e)) eqn:P; simpl.
        * destruct (dget k units); [reflexivity|]. destruct (String.eqb_spec k x) as [->|N]; [|reflexivity]. rewrite P. reflexivity.
        * rewrite dget_dset. destruct (String.eqb_spec k x) as [->|N]; [|reflexivity].
          unfold dmem in M. destruct (dget x units); [discriminate|]. rewrite P. reflexivity.
  Qed.
  Lemma add_missing_get : forall vars units k, dget k (add_missing dimensionless vars units) =
    match dget k units with
    | Some u => Some u
    | None => if smem k vars then Some dimensionless else None
    end.
  Proof.
    induction vars as [|v vars IH]; intros units k; simpl.
    - destruct (dget k units); reflexivity.
    - rewrite IH. unfold dmem. destruct (dget v units) as [u|] eqn:D.
      + destruct (dget k units) eqn:K; [reflexivity|]. destruct (String.eqb_spec k v) as [->|N]; [congruence|reflexivity].
      + rewrite dget_dset. destruct (String.eqb_spec k v) as [->|N]; simpl; [rewrite D; reflexivity|].
        destruct (dget k units); reflexivity.
  Qed.
  Lemma variables_in : forall (e : @expr U V) v, In v (variables e) <-> In v (e_free e) /\ ~ In v (dkeys (e_params e)).
  Proof.
    intros e v. unfold variables. rewrite filter_In, negb_true_iff. unfold dkeys. rewrite <- dmem_in.
    destruct (dmem v (e_params e)); split; intros [A B]; (split; [exact A|]); congruence.
  Qed.
  Lemma forall_keys : forall {A} (d : dict A) l,
    forallb (fun x => smem (fst x) l) d = true <-> forall k, In k (dkeys d) -> In k l.
  Proof.
    intros A d l. rewrite forallb_forall. unfold dkeys. split.
    - intros H k K. apply in_map_iff in K. destruct K as [x [<- I]]. apply smem_iff. exact (H x I).
    - intros H x I. apply smem_iff. apply H. apply in_map. exact I.
  Qed.

  (** the arrays of a test evaluation *)
  Lemma array_params_nth : forall (dims : dict string) (units : dict U) n l, array_params dims units n = Ok l ->
    List.length l = List.length units /\
    forall i k, nth_error (dkeys units) i = Some k -> exists d, dget k dims = Some d /\ nth_error l i = Some (d, n + i).
  Proof.
    intros dims units. induction units as [|[k u] units IH]; intros n l H; simpl in H.
    - injection H as <-. split; [reflexivity|]. intros [|i] k K; discriminate.
    - destruct (dget k dims) as [d|] eqn:D; [|discriminate].
      destruct (array_params dims units (S n)) as [l'|e] eqn:A; [|discriminate]. cbv beta iota delta [bind] in H. injection H as <-.
      destruct (IH (S n) l' A) as [L N]. split; [simpl; congruence|]. intros [|i] x X; simpl in X.
      + injection X as <-. exists d. rewrite Nat.add_0_r. auto.
      + destruct (N i x X) as [d' [P Q]]. exists d'. split; [exact P|]. simpl. rewrite Q. do 2 f_equal. lia.
  Qed.
  Lemma array_params_err : forall (dims : dict string) (units : dict U) n,
    (forall k, In k (dkeys units) -> In k (dkeys dims)) -> exists l, array_params dims units n = Ok l.
  Proof.
    intros dims units. induction units as [|[k u] units IH]; intros n H; simpl; [eauto|].
    destruct (proj1 (dget_dkeys dims k) (H k (or_introl eq_refl))) as [d ->].
    destruct (IH (S n)) as [l ->]; [intros x X; apply H; right; exact X|]. exists ((d, n) :: l). reflexivity.
  Qed.
  Lemma nth_two : forall {A} (l : list A) i j x y, nth_error l i = Some x -> nth_error l j = Some y -> i < j ->
    exists a b c, l = a ++ x :: b ++ y :: c.
  Proof.
    intros A l i j x y HI HJ L. destruct (nth_error_split l i HI) as [a [r [-> La]]].
    rewrite nth_error_app2 in HJ; [|lia]. destruct (j - List.length a) as [|m] eqn:J; [lia|]. simpl in HJ.
    destruct (nth_error_split r m HJ) as [b [c [-> _]]]. exists a, b, c. reflexivity.
  Qed.
  Lemma same_dim_clash : forall (e : @expr U V) dims (units : dict U) n l v w d, array_params dims units n = Ok l -> v <> w ->
    In v (dkeys units) -> In w (dkeys units) -> dget v dims = Some d -> dget w dims = Some d -> clash e l.
  Proof.
    intros e dims units n l v w d A N Iv Iw Dv Dw. destruct (array_params_nth _ _ _ _ A) as [_ K].
    destruct (In_nth_error _ _ Iv) as [i Hi]. destruct (In_nth_error _ _ Iw) as [j Hj].
    destruct (K i v Hi) as [d1 [P1 Q1]]. destruct (K j w Hj) as [d2 [P2 Q2]].
    rewrite Dv in P1. rewrite Dw in P2. injection P1 as <-. injection P2 as <-. left.
    destruct (lt_eq_lt_dec i j) as [[L|E]|L].
    - destruct (nth_two _ _ _ _ _ Q1 Q2 L) as [a [b [c ->]]]. exists a, d, (n + i), b, (n + j), c. split; [reflexivity|lia].
    - subst j. congruence.
    - destruct (nth_two _ _ _ _ _ Q2 Q1 L) as [a [b [c ->]]]. exists a, d, (n + j), b, (n + i), c. split; [reflexivity|lia].
  Qed.
  Lemma param_dim_clash : forall (e : @expr U V) dims (units : dict U) l0 l1 v d s p m,
    array_params dims units 2 = Ok l0 -> array_params dims units 3 = Ok l1 ->
    In v (dkeys units) -> dget v dims = Some d -> In (s, p) (e_params e) -> In (d, m) (pa_shape p) ->
    clash e l0 \/ clash e l1.
  Proof.
    intros e dims units l0 l1 v d s p m A0 A1 Iv Dv P M.
    destruct (In_nth_error _ _ Iv) as [i Hi].
    destruct (proj2 (array_params_nth _ _ _ _ A0) i v Hi) as [d0 [P0 Q0]]. rewrite Dv in P0. injection P0 as <-.
    destruct (proj2 (array_params_nth _ _ _ _ A1) i v Hi) as [d1 [P1 Q1]]. rewrite Dv in P1. injection P1 as <-.
    destruct (Nat.eq_dec (2 + i) m) as [<-|N].
    - right. right. exists d, (3 + i), (2 + i), s, p. split; [exact (nth_error_In _ _ Q1)|]. split; [exact P|]. split; [exact M|lia].
    - left. right. exists d, (2 + i), m, s, p. split; [exact (nth_error_In _ _ Q0)|]. auto.
  Qed.

  Lemma updated_dims_get : forall (e : @expr U V) dims v, dget v (updated_dims e dims) =
    if smem v (variables e) then Some (match dget v dims with Some d => d | None => v end) else None.
  Proof.
    intros e dims v. unfold updated_dims. induction (variables e) as [|x l IH]; simpl; [reflexivity|].
    destruct (String.eqb_spec v x) as [->|N]; [reflexivity|]. exact IH.
  Qed.

  (** the units of the dimensions *)
  Lemma check_dim_units_ok : forall (e : @expr U V) vu req, NoDup (dkeys req) ->
    (check_dim_units compat e vu req = Ok tt <->
     forall k v, dget k req = Some v -> exists u, (dget k vu = Some u \/ (dget k vu = None /\ option_map pa_unit (dget k (e_params e)) = Some u)) /\
       compat u v = true).
  Proof.
    intros e vu req. induction req as [|[x v] req IH]; intro N; simpl; [split; [intros _ k v H; discriminate|reflexivity]|].
    inversion N as [|? ? NI N']. subst.
    assert (forall k w, dget k req = Some w -> String.eqb k x = false) as F.
    { intros k w H. destruct (String.eqb_spec k x) as [->|]; [|reflexivity]. destruct NI. apply dget_dkeys. eauto. }
    destruct (dget x vu) as [u|] eqn:D; [|destruct (option_map pa_unit (dget x (e_params e))) as [u|] eqn:P].
    - destruct (compat u v) eqn:C.
      + rewrite (IH N'). split.
        * intros H k w K. destruct (String.eqb_spec k x) as [->|Nk]; [|exact (H k w K)]. injection K as <-. exists u. auto.
        * intros H k w K. apply H. rewrite (F k w K). exact K.
      + split; [discriminate|]. intro H. destruct (H x v) as [u' [[A|[A _]] B]]; [rewrite String.eqb_refl; reflexivity|congruence|congruence].
    - destruct (compat u v) eqn:C.
      + rewrite (IH N'). split.
        * intros H k w K. destruct (String.eqb_spec k x) as [->|Nk]; [|exact (H k w K)]. injection K as <-. exists u. auto.
        * intros H k w K. apply H. rewrite (F k w K). exact K.
      + split; [discriminate|]. intro H. destruct (H x v) as [u' [[A|[A A']] B]]; [rewrite String.eqb_refl; reflexivity|congruence|congruence].
    - split; [discriminate|]. intro H. destruct (H x v) as [u' [[A|[A A']] B]]; [rewrite String.eqb_refl; reflexivity|congruence|congruence].
  Qed.
  Lemma check_params_ok : forall k vs (ps : dict (@param U V)),
    check_params np_dtype parse ueqb compat veqb k vs ps = Ok tt <->
    forall s p x, In (s, p) ps -> pa_quantity p = false -> dget k (pa_coords p) = Some x -> values_match (cv_values x) vs.
  Proof.
    intros k vs ps. induction ps as [|[s p] ps IH]; cbn [check_params]; [split; [intros _ s p x []|reflexivity]|].
    destruct (pa_quantity p) eqn:Q; cbn [negb andb].
    - cbv beta iota delta [bind]. rewrite IH. split.
      + intros H s' p' x [E|I]; [injection E as <- <-; congruence|exact (H s' p' x I)].
      + intros H s' p' x I. apply (H s' p' x). right. exact I.
    - unfold dmem. destruct (dget k (pa_coords p)) as [x|] eqn:D.
      + pose proof (check_coords_ok np_dtype parse ueqb compat veqb veqb_spec [(k, Ck None (Some vs) None None None)] (pa_coords p)) as C.
        assert ((forall k0 c, In (k0, c) [(k, @Ck U V None (Some vs) None None None)] -> coord_ok np_dtype parse ueqb compat (pa_coords p) k0 c)
                <-> values_match (cv_values x) vs) as G.
        { unfold coord_ok, good_values, good_types, good_units, good_dim. split.
          - intro H. specialize (H k _ (or_introl eq_refl)). rewrite D in H. simpl in H. apply (proj1 H). reflexivity.
          - intros M k0 c [E|[]]. injection E as <- <-. rewrite D. simpl. split; [intros w W; injection W as <-; exact M|].
            split; [|split]; intros w W; discriminate. }
        rewrite G in C.
        destruct (check_coords np_dtype parse ueqb compat veqb (pa_coords p) [(k, Ck None (Some vs) None None None)]) as [[]|e];
          cbv beta iota delta [bind].
        * rewrite IH. split.
          -- intros H s' p' y [E|I] A B; [injection E as <- <-; rewrite D in B; injection B as <-; apply C; reflexivity|exact (H s' p' y I A B)].
          -- intros H s' p' y I. apply (H s' p' y). right. exact I.
        * split; [discriminate|]. intro H. apply C. apply (H s p x); [left; reflexivity|exact Q|exact D].
      + cbv beta iota delta [bind]. rewrite IH. split.
        * intros H s' p' x [E|I]; [injection E as <- <-; congruence|exact (H s' p' x I)].
        * intros H s' p' x I. apply (H s' p' x). right. exact I.
  Qed.
  Lemma check_dim_coords_ok : forall (e : @expr U V) vd req, NoDup (dkeys req) ->
    (check_dim_coords np_dtype parse ueqb compat veqb e vd req = Ok tt <->
     forall k vs, dget k req = Some vs -> ~ In k (dkeys vd) /\
       forall s p x, In (s, p) (e_params e) -> pa_quantity p = false -> dget k (pa_coords p) = Some x -> values_match (cv_values x) vs).
  Proof.
    intros e vd req. induction req as [|[x v] req IH]; intro N; cbn [check_dim_coords]; [split; [intros _ k vs H; discriminate|reflexivity]|].
    inversion N as [|? ? NI N']. subst.
    assert (forall k w, dget k req = Some w -> String.eqb k x = false) as F.
    { intros k w H. destruct (String.eqb_spec k x) as [->|]; [|reflexivity]. destruct NI. apply dget_dkeys. eauto. }
    pose proof (dmem_in vd x) as M. fold (dkeys vd) in M. destruct (dmem x vd).
    - split; [discriminate|]. intro H. destruct (H x v) as [A _]; [simpl; rewrite String.eqb_refl; reflexivity|].
      destruct A. apply M. reflexivity.
    - pose proof (check_params_ok x v (e_params e)) as C.
      destruct (check_params np_dtype parse ueqb compat veqb x v (e_params e)) as [[]|er]; cbv beta iota delta [bind].
      + rewrite (IH N'). split.
        * intros H k w K. simpl in K. destruct (String.eqb_spec k x) as [->|Nk]; [|exact (H k w K)]. injection K as <-.
          split; [intro I; apply M in I; discriminate|apply C; reflexivity].
        * intros H k w K. apply H. simpl. rewrite (F k w K). exact K.
      + split; [discriminate|]. intro H. destruct (H x v) as [_ A]; [simpl; rewrite String.eqb_refl; reflexivity|].
        apply C in A. discriminate.
  Qed.

  Lemma allowed_cases : forall (k : @cls U V) (e : @expr U V),
    (match k_allowed_vars k with [] => Ok tt | al => if subset (variables e) al then Ok tt else Err ValueError end) = Ok tt /\
      (k_allowed_vars k = [] \/ incl (variables e) (k_allowed_vars k)) \/
    (match k_allowed_vars k with [] => Ok tt | al => if subset (variables e) al then Ok tt else Err ValueError end) = Err ValueError /\
      ~ (k_allowed_vars k = [] \/ incl (variables e) (k_allowed_vars k)).
  Proof.
    intros k e. destruct (k_allowed_vars k) as [|a l]; [left; auto|].
    pose proof (subset_iff (variables e) (a :: l)) as S. destruct (subset (variables e) (a :: l)).
    - left. split; [reflexivity|]. right. apply S. reflexivity.
    - right. split; [reflexivity|]. intros [H|H]; [discriminate|]. apply S in H. discriminate.
  Qed.
  Lemma expression_ok : forall (k : @cls U V) e vd vu eu, k_base k = false ->
    NoDup (dkeys (k_dim_units k)) -> NoDup (dkeys (k_dim_coords k)) ->
    (constraints_expression np_dtype parse ueqb compat veqb k e vd vu eu = Ok tt <->
     (k_allowed_vars k = [] \/ incl (variables e) (k_allowed_vars k)) /\
     incl (k_required_vars k) (variables e) /\ incl (k_required_dims k) (expression_dims e vd) /\
     unit_fits compat (Some eu) (k_unit k) /\
     (forall d v, dget d (k_dim_units k) = Some v -> exists u,
        (dget d vu = Some u \/ (dget d vu = None /\ option_map pa_unit (dget d (e_params e)) = Some u)) /\ compat u v = true) /\
     (forall d vs, dget d (k_dim_coords k) = Some vs -> ~ In d (dkeys vd) /\
        forall s p x, In (s, p) (e_params e) -> pa_quantity p = false -> dget d (pa_coords p) = Some x -> values_match (cv_values x) vs)).
  Proof.
    intros k e vd vu eu B N1 N2. unfold constraints_expression. rewrite B.
    rewrite <- (check_dim_units_ok e vu _ N1), <- (check_dim_coords_ok e vd _ N2).
    destruct (allowed_cases k e) as [[-> A]|[-> A]]; cbv beta iota delta [bind]; [|split; [discriminate|tauto]].
    destruct (check_req_cases (k_required_vars k) (variables e)) as [[-> C]|[-> C]]; [|split; [discriminate|tauto]].
    destruct (check_req_cases (k_required_dims k) (expression_dims e vd)) as [[-> D]|[-> D]]; [|split; [discriminate|tauto]].
    destruct (k_unit k) as [r|]; simpl.
    - destruct (compat eu r) eqn:Q.
      + assert (exists v, Some eu = Some v /\ compat v r = true) as X by (exists eu; auto).
        destruct (check_dim_units compat e vu (k_dim_units k)) as [[]|x]; [tauto|]. split; [discriminate|].
        intros [_ [_ [_ [_ [H _]]]]]. discriminate.
      + split; [discriminate|]. intros [_ [_ [_ [[v [H K]] _]]]]. injection H as <-. congruence.
    - destruct (check_dim_units compat e vu (k_dim_units k)) as [[]|x]; [tauto|]. split; [discriminate|].
      intros [_ [_ [_ [_ [H _]]]]]. discriminate.
  Qed.
End Check.
