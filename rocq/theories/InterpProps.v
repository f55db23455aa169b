(** C11, C12, C33: interpolation along the time axis. *)
From Coq Require Import List ZArith Reals Lia Lra Sorting.Sorted.
From Verif Require Import Base InterpModel InterpSpec InterpFacts LinModel LinFacts.
Import ListNotations.
Open Scope Z_scope.

(** ** C11 *)
(** [xr_interp_like] succeeds and assigns to every requested time the value of
    the samples at that time *)
Theorem c11_interp_like : forall (A : Type) (seg : segment A) s req, exact_seg seg -> sampled s ->
  exists r, interp_like seg Linear true s req = Ok r /\ map fst r = req /\
    forall t o, In (t, o) r -> exists v, o = Some v /\ value_at seg s t v.
Proof.
  intros A seg s req X S. destruct s as [|[t0 a] q]; [ destruct S | ].
  rewrite (interp_like_linear seg _ a) by assumption. eexists. split; [ reflexivity | ]. split.
  - rewrite map_map. apply map_id.
  - intros t o H. apply in_map_iff in H. destruct H as (u & E & _).
    apply pair_equal_spec in E. destruct E as [-> <-].
    eexists. split; [ reflexivity | ]. apply (fval_value_at seg ((t0, a) :: q) a); assumption.
Qed.
Print Assumptions c11_interp_like.

(** the value at a time is unique; it is the sample at the sample times *)
Theorem c11_value_unique : forall (A : Type) (seg : segment A) s t v w, exact_seg seg -> sampled s ->
  value_at seg s t v -> value_at seg s t w -> v = w.
Proof. intros A seg s t v w. apply value_at_fun. Qed.
Print Assumptions c11_value_unique.

Theorem c11_samples : forall (A : Type) (seg : segment A) s t v, exact_seg seg -> sampled s ->
  In (t, v) s -> value_at seg s t v.
Proof.
  intros A seg s t v X S H. rewrite (value_at_iff seg s v) by assumption. apply fval_sample; assumption.
Qed.
Print Assumptions c11_samples.

(** linear interpolation of real numbers: hits the samples and stays between
    the smallest and the largest one *)
Theorem c11_linear : exact_seg lin /\
  forall s lo hi t v, sampled s -> (forall u x, In (u, x) s -> (lo <= x <= hi)%R) ->
    value_at lin s t v -> (lo <= v <= hi)%R.
Proof.
  split; [ exact lin_exact | ]. intros s lo hi t v S B H.
  rewrite <- (value_at_fval lin s v t v lin_exact S H).
  apply (fval_closed lin (fun x => (lo <= x <= hi)%R)); [ | assumption | assumption ].
  intros. apply lin_between; assumption.
Qed.
Print Assumptions c11_linear.

(** without filling, values outside of the data are missing and values inside are
    the same *)
Theorem c11_no_fill : forall (A : Type) (seg : segment A) s req, exact_seg seg -> sampled s ->
  (2 <= List.length s)%nat ->
  exists r, interp_like seg Linear false s req = Ok r /\ map fst r = req /\
    forall t o, In (t, o) r ->
      (o = None /\ forall u x, In (u, x) s -> t < u) \/
      (o = None /\ forall u x, In (u, x) s -> u < t) \/
      (exists v, o = Some v /\ value_at seg s t v).
Proof.
  intros A seg s req X S L. destruct s as [|[t0 a] q]; [ destruct S | ].
  rewrite (interp_like_nofill seg _ a) by assumption. eexists. split; [ reflexivity | ]. split.
  - rewrite map_map. apply map_id.
  - intros t o H. apply in_map_iff in H. destruct H as (u & E & _).
    apply pair_equal_spec in E. destruct E as [-> <-].
    destruct (Z.leb_spec (first_time ((t0, a) :: q) 0) t), (Z.leb_spec t (last_time ((t0, a) :: q) 0)); cbn [andb].
    + right; right. eexists. split; [ reflexivity | ]. apply (fval_value_at seg ((t0, a) :: q) a); assumption.
    + right; left. split; [ reflexivity | ]. intros u x Hu. apply (last_time_ge _ _ _ 0 S) in Hu. lia.
    + left. split; [ reflexivity | ]. intros u x Hu. apply (first_time_le _ _ _ 0 S) in Hu. lia.
    + left. split; [ reflexivity | ]. intros u x Hu. apply (first_time_le _ _ _ 0 S) in Hu. lia.
Qed.
Print Assumptions c11_no_fill.

(** orientations: the detour over [Slerp] and [xr_interp_like] gives the spherical
    interpolation between the samples and the edge values outside; a result of
    length 1 loses the time dimension *)
Theorem c11_orientation : forall (A : Type) (seg lin : segment A) s req,
  exact_seg seg -> exact_seg lin -> sampled s -> (2 <= List.length s)%nat ->
  exists r, interp_orientation seg lin (Ser s) req = Ok (squeeze_time r) /\ map fst r = req /\
    forall t v, In (t, v) r -> value_at seg s t v.
Proof.
  intros A seg lin s req X Y S L. destruct s as [|[t0 a] [|p q]]; [ destruct S | cbn in L; lia | ].
  rewrite (interp_orientation_ok seg lin _ a) by assumption. eexists. split; [ reflexivity | ]. split.
  - rewrite map_map. apply map_id.
  - intros t v H. apply in_map_iff in H. destruct H as (u & E & _).
    apply pair_equal_spec in E. destruct E as [-> <-].
    apply (fval_value_at seg ((t0, a) :: p :: q) a); assumption.
Qed.
Print Assumptions c11_orientation.

Theorem c11_coordinates : forall (A : Type) (seg : segment A) s req, exact_seg seg -> sampled s ->
  exists r, interp_coordinates seg (Ser s) req = Ok (squeeze_time r) /\ map fst r = req /\
    forall t v, In (t, v) r -> value_at seg s t v.
Proof.
  intros A seg s req X S. destruct s as [|[t0 a] q]; [ destruct S | ].
  rewrite (interp_coordinates_ok seg _ a) by assumption. eexists. split; [ reflexivity | ]. split.
  - rewrite map_map. apply map_id.
  - intros t v H. apply in_map_iff in H. destruct H as (u & E & _).
    apply pair_equal_spec in E. destruct E as [-> <-].
    apply (fval_value_at seg ((t0, a) :: q) a); assumption.
Qed.
Print Assumptions c11_coordinates.

(** integer valued interpolation (rounded down) for executable examples *)
Example c11_ex : interp_like (fun t0 t1 a b t => a + (b - a) * (t - t0) / (t1 - t0)) Linear true
  [(0, 0); (10, 100); (20, 300)] [-5; 3; 10; 15; 99]
  = Ok [(-5, Some 0); (3, Some 30); (10, Some 100); (15, Some 200); (99, Some 300)].
Proof. reflexivity. Qed.

Example c11_ex_single : interp_like (fun _ _ a _ _ => a) Linear true [(7, 1)] [1; 7; 9]
  = Ok [(1, Some 1); (7, Some 1); (9, Some 1)].
Proof. reflexivity. Qed.

Example c11_ex_no_fill : interp_like (fun t0 t1 a b t => a + (b - a) * (t - t0) / (t1 - t0)) Linear false
  [(0, 0); (10, 100)] [-5; 3; 99] = Ok [(-5, None); (3, Some 30); (99, None)].
Proof. reflexivity. Qed.

Example c11_ex_sampled : sampled [(0, 0%R); (10, 1%R)] /\ value_at lin [(0, 0%R); (10, 1%R)] 5 (1 / 2)%R.
Proof.
  split; [ cbn; lia | ]. apply (va_between _ _ _ _ 0 10 0%R 1%R); [ exists [], []; reflexivity | lia | ].
  unfold lin. cbn. lra.
Qed.

(** ** C12 *)
(** interpolating to a grid that contains the samples changes no value: all later
    interpolations give the same result *)
Theorem c12_refinement : forall (A : Type) (seg : segment A) s grid,
  exact_seg seg -> const_seg seg -> refining_seg seg -> sampled s ->
  StronglySorted Z.lt grid -> (forall u a, In (u, a) s -> In u grid) ->
  exists r, bind (interp_like seg Linear true s grid) all_some = Ok r /\ sampled r /\
    (forall t v, value_at seg r t v <-> value_at seg s t v) /\
    (forall req, interp_like seg Linear true r req = interp_like seg Linear true s req).
Proof.
  intros A seg s grid X C R S G H. destruct s as [|[t0 a] q]; [ destruct S | ]. set (s := (t0, a) :: q) in *.
  rewrite (interp_like_linear seg s a) by assumption. cbn [bind]. rewrite all_some_map.
  eexists. split; [ reflexivity | ].
  assert (sampled (map (fun t => (t, fval seg s a t)) grid)) as Sr.
  { apply sampled_map; [ | assumption ]. intros E. specialize (H t0 a (or_introl eq_refl)). rewrite E in H. destruct H. }
  assert (forall t, fval seg (map (fun t => (t, fval seg s a t)) grid) a t = fval seg s a t) as E.
  { intros t. apply value_at_fval; [ assumption | assumption | ]. apply refine; assumption. }
  split; [ assumption | ]. split.
  - intros t v. rewrite !(value_at_iff seg _ a) by assumption. rewrite E. reflexivity.
  - intros req. rewrite !(interp_like_linear seg _ a) by assumption. f_equal. apply map_ext. intros t.
    rewrite E. reflexivity.
Qed.
Print Assumptions c12_refinement.

(** linear interpolation satisfies the conditions *)
Theorem c12_linear : exact_seg lin /\ const_seg lin /\ refining_seg lin /\
  exact_seg lin_vec /\ const_seg lin_vec /\ refining_seg lin_vec.
Proof.
  exact (conj lin_exact (conj lin_const (conj lin_refining
        (conj lin_vec_exact (conj lin_vec_const lin_vec_refining))))).
Qed.
Print Assumptions c12_linear.

(** a grid that misses a sample loses it *)
Theorem c12_coarse_refuted : exists s grid req r,
  sampled s /\ StronglySorted Z.lt grid /\
  bind (interp_like lin Linear true s grid) all_some = Ok r /\
  interp_like lin Linear true r req <> interp_like lin Linear true s req.
Proof.
  exists [(0, 0%R); (1, 1%R); (2, 0%R)], [0; 2], [1], [(0, 0%R); (2, 0%R)].
  assert (S1 : sampled [(0, 0%R); (1, 1%R); (2, 0%R)]) by (cbn; lia).
  assert (S2 : sampled [(0, 0%R); (2, 0%R)]) by (cbn; lia).
  split; [ assumption | ]. split; [ repeat constructor | ].
  split.
  - rewrite (interp_like_linear lin _ 0%R _ lin_exact S1). cbn [bind map]. cbn [all_some bind].
    rewrite (fval_sample lin _ 0%R 0 0%R), (fval_sample lin _ 0%R 2 0%R); try reflexivity;
      try exact lin_exact; try assumption; cbn; auto.
  - rewrite (interp_like_linear lin _ 0%R _ lin_exact S1), (interp_like_linear lin _ 0%R _ lin_exact S2).
    cbn [map]. rewrite (fval_sample lin [(0, 0%R); (1, 1%R); (2, 0%R)] 0%R 1 1%R); try assumption; try exact lin_exact; [ | cbn; auto ].
    assert (fval lin [(0, 0%R); (2, 0%R)] 0%R 1 = 0%R) as ->.
    { apply value_at_fval; [ exact lin_exact | assumption | ].
      apply (va_between _ _ _ _ 0 2 0%R 0%R); [ exists [], []; reflexivity | lia | ]. unfold lin. cbn. lra. }
    intros E. injection E. lra.
Qed.
Print Assumptions c12_coarse_refuted.

(** ** C33 *)
Theorem c33_step : forall (A : Type) (seg : segment A) s req, sampled s ->
  exists r, interp_like seg Step true s req = Ok r /\ map fst r = req /\
    forall t o, In (t, o) r -> exists v, o = Some v /\ step_value s t v.
Proof.
  intros A seg s req S. destruct s as [|[t0 a] [|p q]]; [ destruct S | | ].
  - assert (E := interp_like_linear (fun _ _ _ _ _ => a) [(t0, a)] a req).
    change (interp_like seg Step true [(t0, a)] req) with (interp_like (fun _ _ _ _ _ => a) Linear true [(t0, a)] req).
    assert (interp_like (fun _ _ _ _ _ => a) Linear true [(t0, a)] req
            = interp_like (fun t1 t2 x y t => if t =? t1 then x else y) Linear true [(t0, a)] req) as -> by reflexivity.
    assert (exact_seg (fun t1 t2 (x y : A) t => if t =? t1 then x else y)) as X.
    { intros t1 t2 x y L. rewrite Z.eqb_refl. destruct (Z.eqb_spec t2 t1); [ lia | auto ]. }
    rewrite (interp_like_linear _ _ a) by assumption. eexists. split; [ reflexivity | ]. split.
    + rewrite map_map. apply map_id.
    + intros t o H. apply in_map_iff in H. destruct H as (u & E' & _). injection E' as -> <-.
      exists a. split; [ cbn [fval fv]; destruct (t <=? t0); reflexivity | ].
      destruct (Z.ltb_spec t t0).
      * eapply sv_before; [ reflexivity | assumption ].
      * eapply (sv_at _ _ _ t0); [ left; reflexivity | assumption | ].
        intros u' v' [E''|[]] _. injection E'' as -> ->. lia.
  - destruct (interp_like_step seg ((t0, a) :: p :: q) req S) as (h & E & V); [ cbn; lia | ].
    exists (map (fun t => (t, Some (h t))) req). split; [ assumption | ]. split.
    + rewrite map_map. apply map_id.
    + intros t o H. apply in_map_iff in H. destruct H as (u & E' & _). injection E' as -> <-.
      eexists. split; [ reflexivity | apply V ].
Qed.
Print Assumptions c33_step.

Theorem c33_step_unique : forall (A : Type) (s : list (Z * A)) t v w, sampled s ->
  step_value s t v -> step_value s t w -> v = w.
Proof. intros A s t v w. apply step_value_fun. Qed.
Print Assumptions c33_step_unique.

Example c33_ex : interp_like (fun _ _ a _ _ => a) Step true [(0, 0); (10, 100); (20, 300)] [-5; 3; 10; 15; 99]
  = Ok [(-5, Some 0); (3, Some 0); (10, Some 100); (15, Some 100); (99, Some 300)].
Proof. reflexivity. Qed.
