(** Properties of time dependent coordinate systems: C07 and C08 pointwise, C10,
    C75 and C76. [sl] is the spherical interpolation of scipy. *)
From Coq Require Import Reals List ZArith Bool Lia Lra Sorting.Sorted.
From Verif Require Import Base RigidModel RigidSpec RigidFacts InterpModel InterpSpec InterpFacts
  LinModel LinFacts LcsTimeModel LcsTimeSpec LcsTimeFacts.
Import ListNotations.
Open Scope Z_scope.

(** ** Examples: an interpolation of orientations and some systems *)
Definition hold : segment mat := fun t0 t1 a b t => if t =? t1 then b else a.
Example ex_slerp_ok : slerp_ok hold.
Proof.
  constructor; unfold hold.
  - unfold exact_seg. intros t0 t1 a b H. destruct (Z.eqb_spec t0 t1); [ lia | ]. rewrite Z.eqb_refl. auto.
  - intros t0 t1 a b t _ _ Ha Hb. destruct (t =? t1); assumption.
  - intros k t0 t1 a b t. destruct (Z.eqb_spec (t + k) (t1 + k)), (Z.eqb_spec t t1); try lia; reflexivity.
Qed.

(** moves from the origin to (4, 0, 0) in 4 steps *)
Definition moving : tlcs := TL (Const mid) (CArr (Ser [(0, vzero); (4, V 4 0 0)])) None None.
Definition moving_abs (r : Z) : tlcs := TL (Const mid) (CArr (Ser [(0, vzero); (4, V 4 0 0)])) None (Some r).
Definition shifted : tlcs := TL (Const mid) (CArr (Const (V 0 1 0))) None None.
Definition formula : tlcs := TL (Const mid) (CExpr (fun t => V (IZR t) 0 0)) None (Some 10).

Example ex_valid : valid_t moving /\ valid_t (moving_abs 7) /\ valid_t shifted /\ valid_t formula.
Proof.
  assert (forall p a r, (forall x, p = CArr x -> arr_ok x) ->
            (match p with CArr (Ser _) => a = None | _ => True end) ->
            (match p with CArr (Const _) => a = None -> r = None | _ => True end) ->
            valid_t (TL (Const mid) p a r)) as H.
  { intros p a r K H1 H2. constructor; cbn [tl_ori tl_pos tl_at tl_ref].
    - exact I.
    - destruct p; [ apply K; reflexivity | exact I ].
    - intros m ->. exact orthonormal_mid.
    - exact I.
    - unfold has_axis. cbn. destruct p as [[|]|]; cbn; (discriminate || auto).
    - unfold is_time_dependent, is_expr, has_axis. cbn. destruct p as [[|]|]; cbn; (discriminate || auto). }
  split; [ | split; [ | split ] ]; apply H; try (intros x E; injection E as <-); cbn; auto; try lia; discriminate.
Qed.

(** every valid system has exactly one pose at every time *)
Theorem c75_pose_unique : forall sl l t, slerp_ok sl -> valid_t l ->
  exists x, pose_at sl l t x /\ valid x /\ forall y, pose_at sl l t y -> y = x.
Proof.
  intros sl l t SL W. exists (posef sl l t). split; [ apply pose_at_iff; auto | ].
  split; [ apply posef_valid; assumption | ]. intros y H. apply (pose_at_iff sl SL l t y W). assumption.
Qed.
Print Assumptions c75_pose_unique.

(** ** C07, pointwise in time *)
(** The sum of two systems at any of its times is the composition of the maps at
    the same moment, and it is defined on the times of the left system, or on those
    of the right one if the left one has no time. *)
Theorem c07_add_pointwise : forall sl a b, slerp_ok sl -> valid_t a -> valid_t b ->
  is_expr a = false -> is_expr b = false ->
  (lcs_axis a <> None -> is_time_dependent b = true -> tl_ref a <> None -> tl_ref b <> None) ->
  exists c, tlcs_add sl a b = Ok c /\ valid_t c /\
    (forall t x y z, on_axis c t -> pose_at sl c t z ->
       pose_at sl a (local_time a (tl_ref c) t) x -> pose_at sl b (local_time b (tl_ref c) t) y ->
       forall v, lcs_apply z v = lcs_apply y (lcs_apply x v)) /\
    (has_axis a = true -> has_axis c = true /\ lcs_axis a = option_map (map (local_time a (tl_ref c))) (lcs_axis c)) /\
    (lcs_axis a = None -> lcs_axis b = option_map (map (local_time b (tl_ref c))) (lcs_axis c)).
Proof.
  intros sl a b SL Wa Wb Ea Eb Ad.
  destruct (tlcs_add_ok sl SL a b Wa Wb Ea Eb Ad) as (c & E & Wc & Ec & L1 & L2 & _ & Rc & Pc).
  exists c. split; [ assumption | ]. split; [ assumption | ]. split; [ | auto ].
  intros t x y z Ht Hz Hx Hy v. apply (pose_at_iff sl SL) in Hx, Hy, Hz; try assumption. subst.
  rewrite Pc by assumption. apply apply_radd.
Qed.
Print Assumptions c07_add_pointwise.

(** which reference time the sum has *)
Theorem c07_add_reference : forall sl a b c, slerp_ok sl -> valid_t a -> valid_t b ->
  is_expr a = false -> is_expr b = false -> tlcs_add sl a b = Ok c ->
  (lcs_axis a <> None -> is_time_dependent b = true -> tl_ref a <> None -> tl_ref b <> None) ->
  lcs_axis c <> None ->
  match tl_ref a, tl_ref b with
  | Some x, Some y => tl_ref c = Some (Z.min x y)
  | None, r | r, None => tl_ref c = r
  end.
Proof.
  intros sl a b c SL Wa Wb Ea Eb E Ad H.
  destruct (tlcs_add_ok sl SL a b Wa Wb Ea Eb Ad) as (c' & E' & _ & _ & _ & _ & _ & Rc & _).
  rewrite E in E'. injection E' as <-. destruct (lcs_axis c); [ | contradiction ]. cbn [LcsTimeModel.is_some] in Rc.
  rewrite Rc. destruct (tl_ref a), (tl_ref b); reflexivity.
Qed.
Print Assumptions c07_add_reference.

(** the case left out: times of the left system are absolute, those of the right
    one are not *)
Theorem c07_mixed_reference : forall sl a b ts r, valid_t a ->
  is_expr a = false -> is_expr b = false -> lcs_axis a = Some ts -> tl_ref a = Some r ->
  is_time_dependent b = true -> tl_ref b = None ->
  tlcs_add sl a b = Err TypeError.
Proof.
  intros sl a b ts r Wa Ea Eb La Ra Db Rb. unfold tlcs_add. rewrite Ea, Eb, Ra, Rb. cbn [orb].
  rewrite La. cbn [interp_time r_ref]. rewrite Db, Rb. reflexivity.
Qed.
Print Assumptions c07_mixed_reference.

Theorem c07_expression : forall sl a b, is_expr a = true \/ is_expr b = true ->
  tlcs_add sl a b = Err WeldxException.
Proof. intros sl a b [H|H]; unfold tlcs_add; rewrite H, ?orb_true_r; reflexivity. Qed.
Print Assumptions c07_expression.

(** The inverse has the same times and inverts the map at each of them. *)
Theorem c07_invert_pointwise : forall sl l, slerp_ok sl -> valid_t l -> is_expr l = false ->
  exists i, tlcs_invert sl l = Ok i /\ valid_t i /\ lcs_axis i = lcs_axis l /\ tl_ref i = tl_ref l /\
    forall t x y, on_axis l t -> pose_at sl l t x -> pose_at sl i t y ->
    forall v, lcs_apply y (lcs_apply x v) = v /\ lcs_apply x (lcs_apply y v) = v.
Proof.
  intros sl l SL W E. destruct (tlcs_invert_ok sl SL l W E) as (i & Ei & Wi & _ & Li & Ri & _ & Pi).
  exists i. split; [ assumption | ]. split; [ assumption | ]. split; [ assumption | ]. split; [ assumption | ].
  intros t x y Ht Hx Hy v. apply (pose_at_iff sl SL) in Hx, Hy; try assumption. subst.
  assert (V := posef_valid sl SL l t W). rewrite Pi by assumption. split; [ apply apply_rinv; assumption | ].
  rewrite <- (rinv_rinv (posef sl l t) V) at 1. apply apply_rinv. apply rinv_valid. assumption.
Qed.
Print Assumptions c07_invert_pointwise.

(** Adding and subtracting a system on the same axis gives back the first one. *)
Theorem c07_cancel_pointwise : forall sl a b, slerp_ok sl -> valid_t a -> valid_t b ->
  is_expr a = false -> is_expr b = false -> has_axis a = true ->
  tl_ref a = tl_ref b -> lcs_axis a = lcs_axis b ->
  exists c d, tlcs_add sl a b = Ok c /\ tlcs_sub sl c b = Ok d /\
    lcs_axis d = lcs_axis a /\ tl_ref d = tl_ref a /\
    forall t x, on_axis a t -> (pose_at sl d t x <-> pose_at sl a t x).
Proof.
  intros sl a b SL Wa Wb Ea Eb Ha Rab Lab.
  assert (Na : lcs_axis a <> None) by (intros N; destruct (axis_none a N Ea); congruence).
  assert (Hl : forall l w, local_time l (tl_ref l) w = w) by (intros l w; unfold local_time; destruct (tl_ref l); lia).
  assert (Hm : forall l o, option_map (map (local_time l (tl_ref l))) o = o).
  { intros l [o|]; [ | reflexivity ]. cbn [option_map]. f_equal. rewrite (map_ext _ (fun t => t) (Hl l)). apply map_id. }
  assert (Hs : forall r, sum_ref r r = r) by (intros [r|]; cbn; rewrite ?Z.min_id; reflexivity).
  destruct (tlcs_add_ok sl SL a b Wa Wb Ea Eb) as (c & Ec & Wc & Xc & L1 & _ & _ & Rc & Pc); [ unfold addable; congruence | ].
  destruct (lcs_axis c) as [w|] eqn:Lc; [ | exfalso; apply Na; destruct (L1 Ha) as [_ ->]; reflexivity ].
  cbn [LcsTimeModel.is_some] in Rc. rewrite <- Rab, Hs in Rc. rewrite Rc, Hm in L1. destruct (L1 Ha) as [Hc L1']. clear L1. rename L1' into L1.
  destruct (tlcs_invert_ok sl SL b Wb Eb) as (i & Ei & Wi & Xi & Li & Ri & _ & Pi).
  destruct (tlcs_add_ok sl SL c i Wc Wi Xc Xi) as (d & Ed & Wd & Xd & M1 & _ & _ & Rd & Pd); [ unfold addable; congruence | ].
  destruct (lcs_axis d) as [w'|] eqn:Ld; [ | destruct (M1 Hc) as [_ M1']; rewrite Lc in M1'; discriminate ].
  cbn [LcsTimeModel.is_some] in Rd. rewrite Ri, <- Rab, Rc, Hs in Rd.
  destruct (M1 Hc) as [_ M1']. clear M1. rename M1' into M1. rewrite Rd, <- Rc, Hm in M1. rewrite Lc in M1. injection M1 as <-.
  exists c, d. split; [ assumption | ]. split; [ unfold tlcs_sub; rewrite Ei; exact Ed | ].
  split; [ congruence | ]. split; [ congruence | ].
  intros t x Ht. rewrite !(pose_at_iff sl SL) by assumption.
  assert (posef sl d t = posef sl a t) as ->; [ | reflexivity ].
  unfold on_axis in *. rewrite L1 in Ht. rewrite Pd by (rewrite Ld; exact Ht). rewrite Rd, <- Rc, Hl.
  rewrite Rc, Rab, <- Ri, Hl. rewrite Pc by (rewrite Lc; exact Ht). rewrite Rc, Hl, Rab, Hl.
  rewrite Pi by (rewrite <- Lab, L1; exact Ht).
  rewrite radd_assoc, radd_inv_r, radd_id_r; [ reflexivity | apply posef_valid; assumption ].
Qed.
Print Assumptions c07_cancel_pointwise.

(** without time axis + with time axis: nothing is lost *)
Example c07_ex_add : exists c, tlcs_add hold shifted moving = Ok c /\ lcs_axis c = Some [0; 4] /\
  pose_at hold c 1 (Lcs mid (V 1 1 0)).
Proof.
  destruct ex_valid as (Wm & _ & Ws & _).
  destruct (c07_add_pointwise hold shifted moving ex_slerp_ok Ws Wm eq_refl eq_refl) as (c & E & Wc & _ & _ & L).
  { intros H. exfalso. apply H. reflexivity. }
  exists c. split; [ assumption | ].
  unfold tlcs_add in E. cbn [is_expr shifted moving tl_pos orb tl_ref lcs_axis tl_ori tl_at interp_time bind amap2 amap map_ser map fst snd] in E.
  rewrite mk_tlcs_ok in E.
  - injection E as <-. split; [ reflexivity | ].
    apply (pose_at_iff hold ex_slerp_ok); [ assumption | ]. unfold posef. cbn [tl_ori tl_pos aval fval fv].
    cbn [fst snd Z.leb Z.compare Pos.compare Pos.compare_cont]. unfold lin_vec, lin. cbn [vx vy vz Z.sub Z.add Z.opp Z.pos_sub Pos.sub Pos.pred_double].
    f_equal; [ unfold mmul, mid; cbn; f_equal; ring | ].
    unfold vadd, mvec, mid, vzero. cbn. f_equal; field.
  - intros m ->. cbn. replace (mmul mid mid) with mid by (symmetry; apply mmul_id_l). exact orthonormal_mid.
  - exact I.
Qed.

(** ** C08, in time *)
(** every operation on valid systems gives a valid system: all its orientations are
    orthonormal and so is the pose at any time *)
Theorem c08_orthonormal_in_time : forall sl a b, slerp_ok sl -> valid_t a -> valid_t b ->
  is_expr a = false -> is_expr b = false ->
  forall c, tlcs_add sl a b = Ok c \/ tlcs_sub sl a b = Ok c \/ tlcs_invert sl a = Ok c ->
  (lcs_axis a <> None -> is_time_dependent b = true -> tl_ref a <> None -> tl_ref b <> None) ->
  forall t x, pose_at sl c t x -> orthonormal (l_ori x).
Proof.
  intros sl a b SL Wa Wb Ea Eb c H Ad t x Hx.
  assert (valid_t c) as Wc.
  { destruct (tlcs_invert_ok sl SL b Wb Eb) as (i & Ei & Wi & Xi & Li & Ri & Ti & Pi).
    destruct H as [H|[H|H]].
    - destruct (tlcs_add_ok sl SL a b Wa Wb Ea Eb Ad) as (c' & E & W & _). congruence.
    - unfold tlcs_sub in H. rewrite Ei in H. cbn [bind] in H.
      destruct (tlcs_add_ok sl SL a i Wa Wi Ea Xi) as (c' & E & W & _); [ | congruence ].
      unfold addable. intros H1 H2 H3. rewrite Ri. apply Ad; [ assumption | | assumption ].
      rewrite dep_axis in * by assumption. destruct Ti; congruence.
    - destruct (tlcs_invert_ok sl SL a Wa Ea) as (c' & E & W & _). congruence. }
  apply (pose_at_iff sl SL) in Hx; [ | assumption ]. subst. apply posef_valid; assumption.
Qed.
Print Assumptions c08_orthonormal_in_time.

(** ** C10 *)
(** A new reference time does not change the pose at any moment. *)
Theorem c10_moments : forall sl l r new moment x, slerp_ok sl -> valid_t l -> is_expr l = false ->
  tl_ref l = Some r -> (pose_abs sl (reset_reference_time l new) moment x <-> pose_abs sl l moment x).
Proof.
  intros sl l r new m x SL W E R. unfold pose_abs.
  rewrite (reset_ref_eq l new) by (congruence || assumption). rewrite R.
  assert (forall t, pose_at sl (reset_reference_time l new) t x <-> pose_at sl l (t + new - r) x) as H.
  { intros t. rewrite !(pose_at_iff sl SL) by (try apply reset_valid; assumption).
    rewrite (reset_posef sl SL) by assumption. rewrite R. reflexivity. }
  split; intros (w & Ew & Hw); injection Ew as <-; (eexists; split; [ reflexivity | ]).
  - apply H in Hw. replace (m - r) with (m - new + new - r) by lia. assumption.
  - apply H. replace (m - new + new - r) with (m - r) by lia. assumption.
Qed.
Print Assumptions c10_moments.

(** Without reference time the time deltas stay. *)
Theorem c10_deltas : forall sl l new t x, slerp_ok sl -> valid_t l -> tl_ref l = None ->
  lcs_axis (reset_reference_time l new) = lcs_axis l /\
  (is_time_dependent l = true -> tl_ref (reset_reference_time l new) = Some new) /\
  (pose_at sl (reset_reference_time l new) t x <-> pose_at sl l t x).
Proof.
  intros sl l new t x SL W R. unfold reset_reference_time. rewrite R, shift_zero.
  assert (shift_pos 0 (tl_pos l) = tl_pos l) as -> by (destruct (tl_pos l); cbn [shift_pos]; rewrite ?shift_zero; reflexivity).
  assert ((match tl_at l with Some t => Some (t + 0) | None => None end) = tl_at l) as ->
    by (destruct (tl_at l); [ f_equal; lia | reflexivity ]).
  split; [ reflexivity | ]. split; [ cbn [tl_ref]; intros ->; reflexivity | ]. reflexivity.
Qed.
Print Assumptions c10_deltas.

(** Only the last of a sequence of reference times matters; if there was none
    before, the first one counts too. *)
Theorem c10_last_reset : forall l rs new, tl_ref l <> None -> valid_t l ->
  reset_all l (rs ++ [new]) = reset_reference_time l new.
Proof.
  intros l rs. revert l. induction rs as [|r rs IH]; intros l new R W; [ reflexivity | ].
  unfold reset_all in *. cbn [app fold_left]. rewrite IH.
  - rewrite reset_reset. destruct (tl_ref l); [ reflexivity | contradiction ].
  - rewrite reset_ref_eq by assumption. discriminate.
  - apply reset_valid. assumption.
Qed.
Print Assumptions c10_last_reset.

Theorem c10_last_reset_fresh : forall l r rs new, tl_ref l = None -> valid_t l -> is_time_dependent l = true ->
  reset_all l (r :: rs ++ [new]) = reset_reference_time (reset_reference_time l r) new.
Proof.
  intros l r rs new R W D. change (reset_all l (r :: rs ++ [new])) with (reset_all (reset_reference_time l r) (rs ++ [new])).
  apply c10_last_reset; [ | apply reset_valid; assumption ].
  unfold reset_reference_time. cbn [tl_ref]. rewrite D. discriminate.
Qed.
Print Assumptions c10_last_reset_fresh.

Example c10_ex : pose_abs hold (moving_abs 7) 8 (Lcs mid (V 1 0 0)) /\
  pose_abs hold (reset_reference_time (moving_abs 7) 3) 8 (Lcs mid (V 1 0 0)).
Proof.
  destruct ex_valid as (_ & W & _).
  assert (pose_abs hold (moving_abs 7) 8 (Lcs mid (V 1 0 0))) as H.
  { exists 7. split; [ reflexivity | ]. apply (pose_at_iff hold ex_slerp_ok); [ assumption | ].
    unfold posef. cbn. unfold lin_vec, lin. cbn. f_equal. f_equal; field. }
  split; [ exact H | ]. apply (c10_moments hold _ 7 3 8 _ ex_slerp_ok W eq_refl eq_refl). exact H.
Qed.

(** The expression of a coordinate system is not shifted: the motion changes. *)
Theorem c10_expression_refuted : exists l new moment x, valid_t l /\ tl_ref l <> None /\
  pose_abs hold l moment x /\ ~ pose_abs hold (reset_reference_time l new) moment x.
Proof.
  exists formula, 3, 12, (Lcs mid (V 2 0 0)). destruct ex_valid as (_ & _ & _ & W).
  split; [ exact W | ]. split; [ discriminate | ]. split.
  - exists 10. split; [ reflexivity | ]. apply (pose_at_iff hold ex_slerp_ok); [ exact W | reflexivity ].
  - intros (r & E & H). injection E as <-.
    apply (pose_at_iff hold ex_slerp_ok) in H; [ | apply reset_valid; exact W ].
    unfold posef in H. cbn in H. injection H as H. lra.
Qed.
Print Assumptions c10_expression_refuted.

(** ** C75 *)
(** [interp_time] at the times [ts] relative to [ref]: the result has at every
    requested time the pose of the system at the same moment, and its times are the
    requested ones. *)
Theorem c75_interp_time : forall sl l ts ref, slerp_ok sl -> valid_t l -> is_time_dependent l = true ->
  StronglySorted Z.lt ts -> ts <> [] -> (tl_ref l = None <-> ref = None) ->
  exists l', interp_time sl l (Some (RT ts ref)) = Ok l' /\ valid_t l' /\ is_expr l' = false /\
    (forall t x, In t ts -> (pose_at sl l' t x <-> pose_at sl l (local_time l ref t) x)) /\
    (has_axis l' = true -> lcs_axis l' = Some ts /\ tl_ref l' = ref).
Proof.
  intros sl l ts ref SL W D S N C.
  destruct (interp_time_ok sl SL l ts ref W S N (fun _ => C)) as (l' & E & W' & X & P & A & _ & _).
  exists l'. split; [ assumption | ]. split; [ assumption | ]. split; [ rewrite X, D; apply andb_false_r | ].
  split; [ | intros H; destruct (A H) as (_ & ? & ?); auto ].
  intros t x Ht. rewrite !(pose_at_iff sl SL) by assumption. rewrite P by assumption. reflexivity.
Qed.
Print Assumptions c75_interp_time.

(** static systems and missing times are ignored, one sided reference times rejected *)
Theorem c75_interp_time_static : forall sl l time, is_time_dependent l = false \/ time = None ->
  interp_time sl l time = Ok l.
Proof. intros sl l [time|] [H|H]; try discriminate; cbn [interp_time]; rewrite ?H; reflexivity. Qed.
Print Assumptions c75_interp_time_static.

Theorem c75_interp_time_mixed : forall sl l ts ref, is_time_dependent l = true ->
  (tl_ref l = None /\ ref <> None \/ tl_ref l <> None /\ ref = None) ->
  interp_time sl l (Some (RT ts ref)) = Err TypeError.
Proof.
  intros sl l ts ref D H. cbn [interp_time r_ref]. rewrite D. cbn [negb].
  destruct (tl_ref l), ref; cbn; try reflexivity; destruct H as [[H1 H2]|[H1 H2]]; congruence.
Qed.
Print Assumptions c75_interp_time_mixed.

(** ** C76 *)
(** A system without time dependency on the left takes over the times of the right
    system, if no single time value is attached to it. *)
Theorem c76_static_left : forall sl a b, slerp_ok sl -> valid_t a -> valid_t b ->
  is_time_dependent a = false -> tl_at a = None -> is_expr b = false ->
  exists c, tlcs_add sl a b = Ok c /\ lcs_axis c = lcs_axis b /\
    (lcs_axis b <> None -> tl_ref c = tl_ref b) /\
    forall t x y z, on_axis b t -> pose_at sl a t x -> pose_at sl b t y -> pose_at sl c t z ->
    forall v, lcs_apply z v = lcs_apply y (lcs_apply x v).
Proof.
  intros sl a b SL Wa Wb Da Aa Eb.
  assert (Ea : is_expr a = false) by (unfold is_time_dependent in Da; apply orb_false_iff in Da; tauto).
  assert (Ha : has_axis a = false) by (rewrite <- dep_axis; assumption).
  assert (La : lcs_axis a = None) by (rewrite axis_static, Aa by assumption; reflexivity).
  assert (Ra : tl_ref a = None) by (apply (vt_ref _ Wa); assumption).
  destruct (tlcs_add_ok sl SL a b Wa Wb Ea Eb) as (c & E & Wc & Xc & _ & L2 & _ & Rc & Pc); [ unfold addable; congruence | ].
  specialize (L2 La). rewrite Ra in Rc. cbn [sum_ref] in Rc.
  assert (Hl : lcs_axis c <> None -> forall w, local_time b (tl_ref c) w = w).
  { intros N w. rewrite Rc. destruct (lcs_axis c); [ | contradiction ]. cbn. unfold local_time. destruct (tl_ref b); lia. }
  assert (Lcb : lcs_axis c = lcs_axis b).
  { rewrite L2. destruct (lcs_axis c) as [w|]; [ | reflexivity ]. cbn [option_map]. f_equal.
    rewrite (map_ext _ (fun t => t)); [ symmetry; apply map_id | ]. apply Hl. discriminate. }
  exists c. split; [ assumption | ]. split; [ assumption | ].
  split; [ intros N; rewrite Rc, Lcb; destruct (lcs_axis b); [ reflexivity | contradiction ] | ].
  intros t x y z Ht Hx Hy Hz v. apply (pose_at_iff sl SL) in Hx, Hy, Hz; try assumption. subst.
  rewrite Pc by (unfold on_axis in *; rewrite Lcb; exact Ht).
  rewrite (static_posef sl a _ t Da). destruct (lcs_axis c) as [w|] eqn:Lc.
  - rewrite Hl by discriminate. apply apply_radd.
  - symmetry in Lcb. destruct (axis_none b Lcb Eb) as [Hb _].
    rewrite (static_posef sl b _ t) by (rewrite dep_axis; assumption). apply apply_radd.
Qed.
Print Assumptions c76_static_left.

(** After [interp_time] with a single time the system is not time dependent but it
    remembers the time value. Added to a moving system, it freezes that system. *)
Theorem c76_static_left_refuted : exists a b c, valid_t a /\ valid_t b /\
  is_time_dependent a = false /\ is_time_dependent b = true /\
  interp_time hold moving (Some (RT [2] None)) = Ok a /\ tlcs_add hold a b = Ok c /\
  is_time_dependent c = false /\ lcs_axis c = Some [2].
Proof.
  destruct ex_valid as (W & _).
  destruct (interp_time_ok hold ex_slerp_ok moving [2] None W) as (a & Ea & Wa & _).
  { repeat constructor. } { discriminate. } { intros _. split; reflexivity. }
  exists a, moving.
  assert (Qa : exists v, a = TL (Const mid) (CArr (Const v)) (Some 2) None).
  { revert Ea. cbn. unfold mk_tlcs. cbn [ares]. rewrite check_exact by apply orthonormal_mid. cbn.
    intros E. injection E as <-. eauto. }
  destruct Qa as (v & ->).
  assert (Qc : exists c, tlcs_add hold (TL (Const mid) (CArr (Const v)) (Some 2) None) moving = Ok c /\
                 is_time_dependent c = false /\ lcs_axis c = Some [2]).
  { unfold tlcs_add. cbn -[mk_tlcs mid]. unfold mk_tlcs at 1. cbn [ares]. rewrite check_exact by apply orthonormal_mid.
    cbn -[mk_tlcs mid]. rewrite mmul_id_l.
    eexists. split; [ apply mk_tlcs_ok; [ intros m ->; apply orthonormal_mid | exact I ] | ]. split; reflexivity. }
  destruct Qc as (c & Ec & Dc & Lc). exists c. auto 10.
Qed.
Print Assumptions c76_static_left_refuted.

(** ** The times of a new system *)
(** Different times of the orientations and of the coordinates are united. *)
Theorem c75_axes : forall sl so sp at_ ref, slerp_ok sl -> sampled so -> sampled sp ->
  (forall m, elements (Ser so) m -> orthonormal m) -> map fst so <> map fst sp ->
  exists l u, mk_tlcs sl (Ser so) (CArr (Ser sp)) at_ ref = Ok l /\ lcs_axis l = Some u /\ tl_ref l = ref /\
    StronglySorted Z.lt u /\ forall t, In t u <-> In t (map fst so) \/ In t (map fst sp).
Proof.
  intros sl so sp at_ ref SL So Sp O N. unfold mk_tlcs. rewrite ares_check by assumption. cbn [bind unify].
  assert (same_times (map fst so) (map fst sp) = false) as ->.
  { destruct (same_times _ _) eqn:Q; [|reflexivity]. exfalso. apply N. revert Q. clear.
    generalize (map fst sp). induction (map fst so) as [|x l IH]; intros [|y r]; cbn; try discriminate; [reflexivity|].
    intro H. apply andb_true_iff in H as [H1 H2]. apply Z.eqb_eq in H1. subst. f_equal. now apply IH. }
  set (u := union_times (map fst so) (map fst sp)).
  assert (Su : StronglySorted Z.lt u) by apply union_times_sorted.
  assert (Iu : forall t, In t u <-> In t (map fst so) \/ In t (map fst sp)) by (intro t; apply union_times_In).
  assert (Lu : forall x, u <> [x]).
  { intros x E. apply N.
    assert (A : forall {B : Type} (s : list (Z * B)), sampled s -> (forall t, In t (map fst s) -> t = x) -> map fst s = [x]).
    { intros B s Hs H. destruct s as [|[t0 b] [|[t1 b1] r]]; [destruct Hs| |].
      - cbn in *. now rewrite (H t0) by auto.
      - exfalso. destruct Hs as [Hs _].
        assert (E0 := H t0 ltac:(cbn; auto)). assert (E1 := H t1 ltac:(cbn; auto)). lia. }
    rewrite (A _ so So), (A _ sp Sp); [reflexivity| |]; intros t Ht; (assert (J : In t u) by (apply Iu; auto));
      rewrite E in J; destruct J as [J|[]]; congruence. }
  assert (Nu : u <> []).
  { destruct so as [|[t0 b] r]; [destruct So|]. intro E. assert (J : In t0 u) by (apply Iu; left; left; reflexivity).
    rewrite E in J. exact J. }
  assert (Q : forall {B : Type} (f : Z -> B), squeeze_time (map (fun t => (t, f t)) u) = Ser (map (fun t => (t, f t)) u)).
  { intros B f. destruct u as [|x [|y r]]; [congruence|exfalso; now apply (Lu x)|reflexivity]. }
  assert (M : forall {B : Type} (f : Z -> B), map fst (map (fun t => (t, f t)) u) = u).
  { intros B f. rewrite map_map. cbn. apply map_id. }
  rewrite (interp_orientation_ok sl lin_mat so mid) by (try apply SL; try apply lin_mat_exact; assumption).
  rewrite (interp_coordinates_ok lin_vec sp vzero) by (try apply lin_vec_exact; assumption). rewrite !Q.
  assert (C : exists o', (match so with [(_, a)] => Ok (Const a) | _ => Ok (Ser (map (fun t => (t, fval sl so mid t)) u)) end) = Ok o' /\
                         match o' with Const _ => True | Ser s => map fst s = u end).
  { destruct so as [|[t0 b] [|p r]]; eexists; (split; [reflexivity|]); (exact I || apply M). }
  destruct C as (o' & -> & Co). cbn [bind fst snd]. eexists _, u. split; [reflexivity|].
  unfold lcs_axis. cbn [tl_ori tl_pos tl_ref]. split; [|split; [|split; assumption]].
  - destruct o'; [now rewrite M|now rewrite Co].
  - unfold is_time_dependent, has_axis, is_expr. cbn [tl_pos tl_ori is_ser]. now rewrite orb_true_r.
Qed.
Print Assumptions c75_axes.
Example c75_axes_ex : exists l, mk_tlcs hold (Ser [(0, mid); (2, mid)]) (CArr (Ser [(1, vzero); (2, V 4 0 0)])) None (Some 7) = Ok l /\
  lcs_axis l = Some [0; 1; 2].
Proof.
  destruct (c75_axes hold [(0, mid); (2, mid)] [(1, vzero); (2, V 4 0 0)] None (Some 7)) as (l & u & H & A & _ & S & I).
  - exact ex_slerp_ok.
  - cbn. lia.
  - cbn. lia.
  - intros m (t & [E|[E|[]]]); injection E as _ <-; exact orthonormal_mid.
  - discriminate.
  - exists l. split; [exact H|]. rewrite A. f_equal.
    assert (U : forall a b, StronglySorted Z.lt a -> StronglySorted Z.lt b -> (forall t, In t a <-> In t b) -> a = b).
    { clear. induction a as [|x a IH]; intros [|y b] Ha Hb H; [reflexivity|exfalso; apply (H y); now left|exfalso; apply (H x); now left|].
      inversion Ha as [|? ? Ha1 Ha2]; inversion Hb as [|? ? Hb1 Hb2]; subst. rewrite Forall_forall in Ha2, Hb2.
      assert (x = y) as ->.
      { destruct (proj1 (H x) (or_introl eq_refl)) as [->|K]; [reflexivity|]. destruct (proj2 (H y) (or_introl eq_refl)) as [->|L]; [reflexivity|].
        specialize (Ha2 _ L). specialize (Hb2 _ K). lia. }
      f_equal. apply IH; [assumption|assumption|]. intro t. split; intro K.
      - destruct (proj1 (H t) (or_intror K)) as [->|L]; [specialize (Ha2 _ K); lia|exact L].
      - destruct (proj2 (H t) (or_intror K)) as [->|L]; [specialize (Hb2 _ K); lia|exact L]. }
    apply U; [assumption| |]; [repeat constructor|]. intro t. rewrite I. cbn. tauto.
Qed.
