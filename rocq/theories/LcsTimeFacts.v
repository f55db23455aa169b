(** Lemmas about time dependent coordinate systems. *)
From Coq Require Import Reals List ZArith Bool Lia Lra Sorting.Sorted.
From Verif Require Import Base RigidModel RigidSpec RigidFacts InterpModel InterpSpec InterpFacts
  LinModel LinFacts LcsTimeModel LcsTimeSpec.
Import ListNotations.
Open Scope Z_scope.

Section Arr.
  Context {A : Type}.

  (** value of a data array *)
  Definition aval (seg : segment A) (d : A) (x : arr A) (t : Z) : A :=
    match x with Const a => a | Ser s => fval seg s d t end.

  Lemma arr_at_iff : forall seg d x t v, exact_seg seg -> arr_ok x ->
    (arr_at seg x t v <-> aval seg d x t = v).
  Proof.
    intros seg d [a|s] t v X K; cbn in *.
    - split; congruence.
    - apply value_at_iff; assumption.
  Qed.

  Definition axis_of (x : arr A) : option (list Z) :=
    match x with Const _ => None | Ser s => Some (map fst s) end.

  Lemma sampled_shift : forall k (s : samples A), sampled s -> sampled (shift_ser k s).
  Proof.
    intros k [|[t0 a] r]; [ intros [] | ]. cbn [sampled shift_ser map fst snd]. revert t0.
    induction r as [|[t1 b] r IH]; intros t0 H; [ exact I | ]. cbn in *. destruct H. split; [ lia | auto ].
  Qed.

  Definition shift_inv (seg : segment A) : Prop :=
    forall k t0 t1 a b t, seg (t0 + k) (t1 + k) a b (t + k) = seg t0 t1 a b t.

  Lemma fval_shift : forall seg k s d t, shift_inv seg -> fval seg (shift_ser k s) d (t + k) = fval seg s d t.
  Proof.
    intros seg k [|[t0 a] r] d t H; [ reflexivity | ]. cbn [fval shift_ser map fst snd].
    revert t0 a. induction r as [|[t1 b] r IH]; intros t0 a; cbn [map fst snd fv].
    - destruct (t + k <=? t0 + k), (t <=? t0); reflexivity.
    - destruct (Z.leb_spec (t + k) (t0 + k)), (Z.leb_spec t t0); try lia; [ reflexivity | ].
      destruct (Z.leb_spec (t + k) (t1 + k)), (Z.leb_spec t t1); try lia; [ apply H | apply IH ].
  Qed.

  Lemma aval_shift : forall seg d k x t, shift_inv seg -> aval seg d (shift_arr k x) (t + k) = aval seg d x t.
  Proof. intros seg d k [a|s] t H; [ reflexivity | ]. apply fval_shift. assumption. Qed.

  Lemma aval_shift' : forall seg d k x t, shift_inv seg -> aval seg d (shift_arr k x) t = aval seg d x (t - k).
  Proof. intros seg d k x t H. rewrite <- (aval_shift seg d k x (t - k) H). f_equal. lia. Qed.

  Lemma arr_ok_shift : forall k (x : arr A), arr_ok x -> arr_ok (shift_arr k x).
  Proof. intros k [a|s] H; [ exact I | ]. apply sampled_shift. assumption. Qed.

  Lemma shift_times : forall k (s : samples A), map fst (shift_ser k s) = map (fun t => t + k) (map fst s).
  Proof. intros k s. unfold shift_ser. rewrite !map_map. reflexivity. Qed.

  Lemma shift_shift : forall k k' (x : arr A), shift_arr k' (shift_arr k x) = shift_arr (k + k') x.
  Proof.
    intros k k' [a|s]; [ reflexivity | ]. cbn. f_equal. unfold shift_ser. rewrite map_map. apply map_ext.
    intros [t a]. cbn. f_equal. lia.
  Qed.
  Lemma shift_zero : forall (x : arr A), shift_arr 0 x = x.
  Proof.
    intros [a|s]; [ reflexivity | ]. cbn. f_equal. unfold shift_ser. rewrite <- (map_id s) at 2. apply map_ext.
    intros [t a]. cbn. f_equal. lia.
  Qed.
  Lemma is_ser_shift : forall k (x : arr A), is_ser (shift_arr k x) = is_ser x.
  Proof. intros k [a|s]; reflexivity. Qed.

  Lemma elements_shift : forall k (x : arr A) m, elements (shift_arr k x) m <-> elements x m.
  Proof.
    intros k [a|s] m; [ reflexivity | ]. cbn. unfold shift_ser. split.
    - intros (t & H). apply in_map_iff in H. destruct H as ([u b] & E & H). cbn in E. injection E as <- ->. eauto.
    - intros (t & H). exists (t + k). apply in_map_iff. exists (t, m). auto.
  Qed.

  Lemma elements_aval : forall seg d (P : A -> Prop) x t, arr_ok x ->
    (forall t0 t1 a b t, t0 < t1 -> t0 <= t <= t1 -> P a -> P b -> P (seg t0 t1 a b t)) ->
    (forall a, elements x a -> P a) -> P (aval seg d x t).
  Proof.
    intros seg d P [a|s] t K C H; cbn in *; [ apply H; reflexivity | ].
    apply fval_closed; [ assumption | assumption | ]. intros u b Hb. apply H. eauto.
  Qed.

  Lemma sampled_sorted : forall s : samples A, sampled s -> StronglySorted Z.lt (map fst s).
  Proof.
    induction s as [|[t a] r IH]; intros H; [ destruct H | ]. cbn [map fst]. destruct r as [|p r].
    - repeat constructor.
    - assert (S := sampled_tail _ _ _ H). constructor; [ apply IH; assumption | ].
      apply Forall_forall. intros u Hu. apply in_map_iff in Hu. destruct Hu as ([w b] & <- & Hw).
      exact (increasing_In _ _ H _ _ Hw).
  Qed.

  Lemma squeeze_spec : forall seg d (h : Z -> A) req, exact_seg seg -> StronglySorted Z.lt req -> req <> [] ->
    arr_ok (squeeze_time (map (fun t => (t, h t)) req)) /\
    (forall t, In t req -> aval seg d (squeeze_time (map (fun t => (t, h t)) req)) t = h t) /\
    (forall a, elements (squeeze_time (map (fun t => (t, h t)) req)) a -> exists t, In t req /\ a = h t) /\
    match axis_of (squeeze_time (map (fun t => (t, h t)) req)) with
    | None => exists t, req = [t] | Some ts => ts = req end.
  Proof.
    intros seg d h req X S N. destruct req as [|t [|u r]]; [ contradiction | | ].
    - cbn. split; [ exact I | ]. split; [ intros x [->|[]]; reflexivity | ].
      split; [ intros a ->; exists t; auto | eauto ].
    - set (q := t :: u :: r) in *.
      change (squeeze_time (map (fun t => (t, h t)) q)) with (Ser (map (fun t => (t, h t)) q)).
      assert (sampled (map (fun t => (t, h t)) q)) as K by (apply sampled_map; assumption).
      split; [ exact K | ]. split; [ | split ].
      + intros x Hx. cbn [aval]. apply fval_sample; [ assumption | assumption | ].
        apply (in_map (fun t => (t, h t))). assumption.
      + intros a (x & Hx). apply in_map_iff in Hx. destruct Hx as (y & E & Hy). injection E as -> <-. eauto.
      + cbn [axis_of]. rewrite map_map. apply map_id.
  Qed.

  (** ** The edge cases *)
  Lemma rev_last : forall s : samples A, s <> [] -> exists b l, rev s = (last_time s 0, b) :: l /\ In (last_time s 0, b) s.
  Proof.
    intros s N. destruct (last_time_In s N) as (b & l & E). exists b, (rev l). split.
    - rewrite E at 1. rewrite rev_app_distr. reflexivity.
    - rewrite E at 2. apply in_or_app. right. left. reflexivity.
  Qed.

  Lemma last_default : forall (r : list Z) d d', r <> [] -> last r d = last r d'.
  Proof.
    induction r as [|x r IH]; intros d d' N; [ contradiction | ]. destruct r as [|y r]; [ reflexivity | ].
    cbn in *. apply IH. discriminate.
  Qed.

  Lemma sorted_bounds : forall req t, StronglySorted Z.lt req -> In t req -> hd t req <= t <= last req t.
  Proof.
    induction req as [|u r IH]; intros t S H; [ destruct H | ]. inversion S as [|? ? S1 F]; subst.
    rewrite Forall_forall in F. split.
    - cbn. destruct H as [->|H]; [ lia | ]. specialize (F _ H). lia.
    - destruct r as [|w r]; [ destruct H as [->|[]]; cbn; lia | ]. change (t <= last (w :: r) t).
      destruct H as [->|H]; [ | apply IH; assumption ].
      specialize (IH w S1 (or_introl eq_refl)). specialize (F w (or_introl eq_refl)).
      rewrite (last_default _ t w) by discriminate. lia.
  Qed.

  Lemma edge_case_spec : forall seg d (s : samples A) req a, exact_seg seg -> sampled s -> StronglySorted Z.lt req ->
    edge_case s req = Some a -> (exists u, In (u, a) s) /\ forall t, In t req -> fval seg s d t = a.
  Proof.
    intros seg d s req a X S G E. destruct s as [|[t0 b] r]; [ destruct S | ]. destruct req as [|q0 req]; [ discriminate | ].
    set (s := (t0, b) :: r) in *. unfold edge_case in E. unfold s in E at 1.
    destruct (Z.leb_spec (last (q0 :: req) q0) t0) as [L|L].
    - injection E as <-. split; [ exists t0; left; reflexivity | ]. intros t Ht. cbn [fval s]. apply fv_left.
      apply (sorted_bounds _ _ G) in Ht. rewrite (last_default _ t q0) in Ht by discriminate. lia.
    - destruct (Z.leb_spec (last_time s t0) (hd q0 (q0 :: req))) as [L'|L']; [ | discriminate ].
      destruct (rev_last s) as (c & l & Er & Hi); [ discriminate | ]. rewrite Er in E. injection E as <-.
      split; [ eauto | ]. intros t Ht. rewrite (last_time_default s t0 0) in L' by discriminate.
      apply (sorted_bounds _ _ G) in Ht. cbn [hd] in *. rewrite fval_after by (assumption || lia).
      apply fval_sample; assumption.
  Qed.
End Arr.

Lemma lin_vec_shift : shift_inv lin_vec.
Proof.
  intros k t0 t1 a b t. unfold lin_vec, lin.
  replace (t1 + k - (t0 + k)) with (t1 - t0) by lia. replace (t + k - (t0 + k)) with (t - t0) by lia. reflexivity.
Qed.

Lemma sorted_shift : forall k req, StronglySorted Z.lt req -> StronglySorted Z.lt (map (fun t => t + k) req).
Proof.
  intros k req H. induction H as [|t r H IH F]; cbn; constructor; [ assumption | ].
  rewrite Forall_forall in *. intros x Hx. apply in_map_iff in Hx. destruct Hx as (y & <- & Hy). specialize (F y Hy). lia.
Qed.

(** ** Constructor *)
Lemma res_ser_id : forall (f : mat -> res mat) s, (forall t m, In (t, m) s -> f m = Ok m) -> res_ser f s = Ok s.
Proof.
  intros f. induction s as [|[t m] s IH]; intros H; [ reflexivity | ]. cbn [res_ser].
  rewrite (H t m (or_introl eq_refl)). cbn [bind]. rewrite IH by (intros u w Hu; eapply H; right; eassumption). reflexivity.
Qed.

Lemma ares_check : forall x, (forall m, elements x m -> orthonormal m) -> ares check_orientation x = Ok x.
Proof.
  intros [a|s] H; cbn [ares].
  - rewrite check_exact by (apply H; reflexivity). reflexivity.
  - rewrite res_ser_id; [ reflexivity | ]. intros t m Hm. apply check_exact. apply H. cbn. eauto.
Qed.

Lemma same_times_refl : forall a, same_times a a = true.
Proof. induction a as [|x a IH]; [ reflexivity | ]. cbn. rewrite Z.eqb_refl. assumption. Qed.

Section Lcs.
  Context (sl : segment mat) (SL : slerp_ok sl).

  Lemma mk_tlcs_ok : forall o p at_ ref,
    (forall m, elements o m -> orthonormal m) ->
    match o, p with Ser s, CArr (Ser s') => map fst s = map fst s' | _, _ => True end ->
    mk_tlcs sl o p at_ ref =
      Ok (TL o p (if has_axis (TL o p at_ ref) then None else at_)
             (if is_time_dependent (TL o p at_ ref) || is_some at_ then ref else None)).
  Proof.
    intros o p at_ ref H Hax. unfold mk_tlcs. rewrite ares_check by assumption. cbn [bind].
    assert (unify sl o p = Ok (o, p)) as ->; [ | reflexivity ].
    destruct o as [m|s]; [ reflexivity | ]. destruct p as [[v|s']|f]; try reflexivity.
    cbn [unify]. rewrite Hax, same_times_refl. reflexivity.
  Qed.

  Lemma mk_tlcs_valid : forall o p at_ ref l,
    (forall m, elements o m -> orthonormal m) ->
    match o, p with Ser s, CArr (Ser s') => map fst s = map fst s' | _, _ => True end ->
    arr_ok o -> match p with CArr x => arr_ok x | CExpr _ => True end ->
    mk_tlcs sl o p at_ ref = Ok l -> valid_t l.
  Proof.
    intros o p at_ ref l H Hax Ho Hp E. rewrite mk_tlcs_ok in E by assumption. injection E as <-.
    constructor; cbn [tl_ori tl_pos tl_at tl_ref]; try assumption.
    - unfold has_axis. cbn [tl_ori tl_pos]. intros ->. reflexivity.
    - unfold is_time_dependent, is_expr, has_axis. cbn [tl_ori tl_pos].
      intros Q Z0. rewrite Q. cbn [orb]. destruct at_ as [t|]; [ | reflexivity ].
      apply orb_false_iff in Q. destruct Q as [_ Q]. rewrite Q in Z0. discriminate.
  Qed.

  Definition posef (l : tlcs) (t : Z) : lcs :=
    Lcs (aval sl mid (tl_ori l) t)
        (match tl_pos l with CArr p => aval lin_vec vzero p t | CExpr f => f t end).

  Lemma pose_at_iff : forall l t x, valid_t l -> (pose_at sl l t x <-> x = posef l t).
  Proof.
    intros l t [o p] W. unfold pose_at, posef. cbn [l_ori l_pos].
    rewrite (arr_at_iff sl mid) by (exact (so_exact _ SL) || apply W). destruct (tl_pos l) as [q|f] eqn:E.
    - rewrite (arr_at_iff lin_vec vzero); [ | exact lin_vec_exact | assert (Q := vt_pos _ W); rewrite E in Q; exact Q ].
      split; [ intros [-> ->]; reflexivity | intros H; injection H as -> ->; auto ].
    - split; [ intros [-> ->]; reflexivity | intros H; injection H as -> ->; auto ].
  Qed.

  Lemma posef_valid : forall l t, valid_t l -> valid (posef l t).
  Proof.
    intros l t W. unfold valid, posef. cbn [l_ori]. apply (elements_aval sl mid orthonormal); [ apply W | | apply W ].
    intros. apply (so_orth _ SL); assumption.
  Qed.

  (** ** Reference time *)
  Lemma reset_valid : forall l r, valid_t l -> valid_t (reset_reference_time l r).
  Proof.
    intros l r W. unfold reset_reference_time. set (k := match tl_ref l with Some old => old - r | None => 0 end).
    clearbody k. constructor; cbn [tl_ori tl_pos tl_at tl_ref].
    - apply arr_ok_shift, W.
    - assert (Q := vt_pos _ W). destruct (tl_pos l); cbn; [ apply arr_ok_shift; assumption | exact I ].
    - intros m H. apply elements_shift in H. apply (vt_orth _ W). assumption.
    - assert (Q := vt_axis _ W). destruct (tl_ori l) as [|s]; [ exact I | ]. destruct (tl_pos l) as [[|s']|]; cbn; try exact I.
      rewrite !shift_times, Q. reflexivity.
    - unfold has_axis. cbn [tl_ori tl_pos]. intros H. rewrite (vt_at _ W); [ reflexivity | ].
      unfold has_axis. rewrite is_ser_shift in H. destruct (tl_pos l); cbn [shift_pos] in H; [ rewrite is_ser_shift in H | ]; assumption.
    - unfold is_time_dependent, is_expr, has_axis. cbn [tl_ori tl_pos]. rewrite is_ser_shift.
      intros H1 H2. destruct (tl_at l); [ discriminate | ]. cbn [is_some]. rewrite orb_false_r.
      destruct (tl_pos l); cbn [shift_pos] in H1; [ rewrite is_ser_shift in H1 | ]; rewrite H1; reflexivity.
  Qed.

  Lemma reset_posef : forall l r t, is_expr l = false ->
    posef (reset_reference_time l r) t =
    posef l (match tl_ref l with Some old => t + r - old | None => t end).
  Proof.
    intros l r t H. unfold reset_reference_time, posef. cbn [tl_ori tl_pos].
    rewrite aval_shift' by exact (so_shift _ SL). f_equal.
    - f_equal. destruct (tl_ref l); lia.
    - unfold is_expr in H. destruct (tl_pos l); [ | discriminate ]. cbn [shift_pos].
      rewrite aval_shift' by apply lin_vec_shift. f_equal. destruct (tl_ref l); lia.
  Qed.

  Lemma reset_reset : forall l a b, reset_reference_time (reset_reference_time l a) b =
    match tl_ref l with Some _ => reset_reference_time l b
    | None => reset_reference_time (reset_reference_time l a) b end.
  Proof.
    intros l a b. destruct (tl_ref l) as [r|] eqn:E; [ | reflexivity ].
    unfold reset_reference_time. rewrite E. cbn [tl_ori tl_pos tl_at tl_ref].
    assert (forall k, is_time_dependent (TL (shift_arr k (tl_ori l)) (shift_pos k (tl_pos l))
              (match tl_at l with Some t => Some (t + k) | None => None end) (if is_time_dependent l || is_some (tl_at l) then Some a else None))
            = is_time_dependent l) as Hd.
    { intros k. unfold is_time_dependent, is_expr, has_axis. cbn [tl_ori tl_pos]. rewrite is_ser_shift.
      destruct (tl_pos l); cbn [shift_pos]; [ rewrite is_ser_shift | ]; reflexivity. }
    rewrite Hd.
    assert (is_some (match tl_at l with Some t => Some (t + (r - a)) | None => None end) = is_some (tl_at l)) as ->
      by (destruct (tl_at l); reflexivity).
    destruct (is_time_dependent l || is_some (tl_at l)) eqn:Q.
    - rewrite !shift_shift. replace (r - a + (a - b)) with (r - b) by lia. f_equal.
      + destruct (tl_pos l); cbn [shift_pos]; [ rewrite shift_shift; replace (r - a + (a - b)) with (r - b) by lia; reflexivity | reflexivity ].
      + destruct (tl_at l); [ f_equal; lia | reflexivity ].
    - apply orb_false_iff in Q. destruct Q as [Q1 Q2]. unfold is_time_dependent, is_expr, has_axis in Q1.
      destruct (tl_at l); [ discriminate | ].
      destruct (tl_ori l); [ | destruct (tl_pos l); cbn in Q1; try rewrite orb_true_r in Q1; discriminate ].
      destruct (tl_pos l) as [[|]|]; cbn in Q1; try discriminate. reflexivity.
  Qed.

  (** ** Interpolation *)
  Lemma interp_ori_ok : forall x req, arr_ok x -> (forall m, elements x m -> orthonormal m) ->
    StronglySorted Z.lt req -> req <> [] ->
    exists y b, interp_ori sl x req = Ok (y, b) /\ arr_ok y /\ (forall m, elements y m -> orthonormal m) /\
      (forall t, In t req -> aval sl mid y t = aval sl mid x t) /\
      (match axis_of y with None => True | Some ts => ts = req end) /\
      (b = None \/ axis_of y = None /\ b = hd_error req /\ (exists t, req = [t]) \/
       axis_of y = None /\ (exists t a, x = Ser [(t, a)] /\ b = Some t) /\ (forall t, req <> [t])).
  Proof.
    intros x req K O S N. destruct x as [a|s].
    - exists (Const a), None. cbn. repeat (split; [ first [ reflexivity | exact I | assumption | auto ] | ]). left. reflexivity.
    - cbn [interp_ori]. destruct (edge_case s req) as [a|] eqn:E.
      + destruct (edge_case_spec sl mid s req a (so_exact _ SL) K S E) as [(u & Hu) Hv].
        exists (Const a), None. cbn [aval axis_of arr_ok elements is_ser].
        split; [ reflexivity | ]. split; [ exact I | ].
        split; [ intros m ->; apply O; cbn; eauto | ].
        split; [ intros t Ht; symmetry; apply Hv; assumption | ].
        split; [ exact I | left; reflexivity ].
      + rewrite (interp_orientation_ok sl lin_mat s mid) by (exact (so_exact _ SL) || apply lin_mat_exact || assumption).
        destruct s as [|[t0 a] [|p r]]; [ destruct K | | ].
        * cbn [bind]. exists (Const a), (Some t0). cbn [aval axis_of arr_ok elements is_ser].
          split; [ reflexivity | ]. split; [ exact I | ].
          split; [ intros m ->; apply O; cbn; exists t0; auto | ].
          split; [ intros t _; cbn; destruct (t <=? t0); reflexivity | ].
          split; [ exact I | right; right ]. split; [ reflexivity | ]. split; [ eauto | ].
          intros t Ht. subst req. cbn in E. destruct (Z.leb_spec t t0); [ discriminate | ].
          destruct (Z.leb_spec t0 t); [ discriminate | lia ].
        * set (s := (t0, a) :: p :: r) in *. cbn [bind].
          destruct (squeeze_spec sl mid (fval sl s mid) req (so_exact _ SL) S N) as (Q1 & Q2 & Q3 & Q4).
          eexists _, _. split; [ reflexivity | ]. split; [ assumption | ]. split; [ | split; [ assumption | split ] ].
          -- intros m Hm. apply Q3 in Hm. destruct Hm as (t & _ & ->).
             apply (fval_closed sl orthonormal); [ intros; apply (so_orth _ SL); assumption | assumption | ].
             intros u b Hb. apply O. exists u. exact Hb.
          -- destruct (axis_of (squeeze_time (map (fun t => (t, fval sl s mid t)) req))); [ assumption | exact I ].
          -- destruct (axis_of (squeeze_time (map (fun t => (t, fval sl s mid t)) req))) eqn:Ax.
             ++ left. destruct (squeeze_time _); [ discriminate | reflexivity ].
             ++ right. left. split; [ reflexivity | ]. destruct (squeeze_time _); [ | discriminate ]. auto.
  Qed.

  Lemma interp_pos_ok : forall p req, match p with CArr x => arr_ok x | CExpr _ => True end ->
    StronglySorted Z.lt req -> req <> [] ->
    exists y b, interp_pos p req = Ok (y, b) /\ arr_ok y /\
      (forall t, In t req -> aval lin_vec vzero y t =
         match p with CArr x => aval lin_vec vzero x t | CExpr f => f t end) /\
      (match axis_of y with None => True | Some ts => ts = req end) /\
      (b = None \/ axis_of y = None /\ b = hd_error req /\ exists t, req = [t]).
  Proof.
    intros p req K S N. destruct p as [[a|s]|f].
    - exists (Const a), None. cbn. repeat (split; [ first [ reflexivity | exact I | assumption | auto ] | ]). left. reflexivity.
    - cbn [interp_pos]. destruct (edge_case s req) as [a|] eqn:E.
      + destruct (edge_case_spec lin_vec vzero s req a lin_vec_exact K S E) as [_ Hv].
        exists (Const a), None. cbn [aval axis_of arr_ok is_ser].
        split; [ reflexivity | ]. split; [ exact I | ].
        split; [ intros t Ht; symmetry; apply Hv; assumption | ].
        split; [ exact I | left; reflexivity ].
      + rewrite (interp_coordinates_ok lin_vec s vzero) by (apply lin_vec_exact || assumption). cbn [bind].
        destruct (squeeze_spec lin_vec vzero (fval lin_vec s vzero) req lin_vec_exact S N) as (Q1 & Q2 & Q3 & Q4).
        eexists _, _. split; [ reflexivity | ]. split; [ assumption | ]. split; [ assumption | ]. split.
        * destruct (axis_of (squeeze_time (map (fun t => (t, fval lin_vec s vzero t)) req))); [ assumption | exact I ].
        * destruct (axis_of (squeeze_time (map (fun t => (t, fval lin_vec s vzero t)) req))) eqn:Ax.
          -- left. destruct (squeeze_time _); [ discriminate | reflexivity ].
          -- right. split; [ reflexivity | ]. destruct (squeeze_time _); [ | discriminate ]. auto.
    - cbn [interp_pos]. destruct req as [|t [|u r]]; [ contradiction | | ].
      + exists (Const (f t)), None. cbn.
        split; [ reflexivity | ]. split; [ exact I | ].
        split; [ intros x [->|[]]; reflexivity | ].
        split; [ exact I | left; reflexivity ].
      + set (q := t :: u :: r) in *. exists (Ser (map (fun t => (t, f t)) q)), None. split; [ reflexivity | ].
        assert (sampled (map (fun t => (t, f t)) q)) as Sq by (apply sampled_map; assumption).
        split; [ exact Sq | ]. split; [ | split; [ | left; reflexivity ] ].
        * intros x Hx. cbn [aval]. apply fval_sample; [ apply lin_vec_exact | assumption | ].
          apply (in_map (fun t => (t, f t))). assumption.
        * cbn [axis_of]. rewrite map_map. apply map_id.
  Qed.

  Definition compatible (l : tlcs) (ref : option Z) : Prop := tl_ref l = None <-> ref = None.

  Lemma map_shift_back : forall k req, map (fun t => t + - k) (map (fun t => t + k) req) = req.
  Proof. intros k req. rewrite map_map. rewrite <- (map_id req) at 2. apply map_ext. intros. lia. Qed.

  Lemma interp_time_ok : forall l ts ref, valid_t l -> StronglySorted Z.lt ts -> ts <> [] ->
    (is_time_dependent l = true -> compatible l ref) ->
    exists l', interp_time sl l (Some (RT ts ref)) = Ok l' /\ valid_t l' /\ is_expr l' = (is_expr l && negb (is_time_dependent l)) /\
      (forall t, In t ts -> posef l' t = posef l (local_time l ref t)) /\
      (has_axis l' = true -> is_time_dependent l = true /\ lcs_axis l' = Some ts /\ tl_ref l' = ref) /\
      (is_time_dependent l = false -> l' = l) /\
      (has_axis l' = false -> is_time_dependent l = true ->
         tl_at l' = None \/ (exists t, ts = [t] /\ tl_at l' = Some (local_time l ref t) /\ tl_ref l' = tl_ref l) \/
         (exists t a, tl_ori l = Ser [(t, a)] /\ tl_at l' = Some t /\ tl_ref l' = tl_ref l /\ forall t, ts <> [t])).
  Proof.
    intros l ts ref W S N C. cbn [interp_time r_ref r_times].
    destruct (is_time_dependent l) eqn:D; cbn [negb].
    2:{ exists l. split; [ reflexivity | ]. split; [ assumption | ]. split; [ rewrite andb_true_r; reflexivity | ].
        assert (has_axis l = false /\ is_expr l = false) as [Ha He].
        { unfold is_time_dependent in D. apply orb_false_iff in D. tauto. }
        split.
        { intros t _. unfold posef. unfold has_axis in Ha. apply orb_false_iff in Ha. destruct Ha as [Ha Hb].
          unfold is_expr in He. destruct (tl_ori l); [ | discriminate ]. destruct (tl_pos l) as [[|]|]; try discriminate. reflexivity. }
        split; [ rewrite Ha; discriminate | ]. split; [ reflexivity | discriminate ]. }
    specialize (C eq_refl).
    assert (Bool.eqb (is_some (tl_ref l)) (is_some ref) = true) as ->.
    { unfold compatible in C. destruct (tl_ref l), ref; try reflexivity; exfalso; destruct C as [C1 C2];
        [ discriminate C2; reflexivity | discriminate C1; reflexivity ]. }
    cbn [negb]. set (k := match tl_ref l with Some a => match ref with Some b => b - a | None => 0 end | None => 0 end).
    assert (forall t, t + k = local_time l ref t) as Hk.
    { intros t. unfold k, local_time. destruct (tl_ref l), ref; lia. }
    set (req := map (fun t => t + k) ts).
    assert (StronglySorted Z.lt req) as Sr by (apply sorted_shift; assumption).
    assert (req <> []) as Nr by (subst req; destruct ts; [ contradiction | discriminate ]).
    destruct (interp_ori_ok (tl_ori l) req (vt_ori _ W) (vt_orth _ W) Sr Nr) as (y & b & -> & K1 & O1 & V1 & A1 & B1).
    destruct (interp_pos_ok (tl_pos l) req (vt_pos _ W) Sr Nr) as (z & c & -> & K2 & V2 & A2 & B2).
    cbn [bind fst snd].
    assert (forall t, In t ts -> In (t + k) req) as Hin by (intros t Ht; apply (in_map (fun t => t + k)); assumption).
    destruct (is_ser y || is_ser z) eqn:Q.
    - assert (match shift_arr (- k) y, CArr (shift_arr (- k) z) with Ser s, CArr (Ser s') => map fst s = map fst s' | _, _ => True end) as Hax.
      { destruct y as [|s]; [ exact I | ]. destruct z as [|s']; [ exact I | ]. cbn in *. rewrite !shift_times, A1, A2. reflexivity. }
      assert (forall m, elements (shift_arr (- k) y) m -> orthonormal m) as Ho.
      { intros m Hm. apply elements_shift in Hm. apply O1. assumption. }
      eexists. split; [ apply mk_tlcs_ok; assumption | ].
      assert (has_axis (TL (shift_arr (- k) y) (CArr (shift_arr (- k) z)) None ref) = true) as Ha.
      { unfold has_axis. cbn [tl_ori tl_pos]. rewrite !is_ser_shift. assumption. }
      split; [ eapply (mk_tlcs_valid (shift_arr (- k) y) (CArr (shift_arr (- k) z)) None ref); [ exact Ho | exact Hax | apply arr_ok_shift; assumption | apply arr_ok_shift; assumption | apply mk_tlcs_ok; assumption ] | ].
      split; [ unfold is_expr at 1; cbn [tl_pos]; rewrite andb_false_r; reflexivity | ]. split; [ | split; [ | split ] ].
      + intros t Ht. unfold posef. cbn [tl_ori tl_pos]. rewrite !aval_shift' by (exact (so_shift _ SL) || apply lin_vec_shift).
        replace (t - - k) with (t + k) by lia. rewrite V1, V2 by (apply Hin; assumption). rewrite Hk. reflexivity.
      + intros _. split; [ reflexivity | ]. split.
        * unfold lcs_axis. cbn [tl_ori tl_pos]. destruct y as [|s]; cbn [shift_arr].
          -- destruct z as [|s']; [ discriminate | ]. cbn [shift_arr]. rewrite shift_times. cbn in A2. rewrite A2.
             unfold req. rewrite map_shift_back. reflexivity.
          -- rewrite shift_times. cbn in A1. rewrite A1. unfold req. rewrite map_shift_back. reflexivity.
        * cbn [tl_ref]. unfold is_time_dependent. rewrite Ha. rewrite orb_true_r. reflexivity.
      + discriminate.
      + unfold has_axis at 1. cbn [tl_ori tl_pos]. rewrite !is_ser_shift, Q. discriminate.
    - apply orb_false_iff in Q. destruct Q as [Qy Qz]. destruct y as [my|]; [ | discriminate ]. destruct z as [vz|]; [ | discriminate ].
      set (at_ := match b with Some t => Some t | None => c end).
      eexists. split; [ apply mk_tlcs_ok; [ assumption | exact I ] | ].
      split; [ eapply (mk_tlcs_valid (Const my) (CArr (Const vz)) at_ (tl_ref l)); [ exact O1 | exact I | exact I | exact I | apply mk_tlcs_ok; [ assumption | exact I ] ] | ].
      split; [ unfold is_expr at 1; cbn [tl_pos]; rewrite andb_false_r; reflexivity | ]. split; [ | split; [ | split ] ].
      + intros t Ht. unfold posef at 1. cbn [tl_ori tl_pos aval]. unfold posef. rewrite <- Hk.
        rewrite <- V1, <- V2 by (apply Hin; assumption). reflexivity.
      + discriminate.
      + discriminate.
      + intros _ _. cbn [tl_at tl_ref]. unfold has_axis. cbn [tl_ori tl_pos is_ser orb].
        assert (forall w, hd_error req = Some w -> (exists t, req = [t]) -> exists t, ts = [t] /\ w = local_time l ref t) as Hone.
        { intros w Ew [t Et]. unfold req in *. destruct ts as [|t0 [|t1 ts]]; cbn [map] in *; try discriminate.
          injection Ew as <-. exists t0. rewrite Hk. auto. }
        subst at_. destruct b as [w|].
        * cbn [is_some]. rewrite orb_true_r. right. destruct B1 as [B1|[(_ & B1 & B1')|(_ & (t & a & Et & Ew) & B1')]]; [ discriminate | left | right ].
          -- destruct (Hone w (eq_sym B1) B1') as (t & -> & ->). eauto.
          -- injection Ew as ->. exists t, a. split; [ assumption | ]. split; [ reflexivity | ]. split; [ reflexivity | ].
             intros u ->. apply (B1' (u + k)). reflexivity.
        * destruct c as [w|]; [ | left; reflexivity ]. cbn [is_some]. rewrite orb_true_r. right. left.
          destruct B2 as [B2|(_ & B2 & B2')]; [ discriminate | ]. destruct (Hone w (eq_sym B2) B2') as (t & -> & ->). eauto.
  Qed.

  (** ** Element by element operations *)
  Lemma aval_map : forall (A B : Type) (f : A -> B) sa sb da db (x : arr A) t,
    exact_seg sa -> exact_seg sb -> arr_ok x ->
    match x with Const _ => True | Ser s => In t (map fst s) end ->
    aval sb db (amap f x) t = f (aval sa da x t).
  Proof.
    intros A B f sa sb da db [a|s] t Xa Xb K H; [ reflexivity | ]. cbn [amap aval].
    apply in_map_iff in H. destruct H as ([u a] & <- & Hi). cbn [fst].
    rewrite (fval_sample sa s da u a) by assumption. apply fval_sample; [ assumption | | ].
    - clear -K. cbn in K. unfold map_ser. destruct s as [|[t0 a] r]; [ destruct K | ]. cbn [map fst snd sampled] in *.
      revert t0 K. induction r as [|[t1 b] r IH]; intros t0 K; [ exact I | ]. cbn in *. destruct K. auto.
    - apply (in_map (fun p => (fst p, f (snd p)))) in Hi. exact Hi.
  Qed.

  Lemma map_ser_ok : forall (A B : Type) (f : A -> B) s, sampled s -> sampled (map_ser f s).
  Proof.
    intros A B f [|[t0 a] r] K; [ destruct K | ]. unfold map_ser. cbn [map fst snd sampled] in *.
    revert t0 K. induction r as [|[t1 b] r IH]; intros t0 K; [ exact I | ]. cbn in *. destruct K. auto.
  Qed.

  Lemma map_ser_times : forall (A B : Type) (f : A -> B) s, map fst (map_ser f s) = map fst s.
  Proof. intros A B f s. unfold map_ser. rewrite map_map. reflexivity. Qed.

  Lemma zip_ser_ok : forall (A B C : Type) (f : A -> B -> C) x y, map fst x = map fst y ->
    exists z, zip_ser f x y = Ok z /\ map fst z = map fst x /\
      (forall t c, In (t, c) z -> exists a b, In (t, a) x /\ In (t, b) y /\ c = f a b) /\
      (forall t, In t (map fst x) -> exists a b, In (t, a) x /\ In (t, b) y /\ In (t, f a b) z).
  Proof.
    intros A B C f. induction x as [|[t a] x IH]; intros [|[u b] y] E; try discriminate.
    - exists []. cbn. repeat split; intros; contradiction.
    - cbn in E. injection E as -> E. destruct (IH y E) as (z & Ez & Tz & H1 & H2).
      exists ((u, f a b) :: z). cbn [zip_ser]. rewrite Z.eqb_refl, Ez. cbn [bind]. split; [ reflexivity | ].
      split; [ cbn; rewrite Tz; reflexivity | ]. split.
      + intros t c [Ec|Hc].
        * injection Ec as -> <-. exists a, b. cbn. auto.
        * destruct (H1 _ _ Hc) as (a' & b' & ? & ? & ?). exists a', b'. cbn. auto.
      + intros t [<-|Ht].
        * exists a, b. cbn. auto.
        * destruct (H2 _ Ht) as (a' & b' & ? & ? & ?). exists a', b'. cbn. auto.
  Qed.

  Definition axes_match {A B : Type} (x : arr A) (y : arr B) : Prop :=
    match x, y with Ser s, Ser s' => map fst s = map fst s' | _, _ => True end.
  Definition ax2 {A B : Type} (x : arr A) (y : arr B) : option (list Z) :=
    match axis_of x with Some ts => Some ts | None => axis_of y end.

  Lemma sampled_times : forall (A B : Type) (s : samples A) (s' : samples B),
    map fst s = map fst s' -> sampled s -> sampled s'.
  Proof.
    intros A B [|[t0 a] r] [|[t1 b] q] E K; try discriminate; [ destruct K | ]. cbn in *. injection E as -> E.
    revert t1 K q E. induction r as [|[u c] r IH]; intros t1 K [|[w d] q] E; try discriminate; [ exact I | ].
    cbn in *. injection E as -> E. destruct K as [K1 K2]. split; [ assumption | apply IH; assumption ].
  Qed.

  Lemma amap2_ok : forall (A B C : Type) (f : A -> B -> C) sa sb sc da db dc (x : arr A) (y : arr B),
    exact_seg sa -> exact_seg sb -> exact_seg sc -> arr_ok x -> arr_ok y -> axes_match x y ->
    exists z, amap2 f x y = Ok z /\ arr_ok z /\ axis_of z = ax2 x y /\
      (forall t, match ax2 x y with Some ts => In t ts | None => True end ->
         aval sc dc z t = f (aval sa da x t) (aval sb db y t)) /\
      (forall c, elements z c -> exists a b, elements x a /\ elements y b /\ c = f a b).
  Proof.
    intros A B C f sa sb sc da db dc x y Xa Xb Xc Kx Ky M. destruct x as [a|s].
    - cbn [amap2]. exists (amap (f a) y). split; [ reflexivity | ]. split.
      { destruct y as [b|s]; [ exact I | ]. apply map_ser_ok. assumption. }
      split; [ destruct y as [b|s]; [ reflexivity | cbn; rewrite map_ser_times; reflexivity ] | ]. split.
      + intros t Ht. cbn [aval]. apply aval_map; [ assumption | assumption | assumption | ].
        destruct y; [ exact I | exact Ht ].
      + intros c Hc. destruct y as [b|s]; cbn in *; [ subst; eauto | ]. destruct Hc as (t & Hc).
        apply in_map_iff in Hc. destruct Hc as ([u b] & E & Hb). cbn in E. injection E as -> <-. exists a, b. eauto.
    - destruct y as [b|s'].
      + cbn [amap2]. exists (amap (fun a => f a b) (Ser s)). split; [ reflexivity | ]. split; [ apply map_ser_ok; assumption | ].
        split; [ cbn; rewrite map_ser_times; reflexivity | ]. split.
        * intros t Ht. rewrite (aval_map _ _ (fun a => f a b) sa sc da dc (Ser s) t); try assumption. reflexivity.
        * intros c (t & Hc). apply in_map_iff in Hc. destruct Hc as ([u a] & E & Ha). cbn in E. injection E as -> <-.
          exists a, b. cbn. eauto.
      + cbn [amap2]. cbn in M. destruct (zip_ser_ok _ _ _ f s s' M) as (z & -> & Tz & H1 & H2). cbn [bind].
        assert (sampled z) as Kz by (apply (sampled_times _ _ s z); [ symmetry; assumption | assumption ]).
        exists (Ser z). split; [ reflexivity | ]. split; [ exact Kz | ]. split; [ cbn; rewrite Tz; reflexivity | ]. split.
        * intros t Ht. cbn [ax2 axis_of] in Ht. destruct (H2 t Ht) as (a & b & Ha & Hb & Hz). cbn [aval].
          rewrite (fval_sample sa s da t a), (fval_sample sb s' db t b) by assumption. apply fval_sample; assumption.
        * intros c (t & Hc). destruct (H1 _ _ Hc) as (a & b & ? & ? & ?). exists a, b. cbn. eauto.
  Qed.

  (** ** Inversion *)
  Lemma tl_axes : forall l p, valid_t l -> tl_pos l = CArr p -> axes_match (tl_ori l) p.
  Proof.
    intros l p W E. assert (Q := vt_axis _ W). rewrite E in Q. unfold axes_match.
    destruct (tl_ori l); [ exact I | ]. destruct p; [ exact I | assumption ].
  Qed.

  Lemma lcs_axis_eq : forall l p, tl_pos l = CArr p ->
    lcs_axis l = match ax2 (tl_ori l) p with Some ts => Some ts | None => match tl_at l with Some t => Some [t] | None => None end end.
  Proof. intros l p E. unfold lcs_axis. rewrite E. destruct (tl_ori l), p; reflexivity. Qed.

  Lemma has_axis_eq : forall o p a r, has_axis (TL o (CArr p) a r) = match ax2 o p with Some _ => true | None => false end.
  Proof. intros [m|s] [v|s'] a r; reflexivity. Qed.

  Lemma time_dep_eq : forall o p a r, is_time_dependent (TL o (CArr p) a r) = match ax2 o p with Some _ => true | None => false end.
  Proof. intros [m|s] [v|s'] a r; reflexivity. Qed.

  Lemma amap_mtrans : forall (x : arr mat), arr_ok x -> arr_ok (amap mtrans x) /\ axis_of (amap mtrans x) = axis_of x /\
    (forall m, elements (amap mtrans x) m -> exists m', elements x m' /\ m = mtrans m') /\
    (forall t, match axis_of x with Some ts => In t ts | None => True end ->
       aval sl mid (amap mtrans x) t = mtrans (aval sl mid x t)).
  Proof.
    intros [a|s] K.
    - cbn. repeat split. intros m ->. eauto.
    - split; [ apply map_ser_ok; assumption | ]. split; [ cbn; rewrite map_ser_times; reflexivity | ]. split.
      + intros m (t & Hm). apply in_map_iff in Hm. destruct Hm as ([u b] & E & Hb). cbn in E. injection E as -> <-.
        exists b. cbn. eauto.
      + intros t Ht. apply aval_map; (exact (so_exact _ SL) || assumption).
  Qed.

  Lemma tlcs_invert_ok : forall l, valid_t l -> is_expr l = false ->
    exists l', tlcs_invert sl l = Ok l' /\ valid_t l' /\ is_expr l' = false /\
      lcs_axis l' = lcs_axis l /\ tl_ref l' = tl_ref l /\ (tl_at l' = tl_at l /\ has_axis l' = has_axis l) /\
      (forall t, on_axis l t -> posef l' t = rinv (posef l t)).
  Proof.
    intros l W He. unfold tlcs_invert. unfold is_expr in He. destruct (tl_pos l) as [p|f] eqn:Ep; [ | discriminate ].
    assert (Kp : arr_ok p) by (assert (Q := vt_pos _ W); rewrite Ep in Q; exact Q).
    destruct (amap2_ok _ _ _ (fun o v => mvec (mtrans o) (vscale (-1) v)) sl lin_vec lin_vec mid vzero vzero (tl_ori l) p
               (so_exact _ SL) lin_vec_exact lin_vec_exact (vt_ori _ W) Kp (tl_axes _ _ W Ep))
      as (q & Eq & Kq & Aq & Vq & _).
    rewrite Eq. cbn [bind].
    destruct (amap_mtrans (tl_ori l) (vt_ori _ W)) as (Ko & Ao & Oo & Vo).
    assert (forall m, elements (amap mtrans (tl_ori l)) m -> orthonormal m) as Ho.
    { intros m Hm. apply Oo in Hm. destruct Hm as (m' & Hm & ->). apply orthonormal_trans, (vt_orth _ W), Hm. }
    assert (match amap mtrans (tl_ori l), CArr q with Ser s, CArr (Ser s') => map fst s = map fst s' | _, _ => True end) as Hax.
    { destruct (tl_ori l) as [m|s]; [ exact I | ]. cbn [amap]. destruct q as [|s']; [ exact I | ].
      cbn in Aq. rewrite map_ser_times. injection Aq as <-. reflexivity. }
    eexists. split; [ apply mk_tlcs_ok; assumption | ].
    assert (ax2 (amap mtrans (tl_ori l)) q = ax2 (tl_ori l) p) as Hx.
    { unfold ax2 in *. rewrite Ao, Aq. destruct (axis_of (tl_ori l)); reflexivity. }
    split; [ eapply (mk_tlcs_valid (amap mtrans (tl_ori l)) (CArr q) (tl_at l) (tl_ref l)); [ exact Ho | exact Hax | exact Ko | exact Kq | apply mk_tlcs_ok; assumption ] | ].
    split; [ reflexivity | ]. rewrite has_axis_eq, time_dep_eq, Hx.
    assert (Ha : has_axis l = match ax2 (tl_ori l) p with Some _ => true | None => false end).
    { destruct l as [o pp a r]. cbn in Ep. subst pp. apply has_axis_eq. }
    assert (Hd : is_time_dependent l = has_axis l) by (unfold is_time_dependent, is_expr; rewrite Ep; reflexivity).
    assert (tl_at l = if match ax2 (tl_ori l) p with Some _ => true | None => false end then None else tl_at l) as Hat.
    { rewrite <- Ha. destruct (has_axis l) eqn:Q; [ apply (vt_at _ W); assumption | reflexivity ]. }
    split; [ | split; [ | split ] ].
    - rewrite (lcs_axis_eq _ q) by reflexivity. rewrite (lcs_axis_eq l p Ep). cbn [tl_ori tl_at]. rewrite Hx.
      destruct (ax2 (tl_ori l) p); reflexivity.
    - cbn [tl_ref]. destruct (ax2 (tl_ori l) p) eqn:Q; [ reflexivity | ]. cbn [orb].
      destruct (tl_at l) eqn:Qa; [ reflexivity | ]. cbn [is_some]. symmetry. apply (vt_ref _ W); [ congruence | assumption ].
    - split; [ cbn [tl_at]; destruct (ax2 (tl_ori l) p); [ symmetry; assumption | reflexivity ] | ].
      rewrite has_axis_eq, Hx. symmetry. exact Ha.
    - intros t Ht. unfold posef, rinv. cbn [tl_ori tl_pos l_ori l_pos]. rewrite Ep.
      unfold on_axis in Ht. rewrite (lcs_axis_eq l p Ep) in Ht.
      assert (match ax2 (tl_ori l) p with Some ts => In t ts | None => True end) as Ht' by (destruct (ax2 (tl_ori l) p); [ assumption | exact I ]).
      rewrite Vq by assumption. rewrite Vo; [ reflexivity | ]. unfold ax2 in Ht'. destruct (axis_of (tl_ori l)); [ assumption | exact I ].
  Qed.

  (** ** Addition *)
  Lemma axis_sorted : forall l ts, valid_t l -> is_expr l = false -> lcs_axis l = Some ts -> StronglySorted Z.lt ts /\ ts <> [].
  Proof.
    intros l ts W He E. unfold lcs_axis in E. assert (Qo := vt_ori _ W). assert (Qp := vt_pos _ W).
    assert (forall (A : Type) (s : samples A), sampled s -> StronglySorted Z.lt (map fst s) /\ map fst s <> []) as G.
    { intros A s K. split; [ apply sampled_sorted; assumption | ]. destruct s; [ destruct K | discriminate ]. }
    destruct (tl_ori l) as [m|s].
    - destruct (tl_pos l) as [[v|s']|f].
      + destruct (tl_at l); [ | discriminate ]. injection E as <-. split; [ repeat constructor | discriminate ].
      + injection E as <-. apply G. exact Qp.
      + destruct (tl_at l); [ | discriminate ]. injection E as <-. split; [ repeat constructor | discriminate ].
    - injection E as <-. apply G. exact Qo.
  Qed.

  (** reference time of a sum *)
  Definition sum_ref (a b : option Z) : option Z :=
    match a, b with
    | Some x, Some y => Some (Z.min x y)
    | None, y => y
    | x, None => x
    end.

  Lemma static_posef : forall l t t', is_time_dependent l = false -> posef l t = posef l t'.
  Proof.
    intros l t t' D. unfold is_time_dependent, is_expr, has_axis in D. unfold posef.
    apply orb_false_iff in D. destruct D as [D1 D2]. destruct (tl_pos l) as [p|]; [ | discriminate ].
    apply orb_false_iff in D2. destruct D2 as [D2 D3]. destruct (tl_ori l); [ | discriminate ]. destruct p; [ reflexivity | discriminate ].
  Qed.

  Lemma reset_axis : forall l r, is_expr l = false ->
    lcs_axis (reset_reference_time l r) = option_map (map (fun t => t + match tl_ref l with Some old => old - r | None => 0 end)) (lcs_axis l).
  Proof.
    intros l r He. unfold reset_reference_time, lcs_axis. cbn [tl_ori tl_pos tl_at].
    unfold is_expr in He. destruct (tl_ori l) as [m|s]; cbn [shift_arr].
    - destruct (tl_pos l) as [[v|s']|f]; cbn [shift_pos shift_arr].
      + destruct (tl_at l); reflexivity.
      + cbn [option_map]. rewrite shift_times. reflexivity.
      + discriminate.
    - cbn [option_map]. rewrite shift_times. reflexivity.
  Qed.

  Lemma reset_dep : forall l r, is_time_dependent (reset_reference_time l r) = is_time_dependent l /\
    is_expr (reset_reference_time l r) = is_expr l.
  Proof.
    intros l r. unfold is_time_dependent, is_expr, has_axis, reset_reference_time. cbn [tl_ori tl_pos].
    rewrite is_ser_shift. destruct (tl_pos l); cbn [shift_pos]; [ rewrite is_ser_shift | ]; auto.
  Qed.

  Lemma reset_ref_eq : forall l r, tl_ref l <> None -> valid_t l -> tl_ref (reset_reference_time l r) = Some r.
  Proof.
    intros l r H W. unfold reset_reference_time. cbn [tl_ref].
    destruct (is_time_dependent l) eqn:D; [ reflexivity | ]. destruct (tl_at l) eqn:E; [ reflexivity | ].
    exfalso. apply H. apply (vt_ref _ W); assumption.
  Qed.

  (** the core of the addition: both systems have been converted to [ref] *)
  Definition add_core (a b : tlcs) (ref : option Z) : res tlcs :=
    let time := match lcs_axis a with Some ts => Some (RT ts ref) | None => None end in
      bind (interp_time sl b time) (fun rhs =>
      match tl_pos a, tl_pos rhs with
      | CArr pl, CArr pr =>
          bind (amap2 mmul (tl_ori rhs) (tl_ori a)) (fun o =>
          bind (amap2 mvec (tl_ori rhs) pl) (fun q =>
          bind (amap2 vadd q pr) (fun p =>
            mk_tlcs sl o (CArr p) (merge_at (tl_at a) (tl_at rhs)) ref)))
      | _, _ => Err WeldxException
      end).

  Lemma tlcs_add_core : forall a b, valid_t a -> valid_t b -> is_expr a = false -> is_expr b = false ->
    exists a' b', tlcs_add sl a b = add_core a' b' (sum_ref (tl_ref a) (tl_ref b)) /\
      valid_t a' /\ valid_t b' /\ is_expr a' = false /\ is_expr b' = false /\
      is_time_dependent a' = is_time_dependent a /\ is_time_dependent b' = is_time_dependent b /\
      (tl_ref a' = match tl_ref a with None => None | Some _ => sum_ref (tl_ref a) (tl_ref b) end) /\
      (tl_ref b' = match tl_ref b with None => None | Some _ => sum_ref (tl_ref a) (tl_ref b) end) /\
      (forall t, posef a' t = posef a (local_time a (sum_ref (tl_ref a) (tl_ref b)) t)) /\
      (forall t, posef b' t = posef b (local_time b (sum_ref (tl_ref a) (tl_ref b)) t)) /\
      (lcs_axis a = None <-> lcs_axis a' = None) /\ (lcs_axis b = None <-> lcs_axis b' = None) /\
      (forall ts, lcs_axis a = Some ts -> exists ts', lcs_axis a' = Some ts' /\
          ts = map (local_time a (sum_ref (tl_ref a) (tl_ref b))) ts') /\
      (forall ts, lcs_axis b = Some ts -> exists ts', lcs_axis b' = Some ts' /\
          ts = map (local_time b (sum_ref (tl_ref a) (tl_ref b))) ts').
  Proof.
    intros a b Wa Wb Ea Eb. unfold tlcs_add. rewrite Ea, Eb. cbn [orb].
    assert (forall l (f : Z -> Z) ts, (forall t, f t = t) -> lcs_axis l = Some ts -> exists ts', lcs_axis l = Some ts' /\ ts = map f ts') as Hid.
    { intros l f ts Hf E. exists ts. split; [ assumption | ]. rewrite (map_ext f (fun t => t) Hf). symmetry. apply map_id. }
    assert (forall l r ts, is_expr l = false -> tl_ref l <> None -> lcs_axis l = Some ts ->
      exists ts', lcs_axis (reset_reference_time l r) = Some ts' /\ ts = map (local_time l (Some r)) ts') as Hre.
    { intros l r ts He Hr E. rewrite reset_axis by assumption. rewrite E. eexists. split; [ reflexivity | ].
      rewrite map_map. rewrite <- (map_id ts) at 1. apply map_ext. intros t. unfold local_time.
      destruct (tl_ref l); [ lia | contradiction ]. }
    assert (forall l r, is_expr l = false -> lcs_axis l = None <-> lcs_axis (reset_reference_time l r) = None) as Hno.
    { intros l r He. rewrite reset_axis by assumption. destruct (lcs_axis l); cbn; split; congruence. }
    destruct (tl_ref a) as [ra|] eqn:Ra; destruct (tl_ref b) as [rb|] eqn:Rb.
    - cbn [sum_ref]. destruct (Z.eqb_spec ra rb) as [E|N]; [ | destruct (Z.ltb_spec ra rb) ].
      + subst rb. exists a, b. rewrite Z.min_id.
        split; [ reflexivity | ]. do 8 (split; [ first [ assumption | reflexivity ] | ]).
        split; [ intros t; unfold local_time; rewrite Ra; f_equal; lia | ].
        split; [ intros t; unfold local_time; rewrite Rb; f_equal; lia | ].
        split; [ reflexivity | ]. split; [ reflexivity | ].
        split; intros ts; apply Hid; intros t; unfold local_time; [ rewrite Ra | rewrite Rb ]; lia.
      + exists a, (reset_reference_time b ra). rewrite Z.min_l by lia.
        destruct (reset_dep b ra) as [D1 D2].
        split; [ reflexivity | ]. split; [ assumption | ]. split; [ apply reset_valid; assumption | ].
        split; [ assumption | ]. split; [ congruence | ]. split; [ reflexivity | ]. split; [ assumption | ].
        split; [ assumption | ]. split; [ apply reset_ref_eq; [ congruence | assumption ] | ].
        split; [ intros t; unfold local_time; rewrite Ra; f_equal; lia | ].
        split; [ intros t; rewrite reset_posef by assumption; unfold local_time; rewrite Rb; reflexivity | ].
        split; [ reflexivity | ]. split; [ apply Hno; assumption | ].
        split; [ intros ts; apply Hid; intros t; unfold local_time; rewrite Ra; lia | ].
        intros ts. apply Hre; [ assumption | congruence ].
      + exists (reset_reference_time a rb), b. rewrite Z.min_r by lia.
        destruct (reset_dep a rb) as [D1 D2].
        split; [ reflexivity | ]. split; [ apply reset_valid; assumption | ]. split; [ assumption | ].
        split; [ congruence | ]. split; [ assumption | ]. split; [ assumption | ]. split; [ reflexivity | ].
        split; [ apply reset_ref_eq; [ congruence | assumption ] | ]. split; [ assumption | ].
        split; [ intros t; rewrite reset_posef by assumption; unfold local_time; rewrite Ra; reflexivity | ].
        split; [ intros t; unfold local_time; rewrite Rb; f_equal; lia | ].
        split; [ apply Hno; assumption | ]. split; [ reflexivity | ].
        split; [ intros ts; apply Hre; [ assumption | congruence ] | ].
        intros ts; apply Hid; intros t; unfold local_time; rewrite Rb; lia.
    - exists a, b. cbn [sum_ref].
      split; [ reflexivity | ]. do 8 (split; [ first [ assumption | reflexivity ] | ]).
      split; [ intros t; unfold local_time; rewrite Ra; f_equal; lia | ].
      split; [ intros t; unfold local_time; rewrite Rb; reflexivity | ].
      split; [ reflexivity | ]. split; [ reflexivity | ].
      split; intros ts; apply Hid; intros t; unfold local_time; [ rewrite Ra | rewrite Rb ]; lia.
    - exists a, b. cbn [sum_ref].
      split; [ reflexivity | ]. do 8 (split; [ first [ assumption | reflexivity ] | ]).
      split; [ intros t; unfold local_time; rewrite Ra; reflexivity | ].
      split; [ intros t; unfold local_time; rewrite Rb; f_equal; lia | ].
      split; [ reflexivity | ]. split; [ reflexivity | ].
      split; intros ts; apply Hid; intros t; unfold local_time; [ rewrite Ra | rewrite Rb ]; lia.
    - exists a, b. cbn [sum_ref].
      split; [ reflexivity | ]. do 8 (split; [ first [ assumption | reflexivity ] | ]).
      split; [ intros t; unfold local_time; rewrite Ra; reflexivity | ].
      split; [ intros t; unfold local_time; rewrite Rb; reflexivity | ].
      split; [ reflexivity | ]. split; [ reflexivity | ].
      split; intros ts; apply Hid; intros t; unfold local_time; [ rewrite Ra | rewrite Rb ]; lia.
  Qed.

  (** all arrays on the axis [u], or constant *)
  Definition ax_in {A : Type} (u : list Z) (x : arr A) : Prop := axis_of x = None \/ axis_of x = Some u.

  Lemma ax_in_match : forall (A B : Type) u (x : arr A) (y : arr B), ax_in u x -> ax_in u y -> axes_match x y.
  Proof.
    intros A B u [a|s] [b|s'] Hx Hy; try exact I. unfold ax_in in *. cbn in *.
    destruct Hx as [Hx|Hx]; [ discriminate | ]. destruct Hy as [Hy|Hy]; [ discriminate | ].
    injection Hx as ->. injection Hy as ->. reflexivity.
  Qed.

  Lemma ax2_in : forall (A B C : Type) u (x : arr A) (y : arr B) (z : arr C), ax_in u x -> ax_in u y -> axis_of z = ax2 x y -> ax_in u z.
  Proof.
    intros A B C u x y z Hx Hy E. unfold ax_in in *. rewrite E. unfold ax2.
    destruct (axis_of x); [ destruct Hx; [ discriminate | auto ] | assumption ].
  Qed.

  Definition dynamic (l : tlcs) (p : arr vec) : option (list Z) := ax2 (tl_ori l) p.

  Lemma combine_ok : forall u r l pr pl at_ ref, valid_t r -> valid_t l -> tl_pos r = CArr pr -> tl_pos l = CArr pl ->
    ax_in u (tl_ori r) -> ax_in u pr -> ax_in u (tl_ori l) -> ax_in u pl ->
    exists c, bind (amap2 mmul (tl_ori r) (tl_ori l)) (fun o =>
              bind (amap2 mvec (tl_ori r) pl) (fun q =>
              bind (amap2 vadd q pr) (fun p => mk_tlcs sl o (CArr p) at_ ref))) = Ok c /\
      valid_t c /\ is_expr c = false /\
      has_axis c = has_axis l || has_axis r /\
      (has_axis c = true -> lcs_axis c = Some u) /\
      tl_at c = (if has_axis c then None else at_) /\
      tl_ref c = (if has_axis c || is_some at_ then ref else None) /\
      forall t, (has_axis c = true -> In t u) -> posef c t = radd (posef l t) (posef r t).
  Proof.
    intros u r l pr pl at_ ref Wr Wl Er El A1 A2 A3 A4.
    assert (Kr : arr_ok pr) by (assert (Q := vt_pos _ Wr); rewrite Er in Q; exact Q).
    assert (Kl : arr_ok pl) by (assert (Q := vt_pos _ Wl); rewrite El in Q; exact Q).
    destruct (amap2_ok _ _ _ mmul sl sl sl mid mid mid (tl_ori r) (tl_ori l) (so_exact _ SL) (so_exact _ SL) (so_exact _ SL)
                (vt_ori _ Wr) (vt_ori _ Wl) (ax_in_match _ _ u _ _ A1 A3)) as (o & -> & Ko & Xo & Vo & Oo).
    destruct (amap2_ok _ _ _ mvec sl lin_vec lin_vec mid vzero vzero (tl_ori r) pl (so_exact _ SL) lin_vec_exact lin_vec_exact
                (vt_ori _ Wr) Kl (ax_in_match _ _ u _ _ A1 A4)) as (q & -> & Kq & Xq & Vq & _).
    assert (Aq : ax_in u q) by (eapply ax2_in; [ | | exact Xq ]; assumption).
    assert (Ao : ax_in u o) by (eapply ax2_in; [ | | exact Xo ]; assumption).
    destruct (amap2_ok _ _ _ vadd lin_vec lin_vec lin_vec vzero vzero vzero q pr lin_vec_exact lin_vec_exact lin_vec_exact
                Kq Kr (ax_in_match _ _ u _ _ Aq A2)) as (p & Ep & Kp & Xp & Vp & _).
    assert (Ap : ax_in u p) by (eapply ax2_in; [ | | exact Xp ]; assumption).
    cbn [bind]. rewrite Ep. cbn [bind].
    assert (Ho : forall m, elements o m -> orthonormal m).
    { intros m Hm. apply Oo in Hm. destruct Hm as (a & b & Ha & Hb & ->). apply orthonormal_mul; [ apply (vt_orth _ Wr) | apply (vt_orth _ Wl) ]; assumption. }
    assert (Hax : match o, CArr p with Ser s, CArr (Ser s') => map fst s = map fst s' | _, _ => True end).
    { assert (M := ax_in_match _ _ u _ _ Ao Ap). destruct o; [ exact I | ]. destruct p; [ exact I | exact M ]. }
    eexists. split; [ apply mk_tlcs_ok; assumption | ].
    split; [ eapply (mk_tlcs_valid o (CArr p) at_ ref); [ exact Ho | exact Hax | exact Ko | exact Kp | apply mk_tlcs_ok; assumption ] | ].
    split; [ reflexivity | ].
    assert (Hx : match ax2 o p with Some _ => true | None => false end = has_axis l || has_axis r).
    { unfold has_axis. rewrite Er, El. unfold ax2 in *. rewrite Xo, Xp, Xq.
      destruct (tl_ori l), (tl_ori r), pl, pr; reflexivity. }
    split; [ rewrite has_axis_eq; exact Hx | ].
    rewrite !has_axis_eq, !time_dep_eq.
    assert (Hu : match ax2 o p with Some w => w = u | None => True end).
    { unfold ax2. unfold ax_in in *. destruct (axis_of o); [ destruct Ao; congruence | ]. destruct (axis_of p); [ destruct Ap; congruence | exact I ]. }
    split; [ | split; [ | split ] ].
    - intros H. rewrite (lcs_axis_eq _ p) by reflexivity. cbn [tl_ori]. destruct (ax2 o p); [ subst; reflexivity | discriminate ].
    - cbn [tl_at]. reflexivity.
    - cbn [tl_ref]. reflexivity.
    - intros t Ht. unfold posef, radd. cbn [tl_ori tl_pos l_ori l_pos]. rewrite Er, El.
      assert (forall (A B : Type) (x : arr A) (y : arr B), ax_in u x -> ax_in u y ->
                (match ax2 x y with Some _ => match ax2 o p with Some _ => True | None => False end | None => True end) ->
                match ax2 x y with Some ts => In t ts | None => True end) as G.
      { intros A B x y Hx1 Hy1 H. assert (ax2 x y = None \/ ax2 x y = Some u) as D.
        { unfold ax2. unfold ax_in in *. destruct (axis_of x); [ destruct Hx1; [ discriminate | auto ] | assumption ]. }
        destruct D as [-> | E]; [ exact I | ]. rewrite E in *. destruct (ax2 o p); [ apply Ht; reflexivity | contradiction ]. }
      rewrite Vo, Vp, Vq; [ reflexivity | apply G | apply G | apply G ]; try assumption;
        unfold ax2 in *; rewrite ?Xo, ?Xp, ?Xq in *;
        destruct (axis_of (tl_ori r)), (axis_of (tl_ori l)), (axis_of pl), (axis_of pr); exact I.
  Qed.

  Lemma ax_in_lcs : forall l p ts, valid_t l -> tl_pos l = CArr p -> has_axis l = true -> lcs_axis l = Some ts ->
    ax_in ts (tl_ori l) /\ ax_in ts p.
  Proof.
    intros l p ts W E Ha H. assert (Q := tl_axes _ _ W E). rewrite (lcs_axis_eq l p E) in H.
    unfold has_axis in Ha. rewrite E in Ha. unfold ax_in. unfold ax2 in H.
    destruct (tl_ori l) as [m|s]; destruct p as [v|s']; cbn in *; try discriminate; auto.
    split; right; congruence.
  Qed.

  Lemma ax_in_none : forall l p ts, tl_pos l = CArr p -> has_axis l = false ->
    ax_in ts (tl_ori l) /\ ax_in ts p.
  Proof.
    intros l p ts E Ha. unfold has_axis in Ha. rewrite E in Ha.
    destruct (tl_ori l); [ | discriminate ]. destruct p; [ | discriminate ]. split; left; reflexivity.
  Qed.

  Lemma axis_none : forall l, lcs_axis l = None -> is_expr l = false -> has_axis l = false /\ tl_at l = None.
  Proof.
    intros l H He. unfold lcs_axis, has_axis, is_expr in *. destruct (tl_ori l); [ | discriminate ].
    destruct (tl_pos l) as [[|]|]; try discriminate. destruct (tl_at l); [ discriminate | auto ].
  Qed.
  Lemma axis_static : forall l, has_axis l = false -> is_expr l = false ->
    lcs_axis l = match tl_at l with Some t => Some [t] | None => None end.
  Proof.
    intros l H He. unfold lcs_axis, has_axis, is_expr in *. destruct (tl_ori l); [ | discriminate ].
    destruct (tl_pos l) as [[|]|]; try discriminate. reflexivity.
  Qed.
  Lemma dep_axis : forall l, is_expr l = false -> is_time_dependent l = has_axis l.
  Proof. intros l H. unfold is_time_dependent. rewrite H. reflexivity. Qed.

  Lemma add_core_ok : forall a b ref, valid_t a -> valid_t b -> is_expr a = false -> is_expr b = false ->
    (tl_ref a = None \/ tl_ref a = ref) -> (tl_ref b = None \/ tl_ref b = ref) ->
    (lcs_axis a <> None -> is_time_dependent b = true -> tl_ref b = ref) ->
    exists c, add_core a b ref = Ok c /\ valid_t c /\ is_expr c = false /\
      (has_axis a = true -> lcs_axis c = lcs_axis a /\ has_axis c = true) /\
      (lcs_axis a = None -> lcs_axis c = lcs_axis b) /\
      (tl_ref c = if is_some (lcs_axis c) then ref else None) /\
      (is_time_dependent b = true -> lcs_axis c <> None) /\
      (forall ts, lcs_axis a = Some ts -> is_time_dependent b = true \/ lcs_axis b = None \/ lcs_axis b = Some ts ->
         lcs_axis c = Some ts) /\
      forall t, on_axis c t -> posef c t = radd (posef a t) (posef b t).
  Proof.
    intros a b ref Wa Wb Ea Eb Ra Rb C.
    assert (exists pl, tl_pos a = CArr pl) as [pl El] by (unfold is_expr in Ea; destruct (tl_pos a); [ eauto | discriminate ]).
    unfold add_core. destruct (lcs_axis a) as [ts|] eqn:La.
    - destruct (axis_sorted a ts Wa Ea La) as [Sts Nts].
      destruct (interp_time_ok b ts ref Wb Sts Nts) as (r & -> & Wr & Er & Pr & Hr & Hs & Hat).
      { intros D. unfold compatible. rewrite (C ltac:(discriminate) D). reflexivity. }
      cbn [bind]. rewrite El. rewrite Eb in Er. cbn [andb] in Er.
      assert (exists pr, tl_pos r = CArr pr) as [pr Epr] by (unfold is_expr in Er; destruct (tl_pos r); [ eauto | discriminate ]).
      rewrite Epr.
      assert (ax_in ts (tl_ori r) /\ ax_in ts pr) as [A1 A2].
      { destruct (has_axis r) eqn:Q; [ | apply ax_in_none; assumption ]. destruct (Hr eq_refl) as (_ & Q2 & _). apply ax_in_lcs; assumption. }
      assert (ax_in ts (tl_ori a) /\ ax_in ts pl) as [A3 A4].
      { destruct (has_axis a) eqn:Q; [ apply ax_in_lcs; assumption | apply ax_in_none; assumption ]. }
      destruct (combine_ok ts r a pr pl (merge_at (tl_at a) (tl_at r)) ref Wr Wa Epr El A1 A2 A3 A4)
        as (c & -> & Wc & Ec & Hc & Lc & Atc & Rc & Pc).
      exists c. split; [ reflexivity | ]. split; [ assumption | ]. split; [ assumption | ].
      assert (forall H : has_axis a = true, has_axis c = true) as Hac by (intros H; rewrite Hc, H; reflexivity).
      split; [ intros H; split; [ apply Lc | ]; apply Hac, H | ]. split; [ discriminate | ].
      split.
      { rewrite Rc. destruct (has_axis c) eqn:Q; [ rewrite (Lc eq_refl); reflexivity | ].
        rewrite (axis_static c Q Ec), Atc. cbn [orb]. destruct (merge_at _ _); reflexivity. }
      split.
      { intros D. destruct (has_axis c) eqn:Q; [ rewrite (Lc eq_refl); discriminate | ].
        symmetry in Hc. apply orb_false_iff in Hc. destruct Hc as [Ha Hrx].
        rewrite (axis_static a Ha Ea) in La. destruct (tl_at a) as [t0|] eqn:At; [ | discriminate ]. injection La as <-.
        rewrite (axis_static c Q Ec), Atc.
        destruct (Hat Hrx D) as [N|[(w & Ew & N & _)|(w & m & _ & _ & _ & Nw)]]; [ | | exfalso; apply (Nw t0); reflexivity ]; rewrite N; cbn [merge_at];
          [ discriminate | ].
        injection Ew as <-. unfold local_time. rewrite (C ltac:(discriminate) D).
        assert ((match ref with Some a0 => match ref with Some b0 => t0 + b0 - a0 | None => t0 end | None => t0 end) = t0) as ->
          by (destruct ref; lia).
        rewrite Z.eqb_refl. discriminate. }
      split.
      { intros ts' Ets Hb. injection Ets as <-. destruct (has_axis c) eqn:Q; [ apply Lc; reflexivity | ].
        symmetry in Hc. apply orb_false_iff in Hc. destruct Hc as [Ha Hrx].
        rewrite (axis_static a Ha Ea) in La. destruct (tl_at a) as [t0|] eqn:At; [ | discriminate ]. injection La as <-.
        rewrite (axis_static c Q Ec), Atc. destruct (is_time_dependent b) eqn:D.
        - destruct (Hat Hrx eq_refl) as [N|[(w & Ew & N & _)|(w & m & _ & _ & _ & Nw)]]; [ | | exfalso; apply (Nw t0); reflexivity ]; rewrite N; cbn [merge_at];
            [ reflexivity | ].
          injection Ew as <-. unfold local_time. rewrite (C ltac:(discriminate) eq_refl).
          assert ((match ref with Some a0 => match ref with Some b0 => t0 + b0 - a0 | None => t0 end | None => t0 end) = t0) as ->
            by (destruct ref; lia).
          rewrite Z.eqb_refl. reflexivity.
        - rewrite (Hs eq_refl) in *. rewrite (axis_static b Hrx Eb) in Hb. destruct (tl_at b) as [t1|]; [ | reflexivity ].
          destruct Hb as [Hb|[Hb|Hb]]; try discriminate. injection Hb as ->. cbn [merge_at]. rewrite Z.eqb_refl. reflexivity. }
      intros t Ht.
      assert (forall w, local_time b ref w = w \/ is_time_dependent b = false) as Hl.
      { intros w. unfold local_time. destruct (is_time_dependent b) eqn:D; [ | auto ]. left.
        rewrite (C ltac:(discriminate) eq_refl). destruct ref; lia. }
      assert (forall w, In w ts -> posef r w = posef b w) as Hrb.
      { intros w Hw. rewrite Pr by assumption. destruct (Hl w) as [-> | D]; [ reflexivity | ]. apply static_posef. assumption. }
      destruct (has_axis c) eqn:Q.
      + unfold on_axis in Ht. rewrite (Lc eq_refl) in Ht. rewrite Pc by auto. rewrite Hrb by assumption. reflexivity.
      + rewrite Pc by discriminate. symmetry in Hc. apply orb_false_iff in Hc. destruct Hc as [Ha Hrx].
        rewrite (axis_static a Ha Ea) in La. destruct (tl_at a) as [t0|] eqn:At; [ | discriminate ]. injection La as <-.
        assert (posef r t = posef b t) as ->; [ | reflexivity ].
        destruct (is_time_dependent b) eqn:D; [ | rewrite (Hs eq_refl); reflexivity ].
        assert (t = t0) as ->; [ | apply Hrb; left; reflexivity ].
        unfold on_axis in Ht. rewrite (axis_static c Q Ec), Atc in Ht.
        destruct (Hat Hrx eq_refl) as [N|[(w & Ew & N & _)|(w & m & _ & _ & _ & Nw)]]; [ | | exfalso; apply (Nw t0); reflexivity ];
          rewrite N in Ht; cbn [merge_at] in Ht.
        * destruct Ht as [->|[]]; reflexivity.
        * injection Ew as <-. destruct (Hl t0) as [E|E]; [ | discriminate ]. rewrite E, Z.eqb_refl in Ht. destruct Ht as [->|[]]; reflexivity.
    - destruct (axis_none a La Ea) as [Ha At]. cbn [interp_time bind]. rewrite El.
      assert (exists pr, tl_pos b = CArr pr) as [pr Epr] by (unfold is_expr in Eb; destruct (tl_pos b); [ eauto | discriminate ]).
      rewrite Epr.
      set (u := match lcs_axis b with Some ts => ts | None => [] end).
      assert (ax_in u (tl_ori b) /\ ax_in u pr) as [A1 A2].
      { destruct (has_axis b) eqn:Q; [ | apply ax_in_none; assumption ].
        destruct (lcs_axis b) eqn:Lb; [ apply ax_in_lcs; assumption | ]. apply axis_none in Lb; [ | assumption ]. destruct Lb; congruence. }
      destruct (ax_in_none a pl u El Ha) as [A3 A4].
      destruct (combine_ok u b a pr pl (merge_at (tl_at a) (tl_at b)) ref Wb Wa Epr El A1 A2 A3 A4)
        as (c & -> & Wc & Ec & Hc & Lc & Atc & Rc & Pc).
      rewrite At in *. cbn [merge_at] in *. rewrite Ha in Hc. cbn [orb] in Hc.
      assert (lcs_axis c = lcs_axis b) as Lcb.
      { destruct (has_axis c) eqn:Q.
        - rewrite (Lc eq_refl). unfold u. destruct (lcs_axis b) eqn:Lb; [ reflexivity | ]. apply axis_none in Lb; [ | assumption ]. destruct Lb; congruence.
        - rewrite (axis_static c Q Ec), (axis_static b (eq_sym Hc) Eb), Atc. reflexivity. }
      exists c. split; [ reflexivity | ]. split; [ assumption | ]. split; [ assumption | ].
      split; [ congruence | ]. split; [ intros _; assumption | ]. split.
      { rewrite Rc. destruct (has_axis c) eqn:Q; [ rewrite (Lc eq_refl); reflexivity | ].
        rewrite (axis_static c Q Ec), Atc. cbn [orb]. destruct (tl_at b); reflexivity. }
      split.
      { intros D N. rewrite Lcb in N. destruct (axis_none b N Eb) as [Q _]. rewrite dep_axis in D by assumption. congruence. }
      split; [ discriminate | ].
      intros t Ht. apply Pc. intros H. unfold on_axis in Ht. rewrite (Lc H) in Ht. assumption.
  Qed.

  (** ** The sum of two coordinate systems *)
  Definition addable (a b : tlcs) : Prop :=
    lcs_axis a <> None -> is_time_dependent b = true -> tl_ref a <> None -> tl_ref b <> None.

  Lemma tlcs_add_ok : forall a b, valid_t a -> valid_t b -> is_expr a = false -> is_expr b = false -> addable a b ->
    exists c, tlcs_add sl a b = Ok c /\ valid_t c /\ is_expr c = false /\
      (has_axis a = true -> has_axis c = true /\ lcs_axis a = option_map (map (local_time a (tl_ref c))) (lcs_axis c)) /\
      (lcs_axis a = None -> lcs_axis b = option_map (map (local_time b (tl_ref c))) (lcs_axis c)) /\
      (lcs_axis a <> None ->
         is_time_dependent b = true \/ lcs_axis b = None \/
         (exists w, lcs_axis a = Some (map (local_time a (sum_ref (tl_ref a) (tl_ref b))) w) /\
                    lcs_axis b = Some (map (local_time b (sum_ref (tl_ref a) (tl_ref b))) w)) ->
         lcs_axis a = option_map (map (local_time a (tl_ref c))) (lcs_axis c)) /\
      tl_ref c = (if is_some (lcs_axis c) then sum_ref (tl_ref a) (tl_ref b) else None) /\
      forall t, on_axis c t ->
        posef c t = radd (posef a (local_time a (tl_ref c) t)) (posef b (local_time b (tl_ref c) t)).
  Proof.
    intros a b Wa Wb Ea Eb Ad.
    destruct (tlcs_add_core a b Wa Wb Ea Eb) as (a' & b' & -> & Wa' & Wb' & Ea' & Eb' & Da & Db & Ra & Rb & Pa & Pb & Na & Nb & Xa & Xb).
    set (ref := sum_ref (tl_ref a) (tl_ref b)) in *.
    destruct (add_core_ok a' b' ref Wa' Wb' Ea' Eb') as (c & -> & Wc & Ec & L1 & L2 & Rc & Dc & Gc & Pc).
    { rewrite Ra. destruct (tl_ref a); auto. }
    { rewrite Rb. destruct (tl_ref b); auto. }
    { intros H D. rewrite Rb. destruct (tl_ref b) eqn:Q; [ reflexivity | ]. subst ref. destruct (tl_ref a) eqn:Q'; [ | reflexivity ].
      exfalso. apply (Ad ltac:(rewrite Na; assumption) ltac:(congruence)); [ rewrite Q'; discriminate | assumption ]. }
    exists c. split; [ reflexivity | ]. split; [ assumption | ]. split; [ assumption | ].
    assert (Hh : has_axis a' = has_axis a) by (rewrite <- !dep_axis by assumption; assumption).
    split; [ | split; [ | split; [ | split; [ assumption | ] ] ] ].
    - intros Ha. rewrite Hh in L1. destruct (L1 Ha) as [L1' Hc]. clear L1. rename L1' into L1. split; [ assumption | ].
      destruct (lcs_axis a) as [ts|] eqn:La.
      + destruct (Xa ts eq_refl) as (ts' & E1 & E2). rewrite L1 in Rc. rewrite L1, E1 in *. cbn [option_map is_some] in *. rewrite Rc, <- E2. reflexivity.
      + rewrite L1. rewrite (proj1 Na eq_refl). reflexivity.
    - intros La. specialize (L2 (proj1 Na La)). destruct (lcs_axis b) as [ts|] eqn:Lb.
      + destruct (Xb ts eq_refl) as (ts' & E1 & E2). rewrite L2 in Rc. rewrite L2, E1 in *. cbn [option_map is_some] in *. rewrite Rc, <- E2. reflexivity.
      + rewrite L2. rewrite (proj1 Nb eq_refl). reflexivity.
    - intros La Hb. destruct (lcs_axis a) as [ts|] eqn:Qa; [ | contradiction ].
      destruct (Xa ts eq_refl) as (ts' & E1 & E2).
      assert (lcs_axis c = Some ts') as Lc.
      { apply Gc; [ assumption | ]. destruct Hb as [Hb|[Hb|(w & W1 & W2)]].
        - left. congruence.
        - right. left. apply Nb. assumption.
        - right. right. destruct (Xb _ W2) as (ts2 & F1 & F2). rewrite F1. f_equal.
          assert (forall l x y, map (local_time l ref) x = map (local_time l ref) y -> x = y) as Inj.
          { intros l. induction x as [|x xs IH]; intros [|y ys] E; try discriminate; [ reflexivity | ].
            cbn [map] in E. injection E as E0 E. f_equal; [ | apply IH; assumption ].
            unfold local_time in E0. destruct (tl_ref l), ref; lia. }
          apply Inj in F2. injection W1 as W1. rewrite E2 in W1. apply Inj in W1. congruence. }
      rewrite Lc in Rc. rewrite Lc. cbn [option_map is_some] in *. rewrite Rc, <- E2. reflexivity.
    - intros t Ht. rewrite Pc by assumption. rewrite Pa, Pb. rewrite Rc.
      destruct (lcs_axis c) as [w|] eqn:Lc; [ reflexivity | ].
      (* no time left: both are static *)
      destruct (axis_none c Lc Ec) as [Hc _].
      assert (has_axis a = false) as Ha.
      { destruct (has_axis a) eqn:Q; [ | reflexivity ]. rewrite Hh in L1. destruct (L1 eq_refl) as [_ L1']. congruence. }
      rewrite (static_posef a _ (local_time a None t)) by (rewrite dep_axis; assumption).
      destruct (has_axis b) eqn:Q.
      + exfalso. apply Dc; [ rewrite Db, dep_axis by assumption; assumption | reflexivity ].
      + rewrite (static_posef b _ (local_time b None t)) by (rewrite dep_axis; assumption). reflexivity.
  Qed.
End Lcs.
