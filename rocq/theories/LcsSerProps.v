(** Theorems C52: the converter of coordinate systems. *)
From Coq Require Import Reals List ZArith Bool Lia Lra.
From Verif Require Import Base RigidModel RigidSpec RigidFacts InterpModel InterpSpec LinModel LcsTimeModel LcsTimeSpec LcsTimeFacts LcsSerModel LcsSerSpec LcsSerFacts.
Import ListNotations.
Open Scope Z_scope.

Section Oracle.
  Context (sl : segment mat).

  (** a system whose neutral parts are static and exact, and which has no left over
      time, comes back as it was *)
  Theorem c52_round_trip : forall l, valid_t l -> tl_at l = None ->
    (neutral_ori l -> tl_ori l = Const mid) -> (neutral_pos l -> tl_pos l = CArr (Const vzero)) ->
    lcs_from_tree sl (lcs_to_tree l) = Ok l.
  Proof.
    intros l VL AT NO NP. rewrite (from_to sl l VL (tl_ori l) (tl_pos l)).
    - f_equal. pose proof (vt_ref l VL) as RF. destruct l as [o p a r]. cbn [tl_ori tl_pos tl_at tl_ref] in *. subst a.
      change (is_time_dependent (TL o p None r)) with (is_expr (TL o p None r) || has_axis (TL o p None r)) in *.
      destruct (is_expr (TL o p None r) || has_axis (TL o p None r)); [reflexivity|]. rewrite RF; reflexivity.
    - destruct (is_unity_rotation l) eqn:U; [|reflexivity]. apply NO, unity_rotation_iff, U.
    - destruct (is_unity_translation l) eqn:U; [|reflexivity]. apply NP, unity_translation_iff, U.
  Qed.

  Definition moving : tlcs := TL (Const mid) (CArr (Ser [(0, V 1 0 0); (5, V 2 0 0)])) None (Some 7).
  Example ex_c52_round_trip : lcs_from_tree sl (lcs_to_tree moving) = Ok moving.
  Proof.
    apply c52_round_trip; [|reflexivity|reflexivity|].
    - constructor; cbn; try exact Logic.I; try reflexivity; try discriminate; [lia|]. intros m ->. apply orthonormal_mid.
    - intros N. exfalso. assert (E : near_zero (V 1 0 0)) by (apply N; exists 0; left; reflexivity).
      destruct E as [E _]. unfold near0 in E. cbn in E. rewrite Rabs_R1 in E. lra.
  Qed.

  (** loading never fails, and every value of the loaded system is the old one up to
      the tolerance *)
  Theorem c52_values : forall l, valid_t l -> exists l', lcs_from_tree sl (lcs_to_tree l) = Ok l' /\ valid_t l' /\
    (tl_ori l' = tl_ori l \/ (tl_ori l' = Const mid /\ neutral_ori l)) /\
    (tl_pos l' = tl_pos l \/ (tl_pos l' = CArr (Const vzero) /\ neutral_pos l)).
  Proof.
    intros l VL. eexists. split; [apply from_to; [exact VL|reflexivity|reflexivity]|].
    assert (O : (if is_unity_rotation l then Const mid else tl_ori l) = tl_ori l \/ ((if is_unity_rotation l then Const mid else tl_ori l) = Const mid /\ neutral_ori l)).
    { destruct (is_unity_rotation l) eqn:U; [right; split; [reflexivity|apply unity_rotation_iff, U]|left; reflexivity]. }
    assert (P : (if is_unity_translation l then CArr (Const vzero) else tl_pos l) = tl_pos l \/
                ((if is_unity_translation l then CArr (Const vzero) else tl_pos l) = CArr (Const vzero) /\ neutral_pos l)).
    { destruct (is_unity_translation l) eqn:U; [right; split; [reflexivity|apply unity_translation_iff, U]|left; reflexivity]. }
    split; [|split; [exact O|exact P]].
    constructor; cbn [tl_ori tl_pos tl_at tl_ref].
    - destruct (is_unity_rotation l); [exact Logic.I|apply (vt_ori l VL)].
    - destruct (is_unity_translation l); [exact Logic.I|apply (vt_pos l VL)].
    - intros m M. destruct (is_unity_rotation l); [rewrite M; apply orthonormal_mid|apply (vt_orth l VL m M)].
    - pose proof (vt_axis l VL) as AX. destruct (is_unity_rotation l); [exact Logic.I|]. destruct (tl_ori l); [exact Logic.I|].
      destruct (is_unity_translation l); [exact Logic.I|exact AX].
    - reflexivity.
    - intros T _. match goal with |- (if ?c then _ else _) = _ => replace c with false by (symmetry; exact T); reflexivity end.
  Qed.

  (** times and reference time survive exactly if a part with time axis is written *)
  Theorem c52_time : forall l l', valid_t l -> has_axis l = true -> lcs_from_tree sl (lcs_to_tree l) = Ok l' ->
    (lcs_axis l' = lcs_axis l <->
     (is_ser (tl_ori l) = true /\ ~ neutral_ori l) \/ (exists s, tl_pos l = CArr (Ser s) /\ ~ neutral_pos l)) /\
    (tl_ref l' = tl_ref l <-> tl_ref l = None \/ is_time_dependent l' = true).
  Proof.
    intros l l' VL HA E. rewrite (from_to sl l VL _ _ eq_refl eq_refl) in E. injection E as <-. split.
    - unfold lcs_axis at 1. cbn [tl_ori tl_pos tl_at].
      assert (UO : is_unity_rotation l = true <-> neutral_ori l) by apply unity_rotation_iff.
      assert (UP : is_unity_translation l = true <-> neutral_pos l) by apply unity_translation_iff.
      pose proof (vt_axis l VL) as AX.
      destruct (is_unity_rotation l) eqn:U.
      + destruct (is_unity_translation l) eqn:W.
        * split; [|intros [[_ N]|(s & _ & N)]; [destruct N; apply UO; reflexivity|destruct N; apply UP; reflexivity]].
          intros Q. exfalso. unfold has_axis, is_ser in HA. unfold lcs_axis in Q. destruct (tl_ori l) as [m|s]; [|discriminate Q].
          destruct (tl_pos l) as [[v|s]|f]; [discriminate HA|discriminate Q|discriminate HA].
        * destruct (tl_pos l) as [[v|s]|f] eqn:P.
          -- split; [|intros [[_ N]|(s & Q & _)]; [destruct N; apply UO; reflexivity|discriminate]].
             intros Q. exfalso. unfold lcs_axis in Q. unfold has_axis, is_ser in HA. rewrite P in *. destruct (tl_ori l); [discriminate HA|discriminate Q].
          -- split; [|intros _; unfold lcs_axis; rewrite P; destruct (tl_ori l); [reflexivity|rewrite AX; reflexivity]].
             intros _. right. exists s. split; [reflexivity|]. intros N. apply UP in N. discriminate.
          -- split; [|intros [[_ N]|(s & Q & _)]; [destruct N; apply UO; reflexivity|discriminate]].
             intros Q. exfalso. unfold lcs_axis in Q. unfold has_axis, is_ser in HA. rewrite P in *. destruct (tl_ori l); [discriminate HA|discriminate Q].
      + destruct (tl_ori l) as [m|s] eqn:O.
        * destruct (is_unity_translation l) eqn:W.
          -- split; [|intros [[Q _]|(s & _ & N)]; [discriminate|destruct N; apply UP; reflexivity]].
             intros Q. exfalso. unfold lcs_axis in Q. unfold has_axis, is_ser in HA. rewrite O in *. destruct (tl_pos l) as [[v|s]|f]; [discriminate HA|discriminate Q|discriminate HA].
          -- destruct (tl_pos l) as [[v|s]|f] eqn:P.
             ++ unfold has_axis in HA. rewrite O, P in HA. discriminate.
             ++ split; [|intros _; unfold lcs_axis; rewrite O, P; reflexivity]. intros _. right. exists s. split; [reflexivity|]. intros N. apply UP in N. discriminate.
             ++ unfold has_axis in HA. rewrite O, P in HA. discriminate.
        * split; [|intros _; unfold lcs_axis; rewrite O; reflexivity]. intros _. left. split; [reflexivity|]. intros N. apply UO in N. discriminate.
    - cbn [tl_ref]. set (c := is_time_dependent (TL _ _ None (tl_ref l))). match goal with |- _ <-> _ \/ ?x = true => change x with c end.
      destruct c; [tauto|]. split; [intros <-; auto|intros [->|Q]; [reflexivity|discriminate]].
  Qed.

  (** a resting system with a time axis becomes static: the times and the reference
      time are lost *)
  Definition resting : tlcs := TL (Const mid) (CArr (Ser [(0, vzero); (5, vzero)])) None (Some 7).
  Theorem c52_resting_refuted : valid_t resting /\ is_time_dependent resting = true /\
    exists l', lcs_from_tree sl (lcs_to_tree resting) = Ok l' /\ is_time_dependent l' = false /\ lcs_axis l' = None /\ tl_ref l' = None.
  Proof.
    assert (VL : valid_t resting).
    { constructor; cbn.
      - exact Logic.I.
      - cbn. lia.
      - intros m ->. apply orthonormal_mid.
      - exact Logic.I.
      - reflexivity.
      - discriminate. }
    split; [exact VL|]. split; [reflexivity|]. eexists. split; [apply from_to; [exact VL|reflexivity|reflexivity]|].
    assert (Z0 : isclose 0 0 = true) by apply isclose_refl. assert (Z1 : isclose 1 1 = true) by apply isclose_refl.
    assert (U : is_unity_rotation resting = true) by (cbn; rewrite Z0, Z1; reflexivity).
    assert (W : is_unity_translation resting = true) by (cbn; unfold close_zero; cbn; rewrite Z0; reflexivity).
    rewrite U, W. cbn. split; [reflexivity|]. split; reflexivity.
  Qed.

  (** a rotation in place keeps its times, but its coordinates lose the time axis, so
      that the loaded system differs from the saved one *)
  Definition turn : mat := M 0 (-1) 0 1 0 0 0 0 1.
  Definition rotating : tlcs := TL (Ser [(0, mid); (5, turn)]) (CArr (Ser [(0, vzero); (5, vzero)])) None None.
  Theorem c52_rotating_refuted : valid_t rotating /\
    lcs_from_tree sl (lcs_to_tree rotating) = Ok (TL (Ser [(0, mid); (5, turn)]) (CArr (Const vzero)) None None).
  Proof.
    assert (VL : valid_t rotating).
    { constructor; cbn.
      - cbn. lia.
      - cbn. lia.
      - intros m (t & [E|[E|[]]]); injection E as <- <-; [apply orthonormal_mid|]. apply orthonormal_iff. unfold turn, mtrans, mmul, mid. cbn. f_equal; lra.
      - reflexivity.
      - reflexivity.
      - discriminate. }
    split; [exact VL|]. rewrite (from_to sl rotating VL _ _ eq_refl eq_refl).
    assert (Z0 : isclose 0 0 = true) by apply isclose_refl. assert (Z1 : isclose 1 1 = true) by apply isclose_refl.
    assert (F : isclose 0 1 = false).
    { unfold isclose. destruct (Rle_dec _ _) as [L|L]; [|reflexivity]. exfalso. replace (0 - 1)%R with (-1)%R in L by lra. rewrite Rabs_Ropp in L || idtac.
      rewrite (Rabs_left (-1)) in L by lra. rewrite (Rabs_right 1) in L by lra. lra. }
    assert (U : is_unity_rotation rotating = false) by (cbn; rewrite Z0, Z1, F; reflexivity).
    assert (W : is_unity_translation rotating = true) by (cbn; unfold close_zero; cbn; rewrite Z0; reflexivity).
    rewrite U, W. reflexivity.
  Qed.

  (** displacements below 1e-8 of whatever unit vanish *)
  Theorem c52_small_refuted : forall x, (0 < x <= / 100000000)%R ->
    lcs_from_tree sl (lcs_to_tree (TL (Const mid) (CArr (Const (V x 0 0))) None None)) = Ok (TL (Const mid) (CArr (Const vzero)) None None).
  Proof.
    intros x X. set (l := TL _ _ _ _). assert (VL : valid_t l).
    { constructor; cbn; try exact Logic.I; try reflexivity. - intros m ->. apply orthonormal_mid. }
    rewrite (from_to sl l VL _ _ eq_refl eq_refl).
    assert (Z0 : isclose 0 0 = true) by apply isclose_refl. assert (Z1 : isclose 1 1 = true) by apply isclose_refl.
    assert (ZX : isclose x 0 = true).
    { unfold isclose. destruct (Rle_dec _ _) as [L|L]; [reflexivity|]. exfalso. apply L. rewrite Rminus_0_r, Rabs_R0, Rabs_right by lra. lra. }
    assert (U : is_unity_rotation l = true) by (cbn; rewrite Z0, Z1; reflexivity).
    assert (W : is_unity_translation l = true) by (cbn; unfold close_zero; cbn; rewrite Z0, ZX; reflexivity).
    rewrite U, W. reflexivity.
  Qed.

  (** a static system with a left over time is loaded without time and reference
      time *)
  Theorem c52_left_over_refuted : forall v t r, ~ near_zero v -> exists l',
    lcs_from_tree sl (lcs_to_tree (TL (Const mid) (CArr (Const v)) (Some t) (Some r))) = Ok l' /\ lcs_axis l' = None /\ tl_ref l' = None.
  Proof.
    intros v t r N. set (l := TL _ _ _ _). assert (VL : valid_t l).
    { constructor; cbn; try exact Logic.I; try reflexivity; try discriminate. - intros m ->. apply orthonormal_mid. }
    eexists. split; [apply from_to; [exact VL|reflexivity|reflexivity]|].
    assert (Z0 : isclose 0 0 = true) by apply isclose_refl. assert (Z1 : isclose 1 1 = true) by apply isclose_refl.
    assert (U : is_unity_rotation l = true) by (cbn; rewrite Z0, Z1; reflexivity).
    assert (W : is_unity_translation l = false) by (apply not_true_is_false; intros W; apply N, close_zero_iff, W).
    rewrite U, W. cbn. split; reflexivity.
  Qed.

  (** systems with an expression keep it, with the reference time *)
  Theorem c52_expression : forall l f, valid_t l -> tl_pos l = CExpr f -> exists l',
    lcs_from_tree sl (lcs_to_tree l) = Ok l' /\ tl_pos l' = CExpr f /\ tl_ref l' = tl_ref l /\ is_time_dependent l' = true.
  Proof.
    intros l f VL P. eexists. split; [apply from_to; [exact VL|reflexivity|reflexivity]|].
    assert (W : is_unity_translation l = false) by (unfold is_unity_translation; rewrite P; reflexivity).
    rewrite W, P. cbn. auto.
  Qed.

  (** several orientations without times, or with another number of times, are
      refused; and so are several coordinates *)
  Definition no_times_for {A : Type} (x : list A) (t : ltree) : Prop :=
    match lt_time t with
    | Some ts => length ts <> length x
    | None => lt_ref t = None \/ length x <> 1%nat
    end.
  Theorem c52_refuses : forall t,
    (forall ms, lt_ori t = Some (Many ms) -> no_times_for ms t -> lcs_from_tree sl t = Err ValueError) /\
    (forall vs, lt_ori t = None -> lt_pos t = Some (PPlain (Many vs)) -> no_times_for vs t -> lcs_from_tree sl t = Err ValueError).
  Proof.
    assert (Q : forall (A : Type) (x : list A) t, no_times_for x t ->
              with_time (Many x) (match lt_time t, lt_ref t with Some ts, _ => Some ts | None, Some _ => Some [0] | None, None => None end) = Err ValueError).
    { intros A x t N. unfold no_times_for in N. destruct (lt_time t) as [ts|]; cbn.
      - replace (Nat.eqb (length x) (length ts)) with false by (symmetry; apply Nat.eqb_neq; auto). reflexivity.
      - destruct (lt_ref t); [|reflexivity]. destruct N as [N|N]; [discriminate|]. cbn.
        replace (Nat.eqb (length x) 1) with false by (symmetry; apply Nat.eqb_neq; auto). reflexivity. }
    intros t. split; [intros ms O N|intros vs O P N]; unfold lcs_from_tree; rewrite O.
    - rewrite Q by exact N. reflexivity.
    - rewrite P. cbn [bind]. rewrite Q by exact N. reflexivity.
  Qed.
  Example ex_c52_refuses : lcs_from_tree sl (LTree None (Some (PPlain (Many [vzero; V 1 0 0]))) None None) = Err ValueError.
  Proof. apply (proj2 (c52_refuses _) [vzero; V 1 0 0]); [reflexivity|reflexivity|left; reflexivity]. Qed.
End Oracle.
Print Assumptions c52_refuses.
Print Assumptions c52_round_trip.
Print Assumptions c52_values.
Print Assumptions c52_time.
Print Assumptions c52_resting_refuted.
Print Assumptions c52_rotating_refuted.
Print Assumptions c52_small_refuted.
Print Assumptions c52_left_over_refuted.
Print Assumptions c52_expression.
