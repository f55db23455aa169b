(** Lemmas for C52. *)
From Coq Require Import Reals List ZArith Bool Lia Lra.
From Verif Require Import Base RigidModel RigidSpec RigidFacts InterpModel InterpSpec LinModel LcsTimeModel LcsTimeSpec LcsTimeFacts LcsSerModel LcsSerSpec.
Import ListNotations.
Open Scope Z_scope.

Lemma all_elements_iff : forall (A : Type) (f : A -> bool) x, all_elements f x = true <-> forall a, elements x a -> f a = true.
Proof.
  intros A f [a|s]; cbn.
  - split; [intros E b ->; exact E|intros H; apply H; reflexivity].
  - rewrite forallb_forall. split; [intros H a (t & I); apply (H (t, a) I)|intros H [t a] I; apply H; exists t; exact I].
Qed.
Lemma isclose0 : forall x, isclose x 0 = true <-> near0 x.
Proof.
  intros x. unfold isclose, near0. rewrite Rminus_0_r, Rabs_R0, Rmult_0_r, Rplus_0_r.
  destruct (Rle_dec _ _); split; intros H; try assumption; try reflexivity; [discriminate|contradiction].
Qed.
Lemma isclose1 : forall x, isclose x 1 = true <-> near1 x.
Proof.
  intros x. unfold isclose, near1. rewrite Rabs_R1, Rmult_1_r.
  destruct (Rle_dec _ _); split; intros H; try assumption; try reflexivity; [discriminate|contradiction].
Qed.
Lemma close_zero_iff : forall v, close_zero v = true <-> near_zero v.
Proof. intros v. unfold close_zero, near_zero. rewrite !andb_true_iff, !isclose0. tauto. Qed.
Lemma close_mid_iff : forall m, close_mid m = true <-> near_identity m.
Proof. intros m. unfold close_mid, near_identity. cbn [forallb fst snd]. rewrite !andb_true_iff, !isclose0, !isclose1. tauto. Qed.
Lemma unity_rotation_iff : forall l, is_unity_rotation l = true <-> neutral_ori l.
Proof.
  intros l. unfold is_unity_rotation, neutral_ori. rewrite all_elements_iff.
  split; intros H m M; apply close_mid_iff; apply H; exact M.
Qed.
Lemma unity_translation_iff : forall l, is_unity_translation l = true <-> neutral_pos l.
Proof.
  intros l. unfold is_unity_translation, neutral_pos. destruct (tl_pos l); [|split; [discriminate|contradiction]].
  rewrite all_elements_iff. split; intros H m M; apply close_zero_iff; apply H; exact M.
Qed.
Lemma combine_map : forall (A : Type) (s : samples A), combine (map fst s) (map snd s) = s.
Proof. induction s as [|[t a] r IH]; [reflexivity|]. cbn. rewrite IH. reflexivity. Qed.
Lemma with_time_const : forall (A : Type) (a : A) time, with_time (to_plain (Const a)) time = Ok (Const a).
Proof. reflexivity. Qed.
Lemma with_time_ser : forall (A : Type) (s : samples A), with_time (to_plain (Ser s)) (Some (map fst s)) = Ok (Ser s).
Proof. intros A s. cbn. rewrite !map_length, Nat.eqb_refl, combine_map. reflexivity. Qed.

Section Oracle.
  Context (sl : segment mat).

  (** what is loaded: the parts that were written, and neutral ones for the others *)
  Lemma from_to : forall l, valid_t l -> forall o p,
    o = (if is_unity_rotation l then Const mid else tl_ori l) ->
    p = (if is_unity_translation l then CArr (Const vzero) else tl_pos l) ->
    lcs_from_tree sl (lcs_to_tree l) = Ok (TL o p None (if is_time_dependent (TL o p None (tl_ref l)) then tl_ref l else None)).
  Proof.
    intros l VL o p -> ->. unfold lcs_from_tree, lcs_to_tree. cbn [lt_ori lt_pos lt_time lt_ref].
    set (time := match lcs_axis l with Some ts => Some ts | None => match tl_ref l with Some _ => Some [0] | None => None end end).
    replace (match lcs_axis l, tl_ref l with Some ts, _ => Some ts | None, Some _ => Some [0] | None, None => None end) with time by reflexivity.
    assert (O : match (if is_unity_rotation l then None else Some (to_plain (tl_ori l))) with None => Ok (Const mid) | Some x => with_time x time end
                = Ok (if is_unity_rotation l then Const mid else tl_ori l)).
    { destruct (is_unity_rotation l); [reflexivity|]. destruct (tl_ori l) as [m|s] eqn:E; [reflexivity|].
      unfold time, lcs_axis. rewrite E. apply with_time_ser. }
    rewrite O. cbn [bind].
    assert (P : match (match tl_pos l with CExpr f => Some (PExpr f) | CArr x => if is_unity_translation l then None else Some (PPlain (to_plain x)) end) with
                | None => Ok (CArr (Const vzero)) | Some (PExpr f) => Ok (CExpr f) | Some (PPlain x) => bind (with_time x time) (fun a => Ok (CArr a)) end
                = Ok (if is_unity_translation l then CArr (Const vzero) else tl_pos l)).
    { unfold is_unity_translation. destruct (tl_pos l) as [x|f] eqn:E; [|reflexivity]. destruct (all_elements close_zero x); [reflexivity|].
      destruct x as [v|s]; [reflexivity|]. unfold time, lcs_axis. rewrite E. pose proof (vt_axis l VL) as AX. rewrite E in AX.
      destruct (tl_ori l) as [m|so]; [rewrite with_time_ser; reflexivity|]. rewrite AX, with_time_ser. reflexivity. }
    rewrite P. cbn [bind]. rewrite mk_tlcs_ok.
    - rewrite orb_false_r. destruct (has_axis _); reflexivity.
    - intros m M. destruct (is_unity_rotation l); [rewrite M; apply orthonormal_mid|apply (vt_orth l VL m M)].
    - pose proof (vt_axis l VL) as AX. destruct (is_unity_rotation l); [exact Logic.I|]. destruct (tl_ori l) as [m|s]; [exact Logic.I|].
      destruct (is_unity_translation l); [exact Logic.I|exact AX].
  Qed.

End Oracle.
