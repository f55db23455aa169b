(** Lemmas about the interpolation algorithm. *)
From Coq Require Import List ZArith Bool Lia Sorting.Sorted.
From Verif Require Import Base InterpModel InterpSpec.
Import ListNotations.
Open Scope Z_scope.

Lemma insert_time_In : forall t l x, In x (insert_time t l) <-> x = t \/ In x l.
Proof.
  intros t l x. induction l as [|u r IH]; cbn [insert_time].
  - cbn. intuition.
  - destruct (Z.ltb_spec t u); [ cbn; intuition | ].
    destruct (Z.eqb_spec t u) as [->|]; [ cbn; intuition | ].
    cbn [In]. rewrite IH. intuition.
Qed.

Lemma insert_time_sorted : forall t l, StronglySorted Z.lt l -> StronglySorted Z.lt (insert_time t l).
Proof.
  intros t l H. induction H as [|u r H IH F]; cbn [insert_time].
  - repeat constructor.
  - destruct (Z.ltb_spec t u).
    + constructor; [ constructor; assumption | ]. constructor; [ assumption | ].
      eapply Forall_impl; [ | exact F ]. cbn. intros. lia.
    + destruct (Z.eqb_spec t u); [ constructor; assumption | ].
      constructor; [ assumption | ]. rewrite Forall_forall in *. intros x Hx.
      apply insert_time_In in Hx. destruct Hx as [->|Hx]; [ lia | auto ].
Qed.

Lemma union_times_In : forall a b x, In x (union_times a b) <-> In x a \/ In x b.
Proof.
  intros a b x. unfold union_times. rewrite <- in_app_iff. generalize (a ++ b) as l.
  induction l as [|u r IH]; cbn [fold_right]; [ reflexivity | ].
  rewrite insert_time_In, IH. cbn. intuition.
Qed.

Lemma union_times_sorted : forall a b, StronglySorted Z.lt (union_times a b).
Proof.
  intros a b. unfold union_times. generalize (a ++ b) as l.
  induction l as [|u r IH]; cbn [fold_right]; [ constructor | ].
  apply insert_time_sorted. assumption.
Qed.

Section Facts.
  Context {A : Type}.
  Implicit Types (s : list (Z * A)) (seg : segment A).

  (** ** The value function *)
  Fixpoint fv (seg : segment A) (t0 : Z) (a : A) (r : list (Z * A)) (t : Z) : A :=
    if t <=? t0 then a
    else match r with
         | [] => a
         | (t1, b) :: r' => if t <=? t1 then seg t0 t1 a b t else fv seg t1 b r' t
         end.
  Definition fval (seg : segment A) s (d : A) (t : Z) : A :=
    match s with [] => d | (t0, a) :: r => fv seg t0 a r t end.

  Lemma sampled_tail : forall p q r, sampled (p :: q :: r : list (Z * A)) -> sampled (q :: r).
  Proof. intros [t0 a] [t1 b] r H. cbn in *. apply H. Qed.

  Lemma increasing_In : forall s t, increasing_from t s -> forall u a, In (u, a) s -> t < u.
  Proof.
    induction s as [|[u a] r IH]; intros t H u' a' Hi; [ destruct Hi | ].
    cbn in H. destruct H as [H1 H2]. destruct Hi as [E|Hi].
    - injection E as -> ->. assumption.
    - specialize (IH _ H2 _ _ Hi). lia.
  Qed.

  Lemma fv_left : forall seg t0 a r t, t <= t0 -> fv seg t0 a r t = a.
  Proof. intros seg t0 a r t H. destruct r; cbn [fv]; destruct (Z.leb_spec t t0); (reflexivity || lia). Qed.

  Lemma fv_step : forall seg t0 a t1 b r t, exact_seg seg -> t0 < t1 -> t1 <= t ->
    fv seg t0 a ((t1, b) :: r) t = fv seg t1 b r t.
  Proof.
    intros seg t0 a t1 b r t X H1 H2. cbn [fv]. destruct (Z.leb_spec t t0); [ lia | ].
    destruct (Z.leb_spec t t1); [ | destruct r; reflexivity ].
    assert (t = t1) by lia. subst. rewrite fv_left by lia. apply X. assumption.
  Qed.

  Lemma neighbours_head : forall (p q : Z * A) r, neighbours (p :: q :: r) p q.
  Proof. intros p q r. exists [], r. reflexivity. Qed.
  Lemma neighbours_cons : forall (x : Z * A) s p q, neighbours s p q -> neighbours (x :: s) p q.
  Proof. intros x s p q (l & r & ->). exists (x :: l), r. reflexivity. Qed.
  Lemma neighbours_inv : forall (x : Z * A) s p q, neighbours (x :: s) p q ->
    (x = p /\ exists r, s = q :: r) \/ neighbours s p q.
  Proof.
    intros x s p q ([|y l] & r & E); cbn in E; injection E as -> ->.
    - left. eauto.
    - right. exists l, r. reflexivity.
  Qed.

  Lemma neighbours_lt : forall s p q, sampled s -> neighbours s p q -> fst p < fst q.
  Proof.
    induction s as [|x s IH]; intros p q H N.
    - destruct N as ([|? ?] & ? & E); discriminate.
    - apply neighbours_inv in N. destruct N as [(-> & r & ->)|N].
      + destruct p, q. cbn in *. apply H.
      + destruct s as [|y s]; [ destruct N as ([|? ?] & ? & E); discriminate | ].
        apply IH; [ eapply sampled_tail; eassumption | assumption ].
  Qed.

  Lemma value_at_cons : forall seg t0 a t1 b r t v, t1 <= t ->
    value_at seg ((t1, b) :: r) t v -> exact_seg seg -> t0 < t1 -> value_at seg ((t0, a) :: (t1, b) :: r) t v.
  Proof.
    intros seg t0 a t1 b r t v H V X L. destruct V as [u q E Hu|u l E Hu|u w c d N Hu E].
    - injection E as E1 E2 E3. subst u v q. assert (t = t1) by lia. subst.
      eapply va_between; [ apply neighbours_head | lia | ]. symmetry. apply X. assumption.
    - eapply (va_after _ _ _ _ u ((t0, a) :: l)); [ rewrite E; reflexivity | assumption ].
    - eapply va_between; [ apply neighbours_cons; eassumption | assumption | assumption ].
  Qed.

  Lemma fval_value_at : forall seg s d t, exact_seg seg -> sampled s -> value_at seg s t (fval seg s d t).
  Proof.
    intros seg s d t X. destruct s as [|[t0 a] r]; [ intros [] | ]. cbn [fval]. revert t0 a.
    induction r as [|[t1 b] r IH]; intros t0 a S.
    - cbn [fv]. destruct (Z.leb_spec t t0).
      + eapply va_before; [ reflexivity | assumption ].
      + apply (va_after _ _ _ _ t0 []); [ reflexivity | lia ].
    - assert (S' := S). cbn in S'. destruct S' as [S1 S2].
      destruct (Z.leb_spec t t0) as [L|L].
      + rewrite fv_left by assumption. eapply va_before; [ reflexivity | assumption ].
      + destruct (Z.leb_spec t t1) as [L'|L'].
        * eapply va_between; [ apply neighbours_head | lia | ]. cbn [fv].
          destruct (Z.leb_spec t t0); [ lia | ]. destruct (Z.leb_spec t t1); [ reflexivity | lia ].
        * rewrite fv_step by (assumption || lia).
          apply value_at_cons; [ lia | | assumption | assumption ]. apply IH. assumption.
  Qed.

  Lemma fv_last : forall seg l t1 v t0 a r t, exact_seg seg -> increasing_from t0 r ->
    (t0, a) :: r = l ++ [(t1, v)] -> t1 <= t -> fv seg t0 a r t = v.
  Proof.
    induction l as [|x l IH]; intros t1 v t0 a r t X S E H; cbn in E.
    - injection E as -> -> ->. cbn [fv]. destruct (t <=? t1); reflexivity.
    - injection E as <- ->. destruct l as [|[u c] l].
      + cbn [app] in *. cbn in S. destruct S as [S _]. rewrite fv_step by (assumption || lia).
        cbn [fv]. destruct (t <=? t1); reflexivity.
      + cbn in S. destruct S as [S1 S2]. cbn [app].
        assert (u <= t1) as L.
        { destruct l as [|y l]; cbn in *.
          - destruct S2. lia.
          - assert (In (t1, v) (y :: l ++ [(t1, v)])) as Hi by (right; apply in_or_app; right; left; reflexivity).
            apply (increasing_In (y :: l ++ [(t1, v)]) u S2) in Hi. lia. }
        rewrite fv_step by (assumption || lia). eapply IH; [ assumption | exact S2 | reflexivity | assumption ].
  Qed.

  Lemma value_at_fval : forall seg s d t v, exact_seg seg -> sampled s -> value_at seg s t v ->
    fval seg s d t = v.
  Proof.
    intros seg s d t v X S V. destruct V as [u q E Hu|u l E Hu|u w c e N Hu E].
    - subst s. cbn [fval]. apply fv_left. assumption.
    - destruct s as [|[t0 a] r]; [ destruct S | ]. cbn [fval sampled] in *.
      eapply fv_last; eassumption.
    - destruct s as [|[t0 a] r]; [ destruct S | ]. cbn [fval sampled] in *. revert t0 a S N.
      induction r as [|[t1 b] r IH]; intros t0 a S N.
      + apply neighbours_inv in N. destruct N as [(_ & r & E')|([|? ?] & ? & E')]; discriminate.
      + destruct S as [S1 S2]. apply neighbours_inv in N. destruct N as [(E1 & q & E2)|N].
        * injection E1 as -> ->. injection E2 as -> -> ->.
          destruct (Z.leb_spec t u) as [L|L].
          -- assert (t = u) by lia. subst. rewrite fv_left by lia. symmetry. apply X. assumption.
          -- cbn [fv]. destruct (Z.leb_spec t u); [ lia | ]. destruct (Z.leb_spec t w); [ auto | lia ].
        * assert (t1 <= u) as L.
          { apply neighbours_inv in N. destruct N as [(E1 & _)|N]; [ injection E1 as -> ->; lia | ].
            destruct N as (l & q & Eq). assert (In (u, c) r) as Hi by (rewrite Eq; apply in_or_app; right; left; reflexivity).
            apply (increasing_In _ _ S2) in Hi. lia. }
          rewrite fv_step by (assumption || lia). apply IH; assumption.
  Qed.

  Lemma value_at_iff : forall seg s d t v, exact_seg seg -> sampled s ->
    (value_at seg s t v <-> fval seg s d t = v).
  Proof.
    intros seg s d t v X S. split; [ apply value_at_fval; assumption | ].
    intros <-. apply fval_value_at; assumption.
  Qed.

  Lemma value_at_fun : forall seg s t v v', exact_seg seg -> sampled s ->
    value_at seg s t v -> value_at seg s t v' -> v = v'.
  Proof.
    intros seg s t v v' X S H H'.
    rewrite <- (value_at_fval seg s v t v X S H), <- (value_at_fval seg s v t v' X S H'). reflexivity.
  Qed.

  Lemma fv_sample : forall seg r t0 a t b, exact_seg seg -> increasing_from t0 r ->
    In (t, b) ((t0, a) :: r) -> fv seg t0 a r t = b.
  Proof.
    intros seg. induction r as [|[t1 c] r IH]; intros t0 a t b X S H.
    - destruct H as [E|[]]. injection E as -> ->. apply fv_left. lia.
    - cbn in S. destruct S as [S1 S2]. destruct H as [E|H].
      + injection E as -> ->. apply fv_left. lia.
      + assert (t1 <= t) as L.
        { destruct H as [E|H]; [ injection E as -> ->; lia | ]. apply (increasing_In _ _ S2) in H. lia. }
        rewrite fv_step by assumption. apply IH; assumption.
  Qed.

  Lemma fval_sample : forall seg s d t b, exact_seg seg -> sampled s -> In (t, b) s -> fval seg s d t = b.
  Proof. intros seg [|[t0 a] r] d t b X S H; [ destruct S | ]. apply fv_sample; assumption. Qed.

  (** a property that is kept by the interpolation holds for all values *)
  Lemma fv_closed : forall seg (P : A -> Prop), (forall t0 t1 a b t, t0 < t1 -> t0 <= t <= t1 -> P a -> P b -> P (seg t0 t1 a b t)) ->
    forall r t0 a t, increasing_from t0 r -> P a -> (forall u b, In (u, b) r -> P b) -> P (fv seg t0 a r t).
  Proof.
    intros seg P C. induction r as [|[t1 b] r IH]; intros t0 a t S Pa Pr; cbn [fv].
    - destruct (t <=? t0); assumption.
    - destruct S as [S1 S2]. destruct (Z.leb_spec t t0); [ assumption | ].
      assert (P b) by (eapply Pr; left; reflexivity).
      destruct (Z.leb_spec t t1); [ apply C; (assumption || lia) | ].
      apply IH; [ assumption | assumption | ]. intros u c H'. eapply Pr. right. eassumption.
  Qed.

  Lemma fval_closed : forall seg (P : A -> Prop), (forall t0 t1 a b t, t0 < t1 -> t0 <= t <= t1 -> P a -> P b -> P (seg t0 t1 a b t)) ->
    forall s d t, sampled s -> (forall u b, In (u, b) s -> P b) -> P (fval seg s d t).
  Proof.
    intros seg P C [|[t0 a] r] d t S H; [ destruct S | ]. cbn [fval]. apply fv_closed; [ assumption | exact S | | ].
    - eapply H. left. reflexivity.
    - intros u b Hi. eapply H. right. eassumption.
  Qed.

  (** ** Edges *)
  Lemma last_time_default : forall s d d', s <> [] -> last_time s d = last_time s d'.
  Proof. intros [|[t a] r] d d' H; [ contradiction | reflexivity ]. Qed.

  Lemma last_time_In : forall s, s <> [] -> exists a l, s = l ++ [(last_time s 0, a)].
  Proof.
    induction s as [|[t a] r IH]; intros H; [ contradiction | ]. destruct r as [|p r].
    - exists a, []. reflexivity.
    - destruct IH as (b & l & E); [ discriminate | ]. exists b, ((t, a) :: l).
      cbn [app]. rewrite E at 1. destruct p as [t1 c]. reflexivity.
  Qed.

  Lemma last_time_ge : forall s u a d, sampled s -> In (u, a) s -> u <= last_time s d.
  Proof.
    intros s u a d. induction s as [|[t b] r IH]; intros S H; [ destruct H | ].
    destruct r as [|[t1 c] r].
    - destruct H as [E|[]]. injection E as -> ->. cbn. lia.
    - assert (S' := sampled_tail _ _ _ S). change (last_time ((t, b) :: (t1, c) :: r) d) with (last_time ((t1, c) :: r) t).
      rewrite (last_time_default _ t d) by discriminate. destruct H as [E|H]; [ | apply IH; assumption ].
      injection E as -> ->. cbn in S. assert (t1 <= last_time ((t1, c) :: r) d); [ | lia ].
      cbn [last_time]. clear -S'. cbn in S'. revert t1 c S'. induction r as [|[t2 e] r IH]; intros t1 c S; [ cbn; lia | ].
      cbn in *. destruct S as [S1 S2]. specialize (IH _ c S2). lia.
  Qed.

  Lemma first_time_le : forall s u a d, sampled s -> In (u, a) s -> first_time s d <= u.
  Proof.
    intros [|[t b] r] u a d S H; [ destruct H | ]. cbn in *. destruct H as [E|H].
    - injection E as -> ->. lia.
    - apply (increasing_In _ _ S) in H. lia.
  Qed.

  Lemma fval_after : forall seg s d t, exact_seg seg -> sampled s -> last_time s 0 <= t ->
    fval seg s d t = fval seg s d (last_time s 0).
  Proof.
    intros seg s d t X S H. assert (s <> []) as N by (intros ->; destruct S).
    destruct (last_time_In s N) as (a & l & E).
    transitivity a; [ | symmetry ]; apply value_at_fval; try assumption.
    - eapply va_after; [ exact E | assumption ].
    - eapply va_after; [ exact E | lia ].
  Qed.

  Lemma fval_before : forall seg s d t, t <= first_time s 0 -> fval seg s d t = fval seg s d (first_time s 0).
  Proof. intros seg [|[t0 a] r] d t H; [ reflexivity | ]. cbn in *. rewrite !fv_left by lia. reflexivity. Qed.

  (** ** The raw interpolation *)
  Lemma interp_raw_cons : forall seg t0 a t1 b r t, t0 < t1 -> t1 < t -> r <> [] \/ t <= t1 ->
    interp_raw seg ((t0, a) :: (t1, b) :: r) t = interp_raw seg ((t1, b) :: r) t.
  Proof.
    intros seg t0 a t1 b r t H1 H2 [Hr|Hr]; [ | lia ]. unfold interp_raw.
    change (last_time ((t0, a) :: (t1, b) :: r) t) with (last_time ((t1, b) :: r) t0).
    rewrite (last_time_default ((t1, b) :: r) t0 t) by discriminate.
    cbn [first_time]. destruct (Z.ltb_spec t t0); [ lia | ]. destruct (Z.ltb_spec t t1); [ lia | ].
    cbn [orb]. destruct (last_time ((t1, b) :: r) t <? t); [ reflexivity | ].
    cbn [count_before]. destruct (Z.ltb_spec t0 t); [ | lia ]. destruct (Z.ltb_spec t1 t); [ | lia ].
    cbn [List.length]. set (n := count_before r t). destruct r as [|p r]; [ contradiction | ].
    cbn [List.length]. set (k := List.length r).
    assert (Nat.max 1 (Nat.min (S (S n)) (S (S (S k)) - 1)) = S (Nat.max 1 (Nat.min (S n) (S (S k) - 1)))) as ->.
    { replace (S (S (S k)) - 1)%nat with (S (S k)) by lia. replace (S (S k) - 1)%nat with (S k) by lia. lia. }
    set (h := Nat.max 1 (Nat.min (S n) (S (S k) - 1))). assert (1 <= h)%nat by (subst h; lia).
    replace (S h - 1)%nat with (S (h - 1)) by lia. reflexivity.
  Qed.

  Lemma interp_raw_ok : forall seg s d t, exact_seg seg -> sampled s -> (2 <= List.length s)%nat ->
    first_time s 0 <= t <= last_time s 0 -> interp_raw seg s t = Some (fval seg s d t).
  Proof.
    intros seg s d t X. destruct s as [|[t0 a] r]; [ intros [] | ]. revert t0 a.
    induction r as [|[t1 b] r IH]; intros t0 a S L H; [ cbn in L; lia | ].
    assert (S' := S). cbn in S'. destruct S' as [S1 S2]. cbn [fval].
    change (last_time ((t0, a) :: (t1, b) :: r) 0) with (last_time ((t1, b) :: r) t0) in H.
    rewrite (last_time_default ((t1, b) :: r) t0 0) in H by discriminate. cbn [first_time] in H.
    destruct (Z.leb_spec t t1) as [Lt|Lt].
    - unfold interp_raw. cbn [first_time]. destruct (Z.ltb_spec t t0); [ lia | ].
      change (last_time ((t0, a) :: (t1, b) :: r) t) with (last_time ((t1, b) :: r) t0).
      rewrite (last_time_default ((t1, b) :: r) t0 0) by discriminate.
      destruct (Z.ltb_spec (last_time ((t1, b) :: r) 0) t); [ lia | ]. cbn [orb].
      assert (Nat.max 1 (Nat.min (count_before ((t0, a) :: (t1, b) :: r) t) (List.length ((t0, a) :: (t1, b) :: r) - 1)) = 1%nat) as ->.
      { cbn [count_before]. destruct (Z.ltb_spec t1 t); [ lia | ]. destruct (t0 <? t); cbn [List.length]; lia. }
      cbn [Nat.sub nth_error]. f_equal. destruct (Z.leb_spec t t0) as [Le|Le].
      + assert (t = t0) by lia. subst. rewrite fv_left by lia. apply X. assumption.
      + cbn [fv]. destruct (Z.leb_spec t t0); [ lia | ]. destruct (Z.leb_spec t t1); [ reflexivity | lia ].
    - assert (r <> []) as Hr by (intros ->; cbn in H; lia).
      rewrite interp_raw_cons by (lia || auto). rewrite fv_step by (assumption || lia).
      apply IH; [ assumption | destruct r; [ contradiction | cbn; lia ] | cbn [first_time]; lia ].
  Qed.

  Lemma interp_raw_out : forall seg s t, s <> [] -> t < first_time s 0 \/ last_time s 0 < t -> interp_raw seg s t = None.
  Proof.
    intros seg s t N H. unfold interp_raw.
    assert (first_time s t = first_time s 0) as -> by (destruct s as [|[? ?] ?]; [ contradiction | reflexivity ]).
    rewrite (last_time_default s t 0) by assumption.
    destruct (Z.ltb_spec t (first_time s 0)), (Z.ltb_spec (last_time s 0) t); cbn [orb]; (reflexivity || lia).
  Qed.

  (** ** Filling *)
  Lemma bfill_map : forall (raw : Z -> option A) f ts, StronglySorted Z.lt ts -> In f ts ->
    (forall t, t < f -> raw t = None) ->
    (forall t t', f <= t -> t <= t' -> raw t = None -> raw t' = None) ->
    bfill (map raw ts) = map (fun t => if t <? f then raw f else raw t) ts.
  Proof.
    intros raw f ts S Hf Hlow Hup.
    assert (forall ts, StronglySorted Z.lt ts -> Forall (fun t => f <= t) ts -> bfill (map raw ts) = map raw ts) as Hid.
    { induction ts0 as [|t r IH]; intros S0 F; [ reflexivity | ]. inversion S0 as [|? ? S1 F1]; subst.
      inversion F as [|? ? F2 F3]; subst. cbn [map bfill]. rewrite (IH S1 F3).
      destruct (raw t) eqn:E; [ destruct (map raw r); reflexivity | ].
      destruct r as [|t' r]; [ reflexivity | ]. cbn [map]. f_equal.
      inversion F1; subst. rewrite (Hup t t'); (reflexivity || lia || assumption). }
    assert (forall ts, Forall (fun t => f <= t) ts -> map raw ts = map (fun t => if t <? f then raw f else raw t) ts) as Hm.
    { intros l F. apply map_ext_in. intros t Ht. rewrite Forall_forall in F. specialize (F t Ht).
      destruct (Z.ltb_spec t f); [ lia | reflexivity ]. }
    induction ts as [|t r IH]; [ destruct Hf | ]. inversion S as [|? ? S1 F1]; subst.
    destruct (Z.ltb_spec t f) as [L|L].
    - destruct Hf as [->|Hf]; [ lia | ]. specialize (IH S1 Hf). cbn [map bfill]. rewrite IH.
      rewrite (Hlow t L). destruct (Z.ltb_spec t f); [ | lia ].
      destruct r as [|t' r]; [ destruct Hf | ]. cbn [map]. f_equal.
      destruct (Z.ltb_spec t' f); [ reflexivity | ].
      destruct Hf as [->|Hf]; [ reflexivity | ]. inversion S1 as [|? ? _ F2]; subst.
      rewrite Forall_forall in F2. specialize (F2 f Hf). lia.
    - assert (Forall (fun x => f <= x) (t :: r)) as F.
      { constructor; [ assumption | ]. eapply Forall_impl; [ | exact F1 ]. cbn. intros; lia. }
      rewrite Hid by assumption. apply Hm. assumption.
  Qed.

  Lemma ffill_id : forall (g : Z -> A) ts p, ffill p (map (fun t => Some (g t)) ts) = map (fun t => Some (g t)) ts.
  Proof. intros g. induction ts as [|t r IH]; intros p; [ reflexivity | ]. cbn [map ffill]. rewrite IH. reflexivity. Qed.

  Lemma ffill_map : forall (g : Z -> option A) l v ts p, StronglySorted Z.lt ts ->
    g l = Some v -> (forall t, t <= l -> g t <> None) -> (forall t, l < t -> g t = None) ->
    (In l ts \/ (Forall (fun t => l < t) ts /\ p = Some v)) ->
    ffill p (map g ts) = map (fun t => if l <? t then Some v else g t) ts.
  Proof.
    intros g l v ts. induction ts as [|t r IH]; intros p S Hl Hlow Hup H; [ reflexivity | ].
    inversion S as [|? ? S1 F1]; subst. cbn [map ffill].
    destruct (Z.ltb_spec l t) as [L|L].
    - rewrite (Hup t L). destruct H as [[->|Hi]|[F E]].
      + lia.
      + rewrite Forall_forall in F1. specialize (F1 _ Hi). lia.
      + inversion F; subst. f_equal. apply IH; auto.
    - assert (Ht := Hlow t L). destruct (g t) as [w|] eqn:E; [ | contradiction ]. f_equal.
      apply IH; auto. destruct H as [[->|Hi]|[F _]].
      + right. split; [ assumption | ]. congruence.
      + auto.
      + inversion F; subst. lia.
  Qed.

  Lemma sel_one_map : forall (h : Z -> option A) axis t, In t axis -> sel_one axis (map h axis) t = Ok (h t).
  Proof.
    intros h. induction axis as [|u r IH]; intros t H; [ destruct H | ]. cbn [map sel_one].
    destruct (Z.eqb_spec t u) as [->|N]; [ reflexivity | ]. apply IH. destruct H; [ congruence | assumption ].
  Qed.

  Lemma sel_map : forall (h : Z -> option A) axis req, incl req axis ->
    sel axis (map h axis) req = Ok (map (fun t => (t, h t)) req).
  Proof.
    intros h axis. induction req as [|t r IH]; intros H; [ reflexivity | ]. cbn [sel map].
    rewrite sel_one_map by (apply H; left; reflexivity). cbn [bind].
    rewrite IH by (intros x Hx; apply H; right; assumption). reflexivity.
  Qed.

  Lemma edge_times_In : forall s, s <> [] -> In (first_time s 0) (edge_times s) /\ In (last_time s 0) (edge_times s).
  Proof.
    intros [|[t a] [|p r]] N; [ contradiction | cbn; auto | ]. split; [ left; reflexivity | ].
    right; left. destruct p. reflexivity.
  Qed.
  Lemma edge_times_inv : forall s t, In t (edge_times s) -> s <> [] /\ (t = first_time s 0 \/ t = last_time s 0).
  Proof.
    intros [|[t0 a] [|p r]] t H; [ destruct H | | ].
    - destruct H as [<-|[]]. split; [ discriminate | left; reflexivity ].
    - split; [ discriminate | ]. destruct H as [<-|[<-|[]]]; [ left; reflexivity | right; destruct p; reflexivity ].
  Qed.

  Lemma first_le_last : forall s, sampled s -> first_time s 0 <= last_time s 0.
  Proof.
    intros s S. assert (s <> []) as N by (intros ->; destruct S).
    destruct (last_time_In s N) as (a & l & E). apply (first_time_le _ _ a); [ assumption | ].
    rewrite E at 2. apply in_or_app. right. left. reflexivity.
  Qed.

  Lemma fill_all_clamp : forall (raw g : Z -> option A) f l (h : Z -> A) ts,
    StronglySorted Z.lt ts -> In f ts -> In l ts -> f <= l ->
    (forall t, f <= t <= l -> raw t = Some (h t)) ->
    (forall t, t < f -> raw t = None) -> (forall t, l < t -> raw t = None) ->
    fill_all (map raw ts) = map (fun t => Some (h (if t <? f then f else if l <? t then l else t))) ts.
  Proof.
    intros raw g f l h ts S Hf Hl L Hin Hlow Hhigh. unfold fill_all.
    rewrite (bfill_map raw f ts S Hf Hlow) by
      (intros t t' H1 H2 E; destruct (Z.leb_spec t l) as [Q|Q];
       [ rewrite Hin in E by lia; discriminate | apply Hhigh; lia ]).
    rewrite (ffill_map _ l (h l)).
    - apply map_ext. intros t. destruct (Z.ltb_spec l t), (Z.ltb_spec t f); try lia; try reflexivity.
      + rewrite Hin by lia. reflexivity.
      + rewrite Hin by lia. reflexivity.
    - assumption.
    - destruct (Z.ltb_spec l f); [ lia | ]. apply Hin. lia.
    - intros t Ht. destruct (Z.ltb_spec t f); rewrite Hin by lia; discriminate.
    - intros t Ht. destruct (Z.ltb_spec t f); [ lia | ]. apply Hhigh. lia.
    - auto.
  Qed.

  Lemma fval_clamp : forall seg s d t, exact_seg seg -> sampled s ->
    fval seg s d (if t <? first_time s 0 then first_time s 0 else if last_time s 0 <? t then last_time s 0 else t)
    = fval seg s d t.
  Proof.
    intros seg s d t X S. destruct (Z.ltb_spec t (first_time s 0)); [ symmetry; apply fval_before; lia | ].
    destruct (Z.ltb_spec (last_time s 0) t); [ symmetry; apply fval_after; (assumption || lia) | reflexivity ].
  Qed.

  Lemma interp_like_linear : forall seg s d req, exact_seg seg -> sampled s ->
    interp_like seg Linear true s req = Ok (map (fun t => (t, Some (fval seg s d t))) req).
  Proof.
    intros seg s d req X S.
    assert (incl req (union_times req (edge_times s))) as Hi by (intros x Hx; apply union_times_In; auto).
    assert (s <> []) as N by (intros ->; destruct S).
    destruct (edge_times_In s N) as [Ef El].
    assert (In (first_time s 0) (union_times req (edge_times s))) as If by (apply union_times_In; auto).
    assert (In (last_time s 0) (union_times req (edge_times s))) as Il by (apply union_times_In; auto).
    assert (Sx := union_times_sorted req (edge_times s)). assert (L := first_le_last s S).
    unfold interp_like. set (axis := union_times req (edge_times s)) in *. clearbody axis.
    destruct s as [|[t0 a] [|p r]]; [ contradiction | | ].
    - cbn [first_time last_time fval fv] in *.
      assert (forall h : Z -> option A, (forall t, In t req -> h t = Some a) ->
              map (fun t => (t, h t)) req = map (fun t => (t, Some (if t <=? t0 then a else a))) req) as Hh.
      { intros h Hx. apply map_ext_in. intros t Ht. rewrite Hx by assumption. destruct (t <=? t0); reflexivity. }
      destruct axis as [|x [|y axis]].
      + destruct If.
      + rewrite sel_map by assumption. f_equal. apply Hh. intros t Ht. apply Hi in Ht.
        destruct Ht as [->|[]]. destruct If as [->|[]]. cbn. rewrite Z.eqb_refl. reflexivity.
      + rewrite (fill_all_clamp (reindex_exact [(t0, a)]) (fun _ => None) t0 t0 (fun _ => a)); try assumption; try lia.
        * rewrite sel_map by assumption. f_equal. apply Hh. reflexivity.
        * intros t Ht. cbn. replace t with t0 by lia. rewrite Z.eqb_refl. reflexivity.
        * intros t Ht. cbn. destruct (Z.eqb_spec t t0); [ lia | reflexivity ].
        * intros t Ht. cbn. destruct (Z.eqb_spec t t0); [ lia | reflexivity ].
    - rewrite (fill_all_clamp (interp_raw seg ((t0, a) :: p :: r)) (fun _ => None) (first_time ((t0, a) :: p :: r) 0)
                (last_time ((t0, a) :: p :: r) 0) (fval seg ((t0, a) :: p :: r) d)); try assumption.
      + rewrite sel_map by assumption. f_equal. apply map_ext. intros t. f_equal. f_equal.
        apply fval_clamp; assumption.
      + intros t Ht. apply interp_raw_ok; try assumption. cbn. lia.
      + intros t Ht. apply interp_raw_out; [ discriminate | auto ].
      + intros t Ht. apply interp_raw_out; [ discriminate | auto ].
  Qed.

  (** without filling: missing values outside of the data *)
  Lemma interp_like_nofill : forall seg s d req, exact_seg seg -> sampled s -> (2 <= List.length s)%nat ->
    interp_like seg Linear false s req =
    Ok (map (fun t => (t, if (first_time s 0 <=? t) && (t <=? last_time s 0) then Some (fval seg s d t) else None)) req).
  Proof.
    intros seg s d req X S L.
    assert (incl req (union_times req (edge_times s))) as Hi by (intros x Hx; apply union_times_In; auto).
    unfold interp_like. set (axis := union_times req (edge_times s)) in *. clearbody axis.
    destruct s as [|[t0 a] [|p r]]; [ cbn in L; lia | cbn in L; lia | ]. set (s := (t0, a) :: p :: r) in *.
    rewrite sel_map by assumption. f_equal. apply map_ext. intros t. f_equal.
    destruct (Z.leb_spec (first_time s 0) t), (Z.leb_spec t (last_time s 0)); cbn [andb].
    - apply interp_raw_ok; try assumption. lia.
    - apply interp_raw_out; [ discriminate | auto ].
    - apply interp_raw_out; [ discriminate | auto ].
    - apply interp_raw_out; [ discriminate | auto ].
  Qed.

  Lemma all_some_map : forall (h : Z -> A) req,
    all_some (map (fun t => (t, Some (h t))) req) = Ok (map (fun t => (t, h t)) req).
  Proof. intros h. induction req as [|t r IH]; [ reflexivity | ]. cbn [map all_some]. rewrite IH. reflexivity. Qed.

  Lemma interp_coordinates_ok : forall seg s d req, exact_seg seg -> sampled s ->
    interp_coordinates seg (Ser s) req = Ok (squeeze_time (map (fun t => (t, fval seg s d t)) req)).
  Proof.
    intros seg s d req X S. cbn [interp_coordinates]. rewrite (interp_like_linear seg s d) by assumption.
    cbn [bind]. rewrite all_some_map. reflexivity.
  Qed.

  (** ** Orientations *)
  Lemma slerp_map : forall seg s d ts, exact_seg seg -> sampled s -> (2 <= List.length s)%nat ->
    (forall t, In t ts -> first_time s 0 <= t <= last_time s 0) ->
    slerp seg s ts = Ok (map (fun t => (t, fval seg s d t)) ts).
  Proof.
    intros seg s d ts X S L. induction ts as [|t r IH]; intros H; [ reflexivity | ]. cbn [slerp map].
    rewrite (interp_raw_ok seg s d) by (try assumption; apply H; left; reflexivity).
    rewrite IH by (intros x Hx; apply H; right; assumption). reflexivity.
  Qed.

  Lemma sampled_map : forall (h : Z -> A) ts, ts <> [] -> StronglySorted Z.lt ts ->
    sampled (map (fun t => (t, h t)) ts).
  Proof.
    intros h ts N S. destruct ts as [|t r]; [ contradiction | ]. cbn [map sampled]. clear N.
    revert t S. induction r as [|u r IH]; intros t S; [ exact I | ]. cbn [map increasing_from].
    inversion S as [|? ? S1 F1]; subst. inversion F1; subst. split; [ assumption | apply IH; assumption ].
  Qed.

  Lemma filter_sorted : forall f ts, StronglySorted Z.lt ts -> StronglySorted Z.lt (filter f ts).
  Proof.
    intros f ts S. induction S as [|t r S IH F]; [ constructor | ]. cbn [filter].
    destruct (f t); [ | assumption ]. constructor; [ assumption | ].
    rewrite Forall_forall in *. intros x Hx. apply filter_In in Hx. apply F, Hx.
  Qed.

  Lemma times_intersect_In : forall s req t, s <> [] -> In t (times_intersect s req) <->
    In t (union_times req (edge_times s)) /\ first_time s 0 <= t <= last_time s 0.
  Proof.
    intros s req t N. unfold times_intersect. rewrite filter_In.
    assert (first_time s t = first_time s 0) as -> by (destruct s as [|[? ?] ?]; [ contradiction | reflexivity ]).
    rewrite (last_time_default s t 0) by assumption. rewrite andb_true_iff, !Z.leb_le. reflexivity.
  Qed.

  Lemma hd_sorted : forall (h : Z -> A) ts f, StronglySorted Z.lt ts -> In f ts -> (forall t, In t ts -> f <= t) ->
    first_time (map (fun t => (t, h t)) ts) 0 = f.
  Proof.
    intros h ts f S Hf Hm. destruct ts as [|t r]; [ destruct Hf | ]. cbn.
    destruct Hf as [->|Hf]; [ reflexivity | ]. inversion S as [|? ? _ F]; subst. rewrite Forall_forall in F.
    specialize (F f Hf). specialize (Hm t (or_introl eq_refl)). lia.
  Qed.

  Lemma lt_sorted : forall (h : Z -> A) ts l d, StronglySorted Z.lt ts -> In l ts -> (forall t, In t ts -> t <= l) ->
    last_time (map (fun t => (t, h t)) ts) d = l.
  Proof.
    intros h ts l. induction ts as [|t r IH]; intros d S Hl Hm; [ destruct Hl | ]. cbn.
    inversion S as [|? ? S1 F]; subst. rewrite Forall_forall in F. destruct Hl as [->|Hl].
    - destruct r as [|u r]; [ reflexivity | ]. specialize (F u (or_introl eq_refl)).
      specialize (Hm u (or_intror (or_introl eq_refl))). lia.
    - apply IH; [ assumption | assumption | ]. intros x Hx. apply Hm. right. assumption.
  Qed.

  Lemma interp_orientation_ok : forall seg lin s d req, exact_seg seg -> exact_seg lin -> sampled s ->
    interp_orientation seg lin (Ser s) req =
    match s with
    | [(_, a)] => Ok (Const a)
    | _ => Ok (squeeze_time (map (fun t => (t, fval seg s d t)) req))
    end.
  Proof.
    intros seg lin s d req X Y S. destruct s as [|[t0 a] [|p r]]; [ destruct S | reflexivity | ].
    set (s := (t0, a) :: p :: r) in *. assert (s <> []) as N by discriminate.
    assert (2 <= List.length s)%nat as L by (subst s; cbn; lia).
    destruct (edge_times_In s N) as [Ef El]. assert (Lf := first_le_last s S).
    change (interp_orientation seg lin (Ser s) req) with
      (bind (slerp seg s (times_intersect s req)) (fun d =>
        bind (bind (interp_like lin Linear true d req) all_some) (fun r => Ok (squeeze_time r)))).
    rewrite (slerp_map seg s d); try assumption.
    2:{ intros t Ht. apply times_intersect_In in Ht; [ apply Ht | assumption ]. }
    set (ts := times_intersect s req).
    assert (StronglySorted Z.lt ts) as Sts by (apply filter_sorted, union_times_sorted).
    assert (In (first_time s 0) ts) as If.
    { apply times_intersect_In; [ assumption | ]. split; [ apply union_times_In; auto | lia ]. }
    assert (In (last_time s 0) ts) as Il.
    { apply times_intersect_In; [ assumption | ]. split; [ apply union_times_In; auto | lia ]. }
    assert (sampled (map (fun t => (t, fval seg s d t)) ts)) as Sd.
    { apply sampled_map; [ intros E; rewrite E in If; destruct If | assumption ]. }
    assert (forall t, In t ts -> first_time s 0 <= t <= last_time s 0) as B.
    { intros t Ht. apply times_intersect_In in Ht; [ apply Ht | assumption ]. }
    assert (first_time (map (fun t => (t, fval seg s d t)) ts) 0 = first_time s 0) as Ff.
    { apply hd_sorted; [ assumption | assumption | apply B ]. }
    assert (last_time (map (fun t => (t, fval seg s d t)) ts) 0 = last_time s 0) as Fl.
    { apply lt_sorted; [ assumption | assumption | apply B ]. }
    cbn [bind]. rewrite (interp_like_linear lin _ d) by assumption. cbn [bind].
    rewrite all_some_map. cbn [bind]. do 2 f_equal. apply map_ext_in. intros t Ht. f_equal.
    rewrite <- (fval_clamp lin), <- (fval_clamp seg) by assumption. rewrite Ff, Fl.
    set (u := if t <? first_time s 0 then first_time s 0 else if last_time s 0 <? t then last_time s 0 else t).
    apply fval_sample; [ assumption | assumption | ]. apply (in_map (fun t => (t, fval seg s d t))).
    subst u. destruct (Z.ltb_spec t (first_time s 0)); [ assumption | ].
    destruct (Z.ltb_spec (last_time s 0) t); [ assumption | ].
    apply times_intersect_In; [ assumption | ]. split; [ apply union_times_In; auto | lia ].
  Qed.

  (** ** Step interpolation *)
  Lemma reindex_ffill_spec : forall s t, sampled s -> first_time s 0 <= t ->
    exists v, reindex_ffill s t = Some v /\ step_value s t v.
  Proof.
    induction s as [|[t0 a] r IH]; intros t S H; [ destruct S | ]. cbn [first_time] in H.
    cbn [reindex_ffill]. destruct (Z.ltb_spec t t0); [ lia | ]. destruct r as [|[t1 b] r].
    - exists a. split; [ reflexivity | ]. eapply (sv_at _ _ _ t0); [ left; reflexivity | assumption | ].
      intros u v [E|[]] _. injection E as -> ->. lia.
    - assert (S' := S). cbn in S'. destruct S' as [S1 S2].
      destruct (Z.ltb_spec t t1) as [L|L].
      + cbn [reindex_ffill]. destruct (Z.ltb_spec t t1); [ | lia ]. exists a. split; [ reflexivity | ].
        eapply (sv_at _ _ _ t0); [ left; reflexivity | assumption | ]. intros u v [E|Hu] Hle.
        * injection E as -> ->. lia.
        * assert (t1 <= u); [ | lia ]. destruct Hu as [E|Hu]; [ injection E as -> ->; lia | ].
          apply (increasing_In _ _ S2) in Hu. lia.
      + destruct (IH t S2 L) as (v & E & V). exists v. rewrite E. split; [ reflexivity | ].
        destruct V as [u q E' Hu|u Hi Hu Hm].
        * injection E' as -> -> ->. lia.
        * eapply (sv_at _ _ _ u); [ right; assumption | assumption | ]. intros u' v' [E'|Hu'] Hle.
          -- injection E' as -> ->. assert (t1 <= u) by (apply (Hm t1 b); [ left; reflexivity | assumption ]). lia.
          -- eapply Hm; eassumption.
  Qed.

  Lemma reindex_ffill_before : forall s t, t < first_time s 0 -> reindex_ffill s t = None.
  Proof. intros [|[t0 a] r] t H; [ reflexivity | ]. cbn in *. destruct (Z.ltb_spec t t0); [ reflexivity | lia ]. Qed.

  Lemma sampled_unique : forall s t a b, sampled s -> In (t, a) s -> In (t, b) s -> a = b.
  Proof.
    induction s as [|[t0 c] r IH]; intros t a b S Ha Hb; [ destruct S | ].
    destruct Ha as [Ea|Ha], Hb as [Eb|Hb].
    - congruence.
    - injection Ea as -> ->. apply (increasing_In _ _ S) in Hb. lia.
    - injection Eb as -> ->. apply (increasing_In _ _ S) in Ha. lia.
    - destruct r as [|[t1 e] r]; [ destruct Ha | ]. eapply IH; [ eapply sampled_tail; eassumption | eassumption | eassumption ].
  Qed.

  Lemma step_value_fun : forall s t a b, sampled s -> step_value s t a -> step_value s t b -> a = b.
  Proof.
    intros s t a b S Va Vb. destruct Va as [u q E Hu|u Hi Hu Hm], Vb as [u' q' E' Hu'|u' Hi' Hu' Hm'].
    - congruence.
    - subst s. apply (first_time_le _ _ _ 0 S) in Hi'. cbn in Hi'. lia.
    - subst s. apply (first_time_le _ _ _ 0 S) in Hi. cbn in Hi. lia.
    - assert (u = u'). { specialize (Hm _ _ Hi' Hu'). specialize (Hm' _ _ Hi Hu). lia. }
      subst. eapply sampled_unique; eassumption.
  Qed.

  Lemma interp_like_step : forall seg s req, sampled s -> (2 <= List.length s)%nat ->
    exists h, interp_like seg Step true s req = Ok (map (fun t => (t, Some (h t))) req) /\
              forall t, step_value s t (h t).
  Proof.
    intros seg s req S L.
    assert (s <> []) as N by (intros ->; destruct S). destruct (edge_times_In s N) as [Ef _].
    assert (incl req (union_times req (edge_times s))) as Hi by (intros x Hx; apply union_times_In; auto).
    assert (In (first_time s 0) (union_times req (edge_times s))) as If by (apply union_times_In; auto).
    assert (Sx := union_times_sorted req (edge_times s)).
    unfold interp_like. set (axis := union_times req (edge_times s)) in *. clearbody axis.
    destruct s as [|[t0 a] [|p r]]; [ cbn in L; lia | cbn in L; lia | ]. set (s := (t0, a) :: p :: r) in *.
    pose (h := fun t => match reindex_ffill s (Z.max t t0) with Some v => v | None => a end). exists h.
    assert (forall t, reindex_ffill s (Z.max t t0) = Some (h t) /\ step_value s (Z.max t t0) (h t)) as Hh.
    { intros t. destruct (reindex_ffill_spec s (Z.max t t0) S) as (v & E & V); [ cbn; lia | ].
      unfold h. rewrite E. auto. }
    split.
    - unfold fill_all. rewrite (bfill_map (reindex_ffill s) (first_time s 0)); try assumption.
      + change (first_time s 0) with t0.
        assert (map (fun t => if t <? t0 then reindex_ffill s t0 else reindex_ffill s t) axis = map (fun t => Some (h t)) axis) as ->.
        { apply map_ext. intros t. destruct (Hh t) as [E _]. destruct (Z.ltb_spec t t0) as [Q|Q].
          - rewrite Z.max_r in E by lia. assumption.
          - rewrite Z.max_l in E by lia. assumption. }
        rewrite ffill_id. rewrite sel_map by assumption. reflexivity.
      + intros t Ht. apply reindex_ffill_before. assumption.
      + intros t t' H1 H2 E. change (t0 <= t) in H1. destruct (Hh t) as [E' _]. rewrite Z.max_l in E' by assumption. congruence.
    - intros t. destruct (Hh t) as [_ V]. destruct (Z.leb_spec t0 t) as [Q|Q].
      + rewrite Z.max_l in V by assumption. exact V.
      + rewrite Z.max_r in V by lia. assert (h t = a) as ->.
        { eapply step_value_fun; [ exact S | exact V | ]. eapply (sv_at _ _ _ t0); [ left; reflexivity | lia | intros; assumption ]. }
        eapply sv_before; [ reflexivity | assumption ].
  Qed.

  (** ** Refinement *)
  Lemma locate : forall s g g', sampled s -> g < g' ->
    (forall t a, In (t, a) s -> t <= g \/ g' <= t) ->
    g' <= first_time s 0 \/ last_time s 0 <= g \/
    exists t0 t1 a b, neighbours s (t0, a) (t1, b) /\ t0 <= g /\ g' <= t1.
  Proof.
    induction s as [|[t0 a] r IH]; intros g g' S L H; [ destruct S | ].
    destruct (H t0 a (or_introl eq_refl)) as [H0|H0]; [ | left; exact H0 ].
    destruct r as [|[t1 b] r]; [ right; left; exact H0 | ].
    destruct (H t1 b (or_intror (or_introl eq_refl))) as [H1|H1].
    - destruct (IH g g' (sampled_tail _ _ _ S) L) as [F|[F|(u & w & c & d & N & F)]].
      + intros t c Hc. eapply H. right. eassumption.
      + cbn in F. lia.
      + right; left. exact F.
      + right; right. exists u, w, c, d. split; [ apply neighbours_cons; assumption | assumption ].
    - right; right. exists t0, t1, a, b. split; [ apply neighbours_head | auto ].
  Qed.

  Lemma between_grid : forall ts t, StronglySorted Z.lt ts -> ts <> [] ->
    t <= hd 0 ts \/ last ts 0 <= t \/
    exists g g' l r, ts = l ++ g :: g' :: r /\ g <= t <= g'.
  Proof.
    induction ts as [|u ts IH]; intros t S N; [ contradiction | ]. inversion S as [|? ? S1 F]; subst.
    destruct ts as [|w ts].
    - cbn. lia.
    - destruct (Z.leb_spec t u); [ left; assumption | ]. destruct (Z.leb_spec t w).
      + right; right. exists u, w, [], ts. split; [ reflexivity | lia ].
      + destruct (IH t S1) as [Q|[Q|(g & g' & l & r & E & Q)]]; [ discriminate | cbn in Q; lia | right; left; exact Q | ].
        right; right. exists g, g', (u :: l), r. rewrite E. auto.
  Qed.

  Lemma refine : forall seg s d ts t, exact_seg seg -> const_seg seg -> refining_seg seg ->
    sampled s -> StronglySorted Z.lt ts -> (forall u a, In (u, a) s -> In u ts) ->
    value_at seg (map (fun u => (u, fval seg s d u)) ts) t (fval seg s d t).
  Proof.
    intros seg s d ts t X C R S G H.
    assert (s <> []) as N by (intros ->; destruct S).
    assert (In (first_time s 0) ts) as If.
    { destruct s as [|[t0 a] r]; [ contradiction | ]. eapply H. left. reflexivity. }
    assert (In (last_time s 0) ts) as Il.
    { destruct (last_time_In s N) as (a & l & E). apply (H _ a). rewrite E at 2. apply in_or_app. right. left. reflexivity. }
    assert (ts <> []) as Nt by (intros E; rewrite E in If; destruct If).
    destruct (between_grid ts t G Nt) as [Q|[Q|(g & g' & l & r & E & Q)]].
    - destruct ts as [|g0 ts]; [ contradiction | ]. cbn in Q. cbn [map].
      assert (g0 <= first_time s 0) as L.
      { inversion G as [|? ? _ F]; subst. rewrite Forall_forall in F. destruct If as [->|If]; [ lia | ]. specialize (F _ If). lia. }
      rewrite (fval_before seg s d t) by lia. rewrite <- (fval_before seg s d g0) by lia.
      eapply va_before; [ reflexivity | assumption ].
    - destruct (exists_last Nt) as (ts' & gl & E). subst ts. rewrite last_last in Q.
      assert (last_time s 0 <= gl) as L.
      { clear -G Il. apply in_app_or in Il. destruct Il as [Il|[<-|[]]]; [ | lia ].
        induction ts' as [|x ts' IH]; [ destruct Il | ]. cbn in G. inversion G as [|? ? G1 F]; subst.
        rewrite Forall_forall in F. destruct Il as [->|Il]; [ | apply IH; assumption ].
        assert (last_time s 0 < gl); [ | lia ]. apply F. apply in_or_app. right. left. reflexivity. }
      rewrite (fval_after seg s d t) by (assumption || lia). rewrite <- (fval_after seg s d gl) by assumption.
      eapply (va_after _ _ _ _ gl (map (fun u => (u, fval seg s d u)) ts')); [ rewrite map_app; reflexivity | assumption ].
    - assert (g < g' /\ forall x, In x ts -> x <= g \/ g' <= x) as [L B].
      { subst ts. clear -G. induction l as [|y l IH]; cbn in G; inversion G as [|? ? G1 F]; subst.
        - rewrite Forall_forall in F. split; [ apply F; left; reflexivity | ].
          intros x [->|[->|Hx]]; [ lia | lia | ]. inversion G1 as [|? ? _ F']; subst. rewrite Forall_forall in F'.
          specialize (F' _ Hx). lia.
        - destruct (IH G1) as [L B]. split; [ assumption | ]. rewrite Forall_forall in F.
          intros x [->|Hx]; [ | apply B; assumption ]. left.
          assert (x < g); [ | lia ]. apply F. apply in_or_app. right. left. reflexivity. }
      apply (va_between _ _ _ _ g g' (fval seg s d g) (fval seg s d g')).
      + subst ts. exists (map (fun u => (u, fval seg s d u)) l), (map (fun u => (u, fval seg s d u)) r).
        rewrite map_app. reflexivity.
      + assumption.
      + destruct (locate s g g' S L) as [F|[F|(t0 & t1 & a & b & Nb & F1 & F2)]].
        * intros u a Hu. apply B. eapply H. eassumption.
        * rewrite (fval_before seg s d t), (fval_before seg s d g), (fval_before seg s d g') by lia.
          symmetry. apply C; assumption.
        * rewrite (fval_after seg s d t), (fval_after seg s d g), (fval_after seg s d g') by (assumption || lia).
          symmetry. apply C; assumption.
        * assert (forall u, g <= u <= g' -> fval seg s d u = seg t0 t1 a b u) as Hv.
          { intros u Hu. apply value_at_fval; [ assumption | assumption | ].
            eapply va_between; [ eassumption | lia | reflexivity ]. }
          rewrite !Hv by lia. symmetry. apply R; lia.
  Qed.
End Facts.
