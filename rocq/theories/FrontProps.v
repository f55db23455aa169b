(** Properties of the profiles of FFGrooves (C139). *)
From Coq Require Import Reals String List Lra Lia Psatz.
From Verif Require Import Base GeoModel GeoFacts GeoShapeFacts GrooveFacts FrontModel.
Import ListNotations.
Open Scope R_scope.

(** ** Specification *)
(** The lines of a shape run through these points. *)
Definition outline (sh : shape) (pts : list pt) : Prop :=
  map point_start sh = removelast pts /\ map point_end sh = tl pts.
(** A rectangle with sides of length a and b, drawn with three or with four lines. *)
Definition rect (p0 p1 p2 p3 : pt) (a b : R) : Prop :=
  pnorm (psub p1 p0) = a /\ pnorm (psub p2 p1) = b /\ pdot (psub p0 p1) (psub p2 p1) = 0 /\ psub p3 p0 = psub p2 p1.
Definition piece (sh : shape) (c : list pt) (a b : R) : Prop :=
  match c with
  | [p0; p1; p2; p3] => rect p0 p1 p2 p3 a b /\ (outline sh c \/ outline sh (c ++ [p0]))
  | _ => False
  end.
(** The points of a convex workpiece. *)
Inductive hull (c : list pt) : pt -> Prop :=
| hull_corner : forall p, In p c -> hull c p
| hull_mix : forall k p q, 0 <= k <= 1 -> hull c p -> hull c q -> hull c (padd (pscale (1 - k) p) (pscale k q)).
(** The distance of two workpieces. *)
Definition gap (c d : list pt) (g : R) : Prop :=
  (forall p q, hull c p -> hull d q -> g <= pnorm (psub q p)) /\
  (exists p q, hull c p /\ hull d q /\ pnorm (psub q p) = g).
(** They touch without overlap: a line separates them. *)
Definition touching (c d : list pt) : Prop :=
  gap c d 0 /\
  exists n k, n <> P 0 0 /\ (forall p, hull c p -> pdot n p <= k) /\ (forall q, hull d q -> k <= pdot n q).
Definition angle (u v : pt) (alpha : R) : Prop := pdot u v = pnorm u * pnorm v * cos alpha.

(** ** Lemmas *)
Lemma sqrt_sq : forall x y, 0 <= x -> y = x * x -> sqrt y = x.
Proof. intros x y H ->. now apply sqrt_square. Qed.
Lemma norm_is : forall v x, 0 <= x -> pdot v v = x * x -> pnorm v = x.
Proof. intros v x H E. now apply sqrt_sq. Qed.

Lemma hull_le : forall c n k, (forall p, In p c -> pdot n p <= k) -> forall p, hull c p -> pdot n p <= k.
Proof.
  intros c n k H p Hp. induction Hp as [p Hi|t p q Ht _ IHp _ IHq]; [now apply H|].
  unfold pdot, padd, pscale in *. cbn in *. nra.
Qed.
Lemma hull_ge : forall c n k, (forall p, In p c -> k <= pdot n p) -> forall p, hull c p -> k <= pdot n p.
Proof.
  intros c n k H p Hp. induction Hp as [p Hi|t p q Ht _ IHp _ IHq]; [now apply H|].
  unfold pdot, padd, pscale in *. cbn in *. nra.
Qed.
Lemma cauchy : forall n v, pdot n n = 1 -> pdot n v <= pnorm v.
Proof.
  intros n v H. destruct (Rle_dec (pdot n v) 0) as [L|L].
  - apply Rle_trans with 0; [exact L|apply sqrt_pos].
  - unfold pnorm. rewrite <- (sqrt_square (pdot n v)) by lra. apply sqrt_le_1_alt.
    replace (pdot v v) with (pdot n n * pdot v v) by (rewrite H; ring). unfold pdot.
    assert (0 <= (px n * py v - py n * px v) * (px n * py v - py n * px v)) by apply Rle_0_sqr. nra.
Qed.
Lemma apart : forall c d n k g, pdot n n = 1 -> (forall p, In p c -> pdot n p <= k) ->
  (forall q, In q d -> k + g <= pdot n q) -> forall p q, hull c p -> hull d q -> g <= pnorm (psub q p).
Proof.
  intros c d n k g U A B p q Hp Hq. apply (hull_le c n k A) in Hp. apply (hull_ge d n (k + g) B) in Hq.
  apply Rle_trans with (pdot n (psub q p)); [|now apply cauchy].
  unfold pdot, psub in *. cbn. lra.
Qed.

Lemma draw_ok : forall pts, (2 <= List.length pts)%nat ->
  (forall i, (S i < List.length pts)%nat -> nth i pts (P 0 0) <> nth (S i) pts (P 0 0)) ->
  exists s, draw pts = Ok s /\ outline s pts.
Proof.
  intros pts L H. destruct (line_chain_total pts H) as [l C].
  destruct (line_chain_ok _ _ C) as (_ & _ & J & S & T).
  exists l. split; [|split; [exact S|exact T]]. unfold draw, add_line_segments. cbn [rev].
  assert (Nat.leb (List.length pts) 1 = false) as -> by (apply Nat.leb_gt; lia).
  rewrite C. unfold add_segments. cbn [rev].
  now rewrite (proj2 (check_connected_iff l) (joined_nearly _ J)).
Qed.
Lemma far : forall p q a, 0 < a -> pnorm (psub q p) = a -> p <> q.
Proof.
  intros p q a A H E. subst q. unfold pnorm in H.
  replace (pdot (psub p p) (psub p p)) with 0 in H by (unfold pdot, psub; cbn; ring).
  rewrite sqrt_0 in H. lra.
Qed.
Lemma rect_sides : forall p0 p1 p2 p3 a b, 0 < a -> 0 < b -> rect p0 p1 p2 p3 a b ->
  p0 <> p1 /\ p1 <> p2 /\ p2 <> p3 /\ p3 <> p0.
Proof.
  intros p0 p1 p2 p3 a b A B (H1 & H2 & _ & H4).
  assert (E : psub p3 p2 = psub p0 p1).
  { unfold psub in *. injection H4 as E1 E2. f_equal; lra. }
  assert (Sy : forall u v, pnorm (psub u v) = pnorm (psub v u)).
  { intros u v. unfold pnorm. f_equal. unfold pdot, psub. cbn. ring. }
  split; [now apply (far _ _ a)|]. split; [now apply (far _ _ b)|]. split.
  - apply (far _ _ a A). now rewrite E, Sy.
  - apply (far _ _ b B). rewrite Sy. now rewrite H4.
Qed.
Lemma draw_rect : forall p0 p1 p2 p3 a b, 0 < a -> 0 < b -> rect p0 p1 p2 p3 a b ->
  (exists s, draw [p0; p1; p2; p3] = Ok s /\ piece s [p0; p1; p2; p3] a b) /\
  (exists s, draw [p0; p1; p2; p3; p0] = Ok s /\ piece s [p0; p1; p2; p3] a b).
Proof.
  intros p0 p1 p2 p3 a b A B Hr. destruct (rect_sides _ _ _ _ _ _ A B Hr) as (N1 & N2 & N3 & N4).
  split.
  - destruct (draw_ok [p0; p1; p2; p3]) as (s & E & O); [cbn; lia| |exists s; split; [exact E|split; auto]].
    intros i Hi. cbn in Hi. destruct i as [|[|[|i]]]; cbn; auto; lia.
  - destruct (draw_ok [p0; p1; p2; p3; p0]) as (s & E & O); [cbn; lia| |exists s; split; [exact E|split; auto]].
    intros i Hi. cbn in Hi. destruct i as [|[|[|[|i]]]]; cbn; auto; lia.
Qed.

Lemma sin_q : forall a, sin (a + PI / 2) = cos a.
Proof. intro a. rewrite sin_plus, cos_PI2, sin_PI2. ring. Qed.
Lemma cos_q : forall a, cos (a + PI / 2) = - sin a.
Proof. intro a. rewrite cos_plus, cos_PI2, sin_PI2. ring. Qed.
Lemma one : forall a, sin a * sin a + cos a * cos a = 1.
Proof. intro a. exact (sin2_cos2 a). Qed.

(** rectangles with a side along a direction (c, s) of unit length *)
Ltac mk_rect := split; [|split; [|split]];
  [apply norm_is; [lra|unfold pdot, psub; cbn; nra]
  |apply norm_is; [lra|unfold pdot, psub; cbn; nra]
  |unfold pdot, psub; cbn; nra
  |unfold psub; cbn; f_equal; ring].
Ltac corners := let q := fresh "q" in let H := fresh "H" in
  intros q H; repeat (destruct H as [<-|H]; [unfold pdot; cbn; try lra; try nra|]); contradiction.

Section Codes.
  Variables (t1 w : R).
  Hypotheses (T1 : 0 < t1) (W : 0 < w).

  (** Codes 1.12, 1.13 and 2.12: a plate on a web, both with the first thickness. *)
  Theorem c139_tee : forall g code, f_t1 g = t1 -> f_code g = Some code -> In code ["1.12"; "1.13"; "2.12"]%string ->
    exists s1 s2 c d, front_profile g (Some w) = Ok (s1, s2) /\
      piece s1 c (2 * w + t1) t1 /\ piece s2 d t1 w /\ touching c d.
  Proof.
    intros g code E1 E2 Hin.
    assert (Ex : existsb (String.eqb code) ["1.12"; "1.13"; "2.12"]%string = true).
    { apply existsb_exists. exists code. split; [exact Hin|apply String.eqb_refl]. }
    unfold front_profile. rewrite E2, Ex, E1. unfold tee, draw2.
    destruct (draw_rect (P 0 0) (P (2 * w + t1) 0) (P (2 * w + t1) t1) (P 0 t1) (2 * w + t1) t1) as [_ (s1 & D1 & P1)]; [lra|lra|mk_rect|].
    destruct (draw_rect (P w 0) (P (w + t1) 0) (P (w + t1) (- w)) (P w (- w)) t1 w) as [_ (s2 & D2 & P2)]; [lra|lra|mk_rect|].
    rewrite D1. cbn [bind]. rewrite D2. cbn [bind].
    eexists s1, s2, _, _. split; [reflexivity|]. split; [exact P1|]. split; [exact P2|]. split.
    - split.
      + apply (apart _ _ (P 0 (-1)) 0); [unfold pdot; cbn; ring|corners|corners].
      + exists (P w 0), (P w 0). split; [|split].
        * replace (P w 0) with (padd (pscale (1 - w / (2 * w + t1)) (P 0 0)) (pscale (w / (2 * w + t1)) (P (2 * w + t1) 0)))
            by (unfold padd, pscale; cbn; f_equal; field; lra).
          apply hull_mix; [|apply hull_corner; now left|apply hull_corner; right; now left].
          split; [apply Rmult_le_pos; [lra|left; apply Rinv_0_lt_compat; lra]|].
          apply Rmult_le_reg_r with (2 * w + t1); [lra|]. unfold Rdiv. rewrite Rmult_assoc, Rinv_l by lra. lra.
        * apply hull_corner. now left.
        * apply norm_is; [lra|unfold pdot, psub; cbn; ring].
    - exists (P 0 (-1)), 0. split; [intro Q; injection Q; lra|]. split; [apply hull_le; corners|apply hull_ge; corners].
  Qed.

  Variables (t2 b : R).
  Hypotheses (T2 : 0 < t2) (B : 0 <= b).

  (** Code 3.1.1: an inclined plate above another one; the gap is the root gap for angles up
      to a right angle. *)
  Theorem c139_inclined : forall alpha e, 0 <= alpha <= PI / 2 ->
    let w' := wider t1 w in
    exists s1 s2 c d, front_profile (Front t1 (Some t2) (Some alpha) (Some "3.1.1"%string) (Some b) e) (Some w) = Ok (s1, s2) /\
      piece s1 c w' t1 /\ piece s2 d w' t2 /\ gap c d b /\
      (exists p0 p1 p2 p3 q0 q1 q2 q3, c = [p0; p1; p2; p3] /\ d = [q0; q1; q2; q3] /\
         angle (psub p0 p1) (psub q0 q1) alpha) /\ t1 <= w' /\ w <= w'.
  Proof.
    intros alpha e Ha w'.
    assert (W' : t1 <= w' /\ w <= w' /\ 0 < w').
    { unfold w', wider. destruct (rlt w (t1 + 1)) eqn:Er; [lra|].
      unfold rlt in Er. destruct (Rlt_dec w (t1 + 1)); [discriminate|lra]. }
    unfold front_profile. cbn [f_code]. change (existsb (String.eqb "3.1.1") ["1.12"; "1.13"; "2.12"]%string) with false.
    change (String.eqb "3.1.1" "3.1.1") with true. cbv beta iota. unfold inclined. cbn [f_t1 f_t2 f_alpha f_b need bind].
    fold w'. rewrite sin_q, cos_q. pose proof (one alpha) as O.
    assert (S0 : 0 <= sin alpha) by (apply sin_ge_0; lra). assert (C0 : 0 <= cos alpha) by (apply cos_ge_0; lra).
    set (s := sin alpha) in *. set (k := cos alpha) in *.
    destruct (draw_rect (P (t1 + k * w') (s * w')) (P t1 0) (P (t1 + - s * t1) (k * t1))
                (P (t1 + (k * w' + - s * t1)) (s * w' + k * t1)) w' t1) as [(s1 & D1 & P1) _]; [lra|lra|mk_rect|].
    destruct (draw_rect (P w' (- b)) (P 0 (- b)) (P 0 (- t2 - b)) (P w' (- t2 - b)) w' t2) as [(s2 & D2 & P2) _]; [lra|lra|mk_rect|].
    rewrite D1. cbn [bind]. rewrite D2. cbn [bind].
    eexists s1, s2, _, _. split; [reflexivity|]. split; [exact P1|]. split; [exact P2|].
    split; [|split; [|lra]].
    - split.
      + apply (apart _ _ (P 0 (-1)) 0); [unfold pdot; cbn; ring|corners|corners].
      + exists (P t1 0), (P t1 (- b)). split; [apply hull_corner; right; now left|]. split.
        * replace (P t1 (- b)) with (padd (pscale (1 - t1 / w') (P 0 (- b))) (pscale (t1 / w') (P w' (- b))))
            by (unfold padd, pscale; cbn; f_equal; field; lra).
          apply hull_mix; [|apply hull_corner; right; now left|apply hull_corner; now left].
          split; [apply Rmult_le_pos; [lra|left; apply Rinv_0_lt_compat; lra]|].
          apply Rmult_le_reg_r with w'; [lra|]. unfold Rdiv. rewrite Rmult_assoc, Rinv_l by lra. lra.
        * apply norm_is; [lra|unfold pdot, psub; cbn; ring].
    - do 8 eexists. split; [reflexivity|]. split; [reflexivity|]. unfold angle.
      rewrite (norm_is _ w'); [|lra|unfold pdot, psub; cbn; nra].
      rewrite (norm_is (psub (P w' (- b)) (P 0 (- b))) w'); [|lra|unfold pdot, psub; cbn; nra].
      fold k. unfold pdot, psub. cbn. ring.
  Qed.

  (** Code 3.1.2: two plates, the second one twice as long. *)
  Theorem c139_parallel : forall alpha e,
    exists s1 s2 c d, front_profile (Front t1 (Some t2) alpha (Some "3.1.2"%string) (Some b) e) (Some w) = Ok (s1, s2) /\
      piece s1 c w t1 /\ piece s2 d (2 * w) t2 /\ gap c d b.
  Proof.
    intros alpha e.
    unfold front_profile. cbn [f_code]. change (existsb (String.eqb "3.1.2") ["1.12"; "1.13"; "2.12"]%string) with false.
    change (String.eqb "3.1.2" "3.1.1") with false. change (String.eqb "3.1.2" "3.1.2") with true. cbv beta iota.
    unfold parallel. cbn [f_t1 f_t2 f_alpha f_b need bind].
    destruct (draw_rect (P 0 0) (P w 0) (P w t1) (P 0 t1) w t1) as [(s1 & D1 & P1) _]; [lra|lra|mk_rect|].
    destruct (draw_rect (P 0 (- b)) (P (2 * w) (- b)) (P (2 * w) (- t2 - b)) (P 0 (- t2 - b)) (2 * w) t2) as [(s2 & D2 & P2) _]; [lra|lra|mk_rect|].
    rewrite D1. cbn [bind]. rewrite D2. cbn [bind].
    eexists s1, s2, _, _. split; [reflexivity|]. split; [exact P1|]. split; [exact P2|]. split.
    - apply (apart _ _ (P 0 (-1)) 0); [unfold pdot; cbn; ring|corners|corners].
    - exists (P 0 0), (P 0 (- b)). split; [apply hull_corner; now left|]. split; [apply hull_corner; now left|].
      apply norm_is; [lra|unfold pdot, psub; cbn; ring].
  Qed.

  (** Codes 3.1.3 and 4.1.1: the faces include the groove angle; the distance of the
      workpieces is not the root gap. *)
  Theorem c139_corner : forall alpha e code, 0 <= alpha <= PI -> In code ["3.1.3"; "4.1.1"]%string ->
    exists s1 s2 c d, front_profile (Front t1 (Some t2) (Some alpha) (Some code) (Some b) e) (Some w) = Ok (s1, s2) /\
      piece s1 c w t1 /\ piece s2 d w t2 /\ gap c d (2 * b * cos (alpha / 2)) /\
      (exists p0 p1 p2 p3 q0 q1 q2 q3, c = [p0; p1; p2; p3] /\ d = [q0; q1; q2; q3] /\
         angle (psub p2 p1) (psub q1 q2) alpha).
  Proof.
    intros alpha e code Ha Hc.
    assert (E0 : front_profile (Front t1 (Some t2) (Some alpha) (Some code) (Some b) e) (Some w)
              = corner (Front t1 (Some t2) (Some alpha) (Some code) (Some b) e) w).
    { destruct Hc as [<-|[<-|[]]]; reflexivity. }
    rewrite E0. unfold corner, draw2, butt. cbn [f_t1 f_t2 f_alpha f_b need bind]. rewrite sin_q, cos_q.
    pose proof (one alpha) as O. pose proof (one (alpha / 2)) as O2.
    assert (Es : sin alpha = 2 * sin (alpha / 2) * cos (alpha / 2)).
    { replace alpha with (2 * (alpha / 2)) at 1 by field. apply sin_2a. }
    assert (Ek : cos alpha = cos (alpha / 2) * cos (alpha / 2) - sin (alpha / 2) * sin (alpha / 2)).
    { replace alpha with (2 * (alpha / 2)) at 1 by field. apply cos_2a. }
    assert (S0 : 0 <= sin (alpha / 2)) by (apply sin_ge_0; lra). assert (C0 : 0 <= cos (alpha / 2)) by (apply cos_ge_0; lra).
    set (s := sin alpha) in *. set (k := cos alpha) in *.
    set (u := sin (alpha / 2)) in *. set (v := cos (alpha / 2)) in *.
    destruct (draw_rect (P (- w) 0) (P 0 0) (P 0 t1) (P (- w) t1) w t1) as [(s1 & D1 & P1) _]; [lra|lra|mk_rect|].
    destruct (draw_rect (P (s * t2 + (k * b + b) + (k * (b + w) + b) - (k * b + b))
                           (k * t2 + - s * b + - s * (b + w) - - s * b))
                (P (s * t2 + (k * b + b)) (k * t2 + - s * b)) (P (k * b + b) (- s * b))
                (P (k * (b + w) + b) (- s * (b + w))) w t2) as [(s2 & D2 & P2) _]; [lra|lra|mk_rect|].
    rewrite D1. cbn [bind]. rewrite D2. cbn [bind].
    eexists s1, s2, _, _. split; [reflexivity|]. split; [exact P1|]. split; [exact P2|].
    assert (Z : u * u = 1 - v * v) by lra. assert (Ek' : k = 2 * (v * v) - 1) by lra.
    assert (V1 : v * k + u * s = v) by (rewrite Ek', Es; replace (u * (2 * u * v)) with (2 * v * (u * u)) by ring; rewrite Z; ring).
    assert (V2 : v * s - u * k = u) by (rewrite Ek', Es; replace (v * (2 * u * v)) with (2 * u * (v * v)) by ring; ring).
    split.
    - split.
      + assert (G : forall x y, v * (k * x + b + s * y) + - u * (k * y - s * x) = v * x + v * b + u * y).
        { intros x y. transitivity ((v * k + u * s) * x + v * b + (v * s - u * k) * y); [ring|]. now rewrite V1, V2. }
        apply (apart _ _ (P v (- u)) 0); [unfold pdot; cbn; lra|corners|].
        intros q [<-|[<-|[<-|[<-|[]]]]]; unfold pdot; cbn [px py].
        * pose proof (G (b + w) t2). assert (0 <= v * w) by nra. assert (0 <= u * t2) by nra. lra.
        * pose proof (G b t2). assert (0 <= u * t2) by nra. lra.
        * pose proof (G b 0). lra.
        * pose proof (G (b + w) 0). assert (0 <= v * w) by nra. lra.
      + exists (P 0 0), (P (k * b + b) (- s * b)). split; [apply hull_corner; right; now left|].
        split; [apply hull_corner; right; right; now left|].
        apply norm_is; [apply Rmult_le_pos; lra|]. unfold pdot, psub. cbn.
        replace ((k * b + b - 0) * (k * b + b - 0) + (- s * b - 0) * (- s * b - 0))
          with (b * b * ((s * s + k * k) + 2 * k + 1)) by ring.
        rewrite O, Ek'. ring.
    - do 8 eexists. split; [reflexivity|]. split; [reflexivity|]. unfold angle.
      rewrite (norm_is _ t1); [|lra|unfold pdot, psub; cbn; nra].
      rewrite (norm_is (psub (P (s * t2 + (k * b + b)) (k * t2 + - s * b)) (P (k * b + b) (- s * b))) t2); [|lra|unfold pdot, psub; cbn; nra].
      fold k. unfold pdot, psub. cbn. ring.
  Qed.

  (** Code 4.1.2: the workpieces touch, the face of the second one extends e beyond the
      lower edge of the first. *)
  Theorem c139_shifted : forall alpha bo e, 0 <= alpha <= PI / 2 -> 0 <= e <= t2 ->
    exists s1 s2 c d, front_profile (Front t1 (Some t2) (Some alpha) (Some "4.1.2"%string) bo (Some e)) (Some w) = Ok (s1, s2) /\
      piece s1 c w t1 /\ piece s2 d w t2 /\ touching c d /\
      (exists p0 p1 p2 p3 q0 q1 q2 q3, c = [p0; p1; p2; p3] /\ d = [q0; q1; q2; q3] /\
         angle (psub p2 p1) (psub q1 q2) alpha /\ hull d p1 /\ pnorm (psub q1 p1) = e /\ pnorm (psub p1 q2) = t2 - e).
  Proof.
    intros alpha bo e Ha He.
    change (front_profile (Front t1 (Some t2) (Some alpha) (Some "4.1.2"%string) bo (Some e)) (Some w))
      with (shifted_corner (Front t1 (Some t2) (Some alpha) (Some "4.1.2"%string) bo (Some e)) w).
    unfold shifted_corner, draw2, butt. cbn [f_t1 f_t2 f_alpha f_e need bind]. rewrite sin_q, cos_q, neg_sin, neg_cos.
    pose proof (one alpha) as O.
    assert (S0 : 0 <= sin alpha) by (apply sin_ge_0; lra). assert (C0 : 0 <= cos alpha) by (apply cos_ge_0; lra).
    set (s := sin alpha) in *. set (k := cos alpha) in *.
    destruct (draw_rect (P (- w) 0) (P 0 0) (P 0 t1) (P (- w) t1) w t1) as [(s1 & D1 & P1) _]; [lra|lra|mk_rect|].
    destruct (draw_rect (P (s * e + k * w) (k * e + - s * w)) (P (s * e) (k * e)) (P (- s * (t2 - e)) (- k * (t2 - e)))
                (P (- s * (t2 - e) + k * w) (- k * (t2 - e) + - s * w)) w t2) as [(s2 & D2 & P2) _].
    { lra. } { lra. }
    { split; [|split; [|split]].
      - apply norm_is; [lra|]. unfold pdot, psub; cbn.
        replace ((s * e - (s * e + k * w)) * (s * e - (s * e + k * w)) + (k * e - (k * e + - s * w)) * (k * e - (k * e + - s * w)))
          with (w * w * (s * s + k * k)) by ring. rewrite O. ring.
      - apply norm_is; [lra|]. unfold pdot, psub; cbn.
        replace ((- s * (t2 - e) - s * e) * (- s * (t2 - e) - s * e) + (- k * (t2 - e) - k * e) * (- k * (t2 - e) - k * e))
          with (t2 * t2 * (s * s + k * k)) by ring. rewrite O. ring.
      - unfold pdot, psub; cbn. ring.
      - unfold psub; cbn; f_equal; ring. }
    rewrite D1. cbn [bind]. rewrite D2. cbn [bind].
    eexists s1, s2, _, _. split; [reflexivity|]. split; [exact P1|]. split; [exact P2|].
    assert (Lo : forall q, In q [P (- w) 0; P 0 0; P 0 t1; P (- w) t1] -> pdot (P k (- s)) q <= 0) by corners.
    assert (Hi : forall q, In q [P (s * e + k * w) (k * e + - s * w); P (s * e) (k * e); P (- s * (t2 - e)) (- k * (t2 - e));
                P (- s * (t2 - e) + k * w) (- k * (t2 - e) + - s * w)] -> 0 <= pdot (P k (- s)) q).
    { intros q [<-|[<-|[<-|[<-|[]]]]]; unfold pdot; cbn [px py].
      - replace (k * (s * e + k * w) + - s * (k * e + - s * w)) with (w * (s * s + k * k)) by ring. rewrite O. lra.
      - right. ring.
      - right. ring.
      - replace (k * (- s * (t2 - e) + k * w) + - s * (- k * (t2 - e) + - s * w)) with (w * (s * s + k * k)) by ring. rewrite O. lra. }
    assert (Hz : hull [P (s * e + k * w) (k * e + - s * w); P (s * e) (k * e); P (- s * (t2 - e)) (- k * (t2 - e));
                P (- s * (t2 - e) + k * w) (- k * (t2 - e) + - s * w)] (P 0 0)).
    { replace (P 0 0) with (padd (pscale (1 - e / t2) (P (s * e) (k * e))) (pscale (e / t2) (P (- s * (t2 - e)) (- k * (t2 - e)))))
        by (unfold padd, pscale; cbn; f_equal; field; lra).
      apply hull_mix; [|apply hull_corner; right; now left|apply hull_corner; right; right; now left].
      split; [apply Rmult_le_pos; [lra|left; apply Rinv_0_lt_compat; lra]|].
      apply Rmult_le_reg_r with t2; [lra|]. unfold Rdiv. rewrite Rmult_assoc, Rinv_l by lra. lra. }
    split; [split|].
    - split.
      + apply (apart _ _ (P k (- s)) 0); [unfold pdot; cbn; lra|exact Lo|].
        intros q Hq. rewrite Rplus_0_l. exact (Hi q Hq).
      + exists (P 0 0), (P 0 0). split; [apply hull_corner; right; now left|]. split; [exact Hz|].
        apply norm_is; [lra|unfold pdot, psub; cbn; ring].
    - exists (P k (- s)), 0. split; [intro Q; injection Q; intros; nra|]. split; [apply hull_le, Lo|apply hull_ge, Hi].
    - do 8 eexists. split; [reflexivity|]. split; [reflexivity|]. split; [|split; [exact Hz|split]].
      + unfold angle.
        rewrite (norm_is _ t1); [|lra|unfold pdot, psub; cbn; nra].
        rewrite (norm_is (psub (P (s * e) (k * e)) (P (- s * (t2 - e)) (- k * (t2 - e)))) t2); [fold k; unfold pdot, psub; cbn; ring|lra|].
        unfold pdot, psub; cbn.
        replace ((s * e - - s * (t2 - e)) * (s * e - - s * (t2 - e)) + (k * e - - k * (t2 - e)) * (k * e - - k * (t2 - e)))
          with (t2 * t2 * (s * s + k * k)) by ring. rewrite O. ring.
      + apply norm_is; [lra|]. unfold pdot, psub; cbn.
        replace ((s * e - 0) * (s * e - 0) + (k * e - 0) * (k * e - 0)) with (e * e * (s * s + k * k)) by ring. rewrite O. ring.
      + apply norm_is; [lra|]. unfold pdot, psub; cbn.
        replace ((0 - - s * (t2 - e)) * (0 - - s * (t2 - e)) + (0 - - k * (t2 - e)) * (0 - - k * (t2 - e)))
          with ((t2 - e) * (t2 - e) * (s * s + k * k)) by ring. rewrite O. ring.
  Qed.

  (** Code 4.1.3: an upright plate above another one. *)
  Theorem c139_upright : forall alpha e,
    exists s1 s2 c d, front_profile (Front t1 (Some t2) alpha (Some "4.1.3"%string) (Some b) e) (Some w) = Ok (s1, s2) /\
      piece s1 c w t1 /\ piece s2 d (t1 + 2 * w) t2 /\ gap c d b.
  Proof.
    intros alpha e.
    change (front_profile (Front t1 (Some t2) alpha (Some "4.1.3"%string) (Some b) e) (Some w))
      with (upright (Front t1 (Some t2) alpha (Some "4.1.3"%string) (Some b) e) w).
    unfold upright. cbn [f_t1 f_t2 f_alpha f_b need bind].
    destruct (draw_rect (P 0 w) (P 0 0) (P t1 0) (P t1 w) w t1) as [(s1 & D1 & P1) _]; [lra|lra|mk_rect|].
    destruct (draw_rect (P (- w) (- b)) (P (t1 + w) (- b)) (P (t1 + w) (- t2 - b)) (P (- w) (- t2 - b)) (t1 + 2 * w) t2)
      as [_ (s2 & D2 & P2)]; [lra|lra|mk_rect|].
    rewrite D1. cbn [bind]. rewrite D2. cbn [bind].
    eexists s1, s2, _, _. split; [reflexivity|]. split; [exact P1|]. split; [exact P2|]. split.
    - apply (apart _ _ (P 0 (-1)) 0); [unfold pdot; cbn; ring|corners|corners].
    - exists (P 0 0), (P 0 (- b)). split; [apply hull_corner; right; now left|]. split.
      + replace (P 0 (- b)) with (padd (pscale (1 - w / (t1 + 2 * w)) (P (- w) (- b))) (pscale (w / (t1 + 2 * w)) (P (t1 + w) (- b))))
          by (unfold padd, pscale; cbn; f_equal; field; lra).
        apply hull_mix; [|apply hull_corner; now left|apply hull_corner; right; now left].
        split; [apply Rmult_le_pos; [lra|left; apply Rinv_0_lt_compat; lra]|].
        apply Rmult_le_reg_r with (t1 + 2 * w); [lra|]. unfold Rdiv. rewrite Rmult_assoc, Rinv_l by lra. lra.
      + apply norm_is; [lra|unfold pdot, psub; cbn; ring].
  Qed.
End Codes.
Print Assumptions c139_tee.
Print Assumptions c139_inclined.
Print Assumptions c139_parallel.
Print Assumptions c139_corner.
Print Assumptions c139_shifted.
Print Assumptions c139_upright.

(** ** Errors *)
Definition codes : list string := ["1.12"; "1.13"; "2.12"; "3.1.1"; "3.1.2"; "3.1.3"; "4.1.1"; "4.1.2"; "4.1.3"]%string.
Theorem c139_code : forall g w, (forall c, f_code g = Some c -> ~ In c codes) -> front_profile g w = Err ValueError.
Proof.
  intros g w H. unfold front_profile. destruct (f_code g) as [c|]; [|reflexivity]. specialize (H c eq_refl).
  unfold codes in H. cbn [existsb].
  repeat match goal with |- context[String.eqb c ?t] =>
    destruct (String.eqb_spec c t) as [->|]; [exfalso; apply H; cbn; tauto|] end. reflexivity.
Qed.
Print Assumptions c139_code.

(** Parameters that each code needs besides the first thickness. *)
Definition needs (c : string) (g : front) : list (option R) :=
  if existsb (String.eqb c) ["1.12"; "1.13"; "2.12"]%string then []
  else if existsb (String.eqb c) ["3.1.2"; "4.1.3"]%string then [f_t2 g; f_b g]
  else if String.eqb c "4.1.2" then [f_t2 g; f_alpha g; f_e g]
  else [f_t2 g; f_alpha g; f_b g].
Theorem c139_missing : forall g c w, 0 < f_t1 g -> 0 < w -> f_code g = Some c -> In c codes -> In None (needs c g) ->
  front_profile g (Some w) = Err TypeError.
Proof.
  intros [t1 t2 alpha code b e] c w T W Hc Hin Hn. cbn in T, Hc. subst code.
  assert (Ha : forall a, exists s, draw [P (t1 + cos a * wider t1 w) (sin a * wider t1 w); P t1 0;
      P (t1 + cos (a + PI / 2) * t1) (sin (a + PI / 2) * t1);
      P (t1 + (cos a * wider t1 w + cos (a + PI / 2) * t1)) (sin a * wider t1 w + sin (a + PI / 2) * t1)] = Ok s).
  { intro a. rewrite sin_q, cos_q. pose proof (one a).
    assert (0 < wider t1 w) by (unfold wider; destruct (rlt w (t1 + 1)); lra).
    destruct (draw_rect (P (t1 + cos a * wider t1 w) (sin a * wider t1 w)) (P t1 0) (P (t1 + - sin a * t1) (cos a * t1))
      (P (t1 + (cos a * wider t1 w + - sin a * t1)) (sin a * wider t1 w + cos a * t1)) (wider t1 w) t1)
      as [(s & D & _) _]; [lra|lra|mk_rect|eauto]. }
  assert (Hp : exists s, draw [P 0 0; P w 0; P w t1; P 0 t1] = Ok s).
  { destruct (draw_rect (P 0 0) (P w 0) (P w t1) (P 0 t1) w t1) as [(s & D & _) _]; [lra|lra|mk_rect|eauto]. }
  assert (Hu : exists s, draw [P 0 w; P 0 0; P t1 0; P t1 w] = Ok s).
  { destruct (draw_rect (P 0 w) (P 0 0) (P t1 0) (P t1 w) w t1) as [(s & D & _) _]; [lra|lra|mk_rect|eauto]. }
  repeat (destruct Hin as [<-|Hin]); try contradiction; cbn in Hn; try contradiction;
    unfold front_profile; cbn -[inclined parallel corner shifted_corner upright];
    unfold inclined, parallel, corner, shifted_corner, upright; cbn [f_t1 f_t2 f_alpha f_b f_e].
  - destruct alpha as [a|]; [|reflexivity]. cbn [need bind]. destruct (Ha a) as [s ->]. cbn [bind].
    destruct b; [|reflexivity]. destruct t2; [|reflexivity]. exfalso. intuition discriminate.
  - destruct Hp as [s ->]. cbn [bind]. destruct b; [|reflexivity]. destruct t2; [|reflexivity]. exfalso. intuition discriminate.
  - destruct alpha; [|reflexivity]. destruct b; [|reflexivity]. destruct t2; [|reflexivity]. exfalso. intuition discriminate.
  - destruct alpha; [|reflexivity]. destruct b; [|reflexivity]. destruct t2; [|reflexivity]. exfalso. intuition discriminate.
  - destruct alpha; [|reflexivity]. destruct e; [|reflexivity]. destruct t2; [|reflexivity]. exfalso. intuition discriminate.
  - destruct Hu as [s ->]. cbn [bind]. destruct b; [|reflexivity]. destruct t2; [|reflexivity]. exfalso. intuition discriminate.
Qed.
Print Assumptions c139_missing.

(** ** False claims *)
(** "root gap, gap between work pieces" (get_groove): not for the codes 3.1.3 and 4.1.1. *)
Theorem c139_gap_refuted :
  ~ (forall t1 t2 alpha b w s1 s2 c d, 0 < t1 -> 0 < t2 -> 0 <= alpha <= PI / 2 -> 0 <= b -> 0 < w ->
       front_profile (Front t1 (Some t2) (Some alpha) (Some "3.1.3"%string) (Some b) None) (Some w) = Ok (s1, s2) ->
       piece s1 c w t1 -> piece s2 d w t2 -> gap c d b).
Proof.
  intro H. pose proof PI_RGT_0.
  destruct (c139_corner 1 1 ltac:(lra) ltac:(lra) 1 1 ltac:(lra) ltac:(lra) 0 None "3.1.3"%string ltac:(lra) ltac:(now left))
    as (s1 & s2 & c & d & E & P1 & P2 & [G1 G2] & _).
  destruct (H 1 1 0 1 1 s1 s2 c d ltac:(lra) ltac:(lra) ltac:(lra) ltac:(lra) ltac:(lra) E P1 P2) as [_ (p & q & Hp & Hq & Hg)].
  specialize (G1 p q Hp Hq). rewrite Hg in G1. replace (0 / 2) with 0 in G1 by field. rewrite cos_0 in G1. lra.
Qed.
Print Assumptions c139_gap_refuted.

(** Workpieces do not overlap: false for the code 3.1.1 and obtuse angles. *)
Theorem c139_overlap_refuted :
  exists s1 s2 c d, front_profile (Front 2 (Some 2) (Some PI) (Some "3.1.1"%string) (Some 1) None) (Some 5) = Ok (s1, s2) /\
    piece s1 c 5 2 /\ piece s2 d 5 2 /\ hull c (P 2 (-2)) /\ hull d (P 2 (-2)).
Proof.
  assert (Wd : wider 2 5 = 5).
  { unfold wider, rlt. destruct (Rlt_dec 5 (2 + 1)); [lra|reflexivity]. }
  change (front_profile (Front 2 (Some 2) (Some PI) (Some "3.1.1"%string) (Some 1) None) (Some 5))
    with (inclined (Front 2 (Some 2) (Some PI) (Some "3.1.1"%string) (Some 1) None) 5).
  unfold inclined. cbn [f_t1 f_t2 f_alpha f_b need bind]. rewrite Wd, sin_q, cos_q, cos_PI, sin_PI.
  destruct (draw_rect (P (2 + -1 * 5) (0 * 5)) (P 2 0) (P (2 + -0 * 2) (-1 * 2)) (P (2 + (-1 * 5 + -0 * 2)) (0 * 5 + -1 * 2)) 5 2)
    as [(s1 & D1 & P1) _]; [lra|lra|mk_rect|].
  destruct (draw_rect (P 5 (- (1))) (P 0 (- (1))) (P 0 (- (2) - 1)) (P 5 (- (2) - 1)) 5 2) as [(s2 & D2 & P2) _]; [lra|lra|mk_rect|].
  rewrite D1. cbn [bind]. rewrite D2. cbn [bind].
  eexists s1, s2, _, _. split; [reflexivity|]. split; [exact P1|]. split; [exact P2|]. split.
  - replace (P 2 (-2)) with (P (2 + -0 * 2) (-1 * 2)) by (f_equal; ring). apply hull_corner. right. right. now left.
  - assert (M : hull [P 5 (- (1)); P 0 (- (1)); P 0 (- (2) - 1); P 5 (- (2) - 1)] (P 2 (-1))).
    { replace (P 2 (-1)) with (padd (pscale (1 - 2 / 5) (P 0 (- (1)))) (pscale (2 / 5) (P 5 (- (1))))) by (unfold padd, pscale; cbn; f_equal; field).
      apply hull_mix; [lra|apply hull_corner; right; now left|apply hull_corner; now left]. }
    assert (N : hull [P 5 (- (1)); P 0 (- (1)); P 0 (- (2) - 1); P 5 (- (2) - 1)] (P 2 (-3))).
    { replace (P 2 (-3)) with (padd (pscale (1 - 2 / 5) (P 0 (- (2) - 1))) (pscale (2 / 5) (P 5 (- (2) - 1))))
        by (unfold padd, pscale; cbn; f_equal; field).
      apply hull_mix; [lra|apply hull_corner; right; right; now left|apply hull_corner; right; right; right; now left]. }
    replace (P 2 (-2)) with (padd (pscale (1 - 1 / 2) (P 2 (-1))) (pscale (1 / 2) (P 2 (-3)))) by (unfold padd, pscale; cbn; f_equal; field).
    apply hull_mix; [lra|exact M|exact N].
Qed.
Print Assumptions c139_overlap_refuted.

(** The default width is 5 mm. *)
Theorem c139_default : forall g, front_profile g None = front_profile g (Some 5).
Proof. reflexivity. Qed.
Print Assumptions c139_default.

Example front_tee : exists s1 s2 c d, front_profile (Front 2 None None (Some "1.12"%string) None None) None = Ok (s1, s2) /\
  piece s1 c (2 * 5 + 2) 2 /\ piece s2 d 2 5 /\ touching c d.
Proof. rewrite c139_default. apply (c139_tee 2 5) with (code := "1.12"%string); [lra|lra|reflexivity|reflexivity|now left]. Qed.
Example front_missing : front_profile (Front 2 None (Some 1) (Some "3.1.3"%string) (Some 1) None) (Some 5) = Err TypeError.
Proof. apply c139_missing with "3.1.3"%string; cbn; try lra; try reflexivity; auto 10. Qed.
Example front_code : front_profile (Front 2 (Some 2) (Some 1) (Some "1.1"%string) (Some 1) None) (Some 5) = Err ValueError.
Proof. apply c139_code. intros c E. injection E as <-. cbn. intuition discriminate. Qed.
