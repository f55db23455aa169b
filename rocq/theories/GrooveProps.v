(** Properties of the grooves: C67 - C73. *)
From Coq Require Import Reals List ZArith Lra Lia Bool.
From Verif Require Import Base GeoModel GeoSpec GeoFacts GeoShapeFacts GeoProps GrooveModel GrooveSpec GrooveFacts.
Import ListNotations.
Open Scope R_scope.

(** ** C67 Cross sections *)
Theorem c67_I : forall t b w, 0 < t -> 0 <= b -> 0 < w -> exists p,
  to_profile (GI t b) (Some w) = Ok p /\ area_from_profile p = Ok (b * t).
Proof.
  intros t b w T B W.
  destruct (line_groove b [KLine; KLine; KLine] [P (- w) 0; P 0 0; P 0 t; P (- w) t]) as (p & E & L & M & _).
  { cbn. repeat split; try discriminate; intros Q; inversion Q; lra. }
  { repeat constructor. }
  exists p. split; [exact E|]. unfold area_from_profile. rewrite L, M; cbn [bind]. f_equal.
  rewrite (gap_area_is _ _ (- w - b / 2) (w + b / 2) 0 t (w * t) (w * t));
    [field|all_in|find_in|find_in|find_in|find_in|cbn; unfold pdet; cbn; field|cbn; unfold pdet; cbn; field|nra|nra].
Qed.
Print Assumptions c67_I.

Theorem c67_V : forall t alpha c b w, 0 <= c < t -> 0 <= alpha < PI -> 0 <= b -> 0 < w -> exists p,
  to_profile (GV t alpha c b) (Some w) = Ok p /\
  area_from_profile p = Ok (b * t + (t - c) * (t - c) * tan (alpha / 2)).
Proof.
  intros t alpha c b w [C T] A B W. cbn [to_profile]. unfold profile_V.
  assert (K := tan_nonneg (alpha / 2) ltac:(lra)). set (k := tan (alpha / 2)) in *.
  set (s := k * (t - c)).
  assert (S : 0 <= s) by (unfold s; nra).
  destruct (scaled_gt w s W) as (X & X0 & _). set (x := scaled w s) in *.
  assert (Y : 0 <= x * t - s * (t - c) / 2) by nra.
  unfold face, face_kind. destruct (req c 0) eqn:Z; [apply req_true in Z|apply req_false in Z].
  - destruct (line_groove b ([KLine] ++ [] ++ [KLine; KLine]) ([P (- x) 0; P 0 0] ++ [] ++ [P (- s) t; P (- x) t])) as (p & E & L & M & _).
    { cbn. repeat split; try discriminate; ne. }
    { repeat constructor. }
    exists p. split; [exact E|]. unfold area_from_profile. rewrite L, M; cbn [bind]. f_equal.
    rewrite (gap_area_is _ _ (- x - b / 2) (x + b / 2) 0 t (x * t - s * (t - c) / 2) (x * t - s * (t - c) / 2));
      [unfold s; field|all_in|find_in|find_in|find_in|find_in| | |exact Y|exact Y];
      cbn; unfold pdet; cbn; rewrite Z; field.
  - destruct (line_groove b ([KLine] ++ [KLine] ++ [KLine; KLine]) ([P (- x) 0; P 0 0] ++ [P 0 c] ++ [P (- s) t; P (- x) t])) as (p & E & L & M & _).
    { cbn. repeat split; try discriminate; ne. }
    { repeat constructor. }
    exists p. split; [exact E|]. unfold area_from_profile. rewrite L, M; cbn [bind]. f_equal.
    rewrite (gap_area_is _ _ (- x - b / 2) (x + b / 2) 0 t (x * t - s * (t - c) / 2) (x * t - s * (t - c) / 2));
      [unfold s; field|all_in|find_in|find_in|find_in|find_in| | |exact Y|exact Y];
      cbn; unfold pdet; cbn; field.
Qed.
Print Assumptions c67_V.

Theorem c67_HV : forall t beta c b w, 0 <= c < t -> 0 <= beta < PI / 2 -> 0 <= b -> 0 < w -> exists p,
  to_profile (GHV t beta c b) (Some w) = Ok p /\
  area_from_profile p = Ok (b * t + (t - c) * (t - c) * tan beta / 2).
Proof.
  intros t beta c b w [C T] A B W. cbn [to_profile]. unfold profile_HV.
  assert (K := tan_nonneg beta A). set (k := tan beta) in *.
  set (s := k * (t - c)).
  assert (S : 0 <= s) by (unfold s; nra).
  destruct (scaled_gt w s W) as (X & X0 & _). set (x := scaled w s) in *.
  assert (Y : 0 <= x * t - s * (t - c) / 2) by nra. assert (Y2 : 0 <= x * t) by nra.
  unfold face, face_kind. destruct (req c 0) eqn:Z; [apply req_true in Z|apply req_false in Z].
  - destruct (half_groove b x t ([KLine] ++ [] ++ [KLine; KLine]) ([P (- x) 0; P 0 0] ++ [] ++ [P (- s) t; P (- x) t])) as (p & E & L & M);
      [exact X0|lra|cbn; repeat split; try discriminate; ne|repeat constructor|].
    exists p. split; [exact E|]. unfold area_from_profile. rewrite L, M; cbn [bind]. f_equal.
    rewrite (gap_area_is _ _ (- x - b / 2) (x + b / 2) 0 t (x * t) (x * t - s * (t - c) / 2));
      [unfold s; field|all_in|find_in|find_in|find_in|find_in| | |exact Y2|exact Y];
      cbn; unfold pdet; cbn; try rewrite Z; field.
  - destruct (half_groove b x t ([KLine] ++ [KLine] ++ [KLine; KLine]) ([P (- x) 0; P 0 0] ++ [P 0 c] ++ [P (- s) t; P (- x) t])) as (p & E & L & M);
      [exact X0|lra|cbn; repeat split; try discriminate; ne|repeat constructor|].
    exists p. split; [exact E|]. unfold area_from_profile. rewrite L, M; cbn [bind]. f_equal.
    rewrite (gap_area_is _ _ (- x - b / 2) (x + b / 2) 0 t (x * t) (x * t - s * (t - c) / 2));
      [unfold s; field|all_in|find_in|find_in|find_in|find_in| | |exact Y2|exact Y];
      cbn; unfold pdet; cbn; field.
Qed.
Print Assumptions c67_HV.

Theorem c67_DV : forall t alpha1 alpha2 c h1 h2 b w, t = h1 + h2 + c -> 0 <= c -> 0 < h1 -> 0 < h2 ->
  0 <= alpha1 < PI -> 0 <= alpha2 < PI -> 0 <= b -> 0 < w -> exists p,
  to_profile (GDV t alpha1 alpha2 c (Some h1) (Some h2) b) (Some w) = Ok p /\
  area_from_profile p = Ok (b * t + h1 * h1 * tan (alpha1 / 2) + h2 * h2 * tan (alpha2 / 2)).
Proof.
  intros t a1 a2 c h1 h2 b w T C H1 H2 A1 A2 B W. cbn [to_profile]. unfold profile_DV.
  assert (K1 := tan_nonneg (a1 / 2) ltac:(lra)). set (k1 := tan (a1 / 2)) in *.
  assert (K2 := tan_nonneg (a2 / 2) ltac:(lra)). set (k2 := tan (a2 / 2)) in *.
  set (s1 := k1 * h1). set (s2 := k2 * h2).
  assert (S1 : 0 <= s1) by (unfold s1; nra). assert (S2 : 0 <= s2) by (unfold s2; nra).
  destruct (scaled_gt w (Rmax s1 s2) W) as (X & X0 & _). set (x := scaled w (Rmax s1 s2)) in *.
  pose proof (Rmax_l s1 s2). pose proof (Rmax_r s1 s2).
  assert (Y : 0 <= x * t - s1 * h1 / 2 - s2 * h2 / 2) by nra.
  unfold face, face_kind. destruct (req c 0) eqn:Z; [apply req_true in Z|apply req_false in Z].
  - destruct (line_groove b ([KLine; KLine] ++ [] ++ [KLine; KLine])
      ([P (- x) 0; P (- s2) 0; P 0 h2] ++ [] ++ [P (- s1) t; P (- x) t])) as (p & E & L & M & _);
      [cbn; repeat split; try discriminate; ne|repeat constructor|].
    exists p. split; [exact E|]. unfold area_from_profile. rewrite L, M; cbn [bind]. f_equal.
    rewrite (gap_area_is _ _ (- x - b / 2) (x + b / 2) 0 t (x * t - s1 * h1 / 2 - s2 * h2 / 2) (x * t - s1 * h1 / 2 - s2 * h2 / 2));
      [unfold s1, s2; field|all_in|find_in|find_in|find_in|find_in| | |exact Y|exact Y];
      cbn; unfold pdet; cbn; rewrite T, Z; field.
  - destruct (line_groove b ([KLine; KLine] ++ [KLine] ++ [KLine; KLine])
      ([P (- x) 0; P (- s2) 0; P 0 h2] ++ [P 0 (h2 + c)] ++ [P (- s1) t; P (- x) t])) as (p & E & L & M & _);
      [cbn; repeat split; try discriminate; ne|repeat constructor|].
    exists p. split; [exact E|]. unfold area_from_profile. rewrite L, M; cbn [bind]. f_equal.
    rewrite (gap_area_is _ _ (- x - b / 2) (x + b / 2) 0 t (x * t - s1 * h1 / 2 - s2 * h2 / 2) (x * t - s1 * h1 / 2 - s2 * h2 / 2));
      [unfold s1, s2; field|all_in|find_in|find_in|find_in|find_in| | |exact Y|exact Y];
      cbn; unfold pdet; cbn; rewrite T; field.
Qed.
Print Assumptions c67_DV.

(** The area of the VV-Groove is too small by (s1 + s2) * c if the groove has a root
    face, where s1 and s2 are the widths of the two faces. *)
Theorem c67_VV_refuted : forall t alpha beta h c b w, 0 <= c < h -> h + c < t ->
  0 <= alpha < PI -> 0 <= beta < PI / 2 -> 0 <= b -> 0 < w ->
  let s1 := tan (alpha / 2) * (h - c) in
  let s2 := tan beta * (t - h) in
  let gap := b * t + s1 * (h - c) + 2 * s1 * (t - h) + s2 * (t - h) in
  exists p, to_profile (GVV t alpha beta h c b) (Some w) = Ok p /\
    area_from_profile p = Ok (gap - (s1 + s2) * c).
Proof.
  intros t alpha beta h c b w C T A1 A2 B W s1 s2 gap. cbn [to_profile]. unfold profile_VV. fold s1 s2.
  assert (K1 := tan_nonneg (alpha / 2) ltac:(lra)). assert (K2 := tan_nonneg beta A2).
  assert (S1 : 0 <= s1) by (unfold s1; nra). assert (S2 : 0 <= s2) by (unfold s2; nra).
  unfold gap; clearbody s1 s2.
  destruct (scaled_gt w (s1 + s2) W) as (X & X0 & _). set (x := scaled w (s1 + s2)) in *.
  set (A := x * t - s1 * h / 2 - (2 * s1 + s2) * (t - h - c) / 2).
  assert (Y : 0 <= A) by (unfold A; nra).
  unfold face, face_kind. destruct (req c 0) eqn:Z; [apply req_true in Z|apply req_false in Z].
  - destruct (line_groove b ([KLine] ++ [] ++ [KLine; KLine; KLine])
      ([P (- x) 0; P 0 0] ++ [] ++ [P (- s1) (h + c); P (- s1 - s2) t; P (- x) t])) as (p & E & L & M & _);
      [cbn; repeat split; try discriminate; ne|repeat constructor|].
    exists p. split; [exact E|]. unfold area_from_profile. rewrite L, M; cbn [bind]. f_equal.
    rewrite (gap_area_is _ _ (- x - b / 2) (x + b / 2) 0 t A A);
      [unfold A; field|all_in|find_in|find_in|find_in|find_in| | |exact Y|exact Y];
      unfold A; cbn; unfold pdet; cbn; rewrite Z; field.
  - destruct (line_groove b ([KLine] ++ [KLine] ++ [KLine; KLine; KLine])
      ([P (- x) 0; P 0 0] ++ [P 0 c] ++ [P (- s1) (h + c); P (- s1 - s2) t; P (- x) t])) as (p & E & L & M & _);
      [cbn; repeat split; try discriminate; ne|repeat constructor|].
    exists p. split; [exact E|]. unfold area_from_profile. rewrite L, M; cbn [bind]. f_equal.
    rewrite (gap_area_is _ _ (- x - b / 2) (x + b / 2) 0 t A A);
      [unfold A; field|all_in|find_in|find_in|find_in|find_in| | |exact Y|exact Y];
      unfold A; cbn; unfold pdet; cbn; field.
Qed.
Print Assumptions c67_VV_refuted.

(** the property itself uses the default width *)
Theorem c67_cross_sect_area :
  (forall t b, 0 < t -> 0 <= b -> cross_sect_area (GI t b) = Ok (b * t)) /\
  (forall t alpha c b, 0 <= c < t -> 0 <= alpha < PI -> 0 <= b ->
     cross_sect_area (GV t alpha c b) = Ok (b * t + (t - c) * (t - c) * tan (alpha / 2))) /\
  (forall t beta c b, 0 <= c < t -> 0 <= beta < PI / 2 -> 0 <= b ->
     cross_sect_area (GHV t beta c b) = Ok (b * t + (t - c) * (t - c) * tan beta / 2)) /\
  (forall t alpha1 alpha2 c h1 h2 b, t = h1 + h2 + c -> 0 <= c -> 0 < h1 -> 0 < h2 ->
     0 <= alpha1 < PI -> 0 <= alpha2 < PI -> 0 <= b ->
     cross_sect_area (GDV t alpha1 alpha2 c (Some h1) (Some h2) b) =
     Ok (b * t + h1 * h1 * tan (alpha1 / 2) + h2 * h2 * tan (alpha2 / 2))).
Proof.
  split; [|split; [|split]]; intros.
  - destruct (c67_I t b 5) as (p & E & A); try lra. change (to_profile (GI t b) (Some 5)) with (to_profile (GI t b) None) in E.
    unfold cross_sect_area. rewrite E. exact A.
  - destruct (c67_V t alpha c b 2) as (p & E & A); try lra.
    change (to_profile (GV t alpha c b) (Some 2)) with (to_profile (GV t alpha c b) None) in E.
    unfold cross_sect_area. rewrite E. exact A.
  - destruct (c67_HV t beta c b 5) as (p & E & A); try lra.
    change (to_profile (GHV t beta c b) (Some 5)) with (to_profile (GHV t beta c b) None) in E.
    unfold cross_sect_area. rewrite E. exact A.
  - destruct (c67_DV t alpha1 alpha2 c h1 h2 b 5) as (p & E & A); try lra.
    change (to_profile (GDV t alpha1 alpha2 c (Some h1) (Some h2) b) (Some 5)) with
      (to_profile (GDV t alpha1 alpha2 c (Some h1) (Some h2) b) None) in E.
    unfold cross_sect_area. rewrite E. exact A.
Qed.
Print Assumptions c67_cross_sect_area.

(** a V-Groove of 60 degrees without root face *)
Example c67_ex : cross_sect_area (GV 10 (PI / 3) 0 1) = Ok (10 + 100 * tan (PI / 6)).
Proof.
  destruct c67_cross_sect_area as (_ & V & _). pose proof PI_RGT_0. rewrite V by lra. f_equal.
  replace (PI / 3 / 2) with (PI / 6) by field. ring.
Qed.

(** ** C68 Angles of the faces *)
(** V-Groove: gap b at the root, root face of the height c, groove face up to the
    surface that leans by alpha / 2; the right side is the mirror image. *)
Theorem c68_V : forall t alpha c b w, 0 < c < t -> 0 <= alpha < PI -> 0 < w ->
  exists s0 s1 s2 s3 r, to_profile (GV t alpha c b) (Some w) = Ok ([s0; s1; s2; s3], r) /\
    mirror_images [s0; s1; s2; s3] r /\
    connects (P (- b / 2) 0) (P (- b / 2) c) s1 /\
    point_start s2 = P (- b / 2) c /\ py (point_end s2) = t /\
    leans (alpha / 2) (point_start s2) (point_end s2).
Proof.
  intros t alpha c b w [C T] A W. cbn [to_profile]. unfold profile_V.
  assert (K := tan_nonneg (alpha / 2) ltac:(lra)).
  set (s := tan (alpha / 2) * (t - c)). assert (S : 0 <= s) by (unfold s; nra).
  destruct (scaled_gt w s W) as (X & X0 & _). set (x := scaled w s) in *.
  unfold face, face_kind. rewrite (proj2 (req_false c 0)) by lra.
  destruct (translate_reflect_ok b ([KLine] ++ [KLine] ++ [KLine; KLine]) ([P (- x) 0; P 0 0] ++ [P 0 c] ++ [P (- s) t; P (- x) t]))
    as (l & r & E & _ & _ & _ & _ & M & B & F & _); [cbn; repeat split; try discriminate; ne|].
  cbn in B, F. destruct l as [|s0 [|s1 [|s2 [|s3 [|]]]]]; try discriminate B.
  injection B as B0 B1 B2 B3. injection F as F0 F1 F2 F3.
  exists s0, s1, s2, s3, r. split; [exact E|]. split; [exact M|].
  assert (D : forall y, shifted b (P 0 y) = P (- b / 2) y) by (intros y; apply pt_eq; cbn; lra).
  rewrite D in *. split; [split; assumption|]. split; [assumption|]. rewrite F2, B2. split; [reflexivity|].
  apply leans_tan; [lra|cbn; lra|cbn]. unfold s. lra.
Qed.
Print Assumptions c68_V.

(** DV-Groove with t = h1 + h2 + c *)
Theorem c68_DV : forall t alpha1 alpha2 c h1 h2 b w, t = h1 + h2 + c -> 0 < c -> 0 < h1 -> 0 < h2 ->
  0 <= alpha1 < PI -> 0 <= alpha2 < PI -> 0 < w ->
  exists s0 s1 s2 s3 s4 r,
    to_profile (GDV t alpha1 alpha2 c (Some h1) (Some h2) b) (Some w) = Ok ([s0; s1; s2; s3; s4], r) /\
    mirror_images [s0; s1; s2; s3; s4] r /\
    py (point_start s1) = 0 /\ point_end s1 = P (- b / 2) h2 /\
    leans_in (alpha2 / 2) (point_start s1) (point_end s1) /\
    connects (P (- b / 2) h2) (P (- b / 2) (h2 + c)) s2 /\
    point_start s3 = P (- b / 2) (h2 + c) /\ py (point_end s3) = t /\
    leans (alpha1 / 2) (point_start s3) (point_end s3).
Proof.
  intros t a1 a2 c h1 h2 b w T C H1 H2 A1 A2 W. cbn [to_profile]. unfold profile_DV.
  assert (K1 := tan_nonneg (a1 / 2) ltac:(lra)). assert (K2 := tan_nonneg (a2 / 2) ltac:(lra)).
  set (u := tan (a1 / 2) * h1). set (v := tan (a2 / 2) * h2).
  assert (S1 : 0 <= u) by (unfold u; nra). assert (S2 : 0 <= v) by (unfold v; nra).
  destruct (scaled_gt w (Rmax u v) W) as (X & X0 & _). set (x := scaled w (Rmax u v)) in *.
  pose proof (Rmax_l u v). pose proof (Rmax_r u v).
  unfold face, face_kind. rewrite (proj2 (req_false c 0)) by lra.
  destruct (translate_reflect_ok b ([KLine; KLine] ++ [KLine] ++ [KLine; KLine])
      ([P (- x) 0; P (- v) 0; P 0 h2] ++ [P 0 (h2 + c)] ++ [P (- u) t; P (- x) t]))
    as (l & r & E & _ & _ & _ & _ & M & B & F & _); [cbn; repeat split; try discriminate; ne|].
  cbn in B, F. destruct l as [|s0 [|s1 [|s2 [|s3 [|s4 [|]]]]]]; try discriminate B.
  injection B as B0 B1 B2 B3 B4. injection F as F0 F1 F2 F3 F4.
  exists s0, s1, s2, s3, s4, r. split; [exact E|]. split; [exact M|].
  assert (D : forall y, shifted b (P 0 y) = P (- b / 2) y) by (intros y; apply pt_eq; cbn; lra).
  rewrite D in *. rewrite B1, F1. split; [reflexivity|]. split; [reflexivity|].
  split; [apply leans_in_tan; [lra|cbn; lra|cbn; unfold v; lra]|]. split; [split; assumption|].
  split; [assumption|]. rewrite F3, B3. split; [reflexivity|].
  apply leans_tan; [lra|cbn; lra|cbn]. unfold u. replace (t - (h2 + c)) with h1 by lra. lra.
Qed.
Print Assumptions c68_DV.

(** VV-Groove without root face: h is the height of the lower face *)
Theorem c68_VV : forall t alpha beta h b w, 0 < h < t -> 0 <= alpha < PI -> 0 <= beta < PI / 2 -> 0 < w ->
  exists s0 s1 s2 s3 r, to_profile (GVV t alpha beta h 0 b) (Some w) = Ok ([s0; s1; s2; s3], r) /\
    mirror_images [s0; s1; s2; s3] r /\
    point_start s1 = P (- b / 2) 0 /\ py (point_end s1) = h /\ leans (alpha / 2) (point_start s1) (point_end s1) /\
    point_start s2 = point_end s1 /\ py (point_end s2) = t /\ leans beta (point_start s2) (point_end s2).
Proof.
  intros t alpha beta h b w [C T] A1 A2 W. cbn [to_profile]. unfold profile_VV.
  assert (K1 := tan_nonneg (alpha / 2) ltac:(lra)). assert (K2 := tan_nonneg beta A2).
  rewrite Rminus_0_r, Rplus_0_r.
  set (u := tan (alpha / 2) * h). set (v := tan beta * (t - h)).
  assert (S1 : 0 <= u) by (unfold u; nra). assert (S2 : 0 <= v) by (unfold v; nra).
  destruct (scaled_gt w (u + v) W) as (X & X0 & _). set (x := scaled w (u + v)) in *.
  unfold face, face_kind. rewrite (proj2 (req_true 0 0)) by reflexivity.
  destruct (translate_reflect_ok b ([KLine] ++ [] ++ [KLine; KLine; KLine])
      ([P (- x) 0; P 0 0] ++ [] ++ [P (- u) h; P (- u - v) t; P (- x) t]))
    as (l & r & E & _ & _ & _ & _ & M & B & F & _); [cbn; repeat split; try discriminate; ne|].
  cbn in B, F. destruct l as [|s0 [|s1 [|s2 [|s3 [|]]]]]; try discriminate B.
  injection B as B0 B1 B2 B3. injection F as F0 F1 F2 F3.
  exists s0, s1, s2, s3, r. split; [exact E|]. split; [exact M|].
  rewrite B1, F1, B2, F2. split; [apply pt_eq; cbn; lra|]. split; [reflexivity|].
  split; [apply leans_tan; [lra|cbn; lra|cbn; unfold u; lra]|]. split; [reflexivity|].
  split; [reflexivity|]. apply leans_tan; [lra|cbn; lra|cbn]. unfold v. lra.
Qed.
Print Assumptions c68_VV.

(** With a root face the kink of the VV-Groove is at the height h + c instead of h
    (documented: h includes the root face) and no face has the specified angle. *)
Theorem c68_VV_refuted : forall t alpha beta h c b w, 0 < c < h -> h + c < t ->
  0 < alpha < PI -> 0 < beta < PI / 2 -> 0 < w ->
  exists s0 s1 s2 s3 s4 r, to_profile (GVV t alpha beta h c b) (Some w) = Ok ([s0; s1; s2; s3; s4], r) /\
    connects (P (- b / 2) 0) (P (- b / 2) c) s1 /\
    py (point_end s2) = h + c /\ point_start s3 = point_end s2 /\
    ~ leans (alpha / 2) (point_start s2) (point_end s2) /\
    ~ leans beta (point_start s3) (point_end s3).
Proof.
  intros t alpha beta h c b w C T A1 A2 W. cbn [to_profile]. unfold profile_VV.
  assert (K1 := tan_gt_0 (alpha / 2) ltac:(lra) ltac:(lra)). assert (K2 := tan_gt_0 beta ltac:(lra) ltac:(lra)).
  assert (C1 := cos_pos (alpha / 2) ltac:(lra)). assert (C2 := cos_pos beta ltac:(lra)).
  set (u := tan (alpha / 2) * (h - c)). set (v := tan beta * (t - h)).
  assert (S1 : 0 < u) by (unfold u; nra). assert (S2 : 0 < v) by (unfold v; nra).
  destruct (scaled_gt w (u + v) W) as (X & X0 & _). set (x := scaled w (u + v)) in *.
  unfold face, face_kind. rewrite (proj2 (req_false c 0)) by lra.
  destruct (translate_reflect_ok b ([KLine] ++ [KLine] ++ [KLine; KLine; KLine])
      ([P (- x) 0; P 0 0] ++ [P 0 c] ++ [P (- u) (h + c); P (- u - v) t; P (- x) t]))
    as (l & r & E & _ & _ & _ & _ & M & B & F & _); [cbn; repeat split; try discriminate; ne|].
  cbn in B, F. destruct l as [|s0 [|s1 [|s2 [|s3 [|s4 [|]]]]]]; try discriminate B.
  injection B as B0 B1 B2 B3 B4. injection F as F0 F1 F2 F3 F4.
  exists s0, s1, s2, s3, s4, r. split; [exact E|].
  assert (D : forall y, shifted b (P 0 y) = P (- b / 2) y) by (intros y; apply pt_eq; cbn; lra).
  rewrite D in *. split; [split; assumption|]. rewrite F2, B3, B2, F3.
  split; [reflexivity|]. split; [reflexivity|].
  split; intros L; apply leans_is in L; try lra; cbn in L; unfold u, v in L; nra.
Qed.
Print Assumptions c68_VV_refuted.

(** ** C69 Profiles of DU-Grooves *)
(** A DU-Groove that fills the thickness has a profile if it has no root face or equal
    heights; the first condition on the heights says that the arcs end below the
    surfaces. *)
Theorem c69_DU : forall t beta1 beta2 r r2 c h1 h2 b w, t = h1 + h2 + c -> 0 <= c -> 0 < r -> 0 < r2 ->
  0 <= beta1 < PI / 2 -> 0 <= beta2 < PI / 2 ->
  r * (1 - sin beta1) < h1 -> r2 * (1 - sin beta2) < h2 -> 0 < w ->
  c = 0 \/ h1 = h2 ->
  exists l r', to_profile (GDU t beta1 beta2 r r2 c (Some h1) (Some h2) b) (Some w) = Ok (l, r') /\
    Forall seg_ok l /\ Forall seg_ok r' /\ joined l /\ joined r' /\ mirror_images l r'.
Proof.
  intros t be1 be2 r r2 c h1 h2 b w T C R R2 A1 A2 H1 H2 W X. cbn [to_profile]. unfold profile_DU.
  assert (C1 := cos_pos _ A1). assert (C2 := cos_pos _ A2).
  assert (K1 := tan_nonneg _ A1). assert (K2 := tan_nonneg _ A2).
  assert (D1 := circle_dist r be1 0 (h2 + c + r) ltac:(lra)).
  assert (D2 := lower_dist r2 be2 0 (h2 - r2) ltac:(lra)).
  set (x1 := r * cos be1) in *. set (y1 := r * sin be1) in *. set (x2 := r2 * cos be2) in *. set (y2 := r2 * sin be2) in *.
  assert (X1 : 0 < x1) by (unfold x1; nra). assert (X2 : 0 < x2) by (unfold x2; nra).
  assert (G1 : 0 < h1 - (r - y1)) by (unfold y1; lra). assert (G2 : 0 < h2 - (r2 - y2)) by (unfold y2; lra).
  assert (P1 : 0 <= tan be1 * (h1 - (r - y1))) by nra. assert (P2 : 0 <= tan be2 * (h2 - (r2 - y2))) by nra.
  set (s1 := tan be1 * (h1 - (r - y1))) in *. set (s2 := tan be2 * (h2 - (r2 - y2))) in *.
  destruct (scaled_gt w (Rmax (x1 + s1) (x2 + s2)) W) as (Q & Q0 & _).
  set (x := scaled w (Rmax (x1 + s1) (x2 + s2))) in *.
  pose proof (Rmax_l (x1 + s1) (x2 + s2)). pose proof (Rmax_r (x1 + s1) (x2 + s2)).
  assert (E1 : P (- x1) (t - (h1 - (r - y1))) = P (0 - x1) (h2 + c + r - y1)) by (apply pt_eq; cbn; lra).
  assert (E2 : P (- x2) (h2 - (r2 - y2)) = P (0 - x2) (h2 - r2 + y2)) by (apply pt_eq; cbn; lra).
  assert (B2 := above_dist r2 0 (h2 - r2) ltac:(lra)). replace (h2 - r2 + r2) with h2 in B2 by lra.
  assert (B1 := below_dist r 0 (h2 + c + r) ltac:(lra)). replace (h2 + c + r - r) with (h2 + c) in B1 by lra.
  unfold face, face_kind. destruct (req c 0) eqn:Z; [apply req_true in Z|apply req_false in Z].
  - assert (B3 : dist (P 0 h2) (P 0 (h2 + c + r)) = r) by (rewrite <- B1 at 2; do 2 f_equal; lra).
    destruct (translate_reflect_ok b ([KLine; KLine; KArc] ++ [] ++ [KArc; KLine; KLine])
      ([P (- x) 0; P (- (s2 + x2)) 0; P (- x2) (h2 - (r2 - y2)); P 0 (h2 - r2); P 0 h2] ++ [] ++
       [P 0 (h2 + c + r); P (- x1) (t - (h1 - (r - y1))); P (- (s1 + x1)) t; P (- x) t]))
      as (l & r' & E & K & K' & J & J' & M & _).
    + cbn. split; [ne|]. split; [ne|]. split.
      * split; [ne|]. split; [ne|]. split; [ne|]. rewrite E2. congruence.
      * split; [|split; [ne|split; [ne|discriminate]]].
        split; [ne|]. split; [ne|]. split; [ne|]. rewrite E1. congruence.
    + exists l, r'. auto 6.
  - assert (HH : h1 + c = h2 + c) by (destruct X; lra). rewrite HH.
    destruct (translate_reflect_ok b ([KLine; KLine; KArc] ++ [KLine] ++ [KArc; KLine; KLine])
      ([P (- x) 0; P (- (s2 + x2)) 0; P (- x2) (h2 - (r2 - y2)); P 0 (h2 - r2); P 0 h2] ++ [P 0 (h2 + c)] ++
       [P 0 (h2 + c + r); P (- x1) (t - (h1 - (r - y1))); P (- (s1 + x1)) t; P (- x) t]))
      as (l & r' & E & K & K' & J & J' & M & _).
    + cbn. split; [ne|]. split; [ne|]. split.
      * split; [ne|]. split; [ne|]. split; [ne|]. rewrite E2. congruence.
      * split; [ne|]. split; [|split; [ne|split; [ne|discriminate]]].
        split; [ne|]. split; [ne|]. split; [ne|]. rewrite E1. congruence.
    + exists l, r'. auto 6.
Qed.
Print Assumptions c69_DU.

(** With a root face and different heights the upper arc starts at the height h1 + c
    instead of h2 + c; its radii differ and no profile can be created. *)
Theorem c69_DU_refuted : forall t beta1 beta2 r r2 c h1 h2 b w, t = h1 + h2 + c -> c <> 0 -> 0 < r ->
  / 100000000 < Rabs (h1 - h2) -> h1 - h2 <= r ->
  to_profile (GDU t beta1 beta2 r r2 c (Some h1) (Some h2) b) (Some w) = Err ValueError.
Proof.
  intros t be1 be2 r r2 c h1 h2 b w T C R D L. cbn [to_profile]. unfold profile_DU.
  unfold face, face_kind. rewrite (proj2 (req_false c 0) C).
  unfold translate_reflect, helper. cbn [app segments_of].
  match goal with |- context [mk_line ?a ?b] => destruct (mk_line_cases a b) as [[_ M]|[_ M]]; rewrite M end;
    [cbn [bind]|reflexivity]. clear M.
  match goal with |- context [mk_line ?a ?b] => destruct (mk_line_cases a b) as [[_ M]|[_ M]]; rewrite M end;
    [cbn [bind]|reflexivity]. clear M.
  match goal with |- context [mk_arc ?a ?b ?c ?d] => destruct (mk_arc_cases a b c d) as [[sg M]|M]; rewrite M end;
    [cbn [bind]|reflexivity]. clear M.
  match goal with |- context [mk_line ?a ?b] => destruct (mk_line_cases a b) as [[_ M]|[_ M]]; rewrite M end;
    [cbn [bind]|reflexivity]. clear M.
  match goal with |- context [mk_arc ?a ?b ?c ?d] => destruct (mk_arc_cases a b c d) as [[sg2 M]|M]; [exfalso|rewrite M; reflexivity] end.
  destruct (c57_arc _ _ _ _ _ M) as (_ & Q & Q2 & _). rewrite Q in Q2.
  replace (P (- (r * cos be1)) (t - (h1 - (r - r * sin be1)))) with (P (0 - r * cos be1) (h2 + c + r - r * sin be1)) in Q2
    by (apply pt_eq; cbn; lra).
  rewrite circle_dist in Q2 by lra.
  assert (Q3 : dist (P 0 (h1 + c)) (P 0 (h2 + c + r)) = h2 + r - h1) by (apply dist_eq_sq; cbn; [lra|ring]).
  rewrite Q3 in Q2. replace (r - (h2 + r - h1)) with (h1 - h2) in Q2 by ring. lra.
Qed.
Print Assumptions c69_DU_refuted.

Example c69_ex : (exists p, to_profile (GDU 30 (PI / 6) (PI / 6) 5 5 2 (Some 14) (Some 14) 1) (Some 5) = Ok p) /\
  to_profile (GDU 30 (PI / 6) (PI / 6) 5 5 2 (Some 15) (Some 13) 1) (Some 5) = Err ValueError.
Proof.
  pose proof PI_RGT_0. assert (S : 0 < sin (PI / 6)) by (apply sin_gt_0; lra). split.
  - destruct (c69_DU 30 (PI / 6) (PI / 6) 5 5 2 14 14 1 5) as (l & r & E & _); try lra. eauto.
  - apply c69_DU_refuted; try lra. rewrite Rabs_right; lra.
Qed.

(** ** C70 Negative parameters *)
Theorem c70_single : forall g, single g = true ->
  ((exists x, In x (parameters g) /\ x < 0) -> create g = Err ValueError) /\
  ((forall x, In x (parameters g) -> 0 <= x) -> create g = Ok g).
Proof.
  intros g S.
  assert (E : create g = if existsb (fun x => rlt x 0) (parameters g) then Err ValueError else Ok g)
    by (destruct g; try discriminate S; reflexivity).
  rewrite E. split.
  - intros (x & I & N). assert (Q : existsb (fun x => rlt x 0) (parameters g) = true).
    { apply existsb_exists. exists x. split; [exact I|]. apply rlt_true; exact N. }
    rewrite Q; reflexivity.
  - intros H. destruct (existsb _ _) eqn:Q; [|reflexivity]. exfalso.
    apply existsb_exists in Q. destruct Q as (x & I & N). apply rlt_true in N. apply H in I. lra.
Qed.
Print Assumptions c70_single.

(** The same with the quantities written out: exactly the grooves without a negative
    quantity can be created. *)
Theorem c70_exact : forall g, single g = true ->
  (nonneg g <-> create g = Ok g) /\ (~ nonneg g <-> create g = Err ValueError).
Proof.
  intros g S. destruct (c70_single g S) as [N P].
  assert (Q : nonneg g <-> forall x, In x (parameters g) -> 0 <= x).
  { clear N P. destruct g; try discriminate S; cbn [nonneg parameters];
      repeat match goal with o : option R |- _ => destruct o end; cbn [nonneg_opt some_list flat_map app];
      (split; [intros H x I; cbn in I; intuition (subst; auto) | intros H; intuition (apply H; cbn; auto 10)]). }
  assert (D : nonneg g \/ exists x, In x (parameters g) /\ x < 0).
  { destruct (existsb (fun x => rlt x 0) (parameters g)) eqn:E.
    - right. apply existsb_exists in E. destruct E as (x & I & L). apply rlt_true in L. eauto.
    - left. apply Q. intros x I. apply Rnot_lt_le. intros L.
      assert (F : existsb (fun x => rlt x 0) (parameters g) = true)
        by (apply existsb_exists; exists x; split; [exact I | apply rlt_true; exact L]).
      rewrite E in F; discriminate F. }
  destruct D as [D|D].
  - pose proof (P (proj1 Q D)) as C. rewrite C. split; split; intros; [reflexivity|exact D|contradiction|discriminate].
  - pose proof (N D) as C. rewrite C. assert (X : ~ nonneg g).
    { intros H. destruct D as (x & I & L). pose proof (proj1 Q H x I). lra. }
    split; split; intros; [contradiction|discriminate|reflexivity|exact X].
Qed.
Print Assumptions c70_exact.

(** The double sided grooves accept everything: they replace [__post_init__]. *)
Theorem c70_double_refuted : forall g, single g = false -> exists g', create g = Ok g' /\
  forall x, In x (parameters g) -> In x (parameters g').
Proof.
  intros g S. destruct g; try discriminate S; cbn [create]; destruct h1 as [h1|], h2 as [h2|]; cbn [default_heights];
    eexists; (split; [reflexivity|]); cbn; intros x I; tauto.
Qed.
Print Assumptions c70_double_refuted.
Example c70_ex : create (GV 1 1 (-1) 0) = Err ValueError /\ create (GI 1 0) = Ok (GI 1 0) /\
  create (GDV (-1) (-1) (-1) 0 (Some 1) (Some 1) (-1)) = Ok (GDV (-1) (-1) (-1) 0 (Some 1) (Some 1) (-1)).
Proof.
  split; [|split; [|reflexivity]].
  - apply (c70_single (GV 1 1 (-1) 0) eq_refl). exists (-1). split; [cbn; auto|lra].
  - apply (c70_single (GI 1 0) eq_refl). intros x [<-|[<-|[]]]; lra.
Qed.

(** ** C71 Default heights *)
Theorem c71_none : forall t c k1 k2, default_heights t c None None = (Some k1, Some k2) ->
  k1 = k2 /\ k1 + k2 + c = t.
Proof. intros t c k1 k2 H. injection H as <- <-. split; [reflexivity|field]. Qed.
Print Assumptions c71_none.
(** given heights are kept *)
Theorem c71_given : forall t c h1 h2 k1 k2, default_heights t c h1 h2 = (k1, k2) ->
  (h1 <> None -> k1 = h1) /\ (h2 <> None -> k2 = h2) /\ k1 <> None /\ k2 <> None.
Proof.
  intros t c [h1|] [h2|] k1 k2 H; injection H as <- <-; repeat split; try congruence; discriminate.
Qed.
Print Assumptions c71_given.
(** If only one height is given, the other one is a copy and not the rest. *)
Theorem c71_one_refuted : forall t c h,
  default_heights t c (Some h) None = (Some h, Some h) /\ default_heights t c None (Some h) = (Some h, Some h) /\
  (h + h + c = t <-> h = (t - c) / 2).
Proof. intros t c h. split; [reflexivity|]. split; [reflexivity|]. lra. Qed.
Print Assumptions c71_one_refuted.
(** all double sided classes complete their heights with this function *)
Theorem c71_create : forall t a1 a2 r r2 c h1 h2 b, let '(k1, k2) := default_heights t c h1 h2 in
  create (GDV t a1 a2 c h1 h2 b) = Ok (GDV t a1 a2 c k1 k2 b) /\
  create (GDHV t a1 a2 c h1 h2 b) = Ok (GDHV t a1 a2 c k1 k2 b) /\
  create (GDU t a1 a2 r r2 c h1 h2 b) = Ok (GDU t a1 a2 r r2 c k1 k2 b) /\
  create (GDHU t a1 a2 r r2 c h1 h2 b) = Ok (GDHU t a1 a2 r r2 c k1 k2 b).
Proof. intros. cbn [create]. destruct (default_heights t c h1 h2). auto. Qed.
Print Assumptions c71_create.
Example c71_ex : default_heights 10 2 None None = (Some 4, Some 4).
Proof. cbn. replace ((10 - 2) / 2) with 4 by field. reflexivity. Qed.

(** ** C72 Half grooves *)
(** The area of a DHV-Groove is right for every width ... *)
Theorem c72_DHV_area : forall t beta1 beta2 c h1 h2 b w, t = h1 + h2 + c -> 0 <= c -> 0 < h1 -> 0 < h2 ->
  0 <= beta1 < PI / 2 -> 0 <= beta2 < PI / 2 -> 0 <= b -> 0 < w -> exists p,
  to_profile (GDHV t beta1 beta2 c (Some h1) (Some h2) b) (Some w) = Ok p /\
  area_from_profile p = Ok (b * t + h1 * h1 * tan beta1 / 2 + h2 * h2 * tan beta2 / 2).
Proof.
  intros t a1 a2 c h1 h2 b w T C H1 H2 A1 A2 B W. cbn [to_profile]. unfold half_of, profile_DV.
  replace (a1 * 2 / 2) with a1 by field. replace (a2 * 2 / 2) with a2 by field.
  assert (K1 := tan_nonneg a1 A1). set (k1 := tan a1) in *.
  assert (K2 := tan_nonneg a2 A2). set (k2 := tan a2) in *.
  set (s1 := k1 * h1). set (s2 := k2 * h2).
  assert (S1 : 0 <= s1) by (unfold s1; nra). assert (S2 : 0 <= s2) by (unfold s2; nra).
  destruct (scaled_gt w (Rmax s1 s2) W) as (X & X0 & XW). set (x := scaled w (Rmax s1 s2)) in *.
  pose proof (Rmax_l s1 s2). pose proof (Rmax_r s1 s2).
  assert (Y : 0 <= x * t - s1 * h1 / 2 - s2 * h2 / 2) by nra. assert (Y2 : 0 <= w * t) by nra.
  destruct (rectangle_points w b t W ltac:(lra)) as (rc & RE & RL).
  unfold face, face_kind. destruct (req c 0) eqn:Z; [apply req_true in Z|apply req_false in Z].
  - destruct (line_groove b ([KLine; KLine] ++ [] ++ [KLine; KLine])
      ([P (- x) 0; P (- s2) 0; P 0 h2] ++ [] ++ [P (- s1) t; P (- x) t])) as (p & E & L & M & _);
      [cbn; repeat split; try discriminate; ne|repeat constructor|].
    exists (rc, snd p). rewrite E; cbn [bind]; rewrite RE. split; [reflexivity|].
    unfold area_from_profile. cbn [fst snd]. rewrite RL, M; cbn [bind]. f_equal.
    rewrite (gap_area_is _ _ (- w - b / 2) (x + b / 2) 0 t (w * t) (x * t - s1 * h1 / 2 - s2 * h2 / 2));
      [unfold s1, s2; field|all_in|find_in|find_in|find_in|find_in| | |exact Y2|exact Y];
      cbn; unfold pdet; cbn; try rewrite T, Z; field.
  - destruct (line_groove b ([KLine; KLine] ++ [KLine] ++ [KLine; KLine])
      ([P (- x) 0; P (- s2) 0; P 0 h2] ++ [P 0 (h2 + c)] ++ [P (- s1) t; P (- x) t])) as (p & E & L & M & _);
      [cbn; repeat split; try discriminate; ne|repeat constructor|].
    exists (rc, snd p). rewrite E; cbn [bind]; rewrite RE. split; [reflexivity|].
    unfold area_from_profile. cbn [fst snd]. rewrite RL, M; cbn [bind]. f_equal.
    rewrite (gap_area_is _ _ (- w - b / 2) (x + b / 2) 0 t (w * t) (x * t - s1 * h1 / 2 - s2 * h2 / 2));
      [unfold s1, s2; field|all_in|find_in|find_in|find_in|find_in| | |exact Y2|exact Y];
      cbn; unfold pdet; cbn; try rewrite T; field.
Qed.
Print Assumptions c72_DHV_area.

(** ... but the two sides only have the same extent if the width was not enlarged. *)
Theorem c72_DHV_width : forall t beta1 beta2 c h1 h2 b w, t = h1 + h2 + c -> 0 < c -> 0 < h1 -> 0 < h2 ->
  0 <= beta1 < PI / 2 -> 0 <= beta2 < PI / 2 -> 0 < w ->
  let s := Rmax (tan beta1 * h1) (tan beta2 * h2) in
  exists l r, to_profile (GDHV t beta1 beta2 c (Some h1) (Some h2) b) (Some w) = Ok (l, r) /\
    leftmost (- (w + b / 2)) l /\
    (s + 1 < w -> rightmost (w + b / 2) r) /\ (w <= s + 1 -> rightmost (w + s + b / 2) r).
Proof.
  intros t a1 a2 c h1 h2 b w T C H1 H2 A1 A2 W s. cbn [to_profile]. unfold half_of, profile_DV.
  replace (a1 * 2 / 2) with a1 by field. replace (a2 * 2 / 2) with a2 by field.
  assert (K1 := tan_nonneg a1 A1). assert (K2 := tan_nonneg a2 A2).
  fold s. set (s1 := tan a1 * h1) in *. set (s2 := tan a2 * h2) in *.
  assert (S1 : 0 <= s1) by (unfold s1; nra). assert (S2 : 0 <= s2) by (unfold s2; nra).
  destruct (scaled_gt w s W) as (X & X0 & XW).
  assert (ML := Rmax_l s1 s2). assert (MR := Rmax_r s1 s2). fold s in ML, MR.
  assert (SC : (s + 1 < w -> scaled w s = w) /\ (w <= s + 1 -> scaled w s = w + s)).
  { unfold scaled. rewrite Rmax_left by lra.
    split; intros Q; [rewrite (proj2 (rle_false w (s + 1)))|rewrite (proj2 (rle_true w (s + 1)))]; auto. }
  set (x := scaled w s) in *.
  destruct (rectangle_points w b t W ltac:(lra)) as (rc & RE & _).
  unfold face, face_kind. rewrite (proj2 (req_false c 0)) by lra.
  assert (PO : path_ok ([KLine; KLine] ++ [KLine] ++ [KLine; KLine])
      ([P (- x) 0; P (- s2) 0; P 0 h2] ++ [P 0 (h2 + c)] ++ [P (- s1) t; P (- x) t]))
    by (cbn; repeat split; try discriminate; ne).
  destruct (translate_reflect_ok b _ _ PO) as (l & r & E & _ & _ & _ & _ & M & B & F & _).
  exists rc, r. rewrite E; cbn [bind]; rewrite RE. split; [reflexivity|].
  split; [exact (rectangle_leftmost w b t rc W ltac:(lra) RE)|].
  assert (RM : rightmost (x + b / 2) r).
  { apply (mirrored_rightmost b x _ _ l r ltac:(lra) M B F PO); [discriminate|all_in]. }
  destruct SC as [SC1 SC2]. split; intros Q; [rewrite <- (SC1 Q)|rewrite <- (SC2 Q)]; exact RM.
Qed.
Print Assumptions c72_DHV_width.
Theorem c72_DHV_width_refuted : exists g l r x y, to_profile g (Some 5) = Ok (l, r) /\
  leftmost (- x) l /\ rightmost y r /\ x < y.
Proof.
  pose proof PI_RGT_0.
  destruct (c72_DHV_width 21 (PI / 4) (PI / 4) 1 10 10 0 5) as (l & r & E & L & _ & R); try lra.
  assert (S : Rmax (tan (PI / 4) * 10) (tan (PI / 4) * 10) = 10).
  { rewrite Rmax_left by lra. rewrite tan_PI4. lra. }
  rewrite S in R. exists (GDHV 21 (PI / 4) (PI / 4) 1 (Some 10) (Some 10) 0), l, r, (5 + 0 / 2), (5 + 10 + 0 / 2).
  split; [exact E|]. split; [exact L|]. split; [apply R; lra|lra].
Qed.
Print Assumptions c72_DHV_width_refuted.
(** the same for the DHU-Groove *)
Theorem c72_DHU_width : forall t beta1 beta2 r r2 c h b w, t = h + h + c -> 0 < c -> 0 < r -> 0 < r2 ->
  0 <= beta1 < PI / 2 -> 0 <= beta2 < PI / 2 ->
  r * (1 - sin beta1) < h -> r2 * (1 - sin beta2) < h -> 0 < w ->
  let s := Rmax (r * cos beta1 + tan beta1 * (h - (r - r * sin beta1)))
                (r2 * cos beta2 + tan beta2 * (h - (r2 - r2 * sin beta2))) in
  exists l rs, to_profile (GDHU t beta1 beta2 r r2 c (Some h) (Some h) b) (Some w) = Ok (l, rs) /\
    leftmost (- (w + b / 2)) l /\
    (s + 1 < w -> rightmost (w + b / 2) rs) /\ (w <= s + 1 -> rightmost (w + s + b / 2) rs).
Proof.
  intros t be1 be2 r r2 c h b w T C R R2 A1 A2 H1 H2 W s. cbn [to_profile]. unfold half_of, profile_DU. fold s.
  assert (C1 := cos_pos _ A1). assert (C2 := cos_pos _ A2).
  assert (K1 := tan_nonneg _ A1). assert (K2 := tan_nonneg _ A2).
  assert (HP : 0 < h) by (pose proof (SIN_bound be1); nra).
  assert (D1 := circle_dist r be1 0 (h + c + r) ltac:(lra)).
  assert (D2 := lower_dist r2 be2 0 (h - r2) ltac:(lra)).
  set (x1 := r * cos be1) in *. set (y1 := r * sin be1) in *. set (x2 := r2 * cos be2) in *. set (y2 := r2 * sin be2) in *.
  assert (X1 : 0 < x1) by (unfold x1; nra). assert (X2 : 0 < x2) by (unfold x2; nra).
  assert (G1 : 0 < h - (r - y1)) by (unfold y1; lra). assert (G2 : 0 < h - (r2 - y2)) by (unfold y2; lra).
  assert (P1 : 0 <= tan be1 * (h - (r - y1))) by nra. assert (P2 : 0 <= tan be2 * (h - (r2 - y2))) by nra.
  set (s1 := tan be1 * (h - (r - y1))) in *. set (s2 := tan be2 * (h - (r2 - y2))) in *.
  assert (ML := Rmax_l (x1 + s1) (x2 + s2)). assert (MR := Rmax_r (x1 + s1) (x2 + s2)). fold s in ML, MR.
  destruct (scaled_gt w s W) as (Q & Q0 & _).
  assert (SC : (s + 1 < w -> scaled w s = w) /\ (w <= s + 1 -> scaled w s = w + s)).
  { unfold scaled. rewrite Rmax_left by lra.
    split; intros Z; [rewrite (proj2 (rle_false w (s + 1)))|rewrite (proj2 (rle_true w (s + 1)))]; auto. }
  set (x := scaled w s) in *.
  assert (E1 : P (- x1) (t - (h - (r - y1))) = P (0 - x1) (h + c + r - y1)) by (apply pt_eq; cbn; lra).
  assert (E2 : P (- x2) (h - (r2 - y2)) = P (0 - x2) (h - r2 + y2)) by (apply pt_eq; cbn; lra).
  assert (B2 := above_dist r2 0 (h - r2) ltac:(lra)). replace (h - r2 + r2) with h in B2 by lra.
  assert (B1 := below_dist r 0 (h + c + r) ltac:(lra)). replace (h + c + r - r) with (h + c) in B1 by lra.
  destruct (rectangle_points w b t W ltac:(lra)) as (rc & RE & _).
  unfold face, face_kind. rewrite (proj2 (req_false c 0)) by lra.
  assert (PO : path_ok ([KLine; KLine; KArc] ++ [KLine] ++ [KArc; KLine; KLine])
      ([P (- x) 0; P (- (s2 + x2)) 0; P (- x2) (h - (r2 - y2)); P 0 (h - r2); P 0 h] ++ [P 0 (h + c)] ++
       [P 0 (h + c + r); P (- x1) (t - (h - (r - y1))); P (- (s1 + x1)) t; P (- x) t])).
  { cbn. split; [ne|]. split; [ne|]. split.
    - split; [ne|]. split; [ne|]. split; [ne|]. rewrite E2. congruence.
    - split; [ne|]. split; [|split; [ne|split; [ne|discriminate]]].
      split; [ne|]. split; [ne|]. split; [ne|]. rewrite E1. congruence. }
  destruct (translate_reflect_ok b _ _ PO) as (l & rs & E & _ & _ & _ & _ & M & B & F & _).
  exists rc, rs. rewrite E; cbn [bind]; rewrite RE. split; [reflexivity|].
  split; [exact (rectangle_leftmost w b t rc W ltac:(lra) RE)|].
  assert (RM : rightmost (x + b / 2) rs).
  { apply (mirrored_rightmost b x _ _ l rs ltac:(lra) M B F PO); [discriminate|all_in]. }
  destruct SC as [SC1 SC2]. split; intros Z; [rewrite <- (SC1 Z)|rewrite <- (SC2 Z)]; exact RM.
Qed.
Print Assumptions c72_DHU_width.

(** ** C73 Welding speed *)
Theorem c73_balance : forall g feed d area v, cross_sect_area g = Ok area -> welding_speed g feed d = Ok v ->
  v * area = PI / 4 * (d * d) * feed.
Proof.
  intros g feed d area v A H. unfold welding_speed in H. rewrite A in H; cbn [bind] in H.
  destruct (req area 0) eqn:E; [discriminate|]. apply req_false in E. injection H as <-. field. exact E.
Qed.
Print Assumptions c73_balance.
Theorem c73_total : forall g feed d area, cross_sect_area g = Ok area -> area <> 0 ->
  exists v, welding_speed g feed d = Ok v.
Proof.
  intros g feed d area A N. unfold welding_speed. rewrite A; cbn [bind].
  rewrite (proj2 (req_false area 0) N). eauto.
Qed.
Print Assumptions c73_total.
Theorem c73_linear : forall g feed d k m v, welding_speed g feed d = Ok v ->
  welding_speed g (k * feed) (m * d) = Ok (k * (m * m) * v).
Proof.
  intros g feed d k m v H. unfold welding_speed in *. destruct (cross_sect_area g) as [a|]; [|discriminate].
  cbn [bind] in *. destruct (req a 0) eqn:E; [discriminate|]. apply req_false in E.
  injection H as <-. f_equal. field. exact E.
Qed.
Print Assumptions c73_linear.
(** the two grooves have areas in the ratio k *)
Theorem c73_inverse : forall g g' a k feed d v, cross_sect_area g = Ok a -> cross_sect_area g' = Ok (k * a) -> k <> 0 ->
  welding_speed g feed d = Ok v -> welding_speed g' feed d = Ok (v / k).
Proof.
  intros g g' a k feed d v A A' K H. unfold welding_speed in *. rewrite A in H. rewrite A'. cbn [bind] in *.
  destruct (req a 0) eqn:E; [discriminate|]. apply req_false in E. injection H as <-.
  rewrite (proj2 (req_false (k * a) 0)).
  - f_equal. field. auto.
  - intros Q. apply Rmult_integral in Q. tauto.
Qed.
Print Assumptions c73_inverse.
Example c73_ex : welding_speed (GI 10 2) 8 1 = Ok (PI / 10).
Proof.
  destruct c67_cross_sect_area as (I & _). unfold welding_speed. rewrite I by lra. cbn [bind].
  rewrite (proj2 (req_false (2 * 10) 0)) by lra. f_equal. field.
Qed.

(** ** C78 Profiles of U-, HU- and UV-Grooves *)
(** The bevel starts with the specified radius above the root face (center above the
    edge of the root face) and continues with a face that leans by beta, tangentially
    to the arc. *)
Lemma path_U : forall t beta r c x, 0 <= c -> 0 < r -> 0 <= beta < PI / 2 -> c + r * (1 - sin beta) < t ->
  r * cos beta + tan beta * (t - (c + r - r * sin beta)) < x ->
  path_ok (kinds_U c) (points_U t beta r c x).
Proof.
  intros t beta r c x C R A H X. unfold kinds_U, points_U.
  assert (C1 := cos_pos _ A). assert (K1 := tan_nonneg _ A).
  assert (D1 := circle_dist r beta 0 (c + r) ltac:(lra)).
  assert (B1 := below_dist r 0 (c + r) ltac:(lra)). replace (c + r - r) with c in B1 by lra.
  set (x1 := r * cos beta) in *. set (y1 := r * sin beta) in *.
  assert (X1 : 0 < x1) by (unfold x1; nra). assert (G1 : 0 < t - (c + r - y1)) by (unfold y1; lra).
  assert (P1 : 0 <= tan beta * (t - (c + r - y1))) by nra. set (s := tan beta * (t - (c + r - y1))) in *.
  assert (E1 : P (- x1) (c + r - y1) = P (0 - x1) (c + r - y1)) by (apply pt_eq; cbn; lra).
  unfold face, face_kind. destruct (req c 0) eqn:Z; [apply req_true in Z|apply req_false in Z]; cbn.
  - split; [ne|]. split; [|split; [ne|split; [ne|discriminate]]].
    split; [ne|]. split; [ne|]. split; [ne|]. rewrite E1, D1. rewrite <- B1 at 1. do 2 f_equal; lra.
  - split; [ne|]. split; [ne|]. split; [|split; [ne|split; [ne|discriminate]]].
    split; [ne|]. split; [ne|]. split; [ne|]. rewrite E1. congruence.
Qed.
Theorem c78_U : forall t beta r c b w, 0 <= c -> 0 < r -> 0 <= beta < PI / 2 -> c + r * (1 - sin beta) < t -> 0 < w ->
  exists pre arc line top r', to_profile (GU t beta r c b) (Some w) = Ok (pre ++ [arc; line; top], r') /\
    mirror_images (pre ++ [arc; line; top]) r' /\ joined (pre ++ [arc; line; top]) /\
    (forall x, dist (get_point arc x) (P (- b / 2) (c + r)) = r) /\
    connects (P (- b / 2) c) (P (- b / 2 - r * cos beta) (c + r - r * sin beta)) arc /\
    point_start line = P (- b / 2 - r * cos beta) (c + r - r * sin beta) /\ py (point_end line) = t /\
    leans beta (point_start line) (point_end line).
Proof.
  intros t beta r c b w C R A H W. cbn [to_profile]. unfold profile_U.
  set (x := width_U t beta r c w).
  destruct (scaled_gt w (r * cos beta + tan beta * (t - (c + r - r * sin beta))) W) as (X & _).
  fold (width_U t beta r c w) in X. fold x in X.
  assert (PO := path_U t beta r c x C R A H X).
  destruct (translate_reflect_ok b _ _ PO) as (l & r' & E & _ & _ & J & _ & M & B & F & _).
  assert (CI := groove_circles _ _ _ _ _ PO E).
  assert (B1 := below_dist r 0 (c + r) ltac:(lra)). replace (c + r - r) with c in B1 by lra.
  assert (D : forall y, shifted b (P 0 y) = P (- b / 2) y) by (intros y; apply pt_eq; cbn; lra).
  assert (D2 : forall y, shifted b (P (- (r * cos beta)) y) = P (- b / 2 - r * cos beta) y) by (intros y; apply pt_eq; cbn; lra).
  assert (L : forall z y y2, y2 - y = t - (c + r - r * sin beta) -> y < y2 ->
    leans beta (P (- b / 2 - r * cos beta) y) (shifted b (P (- (r * cos beta) - tan beta * (t - (c + r - r * sin beta))) y2)) \/ z = 0).
  { intros z y y2 Q Q2. left. apply leans_tan; [exact A|cbn; exact Q2|cbn]. rewrite Q. lra. }
  unfold kinds_U, points_U, face, face_kind in *. destruct (req c 0) eqn:Z; [apply req_true in Z|apply req_false in Z].
  - cbn in B, F, CI. destruct l as [|s0 [|s1 [|s2 [|s3 [|]]]]]; try discriminate B.
    injection B as B0 B1' B2 B3. injection F as F0 F1 F2 F3. destruct CI as [CI _].
    exists [s0], s1, s2, s3, r'. split; [exact E|]. split; [exact M|]. split; [exact J|].
    rewrite D in *. rewrite D2 in *.
    split; [intros z; rewrite CI; rewrite <- B1; do 2 f_equal; lra|].
    split; [split; [rewrite B1'; f_equal; lra|assumption]|]. rewrite B2, F2.
    split; [reflexivity|]. split; [reflexivity|].
    destruct (L 1 (c + r - r * sin beta) t) as [Q|Q]; [lra|lra|exact Q|lra].
  - cbn in B, F, CI. destruct l as [|s0 [|s00 [|s1 [|s2 [|s3 [|]]]]]]; try discriminate B.
    injection B as B0 B00 B1' B2 B3. injection F as F0 F00 F1 F2 F3. destruct CI as [CI _].
    exists [s0; s00], s1, s2, s3, r'. split; [exact E|]. split; [exact M|]. split; [exact J|].
    rewrite D in *. rewrite D2 in *.
    split; [intros z; rewrite CI; exact B1|].
    split; [split; assumption|]. rewrite B2, F2.
    split; [reflexivity|]. split; [reflexivity|].
    destruct (L 1 (c + r - r * sin beta) t) as [Q|Q]; [lra|lra|exact Q|lra].
Qed.
Print Assumptions c78_U.

(** the HU-Groove: a rectangle and the right workpiece of the U-Groove *)
Theorem c78_HU : forall t beta r c b w l rs, 0 <= c -> 0 < r -> 0 <= beta < PI / 2 -> c + r * (1 - sin beta) < t -> 0 < w ->
  to_profile (GU t beta r c b) (Some w) = Ok (l, rs) ->
  exists lh x, to_profile (GHU t beta r c b) (Some w) = Ok (lh, rs) /\ Forall is_line lh /\
    map point_start lh = [P (- x - b / 2) 0; P (- (b / 2)) 0; P (- (b / 2)) t] /\
    map point_end lh = [P (- (b / 2)) 0; P (- (b / 2)) t; P (- x - b / 2) t] /\
    rightmost (x + b / 2) rs.
Proof.
  intros t beta r c b w l rs C R A H W E. cbn [to_profile] in *. unfold profile_HU, profile_U in *.
  set (x := width_U t beta r c w) in *.
  destruct (scaled_gt w (r * cos beta + tan beta * (t - (c + r - r * sin beta))) W) as (X & X0 & _).
  fold (width_U t beta r c w) in X, X0. fold x in X, X0.
  assert (T : 0 < t) by (pose proof (SIN_bound beta); nra).
  destruct (rectangle_ok x b t X0 T) as (lh & RE & _ & _ & L & S & N).
  exists lh, x. unfold half. rewrite E; cbn [bind]. rewrite RE. split; [reflexivity|].
  split; [exact L|]. split; [exact S|]. split; [exact N|].
  assert (PO := path_U t beta r c x C R A H X).
  destruct (translate_reflect_ok b _ _ PO) as (l' & r' & E' & _ & _ & _ & _ & M & B & F & _).
  assert (EQ : l = l' /\ rs = r') by (rewrite E in E'; injection E'; auto). destruct EQ; subst l' r'.
  assert (C1 := cos_pos _ A). assert (K1 := tan_nonneg _ A).
  assert (P1 : 0 <= tan beta * (t - (c + r - r * sin beta))) by nra. assert (P2 : 0 < r * cos beta) by nra.
  change (points_U t beta r c x) with (P (- x) 0 :: tl (points_U t beta r c x)) in *.
  apply (mirrored_rightmost b x _ _ l rs ltac:(lra) M B F PO); [discriminate|].
  unfold kinds_U, points_U, face, face_kind. destruct (req c 0); all_in.
Qed.
Print Assumptions c78_HU.

Theorem c78_UV : forall t alpha beta r h b w, 0 < h -> 0 < r -> 0 <= alpha < PI -> 0 <= beta < PI / 2 ->
  tan (alpha / 2) * h < r * cos beta -> 0 < w ->
  let x1 := tan (alpha / 2) * h in
  let y := h + sqrt (r * r - x1 * x1) in
  y - r * sin beta < t ->
  exists s0 s1 arc s3 s4 r', to_profile (GUV t alpha beta r h b) (Some w) = Ok ([s0; s1; arc; s3; s4], r') /\
    mirror_images [s0; s1; arc; s3; s4] r' /\ joined [s0; s1; arc; s3; s4] /\
    point_start s1 = P (- b / 2) 0 /\ py (point_end s1) = h /\ leans (alpha / 2) (point_start s1) (point_end s1) /\
    (forall x, dist (get_point arc x) (P (- b / 2) y) = r) /\
    point_start s3 = P (- b / 2 - r * cos beta) (y - r * sin beta) /\ py (point_end s3) = t /\
    leans beta (point_start s3) (point_end s3).
Proof.
  intros t alpha beta r h b w H R A1 A2 L W x1 y T. cbn [to_profile]. unfold profile_UV. fold x1. fold y.
  assert (C1 := cos_pos _ A2). assert (K1 := tan_nonneg (alpha / 2) ltac:(lra)). assert (K2 := tan_nonneg _ A2).
  fold x1 in L. assert (X0 : 0 <= x1) by (unfold x1; nra).
  pose proof (COS_bound beta) as CB.
  assert (CR : 0 <= r * (1 - cos beta)) by (apply Rmult_le_pos; lra).
  assert (XR : x1 * x1 <= r * r) by (apply Rmult_le_compat; lra).
  assert (D0 := sqrt_circle r x1 h ltac:(lra) XR). fold y in D0.
  assert (D1 := circle_dist r beta 0 y ltac:(lra)).
  assert (P1 : 0 <= (t - (y - r * sin beta)) * tan beta) by nra.
  set (u := (t - (y - r * sin beta)) * tan beta) in *.
  destruct (scaled_gt w (- (- (r * cos beta) - u)) W) as (X & XP & _).
  set (x := scaled w (- (- (r * cos beta) - u))) in *.
  assert (E1 : P (- (r * cos beta)) (y - r * sin beta) = P (0 - r * cos beta) (y - r * sin beta)) by (apply pt_eq; cbn; lra).
  assert (PO : path_ok [KLine; KLine; KArc; KLine; KLine]
    [P (- x) 0; P 0 0; P (- x1) h; P 0 y; P (- (r * cos beta)) (y - r * sin beta); P (- (r * cos beta) - u) t; P (- x) t]).
  { cbn. split; [ne|]. split; [ne|]. split; [|split; [ne|split; [ne|discriminate]]].
    split; [ne|]. split; [|split; [ne|rewrite E1; congruence]].
    intros Q. rewrite Q in D0. assert (Z : dist (P 0 y) (P 0 y) = 0) by (apply dist_zero; reflexivity). lra. }
  destruct (translate_reflect_ok b _ _ PO) as (l & r' & E & _ & _ & J & _ & M & B & F & _).
  assert (CI := groove_circles _ _ _ _ _ PO E).
  cbn in B, F, CI. destruct l as [|s0 [|s1 [|s2 [|s3 [|s4 [|]]]]]]; try discriminate B.
  injection B as B0 B1 B2 B3 B4. injection F as F0 F1 F2 F3 F4. destruct CI as [CI _].
  exists s0, s1, s2, s3, s4, r'. split; [exact E|]. split; [exact M|]. split; [exact J|].
  assert (D : forall z, shifted b (P 0 z) = P (- b / 2) z) by (intros z; apply pt_eq; cbn; lra).
  rewrite D in *. rewrite B1, F1. split; [reflexivity|]. split; [reflexivity|].
  split; [apply leans_tan; [lra|cbn; lra|cbn; unfold x1; lra]|].
  split; [intros z; rewrite CI; exact D0|]. rewrite B3, F3. split; [apply pt_eq; cbn; lra|].
  split; [reflexivity|]. apply leans_tan; [exact A2|cbn; lra|cbn]. unfold u. lra.
Qed.
Print Assumptions c78_UV.

(** Without a given width the profile has the documented one, so the theorems above
    cover it. *)
Theorem c78_default : forall g, to_profile g None = to_profile g (Some (documented_width g)).
Proof. intros []; reflexivity. Qed.
Print Assumptions c78_default.

(** The area of a groove with arcs is the one between the polygons whose points are
    0.1 mm apart. *)
Theorem c78_area : forall g l r a b,
  match g with GUV _ _ _ _ _ _ | GU _ _ _ _ _ | GHU _ _ _ _ _ | GDU _ _ _ _ _ _ _ _ _ | GDHU _ _ _ _ _ _ _ _ _ => True | _ => False end ->
  to_profile g (Some (documented_width g)) = Ok (l, r) -> rasterize l (1 / 10) = Ok a -> rasterize r (1 / 10) = Ok b ->
  cross_sect_area g = Ok (gap_area [a; b]).
Proof.
  intros g l r a b K E A B. rewrite <- c78_default in E. replace (1 / 10) with (/ 10) in * by lra.
  destruct g; try destruct K; cbn [cross_sect_area]; rewrite E; cbn [bind]; unfold area_interpolated; cbn [fst snd]; rewrite A; cbn [bind]; rewrite B; reflexivity.
Qed.
Print Assumptions c78_area.

Example c78_ex : exists p, to_profile (GU 10 (PI / 6) 3 1 1) None = Ok p.
Proof.
  pose proof PI_RGT_0. assert (S : 0 < sin (PI / 6)) by (apply sin_gt_0; lra).
  destruct (c78_U 10 (PI / 6) 3 1 1 3) as (pre & a & l & t & r & E & _); try lra. eexists. exact E.
Qed.
