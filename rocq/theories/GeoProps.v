(** Properties of shapes and of the orientation predicates (C55 - C61, C66, C74). *)
From Coq Require Import Reals List ZArith Lra Lia.
From Verif Require Import Base GeoModel GeoSpec GeoFacts GeoShapeFacts.
Import ListNotations.
Open Scope R_scope.

(** ** C55 Rasters of shapes *)

(** The raster consists of the rasters of the segments without their last points;
    the end of an open shape is appended. *)
Theorem c55_raster : forall f h g r w, 0 < w -> f :: h = g ++ [r] ->
  exists rasters tail,
    Forall2 (fun s q => seg_raster s w = Ok q) (f :: h) rasters /\
    rasterize (f :: h) w = Ok (concat (map (@removelast pt) rasters) ++ tail) /\
    (tail = [] \/ tail = [point_end r]) /\
    (~ near (point_end r) (point_start f) -> tail = [point_end r]).
Proof.
  intros f h g r w W E.
  destruct (rasterize_ok h f (f :: h) w W eq_refl g r E) as (ra & F & R).
  exists ra, (if column_is_close (point_end r) (point_start f) then [] else [point_end r]).
  split; [exact F|]. split; [exact R|].
  destruct (column_is_close _ _) eqn:C; [|auto]. split; [auto|].
  intros N; apply column_close_iff in C; tauto.
Qed.
Print Assumptions c55_raster.

(** A closed shape that starts on the diagonal is recognised ... *)
Theorem c55_closed_diagonal : forall f h g r w x, 0 < w -> f :: h = g ++ [r] ->
  point_start f = P x x -> point_end r = P x x ->
  exists rasters, Forall2 (fun s q => seg_raster s w = Ok q) (f :: h) rasters /\
    rasterize (f :: h) w = Ok (concat (map (@removelast pt) rasters)).
Proof.
  intros f h g r w x W E S T.
  destruct (rasterize_ok h f (f :: h) w W eq_refl g r E) as (ra & F & R).
  exists ra; split; [exact F|]. rewrite S, T in R.
  rewrite (proj2 (column_close_iff (P x x) (P x x))), app_nil_r in R; [exact R|].
  split; apply near_refl.
Qed.
Print Assumptions c55_closed_diagonal.

(** ... but every other closed shape gets its first point twice: the comparison is
    made between arrays of the shapes (2, 1) and (2,). *)
Theorem c55_closed_refuted : forall f h g r w x y, 0 < w -> f :: h = g ++ [r] ->
  point_start f = P x y -> point_end r = P x y ->
  / 1000000000 + / 100000 * Rabs y < Rabs (x - y) ->
  exists pts, rasterize (f :: h) w = Ok pts /\ (1 < length pts)%nat /\
    nth 0 pts (P 0 0) = P x y /\ last_pt pts = P x y.
Proof.
  intros f h g r w x y W E S T D.
  destruct (rasterize_ok h f (f :: h) w W eq_refl g r E) as (ra & F & R).
  rewrite S, T in R.
  destruct (column_is_close (P x y) (P x y)) eqn:C.
  { apply column_close_iff in C. destruct C as [[_ _] [_ C]]. cbn [px py] in C. lra. }
  eexists; split; [exact R|]. inversion F as [|a b la lb RA _]; subst.
  destruct (seg_raster_ok _ _ _ RA) as (_ & L & _).
  pose proof (num_points_ge (seg_length f) w) as G.
  destruct (seg_raster_ends _ _ _ RA) as [H0 _].
  destruct b as [|p [|q b]]; [cbn in L; lia|cbn in L; lia|].
  cbn in H0. cbn [map concat removelast app]. split; [cbn; rewrite !app_length; cbn; lia|].
  split; [cbn; congruence|]. rewrite app_comm_cons. apply last_pt_app.
Qed.
Print Assumptions c55_closed_refuted.

(** the closed triangle (0, 1), (2, 1), (2, 2) *)
Definition tri : list pt := [P 0 1; P 2 1; P 2 2; P 0 1].
Lemma tri_chain : exists f h g r, line_chain tri = Ok (f :: h) /\ f :: h = g ++ [r] /\
  joined (f :: h) /\ point_start f = P 0 1 /\ point_end r = P 0 1.
Proof.
  destruct (line_chain_total tri) as [segs C].
  { intros i Hi. cbn in Hi. destruct i as [|[|[|i]]]; [| | |lia]; cbn; intros Q; inversion Q; lra. }
  destruct (line_chain_ok _ _ C) as (_ & _ & J & S & E).
  cbn in S, E. destruct segs as [|a [|b [|c [|d segs]]]]; try discriminate S.
  exists a, [b; c], [a; b], c. split; [exact C|]. split; [reflexivity|]. split; [exact J|].
  cbn in S, E. inversion S; inversion E; split; congruence.
Qed.
Example c55_ex : exists sh pts, mk_shape sh = Ok sh /\ joined sh /\ rasterize sh 1 = Ok pts /\
  nth 0 pts (P 0 0) = P 0 1 /\ last_pt pts = P 0 1 /\ (1 < length pts)%nat.
Proof.
  destruct tri_chain as (f & h & g & r & C & E & J & S & T).
  destruct (c55_closed_refuted f h g r 1 0 1 ltac:(lra) E S T) as (pts & R & L & A & B).
  { rewrite Rabs_R1. rewrite Rabs_left by lra. lra. }
  exists (f :: h), pts. repeat split; auto. unfold mk_shape.
  now rewrite (proj2 (check_connected_iff _) (joined_nearly _ J)).
Qed.

(** ** C56 Rasters of segments *)
Theorem c56_points : forall s w l, seg_raster s w = Ok l ->
  0 < w /\ (2 <= length l)%nat /\
  (exists z, nearest z (seg_length s / w) /\ length l = Z.to_nat (Z.max (z + 1) 2)) /\
  nth 0 l (P 0 0) = point_start s /\ last_pt l = point_end s /\
  (forall i, (i < length l)%nat ->
     nth i l (P 0 0) = get_point s (INR i / INR (length l - 1) * max_coord s)).
Proof.
  intros s w l H. destruct (seg_raster_ok _ _ _ H) as (W & L & N).
  destruct (seg_raster_ends _ _ _ H) as [A B].
  split; [exact W|]. split; [rewrite L; apply num_points_ge|].
  split; [exists (np_round (seg_length s / w)); split; [apply np_round_nearest|exact L]|auto].
Qed.
Print Assumptions c56_points.

Theorem c56_equidistant : forall s w l i j, seg_ok s -> seg_raster s w = Ok l ->
  (S i < length l)%nat -> (S j < length l)%nat ->
  dist (nth i l (P 0 0)) (nth (S i) l (P 0 0)) = dist (nth j l (P 0 0)) (nth (S j) l (P 0 0)).
Proof.
  intros [a b len|a] w l i j K H I J.
  - rewrite (raster_line_spacing _ _ _ _ _ _ H I), (raster_line_spacing _ _ _ _ _ _ H J). reflexivity.
  - rewrite (raster_arc_spacing _ _ _ _ K H I), (raster_arc_spacing _ _ _ _ K H J). reflexivity.
Qed.
Print Assumptions c56_equidistant.

(** a non-positive width is refused *)
Theorem c56_width : forall s w, (exists l, seg_raster s w = Ok l) <-> 0 < w.
Proof.
  intros s w; split.
  - intros [l H]; apply (seg_raster_ok _ _ _ H).
  - intros W; unfold seg_raster; rewrite (proj2 (rle_false _ _) W); eauto.
Qed.
Print Assumptions c56_width.

(** the effective width along the segment is near the requested one ... *)
Theorem c56_spacing : forall s w l, seg_raster s w = Ok l -> w / 2 <= seg_length s ->
  Rabs (seg_length s / INR (length l - 1) - w) <= w / (2 * INR (length l - 1)).
Proof.
  intros s w l H B. destruct (seg_raster_ok _ _ _ H) as (W & L & _). rewrite L.
  apply num_points_spacing; assumption.
Qed.
Print Assumptions c56_spacing.

(** ... but not always the closest possible value, which the documentation of
    [rasterize] promises: the count is rounded, not the distance. *)
Theorem c56_closest_refuted : exists s w l n, seg_ok s /\ seg_raster s w = Ok l /\ (2 <= n)%nat /\
  Rabs (seg_length s / INR (n - 1) - w) < Rabs (seg_length s / INR (length l - 1) - w).
Proof.
  set (s := SLine (P 0 0) (P (29 / 20) 0) (29 / 20)).
  assert (D : dist (P 0 0) (P (29 / 20) 0) = 29 / 20) by (apply dist_eq_sq; cbn; lra).
  assert (K : seg_ok s) by (cbn; rewrite D; lra).
  destruct (proj2 (c56_width s 1)) as [l H]; [lra|].
  destruct (c56_points _ _ _ H) as (_ & _ & (z & Z & L) & _).
  assert (z = 1%Z).
  { unfold nearest in Z. change (seg_length s) with (29 / 20) in Z. apply abs_le_inv in Z.
    assert (A : (0 < z)%Z) by (apply lt_IZR; lra).
    assert (B : (z < 2)%Z) by (apply lt_IZR; lra). lia. }
  subst z. cbn in L. exists s, 1, l, 3%nat. split; [exact K|]. split; [exact H|]. split; [lia|].
  rewrite L. change (seg_length s) with (29 / 20). change (INR (3 - 1)) with 2. change (INR (Pos.to_nat 2 - 1)) with 1.
  rewrite Rabs_left by lra. rewrite Rabs_right by lra. lra.
Qed.
Print Assumptions c56_closest_refuted.

Example c56_ex : exists s l, mk_line (P 0 0) (P 3 4) = Ok s /\ seg_ok s /\ seg_raster s 1 = Ok l.
Proof.
  destruct (mk_line_cases (P 0 0) (P 3 4)) as [[N E]|[N E]]; [|inversion N; lra].
  destruct (proj2 (c56_width (SLine (P 0 0) (P 3 4) (dist (P 0 0) (P 3 4))) 1)) as [l H]; [lra|].
  exists (SLine (P 0 0) (P 3 4) (dist (P 0 0) (P 3 4))), l. split; [exact E|]. split; [|exact H].
  cbn. split; [reflexivity|]. now apply dist_ne.
Qed.

(** ** C57 Arcs *)
Theorem c57_arc : forall ps pe pc ccw s, mk_arc ps pe pc ccw = Ok s ->
  point_start s = ps /\
  dist (point_end s) pe = Rabs (dist pe pc - dist ps pc) /\
  dist (point_end s) pe <= / 100000000 /\
  (forall x, get_point s x = turned ((if ccw then 1 else -1) * x) pc ps) /\
  (forall x, dist (get_point s x) pc = dist ps pc) /\
  0 < max_coord s < 2 * PI /\ seg_length s = dist ps pc * max_coord s.
Proof.
  intros ps pe pc ccw s H. destruct (mk_arc_ok _ _ _ _ _ H) as (a & -> & K & <- & <- & <- & W).
  assert (WE : IZR (a_wind a) = if ccw then 1 else -1) by (rewrite W; destruct ccw; reflexivity).
  unfold point_start, point_end. cbn [get_point max_coord seg_length].
  split; [rewrite (arc_point_turned a _ K), Rmult_0_r; apply turned_zero|].
  split; [apply (arc_end_dist a K)|].
  split; [rewrite (arc_end_dist a K); apply (ok_end a K)|].
  split; [intros x; rewrite (arc_point_turned a _ K), WE; reflexivity|].
  split; [intros x; rewrite (arc_point_turned a _ K); apply turned_dist|].
  destruct (arc_angle_inv _ _ _ _ _ (ok_wind a K) (ok_max a K)) as (_ & _ & _ & _ & M).
  pose proof (ok_len_pos a K).
  split; [lra|]. rewrite (ok_len a K), (ok_r a K); reflexivity.
Qed.
Print Assumptions c57_arc.

(** with equal radii the arc ends exactly at the end point *)
Theorem c57_end : forall ps pe pc ccw s, mk_arc ps pe pc ccw = Ok s ->
  (point_end s = pe <-> dist pe pc = dist ps pc).
Proof.
  intros ps pe pc ccw s H. destruct (c57_arc _ _ _ _ _ H) as (_ & D & _).
  rewrite <- dist_zero, D. split; intros Q.
  - destruct (Req_dec (dist pe pc - dist ps pc) 0) as [E|E]; [lra|].
    apply Rabs_no_R0 in E; contradiction.
  - rewrite Q, Rminus_diag_eq, Rabs_R0 by reflexivity; reflexivity.
Qed.
Print Assumptions c57_end.

(** every arc between two different points of a circle can be built; a full circle
    can not *)
Theorem c57_total : forall ps pe pc ccw, ps <> pe -> ps <> pc -> pe <> pc ->
  dist pe pc = dist ps pc -> exists s, mk_arc ps pe pc ccw = Ok s.
Proof. exact mk_arc_total. Qed.
Print Assumptions c57_total.
Theorem c57_full_circle : forall p c ccw, mk_arc p p c ccw = Err ValueError.
Proof. exact mk_arc_closed. Qed.
Print Assumptions c57_full_circle.

Definition quarter (ccw : bool) : res seg := mk_arc (P 1 0) (P 0 1) (P 0 0) ccw.
Example c57_ex : forall ccw, exists s, quarter ccw = Ok s /\ point_end s = P 0 1.
Proof.
  intros ccw.
  assert (D1 : dist (P 0 1) (P 0 0) = 1) by (apply dist_eq_sq; cbn; lra).
  assert (D2 : dist (P 1 0) (P 0 0) = 1) by (apply dist_eq_sq; cbn; lra).
  destruct (c57_total (P 1 0) (P 0 1) (P 0 0) ccw) as [s H];
    try (intros Q; inversion Q; lra); [congruence|].
  exists s; split; [exact H|]. apply (c57_end _ _ _ _ _ H). congruence.
Qed.

(** ** C58 Arcs from a radius *)
Theorem c58_center : forall ps pe r left, ps <> pe -> dist ps pe <= 2 * r ->
  let c := radius_center ps pe r left in
  dist c ps = r /\ dist c pe = r /\
  (dist ps pe < 2 * r -> point_left c ps pe = if left then 1%Z else (-1)%Z).
Proof.
  intros ps pe r left N H c. destruct (radius_large ps pe r left N H) as (A & B & C).
  split; [exact A|]. split; [exact B|]. intros L. unfold c. rewrite C.
  rewrite (proj2 (req_false _ _)) by lra. reflexivity.
Qed.
Print Assumptions c58_center.
Theorem c58_small : forall ps pe r left, ps <> pe -> 0 <= r -> 2 * r <= dist ps pe ->
  radius_center ps pe r left = midpoint ps pe.
Proof. exact radius_small. Qed.
Print Assumptions c58_small.

(** the segment is always built, with the radius max(r, distance / 2) *)
Theorem c58_segment : forall ps pe r left ccw, ps <> pe -> 0 <= r ->
  exists a, mk_arc_radius ps pe r left ccw = Ok (SArc a) /\
    a_start a = ps /\ a_end a = pe /\ a_center a = radius_center ps pe r left /\
    (forall x, dist (arc_point a x) (a_center a) = Rmax r (dist ps pe / 2)) /\
    arc_point a (a_max a) = pe.
Proof.
  intros ps pe r left ccw N R0. set (c := radius_center ps pe r left).
  assert (D := dist_ne _ _ N).
  assert (Q : dist ps c = Rmax r (dist ps pe / 2) /\ dist pe c = Rmax r (dist ps pe / 2)).
  { destruct (Rle_dec (dist ps pe) (2 * r)) as [L|L].
    - destruct (c58_center ps pe r left N L) as (A & B & _).
      rewrite Rmax_left by lra. now rewrite (dist_sym ps), (dist_sym pe).
    - unfold c. rewrite (radius_small ps pe r left N R0) by lra. rewrite Rmax_right by lra.
      pose proof (dist_sq ps pe).
      split; apply dist_eq_sq; cbn [px py midpoint]; lra. }
  destruct Q as [QS QE].
  assert (P0 : 0 < Rmax r (dist ps pe / 2)) by (apply Rlt_le_trans with (dist ps pe / 2); [lra|apply Rmax_r]).
  assert (NS : ps <> c) by (intros E; apply dist_zero in E; lra).
  assert (NE : pe <> c) by (intros E; apply dist_zero in E; lra).
  destruct (mk_arc_total ps pe c ccw N NS NE ltac:(congruence)) as [s H].
  destruct (mk_arc_ok _ _ _ _ _ H) as (a & -> & K & A1 & A2 & A3 & _).
  exists a. unfold mk_arc_radius.
  rewrite (proj2 (req_false _ _)).
  2:{ intros E. apply sq_sum_zero in E. cbn in E. apply N, pt_eq; lra. }
  split; [exact H|]. split; [exact A1|]. split; [exact A2|]. split; [exact A3|].
  destruct (c57_arc _ _ _ _ _ H) as (_ & _ & _ & _ & C & _).
  split; [intros x; rewrite A3, <- QS; apply C|].
  apply (proj2 (c57_end _ _ _ _ _ H)). congruence.
Qed.
Print Assumptions c58_segment.
Theorem c58_same_point : forall p r left ccw, mk_arc_radius p p r left ccw = Err ValueError.
Proof.
  intros p r left ccw; unfold mk_arc_radius. rewrite (proj2 (req_true _ _)); [reflexivity|].
  unfold pdot, psub; cbn; ring.
Qed.
Print Assumptions c58_same_point.

Example c58_ex : exists a, mk_arc_radius (P 0 0) (P 2 0) 1 true true = Ok (SArc a) /\
  arc_point a (a_max a) = P 2 0.
Proof.
  destruct (c58_segment (P 0 0) (P 2 0) 1 true true) as (a & A & _ & _ & _ & _ & E);
    [intros Q; inversion Q; lra|lra|eauto].
Qed.

(** ** C59 Reflections *)
Theorem c59_reflection : forall n d sh, ~ near n (P 0 0) -> Forall seg_ok sh ->
  exists sh' f, reflect_shape n d sh = (sh', Ok tt) /\ Forall seg_ok sh' /\
    (forall p, mirror_normal n d p (f p)) /\ Forall2 (image f (-1)) sh sh' /\
    (joined sh -> joined sh').
Proof.
  intros n d sh N K.
  assert (C : vector_is_close n (P 0 0) = false).
  { destruct (vector_is_close n (P 0 0)) eqn:E; [|reflexivity].
    apply vector_is_close_iff in E; contradiction. }
  destruct (reflect_shape_ok n d sh C K) as (sh' & R & K' & I).
  exists sh', (mirror_map n d). split; [exact R|]. split; [exact K'|].
  split; [intros p; apply mirror_map_spec, not_close_zero, C|].
  split; [exact I|]. exact (images_joined _ _ _ _ I).
Qed.
Print Assumptions c59_reflection.

Theorem c59_across_line : forall a b sh, ~ near a b -> Forall seg_ok sh ->
  exists sh' f, reflect_across a b sh = (sh', Ok tt) /\ Forall seg_ok sh' /\
    (forall p, mirror_line a b p (f p)) /\ Forall2 (image f (-1)) sh sh' /\
    (joined sh -> joined sh').
Proof.
  intros a b sh N K.
  assert (C : vector_is_close a b = false).
  { destruct (vector_is_close a b) eqn:E; [|reflexivity].
    apply vector_is_close_iff in E; contradiction. }
  destruct (across_not_close a b C) as [NE C2].
  destruct (reflect_shape_ok _ (line_distance a b) sh C2 K) as (sh' & R & K' & I).
  exists sh', (mirror_map (line_normal a b) (line_distance a b)).
  split; [unfold reflect_across; rewrite C; exact R|]. split; [exact K'|].
  split; [intros p; apply (mirror_line_iff a b p _ NE), mirror_map_spec, not_close_zero, C2|].
  split; [exact I|]. exact (images_joined _ _ _ _ I).
Qed.
Print Assumptions c59_across_line.

(** the reflection twice is the identity of all curves *)
Theorem c59_involution : forall n d sh, ~ near n (P 0 0) -> Forall seg_ok sh ->
  exists sh' sh'', reflect_shape n d sh = (sh', Ok tt) /\ reflect_shape n d sh' = (sh'', Ok tt) /\
    Forall2 (image (fun p => p) 1) sh sh''.
Proof.
  intros n d sh N K.
  destruct (c59_reflection n d sh N K) as (s1 & f & R1 & K1 & F1 & I1 & _).
  destruct (c59_reflection n d s1 N K1) as (s2 & g & R2 & K2 & F2 & I2 & _).
  exists s1, s2. split; [exact R1|]. split; [exact R2|].
  assert (NZ : px n * px n + py n * py n <> 0).
  { intros Q; apply sq_sum_zero in Q; destruct Q as [A B]. apply N.
    replace n with (P 0 0) by (apply pt_eq; cbn; auto). apply near_refl. }
  refine (images_ext _ _ _ _ _ _ _ _ (images_compose _ _ _ _ _ _ _ I1 I2)); [|reflexivity].
  intros p. apply (mirror_unique n d (f p)); [exact NZ|apply F2|apply mirror_sym, F1].
Qed.
Print Assumptions c59_involution.

(** mirror images are unique, fix the points of the line and keep distances *)
Theorem c59_isometry : forall n d p q p' q', n <> P 0 0 ->
  mirror_normal n d p p' -> mirror_normal n d q q' ->
  dist p' q' = dist p q /\ (on_normal_line n d p -> p' = p).
Proof.
  intros n d p q p' q' N A B.
  assert (NZ : px n * px n + py n * py n <> 0).
  { intros Q; apply sq_sum_zero in Q; destruct Q. apply N, pt_eq; cbn; auto. }
  split; [exact (mirror_dist n d p q p' q' NZ A B)|].
  intros O. exact (mirror_unique n d p p' p NZ A (mirror_fixed n d p O)).
Qed.
Print Assumptions c59_isometry.

(** a normal vector below the absolute tolerance 1e-9 is refused *)
Theorem c59_no_normal : forall n d sh, near n (P 0 0) -> reflect_shape n d sh = (sh, Err ValueError).
Proof.
  intros n d sh N; unfold reflect_shape. now rewrite (proj2 (vector_is_close_iff _ _) N).
Qed.
Print Assumptions c59_no_normal.

Example c59_ex : exists s sh', quarter true = Ok s /\ reflect_shape (P 0 1) 1 [s] = (sh', Ok tt) /\
  map point_start sh' = [P 1 2] /\ map point_end sh' = [P 0 1].
Proof.
  destruct (c57_ex true) as (s & Q & E).
  destruct (mk_arc_ok _ _ _ _ _ Q) as (a & Es & K & _).
  assert (SK : Forall seg_ok [s]) by (rewrite Es; constructor; [exact K|constructor]).
  destruct (c59_reflection (P 0 1) 1 [s]) as (sh' & f & R & _ & M & I & _); [|exact SK|].
  { intros [_ H]; cbn in H. rewrite Rabs_R0, Rminus_0_r, Rabs_R1 in H. lra. }
  exists s, sh'. split; [exact Q|]. split; [exact R|].
  inversion I as [|x y lx ly IM NI]; subst x lx. inversion NI; subst.
  cbn [map]. rewrite (image_start _ _ _ _ IM), (image_end _ _ _ _ IM), E.
  destruct (c57_arc _ _ _ _ _ Q) as (S & _). rewrite S.
  assert (SQ : sqrt (0 * 0 + 1 * 1) = 1) by (replace (0 * 0 + 1 * 1) with 1 by ring; apply sqrt_1).
  assert (U : forall p q, mirror_normal (P 0 1) 1 p q -> f p = q).
  { intros p q H; apply (mirror_unique (P 0 1) 1 p); [cbn; lra|apply M|exact H]. }
  rewrite (U (P 1 0) (P 1 2)), (U (P 0 1) (P 0 1)); [auto| |];
    unfold mirror_normal, on_normal_line, midpoint; cbn [px py]; rewrite SQ; split; lra.
Qed.

(** ** C60 Connected shapes *)
Theorem c60_construct : forall l, (mk_shape l = Ok l <-> nearly_joined l) /\
  (~ nearly_joined l -> mk_shape l = Err ValueError).
Proof.
  intros l; rewrite <- check_connected_iff. unfold mk_shape.
  destruct (check_connected_res l) as [H|H]; rewrite H; cbn; split; try tauto; try easy.
Qed.
Print Assumptions c60_construct.

Theorem c60_add : forall sh new sh' o, add_segments sh new = (sh', o) ->
  (nearly_joined sh -> nearly_joined sh') /\
  (o = Ok tt -> sh' = sh ++ new) /\ (o <> Ok tt -> sh' = sh).
Proof.
  intros sh new sh' o H. split; [exact (add_segments_nearly _ _ _ _ H)|].
  destruct (add_segments_cases _ _ _ _ H) as [(e & -> & ->)|(-> & -> & _)]; split; easy.
Qed.
Print Assumptions c60_add.

Theorem c60_add_lines : forall sh pts sh' o, add_line_segments sh pts = (sh', o) ->
  (nearly_joined sh -> nearly_joined sh') /\ (o <> Ok tt -> sh' = sh).
Proof.
  intros sh pts sh' o H; unfold add_line_segments in H.
  assert (G : forall l, (match line_chain l with Err e => (sh, Err e) | Ok new => add_segments sh new end)
     = (sh', o) -> (nearly_joined sh -> nearly_joined sh') /\ (o <> Ok tt -> sh' = sh)).
  { intros l Q. destruct (line_chain l) as [new|e]; [|inversion Q; auto].
    destruct (c60_add _ _ _ _ Q) as (A & _ & B); auto. }
  destruct (rev sh); [|exact (G _ H)]. destruct (_ <=? _)%nat; [inversion H; auto|exact (G _ H)].
Qed.
Print Assumptions c60_add_lines.

(** All shapes that are built from exactly joined segments by the operations of
    the library are exactly joined. *)
Theorem c60_reachable : forall sh, reach sh -> joined sh /\ Forall seg_ok sh.
Proof. intros sh R; destruct (reach_joined sh R); auto. Qed.
Print Assumptions c60_reachable.

(** Translations do not keep a gap within the relative tolerance. *)
Theorem c60_translate_refuted : exists sh v, Forall seg_ok sh /\ mk_shape sh = Ok sh /\
  mk_shape (translate_shape v sh) = Err ValueError.
Proof.
  set (d := fun a b => dist (P a 0) (P b 0)).
  exists [SLine (P 0 0) (P 1000 0) (d 0 1000); SLine (P (1000 + / 200) 0) (P 2000 0) (d (1000 + / 200) 2000)], (P (-1000) 0).
  assert (D1 : d 0 1000 = 1000) by (apply dist_eq_sq; cbn; lra).
  assert (D2 : d (1000 + / 200) 2000 = 1000 - / 200) by (apply dist_eq_sq; cbn; lra).
  split; [|split].
  - constructor; [cbn; fold (d 0 1000); rewrite D1; lra|].
    constructor; [|constructor]. cbn. fold (d (1000 + / 200) 2000). rewrite D2; lra.
  - apply (proj1 (c60_construct _)). split; [|exact I].
    unfold point_end, point_start; cbn [get_point max_coord]. rewrite line_point_1, line_point_0.
    unfold near; cbn [px py]. rewrite (Rabs_right (1000 + / 200)) by lra.
    rewrite Rabs_left by lra. rewrite Rminus_0_r, Rabs_R0. split; lra.
  - apply c60_construct. intros [[H _] _]. revert H.
    unfold point_end, point_start; cbn [get_point max_coord translate_seg].
    rewrite line_point_1, line_point_0; cbn [px py padd].
    rewrite (Rabs_right (1000 + / 200 + -1000)) by lra. rewrite Rabs_left by lra. lra.
Qed.
Print Assumptions c60_translate_refuted.

(** A transformation that is refused for an arc leaves the shape broken: the
    segments up to the arc are already changed. *)
Theorem c60_failed_transform_refuted : exists sh m sh', reach sh /\
  q00 m * q11 m - q01 m * q10 m <> 0 /\ transform_shape m sh = (sh', Err ValueError) /\
  ~ nearly_joined sh'.
Proof.
  destruct (c57_ex true) as (s & Q & E).
  destruct (mk_arc_ok _ _ _ _ _ Q) as (a & -> & K & A1 & A2 & A3 & AW).
  set (l := SLine (P 0 1) (P 0 2) (dist (P 0 1) (P 0 2))).
  assert (DL : dist (P 0 1) (P 0 2) = 1) by (apply dist_eq_sq; cbn; lra).
  assert (SL : point_start l = P 0 1) by apply line_point_0.
  assert (D2 : dist (P 2 0) (P 0 0) = 2) by (apply dist_eq_sq; cbn; lra).
  assert (D1 : dist (P 0 1) (P 0 0) = 1) by (apply dist_eq_sq; cbn; lra).
  destruct (update_arc_total (P 2 0) (P 0 1) (P 0 0) 1) as [n U];
    [auto|intros H; inversion H; lra|intros H; inversion H; lra|].
  exists [SArc a; l], (M2 2 0 0 1), [SArc n; l]. split; [|split; [|split]].
  - apply (R_build [SArc a; l]).
    + constructor; [exact K|]. constructor; [|constructor]. cbn. rewrite DL. lra.
    + split; [rewrite E, SL; reflexivity|exact I].
    + unfold mk_shape. rewrite (proj2 (check_connected_iff _)); [reflexivity|].
      apply joined_nearly. split; [rewrite E, SL; reflexivity|exact I].
  - cbn; lra.
  - assert (R : reflection_sign (M2 2 0 0 1) = Ok 1%Z).
    { unfold reflection_sign. rewrite (proj2 (rsign_pos _)); [reflexivity|]. unfold mdet; cbn; lra. }
    cbn [transform_shape transform_seg]. rewrite R, A1, A2, A3, AW. cbn [wsign].
    assert (M1 : mapply (M2 2 0 0 1) (P 1 0) = P 2 0) by (apply pt_eq; cbn; ring).
    assert (M3 : mapply (M2 2 0 0 1) (P 0 1) = P 0 1) by (apply pt_eq; cbn; ring).
    assert (M4 : mapply (M2 2 0 0 1) (P 0 0) = P 0 0) by (apply pt_eq; cbn; ring).
    rewrite M1, M3, M4. change (1 * 1)%Z with 1%Z. rewrite U.
    destruct (update_arc_ok _ _ _ _ _ (or_introl eq_refl) U) as (m & al & AN & EN & _ & _ & _).
    destruct (arc_angle_inv _ _ _ _ _ (or_introl eq_refl) AN) as (_ & _ & C & S & M).
    assert (ML : 0 < a_len n).
    { rewrite EN; cbn [a_len]. rewrite D2. enough (m <> 0) by lra. intros ->.
      rewrite cos_0 in C. unfold pdot, punit, psub in C; cbn [px py] in C.
      replace (2 - 0) with 2 in C by ring. unfold Rdiv in C. rewrite !Rminus_0_r in C. lra. }
    rewrite (proj2 (rle_false _ _) ML). f_equal. unfold check_arc.
    rewrite (proj2 (rle_false _ _) ML). rewrite !pnorm_dist, EN; cbn [a_end a_start a_center].
    rewrite D1, D2. unfold isclose. rewrite (proj2 (rle_false _ _)); [reflexivity|].
    rewrite Rabs_R0, Rminus_0_r, Rabs_left by lra. unfold tol8; lra.
  - intros [[_ H] _]. revert H. rewrite SL. cbn [get_point point_end max_coord].
    unfold point_end; cbn [get_point max_coord].
    rewrite (update_arc_end _ _ _ _ _ (or_introl eq_refl) U). rewrite D2.
    unfold punit. rewrite pnorm_dist, D1. cbn [px py padd pscale psub].
    replace (0 + 2 * ((1 - 0) / 1) - 1) with 1 by field. rewrite Rabs_R1. lra.
Qed.
Print Assumptions c60_failed_transform_refuted.

(** ** C61 Interpolation of lines *)
Theorem c61_ends : forall a b c d l l' w, seg_ok (SLine a b l) -> seg_ok (SLine c d l') ->
  (w <= 0 -> interpolate_seg (SLine a b l) (SLine c d l') w = Ok (SLine a b l)) /\
  (1 <= w -> interpolate_seg (SLine a b l) (SLine c d l') w = Ok (SLine c d l')).
Proof.
  intros a b c d l l' w [-> P1] [-> P2]. cbn [interpolate_seg].
  assert (N1 : a <> b) by (intros ->; rewrite (proj2 (dist_zero b b) eq_refl) in P1; lra).
  assert (N2 : c <> d) by (intros ->; rewrite (proj2 (dist_zero d d) eq_refl) in P2; lra).
  split; intros W.
  - rewrite (clip01_low w W).
    replace (padd (pscale (1 - 0) a) (pscale 0 c)) with a by (apply pt_eq; cbn; ring).
    replace (padd (pscale (1 - 0) b) (pscale 0 d)) with b by (apply pt_eq; cbn; ring).
    destruct (mk_line_cases a b) as [[_ E]|[E _]]; [exact E|contradiction].
  - rewrite (clip01_high w W).
    replace (padd (pscale (1 - 1) a) (pscale 1 c)) with c by (apply pt_eq; cbn; ring).
    replace (padd (pscale (1 - 1) b) (pscale 1 d)) with d by (apply pt_eq; cbn; ring).
    destruct (mk_line_cases c d) as [[_ E]|[E _]]; [exact E|contradiction].
Qed.
Print Assumptions c61_ends.

Theorem c61_affine : forall s t w r x, 0 <= w <= 1 -> interpolate_seg s t w = Ok r ->
  get_point r x = P ((1 - w) * px (get_point s x) + w * px (get_point t x))
                    ((1 - w) * py (get_point s x) + w * py (get_point t x)).
Proof.
  intros s t w r x W H.
  destruct (interpolate_seg_ok _ _ _ _ H) as (a & b & l & a' & b' & l' & -> & -> & _ & -> & _).
  rewrite (clip01_id w W). cbn [get_point]. unfold line_point. apply pt_eq; cbn; ring.
Qed.
Print Assumptions c61_affine.

(** the result exists exactly if the interpolated end points differ *)
Theorem c61_valid : forall a b c d l l' w, 0 <= w <= 1 ->
  ((exists r, interpolate_seg (SLine a b l) (SLine c d l') w = Ok r) <->
   ~ ((1 - w) * (px b - px a) + w * (px d - px c) = 0 /\
      (1 - w) * (py b - py a) + w * (py d - py c) = 0)).
Proof.
  intros a b c d l l' w W. cbn [interpolate_seg]. rewrite (clip01_id w W).
  destruct (mk_line_cases (padd (pscale (1 - w) a) (pscale w c)) (padd (pscale (1 - w) b) (pscale w d)))
    as [[N E]|[N E]]; rewrite E; split.
  - intros _ [A B]. apply N, pt_eq; cbn; lra.
  - eauto.
  - intros [r H]; discriminate.
  - intros H. exfalso; apply H. assert (A := f_equal px N); assert (B := f_equal py N).
    cbn in A, B. split; lra.
Qed.
Print Assumptions c61_valid.

(** two valid lines of opposite direction have no valid mean *)
Theorem c61_valid_refuted : exists s t, seg_ok s /\ seg_ok t /\
  interpolate_seg s t (/ 2) = Err ValueError.
Proof.
  exists (SLine (P 0 0) (P 1 0) (dist (P 0 0) (P 1 0))),
    (SLine (P 1 0) (P 0 0) (dist (P 1 0) (P 0 0))).
  assert (D1 : dist (P 0 0) (P 1 0) = 1) by (apply dist_eq_sq; cbn; lra).
  assert (D2 : dist (P 1 0) (P 0 0) = 1) by (apply dist_eq_sq; cbn; lra).
  split; [cbn; rewrite D1; lra|]. split; [cbn; rewrite D2; lra|].
  cbn [interpolate_seg]. rewrite clip01_id by lra.
  destruct (mk_line_cases (padd (pscale (1 - / 2) (P 0 0)) (pscale (/ 2) (P 1 0)))
     (padd (pscale (1 - / 2) (P 1 0)) (pscale (/ 2) (P 0 0)))) as [[N E]|[_ E]]; [|exact E].
  exfalso; apply N, pt_eq; cbn; lra.
Qed.
Print Assumptions c61_valid_refuted.

Example c61_ex : exists r, interpolate_seg (SLine (P 0 0) (P 1 0) 1) (SLine (P 0 2) (P 3 2) 3) (/ 2) = Ok r
  /\ point_end r = P 2 1.
Proof.
  destruct (proj2 (c61_valid (P 0 0) (P 1 0) (P 0 2) (P 3 2) 1 3 (/ 2) ltac:(lra))) as [r H].
  { cbn; intros [A _]; lra. }
  exists r; split; [exact H|].
  destruct (interpolate_seg_ok _ _ _ _ H) as (a & b & l & a' & b' & l' & E1 & E2 & _ & -> & _).
  inversion E1; inversion E2; subst. rewrite clip01_id by lra.
  unfold point_end; cbn [get_point max_coord]. rewrite line_point_1. apply pt_eq; cbn; lra.
Qed.

(** ** C66 Orientation of polygons *)
Theorem c66_area : forall a l, last_pt (a :: l) = a ->
  (has_cw_ordering (a :: l) = false <-> 0 < area2 (a :: l)).
Proof.
  intros a l E; unfold has_cw_ordering. rewrite (ordering_closed a l E).
  destruct (rlt _ 0) eqn:Q; [apply rlt_true in Q|apply rlt_false in Q]; cbn [negb].
  - split; [intros _; lra|reflexivity].
  - split; [discriminate|intros; exfalso; lra].
Qed.
Print Assumptions c66_area.

Theorem c66_translate : forall v a l, last_pt (a :: l) = a ->
  has_cw_ordering (map (fun p => padd p v) (a :: l)) = has_cw_ordering (a :: l).
Proof.
  intros v a l E; unfold has_cw_ordering.
  assert (E2 : last_pt (map (fun p => padd p v) (a :: l)) = padd a v)
    by (rewrite (last_map (fun p => padd p v)), E; reflexivity).
  cbn [map] in *. rewrite (ordering_closed _ _ E2), (ordering_closed _ _ E).
  change (padd a v :: map (fun p => padd p v) l) with (map (fun p => padd p v) (a :: l)).
  rewrite area2_shift, E. do 2 f_equal. ring.
Qed.
Print Assumptions c66_translate.

Theorem c66_start : forall a b r,
  has_cw_ordering (b :: r ++ [a] ++ [b]) = has_cw_ordering (a :: b :: r ++ [a]).
Proof.
  intros a b r; unfold has_cw_ordering.
  assert (E1 : last_pt (b :: r ++ [a] ++ [b]) = b).
  { replace (b :: r ++ [a] ++ [b]) with ((b :: r ++ [a]) ++ [b]) by (cbn; rewrite <- app_assoc; reflexivity).
    apply last_pt_app. }
  assert (E2 : last_pt (a :: b :: r ++ [a]) = a) by (apply (last_pt_app (a :: b :: r))).
  rewrite (ordering_closed _ _ E1), (ordering_closed _ _ E2).
  assert (A := area2_app (b :: r) a b []).
  change ((b :: r) ++ [a] ++ [b]) with (b :: r ++ [a] ++ [b]) in A. rewrite A.
  change (area2 (a :: b :: r ++ [a])) with ((px a * py b - px b * py a) + area2 ((b :: r) ++ [a])).
  change (area2 [a; b]) with ((px a * py b - px b * py a) + 0).
  do 2 f_equal. ring.
Qed.
Print Assumptions c66_start.

Theorem c66_reverse : forall a l, last_pt (a :: l) = a -> area2 (a :: l) <> 0 ->
  has_cw_ordering (rev (a :: l)) = negb (has_cw_ordering (a :: l)).
Proof.
  intros a l E N.
  assert (Q : exists m, rev (a :: l) = a :: m).
  { destruct (rev_cases _ (a :: l)) as [[H _]|(h & x & H & t & R)]; [discriminate|].
    exists t. rewrite R. f_equal. rewrite H, last_pt_app in E. exact E. }
  destruct Q as [m Q].
  assert (E2 : last_pt (a :: m) = a).
  { rewrite <- Q. cbn [rev]. apply last_pt_app. }
  rewrite Q. unfold has_cw_ordering.
  rewrite (ordering_closed _ _ E), (ordering_closed _ _ E2), <- Q, area2_rev.
  destruct (rlt (- - area2 (a :: l)) 0) eqn:X; destruct (rlt (- area2 (a :: l)) 0) eqn:Y; try reflexivity;
    rewrite ?rlt_true, ?rlt_false in *; exfalso; lra.
Qed.
Print Assumptions c66_reverse.

(** for an open list of points the answer depends on the position *)
Theorem c66_open_refuted : exists l v,
  has_cw_ordering l = true /\ has_cw_ordering (map (fun p => padd p v) l) = false.
Proof.
  exists [P 0 0; P 1 0], (P 0 (-1)). unfold has_cw_ordering; split.
  - rewrite (proj2 (rlt_false _ _)); [reflexivity|]. cbn; lra.
  - rewrite (proj2 (rlt_true _ _)); [reflexivity|]. cbn; lra.
Qed.
Print Assumptions c66_open_refuted.

Example c66_ex : has_cw_ordering [P 0 0; P 1 0; P 0 1; P 0 0] = false /\
  has_cw_ordering [P 0 0; P 0 1; P 1 0; P 0 0] = true.
Proof.
  split.
  - apply c66_area; [reflexivity|]. cbn; lra.
  - unfold has_cw_ordering. rewrite (proj2 (rlt_false _ _)); [reflexivity|]. cbn; lra.
Qed.

(** ** C74 Orientation predicates *)
Theorem c74_antisymmetric : forall p a b, point_left p b a = (- point_left p a b)%Z.
Proof.
  intros; unfold point_left, vector_left. rewrite <- rsign_opp. f_equal.
  unfold pdet, psub; cbn; ring.
Qed.
Print Assumptions c74_antisymmetric.
Theorem c74_translate : forall v p a b,
  point_left (padd p v) (padd a v) (padd b v) = point_left p a b.
Proof. intros; unfold point_left. now rewrite !psub_shift. Qed.
Print Assumptions c74_translate.
Theorem c74_rotate : forall t p a b, point_left (rot t p) (rot t a) (rot t b) = point_left p a b.
Proof.
  intros; unfold point_left, vector_left. f_equal.
  pose proof (sin2_cos2 t) as Q; unfold Rsqr in Q.
  transitivity ((sin t * sin t + cos t * cos t) * pdet (psub b a) (psub p a));
    [unfold pdet, psub, rot; cbn; ring|rewrite Q; ring].
Qed.
Print Assumptions c74_rotate.
Theorem c74_zero : forall p a b, a <> b -> (point_left p a b = 0%Z <-> on_line a b p).
Proof.
  intros p a b N; unfold point_left, vector_left. rewrite rsign_zero, (on_line_iff a b p N).
  destruct (line_normal_facts a b N) as (_ & _ & F). unfold on_normal_line. rewrite <- F.
  unfold pdet, psub, line_normal; destruct (0 <? _)%Z; cbn; split; intros; lra.
Qed.
Print Assumptions c74_zero.

(** the points on the left are those of a counter-clockwise turn *)
Theorem c74_left : forall a b k t, a <> b -> 0 < k -> 0 < t < PI ->
  point_left (padd a (pscale k (rot t (psub b a)))) a b = 1%Z /\
  point_left (padd a (pscale k (rot (- t) (psub b a)))) a b = (-1)%Z.
Proof.
  intros a b k t N K T. unfold point_left, vector_left.
  assert (S := sin_gt_0 t (proj1 T) (proj2 T)).
  assert (D := dist_ne _ _ N). assert (DD := dist_sq a b).
  assert (Q : 0 < k * sin t * (dist a b * dist a b)).
  { apply Rmult_lt_0_compat; [apply Rmult_lt_0_compat; assumption|]. now apply Rmult_lt_0_compat. }
  split.
  - apply rsign_pos. replace (pdet _ _) with (k * sin t * (dist a b * dist a b)); [exact Q|].
    rewrite DD. unfold pdet, psub, rot; cbn; ring.
  - apply rsign_neg. replace (pdet _ _) with (- (k * sin t * (dist a b * dist a b))); [lra|].
    rewrite DD. unfold pdet, psub, rot; cbn. rewrite sin_neg, cos_neg. ring.
Qed.
Print Assumptions c74_left.

Theorem c74_vector : forall o v ref, vector_left v ref = point_left (padd o v) o (padd o ref).
Proof.
  intros; unfold point_left, vector_left. f_equal. unfold pdet, psub; cbn; ring.
Qed.
Print Assumptions c74_vector.
Theorem c74_reflection : forall m,
  (mdet m = 0 -> reflection_sign m = Err ValueError) /\
  (mdet m <> 0 -> exists s, reflection_sign m = Ok s /\ (s = 1 \/ s = -1)%Z /\
     forall v ref, vector_left (mapply m v) (mapply m ref) = (s * vector_left v ref)%Z).
Proof.
  intros m; unfold reflection_sign; split.
  - intros Q. now rewrite (proj2 (rsign_zero _) Q).
  - intros Q. assert (E : forall v ref, pdet (mapply m ref) (mapply m v) = mdet m * pdet ref v)
      by (intros; unfold pdet, mdet; cbn; ring).
    destruct (Rtotal_order (mdet m) 0) as [L|[L|L]]; [|contradiction|].
    + rewrite (proj2 (rsign_neg _) L). exists (-1)%Z. split; [reflexivity|]. split; [auto|].
      intros v ref; unfold vector_left. rewrite E.
      replace (mdet m * pdet ref v) with (- ((- mdet m) * pdet ref v)) by ring.
      rewrite rsign_opp, rsign_scale by lra. lia.
    + rewrite (proj2 (rsign_pos _) L). exists 1%Z. split; [reflexivity|]. split; [auto|].
      intros v ref; unfold vector_left. rewrite E, rsign_scale by lra. lia.
Qed.
Print Assumptions c74_reflection.
Example c74_ex : point_left (P 0 1) (P 0 0) (P 1 0) = 1%Z /\ point_left (P 0 (-1)) (P 0 0) (P 1 0) = (-1)%Z.
Proof.
  split; [apply rsign_pos|apply rsign_neg]; unfold pdet, psub; cbn; lra.
Qed.
