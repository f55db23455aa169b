(** Facts about the groove model. *)
From Coq Require Import Reals List ZArith Lra Lia Bool.
From Verif Require Import Base GeoModel GeoSpec GeoFacts GeoShapeFacts GeoProps GrooveModel GrooveSpec.
Import ListNotations.
Open Scope R_scope.

(** ** Paths *)
Fixpoint path_ok (ks : list kind) (pts : list pt) : Prop :=
  match ks with
  | [] => pts <> []
  | KLine :: ks' =>
      match pts with a :: ((b :: _) as r) => a <> b /\ path_ok ks' r | _ => False end
  | KArc :: ks' =>
      match pts with
      | a :: c :: ((b :: _) as r) =>
          (a <> b /\ a <> c /\ b <> c /\ dist b c = dist a c) /\ path_ok ks' r
      | _ => False
      end
  end.
Fixpoint corners (ks : list kind) (pts : list pt) : list pt :=
  match ks, pts with
  | KLine :: ks', a :: r => a :: corners ks' r
  | KArc :: ks', a :: _ :: r => a :: corners ks' r
  | _, a :: _ => [a]
  | _, [] => []
  end.

Lemma corners_head : forall ks a r, path_ok ks (a :: r) -> exists t, corners ks (a :: r) = a :: t.
Proof.
  intros [|[] ks] a r H; cbn; [eauto|eauto|]. cbn in H. destruct r; [contradiction|eauto].
Qed.

Lemma joined_ends : forall l cs, map point_start l = removelast cs -> map point_end l = tl cs -> joined l.
Proof.
  induction l as [|a [|b l] IH]; intros cs S E; [exact I|exact I|].
  destruct cs as [|p [|q [|r cs]]]; try discriminate S.
  split; [|apply (IH (q :: r :: cs))].
  - cbn in S, E. inversion S; inversion E; congruence.
  - cbn in S |- *. inversion S; reflexivity.
  - cbn in E |- *. inversion E; reflexivity.
Qed.

Lemma segments_total : forall ks pts, path_ok ks pts -> exists l, segments_of ks pts = Ok l /\
  Forall seg_ok l /\ map point_start l = removelast (corners ks pts) /\
  map point_end l = tl (corners ks pts) /\
  (Forall (fun k => k = KLine) ks -> Forall is_line l).
Proof.
  induction ks as [|[] ks IH]; intros pts H.
  - destruct pts as [|a r]; [contradiction|]. exists []; cbn. repeat split; auto.
  - destruct pts as [|a [|b r]]; try contradiction. destruct H as [N H].
    destruct (IH _ H) as (l & E & K & S & T & L).
    destruct (mk_line_cases a b) as [[_ M]|[Q _]]; [|contradiction].
    destruct (mk_line_ok _ _ _ M) as (_ & _ & K1).
    destruct (corners_head _ _ _ H) as [t C].
    exists (SLine a b (dist a b) :: l).
    change (segments_of (KLine :: ks) (a :: b :: r)) with
      (bind (mk_line a b) (fun s => bind (segments_of ks (b :: r)) (fun l => Ok (s :: l)))).
    rewrite M; cbn [bind]; rewrite E; cbn [bind].
    change (corners (KLine :: ks) (a :: b :: r)) with (a :: corners ks (b :: r)).
    rewrite C in *. split; [reflexivity|]. split; [constructor; assumption|].
    cbn [map]. unfold point_start at 1, point_end at 1; cbn [get_point max_coord].
    rewrite line_point_0, line_point_1.
    split; [rewrite S; reflexivity|]. split; [rewrite T; reflexivity|].
    intros F; inversion F; subst; constructor; [exact I|auto].
  - destruct pts as [|a [|c [|b r]]]; try contradiction. destruct H as [(N1 & N2 & N3 & D) H].
    destruct (IH _ H) as (l & E & K & S & T & L).
    destruct (c57_total a b c false N1 N2 N3 D) as [s M].
    destruct (mk_arc_ok _ _ _ _ _ M) as (ar & Es & K1 & _).
    destruct (corners_head _ _ _ H) as [t C].
    exists (s :: l).
    change (segments_of (KArc :: ks) (a :: c :: b :: r)) with
      (bind (mk_arc a b c false) (fun s => bind (segments_of ks (b :: r)) (fun l => Ok (s :: l)))).
    rewrite M; cbn [bind]; rewrite E; cbn [bind].
    change (corners (KArc :: ks) (a :: c :: b :: r)) with (a :: corners ks (b :: r)).
    rewrite C in *. split; [reflexivity|]. split; [constructor; [rewrite Es; exact K1|assumption]|].
    cbn [map]. rewrite (proj1 (c57_arc _ _ _ _ _ M)), (proj2 (c57_end _ _ _ _ _ M) D).
    split; [rewrite S; reflexivity|]. split; [rewrite T; reflexivity|].
    intros F; inversion F; discriminate.
Qed.

Lemma flip_unique : forall f, (forall p, mirror_line (P 0 0) (P 0 1) p (f p)) -> forall p, f p = flip p.
Proof.
  intros f H p. destruct (H p) as [(t & A & B) C]. cbn in A, B, C.
  apply pt_eq; unfold flip; cbn; lra.
Qed.
Lemma mirrored_ok : forall sh, Forall seg_ok sh ->
  exists r, mirrored sh = Ok r /\ Forall seg_ok r /\ mirror_images sh r.
Proof.
  intros sh K. destruct (c59_across_line (P 0 0) (P 0 1) sh) as (r & f & E & K' & M & F & _); [|exact K|].
  - intros [_ H]; cbn in H. rewrite Rminus_0_l, Rabs_Ropp, Rabs_R1 in H. lra.
  - exists r. unfold mirrored; rewrite E. split; [reflexivity|]. split; [exact K'|].
    exact (images_ext _ _ _ _ _ _ (flip_unique f M) eq_refl F).
Qed.

Lemma images_starts : forall f k l r, Forall2 (image f k) l r ->
  map point_start r = map f (map point_start l) /\ map point_end r = map f (map point_end l).
Proof.
  intros f k l r F; induction F as [|a b l r H F IH]; cbn; [auto|].
  destruct IH as [A B]. rewrite (image_start _ _ _ _ H), (image_end _ _ _ _ H), A, B. auto.
Qed.
Lemma images_lines : forall f k l r, Forall2 (image f k) l r -> Forall is_line l -> Forall is_line r.
Proof.
  intros f k l r F; induction F as [|a b l r H F IH]; intros L; constructor; inversion L as [|x y LA LB]; subst; [|auto].
  destruct H as [H _]. destruct a, b; easy.
Qed.

Definition shifted (b : R) (p : pt) : pt := P (px p - b / 2) (py p).
Definition ends (sh : shape) : list pt := flat_map (fun s => [point_start s; point_end s]) sh.
Fixpoint pairs (l : list pt) : list pt :=
  match l with a :: ((b :: _) as r) => a :: b :: pairs r | _ => [] end.
Lemma ends_pairs : forall sh cs, map point_start sh = removelast cs -> map point_end sh = tl cs ->
  ends sh = pairs cs.
Proof.
  induction sh as [|s sh IH]; intros cs S E.
  - destruct cs as [|p [|q cs]]; [reflexivity|reflexivity|discriminate].
  - destruct cs as [|p [|q cs]]; try discriminate.
    change (pairs (p :: q :: cs)) with (p :: q :: pairs (q :: cs)).
    change (removelast (p :: q :: cs)) with (p :: removelast (q :: cs)) in S.
    cbn [map tl] in S, E. injection S as S1 S2. injection E as E1 E2.
    change (ends (s :: sh)) with (point_start s :: point_end s :: ends sh).
    rewrite (IH (q :: cs) S2 E2). congruence.
Qed.

Lemma translate_reflect_ok : forall b ks pts, path_ok ks pts ->
  exists l r, translate_reflect b ks pts = Ok (l, r) /\ Forall seg_ok l /\ Forall seg_ok r /\
    joined l /\ joined r /\ mirror_images l r /\
    map point_start l = map (shifted b) (removelast (corners ks pts)) /\
    map point_end l = map (shifted b) (tl (corners ks pts)) /\
    (Forall (fun k => k = KLine) ks -> Forall is_line l /\ Forall is_line r).
Proof.
  intros b ks pts H. destruct (segments_total _ _ H) as (l & E & K & S & T & L).
  assert (J := joined_ends _ _ S T).
  destruct (translate_shape_ok (P (- (b / 2)) 0) l K) as [K1 I1].
  destruct (mirrored_ok _ K1) as (r & M & K2 & I2).
  exists (translate_shape (P (- (b / 2)) 0) l), r.
  assert (J1 := images_joined _ _ _ _ I1 J).
  split; [|split; [exact K1|split; [exact K2|split; [exact J1|split; [exact (images_joined _ _ _ _ I2 J1)|split; [exact I2|]]]]]].
  - unfold translate_reflect, helper. rewrite E; cbn [bind].
    rewrite (proj2 (proj1 (c60_construct l)) (joined_nearly _ J)). cbn [bind]. rewrite M. reflexivity.
  - destruct (images_starts _ _ _ _ I1) as [A B]. rewrite A, B, S, T.
    assert (X : forall p, padd p (P (- (b / 2)) 0) = shifted b p).
    { intros p; apply pt_eq; unfold shifted; cbn; lra. }
    split; [apply map_ext; exact X|]. split; [apply map_ext; exact X|].
    intros F. assert (A1 := images_lines _ _ _ _ I1 (L F)). split; [exact A1|].
    exact (images_lines _ _ _ _ I2 A1).
Qed.

(** ** Areas *)
Lemma line_points_ok : forall sh, Forall is_line sh -> line_points sh = Ok (ends sh).
Proof.
  induction sh as [|[a b l|a] sh IH]; intros F; inversion F; subst; [reflexivity| |contradiction].
  cbn [line_points]. rewrite IH by assumption. reflexivity.
Qed.
Lemma map_removelast : forall (f : pt -> pt) l, map f (removelast l) = removelast (map f l).
Proof.
  induction l as [|a [|b l] IH]; [reflexivity|reflexivity|].
  change (removelast (a :: b :: l)) with (a :: removelast (b :: l)).
  change (removelast (map f (a :: b :: l))) with (f a :: removelast (map f (b :: l))).
  cbn [map]. f_equal. exact IH.
Qed.
Lemma map_tl : forall (f : pt -> pt) l, map f (tl l) = tl (map f l).
Proof. intros f []; reflexivity. Qed.

(** the points of a symmetric groove of lines *)
Lemma line_groove : forall b ks pts, path_ok ks pts -> Forall (fun k => k = KLine) ks ->
  exists p, translate_reflect b ks pts = Ok p /\
    line_points (fst p) = Ok (pairs (map (shifted b) (corners ks pts))) /\
    line_points (snd p) = Ok (pairs (map (fun q => flip (shifted b q)) (corners ks pts))) /\
    mirror_images (fst p) (snd p).
Proof.
  intros b ks pts H F. destruct (translate_reflect_ok b ks pts H) as (l & r & E & _ & _ & _ & _ & I & S & T & L).
  destruct (L F) as [L1 L2]. exists (l, r). split; [exact E|]. cbn [fst snd].
  destruct (images_starts _ _ _ _ I) as [S2 T2].
  rewrite (line_points_ok _ L1), (line_points_ok _ L2).
  rewrite map_removelast in S. rewrite map_tl in T.
  rewrite (ends_pairs _ _ S T).
  rewrite S, map_removelast, map_map in S2. rewrite T, map_tl, map_map in T2.
  rewrite (ends_pairs _ _ S2 T2). auto.
Qed.

Lemma fold_min : forall r a lo, (forall x, In x (a :: r) -> lo <= x) -> In lo (a :: r) ->
  fold_right Rmin a r = lo.
Proof.
  intros r a lo H M.
  assert (G : forall m, fold_right Rmin a m <= a /\ (forall x, In x m -> fold_right Rmin a m <= x)).
  { induction m as [|y m [IH1 IH2]]; cbn; [split; [lra|tauto]|].
    split; [apply Rle_trans with (2 := IH1); apply Rmin_r|].
    intros x [<-|X]; [apply Rmin_l|apply Rle_trans with (2 := IH2 x X); apply Rmin_r]. }
  assert (L : forall m, (forall x, In x m -> lo <= x) -> lo <= fold_right Rmin a m).
  { induction m as [|y m IH]; intros Q; cbn; [apply H; left; reflexivity|].
    apply Rmin_glb; [apply Q; left; reflexivity|apply IH; intros; apply Q; right; assumption]. }
  apply Rle_antisym; [|apply L; intros; apply H; right; assumption].
  destruct (G r) as [G1 G2]. destruct M as [<-|M]; auto.
Qed.
Lemma fold_max : forall r a hi, (forall x, In x (a :: r) -> x <= hi) -> In hi (a :: r) ->
  fold_right Rmax a r = hi.
Proof.
  intros r a hi H M.
  assert (G : forall m, a <= fold_right Rmax a m /\ (forall x, In x m -> x <= fold_right Rmax a m)).
  { induction m as [|y m [IH1 IH2]]; cbn; [split; [lra|tauto]|].
    split; [apply Rle_trans with (1 := IH1); apply Rmax_r|].
    intros x [<-|X]; [apply Rmax_l|apply Rle_trans with (1 := IH2 x X); apply Rmax_r]. }
  assert (L : forall m, (forall x, In x m -> x <= hi) -> fold_right Rmax a m <= hi).
  { induction m as [|y m IH]; intros Q; cbn; [apply H; left; reflexivity|].
    apply Rmax_lub; [apply Q; left; reflexivity|apply IH; intros; apply Q; right; assumption]. }
  apply Rle_antisym; [apply L; intros; apply H; right; assumption|].
  destruct (G r) as [G1 G2]. destruct M as [<-|M]; auto.
Qed.
Lemma min_is : forall l lo, (forall x, In x l -> lo <= x) -> In lo l -> min_list l = lo.
Proof. intros [|a r] lo H M; [contradiction|]. apply fold_min; assumption. Qed.
Lemma max_is : forall l hi, (forall x, In x l -> x <= hi) -> In hi l -> max_list l = hi.
Proof. intros [|a r] hi H M; [contradiction|]. apply fold_max; assumption. Qed.

Lemma gap_area_is : forall a b x1 x2 y1 y2 A B,
  (forall p, In p (a ++ b) -> x1 <= px p <= x2 /\ y1 <= py p <= y2) ->
  In x1 (map px (a ++ b)) -> In x2 (map px (a ++ b)) ->
  In y1 (map py (a ++ b)) -> In y2 (map py (a ++ b)) ->
  polygon_area a = A -> polygon_area b = - B -> 0 <= A -> 0 <= B ->
  gap_area [a; b] = (x2 - x1) * (y2 - y1) - (A + B).
Proof.
  intros a b x1 x2 y1 y2 A B H X1 X2 Y1 Y2 EA EB PA PB. unfold gap_area. cbn [concat fold_right].
  rewrite app_nil_r.
  rewrite (max_is _ x2), (min_is _ x1), (max_is _ y2), (min_is _ y1); try assumption.
  2,3,4,5: intros x Q; apply in_map_iff in Q; destruct Q as (p & <- & Q); apply H in Q; lra.
  rewrite EA, EB, Rabs_Ropp, (Rabs_right A), (Rabs_right B) by lra. ring.
Qed.

Lemma scaled_gt : forall w s, 0 < w -> s < scaled w s /\ 0 < scaled w s /\ w <= scaled w s.
Proof.
  intros w s W; unfold scaled. pose proof (Rmax_l s 0). pose proof (Rmax_r s 0).
  destruct (rle w (Rmax s 0 + 1)) eqn:E; [apply rle_true in E|apply rle_false in E]; lra.
Qed.

(** ** Angles *)
Lemma tan_nonneg : forall a, 0 <= a < PI / 2 -> 0 <= tan a.
Proof.
  intros a [H L]. destruct (Rle_lt_or_eq_dec _ _ H) as [P|<-]; [|rewrite tan_0; lra].
  left. apply tan_gt_0; assumption.
Qed.
Lemma cos_pos : forall a, 0 <= a < PI / 2 -> 0 < cos a.
Proof. intros a H. pose proof PI_RGT_0. apply cos_gt_0; lra. Qed.
Lemma tan_cos : forall a, cos a <> 0 -> tan a * cos a = sin a.
Proof. intros a H; unfold tan; field; exact H. Qed.
Lemma leans_tan : forall a p q, 0 <= a < PI / 2 -> py p < py q ->
  px p - px q = tan a * (py q - py p) -> leans a p q.
Proof.
  intros a p q A H E. assert (C := cos_pos a A). exists ((py q - py p) / cos a).
  split; [apply Rdiv_lt_0_compat; lra|]. unfold tan in E. split.
  - replace (px q) with (px p - (px p - px q)) by ring. rewrite E. field. lra.
  - field. lra.
Qed.
Lemma leans_in_tan : forall a p q, 0 <= a < PI / 2 -> py p < py q ->
  px q - px p = tan a * (py q - py p) -> leans_in a p q.
Proof.
  intros a p q A H E. assert (C := cos_pos a A). exists ((py q - py p) / cos a).
  split; [apply Rdiv_lt_0_compat; lra|]. unfold tan in E. split.
  - replace (px q) with (px p + (px q - px p)) by ring. rewrite E. field. lra.
  - field. lra.
Qed.
Lemma leans_is : forall a p q, cos a <> 0 -> leans a p q -> px p - px q = tan a * (py q - py p).
Proof.
  intros a p q C (k & _ & X & Y). rewrite X, Y. unfold tan. field. exact C.
Qed.

(** tactics for explicit lists of points *)
Ltac find_in := first [left; cbn; first [reflexivity|lra|nra]|right; find_in].
Ltac all_in := let q := fresh "q" in let H := fresh "H" in
  intros q H; repeat (destruct H as [<-|H]; [cbn; first [lra|repeat split; nra]|]); contradiction.
Ltac ne := let Q := fresh "Q" in intros Q; injection Q; intros; first [lra|nra].

Lemma rectangle_ok : forall w b t, 0 < w -> 0 < t ->
  exists l, rectangle w b t = Ok l /\ Forall seg_ok l /\ joined l /\ Forall is_line l /\
    map point_start l = [P (- w - b / 2) 0; P (- (b / 2)) 0; P (- (b / 2)) t] /\
    map point_end l = [P (- (b / 2)) 0; P (- (b / 2)) t; P (- w - b / 2) t].
Proof.
  intros w b t W T.
  set (pts := [P (- w - b / 2) 0; P (- (b / 2)) 0; P (- (b / 2)) t; P (- w - b / 2) t]).
  destruct (line_chain_total pts) as [l C].
  { intros i Hi. cbn in Hi. destruct i as [|[|[|i]]]; [| | |lia]; cbn; ne. }
  destruct (line_chain_ok _ _ C) as (K & L & J & S & E).
  exists l. unfold rectangle, add_line_segments. fold pts. cbn [rev app length pts Nat.leb].
  fold pts. rewrite C. unfold add_segments. cbn [rev].
  rewrite (proj2 (check_connected_iff l) (joined_nearly _ J)). auto 6.
Qed.
Lemma rectangle_points : forall w b t, 0 < w -> 0 < t ->
  exists l, rectangle w b t = Ok l /\
    line_points l = Ok (pairs [P (- w - b / 2) 0; P (- (b / 2)) 0; P (- (b / 2)) t; P (- w - b / 2) t]).
Proof.
  intros w b t W T. destruct (rectangle_ok w b t W T) as (l & E & _ & _ & L & S & N).
  exists l. split; [exact E|]. rewrite (line_points_ok _ L). f_equal. apply ends_pairs; [exact S|exact N].
Qed.
Lemma half_groove : forall b w t ks pts, 0 < w -> 0 < t -> path_ok ks pts -> Forall (fun k => k = KLine) ks ->
  exists p, half b t w ks pts = Ok p /\
    line_points (fst p) = Ok (pairs [P (- w - b / 2) 0; P (- (b / 2)) 0; P (- (b / 2)) t; P (- w - b / 2) t]) /\
    line_points (snd p) = Ok (pairs (map (fun q => flip (shifted b q)) (corners ks pts))).
Proof.
  intros b w t ks pts W T H F. destruct (line_groove b ks pts H F) as (p & E & _ & M & _).
  destruct (rectangle_points w b t W T) as (l & L & N).
  exists (l, snd p). unfold half. rewrite E; cbn [bind]; rewrite L; auto.
Qed.

(** ** Extents *)
Lemma rightmost_intro : forall sh S E x, map point_start sh = S -> map point_end sh = E ->
  In x (map px S) -> (forall p, In p (S ++ E) -> px p <= x) -> rightmost x sh.
Proof.
  intros sh S E x <- <- I H. split.
  - rewrite map_map in I. apply in_map_iff in I. destruct I as (s & <- & I). eauto.
  - intros s Q. split; apply H, in_or_app; [left|right]; apply in_map; exact Q.
Qed.
Lemma leftmost_intro : forall sh S E x, map point_start sh = S -> map point_end sh = E ->
  In x (map px S) -> (forall p, In p (S ++ E) -> x <= px p) -> leftmost x sh.
Proof.
  intros sh S E x <- <- I H. split.
  - rewrite map_map in I. apply in_map_iff in I. destruct I as (s & <- & I). eauto.
  - intros s Q. split; apply H, in_or_app; [left|right]; apply in_map; exact Q.
Qed.
(** a mirrored path that starts at (- x, 0) and stays between - x and 0 *)
Lemma mirrored_rightmost : forall b x ks pts l r, 0 <= x ->
  mirror_images l r ->
  map point_start l = map (shifted b) (removelast (corners ks (P (- x) 0 :: pts))) ->
  map point_end l = map (shifted b) (tl (corners ks (P (- x) 0 :: pts))) ->
  path_ok ks (P (- x) 0 :: pts) -> ks <> [] ->
  (forall p, In p (corners ks (P (- x) 0 :: pts)) -> - x <= px p) ->
  rightmost (x + b / 2) r.
Proof.
  intros b x ks pts l r X M S E K N H. destruct (images_starts _ _ _ _ M) as [S2 E2].
  destruct (corners_head _ _ _ K) as [t C].
  rewrite S, map_map in S2. rewrite E, map_map in E2.
  assert (T : t <> []).
  { intros ->. destruct ks as [|[] ks]; [congruence| |].
    - destruct pts as [|q pts]; [contradiction|]. destruct K as [_ K].
      destruct (corners_head _ _ _ K) as [t C']. cbn in C. cbn in C'. congruence.
    - destruct pts as [|q [|q2 pts]]; try contradiction. destruct K as [_ K].
      destruct (corners_head _ _ _ K) as [t C']. cbn in C. cbn in C'. congruence. }
  eapply rightmost_intro; [exact S2|exact E2| |].
  - rewrite C. destruct t as [|q t]; [congruence|]. left. cbn. lra.
  - intros p Q. apply in_app_or in Q.
    assert (G : exists q, In q (corners ks (P (- x) 0 :: pts)) /\ p = flip (shifted b q)).
    { destruct Q as [Q|Q]; apply in_map_iff in Q; destruct Q as (q & <- & Q); exists q; (split; [|reflexivity]).
      - rewrite C in *. clear - Q. revert Q. generalize (P (- x) 0). induction t as [|y t IH]; intros z Q; [contradiction|].
        change (removelast (z :: y :: t)) with (z :: removelast (y :: t)) in Q.
        destruct Q as [<-|Q]; [left; reflexivity|right; apply IH, Q].
      - rewrite C in *. right. exact Q. }
    destruct G as (q & G & ->). apply H in G. cbn. lra.
Qed.
Lemma rectangle_leftmost : forall w b t l, 0 < w -> 0 < t -> rectangle w b t = Ok l -> leftmost (- (w + b / 2)) l.
Proof.
  intros w b t l W T E. destruct (rectangle_ok w b t W T) as (l' & E' & _ & _ & _ & S & N).
  assert (l' = l) by congruence. subst l'.
  eapply leftmost_intro; [exact S|exact N| |].
  - left; cbn; lra.
  - all_in.
Qed.

(** ** Exceptions *)
Lemma mk_arc_cases : forall a b c ccw, (exists s, mk_arc a b c ccw = Ok s) \/ mk_arc a b c ccw = Err ValueError.
Proof.
  intros a b c ccw. unfold mk_arc, update_arc, arc_angle, normalize, check_arc.
  destruct (req (pnorm (psub a c)) 0); [right; reflexivity|]. cbn [bind].
  destruct (req (pnorm (psub b c)) 0); [right; reflexivity|]. cbn [bind].
  destruct (0 <? _)%Z; cbn [bind]; destruct (rle _ 0); [right; reflexivity| |right; reflexivity|];
    (destruct (isclose tol8 _ 0); [left; eexists; reflexivity|right; reflexivity]).
Qed.

(** ** Arcs of the grooves *)
Lemma circle_dist : forall r beta x y, 0 <= r -> dist (P (x - r * cos beta) (y - r * sin beta)) (P x y) = r.
Proof.
  intros r beta x y H. apply dist_eq_sq; [exact H|]. cbn [px py].
  pose proof (sin2_cos2 beta) as Q. unfold Rsqr in Q.
  transitivity ((sin beta * sin beta + cos beta * cos beta) * (r * r)); [ring|rewrite Q; ring].
Qed.
Lemma below_dist : forall r x y, 0 <= r -> dist (P x (y - r)) (P x y) = r.
Proof. intros r x y H. apply dist_eq_sq; [exact H|]. cbn [px py]. ring. Qed.
Lemma above_dist : forall r x y, 0 <= r -> dist (P x (y + r)) (P x y) = r.
Proof. intros r x y H. apply dist_eq_sq; [exact H|]. cbn [px py]. ring. Qed.
Lemma lower_dist : forall r beta x y, 0 <= r -> dist (P (x - r * cos beta) (y + r * sin beta)) (P x y) = r.
Proof.
  intros r beta x y H. apply dist_eq_sq; [exact H|]. cbn [px py].
  pose proof (sin2_cos2 beta) as Q. unfold Rsqr in Q.
  transitivity ((sin beta * sin beta + cos beta * cos beta) * (r * r)); [ring|rewrite Q; ring].
Qed.

(** the arcs of a path after the translation *)
Fixpoint circles (b : R) (ks : list kind) (pts : list pt) (l : list seg) : Prop :=
  match ks, pts, l with
  | KLine :: ks', _ :: r, _ :: l' => circles b ks' r l'
  | KArc :: ks', a :: c :: r, s :: l' =>
      (forall x, dist (get_point s x) (shifted b c) = dist a c) /\ circles b ks' r l'
  | _, _, _ => True
  end.
Lemma circles_ok : forall b ks pts l0 l, path_ok ks pts -> segments_of ks pts = Ok l0 ->
  Forall2 (image (fun p => padd p (P (- (b / 2)) 0)) 1) l0 l -> circles b ks pts l.
Proof.
  intros b. induction ks as [|[] ks IH]; intros pts l0 l H E F; [exact I| |].
  - destruct pts as [|a [|q r]]; try contradiction. destruct H as [N H].
    change (segments_of (KLine :: ks) (a :: q :: r)) with
      (bind (mk_line a q) (fun s => bind (segments_of ks (q :: r)) (fun l => Ok (s :: l)))) in E.
    destruct (mk_line a q); [|discriminate]. cbn [bind] in E.
    destruct (segments_of ks (q :: r)) as [l1|] eqn:E1; [|discriminate]. injection E as <-.
    inversion F as [|x y lx ly F1 F2]; subst. cbn [circles]. exact (IH _ _ _ H E1 F2).
  - destruct pts as [|a [|c [|q r]]]; try contradiction. destruct H as [N H].
    change (segments_of (KArc :: ks) (a :: c :: q :: r)) with
      (bind (mk_arc a q c false) (fun s => bind (segments_of ks (q :: r)) (fun l => Ok (s :: l)))) in E.
    destruct (mk_arc a q c false) as [sg|] eqn:E0; [|discriminate]. cbn [bind] in E.
    destruct (segments_of ks (q :: r)) as [l1|] eqn:E1; [|discriminate]. injection E as <-.
    inversion F as [|x y lx ly F1 F2]; subst. cbn [circles]. split; [|exact (IH _ _ _ H E1 F2)].
    intros z. destruct F1 as (_ & _ & F1). rewrite F1.
    destruct (c57_arc _ _ _ _ _ E0) as (_ & _ & _ & _ & D & _).
    rewrite <- (D z). transitivity (dist (padd (get_point sg z) (P (- (b / 2)) 0)) (padd c (P (- (b / 2)) 0))); [|apply dist_shift].
    f_equal. apply pt_eq; unfold shifted; cbn; lra.
Qed.
Lemma groove_circles : forall b ks pts l r, path_ok ks pts -> translate_reflect b ks pts = Ok (l, r) -> circles b ks pts l.
Proof.
  intros b ks pts l r H E. destruct (segments_total _ _ H) as (l0 & E0 & K & S & T & _).
  unfold translate_reflect, helper in E. rewrite E0 in E. cbn [bind] in E.
  rewrite (proj2 (proj1 (c60_construct l0)) (joined_nearly _ (joined_ends _ _ S T))) in E. cbn [bind] in E.
  destruct (mirrored _) as [m|]; [|discriminate]. cbn [bind] in E. injection E as <- <-.
  exact (circles_ok _ _ _ _ _ H E0 (proj2 (translate_shape_ok _ _ K))).
Qed.
Lemma sqrt_circle : forall r x y, 0 <= r -> x * x <= r * r ->
  dist (P (- x) y) (P 0 (y + sqrt (r * r - x * x))) = r.
Proof.
  intros r x y R H. apply dist_eq_sq; [exact R|]. cbn [px py].
  assert (Q := sqrt_sqrt (r * r - x * x) ltac:(lra)).
  transitivity (x * x + sqrt (r * r - x * x) * sqrt (r * r - x * x)); [ring|rewrite Q; ring].
Qed.
