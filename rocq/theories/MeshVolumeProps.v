(** Property C155: area of the end faces and volume of triangulated extrusions.
    The meshes are those of MeshModel.v; the points of a raster are given by
    their coordinates. *)
From Coq Require Import List Arith ZArith Lia Reals Lra Permutation FinFun.
From Verif Require GeoSpec GeoShapeFacts GeoProps.
From Verif Require Import Base GeoModel MeshModel MeshSpec MeshFacts.
Import ListNotations.
Open Scope R_scope.

(** cross product of points of the plane; the area spanned by a triangle and the
    one enclosed by a polygon, both twice and with sign *)
Definition cross (p q : R * R) : R := fst p * snd q - fst q * snd p.
Definition area2 (P : nat -> R * R) (t : tri) : R :=
  match t with (a, b, c) => cross (P a) (P b) + cross (P b) (P c) + cross (P c) (P a) end.
Definition rsum (l : list R) : R := fold_right Rplus 0 l.
Definition polygon2 (n : nat) (p : nat -> R * R) : R :=
  rsum (map (fun i => cross (p i) (p (cyc_succ n i))) (seq 0 n)).

(** six times the signed volume between the origin and a triangle, and the one
    enclosed by a mesh; it is positive if the normals point outwards *)
Definition det3 (a b c : R * (R * R)) : R :=
  fst a * cross (snd b) (snd c) + fst b * cross (snd c) (snd a) + fst c * cross (snd a) (snd b).
Definition tri_volume6 (P : nat -> R * (R * R)) (t : tri) : R :=
  match t with (a, b, c) => det3 (P a) (P b) (P c) end.
Definition volume6 (P : nat -> R * (R * R)) (ts : list tri) : R := rsum (map (tri_volume6 P) ts).

Lemma rsum_app : forall a b, rsum (a ++ b) = rsum a + rsum b.
Proof.
  unfold rsum. induction a as [|x a IH]; intros b; cbn [app fold_right]; [ lra | ]. rewrite IH. lra.
Qed.
Lemma rsum_cons : forall x l, rsum (x :: l) = x + rsum l.
Proof. reflexivity. Qed.
Lemma volume_app : forall P a b, volume6 P (a ++ b) = volume6 P a + volume6 P b.
Proof. intros. unfold volume6. rewrite map_app. apply rsum_app. Qed.
Lemma volume_cons : forall P t a, volume6 P (t :: a) = tri_volume6 P t + volume6 P a.
Proof. reflexivity. Qed.
Lemma rsum_scale : forall (A : Type) k (f : A -> R) l, rsum (map (fun x => k * f x) l) = k * rsum (map f l).
Proof. intros A k f l. induction l as [|x l IH]; cbn [map]; [ cbn; lra | ]. rewrite !rsum_cons, IH. lra. Qed.
Lemma cross_anti : forall p q, cross q p = - cross p q.
Proof. intros. unfold cross. lra. Qed.
Lemma cross_self : forall p, cross p p = 0.
Proof. intros. unfold cross. lra. Qed.

(** the sum along the points i, ..., i + m *)
Definition path (p : nat -> R * R) (i m : nat) : R :=
  rsum (map (fun j => cross (p j) (p (S j))) (seq i m)).
Lemma path_first : forall p i m, path p i (S m) = cross (p i) (p (S i)) + path p (S i) m.
Proof. reflexivity. Qed.
Lemma path_last : forall p i m, path p i (S m) = path p i m + cross (p (i + m)%nat) (p (S (i + m))).
Proof.
  intros. unfold path. rewrite seq_S, map_app, rsum_app. cbn [map]. rewrite rsum_cons. cbn [rsum fold_right]. lra.
Qed.

Lemma loop_area : forall fuel n off P i0 i1 cw ccw, (i0 + i1 + 2 <= n)%nat ->
  front_back_loop fuel n off i0 i1 = Some (cw, ccw) ->
  let q := fun j => P (off + j)%nat in
  rsum (map (area2 P) cw) = path q i0 (n - 1 - i1 - i0) + cross (q (n - 1 - i1)%nat) (q i0) /\
  rsum (map (area2 P) ccw) = - rsum (map (area2 P) cw).
Proof.
  induction fuel as [|f IH]; intros n off P i0 i1 cw ccw B H q; cbn [front_back_loop] in H.
  - destruct (Nat.ltb_spec (i0 + i1) (n - 2)); [ discriminate | ]. injection H as <- <-.
    replace (n - 1 - i1 - i0)%nat with 1%nat by lia. rewrite path_first.
    replace (n - 1 - i1)%nat with (S i0) by lia. unfold path. cbn. rewrite (cross_anti (q i0)). lra.
  - destruct (Nat.ltb_spec (i0 + i1) (n - 2)).
    2:{ injection H as <- <-. replace (n - 1 - i1 - i0)%nat with 1%nat by lia. rewrite path_first.
        replace (n - 1 - i1)%nat with (S i0) by lia. unfold path. cbn. rewrite (cross_anti (q i0)). lra. }
    destruct (i1 =? i0)%nat.
    + destruct (front_back_loop f n off (i0 + 1) i1) as [[a b]|] eqn:E; [ | discriminate ]. injection H as <- <-.
      apply (IH n off P) in E; [ | lia ]. cbv zeta in E. fold q in E. destruct E as [E1 E2].
      cbn [map]. rewrite !rsum_cons, E2, E1. cbn [area2].
      replace (i0 + off)%nat with (off + i0)%nat by lia. replace (off + i0 + 1)%nat with (off + S i0)%nat by lia.
      replace (n + off - i1 - 1)%nat with (off + (n - 1 - i1))%nat by lia.
      replace (i0 + 1)%nat with (S i0) by lia.
      replace (n - 1 - i1 - i0)%nat with (S (n - 1 - i1 - S i0)) by lia. rewrite path_first.
      fold (q i0) (q (S i0)) (q (n - 1 - i1)%nat).
      rewrite (cross_anti (q (S i0)) (q (n - 1 - i1)%nat)), (cross_anti (q i0) (q (S i0))),
        (cross_anti (q i0) (q (n - 1 - i1)%nat)). lra.
    + destruct (front_back_loop f n off i0 (i1 + 1)) as [[a b]|] eqn:E; [ | discriminate ]. injection H as <- <-.
      apply (IH n off P) in E; [ | lia ]. cbv zeta in E. fold q in E. destruct E as [E1 E2].
      cbn [map]. rewrite !rsum_cons, E2, E1. cbn [area2].
      set (m := (n - 1 - (i1 + 1))%nat).
      replace (i0 + off)%nat with (off + i0)%nat by lia.
      replace (n + off - i1 - 2)%nat with (off + m)%nat by (unfold m; lia).
      replace (off + m + 1)%nat with (off + S m)%nat by lia.
      replace (n - 1 - i1 - i0)%nat with (S (m - i0)) by (unfold m; lia).
      replace (n - 1 - i1)%nat with (S m) by (unfold m; lia). rewrite path_last.
      replace (i0 + (m - i0))%nat with m by (unfold m; lia).
      fold (q i0) (q m) (q (S m)).
      rewrite (cross_anti (q i0) (q m)), (cross_anti (q m) (q (S m))), (cross_anti (q i0) (q (S m))). lra.
Qed.

Lemma polygon_path : forall n p, (1 <= n)%nat -> polygon2 n p = path p 0 (n - 1) + cross (p (n - 1)%nat) (p 0%nat).
Proof.
  intros n p H. destruct n as [|n]; [ lia | ]. replace (S n - 1)%nat with n by lia.
  unfold polygon2. rewrite seq_S, map_app, rsum_app. cbn [map Nat.add]. rewrite rsum_cons. cbn [rsum fold_right].
  unfold cyc_succ at 2. replace (n + 1 =? S n)%nat with true by (symmetry; apply Nat.eqb_eq; lia).
  rewrite Rplus_0_r. f_equal. unfold path. f_equal. apply map_ext_in. intros i Hi. apply in_seq in Hi.
  unfold cyc_succ. destruct (Nat.eqb_spec (i + 1) (S n)); [ lia | ]. rewrite Nat.add_1_r. reflexivity.
Qed.

Lemma loop_bounds : forall fuel n off i0 i1 cw ccw, (i0 + i1 + 2 <= n)%nat ->
  front_back_loop fuel n off i0 i1 = Some (cw, ccw) ->
  Forall (verts_in off (off + n)) cw /\ Forall (verts_in off (off + n)) ccw.
Proof.
  induction fuel as [|f IH]; intros n off i0 i1 cw ccw B H; cbn [front_back_loop] in H.
  - destruct (i0 + i1 <? n - 2)%nat; [ discriminate | ]. injection H as <- <-. auto.
  - destruct (Nat.ltb_spec (i0 + i1) (n - 2)); [ | injection H as <- <-; auto ].
    destruct (i1 =? i0)%nat.
    + destruct (front_back_loop f n off (i0 + 1) i1) as [[a b]|] eqn:E; [ | discriminate ]. injection H as <- <-.
      apply IH in E; [ | lia ]. destruct E.
      split; constructor; auto; intros v; cbn [tri_has]; intros [->|[->| ->]]; lia.
    + destruct (front_back_loop f n off i0 (i1 + 1)) as [[a b]|] eqn:E; [ | discriminate ]. injection H as <- <-.
      apply IH in E; [ | lia ]. destruct E.
      split; constructor; auto; intros v; cbn [tri_has]; intros [->|[->| ->]]; lia.
Qed.

(** the triangles of a face in a plane of constant first coordinate *)
Lemma face_volume : forall P x ts lo hi, (forall v, (lo <= v < hi)%nat -> fst (P v) = x) ->
  Forall (verts_in lo hi) ts -> volume6 P ts = x * rsum (map (area2 (fun v => snd (P v))) ts).
Proof.
  intros P x ts lo hi H F. unfold volume6. rewrite <- rsum_scale. f_equal. apply map_ext_in.
  intros [[a b] c] I. rewrite Forall_forall in F. specialize (F _ I). unfold verts_in in F. cbn [tri_has] in F.
  cbn [area2 tri_volume6]. unfold det3. rewrite !H by (apply F; auto). ring.
Qed.

(** the two triangles of a quad between profiles at [x] and [x'] *)
Lemma quad_volume : forall x x' p q,
  det3 (x, p) (x', p) (x, q) + det3 (x, q) (x', p) (x', q) = 2 * (x - x') * cross p q /\
  det3 (x, p) (x, q) (x', p) + det3 (x, q) (x', q) (x', p) = - (2 * (x - x') * cross p q).
Proof. intros. unfold det3, cross. cbn. split; ring. Qed.

Section Extrusion.
  (** the points of a raster: the same polygon at every profile *)
  Variables (np n off : nat) (x : nat -> R) (p : nat -> R * R) (P : nat -> R * (R * R)).
  Hypothesis Hp : (2 <= np)%nat.
  Hypothesis Hn : (3 <= n)%nat.
  Hypothesis raster : forall k i, (k < np)%nat -> (i < n)%nat -> P (off + k * n + i)%nat = (x k, p i).

  Lemma strip_volume : forall cw k, (S k < np)%nat ->
    volume6 P (map (shift_tri (k * n + off)) (profile_tri_base n cw)) =
    (if cw then 2 * (x k - x (S k)) else - (2 * (x k - x (S k)))) * polygon2 n p.
  Proof.
    intros cw k Hk. unfold polygon2. rewrite <- rsum_scale. unfold profile_tri_base. cbv zeta.
    assert (B : forall i, In i (seq 0 n) -> (i < n)%nat) by (intros i I; apply in_seq in I; lia).
    revert B. generalize (seq 0 n) as l. induction l as [|i l IH]; intros B; [ reflexivity | ].
    cbn [flat_map]. rewrite map_app, volume_app.
    cbn [map]. rewrite rsum_cons. apply f_equal2; [ | apply IH; intros j J; apply B; right; exact J ].
    assert (Hi : (i < n)%nat) by (apply B; left; reflexivity).
    rewrite (cyc_succ_mod n i Hi). pose proof (cyc_succ_lt n i Hi) as Hc. set (j := cyc_succ n i) in *.
    assert (R0 : forall m, (m < n)%nat -> P (m + (k * n + off))%nat = (x k, p m)).
    { intros m Hm. rewrite <- (raster k m) by lia. f_equal. lia. }
    assert (R1 : forall m, (m < n)%nat -> P (m + n + (k * n + off))%nat = (x (S k), p m)).
    { intros m Hm. rewrite <- (raster (S k) m) by lia. f_equal. lia. }
    destruct (quad_volume (x k) (x (S k)) (p i) (p j)) as [Q Q'].
    destruct cw; cbn [map shift_tri]; rewrite !volume_cons; cbn [tri_volume6];
      rewrite ?(R0 i Hi), ?(R0 j Hc), ?(R1 i Hi), ?(R1 j Hc); unfold volume6; cbn [map]; unfold rsum; cbn [fold_right]; lra.
  Qed.

  Lemma sides_volume : forall cw,
    volume6 P (shape_profile_triangles np n off cw) =
    (if cw then 2 * (x 0%nat - x (np - 1)%nat) else - (2 * (x 0%nat - x (np - 1)%nat))) * polygon2 n p.
  Proof.
    intros cw. unfold shape_profile_triangles.
    assert (S : forall m, (m <= np - 1)%nat ->
      volume6 P (flat_map (fun i => map (shift_tri (i * n + off)) (profile_tri_base n cw)) (seq 0 m)) =
      (if cw then 2 * (x 0%nat - x m) else - (2 * (x 0%nat - x m))) * polygon2 n p).
    { induction m as [|m IH]; intros B; [ unfold volume6; cbn [seq flat_map map rsum fold_right]; destruct cw; lra | ].
      rewrite seq_S, flat_map_app. rewrite volume_app, IH by lia. cbn [Nat.add flat_map]. rewrite app_nil_r, strip_volume by lia. destruct cw; lra. }
    apply S. lia.
  Qed.

  Lemma closed_volume : forall cw ts, shape_triangles np n off cw true = Some ts ->
    volume6 P ts = (if cw then 3 * (x 0%nat - x (np - 1)%nat) else - (3 * (x 0%nat - x (np - 1)%nat))) * polygon2 n p.
  Proof.
    intros cw ts H. unfold shape_triangles, shape_front_back_triangles in H.
    destruct (front_back_loop n n off 0 0) as [[a b]|] eqn:E; [ | discriminate ]. injection H as <-.
    destruct (loop_bounds n n off 0 0 a b ltac:(lia) E) as [Ba Bb].
    rewrite !volume_app, sides_volume.
    assert (A0 : forall c, c = a \/ c = b -> volume6 P c =
      x 0%nat * rsum (map (area2 (fun v => snd (P v))) c)).
    { intros c [-> | ->]; apply (face_volume P _ _ off (off + n)); auto; intros v Hv;
        replace v with (off + 0 * n + (v - off))%nat by lia; rewrite raster by lia; reflexivity. }
    assert (A1 : forall c, c = a \/ c = b -> volume6 P (map (shift_tri ((np - 1) * n)) c) =
      x (np - 1)%nat * rsum (map (area2 (fun v => snd (P v))) c)).
    { intros c Hc. assert (Bc : Forall (verts_in off (off + n)) c) by (destruct Hc as [-> | ->]; assumption).
      set (P' := fun v => P (v + (np - 1) * n)%nat).
      transitivity (volume6 P' c).
      { unfold volume6. rewrite map_map. f_equal. apply map_ext. intros [[u v] w]. reflexivity. }
      rewrite (face_volume P' (x (np - 1)%nat) c off (off + n)).
      - f_equal. f_equal. apply map_ext_in. intros [[u v] w] I. rewrite Forall_forall in Bc.
        specialize (Bc _ I). unfold verts_in in Bc. cbn [tri_has] in Bc.
        assert (Same : forall z, (off <= z < off + n)%nat -> snd (P' z) = snd (P z)).
        { intros z Hz. unfold P'.
          replace (z + (np - 1) * n)%nat with (off + (np - 1) * n + (z - off))%nat by lia.
          rewrite raster by lia. replace z with (off + 0 * n + (z - off))%nat at 2 by lia.
          rewrite raster by lia. reflexivity. }
        cbn [area2]. rewrite !Same by (apply Bc; auto). reflexivity.
      - intros z Hz. unfold P'.
        replace (z + (np - 1) * n)%nat with (off + (np - 1) * n + (z - off))%nat by lia.
        rewrite raster by lia. reflexivity.
      - exact Bc. }
    destruct (loop_area n n off (fun v => snd (P v)) 0 0 a b ltac:(lia) E) as [L1 L2].
    cbv zeta in L1. rewrite !Nat.sub_0_r in L1.
    assert (S : path (fun j => snd (P (off + j)%nat)) 0 (n - 1) +
        cross (snd (P (off + (n - 1))%nat)) (snd (P (off + 0)%nat)) = polygon2 n p).
    { rewrite <- (polygon_path n (fun j => snd (P (off + j)%nat))) by lia. unfold polygon2. f_equal.
      apply map_ext_in. intros i Hi. apply in_seq in Hi.
      assert (Q : forall j, (j < n)%nat -> snd (P (off + j)%nat) = p j).
      { intros j Hj. replace (off + j)%nat with (off + 0 * n + j)%nat by lia. rewrite raster by lia. reflexivity. }
      rewrite !Q by (try apply cyc_succ_lt; lia). reflexivity. }
    rewrite S in L1.
    destruct cw; rewrite A0, A1 by auto; rewrite ?L2, ?L1; ring.
  Qed.
End Extrusion.

(** the signed areas of the triangles of the front add up to the one of the polygon,
    whatever the position of its points; the back has the opposite orientation *)
Theorem c155_end_faces : forall np n off cw P, (3 <= n)%nat ->
  exists front back,
    shape_front_back_triangles np n off cw = Some (front ++ map (shift_tri ((np - 1) * n)) back) /\
    rsum (map (area2 P) front) = (if cw then 1 else -1) * polygon2 n (fun i => P (off + i)%nat) /\
    rsum (map (area2 P) back) = - rsum (map (area2 P) front).
Proof.
  intros np n off cw P Hn. destruct (shape_loop_total np n off cw true) as [ts T].
  unfold shape_triangles, shape_front_back_triangles in *.
  destruct (front_back_loop n n off 0 0) as [[a b]|] eqn:E; [ | discriminate ].
  destruct (loop_area n n off P 0 0 a b ltac:(lia) E) as [L1 L2]. cbv zeta in L1. rewrite !Nat.sub_0_r in L1.
  exists (if cw then a else b), (if cw then b else a). split; [ reflexivity | ].
  rewrite (polygon_path n (fun i => P (off + i)%nat)) by lia. destruct cw; split; lra.
Qed.
Print Assumptions c155_end_faces.

Lemma loop_sorted : forall fuel n off i0 i1 cw ccw, (i0 + i1 + 2 <= n)%nat ->
  front_back_loop fuel n off i0 i1 = Some (cw, ccw) ->
  Forall (fun t : tri => exists i j k, (i < j < k)%nat /\ (k < n)%nat /\
    t = (off + i, off + j, off + k)%nat) cw /\
  Forall (fun t : tri => exists i j k, (i < j < k)%nat /\ (k < n)%nat /\
    t = (off + i, off + k, off + j)%nat) ccw.
Proof.
  induction fuel as [|f IH]; intros n off i0 i1 cw ccw B H; cbn [front_back_loop] in H.
  - destruct (i0 + i1 <? n - 2)%nat; [ discriminate | ]. injection H as <- <-. auto.
  - destruct (Nat.ltb_spec (i0 + i1) (n - 2)); [ | injection H as <- <-; auto ].
    destruct (i1 =? i0)%nat.
    + destruct (front_back_loop f n off (i0 + 1) i1) as [[a b]|] eqn:E; [ | discriminate ]. injection H as <- <-.
      apply IH in E; [ | lia ]. destruct E.
      split; constructor; auto; exists i0, (i0 + 1)%nat, (n - i1 - 1)%nat; split; try lia; split; try lia;
        (apply f_equal2; [ apply f_equal2 | ]; lia).
    + destruct (front_back_loop f n off i0 (i1 + 1)) as [[a b]|] eqn:E; [ | discriminate ]. injection H as <- <-.
      apply IH in E; [ | lia ]. destruct E.
      split; constructor; auto; exists i0, (n - i1 - 2)%nat, (n - i1 - 1)%nat; split; try lia; split; try lia;
        (apply f_equal2; [ apply f_equal2 | ]; lia).
Qed.

Lemma abs_sum : forall (f : tri -> R) s ts, s = 1 \/ s = -1 -> Forall (fun t => 0 <= s * f t) ts ->
  rsum (map (fun t => Rabs (f t)) ts) = s * rsum (map f ts).
Proof.
  intros f s ts S H. induction H as [|t ts Ht H IH]; cbn [map]; [ unfold rsum; cbn; lra | ].
  rewrite !rsum_cons, IH. destruct S as [-> | ->].
  - rewrite Rabs_pos_eq by lra. lra.
  - rewrite Rabs_left1 by lra. lra.
Qed.

(** the triangles of the ends of a convex profile, of either orientation [s], do not
    overlap: their areas add up to the area of the profile *)
Theorem c155_convex : forall np n off cw P s, (3 <= n)%nat -> s = 1 \/ s = -1 ->
  (forall i j k, (i < j < k)%nat -> (k < n)%nat -> 0 <= s * area2 P (off + i, off + j, off + k)%nat) ->
  exists front back,
    shape_front_back_triangles np n off cw = Some (front ++ map (shift_tri ((np - 1) * n)) back) /\
    rsum (map (fun t => Rabs (area2 P t)) front) = Rabs (polygon2 n (fun i => P (off + i)%nat)) /\
    rsum (map (fun t => Rabs (area2 P t)) back) = Rabs (polygon2 n (fun i => P (off + i)%nat)).
Proof.
  intros np n off cw P s Hn S C. destruct (shape_loop_total np n off cw true) as [ts T].
  unfold shape_triangles, shape_front_back_triangles in *.
  destruct (front_back_loop n n off 0 0) as [[a b]|] eqn:E; [ | discriminate ].
  destruct (loop_area n n off P 0 0 a b ltac:(lia) E) as [L1 L2]. cbv zeta in L1. rewrite !Nat.sub_0_r in L1.
  destruct (loop_sorted n n off 0 0 a b ltac:(lia) E) as [Sa Sb].
  exists (if cw then a else b), (if cw then b else a). split; [ reflexivity | ].
  assert (Fa : Forall (fun t => 0 <= s * area2 P t) a).
  { eapply Forall_impl; [ | exact Sa ]. intros t (i & j & k & O & K & ->). apply C; assumption. }
  assert (Fb : Forall (fun t => 0 <= - s * area2 P t) b).
  { eapply Forall_impl; [ | exact Sb ]. intros t (i & j & k & O & K & ->).
    specialize (C i j k O K). cbn [area2] in *.
    rewrite (cross_anti (P (off + k)%nat) (P (off + i)%nat)), (cross_anti (P (off + j)%nat) (P (off + k)%nat)),
      (cross_anti (P (off + i)%nat) (P (off + j)%nat)).
    destruct S as [-> | ->]; lra. }
  assert (A : rsum (map (fun t => Rabs (area2 P t)) a) = Rabs (rsum (map (area2 P) a))).
  { assert (Q := abs_sum (area2 P) s a S Fa).
    assert (N : 0 <= rsum (map (fun t => Rabs (area2 P t)) a)).
    { clear. induction a as [|t a IH]; [ unfold rsum; cbn; lra | ]. cbn [map]. rewrite rsum_cons.
      assert (H := Rabs_pos (area2 P t)). lra. }
    rewrite Q in N |- *. destruct S as [-> | ->]; [ rewrite Rabs_pos_eq by lra | rewrite Rabs_left1 by lra ]; lra. }
  assert (D : rsum (map (fun t => Rabs (area2 P t)) b) = rsum (map (fun t => Rabs (area2 P t)) a)).
  { rewrite (abs_sum (area2 P) s a S Fa), (abs_sum (area2 P) (- s) b) by (try assumption; destruct S as [-> | ->]; lra).
    rewrite L2. lra. }
  rewrite (polygon_path n (fun i => P (off + i)%nat)) by lia. rewrite <- L1, <- A.
  destruct cw; split; try reflexivity; exact D.
Qed.
Print Assumptions c155_convex.
(** a square *)
Example c155_ex_convex : let P := fun v : nat => match v with
    | O => (0, 0) | 1%nat => (1, 0) | 2%nat => (1, 1) | _ => (0, 1) end in
  forall i j k, (i < j < k)%nat -> (k < 4)%nat -> 0 <= 1 * area2 P (0 + i, 0 + j, 0 + k)%nat.
Proof.
  intros P i j k H K. assert (C : (i = 0 /\ j = 1 /\ k = 2 \/ i = 0 /\ j = 1 /\ k = 3 \/
    i = 0 /\ j = 2 /\ k = 3 \/ i = 1 /\ j = 2 /\ k = 3)%nat) by lia.
  destruct C as [(-> & -> & ->)|[(-> & -> & ->)|[(-> & -> & ->)|(-> & -> & ->)]]]; unfold P, area2, cross; cbn; lra.
Qed.

(** the triangles of an end may overlap: those of a concave polygon can have a
    larger area than the polygon *)
Theorem c155_concave_refuted : exists (P : nat -> R * R) front back,
  shape_front_back_triangles 2 4 0 false = Some (front ++ map (shift_tri 4) back) /\
  length front = length back /\
  polygon2 4 P = 8 /\ rsum (map (fun t => Rabs (area2 P t)) front) = 16.
Proof.
  exists (fun i => match i with O => (0, 1) | 1%nat => (2, 0) | 2%nat => (0, 3) | _ => (-2, 0) end),
    [(0, 3, 1); (1, 3, 2)]%nat, [(0, 1, 3); (1, 2, 3)]%nat.
  split; [ reflexivity | ]. split; [ reflexivity | ]. split.
  - unfold polygon2, cross, cyc_succ, rsum. cbn. lra.
  - unfold area2, cross, rsum. cbn.
    match goal with |- Rabs ?a + (Rabs ?b + 0) = _ =>
      replace a with 4 by lra; replace b with (-12) by lra end.
    rewrite (Rabs_pos_eq 4) by lra. rewrite <- (Rabs_Ropp (-12)), Rabs_pos_eq by lra. lra.
Qed.
Print Assumptions c155_concave_refuted.

(** the enclosed volume of the closed mesh of a straight extrusion: [x] are the
    positions of the profiles, [p] the points of the polygon *)
Theorem c155_volume : forall np n off cw x p P ts, (2 <= np)%nat -> (3 <= n)%nat ->
  (forall k i, (k < np)%nat -> (i < n)%nat -> P (off + k * n + i)%nat = (x k, p i)) ->
  shape_triangles np n off cw true = Some ts ->
  volume6 P ts = 3 * (x (np - 1)%nat - x 0%nat) * (if cw then - polygon2 n p else polygon2 n p).
Proof.
  intros np n off cw x p P ts Hp Hn H E. rewrite (closed_volume np n off x p P Hp Hn H cw ts E).
  destruct cw; ring.
Qed.
Print Assumptions c155_volume.

(** if the ordering is that of the polygon, the volume is length times area with a
    positive sign: the normals point outwards for both orderings *)
Theorem c155_outward : forall np n off cw x p P ts, (2 <= np)%nat -> (3 <= n)%nat ->
  (forall k i, (k < np)%nat -> (i < n)%nat -> P (off + k * n + i)%nat = (x k, p i)) ->
  shape_triangles np n off cw true = Some ts ->
  (cw = false <-> 0 < polygon2 n p) -> x 0%nat <= x (np - 1)%nat ->
  volume6 P ts = 6 * ((x (np - 1)%nat - x 0%nat) * (Rabs (polygon2 n p) / 2)) /\ 0 <= volume6 P ts.
Proof.
  intros np n off cw x p P ts Hp Hn H E O L.
  rewrite (c155_volume np n off cw x p P ts Hp Hn H E).
  assert (A : (if cw then - polygon2 n p else polygon2 n p) = Rabs (polygon2 n p)).
  { destruct cw.
    - rewrite Rabs_left1; [ reflexivity | ]. apply Rnot_lt_le. intros Q. apply O in Q. discriminate.
    - rewrite Rabs_pos_eq; [ reflexivity | ]. left. apply O. reflexivity. }
  rewrite A. split; [ field | ]. apply Rmult_le_pos; [ lra | apply Rabs_pos ].
Qed.
Print Assumptions c155_outward.

(** [has_cw_ordering] leaves out the edge from the last to the first point: with an
    open polygon the normals can point inwards *)
Theorem c155_open_inward_refuted : exists n (p : nat -> R * R) (P : nat -> R * (R * R)) ts,
  (forall k i, (k < 2)%nat -> (i < n)%nat -> P (0 + k * n + i)%nat = (INR k, p i)) /\ (3 <= n)%nat /\
  shape_triangles 2 n 0 (has_cw_ordering (map (fun i => GeoModel.P (fst (p i)) (snd (p i))) (seq 0 n))) true = Some ts /\
  volume6 P ts < 0.
Proof.
  set (p := fun i : nat => match i with O => (0, -1) | 1%nat => (1, -1) | _ => (1, -2) end).
  set (P := fun v : nat => (INR (v / 3), p (v mod 3))).
  assert (Hr : forall k i, (k < 2)%nat -> (i < 3)%nat -> P (0 + k * 3 + i)%nat = (INR k, p i)).
  { intros k i Hk Hi. unfold P. cbn [Nat.add]. rewrite (Nat.add_comm (k * 3) i), Nat.div_add, Nat.mod_add by lia.
    rewrite Nat.div_small, Nat.mod_small by lia. reflexivity. }
  destruct (shape_loop_total 2 3 0 false true) as [ts T].
  exists 3%nat, p, P, ts. split; [ exact Hr | ]. split; [ lia | ].
  assert (F : has_cw_ordering (map (fun i => GeoModel.P (fst (p i)) (snd (p i))) (seq 0 3)) = false).
  { unfold has_cw_ordering. cbn [seq map ordering_sum p fst snd px py]. unfold rlt.
    destruct (Rlt_dec _ 0) as [|Q]; [ reflexivity | ]. exfalso. apply Q. lra. }
  rewrite F. split; [ exact T | ].
  rewrite (c155_volume 2 3 0 false INR p P ts ltac:(lia) ltac:(lia) Hr T).
  unfold polygon2, cross, cyc_succ, rsum. cbn. lra.
Qed.
Print Assumptions c155_open_inward_refuted.

Lemma two_points : forall s w l, seg_raster s w = Ok l -> seg_length s / w <= / 4 ->
  l = [point_start s; point_end s].
Proof.
  intros s w l H Q. destruct (GeoProps.c56_points s w l H) as (_ & _ & (z & Z1 & L) & A & B & _).
  assert (K : (z < 1)%Z).
  { apply lt_IZR. unfold GeoSpec.nearest in Z1.
    assert (IZR z - seg_length s / w <= / 2) by (eapply Rle_trans; [ apply Rle_abs | exact Z1 ]). lra. }
  replace (Z.to_nat (Z.max (z + 1) 2)) with 2%nat in L by lia.
  destruct l as [|a [|b [|c l]]]; try discriminate L. cbn in A, B. congruence.
Qed.

(** this happens to closed shapes that start on the diagonal, whose first point is
    not repeated by [Shape.rasterize] (C55) *)
Theorem c155_shape_inward_refuted : exists sh w pts (p : nat -> R * R) (P : nat -> R * (R * R)) ts,
  mk_shape sh = Ok sh /\ GeoSpec.joined sh /\ rasterize sh w = Ok pts /\ length pts = 3%nat /\
  pts = map (fun i => GeoModel.P (fst (p i)) (snd (p i))) (seq 0 3) /\
  (forall k i, (k < 2)%nat -> (i < 3)%nat -> P (0 + k * 3 + i)%nat = (INR k, p i)) /\
  shape_triangles 2 3 0 (has_cw_ordering pts) true = Some ts /\ volume6 P ts < 0.
Proof.
  set (p := fun i : nat => match i with O => (-1, -1) | 1%nat => (0, -1) | _ => (0, -2) end).
  set (P := fun v : nat => (INR (v / 3), p (v mod 3))).
  assert (Hr : forall k i, (k < 2)%nat -> (i < 3)%nat -> P (0 + k * 3 + i)%nat = (INR k, p i)).
  { intros k i Hk Hi. unfold P. cbn [Nat.add]. rewrite (Nat.add_comm (k * 3) i), Nat.div_add, Nat.mod_add by lia.
    rewrite Nat.div_small, Nat.mod_small by lia. reflexivity. }
  destruct (GeoShapeFacts.line_chain_total [GeoModel.P (-1) (-1); GeoModel.P 0 (-1); GeoModel.P 0 (-2); GeoModel.P (-1) (-1)])
    as [segs C].
  { intros i Hi. cbn in Hi. destruct i as [|[|[|i]]]; [| | |lia]; cbn; intros Q; inversion Q; lra. }
  destruct (GeoShapeFacts.line_chain_ok _ _ C) as (_ & _ & J & S & E).
  cbn in S, E. destruct segs as [|a [|b [|c [|d segs]]]]; try discriminate S.
  cbn in S, E. injection S as S1 S2 S3. injection E as E1 E2 E3.
  set (w := 1 + 4 * (Rabs (seg_length a) + Rabs (seg_length b) + Rabs (seg_length c))).
  assert (W : 0 < w).
  { unfold w. assert (A1 := Rabs_pos (seg_length a)). assert (A2 := Rabs_pos (seg_length b)).
    assert (A3 := Rabs_pos (seg_length c)). lra. }
  assert (Wl : forall s, s = a \/ s = b \/ s = c -> seg_length s / w <= / 4).
  { intros s H. apply (Rmult_le_reg_r w); [ exact W | ]. unfold Rdiv. rewrite Rmult_assoc, Rinv_l by lra.
    assert (A1 := Rabs_pos (seg_length a)). assert (A2 := Rabs_pos (seg_length b)).
    assert (A3 := Rabs_pos (seg_length c)). assert (B1 := Rle_abs (seg_length s)).
    destruct H as [->|[->| ->]]; unfold w; lra. }
  destruct (GeoProps.c55_closed_diagonal a [b; c] [a; b] c w (-1) W eq_refl S1 E3) as (ras & F & R).
  inversion F as [|? ra ? l1 Ra F1]; subst. inversion F1 as [|? rb ? l2 Rb F2]; subst.
  inversion F2 as [|? rc ? l3 Rc F3]; subst. inversion F3; subst.
  apply two_points in Ra; [ | apply Wl; auto ]. apply two_points in Rb; [ | apply Wl; auto ].
  apply two_points in Rc; [ | apply Wl; auto ]. subst ra rb rc.
  cbn [map removelast concat app] in R. rewrite S1, S2, S3 in R.
  destruct (shape_loop_total 2 3 0 false true) as [ts T].
  exists [a; b; c], w, [GeoModel.P (-1) (-1); GeoModel.P 0 (-1); GeoModel.P 0 (-2)], p, P, ts.
  split. { unfold mk_shape. now rewrite (proj2 (GeoShapeFacts.check_connected_iff _) (GeoShapeFacts.joined_nearly _ J)). }
  split; [ exact J | ]. split; [ exact R | ]. split; [ reflexivity | ]. split; [ reflexivity | ].
  split; [ exact Hr | ].
  assert (O : has_cw_ordering [GeoModel.P (-1) (-1); GeoModel.P 0 (-1); GeoModel.P 0 (-2)] = false).
  { unfold has_cw_ordering. cbn [ordering_sum px py]. unfold rlt.
    destruct (Rlt_dec _ 0) as [|Q]; [ reflexivity | ]. exfalso. apply Q. lra. }
  rewrite O. split; [ exact T | ].
  rewrite (c155_volume 2 3 0 false INR p P ts ltac:(lia) ltac:(lia) Hr T).
  unfold polygon2, cross, cyc_succ, rsum. cbn. lra.
Qed.
Print Assumptions c155_shape_inward_refuted.

Lemma ordering_path : forall (p : nat -> R * R) m i,
  ordering_sum (map (fun j => GeoModel.P (fst (p j)) (snd (p j))) (seq i (S m))) =
  fst (p (i + m)%nat) * snd (p (i + m)%nat) - fst (p i) * snd (p i) - path p i m.
Proof.
  intros p. induction m as [|m IH]; intros i.
  - rewrite Nat.add_0_r. unfold path, rsum. cbn. lra.
  - specialize (IH (S i)). replace (S i + m)%nat with (i + S m)%nat in IH by lia.
    change (seq i (S (S m))) with (i :: seq (S i) (S m)). rewrite path_first.
    cbn [map seq] in IH |- *. cbn [ordering_sum] in IH |- *. rewrite IH. unfold cross. cbn [px py]. lra.
Qed.

(** with the first point repeated at the end, [has_cw_ordering] turns all normals
    outwards *)
Theorem c155_repeated_outward : forall np n off x p P ts, (2 <= np)%nat -> (3 <= n)%nat ->
  (forall k i, (k < np)%nat -> (i < n)%nat -> P (off + k * n + i)%nat = (x k, p i)) ->
  p (n - 1)%nat = p 0%nat -> x 0%nat <= x (np - 1)%nat ->
  shape_triangles np n off
    (has_cw_ordering (map (fun i => GeoModel.P (fst (p i)) (snd (p i))) (seq 0 n))) true = Some ts ->
  volume6 P ts = 6 * ((x (np - 1)%nat - x 0%nat) * (Rabs (polygon2 n p) / 2)) /\ 0 <= volume6 P ts.
Proof.
  intros np n off x p P ts Hp Hn H C L E.
  apply (c155_outward np n off _ x p P ts Hp Hn H E); [ | exact L ].
  rewrite polygon_path by lia. rewrite C, cross_self.
  unfold has_cw_ordering. replace n with (S (n - 1)) at 1 by lia. rewrite ordering_path.
  cbn [Nat.add]. rewrite C. unfold rlt. destruct (Rlt_dec _ 0) as [Q|Q]; cbn [negb]; split; intros.
  - lra.
  - reflexivity.
  - discriminate.
  - exfalso. apply Q. lra.
Qed.
Print Assumptions c155_repeated_outward.

(** ** profiles that are moved sideways *)
Definition shift2 (d a : R * R) : R * R := (fst a + fst d, snd a + snd d).

Lemma rsum_plus : forall (A : Type) (f g : A -> R) l,
  rsum (map (fun a => f a + g a) l) = rsum (map f l) + rsum (map g l).
Proof.
  intros A f g l. induction l as [|a l IH]; cbn [map]; [ unfold rsum; cbn; lra | ]. rewrite !rsum_cons, IH. lra.
Qed.
Lemma telescope : forall (f : nat -> R) m i, rsum (map (fun j => f (S j) - f j) (seq i m)) = f (i + m)%nat - f i.
Proof.
  intros f. induction m as [|m IH]; intros i; cbn [seq map].
  - rewrite Nat.add_0_r. unfold rsum. cbn. lra.
  - rewrite rsum_cons, IH. replace (S i + m)%nat with (i + S m)%nat by lia. lra.
Qed.
(** the differences along the outline add up to zero *)
Lemma around : forall n (f : nat -> R), (1 <= n)%nat ->
  rsum (map (fun i => f (cyc_succ n i) - f i) (seq 0 n)) = 0.
Proof.
  intros n f H. destruct n as [|n]; [ lia | ]. rewrite seq_S, map_app, rsum_app. cbn [map Nat.add].
  rewrite rsum_cons. unfold cyc_succ at 2. replace (n + 1 =? S n)%nat with true by (symmetry; apply Nat.eqb_eq; lia).
  replace (map (fun i => f (cyc_succ (S n) i) - f i) (seq 0 n)) with (map (fun j => f (S j) - f j) (seq 0 n)).
  - rewrite telescope. unfold rsum. cbn [Nat.add fold_right]. lra.
  - apply map_ext_in. intros i Hi. apply in_seq in Hi. unfold cyc_succ.
    destruct (Nat.eqb_spec (i + 1) (S n)); [ lia | ]. rewrite Nat.add_1_r. reflexivity.
Qed.
Lemma cross_around : forall n d p, (1 <= n)%nat ->
  rsum (map (fun i => cross d (p (cyc_succ n i)) - cross d (p i)) (seq 0 n)) = 0.
Proof. intros n d p H. apply (around n (fun i => cross d (p i)) H). Qed.
Lemma polygon_shift : forall n d p, (1 <= n)%nat -> polygon2 n (fun i => shift2 d (p i)) = polygon2 n p.
Proof.
  intros n d p H. unfold polygon2. rewrite <- (Rplus_0_r (rsum (map _ _))) at 1.
  rewrite <- (cross_around n d p H) at 1.
  transitivity (rsum (map (fun i => cross (p i) (p (cyc_succ n i)) +
    (cross d (p (cyc_succ n i)) - cross d (p i))) (seq 0 n))).
  - rewrite (cross_around n d p H), Rplus_0_r. f_equal. apply map_ext. intros i. unfold cross, shift2. cbn [fst snd]. lra.
  - rewrite rsum_plus, (cross_around n d p H). lra.
Qed.

Lemma oblique_quad : forall x x' p q d d',
  det3 (x, shift2 d p) (x', shift2 d' p) (x, shift2 d q) + det3 (x, shift2 d q) (x', shift2 d' p) (x', shift2 d' q) =
  2 * (x - x') * cross p q + 2 * x * (cross d' q - cross d' p) - 2 * x' * (cross d q - cross d p) /\
  det3 (x, shift2 d p) (x, shift2 d q) (x', shift2 d' p) + det3 (x, shift2 d q) (x', shift2 d' q) (x', shift2 d' p) =
  - (2 * (x - x') * cross p q + 2 * x * (cross d' q - cross d' p) - 2 * x' * (cross d q - cross d p)).
Proof. intros. unfold det3, cross, shift2. cbn. split; ring. Qed.

Section Oblique.
  Variables (np n off : nat) (x : nat -> R) (p s : nat -> R * R) (P : nat -> R * (R * R)).
  Hypothesis Hp : (2 <= np)%nat.
  Hypothesis Hn : (3 <= n)%nat.
  Hypothesis raster : forall k i, (k < np)%nat -> (i < n)%nat -> P (off + k * n + i)%nat = (x k, shift2 (s k) (p i)).

  Lemma oblique_strip : forall cw k, (S k < np)%nat ->
    volume6 P (map (shift_tri (k * n + off)) (profile_tri_base n cw)) =
    (if cw then 1 else -1) * (2 * (x k - x (S k)) * polygon2 n p).
  Proof.
    intros cw k Hk.
    set (g := fun i => 2 * (x k - x (S k)) * cross (p i) (p (cyc_succ n i)) +
      (2 * x k * (cross (s (S k)) (p (cyc_succ n i)) - cross (s (S k)) (p i)) +
       - (2 * x (S k)) * (cross (s k) (p (cyc_succ n i)) - cross (s k) (p i)))).
    transitivity ((if cw then 1 else -1) * rsum (map g (seq 0 n))).
    - rewrite <- rsum_scale. unfold profile_tri_base. cbv zeta.
      assert (B : forall i, In i (seq 0 n) -> (i < n)%nat) by (intros i I; apply in_seq in I; lia).
      revert B. generalize (seq 0 n) as l. induction l as [|i l IH]; intros B; [ reflexivity | ].
      cbn [flat_map]. rewrite map_app, volume_app.
      cbn [map]. rewrite rsum_cons. apply f_equal2; [ | apply IH; intros j J; apply B; right; exact J ].
      assert (Hi : (i < n)%nat) by (apply B; left; reflexivity).
      unfold g. rewrite (cyc_succ_mod n i Hi). pose proof (cyc_succ_lt n i Hi) as Hc. set (j := cyc_succ n i) in *.
      assert (R0 : forall m, (m < n)%nat -> P (m + (k * n + off))%nat = (x k, shift2 (s k) (p m))).
      { intros m Hm. rewrite <- (raster k m) by lia. f_equal. lia. }
      assert (R1 : forall m, (m < n)%nat -> P (m + n + (k * n + off))%nat = (x (S k), shift2 (s (S k)) (p m))).
      { intros m Hm. rewrite <- (raster (S k) m) by lia. f_equal. lia. }
      destruct (oblique_quad (x k) (x (S k)) (p i) (p j) (s k) (s (S k))) as [Q Q'].
      destruct cw; cbn [map shift_tri]; rewrite !volume_cons; cbn [tri_volume6];
        rewrite ?(R0 i Hi), ?(R0 j Hc), ?(R1 i Hi), ?(R1 j Hc); unfold volume6; cbn [map]; unfold rsum;
        cbn [fold_right]; lra.
    - f_equal. unfold g. rewrite !rsum_plus, !rsum_scale, !cross_around by lia. unfold polygon2. lra.
  Qed.

  Lemma oblique_sides : forall cw,
    volume6 P (shape_profile_triangles np n off cw) =
    (if cw then 1 else -1) * (2 * (x 0%nat - x (np - 1)%nat) * polygon2 n p).
  Proof.
    intros cw. unfold shape_profile_triangles.
    assert (S : forall m, (m <= np - 1)%nat ->
      volume6 P (flat_map (fun i => map (shift_tri (i * n + off)) (profile_tri_base n cw)) (seq 0 m)) =
      (if cw then 1 else -1) * (2 * (x 0%nat - x m) * polygon2 n p)).
    { induction m as [|m IH]; intros B; [ unfold volume6; cbn [seq flat_map map rsum fold_right]; lra | ].
      rewrite seq_S, flat_map_app. rewrite volume_app, IH by lia. cbn [Nat.add flat_map].
      rewrite app_nil_r, oblique_strip by lia. destruct cw; lra. }
    apply S. lia.
  Qed.

  Lemma oblique_closed : forall cw ts, shape_triangles np n off cw true = Some ts ->
    volume6 P ts = (if cw then 1 else -1) * (3 * (x 0%nat - x (np - 1)%nat) * polygon2 n p).
  Proof.
    intros cw ts H. unfold shape_triangles, shape_front_back_triangles in H.
    destruct (front_back_loop n n off 0 0) as [[a b]|] eqn:E; [ | discriminate ]. injection H as <-.
    destruct (loop_bounds n n off 0 0 a b ltac:(lia) E) as [Ba Bb].
    rewrite !volume_app, oblique_sides.
    assert (A : forall k, (k < np)%nat ->
      volume6 P (map (shift_tri (k * n)) a) = x k * polygon2 n p /\
      volume6 P (map (shift_tri (k * n)) b) = - (x k * polygon2 n p)).
    { intros k Hk. set (P' := fun v => P (v + k * n)%nat).
      assert (M : forall c, volume6 P (map (shift_tri (k * n)) c) = volume6 P' c).
      { intros c. unfold volume6. rewrite map_map. f_equal. apply map_ext. intros [[u v] w]. reflexivity. }
      assert (X : forall z, (off <= z < off + n)%nat -> P' z = (x k, shift2 (s k) (p (z - off)%nat))).
      { intros z Hz. unfold P'. replace (z + k * n)%nat with (off + k * n + (z - off))%nat by lia.
        apply raster; lia. }
      assert (X1 : forall z, (off <= z < off + n)%nat -> fst (P' z) = x k).
      { intros z Hz. rewrite X by exact Hz. reflexivity. }
      rewrite !M, (face_volume P' (x k) a off (off + n) X1 Ba), (face_volume P' (x k) b off (off + n) X1 Bb).
      destruct (loop_area n n off (fun v => snd (P' v)) 0 0 a b ltac:(lia) E) as [L1 L2].
      cbv zeta in L1. rewrite !Nat.sub_0_r in L1.
      rewrite <- (polygon_path n (fun j => snd (P' (off + j)%nat))) in L1 by lia.
      assert (S : polygon2 n (fun j => snd (P' (off + j)%nat)) = polygon2 n p).
      { rewrite <- (polygon_shift n (s k) p) by lia. unfold polygon2. f_equal. apply map_ext_in.
        intros i Hi. apply in_seq in Hi. pose proof (cyc_succ_lt n i ltac:(lia)) as Hc.
        rewrite !X by lia. cbn [snd]. replace (off + i - off)%nat with i by lia.
        replace (off + cyc_succ n i - off)%nat with (cyc_succ n i) by lia. reflexivity. }
      rewrite L2, L1, S. split; ring. }
    assert (Z : forall c : list tri, map (shift_tri (0 * n)) c = c).
    { intros c. rewrite <- (map_id c) at 2. apply map_ext. intros [[u v] w]. cbn [shift_tri Nat.mul].
      rewrite !Nat.add_0_r. reflexivity. }
    destruct (A 0%nat ltac:(lia)) as [A1 A2]. rewrite !Z in A1, A2.
    destruct (A (np - 1)%nat ltac:(lia)) as [A3 A4].
    destruct cw; rewrite ?A1, ?A2, ?A3, ?A4; ring.
  Qed.
End Oblique.

(** moving the profiles [k] sideways by [s k] does not change the volume *)
Theorem c155_oblique : forall np n off cw x p s P ts, (2 <= np)%nat -> (3 <= n)%nat ->
  (forall k i, (k < np)%nat -> (i < n)%nat ->
     P (off + k * n + i)%nat = (x k, (fst (p i) + fst (s k), snd (p i) + snd (s k)))) ->
  shape_triangles np n off cw true = Some ts ->
  volume6 P ts = 3 * (x (np - 1)%nat - x 0%nat) * (if cw then - polygon2 n p else polygon2 n p).
Proof.
  intros np n off cw x p s P ts Hp Hn H E. rewrite (oblique_closed np n off x p s P Hp Hn H cw ts E).
  destruct cw; ring.
Qed.
Print Assumptions c155_oblique.

(** ** several blocks *)
(** a straight extrusion: the block, the positions of its profiles and the polygon *)
Definition extrusion : Type := (block * ((nat -> R) * (nat -> R * R)))%type.
(** the points of the extrusions follow one another *)
Fixpoint placed (P : nat -> R * (R * R)) (off : nat) (ds : list extrusion) : Prop :=
  match ds with
  | [] => True
  | (b, (x, p)) :: r =>
      (forall k i, (k < b_np b)%nat -> (i < b_n b)%nat -> P (off + k * b_n b + i)%nat = (x k, p i)) /\
      placed P (off + block_points b) r
  end.
Definition extrusion6 (d : extrusion) : R :=
  match d with (b, (x, p)) =>
    3 * (x (b_np b - 1)%nat - x 0%nat) * (if b_cw b then - polygon2 (b_n b) p else polygon2 (b_n b) p)
  end.

Lemma blocks_volume : forall ds P off m ts, Forall block_ok (map fst ds) -> placed P off ds ->
  geometry_raster_loop (map fst ds) true off = Some (m, ts) -> volume6 P ts = rsum (map extrusion6 ds).
Proof.
  induction ds as [|[b [x p]] ds IH]; intros P off m ts B H E; cbn [map fst geometry_raster_loop] in *.
  - injection E as <- <-. reflexivity.
  - inversion B as [|? ? [Hp Hn] B']; subst. destruct H as [H H'].
    destruct (shape_triangles (b_np b) (b_n b) off (b_cw b) true) as [t1|] eqn:E1; [ | discriminate ].
    destruct (geometry_raster_loop (map fst ds) true (off + b_np b * b_n b)) as [[m' t2]|] eqn:E2; [ | discriminate ].
    injection E as <- <-. rewrite volume_app, rsum_cons. f_equal.
    + apply (c155_volume (b_np b) (b_n b) off (b_cw b) x p P t1 Hp Hn H E1).
    + apply (IH P _ _ _ B' H' E2).
Qed.

Theorem c155_blocks : forall ds P, Forall block_ok (map fst ds) -> placed P 0 ds ->
  exists npts ts, from_geometry_raster (map fst ds) true = Some (npts, ts) /\
    volume6 P ts = rsum (map extrusion6 ds).
Proof.
  intros ds P B H. destruct (closed_mesh_watertight _ B) as (npts & ts & E & _).
  exists npts, ts. split; [ exact E | ]. apply (blocks_volume ds P 0 npts ts B H E).
Qed.
Print Assumptions c155_blocks.

(** ** any closed mesh, with points anywhere *)
Definition esum (h : nat -> nat -> R) (es : list (nat * nat)) : R := rsum (map (fun e => h (fst e) (snd e)) es).

Lemma rsum_perm : forall a b, Permutation a b -> rsum a = rsum b.
Proof. unfold rsum. intros a b H. induction H; cbn [fold_right]; lra. Qed.
Lemma esum_edges : forall h ts, esum h (edges ts) =
  rsum (map (fun t : tri => match t with (a, b, c) => h a b + h b c + h c a end) ts).
Proof.
  intros h. induction ts as [|[[a b] c] ts IH]; [ reflexivity | ].
  change (edges ((a, b, c) :: ts)) with ((a, b) :: (b, c) :: (c, a) :: edges ts).
  unfold esum in *. cbn [map fst snd]. rewrite !rsum_cons, IH. lra.
Qed.
Lemma esum_watertight : forall h ts, watertight ts -> (forall u v, h v u = - h u v) -> esum h (edges ts) = 0.
Proof.
  intros h ts [N C] A.
  assert (P : Permutation (edges ts) (map (fun e => (snd e, fst e)) (edges ts))).
  { apply NoDup_Permutation; [ exact N | | ].
    - apply FinFun.Injective_map_NoDup; [ | exact N ]. intros [a b] [c d] E. cbn in E. congruence.
    - intros [u v]. rewrite in_map_iff. split.
      + intros I. exists (v, u). split; [ reflexivity | apply C; exact I ].
      + intros ([a b] & E & I). cbn in E. injection E as <- <-. apply C. exact I. }
  assert (E : esum h (edges ts) = - esum h (edges ts)).
  { transitivity (esum h (map (fun e => (snd e, fst e)) (edges ts))).
    - unfold esum. apply rsum_perm. apply Permutation_map. exact P.
    - unfold esum. rewrite map_map. cbn [fst snd].
      transitivity (rsum (map (fun e => -1 * h (fst e) (snd e)) (edges ts))).
      + f_equal. apply map_ext. intros [u v]. cbn. rewrite A. lra.
      + rewrite (rsum_scale _ (-1) (fun e => h (fst e) (snd e))). lra. }
  lra.
Qed.

Definition shift3 (d a : R * (R * R)) : R * (R * R) :=
  (fst a + fst d, (fst (snd a) + fst (snd d), snd (snd a) + snd (snd d))).
(** the product of [d] with the cross product of two points *)
Definition mixed (d a b : R * (R * R)) : R :=
  fst d * cross (snd a) (snd b) + fst a * cross (snd b) (snd d) + fst b * cross (snd d) (snd a).

Lemma volume_shift : forall d P ts,
  volume6 (fun v => shift3 d (P v)) ts = volume6 P ts + esum (fun u v => mixed d (P u) (P v)) (edges ts).
Proof.
  intros d P ts. rewrite esum_edges. unfold volume6.
  induction ts as [|[[a b] c] ts IH]; cbn [map]; [ unfold rsum; cbn; lra | ].
  rewrite !rsum_cons, IH. cbn [tri_volume6]. unfold det3, mixed, cross, shift3. cbn [fst snd]. lra.
Qed.

(** the projected areas of a closed mesh add up to zero, and its volume does not
    depend on the origin, for any positions of the points and any list of blocks *)
Theorem c155_any_points : forall bs, Forall block_ok bs ->
  exists npts ts, from_geometry_raster bs true = Some (npts, ts) /\
    (forall Q : nat -> R * R, rsum (map (area2 Q) ts) = 0) /\
    (forall P d, volume6 (fun v => shift3 d (P v)) ts = volume6 P ts).
Proof.
  intros bs B. destruct (closed_mesh_watertight bs B) as (npts & ts & E & W & _).
  exists npts, ts. split; [ exact E | ]. split.
  - intros Q. transitivity (esum (fun u v => cross (Q u) (Q v)) (edges ts)).
    + rewrite esum_edges. reflexivity.
    + apply esum_watertight; [ exact W | ]. intros u v. apply cross_anti.
  - intros P d. rewrite volume_shift, esum_watertight; [ lra | exact W | ].
    intros u v. unfold mixed, cross. lra.
Qed.
Print Assumptions c155_any_points.

(** an affine map: the rows of its matrix and the translation *)
Definition dot3 (a b : R * (R * R)) : R := fst a * fst b + fst (snd a) * fst (snd b) + snd (snd a) * snd (snd b).
Definition affine (r1 r2 r3 d v : R * (R * R)) : R * (R * R) := shift3 d (dot3 r1 v, (dot3 r2 v, dot3 r3 v)).

(** moving the points by an affine map multiplies the volume of a closed mesh by its
    determinant: rotated and translated meshes have the same volume, reflected ones
    are turned inside out *)
Theorem c155_affine : forall bs, Forall block_ok bs ->
  exists npts ts, from_geometry_raster bs true = Some (npts, ts) /\
    forall P r1 r2 r3 d, volume6 (fun v => affine r1 r2 r3 d (P v)) ts = det3 r1 r2 r3 * volume6 P ts.
Proof.
  intros bs B. destruct (c155_any_points bs B) as (npts & ts & E & _ & V).
  exists npts, ts. split; [ exact E | ]. intros P r1 r2 r3 d. unfold affine.
  rewrite (V (fun v => (dot3 r1 (P v), (dot3 r2 (P v), dot3 r3 (P v)))) d).
  unfold volume6. rewrite <- rsum_scale. f_equal. apply map_ext. intros [[a b] c]. cbn [tri_volume6].
  unfold det3, cross, dot3. cbn [fst snd]. ring.
Qed.
Print Assumptions c155_affine.

(** a triangle in both orders *)
Example c155_ex : forall cw : bool,
  let p : nat -> R * R := fun i => match i with
    | O => (0, 0) | 1%nat => if cw then (0, 1) else (1, 0) | _ => if cw then (1, 0) else (0, 1) end in
  cw = false <-> 0 < polygon2 3 p.
Proof.
  intros cw; cbv zeta; destruct cw; unfold polygon2, cross, cyc_succ, rsum; cbn; split; intros; try discriminate; try reflexivity; lra.
Qed.
(** the raster of a prism *)
Example c155_ex_raster : forall (x : nat -> R) (p : nat -> R * R) k i, (k < 2)%nat -> (i < 3)%nat ->
  (fun v : nat => (x (v / 3)%nat, p (v mod 3)%nat)) (0 + k * 3 + i)%nat = (x k, p i).
Proof.
  intros x p k i Hk Hi. cbn [Nat.add]. rewrite (Nat.add_comm (k * 3) i), Nat.div_add, Nat.mod_add by lia.
  rewrite Nat.div_small, Nat.mod_small by lia. reflexivity.
Qed.
