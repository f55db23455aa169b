(** Properties C53 and C54: triangulation of geometry rasters. *)
From Coq Require Import List Arith Lia.
From Verif Require Import MeshModel MeshSpec MeshFacts.
Import ListNotations.

(** C53: closed meshes of any list of blocks are watertight and consistently
    oriented: every directed edge occurs once, and so does its reverse; no
    triangle is degenerate. *)
Theorem c53_closed_mesh_watertight :
  forall bs, Forall block_ok bs ->
  exists npts ts, from_geometry_raster bs true = Some (npts, ts)
    /\ watertight ts /\ Forall proper_tri ts.
Proof. exact closed_mesh_watertight. Qed.
Print Assumptions c53_closed_mesh_watertight.

(** C53: every edge of the mesh of one block belongs to two triangles, and the
    surface has the Euler characteristic of a sphere (V + F = E + 2). *)
Theorem c53_closed_block_euler :
  forall np n off cw, 2 <= np -> 3 <= n ->
  exists ts, shape_triangles np n off cw true = Some ts
    /\ NoDup (uedges ts)
    /\ 2 * length (uedges ts) = 3 * length ts
    /\ np * n + length ts = length (uedges ts) + 2.
Proof. exact closed_block_euler. Qed.
Print Assumptions c53_closed_block_euler.

(** C54: indices are valid, every point is used, the number of triangles is the
    closed form. *)
Theorem c54_closed_mesh_indices :
  forall bs, Forall block_ok bs ->
  exists ts, from_geometry_raster bs true = Some (sum (map block_points bs), ts)
    /\ Forall (verts_in 0 (sum (map block_points bs))) ts
    /\ (forall v, v < sum (map block_points bs) -> exists t, In t ts /\ tri_has v t)
    /\ length ts = sum (map block_tris bs).
Proof. exact closed_mesh_indices. Qed.
Print Assumptions c54_closed_mesh_indices.

(** C54: the triangles of a block refer to the points of this block only, also if
    the mesh is open, whatever the number of profiles and points *)
Theorem c54_block_own_points :
  forall bs1 b bs2 closed, Forall block_ok (bs1 ++ b :: bs2) ->
  exists ts1 ts ts2 m,
    from_geometry_raster (bs1 ++ b :: bs2) closed = Some (m, ts1 ++ ts ++ ts2)
    /\ shape_triangles (b_np b) (b_n b) (sum (map block_points bs1)) (b_cw b) closed = Some ts
    /\ Forall (verts_in (sum (map block_points bs1))
                        (sum (map block_points bs1) + block_points b)) ts
    /\ Forall (verts_in 0 (sum (map block_points bs1))) ts1
    /\ Forall (verts_in (sum (map block_points bs1) + block_points b) m) ts2.
Proof. exact block_own_points. Qed.
Print Assumptions c54_block_own_points.

(** C54: the edges of the open mesh which belong to a single triangle are exactly
    the outlines of the first ([k = 0]) and the last ([k = np - 1]) profile. *)
Theorem c54_open_mesh_boundary :
  forall np n off cw, 2 <= np -> 3 <= n ->
  exists ts, shape_triangles np n off cw false = Some ts
  /\ NoDup (edges ts)
  /\ length ts = 2 * n * (np - 1)
  /\ forall u v,
      ((In (u, v) (edges ts) /\ ~ In (v, u) (edges ts))
       \/ (In (v, u) (edges ts) /\ ~ In (u, v) (edges ts)))
      <-> exists i, i < n /\
           exists k, (k = 0 \/ k = np - 1) /\
           ((u, v) = (off + k * n + i, off + k * n + cyc_succ n i)
            \/ (v, u) = (off + k * n + i, off + k * n + cyc_succ n i)).
Proof. exact open_boundary. Qed.
Print Assumptions c54_open_mesh_boundary.

(** C54: the direction in which the triangles of the sides traverse the outline of
    the first profile; the sides are also those of the closed mesh, whose other
    triangles have their orientation by C53 *)
Theorem c54_orientation :
  forall np n off cw, 2 <= np -> 3 <= n ->
  exists sides ends,
    shape_triangles np n off cw false = Some sides
    /\ shape_triangles np n off cw true = Some (sides ++ ends)
    /\ forall i, i < n ->
       let a := off + i in let b := off + cyc_succ n i in
       if cw then In (b, a) (edges sides) /\ ~ In (a, b) (edges sides)
       else In (a, b) (edges sides) /\ ~ In (b, a) (edges sides).
Proof.
  intros np n off cw Hp Hn.
  destruct (open_boundary np n off cw Hp Hn) as (sides & E & _ & _ & B).
  destruct (closed_block_euler np n off cw Hp Hn) as (all & E' & _).
  unfold shape_triangles in E, E'. injection E as E.
  destruct (shape_front_back_triangles np n off cw) as [ends|] eqn:F; [ | discriminate ].
  exists sides, ends. unfold shape_triangles. rewrite F, E. split; [ reflexivity | ]. split; [ reflexivity | ].
  intros i Hi. set (a := off + i). set (b := off + cyc_succ n i).
  assert (M : (i + 1) mod n = cyc_succ n i).
  { unfold cyc_succ. destruct (Nat.eqb_spec (i + 1) n) as [->|].
    - apply Nat.mod_same. lia.
    - apply Nat.mod_small. lia. }
  assert (I : In (if cw then (b, a) else (a, b)) (edges sides)).
  { rewrite <- E. unfold edges, shape_profile_triangles. apply in_flat_map.
    exists (shift_tri (0 * n + off)
             (if cw then (i, i + n, (i + 1) mod n) else (i, (i + 1) mod n, i + n))). split.
    - apply in_flat_map. exists 0. split; [ apply in_seq; lia | ]. apply in_map.
      unfold profile_tri_base. apply in_flat_map. exists i. split; [ apply in_seq; lia | ].
      destruct cw; left; reflexivity.
    - rewrite M. unfold a, b. destruct cw; cbn [shift_tri tri_edges In].
      + right; right; left. f_equal; lia.
      + left. f_equal; lia. }
  assert (O : exists j, j < n /\ exists k, (k = 0 \/ k = np - 1) /\
      ((a, b) = (off + k * n + j, off + k * n + cyc_succ n j) \/
       (b, a) = (off + k * n + j, off + k * n + cyc_succ n j))).
  { exists i. split; [ exact Hi | ]. exists 0. split; [ left; reflexivity | ]. left. unfold a, b. f_equal; lia. }
  apply B in O. destruct cw; tauto.
Qed.
Print Assumptions c54_orientation.

(** non-vacuity *)
Example mesh_blocks_ok : Forall block_ok [mkBlock 2 3 true; mkBlock 4 5 false].
Proof. repeat constructor. Qed.
Example mesh_prism :
  from_geometry_raster [mkBlock 2 3 true] true
  = Some (6, [(0,3,1); (1,3,4); (1,4,2); (2,4,5); (2,5,0); (0,5,3); (0,1,2); (3,5,4)]).
Proof. reflexivity. Qed.
(** with two points per profile the closed mesh is not watertight: [3 <= n] is needed *)
Example mesh_two_points_not_watertight :
  exists ts, from_geometry_raster [mkBlock 2 2 true] true = Some (4, ts)
             /\ count_occ Nat.eq_dec (map fst (edges ts)) 0 = 3.
Proof. eexists. split; [reflexivity|]. reflexivity. Qed.
