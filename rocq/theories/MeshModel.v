(** Triangulation of geometry rasters.  [weldx/geometry.py], class [SpatialData].
    Points are represented by their indices only; the winding flag computed by
    [has_cw_ordering] is a parameter. *)
From Coq Require Import List Arith Bool.
Import ListNotations.

Definition tri : Type := (nat * nat * nat)%type.

(** geometry.py 2741-2751: the two triangles of each quad between the first and
    the second profile. *)
Definition profile_tri_base (n : nat) (cw : bool) : list tri :=
  flat_map
    (fun i =>
       let idx0 := i in
       let idx1 := (i + 1) mod n in
       let idx2 := idx0 + n in
       let idx3 := idx1 + n in
       if cw then [(idx0, idx2, idx1); (idx1, idx2, idx3)]
       else [(idx0, idx1, idx2); (idx1, idx3, idx2)])
    (seq 0 n).

(** numpy addition of a scalar to all indices *)
Definition shift_tri (d : nat) (t : tri) : tri :=
  match t with (a, b, c) => (a + d, b + d, c + d) end.

(** geometry.py 2737-2762 [_shape_profile_triangles]; [num_profiles - 1] is the
    truncated difference, as [range] of a negative number is empty. *)
Definition shape_profile_triangles (np n off : nat) (cw : bool) : list tri :=
  flat_map (fun i => map (shift_tri (i * n + off)) (profile_tri_base n cw))
           (seq 0 (np - 1)).

(** geometry.py 2774-2785: the while loop of [_shape_front_back_triangles]
    building [tri_cw] and [tri_ccw]; [None] if the fuel is exhausted. *)
Fixpoint front_back_loop (fuel n off i0 i1 : nat) : option (list tri * list tri) :=
  if i0 + i1 <? n - 2 then
    match fuel with
    | O => None
    | S f =>
        let p0 := i0 + off in
        if i1 =? i0 then
          let p1 := p0 + 1 in
          let p2 := n + off - i1 - 1 in
          match front_back_loop f n off (i0 + 1) i1 with
          | Some (cw, ccw) => Some ((p0, p1, p2) :: cw, (p0, p2, p1) :: ccw)
          | None => None
          end
        else
          let p1 := n + off - i1 - 2 in
          let p2 := p1 + 1 in
          match front_back_loop f n off i0 (i1 + 1) with
          | Some (cw, ccw) => Some ((p0, p1, p2) :: cw, (p0, p2, p1) :: ccw)
          | None => None
          end
    end
  else Some ([], []).

(** geometry.py 2765-2796 [_shape_front_back_triangles] *)
Definition shape_front_back_triangles (np n off : nat) (cw : bool) : option (list tri) :=
  match front_back_loop n n off 0 0 with
  | None => None
  | Some (tri_cw, tri_ccw) =>
      let front := if cw then tri_cw else tri_ccw in
      let back := if cw then tri_ccw else tri_cw in
      Some (front ++ map (shift_tri ((np - 1) * n)) back)
  end.

(** geometry.py 2799-2830 [_shape_triangles] *)
Definition shape_triangles (np n off : nat) (cw closed : bool) : option (list tri) :=
  if closed then
    match shape_front_back_triangles np n off cw with
    | None => None
    | Some fb => Some (shape_profile_triangles np n off cw ++ fb)
    end
  else Some (shape_profile_triangles np n off cw).

(** One entry of a geometry raster: number of profiles, points per profile and
    the winding of its first profile. *)
Record block : Type := mkBlock { b_np : nat; b_n : nat; b_cw : bool }.

(** geometry.py 2854-2857: loop of [from_geometry_raster]; the first component
    is [len(points)], because [_shape_raster_points] (2710-2734) appends
    [np * n] points per block. *)
Fixpoint geometry_raster_loop (bs : list block) (closed : bool) (npts : nat)
  : option (nat * list tri) :=
  match bs with
  | [] => Some (npts, [])
  | b :: r =>
      match shape_triangles (b_np b) (b_n b) npts (b_cw b) closed with
      | None => None
      | Some ts =>
          match geometry_raster_loop r closed (npts + b_np b * b_n b) with
          | None => None
          | Some (m, ts') => Some (m, ts ++ ts')
          end
      end
  end.

(** geometry.py 2833-2862 [from_geometry_raster]: number of points and triangles *)
Definition from_geometry_raster (bs : list block) (closed : bool) : option (nat * list tri) :=
  geometry_raster_loop bs closed 0.
