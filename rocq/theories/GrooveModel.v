(** Welding grooves: weldx/welding/groove/iso_9692_1.py and
    compute_welding_speed of weldx/welding/util.py, on top of the plane geometry
    of GeoModel.  Lengths are magnitudes in mm, angles in rad (pint converts). *)
From Coq Require Import Reals List ZArith.
From Verif Require Import Base GeoModel.
Import ListNotations.
Open Scope R_scope.

(** the groove classes with their parameters, in the order of the dataclass fields
    (IGroove 236, VGroove 288, VVGroove 375, UVGroove 467, UGroove 566, HVGroove 682,
    HUGroove 781, DVGroove 891, DUGroove 1008, DHVGroove 1133, DHUGroove 1239,
    FFGroove 1350).  [None] are omitted heights; the profile of the FFGroove is in
    FrontModel. *)
Inductive groove : Type :=
| GI (t b : R)
| GV (t alpha c b : R)
| GVV (t alpha beta h c b : R)
| GUV (t alpha beta r h b : R)
| GU (t beta r c b : R)
| GHV (t beta c b : R)
| GHU (t beta r c b : R)
| GDV (t alpha1 alpha2 c : R) (h1 h2 : option R) (b : R)
| GDU (t beta1 beta2 r r2 c : R) (h1 h2 : option R) (b : R)
| GDHV (t beta1 beta2 c : R) (h1 h2 : option R) (b : R)
| GDHU (t beta1 beta2 r r2 c : R) (h1 h2 : option R) (b : R)
| GFF (t1 : R) (t2 alpha b e : option R).

(** [IsoBaseGroove.parameters], 96-98: the attributes that are quantities *)
Definition some_list (l : list (option R)) : list R :=
  flat_map (fun o => match o with Some x => [x] | None => [] end) l.
Definition parameters (g : groove) : list R :=
  match g with
  | GI t b => [t; b]
  | GV t a c b => [t; a; c; b]
  | GVV t a be h c b => [t; a; be; h; c; b]
  | GUV t a be r h b => [t; a; be; r; h; b]
  | GU t be r c b => [t; be; r; c; b]
  | GHV t be c b => [t; be; c; b]
  | GHU t be r c b => [t; be; r; c; b]
  | GDV t a1 a2 c h1 h2 b => [t; a1; a2; c] ++ some_list [h1; h2] ++ [b]
  | GDU t b1 b2 r r2 c h1 h2 b => [t; b1; b2; r; r2; c] ++ some_list [h1; h2] ++ [b]
  | GDHV t b1 b2 c h1 h2 b => [t; b1; b2; c] ++ some_list [h1; h2] ++ [b]
  | GDHU t b1 b2 r r2 c h1 h2 b => [t; b1; b2; r; r2; c] ++ some_list [h1; h2] ++ [b]
  | GFF t1 t2 a b e => t1 :: some_list [t2; a; b; e]
  end.

(** [_set_default_heights], 39-48 *)
Definition default_heights (t c : R) (h1 h2 : option R) : option R * option R :=
  match h1, h2 with
  | None, None => (Some ((t - c) / 2), Some ((t - c) / 2))
  | Some h, None => (Some h, Some h)
  | None, Some h => (Some h, Some h)
  | Some h, Some k => (Some h, Some k)
  end.

(** creating a groove: [IsoBaseGroove.__post_init__] (90-94) or the [__post_init__]
    of the double sided classes (938, 1063, 1180, 1294), which replaces it *)
Definition create (g : groove) : res groove :=
  match g with
  | GDV t a1 a2 c h1 h2 b =>
      let '(k1, k2) := default_heights t c h1 h2 in Ok (GDV t a1 a2 c k1 k2 b)
  | GDU t b1 b2 r r2 c h1 h2 b =>
      let '(k1, k2) := default_heights t c h1 h2 in Ok (GDU t b1 b2 r r2 c k1 k2 b)
  | GDHV t b1 b2 c h1 h2 b =>
      let '(k1, k2) := default_heights t c h1 h2 in Ok (GDHV t b1 b2 c k1 k2 b)
  | GDHU t b1 b2 r r2 c h1 h2 b =>
      let '(k1, k2) := default_heights t c h1 h2 in Ok (GDHU t b1 b2 r r2 c k1 k2 b)
  | _ => if existsb (fun x => rlt x 0) (parameters g) then Err ValueError else Ok g
  end.

(** the strings "line" and "arc" *)
Inductive kind : Type := KLine | KArc.

(** [_helperfunction], 1603-1650: the segments of a list of points; an arc takes the
    points start, center, end *)
Fixpoint segments_of (ks : list kind) (pts : list pt) : res (list seg) :=
  match ks with
  | [] => Ok []
  | KLine :: ks' =>
      match pts with
      | a :: ((b :: _) as r) =>
          bind (mk_line a b) (fun s => bind (segments_of ks' r) (fun l => Ok (s :: l)))
      | _ => Err ValueError
      end
  | KArc :: ks' =>
      match pts with
      | a :: c :: ((b :: _) as r) =>
          bind (mk_arc a b c false) (fun s => bind (segments_of ks' r) (fun l => Ok (s :: l)))
      | _ => Err IndexError
      end
  end.
Definition helper (ks : list kind) (pts : list pt) : res shape :=
  bind (segments_of ks pts) mk_shape.

(** [Shape.translate] and [Shape.reflect_across_line] with the y axis (they work on
    copies, geometry.py 1216-1298) *)
Definition mirrored (sh : shape) : res shape :=
  match reflect_across (P 0 0) (P 0 1) sh with
  | (s, Ok _) => Ok s
  | (_, Err e) => Err e
  end.

(** the two shapes of a [Profile] *)
Definition profile : Type := (shape * shape)%type.

(** [IsoBaseGroove._translate_reflect], 223-231 *)
Definition translate_reflect (b : R) (ks : list kind) (pts : list pt) : res profile :=
  bind (helper ks pts) (fun sh =>
  let left := translate_shape (P (- (b / 2)) 0) sh in
  bind (mirrored left) (fun right => Ok (left, right))).

(** the rectangular workpiece of the half grooves, e.g. 762-771 *)
Definition rectangle (width b t : R) : res shape :=
  match add_line_segments []
          [P (- width - b / 2) 0; P (- (b / 2)) 0; P (- (b / 2)) t; P (- width - b / 2) t] with
  | (s, Ok _) => Ok s
  | (_, Err e) => Err e
  end.

(** "Scaling" of all classes, e.g. 337-339: the width is enlarged if the groove
    leaves less than 1 mm of the surface; [s] is the extent of the groove *)
Definition scaled (width s : R) : R :=
  let edge := Rmax s 0 in
  if rle width (edge + 1) then width + edge else width.

(** the optional root face *)
Definition face (c : R) (p : pt) : list pt := if req c 0 then [] else [p].
Definition face_kind (c : R) : list kind := if req c 0 then [] else [KLine].

(** [IGroove.to_profile], 260-279 *)
Definition profile_I (t b width : R) : res profile :=
  translate_reflect b [KLine; KLine; KLine] [P (- width) 0; P 0 0; P 0 t; P (- width) t].

(** [VGroove.to_profile], 323-366 *)
Definition profile_V (t alpha c b width0 : R) : res profile :=
  let s := tan (alpha / 2) * (t - c) in
  let width := scaled width0 s in
  translate_reflect b ([KLine] ++ face_kind c ++ [KLine; KLine])
    ([P (- width) 0; P 0 0] ++ face c (P 0 c) ++ [P (- s) t; P (- width) t]).

(** [VVGroove.to_profile], 418-458 *)
Definition profile_VV (t alpha beta h c b width0 : R) : res profile :=
  let h_lower := h - c in
  let h_upper := t - h in
  let s1 := tan (alpha / 2) * h_lower in
  let s2 := tan beta * h_upper in
  let width := scaled width0 (s1 + s2) in
  translate_reflect b ([KLine] ++ face_kind c ++ [KLine; KLine; KLine])
    ([P (- width) 0; P 0 0] ++ face c (P 0 c) ++
     [P (- s1) (h + c); P (- s1 - s2) t; P (- width) t]).

(** [UVGroove.to_profile], 510-557 *)
Definition profile_UV (t alpha beta r h b width0 : R) : res profile :=
  let x1 := tan (alpha / 2) * h in
  let y_circle := sqrt (r * r - x1 * x1) in
  let y_m := h + y_circle in
  let x := r * cos beta in
  let y := r * sin beta in
  let x_arc := - x in
  let y_arc := y_m - y in
  let x_end := x_arc - (t - y_arc) * tan beta in
  let width := scaled width0 (- x_end) in
  translate_reflect b [KLine; KLine; KArc; KLine; KLine]
    [P (- width) 0; P 0 0; P (- x1) h; P 0 y_m; P x_arc y_arc; P x_end t; P (- width) t].

(** the points of the bevel of [UGroove.to_profile] (605-673) and
    [HUGroove.to_profile] (820-865) *)
Definition width_U (t beta r c width0 : R) : R :=
  scaled width0 (r * cos beta + tan beta * (t - (c + r - r * sin beta))).
Definition kinds_U (c : R) : list kind := [KLine] ++ face_kind c ++ [KArc; KLine; KLine].
Definition points_U (t beta r c width : R) : list pt :=
  let x := r * cos beta in
  let y := r * sin beta in
  let s := tan beta * (t - (c + r - y)) in
  [P (- width) 0; P 0 0] ++ face c (P 0 c) ++
  [P 0 (c + r); P (- x) (c + r - y); P (- x - s) t; P (- width) t].
Definition profile_U (t beta r c b width0 : R) : res profile :=
  translate_reflect b (kinds_U c) (points_U t beta r c (width_U t beta r c width0)).

(** [HVGroove.to_profile], 713-773 and [HUGroove.to_profile], 820-883: a rectangle
    and the reflected bevel *)
Definition half (b t width : R) (ks : list kind) (pts : list pt) : res profile :=
  bind (translate_reflect b ks pts) (fun lr =>
  bind (rectangle width b t) (fun l => Ok (l, snd lr))).
Definition profile_HV (t beta c b width0 : R) : res profile :=
  let s := tan beta * (t - c) in
  let width := scaled width0 s in
  half b t width ([KLine] ++ face_kind c ++ [KLine; KLine])
    ([P (- width) 0; P 0 0] ++ face c (P 0 c) ++ [P (- s) t; P (- width) t]).
Definition profile_HU (t beta r c b width0 : R) : res profile :=
  let width := width_U t beta r c width0 in
  half b t width (kinds_U c) (points_U t beta r c width).

(** [DVGroove.to_profile], 942-988 *)
Definition profile_DV (t alpha1 alpha2 c h1 h2 b width0 : R) : res profile :=
  let s_upper := tan (alpha1 / 2) * h1 in
  let s_lower := tan (alpha2 / 2) * h2 in
  let width := scaled width0 (Rmax s_upper s_lower) in
  translate_reflect b ([KLine; KLine] ++ face_kind c ++ [KLine; KLine])
    ([P (- width) 0; P (- s_lower) 0; P 0 h2] ++ face c (P 0 (h2 + c)) ++
     [P (- s_upper) t; P (- width) t]).

(** [DUGroove.to_profile], 1067-1124 *)
Definition profile_DU (t beta1 beta2 r r2 c h1 h2 b width0 : R) : res profile :=
  let x_upper := r * cos beta1 in
  let y_upper := r * sin beta1 in
  let s_upper := tan beta1 * (h1 - (r - y_upper)) in
  let x_lower := r2 * cos beta2 in
  let y_lower := r2 * sin beta2 in
  let s_lower := tan beta2 * (h2 - (r2 - y_lower)) in
  let width := scaled width0 (Rmax (x_upper + s_upper) (x_lower + s_lower)) in
  translate_reflect b ([KLine; KLine; KArc] ++ face_kind c ++ [KArc; KLine; KLine])
    ([P (- width) 0; P (- (s_lower + x_lower)) 0; P (- x_lower) (h2 - (r2 - y_lower));
      P 0 (h2 - r2); P 0 h2] ++ face c (P 0 (h1 + c)) ++
     [P 0 (h2 + c + r); P (- x_upper) (t - (h1 - (r - y_upper)));
      P (- (s_upper + x_upper)) t; P (- width) t]).

(** [DHVGroove.to_profile] (1184-1220) and [DHUGroove.to_profile] (1298-1335): the
    right shape of the symmetric groove and a rectangle of the given width *)
Definition half_of (p : res profile) (width b t : R) : res profile :=
  bind p (fun lr => bind (rectangle width b t) (fun l => Ok (l, snd lr))).

(** the default widths *)
Definition default_width (g : groove) : R :=
  match g with
  | GV _ _ _ _ | GUV _ _ _ _ _ _ => 2
  | GU _ _ _ _ _ => 3
  | _ => 5
  end.

Definition to_profile (g : groove) (width_default : option R) : res profile :=
  let w := match width_default with Some w => w | None => default_width g end in
  match g with
  | GI t b => profile_I t b w
  | GV t a c b => profile_V t a c b w
  | GVV t a be h c b => profile_VV t a be h c b w
  | GUV t a be r h b => profile_UV t a be r h b w
  | GU t be r c b => profile_U t be r c b w
  | GHV t be c b => profile_HV t be c b w
  | GHU t be r c b => profile_HU t be r c b w
  | GDV t a1 a2 c (Some h1) (Some h2) b => profile_DV t a1 a2 c h1 h2 b w
  | GDU t b1 b2 r r2 c (Some h1) (Some h2) b => profile_DU t b1 b2 r r2 c h1 h2 b w
  | GDHV t b1 b2 c (Some h1) (Some h2) b =>
      half_of (profile_DV t (b1 * 2) (b2 * 2) c h1 h2 b w) w b t
  | GDHU t b1 b2 r r2 c (Some h1) (Some h2) b =>
      half_of (profile_DU t b1 b2 r r2 c h1 h2 b w) w b t
  | GFF _ _ _ _ _ => Err NotImplementedError
  | _ => Err TypeError
  end.

(** sympy: [Polygon.area] (the signed area; the polygon is closed by the edge from
    the last to the first vertex) and [Polygon.bounds].  Polygon drops vertices that
    are repeated or lie between their neighbours, which changes neither of them. *)
Fixpoint edges_sum (first : pt) (l : list pt) : R :=
  match l with
  | [] => 0
  | [a] => pdet a first
  | a :: ((b :: _) as r) => pdet a b + edges_sum first r
  end.
Definition polygon_area (l : list pt) : R :=
  match l with [] => 0 | a :: _ => edges_sum a l / 2 end.
Definition min_list (l : list R) : R :=
  match l with [] => 0 | a :: r => fold_right Rmin a r end.
Definition max_list (l : list R) : R :=
  match l with [] => 0 | a :: r => fold_right Rmax a r end.

(** [_compute_cross_sect_shape_points], 56-79 *)
Definition gap_area (shapes : list (list pt)) : R :=
  let workpieces := fold_right (fun l a => Rabs (polygon_area l) + a) 0 shapes in
  let all := concat shapes in
  (max_list (map px all) - min_list (map px all)) *
  (max_list (map py all) - min_list (map py all)) - workpieces.

(** [_compute_cross_sect_area_from_profile], 198-211 *)
Fixpoint line_points (sh : shape) : res (list pt) :=
  match sh with
  | [] => Ok []
  | SLine a b l :: r =>
      bind (line_points r) (fun q => Ok (point_start (SLine a b l) :: point_end (SLine a b l) :: q))
  | SArc _ :: _ => Err RuntimeError
  end.
Definition area_from_profile (p : profile) : res R :=
  bind (line_points (fst p)) (fun a =>
  bind (line_points (snd p)) (fun b => Ok (gap_area [a; b]))).

(** [_compute_cross_sect_area_interpolated], 213-221, with the raster width 0.1 mm *)
Definition area_interpolated (p : profile) : res R :=
  bind (rasterize (fst p) (/ 10)) (fun a =>
  bind (rasterize (snd p) (/ 10)) (fun b => Ok (gap_area [a; b]))).

(** [cross_sect_area] of the classes *)
Definition cross_sect_area (g : groove) : res R :=
  match g with
  | GFF _ _ _ _ _ => Err NotImplementedError
  | GI _ _ | GV _ _ _ _ | GVV _ _ _ _ _ _ | GHV _ _ _ _ | GDV _ _ _ _ _ _ _
  | GDHV _ _ _ _ _ _ _ => bind (to_profile g None) area_from_profile
  | _ => bind (to_profile g None) area_interpolated
  end.

(** [compute_welding_speed], welding/util.py 57-88; pint and numpy give nan or inf
    for an area of zero, modelled as an exception *)
Definition welding_speed (g : groove) (wire_feed wire_diameter : R) : res R :=
  bind (cross_sect_area g) (fun area =>
  let wire_area := PI / 4 * (wire_diameter * wire_diameter) in
  if req area 0 then Err ValueError else Ok (wire_area * wire_feed / area)).
