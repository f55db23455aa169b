(** Two dimensional shapes (weldx/geometry.py 38-1300) and the orientation
    predicates of weldx/transformations/util.py, over exact real numbers instead
    of floats.  All lengths are magnitudes in the default length unit and all
    angles are in rad (the pint decorators convert before the bodies run). *)
From Coq Require Import Reals List ZArith.
From Verif Require Import Base.
Import ListNotations.
Open Scope R_scope.

(** points and vectors of the plane: numpy arrays of shape (2,) *)
Record pt : Type := P { px : R; py : R }.

Definition padd (a b : pt) : pt := P (px a + px b) (py a + py b).
Definition psub (a b : pt) : pt := P (px a - px b) (py a - py b).
Definition pscale (k : R) (a : pt) : pt := P (k * px a) (k * py a).
(** [np.dot] *)
Definition pdot (a b : pt) : R := px a * px b + py a * py b.
(** [np.linalg.det([a, b])] and [np.cross(a, b)] *)
Definition pdet (a b : pt) : R := px a * py b - py a * px b.
(** [np.linalg.norm] *)
Definition pnorm (a : pt) : R := sqrt (pdot a a).

(** comparisons as booleans *)
Definition rle (a b : R) : bool := if Rle_dec a b then true else false.
Definition rlt (a b : R) : bool := if Rlt_dec a b then true else false.
Definition req (a b : R) : bool := if Req_EM_T a b then true else false.

(** 2x2 matrices, row by row *)
Record mat2 : Type := M2 { q00 : R; q01 : R; q10 : R; q11 : R }.
(** [np.matmul(matrix, vector)] *)
Definition mapply (m : mat2) (v : pt) : pt :=
  P (q00 m * px v + q01 m * py v) (q10 m * px v + q11 m * py v).
(** [np.linalg.det] *)
Definition mdet (m : mat2) : R := q00 m * q11 m - q01 m * q10 m.

(** [np.sign] *)
Definition rsign (x : R) : Z := if rlt 0 x then 1%Z else if rlt x 0 then (-1)%Z else 0%Z.

(** [vector_points_to_left_of_vector], transformations/util.py 231-251 *)
Definition vector_left (v ref : pt) : Z := rsign (pdet ref v).
(** [point_left_of_line], transformations/util.py 181-204 *)
Definition point_left (p a b : pt) : Z := vector_left (psub p a) (psub b a).
(** [reflection_sign], transformations/util.py 207-228 *)
Definition reflection_sign (m : mat2) : res Z :=
  let s := rsign (mdet m) in
  if Z.eqb s 0 then Err ValueError else Ok s.

(** [normalize], transformations/util.py 41-58 *)
Definition normalize (v : pt) : res pt :=
  if req (pnorm v) 0 then Err ValueError else Ok (P (px v / pnorm v) (py v / pnorm v)).

(** [np.isclose(a, b, atol=atol)] with the default rtol = 1e-5 *)
Definition isclose (atol a b : R) : bool :=
  rle (Rabs (a - b)) (atol + / 100000 * Rabs b).
(** the tolerance 1e-9 of [_vector_is_close] and the default 1e-8 of numpy *)
Definition tol9 : R := / 1000000000.
Definition tol8 : R := / 100000000.

(** [_vector_is_close], geometry.py 52-80, for two arrays of shape (2,) *)
Definition vector_is_close (a b : pt) : bool :=
  (isclose tol9 (px a) (px b) && isclose tol9 (py a) (py b))%bool.
(** the same with a first argument of shape (2, 1), as in [Shape.rasterize]
    (geometry.py 1211-1212): the sizes agree and numpy broadcasts the comparison
    to shape (2, 2) *)
Definition column_is_close (a b : pt) : bool :=
  (isclose tol9 (px a) (px b) && isclose tol9 (px a) (py b) &&
   (isclose tol9 (py a) (px b) && isclose tol9 (py a) (py b)))%bool.

(** [has_cw_ordering], geometry.py 38-49; the points are the columns 1 and 2 of
    the rows *)
Fixpoint ordering_sum (l : list pt) : R :=
  match l with
  | a :: ((b :: _) as r) => (px b - px a) * (py b + py a) + ordering_sum r
  | _ => 0
  end.
Definition has_cw_ordering (l : list pt) : bool := negb (rlt (ordering_sum l) 0).

(** [ArcSegment]: the points of [_points] (start, end, center), the winding, and
    the values of [_series], [_max_coord], [_radius] and [_length].  The series is
    the expression "(x*cos(a+s*w)+y*sin(a+s*w))*r + o" plus the parameters
    translation_0, translation1, ... that were appended by [apply_translation]. *)
Record arc : Type := Arc {
  a_start : pt; a_end : pt; a_center : pt;
  a_wind : Z;
  s_o : pt; s_r : R; s_a : R; s_w : Z; s_t : list pt;
  a_max : R; a_radius : R; a_len : R
}.

(** segments of a shape; a [LineSegment] is the discrete series with the
    coordinates 0 and 1 and its cached length *)
Inductive seg : Type :=
| SLine (a b : pt) (len : R)
| SArc (a : arc).

(** [LineSegment.__init__], geometry.py 404-442 (the shape checks hold by typing):
    [_len_section_disc] and [get_section_length] (184-230) of a discrete series is the sum of the norms *)
Definition mk_line (a b : pt) : res seg :=
  let len := pnorm (psub b a) in
  if rle len 0 then Err ValueError else Ok (SLine a b len).

(** [ArcSegment._calculate_arc_angle], geometry.py 595-611 *)
Definition clip1 (x : R) : R := Rmin (Rmax x (-1)) 1.
Definition arc_angle (ps pe pc : pt) (w : Z) : res R :=
  bind (normalize (psub ps pc)) (fun us =>
  bind (normalize (psub pe pc)) (fun ue =>
  let angle := acos (clip1 (pdot us ue)) in
  let sw := vector_left ue us in
  if Z.ltb 0 (Z.abs (sw + w)) then Ok angle else Ok (2 * PI - angle))).

(** [ArcSegment._update_internals_and_get_series], geometry.py 623-642; the length
    of [_update_internals] is the integral of the norm of the derivative over
    [0, max_coord], which is r * max_coord for this expression (sympy integrates
    symbolically; modelled by its value) *)
Definition update_arc (ps pe pc : pt) (w : Z) : res arc :=
  bind (arc_angle ps pe pc w) (fun m =>
  let diff := psub ps pc in
  let r := pnorm diff in
  let sign := if rlt (py diff) 0 then -1 else 1 in
  let a := acos (px diff / r) * sign in
  Ok (Arc ps pe pc w pc r a w [] m r (r * m))).

(** [ArcSegment._check_valid], geometry.py 613-621 and the check of
    [get_section_length] (227-228), which comes first *)
Definition check_arc (a : arc) : res unit :=
  if rle (a_len a) 0 then Err ValueError
  else
    let rs := pnorm (psub (a_start a) (a_center a)) in
    let re := pnorm (psub (a_end a) (a_center a)) in
    if isclose tol8 (re - rs) 0 then Ok tt else Err ValueError.

(** [ArcSegment.__init__], geometry.py 529-573 *)
Definition wsign (ccw : bool) : Z := if ccw then 1%Z else (-1)%Z.
Definition mk_arc (ps pe pc : pt) (ccw : bool) : res seg :=
  bind (update_arc ps pe pc (wsign ccw)) (fun a =>
  bind (check_arc a) (fun _ => Ok (SArc a))).

(** [ArcSegment.construct_with_radius], geometry.py 679-730; a division by
    [length_sq = 0] gives a nan center in numpy and the arc is rejected by the
    comparisons of [_check_valid] *)
Definition radius_center (ps pe : pt) (radius : R) (left : bool) : pt :=
  let v := psub pe ps in
  let s := if left then -1 else 1 in
  let n := P (s * py v) (- s * px v) in
  let scaling := sqrt (Rmax (radius * radius / pdot v v - / 4) 0) in
  padd ps (padd (pscale (/ 2) v) (pscale scaling n)).
Definition mk_arc_radius (ps pe : pt) (radius : R) (left ccw : bool) : res seg :=
  if req (pdot (psub pe ps) (psub pe ps)) 0 then Err ValueError
  else mk_arc ps pe (radius_center ps pe radius left) ccw.

(** [DynamicBaseSegment.get_points], geometry.py 232-247: linear interpolation of
    the two points with clamping outside of [0, 1] for a line; evaluation of the
    expression for an arc *)
Definition clip01 (x : R) : R := Rmin (Rmax x 0) 1.
Definition arc_point (a : arc) (s : R) : pt :=
  fold_left padd (s_t a)
    (padd (P (cos (s_a a + s * IZR (s_w a)) * s_r a)
             (sin (s_a a + s * IZR (s_w a)) * s_r a)) (s_o a)).
Definition line_point (a b : pt) (s : R) : pt :=
  padd (pscale (1 - clip01 s) a) (pscale (clip01 s) b).
Definition get_point (s : seg) (x : R) : pt :=
  match s with
  | SLine a b _ => line_point a b x
  | SArc a => arc_point a x
  end.
(** [_max_coord] (1 for lines), [length] *)
Definition max_coord (s : seg) : R :=
  match s with SLine _ _ _ => 1 | SArc a => a_max a end.
Definition seg_length (s : seg) : R :=
  match s with SLine _ _ l => l | SArc a => a_len a end.
(** [DynamicShapeSegment.point_start] and [point_end], geometry.py 261-271 *)
Definition point_start (s : seg) : pt := get_point s 0.
Definition point_end (s : seg) : pt := get_point s (max_coord s).

(** [np.round]: to the nearest integer, half to even *)
Definition np_round (x : R) : Z :=
  let f := Int_part x in
  let d := x - IZR f in
  if rlt d (/ 2) then f
  else if rlt (/ 2) d then (f + 1)%Z
  else if Z.even f then f else (f + 1)%Z.

(** [DynamicShapeSegment.rasterize], geometry.py 273-298;
    [np.linspace(0, 1, num)] has the values i / (num - 1) *)
Definition num_points (len width : R) : nat :=
  Z.to_nat (Z.max (np_round (len / width) + 1) 2).
Definition linspace01 (n : nat) : list R :=
  map (fun i => INR i / INR (n - 1)) (seq 0 n).
Definition seg_raster (s : seg) (width : R) : res (list pt) :=
  if rle width 0 then Err ValueError
  else Ok (map (fun v => get_point s (v * max_coord s))
               (linspace01 (num_points (seg_length s) width))).

(** [apply_translation], geometry.py 300-332 and 868-885.  The model keeps the
    order of the appended translation parameters. *)
Definition translate_seg (v : pt) (s : seg) : seg :=
  match s with
  | SLine a b l => SLine (padd a v) (padd b v) l
  | SArc a =>
      SArc (Arc (padd (a_start a) v) (padd (a_end a) v) (padd (a_center a) v)
                (a_wind a) (s_o a) (s_r a) (s_a a) (s_w a) (s_t a ++ [v])
                (a_max a) (a_radius a) (a_len a))
  end.

(** [apply_transformation], geometry.py 352-382 (lines) and 850-866 (arcs); the
    methods work in place, so the segment after a failing call is part of the
    result.  When [reflection_sign] or the angle fails, only [_points] (and the
    winding) have been replaced; when the length or radius check fails, the series
    has been replaced as well. *)
Definition set_arc_points (a : arc) (ps pe pc : pt) (w : Z) : arc :=
  Arc ps pe pc w (s_o a) (s_r a) (s_a a) (s_w a) (s_t a) (a_max a) (a_radius a) (a_len a).
Definition set_arc_series (a : arc) (n : arc) : arc :=
  Arc (a_start n) (a_end n) (a_center n) (a_wind n) (s_o n) (s_r n) (s_a n) (s_w n) (s_t n)
      (a_max n) (a_radius n) (a_len a).
Definition transform_seg (m : mat2) (s : seg) : seg * res unit :=
  match s with
  | SLine a b l =>
      let a' := mapply m a in
      let b' := mapply m b in
      let len := pnorm (psub b' a') in
      if rle len 0 then (SLine a' b' l, Err ValueError) else (SLine a' b' len, Ok tt)
  | SArc a =>
      let ps := mapply m (a_start a) in
      let pe := mapply m (a_end a) in
      let pc := mapply m (a_center a) in
      match reflection_sign m with
      | Err e => (SArc (set_arc_points a ps pe pc (a_wind a)), Err e)
      | Ok sg =>
          let w := (a_wind a * sg)%Z in
          match update_arc ps pe pc w with
          | Err e => (SArc (set_arc_points a ps pe pc w), Err e)
          | Ok n =>
              if rle (a_len n) 0 then (SArc (set_arc_series a n), Err ValueError)
              else (SArc n, check_arc n)
          end
      end
  end.

(** [Shape]: the list of segments (geometry.py 892-910) *)
Definition shape : Type := list seg.

(** [Shape._check_segments_connected], geometry.py 921-936 *)
Fixpoint check_connected (l : list seg) : res unit :=
  match l with
  | a :: ((b :: _) as r) =>
      if vector_is_close (point_end a) (point_start b) then check_connected r
      else Err ValueError
  | _ => Ok tt
  end.

(** [Shape.__init__], geometry.py 895-910 *)
Definition mk_shape (l : list seg) : res shape :=
  bind (check_connected l) (fun _ => Ok l).

(** [Shape.add_segments], geometry.py 1075-1088; the shape afterwards and the
    result *)
Definition add_segments (sh : shape) (new : list seg) : shape * res unit :=
  match rev sh with
  | [] =>
      match check_connected new with
      | Err e => (sh, Err e)
      | Ok _ => (sh ++ new, Ok tt)
      end
  | last :: _ =>
      match new with
      | [] => (sh, Err IndexError)
      | f :: _ =>
          match check_connected [last; f] with
          | Err e => (sh, Err e)
          | Ok _ =>
              match check_connected new with
              | Err e => (sh, Err e)
              | Ok _ => (sh ++ new, Ok tt)
              end
          end
      end
  end.

(** [Shape.add_line_segments], geometry.py 1032-1073, for a list of points *)
Fixpoint line_chain (l : list pt) : res (list seg) :=
  match l with
  | a :: ((b :: _) as r) =>
      bind (mk_line a b) (fun s => bind (line_chain r) (fun t => Ok (s :: t)))
  | _ => Ok []
  end.
Definition add_line_segments (sh : shape) (points : list pt) : shape * res unit :=
  let go pts :=
    match line_chain pts with
    | Err e => (sh, Err e)
    | Ok new => add_segments sh new
    end in
  match rev sh with
  | last :: _ => go (point_end last :: points)
  | [] => if Nat.leb (length points) 1 then (sh, Err ValueError) else go points
  end.

(** [Shape.apply_transformation], geometry.py 1090-1100: in place, segment by
    segment, stopping at the first exception *)
Fixpoint transform_shape (m : mat2) (sh : shape) : shape * res unit :=
  match sh with
  | [] => ([], Ok tt)
  | s :: r =>
      match transform_seg m s with
      | (s', Err e) => (s' :: r, Err e)
      | (s', Ok _) => let '(r', o) := transform_shape m r in (s' :: r', o)
      end
  end.
(** [Shape.apply_translation], geometry.py 1168-1179 *)
Definition translate_shape (v : pt) (sh : shape) : shape := map (translate_seg v) sh.

(** [Shape.apply_reflection], geometry.py 1102-1132 *)
Definition householder (n : pt) : mat2 :=
  let d := pdot n n in
  M2 (1 - 2 / d * (px n * px n)) (0 - 2 / d * (px n * py n))
     (0 - 2 / d * (py n * px n)) (1 - 2 / d * (py n * py n)).
Definition reflection_offset (n : pt) (dist : R) : pt :=
  P (px n / sqrt (pdot n n) * dist) (py n / sqrt (pdot n n) * dist).
Definition reflect_shape (n : pt) (dist : R) (sh : shape) : shape * res unit :=
  if vector_is_close n (P 0 0) then (sh, Err ValueError)
  else
    let off := reflection_offset n dist in
    match transform_shape (householder n) (translate_shape (P (- px off) (- py off)) sh) with
    | (sh', Err e) => (sh', Err e)
    | (sh', Ok _) => (translate_shape off sh', Ok tt)
    end.

(** [Shape.apply_reflection_across_line], geometry.py 1134-1166 *)
Definition line_distance (a b : pt) : R :=
  Rabs (py a * px b - px a * py b) / pnorm (psub b a).
Definition line_normal (a b : pt) : pt :=
  let v := psub b a in
  if Z.ltb 0 (point_left (P 0 0) a b) then P (py v) (- px v) else P (- py v) (px v).
Definition reflect_across (a b : pt) (sh : shape) : shape * res unit :=
  if vector_is_close a b then (sh, Err ValueError)
  else reflect_shape (line_normal a b) (line_distance a b) sh.

(** [LineSegment.linear_interpolation] (geometry.py 479-505) and
    [ArcSegment.linear_interpolation] (732-773): the class of the first segment
    decides *)
Definition interpolate_seg (s t : seg) (weight : R) : res seg :=
  match s, t with
  | SLine a b _, SLine c d _ =>
      let w := clip01 weight in
      mk_line (padd (pscale (1 - w) a) (pscale w c)) (padd (pscale (1 - w) b) (pscale w d))
  | SLine _ _ _, SArc _ => Err TypeError
  | SArc _, _ => Err NotImplementedError
  end.

(** [Shape.interpolate] with the schemes of [Shape.linear_interpolation],
    geometry.py 938-1006 *)
Fixpoint interpolate_segs (a b : list seg) (w : R) : res (list seg) :=
  match a, b with
  | s :: a', t :: b' =>
      bind (interpolate_seg s t w) (fun c =>
      bind (interpolate_segs a' b' w) (fun r => Ok (c :: r)))
  | _, _ => Ok []
  end.
Definition interpolate_shape (a b : shape) (weight : R) : res shape :=
  if Nat.eqb (length a) (length b)
  then bind (interpolate_segs a b (clip01 weight)) mk_shape
  else Err ValueError.

(** [Shape.rasterize], geometry.py 1181-1214 *)
Fixpoint raster_parts (l : list seg) (width : R) : res (list pt) :=
  match l with
  | [] => Ok []
  | s :: r =>
      bind (seg_raster s width) (fun p =>
      bind (raster_parts r width) (fun q => Ok (removelast p ++ q)))
  end.
Definition rasterize (sh : shape) (width : R) : res (list pt) :=
  match sh, rev sh with
  | first :: _, last :: _ =>
      if rle width 0 then Err ValueError
      else
        bind (raster_parts sh width) (fun pts =>
        if column_is_close (point_end last) (point_start first) then Ok pts
        else Ok (pts ++ [point_end last]))
  | _, _ => Err WeldxException
  end.
