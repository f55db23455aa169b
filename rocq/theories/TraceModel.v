(** Traces, variable profiles and the raster of a geometry (weldx/geometry.py
    108-256, 1304-1400, 1477-2215 and 2219-2460) over exact real numbers.  Lengths
    are magnitudes in the default length unit and angles are in rad (the pint
    decorators convert before the bodies run).  Coordinate systems are the static
    ones of RigidModel.v.  Only scalar positions are modelled. *)
From Coq Require Import Reals List ZArith.
From Verif Require Import Base RigidModel.
From Verif Require GeoModel.
Import ListNotations.
Open Scope R_scope.

Definition rle := GeoModel.rle.
Definition rlt := GeoModel.rlt.
Definition req := GeoModel.req.

(** A [DynamicTraceSegment]: a discrete [SpatialSeries] (values of the dimension
    "s" and points) or an expression with its derivative; [_max_coord],
    [_limit_orientation] and [_length]. *)
Inductive tseg : Type :=
| TDisc (data : list (R * vec)) (limit : bool) (len : R)
| TExpr (f df : R -> vec) (max : R) (limit : bool) (len : R).

Definition seg_len (s : tseg) : R :=
  match s with TDisc _ _ l => l | TExpr _ _ _ _ l => l end.

(** [_len_section_disc], geometry.py 183-203, as called by [_update_internals]
    (with [position = self._max_coord], so that all points are used) *)
Fixpoint polyline_length (l : list vec) : R :=
  match l with
  | a :: ((b :: _) as r) => norm (vsub b a) + polyline_length r
  | _ => 0
  end.

(** [DynamicTraceSegment.__init__], 1480-1523, for a discrete series *)
Definition mk_disc (data : list (R * vec)) (limit : bool) : res tseg :=
  let len := polyline_length (map snd data) in
  if rle len 0 then Err ValueError else Ok (TDisc data limit len).

(** [LinearHorizontalTraceSegment.__init__], 1623-1644 *)
Definition mk_linear (length : R) : res tseg :=
  if rle length 0 then Err ValueError
  else mk_disc [(0, vzero); (1, V length 0 0)] false.

(** [_evaluate_array] with linear interpolation, clamped outside of the range
    (core/generic_series.py 535-543, [xr_interp_like]); [data] is in ascending
    order *)
Fixpoint eval_disc (data : list (R * vec)) (s : R) : vec :=
  match data with
  | [] => vzero
  | (s0, v0) :: r =>
      match r with
      | [] => v0
      | (s1, v1) :: _ =>
          if rle s s0 then v0
          else if rle s s1 then vadd v0 (vscale ((s - s0) / (s1 - s0)) (vsub v1 v0))
          else eval_disc r s
      end
  end.

(** [np.abs(pos_data - position).argmin()] *)
Fixpoint argmin_from (i best : nat) (value : R) (l : list R) : nat :=
  match l with
  | [] => best
  | x :: r => if rlt x value then argmin_from (S i) i x r else argmin_from (S i) best value r
  end.
Definition argmin (l : list R) : nat :=
  match l with [] => 0 | x :: r => argmin_from 1 0 x r end.

(** [_get_tangent_vec_discrete], 1535-1545.  An index of -1 is the last entry. *)
Definition tangent_disc (data : list (R * vec)) (position : R) : vec :=
  let pos := map fst data in
  let n := length pos in
  let idx := argmin (map (fun p => Rabs (p - position)) pos) in
  let down := (rlt position (nth idx pos 0) || Nat.eqb (idx + 1) n)%bool in
  let '(lo, hi) :=
    if down then
      match idx with
      | O => ((n - 1)%nat, O)
      | S i => (i, idx)
      end
    else (idx, S idx) in
  vsub (eval_disc data (nth hi pos 0)) (eval_disc data (nth lo pos 0)).

(** [_get_lcs_from_coords_and_tangent], 1547-1574, for a single position *)
Definition lcs_from_tangent (coords tangent : vec) (limit : bool) : res lcs :=
  let z := V 0 0 1 in
  let y := cross z tangent in
  if limit then mk_lcs (of_cols (cross y z) y z) coords
  else mk_lcs (of_cols tangent y (cross tangent y)) coords.

(** [local_coordinate_system], 1576-1617 *)
Definition seg_lcs (s : tseg) (position : R) : res lcs :=
  match s with
  | TDisc data limit _ => lcs_from_tangent (eval_disc data position) (tangent_disc data position) limit
  | TExpr f df max limit _ =>
      lcs_from_tangent (f (position * max)) (df (position * max)) limit
  end.

(** the series of [RadialHorizontalTraceSegment], 1679-1690, and its derivative
    with respect to s; w is 1 for clockwise segments *)
Definition radial_point (r w s : R) : vec := V (sin s * r) (w * (cos s - 1) * r) 0.
Definition radial_tangent (r w s : R) : vec := V (cos s * r) (- w * sin s * r) 0.
Definition winding (clockwise : bool) : R := if clockwise then 1 else -1.

Section Trace.
  (** [sympy.integrate(f, (s, 0, m))] *)
  Variable integral : (R -> R) -> R -> R.

  (** [_get_length_expr] and [get_section_length], 173-181 and 202-229, with
      [DynamicTraceSegment.__init__] for an expression *)
  Definition mk_expr (f df : R -> vec) (max : R) (limit : bool) : res tseg :=
    let len := integral (fun s => norm (df s)) max in
    if rle len 0 then Err ValueError else Ok (TExpr f df max limit len).

  (** [RadialHorizontalTraceSegment.__init__], 1650-1690 *)
  Definition mk_radial (radius angle : R) (clockwise : bool) : res tseg :=
    if rle radius 0 then Err ValueError
    else if rle angle 0 then Err ValueError
    else mk_expr (radial_point radius (winding clockwise)) (radial_tangent radius (winding clockwise))
           angle false.
End Trace.

(** [Trace] with its lookup tables *)
Record trace : Type := Trace {
  t_segments : list tseg;
  t_systems : list lcs;
  t_totals : list R;
  t_lengths : list R
}.

(** [Trace._create_lookups], 1769-1796: the systems, total lengths and lengths
    after the given ones *)
Fixpoint lookups (segs : list tseg) (start : lcs) (total : R) : res (list lcs * list R * list R) :=
  match segs with
  | [] => Ok ([], [], [])
  | s :: r =>
      bind (seg_lcs s 1) (fun e =>
      bind (lcs_add e start) (fun l =>
      let total' := total + seg_len s in
      bind (lookups r l total') (fun '(ls, ts, ns) =>
      Ok (l :: ls, total' :: ts, seg_len s :: ns))))
  end.
(** [length], 1831-1841 *)
Definition trace_length (t : trace) : R := last (t_totals t) 0.
(** [Trace.__init__], 1725-1756; without a coordinate system it is the default
    one *)
Definition mk_trace (segs : list tseg) (cs : option lcs) : res trace :=
  bind (match cs with Some c => Ok c | None => mk_lcs mid vzero end) (fun c =>
  bind (lookups segs c 0) (fun '(ls, ts, ns) =>
  let t := Trace segs (c :: ls) (0 :: ts) ns in
  if rle (trace_length t) 0 then Err ValueError else Ok t)).

(** [_get_segment_index], 1798-1816 *)
Definition clip (x lo hi : R) : R := Rmin (Rmax x lo) hi.
Fixpoint first_index (i : nat) (count : nat) (totals : list R) (position : R) : option nat :=
  match count with
  | O => None
  | S c =>
      if rle position (nth (i + 1) totals 0) then Some i else first_index (S i) c totals position
  end.
Definition segment_index (t : trace) (position : R) : nat :=
  let p := clip position 0 (trace_length t) in
  match first_index 0 (length (t_totals t) - 2) (t_totals t) p with
  | Some i => i
  | None => (length (t_segments t) - 1)%nat
  end.

(** the segment with index i at a position on the trace *)
Definition system_at (t : trace) (i : nat) (position : R) : res lcs :=
  match nth_error (t_segments t) i, nth_error (t_totals t) i,
        nth_error (t_lengths t) i, nth_error (t_systems t) i with
  | Some s, Some start, Some len, Some cs =>
      bind (seg_lcs s ((position - start) / len)) (fun l => lcs_add l cs)
  | _, _, _, _ => Err IndexError
  end.

(** [local_coordinate_system], 1866-1893 *)
Definition local_cs (t : trace) (position : R) : res lcs :=
  system_at t (segment_index t position) position.

(** [rasterize], 1895-1938.  [advance] is the while loop. *)
Fixpoint advance (fuel idx : nat) (totals : list R) (location : R) : res nat :=
  match fuel with
  | O => Err OutOfFuel
  | S f =>
      match nth_error totals (idx + 1) with
      | None => Err IndexError
      | Some x => if rle location x then Ok idx else advance f (S idx) totals location
      end
  end.
Fixpoint raster_loop (t : trace) (width : R) (idx : nat) (is : list nat) : res (list vec) :=
  match is with
  | [] => Ok []
  | i :: r =>
      let location := INR i * width in
      bind (advance (S (length (t_totals t))) idx (t_totals t) location) (fun idx' =>
      bind (system_at t idx' location) (fun l =>
      bind (raster_loop t width idx' r) (fun ps => Ok (l_pos l :: ps))))
  end.
Definition raster_number (len width : R) : nat :=
  Z.to_nat (GeoModel.np_round (len / width)).
Definition rasterize (t : trace) (width : R) : res (list vec) :=
  if rle width 0 then Err ValueError
  else
    let w := clip width 0 (trace_length t) in
    let num := raster_number (trace_length t) w in
    let eff := trace_length t / INR num in
    bind (raster_loop t eff 0 (seq 0 num)) (fun ps =>
    Ok (ps ++ [l_pos (last (t_systems t) (Lcs mid vzero))])).

(** [Geometry._rasterize_trace], 2303-2327; [np.arange(0, stop, step)] has
    ceil(stop / step) entries i * step *)
Definition ceil_nat (x : R) : nat := Z.to_nat (- Int_part (- x))%Z.
Definition arange0 (stop step : R) : list R :=
  map (fun i => INR i * step) (seq 0 (ceil_nat (stop / step))).
Definition raster_locations (len width : R) : res (list R) :=
  if rle width 0 then Err ValueError
  else
    let w := Rmin width len in
    let num := raster_number len w in
    let eff := len / INR num in
    Ok (arange0 (len - eff / 2) eff ++ [len]).

(** [Geometry._get_transformed_profile_data] (2329-2351) of profile points that
    were extended by [_profile_raster_data_3d] (2353-2376) *)
Definition point_3d (p : GeoModel.pt) : vec := V 0 (GeoModel.px p) (GeoModel.py p).
Definition transformed_data (t : trace) (data : list vec) (location : R) : res (list vec) :=
  bind (local_cs t location) (fun l => Ok (map (fun p => vadd (mvec (l_ori l) p) (l_pos l)) data)).

(** [Profile]: its shapes, 1304-1398; [rasterize] stacks the rasters of the shapes *)
Definition profile : Type := list GeoModel.shape.
Fixpoint profile_raster (p : profile) (width : R) : res (list GeoModel.pt) :=
  match p with
  | [] => Ok []
  | s :: r =>
      bind (GeoModel.rasterize s width) (fun a =>
      bind (profile_raster r width) (fun b => Ok (a ++ b)))
  end.

(** [Geometry._rasterize_constant_profile] with [stack=True], 2378-2428; the
    parts of the hstack are kept apart *)
Fixpoint sections (t : trace) (data : list vec) (locations : list R) : res (list (list vec)) :=
  match locations with
  | [] => Ok []
  | x :: r =>
      bind (transformed_data t data x) (fun a =>
      bind (sections t data r) (fun b => Ok (a :: b)))
  end.
Definition rasterize_geometry (p : profile) (t : trace) (profile_width trace_width : R)
  : res (list (list vec)) :=
  bind (raster_locations (trace_length t) trace_width) (fun locations =>
  bind (profile_raster p profile_width) (fun data =>
  sections t (map point_3d data) locations)).

(** [linear_profile_interpolation_sbs], 1992-2024 *)
Fixpoint interpolate_shapes (a b : list GeoModel.shape) (w : R) : res (list GeoModel.shape) :=
  match a, b with
  | s :: a', t :: b' =>
      bind (GeoModel.interpolate_shape s t w) (fun c =>
      bind (interpolate_shapes a' b' w) (fun r => Ok (c :: r)))
  | _, _ => Ok []
  end.
Definition linear_sbs (a b : profile) (weight : R) : res profile :=
  if Nat.eqb (length a) (length b) then interpolate_shapes a b (clip weight 0 1)
  else Err ValueError.

(** [VariableProfile], 2029-2076.  A scheme is any function of two profiles and a
    weight; [A] is the type of the profiles. *)
Section Varying.
  Context {A : Type}.
  Definition scheme : Type := A -> A -> R -> res A.
  Record varprofile : Type := VarProfile {
    v_profiles : list A; v_locations : list R; v_schemes : list scheme }.

  Fixpoint ascending (n : nat) (l : list R) : bool :=
    match n, l with
    | S m, a :: ((b :: _) as r) => if rle b a then false else ascending m r
    | _, _ => true
    end.
  Definition mk_varprofile (profiles : list A) (locations : list R) (schemes : list scheme)
    : res varprofile :=
    match locations with
    | [] => Err IndexError
    | x :: _ =>
        let locs := if req x 0 then locations else 0 :: locations in
        if negb (Nat.eqb (length profiles) (length locs)) then Err ValueError
        else if negb (Nat.eqb (length schemes + 1) (length profiles)) then Err ValueError
        else if ascending (length profiles - 1) locs
        then Ok (VarProfile profiles locs schemes) else Err ValueError
    end.

  (** [_segment_index], 2086-2103 *)
  Fixpoint location_index (fuel idx : nat) (locs : list R) (x : R) : res nat :=
    match fuel with
    | O => Err OutOfFuel
    | S f =>
        match nth_error locs (idx + 1) with
        | None => Err IndexError
        | Some b => if rlt b x then location_index f (S idx) locs x else Ok idx
        end
    end.

  (** [local_profile], 2191-2215 *)
  Definition local_profile (v : varprofile) (location : R) : res A :=
    let locs := v_locations v in
    let x := clip location 0 (last locs 0) in
    bind (location_index (S (length locs)) 0 locs x) (fun i =>
    match nth_error locs i, nth_error locs (i + 1), nth_error (v_schemes v) i,
          nth_error (v_profiles v) i, nth_error (v_profiles v) (i + 1) with
    | Some a, Some b, Some f, Some p, Some q => f p q ((x - a) / (b - a))
    | _, _, _, _, _ => Err IndexError
    end).
End Varying.
Arguments varprofile : clear implicits.
Arguments scheme : clear implicits.
