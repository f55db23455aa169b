(** Rasters of geometries with a [VariableProfile] and rasters that keep the shapes
    apart ([stack=False]), weldx/geometry.py, on top of [TraceModel]. *)
From Coq Require Import Reals List.
From Verif Require Import Base RigidModel TraceModel.
From Verif Require GeoModel.
Import ListNotations.
Open Scope R_scope.

(** [_get_local_profile_data], 2286-2300; [max_location] is the last location, 2159-2167 *)
Definition local_profile_data (v : varprofile profile) (t : trace) (x width : R) : res (list vec) :=
  let relative := x / trace_length t in
  let location := relative * last (v_locations v) 0 in
  bind (local_profile v location) (fun p =>
  bind (profile_raster p width) (fun data => Ok (map point_3d data))).

(** the loop of [_rasterize_variable_profile], 2430-2454; the parts of the hstack are kept apart *)
Fixpoint variable_sections (v : varprofile profile) (t : trace) (width : R) (locations : list R)
  : res (list (list vec)) :=
  match locations with
  | [] => Ok []
  | x :: r =>
      bind (local_profile_data v t x width) (fun data =>
      bind (transformed_data t data x) (fun a =>
      bind (variable_sections v t width r) (fun b => Ok (a :: b))))
  end.
Definition rasterize_variable (v : varprofile profile) (t : trace) (profile_width trace_width : R)
  : res (list (list vec)) :=
  bind (raster_locations (trace_length t) trace_width) (fun locations =>
  variable_sections v t profile_width locations).

(** [Profile.rasterize] with [stack=False], 1374-1406 *)
Fixpoint shape_rasters (p : profile) (width : R) : res (list (list GeoModel.pt)) :=
  match p with
  | [] => Ok []
  | s :: r =>
      bind (GeoModel.rasterize s width) (fun a =>
      bind (shape_rasters r width) (fun b => Ok (a :: b)))
  end.
(** [_rasterize_constant_profile] with [stack=False], 2411-2426 *)
Fixpoint shape_sections (t : trace) (locations : list R) (shapes : list (list vec)) : res (list (list (list vec))) :=
  match shapes with
  | [] => Ok []
  | data :: r =>
      bind (sections t data locations) (fun a =>
      bind (shape_sections t locations r) (fun b => Ok (a :: b)))
  end.
Definition rasterize_shapes (p : profile) (t : trace) (profile_width trace_width : R)
  : res (list (list (list vec))) :=
  bind (raster_locations (trace_length t) trace_width) (fun locations =>
  bind (shape_rasters p profile_width) (fun data =>
  shape_sections t locations (map (map point_3d) data))).

(** [Geometry] with a constant or a variable profile; [rasterize], 2479-2512.  The
    result is one array of points or a list with one array [section, point] for each
    shape. *)
Inductive gprofile : Type := Constant (p : profile) | Varying (v : varprofile profile).
Inductive raster : Type := Stacked (points : list vec) | PerShape (shapes : list (list (list vec))).
Definition rasterize (g : gprofile) (t : trace) (profile_width trace_width : R) (stack : bool) : res raster :=
  match g with
  | Constant p =>
      if stack
      then bind (rasterize_geometry p t profile_width trace_width) (fun l => Ok (Stacked (concat l)))
      else bind (rasterize_shapes p t profile_width trace_width) (fun l => Ok (PerShape l))
  | Varying v => bind (rasterize_variable v t profile_width trace_width) (fun l => Ok (Stacked (concat l)))
  end.
