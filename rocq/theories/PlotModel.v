(** Plotting with and without the optional packages [matplotlib], [k3d] and [weldx_widgets]
    (weldx/visualization/__init__.py 6-54, weldx/util/util.py 417-439, the [plot] methods below).

    Simplifications: what the functions of [weldx_widgets] and matplotlib draw is left out. A call of one
    of them is an event with the arguments it gets, and its result is an opaque object. Warnings are not
    turned into exceptions. A module that could not be imported is tried again by the next import. *)
From Coq Require Import List String Bool ZArith.
From Verif Require Import Base.
Import ListNotations.
Open Scope string_scope.

(** arguments; [VObj] stands for any object that is no integer *)
Inductive val : Type :=
| VNone
| VBool (b : bool)
| VInt (z : Z)
| VText (s : string)
| VObj (n : nat).

(** exceptions: a missing module with the text of the exception, and all others *)
Inductive exc : Type :=
| Missing (text : string)
| Exc (e : exn).
Inductive outcome (A : Type) : Type :=
| Value (a : A)
| Raise (e : exc).
Arguments Value {A} a.
Arguments Raise {A} e.

(** the three warnings: util.py 422-426, util.py 436, visualization/__init__.py 30-34 *)
Inductive warning : Type := NoMatplotlib | MatplotlibNone | NoWidgets.
Inductive event : Type :=
| EWarn (w : warning)
| ECall (name : string) (args : list val) (kwargs : dict val).

(** what a call does: its events and its result *)
Definition run (A : Type) : Type := (list event * outcome A)%type.
Definition seq {A B : Type} (r : run A) (k : A -> run B) : run B :=
  match r with
  | (es, Raise e) => (es, Raise e)
  | (es, Value a) => let '(es', b) := k a in ((es ++ es')%list, b)
  end.

(** what [find_spec("matplotlib.pyplot")] does *)
Inductive spec : Type := Found | NotFound | Fails (e : exc).

(** weldx/util/util.py 417-439: [check_matplotlib_available]; [None] is the result without a call *)
Definition check_matplotlib_available {A : Type} (s : spec) (func : run A) : run (option A) :=
  match s with
  | NotFound => ([EWarn NoMatplotlib], Value None)
  | Fails (Missing _) => ([EWarn NoMatplotlib], Value None)
  | Fails (Exc ValueError) => ([EWarn MatplotlibNone], Value None)
  | Fails e => ([], Raise e)
  | Found => seq func (fun a => ([], Value (Some a)))
  end.

(** [p in s] for texts *)
Fixpoint contains (p s : string) : bool :=
  String.prefix p s
  || match s with
     | EmptyString => false
     | String _ r => contains p r
     end.

(** what stands behind the names of weldx/visualization/__init__.py *)
Inductive module : Type := Widgets | Fallback.

(** weldx/visualization/__init__.py 6-54: the first import. [w] is what the import of [weldx_widgets] and
    the modules it needs raises *)
Definition import_first (w : option exc) : run module :=
  match w with
  | None => ([], Value Widgets)
  | Some (Missing t) =>
      if contains "weldx_widgets" t then ([EWarn NoWidgets], Value Fallback)
      else ([], Raise (Missing t))
  | Some e => ([], Raise e)
  end.

(** the packages: [loaded] is the module if it has been imported before, [k3d] is what the import of k3d
    raises, [pyplot] what the import of matplotlib.pyplot raises *)
Record env : Type := Env {
  loaded : option module;
  widgets : option exc;
  k3d : option exc;
  pyplot : option exc
}.
Definition import (e : env) : run module :=
  match loaded e with
  | Some m => ([], Value m)
  | None => import_first (widgets e)
  end.
Definition import_other (r : option exc) : run unit :=
  match r with
  | None => ([], Value tt)
  | Some x => ([], Raise x)
  end.

(** [warnings.warn(…, stacklevel=v)] takes integers (truth values are integers) *)
Definition warn_with (v : val) : run val :=
  match v with
  | VInt _ | VBool _ => ([EWarn NoWidgets], Value VNone)
  | _ => ([], Raise (Exc TypeError))
  end.

(** weldx/visualization/__init__.py 27-34: a call of [_warn(stacklevel=2)] with the rules of python for
    positional arguments and keywords *)
Definition call_warn (args : list val) (kwargs : dict val) : run val :=
  match args, kwargs with
  | [], [] => warn_with (VInt 2)
  | [v], [] => warn_with v
  | [], [(k, v)] => if String.eqb k "stacklevel" then warn_with v else ([], Raise (Exc TypeError))
  | _, _ => ([], Raise (Exc TypeError))
  end.

(** 47-51: the functions; the result of a function of the package is an object *)
Definition call_function (m : module) (name : string) (args : list val) (kwargs : dict val) : run val :=
  match m with
  | Widgets => ([ECall name args kwargs], Value (VObj 0))
  | Fallback => call_warn args kwargs
  end.
(** 39-45: the classes; a [MagicMock] takes the arguments and is the object *)
Definition call_class (m : module) (name : string) (args : list val) (kwargs : dict val) : run val :=
  match m with
  | Widgets => ([ECall name args kwargs], Value (VObj 0))
  | Fallback => ([EWarn NoWidgets], Value (VObj 0))
  end.

(** keywords of a call with the parameters of the method they are taken from *)
Definition pass (names : list (string * string)) (p : string -> val) : dict val :=
  map (fun q => (fst q, p (snd q))) names.

(** weldx/transformations/local_cs.py 803-865: [LocalCoordinateSystem.plot] *)
Definition lcs_names : list (string * string) :=
  [("axes", "axes"); ("color", "color"); ("label", "label"); ("time", "time");
   ("time_ref", "time_ref"); ("time_index", "time_index"); ("scale_vectors", "scale_vectors");
   ("show_origin", "show_origin"); ("show_trace", "show_trace"); ("show_vectors", "show_vectors")].
Definition lcs_plot (e : env) (self : val) (p : string -> val) : run val :=
  seq (import e) (fun m =>
  seq (call_function m "plot_local_coordinate_system_matplotlib" [self] (pass lcs_names p)) (fun _ =>
  ([], Value VNone))).

(** weldx/transformations/cs_manager.py 1535-1658: [CoordinateSystemManager.plot] *)
Definition csm_k3d_names : list (string * string) :=
  [("reference_system", "reference_system"); ("coordinate_systems", "coordinate_systems");
   ("data_sets", "data_sets"); ("colors", "colors"); ("limits", "limits");
   ("show_data_labels", "show_data_labels"); ("show_labels", "show_labels");
   ("show_origins", "show_origins"); ("show_traces", "show_traces");
   ("show_vectors", "show_vectors"); ("show_wireframe", "show_wireframe")].
Definition csm_mpl_names : list (string * string) :=
  [("axes", "axes"); ("reference_system", "reference_system");
   ("coordinate_systems", "coordinate_systems"); ("data_sets", "data_sets"); ("colors", "colors");
   ("time", "time"); ("time_ref", "time_ref"); ("title", "title"); ("limits", "limits");
   ("set_axes_equal", "axes_equal"); ("scale_vectors", "scale_vectors");
   ("show_origins", "show_origins"); ("show_trace", "show_traces");
   ("show_vectors", "show_vectors"); ("show_wireframe", "show_wireframe")].
Definition csm_plot (e : env) (self : val) (backend : string) (p : string -> val) : run val :=
  if negb (smem backend ["mpl"; "k3d"]) then ([], Raise (Exc ValueError))
  else if String.eqb backend "k3d" then
    seq (import e) (fun m =>
    call_class m "CoordinateSystemManagerVisualizerK3D" [] (("csm", self) :: pass csm_k3d_names p))
  else
    seq (import e) (fun m =>
    call_function m "plot_coordinate_system_manager_matplotlib" []
      (("csm", self) :: pass csm_mpl_names p)).

(** weldx/geometry.py 2877-2948: [SpatialData.plot]; [grid] are the limits of the data *)
Definition sd_names : list (string * string) :=
  [("axes", "axes"); ("color", "color"); ("label", "label"); ("limits", "limits");
   ("show_wireframe", "show_wireframe")].
Definition sd_plot (e : env) (self grid : val) (backend : string) (p : string -> val) : run val :=
  if negb (smem backend ["mpl"; "k3d"]) then ([], Raise (Exc ValueError))
  else
    seq (import e) (fun m =>
    if String.eqb backend "k3d" then
      seq (import_other (k3d e)) (fun _ =>
      seq ([ECall "k3d.plot" [] [("grid", grid)]], Value (VObj 1)) (fun plot =>
      seq (call_class m "SpatialDataVisualizer" [self]
             [("name", VNone); ("reference_system", VNone); ("color", p "color"); ("plot", plot)])
          (fun _ => ([], Value plot))))
    else
      call_function m "plot_spatial_data_matplotlib" [] (("data", self) :: pass sd_names p)).

(** weldx/geometry.py 1940-1979: [Trace.plot] for a raster [data] that could be made; [axes] is None or an
    object, the axes made by [subplots] are [VObj 2]. The labels of the axes are left out *)
Definition trace_plot (e : env) (data axes fmt : val) (axes_equal : bool) : run val :=
  let f := match fmt with VNone => VText "x-" | _ => fmt end in
  match axes with
  | VNone =>
      seq (import_other (pyplot e)) (fun _ =>
      seq ([ECall "axes.plot" [VObj 2; data; f] []], Value VNone) (fun _ =>
      if axes_equal then
        seq (import e) (fun m =>
        seq (call_function m "axes_equal" [VObj 2] []) (fun _ => ([], Value VNone)))
      else ([], Value VNone)))
  | _ => ([ECall "axes.plot" [axes; data; f] []], Value VNone)
  end.
