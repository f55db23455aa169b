(** Theorems about plotting with and without the optional packages (C150). *)
From Coq Require Import List String Bool ZArith.
From Verif Require Import Base PlotModel.
Import ListNotations.
Open Scope string_scope.

(** no module could be imported before and weldx_widgets is missing, or this was found out before *)
Definition without_widgets (e : env) : Prop :=
  loaded e = Some Fallback
  \/ (loaded e = None /\ exists a b, widgets e = Some (Missing (a ++ "weldx_widgets" ++ b))).
Definition with_widgets (e : env) : Prop :=
  loaded e = Some Widgets \/ (loaded e = None /\ widgets e = None).
Definition only_warnings (es : list event) : Prop := Forall (fun x => x = EWarn NoWidgets) es.

Lemma prefix_app : forall p s, String.prefix p s = true <-> exists b, s = p ++ b.
Proof.
  induction p as [|c p IH]; intros s.
  - destruct s; split; intros; try reflexivity; eexists; reflexivity.
  - destruct s as [|d s]; cbn [String.prefix].
    + split; [discriminate|]. intros [b Hb]. discriminate.
    + destruct (Ascii.ascii_dec c d) as [->|N].
      * rewrite IH. split; intros [b Hb]; exists b; [now rewrite Hb | now injection Hb].
      * split; [discriminate|]. intros [b Hb]. injection Hb as E _. now elim N.
Qed.

Lemma contains_iff : forall p s, contains p s = true <-> exists a b, s = a ++ p ++ b.
Proof.
  intros p s. induction s as [|c s IH].
  - cbn [contains]. rewrite orb_false_r, prefix_app. split.
    + intros [b Hb]. exists "", b. exact Hb.
    + intros [a [b Hb]]. destruct a; [exists b; exact Hb|discriminate].
  - cbn [contains]. rewrite orb_true_iff, prefix_app, IH. split.
    + intros [[b Hb]|[a [b Hb]]]; [exists "", b; exact Hb|].
      exists (String c a), b. cbn. now rewrite Hb.
    + intros [a [b Hb]]. destruct a as [|d a]; [left; exists b; exact Hb|].
      right. exists a, b. now injection Hb.
Qed.

Lemma import_without : forall e, without_widgets e ->
  exists es, import e = (es, Value Fallback) /\ only_warnings es.
Proof.
  intros e [H|[H [a [b Hw]]]]; unfold import; rewrite H.
  - exists []. split; [reflexivity|constructor].
  - rewrite Hw. exists [EWarn NoWidgets]. split; [|repeat constructor]. cbn [import_first].
    replace (contains "weldx_widgets" (a ++ "weldx_widgets" ++ b)) with true; [reflexivity|].
    symmetry. apply contains_iff. now exists a, b.
Qed.
Lemma import_with : forall e, with_widgets e -> import e = ([], Value Widgets).
Proof. intros e [H|[H Hw]]; unfold import; rewrite H; [reflexivity|now rewrite Hw]. Qed.

(** the decorator calls the function iff matplotlib is found, and changes neither events nor exceptions *)
Theorem c150_decorator_found : forall A (es : list event) (r : outcome A),
  check_matplotlib_available Found (es, r)
  = (es, match r with Value a => Value (Some a) | Raise e => Raise e end).
Proof. intros A es [a|e]; cbn; [now rewrite app_nil_r|reflexivity]. Qed.
Print Assumptions c150_decorator_found.

(** otherwise the function is not called: one warning and None, or the exception of the search *)
Theorem c150_decorator_missing : forall A (f : run A) s, s <> Found ->
  check_matplotlib_available s f
  = match s with
    | Fails (Exc e) =>
        if match e with ValueError => true | _ => false end
        then ([EWarn MatplotlibNone], Value None) else ([], Raise (Exc e))
    | _ => ([EWarn NoMatplotlib], Value None)
    end.
Proof. intros A f [| |[t|e]] H; [now elim H|reflexivity|reflexivity|now destruct e]. Qed.
Print Assumptions c150_decorator_missing.
Example c150_ex_decorator :
  check_matplotlib_available (Fails (Missing "No module named 'matplotlib'")) (([], Value 3) : run nat)
  = ([EWarn NoMatplotlib], Value None).
Proof. reflexivity. Qed.

(** the first import: the package, the replacement with one warning iff the text of the exception names the
    package, or the exception *)
Theorem c150_import_fallback : forall w es,
  import_first w = (es, Value Fallback)
  <-> es = [EWarn NoWidgets] /\ exists a b, w = Some (Missing (a ++ "weldx_widgets" ++ b)).
Proof.
  intros w es. split.
  - destruct w as [[t|e]|]; cbn [import_first]; try discriminate.
    destruct (contains "weldx_widgets" t) eqn:C; [|discriminate].
    intros H. injection H as <-. split; [reflexivity|].
    apply contains_iff in C. destruct C as [a [b ->]]. now exists a, b.
  - intros [-> [a [b ->]]]. cbn [import_first].
    replace (contains "weldx_widgets" (a ++ "weldx_widgets" ++ b)) with true; [reflexivity|].
    symmetry. apply contains_iff. now exists a, b.
Qed.
Print Assumptions c150_import_fallback.

Theorem c150_import_widgets : forall w es,
  import_first w = (es, Value Widgets) <-> es = [] /\ w = None.
Proof.
  intros w es. split.
  - destruct w as [[t|e]|]; cbn [import_first]; try discriminate.
    + destruct (contains "weldx_widgets" t); discriminate.
    + intros H. now injection H as <-.
  - now intros [-> ->].
Qed.
Print Assumptions c150_import_widgets.

Theorem c150_import_error : forall w es x,
  import_first w = (es, Raise x)
  <-> es = [] /\ w = Some x /\ forall a b, x <> Missing (a ++ "weldx_widgets" ++ b).
Proof.
  intros w es x. split.
  - destruct w as [[t|e]|]; cbn [import_first]; try discriminate.
    + destruct (contains "weldx_widgets" t) eqn:C; [discriminate|].
      intros H. injection H as <- <-. repeat split. intros a b E. injection E as E.
      enough (contains "weldx_widgets" t = true) by congruence.
      apply contains_iff. now exists a, b.
    + intros H. injection H as <- <-. repeat split. discriminate.
  - intros [-> [-> N]]. destruct x as [t|e]; cbn [import_first]; [|reflexivity].
    destruct (contains "weldx_widgets" t) eqn:C; [|reflexivity].
    apply contains_iff in C. destruct C as [a [b ->]]. now elim (N a b).
Qed.
Print Assumptions c150_import_error.
Example c150_ex_import : import_first (Some (Missing "No module named 'k3d'"))
  = ([], Raise (Missing "No module named 'k3d'")).
Proof. reflexivity. Qed.

(** a module that was imported before is used without a new warning *)
Theorem c150_import_again : forall e m, loaded e = Some m -> import e = ([], Value m).
Proof. intros e m H. unfold import. now rewrite H. Qed.
Print Assumptions c150_import_again.

(** a replaced function warns iff it gets nothing but at most one integer for the level of the warning;
    every other call is a TypeError without a warning *)
Theorem c150_replacement : forall name args kw,
  call_function Fallback name args kw
  = ([EWarn NoWidgets], Value VNone)
  <-> (args = [] /\ kw = [])
      \/ exists v, ((exists z, v = VInt z) \/ exists b, v = VBool b)
                   /\ ((args = [v] /\ kw = []) \/ (args = [] /\ kw = [("stacklevel", v)])).
Proof.
  intros name args kw. cbn [call_function]. split.
  - destruct args as [|v [|v' args]]; destruct kw as [|[k u] [|q kw]]; cbn [call_warn];
      try discriminate.
    + now left.
    + destruct (String.eqb_spec k "stacklevel") as [->|N]; [|discriminate].
      intros H. right. exists u. split; [|now right].
      destruct u; cbn in H; try discriminate; eauto.
    + intros H. right. exists v. split; [|now left].
      destruct v; cbn in H; try discriminate; eauto.
  - intros [[-> ->]|[v [Hv [[-> ->]|[-> ->]]]]]; [reflexivity| |];
      destruct Hv as [[z ->]|[b ->]]; reflexivity.
Qed.
Print Assumptions c150_replacement.

Theorem c150_replacement_error : forall name args kw,
  call_function Fallback name args kw = ([EWarn NoWidgets], Value VNone)
  \/ call_function Fallback name args kw = ([], Raise (Exc TypeError)).
Proof.
  intros name args kw. cbn [call_function].
  destruct args as [|v [|v' args]]; destruct kw as [|[k u] [|q kw]]; cbn [call_warn]; auto.
  - destruct (String.eqb k "stacklevel"); [destruct u|]; cbn; auto.
  - destruct v; cbn; auto.
Qed.
Print Assumptions c150_replacement_error.

(** coordinate systems: one call with the system and exactly the ten parameters under their names *)
Theorem c150_lcs : forall e self p, with_widgets e ->
  exists kw, lcs_plot e self p
    = ([ECall "plot_local_coordinate_system_matplotlib" [self] kw], Value VNone)
    /\ forall k, dget k kw
       = if smem k ["axes"; "color"; "label"; "time"; "time_ref"; "time_index"; "scale_vectors";
                    "show_origin"; "show_trace"; "show_vectors"] then Some (p k) else None.
Proof.
  intros e self p H. exists (pass lcs_names p). unfold lcs_plot. rewrite (import_with e H).
  split; [reflexivity|]. intros k. unfold pass, lcs_names, smem.
  cbn [map fst snd dget existsb].
  repeat match goal with
  | |- context [String.eqb k ?s] => destruct (String.eqb_spec k s) as [->|?]; [reflexivity|cbn [orb]]
  end. reflexivity.
Qed.
Print Assumptions c150_lcs.

(** false: without weldx_widgets, plotting a coordinate system warns; it always fails *)
Theorem c150_lcs_refuted : forall e self p, without_widgets e ->
  exists es, lcs_plot e self p = (es, Raise (Exc TypeError)) /\ only_warnings es.
Proof.
  intros e self p H. destruct (import_without e H) as [es [Hi Hes]].
  unfold lcs_plot. rewrite Hi. exists es. cbn. now rewrite app_nil_r.
Qed.
Print Assumptions c150_lcs_refuted.
Example c150_ex_lcs :
  lcs_plot (Env None (Some (Missing "No module named 'weldx_widgets'")) None None) (VObj 7) (fun _ => VNone)
  = ([EWarn NoWidgets], Raise (Exc TypeError)).
Proof. reflexivity. Qed.

(** unknown backends are ValueErrors before anything is imported *)
Theorem c150_backend : forall e self grid p b, b <> "mpl" -> b <> "k3d" ->
  csm_plot e self b p = ([], Raise (Exc ValueError))
  /\ sd_plot e self grid b p = ([], Raise (Exc ValueError)).
Proof.
  intros e self grid p b H1 H2. unfold csm_plot, sd_plot, smem. cbn [existsb].
  destruct (String.eqb_spec b "mpl"); [contradiction|].
  destruct (String.eqb_spec b "k3d"); [contradiction|]. split; reflexivity.
Qed.
Print Assumptions c150_backend.

(** managers with k3d: one call of the class with the manager and these eleven parameters *)
Theorem c150_csm_k3d : forall e self p, with_widgets e ->
  exists kw, csm_plot e self "k3d" p
    = ([ECall "CoordinateSystemManagerVisualizerK3D" [] kw], Value (VObj 0))
    /\ forall k, dget k kw
       = if String.eqb k "csm" then Some self
         else if smem k ["reference_system"; "coordinate_systems"; "data_sets"; "colors"; "limits";
                         "show_data_labels"; "show_labels"; "show_origins"; "show_traces";
                         "show_vectors"; "show_wireframe"] then Some (p k) else None.
Proof.
  intros e self p H. exists (("csm", self) :: pass csm_k3d_names p). unfold csm_plot.
  rewrite (import_with e H). split; [reflexivity|]. intros k. unfold pass, csm_k3d_names, smem.
  cbn [map fst snd dget existsb].
  repeat match goal with
  | |- context [String.eqb k ?s] => destruct (String.eqb_spec k s) as [->|?]; [reflexivity|cbn [orb]]
  end. reflexivity.
Qed.
Print Assumptions c150_csm_k3d.

(** managers with matplotlib: one call of the function with the manager and fifteen parameters, of which two
    get another name *)
Theorem c150_csm_mpl : forall e self p, with_widgets e ->
  exists kw, csm_plot e self "mpl" p
    = ([ECall "plot_coordinate_system_manager_matplotlib" [] kw], Value (VObj 0))
    /\ forall k, dget k kw
       = if String.eqb k "csm" then Some self
         else if String.eqb k "set_axes_equal" then Some (p "axes_equal")
         else if String.eqb k "show_trace" then Some (p "show_traces")
         else if smem k ["axes"; "reference_system"; "coordinate_systems"; "data_sets"; "colors"; "time";
                         "time_ref"; "title"; "limits"; "scale_vectors"; "show_origins";
                         "show_vectors"; "show_wireframe"] then Some (p k) else None.
Proof.
  intros e self p H. exists (("csm", self) :: pass csm_mpl_names p). unfold csm_plot.
  rewrite (import_with e H). split; [reflexivity|]. intros k. unfold pass, csm_mpl_names, smem.
  cbn [map fst snd dget existsb].
  repeat match goal with
  | |- context [String.eqb k ?s] => destruct (String.eqb_spec k s) as [->|?]; [reflexivity|cbn [orb]]
  end. reflexivity.
Qed.
Print Assumptions c150_csm_mpl.

(** false: every parameter has an influence with every backend *)
Theorem c150_csm_ignored_refuted : forall e self p q,
  (forall k, smem k ["show_data_labels"; "show_labels"] = false -> p k = q k) ->
  csm_plot e self "mpl" p = csm_plot e self "mpl" q.
Proof.
  intros e self p q H. unfold csm_plot, pass, csm_mpl_names.
  cbn [smem existsb String.eqb Ascii.eqb Bool.eqb orb negb map fst snd].
  rewrite !H by reflexivity. reflexivity.
Qed.
Print Assumptions c150_csm_ignored_refuted.

Theorem c150_csm_ignored_k3d_refuted : forall e self p q,
  (forall k, smem k ["axes"; "title"; "time"; "time_ref"; "axes_equal"; "scale_vectors"] = false
             -> p k = q k) ->
  csm_plot e self "k3d" p = csm_plot e self "k3d" q.
Proof.
  intros e self p q H. unfold csm_plot, pass, csm_k3d_names.
  cbn [smem existsb String.eqb Ascii.eqb Bool.eqb orb negb map fst snd].
  rewrite !H by reflexivity. reflexivity.
Qed.
Print Assumptions c150_csm_ignored_k3d_refuted.

(** without weldx_widgets, k3d is the only backend of managers that warns; the result is an object *)
Theorem c150_csm_without : forall e self p, without_widgets e ->
  exists es, csm_plot e self "k3d" p = ((es ++ [EWarn NoWidgets])%list, Value (VObj 0)) /\ only_warnings es.
Proof.
  intros e self p H. destruct (import_without e H) as [es [Hi Hes]].
  unfold csm_plot. rewrite Hi. exists es. now split.
Qed.
Print Assumptions c150_csm_without.

(** false: without weldx_widgets, the default backend warns *)
Theorem c150_csm_refuted : forall e self p, without_widgets e ->
  exists es, csm_plot e self "mpl" p = (es, Raise (Exc TypeError)) /\ only_warnings es.
Proof.
  intros e self p H. destruct (import_without e H) as [es [Hi Hes]].
  unfold csm_plot. rewrite Hi. exists es. cbn. now rewrite app_nil_r.
Qed.
Print Assumptions c150_csm_refuted.

(** spatial data with matplotlib *)
Theorem c150_data_mpl : forall e self grid p, with_widgets e ->
  exists kw, sd_plot e self grid "mpl" p
    = ([ECall "plot_spatial_data_matplotlib" [] kw], Value (VObj 0))
    /\ forall k, dget k kw
       = if String.eqb k "data" then Some self
         else if smem k ["axes"; "color"; "label"; "limits"; "show_wireframe"] then Some (p k) else None.
Proof.
  intros e self grid p H. exists (("data", self) :: pass sd_names p). unfold sd_plot.
  rewrite (import_with e H). split; [reflexivity|]. intros k. unfold pass, sd_names, smem.
  cbn [map fst snd dget existsb].
  repeat match goal with
  | |- context [String.eqb k ?s] => destruct (String.eqb_spec k s) as [->|?]; [reflexivity|cbn [orb]]
  end. reflexivity.
Qed.
Print Assumptions c150_data_mpl.

(** spatial data with k3d: the grid has the limits of the data, and the plot is the result. Of all parameters
    the color has an influence only *)
Theorem c150_data_k3d : forall e self grid p, with_widgets e -> k3d e = None ->
  sd_plot e self grid "k3d" p
  = ([ECall "k3d.plot" [] [("grid", grid)];
      ECall "SpatialDataVisualizer" [self]
        [("name", VNone); ("reference_system", VNone); ("color", p "color"); ("plot", VObj 1)]],
     Value (VObj 1)).
Proof. intros e self grid p H K. unfold sd_plot. rewrite (import_with e H), K. reflexivity. Qed.
Print Assumptions c150_data_k3d.

Theorem c150_data_k3d_missing : forall e self grid p x m es,
  import e = (es, Value m) -> k3d e = Some x -> sd_plot e self grid "k3d" p = (es, Raise x).
Proof. intros e self grid p x m es H K. unfold sd_plot. rewrite H, K. cbn. now rewrite app_nil_r. Qed.
Print Assumptions c150_data_k3d_missing.

(** without weldx_widgets but with k3d, an empty plot is made with a warning *)
Theorem c150_data_without : forall e self grid p, without_widgets e -> k3d e = None ->
  exists es, sd_plot e self grid "k3d" p
    = ((es ++ [ECall "k3d.plot" [] [("grid", grid)]; EWarn NoWidgets])%list, Value (VObj 1))
    /\ only_warnings es.
Proof.
  intros e self grid p H K. destruct (import_without e H) as [es [Hi Hes]].
  unfold sd_plot. rewrite Hi, K. exists es. now split.
Qed.
Print Assumptions c150_data_without.

(** false: without weldx_widgets, the default backend warns *)
Theorem c150_data_refuted : forall e self grid p, without_widgets e ->
  exists es, sd_plot e self grid "mpl" p = (es, Raise (Exc TypeError)) /\ only_warnings es.
Proof.
  intros e self grid p H. destruct (import_without e H) as [es [Hi Hes]].
  unfold sd_plot. rewrite Hi. exists es. cbn. now rewrite app_nil_r.
Qed.
Print Assumptions c150_data_refuted.

(** traces: given axes are drawn on without any package; the axes of a new figure need matplotlib *)
Theorem c150_trace_axes : forall e data axes fmt eq, axes <> VNone ->
  trace_plot e data axes fmt eq
  = ([ECall "axes.plot" [axes; data; match fmt with VNone => VText "x-" | _ => fmt end] []],
     Value VNone).
Proof. intros e data axes fmt eq H. destruct axes; try reflexivity. now elim H. Qed.
Print Assumptions c150_trace_axes.

Theorem c150_trace_new : forall e data fmt,
  trace_plot e data VNone fmt false
  = match pyplot e with
    | Some x => ([], Raise x)
    | None => ([ECall "axes.plot" [VObj 2; data; match fmt with VNone => VText "x-" | _ => fmt end] []],
               Value VNone)
    end.
Proof. intros e data fmt. unfold trace_plot. now destruct (pyplot e). Qed.
Print Assumptions c150_trace_new.

Theorem c150_trace_equal : forall e data fmt, pyplot e = None -> with_widgets e ->
  trace_plot e data VNone fmt true
  = ([ECall "axes.plot" [VObj 2; data; match fmt with VNone => VText "x-" | _ => fmt end] [];
      ECall "axes_equal" [VObj 2] []], Value VNone).
Proof.
  intros e data fmt H W. unfold trace_plot. rewrite H, (import_with e W). reflexivity.
Qed.
Print Assumptions c150_trace_equal.

(** false: equal axes can be asked for given axes *)
Theorem c150_trace_equal_refuted : forall e data axes fmt, axes <> VNone ->
  trace_plot e data axes fmt true = trace_plot e data axes fmt false.
Proof. intros e data axes fmt H. now rewrite !c150_trace_axes. Qed.
Print Assumptions c150_trace_equal_refuted.

(** false: without weldx_widgets, equal axes are a warning; the call fails after the trace has been drawn *)
Theorem c150_trace_refuted : forall e data fmt, pyplot e = None -> without_widgets e ->
  exists es, trace_plot e data VNone fmt true
    = (ECall "axes.plot" [VObj 2; data; match fmt with VNone => VText "x-" | _ => fmt end] [] :: es,
       Raise (Exc TypeError)) /\ only_warnings es.
Proof.
  intros e data fmt H W. destruct (import_without e W) as [es [Hi Hes]].
  unfold trace_plot. rewrite H, Hi. exists es. cbn. now rewrite app_nil_r.
Qed.
Print Assumptions c150_trace_refuted.
Example c150_ex_trace :
  trace_plot (Env (Some Fallback) None None None) (VObj 5) VNone VNone true
  = ([ECall "axes.plot" [VObj 2; VObj 5; VText "x-"] []], Raise (Exc TypeError)).
Proof. reflexivity. Qed.
