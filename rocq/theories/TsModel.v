(** [weldx.TimeSeries] (weldx/core/time_series.py) and its converter
    (weldx/tags/core/time_series.py).

    Values are of any type [A]; units and the dimensions besides time are not
    modelled. A mathematical expression is of any type [E]; [ev e t] is its value
    at the time [t] (nanoseconds; the conversion to the unit of the time variable
    is exact). Expressions are supposed to pass the checks of [_init_expression]
    (165-206). Of the interpolation methods "step" is defined by [reindex], each
    other method [m] by the function [seg m] between two neighbouring samples. *)
From Coq Require Import List ZArith String Bool.
From Verif Require Import Base TimeModel InterpModel.
Import ListNotations.
Open Scope Z_scope.
Open Scope list_scope.

(** 32-40 *)
Definition valid_interpolations : list string :=
  ["step"; "linear"; "nearest"; "zero"; "slinear"; "quadratic"; "cubic"]%string.

(** a data array with the dimension time: time deltas, the attribute [time_ref] of
    the time coordinate, values *)
Record darr (A : Type) : Type := Da { a_times : list Z; a_ref : option Z; a_vals : list A }.
Arguments Da {A}. Arguments a_times {A}. Arguments a_ref {A}. Arguments a_vals {A}.

(** [self._data] with its attribute "interpolation", or an expression with
    [self._reference_time] *)
Inductive sdata (A E : Type) : Type :=
| SDisc (d : darr A) (interpolation : string)
| SExpr (e : E) (ref : option Z).
Arguments SDisc {A E}. Arguments SExpr {A E}.

(** with [self._interp_counter] *)
Record series (A E : Type) : Type := Ts { s_data : sdata A E; s_count : nat }.
Arguments Ts {A E}. Arguments s_data {A E}. Arguments s_count {A E}.

(** what the constructor accepts as [data]; a scalar quantity is a list with one
    element (147-149) *)
Inductive input (A E : Type) : Type :=
| IQuantity (l : list A)
| IArray (d : darr A)
| IExpr (e : E).
Arguments IQuantity {A E}. Arguments IArray {A E}. Arguments IExpr {A E}.

(** time.py 501-521 [as_data_array]: time deltas and [time_ref] *)
Definition as_data_array (t : time) : res (list Z * option Z) :=
  bind (as_timedelta_index t) (fun l => bind (reference_time t) (fun r => Ok (l, r))).

(** util/xarray.py 789-796 [time_ref_unset] *)
Definition time_ref_unset (ts : list Z) (ref : option Z) : list Z :=
  match ref with None => ts | Some r => map (fun t => t + r) ts end.

Section Series.
  Context {A E : Type}.
  Variable seg : string -> segment A.
  Variable ev : E -> Z -> A.

  (** util/xarray.py 814-819 and 830-849: [reset_reference_time] *)
  Definition reset_ref (d : darr A) (r : Z) : darr A :=
    match a_ref d with
    | Some r0 => Da (map (fun t => t - (r - r0)) (a_times d)) (Some r) (a_vals d)
    | None => Da (a_times d) (Some r) (a_vals d)
    end.

  (** 293-304 [time] of discrete values *)
  Definition d_time (d : darr A) : res (option time) :=
    if Nat.leb 2 (List.length (a_times d))
    then bind (mk_time (LPandas (PDeltas (a_times d))) (a_ref d)) (fun t => Ok (Some t))
    else Ok None.

  (** 269-280: the setter of [interpolation] *)
  Definition set_interpolation (d : darr A) (m : string) : res string :=
    if existsb (String.eqb m) valid_interpolations then
      bind (d_time d) (fun t => Ok (match t with None => "step"%string | Some _ => m end))
    else Err ValueError.

  (** 119-126 [_create_data_array]; sizes that do not agree raise *)
  Definition create_data_array (l : list A) (t : time) : res (darr A) :=
    bind (as_data_array t) (fun p =>
      if Nat.eqb (List.length (fst p)) (List.length l)
      then Ok (Da (fst p) (snd p) l) else Err ValueError).

  (** 42-76, 128-163 and 165-190: the constructor *)
  Definition new_series (data : input A E) (time : option tlike) (interpolation : option string)
             (ref : option Z) : res (series A E) :=
    let m := match interpolation with None => "step"%string | Some m => m end in
    match data with
    | IArray d => bind (set_interpolation d m) (fun m => Ok (Ts (SDisc d m) 0))
    | IQuantity l =>
        let x := match time with None => LPandas (PDelta 0) | Some x => x end in
        bind (mk_time x ref) (fun t =>
        bind (create_data_array l t) (fun d =>
        bind (set_interpolation d m) (fun m => Ok (Ts (SDisc d m) 0))))
    | IExpr e => Ok (Ts (SExpr e ref) 0)
    end.

  (** 306-311 [reference_time] *)
  Definition series_ref (s : series A E) : option Z :=
    match s_data s with SDisc d _ => a_ref d | SExpr _ r => r end.

  Definition method_of (m : string) : method := if String.eqb m "step" then Step else Linear.

  (** 208-220 [_interp_time_discrete]. Time deltas and time stamps cannot be
      mixed on one axis; that pandas raises an exception in this case is part of
      the model. *)
  Definition interp_discrete (d : darr A) (m : string) (t : time) : res (list A) :=
    bind (d_time d) (fun own =>
    bind (match own with
          | None => if is_absolute t
                    then bind (reference_time t) (fun r =>
                           match r with Some r => Ok (reset_ref d r) | None => Err TypeError end)
                    else Ok d
          | Some _ => Ok d
          end) (fun d =>
    bind (as_data_array t) (fun p =>
      match a_ref d, snd p with
      | Some _, None | None, Some _ => Err TypeError
      | _, _ =>
          bind (bind (interp_like (seg m) (method_of m) true
                        (combine (time_ref_unset (a_times d) (a_ref d)) (a_vals d))
                        (time_ref_unset (fst p) (snd p))) all_some)
               (fun l => Ok (map snd l))
      end))).

  (** 222-232 [_interp_time_expression] *)
  Definition interp_expression (e : E) (t : time) : res (darr A) :=
    bind (as_timedelta_index t) (fun q =>
    bind (as_data_array t) (fun p => Ok (Da (fst p) (snd p) (map (ev e) q)))).

  (** 313-362 [interp_time]; the warning is not modelled *)
  Definition interp_time (s : series A E) (x : tlike) : res (series A E) :=
    bind (mk_time x None) (fun t =>
    bind (mk_time (LTime t) (series_ref s)) (fun ti =>
    bind (match s_data s with
          | SDisc d m => bind (interp_discrete d m ti) (fun l =>
                           new_series (IQuantity l) (Some (LTime t)) (Some m) None)
          | SExpr e _ => bind (interp_expression e ti) (fun d =>
                           new_series (IArray d) None None None)
          end) (fun r => Ok (Ts (s_data r) (S (s_count s)))))).

  (** 78-103 [__eq__]: [identical] compares values, coordinates and attributes;
      expressions are compared without their reference time *)
  Variable veqb : A -> A -> bool.
  Variable eeqb : E -> E -> bool.
  Fixpoint list_eqb {B} (f : B -> B -> bool) (l m : list B) : bool :=
    match l, m with
    | [], [] => true
    | x :: l', y :: m' => f x y && list_eqb f l' m'
    | _, _ => false
    end.
  Definition series_eq (a b : series A E) : bool :=
    match s_data a, s_data b with
    | SDisc d m, SDisc d' m' =>
        list_eqb Z.eqb (a_times d) (a_times d') && opt_eqb (a_ref d) (a_ref d')
        && list_eqb veqb (a_vals d) (a_vals d') && String.eqb m m'
    | SExpr e _, SExpr e' _ => eeqb e e'
    | _, _ => false
    end.

  (** tags/core/time_series.py 20-36 [to_yaml_tree]. The keys "units" and "shape"
      are left out. Series with one value are written without time if the value
      is a scalar; only these are modelled. *)
  Inductive tree : Type :=
  | TConst (value : A)
  | TValues (t : option time) (interpolation : string) (values : list A)
  | TExpr (e : E).
  Definition to_yaml (s : series A E) : res tree :=
    match s_data s with
    | SDisc d m =>
        match a_vals d with
        | [v] => Ok (TConst v)
        | l => bind (d_time d) (fun t => Ok (TValues t m l))
        end
    | SExpr e _ => Ok (TExpr e)
    end.

  (** tags/time/time.py 13-22: values and [_time_ref] of a [Time] *)
  Definition time_io (t : time) : res time := mk_time (LPandas (t_val t)) (t_ref t).

  (** tags/core/time_series.py 38-49 [from_yaml_tree] *)
  Definition from_yaml (y : tree) : res (series A E) :=
    match y with
    | TConst v => new_series (IQuantity [v]) None None None
    | TValues t m l =>
        bind (match t with None => Ok None | Some t => bind (time_io t) (fun t => Ok (Some (LTime t))) end)
             (fun x => new_series (IQuantity l) x (Some m) None)
    | TExpr e => new_series (IExpr e) None None None
    end.
End Series.
