(** Saving and loading of [GenericSeries].

    Models [GenericSeriesConverter] (weldx/tags/core/generic_series.py) with
    [_get_coordinate_quantities] (weldx/util/xarray.py 229-238), the schema
    core/generic_series-0.1.0 as far as coordinates are concerned and the part of the
    constructor that is used on loading ([_init_discrete], weldx/core/generic_series.py
    270-290; for expressions [init_expression] of [CheckModel]).

    Simplifications: the expression itself and its parameters are saved and restored by
    sympy and other converters, so that the loaded expression is an argument; the test of
    the units as key of a coordinate is [truthy] (the empty text is false). No proofs in
    this file. *)
From Coq Require Import List String Bool Arith.
From Verif Require Import Base CheckModel SeriesParamModel.
Import ListNotations.
Open Scope string_scope.

Section Expr.
  Context {U : Type}.

  (** [GenericSeriesFreeDimension] (11-14) *)
  Record free_dim : Type := Fd { fd_units : U; fd_symbol : option string }.

  (** The loop of [to_yaml_tree] (34-44): [variable_names] are the keys of
      [variable_units]. *)
  Fixpoint save_dims (vunits : dict U) (sdims : dict string) (acc : dict free_dim) : dict free_dim :=
    match vunits with
    | [] => acc
    | (var, u) :: r =>
        save_dims r sdims
          (match dget var sdims with
           | Some dim => if String.eqb dim var then dset var (Fd u None) acc else dset dim (Fd u (Some var)) acc
           | None => dset var (Fd u None) acc
           end)
    end.
  (** The loop of [from_yaml_tree] (63-71): the units and the dimensions. *)
  Fixpoint load_dims (fds : dict free_dim) (units : dict U) (dims : dict string) : dict U * dict string :=
    match fds with
    | [] => (units, dims)
    | (k, v) :: r =>
        match fd_symbol v with
        | None => load_dims r (dset k (fd_units v) units) dims
        | Some sym => load_dims r (dset sym (fd_units v) units) (dset sym k dims)
        end
    end.

  Context {W : Type}.
  Variable dimensionless : U.
  Variables (ueqb compat : U -> U -> bool) (np_dtype : string -> option dtype) (parse : string -> res U)
            (veqb : W -> W -> bool).
  Variable scalar : @expr U W -> dict U -> res U.
  Variable arrays : @expr U W -> list (string * nat) -> res unit.

  (** [GenericSeries] itself has no constraints *)
  Definition generic : @cls U W := Cls true [] [] [] [] [] None.
  (** 52-57 and 60-81; no dimensions at all ([None], 73-74) act like an empty dictionary *)
  Definition reload_expression (e : @expr U W) (s : @eseries U W) : res (@eseries U W) :=
    let '(units, dims) := load_dims (save_dims (se_vunits s) (se_dims s) []) [] [] in
    init_expression np_dtype parse ueqb compat veqb dimensionless scalar arrays generic e dims units.
End Expr.
Arguments free_dim : clear implicits.

Section Discrete.
  (** values, units and attributes *)
  Context {F U A : Type}.
  Variable truthy : U -> bool.

  (** A coordinate: dimensions, shape, values and unit. *)
  Record coord : Type := Co { c_dims : list string; c_shape : list nat; c_vals : list F; c_unit : option U }.
  Record dseries : Type := Ds {
    s_data : quantity F U; s_dims : list string; s_coords : dict coord; s_interp : string; s_attrs : list A }.

  (** [_get_coordinate_quantities] (xarray.py 229-238): a quantity or an array *)
  Inductive saved_coord : Type := SQuantity (q : quantity F U) | SArray (shape : list nat) (vals : list F).
  Definition coord_quantity (c : coord) : saved_coord :=
    match c_unit c with
    | Some u => if truthy u then SQuantity (Qt (c_shape c) (c_vals c) u) else SArray (c_shape c) (c_vals c)
    | None => SArray (c_shape c) (c_vals c)
    end.
  Record node : Type := Node {
    n_data : quantity F U; n_dims : list string; n_coords : dict saved_coord; n_interp : string }.
  (** 52-57, with the schema: all coordinates are quantities *)
  Definition save_discrete (s : dseries) : res node :=
    let cs := map (fun kc => (fst kc, coord_quantity (snd kc))) (s_coords s) in
    if forallb (fun kc => match snd kc with SQuantity _ => true | SArray _ _ => false end) cs
    then Ok (Node (s_data s) (s_dims s) cs (s_interp s)) else Err ValidationError.

  (** [self._interpolation = "linear" if interpolation is None else interpolation] is not
      needed, because the name is always saved. The coordinates (278-282), then
      [xr.DataArray(data, dims, coords)]: the sizes must fit. *)
  Fixpoint size_of (dims : list string) (shape : list nat) (d : string) : option nat :=
    match dims, shape with
    | x :: dims', n :: shape' => if String.eqb x d then Some n else size_of dims' shape' d
    | _, _ => None
    end.
  Definition no_quantity (o : Empty_set) : res (list nat * list F * U) := match o with end.
  Fixpoint load_coords (size : string -> option nat) (cs : dict saved_coord) : res (dict coord) :=
    match cs with
    | [] => Ok []
    | (k, SArray _ _) :: _ => Err ValidationError
    | (k, SQuantity q) :: r =>
        bind (series_coord (A := A) no_quantity k (InRaw (RQuantity q))) (fun c =>
        let '(d, vals, u) := c in
        if match size d with Some n => Nat.eqb n (List.length vals) | None => false end
        then bind (load_coords size r) (fun l => Ok ((k, Co [d] [List.length vals] vals u) :: l)) else Err ValueError)
    end.
  Definition load_discrete (n : node) : res dseries :=
    if Nat.eqb (List.length (n_dims n)) (List.length (q_shape (n_data n))) then
      bind (load_coords (size_of (n_dims n) (q_shape (n_data n))) (n_coords n)) (fun cs =>
      Ok (Ds (n_data n) (n_dims n) cs (n_interp n) []))
    else Err ValueError.
  Definition reload_discrete (s : dseries) : res dseries := bind (save_discrete s) load_discrete.
End Discrete.
Arguments dseries : clear implicits. Arguments coord : clear implicits.
