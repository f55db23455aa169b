(** [_check_dtype], [xr_check_coords] and [xr_check_dimensionality], weldx/util/xarray.py
    398-575, and the constraints of the classes derived from [GenericSeries],
    weldx/core/generic_series.py.

    Coordinates are one dimensional; a single value is a list of length one (numpy
    broadcasts both in the same way). Data types are numbers (by name), strings with
    a length and times with a resolution; the byte order is left out. The parsers of
    numpy and pint are parameters. *)
From Coq Require Import List String Bool Arith.
From Verif Require Import Base.
Import ListNotations.
Open Scope string_scope.
Open Scope list_scope.

Inductive dtype : Type :=
| DNum (name : string)                       (** [int64], [float32], [bool], [object] ... *)
| DStr (len : nat)                           (** [<U3] *)
| DTime (delta : bool) (resolution : string) (** [timedelta64[ns]], [datetime64] *).

(** [==] of numpy *)
Definition dtype_eqb (a b : dtype) : bool :=
  match a, b with
  | DNum x, DNum y => String.eqb x y
  | DStr x, DStr y => Nat.eqb x y
  | DTime d r, DTime d' r' => Bool.eqb d d' && String.eqb r r'
  | _, _ => false
  end.
(** [np.issubdtype] of two concrete types: they have the same scalar type *)
Definition same_scalar (a b : dtype) : bool :=
  match a, b with
  | DNum x, DNum y => String.eqb x y
  | DStr _, DStr _ => true
  | DTime d _, DTime d' _ => Bool.eqb d d'
  | _, _ => false
  end.

(** a reference: a name or a python type *)
Inductive dref : Type :=
| RName (s : string)
| RType (d : dtype).
Inductive drefs : Type :=
| DOne (r : dref)
| DMany (l : list dref).

(** [part in s] for strings *)
Definition has_part (part s : string) : bool := match index 0 part s with Some _ => true | None => false end.

Inductive unitattr (U : Type) : Type :=
| AStr (s : string)
| AUnit (u : U).
Arguments AStr {U} s.
Arguments AUnit {U} u.

Section Check.
  Context {U V : Type}.
  Context (np_dtype : string -> option dtype)   (** [np.dtype(name)] *)
          (parse : string -> res U)             (** [U_(string)] *)
          (ueqb compat : U -> U -> bool)        (** [==] and [is_compatible_with] of units *)
          (veqb : V -> V -> bool).              (** [==] of coordinate values *)

  (** [np.dtype(ref_dtype)] *)
  Definition ref_dtype (r : dref) : res dtype :=
    match r with
    | RName s => match np_dtype s with Some d => Ok d | None => Err TypeError end
    | RType d => Ok d
    end.
  Definition named_time (r : dref) : bool :=
    match r with RName s => has_part "timedelta64" s || has_part "datetime64" s | RType _ => false end.

  (** [_check_dtype], 413-427 *)
  Definition check_dtype (v : dtype) (r : dref) : res bool :=
    bind (ref_dtype r) (fun d =>
    if dtype_eqb v d then Ok true
    else if named_time r && same_scalar v d then Ok true
    else if negb (same_scalar v d && dtype_eqb d (DStr 0)) then Ok false
    else Ok true).
  (** [any(...)], 517-519 *)
  Fixpoint any_dtype (v : dtype) (l : list dref) : res bool :=
    match l with
    | [] => Ok false
    | r :: l => bind (check_dtype v r) (fun b => if b then Ok true else any_dtype v l)
    end.

  (** [U_(x)] *)
  Definition to_unit (x : unitattr U) : res U := match x with AStr s => parse s | AUnit u => Ok u end.
  (** [not units]: no unit or the empty string; objects count as true *)
  Definition falsy (x : option (unitattr U)) : bool :=
    match x with None => true | Some (AStr s) => String.eqb s "" | Some (AUnit _) => false end.

  Fixpoint all_eq (a b : list V) : bool :=
    match a, b with
    | [], [] => true
    | x :: a, y :: b => veqb x y && all_eq a b
    | _, _ => false
    end.
  (** [np.all(a == b)]: lists of length one are repeated. Other lengths do not fit;
      numpy gives False or raises ValueError, which is the error of the caller, too *)
  Definition np_all_eq (a b : list V) : bool :=
    match a, b with
    | [x], [y] => veqb x y
    | [x], _ => forallb (fun y => veqb x y) b
    | _, [y] => forallb (fun x => veqb x y) a
    | _, _ => all_eq a b
    end.

  Record coordvar : Type := Cv { cv_values : list V; cv_dtype : dtype; cv_units : option (unitattr U) }.
  Record check : Type := Ck {
    ck_optional : option bool;
    ck_values : option (list V);
    ck_dtype : option drefs;
    ck_units : option (unitattr U);
    ck_dim : option (unitattr U)
  }.

  (** lines 504-509 *)
  Definition check_values (x : coordvar) (c : check) : res unit :=
    match ck_values c with
    | Some vs => if np_all_eq (cv_values x) vs then Ok tt else Err ValueError
    | None => Ok tt
    end.
  (** lines 512-522 *)
  Definition check_types (x : coordvar) (c : check) : res unit :=
    match ck_dtype c with
    | Some t =>
        let l := match t with DOne r => [r] | DMany l => l end in
        bind (any_dtype (cv_dtype x) l) (fun b => if b then Ok tt else Err TypeError)
    | None => Ok tt
    end.
  (** lines 524-530 *)
  Definition check_units (x : coordvar) (c : check) : res unit :=
    match ck_units c with
    | Some r =>
        if falsy (cv_units x) then Err ValueError
        else match cv_units x with
             | None => Err ValueError
             | Some a => bind (to_unit a) (fun u => bind (to_unit r) (fun v =>
                         if ueqb u v then Ok tt else Err ValueError))
             end
    | None => Ok tt
    end.
  (** lines 532-541 *)
  Definition check_dim (x : coordvar) (c : check) : res unit :=
    match ck_dim c with
    | Some r =>
        match cv_units x with
        | None => Err DimensionalityError
        | Some a => bind (to_unit a) (fun u => bind (to_unit r) (fun v =>
                    if compat u v then Ok tt else Err DimensionalityError))
        end
    | None => Ok tt
    end.
  (** the body of the loop, 493-541 *)
  Definition check_coord (coords : dict coordvar) (k : string) (c : check) : res unit :=
    match dget k coords with
    | None => match ck_optional c with Some true => Ok tt | _ => Err KeyError end
    | Some x =>
        bind (check_values x c) (fun _ => bind (check_types x c) (fun _ =>
        bind (check_units x c) (fun _ => check_dim x c)))
    end.
  (** [xr_check_coords], 489-543; [True] is [Ok tt] *)
  Fixpoint check_coords (coords : dict coordvar) (ref : dict check) : res unit :=
    match ref with
    | [] => Ok tt
    | (k, c) :: r => bind (check_coord coords k c) (fun _ => check_coords coords r)
    end.

  (** [xr_check_dimensionality], 561-574, of a data array with the given units *)
  Definition check_dimensionality (units : option U) (r : option (unitattr U)) : res unit :=
    match r with
    | None => Ok tt
    | Some r =>
        bind (to_unit r) (fun v =>
        match units with
        | None => Err DimensionalityError
        | Some u => if compat u v then Ok tt else Err DimensionalityError
        end)
    end.

  (** ** Derived series, weldx/core/generic_series.py

      The attributes of a class, 29-84. [k_base] marks [GenericSeries] itself. *)
  Record cls : Type := Cls {
    k_base : bool;
    k_allowed_vars : list string;
    k_required_vars : list string;
    k_required_dims : list string;
    k_dim_units : dict U;
    k_dim_coords : dict (list V);
    k_unit : option U
  }.

  (** [set(req).issubset(data)] *)
  Definition subset (a b : list string) : bool := forallb (fun x => smem x b) a.
  (** [_check_req_items], 670-673 *)
  Definition check_req (req data : list string) : res unit := if subset req data then Ok tt else Err ValueError.

  (** a discrete series *)
  Record darray : Type := Da { da_dims : list string; da_coords : dict coordvar; da_units : option U }.

  Section Order.
    (** the order in which python goes through a set *)
    Context (order : list string -> list string).

    (** lines 690 and 692-697 *)
    Definition ref_keys (k : cls) (dims : list string) : list string :=
      order (nodup string_dec (filter (fun x => smem x dims) (dkeys (k_dim_units k)) ++ dkeys (k_dim_coords k))).
    Definition ref_of (k : cls) (x : string) : check :=
      Ck None (dget x (k_dim_coords k)) None None (option_map AUnit (dget x (k_dim_units k))).
    (** [_check_constraints_discrete], 676-698 *)
    Definition constraints_discrete (k : cls) (a : darray) : res unit :=
      if k_base k then Ok tt
      else
        bind (check_req (k_required_dims k) (da_dims a)) (fun _ =>
        bind (check_dimensionality (da_units a) (option_map AUnit (k_unit k))) (fun _ =>
        check_coords (da_coords a) (map (fun x => (x, ref_of k x)) (ref_keys k (da_dims a))))).
  End Order.

  (** a parameter of an expression: a quantity has the dimensions "dim_0" ... of
      [xr.DataArray(v)] and no coordinates *)
  Record param : Type := Pa {
    pa_quantity : bool;
    pa_shape : list (string * nat);   (** dimensions and their lengths *)
    pa_coords : dict coordvar;
    pa_unit : U
  }.
  Record expr : Type := Ex { e_free : list string; e_params : dict param }.
  (** [get_variable_names], math_expression.py 229-242 *)
  Definition variables (e : expr) : list string := filter (fun s => negb (dmem s (e_params e))) (e_free e).

  (** [_init_get_updated_dims], 292-297 *)
  Definition updated_dims (e : expr) (dims : dict string) : dict string :=
    map (fun v => (v, match dget v dims with Some d => d | None => v end)) (variables e).

  Context (dimensionless : U).
  (** [_init_get_updated_units], 306-320: the required units, the check, the missing units *)
  Fixpoint add_required (e : expr) (req units : dict U) : dict U :=
    match req with
    | [] => units
    | (k, v) :: r =>
        add_required e r (if negb (dmem k units) && negb (dmem k (e_params e)) then dset k v units else units)
    end.
  Fixpoint add_missing (vars : list string) (units : dict U) : dict U :=
    match vars with
    | [] => units
    | v :: r => add_missing r (if dmem v units then units else dset v dimensionless units)
    end.
  Definition updated_units (k : cls) (e : expr) (units : dict U) : res (dict U) :=
    let u := add_required e (k_dim_units k) units in
    if forallb (fun x => smem (fst x) (variables e)) u then Ok (add_missing (variables e) u) else Err KeyError.

  (** [_get_expression_dims], 582-597; a set *)
  Definition expression_dims (e : expr) (var_dims : dict string) : list string :=
    map snd var_dims ++
    flat_map (fun p => if forallb (fun d => Nat.ltb 0 (snd d)) (pa_shape (snd p)) then map fst (pa_shape (snd p)) else [])
             (e_params e).

  (** [_check_units_and_coords], 745-758, the units of the dimensions. The error for a
      missing unit calls [U_(None)], which is a TypeError. *)
  Fixpoint check_dim_units (e : expr) (var_units req : dict U) : res unit :=
    match req with
    | [] => Ok tt
    | (k, v) :: r =>
        let d := match dget k var_units with
                 | Some u => Some u
                 | None => option_map pa_unit (dget k (e_params e))
                 end in
        match d with
        | None => Err TypeError
        | Some u => if compat u v then check_dim_units e var_units r else Err DimensionalityError
        end
    end.
  (** 767-770 *)
  Fixpoint check_params (k : string) (v : list V) (ps : dict param) : res unit :=
    match ps with
    | [] => Ok tt
    | (_, p) :: r =>
        bind (if negb (pa_quantity p) && dmem k (pa_coords p)
              then check_coords (pa_coords p) [(k, Ck None (Some v) None None None)]
              else Ok tt) (fun _ => check_params k v r)
    end.
  (** 760-770 *)
  Fixpoint check_dim_coords (e : expr) (var_dims : dict string) (req : dict (list V)) : res unit :=
    match req with
    | [] => Ok tt
    | (k, v) :: r =>
        if dmem k var_dims then Err ValueError
        else bind (check_params k v (e_params e)) (fun _ => check_dim_coords e var_dims r)
    end.
  (** [_check_constraints_expression], 701-731, with 734-743 *)
  Definition constraints_expression (k : cls) (e : expr) (var_dims : dict string) (var_units : dict U) (eu : U) : res unit :=
    if k_base k then Ok tt
    else
      bind (match k_allowed_vars k with
            | [] => Ok tt
            | al => if subset (variables e) al then Ok tt else Err ValueError
            end) (fun _ =>
      bind (check_req (k_required_vars k) (variables e)) (fun _ =>
      bind (check_req (k_required_dims k) (expression_dims e var_dims)) (fun _ =>
      bind (match k_unit k with
            | None => Ok tt
            | Some r => if compat eu r then Ok tt else Err DimensionalityError
            end) (fun _ =>
      bind (check_dim_units e var_units (k_dim_units k)) (fun _ =>
      check_dim_coords e var_dims (k_dim_coords k)))))).

  (** ** The test evaluations, [_test_expr], 359-403

      [scalar] is the evaluation with the value one for every variable, reduced to the
      units of its result. [arrays] is the evaluation with arrays without coordinates,
      given by their dimensions and lengths. *)
  Section Test.
    Context (scalar : expr -> dict U -> res U) (arrays : expr -> list (string * nat) -> res unit).

    (** 386-390 *)
    Fixpoint array_params (dims : dict string) (units : dict U) (n : nat) : res (list (string * nat)) :=
      match units with
      | [] => Ok []
      | (k, _) :: r =>
          match dget k dims with
          | None => Err KeyError
          | Some d => bind (array_params dims r (S n)) (fun l => Ok ((d, n) :: l))
          end
      end.
    Definition test_arrays (e : expr) (dims : dict string) (units : dict U) (offset : nat) : res unit :=
      bind (array_params dims units (2 + offset)) (arrays e).
    (** a ValueError of the first evaluation is ignored; if the others succeed, the
        variable [expr_units] is not set (UnboundLocalError, a NameError) *)
    Definition test_expr (e : expr) (dims : dict string) (units : dict U) : res U :=
      bind (match scalar e units with
            | Ok u => Ok (Some u)
            | Err ValueError => Ok None
            | Err x => Err x
            end) (fun eu =>
      bind (test_arrays e dims units 0) (fun _ =>
      bind (test_arrays e dims units 1) (fun _ =>
      match eu with Some u => Ok u | None => Err NameError end))).

    Record eseries : Type := Se { se_expr : expr; se_dims : dict string; se_vunits : dict U; se_unit : U }.
    (** [_init_expression], 340-356; [bidict] refuses equal values with an error of its
        own, here RuntimeError *)
    Definition init_expression (k : cls) (e : expr) (dims : dict string) (units : dict U) : res eseries :=
      if Nat.eqb (List.length (variables e)) 0 then Err ValueError
      else
        let d := updated_dims e dims in
        bind (updated_units k e units) (fun u =>
        bind (test_expr e d u) (fun eu =>
        bind (constraints_expression k e d u eu) (fun _ =>
        if Nat.eqb (List.length (nodup string_dec (map snd d))) (List.length d)
        then Ok (Se e d u eu) else Err RuntimeError))).
  End Test.
End Check.

(** [SpatialSeries], weldx/core/spatial_series.py 18-29: coordinate values are strings *)
Definition spatial_series {U : Type} (dimensionless : U) : @cls U string :=
  Cls false [] ["s"] ["s"; "c"] [("s", dimensionless)] [("c", ["x"; "y"; "z"])] None.
