(** [SeriesParameter] (weldx/core/generic_series.py 816-902), its use for the coordinates of
    discrete series (270-290) and [_format_expression_params] (407-432). *)
From Coq Require Import List String Bool Arith.
From Verif Require Import Base.
Import ListNotations.
Open Scope string_scope.

Section Param.
  (** values, units, attributes besides the unit, and other python objects *)
  Context {F U A O : Type}.
  (** [Q_] of other objects *)
  Variable quantity_of : O -> res (list nat * list F * U).

  Record quantity : Type := Qt { q_shape : list nat; q_vals : list F; q_unit : U }.
  (** DataArrays; the unit is that of a quantity or of the attribute (C120) *)
  Record darray : Type := Da { d_dims : list string; d_shape : list nat; d_vals : list F; d_unit : option U;
                               d_attrs : list A }.
  Inductive raw : Type := RQuantity (q : quantity) | RArray (d : darray) | ROther (o : O).
  Inductive stored : Type := VQ (q : quantity) | VA (d : darray).
  Record param : Type := Pa { p_values : stored; p_dim : option string; p_symbol : option string }.
  Inductive input : Type := InParam (p : param) | InTuple (v : raw) (dim : option string) | InRaw (v : raw).

  (** [Q_(v)]; pint refuses DataArrays *)
  Definition to_quantity (v : raw) : res quantity :=
    match v with
    | RQuantity q => Ok q
    | RArray _ => Err TypeError
    | ROther o => bind (quantity_of o) (fun q => Ok (Qt (fst (fst q)) (snd (fst q)) (snd q)))
    end.
  (** [__post_init__], 837-853. The last test (851) never applies, as [Q_] gives quantities. *)
  Definition new_param (v : input) (dim symbol : option string) : res param :=
    match v with
    | InParam p => Ok (Pa (p_values p) (p_dim p) (p_symbol p))
    | InTuple v d => bind (to_quantity v) (fun q => Ok (Pa (VQ q) d symbol))
    | InRaw (RArray d) => Ok (Pa (VA d) dim symbol)
    | InRaw v => bind (to_quantity v) (fun q => Ok (Pa (VQ q) dim symbol))
    end.
  (** 855-860 *)
  Definition param_units (p : param) : option U :=
    match p_values p with VQ q => Some (q_unit q) | VA d => d_unit d end.
  (** the default names of xarray for dimensions: "dim_0", ... *)
  Variable default_dim : nat -> string.
  (** [xr.DataArray(v, dims=dim)]: one name only fits one dimension *)
  Definition quantity_to_xarray (q : quantity) (dim : option string) : res darray :=
    match dim with
    | None => Ok (Da (map default_dim (seq 0 (List.length (q_shape q)))) (q_shape q) (q_vals q) (Some (q_unit q)) [])
    | Some d => match q_shape q with
                | [n] => Ok (Da [d] [n] (q_vals q) (Some (q_unit q)) [])
                | _ => Err ValueError
                end
    end.
  (** [data_array], 862-871 *)
  Definition param_array (p : param) : res darray :=
    match p_values p with
    | VA d => Ok d
    | VQ q => let q := match q_shape q with [] => Qt [1] (q_vals q) (q_unit q) | _ => q end in
              quantity_to_xarray q (p_dim p)
    end.
  (** [quantity], 873-878: shape, values and unit; an array without unit stays without *)
  Definition param_quantity (p : param) : list nat * list F * option U :=
    match p_values p with
    | VQ q => (q_shape q, q_vals q, Some (q_unit q))
    | VA d => (d_shape d, d_vals d, d_unit d)
    end.
  (** [coord_tuple], 880-892: the third item is a dictionary with the unit, a unit or None *)
  Inductive third : Type := TDict (u : U) | TUnit (u : U) | TNone.
  Definition coord_tuple (p : param) : option string * list nat * list F * third :=
    match p_values p with
    | VQ q => (p_dim p, q_shape q, q_vals q, TDict (q_unit q))
    | VA d => (p_dim p, d_shape d, d_vals d, match d_unit d with Some u => TUnit u | None => TNone end)
    end.
  (** What xarray makes of such a tuple as coordinate: attributes must be a dictionary or
      None, the dimension must fit. Result: dimension, values, unit. *)
  Definition as_coord (t : option string * list nat * list F * third) : res (string * list F * option U) :=
    let '(dim, shape, vals, x) := t in
    match dim, shape with
    | Some d, [_] => match x with
                     | TDict u => Ok (d, vals, Some u)
                     | TNone => Ok (d, vals, None)
                     | TUnit _ => Err TypeError
                     end
    | _, _ => Err ValueError
    end.
  (** 278-282 for one coordinate *)
  Definition series_coord (k : string) (v : input) : res (string * list F * option U) :=
    bind (new_param v (Some k) None) (fun p => as_coord (coord_tuple p)).

  (** ** Parameters of expressions, 407-432 *)
  Inductive formatted : Type := FTuple (q : quantity) (dim : option string) | FQuantity (q : quantity) | FArray (d : darray).
  Definition opt_eqb (a b : option string) : bool :=
    match a, b with
    | None, None => true
    | Some x, Some y => String.eqb x y
    | _, _ => false
    end.
  Definition format_param (p : param) : formatted :=
    match p_values p with
    | VQ q => if opt_eqb (p_dim p) (p_symbol p) then FQuantity q else FTuple q (p_dim p)
    | VA d => FArray d
    end.
  Fixpoint new_params (l : dict input) : res (list param) :=
    match l with
    | [] => Ok []
    | (k, v) :: r => bind (new_param v None (Some k)) (fun p => bind (new_params r) (fun ps => Ok (p :: ps)))
    end.
  (** dictionaries with symbols (possibly None) as keys *)
  Fixpoint set_symbol (k : option string) (v : formatted) (d : list (option string * formatted)) :=
    match d with
    | [] => [(k, v)]
    | (k', v') :: r => if opt_eqb k k' then (k', v) :: r else (k', v') :: set_symbol k v r
    end.
  Definition format_params (l : dict input) : res (list (option string * formatted)) :=
    bind (new_params l) (fun ps =>
    if existsb (fun p => match param_units p with None => true | Some _ => false end) ps then Err ValueError
    else Ok (fold_left (fun d p => set_symbol (p_symbol p) (format_param p) d) ps [])).
End Param.
Arguments quantity : clear implicits. Arguments darray : clear implicits. Arguments raw : clear implicits.
Arguments stored : clear implicits. Arguments param : clear implicits. Arguments input : clear implicits.
Arguments formatted : clear implicits. Arguments third : clear implicits.
