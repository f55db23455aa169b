(** Saving and loading variables, DataArrays and Datasets: [VariableConverter]
    (weldx/tags/core/common_types.py 36-120), [XarrayDataArrayConverter]
    (weldx/tags/core/data_array.py 20-46) and [XarrayDatasetConverter]
    (weldx/tags/core/dataset.py 13-40). *)
From Coq Require Import List String Bool ZArith.
From Verif Require Import Base.
Import ListNotations.
Open Scope string_scope.

Section Var.
  (** units and values of attributes *)
  Context {U A : Type}.
  (** the dtype that numpy gives to the python number [x.item()] of a scalar [x] *)
  Variable item_dtype : string -> string.

  (** dtypes: those for dates and time deltas (with unit), and others *)
  Inductive dtype : Type := DtTime (s : string) | DtOther (s : string).
  Definition int64 : dtype := DtOther "<i8".
  (** arrays; the values are numbers, for times counted in the unit of the dtype *)
  Record nd : Type := Nd { dt : dtype; shp : list nat; vals : list Z }.
  (** data of a Variable: arrays and quantities; plain numbers appear after loading *)
  Inductive content : Type := CArr (a : nd) | CNum (dt : string) (z : Z).
  Record variable : Type := Va { v_name : string; v_dims : list string; v_data : content; v_units : option U;
                                 v_attrs : option (dict A) }.
  (** the tree; [None] as attributes is not written by asdf *)
  Record tree : Type := Tr { t_name : string; t_dims : list string; t_dtype : dtype; t_data : content;
                             t_units : option U; t_attrs : option (dict A) }.

  (** [convert_time_dtypes], 58-79 *)
  Definition convert_time_dtypes (a : nd) : nd :=
    match dt a with DtTime _ => Nd int64 (shp a) (vals a) | DtOther _ => a end.
  (** [to_yaml_tree], 81-103; numbers have no [dtype] *)
  Definition to_tree (v : variable) : res tree :=
    match v_data v with
    | CNum _ _ => Err AttributeError
    | CArr a =>
        let d := convert_time_dtypes a in
        let d' := match shp d, vals d with
                  | [], z :: _ => match dt d with DtOther s => CNum (item_dtype s) z | DtTime s => CNum s z end
                  | _, _ => CArr d
                  end in
        Ok (Tr (v_name v) (v_dims v) (dt a) d' (v_units v)
               (match v_attrs v with Some (p :: l) => Some (p :: l) | _ => None end))
    end.
  (** [from_yaml_tree], 105-120 *)
  Definition from_tree (t : tree) : variable :=
    let d := match t_dtype t with
             | DtTime s => match t_data t with
                           | CArr a => CArr (Nd (DtTime s) (shp a) (vals a))
                           | CNum _ z => CArr (Nd (DtTime s) [] [z])
                           end
             | DtOther _ => t_data t
             end in
    Va (t_name t) (t_dims t) d (t_units t) (t_attrs t).

  (** ** DataArrays and Datasets *)
  (** one array with dimensions, unit and attributes *)
  Record xvar : Type := Xv { x_dims : list string; x_data : nd; x_units : option U; x_attrs : dict A }.
  Record xarray : Type := Xa { xa_name : option string; xa_data : xvar; xa_coords : dict xvar }.
  Record dataset : Type := Ds { ds_vars : dict xvar; ds_coords : dict xvar; ds_attrs : dict A }.
  Definition to_variable (name : string) (x : xvar) : variable :=
    Va name (x_dims x) (CArr (x_data x)) (x_units x) (Some (x_attrs x)).
  (** xarray makes arrays of numbers and empty attributes of [None] *)
  Definition of_variable (v : variable) : xvar :=
    Xv (v_dims v) (match v_data v with CArr a => a | CNum s z => Nd (DtOther s) [] [z] end) (v_units v)
       (match v_attrs v with Some d => d | None => [] end).
  Fixpoint save_all (d : dict xvar) : res (list tree) :=
    match d with
    | [] => Ok []
    | (k, x) :: r => bind (to_tree (to_variable k x)) (fun t => bind (save_all r) (fun l => Ok (t :: l)))
    end.
  (** a dictionary comprehension over the loaded variables *)
  Definition load_all (l : list tree) : dict xvar :=
    fold_left (fun d t => dset (v_name (from_tree t)) (of_variable (from_tree t)) d) l [].

  (** data_array.py 20-35: attributes, coordinates, data *)
  Definition save_array (a : xarray) : res (dict A * list tree * tree) :=
    bind (save_all (xa_coords a)) (fun cs =>
    bind (to_tree (Va "data" (x_dims (xa_data a)) (CArr (x_data (xa_data a))) (x_units (xa_data a)) (Some [])))
         (fun d => Ok (x_attrs (xa_data a), cs, d))).
  (** 37-46 *)
  Definition load_array (t : dict A * list tree * tree) : xarray :=
    let '(at_, cs, d) := t in
    let x := of_variable (from_tree d) in
    Xa None (Xv (x_dims x) (x_data x) (x_units x) at_) (load_all cs).
  (** dataset.py 13-34, without the dimensions, which are not read *)
  Definition save_dataset (d : dataset) : res (dict A * list tree * list tree) :=
    bind (save_all (ds_coords d)) (fun cs => bind (save_all (ds_vars d)) (fun vs => Ok (ds_attrs d, cs, vs))).
  (** 36-40 *)
  Definition load_dataset (t : dict A * list tree * list tree) : dataset :=
    let '(at_, cs, vs) := t in Ds (load_all vs) (load_all cs) at_.
End Var.
Arguments variable : clear implicits. Arguments tree : clear implicits. Arguments xvar : clear implicits.
Arguments xarray : clear implicits. Arguments dataset : clear implicits.
