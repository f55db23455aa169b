(** Dimensions and coordinates of xarray objects: [_swap_list_items] and
    [xr_transpose_matrix_data] (weldx/util/xarray.py 59-103), coordinates as quantities
    (229-252, 851-865) and units as texts or objects (882-897, 899-912). *)
From Coq Require Import List String Bool Arith.
From Verif Require Import Base.
Import ListNotations.
Open Scope string_scope.

(** [l.index(x)] *)
Fixpoint index (x : string) (l : list string) : res nat :=
  match l with
  | [] => Err ValueError
  | y :: r => if String.eqb x y then Ok 0 else bind (index x r) (fun i => Ok (S i))
  end.
(** [l[i] = x] for valid positions *)
Fixpoint set_nth {A : Type} (i : nat) (x : A) (l : list A) : list A :=
  match l, i with
  | [], _ => []
  | _ :: r, 0 => x :: r
  | y :: r, S i => y :: set_nth i x r
  end.
(** [_swap_list_items], 77-80 *)
Definition swap_list_items (arr : list string) (i1 i2 : string) : res (list string) :=
  bind (index i1 arr) (fun a =>
  bind (index i2 arr) (fun b =>
  Ok (set_nth a (nth b arr "") (set_nth b (nth a arr "") arr)))).

(** DataArrays: dimensions, shape and the value for each list of positions. *)
Record data_array (F : Type) : Type := DA { dims : list string; shape : list nat; data : list nat -> F }.
Arguments DA {F}. Arguments dims {F}. Arguments shape {F}. Arguments data {F}.
Definition position (x : string) (l : list string) : nat := match index x l with Ok i => i | Err _ => 0 end.
(** [da.transpose] with the names as arguments, for names that are a permutation of the dimensions *)
Definition transpose {F : Type} (da : data_array F) (names : list string) : data_array F :=
  DA names (map (fun d => nth (position d (dims da)) (shape da) 0) names)
     (fun idx => data da (map (fun d => nth (position d names) idx 0) (dims da))).
(** [da.copy(data=...)]: the shape has to be the same *)
Definition copy_data {F : Type} (da new : data_array F) : res (data_array F) :=
  if list_eq_dec Nat.eq_dec (shape new) (shape da) then Ok (DA (dims da) (shape da) (data new))
  else Err ValueError.
(** [xr_transpose_matrix_data], 101-103 *)
Definition transpose_matrix {F : Type} (da : data_array F) (dim1 dim2 : string) : res (data_array F) :=
  bind (swap_list_items (dims da) dim1 dim2) (fun i => copy_data da (transpose da i)).

(** ** Coordinates *)
Section Coords.
  Context {D U : Type}.
  (** [U_(text)] and [str(unit)] of pint *)
  Variable parse : string -> res U.
  Variable print : U -> string.

  (** the attribute "units": absent, a text or a unit *)
  Inductive units_attr : Type := NoUnits | UText (s : string) | UUnit (u : U).
  Record coord : Type := Co { c_dims : list string; c_data : D; c_units : units_attr; c_attrs : dict string }.
  Inductive value : Type := Plain (d : D) | Quantity (d : D) (u : U).
  Definition to_unit (a : units_attr) : res (option U) :=
    match a with
    | NoUnits => Ok None
    | UText s => bind (parse s) (fun u => Ok (Some u))
    | UUnit u => Ok (Some u)
    end.
  Fixpoint dict_map {A B : Type} (f : A -> res B) (d : dict A) : res (dict B) :=
    match d with
    | [] => Ok []
    | (k, v) :: r => bind (f v) (fun w => bind (dict_map f r) (fun l => Ok ((k, w) :: l)))
    end.
  (** [coordinates_as_quantities], 851-857, and [_get_coordinate_quantities], 229-238; a
      missing or empty text gives plain data *)
  Definition as_value (c : coord) : res value :=
    match c_units c with
    | NoUnits => Ok (Plain (c_data c))
    | UText s => if String.eqb s "" then Ok (Plain (c_data c))
                 else bind (parse s) (fun u => Ok (Quantity (c_data c) u))
    | UUnit u => Ok (Quantity (c_data c) u)
    end.
  Definition coordinates_as_quantities (cs : dict coord) : res (dict value) := dict_map as_value cs.
  (** [indexes_as_quantities], 859-865: a pandas index has no [attrs] *)
  Definition indexes_as_quantities (indexes : dict D) : res (dict value) :=
    dict_map (fun _ => Err AttributeError) indexes.
  (** [_coordinates_from_quantities], 241-252, and what xarray makes of one-dimensional
      entries: the name is the dimension *)
  Definition from_quantities (q : dict value) : dict coord :=
    map (fun p => (fst p, match snd p with
      | Quantity d u => Co [fst p] d (UUnit u) []
      | Plain d => Co [fst p] d NoUnits []
      end)) q.
  (** [quantify_coords], 882-888 *)
  Definition quantify_coords (cs : dict coord) : res (dict coord) :=
    dict_map (fun c => bind (to_unit (c_units c)) (fun u =>
      Ok (Co (c_dims c) (c_data c) (match u with Some u => UUnit u | None => NoUnits end) (c_attrs c)))) cs.
  (** [dequantify_coords], 890-897 *)
  Definition dequantify_coords (cs : dict coord) : res (dict coord) :=
    dict_map (fun c => bind (to_unit (c_units c)) (fun u =>
      Ok (Co (c_dims c) (c_data c) (match u with Some u => UText (print u) | None => NoUnits end) (c_attrs c)))) cs.
  (** [units], 899-912: the unit of quantities, else the attribute *)
  Definition units (quantity : option U) (attr : units_attr) : res (option U) :=
    match quantity with
    | Some u => Ok (Some u)
    | None => to_unit attr
    end.
End Coords.
Arguments units_attr : clear implicits. Arguments coord : clear implicits. Arguments value : clear implicits.
