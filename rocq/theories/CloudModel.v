(** Point clouds: [SpatialData] (weldx/geometry.py 2654-2977) without triangulation (see
    [MeshModel]) and plots, the part of [xr_3d_vector] (weldx/util/xarray.py 577-631) it
    uses, and [SpatialDataConverter] (weldx/tags/core/geometry/spatial_data.py) with its
    schemas.

    Values, units and labels of coordinates are arbitrary. Arrays are functions of their
    indices, DataArrays of one index for each name of a dimension. Simplifications:
    coordinates of DataArrays have the dimension of their name; the conversion of times is
    left out; loading of DataArrays restores them; NaN does not occur. No proofs in this
    file. *)
From Coq Require Import List String Bool Arith.
From Verif Require Import Base.
Import ListNotations.
Open Scope string_scope.

Section Cloud.
  (** magnitudes, units, labels of coordinates, attributes *)
  Context {F U L A : Type}.
  Variable leb : F -> F -> bool.
  (** [is_compatible_with(mm)], [Quantity.to] and the unit mm *)
  Variable is_length : U -> bool.
  Variable to : U -> U -> F -> F.
  Variable mm : U.
  Variable xyz : list L.

  (** Raw data: shape, values, and the unit of a quantity. *)
  Record arr : Type := Arr { a_shape : list nat; a_val : list nat -> F; a_unit : option U }.
  Definition index : Type := string -> nat.
  (** A DataArray: dimensions with sizes, values, unit of the data, coordinates, and
      whether "units" is one of its attributes. *)
  Record darr : Type := Da {
    d_dims : list (string * nat); d_val : index -> F; d_unit : option U; d_coords : dict (list L); d_attr : bool }.
  (** Triangles: shape and indices; [np.array(triangles, dtype="uint")] has uint64. *)
  Inductive dtype : Type := Uint32 | Uint64 | OtherInt.
  Record tris : Type := Tris { t_shape : list nat; t_rows : list (list nat); t_type : dtype }.
  Record cloud : Type := Cloud { s_coords : darr; s_tris : option tris; s_attrs : option A }.

  Definition names (d : darr) : list string := map fst (d_dims d).
  Fixpoint size (ds : list (string * nat)) (k : string) : option nat :=
    match ds with [] => None | (x, n) :: r => if String.eqb x k then Some n else size r k end.

  (** [xr.DataArray(data, dims, coords)]: the numbers of dimensions and the sizes of the
      coordinates must fit *)
  Definition new_array (a : arr) (dims : list string) (coords : dict (list L)) : res darr :=
    if Nat.eqb (List.length dims) (List.length (a_shape a)) then
      let ds := combine dims (a_shape a) in
      if forallb (fun kc => match size ds (fst kc) with Some n => Nat.eqb n (List.length (snd kc)) | None => false end) coords
      then Ok (Da ds (fun e => a_val a (map e dims)) (a_unit a) coords false) else Err ValueError
    else Err ValueError.
  (** [xr_3d_vector(data, time, add_dims=["n"])], 604-631 *)
  Definition vector3 (a : arr) (time : option (list L)) : res darr :=
    let time := if Nat.eqb (List.length (a_shape a)) 1 then None else time in
    match time with
    | None => new_array a ["n"; "c"] [("c", xyz)]
    | Some t => new_array a ["time"; "n"; "c"] [("c", xyz); ("time", t)]
    end.
  (** [transpose(..., "n", "c")] *)
  Definition order (d : darr) : res darr :=
    match size (d_dims d) "n", size (d_dims d) "c" with
    | Some n, Some c =>
        Ok (Da (filter (fun x => negb (String.eqb (fst x) "n" || String.eqb (fst x) "c")) (d_dims d) ++ [("n", n); ("c", c)])%list
               (d_val d) (d_unit d) (d_coords d) (d_attr d))
    | _, _ => Err ValueError
    end.

  (** The arguments of the constructor. *)
  Inductive points : Type := Raw (a : arr) | Given (d : darr).
  Inductive triangles : Type := TList (shape : list nat) (rows : list (list nat)) | TArray (t : tris).
  Definition as_tris (t : triangles) : tris :=
    match t with TList sh rows => Tris sh rows Uint64 | TArray t => t end.

  (** 2690-2698 *)
  Definition check_tris (t : tris) : res unit :=
    match t_shape t with
    | [] => Err IndexError
    | _ =>
        if Nat.eqb (last (t_shape t) 0) 3 then
          if Nat.eqb (List.length (t_shape t)) 2 then Ok tt else Err ValueError
        else Err ValueError
    end.
  (** [__post_init__], 2669-2698. [self.coordinates.units] (2683) is an attribute or a
      coordinate of the DataArray, in general there is none. *)
  Definition new_cloud (p : points) (t : option triangles) (attrs : option A) (time : option (list L)) : res cloud :=
    bind (match p with Raw a => vector3 a time | Given d => Ok d end) (fun d =>
    bind (order d) (fun d =>
    match d_unit d with
    | None => Err TypeError
    | Some u =>
        if is_length u then
          match t with
          | None => Ok (Cloud d None attrs)
          | Some t => bind (check_tris (as_tris t)) (fun _ => Ok (Cloud d (Some (as_tris t)) attrs))
          end
        else if d_attr d || dmem "units" (d_coords d) then Err DimensionalityError else Err AttributeError
    end)).

  (** [additional_dims], 2974-2977, and [is_time_dependent], 2969-2972 *)
  Definition additional_dims (s : cloud) : list string := filter (fun d => negb (String.eqb d "c")) (names (s_coords s)).
  Definition is_time_dependent (s : cloud) : bool := smem "time" (names (s_coords s)).

  Definition put (e : index) (k : string) (i : nat) : index := fun x => if String.eqb x k then i else e x.
  (** The values in the order of memory, [flatten]. *)
  Fixpoint flat (ds : list (string * nat)) (f : index -> F) (e : index) : list F :=
    match ds with
    | [] => [f e]
    | (d, n) :: r => flat_map (fun i => flat r f (put e d i)) (seq 0 n)
    end.
  Definition zero : index := fun _ => 0.

  (** [DataArray.min], [DataArray.max] over all other dimensions; numpy refuses to reduce
      nothing *)
  Fixpoint least (x : F) (l : list F) : F := match l with [] => x | y :: r => least (if leb x y then x else y) r end.
  Fixpoint greatest (x : F) (l : list F) : F := match l with [] => x | y :: r => greatest (if leb x y then y else x) r end.
  Definition reduce (f : F -> list F -> F) (l : list F) : res F := match l with [] => Err ValueError | x :: r => Ok (f x r) end.
  Fixpoint mapM {X Y : Type} (f : X -> res Y) (l : list X) : res (list Y) :=
    match l with [] => Ok [] | x :: r => bind (f x) (fun y => bind (mapM f r) (fun ys => Ok (y :: ys))) end.
  (** The values of one component. *)
  Definition component (s : cloud) (j : nat) : list F :=
    flat (filter (fun x => negb (String.eqb (fst x) "c")) (d_dims (s_coords s))) (d_val (s_coords s)) (put zero "c" j).
  (** [limits], 2855-2866 *)
  Definition limits (s : cloud) : res (list F * list F) :=
    let js := seq 0 (match size (d_dims (s_coords s)) "c" with Some c => c | None => 0 end) in
    bind (mapM (fun j => reduce least (component s j)) js) (fun mins =>
    bind (mapM (fun j => reduce greatest (component s j)) js) (fun maxs => Ok (mins, maxs))).

  (** Mesh files: points and triangles. *)
  Record mesh : Type := Mesh { m_points : list (list F); m_tris : list (list nat) }.
  (** [reshape(-1, 3)] *)
  Fixpoint rows3 (l : list F) : res (list (list F)) :=
    match l with
    | [] => Ok []
    | x :: y :: z :: r => bind (rows3 r) (fun t => Ok ([x; y; z] :: t))
    | _ => Err ValueError
    end.
  (** What meshio does without triangles ([cells={"triangle": None}]). *)
  Variable no_cells : res mesh.
  (** [to_file], 2949-2967 *)
  Definition to_file (s : cloud) (units : U) : res mesh :=
    match d_unit (s_coords s) with
    | None => Err AttributeError
    | Some u =>
        if is_length units then
          bind (rows3 (map (to u units) (flat (d_dims (s_coords s)) (d_val (s_coords s)) zero))) (fun ps =>
          match s_tris s with
          | None => no_cells
          | Some t => Ok (Mesh ps (t_rows t))
          end)
        else Err DimensionalityError
    end.
  Variable dflt : F.
  (** [from_file], 2700-2722; [int]: the type of the indices meshio reads; a file
      without triangles has no entry in [cells_dict] *)
  Definition from_file (int : dtype) (m : mesh) (units : U) : res cloud :=
    new_cloud (Raw (Arr [List.length (m_points m); 3]
                        (fun ix => match ix with [i; j] => nth j (nth i (m_points m) []) dflt | _ => dflt end) (Some units)))
              (match m_tris m with [] => None | t => Some (TArray (Tris [List.length t; 3] t int)) end) None None.

  (** The converter: coordinates are a quantity or a DataArray. *)
  Record node : Type := Node { n_coords : points; n_tris : option tris; n_attrs : option A }.
  Definition data_of (d : darr) : arr :=
    Arr (map snd (d_dims d)) (fun ix => d_val d (fun k => match size (combine (names d) ix) k with Some i => i | None => 0 end)) (d_unit d).
  (** [to_yaml_tree] (17-22) *)
  Definition to_tree (s : cloud) : node :=
    Node (if Nat.leb (List.length (d_dims (s_coords s))) 2 then Raw (data_of (s_coords s)) else Given (s_coords s)) (s_tris s) (s_attrs s).
  (** spatial_data-0.1.1.yaml: three components, unsigned indices in three columns; the
      constructor has checked the rest already *)
  Definition valid (n : node) : bool :=
    Nat.eqb (last (match n_coords n with Raw a => a_shape a | Given d => map snd (d_dims d) end) 0) 3
    && match n_tris n with
       | None => true
       | Some t => match t_type t with OtherInt => false | _ => true end
       end.
  Definition save (s : cloud) : res node := if valid (to_tree s) then Ok (to_tree s) else Err ValidationError.
  (** [from_yaml_tree] (24-30); [lazy]: asdf does not load a numpy array; [legacy]: the
      coordinates of version 0.1.0 have no unit *)
  Definition load (lazy legacy : bool) (n : node) : res cloud :=
    new_cloud (match n_coords n with
               | Raw a => Raw (if legacy then Arr (a_shape a) (a_val a) (Some mm) else a)
               | Given d => Given d
               end)
              (match n_tris n with
               | None => None
               | Some t => Some (if lazy then TList (t_shape t) (t_rows t) else TArray t)
               end) (n_attrs n) None.
End Cloud.
Arguments arr : clear implicits. Arguments darr : clear implicits. Arguments cloud : clear implicits.
Arguments points : clear implicits. Arguments mesh : clear implicits. Arguments node : clear implicits.
