(** A discrete [GenericSeries] with two dimensions "u" and "v"
    (weldx/core/generic_series.py): the constructor for data arrays (190-212,
    249-270), [_evaluate_array] (535-543) and [evaluate] (462-497).

    Coordinates are integers in a common unit, values are reals. More than two
    dimensions behave in the same way. [xr_interp_like] for two dimensions acts on
    one dimension after the other: xarray splits a linear interpolation along
    orthogonal axes, [reindex] and the filling of missing values work on each
    dimension separately. Units are not modelled. *)
From Coq Require Import List ZArith Reals String Bool.
From Verif Require Import Base InterpModel LinModel.
Import ListNotations.

Record gseries : Type := Gs {
  gs_us : list Z;            (** coordinates of the first dimension *)
  gs_vs : list Z;            (** coordinates of the second dimension *)
  gs_rows : list (list R);   (** a row for every coordinate of the first dimension *)
  gs_method : method         (** [self._interpolation] *)
}.

(** line 194: the default method is linear *)
Definition init_method (interpolation : option method) : method :=
  match interpolation with None => Linear | Some m => m end.

(** [GenericSeries(data_array, interpolation=...)], 190-200 *)
Definition init_discrete (us vs : list Z) (rows : list (list R)) (interpolation : option method) : gseries :=
  Gs us vs rows (init_method interpolation).

(** interpolation between two rows, element by element; all rows of an array have
    the same length, the other case does not occur *)
Definition row_lin : segment (list R) := fun t0 t1 a b t =>
  if Nat.eqb (List.length a) (List.length b)
  then map (fun p => lin t0 t1 (fst p) (snd p) t) (combine a b)
  else if Z.leb t t0 then a else b.

(** [xr_interp_like] along the first dimension *)
Definition interp_u (g : gseries) (xs : list Z) : res gseries :=
  bind (bind (interp_like row_lin (gs_method g) true (combine (gs_us g) (gs_rows g)) xs) all_some)
       (fun l => Ok (Gs (map fst l) (gs_vs g) (map snd l) (gs_method g))).

Fixpoint map_res {A B} (f : A -> res B) (l : list A) : res (list B) :=
  match l with
  | [] => Ok []
  | a :: r => bind (f a) (fun b => bind (map_res f r) (fun bs => Ok (b :: bs)))
  end.

(** [xr_interp_like] along the second dimension *)
Definition interp_v (g : gseries) (ys : list Z) : res gseries :=
  bind (map_res (fun row =>
          bind (bind (interp_like lin (gs_method g) true (combine (gs_vs g) row) ys) all_some)
               (fun l => Ok (map snd l))) (gs_rows g))
       (fun rows => Ok (Gs (gs_us g) ys rows (gs_method g))).

(** the loop over the dimensions of [eval_args] *)
Fixpoint interp_dims (g : gseries) (args : list (string * list Z)) : res gseries :=
  match args with
  | [] => Ok g
  | (k, c) :: r => bind (if String.eqb k "u" then interp_u g c else interp_v g c)
                        (fun g' => interp_dims g' r)
  end.

(** lines 538-540 *)
Definition is_dim (k : string) : bool := (String.eqb k "u" || String.eqb k "v")%bool.

(** [_evaluate_array], 535-543: the result is created without the argument
    [interpolation] *)
Definition evaluate_array (g : gseries) (args : list (string * list Z)) : res gseries :=
  if negb (forallb (fun p => is_dim (fst p)) args) then Err KeyError
  else bind (interp_dims g args) (fun g' => Ok (init_discrete (gs_us g') (gs_vs g') (gs_rows g') None)).
