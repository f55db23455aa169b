(** Vocabulary for the constructor of [LocalCoordinateSystem]. *)
From Coq Require Import List ZArith Bool.
From Verif Require Import Base TimeModel TsModel LcsNewModel.
Import ListNotations.
Open Scope Z_scope.

(** the points in time of time deltas with or without reference time *)
Definition moments (ts : list Z) (ref : option Z) : list Z :=
  map (fun t => match ref with None => t | Some r => t + r end) ts.
(** an array that needs times has as many values as there are times *)
Definition fits {A : Type} (x : plain A) (ts : list Z) : Prop :=
  match x with One _ => True | Many l => length l = length ts end.
Definition single {A : Type} (x : plain A) : Prop := exists a, x = One a.
Definition normalised {A : Type} (norm : A -> res A) (x y : plain A) : Prop :=
  match x, y with
  | One a, One b => norm a = Ok b
  | Many l, Many m => Forall2 (fun a b => norm a = Ok b) l m
  | _, _ => False
  end.
(** the points in time of a data array and its reference time: the stored one or the
    first date *)
Definition array_moments {A : Type} (x : xin A) : list Z :=
  match x with IStatic _ => [] | IDeltas d => moments (a_times d) (a_ref d) | IDates d => a_times d end.
Definition array_ref {A : Type} (x : xin A) : option Z :=
  match x with
  | IStatic _ => None
  | IDeltas d => a_ref d
  | IDates d => match a_ref d with Some r => Some r | None => hd_error (a_times d) end
  end.
Definition array_values {A : Type} (x : xin A) : plain A :=
  match x with IStatic a => One a | IDeltas d | IDates d => Many (a_vals d) end.
(** xarray: as many labels as values; dates need a first one *)
Definition array_ok {A : Type} (x : xin A) : Prop :=
  match x with
  | IStatic _ => True
  | IDeltas d => length (a_times d) = length (a_vals d)
  | IDates d => length (a_times d) = length (a_vals d) /\ (a_ref d = None -> a_times d <> [])
  end.
Definition is_static {A : Type} (x : xin A) : Prop := exists a, x = IStatic a.
