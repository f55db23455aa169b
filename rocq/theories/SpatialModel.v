(** The arguments of [SpatialSeries] (weldx/core/spatial_series.py 31-82). The dictionaries
    of the caller are the ones that are changed, so the functions give them back.

    [D] are arrays of numbers, [U] units and [one] the dimensionless unit. Names as positions
    ([VNames]) are taken to be refused with a ValueError. *)
From Coq Require Import List String Bool Arith.
From Verif Require Import Base.
Import ListNotations.
Open Scope string_scope.

Section Spatial.
  Context {D U : Type} (one : U).

  Inductive val : Type :=
  | VQuantity (shape : list nat) (x : D) (u : U)
  | VPlain (shape : list nat) (x : D)                              (** list or array *)
  | VArray (dims : list string) (names : option (list string)) (shape : list nat) (x : D) (u : U)
  | VNames (l : list string).

  (** [xr.DataArray(v, dims=[dim])] has to have one dimension *)
  Definition data_array (dim : string) (names : option (list string)) (shape : list nat) (x : D) (u : U) : res val :=
    if Nat.eqb (List.length shape) 1 then Ok (VArray [dim] names shape x u) else Err ValueError.
  (** 62-66; [None]: nothing to do *)
  Definition position (v : val) : res (option val) :=
    match v with
    | VArray _ _ _ _ _ => Ok None
    | VQuantity s x u => bind (data_array "s" None s x u) (fun a => Ok (Some a))
    | VPlain s x => bind (data_array "s" None s x one) (fun a => Ok (Some a))
    | VNames l => Err ValueError
    end.
  (** [_process_quantity], 48-74, up to the call of [xr.DataArray] with [dims] and [coords].
      First component: the dictionary [coords] afterwards. *)
  Definition coordinates (d : dict val) (s : val) (dims : option (list string)) :
      dict val * res (list string * dict val) :=
    match position s with
    | Err e => (d, Err e)
    | Ok p =>
        let d1 := match p with Some a => dset "s" a d | None => d end in
        let d2 := if dmem "c" d1 then d1 else dset "c" (VNames ["x"; "y"; "z"]) d1 in
        (d2, Ok (match dims with Some l => l | None => ["s"; "c"] end, d2))
    end.
  Inductive coords : Type := CDict (d : dict val) | CPlain (v : val).
  Definition process_quantity (dims : option (list string)) (c : coords) :
      coords * res (list string * dict val) :=
    match c with
    | CDict d =>
        match dget "s" d with
        | None => (c, Err KeyError)
        | Some s => let (d', r) := coordinates d s dims in (CDict d', r)
        end
    | CPlain s => (c, snd (coordinates [("s", s)] s dims))
    end.

  (** [v.size] *)
  Definition size (shape : list nat) : nat := fold_right Nat.mul 1 shape.
  (** 80-81 *)
  Definition parameter (v : val) : res val :=
    match v with
    | VQuantity s x u => if Nat.eqb (size s) 3 then data_array "c" (Some ["x"; "y"; "z"]) s x u else Ok v
    | _ => Ok v
    end.
  (** [_process_parameters], 76-82. First component: the dictionary afterwards; an error
      ends the loop. *)
  Fixpoint process_parameters (d : dict val) : dict val * res unit :=
    match d with
    | [] => ([], Ok tt)
    | (k, v) :: r =>
        match parameter v with
        | Err e => (d, Err e)
        | Ok v' => let (r', o) := process_parameters r in ((k, v') :: r', o)
        end
    end.
End Spatial.
