(** Interpolation along the time axis: [xr_interp_like] (weldx/util/xarray.py
    278-395) for one dimension, [xr_interp_orientation_in_time] (666-720) and
    [xr_interp_coordinates_in_time] (723-760).

    A data array with a time dimension is a list of samples in increasing order
    of time. Times are integers (nanoseconds). Values are left abstract: what
    happens between two neighbouring samples is given by a function [seg], the
    linear interpolation of scipy/numpy or the spherical one of [Slerp]. A missing
    value (NaN) is [None]. Units and the other dimensions are not modelled; all
    operations below act on the other dimensions element by element.
    Requested times are supposed to be pairwise different. *)
From Coq Require Import List ZArith Bool.
From Verif Require Import Base.
Import ListNotations.
Open Scope Z_scope.

(** [seg t0 t1 a b t]: value at [t] between the samples [(t0, a)] and [(t1, b)] *)
Definition segment (A : Type) : Type := Z -> Z -> A -> A -> Z -> A.

Inductive method : Type := Linear | Step.

Section Interp.
  Context {A : Type}.

  Definition samples : Type := list (Z * A).

  (** sorted insertion without duplicates, and the sorted union of two axes: the
      outer join of [combine_first] and [pandas.Index.union] *)
  Fixpoint insert_time (t : Z) (l : list Z) : list Z :=
    match l with
    | [] => [t]
    | u :: r => if t <? u then t :: l
                else if t =? u then l
                else u :: insert_time t r
    end.
  Definition union_times (a b : list Z) : list Z := fold_right insert_time [] (a ++ b).

  (** first and last time of the samples *)
  Definition first_time (s : samples) (d : Z) : Z :=
    match s with [] => d | (t, _) :: _ => t end.
  Fixpoint last_time (s : samples) (d : Z) : Z :=
    match s with [] => d | (t, _) :: r => last_time r t end.

  (** the indices [0, -1] or [0] in [_add_coord_edges], 255-275 *)
  Definition edge_times (s : samples) : list Z :=
    match s with
    | [] => []
    | [(t, _)] => [t]
    | (t, _) :: _ => [t; last_time s t]
    end.

  (** number of samples before [t]: [numpy.searchsorted] *)
  Fixpoint count_before (s : samples) (t : Z) : nat :=
    match s with
    | [] => O
    | (u, _) :: r => if u <? t then S (count_before r t) else O
    end.

  (** linear interpolation of scipy/numpy ([interp_like], 382): the interval is
      found by [searchsorted] and clipped, out of range values are missing *)
  Definition interp_raw (seg : segment A) (s : samples) (t : Z) : option A :=
    if (t <? first_time s t) || (last_time s t <? t) then None
    else
      let hi := Nat.max 1 (Nat.min (count_before s t) (List.length s - 1)) in
      match nth_error s (hi - 1), nth_error s hi with
      | Some (t0, a), Some (t1, b) => Some (seg t0 t1 a b t)
      | _, _ => None
      end.

  (** [reindex_like(..., method="ffill")], 380: the last sample that is not
      after [t] *)
  Fixpoint reindex_ffill (s : samples) (t : Z) : option A :=
    match s with
    | [] => None
    | (u, a) :: r =>
        if t <? u then None
        else match reindex_ffill r t with Some b => Some b | None => Some a end
    end.
  (** without fill method: only exact matches *)
  Fixpoint reindex_exact (s : samples) (t : Z) : option A :=
    match s with
    | [] => None
    | (u, a) :: r => if t =? u then Some a else reindex_exact r t
    end.

  (** [xr_fill_all], 202-226, order "bf" *)
  Fixpoint bfill (l : list (option A)) : list (option A) :=
    match l with
    | [] => []
    | x :: r =>
        let r' := bfill r in
        match x, r' with
        | None, y :: _ => y :: r'
        | _, _ => x :: r'
        end
    end.
  Fixpoint ffill (p : option A) (l : list (option A)) : list (option A) :=
    match l with
    | [] => []
    | x :: r => let y := match x with Some _ => x | None => p end in y :: ffill y r
    end.
  Definition fill_all (l : list (option A)) : list (option A) := ffill None (bfill l).

  (** [da.sel(time=...)], 393; a time that is not part of the axis is an error *)
  Fixpoint sel_one (axis : list Z) (vals : list (option A)) (t : Z) : res (option A) :=
    match axis, vals with
    | u :: r, v :: w => if t =? u then Ok v else sel_one r w t
    | _, _ => Err KeyError
    end.
  Fixpoint sel (axis : list Z) (vals : list (option A)) (req : list Z)
    : res (list (Z * option A)) :=
    match req with
    | [] => Ok []
    | t :: r => bind (sel_one axis vals t) (fun v =>
                bind (sel axis vals r) (fun w => Ok ((t, v) :: w)))
    end.

  (** [xr_interp_like], 278-395. A single sample is spread over the whole axis
      (365-376), everything else is interpolated or reindexed on the axis that
      consists of the requested times and the edges of the data (361). *)
  Definition interp_like (seg : segment A) (m : method) (fillna : bool)
             (s : samples) (req : list Z) : res (list (Z * option A)) :=
    let axis := union_times req (edge_times s) in
    match s with
    | [] => Err IndexError
    | [(t0, a)] =>
        match axis with
        | _ :: _ :: _ =>
            if fillna
            then sel axis (fill_all (map (reindex_exact s) axis)) req
            else Err ValueError
        | _ => sel axis (map (reindex_exact s) axis) req
        end
    | _ =>
        let raw := match m with
                   | Linear => map (interp_raw seg s) axis
                   | Step => if fillna then map (reindex_ffill s) axis
                             else map (reindex_exact s) axis
                   end in
        sel axis (if fillna then fill_all raw else raw) req
    end.

  (** removes the option of a filled result *)
  Fixpoint all_some (l : list (Z * option A)) : res samples :=
    match l with
    | [] => Ok []
    | (t, Some a) :: r => bind (all_some r) (fun w => Ok ((t, a) :: w))
    | (_, None) :: _ => Err ValueError
    end.

  (** a data array with or without time dimension *)
  Inductive arr : Type :=
  | Const (a : A)
  | Ser (s : samples).

  (** a time dimension of length 1 is removed (667-668, 716-718, 756-758) *)
  Definition squeeze_time (s : samples) : arr :=
    match s with [(_, a)] => Const a | _ => Ser s end.

  (** [xr_interp_coordinates_in_time], 723-760 *)
  Definition interp_coordinates (seg : segment A) (x : arr) (req : list Z) : res arr :=
    match x with
    | Const _ => Ok x
    | Ser s => bind (bind (interp_like seg Linear true s req) all_some)
                    (fun r => Ok (squeeze_time r))
    end.

  (** the times inside the range of the data and the edges of the range (696-700) *)
  Definition times_intersect (s : samples) (req : list Z) : list Z :=
    filter (fun t => (first_time s t <=? t) && (t <=? last_time s t))
           (union_times req (edge_times s)).

  (** [Slerp(times_key, rotations_key)(times)], 703-705; times out of range
      raise a [ValueError] *)
  Fixpoint slerp (seg : segment A) (s : samples) (ts : list Z) : res samples :=
    match ts with
    | [] => Ok []
    | t :: r =>
        match interp_raw seg s t with
        | None => Err ValueError
        | Some a => bind (slerp seg s r) (fun w => Ok ((t, a) :: w))
        end
    end.

  (** [xr_interp_orientation_in_time], 666-720: spherical interpolation [seg]
      inside the range of the data, then [xr_interp_like] (linear, [lin]) to fill
      the requested times *)
  Definition interp_orientation (seg lin : segment A) (x : arr) (req : list Z) : res arr :=
    match x with
    | Const _ => Ok x
    | Ser [(_, a)] => Ok (Const a)
    | Ser s =>
        bind (slerp seg s (times_intersect s req)) (fun d =>
        bind (bind (interp_like lin Linear true d req) all_some)
             (fun r => Ok (squeeze_time r)))
    end.
End Interp.
Arguments samples : clear implicits.
Arguments arr : clear implicits.
