(** The arrays that [weldx.TimeSeries] accepts: weldx/core/time_series.py 127-141
    ([_check_data_array], with [xr_check_coords] and [_check_dtype] of weldx/util/xarray.py
    398-544 for the one coordinate) and 165-168. The rest of the constructor is in TsModel.v. *)
From Coq Require Import List String Bool.
From Verif Require Import Base.
Import ListNotations.
Open Scope string_scope.

(** dtypes: time deltas with a unit, time stamps with a unit, others *)
Inductive cdtype : Type := CDelta (unit : string) | CStamp (unit : string) | COther.
(** dimensions, coordinates with their dtypes, whether the data is a quantity *)
Record xarr : Type := Xr { x_dims : list string; x_coords : dict cdtype; x_quantity : bool }.

(** [_check_dtype(…, "timedelta64[ns]")]: numpy ignores the unit in [issubdtype] *)
Definition is_delta (d : cdtype) : bool := match d with CDelta _ => true | _ => false end.
Definition check_data_array (a : xarr) : res unit :=
  match dget "time" (x_coords a) with
  | None => Err KeyError
  | Some d => if is_delta d then (if x_quantity a then Ok tt else Err TypeError) else Err TypeError
  end.
(** [data.transpose("time", ...)] *)
Definition time_first (a : xarr) : res xarr :=
  if smem "time" (x_dims a)
  then Ok (Xr ("time" :: filter (fun d => negb (String.eqb d "time")) (x_dims a)) (x_coords a) (x_quantity a))
  else Err ValueError.
Definition init_array (a : xarr) : res xarr := bind (check_data_array a) (fun _ => time_first a).
