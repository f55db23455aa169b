(** [Time] and xarray, comparison with tolerances: weldx/time.py 412-430 ([all_close]),
    472-482 ([as_timestamp], [as_datetime]), 501-521 ([as_data_array]) and 680-693
    ([_convert_xarray]). Times are those of TimeModel.v (nanoseconds). *)
From Coq Require Import List ZArith Bool.
From Verif Require Import Base TimeModel.
Import ListNotations.
Open Scope Z_scope.

(** The coordinate "time" of a DataArray: time stamps or time deltas, and the attribute
    [time_ref]. *)
Record tarray : Type := TArr { a_stamps : bool; a_vals : list Z; a_ref : option Z }.

(** [as_data_array], 501-521 *)
Definition as_data_array (t : time) (timedelta_base : bool) : res tarray :=
  bind (if timedelta_base then bind (as_timedelta_index t) (fun l => Ok (false, l))
        else Ok (is_absolute t, vals t)) (fun v =>
  bind (reference_time t) (fun ref => Ok (TArr (fst v) (snd v) ref))).
(** [_convert_xarray], 680-693; time stamps cannot be added *)
Definition convert_xarray (a : tarray) : res ptime :=
  match a_ref a with
  | None => Ok (if a_stamps a then PStamps (a_vals a) else PDeltas (a_vals a))
  | Some r => if a_stamps a then Err TypeError else Ok (PStamps (map (fun z => z + r) (a_vals a)))
  end.
Definition time_of_array (a : tarray) : res time :=
  bind (convert_xarray a) (fun p => mk_time (LPandas p) None).

(** [np.isclose] with the default tolerances 1e-8 and 1e-5, for values in seconds that are
    given in nanoseconds: |a - b| <= 10 + |b| / 100000 *)
Definition isclose (a b : Z) : bool := 100000 * Z.abs (a - b) <=? 1000000 + Z.abs b.
(** [np.allclose] with broadcasting *)
Definition allclose (l m : list Z) : res bool :=
  if Nat.eqb (length l) (length m) then Ok (forallb (fun p => isclose (fst p) (snd p)) (combine l m))
  else match l, m with
  | [a], _ => Ok (forallb (fun b => isclose a b) m)
  | _, [b] => Ok (forallb (fun a => isclose a b) l)
  | _, _ => Err ValueError
  end.
(** [all_close], 412-430, for another [Time] *)
Definition all_close (self other : time) : res bool :=
  bind (reference_time self) (fun r =>
  bind (reference_time other) (fun s =>
  if opt_eqb r s then
    bind (as_timedelta_index self) (fun l => bind (as_timedelta_index other) (fun m => allclose l m))
  else Ok false)).

(** [as_timestamp], 472-476 *)
Definition as_timestamp (t : time) : res Z := match t_val t with PStamp z => Ok z | _ => Err TypeError end.
(** [as_datetime], 478-482 *)
Definition as_datetime (t : time) : res ptime := if is_absolute t then Ok (t_val t) else Err TypeError.
