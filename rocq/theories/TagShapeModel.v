(** The shape of a saved object, read from its tagged tree: [_get_instance_shape]
    (weldx/asdf/util.py 591-613) and the methods [shape_from_tagged] of the converters in
    weldx/tags, together with the part of [to_yaml_tree] that they depend on.

    An array is stored by asdf as a tagged mapping with the entry "shape". Tagged strings
    (times) are [NTime]. *)
From Coq Require Import List String ZArith Bool.
From Verif Require Import Base.
Import ListNotations.
Open Scope string_scope.

(** The tags that have a converter with [shape_from_tagged]; all others are [TOther]. *)
Inductive tag : Type := TQuantity | TTime | TTdi | TDti | TSeries | TData | TVar | TOther.

Section Shape.
  (** frequencies of a DatetimeIndex (offset aliases of pandas) *)
  Context {Fr : Type}.

  Inductive node : Type :=
  | NNum                                                  (** int, float or bool *)
  | NPlain                                                (** other values, e.g. str *)
  | NList (l : list node)
  | NShape (l : list nat)
  | NTime (z : Z)
  | NStep (d : Z)                                         (** frequency of a TimedeltaIndex *)
  | NFreq (f : Fr)
  | NMap (t : option tag) (fields : list (string * node)).

  Fixpoint field (k : string) (l : list (string * node)) : res node :=
    match l with
    | [] => Err KeyError
    | (k', v) :: l => if String.eqb k k' then Ok v else field k l
    end.
  Definition has (k : string) (l : list (string * node)) : bool := existsb (fun e => String.eqb k (fst e)) l.
  (** [node[k]] *)
  Definition item (n : node) (k : string) : res node :=
    match n with NMap _ l => field k l | _ => Err TypeError end.

  (** [len(pd.timedelta_range(start, end, freq))] *)
  Definition range_len (start stop d : Z) : nat :=
    if Z.eqb d 0 then 0 else Z.to_nat ((stop - start) / d + 1).
  (** [pd.date_range] and the [inferred_freq] of pandas *)
  Context (date_range : Z -> Z -> Fr -> list Z) (step_of : list Z -> option Z) (freq_of : list Z -> option Fr).

  (** [shape_from_tagged] of weldx/tags: time/timedeltaindex.py 52-62 *)
  Definition tdi_shape (l : list (string * node)) : res (option node) :=
    if has "freq" l then
      bind (field "start" l) (fun a => bind (field "end" l) (fun b => bind (field "freq" l) (fun f =>
      match a, b, f with
      | NTime a, NTime b, NStep d => Ok (Some (NShape [range_len a b d]))
      | _, _, _ => Err ValueError
      end)))
    else bind (field "values" l) (fun v => bind (item v "shape") (fun s => Ok (Some s))).
  (** time/datetimeindex.py 41-50 *)
  Definition dti_shape (l : list (string * node)) : res (option node) :=
    if has "freq" l then
      bind (field "start" l) (fun a => bind (field "end" l) (fun b => bind (field "freq" l) (fun f =>
      match a, b, f with
      | NTime a, NTime b, NFreq f => Ok (Some (NShape [List.length (date_range a b f)]))
      | _, _, _ => Err ValueError
      end)))
    else bind (field "values" l) (fun v => bind (item v "shape") (fun s => Ok (Some s))).
  (** [_get_instance_shape]; [fuel] bounds the depth of nested tags. Quantity:
      units/pint_quantity.py 51-56, Time: time/time.py 24-29, TimeSeries:
      core/time_series.py 49-54, DataArray: core/data_array.py 48-51, Variable:
      core/common_types.py 122-125. *)
  Fixpoint instance_shape (fuel : nat) (n : node) : res (option node) :=
    match fuel with
    | O => Err OutOfFuel
    | S k =>
        match n with
        | NNum => Ok (Some (NShape [1]))
        | NMap t l =>
            if has "shape" l then bind (field "shape" l) (fun s => Ok (Some s))
            else match t with
            | Some TQuantity =>
                bind (field "value" l) (fun v =>
                match v with NMap _ _ => instance_shape k v | _ => Ok (Some (NShape [1])) end)
            | Some TTime => bind (field "values" l) (instance_shape k)
            | Some TTdi => tdi_shape l
            | Some TDti => dti_shape l
            | Some TSeries => if has "shape" l then bind (field "shape" l) (fun s => Ok (Some s)) else Ok (Some (NShape [1]))
            | Some TData => bind (field "data" l) (fun v => bind (item v "data") (instance_shape k))
            | Some TVar => bind (field "data" l) (instance_shape k)
            | Some TOther | None => Ok None
            end
        | _ => Ok None
        end
    end.

  (** Objects with their shapes. [numeric]: numbers, bools, dates and durations, whose
      scalars become an int, float or bool by [item()]. *)
  Inductive pandas : Type := PScalar (z : Z) | PDelta (l : list Z) | PDate (l : list Z).
  Inductive obj : Type :=
  | ONum
  | OText
  | OArray (s : list nat)
  | OQuantity (s : list nat)
  | OVariable (s : list nat) (numeric quantity : bool)
  | ODataArray (s : list nat) (numeric quantity : bool)
  | OPandas (p : pandas)
  | OTime (p : pandas) (ref : option Z)
  | OConstant
  | ODiscrete (s : list nat)
  | OExpression (s : list nat).

  Definition ndarray (s : list nat) : node := NMap (Some TOther) [("source", NNum); ("shape", NShape s)].
  Definition index_tree (t : tag) (freq : option node) (l : list Z) : res node :=
    match l with
    | [] => Err IndexError
    | z :: r =>
        Ok (NMap (Some t)
          ((match freq with Some f => ("freq", f) | None => ("values", ndarray [List.length l]) end) ::
           [("start", NTime z); ("end", NTime (last l z));
            ("min", NTime (fold_left Z.min r z)); ("max", NTime (fold_left Z.max r z))]))
    end.
  (** the scalar converters; time/timedeltaindex.py 26-39, time/datetimeindex.py 18-30 *)
  Definition pandas_tree (p : pandas) : res node :=
    match p with
    | PScalar z => Ok (NTime z)
    | PDelta l => index_tree TTdi (option_map NStep (step_of l)) l
    | PDate l => index_tree TDti (option_map NFreq (freq_of l)) l
    end.
  (** core/common_types.py 81-103 *)
  Definition variable_tree (s : list nat) (numeric quantity : bool) : node :=
    NMap (Some TVar)
      ([("name", NPlain); ("dimensions", NPlain); ("dtype", NPlain);
        ("data", match s with [] => if numeric then NNum else NPlain | _ => ndarray s end); ("attrs", NPlain)] ++
       (if quantity then [("units", NPlain)] else [])).
  (** [to_yaml_tree]: units/pint_quantity.py 31-39, core/data_array.py 20-35, time/time.py
      13-18, core/time_series.py 19-34 *)
  Definition save (o : obj) : res node :=
    match o with
    | ONum => Ok NNum
    | OText => Ok NPlain
    | OArray s => Ok (ndarray s)
    | OQuantity s =>
        Ok (NMap (Some TQuantity) [("value", match s with [] => NNum | _ => ndarray s end); ("units", NPlain)])
    | OVariable s numeric quantity => Ok (variable_tree s numeric quantity)
    | ODataArray s numeric quantity =>
        Ok (NMap (Some TData) [("attributes", NMap None []); ("coordinates", NList []);
                               ("data", variable_tree s numeric quantity)])
    | OPandas p => pandas_tree p
    | OTime p ref =>
        bind (pandas_tree p) (fun v =>
        Ok (NMap (Some TTime) [("values", v); ("reference_time", match ref with Some z => NTime z | None => NPlain end)]))
    | OConstant => Ok (NMap (Some TSeries) [("units", NPlain); ("value", NNum)])
    | ODiscrete [1%nat] => Ok (NMap (Some TSeries) [("units", NPlain); ("value", NNum)])
    | ODiscrete s =>
        Ok (NMap (Some TSeries) [("time", NPlain); ("units", NPlain); ("shape", NShape s); ("interpolation", NPlain);
                                 ("values", ndarray s)])
    | OExpression s =>
        Ok (NMap (Some TSeries) [("expression", NPlain); ("units", NPlain); ("shape", NShape s)])
    end.
End Shape.
Arguments node Fr : clear implicits.
