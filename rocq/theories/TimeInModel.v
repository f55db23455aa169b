(** Inputs of [Time], resolutions and saved times.

    Models [Time._get_time_input] (weldx/time.py 303-322) for objects with times, and
    [Time._convert_other] (695-721), [as_quantity] (432-457), [duration] (580-583),
    [TimeConverter] (weldx/tags/time/time.py) and the converters of indices
    (weldx/tags/time/datetimeindex.py, weldx/tags/time/timedeltaindex.py; names of
    frequencies are modelled in [SerialModel]) for indices of any resolution.

    Times are integers. Simplifications: arrays without dimensions, time zones and
    calendar frequencies are left out, frequencies are given by their length. No proofs in
    this file. *)
From Coq Require Import List String ZArith Bool Arith.
From Verif Require Import Base TimeModel.
Import ListNotations.
Open Scope Z_scope.

(** ** Lists of objects *)
(** Elements of lists: [datetime]-like, [timedelta]-like, texts and others, numbers, None *)
Inductive elem : Type := EStamp (z : Z) | EDelta (z : Z) | EText (s : string) | ENumber (z : Z) | ENone.

Section Inputs.
  (** Conversion of single texts and numbers by [pd.DatetimeIndex] and
      [pd.TimedeltaIndex]; None: ValueError or TypeError *)
  Variables date delta : elem -> option Z.

  Definition is_none (e : elem) : bool := match e with ENone => true | _ => false end.
  Definition is_stamp (e : elem) : bool := match e with EStamp _ => true | _ => false end.
  Definition is_delta (e : elem) : bool := match e with EDelta _ => true | _ => false end.
  Definition is_number (e : elem) : bool := match e with ENumber _ => true | _ => false end.
  Definition value (e : elem) : option Z := match e with EStamp z | EDelta z => Some z | _ => None end.
  (** [pd.Index(list)]: the kind is inferred from the elements; NaT is None *)
  Inductive pindex : Type :=
  | XStamps (l : list (option Z)) | XDeltas (l : list (option Z)) | XNumbers | XObjects (l : list elem).
  Definition index_of (l : list elem) : pindex :=
    if forallb is_none l then XObjects l
    else if forallb (fun e => is_stamp e || is_none e) l then XStamps (map value l)
    else if forallb (fun e => is_delta e || is_none e) l then XDeltas (map value l)
    else if forallb (fun e => is_number e || is_none e) l then XNumbers
    else XObjects l.
  (** [pd.DatetimeIndex(objects)] and [pd.TimedeltaIndex(objects)] *)
  Definition to_date (e : elem) : option (option Z) :=
    match e with
    | EStamp z => Some (Some z)
    | EDelta _ => None
    | ENone => Some None
    | _ => match date e with Some z => Some (Some z) | None => None end
    end.
  Definition to_delta (e : elem) : option (option Z) :=
    match e with
    | EStamp _ => None
    | EDelta z => Some (Some z)
    | ENone => Some None
    | _ => match delta e with Some z => Some (Some z) | None => None end
    end.
  Fixpoint map_all {A B : Type} (f : A -> option B) (l : list A) : option (list B) :=
    match l with
    | [] => Some []
    | x :: r => match f x, map_all f r with Some y, Some t => Some (y :: t) | _, _ => None end
    end.
  (** [_convert_other] of a list: whether the index is absolute, and its values *)
  Definition convert_other (l : list elem) : res (bool * list (option Z)) :=
    match index_of l with
    | XStamps v => Ok (true, v)
    | XDeltas v => Ok (false, v)
    | XNumbers => Err TypeError
    | XObjects l =>
        match map_all to_date l with
        | Some v => Ok (true, v)
        | None => match map_all to_delta l with Some v => Ok (false, v) | None => Err TypeError end
        end
    end.
  (** The rest of the constructor: a single NaT is none of the types (285-286), and an
      index with NaT is not monotonic. *)
  Definition new_time (abs : bool) (v : list (option Z)) (ref : option Z) : res time :=
    match v with
    | [None] => Err TypeError
    | _ =>
        match map_all (fun x => x) v with
        | Some l => mk_time (LPandas (if abs then PStamps l else PDeltas l)) ref
        | None => Err ValueError
        end
    end.
  (** Scalars and texts, lists, and objects with an attribute [time] (309-310) *)
  Inductive input : Type := IScalar (e : elem) | IList (l : list elem) | IDependent (t : option time).
  Definition time_of (x : input) (ref : option Z) : res time :=
    match x with
    | IScalar e => bind (convert_other [e]) (fun av => new_time (fst av) (snd av) ref)
    | IList l => bind (convert_other l) (fun av => new_time (fst av) (snd av) ref)
    | IDependent (Some t) => mk_time (LTime t) ref
    | IDependent None => bind (convert_other [ENone]) (fun av => new_time (fst av) (snd av) ref)
    end.
End Inputs.

(** ** Duration *)
(** [Time(self.max() - self.min())]; both are NaT for an empty index *)
Definition duration (t : time) : res time :=
  match vals t with
  | [] => Err TypeError
  | z :: r => mk_time (LPandas (PDelta (zmax_list r z - zmin_list r z))) None
  end.

(** ** Saved times *)
(** [TimeConverter.to_yaml_tree] and [from_yaml_tree]; the values are restored *)
Definition save_time (t : time) : ptime * option Z := (t_val t, t_ref t).
Definition load_time (n : ptime * option Z) : res time := mk_time (LPandas (fst n)) (snd n).

(** ** Resolutions *)
(** A pandas index or time stamp counts units of some nanoseconds: 1, 10^3, 10^6 or 10^9. *)
Record rindex : Type := RI { i_abs : bool; i_unit : Z; i_counts : list Z }.
Record rstamp : Type := RS { r_unit : Z; r_count : Z }.
Definition moments (i : rindex) : list Z := map (fun c => i_unit i * c) (i_counts i).
(** [pd.Index(array)]: pandas 2 keeps the unit of numpy arrays, older versions convert *)
Definition index_of_array (keeps abs : bool) (unit : Z) (counts : list Z) : rindex :=
  if keeps then RI abs unit counts else RI abs 1 (map (fun c => unit * c) counts).
(** [self._time - self.reference_time] has the finer resolution *)
Definition difference (i : rindex) (r : rstamp) : rindex :=
  let u := Z.min (i_unit i) (r_unit r) in
  RI false u (map (fun c => c * (i_unit i / u) - r_count r * (r_unit r / u)) (i_counts i)).
(** [as_timedelta]; the default of the reference time is the first value *)
Definition timedelta (i : rindex) (ref : option rstamp) : res rindex :=
  if i_abs i then
    match ref, i_counts i with
    | Some r, _ => Ok (difference i r)
    | None, c :: _ => Ok (difference i (RS (i_unit i) c))
    | None, [] => Err IndexError
    end
  else Ok i.
(** [as_quantity] in nanoseconds. An index of one value has been replaced by the value,
    and [TimedeltaIndex([timedelta])] has nanoseconds. *)
Definition quantity (i : rindex) (ref : option rstamp) : res (list Z) :=
  bind (timedelta i ref) (fun d =>
  match i_counts d with
  | [c] => Ok [i_unit d * c]
  | l => Ok l
  end).

(** [inferred_freq] needs three values with the same distance *)
Fixpoint steps (d : Z) (l : list Z) : bool :=
  match l with
  | a :: (b :: _) as r => (b - a =? d) && steps d r
  | _ => true
  end.
Definition inferred (l : list Z) : option Z :=
  match l with
  | a :: b :: _ :: _ => if (0 <? b - a) && steps (b - a) l then Some (b - a) else None
  | _ => None
  end.
(** The tree: length of the frequency or values, start and end. *)
Record itree : Type := IT { n_freq : option Z; n_values : option (list Z); n_start : Z; n_end : Z }.
Definition save_index (i : rindex) : res itree :=
  match moments i with
  | [] => Err IndexError
  | a :: r =>
      match inferred (moments i) with
      | Some d => Ok (IT (Some d) None a (last r a))
      | None => Ok (IT None (Some (i_counts i)) a (last r a))
      end
  end.
(** [date_range] and [timedelta_range] *)
Definition range (a b d : Z) : list Z :=
  map (fun k => a + Z.of_nat k * d) (seq 0 (Z.to_nat ((b - a) / d + 1))).
Definition load_index (abs : bool) (t : itree) : res rindex :=
  match n_freq t with
  | Some d => Ok (RI abs 1 (range (n_start t) (n_end t) d))
  | None => match n_values t with Some v => Ok (RI abs 1 v) | None => Err KeyError end
  end.
