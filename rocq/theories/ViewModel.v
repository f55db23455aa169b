(** Model of [_ProtectedViewDict] (weldx/asdf/util.py lines 643-716) and of the
    dictionary methods of [WeldxFile] (weldx/asdf/file.py lines 550-719).
    The data is an insertion ordered dictionary.  Warnings are left out.  The
    order in which python iterates over the set returned by [keys] is arbitrary:
    [pick] is the first element of that iteration.  The methods that are not
    overridden are those of [collections.abc.MutableMapping]. *)
From Coq Require Import List String Bool Arith.
From Verif Require Import Base.
Import ListNotations.
Open Scope string_scope.

Section View.
  Variable V : Type.
  (** python's [None] as a value *)
  Variable none : V.
  (** first element in the iteration over a set *)
  Variable pick : list string -> option string.
  Variable protected : list string.

  Inductive op : Type :=
  | OGetitem (k : string)
  | ODelitem (k : string)
  | OSetitem (k : string) (v : V)
  | OLen
  | OContains (k : string)
  | OKeys
  | OItems
  | OUpdate (mapping kwargs : list (string * V))
  | OPopitem
  | OClear
  | OGet (k : string) (default : option V)
  | OPop (k : string) (default : option V)
  | OSetdefault (k : string) (default : option V).

  Inductive answer : Type :=
  | ANothing
  | AVal (v : V)
  | ANat (n : nat)
  | ABool (b : bool)
  | AKeys (l : list string)
  | AItems (l : list (string * V))
  | AItem (k : string) (v : V).

  (** util.py lines 651-660 [_wrap_protected_non_existent] with [__getitem__] *)
  Definition getitem (k : string) (d : dict V) : res V :=
    if smem k protected then Err KeyError
    else match dget k d with None => Err KeyError | Some v => Ok v end.

  (** lines 651-660 with [__delitem__] *)
  Definition delitem (k : string) (d : dict V) : res (dict V) :=
    if smem k protected then Err KeyError
    else if negb (dmem k d) then Err KeyError else Ok (ddel k d).

  (** lines 670-674 [__setitem__] *)
  Definition setitem (k : string) (v : V) (d : dict V) : dict V :=
    if smem k protected then d else dset k v d.

  (** lines 676-677 [keys] *)
  Definition keys (d : dict V) : list string :=
    filter (fun k => negb (smem k protected)) (dkeys d).

  (** python's [dict.update] and [dict(mapping, **kwargs)] *)
  Definition dupdate (d : dict V) (l : list (string * V)) : dict V :=
    fold_left (fun acc p => dset (fst p) (snd p) acc) l d.

  (** lines 685-693 [update] *)
  Definition update (mapping kwargs : list (string * V)) (d : dict V) : dict V :=
    let m := dupdate (dupdate [] mapping) kwargs in
    let m' := if existsb (fun k => smem k protected) (dkeys m)
              then filter (fun p => negb (smem (fst p) protected)) m else m in
    dupdate d m'.

  (** [MutableMapping.pop]: default [None] here means that no default was given *)
  Definition pop (k : string) (default : option V) (d : dict V) : dict V * res V :=
    match getitem k d with
    | Err KeyError => (d, match default with None => Err KeyError | Some v => Ok v end)
    | Err e => (d, Err e)
    | Ok v => match delitem k d with
              | Err e => (d, Err e)
              | Ok d' => (d', Ok v)
              end
    end.

  (** lines 695-700 [popitem]: the loop returns in its first round *)
  Definition popitem (d : dict V) : dict V * res (string * V) :=
    match pick (keys d) with
    | None => (d, Err KeyError)
    | Some k => if smem k protected then (d, Err KeyError)
                else let (d', r) := pop k None d in (d', bind r (fun v => Ok (k, v)))
    end.

  (** line 704: [{k: data.pop(k) for k in protected_keys}]; the data lose what has
      been popped before an exception *)
  Fixpoint pop_all (l : list string) (acc d : dict V) : dict V * res (dict V) :=
    match l with
    | [] => (d, Ok acc)
    | k :: r => match dget k d with
                | None => (d, Err KeyError)
                | Some v => pop_all r (dset k v acc) (ddel k d)
                end
    end.

  (** lines 702-707 [clear] *)
  Definition clear (d : dict V) : dict V * res unit :=
    match pop_all protected [] d with
    | (d', Err e) => (d', Err e)
    | (_, Ok saved) => (dupdate [] saved, Ok tt)
    end.

  (** [MutableMapping.get] *)
  Definition get (k : string) (default : V) (d : dict V) : res V :=
    match getitem k d with
    | Err KeyError => Ok default
    | r => r
    end.

  (** [MutableMapping.setdefault] *)
  Definition setdefault (k : string) (default : V) (d : dict V) : dict V * res V :=
    match getitem k d with
    | Err KeyError => (setitem k default d, Ok default)
    | r => (d, r)
    end.

  Definition dflt (o : option V) : V := match o with None => none | Some v => v end.

  (** the items of the view, by iteration and [__getitem__] *)
  Fixpoint items_of (l : list string) (d : dict V) : res (list (string * V)) :=
    match l with
    | [] => Ok []
    | k :: r => bind (getitem k d) (fun v => bind (items_of r d) (fun t => Ok ((k, v) :: t)))
    end.

  (** One call of a method; with [weldx] the methods of [WeldxFile].  Its [get],
      [pop] and [setdefault] always pass a default on (file.py lines 607,
      672, 699), and [setdefault] has no return statement (line 672). *)
  Definition step (weldx : bool) (o : op) (d : dict V) : dict V * res answer :=
    match o with
    | OGetitem k => (d, bind (getitem k d) (fun v => Ok (AVal v)))
    | ODelitem k => match delitem k d with Err e => (d, Err e) | Ok d' => (d', Ok ANothing) end
    | OSetitem k v => (setitem k v d, Ok ANothing)
    | OLen => (d, Ok (ANat (List.length (keys d))))
    | OContains k => (d, Ok (ABool (smem k (keys d))))
    | OKeys => (d, Ok (AKeys (keys d)))
    | OItems => (d, bind (items_of (keys d) d) (fun l => Ok (AItems l)))
    | OUpdate m kw => (update m kw d, Ok ANothing)
    | OPopitem => let (d', r) := popitem d in (d', bind r (fun p => Ok (AItem (fst p) (snd p))))
    | OClear => let (d', r) := clear d in (d', bind r (fun _ => Ok ANothing))
    | OGet k df => (d, bind (get k (dflt df) d) (fun v => Ok (AVal v)))
    | OPop k df => let (d', r) := pop k (if weldx then Some (dflt df) else df) d in
                   (d', bind r (fun v => Ok (AVal v)))
    | OSetdefault k df => let (d', r) := setdefault k (dflt df) d in
                   (d', bind r (fun v => Ok (if weldx then ANothing else AVal v)))
    end.

  (** a sequence of calls; an exception does not end it *)
  Fixpoint run (weldx : bool) (l : list op) (d : dict V) : dict V * list (res answer) :=
    match l with
    | [] => (d, [])
    | o :: r => let (d', a) := step weldx o d in let (d'', t) := run weldx r d' in (d'', a :: t)
    end.
End View.
