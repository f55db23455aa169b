(** Vocabulary for the theorems about [_ProtectedViewDict] and [WeldxFile]: what a
    python dictionary does. *)
From Coq Require Import List String Bool.
From Verif Require Import Base ViewModel.
Import ListNotations.

(** what can be seen of the data *)
Definition view {V} (protected : list string) (d : dict V) : dict V :=
  filter (fun p => if in_dec string_dec (fst p) protected then false else true) d.

(** the keys that a call is given *)
Definition arguments {V} (o : op V) : list string :=
  match o with
  | OGetitem _ k | ODelitem _ k | OSetitem _ k _ | OContains _ k | OGet _ k _ | OPop _ k _ | OSetdefault _ k _ => [k]
  | OUpdate _ m kw => map fst (m ++ kw)
  | OLen _ | OKeys _ | OItems _ | OPopitem _ | OClear _ => []
  end.

(** the methods of a python dictionary; [popitem] of a view removes the first item
    of a set instead of the last one that was inserted *)
Definition dict_step {V} (none : V) (pick : list string -> option string) (o : op V) (d : dict V) : dict V * res (answer V) :=
  match o with
  | OGetitem _ k => (d, match dget k d with Some v => Ok (AVal _ v) | None => Err KeyError end)
  | ODelitem _ k => match dget k d with Some _ => (ddel k d, Ok (ANothing _)) | None => (d, Err KeyError) end
  | OSetitem _ k v => (dset k v d, Ok (ANothing _))
  | OLen _ => (d, Ok (ANat _ (List.length d)))
  | OContains _ k => (d, Ok (ABool _ (dmem k d)))
  | OKeys _ => (d, Ok (AKeys _ (map fst d)))
  | OItems _ => (d, Ok (AItems _ d))
  | OUpdate _ m kw => (fold_left (fun acc p => dset (fst p) (snd p) acc) (m ++ kw) d, Ok (ANothing _))
  | OPopitem _ => match pick (map fst d) with
                  | None => (d, Err KeyError)
                  | Some k => match dget k d with
                              | Some v => (ddel k d, Ok (AItem _ k v))
                              | None => (d, Err KeyError)
                              end
                  end
  | OClear _ => ([], Ok (ANothing _))
  | OGet _ k df => (d, Ok (AVal _ match dget k d with Some v => v | None => match df with Some v => v | None => none end end))
  | OPop _ k df => match dget k d, df with
                   | Some v, _ => (ddel k d, Ok (AVal _ v))
                   | None, Some v => (d, Ok (AVal _ v))
                   | None, None => (d, Err KeyError)
                   end
  | OSetdefault _ k df => let v := match df with Some v => v | None => none end in
                   match dget k d with
                   | Some w => (d, Ok (AVal _ w))
                   | None => (dset k v d, Ok (AVal _ v))
                   end
  end.

(** a first element of a set is one of its elements, and there is one unless the
    set is empty *)
Definition picks (pick : list string -> option string) : Prop :=
  forall l, match pick l with Some k => In k l | None => l = [] end.

Definition has_keys {V} (l : list string) (d : dict V) : Prop := forall k, In k l -> In k (map fst d).
