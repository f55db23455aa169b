(** Attributes of files.

    Models [WeldxFile.as_attr] (weldx/asdf/file.py 811-844) with its local class
    [AttrDict], and reading and changing of attributes and items of the results.

    Simplifications: the memory holds mappings with text keys only, all other values are
    opaque ([Leaf]); the data of a file are one mapping ([_asdf_handle.tree]); the keys of
    a file are a set in python, here they are in the order of the file; keys are no names
    of special attributes ([__class__], [__dict__]) and the methods of [dict] are left out
    (attributes hide methods of the same name).  Mappings that contain themselves end in
    a RecursionError, here [OutOfFuel].  No proofs in this file. *)
From Coq Require Import List String Bool Arith.
From Verif Require Import Base.
Import ListNotations.

(** values: a mapping object or anything else *)
Inductive val : Type := Leaf (x : nat) | Ref (r : nat).

(** A mapping object: its items and, for an [AttrDict], its [__dict__]. *)
Record cell : Type := Cell { c_items : dict val; c_attrs : option (dict val) }.
Definition heap : Type := list cell.

Definition items_of (h : heap) (r : nat) : dict val :=
  match nth_error h r with Some c => c_items c | None => [] end.

Fixpoint upd (h : heap) (r : nat) (c : cell) : heap :=
  match h, r with
  | [], _ => []
  | _ :: t, 0 => c :: t
  | x :: t, S n => x :: upd t n c
  end.

(** [obj.__dict__[key] = value] or [obj.key = value] *)
Definition put_attr (h : heap) (r : nat) (k : string) (v : val) : res heap :=
  match nth_error h r with
  | Some (Cell its (Some ats)) => Ok (upd h r (Cell its (Some (dset k v ats))))
  | _ => Err AttributeError
  end.

(** [obj[key] = value] *)
Definition put_item (h : heap) (r : nat) (k : string) (v : val) : res heap :=
  match nth_error h r with
  | Some (Cell its ats) => Ok (upd h r (Cell (dset k v its) ats))
  | None => Err TypeError
  end.

(** The loop over the items (838-842): mappings are wrapped, other values kept. *)
Fixpoint fill (mk : heap -> dict val -> res (nat * heap)) (r : nat) (l : dict val) (h : heap)
  : res heap :=
  match l with
  | [] => Ok h
  | (k, Leaf x) :: t => bind (put_attr h r k (Leaf x)) (fill mk r t)
  | (k, Ref m) :: t =>
      bind (mk h (items_of h m)) (fun p =>
      bind (put_attr (snd p) r k (Ref (fst p))) (fill mk r t))
  end.

(** [AttrDict.__init__] (836-842): a new dictionary with the items. *)
Fixpoint attr_dict (fuel : nat) (h : heap) (its : dict val) : res (nat * heap) :=
  match fuel with
  | 0 => Err OutOfFuel
  | S n =>
      let r := List.length h in
      bind (fill (attr_dict n) r its (h ++ [Cell its (Some [])])) (fun h' => Ok (r, h'))
  end.

(** [as_attr] (844): [dict(self)] has the items without the protected keys
    (weldx/asdf/util.py 676-680). *)
Definition as_attr (fuel : nat) (protected : list string) (h : heap) (tree : nat)
  : res (nat * heap) :=
  attr_dict fuel h (filter (fun p => negb (smem (fst p) protected)) (items_of h tree)).

(** [obj[key]] and [obj.key] *)
Definition get_item (h : heap) (v : val) (k : string) : res val :=
  match v with
  | Leaf _ => Err TypeError
  | Ref r => match dget k (items_of h r) with Some x => Ok x | None => Err KeyError end
  end.
Definition get_attr (h : heap) (v : val) (k : string) : res val :=
  match v with
  | Leaf _ => Err AttributeError
  | Ref r =>
      match nth_error h r with
      | Some (Cell _ (Some ats)) => match dget k ats with Some x => Ok x | None => Err AttributeError end
      | _ => Err AttributeError
      end
  end.
