(** Common vocabulary of the models: exceptions as values and dictionaries in
    insertion order (python [dict]). *)
From Coq Require Import List String Bool Arith.
Import ListNotations.

(** The exception classes that occur in the modelled functions. *)
Inductive exn : Type :=
| TypeError | ValueError | KeyError | IndexError | RuntimeError | NameError
| NotImplementedError | AttributeError | FileExistsError | ReadOnlyError
| WeldxException | WxSyntaxError | ValidationError | DimensionalityError
| NetworkXUnfeasible | NetworkXNoPath | NetworkXError | OutOfFuel
| FileNotFoundError.

Inductive res (A : Type) : Type :=
| Ok (a : A)
| Err (e : exn).
Arguments Ok {A} a.
Arguments Err {A} e.

Definition bind {A B : Type} (r : res A) (f : A -> res B) : res B :=
  match r with
  | Ok a => f a
  | Err e => Err e
  end.

Definition is_ok {A : Type} (r : res A) : bool :=
  match r with Ok _ => true | Err _ => false end.

(** Python dictionaries with string keys; insertion ordered; assigning to an
    existing key keeps its position. *)
Definition dict (V : Type) : Type := list (string * V).

Fixpoint dget {V : Type} (k : string) (d : dict V) : option V :=
  match d with
  | [] => None
  | (k', v) :: r => if String.eqb k k' then Some v else dget k r
  end.

Fixpoint dset {V : Type} (k : string) (v : V) (d : dict V) : dict V :=
  match d with
  | [] => [(k, v)]
  | (k', v') :: r => if String.eqb k k' then (k', v) :: r else (k', v') :: dset k v r
  end.

Definition ddel {V : Type} (k : string) (d : dict V) : dict V :=
  filter (fun p => negb (String.eqb k (fst p))) d.

Definition dkeys {V : Type} (d : dict V) : list string := map fst d.

Definition dmem {V : Type} (k : string) (d : dict V) : bool :=
  match dget k d with Some _ => true | None => false end.

(** membership in a list of names *)
Definition smem (k : string) (l : list string) : bool := existsb (String.eqb k) l.
