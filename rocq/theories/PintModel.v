(** The converters of quantities and units (weldx/tags/units/pint_quantity.py 12-49, 59-77).

    Simplifications: the numbers of an array are integers, floating point numbers, complex numbers and truth
    values; floating point numbers have at most 64 bits (and complex ones 128), so that python has the same
    number. A tree is a dictionary whose values are numbers, arrays, units and texts. *)
From Coq Require Import List String Ascii Bool ZArith NArith.
From Verif Require Import Base.
Import ListNotations.
Open Scope string_scope.

Section Pint.
  (** floating point numbers, units, [format(u, "D")] and the parser of units *)
  Variables F U : Type.
  Variable format : U -> string.
  Variable parse : string -> res U.

  Inductive num : Type :=
  | NBool (b : bool)
  | NInt (z : Z)
  | NFloat (x : F)
  | NComplex (x y : F).
  Inductive dtype : Type :=
  | DBool
  | DInt (bits : nat)
  | DUInt (bits : nat)
  | DFloat (bits : nat)
  | DComplex (bits : nat)
  | DObject.
  Record array : Type := Array { a_type : dtype; a_shape : list nat; a_data : list num }.

  (** magnitudes: arrays (always in the registry of weldx, constants.py 21) or plain numbers of python *)
  Inductive magnitude : Type :=
  | MArray (a : array)
  | MPlain (n : num).
  Record quantity : Type := Quantity { q_value : magnitude; q_unit : U }.

  (** values of the nodes of a tree *)
  Inductive tval : Type :=
  | TNum (n : num)
  | TArray (a : array)
  | TUnit (u : U)
  | TText (s : string).

  (** [array.item()] *)
  Definition item (a : array) : res num :=
    match a_data a with
    | [n] => Ok n
    | _ => Err ValueError
    end.

  (** lines 31-39: plain numbers have no shape *)
  Definition to_yaml_tree (q : quantity) : res (dict tval) :=
    match q_value q with
    | MPlain _ => Err AttributeError
    | MArray a =>
        bind (match a_shape a with
              | [] => bind (item a) (fun n => Ok (TNum n))
              | _ => Ok (TArray a)
              end) (fun v =>
        Ok [("value", v); ("units", TUnit (q_unit q))])
    end.

  (** numpy: the type of an array made of a number of python *)
  Definition default_type (n : num) : dtype :=
    match n with
    | NBool _ => DBool
    | NInt z =>
        if ((- 2 ^ 63 <=? z) && (z <? 2 ^ 63))%Z then DInt 64
        else if ((0 <=? z) && (z <? 2 ^ 64))%Z then DUInt 64
        else DObject
    | NFloat _ => DFloat 64
    | NComplex _ _ => DComplex 128
    end.

  (** [Q_(value, unit)] in the registry of weldx; texts as values are quantities themselves and not modelled *)
  Definition make (v u : tval) : res quantity :=
    bind (match v with
          | TNum n => Ok (MArray (Array (default_type n) [] [n]))
          | TArray a => Ok (MArray a)
          | _ => Err TypeError
          end) (fun m =>
    bind (match u with
          | TUnit u => Ok u
          | TText s => parse s
          | _ => Err TypeError
          end) (fun u =>
    Ok (Quantity m u))).

  Definition get (k : string) (d : dict tval) : res tval :=
    match dget k d with Some v => Ok v | None => Err KeyError end.

  (** lines 41-45 *)
  Definition from_yaml_tree (node : dict tval) (tag : string) : res quantity :=
    let key := if String.prefix "tag:stsci.edu:asdf" tag then "unit" else "units" in
    bind (get "value" node) (fun v => bind (get key node) (fun u => make v u)).

  (** lines 71-77 *)
  Definition unit_to_tree (u : U) : string := format u.
  Definition unit_from_tree (s : string) : res U := parse s.
  (** asdf converts the units in the tree by the converter of units *)
  Definition save (d : dict tval) : dict tval :=
    map (fun p => (fst p, match snd p with TUnit u => TText (unit_to_tree u) | v => v end)) d.
End Pint.

(** comparison of texts in python by the numbers of the characters *)
Fixpoint str_le (a b : string) : bool :=
  match a, b with
  | EmptyString, _ => true
  | String _ _, EmptyString => false
  | String c r, String d t =>
      match N.compare (N_of_ascii c) (N_of_ascii d) with
      | Lt => true
      | Gt => false
      | Eq => str_le r t
      end
  end.
Fixpoint insert (x : string) (l : list string) : list string :=
  match l with
  | [] => [x]
  | y :: r => if str_le x y then x :: l else y :: insert x r
  end.
Definition sorted (l : list string) : list string := fold_right insert [] l.

(** lines 47-49, with weldx/asdf/constants.py: [WELDX_TAG_URI_BASE] *)
Definition tag_base : string := "asdf://weldx.bam.de/weldx/tags/".
Definition select_tag (tags : list string) : res string :=
  match rev (sorted (filter (String.prefix tag_base) tags)) with
  | t :: _ => Ok t
  | [] => Err IndexError
  end.
