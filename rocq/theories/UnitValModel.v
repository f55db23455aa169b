(** Unit validation: [_walk_validator] and [_unit_validator] of
    weldx/asdf/validators.py 21-112, [WxUnitValidator] 524-541,
    [_get_instance_units] of weldx/asdf/util.py 616-640 and
    [DataArrayConverter.units_from_tagged] of weldx/tags/core/data_array.py 53-56.

    The units belong to pint: [unit] is the type of units, [parse] the constructor
    [U_] on strings, [dimless] the dimensionless unit and [compatible] the method
    [is_compatible_with] between units. [show] is [str] on values that are no strings.

    Simplifications: a value of the tree is a number ([float], [int] or [bool]), a
    string, a list, a mapping or something else ([TNull]); strings, lists and mappings
    can carry a tag ([TaggedString], [TaggedList], [TaggedDict]). The keys of mappings
    are strings. A validation dictionary has strings as leaves. No converter other
    than [DataArrayConverter] has [units_from_tagged], and no converter registered
    before it matches its tags. *)
From Coq Require Import List String Ascii Bool.
From Verif Require Import Base TagModel.
Import ListNotations.
Open Scope string_scope.
Open Scope list_scope.

Inductive tnode : Type :=
| TNum
| TNull
| TStr (s : string) (tag : option string)
| TList (l : list tnode) (tag : option string)
| TMap (d : list (string * tnode)) (tag : option string).

(** [node[key]] with a string as key *)
Definition getitem (n : tnode) (key : string) : res tnode :=
  match n with
  | TMap d _ => match dget key d with Some c => Ok c | None => Err KeyError end
  | _ => Err TypeError
  end.

(** [key in node] *)
Definition contains (n : tnode) (key : string) : res bool :=
  match n with
  | TMap d _ => Ok (dmem key d)
  | TList l _ => Ok (existsb (fun x => match x with TStr s _ => String.eqb s key | _ => false end) l)
  | TStr s _ => Ok (match String.index 0 key s with Some _ => true | None => false end)
  | TNum | TNull => Err TypeError
  end.

Inductive vspec : Type :=
| VLeaf (dimensionality : string)
| VDict (d : list (string * vspec)).

(** A report: the position and whether the node had no unit at all. *)
Inductive problem : Type := NoUnit | Mismatch.
Definition report : Type := list string * problem.

(** A generator: what it yields, and the exception that ends it, if any. *)
Definition gen : Type := list report * option exn.
Definition done : gen := ([], None).
Definition raise (e : exn) : gen := ([], Some e).
Definition then_ (a b : gen) : gen :=
  match snd a with
  | Some e => a
  | None => (fst a ++ fst b, snd b)
  end.

Definition ndarray_tag : string := "tag:stsci.edu:asdf/core/ndarray".
Definition data_array_tags : patterns := PList ["asdf://weldx.bam.de/weldx/tags/core/data_array-0.1.*"].

Section Units.
  Context {unit : Type} (parse : string -> res unit) (dimless : unit)
          (compatible : unit -> unit -> bool) (show : tnode -> string).

  (** [str(value)] *)
  Definition pystr (n : tnode) : string := match n with TStr s _ => s | _ => show n end.

  (** [_get_instance_units], util.py 616-640 *)
  Fixpoint get_units (n : tnode) : res (option unit) :=
    match n with
    | TNum => Ok (Some dimless)
    | TMap d tag =>
        match dget "units" d with
        | Some v => bind (parse (pystr v)) (fun u => Ok (Some u))
        | None =>
            match tag with
            | None => Ok None
            | Some t =>
                if prefix ndarray_tag t then Ok (Some dimless)
                else if uri_match data_array_tags t
                then (fix data (d : list (string * tnode)) : res (option unit) :=
                        match d with
                        | [] => Err KeyError
                        | (k, v) :: r => if String.eqb "data" k then get_units v else data r
                        end) d
                else Ok None
            end
        end
    | TStr _ (Some t) | TList _ (Some t) =>
        if prefix ndarray_tag t then Ok (Some dimless)
        else if uri_match data_array_tags t then Err TypeError
        else Ok None
    | TStr _ None | TList _ None | TNull => Ok None
    end.

  (** [_unit_validator], validators.py 77-112 *)
  Definition unit_validator (n : tnode) (expected : string) (pos : list string) : gen :=
    match get_units n with
    | Err e => raise e
    | Ok None => ([(pos, NoUnit)], None)
    | Ok (Some u) =>
        match parse expected with
        | Err e => raise e
        | Ok x => if compatible u x then done else ([(pos, Mismatch)], None)
        end
    end.

  (** [_walk_validator], validators.py 21-74, with [_unit_validator] *)
  Fixpoint walk (n : tnode) (s : vspec) (pos : list string) {struct s} : gen :=
    match s with
    | VLeaf e => unit_validator n e pos
    | VDict d =>
        (fix items (d : list (string * vspec)) : gen :=
           match d with
           | [] => done
           | (key, item) :: r =>
               then_
                 match item with
                 | VDict _ =>
                     match getitem n key with
                     | Err e => raise e
                     | Ok c => walk c item (pos ++ [key])
                     end
                 | VLeaf e =>
                     match contains n key with
                     | Err x => raise x
                     | Ok false => done
                     | Ok true =>
                         match getitem n key with
                         | Err x => raise x
                         | Ok c => unit_validator c e (pos ++ [key])
                         end
                     end
                 end (items r)
           end) d
    end.

  (** [WxUnitValidator.validate], validators.py 530-541 *)
  Definition validate (wx_unit : vspec) (n : tnode) : gen := walk n wx_unit [].
End Units.
