(** Reduced representation of schema files.

    Models weldx/asdf/util.py: [get_schema_path] (lines 51-75) and [get_schema_tree] (719-819), and
    [boltons.iterutils.remap] as far as it is used there: children first, then [visit] of the item;
    [visit] of list items may not change the (integer) key; items of mappings are put in a dict.

    Simplifications: a loaded YAML file is made of texts, mappings with texts as keys, lists and
    other values; the class name for a tag (or None) is the parameter [conv]; of the glob pattern
    [**/name.yaml] only names without glob characters are covered.  No proofs in this file. *)
From Coq Require Import List String Ascii Bool Arith.
From Verif Require Import Base.
Import ListNotations.
Open Scope string_scope.

(** ** Texts *)
(** [k[:-1]] *)
Fixpoint butlast (s : string) : string :=
  match s with
  | String c ((String _ _) as r) => String c (butlast r)
  | _ => ""
  end.
(** the rest of [s] after [n] characters *)
Fixpoint drop (n : nat) (s : string) : string :=
  match n, s with
  | Datatypes.S m, String _ r => drop m r
  | _, _ => s
  end.
(** [s.split(sep)[-1]] for a separator that does not overlap itself *)
Fixpoint after_last (sep s : string) : option string :=
  match s with
  | "" => None
  | String c r => match after_last sep r with
                  | Some t => Some t
                  | None => if prefix sep s then Some (drop (String.length sep) s) else None
                  end
  end.
Definition split_last (sep s : string) : string :=
  match after_last sep s with Some t => t | None => s end.
(** [s.split(sep)[0]] *)
Fixpoint split_first (sep s : string) : string :=
  if prefix sep s then "" else match s with "" => "" | String c r => String c (split_first sep r) end.
Fixpoint ends_with (e s : string) : bool :=
  String.eqb e s || match s with "" => false | String _ r => ends_with e r end.

(** ** [get_schema_path] (51-75): the path and whether there is a warning *)
Definition schema_file (name path : string) : bool :=
  String.eqb path (name ++ ".yaml") || ends_with ("/" ++ name ++ ".yaml") path.
Definition get_schema_path (files : list string) (schema : string) : res (string * bool) :=
  match filter (schema_file (split_first ".yaml" schema)) files with
  | [] => Err ValueError
  | p :: r => Ok (p, match r with [] => false | _ => true end)
  end.

(** ** Trees and [remap] *)
Inductive node : Type :=
| Txt (s : string)
| Oth
| Obj (d : list (string * node))
| Arr (l : list node).

Definition of_items (l : list (string * node)) : list (string * node) :=
  fold_left (fun d p => dset (fst p) (snd p) d) l [].

(** [remap(root, visit)]; [visit] gives the item, nothing to drop it, or an exception. *)
Definition visitor : Type := string -> node -> res (option (string * node)).
Section Remap.
  Variable visit : visitor.
  Definition keep (o : option (string * node)) (r : list (string * node)) : list (string * node) :=
    match o with Some p => p :: r | None => r end.
  Fixpoint remap (n : node) : res node :=
    match n with
    | Txt s => Ok (Txt s)
    | Oth => Ok Oth
    | Obj d => bind ((fix items (d : list (string * node)) : res (list (string * node)) :=
                        match d with
                        | [] => Ok []
                        | (k, v) :: r => bind (remap v) (fun v' => bind (visit k v') (fun o =>
                                         bind (items r) (fun r' => Ok (keep o r'))))
                        end) d) (fun l => Ok (Obj (of_items l)))
    | Arr a => bind ((fix items (a : list node) : res (list (string * node)) :=
                        match a with
                        | [] => Ok []
                        | v :: r => bind (remap v) (fun v' => bind (visit "" v') (fun o =>
                                    bind (items r) (fun r' => Ok (keep o r'))))
                        end) a) (fun l => Ok (Arr (map snd l)))
    end.
End Remap.

(** ** The visitors *)
Section Visitors.
  Variable conv : string -> option string.

  Definition class_of (tag : string) : string :=
    match conv tag with
    | Some c => c
    | None => split_last "asdf://weldx.bam.de/weldx/tags/" tag
    end.
  (** the text in parentheses, if any (747-772) *)
  Definition annotation (d : list (string * node)) : res (option string) :=
    match dget "tag" d with
    | Some (Txt t) => Ok (Some (class_of t))
    | Some _ => Err TypeError
    | None =>
        match dget "$ref" d with
        | Some (Txt t) => Ok (Some ("$" ++ split_last "asdf://weldx.bam.de/weldx/schemas/" t))
        | Some _ => Err AttributeError
        | None =>
            match dget "type" d with
            | Some (Txt t) =>
                Ok (if String.eqb t "object" then Some "dict"
                    else if String.eqb t "array" then Some "list"
                    else if String.eqb t "string" then Some "str"
                    else if String.eqb t "number" then Some "number"
                    else None)
            | _ => Ok None
            end
        end
    end.
  Definition with_note (key : string) (o : option string) : string :=
    match o with Some s => key ++ " (" ++ s ++ ")" | None => key end.
  Definition resolve_python_classes : visitor := fun key value =>
    match value with
    | Obj d => bind (annotation d) (fun o => Ok (Some (with_note key o, value)))
    | _ => Ok (Some (key, value))
    end.

  (** [mark_required] (782-798); [reqs] are texts *)
  Definition names (l : list node) : list string :=
    flat_map (fun n => match n with Txt s => [s] | _ => [] end) l.
  Definition mark_key (reqs : list string) (k : string) : string :=
    if existsb (fun r => prefix r k) reqs then butlast k ++ ", required" ++ ")" else k.
  Definition mark_props (reqs : list string) (props : list (string * node)) : list (string * node) :=
    of_items (map (fun p => (mark_key reqs (fst p), snd p)) props).
  Definition mark_required : visitor := fun key value =>
    match value with
    | Obj d =>
        match dget "required" d with
        | None => Ok (Some (key, value))
        | Some (Arr reqs) =>
            match dget "properties" d with
            | None => Err KeyError
            | Some (Obj props) => Ok (Some (key, Obj (dset "properties" (Obj (mark_props (names reqs) props)) d)))
            | Some _ => Err AttributeError
            end
        | Some _ => Err TypeError
        end
    | _ => Ok (Some (key, value))
    end.

  (** [drop_meta] (800-803) *)
  Definition drop_meta (more : list string) : visitor := fun key value =>
    if smem key (["examples"; "description"; "tag"; "$ref"; "type"] ++ more)%list then Ok None else Ok (Some (key, value)).

  (** [drop_properties] (805-811) *)
  Definition drop_properties : visitor := fun key value =>
    match value with
    | Obj d => match dget "properties" d with Some p => Ok (Some (key, p)) | None => Ok (Some (key, value)) end
    | _ => Ok (Some (key, value))
    end.

  (** 813-819, without [convert_wx_shape], which changes values of [wx_shape] only *)
  Definition get_schema_tree (more : list string) (header : node) : res node :=
    bind (remap resolve_python_classes (Arr [header])) (fun a =>
    bind (remap mark_required a) (fun b =>
    bind (remap (drop_meta more) b) (fun c =>
    bind (remap drop_properties c) (fun d =>
    match d with Arr (x :: _) => Ok x | _ => Err IndexError end)))).
End Visitors.
