(** Converter classes and their registration.

    Models [WeldxConverterMeta.__new__], [to_yaml_tree_metadata],
    [from_yaml_tree_metadata] and [WeldxConverter] (weldx/asdf/types.py 26-97) as
    operations on classes, [WeldxExtension.converters] and [get_extensions]
    (weldx/asdf/extension.py 56-76), and [get_weldx_extension] and
    [get_converter_for_tag] (weldx/asdf/util.py 503-541) with the classes that exist at
    the time of the call.

    Simplifications: single inheritance; classes are not changed or deleted after their
    definition, so each holds the values that its attributes have, inherited or not. No
    proofs in this file. *)
From Coq Require Import List String Bool Arith.
From Verif Require Import Base SerialModel TagModel KindModel.
Import ListNotations.
Open Scope string_scope.

(** Objects: a value and the attributes [wx_metadata] and [wx_user] *)
Record obj : Type := Obj { o_value : nat; o_meta : option yaml; o_user : option yaml }.
Definition to_fun : Type := obj -> res yaml.
Definition from_fun : Type := yaml -> res obj.

(** [to_yaml_tree_metadata] (26-46) *)
Definition wrap_to (f : to_fun) : to_fun :=
  fun o => bind (f o) (fun t => to_metadata t (o_meta o) (o_user o)).
(** [setattr] for the entries of [meta_dict] (62-63) *)
Definition set_meta (m : option yaml) (o : obj) : obj :=
  match m with Some _ => Obj (o_value o) m (o_user o) | None => o end.
Definition set_user (u : option yaml) (o : obj) : obj :=
  match u with Some _ => Obj (o_value o) (o_meta o) u | None => o end.
(** [from_yaml_tree_metadata] (49-66) *)
Definition wrap_from (f : from_fun) : from_fun :=
  fun t => let '(t', m, u) := from_metadata t in
           bind (f t') (fun o => Ok (set_user u (set_meta m o))).

(** The attribute [tags] of a class: None or patterns *)
Inductive ctags : Type := TNone | TPat (p : patterns).
(** The body of a class statement; bases are numbers of classes. *)
Record decl : Type := Decl {
  d_base : nat;
  d_name : option string;
  d_tags : option ctags;
  d_to : option to_fun;
  d_from : option from_fun
}.
Record cls : Type := Cls {
  k_base : option nat;
  k_name : option string;
  k_tags : ctags;
  k_to : to_fun;
  k_from : from_fun
}.
Definition or_else {A : Type} (o : option A) (a : A) : A := match o with Some x => x | None => a end.

(** [WeldxConverterMeta.__new__] (72-84): name, tags and methods as found by [getattr] *)
Definition new_class (base : option nat) (name : option string) (tags : ctags) (to : to_fun) (from : from_fun) : cls :=
  let tags' :=
    match name with
    | Some n => if String.eqb n "" then tags else TPat (PList [format_tag n (Some "0.1.*")])
    | None => tags
    end in
  Cls base name tags' (wrap_to to) (wrap_from from).
(** [WeldxConverter] (87-97), the class number 0 *)
Definition weldx_converter : cls :=
  new_class None None TNone (fun _ => Err NotImplementedError) (fun _ => Err NotImplementedError).
(** a class statement *)
Definition define (w : list cls) (d : decl) : res (list cls) :=
  match nth_error w (d_base d) with
  | None => Err NameError
  | Some b =>
      let name := match d_name d with Some n => Some n | None => k_name b end in
      Ok (w ++ [new_class (Some (d_base d)) name (or_else (d_tags d) (k_tags b))
                  (or_else (d_to d) (k_to b)) (or_else (d_from d) (k_from b))])%list
  end.
Definition define_all (ds : list decl) : res (list cls) :=
  fold_left (fun r d => bind r (fun w => define w d)) ds (Ok [weldx_converter]).

(** [WeldxConverter.__subclasses__()]: the direct subclasses in the order of definition *)
Definition is_direct (k : cls) : bool := match k_base k with Some O => true | _ => false end.
Definition numbered {A : Type} (l : list A) : list (nat * A) := combine (seq 0 (List.length l)) l.
Definition subclasses (w : list cls) : list (nat * cls) := filter (fun p => is_direct (snd p)) (numbered w).

(** [uri_match(s.tags, tag)]; None is not iterable *)
Definition match_tags (t : ctags) (tag : string) : res bool :=
  match t with TNone => Err TypeError | TPat p => Ok (uri_match p tag) end.
Fixpoint matching (l : list (nat * cls)) (tag : string) : res (list nat) :=
  match l with
  | [] => Ok []
  | (i, k) :: r => bind (match_tags (k_tags k) tag) (fun b => bind (matching r tag) (fun t => Ok (if b then i :: t else t)))
  end.
(** [get_converter_for_tag]: the class and whether the warning is issued *)
Definition converter_for (w : list cls) (tag : string) : res (option nat * bool) :=
  bind (matching (subclasses w) tag) (fun l => Ok (hd_error l, Nat.ltb 1 (List.length l))).

(** ** The extension *)
(** A python session: the classes, and what is left of the generator
    [WeldxExtension.converters]; None before the import of weldx.asdf.extension. The
    list of subclasses is made at the import, and a generator is used up by iterating. *)
Record session : Type := Session { s_classes : list cls; s_left : option (list nat) }.
Inductive event : Type := EDefine (d : decl) | EImport | EIterate.
Definition happen (s : session) (e : event) : session * res (list nat) :=
  match e with
  | EDefine d =>
      match define (s_classes s) d with
      | Ok w => (Session w (s_left s), Ok [])
      | Err x => (s, Err x)
      end
  | EImport =>
      match s_left s with
      | Some _ => (s, Ok [])
      | None => (Session (s_classes s) (Some (map fst (subclasses (s_classes s)))), Ok [])
      end
  | EIterate =>
      match s_left s with
      | Some l => (Session (s_classes s) (Some []), Ok l)
      | None => (s, Err AttributeError)
      end
  end.
Definition run (s : session) (es : list event) : session := fold_left (fun s e => fst (happen s e)) es s.
Definition start : session := Session [weldx_converter] None.

(** ** [get_weldx_extension] *)
(** Contexts with extensions, given by their [extension_uri]; other objects *)
Inductive context : Type := CSerialization (l : list (option string)) | CConfig (l : list (option string)) | COther.
Definition EXTENSION_URI : string := "asdf://weldx.bam.de/weldx/extensions/weldx-0.1.2".
(** [str(uri) == WELDX_EXTENSION_URI]; legacy extensions have None *)
Definition is_weldx (u : option string) : bool :=
  String.eqb (match u with Some s => s | None => "None" end) EXTENSION_URI.
(** the number of the extension in the list *)
Definition weldx_extension (c : context) : res nat :=
  match c with
  | COther => Err TypeError
  | CSerialization l | CConfig l =>
      match filter (fun p => is_weldx (snd p)) (numbered l) with
      | [(i, _)] => Ok i
      | _ => Err ValueError
      end
  end.
