(** Tags and tag patterns: [uri_match], [get_converter_for_tag] and
    [get_highest_tag_version] of weldx/asdf/util.py 519-585, and
    [WxPropertyTagValidator] of weldx/asdf/validators.py 563-595.

    [asdf.util.uri_match] belongs to asdf; it is modelled after its documentation:
    ["**"] stands for any characters, ["*"] for any characters but ["/"], every other
    character for itself, and the whole uri has to match. Strings are sequences of
    bytes. *)
From Coq Require Import List String Ascii Bool Arith.
From Verif Require Import Base.
Import ListNotations.
Open Scope string_scope.
Open Scope list_scope.

Definition star : ascii := "*".
Definition slash : ascii := "/".

(** [asdf.util.uri_match(pattern, uri)] *)
Fixpoint glob (p : string) (s : string) {struct p} : bool :=
  match p with
  | EmptyString => match s with EmptyString => true | _ => false end
  | String a p' =>
      if Ascii.eqb a star then
        match p' with
        | String b p'' =>
            if Ascii.eqb b star
            then (fix any (s : string) : bool :=
                    glob p'' s || match s with EmptyString => false | String _ r => any r end) s
            else (fix seg (s : string) : bool :=
                    glob p' s ||
                    match s with
                    | EmptyString => false
                    | String c r => negb (Ascii.eqb c slash) && seg r
                    end) s
        | EmptyString =>
            (fix seg (s : string) : bool :=
               match s with
               | EmptyString => true
               | String c r => negb (Ascii.eqb c slash) && seg r
               end) s
        end
      else match s with
           | String c r => Ascii.eqb a c && glob p' r
           | EmptyString => false
           end
  end.

(** A pattern argument is one string or a list of strings. *)
Inductive patterns : Type :=
| PStr (p : string)
| PList (l : list string).

(** [uri_match], util.py 519-529 *)
Definition uri_match (p : patterns) (uri : string) : bool :=
  match p with
  | PStr s => glob s uri
  | PList l => existsb (fun q => glob q uri) l
  end.

(** [get_converter_for_tag], util.py 532-541. The registered subclasses of
    [WeldxConverter] with their [tags]; the second component of the result tells
    whether the warning is issued. *)
Definition get_converter_for_tag {C : Type} (subclasses : list (C * patterns)) (tag : string)
  : option C * bool :=
  let converters := filter (fun s => uri_match (snd s) tag) subclasses in
  let warned := Nat.ltb 1 (List.length converters) in
  match converters with
  | (c, _) :: _ => (Some c, warned)
  | [] => (None, warned)
  end.

(** [t.rpartition("-")]: the parts before and after the last ["-"]; without one, the
    first part is empty *)
Fixpoint rpartition (t : string) : option (string * string) :=
  match t with
  | EmptyString => None
  | String a r =>
      match rpartition r with
      | Some (b, v) => Some (String a b, v)
      | None => if Ascii.eqb a "-" then Some (""%string, r) else None
      end
  end.
Definition tag_version (t : string) : string :=
  match rpartition t with Some (_, v) => v | None => t end.
Definition tag_base (t : string) : string :=
  match rpartition t with Some (b, _) => b | None => ""%string end.

(** [get_highest_tag_version], util.py 544-585. [ver] is [packaging.version.Version],
    an [InvalidVersion] is a [ValueError]; [vleb] is the order of versions. *)
Section Highest.
  Context {V : Type} (ver : string -> res V) (vleb : V -> V -> bool).

  (** the keys of [tags.sort], computed for all tags before sorting *)
  Fixpoint keyed (tags : list string) : res (list (V * string)) :=
    match tags with
    | [] => Ok []
    | t :: r => bind (ver (tag_version t)) (fun v => bind (keyed r) (fun l => Ok ((v, t) :: l)))
    end.

  (** stable sort *)
  Fixpoint insert (x : V * string) (l : list (V * string)) : list (V * string) :=
    match l with
    | [] => [x]
    | y :: r => if vleb (fst x) (fst y) then x :: y :: r else y :: insert x r
    end.
  Fixpoint sort (l : list (V * string)) : list (V * string) :=
    match l with [] => [] | x :: r => insert x (sort r) end.

  Definition get_highest_tag_version (extension : list string) (pattern : patterns)
    : res (option string) :=
    let tags := filter (uri_match pattern) extension in
    match tags with
    | [] => Ok None
    | _ =>
        bind (keyed tags) (fun l =>
        let sorted := map snd (sort l) in
        let highest := last sorted ""%string in
        let base_tag := tag_base highest in
        if forallb (prefix base_tag) sorted then Ok (Some highest) else Err ValueError)
    end.
End Highest.

(** ** [WxPropertyTagValidator.validate], validators.py 569-595

    A value of the node is represented by its tag: the attribute [_tag] or the tag of
    a builtin type, [None] when asdf knows no tag for the type. The validator is a
    generator: the result is the list of the reported keys, and the exception that
    ends it, if any. *)
Inductive pt_schema : Type :=
| PT (p : patterns)
| PTOther.

Inductive pt_node : Type :=
| PMap (d : dict (option string))
| PNoMap.

Definition property_tag (wx : pt_schema) (n : pt_node) : res (list string) :=
  match wx with
  | PTOther => Err WxSyntaxError
  | PT p =>
      match n with
      | PNoMap => Err AttributeError
      | PMap d =>
          Ok (flat_map (fun kv => match snd kv with
                                  | Some t => if uri_match p t then [] else [fst kv]
                                  | None => []
                                  end) d)
      end
  end.
