(** Tags of saved grooves and processes.

    Models [format_tag] and [default_class_display_name] (weldx/asdf/types.py 86-115),
    [IsoGrooveConverter] (weldx/tags/groove/iso_9692_1.py), [GmawProcess]
    (weldx/welding/processes.py) with [GmawProcessConverter]
    (weldx/tags/processes/process.py), and [ArcWeldingProcess]
    (weldx/tags/aws/process/arc_welding_process.py).

    Simplifications: fields of dataclasses are an ordered dictionary, fields with the
    value None are dropped before writing (weldx/asdf/types.py 41-43) and their contents
    are restored; schemas are left out. No proofs in this file. *)
From Coq Require Import List String Ascii Bool Arith.
From Verif Require Import Base TagModel.
Import ListNotations.
Open Scope string_scope.

(** ** Texts *)
Fixpoint drop (n : nat) (s : string) : string :=
  match n, s with S n', String _ r => drop n' r | _, _ => s end.
(** [s.rpartition(sep)]: the last occurrence *)
Fixpoint rpart (sep s : string) : option (string * string) :=
  match s with
  | EmptyString => None
  | String c r =>
      match rpart sep r with
      | Some (a, b) => Some (String c a, b)
      | None => if prefix sep s then Some (EmptyString, drop (String.length sep) s) else None
      end
  end.
Definition rpart_first (sep s : string) : string := match rpart sep s with Some (a, _) => a | None => "" end.
Definition rpart_last (sep s : string) : string := match rpart sep s with Some (_, b) => b | None => s end.
(** [sub in s] *)
Fixpoint contains (sub s : string) : bool :=
  prefix sub s || match s with EmptyString => false | String _ r => contains sub r end.

(** [format_tag] *)
Definition format_tag (name : string) (version : option string) : string :=
  let tag := "asdf://weldx.bam.de/weldx/tags/" ++ name in
  match version with None => tag | Some v => tag ++ "-" ++ v end.
(** [default_class_display_name]: a type given by its path or by its class *)
Inductive ctype : Type := TPath (s : string) | TClass (qualname : string).
Definition display_name (types : list ctype) : res string :=
  match types with
  | [] => Err IndexError
  | TPath s :: _ => Ok (rpart_last "." s)
  | TClass q :: _ => Ok q
  end.

(** ** Grooves *)
Definition groove_schema : string := "groove/iso_9692_1_2013_12/".
(** the subclasses of [IsoBaseGroove] in the order of their definition *)
Definition groove_names : list string :=
  ["IGroove"; "VGroove"; "VVGroove"; "UVGroove"; "UGroove"; "HVGroove"; "HUGroove"; "DVGroove"; "DUGroove";
   "DHVGroove"; "DHUGroove"; "FFGroove"].
(** [_get_class_from_tag] (14-16) *)
Definition class_of_tag (tag : string) : string := rpart_first "-" (rpart_last "/iso_9692_1_2013_12/" tag).
(** [IsoGrooveConverter.tags] (22-25) *)
Definition groove_tags : list string :=
  (map (fun g => format_tag (groove_schema ++ g) (Some "0.1.*")) groove_names ++
  ["asdf://weldx.bam.de/weldx/tags/groove/iso_9692_1_2013_12/*Groove-0.1.*"])%list.
(** [select_tag] (38-50); [ext]: the tags of the extension *)
Definition select_groove (cls : string) (ext : list string) : res string :=
  let snip := groove_schema ++ cls in
  let selection := removelast (filter (prefix "asdf://") groove_tags) in
  match filter (contains snip) selection with
  | [p] => match filter (glob p) ext with t :: _ => Ok t | [] => Err IndexError end
  | _ => Err ValueError
  end.

Section Fields.
  Context {V : Type}.
  (** The fields of a class with their defaults; required ones have none. *)
  Definition fields : Type := list (string * option (option V)).
  Record groove : Type := Groove { g_class : string; g_fields : dict (option V) }.
  (** the tree: None values are dropped *)
  Definition node_of (d : dict (option V)) : dict V :=
    flat_map (fun kv => match snd kv with Some v => [(fst kv, v)] | None => [] end) d.
  (** a dataclass called with the items of the node *)
  Fixpoint fill (fs : fields) (n : dict V) : res (dict (option V)) :=
    match fs with
    | [] => Ok []
    | (k, dflt) :: r =>
        match dget k n, dflt with
        | Some v, _ => bind (fill r n) (fun d => Ok ((k, Some v) :: d))
        | None, Some o => bind (fill r n) (fun d => Ok ((k, o) :: d))
        | None, None => Err TypeError
        end
    end.
  Definition construct (fs : fields) (n : dict V) : res (dict (option V)) :=
    if forallb (fun kv => smem (fst kv) (map fst fs)) n then fill fs n else Err TypeError.
  Variable classes : dict fields.
  (** [from_yaml_tree] (32-36) *)
  Definition load_groove (tag : string) (n : dict V) : res groove :=
    let name := class_of_tag tag in
    match dget name classes with
    | None => Err KeyError
    | Some fs => bind (construct fs n) (fun d => Ok (Groove name d))
    end.
  Definition save_groove (ext : list string) (g : groove) : res (string * dict V) :=
    bind (select_groove (g_class g) ext) (fun t => Ok (t, node_of (g_fields g))).
End Fields.
Arguments fields : clear implicits. Arguments groove : clear implicits.

(** ** GMAW processes *)
Section Gmaw.
  (** time series, other values of parameters, base process, manufacturer and power source,
      meta data *)
  Context {TS Val B M : Type}.
  (** [TimeSeries(value)] *)
  Variable series : Val -> res TS.

  Inductive pvalue : Type := PSeries (t : TS) | POther (v : Val).
  Record gmaw : Type := Gmaw { p_base : B; p_params : dict TS; p_tag : string; p_meta : option M }.
  (** [__post_init__] *)
  Fixpoint convert (ps : dict pvalue) : res (dict TS) :=
    match ps with
    | [] => Ok []
    | (k, PSeries t) :: r => bind (convert r) (fun d => Ok ((k, t) :: d))
    | (k, POther v) :: r => bind (series v) (fun t => bind (convert r) (fun d => Ok ((k, t) :: d)))
    end.
  Definition new_gmaw (b : B) (ps : dict pvalue) (tag : option string) (meta : option M) : res gmaw :=
    let tag := match tag with None => "GMAW" | Some t => t end in
    bind (convert ps) (fun d => Ok (Gmaw b d tag meta)).

  Definition gmaw_tags : list string :=
    ["asdf://weldx.bam.de/weldx/tags/process/GMAW-0.1.*";
     "asdf://weldx.bam.de/weldx/tags/process/CLOOS/spray_arc-0.1.*";
     "asdf://weldx.bam.de/weldx/tags/process/CLOOS/pulse-0.1.*"].
  (** [select_tag] *)
  Definition select_gmaw (tag : string) : res string :=
    let t := format_tag ("process/" ++ tag) (Some "0.1.0") in
    if uri_match (PList gmaw_tags) t then Ok t else Err ValueError.
  (** The tree contains the tag as well; it may be missing in files of others. *)
  Record gnode : Type := Gn { n_base : B; n_params : dict TS; n_tag : option string; n_meta : option M }.
  Definition save_gmaw (p : gmaw) : res (string * gnode) :=
    bind (select_gmaw (p_tag p)) (fun t => Ok (t, Gn (p_base p) (p_params p) (Some (p_tag p)) (p_meta p))).
  Definition load_gmaw (tag : string) (n : gnode) : res gmaw :=
    new_gmaw (n_base n) (map (fun kv => (fst kv, PSeries (snd kv))) (n_params n)) (n_tag n) (n_meta n).
End Gmaw.
Arguments gmaw : clear implicits. Arguments gnode : clear implicits. Arguments pvalue : clear implicits.

(** ** Arc welding processes *)
Definition name_to_abbr : dict string :=
  [("atomicHydrogenWelding", "AHW"); ("bareMetalArcWelding", "BMAW"); ("carbonArcWelding", "CAW");
   ("carbonArcWeldingGas", "CAW-G"); ("carbonArcWeldingShielded", "CAW-S"); ("electrogasWelding", "EGW");
   ("electroSlagWelding", "ESW"); ("gasMetalArcWelding", "GMAW"); ("gasTungstenArcWelding", "GTAW");
   ("plasmaArcWelding", "PAW"); ("shieldedMetalArcWelding", "SMAW"); ("studArcWelding", "SW");
   ("submergedArcWelding", "SAW"); ("submergedArcWeldingSeries", "SAW-S")].
Definition abbr_to_name : dict string :=
  [("AHW", "atomicHydrogenWelding"); ("BMAW", "bareMetalArcWelding"); ("CAW", "carbonArcWelding");
   ("CAW-G", "carbonArcWeldingGas"); ("CAW-S", "carbonArcWeldingShielded"); ("EGW", "electrogasWelding");
   ("ESW", "electroSlagWelding"); ("GMAW", "gasMetalArcWelding"); ("GTAW", "gasTungstenArcWelding");
   ("PAW", "plasmaArcWelding"); ("SMAW", "shieldedMetalArcWelding"); ("SW", "studArcWelding");
   ("SAW", "submergedArcWelding"); ("SAW-S", "submergedArcWeldingSeries")].
Record arc : Type := Arc { arc_name : string; arc_abbr : string }.
(** [ArcWeldingProcess.__init__] *)
Definition new_arc (s : string) : res arc :=
  match dget s name_to_abbr with
  | Some a => Ok (Arc s a)
  | None => match dget s abbr_to_name with Some n => Ok (Arc n s) | None => Err ValueError end
  end.
(** the tree has both fields; [_from_yaml_tree] uses the name only *)
Definition load_arc (n : dict string) : res arc :=
  match dget "name" n with Some s => new_arc s | None => Err KeyError end.
Definition save_arc (a : arc) : dict string := [("name", arc_name a); ("abbreviation", arc_abbr a)].
