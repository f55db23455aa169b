(** Quality standards and their registration, weldx/config.py.

    The file system of a standard is given by the manifest files, in the order in
    which [filterdir] lists them, and the schema files. A manifest file has a text and
    what [yaml.load] makes of it: the entries [id] and [tags], if present. The texts are
    opaque. [version] is [AsdfVersion] with its parser, its equality and its order.

    [asdf.versioning.split_tag_version] splits at the last ["-"]; without one the
    unpacking of the result is a [ValueError]. A missing file is a [FileNotFoundError]
    (the class of pyfilesystem is [ResourceNotFound]). *)
From Coq Require Import List String Ascii Bool.
From Verif Require Import Base TagModel.
Import ListNotations.
Open Scope string_scope.
Open Scope list_scope.

Section Std.
  Context {version : Type} (vparse : string -> res version)
          (veqb : version -> version -> bool) (vltb : version -> version -> bool).

  Record manifest : Type := Manifest {
    m_text : string;
    m_id : option string;
    m_tags : option (list (string * string))       (* uri and file of each tag *)
  }.
  Record filesystem : Type := FS {
    fs_manifests : list (string * manifest);
    fs_schemas : list (string * string)             (* file name and text *)
  }.
  Record entry : Type := Entry {
    e_manifest : dict string;                       (* "manifest_file_mapping" *)
    e_schemas : dict string                         (* "schema_file_mapping" *)
  }.
  Record standard : Type := Std {
    q_fs : filesystem;
    q_name : option string;
    q_max : option version;
    q_versions : list (version * entry)
  }.

  (** [filename[: filename.rindex(".")]] *)
  Fixpoint stem (f : string) : option string :=
    match f with
    | EmptyString => None
    | String a r =>
        match stem r with
        | Some s => Some (String a s)
        | None => if Ascii.eqb a "." then Some ""%string else None
        end
    end.

  (** [split_tag_version(filename[: filename.rindex(".")])], config.py 50-51 *)
  Definition name_and_version (f : string) : res (string * version) :=
    match stem f with
    | None => Err ValueError
    | Some s =>
        match rpartition s with
        | None => Err ValueError
        | Some (n, v) => bind (vparse v) (fun v => Ok (n, v))
        end
    end.

  Fixpoint vget (v : version) (l : list (version * entry)) : option entry :=
    match l with
    | [] => None
    | (w, e) :: r => if veqb v w then Some e else vget v r
    end.
  Fixpoint vset (v : version) (e : entry) (l : list (version * entry)) : list (version * entry) :=
    match l with
    | [] => [(v, e)]
    | (w, x) :: r => if veqb v w then (w, e) :: r else (w, x) :: vset v e r
    end.

  (** the content of a manifest, config.py 62-70 *)
  Definition entry_of (f : string) (m : manifest) : res entry :=
    match m_id m, m_tags m with
    | Some i, Some tags =>
        Ok (Entry [(i, f)]
                  (fold_left (fun d t => dset (fst t) (snd t ++ ".yaml")%string d) tags []))
    | _, _ => Err KeyError
    end.

  (** the loop over the manifest files, config.py 49-70 *)
  Fixpoint load (files : list (string * manifest)) (q : standard) : res standard :=
    match files with
    | [] => Ok q
    | (f, m) :: r =>
        bind (name_and_version f) (fun nv =>
        let (n, v) := (nv : string * version) in
        bind (match q_name q with
              | None => Ok (Some n, Some v)
              | Some n' =>
                  if negb (String.eqb n n') then Err ValueError
                  else Ok (q_name q,
                           match q_max q with
                           | Some x => if vltb x v then Some v else Some x
                           | None => None
                           end)
              end) (fun nx =>
        bind (entry_of f m) (fun e =>
        load r (Std (q_fs q) (fst nx) (snd nx) (vset v e (q_versions q))))))
    end.

  (** [QualityStandard.__init__], config.py 20-70 *)
  Definition make (fs : filesystem) : res standard := load (fs_manifests fs) (Std fs None None []).

  (** [_map_file_content], config.py 72-98 *)
  Fixpoint map_content (read : string -> option string) (files : dict string) : res (dict string) :=
    match files with
    | [] => Ok []
    | (uri, f) :: r =>
        match read f with
        | None => Err FileNotFoundError
        | Some t => bind (map_content read r) (fun l => Ok ((uri, t) :: l))
        end
    end.
  Definition read_manifest (fs : filesystem) (f : string) : option string :=
    option_map m_text (dget f (fs_manifests fs)).
  Definition read_schema (fs : filesystem) (f : string) : option string := dget f (fs_schemas fs).

  (** A requested version: none, a string or an [AsdfVersion]. *)
  Inductive request : Type := RNone | RStr (s : string) | RVer (v : version).

  (** [get_mappings], config.py 106-136 *)
  Definition get_mappings (q : standard) (r : request) : res (dict string * dict string) :=
    bind (match r with
          | RNone => match q_max q with Some v => Ok v | None => Err KeyError end
          | RStr s => vparse s
          | RVer v => Ok v
          end) (fun v =>
    match vget v (q_versions q) with
    | None => Err KeyError
    | Some e =>
        bind (map_content (read_manifest (q_fs q)) (e_manifest e)) (fun m =>
        bind (map_content (read_schema (q_fs q)) (e_schemas e)) (fun s => Ok (m, s)))
    end).

  (** ** [Config], config.py 139-192: the registered standards, and the mappings passed
      to [add_resource_mapping] of the asdf configuration, in the order of the calls. *)
  Record config : Type := Config {
    k_standards : list (option string * standard);
    k_added : list (dict string)
  }.

  Definition name_eqb (a b : option string) : bool :=
    match a, b with
    | Some x, Some y => String.eqb x y
    | None, None => true
    | _, _ => false
    end.
  Fixpoint sget (n : option string) (l : list (option string * standard)) : option standard :=
    match l with
    | [] => None
    | (m, q) :: r => if name_eqb n m then Some q else sget n r
    end.
  Fixpoint sset (n : option string) (q : standard) (l : list (option string * standard))
    : list (option string * standard) :=
    match l with
    | [] => [(n, q)]
    | (m, p) :: r => if name_eqb n m then (m, q) :: r else (m, p) :: sset n q r
    end.

  (** [add_quality_standard], 144-153 *)
  Definition add_standard (k : config) (q : standard) : config :=
    Config (sset (q_name q) q (k_standards k)) (k_added k).

  (** [enable_quality_standard], 156-174 *)
  Definition enable (k : config) (n : option string) (r : request) : config * res unit :=
    match sget n (k_standards k) with
    | None => (k, Err KeyError)
    | Some q =>
        match get_mappings q r with
        | Err e => (k, Err e)
        | Ok (m, s) => (Config (k_standards k) (k_added k ++ [m; s]), Ok tt)
        end
    end.

  (** What an entry point returns: a list or a single value; a value is a standard or
      something else. *)
  Inductive loaded : Type := LList (l : list (option standard)) | LOne (x : option standard).

  Fixpoint register (k : config) (l : list (option standard)) : config * res unit :=
    match l with
    | [] => (k, Ok tt)
    | Some q :: r => register (add_standard k q) r
    | None :: _ => (k, Err TypeError)
    end.

  (** [load_installed_standards], 177-192 *)
  Fixpoint load_installed (k : config) (entry_points : list loaded) : config * res unit :=
    match entry_points with
    | [] => (k, Ok tt)
    | x :: r =>
        match register k (match x with LList l => l | LOne q => [q] end) with
        | (k', Ok _) => load_installed k' r
        | (k', Err e) => (k', Err e)
        end
    end.
End Std.
