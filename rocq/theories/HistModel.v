(** History entries of files.

    Models [WeldxFile.software_history_entry] with its setter (weldx/asdf/file.py 452-507),
    [add_history_entry] (717-736), [history] (738-741), the use of the entry in [__init__]
    (264) and in [copy] (800-809).

    Simplifications: dictionaries that describe software have text values; the time of an
    entry is left out; [software] of [add_history_entry] is a dictionary or [None]; asdf
    ([AsdfFile.add_history_entry]) copies the dictionary into a new entry, appends it and
    removes it if the validation fails; the validation depends on the dictionary only.
    No proofs in this file. *)
From Coq Require Import List String Bool Arith.
From Verif Require Import Base.
Import ListNotations.
Open Scope string_scope.

Section History.
  (** the schema of software entries accepts the dictionary *)
  Variable valid : dict string -> bool.
  (** [weldx._version.__version__] *)
  Variable version : string.

  Record entry : Type := Entry { e_desc : string; e_soft : dict string }.
  (** The memory: dictionaries, entries and lists of entries. *)
  Record heap : Type := Heap {
    h_dicts : list (dict string); h_entries : list entry; h_lists : list (list nat) }.
  (** A file: [_DEFAULT_SOFTWARE_ENTRY] and the list of entries in its tree, if any. *)
  Record file : Type := File { f_soft : nat; f_hist : option nat }.

  Definition dict_at (h : heap) (r : nat) : dict string := nth r (h_dicts h) [].
  Definition list_at (h : heap) (r : nat) : list nat := nth r (h_lists h) [].

  Fixpoint upd {T : Type} (l : list T) (i : nat) (x : T) : list T :=
    match l, i with
    | [], _ => []
    | _ :: r, 0 => x :: r
    | y :: r, S j => y :: upd r j x
    end.

  (** arguments: [None], a [dict], or any other object (also other mappings) *)
  Inductive arg : Type := ANone | ADict (r : nat) | AOther.

  Definition weldx_entry : dict string :=
    [("name", "weldx"); ("author", "BAM");
     ("homepage", "https://www.bam.de/Content/EN/Projects/WelDX/weldx.html"); ("version", version)].

  (** The setter (487-507): the value of the attribute. *)
  Definition set_entry (h : heap) (a : arg) : res (nat * heap) :=
    match a with
    | ANone => Ok (List.length (h_dicts h), Heap (h_dicts h ++ [weldx_entry]) (h_entries h) (h_lists h))
    | AOther => Err ValueError
    | ADict r => if valid (dict_at h r) then Ok (r, h) else Err ValueError
    end.

  (** The part of the constructor (264): a new file without entries. *)
  Definition new_file (h : heap) (a : arg) : res (file * heap) :=
    bind (set_entry h a) (fun p => Ok (File (fst p) None, snd p)).

  (** [f.software_history_entry = a] *)
  Definition assign (h : heap) (f : file) (a : arg) : res (file * heap) :=
    bind (set_entry h a) (fun p => Ok (File (fst p) (f_hist f), snd p)).

  (** [copy] (796-809): the content is written and read, the entry object is passed on. *)
  Definition copy_file (h : heap) (f : file) : res (file * heap) :=
    bind (set_entry h (ADict (f_soft f))) (fun p =>
    match f_hist f with
    | None => Ok (File (fst p) None, snd p)
    | Some l =>
        let es := map (fun i => nth i (h_entries h) (Entry "" [])) (list_at h l) in
        let n := List.length (h_entries h) in
        Ok (File (fst p) (Some (List.length (h_lists h))),
            Heap (h_dicts h) (h_entries h ++ es) (h_lists h ++ [seq n (List.length es)]))
    end).

  (** [add_history_entry] (734-736) *)
  Definition add_entry (h : heap) (f : file) (desc : string) (software : option nat) : res (file * heap) :=
    let r := match software with None => f_soft f | Some s => s end in
    let e := Entry desc (dict_at h r) in
    let i := List.length (h_entries h) in
    if valid (dict_at h r) then
      match f_hist f with
      | None => Ok (File (f_soft f) (Some (List.length (h_lists h))),
                    Heap (h_dicts h) (h_entries h ++ [e]) (h_lists h ++ [[i]]))
      | Some l => Ok (f, Heap (h_dicts h) (h_entries h ++ [e]) (upd (h_lists h) l (list_at h l ++ [i])%list))
      end
    else Err ValidationError.

  (** [history] (741): a new list. *)
  Definition history (h : heap) (f : file) : nat * heap :=
    let l := match f_hist f with None => [] | Some l => list_at h l end in
    (List.length (h_lists h), Heap (h_dicts h) (h_entries h) (h_lists h ++ [l])).

  (** Changes by the user: [d[key] = text], any change of a list, a new description. *)
  Definition change_dict (h : heap) (r : nat) (k v : string) : heap :=
    Heap (upd (h_dicts h) r (dset k v (dict_at h r))) (h_entries h) (h_lists h).
  Definition change_list (h : heap) (l : nat) (x : list nat) : heap :=
    Heap (h_dicts h) (h_entries h) (upd (h_lists h) l x).
  Definition change_entry (h : heap) (i : nat) (e : entry) : heap :=
    Heap (h_dicts h) (upd (h_entries h) i e) (h_lists h).
End History.
