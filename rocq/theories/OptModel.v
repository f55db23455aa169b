(** The options of a [WeldxFile]: schemas, options of writing and the threshold for inline arrays
    (weldx/asdf/file.py 228-409, 505-550, 748-809, 846-893).

    Simplifications: the values of options are texts, numbers, truth values, None and sequences; the
    content of the files is left out. Every call of asdf is an event with the options it gets. Dictionaries
    given by the caller are addresses, as the constructor changes them. The file has been opened already:
    [created] says whether it is new (WxFileModel has the failures of opening), and asdf can write. *)
From Coq Require Import List String Bool Arith.
From Verif Require Import Base.
Import ListNotations.
Open Scope string_scope.

Inductive val : Type :=
| VNone
| VBool (b : bool)
| VNum (n : nat)
| VText (s : string)
| VSeq (l : list val)
| VOther.
Definition opts : Type := dict val.
Definition heap : Type := list opts.
Definition at_ (h : heap) (r : nat) : opts := nth r h [].
Fixpoint put (h : heap) (r : nat) (d : opts) : heap :=
  match h, r with
  | [], _ => []
  | _ :: t, O => d :: t
  | x :: t, S r' => x :: put t r' d
  end.
Definition alloc (h : heap) (d : opts) : heap * nat := ((h ++ [d])%list, List.length h).

(** the calls of asdf: a new file, an update of a file or opening a file *)
Inductive event : Type :=
| EWrite (options config : opts)
| EUpdate (options config : opts)
| ENew (kwargs : opts)
| EOpen (mode : string) (kwargs : opts).

Record file : Type := File {
  f_mode : string;
  f_asdf : nat;
  f_write : nat;
  f_read_schema : option string;
  f_write_schema : option string;
  f_sync : bool;
  f_threshold : val
}.
(** the arguments of the constructor that are options; [a_tree]: there are data to be written *)
Record args : Type := Args {
  a_mode : string;
  a_asdf : option nat;
  a_write : option nat;
  a_tree : bool;
  a_sync : bool;
  a_schema : val;
  a_compression : val;
  a_memmap : bool;
  a_threshold : val
}.

Section Asdf.
  (** [pathlib.Path(s).exists()] and [get_schema_path] *)
  Variable exists_ : string -> bool.
  Variable lookup : string -> res string.
  (** the options that are accepted by [write_to] and [update] of asdf *)
  Variable accepted : list string.
  (** the version of asdf is at least 3.1.0 *)
  Variable recent : bool.
  (** the configuration of asdf *)
  Variable config : opts.

  (** [resolve_schema] in [_handle_custom_schema] (341-353) *)
  Definition resolve (v : val) : res (option string) :=
    match v with
    | VNone => Ok None
    | VText s =>
        if exists_ s then Ok (Some s)
        else match lookup s with
             | Ok p => Ok (Some p)
             | Err ValueError => Err ValueError
             | Err e => Err e
             end
    | _ => Err TypeError
    end.
  (** [_handle_custom_schema] (338-363) *)
  Definition handle_schema (v : val) : res (option string * option string) :=
    match v with
    | VSeq [a; b] => bind (resolve a) (fun r => bind (resolve b) (fun w => Ok (r, w)))
    | VSeq _ => Err ValueError
    | VText _ => bind (resolve v) (fun r => Ok (r, r))
    | _ => Ok (None, None)
    end.
  (** [asdf_open_memory_mapping_kwarg] (52-60) *)
  Definition memory_options (memmap : bool) : opts :=
    if recent then [("memmap", VBool memmap)] else [("copy_arrays", VBool (negb memmap))].

  (** [_config_context] (365-377) *)
  Definition config_with (threshold : val) (kw : opts) : opts :=
    let kw := match dget "array_inline_threshold" kw with
              | None | Some VNone => dset "array_inline_threshold" threshold kw
              | Some _ => kw
              end in
    fold_left (fun c p => dset (fst p) (snd p) c) kw config.

  (** keywords that asdf does not know *)
  Definition checked (o : opts) : res unit :=
    if forallb (fun k => smem k accepted) (dkeys o) then Ok tt else Err TypeError.

  (** the setting of the entry "custom_schema" (270-271, 282-283) *)
  Definition with_schema (s : option string) (d : opts) : opts :=
    match s with Some p => if String.eqb p "" then d else dset "custom_schema" (VText p) d | None => d end.

  (** [__init__] (237-293) with [_write_tree] (379-403) *)
  Definition new_file (created : bool) (a : args) (h : heap) : heap * list event * res file :=
    let '(h, w) := match a_write a with
                   | Some w => (h, w)
                   | None => alloc h [("all_array_compression", a_compression a)]
                   end in
    let '(h, k) := match a_asdf a with
                   | Some k => (h, k)
                   | None => alloc h (memory_options (a_memmap a))
                   end in
    let '(h, schema) := match dget "custom_schema" (at_ h k) with
                        | Some s => (put h k (ddel "custom_schema" (at_ h k)), s)
                        | None => (h, a_schema a)
                        end in
    match handle_schema schema with
    | Err e => (h, [], Err e)
    | Ok (rs, ws) =>
        if negb (String.eqb (a_mode a) "r" || String.eqb (a_mode a) "rw") then (h, [], Err ValueError)
        else if a_tree a && negb (String.eqb (a_mode a) "rw") then (h, [], Err RuntimeError)
        else
          let f := File (a_mode a) k w rs ws (a_sync a && String.eqb (a_mode a) "rw") (a_threshold a) in
          if a_tree a || created then
            let h := put h k (with_schema ws (at_ h k)) in
            if created then
              match checked (at_ h w) with
              | Err e => (h, [ENew (at_ h k)], Err e)
              | Ok _ => (h, [ENew (at_ h k); EWrite (at_ h w) (config_with (a_threshold a) [])], Ok f)
              end
            else
              match checked (at_ h w) with
              | Err e => (h, [EOpen "rw" (at_ h k)], Err e)
              | Ok _ => (h, [EOpen "rw" (at_ h k); EUpdate (at_ h w) (config_with (a_threshold a) [])], Ok f)
              end
          else
            let h := put h k (with_schema rs (at_ h k)) in
            (h, [EOpen (a_mode a) (at_ h k)], Ok f)
    end.

  (** [sync] (527-548): five options have names, all others become part of the configuration *)
  Definition sync_names : list (string * val) :=
    [("all_array_storage", VNone); ("all_array_compression", VText "input"); ("pad_blocks", VBool false);
     ("include_block_index", VBool true); ("version", VNone)].
  Definition sync (f : file) (kw : opts) : event :=
    EUpdate (map (fun p => (fst p, match dget (fst p) kw with Some v => v | None => snd p end)) sync_names)
            (config_with (f_threshold f) (filter (fun p => negb (smem (fst p) (map fst sync_names))) kw)).

  (** [close] (513-522), as far as it writes *)
  Definition close (f : file) (h : heap) : list event :=
    if String.eqb (f_mode f) "rw" && f_sync f then [sync f (at_ h (f_write f))] else [].

  (** [write_to] (846-893) *)
  Definition write_to (f : file) (h : heap) (threshold : val) (kw : opts) : res event :=
    let kw := match kw with [] => at_ h (f_write f) | _ => kw end in
    bind (checked kw) (fun _ =>
      Ok (EWrite kw (config_with (f_threshold f) [("array_inline_threshold", threshold)]))).

  (** [custom_schema] (747-753) *)
  Definition schema_val (s : option string) : val := match s with Some p => VText p | None => VNone end.
  Definition custom_schema (f : file) : val :=
    match f_read_schema f, f_write_schema f with
    | None, None => VNone
    | Some a, Some b => if String.eqb a b then VText a else VSeq [VText a; VText b]
    | a, b => VSeq [schema_val a; schema_val b]
    end.
  (** [copy] (764-809) without the check of the path *)
  Definition copy (f : file) (h : heap) : heap * list event * res file :=
    match write_to f h VNone [] with
    | Err e => (h, [], Err e)
    | Ok e =>
        let '(h, es, r) :=
          new_file false (Args (f_mode f) (Some (f_asdf f)) (Some (f_write f)) false (f_sync f) (custom_schema f)
                               (VText "input") false (f_threshold f)) h in
        (h, e :: es, r)
    end.
End Asdf.
