(** Model of the life of a [WeldxFile] (weldx/asdf/file.py lines 219-449, 518-548,
    747-893): constructor, [close], [sync], [write_to], [copy].
    Simplifications: a file is empty, an ASDF file with a tree, or something else;
    the tree are the entries a user can see (the library adds [history] and
    [asdf_library]); an ASDF file written through a handle reads back as the tree
    that was written; schema files exist; of the keyword arguments for [asdf.open] only
    [custom_schema] is kept.  That dictionary is a shared object, so it lives in
    a heap. *)
From Coq Require Import List String Bool Arith.
From Verif Require Import Base.
Import ListNotations.

Inductive loc : Type := LPath (p : string) | LBuf (n : nat).
Definition loc_eqb (a b : loc) : bool :=
  match a, b with
  | LPath p, LPath q => String.eqb p q
  | LBuf n, LBuf m => Nat.eqb n m
  | _, _ => false
  end.

Definition tree : Type := dict nat.
Inductive content : Type := CEmpty | CAsdf (t : tree) | COther (bytes : nat).

Definition schema : Type := string.
(** the parameter [custom_schema]: a path or a sequence of optional paths *)
Inductive spec : Type := SNone | SOne (s : schema) | SSeq (l : list (option schema)).

Record world : Type := World {
  files : loc -> option content;   (* None: there is no such file *)
  buffers : nat;                   (* number of buffers so far *)
  kwargs : nat -> option spec;     (* the entry "custom_schema" of each dictionary *)
  dicts : nat                      (* number of dictionaries so far *)
}.

Definition put (l : loc) (c : content) (w : world) : world :=
  World (fun l' => if loc_eqb l l' then Some c else files w l') (buffers w) (kwargs w) (dicts w).
Definition set_kw (k : nat) (s : option spec) (w : world) : world :=
  World (files w) (buffers w) (fun k' => if Nat.eqb k k' then s else kwargs w k') (dicts w).
Definition new_buffer (w : world) : loc * world :=
  (LBuf (buffers w), World (fun l' => if loc_eqb (LBuf (buffers w)) l' then Some CEmpty else files w l') (S (buffers w)) (kwargs w) (dicts w)).
Definition new_dict (w : world) : nat * world :=
  (dicts w, World (files w) (buffers w) (fun k' => if Nat.eqb (dicts w) k' then None else kwargs w k') (S (dicts w))).

Inductive fmode : Type := MRead | MReadWrite | MOther.
Definition mode_eqb (a b : fmode) : bool :=
  match a, b with MRead, MRead | MReadWrite, MReadWrite | MOther, MOther => true | _, _ => false end.

(** A [WeldxFile]: the attributes and the state of the library handle
    ([h_tree], [h_schema]). *)
Record wx : Type := Wx {
  w_loc : loc;
  w_mode : fmode;
  w_sync : bool;
  w_read : option schema;
  w_write : option schema;
  w_kwargs : nat;
  h_tree : tree;
  h_schema : option spec
}.

Section Files.
  (** [asdf] validation of a tree with a custom schema *)
  Variable valid : schema -> tree -> bool.

  (** what [AsdfFile] does with its parameter [custom_schema], a single path *)
  Definition validate (s : option spec) (t : tree) : res unit :=
    match s with
    | None | Some SNone => Ok tt
    | Some (SOne s) => if valid s t then Ok tt else Err ValidationError
    | Some (SSeq _) => Err TypeError
    end.

  (** [asdf.open] *)
  Definition open_asdf (l : loc) (s : option spec) (w : world) : res tree :=
    match files w l with
    | Some (CAsdf t) => bind (validate s t) (fun _ => Ok t)
    | _ => Err ValueError
    end.

  (** lines 338-362 [_handle_custom_schema] *)
  Definition handle_schema (s : spec) : res (option schema * option schema) :=
    match s with
    | SNone => Ok (None, None)
    | SOne p => Ok (Some p, Some p)
    | SSeq [a; b] => Ok (a, b)
    | SSeq _ => Err ValueError
    end.

  (** lines 423-449 [_handle_path]: True if the file was created *)
  Definition handle_path (p : string) (m : fmode) (w : world) : world * res (loc * bool) :=
    match files w (LPath p) with
    | None => if mode_eqb m MRead then (w, Err RuntimeError)
              else (put (LPath p) CEmpty w, Ok (LPath p, true))
    | Some c => if mode_eqb m MReadWrite
                then match c with
                     | CAsdf _ => (w, Ok (LPath p, false))
                     | _ => (w, Err FileExistsError)
                     end
                else (w, Ok (LPath p, false))
    end.

  Inductive input : Type := INothing | IPath (p : string) | IHandle (l : loc).

  (** lines 302-336 [_handle_file_input]; handles exist and can be written *)
  Definition handle_input (i : input) (m : fmode) (w : world) : world * res (loc * bool) :=
    match i with
    | INothing => let (l, w') := new_buffer w in (w', Ok (l, true))
    | IPath p => handle_path p m w
    | IHandle l => (w, Ok (l, if mode_eqb m MReadWrite
                              then match files w l with Some CEmpty => true | _ => false end else false))
    end.

  (** lines 219-300 [__init__]; [kw] is the dictionary [asdffile_kwargs], if given.
      The world is returned also if an exception is raised. *)
  Definition init (i : input) (m : fmode) (kw : option nat) (t : option tree) (sync : bool) (cs : spec) (w : world) : world * res wx :=
    let (k, w) := match kw with None => new_dict w | Some k => (k, w) end in
    let (cs, w) := match kwargs w k with None => (cs, w) | Some s => (s, set_kw k None w) end in
    match handle_schema cs with
    | Err e => (w, Err e)
    | Ok (on_read, on_write) =>
      if mode_eqb m MOther then (w, Err ValueError)
      else
        let some_tree := match t with Some (_ :: _) => true | _ => false end in
        if some_tree && negb (mode_eqb m MReadWrite) then (w, Err RuntimeError)
        else
          match handle_input i m w with
          | (w, Err e) => (w, Err e)
          | (w, Ok (l, created)) =>
            let new := match t with Some t => t | None => [] end in
            let mk := fun t s => Wx l m (sync && mode_eqb m MReadWrite) on_read on_write k t s in
            if some_tree || created then
              let w := match on_write with Some s => set_kw k (Some (SOne s)) w | None => w end in
              let s := kwargs w k in
              (* lines 379-402 [_write_tree] *)
              if created then
                match validate s new with
                | Err e => (w, Err e)
                | Ok _ => (put l (CAsdf new) w, Ok (mk new s))
                end
              else if negb (mode_eqb m MReadWrite) then (w, Err RuntimeError)
              else
                match open_asdf l s w with
                | Err e => (w, Err e)
                | Ok _ => match validate s new with
                          | Err e => (w, Err e)
                          | Ok _ => (put l (CAsdf new) w, Ok (mk new s))
                          end
                end
            else
              let w := match on_read with Some s => set_kw k (Some (SOne s)) w | None => w end in
              let s := kwargs w k in
              match open_asdf l s w with
              | Err e => (w, Err e)
              | Ok t => (w, Ok (mk t s))
              end
          end
    end.

  (** lines 529-548 [sync], [AsdfFile.update]: a file that is not open for writing
      raises ValueError *)
  Definition sync (f : wx) (w : world) : world * res unit :=
    if negb (mode_eqb (w_mode f) MReadWrite) then (w, Err ValueError)
    else match validate (h_schema f) (h_tree f) with
         | Err e => (w, Err e)
         | Ok _ => (put (w_loc f) (CAsdf (h_tree f)) w, Ok tt)
         end.

  (** lines 518-527 [close] *)
  Definition close (f : wx) (w : world) : world * res unit :=
    if mode_eqb (w_mode f) MReadWrite && w_sync f then sync f w else (w, Ok tt).

  (** lines 846-893 [write_to] *)
  Definition write_to (f : wx) (l : loc) (w : world) : world * res unit :=
    match validate (h_schema f) (h_tree f) with
    | Err e => (w, Err e)
    | Ok _ => (put l (CAsdf (h_tree f)) w, Ok tt)
    end.

  (** lines 747-753 the property [custom_schema] *)
  Definition custom_schema (f : wx) : spec :=
    let same := match w_read f, w_write f with
                | None, None => true
                | Some a, Some b => String.eqb a b
                | _, _ => false
                end in
    if same then match w_read f with None => SNone | Some s => SOne s end
    else SSeq [w_read f; w_write f].

  (** lines 764-809 [copy] *)
  Definition copy (f : wx) (i : input) (overwrite : bool) (w : world) : world * res wx :=
    let (w, target) := match i with
      | INothing => let (l, w') := new_buffer w in (w', Ok (l, IHandle l))
      | IHandle l => (w, Ok (l, IHandle l))
      | IPath p => match handle_path p MReadWrite w with
                   | (w', Ok (l, _)) => (w', Ok (l, IHandle l))
                   | (w', Err FileExistsError) => if negb overwrite then (w', Err FileExistsError)
                                                  else (w', Ok (LPath p, IPath p))
                   | (w', Err e) => (w', Err e)
                   end
      end in
    match target with
    | Err e => (w, Err e)
    | Ok (l, file) =>
      match write_to f l w with
      | (w, Err e) => (w, Err e)
      | (w, Ok _) => init file (w_mode f) (Some (w_kwargs f)) None (w_sync f) (custom_schema f) w
      end
    end.

  (** changing the content through the dictionary interface *)
  Definition with_tree (f : wx) (t : tree) : wx :=
    Wx (w_loc f) (w_mode f) (w_sync f) (w_read f) (w_write f) (w_kwargs f) t (h_schema f).
End Files.
