(** Reading asdf files: the choice of the arguments for [asdf.open] by the version of asdf
    (weldx/asdf/file.py 52-60, weldx/asdf/util.py 139-209), [get_yaml_header]
    (weldx/asdf/util.py 272-317) and [reset_file_position] (weldx/asdf/file.py 63-75). *)
From Coq Require Import List String Ascii Bool Arith.
From Verif Require Import Base.
Import ListNotations.
Open Scope string_scope.

(** [s.split(c)] *)
Fixpoint split (c : ascii) (s : string) : list string :=
  match s with
  | EmptyString => [""]
  | String a r =>
      if Ascii.eqb a c then "" :: split c r
      else match split c r with
           | w :: l => String a w :: l
           | [] => [String a ""]
           end
  end.
(** comparison of tuples of strings *)
Fixpoint tuple_lt (a b : list string) : bool :=
  match a, b with
  | _, [] => false
  | [], _ :: _ => true
  | x :: a, y :: b => match String.compare x y with Lt => true | Gt => false | Eq => tuple_lt a b end
  end.
Definition old_asdf (version : string) : bool := tuple_lt (split "." version) ["3"; "1"; "0"].

(** [asdf_open_memory_mapping_kwarg], file.py 52-60 *)
Definition mapping_kwarg (version : string) (memmap : bool) : dict bool :=
  if negb (old_asdf version) then [("memmap", memmap)] else [("copy_arrays", negb memmap)].
(** util.py 161-168: [open_kwargs] after the changes *)
Definition open_kwargs (version : string) (kwargs : option (dict bool)) : dict bool :=
  let d := match kwargs with None => [("memmap", false); ("lazy_load", false)] | Some d => d end in
  match dget "memmap" d with
  | Some m => if old_asdf version then ddel "memmap" (dset "copy_arrays" (negb m) d) else d
  | None => d
  end.
(** [read_buffer_context] and [read_buffer], 139-209: the arguments of the caller afterwards
    and the tree. [read] is [asdf.open]. The generator ends without a [yield] if a WeldxFile
    is asked for; [contextlib] turns this into a RuntimeError. *)
Definition read_buffer {T : Type} (read : dict bool -> res T) (version : string) (kwargs : option (dict bool))
    (use_weldx_file : bool) : option (dict bool) * res T :=
  let d := open_kwargs version kwargs in
  (match kwargs with Some _ => Some d | None => None end,
   if use_weldx_file then Err RuntimeError else read d).

(** [handle.readline()]: the line (with its end) and the rest *)
Definition newline : ascii := "010".
Fixpoint readline (s : string) : string * string :=
  match s with
  | EmptyString => ("", "")
  | String a r => if Ascii.eqb a newline then (String a "", r) else let (l, t) := readline r in (String a l, t)
  end.
Definition is_end (l : string) : bool :=
  String.eqb l (String "." (String "." (String "." (String newline "")))) ||
  String.eqb l (String "." (String "." (String "." (String "013" (String newline ""))))).
(** [read_header], 291-299: the header and what is left to read *)
Fixpoint read_header (fuel : nat) (s : string) : string * string :=
  match fuel with
  | O => ("", s)
  | S k =>
      let (l, t) := readline s in
      if String.eqb l "" || is_end l then ("", t)
      else let (h, u) := read_header k t in (l ++ h, u)
  end.
(** Files: paths with their content, handles with content and position (text or binary;
    [readwrite] handles have all methods of [SupportsFileReadWrite], weldx/types.py 36-55, the
    others only [read] and [readline]), and other objects. *)
Inductive file : Type :=
| FPath (content : res string)
| FHandle (text readwrite : bool) (content : string) (pos : nat)
| FOther.
(** [get_yaml_header], 301-317, without decoding and parsing; the handle afterwards *)
Definition get_yaml_header (f : file) : file * res string :=
  match f with
  | FHandle text readwrite c pos =>
      if text then (f, Err ValueError)
      else
        let start := if readwrite then 0 else pos in
        let s := substring start (String.length c - start) c in
        let (h, r) := read_header (S (String.length s)) s in
        (FHandle text readwrite c (start + (String.length s - String.length r)), Ok h)
  | FPath c => (f, bind c (fun s => Ok (fst (read_header (S (String.length s)) s))))
  | FOther => (f, Err TypeError)
  end.

(** [with reset_file_position(fh): body]: the position afterwards. There is no [finally]. *)
Definition reset_position {A : Type} (body : nat -> nat * res A) (pos : nat) : nat * res A :=
  match body pos with
  | (p, Ok a) => (pos, Ok a)
  | (p, Err e) => (p, Err e)
  end.
