(* Showing the header of a file and the contents of a file.

   Source: weldx/asdf/util.py (view_tree, lines 353-412), weldx/asdf/file.py
   (WeldxFile.header 893-925, WeldxFile.info 937-965, _HeaderVisualizer
   968-1022), weldx/util/util.py (is_interactive_session 350-361,
   is_jupyterlab_session 364-390).

   Simplifications: keys of mappings are strings; numbers stand for all other
   plain values; parts of a tree that are shared count as separate parts.  The
   serialisation of a tree is a tree of nodes, not text. *)
From Coq Require Import List String Ascii Bool Arith ZArith.
From Verif Require Import Base.
Import ListNotations.
Open Scope string_scope.

(* The nodes of a YAML header; strings, lists and mappings may have a tag. *)
Inductive node :=
| NNum (n : nat)
| NStr (tag : option string) (s : string)
| NList (tag : option string) (l : list node)
| NDict (tag : option string) (d : list (string * node)).

(* _visit, util.py 389-397: dict(v), list(v), str(v) for tagged values *)
Definition visit (v : node) : node :=
  match v with
  | NDict (Some _) d => NDict None d
  | NList (Some _) l => NList None l
  | NStr (Some _) s => NStr None s
  | _ => v
  end.

(* boltons.iterutils.remap with this visitor: the parts of a container are
   remapped and then visited; containers keep their class, the root is not
   visited. *)
Fixpoint remap (v : node) : node :=
  match v with
  | NDict t d => NDict t (map (fun p => (fst p, visit (remap (snd p)))) d)
  | NList t l => NList t (map (fun x => visit (remap x)) l)
  | _ => v
  end.

(* dict(...) of the result, line 405; the root is a mapping *)
Definition as_dict (v : node) : res node :=
  match v with
  | NDict _ d => Ok (NDict None d)
  | _ => Err TypeError
  end.

(* The segments of a path *)
Inductive key := KStr (s : string) | KInt (z : Z).
(* The argument `path`: a string or a tuple *)
Inductive pathspec := PStr (s : string) | PTuple (l : list key).

(* The index of a Python sequence of length n *)
Definition at_index (n : nat) (z : Z) : option nat :=
  let k := (if (z <? 0)%Z then Z.of_nat n + z else z)%Z in
  if ((0 <=? k) && (k <? Z.of_nat n))%Z%bool then Some (Z.to_nat k) else None.

(* v[k] *)
Definition index (v : node) (k : key) : res node :=
  match v, k with
  | NDict _ d, KStr s => match dget s d with Some x => Ok x | None => Err KeyError end
  | NDict _ _, KInt _ => Err KeyError
  | NList _ l, KInt z =>
      match at_index (List.length l) z with
      | Some i => match nth_error l i with Some x => Ok x | None => Err IndexError end
      | None => Err IndexError
      end
  | NStr _ s, KInt z =>
      match at_index (String.length s) z with
      | Some i => Ok (NStr None (substring i 1 s))
      | None => Err IndexError
      end
  | _, _ => Err TypeError
  end.

(* s.split(".") *)
Fixpoint split_dots (s : string) : list string :=
  match s with
  | EmptyString => [""]
  | String c r =>
      if Ascii.eqb c "." then "" :: split_dots r
      else match split_dots r with
           | [] => [String c ""]
           | x :: t => String c x :: t
           end
  end.

(* list(s) *)
Fixpoint letters (s : string) : list string :=
  match s with
  | EmptyString => []
  | String c r => String c "" :: letters r
  end.

(* "/".join(path), line 407 *)
Fixpoint words (l : list key) : res (list string) :=
  match l with
  | [] => Ok []
  | KStr s :: r => bind (words r) (fun t => Ok (s :: t))
  | KInt _ :: _ => Err TypeError
  end.
Definition joined (p : pathspec) : res string :=
  match p with
  | PStr s => Ok (String.concat "/" (letters s))
  | PTuple l => bind (words l) (fun t => Ok (String.concat "/" t))
  end.

(* bool(path) *)
Definition given (p : option pathspec) : option pathspec :=
  match p with
  | None | Some (PStr "") | Some (PTuple []) => None
  | _ => p
  end.

(* The name of the file: `isinstance(file, str)`, lines 399-402 *)
Inductive source := SName (s : string) | SOther.
Definition root_label (f : source) : string :=
  match f with SName s => s ++ "/" | SOther => "/" end.

Section View.
  (* int(s), None for a ValueError *)
  Variable parse_int : string -> option Z.
  (* What IPython's JSON makes of a string: it reads it as JSON text *)
  Variable json_text : string -> res node.

  (* boltons.iterutils.get_path; its error is a KeyError (and an IndexError and a
     TypeError) *)
  Definition step (v : node) (k : key) : res node :=
    match index v k with
    | Ok x => Ok x
    | Err TypeError =>
        match (match k with KStr s => parse_int s | KInt z => Some z end) with
        | Some z => match index v (KInt z) with Ok x => Ok x | Err _ => Err KeyError end
        | None => Err KeyError
        end
    | Err _ => Err KeyError
    end.
  Fixpoint walk (v : node) (l : list key) : res node :=
    match l with
    | [] => Ok v
    | k :: r => bind (step v k) (fun x => walk x r)
    end.
  Definition get_path (v : node) (p : pathspec) : res node :=
    match p with
    | PStr s => walk v (map KStr (split_dots s))
    | PTuple l => walk v l
    end.

  (* IPython.display.JSON(data, root=root): mappings and lists only *)
  Definition json (root : string) (v : node) : res (string * node) :=
    match v with
    | NDict _ _ | NList _ _ => Ok (root, v)
    | NStr _ s => bind (json_text s) (fun x =>
        match x with NDict _ _ | NList _ _ => Ok (root, x) | _ => Err TypeError end)
    | NNum _ => Err TypeError
    end.

  (* view_tree, lines 399-412; [header] is the result of get_yaml_header *)
  Definition view_tree (f : source) (header : res node) (p : option pathspec)
    : res (string * node) :=
    bind header (fun h =>
    bind (as_dict (remap h)) (fun d =>
    match given p with
    | None => json (root_label f) d
    | Some q =>
        bind (joined q) (fun j =>
        bind (get_path d q) (fun v => json (root_label f ++ j) v))
    end)).

  (* WeldxFile.info, file.py 958-964: what is handed to asdf.info *)
  Definition info (tree : list (string * node)) (p : option pathspec) : res node :=
    let t := NDict None
      (filter (fun q => negb (existsb (String.eqb (fst q)) ["asdf_library"; "history"])) tree) in
    match p with
    | None => Ok t
    | Some q => get_path t q
    end.
End View.

(* The session: whether IPython is imported, what get_ipython returns and the
   keys of its configuration; the parent process. *)
Record session := Session {
  ipython : option (option (list string));
  parent : option (string * list string)   (* name and environment *)
}.

(* is_interactive_session, util.py 350-361 *)
Definition is_interactive (s : session) : bool :=
  match ipython s with
  | None => false
  | Some None => false
  | Some (Some config) => existsb (String.eqb "IPKernelApp") config
  end.

(* is_jupyterlab_session, util.py 364-390; without a parent an AttributeError *)
Definition is_lab (s : session) : res bool :=
  match parent s with
  | None => Err AttributeError
  | Some (name, env) =>
      if String.eqb name "jupyter-lab" then Ok true
      else Ok (existsb (fun k => existsb (String.eqb k) env)
                 ["JUPYTERHUB_API_KEY"; "JPY_API_TOKEN"; "JUPYTERHUB_API_TOKEN"])
  end.

(* The contents of a file: nodes, or arrays with their data *)
Inductive tree :=
| TNum (n : nat)
| TStr (tag : option string) (s : string)
| TArray (dtype : string) (shape : list nat) (data : list nat)
| TList (tag : option string) (l : list tree)
| TDict (tag : option string) (d : list (string * tree)).

(* write_to with all arrays inline and without their data, file.py 993-995 *)
Definition array_node (dtype : string) (shape : list nat) (data : list nat) : node :=
  NDict (Some "!core/ndarray-1.0.0")
    [("data", NList None (map NNum data)); ("datatype", NStr None dtype);
     ("shape", NList None (map NNum shape))].
Fixpoint serialise (numpy_array_to_list : list nat -> list nat) (t : tree) : node :=
  match t with
  | TNum n => NNum n
  | TStr tag s => NStr tag s
  | TArray dt sh data => array_node dt sh (numpy_array_to_list data)
  | TList tag l => NList tag (map (serialise numpy_array_to_list) l)
  | TDict tag d => NDict tag (map (fun p => (fst p, serialise numpy_array_to_list (snd p))) d)
  end.

(* What is shown: printed text (a header as a whole), highlighted text, or a
   tree with a label *)
Inductive shown :=
| Printed (h : node)
| Highlighted (h : node)
| Widget (root : string) (v : node).

Section Header.
  Variable parse_int : string -> option Z.
  Variable json_text : string -> res node.

  (* _HeaderVisualizer.show and _show_interactive, file.py 982-1022.  The
     session is looked at for what is not given, in any case before anything is
     written. *)
  Definition show (s : session) (contents : tree) (use_widgets : option bool)
    (path : option pathspec) (interactive : option bool) : res shown :=
    let i := match interactive with Some b => b | None => is_interactive s end in
    bind (match use_widgets with Some b => Ok b | None => is_lab s end) (fun w =>
    let buff := serialise (fun _ => []) contents in
    if i then
      if w then bind (view_tree parse_int json_text SOther (Ok buff) path)
                     (fun r => Ok (Widget (fst r) (snd r)))
      else Ok (Highlighted buff)
    else Ok (Printed buff)).
End Header.

(* _HeaderVisualizer.__init__, file.py 969-980: the entry of the table of copy
   functions is set, the handle is copied with it, and the entry is deleted in
   any case.  Tables map classes to numbers of functions; [fake] is _fake_copy. *)
Definition visualizer {A : Type} (fake : nat) (copy : dict nat -> res A) (table : dict nat)
  : dict nat * res A :=
  let t := dset "ndarray" fake table in
  (ddel "ndarray" t, copy t).
