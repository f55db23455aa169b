(* The command line of the welding example.

   Source: weldx/asdf/cli/welding_schema.py (single_pass_weld_example,
   parse_args, main) and the entry `scripts.welding_schema` of pyproject.toml,
   line 90, which calls `main()` without arguments.

   Simplifications: arguments are classified as `argparse` classifies them
   (an oracle, see `token`); the separator `--` and combined short options are
   left out.  A file is its list of bytes.  The contents of the example are a
   parameter, as is whether its validation succeeds. *)
From Coq Require Import List String Bool Arith.
From Verif Require Import Base.
Import ListNotations.
Open Scope string_scope.

(* The classes of arguments of `argparse` for the parser of lines 330-333:
   help (-h, --help), the output option without value (-o, --output), the
   output option with an explicit value (--output=x, -ox), words and options
   that the parser does not know. *)
Inductive token :=
| THelp
| TOut
| TOutEq (v : string)
| TWord (v : string)
| TUnknown (v : string).

(* lines 331-333, the default of the option *)
Definition default_output : string := "single_pass_weld_example.asdf".

(* What a call comes to: a value, the end of the process with a code, or an
   exception. *)
Inductive outcome (A : Type) :=
| Returned (a : A)
| Exited (code : nat)
| Raised (e : exn).
Arguments Returned {A} a.
Arguments Exited {A} code.
Arguments Raised {A} e.

(* argparse, `parse_args`: arguments from left to right; `-o` needs a word
   after it (exit 2), help ends the process at once (exit 0), words and unknown
   options are collected and are an error at the end (exit 2). *)
Fixpoint parse (out : string) (extras : bool) (l : list token) : outcome string :=
  match l with
  | [] => if extras then Exited 2 else Returned out
  | THelp :: _ => Exited 0
  | TOut :: TWord v :: r => parse v extras r
  | TOut :: _ => Exited 2
  | TOutEq v :: r => parse v extras r
  | TWord _ :: r => parse out true r
  | TUnknown _ :: r => parse out true r
  end.

(* parse_args, lines 325-336: `argv if argv is not None else sys.argv` *)
Definition parse_args (sys_argv : list token) (argv : option (list token)) : outcome string :=
  parse default_output false
    (match argv with Some l => l | None => sys_argv end).

(* the file system: the bytes of the files that exist *)
Definition files := string -> option (list nat).

(* opening a file for writing and writing it *)
Definition put (fs : files) (p : string) (b : list nat) : files :=
  fun q => if String.eqb q p then Some b else fs q.

Section Example_.
  (* the tree that the example builds (lines 47-299) *)
  Variable tree : Type.
  Variable example : tree.
  (* write_read_buffer with the custom schema (lines 304-307): its error *)
  Variable invalid : tree -> option exn.
  (* the bytes of the file that asdf writes *)
  Variable bytes : tree -> list nat.
  (* the error of opening a path for writing (directories, missing parents) *)
  Variable refused : string -> option exn.

  (* single_pass_weld_example, lines 303-324.  The output is None, a string or
     a path; `if out_file` is false for None and for the empty string and true
     for all paths. *)
  Inductive target := NoTarget | Str (s : string) | APath (s : string).

  Definition truthy (t : target) : option string :=
    match t with
    | NoTarget => None
    | Str s => if String.eqb s "" then None else Some s
    | APath s => Some s
    end.

  Definition single_pass (fs : files) (t : target)
    : files * outcome (option (list nat * tree)) :=
    match invalid example with
    | Some e => (fs, Raised e)
    | None =>
        match truthy t with
        | Some p =>
            match refused p with
            | Some e => (fs, Raised e)
            | None => (put fs p (bytes example), Returned None)
            end
        | None => (fs, Returned (Some (bytes example, example)))
        end
    end.

  (* out.exists() and out.stat().st_size > 0, line 351 *)
  Definition occupied (fs : files) (p : string) : bool :=
    match fs p with
    | None => false
    | Some b => Nat.ltb 0 (List.length b)
    end.

  (* main, lines 339-355 *)
  Definition main (sys_argv : list token) (fs : files) (argv : option (list token))
    : files * outcome unit :=
    match parse_args sys_argv argv with
    | Exited c => (fs, Exited c)
    | Raised e => (fs, Raised e)
    | Returned out =>
        if occupied fs out then (fs, Exited 1)
        else
          match single_pass fs (APath out) with
          | (fs', Returned _) => (fs', Returned tt)
          | (fs', Exited c) => (fs', Exited c)
          | (fs', Raised e) => (fs', Raised e)
          end
    end.
End Example_.
