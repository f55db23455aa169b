(* What the command line of the welding example is to do, stated without the
   parser of the model. *)
From Coq Require Import List String.
From Verif Require Import CliModel.
Import ListNotations.
Open Scope string_scope.

(* The ways to state an output. *)
Inductive states_output : string -> list token -> Prop :=
| so_pair v : states_output v [TOut; TWord v]
| so_explicit v : states_output v [TOutEq v].

(* Arguments that only state outputs, with the outputs in order. *)
Inductive outputs : list string -> list token -> Prop :=
| o_none : outputs [] []
| o_more v a vs r : states_output v a -> outputs vs r -> outputs (v :: vs) (a ++ r)%list.

(* The name that counts: the last one, or the default. *)
Definition chosen (vs : list string) : string :=
  List.last vs "single_pass_weld_example.asdf".

(* Arguments each of which can be read on its own: outputs with values and
   arguments that are not known. *)
Inductive readable : list token -> Prop :=
| r_none : readable []
| r_output v a r : states_output v a -> readable r -> readable (a ++ r)%list
| r_word v r : readable r -> readable (TWord v :: r)
| r_unknown v r : readable r -> readable (TUnknown v :: r).

(* A file that exists and is not empty. *)
Definition kept (fs : files) (p : string) : Prop :=
  exists x b, fs p = Some (x :: b).
