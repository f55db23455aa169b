(** The documented pattern language of shapes (weldx/asdf/validators.py 437-453),
    independent of the algorithm. *)
From Coq Require Import List String Ascii Bool ZArith DecimalString.
From Verif Require Import Base ShapeModel.
Import ListNotations.
Open Scope Z_scope.

(** one dimension: a number, an interval that can be open on both sides, a name *)
Inductive pat : Type :=
| PNum (n : Z)
| PRange (lo hi : option Z)
| PName (x : string).

Definition pat_match (env : string -> Z) (n : Z) (p : pat) : Prop :=
  match p with
  | PNum m => n = m
  | PRange lo hi =>
      match lo with Some a => a <= n | None => True end /\
      match hi with Some b => n <= b | None => True end
  | PName x => env x = n
  end.

Definition ascending (p : pat) : Prop :=
  match p with PRange (Some a) (Some b) => a <= b | _ => True end.

(** how a dimension is written *)
Definition numeral (s : string) (n : Z) : Prop :=
  exists u, u <> Decimal.Nil /\ s = NilEmpty.string_of_uint u /\ n = Z.of_N (N.of_uint u).
Inductive bound : string -> option Z -> Prop :=
| b_open : bound ""%string None
| b_num : forall s n, numeral s n -> bound s (Some n).
Definition alnum_char (a : ascii) : Prop :=
  (48 <= Z.of_N (N_of_ascii a) <= 57) \/ (65 <= Z.of_N (N_of_ascii a) <= 90) \/ (97 <= Z.of_N (N_of_ascii a) <= 122).
Fixpoint each_char (P : ascii -> Prop) (s : string) : Prop :=
  match s with EmptyString => True | String a r => P a /\ each_char P r end.
Definition name (s : string) : Prop :=
  s <> EmptyString /\ each_char alnum_char s /\ ~ exists n, numeral s n.

Inductive written : string -> pat -> Prop :=
| w_num : forall s n, numeral s n -> written s (PNum n)
| w_name : forall s, name s -> written s (PName s)
| w_range : forall s t lo hi, bound s lo -> bound t hi -> ascending (PRange lo hi) ->
    written (s ++ String "~" t) (PRange lo hi).

(** the dimensions of a shape: required ones, optional ones, arbitrary ones *)
Inductive required : elem -> pat -> Prop :=
| r_int : forall z, 0 <= z -> required (EInt z) (PNum z)
| r_str : forall s p, written s p -> required (EStr s) p.
Inductive optional : elem -> pat -> Prop :=
| o_str : forall s p, written s p -> optional (EStr (String "(" (s ++ ")"))) p.

Record shape_pat : Type := Pat { p_req : list pat; p_opt : list pat; p_any : bool }.

Inductive denotes_end : list elem -> shape_pat -> Prop :=
| d_end : forall rs os ps qs, Forall2 required rs ps -> Forall2 optional os qs ->
    denotes_end (rs ++ os) (Pat ps qs false)
| d_dots : forall rs os ps qs, Forall2 required rs ps -> Forall2 optional os qs ->
    denotes_end (rs ++ os ++ [EStr "..."%string]) (Pat ps qs true).

(** A shape matches if the required dimensions are there and match, the others match
    the optional ones from left to right, and nothing is left unless "..." allows it. *)
Definition matches (env : string -> Z) (l : list Z) (sp : shape_pat) : Prop :=
  exists l1 l2 l3, l = l1 ++ l2 ++ l3 /\
    Forall2 (pat_match env) l1 (p_req sp) /\
    (exists qs rest, p_opt sp = qs ++ rest /\ Forall2 (pat_match env) l2 qs /\ (l3 <> [] -> rest = [])) /\
    (l3 <> [] -> p_any sp = true).

(** the names in a result *)
Definition agrees (env : string -> Z) (d : dict Z) : Prop := forall x v, dget x d = Some v -> env x = v.

(** An expected list is read from the end if optional or arbitrary dimensions are at
    its beginning. *)
Inductive denotes : list elem -> bool -> shape_pat -> Prop :=
| d_forward : forall es sp, p_req sp <> [] -> denotes_end es sp -> denotes es false sp
| d_backward : forall es e sp, hd_error es = Some e -> (exists p, optional e p) \/ e = EStr "..."%string ->
    denotes_end (rev es) sp -> denotes es true sp.

Definition list_matches (env : string -> Z) (l : list Z) (es : list elem) : Prop :=
  exists back sp, denotes es back sp /\ matches env (if back then rev l else l) sp.

(** Nested shapes: every key, the optional marker is only about nodes without shape. *)
Inductive keyed : string -> string -> bool -> Prop :=
| k_plain : forall k, (forall r, k <> String "(" r) -> keyed k k false
| k_opt : forall k, k <> ""%string -> keyed (String "(" (k ++ ")")) k true.

Inductive sat (env : string -> Z) : node -> spec -> bool -> Prop :=
| sat_list : forall n es opt l, n_shape n = Some l -> list_matches env l es -> sat env n (SList es) opt
| sat_skip : forall n es, n_shape n = None -> sat env n (SList es) true
| sat_dict : forall n d opt, Forall (fun ks => exists k o c, keyed (fst ks) k o /\
    dget k (n_children n) = Some c /\ sat env c (snd ks) o) d -> sat env n (SDict d) opt.

(** specifications with correct syntax *)
Inductive wf_spec : spec -> Prop :=
| wf_list : forall es back sp, denotes es back sp -> wf_spec (SList es)
| wf_dict : forall d, Forall (fun ks => exists k o, keyed (fst ks) k o /\ wf_spec (snd ks)) d -> wf_spec (SDict d).

(** every expected key is there *)
Inductive complete : node -> spec -> Prop :=
| c_list : forall n es, complete n (SList es)
| c_dict : forall n d, Forall (fun ks => exists k o c, keyed (fst ks) k o /\
    dget k (n_children n) = Some c /\ complete c (snd ks)) d -> complete n (SDict d).

(** shapes consist of natural numbers *)
Inductive natural : node -> Prop :=
| nat_node : forall s c, (forall l, s = Some l -> Forall (fun n => 0 <= n) l) ->
    Forall (fun kc => natural (snd kc)) c -> natural (Node s c).
