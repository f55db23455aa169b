(** Shape validation, weldx/asdf/validators.py 113-519.

    Simplifications: strings are ASCII, so that [str.isalnum] and [str.isnumeric]
    are about ASCII letters and digits, and contain no line break ([.] of the regular
    expressions matches every character). A node is the result of
    [_get_instance_shape] together with its children; a node without children has no
    keys. A dimension [None] of an expected shape is a name: its key in the dictionary
    of names is written "None" here. *)
From Coq Require Import List String Ascii Bool ZArith DecimalString.
From Verif Require Import Base.
Import ListNotations.
Open Scope string_scope.
Open Scope list_scope.
Open Scope Z_scope.

(** ** Strings *)
Fixpoint has_char (c : ascii) (s : string) : bool :=
  match s with EmptyString => false | String a r => Ascii.eqb a c || has_char c r end.

(** [s.split(c)] *)
Fixpoint split (c : ascii) (s : string) : list string :=
  match s with
  | EmptyString => [""%string]
  | String a r =>
      if Ascii.eqb a c then ""%string :: split c r
      else match split c r with h :: t => String a h :: t | [] => [String a ""] end
  end.

(** [s.replace(c, "")] *)
Fixpoint remove_char (c : ascii) (s : string) : string :=
  match s with
  | EmptyString => ""%string
  | String a r => if Ascii.eqb a c then remove_char c r else String a (remove_char c r)
  end.

Fixpoint all_chars (p : ascii -> bool) (s : string) : bool :=
  match s with EmptyString => true | String a r => p a && all_chars p r end.

Definition is_digit (a : ascii) : bool :=
  let n := N_of_ascii a in (N.leb 48 n && N.leb n 57)%N.
Definition is_letter (a : ascii) : bool :=
  let n := N_of_ascii a in ((N.leb 65 n && N.leb n 90) || (N.leb 97 n && N.leb n 122))%N.

Definition nonempty (s : string) : bool := match s with EmptyString => false | _ => true end.
(** [s.isnumeric()], [s.isalnum()] *)
Definition isnumeric (s : string) : bool := nonempty s && all_chars is_digit s.
Definition isalnum (s : string) : bool := nonempty s && all_chars (fun a => is_digit a || is_letter a) s.

(** [int(s)], [str(n)] *)
Definition int_of (s : string) : res Z :=
  match NilEmpty.uint_of_string s with
  | Some u => if nonempty s then Ok (Z.of_N (N.of_uint u)) else Err ValueError
  | None => Err ValueError
  end.
Definition str_of (z : Z) : string :=
  match z with
  | Zneg p => String "-" (NilEmpty.string_of_uint (N.to_uint (Npos p)))
  | _ => NilEmpty.string_of_uint (N.to_uint (Z.to_N z))
  end.

(** ["..." in s] *)
Fixpoint has_dots (s : string) : bool :=
  prefix "..." s || match s with EmptyString => false | String _ r => has_dots r end.

Fixpoint after_first (c : ascii) (s : string) : option string :=
  match s with
  | EmptyString => None
  | String a r => if Ascii.eqb a c then Some r else after_first c r
  end.
Fixpoint upto_last (c : ascii) (s : string) : option string :=
  match s with
  | EmptyString => None
  | String a r =>
      match upto_last c r with
      | Some x => Some (String a x)
      | None => if Ascii.eqb a c then Some ""%string else None
      end
  end.
(** the text that [re.search] finds between the first opening and the last closing
    parenthesis *)
Definition in_parens (s : string) : option string :=
  match after_first "(" s with Some r => upto_last ")" r | None => None end.

(** ** [_compare], 113-181 *)
Definition lower_bound (s : string) : res Z :=
  if nonempty s then if isnumeric s then int_of s else Err WxSyntaxError else Ok 0.
Definition upper_bound (n : Z) (s : string) : res Z :=
  if nonempty s then if isnumeric s then int_of s else Err WxSyntaxError else Ok n.

Definition compare (n : Z) (exp : string) : res bool :=
  if n <? 0 then Err WxSyntaxError
  else if has_char "~" exp then
    match split "~" exp with
    | r0 :: r1 :: _ =>
        bind (lower_bound r0) (fun lo =>
        bind (upper_bound n r1) (fun hi =>
          if hi <? lo then Err WxSyntaxError else Ok ((lo <=? n) && (n <=? hi))))
    | _ => Err IndexError
    end
  else bind (int_of exp) (fun m => Ok (n =? m)).

(** ** Expected shapes *)
Inductive elem : Type :=
| EInt (z : Z)
| EStr (s : string)
| ENone.

(** [str(x)] *)
Definition str (e : elem) : string :=
  match e with EInt z => str_of z | EStr s => s | ENone => "None" end.

Definition blank_free (e : elem) : elem :=
  match e with EStr s => EStr (remove_char " " s) | _ => e end.

(** [_prepare_list], 184-217 *)
Definition prepare_list (l : list Z) (exp : list elem) : res (list Z * list elem) :=
  let exp := map blank_free exp in
  match exp with
  | [] => Err IndexError
  | e :: _ => if has_char "(" (str e) || has_dots (str e) then Ok (rev l, rev exp) else Ok (l, exp)
  end.

(** [_is_range_format_valid], 220-239 *)
Definition is_range_format_valid (s : string) : bool :=
  if has_char "~" s then
    if Nat.eqb (List.length (split "~" s)) 2
    then let s' := remove_char "~" s in isalnum s' || negb (nonempty s')
    else false
  else isalnum s.

(** [_validate_expected_list], 242-296; [v] is the local variable [validator] *)
Fixpoint validate_expected (v : nat) (exp : list elem) : res unit :=
  match exp with
  | [] => Ok tt
  | e :: r =>
      let s := str e in
      if Nat.eqb v 1 && negb (has_char "(" s || has_dots s) then Err WxSyntaxError
      else if Nat.eqb v 2 then Err WxSyntaxError
      else if has_dots s then
        match e with
        | EStr "..." => validate_expected 2 r
        | _ => Err WxSyntaxError
        end
      else if has_char "(" s then
        match in_parens s with
        | Some x => if Nat.eqb (String.length x + 2) (String.length s) && is_range_format_valid x
                    then validate_expected 1 r else Err WxSyntaxError
        | None => Err WxSyntaxError
        end
      else if is_range_format_valid s then validate_expected v r else Err WxSyntaxError
  end.

(** [_compare_lists], 299-367: [None] is the result [False]; [l] are the dimensions
    from the current index on, [d] is [dict_values] *)
Fixpoint compare_from (l : list Z) (exp : list elem) (d : dict Z) : res (option (dict Z)) :=
  match exp with
  | [] => match l with [] => Ok (Some d) | _ => Ok None end
  | e :: r =>
      let s := str e in
      if has_dots s then Ok (Some d)
      else
        let name := match has_char "(" s, l with
                    | true, [] => Ok None
                    | true, _ => match in_parens s with
                                 | Some x => Ok (Some x)
                                 | None => Err AttributeError
                                 end
                    | false, _ => Ok (Some s)
                    end in
        bind name (fun o =>
        match o with
        | None => compare_from (tl l) r d
        | Some x =>
            if isalnum x && negb (isnumeric x) then
              match l with
              | [] => Err IndexError
              | n :: l' =>
                  match dget x d with
                  | None => compare_from l' r (dset x n d)
                  | Some m => if n =? m then compare_from l' r d else Ok None
                  end
              end
            else
              match l with
              | [] => Ok None
              | n :: l' => bind (compare n x) (fun b => if b then compare_from l' r d else Ok None)
              end
        end)
  end.
Definition compare_lists (l : list Z) (exp : list elem) : res (option (dict Z)) := compare_from l exp [].

(** ** Nested shapes *)
Inductive node : Type := Node (shape : option (list Z)) (children : dict node).
Definition n_shape (n : node) := match n with Node s _ => s end.
Definition n_children (n : node) := match n with Node _ c => c end.

Inductive spec : Type :=
| SList (l : list elem)
| SStr (s : string)
| SDict (d : list (string * spec)).

(** [_validate_instance_shape], 370-424 *)
Definition validate_instance (n : node) (exp : list elem) (optional : bool) : res (dict Z) :=
  match n_shape n with
  | None => if optional then Ok [] else Err ValidationError
  | Some shape =>
      bind (prepare_list shape exp) (fun le =>
      bind (validate_expected 0 (snd le)) (fun _ =>
      bind (compare_lists (fst le) (snd le)) (fun r =>
        match r with Some d => Ok d | None => Err ValidationError end)))
  end.

(** the loop that collects the names, 501-505; [None]: a conflict *)
Fixpoint merge_values (d new : dict Z) : option (dict Z) :=
  match new with
  | [] => Some d
  | (k, v) :: r =>
      match dget k d with
      | None => merge_values (dset k v d) r
      | Some w => if v =? w then merge_values d r else None
      end
  end.

Fixpoint drop_end (n : nat) (s : string) : string :=
  match s with
  | EmptyString => ""%string
  | String a r => if Nat.leb (String.length s) n then ""%string else String a (drop_end n r)
  end.
Definition ends_with (t s : string) : bool :=
  Nat.leb (String.length t) (String.length s) &&
  String.eqb (substring (String.length s - String.length t) (String.length t) s) t.

(** [_custom_shape_validator], 427-519. The result [None] is [False]; iterating over
    the result [False] of a nested call is a [TypeError]. *)
Fixpoint shape_validator (n : node) (s : spec) (optional : bool) {struct s} : res (option (dict Z)) :=
  match s with
  | SStr t =>
      if prefix "([" t && ends_with "])" t
      then bind (validate_instance n (map EStr (split "," (drop_end 2 (substring 2 (String.length t - 2) t)))) true)
                (fun d => Ok (Some d))
      else Err WxSyntaxError
  | SList l => bind (validate_instance n l optional) (fun d => Ok (Some d))
  | SDict d =>
      (fix items (d : list (string * spec)) (acc : dict Z) {struct d} : res (option (dict Z)) :=
         match d with
         | [] => Ok (Some acc)
         | (key, item) :: r =>
             let opt := prefix "(" key && ends_with ")" key in
             let key' := if opt then drop_end 1 (substring 1 (String.length key - 1) key) else key in
             if opt && negb (nonempty key') then Err WxSyntaxError
             else
               match dget key' (n_children n) with
               | None => Ok (Some acc)
               | Some child =>
                   bind (shape_validator child item opt) (fun o =>
                   match o with
                   | None => Err TypeError
                   | Some v =>
                       match merge_values acc v with
                       | Some acc' => items r acc'
                       | None => Ok None
                       end
                   end)
               end
         end) d []
  end.
