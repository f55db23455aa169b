(** Model of serialisation helpers:
    [ExternalFile] (weldx/util/external_file.py) and its converter
    (weldx/tags/core/file.py), the wrappers of [to_yaml_tree]/[from_yaml_tree]
    (weldx/asdf/types.py lines 25-68), [dataclass_serialization_class] and
    [get_highest_tag_version] (weldx/asdf/util.py lines 427-501, 544-588), and the
    converter of [TimedeltaIndex] (weldx/tags/time/timedeltaindex.py). *)
From Coq Require Import List String Ascii Bool Arith ZArith.
From Verif Require Import Base.
Import ListNotations.
Open Scope list_scope.

(** ** External files *)
Definition bytes : Type := list nat.

Section Hash.
  (** a hash object of [hashlib]: state, [update] byte by byte, [hexdigest] *)
  Variable alg : Type.
  Variable state : Type.
  Variable start : alg -> state.
  Variable feed : alg -> state -> nat -> state.
  Variable digest : alg -> state -> string.
  Variable sha256 : alg.

  Definition update (a : alg) (s : state) (data : bytes) : state := fold_left (feed a) data s.

  (** [file.read(size)]: everything for a negative size; the data read and the rest *)
  Definition read (size : Z) (data : bytes) : bytes * bytes :=
    if (size <? 0)%Z then (data, [])
    else (firstn (Z.to_nat size) data, skipn (Z.to_nat size) data).

  (** external_file.py lines 92-97, the loop *)
  Fixpoint read_loop (fuel : nat) (a : alg) (size : Z) (s : state) (data : bytes) : res state :=
    match fuel with
    | O => Err OutOfFuel
    | S fuel => let (chunk, rest) := read size data in
                match chunk with
                | [] => Ok s
                | _ :: _ => read_loop fuel a size (update a s chunk) rest
                end
    end.

  (** lines 64-98 [calculate_hash] of a buffer and of a file *)
  Definition hash_buffer (a : alg) (data : bytes) : string := digest a (update a (start a) data).
  Definition hash_file (a : alg) (size : Z) (data : bytes) : res string :=
    bind (read_loop (S (List.length data)) a size (start a) data) (fun s => Ok (digest a s)).

  (** lines 16-34: [e_info] stands for the fields that are copied as they are
      (suffix, mimetype, directory, hostname, created, modified, size) *)
  Record efile : Type := EFile {
    e_path : option string;
    e_filename : string;
    e_info : nat;
    e_alg : alg;
    e_hash : option string;
    e_save : bool;
    e_buffer : option bytes
  }.
  Record etree : Type := ETree {
    t_filename : string;
    t_info : nat;
    t_content : option bytes;
    t_hash : option (alg * string)
  }.
  Definition fs : Type := string -> option bytes.

  (** lines 100-109 [get_file_content] *)
  Definition get_file_content (f : fs) (e : efile) : res bytes :=
    match e_path e with
    | None => Err AttributeError
    | Some p => match f p with None => Err FileNotFoundError | Some b => Ok b end
    end.

  (** tags/core/file.py lines 23-46 [to_yaml_tree]; the chunk size is the default *)
  Definition to_tree (f : fs) (e : efile) : res etree :=
    bind (if e_save e then bind (match e_buffer e with Some b => Ok b | None => get_file_content f e end) (fun b => Ok (Some b))
          else Ok (e_buffer e)) (fun buffer =>
    let content := if e_save e then buffer else None in
    bind (match buffer with
          | None => match e_hash e, e_path e with
                    | None, Some p => match f p with
                                      | None => Err FileNotFoundError
                                      | Some b => bind (hash_file (e_alg e) 65536 b) (fun h => Ok (Some h))
                                      end
                    | h, _ => Ok h
                    end
          | Some b => Ok (Some (hash_buffer (e_alg e) b))
          end) (fun h =>
    Ok (ETree (e_filename e) (e_info e) content (option_map (fun h => (e_alg e, h)) h)))).

  (** lines 48-66 [from_yaml_tree] *)
  Definition from_tree (t : etree) : res efile :=
    let mk := fun a h => EFile None (t_filename t) (t_info t) a h false (t_content t) in
    match t_content t, t_hash t with
    | Some _, None => Err KeyError
    | Some b, Some (a, h) => if negb (String.eqb (hash_buffer a b) h) then Err WeldxException else Ok (mk a (Some h))
    | None, Some (a, h) => Ok (mk a (Some h))
    | None, None => Ok (mk sha256 None)
    end.

  (** external_file.py lines 111-131 [write_to] *)
  Definition write_to (f : fs) (e : efile) (directory : string) : res fs :=
    bind (match e_buffer e with Some b => Ok b | None => get_file_content f e end) (fun b =>
    let target := (directory ++ "/" ++ e_filename e)%string in
    Ok (fun p => if String.eqb p target then Some b else f p)).
End Hash.

(** ** Trees *)
Inductive yaml : Type :=
| YNone
| YLeaf (n : nat)
| YList (l : list yaml)
| YDict (d : list (string * yaml)).

Definition is_none (y : yaml) : bool := match y with YNone => true | _ => false end.

(** asdf/types.py lines 43-44: [remap(tree, lambda p, k, v: v is not None)] *)
Fixpoint drop (y : yaml) : yaml :=
  match y with
  | YList l => YList ((fix go l := match l with
                        | [] => []
                        | x :: r => if is_none x then go r else drop x :: go r
                        end) l)
  | YDict d => YDict ((fix go d := match d with
                        | [] => []
                        | (k, x) :: r => if is_none x then go r else (k, drop x) :: go r
                        end) d)
  | _ => y
  end.

(** [bool(value)] *)
Definition truthy (y : yaml) : bool :=
  match y with
  | YNone | YLeaf O | YList [] | YDict [] => false
  | _ => true
  end.

Definition META : string := "wx_metadata".
Definition USER : string := "wx_user".

(** [tree[key] = attr] *)
Definition assign (k : string) (attr : option yaml) (t : res yaml) : res yaml :=
  bind t (fun t =>
  match attr with
  | None => Ok t
  | Some a => if truthy a then match t with YDict d => Ok (YDict (dset k a d)) | _ => Err TypeError end else Ok t
  end).

(** types.py lines 33-46: [t] is the result of the wrapped function *)
Definition to_metadata (t : yaml) (meta user : option yaml) : res yaml :=
  bind (assign USER user (assign META meta (Ok t))) (fun t =>
  Ok (match t with YDict _ | YList _ => drop t | _ => t end)).

Definition nonempty (o : option yaml) : option yaml :=
  match o with Some a => if truthy a then Some a else None | None => None end.

(** types.py lines 53-66: the tree for the wrapped function and the attributes *)
Definition from_metadata (t : yaml) : yaml * option yaml * option yaml :=
  match t with
  | YDict d => (YDict (ddel USER (ddel META d)), nonempty (dget META d), nonempty (dget USER (ddel META d)))
  | _ => (t, None, None)
  end.

(** ** Dataclasses: a field is a list of strings or something else *)
Inductive field : Type := FStrs (l : list string) | FOther (n : nat).

(** python's [sorted] for strings *)
Fixpoint insert (x : string) (l : list string) : list string :=
  match l with
  | [] => [x]
  | y :: r => if String.leb x y then x :: l else y :: insert x r
  end.
Definition sorted (l : list string) : list string := fold_right insert [] l.

(** asdf/util.py lines 473-477 [_sort_string_list]: the dictionary is that of the
    object and is changed in place; the tree is the same dictionary *)
Definition sort_fields (d : dict field) : dict field :=
  map (fun p => (fst p, match snd p with FStrs l => FStrs (sorted l) | f => f end)) d.

(** lines 470-492: new state of the object and tree; [mod_] is the modification
    given by the user, which is taken to leave its argument alone *)
Definition dataclass_tree (sort : bool) (mod_ : dict field -> dict field) (obj : dict field) : dict field * dict field :=
  let obj' := if sort then sort_fields obj else obj in
  (obj', mod_ obj').

(** ** Tags *)
(** [t.rpartition(sep)] for one character: the text before and behind the last one;
    ("", t) without *)
Fixpoint rpartition (c : ascii) (s : string) : option (string * string) :=
  match s with
  | EmptyString => None
  | String x r => match rpartition c r with
                  | Some (a, b) => Some (String x a, b)
                  | None => if Ascii.eqb x c then Some (EmptyString, r) else None
                  end
  end.
Definition base_tag (t : string) : string := match rpartition "-" t with Some (a, _) => a | None => EmptyString end.
Definition version_text (t : string) : string := match rpartition "-" t with Some (_, b) => b | None => t end.

Definition digit (c : ascii) : option nat :=
  let n := nat_of_ascii c in if (48 <=? n) && (n <=? 57) then Some (n - 48) else None.

(** [packaging.version.Version] of a release number "1.2.3"; the part before the
    next dot is collected in [acc] *)
Fixpoint parse_release (acc : option nat) (s : string) : option (list nat) :=
  match s with
  | EmptyString => match acc with Some n => Some [n] | None => None end
  | String c r =>
    match digit c with
    | Some k => parse_release (Some (match acc with Some n => 10 * n + k | None => k end)) r
    | None => if Ascii.eqb c "." then match acc with
                                      | Some n => option_map (cons n) (parse_release None r)
                                      | None => None
                                      end
              else None
    end
  end.

(** comparison of releases; missing components are zero *)
Fixpoint release_le (a b : list nat) : bool :=
  match a, b with
  | [], _ => true
  | _, [] => forallb (Nat.eqb 0) a
  | x :: a', y :: b' => (x <? y) || ((x =? y) && release_le a' b')
  end.

Fixpoint parse_all (tags : list string) : res (list (string * list nat)) :=
  match tags with
  | [] => Ok []
  | t :: r => match parse_release None (version_text t) with
              | None => Err ValueError
              | Some v => bind (parse_all r) (fun l => Ok ((t, v) :: l))
              end
  end.

(** [list.sort(key=...)], stable *)
Fixpoint insert_tag (x : string * list nat) (l : list (string * list nat)) : list (string * list nat) :=
  match l with
  | [] => [x]
  | y :: r => if release_le (snd x) (snd y) then x :: l else y :: insert_tag x r
  end.
Definition sort_tags (l : list (string * list nat)) : list (string * list nat) := fold_right insert_tag [] l.

(** asdf/util.py lines 574-588; [tags] are those that match the pattern *)
Definition highest_tag (tags : list string) : res (option string) :=
  match tags with
  | [] => Ok None
  | _ => bind (parse_all tags) (fun l =>
         match last (map (fun p => Some (fst p)) (sort_tags l)) None with
         | None => Ok None
         | Some t => if forallb (String.prefix (base_tag t)) tags then Ok (Some t) else Err ValueError
         end)
  end.

(** asdf/types.py lines 99-100 [select_tag] *)
Definition select_tag (tags : list string) : res string :=
  match last (map Some (sorted tags)) None with None => Err IndexError | Some t => Ok t end.

(** ** TimedeltaIndex *)
(** [s.replace(c, r)] for one character *)
Fixpoint replace (c : ascii) (r : string) (s : string) : string :=
  match s with
  | EmptyString => EmptyString
  | String x t => if Ascii.eqb x c then (r ++ replace c r t)%string else String x (replace c r t)
  end.

(** timedeltaindex.py lines 11-17 *)
Definition suffixes : list (ascii * string) :=
  [("H"%char, "h"%string); ("T"%char, "min"%string); ("S"%char, "s"%string);
   ("L"%char, "ms"%string); ("U"%char, "us"%string); ("N"%char, "ns"%string)].
Definition convert_freq (s : string) : string :=
  fold_left (fun acc p => replace (fst p) (snd p) acc) suffixes s.

Record tdi_tree : Type := TdiTree {
  i_freq : option string;
  i_values : option (list Z);
  i_start : Z;
  i_end : Z
}.

Section Index.
  (** [TimedeltaIndex.inferred_freq] *)
  Variable inferred : list Z -> option string.
  (** length of a frequency in nanoseconds, as pandas reads it *)
  Variable freq_ns : string -> option Z.

  (** lines 26-39 [to_yaml_tree]; [min] and [max] are not used when reading *)
  Definition tdi_to_tree (values : list Z) : res tdi_tree :=
    match values with
    | [] => Err IndexError
    | v :: r => Ok (TdiTree (inferred values) (match inferred values with Some _ => None | None => Some values end) v (last values 0%Z))
    end.

  (** [pd.timedelta_range(start, end, freq)] for a positive length *)
  Definition td_range (a b d : Z) : list Z :=
    if (b <? a)%Z then [] else map (fun i => (a + Z.of_nat i * d)%Z) (seq 0 (S (Z.to_nat ((b - a) / d)))).

  (** lines 41-50 [from_yaml_tree] *)
  Definition tdi_from_tree (t : tdi_tree) : res (list Z) :=
    match i_freq t with
    | Some f => match freq_ns (convert_freq f) with
                | None => Err ValueError
                | Some d => Ok (td_range (i_start t) (i_end t) d)
                end
    | None => match i_values t with Some v => Ok v | None => Err KeyError end
    end.
End Index.
