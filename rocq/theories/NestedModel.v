(** compare_nested (weldx/util/util.py 169-305) with the parts of boltons.iterutils
    it uses (remap, default_enter, get_path), the generated [__eq__] of dataclasses
    (308-347) and [CoordinateSystemManager.__eq__] (cs_manager.py 146-188). *)
From Coq Require Import List String Ascii Bool Arith ZArith.
From Verif Require Import Base.
Import ListNotations.

(** Keys of dictionaries and indices of sequences.  Negative integer keys are not
    modelled. *)
Inductive key : Type := KInt (n : nat) | KStr (s : string).
Definition key_eqb (a b : key) : bool :=
  match a, b with
  | KInt n, KInt m => Nat.eqb n m
  | KStr s, KStr t => String.eqb s t
  | _, _ => false
  end.

(** Values: integers, strings and nested containers.  [VOther ty c] is a value of
    another class [ty] that is not traversed and that is compared by its content [c]
    (sets, arrays, quantities, Time, instances of classes); it has no items.
    Containers carry the identity of the python object.  The items of a list or
    tuple are stored with their indices. *)
Inductive kind : Type := CList | CTuple | CDict.
Inductive val : Type :=
| VInt (z : Z)
| VStr (s : string)
| VOther (ty c : nat)
| VCon (k : kind) (id : nat) (items : list (key * val)).

Fixpoint lookup (k : key) (items : list (key * val)) : option val :=
  match items with
  | [] => None
  | (k', v) :: r => if key_eqb k k' then Some v else lookup k r
  end.

(** [v[k]] *)
Definition index (v : val) (k : key) : res val :=
  match v with
  | VCon CDict _ items => match lookup k items with Some x => Ok x | None => Err KeyError end
  | VCon _ _ items =>
      match k with
      | KInt _ => match lookup k items with Some x => Ok x | None => Err IndexError end
      | KStr _ => Err TypeError
      end
  | VStr s =>
      match k with
      | KInt n => match String.get n s with
                  | Some c => Ok (VStr (String c EmptyString))
                  | None => Err IndexError
                  end
      | KStr _ => Err TypeError
      end
  | _ => Err TypeError
  end.

(** truth value of a key *)
Definition truthy (k : key) : bool :=
  match k with KInt n => negb (Nat.eqb n 0) | KStr s => negb (String.eqb s "") end.

Definition has_key (k : key) (items : list (key * val)) : bool :=
  match lookup k items with Some _ => true | None => false end.

(** [_enter(...)[1]] (215-223) as a truth value: [enumerate] objects are true, an
    [ItemsView] is true if it is not empty *)
Definition traversed (v : val) : bool :=
  match v with
  | VCon CDict _ [] => false
  | VCon _ _ _ => true
  | _ => false
  end.

(** [_compare], 200-213, for values that are not traversed *)
Definition compare_leaf (x y : val) : bool :=
  match x, y with
  | VInt a, VInt b => Z.eqb a b
  | VStr a, VStr b => String.eqb a b
  | VOther t c, VOther u d => (Nat.eqb t u && Nat.eqb c d)%bool
  | VCon CDict _ [], VCon CDict _ [] => true
  | _, _ => false
  end.

Section Compare.
  (** [int(s)] of a string, None if it raises ValueError *)
  Variable parse_int : string -> option nat.

  (** one step of [get_path]: errors are wrapped as PathAccessError, a KeyError; the
      second attempt converts the segment to an integer *)
  Definition step (v : val) (k : key) : res val :=
    match index v k with
    | Ok x => Ok x
    | Err TypeError =>
        match k with
        | KStr s =>
            match parse_int s with
            | Some n => match index v (KInt n) with Ok x => Ok x | Err _ => Err KeyError end
            | None => Err KeyError
            end
        | KInt _ => Err KeyError
        end
    | Err _ => Err KeyError
    end.
  Fixpoint get_path (v : val) (path : list key) : res val :=
    match path with
    | [] => Ok v
    | k :: r => bind (step v k) (fun x => get_path x r)
    end.

  Definition len (v : val) : nat :=
    match v with
    | VCon _ _ items => List.length items
    | VStr s => String.length s
    | _ => 0
    end.

  (** lines 243-253: the checks of the structures that contain the value *)
  Definition check_level (ds ods : val) : res unit :=
    match ods with
    | VCon CDict _ oitems =>
        match ds with
        | VCon CDict _ items =>
            if (existsb (fun p => truthy (fst p) && negb (has_key (fst p) items))%bool oitems ||
                existsb (fun p => truthy (fst p) && negb (has_key (fst p) oitems))%bool items)%bool
            then Err RuntimeError else Ok tt
        | _ => Err AttributeError
        end
    | VCon _ _ _ | VStr _ => if Nat.eqb (len ods) (len ds) then Ok tt else Err RuntimeError
    | _ => Ok tt
    end.

  (** [_visit], 225-256 *)
  Definition visit (a b : val) (path : list key) (k : key) (v : val) : res unit :=
    bind (get_path a path) (fun ds =>
    bind (get_path b path) (fun ods =>
    bind (index ods k) (fun other =>
    if traversed v then Ok tt
    else
      bind (check_level ds ods) (fun _ =>
      if compare_leaf v other then Ok tt else Err RuntimeError)))).

  (** [remap]: the items of containers in order; every container is visited after
      its items.  A container that was entered before, as the same object, is not
      entered again. *)
  Definition nmem (n : nat) (l : list nat) : bool := existsb (Nat.eqb n) l.
  Definition walk_items (visit1 : key -> val -> res unit)
      (walk : val -> list nat -> key -> res (list nat)) : list (key * val) -> list nat -> res (list nat) :=
    fix go items reg :=
      match items with
      | [] => Ok reg
      | (k, x) :: r =>
          match x with
          | VCon _ id _ =>
              if nmem id reg then bind (visit1 k x) (fun _ => go r reg)
              else bind (walk x (id :: reg) k) (fun reg' => bind (visit1 k x) (fun _ => go r reg'))
          | _ => bind (visit1 k x) (fun _ => go r reg)
          end
      end.
  Fixpoint walk (a b : val) (path : list key) (v : val) (reg : list nat) : res (list nat) :=
    match v with
    | VCon _ _ items =>
        walk_items (visit a b path) (fun x reg' k => walk a b (path ++ [k]) x reg') items reg
    | _ => Ok reg
    end.

  (** [compare_nested], 258-302.  A root that is no container is visited with the
      key None. *)
  Definition compare_nested (a b : val) : res bool :=
    match a with
    | VCon _ id _ =>
        match walk a b [] a [id] with
        | Ok _ => Ok true
        | Err KeyError | Err RuntimeError | Err IndexError => Ok false
        | Err e => Err e
        end
    | _ => match b with
           | VCon CDict _ _ => Ok false
           | _ => Err TypeError
           end
    end.

  (** [dataclass_nested_eq], 308-347: an object is its class and its [__dict__];
      [sub c d] is [issubclass(c, d)] *)
  Record obj : Type := Obj { o_class : nat; o_dict : val }.
  Definition nested_eq (sub : nat -> nat -> bool) (self other : obj) : res bool :=
    if sub (o_class other) (o_class self) then compare_nested (o_dict self) (o_dict other)
    else Ok false.

  (** [CoordinateSystemManager.__eq__]: the attributes of a node are {"data": dict};
      [sub_infos] is the dictionary by name; the subsystems are dataclasses, compared
      as a whole *)
  Record manager : Type := Manager {
    m_name : string; m_root : string; m_reference : option Z;
    m_nodes : list (string * val); m_edges : list (string * string * val); m_subs : val }.
  Definition option_eqb (a b : option Z) : bool :=
    match a, b with Some x, Some y => Z.eqb x y | None, None => true | _, _ => false end.
  Definition find_node (n : string) (l : list (string * val)) : option val :=
    match find (fun p => String.eqb n (fst p)) l with Some p => Some (snd p) | None => None end.
  Definition find_edge (e : string * string) (l : list (string * string * val)) : option val :=
    match find (fun p => String.eqb (fst e) (fst (fst p)) && String.eqb (snd e) (snd (fst p)))%bool l with
    | Some p => Some (snd p) | None => None end.
  Fixpoint all_found {K : Type} (look : K -> option val) (l : list (K * val)) : res bool :=
    match l with
    | [] => Ok true
    | (k, v) :: r =>
        match look k with
        | None => Ok false
        | Some w => bind (compare_nested v w) (fun c => if c then all_found look r else Ok false)
        end
    end.
  Definition manager_eq (s o : manager) : res bool :=
    if negb (String.eqb (m_name s) (m_name o)) then Ok false
    else if negb (option_eqb (m_reference s) (m_reference o)) then Ok false
    else if negb (Nat.eqb (List.length (m_nodes s)) (List.length (m_nodes o))) then Ok false
    else
      bind (compare_nested (m_subs s) (m_subs o)) (fun c =>
      if negb c then Ok false
      else
        bind (all_found (fun n => find_node n (m_nodes o)) (m_nodes s)) (fun d =>
        if negb d then Ok false
        else all_found (fun e => find_edge e (m_edges o)) (m_edges s))).
End Compare.
