(** Vocabulary of the statements about nested structures. *)
From Coq Require Import List String Bool Arith.
From Verif Require Import Base NestedModel.
Import ListNotations.

(** python objects: the keys of a dictionary are different, the items of a sequence
    are numbered *)
Inductive wf : val -> Prop :=
| wf_int : forall z, wf (VInt z)
| wf_str : forall s, wf (VStr s)
| wf_other : forall t c, wf (VOther t c)
| wf_con : forall k id items, NoDup (map fst items) ->
    (k <> CDict -> map fst items = map KInt (seq 0 (List.length items))) ->
    Forall (fun p => wf (snd p)) items -> wf (VCon k id items).

Definition container (v : val) : Prop := match v with VCon _ _ _ => True | _ => False end.
(** values without parts; an empty dictionary counts as such *)
Definition leaf (v : val) : Prop :=
  match v with
  | VCon CDict _ [] => True
  | VCon _ _ _ => False
  | _ => True
  end.
Definition empty_dict (v : val) : Prop := match v with VCon CDict _ [] => True | _ => False end.
(** equal values without parts *)
Definition same_leaf (x y : val) : Prop := (~ container x /\ x = y) \/ (empty_dict x /\ empty_dict y).

(** x[k] is y *)
Inductive entry : val -> key -> val -> Prop :=
| E_con : forall kd id items k y, In (k, y) items -> entry (VCon kd id items) k y
| E_str : forall s n c, String.get n s = Some c -> entry (VStr s) (KInt n) (VStr (String c EmptyString)).
(** x[k1][k2]...[kn] is y *)
Inductive reaches : val -> list key -> val -> Prop :=
| R_here : forall x, reaches x [] x
| R_step : forall x k y p z, entry x k y -> reaches y p z -> reaches x (k :: p) z.

(** the identities of the containers; in a tree no container occurs twice *)
Fixpoint ids (v : val) : list nat :=
  match v with
  | VCon _ id items => id :: flat_map (fun p => ids (snd p)) items
  | _ => []
  end.
Definition tree (v : val) : Prop := NoDup (ids v).

Definition falsy (k : key) : Prop := k = KInt 0 \/ k = KStr "".
Definition size (v : val) : nat :=
  match v with
  | VCon _ _ items => List.length items
  | VStr s => String.length s
  | _ => 0
  end.
(** what is compared of two structures if the first one has a leaf as item *)
Definition level_ok (v w : val) : Prop :=
  match w with
  | VCon CDict _ _ =>
      match v with
      | VCon CDict _ _ => forall k, ~ falsy k -> ((exists x, entry v k x) <-> (exists x, entry w k x))
      | _ => False
      end
  | _ => size v = size w
  end.

(** what compare_nested decides *)
Inductive covers : val -> val -> Prop :=
| Cov : forall kd id items w,
    (forall k x, In (k, x) items -> exists y, entry w k y /\
       (leaf x -> same_leaf x y /\ level_ok (VCon kd id items) w) /\
       (~ leaf x -> covers x y)) ->
    covers (VCon kd id items) w.

(** equality of structures up to the class of the containers *)
Inductive same : val -> val -> Prop :=
| Same_leaf : forall x y, same_leaf x y -> same x y
| Same_con : forall kd id i kd' id' j,
    (forall k, (exists x, In (k, x) i) <-> (exists y, In (k, y) j)) ->
    (forall k x y, In (k, x) i -> In (k, y) j -> same x y) ->
    same (VCon kd id i) (VCon kd' id' j).

(** equality of structures *)
Inductive equal : val -> val -> Prop :=
| Eq_leaf : forall x y, same_leaf x y -> equal x y
| Eq_con : forall kd id i id' j,
    (forall k, (exists x, In (k, x) i) <-> (exists y, In (k, y) j)) ->
    (forall k x y, In (k, x) i -> In (k, y) j -> equal x y) ->
    equal (VCon kd id i) (VCon kd id' j).

(** no dictionary has a key that counts as false *)
Inductive plain : val -> Prop :=
| plain_atom : forall v, ~ container v -> plain v
| plain_con : forall kd id items, (kd = CDict -> forall k x, In (k, x) items -> ~ falsy k) ->
    (forall k x, In (k, x) items -> plain x) -> plain (VCon kd id items).

(** ** managers *)
(** a dictionary whose values have no parts *)
Definition flat (v : val) : Prop :=
  wf v /\ plain v /\ tree v /\ exists id items, v = VCon CDict id items /\ forall k x, In (k, x) items -> ~ container x.
(** attributes of a node: the dictionary of its data *)
Definition node_ok (v : val) : Prop :=
  wf v /\ tree v /\ exists id d, v = VCon CDict id [(KStr "data", d)] /\ flat d.
Definition manager_ok (m : manager) : Prop :=
  NoDup (map fst (m_nodes m)) /\ NoDup (map fst (m_edges m)) /\
  (forall n v, In (n, v) (m_nodes m) -> node_ok v) /\
  (forall e v, In (e, v) (m_edges m) -> flat v /\ ~ empty_dict v) /\
  flat (m_subs m).
(** the edges of a tree are stored in both directions *)
Definition edge_count (m : manager) : Prop :=
  S (List.length (m_edges m)) = (2 * List.length (m_nodes m) - 1)%nat.
(** the same entries *)
Definition same_dict {K : Type} (l m : list (K * val)) : Prop :=
  (forall k, (exists x, In (k, x) l) <-> (exists y, In (k, y) m)) /\
  forall k x y, In (k, x) l -> In (k, y) m -> equal x y.
