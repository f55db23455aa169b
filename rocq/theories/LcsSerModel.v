(** The converter of [LocalCoordinateSystem]
    (weldx/tags/core/transformations/local_coordinate_system.py), on top of
    [LcsTimeModel].  The arrays, time deltas and time stamps of a tree are taken to
    be read as they were written (for the time deltas see C51); the unit is part
    of the numbers. *)
From Coq Require Import Reals List ZArith Bool.
From Verif Require Import Base RigidModel InterpModel LinModel LcsTimeModel.
Import ListNotations.
Open Scope Z_scope.

(** the array of a [Variable]: without or with time dimension.  The labels of the
    time dimension are not part of it. *)
Inductive plain (A : Type) : Type := One (a : A) | Many (l : list A).
Arguments One {A}. Arguments Many {A}.
Definition to_plain {A : Type} (x : arr A) : plain A :=
  match x with Const a => One a | Ser s => Many (map snd s) end.

Inductive pos_tree : Type := PPlain (x : plain vec) | PExpr (f : Z -> vec).
Record ltree : Type := LTree {
  lt_ori : option (plain mat);
  lt_pos : option pos_tree;
  lt_time : option (list Z);
  lt_ref : option Z
}.

(** [np.allclose(orientation, np.eye(3))] and [np.allclose(coords, np.zeros(3))] for
    one point in time *)
Definition close_mid (m : mat) : bool :=
  forallb (fun ab => isclose (fst ab) (snd ab))
    [(m00 m, 1%R); (m01 m, 0%R); (m02 m, 0%R); (m10 m, 0%R); (m11 m, 1%R); (m12 m, 0%R); (m20 m, 0%R); (m21 m, 0%R); (m22 m, 1%R)].
Definition close_zero (v : vec) : bool := isclose (vx v) 0 && isclose (vy v) 0 && isclose (vz v) 0.
Definition all_elements {A : Type} (f : A -> bool) (x : arr A) : bool :=
  match x with Const a => f a | Ser s => forallb (fun p => f (snd p)) s end.

(** local_cs.py 639-656 [is_unity_translation] and [is_unity_rotation] *)
Definition is_unity_translation (l : tlcs) : bool :=
  match tl_pos l with CExpr _ => false | CArr x => all_elements close_zero x end.
Definition is_unity_rotation (l : tlcs) : bool := all_elements close_mid (tl_ori l).

(** lines 17-52 [to_yaml_tree] *)
Definition lcs_to_tree (l : tlcs) : ltree :=
  LTree (if is_unity_rotation l then None else Some (to_plain (tl_ori l)))
        (match tl_pos l with
         | CExpr f => Some (PExpr f)
         | CArr x => if is_unity_translation l then None else Some (PPlain (to_plain x))
         end)
        (lcs_axis l)
        (tl_ref l).

(** [xr_3d_matrix] and [xr_3d_vector], util/xarray.py 577-663: an array without time
    dimension drops the times; lengths have to agree, and a time dimension
    needs times *)
Definition with_time {A : Type} (x : plain A) (time : option (list Z)) : res (arr A) :=
  match x, time with
  | One a, _ => Ok (Const a)
  | Many _, None => Err ValueError
  | Many l, Some ts => if Nat.eqb (length l) (length ts) then Ok (Ser (combine ts l)) else Err ValueError
  end.

Section Oracle.
  Context (sl : segment mat).
  (** lines 54-75 [from_yaml_tree] and the constructor, local_cs.py 40-121; if there
      are no times the reference time is used as the only time (340-343) *)
  Definition lcs_from_tree (t : ltree) : res tlcs :=
    let time := match lt_time t, lt_ref t with
                | Some ts, _ => Some ts
                | None, Some _ => Some [0]
                | None, None => None
                end in
    bind (match lt_ori t with None => Ok (Const mid) | Some x => with_time x time end) (fun o =>
    bind (match lt_pos t with
          | None => Ok (CArr (Const vzero))
          | Some (PExpr f) => Ok (CExpr f)
          | Some (PPlain x) => bind (with_time x time) (fun a => Ok (CArr a))
          end) (fun p =>
    mk_tlcs sl o p None (lt_ref t))).
End Oracle.
