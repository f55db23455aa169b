(** What a watertight, consistently oriented triangle mesh is, independent of
    how the triangles are produced. *)
From Coq Require Import List Arith Bool.
From Verif Require Import MeshModel.
Import ListNotations.

(** directed edges of a triangle and of a triangle list *)
Definition tri_edges (t : tri) : list (nat * nat) :=
  match t with (a, b, c) => [(a, b); (b, c); (c, a)] end.
Definition edges (ts : list tri) : list (nat * nat) := flat_map tri_edges ts.

(** every directed edge occurs once, and so does its reverse: every edge belongs
    to exactly two triangles that traverse it in opposite directions *)
Definition watertight (ts : list tri) : Prop :=
  NoDup (edges ts) /\ forall u v, In (u, v) (edges ts) -> In (v, u) (edges ts).

Definition proper_tri (t : tri) : Prop :=
  match t with (a, b, c) => a <> b /\ b <> c /\ c <> a end.

(** a vertex is used by a triangle *)
Definition tri_has (v : nat) (t : tri) : Prop :=
  match t with (a, b, c) => v = a \/ v = b \/ v = c end.

Definition verts_in (lo hi : nat) (t : tri) : Prop :=
  forall v, tri_has v t -> lo <= v < hi.

(** cyclic successor on [0..n-1] *)
Definition cyc_succ (n i : nat) : nat := if i + 1 =? n then 0 else i + 1.

(** undirected edges, each represented by its increasing orientation *)
Definition uedges (ts : list tri) : list (nat * nat) :=
  filter (fun e => fst e <? snd e) (edges ts).

(** closed mesh with these points, written with the numbers of profiles [np] and
    of points per profile [n] of a block *)
Definition block_points (b : block) : nat := b_np b * b_n b.
Definition block_tris (b : block) : nat := 2 * b_n b * (b_np b - 1) + 2 * (b_n b - 2).
Definition sum (l : list nat) : nat := fold_right Nat.add 0 l.
Definition block_ok (b : block) : Prop := 2 <= b_np b /\ 3 <= b_n b.
