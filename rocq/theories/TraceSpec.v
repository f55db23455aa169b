(** Vocabulary of the statements about traces: the path that a person walks along
    straight lines and bends. *)
From Coq Require Import Reals List.
From Verif Require Import Base RigidModel RigidSpec TraceModel.
Import ListNotations.
Open Scope R_scope.

(** what [sympy.integrate] is assumed to do: the integral of a function with a
    constant value from 0 to m *)
Definition integral_ok (integral : (R -> R) -> R -> R) : Prop :=
  forall f c m, (forall x, f x = c) -> integral f m = c * m.

(** the parts of a trace *)
Inductive piece : Type :=
| Straight (len : R)
| Bend (radius angle : R) (clockwise : bool).
Definition piece_ok (p : piece) : Prop :=
  match p with
  | Straight l => 0 < l
  | Bend r a _ => 0 < r /\ 0 < a
  end.
Definition piece_length (p : piece) : R :=
  match p with
  | Straight l => l
  | Bend r a _ => r * a
  end.
Definition total_length (ps : list piece) : R := fold_right (fun p x => piece_length p + x) 0 ps.

(** the segments of the library for these parts *)
Definition segment_of (integral : (R -> R) -> R -> R) (p : piece) : res tseg :=
  match p with
  | Straight l => mk_linear l
  | Bend r a cw => mk_radial integral r a cw
  end.

(** rotation about the z axis; position and heading after the distance s on a
    part that starts at the origin in direction x *)
Definition rotz (t : R) : mat := M (cos t) (- sin t) 0 (sin t) (cos t) 0 0 0 1.
Definition piece_pose (p : piece) (s : R) : lcs :=
  match p with
  | Straight _ => Lcs mid (V s 0 0)
  | Bend r _ cw =>
      let t := s / r in
      if cw then Lcs (rotz (- t)) (V (r * sin t) (- (r * (1 - cos t))) 0)
      else Lcs (rotz t) (V (r * sin t) (r * (1 - cos t)) 0)
  end.

(** the pose b in the system that has the pose a *)
Definition placed (a b : lcs) : lcs :=
  Lcs (mmul (l_ori a) (l_ori b)) (vadd (mvec (l_ori a) (l_pos b)) (l_pos a)).

(** position and heading after the distance s from the start *)
Fixpoint path_pose (ps : list piece) (start : lcs) (s : R) : lcs :=
  match ps with
  | [] => start
  | p :: r =>
      if Rle_dec s (piece_length p) then placed start (piece_pose p s)
      else path_pose r (placed start (piece_pose p (piece_length p))) (s - piece_length p)
  end.

(** no bend is tighter than 1/k *)
Definition bends_at_most (k : R) (p : piece) : Prop :=
  match p with Straight _ => True | Bend r _ _ => / r <= k end.

(** euclidean distance *)
Definition dist3 (a b : vec) : R := sqrt (dist2 a b).

(** strictly increasing *)
Fixpoint increasing (l : list R) : Prop :=
  match l with
  | a :: ((b :: _) as r) => a < b /\ increasing r
  | _ => True
  end.
