(** Vocabulary of the statements about grooves. *)
From Coq Require Import Reals List ZArith.
From Verif Require Import Base GeoModel GeoSpec GrooveModel.
Import ListNotations.
Open Scope R_scope.

(** reflection across the y axis *)
Definition flip (p : pt) : pt := P (- px p) (py p).
(** the right workpiece is the mirror image of the left one *)
Definition mirror_images (l r : shape) : Prop := Forall2 (image flip (-1)) l r.

(** the face from p to q rises and leans outwards (to the left) by the angle a *)
Definition leans (a : R) (p q : pt) : Prop :=
  exists k, 0 < k /\ px q = px p - k * sin a /\ py q = py p + k * cos a.
(** the same for a face of the lower side, which rises towards the gap *)
Definition leans_in (a : R) (p q : pt) : Prop :=
  exists k, 0 < k /\ px q = px p + k * sin a /\ py q = py p + k * cos a.

(** segment s connects p with q *)
Definition connects (p q : pt) (s : seg) : Prop := point_start s = p /\ point_end s = q.

(** all points of the segments' ends have an x coordinate of at least / at most x *)
Definition leftmost (x : R) (sh : shape) : Prop :=
  (exists s, In s sh /\ (px (point_start s) = x \/ px (point_end s) = x)) /\
  forall s, In s sh -> x <= px (point_start s) /\ x <= px (point_end s).
Definition rightmost (x : R) (sh : shape) : Prop :=
  (exists s, In s sh /\ (px (point_start s) = x \/ px (point_end s) = x)) /\
  forall s, In s sh -> px (point_start s) <= x /\ px (point_end s) <= x.

(** single sided grooves and frontal faces *)
Definition single (g : groove) : bool :=
  match g with
  | GDV _ _ _ _ _ _ _ | GDU _ _ _ _ _ _ _ _ _ | GDHV _ _ _ _ _ _ _ | GDHU _ _ _ _ _ _ _ _ _ => false
  | _ => true
  end.

(** all given quantities of a groove are at least zero; absent ones do not count *)
Definition nonneg_opt (o : option R) : Prop := match o with Some x => 0 <= x | None => True end.
Definition nonneg (g : groove) : Prop :=
  match g with
  | GI t b => 0 <= t /\ 0 <= b
  | GV t a c b => 0 <= t /\ 0 <= a /\ 0 <= c /\ 0 <= b
  | GVV t a be h c b => 0 <= t /\ 0 <= a /\ 0 <= be /\ 0 <= h /\ 0 <= c /\ 0 <= b
  | GUV t a be r h b => 0 <= t /\ 0 <= a /\ 0 <= be /\ 0 <= r /\ 0 <= h /\ 0 <= b
  | GU t be r c b | GHU t be r c b => 0 <= t /\ 0 <= be /\ 0 <= r /\ 0 <= c /\ 0 <= b
  | GHV t be c b => 0 <= t /\ 0 <= be /\ 0 <= c /\ 0 <= b
  | GDV t x y c h1 h2 b | GDHV t x y c h1 h2 b =>
      0 <= t /\ 0 <= x /\ 0 <= y /\ 0 <= c /\ nonneg_opt h1 /\ nonneg_opt h2 /\ 0 <= b
  | GDU t x y r r2 c h1 h2 b | GDHU t x y r r2 c h1 h2 b =>
      0 <= t /\ 0 <= x /\ 0 <= y /\ 0 <= r /\ 0 <= r2 /\ 0 <= c /\ nonneg_opt h1 /\ nonneg_opt h2 /\ 0 <= b
  | GFF t1 t2 a b e => 0 <= t1 /\ nonneg_opt t2 /\ nonneg_opt a /\ nonneg_opt b /\ nonneg_opt e
  end.

(** the width of the documentation of [to_profile], in millimetres *)
Definition documented_width (g : groove) : R :=
  match g with
  | GI _ _ => 5 | GV _ _ _ _ => 2 | GVV _ _ _ _ _ _ => 5 | GUV _ _ _ _ _ _ => 2 | GU _ _ _ _ _ => 3
  | GHV _ _ _ _ => 5 | GHU _ _ _ _ _ => 5 | GDV _ _ _ _ _ _ _ => 5 | GDU _ _ _ _ _ _ _ _ _ => 5
  | GDHV _ _ _ _ _ _ _ => 5 | GDHU _ _ _ _ _ _ _ _ _ => 5 | GFF _ _ _ _ _ => 5
  end.
