(** Vocabulary of the statements about plane geometry; independent of the
    functions of the model except for the records of points and segments. *)
From Coq Require Import Reals List ZArith.
From Verif Require Import Base GeoModel.
Import ListNotations.
Open Scope R_scope.

(** distance of two points *)
Definition dist (p q : pt) : R :=
  sqrt ((px p - px q) * (px p - px q) + (py p - py q) * (py p - py q)).

(** the vector v turned counter-clockwise by the angle t *)
Definition rot (t : R) (v : pt) : pt :=
  P (cos t * px v - sin t * py v) (sin t * px v + cos t * py v).

(** the point reached from p by turning it by t around c *)
Definition turned (t : R) (c p : pt) : pt :=
  P (px c + px (rot t (P (px p - px c) (py p - py c))))
    (py c + py (rot t (P (px p - px c) (py p - py c)))).

Definition midpoint (p q : pt) : pt := P ((px p + px q) / 2) ((py p + py q) / 2).

(** p lies on the straight line through a and b (a <> b) *)
Definition on_line (a b p : pt) : Prop :=
  exists t, px p = px a + t * (px b - px a) /\ py p = py a + t * (py b - py a).

(** p lies on the line with the normal n at the distance d from the origin *)
Definition on_normal_line (n : pt) (d : R) (p : pt) : Prop :=
  px n * px p + py n * py p = d * sqrt (px n * px n + py n * py n).

(** q is the mirror image of p: the midpoint is on the line and the connection
    is perpendicular to it *)
Definition mirror_normal (n : pt) (d : R) (p q : pt) : Prop :=
  on_normal_line n d (midpoint p q) /\ px n * (py q - py p) = py n * (px q - px p).
Definition mirror_line (a b p q : pt) : Prop :=
  on_line a b (midpoint p q) /\
  (px b - px a) * (px q - px p) + (py b - py a) * (py q - py p) = 0.

(** twice the signed area of a closed polygon (shoelace formula): positive for a
    counter-clockwise polygon *)
Fixpoint area2 (l : list pt) : R :=
  match l with
  | a :: ((b :: _) as r) => (px a * py b - px b * py a) + area2 r
  | _ => 0
  end.

(** the last of a list of points *)
Definition last_pt (l : list pt) : pt := last l (P 0 0).

(** z is an integer nearest to x *)
Definition nearest (z : Z) (x : R) : Prop := Rabs (IZR z - x) <= / 2.

(** the end of each segment is the start of the next one *)
Fixpoint joined (l : list seg) : Prop :=
  match l with
  | a :: ((b :: _) as r) => point_end a = point_start b /\ joined r
  | _ => True
  end.

(** the same up to the tolerance of the library *)
Definition near (p q : pt) : Prop :=
  Rabs (px p - px q) <= / 1000000000 + / 100000 * Rabs (px q) /\
  Rabs (py p - py q) <= / 1000000000 + / 100000 * Rabs (py q).
Fixpoint nearly_joined (l : list seg) : Prop :=
  match l with
  | a :: ((b :: _) as r) => near (point_end a) (point_start b) /\ nearly_joined r
  | _ => True
  end.

(** an arc as it leaves the constructor or one of the operations: series and
    points describe the same curve *)
Definition center_of (a : arc) : pt := fold_left padd (s_t a) (s_o a).
Record arc_ok (a : arc) : Prop := {
  ok_center : center_of a = a_center a;
  ok_wind : a_wind a = 1%Z \/ a_wind a = (-1)%Z;
  ok_w : s_w a = a_wind a;
  ok_r : s_r a = dist (a_start a) (a_center a);
  ok_pos : 0 < s_r a;
  ok_a : px (a_start a) - px (a_center a) = s_r a * cos (s_a a) /\
         py (a_start a) - py (a_center a) = s_r a * sin (s_a a);
  ok_max : arc_angle (a_start a) (a_end a) (a_center a) (a_wind a) = Ok (a_max a);
  ok_len : a_len a = s_r a * a_max a;
  ok_len_pos : 0 < a_max a;
  ok_end : Rabs (dist (a_end a) (a_center a) - dist (a_start a) (a_center a)) <= / 100000000
}.
Definition seg_ok (s : seg) : Prop :=
  match s with
  | SLine a b l => l = dist a b /\ 0 < l
  | SArc a => arc_ok a
  end.

(** the end of the arc has exactly the radius of the start *)
Definition exact_radius (s : seg) : Prop :=
  match s with
  | SLine _ _ _ => True
  | SArc a => dist (a_end a) (a_center a) = dist (a_start a) (a_center a)
  end.

Definition is_line (s : seg) : Prop := match s with SLine _ _ _ => True | SArc _ => False end.

(** segment t is the image of s under f, with the winding multiplied by k *)
Definition image (f : pt -> pt) (k : Z) (s t : seg) : Prop :=
  match s, t with
  | SLine a b _, SLine c d _ => c = f a /\ d = f b
  | SArc a, SArc b =>
      a_start b = f (a_start a) /\ a_end b = f (a_end a) /\ a_center b = f (a_center a) /\
      a_wind b = (a_wind a * k)%Z
  | _, _ => False
  end /\ max_coord t = max_coord s /\ forall x, get_point t x = f (get_point s x).

(** shapes that are built by the operations of the library *)
Inductive reach : shape -> Prop :=
| R_build : forall l sh, Forall seg_ok l -> joined l -> mk_shape l = Ok sh -> reach sh
| R_lines : forall sh pts sh' o, reach sh -> add_line_segments sh pts = (sh', o) -> reach sh'
| R_translate : forall sh v, reach sh -> reach (translate_shape v sh)
| R_reflect : forall sh n d sh' o, reach sh -> reflect_shape n d sh = (sh', o) -> reach sh'
| R_across : forall sh a b sh' o, reach sh -> reflect_across a b sh = (sh', o) -> reach sh'
| R_rotate : forall sh t sh' o, reach sh ->
    transform_shape (M2 (cos t) (- sin t) (sin t) (cos t)) sh = (sh', o) -> reach sh'
| R_linear : forall sh m sh' o, reach sh -> Forall is_line sh ->
    q00 m * q11 m - q01 m * q10 m <> 0 -> transform_shape m sh = (sh', o) -> reach sh'
| R_scale : forall sh k sh' o, reach sh -> Forall exact_radius sh -> 0 < k ->
    transform_shape (M2 k 0 0 k) sh = (sh', o) -> reach sh'
| R_interpolate : forall a b w sh, reach a -> reach b -> interpolate_shape a b w = Ok sh -> reach sh.
