(** [FFGroove.to_profile], weldx/welding/groove/iso_9692_1.py 1391-1596.

    Lengths are magnitudes in mm, angles in rad (pint converts). Parameters other than the
    first thickness may be missing ([None]); numpy and pint refuse [None] with a TypeError.
    [cross_sect_area] (1598-1600) always raises NotImplementedError. No proofs in this
    file. *)
From Coq Require Import Reals List String.
From Verif Require Import Base GeoModel.
Import ListNotations.
Open Scope R_scope.

Record front : Type := Front {
  f_t1 : R; f_t2 : option R; f_alpha : option R; f_code : option string; f_b : option R; f_e : option R }.

(** the use of a parameter *)
Definition need (o : option R) : res R := match o with Some x => Ok x | None => Err TypeError end.

(** [geo.Shape()] with [add_line_segments] *)
Definition draw (pts : list pt) : res shape :=
  match add_line_segments [] pts with
  | (s, Ok _) => Ok s
  | (_, Err e) => Err e
  end.
Definition draw2 (a b : list pt) : res (shape * shape) :=
  bind (draw a) (fun s => bind (draw b) (fun t => Ok (s, t))).

(** 1406-1429 *)
Definition tee (t1 w : R) : res (shape * shape) :=
  draw2 [P 0 0; P (2 * w + t1) 0; P (2 * w + t1) t1; P 0 t1; P 0 0]
        [P w 0; P (w + t1) 0; P (w + t1) (- w); P w (- w); P w 0].
(** 1434-1435 *)
Definition wider (t1 w : R) : R := if rlt w (t1 + 1) then t1 + w else w.
(** 1431-1466 *)
Definition inclined (g : front) (w0 : R) : res (shape * shape) :=
  let t1 := f_t1 g in
  let w := wider t1 w0 in
  bind (need (f_alpha g)) (fun alpha =>
  let x1 := cos alpha * w in
  let y1 := sin alpha * w in
  let x2 := cos (alpha + PI / 2) * t1 in
  let y2 := sin (alpha + PI / 2) * t1 in
  let x3 := x1 + x2 in
  let y3 := y1 + y2 in
  bind (draw [P (t1 + x1) y1; P t1 0; P (t1 + x2) y2; P (t1 + x3) y3]) (fun s1 =>
  bind (need (f_b g)) (fun b =>
  bind (need (f_t2 g)) (fun t2 =>
  bind (draw [P w (- b); P 0 (- b); P 0 (- t2 - b); P w (- t2 - b)]) (fun s2 => Ok (s1, s2)))))).
(** 1468-1490 *)
Definition parallel (g : front) (w : R) : res (shape * shape) :=
  let t1 := f_t1 g in
  bind (draw [P 0 0; P w 0; P w t1; P 0 t1]) (fun s1 =>
  bind (need (f_b g)) (fun b =>
  bind (need (f_t2 g)) (fun t2 =>
  bind (draw [P 0 (- b); P (2 * w) (- b); P (2 * w) (- t2 - b); P 0 (- t2 - b)]) (fun s2 => Ok (s1, s2))))).
(** the first workpiece of 3.1.3, 4.1.1 and 4.1.2, 1510-1513 and 1547-1550 *)
Definition butt (t1 w : R) : list pt := [P (- w) 0; P 0 0; P 0 t1; P (- w) t1].
(** 1492-1527 *)
Definition corner (g : front) (w : R) : res (shape * shape) :=
  bind (need (f_alpha g)) (fun alpha =>
  bind (need (f_b g)) (fun b =>
  let x := sin (alpha + PI / 2) * b + b in
  let y := cos (alpha + PI / 2) * b in
  bind (need (f_t2 g)) (fun t2 =>
  let x1 := sin alpha * t2 + x in
  let y1 := cos alpha * t2 + y in
  let x2 := sin (alpha + PI / 2) * (b + w) + b in
  let y2 := cos (alpha + PI / 2) * (b + w) in
  let x3 := x1 + x2 - x in
  let y3 := y1 + y2 - y in
  draw2 (butt (f_t1 g) w) [P x3 y3; P x1 y1; P x y; P x2 y2]))).
(** 1529-1564 *)
Definition shifted_corner (g : front) (w : R) : res (shape * shape) :=
  bind (need (f_alpha g)) (fun alpha =>
  bind (need (f_e g)) (fun e =>
  let x1 := sin alpha * e in
  let y1 := cos alpha * e in
  bind (need (f_t2 g)) (fun t2 =>
  let x2 := sin (alpha + PI) * (t2 - e) in
  let y2 := cos (alpha + PI) * (t2 - e) in
  let x3 := x2 + sin (alpha + PI / 2) * w in
  let y3 := y2 + cos (alpha + PI / 2) * w in
  let x4 := x1 + sin (alpha + PI / 2) * w in
  let y4 := y1 + cos (alpha + PI / 2) * w in
  draw2 (butt (f_t1 g) w) [P x4 y4; P x1 y1; P x2 y2; P x3 y3]))).
(** 1566-1589 *)
Definition upright (g : front) (w : R) : res (shape * shape) :=
  let t1 := f_t1 g in
  bind (draw [P 0 w; P 0 0; P t1 0; P t1 w]) (fun s1 =>
  bind (need (f_b g)) (fun b =>
  bind (need (f_t2 g)) (fun t2 =>
  bind (draw [P (- w) (- b); P (t1 + w) (- b); P (t1 + w) (- t2 - b); P (- w) (- t2 - b); P (- w) (- b)])
       (fun s2 => Ok (s1, s2))))).

(** [to_profile], 1391-1596; the default width is 5 mm *)
Definition front_profile (g : front) (width : option R) : res (shape * shape) :=
  let w := match width with Some w => w | None => 5 end in
  match f_code g with
  | None => Err ValueError
  | Some c =>
      if existsb (String.eqb c) ["1.12"; "1.13"; "2.12"]%string then tee (f_t1 g) w
      else if String.eqb c "3.1.1" then inclined g w
      else if String.eqb c "3.1.2" then parallel g w
      else if existsb (String.eqb c) ["3.1.3"; "4.1.1"]%string then corner g w
      else if String.eqb c "4.1.2" then shifted_corner g w
      else if String.eqb c "4.1.3" then upright g w
      else Err ValueError
  end.
