(** [sine] (weldx/welding/util.py 20-55) and the evaluation of the series it creates, with
    the check of the units in [TimeSeries._init_expression] (weldx/core/time_series.py
    183-205).

    A quantity is its value in base units and its dimension: the exponents of time and of
    one further base dimension, which stands for all others. Angles have no dimension. All
    parameters are single numbers in units without offset. *)
From Coq Require Import Reals ZArith Bool.
From Verif Require Import Base.
Open Scope R_scope.

Definition dim : Type := (Z * Z)%type.
Definition dim_eqb (a b : dim) : bool := Z.eqb (fst a) (fst b) && Z.eqb (snd a) (snd b).
Record qty : Type := Qt { q_val : R; q_dim : dim }.
Definition qadd (a b : qty) : res qty :=
  if dim_eqb (q_dim a) (q_dim b) then Ok (Qt (q_val a + q_val b) (q_dim a)) else Err DimensionalityError.
Definition qmul (a b : qty) : qty :=
  Qt (q_val a * q_val b) (fst (q_dim a) + fst (q_dim b), snd (q_dim a) + snd (q_dim b))%Z.
Definition qsin (a : qty) : res qty :=
  if dim_eqb (q_dim a) (0, 0)%Z then Ok (Qt (sin (q_val a)) (0, 0)%Z) else Err DimensionalityError.

(** the parameters of "a*sin(o*t+p)+b" *)
Record params : Type := Pa { p_a : qty; p_b : qty; p_o : qty; p_p : qty }.
Definition seconds (t : R) : qty := Qt t (1, 0)%Z.
Definition evaluate (p : params) (t : qty) : res qty :=
  bind (qadd (qmul (p_o p) t) (p_p p)) (fun x =>
  bind (qsin x) (fun s => qadd (qmul (p_a p) s) (p_b p))).
(** 46-55 and the check of the expression *)
Definition sine (f amp : qty) (bias phase : option qty) : res params :=
  let phase := match phase with Some p => p | None => Qt 0 (0, 0)%Z end in
  let bias := match bias with Some b => b | None => Qt 0 (q_dim amp) end in
  let p := Pa amp bias (qmul (Qt (2 * PI) (0, 0)%Z) f) phase in
  match evaluate p (seconds 1) with
  | Ok _ => Ok p
  | Err DimensionalityError => Err WeldxException
  | Err e => Err e
  end.
