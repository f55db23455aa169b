(** What coordinates have to look like, without reference to the order of the checks. *)
From Coq Require Import List String Bool Arith.
From Verif Require Import Base CheckModel.
Import ListNotations.
Open Scope string_scope.
Open Scope list_scope.

(** equal values, where a single value may stand for several equal ones *)
Definition values_match {V : Type} (a b : list V) : Prop :=
  a = b \/ (exists x, a = [x] /\ forall y, In y b -> y = x) \/ (exists y, b = [y] /\ forall x, In x a -> x = y).

Inductive same_type : dtype -> dtype -> Prop :=
| st_num : forall n, same_type (DNum n) (DNum n)
| st_str : forall n m, same_type (DStr n) (DStr m)
| st_time : forall d r s, same_type (DTime d r) (DTime d s).

Definition part_of (p s : string) : Prop := exists a b, s = (a ++ p ++ b)%string.
(** a reference given by a name of a time type *)
Definition time_name (r : dref) : Prop :=
  exists s, r = RName s /\ (part_of "timedelta64" s \/ part_of "datetime64" s).

Section Check.
  Context {U V : Type} (np_dtype : string -> option dtype) (parse : string -> res U) (ueqb compat : U -> U -> bool).

  Definition denotes (r : dref) (d : dtype) : Prop :=
    match r with RName s => np_dtype s = Some d | RType d' => d' = d end.
  Definition type_match (v : dtype) (r : dref) : Prop :=
    exists d, denotes r d /\ (v = d \/ (time_name r /\ same_type v d) \/ (d = DStr 0 /\ same_type v d)).
  Definition refs (t : drefs) : list dref := match t with DOne r => [r] | DMany l => l end.
  (** one reference matches and there is no unknown name before it *)
  Definition types_match (v : dtype) (t : drefs) : Prop :=
    exists a r b, refs t = a ++ r :: b /\ type_match v r /\ (forall x, In x a -> exists d, denotes x d).

  Definition unit_is (x : unitattr U) (u : U) : Prop := match x with AStr s => parse s = Ok u | AUnit v => v = u end.
  Definition unit_fails (x : unitattr U) (e : exn) : Prop := exists s, x = AStr s /\ parse s = Err e.

  Section Parts.
    Context (x : @coordvar U V) (c : @check U V).
    Definition good_values : Prop := forall vs, ck_values c = Some vs -> values_match (cv_values x) vs.
    Definition good_types : Prop := forall t, ck_dtype c = Some t -> types_match (cv_dtype x) t.
    Definition good_units : Prop := forall r, ck_units c = Some r ->
      exists a u v, cv_units x = Some a /\ a <> AStr "" /\ unit_is a u /\ unit_is r v /\ ueqb u v = true.
    Definition good_dim : Prop := forall r, ck_dim c = Some r ->
      exists a u v, cv_units x = Some a /\ unit_is a u /\ unit_is r v /\ compat u v = true.
    (** how the units and the dimensionality fail *)
    Definition bad_units (e : exn) : Prop := exists r, ck_units c = Some r /\
      (((cv_units x = None \/ cv_units x = Some (AStr "")) /\ e = ValueError) \/
       exists a, cv_units x = Some a /\ a <> AStr "" /\
         (unit_fails a e \/ exists u, unit_is a u /\
           (unit_fails r e \/ exists v, unit_is r v /\ ueqb u v = false /\ e = ValueError))).
    Definition bad_dim (e : exn) : Prop := exists r, ck_dim c = Some r /\
      ((cv_units x = None /\ e = DimensionalityError) \/
       exists a, cv_units x = Some a /\
         (unit_fails a e \/ exists u, unit_is a u /\
           (unit_fails r e \/ exists v, unit_is r v /\ compat u v = false /\ e = DimensionalityError))).
  End Parts.

  Definition coord_ok (coords : dict (@coordvar U V)) (k : string) (c : @check U V) : Prop :=
    match dget k coords with
    | None => ck_optional c = Some true
    | Some x => good_values x c /\ good_types x c /\ good_units x c /\ good_dim x c
    end.
  (** the error of the first check that fails *)
  Definition coord_fails (coords : dict (@coordvar U V)) (k : string) (c : @check U V) (e : exn) : Prop :=
    match dget k coords with
    | None => ck_optional c <> Some true /\ e = KeyError
    | Some x =>
        (~ good_values x c /\ e = ValueError) \/
        (good_values x c /\ ~ good_types x c /\ e = TypeError) \/
        (good_values x c /\ good_types x c /\ bad_units x c e) \/
        (good_values x c /\ good_types x c /\ good_units x c /\ bad_dim x c e)
    end.

  (** ** Derived series *)
  (** a coordinate with units of a dimensionality *)
  Definition has_units (coords : dict (@coordvar U V)) (k : string) (r : U) : Prop :=
    exists x a u, dget k coords = Some x /\ cv_units x = Some a /\ unit_is a u /\ compat u r = true.
  Definition has_values (coords : dict (@coordvar U V)) (k : string) (vs : list V) : Prop :=
    exists x, dget k coords = Some x /\ values_match (cv_values x) vs.
  Definition unit_fits (u : option U) (r : option U) : Prop :=
    match r with None => True | Some r => exists v, u = Some v /\ compat v r = true end.

  (** two arrays of an evaluation disagree on the length of a dimension *)
  Definition clash (e : @expr U V) (l : list (string * nat)) : Prop :=
    (exists a d n b m c, l = a ++ (d, n) :: b ++ (d, m) :: c /\ n <> m) \/
    (exists d n m s p, In (d, n) l /\ In (s, p) (e_params e) /\ In (d, m) (pa_shape p) /\ n <> m).
End Check.
