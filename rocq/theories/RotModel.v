(** [WXRotation] (weldx/transformations/rotation.py 22-86) and its converter
    (weldx/tags/core/transformations/rotation.py).

    A rotation is its matrix. SciPy's constructors are modelled by their documentation:
    lower case sequences are extrinsic, upper case ones are intrinsic rotations. *)
From Coq Require Import Reals List String Ascii Bool.
From Verif Require Import Base RigidModel.
Import ListNotations.
Open Scope R_scope.

Inductive axis : Type := AX | AY | AZ.
Definition axis_eqb (a b : axis) : bool :=
  match a, b with AX, AX | AY, AY | AZ, AZ => true | _, _ => false end.

Definition lower (c : ascii) : option axis :=
  if Ascii.eqb c "x" then Some AX else if Ascii.eqb c "y" then Some AY else if Ascii.eqb c "z" then Some AZ else None.
Definition upper (c : ascii) : option axis :=
  if Ascii.eqb c "X" then Some AX else if Ascii.eqb c "Y" then Some AY else if Ascii.eqb c "Z" then Some AZ else None.
Fixpoint axes (f : ascii -> option axis) (s : string) : option (list axis) :=
  match s with
  | EmptyString => Some []
  | String c r => match f c, axes f r with Some a, Some l => Some (a :: l) | _, _ => None end
  end.
Fixpoint consecutive_differ (l : list axis) : bool :=
  match l with
  | a :: ((b :: _) as r) => negb (axis_eqb a b) && consecutive_differ r
  | _ => true
  end.
(** the sequences SciPy accepts: intrinsic or not, one to three axes *)
Definition parse (s : string) : option (bool * list axis) :=
  let check i l :=
    if Nat.leb 1 (List.length l) && Nat.leb (List.length l) 3 && consecutive_differ l then Some (i, l) else None in
  match axes lower s, axes upper s with
  | Some l, _ => check false l
  | None, Some l => check true l
  | None, None => None
  end.

(** a rotation around one axis *)
Definition rot (p : axis) (a : R) : mat :=
  match p with
  | AX => M 1 0 0 0 (cos a) (- sin a) 0 (sin a) (cos a)
  | AY => M (cos a) 0 (sin a) 0 1 0 (- sin a) 0 (cos a)
  | AZ => M (cos a) (- sin a) 0 (sin a) (cos a) 0 0 0 1
  end.
Fixpoint euler (intrinsic : bool) (l : list axis) (a : list R) : mat :=
  match l, a with
  | p :: l, x :: a =>
      if intrinsic then mmul (rot p x) (euler intrinsic l a) else mmul (euler intrinsic l a) (rot p x)
  | _, _ => mid
  end.

(** numbers with 0, 1 or 2 dimensions *)
Inductive nums : Type := N0 (x : R) | N1 (l : list R) | N2 (l : list (list R)).
Definition nmap (f : R -> R) (a : nums) : nums :=
  match a with N0 x => N0 (f x) | N1 l => N1 (map f l) | N2 l => N2 (map (map f) l) end.

Inductive rots : Type := Single (m : mat) | Stack (l : list mat).

Definition radians (x : R) : R := x * (PI / 180).
(** [scipy.spatial.transform.Rotation.from_euler] *)
Definition scipy_from_euler (s : string) (a : nums) (degrees : bool) : res rots :=
  match parse s with
  | None => Err ValueError
  | Some (i, l) =>
      let n := List.length l in
      match (if degrees then nmap radians a else a) with
      | N0 x => if Nat.eqb n 1 then Ok (Single (euler i l [x])) else Err ValueError
      | N1 xs =>
          if Nat.eqb n 1 then Ok (Stack (map (fun x => euler i l [x]) xs))
          else if Nat.eqb (List.length xs) n then Ok (Single (euler i l xs)) else Err ValueError
      | N2 xs =>
          if forallb (fun x => Nat.eqb (List.length x) n) xs then Ok (Stack (map (euler i l) xs)) else Err ValueError
      end
  end.

(** A unit: its name and, if it has no dimension, its size in rad. *)
Record aunit : Type := Unit { u_name : string; u_rad : option R }.
Definition radian : aunit := Unit "radian" (Some 1).
Definition degree : aunit := Unit "degree" (Some (PI / 180)).
Inductive angles : Type := Plain (a : nums) | Quant (a : nums) (u : aunit).
Fixpoint contains (p s : string) : bool :=
  String.prefix p s || match s with EmptyString => false | String _ r => contains p r end.

Inductive meta : Type := MNone | MQuat | MMatrix | MRotvec | MEuler (seq : string) (degrees : bool).
Record wxrot : Type := Wx { w_rot : rots; w_meta : meta }.

(** [from_euler], rotation.py 58-86 with the check of the dimension *)
Definition from_euler (s : string) (a : angles) (degrees : bool) : res wxrot :=
  bind (match a with
        | Plain a => Ok (a, degrees)
        | Quant a u =>
            match u_rad u with
            | None => Err DimensionalityError
            | Some f =>
                let '(a, name, f) :=
                  if String.eqb (u_name u) "dimensionless" then (nmap (fun x => x * f) a, "radian"%string, 1)
                  else (a, u_name u, f) in
                let d := negb (contains "rad" name) in
                if d then Ok (nmap (fun x => x * f / (PI / 180)) a, d) else Ok (nmap (fun x => x * f) a, d)
            end
        end) (fun ad =>
  bind (scipy_from_euler s (fst ad) (snd ad)) (fun r => Ok (Wx r (MEuler s (snd ad))))).

(** ** The converter *)
Section Converter.
  (** quaternions and rotation vectors, [Rotation.as_euler(seq)] in rad *)
  Context {Q W : Type} (as_quat : mat -> Q) (of_quat : Q -> mat) (as_rotvec : mat -> W) (of_rotvec : W -> mat).
  Context (as_euler : string -> mat -> list R).

  Inductive many (X : Type) : Type := OneOf (x : X) | ManyOf (l : list X).
  Definition each {X : Type} (f : mat -> X) (r : rots) : many X :=
    match r with Single m => OneOf _ (f m) | Stack l => ManyOf _ (map f l) end.
  Definition back {X : Type} (f : X -> mat) (q : many X) : rots :=
    match q with OneOf _ x => Single (f x) | ManyOf _ l => Stack (map f l) end.
  Inductive tree : Type :=
  | TQuat (q : many Q)
  | TMatrix (q : many mat)
  | TRotvec (q : many W)
  | TAngles (seq : string) (a : nums) (u : aunit).

  Fixpoint in_string (c : ascii) (s : string) : bool :=
    match s with EmptyString => false | String d r => Ascii.eqb c d || in_string c r end.
  Fixpoint all_in (s t : string) : bool :=
    match s with EmptyString => true | String c r => in_string c t && all_in r t end.
  Fixpoint missing (s t : string) : string :=
    match t with
    | EmptyString => EmptyString
    | String c r => if in_string c s then missing s r else String c (missing s r)
    end.
  (** rotation.py 29-35 *)
  Definition complete (s : string) : res string :=
    if Nat.eqb (String.length s) 3 then Ok s
    else if all_in s "xyz" then Ok (append s (missing s "xyz"))
    else if all_in s "XYZ" then Ok (append s (missing s "XYZ"))
    else Err ValueError.
  (** [numpy.squeeze]; stacks are not empty *)
  Definition squeeze (a : nums) : nums :=
    match a with
    | N1 [x] | N2 [[x]] => N0 x
    | N2 [] => a
    | N2 [l] => N1 l
    | N2 l => if forallb (fun r => Nat.eqb (List.length r) 1) l then N1 (List.concat l) else a
    | _ => a
    end.
  (** [to_yaml_tree], 15-51 *)
  Definition to_tree (o : wxrot) : res tree :=
    match w_meta o with
    | MNone | MQuat => Ok (TQuat (each as_quat (w_rot o)))
    | MMatrix => Ok (TMatrix (each (fun m => m) (w_rot o)))
    | MRotvec => Ok (TRotvec (each as_rotvec (w_rot o)))
    | MEuler s d =>
        bind (complete s) (fun s3 =>
        let ang m := map (fun x => if d then x / (PI / 180) else x) (as_euler s3 m) in
        let cut m := firstn (String.length s) (ang m) in
        let a := squeeze (match w_rot o with Single m => N1 (cut m) | Stack l => N2 (map cut l) end) in
        Ok (TAngles s a (if d then degree else radian)))
    end.
  (** [from_yaml_tree], 53-62 *)
  Definition from_tree (t : tree) : res wxrot :=
    match t with
    | TQuat q => Ok (Wx (back of_quat q) MQuat)
    | TMatrix q => Ok (Wx (back (fun m => m) q) MMatrix)
    | TRotvec q => Ok (Wx (back of_rotvec q) MRotvec)
    | TAngles s a u => from_euler s (Quant a u) false
    end.
End Converter.
