(* Creation of grooves: the checks of dimensions and get_groove.

   Source: weldx/util/util.py (ureg_check_class, lines 84-135) and
   weldx/welding/groove/iso_9692_1.py (the fields, dimensions and mappings of
   the twelve groove classes; get_groove, lines 1658-1954).

   Only what the original __init__ receives is modelled; __post_init__ is the
   subject of C70 and C71.  `ureg.check` and `inspect.Signature.bind` are
   transcribed from their documentation.  Lists of code numbers as arguments are
   left out. *)
From Coq Require Import List String Bool Arith ZArith.
From Verif Require Import Base.
Import ListNotations.
Open Scope string_scope.

Inductive dim := Length | Dimensionless | OtherDim (n : nat).
Definition dim_eqb (a b : dim) : bool :=
  match a, b with
  | Length, Length | Dimensionless, Dimensionless => true
  | OtherDim n, OtherDim m => Nat.eqb n m
  | _, _ => false
  end.

(* Quantities with dimension and magnitude, numbers, text, None, and what a
   dataclass puts as default of a field with a factory *)
Inductive value :=
| VQ (d : dim) (m : Z)
| VNum (m : Z)
| VText (s : string)
| VNone
| VFactory.

Record fld := Fld { f_name : string; f_default : option value }.
Record groove := Groove {
  g_name : string;
  g_fields : list fld;
  g_dims : list (option dim);
  g_mapping : list (string * string)
}.

Definition req (n : string) : fld := Fld n None.
Definition mm (n : string) (z : Z) : fld := Fld n (Some (VQ Length z)).
Definition opt (n : string) : fld := Fld n (Some VNone).
Definition codes : fld := Fld "code_number" (Some VFactory).
Definition L := Some Length.
Definition A := Some Dimensionless.
Definition N := @None dim.

(* iso_9692_1.py, lines 234-258 *)
Definition IGroove := Groove "IGroove" [req "t"; mm "b" 0; codes] [L; L; N]
  [("t", "workpiece_thickness"); ("b", "root_gap")].
(* 286-321 *)
Definition VGroove := Groove "VGroove" [req "t"; req "alpha"; mm "c" 0; mm "b" 0; codes] [L; A; L; L; N]
  [("t", "workpiece_thickness"); ("alpha", "groove_angle"); ("b", "root_gap"); ("c", "root_face")].
(* 373-416 *)
Definition VVGroove := Groove "VVGroove"
  [req "t"; req "alpha"; req "beta"; req "h"; mm "c" 0; mm "b" 0; codes] [L; A; A; L; L; L; N]
  [("t", "workpiece_thickness"); ("alpha", "groove_angle"); ("beta", "bevel_angle");
   ("b", "root_gap"); ("c", "root_face"); ("h", "root_face2")].
(* 465-508 *)
Definition UVGroove := Groove "UVGroove"
  [req "t"; req "alpha"; req "beta"; req "R"; mm "h" 0; mm "b" 0; codes] [L; A; A; L; L; L; N]
  [("t", "workpiece_thickness"); ("alpha", "groove_angle"); ("beta", "bevel_angle");
   ("R", "bevel_radius"); ("b", "root_gap"); ("h", "root_face")].
(* 564-603 *)
Definition UGroove := Groove "UGroove"
  [req "t"; req "beta"; req "R"; mm "c" 0; mm "b" 0; codes] [L; A; L; L; L; N]
  [("t", "workpiece_thickness"); ("beta", "bevel_angle"); ("R", "bevel_radius");
   ("b", "root_gap"); ("c", "root_face")].
(* 680-711 *)
Definition HVGroove := Groove "HVGroove"
  [req "t"; req "beta"; mm "c" 0; mm "b" 0; codes] [L; A; L; L; N]
  [("t", "workpiece_thickness"); ("beta", "bevel_angle"); ("b", "root_gap"); ("c", "root_face")].
(* 779-818 *)
Definition HUGroove := Groove "HUGroove"
  [req "t"; req "beta"; req "R"; mm "c" 0; mm "b" 0; codes] [L; A; L; L; L; N]
  [("t", "workpiece_thickness"); ("beta", "bevel_angle"); ("R", "bevel_radius");
   ("b", "root_gap"); ("c", "root_face")].
(* 889-936 *)
Definition DVGroove := Groove "DVGroove"
  [req "t"; req "alpha_1"; req "alpha_2"; mm "c" 0; opt "h1"; opt "h2"; mm "b" 0; codes]
  [L; A; A; L; N; N; L; N]
  [("t", "workpiece_thickness"); ("alpha_1", "groove_angle"); ("alpha_2", "groove_angle2");
   ("b", "root_gap"); ("c", "root_face"); ("h1", "root_face2"); ("h2", "root_face3")].
(* 995-1061 *)
Definition DUGroove := Groove "DUGroove"
  [req "t"; req "beta_1"; req "beta_2"; req "R"; req "R2"; mm "c" 3; opt "h1"; opt "h2"; mm "b" 0; codes]
  [L; A; A; L; L; L; N; N; L; N]
  [("t", "workpiece_thickness"); ("beta_1", "bevel_angle"); ("beta_2", "bevel_angle2");
   ("R", "bevel_radius"); ("R2", "bevel_radius2"); ("b", "root_gap"); ("c", "root_face");
   ("h1", "root_face2"); ("h2", "root_face3")].
(* 1131-1178 *)
Definition DHVGroove := Groove "DHVGroove"
  [req "t"; req "beta_1"; req "beta_2"; mm "c" 0; opt "h1"; opt "h2"; mm "b" 0; codes]
  [L; A; A; L; N; N; L; N]
  [("t", "workpiece_thickness"); ("beta_1", "bevel_angle"); ("beta_2", "bevel_angle2");
   ("c", "root_face"); ("h1", "root_face2"); ("h2", "root_face3"); ("b", "root_gap")].
(* 1226-1292 *)
Definition DHUGroove := Groove "DHUGroove"
  [req "t"; req "beta_1"; req "beta_2"; req "R"; req "R2"; mm "c" 0; opt "h1"; opt "h2"; mm "b" 0; codes]
  [L; A; A; L; L; L; N; N; L; N]
  [("t", "workpiece_thickness"); ("beta_1", "bevel_angle"); ("beta_2", "bevel_angle2");
   ("R", "bevel_radius"); ("R2", "bevel_radius2"); ("b", "root_gap"); ("c", "root_face");
   ("h1", "root_face2"); ("h2", "root_face3")].
(* 1341-1389 *)
Definition FFGroove := Groove "FFGroove"
  [req "t_1"; opt "t_2"; opt "alpha"; opt "code_number"; opt "b"; opt "e"] [L; N; N; N; N; N]
  [("t_1", "workpiece_thickness"); ("t_2", "workpiece_thickness2"); ("alpha", "groove_angle");
   ("b", "root_gap"); ("e", "special_depth"); ("code_number", "code_number")].

(* _groove_name_to_type: the subclasses of IsoBaseGroove by name *)
Definition grooves : list groove :=
  [IGroove; VGroove; VVGroove; UVGroove; UGroove; HVGroove; HUGroove; DVGroove; DUGroove;
   DHVGroove; DHUGroove; FFGroove].

(* `ureg.check(None, *args)(orig_init)` when the class is defined: one dimension
   for each parameter, the first for self *)
Definition check_class (g : groove) : res groove :=
  if Nat.eqb (S (List.length (g_dims g))) (S (List.length (g_fields g))) then Ok g else Err TypeError.

(* inspect.Signature.bind with the defaults applied: positional arguments first,
   no field twice, none unknown, none missing *)
Fixpoint bind_fields (fs : list fld) (args : list value) (kw : dict value) : res (list value) :=
  match fs with
  | [] => match args with [] => Ok [] | _ :: _ => Err TypeError end
  | f :: r =>
      match args with
      | v :: a =>
          if dmem (f_name f) kw then Err TypeError
          else bind (bind_fields r a kw) (fun l => Ok (v :: l))
      | [] =>
          match dget (f_name f) kw with
          | Some v => bind (bind_fields r [] kw) (fun l => Ok (v :: l))
          | None =>
              match f_default f with
              | Some v => bind (bind_fields r [] kw) (fun l => Ok (v :: l))
              | None => Err TypeError
              end
          end
      end
  end.
Definition bind_args (g : groove) (args : list value) (kw : dict value) : res (list value) :=
  if forallb (fun k => smem k (map f_name (g_fields g))) (dkeys kw)
  then bind_fields (g_fields g) args kw
  else Err TypeError.

Section Make.
  (* the dimension and magnitude of a text, or the error of the unit parser *)
  Variable parse : string -> res (dim * Z).

  (* Quantity(value), Q_(value) *)
  Definition to_quantity (v : value) : res (dim * Z) :=
    match v with
    | VQ d m => Ok (d, m)
    | VNum m => Ok (Dimensionless, m)
    | VText s => parse s
    | VNone | VFactory => Err TypeError
    end.

  (* the loop of the wrapper of ureg.check *)
  Fixpoint check (dims : list (option dim)) (vs : list value) : res unit :=
    match dims, vs with
    | Some d :: r, v :: t =>
        bind (to_quantity v) (fun q =>
        if dim_eqb (fst q) d then check r t else Err DimensionalityError)
    | None :: r, _ :: t => check r t
    | _, _ => Ok tt
    end.

  (* calling a groove class: what the original __init__ receives *)
  Definition create (g : groove) (args : list value) (kw : dict value) : res (list (string * value)) :=
    bind (bind_args g args kw) (fun vs =>
    bind (check (g_dims g) vs) (fun _ =>
    Ok (combine (map f_name (g_fields g)) vs))).

  (* get_groove, lines 1940-1954.  [given] are the parameters; None is absent. *)
  Fixpoint convert (m : list (string * string)) (given : string -> value) : res (dict value) :=
    match m with
    | [] => Ok []
    | (k, p) :: r =>
        match given p with
        | VNone => convert r given
        | v => bind (to_quantity v) (fun q =>
               bind (convert r given) (fun d => Ok ((k, VQ (fst q) (snd q)) :: d)))
        end
    end.
  Definition get_groove (groove_type : string) (given : string -> value) : res (string * list (string * value)) :=
    match find (fun g => String.eqb (g_name g) groove_type) grooves with
    | None => Err KeyError
    | Some g =>
        bind (convert (g_mapping g) given) (fun args =>
        let args' := match given "code_number" with
                     | VNone => args
                     | v => dset "code_number" v args
                     end in
        bind (create g [] args') (fun fs => Ok (g_name g, fs)))
    end.
End Make.
