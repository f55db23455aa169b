(** [MediaFile] (weldx/util/media_file.py) and its converter (weldx/tags/core/media_file.py).

    Numbers are exact reals. Frames are of any type [F]; [resolution] is the size of the
    image of a frame, [colored] tells whether a frame has the dimensions height, width
    and color. [fps] is taken to be non-zero: the division in [duration] raises a
    ZeroDivisionError otherwise. The path that is stored by [ExternalFile] (absolute
    directory and name) is identified with the path that was given, and [files] stands
    for [imread], [av.open] and [stat]. *)
From Coq Require Import Reals List ZArith Bool.
From Verif Require Import Base.
Import ListNotations.
Open Scope R_scope.

(** [numpy.linspace] *)
Definition linspace (a b : R) (n : nat) : list R :=
  match n with
  | O => []
  | 1%nat => [a]
  | _ => map (fun i => a + INR i * ((b - a) / INR (n - 1))) (seq 0 n)
  end.
(** [int] of a float *)
Definition trunc (x : R) : Z := if Rle_dec 0 x then Int_part x else (- Int_part (- x))%Z.

(** A fraction and the properties of a video stream that are used. *)
Record frac : Type := Fr { num : Z; den : Z }.
Definition value (q : frac) : R := IZR (num q) / IZR (den q).
Definition usable (q : frac) : bool := negb (Z.eqb (den q) 0) && negb (Z.eqb (num q) 0).
Record stream : Type := St { st_rate : frac; st_base : frac; st_frames : Z; st_duration : option Z }.

(** [_pts_to_frame], 37-38 *)
Definition pts_to_frame (pts : Z) (base rate : R) (start : Z) : Z :=
  (trunc (IZR pts * base * rate) - trunc (IZR start * base * rate))%Z.
(** [_get_frame_rate], 41-47 *)
Definition frame_rate (s : stream) : res R :=
  if usable (st_rate s) then Ok (value (st_rate s))
  else if usable (st_base s) then Ok (1 / value (st_base s))
  else Err ValueError.
(** truth value of an optional number *)
Definition given (d : option Z) : option Z :=
  match d with Some z => if Z.eqb z 0 then None else Some z | None => None end.
(** [_get_frame_count], 50-61; [None] stands for NaN *)
Definition frame_count (duration : option Z) (s : stream) : res (option Z) :=
  if negb (Z.eqb (st_frames s) 0) then Ok (Some (st_frames s))
  else match given (st_duration s) with
  | Some d => bind (frame_rate s) (fun r => Ok (Some (pts_to_frame d (value (st_base s)) r 0)))
  | None =>
      match given duration with
      | Some d => bind (frame_rate s) (fun r => Ok (Some (pts_to_frame d (1 / 1000000) r 0)))
      | None => Ok None
      end
  end.

(** [pd.Timestamp], [None] or something else as reference time *)
Inductive refarg : Type := NoRef | Stamp (z : Z) | OtherRef.

Section Media.
  Context {F Path : Type} (resolution : F -> nat * nat) (colored : F -> bool).

  (** an array of frames with the coordinates of the dimension "frames", in s *)
  Record arr : Type := Arr { a_frames : list F; a_times : option (list R) }.
  Inductive source : Type :=
  | FromPath (p : Path)
  | FromList (l : list F)
  | FromArr (a : arr)
  | FromOther.
  (** A video: the frames that [imread] gives, the first frame that [av] decodes with its
      duration, the stream and the time of modification. *)
  Record video : Type := Vi { v_frames : list F; v_first : option (F * option Z); v_stream : option stream; v_mtime : Z }.
  Context (files : Path -> res video).

  Record media : Type := Me {
    m_arr : arr; m_len : nat; m_fps : R; m_nframes : option Z; m_resolution : nat * nat;
    m_ref : option Z; m_path : option Path
  }.

  (** [duration], 213-216 *)
  Definition duration_of (n : nat) (fps : R) : R := INR n / fps.
  (** [_wrap_data_array], 148-158 *)
  Definition wrap (l : list F) (fps : R) : res arr :=
    if forallb colored l then Ok (Arr l (Some (linspace 0 (duration_of (length l) fps) (length l)))) else Err ValueError.
  (** [_init_from_sequence], 123-146 *)
  Definition from_sequence (fps : option R) (l : list F) (given : option arr) (ref : refarg) : res media :=
    match fps with
    | None => Err ValueError
    | Some fps =>
        match l with
        | [] => Err IndexError
        | f :: _ =>
            bind (match ref with NoRef => Ok None | Stamp z => Ok (Some z) | OtherRef => Err ValueError end) (fun r =>
            bind (match given with Some a => Ok a | None => wrap l fps end) (fun a =>
            Ok (Me a (length l) fps (Some (Z.of_nat (length l))) (resolution f) r None)))
        end
    end.
  (** [_get_video_metadata] and [_init_from_path], 101-121 and 165-189 *)
  Definition from_path (p : Path) (ref : refarg) : res media :=
    bind (files p) (fun v =>
    match v_first v with
    | None => Err RuntimeError
    | Some (f, d) =>
        bind (match v_stream v with Some s => Ok s | None => Err AttributeError end) (fun s =>
        bind (frame_rate s) (fun fps =>
        bind (frame_count d s) (fun n =>
        bind (wrap (v_frames v) fps) (fun a =>
        bind (match ref with NoRef => Ok (v_mtime v) | Stamp z => Ok z | OtherRef => Err ValueError end) (fun r =>
        Ok (Me a (length (v_frames v)) fps n (resolution f) (Some r) (Some p)))))))
    end).
  (** [__init__], 86-99 *)
  Definition new_media (s : source) (ref : refarg) (fps : option R) : res media :=
    match s with
    | FromPath p => from_path p ref
    | FromList l => from_sequence fps l None ref
    | FromArr a => from_sequence fps (a_frames a) (Some a) ref
    | FromOther => Err ValueError
    end.
  Definition duration (m : media) : R := duration_of (m_len m) (m_fps m).

  (** The tree of the converter *)
  Record tree : Type := Tree {
    t_ref : option Z; t_fps : R; t_n : nat; t_resolution : nat * nat; t_file : option Path; t_data : option arr
  }.
  (** [to_yaml_tree], 17-29 *)
  Definition to_tree (m : media) : tree :=
    match m_path m with
    | Some p => Tree (m_ref m) (m_fps m) (length (a_frames (m_arr m))) (m_resolution m) (Some p) None
    | None => Tree (m_ref m) (m_fps m) (length (a_frames (m_arr m))) (m_resolution m) None (Some (m_arr m))
    end.
  (** [from_yaml_tree], 31-43 *)
  Definition from_tree (t : tree) : res media :=
    bind (match t_data t, t_file t with
          | Some a, _ => Ok (FromArr a)
          | None, Some p => Ok (FromPath p)
          | None, None => Err RuntimeError
          end) (fun s =>
    new_media s (match t_ref t with Some z => Stamp z | None => NoRef end) (Some (t_fps t))).
End Media.
