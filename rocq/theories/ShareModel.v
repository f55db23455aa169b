(** Objects shared between shapes, profiles and traces.

    Models which list objects and which segment objects the classes of
    weldx/geometry.py keep: [_to_list] (lines 82-102), [Shape.__init__] (897-911),
    [Shape._check_segments_connected] (922-939), [Shape.add_segments] (1073-1088),
    [Shape.apply_transformation] / [apply_translation] (1090-1100, 1168-1179), [Shape.transform] /
    [translate] (1263-1299), [Profile.__init__] / [add_shapes] (1309-1330, 1356-1371),
    [Trace.__init__] and [_create_lookups] (1725-1758, 1769-1796).

    Simplifications: a segment is an abstract value in a memory cell; its methods
    [apply_transformation] and [apply_translation] replace the value and may raise
    afterwards ([op]); a shape is its attribute [_segments], a reference to a list.
    Of the lookups of a trace only the lengths are kept.  No proofs in this file. *)
From Coq Require Import List Bool Arith.
From Verif Require Import Base.
Import ListNotations.

Section Share.
  (** segments, their end points and [_vector_is_close] (geometry.py 56-79) *)
  Variable Seg Point Len : Type.
  Variable p_start p_end : Seg -> Point.
  Variable close : Point -> Point -> bool.
  (** lengths: [segment.length], [+], [0], and the test [length > 0] *)
  Variable seg_len : Seg -> Len.
  Variable ladd : Len -> Len -> Len.
  Variable lzero : Len.
  Variable lpos : Len -> bool.

  (** The memory: list objects hold references to segment (or shape) objects. *)
  Record heap : Type := Heap { h_lists : list (list nat); h_segs : list Seg }.

  Definition list_at (h : heap) (r : nat) : list nat := nth r (h_lists h) [].
  Definition seg_at (h : heap) (r : nat) : option Seg := nth_error (h_segs h) r.

  (** a new list object *)
  Definition alloc_list (h : heap) (l : list nat) : nat * heap :=
    (List.length (h_lists h), Heap (h_lists h ++ [l]) (h_segs h)).
  (** a new segment object *)
  Definition alloc_seg (h : heap) (s : Seg) : nat * heap :=
    (List.length (h_segs h), Heap (h_lists h) (h_segs h ++ [s])).

  Fixpoint upd {A : Type} (l : list A) (i : nat) (x : A) : list A :=
    match l, i with
    | [], _ => []
    | _ :: r, 0 => x :: r
    | y :: r, S j => y :: upd r j x
    end.
  Definition set_list (h : heap) (r : nat) (l : list nat) : heap :=
    Heap (upd (h_lists h) r l) (h_segs h).
  Definition set_seg (h : heap) (r : nat) (s : Seg) : heap :=
    Heap (h_lists h) (upd (h_segs h) r s).

  (** The argument [segments]: a list object, a single segment or [None]. *)
  Inductive arg : Type := AList (r : nat) | ASeg (s : nat) | ANone.

  (** [_to_list] (82-102): a list is returned as it is. *)
  Definition to_list (h : heap) (a : arg) : nat * heap :=
    match a with
    | AList r => (r, h)
    | ANone => alloc_list h []
    | ASeg s => alloc_list h [s]
    end.

  (** [Shape._check_segments_connected] (922-939) *)
  Fixpoint check_connected (h : heap) (l : list nat) : res unit :=
    match l with
    | a :: (b :: _) as r =>
        match seg_at h a, seg_at h b with
        | Some s, Some t => if close (p_end s) (p_start t) then check_connected h r else Err ValueError
        | _, _ => Err AttributeError
        end
    | _ => Ok tt
    end.

  (** [Shape.__init__] (897-911); the shape is the reference of [_segments]. *)
  Definition new_shape (h : heap) (a : arg) : res (nat * heap) :=
    let (r, h') := to_list h a in
    bind (check_connected h' (list_at h' r)) (fun _ => Ok (r, h')).

  (** [Shape.add_segments] (1073-1088): [self._segments += segments] extends the list object in
      place. *)
  Definition add_segments (h : heap) (sh : nat) (a : arg) : res heap :=
    let (r, h') := to_list h a in
    bind (match list_at h' sh with
          | [] => Ok tt
          | s :: l => match list_at h' r with
                      | [] => Err IndexError
                      | t :: _ => check_connected h' [last (s :: l) s; t]
                      end
          end) (fun _ =>
    bind (check_connected h' (list_at h' r)) (fun _ =>
    Ok (set_list h' sh (list_at h' sh ++ list_at h' r)))).

  (** the method of a segment: its value afterwards and the exception it raises, if any *)
  Definition op : Type := Seg -> Seg * option exn.

  (** [Shape.apply_transformation], [Shape.apply_translation] (1090-1100, 1168-1179): the memory
      afterwards and the exception, if any. *)
  Fixpoint apply_all (h : heap) (f : op) (l : list nat) : heap * option exn :=
    match l with
    | [] => (h, None)
    | r :: l' =>
        match seg_at h r with
        | None => (h, Some AttributeError)
        | Some s => match f s with
                    | (s', None) => apply_all (set_seg h r s') f l'
                    | (s', Some e) => (set_seg h r s', Some e)
                    end
        end
    end.
  Definition apply (h : heap) (f : op) (sh : nat) : heap * option exn :=
    apply_all h f (list_at h sh).

  (** [copy.deepcopy] of the list of segments: a segment that was copied before (memo) is not
      copied again. *)
  Fixpoint memo_get (m : list (nat * nat)) (r : nat) : option nat :=
    match m with [] => None | (a, b) :: m' => if Nat.eqb a r then Some b else memo_get m' r end.
  Fixpoint copy_all (h : heap) (m : list (nat * nat)) (l : list nat) : res (list nat * heap) :=
    match l with
    | [] => Ok ([], h)
    | r :: l' =>
        match memo_get m r with
        | Some c => bind (copy_all h m l') (fun p => Ok (c :: fst p, snd p))
        | None =>
            match seg_at h r with
            | None => Err AttributeError
            | Some s => let (c, h') := alloc_seg h s in
                        bind (copy_all h' ((r, c) :: m) l') (fun p => Ok (c :: fst p, snd p))
            end
        end
    end.
  Definition deepcopy (h : heap) (sh : nat) : res (nat * heap) :=
    bind (copy_all h [] (list_at h sh)) (fun p => Ok (alloc_list (snd p) (fst p))).

  (** [Shape.transform], [Shape.translate] (1263-1299): a transformed deep copy *)
  Definition transform (h : heap) (f : op) (sh : nat) : res (nat * heap) :=
    bind (deepcopy h sh) (fun p =>
    match apply (snd p) f (fst p) with
    | (h', None) => Ok (fst p, h')
    | (_, Some e) => Err e
    end).

  (** [Profile.__init__] and [Profile.add_shapes] (1309-1330, 1356-1371): the new list object of
      the profile is extended; [ok] tells which objects are instances of [Shape]. *)
  Definition add_shapes (ok : nat -> bool) (h : heap) (p : nat) (a : arg) : res heap :=
    let l := match a with AList r => list_at h r | ASeg s => [s] | ANone => [] end in
    match a with
    | ANone => Err TypeError
    | _ => if forallb ok l then Ok (set_list h p (list_at h p ++ l)) else Err TypeError
    end.
  Definition new_profile (ok : nat -> bool) (h : heap) (a : arg) : res (nat * heap) :=
    let (p, h') := alloc_list h [] in
    bind (add_shapes ok h' p a) (fun h'' => Ok (p, h'')).

  (** [Trace.__init__] and [_create_lookups] (1725-1758, 1769-1796): the list object and the
      lookup of the lengths. *)
  Record trace : Type := Trace { t_segments : nat; t_lengths : list Len; t_totals : list Len }.
  Fixpoint lookups (h : heap) (total : Len) (l : list nat) : res (list Len * list Len) :=
    match l with
    | [] => Ok ([], [])
    | r :: l' => match seg_at h r with
                 | None => Err AttributeError
                 | Some s => let t := ladd total (seg_len s) in
                             bind (lookups h t l') (fun p => Ok (seg_len s :: fst p, t :: snd p))
                 end
    end.
  (** [Trace.length] (1828-1838) *)
  Definition length_of (t : trace) : Len := last (t_totals t) lzero.
  Definition new_trace (h : heap) (a : arg) : res (trace * heap) :=
    let (r, h') := to_list h a in
    bind (lookups h' lzero (list_at h' r)) (fun p =>
    let t := Trace r (fst p) (lzero :: snd p) in
    if lpos (length_of t) then Ok (t, h') else Err ValueError).
  (** [Trace.num_segments] (1851-1860) *)
  Definition num_segments (h : heap) (t : trace) : nat := List.length (list_at h (t_segments t)).
End Share.
