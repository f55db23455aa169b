(** What [get_cs] has to return, independent of the algorithm. *)
From Coq Require Import Reals List String ZArith Sorting.Sorted.
From Verif Require Import Base RigidModel RigidSpec InterpModel InterpSpec LinModel CsmModel CsmSpec
  LcsTimeModel LcsTimeSpec.
Import ListNotations.
Open Scope Z_scope.

Section Spec.
  Context (sl : segment mat) {D : Type}.
  Notation mgr := (csm tlcs D).

  (** [l] is stored on the edge from [u] to [v]; with [inv] it is stored for the
      opposite direction only (expressions) *)
  Definition stored (c : mgr) (u v : string) (l : tlcs) (inv : bool) : Prop :=
    if inv then (exists d, In (Edge u v None d) (c_edges c)) /\ (exists d, In (Edge v u (Some l) d) (c_edges c))
    else exists d, In (Edge u v (Some l) d) (c_edges c).

  (** No left over time value (see C76) and no orientation with a single time. *)
  Definition plain (l : tlcs) : Prop := tl_at l = None /\ forall p, tl_ori l <> Ser [p].

  (** the time of the system [l] that belongs to the time [t] relative to [ref]. Time
      deltas of a system refer to the reference time of the manager. *)
  Definition edge_time (c : mgr) (ref : option Z) (l : tlcs) (t : Z) : Z :=
    match ref with
    | None => t
    | Some b => match tl_ref l, c_ref c with
                | Some a, _ => t + b - a
                | None, Some r => t + b - r
                | None, None => t
                end
    end.

  (** [x] is the pose of the system stored on an edge *)
  Definition edge_pose (c : mgr) (ref : option Z) (t : Z) (e : string * string) (x : lcs) : Prop :=
    exists l inv y, stored c (fst e) (snd e) l inv /\ pose_at sl l (edge_time c ref l t) y /\
      if inv then forall v, lcs_apply x (lcs_apply y v) = v /\ lcs_apply y (lcs_apply x v) = v else x = y.

  (** consecutive systems of a path *)
  Fixpoint steps (p : list string) : list (string * string) :=
    match p with
    | a :: (b :: _) as r => (a, b) :: steps r
    | _ => []
    end.

  (** the times of a request fit to a system: dates to dates, deltas to deltas,
      everything to a manager with reference time *)
  Definition fits (c : mgr) (ref : option Z) (l : tlcs) : Prop :=
    is_time_dependent l = true -> c_ref c <> None \/ (tl_ref l = None <-> ref = None).

  (** all defined systems of a manager are valid and plain *)
  Definition good (c : mgr) : Prop :=
    forall e l, In e (c_edges c) -> e_def e = true -> e_tr e = Some l -> valid_t l /\ plain l.

  (** all defined systems of a manager are static *)
  Definition static_csm (c : mgr) : Prop :=
    forall e l, In e (c_edges c) -> e_def e = true -> e_tr e = Some l -> is_time_dependent l = false.

  (** the reference time of a request: the one of its times, else the passed one,
      else the one of the manager *)
  Definition request_ref (c : mgr) (rt : rtime) (tref : option Z) : option Z :=
    match r_ref rt, tref with
    | Some a, _ => Some a
    | None, Some b => Some b
    | None, None => c_ref c
    end.

  (** the times at which the stored inverse of a system is its inverse: its own
      times, the times before and after them, and all times if the orientation does not
      change or the system is an expression *)
  Definition inverse_exact (l : tlcs) (t : Z) : Prop :=
    on_axis l t \/ is_expr l = true \/ (exists o, tl_ori l = Const o) \/
    (exists ts, lcs_axis l = Some ts /\ ((forall u, In u ts -> t <= u) \/ (forall u, In u ts -> u <= t))).

  (** one transformation after the other *)
  Definition apply_all (xs : list lcs) (v : vec) : vec := fold_left (fun v x => lcs_apply x v) xs v.
End Spec.
