(** Vocabulary of the statements about [CoordinateSystemManager.interp_time]. *)
From Coq Require Import Reals List String ZArith Sorting.Sorted.
From Verif Require Import Base RigidModel InterpModel LinModel CsmModel CsmSpec LcsTimeModel LcsTimeSpec
  CsmGetModel CsmGetSpec CsmInterpModel.
Import ListNotations.
Open Scope Z_scope.

Section Spec.
  Context (sl : segment mat) {D : Type}.

  (** the manager with the systems themselves on its edges *)
  Definition view_edge (h : list tlcs) (x : edge nat) : edge tlcs :=
    Edge (e_src x) (e_dst x) (match e_tr x with Some a => nth_error h a | None => None end) (e_def x).
  Definition view (s : env D) : csm tlcs D :=
    let c := v_mgr s in
    Csm (c_name c) (c_ref c) (c_root c) (c_subs c) (c_nodes c) (map (view_edge (v_objs s)) (c_edges c)).

  (** every address on an edge belongs to an object *)
  Definition no_dangling (s : env D) : Prop :=
    forall x a, In x (c_edges (v_mgr s)) -> e_tr x = Some a -> (a < List.length (v_objs s))%nat.

  (** the system of the edge from [u] to [v]; [d] tells whether it is the defined
      direction *)
  Definition system (s : env D) (u v : string) (d : bool) (l : tlcs) : Prop :=
    In (Edge u v (Some l) d) (c_edges (view s)).

  (** everything apart from the systems of the edges *)
  Definition same_frame (a b : csm nat D) : Prop :=
    c_name a = c_name b /\ c_ref a = c_ref b /\ c_root a = c_root b /\ c_subs a = c_subs b /\
    c_nodes a = c_nodes b /\
    map (fun x => (e_src x, e_dst x, e_def x)) (c_edges a) = map (fun x => (e_src x, e_dst x, e_def x)) (c_edges b).

  (** the edges that a list of names stands for: those to the parents, in both
      directions *)
  Definition concerns (s : env D) (names : option (list string)) (u v : string) : Prop :=
    match names with
    | None => True
    | Some ns => exists n p q, In n ns /\
        simple_path (linked (view s)) n (n :: p :: q) (c_root (v_mgr s)) /\
        ((u = n /\ v = p) \/ (u = p /\ v = n))
    end.

  (** the names belong to systems with a parent *)
  Definition names_ok (s : env D) (names : option (list string)) : Prop :=
    match names with
    | None => True
    | Some ns => forall n, In n ns -> In n (cs_names (v_mgr s)) /\ n <> c_root (v_mgr s)
    end.

  (** the times of a request fit to a system: dates are needed if the system or the
      manager has a reference time, and are not allowed otherwise *)
  Definition accepts (c : csm nat D) (ref : option Z) (l : tlcs) : Prop :=
    is_time_dependent l = true -> (tl_ref l = None /\ c_ref c = None <-> ref = None).

  (** a system got the reference time of its manager, nothing else *)
  Definition only_dated (c : csm nat D) (l l' : tlcs) : Prop :=
    l' = l \/ exists r, c_ref c = Some r /\ tl_ref l = None /\ tl_ref l' = Some r /\
      tl_ori l' = tl_ori l /\ tl_pos l' = tl_pos l /\ tl_at l' = tl_at l.
End Spec.
