(** [CoordinateSystemManager.interp_time] (weldx/transformations/cs_manager.py
    1310-1378).

    The systems on the edges are objects: two edges, the caller and other managers
    can hold the same one, and one line of [interp_time] changes them. A manager is a
    [csm] whose edges hold addresses of objects; [v_objs] are all objects that exist.

    Simplifications: times and systems as in LcsTimeModel.v, the time is a [Time] or
    [None]; [graph.edges] lists the edges in the order in which they were added (the
    order decides which of several errors is raised). *)
From Coq Require Import List String ZArith Bool.
From Verif Require Import Base RigidModel InterpModel LinModel CsmModel LcsTimeModel CsmGetModel CsmHeapModel.
Import ListNotations.
Open Scope list_scope.

(** a manager and the objects that exist *)
Record env (D : Type) : Type := Env { v_mgr : csm nat D; v_objs : list tlcs }.
Arguments Env {D} v_mgr v_objs.
Arguments v_mgr {D} e.
Arguments v_objs {D} e.

Section Interp.
  Context (sl : segment mat) {D : Type}.

  (** an edge as a pair of names; [None] as name comes from
      [get_parent_system_name] of the root, 1350 *)
  Definition pair_key : Type := option string * option string.

  (** [self._graph.edges[edge]] *)
  Definition lookup (c : csm nat D) (k : pair_key) : res (edge nat) :=
    match k with
    | (Some u, Some v) => match find_edge (c_edges c) u v with Some x => Ok x | None => Err KeyError end
    | _ => Err KeyError
    end.

  (** [self._graph.edges[edge]["transformation"] = ...] *)
  Definition set_tr (c : csm nat D) (x : edge nat) (a : nat) : csm nat D :=
    set_graph (c_nodes c) (set_edge (Edge (e_src x) (e_dst x) (Some a) (e_def x)) (c_edges c)) c.

  (** 1348-1352 *)
  Fixpoint affected_edges (c : csm nat D) (names : list string) : res (list pair_key) :=
    match names with
    | [] => Ok []
    | n :: r =>
        bind (get_parent c n) (fun p =>
        bind (affected_edges c r) (fun w => Ok ((Some n, p) :: (p, Some n) :: w)))
    end.

  (** the object after 1361-1362 *)
  Definition dated (ref : option Z) (l : tlcs) : tlcs :=
    match tl_ref l, ref with
    | None, Some r => reset_reference_time l r
    | _, _ => l
    end.

  (** the body of the first loop for a defined edge, 1358-1365. [lcs.interp_time]
      returns the object itself if there is nothing to do (local_cs.py 750-751). *)
  Definition interp_edge (s : env D) (x : edge nat) (time : option rtime) : env D * res unit :=
    match e_tr x with
    | None => (s, Err AttributeError)
    | Some a =>
        match nth_error (v_objs s) a with
        | None => (s, Err AttributeError)
        | Some l0 =>
            let l := dated (c_ref (v_mgr s)) l0 in
            let h := upd a l (v_objs s) in
            if negb (is_time_dependent l) || negb (LcsTimeModel.is_some time)
            then (Env (v_mgr s) h, Ok tt)
            else match interp_time sl l time with
                 | Err e => (Env (v_mgr s) h, Err e)
                 | Ok l' => (Env (set_tr (v_mgr s) x (List.length h)) (h ++ [l']), Ok tt)
                 end
        end
    end.

  (** the first loop, 1356-1365 *)
  Fixpoint interp_defined (s : env D) (ks : list pair_key) (time : option rtime) : env D * res unit :=
    match ks with
    | [] => (s, Ok tt)
    | k :: r =>
        match lookup (v_mgr s) k with
        | Err e => (s, Err e)
        | Ok x =>
            if e_def x then
              match interp_edge s x time with
              | (s', Ok _) => interp_defined s' r time
              | (s', Err e) => (s', Err e)
              end
            else interp_defined s r time
        end
    end.

  (** the second loop, 1367-1371 *)
  Fixpoint invert_others (s : env D) (ks : list pair_key) : env D * res unit :=
    match ks with
    | [] => (s, Ok tt)
    | k :: r =>
        match lookup (v_mgr s) k with
        | Err e => (s, Err e)
        | Ok x =>
            if e_def x then invert_others s r
            else
              match lookup (v_mgr s) (snd k, fst k) with
              | Err e => (s, Err e)
              | Ok y =>
                  match e_tr y with
                  | None => (s, Err AttributeError)
                  | Some a =>
                      match nth_error (v_objs s) a with
                      | None => (s, Err AttributeError)
                      | Some l =>
                          match tlcs_invert sl l with
                          | Err e => (s, Err e)
                          | Ok i => invert_others (Env (set_tr (v_mgr s) x (List.length (v_objs s))) (v_objs s ++ [i])) r
                          end
                      end
                  end
              end
        end
    end.

  (** 1344-1372 *)
  Definition interp_in_place (s : env D) (time : option rtime) (tref : option Z)
             (names : option (list string)) : env D * res unit :=
    match (match names with
           | Some ns => affected_edges (v_mgr s) ns
           | None => Ok (map (fun x => (Some (e_src x), Some (e_dst x))) (c_edges (v_mgr s)))
           end) with
    | Err e => (s, Err e)
    | Ok ks =>
        match interp_defined s ks (option_map (with_ref tref) time) with
        | (s', Err e) => (s', Err e)
        | (s', Ok _) => invert_others s' ks
        end
    end.

  (** [deepcopy(self)]: all objects are copied, shared ones once *)
  Definition move (k : nat) (x : edge nat) : edge nat :=
    Edge (e_src x) (e_dst x) (option_map (Nat.add k) (e_tr x)) (e_def x).
  Definition deepcopy (s : env D) : env D :=
    Env (set_graph (c_nodes (v_mgr s)) (map (move (List.length (v_objs s))) (c_edges (v_mgr s))) (v_mgr s))
        (v_objs s ++ v_objs s).

  (** [interp_time], 1310-1376: the manager and the objects afterwards and the
      manager that is returned *)
  Definition csm_interp (s : env D) (time : option rtime) (tref : option Z)
             (names : option (list string)) (in_place : bool) : env D * res (csm nat D) :=
    if in_place then
      let r := interp_in_place s time tref names in
      (fst r, bind (snd r) (fun _ => Ok (v_mgr (fst r))))
    else
      let r := interp_in_place (deepcopy s) time tref names in
      (Env (v_mgr s) (v_objs (fst r)), bind (snd r) (fun _ => Ok (v_mgr (fst r)))).
End Interp.
