(** Vocabulary of the statements about [CoordinateSystemManager]. *)
From Coq Require Import List String Bool ZArith.
From Verif Require Import Base CsmModel.
Import ListNotations.

(** [walk R a p b]: [p] lists the nodes of a walk from [a] to [b] *)
Inductive walk (R : string -> string -> Prop) : string -> list string -> string -> Prop :=
| walk_one : forall a, walk R a [a] a
| walk_step : forall a b c p, R a b -> walk R b p c -> walk R a (a :: p) c.

Definition simple_path (R : string -> string -> Prop) (a : string) (p : list string)
           (b : string) : Prop := walk R a p b /\ NoDup p.

Section Spec.
  Context {T D : Type} {ops : LcsOps T}.

  (** there is an edge from [u] to [v] *)
  Definition linked (c : csm T D) (u v : string) : Prop :=
    exists e, In e (c_edges c) /\ e_src e = u /\ e_dst e = v.

  (** what the reverse edge of a transformation has to carry *)
  Definition stored_inverse (t : T) : option T :=
    match l_expr t with true => None | false => Some (l_inv t) end.

  (** The graph of a manager is a tree: unique names, at most one edge in each
      direction, every edge connects existing systems and has a reverse edge,
      exactly one of the two is the defined one and the other stores its
      inverse (nothing for expressions), and any two systems are connected by
      exactly one simple path. *)
  Record is_tree (c : csm T D) : Prop := {
    tr_root : In (c_root c) (cs_names c);
    tr_nodes : NoDup (cs_names c);
    tr_edges : NoDup (map (fun e => (e_src e, e_dst e)) (c_edges c));
    tr_ends : forall e, In e (c_edges c) ->
                In (e_src e) (cs_names c) /\ In (e_dst e) (cs_names c);
    tr_reverse : forall e, In e (c_edges c) -> e_def e = true ->
                   exists t, e_tr e = Some t /\
                   In (Edge (e_dst e) (e_src e) (stored_inverse t) false) (c_edges c);
    tr_defined : forall e, In e (c_edges c) -> e_def e = false ->
                   exists t, In (Edge (e_dst e) (e_src e) (Some t) true) (c_edges c) /\
                             e_tr e = stored_inverse t;
    tr_path : forall a b, In a (cs_names c) -> In b (cs_names c) ->
                exists p, simple_path (linked c) a p b /\
                          forall q, simple_path (linked c) a q b -> q = p
  }.

  (** [x] lies on the path from [y] to the root: [y] is [x] or below it *)
  Definition below (c : csm T D) (x y : string) : Prop :=
    exists p, simple_path (linked c) y p (c_root c) /\ In x p.

  (** the members of a subsystem are connected to each other by paths inside
      the subsystem *)
  Definition inner_linked (c : csm T D) (m : list string) (u v : string) : Prop :=
    linked c u v /\ In u m /\ In v m.
  Definition sub_intact (c : csm T D) (s : subinfo) : Prop :=
    incl (s_members s) (cs_names c) /\
    In (s_root s) (s_members s) /\ In (s_common s) (s_members s) /\
    forall a b, In a (s_members s) -> In b (s_members s) ->
      exists p, walk (inner_linked c (s_members s)) a p b.

  (** Managers that can be obtained by the public operations: fresh ones,
      the result of any operation (also of one that raises; the merged manager
      is itself reachable), renaming a system to an unused name, and the
      instances extracted by [subsystems]/[unmerge]. *)
  Inductive reachable : csm T D -> Prop :=
  | r_new : forall root name ref, reachable (new_csm root name ref)
  | r_op : forall c o, reachable c ->
      (forall other, o = OMerge other -> reachable other) ->
      reachable (fst (run_op c o))
  | r_relabel : forall c old new, reachable c -> ~ In new (cs_names c) ->
      reachable (fst (relabel c old new))
  | r_extract : forall c s sub, reachable c -> In s (c_subs c) ->
      extract_sub c s = Ok sub -> reachable sub.

  (** a sequence of operations, failing ones included *)
  Definition run_ops (c : csm T D) (l : list op) : csm T D :=
    fold_left (fun c o => fst (run_op c o)) l c.

  (** The reference time rule: the manager has a reference time, or all
      or none of the time dependent systems have one. *)
  Definition times_consistent (c : csm T D) : Prop :=
    c_ref c <> None \/
    (forall t, In t (lcs_time_dependent c) -> l_ref t <> None) \/
    (forall t, In t (lcs_time_dependent c) -> l_ref t = None).

  (** Histories of a manager that starts as [c0]: other managers are merged
      into it and new systems are added. [own] collects the systems that belong
      to the manager itself: those of [c0] and everything that was attached to
      one of them; [ms] are the merged managers. With [strict] all managers are
      merged at own systems. *)
  Inductive history (strict : bool) (c0 : csm T D)
    : csm T D -> list string -> list (csm T D) -> Prop :=
  | h_start : history strict c0 c0 (cs_names c0) []
  | h_merge : forall c own ms o, history strict c0 c own ms -> reachable o ->
      snd (merge c o) = Ok tt ->
      (strict = true -> forall m, In m (cs_names c) -> In m (cs_names o) -> In m own) ->
      history strict c0 (fst (merge c o)) own (ms ++ [o])
  | h_add_own : forall c own ms n p t b, history strict c0 c own ms ->
      ~ In n (cs_names c) -> In p own -> snd (add_cs c n p t b) = Ok tt ->
      history strict c0 (fst (add_cs c n p t b)) (own ++ [n]) ms
  | h_add_sub : forall c own ms n p t b, history strict c0 c own ms ->
      ~ In n (cs_names c) -> ~ In p own -> snd (add_cs c n p t b) = Ok tt ->
      history strict c0 (fst (add_cs c n p t b)) own ms.

  (** [sub] is [o] again, apart from the order of its systems *)
  Definition same_structure (sub o : csm T D) : Prop :=
    c_name sub = c_name o /\ c_ref sub = c_ref o /\ c_root sub = c_root o /\
    c_subs sub = c_subs o /\ c_edges sub = c_edges o /\
    (forall n, In n (cs_names sub) <-> In n (cs_names o)).
  Definition same_data (sub o : csm T D) : Prop :=
    forall n, node_data sub n = node_data o n.
End Spec.
