(** Theorems about adding and creating coordinate systems of a manager (C152). *)
From Coq Require Import List String Bool ZArith Arith Lia.
From Verif Require Import Base CsmModel CreateModel.
Import ListNotations.

Section Props.
  Context {T D : Type} {ops : LcsOps T}.

  (** the results are the first two components; the last one says whether there is a warning *)
  Definition after (r : csm T D * res unit * bool) : csm T D := fst (fst r).
  Definition result (r : csm T D * res unit * bool) : res unit := snd (fst r).
  Definition warns (r : csm T D * res unit * bool) : bool := snd r.

  (** the time dependent systems that were given to the manager *)
  Definition given_in (c : csm T D) (t : T) : Prop :=
    exists e, In e (c_edges c) /\ e_tr e = Some t /\ e_def e = true.
  (** reference times are consistent: with a system that depends on time in the manager, a new one that depends
      on time has no reference time of its own as long as nothing else has one, and needs one if only other
      systems have one *)
  Definition consistent (c : csm T D) (t : T) : Prop :=
    l_timedep t = true -> (exists s, given_in c s /\ l_timedep s = true) ->
    let absolute := (exists s, given_in c s /\ l_timedep s = true /\ l_ref s <> None) \/ c_ref c <> None in
    (l_ref t <> None -> absolute) /\ (l_ref t = None -> c_ref c = None -> ~ absolute).

  Lemma given_in_iff : forall c t, given_in c t <-> In t (defined_lcs c).
  Proof.
    intros c t. unfold given_in, defined_lcs. rewrite in_flat_map. split.
    - intros (e & I & E & F). exists e. rewrite E, F. split; [exact I|now left].
    - intros (e & I & H). exists e. destruct (e_tr e) as [s|]; [|destruct H].
      destruct (e_def e); [|destruct H]. destruct H as [<-|[]]. auto.
  Qed.
  Lemma some_iff : forall (o : option Z), is_some o = true <-> o <> None.
  Proof. intros [z|]; cbn; split; congruence. Qed.
  Lemma absolute_iff : forall c, uses_absolute_times c = true <->
    ((exists s, given_in c s /\ l_timedep s = true /\ l_ref s <> None) \/ c_ref c <> None).
  Proof.
    intros c. unfold uses_absolute_times, has_lcs_with_ref, lcs_time_dependent.
    rewrite orb_true_iff, some_iff, existsb_exists. split; (intros [H|H]; [left|right; exact H]).
    - destruct H as (s & I & R). apply filter_In in I. destruct I as [I1 I2]. exists s.
      rewrite given_in_iff. now rewrite <- some_iff.
    - destruct H as (s & G & L & R). exists s. rewrite filter_In, some_iff, <- given_in_iff. auto.
  Qed.
  Lemma depends_iff : forall c, Nat.ltb 0 (n_time_dependent c) = true <->
    exists s, given_in c s /\ l_timedep s = true.
  Proof.
    intros c. unfold n_time_dependent, lcs_time_dependent. rewrite Nat.ltb_lt. split.
    - destruct (filter l_timedep (defined_lcs c)) as [|s l] eqn:E; cbn; [lia|]. intros _.
      exists s. rewrite given_in_iff, <- filter_In, E. now left.
    - intros (s & G & L). rewrite given_in_iff in G.
      assert (I : In s (filter l_timedep (defined_lcs c))) by now apply filter_In.
      destruct (filter l_timedep (defined_lcs c)); [destruct I|cbn; lia].
  Qed.
  Lemma conflict_iff : forall c t, add_ref_conflict c t = false <-> consistent c t.
  Proof.
    intros c t. unfold add_ref_conflict, consistent.
    rewrite <- depends_iff, <- absolute_iff. cbv zeta.
    destruct (l_timedep t); cbn [andb]; [|split; [discriminate|reflexivity]].
    destruct (Nat.ltb 0 (n_time_dependent c)); cbn [andb]; [|split; [discriminate|reflexivity]].
    destruct (l_ref t) as [z|]; destruct (c_ref c) as [y|]; destruct (uses_absolute_times c); cbn;
      (split; [intros H; try discriminate H; intros _ _; split; congruence
              |intros H; try reflexivity; destruct (H eq_refl eq_refl) as [H1 H2]; exfalso]);
      try (discriminate H1; congruence).
    all: try (apply H2; reflexivity).
    all: try (assert (false = true) by (apply H1; congruence); discriminate).
  Qed.

  (** the direction: both arguments must be true for the system of the child in its parent; only the deprecated
      argument warns, and only if it is false *)
  Theorem c152_direction : forall (c : csm T D) name ref (t : T) a b,
    add_cs_args c name ref (ALcs t) a b = (add_cs c name ref t (a && b)%bool, negb b).
  Proof. intros c name ref t [] []; reflexivity. Qed.

  (** false: the deprecated argument warns whenever it is used, or has an influence whenever it is used *)
  Theorem c152_deprecated_refuted : forall (c : csm T D) name ref (x : arg T) a,
    warns (add_cs_args c name ref x a true) = false
    /\ fst (add_cs_args c name ref x false true) = fst (add_cs_args c name ref x false false).
  Proof. intros c name ref [t|] []; split; reflexivity. Qed.

  (** anything that fails leaves the manager as it was *)
  Theorem c152_failure : forall (c : csm T D) name ref (x : arg T) a b e,
    result (add_cs_args c name ref x a b) = Err e -> after (add_cs_args c name ref x a b) = c.
  Proof.
    intros c name ref [t|] a b e.
    - rewrite c152_direction. unfold result, after. cbn [fst snd]. unfold add_cs.
      destruct (add_ref_conflict c t); [reflexivity|].
      destruct (has_cs c name).
      + destruct (is_neighbor_of c name ref) as [[]|]; cbn; congruence.
      + destruct (has_cs c ref); cbn; congruence.
    - unfold add_cs_args. now destruct (direction a b).
  Qed.

  (** what can be added: systems with consistent reference times, under a new name to a system that exists, or
      under the name of a neighbour *)
  Theorem c152_accepted : forall (c : csm T D) name ref (x : arg T) a b,
    result (add_cs_args c name ref x a b) = Ok tt <->
    exists t, x = ALcs t /\ consistent c t /\ In ref (dkeys (c_nodes c)) /\
      (~ In name (dkeys (c_nodes c)) \/
       (In name (dkeys (c_nodes c)) /\ exists e, In e (c_edges c) /\ e_src e = name /\ e_dst e = ref)).
  Proof.
    assert (M : forall n (d : dict (dict D)), dmem n d = true <-> In n (dkeys d)).
    { intros n d. unfold dmem, dkeys. induction d as [|[k v] d IH]; cbn; [split; [discriminate|tauto]|].
      destruct (String.eqb_spec n k) as [->|N]; [split; auto|]. rewrite IH. intuition congruence. }
    intros c name ref [t|] a b.
    - rewrite c152_direction. unfold result. cbn [fst snd]. unfold add_cs, is_neighbor_of, has_cs.
      destruct (add_ref_conflict c t) eqn:C.
      { split; [discriminate|]. intros (t' & E & K & _). injection E as <-. apply conflict_iff in K. congruence. }
      apply conflict_iff in C.
      destruct (dmem name (c_nodes c)) eqn:N; destruct (dmem ref (c_nodes c)) eqn:R.
      + destruct (smem ref (nbs (c_edges c) name)) eqn:S; cbn [snd].
        * split; [|reflexivity]. intros _. exists t. split; [reflexivity|]. split; [exact C|].
          split; [now apply M|]. right. split; [now apply M|].
          unfold smem, nbs in S. apply existsb_exists in S. destruct S as (y & I & E).
          apply String.eqb_eq in E. subst y. apply in_map_iff in I. destruct I as (e & E & I).
          apply filter_In in I. destruct I as [I1 I2]. apply String.eqb_eq in I2. now exists e.
        * split; [discriminate|]. intros (t' & _ & _ & _ & [H|[_ (e & I & E1 & E2)]]).
          { exfalso. apply H, M, N. }
          exfalso. enough (smem ref (nbs (c_edges c) name) = true) by congruence.
          unfold smem, nbs. apply existsb_exists. exists ref. split; [|apply String.eqb_refl].
          apply in_map_iff. exists e. split; [exact E2|]. apply filter_In. split; [exact I|].
          apply String.eqb_eq, E1.
      + split; [discriminate|]. intros (t' & _ & _ & H & _). apply M in H. congruence.
      + cbn [snd]. split; [|reflexivity]. intros _. exists t. split; [reflexivity|]. split; [exact C|].
        split; [now apply M|]. left. intros H. apply M in H. congruence.
      + split; [discriminate|]. intros (t' & _ & _ & H & _). apply M in H. congruence.
    - unfold add_cs_args, result. destruct (direction a b). cbn. split; [discriminate|].
      intros (t & E & _). discriminate.
  Qed.

  (** the errors: TypeError for other objects, then WeldxException for reference times, then ValueError *)
  Theorem c152_errors : forall (c : csm T D) name ref (x : arg T) a b e,
    result (add_cs_args c name ref x a b) = Err e ->
    (x = AOther /\ e = TypeError)
    \/ exists t, x = ALcs t /\ ((~ consistent c t /\ e = WeldxException) \/ (consistent c t /\ e = ValueError)).
  Proof.
    intros c name ref [t|] a b e.
    - rewrite c152_direction. unfold result. cbn [fst snd]. unfold add_cs, is_neighbor_of.
      intros H. right. exists t. split; [reflexivity|].
      destruct (add_ref_conflict c t) eqn:C.
      + left. injection H as <-. split; [|reflexivity]. rewrite <- conflict_iff. congruence.
      + right. apply conflict_iff in C. split; [exact C|].
        destruct (has_cs c name); destruct (has_cs c ref); try destruct (smem _ _); cbn in H; congruence.
    - unfold add_cs_args, result. destruct (direction a b). cbn. intros H. injection H as <-. now left.
  Qed.

  Lemma find_set : forall (e : edge T) es u v,
    find_edge (set_edge e es) u v
    = if (String.eqb (e_src e) u && String.eqb (e_dst e) v)%bool then Some e else find_edge es u v.
  Proof.
    intros e es u v. unfold find_edge. induction es as [|x es IH]; cbn [set_edge find]; [reflexivity|].
    destruct (String.eqb_spec (e_src x) (e_src e)) as [E1|E1];
    destruct (String.eqb_spec (e_dst x) (e_dst e)) as [E2|E2]; cbn [andb find].
    1: { rewrite E1, E2. now destruct (String.eqb (e_src e) u && String.eqb (e_dst e) v)%bool. }
    all: rewrite IH; destruct (String.eqb_spec (e_src x) u) as [F1|F1];
      destruct (String.eqb_spec (e_dst x) v) as [F2|F2]; cbn [andb]; try reflexivity;
      destruct (String.eqb_spec (e_src e) u) as [G1|G1];
      destruct (String.eqb_spec (e_dst e) v) as [G2|G2]; cbn [andb]; try reflexivity; congruence.
  Qed.

  (** after a success: the transformation from the child to its parent is the given one and the opposite one is its
      inverse (computed later for expressions), or the other way round; all other transformations are kept *)
  Theorem c152_transformations : forall (c : csm T D) name ref (t : T) a b,
    result (add_cs_args c name ref (ALcs t) a b) = Ok tt -> name <> ref ->
    let c' := after (add_cs_args c name ref (ALcs t) a b) in
    let from := if (a && b)%bool then name else ref in
    let to := if (a && b)%bool then ref else name in
    find_edge (c_edges c') from to = Some (Edge from to (Some t) true)
    /\ find_edge (c_edges c') to from
       = Some (Edge to from (if l_expr t then None else Some (l_inv t)) false)
    /\ forall u v, (u, v) <> (from, to) -> (u, v) <> (to, from) ->
       find_edge (c_edges c') u v = find_edge (c_edges c) u v.
  Proof.
    intros c name ref t a b H N. rewrite c152_direction in *. unfold result, after in *. cbn [fst snd] in *.
    cbv zeta.
    assert (E : c_edges (fst (add_cs c name ref t (a && b)%bool))
      = put_edges (if (a && b)%bool then name else ref) (if (a && b)%bool then ref else name) t (c_edges c)).
    { unfold add_cs in *. destruct (add_ref_conflict c t); [discriminate|].
      destruct (has_cs c name).
      - destruct (is_neighbor_of c name ref) as [[]|]; try discriminate. now destruct (a && b)%bool.
      - destruct (has_cs c ref); [|discriminate]. now destruct (a && b)%bool. }
    rewrite E. unfold put_edges, reverse_tr.
    assert (N' : (if (a && b)%bool then name else ref) <> (if (a && b)%bool then ref else name))
      by (destruct (a && b)%bool; congruence).
    set (f := if (a && b)%bool then name else ref) in *. set (g := if (a && b)%bool then ref else name) in *.
    repeat split.
    - rewrite !find_set. cbn [e_src e_dst]. rewrite !String.eqb_refl.
      destruct (String.eqb_spec g f); [congruence|]. reflexivity.
    - rewrite find_set. cbn [e_src e_dst]. now rewrite !String.eqb_refl.
    - intros u v H1 H2. rewrite !find_set. cbn [e_src e_dst].
      destruct (String.eqb_spec g u), (String.eqb_spec f v), (String.eqb_spec f u), (String.eqb_spec g v);
        cbn [andb]; try reflexivity; subst; congruence.
  Qed.

  (** after a success: a new name is appended and has no data, all other systems and their data are kept, and so are
      name, root, reference time and subsystems of the manager *)
  Theorem c152_systems : forall (c : csm T D) name ref (t : T) a b,
    result (add_cs_args c name ref (ALcs t) a b) = Ok tt ->
    let c' := after (add_cs_args c name ref (ALcs t) a b) in
    dkeys (c_nodes c') = (if smem name (dkeys (c_nodes c)) then dkeys (c_nodes c)
                          else dkeys (c_nodes c) ++ [name])
    /\ (forall n, n <> name -> dget n (c_nodes c') = dget n (c_nodes c))
    /\ dget name (c_nodes c') = match dget name (c_nodes c) with Some d => Some d | None => Some [] end
    /\ c_name c' = c_name c /\ c_ref c' = c_ref c /\ c_root c' = c_root c /\ c_subs c' = c_subs c.
  Proof.
    assert (M : forall n (d : dict (dict D)), dmem n d = smem n (dkeys d)).
    { intros n d. unfold dmem, dkeys, smem. induction d as [|[k v] d IH]; cbn; [reflexivity|].
      destruct (String.eqb n k); [reflexivity|]. exact IH. }
    assert (K : forall n (d : dict (dict D)) x, smem n (dkeys d) = false -> dkeys (dset n x d) = dkeys d ++ [n]).
    { intros n d x. unfold dkeys, smem. induction d as [|[k v] d IH]; cbn; [reflexivity|].
      destruct (String.eqb n k); cbn; [discriminate|]. intros H. now rewrite IH. }
    assert (G : forall n m (d : dict (dict D)) x, dget n (dset m x d) = if String.eqb n m then Some x else dget n d).
    { intros n m d x. induction d as [|[k v] d IH]; cbn; [reflexivity|].
      destruct (String.eqb_spec m k) as [->|Nk]; cbn; [now destruct (String.eqb n k)|].
      rewrite IH. destruct (String.eqb_spec n k) as [->|]; [|reflexivity].
      destruct (String.eqb_spec k m); [congruence|reflexivity]. }
    intros c name ref t a b H. rewrite c152_direction in *. unfold result, after in *. cbn [fst snd] in *.
    cbv zeta. unfold add_cs, has_cs in *. destruct (add_ref_conflict c t); [discriminate|].
    rewrite M in *. destruct (smem name (dkeys (c_nodes c))) eqn:S.
    - destruct (is_neighbor_of c name ref) as [[]|]; try discriminate. cbn. repeat split.
      rewrite <- M in S. unfold dmem in S. destruct (dget name (c_nodes c)); [reflexivity|discriminate].
    - destruct (smem ref (dkeys (c_nodes c))) eqn:R; rewrite M, R in *; [|discriminate]. cbn. repeat split.
      + now apply K.
      + intros n Nn. rewrite G. destruct (String.eqb_spec n name); [contradiction|reflexivity].
      + rewrite G, String.eqb_refl. rewrite <- M in S. unfold dmem in S.
        destruct (dget name (c_nodes c)); [discriminate|reflexivity].
  Qed.

  Context {O A X Y : Type}.
  Variable construct : O -> Y -> res T.
  Variable from_euler : string -> A -> bool -> Y -> res T.
  Variable from_axis_vectors : X -> X -> X -> Y -> res T.

  (** creating a system is making it and adding it; it never warns *)
  Theorem c152_create : forall (c : csm T D) name ref o y a t, construct o y = Ok t ->
    create_cs construct c name ref o y a = (add_cs c name ref t a, false).
  Proof. intros c name ref o y a t H. unfold create_cs, add_result. rewrite H. now destruct a. Qed.
  Theorem c152_create_euler : forall (c : csm T D) name ref s x d y a t, from_euler s x d y = Ok t ->
    create_cs_from_euler from_euler c name ref s x d y a = (add_cs c name ref t a, false).
  Proof. intros c name ref s x d y a t H. unfold create_cs_from_euler, add_result. rewrite H. now destruct a. Qed.
  Theorem c152_create_axes : forall (c : csm T D) name ref u v w y a t, from_axis_vectors u v w y = Ok t ->
    create_cs_from_axis_vectors from_axis_vectors c name ref u v w y a = (add_cs c name ref t a, false).
  Proof.
    intros c name ref u v w y a t H. unfold create_cs_from_axis_vectors, add_result. rewrite H. now destruct a.
  Qed.

  (** a system that cannot be made changes nothing, and its error comes first *)
  Theorem c152_create_error : forall (c : csm T D) name ref o s x d u v w y a e,
    (construct o y = Err e -> create_cs construct c name ref o y a = (c, Err e, false)) /\
    (from_euler s x d y = Err e -> create_cs_from_euler from_euler c name ref s x d y a = (c, Err e, false)) /\
    (from_axis_vectors u v w y = Err e ->
       create_cs_from_axis_vectors from_axis_vectors c name ref u v w y a = (c, Err e, false)).
  Proof.
    intros. unfold create_cs, create_cs_from_euler, create_cs_from_axis_vectors, add_result.
    repeat split; intros H; now rewrite H.
  Qed.
End Props.
Print Assumptions c152_direction.
Print Assumptions c152_deprecated_refuted.
Print Assumptions c152_failure.
Print Assumptions c152_accepted.
Print Assumptions c152_errors.
Print Assumptions c152_transformations.
Print Assumptions c152_systems.
Print Assumptions c152_create.
Print Assumptions c152_create_euler.
Print Assumptions c152_create_axes.
Print Assumptions c152_create_error.

(** numbers as systems that do not depend on time; the inverse of a number is its negative *)
Definition plain_ops : LcsOps Z :=
  {| l_inv := Z.opp; l_expr := fun _ => false; l_timedep := fun _ => false; l_ref := fun _ => None |}.
Example c152_ex :
  let c := @new_csm Z unit "root"%string "m"%string None in
  let r := @add_cs_args Z unit plain_ops c "a"%string "root"%string (ALcs 3%Z) true false in
  result r = Ok tt /\ warns r = true /\ dkeys (c_nodes (after r)) = ["root"; "a"]%string
  /\ c_edges (after r) = [Edge "root" "a" (Some 3%Z) true; Edge "a" "root" (Some (-3)%Z) false]%string.
Proof. repeat split. Qed.
Example c152_ex_error :
  let c := @new_csm Z unit "root"%string "m"%string None in
  @create_cs Z unit plain_ops unit unit (fun _ _ => Ok 3%Z) c "a"%string "b"%string tt tt true
  = (c, Err ValueError, false).
Proof. reflexivity. Qed.
