(** Lemmas about [CoordinateSystemManager.interp_time]. *)
From Coq Require Import Reals List String ZArith Bool Lia Sorting.Sorted.
From Verif Require Import Base RigidModel RigidSpec InterpModel InterpSpec LinModel LinFacts CsmModel CsmSpec CsmGraphFacts
  CsmTreeFacts LcsTimeModel LcsTimeSpec LcsTimeFacts CsmGetModel CsmGetSpec CsmHeapModel CsmHeapFacts CsmPathFacts CsmInterpModel CsmInterpSpec.
Import ListNotations.
Open Scope Z_scope.
Open Scope list_scope.

(** ** lists of edges *)
Lemma find_set : forall (T : Type) (e : edge T) es u v, NoDup (map ekey es) -> In (ekey e) (map ekey es) ->
  find_edge (set_edge e es) u v =
  if String.eqb (e_src e) u && String.eqb (e_dst e) v then Some e else find_edge es u v.
Proof.
  intros T e es u v. unfold find_edge. induction es as [|x es IH]; intros N H; [ destruct H | ].
  cbn [map] in H, N. inversion N as [|? ? Nin N']; subst. cbn [set_edge].
  change (String.eqb (e_src x) (e_src e) && String.eqb (e_dst x) (e_dst e)) with (keyb x e).
  destruct (keyb_spec x e) as [K|K]; cbn [find].
  - destruct (String.eqb (e_src e) u && String.eqb (e_dst e) v) eqn:Q; [ reflexivity | ].
    unfold ekey in K. injection K as K1 K2. rewrite K1, K2, Q. reflexivity.
  - destruct H as [H|H]; [ congruence | ].
    destruct (String.eqb (e_src x) u && String.eqb (e_dst x) v) eqn:Q.
    + apply andb_true_iff in Q. destruct Q as [Q1 Q2]. apply String.eqb_eq in Q1, Q2. subst u v.
      destruct (String.eqb (e_src e) (e_src x) && String.eqb (e_dst e) (e_dst x)) eqn:Q; [ | reflexivity ].
      apply andb_true_iff in Q. destruct Q as [Q1 Q2]. apply String.eqb_eq in Q1, Q2. exfalso. apply K. unfold ekey. congruence.
    + apply IH; assumption.
Qed.

Lemma set_shape : forall (T : Type) (e x : edge T) es, NoDup (map ekey es) -> In x es -> ekey x = ekey e -> e_def x = e_def e ->
  map (fun y => (e_src y, e_dst y, e_def y)) (set_edge e es) = map (fun y => (e_src y, e_dst y, e_def y)) es.
Proof.
  intros T e x es. induction es as [|y es IH]; intros N H K F; [ destruct H | ].
  cbn [map] in N. inversion N as [|? ? Nin N']; subst. cbn [set_edge].
  change (String.eqb (e_src y) (e_src e) && String.eqb (e_dst y) (e_dst e)) with (keyb y e).
  destruct (keyb_spec y e) as [Q|Q]; cbn [map].
  - destruct H as [->|H].
    + unfold ekey in K. injection K as K1 K2. rewrite K1, K2, F. reflexivity.
    + exfalso. apply Nin. rewrite Q, <- K. apply in_map. assumption.
  - destruct H as [->|H]; [ congruence | ]. f_equal. apply IH; assumption.
Qed.

Lemma shape_keys : forall (T U : Type) (es : list (edge T)) (es' : list (edge U)),
  map (fun y => (e_src y, e_dst y, e_def y)) es = map (fun y => (e_src y, e_dst y, e_def y)) es' ->
  map ekey es = map ekey es'.
Proof.
  intros T U es es' H. assert (forall V (l : list (edge V)), map ekey l = map fst (map (fun y => (e_src y, e_dst y, e_def y)) l)) as K.
  { intros V l. rewrite map_map. reflexivity. }
  rewrite !K, H. reflexivity.
Qed.

Lemma find_map : forall (T U : Type) (g : edge T -> edge U) es u v, (forall x, ekey (g x) = ekey x) ->
  find_edge (map g es) u v = option_map g (find_edge es u v).
Proof.
  intros T U g es u v K. unfold find_edge. induction es as [|x es IH]; [ reflexivity | ]. cbn [map find].
  assert (Q := K x). unfold ekey in Q. injection Q as Q1 Q2. rewrite Q1, Q2.
  destruct (String.eqb (e_src x) u && String.eqb (e_dst x) v); [ reflexivity | exact IH ].
Qed.

Lemma find_iff : forall (T : Type) (es : list (edge T)) u v x, NoDup (map ekey es) ->
  (find_edge es u v = Some x <-> In x es /\ e_src x = u /\ e_dst x = v).
Proof.
  intros T es u v x N. split; [ apply find_edge_Some | ]. intros (H & <- & <-). apply find_edge_In; assumption.
Qed.

Lemma simple_paths_map : forall (T U : Type) (g : edge T -> edge U) es, (forall x, ekey (g x) = ekey x) ->
  forall f seen a b, simple_paths f (map g es) seen a b = simple_paths f es seen a b.
Proof.
  intros T U g es K. assert (forall u, nbs (map g es) u = nbs es u) as Hn.
  { intros u. unfold nbs. induction es as [|x es IH]; [ reflexivity | ]. cbn [map filter].
    assert (Q := K x). unfold ekey in Q. injection Q as Q1 Q2. rewrite Q1.
    destruct (String.eqb (e_src x) u); cbn [map]; rewrite IH; [ rewrite Q2 | ]; reflexivity. }
  induction f as [|f IH]; intros seen a b; cbn [simple_paths]; [ reflexivity | ].
  destruct (String.eqb a b); [ reflexivity | ]. rewrite Hn.
  induction (filter (fun n => negb (smem n (a :: seen))) (nbs es a)) as [|n ns IHn]; [ reflexivity | ].
  cbn [flat_map]. rewrite IH, IHn. reflexivity.
Qed.

Lemma shortest_path_map : forall (T U : Type) (g : edge T -> edge U) es a b, (forall x, ekey (g x) = ekey x) ->
  shortest_path (map g es) a b = shortest_path es a b.
Proof.
  intros T U g es a b K. unfold shortest_path. rewrite map_length, (simple_paths_map _ _ g) by exact K. reflexivity.
Qed.

(** a simple path is not longer than the list of edges *)
Lemma steps_nodup : forall p, NoDup p -> NoDup (steps p).
Proof.
  assert (forall p e, In e (steps p) -> In (fst e) p) as K.
  { induction p as [|a [|b p] IH]; intros e H; [ destruct H | destruct H | ].
    cbn [steps] in H. destruct H as [<-|H]; [ left; reflexivity | right; apply IH; exact H ]. }
  induction p as [|a [|b p] IH]; intros N; [ constructor | constructor | ].
  inversion N as [|? ? Nin N']; subst. cbn [steps]. constructor; [ | apply IH; assumption ].
  intros H. apply Nin. apply (K (b :: p) (a, b)). exact H.
Qed.

Lemma steps_length : forall p : list string, List.length (steps p) = pred (List.length p).
Proof.
  induction p as [|a [|b p] IH]; [ reflexivity | reflexivity | ]. cbn [steps List.length] in *. rewrite IH. reflexivity.
Qed.

Lemma path_bound : forall (T : Type) (es : list (edge T)) a p b, simple_path (elinked es) a p b ->
  (List.length p <= S (List.length es))%nat.
Proof.
  intros T es a p b [W N]. assert (L : (List.length (steps p) <= List.length (map ekey es))%nat).
  { apply NoDup_incl_length; [ apply steps_nodup; assumption | ]. intros [u v] H.
    apply walk_steps in W. rewrite Forall_forall in W. apply elinked_key. apply (W (u, v) H). }
  rewrite steps_length, map_length in L. lia.
Qed.

Section Facts.
  Context (sl : segment mat) (SL : slerp_ok sl) {D : Type}.
  Notation env := (env D).
  Notation ops := (tlcs_ops sl).

  Lemma view_key : forall h (x : edge nat), ekey (view_edge h x) = ekey x.
  Proof. reflexivity. Qed.

  Lemma view_keys : forall s : env, map ekey (c_edges (view s)) = map ekey (c_edges (v_mgr s)).
  Proof. intros s. cbn [view c_edges]. rewrite map_map. reflexivity. Qed.

  (** the system of an edge as a function *)
  Definition obj (s : env) (u v : string) : option tlcs :=
    match find_edge (c_edges (v_mgr s)) u v with
    | Some x => match e_tr x with Some a => nth_error (v_objs s) a | None => None end
    | None => None
    end.
  Definition flag (s : env) (u v : string) : option bool :=
    option_map e_def (find_edge (c_edges (v_mgr s)) u v).

  Definition keys_ok (s : env) : Prop := NoDup (map ekey (c_edges (v_mgr s))).

  Lemma system_iff : forall s u v d l, keys_ok s -> (system s u v d l <-> obj s u v = Some l /\ flag s u v = Some d).
  Proof.
    intros s u v d l N. unfold system. assert (N' := N). unfold keys_ok in N'. rewrite <- view_keys in N'.
    assert (H := find_iff _ (c_edges (view s)) u v (Edge u v (Some l) d) N'). cbn [e_src e_dst] in H.
    assert (In (Edge u v (Some l) d) (c_edges (view s)) <-> find_edge (c_edges (view s)) u v = Some (Edge u v (Some l) d)) as -> by tauto.
    cbn [view c_edges]. rewrite find_map by reflexivity. unfold obj, flag.
    destruct (find_edge (c_edges (v_mgr s)) u v) as [x|] eqn:F; cbn [option_map]; [ | split; [ discriminate | intros [? ?]; discriminate ] ].
    apply find_edge_Some in F. destruct F as (_ & <- & <-). unfold view_edge. split.
    - intros E. injection E as E1 E2. split; congruence.
    - intros [E1 E2]. injection E2 as <-. destruct (e_tr x); [ rewrite E1; reflexivity | discriminate ].
  Qed.

  (** ** single systems *)
  Variable c0 : csm nat D.
  Variable ts : list Z.
  Variable R : option Z.
  Hypothesis Sorted_ts : StronglySorted Z.lt ts.
  Hypothesis Some_ts : ts <> [].
  Notation time := (Some (RT ts R)).

  Definition fine (l : tlcs) : Prop := valid_t l /\ accepts c0 R l.
  (** the pose at a requested time *)
  Definition at_req (l : tlcs) (t : Z) : lcs :=
    posef sl l (match R with
                | None => t
                | Some b => match tl_ref l, c_ref c0 with
                            | Some a, _ => t + b - a
                            | None, Some r => t + b - r
                            | None, None => t
                            end
                end).
  Definition same_poses (l l' : tlcs) : Prop := fine l' /\ forall t, In t ts -> at_req l' t = at_req l t.
  (** a system after its interpolation *)
  Definition done (l : tlcs) : Prop :=
    is_expr l = false /\ (has_axis l = true -> lcs_axis l = Some ts /\ tl_ref l = R).

  Lemma same_poses_refl : forall l, fine l -> same_poses l l.
  Proof. intros l F. split; auto. Qed.
  Lemma same_poses_trans : forall a b c, same_poses a b -> same_poses b c -> same_poses a c.
  Proof. intros a b c [F H] [G K]. split; [ exact G | ]. intros t Ht. rewrite K, H by exact Ht. reflexivity. Qed.

  Lemma reset_none : forall l r, tl_ref l = None -> reset_reference_time l r =
    TL (tl_ori l) (tl_pos l) (tl_at l) (if is_time_dependent l || LcsTimeModel.is_some (tl_at l) then Some r else None).
  Proof.
    intros l r E. unfold reset_reference_time. rewrite E, shift_zero. f_equal.
    - destruct (tl_pos l); cbn [shift_pos]; [ rewrite shift_zero | ]; reflexivity.
    - destruct (tl_at l); [ f_equal; lia | reflexivity ].
  Qed.

  Lemma dated_only : forall l, only_dated c0 l (dated (c_ref c0) l).
  Proof.
    intros l. unfold dated, only_dated. destruct (tl_ref l) as [a|] eqn:E; [ auto | ]. destruct (c_ref c0) as [r|]; [ | auto ].
    rewrite reset_none by exact E. destruct (is_time_dependent l || LcsTimeModel.is_some (tl_at l)).
    - right. exists r. cbn. auto 10.
    - left. destruct l as [o p a f]. cbn in *. subst. reflexivity.
  Qed.

  Lemma only_dated_dep : forall l l', only_dated c0 l l' ->
    is_time_dependent l' = is_time_dependent l /\ is_expr l' = is_expr l /\ has_axis l' = has_axis l /\ lcs_axis l' = lcs_axis l.
  Proof.
    intros [o p a f] [o' p' a' f'] [E|(r & _ & _ & _ & E1 & E2 & E3)].
    - rewrite E. auto.
    - cbn in E1, E2, E3. subst. auto.
  Qed.

  Lemma only_dated_trans : forall a b c, only_dated c0 a b -> only_dated c0 b c -> only_dated c0 a c.
  Proof.
    intros a b c [->|(r & A1 & A2 & A3 & A4 & A5 & A6)] H; [ exact H | ].
    destruct H as [->|(r' & B1 & B2 & _)]; [ right; exists r; auto 10 | congruence ].
  Qed.

  Lemma only_dated_poses : forall l l', (is_time_dependent l = false -> tl_at l = None -> tl_ref l' = tl_ref l) ->
    fine l -> only_dated c0 l l' -> same_poses l l'.
  Proof.
    intros l l' Hr [W A] [->|(r & B1 & B2 & B3 & B4 & B5 & B6)]; [ apply same_poses_refl; split; assumption | ].
    assert (E : l' = TL (tl_ori l) (tl_pos l) (tl_at l) (Some r)) by (destruct l'; cbn in *; congruence).
    assert (Dl : is_time_dependent l' = is_time_dependent l) by (subst l'; reflexivity).
    split.
    - split.
      + subst l'. destruct W as [W1 W2 W3 W4 W5 W6]. constructor; cbn [tl_ori tl_pos tl_at tl_ref]; try assumption.
        intros D1 D2. assert (Q := Hr D1 D2). cbn [tl_ref] in Q. congruence.
      + intros T. rewrite Dl in T. specialize (A T). rewrite B2, B1 in A. rewrite B3, B1.
        split; [ intros [? ?]; discriminate | intros Q; apply A in Q; destruct Q; discriminate ].
    - intros t _. unfold at_req. rewrite B2, B3, B1. subst l'. unfold posef. cbn [tl_ori tl_pos].
      destruct R; reflexivity.
  Qed.

  Lemma dated_keeps : forall l, is_time_dependent l = false -> tl_at l = None -> tl_ref (dated (c_ref c0) l) = tl_ref l.
  Proof.
    intros l D1 D2. unfold dated. destruct (tl_ref l) eqn:E; [ congruence | ]. destruct (c_ref c0); [ | congruence ].
    rewrite reset_none by exact E. rewrite D1, D2. reflexivity.
  Qed.

  Lemma dated_poses : forall l, fine l -> same_poses l (dated (c_ref c0) l).
  Proof. intros l F. apply only_dated_poses; [ apply dated_keeps | exact F | apply dated_only ]. Qed.

  Lemma done_dated : forall l, fine l -> done l -> done (dated (c_ref c0) l).
  Proof.
    intros l [W A] [E Q]. destruct (only_dated_dep _ _ (dated_only l)) as (D1 & D2 & D3 & D4).
    split; [ congruence | ]. intros H. rewrite D3 in H. destruct (Q H) as [Q1 Q2]. split; [ congruence | ].
    unfold dated. destruct (tl_ref l) eqn:El; [ congruence | ]. destruct (c_ref c0) as [r|] eqn:Er; [ | congruence ].
    exfalso. assert (T : is_time_dependent l = true) by (rewrite dep_axis; assumption).
    specialize (A T). rewrite El, Er in A. destruct (proj2 A (eq_sym Q2)). discriminate.
  Qed.

  (** the interpolation of a system *)
  Lemma interp_one : forall l, fine l -> let d := dated (c_ref c0) l in
    (is_time_dependent d = false -> same_poses l d /\ done d) /\
    (is_time_dependent d = true -> exists l', interp_time sl d time = Ok l' /\ same_poses l l' /\ done l').
  Proof.
    intros l F d. assert (Pd := dated_poses l F). assert (Hd := only_dated_dep _ _ (dated_only l)). fold d in Pd, Hd.
    destruct Pd as [[Wd Ad] Pd]. destruct Hd as (D1 & _). split.
    - intros T. split; [ split; [ split; assumption | exact Pd ] | ]. unfold is_time_dependent in T.
      apply orb_false_iff in T. destruct T as [T1 T2]. split; [ exact T1 | rewrite T2; discriminate ].
    - intros T. assert (C : compatible d R).
      { unfold compatible. specialize (Ad T). destruct F as [W A]. rewrite D1 in T. specialize (A T).
        rewrite <- A. unfold d, dated. destruct (tl_ref l) eqn:El, (c_ref c0) as [r|] eqn:Er; cbv beta iota.
        - rewrite El. split; [ discriminate | intros [? ?]; discriminate ].
        - rewrite El. split; [ discriminate | intros [? ?]; discriminate ].
        - rewrite reset_none by exact El. cbn [tl_ref]. rewrite T. cbn [orb].
          split; [ discriminate | intros [? ?]; discriminate ].
        - rewrite El. tauto. }
      destruct (interp_time_ok sl SL d ts R Wd Sorted_ts Some_ts (fun _ => C)) as (l' & E & W' & X' & P' & A' & _ & L').
      exists l'. split; [ exact E | ].
      assert (X : is_expr l' = false) by (rewrite X', T; cbn; apply andb_false_r).
      assert (Dn : done l') by (split; [ exact X | intros H; destruct (A' H) as (_ & Q1 & Q2); auto ]).
      split; [ | exact Dn ].
      assert (Acc : accepts c0 R l').
      { intros T'. rewrite (dep_axis _ X) in T'. destruct (A' T') as (_ & _ & Q). rewrite Q.
        specialize (Ad T). unfold compatible in C. rewrite <- Ad. tauto. }
      split; [ split; assumption | ].
      intros t Ht. rewrite <- (Pd t Ht).
      assert (E' : at_req d t = posef sl d (local_time d R t)).
      { unfold at_req, local_time. f_equal. unfold compatible in C. destruct R as [b|].
        - destruct (tl_ref d); [ reflexivity | ]. discriminate (proj1 C eq_refl).
        - destruct (tl_ref d); reflexivity. }
      rewrite E', <- (P' t Ht).
      destruct (has_axis l') eqn:Hx.
      + destruct (A' eq_refl) as (_ & _ & Q). unfold at_req. f_equal. rewrite Q. destruct R; [ lia | reflexivity ].
      + unfold at_req. apply static_posef. rewrite (dep_axis _ X). exact Hx.
  Qed.

  (** ** the loops *)
  Lemma frame_refl : forall c : csm nat D, same_frame c c.
  Proof. intros c. unfold same_frame. auto 10. Qed.
  Lemma frame_trans : forall a b c : csm nat D, same_frame a b -> same_frame b c -> same_frame a c.
  Proof.
    unfold same_frame. intros a b c (A1 & A2 & A3 & A4 & A5 & A6) (B1 & B2 & B3 & B4 & B5 & B6).
    rewrite A1, A2, A3, A4, A5, A6. auto 10.
  Qed.
  Lemma frame_keys : forall s s' : env, same_frame (v_mgr s) (v_mgr s') -> keys_ok s -> keys_ok s'.
  Proof.
    intros s s' (_ & _ & _ & _ & _ & F) N. unfold keys_ok in *. apply shape_keys in F. rewrite <- F. exact N.
  Qed.
  Lemma find_shape : forall (es es' : list (edge nat)) u v,
    map (fun x => (e_src x, e_dst x, e_def x)) es = map (fun x => (e_src x, e_dst x, e_def x)) es' ->
    option_map e_def (find_edge es u v) = option_map e_def (find_edge es' u v).
  Proof.
    induction es as [|x es IH]; intros [|y es'] u v F; try discriminate; [ reflexivity | ].
    cbn [map] in F. injection F as F1 F2 F3 F4. unfold find_edge in *. cbn [find]. rewrite F1, F2.
    destruct (String.eqb (e_src y) u && String.eqb (e_dst y) v); [ cbn; congruence | apply IH; exact F4 ].
  Qed.
  Lemma frame_flag : forall (s s' : env) u v, same_frame (v_mgr s) (v_mgr s') -> flag s' u v = flag s u v.
  Proof. intros s s' u v (_ & _ & _ & _ & _ & F). unfold flag. symmetry. apply find_shape. exact F. Qed.

  Lemma set_tr_frame : forall (c : csm nat D) x a, NoDup (map ekey (c_edges c)) -> In x (c_edges c) ->
    same_frame c (set_tr c x a).
  Proof.
    intros c x a N H. unfold same_frame, set_tr, set_graph. cbn [c_name c_ref c_root c_subs c_nodes c_edges].
    split; [ reflexivity | ]. split; [ reflexivity | ]. split; [ reflexivity | ]. split; [ reflexivity | ]. split; [ reflexivity | ].
    symmetry. apply (set_shape _ _ x); auto.
  Qed.
  Lemma set_tr_find : forall (c : csm nat D) x a u v, NoDup (map ekey (c_edges c)) -> In x (c_edges c) ->
    find_edge (c_edges (set_tr c x a)) u v =
    if String.eqb (e_src x) u && String.eqb (e_dst x) v then Some (Edge (e_src x) (e_dst x) (Some a) (e_def x))
    else find_edge (c_edges c) u v.
  Proof.
    intros c x a u v N H. cbn [set_tr set_graph c_edges]. rewrite find_set; [ reflexivity | exact N | ].
    change (In (ekey x) (map ekey (c_edges c))). apply in_map. exact H.
  Qed.

  Lemma lookup_find : forall (c : csm nat D) u v x, find_edge (c_edges c) u v = Some x -> lookup c (Some u, Some v) = Ok x.
  Proof. intros c u v x H. cbn [lookup]. rewrite H. reflexivity. Qed.

  Lemma dated_idem : forall l, dated (c_ref c0) (dated (c_ref c0) l) = dated (c_ref c0) l.
  Proof.
    intros l. unfold dated at 2 3. destruct (tl_ref l) eqn:El.
    - unfold dated. rewrite El. reflexivity.
    - destruct (c_ref c0) as [r|]; [ | unfold dated; rewrite El; reflexivity ].
      unfold dated. rewrite (reset_none l r El). cbn [tl_ref].
      destruct (is_time_dependent l || LcsTimeModel.is_some (tl_at l)) eqn:Q; [ reflexivity | ].
      rewrite reset_none by reflexivity. cbn [tl_ori tl_pos tl_at]. change (is_time_dependent (TL (tl_ori l) (tl_pos l) (tl_at l) None)) with (is_time_dependent l).
      rewrite Q. reflexivity.
  Qed.

  Definition dates (h h' : list tlcs) : Prop := forall a l, nth_error h a = Some l ->
    exists l', nth_error h' a = Some l' /\ (l' = l \/ l' = dated (c_ref c0) l).
  Lemma dates_refl : forall h, dates h h.
  Proof. intros h a l H. eauto. Qed.
  Lemma dates_trans : forall a b c, dates a b -> dates b c -> dates a c.
  Proof.
    intros h h' h'' A B a l H. destruct (A a l H) as (l' & H' & Q). destruct (B a l' H') as (l'' & H'' & Q').
    exists l''. split; [ exact H'' | ]. destruct Q as [->| ->], Q' as [->| ->]; auto. right. apply dated_idem.
  Qed.
  Lemma dates_upd : forall h a l, nth_error h a = Some l -> dates h (upd a (dated (c_ref c0) l) h).
  Proof.
    intros h a l H b k K. destruct (Nat.eq_dec b a) as [->|Q].
    - rewrite H in K. injection K as <-. exists (dated (c_ref c0) l). split; [ | auto ].
      apply upd_same. apply nth_error_Some. congruence.
    - rewrite upd_other by exact Q. eauto.
  Qed.
  Lemma dates_app : forall h x, dates h (h ++ x).
  Proof. intros h x a l H. exists l. split; [ rewrite nth_error_app1; [ exact H | apply nth_error_Some; congruence ] | auto ]. Qed.

  Definition evolves (ks : list pair_key) (s s' : env) : Prop :=
    same_frame (v_mgr s) (v_mgr s') /\ dates (v_objs s) (v_objs s') /\
    (forall u v l, flag s u v = Some true -> obj s u v = Some l -> fine l ->
       exists l', obj s' u v = Some l' /\ same_poses l l' /\ (done l -> done l')) /\
    (forall u v, flag s u v <> Some true \/ ~ In (Some u, Some v) ks ->
       find_edge (c_edges (v_mgr s')) u v = find_edge (c_edges (v_mgr s)) u v).

  Lemma dates_edge : forall (s s' : env) u v l, dates (v_objs s) (v_objs s') ->
    find_edge (c_edges (v_mgr s')) u v = find_edge (c_edges (v_mgr s)) u v ->
    obj s u v = Some l -> fine l -> exists l', obj s' u v = Some l' /\ same_poses l l' /\ (done l -> done l').
  Proof.
    intros s s' u v l Q F H G. unfold obj in *. rewrite F. destruct (find_edge (c_edges (v_mgr s)) u v) as [x|]; [ | discriminate ].
    destruct (e_tr x) as [a|]; [ | discriminate ]. destruct (Q a l H) as (l' & H' & [->| ->]).
    - exists l. split; [ exact H' | ]. split; [ apply same_poses_refl; exact G | auto ].
    - exists (dated (c_ref c0) l). split; [ exact H' | ]. split; [ apply dated_poses; exact G | apply done_dated; exact G ].
  Qed.

  Lemma evolves_refl : forall s, evolves [] s s.
  Proof.
    intros s. split; [ apply frame_refl | ]. split; [ apply dates_refl | ]. split; [ | reflexivity ].
    intros u v l _ H F. exists l. split; [ exact H | ]. split; [ apply same_poses_refl; exact F | auto ].
  Qed.
  Lemma evolves_cons : forall k ks a b c, evolves [k] a b -> evolves ks b c -> evolves (k :: ks) a c.
  Proof.
    intros k ks a b c (A1 & A2 & A3 & A4) (B1 & B2 & B3 & B4).
    split; [ eapply frame_trans; eassumption | ]. split; [ eapply dates_trans; eassumption | ]. split.
    - intros u v l Fl H F. destruct (A3 u v l Fl H F) as (l' & H' & P & Q).
      rewrite <- (frame_flag a b u v A1) in Fl. destruct (B3 u v l' Fl H' (proj1 P)) as (l'' & H'' & P' & Q').
      exists l''. split; [ exact H'' | ]. split; [ eapply same_poses_trans; eassumption | auto ].
    - intros u v H. rewrite B4, A4; [ reflexivity | cbn [In] in *; tauto | ]. rewrite (frame_flag a b u v A1). cbn [In] in H. tauto.
  Qed.

  (** a defined edge *)
  Lemma interp_edge_ok : forall (s : env) u v x l, keys_ok s -> c_ref (v_mgr s) = c_ref c0 ->
    find_edge (c_edges (v_mgr s)) u v = Some x -> e_def x = true -> obj s u v = Some l -> fine l ->
    exists s' l', interp_edge sl s x time = (s', Ok tt) /\ evolves [(Some u, Some v)] s s' /\ obj s' u v = Some l' /\ done l'.
  Proof.
    intros s u v x l N C Fx Dx Ol F. assert (Hx := Fx). apply find_edge_Some in Hx. destruct Hx as (Hx & Ex & Ey).
    unfold obj in Ol. rewrite Fx in Ol. unfold interp_edge. destruct (e_tr x) as [a|] eqn:Ea; [ | discriminate ].
    rewrite Ol, C. cbv zeta. set (d := dated (c_ref c0) l). set (h := upd a d (v_objs s)).
    assert (Q : dates (v_objs s) h) by (apply dates_upd; exact Ol).
    assert (Ha : nth_error h a = Some d) by (apply upd_same; apply nth_error_Some; congruence).
    destruct (interp_one l F) as [I1 I2]. fold d in I1, I2. cbn [LcsTimeModel.is_some negb]. rewrite orb_false_r.
    destruct (is_time_dependent d) eqn:Dd; cbn [negb].
    - destruct (I2 eq_refl) as (l' & E & P & Dn). rewrite E. eexists. exists l'. split; [ reflexivity | ].
      assert (Ob : forall t1 t2 (b : edge nat), find_edge (c_edges (set_tr (v_mgr s) x (List.length h))) t1 t2 =
        if String.eqb u t1 && String.eqb v t2 then Some (Edge u v (Some (List.length h)) true) else find_edge (c_edges (v_mgr s)) t1 t2).
      { intros t1 t2 _. rewrite set_tr_find by assumption. rewrite Ex, Ey, Dx. reflexivity. }
      assert (On : obj (Env (set_tr (v_mgr s) x (List.length h)) (h ++ [l'])) u v = Some l').
      { unfold obj. cbn [v_mgr v_objs]. rewrite (Ob u v x), !String.eqb_refl. cbn [andb e_tr]. apply nth_error_last. }
      split; [ | split; [ exact On | exact Dn ] ].
      assert (Q2 : dates (v_objs s) (h ++ [l'])) by (eapply dates_trans; [ exact Q | apply dates_app ]).
      split; [ apply set_tr_frame; assumption | ]. split; [ exact Q2 | ].
      assert (Ne : forall u' v', String.eqb u u' && String.eqb v v' = true -> u' = u /\ v' = v).
      { intros u' v' H. apply andb_true_iff in H. destruct H as [H1 H2]. apply String.eqb_eq in H1, H2. auto. }
      split.
      + intros u' v' k Fl Ok F'. destruct (String.eqb u u' && String.eqb v v') eqn:B.
        * destruct (Ne _ _ B) as [-> ->]. unfold obj in Ok. rewrite Fx, Ea, Ol in Ok. injection Ok as <-.
          exists l'. split; [ exact On | ]. split; [ exact P | intros _; exact Dn ].
        * apply dates_edge with s; auto. cbn [v_mgr]. rewrite (Ob u' v' x), B. reflexivity.
      + intros u' v' H. cbn [v_mgr]. rewrite (Ob u' v' x). destruct (String.eqb u u' && String.eqb v v') eqn:B; [ | reflexivity ].
        destruct (Ne _ _ B) as [-> ->]. exfalso. destruct H as [H|H].
        * apply H. unfold flag. rewrite Fx. cbn. congruence.
        * apply H. left; reflexivity.
    - destruct (I1 eq_refl) as [P Dn]. eexists. exists d. split; [ reflexivity | ].
      split; [ | split; [ unfold obj; cbn [v_mgr v_objs]; rewrite Fx, Ea; exact Ha | exact Dn ] ].
      split; [ apply frame_refl | ]. split; [ exact Q | ]. split; [ | reflexivity ].
      intros u' v' k Fl Ok F'. apply dates_edge with s; auto.
  Qed.

  (** the keys that are looked up exist *)
  Definition present (s : env) (k : pair_key) : Prop := exists u v d, k = (Some u, Some v) /\ flag s u v = Some d.
  Definition all_fine (s : env) : Prop := forall u v, flag s u v = Some true -> exists l, obj s u v = Some l /\ fine l.

  Lemma flag_find : forall (s : env) u v d, flag s u v = Some d ->
    exists x, find_edge (c_edges (v_mgr s)) u v = Some x /\ e_def x = d /\ In x (c_edges (v_mgr s)) /\ e_src x = u /\ e_dst x = v.
  Proof.
    intros s u v d H. unfold flag in H. destruct (find_edge (c_edges (v_mgr s)) u v) as [x|] eqn:F; [ | discriminate ].
    exists x. assert (F' := F). apply find_edge_Some in F'. cbn in H. split; [ reflexivity | ]. split; [ congruence | tauto ].
  Qed.

  Lemma evolves_fine : forall ks s s', evolves ks s s' -> all_fine s -> all_fine s'.
  Proof.
    intros ks s s' (A1 & _ & A3 & _) H u v Fl. rewrite (frame_flag s s' u v A1) in Fl.
    destruct (H u v Fl) as (l & Ol & F). destruct (A3 u v l Fl Ol F) as (l' & Ol' & P & _). exists l'. split; [ exact Ol' | apply P ].
  Qed.

  Lemma interp_defined_ok : forall ks (s : env), keys_ok s -> c_ref (v_mgr s) = c_ref c0 -> all_fine s ->
    (forall k, In k ks -> present s k) ->
    exists s', interp_defined sl s ks time = (s', Ok tt) /\ evolves ks s s' /\
      (forall u v, In (Some u, Some v) ks -> flag s u v = Some true -> exists l, obj s' u v = Some l /\ done l).
  Proof.
    induction ks as [|k ks IH]; intros s N C A Pr; cbn [interp_defined].
    - exists s. split; [ reflexivity | ]. split; [ apply evolves_refl | intros u v [] ].
    - destruct (Pr k (or_introl eq_refl)) as (u & v & d & -> & Fl).
      destruct (flag_find s u v d Fl) as (x & Fx & Dx & Hx & Ex & Ey). rewrite (lookup_find _ _ _ _ Fx), Dx. destruct d.
      + destruct (A u v Fl) as (l & Ol & F).
        destruct (interp_edge_ok s u v x l N C Fx Dx Ol F) as (s1 & l1 & E & V1 & O1 & D1). rewrite E.
        assert (Fr := proj1 V1).
        destruct (IH s1) as (s' & E' & V' & Q').
        * eapply frame_keys; eassumption.
        * destruct Fr as (_ & Fr & _). congruence.
        * eapply evolves_fine; eassumption.
        * intros k H. destruct (Pr k (or_intror H)) as (u' & v' & d & -> & H'). exists u', v', d. split; [ reflexivity | ].
          rewrite (frame_flag s s1 u' v' Fr). exact H'.
        * exists s'. split; [ exact E' | ]. split; [ eapply evolves_cons; eassumption | ].
          intros u' v' [H|H] Fl'.
          -- injection H as <- <-. assert (Fl1 : flag s1 u v = Some true) by (rewrite (frame_flag s s1 u v Fr); exact Fl).
             destruct V' as (_ & _ & V' & _). destruct V1 as (_ & _ & V1 & _).
             destruct (V1 u v l Fl Ol F) as (l1' & O1' & P1 & _). rewrite O1 in O1'. injection O1' as <-.
             destruct (V' u v l1 Fl1 O1 (proj1 P1)) as (l2 & O2 & _ & D2). exists l2. auto.
          -- apply Q'; [ exact H | ]. rewrite (frame_flag s s1 u' v' Fr). exact Fl'.
      + destruct (IH s N C A (fun k H => Pr k (or_intror H))) as (s' & E' & V' & Q').
        exists s'. split; [ exact E' | ]. split.
        * destruct V' as (V1 & V2 & V3 & V4). split; [ exact V1 | ]. split; [ exact V2 | ]. split; [ exact V3 | ].
          intros u' v' H. apply V4. cbn [In] in H. tauto.
        * intros u' v' [H|H] Fl'; [ injection H as <- <-; congruence | auto ].
  Qed.

  (** the second loop *)
  Definition turned (ks : list pair_key) (s s' : env) : Prop :=
    same_frame (v_mgr s) (v_mgr s') /\
    (forall a l, nth_error (v_objs s) a = Some l -> nth_error (v_objs s') a = Some l) /\
    (forall u v, flag s u v <> Some false \/ ~ In (Some u, Some v) ks ->
       find_edge (c_edges (v_mgr s')) u v = find_edge (c_edges (v_mgr s)) u v) /\
    (forall u v l, In (Some u, Some v) ks -> flag s u v = Some false -> obj s v u = Some l ->
       exists i, tlcs_invert sl l = Ok i /\ obj s' u v = Some i).

  Lemma turned_obj : forall ks s s' u v l, turned ks s s' -> flag s u v <> Some false \/ ~ In (Some u, Some v) ks ->
    obj s u v = Some l -> obj s' u v = Some l.
  Proof.
    intros ks s s' u v l (_ & H2 & H3 & _) Q O. unfold obj in *. rewrite (H3 u v Q).
    destruct (find_edge (c_edges (v_mgr s)) u v) as [x|]; [ | discriminate ]. destruct (e_tr x); [ | discriminate ]. auto.
  Qed.

  Lemma invert_others_ok : forall ks (s : env), keys_ok s -> (forall k, In k ks -> present s k) ->
    (forall u v, In (Some u, Some v) ks -> flag s u v = Some false ->
       flag s v u = Some true /\ exists l, obj s v u = Some l /\ valid_t l /\ is_expr l = false) ->
    exists s', invert_others sl s ks = (s', Ok tt) /\ turned ks s s'.
  Proof.
    induction ks as [|k ks IH]; intros s N Pr Hr; cbn [invert_others].
    - exists s. split; [ reflexivity | ]. split; [ apply frame_refl | ]. split; [ auto | ]. split; [ reflexivity | intros u v l [] ].
    - destruct (Pr k (or_introl eq_refl)) as (u & v & d & -> & Fl).
      destruct (flag_find s u v d Fl) as (x & Fx & Dx & Hx & Ex & Ey). rewrite (lookup_find _ _ _ _ Fx), Dx. destruct d.
      + destruct (IH s N (fun k H => Pr k (or_intror H)) (fun u v H => Hr u v (or_intror H))) as (s' & E' & V1 & V2 & V3 & V4).
        exists s'. split; [ exact E' | ]. split; [ exact V1 | ]. split; [ exact V2 | ]. split.
        * intros u' v' H. apply V3. cbn [In] in H. tauto.
        * intros u' v' l [H|H] Fl' O; [ injection H as <- <-; congruence | eauto ].
      + destruct (Hr u v (or_introl eq_refl) Fl) as (Fl' & l & Ol & Wl & Xl).
        destruct (flag_find s v u true Fl') as (y & Fy & Dy & Hy & _). cbn [fst snd]. rewrite (lookup_find _ _ _ _ Fy).
        assert (Ol' := Ol). unfold obj in Ol. rewrite Fy in Ol. destruct (e_tr y) as [a|] eqn:Ea; [ | discriminate ]. rewrite Ol.
        destruct (tlcs_invert_ok sl SL l Wl Xl) as (i & Ei & Wi & Xi & _). rewrite Ei.
        set (s1 := Env (set_tr (v_mgr s) x (List.length (v_objs s))) (v_objs s ++ [i])).
        assert (Fr : same_frame (v_mgr s) (v_mgr s1)) by (apply set_tr_frame; assumption).
        assert (Fi : forall u' v', find_edge (c_edges (v_mgr s1)) u' v' =
          if String.eqb u u' && String.eqb v v' then Some (Edge u v (Some (List.length (v_objs s))) false) else find_edge (c_edges (v_mgr s)) u' v').
        { intros u' v'. cbn [s1 v_mgr]. rewrite set_tr_find by assumption. rewrite Ex, Ey, Dx. reflexivity. }
        assert (Oi : obj s1 u v = Some i).
        { unfold obj. rewrite Fi, !String.eqb_refl. cbn [andb e_tr s1 v_objs]. apply nth_error_last. }
        assert (Hh : forall a l, nth_error (v_objs s) a = Some l -> nth_error (v_objs s1) a = Some l).
        { intros b k H. cbn [s1 v_objs]. rewrite nth_error_app1; [ exact H | apply nth_error_Some; congruence ]. }
        assert (Os : forall u' v' k, flag s u' v' = Some true -> obj s u' v' = Some k -> obj s1 u' v' = Some k).
        { intros u' v' k F O. unfold obj in *. rewrite Fi. destruct (String.eqb u u' && String.eqb v v') eqn:B.
          - apply andb_true_iff in B. destruct B as [B1 B2]. apply String.eqb_eq in B1, B2. subst u' v'. congruence.
          - destruct (find_edge (c_edges (v_mgr s)) u' v') as [z|]; [ | discriminate ]. destruct (e_tr z); [ auto | discriminate ]. }
        destruct (IH s1) as (s' & E' & V').
        * eapply frame_keys; eassumption.
        * intros k H. destruct (Pr k (or_intror H)) as (u' & v' & d & -> & H'). exists u', v', d. split; [ reflexivity | ].
          rewrite (frame_flag s s1 u' v' Fr). exact H'.
        * intros u' v' H F. rewrite (frame_flag s s1 _ _ Fr) in F. destruct (Hr u' v' (or_intror H) F) as (G & k & Ok & Q).
          rewrite (frame_flag s s1 _ _ Fr). split; [ exact G | ]. exists k. split; [ apply Os; assumption | exact Q ].
        * exists s'. split; [ exact E' | ]. assert (V := V'). destruct V' as (V1 & V2 & V3 & V4).
          split; [ eapply frame_trans; eassumption | ]. split; [ auto | ]. split.
          -- intros u' v' H. rewrite V3, Fi.
             ++ destruct (String.eqb u u' && String.eqb v v') eqn:B; [ | reflexivity ].
                apply andb_true_iff in B. destruct B as [B1 B2]. apply String.eqb_eq in B1, B2. subst u' v'.
                exfalso. destruct H as [H|H]; [ congruence | apply H; left; reflexivity ].
             ++ rewrite (frame_flag s s1 _ _ Fr). cbn [In] in H. tauto.
          -- intros u' v' k H F O.
             assert (Fo : flag s v' u' = Some true) by (apply (Hr u' v' H F)).
             assert (O1 := Os v' u' k Fo O).
             destruct (in_dec (fun a b : pair_key => ltac:(decide equality; decide equality; apply string_dec)) (Some u', Some v') ks) as [In'|Nin].
             ++ apply V4; [ exact In' | rewrite (frame_flag s s1 _ _ Fr); exact F | exact O1 ].
             ++ destruct H as [H|H]; [ | contradiction ]. injection H as <- <-. rewrite Ol' in O. injection O as <-.
                exists i. split; [ exact Ei | ]. eapply turned_obj; [ exact V | right; exact Nin | exact Oi ].
  Qed.
End Facts.
