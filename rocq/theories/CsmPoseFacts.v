(** Static managers: all transformations come from absolute poses. *)
From Coq Require Import Reals List String ZArith Bool Lia Sorting.Sorted.
From Verif Require Import Base RigidModel RigidSpec RigidFacts InterpModel InterpSpec InterpFacts
  LinModel LinFacts CsmModel CsmSpec TreeFacts CsmGraphFacts CsmTreeFacts CsmSubFacts CsmDataFacts CsmOpFacts CsmHistFacts
  LcsTimeModel LcsTimeSpec LcsTimeFacts CsmGetModel CsmGetSpec CsmGetFacts CsmPathFacts.
Import ListNotations.
Open Scope Z_scope.

Lemma grows_potential : forall r l, grows r l -> forall L : string -> string -> lcs,
  (forall u v, adjl l u v -> valid (L u v)) -> (forall u v, adjl l u v -> L v u = rinv (L u v)) ->
  exists P : string -> lcs, (forall n, valid (P n)) /\ forall u v, adjl l u v -> P u = radd (L u v) (P v).
Proof.
  intros r l G L. induction G as [|c p l G IH Hp Hc]; intros V H.
  - exists (fun _ => rid). split; [ intros; exact rid_valid | ]. intros u v [[]|[]].
  - destruct IH as (P & VP & HP); [ intros u v A; apply V; apply adjl_cons; exact A | intros u v A; apply H; apply adjl_cons; exact A | ].
    assert (Ac : adjl ((c, p) :: l) c p) by (left; left; reflexivity).
    exists (fun x => if String.eqb x c then radd (L c p) (P p) else P x).
    split; [ intros n; destruct (String.eqb n c); [ apply radd_valid; auto | auto ] | ].
    assert (Hpc : p <> c) by (intros ->; contradiction).
    assert (E : forall x, x <> c -> String.eqb x c = false) by (intros x Hx; apply String.eqb_neq; exact Hx).
    intros u v [[A|A]|[A|A]].
    + injection A as <- <-. rewrite String.eqb_refl, (E p Hpc). reflexivity.
    + assert (Q : adjl l u v) by (left; exact A). destruct (adjl_verts _ _ G _ _ Q) as [Vu Vv].
      rewrite !E by (intros ->; contradiction). apply HP. exact Q.
    + injection A as <- <-. rewrite String.eqb_refl, (E p Hpc). rewrite (H c p Ac), <- radd_assoc, radd_inv_l by (apply V; exact Ac).
      symmetry. apply radd_id_l.
    + assert (Q : adjl l u v) by (right; exact A). destruct (adjl_verts _ _ G _ _ Q) as [Vu Vv].
      rewrite !E by (intros ->; contradiction). apply HP. exact Q.
Qed.

Lemma telescope : forall (R : string -> string -> Prop) (L : string -> string -> lcs) (P : string -> lcs),
  (forall u v, R u v -> P u = radd (L u v) (P v)) ->
  forall a p b, walk R a p b ->
  forall x, radd (radd_all x (map (fun e => L (fst e) (snd e)) (steps p))) (P b) = radd x (P a).
Proof.
  intros R L P H a p b W. induction W as [|a b c p Hab W IH]; intros x; [ reflexivity | ].
  destruct (walk_head _ _ _ _ W) as [q ->]. cbn [steps map fst snd]. unfold radd_all in *. cbn [fold_left].
  cbn [steps] in IH. rewrite IH, radd_assoc. rewrite <- H by exact Hab. reflexivity.
Qed.

Section Pose.
  Context (sl : segment mat) (SL : slerp_ok sl) {D : Type}.
  Notation mgr := (csm tlcs D).
  Notation ops := (tlcs_ops sl).
  Notation is_treeT := (@is_tree tlcs D ops).

  Definition stat (x : lcs) : tlcs := TL (Const (l_ori x)) (CArr (Const (l_pos x))) None None.

  Lemma stat_form : forall l, valid_t l -> plain l -> is_time_dependent l = false -> l = stat (posef sl l 0).
  Proof.
    intros [o p at_ r] W [P _] Dl. assert (Q := vt_ref _ W Dl P). cbn [tl_at tl_ref] in *. subst.
    unfold is_time_dependent, is_expr, has_axis in Dl. cbn [tl_ori tl_pos] in Dl.
    destruct p as [p|]; [ | discriminate ]. destruct o; [ | discriminate ]. destruct p; [ | discriminate ]. reflexivity.
  Qed.
  Lemma stat_valid : forall x, valid x -> valid_t (stat x).
  Proof. intros x V. split; try exact I; try discriminate; try reflexivity. cbn. intros m ->. exact V. Qed.
  Lemma stat_plain : forall x, plain (stat x).
  Proof. intros x. split; [ reflexivity | discriminate ]. Qed.
  Lemma stat_static : forall x, is_time_dependent (stat x) = false.
  Proof. reflexivity. Qed.
  Lemma stat_pose : forall x t, posef sl (stat x) t = x.
  Proof. intros [o p] t. reflexivity. Qed.
  Lemma stat_mk : forall x, valid x -> mk_tlcs sl (Const (l_ori x)) (CArr (Const (l_pos x))) None None = Ok (stat x).
  Proof. intros x V. rewrite mk_tlcs_ok; [ reflexivity | | exact I ]. cbn. intros m ->. exact V. Qed.
  Lemma stat_add : forall x y, valid x -> valid y -> tlcs_add sl (stat x) (stat y) = Ok (stat (radd x y)).
  Proof.
    intros x y Vx Vy.
    destruct (tlcs_add_ok sl SL (stat x) (stat y)) as (c & E & W & Ex & _ & L2 & _ & _ & V); try reflexivity; try (apply stat_valid; assumption).
    { intros H. exfalso. apply H. reflexivity. }
    specialize (L2 eq_refl). cbn in L2. destruct (lcs_axis c) eqn:Lc; [ discriminate | ].
    destruct (axis_none c Lc Ex) as [Ha Hat].
    assert (Dc : is_time_dependent c = false) by (rewrite dep_axis; assumption).
    rewrite E. f_equal. rewrite (stat_form c W); [ | | exact Dc ].
    - f_equal. rewrite V; [ rewrite !stat_pose; reflexivity | ]. unfold on_axis. rewrite Lc. exact I.
    - split; [ exact Hat | ]. intros p Hp. unfold has_axis in Ha. rewrite Hp in Ha. discriminate.
  Qed.
  Lemma stat_invert : forall x, valid x -> tlcs_invert sl (stat x) = Ok (stat (rinv x)).
  Proof.
    intros x V. destruct (invert_good sl SL (stat x)) as (i & E & Wi & Pi & Xi & Li & Ri & Hi & Vi);
      [ apply stat_valid; exact V | apply stat_plain | reflexivity | ].
    rewrite E. f_equal. rewrite (stat_form i Wi Pi) by (rewrite dep_axis; assumption).
    f_equal. rewrite Vi; [ rewrite stat_pose; reflexivity | exact I ].
  Qed.

  (** ** Managers *)
  Definition link_pose (c : mgr) (u v : string) : lcs :=
    match edge_lcs c (u, v) with Ok (l, _) => posef sl l 0 | Err _ => rid end.

  Lemma static_edge : forall (c : mgr) u v, is_treeT c -> good c -> static_csm c -> linked c u v ->
    edge_lcs c (u, v) = Ok (stat (link_pose c u v), false) /\ valid (link_pose c u v) /\ link_pose c v u = rinv (link_pose c u v).
  Proof.
    intros c u v Tr G St (e & He & <- & <-).
    assert (N : NoDup (map ekey (c_edges c))) by exact (tr_edges _ Tr).
    assert (Hd : forall t, In (Edge (e_src e) (e_dst e) (Some t) true) (c_edges c) \/ In (Edge (e_dst e) (e_src e) (Some t) true) (c_edges c) ->
       valid_t t /\ plain t /\ is_time_dependent t = false /\ is_expr t = false).
    { intros t [H|H]; (destruct (G _ t H eq_refl eq_refl) as [W P]; assert (Ds := St _ t H eq_refl eq_refl);
        split; [ exact W | ]; split; [ exact P | ]; split; [ exact Ds | ]; unfold is_time_dependent in Ds; apply orb_false_iff in Ds; apply Ds). }
    assert (F : forall e', In e' (c_edges c) -> find_edge (c_edges c) (e_src e') (e_dst e') = Some e') by (intros; apply find_edge_In; assumption).
    unfold link_pose, edge_lcs. cbn [fst snd].
    destruct (e_def e) eqn:De.
    - destruct (tr_reverse _ Tr e He De) as (t & Et & Hr).
      assert (Ee : Edge (e_src e) (e_dst e) (Some t) true = e) by (destruct e; cbn in *; subst; reflexivity).
      destruct (Hd t) as (W & P & Ds & Ex); [ left; rewrite Ee; exact He | ].
      assert (Fr := F _ Hr). cbn [e_src e_dst] in Fr. rewrite Fr, (F _ He), Et. cbn [e_tr].
      unfold stored_inverse. cbn [l_expr l_inv tlcs_ops]. rewrite Ex.
      rewrite (stat_form t W P Ds) at 4.
      assert (V : valid (posef sl t 0)) by (apply posef_valid; assumption).
      rewrite stat_invert by exact V. rewrite stat_pose.
      split; [ rewrite <- (stat_form t W P Ds); reflexivity | ]. split; [ exact V | reflexivity ].
    - destruct (tr_defined _ Tr e He De) as (t & Ht & Et).
      destruct (Hd t) as (W & P & Ds & Ex); [ right; exact Ht | ].
      assert (Fr := F _ Ht). cbn [e_src e_dst] in Fr. rewrite Fr, (F _ He), Et. cbn [e_tr].
      unfold stored_inverse. cbn [l_expr l_inv tlcs_ops]. rewrite Ex.
      assert (V : valid (posef sl t 0)) by (apply posef_valid; assumption).
      assert (tlcs_invert sl t = Ok (stat (rinv (posef sl t 0)))) as -> by (rewrite (stat_form t W P Ds) at 1; apply stat_invert; exact V).
      rewrite stat_pose. split; [ reflexivity | ]. split; [ apply rinv_valid; exact V | ]. symmetry. apply rinv_rinv. exact V.
  Qed.

  Lemma static_on_edge : forall (c : mgr) u v time tref use, is_treeT c -> good c -> static_csm c -> linked c u v ->
    cs_on_edge sl c (u, v) time tref use = Ok (stat (link_pose c u v)).
  Proof.
    intros c u v time tref use Tr G St H. destruct (static_edge c u v Tr G St H) as (E & _ & _).
    rewrite (cs_on_edge_base sl c (u, v) _ _ _ _ _ E). reflexivity.
  Qed.

  Lemma radd_all_valid : forall xs x, valid x -> Forall valid xs -> valid (radd_all x xs).
  Proof.
    induction xs as [|y xs IH]; intros x V F; [ exact V | ]. inversion F; subst. unfold radd_all in *. cbn [fold_left].
    apply IH; [ apply radd_valid; assumption | assumption ].
  Qed.

  Lemma static_up : forall (c : mgr) time tref es x, is_treeT c -> good c -> static_csm c ->
    Forall (fun e => linked c (fst e) (snd e)) es -> valid x ->
    add_edges_up sl c (stat x) es time tref = Ok (stat (radd_all x (map (fun e => link_pose c (fst e) (snd e)) es))).
  Proof.
    intros c time tref es x Tr G St F. revert x. induction F as [|[u v] es H F IH]; intros x V; [ reflexivity | ].
    cbn [add_edges_up fst snd] in *. rewrite static_on_edge by assumption. cbn [bind].
    destruct (static_edge c u v Tr G St H) as (_ & Vl & _).
    rewrite stat_add by assumption. cbn [bind]. rewrite IH by (apply radd_valid; assumption). reflexivity.
  Qed.

  Lemma static_union : forall (c : mgr) es, is_treeT c -> good c -> static_csm c ->
    Forall (fun e => linked c (fst e) (snd e)) es -> time_union sl c es = Ok None.
  Proof.
    intros c es Tr G St F. unfold time_union.
    assert (edge_systems c es = Ok (map (fun e => stat (link_pose c (fst e) (snd e))) es)) as ->.
    { induction F as [|[u v] es H F IH]; [ reflexivity | ]. cbn [edge_systems fst snd map] in *.
      destruct (static_edge c u v Tr G St H) as (E & _ & _). rewrite E. cbn [bind fst]. rewrite IH. reflexivity. }
    cbn [bind].
    assert (filter (fun l => LcsTimeModel.is_some (lcs_axis l)) (map (fun e => stat (link_pose c (fst e) (snd e))) es) = []) as ->; [ | reflexivity ].
    clear F. induction es as [|e es IH]; [ reflexivity | exact IH ].
  Qed.

  Lemma static_get : forall (c : mgr) a b time tref, is_treeT c -> good c -> static_csm c ->
    In a (cs_names c) -> In b (cs_names c) -> forall p, shortest_path (c_edges c) a b = Some p -> walk (linked c) a p b ->
    exists x, get_cs sl c a (Some b) time tref = Ok (stat x) /\ valid x /\
      x = radd_all rid (map (fun e => link_pose c (fst e) (snd e)) (steps p)).
  Proof.
    intros c a b time tref Tr G St Ha Hb p Sp W.
    assert (F := walk_steps _ _ _ _ W).
    assert (Fv : Forall valid (map (fun e => link_pose c (fst e) (snd e)) (steps p))).
    { apply Forall_map. eapply Forall_impl; [ | exact F ]. intros [u v] H. apply static_edge; assumption. }
    eexists. split; [ | split; [ apply radd_all_valid; [ exact rid_valid | exact Fv ] | reflexivity ] ].
    unfold get_cs. cbn [bind].
    rewrite (proj2 (has_cs_In c a) Ha), (proj2 (has_cs_In c b) Hb). cbn [andb negb].
    destruct (String.eqb a b) eqn:Eab.
    - apply String.eqb_eq in Eab. subst b.
      assert (p = [a]) as ->.
      { apply shortest_path_simple in Sp. destruct Sp as [W' N]. inversion W' as [|? ? ? q H W'']; subst; [ reflexivity | ].
        exfalso. inversion N as [|? ? Nin _]; subst. apply Nin. apply (walk_in_end _ _ _ _ W''). }
      exact (stat_mk rid rid_valid).
    - apply String.eqb_neq in Eab. rewrite Sp, steps_edges.
      assert (exists time' tr, bind (match time with
                | None => bind (time_union sl c (steps p)) (fun t => Ok (t, c_ref c))
                | Some t => Ok (Some t, match tref with None => c_ref c | Some _ => tref end)
                end) (fun x => Ok x) = Ok (time', tr)) as (time' & tr & Etr).
      { destruct time; [ eexists; eexists; reflexivity | ]. rewrite static_union by assumption. eexists; eexists; reflexivity. }
      destruct (match time with
                | None => bind (time_union sl c (steps p)) (fun t => Ok (t, c_ref c))
                | Some t => Ok (Some t, match tref with None => c_ref c | Some _ => tref end)
                end) as [tr'|]; [ | discriminate ]. cbn [bind] in Etr. injection Etr as ->. cbn [bind fst snd].
      assert (Ne := walk_steps_nonempty _ _ _ _ W Eab).
      assert (Hid : forall xs y, radd_all rid (y :: xs) = radd_all y xs) by (intros; unfold radd_all; cbn [fold_left]; rewrite radd_id_l; reflexivity).
      destruct (steps p) as [|[u v] es]; [ contradiction | ]. inversion F as [|? ? H F']; subst. cbn [fst snd map] in *.
      rewrite Hid.
      destruct es as [|e2 es]; [ rewrite static_on_edge by assumption; reflexivity | ].
      rewrite static_on_edge by assumption. cbn [bind]. apply static_up; try assumption. apply static_edge; assumption.
  Qed.

  Lemma static_poses : forall c : mgr, @reachable tlcs D ops c -> good c -> static_csm c ->
    exists P : string -> lcs, (forall n, valid (P n)) /\
      forall a b, In a (cs_names c) -> In b (cs_names c) -> forall time tref,
        get_cs sl c a (Some b) time tref = Ok (stat (radd (P a) (rinv (P b)))).
  Proof.
    intros c Rc G St. assert (Tr := reachable_is_tree c Rc). destruct (reachable_inv c Rc) as [[l Gt] _].
    destruct (grows_potential _ _ (gt_grows _ _ _ _ Gt) (link_pose c)) as (P & VP & HP).
    { intros u v A. apply static_edge; try assumption. apply (gt_adj _ _ _ _ Gt). exact A. }
    { intros u v A. apply static_edge; try assumption. apply (gt_adj _ _ _ _ Gt). exact A. }
    exists P. split; [ exact VP | ]. intros a b Ha Hb time tref.
    destruct (tr_path _ Tr a b Ha Hb) as (p & Sp & _).
    assert (Hsp : shortest_path (c_edges c) a b = Some p).
    { eapply gtree_sp; [ exact Gt | exact Ha | ]. apply (walk_iff _ _ (gt_adj _ _ _ _ Gt)). exact Sp. }
    destruct (static_get c a b time tref Tr G St Ha Hb p Hsp (proj1 Sp)) as (x & -> & Vx & Ex).
    f_equal. f_equal.
    assert (T := telescope (linked c) (link_pose c) P).
    assert (Hl : forall u v, linked c u v -> P u = radd (link_pose c u v) (P v)).
    { intros u v H. apply HP. apply (gt_adj _ _ _ _ Gt). exact H. }
    specialize (T Hl a p b (proj1 Sp) rid). rewrite <- Ex, radd_id_l in T.
    rewrite <- T, radd_assoc, radd_inv_r, radd_id_r by apply VP. reflexivity.
  Qed.
End Pose.
