(** Properties C13, C15, C16, C31 and C77: the transformations returned by
    [CoordinateSystemManager.get_cs]. [sl] is the spherical interpolation of scipy. *)
From Coq Require Import Reals List String ZArith Bool Lia Lra Sorting.Sorted.
From Verif Require Import Base RigidModel RigidSpec RigidFacts InterpModel InterpSpec InterpFacts
  LinModel LinFacts CsmModel CsmSpec TreeFacts CsmGraphFacts CsmTreeFacts CsmSubFacts CsmDataFacts CsmOpFacts CsmHistFacts
  LcsTimeModel LcsTimeSpec LcsTimeFacts CsmGetModel CsmGetSpec CsmGetFacts CsmPathFacts CsmPoseFacts CsmRefFacts
  CsmUnionFacts LcsTimeProps.
Import ListNotations.
Open Scope Z_scope.

(** ** C15 *)
(** every system has an absolute pose, [get_cs] returns the relative ones, whatever
    times are passed *)
Theorem c15_absolute_poses : forall sl (D : Type) (c : csm tlcs D), slerp_ok sl ->
  @reachable tlcs D (tlcs_ops sl) c -> good c -> static_csm c ->
  exists P : string -> lcs, (forall n, valid (P n)) /\
    forall a b time tref, In a (cs_names c) -> In b (cs_names c) ->
      exists l x, get_cs sl c a (Some b) time tref = Ok l /\
        is_time_dependent l = false /\ tl_ref l = None /\ (forall t, pose_at sl l t x) /\ valid x /\
        forall v, lcs_apply (P b) (lcs_apply x v) = lcs_apply (P a) v.
Proof.
  intros sl D c SL R G S. destruct (static_poses sl SL c R G S) as (P & VP & HP). exists P. split; [ exact VP | ].
  intros a b time tref Ha Hb. set (x := radd (P a) (rinv (P b))).
  assert (V : valid x) by (apply radd_valid; [ apply VP | apply rinv_valid, VP ]).
  exists (stat x), x. split; [ apply HP; assumption | ]. split; [ reflexivity | ]. split; [ reflexivity | ].
  split; [ intros t; apply (pose_at_iff sl SL); [ apply stat_valid; exact V | symmetry; apply stat_pose ] | ].
  split; [ exact V | ]. intros v. rewrite <- apply_radd. unfold x.
  rewrite radd_assoc, radd_inv_l, radd_id_r by apply VP. reflexivity.
Qed.
Print Assumptions c15_absolute_poses.

(** the returned systems form a groupoid *)
Theorem c15_algebra : forall sl (D : Type) (c : csm tlcs D), slerp_ok sl ->
  @reachable tlcs D (tlcs_ops sl) c -> good c -> static_csm c ->
  forall a b d, In a (cs_names c) -> In b (cs_names c) -> In d (cs_names c) ->
    exists ab bd ad ba aa, get_cs sl c a (Some b) None None = Ok ab /\ get_cs sl c b (Some d) None None = Ok bd /\
      get_cs sl c a (Some d) None None = Ok ad /\ get_cs sl c b (Some a) None None = Ok ba /\
      get_cs sl c a (Some a) None None = Ok aa /\
      tlcs_add sl ab bd = Ok ad /\ tlcs_invert sl ab = Ok ba /\
      aa = TL (Const mid) (CArr (Const vzero)) None None.
Proof.
  intros sl D c SL R G S a b d Ha Hb Hd. destruct (static_poses sl SL c R G S) as (P & VP & HP).
  assert (V : forall x y, valid (radd (P x) (rinv (P y)))) by (intros; apply radd_valid; [ apply VP | apply rinv_valid, VP ]).
  rewrite !HP by assumption. do 5 eexists. do 5 (split; [ reflexivity | ]).
  split; [ rewrite (stat_add sl SL) by apply V | split; [ rewrite (stat_invert sl SL) by apply V | ] ].
  - do 2 f_equal. rewrite radd_assoc, <- (radd_assoc (rinv (P b))), radd_inv_l, radd_id_l by apply VP. reflexivity.
  - do 2 f_equal. rewrite rinv_radd, rinv_rinv; try apply VP; [ reflexivity | apply rinv_valid, VP ].
  - rewrite radd_inv_r by apply VP. reflexivity.
Qed.
Print Assumptions c15_algebra.

(** ** C16 *)
Theorem c16_transform : forall sl (D : Type) (c : csm tlcs D), slerp_ok sl ->
  @reachable tlcs D (tlcs_ops sl) c -> good c -> static_csm c ->
  forall a b d pts, In a (cs_names c) -> In b (cs_names c) -> In d (cs_names c) ->
    exists qs rs, transform_data sl c pts a b = Ok qs /\ transform_data sl c qs b d = Ok rs /\
      transform_data sl c pts a d = Ok rs /\ transform_data sl c qs b a = Ok pts /\
      List.length qs = List.length pts /\
      forall i j u v u' v', nth_error pts i = Some u -> nth_error pts j = Some v ->
        nth_error qs i = Some u' -> nth_error qs j = Some v' -> dist2 u' v' = dist2 u v.
Proof.
  intros sl D c SL R G S a b d pts Ha Hb Hd. destruct (static_poses sl SL c R G S) as (P & VP & HP).
  assert (V : forall x y, valid (radd (P x) (rinv (P y)))) by (intros; apply radd_valid; [ apply VP | apply rinv_valid, VP ]).
  assert (T : forall x y w, In x (cs_names c) -> In y (cs_names c) ->
    transform_data sl c w x y = Ok (map (lcs_apply (radd (P x) (rinv (P y)))) w)).
  { intros x y w Hx Hy. unfold transform_data. rewrite HP by assumption. reflexivity. }
  assert (C : forall x y z v, lcs_apply (radd (P y) (rinv (P z))) (lcs_apply (radd (P x) (rinv (P y))) v) = lcs_apply (radd (P x) (rinv (P z))) v).
  { intros x y z v. rewrite <- apply_radd. f_equal.
    rewrite radd_assoc, <- (radd_assoc (rinv (P y))), radd_inv_l, radd_id_l by apply VP. reflexivity. }
  rewrite !T by assumption. do 2 eexists. split; [ reflexivity | ].
  rewrite !T by assumption. split; [ reflexivity | ]. rewrite !map_map.
  split; [ f_equal; apply map_ext; intros; symmetry; apply C | ].
  split; [ f_equal; rewrite <- (map_id pts) at 2; apply map_ext; intros v; rewrite C, radd_inv_r by apply VP; apply apply_rid | ].
  split; [ apply map_length | ].
  intros i j u v u' v' Hu Hv Hu' Hv'. rewrite nth_error_map, Hu in Hu'. rewrite nth_error_map, Hv in Hv'.
  cbn [option_map] in *. injection Hu' as <-. injection Hv' as <-. apply apply_dist. apply V.
Qed.
Print Assumptions c16_transform.

(** ** C77 *)
(** At every requested time the returned system is the composition of the stored
    systems along the path, each one at the corresponding moment of its own time. *)
Theorem c77_pointwise : forall sl (D : Type) (c : csm tlcs D) a b rt tref, slerp_ok sl ->
  @reachable tlcs D (tlcs_ops sl) c -> good c ->
  In a (cs_names c) -> In b (cs_names c) -> a <> b ->
  StronglySorted Z.lt (r_times rt) -> r_times rt <> [] ->
  (forall e l, In e (c_edges c) -> e_def e = true -> e_tr e = Some l -> fits c (request_ref c rt tref) l) ->
  exists p l, simple_path (linked c) a p b /\ get_cs sl c a (Some b) (Some rt) tref = Ok l /\ valid_t l /\
    forall t, In t (r_times rt) -> exists xs y,
      Forall2 (edge_pose sl c (request_ref c rt tref) t) (steps p) xs /\
      pose_at sl l (local_time l (request_ref c rt tref) t) y /\
      forall v, lcs_apply y v = apply_all xs v.
Proof.
  intros sl D c a b rt tref SL R G Ha Hb Ne S N F. assert (Tr := reachable_is_tree c R).
  destruct (reachable_path sl c a b R Ha Hb) as (p & Sp & Pp).
  destruct (get_cs_path sl SL c a b rt tref Tr G Ha Hb Ne S N F p Sp Pp) as (l & El & Wl & _ & _ & V).
  exists p, l. split; [ exact Pp | ]. split; [ exact El | ]. split; [ exact Wl | ].
  intros t Ht. destruct (V t Ht) as (xs & H1 & H2 & H3). eauto.
Qed.
Print Assumptions c77_pointwise.

(** Without time the union of the times on the path is used: every time of every
    system on the path and nothing else. *)
Theorem c77_union : forall sl (D : Type) (c : csm tlcs D) a b tref p, slerp_ok sl ->
  @reachable tlcs D (tlcs_ops sl) c -> good c -> In a (cs_names c) -> In b (cs_names c) ->
  simple_path (linked c) a p b ->
  let on_path l := exists e inv, In e (steps p) /\ stored c (fst e) (snd e) l inv in
  (exists l ts, on_path l /\ lcs_axis l = Some ts /\ ts <> []) ->
  c_ref c <> None \/ (forall l, on_path l -> lcs_axis l <> None -> tl_ref l <> None) \/
    (forall e l, In e (c_edges c) -> e_def e = true -> e_tr e = Some l -> tl_ref l = None) ->
  exists rt, get_cs sl c a (Some b) None tref = get_cs sl c a (Some b) (Some rt) None /\
    StronglySorted Z.lt (r_times rt) /\ r_times rt <> [] /\
    (forall l ts u, on_path l -> lcs_axis l = Some ts -> In u ts ->
       exists t, In t (r_times rt) /\ edge_time c (r_ref rt) l t = u) /\
    (forall t, In t (r_times rt) ->
       exists l ts, on_path l /\ lcs_axis l = Some ts /\ In (edge_time c (r_ref rt) l t) ts).
Proof.
  intros sl D c a b tref p SL R G Ha Hb Pp on_path Hex Hc. assert (Tr := reachable_is_tree c R).
  destruct (reachable_path sl c a b R Ha Hb) as (p' & Sp & Pp').
  destruct (tr_path _ Tr a b Ha Hb) as (p0 & _ & U). assert (p' = p) as -> by (rewrite (U p'), (U p); auto). clear p0 U Pp'.
  destruct (path_list sl SL c (steps p) Tr G (walk_steps _ _ _ _ (proj1 Pp))) as (ls & Els & Hls).
  destruct (time_union_ok sl c (steps p) ls Els) as (rt & Eu & S & N & _ & H1 & H2).
  - destruct Hex as (l & ts & Hl & Ht & Hn). exists l. destruct ts as [|u ts]; [ contradiction | ]. exists u.
    split; [ apply Hls; exact Hl | ]. unfold axis_or. rewrite Ht. left. reflexivity.
  - destruct Hc as [Hc|[Hc|Hc]]; [ left; exact Hc | right; left; intros l Hl; apply Hc, Hls, Hl | ].
    destruct (c_ref c) eqn:Rc; [ left; discriminate | right; right ]. split.
    + intros l Hl _. apply Hls in Hl. destruct Hl as (e & inv & _ & Hs). eapply (stored_refs sl SL c); eassumption.
    + apply no_refs; assumption.
  - exists rt. split; [ eapply get_cs_union; eassumption | ]. split; [ exact S | ]. split; [ exact N | ]. split.
    + intros l ts u Hl Ht Hu. apply H1; [ apply Hls; exact Hl | ]. unfold axis_or. rewrite Ht. exact Hu.
    + intros t Ht. destruct (H2 t Ht) as (l & Hl & Hu). unfold axis_or in Hu. destruct (lcs_axis l) as [ts|] eqn:Q; [ | destruct Hu ].
      exists l, ts. split; [ apply Hls; exact Hl | ]. auto.
Qed.
Print Assumptions c77_union.

(** ** C13 *)
(** Both directions of an edge are inverse at the times of the system, outside of
    them, and everywhere for constant orientations and expressions. *)
Theorem c13_inverse : forall sl (D : Type) (c : csm tlcs D) a b l rt tref, slerp_ok sl ->
  @reachable tlcs D (tlcs_ops sl) c -> good c ->
  In (Edge a b (Some l) true) (c_edges c) ->
  StronglySorted Z.lt (r_times rt) -> r_times rt <> [] ->
  (forall e l, In e (c_edges c) -> e_def e = true -> e_tr e = Some l -> fits c (request_ref c rt tref) l) ->
  exists ab ba, get_cs sl c a (Some b) (Some rt) tref = Ok ab /\ get_cs sl c b (Some a) (Some rt) tref = Ok ba /\
    forall t x y, In t (r_times rt) -> inverse_exact l (edge_time c (request_ref c rt tref) l t) ->
      pose_at sl ab (local_time ab (request_ref c rt tref) t) x ->
      pose_at sl ba (local_time ba (request_ref c rt tref) t) y ->
      forall v, lcs_apply y (lcs_apply x v) = v /\ lcs_apply x (lcs_apply y v) = v.
Proof.
  intros sl D c a b l rt tref SL R G He S N F. assert (Tr := reachable_is_tree c R).
  destruct (edge_both sl SL c a b l rt tref R G He S N F) as (ab & ba & E1 & E2 & W1 & W2 & H).
  exists ab, ba. split; [ exact E1 | ]. split; [ exact E2 | ]. intros t x y Ht Hx Px Py v.
  destruct (H t Ht) as (x' & y' & P1 & P2 & A1 & A2).
  apply (pose_at_iff sl SL) in Px; [ | exact W1 ]. apply (pose_at_iff sl SL) in Py; [ | exact W2 ]. subst x y.
  rewrite !A1, !A2. eapply edge_directions; eassumption.
Qed.
Print Assumptions c13_inverse.

(** ** Examples *)
(** b in a in r *)
Definition chain (sl : segment mat) (ref : option Z) (la lb : tlcs) : csm tlcs unit :=
  @run_ops tlcs unit (tlcs_ops sl) (new_csm "r" "m" ref) [OAdd "a" "r" la true; OAdd "b" "a" lb true].
Definition single (sl : segment mat) (ref : option Z) (l : tlcs) : csm tlcs unit :=
  @run_ops tlcs unit (tlcs_ops sl) (new_csm "r" "m" ref) [OAdd "a" "r" l true].

Example ex_chain_reachable : forall sl ref la lb, @reachable tlcs unit (tlcs_ops sl) (chain sl ref la lb).
Proof. intros. apply run_ops_reachable; [ apply r_new | ]. cbn [In]. intuition (subst; discriminate). Qed.
Example ex_single_reachable : forall sl ref l, @reachable tlcs unit (tlcs_ops sl) (single sl ref l).
Proof. intros. apply run_ops_reachable; [ apply r_new | ]. cbn [In]. intuition (subst; discriminate). Qed.

(** two steps to the left: the pose of b in r is known *)
Definition far : tlcs := TL (Const mid) (CArr (Const (V 3 0 0))) None None.

Example c15_ex : forall sl, slerp_ok sl -> let c := chain sl None far shifted in
  good c /\ static_csm c /\ cs_names c = ["r"; "a"; "b"]%string /\
  exists l, get_cs sl c "b" (Some "r") None None = Ok l /\ pose_at sl l 0 (Lcs mid (V 3 1 0)) /\
    transform_data sl c [V 1 1 1] "b" "r" = Ok [V 4 2 1].
Proof.
  intros sl SL c. assert (E : forall x y o, mk_tlcs sl (Const mid) (CArr (Const (V x y o))) None None = Ok (TL (Const mid) (CArr (Const (V x y o))) None None)).
  { intros x y o. rewrite mk_tlcs_ok; [ reflexivity | | exact I ]. intros m ->. exact orthonormal_mid. }
  assert (Q : get_cs sl c "b" (Some "r") None None = Ok (TL (Const mid) (CArr (Const (V (0+3) (1+0) (0+0)))) None None)).
  { transitivity (tlcs_add sl shifted far); [ | ].
    { change (get_cs sl c "b" (Some "r") None None) with (bind (tlcs_add sl shifted far) (fun s => Ok s)). destruct (tlcs_add sl shifted far); reflexivity. }
    unfold tlcs_add. cbn [is_expr shifted far tl_pos orb tl_ref lcs_axis tl_ori tl_at interp_time bind amap2 amap merge_at].
    replace (mmul mid mid) with mid by mring. replace (vadd (mvec mid (V 0 1 0)) (V 3 0 0)) with (V (0+3) (1+0) (0+0)) by mring. apply E. }
  assert (W : valid_t shifted /\ valid_t far).
  { split; (constructor; cbn; [ exact I | exact I | intros m ->; exact orthonormal_mid | exact I | reflexivity | reflexivity ]). }
  split; [ | split; [ | split; [ reflexivity | ] ] ].
  - intros e l He De El. cbn in He. destruct He as [<-|[<-|[<-|[<-|[]]]]]; cbn in De, El; try discriminate; injection El as <-;
      (split; [ apply W | split; [ reflexivity | discriminate ] ]).
  - intros e l He De El. cbn in He. destruct He as [<-|[<-|[<-|[<-|[]]]]]; cbn in De, El; try discriminate; injection El as <-; reflexivity.
  - eexists. split; [ exact Q | ]. split.
    + split; [ reflexivity | ]. cbn. f_equal; lra.
    + unfold transform_data. rewrite Q. cbn [bind tl_ori tl_pos map]. do 2 f_equal. unfold vadd, mvec, mid. cbn. f_equal; lra.
Qed.

(** ** C77, an example *)
Ltac edges He De El :=
  cbn in He; repeat (destruct He as [<- | He]; [ cbn in De, El; first [ discriminate De | injection El as <- ] | ]); [ .. | destruct He ].

Example c77_ex : forall sl, slerp_ok sl -> let c := chain sl None (moving_abs 7) shifted in
  exists l, get_cs sl c "b" (Some "r") (Some (RT [1; 2] (Some 6))) None = Ok l /\
    exists y, pose_at sl l (local_time l (Some 6) 2) y /\ lcs_apply y vzero = V 1 1 0.
Proof.
  intros sl SL c. destruct ex_valid as (_ & Wm & Ws & _).
  assert (G : good c).
  { intros e l He De El. edges He De El; (split; [ assumption | split; [ reflexivity | discriminate ] ]). }
  destruct (c77_pointwise sl unit c "b" "r" (RT [1; 2] (Some 6)) None SL (ex_chain_reachable _ _ _ _) G)
    as (p & l & Pp & El & Wl & Hv).
  - cbn. auto.
  - cbn. auto.
  - discriminate.
  - repeat constructor; lia.
  - discriminate.
  - intros e l He De El. edges He De El; intros T; [ | discriminate ].
    right. cbn. split; intros; discriminate.
  - exists l. split; [ exact El | ]. destruct (Hv 2 (or_intror (or_introl eq_refl))) as (xs & y & F & Py & A).
    exists y. split; [ exact Py | ]. rewrite A.
    assert (p = ["b"; "a"; "r"]%string) as ->.
    { destruct (tr_path _ (reachable_is_tree c (ex_chain_reachable _ _ _ _)) "b"%string "r"%string) as (q & _ & U); [ cbn; auto | cbn; auto | ].
      rewrite (U p Pp). symmetry. apply U. split; [ | repeat constructor; cbn; intuition discriminate ].
      apply walk_step with "a"%string; [ | apply walk_step with "r"%string; [ | apply walk_one ] ].
      - exists (Edge "b" "a" (Some shifted) true). cbn. auto 9.
      - exists (Edge "a" "r" (Some (moving_abs 7)) true). cbn. auto 9. }
    cbn [steps] in F. inversion F as [|? x1 ? ? H1 F']; subst. inversion F' as [|? x2 ? ? H2 F'']; subst. inversion F''; subst. clear F F' F''.
    assert (x1 = Lcs mid (V 0 1 0)) as ->.
    { destruct H1 as (m & inv & z & S & P & Q). cbn [fst snd] in S. destruct inv.
      - destruct S as ((d & S) & _). cbn in S. intuition discriminate.
      - destruct S as (d & S). assert (m = shifted) as -> by (cbn in S; intuition congruence).
        apply (pose_at_iff sl SL) in P; [ | assumption ]. subst. reflexivity. }
    assert (x2 = Lcs mid (V 1 0 0)) as ->.
    { destruct H2 as (m & inv & z & S & P & Q). cbn [fst snd] in S. destruct inv.
      - destruct S as ((d & S) & _). cbn in S. intuition discriminate.
      - destruct S as (d & S). assert (m = moving_abs 7) as -> by (cbn in S; intuition congruence).
        apply (pose_at_iff sl SL) in P; [ | assumption ]. subst. unfold posef. cbn. f_equal. unfold lin_vec, lin. cbn. f_equal; lra. }
    unfold apply_all, lcs_apply, vadd, mvec, mid, vzero. cbn [fold_left l_ori l_pos vx vy vz m00 m01 m02 m10 m11 m12 m20 m21 m22]. f_equal; lra.
Qed.

(** ** C13, between the times of a system that rotates *)
(** a quarter turn in 2 steps, at a constant distance *)
Definition rz90 : mat := M 0 (-1) 0 1 0 0 0 0 1.
Definition turning : tlcs := TL (Ser [(0, mid); (2, rz90)]) (CArr (Const (V 1 0 0))) None None.

Example turning_valid : valid_t turning /\ plain turning.
Proof.
  split; [ | split; [ reflexivity | discriminate ] ].
  constructor; cbn; [ | exact I | | exact I | reflexivity | discriminate ].
  - cbn. split; [ lia | exact I ].
  - intros m (t & [H|[H|[]]]); injection H as _ <-; [ exact orthonormal_mid | ]. apply orthonormal_iff; unfold rz90; mring.
Qed.

Theorem c13_between_refuted : forall sl, slerp_ok sl ->
  exists (c : csm tlcs unit) ab ba x y, @reachable tlcs unit (tlcs_ops sl) c /\ good c /\
    get_cs sl c "a" (Some "r") (Some (RT [1] None)) None = Ok ab /\ pose_at sl ab 1 x /\
    get_cs sl c "r" (Some "a") (Some (RT [1] None)) None = Ok ba /\ pose_at sl ba 1 y /\
    lcs_apply y (lcs_apply x vzero) <> vzero.
Proof.
  intros sl SL. destruct turning_valid as [W P]. set (c := single sl None turning).
  assert (R : @reachable tlcs unit (tlcs_ops sl) c) by apply ex_single_reachable.
  assert (G : good c) by (intros e l He De El; edges He De El; auto).
  destruct (edge_both sl SL c "a" "r" turning (RT [1] None) None R G) as (ab & ba & E1 & E2 & W1 & W2 & H).
  { cbn. auto. } { repeat constructor. } { discriminate. }
  { intros e l He De El. edges He De El. intros _. right. cbn. tauto. }
  destruct (H 1 (or_introl eq_refl)) as (x & y & P1 & P2 & A1 & A2). cbn [request_ref r_ref c_ref] in *.
  exists c, ab, ba, (posef sl ab 1), (posef sl ba 1).
  assert (L : forall l, local_time l None 1 = 1) by (intros l; unfold local_time; destruct (tl_ref l); reflexivity).
  change (c_ref c) with (@None Z) in *. rewrite L in A1, A2.
  split; [ exact R | ]. split; [ exact G | ]. split; [ exact E1 | ].
  split; [ apply (pose_at_iff sl SL); auto | ]. split; [ exact E2 | ].
  split; [ apply (pose_at_iff sl SL); auto | ]. rewrite A1, A2.
  assert (X : lcs_apply x vzero = V 1 0 0).
  { destruct P1 as (m & inv & z & S & Q & Z0). cbn [fst snd] in S. destruct inv; [ destruct S as ((d & S) & _); cbn in S; intuition discriminate | ].
    destruct S as (d & S). assert (m = turning) as -> by (cbn in S; intuition congruence). subst x.
    destruct Q as [_ Q]. cbn in Q. unfold lcs_apply. rewrite Q. unfold vadd, mvec, vzero. cbn [vx vy vz]. f_equal; ring. }
  assert (Y : valid y /\ l_pos y = V (-1/2) (1/2) 0).
  { destruct P2 as (m & inv & z & S & Q & Z0). cbn [fst snd] in S. destruct inv; [ destruct S as ((d & S) & _); cbn in S; intuition discriminate | ].
    destruct S as (d & S). destruct (invert_good sl SL turning W P eq_refl) as (i & Ei & Wi & _ & _ & _ & Ri & _ & _).
    assert (m = i) as ->.
    { change (c_edges c) with [Edge "a" "r" (Some turning) true;
        Edge "r" "a" (Some (match tlcs_invert sl turning with Ok i => i | Err _ => turning end)) false] in S.
      rewrite Ei in S. cbn [In] in S. intuition congruence. }
    subst z. apply (pose_at_iff sl SL) in Q; [ | exact Wi ]. subst y. split; [ apply (posef_valid sl SL); exact Wi | ].
    assert (edge_time c None i 1 = 1) as -> by reflexivity.
    unfold tlcs_invert in Ei. cbn [turning tl_pos tl_ori amap2 amap bind map_ser map fst snd] in Ei. rewrite mk_tlcs_ok in Ei.
    - injection Ei as <-. unfold posef. cbn. unfold lin_vec, lin, mvec, mtrans, vscale. cbn. f_equal; lra.
    - intros m (t & [Hm|[Hm|[]]]); injection Hm as _ <-; [ apply orthonormal_iff; mring | apply orthonormal_iff; unfold rz90; mring ].
    - reflexivity. }
  destruct Y as [Vy E]. rewrite X. intros Z0.
  assert (N := apply_dist y (V 1 0 0) vzero Vy). rewrite Z0 in N.
  unfold lcs_apply in N. rewrite E in N. unfold dist2, vadd, mvec, vzero in N. cbn in N. lra.
Qed.
Print Assumptions c13_between_refuted.

(** ** C31 *)
(** With at least two times: the reference time passed to the function, else the one
    of the manager, else (more than one edge) the one of the passed time. *)
Theorem c31_time_given : forall sl (D : Type) (c : csm tlcs D) a b rt tref l, slerp_ok sl ->
  @reachable tlcs D (tlcs_ops sl) c -> good c ->
  In a (cs_names c) -> In b (cs_names c) -> a <> b ->
  StronglySorted Z.lt (r_times rt) -> r_times rt <> [] -> (forall t, r_times rt <> [t]) ->
  (forall e l, In e (c_edges c) -> e_def e = true -> e_tr e = Some l -> fits c (request_ref c rt tref) l) ->
  tref <> None \/ c_ref c <> None \/ ~ linked c a b ->
  get_cs sl c a (Some b) (Some rt) tref = Ok l -> lcs_axis l <> None ->
  tl_ref l = match tref, c_ref c with Some r, _ => Some r | None, Some r => Some r | None, None => r_ref rt end.
Proof.
  intros sl D c a b rt tref l SL R G Ha Hb Ne S N N1 F H E A. assert (Tr := reachable_is_tree c R).
  destruct (reachable_path sl c a b R Ha Hb) as (p & Sp & Pp).
  rewrite (get_cs_ref sl SL c a b rt tref Tr G Ha Hb Ne S N N1 F p Sp Pp); [ | | exact E | exact A ].
  - unfold eff_ref. destruct tref; [ reflexivity | ]. destruct (c_ref c); reflexivity.
  - unfold eff_ref. destruct tref as [r|]; [ left; eauto | ]. destruct (c_ref c) as [r|]; [ left; eauto | ].
    right. destruct H as [H|[H|H]]; try contradiction. intros L. apply H. destruct Pp as [W _].
    destruct p as [|u [|v [|]]]; try discriminate. inversion W; subst.
    match goal with K : walk _ _ [v] _ |- _ => inversion K; subst; [ assumption | ] end.
    match goal with K : walk _ _ [] _ |- _ => inversion K end.
Qed.
Print Assumptions c31_time_given.

(** Without time the passed reference time is ignored and the one of the manager is used. *)
Theorem c31_time_union : forall sl (D : Type) (c : csm tlcs D) a b p tref r l, slerp_ok sl ->
  @reachable tlcs D (tlcs_ops sl) c -> good c -> c_ref c = Some r ->
  In a (cs_names c) -> In b (cs_names c) -> a <> b -> simple_path (linked c) a p b ->
  (exists e inv s ts u v, In e (steps p) /\ stored c (fst e) (snd e) s inv /\ lcs_axis s = Some ts /\
     In u ts /\ In v ts /\ u <> v) ->
  get_cs sl c a (Some b) None tref = Ok l -> lcs_axis l <> None -> tl_ref l = Some r.
Proof.
  intros sl D c a b p tref r l SL R G Rc Ha Hb Ne Pp (e & inv & s & ts & u & v & He & Hs & Ht & Hu & Hv & Huv) E A.
  destruct (c77_union sl D c a b tref p SL R G Ha Hb Pp) as (rt & E' & S & N & H1 & _).
  - exists s, ts. split; [ eauto | ]. split; [ exact Ht | ]. intros ->. destruct Hu.
  - left. congruence.
  - rewrite E' in E. rewrite (c31_time_given sl D c a b rt None l SL R G Ha Hb Ne S N); auto.
    + rewrite Rc. reflexivity.
    + intros t Q. destruct (H1 s ts u) as (t1 & I1 & <-); eauto. destruct (H1 s ts v) as (t2 & I2 & <-); eauto.
      rewrite Q in I1, I2. destruct I1 as [<-|[]]. destruct I2 as [<-|[]]. contradiction.
    + intros e' l' _ _ _ _. left. congruence.
    + right. left. congruence.
Qed.
Print Assumptions c31_time_union.

(** A mix of dates and deltas is an error. *)
Theorem c31_mismatch : forall sl (D : Type) (c : csm tlcs D) a b l rt tref, slerp_ok sl ->
  @reachable tlcs D (tlcs_ops sl) c -> good c -> c_ref c = None ->
  In (Edge a b (Some l) true) (c_edges c) -> is_time_dependent l = true -> tl_ref l = None ->
  request_ref c rt tref <> None ->
  get_cs sl c a (Some b) (Some rt) tref = Err TypeError.
Proof.
  intros sl D c a b l rt tref SL R G Rc He T Rl Q. assert (Tr := reachable_is_tree c R).
  destruct (tr_ends _ Tr _ He) as [Ha Hb]. cbn [e_src e_dst] in *.
  assert (Lab : linked c a b) by (eexists; split; [ exact He | auto ]).
  assert (Ne : a <> b) by (eapply linked_neq; eassumption).
  destruct (reachable_path sl c a b R Ha Hb) as (p & Sp & Pp).
  assert (P1 : simple_path (linked c) a [a; b] b).
  { split; [ econstructor; [ exact Lab | constructor ] | ]. repeat constructor; cbn; intuition. }
  destruct (tr_path _ Tr a b Ha Hb) as (p0 & _ & U). assert (p = [a; b]) as -> by (rewrite (U p), (U [a; b]); auto).
  rewrite (get_cs_unfold sl c a b [a; b] rt tref Ha Hb Ne Sp). cbn [steps].
  assert (El := stored_edge c a b l false (tr_edges _ Tr) (ex_intro _ true He)).
  unfold cs_on_edge. rewrite El. cbn [bind fst snd]. rewrite T, Rl, Rc. unfold eff_ref. rewrite Rc. unfold interp_time. cbn [option_map].
  rewrite T, Rl. cbn [negb LcsTimeModel.is_some]. unfold request_ref in Q. rewrite Rc in Q.
  destruct rt as [ts [r|]], tref as [r'|]; cbn [with_ref r_ref r_times LcsTimeModel.is_some negb Bool.eqb] in *; try reflexivity.
  congruence.
Qed.
Print Assumptions c31_mismatch.

(** Deltas without reference time do not get the lowest reference time of the
    systems: it is an error. *)
Theorem c31_deltas_refuted : forall sl, slerp_ok sl ->
  exists (c : csm tlcs unit) a b rt, @reachable tlcs unit (tlcs_ops sl) c /\ good c /\
    c_ref c = None /\ (exists l, In l (@lcs_time_dependent tlcs unit (tlcs_ops sl) c)) /\
    (forall l, In l (@lcs_time_dependent tlcs unit (tlcs_ops sl) c) -> tl_ref l <> None) /\
    In a (cs_names c) /\ In b (cs_names c) /\ r_ref rt = None /\ r_times rt = [0; 1] /\
    get_cs sl c a (Some b) (Some rt) None = Err TypeError.
Proof.
  intros sl SL. exists (chain sl None (moving_abs 7) shifted), "b"%string, "r"%string, (RT [0; 1] None).
  destruct ex_valid as (_ & Wm & Ws & _).
  split; [ apply ex_chain_reachable | ]. split.
  { intros e l He De El. edges He De El; (split; [ assumption | split; [ reflexivity | discriminate ] ]). }
  split; [ reflexivity | ]. split; [ exists (moving_abs 7); cbn; auto | ].
  split; [ cbn; intros l [<-|[]]; discriminate | ].
  split; [ cbn; auto | ]. split; [ cbn; auto | ]. split; [ reflexivity | ]. split; [ reflexivity | ]. reflexivity.
Qed.
Print Assumptions c31_deltas_refuted.

(** moves between the times 7 and 8 of its reference time 50 *)
Definition late : tlcs := TL (Const mid) (CArr (Ser [(7, vzero); (8, V 1 0 0)])) None (Some 50).

(** Without time the result refers to the first time of all systems, not to the
    lowest reference time. *)
Theorem c31_lowest_refuted : forall sl, slerp_ok sl ->
  exists (c : csm tlcs unit) a b l, @reachable tlcs unit (tlcs_ops sl) c /\ good c /\
    c_ref c = None /\ (forall l, In l (@lcs_time_dependent tlcs unit (tlcs_ops sl) c) <-> l = late) /\
    get_cs sl c a (Some b) None None = Ok l /\ tl_ref l = Some 57.
Proof.
  intros sl SL. set (c := chain sl None far late). exists c, "b"%string, "r"%string.
  assert (Wl : valid_t late).
  { constructor; cbn; [ exact I | split; [ lia | exact I ] | intros m ->; exact orthonormal_mid | exact I | reflexivity | discriminate ]. }
  assert (Wf : valid_t far).
  { constructor; cbn; [ exact I | exact I | intros m ->; exact orthonormal_mid | exact I | reflexivity | reflexivity ]. }
  assert (R : @reachable tlcs unit (tlcs_ops sl) c) by apply ex_chain_reachable.
  assert (G : good c).
  { intros e l He De El. edges He De El; (split; [ assumption | split; [ reflexivity | discriminate ] ]). }
  assert (E : get_cs sl c "b" (Some "r"%string) None None = get_cs sl c "b" (Some "r"%string) (Some (RT [0; 1] (Some 57))) None).
  { apply (get_cs_union sl c "b" "r" None ["b"; "a"; "r"]%string); reflexivity. }
  assert (Ha : In "b"%string (cs_names c)) by (cbn; auto). assert (Hb : In "r"%string (cs_names c)) by (cbn; auto).
  assert (Ne : "b"%string <> "r"%string) by discriminate.
  assert (S : StronglySorted Z.lt [0; 1]) by (repeat constructor; lia).
  assert (F : forall e l, In e (c_edges c) -> e_def e = true -> e_tr e = Some l -> fits c (Some 57) l).
  { intros e l He De El. edges He De El; intros T; [ discriminate | ]. right. cbn. split; intros; discriminate. }
  assert (Pp : simple_path (linked c) "b" ["b"; "a"; "r"]%string "r").
  { split; [ | repeat constructor; cbn; intuition discriminate ].
    apply walk_step with "a"%string; [ | apply walk_step with "r"%string; [ | apply walk_one ] ].
    - exists (Edge "b" "a" (Some late) true). cbn. auto 9.
    - exists (Edge "a" "r" (Some far) true). cbn. auto 9. }
  destruct (get_cs_path sl SL c "b" "r" (RT [0; 1] (Some 57)) None (reachable_is_tree c R) G Ha Hb Ne S ltac:(discriminate) F
              ["b"; "a"; "r"]%string eq_refl Pp) as (l & El & Wl' & Xl & _ & Hp).
  exists l. split; [ exact R | ]. split; [ exact G | ]. split; [ reflexivity | ].
  split; [ intros l'; cbn; split; [ intros [<-|[]]; reflexivity | auto ] | ].
  split; [ rewrite E; exact El | ].
  apply (c31_time_given sl unit c "b" "r" (RT [0; 1] (Some 57)) None l SL R G Ha Hb Ne S); auto; [ discriminate | discriminate | | ].
  - right. right. intros (e & He & H1 & H2). cbn in He. intuition (subst; discriminate).
  - (* the poses at both times differ *)
    intros A.
    assert (K : forall t, In t [0; 1] -> lcs_apply (posef sl l (local_time l (Some 57) t)) vzero = V (IZR t + 3) 0 0).
    { intros t Ht. destruct (Hp t Ht) as (xs & Fx & _ & Ax). rewrite Ax. cbn [steps] in Fx.
      inversion Fx as [|? x1 ? ? H1 F']; subst. inversion F' as [|? x2 ? ? H2 F'']; subst. inversion F''; subst. clear Fx F' F''.
      assert (x1 = Lcs mid (V (IZR t) 0 0)) as ->.
      { destruct H1 as (m & inv & z & S1 & P & Q). cbn [fst snd] in S1. destruct inv.
        - destruct S1 as ((d & S1) & _). cbn in S1. intuition discriminate.
        - destruct S1 as (d & S1). assert (m = late) as -> by (cbn in S1; intuition congruence).
          apply (pose_at_iff sl SL) in P; [ | assumption ]. subst. unfold posef.
          destruct Ht as [<-|[<-|[]]]; [ reflexivity | ]. cbn. f_equal. unfold lin_vec, lin. cbn. f_equal; lra. }
      assert (x2 = Lcs mid (V 3 0 0)) as ->.
      { destruct H2 as (m & inv & z & S1 & P & Q). cbn [fst snd] in S1. destruct inv.
        - destruct S1 as ((d & S1) & _). cbn in S1. intuition discriminate.
        - destruct S1 as (d & S1). assert (m = far) as -> by (cbn in S1; intuition congruence).
          apply (pose_at_iff sl SL) in P; [ | assumption ]. subst. reflexivity. }
      unfold apply_all, lcs_apply, vadd, mvec, mid, vzero. cbn [fold_left l_ori l_pos vx vy vz m00 m01 m02 m10 m11 m12 m20 m21 m22]. f_equal; ring. }
    assert (K0 := K 0 (or_introl eq_refl)). assert (K1 := K 1 (or_intror (or_introl eq_refl))).
    assert (Q : forall t t', posef sl l t = posef sl l t').
    { intros t t'. unfold lcs_axis in A. unfold is_expr in Xl. unfold posef. destruct (tl_ori l) as [o|s], (tl_pos l) as [[q|s']|f]; try discriminate. reflexivity. }
    rewrite (Q _ (local_time l (Some 57) 1)), K1 in K0. injection K0 as K0. lra.
Qed.
Print Assumptions c31_lowest_refuted.
