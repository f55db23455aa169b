(** [get_cs] on the path between two systems. *)
From Coq Require Import Reals List String ZArith Bool Lia Sorting.Sorted.
From Verif Require Import Base RigidModel RigidSpec RigidFacts InterpModel InterpSpec InterpFacts
  LinModel LinFacts CsmModel CsmSpec TreeFacts CsmGraphFacts CsmTreeFacts CsmSubFacts CsmDataFacts CsmOpFacts CsmHistFacts
  LcsTimeModel LcsTimeSpec LcsTimeFacts CsmGetModel CsmGetSpec CsmGetFacts.
Import ListNotations.
Open Scope Z_scope.

Section Path.
  Context (sl : segment mat) (SL : slerp_ok sl) {D : Type}.
  Notation mgr := (csm tlcs D).
  Notation ops := (tlcs_ops sl).
  Notation is_treeT := (@is_tree tlcs D ops).

  (** ** The stored systems *)
  Lemma invert_ori : forall l i, valid_t l -> tlcs_invert sl l = Ok i -> tl_ori i = amap mtrans (tl_ori l).
  Proof.
    intros l i W E. unfold tlcs_invert in E. destruct (tl_pos l) as [p|] eqn:Ep; [ | discriminate ].
    assert (Kp : arr_ok p) by (assert (Q := vt_pos _ W); rewrite Ep in Q; exact Q).
    destruct (amap2_ok _ _ _ (fun o v => mvec (mtrans o) (vscale (-1) v)) sl lin_vec lin_vec mid vzero vzero (tl_ori l) p
               (so_exact _ SL) lin_vec_exact lin_vec_exact (vt_ori _ W) Kp (tl_axes _ _ W Ep))
      as (q & Eq & Kq & Aq & _ & _).
    rewrite Eq in E. cbn [bind] in E. rewrite mk_tlcs_ok in E; [ injection E as <-; reflexivity | | ].
    - destruct (amap_mtrans sl SL (tl_ori l) (vt_ori _ W)) as (_ & _ & Oo & _).
      intros m Hm. apply Oo in Hm. destruct Hm as (m' & Hm & ->). apply orthonormal_trans, (vt_orth _ W), Hm.
    - destruct (tl_ori l) as [m|s]; [ exact I | ]. cbn [amap]. destruct q as [|s']; [ exact I | ].
      cbn in Aq. rewrite map_ser_times. injection Aq as <-. reflexivity.
  Qed.

  Lemma invert_good : forall l, valid_t l -> plain l -> is_expr l = false ->
    exists i, tlcs_invert sl l = Ok i /\ valid_t i /\ plain i /\ is_expr i = false /\ lcs_axis i = lcs_axis l /\
      tl_ref i = tl_ref l /\ has_axis i = has_axis l /\ (forall t, on_axis l t -> posef sl i t = rinv (posef sl l t)).
  Proof.
    intros l W P E. destruct (tlcs_invert_ok sl SL l W E) as (i & Ei & Wi & Xi & Li & Ri & [Ai Hi] & Pi).
    exists i. split; [ assumption | ]. split; [ assumption | ]. split.
    - destruct P as [P1 P2]. split; [ congruence | ]. intros p Hp. rewrite (invert_ori l i W Ei) in Hp.
      destruct (tl_ori l) as [m|s] eqn:Es; [ discriminate | ]. cbn in Hp. injection Hp as Hp.
      destruct s as [|x [|y s]]; try discriminate. exact (P2 x eq_refl).
    - auto 10.
  Qed.

  (** what the manager finds on an edge *)
  Lemma edge_lcs_ok : forall (c : mgr) u v, is_treeT c -> good c -> linked c u v ->
    exists l inv, edge_lcs c (u, v) = Ok (l, inv) /\ stored c u v l inv /\ valid_t l /\ plain l /\
      (inv = true -> is_expr l = true) /\
      (exists l0 u' v', In (Edge u' v' (Some l0) true) (c_edges c) /\ is_time_dependent l = is_time_dependent l0 /\ tl_ref l = tl_ref l0).
  Proof.
    intros c u v Tr G (e & He & <- & <-).
    assert (N : NoDup (map ekey (c_edges c))) by exact (tr_edges _ Tr).
    unfold edge_lcs. cbn [fst snd]. rewrite (find_edge_In _ _ N He).
    destruct (e_def e) eqn:De.
    - destruct (tr_reverse _ Tr e He De) as (t & Et & _). rewrite Et. destruct (G e t He De Et) as [W P].
      assert (Ee : Edge (e_src e) (e_dst e) (Some t) true = e) by (destruct e; cbn in *; subst; reflexivity).
      exists t, false. split; [ reflexivity | ]. split; [ exists true; rewrite Ee; exact He | ]. split; [ exact W | ]. split; [ exact P | ].
      split; [ discriminate | ]. exists t, (e_src e), (e_dst e). rewrite Ee. auto.
    - destruct (tr_defined _ Tr e He De) as (t & Ht & Et).
      destruct (G _ t Ht eq_refl eq_refl) as [W P]. unfold stored_inverse in Et. cbn [l_expr tlcs_ops] in Et.
      destruct (is_expr t) eqn:Ex.
      + rewrite Et. assert (F := find_edge_In _ _ N Ht). cbn [e_src e_dst] in F. rewrite F. cbn [e_tr].
        exists t, true. split; [ reflexivity | ]. split.
        { split; [ | exists true; exact Ht ]. exists false. destruct e; cbn in *; subst; exact He. }
        split; [ exact W | ]. split; [ exact P | ]. split; [ auto | ]. exists t, (e_dst e), (e_src e). auto.
      + cbn [l_inv tlcs_ops] in Et. destruct (invert_good t W P Ex) as (i & Ei & Wi & Pi & Xi & Li & Ri & Hi & _).
        rewrite Ei in Et. rewrite Et. exists i, false. split; [ reflexivity | ]. split.
        { exists false. destruct e; cbn in *; subst; exact He. }
        split; [ exact Wi | ]. split; [ exact Pi | ]. split; [ discriminate | ].
        exists t, (e_dst e), (e_src e). split; [ exact Ht | ]. split; [ | exact Ri ].
        rewrite !dep_axis by assumption. exact Hi.
  Qed.

  Lemma steps_edges : forall p, path_edges p = steps p.
  Proof. intros p. reflexivity. Qed.

  Lemma walk_steps : forall (R : string -> string -> Prop) a p b, walk R a p b -> Forall (fun e => R (fst e) (snd e)) (steps p).
  Proof.
    intros R a p b W. induction W as [|a b c p H W IH]; [ constructor | ].
    destruct (walk_head _ _ _ _ W) as [q ->]. cbn [steps]. constructor; assumption.
  Qed.

  Lemma walk_steps_nonempty : forall (R : string -> string -> Prop) a p b, walk R a p b -> a <> b -> steps p <> [].
  Proof.
    intros R a p b W Ne. destruct W as [|a b c p H W]; [ contradiction | ].
    destruct (walk_head _ _ _ _ W) as [q ->]. discriminate.
  Qed.

  Definition edge_good (c : mgr) (R : option Z) (e : string * string) (li : tlcs * bool) : Prop :=
    edge_lcs c e = Ok li /\ valid_t (fst li) /\ plain (fst li) /\ fits c R (fst li).

  Lemma path_systems : forall (c : mgr) R p a b, is_treeT c -> good c ->
    (forall e l, In e (c_edges c) -> e_def e = true -> e_tr e = Some l -> fits c R l) ->
    walk (linked c) a p b ->
    exists ls, Forall2 (fun e li => edge_good c R e li /\ stored c (fst e) (snd e) (fst li) (snd li) /\ (snd li = true -> is_expr (fst li) = true)) (steps p) ls.
  Proof.
    intros c R p a b Tr G F W. apply walk_steps in W. induction W as [|[u v] es H W IH]; [ exists []; constructor | ].
    destruct IH as [ls IH]. cbn [fst snd] in H.
    destruct (edge_lcs_ok c u v Tr G H) as (l & inv & E & S & Wl & Pl & X & (l0 & u' & v' & I0 & D0 & R0)).
    exists ((l, inv) :: ls). constructor; [ | exact IH ]. cbn [fst snd]. split; [ | split; [ exact S | exact X ] ].
    split; [ exact E | ]. split; [ exact Wl | ]. split; [ exact Pl | ].
    cbn [fst]. intros Dl. rewrite R0. apply (F _ l0 I0 eq_refl eq_refl). congruence.
  Qed.

  Lemma edge_val_valid : forall c R l inv t, valid_t l -> valid (edge_val (D := D) sl c R l inv t).
  Proof.
    intros c R l inv t W. unfold edge_val. destruct inv; [ apply rinv_valid | ]; apply posef_valid; assumption.
  Qed.

  Lemma edge_val_pose : forall (c : mgr) R e l inv t, valid_t l -> stored c (fst e) (snd e) l inv ->
    edge_pose sl c R t e (edge_val sl c R l inv t).
  Proof.
    intros c R e l inv t W S. exists l, inv, (posef sl l (edge_time c R l t)). split; [ exact S | ].
    split; [ apply pose_at_iff; auto | ]. unfold edge_val. destruct inv; [ | reflexivity ].
    intros v. assert (V := posef_valid sl SL l (edge_time c R l t) W). split; [ apply apply_rinv; exact V | ].
    rewrite <- apply_radd, radd_inv_l by exact V. apply apply_rid.
  Qed.

  Lemma radd_all_apply : forall xs x v, lcs_apply (radd_all x xs) v = apply_all xs (lcs_apply x v).
  Proof.
    induction xs as [|y xs IH]; intros x v; [ reflexivity | ]. unfold radd_all, apply_all in *. cbn [fold_left].
    rewrite IH, apply_radd. reflexivity.
  Qed.

  (** a change of the reference time of the request *)
  Lemma with_ref_idem : forall tref rt, with_ref tref (with_ref tref rt) = with_ref tref rt.
  Proof.
    intros [b|] [ts [a|]]; cbn; try reflexivity; f_equal; try (rewrite !map_map; apply map_ext; intros; lia).
    rewrite <- (map_id ts) at 2. apply map_ext. intros; lia.
  Qed.

  Lemma edge_val_shift : forall (c : mgr) l inv t a b, fits c (Some b) l ->
    edge_val sl c (Some b) l inv (t + a - b) = edge_val sl c (Some a) l inv t.
  Proof.
    intros c l inv t a b F. unfold edge_val.
    replace (posef sl l (edge_time c (Some b) l (t + a - b))) with (posef sl l (edge_time c (Some a) l t)); [ reflexivity | ].
    destruct (is_time_dependent l) eqn:Dl; [ | apply static_posef; exact Dl ]. specialize (F Dl). unfold edge_time.
    destruct (tl_ref l) as [r|]; [ f_equal; lia | ]. destruct (c_ref c) as [r|]; [ f_equal; lia | ].
    destruct F as [F|[F1 F2]]; [ contradiction | ]. discriminate F1; reflexivity.
  Qed.

  Lemma aligned_shift : forall l ts t a b, aligned l ts (Some b) ->
    posef sl l (local_time l (Some b) (t + a - b)) = posef sl l (local_time l (Some a) t).
  Proof.
    intros l ts t a b (W & E & [H|[H [H1 H2]]]); [ apply axis_none_static; assumption | ].
    unfold local_time. destruct (tl_ref l); [ f_equal; lia | ]. discriminate H1; reflexivity.
  Qed.

  Definition eff_ref (c : mgr) (tref : option Z) : option Z := match tref with None => c_ref c | Some _ => tref end.

  Lemma get_cs_unfold : forall (c : mgr) a b p rt tref, In a (cs_names c) -> In b (cs_names c) -> a <> b ->
    shortest_path (c_edges c) a b = Some p ->
    get_cs sl c a (Some b) (Some rt) tref =
    let tr := eff_ref c tref in let time := Some (with_ref tr rt) in
    match steps p with
    | [] => Err IndexError
    | [e] => cs_on_edge sl c e time tr (negb (LcsTimeModel.is_some tr))
    | e :: rest => bind (cs_on_edge sl c e time tr false) (fun l => add_edges_up sl c l rest time tr)
    end.
  Proof.
    intros c a b p rt tref Ha Hb Ne Sp. unfold get_cs. cbn [bind].
    rewrite (proj2 (has_cs_In c a) Ha), (proj2 (has_cs_In c b) Hb). cbn [andb negb].
    rewrite (proj2 (String.eqb_neq a b) Ne), Sp, steps_edges. cbn [bind fst snd option_map]. reflexivity.
  Qed.

  (** a single edge keeps the reference time of its system *)
  Lemma base_single : forall (c : mgr) l ts R, c_ref c = None -> valid_t l -> plain l ->
    StronglySorted Z.lt ts -> ts <> [] -> fits c R l ->
    exists r, base_on_edge sl c l (Some (RT ts R)) None true = Ok r /\ valid_t r /\ is_expr r = false /\
      (has_axis r = true -> tl_ref r = match tl_ref l with Some b => Some b | None => R end) /\
      (exists ts' R', aligned r ts' R' /\ forall t, In t ts -> exists t', In t' ts' /\ local_time r R' t' = local_time r R t) /\
      forall t, In t ts -> posef sl r (local_time r R t) = posef sl l (edge_time c R l t).
  Proof.
    intros c l ts R Rc W P S N F. unfold base_on_edge.
    destruct (is_time_dependent l) eqn:Dl.
    2:{ exists l. assert (A := fun ts R => static_aligned l ts R W P Dl). destruct (A ts R) as (_ & El & _).
        split; [ reflexivity | ]. split; [ exact W | ]. split; [ exact El | ].
        split; [ rewrite dep_axis in Dl by exact El; rewrite Dl; discriminate | ].
        split; [ exists ts, R; split; [ apply A | eauto ] | ]. intros t _. apply static_posef. exact Dl. }
    specialize (F Dl). destruct F as [F|F]; [ contradiction | ].
    unfold edge_time. rewrite Rc. cbn [option_map].
    destruct (tl_ref l) as [rl|] eqn:Rl.
    - destruct R as [a|]; [ | exfalso; destruct F as [_ F]; discriminate F; reflexivity ]. cbn [with_ref r_ref r_times].
      set (ts' := map (fun x => x + a - rl) ts).
      assert (S' : StronglySorted Z.lt ts').
      { unfold ts'. rewrite (map_ext _ (fun x => x + (a - rl))) by (intros; lia). apply sorted_shift. exact S. }
      assert (N' : ts' <> []) by (unfold ts'; destruct ts; [ contradiction | discriminate ]).
      destruct (interp_aligned sl SL l ts' (Some rl) W P S' N' Dl) as (r & E & A & V).
      { rewrite Rl. split; discriminate. }
      exists r. split; [ exact E | ]. split; [ apply A | ]. split; [ apply A | ].
      assert (Hr : has_axis r = true -> tl_ref r = Some rl).
      { intros H. destruct (interp_time_ok sl SL l ts' (Some rl) W S' N') as (r' & E' & _ & _ & _ & H' & _).
        { intros _. unfold compatible. rewrite Rl. split; discriminate. }
        rewrite E in E'. injection E' as <-. apply H'. exact H. }
      split; [ exact Hr | ].
      assert (HL : lcs_axis r <> None -> forall t, local_time r (Some rl) (t + a - rl) = local_time r (Some a) t).
      { intros H t. destruct A as (_ & _ & [A|[_ [A _]]]); [ contradiction | ]. unfold local_time.
        destruct (tl_ref r); [ lia | ]. discriminate A; reflexivity. }
      split.
      + destruct (lcs_axis r) eqn:Lr.
        * exists ts', (Some rl). split; [ exact A | ]. intros t Ht. exists (t + a - rl). split; [ | apply HL; discriminate ].
          unfold ts'. apply (in_map (fun x => x + a - rl)). exact Ht.
        * exists ts, (Some a). split; [ | eauto ]. destruct A as (A1 & A2 & _). split; [ exact A1 | ]. split; [ exact A2 | left; exact Lr ].
      + intros t Ht. rewrite <- (aligned_shift r ts' t a rl A).
        rewrite V by (unfold ts'; apply (in_map (fun x => x + a - rl)); exact Ht). f_equal. unfold local_time. rewrite Rl. lia.
    - assert (R = None) as -> by (apply F; reflexivity). cbn [with_ref r_ref r_times].
      destruct (interp_aligned sl SL l ts None W P S N Dl) as (r & E & A & V).
      { rewrite Rl. split; reflexivity. }
      exists r. split; [ exact E | ]. split; [ apply A | ]. split; [ apply A | ]. split.
      { intros H. destruct (interp_time_ok sl SL l ts None W S N) as (r' & E' & _ & _ & _ & H' & _).
        { intros _. unfold compatible. rewrite Rl. split; reflexivity. }
        rewrite E in E'. injection E' as <-. apply H'. exact H. }
      split; [ exists ts, None; split; [ exact A | eauto ] | ].
      intros t Ht. rewrite V by exact Ht. f_equal. unfold local_time. rewrite Rl. reflexivity.
  Qed.

  Lemma convert_request : forall (c : mgr) rt tref, let tr := eff_ref c tref in let rt' := with_ref tr rt in
    forall t, In t (r_times rt) -> exists t', In t' (r_times rt') /\
      (forall l inv, fits c (r_ref rt') l ->
         edge_val sl c (r_ref rt') l inv t' = edge_val sl c (request_ref c rt tref) l inv t) /\
      (forall l, aligned l (r_times rt') (r_ref rt') ->
         posef sl l (local_time l (r_ref rt') t') = posef sl l (local_time l (request_ref c rt tref) t)).
  Proof.
    intros c [ts [a|]] tref tr rt' t Ht; unfold rt', tr, eff_ref, request_ref, with_ref in *; cbn [r_times r_ref] in *.
    - destruct tref as [b|]; [ | destruct (c_ref c) as [b|] eqn:Rc ]; cbn [r_times r_ref].
      + exists (t + a - b). split; [ apply (in_map (fun x => x + a - b)); exact Ht | ].
        split; [ intros; apply edge_val_shift; assumption | intros l A; eapply aligned_shift; exact A ].
      + exists (t + a - b). split; [ apply (in_map (fun x => x + a - b)); exact Ht | ].
        split; [ intros; apply edge_val_shift; assumption | intros l A; eapply aligned_shift; exact A ].
      + exists t. auto.
    - exists t. destruct tref; auto.
  Qed.

  Lemma with_ref_sorted : forall tr rt, StronglySorted Z.lt (r_times rt) -> r_times rt <> [] ->
    StronglySorted Z.lt (r_times (with_ref tr rt)) /\ r_times (with_ref tr rt) <> [].
  Proof.
    intros tr [ts [a|]] S N; cbn [r_times r_ref] in *; unfold with_ref; cbn [r_times r_ref]; [ | auto ].
    destruct tr as [b|]; cbn [r_times]; [ | auto ]. split.
    - rewrite (map_ext _ (fun x => x + (a - b))) by (intros; lia). apply sorted_shift. exact S.
    - destruct ts; [ contradiction | discriminate ].
  Qed.

  Lemma with_ref_none : forall (c : mgr) rt tref, r_ref (with_ref (eff_ref c tref) rt) = None <-> request_ref c rt tref = None.
  Proof.
    intros c [ts [a|]] tref; unfold with_ref, eff_ref, request_ref; cbn [r_ref];
      destruct tref, (c_ref c); cbn [r_ref]; split; congruence.
  Qed.

  Lemma fits_none : forall (c : mgr) R R' l, (R = None <-> R' = None) -> fits c R l -> fits c R' l.
  Proof. intros c R R' l H F Dl. destruct (F Dl) as [F'|F']; [ auto | right; tauto ]. Qed.

  Lemma get_cs_path : forall (c : mgr) a b rt tref, is_treeT c -> good c ->
    In a (cs_names c) -> In b (cs_names c) -> a <> b ->
    StronglySorted Z.lt (r_times rt) -> r_times rt <> [] ->
    (forall e l, In e (c_edges c) -> e_def e = true -> e_tr e = Some l -> fits c (request_ref c rt tref) l) ->
    forall p, shortest_path (c_edges c) a b = Some p -> simple_path (linked c) a p b ->
    exists l, get_cs sl c a (Some b) (Some rt) tref = Ok l /\ valid_t l /\ is_expr l = false /\
      ((exists tr, eff_ref c tref = Some tr) \/ List.length p <> 2%nat ->
         aligned l (r_times (with_ref (eff_ref c tref) rt)) (r_ref (with_ref (eff_ref c tref) rt))) /\
      forall t, In t (r_times rt) -> exists xs,
        Forall2 (edge_pose sl c (request_ref c rt tref) t) (steps p) xs /\
        pose_at sl l (local_time l (request_ref c rt tref) t) (posef sl l (local_time l (request_ref c rt tref) t)) /\
        forall v, lcs_apply (posef sl l (local_time l (request_ref c rt tref) t)) v = apply_all xs v.
  Proof.
    intros c a b rt tref Tr G Ha Hb Ne S N F p Sp [W Nd].
    rewrite (get_cs_unfold c a b p rt tref Ha Hb Ne Sp). cbv zeta.
    set (R := request_ref c rt tref) in *. set (tr := eff_ref c tref) in *. set (rt' := with_ref tr rt) in *.
    destruct (with_ref_sorted tr rt S N) as [S' N']. fold rt' in S', N'.
    assert (HR : r_ref rt' = None <-> R = None) by apply with_ref_none.
    assert (Fx : forall e l, In e (c_edges c) -> e_def e = true -> e_tr e = Some l -> fits c (r_ref rt') l).
    { intros e l H1 H2 H3. apply (fits_none c R); [ tauto | eapply F; eassumption ]. }
    assert (CR : c_ref c <> None -> r_ref rt' <> None).
    { intros H1 H2. apply HR in H2. unfold R, request_ref in H2. destruct (r_ref rt); [ discriminate | ].
      destruct tref; [ discriminate | ]. contradiction. }
    assert (Wr : with_ref tr rt' = rt') by apply with_ref_idem.
    destruct (path_systems c (r_ref rt') p a b Tr G Fx W) as [ls Hls].
    assert (Hxs : forall t t', (forall l inv, fits c (r_ref rt') l -> edge_val sl c (r_ref rt') l inv t' = edge_val sl c R l inv t) ->
       Forall2 (edge_pose sl c R t) (steps p) (map (fun li => edge_val sl c (r_ref rt') (fst li) (snd li) t') ls)).
    { intros t t' Hc. clear -Hls Hc SL. induction Hls as [|e [l inv] es ls ((E & W & P & F) & St & X) H IH]; cbn [map]; constructor; [ | exact IH ].
      cbn [fst snd] in *. rewrite Hc by exact F. apply edge_val_pose; assumption. }
    assert (Hgen : forall e es li ls', steps p = e :: es -> ls = li :: ls' ->
       exists l0 l, cs_on_edge sl c e (Some rt') tr false = Ok l0 /\ add_edges_up sl c l0 es (Some rt') tr = Ok l /\
        aligned l (r_times rt') (r_ref rt') /\
        forall t', In t' (r_times rt') -> posef sl l (local_time l (r_ref rt') t') =
          radd_all (edge_val sl c (r_ref rt') (fst li) (snd li) t') (map (fun li => edge_val sl c (r_ref rt') (fst li) (snd li) t') ls')).
    { intros e es [l1 inv] ls' E1 E2. rewrite E1, E2 in Hls. inversion Hls as [|? ? ? ? ((E & Wl & Pl & Fl) & St & X) H]; subst.
      cbn [fst snd] in *.
      destruct (edge_aligned sl SL c e l1 inv rt' tr E Wl Pl S' N' Fl CR Wr) as (l0 & E0 & A0 & V0).
      destruct (add_edges_aligned sl SL c rt' tr es ls' l0) as (l & El & Al & Vl); try assumption.
      { clear -H. induction H as [|? ? ? ? (Hg & _) H IH]; constructor; [ exact Hg | exact IH ]. }
      exists l0, l. split; [ exact E0 | ]. split; [ exact El | ]. split; [ exact Al | ].
      intros t' Ht'. rewrite Vl, V0 by exact Ht'. reflexivity. }
    assert (Hfin : forall l, aligned l (r_times rt') (r_ref rt') -> (forall t', In t' (r_times rt') -> forall v,
         lcs_apply (posef sl l (local_time l (r_ref rt') t')) v = apply_all (map (fun li => edge_val sl c (r_ref rt') (fst li) (snd li) t') ls) v) ->
      forall t, In t (r_times rt) -> exists xs, Forall2 (edge_pose sl c R t) (steps p) xs /\
        pose_at sl l (local_time l R t) (posef sl l (local_time l R t)) /\
        forall v, lcs_apply (posef sl l (local_time l R t)) v = apply_all xs v).
    { intros l A V t Ht. destruct (convert_request c rt tref t Ht) as (t' & Ht' & C1 & C2).
      exists (map (fun li => edge_val sl c (r_ref rt') (fst li) (snd li) t') ls). split; [ apply Hxs; exact C1 | ].
      split; [ apply pose_at_iff; [ exact SL | apply A | reflexivity ] | ]. intros v. rewrite <- V by exact Ht'.
      f_equal. symmetry. apply (C2 l A). }
    assert (Ne' := walk_steps_nonempty _ _ _ _ W Ne).
    destruct (steps p) as [|e [|e2 es]] eqn:Ep; [ contradiction | | ].
    - destruct ls as [|[l1 inv] [|li2 ls]]; try (exfalso; inversion Hls as [|? ? ? ? ? H]; inversion H; fail).
      destruct tr as [b0|] eqn:Etr; cbn [LcsTimeModel.is_some negb].
      + destruct (Hgen e [] (l1, inv) [] eq_refl eq_refl) as (l0 & l & E0 & El & Al & Vl). cbn [add_edges_up] in El. injection El as <-.
        exists l0. split; [ exact E0 | ]. split; [ apply Al | ]. split; [ apply Al | ]. split; [ intros _; exact Al | ].
        apply Hfin; [ exact Al | ]. intros t' Ht' v. rewrite Vl by exact Ht'. reflexivity.
      + inversion Hls as [|? ? ? ? ((E & Wl & Pl & Fl) & St & X) _]; subst. cbn [fst snd] in *.
        assert (tref = None /\ c_ref c = None) as [-> Rc].
        { unfold tr, eff_ref in Etr. destruct tref; [ discriminate | auto ]. }
        assert (rt' = rt) as Ert by (unfold rt'; destruct rt as [ts [q|]]; reflexivity).
        assert (R = r_ref rt) as ER by (unfold R, request_ref; rewrite Rc; destruct (r_ref rt); reflexivity).
        rewrite Ert in *. destruct rt as [ts Rr]. cbn [r_times r_ref] in *. clear rt' Ert. rewrite ER in *.
        destruct (base_single c l1 ts Rr Rc Wl Pl S N Fl) as (r & Er & Wr' & Xr & _ & (ts' & R' & Al & Hon) & V).
        rewrite (cs_on_edge_base sl c e _ _ _ l1 inv E), Er. cbn [bind].
        assert (Lp : List.length p = 2%nat) by (destruct p as [|? [|? [|? ?]]]; try discriminate; reflexivity).
        destruct inv.
        * destruct (tlcs_invert_ok sl SL r Wr' Xr) as (i & Ei & Wi & Xi & _ & Ri & _ & Pi). rewrite Ei.
          assert (Vi : forall t, In t ts -> posef sl i (local_time i Rr t) = edge_val sl c Rr l1 true t).
          { intros t Ht. unfold edge_val. rewrite <- V by exact Ht.
            assert (local_time i Rr t = local_time r Rr t) as -> by (unfold local_time; rewrite Ri; reflexivity).
            apply Pi. destruct (Hon t Ht) as (t' & Ht' & <-). eapply aligned_on; eassumption. }
          exists i. split; [ reflexivity | ]. split; [ exact Wi | ]. split; [ exact Xi | ].
          split; [ intros [(? & Q)|Q]; [ discriminate | contradiction ] | ].
          intros t Ht. exists [edge_val sl c Rr l1 true t]. split; [ apply (Hxs t t); reflexivity | ].
          split; [ apply pose_at_iff; auto | ]. intros v. rewrite Vi by exact Ht. reflexivity.
        * exists r. split; [ reflexivity | ]. split; [ exact Wr' | ]. split; [ exact Xr | ].
          split; [ intros [(? & Q)|Q]; [ discriminate | contradiction ] | ].
          intros t Ht. exists [edge_val sl c Rr l1 false t]. split; [ apply (Hxs t t); reflexivity | ].
          split; [ apply pose_at_iff; auto | ]. intros v. rewrite V by exact Ht. reflexivity.
    - destruct ls as [|li ls]; [ inversion Hls | ].
      destruct (Hgen e (e2 :: es) li ls eq_refl eq_refl) as (l0 & l & E0 & El & Al & Vl).
      rewrite E0. cbn [bind]. rewrite El. exists l. split; [ reflexivity | ]. split; [ apply Al | ]. split; [ apply Al | ].
      split; [ intros _; exact Al | ]. apply Hfin; [ exact Al | ]. intros t' Ht' v. rewrite Vl by exact Ht'.
      rewrite radd_all_apply. reflexivity.
  Qed.
End Path.
