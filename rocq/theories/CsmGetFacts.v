(** Lemmas about [get_cs]. *)
From Coq Require Import Reals List String ZArith Bool Lia Sorting.Sorted.
From Verif Require Import Base RigidModel RigidSpec RigidFacts InterpModel InterpSpec InterpFacts
  LinModel LinFacts CsmModel CsmSpec LcsTimeModel LcsTimeSpec LcsTimeFacts CsmGetModel CsmGetSpec.
Import ListNotations.
Open Scope Z_scope.

Section Get.
  Context (sl : segment mat) (SL : slerp_ok sl) {D : Type}.
  Notation mgr := (csm tlcs D).

  (** a system is defined on the requested times, or constant *)
  Definition aligned (l : tlcs) (ts : list Z) (R : option Z) : Prop :=
    valid_t l /\ is_expr l = false /\
    (lcs_axis l = None \/ lcs_axis l = Some (map (local_time l R) ts) /\ (tl_ref l = None <-> R = None)).

  Lemma axis_none_ref : forall l, valid_t l -> is_expr l = false -> lcs_axis l = None -> tl_ref l = None.
  Proof.
    intros l W E N. destruct (axis_none l N E) as [H1 H2]. apply (vt_ref _ W); [ rewrite dep_axis; assumption | assumption ].
  Qed.

  Lemma axis_none_static : forall l t t', is_expr l = false -> lcs_axis l = None -> posef sl l t = posef sl l t'.
  Proof. intros l t t' E N. apply static_posef. rewrite dep_axis by assumption. apply (axis_none l N E). Qed.

  Lemma dep_has_axis : forall l, is_expr l = false -> is_time_dependent l = true -> lcs_axis l <> None.
  Proof. intros l E Dp N. destruct (axis_none l N E) as [H _]. rewrite dep_axis in Dp by assumption. congruence. Qed.

  Lemma aligned_on : forall l ts R t, aligned l ts R -> In t ts -> on_axis l (local_time l R t).
  Proof.
    intros l ts R t (_ & _ & H) Ht. unfold on_axis. destruct H as [-> | [-> _]]; [ exact I | ]. apply in_map. assumption.
  Qed.

  Lemma aligned_add : forall a b ts R, aligned a ts R -> aligned b ts R ->
    exists c, tlcs_add sl a b = Ok c /\ aligned c ts R /\
      forall t, In t ts -> posef sl c (local_time c R t) = radd (posef sl a (local_time a R t)) (posef sl b (local_time b R t)).
  Proof.
    intros a b ts R Aa Ab. assert (Aa' := Aa). assert (Ab' := Ab).
    destruct Aa as (Wa & Ea & Ha). destruct Ab as (Wb & Eb & Hb).
    assert (Na := axis_none_ref a Wa Ea). assert (Nb := axis_none_ref b Wb Eb).
    destruct (tlcs_add_ok sl SL a b Wa Wb Ea Eb) as (c & Ec & Wc & Xc & _ & L2 & L3 & Rc & Pc).
    { unfold addable. intros H1 H2 H3. destruct Ha as [Ha|[_ Ha]]; [ congruence | ].
      apply (dep_has_axis b Eb) in H2. destruct Hb as [Hb|[_ Hb]]; [ congruence | ]. intros N. apply H3, Ha, Hb, N. }
    exists c. split; [ assumption | ].
    set (S := sum_ref (tl_ref a) (tl_ref b)) in *.
    assert (HS : lcs_axis a <> None \/ lcs_axis b <> None -> (S = None <-> R = None)).
    { intros H. unfold S. destruct Ha as [Ha|[Ha Ha2]], Hb as [Hb|[Hb Hb2]].
      - destruct H; congruence.
      - rewrite (Na Ha). exact Hb2.
      - rewrite (Nb Hb). destruct (tl_ref a); exact Ha2.
      - destruct (tl_ref a), (tl_ref b); cbn; try exact Ha2; try exact Hb2.
        split; [ discriminate | ]. intros E. apply Ha2 in E. discriminate. }
    assert (Hcomp : forall l t, (tl_ref l = None <-> R = None) -> (S = None <-> R = None) ->
              local_time l S (match S, R with Some s, Some r => t + r - s | _, _ => t end) = local_time l R t).
    { intros l t H1 H2. unfold local_time. destruct (tl_ref l), S, R; try lia; exfalso;
        (destruct H1 as [H1 H1'], H2 as [H2 H2']; (discriminate H1; reflexivity) || (discriminate H1'; reflexivity) ||
         (discriminate H2; reflexivity) || (discriminate H2'; reflexivity)). }
    assert (lcs_axis c = None \/ lcs_axis c = Some (map (local_time c R) ts) /\ (tl_ref c = None <-> R = None)) as Hc.
    { destruct (lcs_axis c) as [w|] eqn:Lc; [ right | left; reflexivity ]. cbn [LcsTimeModel.is_some] in Rc.
      destruct Ha as [Ha|[Ha Ha2]].
      - specialize (L2 Ha). cbn [option_map] in L2. destruct Hb as [Hb|[Hb Hb2]]; [ congruence | ].
        assert (HS' : S = None <-> R = None) by (apply HS; right; congruence).
        split; [ | rewrite Rc; exact HS' ]. rewrite Hb in L2. injection L2 as L2. f_equal.
        assert (S = tl_ref b) as ES by (unfold S; rewrite (Na Ha); reflexivity).
        rewrite Rc, ES in L2. rewrite (map_ext (local_time b (tl_ref b)) (fun t => t)) in L2.
        + rewrite map_id in L2. rewrite <- L2. apply map_ext. intros t. unfold local_time. rewrite Rc, ES. reflexivity.
        + intros t. unfold local_time. destruct (tl_ref b); lia.
      - assert (HS' : S = None <-> R = None) by (apply HS; left; congruence).
        split; [ | rewrite Rc; exact HS' ].
        assert (lcs_axis a = Some (map (local_time a (tl_ref c)) w)) as E3.
        { rewrite L3; [ reflexivity | congruence | ]. destruct Hb as [Hb|[Hb Hb2]]; [ right; left; assumption | ].
          right. right. exists (map (fun t => match S, R with Some s, Some r => t + r - s | _, _ => t end) ts).
          rewrite Ha, Hb, !map_map. split; f_equal; apply map_ext; intros t; symmetry; apply Hcomp; assumption. }
        rewrite Ha, Rc in E3. injection E3 as E3. f_equal.
        assert (forall x y, map (local_time a S) x = map (local_time a S) y -> x = y) as Inj.
        { induction x as [|x xs IH]; intros [|y ys] E; try discriminate; [ reflexivity | ].
          cbn [map] in E. injection E as E0 E. f_equal; [ | apply IH; assumption ].
          unfold local_time in E0. destruct (tl_ref a), S; lia. }
        apply Inj. rewrite <- E3, map_map. apply map_ext. intros t.
        replace (local_time c R t) with (match S, R with Some s, Some r => t + r - s | _, _ => t end);
          [ symmetry; apply Hcomp; assumption | ].
        unfold local_time. rewrite Rc. reflexivity. }
    assert (Ac : aligned c ts R) by (split; [ assumption | split; assumption ]).
    split; [ exact Ac | ]. intros t Ht. rewrite Pc by (eapply aligned_on; eassumption).
    assert (forall l, aligned l ts R -> (l = a \/ l = b) ->
              posef sl l (local_time l (tl_ref c) (local_time c R t)) = posef sl l (local_time l R t)) as G.
    { intros l Al Hl. destruct (lcs_axis l) as [w|] eqn:Ll; [ | apply axis_none_static; [ apply Al | assumption ] ].
      destruct Al as (Wl & El & [Al|[Al Al2]]); [ congruence | ].
      assert (lcs_axis a <> None \/ lcs_axis b <> None) as Q by (destruct Hl as [<-|<-]; [ left | right ]; congruence).
      assert (HS' := HS Q).
      destruct (lcs_axis c) as [wc|] eqn:Lc.
      - cbn [LcsTimeModel.is_some] in Rc. rewrite Rc, <- (Hcomp l t Al2 HS'). f_equal. f_equal. unfold local_time. rewrite Rc. reflexivity.
      - exfalso. destruct Q as [Q|Q].
        + apply Q. rewrite L3; [ reflexivity | assumption | ]. destruct Hb as [Hb|[Hb Hb2]]; [ auto | ].
          destruct Ha as [Ha|[Ha Ha2]]; [ congruence | ]. right. right.
          exists (map (fun t => match S, R with Some s, Some r => t + r - s | _, _ => t end) ts).
          rewrite Ha, Hb, !map_map. split; f_equal; apply map_ext; intros u; symmetry; apply Hcomp; assumption.
        + destruct Ha as [Ha|[Ha Ha2]]; [ specialize (L2 Ha); cbn [option_map] in L2; congruence | ].
          destruct Hb as [Hb|[Hb Hb2]]; [ congruence | ].
          assert (Q' : lcs_axis a = None); [ | congruence ].
          rewrite L3; [ reflexivity | congruence | ]. right. right.
          exists (map (fun t => match S, R with Some s, Some r => t + r - s | _, _ => t end) ts).
          rewrite Ha, Hb, !map_map. split; f_equal; apply map_ext; intros u; symmetry; apply Hcomp; assumption. }
    rewrite (G a Aa' (or_introl eq_refl)), (G b Ab' (or_intror eq_refl)). reflexivity.
  Qed.

  (** ** One edge *)
  Definition edge_val (c : mgr) (R : option Z) (l : tlcs) (inv : bool) (t : Z) : lcs :=
    let x := posef sl l (edge_time c R l t) in if inv then rinv x else x.

  Lemma relabel_shift : forall (A : Type) k ts (x : arr A),
    match axis_of x with Some w => w = map (fun t => t + k) ts | None => True end ->
    relabel_times ts x = shift_arr (- k) x.
  Proof.
    intros A k ts [a|s] H; [ reflexivity | ]. cbn [axis_of relabel_times shift_arr] in *. f_equal.
    revert ts H. induction s as [|[t a] s IH]; intros [|u ts] H; try discriminate; [ reflexivity | ].
    cbn in *. injection H as -> H. f_equal; [ f_equal; lia | apply IH; assumption ].
  Qed.

  Lemma aligned_invert : forall l ts R, aligned l ts R ->
    exists i, tlcs_invert sl l = Ok i /\ aligned i ts R /\
      forall t, In t ts -> posef sl i (local_time i R t) = rinv (posef sl l (local_time l R t)).
  Proof.
    intros l ts R A. assert (A' := A). destruct A as (W & E & H).
    destruct (tlcs_invert_ok sl SL l W E) as (i & Ei & Wi & Xi & Li & Ri & _ & Pi).
    exists i. split; [ assumption | ].
    assert (forall t, local_time i R t = local_time l R t) as Hl by (intros t; unfold local_time; rewrite Ri; reflexivity).
    split.
    - split; [ assumption | ]. split; [ assumption | ]. rewrite Li, Ri. rewrite (map_ext _ _ Hl). exact H.
    - intros t Ht. rewrite Hl. apply Pi. eapply aligned_on; eassumption.
  Qed.

  (** the system of an edge before the inversion *)
  Definition base_on_edge (c : mgr) (l : tlcs) (time : option rtime) (tref : option Z) (use : bool) : res tlcs :=
    if is_time_dependent l then
      match tl_ref l, c_ref c with
      | None, Some r =>
          match time with
          | None => Err TypeError
          | Some rt =>
              match r_ref rt with
              | None => Err TypeError
              | Some a =>
                  bind (interp_time sl l (Some (RT (map (fun t => t + a - r) (r_times rt)) None)))
                       (fun i =>
                          match tl_pos i with
                          | CArr p => mk_tlcs sl (relabel_times (r_times rt) (tl_ori i))
                                        (CArr (relabel_times (r_times rt) p)) None (r_ref rt)
                          | CExpr _ => Err AttributeError
                          end)
              end
          end
      | _, _ => interp_time sl l (option_map (with_ref (if use then tl_ref l else tref)) time)
      end
    else Ok l.

  Lemma cs_on_edge_base : forall c e time tref use l inv, edge_lcs c e = Ok (l, inv) ->
    cs_on_edge sl c e time tref use =
    bind (base_on_edge c l time tref use) (fun l => if inv then tlcs_invert sl l else Ok l).
  Proof. intros c e time tref use l inv E. unfold cs_on_edge. rewrite E. reflexivity. Qed.

  Lemma static_aligned : forall l ts R, valid_t l -> plain l -> is_time_dependent l = false -> aligned l ts R.
  Proof.
    intros l ts R W [P _] Dp. unfold is_time_dependent in Dp. apply orb_false_iff in Dp. destruct Dp as [E H].
    split; [ assumption | ]. split; [ assumption | ]. left. rewrite (axis_static l H E), P. reflexivity.
  Qed.

  Lemma interp_aligned : forall l ts R, valid_t l -> plain l -> StronglySorted Z.lt ts -> ts <> [] ->
    is_time_dependent l = true -> (tl_ref l = None <-> R = None) ->
    exists r, interp_time sl l (Some (RT ts R)) = Ok r /\ aligned r ts R /\
      forall t, In t ts -> posef sl r (local_time r R t) = posef sl l (local_time l R t).
  Proof.
    intros l ts R W [P1 P2] S N Dp C.
    destruct (interp_time_ok sl SL l ts R W S N (fun _ => C)) as (r & E & Wr & Er & Pr & Hr & _ & Hat).
    rewrite Dp in Er. cbn [negb] in Er. rewrite andb_false_r in Er.
    exists r. split; [ assumption | ].
    assert (Hid : forall t, tl_ref r = R -> local_time r R t = t) by (intros t Q; unfold local_time; rewrite Q; destruct R; lia).
    destruct (has_axis r) eqn:Ha.
    - destruct (Hr eq_refl) as (_ & Lr & Rr). split.
      + split; [ assumption | ]. split; [ assumption | ]. right. split; [ | rewrite Rr; reflexivity ].
        rewrite (map_ext _ (fun t => t)), map_id by (intros t; apply Hid; assumption). assumption.
      + intros t Ht. rewrite Hid by assumption. apply Pr. assumption.
    - split.
      + split; [ assumption | ]. split; [ assumption | ]. rewrite (axis_static r Ha Er).
        destruct (Hat eq_refl Dp) as [A|[(t & -> & A & Rr)|(t & a & A & _)]].
        * rewrite A. left. reflexivity.
        * rewrite A. right. split; [ | rewrite Rr; exact C ]. cbn [map]. f_equal. f_equal. unfold local_time. rewrite Rr. reflexivity.
        * exfalso. exact (P2 _ A).
      + intros t Ht. rewrite <- Pr by assumption. apply static_posef. rewrite dep_axis; assumption.
  Qed.

  Lemma base_aligned : forall c l rt tref, valid_t l -> plain l ->
    StronglySorted Z.lt (r_times rt) -> r_times rt <> [] ->
    fits c (r_ref rt) l -> (c_ref c <> None -> r_ref rt <> None) -> with_ref tref rt = rt ->
    exists r, base_on_edge c l (Some rt) tref false = Ok r /\ aligned r (r_times rt) (r_ref rt) /\
      forall t, In t (r_times rt) -> posef sl r (local_time r (r_ref rt) t) = posef sl l (edge_time c (r_ref rt) l t).
  Proof.
    intros c l [ts R] tref W P S N F CR Wr. cbn [r_times r_ref] in *. unfold base_on_edge.
    destruct (is_time_dependent l) eqn:Dp.
    2:{ exists l. split; [ reflexivity | ]. split; [ apply static_aligned; assumption | ].
        intros t _. apply static_posef. assumption. }
    assert (Case2 : (tl_ref l = None <-> R = None) -> (forall t, local_time l R t = edge_time c R l t) ->
       exists r, interp_time sl l (option_map (with_ref tref) (Some (RT ts R))) = Ok r /\ aligned r ts R /\
      forall t, In t ts -> posef sl r (local_time r R t) = posef sl l (edge_time c R l t)).
    { intros C Hl. cbn [option_map]. rewrite Wr.
      destruct (interp_aligned l ts R W P S N Dp C) as (r & E & A & V). exists r. split; [ assumption | ]. split; [ assumption | ].
      intros t Ht. rewrite V, Hl by assumption. reflexivity. }
    specialize (F Dp). unfold edge_time in *.
    destruct (tl_ref l) as [rl|] eqn:Rl.
    - apply Case2.
      + split; [ discriminate | ]. intros ->. destruct F as [F|[F1 F2]]; [ exfalso; apply CR; auto | ]. discriminate F2; reflexivity.
      + intros t. unfold local_time. rewrite Rl. destruct R; reflexivity.
    - destruct (c_ref c) as [rc|] eqn:Rc.
      + cbn [r_ref r_times]. destruct R as [a|]; [ | exfalso; apply CR; [ discriminate | reflexivity ] ].
        set (k := a - rc). assert (map (fun t => t + a - rc) ts = map (fun t => t + k) ts) as Ek by (apply map_ext; intros; lia).
        assert (StronglySorted Z.lt (map (fun t => t + k) ts)) as S' by (apply sorted_shift; assumption).
        assert (map (fun t => t + k) ts <> []) as N' by (destruct ts; [ contradiction | discriminate ]).
        rewrite Ek.
        destruct (interp_time_ok sl SL l (map (fun t => t + k) ts) None W S' N') as (i & Ei & Wi & Xi & Pi & Hi & _ & _).
        { intros _. unfold compatible. rewrite Rl. reflexivity. }
        rewrite Ei. cbn [bind]. rewrite Dp in Xi. cbn [negb] in Xi. rewrite andb_false_r in Xi.
        assert (exists p, tl_pos i = CArr p) as [p Ep] by (unfold is_expr in Xi; destruct (tl_pos i); [ eauto | discriminate ]).
        rewrite Ep.
        assert (ax_in (map (fun t => t + k) ts) (tl_ori i) /\ ax_in (map (fun t => t + k) ts) p) as [A1 A2].
        { destruct (has_axis i) eqn:Q; [ | apply ax_in_none; assumption ]. destruct (Hi eq_refl) as (_ & Li & _). apply ax_in_lcs; assumption. }
        assert (forall (A : Type) (x : arr A), ax_in (map (fun t => t + k) ts) x ->
                  match axis_of x with Some w => w = map (fun t => t + k) ts | None => True end) as Hax.
        { intros A x [-> | ->]; [ exact I | reflexivity ]. }
        rewrite !(relabel_shift _ k) by (apply Hax; assumption).
        assert (Ho : forall m, elements (shift_arr (- k) (tl_ori i)) m -> orthonormal m)
          by (intros m Hm; apply elements_shift in Hm; apply (vt_orth _ Wi); assumption).
        assert (Hx : match shift_arr (- k) (tl_ori i), CArr (shift_arr (- k) p) with Ser s, CArr (Ser s') => map fst s = map fst s' | _, _ => True end).
        { assert (M := tl_axes _ _ Wi Ep). destruct (tl_ori i); [ exact I | ]. destruct p; [ exact I | ]. cbn in *. rewrite !shift_times, M. reflexivity. }
        eexists. split; [ apply mk_tlcs_ok; assumption | ].
        match goal with |- aligned ?x _ _ /\ _ => set (r := x) end.
        assert (Wr' : valid_t r).
        { eapply (mk_tlcs_valid sl (shift_arr (- k) (tl_ori i)) (CArr (shift_arr (- k) p)) None (Some a));
            [ exact Ho | exact Hx | apply arr_ok_shift, Wi | apply arr_ok_shift; assert (Q := vt_pos _ Wi); rewrite Ep in Q; exact Q | apply mk_tlcs_ok; assumption ]. }
        assert (Hr : has_axis r = has_axis i) by (unfold r, has_axis; cbn [tl_ori tl_pos]; rewrite !is_ser_shift, Ep; reflexivity).
        assert (Xr : is_expr r = false) by reflexivity.
        assert (Pr : forall t, posef sl r t = posef sl i (t + k)).
        { intros t. unfold posef, r. cbn [tl_ori tl_pos]. rewrite Ep, !aval_shift' by (exact (so_shift _ SL) || apply lin_vec_shift).
          replace (t - - k) with (t + k) by lia. reflexivity. }
        assert (Rr : has_axis i = true -> tl_ref r = Some a).
        { intros Q. unfold r. cbn [tl_ref]. unfold is_time_dependent. rewrite <- Hr in Q. unfold r, has_axis in Q. cbn [tl_ori tl_pos] in Q.
          unfold has_axis. cbn [tl_ori tl_pos]. rewrite Q. rewrite orb_true_r. reflexivity. }
        assert (Lr : lcs_axis r = if has_axis i then Some ts else None).
        { destruct (has_axis i) eqn:Q.
          - destruct (Hi eq_refl) as (_ & Li & _). unfold lcs_axis in *. unfold r. cbn [tl_ori tl_pos]. rewrite Ep in Li.
            destruct (tl_ori i) as [mi|si]; cbn [shift_arr].
            + destruct p as [vp|sp]; [ unfold has_axis in Q; rewrite Ep in Q | ]; cbn [shift_arr].
              * exfalso. destruct (tl_ori i); discriminate.
              * injection Li as Li. rewrite shift_times, Li, map_shift_back. reflexivity.
            + injection Li as Li. rewrite shift_times, Li, map_shift_back. reflexivity.
          - rewrite (axis_static r) by congruence. unfold r. cbn [tl_at].
            match goal with |- context [if ?b then None else None] => destruct b end; reflexivity. }
        split.
        * split; [ assumption | ]. split; [ assumption | ]. rewrite Lr. destruct (has_axis i) eqn:Q; [ right | left; reflexivity ].
          rewrite (Rr eq_refl). split; [ | split; discriminate ]. f_equal.
          rewrite (map_ext _ (fun t => t)); [ symmetry; apply map_id | ]. intros t. unfold local_time. rewrite (Rr eq_refl). lia.
        * intros t Ht. rewrite Pr.
          assert (local_time r (Some a) t = t \/ is_time_dependent i = false) as [-> | Hs].
          { destruct (has_axis i) eqn:Q; [ left; unfold local_time; rewrite (Rr eq_refl); lia | right; rewrite dep_axis; assumption ]. }
          -- rewrite Pi by (apply (in_map (fun t => t + k)); assumption). f_equal. unfold local_time. rewrite Rl. unfold k. lia.
          -- rewrite (static_posef sl i _ (t + k) Hs). rewrite Pi by (apply (in_map (fun t => t + k)); assumption).
             f_equal. unfold local_time. rewrite Rl. unfold k. lia.
      + apply Case2.
        * destruct F as [F|F]; [ contradiction | exact F ].
        * intros t. unfold local_time. rewrite Rl. destruct R; reflexivity.
  Qed.

  Lemma edge_aligned : forall c e l inv rt tref, edge_lcs c e = Ok (l, inv) -> valid_t l -> plain l ->
    StronglySorted Z.lt (r_times rt) -> r_times rt <> [] ->
    fits c (r_ref rt) l -> (c_ref c <> None -> r_ref rt <> None) -> with_ref tref rt = rt ->
    exists r, cs_on_edge sl c e (Some rt) tref false = Ok r /\ aligned r (r_times rt) (r_ref rt) /\
      forall t, In t (r_times rt) -> posef sl r (local_time r (r_ref rt) t) = edge_val c (r_ref rt) l inv t.
  Proof.
    intros c e l inv rt tref E W P S N F CR Wr. rewrite (cs_on_edge_base c e _ _ _ l inv E).
    destruct (base_aligned c l rt tref W P S N F CR Wr) as (r & -> & A & V). cbn [bind]. unfold edge_val. destruct inv.
    - destruct (aligned_invert r _ _ A) as (i & -> & Ai & Vi). exists i. split; [ reflexivity | ]. split; [ assumption | ].
      intros t Ht. rewrite Vi, V by assumption. reflexivity.
    - exists r. auto.
  Qed.

  (** ** The whole path *)
  Definition edges_ok (c : mgr) (R : option Z) (es : list (string * string)) (ls : list (tlcs * bool)) : Prop :=
    Forall2 (fun e li => edge_lcs c e = Ok li /\ valid_t (fst li) /\ plain (fst li) /\ fits c R (fst li)) es ls.

  Definition radd_all (x : lcs) (l : list lcs) : lcs := fold_left radd l x.

  Lemma add_edges_aligned : forall c rt tref es ls acc, edges_ok c (r_ref rt) es ls ->
    StronglySorted Z.lt (r_times rt) -> r_times rt <> [] ->
    (c_ref c <> None -> r_ref rt <> None) -> with_ref tref rt = rt ->
    aligned acc (r_times rt) (r_ref rt) ->
    exists r, add_edges_up sl c acc es (Some rt) tref = Ok r /\ aligned r (r_times rt) (r_ref rt) /\
      forall t, In t (r_times rt) -> posef sl r (local_time r (r_ref rt) t) =
        radd_all (posef sl acc (local_time acc (r_ref rt) t)) (map (fun li => edge_val c (r_ref rt) (fst li) (snd li) t) ls).
  Proof.
    intros c rt tref es ls acc H S N CR Wr. revert acc. induction H as [|e [l inv] es ls (E & W & P & F) H IH]; intros acc A.
    - exists acc. split; [ reflexivity | ]. split; [ assumption | ]. reflexivity.
    - cbn [add_edges_up]. destruct (edge_aligned c e l inv rt tref E W P S N F CR Wr) as (r & -> & Ar & Vr). cbn [bind].
      destruct (aligned_add acc r _ _ A Ar) as (s & -> & As & Vs). cbn [bind].
      destruct (IH s As) as (f & -> & Af & Vf). exists f. split; [ reflexivity | ]. split; [ assumption | ].
      intros t Ht. rewrite Vf by assumption. cbn [map]. unfold radd_all. cbn [fold_left fst snd]. rewrite Vs, Vr by assumption. reflexivity.
  Qed.
End Get.
