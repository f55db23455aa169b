(** Relabelling, subsystem records and extraction: the full invariant of
    reachable managers. *)
From Coq Require Import List String Bool Arith Lia Permutation.
From Verif Require Import Base CsmModel CsmSpec TreeFacts CsmGraphFacts CsmTreeFacts.
Import ListNotations.

(** ** renaming vertices of a tree *)
Definition rpair (f : string -> string) (p : string * string) : string * string :=
  (f (fst p), f (snd p)).

Lemma grows_map : forall f r l, grows r l ->
  (forall x y, In x (verts r l) -> In y (verts r l) -> f x = f y -> x = y) ->
  grows (f r) (map (rpair f) l).
Proof.
  intros f r l G. induction G as [|c p l G IH Hp Hc]; intros Inj; [ constructor | ].
  assert (up : forall x, In x (verts r l) -> In x (verts r ((c, p) :: l))).
  { intros x [<-|H]; [ left; reflexivity | right; right; assumption ]. }
  assert (V : forall x, In x (verts (f r) (map (rpair f) l)) -> exists y, In y (verts r l) /\ x = f y).
  { intros x [<-|H]; [ exists r; split; [ left; reflexivity | reflexivity ] | ].
    rewrite map_map in H. apply in_map_iff in H. destruct H as ((y, z) & E & H).
    exists y. split; [ right; apply in_map_iff; exists (y, z); auto | symmetry; exact E ]. }
  assert (V' : forall y, In y (verts r l) -> In (f y) (verts (f r) (map (rpair f) l))).
  { intros y [<-|H]; [ left; reflexivity | right ]. rewrite map_map. apply in_map_iff in H.
    destruct H as (z & <- & H). apply in_map_iff. exists z. auto. }
  cbn [map rpair fst snd]. constructor.
  - apply IH. intros x y Hx Hy. apply Inj; apply up; assumption.
  - apply V'. assumption.
  - intros H. apply V in H. destruct H as (y & Hy & E). apply Hc.
    assert (c = y) as ->; [ | assumption ].
    apply Inj; [ right; left; reflexivity | apply up; assumption | exact E ].
Qed.

Lemma verts_map : forall f r l x, In x (verts (f r) (map (rpair f) l)) <->
  exists y, In y (verts r l) /\ x = f y.
Proof.
  intros f r l x. unfold verts. cbn [In]. rewrite map_map, in_map_iff. split.
  - intros [<-|((y, z) & E & H)].
    + exists r. auto.
    + exists y. split; [ right; apply in_map_iff; exists (y, z); auto | symmetry; exact E ].
  - intros (y & [<-|H] & ->); [ auto | right ]. apply in_map_iff in H.
    destruct H as (z & <- & H). exists z. auto.
Qed.

Lemma adjl_map : forall f l u v, adjl (map (rpair f) l) u v <->
  exists u0 v0, adjl l u0 v0 /\ u = f u0 /\ v = f v0.
Proof.
  intros f l u v. unfold adjl. rewrite !in_map_iff. split.
  - intros [((x, y) & E & H)|((x, y) & E & H)]; unfold rpair in E; cbn [fst snd] in E; injection E as <- <-.
    + exists x, y. auto.
    + exists y, x. auto.
  - intros (u0 & v0 & [H|H] & -> & ->).
    + left. exists (u0, v0). auto.
    + right. exists (v0, u0). auto.
Qed.

Lemma partition3 : forall (A : Type) (f g h : A -> bool) l,
  (forall x, In x l -> (f x = true /\ g x = false /\ h x = false) \/
                       (f x = false /\ g x = true /\ h x = false) \/
                       (f x = false /\ g x = false /\ h x = true)) ->
  Permutation (filter f l ++ filter g l ++ filter h l) l.
Proof.
  intros A f g h l. induction l as [|x l IH]; intros H; [ constructor | ].
  assert (IH' := IH (fun y Hy => H y (or_intror Hy))). cbn [filter].
  destruct (H x (or_introl eq_refl)) as [(E1 & E2 & E3)|[(E1 & E2 & E3)|(E1 & E2 & E3)]];
    rewrite E1, E2, E3.
  - cbn [app]. constructor. assumption.
  - cbn [app]. rewrite <- Permutation_middle. constructor. assumption.
  - rewrite app_assoc. rewrite <- Permutation_middle. constructor. rewrite <- app_assoc. assumption.
Qed.

(** ** nesting of subsystem records *)
Inductive within : subinfo -> subinfo -> Prop :=
| w_refl : forall s, within s s
| w_step : forall s s1 s2, In s1 (s_subs s) -> within s1 s2 -> within s s2.

Section SubInv.
  Context {T D : Type} {ops : LcsOps T}.
  Notation mgr := (csm T D).

  Definition inner (es : list (edge T)) (m : list string) (u v : string) : Prop :=
    elinked es u v /\ In u m /\ In v m.

  Record intact_e (es : list (edge T)) (s : subinfo) : Prop := {
    in_root : In (s_root s) (s_members s);
    in_common : In (s_common s) (s_members s);
    in_conn : forall a b, In a (s_members s) -> In b (s_members s) ->
                exists p, walk (inner es (s_members s)) a p b
  }.

  Record swf (root : string) (names : list string) (es : list (edge T)) (subs : list subinfo) : Prop := {
    sw_incl : forall s, In s subs -> incl (s_members s) names /\
                (In root (s_members s) -> root = s_common s);
    sw_in : forall s s', In s subs -> within s s' ->
              intact_e es s' /\
              forall s'', In s'' (s_subs s') -> incl (s_members s'') (s_members s') /\
                (In (s_root s') (s_members s'') -> s_root s' = s_common s'')
  }.

  Definition cswf (c : mgr) : Prop := swf (c_root c) (cs_names c) (c_edges c) (c_subs c).

  Lemma swf_nil : forall root names es, swf root names es [].
  Proof. intros. split; intros s; [ intros [] | intros s' [] ]. Qed.

  Lemma intact_mono : forall es es' s,
    (forall u v, In u (s_members s) -> In v (s_members s) -> elinked es u v -> elinked es' u v) ->
    intact_e es s -> intact_e es' s.
  Proof.
    intros es es' s H [A B C]. split; [ assumption | assumption | ].
    intros a b Ha Hb. destruct (C a b Ha Hb) as [p W]. exists p.
    eapply walk_mono; [ | exact W ]. intros u v (L & Hu & Hv). split; [ apply H; assumption | auto ].
  Qed.

  Lemma swf_mono : forall root names names' es es' subs, swf root names es subs ->
    incl names names' -> (forall u v, elinked es u v -> elinked es' u v) ->
    swf root names' es' subs.
  Proof.
    intros root names names' es es' subs W In_ Ie. split.
    - intros s Hs. destruct (sw_incl _ _ _ _ W s Hs) as [A B].
      split; [ | assumption ]. eapply incl_tran; eassumption.
    - intros s s' Hs Hw. destruct (sw_in _ _ _ _ W s s' Hs Hw) as [A B].
      split; [ | assumption ]. eapply intact_mono; [ | exact A ]. intros; apply Ie; assumption.
  Qed.

  Lemma within_members : forall root names es subs, swf root names es subs -> forall s s',
    In s subs -> within s s' -> incl (s_members s') (s_members s).
  Proof.
    intros root names es subs W s s' Hs Hw.
    assert (K : forall a s', within a s' -> within s a -> incl (s_members s') (s_members a)).
    { clear Hw s'. intros a s' Hw. induction Hw as [a|a s1 s2 Hin Hw IH]; intros Ha; [ apply incl_refl | ].
      assert (within s s1) as W1.
      { clear -Ha Hin. induction Ha as [x|x y z Hy Hz IHz]; [ | eapply w_step; [ exact Hy | apply IHz; exact Hin ] ].
        eapply w_step; [ exact Hin | constructor ]. }
      eapply incl_tran; [ apply IH; exact W1 | ].
      apply (sw_in _ _ _ _ W s a Hs Ha). assumption. }
    apply (K s s' Hw). constructor.
  Qed.

  Lemma swf_subset : forall root names es subs subs', swf root names es subs -> incl subs' subs ->
    swf root names es subs'.
  Proof.
    intros root names es subs subs' W I. split.
    - intros s Hs. apply (sw_incl _ _ _ _ W). apply I. assumption.
    - intros s s' Hs. apply (sw_in _ _ _ _ W). apply I. assumption.
  Qed.

  Lemma swf_restrict : forall root names es subs (keep : string -> bool), swf root names es subs ->
    (forall s y, In s subs -> In y (s_members s) -> keep y = true) ->
    forall names', (forall x, In x names -> keep x = true -> In x names') ->
    swf root names' (filter (both keep) es) subs.
  Proof.
    intros root names es subs keep W K names' Hn. split.
    - intros s Hs. destruct (sw_incl _ _ _ _ W s Hs) as [A B]. split; [ | assumption ].
      intros y Hy. apply Hn; [ apply A; assumption | eapply K; eassumption ].
    - intros s s' Hs Hw. destruct (sw_in _ _ _ _ W s s' Hs Hw) as [A B]. split; [ | assumption ].
      assert (I := within_members _ _ _ _ W _ _ Hs Hw).
      eapply intact_mono; [ | exact A ]. intros u v Hu Hv L. apply filter_elinked.
      split; [ assumption | ]. split; (eapply K; [ exact Hs | apply I; assumption ]).
  Qed.

  (** ** operations *)
  Lemma put_edges_mono : forall es a b t, NoDup (map ekey es) -> a <> b -> forall u v,
    elinked es u v -> elinked (put_edges a b t es) u v.
  Proof. intros. apply put_edges_keys; auto. Qed.

  Lemma add_cs_swf : forall (c : mgr) n p t b, ctree c -> cswf c -> cswf (fst (add_cs c n p t b)).
  Proof.
    intros c n p t b [l G] W. destruct (add_cs c n p t b) as [c' r] eqn:E. cbn [fst].
    assert (N := ew_keys _ (gt_ewf _ _ _ _ G)).
    apply add_cs_cases in E. destruct E as [[-> _]|[(_ & Hn & L & ->)|(_ & Hn & Hp & ->)]].
    - assumption.
    - assert (n <> p).
      { apply elinked_key in L. apply (gtree_ends _ _ _ _ G) in L. tauto. }
      eapply swf_mono; [ exact W | apply incl_refl | ].
      intros u v Luv. cbn [c_edges set_graph]. destruct b; apply put_edges_mono; auto.
    - assert (n <> p) by (intros ->; contradiction).
      eapply swf_mono; [ exact W | | ].
      + unfold cs_names. cbn [c_nodes set_graph]. unfold dkeys. rewrite map_app.
        apply incl_appl. apply incl_refl.
      + intros u v Luv. cbn [c_edges set_graph]. destruct b; apply put_edges_mono; auto.
  Qed.

  Lemma dropped_subs_spec : forall (c : mgr) x ss drop, dropped_subs c x ss = Ok drop ->
    forall s, In s ss ->
    (In x (s_members s) \/ (exists p, shortest_path (c_edges c) (s_root s) (c_root c) = Some p /\ In x p)) ->
    In (s_name s) drop.
  Proof.
    intros c x ss. induction ss as [|s0 ss IH]; intros drop H s Hs Hx; [ destruct Hs | ].
    cbn [dropped_subs] in H.
    destruct (smem x (s_members s0)) eqn:M.
    - cbn [bind] in H. destruct (dropped_subs c x ss) as [q|] eqn:E; [ | discriminate ].
      cbn [bind] in H. injection H as <-. destruct Hs as [->|Hs]; [ left; reflexivity | right; eauto ].
    - destruct (shortest_path (c_edges c) (s_root s0) (c_root c)) as [p|] eqn:P; [ | discriminate ].
      cbn [bind] in H. destruct (dropped_subs c x ss) as [q|] eqn:E; [ | discriminate ].
      cbn [bind] in H. injection H as <-. destruct Hs as [->|Hs].
      + destruct Hx as [Hx|(p' & Hp' & Hx)].
        * apply smem_In in Hx. congruence.
        * assert (p' = p) as -> by congruence. apply smem_In in Hx. rewrite Hx. left; reflexivity.
      + assert (In (s_name s) q) by eauto. destruct (smem x p); [ right; assumption | assumption ].
  Qed.

  Lemma dropped_subs_sound : forall (c : mgr) x ss drop, dropped_subs c x ss = Ok drop ->
    forall n, In n drop -> exists s, In s ss /\ s_name s = n /\
    (In x (s_members s) \/ (exists p, shortest_path (c_edges c) (s_root s) (c_root c) = Some p /\ In x p)).
  Proof.
    intros c x ss. induction ss as [|s0 ss IH]; intros drop H n Hn.
    - injection H as <-. destruct Hn.
    - cbn [dropped_subs] in H.
      destruct (smem x (s_members s0)) eqn:M.
      + cbn [bind] in H. destruct (dropped_subs c x ss) as [q|] eqn:E; [ | discriminate ].
        cbn [bind] in H. injection H as <-. destruct Hn as [<-|Hn].
        * exists s0. apply smem_In in M. split; [ left; reflexivity | auto ].
        * destruct (IH _ eq_refl _ Hn) as (s & Hs & K). exists s. split; [ right; assumption | exact K ].
      + destruct (shortest_path (c_edges c) (s_root s0) (c_root c)) as [p|] eqn:P; [ | discriminate ].
        cbn [bind] in H. destruct (dropped_subs c x ss) as [q|] eqn:E; [ | discriminate ].
        cbn [bind] in H. injection H as <-. destruct (smem x p) eqn:Mp.
        * destruct Hn as [<-|Hn].
          -- exists s0. apply smem_In in Mp. split; [ left; reflexivity | ]. split; [ reflexivity | ].
             right. exists p. auto.
          -- destruct (IH _ eq_refl _ Hn) as (s & Hs & K). exists s. split; [ right; assumption | exact K ].
        * destruct (IH _ eq_refl _ Hn) as (s & Hs & K). exists s. split; [ right; assumption | exact K ].
  Qed.

  Lemma dropped_subs_ok : forall (c : mgr) l x, ctree_by c l -> forall ss,
    (forall s, In s ss -> In (s_root s) (cs_names c)) ->
    exists drop, dropped_subs c x ss = Ok drop.
  Proof.
    intros c l x G. induction ss as [|s ss IH]; intros H; [ exists []; reflexivity | ].
    cbn [dropped_subs]. destruct IH as [q ->]; [ intros s' Hs; apply H; right; assumption | ].
    assert (Hs := H s (or_introl eq_refl)).
    assert (Hr : exists p, shortest_path (c_edges c) (s_root s) (c_root c) = Some p).
    { assert (Hv := Hs). apply (gt_names _ _ _ _ G) in Hv.
      destruct (root_path _ _ (gt_grows _ _ _ _ G) _ Hv) as (p & S & _).
      exists p. eapply gtree_sp; eassumption. }
    destruct Hr as [p ->].
    destruct (smem x (s_members s)); cbn [bind]; eauto.
  Qed.

  (** the condition under which a subsystem is dropped *)
  Lemma path_anc : forall (c : mgr) l x a p, ctree_by c l -> In a (cs_names c) ->
    shortest_path (c_edges c) a (c_root c) = Some p -> In x p <-> anc l x a.
  Proof.
    intros c l x a p G Ha H. apply shortest_path_simple in H.
    apply (anc_dec_path _ _ (gt_grows _ _ _ _ G)).
    apply (walk_iff _ _ (gt_adj _ _ _ _ G)). assumption.
  Qed.

  Lemma subsystem_outside : forall (c : mgr) l x s, ctree_by c l -> cswf c -> In s (c_subs c) ->
    ~ In x (s_members s) -> ~ anc l x (s_root s) ->
    forall y, In y (s_members s) -> ~ anc l x y.
  Proof.
    intros c l x s G W Hs Hx Hr y Hy A.
    destruct (sw_in _ _ _ _ W s s Hs (w_refl s)) as [[Ir Ic Cn] _].
    destruct (Cn y (s_root s) Hy Ir) as [p Wp].
    apply Hx. eapply (walk_nodes _ (fun z => In z (s_members s))); [ | exact Hy | exact Wp | ].
    - intros u v (_ & H); exact H.
    - eapply (leave_subtree _ _ (gt_grows _ _ _ _ G) x); [ | exact Wp | exact A | exact Hr ].
      intros u v (L & _). apply (gt_adj _ _ _ _ G). exact L.
  Qed.

  Lemma dropped_iff : forall (c : mgr) l x s, ctree_by c l -> cswf c -> In s (c_subs c) ->
    (In x (s_members s) \/ (exists p, shortest_path (c_edges c) (s_root s) (c_root c) = Some p /\ In x p))
    <-> exists y, In y (s_members s) /\ anc l x y.
  Proof.
    intros c l x s G W Hs.
    destruct (sw_in _ _ _ _ W s s Hs (w_refl s)) as [[Ir Ic Cn] _].
    destruct (sw_incl _ _ _ _ W s Hs) as [Inc _].
    split.
    - intros [H|(p & Hp & Hx)].
      + exists x. split; [ assumption | apply anc_refl ].
      + exists (s_root s). split; [ assumption | ].
        eapply path_anc; [ exact G | apply Inc; exact Ir | exact Hp | exact Hx ].
    - intros (y & Hy & A).
      destruct (in_dec string_dec x (s_members s)) as [|Hn]; [ auto | right ].
      assert (Hv := Inc _ Ir). apply (gt_names _ _ _ _ G) in Hv.
      destruct (root_path _ _ (gt_grows _ _ _ _ G) _ Hv) as (p & S & _).
      exists p. split; [ eapply gtree_sp; [ exact G | apply Inc; exact Ir | exact S ] | ].
      apply (anc_dec_path _ _ (gt_grows _ _ _ _ G) x _ _ S).
      destruct (in_dec string_dec x p) as [Hp|Hp];
        [ apply (anc_dec_path _ _ (gt_grows _ _ _ _ G) x _ _ S); assumption | ].
      exfalso. eapply subsystem_outside; [ exact G | exact W | exact Hs | exact Hn | | exact Hy | exact A ].
      intros A'. apply Hp. apply (anc_dec_path _ _ (gt_grows _ _ _ _ G) x _ _ S). assumption.
  Qed.

  Lemma delete_cs_swf : forall (c : mgr) x b, ctree c -> cswf c -> cswf (fst (delete_cs c x b)).
  Proof.
    intros c x b [l G] W.
    destruct (delete_cs_cases c l x b G) as [(_ & ->)|[(_ & ->)|[(e & -> & _)|(drop & ch & Hx & Hr & _ & _ & I & Dr & ->)]]];
      cbn [fst]; try assumption.
    unfold cswf. cbn [c_root c_subs c_edges set_subs restrict set_graph].
    eapply (swf_restrict (c_root c) (cs_names c)).
    - eapply swf_subset; [ exact W | ]. intros s H. apply filter_In in H. apply H.
    - intros s y Hs Hy. apply filter_In in Hs. destruct Hs as [Hs K].
      apply negb_true_iff, smem_false in K. apply (keep_spec l x ch I).
      intros A. apply K. eapply dropped_subs_spec; [ exact Dr | exact Hs | ].
      eapply dropped_iff; [ exact G | exact W | exact Hs | ]. eauto.
    - intros y Hy K. apply (restrict_names (fun n => negb (smem n (ch ++ [x]))) c). auto.
  Qed.

  Lemma set_data_swf : forall root names es subs f, swf root names es subs ->
    swf root names es (map (fun s => s_set_data (f s) s) subs).
  Proof.
    intros root names es subs f W. 
    assert (P : forall s g, s_members (s_set_data g s) = s_members s /\ s_root (s_set_data g s) = s_root s /\
              s_common (s_set_data g s) = s_common s /\ s_subs (s_set_data g s) = s_subs s)
      by (intros [? ? ? ? ? ? ?] g; cbn; auto).
    split.
    - intros s H. apply in_map_iff in H. destruct H as (s0 & <- & H).
      destruct (P s0 (f s0)) as (-> & _ & -> & _). apply (sw_incl _ _ _ _ W). assumption.
    - intros s s' H Hw. apply in_map_iff in H. destruct H as (s0 & <- & H).
      destruct (P s0 (f s0)) as (E1 & E2 & E3 & E4).
      inversion Hw as [|? s1 ? Hin Hw']; subst.
      + destruct (sw_in _ _ _ _ W s0 s0 H (w_refl s0)) as [[A B C] K].
        rewrite E2, E4. rewrite E1. split; [ | assumption ]. split.
        * rewrite E1, E2. assumption.
        * rewrite E1, E3. assumption.
        * rewrite E1. assumption.
      + rewrite E4 in Hin. apply (sw_in _ _ _ _ W s0 s' H). econstructor; eassumption.
  Qed.

  Lemma assign_data_swf : forall f (c : mgr) v k ref tg, cswf c -> cswf (fst (assign_data f c v k ref tg)).
  Proof.
    intros f c v k ref tg W. unfold assign_data.
    assert (P : forall n w, cswf (fst (match node_data c n with
              | None => (c, Err KeyError)
              | Some d => (set_nodes (dset n (dset k w d) (c_nodes c)) c, Ok tt)
              end))).
    { intros n w. destruct (node_data c n) as [d|] eqn:E; cbn [fst]; [ | assumption ].
      unfold cswf, cs_names. cbn [c_root c_nodes c_edges c_subs set_nodes set_graph].
      rewrite dset_keys_old; [ exact W | ]. apply dget_key. eauto. }
    destruct (smem k (data_names c)); [ assumption | ].
    destruct (negb (has_cs c ref)); [ assumption | ].
    destruct tg as [tg|]; [ | apply P ].
    destruct (negb (has_cs c tg)); [ assumption | ].
    destruct (f v ref tg); [ apply P | assumption ].
  Qed.

  Lemma delete_data_swf : forall (c : mgr) k, cswf c -> cswf (fst (delete_data c k)).
  Proof.
    intros c k W. unfold delete_data. cbn [c_nodes set_subs].
    assert (W' := set_data_swf _ _ _ _ (fun s => filter (fun n => negb (String.eqb k n)) (s_data s)) W).
    destruct (pop_data (c_nodes c) k) as [ns|] eqn:E; cbn [fst].
    - unfold cswf, cs_names. cbn [c_root c_nodes c_edges c_subs set_nodes set_graph set_subs].
      rewrite (pop_data_keys _ _ _ E). exact W'.
    - exact W'.
  Qed.

  Lemma merge_swf : forall (c o : mgr), ctree c -> cswf c -> ctree o -> cswf o -> cswf (fst (merge c o)).
  Proof.
    intros c o [l G] W [lo Go] Wo.
    destruct (merge_cases c o) as [[e ->]|(m & dc & d_o & F & _ & _ & E1 & E2 & ->)]; cbn [fst]; [ assumption | ].
    destruct (single_common _ _ _ F) as (Mc & Mo & Mi).
    assert (Ed := edges_disjoint _ _ _ _ _ _ _ _ m G Go Mi).
    assert (Ec : compose_edges (c_edges c) (c_edges o) = c_edges c ++ c_edges o).
    { apply compose_edges_new; [ apply (ew_keys _ (gt_ewf _ _ _ _ Go)) | assumption ]. }
    destruct (compose_nodes_keys (c_nodes o) (c_nodes c) (gt_nodup _ _ _ _ G)) as [Nn In_].
    unfold cswf. cbn [c_root c_subs c_edges set_subs set_graph]. rewrite Ec.
    set (names' := cs_names _).
    assert (Nc : incl (cs_names c) names').
    { intros x Hx. unfold names', cs_names. cbn [c_nodes set_subs set_graph].
      apply dset_keys. right. apply In_. left. assumption. }
    assert (No : incl (cs_names o) names').
    { intros x Hx. unfold names', cs_names. cbn [c_nodes set_subs set_graph].
      apply dset_keys. right. apply In_. right. assumption. }
    assert (Wc : swf (c_root c) names' (c_edges c ++ c_edges o) (c_subs c)).
    { eapply swf_mono; [ exact W | exact Nc | ]. intros u v L. apply app_elinked. auto. }
    assert (Wo' : swf (c_root o) names' (c_edges c ++ c_edges o) (c_subs o)).
    { eapply swf_mono; [ exact Wo | exact No | ]. intros u v L. apply app_elinked. auto. }
    assert (Ro : In (c_root o) (cs_names o)) by (apply (gt_names _ _ _ _ Go); left; reflexivity).
    assert (Rc : In (c_root c) (cs_names c)) by (apply (gt_names _ _ _ _ G); left; reflexivity).
    split.
    - intros s Hs. apply in_app_or in Hs. destruct Hs as [Hs|[<-|[]]].
      + apply (sw_incl _ _ _ _ Wc). assumption.
      + split; [ exact No | ]. cbn [info_of s_members s_common]. intros H. apply Mi; assumption.
    - intros s s' Hs Hw. apply in_app_or in Hs. destruct Hs as [Hs|[<-|[]]].
      + apply (sw_in _ _ _ _ Wc s s'); assumption.
      + inversion Hw as [|? s1 ? Hin Hw']; subst.
        * split.
          -- split; cbn [info_of s_members s_common s_root]; [ assumption | assumption | ].
             intros a b Ha Hb.
             apply (gt_names _ _ _ _ Go) in Ha. apply (gt_names _ _ _ _ Go) in Hb.
             destruct (tree_connected _ _ (gt_grows _ _ _ _ Go) _ _ Ha Hb) as (p & [Wp _]).
             exists p. eapply walk_mono; [ | exact Wp ]. intros u v A.
             split; [ apply app_elinked; right; apply (gt_adj _ _ _ _ Go); assumption | ].
             destruct (adjl_verts _ _ (gt_grows _ _ _ _ Go) _ _ A).
             split; apply (gt_names _ _ _ _ Go); assumption.
          -- intros s'' Hin. cbn [info_of s_subs s_members s_root] in *.
             destruct (sw_incl _ _ _ _ Wo s'' Hin) as [I R]. auto.
        * cbn [info_of s_subs] in Hin. apply (sw_in _ _ _ _ Wo' s1 s'); assumption.
  Qed.

  Lemma strip_subs_same : forall ss (c : mgr),
    c_root (fst (strip_subs c ss)) = c_root c /\ cs_names (fst (strip_subs c ss)) = cs_names c /\
    c_edges (fst (strip_subs c ss)) = c_edges c /\ c_subs (fst (strip_subs c ss)) = c_subs c /\
    c_name (fst (strip_subs c ss)) = c_name c /\ c_ref (fst (strip_subs c ss)) = c_ref c.
  Proof.
    induction ss as [|s ss IH]; intros c; cbn [strip_subs]; [ auto 10 | ].
    destruct (sub_common_neighbors c s); [ | auto 10 ].
    destruct (node_data c (s_common s)) as [d|] eqn:E; [ | auto 10 ].
    match goal with |- context [strip_subs ?c1 ss] => assert (H := IH c1) end.
    destruct H as (A & B & C & E' & F & H).
    match goal with |- context [strip_subs ?c1 ss] => destruct (strip_subs c1 ss) as [c2 [q|e]] end;
      cbn [fst] in *; rewrite A, B, C, E', F, H; unfold cs_names;
      cbn [c_root c_nodes c_edges c_subs c_name c_ref set_nodes set_graph];
      (rewrite dset_keys_old; [ auto 10 | ]); apply dget_key; eauto.
  Qed.

  Lemma delete_all_swf : forall ns (c : mgr), ctree c -> cswf c -> cswf (fst (delete_all c ns)).
  Proof.
    induction ns as [|n ns IH]; intros c G W; cbn [delete_all]; [ assumption | ].
    assert (G1 := delete_cs_ctree c n true G). assert (W1 := delete_cs_swf c n true G W).
    destruct (delete_cs c n true) as [c1 [u|e]]; cbn [fst] in *; [ apply IH | ]; assumption.
  Qed.

  Lemma remove_subsystems_swf : forall (c : mgr), ctree c -> cswf c -> cswf (fst (remove_subsystems c)).
  Proof.
    intros c G W. unfold remove_subsystems. assert (G1 := strip_subs_ctree (c_subs c) c G).
    destruct (strip_subs_same (c_subs c) c) as (A & B & C & E & _).
    destruct (strip_subs c (c_subs c)) as [c1 [del|e]]; cbn [fst] in *.
    - apply delete_all_swf; [ destruct G1 as [l G1]; exists l; exact G1 | apply swf_nil ].
    - unfold cswf. rewrite A, B, C, E. exact W.
  Qed.

  (** ** extraction *)
  Lemma extract_sub_inv : forall (c : mgr) s sub, ctree c -> cswf c -> In s (c_subs c) ->
    extract_sub c s = Ok sub -> ctree sub /\ cswf sub.
  Proof.
    intros c s sub [l G] W Hs E. unfold extract_sub in E.
    set (keep := fun n => smem n (s_members s)).
    assert (Kk : forall n, keep n = true <-> In n (s_members s)) by (intros n; apply smem_In).
    change (fun nd : string * dict D => smem (fst nd) (s_members s))
      with (fun nd : string * dict D => keep (fst nd)) in E.
    change (fun e : edge T => smem (e_src e) (s_members s) && smem (e_dst e) (s_members s))
      with (both (T := T) keep) in E. clearbody keep.
    destruct (dget (s_common s) _) as [d|] eqn:E1; [ | discriminate ].
    destruct (node_data c (s_common s)) as [dc|]; [ | discriminate ].
    injection E as <-.
    set (d' := filter _ d : dict D).
    destruct (sw_incl _ _ _ _ W s Hs) as [Inc _].
    destruct (sw_in _ _ _ _ W s s Hs (w_refl s)) as [[Ir Ic Cn] Nest].
    destruct (gtree_reroot _ _ _ _ G (s_root s) (Inc _ Ir)) as [l' G'].
    assert (CP : grows (s_root s) (filter (fun cp => keep (fst cp)) l') /\
                 (forall y p, In (y, p) l' -> keep y = true -> keep p = true)).
    { apply connected_part; [ apply G' | apply Kk; exact Ir | ].
      intros a _ Ha. apply Kk in Ha. destruct (Cn a (s_root s) Ha Ir) as [p Wp].
      exists p. eapply walk_mono; [ | exact Wp ]. intros u v (L & Hu & Hv).
      split; [ apply (gt_adj _ _ _ _ G'); assumption | ]. split; apply Kk; assumption. }
    destruct CP as [Gf Kp].
    assert (Nk : dkeys (V := dict D) (dset (V := dict D) (s_common s) d' (filter (fun nd => keep (fst nd)) (c_nodes c))) =
                 dkeys (filter (fun nd => keep (fst nd)) (c_nodes c))).
    { apply dset_keys_old. apply dget_key. eauto. }
    assert (In_ : forall x, In x (dkeys (filter (fun nd => keep (fst nd)) (c_nodes c))) <->
                  In x (cs_names c) /\ keep x = true) by (intros x; apply filter_keys_In).
    split.
    - exists (filter (fun cp => keep (fst cp)) l'). split; cbn [c_root c_edges].
      + assumption.
      + unfold cs_names. cbn [c_nodes]. rewrite Nk. apply NoDup_filter_keys. apply G.
      + intros x. unfold cs_names. cbn [c_nodes]. rewrite Nk, In_.
        rewrite prune_verts by (apply Kk; exact Ir). rewrite (gt_names _ _ _ _ G'). reflexivity.
      + apply (filter_ewf keep). apply G.
      + intros u v. rewrite (filter_elinked keep), (gt_adj _ _ _ _ G'). symmetry.
        eapply prune_adj; [ apply G' | exact Kp ].
    - unfold cswf, cs_names. cbn [c_root c_nodes c_edges c_subs]. rewrite Nk. split.
      + intros s1 H1. destruct (Nest s1 H1) as [I R]. split; [ | exact R ].
        intros y Hy. apply In_. assert (In y (s_members s)) by (apply I; assumption).
        split; [ apply Inc; assumption | apply Kk; assumption ].
      + intros s1 s' H1 Hw.
        assert (Hw' : within s s') by (econstructor; eassumption).
        destruct (sw_in _ _ _ _ W s s' Hs Hw') as [A B]. split; [ | assumption ].
        eapply intact_mono; [ | exact A ]. intros u v Hu Hv L. apply (filter_elinked keep).
        assert (Im := within_members _ _ _ _ W _ _ Hs Hw').
        split; [ assumption | ]. split; apply Kk; apply Im; assumption.
  Qed.

  (** ** relabel *)
  Definition redge (f : string -> string) (e : edge T) : edge T :=
    Edge (f (e_src e)) (f (e_dst e)) (e_tr e) (e_def e).

  Lemma Permutation_ewf : forall es es', Permutation es es' -> ewf es -> ewf es'.
  Proof.
    intros es es' P W. split.
    - eapply Permutation_NoDup; [ apply Permutation_map; exact P | apply W ].
    - intros e H De. apply (Permutation_in _ (Permutation_sym P)) in H.
      destruct (ew_rev _ W _ H De) as (t & E & R). exists t. split; [ assumption | ].
      eapply Permutation_in; eassumption.
    - intros e H De. apply (Permutation_in _ (Permutation_sym P)) in H.
      destruct (ew_def _ W _ H De) as (t & R & E). exists t. split; [ | assumption ].
      eapply Permutation_in; eassumption.
  Qed.

  Lemma Permutation_elinked : forall (es es' : list (edge T)) u v, Permutation es es' ->
    elinked es u v <-> elinked es' u v.
  Proof.
    intros es es' u v P. unfold elinked. split; intros (e & H & K); exists e; (split; [ | exact K ]).
    - eapply Permutation_in; eassumption.
    - eapply Permutation_in; [ apply Permutation_sym; exact P | assumption ].
  Qed.

  Lemma map_ewf : forall (f : string -> string) (V : string -> Prop) es, ewf es ->
    (forall u v, elinked es u v -> V u /\ V v) ->
    (forall x y, V x -> V y -> f x = f y -> x = y) -> ewf (map (redge f) es).
  Proof.
    intros f V es W HV Inj. split.
    - rewrite map_map. assert (N := ew_keys _ W).
      assert (HV' : forall e, In e es -> V (e_src e) /\ V (e_dst e)).
      { intros e H. apply HV. exists e. auto. }
      clear -N HV' Inj. induction es as [|e es IH]; cbn [map]; [ constructor | ].
      inversion N as [|? ? Nin N']; subst. constructor.
      + intros H. apply in_map_iff in H. destruct H as (e' & E & H). apply Nin.
        apply in_map_iff. exists e'. split; [ | assumption ].
        unfold ekey, redge in *. cbn [e_src e_dst] in E. injection E as Ea Eb.
        destruct (HV' e (or_introl eq_refl)), (HV' e' (or_intror H)).
        f_equal; apply Inj; assumption.
      + apply IH; [ assumption | ]. intros e' H. apply HV'. right; assumption.
    - intros e H De. apply in_map_iff in H. destruct H as (e0 & <- & H).
      destruct (ew_rev _ W _ H De) as (t & E & R). exists t. split; [ assumption | ].
      apply in_map_iff. eexists. split; [ | exact R ]. reflexivity.
    - intros e H De. apply in_map_iff in H. destruct H as (e0 & <- & H).
      destruct (ew_def _ W _ H De) as (t & R & E). exists t. split; [ | assumption ].
      apply in_map_iff. eexists. split; [ | exact R ]. reflexivity.
  Qed.

  Lemma relabel_edges : forall (c : mgr) l old new, ctree_by c l -> ~ In new (cs_names c) -> old <> new ->
    let outs := filter (fun e => String.eqb (e_src e) old) (c_edges c) in
    let ins := filter (fun e => String.eqb (e_dst e) old) (c_edges c) in
    let kept := filter (both (fun m => negb (String.eqb old m))) (c_edges c) in
    compose_edges kept (map (redge (ren old new)) (outs ++ ins)) =
      kept ++ map (redge (ren old new)) (outs ++ ins) /\
    Permutation (kept ++ map (redge (ren old new)) (outs ++ ins)) (map (redge (ren old new)) (c_edges c)).
  Proof.
    intros c l old new G Hn Hon outs ins kept.
    assert (En : forall e, In e (c_edges c) -> In (e_src e) (cs_names c) /\ In (e_dst e) (cs_names c) /\ e_src e <> e_dst e).
    { intros e H. apply (gtree_ends _ _ _ _ G). apply elinked_key. exists e. auto. }
    assert (Rk : map (redge (ren old new)) kept = kept).
    { unfold kept. assert (H : forall e, In e (filter (both (fun m => negb (String.eqb old m))) (c_edges c)) ->
                redge (ren old new) e = e).
      { intros [s d tr df] H. apply filter_In in H. destruct H as [_ K]. unfold both in K.
        cbn [e_src e_dst] in K. apply andb_true_iff in K. destruct K as [K1 K2].
        unfold redge, ren. cbn [e_src e_dst e_tr e_def].
        destruct (String.eqb_spec s old) as [->|]; [ rewrite String.eqb_refl in K1; discriminate | ].
        destruct (String.eqb_spec d old) as [->|]; [ rewrite String.eqb_refl in K2; discriminate | ].
        reflexivity. }
      revert H. generalize (filter (both (fun m => negb (String.eqb old m))) (c_edges c)) as k.
      induction k as [|e k IH]; intros H; [ reflexivity | ]. cbn [map].
      rewrite H by (left; reflexivity). f_equal. apply IH. intros e' He'. apply H. right; assumption. }
    assert (P : Permutation (kept ++ map (redge (ren old new)) (outs ++ ins)) (map (redge (ren old new)) (c_edges c))).
    { rewrite <- Rk at 1. rewrite <- map_app. apply Permutation_map. unfold kept, outs, ins.
      apply partition3. intros e He. destruct (En e He) as (_ & _ & Hne). unfold both.
      rewrite !(String.eqb_sym old).
      destruct (String.eqb_spec (e_src e) old) as [E1|]; destruct (String.eqb_spec (e_dst e) old) as [E2|];
        cbn [negb andb]; auto. congruence. }
    split; [ | exact P ].
    assert (Wm : ewf (map (redge (ren old new)) (c_edges c))).
    { apply (map_ewf _ (fun x => In x (cs_names c))); [ apply G | | ].
      - intros u v L. apply elinked_key in L. apply (gtree_ends _ _ _ _ G) in L. tauto.
      - intros x y Hx Hy. unfold ren.
        destruct (String.eqb_spec x old) as [->|]; destruct (String.eqb_spec y old) as [->|]; intros E; subst; auto; contradiction. }
    apply (Permutation_ewf _ _ (Permutation_sym P)) in Wm. apply ew_keys in Wm. rewrite map_app in Wm.
    apply compose_edges_new.
    - revert Wm. generalize (map ekey kept) as a. clear.
      induction a as [|x a IH]; intros N; [ assumption | ].
      cbn [app] in N. inversion N; subst. apply IH. assumption.
    - intros k H1 H2. revert Wm H1 H2. generalize (map ekey kept) as a.
      generalize (map ekey (map (redge (ren old new)) (outs ++ ins))) as b. intros b a. clear.
      induction a as [|x a IH]; intros N H1 H2; [ destruct H2 | ].
      cbn [app] in N. inversion N as [|? ? Nin N']; subst. destruct H2 as [->|H2].
      + apply Nin. apply in_or_app. auto.
      + apply IH; assumption.
  Qed.

  Lemma elinked_map : forall f (es : list (edge T)) u v, elinked (map (redge f) es) u v <->
    exists u0 v0, elinked es u0 v0 /\ u = f u0 /\ v = f v0.
  Proof.
    intros f es u v. unfold elinked. split.
    - intros (e & H & <- & <-). apply in_map_iff in H. destruct H as (e0 & <- & H).
      exists (e_src e0), (e_dst e0). split; [ eauto | auto ].
    - intros (u0 & v0 & (e & H & <- & <-) & -> & ->). exists (redge f e).
      split; [ apply in_map; assumption | auto ].
  Qed.

  Lemma relabel_graph_gtree : forall (c : mgr) l old new, ctree_by c l -> ~ In new (cs_names c) ->
    In old (cs_names c) ->
    gtree (ren old new (c_root c)) (cs_names (relabel_graph old new c)) (c_edges (relabel_graph old new c))
          (map (rpair (ren old new)) l).
  Proof.
    intros c l old new G Hn Ho.
    assert (Hon : old <> new) by (intros ->; contradiction).
    assert (Inj : forall x y, In x (cs_names c) -> In y (cs_names c) -> ren old new x = ren old new y -> x = y).
    { intros x y Hx Hy. unfold ren.
      destruct (String.eqb_spec x old) as [->|]; destruct (String.eqb_spec y old) as [->|]; intros E; subst; auto; contradiction. }
    destruct (relabel_edges c l old new G Hn Hon) as [Ec P].
    unfold relabel_graph. assert (Ho' := Ho). apply dget_key in Ho'. destruct Ho' as [d ->].
    destruct (String.eqb_spec old new); [ contradiction | ].
    unfold cs_names. cbn [c_nodes c_edges set_graph remove_node set_nodes].
    change (filter (fun e => negb (String.eqb old (e_src e)) && negb (String.eqb old (e_dst e))) (c_edges c))
      with (filter (both (fun m => negb (String.eqb old m))) (c_edges c)).
    change (fun e : edge T => Edge (ren old new (e_src e)) (ren old new (e_dst e)) (e_tr e) (e_def e))
      with (redge (ren old new)).
    rewrite Ec. split.
    - apply grows_map; [ apply G | ]. intros x y Hx Hy. apply Inj; apply (gt_names _ _ _ _ G); assumption.
    - unfold ddel. apply (NoDup_filter_keys _ (fun k => negb (String.eqb old k))). apply dset_keys_NoDup. apply G.
    - intros x. unfold ddel.
      rewrite (filter_keys_In _ (fun k => negb (String.eqb old k))), dset_keys, verts_map. split.
      + intros [[->|H] K].
        * exists old. split; [ apply (gt_names _ _ _ _ G); assumption | ]. unfold ren. rewrite String.eqb_refl. reflexivity.
        * exists x. split; [ apply (gt_names _ _ _ _ G); assumption | ]. unfold ren.
          rewrite String.eqb_sym. destruct (String.eqb old x); [ discriminate | reflexivity ].
      + intros (y & Hy & ->). apply (gt_names _ _ _ _ G) in Hy. unfold ren.
        destruct (String.eqb_spec y old) as [->|Hyo].
        * split; [ auto | ]. destruct (String.eqb_spec old new); [ contradiction | reflexivity ].
        * split; [ auto | ]. destruct (String.eqb_spec old y); [ congruence | reflexivity ].
    - eapply Permutation_ewf; [ apply Permutation_sym; exact P | ].
      apply (map_ewf _ (fun x => In x (cs_names c))); [ apply G | | assumption ].
      intros u v L. apply elinked_key in L. apply (gtree_ends _ _ _ _ G) in L. tauto.
    - intros u v. rewrite (Permutation_elinked _ _ u v P), elinked_map, adjl_map.
      split; intros (u0 & v0 & L & E); exists u0, v0; (split; [ apply (gt_adj _ _ _ _ G); exact L | exact E ]).
  Qed.

  Lemma extract_subs_nil : forall (c : mgr) ss, extract_subs c ss = Ok [] -> ss = [].
  Proof.
    intros c [|s ss] H; [ reflexivity | ]. cbn [extract_subs] in H.
    destruct (extract_sub c s); [ | discriminate ]. cbn [bind] in H.
    destruct (extract_subs c ss); discriminate.
  Qed.

  Lemma relabel_inv : forall (c : mgr) old new, ctree c -> cswf c -> ~ In new (cs_names c) ->
    ctree (fst (relabel c old new)) /\ cswf (fst (relabel c old new)).
  Proof.
    intros c old new [l G] W Hn. unfold relabel. destruct (subsystems c) as [[|s ss]|] eqn:E.
    2:{ split; [ exists l; assumption | assumption ]. }
    2:{ split; [ exists l; assumption | assumption ]. }
    apply extract_subs_nil in E. cbn [fst].
    set (c1 := if String.eqb (c_root c) old then _ else c).
    assert (R1 : c_root c1 = ren old new (c_root c)).
    { unfold c1, ren. destruct (String.eqb_spec (c_root c) old); reflexivity. }
    assert (N1 : c_nodes c1 = c_nodes c) by (unfold c1; destruct (String.eqb (c_root c) old); reflexivity).
    assert (E1 : c_edges c1 = c_edges c) by (unfold c1; destruct (String.eqb (c_root c) old); reflexivity).
    assert (S1 : c_subs c1 = []) by (unfold c1; destruct (String.eqb (c_root c) old); assumption).
    assert (RG : cs_names (relabel_graph old new c1) = cs_names (relabel_graph old new c) /\
                 c_edges (relabel_graph old new c1) = c_edges (relabel_graph old new c) /\
                 c_subs (relabel_graph old new c1) = [] /\
                 c_root (relabel_graph old new c1) = c_root c1).
    { unfold relabel_graph, cs_names. rewrite N1. destruct (dget old (c_nodes c)).
      - destruct (String.eqb old new).
        + rewrite ?N1, ?E1, ?S1. auto.
        + cbn [c_nodes c_edges c_subs c_root set_graph remove_node set_nodes]. rewrite ?N1, ?E1, ?S1. auto.
      - rewrite ?N1, ?E1, ?S1. auto. }
    destruct RG as (Q1 & Q2 & Q3 & Q4).
    split; [ | unfold cswf; rewrite Q3; apply swf_nil ].
    destruct (in_dec string_dec old (cs_names c)) as [Ho|Ho].
    - exists (map (rpair (ren old new)) l). unfold ctree_by. rewrite Q1, Q2, Q4, R1.
      apply relabel_graph_gtree; assumption.
    - exists l. unfold ctree_by. rewrite Q1, Q2, Q4, R1.
      assert (Rg : relabel_graph old new c = c).
      { unfold relabel_graph. apply dget_none in Ho. rewrite Ho. reflexivity. }
      rewrite Rg. unfold ren. destruct (String.eqb_spec (c_root c) old) as [Er|]; [ | exact G ].
      exfalso. apply Ho. rewrite <- Er. apply (gt_names _ _ _ _ G). left; reflexivity.
  Qed.

  (** ** all reachable managers *)
  Lemma reachable_inv : forall (c : mgr), reachable c -> ctree c /\ cswf c.
  Proof.
    intros c H. induction H as [root name ref|c o Hc [G W] Ho IHo|c old new Hc [G W] Hn|c s sub Hc [G W] Hs E].
    - split; [ apply new_ctree | apply swf_nil ].
    - destruct o as [n r t b|x b|f v k r tg|k|other|]; cbn [run_op].
      + split; [ apply add_cs_ctree | apply add_cs_swf ]; assumption.
      + split; [ apply delete_cs_ctree | apply delete_cs_swf ]; assumption.
      + split; [ apply assign_data_ctree | apply assign_data_swf ]; assumption.
      + split; [ apply delete_data_ctree | apply delete_data_swf ]; assumption.
      + destruct (IHo other eq_refl) as [Go Wo].
        split; [ apply merge_ctree | apply merge_swf ]; assumption.
      + split; [ apply remove_subsystems_ctree | apply remove_subsystems_swf ]; assumption.
    - apply relabel_inv; assumption.
    - eapply extract_sub_inv; eassumption.
  Qed.

  Lemma reachable_is_tree : forall (c : mgr), reachable c -> is_tree c.
  Proof. intros c H. apply gtree_is_tree. apply reachable_inv. assumption. Qed.
End SubInv.
