(** C97: choosing sources and transformations of equipment. C98: equipment and data of the
    signals of a chain. C99: equality of chains. *)
From Coq Require Import List String Ascii Bool Arith ZArith Lia.
From Verif Require Import Base MeasModel MeasSpec MeasFacts MeasProps EquipModel EquipSpec EquipFacts.
Import ListNotations.
Open Scope string_scope.
Open Scope list_scope.

(** ** C97 *)
(** Equipment can be created iff no two sources and no two transformations have the same name. *)
Theorem c97_created : forall {U : Type} name ss (ts : list (@transf U)),
  (mk_equipment name ss ts = Ok (Eq name ss ts) <-> NoDup (map src_name ss) /\ NoDup (map t_name ts)) /\
  (mk_equipment name ss ts = Err ValueError <-> ~ (NoDup (map src_name ss) /\ NoDup (map t_name ts))).
Proof.
  intros U name ss ts. unfold mk_equipment. rewrite <- !duplicates_iff.
  destruct (duplicates (map src_name ss)), (duplicates (map t_name ts)); split; split; intro H; try discriminate; try reflexivity;
    try (split; reflexivity); try (intros [A B]; discriminate); try (destruct H; discriminate); exfalso; apply H; auto.
Qed.
Print Assumptions c97_created.

(** Sources and transformations are found by their names. *)
Theorem c97_found : forall {U : Type} name ss (ts : list (@transf U)) e n,
  mk_equipment name ss ts = Ok e ->
  (forall s, get_source e n = Ok s <-> In s ss /\ src_name s = n) /\
  (get_source e n = Err KeyError <-> ~ In n (map src_name ss)) /\
  (forall t, find_transformation e n = Ok t <-> In t ts /\ t_name t = n) /\
  (find_transformation e n = Err KeyError <-> ~ In n (map t_name ts)).
Proof.
  intros U name ss ts e n M. assert (e = Eq name ss ts) as ->.
  { unfold mk_equipment in M. destruct (duplicates _); [discriminate|]. destruct (duplicates _); [discriminate|]. congruence. }
  apply c97_created in M. destruct M as [N1 N2]. unfold get_source, find_transformation. simpl.
  rewrite <- !find_name_none. split; [|split; [|split]].
  - intro s. rewrite <- (find_name src_name ss n s N1). destruct (find _ ss); split; congruence.
  - destruct (find _ ss); split; congruence.
  - intro t. rewrite <- (find_name t_name ts n t N2). destruct (find _ ts); split; congruence.
  - destruct (find _ ts); split; congruence.
Qed.
Print Assumptions c97_found.

Lemma ok_inj : forall {A} (a b : A), Ok a = Ok b -> a = b.
Proof. intros A a b H. exact (match H in _ = x return match x with Ok y => a = y | Err _ => True end with eq_refl => eq_refl end). Qed.

(** A chain is created from equipment iff it has just one source, or several and the
    given name is that of one; it is the chain of that source and knows the equipment. *)
Theorem c97_chain : forall {U D : Type} (w : @eworld U D) name (e : @equipment U) n r,
  NoDup (map src_name (q_sources e)) ->
  (from_equipment w name e n = Ok r <->
   exists s, In s (q_sources e) /\ r = new w name s (Some e) /\
     (q_sources e = [s] \/ List.length (q_sources e) > 1 /\ n = Some (src_name s))).
Proof.
  intros U D w name e n r N. unfold from_equipment, choose, get_source.
  destruct (q_sources e) as [|a [|b l]] eqn:Es; cbv beta iota delta [bind].
  - split; [discriminate|intros [s [[] _]]].
  - split.
    + intro H. exists a. split; [left; reflexivity|]. split; [symmetry; exact (ok_inj _ _ H)|left; reflexivity].
    + intros [s [I [-> _]]]. destruct I as [->|[]]. reflexivity.
  - destruct n as [n|]; cbv beta iota delta [bind].
    + pose proof (find_name src_name (a :: b :: l) n) as F. destruct (find _ (a :: b :: l)) as [s|]; cbv beta iota delta [bind]; split.
      * intro H. exists s. destruct (proj1 (F s N) eq_refl) as [I E]. split; [exact I|]. split; [symmetry; exact (ok_inj _ _ H)|].
        right. split; [simpl; lia|congruence].
      * intros [s' [I [-> [X|[_ X]]]]]; [discriminate X|]. injection X as ->.
        pose proof (proj2 (F s' N) (conj I eq_refl)) as Y. injection Y as ->. reflexivity.
      * discriminate.
      * intros [s' [I [-> [X|[_ X]]]]]; [discriminate X|]. injection X as ->. discriminate (proj2 (F s' N) (conj I eq_refl)).
    + split; [discriminate|]. intros [s' [I [-> [X|[_ X]]]]]; discriminate X.
Qed.
Print Assumptions c97_chain.

(** The failures: no source, or several and no name, is a [ValueError]; a name that does
    not occur among several is a [KeyError]. *)
Theorem c97_chain_errors : forall {U D : Type} (w : @eworld U D) name (e : @equipment U) n,
  (from_equipment w name e n = Err ValueError <->
   q_sources e = [] \/ List.length (q_sources e) > 1 /\ n = None) /\
  (from_equipment w name e n = Err KeyError <->
   List.length (q_sources e) > 1 /\ exists m, n = Some m /\ ~ In m (map src_name (q_sources e))).
Proof.
  intros U D w name e n. unfold from_equipment, choose, get_source.
  destruct (q_sources e) as [|a [|b l]] eqn:Es; cbv beta iota delta [bind].
  - split; split; intro H; auto; try discriminate. destruct H as [H _]. simpl in H. lia.
  - split; split; intro H; try discriminate; [destruct H as [H|[H _]]|destruct H as [H _]]; try discriminate; simpl in H; lia.
  - destruct n as [n|]; cbv beta iota delta [bind].
    + pose proof (find_name_none src_name (a :: b :: l) n) as F. destruct (find _ (a :: b :: l)) as [s|]; cbv beta iota delta [bind]; split; split; intro H; try discriminate.
      * destruct H as [H|[_ H]]; discriminate.
      * destruct H as [_ [m [E H]]]. injection E as <-. discriminate (proj2 F H).
      * destruct H as [H|[_ H]]; discriminate.
      * split; [simpl; lia|]. exists n. split; [reflexivity|]. apply F. reflexivity.
      * reflexivity.
    + split; split; intro H; try discriminate; try reflexivity.
      * right. split; [simpl; lia|reflexivity].
      * destruct H as [_ [m [E _]]]. discriminate.
Qed.
Print Assumptions c97_chain_errors.

(** Adding a transformation of equipment adds exactly what [add_transformation] adds for
    the chosen transformation; it is the only one, or that with the given name. *)
Theorem c97_transformation : forall {U D : Type} (w : @eworld U D) c (e : @equipment U) data n m w' c' r,
  NoDup (map t_name (q_transfs e)) -> proper w c ->
  add_from_equipment w c e data n m = (w', c', r) ->
  (exists t, In t (q_transfs e) /\ (q_transfs e = [t] \/ List.length (q_transfs e) > 1 /\ m = Some (t_name t)) /\
     add_transformation (e_world w) (ec_chain c) t data n = (e_world w', ec_chain c', r)) \/
  (w' = w /\ c' = c /\
   ((r = Err ValueError /\ (q_transfs e = [] \/ List.length (q_transfs e) > 1 /\ m = None)) \/
    (r = Err KeyError /\ List.length (q_transfs e) > 1 /\ exists k, m = Some k /\ ~ In k (map t_name (q_transfs e))))).
Proof.
  intros U D w c e data n m w' c' r N P H. unfold add_from_equipment in H.
  destruct (choose (q_transfs e) (find_transformation e) m) as [t|x] eqn:C.
  - left. exists t. split; [exact (chosen_in _ _ _ C)|]. split.
    + unfold choose, find_transformation in C. destruct (q_transfs e) as [|a [|b l]] eqn:Es; [discriminate| |].
      * injection C as ->. left. reflexivity.
      * right. split; [simpl; lia|]. destruct m as [m|]; [|discriminate].
        destruct (find _ (a :: b :: l)) as [y|] eqn:F; [|discriminate]. injection C as ->. apply find_some in F.
        destruct F as [_ F]. apply String.eqb_eq in F. congruence.
    + assert (A : forall i, node_name (e_world w) (ec_chain c) n = Ok i -> 
               add_transformation (e_world w) (ec_chain c) t data (Some i) = (e_world w', ec_chain c', r)).
      { intros i NN. rewrite NN in H. destruct (add_transformation (e_world w) (ec_chain c) t data (Some i)) as [[w1 c1] r1] eqn:A.
        destruct r1 as [[]|x]; [|injection H as <- <- <-; reflexivity].
        pose proof (add_transformation_effect _ _ _ _ _ _ _ _ (proj1 P) A) as E.
        assert (c_prev c1 = Some (t_name t) /\ In (i, t_name t, t) (g_edges (graph_at w1 c1))) as [Pr Ie].
        { unfold add_transformation in A. simpl in A. destruct (has_node _ i); [|discriminate].
          destruct (node_signal _ _ i) as [s|]; [|discriminate]. destruct (output_signal t s data); [|discriminate].
          unfold add_signal in A. destruct (has_node _ (t_name t)); [discriminate|]. injection A as <- <-. split; [reflexivity|].
          unfold add_edge, graph_at. simpl. rewrite upd_same by (rewrite upd_length; apply P). simpl. apply in_app_iff. right. left. reflexivity. }
        rewrite Pr in H. assert (existsb (fun x => edge_is i (t_name t) (fst x)) (g_edges (graph_at w1 c1)) = true) as X.
        { apply existsb_exists. exists (i, t_name t, t). split; [exact Ie|]. apply edge_is_iff. reflexivity. }
        rewrite X in H. injection H as <- <- <-. reflexivity. }
      destruct (node_name (e_world w) (ec_chain c) n) as [i|x] eqn:NN.
      * rewrite <- (A i eq_refl). unfold add_transformation. rewrite NN. simpl.
        destruct (has_node (graph_at (e_world w) (ec_chain c)) i) eqn:HN; [reflexivity|].
        unfold node_signal. unfold has_node, dmem in HN. destruct (dget i _); [discriminate|]. reflexivity.
      * injection H as <- <- <-. unfold add_transformation. rewrite NN. reflexivity.
  - right. injection H as <- <- <-. split; [reflexivity|]. split; [reflexivity|]. unfold choose, find_transformation in C.
    destruct (q_transfs e) as [|a [|b l]] eqn:Es.
    + injection C as <-. left. auto.
    + discriminate.
    + destruct m as [m|].
      * pose proof (find_name_none t_name (a :: b :: l) m) as F. destruct (find _ (a :: b :: l)); [discriminate|]. injection C as <-.
        right. split; [reflexivity|]. split; [simpl; lia|]. exists m. split; [reflexivity|]. apply F. reflexivity.
      * injection C as <-. left. split; [reflexivity|]. right. split; [simpl; lia|reflexivity].
Qed.
Print Assumptions c97_transformation.

(** A chain made from parameters has a signal of its own, so that no other chain is
    affected by what is done with it. *)
Theorem c97_parameters : forall {U D : Type} (w : @eworld U D) name sname ty u data,
  ((exists r, from_parameters w name sname ty u data = Ok r) <-> ty = "analog" \/ ty = "digital") /\
  (forall w' c, from_parameters w name sname ty u data = Ok (w', c) ->
     (exists t, type_name t = ty /\ get_signal (e_world w') (ec_chain c) sname = Ok (Sig t u data)) /\
     src_name (c_src (ec_chain c)) = sname /\ ec_equip c = None /\ ec_name c = name /\
     forall d, well (e_world w) d -> separate (e_world w') (ec_chain c) d /\ view (e_world w') d = view (e_world w) d).
Proof.
  intros U D w name sname ty u data.
  assert (K : forall t w' c, type_name t = ty ->
    new (EW (W (w_sigs (e_world w) ++ [Sig t u data]) (w_graphs (e_world w))) (e_edges w)) name
        (Src sname (List.length (w_sigs (e_world w)))) None = (w', c) ->
     (exists t, type_name t = ty /\ get_signal (e_world w') (ec_chain c) sname = Ok (Sig t u data)) /\
     src_name (c_src (ec_chain c)) = sname /\ ec_equip c = None /\ ec_name c = name /\
     forall d, well (e_world w) d -> separate (e_world w') (ec_chain c) d /\ view (e_world w') d = view (e_world w) d).
  { intros t w' c T H. unfold new in H. 
    destruct (new_chain _ _) as [w1 c1] eqn:NC in H. injection H as <- <-. simpl. split; [|split; [|split; [|split]]]; try reflexivity.
    - exists t. split; [exact T|]. injection NC as <- <-. unfold get_signal, node_signal, graph_at. simpl.
      rewrite app_nth2, Nat.sub_diag by lia. simpl. rewrite String.eqb_refl. rewrite nth_error_app2, Nat.sub_diag by lia. reflexivity.
    - injection NC as <- <-. reflexivity.
    - intros d [DG DR].
      assert (V : view (W (w_sigs (e_world w) ++ [Sig t u data]) (w_graphs (e_world w))) d = view (e_world w) d).
      { unfold view. f_equal. apply map_ext_in. intros [m q] I. simpl. f_equal. apply nth_error_app1. apply DR. apply (in_map snd) in I. exact I. }
      destruct (c39_new (W (w_sigs (e_world w) ++ [Sig t u data]) (w_graphs (e_world w))) (Src sname (List.length (w_sigs (e_world w)))) d w1 c1)
        as [_ [_ [S E]]]; [simpl; rewrite app_length; simpl; lia| | |exact NC|split; [exact S|rewrite E; exact V]].
      + split; [exact DG|]. intros r I. simpl. rewrite app_length. apply DR in I. lia.
      + simpl. intro I. apply DR in I. lia. }
  unfold from_parameters. destruct (String.eqb_spec ty "analog") as [E|E1].
  - split; [split; [auto|intros _; eexists; reflexivity]|]. intros w' c H. apply (K Analog w' c (eq_sym E)). injection H as H1 H2. rewrite <- H1, <- H2. apply surjective_pairing.
  - destruct (String.eqb_spec ty "digital") as [E|E2].
    + split; [split; [auto|intros _; eexists; reflexivity]|]. intros w' c H. apply (K Digital w' c (eq_sym E)). injection H as H1 H2. rewrite <- H1, <- H2. apply surjective_pairing.
    + split; [split; [intros [r X]; discriminate X|intros [X|X]; contradiction]|]. intros w' c X. discriminate X.
Qed.
Print Assumptions c97_parameters.

Definition sensor2 : source := Src "second" 1.
Definition kit : @equipment (Z * Z) := Eq "kit" [sensor] [amplify; digitise].
Definition kit2 : @equipment (Z * Z) := Eq "kit2" [sensor; sensor2] [amplify].
Definition ew0 : @eworld (Z * Z) nat := EW (W [Sig Analog volt None; Sig Digital volt None] []) [].

Example ex_c97 :
  mk_equipment "kit" [sensor] [amplify; digitise] = Ok kit /\
  mk_equipment "kit" [sensor; Src "sensor" 4] [amplify; digitise] = Err ValueError /\
  mk_equipment "kit" [] [amplify; digitise; amplify] = Err ValueError /\
  from_equipment ew0 "c" kit2 (Some "second") = Ok (new ew0 "c" sensor2 (Some kit2)) /\
  from_equipment ew0 "c" kit2 (Some "third") = Err KeyError /\
  from_equipment ew0 "c" kit2 None = Err ValueError /\
  from_parameters ew0 "c" "s" "Analog" volt None = Err ValueError.
Proof. vm_compute. repeat split. Qed.

(** It is not true that the given name is that of the source: with a single source it is
    not looked at. *)
Theorem c97_name_refuted :
  ~ (forall (w : @eworld (Z * Z) nat) name e n r, from_equipment w name e (Some n) = Ok r -> src_name (c_src (ec_chain (snd r))) = n).
Proof. intro H. pose proof (H ew0 "c" kit "other" _ eq_refl) as X. discriminate X. Qed.
Print Assumptions c97_name_refuted.

(** ** C98 *)
(** [get_equipment] of a signal is the equipment of the call that added it ([None] if
    there was none), and a [KeyError] iff there is no such signal. *)
Theorem c98_equipment : forall {U D : Type} (uo : unit_ops U) (w : @eworld U D) c log,
  ebuilt uo w c log ->
  map fst log = names (egraph w c) /\ NoDup (map fst log) /\
  forall n, get_equipment w c n = match dget n log with Some q => Ok q | None => Err KeyError end.
Proof.
  intros U D uo w c log B. destruct (ebuilt_inv uo _ _ _ B) as [[WL T] NM RF LE LN IE IS IF ISo].
  split; [exact LN|]. split; [rewrite LN; apply (rt_names _ _ T)|]. intro n. unfold get_equipment.
  destruct (String.eqb_spec n (src_name (c_src (ec_chain c)))) as [->|N]; [rewrite IS; reflexivity|].
  fold (egraph w c). destruct (find _ (g_edges (egraph w c))) as [[[u v] t]|] eqn:F.
  - apply find_some in F. destruct F as [I E]. simpl in E. apply String.eqb_eq in E. subst v. rewrite (IE u n t I). reflexivity.
  - destruct (dget n log) as [q|] eqn:G; [|reflexivity]. exfalso. apply dget_in in G. apply (in_map fst) in G. rewrite LN in G.
    destruct (rt_in _ _ T n G N) as [u [I _]]. unfold links in I. apply in_map_iff in I. destruct I as [x [E I]].
    apply (find_none _ _ F) in I. rewrite E in I. simpl in I. rewrite String.eqb_refl in I. discriminate.
Qed.
Print Assumptions c98_equipment.

(** The equipment of a signal has the transformation that makes the signal, that of the
    source signal has the source. *)
Theorem c98_origin : forall {U D : Type} (uo : unit_ops U) (w : @eworld U D) c log n e,
  ebuilt uo w c log -> get_equipment w c n = Ok (Some e) ->
  (n = src_name (c_src (ec_chain c)) /\ In (c_src (ec_chain c)) (q_sources e)) \/
  exists t, get_transformation (e_world w) (ec_chain c) n = Ok t /\ In t (q_transfs e).
Proof.
  intros U D uo w c log n e B H. destruct (ebuilt_inv uo _ _ _ B) as [[WL T] NM RF LE LN IE IS IF ISo].
  unfold get_equipment in H. destruct (String.eqb_spec n (src_name (c_src (ec_chain c)))) as [->|N].
  - left. split; [reflexivity|]. apply ISo. congruence.
  - right. fold (egraph w c) in H. destruct (find _ (g_edges (egraph w c))) as [[[u v] t]|] eqn:F; [|discriminate].
    exists t. unfold get_transformation. fold (egraph w c). pose proof F as F'. rewrite F'. split; [reflexivity|].
    apply find_some in F. destruct F as [I E]. simpl in E, H. apply String.eqb_eq in E. subst v.
    destruct (find _ _) as [[[a b] q]|] eqn:Q in H; [|discriminate]. injection H as ->. apply find_some in Q. destruct Q as [Iq Eq].
    apply edge_is_iff in Eq. simpl in Eq. injection Eq as -> ->. destruct (IF _ _ _ Iq) as [t' [I' It]].
    assert (t' = t) as <-; [|exact It].
    assert (G : forall (l : list (string * string * @transf U)), NoDup (map fst l) -> forall k x y, In (k, x) l -> In (k, y) l -> x = y).
    { induction l as [|[k0 x0] l IH]; intros ND k x y Ix Iy; [destruct Ix|]. simpl in ND. inversion ND as [|? ? N1 N2]; subst.
      destruct Ix as [Ix|Ix], Iy as [Iy|Iy].
      - congruence.
      - injection Ix as -> ->. exfalso. apply N1. apply (in_map fst) in Iy. exact Iy.
      - injection Iy as -> ->. exfalso. apply N1. apply (in_map fst) in Ix. exact Ix.
      - eapply IH; eauto. }
    exact (G _ (rt_once _ _ T) _ _ _ I' I).
Qed.
Print Assumptions c98_origin.

(** A failing call changes nothing. *)
Theorem c98_failing : forall {U D : Type} (uo : unit_ops U) (w : @eworld U D) c log o w' c' e,
  ebuilt uo w c log -> run_eop uo w c o = (w', c', Err e) -> w' = w /\ c' = c.
Proof.
  intros U D uo w c log o w' c' e B H. pose proof (iv_proper _ _ _ (ebuilt_inv uo _ _ _ B)) as [WL _].
  destruct (eop_effect uo w c o w' c' _ WL H) as [E [En [Ee X]]].
  destruct X as [[X _]|[q [i [t [sg [_ [_ [X _]]]]]]]]; [|discriminate X].
  destruct w as [w x], w' as [w' x'], c as [n c q], c' as [n' c' q']. simpl in *. inversion E; subst. auto.
Qed.
Print Assumptions c98_failing.

(** Data that was attached to a signal stays what it is. *)
Theorem c98_data_kept : forall {U D : Type} (uo : unit_ops U) (w : @eworld U D) c log o w' c' r n d,
  ebuilt uo w c log -> run_eop uo w c o = (w', c', r) ->
  get_signal_data w c (Some n) = Ok d -> get_signal_data w' c' (Some n) = Ok d.
Proof.
  intros U D uo w c log o w' c' r n d B H G. pose proof (iv_proper _ _ _ (ebuilt_inv uo _ _ _ B)) as P.
  pose proof (iv_proper _ _ _ (inv_op uo _ _ _ _ _ _ _ (ebuilt_inv uo _ _ _ B) H)) as P'.
  apply (data_iff w c n d P) in G. apply (data_iff w' c' n d P'). destruct G as [s [NS Sd]].
  destruct (eop_effect uo w c o w' c' _ (proj1 P) H) as [E _].
  destruct (effect_signal _ _ _ _ _ n s (proj1 P) E NS) as [s' [NS' K]]. exists s'. auto.
Qed.
Print Assumptions c98_data_kept.

(** Data can be attached iff the signal exists and has none; then it is found there, and
    the data of the other signals is as before. *)
Theorem c98_data_added : forall {U D : Type} (uo : unit_ops U) (w : @eworld U D) c log d n,
  ebuilt uo w c log ->
  ((exists w' c', run_eop uo w c (EOp (OData d (Some n))) = (w', c', Ok tt)) <->
   In n (names (egraph w c)) /\ get_signal_data w c (Some n) = Err KeyError) /\
  (forall w' c', run_eop uo w c (EOp (OData d (Some n))) = (w', c', Ok tt) ->
     get_signal_data w' c' (Some n) = Ok d /\
     forall m, m <> n -> get_signal_data w' c' (Some m) = get_signal_data w c (Some m)).
Proof.
  intros U D uo w c log d n B. destruct (ebuilt_inv uo _ _ _ B) as [[[WG WR] T] NM RF LE LN IE IS IF ISo].
  unfold run_eop, run_op, add_signal_data, get_signal_data. simpl node_name. fold (egraph w c).
  destruct (has_node (egraph w c) n) eqn:HN.
  - assert (In n (names (egraph w c))) as I by (apply has_node_iff; exact HN). simpl bind.
    unfold node_signal. destruct (dget_key_in _ _ I) as [r Er]. rewrite Er.
    assert (r < List.length (w_sigs (e_world w))) as Lr.
    { apply WR. apply dget_in in Er. apply (in_map snd) in Er. exact Er. }
    destruct (nth_error (w_sigs (e_world w)) r) as [s|] eqn:Es; [|apply nth_error_None in Es; lia].
    destruct (s_data s) as [x|] eqn:Sx; simpl.
    + rewrite Sx. split; [split; [intros [w' [c' X]]; discriminate X|intros [_ X]; discriminate X]|]. intros w' c' X. discriminate X.
    + rewrite Sx. split; [split; [auto|intros _; eexists; eexists; reflexivity]|]. intros w' c' X. injection X as <- <-. simpl.
      unfold graph_at. simpl. fold (graph_at (e_world w) (ec_chain c)). fold (egraph w c). rewrite HN. simpl. rewrite Er. rewrite upd_same_e by exact Lr. simpl.
      split; [reflexivity|]. intros m Nm. destruct (has_node (egraph w c) m); [|reflexivity]. simpl. fold (graph_at (e_world w) (ec_chain c)). fold (egraph w c).
      destruct (dget m (g_nodes (egraph w c))) as [r'|] eqn:Er'; [|reflexivity].
      rewrite upd_other_e; [reflexivity|]. intros ->. apply Nm. eapply refs_inj; eauto.
  - split; [split; [intros [w' [c' X]]; discriminate X|]|intros w' c' X; discriminate X].
    intros [I _]. apply has_node_iff in I. congruence.
Qed.
Print Assumptions c98_data_added.

Definition ex_run := fold_left (fun wc o => let '(w, c, _) := run_eop zu (fst wc) (snd wc) o in (w, c))
  [EEquip kit None None (Some "amplify"); EOp (OData 7 None); EEquip kit None None (Some "amplify");
   EOp (OCreate "direct" (Some "digital") None None None (Some "sensor")); EEquip kit2 None (Some "direct") None]
  (new ew0 "c" sensor (Some kit)).
Example ex_c98 :
  names (egraph (fst ex_run) (snd ex_run)) = ["sensor"; "amplify"; "direct"] /\
  get_equipment (fst ex_run) (snd ex_run) "sensor" = Ok (Some kit) /\
  get_equipment (fst ex_run) (snd ex_run) "amplify" = Ok (Some kit) /\
  get_equipment (fst ex_run) (snd ex_run) "direct" = Ok None /\
  get_equipment (fst ex_run) (snd ex_run) "digitise" = Err KeyError /\
  get_signal_data (fst ex_run) (snd ex_run) (Some "amplify") = Ok 7 /\
  get_signal_data (fst ex_run) (snd ex_run) None = Err KeyError /\
  get_signal_data (fst ex_run) (snd ex_run) (Some "sensor") = Err KeyError.
Proof. vm_compute. repeat split. Qed.

(** ** C99 *)
Section C99.
  Context {U D : Type} (sig_eqb : @signal U D -> @signal U D -> bool) (equip_eqb : @equipment U -> @equipment U -> bool).
  Notation equal := (chain_eqb sig_eqb equip_eqb).

  (** Chains are equal iff name, source, equipment of the source, the signals under each
      name and the connected pairs are. *)
  Theorem c99_equal : forall (w : @eworld U D) c d, proper w c -> proper w d ->
    src_sig (c_src (ec_chain c)) < List.length (w_sigs (e_world w)) ->
    src_sig (c_src (ec_chain d)) < List.length (w_sigs (e_world w)) ->
    (equal w c d = true <->
     ec_name c = ec_name d /\
     src_name (c_src (ec_chain c)) = src_name (c_src (ec_chain d)) /\
     (exists s t, nth_error (w_sigs (e_world w)) (src_sig (c_src (ec_chain c))) = Some s /\
                  nth_error (w_sigs (e_world w)) (src_sig (c_src (ec_chain d))) = Some t /\ sig_eqb s t = true) /\
     (ec_equip c = None /\ ec_equip d = None \/
      exists a b, ec_equip c = Some a /\ ec_equip d = Some b /\ equip_eqb a b = true) /\
     same_signals sig_eqb w c d /\
     forall u v, In (u, v) (links (egraph w c)) <-> In (u, v) (links (egraph w d))).
  Proof.
    intros w c d [[GC RC] TC] [[GD RD] TD] LC LD. unfold chain_eqb.
    rewrite !andb_true_iff, !String.eqb_eq. fold (egraph w c). fold (egraph w d).
    rewrite (nodes_eqb_iff sig_eqb (e_world w) (egraph w c) (egraph w d) (rt_names _ _ TC) (rt_names _ _ TD) RC RD).
    rewrite (edges_eqb_iff (egraph w c) (egraph w d) (rt_once _ _ TC) (rt_once _ _ TD)).
    unfold same_signals, get_signal. fold (egraph w c). fold (egraph w d). unfold at_eqb.
    destruct (nth_error (w_sigs (e_world w)) (src_sig (c_src (ec_chain c)))) as [s|] eqn:Es; [|apply nth_error_None in Es; lia].
    destruct (nth_error (w_sigs (e_world w)) (src_sig (c_src (ec_chain d)))) as [t|] eqn:Et; [|apply nth_error_None in Et; lia].
    split.
    - intros [[[[A [B C]] Q] N] L]. split; [exact A|]. split; [exact B|]. split; [exists s, t; auto|]. split; [|auto].
      destruct (ec_equip c) as [a|], (ec_equip d) as [b|]; try discriminate; [right; exists a, b; auto|left; auto].
    - intros [A [B [[s' [t' [Es' [Et' C]]]] [Q [N L]]]]]. injection Es' as <-. injection Et' as <-.
      split; [split; [split; [split; [exact A|split; [exact B|exact C]]|]|exact N]|exact L].
      destruct Q as [[-> ->]|[a [b [-> [-> Q]]]]]; [reflexivity|exact Q].
  Qed.

  (** It is an equivalence if equality of signals and equipment is. *)
  Theorem c99_equivalence :
    (forall s, sig_eqb s s = true) -> (forall s t, sig_eqb s t = true -> sig_eqb t s = true) ->
    (forall s t u, sig_eqb s t = true -> sig_eqb t u = true -> sig_eqb s u = true) ->
    (forall s, equip_eqb s s = true) -> (forall s t, equip_eqb s t = true -> equip_eqb t s = true) ->
    (forall s t u, equip_eqb s t = true -> equip_eqb t u = true -> equip_eqb s u = true) ->
    forall w, let ok (c : @echain U) := proper w c /\ src_sig (c_src (ec_chain c)) < List.length (w_sigs (e_world w)) in
    (forall c, ok c -> equal w c c = true) /\
    (forall c d, ok c -> ok d -> equal w c d = true -> equal w d c = true) /\
    (forall c d f, ok c -> ok d -> ok f -> equal w c d = true -> equal w d f = true -> equal w c f = true).
  Proof.
    intros sr ss st er es et w ok. split; [|split].
    - intros c [P L]. apply c99_equal; auto. split; [reflexivity|]. split; [reflexivity|]. split; [|split; [|split; [|reflexivity]]].
      + destruct (nth_error (w_sigs (e_world w)) (src_sig (c_src (ec_chain c)))) as [s|] eqn:Es; [|apply nth_error_None in Es; lia].
        exists s, s. auto.
      + destruct (ec_equip c) as [a|]; [right; exists a, a; auto|left; auto].
      + intro n. destruct (get_signal _ _ n); auto.
    - intros c d [P L] [P' L'] H. apply c99_equal in H; auto. apply c99_equal; auto.
      destruct H as [A [B [[s [t [Es [Et C]]]] [Q [N K]]]]]. split; [auto|]. split; [auto|]. split; [exists t, s; auto|]. split; [|split].
      + destruct Q as [[X Y]|[a [b [X [Y Q]]]]]; [left; auto|right; exists b, a; auto].
      + intro n. specialize (N n). destruct (get_signal _ (ec_chain c) n), (get_signal _ (ec_chain d) n); auto.
      + intros u v. symmetry. apply K.
    - intros c d f [P L] [P' L'] [P'' L''] H H'. apply c99_equal in H; auto. apply c99_equal in H'; auto. apply c99_equal; auto.
      destruct H as [A [B [[s [t [Es [Et C]]]] [Q [N K]]]]]. destruct H' as [A' [B' [[s' [t' [Es' [Et' C']]]] [Q' [N' K']]]]].
      rewrite Et in Es'. injection Es' as <-. split; [congruence|]. split; [congruence|]. split; [exists s, t'; eauto|]. split; [|split].
      + destruct Q as [[X Y]|[a [b [X [Y Q]]]]]; destruct Q' as [[X' Y']|[a' [b' [X' [Y' Q']]]]]; try congruence; [left; auto|].
        rewrite Y in X'. injection X' as <-. right. exists a, b'. eauto.
      + intro n. specialize (N n). specialize (N' n).
        destruct (get_signal _ (ec_chain c) n), (get_signal _ (ec_chain d) n), (get_signal _ (ec_chain f) n); auto; try contradiction. eauto.
      + intros u v. rewrite K. apply K'.
  Qed.
End C99.
Print Assumptions c99_equal.
Print Assumptions c99_equivalence.

(** Two chains of one sensor that add the same signal, but with different
    transformations and one of them by a piece of equipment. *)
Definition plain : @transf (Z * Z) := Tf "amplify" None (Some (Analog, Analog)).
Definition zsig_eqb (s t : @signal (Z * Z) nat) : bool :=
  sigtype_eqb (s_type s) (s_type t) && (Z.eqb (fst (s_unit s)) (fst (s_unit t)) && Z.eqb (snd (s_unit s)) (snd (s_unit t))) &&
  match s_data s, s_data t with Some a, Some b => Nat.eqb a b | None, None => true | _, _ => false end.
Definition two :=
  let '(w, c) := new ew0 "c" sensor None in
  let '(w, c, _) := run_eop zu w c (EEquip (Eq "kit" [] [amplify]) None None None) in
  let '(w, d) := new w "c" sensor None in
  let '(w, d, _) := run_eop zu w d (EOp (OAdd plain None None)) in (w, c, d).

(** It is not true that equal chains have the same transformations and equipment. *)
Theorem c99_transformations_refuted :
  let '(w, c, d) := two in
  chain_eqb zsig_eqb (fun _ _ => true) w c d = true /\
  get_transformation (e_world w) (ec_chain c) "amplify" = Ok amplify /\
  get_transformation (e_world w) (ec_chain d) "amplify" = Ok plain /\ amplify <> plain /\
  get_equipment w c "amplify" <> get_equipment w d "amplify".
Proof.
  vm_compute. split; [reflexivity|]. split; [reflexivity|]. split; [reflexivity|]. split; discriminate.
Qed.
Print Assumptions c99_transformations_refuted.

Example ex_c99 :
  let '(w, c, d) := two in
  (let '(w', c', _) := run_eop zu w c (EOp (OData 3 None)) in chain_eqb zsig_eqb (fun _ _ => true) w' c' d) = false /\
  (let '(w', c', _) := run_eop zu w c (EOp (OData 3 (Some "sensor"))) in chain_eqb zsig_eqb (fun _ _ => true) w' c' d) = true /\
  (let '(w', c', _) := run_eop zu w c (EOp (OAdd digitise None (Some "sensor"))) in chain_eqb zsig_eqb (fun _ _ => true) w' c' d) = false /\
  chain_eqb zsig_eqb (fun _ _ => true) w c (EC "d" (ec_chain d) None) = false.
Proof. vm_compute. repeat split. Qed.
