(** Lemmas about measurement chains. *)
From Coq Require Import List String Ascii Bool Arith Lia.
From Verif Require Import Base MeasModel MeasSpec.
Import ListNotations.

Section Upd.
  Context {A : Type}.
  Lemma upd_length : forall (l : list A) n x, List.length (upd n x l) = List.length l.
  Proof. induction l; destruct n; simpl; intros; auto. Qed.
  Lemma upd_same : forall (l : list A) n x d, n < List.length l -> nth n (upd n x l) d = x.
  Proof. induction l; destruct n; simpl; intros; try lia; auto. apply IHl. lia. Qed.
  Lemma upd_other : forall (l : list A) n m x d, n <> m -> nth m (upd n x l) d = nth m l d.
  Proof. induction l; destruct n, m; simpl; intros; auto; try congruence. Qed.
  Lemma upd_same_e : forall (l : list A) n x, n < List.length l -> nth_error (upd n x l) n = Some x.
  Proof. induction l; destruct n; simpl; intros; try lia; auto. apply IHl. lia. Qed.
  Lemma upd_other_e : forall (l : list A) n m x, n <> m -> nth_error (upd n x l) m = nth_error l m.
  Proof. induction l; destruct n, m; simpl; intros; auto; try congruence. Qed.
  Lemma upd_app : forall (l : list A) n x y, n < List.length l -> upd n x (l ++ [y]) = upd n x l ++ [y].
  Proof. induction l; destruct n; simpl; intros; try lia; auto. f_equal. apply IHl. lia. Qed.
  Lemma upd_twice : forall (l : list A) n x y, upd n y (upd n x l) = upd n y l.
  Proof. induction l; destruct n; simpl; intros; auto. f_equal; auto. Qed.
End Upd.

Lemma dget_in : forall {V : Type} n (d : dict V) v, dget n d = Some v -> In (n, v) d.
Proof.
  induction d as [|[k w] d IH]; simpl; intros v H; [discriminate|].
  destruct (String.eqb n k) eqn:E; [apply String.eqb_eq in E; subst; injection H as ->; auto | auto].
Qed.
Lemma dget_key_in : forall {V : Type} n (d : dict V), In n (map fst d) -> exists v, dget n d = Some v.
Proof.
  induction d as [|[k w] d IH]; simpl; intros H; [tauto|].
  destruct (String.eqb n k) eqn:E; [eauto | apply IH]. destruct H as [H|H]; auto. subst. rewrite String.eqb_refl in E. discriminate.
Qed.
Lemma dget_nodup : forall {V : Type} n (d : dict V) v, NoDup (map fst d) -> In (n, v) d -> dget n d = Some v.
Proof.
  induction d as [|[k w] d IH]; simpl; intros v N H; [tauto|]. inversion N; subst.
  destruct H as [H|H]. { injection H as -> ->. rewrite String.eqb_refl. reflexivity. }
  destruct (String.eqb n k) eqn:E; [|auto]. apply String.eqb_eq in E. subst. exfalso. apply H2. apply (in_map fst) in H. exact H.
Qed.
Lemma dmem_in : forall {V : Type} n (d : dict V), dmem n d = true <-> In n (map fst d).
Proof.
  intros V n d. unfold dmem. destruct (dget n d) eqn:E.
  - split; auto. intros _. apply dget_in in E. apply (in_map fst) in E. exact E.
  - split; [discriminate|]. intro H. apply dget_key_in in H. destruct H as [v H]. congruence.
Qed.

Section Meas.
  Context {U D : Type} (uo : unit_ops U).
  Notation world := (@world U D).
  Notation chain := (@chain).
  Notation graph := (@graph U).

  (** What a successful call does to the graph of the chain *)
  Definition grown (w : world) (c : chain) (i : string) (t : transf) (o : signal) : world :=
    W (w_sigs w ++ [o])
      (upd (c_graph c) (G (g_nodes (graph_at w c) ++ [(t_name t, List.length (w_sigs w))])
                          (g_edges (graph_at w c) ++ [(i, t_name t, t)])) (w_graphs w)).

  Inductive effect (w : world) (c : chain) : world -> chain -> res unit -> Prop :=
  | e_none : forall e, effect w c w c (Err e)
  | e_add : forall i t s data o,
      node_signal w (graph_at w c) i = Ok s -> ~ In (t_name t) (names (graph_at w c)) ->
      output_signal t s data = Ok o ->
      effect w c (grown w c i t o) (Ch (c_src c) (c_graph c) (Some (t_name t))) (Ok tt)
  | e_data : forall n r s d,
      dget n (g_nodes (graph_at w c)) = Some r -> nth_error (w_sigs w) r = Some s -> s_data s = None ->
      effect w c (W (upd r (Sig (s_type s) (s_unit s) (Some d)) (w_sigs w)) (w_graphs w)) c (Ok tt).

  Lemma add_transformation_effect : forall (w : world) c t data n w' c' r,
    well w c -> add_transformation w c t data n = (w', c', r) -> effect w c w' c' r.
  Proof.
    intros w c t data n w' c' r [WG WR] H. unfold add_transformation in H.
    destruct (node_name w c n) as [i|e] eqn:NN; [|injection H as <- <- <-; constructor].
    destruct (node_signal w (graph_at w c) i) as [s|e] eqn:NS; [|injection H as <- <- <-; constructor].
    destruct (output_signal t s data) as [o|e] eqn:OS; [|injection H as <- <- <-; constructor].
    unfold add_signal in H. destruct (has_node (graph_at w c) (t_name t)) eqn:HN.
    { injection H as <- <- <-. constructor. }
    injection H as <- <- <-.
    assert (E : add_edge (W (w_sigs w ++ [o]) (upd (c_graph c) (G (g_nodes (graph_at w c) ++ [(t_name t, List.length (w_sigs w))]) (g_edges (graph_at w c))) (w_graphs w)))
                 (Ch (c_src c) (c_graph c) (Some (t_name t))) i (t_name t) t = grown w c i t o).
    { unfold add_edge, grown, graph_at. cbn [c_graph w_graphs w_sigs]. rewrite upd_same by exact WG. cbn [g_nodes g_edges]. rewrite upd_twice. reflexivity. }
    rewrite E. eapply e_add; eauto. intro I. apply dmem_in in I. unfold has_node in HN. congruence.
  Qed.

  Lemma op_effect : forall (w : world) c o w' c' r, well w c -> run_op uo w c o = (w', c', r) -> effect w c w' c' r.
  Proof.
    intros w c o w' c' r WL H. destruct o as [t d n|m ty u f d n|d n]; cbn [run_op] in H.
    - eapply add_transformation_effect; eauto.
    - unfold create_transformation in H.
      destruct (node_name w c n) as [i|e]; [|injection H as <- <- <-; constructor].
      destruct (node_signal w (graph_at w c) i) as [s|e]; [|injection H as <- <- <-; constructor].
      match type of H with context [match ?b with Ok _ => _ | Err _ => _ end] => destruct b as [t|e] end;
        [|injection H as <- <- <-; constructor].
      eapply add_transformation_effect; eauto.
    - unfold add_signal_data in H.
      destruct (node_name w c n) as [i|e]; [|injection H as <- <- <-; constructor].
      unfold node_signal in H. destruct (dget i (g_nodes (graph_at w c))) as [k|] eqn:DG; [|injection H as <- <- <-; constructor].
      destruct (nth_error (w_sigs w) k) as [s|] eqn:NE; [|injection H as <- <- <-; constructor].
      destruct (s_data s) eqn:SD; injection H as <- <- <-; [constructor|]. eapply e_data; eauto.
  Qed.

  Lemma graph_grown : forall (w : world) c i t o p, c_graph c < List.length (w_graphs w) ->
    graph_at (grown w c i t o) (Ch (c_src c) (c_graph c) p) =
    G (g_nodes (graph_at w c) ++ [(t_name t, List.length (w_sigs w))]) (g_edges (graph_at w c) ++ [(i, t_name t, t)]).
  Proof. intros. unfold graph_at, grown. cbn [c_graph w_graphs]. rewrite upd_same by auto. reflexivity. Qed.

  Lemma node_signal_name : forall (w : world) (g : graph) n s, node_signal w g n = Ok s -> In n (names g).
  Proof.
    intros w g n s H. unfold node_signal in H. destruct (dget n (g_nodes g)) eqn:E; [|discriminate].
    apply dget_in in E. apply (in_map fst) in E. exact E.
  Qed.

  (** well-formed addresses *)
  Lemma well_effect : forall w c w' c' r, well w c -> effect w c w' c' r -> well w' c'.
  Proof.
    intros w c w' c' r [WG WR] E. destruct E as [e|i t s data o NS NI OS|n k s d DG NE SD].
    - split; auto.
    - split. { cbn [grown w_graphs c_graph]. rewrite upd_length. exact WG. }
      intros q I. unfold refs in I. rewrite graph_grown in I by auto. cbn [g_nodes] in I.
      rewrite map_app, in_app_iff in I. cbn [grown w_sigs]. rewrite app_length. cbn [List.length].
      destruct I as [I|[<-|[]]]. { apply WR in I. lia. } cbn [snd]. lia.
    - split; [exact WG|]. intros q I. cbn [w_sigs]. rewrite upd_length. apply WR. exact I.
  Qed.

  Lemma well_new : forall (w : world) src w' c, src_sig src < List.length (w_sigs w) -> new_chain w src = (w', c) -> well w' c.
  Proof.
    intros w src w' c S H. injection H as <- <-. split; cbn [c_graph w_graphs w_sigs]. { rewrite app_length. cbn. lia. }
    unfold refs, graph_at. cbn [c_graph w_graphs w_sigs]. rewrite app_nth2 by lia. rewrite Nat.sub_diag. cbn.
    intros r [<-|[]]. exact S.
  Qed.

  Lemma built_well : forall w c, built (D:=D) uo w c -> well w c.
  Proof.
    intros w c B. induction B; [eapply well_new; eauto|]. eapply well_effect; eauto. eapply op_effect; eauto.
  Qed.

  Lemma built_run : forall l (w : world) c, built uo w c -> built uo (fst (run uo w c l)) (snd (run uo w c l)).
  Proof.
    induction l as [|o l IH]; intros w c B; cbn [run]; [exact B|].
    destruct (run_op uo w c o) as [[w' c'] r] eqn:E. apply IH. eapply b_op; eauto.
  Qed.

  Lemma path_mono : forall es es' a b, (forall e, In e es -> In e es') -> path es a b -> path es' a b.
  Proof. intros es es' a b S P. induction P; [constructor|]. econstructor; eauto. Qed.

  Lemma tree_grow : forall r (g : graph) i t q,
    rooted_tree r g -> In i (names g) -> ~ In (t_name t) (names g) ->
    rooted_tree r (G (g_nodes g ++ [(t_name t, q)]) (g_edges g ++ [(i, t_name t, t)])).
  Proof.
    intros r g i t q T I N. pose proof (rt_root _ _ T) as RR.
    assert (EN : names (G (g_nodes g ++ [(t_name t, q)]) (g_edges g ++ [(i, t_name t, t)])) = names g ++ [t_name t]).
    { unfold names. cbn [g_nodes]. rewrite map_app. reflexivity. }
    assert (EL : links (G (g_nodes g ++ [(t_name t, q)]) (g_edges g ++ [(i, t_name t, t)])) = links g ++ [(i, t_name t)]).
    { unfold links. cbn [g_edges]. rewrite map_app. reflexivity. }
    split; rewrite ?EN, ?EL.
    - apply in_or_app. auto.
    - apply NoDup_rev in N || idtac. pose proof (rt_names _ _ T) as ND. clear -ND N.
      revert ND N. generalize (names g) as l. induction l; simpl; intros; [constructor; auto; constructor|].
      inversion ND; subst. constructor; [|apply IHl; tauto]. rewrite in_app_iff. simpl. intros [?|[?|[]]]; subst; tauto.
    - intros u v J. rewrite in_app_iff in J. rewrite !in_app_iff. destruct J as [J|[J|[]]].
      + apply (rt_ends _ _ T) in J. tauto.
      + injection J as <- <-. cbn. tauto.
    - intros v J NE. rewrite in_app_iff in J. destruct J as [J|[<-|[]]].
      + destruct (rt_in _ _ T v J NE) as [u [Hu Un]]. exists u. split; [apply in_or_app; auto|].
        intros u' K. rewrite in_app_iff in K. destruct K as [K|[K|[]]]; [auto|]. injection K as <- <-. contradiction.
      + exists i. split; [apply in_or_app; right; left; auto|]. intros u' K. rewrite in_app_iff in K.
        destruct K as [K|[K|[]]]; [|injection K as <-; auto]. apply (rt_ends _ _ T) in K. tauto.
    - pose proof (rt_once _ _ T) as ND.
      assert (NI : ~ In (i, t_name t) (links g)) by (intro K; apply (rt_ends _ _ T) in K; tauto).
      clear -ND NI. revert ND NI. generalize (links g) as l. induction l; simpl; intros; [constructor; auto; constructor|].
      inversion ND; subst. constructor; [|apply IHl; tauto]. rewrite in_app_iff. simpl. intros [?|[?|[]]]; subst; tauto.
    - intros u K. rewrite in_app_iff in K. destruct K as [K|[K|[]]]; [apply (rt_source _ _ T) in K; auto|].
      injection K as <- K. rewrite K in N. contradiction.
    - assert (M : forall a b, path (links g) a b -> path (links g ++ [(i, t_name t)]) a b)
        by (intros a b; apply path_mono; intros; apply in_or_app; auto).
      intros v J. rewrite in_app_iff in J. destruct J as [J|[<-|[]]]; [apply M, (rt_conn _ _ T); auto|].
      apply p_step with i; [apply M, (rt_conn _ _ T); auto|]. apply in_or_app. right. left. auto.
  Qed.

  Lemma effect_src : forall (w : world) c w' c' r, effect w c w' c' r -> c_src c' = c_src c /\ c_graph c' = c_graph c.
  Proof. intros w c w' c' r E. destruct E; auto. Qed.

  Lemma effect_tree : forall x (w : world) c w' c' r, well w c -> effect w c w' c' r ->
    rooted_tree x (graph_at w c) /\ named (graph_at w c) -> rooted_tree x (graph_at w' c') /\ named (graph_at w' c').
  Proof.
    intros x w c w' c' r [WG WR] E [T N]. destruct E as [e|i t s data o NS NI OS|n k s d DG NE SD]; auto.
    rewrite graph_grown by auto. split.
    - apply tree_grow; auto. eapply node_signal_name; eauto.
    - intros u v t' J. cbn [g_edges] in J. rewrite in_app_iff in J. destruct J as [J|[J|[]]]; [eapply N; eauto|].
      injection J as <- <- <-. reflexivity.
  Qed.

  Lemma new_tree : forall (w : world) src w' c, new_chain w src = (w', c) ->
    rooted_tree (src_name src) (graph_at w' c) /\ named (graph_at w' c).
  Proof.
    intros w src w' c H. injection H as <- <-. unfold graph_at. cbn [c_graph w_graphs]. rewrite app_nth2 by lia. rewrite Nat.sub_diag. cbn.
    split; [|intros u v t []]. split; cbn.
    - auto.
    - constructor; auto. constructor.
    - intros u v [].
    - intros v [<-|[]] H. congruence.
    - constructor.
    - intros u [].
    - intros v [<-|[]]. constructor.
  Qed.

  Lemma built_tree : forall w c, built (D:=D) uo w c -> rooted_tree (src_name (c_src c)) (graph_at w c) /\ named (graph_at w c).
  Proof.
    intros w c B. induction B as [w src w' c S H|w c o w' c' r B IH H].
    - pose proof (new_tree _ _ _ _ H) as T. injection H as <- <-. exact T.
    - pose proof (built_well _ _ B) as WL. pose proof (op_effect _ _ _ _ _ _ WL H) as E.
      rewrite (proj1 (effect_src _ _ _ _ _ E)). eapply effect_tree; eauto.
  Qed.

  (** types and units *)
  Lemma output_makes : forall (t : @transf U) (s o : @signal U D) data, output_signal t s data = Ok o -> makes t s o.
  Proof.
    intros t s o data H. unfold output_signal, output_type, output_unit in H. unfold makes.
    destruct (t_type t) as [[x y]|]; destruct (t_func t) as [f|].
    - destruct (sigtype_eqb (s_type s) x) eqn:E; [|discriminate]. cbn [bind] in H.
      destruct (Nat.eqb (f_vars f) 1); [|discriminate]. destruct (f_unit f (s_unit s)) eqn:F; [|discriminate]. injection H as <-. cbn.
      destruct (s_type s), x; try discriminate; auto.
    - destruct (sigtype_eqb (s_type s) x) eqn:E; [|discriminate]. injection H as <-. cbn. destruct (s_type s), x; try discriminate; auto.
    - cbn [bind] in H. destruct (Nat.eqb (f_vars f) 1); [|discriminate]. destruct (f_unit f (s_unit s)) eqn:F; [|discriminate]. injection H as <-. cbn. auto.
    - injection H as <-. cbn. auto.
  Qed.

  (** what signal objects keep: type and unit *)
  Definition keeps (w w' : world) : Prop :=
    forall r s, nth_error (w_sigs w) r = Some s ->
      exists s', nth_error (w_sigs w') r = Some s' /\ s_type s' = s_type s /\ s_unit s' = s_unit s.

  Lemma effect_keeps : forall w c w' c' r, effect w c w' c' r -> keeps w w'.
  Proof.
    intros w c w' c' r E q s0 H. destruct E as [e|i t s data o NS NI OS|n k s d DG NE SD].
    - eauto.
    - exists s0. cbn [grown w_sigs]. rewrite nth_error_app1; [auto|]. apply nth_error_Some. congruence.
    - cbn [w_sigs]. destruct (Nat.eq_dec k q) as [->|N].
      + rewrite upd_same_e by (apply nth_error_Some; congruence). eexists; split; eauto. rewrite NE in H. injection H as ->. auto.
      + rewrite upd_other_e by auto. eauto.
  Qed.

  Definition consistent (w : world) (g : graph) : Prop :=
    forall u v t, In (u, v, t) (g_edges g) -> exists a b,
      node_signal w g u = Ok a /\ node_signal w g v = Ok b /\ makes t a b.

  Lemma makes_keep : forall t (a b a' b' : @signal U D), makes t a b ->
    s_type a' = s_type a -> s_unit a' = s_unit a -> s_type b' = s_type b -> s_unit b' = s_unit b -> makes t a' b'.
  Proof. intros t a b a' b' M A1 A2 B1 B2. unfold makes in *. rewrite A1, A2, B1, B2. exact M. Qed.

  Lemma node_signal_keep : forall w w' (g : graph) n s, keeps w w' -> node_signal w g n = Ok s ->
    exists s', node_signal w' g n = Ok s' /\ s_type s' = s_type s /\ s_unit s' = s_unit s.
  Proof.
    intros w w' g n s K H. unfold node_signal in *. destruct (dget n (g_nodes g)) as [r|]; [|discriminate].
    destruct (nth_error (w_sigs w) r) eqn:E; [|discriminate]. injection H as ->. destruct (K _ _ E) as [s' [E' P]].
    exists s'. rewrite E'. auto.
  Qed.

  Lemma dget_app_old : forall {V : Type} n (d : dict V) x, In n (map fst d) -> dget n (d ++ x) = dget n d.
  Proof.
    induction d as [|[k v] d IH]; simpl; intros x H; [tauto|]. destruct (String.eqb n k) eqn:E; auto.
    apply IH. destruct H; auto. subst. rewrite String.eqb_refl in E. discriminate.
  Qed.
  Lemma dget_app_new : forall {V : Type} n (d : dict V) v, ~ In n (map fst d) -> dget n (d ++ [(n, v)]) = Some v.
  Proof.
    induction d as [|[k x] d IH]; simpl; intros v H. { rewrite String.eqb_refl. auto. }
    destruct (String.eqb n k) eqn:E; [apply String.eqb_eq in E; subst; tauto | auto].
  Qed.

  Lemma effect_consistent : forall x w c w' c' r, well w c -> rooted_tree x (graph_at w c) -> effect w c w' c' r ->
    consistent w (graph_at w c) -> consistent w' (graph_at w' c').
  Proof.
    intros x w c w' c' r WL T E C. pose proof (effect_keeps _ _ _ _ _ E) as K. pose proof (proj1 WL) as WG.
    destruct E as [e|i t s data o NS NI OS|n k s d DG NE SD]; auto.
    - pose proof (graph_grown w c i t o (Some (t_name t)) WG) as GG. set (w' := grown w c i t o) in *. rewrite GG.
      assert (Old : forall n s, node_signal w (graph_at w c) n = Ok s ->
        exists s', node_signal w' (G (g_nodes (graph_at w c) ++ [(t_name t, List.length (w_sigs w))]) (g_edges (graph_at w c) ++ [(i, t_name t, t)])) n = Ok s' /\ s_type s' = s_type s /\ s_unit s' = s_unit s).
      { intros n s0 H. pose proof (node_signal_name _ _ _ _ H) as I. destruct (node_signal_keep _ _ _ _ _ K H) as [s' [E P]].
        exists s'. split; auto. unfold node_signal in *. cbn [g_nodes]. rewrite dget_app_old by exact I. exact E. }
      intros u v t' J. cbn [g_edges] in J. rewrite in_app_iff in J. destruct J as [J|[J|[]]].
      + destruct (C _ _ _ J) as [a [b [Ha [Hb M]]]]. destruct (Old _ _ Ha) as [a' [Ea [A1 A2]]]. destruct (Old _ _ Hb) as [b' [Eb [B1 B2]]].
        exists a', b'. repeat split; auto; eapply makes_keep; eauto.
      + injection J as <- <- <-. destruct (Old _ _ NS) as [a' [Ea [A1 A2]]]. exists a', o. split; [exact Ea|]. split.
        * unfold node_signal. cbn [g_nodes]. rewrite dget_app_new by exact NI. unfold w', grown. cbn [w_sigs].
          rewrite nth_error_app2 by lia. rewrite Nat.sub_diag. reflexivity.
        * eapply makes_keep; [eapply output_makes; eauto|..]; auto.
    - intros u v t J. change (g_edges (graph_at (W (upd k (Sig (s_type s) (s_unit s) (Some d)) (w_sigs w)) (w_graphs w)) c)) with (g_edges (graph_at w c)) in J.
      destruct (C _ _ _ J) as [a [b [Ha [Hb M]]]].
      destruct (node_signal_keep _ _ _ _ _ K Ha) as [a' [Ea [A1 A2]]]. destruct (node_signal_keep _ _ _ _ _ K Hb) as [b' [Eb [B1 B2]]].
      exists a', b'. split; [exact Ea|]. split; [exact Eb|]. eapply makes_keep; eauto.
  Qed.

  Lemma built_consistent : forall w c, built (D:=D) uo w c -> consistent w (graph_at w c).
  Proof.
    intros w c B. induction B as [w src w' c S H|w c o w' c' r B IH H].
    - injection H as <- <-. unfold graph_at. cbn [c_graph w_graphs]. rewrite app_nth2 by lia. rewrite Nat.sub_diag. intros u v t [].
    - pose proof (built_well _ _ B) as WL. eapply effect_consistent; eauto. { apply built_tree, B. } eapply op_effect; eauto.
  Qed.

  (** the signal that was added last has no successor *)
  Definition last_leaf (w : world) (c : chain) : Prop :=
    exists n, c_prev c = Some n /\ In n (names (graph_at w c)) /\ is_leaf (graph_at w c) n = true.

  Lemma is_leaf_spec : forall (g : graph) n, is_leaf g n = true <-> forall v, ~ In (n, v) (links g).
  Proof.
    intros g n. unfold is_leaf, links. rewrite negb_true_iff. split.
    - intros H v I. apply in_map_iff in I. destruct I as [[[a b] t] [E I]]. cbn in E. injection E as -> ->.
      assert (existsb (fun e => String.eqb (fst (fst e)) n) (g_edges g) = true); [|congruence].
      apply existsb_exists. eexists. split; [exact I|]. apply String.eqb_refl.
    - intros H. destruct (existsb _ _) eqn:E; auto. apply existsb_exists in E. destruct E as [[[a b] t] [I E]].
      cbn in E. apply String.eqb_eq in E. subst. exfalso. apply (H b). apply (in_map fst) in I. exact I.
  Qed.

  Lemma built_last : forall w c, built (D:=D) uo w c -> last_leaf w c.
  Proof.
    intros w c B. induction B as [w src w' c S H|w c o w' c' r B IH H].
    - injection H as <- <-. exists (src_name src). unfold graph_at. cbn [c_graph w_graphs c_prev]. rewrite app_nth2 by lia. rewrite Nat.sub_diag. cbn. auto.
    - pose proof (built_well _ _ B) as WL. pose proof (built_tree _ _ B) as [T _]. pose proof (op_effect _ _ _ _ _ _ WL H) as E.
      destruct E as [e|i t s data o' NS NI OS|n k s d DG NE SD]; auto.
      exists (t_name t). rewrite graph_grown by apply WL. split; [reflexivity|]. split.
      + unfold names. cbn [g_nodes]. rewrite map_app. apply in_or_app. right. left. reflexivity.
      + apply is_leaf_spec. intros v I. unfold links in I. cbn [g_edges] in I. rewrite map_app, in_app_iff in I.
        destruct I as [I|[I|[]]]. { apply (rt_ends _ _ T) in I. tauto. } injection I as I _. subst i. apply node_signal_name in NS. contradiction.
  Qed.

  (** separation *)
  Lemma effect_view : forall (w : world) c (w' : world) c' r d, well w c -> well w d -> separate w c d -> effect w c w' c' r ->
    view w' d = view w d /\ separate w' c' d /\ well w' d.
  Proof.
    intros w c w' c' r d WC [DG DR] [NG NR] E. pose proof (proj1 WC) as WG.
    destruct E as [e|i t s data o NS NI OS|n k s x DK NE SD].
    - repeat split; auto.
    - assert (GD : graph_at (grown w c i t o) d = graph_at w d) by (unfold graph_at, grown; cbn [w_graphs]; apply upd_other; auto).
      split; [|split].
      + unfold view. rewrite GD. f_equal. apply map_ext_in. intros [m q] I. cbn [fst snd]. f_equal. cbn [grown w_sigs].
        apply nth_error_app1. apply DR. apply (in_map snd) in I. exact I.
      + split; [exact NG|]. rewrite GD. intros q I. unfold refs in I. rewrite graph_grown in I by auto. cbn [g_nodes] in I.
        rewrite map_app, in_app_iff in I. destruct I as [I|[<-|[]]]; [apply NR; exact I|]. cbn [snd]. intro J. apply DR in J. lia.
      + split. { cbn [grown w_graphs]. rewrite upd_length. exact DG. } rewrite GD. intros q I. cbn [grown w_sigs]. rewrite app_length. apply DR in I. lia.
    - split; [|split].
      + unfold view. f_equal. apply map_ext_in. intros [m q] I. cbn [fst snd]. f_equal. cbn [w_sigs]. apply upd_other_e.
        intros ->. apply (NR q). { apply dget_in in DK. apply (in_map snd) in DK. exact DK. } apply (in_map snd) in I. exact I.
      + split; auto.
      + split; auto. intros q I. cbn [w_sigs]. rewrite upd_length. apply DR. exact I.
  Qed.

  Lemma run_view : forall l (w : world) c (w' : world) c' d, well w c -> well w d -> separate w c d -> run uo w c l = (w', c') ->
    view w' d = view w d /\ separate w' c' d.
  Proof.
    induction l as [|o l IH]; cbn [run]; intros w c w' c' d WC WD S H. { injection H as <- <-. auto. }
    destruct (run_op uo w c o) as [[w1 c1] r] eqn:E. pose proof (op_effect _ _ _ _ _ _ WC E) as EF.
    destruct (effect_view _ _ _ _ _ _ WC WD S EF) as [V1 [S1 WD1]]. pose proof (well_effect _ _ _ _ _ WC EF) as WC1.
    destruct (IH _ _ _ _ _ WC1 WD1 S1 H) as [V2 S2]. split; [congruence|exact S2].
  Qed.
End Meas.
