(** Properties of measurement chains: C36 - C39. *)
From Coq Require Import List String Ascii Bool Arith ZArith Lia.
From Verif Require Import Base MeasModel MeasSpec MeasFacts.
Import ListNotations.
Open Scope string_scope.
Open Scope list_scope.

(** ** Example data: units are a decimal scale and a power of volt *)
Definition zu : unit_ops (Z * Z) :=
  UOps _ (fun a b => (fst a + fst b, snd a + snd b)%Z) (fun a b => (fst a - fst b, snd a - snd b)%Z)
       (fun a b => Z.eqb (snd a) (snd b)).
Definition volt : Z * Z := (0, 1)%Z.
Definition millivolt : Z * Z := (-3, 1)%Z.
Definition one : Z * Z := (0, 0)%Z.
Definition per_volt : @func (Z * Z) := Func 1 (fun u => Some (u_mul zu (0, -1)%Z u)).
Definition sensor : source := Src "sensor" 0.
Definition start : @world (Z * Z) nat := W [Sig Analog volt None] [].
Definition amplify : @transf (Z * Z) := Tf "amplify" (Some (conversion zu one)) (Some (Analog, Analog)).
Definition digitise : @transf (Z * Z) := Tf "digitise" (Some per_volt) (Some (Analog, Digital)).
Definition w0 := fst (new_chain start sensor).
Definition ch0 := snd (new_chain start sensor).
(** the sensor is amplified and digitised, then a second branch starts at the sensor *)
Definition branched := run zu w0 ch0 [OAdd amplify None None; OAdd digitise (Some 5) None; OCreate "direct" (Some "digital") None None None (Some "sensor")].
Definition linear := run zu w0 ch0 [OAdd amplify None None; OAdd digitise (Some 5) None].

Example built0 : built zu w0 ch0.
Proof. apply (b_new zu start sensor); [cbn; lia|reflexivity]. Qed.
Example built_branched : built zu (fst branched) (snd branched).
Proof. apply built_run. exact built0. Qed.
Example built_linear : built zu (fst linear) (snd linear).
Proof. apply built_run. exact built0. Qed.

(** ** C36 *)
(** However a chain was built, its graph is a tree whose edges lead away from the source,
    the names are unique and every transformation has the name of its output signal. *)
Theorem c36_tree : forall {U D : Type} (uo : unit_ops U) (w : @world U D) c,
  built uo w c -> rooted_tree (src_name (c_src c)) (graph_at w c) /\ named (graph_at w c).
Proof. intros U D uo. exact (built_tree uo). Qed.
Print Assumptions c36_tree.

(** A call that raises an exception changes neither the chain nor any other object. *)
Theorem c36_failing : forall {U D : Type} (uo : unit_ops U) (w : @world U D) c o w' c' e,
  built uo w c -> run_op uo w c o = (w', c', Err e) -> w' = w /\ c' = c.
Proof.
  intros U D uo w c o w' c' e B H. apply (op_effect uo) in H; [|eapply built_well; eauto].
  inversion H; auto.
Qed.
Print Assumptions c36_failing.

(** A successful call of [add_transformation] adds one signal and one edge, which starts
    at the given signal or else at the one that was added last. *)
Theorem c36_add : forall {U D : Type} (uo : unit_ops U) (w : @world U D) c t data n w' c' x,
  built uo w c -> add_transformation w c t data n = (w', c', Ok x) ->
  exists i, (match n with Some m => i = m | None => c_prev c = Some i end) /\ In i (names (graph_at w c)) /\
    names (graph_at w' c') = names (graph_at w c) ++ [t_name t] /\
    g_edges (graph_at w' c') = g_edges (graph_at w c) ++ [(i, t_name t, t)] /\ c_prev c' = Some (t_name t).
Proof.
  intros U D uo w c t data n w' c' x B H. pose proof (built_well uo _ _ B) as WL.
  unfold add_transformation in H. destruct (node_name w c n) as [i|e] eqn:NN; [|discriminate].
  destruct (node_signal w (graph_at w c) i) as [s|e] eqn:NS; [|discriminate].
  destruct (output_signal t s data) as [o|e] eqn:OS; [|discriminate].
  unfold add_signal in H. destruct (has_node (graph_at w c) (t_name t)) eqn:HN; [discriminate|]. injection H as <- <- _.
  exists i. split; [|split; [eapply node_signal_name; eauto|]].
  { unfold node_name in NN. destruct n as [m|]; [destruct (has_node _ m); [injection NN; auto|discriminate]|].
    destruct (c_prev c); [injection NN as ->; auto|discriminate]. }
  unfold add_edge, graph_at. cbn [c_graph w_graphs w_sigs c_prev]. rewrite upd_twice, !upd_same by (rewrite ?upd_length; apply WL).
  cbn [g_nodes g_edges]. unfold names. cbn [g_nodes]. rewrite map_app. auto.
Qed.
Print Assumptions c36_add.

Example c36_ex : names (graph_at (fst branched) (snd branched)) = ["sensor"; "amplify"; "digitise"; "direct"]
  /\ links (graph_at (fst branched) (snd branched)) = [("sensor", "amplify"); ("amplify", "digitise"); ("sensor", "direct")].
Proof. split; reflexivity. Qed.
(** a name that exists, an unknown input, a wrong signal type and a second data set are rejected *)
Example c36_ex_fail :
  let '(w, c) := branched in
  snd (run_op zu w c (OAdd (Tf "amplify" None (Some (Digital, Digital))) None None)) = Err KeyError /\
  snd (run_op zu w c (OAdd amplify None (Some "none"))) = Err KeyError /\
  snd (run_op zu w c (OAdd (Tf "again" None (Some (Analog, Digital))) None (Some "digitise"))) = Err ValueError /\
  snd (run_op zu w c (OData 7 (Some "digitise"))) = Err KeyError.
Proof. repeat split; reflexivity. Qed.

(** ** C37 *)
(** Along every edge the output signal is what the transformation makes of the input signal. *)
Theorem c37_consistent : forall {U D : Type} (uo : unit_ops U) (w : @world U D) c u v t,
  built uo w c -> In (u, v, t) (g_edges (graph_at w c)) ->
  exists a b, get_signal w c u = Ok a /\ get_signal w c v = Ok b /\ makes t a b.
Proof. intros U D uo w c u v t B I. exact (built_consistent uo _ _ B _ _ _ I). Qed.
Print Assumptions c37_consistent.

(** The type changes exactly at the AD and DA transformations. *)
Theorem c37_type_changes : forall {U D : Type} (uo : unit_ops U) (w : @world U D) c u v t a b,
  built uo w c -> In (u, v, t) (g_edges (graph_at w c)) -> get_signal w c u = Ok a -> get_signal w c v = Ok b ->
  (s_type a <> s_type b <-> t_type t = Some (Analog, Digital) \/ t_type t = Some (Digital, Analog)).
Proof.
  intros U D uo w c u v t a b B I HA HB. destruct (c37_consistent uo w c u v t B I) as [a' [b' [HA' [HB' [M _]]]]].
  rewrite HA in HA'. rewrite HB in HB'. injection HA' as <-. injection HB' as <-.
  destruct (t_type t) as [[x y]|].
  - destruct M as [-> ->]. destruct x, y; split; intros H; try tauto; try (destruct H; discriminate); discriminate.
  - split; [congruence|]. intros [H|H]; discriminate.
Qed.
Print Assumptions c37_type_changes.

(** [create_transformation] with a unit and without a function produces a signal with that unit, *)
Theorem c37_create_unit : forall {U D : Type} (uo : unit_ops U) (w : @world U D) c name ty u data n w' c' x,
  (forall a b, u_mul uo (u_div uo a b) b = a) ->
  built uo w c -> create_transformation uo w c name ty (Some u) None data n = (w', c', Ok x) ->
  exists s, get_signal w' c' name = Ok s /\ s_unit s = u.
Proof.
  intros U D uo w c name ty u data n w' c' x L B H. pose proof (built_well uo _ _ B) as WL.
  assert (B' : built uo w' c') by (eapply b_op with (o := OCreate name ty (Some u) None data n); eauto).
  unfold create_transformation in H. destruct (node_name w c n) as [i|e] eqn:NN; [|discriminate].
  destruct (node_signal w (graph_at w c) i) as [s|e] eqn:NS; [|discriminate].
  destruct (first_letter _) as [l|e]; [|discriminate]. cbn [bind] in H. unfold mk_transf in H.
  destruct (mk_type (type_letter (s_type s)) l) as [ty'|e]; [|discriminate]. cbn [bind conversion f_vars Nat.eqb] in H.
  apply (c36_add uo) in H as K; auto. destruct K as [j [-> [Ij [_ [EE _]]]]]. cbn [t_name] in EE.
  destruct (c37_consistent uo w' c' i name (Tf name (Some (conversion uo (u_div uo u (s_unit s)))) (Some ty')) B') as [a [b [Ha [Hb [_ M]]]]].
  { rewrite EE. apply in_or_app. right. left. reflexivity. }
  exists b. split; auto. cbn [t_func conversion f_unit] in M. injection M as <-.
  assert (EF := add_transformation_effect _ _ _ _ _ _ _ _ WL H). apply effect_keeps in EF as K.
  unfold node_signal in NS. destruct (dget i (g_nodes (graph_at w c))) as [r|] eqn:DG; [|discriminate].
  destruct (nth_error (w_sigs w) r) eqn:NE; [|discriminate]. injection NS as ->. destruct (K _ _ NE) as [s' [E' [_ <-]]].
  unfold get_signal, node_signal in Ha. inversion EF as [| i' t' s0 d0 o0 NS0 NI0 OS0 E1 E2|].
  - subst. rewrite graph_grown in Ha by apply WL. cbn [g_nodes] in Ha. rewrite dget_app_old in Ha by exact Ij. rewrite DG in Ha.
    rewrite E' in Ha. injection Ha as ->. apply L.
  - subst. change (graph_at (W (upd r0 (Sig (s_type s0) (s_unit s0) (Some d)) (w_sigs w)) (w_graphs w)) c') with (graph_at w c') in Ha.
    rewrite DG, E' in Ha. injection Ha as ->. apply L.
Qed.
Print Assumptions c37_create_unit.

(** but with a function the requested unit is only tested for compatibility: the signal
    gets the unit of the function. *)
Theorem c37_create_func_refuted :
  let '(w, c, r) := create_transformation zu w0 ch0 "scaled" None (Some millivolt) (Some (conversion zu one)) None None in
  r = Ok tt /\ exists s, get_signal w c "scaled" = Ok s /\ s_unit s = volt /\ volt <> millivolt.
Proof. cbn. split; [reflexivity|]. eexists. repeat split. discriminate. Qed.
Print Assumptions c37_create_func_refuted.

(** Only the first letter of the requested signal type is used: any word will do. *)
Theorem c37_type_text_refuted :
  let '(w, c, r) := create_transformation zu w0 ch0 "x" (Some "downwards") None None None None in
  r = Ok tt /\ exists s, get_signal w c "x" = Ok s /\ s_type s = Digital.
Proof. cbn. split; [reflexivity|]. eexists. split; reflexivity. Qed.
Print Assumptions c37_type_text_refuted.

Example c37_ex : exists s, get_signal (fst branched) (snd branched) "digitise" = Ok s /\ s = Sig Digital one (Some 5).
Proof. eexists; split; reflexivity. Qed.

(** ** C38 *)
(** [from_dict(to_dict(c))] has the source, the signals and the transformations of the chain. *)
Theorem c38_content : forall {U D : Type} (uo : unit_ops U) (w : @world U D) c w' c',
  built uo w c -> from_dict w c = (w', c') -> view w' c' = view w c /\ c_src c' = c_src c.
Proof.
  intros U D uo w c w' c' B H. pose proof (built_well uo _ _ B) as [WG _]. unfold from_dict in H. cbn [new_chain] in H. injection H as <- <-.
  split; [|reflexivity]. unfold view, graph_at. cbn [c_graph w_graphs w_sigs]. rewrite app_nth1 by exact WG. reflexivity.
Qed.
Print Assumptions c38_content.

(** If just one signal is without successor then the next default addition is attached to
    the same signal as before. *)
Theorem c38_default : forall {U D : Type} (uo : unit_ops U) (w : @world U D) c w' c',
  built uo w c -> from_dict w c = (w', c') ->
  (forall a b, In a (names (graph_at w c)) -> In b (names (graph_at w c)) ->
     (forall v, ~ In (a, v) (links (graph_at w c))) -> (forall v, ~ In (b, v) (links (graph_at w c))) -> a = b) ->
  c_prev c' = c_prev c.
Proof.
  intros U D uo w c w' c' B H Un. destruct (built_last uo _ _ B) as [n [-> [I L]]].
  unfold from_dict in H. cbn [new_chain] in H. injection H as <- <-. cbn [c_prev]. rename I into In'.
  destruct (find (is_leaf (graph_at w c)) (map fst (g_nodes (graph_at w c)))) as [m|] eqn:F.
  - apply find_some in F. destruct F as [Im Lm]. f_equal.
    exact (Un m n Im In' (proj1 (is_leaf_spec _ _) Lm) (proj1 (is_leaf_spec _ _) L)).
  - exfalso. pose proof (find_none _ _ F n In') as K. cbn beta in K. congruence.
Qed.
Print Assumptions c38_default.

(** In a branched chain the next addition is attached to the first leaf, not to the signal
    that was added last. *)
Theorem c38_branched_refuted : exists (w : @world (Z * Z) nat) c,
  built zu w c /\ c_prev c = Some "direct" /\ c_prev (snd (from_dict w c)) = Some "digitise".
Proof. exists (fst branched), (snd branched). split; [exact built_branched|]. split; reflexivity. Qed.
Print Assumptions c38_branched_refuted.

Example c38_ex : c_prev (snd (from_dict (fst linear) (snd linear))) = c_prev (snd linear).
Proof. reflexivity. Qed.

(** ** C39 *)
(** Whatever is done with a chain does not change a chain with which it has no object in common. *)
Theorem c39_separate : forall {U D : Type} (uo : unit_ops U) (w : @world U D) c d l w' c',
  well w c -> well w d -> separate w c d -> run uo w c l = (w', c') -> view w' d = view w d /\ separate w' c' d.
Proof. intros U D uo w c d l w' c' WC WD S H. exact (run_view uo l w c w' c' d WC WD S H). Qed.
Print Assumptions c39_separate.

(** A chain of a source whose signal object is not used elsewhere has no object in common
    with any other chain, *)
Theorem c39_new : forall {U D : Type} (w : @world U D) src d w' c,
  src_sig src < List.length (w_sigs w) -> well w d -> ~ In (src_sig src) (refs (graph_at w d)) ->
  new_chain w src = (w', c) -> well w' c /\ well w' d /\ separate w' c d /\ view w' d = view w d.
Proof.
  intros U D w src d w' c S [DG DR] N H. split; [eapply well_new; eauto|]. injection H as <- <-.
  assert (GD : graph_at (W (w_sigs w) (w_graphs w ++ [G [(src_name src, src_sig src)] []])) d = graph_at w d)
    by (unfold graph_at; cbn [w_graphs]; apply app_nth1; exact DG).
  split; [|split].
  - split; [cbn [w_graphs]; rewrite app_length; lia|]. rewrite GD. exact DR.
  - split; [cbn; lia|]. rewrite GD. unfold graph_at. cbn [c_graph w_graphs]. rewrite app_nth2, Nat.sub_diag by lia. cbn.
    intros r [<-|[]]. exact N.
  - unfold view. rewrite GD. reflexivity.
Qed.
Print Assumptions c39_new.

(** but chains of the same source share its signal: data attached to one appears in the other. *)
Theorem c39_same_source_refuted :
  let '(w1, c) := new_chain start sensor in
  let '(w2, d) := new_chain w1 sensor in
  let '(w3, _, r) := add_signal_data w2 c 42 None in
  r = Ok tt /\ (exists s, get_signal w2 d "sensor" = Ok s /\ s_data s = None) /\
  (exists s, get_signal w3 d "sensor" = Ok s /\ s_data s = Some 42).
Proof. cbn. split; [reflexivity|]. split; eexists; split; reflexivity. Qed.
Print Assumptions c39_same_source_refuted.

(** [from_dict(to_dict(c))] even shares the graph: an addition to the copy appears in the original. *)
Theorem c39_copy_refuted :
  let '(w, c) := linear in
  let '(w1, d) := from_dict w c in
  let '(w2, _, r) := create_transformation zu w1 d "extra" None None None None None in
  r = Ok tt /\ get_signal w1 c "extra" = Err KeyError /\ is_ok (get_signal w2 c "extra") = true.
Proof. cbn. repeat split. Qed.
Print Assumptions c39_copy_refuted.

Example c39_ex : exists w c d, well w c /\ well w d /\ @separate (Z * Z) nat w c d /\
  (let '(w', _) := run zu w c [OData 3 None; OAdd amplify None None] in view w' d = view w d).
Proof.
  pose (w1 := fst (new_chain (W [Sig Analog volt None; Sig Digital one None] []) sensor) : @world (Z * Z) nat).
  pose (d := snd (new_chain (W [Sig Analog volt None; Sig Digital one None] []) sensor : @world (Z*Z) nat * chain)).
  destruct (c39_new w1 (Src "other" 1) d (fst (new_chain w1 (Src "other" 1))) (snd (new_chain w1 (Src "other" 1)))) as [A [B [S _]]].
  - cbn. lia.
  - split; cbn; [lia|]. intros r [<-|[]]. cbn. lia.
  - cbn. intros [H|[]]. discriminate.
  - reflexivity.
  - exists (fst (new_chain w1 (Src "other" 1))), (snd (new_chain w1 (Src "other" 1))), d.
    split; [exact A|split; [exact B|split; [exact S|reflexivity]]].
Qed.

(** ** Types of a transformation *)
(** A type is two letters for analog and digital, in either case; everything else is refused. *)
Definition letter (t : sigtype) (c : ascii) : Prop :=
  match t with Analog => c = "A"%char \/ c = "a"%char | Digital => c = "D"%char \/ c = "d"%char end.
Theorem c36_type : forall a b x y, mk_type a b = Ok (x, y) <-> letter x a /\ letter y b.
Proof.
  intros a b x y. unfold mk_type, letter.
  destruct (Ascii.eqb_spec a "A"), (Ascii.eqb_spec a "a"), (Ascii.eqb_spec a "D"), (Ascii.eqb_spec a "d"),
    (Ascii.eqb_spec b "A"), (Ascii.eqb_spec b "a"), (Ascii.eqb_spec b "D"), (Ascii.eqb_spec b "d"); subst; try discriminate; cbn [orb];
  destruct x, y; (split; [intro H; try discriminate H; auto | intros [[H|H] [K|K]]; (reflexivity || congruence)]).
Qed.
Print Assumptions c36_type.
Theorem c36_type_error : forall a b, (forall x y, ~ (letter x a /\ letter y b)) -> mk_type a b = Err ValueError.
Proof.
  intros a b H. destruct (mk_type a b) as [[x y]|e] eqn:E.
  - exfalso. apply (H x y). now apply c36_type.
  - revert E. unfold mk_type. repeat match goal with |- context [if ?c then _ else _] => destruct c end; intro E; congruence.
Qed.
Print Assumptions c36_type_error.
Example c36_type_ex : mk_type "a" "D" = Ok (Analog, Digital) /\ mk_type "A" "X" = Err ValueError.
Proof. now split. Qed.

(** A transformation needs a type or a function, and the function needs exactly one variable. *)
Theorem c36_transformation : forall {U : Type} name (fn : option (@func U)) ty t,
  mk_transf name fn ty = Ok t <->
  exists k, t = Tf name fn k /\
    match ty, k with None, None => fn <> None | Some (a, b), Some (x, y) => mk_type a b = Ok (x, y) | _, _ => False end /\
    match fn with Some f => f_vars f = 1 | None => True end.
Proof.
  intros U name fn ty t. unfold mk_transf. split.
  - intro H. destruct ty as [[a b]|].
    + destruct (mk_type a b) as [[x y]|e] eqn:E; [|discriminate]. cbn [bind] in H. exists (Some (x, y)).
      destruct fn as [f|]; [|injection H as <-; auto]. destruct (Nat.eqb_spec (f_vars f) 1); [|discriminate]. injection H as <-. auto.
    + cbn [bind] in H. exists None. destruct fn as [f|]; [|discriminate].
      destruct (Nat.eqb_spec (f_vars f) 1); [|discriminate]. injection H as <-. split; [reflexivity|]. split; [discriminate|assumption].
  - intros (k & -> & H & V). destruct ty as [[a b]|], k as [[x y]|]; try contradiction.
    + rewrite H. cbn [bind]. destruct fn as [f|]; [|reflexivity]. now rewrite V.
    + cbn [bind]. destruct fn as [f|]; [|congruence]. now rewrite V.
Qed.
Print Assumptions c36_transformation.
Theorem c36_transformation_error : forall {U : Type} name (fn : option (@func U)) ty e,
  mk_transf name fn ty = Err e -> e = ValueError.
Proof.
  intros U name fn ty e. unfold mk_transf. destruct ty as [[a b]|].
  - destruct (mk_type a b) as [t|e'] eqn:E; cbn [bind].
    + destruct fn as [f|]; [destruct (Nat.eqb (f_vars f) 1)|]; intro H; congruence.
    + intro H. injection H as <-. revert E. unfold mk_type.
      repeat match goal with |- context [if ?c then _ else _] => destruct c end; intro E; congruence.
  - cbn [bind]. destruct fn as [f|]; [destruct (Nat.eqb (f_vars f) 1)|]; intro H; congruence.
Qed.
Print Assumptions c36_transformation_error.
Example c36_transformation_ex : mk_transf "digitise" (Some per_volt) (Some ("a", "d")%char) = Ok digitise /\
  mk_transf (U := Z * Z) "none" None None = Err ValueError /\
  mk_transf "two" (Some (Func 2 (fun u => Some u))) None = Err (A := @transf (Z * Z)) ValueError.
Proof. now repeat split. Qed.

(** The added signal has the given data. *)
Theorem c37_data : forall {U D : Type} (uo : unit_ops U) (w : @world U D) c t data n w' c' x,
  built uo w c -> add_transformation w c t data n = (w', c', Ok x) ->
  exists s, get_signal w' c' (t_name t) = Ok s /\ s_data s = data.
Proof.
  intros U D uo w c t data n w' c' x B H. pose proof (built_well uo _ _ B) as WL.
  unfold add_transformation in H. destruct (node_name w c n) as [i|e] eqn:NN; [|discriminate].
  destruct (node_signal w (graph_at w c) i) as [s|e] eqn:NS; [|discriminate].
  destruct (output_signal t s data) as [o|e] eqn:OS; [|discriminate].
  unfold add_signal in H. destruct (has_node (graph_at w c) (t_name t)) eqn:HN; [discriminate|]. injection H as <- <- _.
  exists o. split.
  - unfold get_signal, node_signal, add_edge, graph_at. cbn [c_graph w_graphs w_sigs].
    rewrite upd_twice, !upd_same by (rewrite ?upd_length; apply WL). cbn [g_nodes].
    rewrite dget_app_new.
    + rewrite nth_error_app2, Nat.sub_diag by lia. reflexivity.
    + intro I. assert (has_node (graph_at w c) (t_name t) = true) as Q; [|congruence].
      unfold has_node, dmem. revert I. unfold graph_at. generalize (g_nodes (nth (c_graph c) (w_graphs w) (G [] []))).
      induction l as [|[k v] l IH]; cbn [dget map fst]; [intros []|]. intros [->|I]; [now rewrite String.eqb_refl|].
      destruct (String.eqb (t_name t) k); [reflexivity|now apply IH].
  - unfold output_signal in OS. destruct (output_type _ _); [|discriminate]. cbn [bind] in OS.
    destruct (output_unit _ _); [|discriminate]. injection OS as <-. reflexivity.
Qed.
Print Assumptions c37_data.
