(** Lemmas about saving and loading managers. *)
From Coq Require Import List String Bool Arith ZArith Lia Permutation.
From Verif Require Import Base CsmModel CsmSpec TreeFacts CsmGraphFacts CsmTreeFacts CsmSubFacts
  GraphModel GraphSpec GraphFacts CsmSerModel CsmSerSpec.
Import ListNotations.
Open Scope string_scope.
Open Scope list_scope.

(** * The graph that is read *)
Section Build.
  Context {A : Type}.

  Lemma dset_pos : forall (V : Type) k (v : V) d, In k (map fst d) -> map fst (dset k v d) = map fst d.
  Proof.
    intros V k v d. induction d as [|[k' v'] d IH]; intros H; [destruct H|]. cbn [dset].
    destruct (String.eqb_spec k k') as [->|N]; [reflexivity|]. cbn [map fst]. f_equal. apply IH.
    destruct H as [H|H]; [cbn in H; congruence|exact H].
  Qed.

  Lemma ensure_keeps : forall n (g : digraph A), keys g -> keys (ensure n g) /\ In n (nodes (ensure n g)) /\
    exists r, nodes (ensure n g) = nodes g ++ r.
  Proof.
    intros n g [K1 K2]. unfold ensure. destruct (dmem n (d_nodes g)) eqn:E.
    - split; [split; assumption|]. split; [|exists []; symmetry; apply app_nil_r].
      apply dmem_In in E. exact E.
    - assert (NI : ~ In n (nodes g)) by (intros H; apply dmem_In in H; congruence).
      unfold nodes, links in *. cbn [d_nodes d_edges]. rewrite map_app. cbn [map fst].
      split; [split; [|exact K2]|].
      + unfold nodes. cbn [d_nodes]. rewrite map_app. cbn [map fst].
        apply (NoDup_Add (Add_app n (map fst (d_nodes g)) [])). rewrite app_nil_r. split; assumption.
      + split; [apply in_or_app; right; left; reflexivity|eauto].
  Qed.

  Lemma add_node_keeps : forall n a (g h : digraph A), keys g -> add_node n a g = Ok h ->
    keys h /\ (exists r, nodes h = nodes g ++ r) /\ In n (nodes h).
  Proof.
    intros n a g h K H. unfold add_node in H. destruct (reserved _ a); [discriminate|].
    destruct (ensure_keeps n g K) as ((K1 & K2) & I & (r & E)).
    destruct (dget n (d_nodes (ensure n g))) as [o|]; [|discriminate]. injection H as <-.
    unfold keys, nodes, links in *. cbn [d_nodes d_edges]. rewrite dset_pos by exact I.
    split; [split; assumption|]. split; [exists r; exact E|exact I].
  Qed.

  Lemma add_edge_keeps : forall u v a (g h : digraph A), keys g -> add_edge u v a g = Ok h ->
    keys h /\ exists r, nodes h = nodes g ++ r.
  Proof.
    intros u v a g h K H. unfold add_edge in H. destruct (reserved _ a); [discriminate|]. injection H as <-.
    destruct (ensure_keeps u g K) as (K1 & _ & (r1 & E1)).
    destruct (ensure_keeps v _ K1) as ((K2 & K3) & _ & (r2 & E2)).
    unfold keys, nodes, links in *. cbn [d_nodes d_edges]. split.
    - split; [exact K2|]. apply eset_keys. exact K3.
    - exists (r1 ++ r2). rewrite E2, E1, app_assoc. reflexivity.
  Qed.

  Lemma build_keeps : forall (t : dinode A) g h, keys g -> build_graph t g = Ok h ->
    keys h /\ exists r, nodes h = nodes g ++ r.
  Proof.
    apply (dinode_mut A (fun t => forall g h, keys g -> build_graph t g = Ok h ->
      keys h /\ exists r, nodes h = nodes g ++ r)
      (fun es => forall n g h, keys g -> build_edges n es g = Ok h -> keys h /\ exists r, nodes h = nodes g ++ r)).
    - intros n a es IH g h K H. cbn [build_graph] in H. destruct a as [a|]; [|discriminate].
      destruct (add_node n a g) as [g1|] eqn:E; [|discriminate]. cbn [bind] in H.
      destruct (add_node_keeps _ _ _ _ K E) as (K1 & (r1 & E1) & _). destruct (IH _ _ _ K1 H) as (K2 & r2 & E2).
      split; [exact K2|]. exists (r1 ++ r2). rewrite E2, E1, app_assoc. reflexivity.
    - discriminate.
    - intros n g h K H. injection H as <-. split; [exact K|]. exists []. symmetry. apply app_nil_r.
    - intros t IHt a d es IHe n g h K H. destruct t as [tn ta tes]. destruct a as [a|]; [|discriminate].
      change (build_edges n (ECons (DiNode tn ta tes) (Some a) d es) g) with
        (bind (if d then add_edge n tn a g else add_edge tn n a g) (fun g =>
         bind (build_graph (DiNode tn ta tes) g) (fun g => build_edges n es g))) in H.
      destruct (if d then add_edge n tn a g else add_edge tn n a g) as [g1|] eqn:E; [|discriminate]. cbn [bind] in H.
      destruct (build_graph (DiNode tn ta tes) g1) as [g2|] eqn:E'; [|discriminate H]. cbn [bind] in H.
      assert (X : keys g1 /\ exists r, nodes g1 = nodes g ++ r) by (destruct d; eapply add_edge_keeps; eauto).
      destruct X as (K1 & r1 & E1). destruct (IHt _ _ K1 E') as (K2 & r2 & E2). destruct (IHe _ _ _ K2 H) as (K3 & r3 & E3).
      split; [exact K3|]. exists (r1 ++ r2 ++ r3). rewrite E3, E2, E1, !app_assoc. reflexivity.
  Qed.

  Lemma from_tree_first : forall (t : dinode A) h, from_tree t = Ok h ->
    keys h /\ exists r, nodes h = node_name t :: r.
  Proof.
    intros t h H. assert (K0 : keys (DG [] [] : digraph A)) by (split; constructor).
    split; [exact (proj1 (build_keeps _ _ _ K0 H))|].
    destruct t as [n a es]. destruct a as [a|]; [|discriminate].
    change (bind (add_node n a (DG [] [])) (fun g => build_edges n es g) = Ok h) in H.
    destruct (add_node n a (DG [] [])) as [g1|] eqn:E; [|discriminate]. cbn [bind] in H.
    assert (K1 := proj1 (add_node_keeps _ _ _ _ K0 E)).
    assert (N1 : nodes g1 = [n]).
    { unfold add_node in E. destruct (reserved _ a); [discriminate|]. cbn in E. rewrite String.eqb_refl in E.
      injection E as <-. reflexivity. }
    assert (Y : add_node n [] g1 = Ok g1).
    { unfold add_node. cbn [reserved existsb]. unfold ensure. destruct g1 as [ns es1]. unfold nodes in N1. cbn [d_nodes] in *.
      destruct ns as [|[m x] [|]]; [discriminate| |discriminate]. cbn in N1. injection N1 as ->.
      unfold reserved, dmem. cbn [dkeys map existsb dget d_nodes]. rewrite String.eqb_refl. cbn [d_nodes dget]. rewrite String.eqb_refl.
      cbn [dset dupdate fold_left d_edges]. rewrite String.eqb_refl. reflexivity. }
    destruct (build_keeps (DiNode n (Some []) es) g1 h K1) as (_ & r & Er).
    - change (bind (add_node n [] g1) (fun g => build_edges n es g) = Ok h). rewrite Y. exact H.
    - exists r. rewrite Er, N1. reflexivity.
  Qed.
End Build.

Lemma build_tree_name : forall (A : Type) k (g : digraph A) n q t, build_tree k g n q = Ok t -> node_name (file_node t) = n.
Proof.
  intros A [|k] g n q t H; [discriminate|]. cbn [build_tree] in H.
  destruct (children _ _ true _ _) as [a|]; [|discriminate]. cbn [bind] in H.
  destruct (children _ _ false _ _) as [b|]; [|discriminate]. cbn [bind] in H.
  destruct (dget n (d_nodes g)); [|discriminate]. injection H as <-. reflexivity.
Qed.

(** * Lists of results *)
Lemma all_ok_ex : forall (A B : Type) (f : A -> res B) l, (forall x, In x l -> exists y, f x = Ok y) ->
  exists r, all_ok f l = Ok r /\ Forall2 (fun x y => f x = Ok y) l r.
Proof.
  intros A B f l. induction l as [|x l IH]; intros H; [exists []; split; [reflexivity|constructor]|].
  destruct (H x (or_introl eq_refl)) as [y E]. destruct IH as [r [Er F]]; [intros; apply H; right; assumption|].
  exists (y :: r). cbn [all_ok]. rewrite E, Er. split; [reflexivity|constructor; assumption].
Qed.
Lemma Forall2_In_l : forall (A B : Type) (R : A -> B -> Prop) l r, Forall2 R l r -> forall x, In x l -> exists y, In y r /\ R x y.
Proof.
  intros A B R l r F. induction F as [|x y l r H F IH]; intros z Hz; [destruct Hz|].
  destruct Hz as [->|Hz]; [exists y; split; [left; reflexivity|exact H]|].
  destruct (IH z Hz) as [w [W1 W2]]. exists w. split; [right; exact W1|exact W2].
Qed.
Lemma Forall2_In_r : forall (A B : Type) (R : A -> B -> Prop) l r, Forall2 R l r -> forall y, In y r -> exists x, In x l /\ R x y.
Proof.
  intros A B R l r F. induction F as [|x y l r H F IH]; intros z Hz; [destruct Hz|].
  destruct Hz as [->|Hz]; [exists x; split; [left; reflexivity|exact H]|].
  destruct (IH z Hz) as [w [W1 W2]]. exists w. split; [right; exact W1|exact W2].
Qed.
Lemma Forall2_map_eq : forall (A B C : Type) (R : A -> B -> Prop) (f : A -> C) (g : B -> C) l r, Forall2 R l r ->
  (forall x y, R x y -> g y = f x) -> map g r = map f l.
Proof. intros A B C R f g l r F H. induction F; cbn; [reflexivity|]. f_equal; auto. Qed.

Section Ser.
  Context {T D : Type} {ops : LcsOps T}.
  Variable io_t : T -> T.
  Variable io_d : D -> D.
  Variable order : list string -> list string.
  Variable isT : forall A : Type, digraph A -> bool.
  Notation mgr := (csm T D).
  Notation attr := (attr T D).

  (** * The loop over the edges *)
  Definition trans (a : dict attr) (t : T) : Prop := dget "transformation" a = Some (ATrans (Some t)).

  Lemma add_inverses_ok : forall todo (es : list (ename * dict attr)), NoDup (map fst es) -> NoDup todo ->
    (forall u v, In (u, v) todo -> ~ In (v, u) (map fst es) /\ ~ In (v, u) todo /\
       exists a t, In ((u, v), a) es /\ trans a t /\ l_expr t = false) ->
    exists es', add_inverses todo es = Ok es' /\ NoDup (map fst es') /\
      forall e a, In (e, a) es' <-> In (e, a) es \/
        exists u v b t, In (u, v) todo /\ e = (v, u) /\ In ((u, v), b) es /\ trans b t /\
                        a = edge_attrs (Some (l_inv t)) false.
  Proof.
    induction todo as [|[u v] todo IH]; intros es Ne Nt H.
    - exists es. split; [reflexivity|]. split; [exact Ne|]. intros e a. split; [auto|].
      intros [X|(u & v & b & t & [] & _)]. exact X.
    - destruct (H u v (or_introl eq_refl)) as (R1 & R2 & a & t & Ia & Ta & Xt). cbn [add_inverses].
      destruct (eget (v, u) es) as [z|] eqn:Ez.
      { exfalso. apply R1. apply eget_in in Ez. apply (in_map fst) in Ez. exact Ez. }
      rewrite (in_eget _ _ _ Ne Ia). unfold trans in Ta. rewrite Ta, Xt.
      set (ne := ((v, u), edge_attrs (Some (l_inv t)) false)). inversion Nt as [|? ? Nh Nt']; subst.
      assert (Nuv : (u, v) <> (v, u)) by (intros E; apply R2; left; exact E).
      destruct (IH (es ++ [ne])) as (es' & E & N' & I').
      + rewrite map_app. apply (NoDup_Add (Add_app (v, u) (map fst es) [])). rewrite app_nil_r. auto.
      + exact Nt'.
      + intros u' v' K. destruct (H u' v' (or_intror K)) as (P1 & P2 & a' & t' & Ia' & Ta' & Xt').
        split; [|split].
        * rewrite map_app, in_app_iff. intros [Q|[Q|[]]]; [exact (P1 Q)|]. cbn in Q. injection Q as <- <-. exact (Nh K).
        * intros Q. apply P2. right. exact Q.
        * exists a', t'. split; [apply in_or_app; left; exact Ia'|auto].
      + exists es'. split; [exact E|]. split; [exact N'|]. intros e x. rewrite I', in_app_iff. split.
        * intros [[Q|[Q|[]]]|(u' & v' & b & t' & K & -> & Ib & Tb & ->)].
          -- auto.
          -- right. exists u, v, a, t. unfold ne in Q. injection Q as <- <-. split; [left; reflexivity|]. auto.
          -- apply in_app_or in Ib. destruct Ib as [Ib|[Ib|[]]].
             ++ right. exists u', v', b, t'. split; [right; exact K|]. auto.
             ++ exfalso. unfold ne in Ib. injection Ib as <- <- <-. apply R2. right. exact K.
        * intros [Q|(u' & v' & b & t' & [K|K] & -> & Ib & Tb & ->)].
          -- auto.
          -- left. right. left. injection K as <- <-. unfold ne. f_equal.
             assert (Eb : b = a) by (apply (in_eget _ _ _ Ne) in Ib; apply (in_eget _ _ _ Ne) in Ia; congruence).
             subst b. unfold trans in Tb. rewrite Ta in Tb. injection Tb as <-. reflexivity.
          -- right. exists u', v', b, t'. split; [exact K|]. split; [reflexivity|]. split; [apply in_or_app; left; exact Ib|auto].
  Qed.

  Lemma add_inverses_expr : forall todo (es : list (ename * dict attr)), NoDup (map fst es) -> NoDup todo ->
    (forall u v, In (u, v) todo -> ~ In (v, u) (map fst es) /\ ~ In (v, u) todo /\
       exists a t, In ((u, v), a) es /\ trans a t) ->
    (exists u v a t, In (u, v) todo /\ In ((u, v), a) es /\ trans a t /\ l_expr t = true) ->
    add_inverses todo es = Err WeldxException.
  Proof.
    induction todo as [|[u v] todo IH]; intros es Ne Nt H (ux & vx & ax & tx & Kx & Ix & Tx & Xx); [destruct Kx|].
    destruct (H u v (or_introl eq_refl)) as (R1 & R2 & a & t & Ia & Ta). cbn [add_inverses].
    destruct (eget (v, u) es) as [z|] eqn:Ez.
    { exfalso. apply R1. apply eget_in in Ez. apply (in_map fst) in Ez. exact Ez. }
    assert (Ga := in_eget _ _ _ Ne Ia). rewrite Ga. assert (Ta' := Ta). unfold trans in Ta'. rewrite Ta'.
    destruct (l_expr t) eqn:Xt; [reflexivity|]. inversion Nt as [|? ? Nh Nt']; subst.
    destruct Kx as [Kx|Kx].
    { exfalso. injection Kx as -> ->. rewrite (in_eget _ _ _ Ne Ix) in Ga. injection Ga as <-. unfold trans in Tx. congruence. }
    apply IH.
    - rewrite map_app. apply (NoDup_Add (Add_app (v, u) (map fst es) [])). rewrite app_nil_r. auto.
    - exact Nt'.
    - intros u' v' K. destruct (H u' v' (or_intror K)) as (P1 & P2 & a' & t' & Ia' & Ta0).
      split; [|split].
      + rewrite map_app, in_app_iff. intros [Q|[Q|[]]]; [exact (P1 Q)|]. cbn in Q. injection Q as <- <-. exact (Nh K).
      + intros Q. apply P2. right. exact Q.
      + exists a', t'. split; [apply in_or_app; left; exact Ia'|auto].
    - exists ux, vx, ax, tx. split; [exact Kx|]. split; [apply in_or_app; left; exact Ix|auto].
  Qed.

  Lemma edge_view_In : forall (g : digraph attr) e, (forall u v, In (u, v) (links g) -> In u (nodes g)) ->
    (In e (edge_view g) <-> In e (links g)).
  Proof.
    intros g [u v] W. unfold edge_view. rewrite in_flat_map. split.
    - intros (n & _ & H). apply filter_In in H. exact (proj1 H).
    - intros H. exists u. split; [exact (W _ _ H)|]. apply filter_In. split; [exact H|]. cbn. apply String.eqb_refl.
  Qed.
  Lemma edge_view_NoDup : forall (g : digraph attr), keys g -> NoDup (edge_view g).
  Proof.
    intros g [K1 K2]. unfold edge_view. unfold nodes in K1. unfold links in K2. revert K1.
    generalize (map fst (d_nodes g)). induction l as [|n l IH]; intros N; cbn [flat_map]; [constructor|].
    inversion N as [|? ? Nn Nl]; subst. apply NoDup_app_disjoint; [apply NoDup_filter; exact K2|exact (IH Nl)|].
    intros e I1 I2. apply in_flat_map in I1. destruct I1 as (m & Hm & I1).
    apply filter_In in I1. apply filter_In in I2. destruct I1 as [_ E1]. destruct I2 as [_ E2].
    apply String.eqb_eq in E1. apply String.eqb_eq in E2. congruence.
  Qed.

  (** * The graph that is written *)
  Lemma key_unique : forall (es : list (edge T)) e f, NoDup (map ekey es) -> In e es -> In f es -> ekey e = ekey f -> e = f.
  Proof.
    intros es e f N. induction es as [|x es IH]; intros He Hf E; [destruct He|].
    inversion N as [|? ? Nx Nr]; subst. destruct He as [->|He]; destruct Hf as [->|Hf]; auto.
    - exfalso. apply Nx. rewrite E. apply in_map. exact Hf.
    - exfalso. apply Nx. rewrite <- E. apply in_map. exact He.
  Qed.

  Definition dkeysof (c : mgr) : list (string * string) := map ekey (filter e_def (c_edges c)).

  Lemma defined_either : forall (c : mgr) l, ctree_by c l -> forall u v, elinked (c_edges c) u v ->
    In (u, v) (dkeysof c) \/ In (v, u) (dkeysof c).
  Proof.
    intros c l G u v (e & H & <- & <-). destruct (e_def e) eqn:De.
    - left. change (e_src e, e_dst e) with (ekey e). apply in_map. apply filter_In. auto.
    - right. destruct (ew_def _ (gt_ewf _ _ _ _ G) _ H De) as (t & R & _).
      change (e_dst e, e_src e) with (ekey (Edge (e_dst e) (e_src e) (Some t) true)). apply in_map. apply filter_In. auto.
  Qed.
  Lemma defined_one : forall (c : mgr) l, ctree_by c l -> forall u v, In (u, v) (dkeysof c) -> ~ In (v, u) (dkeysof c).
  Proof.
    intros c l G u v H K. apply in_map_iff in H. apply in_map_iff in K.
    destruct H as (e & Ee & He). destruct K as (f & Ef & Hf). apply filter_In in He. apply filter_In in Hf.
    destruct He as [He De]. destruct Hf as [Hf Df]. assert (W := gt_ewf _ _ _ _ G).
    destruct (ew_rev _ W _ He De) as (t & _ & R).
    assert (X : f = Edge (e_dst e) (e_src e) (reverse_tr t) false).
    { apply (key_unique (c_edges c)); [apply (ew_keys _ W)|exact Hf|exact R|].
      rewrite Ef. unfold ekey in *. cbn [e_src e_dst]. injection Ee as -> ->. reflexivity. }
    rewrite X in Df. discriminate.
  Qed.

  Lemma dkeys_NoDup : forall (c : mgr) l, ctree_by c l -> NoDup (dkeysof c).
  Proof. intros c l G. unfold dkeysof. apply NoDup_map_filter. apply (ew_keys _ (gt_ewf _ _ _ _ G)). Qed.

  Lemma dkeys_linked : forall (c : mgr) u v, In (u, v) (dkeysof c) -> elinked (c_edges c) u v.
  Proof.
    intros c u v H. apply in_map_iff in H. destruct H as (e & E & H). apply filter_In in H. destruct H as [H _].
    exists e. unfold ekey in E. injection E as -> ->. auto.
  Qed.

  Definition pair_dec : forall a b : string * string, {a = b} + {a <> b}.
  Proof. intros [a b] [c d]. destruct (string_dec a c); destruct (string_dec b d); subst; auto; right; congruence. Defined.

  Lemma defined_count : forall (c : mgr) l, ctree_by c l -> List.length (dkeysof c) = List.length l.
  Proof.
    intros c l G. assert (Gr := gt_grows _ _ _ _ G).
    set (f := fun k : string * string => if in_dec pair_dec k l then k else (snd k, fst k)).
    rewrite <- (map_length f (dkeysof c)). apply Permutation_length. apply NoDup_Permutation.
    - assert (X : forall ks, NoDup ks -> incl ks (dkeysof c) -> NoDup (map f ks)).
      { induction ks as [|k ks IH]; intros N I; cbn [map]; [constructor|]. inversion N as [|? ? Nk Nr]; subst.
        constructor; [|apply IH; [exact Nr|intros x Hx; apply I; right; exact Hx]].
        intros H. apply in_map_iff in H. destruct H as (k' & E & H').
        assert (Ik := I k (or_introl eq_refl)). assert (Ik' := I k' (or_intror H')).
        destruct k as [a b]. destruct k' as [a' b']. unfold f in E. cbn [fst snd] in E.
        destruct (in_dec pair_dec (a', b') l); destruct (in_dec pair_dec (a, b) l); injection E as E1 E2; subst.
        - exact (Nk H').
        - exact (defined_one c l G _ _ Ik Ik').
        - exact (defined_one c l G _ _ Ik Ik').
        - exact (Nk H'). }
      apply X; [eapply dkeys_NoDup; eassumption|intros x Hx; exact Hx].
    - assert (N := grows_nodup _ _ Gr). unfold verts in N. inversion N as [|? ? _ N']; subst.
      eapply NoDup_map_inv; eassumption.
    - intros [x p]. rewrite in_map_iff. split.
      + intros ((a, b) & E & H). unfold f in E. cbn [fst snd] in E.
        destruct (in_dec pair_dec (a, b) l) as [I|I]; [injection E as <- <-; exact I|]. injection E as <- <-.
        apply dkeys_linked in H. apply (gt_adj _ _ _ _ G) in H. destruct H as [H|H]; [contradiction|exact H].
      + intros H. assert (L : elinked (c_edges c) x p) by (apply (gt_adj _ _ _ _ G); left; exact H).
        destruct (defined_either c l G _ _ L) as [K|K].
        * exists (x, p). split; [|exact K]. unfold f. destruct (in_dec pair_dec (x, p) l); [reflexivity|contradiction].
        * exists (p, x). split; [|exact K]. unfold f. destruct (in_dec pair_dec (p, x) l) as [I|I]; [|reflexivity].
          exfalso. exact (grows_antisym _ _ Gr _ _ H I).
  Qed.

  Lemma all_ends : forall (c : mgr) l, ctree_by c l -> 2 <= List.length (cs_names c) -> forall n, In n (cs_names c) ->
    is_end (filter e_def (c_edges c)) n = true.
  Proof.
    intros c l G L2 n Hn. assert (Gr := gt_grows _ _ _ _ G).
    assert (Y : exists m, In m (cs_names c) /\ m <> n).
    { destruct (cs_names c) as [|a [|b ns]] eqn:E; [destruct Hn| cbn in L2; lia|].
      assert (N := gt_nodup _ _ _ _ G). rewrite E in N. inversion N as [|? ? Na _]; subst.
      destruct (string_dec a n) as [->|X]; [|exists a; split; [left; reflexivity|exact X]].
      exists b. split; [right; left; reflexivity|]. intros ->. apply Na. left. reflexivity. }
    destruct Y as (m & Hm & Nm).
    destruct (tree_connected _ _ Gr n m) as (p & W & _); [apply (gt_names _ _ _ _ G); exact Hn|apply (gt_names _ _ _ _ G); exact Hm|].
    destruct W as [|a b e q Rab _]; [congruence|].
    apply (gt_adj _ _ _ _ G) in Rab. apply (defined_either c l G) in Rab.
    unfold is_end. apply existsb_exists. destruct Rab as [H|H]; apply in_map_iff in H; destruct H as (x & Ex & Hx);
      exists x; split; try exact Hx; unfold ekey in Ex; injection Ex as -> ->; rewrite String.eqb_refl; [reflexivity|apply orb_true_r].
  Qed.

  Lemma filter_all : forall (A : Type) (f : A -> bool) l, (forall x, In x l -> f x = true) -> filter f l = l.
  Proof.
    intros A f l. induction l as [|x l IH]; intros H; [reflexivity|]. cbn [filter]. rewrite (H x (or_introl eq_refl)).
    f_equal. apply IH. intros y Hy. apply H. right. exact Hy.
  Qed.

  (** with two or more systems the written graph has all of them *)
  Lemma defined_graph_eq : forall (c : mgr) l, ctree_by c l -> 2 <= List.length (cs_names c) ->
    defined_graph c = DG (map (fun nd => (fst nd, node_attrs (snd nd))) (c_nodes c))
      (map (fun e => ((e_src e, e_dst e), edge_attrs (e_tr e) (e_def e))) (filter e_def (c_edges c))).
  Proof.
    intros c l G L2. unfold defined_graph. rewrite filter_all; [reflexivity|]. intros [n d] H. cbn [fst].
    apply (all_ends c l G L2). apply (in_map fst) in H. exact H.
  Qed.

  Lemma dg_nodes : forall (c : mgr) l, ctree_by c l -> 2 <= List.length (cs_names c) -> nodes (defined_graph c) = cs_names c.
  Proof. intros c l G L2. rewrite (defined_graph_eq c l G L2). unfold nodes. cbn [d_nodes]. rewrite map_map. reflexivity. Qed.
  Lemma dg_links : forall (c : mgr), links (defined_graph c) = dkeysof c.
  Proof. intros c. unfold links, defined_graph. cbn [d_edges]. rewrite map_map. reflexivity. Qed.

  Lemma dg_wf : forall (c : mgr) l, ctree_by c l -> 2 <= List.length (cs_names c) -> GraphSpec.wf (defined_graph c).
  Proof.
    intros c l G L2. assert (Gr := gt_grows _ _ _ _ G). split.
    - rewrite (dg_nodes c l G L2). apply (gt_nodup _ _ _ _ G).
    - rewrite dg_links. apply (dkeys_NoDup c l G).
    - intros u v. rewrite dg_links, (dg_nodes c l G L2). intros H. apply dkeys_linked in H.
      apply (gt_adj _ _ _ _ G) in H. destruct (adjl_verts _ _ Gr _ _ H) as [A B].
      split; apply (gt_names _ _ _ _ G); assumption.
    - intros n a H. unfold defined_graph in H. cbn [d_nodes] in H. apply in_map_iff in H. destruct H as (nd & E & _).
      injection E as <- <-. cbn. constructor; [intros []|constructor].
    - intros e a H. unfold defined_graph in H. cbn [d_edges] in H. apply in_map_iff in H. destruct H as (ed & E & _).
      injection E as <- <-. cbn. constructor; [intros [X|[]]; discriminate|constructor; [intros []|constructor]].
  Qed.
  Lemma dg_plain : forall (c : mgr), plain (defined_graph c).
  Proof.
    intros c. split.
    - intros n a H. unfold defined_graph in H. cbn [d_nodes] in H. apply in_map_iff in H. destruct H as (nd & E & _).
      injection E as <- <-. cbn. split; intros [X|[]]; discriminate.
    - intros e a H. unfold defined_graph in H. cbn [d_edges] in H. apply in_map_iff in H. destruct H as (ed & E & _).
      injection E as <- <-. cbn. split; [|split]; intros [X|[X|[]]]; discriminate.
  Qed.
  Lemma dg_tree : forall (c : mgr) l, ctree_by c l -> 2 <= List.length (cs_names c) ->
    GraphSpec.tree (nodes (defined_graph c)) (links (defined_graph c)).
  Proof.
    intros c l G L2. assert (Gr := gt_grows _ _ _ _ G). rewrite dg_links, (dg_nodes c l G L2). split.
    - intros u v Hu Hv. apply (gt_names _ _ _ _ G) in Hu. apply (gt_names _ _ _ _ G) in Hv.
      destruct (tree_connected _ _ Gr v u Hv Hu) as (p & W & _). clear Hu Hv L2.
      induction W as [a|a b e q Rab W IH]; [constructor|].
      apply (GraphSpec.r_step _ _ b); [exact IH|].
      apply (gt_adj _ _ _ _ G) in Rab. apply (defined_either c l G) in Rab. unfold step. tauto.
    - rewrite (defined_count c l G). symmetry. exact (proj1 (gtree_length _ _ _ _ G)).
  Qed.

  (** * Records of subsystems *)
  Hypothesis order_perm : forall l, Permutation (order l) l.

  Fixpoint sub_depth (s : subinfo) : nat := let 'Sub _ _ _ _ _ _ l := s in S (list_max (map sub_depth l)).
  Lemma sub_round_trip : forall k s, sub_depth s <= k -> same_sub s (sub_from_yaml (sub_to_yaml order s)).
  Proof.
    induction k as [|k IH]; intros [n r c t m d l] H; [cbn in H; lia|].
    assert (S : forall x, same_set x (to_set (order x))).
    { intros x y. unfold to_set. rewrite nodup_In. split; apply Permutation_in; [apply Permutation_sym|]; apply order_perm. }
    cbn [sub_to_yaml sub_from_yaml]. constructor; [apply S|apply S|].
    assert (F : Forall2 same_sub l (map sub_from_yaml (map (sub_to_yaml order) l))).
    { cbn [sub_depth] in H. apply le_S_n in H. rewrite list_max_le, Forall_map in H.
      clear - H IH. induction H as [|x l Hx _ IHl]; cbn [map]; constructor; auto. }
    destruct l as [|x l]; [constructor|exact F].
  Qed.
  Lemma subs_round_trip : forall l, Forall2 same_sub l
    (match map (sub_to_yaml order) l with [] => [] | l => map sub_from_yaml l end).
  Proof.
    intros l. assert (F : Forall2 same_sub l (map sub_from_yaml (map (sub_to_yaml order) l))).
    { induction l as [|x l IH]; cbn [map]; constructor; auto. exact (sub_round_trip _ x (le_n _)). }
    destruct l; [constructor|exact F].
  Qed.

  (** * Loading the written graph *)
  Hypothesis isT_tree : forall g : digraph attr, isT attr g = true <-> GraphSpec.tree (nodes g) (links g).
  Notation to_yaml := (to_yaml order isT).
  Notation from_yaml := (from_yaml io_t io_d).

  Lemma file_attrs_get : forall (a : dict attr) k, dget k (file_attrs io_t io_d a) = option_map (file_attr io_t io_d) (dget k a).
  Proof.
    intros a k. unfold file_attrs. induction a as [|[k' v] a IH]; [reflexivity|]. cbn [map dget fst snd].
    destruct (String.eqb k k'); [reflexivity|exact IH].
  Qed.

  Definition read_data (d : dict D) : dict D := map (fun kv => (fst kv, io_d (snd kv))) d.

  Lemma written : forall (c : mgr) l, ctree_by c l -> 2 <= List.length (cs_names c) ->
    exists t h first rest,
      to_yaml c = Ok (YMgr (c_name c) (c_ref c) t (map (sub_to_yaml order) (c_subs c))) /\
      load_graph io_t io_d t = Ok h /\ keys h /\ cs_names c = first :: rest /\ (exists r, nodes h = first :: r) /\
      (forall n, In n (nodes h) <-> In n (cs_names c)) /\
      (forall e, In e (links h) <-> In e (dkeysof c)) /\
      (forall n a, In (n, a) (d_nodes h) -> exists d, node_data c n = Some d /\
         dget "data" a = Some (AData (read_data d))) /\
      (forall u v a, In ((u, v), a) (d_edges h) -> exists x, In (Edge u v (Some x) true) (c_edges c) /\
         trans a (io_t x) /\ dget "defined" a = Some (ABool true)).
  Proof.
    intros c l G L2. assert (WF := dg_wf c l G L2). assert (TR := dg_tree c l G L2).
    assert (NG := dg_nodes c l G L2).
    destruct (cs_names c) as [|first rest] eqn:EN; [cbn in L2; lia|].
    destruct (round_trip _ first WF (dg_plain c) TR) as (t & h0 & BT & BG & SA).
    { rewrite NG. left. reflexivity. }
    destruct (from_tree_first (file_node t) h0 BG) as (K0 & r & Er). rewrite (build_tree_name _ _ _ _ _ _ BT) in Er.
    set (h := DG (map (fun na => (fst na, file_attrs io_t io_d (snd na))) (d_nodes h0))
                 (map (fun ea => (fst ea, file_attrs io_t io_d (snd ea))) (d_edges h0))).
    assert (Nh : nodes h = nodes h0) by (unfold nodes, h; cbn [d_nodes]; rewrite map_map; reflexivity).
    assert (Lh : links h = links h0) by (unfold links, h; cbn [d_edges]; rewrite map_map; reflexivity).
    exists t, h, first, rest. split.
    { unfold CsmSerModel.to_yaml, to_tree. destruct (d_nodes (defined_graph c)) as [|[n a] ns] eqn:ED.
      { unfold nodes in NG. rewrite ED in NG. discriminate. }
      assert (E1 : isT attr (defined_graph c) = true) by (apply isT_tree; exact TR). rewrite E1.
      assert (En : n = first) by (unfold nodes in NG; rewrite ED in NG; injection NG as -> _; reflexivity). subst n.
      unfold nodes in BT. rewrite map_length, ED in BT. rewrite BT. reflexivity. }
    split. { unfold load_graph. unfold from_tree. rewrite BG. reflexivity. }
    split. { unfold keys. rewrite Nh, Lh. exact K0. }
    split; [reflexivity|]. split; [exists r; rewrite Nh; exact Er|].
    split. { intros n. rewrite Nh, (same_nodes _ _ SA), NG. reflexivity. }
    split. { intros e. rewrite Lh, (same_links _ _ SA), dg_links. reflexivity. }
    split.
    - intros n a H. unfold h in H. cbn [d_nodes] in H. apply in_map_iff in H. destruct H as ((n', a0) & E & H).
      cbn [fst snd] in E. injection E as -> <-.
      assert (Hn : In n (cs_names c)).
      { rewrite EN, <- NG. apply (same_nodes _ _ SA). apply (in_map fst) in H. exact H. }
      apply in_map_iff in Hn. destruct Hn as ((n', d) & E & Hd). cbn [fst] in E. subst n'.
      exists d. split. { apply dget_In; [apply (gt_nodup _ _ _ _ G)|exact Hd]. }
      rewrite file_attrs_get. rewrite (same_nattr _ _ SA n a0 (node_attrs d) "data" H); [reflexivity|].
      rewrite (defined_graph_eq c l G); [|rewrite EN; exact L2]. cbn [d_nodes].
      apply in_map_iff. exists (n, d). split; [reflexivity|exact Hd].
    - intros u v a H. unfold h in H. cbn [d_edges] in H. apply in_map_iff in H. destruct H as ((e', a0) & E & H).
      cbn [fst snd] in E. injection E as -> <-.
      assert (Hk : In (u, v) (dkeysof c)).
      { rewrite <- dg_links. apply (same_links _ _ SA). apply (in_map fst) in H. exact H. }
      apply in_map_iff in Hk. destruct Hk as (e & Ek & He). assert (He' := He). apply filter_In in He'. destruct He' as [He1 De].
      destruct (ew_rev _ (gt_ewf _ _ _ _ G) _ He1 De) as (x & Ex & _).
      destruct e as [eu ev et ed]. cbn [e_def e_tr] in *. unfold ekey in Ek. cbn [e_src e_dst] in Ek. injection Ek as -> ->. subst et ed.
      exists x. split; [exact He1|].
      assert (X : forall k, dget k a0 = dget k (edge_attrs (D := D) (Some x) true)).
      { intros k. apply (same_eattr _ _ SA (u, v)); [exact H|]. unfold defined_graph. cbn [d_edges].
        apply in_map_iff. exists (Edge u v (Some x) true). split; [reflexivity|exact He]. }
      unfold trans. rewrite !file_attrs_get, !X. split; reflexivity.
  Qed.

  Lemma no_reverse : forall (c : mgr) l (h : digraph attr), ctree_by c l ->
    (forall e, In e (links h) <-> In e (dkeysof c)) -> (forall n, In n (nodes h) <-> In n (cs_names c)) -> keys h ->
    (forall e, In e (edge_view h) <-> In e (links h)) /\ NoDup (edge_view h) /\
    (forall u v, In (u, v) (edge_view h) -> ~ In (v, u) (links h) /\ ~ In (v, u) (edge_view h) /\
       exists a, In ((u, v), a) (d_edges h)).
  Proof.
    intros c l h G LH NH K. assert (Gr := gt_grows _ _ _ _ G).
    assert (V : forall e, In e (edge_view h) <-> In e (links h)).
    { intros e. apply edge_view_In. intros u v H. apply LH in H. apply dkeys_linked in H.
      apply (gt_adj _ _ _ _ G) in H. apply NH. apply (gt_names _ _ _ _ G). exact (proj1 (adjl_verts _ _ Gr _ _ H)). }
    split; [exact V|]. split; [apply edge_view_NoDup; exact K|]. intros u v H. rewrite V in H.
    assert (X : ~ In (v, u) (links h)) by (rewrite LH in *; exact (defined_one c l G _ _ H)).
    split; [exact X|]. split; [rewrite V; exact X|].
    unfold links in H. apply in_map_iff in H. destruct H as ((e, a) & E & H). cbn [fst] in E. subst e. eauto.
  Qed.

  Lemma loaded : forall (c : mgr) l, ctree_by c l -> 2 <= List.length (cs_names c) ->
    (forall u v t, In (Edge u v (Some t) true) (c_edges c) -> l_expr (io_t t) = false) ->
    exists y c', to_yaml c = Ok y /\ from_yaml y = Ok c' /\ same_manager io_t io_d c c' /\
      hd_error (cs_names c) = Some (c_root c').
  Proof.
    intros c l G L2 NX.
    destruct (written c l G L2) as (t & h & first & rest & TY & LG & K & EN & (r & Er) & NH & LH & AN & AE).
    destruct (no_reverse c l h G LH NH K) as (V & NV & RV).
    eexists. unfold from_yaml. rewrite TY.
    destruct (add_inverses_ok (edge_view h) (d_edges h)) as (es & EI & NE & IE).
    { exact (proj2 K). } { exact NV. }
    { intros u v H. destruct (RV u v H) as (A & B & a & Ia). split; [exact A|]. split; [exact B|].
      destruct (AE u v a Ia) as (x & Ix & Tx & _). exists a, (io_t x). split; [exact Ia|]. split; [exact Tx|]. exact (NX _ _ _ Ix). }
    assert (ES : forall e, In e es -> exists y, edge_of e = Ok y).
    { intros [[u v] a] H. apply IE in H. destruct H as [H|(u' & v' & b & x & _ & E & _ & _ & ->)].
      - destruct (AE _ _ _ H) as (x & _ & Tx & Dx). unfold edge_of. cbn [snd]. unfold trans in Tx. rewrite Tx, Dx. eauto.
      - eexists. reflexivity. }
    destruct (all_ok_ex _ _ (@edge_of T D) es ES) as (es' & EO & FE).
    assert (NS : forall na, In na (d_nodes h) -> exists y, node_of (T := T) na = Ok y).
    { intros [n a] H. destruct (AN n a H) as (d & _ & E). unfold node_of. cbn [snd]. rewrite E. eauto. }
    destruct (all_ok_ex _ _ (@node_of T D) (d_nodes h) NS) as (ns' & NO & FN).
    assert (MN : map fst ns' = nodes h).
    { apply (Forall2_map_eq _ _ _ _ fst fst _ _ FN). intros [n a] [n' d] H. unfold node_of in H. cbn [snd fst] in *.
      destruct (dget "data" a) as [[]|]; try discriminate. injection H as -> _. reflexivity. }
    destruct ns' as [|[n0 d0] ns']; [rewrite Er in MN; discriminate|].
    assert (E0 : n0 = first) by (rewrite Er in MN; cbn [map fst] in MN; injection MN as -> _; reflexivity). subst n0.
    set (c' := Csm (c_name c) (c_ref c) first
                 (match map (sub_to_yaml order) (c_subs c) with [] => [] | l => map sub_from_yaml l end)
                 ((first, d0) :: ns') es').
    exists c'. split; [reflexivity|]. split.
    { unfold CsmSerModel.from_yaml. cbn [y_graph y_name y_ref y_subs]. rewrite LG. cbn [bind]. rewrite EI. cbn [bind]. rewrite NO. cbn [bind].
      rewrite EO. reflexivity. }
    assert (EE : forall e, In e es' <-> exists u v x, In (Edge u v (Some x) true) (c_edges c) /\
               (e = Edge u v (Some (io_t x)) true \/ e = Edge v u (Some (l_inv (io_t x))) false)).
    { intros e. split.
      - intros H. destruct (Forall2_In_r _ _ _ _ _ FE e H) as (((u, v), a) & Ia & Ea).
        apply IE in Ia. destruct Ia as [Ia|(u' & v' & b & x & _ & E & Ib & Tb & ->)].
        + destruct (AE _ _ _ Ia) as (x & Ix & Tx & Dx). exists u, v, x. split; [exact Ix|]. left.
          unfold edge_of in Ea. cbn [snd fst] in Ea. unfold trans in Tx. rewrite Tx, Dx in Ea. injection Ea as <-. reflexivity.
        + injection E as -> ->. destruct (AE _ _ _ Ib) as (x' & Ix & Tx & _). exists u', v', x'. split; [exact Ix|]. right.
          unfold trans in *. rewrite Tb in Tx. injection Tx as ->. cbn in Ea. injection Ea as <-. reflexivity.
      - intros (u & v & x & Ix & He).
        assert (Hl : In (u, v) (links h)).
        { apply LH. change (u, v) with (ekey (Edge u v (Some x) true)). apply in_map. apply filter_In. auto. }
        assert (Hv := proj2 (V _) Hl). destruct (RV u v Hv) as (_ & _ & a & Ia). destruct (AE _ _ _ Ia) as (x' & Ix' & Tx & Dx).
        assert (Exx : x' = x).
        { assert (Q := key_unique _ _ _ (ew_keys _ (gt_ewf _ _ _ _ G)) Ix Ix' eq_refl). congruence. }
        subst x'. destruct He as [->| ->].
        + destruct (Forall2_In_l _ _ _ _ _ FE ((u, v), a)) as (y & Iy & Ey); [apply IE; left; exact Ia|].
          unfold edge_of in Ey. cbn [snd fst] in Ey. unfold trans in Tx. rewrite Tx, Dx in Ey. injection Ey as <-. exact Iy.
        + destruct (Forall2_In_l _ _ _ _ _ FE ((v, u), edge_attrs (Some (l_inv (io_t x))) false)) as (y & Iy & Ey).
          { apply IE. right. exists u, v, a, (io_t x). auto 10. }
          cbn in Ey. injection Ey as <-. exact Iy. }
    assert (KE : map ekey es' = map fst es).
    { apply (Forall2_map_eq _ _ _ _ fst ekey _ _ FE). intros [[u v] a] e H. unfold edge_of in H. cbn [snd fst] in *.
      destruct (dget "transformation" a) as [[]|]; try discriminate. destruct (dget "defined" a) as [[]|]; try discriminate.
      injection H as <-. reflexivity. }
    assert (W' : ewf es').
    { split.
      - rewrite KE. exact NE.
      - intros e H De. apply EE in H. destruct H as (u & v & x & Ix & [->| ->]); [|discriminate].
        exists (io_t x). cbn [e_tr e_src e_dst]. split; [reflexivity|]. apply EE. exists u, v, x. split; [exact Ix|].
        right. unfold reverse_tr. rewrite (NX _ _ _ Ix). reflexivity.
      - intros e H De. apply EE in H. destruct H as (u & v & x & Ix & [->| ->]); [discriminate|].
        exists (io_t x). cbn [e_tr e_src e_dst]. split; [apply EE; exists u, v, x; auto|].
        unfold reverse_tr. rewrite (NX _ _ _ Ix). reflexivity. }
    assert (LL : forall u v, elinked es' u v <-> elinked (c_edges c) u v).
    { assert (W := gt_ewf _ _ _ _ G). intros u v. split.
      - intros (e & H & <- & <-). apply EE in H. destruct H as (a & b & x & Ix & [->| ->]); cbn [e_src e_dst].
        + eexists. split; [exact Ix|auto].
        + apply (ewf_sym _ W). eexists. split; [exact Ix|auto].
      - intros (e & H & <- & <-). destruct (e_def e) eqn:De.
        + destruct (ew_rev _ W _ H De) as (x & Ex & _). destruct e as [a b ex ed]. cbn in *. subst.
          exists (Edge a b (Some (io_t x)) true). split; [|auto]. apply EE. exists a, b, x. auto.
        + destruct (ew_def _ W _ H De) as (x & Ix & _).
          exists (Edge (e_src e) (e_dst e) (Some (l_inv (io_t x))) false). split; [|auto]. apply EE. exists (e_dst e), (e_src e), x. auto. }
    destruct (gtree_reroot _ _ _ _ G first) as (l' & G'); [rewrite EN; left; reflexivity|].
    assert (C' : cs_names c' = nodes h) by exact MN.
    split.
    - split.
      + reflexivity.
      + reflexivity.
      + intros n. rewrite C'. apply NH.
      + intros n d Hd. assert (In n (nodes h)).
        { apply NH. apply has_cs_In. unfold has_cs, dmem. unfold node_data in Hd. rewrite Hd. reflexivity. }
        unfold nodes in H. apply in_map_iff in H. destruct H as ((n', a) & E & H). cbn [fst] in E. subst n'.
        destruct (AN n a H) as (d' & Hd' & Ea). assert (d' = d) by congruence. subst d'.
        destruct (Forall2_In_l _ _ _ _ _ FN (n, a) H) as (nd & Ind & End). unfold node_of in End. cbn [snd fst] in End. rewrite Ea in End.
        injection End as <-. apply dget_In; [|exact Ind]. change (NoDup (cs_names c')). rewrite C'. exact (proj1 K).
      + intros u v x. change (c_edges c') with es'. rewrite EE. split.
        * intros (a & b & x0 & Ix & [E|E]); [|discriminate]. injection E as -> -> ->. exists x0. auto.
        * intros (x0 & -> & Ix). exists u, v, x0. auto.
      + apply subs_round_trip.
      + apply gtree_is_tree. exists l'. split.
        * apply (gt_grows _ _ _ _ G').
        * rewrite C'. exact (proj1 K).
        * intros x. rewrite C', NH. apply (gt_names _ _ _ _ G').
        * exact W'.
        * intros u v. change (c_edges c') with es'. rewrite LL. apply (gt_adj _ _ _ _ G').
    - rewrite EN. reflexivity.
  Qed.

  Lemma expr_load : forall (c : mgr) l, ctree_by c l ->
    (exists u v t, In (Edge u v (Some t) true) (c_edges c) /\ l_expr (io_t t) = true) ->
    exists y, to_yaml c = Ok y /\ from_yaml y = Err WeldxException.
  Proof.
    intros c l G (u & v & x & Ix & Xx).
    assert (L2 : 2 <= List.length (cs_names c)).
    { rewrite (proj1 (gtree_length _ _ _ _ G)). destruct l as [|]; [|cbn; lia]. exfalso.
      assert (H : elinked (c_edges c) u v) by (eexists; split; [exact Ix|auto]).
      apply (gt_adj _ _ _ _ G) in H. destruct H as [[]|[]]. }
    destruct (written c l G L2) as (t & h & first & rest & TY & LG & K & EN & (r & Er) & NH & LH & AN & AE).
    destruct (no_reverse c l h G LH NH K) as (V & NV & RV).
    eexists. split; [exact TY|]. unfold CsmSerModel.from_yaml. cbn [y_graph]. rewrite LG. cbn [bind].
    rewrite add_inverses_expr; [reflexivity|exact (proj2 K)|exact NV| |].
    - intros a b H. destruct (RV a b H) as (A & B & at_ & Ia). split; [exact A|]. split; [exact B|].
      destruct (AE a b at_ Ia) as (x' & Ix' & Tx & _). eauto.
    - assert (Hl : In (u, v) (links h)).
      { apply LH. change (u, v) with (ekey (Edge u v (Some x) true)). apply in_map. apply filter_In. auto. }
      apply V in Hl. destruct (RV u v Hl) as (_ & _ & a & Ia). destruct (AE _ _ _ Ia) as (x' & Ix' & Tx & Dx).
      assert (Exx : x' = x).
      { assert (Q := key_unique _ _ _ (ew_keys _ (gt_ewf _ _ _ _ G)) Ix Ix' eq_refl). congruence. }
      subst x'. exists u, v, a, (io_t x). auto.
  Qed.

  (** a manager that has its root only *)
  Lemma root_only : forall (c : mgr) l, ctree_by c l -> List.length (cs_names c) = 1 -> to_yaml c = Err NetworkXError.
  Proof.
    intros c l G L1. assert (E : c_edges c = []).
    { destruct (c_edges c) as [|e es] eqn:E; [reflexivity|]. exfalso. rewrite (proj1 (gtree_length _ _ _ _ G)) in L1.
      destruct l; [|discriminate].
      assert (H : elinked (c_edges c) (e_src e) (e_dst e)) by (exists e; split; [rewrite E; left; reflexivity|auto]).
      apply (gt_adj _ _ _ _ G) in H. destruct H as [[]|[]]. }
    unfold CsmSerModel.to_yaml, to_tree, defined_graph. rewrite E. cbn [filter is_end existsb].
    assert (F : filter (fun _ : string * dict D => false) (c_nodes c) = []).
    { clear. induction (c_nodes c) as [|x r IH]; [reflexivity|exact IH]. }
    rewrite F. reflexivity.
  Qed.
End Ser.
