(** Lemmas about equipment and measurement chains. *)
From Coq Require Import List String Ascii Bool Arith Lia.
From Verif Require Import Base MeasModel MeasSpec MeasFacts EquipModel EquipSpec.
Import ListNotations.

Lemma duplicates_iff : forall l, duplicates l = false <-> NoDup l.
Proof.
  induction l as [|x l IH]; simpl; [split; [constructor|reflexivity]|].
  rewrite orb_false_iff, IH. split.
  - intros [E N]. constructor; [|exact N]. intro I.
    assert (existsb (String.eqb x) l = true) as T; [|congruence].
    apply existsb_exists. exists x. split; [exact I|apply String.eqb_refl].
  - intro N. inversion N as [|? ? N1 N2]; subst. split; [|exact N2].
    destruct (existsb (String.eqb x) l) eqn:E; [|reflexivity]. apply existsb_exists in E.
    destruct E as [y [I Q]]. apply String.eqb_eq in Q. subst. contradiction.
Qed.

Lemma find_name : forall {A} (f : A -> string) l n x, NoDup (map f l) ->
  (find (fun y => String.eqb (f y) n) l = Some x <-> In x l /\ f x = n).
Proof.
  intros A f l n x N. split.
  - intro H. apply find_some in H. destruct H as [I E]. apply String.eqb_eq in E. auto.
  - intros [I E]. induction l as [|y l IH]; [destruct I|]. simpl in *. inversion N as [|? ? N1 N2]; subst.
    destruct (String.eqb_spec (f y) (f x)) as [E|NE].
    + destruct I as [->|I]; [reflexivity|]. exfalso. apply N1. rewrite E. apply in_map. exact I.
    + destruct I as [->|I]; [congruence|]. apply IH; assumption.
Qed.
Lemma find_name_none : forall {A} (f : A -> string) l n,
  find (fun y => String.eqb (f y) n) l = None <-> ~ In n (map f l).
Proof.
  intros A f l n. split.
  - intros H I. apply in_map_iff in I. destruct I as [x [<- I]]. apply (find_none _ _ H) in I.
    rewrite String.eqb_refl in I. discriminate.
  - intro N. destruct (find _ l) as [x|] eqn:E; [|reflexivity]. apply find_some in E. destruct E as [I E].
    apply String.eqb_eq in E. subst. exfalso. apply N. apply in_map. exact I.
Qed.

Lemma edge_is_iff : forall u v x, edge_is u v x = true <-> x = (u, v).
Proof.
  intros u v [a b]. unfold edge_is. simpl. rewrite andb_true_iff, !String.eqb_eq. split; [intros [-> ->]; reflexivity|].
  intro E. injection E as -> ->. auto.
Qed.

Section Facts.
  Context {U D : Type} (uo : unit_ops U).
  Notation eworld := (@eworld U D).
  Notation echain := (@echain U).
  Notation equipment := (@equipment U).

  Lemma chosen_in : forall (q : equipment) n t, choose (q_transfs q) (find_transformation q) n = Ok t -> In t (q_transfs q).
  Proof.
    intros q n t. unfold choose, find_transformation. destruct (q_transfs q) as [|x [|y l]]; [discriminate| |].
    - intro E. injection E as ->. left. reflexivity.
    - destruct n as [n|]; [|discriminate]. destruct (find _ _) as [z|] eqn:F; [|discriminate]. intro E. injection E as ->.
      apply find_some in F. apply F.
  Qed.

  Lemma eop_effect : forall (w : eworld) c o w' c' r, well (e_world w) (ec_chain c) ->
    run_eop uo w c o = (w', c', r) ->
    effect (e_world w) (ec_chain c) (e_world w') (ec_chain c') r /\ ec_name c' = ec_name c /\ ec_equip c' = ec_equip c /\
    ((e_edges w' = e_edges w /\ (mentioned o = None \/ exists e, r = Err e)) \/
     exists q i t sg, mentioned o = Some q /\ In t (q_transfs q) /\ r = Ok tt /\
       e_world w' = grown (e_world w) (ec_chain c) i t sg /\
       ~ In (t_name t) (names (egraph w c)) /\ In i (names (egraph w c)) /\
       e_edges w' = upd (c_graph (ec_chain c)) ((i, t_name t, q) :: nth (c_graph (ec_chain c)) (e_edges w) []) (e_edges w)).
  Proof.
    intros w c o w' c' r WL H. destruct o as [o|q data n tname]; simpl in H.
    - destruct (run_op uo (e_world w) (ec_chain c) o) as [[w1 c1] r1] eqn:R. injection H as <- <- <-. simpl.
      split; [exact (op_effect uo _ _ _ _ _ _ WL R)|]. split; [reflexivity|]. split; [reflexivity|]. left. auto.
    - unfold add_from_equipment in H.
      destruct (choose (q_transfs q) (find_transformation q) tname) as [t|e] eqn:C;
        [|injection H as <- <- <-; split; [constructor|]; split; [reflexivity|]; split; [reflexivity|]; left; eauto].
      destruct (node_name (e_world w) (ec_chain c) n) as [i|e];
        [|injection H as <- <- <-; split; [constructor|]; split; [reflexivity|]; split; [reflexivity|]; left; eauto].
      destruct (add_transformation (e_world w) (ec_chain c) t data (Some i)) as [[w1 c1] r1] eqn:A.
      pose proof (add_transformation_effect _ _ _ _ _ _ _ _ WL A) as E.
      destruct r1 as [[]|e]; [|injection H as <- <- <-; simpl; split; [exact E|]; split; [reflexivity|]; split; [reflexivity|]; left; eauto].
      unfold add_transformation in A. destruct (node_name (e_world w) (ec_chain c) (Some i)) as [i'|] eqn:NN; [|discriminate].
      assert (i' = i) as ->.
      { simpl in NN. destruct (has_node _ _); [|discriminate]. injection NN as ->. reflexivity. }
      destruct (node_signal (e_world w) (graph_at (e_world w) (ec_chain c)) i) as [s|] eqn:NS; [|discriminate].
      destruct (output_signal t s data) as [sg|] eqn:OS; [|discriminate].
      unfold add_signal in A. destruct (has_node (graph_at (e_world w) (ec_chain c)) (t_name t)) eqn:HN; [discriminate|].
      assert (w1 = grown (e_world w) (ec_chain c) i t sg) as W1.
      { injection A as <- _. unfold add_edge, grown, graph_at. simpl. rewrite upd_same by apply WL. simpl. rewrite upd_twice. reflexivity. }
      injection A as _ <-. simpl in H. subst w1.
      pose proof (graph_grown (e_world w) (ec_chain c) i t sg (Some (t_name t)) (proj1 WL)) as GG. rewrite GG in H. simpl in H.
      rewrite existsb_app in H. simpl in H. rewrite (proj2 (edge_is_iff i (t_name t) (i, t_name t)) eq_refl) in H.
      rewrite orb_true_r in H. injection H as <- <- <-. simpl. split; [exact E|]. split; [reflexivity|]. split; [reflexivity|].
      right. exists q, i, t, sg. split; [reflexivity|]. split; [exact (chosen_in _ _ _ C)|]. split; [reflexivity|]. split; [reflexivity|].
      split; [intro I; apply dmem_in in I; unfold has_node in HN; unfold egraph in I; congruence|]. split; [|reflexivity].
      eapply node_signal_name; eauto.
  Qed.

  (** ** The invariant *)
  Record inv (w : eworld) (c : echain) (log : list (string * option equipment)) : Prop := {
    iv_proper : proper w c;
    iv_named : named (egraph w c);
    iv_refs : NoDup (refs (egraph w c));
    iv_len : List.length (e_edges w) = List.length (w_graphs (e_world w));
    iv_names : map fst log = names (egraph w c);
    iv_edge : forall u v t, In (u, v, t) (g_edges (egraph w c)) ->
      dget v log = Some (option_map snd (find (fun y => edge_is u v (fst y)) (nth (c_graph (ec_chain c)) (e_edges w) [])));
    iv_src : dget (src_name (c_src (ec_chain c))) log = Some (ec_equip c);
    iv_from : forall u v q, In (u, v, q) (nth (c_graph (ec_chain c)) (e_edges w) []) ->
      exists t, In (u, v, t) (g_edges (egraph w c)) /\ In t (q_transfs q);
    iv_source : forall e, ec_equip c = Some e -> In (c_src (ec_chain c)) (q_sources e)
  }.

  Lemma dget_app_other : forall {V} n (d : dict V) m x, n <> m -> dget n (d ++ [(m, x)]) = dget n d.
  Proof.
    intros V n d m x N. induction d as [|[k v] d IH]; simpl.
    - destruct (String.eqb_spec n m); [contradiction|reflexivity].
    - rewrite IH. reflexivity.
  Qed.

  Lemma find_none_in : forall {A} (f : A -> bool) l, (forall x, In x l -> f x = false) -> find f l = None.
  Proof. intros A f l. induction l as [|a l IH]; intro H; [reflexivity|]. simpl. rewrite (H a (or_introl eq_refl)). apply IH. intros x I. apply H. right. exact I. Qed.

  Lemma NoDup_app_one : forall {A} (l : list A) x, NoDup l -> ~ In x l -> NoDup (l ++ [x]).
  Proof.
    intros A l x N I. induction l as [|a l IH]; simpl; [constructor; [intros []|constructor]|].
    inversion N as [|? ? N1 N2]; subst. constructor.
    - rewrite in_app_iff. intros [X|[X|[]]]; [contradiction|]. subst. apply I. left. reflexivity.
    - apply IH; [exact N2|]. intro X. apply I. right. exact X.
  Qed.

  Lemma skip_all : forall {A} (l r : list A), skipn (List.length l) (l ++ r) = r.
  Proof. intros A l r. rewrite skipn_app, skipn_all, Nat.sub_diag. reflexivity. Qed.

  Lemma inv_new : forall w name src q,
    List.length (e_edges w) = List.length (w_graphs (e_world w)) ->
    src_sig src < List.length (w_sigs (e_world w)) -> (forall e, q = Some e -> In src (q_sources e)) ->
    inv (fst (new w name src q)) (snd (new w name src q)) [(src_name src, q)].
  Proof.
    intros w name src q L S O. unfold new. destruct (new_chain (e_world w) src) as [w1 c] eqn:N. simpl.
    pose proof (new_tree _ _ _ _ N) as [T NM]. pose proof (well_new _ _ _ _ S N) as WL.
    assert (c_src c = src) as Sc by (injection N as <- <-; reflexivity).
    assert (c_graph c = List.length (w_graphs (e_world w))) as G by (injection N as <- <-; reflexivity).
    assert (List.length (w_graphs w1) = Datatypes.S (List.length (w_graphs (e_world w)))) as LG
      by (injection N as <- <-; simpl; rewrite app_length; simpl; lia).
    assert (graph_at w1 c = MeasModel.G [(src_name src, src_sig src)] []) as GA.
    { injection N as <- <-. unfold graph_at. simpl. rewrite app_nth2 by lia. rewrite Nat.sub_diag. reflexivity. }
    assert (nth (c_graph c) (e_edges w ++ [[]]) [] = []) as NE by (rewrite G, <- L, app_nth2, Nat.sub_diag by lia; reflexivity).
    constructor; unfold proper, egraph; simpl; rewrite ?Sc, ?NE, ?GA.
    - split; [exact WL|]. rewrite <- GA. exact T.
    - rewrite <- GA. exact NM.
    - simpl. constructor; [intros []|constructor].
    - rewrite app_length, L, LG. simpl. lia.
    - reflexivity.
    - intros u v t [].
    - rewrite String.eqb_refl. reflexivity.
    - intros u v e [].
    - exact O.
  Qed.

  Lemma data_graph : forall w (c : chain) r (s : signal), graph_at (W (upd r s (w_sigs w)) (w_graphs w)) c = graph_at (U := U) (D := D) w c.
  Proof. reflexivity. Qed.

  Lemma inv_op : forall w c log o w' c' r, inv w c log -> run_eop uo w c o = (w', c', r) ->
    inv w' c' (log ++ map (fun n => (n, mentioned o)) (skipn (List.length (names (egraph w c))) (names (egraph w' c')))).
  Proof.
    intros w c log o w' c' r IV H. destruct IV as [[WL T] NM RF LE LN IE IS IF ISo].
    destruct (eop_effect w c o w' c' r WL H) as [E [_ [Eq EE]]].
    pose proof (well_effect _ _ _ _ _ WL E) as WL'.
    destruct (effect_src _ _ _ _ _ E) as [Es Eg].
    destruct (effect_tree _ _ _ _ _ _ WL E (conj T NM)) as [T' NM'].
    assert (List.length (w_graphs (e_world w')) = List.length (w_graphs (e_world w))) as LW.
    { destruct E; simpl; rewrite ?upd_length; reflexivity. }
    assert (c_graph (ec_chain c) < List.length (e_edges w)) as LC by (rewrite LE; apply WL).
    remember (e_world w') as w1 eqn:Hw1. remember (ec_chain c') as c1 eqn:Hc1. destruct E as [e|i t s data sg NS NI OS|n k s d DG NEx SD].
    - (* nothing *)
      assert (egraph w' c' = egraph w c) as GG by (unfold egraph; rewrite <- Hw1, <- Hc1; reflexivity).
      rewrite GG, skipn_all. simpl. rewrite app_nil_r.
      destruct EE as [[EE _]|[q [i [t [sg [_ [_ [X _]]]]]]]]; [|discriminate X].
      constructor; rewrite ?GG, ?EE; rewrite <- ?Hc1, <- ?Hw1; rewrite ?Eq; auto.
      + split; rewrite ?GG; rewrite <- ?Hc1, <- ?Hw1; auto.
    - (* a new signal *)
      pose proof (graph_grown (e_world w) (ec_chain c) i t sg (Some (t_name t)) (proj1 WL)) as GG0.
      assert (egraph w' c' = MeasModel.G (g_nodes (egraph w c) ++ [(t_name t, List.length (w_sigs (e_world w)))])
                               (g_edges (egraph w c) ++ [(i, t_name t, t)])) as GG
        by (unfold egraph; rewrite <- Hw1, <- Hc1; exact GG0).
      assert (names (egraph w' c') = names (egraph w c) ++ [t_name t]) as NN.
      { rewrite GG. unfold names. simpl. rewrite map_app. reflexivity. }
      rewrite NN, skip_all. simpl.
      fold (egraph w c) in NI.
      assert (~ In (t_name t) (map fst log)) as NL by (rewrite LN; exact NI).
      assert (forall u q, ~ In (u, t_name t, q) (nth (c_graph (ec_chain c)) (e_edges w) [])) as Fresh.
      { intros u q I. destruct (IF _ _ _ I) as [t' [I' _]]. apply NI. apply (in_map fst) in I'.
        apply (rt_ends _ _ T) in I'. apply I'. }
      assert (forall u v t', In (u, v, t') (g_edges (egraph w c)) -> v <> t_name t) as Other.
      { intros u v t' I ->. apply NI. apply (in_map fst) in I. apply (rt_ends _ _ T) in I. apply I. }
      assert (In i (names (egraph w c))) as Ii by (eapply node_signal_name; exact NS).
      assert (Common : proper w' c' /\ named (egraph w' c') /\ NoDup (refs (egraph w' c')) /\
                map fst (log ++ [(t_name t, mentioned o)]) = names (egraph w' c') /\
                dget (src_name (c_src (ec_chain c'))) (log ++ [(t_name t, mentioned o)]) = Some (ec_equip c')).
      { split; [split; [rewrite <- Hc1, <- Hw1; exact WL'|]|split; [|split; [|split]]].
        - unfold egraph. rewrite <- Hw1, <- Hc1. exact T'.
        - unfold egraph. rewrite <- Hw1, <- Hc1. exact NM'.
        - rewrite GG. unfold refs. simpl. rewrite map_app. simpl. apply NoDup_app_one; [exact RF|].
          intro I. apply (proj2 WL) in I. lia.
        - rewrite map_app, LN, NN. reflexivity.
        - rewrite <- Hc1. simpl. rewrite dget_app_other, IS, Eq; [reflexivity|].
          intro X. apply NI. rewrite <- X. apply (rt_root _ _ T). }
      destruct Common as [P1 [P2 [P3 [P4 P5]]]].
      destruct EE as [[EE M]|[q [i' [t' [sg' [M [It [_ [W' [_ [_ EE]]]]]]]]]]].
      + assert (mentioned o = None) as MN by (destruct M as [M|[e X]]; [exact M|discriminate X]). rewrite MN in *.
        constructor; auto.
        * rewrite EE, <- Hw1, LE. symmetry. exact LW.
        * rewrite EE, GG. rewrite <- Hc1. simpl. intros u v x I. rewrite in_app_iff in I. destruct I as [I|[I|[]]].
          -- rewrite dget_app_other by (eapply Other; exact I). apply IE with x. exact I.
          -- injection I as <- <- <-. rewrite dget_app_new by exact NL. f_equal. symmetry.
             rewrite find_none_in; [reflexivity|]. intros [[a b] y] I. simpl. apply not_true_is_false. intro X.
             apply edge_is_iff in X. injection X as -> ->. exact (Fresh _ _ I).
        * rewrite EE, GG. rewrite <- Hc1. simpl. intros u v y I. destruct (IF _ _ _ I) as [x [I' Ix]].
          exists x. split; [apply in_app_iff; left; exact I'|exact Ix].
        * rewrite Eq, <- Hc1. simpl. exact ISo.
      + assert (i' = i /\ t_name t' = t_name t /\ t' = t) as [-> [_ ->]].
        { assert (g_edges (graph_at (grown (e_world w) (ec_chain c) i t sg) (Ch (c_src (ec_chain c)) (c_graph (ec_chain c)) (Some (t_name t)))) =
                  g_edges (graph_at (grown (e_world w) (ec_chain c) i' t' sg') (Ch (c_src (ec_chain c)) (c_graph (ec_chain c)) (Some (t_name t))))) as X
            by (rewrite W'; reflexivity).
          rewrite !graph_grown in X by apply WL. simpl in X. apply app_inj_tail in X. destruct X as [_ X]. injection X as -> _ ->. auto. }
        rewrite M in *.
        assert (nth (c_graph (ec_chain c)) (e_edges w') [] = (i, t_name t, q) :: nth (c_graph (ec_chain c)) (e_edges w) []) as NE
          by (rewrite EE; apply upd_same; exact LC).
        constructor; auto.
        * rewrite EE, upd_length, <- Hw1, LE. symmetry. exact LW.
        * rewrite GG. rewrite <- Hc1. simpl c_graph. rewrite NE. simpl. intros u v x I. rewrite in_app_iff in I. destruct I as [I|[I|[]]].
          -- rewrite dget_app_other by (eapply Other; exact I).
             destruct (edge_is u v (i, t_name t)) eqn:X; [exfalso; apply edge_is_iff in X; injection X as <- <-; exact (Other _ _ _ I eq_refl)|].
             apply IE with x. exact I.
          -- injection I as <- <- <-. rewrite dget_app_new by exact NL.
             rewrite (proj2 (edge_is_iff i (t_name t) (i, t_name t)) eq_refl). reflexivity.
        * rewrite GG. rewrite <- Hc1. simpl c_graph. rewrite NE. simpl. intros u v y [I|I].
          -- injection I as <- <- <-. exists t. split; [apply in_app_iff; right; left; reflexivity|exact It].
          -- destruct (IF _ _ _ I) as [x [I' Ix]]. exists x. split; [apply in_app_iff; left; exact I'|exact Ix].
        * rewrite Eq, <- Hc1. simpl. exact ISo.
    - (* data *)
      assert (egraph w' c' = egraph w c) as GG by (unfold egraph; rewrite <- Hw1, <- Hc1; reflexivity).
      rewrite GG, skipn_all. simpl. rewrite app_nil_r.
      destruct EE as [[EE _]|[q [i [t [sg [_ [_ [_ [X _]]]]]]]]].
      + constructor; rewrite ?GG, ?EE; rewrite <- ?Hc1, <- ?Hw1; rewrite ?Eq; auto.
        split; rewrite ?GG; rewrite <- ?Hc1, <- ?Hw1; auto.
      + exfalso. apply (f_equal w_sigs) in X. simpl in X. apply (f_equal (@List.length _)) in X.
        rewrite upd_length, app_length in X. simpl in X. lia.
  Qed.

  Lemma ebuilt_inv : forall w c log, ebuilt uo w c log -> inv w c log.
  Proof. intros w c log B. induction B; [apply inv_new; assumption|eapply inv_op; eauto]. Qed.
End Facts.

(** ** Data of signals *)
Section Data.
  Context {U D : Type} (uo : unit_ops U).
  Notation eworld := (@eworld U D).
  Notation echain := (@echain U).

  Lemma has_node_iff : forall (g : @graph U) n, has_node g n = true <-> In n (names g).
  Proof. intros g n. apply dmem_in. Qed.

  Lemma data_iff : forall (w : eworld) (c : echain) n d, proper w c ->
    (get_signal_data w c (Some n) = Ok d <->
     exists s, node_signal (e_world w) (egraph w c) n = Ok s /\ s_data s = Some d).
  Proof.
    intros w c n d P. unfold get_signal_data, egraph. simpl. destruct (has_node (graph_at (e_world w) (ec_chain c)) n) eqn:HN; simpl.
    - destruct (node_signal _ _ n) as [s|]; simpl; [|split; [discriminate|intros [s [X _]]; discriminate X]].
      destruct (s_data s) as [x|] eqn:Sx; split; try discriminate.
      + intro E. injection E as ->. exists s. auto.
      + intros [s' [E X]]. injection E as <-. congruence.
      + intros [s' [E X]]. injection E as <-. congruence.
    - split; [discriminate|]. intros [s [X _]]. apply node_signal_name in X. apply has_node_iff in X. congruence.
  Qed.

  Lemma refs_inj : forall (g : @graph U) n m r, NoDup (refs g) -> dget n (g_nodes g) = Some r -> dget m (g_nodes g) = Some r -> n = m.
  Proof.
    intros g n m r N A B. apply dget_in in A. apply dget_in in B. unfold refs in N.
    induction (g_nodes g) as [|[k x] l IH]; [destruct A|]. simpl in *. inversion N as [|? ? N1 N2]; subst.
    destruct A as [A|A], B as [B|B].
    - congruence.
    - injection A as -> ->. exfalso. apply N1. apply (in_map snd) in B. exact B.
    - injection B as -> ->. exfalso. apply N1. apply (in_map snd) in A. exact A.
    - apply IH; assumption.
  Qed.

  (** a call keeps the data and, unless it is [add_signal_data], adds none to the existing signals *)
  Lemma effect_signal : forall (w w' : @world U D) c c' r n s, well w c -> effect w c w' c' r ->
    node_signal w (graph_at w c) n = Ok s ->
    exists s', node_signal w' (graph_at w' c') n = Ok s' /\ (forall d, s_data s = Some d -> s_data s' = Some d).
  Proof.
    intros w w' c c' r n s WL E H. pose proof (proj1 WL) as WG.
    destruct E as [e|i t s0 data o NS NI OS|m k s0 d DG NE SD].
    - eauto.
    - rewrite graph_grown by exact WG. exists s. split; [|auto]. unfold node_signal in *. simpl.
      rewrite dget_app_old by (unfold names in *; destruct (dget n (g_nodes (graph_at w c))) eqn:E; [|discriminate]; apply dget_in in E; apply (in_map fst) in E; exact E).
      destruct (dget n (g_nodes (graph_at w c))) as [q|]; [|discriminate].
      destruct (nth_error (w_sigs w) q) as [x|] eqn:Q; [|discriminate]. rewrite nth_error_app1 by (apply nth_error_Some; congruence).
      rewrite Q. exact H.
    - change (graph_at (W (upd k (Sig (s_type s0) (s_unit s0) (Some d)) (w_sigs w)) (w_graphs w)) c) with (graph_at w c).
      unfold node_signal in *. destruct (dget n (g_nodes (graph_at w c))) as [q|]; [|discriminate]. simpl.
      destruct (nth_error (w_sigs w) q) as [x|] eqn:Q; [|discriminate]. injection H as ->.
      destruct (Nat.eq_dec k q) as [->|N].
      + rewrite upd_same_e by (apply nth_error_Some; congruence). eexists. split; [reflexivity|].
        rewrite NE in Q. injection Q as ->. intros y Y. congruence.
      + rewrite upd_other_e by exact N. rewrite Q. eauto.
  Qed.
End Data.

(** ** Equality *)
Section EqFacts.
  Context {U D : Type} (sig_eqb : @signal U D -> @signal U D -> bool) (equip_eqb : @equipment U -> @equipment U -> bool).
  Notation eworld := (@eworld U D).
  Notation echain := (@echain U).

  Lemma nodes_eqb_iff : forall (w : @world U D) g g', NoDup (names g) -> NoDup (names g') ->
    (forall r, In r (refs g) -> r < List.length (w_sigs w)) -> (forall r, In r (refs g') -> r < List.length (w_sigs w)) ->
    (nodes_eqb sig_eqb w g g' = true <->
     forall n, match node_signal w g n, node_signal w g' n with
               | Ok s, Ok t => sig_eqb s t = true
               | Err _, Err _ => True
               | _, _ => False
               end).
  Proof.
    intros w g g' N N' R R'. unfold nodes_eqb. rewrite andb_true_iff, Nat.eqb_eq, forallb_forall.
    assert (V : forall h : @graph U, (forall r, In r (refs h) -> r < List.length (w_sigs w)) -> forall n r, dget n (g_nodes h) = Some r ->
              exists s, nth_error (w_sigs w) r = Some s).
    { intros h Rh n r E. apply dget_in in E. apply (in_map snd) in E. apply Rh in E. apply nth_error_Some in E.
      simpl in E. destruct (nth_error (w_sigs w) r); [eauto|congruence]. }
    split.
    - intros [L A] n. unfold node_signal. destruct (dget n (g_nodes g)) as [r|] eqn:Er.
      + pose proof (A _ (dget_in _ _ _ Er)) as X. simpl in X. destruct (dget n (g_nodes g')) as [r'|] eqn:Er'; [|discriminate].
        destruct (V g R n r Er) as [s Es]. destruct (V g' R' n r' Er') as [s' Es']. unfold at_eqb in X. rewrite Es, Es' in *. exact X.
      + destruct (dget n (g_nodes g')) as [r'|] eqn:Er'; [|exact Logic.I]. exfalso.
        assert (incl (names g') (names g)) as J.
        { apply NoDup_length_incl; [exact N|unfold names; rewrite !map_length; lia|].
          intros m I. apply in_map_iff in I. destruct I as [x [<- I]]. specialize (A x I).
          destruct (dget (fst x) (g_nodes g')) as [y|] eqn:Y; [|discriminate]. apply dget_in in Y. apply (in_map fst) in Y. exact Y. }
        apply dget_in in Er'. apply (in_map fst) in Er'. apply J in Er'. apply dget_key_in in Er'. destruct Er' as [y Y]. simpl in Y. congruence.
    - intro A. assert (forall n, In n (names g) <-> In n (names g')) as NM.
      { intro n. specialize (A n). unfold node_signal in A. unfold names. rewrite <- !dmem_in. unfold dmem.
        destruct (dget n (g_nodes g)) as [r|] eqn:Er; destruct (dget n (g_nodes g')) as [r'|] eqn:Er'; try tauto.
        - destruct (V g R n r Er) as [s Es]. rewrite Es in A. contradiction.
        - destruct (V g' R' n r' Er') as [s' Es']. rewrite Es' in A. contradiction. }
      split.
      + pose proof (NoDup_incl_length N (fun n => proj1 (NM n))) as L1. pose proof (NoDup_incl_length N' (fun n => proj2 (NM n))) as L2.
        unfold names in L1, L2. rewrite !map_length in L1, L2. lia.
      + intros [n r] I. simpl. pose proof (dget_nodup _ _ _ N I) as Er. specialize (A n). unfold node_signal in A. rewrite Er in A.
        destruct (V g R n r Er) as [s Es]. rewrite Es in A. unfold at_eqb. rewrite Es.
        destruct (dget n (g_nodes g')) as [r'|] eqn:Er'; [|contradiction]. destruct (nth_error (w_sigs w) r') as [s'|]; [exact A|contradiction].
  Qed.

  Lemma edges_eqb_iff : forall (g g' : @graph U), NoDup (links g) -> NoDup (links g') ->
    (edges_eqb g g' = true <-> forall u v, In (u, v) (links g) <-> In (u, v) (links g')).
  Proof.
    intros g g' N N'. unfold edges_eqb. rewrite andb_true_iff, Nat.eqb_eq, forallb_forall.
    assert (Q : forall h u v, existsb (fun y : string * string * @transf U => edge_is u v (fst y)) (g_edges h) = true <-> In (u, v) (links h)).
    { intros h u v. rewrite existsb_exists. unfold links. rewrite in_map_iff. split.
      - intros [y [I E]]. apply edge_is_iff in E. eauto.
      - intros [y [E I]]. exists y. split; [exact I|]. apply edge_is_iff. exact E. }
    split.
    - intros [L A]. assert (incl (links g) (links g')) as J.
      { intros [u v] I. apply in_map_iff in I. destruct I as [x [E I]]. apply Q. specialize (A x I). rewrite E in A. exact A. }
      intros u v. split; [apply J|]. apply (NoDup_length_incl N); [|exact J]. unfold links. rewrite !map_length. lia.
    - intro A. split.
      + assert (incl (links g) (links g')) as J1 by (intros [u v]; apply A). assert (incl (links g') (links g)) as J2 by (intros [u v]; apply A).
        pose proof (NoDup_incl_length N J1). pose proof (NoDup_incl_length N' J2). unfold links in *. rewrite !map_length in *. lia.
      + intros x I. apply Q. rewrite <- surjective_pairing. assert (In (fst x) (links g)) as J by (apply in_map; exact I).
        destruct (fst x) as [u v]. apply A. exact J.
  Qed.
End EqFacts.
