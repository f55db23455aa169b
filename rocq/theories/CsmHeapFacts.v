(** Lemmas for C26: operations stay inside a closed region of the heap. *)
From Coq Require Import List String Bool ZArith Arith Lia.
From Verif Require Import Base CsmModel CsmSpec CsmGraphFacts CsmHeapModel CsmHeapSpec.
Import ListNotations.
Open Scope list_scope.

Lemma upd_length : forall (A : Type) (l : list A) n x, List.length (upd n x l) = List.length l.
Proof. induction l as [|y r IH]; intros [|n] x; cbn; auto. Qed.
Lemma upd_same : forall (A : Type) (l : list A) n x, n < List.length l -> nth_error (upd n x l) n = Some x.
Proof. induction l as [|y r IH]; intros [|n] x L; cbn in *; try lia; [reflexivity|]. apply IH. lia. Qed.
Lemma upd_other : forall (A : Type) (l : list A) n x k, k <> n -> nth_error (upd n x l) k = nth_error l k.
Proof. induction l as [|y r IH]; intros [|n] x [|k] N; cbn; try reflexivity; try congruence. apply IH. congruence. Qed.
Lemma nth_error_new : forall (A : Type) (l : list A) x k, k <> List.length l -> nth_error (l ++ [x]) k = nth_error l k.
Proof.
  intros A l x k N. destruct (Nat.lt_ge_cases k (List.length l)); [apply nth_error_app1; assumption|].
  rewrite nth_error_app2 by assumption. rewrite (proj2 (nth_error_None l k)) by assumption.
  destruct (k - List.length l) as [|j] eqn:E; [lia|]. destruct j; reflexivity.
Qed.
Lemma nth_error_last : forall (A : Type) (l : list A) x, nth_error (l ++ [x]) (List.length l) = Some x.
Proof. intros. rewrite nth_error_app2 by lia. rewrite Nat.sub_diag. reflexivity. Qed.
Lemma nth_of_error : forall (A : Type) (l l' : list A) d k, nth_error l k = nth_error l' k -> nth k l d = nth k l' d.
Proof.
  intros A l l' d k E. destruct (nth_error l k) as [x|] eqn:H.
  - rewrite (nth_error_nth l k d H). symmetry. apply nth_error_nth. congruence.
  - rewrite (nth_overflow l), (nth_overflow l'); [reflexivity| |]; apply nth_error_None; congruence.
Qed.

Lemma dget_mem : forall (V : Type) k (d : dict V) v, dget k d = Some v -> In (k, v) d.
Proof.
  intros V k. induction d as [|[k' v'] r IH]; cbn; intros v E; [discriminate|].
  destruct (String.eqb k k') eqn:K; [injection E as ->; apply String.eqb_eq in K; subst; auto|right; apply IH, E].
Qed.

Section Region.
  Context {T D : Type} {ops : LcsOps T}.
  Notation wld := (world T D).
  (** regions: sets of cells and managers *)
  Context (pd pi pl pm : nat -> Prop).

  Record inside (w w' : wld) : Prop := {
    in_dicts : forall a, ~ pd a -> nth_error (w_dicts w') a = nth_error (w_dicts w) a;
    in_infos : forall a, ~ pi a -> nth_error (w_infos w') a = nth_error (w_infos w) a;
    in_lists : forall a, ~ pl a -> nth_error (w_lists w') a = nth_error (w_lists w) a;
    in_mgrs : forall i, ~ pm i -> nth_error (w_mgrs w') i = nth_error (w_mgrs w) i
  }.
  Definition mgr_in (w : wld) (m : hmgr T) : Prop :=
    (forall n a, In (n, a) (h_nodes m) -> pd a /\ a < List.length (w_dicts w)) /\
    pl (h_subs m) /\ h_subs m < List.length (w_lists w).
  Record closed (w : wld) : Prop := {
    cl_mgrs : forall i m, pm i -> nth_error (w_mgrs w) i = Some m -> mgr_in w m;
    cl_lists : forall l x a, pl l -> nth_error (w_lists w) l = Some x -> In a x -> pi a /\ a < List.length (w_infos w);
    cl_infos : forall a x, pi a -> nth_error (w_infos w) a = Some x -> pl (i_subs x) /\ i_subs x < List.length (w_lists w);
    cl_fd : forall a, List.length (w_dicts w) <= a -> pd a;
    cl_fi : forall a, List.length (w_infos w) <= a -> pi a;
    cl_fl : forall a, List.length (w_lists w) <= a -> pl a;
    cl_fm : forall a, List.length (w_mgrs w) <= a -> pm a
  }.
  Definition good (w w' : wld) : Prop := inside w w' /\ closed w'.

  Lemma inside_refl : forall w, inside w w.
  Proof. intros w. constructor; reflexivity. Qed.
  Lemma inside_trans : forall a b c, inside a b -> inside b c -> inside a c.
  Proof.
    intros a b c [A1 A2 A3 A4] [B1 B2 B3 B4]. constructor; intros x N.
    - rewrite (B1 x N). auto.
    - rewrite (B2 x N). auto.
    - rewrite (B3 x N). auto.
    - rewrite (B4 x N). auto.
  Qed.
  Lemma good_trans : forall a b c, good a b -> good b c -> good a c.
  Proof. intros a b c [A _] [B C]. split; [exact (inside_trans a b c A B)|exact C]. Qed.
  Lemma good_refl : forall w, closed w -> good w w.
  Proof. intros w C. split; [apply inside_refl|exact C]. Qed.

  (** the elementary changes *)
  Lemma good_new_dict : forall w d, closed w -> good w (new_dict d w).
  Proof.
    intros w d [M L I FD FI FL FM]. split.
    - constructor; try reflexivity. intros a N. cbn. apply nth_error_new. intros ->. apply N, FD. lia.
    - constructor; cbn; try assumption.
      + intros i m P E. destruct (M i m P E) as (A & B & C). split; [|split; assumption].
        intros n a I'. destruct (A n a I'). cbn. rewrite app_length. cbn. split; [assumption|lia].
      + intros a. rewrite app_length. cbn. intros. apply FD. lia.
  Qed.
  Lemma good_new_info : forall w x, closed w -> pl (i_subs x) -> i_subs x < List.length (w_lists w) -> good w (new_info x w).
  Proof.
    intros w x [M L I FD FI FL FM] P B. split.
    - constructor; try reflexivity. intros a N. cbn. apply nth_error_new. intros ->. apply N, FI. lia.
    - constructor; cbn; try assumption.
      + intros l y a Q E J. destruct (L l y a Q E J). rewrite app_length. cbn. split; [assumption|lia].
      + intros a y Q E. destruct (Nat.eq_dec a (List.length (w_infos w))) as [->|N].
        * rewrite nth_error_last in E. injection E as <-. split; assumption.
        * rewrite nth_error_new in E by exact N. apply (I a y Q E).
      + intros a. rewrite app_length. cbn. intros. apply FI. lia.
  Qed.
  Lemma good_new_list : forall w l, closed w -> (forall a, In a l -> pi a /\ a < List.length (w_infos w)) -> good w (new_list l w).
  Proof.
    intros w l [M L I FD FI FL FM] P. split.
    - constructor; try reflexivity. intros a N. cbn. apply nth_error_new. intros ->. apply N, FL. lia.
    - constructor; cbn; try assumption.
      + intros i m Q E. destruct (M i m Q E) as (A & B & C). split; [assumption|]. split; [assumption|]. cbn. rewrite app_length. cbn. lia.
      + intros k y a Q E J. destruct (Nat.eq_dec k (List.length (w_lists w))) as [->|N].
        * rewrite nth_error_last in E. injection E as <-. apply P, J.
        * rewrite nth_error_new in E by exact N. apply (L k y a Q E J).
      + intros a x Q E. destruct (I a x Q E). rewrite app_length. cbn. split; [assumption|lia].
      + intros a. rewrite app_length. cbn. intros. apply FL. lia.
  Qed.
  Lemma good_new_mgr : forall w m, closed w -> mgr_in w m -> good w (new_mgr m w).
  Proof.
    intros w m [M L I FD FI FL FM] P. split.
    - constructor; try reflexivity. intros a N. cbn. apply nth_error_new. intros ->. apply N, FM. lia.
    - constructor; cbn; try assumption.
      + intros i x Q E. destruct (Nat.eq_dec i (List.length (w_mgrs w))) as [->|N].
        * rewrite nth_error_last in E. injection E as <-. exact P.
        * rewrite nth_error_new in E by exact N. apply (M i x Q E).
      + intros a. rewrite app_length. cbn. intros. apply FM. lia.
  Qed.
  Lemma good_set_dict : forall w a d, closed w -> pd a -> good w (set_dict a d w).
  Proof.
    intros w a d [M L I FD FI FL FM] P. split.
    - constructor; try reflexivity. intros b N. cbn. apply upd_other. intros ->. auto.
    - constructor; cbn; try assumption.
      + intros i m Q E. destruct (M i m Q E) as (A & B & C). split; [|split; assumption].
        intros n b J. cbn. rewrite upd_length. apply (A n b J).
      + rewrite upd_length. assumption.
  Qed.
  Lemma good_set_info : forall w a x, closed w -> pi a -> pl (i_subs x) -> i_subs x < List.length (w_lists w) -> good w (set_info a x w).
  Proof.
    intros w a x [M L I FD FI FL FM] P Q B. split.
    - constructor; try reflexivity. intros b N. cbn. apply upd_other. intros ->. auto.
    - constructor; cbn; try assumption.
      + rewrite upd_length. assumption.
      + intros b y R E. destruct (Nat.eq_dec b a) as [->|N].
        * rewrite upd_same in E; [injection E as <-; split; assumption|]. rewrite <- (upd_length _ _ a x). apply nth_error_Some. congruence.
        * rewrite upd_other in E by exact N. apply (I b y R E).
      + rewrite upd_length. assumption.
  Qed.
  Lemma good_set_list : forall w l x, closed w -> pl l -> (forall a, In a x -> pi a /\ a < List.length (w_infos w)) -> good w (set_list l x w).
  Proof.
    intros w l x [M L I FD FI FL FM] P Q. split.
    - constructor; try reflexivity. intros b N. cbn. apply upd_other. intros ->. auto.
    - constructor; cbn; try assumption.
      + intros i m R E. destruct (M i m R E) as (A & B & C). split; [assumption|]. split; [assumption|]. cbn. rewrite upd_length. exact C.
      + intros k y a R E J. destruct (Nat.eq_dec k l) as [->|N].
        * rewrite upd_same in E; [injection E as <-; apply Q, J|]. rewrite <- (upd_length _ _ l x). apply nth_error_Some. congruence.
        * rewrite upd_other in E by exact N. apply (L k y a R E J).
      + rewrite upd_length. assumption.
      + rewrite upd_length. assumption.
  Qed.
  Lemma good_set_mgr : forall w i m, closed w -> pm i -> mgr_in w m -> good w (set_mgr i m w).
  Proof.
    intros w i m [M L I FD FI FL FM] P Q. split.
    - constructor; try reflexivity. intros b N. cbn. apply upd_other. intros ->. auto.
    - constructor; cbn; try assumption.
      + intros k x R E. destruct (Nat.eq_dec k i) as [->|N].
        * rewrite upd_same in E; [injection E as <-; exact Q|]. rewrite <- (upd_length _ _ i m). apply nth_error_Some. congruence.
        * rewrite upd_other in E by exact N. apply (M k x R E).
      + rewrite upd_length. assumption.
  Qed.

  Lemma cl_list_at : forall w l a, closed w -> pl l -> In a (list_at w l) -> pi a /\ a < List.length (w_infos w).
  Proof.
    intros w l a C P J. unfold list_at in J. destruct (nth_error (w_lists w) l) as [x|] eqn:E.
    - rewrite (nth_error_nth _ _ _ E) in J. apply (cl_lists w C l x a P E J).
    - rewrite nth_overflow in J by (apply nth_error_None; exact E). contradiction.
  Qed.
  Lemma cl_infos_at : forall w l x, closed w -> pl l -> In x (infos_at w (list_at w l)) -> pl (i_subs x) /\ i_subs x < List.length (w_lists w).
  Proof.
    intros w l x C P J. unfold infos_at in J. apply in_flat_map in J. destruct J as (a & J & E).
    destruct (cl_list_at w l a C P J) as [Q _]. destruct (nth_error (w_infos w) a) as [y|] eqn:H; [|contradiction].
    destruct E as [<-|[]]. apply (cl_infos w C a y Q H).
  Qed.
  Lemma In_dset : forall (V : Type) k (v : V) d n a, In (n, a) (dset k v d) -> a = v \/ In (n, a) d.
  Proof.
    intros V k v. induction d as [|[k' v'] r IH]; intros n a; cbn.
    - intros [E|[]]. injection E as -> ->. auto.
    - destruct (String.eqb k k').
      + intros [E|J]; [injection E as -> ->; auto|auto].
      + intros [E|J]; [right; left; exact E|]. destruct (IH n a J); auto.
  Qed.
  Lemma mgr_in_ext : forall w w' m, mgr_in w m -> List.length (w_dicts w) <= List.length (w_dicts w') ->
    List.length (w_lists w) <= List.length (w_lists w') -> mgr_in w' m.
  Proof.
    intros w w' m (A & B & C) L1 L2. split; [|split; [exact B|lia]]. intros n a J. destruct (A n a J). split; [assumption|lia].
  Qed.

  (** the operations *)
  Lemma good_h_new : forall w root name ref, closed w -> good w (h_new root name ref w).
  Proof.
    intros w root name ref C. unfold h_new.
    pose proof (good_new_dict w [] C) as G1. pose proof (good_new_list (new_dict [] w) [] (proj2 G1) (fun a F => match F with end)) as G2.
    refine (good_trans _ _ _ (good_trans _ _ _ G1 G2) (good_new_mgr _ _ (proj2 G2) _)).
    split; [|split].
    - intros n a [E|[]]. injection E as <- <-. cbn. rewrite app_length. cbn. split; [apply (cl_fd w C); lia|lia].
    - cbn. apply (cl_fl w C). lia.
    - cbn. rewrite app_length. cbn. lia.
  Qed.
  Lemma good_h_add : forall w i m n r t b, closed w -> pm i -> nth_error (w_mgrs w) i = Some m -> good w (fst (h_add_cs w i m n r t b)).
  Proof.
    intros w i m n r t b C P E. pose proof (cl_mgrs w C i m P E) as M. unfold h_add_cs.
    destruct (add_ref_conflict _ _); [apply good_refl, C|]. destruct (has_cs (view w m) n).
    - destruct (is_neighbor_of _ _ _) as [[|]|]; cbn; try (apply good_refl, C).
      apply good_set_mgr; [exact C|exact P|exact M].
    - destruct (has_cs (view w m) r); cbn; [|apply good_refl, C].
      pose proof (good_new_dict w [] C) as G1. refine (good_trans _ _ _ G1 (good_set_mgr _ _ _ (proj2 G1) P _)).
      destruct M as (A & B & K). split; [|split; [exact B|exact K]].
      intros k a J. cbn in J. apply In_dset in J. cbn. rewrite app_length. cbn.
      destruct J as [->|J]; [split; [apply (cl_fd w C); lia|lia]|]. destruct (A k a J). split; [assumption|lia].
  Qed.
  Lemma good_h_delete_cs : forall w i m x b, closed w -> pm i -> nth_error (w_mgrs w) i = Some m -> good w (fst (h_delete_cs w i m x b)).
  Proof.
    intros w i m x b C P E. pose proof (cl_mgrs w C i m P E) as M. unfold h_delete_cs.
    destruct (negb _); [apply good_refl, C|]. destruct (String.eqb _ _); [apply good_refl, C|].
    destruct (get_all_children _ _) as [ch|]; [|apply good_refl, C]. destruct (negb b && _); [apply good_refl, C|].
    destruct (dropped_subs _ _ _) as [dr|]; [|apply good_refl, C]. destruct (remove_nodes _ _) as [c1 r1]. cbn [fst].
    match goal with |- good w (set_mgr i ?m' (new_list ?l w)) => pose proof (good_new_list w l C) as G1; set (m1 := m') end.
    destruct M as (A & B & K).
    assert (G2 : good w (new_list (filter (fun a => match nth_error (w_infos w) a with Some y => negb (smem (i_name y) dr) | None => false end) (list_at w (h_subs m))) w)).
    { apply G1. intros a J. apply filter_In in J. destruct J as [J _]. apply (cl_list_at w (h_subs m) a C B J). }
    refine (good_trans _ _ _ G2 (good_set_mgr _ _ _ (proj2 G2) P _)).
    split; [|split].
    - intros n a J. cbn in J. apply filter_In in J. destruct J as [J _]. exact (A n a J).
    - cbn. apply (cl_fl w C). lia.
    - cbn. rewrite app_length. cbn. lia.
  Qed.
  Lemma good_h_assign : forall w i m f v k r tg, closed w -> pm i -> nth_error (w_mgrs w) i = Some m -> good w (fst (h_assign f w m v k r tg)).
  Proof.
    intros w i m f v k r tg C P E. pose proof (cl_mgrs w C i m P E) as M. unfold h_assign.
    destruct (smem _ _); [apply good_refl, C|]. destruct (negb _); [apply good_refl, C|].
    assert (Q : forall n u, good w (fst (match dget n (h_nodes m) with None => (w, Err KeyError) | Some a => (set_dict a (dset k u (dict_at w a)) w, Ok tt) end))).
    { intros n u. destruct (dget n (h_nodes m)) as [a|] eqn:H; cbn; [|apply good_refl, C]. apply good_set_dict; [exact C|].
      apply dget_mem in H. exact (proj1 (proj1 M n a H)). }
    destruct tg as [tg|]; [|apply Q]. destruct (negb _); [apply good_refl, C|]. destruct (f v r tg); [apply Q|apply good_refl, C].
  Qed.
  Lemma good_discard : forall k l w, closed w -> (forall a, In a l -> pi a) -> good w (discard_data k w l).
  Proof.
    intros k. induction l as [|a r IH]; intros w C H; [apply good_refl, C|]. cbn [discard_data fold_left].
    destruct (nth_error (w_infos w) a) as [x|] eqn:E.
    - assert (G : good w (set_info a (Info (i_name x) (i_root x) (i_common x) (i_ref x) (i_members x) (filter (fun n => negb (String.eqb k n)) (i_data x)) (i_subs x)) w)).
      { destruct (cl_infos w C a x (H a (or_introl eq_refl)) E). apply good_set_info; auto. apply H. left. reflexivity. }
      refine (good_trans _ _ _ G (IH _ (proj2 G) _)). intros b J. apply H. right. exact J.
    - apply IH; [exact C|]. intros b J. apply H. right. exact J.
  Qed.
  Lemma holder_In : forall (w : wld) k ns a, holder w k ns = Some a -> exists n, In (n, a) ns.
  Proof.
    intros w k. induction ns as [|[n b] r IH]; cbn; intros a E; [discriminate|].
    destruct (dmem k (dict_at w b)); [injection E as ->; exists n; auto|]. destruct (IH a E) as (n' & J). exists n'. auto.
  Qed.
  Lemma good_h_delete_data : forall w i m k, closed w -> pm i -> nth_error (w_mgrs w) i = Some m -> good w (fst (h_delete_data w m k)).
  Proof.
    intros w i m k C P E. pose proof (cl_mgrs w C i m P E) as M. unfold h_delete_data.
    assert (G : good w (discard_data k w (list_at w (h_subs m)))).
    { apply good_discard; [exact C|]. intros a J. apply (cl_list_at w (h_subs m) a C (proj1 (proj2 M)) J). }
    destruct (holder _ k (h_nodes m)) as [a|] eqn:H; cbn [fst]; [|exact G].
    refine (good_trans _ _ _ G (good_set_dict _ _ _ (proj2 G) _)). apply holder_In in H. destruct H as (n & J). exact (proj1 (proj1 M n a J)).
  Qed.
  Lemma compose_cells_In : forall h g n a, In (n, a) (compose_cells g h) -> In (n, a) g \/ exists k, In (k, a) h.
  Proof.
    induction h as [|[k b] r IH]; intros g n a; cbn; [auto|]. intros J. apply IH in J. destruct J as [J|(k' & J)].
    - apply In_dset in J. cbn in J. destruct J as [->|J]; [right; exists k; auto|auto].
    - right. exists k'. auto.
  Qed.
  Lemma good_h_merge : forall w i m j o, closed w -> pm i -> nth_error (w_mgrs w) i = Some m -> pm j -> nth_error (w_mgrs w) j = Some o ->
    good w (fst (h_merge w i m o)).
  Proof.
    intros w i m j o C P E Pj Ej. pose proof (cl_mgrs w C i m P E) as (A & B & K). pose proof (cl_mgrs w C j o Pj Ej) as (Ao & Bo & Ko). unfold h_merge.
    destruct (merge_ref_conflict _ _); [apply good_refl, C|]. destruct (filter _ _) as [|n [|n' r]]; try (apply good_refl, C).
    destruct (existsb _ _); [apply good_refl, C|]. destruct (dget n (h_nodes m)) as [a|]; [|apply good_refl, C].
    destruct (dget n (h_nodes o)) as [b|]; [|apply good_refl, C]. cbn [fst].
    set (d := dict_join _ _). set (x := Info _ _ _ _ _ _ _). set (m' := with_nodes _ _ _).
    pose proof (good_new_dict w d C) as G1.
    assert (G2 : good w (new_info x (new_dict d w))) by (refine (good_trans _ _ _ G1 (good_new_info _ _ (proj2 G1) _ _)); [exact Bo|exact Ko]).
    assert (G3 : good w (set_mgr i m' (new_info x (new_dict d w)))).
    { refine (good_trans _ _ _ G2 (good_set_mgr _ _ _ (proj2 G2) P _)). split; [|split; [exact B|exact K]].
      intros k c J. cbn in J. cbn. rewrite app_length. cbn. apply In_dset in J. destruct J as [->|J]; [split; [apply (cl_fd w C); lia|lia]|].
      apply compose_cells_In in J. destruct J as [J|(k' & J)]; [destruct (A k c J)|destruct (Ao k' c J)]; split; try assumption; lia. }
    refine (good_trans _ _ _ G3 (good_set_list _ _ _ (proj2 G3) B _)).
    intros c J. cbn. rewrite app_length. cbn. apply in_app_or in J. destruct J as [J|[<-|[]]].
    - destruct (cl_list_at w (h_subs m) c C B J). split; [assumption|lia].
    - split; [apply (cl_fi w C); lia|lia].
  Qed.
  Lemma good_h_extract : forall w m x, closed w -> mgr_in w m -> pl (i_subs x) -> i_subs x < List.length (w_lists w) -> good w (fst (h_extract w m x)).
  Proof.
    intros w m x C (A & B & K) PX LX. unfold h_extract. destruct (dget _ _) as [a|]; [|apply good_refl, C]. cbn [fst].
    match goal with |- good w (new_mgr _ (new_dict ?d w)) => pose proof (good_new_dict w d C) as G1 end.
    refine (good_trans _ _ _ G1 (good_new_mgr _ _ (proj2 G1) _)). split; [|split; [exact PX|exact LX]].
    intros n b J. cbn in J. cbn. rewrite app_length. cbn. apply In_dset in J. destruct J as [->|J]; [split; [apply (cl_fd w C); lia|lia]|].
    apply filter_In in J. destruct (A n b (proj1 J)). split; [assumption|lia].
  Qed.
  Lemma good_lengths : forall (w : wld) m x, List.length (w_dicts w) <= List.length (w_dicts (fst (h_extract w m x))) /\
    w_lists (fst (h_extract w m x)) = w_lists w.
  Proof.
    intros w m x. unfold h_extract. destruct (dget _ _); cbn; [rewrite app_length|]; split; try reflexivity; lia.
  Qed.
  Lemma good_h_extract_all : forall l w m, closed w -> mgr_in w m ->
    (forall x, In x l -> pl (i_subs x) /\ i_subs x < List.length (w_lists w)) -> good w (fst (h_extract_all w m l)).
  Proof.
    induction l as [|x r IH]; intros w m C M H; [apply good_refl, C|]. cbn [h_extract_all].
    destruct (H x (or_introl eq_refl)) as [PX LX]. pose proof (good_h_extract w m x C M PX LX) as G. pose proof (good_lengths w m x) as [L1 L2].
    destruct (h_extract w m x) as [w1 [u|e]]; cbn [fst] in *; [|exact G].
    refine (good_trans _ _ _ G (IH w1 m (proj2 G) _ _)).
    - apply (mgr_in_ext w w1 m M); [exact L1|rewrite L2; lia].
    - intros y J. rewrite L2. apply H. right. exact J.
  Qed.
  Lemma good_h_strip : forall l w i m, closed w -> pm i -> mgr_in w m ->
    good w (fst (fst (h_strip w i m l))) /\ mgr_in (fst (fst (h_strip w i m l))) (snd (fst (h_strip w i m l))).
  Proof.
    induction l as [|x r IH]; intros w i m C P M; [split; [apply good_refl, C|exact M]|]. cbn [h_strip].
    destruct (dget (i_common x) (h_nodes m)) as [a|]; [|split; [apply good_refl, C|exact M]].
    set (d := filter _ (dict_at w a)). set (m1 := with_nodes _ _ _).
    pose proof (good_new_dict w d C) as G1.
    assert (M1 : mgr_in (new_dict d w) m1).
    { destruct M as (A & B & K). split; [|split; [exact B|exact K]]. intros n b J. cbn in J. cbn. rewrite app_length. cbn.
      apply In_dset in J. destruct J as [->|J]; [split; [apply (cl_fd w C); lia|lia]|]. destruct (A n b J). split; [assumption|lia]. }
    assert (G2 : good w (set_mgr i m1 (new_dict d w))) by (refine (good_trans _ _ _ G1 (good_set_mgr _ _ _ (proj2 G1) P M1))).
    destruct (IH (set_mgr i m1 (new_dict d w)) i m1 (proj2 G2) P M1) as [G3 M3].
    destruct (h_strip (set_mgr i m1 (new_dict d w)) i m1 r) as [[w2 m2] [q|e]]; cbn [fst snd] in *; split; try exact M3; exact (good_trans _ _ _ G2 G3).
  Qed.
  Lemma good_h_delete_all : forall l w i, closed w -> pm i -> good w (fst (h_delete_all w i l)).
  Proof.
    induction l as [|n r IH]; intros w i C P; [apply good_refl, C|]. cbn [h_delete_all].
    destruct (nth_error (w_mgrs w) i) as [m|] eqn:E; [|apply good_refl, C]. pose proof (good_h_delete_cs w i m n true C P E) as G.
    destruct (h_delete_cs w i m n true) as [w1 [u|e]]; cbn [fst] in *; [|exact G]. exact (good_trans _ _ _ G (IH w1 i (proj2 G) P)).
  Qed.
  Lemma good_h_remove_subs : forall w i m, closed w -> pm i -> nth_error (w_mgrs w) i = Some m -> good w (fst (h_remove_subs w i m)).
  Proof.
    intros w i m C P E. unfold h_remove_subs. destruct (good_h_strip (infos_at w (list_at w (h_subs m))) w i m C P (cl_mgrs w C i m P E)) as [G M].
    destruct (h_strip w i m _) as [[w1 m1] [del|e]]; cbn [fst snd] in *; [|exact G].
    assert (G1 : good w1 (new_list [] w1)) by (apply good_new_list; [exact (proj2 G)|contradiction]).
    assert (G2 : good w (set_mgr i (with_subs (List.length (w_lists w1)) m1) (new_list [] w1))).
    { refine (good_trans _ _ _ G (good_trans _ _ _ G1 (good_set_mgr _ _ _ (proj2 G1) P _))). destruct M as (A & B & K).
      split; [exact A|]. split; [apply (cl_fl w1 (proj2 G)); cbn; lia|]. cbn. rewrite app_length. cbn. lia. }
    exact (good_trans _ _ _ G2 (good_h_delete_all _ _ _ (proj2 G2) P)).
  Qed.
  Lemma good_run : forall w o, closed w -> (forall i, In i (used o) -> pm i) -> good w (fst (run_wop w o)).
  Proof.
    intros w o C U. destruct o; cbn [run_wop used] in *; unfold with_mgr; try (apply good_h_new, C);
      (destruct (nth_error (w_mgrs w) i) as [m|] eqn:E; [|apply good_refl, C]);
      pose proof (U i (or_introl eq_refl)) as P.
    - apply good_h_add; assumption.
    - apply good_h_delete_cs; assumption.
    - apply (good_h_assign w i); assumption.
    - apply (good_h_delete_data w i); assumption.
    - destruct (nth_error (w_mgrs w) j) as [o|] eqn:Ej; [|apply good_refl, C]. apply (good_h_merge w i m j o); try assumption. apply U. cbn. auto.
    - unfold h_subsystems. pose proof (cl_mgrs w C i m P E) as M. apply good_h_extract_all; [exact C|exact M|].
      intros x J. apply (cl_infos_at w (h_subs m) x C (proj1 (proj2 M)) J).
    - apply good_h_remove_subs; assumption.
  Qed.
  Lemma good_run_all : forall l w, closed w -> (forall o i, In o l -> In i (used o) -> pm i) -> good w (run_wops w l).
  Proof.
    induction l as [|o r IH]; intros w C U; [apply good_refl, C|]. cbn [run_wops fold_left].
    pose proof (good_run w o C (fun i J => U o i (or_introl eq_refl) J)) as G.
    refine (good_trans _ _ _ G (IH _ (proj2 G) _)). intros o' i J. apply U. right. exact J.
  Qed.
End Region.

Section Frame.
  Context {T D : Type} {ops : LcsOps T}.
  Notation wld := (world T D).
  Notation everything := (fun _ : nat => True).
  Notation wf := (closed everything everything everything everything).

  Lemma reachable_wf : forall w : wld, reachable_w w -> wf w.
  Proof.
    intros w H. induction H as [|w o H IH].
    - constructor; try (intros; exact Logic.I); intros i x; try (intros a); intros; destruct i; discriminate.
    - apply (good_run everything everything everything everything w o IH). intros; exact Logic.I.
  Qed.

  (** cells of a manager that lie outside of a region keep what can be seen of it *)
  Lemma see_info_same : forall (w w' : wld) (L I : nat -> Prop),
    (forall l, L l -> nth_error (w_lists w') l = nth_error (w_lists w) l) ->
    (forall a, I a -> nth_error (w_infos w') a = nth_error (w_infos w) a) ->
    (forall l a, L l -> In a (list_at w l) -> I a) ->
    (forall a x, I a -> nth_error (w_infos w) a = Some x -> L (i_subs x)) ->
    forall n l, L l -> map (see_info n w') (infos_at w' (list_at w' l)) = map (see_info n w) (infos_at w (list_at w l)).
  Proof.
    intros w w' L I HL HI CL CI.
    assert (LA : forall l, L l -> list_at w' l = list_at w l) by (intros l J; apply nth_of_error, HL, J).
    assert (IA : forall l, (forall a, In a l -> I a) -> infos_at w' l = infos_at w l).
    { intros l H. unfold infos_at. induction l as [|a r IH]; [reflexivity|]. cbn. rewrite (HI a (H a (or_introl eq_refl))).
      f_equal. apply IH. intros b J. apply H. right. exact J. }
    assert (XS : forall l x, L l -> In x (infos_at w (list_at w l)) -> L (i_subs x)).
    { intros l x J X. unfold infos_at in X. apply in_flat_map in X. destruct X as (a & X & E).
      destruct (nth_error (w_infos w) a) as [y|] eqn:H; [|contradiction]. destruct E as [<-|[]]. apply (CI a y (CL l a J X) H). }
    induction n as [|n IH]; intros l J; rewrite (LA l J), IA by (intros a; apply CL; exact J); apply map_ext_in; intros x X; cbn [see_info]; f_equal.
    apply IH. apply (XS l x J X).
  Qed.
  Lemma see_same : forall (w w' : wld) i,
    (forall a, reach_dict w i a -> nth_error (w_dicts w') a = nth_error (w_dicts w) a) ->
    (forall l, reach_list w i l -> nth_error (w_lists w') l = nth_error (w_lists w) l) ->
    (forall a, reach_info w i a -> nth_error (w_infos w') a = nth_error (w_infos w) a) ->
    nth_error (w_mgrs w') i = nth_error (w_mgrs w) i ->
    forall n, seen n w' i = seen n w i.
  Proof.
    intros w w' i HD HL HI HM n. unfold seen. rewrite HM. destruct (nth_error (w_mgrs w) i) as [m|] eqn:E; [|reflexivity].
    f_equal. unfold see. f_equal.
    - apply (see_info_same w w' (reach_list w i) (reach_info w i) HL HI).
      + intros l a J X. exists l. auto.
      + intros a x (l & J & X) Y. apply (rl_nested w i l a x J X Y).
      + apply rl_own. exact E.
    - apply map_ext_in. intros [k a] J. cbn. f_equal. apply nth_of_error, HD. exists m, k. auto.
  Qed.

  (** a group of managers that is separate from [j] never changes [j] *)
  Lemma group_frame : forall (w : wld) (G : nat -> Prop) j l, wf w ->
    (j < List.length (w_mgrs w))%nat ->
    (forall i, G i -> separate w i j) ->
    (forall o i, In o l -> In i (used o) -> G i \/ (List.length (w_mgrs w) <= i)%nat) ->
    forall n, seen n (run_wops w l) j = seen n w j.
  Proof.
    intros w G j l WF LJ SEP U.
    set (pd := fun a => (exists i, G i /\ reach_dict w i a) \/ (List.length (w_dicts w) <= a)%nat).
    set (pl := fun a => (exists i, G i /\ reach_list w i a) \/ (List.length (w_lists w) <= a)%nat).
    set (pi := fun a => (exists i, G i /\ reach_info w i a) \/ (List.length (w_infos w) <= a)%nat).
    set (pm := fun i => G i \/ (List.length (w_mgrs w) <= i)%nat).
    assert (C : closed pd pi pl pm w).
    { constructor.
      - intros i m P E. destruct P as [P|P]; [|apply nth_error_None in P; congruence].
        destruct (cl_mgrs _ _ _ _ w WF i m Logic.I E) as (A & B & K). split; [|split; [|exact K]].
        + intros n a J. destruct (A n a J). split; [left; exists i; split; [exact P|exists m, n; auto]|assumption].
        + left. exists i. split; [exact P|]. apply rl_own, E.
      - intros x y a P E J. destruct P as [(i & P & R)|P]; [|apply nth_error_None in P; congruence].
        destruct (cl_lists _ _ _ _ w WF x y a Logic.I E J) as [_ B]. split; [|exact B]. left. exists i. split; [exact P|]. exists x. split; [exact R|].
        unfold list_at. rewrite (nth_error_nth _ _ _ E). exact J.
      - intros a x P E. destruct P as [(i & P & (y & R & J))|P]; [|apply nth_error_None in P; congruence].
        destruct (cl_infos _ _ _ _ w WF a x Logic.I E) as [_ B]. split; [|exact B]. left. exists i. split; [exact P|]. apply (rl_nested w i y a x R J E).
      - right. assumption.
      - right. assumption.
      - right. assumption.
      - right. assumption. }
    destruct (good_run_all pd pi pl pm l w C U) as [[HD HI HL HM] _].
    assert (NM : ~ pm j).
    { intros [P|P]; [|lia]. destruct (nth_error (w_mgrs w) j) as [m|] eqn:E; [|apply nth_error_None in E; lia].
      destruct (SEP j P) as (_ & S & _). apply (S (h_subs m)); apply rl_own, E. }
    assert (BL : forall a, reach_list w j a -> (a < List.length (w_lists w))%nat).
    { intros a R. destruct R as [m E|y a x R J E].
      - apply (cl_mgrs _ _ _ _ w WF j m Logic.I E).
      - apply (cl_infos _ _ _ _ w WF a x Logic.I E). }
    apply see_same.
    - intros a R. apply HD. intros [(i & P & Q)|P].
      + destruct (SEP i P) as (S & _). apply (S a Q R).
      + destruct R as (m & n & E & J). destruct (cl_mgrs _ _ _ _ w WF j m Logic.I E) as (A & _). destruct (A n a J). lia.
    - intros a R. apply HL. intros [(i & P & Q)|P]; [|specialize (BL a R); lia]. destruct (SEP i P) as (_ & S & _). apply (S a Q R).
    - intros a R. apply HI. intros [(i & P & Q)|P]; [destruct (SEP i P) as (_ & _ & S); apply (S a Q R)|].
      destruct R as (y & R & J). destruct (cl_list_at everything everything everything everything w y a WF Logic.I J). lia.
    - apply HM, NM.
  Qed.
End Frame.
