(** Proofs about the triangulation. *)
From Coq Require Import List Arith Bool Lia Permutation.
From Verif Require Import MeshModel MeshSpec.
Import ListNotations.

(** * Generic list lemmas *)

Lemma NoDup_app_intro {A} (l1 l2 : list A) :
  NoDup l1 -> NoDup l2 -> (forall x, In x l1 -> In x l2 -> False) -> NoDup (l1 ++ l2).
Proof.
  induction l1 as [|a l1 IH]; intros H1 H2 Hd; cbn; [assumption|].
  inversion H1 as [|? ? Hn H1']; subst. constructor.
  - rewrite in_app_iff. intros [H|H]; [contradiction|]. apply (Hd a); [left; reflexivity|assumption].
  - apply IH; auto. intros x Hx Hy. apply (Hd x); [right; assumption|assumption].
Qed.

Lemma NoDup_flat_map {A B} (f : A -> list B) (l : list A) :
  NoDup l ->
  (forall x, In x l -> NoDup (f x)) ->
  (forall x y b, In x l -> In y l -> In b (f x) -> In b (f y) -> x = y) ->
  NoDup (flat_map f l).
Proof.
  induction l as [|a l IH]; intros Hl Hf Hd; cbn; [constructor|].
  inversion Hl as [|? ? Hn Hl']; subst.
  apply NoDup_app_intro.
  - apply Hf; left; reflexivity.
  - apply IH; auto.
    + intros x Hx; apply Hf; right; assumption.
    + intros x y b Hx Hy; apply Hd; right; assumption.
  - intros b H1 H2. apply in_flat_map in H2 as [y [Hy Hb]].
    assert (a = y) by (apply (Hd a y b); [left; reflexivity|right; assumption|assumption|assumption]).
    subst; contradiction.
Qed.

Lemma NoDup_map_on {A B} (f : A -> B) (l : list A) :
  (forall x y, In x l -> In y l -> f x = f y -> x = y) -> NoDup l -> NoDup (map f l).
Proof.
  induction l as [|a l IH]; intros Hi Hn; cbn; [constructor|].
  inversion Hn; subst. constructor.
  - intros H. apply in_map_iff in H as [y [He Hy]].
    assert (y = a) by (apply Hi; [right; assumption|left; reflexivity|assumption]). subst; contradiction.
  - apply IH; auto. intros x y Hx Hy. apply Hi; right; assumption.
Qed.

Lemma flat_map_map {A B C} (f : B -> list C) (g : A -> B) l :
  flat_map f (map g l) = flat_map (fun x => f (g x)) l.
Proof. induction l; cbn; congruence. Qed.

Lemma map_flat_map {A B C} (f : B -> C) (g : A -> list B) l :
  map f (flat_map g l) = flat_map (fun x => map f (g x)) l.
Proof. induction l; cbn; [reflexivity|]. rewrite map_app. congruence. Qed.

Lemma flat_map_flat_map {A B C} (f : B -> list C) (g : A -> list B) l :
  flat_map f (flat_map g l) = flat_map (fun x => flat_map f (g x)) l.
Proof. induction l; cbn; [reflexivity|]. rewrite flat_map_app. congruence. Qed.

(** * Reversing the orientation *)

Definition swap (e : nat * nat) : nat * nat := (snd e, fst e).
Definition rev_tri (t : tri) : tri := match t with (a, b, c) => (a, c, b) end.

Lemma edges_app a b : edges (a ++ b) = edges a ++ edges b.
Proof. apply flat_map_app. Qed.

Lemma edges_rev ts : Permutation (edges (map rev_tri ts)) (map swap (edges ts)).
Proof.
  induction ts as [|[[a b] c] ts IH]; cbn; [constructor|].
  eapply perm_trans; [|apply perm_swap].
  eapply perm_trans; [apply perm_swap|].
  apply perm_skip.
  eapply perm_trans; [|apply perm_swap].
  apply perm_skip. apply perm_skip. exact IH.
Qed.

Lemma In_map_swap u v l : In (u, v) (map swap l) <-> In (v, u) l.
Proof.
  rewrite in_map_iff. split.
  - intros [[x y] [He Hi]]. cbv [swap fst snd] in He. inversion He; subst. exact Hi.
  - intros H. exists (v, u). split; [reflexivity|exact H].
Qed.

Lemma watertight_rev ts : watertight ts -> watertight (map rev_tri ts).
Proof.
  intros [Hn Hc]. split.
  - eapply Permutation_NoDup; [apply Permutation_sym, edges_rev|].
    apply NoDup_map_on; [|assumption].
    intros [a b] [c d] _ _ H. cbv [swap fst snd] in H. congruence.
  - intros u v H.
    apply (Permutation_in _ (edges_rev ts)) in H.
    apply (Permutation_in _ (Permutation_sym (edges_rev ts))).
    rewrite In_map_swap in *. apply Hc, H.
Qed.

Lemma watertight_perm ts ts' : Permutation (edges ts) (edges ts') -> watertight ts -> watertight ts'.
Proof.
  intros Hp [Hn Hc]. split.
  - eapply Permutation_NoDup; eassumption.
  - intros u v H. apply (Permutation_in _ Hp), Hc, (Permutation_in _ (Permutation_sym Hp)), H.
Qed.

(** * Cyclic successor *)

Lemma cyc_succ_mod n i : i < n -> (i + 1) mod n = cyc_succ n i.
Proof.
  intros H. unfold cyc_succ. destruct (Nat.eqb_spec (i + 1) n) as [E|E].
  - rewrite E. apply Nat.mod_same. lia.
  - apply Nat.mod_small. lia.
Qed.

Lemma cyc_succ_lt n i : i < n -> cyc_succ n i < n.
Proof. intros. unfold cyc_succ. destruct (Nat.eqb_spec (i + 1) n); lia. Qed.

Ltac cyc :=
  unfold cyc_succ in *;
  repeat match goal with
  | |- context [?a =? ?b] => destruct (Nat.eqb_spec a b)
  | H : context [?a =? ?b] |- _ => destruct (Nat.eqb_spec a b)
  end.

(** * Coordinates of vertices: (profile, point) *)

Definition vidx (n off : nat) (p : nat * nat) : nat := fst p * n + snd p + off.
Definition eidx (n off : nat) (e : (nat * nat) * (nat * nat)) : nat * nat :=
  (vidx n off (fst e), vidx n off (snd e)).

Lemma vidx_inj n off p q :
  snd p < n -> snd q < n -> vidx n off p = vidx n off q -> p = q.
Proof.
  destruct p as [k i], q as [k' i']. unfold vidx; cbn [fst snd]. intros H1 H2 H.
  assert (k = k') by nia. subst. f_equal. lia.
Qed.

(** The six directed edges of the two triangles of a quad (clockwise case). *)
Definition quad_edges (n k i : nat) : list ((nat * nat) * (nat * nat)) :=
  let i' := cyc_succ n i in
  [((k, i), (S k, i)); ((S k, i), (k, i')); ((k, i'), (k, i));
   ((k, i'), (S k, i)); ((S k, i), (S k, i')); ((S k, i'), (k, i'))].

Definition prof_edges (np n : nat) : list ((nat * nat) * (nat * nat)) :=
  flat_map (fun k => flat_map (quad_edges n k) (seq 0 n)) (seq 0 (np - 1)).

Lemma profile_base_eq n :
  profile_tri_base n true
  = flat_map (fun i => [(i, i + n, cyc_succ n i); (cyc_succ n i, i + n, cyc_succ n i + n)]) (seq 0 n).
Proof.
  unfold profile_tri_base. rewrite !flat_map_concat_map. f_equal.
  apply map_ext_in. intros i Hi. apply in_seq in Hi. rewrite cyc_succ_mod by lia. reflexivity.
Qed.

Lemma profile_edges_eq np n off :
  edges (shape_profile_triangles np n off true) = map (eidx n off) (prof_edges np n).
Proof.
  unfold edges, shape_profile_triangles, prof_edges.
  rewrite flat_map_flat_map, map_flat_map, !flat_map_concat_map. f_equal.
  apply map_ext_in. intros k _.
  rewrite flat_map_map, profile_base_eq, flat_map_flat_map, map_flat_map, !flat_map_concat_map.
  f_equal. apply map_ext_in. intros i Hi.
  cbn [flat_map shift_tri tri_edges app quad_edges map].
  unfold eidx, vidx; cbn [fst snd].
  repeat match goal with
  | |- _ :: _ = _ :: _ => f_equal
  | |- (_, _) = (_, _) => f_equal
  | |- _ => lia
  end.
Qed.

Lemma quad_edges_nodup n k i : 3 <= n -> i < n -> NoDup (quad_edges n k i).
Proof.
  intros Hn Hi. unfold quad_edges.
  assert (Hne : cyc_succ n i <> i) by (cyc; lia).
  repeat constructor; cbn [In];
    intros H; repeat match goal with H : _ \/ _ |- _ => destruct H end; try contradiction;
    try (injection H; clear H; intros; lia).
Qed.

Lemma cyc_succ_inj n i j : i < n -> j < n -> cyc_succ n i = cyc_succ n j -> i = j.
Proof. intros. cyc; lia. Qed.

Lemma quad_edges_disj n k i k' i' e :
  3 <= n -> i < n -> i' < n ->
  In e (quad_edges n k i) -> In e (quad_edges n k' i') -> k = k' /\ i = i'.
Proof.
  intros Hn Hi Hi' H1 H2. unfold quad_edges in *. cbn [In] in *.
  assert (N1 : cyc_succ n i <> i) by (cyc; lia).
  assert (N2 : cyc_succ n i' <> i') by (cyc; lia).
  assert (N3 : cyc_succ n (cyc_succ n i) <> i) by (cyc; lia).
  assert (N4 : cyc_succ n (cyc_succ n i') <> i') by (cyc; lia).
  assert (I1 := cyc_succ_inj n i i' Hi Hi').
  repeat match goal with H : _ \/ _ |- _ => destruct H end; try contradiction; subst e;
    match goal with H : _ = _ |- _ => injection H; clear H; intros end;
    subst; try (split; [lia | auto; lia]); try lia; try (exfalso; congruence).
Qed.

Lemma prof_edges_nodup np n : 3 <= n -> NoDup (prof_edges np n).
Proof.
  intros Hn. unfold prof_edges. apply NoDup_flat_map.
  - apply seq_NoDup.
  - intros k _. apply NoDup_flat_map.
    + apply seq_NoDup.
    + intros i Hi. apply in_seq in Hi. apply quad_edges_nodup; lia.
    + intros i j e Hi Hj H1 H2. apply in_seq in Hi, Hj.
      apply (quad_edges_disj n k i k j e) in H1; try lia; auto.
  - intros k k' e _ _ H1 H2.
    apply in_flat_map in H1 as [i [Hi H1]]. apply in_flat_map in H2 as [j [Hj H2]].
    apply in_seq in Hi, Hj.
    apply (quad_edges_disj n k i k' j e) in H1; try lia; auto.
Qed.

Lemma in_prof_edges np n e :
  In e (prof_edges np n) <-> exists k i, k < np - 1 /\ i < n /\ In e (quad_edges n k i).
Proof.
  unfold prof_edges. rewrite in_flat_map. split.
  - intros [k [Hk H]]. apply in_flat_map in H as [i [Hi H]]. apply in_seq in Hk, Hi.
    exists k, i. repeat split; auto; lia.
  - intros [k [i [Hk [Hi H]]]]. exists k. split; [apply in_seq; lia|].
    apply in_flat_map. exists i. split; [apply in_seq; lia|assumption].
Qed.

Definition fwd_edge (n k i : nat) : (nat * nat) * (nat * nat) := ((k, i), (k, cyc_succ n i)).
Definition bwd_edge (n k i : nat) : (nat * nat) * (nat * nat) := ((k, cyc_succ n i), (k, i)).

Lemma cyc_pred_ex n i : i < n -> exists j, j < n /\ cyc_succ n j = i.
Proof.
  intros H. destruct i as [|i].
  - exists (n - 1). split; [lia|]. cyc; lia.
  - exists i. split; [lia|]. cyc; lia.
Qed.

(** The reverse of every edge of the mantle is present, except for the outlines
    of the first and the last profile. *)
Lemma prof_edges_rev np n p q :
  1 <= n ->
  In (p, q) (prof_edges np n) ->
  In (q, p) (prof_edges np n)
  \/ (exists i, i < n /\ (p, q) = bwd_edge n 0 i)
  \/ (exists i, i < n /\ (p, q) = fwd_edge n (np - 1) i).
Proof.
  intros Hn H. apply in_prof_edges in H as [k [i [Hk [Hi H]]]].
  unfold quad_edges in H. cbn [In] in H.
  pose proof (cyc_succ_lt n i Hi) as Hs.
  destruct H as [H|[H|[H|[H|[H|[H|[]]]]]]]; injection H; clear H; intros; subst p q.
  - left. apply in_prof_edges. destruct (cyc_pred_ex n i Hi) as [j [Hj Ej]].
    exists k, j. repeat split; auto. unfold quad_edges. rewrite Ej. cbn [In]. tauto.
  - left. apply in_prof_edges. exists k, i. repeat split; auto. unfold quad_edges. cbn [In]. tauto.
  - destruct k as [|k].
    + right; left. exists i. split; [assumption|reflexivity].
    + left. apply in_prof_edges. exists k, i. repeat split; auto; [lia|].
      unfold quad_edges. cbn [In]. tauto.
  - left. apply in_prof_edges. exists k, i. repeat split; auto. unfold quad_edges. cbn [In]. tauto.
  - destruct (Nat.eq_dec (S k) (np - 1)) as [E|E].
    + right; right. exists i. split; [assumption|]. rewrite <- E. reflexivity.
    + left. apply in_prof_edges. exists (S k), i. repeat split; auto; [lia|].
      unfold quad_edges. cbn [In]. tauto.
  - left. apply in_prof_edges. exists k, (cyc_succ n i). repeat split; auto.
    unfold quad_edges. cbn [In]. tauto.
Qed.

Lemma prof_edges_front np n i : 2 <= np -> i < n -> In (bwd_edge n 0 i) (prof_edges np n).
Proof.
  intros. apply in_prof_edges. exists 0, i. repeat split; auto; [lia|].
  unfold quad_edges, bwd_edge. cbn [In]. tauto.
Qed.

Lemma prof_edges_back np n i : 2 <= np -> i < n -> In (fwd_edge n (np - 1) i) (prof_edges np n).
Proof.
  intros. apply in_prof_edges. exists (np - 2), i. repeat split; auto; [lia|].
  unfold quad_edges, fwd_edge. replace (S (np - 2)) with (np - 1) by lia. cbn [In]. tauto.
Qed.

Lemma prof_edges_layer np n k a b :
  3 <= n -> In ((k, a), (k, b)) (prof_edges np n) ->
  (a = cyc_succ n b /\ b < n /\ k < np - 1) \/ (b = cyc_succ n a /\ a < n /\ 0 < k).
Proof.
  intros Hn H. apply in_prof_edges in H as [k' [i [Hk [Hi H]]]].
  unfold quad_edges in H. cbn [In] in H.
  destruct H as [H|[H|[H|[H|[H|[H|[]]]]]]]; injection H; clear H; intros; subst; try lia; auto.
Qed.

Lemma prof_edges_bound np n p q :
  In (p, q) (prof_edges np n) -> fst p < np /\ snd p < n /\ fst q < np /\ snd q < n.
Proof.
  intros H. apply in_prof_edges in H as [k [i [Hk [Hi H]]]].
  pose proof (cyc_succ_lt n i Hi) as Hs.
  unfold quad_edges in H. cbn [In] in H.
  destruct H as [H|[H|[H|[H|[H|[H|[]]]]]]]; injection H; clear H; intros; subst; cbn [fst snd]; lia.
Qed.

(** * Front and back faces *)

(** the loop does not depend on the offset, and both lists are mirrored *)
Lemma loop_spec fuel n i0 i1 :
  i0 + i1 + 2 <= n -> n <= i0 + i1 + 2 + fuel ->
  exists cw,
    (forall off, front_back_loop fuel n off i0 i1
                 = Some (map (shift_tri off) cw, map (shift_tri off) (map rev_tri cw)))
    /\ length cw = n - 2 - (i0 + i1)
    /\ Forall (verts_in i0 (n - i1)) cw
    /\ Forall proper_tri cw
    /\ NoDup (edges cw)
    /\ ~ In (i0, n - 1 - i1) (edges cw)
    /\ (forall u v, In (u, v) (edges cw) ->
          v = u + 1 \/ (u, v) = (n - 1 - i1, i0) \/
          (In (v, u) (edges cw) /\ (u + 2 <= v \/ v + 2 <= u) /\ ~ (u = n - 1 - i1 /\ v = i0)))
    /\ (i0 + i1 + 2 < n -> In (n - 1 - i1, i0) (edges cw)
          /\ forall i, i0 <= i < n - 1 - i1 -> In (i, i + 1) (edges cw)).
Proof.
  revert i0 i1. induction fuel as [|fuel IH]; intros i0 i1 Hle Hfuel.
  - exists []. cbn [front_back_loop].
    destruct (Nat.ltb_spec (i0 + i1) (n - 2)); [lia|].
    split; [reflexivity|]. split; [cbn; lia|].
    split; [constructor|]; split; [constructor|]; split; [constructor|]; split; [cbn; tauto|]; split; [cbn; tauto|]; intros; lia.
  - cbn [front_back_loop].
    destruct (Nat.ltb_spec (i0 + i1) (n - 2)) as [Hlt|Hge].
    2:{ exists []. split; [reflexivity|]. split; [cbn; lia|].
        split; [constructor|]; split; [constructor|]; split; [constructor|]; split; [cbn; tauto|]; split; [cbn; tauto|]; intros; lia. }
    destruct (Nat.eqb_spec i1 i0) as [E|E].
    + destruct (IH (i0 + 1) i1) as (cw & Hl & Hlen & Hv & Hp & Hn & Hnc & Hcl & Hin); [lia|lia|].
      exists ((i0, i0 + 1, n - 1 - i1) :: cw).
      assert (Hrange : forall u v, In (u, v) (edges cw) ->
                 i0 + 1 <= u < n - i1 /\ i0 + 1 <= v < n - i1).
      { intros u v H. unfold edges in H. apply in_flat_map in H as [[[x y] z] [Ht H]].
        rewrite Forall_forall in Hv. specialize (Hv _ Ht). unfold verts_in, tri_has in Hv.
        pose proof (Hv x). pose proof (Hv y). pose proof (Hv z).
        cbn [tri_edges In] in H. repeat destruct H as [H|H]; try contradiction;
          injection H; intros; subst; split; auto. }
      split; [|split; [|split; [|split; [|split; [|split; [|split]]]]]].
      * intros off. rewrite (Hl off). cbn [map shift_tri rev_tri].
        replace (i0 + off + 1) with (i0 + 1 + off) by lia.
        replace (n + off - i1 - 1) with (n - 1 - i1 + off) by lia. reflexivity.
      * cbn [length]. rewrite Hlen. lia.
      * constructor.
        -- unfold verts_in, tri_has. intros v Hv'. lia.
        -- eapply Forall_impl; [|exact Hv]. intros t Ht v Hh. specialize (Ht v Hh). lia.
      * constructor; [cbn; lia|assumption].
      * cbn [edges flat_map tri_edges app]. constructor; [|constructor; [|constructor; [|assumption]]].
        -- cbn [In]. intros [H|[H|H]]; [injection H; lia|injection H; lia|].
           apply Hrange in H. lia.
        -- cbn [In]. intros [H|H]; [injection H; lia|]. contradiction.
        -- intros H. apply Hrange in H. lia.
      * cbn [edges flat_map tri_edges app In].
        intros [H|[H|[H|H]]]; try (injection H; lia). apply Hrange in H. lia.
      * intros u v. cbn [edges flat_map tri_edges app In].
        intros [H|[H|[H|H]]].
        -- injection H; intros; subst. left. lia.
        -- injection H; intros; subst u v.
           destruct (Nat.eq_dec (i0 + 1 + i1 + 2) n) as [E2|E2].
           ++ left. lia.
           ++ right; right. split; [|split; [lia|lia]].
              right; right; right. apply Hin. lia.
        -- injection H; intros; subst. right; left. reflexivity.
        -- destruct (Hcl u v H) as [H1|[H1|[H1 H2]]].
           ++ left; assumption.
           ++ right; right. injection H1; intros; subst u v.
              assert (i0 + 1 + i1 + 2 < n).
              { destruct (Nat.eq_dec (i0 + 1 + i1 + 2) n); [|lia].
                exfalso. destruct cw as [|t cw]; [destruct H|]. cbn [length] in Hlen. lia. }
              split; [right; left; reflexivity|]. lia.
           ++ right; right. split; [right; right; right; assumption|]. split; [lia|].
              apply Hrange in H. lia.
      * intros _. cbn [edges flat_map tri_edges app In]. split; [tauto|].
        intros i Hi. destruct (Nat.eq_dec i i0) as [->|Ei]; [left; reflexivity|].
        destruct (Nat.eq_dec (i0 + 1 + i1 + 2) n) as [E2|E2].
        -- right; left. f_equal; lia.
        -- right; right; right. apply Hin; lia.
    + destruct (IH i0 (i1 + 1)) as (cw & Hl & Hlen & Hv & Hp & Hn & Hnc & Hcl & Hin); [lia|lia|].
      exists ((i0, n - 2 - i1, n - 1 - i1) :: cw).
      replace (n - 1 - (i1 + 1)) with (n - 2 - i1) in * by lia.
      assert (Hrange : forall u v, In (u, v) (edges cw) ->
                 i0 <= u < n - 1 - i1 /\ i0 <= v < n - 1 - i1).
      { intros u v H. unfold edges in H. apply in_flat_map in H as [[[x y] z] [Ht H]].
        rewrite Forall_forall in Hv. specialize (Hv _ Ht). unfold verts_in, tri_has in Hv.
        pose proof (Hv x). pose proof (Hv y). pose proof (Hv z).
        cbn [tri_edges In] in H. repeat destruct H as [H|H]; try contradiction;
          injection H; intros; subst; lia. }
      split; [|split; [|split; [|split; [|split; [|split; [|split]]]]]].
      * intros off. rewrite (Hl off). cbn [map shift_tri rev_tri].
        replace (n + off - i1 - 2) with (n - 2 - i1 + off) by lia.
        replace (n - 2 - i1 + off + 1) with (n - 1 - i1 + off) by lia. reflexivity.
      * cbn [length]. rewrite Hlen. lia.
      * constructor.
        -- unfold verts_in, tri_has. intros v Hv'. lia.
        -- eapply Forall_impl; [|exact Hv]. intros t Ht v Hh. specialize (Ht v Hh). lia.
      * constructor; [cbn; lia|assumption].
      * cbn [edges flat_map tri_edges app]. constructor; [|constructor; [|constructor; [|assumption]]].
        -- cbn [In]. intros [H|[H|H]]; [injection H; lia|injection H; lia|]. contradiction.
        -- cbn [In]. intros [H|H]; [injection H; lia|]. apply Hrange in H. lia.
        -- intros H. apply Hrange in H. lia.
      * cbn [edges flat_map tri_edges app In].
        intros [H|[H|[H|H]]]; try (injection H; lia). apply Hrange in H. lia.
      * intros u v. cbn [edges flat_map tri_edges app In].
        intros [H|[H|[H|H]]].
        -- injection H; intros; subst u v.
           destruct (Nat.eq_dec (i0 + (i1 + 1) + 2) n) as [E2|E2].
           ++ left. lia.
           ++ right; right. split; [|split; [lia|lia]].
              right; right; right. apply Hin. lia.
        -- injection H; intros; subst. left. lia.
        -- injection H; intros; subst. right; left. reflexivity.
        -- destruct (Hcl u v H) as [H1|[H1|[H1 H2]]].
           ++ left; assumption.
           ++ right; right. injection H1; intros; subst u v.
              assert (i0 + (i1 + 1) + 2 < n).
              { destruct (Nat.eq_dec (i0 + (i1 + 1) + 2) n); [|lia].
                exfalso. destruct cw as [|t cw]; [destruct H|]. cbn [length] in Hlen. lia. }
              split; [left; reflexivity|]. lia.
           ++ right; right. split; [right; right; right; assumption|]. split; [lia|].
              apply Hrange in H. lia.
      * intros _. cbn [edges flat_map tri_edges app In]. split; [tauto|].
        intros i Hi. destruct (Nat.eq_dec i (n - 2 - i1)) as [->|Ei].
        -- right; left. f_equal; lia.
        -- destruct (Nat.eq_dec (i0 + (i1 + 1) + 2) n) as [E2|E2].
           ++ left. f_equal; lia.
           ++ right; right; right. apply Hin; lia.
Qed.

(** * The complete mesh of one block, clockwise case *)

Definition lift (k : nat) (e : nat * nat) : (nat * nat) * (nat * nat) := ((k, fst e), (k, snd e)).

Definition sh (d : nat) (e : nat * nat) : nat * nat := (fst e + d, snd e + d).

Lemma edges_shift d ts : edges (map (shift_tri d) ts) = map (sh d) (edges ts).
Proof.
  induction ts as [|[[a b] c] ts IH]; [reflexivity|].
  change (tri_edges (shift_tri d (a, b, c)) ++ edges (map (shift_tri d) ts)
          = map (sh d) (tri_edges (a, b, c) ++ edges ts)).
  rewrite map_app, IH. reflexivity.
Qed.

Lemma shift_shift a b ts : map (shift_tri a) (map (shift_tri b) ts) = map (shift_tri (b + a)) ts.
Proof.
  rewrite map_map. apply map_ext. intros [[x y] z]. cbn. f_equal; [f_equal|]; lia.
Qed.

Lemma shift_rev d ts : map (shift_tri d) (map rev_tri ts) = map rev_tri (map (shift_tri d) ts).
Proof. rewrite !map_map. apply map_ext. intros [[x y] z]. reflexivity. Qed.

Lemma rev_rev ts : map rev_tri (map rev_tri ts) = ts.
Proof.
  rewrite map_map. rewrite <- (map_id ts) at 2. apply map_ext. intros [[x y] z]. reflexivity.
Qed.

Definition closed_edges (np n : nat) (cw : list tri) : list ((nat * nat) * (nat * nat)) :=
  prof_edges np n ++ map (lift 0) (edges cw) ++ map (lift (np - 1)) (map swap (edges cw)).

Lemma range_edges lo hi cw :
  Forall (verts_in lo hi) cw ->
  forall u v, In (u, v) (edges cw) -> lo <= u < hi /\ lo <= v < hi.
Proof.
  intros Hv u v H. unfold edges in H. apply in_flat_map in H as [[[x y] z] [Ht H]].
  rewrite Forall_forall in Hv. specialize (Hv _ Ht). unfold verts_in, tri_has in Hv.
  pose proof (Hv x). pose proof (Hv y). pose proof (Hv z).
  cbn [tri_edges In] in H. repeat destruct H as [H|H]; try contradiction;
    injection H; intros; subst; auto.
Qed.

(** what [loop_spec] says about the face triangulation of a polygon with n points *)
Definition face_ok (n : nat) (cw : list tri) : Prop :=
  length cw = n - 2
  /\ Forall (verts_in 0 n) cw
  /\ Forall proper_tri cw
  /\ NoDup (edges cw)
  /\ (forall u v, In (u, v) (edges cw) -> v = cyc_succ n u \/ (In (v, u) (edges cw) /\ u <> cyc_succ n v))
  /\ (forall u v, In (u, v) (edges cw) -> u <> cyc_succ n v)
  /\ (forall i, i < n -> In (i, cyc_succ n i) (edges cw)).

Lemma loop_face n : 3 <= n ->
  exists cw,
    (forall off, front_back_loop n n off 0 0
                 = Some (map (shift_tri off) cw, map (shift_tri off) (map rev_tri cw)))
    /\ face_ok n cw.
Proof.
  intros Hn. destruct (loop_spec n n 0 0) as (cw & Hl & Hlen & Hv & Hp & Hnd & Hnc & Hcl & Hin); [lia|lia|].
  rewrite ?Nat.sub_0_r in *.
  exists cw. split; [exact Hl|].
  assert (Hr := range_edges _ _ _ Hv).
  assert (Hnf : forall u v, In (u, v) (edges cw) -> u <> cyc_succ n v).
  { intros u v H E. destruct (Hr u v H) as [Hu Hv'].
    destruct (Hcl u v H) as [H1|[H1|[H1 [H2 H3]]]].
    - subst v. cyc; lia.
    - injection H1; intros; subst. cyc; lia.
    - unfold cyc_succ in E. destruct (Nat.eqb_spec (v + 1) n).
      + subst u. assert (v = n - 1) by lia. subst v. contradiction.
      + lia. }
  split; [lia|]. split; [assumption|]. split; [assumption|]. split; [assumption|].
  split; [|split; [exact Hnf|]].
  - intros u v H. destruct (Hr u v H) as [Hu Hv'].
    destruct (Hcl u v H) as [H1|[H1|[H1 [H2 H3]]]].
    + left. subst v. cyc; lia.
    + left. injection H1; intros; subst. cyc; lia.
    + right. split; [assumption|]. apply Hnf; assumption.
  - intros i Hi. destruct Hin as [H1 H2]; [lia|].
    unfold cyc_succ. destruct (Nat.eqb_spec (i + 1) n) as [E|E].
    + replace i with (n - 1) by lia. exact H1.
    + apply H2. lia.
Qed.

Lemma closed_edges_spec np n cw :
  2 <= np -> 3 <= n -> face_ok n cw ->
  NoDup (closed_edges np n cw)
  /\ (forall p q, In (p, q) (closed_edges np n cw) -> In (q, p) (closed_edges np n cw))
  /\ (forall p q, In (p, q) (closed_edges np n cw) -> fst p < np /\ snd p < n /\ fst q < np /\ snd q < n).
Proof.
  intros Hnp Hn (Hlen & Hv & Hp & Hnd & Hcl & Hnf & Hin).
  assert (Hr := range_edges _ _ _ Hv).
  assert (Lin : forall k a b, In ((k, a), (k, b)) (map (lift k) (edges cw)) <-> In (a, b) (edges cw)).
  { intros k a b. rewrite in_map_iff. split.
    - intros [[x y] [He H]]. unfold lift in He; cbn [fst snd] in He. injection He; intros; subst; assumption.
    - intros H. exists (a, b). split; [reflexivity|assumption]. }
  assert (Lin2 : forall k a b, In ((k, a), (k, b)) (map (lift k) (map swap (edges cw))) <-> In (b, a) (edges cw)).
  { intros k a b. rewrite in_map_iff. split.
    - intros [[x y] [He H]]. unfold lift in He; cbn [fst snd] in He. injection He; intros; subst.
      rewrite In_map_swap in H. assumption.
    - intros H. exists (a, b). split; [reflexivity|]. rewrite In_map_swap; assumption. }
  assert (Llay : forall k l p q, In (p, q) (map (lift k) l) -> fst p = k /\ fst q = k).
  { intros k l p q H. apply in_map_iff in H as [[x y] [He H]]. unfold lift in He.
    injection He; intros; subst. cbn. auto. }
  split; [|split].
  - unfold closed_edges. apply NoDup_app_intro; [apply prof_edges_nodup; lia| |].
    + apply NoDup_app_intro.
      * apply NoDup_map_on; [|assumption]. intros [a b] [c d] _ _ H. unfold lift in H; cbn in H. congruence.
      * apply NoDup_map_on.
        -- intros [a b] [c d] _ _ H. unfold lift in H; cbn in H. congruence.
        -- apply NoDup_map_on; [|assumption]. intros [a b] [c d] _ _ H. unfold swap in H; cbn in H. congruence.
      * intros [p q] H1 H2. apply Llay in H1 as [H1 _]. apply Llay in H2 as [H2 _]. lia.
    + intros [[k a] [k' b]] H1 H2. apply in_app_iff in H2 as [H2|H2].
      * pose proof (Llay _ _ _ _ H2) as [E1 E2]. cbn [fst] in E1, E2. subst k k'.
        apply Lin in H2. apply prof_edges_layer in H1; [|assumption].
        destruct H1 as [(E & _ & _)|(_ & _ & E)]; [|lia].
        apply (Hnf _ _ H2 E).
      * pose proof (Llay _ _ _ _ H2) as [E1 E2]. cbn [fst] in E1, E2. subst k k'.
        apply Lin2 in H2. apply prof_edges_layer in H1; [|assumption].
        destruct H1 as [(_ & _ & E)|(E & _ & _)]; [lia|].
        apply (Hnf _ _ H2 E).
  - intros p q H. unfold closed_edges in *. rewrite !in_app_iff in *.
    destruct H as [H|[H|H]].
    + apply prof_edges_rev in H; [|lia].
      destruct H as [H|[[i [Hi H]]|[i [Hi H]]]].
      * left; assumption.
      * right; left. injection H; intros; subst. apply Lin. apply Hin; assumption.
      * right; right. injection H; intros; subst. apply Lin2. apply Hin; assumption.
    + destruct p as [k a], q as [k' b]. pose proof (Llay _ _ _ _ H) as [E1 E2]. cbn [fst] in E1, E2. subst k k'.
      apply Lin in H. destruct (Hr _ _ H) as [Hu Hb].
      destruct (Hcl _ _ H) as [E|[E _]].
      * left. subst b. apply (prof_edges_front np n a); lia.
      * right; left. apply Lin. assumption.
    + destruct p as [k a], q as [k' b]. pose proof (Llay _ _ _ _ H) as [E1 E2]. cbn [fst] in E1, E2. subst k k'.
      apply Lin2 in H. destruct (Hr _ _ H) as [Hu Hb].
      destruct (Hcl _ _ H) as [E|[E _]].
      * left. subst a. apply (prof_edges_back np n b); lia.
      * right; right. apply Lin2. assumption.
  - intros p q H. unfold closed_edges in H. rewrite !in_app_iff in H.
    destruct H as [H|[H|H]].
    + apply prof_edges_bound in H. assumption.
    + destruct p as [k a], q as [k' b]. pose proof (Llay _ _ _ _ H) as [E1 E2]. cbn [fst] in E1, E2. subst k k'.
      apply Lin in H. apply Hr in H. cbn. lia.
    + destruct p as [k a], q as [k' b]. pose proof (Llay _ _ _ _ H) as [E1 E2]. cbn [fst] in E1, E2. subst k k'.
      apply Lin2 in H. apply Hr in H. cbn. lia.
Qed.

Lemma shape_triangles_cw np n off : 3 <= n ->
  exists cw ts,
    face_ok n cw
    /\ ts = shape_profile_triangles np n off true
            ++ map (shift_tri off) cw
            ++ map (shift_tri ((np - 1) * n)) (map (shift_tri off) (map rev_tri cw))
    /\ shape_triangles np n off true true = Some ts
    /\ Permutation (edges ts) (map (eidx n off) (closed_edges np n cw)).
Proof.
  intros Hn. destruct (loop_face n Hn) as (cw & Hl & Hf).
  exists cw. eexists. split; [exact Hf|]. split; [reflexivity|]. split.
  - unfold shape_triangles, shape_front_back_triangles. rewrite Hl. reflexivity.
  - rewrite !edges_app. unfold closed_edges. rewrite !map_app.
    apply Permutation_app; [rewrite profile_edges_eq; apply Permutation_refl|].
    apply Permutation_app.
    + rewrite edges_shift, map_map.
      assert (E : map (sh off) (edges cw) = map (fun x => eidx n off (lift 0 x)) (edges cw)).
      { apply map_ext. intros [a b]. unfold eidx, vidx, lift, sh; cbn. f_equal; lia. }
      rewrite E. apply Permutation_refl.
    + rewrite shift_shift, edges_shift.
      eapply perm_trans; [apply Permutation_map, edges_rev|].
      rewrite !map_map.
      match goal with |- Permutation ?a ?b => assert (E : a = b) end.
      { apply map_ext. intros [a b]. unfold eidx, vidx, lift, sh, swap; cbn. f_equal; lia. }
      rewrite E. apply Permutation_refl.
Qed.

Lemma profile_base_false n : profile_tri_base n false = map rev_tri (profile_tri_base n true).
Proof. unfold profile_tri_base. rewrite map_flat_map. reflexivity. Qed.

Lemma profile_triangles_false np n off :
  shape_profile_triangles np n off false = map rev_tri (shape_profile_triangles np n off true).
Proof.
  unfold shape_profile_triangles. rewrite map_flat_map, profile_base_false.
  rewrite !flat_map_concat_map. f_equal. apply map_ext. intros k. apply shift_rev.
Qed.

Lemma shape_triangles_false np n off closed : 3 <= n ->
  shape_triangles np n off false closed
  = option_map (map rev_tri) (shape_triangles np n off true closed).
Proof.
  intros Hn. unfold shape_triangles. destruct closed.
  - unfold shape_front_back_triangles. destruct (loop_face n Hn) as (cw & Hl & _). rewrite Hl.
    cbn [option_map]. rewrite !map_app, profile_triangles_false.
    rewrite <- !shift_rev, rev_rev. reflexivity.
  - cbn [option_map]. rewrite profile_triangles_false. reflexivity.
Qed.

Lemma verts_in_rev lo hi t : verts_in lo hi t -> verts_in lo hi (rev_tri t).
Proof. destruct t as [[a b] c]. unfold verts_in, tri_has; cbn. intros H v Hv. apply H. tauto. Qed.
Lemma proper_rev t : proper_tri t -> proper_tri (rev_tri t).
Proof. destruct t as [[a b] c]. cbn. intuition congruence. Qed.
Lemma has_rev v t : tri_has v t -> tri_has v (rev_tri t).
Proof. destruct t as [[a b] c]. cbn. tauto. Qed.

(** edge level statement of vertex ranges *)
Lemma verts_in_of_edges lo hi ts :
  (forall u v, In (u, v) (edges ts) -> lo <= u < hi /\ lo <= v < hi) -> Forall (verts_in lo hi) ts.
Proof.
  intros H. apply Forall_forall. intros [[a b] c] Ht v Hv.
  assert (H1 : In (a, b) (edges ts)) by (apply in_flat_map; eexists; split; [exact Ht|cbn; tauto]).
  assert (H2 : In (b, c) (edges ts)) by (apply in_flat_map; eexists; split; [exact Ht|cbn; tauto]).
  apply H in H1. apply H in H2. cbn in Hv. lia.
Qed.

Lemma has_of_edge u v ts : In (u, v) (edges ts) -> exists t, In t ts /\ tri_has u t.
Proof.
  intros H. apply in_flat_map in H as [[[a b] c] [Ht H]]. exists (a, b, c). split; [assumption|].
  cbn in *. repeat destruct H as [H|H]; try contradiction; injection H; intros; subst; auto.
Qed.

(** no self loops + no duplicates give proper triangles *)
Lemma proper_of_edges ts : (forall u v, In (u, v) (edges ts) -> u <> v) -> Forall proper_tri ts.
Proof.
  intros H. apply Forall_forall. intros [[a b] c] Ht. cbn.
  repeat split; apply H; apply in_flat_map; eexists; (split; [exact Ht|cbn; tauto]).
Qed.

Lemma closed_edges_irrefl np n cw p q :
  3 <= n -> face_ok n cw -> In (p, q) (closed_edges np n cw) -> p <> q.
Proof.
  intros Hn (Hlen & Hv & Hp & Hnd & Hcl & Hnf & Hin) H E. subst q.
  unfold closed_edges in H. rewrite !in_app_iff in H. destruct H as [H|[H|H]].
  - destruct p as [k a]. apply prof_edges_layer in H; [|assumption].
    destruct H as [(E & _ & _)|(E & _ & _)]; cyc; lia.
  - apply in_map_iff in H as [[a b] [He H]]. unfold lift in He; cbn in He.
    injection He; intros; subst. assert (a = b) by congruence. subst.
    apply in_flat_map in H as [[[x y] z] [Ht H]]. rewrite Forall_forall in Hp. specialize (Hp _ Ht).
    cbn in *. repeat destruct H as [H|H]; try contradiction; injection H; intros; subst; intuition congruence.
  - apply in_map_iff in H as [[a b] [He H]]. unfold lift in He; cbn in He.
    rewrite In_map_swap in H.
    injection He; intros; subst. assert (a = b) by congruence. subst.
    apply in_flat_map in H as [[[x y] z] [Ht H]]. rewrite Forall_forall in Hp. specialize (Hp _ Ht).
    cbn in *. repeat destruct H as [H|H]; try contradiction; injection H; intros; subst; intuition congruence.
Qed.

Lemma eidx_inj n off (l : list ((nat * nat) * (nat * nat))) :
  (forall p q, In (p, q) l -> snd p < n /\ snd q < n) ->
  forall x y, In x l -> In y l -> eidx n off x = eidx n off y -> x = y.
Proof.
  intros Hb [p q] [p' q'] Hx Hy E. apply Hb in Hx. apply Hb in Hy.
  unfold eidx in E; cbn [fst snd] in E. injection E; intros.
  f_equal; eapply vidx_inj; try eassumption; tauto.
Qed.

Lemma flat_map_const_length {A B} (f : A -> list B) l c :
  (forall x, length (f x) = c) -> length (flat_map f l) = length l * c.
Proof.
  intros H. induction l as [|a l IH]; cbn; [reflexivity|]. rewrite app_length, H, IH. reflexivity.
Qed.

Lemma profile_triangles_length np n off cw :
  length (shape_profile_triangles np n off cw) = 2 * n * (np - 1).
Proof.
  unfold shape_profile_triangles.
  rewrite (flat_map_const_length _ _ (2 * n)).
  - rewrite seq_length. lia.
  - intros i. rewrite map_length. unfold profile_tri_base.
    rewrite (flat_map_const_length _ _ 2); [rewrite seq_length; lia|].
    intros j. destruct cw; reflexivity.
Qed.

(** the complete statement for one block *)
Definition closed_block_ok (np n off : nat) (ts : list tri) : Prop :=
  watertight ts
  /\ Forall (verts_in off (off + np * n)) ts
  /\ Forall proper_tri ts
  /\ (forall v, off <= v < off + np * n -> exists t, In t ts /\ tri_has v t)
  /\ length ts = 2 * n * (np - 1) + 2 * (n - 2).

Lemma closed_block np n off cw : 2 <= np -> 3 <= n ->
  exists ts, shape_triangles np n off cw true = Some ts /\ closed_block_ok np n off ts.
Proof.
  intros Hnp Hn.
  destruct (shape_triangles_cw np n off Hn) as (face & ts & Hf & Ets & Est & Hperm).
  destruct (closed_edges_spec np n face Hnp Hn Hf) as (Hnd & Hsym & Hb).
  assert (Hb2 : forall p q, In (p, q) (closed_edges np n face) -> snd p < n /\ snd q < n)
    by (intros p q H; apply Hb in H; tauto).
  assert (Hok : closed_block_ok np n off ts).
  { assert (Hw : watertight ts).
    { split.
      - eapply Permutation_NoDup; [apply Permutation_sym; exact Hperm|].
        apply NoDup_map_on; [|assumption]. apply eidx_inj. exact Hb2.
      - intros u v H. apply (Permutation_in _ Hperm) in H.
        apply (Permutation_in _ (Permutation_sym Hperm)).
        apply in_map_iff in H as [[p q] [E H]]. apply in_map_iff. exists (q, p).
        split; [|apply Hsym; assumption]. unfold eidx in *; cbn in *. congruence. }
    split; [exact Hw|]. split; [|split; [|split]].
    - apply verts_in_of_edges. intros u v H. apply (Permutation_in _ Hperm) in H.
      apply in_map_iff in H as [[[k a] [k' b]] [E H]]. apply Hb in H. cbn in H.
      unfold eidx, vidx in E; cbn in E. injection E; intros; subst. nia.
    - apply proper_of_edges. intros u v H E. subst v. apply (Permutation_in _ Hperm) in H.
      apply in_map_iff in H as [[p q] [E H]].
      apply (closed_edges_irrefl np n face p q Hn Hf H).
      apply Hb2 in H. unfold eidx in E; cbn [fst snd] in E. injection E; intros.
      apply (vidx_inj n off); [apply H|apply H|congruence].
    - intros v Hv.
      assert (exists k i, k < np /\ i < n /\ v = vidx n off (k, i)) as (k & i & Hk & Hi & E).
      { exists ((v - off) / n), ((v - off) mod n).
        assert (n <> 0) by lia.
        pose proof (Nat.div_mod (v - off) n H).
        pose proof (Nat.mod_upper_bound (v - off) n H).
        split; [apply Nat.div_lt_upper_bound; [lia|]; nia|]. split; [assumption|].
        unfold vidx; cbn. lia. }
      assert (exists q, In ((k, i), q) (closed_edges np n face)) as [q Hq].
      { destruct k as [|k].
        - eexists. unfold closed_edges. rewrite in_app_iff. left. apply in_prof_edges.
          exists 0, i. split; [lia|]. split; [assumption|]. left. reflexivity.
        - eexists. unfold closed_edges. rewrite in_app_iff. left. apply in_prof_edges.
          exists k, i. split; [lia|]. split; [assumption|]. right; left. reflexivity. }
      eapply has_of_edge. apply (Permutation_in _ (Permutation_sym Hperm)).
      apply in_map_iff. exists ((k, i), q). split; [|exact Hq]. unfold eidx; cbn [fst snd].
      rewrite <- E. reflexivity.
    - rewrite Ets, !app_length, profile_triangles_length, !map_length.
      destruct Hf as [Hlen _]. lia. }
  destruct cw.
  - exists ts. split; assumption.
  - exists (map rev_tri ts). split; [rewrite shape_triangles_false by lia; rewrite Est; reflexivity|].
    destruct Hok as (H1 & H2 & H3 & H4 & H5). split; [apply watertight_rev; assumption|].
    split; [|split; [|split]].
    + apply Forall_map. eapply Forall_impl; [|exact H2]. intros t. apply verts_in_rev.
    + apply Forall_map. eapply Forall_impl; [|exact H3]. intros t. apply proper_rev.
    + intros v Hv. destruct (H4 v Hv) as [t [Ht Hh]]. exists (rev_tri t).
      split; [apply in_map; assumption|]. apply has_rev; assumption.
    + rewrite map_length. assumption.
Qed.

(** * Several blocks *)

Definition npoints (bs : list block) : nat := sum (map block_points bs).
Definition ntris (bs : list block) : nat := sum (map block_tris bs).

Lemma watertight_app ts1 ts2 lo mid hi :
  watertight ts1 -> watertight ts2 ->
  Forall (verts_in lo mid) ts1 -> Forall (verts_in mid hi) ts2 -> watertight (ts1 ++ ts2).
Proof.
  intros [N1 C1] [N2 C2] V1 V2. split.
  - rewrite edges_app. apply NoDup_app_intro; [assumption|assumption|].
    intros [u v] H1 H2. apply (range_edges _ _ _ V1) in H1. apply (range_edges _ _ _ V2) in H2. lia.
  - intros u v. rewrite edges_app, !in_app_iff. intros [H|H]; [left; apply C1|right; apply C2]; assumption.
Qed.

Lemma raster_loop_ok bs : Forall block_ok bs -> forall off,
  exists ts, geometry_raster_loop bs true off = Some (off + npoints bs, ts)
    /\ watertight ts /\ Forall (verts_in off (off + npoints bs)) ts /\ Forall proper_tri ts
    /\ (forall v, off <= v < off + npoints bs -> exists t, In t ts /\ tri_has v t)
    /\ length ts = ntris bs.
Proof.
  induction bs as [|b bs IH]; intros Hb off; cbn [geometry_raster_loop].
  - change (npoints []) with 0. change (ntris []) with 0. exists []. rewrite Nat.add_0_r. split; [reflexivity|].
    split; [split; [constructor|cbn; tauto]|]. split; [constructor|]. split; [constructor|].
    split; [intros; lia|reflexivity].
  - inversion Hb as [|? ? [H1 H2] Hb']; subst.
    destruct (closed_block (b_np b) (b_n b) off (b_cw b) H1 H2) as (ts1 & E1 & W1 & V1 & P1 & U1 & L1).
    destruct (IH Hb' (off + b_np b * b_n b)) as (ts2 & E2 & W2 & V2 & P2 & U2 & L2).
    rewrite E1, E2. exists (ts1 ++ ts2).
    change (npoints (b :: bs)) with (b_np b * b_n b + npoints bs).
    change (ntris (b :: bs)) with (2 * b_n b * (b_np b - 1) + 2 * (b_n b - 2) + ntris bs).
    split; [f_equal; f_equal; lia|].
    split; [eapply watertight_app; eassumption|].
    split; [|split; [|split]].
    + apply Forall_app. split.
      * eapply Forall_impl; [|exact V1]. intros t Ht v Hv. specialize (Ht v Hv). lia.
      * eapply Forall_impl; [|exact V2]. intros t Ht v Hv. specialize (Ht v Hv). lia.
    + apply Forall_app. split; assumption.
    + intros v Hv. destruct (Nat.lt_ge_cases v (off + b_np b * b_n b)) as [Hlt|Hge].
      * destruct (U1 v) as [t [Ht Hh]]; [lia|]. exists t. split; [apply in_app_iff; tauto|assumption].
      * destruct (U2 v) as [t [Ht Hh]]; [lia|]. exists t. split; [apply in_app_iff; tauto|assumption].
    + rewrite app_length, L1, L2. reflexivity.
Qed.

Lemma from_raster_ok bs : Forall block_ok bs ->
  exists ts, from_geometry_raster bs true = Some (npoints bs, ts)
    /\ watertight ts /\ Forall (verts_in 0 (npoints bs)) ts /\ Forall proper_tri ts
    /\ (forall v, v < npoints bs -> exists t, In t ts /\ tri_has v t)
    /\ length ts = ntris bs.
Proof.
  intros H. destruct (raster_loop_ok bs H 0) as (ts & E & W & V & P & U & Lt).
  exists ts. split; [exact E|]. split; [assumption|]. split; [assumption|]. split; [assumption|].
  split; [|assumption]. intros v Hv. apply U. lia.
Qed.

(** * Open mesh: the boundary *)

Lemma open_edges_cw np n off : 2 <= np -> 3 <= n ->
  NoDup (edges (shape_profile_triangles np n off true))
  /\ forall u v,
      (In (u, v) (edges (shape_profile_triangles np n off true))
       /\ ~ In (v, u) (edges (shape_profile_triangles np n off true)))
      <-> exists i, i < n /\
           ((u, v) = (off + cyc_succ n i, off + i)
            \/ (u, v) = (off + (np - 1) * n + i, off + (np - 1) * n + cyc_succ n i)).
Proof.
  intros Hnp Hn. rewrite profile_edges_eq.
  assert (Hb2 : forall p q, In (p, q) (prof_edges np n) -> snd p < n /\ snd q < n)
    by (intros p q H; apply prof_edges_bound in H; tauto).
  assert (Hin : forall p q, snd p < n -> snd q < n ->
             In (eidx n off (p, q)) (map (eidx n off) (prof_edges np n)) -> In (p, q) (prof_edges np n)).
  { intros p q Hp Hq H. apply in_map_iff in H as [[p' q'] [E H]].
    pose proof (Hb2 _ _ H) as [Hp' Hq']. unfold eidx in E; cbn [fst snd] in E. injection E; intros.
    assert (p' = p) by (eapply vidx_inj; eassumption). assert (q' = q) by (eapply vidx_inj; eassumption).
    subst; assumption. }
  split.
  - apply NoDup_map_on; [apply eidx_inj; exact Hb2|apply prof_edges_nodup; assumption].
  - intros u v. split.
    + intros [H1 H2]. apply in_map_iff in H1 as [[p q] [E H1]].
      destruct (prof_edges_rev np n p q) as [H|[[i [Hi H]]|[i [Hi H]]]]; [lia|assumption| | |].
      * exfalso. apply H2. apply in_map_iff. exists (q, p). split; [|assumption].
        unfold eidx in *; cbn in *; congruence.
      * exists i. split; [assumption|]. left. rewrite <- E, H. unfold eidx, vidx, bwd_edge; cbn. f_equal; lia.
      * exists i. split; [assumption|]. right. rewrite <- E, H. unfold eidx, vidx, fwd_edge; cbn. f_equal; lia.
    + intros [i [Hi [E|E]]].
      * assert (E' : (u, v) = eidx n off (bwd_edge n 0 i))
          by (rewrite E; unfold eidx, vidx, bwd_edge; cbn; f_equal; lia).
        rewrite E'. split; [apply in_map, prof_edges_front; assumption|].
        intros H. assert (E2 : (v, u) = eidx n off ((0, i), (0, cyc_succ n i)))
          by (injection E; intros; subst; unfold eidx, vidx; cbn; f_equal; lia).
        rewrite E2 in H. apply Hin in H; [|cbn; assumption|cbn; apply cyc_succ_lt; assumption].
        apply prof_edges_layer in H; [|assumption].
        destruct H as [(H & _ & _)|(_ & _ & H)]; [|lia]. cyc; lia.
      * assert (E' : (u, v) = eidx n off (fwd_edge n (np - 1) i))
          by (rewrite E; unfold eidx, vidx, fwd_edge; cbn; f_equal; lia).
        rewrite E'. split; [apply in_map, prof_edges_back; assumption|].
        intros H. assert (E2 : (v, u) = eidx n off ((np - 1, cyc_succ n i), (np - 1, i)))
          by (injection E; intros; subst; unfold eidx, vidx; cbn; f_equal; lia).
        rewrite E2 in H. apply Hin in H; [|cbn; apply cyc_succ_lt; assumption|cbn; assumption].
        apply prof_edges_layer in H; [|assumption].
        destruct H as [(_ & _ & H)|(H & _ & _)]; [lia|]. cyc; lia.
Qed.

(** for both windings, as undirected boundary edges *)
Lemma open_boundary np n off cw : 2 <= np -> 3 <= n ->
  exists ts, shape_triangles np n off cw false = Some ts
  /\ NoDup (edges ts)
  /\ length ts = 2 * n * (np - 1)
  /\ forall u v,
      ((In (u, v) (edges ts) /\ ~ In (v, u) (edges ts))
       \/ (In (v, u) (edges ts) /\ ~ In (u, v) (edges ts)))
      <-> exists i, i < n /\
           exists k, (k = 0 \/ k = np - 1) /\
           ((u, v) = (off + k * n + i, off + k * n + cyc_succ n i)
            \/ (v, u) = (off + k * n + i, off + k * n + cyc_succ n i)).
Proof.
  intros Hnp Hn. destruct (open_edges_cw np n off Hnp Hn) as [Hnd Hb].
  assert (Hcw : forall u v,
      ((In (u, v) (edges (shape_profile_triangles np n off true)) /\ ~ In (v, u) (edges (shape_profile_triangles np n off true)))
       \/ (In (v, u) (edges (shape_profile_triangles np n off true)) /\ ~ In (u, v) (edges (shape_profile_triangles np n off true))))
      <-> exists i, i < n /\
           exists k, (k = 0 \/ k = np - 1) /\
           ((u, v) = (off + k * n + i, off + k * n + cyc_succ n i)
            \/ (v, u) = (off + k * n + i, off + k * n + cyc_succ n i))).
  { intros u v. rewrite (Hb u v), (Hb v u). split.
    - intros [[i [Hi [E|E]]]|[i [Hi [E|E]]]]; injection E; intros; subst; exists i; (split; [assumption|]).
      + exists 0. split; [auto|]. right. f_equal; lia.
      + exists (np - 1). split; [auto|]. left. f_equal; lia.
      + exists 0. split; [auto|]. left. f_equal; lia.
      + exists (np - 1). split; [auto|]. right. f_equal; lia.
    - intros [i [Hi [k [Hk [E|E]]]]]; injection E; intros; subst; destruct Hk; subst k.
      + right. exists i. split; [assumption|]. left. f_equal; lia.
      + left. exists i. split; [assumption|]. right. reflexivity.
      + left. exists i. split; [assumption|]. left. f_equal; lia.
      + right. exists i. split; [assumption|]. right. reflexivity. }
  destruct cw.
  - exists (shape_profile_triangles np n off true). split; [reflexivity|]. split; [assumption|].
    split; [apply profile_triangles_length|]. exact Hcw.
  - exists (map rev_tri (shape_profile_triangles np n off true)).
    split; [cbn [shape_triangles]; rewrite profile_triangles_false; reflexivity|].
    assert (Hsw : forall u v, In (u, v) (edges (map rev_tri (shape_profile_triangles np n off true)))
                      <-> In (v, u) (edges (shape_profile_triangles np n off true))).
    { intros u v. rewrite <- (In_map_swap u v (edges (shape_profile_triangles np n off true))). split; apply Permutation_in;
        [apply edges_rev|apply Permutation_sym, edges_rev]. }
    split; [|split].
    + eapply Permutation_NoDup; [apply Permutation_sym, edges_rev|].
      apply NoDup_map_on; [|assumption]. intros [a b] [c d] _ _ H. unfold swap in H; cbn in H. congruence.
    + rewrite map_length. apply profile_triangles_length.
    + intros u v. rewrite !Hsw. rewrite <- Hcw. tauto.
Qed.

(** * Undirected edges and Euler's formula *)

Lemma filter_length_split {A} (f : A -> bool) l :
  length l = length (filter f l) + length (filter (fun x => negb (f x)) l).
Proof. induction l as [|a l IH]; cbn; [reflexivity|]. destruct (f a); cbn; lia. Qed.

Lemma watertight_uedges ts : watertight ts -> Forall proper_tri ts ->
  NoDup (uedges ts) /\ 2 * length (uedges ts) = 3 * length ts.
Proof.
  intros [Hnd Hrev] Hp. split; [apply NoDup_filter; assumption|].
  assert (Hl : length (edges ts) = 3 * length ts).
  { clear. induction ts as [|[[a b] c] ts IH]; cbn in *; [reflexivity|]. unfold edges in IH. lia. }
  rewrite <- Hl. rewrite (filter_length_split (fun e => fst e <? snd e) (edges ts)).
  fold (uedges ts).
  assert (Hne : forall u v, In (u, v) (edges ts) -> u <> v).
  { intros u v H. apply in_flat_map in H as [[[x y] z] [Ht H]]. rewrite Forall_forall in Hp. specialize (Hp _ Ht).
    cbn in *. repeat destruct H as [H|H]; try contradiction; injection H; intros; subst; intuition congruence. }
  assert (Permutation (map swap (uedges ts)) (filter (fun x => negb (fst x <? snd x)) (edges ts))) as HP.
  { apply NoDup_Permutation.
    - apply NoDup_map_on; [|apply NoDup_filter; assumption].
      intros [a b] [c d] _ _ H. unfold swap in H; cbn in H. congruence.
    - apply NoDup_filter; assumption.
    - intros [u v]. rewrite In_map_swap. unfold uedges. rewrite !filter_In. cbn [fst snd].
      split.
      + intros [H1 H2]. split; [apply Hrev; assumption|]. apply Nat.ltb_lt in H2.
        destruct (Nat.ltb_spec u v); [lia|reflexivity].
      + intros [H1 H2]. split; [apply Hrev; assumption|].
        pose proof (Hne _ _ H1). destruct (Nat.ltb_spec u v); [discriminate|].
        apply Nat.ltb_lt. lia. }
  apply Permutation_length in HP. rewrite map_length in HP. lia.
Qed.

Lemma closed_euler np n off cw ts : 2 <= np -> 3 <= n ->
  shape_triangles np n off cw true = Some ts ->
  np * n + length ts = length (uedges ts) + 2.
Proof.
  intros Hnp Hn H. destruct (closed_block np n off cw Hnp Hn) as (ts' & E & W & _ & P & _ & L').
  rewrite E in H. injection H; intros; subst ts'.
  destruct (watertight_uedges ts W P) as [_ HE]. nia.
Qed.

Lemma shape_loop_total np n off cw closed : exists ts, shape_triangles np n off cw closed = Some ts.
Proof.
  unfold shape_triangles. destruct closed; [|eexists; reflexivity].
  unfold shape_front_back_triangles.
  destruct (Nat.le_gt_cases 3 n) as [H|H].
  - destruct (loop_face n H) as (c & E & _). rewrite E. eexists; reflexivity.
  - destruct n as [|[|[|n]]]; [..|lia]; cbn; eexists; reflexivity.
Qed.

Lemma open_block_range np n off cw ts : 2 <= np -> 3 <= n ->
  shape_triangles np n off cw false = Some ts -> Forall (verts_in off (off + np * n)) ts.
Proof.
  intros Hnp Hn E.
  destruct (closed_block np n off cw Hnp Hn) as (ts' & E' & _ & V & _).
  unfold shape_triangles in E, E'. injection E; intros <-.
  destruct (shape_front_back_triangles np n off cw); [|discriminate].
  injection E'; intros <-. apply Forall_app in V. tauto.
Qed.

Lemma any_block_range np n off cw closed ts : 2 <= np -> 3 <= n ->
  shape_triangles np n off cw closed = Some ts -> Forall (verts_in off (off + np * n)) ts.
Proof.
  intros Hnp Hn E. destruct closed.
  - destruct (closed_block np n off cw Hnp Hn) as (ts' & E' & _ & V & _). congruence.
  - eapply open_block_range; eassumption.
Qed.

Lemma raster_loop_range bs closed : Forall block_ok bs -> forall off,
  exists ts, geometry_raster_loop bs closed off = Some (off + npoints bs, ts)
    /\ Forall (verts_in off (off + npoints bs)) ts.
Proof.
  induction bs as [|b bs IH]; intros Hb off; cbn [geometry_raster_loop].
  - exists []. change (npoints []) with 0. rewrite Nat.add_0_r. split; [reflexivity|constructor].
  - inversion Hb as [|? ? [H1 H2] Hb']; subst.
    destruct (shape_loop_total (b_np b) (b_n b) off (b_cw b) closed) as [ts1 E1].
    assert (V1 := any_block_range _ _ _ _ _ _ H1 H2 E1).
    destruct (IH Hb' (off + b_np b * b_n b)) as (ts2 & E2 & V2).
    rewrite E1, E2. exists (ts1 ++ ts2).
    change (npoints (b :: bs)) with (b_np b * b_n b + npoints bs).
    split; [f_equal; f_equal; lia|]. apply Forall_app. split.
    + eapply Forall_impl; [|exact V1]. intros t Ht v Hv. specialize (Ht v Hv). lia.
    + eapply Forall_impl; [|exact V2]. intros t Ht v Hv. specialize (Ht v Hv). lia.
Qed.

Lemma raster_loop_app bs1 bs2 closed off :
  geometry_raster_loop (bs1 ++ bs2) closed off
  = match geometry_raster_loop bs1 closed off with
    | None => None
    | Some (m, ts1) => match geometry_raster_loop bs2 closed m with
                       | None => None
                       | Some (m', ts2) => Some (m', ts1 ++ ts2)
                       end
    end.
Proof.
  revert off. induction bs1 as [|b bs1 IH]; intros off; cbn [app geometry_raster_loop].
  - destruct (geometry_raster_loop bs2 closed off) as [[m ts]|]; reflexivity.
  - destruct (shape_triangles _ _ _ _ _) as [ts|]; [|reflexivity].
    rewrite IH. destruct (geometry_raster_loop bs1 closed _) as [[m ts1]|]; [|reflexivity].
    destruct (geometry_raster_loop bs2 closed m) as [[m' ts2]|]; [|reflexivity].
    rewrite app_assoc. reflexivity.
Qed.

Lemma block_own_points bs1 b bs2 closed : Forall block_ok (bs1 ++ b :: bs2) ->
  exists ts1 ts ts2 m,
    from_geometry_raster (bs1 ++ b :: bs2) closed = Some (m, ts1 ++ ts ++ ts2)
    /\ shape_triangles (b_np b) (b_n b) (sum (map block_points bs1)) (b_cw b) closed = Some ts
    /\ Forall (verts_in (sum (map block_points bs1))
                        (sum (map block_points bs1) + block_points b)) ts
    /\ Forall (verts_in 0 (sum (map block_points bs1))) ts1
    /\ Forall (verts_in (sum (map block_points bs1) + block_points b) m) ts2.
Proof.
  intros H. apply Forall_app in H as [H1 H]. inversion H as [|? ? [Hnp Hn] H2]; subst.
  destruct (raster_loop_range bs1 closed H1 0) as (ts1 & E1 & V1).
  destruct (shape_loop_total (b_np b) (b_n b) (npoints bs1) (b_cw b) closed) as [ts E].
  destruct (raster_loop_range bs2 closed H2 (npoints bs1 + b_np b * b_n b)) as (ts2 & E2 & V2).
  exists ts1, ts, ts2. eexists. split; [|split; [exact E|split; [|split; [exact V1|exact V2]]]].
  - unfold from_geometry_raster. rewrite raster_loop_app, E1. cbn [geometry_raster_loop plus].
    rewrite E, E2. reflexivity.
  - eapply any_block_range; eassumption.
Qed.

Lemma closed_mesh_watertight bs : Forall block_ok bs ->
  exists npts ts, from_geometry_raster bs true = Some (npts, ts)
    /\ watertight ts /\ Forall proper_tri ts.
Proof.
  intros H. destruct (from_raster_ok bs H) as (ts & E & W & V & P & _).
  exists (npoints bs), ts. auto.
Qed.

Lemma closed_mesh_indices bs : Forall block_ok bs ->
  exists ts, from_geometry_raster bs true = Some (sum (map block_points bs), ts)
    /\ Forall (verts_in 0 (sum (map block_points bs))) ts
    /\ (forall v, v < sum (map block_points bs) -> exists t, In t ts /\ tri_has v t)
    /\ length ts = sum (map block_tris bs).
Proof.
  intros H. destruct (from_raster_ok bs H) as (ts & E & W & V & P & U & L').
  exists ts. auto.
Qed.

Lemma closed_block_euler np n off cw : 2 <= np -> 3 <= n ->
  exists ts, shape_triangles np n off cw true = Some ts
    /\ NoDup (uedges ts)
    /\ 2 * length (uedges ts) = 3 * length ts
    /\ np * n + length ts = length (uedges ts) + 2.
Proof.
  intros Hnp Hn. destruct (closed_block np n off cw Hnp Hn) as (ts & E & W & _ & P & _).
  exists ts. split; [assumption|]. destruct (watertight_uedges ts W P) as [H1 H2].
  split; [assumption|]. split; [assumption|]. eapply closed_euler; eassumption.
Qed.
