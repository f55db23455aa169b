(** Facts about edge lists, path search and dictionaries. *)
From Coq Require Import List String Bool Arith Lia Permutation.
From Verif Require Import Base CsmModel CsmSpec TreeFacts.
Import ListNotations.

(** ** small list and dictionary facts *)
Lemma smem_In : forall k l, smem k l = true <-> In k l.
Proof.
  intros k l. unfold smem. rewrite existsb_exists. split.
  - intros (x & H & E). apply String.eqb_eq in E. subst. assumption.
  - intros H. exists k. split; [ assumption | apply String.eqb_refl ].
Qed.

Lemma smem_false : forall k l, smem k l = false <-> ~ In k l.
Proof.
  intros k l. rewrite <- smem_In. destruct (smem k l); split; intros H; congruence.
Qed.

Lemma dget_In : forall (V : Type) k (d : dict V), NoDup (dkeys d) -> forall v,
  dget k d = Some v <-> In (k, v) d.
Proof.
  intros V k d. induction d as [|[k' v'] d IH]; intros N v; cbn [dget In]; [ split; [ discriminate | tauto ] | ].
  inversion N as [|? ? Nin N']; subst. destruct (String.eqb_spec k k') as [->|Hn].
  - split; [ intros E; injection E as ->; left; reflexivity | ].
    intros [E|H]; [ congruence | ]. exfalso. apply Nin. apply in_map_iff. exists (k', v). auto.
  - rewrite (IH N'). split; [ auto | ]. intros [E|H]; [ congruence | assumption ].
Qed.

Lemma dget_key : forall (V : Type) k (d : dict V), (exists v, dget k d = Some v) <-> In k (dkeys d).
Proof.
  intros V k d. induction d as [|[k' v'] d IH]; cbn [dget dkeys map fst In].
  - split; [ intros [v H]; discriminate | tauto ].
  - destruct (String.eqb_spec k k') as [->|Hn].
    + split; [ auto | eauto ].
    + rewrite IH. split; [ auto | intros [E|H]; [ congruence | assumption ] ].
Qed.

Lemma dget_none : forall (V : Type) k (d : dict V), dget k d = None <-> ~ In k (dkeys d).
Proof.
  intros V k d. rewrite <- dget_key. destruct (dget k d); split; intros H; try congruence.
  - exfalso; apply H; eauto.
  - intros [v E]; discriminate.
Qed.

Lemma dmem_In : forall (V : Type) k (d : dict V), dmem k d = true <-> In k (dkeys d).
Proof.
  intros V k d. rewrite <- dget_key. unfold dmem. destruct (dget k d); split; intros H; try congruence; eauto.
  destruct H; discriminate.
Qed.

Lemma dset_keys_old : forall (V : Type) k v (d : dict V), In k (dkeys d) -> dkeys (dset k v d) = dkeys d.
Proof.
  intros V k v d. induction d as [|[k' v'] d IH]; cbn [dset dkeys map fst In]; [ tauto | ].
  destruct (String.eqb_spec k k') as [->|Hn]; intros H; [ reflexivity | ].
  cbn [dkeys map fst]. f_equal. apply IH. destruct H; [ congruence | assumption ].
Qed.

Lemma dset_new : forall (V : Type) k v (d : dict V), ~ In k (dkeys d) -> dset k v d = d ++ [(k, v)].
Proof.
  intros V k v d. induction d as [|[k' v'] d IH]; cbn [dset dkeys map fst In app]; intros H; [ reflexivity | ].
  destruct (String.eqb_spec k k') as [->|Hn]; [ exfalso; auto | ].
  f_equal. apply IH. tauto.
Qed.

Lemma dset_In : forall (V : Type) k v (d : dict V), NoDup (dkeys d) -> forall k' v',
  In (k', v') (dset k v d) <-> (k' = k /\ v' = v) \/ (k' <> k /\ In (k', v') d).
Proof.
  intros V k v d N k' v'. induction d as [|[k0 v0] d IH]; cbn [dset In].
  - split; [ intros [E|[]]; injection E as -> ->; auto | ].
    intros [[-> ->]|[_ []]]. left; reflexivity.
  - inversion N as [|? ? Nin N']; subst. destruct (String.eqb_spec k k0) as [->|Hn]; cbn [In].
    + split.
      * intros [E|H]; [ injection E as -> ->; auto | right ].
        split; [ | auto ]. intros ->. apply Nin. apply in_map_iff. exists (k0, v'). auto.
      * intros [[-> ->]|[Hk [E|H]]]; [ auto | congruence | auto ].
    + rewrite (IH N'). split.
      * intros [E|[[-> ->]|[Hk H]]]; [ injection E as -> ->; right; split; auto | auto | auto ].
      * intros [[-> ->]|[Hk [E|H]]]; auto.
Qed.

Lemma dget_dset : forall (V : Type) k v (d : dict V) k',
  dget k' (dset k v d) = if String.eqb k' k then Some v else dget k' d.
Proof.
  intros V k v d k'. induction d as [|[k0 v0] d IH]; cbn [dset dget].
  - destruct (String.eqb k' k); reflexivity.
  - destruct (String.eqb_spec k k0) as [->|Hn]; cbn [dget].
    + destruct (String.eqb k' k0); reflexivity.
    + rewrite IH. destruct (String.eqb_spec k' k0) as [->|]; [ | reflexivity ].
      destruct (String.eqb_spec k0 k); [ congruence | reflexivity ].
Qed.

Lemma dset_keys_NoDup : forall (V : Type) k v (d : dict V), NoDup (dkeys d) -> NoDup (dkeys (dset k v d)).
Proof.
  intros V k v d N. destruct (in_dec string_dec k (dkeys d)) as [H|H].
  - rewrite dset_keys_old; assumption.
  - rewrite dset_new by assumption. unfold dkeys. rewrite map_app. cbn [map fst].
    apply Permutation_NoDup with (l := k :: dkeys d).
    + apply Permutation_cons_append.
    + constructor; assumption.
Qed.

Lemma dset_keys : forall (V : Type) k v (d : dict V) x,
  In x (dkeys (dset k v d)) <-> x = k \/ In x (dkeys d).
Proof.
  intros V k v d x. destruct (in_dec string_dec k (dkeys d)) as [H|H].
  - rewrite dset_keys_old by assumption. split; [ auto | intros [->|K]; assumption ].
  - rewrite dset_new by assumption. unfold dkeys. rewrite map_app, in_app_iff. cbn [map fst In].
    split; [ intros [K|[E|[]]]; auto | intros [->|K]; auto ].
Qed.

Lemma filter_keys_In : forall (V : Type) (f : string -> bool) (d : dict V) x,
  In x (dkeys (filter (fun kv => f (fst kv)) d)) <-> In x (dkeys d) /\ f x = true.
Proof.
  intros V f d x. unfold dkeys. rewrite !in_map_iff. split.
  - intros ((k, v) & E & H). apply filter_In in H. cbn [fst] in *. subst.
    destruct H. split; [ exists (x, v); auto | assumption ].
  - intros (((k, v) & E & H) & F). cbn [fst] in *. subst. exists (x, v).
    split; [ reflexivity | apply filter_In; auto ].
Qed.

Lemma filter_keys_eq : forall (V : Type) (f : string -> bool) (d : dict V),
  dkeys (filter (fun kv => f (fst kv)) d) = filter f (dkeys d).
Proof.
  intros V f d. induction d as [|[k v] d IH]; cbn [filter dkeys map fst]; [ reflexivity | ].
  destruct (f k); cbn [map fst]; unfold dkeys in IH; rewrite IH; reflexivity.
Qed.

Lemma NoDup_filter_keys : forall (V : Type) (f : string -> bool) (d : dict V),
  NoDup (dkeys d) -> NoDup (dkeys (filter (fun kv => f (fst kv)) d)).
Proof. intros. rewrite filter_keys_eq. apply NoDup_filter. assumption. Qed.

(** ** edges *)
Section Edges.
  Context {T : Type} {ops : LcsOps T}.

  Definition ekey (e : edge T) : string * string := (e_src e, e_dst e).
  Definition elinked (es : list (edge T)) (u v : string) : Prop :=
    exists e, In e es /\ e_src e = u /\ e_dst e = v.

  Lemma elinked_key : forall es u v, elinked es u v <-> In (u, v) (map ekey es).
  Proof.
    intros es u v. unfold elinked. rewrite in_map_iff. unfold ekey. split.
    - intros (e & H & <- & <-). exists e. auto.
    - intros (e & E & H). injection E as <- <-. eauto.
  Qed.

  Definition keyb (e e' : edge T) : bool :=
    String.eqb (e_src e) (e_src e') && String.eqb (e_dst e) (e_dst e').

  Lemma keyb_spec : forall e e', reflect (ekey e = ekey e') (keyb e e').
  Proof.
    intros e e'. unfold keyb, ekey.
    destruct (String.eqb_spec (e_src e) (e_src e')) as [E|E];
    destruct (String.eqb_spec (e_dst e) (e_dst e')) as [F|F]; cbn [andb]; constructor; congruence.
  Qed.

  Lemma set_edge_keys : forall e es,
    map ekey (set_edge e es) =
    if existsb (fun x => keyb x e) es then map ekey es else map ekey es ++ [ekey e].
  Proof.
    intros e es. induction es as [|x es IH]; [ reflexivity | ].
    cbn [set_edge existsb map].
    change (String.eqb (e_src x) (e_src e) && String.eqb (e_dst x) (e_dst e)) with (keyb x e).
    destruct (keyb_spec x e) as [E|E]; cbn [orb map].
    - rewrite E. reflexivity.
    - rewrite IH. destruct (existsb _ es); reflexivity.
  Qed.

  Lemma existsb_key : forall e es, existsb (fun x => keyb x e) es = true <-> In (ekey e) (map ekey es).
  Proof.
    intros e es. rewrite existsb_exists, in_map_iff. split.
    - intros (x & H & K). exists x. destruct (keyb_spec x e); [ auto | discriminate ].
    - intros (x & E & H). exists x. destruct (keyb_spec x e); [ auto | congruence ].
  Qed.

  Lemma set_edge_NoDup : forall e es, NoDup (map ekey es) -> NoDup (map ekey (set_edge e es)).
  Proof.
    intros e es N. rewrite set_edge_keys. destruct (existsb (fun x => keyb x e) es) eqn:X; [ assumption | ].
    apply Permutation_NoDup with (l := ekey e :: map ekey es); [ apply Permutation_cons_append | ].
    constructor; [ | assumption ]. intros H. apply existsb_key in H. congruence.
  Qed.

  Lemma set_edge_In : forall e es, NoDup (map ekey es) -> forall x,
    In x (set_edge e es) <-> x = e \/ (In x es /\ ekey x <> ekey e).
  Proof.
    intros e es N x. induction es as [|y es IH]; cbn [set_edge In].
    - split; [ intros [<-|[]]; auto | intros [->|[[] _]]; auto ].
    - inversion N as [|? ? Nin N']; subst.
      change (String.eqb (e_src y) (e_src e) && String.eqb (e_dst y) (e_dst e)) with (keyb y e).
      destruct (keyb_spec y e) as [E|E]; cbn [In].
      + split.
        * intros [<-|H]; [ auto | right ]. split; [ auto | ]. intros F.
          apply Nin. rewrite E, <- F. apply in_map. assumption.
        * intros [->|[[<-|H] F]]; [ auto | congruence | auto ].
      + rewrite (IH N'). split.
        * intros [<-|[->|[H F]]]; auto.
        * intros [->|[[<-|H] F]]; auto.
  Qed.

  Lemma set_edge_new : forall e es, ~ In (ekey e) (map ekey es) -> set_edge e es = es ++ [e].
  Proof.
    intros e es. induction es as [|y es IH]; cbn [set_edge map In app]; intros H; [ reflexivity | ].
    change (String.eqb (e_src y) (e_src e) && String.eqb (e_dst y) (e_dst e)) with (keyb y e).
    destruct (keyb_spec y e) as [E|E]; [ exfalso; auto | ]. f_equal. apply IH. tauto.
  Qed.

  Lemma compose_edges_new : forall h g, NoDup (map ekey h) ->
    (forall k, In k (map ekey h) -> ~ In k (map ekey g)) -> compose_edges g h = g ++ h.
  Proof.
    unfold compose_edges. induction h as [|e h IH]; intros g N Hd; cbn [fold_left map].
    - rewrite app_nil_r. reflexivity.
    - inversion N as [|? ? Nin N']; subst.
      rewrite set_edge_new by (apply Hd; left; reflexivity).
      rewrite IH; [ rewrite <- app_assoc; reflexivity | assumption | ].
      intros k Hk. rewrite map_app, in_app_iff. intros [H|[E|[]]].
      + apply (Hd k); [ right; assumption | assumption ].
      + subst. contradiction.
  Qed.

  (** the attributes of an edge pair are consistent *)
  Record ewf (es : list (edge T)) : Prop := {
    ew_keys : NoDup (map ekey es);
    ew_rev : forall e, In e es -> e_def e = true ->
               exists t, e_tr e = Some t /\ In (Edge (e_dst e) (e_src e) (reverse_tr t) false) es;
    ew_def : forall e, In e es -> e_def e = false ->
               exists t, In (Edge (e_dst e) (e_src e) (Some t) true) es /\ e_tr e = reverse_tr t
  }.

  Lemma ewf_nil : ewf [].
  Proof. split; [ constructor | intros e [] | intros e [] ]. Qed.

  Lemma ewf_sym : forall es, ewf es -> forall u v, elinked es u v -> elinked es v u.
  Proof.
    intros es W u v (e & H & <- & <-). destruct (e_def e) eqn:De.
    - destruct (ew_rev _ W _ H De) as (t & _ & R). eexists. split; [ exact R | auto ].
    - destruct (ew_def _ W _ H De) as (t & R & _). eexists. split; [ exact R | auto ].
  Qed.

  Lemma put_edges_In : forall es a b t, NoDup (map ekey es) -> a <> b -> forall x,
    In x (put_edges a b t es) <->
    x = Edge a b (Some t) true \/ x = Edge b a (reverse_tr t) false \/
    (In x es /\ ekey x <> (a, b) /\ ekey x <> (b, a)).
  Proof.
    intros es a b t N Hab x. unfold put_edges.
    rewrite set_edge_In by (apply set_edge_NoDup; assumption).
    rewrite set_edge_In by assumption. unfold ekey. cbn [e_src e_dst]. split.
    - intros [->|[[->|[H1 H2]] H3]]; auto.
    - intros [->|[->|(H1 & H2 & H3)]]; auto. right. split; [ auto | ]. cbn. congruence.
  Qed.

  Lemma put_edges_keys : forall es a b t, NoDup (map ekey es) -> a <> b -> forall u v,
    elinked (put_edges a b t es) u v <->
    (u = a /\ v = b) \/ (u = b /\ v = a) \/ elinked es u v.
  Proof.
    intros es a b t N Hab u v. unfold elinked. split.
    - intros (e & H & Eu & Ev). apply put_edges_In in H; [ | assumption | assumption ].
      destruct H as [->|[->|(H & _)]]; cbn [e_src e_dst] in *; auto.
      right; right; eauto.
    - intros H.
      destruct (string_dec u a) as [->|Hu]; destruct (string_dec v b) as [->|Hv].
      + exists (Edge a b (Some t) true). rewrite put_edges_In by assumption. auto.
      + destruct H as [[_ E]|[[E _]|(e & He & Es & Ed)]]; try congruence.
        exists e. rewrite put_edges_In by assumption. unfold ekey.
        split; [ right; right; split; [ assumption | ] | auto ]. split; congruence.
      + destruct H as [[E _]|[[E F]|(e & He & Es & Ed)]]; try congruence.
        exists e. rewrite put_edges_In by assumption. unfold ekey.
        split; [ right; right; split; [ assumption | ] | auto ]. split; congruence.
      + destruct (string_dec u b) as [->|Hu']; destruct (string_dec v a) as [->|Hv'].
        * exists (Edge b a (reverse_tr t) false). rewrite put_edges_In by assumption. auto.
        * destruct H as [[E _]|[[_ E]|(e & He & Es & Ed)]]; try congruence.
          exists e. rewrite put_edges_In by assumption. unfold ekey.
          split; [ right; right; split; [ assumption | ] | auto ]. split; congruence.
        * destruct H as [[E _]|[[E _]|(e & He & Es & Ed)]]; try congruence.
          exists e. rewrite put_edges_In by assumption. unfold ekey.
          split; [ right; right; split; [ assumption | ] | auto ]. split; congruence.
        * destruct H as [[E _]|[[E _]|(e & He & Es & Ed)]]; try congruence.
          exists e. rewrite put_edges_In by assumption. unfold ekey.
          split; [ right; right; split; [ assumption | ] | auto ]. split; congruence.
  Qed.

  Lemma put_edges_ewf : forall es a b t, ewf es -> a <> b -> ewf (put_edges a b t es).
  Proof.
    intros es a b t W Hab. assert (N := ew_keys _ W).
    assert (I := put_edges_In es a b t N Hab). split.
    - unfold put_edges. do 2 apply set_edge_NoDup. assumption.
    - intros e H De. apply I in H. destruct H as [->|[->|(H & K1 & K2)]].
      + exists t. cbn [e_tr e_src e_dst]. split; [ reflexivity | ]. apply I. auto.
      + discriminate.
      + destruct (ew_rev _ W _ H De) as (t' & E & R). exists t'. split; [ assumption | ].
        apply I. right; right. split; [ assumption | ]. unfold ekey in *. cbn [e_src e_dst].
        split; congruence.
    - intros e H De. apply I in H. destruct H as [->|[->|(H & K1 & K2)]].
      + discriminate.
      + exists t. cbn [e_tr e_src e_dst]. split; [ apply I; auto | reflexivity ].
      + destruct (ew_def _ W _ H De) as (t' & R & E). exists t'. split; [ | assumption ].
        apply I. right; right. split; [ assumption | ]. unfold ekey in *. cbn [e_src e_dst].
        split; congruence.
  Qed.

  Definition both (keep : string -> bool) (e : edge T) : bool := keep (e_src e) && keep (e_dst e).

  Lemma NoDup_map_filter : forall (A B : Type) (f : A -> B) (g : A -> bool) l,
    NoDup (map f l) -> NoDup (map f (filter g l)).
  Proof.
    intros A B f g l. induction l as [|x l IH]; intros N; cbn [filter map]; [ assumption | ].
    inversion N as [|? ? Nin N']; subst. destruct (g x); cbn [map]; [ | auto ].
    constructor; [ | auto ]. intros H. apply Nin. apply in_map_iff in H.
    destruct H as (y & E & H). apply filter_In in H. apply in_map_iff. exists y. tauto.
  Qed.

  Lemma filter_ewf : forall keep es, ewf es -> ewf (filter (both keep) es).
  Proof.
    intros keep es W. split.
    - apply NoDup_map_filter. apply (ew_keys _ W).
    - intros e H De. apply filter_In in H. destruct H as [H K].
      destruct (ew_rev _ W _ H De) as (t & E & R). exists t. split; [ assumption | ].
      apply filter_In. split; [ assumption | ]. unfold both in *. cbn [e_src e_dst].
      rewrite andb_comm. assumption.
    - intros e H De. apply filter_In in H. destruct H as [H K].
      destruct (ew_def _ W _ H De) as (t & R & E). exists t. split; [ | assumption ].
      apply filter_In. split; [ assumption | ]. unfold both in *. cbn [e_src e_dst].
      rewrite andb_comm. assumption.
  Qed.

  Lemma filter_elinked : forall keep es u v,
    elinked (filter (both keep) es) u v <-> elinked es u v /\ keep u = true /\ keep v = true.
  Proof.
    intros keep es u v. unfold elinked. split.
    - intros (e & H & <- & <-). apply filter_In in H. destruct H as [H K].
      unfold both in K. apply andb_true_iff in K. split; [ eauto | tauto ].
    - intros ((e & H & <- & <-) & K1 & K2). exists e. rewrite filter_In. unfold both.
      rewrite K1, K2. auto.
  Qed.

  Lemma NoDup_app_disjoint : forall (A : Type) (g h : list A), NoDup g -> NoDup h ->
    (forall k, In k h -> ~ In k g) -> NoDup (g ++ h).
  Proof.
    intros A g h Ng Nh Hd. induction Ng as [|k g Nin Ng IH]; [ assumption | ].
    cbn [app]. constructor.
    - rewrite in_app_iff. intros [H|H]; [ contradiction | ]. apply (Hd k H). left; reflexivity.
    - apply IH. intros x Hx H. apply (Hd x Hx). right; assumption.
  Qed.

  Lemma app_ewf : forall g h, ewf g -> ewf h ->
    (forall k, In k (map ekey h) -> ~ In k (map ekey g)) -> ewf (g ++ h).
  Proof.
    intros g h Wg Wh Hd. split.
    - rewrite map_app. apply NoDup_app_disjoint; [ apply Wg | apply Wh | assumption ].
    - intros e H De. apply in_app_or in H. destruct H as [H|H].
      + destruct (ew_rev _ Wg _ H De) as (t & E & R). exists t. rewrite in_app_iff. auto.
      + destruct (ew_rev _ Wh _ H De) as (t & E & R). exists t. rewrite in_app_iff. auto.
    - intros e H De. apply in_app_or in H. destruct H as [H|H].
      + destruct (ew_def _ Wg _ H De) as (t & R & E). exists t. rewrite in_app_iff. auto.
      + destruct (ew_def _ Wh _ H De) as (t & R & E). exists t. rewrite in_app_iff. auto.
  Qed.

  Lemma app_elinked : forall g h u v, elinked (g ++ h) u v <-> elinked g u v \/ elinked h u v.
  Proof. intros g h u v. rewrite !elinked_key, map_app, in_app_iff. tauto. Qed.

  Lemma nbs_In : forall (es : list (edge T)) u v, In v (nbs es u) <-> elinked es u v.
  Proof.
    intros es u v. unfold nbs, elinked. rewrite in_map_iff. split.
    - intros (e & E & H). apply filter_In in H. destruct H as [H K].
      apply String.eqb_eq in K. eauto.
    - intros (e & H & Es & Ed). exists e. split; [ assumption | ]. apply filter_In.
      split; [ assumption | ]. apply String.eqb_eq. assumption.
  Qed.

  Lemma nbs_NoDup : forall (es : list (edge T)) u, NoDup (map ekey es) -> NoDup (nbs es u).
  Proof.
    intros es u N. unfold nbs. induction es as [|e es IH]; cbn [filter map]; [ constructor | ].
    inversion N as [|? ? Nin N']; subst. destruct (String.eqb_spec (e_src e) u) as [E|E]; [ | auto ].
    cbn [map]. constructor; [ | auto ]. intros H. apply in_map_iff in H.
    destruct H as (x & Ex & H). apply filter_In in H. destruct H as [H K].
    apply String.eqb_eq in K. apply Nin. apply in_map_iff. exists x.
    split; [ unfold ekey; congruence | assumption ].
  Qed.

  Lemma find_edge_In : forall (es : list (edge T)) e, NoDup (map ekey es) -> In e es ->
    find_edge es (e_src e) (e_dst e) = Some e.
  Proof.
    intros es e. unfold find_edge. induction es as [|x es IH]; intros N H; [ destruct H | ].
    inversion N as [|? ? Nin N']; subst. cbn [find].
    change (String.eqb (e_src x) (e_src e) && String.eqb (e_dst x) (e_dst e)) with (keyb x e).
    destruct (keyb_spec x e) as [E|E].
    - destruct H as [->|H]; [ reflexivity | ]. exfalso. apply Nin. rewrite E. apply in_map. assumption.
    - destruct H as [->|H]; [ congruence | ]. auto.
  Qed.

  Lemma find_edge_Some : forall (es : list (edge T)) u v e, find_edge es u v = Some e ->
    In e es /\ e_src e = u /\ e_dst e = v.
  Proof.
    intros es u v e H. unfold find_edge in H. apply find_some in H. destruct H as [H K].
    apply andb_true_iff in K. destruct K as [K1 K2].
    apply String.eqb_eq in K1. apply String.eqb_eq in K2. auto.
  Qed.

  (** ** path search *)
  Lemma simple_paths_sound : forall f es seen a b p,
    In p (simple_paths f es seen a b) -> ~ In a seen ->
    walk (elinked es) a p b /\ NoDup p /\ (forall x, In x p -> ~ In x seen).
  Proof.
    induction f as [|f IH]; intros es seen a b p H Ha; cbn [simple_paths] in H;
      destruct (String.eqb_spec a b) as [->|Hab].
    - destruct H as [<-|[]]. split; [ constructor | split ].
      + constructor; [ intros [] | constructor ].
      + intros x [<-|[]]; assumption.
    - destruct H.
    - destruct H as [<-|[]]. split; [ constructor | split ].
      + constructor; [ intros [] | constructor ].
      + intros x [<-|[]]; assumption.
    - apply in_flat_map in H. destruct H as (n & Hn & H). apply filter_In in Hn.
      destruct Hn as [Hn K]. apply negb_true_iff in K. apply smem_false in K.
      apply in_map_iff in H. destruct H as (q & <- & H).
      destruct (IH _ _ _ _ _ H K) as (W & N & S). split; [ | split ].
      + econstructor; [ apply nbs_In; exact Hn | exact W ].
      + constructor; [ | assumption ]. intros Hin. apply (S _ Hin). left; reflexivity.
      + intros x [<-|Hx]; [ assumption | ]. intros Hs. apply (S _ Hx). right; assumption.
  Qed.

  Lemma simple_paths_complete : forall f es seen a b p,
    walk (elinked es) a p b -> NoDup p -> (forall x, In x p -> ~ In x seen) ->
    List.length p <= S f -> In p (simple_paths f es seen a b).
  Proof.
    induction f as [|f IH]; intros es seen a b p W N S L; cbn [simple_paths];
      destruct (String.eqb_spec a b) as [->|Hab].
    - left. inversion W as [x|x y z q R W']; subst; [ reflexivity | ].
      exfalso. inversion N; subst. apply H1. eapply walk_in_end; eassumption.
    - exfalso. inversion W as [x|x y z q R W']; subst; [ congruence | ].
      destruct (walk_head _ _ _ _ W') as [q' ->]. cbn [List.length] in L. lia.
    - left. inversion W as [x|x y z q R W']; subst; [ reflexivity | ].
      exfalso. inversion N; subst. apply H1. eapply walk_in_end; eassumption.
    - inversion W as [x|x y z q R W']; subst; [ congruence | ].
      inversion N as [|? ? Nin N']; subst.
      apply in_flat_map. exists y.
      assert (Sq : forall x, In x q -> ~ In x (a :: seen)).
      { intros x Hx [<-|Hs]; [ contradiction | ]. apply (S x); [ right; assumption | assumption ]. }
      split.
      + apply filter_In. split; [ apply nbs_In; assumption | ].
        apply negb_true_iff, smem_false. apply Sq. eapply walk_in_start; eassumption.
      + apply in_map_iff. exists q. split; [ reflexivity | ].
        apply IH; [ assumption | assumption | assumption | ]. cbn [List.length] in L. lia.
  Qed.

  Lemma shortest_In : forall ps p, shortest ps = Some p -> In p ps.
  Proof.
    induction ps as [|q ps IH]; intros p H; cbn [shortest] in H; [ discriminate | ].
    destruct (shortest ps) as [s|].
    - destruct (Nat.leb _ _); injection H as <-; [ left; reflexivity | right; apply IH; reflexivity ].
    - injection H as <-. left; reflexivity.
  Qed.

  Lemma shortest_some : forall ps, ps <> [] -> exists p, shortest ps = Some p.
  Proof.
    intros [|q ps] H; [ congruence | ]. cbn [shortest].
    destruct (shortest ps); [ destruct (Nat.leb _ _) | ]; eauto.
  Qed.

  Lemma shortest_path_simple : forall es a b p, shortest_path es a b = Some p ->
    simple_path (elinked es) a p b.
  Proof.
    intros es a b p H. apply shortest_In in H.
    destruct (simple_paths_sound _ _ _ _ _ _ H) as (W & N & _); [ intros [] | split; assumption ].
  Qed.

  Lemma shortest_path_unique : forall es a b p,
    simple_path (elinked es) a p b -> List.length p <= S (List.length es) ->
    (forall q, simple_path (elinked es) a q b -> q = p) -> shortest_path es a b = Some p.
  Proof.
    intros es a b p [W N] L U.
    assert (In p (simple_paths (List.length es) es [] a b)) as Hp.
    { apply simple_paths_complete; auto. }
    destruct (shortest_some (simple_paths (List.length es) es [] a b)) as [q Hq].
    { intros E. rewrite E in Hp. destruct Hp. }
    unfold shortest_path. rewrite Hq. f_equal. apply U. apply shortest_path_simple. exact Hq.
  Qed.
End Edges.
