(** Facts about trees given by a list of (child, parent) pairs, newest first.
    No model in here. *)
From Coq Require Import List String Bool Arith Lia.
From Verif Require Import Base CsmModel CsmSpec.
Import ListNotations.

Definition verts (r : string) (l : list (string * string)) : list string := r :: map fst l.

(** [l] builds a tree with root [r] by adding one leaf after the other *)
Inductive grows (r : string) : list (string * string) -> Prop :=
| g_nil : grows r []
| g_leaf : forall c p l, grows r l -> In p (verts r l) -> ~ In c (verts r l) ->
    grows r ((c, p) :: l).

Definition adjl (l : list (string * string)) (u v : string) : Prop :=
  In (u, v) l \/ In (v, u) l.

(** ** walks *)
Lemma walk_mono : forall (R S : string -> string -> Prop) a p b,
  (forall u v, R u v -> S u v) -> walk R a p b -> walk S a p b.
Proof.
  intros R S a p b H W. induction W; [ constructor | econstructor; eauto ].
Qed.

Lemma walk_head : forall R a p b, walk R a p b -> exists q, p = a :: q.
Proof. intros R a p b W. destruct W; eauto. Qed.

Lemma walk_in_start : forall R a p b, walk R a p b -> In a p.
Proof. intros R a p b W. destruct (walk_head _ _ _ _ W) as [q ->]. left; reflexivity. Qed.

Lemma walk_in_end : forall R a p b, walk R a p b -> In b p.
Proof. intros R a p b W. induction W; [ left; reflexivity | right; assumption ]. Qed.

Lemma walk_nodes : forall (R : string -> string -> Prop) (V : string -> Prop) a p b,
  (forall u v, R u v -> V u /\ V v) -> V a -> walk R a p b -> forall x, In x p -> V x.
Proof.
  intros R V a p b H Va W. induction W as [a|a b c p Rab W IH]; intros x Hx.
  - destruct Hx as [<-|[]]; assumption.
  - destruct Hx as [<-|Hx]; [ assumption | ]. apply IH; [ apply (H _ _ Rab) | assumption ].
Qed.

Lemma walk_trans : forall R a p b q c,
  walk R a p b -> walk R b q c -> walk R a (p ++ tl q) c.
Proof.
  intros R a p b q c W. revert q c. induction W as [a|a b c p Rab W IH]; intros q d W2.
  - destruct (walk_head _ _ _ _ W2) as [q' ->]. cbn [app tl]. assumption.
  - cbn [app]. econstructor; eauto.
Qed.

Lemma walk_snoc : forall (R : string -> string -> Prop) a p b c, walk R a p b -> R b c -> walk R a (p ++ [c]) c.
Proof.
  intros R a p b c W H. change [c] with (tl [b; c]).
  eapply walk_trans; [ exact W | ]. econstructor; [ exact H | constructor ].
Qed.

Lemma walk_rev : forall (R : string -> string -> Prop) a p b,
  (forall u v, R u v -> R v u) -> walk R a p b -> walk R b (rev p) a.
Proof.
  intros R a p b Hs W. induction W as [a|a b c p Rab W IH].
  - constructor.
  - cbn [rev]. eapply walk_snoc; [ exact IH | apply Hs; exact Rab ].
Qed.

Lemma walk_suffix : forall R a p b x, walk R a p b -> In x p ->
  exists q q1, walk R x q b /\ p = q1 ++ q.
Proof.
  intros R a p b x W. induction W as [a|a b c p Rab W IH]; intros Hx.
  - destruct Hx as [<-|[]]. exists [a], []. split; [ constructor | reflexivity ].
  - destruct (string_dec x a) as [->|Hn].
    + exists (a :: p), []. split; [ econstructor; eauto | reflexivity ].
    + destruct Hx as [E|Hx]; [ congruence | ].
      destruct (IH Hx) as (q & q1 & Wq & E). exists q, (a :: q1).
      split; [ assumption | rewrite E; reflexivity ].
Qed.

Lemma walk_simple : forall R a p b, walk R a p b ->
  exists q, simple_path R a q b /\ incl q p.
Proof.
  intros R a p b W. induction W as [a|a b c p Rab W IH].
  - exists [a]. split; [ | apply incl_refl ]. split; [ constructor | ].
    constructor; [ intros [] | constructor ].
  - destruct IH as (q & [Wq Nq] & Iq).
    destruct (in_dec string_dec a q) as [Ha|Ha].
    + destruct (walk_suffix _ _ _ _ _ Wq Ha) as (q2 & q1 & W2 & E).
      exists q2. split.
      * split; [ assumption | ]. subst q.
        clear -Nq. induction q1 as [|x q1 IH]; [ assumption | ]. apply IH.
        cbn [app] in Nq. inversion Nq; assumption.
      * intros x Hx. right. apply Iq. subst q. apply in_or_app; right; assumption.
    + exists (a :: q). split.
      * split; [ econstructor; eauto | constructor; assumption ].
      * intros x [<-|Hx]; [ left; reflexivity | right; apply Iq; assumption ].
Qed.

(** ** trees *)
Lemma grows_ends : forall r l, grows r l -> forall c p, In (c, p) l ->
  In c (verts r l) /\ In p (verts r l) /\ c <> p /\ c <> r.
Proof.
  intros r l G. induction G as [|c0 p0 l G IH Hp Hc]; intros c p H; [ destruct H | ].
  destruct H as [E|H].
  - injection E as -> ->. repeat split.
    + right; left; reflexivity.
    + destruct Hp as [<-|Hp]; [ left; reflexivity | right; right; assumption ].
    + intros ->. apply Hc. assumption.
    + intros ->. apply Hc. left; reflexivity.
  - destruct (IH _ _ H) as (A & B & C & Dd). repeat split; [ | | assumption | assumption ].
    + destruct A as [<-|A]; [ left; reflexivity | right; right; assumption ].
    + destruct B as [<-|B]; [ left; reflexivity | right; right; assumption ].
Qed.

Lemma grows_nodup : forall r l, grows r l -> NoDup (verts r l).
Proof.
  intros r l G. induction G as [|c p l G IH Hp Hc].
  - constructor; [ intros [] | constructor ].
  - unfold verts in *. cbn [map fst]. inversion IH as [|? ? Hr Hl]; subst.
    constructor.
    + intros [E|H]; [ apply Hc; left; symmetry; assumption | contradiction ].
    + constructor; [ | assumption ]. intros H. apply Hc. right; assumption.
Qed.

Lemma grows_parent_unique : forall r l, grows r l -> forall c p q,
  In (c, p) l -> In (c, q) l -> p = q.
Proof.
  intros r l G. induction G as [|c0 p0 l G IH Hp Hc]; intros c p q H1 H2; [ destruct H1 | ].
  destruct H1 as [E1|H1]; destruct H2 as [E2|H2].
  - congruence.
  - injection E1 as -> ->. exfalso. apply Hc. apply (grows_ends _ _ G _ _ H2).
  - injection E2 as -> ->. exfalso. apply Hc. apply (grows_ends _ _ G _ _ H1).
  - eapply IH; eassumption.
Qed.

Lemma grows_antisym : forall r l, grows r l -> forall u v, In (u, v) l -> ~ In (v, u) l.
Proof.
  intros r l G. induction G as [|c p l G IH Hp Hc]; intros u v H1 H2; [ destruct H1 | ].
  destruct H1 as [E1|H1]; destruct H2 as [E2|H2].
  - injection E1 as Ea Eb. injection E2 as Ec Ed. subst. contradiction.
  - injection E1 as -> ->. apply Hc. apply (grows_ends _ _ G _ _ H2).
  - injection E2 as -> ->. apply Hc. apply (grows_ends _ _ G _ _ H1).
  - eapply IH; eassumption.
Qed.

Lemma adjl_sym : forall l u v, adjl l u v -> adjl l v u.
Proof. intros l u v [H|H]; [ right | left ]; assumption. Qed.

Lemma adjl_verts : forall r l, grows r l -> forall u v, adjl l u v ->
  In u (verts r l) /\ In v (verts r l).
Proof.
  intros r l G u v [H|H]; destruct (grows_ends _ _ G _ _ H) as (A & B & _); auto.
Qed.

Lemma adjl_cons : forall x l u v, adjl l u v -> adjl (x :: l) u v.
Proof. intros x l u v [H|H]; [ left | right ]; right; assumption. Qed.

(** the newest vertex is a leaf *)
Lemma leaf_adj : forall r l c p, grows r ((c, p) :: l) -> forall v,
  adjl ((c, p) :: l) c v -> v = p.
Proof.
  intros r l c p G v H. inversion G as [|? ? ? G' Hp Hc]; subst.
  destruct H as [[E|H]|[E|H]].
  - congruence.
  - exfalso. apply Hc. apply (grows_ends _ _ G' _ _ H).
  - injection E as -> ->. exfalso. apply Hc. assumption.
  - exfalso. apply Hc. apply (grows_ends _ _ G' _ _ H).
Qed.

Lemma adj_without_leaf : forall c p l u v,
  adjl ((c, p) :: l) u v -> u <> c -> v <> c -> adjl l u v.
Proof.
  intros c p l u v [[E|H]|[E|H]] Hu Hv.
  - congruence.
  - left; assumption.
  - congruence.
  - right; assumption.
Qed.

Lemma simple_avoids_leaf : forall r l c p0, grows r ((c, p0) :: l) ->
  forall a p b, walk (adjl ((c, p0) :: l)) a p b -> NoDup p -> a <> c -> b <> c ->
  ~ In c p /\ walk (adjl l) a p b.
Proof.
  intros r l c p0 G a p b W. induction W as [a|a m b p Ram W IH]; intros N Ha Hb.
  - split; [ intros [E|[]]; congruence | constructor ].
  - inversion N as [|? ? Nin N']; subst.
    destruct (string_dec m c) as [->|Hm].
    + exfalso. assert (a = p0) as -> by (eapply leaf_adj; [ exact G | apply adjl_sym; exact Ram ]).
      inversion W as [x E1 E2|x y z q Rxy Wy E1 E2 E3].
      * subst. congruence.
      * subst. apply Nin. right.
        assert (y = p0) as <- by (eapply leaf_adj; [ exact G | exact Rxy ]).
        eapply walk_in_start; eassumption.
    + destruct (IH N' Hm Hb) as [Nc Wl]. split.
      * intros [E|H]; [ congruence | contradiction ].
      * econstructor; [ | exact Wl ]. eapply adj_without_leaf; eauto.
Qed.

Lemma rev_nodup : forall (p : list string), NoDup p -> NoDup (rev p).
Proof. intros p H. apply NoDup_rev. assumption. Qed.

Lemma simple_path_unique : forall r l, grows r l -> forall a b p q,
  simple_path (adjl l) a p b -> simple_path (adjl l) a q b -> p = q.
Proof.
  intros r l G. induction G as [|c p0 l G IH Hp Hc]; intros a b p q [Wp Np] [Wq Nq].
  - inversion Wp as [x|x y z t R W]; subst.
    + inversion Wq as [x|x y z t R W]; subst; [ reflexivity | destruct R as [[]|[]] ].
    + destruct R as [[]|[]].
  - assert (G1 : grows r ((c, p0) :: l)) by (constructor; assumption).
    assert (from_leaf : forall b p, walk (adjl ((c, p0) :: l)) c p b -> NoDup p -> b <> c ->
              exists p', p = c :: p' /\ walk (adjl l) p0 p' b /\ NoDup p').
    { intros b' p' W N Hb. inversion W as [x E1 E2|x y z t R W' E1 E2 E3]; subst; [ congruence | ].
      assert (y = p0) as -> by (eapply leaf_adj; [ exact G1 | exact R ]).
      inversion N as [|? ? Nin N']; subst.
      assert (p0 <> c) by (intros ->; contradiction).
      destruct (simple_avoids_leaf _ _ _ _ G1 _ _ _ W' N') as [_ W2]; auto.
      exists t. auto. }
    destruct (string_dec a c) as [->|Ha]; destruct (string_dec b c) as [->|Hb].
    + (* both ends are the leaf: only the one element path is simple *)
      assert (forall p, walk (adjl ((c, p0) :: l)) c p c -> NoDup p -> p = [c]) as One.
      { intros p' W N. inversion W as [x E1 E2|x y z t R W' E1 E2 E3]; subst; [ reflexivity | ].
        exfalso. inversion N; subst. apply H1. eapply walk_in_end; eassumption. }
      rewrite (One p Wp Np), (One q Wq Nq). reflexivity.
    + destruct (from_leaf _ _ Wp Np Hb) as (p' & -> & Wp' & Np').
      destruct (from_leaf _ _ Wq Nq Hb) as (q' & -> & Wq' & Nq').
      f_equal. eapply IH; split; eassumption.
    + assert (Wpr := walk_rev _ _ _ _ (adjl_sym _) Wp).
      assert (Wqr := walk_rev _ _ _ _ (adjl_sym _) Wq).
      destruct (from_leaf _ _ Wpr (rev_nodup _ Np) Ha) as (p' & Ep & Wp' & Np').
      destruct (from_leaf _ _ Wqr (rev_nodup _ Nq) Ha) as (q' & Eq & Wq' & Nq').
      assert (p' = q') by (eapply IH; split; eassumption). subst q'.
      rewrite <- (rev_involutive p), <- (rev_involutive q), Ep, Eq. reflexivity.
    + destruct (simple_avoids_leaf _ _ _ _ G1 _ _ _ Wp Np Ha Hb) as [_ Wp'].
      destruct (simple_avoids_leaf _ _ _ _ G1 _ _ _ Wq Nq Ha Hb) as [_ Wq'].
      eapply IH; split; eassumption.
Qed.

(** the path to the root starts with the parent *)
Lemma root_path : forall r l, grows r l -> forall x, In x (verts r l) ->
  exists p, simple_path (adjl l) x p r /\ incl p (verts r l).
Proof.
  intros r l G. induction G as [|c p0 l G IH Hp Hc]; intros x Hx.
  - destruct Hx as [<-|[]]. exists [r]. split; [ | apply incl_refl ].
    split; [ constructor | constructor; [ intros [] | constructor ] ].
  - assert (incl (verts r l) (verts r ((c, p0) :: l))) as I.
    { intros z [<-|Hz]; [ left; reflexivity | right; right; assumption ]. }
    destruct (string_dec x c) as [->|Hn].
    + destruct (IH _ Hp) as (p & [W N] & Ip). exists (c :: p). split; [ split | ].
      * econstructor; [ left; left; reflexivity | ].
        eapply walk_mono; [ | exact W ]. intros; apply adjl_cons; assumption.
      * constructor; [ | assumption ]. intros Hin. apply Hc. apply Ip. assumption.
      * intros z [<-|Hz]; [ right; left; reflexivity | apply I, Ip; assumption ].
    + assert (In x (verts r l)) as Hx'.
      { destruct Hx as [<-|[E|Hx]]; [ left; reflexivity | cbn [fst] in E; congruence | right; assumption ]. }
      destruct (IH _ Hx') as (p & [W N] & Ip). exists p. split; [ split | ].
      * eapply walk_mono; [ | exact W ]. intros; apply adjl_cons; assumption.
      * assumption.
      * intros z Hz. apply I, Ip; assumption.
Qed.

Lemma root_path_parent : forall r l, grows r l -> forall x px, In (x, px) l ->
  exists p, simple_path (adjl l) x (x :: px :: p) r.
Proof.
  intros r l G. induction G as [|c p0 l G IH Hp Hc]; intros x px H; [ destruct H | ].
  assert (lift : forall a p, simple_path (adjl l) a p r -> simple_path (adjl ((c, p0) :: l)) a p r).
  { intros a p [W N]. split; [ | assumption ].
    eapply walk_mono; [ | exact W ]. intros; apply adjl_cons; assumption. }
  destruct H as [E|H].
  - injection E as -> ->.
    destruct (root_path _ _ G _ Hp) as (p & [W N] & Ip).
    destruct (walk_head _ _ _ _ W) as [q ->]. exists q. split.
    + econstructor; [ left; left; reflexivity | ]. apply (lift px (px :: q)). split; assumption.
    + constructor; [ | assumption ]. intros Hin. apply Hc, Ip. assumption.
  - destruct (IH _ _ H) as [p Sp]. exists p. apply lift. assumption.
Qed.

Lemma tree_connected : forall r l, grows r l -> forall a b,
  In a (verts r l) -> In b (verts r l) -> exists p, simple_path (adjl l) a p b.
Proof.
  intros r l G a b Ha Hb.
  destruct (root_path _ _ G _ Ha) as (p & [Wp _] & _).
  destruct (root_path _ _ G _ Hb) as (q & [Wq _] & _).
  assert (W := walk_trans _ _ _ _ _ _ Wp (walk_rev _ _ _ _ (adjl_sym _) Wq)).
  destruct (walk_simple _ _ _ _ W) as (s & S & _). eauto.
Qed.

Lemma simple_path_exists_unique : forall r l, grows r l -> forall a b,
  In a (verts r l) -> In b (verts r l) ->
  exists p, simple_path (adjl l) a p b /\ forall q, simple_path (adjl l) a q b -> q = p.
Proof.
  intros r l G a b Ha Hb. destruct (tree_connected _ _ G _ _ Ha Hb) as [p Sp].
  exists p. split; [ assumption | ]. intros q Sq. eapply simple_path_unique; eassumption.
Qed.

(** ** re-rooting *)
Lemma reroot : forall r l, grows r l -> forall m, In m (verts r l) ->
  exists l', grows m l' /\ (forall u v, adjl l' u v <-> adjl l u v) /\
             (forall x, In x (verts m l') <-> In x (verts r l)).
Proof.
  intros r l G. induction G as [|c p l G IH Hp Hc]; intros m Hm.
  - destruct Hm as [<-|[]]. exists []. split; [ constructor | ]. split; intros; reflexivity.
  - destruct (string_dec m c) as [->|Hn].
    + destruct (IH _ Hp) as (l' & G' & A' & V').
      exists (l' ++ [(p, c)]).
      assert (Hc' : ~ In c (verts p l')) by (rewrite V'; assumption).
      assert (Gs : forall k, grows p k -> ~ In c (verts p k) -> grows c (k ++ [(p, c)]) /\
                (forall x, In x (verts c (k ++ [(p, c)])) <-> x = c \/ In x (verts p k))).
      { intros k Gk. induction Gk as [|c1 p1 k Gk IHk Hp1 Hc1]; intros Hck.
        - split.
          + cbn [app]. constructor; [ constructor | left; reflexivity | ].
            intros [E|[]]. apply Hck. left; symmetry; assumption.
          + intros x. cbn [app verts map fst]. unfold verts. cbn [map fst In].
            split; intros [H|[H|[]]]; subst; auto.
        - assert (Hck' : ~ In c (verts p k)).
          { intros [E|H]; apply Hck; [ left; assumption | right; right; assumption ]. }
          destruct (IHk Hck') as [Gk' Vk']. split.
          + cbn [app]. constructor; [ assumption | | ].
            * apply Vk'. right; assumption.
            * rewrite Vk'. intros [E|H]; [ | contradiction ]. subst.
              apply Hck. right; left; reflexivity.
          + intros x. change (verts c (((c1, p1) :: k) ++ [(p, c)]))
              with (c :: c1 :: map fst (k ++ [(p, c)])).
            specialize (Vk' x). unfold verts in Vk' |- *. cbn [map fst In] in Vk' |- *.
            tauto. }
      destruct (Gs l' G' Hc') as [Gr Vr]. split; [ assumption | ]. split.
      * intros u v. unfold adjl. rewrite !in_app_iff. cbn [In].
        specialize (A' u v). unfold adjl in A'.
        split.
        -- intros [[H|[E|[]]]|[H|[E|[]]]].
           ++ destruct (proj1 A' (or_introl H)) as [K|K]; auto.
           ++ injection E as -> ->. right; left; reflexivity.
           ++ destruct (proj1 A' (or_intror H)) as [K|K]; auto.
           ++ injection E as -> ->. left; left; reflexivity.
        -- intros [[E|H]|[E|H]].
           ++ injection E as -> ->. right; right; left; reflexivity.
           ++ destruct (proj2 A' (or_introl H)) as [K|K]; auto.
           ++ injection E as -> ->. left; right; left; reflexivity.
           ++ destruct (proj2 A' (or_intror H)) as [K|K]; auto.
      * intros x. rewrite Vr, V'. unfold verts. cbn [map fst In].
        intuition congruence.
    + assert (Hm' : In m (verts r l)).
      { destruct Hm as [<-|[E|Hm]]; [ left; reflexivity | cbn [fst] in E; congruence | right; assumption ]. }
      destruct (IH _ Hm') as (l' & G' & A' & V').
      exists ((c, p) :: l'). split; [ | split ].
      * constructor; [ assumption | apply V'; assumption | rewrite V'; assumption ].
      * intros u v. specialize (A' u v). unfold adjl in *. cbn [In]. tauto.
      * intros x. specialize (V' x). unfold verts in *. cbn [map fst In] in *. tauto.
Qed.

(** ** grafting a second tree *)
Lemma graft : forall r l, grows r l -> forall m k, grows m k -> In m (verts r l) ->
  (forall x, In x (verts r l) -> In x (verts m k) -> x = m) ->
  grows r (k ++ l).
Proof.
  intros r l G m k Gk. induction Gk as [|c p k Gk IH Hp Hc]; intros Hm Hi.
  - assumption.
  - cbn [app]. assert (Hi' : forall x, In x (verts r l) -> In x (verts m k) -> x = m).
    { intros x H1 H2. apply Hi; [ assumption | ].
      destruct H2 as [<-|H2]; [ left; reflexivity | right; right; assumption ]. }
    specialize (IH Hm Hi').
    assert (V : forall x, In x (verts r (k ++ l)) <-> In x (verts r l) \/ In x (map fst k)).
    { intros x. unfold verts. rewrite map_app. cbn [In]. rewrite in_app_iff. tauto. }
    constructor; [ assumption | | ].
    + apply V. destruct Hp as [<-|Hp]; [ left; assumption | right; assumption ].
    + rewrite V. intros [H|H].
      * assert (c = m) as ->.
        { apply Hi; [ assumption | right; left; reflexivity ]. }
        apply Hc. left; reflexivity.
      * apply Hc. right; assumption.
Qed.

Lemma adjl_app : forall k l u v, adjl (k ++ l) u v <-> adjl k u v \/ adjl l u v.
Proof. intros k l u v. unfold adjl. rewrite !in_app_iff. tauto. Qed.

(** ** removing a set of vertices that is closed towards the children *)
Lemma prune : forall r l (keep : string -> bool), grows r l -> keep r = true ->
  (forall c p, In (c, p) l -> keep c = true -> keep p = true) ->
  grows r (filter (fun cp => keep (fst cp)) l).
Proof.
  intros r l keep G. induction G as [|c p l G IH Hp Hc]; intros Hr Hk; [ constructor | ].
  assert (Hk' : forall c p, In (c, p) l -> keep c = true -> keep p = true)
    by (intros; eapply Hk; [ right; eassumption | assumption ]).
  cbn [filter fst]. destruct (keep c) eqn:Kc.
  - assert (Kp : keep p = true) by (eapply Hk; [ left; reflexivity | assumption ]).
    constructor.
    + apply IH; assumption.
    + destruct Hp as [<-|Hp]; [ left; reflexivity | right ].
      apply in_map_iff in Hp. destruct Hp as ((c1, p1) & E & H1). cbn [fst] in E. subst.
      apply in_map_iff. exists (p, p1). split; [ reflexivity | ].
      apply filter_In. split; assumption.
    + intros [E|H]; apply Hc; [ left; assumption | right ].
      apply in_map_iff in H. destruct H as (y & E & H). apply filter_In in H.
      apply in_map_iff. exists y. tauto.
  - apply IH; assumption.
Qed.

Lemma prune_verts : forall r l keep, keep r = true -> forall x,
  In x (verts r (filter (fun cp => keep (fst cp)) l)) <-> In x (verts r l) /\ keep x = true.
Proof.
  intros r l keep Hr x. unfold verts. cbn [In]. rewrite !in_map_iff. split.
  - intros [<-|((c, p) & E & H)]; [ auto | ].
    apply filter_In in H. cbn [fst] in *. subst. destruct H as [H K]. split; [ | assumption ].
    right. exists (x, p). auto.
  - intros [[<-|((c, p) & E & H)] K]; [ auto | ]. cbn [fst] in E. subst.
    right. exists (x, p). split; [ reflexivity | ]. apply filter_In. auto.
Qed.

Lemma prune_adj : forall r l keep, grows r l ->
  (forall c p, In (c, p) l -> keep c = true -> keep p = true) -> forall u v,
  adjl (filter (fun cp => keep (fst cp)) l) u v <-> adjl l u v /\ keep u = true /\ keep v = true.
Proof.
  intros r l keep G Hk u v. unfold adjl. rewrite !filter_In. cbn [fst]. split.
  - intros [[H K]|[H K]]; (split; [ auto | ]).
    + split; [ assumption | eapply Hk; eassumption ].
    + split; [ eapply Hk; eassumption | assumption ].
  - intros [[H|H] [Ku Kv]]; auto.
Qed.

(** ** levels below a vertex *)
Inductive lev (l : list (string * string)) : nat -> string -> string -> Prop :=
| lev0 : forall x, lev l 0 x x
| levS : forall k x p y, lev l k x p -> In (y, p) l -> lev l (S k) x y.

(** [x] is an ancestor of [y] (or equal) *)
Definition anc (l : list (string * string)) (x y : string) : Prop := exists k, lev l k x y.

Fixpoint rank (l : list (string * string)) (x : string) : nat :=
  match l with
  | [] => 0
  | (c, _) :: r => if String.eqb x c then S (List.length r) else rank r x
  end.

Lemma rank_le : forall l x, rank l x <= List.length l.
Proof.
  induction l as [|[c p] l IH]; intros x; cbn [rank List.length]; [ lia | ].
  destruct (String.eqb x c); [ lia | ]. specialize (IH x). lia.
Qed.

Lemma rank_parent : forall r l, grows r l -> forall c p, In (c, p) l -> rank l p < rank l c.
Proof.
  intros r l G. induction G as [|c0 p0 l G IH Hp Hc]; intros c p H; [ destruct H | ].
  cbn [rank]. destruct H as [E|H].
  - injection E as -> ->. rewrite String.eqb_refl.
    destruct (String.eqb_spec p c) as [->|_]; [ contradiction | ].
    pose proof (rank_le l p). lia.
  - destruct (grows_ends _ _ G _ _ H) as (A & B & _).
    destruct (String.eqb_spec p c0) as [->|_]; [ contradiction | ].
    destruct (String.eqb_spec c c0) as [->|_]; [ contradiction | ].
    apply IH. assumption.
Qed.

Lemma lev_rank : forall r l, grows r l -> forall k x y, lev l k x y -> rank l x + k <= rank l y.
Proof.
  intros r l G k x y H. induction H as [x|k x p y H IH Hin]; [ lia | ].
  pose proof (rank_parent _ _ G _ _ Hin). lia.
Qed.

Lemma lev_bound : forall r l, grows r l -> forall k x y, lev l k x y -> k <= List.length l.
Proof.
  intros r l G k x y H. pose proof (lev_rank _ _ G _ _ _ H). pose proof (rank_le l y). lia.
Qed.

Lemma lev_self : forall r l, grows r l -> forall k x, lev l k x x -> k = 0.
Proof. intros r l G k x H. pose proof (lev_rank _ _ G _ _ _ H). lia. Qed.

Lemma lev_unique : forall r l, grows r l -> forall k x y, lev l k x y ->
  forall j, lev l j x y -> j = k.
Proof.
  intros r l G k. induction k as [|k IH]; intros x y H j Hj.
  - inversion H; subst. eapply lev_self; eassumption.
  - inversion H as [|? ? p ? H1 Hin]; subst. destruct j as [|j].
    + exfalso. inversion Hj; subst. pose proof (lev_self _ _ G _ _ H). discriminate.
    + inversion Hj as [|? ? p' ? H2 Hin']; subst.
      assert (p' = p) as -> by (eapply grows_parent_unique; eassumption).
      f_equal. eapply IH; eassumption.
Qed.

Lemma anc_dec_path : forall r l, grows r l -> forall x y p,
  simple_path (adjl l) y p r -> In x p <-> anc l x y.
Proof.
  intros r l G x y p S. split.
  - revert S. revert y. induction p as [|a p IH]; intros y [W N] Hx; [ destruct Hx | ].
    destruct (walk_head _ _ _ _ W) as [q E]. injection E as -> ->.
    destruct (string_dec x y) as [->|Hn]; [ exists 0; constructor | ].
    destruct Hx as [E|Hx]; [ congruence | ].
    inversion W as [z E1 E2|z b c t R W' E1 E2 E3]; subst; [ destruct Hx | ].
    inversion N as [|? ? Nin N']; subst.
    destruct (IH b (conj W' N') Hx) as [k Hk].
    destruct R as [R|R].
    + exists (S k). econstructor; eassumption.
    + (* b would be a child of y: then the path from b to the root starts with b, y *)
      exfalso. destruct (root_path_parent _ _ G _ _ R) as [s Ss].
      assert (q = b :: y :: s) by (eapply simple_path_unique; [ exact G | split; eassumption | exact Ss ]).
      subst q. apply Nin. right; left; reflexivity.
  - intros [k Hk]. revert p S. induction Hk as [y|k x pp y H IH Hin]; intros p S.
    + destruct S as [W _]. eapply walk_in_start; eassumption.
    + destruct (root_path_parent _ _ G _ _ Hin) as [s Ss].
      assert (p = y :: pp :: s) by (eapply simple_path_unique; eassumption). subst p.
      right. apply IH. destruct Ss as [Ws Ns]. inversion Ws as [|z b c t R W' E1 E2 E3]; subst.
      inversion Ns; subst. split; [ | assumption ].
      destruct (walk_head _ _ _ _ W') as [q E]. injection E as <- <-. assumption.
Qed.

(** a walk that leaves the part below [x] passes through [x] *)
Lemma leave_subtree : forall r l, grows r l -> forall x (R : string -> string -> Prop),
  (forall u v, R u v -> adjl l u v) -> forall a p b,
  walk R a p b -> anc l x a -> ~ anc l x b -> In x p.
Proof.
  intros r l G x R HR a p b W. induction W as [a|a m b p Ram W IH]; intros Ha Hb.
  - contradiction.
  - destruct (HR _ _ Ram) as [H|H].
    + (* m is the parent of a *)
      destruct Ha as [k Hk]. inversion Hk as [|k' ? p' ? Hk' Hin]; subst; [ left; reflexivity | ].
      assert (p' = m) as -> by (eapply grows_parent_unique; eassumption).
      right. apply IH; [ exists k'; assumption | assumption ].
    + (* m is a child of a *)
      right. apply IH; [ | assumption ]. destruct Ha as [k Hk]. exists (S k).
      econstructor; eassumption.
Qed.

Lemma anc_refl : forall l x, anc l x x.
Proof. intros l x. exists 0. constructor. Qed.

Lemma anc_child : forall l x c p, In (c, p) l -> anc l x p -> anc l x c.
Proof. intros l x c p H [k Hk]. exists (S k). econstructor; eassumption. Qed.

Lemma anc_root : forall r l, grows r l -> forall x, anc l x r -> x = r.
Proof.
  intros r l G x [k Hk]. inversion Hk as [|k' ? p ? H Hin]; subst; [ reflexivity | ].
  exfalso. apply (grows_ends _ _ G _ _ Hin). reflexivity.
Qed.

(** an induced connected part of a tree is a tree *)
Lemma connected_part : forall r l (V : string -> bool), grows r l -> V r = true ->
  (forall a, In a (verts r l) -> V a = true ->
     exists p, walk (fun u v => adjl l u v /\ V u = true /\ V v = true) a p r) ->
  grows r (filter (fun cp => V (fst cp)) l) /\
  (forall c p, In (c, p) l -> V c = true -> V p = true).
Proof.
  intros r l V G Vr HC.
  assert (K : forall c p, In (c, p) l -> V c = true -> V p = true).
  { intros c p Hin Vc. destruct (grows_ends _ _ G _ _ Hin) as (A & B & _).
    destruct (HC _ A Vc) as [w W]. destruct (walk_simple _ _ _ _ W) as (q & [Wq Nq] & _).
    destruct (root_path_parent _ _ G _ _ Hin) as [s Ss].
    assert (q = c :: p :: s).
    { eapply simple_path_unique; [ exact G | split | exact Ss ]; [ | assumption ].
      eapply walk_mono; [ | exact Wq ]. intros u v (H & _); assumption. }
    subst q. eapply (walk_nodes _ (fun x => V x = true)); [ | exact Vc | exact Wq | right; left; reflexivity ].
    intros u v (_ & H); assumption. }
  split; [ apply prune; assumption | assumption ].
Qed.
