(** Lemmas about trees and the converter of directed graphs. *)
From Coq Require Import List String Bool Arith Lia.
From Verif Require Import Base GraphModel GraphSpec.
Import ListNotations.

(** * Trees *)
Definition hits (n : string) (e : string * string) : nat :=
  (if string_dec (fst e) n then 1 else 0) + (if string_dec (snd e) n then 1 else 0).
Definition deg (n : string) (es : list (string * string)) : nat := list_sum (map (hits n) es).

Lemma sum_zero : forall {B : Type} (l : list B), list_sum (map (fun _ => 0) l) = 0.
Proof. induction l; simpl; auto. Qed.
Lemma sum_add : forall {B : Type} (f g : B -> nat) l, list_sum (map (fun x => f x + g x) l) = list_sum (map f l) + list_sum (map g l).
Proof. induction l; simpl; auto. lia. Qed.
Lemma sum_one : forall x (l : list string), NoDup l -> In x l -> list_sum (map (fun n => if string_dec x n then 1 else 0) l) = 1.
Proof.
  induction l as [|y l IH]; simpl; intros N I; [tauto|]. inversion N; subst. destruct (string_dec x y) as [->|NE].
  - assert (list_sum (map (fun n => if string_dec y n then 1 else 0) l) = 0); [|lia].
    clear -H1. induction l as [|z l IH]; simpl; auto. destruct (string_dec y z); [subst; exfalso; apply H1; left; auto|].
    apply IH. intro. apply H1. right. auto.
  - destruct I as [I|I]; [congruence|]. rewrite IH; auto.
Qed.

Lemma handshake : forall ns es, NoDup ns -> (forall u v, In (u, v) es -> In u ns /\ In v ns) ->
  list_sum (map (fun n => deg n es) ns) = 2 * List.length es.
Proof.
  intros ns es N. induction es as [|[u v] es IH]; intros E.
  - unfold deg. simpl. apply sum_zero.
  - unfold deg. simpl map. simpl list_sum at 1.
    change (list_sum (map (fun n => hits n (u, v) + deg n es) ns) = 2 * S (List.length es)).
    rewrite sum_add. rewrite IH by (intros; apply E; right; auto). unfold hits. rewrite sum_add. simpl fst. simpl snd.
    destruct (E u v (or_introl eq_refl)) as [Iu Iv]. rewrite !sum_one by auto. lia.
Qed.

Lemma sum_ge : forall (f : string -> nat) l, (forall x, In x l -> 2 <= f x) -> 2 * List.length l <= list_sum (map f l).
Proof.
  induction l as [|x l IH]; simpl; intros H; auto. pose proof (H x (or_introl eq_refl)). assert (2 * List.length l <= list_sum (map f l)) by (apply IH; intros; apply H; auto). lia.
Qed.
Lemma low_degree : forall ns es, NoDup ns -> (forall u v, In (u, v) es -> In u ns /\ In v ns) ->
  S (List.length es) = List.length ns -> exists n, In n ns /\ deg n es <= 1.
Proof.
  intros ns es N E C.
  destruct (existsb (fun n => Nat.leb (deg n es) 1) ns) eqn:X.
  - apply existsb_exists in X. destruct X as [n [I L]]. apply Nat.leb_le in L. eauto.
  - exfalso. assert (G : forall x, In x ns -> 2 <= deg x es).
    { intros x I. destruct (Nat.leb (deg x es) 1) eqn:L; [|apply Nat.leb_gt in L; lia].
      assert (existsb (fun n => Nat.leb (deg n es) 1) ns = true); [|congruence]. apply existsb_exists. eauto. }
    apply sum_ge in G. rewrite handshake in G by auto. lia.
Qed.

Lemma deg_zero : forall n es, deg n es = 0 -> forall u v, In (u, v) es -> u <> n /\ v <> n.
Proof.
  induction es as [|[a b] es IH]; simpl; intros H u v I; [tauto|]. unfold deg in H. simpl in H. unfold hits in H. simpl in H.
  destruct (string_dec a n), (string_dec b n); try lia.
  destruct I as [I|I]; [injection I as <- <-; auto|]. apply IH; auto.
Qed.
Lemma deg_one : forall n es, deg n es = 1 -> exists es1 e es2, es = es1 ++ e :: es2 /\
  (exists p, p <> n /\ (e = (n, p) \/ e = (p, n))) /\ (forall u v, In (u, v) (es1 ++ es2) -> u <> n /\ v <> n).
Proof.
  induction es as [|[a b] es IH]; intros H; [discriminate|]. unfold deg in H. simpl in H.
  change (hits n (a, b) + deg n es = 1) in H.
  destruct (Nat.eq_dec (hits n (a, b)) 0) as [Z|Z].
  - destruct IH as [es1 [e [es2 [-> [P Q]]]]]; [lia|]. exists ((a, b) :: es1), e, es2. split; auto. split; auto.
    intros u v I. simpl in I. destruct I as [I|I]; [|apply Q; auto]. injection I as <- <-. unfold hits in Z. simpl in Z.
    destruct (string_dec a n), (string_dec b n); try lia. auto.
  - exists [], (a, b), es. split; auto. assert (D : deg n es = 0) by lia. split; [|exact (deg_zero _ _ D)].
    assert (hits n (a, b) = 1) by lia. unfold hits in H0. simpl in H0.
    destruct (string_dec a n), (string_dec b n); try lia; subst; eauto.
Qed.

Lemma reach_trans : forall es a b c, reach es a b -> reach es b c -> reach es a c.
Proof. intros es a b c P Q. revert P. induction Q as [b|b c d Q IH S]; intros P; [exact P|]. exact (r_step es a c d (IH P) S). Qed.
Lemma step_sym : forall es a b, step es a b -> step es b a.
Proof. unfold step. tauto. Qed.
Lemma reach_sym : forall es a b, reach es a b -> reach es b a.
Proof. intros es a b P. induction P; [constructor|]. eapply reach_trans; [|exact IHP]. econstructor; [constructor|]. apply step_sym. auto. Qed.
Lemma reach_first : forall es a b, reach es a b -> a <> b -> exists c, step es a c.
Proof.
  intros es a b P. induction P as [|a b c P IH S]; intros NE; [congruence|].
  destruct (string_dec a b) as [->|N]; eauto.
Qed.

Lemma remove_length : forall x (l : list string), NoDup l -> In x l -> S (List.length (remove string_dec x l)) = List.length l.
Proof.
  induction l as [|y l IH]; simpl; intros N I; [tauto|]. inversion N; subst. destruct (string_dec x y) as [->|NE].
  - rewrite notin_remove; auto.
  - destruct I as [I|I]; [congruence|]. simpl. rewrite IH; auto.
Qed.
Lemma remove_nodup : forall x (l : list string), NoDup l -> NoDup (remove string_dec x l).
Proof.
  induction l as [|y l IH]; simpl; intros N; [constructor|]. inversion N; subst. destruct (string_dec x y); auto.
  constructor; auto. intro I. apply in_remove in I. tauto.
Qed.

(** a tree with more than one node is a smaller tree with a leaf *)
Lemma leaf : forall ns es, NoDup ns -> (forall u v, In (u, v) es -> In u ns /\ In v ns) -> tree ns es -> 2 <= List.length ns ->
  exists l p es', In l ns /\ In p ns /\ p <> l /\
    (forall u v, step es u v -> (u = l /\ v = p) \/ (u = p /\ v = l) \/ (u <> l /\ v <> l /\ step es' u v)) /\
    (forall u v, In (u, v) es' -> In u (remove string_dec l ns) /\ In v (remove string_dec l ns)) /\
    tree (remove string_dec l ns) es'.
Proof.
  intros ns es N E [C L] T. destruct (low_degree ns es N E L) as [l [Il Dl]].
  assert (X : exists v, In v ns /\ l <> v).
  { destruct ns as [|a [|b ns]]; simpl in T; try lia. inversion N; subst. destruct (string_dec l a) as [->|NE].
    - exists b. split; [simpl; auto|]. intros ->. apply H1. left. auto.
    - exists a. split; [left; auto|auto]. }
  destruct X as [v [Iv NE]]. destruct (reach_first _ _ _ (C l v Il Iv) NE) as [q Sq].
  destruct (Nat.eq_dec (deg l es) 0) as [Z|Z].
  { exfalso. destruct Sq as [S|S]; apply (deg_zero _ _ Z) in S; tauto. }
  destruct (deg_one l es) as [es1 [e [es2 [-> [[p [Np Ep]] Q]]]]]; [lia|].
  assert (Ie : In e (es1 ++ e :: es2)) by (apply in_or_app; right; left; auto).
  assert (Ip : In p ns) by (destruct Ep as [-> | ->]; apply E in Ie; tauto).
  assert (R : forall u v, In (u, v) (es1 ++ e :: es2) -> (u, v) = e \/ In (u, v) (es1 ++ es2)).
  { intros a b I. rewrite in_app_iff in *. simpl in I. intuition. }
  assert (R' : forall u v, In (u, v) (es1 ++ es2) -> In (u, v) (es1 ++ e :: es2)).
  { intros a b I. rewrite in_app_iff in *. simpl. tauto. }
  assert (ST : forall a b, step (es1 ++ e :: es2) a b -> (a = l /\ b = p) \/ (a = p /\ b = l) \/ (a <> l /\ b <> l /\ step (es1 ++ es2) a b)).
  { intros a b [S|S]; apply R in S; destruct S as [S|S].
    - destruct Ep as [-> | ->]; injection S as -> ->; tauto.
    - right. right. destruct (Q _ _ S). unfold step. tauto.
    - destruct Ep as [-> | ->]; injection S as -> ->; tauto.
    - right. right. destruct (Q _ _ S). unfold step. tauto. }
  exists l, p, (es1 ++ es2). split; [auto|]. split; [auto|]. split; [auto|]. split; [exact ST|]. split.
  { intros a b I. destruct (Q _ _ I). apply R' in I. apply E in I. split; apply in_in_remove; tauto. }
  assert (RP : forall a b, reach (es1 ++ e :: es2) a b -> a = p -> b = l \/ reach (es1 ++ es2) p b).
  { intros a b P. induction P as [a|a b c P IH S]; intros ->; [right; constructor|].
    destruct (ST _ _ S) as [[-> ->]|[[-> ->]|[N1 [N2 S']]]]; [right; constructor|auto|].
    destruct (IH eq_refl); [contradiction|]. right. econstructor; eauto. }
  split.
  - intros a b Ia Ib. apply in_remove in Ia. apply in_remove in Ib. destruct Ia as [Ia Na], Ib as [Ib Nb].
    destruct (RP p a (C p a Ip Ia) eq_refl) as [?|Pa]; [contradiction|]. destruct (RP p b (C p b Ip Ib) eq_refl) as [?|Pb]; [contradiction|].
    eapply reach_trans; [apply reach_sym; exact Pa|exact Pb].
  - pose proof (remove_length l ns N Il). rewrite app_length in *. simpl in L. lia.
Qed.

(** walks that never turn back have at most [k] nodes *)
Fixpoint short (k : nat) (es : list (string * string)) (q : option string) (n : string) : Prop :=
  match k with
  | O => False
  | S k => forall m, step es n m -> q <> Some m -> short k es (Some n) m
  end.
Lemma short_mono : forall k es q n, short k es q n -> short (S k) es q n.
Proof. induction k; intros es q n H; [destruct H|]. intros m S N. apply IHk. exact (H m S N). Qed.
Lemma short_any : forall k es q n, short k es None n -> short k es q n.
Proof. destruct k; auto. intros es q n H m S N. apply H; [exact S|discriminate]. Qed.

Lemma short_leaf : forall es es' l p,
  (forall u v, step es u v -> (u = l /\ v = p) \/ (u = p /\ v = l) \/ (u <> l /\ v <> l /\ step es' u v)) -> p <> l ->
  forall k q n, n <> l -> short k es' q n -> short (S k) es q n.
Proof.
  intros es es' l p ST PL. induction k as [|k IH]; intros q n NL H; [destruct H|].
  intros m S N. destruct (ST _ _ S) as [[-> ->]|[[-> ->]|[_ [NM S']]]]; [contradiction| |].
  - intros m' S' N'. destruct (ST _ _ S') as [[_ ->]|[[-> _]|[X _]]]; congruence.
  - apply IH; [exact NM|exact (H m S' N)].
Qed.

Lemma tree_short : forall k ns es, List.length ns <= k -> NoDup ns -> (forall u v, In (u, v) es -> In u ns /\ In v ns) -> tree ns es ->
  forall n q, In n ns -> short (2 * k) es q n.
Proof.
  induction k as [|k IH]; intros ns es K N E T n q I. { destruct ns; simpl in K; [destruct I|lia]. }
  destruct (le_lt_dec 2 (List.length ns)) as [L|L].
  - destruct (leaf ns es N E T L) as [l [p [es' [Il [Ip [Np [ST [E' T']]]]]]]].
    pose proof (remove_length l ns N Il) as RL.
    assert (H : forall n q, In n (remove string_dec l ns) -> short (2 * k) es' q n).
    { apply IH; auto; [lia|]. apply remove_nodup. auto. }
    replace (2 * S k) with (S (S (2 * k))) by lia.
    destruct (string_dec n l) as [->|NE].
    + intros m S NQ. destruct (ST _ _ S) as [[_ ->]|[[-> _]|[X _]]]; [|congruence|congruence].
      eapply short_leaf; eauto. apply H. apply in_in_remove; auto.
    + apply short_mono. eapply short_leaf; eauto. apply H. apply in_in_remove; auto.
  - destruct T as [_ C]. destruct es as [|e es]; [|simpl in C; lia]. replace (2 * S k) with (S (S (2 * k))) by lia.
    intros m [S|S]; destruct S.
Qed.

(** * The converter *)
Lemma ename_eqb_eq : forall a b, ename_eqb a b = true <-> a = b.
Proof.
  intros [a b] [c d]. unfold ename_eqb. simpl. rewrite andb_true_iff, !String.eqb_eq. split; [intros [-> ->]; auto|intros H; injection H as -> ->; auto].
Qed.

Section Dict.
  Context {V : Type}.
  Lemma dget_in : forall n (d : dict V) v, dget n d = Some v -> In (n, v) d.
  Proof.
    induction d as [|[k w] d IH]; simpl; intros v H; [discriminate|].
    destruct (String.eqb n k) eqn:E; [apply String.eqb_eq in E; subst; injection H as ->; auto | auto].
  Qed.
  Lemma dget_some : forall n (d : dict V), In n (map fst d) -> exists v, dget n d = Some v.
  Proof.
    induction d as [|[k w] d IH]; simpl; intros H; [tauto|].
    destruct (String.eqb n k) eqn:E; [eauto | apply IH]. destruct H as [H|H]; auto. subst. rewrite String.eqb_refl in E. discriminate.
  Qed.
  Lemma in_dget : forall n (d : dict V) v, NoDup (map fst d) -> In (n, v) d -> dget n d = Some v.
  Proof.
    induction d as [|[k w] d IH]; simpl; intros v N H; [tauto|]. inversion N; subst.
    destruct H as [H|H]. { injection H as -> ->. rewrite String.eqb_refl. reflexivity. }
    destruct (String.eqb n k) eqn:E; [|auto]. apply String.eqb_eq in E. subst. exfalso. apply H2. apply (in_map fst) in H. exact H.
  Qed.
  Lemma dget_set : forall n m v (d : dict V), dget n (dset m v d) = if String.eqb n m then Some v else dget n d.
  Proof.
    intros n m v d. induction d as [|[k w] d IH]; simpl.
    - destruct (String.eqb n m); auto.
    - destruct (String.eqb m k) eqn:E; simpl.
      + apply String.eqb_eq in E. subst. destruct (String.eqb n k); auto.
      + destruct (String.eqb n k) eqn:F; auto. apply String.eqb_eq in F. subst. rewrite String.eqb_sym, E. auto.
  Qed.
  Lemma dget_app : forall n (d x : dict V), dget n (d ++ x) = match dget n d with Some v => Some v | None => dget n x end.
  Proof. induction d as [|[k w] d IH]; simpl; intros; auto. destruct (String.eqb n k); auto. Qed.
  Lemma dmem_get : forall n (d : dict V), dmem n d = match dget n d with Some _ => true | None => false end.
  Proof. reflexivity. Qed.
  Lemma dset_keys : forall n v (d : dict V), NoDup (map fst d) -> NoDup (map fst (dset n v d)).
  Proof.
    intros n v d. induction d as [|[k w] d IH]; simpl; intros N; [constructor; auto; constructor|]. inversion N; subst.
    destruct (String.eqb n k) eqn:E; simpl; [exact N|]. constructor; auto. intro I. apply H1.
    apply dget_some in I. destruct I as [x I]. rewrite dget_set in I. rewrite String.eqb_sym, E in I. apply dget_in in I. apply (in_map fst) in I. exact I.
  Qed.
End Dict.

Section Graph.
  Context {A : Type}.
  Notation attrs := (dict A).
  Implicit Types (g h : digraph A).

  Lemma eget_in : forall e (l : list (ename * attrs)) v, eget e l = Some v -> In (e, v) l.
  Proof.
    induction l as [|[k w] l IH]; simpl; intros v H; [discriminate|].
    destruct (ename_eqb e k) eqn:E; [apply ename_eqb_eq in E; subst; injection H as ->; auto | auto].
  Qed.
  Lemma eget_some : forall e (l : list (ename * attrs)), In e (map fst l) -> exists v, eget e l = Some v.
  Proof.
    induction l as [|[k w] l IH]; simpl; intros H; [tauto|].
    destruct (ename_eqb e k) eqn:E; [eauto | apply IH]. destruct H as [H|H]; auto. subst. rewrite (proj2 (ename_eqb_eq e e) eq_refl) in E. discriminate.
  Qed.
  Lemma in_eget : forall e (l : list (ename * attrs)) v, NoDup (map fst l) -> In (e, v) l -> eget e l = Some v.
  Proof.
    induction l as [|[k w] l IH]; simpl; intros v N H; [tauto|]. inversion N; subst.
    destruct H as [H|H]. { injection H as -> ->. rewrite (proj2 (ename_eqb_eq e e) eq_refl). reflexivity. }
    destruct (ename_eqb e k) eqn:E; [|auto]. apply ename_eqb_eq in E. subst. exfalso. apply H2. apply (in_map fst) in H. exact H.
  Qed.
  Lemma eget_set : forall n m v (d : list (ename * attrs)), eget n (eset m v d) = if ename_eqb n m then Some v else eget n d.
  Proof.
    intros n m v d. induction d as [|[k w] d IH]; simpl.
    - destruct (ename_eqb n m); auto.
    - destruct (ename_eqb m k) eqn:E; simpl.
      + apply ename_eqb_eq in E. subst. destruct (ename_eqb n k); auto.
      + destruct (ename_eqb n k) eqn:F; auto. apply ename_eqb_eq in F. subst.
        destruct (ename_eqb k m) eqn:X; auto. apply ename_eqb_eq in X. subst. rewrite (proj2 (ename_eqb_eq m m) eq_refl) in E. discriminate.
  Qed.
  Lemma eset_keys : forall n v (d : list (ename * attrs)), NoDup (map fst d) -> NoDup (map fst (eset n v d)).
  Proof.
    intros n v d. induction d as [|[k w] d IH]; simpl; intros N; [constructor; auto; constructor|]. inversion N; subst.
    destruct (ename_eqb n k) eqn:E; simpl; [exact N|]. constructor; auto. intro I. apply H1.
    apply eget_some in I. destruct I as [x I]. rewrite eget_set in I. destruct (ename_eqb k n) eqn:X.
    - apply ename_eqb_eq in X. subst. rewrite (proj2 (ename_eqb_eq n n) eq_refl) in E. discriminate.
    - apply eget_in in I. apply (in_map fst) in I. exact I.
  Qed.

  (** updating with the attributes that belong there *)
  Definition below (a b : attrs) : Prop := forall k x, dget k a = Some x -> dget k b = Some x.
  Lemma dupdate_get : forall (x d : attrs) k, NoDup (map fst x) ->
    dget k (dupdate d x) = match dget k x with Some v => Some v | None => dget k d end.
  Proof.
    induction x as [|[j v] x IH]; intros d k N; simpl; auto. inversion N; subst. unfold dupdate in *. simpl. rewrite IH by auto.
    rewrite dget_set. destruct (dget k x) eqn:G.
    - destruct (String.eqb k j) eqn:E; auto. apply String.eqb_eq in E. subst. exfalso. apply H1. apply dget_in in G. apply (in_map fst) in G. exact G.
    - destruct (String.eqb k j); auto.
  Qed.
  Lemma dupdate_eq : forall (x d : attrs), NoDup (map fst x) -> below d x -> forall k, dget k (dupdate d x) = dget k x.
  Proof.
    intros x d N B k. rewrite dupdate_get by auto. destruct (dget k x) eqn:E; auto. destruct (dget k d) eqn:F; auto. apply B in F. congruence.
  Qed.

  (** [g] is a part of [h] *)
  Record part g h : Prop := {
    pt_n : forall n a, dget n (d_nodes g) = Some a -> exists b, dget n (d_nodes h) = Some b /\ below a b;
    pt_e : forall e a, eget e (d_edges g) = Some a -> exists b, eget e (d_edges h) = Some b /\ below a b
  }.
  Lemma part_refl : forall g, part g g.
  Proof. intros g. split; intros n a H; exists a; split; auto; intros k x K; auto. Qed.
  Lemma part_trans : forall g h i, part g h -> part h i -> part g i.
  Proof.
    intros g h i P Q. split.
    - intros n a H. apply (pt_n _ _ P) in H. destruct H as [b [H B]]. apply (pt_n _ _ Q) in H. destruct H as [c [H C]]. exists c. split; auto. intros k x K. auto.
    - intros n a H. apply (pt_e _ _ P) in H. destruct H as [b [H B]]. apply (pt_e _ _ Q) in H. destruct H as [c [H C]]. exists c. split; auto. intros k x K. auto.
  Qed.

  Lemma reserved_false : forall ns (a : attrs), (forall k, In k ns -> ~ In k (map fst a)) -> reserved ns a = false.
  Proof.
    intros ns a H. unfold reserved. destruct (existsb _ _) eqn:E; auto. apply existsb_exists in E. destruct E as [k [I S]].
    unfold smem in S. apply existsb_exists in S. destruct S as [k' [I' E]]. apply String.eqb_eq in E. subst. exfalso. exact (H k' I' I).
  Qed.

  Definition keys g : Prop := NoDup (nodes g) /\ NoDup (links g).

  Lemma ensure_part : forall n g t, part g t -> (exists b, dget n (d_nodes t) = Some b) -> keys g ->
    part (ensure n g) t /\ part g (ensure n g) /\ keys (ensure n g) /\ exists a, dget n (d_nodes (ensure n g)) = Some a.
  Proof.
    intros n g t P [b Hb] [K1 K2]. unfold ensure. rewrite dmem_get. destruct (dget n (d_nodes g)) as [a|] eqn:E.
    - split; auto. split; [apply part_refl|]. split; [split; auto|]. eauto.
    - split; [|split; [|split]].
      + split; [|exact (pt_e _ _ P)]. cbn [d_nodes]. intros m a H. rewrite dget_app in H. destruct (dget m (d_nodes g)) eqn:F.
        * injection H as ->. exact (pt_n _ _ P _ _ F).
        * simpl in H. destruct (String.eqb m n) eqn:X; [|discriminate]. apply String.eqb_eq in X. subst. injection H as <-. exists b. split; auto. intros k x K. discriminate.
      + split.
        * cbn [d_nodes]. intros m a H. exists a. rewrite dget_app, H. split; auto. intros k x K. auto.
        * cbn [d_edges]. intros e a H. exists a. split; auto. intros k x K. auto.
      + split; [|exact K2]. unfold nodes. cbn [d_nodes]. rewrite map_app. cbn [map fst].
        assert (NI : ~ In n (map fst (d_nodes g))) by (intro I; apply dget_some in I; destruct I; congruence).
        unfold nodes in K1. clear -K1 NI. induction (map fst (d_nodes g)) as [|y l IH]; simpl; [constructor; auto|].
        inversion K1; subst. constructor; [|apply IH; auto; simpl in NI; tauto]. rewrite in_app_iff. simpl. simpl in NI. intros [?|[?|[]]]; subst; tauto.
      + cbn [d_nodes]. rewrite dget_app, E. simpl. rewrite String.eqb_refl. eauto.
  Qed.

  Lemma add_node_part : forall n a g t, wf t -> plain t -> part g t -> keys g -> dget n (d_nodes t) = Some a ->
    exists g', add_node n a g = Ok g' /\ part g' t /\ part g g' /\ keys g' /\
      exists b, dget n (d_nodes g') = Some b /\ forall k, dget k b = dget k a.
  Proof.
    intros n a g t WF PL P K H. unfold add_node.
    assert (IN : In (n, a) (d_nodes t)) by (apply dget_in; auto). destruct (proj1 PL n a IN) as [R1 R2].
    rewrite reserved_false. 2:{ intros k [<-|[<-|[]]]; auto. }
    destruct (ensure_part n g t P) as [P1 [P2 [K1 [o Ho]]]]; eauto. rewrite Ho.
    assert (ND : NoDup (map fst a)) by exact (wf_nattr _ WF _ _ IN).
    assert (BO : below o a). { destruct (pt_n _ _ P1 _ _ Ho) as [b [Hb B]]. rewrite H in Hb. injection Hb as <-. exact B. }
    pose proof (dupdate_eq a o ND BO) as UE.
    eexists. split; [reflexivity|]. split; [|split; [|split]].
    - split; [|exact (pt_e _ _ P1)]. cbn [d_nodes]. intros m x X. rewrite dget_set in X. destruct (String.eqb m n) eqn:EQ.
      + apply String.eqb_eq in EQ. subst. injection X as <-. exists a. split; auto. intros k y Y. rewrite UE in Y. exact Y.
      + exact (pt_n _ _ P1 _ _ X).
    - eapply part_trans; [exact P2|]. split; cbn [d_nodes d_edges].
      + intros m x X. rewrite dget_set. destruct (String.eqb m n) eqn:EQ.
        * apply String.eqb_eq in EQ. subst. eexists. split; [reflexivity|]. intros k y Y. rewrite UE. apply BO. congruence.
        * exists x. split; auto. intros k y Y. auto.
      + intros e x X. exists x. split; auto. intros k y Y. auto.
    - split; [unfold nodes; cbn [d_nodes]; apply dset_keys, K1 | exact (proj2 K1)].
    - cbn [d_nodes]. rewrite dget_set, String.eqb_refl. eauto.
  Qed.

  Lemma add_edge_part : forall u v a g t, wf t -> plain t -> part g t -> keys g -> eget (u, v) (d_edges t) = Some a ->
    exists g', add_edge u v a g = Ok g' /\ part g' t /\ part g g' /\ keys g' /\
      exists b, eget (u, v) (d_edges g') = Some b /\ forall k, dget k b = dget k a.
  Proof.
    intros u v a g t WF PL P K H. unfold add_edge.
    assert (IN : In ((u, v), a) (d_edges t)) by (apply eget_in; auto). destruct (proj2 PL _ a IN) as [R1 [R2 R3]].
    rewrite reserved_false. 2:{ intros k [<-|[<-|[<-|[]]]]; auto. }
    assert (IL : In (u, v) (links t)) by (apply (in_map fst) in IN; exact IN).
    destruct (wf_ends _ WF _ _ IL) as [Iu Iv]. apply dget_some in Iu. apply dget_some in Iv.
    destruct (ensure_part u g t P Iu K) as [P1 [P2 [K1 _]]]. destruct (ensure_part v _ t P1 Iv K1) as [P3 [P4 [K3 _]]].
    set (g1 := ensure v (ensure u g)) in *. set (o := match eget (u, v) (d_edges g1) with Some o => o | None => [] end).
    assert (ND : NoDup (map fst a)) by exact (wf_eattr _ WF _ _ IN).
    assert (BO : below o a).
    { unfold o. destruct (eget (u, v) (d_edges g1)) eqn:E; [|intros k x X; discriminate].
      destruct (pt_e _ _ P3 _ _ E) as [b [Hb B]]. rewrite H in Hb. injection Hb as <-. exact B. }
    pose proof (dupdate_eq a o ND BO) as UE.
    eexists. split; [reflexivity|]. split; [|split; [|split]].
    - split; [exact (pt_n _ _ P3)|]. cbn [d_edges]. intros m x X. rewrite eget_set in X. destruct (ename_eqb m (u, v)) eqn:EQ.
      + apply ename_eqb_eq in EQ. subst. injection X as <-. exists a. split; auto. intros k y Y. rewrite UE in Y. exact Y.
      + exact (pt_e _ _ P3 _ _ X).
    - eapply part_trans; [exact P2|]. eapply part_trans; [exact P4|]. split; cbn [d_nodes d_edges].
      + intros e x X. exists x. split; auto. intros k y Y. auto.
      + intros m x X. rewrite eget_set. destruct (ename_eqb m (u, v)) eqn:EQ.
        * apply ename_eqb_eq in EQ. subst. eexists. split; [reflexivity|]. intros k y Y. rewrite UE. apply BO. unfold o. rewrite X. exact Y.
        * exists x. split; auto. intros k y Y. auto.
    - split; [exact (proj1 K3) | unfold links; cbn [d_edges]; apply eset_keys, K3].
    - cbn [d_edges]. rewrite eget_set, (proj2 (ename_eqb_eq _ _) eq_refl). eauto.
  Qed.

  (** a tree of nodes with the content of [g] *)
  Fixpoint node_ok g (t : dinode A) {struct t} : Prop :=
    let 'DiNode n a es := t in exists x, a = Some x /\ dget n (d_nodes g) = Some x /\ edges_ok g n es
  with edges_ok g (n : string) (es : diedges A) {struct es} : Prop :=
    match es with
    | ENone => False
    | ENil => True
    | ECons t a d r =>
        (exists x, a = Some x /\ eget (if d then (n, node_name t) else (node_name t, n)) (d_edges g) = Some x) /\
        node_ok g t /\ edges_ok g n r
    end.
  Fixpoint node_in (m : string) (t : dinode A) {struct t} : Prop :=
    let 'DiNode n _ es := t in m = n \/ node_in_es m es
  with node_in_es (m : string) (es : diedges A) {struct es} : Prop :=
    match es with ECons t _ _ r => node_in m t \/ node_in_es m r | _ => False end.
  Fixpoint edge_in (e : string * string) (t : dinode A) {struct t} : Prop :=
    let 'DiNode n _ es := t in edge_in_es e n es
  with edge_in_es (e : string * string) (n : string) (es : diedges A) {struct es} : Prop :=
    match es with
    | ECons t _ d r => e = (if d then (n, node_name t) else (node_name t, n)) \/ edge_in e t \/ edge_in_es e n r
    | _ => False
    end.

  Scheme dinode_mut := Induction for dinode Sort Prop
  with diedges_mut := Induction for diedges Sort Prop.

  Definition has_n g h (m : string) : Prop := exists a b, dget m (d_nodes h) = Some b /\ dget m (d_nodes g) = Some a /\ forall k, dget k b = dget k a.
  Definition has_e g h (e : ename) : Prop := exists a b, eget e (d_edges h) = Some b /\ eget e (d_edges g) = Some a /\ forall k, dget k b = dget k a.
  Lemma has_n_mono : forall t g h m, part g h -> part h t -> has_n t g m -> has_n t h m.
  Proof.
    intros t g h m P Q [a [b [Hb [Ha E]]]]. destruct (pt_n _ _ P _ _ Hb) as [c [Hc B]]. exists a, c. split; auto. split; auto.
    intros k. destruct (pt_n _ _ Q _ _ Hc) as [d [Hd B']]. rewrite Ha in Hd. injection Hd as <-.
    destruct (dget k c) eqn:X; [symmetry; auto|]. destruct (dget k a) eqn:Y; auto. rewrite <- E in Y. apply B in Y. congruence.
  Qed.
  Lemma has_e_mono : forall t g h m, part g h -> part h t -> has_e t g m -> has_e t h m.
  Proof.
    intros t g h m P Q [a [b [Hb [Ha E]]]]. destruct (pt_e _ _ P _ _ Hb) as [c [Hc B]]. exists a, c. split; auto. split; auto.
    intros k. destruct (pt_e _ _ Q _ _ Hc) as [d [Hd B']]. rewrite Ha in Hd. injection Hd as <-.
    destruct (dget k c) eqn:X; [symmetry; auto|]. destruct (dget k a) eqn:Y; auto. rewrite <- E in Y. apply B in Y. congruence.
  Qed.

  Lemma build_graph_part : forall g, wf g -> plain g -> forall t, node_ok g t -> forall h, part h g -> keys h ->
    exists h', build_graph t h = Ok h' /\ part h' g /\ part h h' /\ keys h' /\
      (forall m, node_in m t -> has_n g h' m) /\ (forall e, edge_in e t -> has_e g h' e).
  Proof.
    intros g WF PL. apply (dinode_mut A (fun t => node_ok g t -> forall h, part h g -> keys h ->
      exists h', build_graph t h = Ok h' /\ part h' g /\ part h h' /\ keys h' /\
      (forall m, node_in m t -> has_n g h' m) /\ (forall e, edge_in e t -> has_e g h' e))
      (fun es => forall n, edges_ok g n es -> forall h, part h g -> keys h ->
      exists h', build_edges n es h = Ok h' /\ part h' g /\ part h h' /\ keys h' /\
      (forall m, node_in_es m es -> has_n g h' m) /\ (forall e, edge_in_es e n es -> has_e g h' e))).
    - intros n a es IH OK h P K. cbn [node_ok] in OK. destruct OK as [x [-> [G OK]]].
      change (build_graph (DiNode n (Some x) es) h) with (bind (add_node n x h) (fun g => build_edges n es g)).
      destruct (add_node_part n x h g WF PL P K G) as [h1 [-> [P1 [P1' [K1 [b [Gb Eb]]]]]]]. cbn [bind].
      destruct (IH n OK h1 P1 K1) as [h2 [-> [P2 [P2' [K2 [N2 E2]]]]]]. exists h2. split; auto. split; auto.
      split; [eapply part_trans; eauto|]. split; auto. split; [|exact E2].
      intros m I. cbn [node_in] in I. destruct I as [->|I]; [|auto]. eapply has_n_mono; eauto. exists x, b. auto.
    - intros n [].
    - intros n _ h P K. exists h. cbn. split; auto. split; auto. split; [apply part_refl|]. split; auto. split; intros ? [].
    - intros t IHt a d es IHe n OK h P K. cbn [edges_ok] in OK. destruct OK as [[x [-> G]] [OKt OKe]].
      destruct t as [tn ta tes]. cbn [node_name] in G.
      change (build_edges n (ECons (DiNode tn ta tes) (Some x) d es) h) with
        (bind (if d then add_edge n tn x h else add_edge tn n x h) (fun g =>
         bind (build_graph (DiNode tn ta tes) g) (fun g => build_edges n es g))).
      assert (X : exists h1, (if d then add_edge n tn x h else add_edge tn n x h) = Ok h1 /\ part h1 g /\ part h h1 /\ keys h1 /\
        exists b, eget (if d then (n, tn) else (tn, n)) (d_edges h1) = Some b /\ forall k, dget k b = dget k x).
      { destruct d; apply (add_edge_part _ _ x h g); auto. }
      destruct X as [h1 [-> [P1 [P1' [K1 [b [Gb Eb]]]]]]]. cbn [bind].
      destruct (IHt OKt h1 P1 K1) as [h2 [-> [P2 [P2' [K2 [N2 E2]]]]]]. cbn [bind].
      destruct (IHe n OKe h2 P2 K2) as [h3 [-> [P3 [P3' [K3 [N3 E3]]]]]]. exists h3. split; auto. split; auto.
      split; [eapply part_trans; [|exact P3']; eapply part_trans; eauto|]. split; auto. split.
      + intros m I. cbn [node_in_es] in I. destruct I as [I|I]; [|auto]. eapply has_n_mono; [exact P3'|exact P3|auto].
      + intros e I. cbn [edge_in_es node_name] in I. destruct I as [->|[I|I]]; [| |auto].
        * eapply has_e_mono; [eapply part_trans; [exact P2'|exact P3']|exact P3|]. exists x, b. auto.
        * eapply has_e_mono; [exact P3'|exact P3|auto].
  Qed.

  (** * [build_tree] *)
  Lemma succs_in : forall g n m, In m (succs g n) <-> In (n, m) (links g).
  Proof.
    intros g n m. unfold succs, links. rewrite in_map_iff. split.
    - intros [[a b] [E I]]. simpl in E. subst. apply filter_In in I. destruct I as [I E]. simpl in E. apply String.eqb_eq in E. subst. exact I.
    - intros I. exists (n, m). split; auto. apply filter_In. split; auto. apply String.eqb_refl.
  Qed.
  Lemma preds_in : forall g n m, In m (preds g n) <-> In (m, n) (links g).
  Proof.
    intros g n m. unfold preds, links. rewrite in_map_iff. split.
    - intros [[a b] [E I]]. simpl in E. subst. apply filter_In in I. destruct I as [I E]. simpl in E. apply String.eqb_eq in E. subst. exact I.
    - intros I. exists (m, n). split; auto. apply filter_In. split; auto. apply String.eqb_refl.
  Qed.

  Lemma children_ok : forall (rec : string -> res (dinode A)) edge d q (Q : string -> dinode A -> Prop) l,
    (forall m, In m l -> q <> Some m -> exists t, rec m = Ok t /\ Q m t) ->
    (forall m, In m l -> exists a, edge m = Some a) ->
    exists ts, children rec edge d q l = Ok ts /\
      (forall t a d', In (t, a, d') ts -> d' = d /\ exists m, In m l /\ q <> Some m /\ Q m t /\ a = edge m) /\
      (forall m, In m l -> q <> Some m -> exists t a, In (t, a, d) ts /\ Q m t).
  Proof.
    intros rec edge d q Q l. induction l as [|n l IH]; intros R E.
    - exists []. split; auto. split; [intros t a d' []|intros m []].
    - destruct IH as [ts [C [F B]]]; [intros; apply R; simpl; auto|intros; apply E; simpl; auto|]. cbn [children].
      destruct (match q with Some p => String.eqb n p | None => false end) eqn:X.
      + exists ts. split; auto. destruct q as [p|]; [|discriminate]. apply String.eqb_eq in X. subst. split.
        * intros t a d' I. destruct (F _ _ _ I) as [-> [m [Im Rm]]]. split; auto. exists m. simpl. tauto.
        * intros m [<-|I] N; [congruence|auto].
      + assert (N : q <> Some n). { destruct q as [p|]; [|discriminate]. intros Y. injection Y as ->. rewrite String.eqb_refl in X. discriminate. }
        destruct (R n (or_introl eq_refl) N) as [t [Rt Qt]]. destruct (E n (or_introl eq_refl)) as [a Ea]. rewrite Rt, Ea, C. cbn [bind].
        eexists. split; [reflexivity|]. split.
        * intros t' a' d' [I|I].
          { injection I as <- <- <-. split; auto. exists n. simpl. rewrite Ea. tauto. }
          destruct (F _ _ _ I) as [-> [m [Im Rm]]]. split; auto. exists m. simpl. tauto.
        * intros m [<-|I] N'.
          { exists t, (Some a). simpl. auto. }
          destruct (B m I N') as [t' [a' [I' Q']]]. exists t', a'. simpl. auto.
  Qed.

  (** the tree below [n] that was reached from [q]: all content is that of [g], and it
      contains all neighbours, except [q] *)
  Fixpoint closed g (q : option string) (t : dinode A) {struct t} : Prop :=
    let 'DiNode n _ es := t in
    (forall m, step (links g) n m -> q = Some m \/ node_in m t) /\
    (forall u v, In (u, v) (links g) -> u = n \/ v = n -> q = Some u \/ q = Some v \/ edge_in (u, v) t) /\ closed_es g n es
  with closed_es g (n : string) (es : diedges A) {struct es} : Prop :=
    match es with ECons t _ _ r => closed g (Some n) t /\ closed_es g n r | _ => True end.

  Definition good g (q : option string) (n : string) (t : dinode A) : Prop :=
    node_name t = n /\ node_ok g (file_node t) /\ closed g q (file_node t).

  Lemma file_to_edges : forall g n (ts : list (dinode A * option attrs * bool)),
    (forall t a d, In (t, a, d) ts -> good g (Some n) (node_name t) t /\ exists x, a = Some x /\ eget (if d then (n, node_name t) else (node_name t, n)) (d_edges g) = Some x) ->
    edges_ok g n (file_edges (to_edges ts)) /\ closed_es g n (file_edges (to_edges ts)) /\
    (forall t a d, In (t, a, d) ts -> node_in_es (node_name t) (file_edges (to_edges ts)) /\
       edge_in_es (if d then (n, node_name t) else (node_name t, n)) n (file_edges (to_edges ts))).
  Proof.
    intros g n ts. induction ts as [|[[t a] d] ts IH]; intros H.
    - cbn. split; [exact I|]. split; [exact I|]. intros t a d [].
    - destruct IH as [O [C I]]. { intros; apply H; right; auto. }
      destruct (H t a d (or_introl eq_refl)) as [[_ [NO CL]] [x [-> G]]].
      assert (NM : node_name (file_node t) = node_name t) by (destruct t; reflexivity).
      set (r := file_edges (to_edges ts)) in *.
      change (file_edges (to_edges ((t, Some x, d) :: ts))) with (ECons (file_node t) (load_attrs (store_attrs (Some x))) d r).
      assert (SA : load_attrs (store_attrs (Some x)) = Some x) by (destruct x; reflexivity). rewrite SA.
      assert (ND : node_in (node_name t) (file_node t)) by (destruct t; left; reflexivity).
      split; [|split].
      + split; [|split; [exact NO|exact O]]. exists x. rewrite NM. auto.
      + exact (conj CL C).
      + intros t' a' d' [J|J].
        * injection J as <- <- <-. split; [left; exact ND|]. left. rewrite NM. reflexivity.
        * destruct (I _ _ _ J) as [J1 J2]. split; [right; exact J1|]. right. right. exact J2.
  Qed.

  Lemma build_tree_good : forall g, wf g -> forall k n q, short k (links g) q n -> In n (nodes g) ->
    exists t, build_tree k g n q = Ok t /\ good g q n t.
  Proof.
    intros g WF. induction k as [|k IH]; intros n q S I; [destruct S|]. cbn [build_tree].
    assert (E1 : forall m, In m (succs g n) -> exists a, eget (n, m) (d_edges g) = Some a) by (intros m J; apply succs_in in J; apply eget_some; exact J).
    assert (E2 : forall m, In m (preds g n) -> exists a, eget (m, n) (d_edges g) = Some a) by (intros m J; apply preds_in in J; apply eget_some; exact J).
    destruct (children_ok (fun m => build_tree k g m (Some n)) (fun m => eget (n, m) (d_edges g)) true q (fun m t => good g (Some n) m t) (succs g n)) as [ts [-> [F1 B1]]]; [|exact E1|].
    { intros m J N. apply succs_in in J. apply IH; [apply S; [left; auto|auto]|]. apply (wf_ends _ WF) in J. tauto. }
    destruct (children_ok (fun m => build_tree k g m (Some n)) (fun m => eget (m, n) (d_edges g)) false q (fun m t => good g (Some n) m t) (preds g n)) as [us [-> [F2 B2]]]; [|exact E2|].
    { intros m J N. apply preds_in in J. apply IH; [apply S; [right; auto|auto]|]. apply (wf_ends _ WF) in J. tauto. }
    cbn [bind]. destruct (dget_some n (d_nodes g) I) as [x X]. rewrite X. eexists. split; [reflexivity|].
    assert (FE : file_edges (match ts ++ us with [] => ENone | l => to_edges l end) = file_edges (to_edges (ts ++ us))) by (destruct (ts ++ us); reflexivity).
    destruct (file_to_edges g n (ts ++ us)) as [O [C J]].
    { intros t a d K. apply in_app_iff in K. destruct K as [K|K].
      - destruct (F1 _ _ _ K) as [-> [m [Im [_ [Qm ->]]]]]. destruct Qm as [NM Qm]. destruct (E1 m Im) as [y Y]. cbn beta in *. rewrite NM. split; [split; auto|]. eauto.
      - destruct (F2 _ _ _ K) as [-> [m [Im [_ [Qm ->]]]]]. destruct Qm as [NM Qm]. destruct (E2 m Im) as [y Y]. cbn beta in *. rewrite NM. split; [split; auto|]. eauto. }
    split; [reflexivity|].
    change (file_node (DiNode n (Some x) (match ts ++ us with [] => ENone | l => to_edges l end))) with
      (DiNode n (load_attrs (store_attrs (Some x))) (file_edges (match ts ++ us with [] => ENone | l => to_edges l end))).
    rewrite FE. split.
    - exists x. split; [destruct x; reflexivity|]. split; [exact X|exact O].
    - assert (SU : forall m, In (n, m) (links g) -> q = Some m \/ (node_in_es m (file_edges (to_edges (ts ++ us))) /\ edge_in_es (n, m) n (file_edges (to_edges (ts ++ us))))).
      { intros m K. destruct q as [p|]. 1: destruct (string_dec p m) as [->|NE]; [auto|].
        all: right; apply succs_in in K; destruct (B1 m K) as [t [a [K' [NM _]]]]; [congruence|];
          destruct (J t a true) as [J1 J2]; [apply in_or_app; auto|]; rewrite NM in *; auto. }
      assert (PR : forall m, In (m, n) (links g) -> q = Some m \/ (node_in_es m (file_edges (to_edges (ts ++ us))) /\ edge_in_es (m, n) n (file_edges (to_edges (ts ++ us))))).
      { intros m K. destruct q as [p|]. 1: destruct (string_dec p m) as [->|NE]; [auto|].
        all: right; apply preds_in in K; destruct (B2 m K) as [t [a [K' [NM _]]]]; [congruence|];
          destruct (J t a false) as [J1 J2]; [apply in_or_app; auto|]; rewrite NM in *; auto. }
      split; [|split; [|exact C]].
      + intros m [K|K]; [destruct (SU m K) as [Y|[Y _]]|destruct (PR m K) as [Y|[Y _]]]; [left; exact Y|right; right; exact Y|left; exact Y|right; right; exact Y].
      + intros u v K [->| ->]; [destruct (SU v K) as [Y|[_ Y]]|destruct (PR u K) as [Y|[_ Y]]];
          [right; left; exact Y|right; right; exact Y|left; exact Y|right; right; exact Y].
  Qed.

  (** from closed trees to all nodes and edges *)
  Lemma closed_nodes : forall g t, forall q, closed g q t -> forall m, node_in m t -> forall x, step (links g) m x -> q = Some x \/ node_in x t.
  Proof.
    intros g. apply (dinode_mut A (fun t => forall q, closed g q t -> forall m, node_in m t -> forall x, step (links g) m x -> q = Some x \/ node_in x t)
      (fun es => forall n, closed_es g n es -> forall m, node_in_es m es -> forall x, step (links g) m x -> n = x \/ node_in_es x es)).
    - intros n a es IH q C m I x S. cbn [closed] in C. destruct C as [C1 [_ C2]]. cbn [node_in] in I. destruct I as [->|I]; [auto|].
      destruct (IH n C2 m I x S) as [->|J]; cbn [node_in]; auto.
    - intros n _ m [].
    - intros n _ m [].
    - intros t IHt a d es IHe n C m I x S. cbn [closed_es] in C. destruct C as [C1 C2]. cbn [node_in_es] in *. destruct I as [I|I].
      + destruct (IHt _ C1 m I x S) as [E|J]; auto. injection E as ->. auto.
      + destruct (IHe n C2 m I x S) as [->|J]; auto.
  Qed.
  Lemma edge_parent : forall g t q, closed g q t -> forall u v, In (u, v) (links g) -> node_in u t \/ node_in v t -> q = Some u \/ q = Some v \/ edge_in (u, v) t.
  Proof.
    intros g. apply (dinode_mut A (fun t => forall q, closed g q t -> forall u v, In (u, v) (links g) -> node_in u t \/ node_in v t -> q = Some u \/ q = Some v \/ edge_in (u, v) t)
      (fun es => forall n, closed_es g n es -> forall u v, In (u, v) (links g) -> node_in_es u es \/ node_in_es v es -> n = u \/ n = v \/ edge_in_es (u, v) n es)).
    - intros n a es IH q C u v L I. cbn [closed] in C. destruct C as [_ [C1 C2]].
      destruct (string_dec u n) as [->|NU]; [apply C1; auto|]. destruct (string_dec v n) as [->|NV]; [apply C1; auto|].
      cbn [node_in] in I. destruct (IH n C2 u v L) as [E|[E|E]]; [|congruence|congruence|auto].
      destruct I as [[?|?]|[?|?]]; try congruence; auto.
    - intros n _ u v _ [[]|[]].
    - intros n _ u v _ [[]|[]].
    - intros t IHt a d es IHe n C u v L I. cbn [closed_es] in C. destruct C as [C1 C2]. cbn [node_in_es edge_in_es] in *.
      assert (X : (node_in u t \/ node_in v t) \/ (node_in_es u es \/ node_in_es v es)) by tauto. destruct X as [X|X].
      + destruct (IHt _ C1 u v L X) as [E|[E|E]]; [injection E as ->; auto|injection E as ->; auto|auto].
      + destruct (IHe n C2 u v L X) as [E|[E|E]]; auto.
  Qed.

  Theorem round_trip : forall g n, wf g -> plain g -> tree (nodes g) (links g) -> In n (nodes g) ->
    exists t h, build_tree (2 * List.length (nodes g)) g n None = Ok t /\ build_graph (file_node t) (DG [] []) = Ok h /\ same h g.
  Proof.
    intros g n WF PL T I.
    destruct (build_tree_good g WF (2 * List.length (nodes g)) n None) as [t [BT [NM [NO CL]]]]; auto.
    { apply (tree_short _ (nodes g)); auto; [apply WF|exact (wf_ends _ WF)]. }
    assert (P0 : part (DG [] []) g) by (split; intros ? ? X; discriminate).
    assert (K0 : keys (DG [] [] : digraph A)) by (split; constructor).
    destruct (build_graph_part g WF PL _ NO _ P0 K0) as [h [BG [P [_ [K [HN HE]]]]]].
    exists t, h. split; auto. split; auto.
    assert (NI : node_in n (file_node t)) by (destruct t; cbn in *; auto).
    assert (ALL : forall m, In m (nodes g) -> node_in m (file_node t)).
    { intros m J. pose proof (proj1 T n m I J) as R. clear J. induction R as [|a b c R IH S]; auto.
      destruct (closed_nodes g _ None CL b (IH I BT NM NI) c S); [discriminate|auto]. }
    split.
    - intros m. split; intros J.
      + apply dget_some in J. destruct J as [a J]. destruct (pt_n _ _ P _ _ J) as [b [X _]]. apply dget_in in X. apply (in_map fst) in X. exact X.
      + destruct (HN m (ALL m J)) as [a [b [X _]]]. apply dget_in in X. apply (in_map fst) in X. exact X.
    - intros e. split; intros J.
      + apply eget_some in J. destruct J as [a J]. destruct (pt_e _ _ P _ _ J) as [b [X _]]. apply eget_in in X. apply (in_map fst) in X. exact X.
      + destruct e as [u v]. pose proof (wf_ends _ WF _ _ J) as [Ju Jv].
        destruct (edge_parent g _ None CL u v J (or_introl (ALL u Ju))) as [X|[X|X]]; try discriminate.
        destruct (HE _ X) as [a [b [Y _]]]. apply eget_in in Y. apply (in_map fst) in Y. exact Y.
    - intros m a b k Ja Jb. assert (Jm : In m (nodes g)) by (apply (in_map fst) in Jb; exact Jb).
      destruct (HN m (ALL m Jm)) as [b' [a' [X [Y E]]]]. apply in_dget in Ja; [|apply K]. apply in_dget in Jb; [|apply WF]. congruence.
    - intros e a b k Ja Jb. assert (Je : In e (links g)) by (apply (in_map fst) in Jb; exact Jb). destruct e as [u v].
      pose proof (wf_ends _ WF _ _ Je) as [Ju Jv].
      destruct (edge_parent g _ None CL u v Je (or_introl (ALL u Ju))) as [X|[X|X]]; try discriminate.
      destruct (HE _ X) as [b' [a' [Y [Z E]]]]. apply in_eget in Ja; [|apply K]. apply in_eget in Jb; [|apply WF]. congruence.
  Qed.
End Graph.
