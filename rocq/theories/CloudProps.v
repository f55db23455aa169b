(** Properties of point clouds (C140). *)
From Coq Require Import String List Bool Arith Lia ZArith.
From Verif Require Import Base CloudModel.
Import ListNotations.
Open Scope string_scope.

Section Props.
  Context {F U L A : Type}.
  Variable leb : F -> F -> bool.
  Variable is_length : U -> bool.
  Variable to : U -> U -> F -> F.
  Variable mm : U.
  Variable xyz : list L.
  Variable no_cells : res (mesh F).
  Variable dflt : F.
  Hypothesis xyz3 : List.length xyz = 3.
  Hypothesis leb_total : forall x y, leb x y = true \/ leb y x = true.
  Hypothesis leb_trans : forall x y z, leb x y = true -> leb y z = true -> leb x z = true.

  Notation darr := (darr F U L). Notation cloud := (cloud F U L A). Notation arr := (arr F U).
  Notation new_cloud := (@new_cloud F U L A is_length xyz).
  Notation limits := (@limits F U L A leb).
  Notation to_file := (@to_file F U L A is_length to no_cells).
  Notation from_file := (@from_file F U L A is_length xyz dflt).
  Notation load := (@load F U L A is_length mm xyz).

  (** ** Specification *)
  (** The value of an array depends on the indices of its dimensions only. *)
  Definition proper (d : darr) : Prop :=
    forall e e', (forall k, In k (map fst (d_dims d)) -> e k = e' k) -> d_val d e = d_val d e'.
  (** An index within the array. *)
  Definition within (d : darr) (e : index) : Prop := forall k n, In (k, n) (d_dims d) -> e k < n.
  Definition at2 (i j : nat) : index := fun k => if String.eqb k "n" then i else if String.eqb k "c" then j else 0.
  Definition at3 (t i j : nat) : index := fun k => if String.eqb k "time" then t else at2 i j k.
  (** A static cloud of n points; one with T times. *)
  Definition static (s : cloud) (n : nat) : Prop := d_dims (s_coords s) = [("n", n); ("c", 3)].
  Definition timed (s : cloud) (T n : nat) : Prop := d_dims (s_coords s) = [("time", T); ("n", n); ("c", 3)].

  (** ** Lemmas *)
  Lemma put_same : forall e k i, put e k i k = i.
  Proof. intros. unfold put. now rewrite String.eqb_refl. Qed.
  Lemma put_other : forall e k i x, x <> k -> put e k i x = e x.
  Proof. intros e k i x H. unfold put. now rewrite (proj2 (String.eqb_neq x k) H). Qed.

  Lemma flat_in : forall (f : index -> F) ds e x, In x (flat ds f e) ->
    exists e', x = f e' /\ (forall k n, NoDup (map fst ds) -> In (k, n) ds -> e' k < n) /\ (forall k, ~ In k (map fst ds) -> e' k = e k).
  Proof.
    intros f ds. induction ds as [|[d m] r IH]; intros e x H; cbn [flat] in H.
    - destruct H as [<-|[]]. exists e. split; [reflexivity|]. split; [intros k n _ []|reflexivity].
    - apply in_flat_map in H as (i & Hi & Hx). apply in_seq in Hi. apply IH in Hx as (e' & -> & B & O).
      exists e'. split; [reflexivity|]. split.
      + intros k n Nd [Q|Q]; inversion Nd; subst.
        * injection Q as <- <-. rewrite O by assumption. rewrite put_same. lia.
        * now apply B.
      + intros k Hk. cbn in Hk. rewrite O by tauto. apply put_other. intro Q. subst. tauto.
  Qed.
  Lemma flat_has : forall (f : index -> F) ds e e', (forall k, ~ In k (map fst ds) -> e' k = e k) ->
    (forall k n, In (k, n) ds -> e' k < n) -> NoDup (map fst ds) ->
    (forall e1 e2, (forall k, e1 k = e2 k) -> f e1 = f e2) -> In (f e') (flat ds f e).
  Proof.
    intros f ds. induction ds as [|[d m] r IH]; intros e e' O B Nd Ex; cbn [flat].
    - left. apply Ex. intro k. symmetry. apply O. now intros [].
    - apply in_flat_map. inversion Nd as [|x l Nx Nl]; subst. exists (e' d). split.
      + apply in_seq. specialize (B d m (or_introl eq_refl)). lia.
      + apply IH; try assumption.
        * intros k Hk. destruct (string_dec k d) as [->|Q]; [now rewrite put_same|].
          rewrite put_other by exact Q. apply O. cbn. intros [H|H]; [now apply Q|contradiction].
        * intros k n H. apply B. now right.
  Qed.
  Lemma flat_empty : forall (f : index -> F) ds e k, In (k, 0) ds -> flat ds f e = [].
  Proof.
    intros f ds. induction ds as [|[d m] r IH]; intros e k H; [destruct H|]. cbn [flat]. destruct H as [Q|Q].
    - injection Q as <- ->. reflexivity.
    - induction (seq 0 m) as [|i l IHl]; [reflexivity|]. cbn. now rewrite (IH _ k Q).
  Qed.
  Lemma flat_nonempty : forall (f : index -> F) ds e, (forall k n, In (k, n) ds -> 0 < n) -> flat ds f e <> [].
  Proof.
    intros f ds. induction ds as [|[d m] r IH]; intros e H; cbn [flat]; [discriminate|].
    specialize (H d m (or_introl eq_refl)) as Hm. destruct m; [lia|]. cbn. intro Q. apply app_eq_nil in Q as [Q _].
    apply (IH (put e d 0)); [|exact Q]. intros k n Hk. apply (H k). now right.
  Qed.

  Lemma least_ok : forall l x, In (least leb x l) (x :: l) /\ forall y, In y (x :: l) -> leb (least leb x l) y = true.
  Proof.
    assert (Rf : forall x, leb x x = true) by (intro x; destruct (leb_total x x); assumption).
    induction l as [|z l IH]; intro x; cbn [least].
    - split; [now left|]. intros y [<-|[]]. apply Rf.
    - destruct (leb x z) eqn:Q; [destruct (IH x) as [I B]|destruct (IH z) as [I B]].
      + split; [destruct I as [I|I]; [now left|right; now right]|]. intros y [<-|[<-|H]].
        * apply B. now left.
        * apply leb_trans with x; [apply B; now left|exact Q].
        * apply B. now right.
      + assert (leb z x = true) by (destruct (leb_total x z); congruence).
        split; [now right|]. intros y [<-|[<-|Hy]].
        * apply leb_trans with z; [apply B; now left|assumption].
        * apply B. now left.
        * apply B. now right.
  Qed.
  Lemma greatest_ok : forall l x, In (greatest leb x l) (x :: l) /\ forall y, In y (x :: l) -> leb y (greatest leb x l) = true.
  Proof.
    assert (Rf : forall x, leb x x = true) by (intro x; destruct (leb_total x x); assumption).
    induction l as [|z l IH]; intro x; cbn [greatest].
    - split; [now left|]. intros y [<-|[]]. apply Rf.
    - destruct (leb x z) eqn:Q; [destruct (IH z) as [I B]|destruct (IH x) as [I B]].
      + split; [now right|]. intros y [<-|[<-|H]].
        * apply leb_trans with z; [exact Q|apply B; now left].
        * apply B. now left.
        * apply B. now right.
      + assert (leb z x = true) by (destruct (leb_total x z); congruence).
        split; [destruct I as [I|I]; [now left|right; now right]|]. intros y [<-|[<-|Hy]].
        * apply B. now left.
        * apply leb_trans with x; [assumption|apply B; now left].
        * apply B. now right.
  Qed.
  Lemma mapM_ok : forall {X Y} (f : X -> res Y) l, (forall x, In x l -> exists y, f x = Ok y) ->
    exists ys, mapM f l = Ok ys /\ Forall2 (fun x y => f x = Ok y) l ys.
  Proof.
    intros X Y f l. induction l as [|x l IH]; intro H; [exists []; split; [reflexivity|constructor]|].
    destruct (H x (or_introl eq_refl)) as [y Hy]. destruct IH as (ys & E1 & E2); [intros z Hz; apply H; now right|].
    exists (y :: ys). cbn [mapM]. rewrite Hy. cbn [bind]. rewrite E1. split; [reflexivity|]. now constructor.
  Qed.

  Lemma nth_blocks : forall {X} (g : nat -> list X) m d N s i j, (forall k, List.length (g k) = m) -> i < N -> j < m ->
    nth (i * m + j) (flat_map g (seq s N)) d = nth j (g (s + i)) d.
  Proof.
    intros X g m d N. induction N as [|N IH]; intros s i j Hl Hi Hj; [lia|]. cbn [seq flat_map]. destruct i as [|i].
    - rewrite Nat.add_0_r, app_nth1; [reflexivity|]. rewrite Hl. cbn. exact Hj.
    - rewrite app_nth2; rewrite Hl; [|cbn; lia]. replace (S i * m + j - m) with (i * m + j) by (cbn; lia).
      rewrite IH by (try assumption; lia). f_equal. f_equal. lia.
  Qed.
  Lemma len_blocks : forall {X} (g : nat -> list X) m N s, (forall k, List.length (g k) = m) -> List.length (flat_map g (seq s N)) = N * m.
  Proof. intros X g m N. induction N as [|N IH]; intros s Hl; [reflexivity|]. cbn. rewrite app_length, Hl, IH by assumption. reflexivity. Qed.

  Lemma rows3_ok : forall k (l : list F), List.length l = k * 3 -> exists r, rows3 l = Ok r /\ List.length r = k /\
    (forall i j, j < 3 -> nth j (nth i r []) dflt = nth (i * 3 + j) l dflt).
  Proof.
    induction k as [|k IH]; intros l H.
    - destruct l; [|discriminate]. exists []. split; [reflexivity|]. split; [reflexivity|].
      intros i j _. destruct i, j; cbn; try reflexivity; destruct (i * 3 + _); reflexivity.
    - destruct l as [|x [|y [|z l]]]; cbn in H; try lia. destruct (IH l) as (r & E1 & E2 & E3); [lia|].
      exists ([x; y; z] :: r). cbn [rows3]. rewrite E1. cbn. split; [reflexivity|]. split; [now rewrite E2|].
      intros i j Hj. destruct i as [|i]; [destruct j as [|[|[|j]]]; try reflexivity; lia|]. cbn [nth].
      rewrite E3 by exact Hj. reflexivity.
  Qed.

  (** ** Construction *)
  (** Raw data: n points with three components, for every time if times are given. *)
  Theorem c140_raw : forall a t attrs time s, new_cloud (Raw a) t attrs time = Ok s ->
    proper (s_coords s) /\
    match time with
    | None => exists n, a_shape a = [n; 3] /\ static s n /\ forall i j, d_val (s_coords s) (at2 i j) = a_val a [i; j]
    | Some l => exists n, a_shape a = [List.length l; n; 3] /\ timed s (List.length l) n /\
        dget "time" (d_coords (s_coords s)) = Some l /\ forall k i j, d_val (s_coords s) (at3 k i j) = a_val a [k; i; j]
    end /\ dget "c" (d_coords (s_coords s)) = Some xyz.
  Proof.
    intros [sh f u] t attrs time s H. unfold CloudModel.new_cloud, vector3 in H. cbn [a_shape] in H.
    assert (K : forall d, s_coords s = d -> True) by auto.
    destruct time as [l|].
    - destruct sh as [|n1 [|n2 [|n3 [|n4 sh]]]]; cbn in H; try discriminate.
      rewrite xyz3 in H. destruct (Nat.eqb_spec n3 3) as [->|]; [|discriminate]. cbn in H.
      destruct (Nat.eqb_spec n1 (List.length l)) as [->|]; [|discriminate]. cbn in H.
      destruct u as [u|]; [|discriminate]. destruct (is_length u); [|discriminate].
      assert (Q : s_coords s = Da [("time", List.length l); ("n", n2); ("c", 3)] (fun e => f (map e ["time"; "n"; "c"])) (Some u)
                 [("c", xyz); ("time", l)] false).
      { destruct t as [t|]; [destruct (check_tris (as_tris t)); [|discriminate]|]; cbn in H; injection H as <-; reflexivity. }
      split; [|split; [exists n2|]]; unfold timed, proper; rewrite Q; cbn.
      + intros e e' He. rewrite (He "time"), (He "n"), (He "c") by (cbn; tauto). reflexivity.
      + now repeat split.
      + reflexivity.
    - assert (H' : bind (new_array (Arr sh f u) ["n"; "c"] [("c", xyz)]) (fun d => bind (order d) (fun d =>
         match d_unit d with
         | None => Err TypeError
         | Some u => if is_length u then match t with None => Ok (Cloud d None attrs)
                       | Some t => bind (check_tris (as_tris t)) (fun _ => Ok (Cloud d (Some (as_tris t)) attrs)) end
                     else if d_attr d || dmem "units" (d_coords d) then Err DimensionalityError else Err AttributeError
         end)) = Ok s) by (destruct (Nat.eqb (List.length sh) 1); exact H).
      clear H. rename H' into H.
      destruct sh as [|n1 [|n2 [|n3 sh]]]; cbn in H; try discriminate.
      rewrite xyz3 in H. destruct (Nat.eqb_spec n2 3) as [->|]; [|discriminate]. cbn in H.
      destruct u as [u|]; [|discriminate]. destruct (is_length u); [|discriminate].
      assert (Q : s_coords s = Da [("n", n1); ("c", 3)] (fun e => f (map e ["n"; "c"])) (Some u) [("c", xyz)] false).
      { destruct t as [t|]; [destruct (check_tris (as_tris t)); [|discriminate]|]; cbn in H; injection H as <-; reflexivity. }
      split; [|split; [exists n1|]]; unfold static, proper; rewrite Q; cbn.
      + intros e e' He. rewrite (He "n"), (He "c") by (cbn; tauto). reflexivity.
      + now repeat split.
      + reflexivity.
  Qed.

  (** Such data with a unit of length is accepted; data of any other shape is a ValueError. *)
  Theorem c140_accepts : forall n f u attrs, is_length u = true ->
    (exists s, new_cloud (Raw (Arr [n; 3] f (Some u))) None attrs None = Ok s /\ s_tris s = None /\ s_attrs s = attrs) /\
    (forall l, exists s, new_cloud (Raw (Arr [List.length l; n; 3] f (Some u))) None attrs (Some l) = Ok s /\ s_attrs s = attrs).
  Proof.
    intros n f u attrs Hu. split.
    - unfold CloudModel.new_cloud, vector3, new_array. cbn. rewrite xyz3. cbn. rewrite Hu. eexists. now repeat split.
    - intro l. unfold CloudModel.new_cloud, vector3, new_array. cbn. rewrite xyz3. cbn. rewrite Nat.eqb_refl. cbn. rewrite Hu. eexists. now repeat split.
  Qed.
  Theorem c140_shape : forall a t attrs time,
    match time with
    | None => forall n, a_shape a <> [n; 3]
    | Some l => forall n, a_shape a <> [List.length l; n; 3]
    end -> new_cloud (Raw a) t attrs time = Err ValueError.
  Proof.
    intros [sh f u] t attrs time H. unfold CloudModel.new_cloud, vector3. cbn [a_shape] in *.
    destruct time as [l|].
    - destruct sh as [|n1 [|n2 [|n3 [|n4 sh]]]]; try reflexivity. cbn. rewrite xyz3.
      destruct (Nat.eqb_spec n3 3) as [->|]; [|reflexivity]. cbn.
      destruct (Nat.eqb_spec n1 (List.length l)) as [->|]; [|reflexivity]. exfalso. now apply (H n2).
    - assert (K : new_array (Arr sh f u) ["n"; "c"] [("c", xyz)] = Err ValueError).
      { destruct sh as [|n1 [|n2 [|n3 sh]]]; try reflexivity. cbn. rewrite xyz3.
        destruct (Nat.eqb_spec n2 3) as [->|]; [|reflexivity]. exfalso. now apply (H n1). }
      destruct (Nat.eqb (List.length sh) 1); rewrite K; reflexivity.
  Qed.

  (** DataArrays: the dimensions n and c come last, everything else is as before. *)
  Theorem c140_given : forall d t attrs time s, new_cloud (Given d) t attrs time = Ok s ->
    (exists others n c, d_dims (s_coords s) = (others ++ [("n", n); ("c", c)])%list /\
       (forall k m, In (k, m) others <-> In (k, m) (d_dims d) /\ k <> "n" /\ k <> "c") /\
       In ("n", n) (d_dims d) /\ In ("c", c) (d_dims d)) /\
    (forall e, d_val (s_coords s) e = d_val d e) /\ d_unit (s_coords s) = d_unit d /\ d_coords (s_coords s) = d_coords d.
  Proof.
    assert (Sz : forall ds k n, size ds k = Some n -> In (k, n) ds).
    { induction ds as [|[x m] r IH]; intros k n H; [discriminate|]. cbn in H.
      destruct (String.eqb_spec x k) as [->|]; [injection H as ->; now left|right; now apply IH]. }
    intros d t attrs time s H. unfold CloudModel.new_cloud in H. cbn [bind] in H. unfold order in H.
    destruct (size (d_dims d) "n") as [n|] eqn:En; [|discriminate]. destruct (size (d_dims d) "c") as [c|] eqn:Ec; [|discriminate].
    cbn [bind d_unit] in H. destruct (d_unit d) as [u|]; [|discriminate].
    destruct (is_length u); [|destruct (d_attr _ || _); discriminate].
    assert (Q : s_coords s = Da (filter (fun x => negb (String.eqb (fst x) "n" || String.eqb (fst x) "c")) (d_dims d) ++ [("n", n); ("c", c)])%list
               (d_val d) (Some u) (d_coords d) (d_attr d)).
    { destruct t as [t|]; [destruct (check_tris (as_tris t)); [|discriminate]|]; cbn [bind] in H; injection H as <-; reflexivity. }
    rewrite Q. cbn. split; [|now repeat split].
    eexists _, n, c. split; [reflexivity|]. split; [|split; now apply Sz].
    intros k m. rewrite filter_In. cbn. rewrite negb_true_iff, orb_false_iff, !String.eqb_neq. tauto.
  Qed.

  (** What every cloud satisfies. *)
  Theorem c140_cloud : forall p t attrs time s, new_cloud p t attrs time = Ok s ->
    (exists others n c, d_dims (s_coords s) = (others ++ [("n", n); ("c", c)])%list) /\
    (exists u, d_unit (s_coords s) = Some u /\ is_length u = true) /\ s_attrs s = attrs /\
    match t with
    | None => s_tris s = None
    | Some t => s_tris s = Some (as_tris t) /\ exists m, t_shape (as_tris t) = [m; 3]
    end.
  Proof.
    intros p t attrs time s H. unfold CloudModel.new_cloud in H.
    destruct (match p with Raw a => vector3 xyz a time | Given d => Ok d end) as [d|]; [|discriminate]. cbn [bind] in H.
    unfold order in H.
    destruct (size (d_dims d) "n") as [n|] eqn:En; [|discriminate]. destruct (size (d_dims d) "c") as [c|] eqn:Ec; [|discriminate].
    cbn [bind d_unit] in H. destruct (d_unit d) as [u|]; [|discriminate].
    destruct (is_length u) eqn:Hu; [|destruct (d_attr _ || _); discriminate].
    destruct t as [t|].
    - unfold check_tris in H. destruct (t_shape (as_tris t)) as [|x [|y [|z r]]] eqn:Et; cbn in H; try discriminate.
      + destruct (Nat.eqb x 3); discriminate.
      + destruct (Nat.eqb_spec y 3) as [->|]; [|discriminate]. cbn in H. injection H as <-. cbn.
        split; [now eexists _, n, c|]. split; [exists u; auto|]. split; [reflexivity|]. split; [reflexivity|]. now exists x.
      + destruct (Nat.eqb (match r with [] => z | _ :: _ => last r 0 end) 3); discriminate.
    - injection H as <-. cbn. split; [now eexists _, n, c|]. split; [exists u; auto|]. now split.
  Qed.

  (** Triangulations that are refused. *)
  Theorem c140_triangles : forall n f u attrs sh rows, is_length u = true ->
    (forall m, sh <> [m; 3]) ->
    new_cloud (Raw (Arr [n; 3] f (Some u))) (Some (TList sh rows)) attrs None = Err (match sh with [] => IndexError | _ => ValueError end).
  Proof.
    intros n f u attrs sh rows Hu Hs. unfold CloudModel.new_cloud, vector3, new_array. cbn. rewrite xyz3. cbn. rewrite Hu.
    unfold check_tris. cbn [t_shape as_tris]. destruct sh as [|x [|y [|z r]]]; [reflexivity| | |].
    - cbn. now destruct (Nat.eqb x 3).
    - cbn. destruct (Nat.eqb_spec y 3) as [->|]; [|reflexivity]. exfalso. now apply (Hs x).
    - cbn. now destruct (Nat.eqb (match r with [] => z | _ :: _ => last r 0 end) 3).
  Qed.

  (** Data without unit is a TypeError, other units are an AttributeError, because
      DataArrays have no attribute units. *)
  Theorem c140_unit : forall n f t attrs,
    new_cloud (Raw (Arr [n; 3] f None)) t attrs None = Err TypeError /\
    forall u, is_length u = false -> new_cloud (Raw (Arr [n; 3] f (Some u))) t attrs None = Err AttributeError.
  Proof.
    intros n f t attrs. unfold CloudModel.new_cloud, vector3, new_array. cbn. rewrite xyz3. cbn. split; [reflexivity|].
    intros u Hu. now rewrite Hu.
  Qed.

  (** ** Limits *)
  (** The limits are the smallest and the greatest value of each component. *)
  Theorem c140_limits : forall (s : cloud), proper (s_coords s) -> NoDup (map fst (d_dims (s_coords s))) ->
    (forall k n, In (k, n) (d_dims (s_coords s)) -> 0 < n) ->
    exists mins maxs, limits s = Ok (mins, maxs) /\
      forall c, In ("c", c) (d_dims (s_coords s)) -> List.length mins = c /\ List.length maxs = c /\
      forall j, j < c ->
        (forall e, within (s_coords s) e -> e "c" = j ->
           leb (nth j mins dflt) (d_val (s_coords s) e) = true /\ leb (d_val (s_coords s) e) (nth j maxs dflt) = true) /\
        (exists e, within (s_coords s) e /\ e "c" = j /\ d_val (s_coords s) e = nth j mins dflt) /\
        (exists e, within (s_coords s) e /\ e "c" = j /\ d_val (s_coords s) e = nth j maxs dflt).
  Proof.
    intros s Hp Nd Pos. unfold CloudModel.limits. set (ds := d_dims (s_coords s)) in *. set (f := d_val (s_coords s)) in *.
    set (os := filter (fun x => negb (String.eqb (fst x) "c")) ds).
    assert (Sz : forall c, In ("c", c) ds -> size ds "c" = Some c).
    { clear - Nd. induction ds as [|[x m] r IH]; intros c H; [destruct H|]. cbn in *. inversion Nd as [|? ? N1 N2]; subst.
      destruct H as [Q|Q]; [injection Q as -> ->; reflexivity|].
      destruct (String.eqb_spec x "c") as [->|]; [exfalso; apply N1; now apply (in_map fst) in Q|now apply IH]. }
    set (js := seq 0 (match size ds "c" with Some c => c | None => 0 end)).
    assert (Ne : forall j, component s j <> []).
    { intro j. apply flat_nonempty. intros k n H. apply filter_In in H as [H _]. now apply (Pos k). }
    assert (Rd : forall g j, exists y, reduce g (component s j) = Ok y).
    { intros g j. specialize (Ne j). destruct (component s j) as [|x l]; [congruence|]. now exists (g x l). }
    destruct (mapM_ok (fun j => reduce (least leb) (component s j)) js) as (mins & E1 & F1); [intros; apply Rd|].
    destruct (mapM_ok (fun j => reduce (greatest leb) (component s j)) js) as (maxs & E2 & F2); [intros; apply Rd|].
    rewrite E1. cbn [bind]. rewrite E2. cbn [bind]. exists mins, maxs. split; [reflexivity|].
    intros c Hc. unfold js in F1, F2. rewrite (Sz c Hc) in F1, F2. clear js E1 E2.
    assert (Ln : forall {X Y} (P : X -> Y -> Prop) l l', Forall2 P l l' -> List.length l = List.length l').
    { intros X Y P l l' H. induction H; cbn; auto. }
    apply Ln in F1 as L1. apply Ln in F2 as L2. rewrite seq_length in L1, L2. split; [auto|]. split; [auto|].
    intros j Hj.
    assert (Nt : forall {Y} (P : nat -> Y -> Prop) N st l d i, Forall2 P (seq st N) l -> i < N -> P (st + i) (nth i l d)).
    { intros Y P N. induction N as [|N IH]; intros st l d i H Hi; [lia|]. cbn in H. inversion H; subst.
      destruct i as [|i]; [rewrite Nat.add_0_r; assumption|]. cbn. replace (st + S i) with (S st + i) by lia. apply IH; [assumption|lia]. }
    apply (Nt _ _ _ _ _ dflt j) in F1; [|exact Hj]. apply (Nt _ _ _ _ _ dflt j) in F2; [|exact Hj]. cbn in F1, F2.
    assert (Nos : NoDup (map fst os)).
    { unfold os. clear - Nd. induction ds as [|[x m] r IH]; [constructor|]. cbn in *. inversion Nd as [|? ? N1 N2]; subst.
      destruct (String.eqb x "c"); cbn; [now apply IH|]. constructor; [|now apply IH].
      intro H. apply N1. apply in_map_iff in H as (q & <- & Hq). apply filter_In in Hq as [Hq _]. now apply in_map. }
    assert (Inc : ~ In "c" (map fst os)).
    { unfold os. intro H. apply in_map_iff in H as ([x m] & Hx & Hq). cbn in Hx. subst x. apply filter_In in Hq as [_ Hq]. discriminate. }
    assert (Ex : forall e1 e2, (forall k, e1 k = e2 k) -> f e1 = f e2) by (intros e1 e2 H; apply Hp; intros k _; apply H).
    assert (In1 : forall e, within (s_coords s) e -> e "c" = j -> In (f e) (component s j)).
    { intros e W Hec. set (e' := fun k => if in_dec string_dec k (map fst os) then e k else put zero "c" j k).
      assert (Q : f e = f e').
      { apply Hp. intros k Hk. unfold e'. destruct (in_dec string_dec k (map fst os)) as [|N]; [reflexivity|].
        destruct (string_dec k "c") as [->|Nc]; [now rewrite put_same|]. exfalso. apply N. unfold os.
        fold ds in Hk. apply in_map_iff in Hk as ([x m] & Hx & Hq). cbn in Hx. subst x. apply in_map_iff. exists (k, m). split; [reflexivity|].
        apply filter_In. split; [exact Hq|]. cbn. now rewrite (proj2 (String.eqb_neq k "c") Nc). }
      rewrite Q. apply flat_has; try assumption.
      - intros k Hk. unfold e'. now destruct (in_dec string_dec k (map fst os)).
      - intros k n Hk. unfold e'. destruct (in_dec string_dec k (map fst os)) as [_|N].
        + apply filter_In in Hk as [Hk _]. now apply W.
        + exfalso. apply N. now apply (in_map fst) in Hk. }
    assert (Out : forall x, In x (component s j) -> exists e, within (s_coords s) e /\ e "c" = j /\ f e = x).
    { intros x Hx. apply flat_in in Hx as (e & -> & B & O). exists e.
      assert (Ec : e "c" = j) by (rewrite (O "c" Inc); apply put_same).
      split; [|split; [exact Ec|reflexivity]]. intros k n Hk. fold ds in Hk. destruct (string_dec k "c") as [->|N].
      - rewrite Ec. apply Sz in Hk. apply Sz in Hc. assert (c = n) by congruence. lia.
      - apply B; [exact Nos|]. apply filter_In. split; [exact Hk|]. cbn. now rewrite (proj2 (String.eqb_neq k "c") N). }
    unfold reduce in F1, F2. destruct (component s j) as [|x l] eqn:Eq; [discriminate|].
    injection F1 as <-. injection F2 as <-. destruct (least_ok l x) as [I1 B1]. destruct (greatest_ok l x) as [I2 B2].
    split; [|split].
    - intros e W Hec. specialize (In1 e W Hec). split; [now apply B1|now apply B2].
    - apply Out. exact I1.
    - apply Out. exact I2.
  Qed.

  (** Without points there are no limits. *)
  Theorem c140_no_limits : forall (s : cloud) k c, In (k, 0) (d_dims (s_coords s)) -> k <> "c" ->
    size (d_dims (s_coords s)) "c" = Some (S c) -> limits s = Err ValueError.
  Proof.
    intros s k c H N Hc. unfold CloudModel.limits. rewrite Hc. cbn [seq mapM].
    assert (Q : component s 0 = []).
    { apply flat_empty with k. apply filter_In. split; [exact H|]. cbn. now rewrite (proj2 (String.eqb_neq k "c") N). }
    rewrite Q. reflexivity.
  Qed.

  (** Times and dimensions. *)
  Theorem c140_dims : forall p t attrs time s, new_cloud p t attrs time = Ok s ->
    (forall k, In k (additional_dims s) <-> k <> "c" /\ exists n, In (k, n) (d_dims (s_coords s))) /\
    (is_time_dependent s = true <-> exists n, In ("time", n) (d_dims (s_coords s))) /\ In "n" (additional_dims s).
  Proof.
    intros p t attrs time s H. apply c140_cloud in H as ((others & n & c & E0) & _).
    assert (M : forall k, In k (names (s_coords s)) <-> exists n, In (k, n) (d_dims (s_coords s))).
    { intro k. unfold names. rewrite in_map_iff. split; [intros ([x m] & <- & Hx); now exists m|intros [m Hm]; now exists (k, m)]. }
    assert (D : forall k, In k (additional_dims s) <-> k <> "c" /\ exists n, In (k, n) (d_dims (s_coords s))).
    { intro k. unfold additional_dims. rewrite filter_In, M, negb_true_iff, String.eqb_neq. tauto. }
    split; [exact D|]. split.
    - unfold is_time_dependent. rewrite <- M. unfold smem. rewrite existsb_exists. split.
      + intros (x & Hx & Q). apply String.eqb_eq in Q. now subst x.
      + intro Hx. exists "time". split; [exact Hx|apply String.eqb_refl].
    - apply D. split; [discriminate|]. exists n. rewrite E0. apply in_or_app. right. now left.
  Qed.

  (** ** Mesh files *)
  Lemma static_rows : forall (s : cloud) n u, static s n -> proper (s_coords s) -> forall units,
    exists ps, rows3 (map (to u units) (flat (d_dims (s_coords s)) (d_val (s_coords s)) zero)) = Ok ps /\ List.length ps = n /\
      forall i j, i < n -> j < 3 -> nth j (nth i ps []) dflt = to u units (d_val (s_coords s) (at2 i j)).
  Proof.
    intros s n u St Hp units. unfold static in St.
    assert (L1 : forall e k, List.length (flat [("c", 3)] (d_val (s_coords s)) (put e "n" k)) = 3) by reflexivity.
    assert (Ln : List.length (flat (d_dims (s_coords s)) (d_val (s_coords s)) zero) = n * 3).
    { rewrite St. cbn [flat]. apply len_blocks. intro k. apply (L1 zero k). }
    destruct (rows3_ok n (map (to u units) (flat (d_dims (s_coords s)) (d_val (s_coords s)) zero))) as (ps & E1 & E2 & E3);
      [now rewrite map_length|]. exists ps. split; [exact E1|]. split; [exact E2|]. intros i j Hi Hj. rewrite (E3 i j Hj).
    rewrite (nth_indep _ dflt (to u units dflt)) by (rewrite map_length, Ln; lia). rewrite map_nth. f_equal.
    rewrite St. change (flat [("n", n); ("c", 3)] (d_val (s_coords s)) zero)
      with (flat_map (fun k => flat [("c", 3)] (d_val (s_coords s)) (put zero "n" k)) (seq 0 n)).
    rewrite (nth_blocks _ 3) by (try assumption; intro k; apply (L1 zero k)). cbn [flat seq flat_map app].
    destruct j as [|[|[|j]]]; [..|lia]; cbn; apply Hp; rewrite St; intros k [<-|[<-|[]]]; reflexivity.
  Qed.
  Lemma timed_rows : forall (s : cloud) T n u, timed s T n -> proper (s_coords s) -> forall units,
    exists ps, rows3 (map (to u units) (flat (d_dims (s_coords s)) (d_val (s_coords s)) zero)) = Ok ps /\ List.length ps = T * n /\
      forall t i j, t < T -> i < n -> j < 3 -> nth j (nth (t * n + i) ps []) dflt = to u units (d_val (s_coords s) (at3 t i j)).
  Proof.
    intros s T n u St Hp units. unfold timed in St.
    set (f := d_val (s_coords s)) in *.
    assert (L1 : forall e k, List.length (flat [("c", 3)] f (put e "n" k)) = 3) by reflexivity.
    assert (L2 : forall e k, List.length (flat [("n", n); ("c", 3)] f (put e "time" k)) = n * 3).
    { intros e k. cbn [flat]. apply len_blocks. intro q. apply (L1 (put e "time" k) q). }
    assert (Ln : List.length (flat (d_dims (s_coords s)) f zero) = T * n * 3).
    { rewrite St. change (flat [("time", T); ("n", n); ("c", 3)] f zero)
        with (flat_map (fun k => flat [("n", n); ("c", 3)] f (put zero "time" k)) (seq 0 T)).
      rewrite (len_blocks _ (n * 3)); [lia|]. intro k. apply L2. }
    destruct (rows3_ok (T * n) (map (to u units) (flat (d_dims (s_coords s)) f zero))) as (ps & E1 & E2 & E3);
      [now rewrite map_length|]. exists ps. split; [exact E1|]. split; [exact E2|]. intros t i j Ht Hi Hj. rewrite (E3 _ j Hj).
    rewrite (nth_indep _ dflt (to u units dflt)) by (rewrite map_length, Ln; nia). rewrite map_nth. f_equal.
    rewrite St. change (flat [("time", T); ("n", n); ("c", 3)] f zero)
        with (flat_map (fun k => flat [("n", n); ("c", 3)] f (put zero "time" k)) (seq 0 T)).
    replace ((t * n + i) * 3 + j) with (t * (n * 3) + (i * 3 + j)) by lia.
    rewrite (nth_blocks _ (n * 3)) by (try assumption; try lia; intro k; apply L2).
    change (flat [("n", n); ("c", 3)] f (put zero "time" (0 + t)))
      with (flat_map (fun k => flat [("c", 3)] f (put (put zero "time" (0 + t)) "n" k)) (seq 0 n)).
    rewrite (nth_blocks _ 3) by (try assumption; intro k; apply (L1 (put zero "time" (0 + t)) k)). cbn [flat seq flat_map app].
    destruct j as [|[|[|j]]]; [..|lia]; cbn; apply Hp; rewrite St; intros k [<-|[<-|[<-|[]]]]; reflexivity.
  Qed.
  Lemma read_back : forall int ps ts units, is_length units = true -> ts <> [] ->
    exists s, from_file int (Mesh ps ts) units = Ok s /\ static s (List.length ps) /\ d_unit (s_coords s) = Some units /\
      s_tris s = Some (Tris [List.length ts; 3] ts int) /\ s_attrs s = None /\
      forall i j, d_val (s_coords s) (at2 i j) = nth j (nth i ps []) dflt.
  Proof.
    intros int ps ts units Hu Ht. unfold CloudModel.from_file, CloudModel.new_cloud, vector3, new_array. cbn. rewrite xyz3. cbn. rewrite Hu.
    destruct ts as [|t ts]; [congruence|]. cbn. eexists. split; [reflexivity|]. cbn. now repeat split.
  Qed.

  (** A static cloud with triangles, written and read with the same unit: the points in
      this unit, and the triangles. *)
  Theorem c140_file : forall (s : cloud) n u t units int, static s n -> proper (s_coords s) -> d_unit (s_coords s) = Some u ->
    s_tris s = Some t -> t_rows t <> [] -> is_length units = true ->
    exists m s', to_file s units = Ok m /\ from_file int m units = Ok s' /\ static s' n /\ d_unit (s_coords s') = Some units /\
      (forall i j, i < n -> j < 3 -> d_val (s_coords s') (at2 i j) = to u units (d_val (s_coords s) (at2 i j))) /\
      exists t', s_tris s' = Some t' /\ t_rows t' = t_rows t.
  Proof.
    intros s n u t units int St Hp Hd Ht Hne Hu. destruct (static_rows s n u St Hp units) as (ps & E1 & E2 & E3).
    destruct (read_back int ps (t_rows t) units Hu Hne) as (s' & R1 & R2 & R3 & R4 & R5 & R6).
    exists (Mesh ps (t_rows t)), s'. unfold CloudModel.to_file. rewrite Hd, Hu, E1. cbn [bind]. rewrite Ht.
    split; [reflexivity|]. split; [exact R1|]. rewrite E2 in R2. split; [exact R2|]. split; [exact R3|]. split.
    - intros i j Hi Hj. rewrite R6. now apply E3.
    - rewrite R4. eexists. split; reflexivity.
  Qed.
  (** Read with another unit, the numbers stay the same. *)
  Theorem c140_file_units : forall (s : cloud) n u t units units' int, static s n -> proper (s_coords s) -> d_unit (s_coords s) = Some u ->
    s_tris s = Some t -> t_rows t <> [] -> is_length units = true -> is_length units' = true ->
    exists m s', to_file s units = Ok m /\ from_file int m units' = Ok s' /\ d_unit (s_coords s') = Some units' /\
      forall i j, i < n -> j < 3 -> d_val (s_coords s') (at2 i j) = to u units (d_val (s_coords s) (at2 i j)).
  Proof.
    intros s n u t units units' int St Hp Hd Ht Hne Hu Hu'. destruct (static_rows s n u St Hp units) as (ps & E1 & E2 & E3).
    destruct (read_back int ps (t_rows t) units' Hu' Hne) as (s' & R1 & R2 & R3 & R4 & R5 & R6).
    exists (Mesh ps (t_rows t)), s'. unfold CloudModel.to_file. rewrite Hd, Hu, E1. cbn [bind]. rewrite Ht.
    split; [reflexivity|]. split; [exact R1|]. split; [exact R3|]. intros i j Hi Hj. rewrite R6. now apply E3.
  Qed.
  (** The points of all times are written one after the other; times and attributes are lost. *)
  Theorem c140_file_times : forall (s : cloud) T n u t units int, timed s T n -> proper (s_coords s) -> d_unit (s_coords s) = Some u ->
    s_tris s = Some t -> t_rows t <> [] -> is_length units = true ->
    exists m s', to_file s units = Ok m /\ from_file int m units = Ok s' /\ static s' (T * n) /\ is_time_dependent s' = false /\
      s_attrs s' = None /\
      forall k i j, k < T -> i < n -> j < 3 -> d_val (s_coords s') (at2 (k * n + i) j) = to u units (d_val (s_coords s) (at3 k i j)).
  Proof.
    intros s T n u t units int St Hp Hd Ht Hne Hu. destruct (timed_rows s T n u St Hp units) as (ps & E1 & E2 & E3).
    destruct (read_back int ps (t_rows t) units Hu Hne) as (s' & R1 & R2 & R3 & R4 & R5 & R6).
    exists (Mesh ps (t_rows t)), s'. unfold CloudModel.to_file. rewrite Hd, Hu, E1. cbn [bind]. rewrite Ht.
    split; [reflexivity|]. split; [exact R1|]. rewrite E2 in R2. split; [exact R2|]. split.
    { unfold is_time_dependent, names. unfold static in R2. now rewrite R2. }
    split; [exact R5|]. intros k i j Hk Hi Hj. rewrite R6. now apply E3.
  Qed.
  (** Other units are refused. *)
  Theorem c140_file_refused : forall (s : cloud) u units, d_unit (s_coords s) = Some u -> is_length units = false ->
    to_file s units = Err DimensionalityError.
  Proof. intros s u units H Hu. unfold CloudModel.to_file. now rewrite H, Hu. Qed.

  (** Points whose coordinates cannot be grouped by three are a ValueError. *)
  Lemma rows3_rest : forall l : list F, List.length l mod 3 <> 0 -> rows3 l = Err ValueError.
  Proof.
    assert (H : forall k (l : list F), List.length l <= k -> List.length l mod 3 <> 0 -> rows3 l = Err ValueError).
    { induction k as [|k IH]; intros l Hk H; [destruct l; [now contradiction H|cbn in Hk; lia]|].
      destruct l as [|x [|y [|z r]]]; [now contradiction H|reflexivity|reflexivity|]. cbn [rows3].
      rewrite (IH r); [reflexivity|cbn in Hk; lia|]. intros E. apply H. cbn [List.length].
      replace (S (S (S (List.length r)))) with (List.length r + 1 * 3) by lia. rewrite Nat.mod_add by lia. exact E. }
    intros l. now apply (H (List.length l)).
  Qed.
  Lemma flat_length : forall ds (f : index -> F) e, List.length (flat ds f e) = fold_right Nat.mul 1 (map snd ds).
  Proof.
    induction ds as [|[d n] r IH]; intros f e; [reflexivity|]. cbn [flat map snd fold_right].
    assert (G : forall l, List.length (flat_map (fun i => flat r f (put e d i)) l) = List.length l * fold_right Nat.mul 1 (map snd r)).
    { induction l as [|a l IHl]; [reflexivity|]. cbn [flat_map List.length]. rewrite app_length, IHl, IH. reflexivity. }
    rewrite G, seq_length. reflexivity.
  Qed.
  Theorem c140_file_rest : forall (s : cloud) u units, d_unit (s_coords s) = Some u -> is_length units = true ->
    fold_right Nat.mul 1 (map snd (d_dims (s_coords s))) mod 3 <> 0 -> to_file s units = Err ValueError.
  Proof.
    intros s u units Hd Hu H. unfold CloudModel.to_file. rewrite Hd, Hu, rows3_rest; [reflexivity|].
    now rewrite map_length, flat_length.
  Qed.

  (** ** Saving *)
  (** What can be saved: three components and unsigned indices. *)
  Theorem c140_savable : forall (s : cloud) others n c, d_dims (s_coords s) = (others ++ [("n", n); ("c", c)])%list ->
    (exists nd, save s = Ok nd) <-> c = 3 /\ match s_tris s with None => True | Some t => t_type t <> OtherInt end.
  Proof.
    intros s others n c E0.
    assert (La : last (map snd (others ++ [("n", n); ("c", c)])%list) 0 = c).
    { rewrite map_app. cbn [map snd]. change [n; c] with ([n] ++ [c])%list. rewrite app_assoc. apply last_last. }
    assert (Q : valid (to_tree s) = Nat.eqb c 3 && match s_tris s with None => true | Some t => match t_type t with OtherInt => false | _ => true end end).
    { unfold valid, to_tree. cbn [n_coords n_tris].
      destruct (Nat.leb (List.length (d_dims (s_coords s))) 2); cbn [a_shape data_of]; rewrite E0, La; reflexivity. }
    unfold save. rewrite Q. destruct (Nat.eqb_spec c 3) as [->|N]; cbn [andb].
    - destruct (s_tris s) as [t|]; [|split; [auto|intros _; eauto]].
      destruct (t_type t); (split; [intros H; split; [reflexivity|try discriminate]|intros [_ H]; try eauto]).
      + destruct H as [nd H]. discriminate.
      + congruence.
    - split; [intros [nd H]; discriminate|intros [H _]; congruence].
  Qed.
  (** Triangles given as lists are kept with unsigned indices, so that the cloud can be
      saved. *)
  Theorem c140_lists : forall n f u m rows attrs s,
    new_cloud (Raw (Arr [n; 3] f (Some u))) (Some (TList [m; 3] rows)) attrs None = Ok s ->
    s_tris s = Some (Tris [m; 3] rows Uint64) /\ exists nd, save s = Ok nd.
  Proof.
    intros n f u m rows attrs s. unfold CloudModel.new_cloud, vector3, new_array. cbn. rewrite xyz3. cbn.
    destruct (is_length u); [|discriminate]. intros H. injection H as <-. split; [reflexivity|]. eexists. reflexivity.
  Qed.
  (** Whatever was constructed and can be saved is loaded again: times, components and
      points with their unit, triangles and attributes. *)
  Theorem c140_saved : forall p t attrs time s nd lazy, new_cloud p t attrs time = Ok s -> proper (s_coords s) -> save s = Ok nd ->
    exists s', load lazy false nd = Ok s' /\ d_dims (s_coords s') = d_dims (s_coords s) /\
      (forall e, d_val (s_coords s') e = d_val (s_coords s) e) /\ d_unit (s_coords s') = d_unit (s_coords s) /\
      s_attrs s' = s_attrs s /\
      match s_tris s, s_tris s' with
      | None, None => True
      | Some t, Some t' => t_rows t' = t_rows t /\ t_shape t' = t_shape t
      | _, _ => False
      end /\
      (2 < List.length (d_dims (s_coords s)) -> s_coords s' = s_coords s) /\
      (List.length (d_dims (s_coords s)) <= 2 -> d_coords (s_coords s') = [("c", xyz)]).
  Proof.
    intros p t attrs time s nd lazy H Hp Hs. pose proof (c140_cloud _ _ _ _ _ H) as ((others & n & c & E0) & (u & Eu & Hu) & _ & Ht).
    pose proof (proj1 (c140_savable s others n c E0) (ex_intro _ nd Hs)) as [-> _].
    unfold save in Hs. destruct (valid (to_tree s)); [|discriminate]. injection Hs as <-.
    assert (Tr : match s_tris s with None => True | Some t' => exists m, t_shape t' = [m; 3] end).
    { destruct t as [t|]; [destruct Ht as [-> [m Hm]]; now exists m|now rewrite Ht]. }
    assert (Fin : forall (d : darr) (attrs' : option A), is_length u = true ->
      exists s' : cloud, match option_map (fun t0 => if lazy then TList (t_shape t0) (t_rows t0) else TArray t0) (s_tris s) with
                 | None => Ok (Cloud d None attrs')
                 | Some t0 => bind (check_tris (as_tris t0)) (fun _ => Ok (Cloud d (Some (as_tris t0)) attrs')) end = Ok s' /\
        s_coords s' = d /\ s_attrs s' = attrs' /\
        match s_tris s, s_tris s' with
        | None, None => True
        | Some t, Some t' => t_rows t' = t_rows t /\ t_shape t' = t_shape t
        | _, _ => False
        end).
    { intros d attrs' _. destruct (s_tris s) as [t0|]; [|eexists; now repeat split]. destruct Tr as [m Hm].
      cbn [option_map]. destruct lazy; cbn [as_tris]; unfold check_tris; cbn [t_shape]; rewrite Hm; cbn; eexists; now repeat split. }
    unfold CloudModel.load, to_tree. cbn [n_coords n_tris n_attrs].
    destruct (Nat.leb_spec (List.length (d_dims (s_coords s))) 2) as [Le|Gt].
    - assert (others = []) as ->.
      { rewrite E0, app_length in Le. cbn in Le. destruct others; [reflexivity|cbn in Le; lia]. }
      cbn [app] in E0. unfold CloudModel.new_cloud, vector3, data_of. cbn [a_shape]. rewrite E0. cbn -[data_of].
      rewrite xyz3. cbn. rewrite Eu, Hu.
      set (d' := Da [("n", n); ("c", 3)] _ (Some u) [("c", xyz)] false).
      destruct (Fin d' (s_attrs s) Hu) as (s' & F1 & F2 & F3 & F4).
      exists s'. split; [rewrite <- F1; now destruct (s_tris s)|]. rewrite F2. subst d'. cbn.
      split; [reflexivity|]. split; [|split; [reflexivity|split; [exact F3|split; [exact F4|split; [lia|reflexivity]]]]].
      intro e. apply Hp. rewrite E0. unfold names. rewrite E0. intros k [<-|[<-|[]]]; reflexivity.
    - unfold CloudModel.new_cloud. cbn [bind]. unfold order.
      assert (Hn : forall x, In x others -> fst x <> "n" /\ fst x <> "c").
      { intros x Hx. destruct p as [a|d].
        - apply c140_raw in H as (_ & H & _). destruct time as [l|].
          + destruct H as (n0 & _ & Q & _). unfold timed in Q. rewrite E0 in Q.
            destruct others as [|x0 [|x1 o]]; cbn in Q; try discriminate.
            * injection Q as -> _. destruct Hx as [<-|[]]. split; discriminate.
            * apply (f_equal (@List.length _)) in Q. cbn in Q. rewrite app_length in Q. cbn in Q. lia.
          + destruct H as (n0 & _ & Q & _). unfold static in Q. rewrite E0 in Q.
            apply (f_equal (@List.length _)) in Q. rewrite app_length in Q. cbn in Q. destruct others; [destruct Hx|cbn in Q; lia].
        - apply c140_given in H as ((o & n0 & c0 & Q & O & _) & _). rewrite E0 in Q.
          change [("n", n); ("c", 3)] with ([("n", n)] ++ [("c", 3)])%list in Q. change [("n", n0); ("c", c0)] with ([("n", n0)] ++ [("c", c0)])%list in Q.
          rewrite !app_assoc in Q. apply app_inj_tail in Q as [Q _]. apply app_inj_tail in Q as [-> _].
          destruct x as [k m]. apply O in Hx. cbn. tauto. }
      assert (Sk : forall k, k = "n" \/ k = "c" -> size (others ++ [("n", n); ("c", 3)])%list k = size [("n", n); ("c", 3)] k).
      { intros k Hk. clear - Hn Hk. induction others as [|[x m] r IH]; [reflexivity|]. cbn [app size].
        destruct (Hn (x, m) (or_introl eq_refl)) as [N1 N2]. cbn in N1, N2.
        destruct (String.eqb_spec x k) as [->|]; [destruct Hk; congruence|]. apply IH. intros y Hy. apply Hn. now right. }
      assert (Fl : filter (fun x => negb (String.eqb (fst x) "n" || String.eqb (fst x) "c")) (others ++ [("n", n); ("c", 3)])%list = others).
      { rewrite filter_app. cbn [filter fst]. cbn -[filter]. rewrite app_nil_r. clear - Hn. induction others as [|x r IH]; [reflexivity|]. cbn [filter].
        destruct (Hn x (or_introl eq_refl)) as [N1 N2]. rewrite (proj2 (String.eqb_neq _ _) N1), (proj2 (String.eqb_neq _ _) N2). cbn.
        f_equal. apply IH. intros y Hy. apply Hn. now right. }
      rewrite E0, (Sk "n"), (Sk "c") by auto. cbn [size String.eqb Ascii.eqb Bool.eqb]. rewrite Fl. cbn [bind d_unit]. rewrite Eu, Hu.
      assert (Ed : Da (others ++ [("n", n); ("c", 3)])%list (d_val (s_coords s)) (Some u) (d_coords (s_coords s)) (d_attr (s_coords s)) = s_coords s).
      { destruct (s_coords s) as [a1 a2 a3 a4 a5]. cbn in *. now rewrite <- E0, Eu. }
      rewrite Ed. destruct (Fin (s_coords s) (s_attrs s) Hu) as (s' & F1 & F2 & F3 & F4).
      exists s'. split; [rewrite <- F1; now destruct (s_tris s)|]. rewrite F2, <- E0.
      split; [reflexivity|]. split; [reflexivity|]. split; [exact Eu|]. split; [exact F3|]. split; [exact F4|]. split; [reflexivity|lia].
  Qed.
  (** Coordinates of old files, which have no unit, are in mm. *)
  Theorem c140_legacy : forall n f v attrs lazy, is_length mm = true ->
    exists s, load lazy true (Node (Raw (Arr [n; 3] f v)) None attrs) = Ok s /\ static s n /\ d_unit (s_coords s) = Some mm /\
      forall i j, d_val (s_coords s) (at2 i j) = f [i; j].
  Proof.
    intros n f v attrs lazy Hu. unfold CloudModel.load, CloudModel.new_cloud, vector3, new_array. cbn. rewrite xyz3. cbn. rewrite Hu.
    eexists. split; [reflexivity|]. now repeat split.
  Qed.
End Props.
Print Assumptions c140_raw.
Print Assumptions c140_accepts.
Print Assumptions c140_shape.
Print Assumptions c140_given.
Print Assumptions c140_cloud.
Print Assumptions c140_triangles.
Print Assumptions c140_unit.
Print Assumptions c140_limits.
Print Assumptions c140_no_limits.
Print Assumptions c140_dims.
Print Assumptions c140_file.
Print Assumptions c140_file_units.
Print Assumptions c140_file_times.
Print Assumptions c140_file_refused.
Print Assumptions c140_file_rest.
Print Assumptions c140_lists.
Print Assumptions c140_savable.
Print Assumptions c140_saved.
Print Assumptions c140_legacy.

(** ** An instance *)
Inductive unit_ex : Type := MM | CM | Second.
Definition len_ex (u : unit_ex) : bool := match u with Second => false | _ => true end.
Definition to_ex (u v : unit_ex) (x : Z) : Z :=
  match u, v with CM, MM => (10 * x)%Z | MM, CM => (x / 10)%Z | _, _ => x end.
Definition xyz_ex : list string := ["x"; "y"; "z"].
Definition new_ex : points Z unit_ex string -> option triangles -> option nat -> option (list string) -> res (cloud Z unit_ex string nat) :=
  new_cloud len_ex xyz_ex.
Definition write_ex : cloud Z unit_ex string nat -> unit_ex -> res (mesh Z) := to_file len_ex to_ex (Err TypeError).
Definition read_ex : dtype -> mesh Z -> unit_ex -> res (cloud Z unit_ex string nat) := from_file len_ex xyz_ex 0%Z.
Definition load_ex : node Z unit_ex string nat -> res (cloud Z unit_ex string nat) := load len_ex MM xyz_ex true false.
Definition pts_ex (l : list (list Z)) (u : unit_ex) : arr Z unit_ex :=
  Arr [List.length l; 3] (fun ix => match ix with [i; j] => nth j (nth i l []) 0%Z | _ => 0%Z end) (Some u).
Definition tri_ex : option triangles := Some (TList [1; 3] [[0; 1; 2]]).
Definition three : list (list Z) := [[10; 20; 30]; [40; 50; 60]; [70; 0; 90]]%Z.

Example limits_ex : bind (new_ex (Raw (pts_ex three MM)) tri_ex None None) (limits Z.leb) = Ok ([10; 0; 30]%Z, [70; 50; 90]%Z).
Proof. reflexivity. Qed.
Example write_example : bind (new_ex (Raw (pts_ex three MM)) tri_ex None None) (fun s => write_ex s CM)
  = Ok (Mesh [[1; 2; 3]; [4; 5; 6]; [7; 0; 9]]%Z [[0; 1; 2]]).
Proof. reflexivity. Qed.
Example timed_ex : bind (new_ex (Raw (Arr [2; 1; 3] (fun ix => Z.of_nat (hd 0 ix)) (Some MM))) tri_ex (Some 7) (Some ["0s"; "1s"]))
    (fun s => bind (write_ex s MM) (fun m => Ok (is_time_dependent s, m_points m)))
  = Ok (true, [[0; 0; 0]; [1; 1; 1]]%Z).
Proof. reflexivity. Qed.
Example saved_ex : exists nd s, bind (new_ex (Raw (pts_ex three MM)) tri_ex (Some 7) None) save = Ok nd /\ load_ex nd = Ok s /\
  static s 3 /\ s_attrs s = Some 7.
Proof. eexists _, _. split; [reflexivity|]. split; [reflexivity|]. split; reflexivity. Qed.

(** ** False claims *)
(** "The coordinates units must represent a length", a DimensionalityError: it is an
    AttributeError. *)
Theorem c140_dimension_refuted :
  ~ (forall a u t, a_unit a = Some u -> len_ex u = false -> new_ex (Raw a) t None None = Err DimensionalityError).
Proof. intro H. specialize (H (pts_ex three Second) Second None eq_refl eq_refl). discriminate. Qed.
Print Assumptions c140_dimension_refuted.

(** "3D point cloud data": DataArrays with two components are accepted; they cannot be
    saved, and a mesh file has other points. *)
Definition flat_ex : darr Z unit_ex string :=
  Da [("n", 3); ("c", 2)] (fun e => (10 * Z.of_nat (e "n") + Z.of_nat (e "c"))%Z) (Some MM) [] false.
Theorem c140_components_refuted :
  exists s, new_ex (Given flat_ex) tri_ex None None = Ok s /\ save s = Err ValidationError /\
    write_ex s MM = Ok (Mesh [[0; 1; 10]; [11; 20; 21]]%Z [[0; 1; 2]]).
Proof. eexists. split; [reflexivity|]. split; reflexivity. Qed.
Print Assumptions c140_components_refuted.

(** A cloud is read from the file it was written to: not with the default unit of
    [from_file] after another unit was written. *)
Theorem c140_units_refuted :
  exists s m s', new_ex (Raw (pts_ex three MM)) tri_ex None None = Ok s /\ write_ex s CM = Ok m /\ read_ex OtherInt m MM = Ok s' /\
    d_unit (s_coords s) = Some MM /\ d_unit (s_coords s') = Some MM /\
    d_val (s_coords s) (at2 0 0) = 10%Z /\ d_val (s_coords s') (at2 0 0) = 1%Z.
Proof. eexists _, _, _. split; [reflexivity|]. split; [reflexivity|]. split; [reflexivity|]. repeat split; reflexivity. Qed.
Print Assumptions c140_units_refuted.

(** What was read from a mesh file can be saved: not if meshio reads signed indices. *)
Theorem c140_indices_refuted :
  exists s, read_ex OtherInt (Mesh three [[0; 1; 2]]) MM = Ok s /\ save s = Err ValidationError.
Proof. eexists. split; reflexivity. Qed.
Print Assumptions c140_indices_refuted.

(** Triangles may refer to points that do not exist. *)
Theorem c140_range_refuted :
  exists s, new_ex (Raw (pts_ex three MM)) (Some (TList [1; 3] [[0; 1; 99]])) None None = Ok s.
Proof. eexists. reflexivity. Qed.
Print Assumptions c140_range_refuted.

(** A saved cloud is loaded with its coordinates: not those of the points of a static one. *)
Definition label_ex : darr Z unit_ex string :=
  Da [("n", 1); ("c", 3)] (fun e => Z.of_nat (e "c")) (Some MM) [("n", ["corner"])] false.
Theorem c140_labels_refuted :
  exists s nd s', new_ex (Given label_ex) None None None = Ok s /\ save s = Ok nd /\ load_ex nd = Ok s' /\
    dget "n" (d_coords (s_coords s)) = Some ["corner"] /\ dget "n" (d_coords (s_coords s')) = None.
Proof. eexists _, _, _. split; [reflexivity|]. split; [reflexivity|]. split; [reflexivity|]. split; reflexivity. Qed.
Print Assumptions c140_labels_refuted.
