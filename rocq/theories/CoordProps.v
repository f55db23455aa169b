(** Properties of transpositions and of coordinates with units. *)
From Coq Require Import List String Bool Arith Lia.
From Verif Require Import Base CoordModel.
Import ListNotations.
Open Scope string_scope.

(** exchange of two positions *)
Definition sigma (a b k : nat) : nat := if Nat.eqb k a then b else if Nat.eqb k b then a else k.
(** the first position of [x] *)
Definition first (x : string) (l : list string) (i : nat) : Prop :=
  nth_error l i = Some x /\ forall j, j < i -> nth_error l j <> Some x.

Lemma index_first x l i : index x l = Ok i <-> first x l i.
Proof.
  revert i. induction l as [|y l IH]; intros i; cbn [index].
  - split; [discriminate|]. intros [H _]. destruct i; discriminate.
  - destruct (String.eqb_spec x y) as [->|N].
    + split; [intros [= <-]; split; [reflexivity|lia]|]. intros [_ H]. destruct i as [|i]; [reflexivity|].
      elim (H 0); [lia|reflexivity].
    + split.
      * destruct (index x l) as [k|] eqn:Q; [|discriminate]. cbn [bind]. intros [= <-].
        destruct (proj1 (IH k) eq_refl) as [A B]. split; [exact A|]. intros [|j] J; [cbn; congruence|]. apply B. lia.
      * intros [A B]. destruct i as [|i]; [cbn in A; congruence|].
        rewrite (proj2 (IH i)); [reflexivity|]. split; [exact A|]. intros j J. apply (B (S j)). lia.
Qed.
Lemma index_in x l : (exists i, index x l = Ok i) <-> In x l.
Proof.
  induction l as [|y l IH]; cbn [index]; [split; [intros [i [=]]|intros []]|].
  destruct (String.eqb_spec x y) as [->|N]; [split; [now left|eexists; reflexivity]|]. split.
  - intros [i H]. right. apply IH. destruct (index x l); [eexists; reflexivity|discriminate].
  - intros [H|H]; [congruence|]. apply IH in H as [i H]. rewrite H. eexists. reflexivity.
Qed.
Lemma index_err x l e : index x l = Err e -> e = ValueError /\ ~ In x l.
Proof.
  induction l as [|y l IH]; cbn [index]; [intros [= <-]; split; [reflexivity|intros []]|].
  destruct (String.eqb_spec x y) as [->|N]; [discriminate|]. destruct (index x l); [discriminate|].
  cbn [bind]. intros [= <-]. destruct (IH eq_refl) as [-> H]. split; [reflexivity|]. intros [C|C]; [congruence|contradiction].
Qed.
Lemma set_len {A} i (x : A) l : List.length (set_nth i x l) = List.length l.
Proof. revert i. induction l as [|y l IH]; intros [|i]; cbn; auto. Qed.
Lemma set_get {A} i (x : A) l k : nth_error (set_nth i x l) k =
  if Nat.eqb k i then (if Nat.ltb i (List.length l) then Some x else None) else nth_error l k.
Proof.
  revert i k. induction l as [|y l IH]; intros i k.
  - destruct i as [|i], k as [|k]; cbn; try reflexivity. now destruct (Nat.eqb k i).
  - destruct i as [|i], k as [|k]; try reflexivity. cbn [set_nth nth_error]. rewrite IH. reflexivity.
Qed.
Lemma first_lt x l i : first x l i -> i < List.length l.
Proof. intros [H _]. apply nth_error_Some. congruence. Qed.

(** The items at the first positions of both values are exchanged, all others are kept. *)
Theorem c119_swap : forall l x y a b, first x l a -> first y l b ->
  exists r, swap_list_items l x y = Ok r /\ forall k, nth_error r k = nth_error l (sigma a b k).
Proof.
  intros l x y a b A B. unfold swap_list_items. rewrite (proj2 (index_first _ _ _) A), (proj2 (index_first _ _ _) B).
  cbn [bind]. eexists. split; [reflexivity|]. intros k. apply first_lt in A as LA. apply first_lt in B as LB.
  rewrite !set_get, set_len. unfold sigma.
  rewrite (proj2 (Nat.ltb_lt _ _) LA), (proj2 (Nat.ltb_lt _ _) LB).
  destruct (Nat.eqb k a); [|destruct (Nat.eqb k b); [|reflexivity]]; symmetry; now apply nth_error_nth'.
Qed.
Print Assumptions c119_swap.
Theorem c119_swap_errors : forall l x y,
  ((exists r, swap_list_items l x y = Ok r) <-> In x l /\ In y l) /\
  (forall e, swap_list_items l x y = Err e -> e = ValueError).
Proof.
  intros l x y. unfold swap_list_items. rewrite <- !index_in.
  destruct (index x l) as [a|e] eqn:A; cbn [bind].
  - destruct (index y l) as [b|e] eqn:B; cbn [bind].
    + split; [|discriminate]. split; [intros _; split; eexists; reflexivity|intros _; eexists; reflexivity].
    + split; [split; [intros [r [=]]|intros [_ [i [=]]]]|]. apply index_err in B as [-> _]. now intros e [= <-].
  - split; [split; [intros [r [=]]|intros [[i [=]] _]]|]. apply index_err in A as [-> _]. now intros e' [= <-].
Qed.
Print Assumptions c119_swap_errors.
Lemma sigma_inv a b k : sigma a b (sigma a b k) = k.
Proof.
  unfold sigma. destruct (Nat.eqb_spec k a) as [->|]; [destruct (Nat.eqb_spec b a); [auto|now rewrite Nat.eqb_refl]|].
  destruct (Nat.eqb_spec k b) as [->|]; [now rewrite Nat.eqb_refl|].
  destruct (Nat.eqb_spec k a), (Nat.eqb_spec k b); congruence.
Qed.
Lemma nodup_first l x i : NoDup l -> nth_error l i = Some x -> first x l i.
Proof.
  intros N H. split; [exact H|]. intros j J C.
  assert (j = i); [|lia]. apply (proj1 (NoDup_nth_error l) N); [apply nth_error_Some; congruence|congruence].
Qed.
Lemma list_ext {A} (l m : list A) : (forall k, nth_error l k = nth_error m k) -> l = m.
Proof.
  revert m. induction l as [|x l IH]; intros [|y m] H; try reflexivity; try (now specialize (H 0)).
  pose proof (H 0) as X. injection X as ->. f_equal. apply IH. intros k. apply (H (S k)).
Qed.
Lemma sigma_dims (l r : list string) a b : NoDup l -> a < List.length l -> b < List.length l ->
  (forall k, nth_error r k = nth_error l (sigma a b k)) -> NoDup r /\ List.length r = List.length l.
Proof.
  intros N A B H.
  assert (Q : forall k, k < List.length r <-> k < List.length l).
  { intros k. rewrite <- !nth_error_Some, H, !nth_error_Some. unfold sigma.
    destruct (Nat.eqb_spec k a); [subst; lia|]. destruct (Nat.eqb_spec k b); [subst; lia|reflexivity]. }
  split.
  - apply NoDup_nth_error. intros i j I E. rewrite !H in E.
    apply (proj1 (NoDup_nth_error l) N) in E; [now rewrite <- (sigma_inv a b i), E, sigma_inv|].
    apply nth_error_Some. rewrite <- H. now apply nth_error_Some.
  - pose proof (Q (List.length r)). pose proof (Q (List.length l)). lia.
Qed.
(** Without repetitions, swapping twice gives the list back. False with repetitions. *)
Theorem c119_swap_twice : forall l x y r, NoDup l -> swap_list_items l x y = Ok r ->
  swap_list_items r x y = Ok l.
Proof.
  intros l x y r N H. destruct (proj1 (proj1 (c119_swap_errors l x y)) (ex_intro _ r H)) as [X Y].
  apply index_in in X as [a A]. apply index_in in Y as [b B]. apply index_first in A. apply index_first in B.
  destruct (c119_swap l x y a b A B) as (r' & H' & G). assert (r' = r) by congruence. subst r'.
  destruct (sigma_dims l r a b N (first_lt _ _ _ A) (first_lt _ _ _ B) G) as [NR _].
  assert (FA : first x r b).
  { apply nodup_first; [exact NR|]. rewrite G. unfold sigma. rewrite Nat.eqb_refl.
    destruct (Nat.eqb_spec b a) as [->|]; apply A. }
  assert (FB : first y r a).
  { apply nodup_first; [exact NR|]. rewrite G. unfold sigma. rewrite Nat.eqb_refl. apply B. }
  destruct (c119_swap r x y b a FA FB) as (l' & -> & G'). f_equal. apply list_ext. intros k. rewrite G', G.
  f_equal. unfold sigma. destruct (Nat.eqb_spec k b) as [->|]; [now rewrite Nat.eqb_refl|].
  destruct (Nat.eqb_spec k a) as [->|]; [|destruct (Nat.eqb_spec k a), (Nat.eqb_spec k b); congruence].
  destruct (Nat.eqb_spec b a); [auto|now rewrite Nat.eqb_refl].
Qed.
Print Assumptions c119_swap_twice.
Theorem c119_swap_twice_refuted : exists l x y r, swap_list_items l x y = Ok r /\ swap_list_items r x y <> Ok l.
Proof. exists ["x"; "x"; "y"], "x", "y". eexists. split; [reflexivity|]. discriminate. Qed.
Print Assumptions c119_swap_twice_refuted.

(** ** Transposition of matrices *)
Section Matrix.
  Context {F : Type}.
  Definition valid (da : data_array F) : Prop := NoDup (dims da) /\ List.length (shape da) = List.length (dims da).
  Lemma position_first x l i : first x l i -> position x l = i.
  Proof. intros H. unfold position. now rewrite (proj2 (index_first _ _ _) H). Qed.
  Lemma swap_positions (da : data_array F) x y a b : valid da -> first x (dims da) a -> first y (dims da) b ->
    exists r, swap_list_items (dims da) x y = Ok r /\
      (forall idx, data (transpose da r) idx = data da (map (fun k => nth (sigma a b k) idx 0) (seq 0 (List.length (dims da))))) /\
      (shape (transpose da r) = shape da <-> nth a (shape da) 0 = nth b (shape da) 0).
  Proof.
    intros [N L] A B. destruct (c119_swap _ _ _ _ _ A B) as (r & H & G). exists r. split; [exact H|].
    pose proof (first_lt _ _ _ A) as LA. pose proof (first_lt _ _ _ B) as LB.
    destruct (sigma_dims _ _ _ _ N LA LB G) as [NR LR]. split.
    - intros idx. cbn [transpose data]. f_equal. apply list_ext. intros k. rewrite !nth_error_map.
      destruct (Nat.ltb_spec k (List.length (dims da))) as [K|K].
      + rewrite (nth_error_nth' (seq _ _) 0) by now rewrite seq_length. rewrite seq_nth by assumption.
        rewrite (nth_error_nth' (dims da) "" K). cbn [option_map Nat.add]. f_equal. f_equal. apply position_first.
        apply nodup_first; [exact NR|]. rewrite G, sigma_inv. now apply nth_error_nth'.
      + rewrite (proj2 (nth_error_None _ _) K), (proj2 (nth_error_None (seq _ _) _)) by now rewrite seq_length. reflexivity.
    - assert (P : forall k, k < List.length (dims da) ->
        nth_error (shape (transpose da r)) k = Some (nth (sigma a b k) (shape da) 0)).
      { intros k K. cbn [transpose shape]. rewrite nth_error_map.
        assert (K' : sigma a b k < List.length (dims da)).
        { apply nth_error_Some. rewrite <- G. apply nth_error_Some. lia. }
        rewrite G, (nth_error_nth' (dims da) "" K'). cbn [option_map]. do 2 f_equal. apply position_first.
        apply nodup_first; [exact N|]. now apply nth_error_nth'. }
      split.
      + intros S. specialize (P a LA). rewrite S, (nth_error_nth' _ 0) in P by lia. unfold sigma in P.
        rewrite Nat.eqb_refl in P. now injection P.
      + intros S. apply list_ext. intros k. destruct (Nat.ltb_spec k (List.length (dims da))) as [K|K].
        * rewrite (P k K), (nth_error_nth' (shape da) 0) by lia. f_equal. unfold sigma.
          destruct (Nat.eqb_spec k a) as [->|]; [now symmetry|]. destruct (Nat.eqb_spec k b) as [->|]; [exact S|reflexivity].
        * rewrite !(proj2 (nth_error_None _ _)); [reflexivity|lia|]. cbn [transpose shape]. rewrite map_length. lia.
  Qed.
  (** Both dimensions must exist and have the same size. *)
  Theorem c119_accepts : forall (da : data_array F) x y a b, valid da -> first x (dims da) a -> first y (dims da) b ->
    (exists r, transpose_matrix da x y = Ok r) <-> nth a (shape da) 0 = nth b (shape da) 0.
  Proof.
    intros da x y a b V A B. destruct (swap_positions da x y a b V A B) as (r & H & _ & S).
    unfold transpose_matrix. rewrite H, <- S. cbn [bind]. unfold copy_data.
    destruct (list_eq_dec _ _ _); split; auto; try (intros; eexists; reflexivity); intros [? [=]] || contradiction.
  Qed.
  Theorem c119_errors : forall (da : data_array F) x y e, transpose_matrix da x y = Err e -> e = ValueError.
  Proof.
    intros da x y e. unfold transpose_matrix. destruct (swap_list_items _ _ _) eqn:Q; cbn [bind].
    - unfold copy_data. destruct (list_eq_dec _ _ _); [discriminate|]. now intros [= <-].
    - intros [= <-]. eapply c119_swap_errors, Q.
  Qed.
  (** Dimensions and shape are kept, the values are those with both positions exchanged. *)
  Theorem c119_values : forall (da r : data_array F) x y a b, valid da -> first x (dims da) a -> first y (dims da) b ->
    transpose_matrix da x y = Ok r ->
    dims r = dims da /\ shape r = shape da /\
    forall i j, List.length i = List.length (dims da) -> List.length j = List.length (dims da) ->
      (forall k, k < List.length (dims da) -> nth k j 0 = nth (sigma a b k) i 0) -> data r i = data da j.
  Proof.
    intros da r x y a b V A B H. destruct (swap_positions da x y a b V A B) as (l & Q & D & _).
    unfold transpose_matrix in H. rewrite Q in H. cbn [bind] in H. unfold copy_data in H.
    destruct (list_eq_dec _ _ _); [|discriminate]. injection H as <-. repeat split. intros i j I J E.
    cbn [data]. change (data (transpose da l) i = data da j). rewrite D. f_equal. apply list_ext. intros k. rewrite nth_error_map.
    destruct (Nat.ltb_spec k (List.length (dims da))) as [K|K].
    - rewrite (nth_error_nth' (seq _ _) 0) by now rewrite seq_length. rewrite seq_nth by assumption.
      rewrite (nth_error_nth' j 0) by lia. cbn [option_map Nat.add]. f_equal. symmetry. now apply E.
    - rewrite (proj2 (nth_error_None j _)) by lia. rewrite (proj2 (nth_error_None (seq _ _) _)) by now rewrite seq_length. reflexivity.
  Qed.
  (** Transposing twice gives the values back. *)
  Theorem c119_twice : forall (da r : data_array F) x y, valid da -> transpose_matrix da x y = Ok r ->
    exists r', transpose_matrix r x y = Ok r' /\ dims r' = dims da /\ shape r' = shape da /\
      forall i, List.length i = List.length (dims da) -> data r' i = data da i.
  Proof.
    intros da r x y V H.
    assert (S : exists l, swap_list_items (dims da) x y = Ok l).
    { unfold transpose_matrix in H. destruct (swap_list_items _ _ _); [eexists; reflexivity|discriminate]. }
    apply c119_swap_errors in S as [X Y]. apply index_in in X as [a A]. apply index_in in Y as [b B].
    apply index_first in A. apply index_first in B.
    destruct (c119_values da r x y a b V A B H) as (D & SH & G).
    assert (V' : valid r) by (unfold valid; rewrite D, SH; exact V).
    assert (A' : first x (dims r) a) by now rewrite D. assert (B' : first y (dims r) b) by now rewrite D.
    pose proof (proj1 (c119_accepts da x y a b V A B) (ex_intro _ r H)) as E. rewrite <- SH in E.
    destruct (proj2 (c119_accepts r x y a b V' A' B') E) as [r' H']. exists r'. split; [exact H'|].
    destruct (c119_values r r' x y a b V' A' B' H') as (D' & SH' & G'). split; [congruence|]. split; [congruence|].
    intros i I. set (n := List.length (dims da)) in *.
    pose (j := map (fun k => nth (sigma a b k) i 0) (seq 0 n)).
    assert (J : forall k, k < n -> nth k j 0 = nth (sigma a b k) i 0).
    { intros k K. unfold j. rewrite (nth_indep _ 0 (nth (sigma a b 0) i 0)) by (rewrite map_length, seq_length; exact K).
      rewrite (map_nth (fun k => nth (sigma a b k) i 0)), seq_nth by exact K. reflexivity. }
    assert (LJ : List.length j = n) by (unfold j; now rewrite map_length, seq_length).
    pose proof (first_lt _ _ _ A) as LA. pose proof (first_lt _ _ _ B) as LB.
    rewrite (G' i j); [apply G; [exact LJ|exact I|]|now rewrite D|now rewrite D|rewrite D; exact J].
    intros k K. rewrite J; [now rewrite sigma_inv|]. unfold sigma. fold n in LA, LB.
    destruct (Nat.eqb k a); [exact LB|]. destruct (Nat.eqb k b); [exact LA|exact K].
  Qed.
End Matrix.
Print Assumptions c119_accepts.
Print Assumptions c119_errors.
Print Assumptions c119_values.
Print Assumptions c119_twice.
Example ex_c119 : exists r, transpose_matrix (DA ["t"; "c"; "v"] [4; 3; 3] (fun i => i)) "c" "v" = Ok r /\
  data r [1; 0; 2] = [1; 2; 0] /\ transpose_matrix (DA ["t"; "c"; "v"] [4; 3; 3] (fun i => i)) "t" "v" = Err ValueError.
Proof. eexists. repeat split. Qed.

(** ** Coordinates *)
Section Coords.
  Context {D U : Type} (parse : string -> res U) (print : U -> string).
  Hypothesis parse_print : forall u, parse (print u) = Ok u.
  Lemma map_err_or {A B} (f : A -> res B) d : match dict_map f d with
    | Ok r => dkeys r = dkeys d /\ forall k, match dget k d with
        | Some v => exists w, f v = Ok w /\ dget k r = Some w | None => dget k r = None end
    | Err e => exists k v, In (k, v) d /\ f v = Err e end.
  Proof.
    induction d as [|[k v] d IH]; cbn [dict_map]; [split; reflexivity|].
    destruct (f v) as [w|e] eqn:Q; cbn [bind]; [|exists k, v; split; [now left|exact Q]].
    destruct (dict_map f d) as [r|e]; cbn [bind].
    - destruct IH as [K G]. split; [cbn; now f_equal|]. intros k'. cbn [dget].
      destruct (String.eqb k' k); [exists w; auto|apply G].
    - destruct IH as (k' & v' & I & H). exists k', v'. split; [now right|exact H].
  Qed.
  Lemma get_in {A} k (v : A) d : dget k d = Some v -> In (k, v) d.
  Proof.
    induction d as [|[a b] d IH]; cbn [dget]; [discriminate|]. destruct (String.eqb_spec k a) as [->|]; [intros [= <-]; now left|].
    intros H. right. now apply IH.
  Qed.
  (** Coordinates with a unit become quantities, those without (or with an empty text) stay
      plain; names and order are kept. *)
  Theorem c120_quantities : forall cs r, coordinates_as_quantities (D := D) parse cs = Ok r ->
    dkeys r = dkeys cs /\ forall k c, dget k cs = Some c -> exists v, dget k r = Some v /\
      match c_units c with
      | NoUnits => v = Plain (c_data c)
      | UUnit u => v = Quantity (c_data c) u
      | UText s => (s = "" /\ v = Plain (c_data c)) \/ (s <> "" /\ exists u, parse s = Ok u /\ v = Quantity (c_data c) u)
      end.
  Proof.
    intros cs r H. pose proof (map_err_or (as_value parse) cs) as M. unfold coordinates_as_quantities in H. rewrite H in M.
    destruct M as [K G]. split; [exact K|]. intros k c C. specialize (G k). rewrite C in G. destruct G as (w & W & G).
    exists w. split; [exact G|]. unfold as_value in W. destruct (c_units c) as [|s|u]; [congruence| |congruence].
    destruct (String.eqb_spec s "") as [Z|N]; [left; split; [exact Z|congruence]|].
    right. split; [exact N|]. destruct (parse s) as [u|]; [|discriminate]. exists u. split; [reflexivity|]. now injection W.
  Qed.
  (** Only texts that are no units are errors. *)
  Theorem c120_errors : forall cs e, coordinates_as_quantities (D := D) parse cs = Err e ->
    exists k c s, In (k, c) cs /\ c_units c = UText s /\ parse s = Err e.
  Proof.
    intros cs e H. pose proof (map_err_or (as_value parse) cs) as M. unfold coordinates_as_quantities in H. rewrite H in M.
    destruct M as (k & c & I & W). exists k, c. unfold as_value in W. destruct (c_units c) as [|s|u]; try discriminate.
    exists s. split; [exact I|]. split; [reflexivity|]. destruct (String.eqb s ""); [discriminate|].
    destruct (parse s); [discriminate|]. now injection W as ->.
  Qed.
  (** Coordinates made from quantities give the quantities back. *)
  Theorem c120_back : forall q, coordinates_as_quantities (D := D) parse (from_quantities q) = Ok q.
  Proof.
    intros q. unfold coordinates_as_quantities, from_quantities. induction q as [|[k v] q IH]; [reflexivity|].
    cbn [map fst snd dict_map]. destruct v; cbn [as_value c_units c_data bind]; now rewrite IH.
  Qed.
  (** False: coordinates made from their quantities are the same. Dimensions become the name,
      other attributes are lost. *)
  Theorem c120_roundtrip_refuted : forall (d : D) u, exists c q,
    coordinates_as_quantities parse [("a", c)] = Ok q /\ from_quantities q <> [("a", c)] /\
    c = Co ["x"] d (UUnit u) [("name", "n")].
  Proof. intros d u. eexists _, _. split; [|split; [|reflexivity]]; [reflexivity|discriminate]. Qed.
  (** The round trip keeps a coordinate exactly if it has its name as dimension, a unit object
      (or none) and no other attributes. *)
  Theorem c120_roundtrip : forall k (c : coord D U) q, coordinates_as_quantities parse [(k, c)] = Ok q ->
    from_quantities q = [(k, c)] <-> c_dims c = [k] /\ c_attrs c = [] /\ forall s, c_units c <> UText s.
  Proof.
    intros k [ds d u at_] q H. unfold coordinates_as_quantities in H. cbn [dict_map] in H.
    destruct (as_value parse (Co ds d u at_)) as [v|] eqn:W; [|discriminate]. cbn [bind] in H. injection H as <-.
    unfold from_quantities. cbn [map fst snd c_dims c_attrs c_units].
    unfold as_value in W. cbn [c_units c_data] in W. destruct u as [|s|u].
    - injection W as <-. split; [intros [= <- <-]; repeat split; discriminate|intros (-> & -> & _); reflexivity].
    - split; [|intros (_ & _ & N); now elim (N s)].
      destruct (String.eqb s ""); [injection W as <-; discriminate|]. destruct (parse s); [|discriminate]. injection W as <-. discriminate.
    - injection W as <-. split; [intros [= <- <-]; repeat split; discriminate|intros (-> & -> & _); reflexivity].
  Qed.
  (** False: the indexes can be converted. They never can. *)
  Theorem c120_indexes_refuted : forall i : dict D, i <> [] -> indexes_as_quantities (U := U) i = Err AttributeError.
  Proof. intros [|[k d] i] N; [contradiction|reflexivity]. Qed.

  (** Units as objects and as texts *)
  Definition unit_of (c : coord D U) : option (res U) :=
    match c_units c with NoUnits => None | UText s => Some (parse s) | UUnit u => Some (Ok u) end.
  Definition others_kept (c c' : coord D U) : Prop :=
    c_dims c' = c_dims c /\ c_data c' = c_data c /\ c_attrs c' = c_attrs c.
  Theorem c120_quantify : forall cs r, quantify_coords parse cs = Ok r ->
    dkeys r = dkeys cs /\ forall k c, dget k cs = Some c -> exists c', dget k r = Some c' /\ others_kept c c' /\
      unit_of c' = unit_of c /\ forall s, c_units c' <> UText s.
  Proof.
    intros cs r H. unfold quantify_coords in H.
    match type of H with dict_map ?f _ = _ => pose proof (map_err_or f cs) as M end. rewrite H in M.
    destruct M as [K G]. split; [exact K|]. intros k c C. specialize (G k). rewrite C in G. destruct G as (w & W & G).
    exists w. split; [exact G|]. unfold unit_of. destruct (c_units c) as [|s|u]; cbn [to_unit bind] in W.
    - injection W as <-. repeat split. discriminate.
    - destruct (parse s); [|discriminate]. injection W as <-. repeat split. discriminate.
    - injection W as <-. repeat split. discriminate.
  Qed.
  Theorem c120_dequantify : forall cs r, dequantify_coords parse print cs = Ok r ->
    dkeys r = dkeys cs /\ forall k c, dget k cs = Some c -> exists c', dget k r = Some c' /\ others_kept c c' /\
      unit_of c' = unit_of c /\ forall u, c_units c' <> UUnit u.
  Proof.
    intros cs r H. unfold dequantify_coords in H.
    match type of H with dict_map ?f _ = _ => pose proof (map_err_or f cs) as M end. rewrite H in M.
    destruct M as [K G]. split; [exact K|]. intros k c C. specialize (G k). rewrite C in G. destruct G as (w & W & G).
    exists w. split; [exact G|]. unfold unit_of. destruct (c_units c) as [|s|u]; cbn [to_unit bind] in W.
    - injection W as <-. repeat split. discriminate.
    - destruct (parse s); [|discriminate]. injection W as <-. cbn [c_units]. rewrite parse_print. repeat split. discriminate.
    - injection W as <-. cbn [c_units]. rewrite parse_print. repeat split. discriminate.
  Qed.
  (** Units as objects survive the conversion to texts and back. *)
  Theorem c120_texts : forall cs r, (forall k c s, In (k, c) cs -> c_units c <> UText s) ->
    dequantify_coords (D := D) parse print cs = Ok r -> quantify_coords parse r = Ok cs.
  Proof.
    induction cs as [|[k [ds d u at_]] cs IH]; intros r N H; [injection H as <-; reflexivity|].
    unfold dequantify_coords in H. cbn [dict_map c_units c_dims c_data c_attrs] in H.
    destruct u as [|s|u]; [|elim (N k (Co ds d (UText s) at_) s); [now left|reflexivity]|]; cbn [to_unit bind] in H.
    all: match type of H with bind ?x _ = _ => destruct x as [r'|] eqn:Q; [|discriminate] end; cbn [bind] in H; injection H as <-.
    all: unfold quantify_coords; cbn [dict_map c_units c_dims c_data c_attrs to_unit bind].
    all: rewrite ?parse_print; cbn [bind]; fold (quantify_coords (D := D) parse r');
      rewrite (IH r'); [reflexivity|intros k' c' s' I'; apply (N k' c' s'); now right|exact Q].
  Qed.
  (** False: converting the units of coordinates does not change their quantities. An empty
      text is a unit for [quantify_coords] only. *)
  Theorem c120_empty_refuted : forall (d : D) one, parse "" = Ok one -> exists cs r,
    quantify_coords parse cs = Ok r /\ coordinates_as_quantities parse cs = Ok [("a", Plain d)] /\
    coordinates_as_quantities parse r = Ok [("a", Quantity d one)].
  Proof.
    intros d one P. exists [("a", Co ["a"] d (UText "") [])]. eexists.
    unfold quantify_coords. cbn [dict_map c_units c_dims c_data c_attrs to_unit]. rewrite P. repeat split.
  Qed.
  (** Otherwise it does not. *)
  Theorem c120_same : forall cs r, (forall k c, In (k, c) cs -> c_units c <> UText "") ->
    quantify_coords (D := D) parse cs = Ok r -> coordinates_as_quantities parse r = coordinates_as_quantities parse cs.
  Proof.
    induction cs as [|[k [ds d u at_]] cs IH]; intros r N H; [injection H as <-; reflexivity|].
    unfold quantify_coords in H. cbn [dict_map c_units c_dims c_data c_attrs] in H.
    assert (NE : u <> UText "") by (apply (N k (Co ds d u at_)); now left).
    assert (N' : forall k c, In (k, c) cs -> c_units c <> UText "") by (intros k' c' I'; apply (N k'); now right).
    destruct u as [|s|u]; cbn [to_unit bind] in H; [|destruct (parse s) as [u|] eqn:P; [|discriminate]; cbn [bind] in H|].
    all: match type of H with bind ?x _ = _ => destruct x as [r'|] eqn:Q; [|discriminate] end; cbn [bind] in H; injection H as <-.
    all: pose proof (IH r' N' Q) as X; unfold coordinates_as_quantities in X |- *;
      cbn [dict_map as_value c_units c_data bind]; rewrite ?X; try reflexivity.
    destruct (String.eqb_spec s "") as [Z|]; [now elim NE; rewrite Z|]. now rewrite P.
  Qed.
  (** The unit of the values is that of the quantity, else the attribute. *)
  Theorem c120_units : forall q a, units parse q a = match q with Some u => Ok (Some u) | None =>
    match a with NoUnits => Ok None | UUnit u => Ok (Some u) | UText s =>
      match parse s with Ok u => Ok (Some u) | Err e => Err e end end end.
  Proof. intros [u|] [|s|w]; cbn; try reflexivity. Qed.
End Coords.
Print Assumptions c120_quantities.
Print Assumptions c120_errors.
Print Assumptions c120_back.
Print Assumptions c120_roundtrip_refuted.
Print Assumptions c120_roundtrip.
Print Assumptions c120_indexes_refuted.
Print Assumptions c120_quantify.
Print Assumptions c120_dequantify.
Print Assumptions c120_texts.
Print Assumptions c120_empty_refuted.
Print Assumptions c120_same.
Print Assumptions c120_units.
Example ex_c120 : let parse := fun s => if String.eqb s "bad" then Err AttributeError else Ok (String.length s) in
  coordinates_as_quantities parse [("a", Co ["a"] 7 (UText "mm") []); ("b", Co ["a"] 8 NoUnits [])] =
    Ok [("a", Quantity 7 2); ("b", Plain 8)] /\
  coordinates_as_quantities parse [("a", Co ["a"] 7 (UText "bad") [])] = Err AttributeError.
Proof. split; reflexivity. Qed.
