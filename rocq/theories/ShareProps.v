(** Properties of objects that are shared between shapes, profiles and traces. *)
From Coq Require Import List Bool Arith Lia.
From Verif Require Import Base ShareModel.
Import ListNotations.

Lemma upd_length {A : Type} (l : list A) i x : List.length (upd l i x) = List.length l.
Proof. revert i; induction l as [|y l IH]; intros [|i]; cbn; congruence. Qed.
Lemma upd_same {A : Type} (l : list A) i x d : i < List.length l -> nth i (upd l i x) d = x.
Proof. revert i; induction l as [|y l IH]; intros [|i] H; cbn in *; try lia; [reflexivity|]. apply IH; lia. Qed.
Lemma upd_other {A : Type} (l : list A) i j x d : i <> j -> nth j (upd l i x) d = nth j l d.
Proof. revert i j; induction l as [|y l IH]; intros [|i] [|j] H; cbn; try reflexivity; try congruence. apply IH; congruence. Qed.
Lemma upd_same_e {A : Type} (l : list A) i x : i < List.length l -> nth_error (upd l i x) i = Some x.
Proof. revert i; induction l as [|y l IH]; intros [|i] H; cbn in *; try lia; [reflexivity|]. apply IH; lia. Qed.
Lemma upd_other_e {A : Type} (l : list A) i j x : i <> j -> nth_error (upd l i x) j = nth_error l j.
Proof. revert i j; induction l as [|y l IH]; intros [|i] [|j] H; cbn; try reflexivity; try congruence. apply IH; congruence. Qed.

Section Share.
  Context {Seg Point Len : Type} (p_start p_end : Seg -> Point) (close : Point -> Point -> bool).
  Context (seg_len : Seg -> Len) (ladd : Len -> Len -> Len) (lzero : Len) (lpos : Len -> bool).
  Notation heap := (heap Seg).
  Notation new_shape := (new_shape Seg Point p_start p_end close).
  Notation add_segments := (add_segments Seg Point p_start p_end close).
  Notation check_connected := (check_connected Seg Point p_start p_end close).
  Notation list_at := (list_at Seg).
  Notation seg_at := (seg_at Seg).
  Notation to_list := (to_list Seg).
  Notation transform := (transform Seg).
  Notation deepcopy := (deepcopy Seg).
  Notation apply := (apply Seg).
  Notation op := (op Seg).

  (** The references in an argument. *)
  Definition given (h : heap) (a : arg) : list nat :=
    match a with AList r => nth r (h_lists _ h) [] | ASeg s => [s] | ANone => [] end.
  (** Each segment ends where the next one starts. *)
  Definition linked (h : heap) (l : list nat) : Prop :=
    forall i a b, nth_error l i = Some a -> nth_error l (Datatypes.S i) = Some b ->
      exists s t, nth_error (h_segs _ h) a = Some s /\ nth_error (h_segs _ h) b = Some t /\ close (p_end s) (p_start t) = true.
  (** All references point to existing segments. *)
  Definition valid (h : heap) (l : list nat) : Prop := Forall (fun r => r < List.length (h_segs _ h)) l.
  (** All existing lists but [x] are unchanged. *)
  Definition lists_kept (h h' : heap) (x : nat) : Prop :=
    forall i, i < List.length (h_lists _ h) -> i <> x -> nth i (h_lists _ h') [] = nth i (h_lists _ h) [].

  Lemma check_cons h a b l : check_connected h (a :: b :: l) =
    match nth_error (h_segs _ h) a, nth_error (h_segs _ h) b with
    | Some s, Some t => if close (p_end s) (p_start t) then check_connected h (b :: l) else Err ValueError
    | _, _ => Err AttributeError
    end.
  Proof. reflexivity. Qed.
  Lemma check_linked h l : check_connected h l = Ok tt <-> linked h l.
  Proof.
    induction l as [|a l IH]; [split; [intros _ [|i] ? ? [=]|reflexivity]|].
    destruct l as [|b l]; [split; [intros _ [|[|i]] ? ? ? [=]|reflexivity]|].
    rewrite check_cons. split.
    - destruct (nth_error (h_segs _ h) a) as [s|] eqn:A; [|discriminate]. destruct (nth_error (h_segs _ h) b) as [t|] eqn:B; [|discriminate].
      destruct (close _ _) eqn:C; [|discriminate]. intros H. apply IH in H. intros [|i] x y X Y.
      + cbn in X, Y. injection X as <-. injection Y as <-. exists s, t. auto.
      + exact (H i x y X Y).
    - intros H. destruct (H 0 a b eq_refl eq_refl) as (s & t & -> & -> & ->). apply IH. intros i x y X Y. exact (H (Datatypes.S i) x y X Y).
  Qed.
  Lemma check_err h l e : check_connected h l = Err e -> valid h l -> e = ValueError.
  Proof.
    induction l as [|a l IH]; [discriminate|]. destruct l as [|b l]; [discriminate|].
    rewrite check_cons. intros H V.
    pose proof (Forall_inv V) as V1. pose proof (Forall_inv (Forall_inv_tail V)) as V2. cbn beta in V1, V2.
    destruct (nth_error (h_segs _ h) a) as [s|] eqn:A; [|apply nth_error_None in A; lia].
    destruct (nth_error (h_segs _ h) b) as [t|] eqn:B; [|apply nth_error_None in B; lia].
    destruct (close _ _); [|congruence]. exact (IH H (Forall_inv_tail V)).
  Qed.
  Lemma to_list_facts h a r h' : to_list h a = (r, h') ->
    list_at h' r = given h a /\ h_segs _ h' = h_segs _ h /\
    List.length (h_lists _ h) <= List.length (h_lists _ h') /\
    (forall i, i < List.length (h_lists _ h) -> nth i (h_lists _ h') [] = nth i (h_lists _ h) []) /\
    match a with AList x => r = x /\ h' = h | _ => r = List.length (h_lists _ h) end.
  Proof.
    unfold ShareModel.list_at. intros H; destruct a; cbn in H; injection H as <- <-; cbn; rewrite ?app_length; cbn;
      (split; [first [reflexivity | rewrite app_nth2, Nat.sub_diag by lia; reflexivity]|]);
      (split; [reflexivity|]); (split; [lia|]); (split; [first [reflexivity | intros; now apply app_nth1]|auto]).
  Qed.

  (** ** C128 Shapes and lists of segments *)
  Theorem c128_new : forall h a sh h', new_shape h a = Ok (sh, h') ->
    nth sh (h_lists _ h') [] = given h a /\ linked h' (given h a) /\ h_segs _ h' = h_segs _ h /\
    (forall i, i < List.length (h_lists _ h) -> nth i (h_lists _ h') [] = nth i (h_lists _ h) []).
  Proof.
    intros h a sh h' H. unfold ShareModel.new_shape in H. destruct (to_list h a) as [r h1] eqn:T.
    destruct (to_list_facts _ _ _ _ T) as (G & SG & _ & K & _). rewrite G in H.
    destruct (check_connected h1 (given h a)) as [[]|] eqn:C; [|discriminate]. injection H as <- <-.
    apply check_linked in C. auto.
  Qed.
  Theorem c128_refused : forall h a, valid h (given h a) ->
    (new_shape h a = Err ValueError <-> ~ linked h (given h a)) /\ (forall e, new_shape h a = Err e -> e = ValueError).
  Proof.
    intros h a V. unfold ShareModel.new_shape. destruct (to_list h a) as [r h1] eqn:T.
    destruct (to_list_facts _ _ _ _ T) as (G & SG & _ & _ & _). rewrite G.
    assert (L : linked h1 (given h a) <-> linked h (given h a)) by (unfold linked; now rewrite SG).
    assert (V1 : valid h1 (given h a)) by (unfold valid; now rewrite SG).
    destruct (check_connected h1 (given h a)) as [[]|e] eqn:C; cbn.
    - split; [|discriminate]. split; [discriminate|]. intros N. exfalso. apply N, L, check_linked, C.
    - pose proof (check_err _ _ _ C V1) as ->. split; [|congruence]. split; [|reflexivity]. intros _ N.
      apply L, check_linked in N. congruence.
  Qed.
  (** The segments are appended, other lists are kept and the shape stays linked. *)
  Theorem c128_add : forall h sh a h', sh < List.length (h_lists _ h) -> add_segments h sh a = Ok h' ->
    nth sh (h_lists _ h') [] = (nth sh (h_lists _ h) [] ++ given h a)%list /\ lists_kept h h' sh /\ h_segs _ h' = h_segs _ h /\
    (linked h (nth sh (h_lists _ h) []) -> linked h' (nth sh (h_lists _ h') [])).
  Proof.
    intros h sh a h' LT H. unfold ShareModel.add_segments in H. destruct (to_list h a) as [r h1] eqn:T.
    destruct (to_list_facts _ _ _ _ T) as (G & SG & LE & K & _). rewrite G in H.
    unfold ShareModel.list_at in H. rewrite (K sh LT) in H. set (old := nth sh (h_lists _ h) []) in *.
    assert (exists u, (match old with [] => Ok tt | s :: l => match given h a with [] => Err IndexError
        | t :: _ => check_connected h1 [last (s :: l) s; t] end end) = Ok u) as [[] Q].
    { destruct (match old with [] => _ | _ => _ end); [eauto|discriminate]. }
    rewrite Q in H. cbn [bind] in H. destruct (check_connected h1 (given h a)) as [[]|] eqn:C; [|discriminate].
    injection H as <-. cbn. rewrite upd_same by lia. split; [reflexivity|]. split; [|split; [exact SG|]].
    - intros i I N. cbn. rewrite upd_other by congruence. now apply K.
    - intros LK. unfold linked. cbn [h_lists h_segs ShareModel.set_list]. rewrite SG. apply check_linked in C. unfold linked in C, LK. rewrite SG in C.
      intros i x y X Y. destruct (Nat.lt_ge_cases (Datatypes.S i) (List.length old)) as [A|A].
      + rewrite nth_error_app1 in X, Y by lia. now apply (LK i).
      + rewrite nth_error_app2 in Y by lia. destruct (Nat.lt_ge_cases i (List.length old)) as [B|B].
        * rewrite nth_error_app1 in X by lia. replace (Datatypes.S i - List.length old) with 0 in Y by lia.
          destruct old as [|s l]; [cbn in B; lia|]. destruct (given h a) as [|t g]; [discriminate|]. cbn in Y. injection Y as <-.
          apply check_linked in Q. destruct (Q 0 (last (s :: l) s) t eq_refl eq_refl) as (u & v & U & V & W). rewrite SG in U, V.
          exists u, v. split; [|auto]. replace x with (last (s :: l) s); [exact U|].
          assert (NE : s :: l <> []) by discriminate. pose proof (app_removelast_last s NE) as E0.
          assert (L0 : List.length (s :: l) = List.length (removelast (s :: l)) + 1).
          { rewrite E0 at 1. rewrite app_length. reflexivity. }
          rewrite E0 in X. rewrite nth_error_app2 in X by lia. replace (i - _) with 0 in X by lia. now injection X.
        * rewrite nth_error_app2 in X by lia. apply (C (i - List.length old)); [exact X|].
          now replace (Datatypes.S (i - List.length old)) with (Datatypes.S i - List.length old) by lia.
  Qed.
  Theorem c128_add_refused : forall h sh a, sh < List.length (h_lists _ h) -> valid h (nth sh (h_lists _ h) []) -> valid h (given h a) ->
    match nth sh (h_lists _ h) [], given h a with
    | [], g => (add_segments h sh a = Err ValueError <-> ~ linked h g)
    | _ :: _, [] => add_segments h sh a = Err IndexError
    | s :: l, t :: g => (add_segments h sh a = Err ValueError <-> ~ linked h (last (s :: l) s :: t :: g))
    end.
  Proof.
    intros h sh a LT V1 V2. unfold ShareModel.add_segments. destruct (to_list h a) as [r h1] eqn:T.
    destruct (to_list_facts _ _ _ _ T) as (G & SG & LE & K & _). rewrite G.
    unfold ShareModel.list_at. rewrite (K sh LT). set (old := nth sh (h_lists _ h) []) in *.
    assert (L : forall l, linked h1 l <-> linked h l) by (intros; unfold linked; now rewrite SG).
    assert (V : forall l, valid h1 l <-> valid h l) by (intros; unfold valid; now rewrite SG).
    assert (Z : forall l, valid h l -> check_connected h1 l = Err ValueError <-> ~ linked h l).
    { intros l W. rewrite <- L, <- check_linked. destruct (check_connected h1 l) as [[]|e] eqn:C.
      - split; [discriminate|congruence].
      - apply V in W. rewrite (check_err _ _ _ C W). split; [discriminate|reflexivity]. }
    destruct old as [|s l].
    - cbn [bind]. rewrite <- (Z _ V2). destruct (check_connected h1 (given h a)); cbn; [split; discriminate|]. split; congruence.
    - destruct (given h a) as [|t g]; [reflexivity|].
      assert (VL : valid h (last (s :: l) s :: t :: g)).
      { constructor; [|exact V2]. unfold valid in V1. rewrite Forall_forall in V1. apply V1. 
        assert (NE : s :: l <> []) by discriminate. rewrite (app_removelast_last s NE) at 2. apply in_or_app. right. now left. }
      rewrite <- (Z _ VL). rewrite (check_cons _ _ _ g), (check_cons _ _ _ []).
      destruct (nth_error _ (last (s :: l) s)); [|cbn [bind]; split; discriminate]. destruct (nth_error _ t) as [st|]; [|cbn [bind]; split; discriminate].
      change (check_connected h1 [t]) with (@Ok unit tt). destruct (close _ _); cbn [bind]; [|split; reflexivity].
      destruct (check_connected h1 (t :: g)) as [[]|e]; cbn; [split; discriminate|]; split; congruence.
  Qed.
  (** Two shapes made from one list object are changed together, and the list as well. *)
  Theorem c128_shared : forall h l a b h1 h2 x h', new_shape h (AList l) = Ok (a, h1) -> new_shape h1 (AList l) = Ok (b, h2) ->
    l < List.length (h_lists _ h) -> add_segments h2 a x = Ok h' ->
    nth b (h_lists _ h') [] = nth a (h_lists _ h') [] /\ nth l (h_lists _ h') [] = nth a (h_lists _ h') [] /\
    nth b (h_lists _ h') [] = (nth l (h_lists _ h) [] ++ given h x)%list.
  Proof.
    intros h l a b h1 h2 x h' A B LT H. unfold ShareModel.new_shape in A, B. cbn in A, B.
    destruct (check_connected h _) as [[]|]; [|discriminate]. injection A as <- <-.
    destruct (check_connected h _) as [[]|]; [|discriminate]. injection B as <- <-.
    destruct (c128_add _ _ _ _ LT H) as (E & _). auto.
  Qed.

  (** ** C129 Transformations of shapes *)
  Lemma set_seg_at h r s i : r < List.length (h_segs _ h) ->
    seg_at (set_seg _ h r s) i = if Nat.eqb i r then Some s else seg_at h i.
  Proof.
    intros LT. unfold ShareModel.seg_at. cbn. destruct (Nat.eqb_spec i r) as [->|N]; [now apply upd_same_e|]. apply upd_other_e. congruence.
  Qed.
  Lemma apply_all_facts f l : forall h h' e, apply_all _ h f l = (h', e) ->
    h_lists _ h' = h_lists _ h /\ List.length (h_segs _ h') = List.length (h_segs _ h) /\
    (forall i, ~ In i l -> seg_at h' i = seg_at h i) /\
    (NoDup l -> e = None -> forall i, In i l -> seg_at h' i = option_map (fun s => fst (f s)) (seg_at h i)).
  Proof.
    induction l as [|r l IH]; intros h h' e H; cbn in H.
    - injection H as <- <-. repeat split; auto. intros _ _ i [].
    - destruct (seg_at h r) as [s|] eqn:SR.
      + assert (LT : r < List.length (h_segs _ h)) by (apply nth_error_Some; unfold ShareModel.seg_at in SR; congruence).
        destruct (f s) as [s' [x|]] eqn:F.
        * injection H as <- <-. cbn. rewrite upd_length. split; [reflexivity|]. split; [reflexivity|]. split; [|discriminate].
          intros i NI. rewrite set_seg_at by exact LT. destruct (Nat.eqb_spec i r) as [->|N]; [|reflexivity]. exfalso. apply NI. now left.
        * destruct (IH _ _ _ H) as (A & B & C & D). cbn in A, B. rewrite upd_length in B. split; [exact A|]. split; [exact B|]. split.
          -- intros i NI. rewrite C by (intros I0; apply NI; now right). rewrite set_seg_at by exact LT.
             destruct (Nat.eqb_spec i r) as [->|N]; [|reflexivity]. exfalso. apply NI. now left.
          -- intros ND E0 i I0. inversion ND as [|? ? N1 N2]; subst. destruct I0 as [<-|I0].
             ++ rewrite C by exact N1. rewrite set_seg_at by exact LT. rewrite Nat.eqb_refl, SR. cbn. now rewrite F.
             ++ rewrite D by auto. rewrite set_seg_at by exact LT. destruct (Nat.eqb_spec i r) as [->|N]; [contradiction|reflexivity].
      + injection H as <- <-. split; [reflexivity|]. split; [reflexivity|]. split; [reflexivity|discriminate].
  Qed.
  (** A transformation in place changes the segments of the shape, once each, and nothing else. *)
  Theorem c129_apply : forall h (f : op) sh h', NoDup (nth sh (h_lists _ h) []) -> apply h f sh = (h', None) ->
    h_lists _ h' = h_lists _ h /\
    (forall r, ~ In r (nth sh (h_lists _ h) []) -> nth_error (h_segs _ h') r = nth_error (h_segs _ h) r) /\
    (forall r, In r (nth sh (h_lists _ h) []) ->
       nth_error (h_segs _ h') r = option_map (fun s => fst (f s)) (nth_error (h_segs _ h) r)).
  Proof.
    intros h f sh h' ND H. destruct (apply_all_facts _ _ _ _ _ H) as (A & _ & C & D). split; [exact A|]. split; [exact C|]. now apply D.
  Qed.
  (** A shape without common segments is not changed, even if the method raises. *)
  Theorem c129_frame : forall h (f : op) a b h' e, apply h f a = (h', e) ->
    (forall r, In r (nth a (h_lists _ h) []) -> ~ In r (nth b (h_lists _ h) [])) ->
    nth b (h_lists _ h') [] = nth b (h_lists _ h) [] /\
    map (nth_error (h_segs _ h')) (nth b (h_lists _ h) []) = map (nth_error (h_segs _ h)) (nth b (h_lists _ h) []) /\
    (linked h (nth b (h_lists _ h) []) -> linked h' (nth b (h_lists _ h') [])).
  Proof.
    intros h f a b h' e H D. destruct (apply_all_facts _ _ _ _ _ H) as (A & _ & C & _).
    assert (K : forall r, In r (nth b (h_lists _ h) []) -> nth_error (h_segs _ h') r = nth_error (h_segs _ h) r).
    { intros r I0. apply C. intros I1. exact (D r I1 I0). }
    rewrite A. split; [reflexivity|]. split; [now apply map_ext_in|].
    intros L i x y X Y. destruct (L i x y X Y) as (s & t & P & Q & W). exists s, t.
    rewrite !K by (eapply nth_error_In; eassumption). auto.
  Qed.
  (** A linked shape stays linked if the method keeps the contact of segments. *)
  Theorem c129_linked : forall h (f : op) sh h', NoDup (nth sh (h_lists _ h) []) -> apply h f sh = (h', None) ->
    (forall s t, close (p_end s) (p_start t) = true -> close (p_end (fst (f s))) (p_start (fst (f t))) = true) ->
    linked h (nth sh (h_lists _ h) []) -> linked h' (nth sh (h_lists _ h') []).
  Proof.
    intros h f sh h' ND H K L. destruct (c129_apply _ _ _ _ ND H) as (A & _ & C). rewrite A. intros i x y X Y.
    destruct (L i x y X Y) as (s & t & P & Q & W). exists (fst (f s)), (fst (f t)).
    rewrite !C, P, Q by (eapply nth_error_In; eassumption). repeat split. now apply K.
  Qed.
  (** An exception leaves the segments before the failing one transformed and those after it as they were. *)
  Theorem c129_exception : forall h (f : op) sh h' e, valid h (nth sh (h_lists _ h) []) -> NoDup (nth sh (h_lists _ h) []) ->
    apply h f sh = (h', Some e) ->
    exists l1 r l2 s, nth sh (h_lists _ h) [] = (l1 ++ r :: l2)%list /\ nth_error (h_segs _ h) r = Some s /\ snd (f s) = Some e /\
      nth_error (h_segs _ h') r = Some (fst (f s)) /\
      (forall i, In i l1 -> nth_error (h_segs _ h') i = option_map (fun s => fst (f s)) (nth_error (h_segs _ h) i)) /\
      (forall i, In i l2 -> nth_error (h_segs _ h') i = nth_error (h_segs _ h) i).
  Proof.
    intros h f sh h' e. unfold ShareModel.apply, ShareModel.list_at. generalize (nth sh (h_lists _ h) []). intros l. revert h.
    induction l as [|r l IH]; intros h V ND H; cbn in H; [discriminate|].
    pose proof (Forall_inv V) as LT. cbn beta in LT. inversion ND as [|? ? N1 N2]; subst.
    unfold ShareModel.seg_at in H. destruct (nth_error (h_segs _ h) r) as [s|] eqn:SR; [|apply nth_error_None in SR; lia].
    destruct (f s) as [s' [x|]] eqn:F.
    - injection H as <- <-. exists [], r, l, s. rewrite F. cbn. repeat split; auto; [now apply upd_same_e|intros i []|].
      intros i I0. apply upd_other_e. congruence.
    - assert (V' : valid (set_seg _ h r s') l).
      { unfold valid. cbn. rewrite upd_length. exact (Forall_inv_tail V). }
      destruct (IH _ V' N2 H) as (l1 & q & l2 & t & -> & Q & FT & Q' & A & B).
      assert (O : forall i, In i (l1 ++ q :: l2)%list -> nth_error (h_segs _ (set_seg _ h r s')) i = nth_error (h_segs _ h) i).
      { intros i I0. cbn. apply upd_other_e. congruence. }
      exists (r :: l1), q, l2, t. split; [reflexivity|]. rewrite O in Q by (apply in_or_app; right; now left).
      split; [exact Q|]. split; [exact FT|]. split; [exact Q'|]. split.
      + intros i [<-|I0]; [|rewrite A, O by (auto; apply in_or_app; now left); reflexivity].
        destruct (apply_all_facts _ _ _ _ _ H) as (_ & _ & C & _). unfold ShareModel.seg_at in C. rewrite C by exact N1.
        cbn. rewrite upd_same_e by exact LT. rewrite SR. cbn. now rewrite F.
      + intros i I0. rewrite B, O by (auto; apply in_or_app; right; now right). reflexivity.
  Qed.

  Lemma copy_all_facts l : forall h m n cs h', copy_all _ h m l = Ok (cs, h') -> valid h l -> n <= List.length (h_segs _ h) ->
    (forall r c, memo_get m r = Some c -> n <= c < List.length (h_segs _ h) /\ seg_at h c = seg_at h r) ->
    h_lists _ h' = h_lists _ h /\ (exists ext, h_segs _ h' = (h_segs _ h ++ ext)%list) /\
    map (seg_at h') cs = map (seg_at h) l /\ Forall (fun c => n <= c < List.length (h_segs _ h')) cs /\
    (NoDup l -> (forall r, In r l -> memo_get m r = None) -> NoDup cs /\ Forall (fun c => List.length (h_segs _ h) <= c) cs).
  Proof.
    induction l as [|r l IH]; intros h m n cs h' H V LE M; cbn in H.
    - injection H as <- <-. split; [reflexivity|]. split; [exists []; now rewrite app_nil_r|]. split; [reflexivity|].
      split; [constructor|]. intros _ _. split; constructor.
    - destruct (memo_get m r) as [c|] eqn:G.
      + destruct (copy_all _ h m l) as [[cs' h1]|] eqn:K; [|discriminate]. cbn in H. injection H as <- <-.
        destruct (IH _ _ _ _ _ K (Forall_inv_tail V) LE M) as (A & (ext & B) & C & D & F). destruct (M _ _ G) as ((M1 & M2) & M3).
        split; [exact A|]. split; [now exists ext|]. split; [|split].
        * cbn [map]. f_equal; [|exact C]. rewrite <- M3. unfold ShareModel.seg_at. rewrite B. now apply nth_error_app1.
        * constructor; [|exact D]. rewrite B, app_length. lia.
        * intros _ N. specialize (N r (or_introl eq_refl)). congruence.
      + destruct (seg_at h r) as [s|] eqn:SR; [|discriminate]. cbn in H.
        set (h1 := Heap _ (h_lists _ h) (h_segs _ h ++ [s])) in *.
        set (m1 := (r, List.length (h_segs _ h)) :: m) in *.
        destruct (copy_all _ h1 m1 l) as [[cs' h2]|] eqn:K; [|discriminate]. cbn in H. injection H as <- <-.
        assert (L1 : List.length (h_segs _ h1) = Datatypes.S (List.length (h_segs _ h))) by (cbn; rewrite app_length; cbn; lia).
        assert (SA : forall i, i < List.length (h_segs _ h) -> seg_at h1 i = seg_at h i).
        { intros i I0. unfold ShareModel.seg_at. cbn. now apply nth_error_app1. }
        assert (SN : seg_at h1 (List.length (h_segs _ h)) = Some s).
        { unfold ShareModel.seg_at. cbn. rewrite nth_error_app2, Nat.sub_diag by lia. reflexivity. }
        assert (RL : r < List.length (h_segs _ h)) by (apply nth_error_Some; unfold ShareModel.seg_at in SR; congruence).
        assert (LE1 : n <= List.length (h_segs _ h1)) by lia.
        assert (M' : forall r0 c, memo_get m1 r0 = Some c -> n <= c < List.length (h_segs _ h1) /\ seg_at h1 c = seg_at h1 r0).
        { intros r0 c Q. cbn in Q. destruct (Nat.eqb_spec r r0) as [<-|NE].
          - injection Q as <-. split; [lia|]. rewrite SN, SA by exact RL. now rewrite SR.
          - destruct (M _ _ Q) as ((M1 & M2) & M3). split; [lia|]. rewrite SA by exact M2. rewrite M3.
            assert (R0 : r0 < List.length (h_segs _ h)).
            { apply nth_error_Some. unfold ShareModel.seg_at in M3. rewrite <- M3. now apply nth_error_Some. }
            now rewrite SA. }
        assert (V1 : valid h1 l).
        { eapply Forall_impl; [|exact (Forall_inv_tail V)]. intros i I0. cbn beta in I0. rewrite L1. lia. }
        destruct (IH _ _ _ _ _ K V1 LE1 M') as (A & (ext & B) & C & D & F).
        split; [exact A|]. split; [exists (s :: ext); rewrite B; cbn; now rewrite <- app_assoc|]. split; [|split].
        * cbn [map]. f_equal.
          -- transitivity (seg_at h1 (List.length (h_segs _ h))); [|now rewrite SN, SR]. unfold ShareModel.seg_at. rewrite B.
             apply nth_error_app1. rewrite L1. lia.
          -- rewrite C. apply map_ext_in. intros i I0. apply SA. apply Forall_inv_tail in V. unfold valid in V. rewrite Forall_forall in V. now apply V.
        * constructor; [|exact D]. rewrite B, app_length, L1. lia.
        * intros ND N. inversion ND as [|? ? N1 N2]; subst. destruct F as (F1 & F2); [exact N2| |].
          { intros r0 I0. cbn. destruct (Nat.eqb_spec r r0) as [<-|NE]; [contradiction|]. apply N. now right. }
          rewrite Forall_forall in F2. split.
          -- constructor; [|exact F1]. intros I0. specialize (F2 _ I0). lia.
          -- constructor; [lia|]. rewrite Forall_forall. intros c I0. specialize (F2 _ I0). lia.
  Qed.
  Lemma deepcopy_facts h sh r h' : deepcopy h sh = Ok (r, h') -> valid h (nth sh (h_lists _ h) []) ->
    r = List.length (h_lists _ h) /\ (exists l ext, h_lists _ h' = (h_lists _ h ++ [l])%list /\ h_segs _ h' = (h_segs _ h ++ ext)%list /\
      map (seg_at h') l = map (seg_at h) (nth sh (h_lists _ h) []) /\ Forall (fun c => List.length (h_segs _ h) <= c) l /\
      (NoDup (nth sh (h_lists _ h) []) -> NoDup l)).
  Proof.
    intros H V. unfold ShareModel.deepcopy in H. destruct (copy_all _ h [] (list_at h sh)) as [[l h1]|] eqn:K; [|discriminate].
    cbn in H. injection H as <- <-.
    destruct (copy_all_facts _ _ _ (List.length (h_segs _ h)) _ _ K V (le_n _)) as (A & (ext & B) & C & D & F); [intros ? ? [=]|].
    rewrite A. split; [reflexivity|]. exists l, ext. cbn. split; [reflexivity|]. split; [exact B|]. split; [exact C|]. split.
    - eapply Forall_impl; [|exact D]. cbn. intros; lia.
    - intros ND. destruct F; [exact ND|reflexivity|assumption].
  Qed.
  (** A transformed copy is a new shape; all existing objects are unchanged. *)
  Theorem c129_copy : forall h (f : op) sh r h', valid h (nth sh (h_lists _ h) []) -> transform h f sh = Ok (r, h') ->
    r = List.length (h_lists _ h) /\ Forall (fun c => List.length (h_segs _ h) <= c) (nth r (h_lists _ h') []) /\
    (forall i, i < List.length (h_lists _ h) -> nth i (h_lists _ h') [] = nth i (h_lists _ h) []) /\
    (forall i, i < List.length (h_segs _ h) -> nth_error (h_segs _ h') i = nth_error (h_segs _ h) i).
  Proof.
    intros h f sh r h' V H. unfold ShareModel.transform in H. destruct (deepcopy h sh) as [[q h1]|] eqn:D; [|discriminate].
    cbn [bind fst snd] in H. destruct (deepcopy_facts _ _ _ _ D V) as (-> & l & ext & A & B & _ & F & _).
    unfold ShareModel.apply in H.
    assert (L : list_at h1 (List.length (h_lists _ h)) = l).
    { unfold ShareModel.list_at. rewrite A, app_nth2, Nat.sub_diag by lia. reflexivity. }
    rewrite L in H. destruct (apply_all _ h1 f l) as [h2 [e|]] eqn:P; [discriminate|]. injection H as <- <-.
    destruct (apply_all_facts _ _ _ _ _ P) as (PA & _ & PC & _). rewrite PA. split; [reflexivity|].
    unfold ShareModel.list_at in L. rewrite L. split; [exact F|]. split.
    - intros i I0. rewrite A. now apply app_nth1.
    - intros i I0. unfold ShareModel.seg_at in PC. rewrite PC; [rewrite B; now apply nth_error_app1|].
      intros I1. rewrite Forall_forall in F. specialize (F _ I1). lia.
  Qed.
  (** Its segments are the transformed segments, if no segment occurs twice. *)
  Theorem c129_values : forall h (f : op) sh r h', valid h (nth sh (h_lists _ h) []) -> NoDup (nth sh (h_lists _ h) []) ->
    transform h f sh = Ok (r, h') ->
    map (nth_error (h_segs _ h')) (nth r (h_lists _ h') []) =
    map (fun i => option_map (fun s => fst (f s)) (nth_error (h_segs _ h) i)) (nth sh (h_lists _ h) []).
  Proof.
    intros h f sh r h' V ND H. unfold ShareModel.transform in H. destruct (deepcopy h sh) as [[q h1]|] eqn:D; [|discriminate].
    cbn [bind fst snd] in H. destruct (deepcopy_facts _ _ _ _ D V) as (-> & l & ext & A & B & C & _ & N). specialize (N ND).
    unfold ShareModel.apply in H.
    assert (L : list_at h1 (List.length (h_lists _ h)) = l).
    { unfold ShareModel.list_at. rewrite A, app_nth2, Nat.sub_diag by lia. reflexivity. }
    rewrite L in H. destruct (apply_all _ h1 f l) as [h2 [e|]] eqn:P; [discriminate|]. injection H as <- <-.
    destruct (apply_all_facts _ _ _ _ _ P) as (PA & _ & _ & PD). rewrite PA. unfold ShareModel.list_at in L. rewrite L.
    transitivity (map (option_map (fun s => fst (f s))) (map (seg_at h1) l)).
    - rewrite map_map. apply map_ext_in. intros i I0. exact (PD N eq_refl i I0).
    - rewrite C, map_map. reflexivity.
  Qed.

  (** ** C130 Lists of profiles and traces *)
  Notation add_shapes := (add_shapes Seg).
  Notation new_profile := (new_profile Seg).
  (** [None] is no list of shapes. *)
  Theorem c130_add : forall ok h p a, p < List.length (h_lists _ h) ->
    match add_shapes ok h p a with
    | Ok h' => a <> ANone /\ nth p (h_lists _ h') [] = (nth p (h_lists _ h) [] ++ given h a)%list /\ lists_kept h h' p /\
               h_segs _ h' = h_segs _ h /\ Forall (fun s => ok s = true) (given h a)
    | Err e => e = TypeError /\ (a = ANone \/ ~ Forall (fun s => ok s = true) (given h a))
    end.
  Proof.
    intros ok h p a LT. unfold ShareModel.add_shapes. destruct a as [r|s|].
    1,2: change (ShareModel.list_at Seg) with (fun (h0 : heap) r0 => nth r0 (h_lists _ h0) []); cbv beta; cbn [given];
      match goal with |- context [forallb ?k ?l] => destruct (forallb k l) eqn:F end; cbn [h_lists h_segs ShareModel.set_list];
      [ split; [discriminate|]; rewrite upd_same by assumption; split; [reflexivity|]; split;
        [intros i I0 N; cbn; apply upd_other; congruence|]; split; [reflexivity|]; now apply Forall_forall, forallb_forall
      | split; [reflexivity|]; right; intros N; rewrite Forall_forall, <- forallb_forall in N; congruence ].
    split; [reflexivity|now left].
  Qed.
  (** A profile has its own list: neither the given list nor another profile is changed later. *)
  Theorem c130_profile : forall ok h a p h', new_profile ok h a = Ok (p, h') ->
    p = List.length (h_lists _ h) /\ nth p (h_lists _ h') [] = given h a /\ 
    (forall i, i < List.length (h_lists _ h) -> nth i (h_lists _ h') [] = nth i (h_lists _ h) []) /\
    (forall b h'', (match b with AList r => r < List.length (h_lists _ h) | _ => True end) -> add_shapes ok h' p b = Ok h'' ->
       nth p (h_lists _ h'') [] = (given h a ++ given h b)%list /\
       forall i, i < List.length (h_lists _ h) -> nth i (h_lists _ h'') [] = nth i (h_lists _ h) []).
  Proof.
    intros ok h a p h' H. unfold ShareModel.new_profile in H. cbn [ShareModel.alloc_list] in H.
    set (h1 := Heap _ (h_lists _ h ++ [[]]) (h_segs _ h)) in *. set (n := List.length (h_lists _ h)) in *.
    destruct (add_shapes ok h1 n a) as [h2|] eqn:A; [|discriminate]. cbn [bind] in H. injection H as <- <-.
    assert (L1 : List.length (h_lists _ h1) = Datatypes.S n) by (cbn; rewrite app_length; cbn; lia).
    assert (E1 : nth n (h_lists _ h1) [] = []) by (cbn; rewrite app_nth2, Nat.sub_diag by (unfold n; lia); reflexivity).
    assert (G1 : forall b, given h1 b = given h b).
    { intros [r|s|]; [|reflexivity|reflexivity]. cbn. destruct (Nat.lt_ge_cases r n) as [LT|GE]; [now apply app_nth1|].
      rewrite app_nth2 by exact GE. rewrite (nth_overflow (h_lists _ h)) by exact GE. fold n. destruct (r - n) as [|[|k]]; reflexivity. }
    pose proof (c130_add ok h1 n a) as Q. rewrite A in Q. destruct Q as (_ & Q1 & Q2 & Q3 & _); [lia|].
    rewrite E1, G1 in Q1. cbn [app] in Q1.
    assert (K : forall i, i < n -> nth i (h_lists _ h2) [] = nth i (h_lists _ h) []).
    { intros i I0. rewrite Q2 by lia. cbn. now apply app_nth1. }
    split; [reflexivity|]. split; [exact Q1|]. split; [exact K|]. intros b h3 BV B.
    assert (L2 : n < List.length (h_lists _ h2)).
    { unfold ShareModel.add_shapes in A. destruct a; try discriminate; destruct (forallb _ _); try discriminate; injection A as <-; cbn [h_lists ShareModel.set_list]; rewrite upd_length; lia. }
    pose proof (c130_add ok h2 n b L2) as W. rewrite B in W. destruct W as (_ & W1 & W2 & _).
    rewrite W1, Q1. split; [|intros i I0; rewrite W2 by lia; now apply K].
    f_equal. destruct b as [r|s|]; [|reflexivity|reflexivity]. cbn. now apply K.
  Qed.

  Notation new_trace := (new_trace Seg Len seg_len ladd lzero lpos).
  Notation num_segments := (num_segments Seg Len).
  Notation length_of := (length_of Len lzero).
  (** The lookups of a new trace belong to its segments. *)
  Lemma lookups_facts h l : forall t ls ts, lookups Seg Len seg_len ladd h t l = Ok (ls, ts) ->
    map Some ls = map (fun r => option_map seg_len (nth_error (h_segs _ h) r)) l /\ List.length ts = List.length l /\
    (forall k, k <= List.length l -> nth k (t :: ts) t = fold_left ladd (firstn k ls) t).
  Proof.
    induction l as [|r l IH]; intros t ls ts H; cbn in H.
    - injection H as <- <-. repeat split. intros [|k] LE; cbn in *; [reflexivity|lia].
    - unfold ShareModel.seg_at in H. destruct (nth_error (h_segs _ h) r) as [s|] eqn:SR; [|discriminate].
      destruct (lookups _ _ _ _ h (ladd t (seg_len s)) l) as [[ls' ts']|] eqn:K; [|discriminate]. cbn in H. injection H as <- <-.
      destruct (IH _ _ _ K) as (A & B & C). cbn [map List.length]. rewrite A, SR, B. repeat split.
      intros [|k] LE; [reflexivity|]. cbn [firstn fold_left]. specialize (C k). cbn [List.length] in LE. rewrite <- C by lia.
      change (nth (Datatypes.S k) (t :: ladd t (seg_len s) :: ts') t) with (nth k (ladd t (seg_len s) :: ts') t).
      apply nth_indep. cbn. lia.
  Qed.
  Theorem c130_trace : forall h a t h', new_trace h a = Ok (t, h') ->
    nth (t_segments _ t) (h_lists _ h') [] = given h a /\ h_segs _ h' = h_segs _ h /\
    map Some (t_lengths _ t) = map (fun r => option_map seg_len (nth_error (h_segs _ h) r)) (given h a) /\
    length_of t = fold_left ladd (t_lengths _ t) lzero /\ lpos (length_of t) = true /\
    num_segments h' t = List.length (t_lengths _ t).
  Proof.
    intros h a t h' H. unfold ShareModel.new_trace in H. destruct (to_list h a) as [r h1] eqn:T.
    destruct (to_list_facts _ _ _ _ T) as (G & SG & _). rewrite G in H.
    destruct (lookups _ _ _ _ h1 lzero (given h a)) as [[ls ts]|] eqn:K; [|discriminate]. cbn [bind fst snd] in H.
    destruct (lpos _) eqn:P; [|discriminate]. injection H as <- <-. cbn [t_segments t_lengths].
    destruct (lookups_facts _ _ _ _ _ K) as (A & B & C). rewrite SG in A.
    assert (LL : List.length ls = List.length (given h a)) by (apply (f_equal (@List.length _)) in A; now rewrite !map_length in A).
    split; [exact G|]. split; [exact SG|]. split; [exact A|]. split; [|split; [exact P|]].
    - unfold ShareModel.length_of. cbn [t_totals]. specialize (C (List.length (given h a)) (le_n _)).
      rewrite <- LL, firstn_all in C. rewrite <- C, LL, <- B. clear. generalize lzero at 1 3 as z. revert lzero.
      induction ts as [|x ts IH]; intros d z; [reflexivity|]. cbn [List.length nth]. destruct ts as [|y ts]; [reflexivity|].
      change (last (z :: x :: y :: ts) d) with (last (x :: y :: ts) d). rewrite (IH d x). reflexivity.
    - unfold ShareModel.num_segments. cbn [t_segments]. rewrite G. now symmetry.
  Qed.
  (** Changes of the given list reach the trace, but not its length. *)
  Theorem c130_trace_list : forall h l t h1 l', new_trace h (AList l) = Ok (t, h1) -> l < List.length (h_lists _ h) ->
    num_segments (set_list _ h1 l l') t = List.length l' /\ List.length (t_lengths _ t) = List.length (nth l (h_lists _ h) []).
  Proof.
    intros h l t h1 l' H LT. destruct (c130_trace _ _ _ _ H) as (A & _ & B & _).
    unfold ShareModel.new_trace in H. cbn in H. destruct (lookups _ _ _ _ h lzero _) as [[ls ts]|]; [|discriminate]. cbn [bind fst snd] in H.
    destruct (lpos _); [|discriminate]. injection H as <- <-. unfold ShareModel.num_segments, ShareModel.list_at. cbn [t_segments h_lists ShareModel.set_list].
    rewrite upd_same by exact LT. split; [reflexivity|]. apply (f_equal (@List.length _)) in B. rewrite !map_length in B. exact B.
  Qed.
End Share.
Print Assumptions c128_new.
Print Assumptions c128_refused.
Print Assumptions c128_add.
Print Assumptions c128_add_refused.
Print Assumptions c128_shared.
Print Assumptions c129_apply.
Print Assumptions c129_frame.
Print Assumptions c129_linked.
Print Assumptions c129_exception.
Print Assumptions c129_copy.
Print Assumptions c129_values.
Print Assumptions c130_add.
Print Assumptions c130_profile.
Print Assumptions c130_trace.
Print Assumptions c130_trace_list.

(** Segments on a line as example: pairs of end points. *)
Definition ex_seg : Type := nat * nat.
Definition ex_new := new_shape ex_seg nat fst snd Nat.eqb.
Definition ex_add := add_segments ex_seg nat fst snd Nat.eqb.
Definition ex_linked := linked (Seg := ex_seg) fst snd Nat.eqb.
Definition ex_shift : op ex_seg := fun s => ((fst s + 1, snd s + 1), None).
Definition ex_fail : op ex_seg := fun s => if Nat.eqb (fst s) 2 then (s, Some NotImplementedError) else ex_shift s.
Definition ex_heap : heap ex_seg := Heap _ [[0]; [0; 1]; [0; 0]] [(1, 2); (2, 3)].

(** False: adding to a shape leaves the given list, or another shape, as it is. *)
Theorem c128_list_refuted : ~ forall (h : heap ex_seg) l sh h1 a h2, ex_new h (AList l) = Ok (sh, h1) -> ex_add h1 sh a = Ok h2 ->
  nth l (h_lists _ h2) [] = nth l (h_lists _ h) [].
Proof. intros H. specialize (H ex_heap 0 0 ex_heap (ASeg 1) _ eq_refl eq_refl). discriminate. Qed.
Print Assumptions c128_list_refuted.
(** False: every transformation of a shape leaves the other shapes linked. *)
Theorem c129_linked_refuted : ~ forall (h : heap ex_seg) a b h', apply _ h ex_shift a = (h', None) ->
  ex_linked h (nth b (h_lists _ h) []) -> ex_linked h' (nth b (h_lists _ h') []).
Proof.
  intros H. specialize (H ex_heap 0 1 _ eq_refl). destruct H with (i := 0) (a := 0) (b := 1) as (s & t & A & B & C); try reflexivity.
  - intros [|[|i]] a b A B; try discriminate. injection A as <-. injection B as <-. exists (1, 2), (2, 3). auto.
  - cbn in A, B. injection A as <-. injection B as <-. discriminate.
Qed.
Print Assumptions c129_linked_refuted.
(** False: each segment is transformed once; one that occurs twice is transformed twice, also in a copy. *)
Theorem c129_twice_refuted : ~ forall (h : heap ex_seg) sh r h', transform _ h ex_shift sh = Ok (r, h') ->
  map (nth_error (h_segs _ h')) (nth r (h_lists _ h') []) =
  map (fun i => option_map (fun s => fst (ex_shift s)) (nth_error (h_segs _ h) i)) (nth sh (h_lists _ h) []).
Proof. intros H. specialize (H ex_heap 2 _ _ eq_refl). discriminate. Qed.
Print Assumptions c129_twice_refuted.
(** False: a transformation that raises leaves the shape unchanged. *)
Theorem c129_exception_refuted : ~ forall (h : heap ex_seg) sh h' e, apply _ h ex_fail sh = (h', Some e) -> h_segs _ h' = h_segs _ h.
Proof. intros H. specialize (H ex_heap 1 _ _ eq_refl). discriminate. Qed.
Print Assumptions c129_exception_refuted.
(** False: the number of segments of a trace is always the number of its lengths. *)
Definition ex_trace := new_trace ex_seg nat (fun s => snd s - fst s) Nat.add 0 (Nat.ltb 0).
Theorem c130_trace_refuted : ~ forall (h : heap ex_seg) l t h1 l', ex_trace h (AList l) = Ok (t, h1) ->
  num_segments _ _ (set_list _ h1 l l') t = List.length (t_lengths _ t).
Proof. intros H. specialize (H ex_heap 0 _ _ [0; 1] eq_refl). discriminate. Qed.
Print Assumptions c130_trace_refuted.

Example ex_c128 : exists h, ex_new ex_heap (AList 1) = Ok (1, ex_heap) /\ ex_add ex_heap 0 (ASeg 1) = Ok h /\
  nth 0 (h_lists _ h) [] = [0; 1] /\ ex_add ex_heap 1 (ASeg 0) = Err ValueError /\ ex_add ex_heap 1 ANone = Err IndexError /\
  ex_new ex_heap (AList 2) = Err ValueError.
Proof. eexists. repeat split. Qed.
Example ex_c129 : exists h h', apply _ ex_heap ex_shift 1 = (h, None) /\ h_segs _ h = [(2, 3); (3, 4)] /\
  transform _ ex_heap ex_shift 1 = Ok (3, h') /\ h_segs _ h' = [(1, 2); (2, 3); (2, 3); (3, 4)] /\ nth 3 (h_lists _ h') [] = [2; 3].
Proof. eexists. eexists. repeat split. Qed.
Example ex_c130 : exists h t h', new_profile _ (fun r => Nat.eqb r 0) ex_heap (AList 0) = Ok (3, h) /\
  new_profile _ (fun r => Nat.eqb r 0) ex_heap (AList 1) = Err TypeError /\
  ex_trace ex_heap (AList 1) = Ok (t, h') /\ t_lengths _ t = [1; 1] /\ length_of _ 0 t = 2 /\ ex_trace ex_heap ANone = Err ValueError.
Proof. eexists. eexists. eexists. repeat split. Qed.
