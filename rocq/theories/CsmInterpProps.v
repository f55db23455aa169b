(** C90: [CoordinateSystemManager.interp_time] keeps the poses at the requested times.
    C91: which objects it changes. *)
From Coq Require Import Reals Lra List String ZArith Bool Lia Sorting.Sorted.
From Verif Require Import Base RigidModel RigidSpec RigidFacts InterpModel InterpSpec LinModel LinFacts CsmModel CsmSpec CsmGraphFacts CsmProps
  LcsTimeModel LcsTimeSpec LcsTimeFacts CsmGetModel CsmGetSpec CsmHeapModel CsmHeapFacts CsmPathFacts CsmInterpModel CsmInterpSpec CsmInterpFacts CsmInterpTreeFacts.
Import ListNotations.
Open Scope Z_scope.
Open Scope list_scope.

Lemma poses_iff : forall sl (SL : slerp_ok sl) (D : Type) (s : env D) ts R l l', valid_t l ->
  same_poses sl (v_mgr s) ts R l l' -> valid_t l' /\ forall t x, In t ts ->
  (pose_at sl l' (edge_time (view s) R l' t) x <-> pose_at sl l (edge_time (view s) R l t) x).
Proof.
  intros sl SL D s ts R l l' W [[W' _] P]. split; [ exact W' | ]. intros t x Ht.
  rewrite !(pose_at_iff sl SL) by assumption. assert (Q := P t Ht). unfold at_req in Q. unfold edge_time. cbn [view c_ref].
  rewrite Q. reflexivity.
Qed.

Lemma dated_or : forall (D : Type) (c : csm nat D) l l', l' = l \/ l' = dated (c_ref c) l -> only_dated c l l'.
Proof. intros D c l l' [->| ->]; [ left; reflexivity | apply dated_only ]. Qed.

(** In place or as a copy, for the given systems or for all: nothing but the systems on
    the edges differs. At the requested moments every concerned system has the same pose
    as before, is given at these times or does not depend on time, and its inverse is
    stored. All other systems are the same up to the reference time of the manager. *)
Theorem c90_poses : forall sl (D : Type) (s : env D) time rt tref names (in_place : bool), slerp_ok sl ->
  @is_tree tlcs D (tlcs_ops sl) (view s) -> names_ok s names -> rt = with_ref tref time ->
  StronglySorted Z.lt (r_times rt) -> r_times rt <> [] ->
  (forall u v l, system s u v true l -> valid_t l /\ accepts (v_mgr s) (r_ref rt) l) ->
  exists s' c', csm_interp sl s (Some time) tref names in_place = (s', Ok c') /\ same_frame (v_mgr s) c' /\
    let e := Env c' (v_objs s') in
    (forall u v l, system s u v true l -> concerns s names u v ->
       exists l' i, system e u v true l' /\ valid_t l' /\
         (forall t x, In t (r_times rt) ->
            (pose_at sl l' (edge_time (view s) (r_ref rt) l' t) x <-> pose_at sl l (edge_time (view s) (r_ref rt) l t) x)) /\
         is_expr l' = false /\ (has_axis l' = true -> lcs_time l' = Some rt) /\
         tlcs_invert sl l' = Ok i /\ system e v u false i) /\
    (forall u v d l, system s u v d l -> ~ concerns s names u v ->
       exists l', system e u v d l' /\ only_dated (v_mgr s) l l').
Proof.
  intros sl D s time rt tref names b SL T Hn Er S N Hf.
  assert (Main : forall s0 : env D, view s0 = view s -> c_ref (v_mgr s0) = c_ref (v_mgr s) -> c_nodes (v_mgr s0) = c_nodes (v_mgr s) ->
    c_root (v_mgr s0) = c_root (v_mgr s) ->
    exists s1, interp_in_place sl s0 (Some time) tref names = (s1, Ok tt) /\ same_frame (v_mgr s0) (v_mgr s1) /\
      (forall u v l, system s u v true l -> concerns s names u v ->
       exists l' i, system s1 u v true l' /\ valid_t l' /\
         (forall t x, In t (r_times rt) ->
            (pose_at sl l' (edge_time (view s) (r_ref rt) l' t) x <-> pose_at sl l (edge_time (view s) (r_ref rt) l t) x)) /\
         is_expr l' = false /\ (has_axis l' = true -> lcs_time l' = Some rt) /\
         tlcs_invert sl l' = Ok i /\ system s1 v u false i) /\
    (forall u v d l, system s u v d l -> ~ concerns s names u v ->
       exists l', system s1 u v d l' /\ only_dated (v_mgr s) l l')).
  { intros s0 Ev Ec En Ero.
    assert (Sy : forall u v d l, system s0 u v d l <-> system s u v d l) by (intros; unfold system; rewrite Ev; tauto).
    assert (Co : forall u v, concerns s0 names u v <-> concerns s names u v) by (intros; unfold concerns; rewrite Ev, Ero; tauto).
    destruct rt as [ts R]. cbn [r_times r_ref] in *.
    destruct (in_place_ok sl SL ts R S N s0 (Some time) tref names) as (s1 & E & Fr & P1 & P2 & _).
    - rewrite Ev. exact T.
    - unfold names_ok, cs_names in *. rewrite En, Ero. exact Hn.
    - cbn [option_map]. rewrite <- Er. reflexivity.
    - intros u v l H. apply Sy in H. destruct (Hf u v l H) as [W A]. split; [ exact W | ]. unfold accepts in *. rewrite Ec. exact A.
    - exists s1. split; [ exact E | ]. split; [ exact Fr | ]. split.
      + intros u v l H C. destruct (P1 u v l (proj2 (Sy u v true l) H)) as [Q _].
        destruct (Q (proj2 (Co u v) C)) as (l' & i & S1 & Po & [X Ax] & Ei & Si).
        assert (Po' : same_poses sl (v_mgr s) ts R l l').
        { unfold same_poses, fine, accepts, at_req in *. rewrite <- Ec. exact Po. }
        destruct (poses_iff sl SL D s ts R l l' (proj1 (Hf u v l H)) Po') as [W' Pi].
        exists l', i. split; [ exact S1 | ]. split; [ exact W' | ]. split; [ exact Pi | ]. split; [ exact X | ].
        split; [ | split; assumption ]. intros Hx. destruct (Ax Hx) as [A1 A2]. unfold lcs_time. rewrite A1, A2. reflexivity.
      + intros u v d l H C. assert (C' : ~ concerns s0 names u v) by (rewrite Co; exact C). destruct d.
        * destruct (P1 u v l (proj2 (Sy u v true l) H)) as [_ Q]. destruct (Q C') as (l' & S1 & O). exists l'.
          split; [ exact S1 | ]. apply dated_or. rewrite <- Ec. exact O.
        * destruct (P2 u v l (proj2 (Sy u v false l) H) C') as (l' & S1 & O). exists l'. split; [ exact S1 | ]. apply dated_or. rewrite <- Ec. exact O. }
  destruct b; unfold csm_interp.
  - destruct (Main s eq_refl eq_refl eq_refl eq_refl) as ([c1 h1] & E & Fr & P). rewrite E. cbn [fst snd bind v_mgr v_objs].
    exists (Env c1 h1), c1. auto.
  - destruct (Main (deepcopy s) (view_copy s) eq_refl eq_refl eq_refl) as ([c1 h1] & E & Fr & P). rewrite E. cbn [fst snd bind v_mgr v_objs].
    exists (Env (v_mgr s) h1), c1. split; [ reflexivity | ]. split; [ | exact P ].
    cbn [v_mgr] in Fr. refine (frame_trans _ (v_mgr (deepcopy s)) _ _ Fr). unfold same_frame, deepcopy. cbn. rewrite map_map. auto 10.
Qed.
Print Assumptions c90_poses.

(** The result is a proper tree again: every defined edge has its inverse on the
    opposite edge. *)
Theorem c90_tree : forall sl (D : Type) (s : env D) time rt tref names s' c', slerp_ok sl ->
  @is_tree tlcs D (tlcs_ops sl) (view s) -> no_dangling s -> names_ok s names -> rt = with_ref tref time ->
  StronglySorted Z.lt (r_times rt) -> r_times rt <> [] ->
  (forall u v l, system s u v true l -> valid_t l /\ accepts (v_mgr s) (r_ref rt) l) ->
  names = None \/ c_ref (v_mgr s) = None ->
  csm_interp sl s (Some time) tref names true = (s', Ok c') ->
  @is_tree tlcs D (tlcs_ops sl) (view (Env c' (v_objs s'))).
Proof.
  intros sl D s time rt tref names s' c' SL T Cl Hn Er S N Hf Hc E. unfold csm_interp in E.
  destruct (interp_in_place sl s (Some time) tref names) as [[c1 h1] [u|e]] eqn:E1; [ | discriminate ].
  cbn [fst snd bind v_mgr] in E. injection E as <- <-. cbn [v_objs]. destruct u. destruct rt as [ts R].
  apply (in_place_tree sl SL ts R S N s (Some time) tref names); auto.
  - cbn [option_map]. rewrite <- Er. reflexivity.
Qed.
Print Assumptions c90_tree.

(** Without [in_place] the manager and all existing objects stay as they are, whether
    the call succeeds or not, and the new manager has no object in common with them. *)
Theorem c91_copy : forall sl (D : Type) (s : env D) time tref names s' r,
  csm_interp sl s time tref names false = (s', r) ->
  v_mgr s' = v_mgr s /\
  (forall a l, nth_error (v_objs s) a = Some l -> nth_error (v_objs s') a = Some l) /\
  (forall c' x a, r = Ok c' -> In x (c_edges c') -> e_tr x = Some a -> (List.length (v_objs s) <= a)%nat).
Proof.
  intros sl D s time tref names s' r H. unfold csm_interp in H.
  destruct (interp_in_place sl (deepcopy s) time tref names) as [s1 r1] eqn:E.
  destruct (in_place_low sl _ _ _ _ _ _ _ (copy_above s) E) as [A L]. cbn [fst snd] in H. injection H as <- <-.
  split; [ reflexivity | ]. split.
  - intros a l Ha. assert (La : (a < List.length (v_objs s))%nat) by (apply nth_error_Some; congruence).
    cbn [v_objs]. rewrite (L a La). cbn [deepcopy v_objs]. rewrite nth_error_app1 by exact La. exact Ha.
  - intros c' x a Er Hx Ex. destruct r1; [ | discriminate ]. cbn [bind] in Er. injection Er as <-. exact (proj2 A x a Hx Ex).
Qed.
Print Assumptions c91_copy.

(** In place, with or without an error: an existing object stays as it is or gets the
    reference time of the manager, the latter only if it belongs to a defined edge. *)
Theorem c91_objects : forall sl (D : Type) (s : env D) time tref names s' r,
  csm_interp sl s time tref names true = (s', r) ->
  forall a l, nth_error (v_objs s) a = Some l -> exists l', nth_error (v_objs s') a = Some l' /\
    only_dated (v_mgr s) l l' /\
    (l' <> l -> exists u v, In (Edge u v (Some a) true) (c_edges (v_mgr s))).
Proof.
  intros sl D s time tref names s' r H a l Ha. unfold csm_interp in H.
  destruct (interp_in_place sl s time tref names) as [s1 r1] eqn:E. cbn [fst snd] in H. injection H as <- _.
  destruct (in_place_touches sl s time tref names s1 r1 E) as (_ & T & _). destruct (T a l Ha) as (l' & H' & Q).
  exists l'. split; [ exact H' | ]. split; [ apply dated_or; tauto | ]. intros Ne. destruct Q as [Q|[_ Q]]; [ contradiction | ].
  destruct Q as (x & Hx & Dx & Ex & _); [ apply nth_error_Some; congruence | ].
  exists (e_src x), (e_dst x). destruct x as [u v t d]. cbn in *. subst. exact Hx.
Qed.
Print Assumptions c91_objects.

(** ** examples and counterexamples *)

(** moves along x between the times 0 and 2 *)
Definition slider : tlcs := TL (Const mid) (CArr (Ser [(0, vzero); (2, V 2 0 0)])) None None.
(** an expression *)
Definition formula : tlcs := TL (Const mid) (CExpr (fun t => V (IZR t) 0 0)) None None.
Definition turned_back (sl : segment mat) (l : tlcs) : tlcs := @l_inv tlcs (tlcs_ops sl) l.

(** one system "a" in the root system "r" *)
Definition single (sl : segment mat) (ref : option Z) (l : tlcs) : env unit :=
  Env (Csm "m" ref "r" [] [("r", []); ("a", [])]%string
         [Edge "a" "r" (Some 0%nat) true; Edge "r" "a" (if is_expr l then None else Some 1%nat) false]%string)
      [l; turned_back sl l].
(** the same object as system "a" and as system "b" *)
Definition twins (sl : segment mat) (ref : option Z) (l : tlcs) : env unit :=
  Env (Csm "m" ref "r" [] [("r", []); ("a", []); ("b", [])]%string
         [Edge "a" "r" (Some 0%nat) true; Edge "r" "a" (Some 1%nat) false;
          Edge "b" "r" (Some 0%nat) true; Edge "r" "b" (Some 2%nat) false]%string)
      [l; turned_back sl l; turned_back sl l].

Lemma single_reachable : forall sl ref l, l = slider \/ l = formula -> @reachable tlcs unit (tlcs_ops sl) (view (single sl ref l)).
Proof.
  intros sl ref l H. assert (E : view (single sl ref l) = fst (@run_op tlcs unit (tlcs_ops sl) (new_csm "r" "m" ref) (OAdd "a" "r" l true))).
  { destruct H as [->| ->], ref; reflexivity. }
  rewrite E. apply r_op; [ apply r_new | intros o Q; discriminate ].
Qed.
Lemma twins_reachable : forall sl ref, @reachable tlcs unit (tlcs_ops sl) (view (twins sl ref slider)).
Proof.
  intros sl ref.
  assert (E : view (twins sl ref slider) = fst (@run_op tlcs unit (tlcs_ops sl) (view (single sl ref slider)) (OAdd "b" "r" slider true))).
  { destruct ref; reflexivity. }
  rewrite E. apply r_op; [ apply single_reachable; auto | intros o Q; discriminate ].
Qed.

Lemma slider_valid : valid_t slider.
Proof.
  constructor; cbn; [ exact Logic.I | split; [ lia | exact Logic.I ] | intros m ->; exact orthonormal_mid | exact Logic.I | reflexivity | discriminate ].
Qed.

(** the premises of C90 can be met *)
Example ex_c90 : forall sl, slerp_ok sl -> let s := single sl None slider in let rt := RT [0; 1; 2] None in
  @is_tree tlcs unit (tlcs_ops sl) (view s) /\ no_dangling s /\ names_ok s (Some ["a"%string]) /\
  StronglySorted Z.lt (r_times rt) /\
  (forall u v l, system s u v true l -> valid_t l /\ accepts (v_mgr s) (r_ref rt) l) /\
  concerns s (Some ["a"%string]) "a" "r".
Proof.
  intros sl SL s rt. split; [ apply c14_reachable_is_tree; apply single_reachable; auto | ]. split.
  { intros x a [<-|[<-|[]]] E; cbn in E; injection E as <-; cbn; lia. }
  split; [ intros n [<-|[]]; split; [ cbn; auto | discriminate ] | ]. split; [ repeat constructor; lia | ]. split.
  - intros u v l [H|[H|[]]]; cbn in H; [ injection H as _ _ <- | discriminate ]. split; [ exact slider_valid | ].
    intros _. cbn. tauto.
  - exists "a"%string, "r"%string, []. split; [ left; reflexivity | ]. split; [ | auto ]. split.
    + apply walk_step with "r"%string; [ | apply walk_one ]. eexists. split; [ left; reflexivity | split; reflexivity ].
    + repeat constructor; cbn; intuition discriminate.
Qed.

(** A manager with reference time: times without reference time are refused, although
    [get_cs] accepts them for the same systems, and the refused call has changed the
    object that the caller passed to [add_cs]. *)
Theorem c90_relative_refuted : forall sl, slerp_ok sl -> let s := single sl (Some 50) slider in
  @reachable tlcs unit (tlcs_ops sl) (view s) /\
  (exists s', csm_interp sl s (Some (RT [0; 1] None)) None None true = (s', Err TypeError) /\
     nth_error (v_objs s) 0 = Some slider /\
     nth_error (v_objs s') 0 = Some (TL (tl_ori slider) (tl_pos slider) None (Some 50))) /\
  exists l, get_cs sl (view s) "a" (Some "r"%string) (Some (RT [0; 1] None)) None = Ok l.
Proof.
  intros sl SL s. assert (Re : @reachable tlcs unit (tlcs_ops sl) (view s)) by (apply single_reachable; auto). split; [ exact Re | ]. split.
  - eexists. split; [ reflexivity | ]. split; reflexivity.
  - assert (Ep : shortest_path (c_edges (view s)) "a" "r" = Some ["a"; "r"]%string) by reflexivity.
    assert (Pp := shortest_path_simple _ _ _ _ Ep).
    destruct (get_cs_path sl SL (view s) "a" "r" (RT [0; 1] None) None (c14_reachable_is_tree _ _ _ _ Re)) with (p := ["a"; "r"]%string)
      as (l & El & _); try assumption.
    + intros e l [<-|[<-|[]]] De El; cbn in El, De; [ injection El as <- | discriminate ].
      split; [ exact slider_valid | ]. split; [ reflexivity | discriminate ].
    + cbn; auto.
    + cbn; auto.
    + discriminate.
    + repeat constructor; lia.
    + discriminate.
    + intros e l _ _ _ _. left. discriminate.
    + exists l. exact El.
Qed.
Print Assumptions c90_relative_refuted.

(** the interpolated systems of the counterexamples *)
Lemma slider_poses : forall sl r, posef sl (TL (tl_ori slider) (tl_pos slider) None r) 0 <> posef sl (TL (tl_ori slider) (tl_pos slider) None r) 1.
Proof.
  intros sl r H. apply (f_equal (fun x => vx (l_pos x))) in H. unfold posef, slider in H. cbn in H.
  unfold lin_vec, lin in H. cbn in H. lra.
Qed.
Lemma slider_interp : forall sl r, slerp_ok sl ->
  exists i j, interp_time sl (TL (tl_ori slider) (tl_pos slider) None r) (Some (RT [0; 1] r)) = Ok i /\ lcs_axis i = Some [0; 1] /\ is_expr i = false /\
    tlcs_invert sl i = Ok j /\ lcs_axis j = Some [0; 1].
Proof.
  intros sl r SL. set (l := TL (tl_ori slider) (tl_pos slider) None r).
  assert (W : valid_t l).
  { constructor; cbn; [ exact Logic.I | split; [ lia | exact Logic.I ] | intros m ->; exact orthonormal_mid | exact Logic.I | reflexivity | discriminate ]. }
  destruct (interp_time_ok sl SL l [0; 1] r W) as (i & E & Wi & Xi & Pi & Ai & _); [ repeat constructor; lia | discriminate | | ].
  { intros _. unfold compatible. cbn. tauto. }
  assert (X : is_expr i = false) by (rewrite Xi; reflexivity).
  assert (Lt : forall t, local_time l r t = t) by (intros t; unfold local_time, l; cbn [tl_ref]; destruct r; lia).
  assert (H : has_axis i = true).
  { destruct (has_axis i) eqn:Ha; [ reflexivity | exfalso ]. apply (slider_poses sl r). fold l.
    rewrite <- (Lt 0), <- (Lt 1), <- !Pi by (cbn; auto). apply static_posef. rewrite dep_axis; assumption. }
  destruct (tlcs_invert_ok sl SL i Wi X) as (j & Ej & _ & _ & Lj & _). destruct (Ai H) as (_ & A & _).
  exists i, j. split; [ exact E | ]. split; [ exact A | ]. split; [ exact X | ]. split; [ exact Ej | congruence ].
Qed.
Lemma slider_back : forall sl r, slerp_ok sl -> exists j, tlcs_invert sl (TL (tl_ori slider) (tl_pos slider) None r) = Ok j /\
  lcs_axis j = Some [0; 2] /\ tl_ref j = r.
Proof.
  intros sl r SL. set (l := TL (tl_ori slider) (tl_pos slider) None r).
  assert (W : valid_t l).
  { constructor; cbn; [ exact Logic.I | split; [ lia | exact Logic.I ] | intros m ->; exact orthonormal_mid | exact Logic.I | reflexivity | discriminate ]. }
  destruct (tlcs_invert_ok sl SL l W eq_refl) as (j & Ej & _ & _ & Lj & Rj & _). exists j. auto.
Qed.

(** Naming the root fails after the other systems have been interpolated: the opposite
    edge still holds the old inverse. *)
Theorem c90_root_refuted : forall sl, slerp_ok sl -> let s := single sl None slider in
  exists s' l' i, csm_interp sl s (Some (RT [0; 1] None)) None (Some ["a"; "r"]%string) true = (s', Err KeyError) /\
    system s' "a" "r" true l' /\ lcs_axis l' = Some [0; 1] /\
    system s' "r" "a" false i /\ lcs_axis i = Some [0; 2] /\
    ~ @is_tree tlcs unit (tlcs_ops sl) (view s').
Proof.
  intros sl SL s. destruct (slider_interp sl None SL) as (i & j & E & A & X & Ej & Aj).
  destruct (slider_back sl None SL) as (k & Ek & Ak & _).
  assert (Tb : turned_back sl slider = k) by (unfold turned_back; cbn [tlcs_ops l_inv]; change slider with (TL (tl_ori slider) (tl_pos slider) None None); rewrite Ek; reflexivity).
  set (s' := Env (Csm "m" None "r" [] [("r", []); ("a", [])]%string
         [Edge "a" "r" (Some 2%nat) true; Edge "r" "a" (Some 1%nat) false]%string) [slider; turned_back sl slider; i] : env unit).
  exists s', i, k.
  split.
  { unfold csm_interp, interp_in_place. change (TL (tl_ori slider) (tl_pos slider) None None) with slider in E. cbn -[interp_time tlcs_invert mid vzero IZR turned_back]. rewrite E. reflexivity. }
  split; [ left; reflexivity | ]. split; [ exact A | ]. split; [ right; left; rewrite <- Tb; reflexivity | ]. split; [ exact Ak | ].
  intros T. destruct (tr_reverse _ T (Edge "a" "r" (Some i) true)%string) as (t & Et & Hr); [ left; reflexivity | reflexivity | ].
  cbn in Et. injection Et as <-. unfold stored_inverse in Hr. cbn [tlcs_ops l_expr l_inv] in Hr. rewrite X, Ej in Hr.
  cbn in Hr. destruct Hr as [Hr|[Hr|[]]]; [ discriminate | ]. injection Hr as Hr. change (turned_back sl slider = j) in Hr. congruence.
Qed.
Print Assumptions c90_root_refuted.

(** If one object is the system of two edges and only one of them is interpolated, the
    other one gets a reference time that its stored inverse does not have. *)
Theorem c90_shared_refuted : forall sl, slerp_ok sl -> let s := twins sl (Some 50) slider in
  @reachable tlcs unit (tlcs_ops sl) (view s) /\
  exists s' c' l i, csm_interp sl s (Some (RT [0; 1] (Some 50))) None (Some ["a"]%string) true = (s', Ok c') /\
    system s' "b" "r" true l /\ tl_ref l = Some 50 /\ system s' "r" "b" false i /\ tl_ref i = None /\
    ~ @is_tree tlcs unit (tlcs_ops sl) (view s').
Proof.
  intros sl SL s. split; [ apply twins_reachable | ]. destruct (slider_interp sl (Some 50) SL) as (i & j & E & A & X & Ej & Aj).
  destruct (slider_back sl None SL) as (k & Ek & Ak & Rk). destruct (slider_back sl (Some 50) SL) as (k' & Ek' & Ak' & Rk').
  assert (Tb : turned_back sl slider = k) by (unfold turned_back; cbn [tlcs_ops l_inv]; change slider with (TL (tl_ori slider) (tl_pos slider) None None); rewrite Ek; reflexivity).
  set (d := TL (tl_ori slider) (tl_pos slider) None (Some 50)) in *.
  set (c' := Csm "m" (Some 50) "r" [] [("r", []); ("a", []); ("b", [])]%string
         [Edge "a" "r" (Some 3%nat) true; Edge "r" "a" (Some 4%nat) false;
          Edge "b" "r" (Some 0%nat) true; Edge "r" "b" (Some 2%nat) false]%string : csm nat unit).
  exists (Env c' [d; k; k; i; j]), c', d, k.
  split.
  { unfold csm_interp, interp_in_place. unfold s, twins. rewrite Tb. change d with (reset_reference_time slider 50) in E.
    cbn -[interp_time tlcs_invert mid vzero IZR turned_back reset_reference_time]. rewrite E.
    change (is_time_dependent (reset_reference_time slider 50)) with true. cbn -[interp_time tlcs_invert mid vzero IZR turned_back reset_reference_time]. rewrite Ej. reflexivity. }
  split; [ right; right; left; reflexivity | ]. split; [ reflexivity | ]. split; [ right; right; right; left; reflexivity | ]. split; [ exact Rk | ].
  intros T. destruct (tr_reverse _ T (Edge "b" "r" (Some d) true)%string) as (t & Et & Hr); [ right; right; left; reflexivity | reflexivity | ].
  cbn [e_tr] in Et. injection Et as <-. unfold stored_inverse in Hr. cbn [tlcs_ops l_expr l_inv] in Hr.
  change (is_expr d) with false in Hr. cbv iota in Hr. rewrite Ek' in Hr.
  cbn in Hr. destruct Hr as [Hr|[Hr|[Hr|[Hr|[]]]]]; try discriminate. injection Hr as Hr. congruence.
Qed.
Print Assumptions c90_shared_refuted.

(** Without times nothing is interpolated, but the call fails if there is an expression. *)
Theorem c90_none_refuted : forall sl, exists s : env unit, @reachable tlcs unit (tlcs_ops sl) (view s) /\
  csm_interp sl s None None None true = (s, Err WeldxException).
Proof.
  intros sl. exists (single sl None formula). split; [ apply single_reachable; auto | reflexivity ].
Qed.
Print Assumptions c90_none_refuted.

(** A successful call changes the object that the caller passed to [add_cs]: it could be
    interpolated at time deltas before, but not afterwards. *)
Theorem c91_caller_refuted : forall sl, slerp_ok sl -> let s := single sl (Some 50) slider in
  @reachable tlcs unit (tlcs_ops sl) (view s) /\
  exists s' c' l, csm_interp sl s (Some (RT [0; 1] (Some 50))) None None true = (s', Ok c') /\
    nth_error (v_objs s) 0 = Some slider /\ nth_error (v_objs s') 0 = Some l /\ tl_ref l = Some 50 /\
    (exists i, interp_time sl slider (Some (RT [0; 1] None)) = Ok i) /\
    interp_time sl l (Some (RT [0; 1] None)) = Err TypeError.
Proof.
  intros sl SL s. split; [ apply single_reachable; auto | ]. destruct (slider_interp sl (Some 50) SL) as (i & j & E & A & X & Ej & Aj).
  destruct (slider_interp sl None SL) as (i0 & j0 & E0 & _).
  eexists. eexists. exists (TL (tl_ori slider) (tl_pos slider) None (Some 50)). split.
  { unfold csm_interp, interp_in_place. unfold s, single. change (TL (tl_ori slider) (tl_pos slider) None (Some 50)) with (reset_reference_time slider 50) in E.
    cbn -[interp_time tlcs_invert mid vzero IZR turned_back reset_reference_time]. rewrite E.
    change (is_time_dependent (reset_reference_time slider 50)) with true. cbn -[interp_time tlcs_invert mid vzero IZR turned_back reset_reference_time]. rewrite Ej. reflexivity. }
  split; [ reflexivity | ]. split; [ reflexivity | ]. split; [ reflexivity | ]. split; [ exists i0; exact E0 | reflexivity ].
Qed.
Print Assumptions c91_caller_refuted.
