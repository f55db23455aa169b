(** C48, C50: the dictionary view of a file. *)
From Coq Require Import List String Bool Arith Lia.
From Verif Require Import Base ViewModel ViewSpec ViewFacts.
Import ListNotations.
Open Scope list_scope.
Open Scope string_scope.

Section Lemmas.
  Variable V : Type.
  Variable none : V.
  Variable pick : list string -> option string.
  Variable protected : list string.
  Notation view := (view protected).
  Notation step := (step V none pick protected).

  Lemma items_view : forall l d, (forall k v, In (k, v) l -> dget k (view d) = Some v) -> items_of V protected (map fst l) d = Ok l.
  Proof.
    induction l as [|[k v] r IH]; intros d H; [reflexivity|]. cbn [map fst items_of]. rewrite getitem_view.
    rewrite (H k v (or_introl eq_refl)). cbn [bind]. rewrite IH; [reflexivity|]. intros k' v' I. apply H. right. exact I.
  Qed.
  Lemma in_dget : forall k v (d : dict V), NoDup (map fst d) -> In (k, v) d -> dget k d = Some v.
  Proof.
    intros k v. induction d as [|[k' v'] r IH]; intros N I; [destruct I|]. cbn [map fst] in N. apply NoDup_cons_iff in N. destruct N as [N1 N2].
    cbn [dget]. destruct (String.eqb k k') eqn:E.
    - apply String.eqb_eq in E. subst. destruct I as [I|I]; [congruence|]. destruct N1. apply in_map_iff. exists (k', v). auto.
    - destruct I as [I|I]; [injection I as -> ->; rewrite String.eqb_refl in E; discriminate|]. auto.
  Qed.
  Lemma pop_view : forall k df d, let (d', r) := pop V protected k df d in
    view d' = match dget k (view d) with Some _ => ddel k (view d) | None => view d end /\
    r = match dget k (view d), df with Some v, _ => Ok v | None, Some v => Ok v | None, None => Err KeyError end /\
    (d' = d \/ d' = ddel k d /\ ~ In k protected).
  Proof.
    intros k df d. unfold pop. rewrite getitem_view. pose proof (delitem_view V protected k d) as D.
    destruct (dget k (view d)) as [v|]; [|destruct df; auto].
    destruct (delitem V protected k d) as [d'|[]]; try contradiction. destruct D as (A & B & C). auto.
  Qed.
  Lemma popitem_view : forall d, let (d', r) := popitem V pick protected d in
    view d' = match pick (map fst (view d)) with
              | Some k => match dget k (view d) with Some _ => ddel k (view d) | None => view d end
              | None => view d end /\
    r = match pick (map fst (view d)) with
        | Some k => match dget k (view d) with Some v => Ok (k, v) | None => Err KeyError end
        | None => Err KeyError end /\
    (d' = d \/ exists k, d' = ddel k d /\ ~ In k protected).
  Proof.
    intros d. unfold popitem. rewrite keys_view. destruct (pick (map fst (view d))) as [k|]; [|auto].
    destruct (smem k protected) eqn:S.
    - apply smem_iff in S. rewrite (dget_view_prot V protected k d S). auto.
    - pose proof (pop_view k None d) as P. destruct (pop V protected k None d) as [d' r]. destruct P as (A & -> & C).
      split; [exact A|]. split; [destruct (dget k (view d)); reflexivity|]. destruct C as [C|C]; [auto|]. right. exists k. exact C.
  Qed.

  (** what a call does, as seen through the view *)
  Lemma step_view : forall b o d, NoDup (map fst d) -> (o = OClear _ -> NoDup protected /\ has_keys protected d) ->
    (forall k, In k (arguments o) -> ~ In k protected) ->
    let (d', a) := step b o d in let (e, a') := dict_step none pick
      (match o with OPop _ k df => if b then OPop _ k (Some (dflt V none df)) else o | _ => o end) (view d) in
    view d' = e /\ (if b then match o with OSetdefault _ _ _ => a = Ok (ANothing V) | _ => a = a' end else a = a').
  Proof.
    intros b o d N C AR. destruct o as [k|k|k v| |k| | |m kw| | |k df|k df|k df]; cbn [ViewModel.step dict_step arguments] in *.
    - rewrite getitem_view. destruct (dget k (view d)); cbn [bind]; destruct b; auto.
    - pose proof (delitem_view V protected k d) as D. destruct (delitem V protected k d) as [d'|[]], (dget k (view d)); try contradiction; destruct b; try tauto; auto.
    - rewrite setitem_view. rewrite (proj2 (smem_false k protected) (AR k (or_introl eq_refl))). destruct b; auto.
    - rewrite keys_view, map_length. destruct b; auto.
    - rewrite keys_view.
      assert (E : smem k (map fst (view d)) = dmem k (view d)); [|rewrite E; destruct b; auto].
      destruct (dmem k (view d)) eqn:M; [apply smem_iff, dmem_iff, M|]. apply smem_false. rewrite <- dmem_iff. congruence.
    - rewrite keys_view. destruct b; auto.
    - rewrite keys_view, items_view; [destruct b; auto|]. intros k v I. apply in_dget; [|exact I]. apply filter_nodup, N.
    - rewrite update_eq, view_dupdate. replace (view (view (m ++ kw)%list)) with (m ++ kw)%list; [destruct b; auto|].
      rewrite !view_id; auto. rewrite view_id; auto.
    - pose proof (popitem_view d) as P. destruct (popitem V pick protected d) as [d' r]. destruct P as (A & -> & _).
      destruct (pick (map fst (view d))) as [k|]; [|cbn [bind]; destruct b; auto]. destruct (dget k (view d)); cbn [bind fst snd]; destruct b; auto.
    - destruct (C eq_refl) as [NP HK]. destruct (clear_ok V protected d NP HK) as (d' & -> & VD & _). cbn [bind]. destruct b; auto.
    - unfold get. rewrite getitem_view. destruct (dget k (view d)), df; cbn [bind dflt]; destruct b; auto.
    - destruct b; cbn [dict_step].
      + pose proof (pop_view k (Some (dflt V none df)) d) as P. destruct (pop V protected k (Some (dflt V none df)) d) as [d' r].
        destruct P as (A & -> & _). destruct (dget k (view d)); cbn [bind]; auto.
      + pose proof (pop_view k df d) as P. destruct (pop V protected k df d) as [d' r].
        destruct P as (A & -> & _). destruct (dget k (view d)), df; cbn [bind]; auto.
    - unfold setdefault. rewrite getitem_view. fold (dflt V none df). destruct (dget k (view d)); cbn [bind].
      + destruct b; auto.
      + rewrite setitem_view. rewrite (proj2 (smem_false k protected) (AR k (or_introl eq_refl))). destruct b; auto.
  Qed.

  Lemma step_protected : forall b o d, (o = OClear _ -> NoDup protected /\ has_keys protected d) ->
    forall k, In k protected -> dget k (fst (step b o d)) = dget k d.
  Proof.
    intros b o d C k I.
    assert (DD : forall j e, ~ In j protected -> dget k (ddel j e) = @dget V k e).
    { intros j e J. rewrite dget_ddel. destruct (String.eqb k j) eqn:E; [apply String.eqb_eq in E; congruence|reflexivity]. }
    assert (PO : forall j df, dget k (fst (pop V protected j df d)) = dget k d).
    { intros j df. pose proof (pop_view j df d) as P. destruct (pop V protected j df d) as [d' r]. cbn [fst].
      destruct P as (_ & _ & [->|[-> J]]); auto. }
    destruct o as [j|j|j v| |j| | |m kw| | |j df|j df|j df]; cbn [ViewModel.step]; try reflexivity.
    - pose proof (delitem_view V protected j d) as D. destruct (delitem V protected j d) as [d'|]; cbn [fst]; [|reflexivity].
      destruct (dget j (view d)); [|contradiction]. destruct D as (_ & -> & J). auto.
    - cbn [fst]. unfold setitem. destruct (smem j protected) eqn:S; [reflexivity|]. apply smem_false in S. rewrite dget_dset.
      destruct (String.eqb k j) eqn:E; [apply String.eqb_eq in E; congruence|reflexivity].
    - cbn [fst]. rewrite update_eq. apply dupdate_get. intros J. apply view_keys_in in J. tauto.
    - pose proof (popitem_view d) as P. destruct (popitem V pick protected d) as [d' r]. cbn [fst].
      destruct P as (_ & _ & [->|(j & -> & J)]); auto.
    - destruct (C eq_refl) as [NP HK]. destruct (clear_ok V protected d NP HK) as (d' & -> & _ & _ & G). cbn [fst]. auto.
    - pose proof (PO j (if b then Some (dflt V none df) else df)) as P. destruct (pop V protected j _ d) as [d' r]. exact P.
    - unfold setdefault. rewrite getitem_view. destruct (dget j (view d)); cbn [fst]; [reflexivity|].
      unfold setitem. destruct (smem j protected) eqn:S; [reflexivity|]. apply smem_false in S. rewrite dget_dset.
      destruct (String.eqb k j) eqn:E; [apply String.eqb_eq in E; congruence|reflexivity].
  Qed.
  Lemma ddel_nodup : forall k (d : dict V), NoDup (map fst d) -> NoDup (map fst (ddel k d)).
  Proof. intros k d. apply filter_nodup. Qed.
  Lemma step_nodup : forall b o d, (o = OClear _ -> NoDup protected /\ has_keys protected d) -> NoDup (map fst d) -> NoDup (map fst (fst (step b o d))).
  Proof.
    intros b o d C N.
    assert (PO : forall j df, NoDup (map fst (fst (pop V protected j df d)))).
    { intros j df. pose proof (pop_view j df d) as P. destruct (pop V protected j df d) as [d' r]. cbn [fst].
      destruct P as (_ & _ & [->|[-> J]]); [exact N|apply ddel_nodup, N]. }
    destruct o as [j|j|j v| |j| | |m kw| | |j df|j df|j df]; cbn [ViewModel.step]; try exact N.
    - pose proof (delitem_view V protected j d) as D. destruct (delitem V protected j d) as [d'|]; cbn [fst]; [|exact N].
      destruct (dget j (view d)); [|contradiction]. destruct D as (_ & -> & J). apply ddel_nodup, N.
    - cbn [fst]. unfold setitem. destruct (smem j protected); [exact N|apply dset_nodup, N].
    - cbn [fst]. rewrite update_eq. apply dupdate_nodup, N.
    - pose proof (popitem_view d) as P. destruct (popitem V pick protected d) as [d' r]. cbn [fst].
      destruct P as (_ & _ & [->|(j & -> & J)]); [exact N|apply ddel_nodup, N].
    - destruct (C eq_refl) as [NP HK]. destruct (clear_ok V protected d NP HK) as (d' & -> & _ & NN & _). exact NN.
    - pose proof (PO j (if b then Some (dflt V none df) else df)) as P. destruct (pop V protected j _ d) as [d' r]. exact P.
    - unfold setdefault. destruct (getitem V protected j d) as [|[]]; cbn [fst]; try exact N.
      unfold setitem. destruct (smem j protected); [exact N|apply dset_nodup, N].
  Qed.
  Lemma has_keys_step : forall b o d, has_keys protected d -> NoDup protected -> has_keys protected (fst (step b o d)).
  Proof.
    intros b o d H N k I. apply dmem_iff. unfold dmem. rewrite step_protected by auto.
    destruct (dget_some V k d (H k I)) as [v ->]. reflexivity.
  Qed.
End Lemmas.

(** ** C48 *)
(** No sequence of calls changes a protected entry, if [clear] is not among them or
    all protected entries exist. *)
Theorem c48_protected : forall V none pick protected b ops (d : dict V), NoDup protected ->
  ~ In (OClear V) ops \/ has_keys protected d ->
  forall k, In k protected -> dget k (fst (run V none pick protected b ops d)) = dget k d.
Proof.
  intros V none pick protected b ops. induction ops as [|o r IH]; intros d N H k I; [reflexivity|].
  cbn [run]. destruct (step V none pick protected b o d) as [d' a] eqn:S. destruct (run V none pick protected b r d') as [d'' t] eqn:R. cbn [fst].
  assert (C : o = OClear V -> NoDup protected /\ has_keys protected d).
  { intros ->. destruct H as [H|H]; [destruct H; left; reflexivity|auto]. }
  pose proof (step_protected V none pick protected b o d C k I) as P. rewrite S in P. cbn [fst] in P. rewrite <- P.
  replace d'' with (fst (run V none pick protected b r d')) by (rewrite R; reflexivity). apply IH; [exact N| |exact I].
  destruct H as [H|H]; [left; intros J; apply H; right; exact J|right].
  replace d' with (fst (step V none pick protected b o d)) by (rewrite S; reflexivity). apply has_keys_step; assumption.
Qed.
Print Assumptions c48_protected.
(** The view behaves like a dictionary that has no protected entries. *)
Theorem c48_dict : forall V none pick protected o (d : dict V), NoDup (map fst d) ->
  (o = OClear V -> NoDup protected /\ has_keys protected d) -> (forall k, In k (arguments o) -> ~ In k protected) ->
  let (d', a) := step V none pick protected false o d in
  (view protected d', a) = dict_step none pick o (view protected d).
Proof.
  intros V none pick protected o d N C A. pose proof (step_view V none pick protected false o d N C A) as S.
  destruct (step V none pick protected false o d) as [d' a].
  replace (match o with OPop _ _ _ => o | _ => o end) with o in S by (destruct o; reflexivity).
  destruct (dict_step none pick o (view protected d)) as [e a']. destruct S as [-> ->]. reflexivity.
Qed.
Print Assumptions c48_dict.
(** Nothing can be learned about protected entries: answers and view depend only on
    the other entries. *)
Theorem c48_hidden : forall V none pick protected b o (d e : dict V), NoDup protected ->
  (o = OClear V -> has_keys protected d /\ has_keys protected e) -> view protected d = view protected e ->
  snd (step V none pick protected b o d) = snd (step V none pick protected b o e) /\
  view protected (fst (step V none pick protected b o d)) = view protected (fst (step V none pick protected b o e)).
Proof.
  intros V none pick protected b o d e N C E.
  assert (G : forall k, getitem V protected k d = getitem V protected k e) by (intros k; rewrite !getitem_view, E; reflexivity).
  assert (PO : forall k df, snd (pop V protected k df d) = snd (pop V protected k df e) /\
    view protected (fst (pop V protected k df d)) = view protected (fst (pop V protected k df e))).
  { intros k df. pose proof (pop_view V protected k df d) as P. pose proof (pop_view V protected k df e) as Q. rewrite E in P.
    destruct (pop V protected k df d), (pop V protected k df e). cbn [fst snd]. destruct P as (-> & -> & _), Q as (-> & -> & _). auto. }
  assert (SI : forall k v, view protected (setitem V protected k v d) = view protected (setitem V protected k v e)) by (intros; rewrite !setitem_view, E; reflexivity).
  destruct o as [k|k|k v| |k| | |m kw| | |k df|k df|k df]; cbn [step fst snd]; rewrite ?keys_view, ?E; auto.
  - rewrite G. auto.
  - pose proof (delitem_view V protected k d) as P. pose proof (delitem_view V protected k e) as Q. rewrite E in P.
    destruct (delitem V protected k d) as [|[]], (delitem V protected k e) as [|[]], (dget k (view protected e)); try contradiction; auto; cbn [fst snd].
    destruct P as [-> _], Q as [-> _]. auto.
  - assert (IT : forall l, items_of V protected l d = items_of V protected l e); [|rewrite IT; auto].
    induction l as [|k r IH]; [reflexivity|]. cbn [items_of]. rewrite G, IH. reflexivity.
  - rewrite !update_eq, !view_dupdate, E. auto.
  - pose proof (popitem_view V pick protected d) as P. pose proof (popitem_view V pick protected e) as Q. rewrite E in P.
    destruct (popitem V pick protected d), (popitem V pick protected e). cbn [fst snd]. destruct P as (-> & -> & _), Q as (-> & -> & _). auto.
  - destruct (C eq_refl) as [H1 H2]. destruct (clear_ok V protected d N H1) as (d' & -> & V1 & _).
    destruct (clear_ok V protected e N H2) as (e' & -> & V2 & _). cbn [fst snd]. rewrite V1, V2. auto.
  - unfold get. rewrite G. auto.
  - pose proof (PO k (if b then Some (dflt V none df) else df)) as P.
    destruct (pop V protected k _ d), (pop V protected k _ e). cbn [fst snd] in *. destruct P as [-> ->]. auto.
  - unfold setdefault. rewrite G. destruct (getitem V protected k e) as [|[]]; cbn [fst snd]; auto.
Qed.
Print Assumptions c48_hidden.
(** [clear] raises if a protected entry is missing, and the protected entries before
    it are lost. *)
Theorem c48_clear_refuted : forall none pick,
  let d := [("history", 1); ("a", 2)] in
  run nat none pick ["history"; "asdf_library"] false [OClear nat] d = ([("a", 2)], [Err KeyError]).
Proof. intros. reflexivity. Qed.
Print Assumptions c48_clear_refuted.
Example c48_ex : exists d : dict nat, NoDup (map fst d) /\ has_keys ["history"; "asdf_library"] d /\
  fst (run nat 0 (hd_error (A := string)) ["history"; "asdf_library"] true
    [OSetitem _ "history" 5; OSetitem _ "b" 6; ODelitem _ "a"; OPopitem _; OSetdefault _ "c" (Some 7); OClear _; OSetitem _ "z" 1] d)
  = [("history", 1); ("asdf_library", 2); ("z", 1)].
Proof.
  exists [("history", 1); ("a", 3); ("asdf_library", 2)]. split; [|split; [|reflexivity]].
  - apply (NoDup_count_occ' string_dec). intros x [<-|[<-|[<-|[]]]]; reflexivity.
  - intros k [<-|[<-|[]]]; cbn; auto.
Qed.

(** ** C50 *)
(** The effects of the methods of [WeldxFile] are those of a dictionary; all answers
    but that of [setdefault] as well, where a missing default of [pop] is [None]. *)
Theorem c50_dict : forall V none pick protected o (d : dict V), NoDup (map fst d) ->
  (o = OClear V -> NoDup protected /\ has_keys protected d) -> (forall k, In k (arguments o) -> ~ In k protected) ->
  let (d', a) := step V none pick protected true o d in
  let (e, a') := dict_step none pick (match o with OPop _ k None => OPop V k (Some none) | _ => o end) (view protected d) in
  view protected d' = e /\ ((forall k df, o <> OSetdefault V k df) -> a = a').
Proof.
  intros V none pick protected o d N C A. pose proof (step_view V none pick protected true o d N C A) as S.
  destruct (step V none pick protected true o d) as [d' a].
  replace (match o with OPop _ k None => OPop V k (Some none) | _ => o end)
    with (match o with OPop _ k df => OPop V k (Some (dflt V none df)) | _ => o end) by (destruct o as [| | | | | | | | | | |? []|]; reflexivity).
  destruct (dict_step none pick _ (view protected d)) as [e a']. destruct S as [-> S]. split; [reflexivity|].
  intros NS. destruct o; try exact S. destruct (NS k default eq_refl).
Qed.
Print Assumptions c50_dict.
(** [setdefault] sets the default but returns nothing, also if there is a value. *)
Theorem c50_setdefault_refuted : forall V none pick protected k df (d : dict V),
  snd (step V none pick protected true (OSetdefault V k df) d) = Ok (ANothing V) /\
  exists v, snd (dict_step none pick (OSetdefault V k df) (view protected d)) = Ok (AVal V v).
Proof.
  intros V none pick protected k df d. split.
  - cbn [step]. unfold setdefault. rewrite getitem_view. destruct (dget k (view protected d)); reflexivity.
  - cbn [dict_step]. destruct (dget k (view protected d)); eexists; reflexivity.
Qed.
Print Assumptions c50_setdefault_refuted.
(** [get] and [pop] never raise, also without default; [get] is documented to raise. *)
Theorem c50_get_refuted : forall V none pick protected k (d : dict V), dget k (view protected d) = None ->
  snd (step V none pick protected true (OGet V k None) d) = Ok (AVal V none) /\
  snd (step V none pick protected true (OPop V k None) d) = Ok (AVal V none).
Proof.
  intros V none pick protected k d E. cbn [step]. unfold get, pop. rewrite getitem_view, E. auto.
Qed.
Print Assumptions c50_get_refuted.
(** [popitem] removes and returns one of the visible items, as long as there is one. *)
Theorem c50_popitem : forall V none pick protected (d : dict V), picks pick -> NoDup (map fst d) -> view protected d <> [] ->
  exists k v, In (k, v) (view protected d) /\ step V none pick protected true (OPopitem V) d = (ddel k d, Ok (AItem V k v)).
Proof.
  intros V none pick protected d P N NE. cbn [step]. unfold popitem. rewrite keys_view. specialize (P (map fst (view protected d))).
  destruct (pick (map fst (view protected d))) as [k|]; [|destruct (view protected d); [destruct NE; reflexivity|discriminate]].
  pose proof (proj1 (view_keys_in V protected k d) P) as [KD NP]. rewrite (proj2 (smem_false k protected) NP).
  destruct (dget_some V k (view protected d) P) as [v G]. exists k, v. split; [apply dget_in, G|].
  unfold pop, getitem, delitem. rewrite (proj2 (smem_false k protected) NP). rewrite dget_view in G by exact NP. rewrite G.
  unfold dmem. rewrite G. reflexivity.
Qed.
Print Assumptions c50_popitem.
(** It need not be the one that was inserted last. *)
Theorem c50_popitem_refuted : exists pick, picks pick /\
  snd (run nat 0 pick [] true [OSetitem _ "a" 1; OSetitem _ "b" 2; OPopitem _] []) = [Ok (ANothing _); Ok (ANothing _); Ok (AItem _ "a" 1)].
Proof.
  exists (hd_error (A := string)). split; [|reflexivity]. intros [|k l]; [reflexivity|left; reflexivity].
Qed.
Print Assumptions c50_popitem_refuted.
(** an empty view raises KeyError *)
Theorem c50_popitem_empty : forall V none pick protected b (d : dict V), picks pick -> view protected d = [] ->
  step V none pick protected b (OPopitem V) d = (d, Err KeyError).
Proof.
  intros V none pick protected b d P E. cbn [step]. unfold popitem. rewrite keys_view, E. specialize (P []). cbn [map].
  destruct (pick []); [destruct P|reflexivity].
Qed.
Print Assumptions c50_popitem_empty.
