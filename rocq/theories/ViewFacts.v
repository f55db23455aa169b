(** Lemmas about [ViewModel]. *)
From Coq Require Import List String Bool Arith Lia.
From Verif Require Import Base ViewModel ViewSpec.
Import ListNotations.

Open Scope list_scope.
Section Facts.
  Variable V : Type.
  Implicit Types d : dict V.

  Lemma smem_iff : forall k l, smem k l = true <-> In k l.
  Proof.
    intros k l. unfold smem. rewrite existsb_exists. split.
    - intros (x & I & E). apply String.eqb_eq in E. subst. exact I.
    - intros I. exists k. split; [exact I|apply String.eqb_refl].
  Qed.
  Lemma smem_false : forall k l, smem k l = false <-> ~ In k l.
  Proof. intros k l. rewrite <- smem_iff. destruct (smem k l); split; congruence. Qed.
  Lemma dget_in : forall k v d, dget k d = Some v -> In (k, v) d.
  Proof.
    induction d as [|[k' v'] r IH]; cbn; [discriminate|]. destruct (String.eqb k k') eqn:E.
    - apply String.eqb_eq in E. intros Q. injection Q as ->. subst. left. reflexivity.
    - intros Q. right. auto.
  Qed.
  Lemma dget_none : forall k d, dget k d = None <-> ~ In k (map fst d).
  Proof.
    induction d as [|[k' v'] r IH]; cbn; [tauto|]. destruct (String.eqb k k') eqn:E.
    - apply String.eqb_eq in E. subst. split; [discriminate|tauto].
    - apply String.eqb_neq in E. rewrite IH. split; [intros A [B|B]; congruence|tauto].
  Qed.
  Lemma dget_some : forall k d, In k (map fst d) -> exists v, dget k d = Some v.
  Proof. intros k d I. destruct (dget k d) eqn:E; [eauto|]. apply dget_none in E. contradiction. Qed.
  Lemma dmem_iff : forall k d, dmem k d = true <-> In k (map fst d).
  Proof.
    intros k d. unfold dmem. destruct (dget k d) eqn:E.
    - split; [|reflexivity]. intros _. apply dget_in in E. apply in_map_iff. exists (k, v). auto.
    - apply dget_none in E. split; [discriminate|contradiction].
  Qed.
  Lemma dget_dset : forall j k v d, dget j (dset k v d) = if String.eqb j k then Some v else dget j d.
  Proof.
    intros j k v. induction d as [|[k' v'] r IH]; cbn.
    - destruct (String.eqb j k); reflexivity.
    - destruct (String.eqb k k') eqn:E; cbn.
      + apply String.eqb_eq in E. subst. destruct (String.eqb j k'); reflexivity.
      + destruct (String.eqb j k') eqn:F; [|exact IH]. apply String.eqb_eq in F. subst.
        rewrite String.eqb_sym, E. reflexivity.
  Qed.
  Lemma dget_ddel : forall j k d, dget j (ddel k d) = if String.eqb j k then None else dget j d.
  Proof.
    intros j k. unfold ddel. induction d as [|[k' v'] r IH]; cbn [filter fst dget]; [destruct (String.eqb j k); reflexivity|].
    destruct (String.eqb k k') eqn:E; cbn [negb dget].
    - apply String.eqb_eq in E. subst. rewrite IH. destruct (String.eqb j k'); reflexivity.
    - rewrite IH. destruct (String.eqb j k') eqn:F; [|reflexivity]. apply String.eqb_eq in F. subst. rewrite String.eqb_sym, E. reflexivity.
  Qed.
  Lemma dset_keys : forall k v d x, In x (map fst (dset k v d)) <-> x = k \/ In x (map fst d).
  Proof.
    intros k v d x. split.
    - intros I. destruct (dget_some _ _ I) as [w W]. rewrite dget_dset in W. destruct (String.eqb x k) eqn:E.
      + left. apply String.eqb_eq. exact E.
      + right. apply dmem_iff. unfold dmem. rewrite W. reflexivity.
    - intros H. apply dmem_iff. unfold dmem. rewrite dget_dset. destruct (String.eqb x k) eqn:E; [reflexivity|].
      destruct H as [->|H]; [rewrite String.eqb_refl in E; discriminate|]. destruct (dget_some _ _ H) as [w ->]. reflexivity.
  Qed.
  Lemma dset_same : forall k v w d, dset k v (dset k w d) = dset k v d.
  Proof.
    intros k v w. induction d as [|[k' v'] r IH]; cbn.
    - rewrite String.eqb_refl. reflexivity.
    - destruct (String.eqb k k') eqn:E; cbn; rewrite E; [reflexivity|]. rewrite IH. reflexivity.
  Qed.
  Lemma dset_comm : forall k v j w d, k <> j -> In k (map fst d) -> dset k v (dset j w d) = dset j w (dset k v d).
  Proof.
    intros k v j w d N. induction d as [|[k' v'] r IH]; intros I; [destruct I|]. cbn [dset].
    destruct (String.eqb j k') eqn:E, (String.eqb k k') eqn:F; cbn [dset]; rewrite ?E, ?F; try reflexivity.
    - apply String.eqb_eq in E, F. congruence.
    - rewrite IH; [reflexivity|]. apply String.eqb_neq in F. cbn in I. destruct I as [I|I]; [congruence|exact I].
  Qed.
  Lemma dupdate_app : forall l m d, dupdate V d (l ++ m) = dupdate V (dupdate V d l) m.
  Proof. intros. unfold dupdate. apply fold_left_app. Qed.
  Lemma dupdate_in : forall l d x, In x (map fst (dupdate V d l)) <-> In x (map fst l) \/ In x (map fst d).
  Proof.
    induction l as [|[k v] r IH]; intros d x; cbn [dupdate fold_left map fst snd]; [cbn; tauto|].
    fold (dupdate V (dset k v d) r). rewrite IH, dset_keys. cbn. intuition congruence.
  Qed.
  Lemma dupdate_comm : forall l k v d, ~ In k (map fst l) -> In k (map fst d) -> dupdate V (dset k v d) l = dset k v (dupdate V d l).
  Proof.
    induction l as [|[j w] r IH]; intros k v d N I; [reflexivity|]. cbn [dupdate fold_left fst snd].
    fold (dupdate V (dset j w (dset k v d)) r). fold (dupdate V (dset j w d) r). cbn in N.
    rewrite <- dset_comm by (try exact I; intros ->; tauto). apply IH; [tauto|]. apply dset_keys. right. exact I.
  Qed.
  Lemma dset_nodup : forall k v d, NoDup (map fst d) -> NoDup (map fst (dset k v d)).
  Proof.
    intros k v. induction d as [|[k' v'] r IH]; intros N; cbn [dset].
    - constructor; [intros []|constructor].
    - cbn [map fst] in N. apply NoDup_cons_iff in N. destruct N as [N1 N2]. destruct (String.eqb k k') eqn:E; cbn [map fst].
      + constructor; assumption.
      + constructor; [|auto]. intros I. apply dset_keys in I. destruct I as [->|I]; [rewrite String.eqb_refl in E; discriminate|contradiction].
  Qed.
  Lemma dupdate_nodup : forall l d, NoDup (map fst d) -> NoDup (map fst (dupdate V d l)).
  Proof.
    induction l as [|[k v] r IH]; intros d N; [exact N|]. cbn [dupdate fold_left fst snd]. apply IH, dset_nodup, N.
  Qed.
  Lemma filter_nodup : forall (f : string * V -> bool) d, NoDup (map fst d) -> NoDup (map fst (filter f d)).
  Proof.
    intros f. induction d as [|p r IH]; intros N; [constructor|]. cbn [map] in N. apply NoDup_cons_iff in N. destruct N as [N1 N2].
    cbn [filter]. destruct (f p); [|auto]. cbn [map]. constructor; [|auto]. intros I. apply N1. apply in_map_iff in I.
    destruct I as (q & E & I). apply filter_In in I. apply in_map_iff. exists q. tauto.
  Qed.
  (** updating with a dictionary is updating with the items it was made of *)
  Lemma dupdate_dset : forall m k v d, NoDup (map fst m) -> dupdate V d (dset k v m) = dset k v (dupdate V d m).
  Proof.
    induction m as [|[j w] r IH]; intros k v d N; [reflexivity|]. cbn [map fst] in N. apply NoDup_cons_iff in N. destruct N as [N1 N2].
    cbn [dset]. destruct (String.eqb k j) eqn:E; cbn [dupdate fold_left fst snd].
    - apply String.eqb_eq in E. subst j. rewrite <- (dset_same k v w d).
      apply (dupdate_comm r k v (dset k w d) N1). apply dset_keys. left. reflexivity.
    - apply (IH k v (dset j w d) N2).
  Qed.
  Lemma dupdate_dupdate : forall l acc d, NoDup (map fst acc) -> dupdate V d (dupdate V acc l) = dupdate V (dupdate V d acc) l.
  Proof.
    induction l as [|[k v] r IH]; intros acc d N; [reflexivity|].
    change (dupdate V acc ((k, v) :: r)) with (dupdate V (dset k v acc) r).
    change (dupdate V (dupdate V d acc) ((k, v) :: r)) with (dupdate V (dset k v (dupdate V d acc)) r).
    rewrite (IH _ d (dset_nodup k v acc N)). rewrite dupdate_dset by exact N. reflexivity.
  Qed.

  Section Protected.
    Variable protected : list string.
    Notation view := (view protected).

    Lemma view_in : forall k v d, In (k, v) (view d) <-> In (k, v) d /\ ~ In k protected.
    Proof.
      intros k v d. unfold ViewSpec.view. rewrite filter_In. cbn [fst]. destruct (in_dec string_dec k protected); intuition congruence.
    Qed.
    Lemma view_keys_in : forall k d, In k (map fst (view d)) <-> In k (map fst d) /\ ~ In k protected.
    Proof.
      intros k d. rewrite !in_map_iff. split.
      - intros ([k' v] & <- & I). apply view_in in I. destruct I. split; [exists (k', v); auto|assumption].
      - intros [([k' v] & <- & I) N]. exists (k', v). split; [reflexivity|]. apply view_in. auto.
    Qed.
    Lemma keys_view : forall d, keys V protected d = map fst (view d).
    Proof.
      intros d. unfold keys, dkeys, ViewSpec.view. induction d as [|[k v] r IH]; [reflexivity|]. cbn [map filter fst].
      destruct (in_dec string_dec k protected) as [I|I].
      - apply smem_iff in I. rewrite I. exact IH.
      - apply smem_false in I. rewrite I. cbn [negb map fst]. rewrite IH. reflexivity.
    Qed.
    Lemma dget_view : forall k d, ~ In k protected -> dget k (view d) = dget k d.
    Proof.
      intros k d N. unfold ViewSpec.view. induction d as [|[k' v] r IH]; [reflexivity|]. cbn [filter fst dget].
      destruct (in_dec string_dec k' protected) as [I|I].
      - rewrite IH. destruct (String.eqb k k') eqn:E; [apply String.eqb_eq in E; congruence|reflexivity].
      - cbn [dget]. rewrite IH. reflexivity.
    Qed.
    Lemma dget_view_prot : forall k d, In k protected -> dget k (view d) = None.
    Proof. intros k d I. apply dget_none. intros J. apply view_keys_in in J. tauto. Qed.
    Lemma getitem_view : forall k d, getitem V protected k d = match dget k (view d) with Some v => Ok v | None => Err KeyError end.
    Proof.
      intros k d. unfold getitem. destruct (smem k protected) eqn:S.
      - apply smem_iff in S. rewrite (dget_view_prot _ _ S). reflexivity.
      - apply smem_false in S. rewrite (dget_view _ _ S). destruct (dget k d); reflexivity.
    Qed.
    Lemma view_dset : forall k v d, ~ In k protected -> view (dset k v d) = dset k v (view d).
    Proof.
      intros k v d N. unfold ViewSpec.view. induction d as [|[k' v'] r IH]; cbn [dset filter fst].
      - destruct (in_dec string_dec k protected); [contradiction|reflexivity].
      - destruct (String.eqb k k') eqn:E; cbn [filter fst].
        + apply String.eqb_eq in E. subst. destruct (in_dec string_dec k' protected); [contradiction|]. cbn [dset].
          rewrite String.eqb_refl. reflexivity.
        + rewrite IH. destruct (in_dec string_dec k' protected); [reflexivity|]. cbn [dset]. rewrite E. reflexivity.
    Qed.
    Lemma view_dset_prot : forall k v d, In k protected -> view (dset k v d) = view d.
    Proof.
      intros k v d I. unfold ViewSpec.view. induction d as [|[k' v'] r IH]; cbn [dset filter fst].
      - destruct (in_dec string_dec k protected); [reflexivity|contradiction].
      - destruct (String.eqb k k') eqn:E; cbn [filter fst].
        + apply String.eqb_eq in E. subst. destruct (in_dec string_dec k' protected); [reflexivity|contradiction].
        + rewrite IH. reflexivity.
    Qed.
    Lemma view_ddel : forall k d, view (ddel k d) = ddel k (view d).
    Proof.
      intros k d. unfold ViewSpec.view, ddel. induction d as [|[k' v'] r IH]; [reflexivity|]. cbn [filter fst].
      destruct (String.eqb k k') eqn:E, (in_dec string_dec k' protected) eqn:F; cbn [negb filter fst]; rewrite ?E, ?F; cbn [negb]; rewrite ?IH; reflexivity.
    Qed.
    Lemma setitem_view : forall k v d, view (setitem V protected k v d) = if smem k protected then view d else dset k v (view d).
    Proof.
      intros k v d. unfold setitem. destruct (smem k protected) eqn:E; [reflexivity|]. apply view_dset, smem_false, E.
    Qed.
    Lemma delitem_view : forall k d, match delitem V protected k d, dget k (view d) with
      | Ok d', Some _ => view d' = ddel k (view d) /\ d' = ddel k d /\ ~ In k protected
      | Err KeyError, None => True
      | _, _ => False
      end.
    Proof.
      intros k d. unfold delitem. destruct (smem k protected) eqn:S.
      - apply smem_iff in S. rewrite (dget_view_prot _ _ S). exact Logic.I.
      - apply smem_false in S. rewrite (dget_view _ _ S). unfold dmem. destruct (dget k d); cbn [negb]; [|exact Logic.I].
        split; [apply view_ddel|]. split; [reflexivity|exact S].
    Qed.
    Lemma view_dupdate : forall l d, view (dupdate V d l) = dupdate V (view d) (view l).
    Proof.
      induction l as [|[k v] r IH]; intros d; [reflexivity|].
      change (dupdate V d ((k, v) :: r)) with (dupdate V (dset k v d) r).
      rewrite IH. unfold ViewSpec.view at 4. cbn [filter fst]. destruct (in_dec string_dec k protected) as [I|I].
      - rewrite view_dset_prot by exact I. reflexivity.
      - rewrite view_dset by exact I. reflexivity.
    Qed.
    Lemma view_id : forall d, (forall k, In k (map fst d) -> ~ In k protected) -> view d = d.
    Proof.
      intros d. unfold ViewSpec.view. induction d as [|[k v] r IH]; intros H; [reflexivity|]. cbn [filter fst].
      destruct (in_dec string_dec k protected) as [I|I]; [destruct (H k (or_introl eq_refl) I)|]. rewrite IH; [reflexivity|].
      intros j J. apply H. right. exact J.
    Qed.
    (** the update is one with the unprotected items *)
    Lemma update_eq : forall m kw d, update V protected m kw d = dupdate V d (view (m ++ kw)%list).
    Proof.
      intros m kw d. unfold update. rewrite <- (dupdate_app m kw []).
      set (l := dupdate V [] (m ++ kw)%list).
      assert (E : (if existsb (fun k => smem k protected) (dkeys l) then filter (fun p => negb (smem (fst p) protected)) l else l) = view l).
      { assert (F : filter (fun p => negb (smem (fst p) protected)) l = view l).
        { unfold ViewSpec.view. apply filter_ext. intros [k v]. cbn [fst]. destruct (in_dec string_dec k protected) as [I|I].
          - apply smem_iff in I. rewrite I. reflexivity.
          - apply smem_false in I. rewrite I. reflexivity. }
        destruct (existsb _ (dkeys l)) eqn:X; [exact F|]. symmetry. apply view_id. intros k I J.
        assert (T : existsb (fun k => smem k protected) (dkeys l) = true); [|congruence].
        apply existsb_exists. exists k. split; [exact I|apply smem_iff, J]. }
      rewrite E. unfold l. rewrite view_dupdate. cbn [ViewSpec.view filter].
      apply (dupdate_dupdate (view (m ++ kw)%list) [] d). constructor.
    Qed.
    Lemma dupdate_get : forall l d k, ~ In k (map fst l) -> dget k (dupdate V d l) = dget k d.
    Proof.
      induction l as [|[j w] r IH]; intros d k N; [reflexivity|]. cbn [dupdate fold_left fst snd]. cbn in N.
      fold (dupdate V (dset j w d) r). rewrite IH by tauto. rewrite dget_dset. destruct (String.eqb k j) eqn:E; [|reflexivity].
      apply String.eqb_eq in E. subst. tauto.
    Qed.
    (** popping all keys *)
    Lemma pop_all_ok : forall l acc d, NoDup l -> has_keys l d -> (forall k, In k (map fst acc) -> ~ In k l) -> NoDup (map fst acc) ->
      exists d' saved, pop_all V l acc d = (d', Ok saved) /\ NoDup (map fst saved) /\
        forall k, dget k saved = if smem k l then dget k d else dget k acc.
    Proof.
      induction l as [|k r IH]; intros acc d N H A NA.
      - exists d, acc. split; [reflexivity|]. split; [exact NA|]. reflexivity.
      - cbn [pop_all]. apply NoDup_cons_iff in N. destruct N as [N1 N2].
        destruct (dget_some k d (H k (or_introl eq_refl))) as [v E]. rewrite E.
        destruct (IH (dset k v acc) (ddel k d)) as (d' & saved & P & NS & G); [exact N2| | | |].
        + intros j J. apply dmem_iff. unfold dmem. rewrite dget_ddel. destruct (String.eqb j k) eqn:Q.
          * apply String.eqb_eq in Q. subst. contradiction.
          * destruct (dget_some j d (H j (or_intror J))) as [w ->]. reflexivity.
        + intros j J. apply dset_keys in J. destruct J as [->|J]; [exact N1|]. intros K. apply (A j J). right. exact K.
        + apply dset_nodup. exact NA.
        + exists d', saved. split; [exact P|]. split; [exact NS|]. intros j. rewrite G, dget_ddel, dget_dset. unfold smem. cbn [existsb].
          fold (smem j r). destruct (String.eqb j k) eqn:Q; [|reflexivity]. apply String.eqb_eq in Q. subst.
          replace (smem k r) with false by (symmetry; apply smem_false; exact N1). cbn [orb]. symmetry. exact E.
    Qed.
    Lemma clear_ok : forall d, NoDup protected -> has_keys protected d ->
      exists d', clear V protected d = (d', Ok tt) /\ view d' = [] /\ NoDup (map fst d') /\ forall k, In k protected -> dget k d' = dget k d.
    Proof.
      intros d N H. destruct (pop_all_ok protected [] d N H) as (d' & saved & P & NS & G); [intros k []|constructor|].
      unfold clear. rewrite P. exists (dupdate V [] saved). split; [reflexivity|].
      assert (E : dupdate V [] saved = saved).
      { clear - NS. assert (K : forall m acc, NoDup (map fst (acc ++ m)) -> dupdate V acc m = acc ++ m).
        { induction m as [|[k v] r IH]; intros acc NN; [rewrite app_nil_r; reflexivity|].
          change (dupdate V acc ((k, v) :: r)) with (dupdate V (dset k v acc) r).
          replace (dset k v acc) with (acc ++ [(k, v)]).
          - rewrite (IH (acc ++ [(k, v)])); rewrite <- app_assoc; [reflexivity|exact NN].
          - rewrite map_app in NN. cbn [map fst] in NN. apply NoDup_remove_2 in NN. rewrite in_app_iff in NN.
            assert (NK : ~ In k (map fst acc)) by tauto. clear - NK. induction acc as [|[j w] t IH]; [reflexivity|].
            cbn [dset app]. cbn in NK. destruct (String.eqb k j) eqn:E; [apply String.eqb_eq in E; subst; tauto|]. rewrite <- IH by tauto. reflexivity. }
        apply (K saved [] NS). }
      rewrite E. split; [|split].
      - destruct (view saved) as [|[k v] t] eqn:VS; [reflexivity|]. exfalso.
        assert (I : In (k, v) (view saved)) by (rewrite VS; left; reflexivity). apply view_in in I. destruct I as [I NI].
        assert (I' : In k (map fst saved)) by (apply in_map_iff; exists (k, v); auto). destruct (dget_some _ _ I') as [w W].
        rewrite G in W. apply smem_false in NI. rewrite NI in W. discriminate.
      - exact NS.
      - intros k I. rewrite G. apply smem_iff in I. rewrite I. reflexivity.
    Qed.
  End Protected.
End Facts.
