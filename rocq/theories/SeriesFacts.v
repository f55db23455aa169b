(** Lemmas about two dimensional series. *)
From Coq Require Import List ZArith Reals String Bool Lia Lra.
From Verif Require Import Base InterpModel InterpSpec InterpFacts LinModel LinFacts SeriesModel SeriesSpec.
Import ListNotations.
Open Scope Z_scope.

Lemma row_lin_exact : exact_seg row_lin.
Proof.
  intros t0 t1 a b L. unfold row_lin. destruct (Nat.eqb_spec (List.length a) (List.length b)) as [E|E].
  - revert b E. induction a as [|x a IH]; intros [|y b] E; try discriminate E; [split; reflexivity|].
    injection E as E. destruct (IH b E) as [P Q]. destruct (lin_exact t0 t1 x y L) as [P' Q'].
    cbn [combine map fst snd]. rewrite P, Q, P', Q'. split; reflexivity.
  - rewrite Z.leb_refl. replace (t1 <=? t0) with false by (symmetry; apply Z.leb_gt; lia). split; reflexivity.
Qed.

Lemma increasing_sampled : forall (A : Type) us (l : list A), us <> [] -> increasing us -> List.length l = List.length us ->
  sampled (combine us l).
Proof.
  intros A [|u us] l N; [congruence|]. clear N. destruct l as [|a l]; [intros _ E; discriminate E|].
  cbn [combine sampled]. revert u l a. induction us as [|w us IH]; intros u l a I E; [exact Logic.I|].
  destruct l as [|b l]; [discriminate E|]. cbn [combine increasing_from]. destruct I as [L I]. split; [exact L|].
  apply (IH w l b); [exact I|]. cbn in *. lia.
Qed.

Section Value.
  Context {A : Type}.
  Implicit Types (s : list (Z * A)) (seg : segment A).

  (** the step function as a function *)
  Definition sval s (d : A) (t : Z) : A :=
    match reindex_ffill s (Z.max t (first_time s 0)) with Some v => v | None => d end.
  Definition mval seg (m : method) s (d : A) (t : Z) : A :=
    match m with Linear => fval seg s d t | Step => sval s d t end.

  Lemma sval_step : forall s d t, sampled s -> step_value s t (sval s d t).
  Proof.
    intros s d t S. unfold sval.
    destruct (reindex_ffill_spec s (Z.max t (first_time s 0)) S) as (v & E & H); [lia|]. rewrite E.
    destruct (Z.max_spec t (first_time s 0)) as [[L M]|[L M]]; rewrite M in *.
    - destruct s as [|[t0 a] r]; [destruct S|]. cbn [first_time] in *. apply (sv_before _ _ _ t0 r); [|exact L].
      f_equal. f_equal. assert (X : step_value ((t0, a) :: r) t0 a).
      { apply (sv_at _ _ _ t0); [left; reflexivity|lia|]. intros; assumption. }
      exact (step_value_fun _ _ _ _ S X H).
    - exact H.
  Qed.

  Lemma interp_like_m : forall seg m s d req, exact_seg seg -> sampled s ->
    interp_like seg m true s req = Ok (map (fun t => (t, Some (mval seg m s d t))) req).
  Proof.
    intros seg m s d req X S. destruct m; [exact (interp_like_linear seg s d req X S)|]. cbn [mval].
    destruct s as [|[t0 a] [|q r]]; [destruct S| |].
    - change (interp_like seg Linear true [(t0, a)] req = Ok (map (fun t => (t, Some (sval [(t0, a)] d t))) req)).
      rewrite (interp_like_linear seg _ d req X S). f_equal. apply map_ext. intros t. f_equal. f_equal.
      unfold sval. cbn [first_time reindex_ffill fval fv].
      replace (Z.max t t0 <? t0) with false by (symmetry; apply Z.ltb_ge; lia). destruct (t <=? t0); reflexivity.
    - destruct (interp_like_step seg ((t0, a) :: q :: r) req S) as (h & E & H); [cbn; lia|]. rewrite E. f_equal.
      apply map_ext. intros t. f_equal. f_equal. exact (step_value_fun _ _ _ _ S (H t) (sval_step _ d t S)).
  Qed.

  Lemma mval_along : forall seg m s d t, exact_seg seg -> sampled s -> along seg m s t (mval seg m s d t).
  Proof. intros seg [] s d t X S; cbn; [apply fval_value_at; assumption|apply sval_step; exact S]. Qed.
  Lemma mval_sample : forall seg m s d t b, exact_seg seg -> sampled s -> In (t, b) s -> mval seg m s d t = b.
  Proof.
    intros seg [] s d t b X S I; cbn; [apply fval_sample; assumption|].
    apply (step_value_fun _ _ _ _ S (sval_step s d t S)). apply (sv_at _ _ _ t); [exact I|lia|]. intros; assumption.
  Qed.

  (** the value has every property that is kept by the interpolation *)
  Lemma mval_closed : forall seg m (P : A -> Prop) s d t, (forall t0 t1 a b t, P a -> P b -> P (seg t0 t1 a b t)) ->
    exact_seg seg -> sampled s -> (forall u b, In (u, b) s -> P b) -> P (mval seg m s d t).
  Proof.
    intros seg m P s d t C X S H.
    pose proof (mval_along seg m s d t X S) as V. revert V. generalize (mval seg m s d t). intros v V.
    destruct m; cbn [along] in V.
    - destruct V as [t0 r E L|t1 l E L|t0 t1 a b [l [r E]] L E'].
      + apply (H t0). rewrite E. left; reflexivity.
      + apply (H t1). rewrite E. apply in_or_app. right; left; reflexivity.
      + rewrite E'. apply C; [apply (H t0)|apply (H t1)]; rewrite E; apply in_or_app; right; cbn; auto.
    - destruct V as [t0 r E L|u I L M].
      + apply (H t0). rewrite E. left; reflexivity.
      + exact (H u _ I).
  Qed.
End Value.

(** mapping the values with a function that commutes with the interpolation *)
Lemma fval_hom : forall (A B : Type) (seg : segment A) (seg' : segment B) (h : A -> B) (P : A -> Prop) s d t,
  (forall t0 t1 a b t, t0 < t1 -> P a -> P b -> h (seg t0 t1 a b t) = seg' t0 t1 (h a) (h b) t) ->
  sampled s -> Forall (fun p => P (snd p)) s ->
  h (fval seg s d t) = fval seg' (map (fun p => (fst p, h (snd p))) s) (h d) t.
Proof.
  intros A B seg seg' h P [|[t0 a] s] d t H S F; [destruct S|]. cbn [map fst snd fval].
  revert t0 a S F. induction s as [|[t1 b] s IH]; intros t0 a S F; cbn [map fst snd fv].
  - destruct (t <=? t0); reflexivity.
  - destruct S as [L S]. assert (Fa : P a) by exact (Forall_inv F). apply Forall_inv_tail in F.
    destruct (t <=? t0); [reflexivity|]. destruct (t <=? t1).
    + apply H; [exact L|exact Fa|exact (Forall_inv F)].
    + apply IH; [exact S|exact F].
Qed.

(** a value of a row is linear in the row *)
Lemma row_hom : forall vs y t0 t1 a b t, increasing vs -> t0 < t1 -> List.length a = List.length vs -> List.length b = List.length vs ->
  fval lin (combine vs (row_lin t0 t1 a b t)) 0%R y =
  lin t0 t1 (fval lin (combine vs a) 0%R y) (fval lin (combine vs b) 0%R y) t.
Proof.
  intros vs y t0 t1 a b t I L La Lb. unfold row_lin. rewrite La, Lb, Nat.eqb_refl. clear L.
  destruct vs as [|v vs]; destruct a as [|x a], b as [|x' b]; try discriminate La; try discriminate Lb.
  - cbn. unfold lin, Rdiv. ring.
  - injection La as La. injection Lb as Lb. cbn [combine map fst snd fval].
    revert v a b x x' I La Lb. induction vs as [|w vs IH]; intros v a b x x' I La Lb;
      destruct a as [|z a], b as [|z' b]; try discriminate La; try discriminate Lb; cbn [combine map fst snd fv].
    + destruct (y <=? v); reflexivity.
    + destruct I as [L I]. destruct (y <=? v); [reflexivity|]. destruct (y <=? w).
      * unfold lin. pose proof (span_pos _ _ L). unfold Rdiv. ring.
      * apply IH; [exact I| |]; cbn in *; lia.
Qed.

(** ** The evaluation of a well formed series *)
Definition row_at (g : gseries) (m : method) (x : Z) : list R := mval row_lin m (combine (gs_us g) (gs_rows g)) [] x.
Definition val_at (g : gseries) (m : method) (row : list R) (y : Z) : R := mval lin m (combine (gs_vs g) row) 0%R y.

Lemma map_fst_pair : forall (A B : Type) (f : A -> B) l, map fst (map (fun t => (t, f t)) l) = l.
Proof. intros. rewrite map_map. cbn [fst]. apply map_id. Qed.
Lemma map_snd_pair : forall (A B : Type) (f : A -> B) l, map snd (map (fun t => (t, f t)) l) = map f l.
Proof. intros. rewrite map_map. reflexivity. Qed.

Lemma wf_sampled_u : forall g, wf g -> sampled (combine (gs_us g) (gs_rows g)).
Proof. intros g (N & _ & I & _ & E & _). exact (increasing_sampled _ _ _ N I E). Qed.
Lemma wf_sampled_v : forall g (row : list R), wf g -> List.length row = List.length (gs_vs g) -> sampled (combine (gs_vs g) row).
Proof. intros g row (_ & N & _ & I & _ & _) E. exact (increasing_sampled _ _ _ N I E). Qed.

Lemma row_lin_length : forall n t0 t1 a b t, List.length a = n -> List.length b = n -> List.length (row_lin t0 t1 a b t) = n.
Proof.
  intros n t0 t1 a b t La Lb. unfold row_lin. rewrite La, Lb, Nat.eqb_refl, map_length, combine_length, La, Lb. apply Nat.min_id.
Qed.

Lemma row_at_length : forall g m x, wf g -> List.length (row_at g m x) = List.length (gs_vs g).
Proof.
  intros g m x W. unfold row_at.
  apply (mval_closed row_lin m (fun row => List.length row = List.length (gs_vs g))).
  - intros; apply row_lin_length; assumption.
  - exact row_lin_exact.
  - exact (wf_sampled_u g W).
  - intros u b I. destruct W as (_ & _ & _ & _ & _ & F). apply in_combine_r in I. rewrite Forall_forall in F. exact (F b I).
Qed.

Lemma interp_u_ok : forall us vs rows m xs, us <> [] -> increasing us -> List.length rows = List.length us ->
  interp_u (Gs us vs rows m) xs = Ok (Gs xs vs (map (mval row_lin m (combine us rows) []) xs) m).
Proof.
  intros us vs rows m xs N I E. unfold interp_u. cbn [gs_us gs_vs gs_rows gs_method].
  rewrite (interp_like_m row_lin m _ [] xs row_lin_exact (increasing_sampled _ _ _ N I E)).
  cbn [bind]. rewrite all_some_map. cbn [bind]. rewrite map_fst_pair, map_snd_pair. reflexivity.
Qed.

Lemma map_res_ok : forall (A B : Type) (f : A -> res B) (h : A -> B) l, Forall (fun a => f a = Ok (h a)) l -> map_res f l = Ok (map h l).
Proof. intros A B f h l F. induction F as [|a l E F IH]; [reflexivity|]. cbn [map_res map]. rewrite E. cbn [bind]. rewrite IH. reflexivity. Qed.

(** only the second axis matters *)
Lemma interp_v_ok : forall us vs rows m ys, vs <> [] -> increasing vs -> Forall (fun row => List.length row = List.length vs) rows ->
  interp_v (Gs us vs rows m) ys = Ok (Gs us ys (map (fun row => map (mval lin m (combine vs row) 0%R) ys) rows) m).
Proof.
  intros us vs rows m ys N I F. unfold interp_v. cbn [gs_rows gs_method gs_vs gs_us].
  rewrite (map_res_ok _ _ _ (fun row => map (mval lin m (combine vs row) 0%R) ys)); [reflexivity|].
  rewrite Forall_forall in *. intros row R.
  rewrite (interp_like_m lin m _ 0%R ys lin_exact (increasing_sampled _ _ _ N I (F row R))).
  cbn [bind]. rewrite all_some_map. cbn [bind]. rewrite map_snd_pair. reflexivity.
Qed.

Lemma reindex_map : forall (A B : Type) (h : A -> B) s t,
  reindex_ffill (map (fun p => (fst p, h (snd p))) s) t = option_map h (reindex_ffill s t).
Proof.
  intros A B h s t. induction s as [|[u a] s IH]; [reflexivity|]. cbn [map fst snd reindex_ffill]. destruct (t <? u); [reflexivity|].
  rewrite IH. destruct (reindex_ffill s t); reflexivity.
Qed.

Lemma mval_hom : forall (A B : Type) (seg : segment A) (seg' : segment B) (h : A -> B) (P : A -> Prop) m s d t,
  (forall t0 t1 a b t, t0 < t1 -> P a -> P b -> h (seg t0 t1 a b t) = seg' t0 t1 (h a) (h b) t) ->
  sampled s -> Forall (fun p => P (snd p)) s ->
  h (mval seg m s d t) = mval seg' m (map (fun p => (fst p, h (snd p))) s) (h d) t.
Proof.
  intros A B seg seg' h P [] s d t H S F; [exact (fval_hom A B seg seg' h P s d t H S F)|]. cbn [mval]. unfold sval.
  replace (first_time (map (fun p => (fst p, h (snd p))) s) 0) with (first_time s 0) by (destruct s as [|[? ?] ?]; reflexivity).
  rewrite reindex_map. destruct (reindex_ffill s (Z.max t (first_time s 0))); reflexivity.
Qed.

Lemma combine_map_snd : forall (A B : Type) (h : A -> B) us rows,
  combine us (map h rows) = map (fun p : Z * A => (fst p, h (snd p))) (combine us rows).
Proof. intros A B h. induction us as [|u us IH]; intros [|r rs]; try reflexivity. cbn. rewrite IH. reflexivity. Qed.

(** another default value makes no difference *)
Lemma mval_default : forall (A : Type) (seg : segment A) m s d d' t, sampled s -> mval seg m s d t = mval seg m s d' t.
Proof.
  intros A seg [] s d d' t S; cbn [mval].
  - destruct s as [|[? ?] ?]; [destruct S|reflexivity].
  - unfold sval. destruct (reindex_ffill_spec s (Z.max t (first_time s 0)) S) as (v & E & _); [lia|]. rewrite E. reflexivity.
Qed.

(** evaluating the second dimension first gives the same rows *)
Lemma rows_commute : forall g m x ys, wf g ->
  map (mval lin Linear (combine (gs_vs g) (mval row_lin Linear (combine (gs_us g) (gs_rows g)) [] x)) 0%R) ys =
  mval row_lin Linear (combine (gs_us g) (map (fun row => map (mval lin Linear (combine (gs_vs g) row) 0%R) ys) (gs_rows g))) [] x /\
  map (mval lin m (combine (gs_vs g) (mval row_lin Step (combine (gs_us g) (gs_rows g)) [] x)) 0%R) ys =
  mval row_lin Step (combine (gs_us g) (map (fun row => map (mval lin m (combine (gs_vs g) row) 0%R) ys) (gs_rows g))) [] x.
Proof.
  intros g m x ys W. pose proof (wf_sampled_u g W) as S. destruct W as (Nu & _ & Iu & I & E & F).
  assert (Q : forall h : list R -> list R, sampled (combine (gs_us g) (map h (gs_rows g))))
    by (intros h; apply increasing_sampled; try assumption; rewrite map_length; exact E).
  split.
  - pose (h := fun row => map (mval lin Linear (combine (gs_vs g) row) 0%R) ys). fold (h (mval row_lin Linear (combine (gs_us g) (gs_rows g)) [] x)).
    change (fun row => map (mval lin Linear (combine (gs_vs g) row) 0%R) ys) with h.
    rewrite (mval_hom _ _ row_lin row_lin h (fun row => List.length row = List.length (gs_vs g)) Linear _ [] x).
    + rewrite combine_map_snd. apply mval_default. rewrite <- combine_map_snd. apply Q.
    + intros t0 t1 a b t L La Lb. unfold h at 1. cbn [mval].
      rewrite (map_ext _ (fun y => lin t0 t1 (fval lin (combine (gs_vs g) a) 0%R y) (fval lin (combine (gs_vs g) b) 0%R y) t))
        by (intros y; apply row_hom; assumption).
      unfold row_lin, h. rewrite !map_length, Nat.eqb_refl. clear. induction ys as [|y ys IH]; [reflexivity|]. cbn [map combine fst snd].
      rewrite <- IH. reflexivity.
    + exact S.
    + rewrite Forall_forall in *. intros [u row] J. cbn. apply F. apply in_combine_r in J. exact J.
  - pose (h := fun row => map (mval lin m (combine (gs_vs g) row) 0%R) ys). fold (h (mval row_lin Step (combine (gs_us g) (gs_rows g)) [] x)).
    change (fun row => map (mval lin m (combine (gs_vs g) row) 0%R) ys) with h. cbn [mval].
    rewrite combine_map_snd. unfold sval at 2. rewrite reindex_map.
    replace (first_time (map (fun p => (fst p, h (snd p))) (combine (gs_us g) (gs_rows g))) 0)
      with (first_time (combine (gs_us g) (gs_rows g)) 0) by (destruct (combine (gs_us g) (gs_rows g)) as [|[? ?] ?]; reflexivity).
    unfold sval. destruct (reindex_ffill_spec _ (Z.max x (first_time (combine (gs_us g) (gs_rows g)) 0)) S) as (v & -> & _); [lia|].
    reflexivity.
Qed.

Lemma interp_u_method : forall g xs h, interp_u g xs = Ok h -> gs_method h = gs_method g.
Proof. intros g xs h. unfold interp_u. match goal with |- bind ?a _ = _ -> _ => destruct a end; [|discriminate]. cbn [bind]. intros H. injection H as <-. reflexivity. Qed.
Lemma interp_v_method : forall g xs h, interp_v g xs = Ok h -> gs_method h = gs_method g.
Proof. intros g xs h. unfold interp_v. match goal with |- bind ?a _ = _ -> _ => destruct a end; [|discriminate]. cbn [bind]. intros H. injection H as <-. reflexivity. Qed.
