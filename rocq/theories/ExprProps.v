(** Theorems C35: evaluating expression series. *)
From Coq Require Import List String Bool Arith Permutation Lia.
From Verif Require Import Base CsmGraphFacts ExprModel ExprSpec ExprFacts.
Import ListNotations.
Open Scope list_scope.

Section C35.
  Context {D U T : Type}.
  Implicit Types g : eseries D U T.

  (** With coordinates for all variables the function gets for every symbol its
      parameter or the coordinates of its dimension, and the result carries the
      coordinates. Single values are allowed. *)
  Theorem c35_at_once : forall g kw, consistent g -> named g kw -> List.length kw = num_variables g -> exists args,
    Forall2 (gets g kw) (es_free g) args /\ is_value (evaluate_expr g kw) (es_fn g args) /\
    forall x cs, evaluate_expr g kw = Ok (Discrete x cs) -> forall d c, In (d, c) kw -> In (d, points c) cs.
  Proof.
    intros g kw C N L. destruct (at_once_args g kw C N L) as (args & E & F). exists (map value_of args).
    split; [exact (args_gets g kw _ _ F)|]. rewrite E. split.
    - destruct (es_fn g (map value_of args)) as [v|e]; [eexists|]; reflexivity.
    - intros x cs Q d c J. destruct (es_fn g (map value_of args)) as [v|e]; [|discriminate Q]. injection Q as _ <-.
      destruct N as [N1 N2]. assert (K : In d (free_dims g)) by (apply N2; apply (in_map fst) in J; exact J).
      apply in_map_iff in K. destruct K as ([s d'] & <- & K). cbn [snd] in *. apply in_flat_map.
      assert (M : In s (es_free g)) by (apply C; right; exact (in_dims_key g s d' K)).
      destruct (Forall2_in_l F M) as (a & A & [P|(d & c' & I & J' & ->)]).
      + exfalso. destruct C as (_ & _ & _ & _ & _ & Y & _). apply (Y s); [apply dget_key; eauto|exact (in_dims_key g s d' K)].
      + assert (d = d') as ->.
        { pose proof (proj2 (dget_In _ s (es_dims g) (proj1 (proj2 (proj2 C))) d) I).
          pose proof (proj2 (dget_In _ s (es_dims g) (proj1 (proj2 (proj2 C))) d') K). congruence. }
        assert (c = c') as <-.
        { pose proof (proj2 (dget_In _ d' kw N1 c) J). pose proof (proj2 (dget_In _ d' kw N1 c') J'). congruence. }
        exists (coord_arg d' c). split; [exact A|]. left. reflexivity.
  Qed.

  (** With fewer coordinates a series over the remaining variables results. *)
  Theorem c35_partial : forall g kw, consistent g -> named g kw -> all_axes kw -> List.length kw <> num_variables g -> exists h,
    evaluate_expr g kw = Ok (Expression h) /\ consistent h /\ es_fn h = es_fn g /\ es_free h = es_free g /\
    (forall d, In d (free_dims h) <-> In d (free_dims g) /\ ~ In d (map fst kw)) /\
    (forall s, In s (variable_names h) <-> exists d, In (s, d) (es_dims g) /\ ~ In d (map fst kw)).
  Proof.
    intros g kw C N A L. destruct (set_coords_after g kw g C C (incl_refl _) N A) as (h & E & H). exists h.
    unfold evaluate_expr. rewrite (proj2 (Nat.eqb_neq _ _) L), E. split; [reflexivity|].
    destruct H as (F & G & Ch & Dh & _ & _). split; [exact Ch|]. split; [exact G|]. split; [exact F|]. split.
    - intros d. unfold free_dims. rewrite !in_map_iff. split.
      + intros ([s d'] & <- & I). apply Dh in I. cbn [snd] in *. split; [exists (s, d'); split; [reflexivity|apply I]|].
        rewrite <- in_map_iff. apply I.
      + intros (([s d'] & <- & I) & Q). exists (s, d'). split; [reflexivity|]. apply Dh. split; [exact I|]. rewrite in_map_iff. exact Q.
    - intros s. unfold variable_names. rewrite filter_In. destruct Ch as (_ & _ & _ & _ & Fh & Yh & _). split.
      + intros [I M]. apply Fh in I. destruct I as [I|I].
        * apply dmem_In in I. rewrite I in M. discriminate M.
        * apply in_map_iff in I. destruct I as ([s' d] & <- & I). apply Dh in I. exists d. exact I.
      + intros (d & I & Q). assert (I' : In (s, d) (es_dims h)) by (apply Dh; auto). pose proof (in_dims_key h s d I') as K.
        split; [apply Fh; right; exact K|]. destruct (dmem s (es_params h)) eqn:M; [|reflexivity].
        apply dmem_In in M. exfalso. exact (Yh s M K).
  Qed.

  (** Any grouping: fixing the dimensions group by group gives the same value as
      fixing all of them at once. *)
  Theorem c35_groups : forall groups last g, consistent g -> named g (List.concat groups ++ last) -> all_axes (List.concat groups) -> last <> [] ->
    List.length (List.concat groups ++ last) = num_variables g -> exists args,
      Forall2 (gets g (List.concat groups ++ last)) (es_free g) args /\
      is_value (evaluate_expr g (List.concat groups ++ last)) (es_fn g args) /\
      is_value (evaluate_all g (groups ++ [last])) (es_fn g args).
  Proof.
    intros groups last g C N A Nl L. destruct (c35_at_once g _ C N L) as (args & F & V & _). exists args.
    split; [exact F|]. split; [exact V|]. clear V. revert g C N A L args F.
    induction groups as [|kw r IH]; intros g C N A L args F.
    - cbn [List.concat app evaluate_all] in *. destruct (c35_at_once g last C N L) as (args' & F' & V & _).
      assert (args' = args) as ->.
      { refine (Forall2_unique _ _ _ _ _ _ _ F' F). intros s v w _ X Y. exact (gets_fun g last s v w C N X Y). }
      destruct (es_fn g args) as [x|e]; cbn [is_value] in *; [destruct V as (cs & ->); exists cs|rewrite V]; reflexivity.
    - cbn [List.concat] in *. rewrite <- app_assoc in *. pose proof N as [N1 N2].
      assert (Nk : named g kw).
      { split; [rewrite map_app in N1; exact (NoDup_app_l _ _ N1)|]. intros x I. apply N2. rewrite map_app. apply in_or_app; left; exact I. }
      assert (Ak : all_axes kw) by (intros k c I; apply (A k c); apply in_or_app; left; exact I).
      assert (Lk : List.length kw <> num_variables g).
      { rewrite !app_length in L. destruct last; [congruence|]. cbn in L. lia. }
      destruct (set_coords_after g kw g C C (incl_refl _) Nk Ak) as (h & E & H).
      cbn [app evaluate_all]. unfold evaluate_expr at 1. rewrite (proj2 (Nat.eqb_neq _ _) Lk), E. cbn [bind].
      pose proof H as (Fh & Gh & Ch & Dh & _ & _).
      assert (Nr : NoDup (map fst (List.concat r ++ last))) by (rewrite map_app in N1; exact (NoDup_app_r _ _ N1)).
      assert (Eq : forall d, In d (map fst (List.concat r ++ last)) <-> In d (free_dims h)).
      { intros d. unfold free_dims. split.
        - intros I. assert (M : In d (free_dims g)) by (apply N2; rewrite map_app; apply in_or_app; right; exact I).
          apply in_map_iff in M. destruct M as ([s d'] & <- & M). cbn [snd] in *. apply in_map_iff. exists (s, d'). split; [reflexivity|].
          apply Dh. split; [exact M|]. cbn [snd]. rewrite map_app in N1. exact (NoDup_app_disjoint _ _ _ N1 I).
        - intros I. apply in_map_iff in I. destruct I as ([s d'] & <- & I). apply Dh in I. cbn [snd] in *. destruct I as [I Q].
          assert (M : In d' (map fst (kw ++ List.concat r ++ last))) by (apply (covers g _ C N L); apply (in_map snd) in I; exact I).
          rewrite map_app in M. apply in_app_or in M. tauto. }
      assert (Nh : named h (List.concat r ++ last)) by (split; [exact Nr|intros d I; apply Eq; exact I]).
      assert (Lh : List.length (List.concat r ++ last) = num_variables h).
      { rewrite (num_variables_dims h Ch). rewrite <- (map_length fst), <- (map_length snd (es_dims h)).
        apply Permutation_length. apply NoDup_Permutation; [exact Nr|apply Ch|exact Eq]. }
      assert (Ar : all_axes (List.concat r)) by (intros k c I; apply (A k c); apply in_or_app; right; exact I).
      destruct (c35_at_once h _ Ch Nh Lh) as (args' & F' & _). rewrite <- Gh. rewrite Fh in F'.
      assert (args' = args) as <-; [|apply IH; try assumption; rewrite Fh; exact F'].
      assert (F2 : Forall2 (gets g (kw ++ List.concat r ++ last)) (es_free g) args').
      { apply (Forall2_impl_in _ _ F'). intros s v I X. exact (gets_after g kw h _ s v H Ak X I C). }
      refine (Forall2_unique _ _ _ _ _ _ _ F2 F). intros s v w _ X Y. exact (gets_fun g _ s v w C N X Y).
  Qed.

  (** Any order: only the coordinates of each dimension matter. *)
  Theorem c35_order : forall groups last groups' last' g v,
    consistent g -> named g (List.concat groups ++ last) -> all_axes (List.concat groups ++ last) ->
    Permutation (List.concat groups ++ last) (List.concat groups' ++ last') -> last <> [] -> last' <> [] ->
    List.length (List.concat groups ++ last) = num_variables g ->
    is_value (evaluate_all g (groups ++ [last])) v -> is_value (evaluate_all g (groups' ++ [last'])) v.
  Proof.
    intros groups last groups' last' g v C N A P Nl Nl' L V.
    assert (N' : named g (List.concat groups' ++ last')).
    { destruct N as [N1 N2]. split; [exact (Permutation_NoDup (Permutation_map fst P) N1)|].
      intros x I. apply N2. exact (Permutation_in x (Permutation_sym (Permutation_map fst P)) I). }
    assert (L' : List.length (List.concat groups' ++ last') = num_variables g) by (rewrite <- (Permutation_length P); exact L).
    destruct (c35_groups groups last g C N) as (a & F & _ & X); [intros k c I; apply (A k c); apply in_or_app; left; exact I|exact Nl|exact L|].
    destruct (c35_groups groups' last' g C N') as (a' & F' & _ & X').
    { intros k c I; apply (A k c). apply (Permutation_in _ (Permutation_sym P)). apply in_or_app; left; exact I. }
    { exact Nl'. } { exact L'. }
    assert (a' = a) as ->.
    { assert (F2 : Forall2 (gets g (List.concat groups ++ last)) (es_free g) a').
      { apply (Forall2_impl_in _ _ F'). intros s w _ Y. destruct Y as [Y|(d & c & I & J & Y)]; [left; exact Y|right; exists d, c].
        split; [exact I|]. split; [|exact Y]. exact (Permutation_in _ (Permutation_sym P) J). }
      refine (Forall2_unique _ _ _ _ _ _ _ F2 F). intros s v1 v2 _ Y Z. exact (gets_fun g _ s v1 v2 C N Y Z). }
    rewrite (is_value_fun _ _ _ _ _ _ V X). exact X'.
  Qed.

  (** Partial evaluation refuses single values, which are fine when everything is
      given at once (c35_at_once). *)
  Theorem c35_scalar_refuted : forall g kw k d, consistent g -> named g kw -> List.length kw <> num_variables g ->
    In (k, Single d) kw -> evaluate_expr g kw = Err ValueError.
  Proof.
    intros g kw k d C N L I. unfold evaluate_expr. rewrite (proj2 (Nat.eqb_neq _ _) L).
    assert (E : set_coords g g kw = Err ValueError); [|rewrite E; reflexivity]. clear L.
    cut (forall h, consistent h -> incl (es_dims h) (es_dims g) -> named h kw -> set_coords g h kw = Err ValueError);
      [intros H; exact (H g C (incl_refl _) N)|]. clear N.
    induction kw as [|[k' c] r IH]; intros h Ch X [N1 N2]; [destruct I|]. cbn [set_coords map fst] in *.
    inversion N1 as [|? ? M1 M2]; subst.
    assert (exists s, In (s, k') (es_dims h)) as [s J].
    { assert (M : In k' (free_dims h)) by (apply N2; left; reflexivity). unfold free_dims in M. apply in_map_iff in M.
      destruct M as ([s d'] & <- & J). exists s. exact J. }
    destruct c as [d'|l].
    - unfold set_coord_of. rewrite (inverse_get_in s k'); [|apply C|apply X, J].
      replace (smem s (es_free h)) with true; [reflexivity|]. symmetry. apply smem_In. apply Ch. right. exact (in_dims_key h s k' J).
    - destruct I as [I|I]; [discriminate I|]. destruct (set_one g h s k' l C Ch X J) as (h' & E & A & X'). rewrite E. cbn [bind].
      apply (IH I h'); [apply A|exact X'|]. split; [exact M2|]. intros x Q.
      assert (M : In x (free_dims h)) by (apply N2; right; exact Q). unfold free_dims in *.
      apply in_map_iff in M. destruct M as ([s' d''] & <- & I'). cbn [snd] in *. apply in_map_iff. exists (s', d''). split; [reflexivity|].
      destruct A as (_ & _ & _ & A & _). apply A. split; [exact I'|]. cbn. intros [->|[]]. contradiction.
  Qed.

  (** As many coordinates as variables, but one variable is not among them, neither with
      its dimension nor with its symbol: there is no value. *)
  Theorem c35_missing : forall g kw s d, consistent g -> List.length kw = num_variables g ->
    In (s, d) (es_dims g) -> ~ In d (map fst kw) -> ~ In s (map fst kw) ->
    exists e, evaluate_expr g kw = Err e /\ In e [ValueError; TypeError].
  Proof.
    intros g kw s d C L I Nd Ns. unfold evaluate_expr. rewrite (proj2 (Nat.eqb_eq _ _) L). unfold evaluate_math.
    destruct (existsb _ _); [exists ValueError; cbn; auto|]. destruct (forallb _ _); [|exists TypeError; cbn; auto].
    cbn [negb]. assert (P : positional (es_free g) (eval_args g kw []) (es_params g) = Err TypeError); [|rewrite P; exists TypeError; cbn; auto].
    assert (V : dget s (eval_args g kw []) = None).
    { rewrite eval_args_other; [reflexivity|]. intros k c J E. apply (in_map fst) in J. cbn [fst] in J.
      destruct (in_dec string_dec k (map snd (es_dims g))) as [K|K].
      - apply in_map_iff in K. destruct K as ([s' k'] & Ek & K). cbn [snd] in Ek. subst k'.
        rewrite (inverse_get_in s' k _ (proj1 (proj2 (proj2 (proj2 C)))) K) in E. subst s'.
        assert (k = d); [|subst; contradiction].
        assert (Nk := proj1 (proj2 (proj2 C))). apply (dget_In _ s _ Nk) in K. apply (dget_In _ s _ Nk) in I. congruence.
      - rewrite (inverse_get_out k _ K) in E. subst k. contradiction. }
    assert (Q : dget s (es_params g) = None).
    { destruct (dget s (es_params g)) as [a|] eqn:Q; [|reflexivity]. exfalso. destruct C as (_ & Np & _ & _ & _ & X & _).
      apply (X s); [|exact (in_dims_key g s d I)]. apply (dget_In _ s _ Np) in Q. apply (in_map fst) in Q. exact Q. }
    assert (F : In s (es_free g)) by (apply C; right; exact (in_dims_key g s d I)).
    induction (es_free g) as [|x r IH]; [destruct F|]. cbn [positional]. destruct F as [->|F]; [rewrite V, Q; reflexivity|].
    rewrite (IH F). destruct (dget x (eval_args g kw [])); [reflexivity|]. destruct (dget x (es_params g)); reflexivity.
  Qed.

  (** A name that is neither a dimension nor a symbol of a variable never goes
      unnoticed. *)
  Theorem c35_unknown : forall g kw k c, consistent g -> In (k, c) kw -> ~ In k (free_dims g) -> ~ In k (dkeys (es_dims g)) ->
    exists e, evaluate_expr g kw = Err e /\ In e [ValueError; TypeError; KeyError].
  Proof.
    intros g kw k c C I Nd Ns. unfold evaluate_expr. destruct (Nat.eqb _ _).
    - assert (K : In k (dkeys (eval_args g kw []))).
      { generalize (@nil (string * arg D)) as acc. induction kw as [|[k' c'] r IH]; intros acc; [destruct I|]. cbn [eval_args].
        destruct I as [I|I]; [|exact (IH I _)]. injection I as -> ->. rewrite (inverse_get_out k _ Nd).
        apply eval_args_mono. apply dset_keys. left; reflexivity. }
      unfold evaluate_math. destruct (existsb _ _) eqn:X; [exists ValueError; cbn; auto|].
      destruct (forallb _ _) eqn:Y; [|exists TypeError; cbn; auto]. exfalso.
      apply in_map_iff in K. destruct K as ([k' a] & <- & K). cbn [fst] in *.
      rewrite forallb_forall in Y. specialize (Y _ K). cbn [fst] in Y. apply smem_In in Y. apply C in Y. destruct Y as [Y|Y]; [|contradiction].
      apply dmem_In in Y. assert (Z : existsb (fun p => dmem (fst p) (es_params g)) (eval_args g kw []) = true)
        by (apply existsb_exists; exists (k', a); auto). rewrite Z in X; discriminate X.
    - assert (E : exists e, set_coords g g kw = Err e /\ In e [ValueError; TypeError; KeyError]); [|destruct E as (e & -> & Q); exists e; auto].
      cut (forall h, incl (es_dims h) (es_dims g) -> exists e, set_coords g h kw = Err e /\ In e [ValueError; TypeError; KeyError]);
        [intros H; exact (H g (incl_refl _))|].
      induction kw as [|[k' c'] r IH]; intros h X; [destruct I|]. cbn [set_coords].
      destruct (set_coord_of g h k' c') as [h'|e] eqn:E.
      + cbn [bind]. destruct I as [I|I].
        * exfalso. injection I as -> ->. unfold set_coord_of in E. rewrite (inverse_get_out k _ Nd) in E.
          destruct (smem k (es_free h)); [|discriminate E]. cbn [negb] in E. destruct c; [discriminate E|].
          destruct (dmem k (es_dims h)) eqn:M; [|discriminate E]. apply dmem_In in M. apply Ns.
          apply in_map_iff in M. destruct M as (p & <- & M). apply in_map. apply X, M.
        * apply (IH I). unfold set_coord_of in E. destruct (negb _); [discriminate E|]. destruct c'; [discriminate E|].
          destruct (negb _); [discriminate E|]. destruct (negb _); [discriminate E|]. injection E as <-. cbn [es_dims].
          intros p Q. apply ddel_In in Q. apply X, Q.
      + cbn [bind]. exists e. split; [reflexivity|]. unfold set_coord_of in E. destruct (negb _); [injection E as <-; cbn; auto|].
        destruct c'; [injection E as <-; cbn; auto|]. destruct (negb _); [injection E as <-; cbn; auto|].
        destruct (negb _); [injection E as <-; cbn; auto|discriminate E].
  Qed.
End C35.
Print Assumptions c35_at_once.
Print Assumptions c35_partial.
Print Assumptions c35_groups.
Print Assumptions c35_order.
Print Assumptions c35_scalar_refuted.
Print Assumptions c35_missing.
Print Assumptions c35_unknown.

(** The coordinates of dimensions that were fixed in an earlier step are lost: the
    value is the same, the result is not. *)
Definition two {T : Type} (fn : list (list string * list nat) -> res T) : eseries nat nat T :=
  Es ["t"; "x"]%string fn [] [("t", "time"); ("x", "x")]%string [("t", 0); ("x", 0)]%string.
Theorem c35_coords_refuted : forall (T : Type) (fn : list (list string * list nat) -> res T) v a b,
  fn [(["time"], a); (["x"], b)]%string = Ok v ->
  evaluate_all (two fn) [[("time", Many a); ("x", Many b)]%string] = Ok (Discrete v [("time", a); ("x", b)]%string) /\
  evaluate_all (two fn) [[("time", Many a)]; [("x", Many b)]]%string = Ok (Discrete v [("x", b)]%string).
Proof. intros T fn v a b E. cbn. unfold value_of. cbn. rewrite E. split; reflexivity. Qed.
Print Assumptions c35_coords_refuted.

(** The symbol is accepted in place of the dimension, but then it becomes the
    dimension of the result. *)
Theorem c35_symbol_refuted : forall (T : Type) (fn : list (list string * list nat) -> res T) v a b,
  fn [(["t"], a); (["x"], b)]%string = Ok v -> ~ In "t"%string (free_dims (two fn)) /\
  evaluate_expr (two fn) [("t", Many a); ("x", Many b)]%string = Ok (Discrete v [("t", a); ("x", b)]%string).
Proof.
  intros T fn v a b E. split; [cbn; intros [H|[H|[]]]; discriminate H|]. cbn. unfold value_of. cbn. rewrite E. reflexivity.
Qed.
Print Assumptions c35_symbol_refuted.

Example c35_ex : let g := two (fun args => Ok (map fst args)) in consistent g /\
  named g [("x", Many [1]); ("time", Many [2])]%string /\ num_variables g = 2 /\
  evaluate_all g [[("x", Many [1])]; [("time", Many [2])]]%string = Ok (Discrete [["time"]; ["x"]] [("time", [2])])%string /\
  evaluate_expr g [("x", Single 1)]%string = Err ValueError /\ evaluate_expr g [("y", Many [1])]%string = Err ValueError.
Proof.
  assert (N : NoDup ["t"; "x"]%string) by (repeat constructor; cbn; intuition discriminate).
  assert (N' : NoDup ["time"; "x"]%string) by (repeat constructor; cbn; intuition discriminate).
  split; [|split; [|split; [|split; [|split]]]]; try reflexivity.
  - split; [exact N|]. split; [constructor|]. split; [exact N|]. split; [exact N'|]. split; [|split].
    + intros s. cbn. tauto.
    + intros s [].
    + intros s. cbn. tauto.
  - split; [repeat constructor; cbn; intuition discriminate|]. intros x. cbn. tauto.
Qed.
