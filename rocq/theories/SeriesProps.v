(** Theorems C34: evaluating discrete series. *)
From Coq Require Import List ZArith Reals String Bool Lia Lra.
From Verif Require Import Base InterpModel InterpSpec InterpFacts LinModel LinFacts SeriesModel SeriesSpec SeriesFacts.
Import ListNotations.
Open Scope Z_scope.

(** Evaluating all dimensions at once gives the value of the series at each pair of
    coordinates, for both methods. *)
Theorem c34_at_once : forall g xs ys, wf g -> exists h,
  evaluate_array g [("u"%string, xs); ("v"%string, ys)] = Ok h /\ table (value2 g) xs ys h.
Proof.
  intros [us vs rows m] xs ys W. unfold evaluate_array. cbn [forallb is_dim String.eqb Ascii.eqb Bool.eqb orb andb negb fst interp_dims].
  pose proof W as (Nu & Nv & Iu & Iv & E & F). cbn [gs_us gs_vs gs_rows gs_method] in *.
  rewrite (interp_u_ok us vs rows m xs Nu Iu E). cbn [bind].
  rewrite (interp_v_ok xs vs _ m ys Nv Iv).
  - cbn [bind init_discrete init_method gs_us gs_vs gs_rows]. eexists. split; [reflexivity|]. split; [reflexivity|split; [reflexivity|]].
    cbn [gs_rows]. induction xs as [|x xs IH]; [constructor|]. cbn [map]. constructor; [|exact IH]. clear IH.
    induction ys as [|y ys IHy]; [constructor|]. cbn [map]. constructor.
    + exists (row_at (Gs us vs rows m) m x). cbn [gs_us gs_vs gs_rows gs_method]. split.
      * apply mval_along; [exact row_lin_exact|exact (wf_sampled_u _ W)].
      * apply mval_along; [exact lin_exact|]. apply (wf_sampled_v _ _ W). exact (row_at_length _ m x W).
    + exact IHy.
  - rewrite Forall_forall. intros row J. apply in_map_iff in J. destruct J as (x & <- & _). exact (row_at_length _ m x W).
Qed.
Print Assumptions c34_at_once.

(** The order of the arguments does not matter. *)
Theorem c34_order : forall g xs ys, wf g ->
  evaluate_array g [("u"%string, xs); ("v"%string, ys)] = evaluate_array g [("v"%string, ys); ("u"%string, xs)].
Proof.
  intros [us vs rows m] xs ys W. unfold evaluate_array. cbn [forallb is_dim String.eqb Ascii.eqb Bool.eqb orb andb negb fst interp_dims].
  pose proof W as (Nu & Nv & Iu & Iv & E & F). cbn [gs_us gs_vs gs_rows gs_method] in *.
  rewrite (interp_u_ok us vs rows m xs Nu Iu E), (interp_v_ok us vs rows m ys Nv Iv F). cbn [bind].
  rewrite (interp_v_ok xs vs _ m ys Nv Iv), (interp_u_ok us ys _ m xs Nu Iu).
  - cbn [bind gs_us gs_vs gs_rows]. do 2 f_equal. rewrite map_map. apply map_ext. intros x.
    destruct (rows_commute _ m x ys W) as [P Q]. cbn [gs_us gs_vs gs_rows] in P, Q. destruct m; [exact P|exact Q].
  - rewrite map_length. exact E.
  - rewrite Forall_forall. intros row J. apply in_map_iff in J. destruct J as (x & <- & _). exact (row_at_length _ m x W).
Qed.
Print Assumptions c34_order.

(** For linear series the evaluation of one dimension after the other is the
    evaluation at once, in both orders. *)
Theorem c34_linear : forall g xs ys, wf g -> gs_method g = Linear ->
  let at_once := evaluate_array g [("u"%string, xs); ("v"%string, ys)] in
  bind (evaluate_array g [("u"%string, xs)]) (fun h => evaluate_array h [("v"%string, ys)]) = at_once /\
  bind (evaluate_array g [("v"%string, ys)]) (fun h => evaluate_array h [("u"%string, xs)]) = at_once.
Proof.
  intros g xs ys W M at_once. split; unfold at_once; [|rewrite (c34_order g xs ys W)]; destruct g as [us vs rows m];
    cbn [gs_method] in M; subst m; unfold evaluate_array;
    cbn [forallb is_dim String.eqb Ascii.eqb Bool.eqb orb andb negb fst interp_dims].
  - destruct (interp_u (Gs us vs rows Linear) xs) as [h|e] eqn:H; [|reflexivity]. cbn [bind init_discrete init_method].
    pose proof (interp_u_method _ _ _ H) as Hm.
    destruct h as [us' vs' rows' m']. cbn [gs_method gs_us gs_vs gs_rows] in *. subst m'. destruct (interp_v _ ys); reflexivity.
  - destruct (interp_v (Gs us vs rows Linear) ys) as [h|e] eqn:H; [|reflexivity]. cbn [bind init_discrete init_method].
    pose proof (interp_v_method _ _ _ H) as Hm.
    destruct h as [us' vs' rows' m']. cbn [gs_method gs_us gs_vs gs_rows] in *. subst m'. destruct (interp_u _ xs); reflexivity.
Qed.
Print Assumptions c34_linear.

(** The original claim does not hold: the result is linear whatever the method was. *)
Theorem c34_method : forall g args h, evaluate_array g args = Ok h -> gs_method h = Linear.
Proof.
  intros g args h. unfold evaluate_array. destruct (negb _); [discriminate|]. destruct (interp_dims g args); [|discriminate].
  intros E. injection E as <-. reflexivity.
Qed.
Print Assumptions c34_method.

(** So a step series gives other values if its dimensions are evaluated one after
    another ... *)
Definition stairs (a b : R) : gseries := init_discrete [0; 1] [0; 2] [[a; b]; [a; b]] (Some Step).
Theorem c34_refuted : forall a b, a <> b -> wf (stairs a b) /\
  evaluate_array (stairs a b) [("u"%string, [0]); ("v"%string, [1])] = Ok (init_discrete [0] [1] [[a]] None) /\
  bind (evaluate_array (stairs a b) [("u"%string, [0])]) (fun h => evaluate_array h [("v"%string, [1])]) =
    Ok (init_discrete [0] [1] [[((a + b) / 2)%R]] None) /\
  ((a + b) / 2)%R <> a.
Proof.
  intros a b N. split; [|split; [reflexivity|split]].
  - repeat split; cbn; try discriminate; try lia. repeat constructor.
  - cbn. unfold lin, init_discrete. cbn. replace ((b - a) / 2 * 1 + a)%R with ((a + b) / 2)%R by field. reflexivity.
  - intros H. apply N. lra.
Qed.
Print Assumptions c34_refuted.

(** ... unless the remaining dimension is evaluated at its own coordinates. *)
Theorem c34_grid : forall g xs ys, wf g -> incl ys (gs_vs g) ->
  bind (evaluate_array g [("u"%string, xs)]) (fun h => evaluate_array h [("v"%string, ys)]) =
  evaluate_array g [("u"%string, xs); ("v"%string, ys)].
Proof.
  intros [us vs rows m] xs ys W G. unfold evaluate_array. cbn [forallb is_dim String.eqb Ascii.eqb Bool.eqb orb andb negb fst interp_dims].
  pose proof W as (Nu & Nv & Iu & Iv & E & F). cbn [gs_us gs_vs gs_rows gs_method] in *.
  rewrite (interp_u_ok us vs rows m xs Nu Iu E). cbn [bind gs_us gs_vs gs_rows].
  unfold init_discrete at 1. cbn [init_method].
  assert (L : Forall (fun row : list R => List.length row = List.length vs) (map (mval row_lin m (combine us rows) []) xs)).
  { rewrite Forall_forall. intros row J. apply in_map_iff in J. destruct J as (x & <- & _). exact (row_at_length _ m x W). }
  rewrite (interp_v_ok xs vs _ m ys Nv Iv L), (interp_v_ok xs vs _ Linear ys Nv Iv L). cbn [bind gs_us gs_vs gs_rows init_discrete init_method].
  do 2 f_equal. apply map_ext_in. intros row J. rewrite Forall_forall in L. specialize (L row J). apply map_ext_in. intros y Y. apply G in Y.
  assert (S : sampled (combine vs row)) by (apply increasing_sampled; assumption).
  assert (exists v, In (y, v) (combine vs row)) as [v V].
  { clear - Y L. revert row L. induction vs as [|w vs IH]; intros [|r row] L; try discriminate L; [destruct Y|].
    destruct Y as [->|Y]; [exists r; left; reflexivity|]. destruct (IH Y row) as [v V]; [cbn in L; lia|]. exists v. right. exact V. }
  rewrite (mval_sample lin Linear _ _ _ v lin_exact S V), (mval_sample lin m _ _ _ v lin_exact S V). reflexivity.
Qed.
Print Assumptions c34_grid.

(** Names that are no dimension are refused, known ones are not. *)
Theorem c34_unknown : forall g args k c, In (k, c) args -> k <> "u"%string -> k <> "v"%string ->
  evaluate_array g args = Err KeyError.
Proof.
  intros g args k c I U Vn. unfold evaluate_array. destruct (forallb (fun p => is_dim (fst p)) args) eqn:E; [|reflexivity].
  exfalso. rewrite forallb_forall in E. specialize (E _ I). cbn [fst] in E. unfold is_dim in E.
  destruct (String.eqb_spec k "u"), (String.eqb_spec k "v"); try contradiction. discriminate E.
Qed.
Print Assumptions c34_unknown.

Definition ramp : gseries := init_discrete [0; 2] [0; 4] [[0%R; 4%R]; [2%R; 6%R]] None.
Example c34_ex : wf ramp /\ gs_method ramp = Linear /\
  evaluate_array ramp [("u"%string, [1]); ("v"%string, [1; 9])] = Ok (init_discrete [1] [1; 9] [[2%R; 5%R]] None).
Proof.
  split; [repeat split; cbn; try discriminate; try lia; repeat constructor|]. split; [reflexivity|].
  cbn. unfold init_discrete, lin. cbn.
  match goal with |- context [[[?a; ?b]]] => replace a with 2%R by field; replace b with 5%R by field end. reflexivity.
Qed.
