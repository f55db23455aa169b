(** C143: equality of expressions, series and coordinate systems. *)
From Coq Require Import List String Bool Arith ZArith Lia FinFun Permutation.
From Verif Require Import Base NestedModel NestedSpec NestedFacts EqModel EqSpec.
Import ListNotations.
Open Scope string_scope.

(** *** comparison of dictionaries without nested containers *)
Lemma walk_leaves : forall vis w items reg, (forall k x, In (k, x) items -> ~ container x) ->
  walk_items vis w items reg = Ok reg \/
  exists k x e, In (k, x) items /\ vis k x = Err e /\ walk_items vis w items reg = Err e.
Proof.
  intros vis w items. induction items as [|[k x] r IH]; intros reg H; [left; reflexivity|].
  assert (NX : ~ container x) by (apply (H k); left; reflexivity).
  assert (E : walk_items vis w ((k, x) :: r) reg = bind (vis k x) (fun _ => walk_items vis w r reg)).
  { destruct x; try reflexivity. destruct NX. exact I. }
  rewrite E. destruct (vis k x) as [u|e] eqn:V.
  - destruct (IH reg) as [O|(k' & x' & e & IN & V' & O)]; [intros k' x' IN; apply (H k'); right; exact IN| |]; cbn [bind].
    + left. exact O.
    + right. exists k', x', e. split; [right; exact IN|]. split; assumption.
  - right. exists k, x, e. split; [left; reflexivity|]. split; [exact V|reflexivity].
Qed.
Definition keyed {V : Type} (f : V -> val) (l : list (string * V)) : list (key * val) :=
  map (fun p => (KStr (fst p), f (snd p))) l.
Lemma keyed_in : forall V (f : V -> val) l k x, In (k, x) (keyed f l) <-> exists n v, k = KStr n /\ x = f v /\ In (n, v) l.
Proof.
  intros V f l k x. unfold keyed. rewrite in_map_iff. split.
  - intros ([n v] & E & IN). injection E as <- <-. exists n, v. auto.
  - intros (n & v & -> & -> & IN). exists (n, v). auto.
Qed.
Lemma keyed_wf : forall V (f : V -> val) l id, NoDup (names l) -> (forall k v, In (k, v) l -> atomic (f v) \/ exists s, f v = VStr s) ->
  wf (VCon CDict id (keyed f l)).
Proof.
  intros V f l id N A. constructor.
  - unfold keyed. rewrite map_map. cbn [fst]. replace (map (fun x : string * V => KStr (fst x)) l) with (map KStr (names l)).
    + apply Injective_map_NoDup; [intros a b E; injection E; auto|exact N].
    + unfold names. rewrite map_map. reflexivity.
  - intros H. destruct H. reflexivity.
  - apply Forall_forall. intros [k x] IN. apply keyed_in in IN. destruct IN as (n & v & -> & -> & IN). cbn [snd].
    destruct (A n v IN) as [(t & c & ->)|[s ->]]; constructor.
Qed.
Lemma keyed_total : forall V (f : V -> val) pi l m i j, NoDup (names l) -> NoDup (names m) ->
  (forall k v, In (k, v) l -> atomic (f v) \/ exists s, f v = VStr s) ->
  exists b, compare_nested pi (VCon CDict i (keyed f l)) (VCon CDict j (keyed f m)) = Ok b.
Proof.
  intros V f pi l m i j Nl Nm A. unfold compare_nested.
  change (walk pi (VCon CDict i (keyed f l)) (VCon CDict j (keyed f m)) [] (VCon CDict i (keyed f l)) [i])
    with (walk_items (visit pi (VCon CDict i (keyed f l)) (VCon CDict j (keyed f m)) [])
            (fun x reg' k => walk pi (VCon CDict i (keyed f l)) (VCon CDict j (keyed f m)) ([] ++ [k]) x reg') (keyed f l) [i]).
  destruct (walk_leaves (visit pi (VCon CDict i (keyed f l)) (VCon CDict j (keyed f m)) [])
    (fun x reg' k => walk pi (VCon CDict i (keyed f l)) (VCon CDict j (keyed f m)) ([] ++ [k]) x reg') (keyed f l) [i])
    as [O|(k & x & e & IN & V' & O)].
  - intros k x IN. apply keyed_in in IN. destruct IN as (n & v & -> & -> & IN).
    destruct (A n v IN) as [(t & c & ->)|[s ->]]; cbn; tauto.
  - rewrite O. eexists; reflexivity.
  - rewrite O. revert V'. unfold visit. cbn [get_path bind index].
    destruct (lookup k (keyed f m)) as [y|]; cbn [bind]; [|intros E; injection E as <-; eexists; reflexivity].
    destruct (traversed x); [discriminate|]. cbn [check_level].
    destruct (_ || _)%bool; cbn [bind]; [intros E; injection E as <-; eexists; reflexivity|].
    destruct (compare_leaf x y); [discriminate|]. intros E; injection E as <-. eexists; reflexivity.
Qed.
Lemma keyed_iff : forall V (f : V -> val) pi l m i j, NoDup (names l) -> NoDup (names m) -> ~ In "" (names l) -> ~ In "" (names m) ->
  (forall k v, In (k, v) l -> atomic (f v) \/ exists s, f v = VStr s) ->
  (forall k v, In (k, v) m -> atomic (f v) \/ exists s, f v = VStr s) -> (forall k l' v w, In (k, v) l -> In (l', w) m -> f v = f w -> v = w) ->
  (compare_nested pi (VCon CDict i (keyed f l)) (VCon CDict j (keyed f m)) = Ok true <-> (l = [] \/ same_entries l m)).
Proof.
  intros V f pi l m i j Nl Nm El Em Al Am INJ.
  assert (NC : forall k v, In (k, v) l -> ~ container (f v) /\ leaf (f v)).
  { intros k v IN. destruct (Al k v IN) as [(t & c & ->)|[s ->]]; cbn; auto. }
  rewrite compare_iff; [| | | exact I |].
  - split.
    + intros C. inversion C as [? ? ? ? H]; subst. destruct l as [|[k0 v0] l']; [left; reflexivity|right].
      destruct (H (KStr k0) (f v0) (or_introl eq_refl)) as (y0 & _ & L & _).
      destruct (L (proj2 (NC k0 v0 (or_introl eq_refl)))) as [_ K]. cbn [level_ok] in K. clear L.
      set (l := (k0, v0) :: l') in *.
      assert (STEP : forall k v, In (k, v) l -> In (k, v) m).
      { intros k v IN. destruct (H (KStr k) (f v)) as (y & EN & L & _); [apply keyed_in; eauto|].
        apply entry_con, keyed_in in EN. destruct EN as (n & w & E & -> & IN'). injection E as <-.
        destruct (L (proj2 (NC k v IN))) as [[[_ S]|[S _]] _]; [rewrite (INJ k k v w IN IN' S); exact IN'|].
        destruct (Al k v IN) as [(t & c & E)|[s E]]; rewrite E in S; destruct S. }
      intros k v. split; [apply STEP|]. intros IN.
      assert (NK : ~ falsy (KStr k)).
      { intros [F|F]; [discriminate|]. injection F as ->. apply Em. apply in_map_iff. exists ("", v). auto. }
      destruct (proj2 (K (KStr k) NK)) as [x EN].
      { exists (f v). apply entry_con, keyed_in. eauto. }
      apply entry_con in EN. apply (keyed_in V f l) in EN. destruct EN as (n & w & E & -> & IN'). injection E as <-.
      pose proof (STEP k w IN') as IN2.
      assert (w = v); [|subst; exact IN'].
      { clear - Nm IN IN2. unfold names in Nm. induction m as [|[a b] m IH]; [destruct IN|]. cbn in Nm. inversion Nm as [|? ? NI N]; subst.
        destruct IN as [E|IN]; destruct IN2 as [E2|IN2].
        - congruence.
        - injection E as -> ->. destruct NI. apply in_map_iff. exists (k, w). auto.
        - injection E2 as -> ->. destruct NI. apply in_map_iff. exists (k, v). auto.
        - auto. }
    + intros [->|S]; constructor; intros k x IN; [destruct IN|].
      apply keyed_in in IN. destruct IN as (n & v & -> & -> & IN). exists (f v). split.
      * apply entry_con, keyed_in. exists n, v. split; [reflexivity|]. split; [reflexivity|]. apply S. exact IN.
      * split.
        -- intros _. split; [left; split; [apply (NC n v IN)|reflexivity]|]. cbn [level_ok]. intros k _. split.
           ++ intros [x E]. apply entry_con, keyed_in in E. destruct E as (n' & v' & -> & -> & I'). exists (f v').
              apply entry_con, keyed_in. exists n', v'. rewrite <- (S n' v'). auto.
           ++ intros [x E]. apply entry_con, keyed_in in E. destruct E as (n' & v' & -> & -> & I'). exists (f v').
              apply entry_con, keyed_in. exists n', v'. rewrite (S n' v'). auto.
        -- intros NL. destruct NL. apply (NC n v IN).
  - apply keyed_wf; assumption.
  - apply keyed_wf; assumption.
  - assert (F : flat_map (fun p : key * val => ids (snd p)) (keyed f l) = []).
    { clear - Al. induction l as [|[k v] l IH]; [reflexivity|]. unfold keyed. cbn [map flat_map snd fst]. fold (keyed f l).
      rewrite IH by (intros k' v' IN; apply (Al k'); right; exact IN).
      destruct (Al k v (or_introl eq_refl)) as [(t & c & ->)|[s ->]]; reflexivity. }
    unfold tree. change (NoDup (i :: flat_map (fun p : key * val => ids (snd p)) (keyed f l))). rewrite F.
    constructor; [intros []|constructor].
Qed.

Section C143.
  Variable pi : string -> option nat.
  Variable free : nat -> list string.
  Variable math_equal : nat -> nat -> bool.
  Variable sub : nat -> nat -> bool.
  Notation equals := (equals pi math_equal).
  Notation expr_eq := (expr_eq pi math_equal).
  Notation generic_eq := (generic_eq pi math_equal sub).
  Notation time_eq := (time_eq pi math_equal).
  Notation lcs_eq := (lcs_eq pi math_equal).
  Notation op_eq := (op_eq pi math_equal sub).
  Notation expr_ok := (expr_ok free).
  Notation generic_ok := (generic_ok free).

  Lemma no_empty : forall x, expr_ok x -> ~ In "" (names (x_params x)).
  Proof. intros x (_ & E & _ & S & _) IN. exact (E (S _ IN)). Qed.
  Lemma params_total : forall x y, expr_ok x -> expr_ok y ->
    exists b, compare_nested pi (params_dict x) (params_dict y) = Ok b.
  Proof.
    intros x y (_ & _ & Nx & _ & Ax) (_ & _ & Ny & _ & _).
    apply (keyed_total val (fun v => v)); auto. intros k v IN. left. exact (Ax k v IN).
  Qed.
  Lemma params_iff : forall x y, expr_ok x -> expr_ok y ->
    (compare_nested pi (params_dict x) (params_dict y) = Ok true <-> x_params x = [] \/ same_entries (x_params x) (x_params y)).
  Proof.
    intros x y OX OY. pose proof (no_empty x OX). pose proof (no_empty y OY).
    destruct OX as (_ & _ & Nx & _ & Ax), OY as (_ & _ & Ny & _ & Ay).
    apply (keyed_iff val (fun v => v)); auto; intros k v IN; left; eauto.
  Qed.

  (** ** expressions *)
  (** The comparison succeeds, and it is True exactly if the expressions are equal and
      the first one has no parameters or both have the same ones. *)
  Theorem c143_expressions : forall x y, expr_ok x -> expr_ok y ->
    (exists b, expr_eq x (OExpr y) = Ok b) /\
    (expr_eq x (OExpr y) = Ok true <->
     x_expr x = x_expr y /\ (x_params x = [] \/ same_entries (x_params x) (x_params y))).
  Proof.
    intros x y OX OY. unfold EqModel.expr_eq, EqModel.equals. destruct (Nat.eqb_spec (x_expr x) (x_expr y)) as [E|E].
    - split; [apply params_total; assumption|]. rewrite params_iff by assumption. tauto.
    - split; [eexists; reflexivity|]. split; [discriminate|tauto].
  Qed.

  (** Without the parameters only the expressions are compared, by structure or by
      their values. *)
  Theorem c143_without_parameters : forall x y,
    (equals x (OExpr y) false true = Ok true <-> x_expr x = x_expr y) /\
    equals x (OExpr y) false false = Ok (math_equal (x_expr x) (x_expr y)).
  Proof.
    intros x y. split; [|reflexivity]. unfold EqModel.equals. split.
    - intros E. injection E as E. apply Nat.eqb_eq. exact E.
    - intros ->. rewrite Nat.eqb_refl. reflexivity.
  Qed.
  Theorem c143_mathematical : forall x y, expr_ok x -> expr_ok y ->
    (equals x (OExpr y) true false = Ok true <->
     math_equal (x_expr x) (x_expr y) = true /\ (x_params x = [] \/ same_entries (x_params x) (x_params y))).
  Proof.
    intros x y OX OY. unfold EqModel.equals. destruct (math_equal (x_expr x) (x_expr y)).
    - rewrite params_iff by assumption. tauto.
    - split; [discriminate|intros [E _]; discriminate].
  Qed.

  (** Expressions with the same number of variables are equal exactly if they have the
      same expression and the same parameters. *)
  Lemma same_count : forall x y, x_expr x = x_expr y -> expr_ok x -> expr_ok y ->
    num_variables free x = num_variables free y -> List.length (x_params x) = List.length (x_params y).
  Proof.
    intros x y E (Nx & _ & Px & Ix & _) (Ny & _ & Py & Iy & _) V. unfold num_variables in V.
    pose proof (NoDup_incl_length Px Ix). pose proof (NoDup_incl_length Py Iy). unfold names in *. rewrite !map_length in *.
    rewrite <- E in *. lia.
  Qed.
  Theorem c143_variables : forall x y, expr_ok x -> expr_ok y -> num_variables free x = num_variables free y ->
    (expr_eq x (OExpr y) = Ok true <-> same_expr x y).
  Proof.
    intros x y OX OY V. rewrite (proj2 (c143_expressions x y OX OY)). unfold same_expr. split; [|tauto].
    intros [E [P|P]]; [|tauto]. split; [exact E|]. pose proof (same_count x y E OX OY V) as L. rewrite P in *.
    destruct (x_params y); [|discriminate]. intros k v. tauto.
  Qed.

  (** So the comparison is symmetric if both expressions have parameters or none has,
      or if they have the same number of variables. *)
  Theorem c143_symmetric : forall x y, expr_ok x -> expr_ok y ->
    (x_params x = [] <-> x_params y = []) \/ num_variables free x = num_variables free y ->
    expr_eq x (OExpr y) = expr_eq y (OExpr x).
  Proof.
    assert (W : forall x y, expr_ok x -> expr_ok y ->
      (x_params x = [] <-> x_params y = []) \/ num_variables free x = num_variables free y ->
      expr_eq x (OExpr y) = Ok true -> expr_eq y (OExpr x) = Ok true).
    { intros x y OX OY [H|H] E.
      - apply (c143_expressions x y OX OY) in E. apply (c143_expressions y x OY OX). destruct E as [E P]. split; [auto|].
        destruct P as [P|P]; [left; apply H; exact P|right]. intros k v. symmetry. apply P.
      - apply (c143_variables x y OX OY H) in E. destruct E as [E P]. apply (c143_variables y x OY OX (eq_sym H)).
        split; [auto|]. intros k v. symmetry. apply P. }
    intros x y OX OY H. destruct (proj1 (c143_expressions x y OX OY)) as [b B]. destruct (proj1 (c143_expressions y x OY OX)) as [c C].
    assert (H' : (x_params y = [] <-> x_params x = []) \/ num_variables free y = num_variables free x).
    { destruct H as [H|H]; [left; tauto|right; auto]. }
    pose proof (W x y OX OY H) as W1. pose proof (W y x OY OX H') as W2. rewrite B, C in *.
    destruct b, c; try reflexivity; [specialize (W1 eq_refl)|specialize (W2 eq_refl)]; discriminate.
  Qed.

  Theorem c143_transitive : forall x y z, expr_ok x -> expr_ok y -> expr_ok z ->
    expr_eq x (OExpr y) = Ok true -> expr_eq y (OExpr z) = Ok true -> expr_eq x (OExpr z) = Ok true.
  Proof.
    intros x y z OX OY OZ A B. apply (c143_expressions x y OX OY) in A. apply (c143_expressions y z OY OZ) in B.
    apply (c143_expressions x z OX OZ). destruct A as [E P], B as [F Q]. split; [congruence|].
    destruct P as [P|P]; [left; exact P|]. destruct Q as [Q|Q].
    - left. destruct (x_params x) as [|[k v] r]; [reflexivity|]. rewrite Q in P.
      exfalso. exact (proj1 (P k v) (or_introl eq_refl)).
    - right. intros k v. rewrite (P k v). apply Q.
  Qed.

  (** ** generic series *)
  Lemma dims_iff : forall x d d' y u u', generic_ok (Gs 0 (GExpr d u x)) -> generic_ok (Gs 0 (GExpr d' u' y)) ->
    (exists b, compare_nested pi (dims_dict d) (dims_dict d') = Ok b) /\
    (exists b, compare_nested pi (units_dict u) (units_dict u') = Ok b) /\
    (compare_nested pi (dims_dict d) (dims_dict d') = Ok true <-> same_entries d d') /\
    (compare_nested pi (units_dict u) (units_dict u') = Ok true <-> same_entries u u').
  Proof.
    intros x d d' y u u' (OX & Nd & Nu & D & Vd & Vu) (OY & Nd' & Nu' & D' & Vd' & Vu').
    assert (NE : forall z n, expr_ok z -> variable free z n -> n <> "").
    { intros z n (_ & E & _) [IN _] ->. exact (E IN). }
    assert (U : u <> []).
    { destruct d as [|[k v] d0]; [destruct D; reflexivity|]. intros ->. exact (proj2 (Vu k) (proj1 (Vd k) (or_introl eq_refl))). }
    split; [apply (keyed_total string VStr); auto; intros; right; eexists; reflexivity|].
    split; [apply (keyed_total nat (VOther 2)); auto; intros; left; repeat eexists|].
    split.
    - assert (G : compare_nested pi (dims_dict d) (dims_dict d') = Ok true <-> d = [] \/ same_entries d d').
      { apply (keyed_iff string VStr); auto; try (intros; right; eexists; reflexivity).
        - intros IN. exact (NE x "" OX (proj1 (Vd _) IN) eq_refl).
        - intros IN. exact (NE y "" OY (proj1 (Vd' _) IN) eq_refl).
        - intros k l' v w _ _ E. injection E. auto. }
      rewrite G. tauto.
    - assert (G : compare_nested pi (units_dict u) (units_dict u') = Ok true <-> u = [] \/ same_entries u u').
      { apply (keyed_iff nat (VOther 2)); auto; try (intros; left; repeat eexists).
        - intros IN. exact (NE x "" OX (proj1 (Vu _) IN) eq_refl).
        - intros IN. exact (NE y "" OY (proj1 (Vu' _) IN) eq_refl).
        - intros k l' v w _ _ E. injection E. auto. }
      rewrite G. tauto.
  Qed.

  (** The method is True exactly if the second series is an instance of the class of
      the first one and has the same dimensions, units, expression and parameters, or
      the same array and interpolation. *)
  Lemma same_params_count : forall x y, x_expr x = x_expr y -> expr_ok x -> expr_ok y ->
    (forall n, variable free x n <-> variable free y n) -> x_params x = [] -> x_params y = [].
  Proof.
    intros x y E OX (_ & _ & _ & Iy & _) V P. destruct (x_params y) as [|[k v] r] eqn:Q; [reflexivity|exfalso].
    assert (IN : In k (names (x_params y))) by (rewrite Q; left; reflexivity). rewrite <- Q in Iy.
    assert (VX : variable free x k).
    { split; [rewrite E; apply Iy; exact IN|rewrite P; intros []]. }
    apply V in VX. destruct VX as [_ NI]. exact (NI IN).
  Qed.
  Theorem c143_generic : forall a b, generic_ok a -> generic_ok b ->
    (exists r, generic_eq a (OGeneric b) = Ok r) /\
    (generic_eq a (OGeneric b) = Ok true <-> sub (g_class b) (g_class a) = true /\ same_generic a b).
  Proof.
    intros [ca a] [cb b] OA OB. unfold EqModel.generic_eq, same_generic. cbn [g_class g_body].
    destruct (sub cb ca); cbn [negb]; [|split; [eexists; reflexivity|split; [discriminate|intros [E _]; discriminate]]].
    destruct a as [d u x|i v], b as [d' u' y|i' v'].
    - destruct (dims_iff x d d' y u u' OA OB) as ([c C] & [e F] & DI & UI).
      pose proof OA as (OX & _ & _ & _ & Vd & _). pose proof OB as (OY & _ & _ & _ & Vd' & _).
      rewrite C, F in *. cbn [bind]. destruct c; cbn [negb].
      + destruct e; cbn [bind negb].
        * destruct (c143_expressions x y OX OY) as [T I]. split; [exact T|]. rewrite I. unfold same_expr.
          assert (SD : same_entries d d') by (apply DI; reflexivity). assert (SU : same_entries u u') by (apply UI; reflexivity).
          split; [|tauto]. intros [E P]. split; [reflexivity|]. split; [exact SD|]. split; [exact SU|]. split; [exact E|].
          destruct P as [P|P]; [|exact P].
          assert (VV : forall n, variable free x n <-> variable free y n).
          { intros n. rewrite <- (Vd n), <- (Vd' n). unfold names. rewrite !in_map_iff. split; intros ([k w] & K & IN).
            - exists (k, w). split; [exact K|apply SD; exact IN].
            - exists (k, w). split; [exact K|apply SD; exact IN]. }
          pose proof (same_params_count x y E OX OY VV P) as Q. rewrite P, Q. intros k w. tauto.
        * split; [eexists; reflexivity|]. split; [discriminate|]. intros (_ & _ & S & _). apply UI in S. discriminate.
      + split; [eexists; reflexivity|]. split; [discriminate|]. intros (_ & S & _). apply DI in S. discriminate.
    - split; [eexists; reflexivity|]. split; [discriminate|tauto].
    - split; [eexists; reflexivity|]. split; [discriminate|tauto].
    - destruct (String.eqb_spec i i') as [E|E]; cbn [negb].
      + split; [eexists; reflexivity|]. split; [intros H; injection H as H; apply Nat.eqb_eq in H; auto|].
        intros (_ & _ & ->). rewrite Nat.eqb_refl. reflexivity.
      + split; [eexists; reflexivity|]. split; [discriminate|tauto].
  Qed.

  (** The operator only finds series of the same class equal, since python asks the
      series of the derived class first. *)
  Lemma not_instance : forall a b, sub (g_class b) (g_class a) = false -> generic_eq a (OGeneric b) = Ok false.
  Proof. intros a b E. unfold EqModel.generic_eq. rewrite E. reflexivity. Qed.
  Lemma op_generic : forall a b, op_eq (OGeneric a) (OGeneric b) =
    if (negb (Nat.eqb (g_class a) (g_class b)) && sub (g_class b) (g_class a))%bool
    then generic_eq b (OGeneric a) else generic_eq a (OGeneric b).
  Proof. intros a b. unfold EqModel.op_eq, proper_subclass. destruct (_ && _)%bool; reflexivity. Qed.
  Theorem c143_generic_operator : forall a b, classes_ok sub -> generic_ok a -> generic_ok b ->
    (op_eq (OGeneric a) (OGeneric b) = Ok true <-> g_class a = g_class b /\ same_generic a b).
  Proof.
    intros a b [R AS] OA OB. rewrite op_generic. destruct (Nat.eqb_spec (g_class a) (g_class b)) as [E|E]; cbn [negb andb].
    - rewrite (proj2 (c143_generic a b OA OB)). rewrite E, R. tauto.
    - destruct (sub (g_class b) (g_class a)) eqn:S.
      + rewrite not_instance; [split; [discriminate|tauto]|]. destruct (sub (g_class a) (g_class b)) eqn:T; [|reflexivity].
        destruct E. apply AS; assumption.
      + rewrite not_instance by exact S. split; [discriminate|tauto].
  Qed.

  (** ** time series and coordinate systems *)
  Theorem c143_time_series : forall a b, time_ok free a -> time_ok free b ->
    (exists r, time_eq a (OTime b) = Ok r) /\ (time_eq a (OTime b) = Ok true <-> same_time a b).
  Proof.
    intros [x rx|v] [y ry|w] OA OB; cbn [EqModel.time_eq same_time].
    - destruct OA as [OX LX], OB as [OY LY]. split; [apply (c143_expressions x y OX OY)|].
      apply c143_variables; auto. unfold num_variables. rewrite LX, LY. lia.
    - split; [eexists; reflexivity|]. split; [discriminate|tauto].
    - split; [eexists; reflexivity|]. split; [discriminate|tauto].
    - split; [eexists; reflexivity|]. split; [intros E; injection E as E; apply Nat.eqb_eq; exact E|].
      intros ->. rewrite Nat.eqb_refl. reflexivity.
  Qed.
  Lemma option_eqb_iff : forall a b, option_eqb a b = true <-> a = b.
  Proof.
    intros [a|] [b|]; cbn; try (split; congruence). rewrite Z.eqb_eq. split; congruence.
  Qed.
  Theorem c143_systems : forall a b, lcs_ok free a -> lcs_ok free b ->
    exists r, lcs_eq a (OLcs b) = Some (Ok r) /\ (r = true <-> same_lcs a b).
  Proof.
    intros [oa ca ra] [ob cb rb] OA OB. unfold lcs_ok in *. cbn [l_coordinates] in *.
    unfold EqModel.lcs_eq, same_lcs. cbn [l_orientation l_coordinates l_reference].
    destruct (Nat.eqb_spec oa ob) as [E|E]; [|eexists; split; [reflexivity|split; [discriminate|tauto]]].
    assert (C : exists c, comp_coords pi math_equal ca cb = Ok c /\
      (c = true <-> match ca, cb with CArray v, CArray w => v = w | CSeries s, CSeries t => same_time s t | _, _ => False end)).
    { destruct ca as [v|s], cb as [w|t]; cbn [comp_coords].
      - eexists. split; [reflexivity|]. apply Nat.eqb_eq.
      - eexists. split; [reflexivity|]. split; [discriminate|tauto].
      - eexists. split; [reflexivity|]. split; [discriminate|tauto].
      - destruct (c143_time_series s t OA OB) as [[r R] I]. exists r. split; [exact R|]. rewrite <- I, R.
        split; [intros ->; reflexivity|intros H; injection H; auto]. }
    destruct C as (c & -> & CI). cbn [bind]. destruct c.
    - eexists. split; [reflexivity|]. rewrite option_eqb_iff. tauto.
    - eexists. split; [reflexivity|]. split; [discriminate|]. intros (_ & _ & M). apply CI in M. discriminate.
  Qed.

  (** ** the operator *)
  Lemma same_entries_sym : forall V (l m : list (string * V)), same_entries l m -> same_entries m l.
  Proof. intros V l m H k v. symmetry. apply H. Qed.
  Lemma same_expr_sym : forall x y, same_expr x y -> same_expr y x.
  Proof. intros x y [E S]. split; [auto|apply same_entries_sym; exact S]. Qed.
  Lemma same_time_sym : forall a b, same_time a b -> same_time b a.
  Proof. intros [x ?|v] [y ?|w]; cbn; auto. apply same_expr_sym. Qed.
  Definition no_expression (o : obj) : Prop := match o with OExpr _ => False | _ => True end.

  (** Series and systems: the operator is total and symmetric. *)
  Theorem c143_operator_total : forall a b, obj_ok free a -> obj_ok free b -> exists r, op_eq a b = Ok r.
  Proof.
    intros a b OA OB. destruct a as [x|g|s|l|n], b as [y|h|t|m|k]; try (eexists; reflexivity).
    - apply (c143_expressions x y OA OB).
    - rewrite op_generic. destruct (_ && _)%bool; [apply (c143_generic h g OB OA)|apply (c143_generic g h OA OB)].
    - apply (c143_time_series s t OA OB).
    - destruct (c143_systems l m OA OB) as (r & E & _). exists r. unfold EqModel.op_eq. cbn [proper_subclass method].
      rewrite E. reflexivity.
    - unfold EqModel.op_eq. cbn [proper_subclass method]. destruct (Nat.eqb n k) eqn:E; [eexists; reflexivity|].
      rewrite Nat.eqb_sym, E. eexists. reflexivity.
  Qed.
  Theorem c143_operator_symmetric : forall a b, classes_ok sub -> obj_ok free a -> obj_ok free b -> no_expression a -> no_expression b ->
    op_eq a b = op_eq b a.
  Proof.
    assert (W : forall a b, classes_ok sub -> obj_ok free a -> obj_ok free b -> no_expression a -> no_expression b ->
      op_eq a b = Ok true -> op_eq b a = Ok true).
    { intros a b C OA OB NA NB. destruct a as [x|g|s|l|n], b as [y|h|t|m|k]; try (destruct NA; fail); try (destruct NB; fail); try discriminate.
      - rewrite (c143_generic_operator g h C OA OB), (c143_generic_operator h g C OB OA). unfold same_generic.
        intros [E S]. split; [auto|]. destruct (g_body g), (g_body h); try tauto.
        + destruct S as (S1 & S2 & S3). split; [|split]; [apply same_entries_sym..|apply same_expr_sym]; assumption.
        + destruct S; auto.
      - change (op_eq (OTime s) (OTime t)) with (time_eq s (OTime t)). change (op_eq (OTime t) (OTime s)) with (time_eq t (OTime s)).
        rewrite (proj2 (c143_time_series s t OA OB)), (proj2 (c143_time_series t s OB OA)). apply same_time_sym.
      - destruct (c143_systems l m OA OB) as (r & E & I). destruct (c143_systems m l OB OA) as (q & F & J).
        unfold EqModel.op_eq. cbn [proper_subclass method]. rewrite E, F. intros H. injection H as ->. f_equal. apply J.
        destruct (proj1 I eq_refl) as (A & B & D). split; [auto|]. split; [auto|].
        destruct (l_coordinates l), (l_coordinates m); auto. apply same_time_sym. exact D.
      - unfold EqModel.op_eq. cbn [proper_subclass method same_object]. rewrite (Nat.eqb_sym k n).
        destruct (Nat.eqb n k); auto. }
    intros a b C OA OB NA NB. destruct (c143_operator_total a b OA OB) as [r R]. destruct (c143_operator_total b a OB OA) as [q Q].
    pose proof (W a b C OA OB NA NB) as W1. pose proof (W b a C OB OA NB NA) as W2. rewrite R, Q in *.
    destruct r, q; try reflexivity; [specialize (W1 eq_refl)|specialize (W2 eq_refl)]; discriminate.
  Qed.

  (** Every object is equal to itself. *)
  Lemma same_entries_refl : forall V (l : list (string * V)), same_entries l l.
  Proof. intros V l k v. tauto. Qed.
  Lemma same_time_refl : forall s, same_time s s.
  Proof. intros [x r|v]; [split; [reflexivity|apply same_entries_refl]|reflexivity]. Qed.
  Theorem c143_reflexive : forall a, classes_ok sub -> obj_ok free a -> op_eq a a = Ok true.
  Proof.
    intros a C OA. destruct a as [x|g|s|l|n].
    - apply (c143_expressions x x OA OA). split; [reflexivity|]. right. apply same_entries_refl.
    - apply (c143_generic_operator g g C OA OA). split; [reflexivity|]. unfold same_generic.
      destruct (g_body g); [|auto]. split; [apply same_entries_refl|]. split; [apply same_entries_refl|].
      split; [reflexivity|apply same_entries_refl].
    - apply (c143_time_series s s OA OA). apply same_time_refl.
    - destruct (c143_systems l l OA OA) as (r & E & I). unfold EqModel.op_eq. cbn [proper_subclass method]. rewrite E.
      f_equal. apply I. split; [reflexivity|]. split; [reflexivity|]. destruct (l_coordinates l); [reflexivity|apply same_time_refl].
    - unfold EqModel.op_eq. cbn [proper_subclass method]. rewrite Nat.eqb_refl. reflexivity.
  Qed.

  (** Objects of different kinds are never equal, in no direction. *)
  Definition kind_of (o : obj) : nat :=
    match o with OExpr _ => 0 | OGeneric _ => 1 | OTime _ => 2 | OLcs _ => 3 | OOther _ => 4 end.
  Theorem c143_kinds : forall a b, kind_of a <> kind_of b -> op_eq a b = Ok false.
  Proof.
    intros a b N. destruct a as [x|g|s|l|n], b as [y|h|t|m|k]; cbn in N; try congruence; reflexivity.
  Qed.

  (** Objects with the operator of [object] are equal exactly if they are the same. *)
  Theorem c143_plain : forall n m, op_eq (OOther n) (OOther m) = Ok (if Nat.eq_dec n m then true else false).
  Proof.
    intros n m. unfold EqModel.op_eq. cbn [proper_subclass method same_object].
    destruct (Nat.eq_dec n m) as [->|N].
    - rewrite Nat.eqb_refl. reflexivity.
    - rewrite (Nat.eqb_sym m n), (proj2 (Nat.eqb_neq n m) N). reflexivity.
  Qed.

  (** Only coordinate systems leave the answer to other objects: the other methods
      return False. *)
  Theorem c143_not_implemented : forall a b, kind_of a <> kind_of b -> kind_of a <> 4 ->
    (method pi math_equal sub a b = None <-> kind_of a = 3) /\
    (kind_of a <> 3 -> method pi math_equal sub a b = Some (Ok false)).
  Proof.
    intros a b N. destruct a as [x|g|s|l|n], b as [y|h|t|m|k]; cbn in *; try congruence; intros _;
      split; try (split; congruence); try reflexivity; intros H; destruct H; reflexivity.
  Qed.

  (** ** parameters *)
  (** What is no dictionary is a ValueError and changes nothing. *)
  Theorem c143_no_dictionary : forall x, set_parameters free x None = (x, Err ValueError).
  Proof. reflexivity. Qed.

  (** Parameters that are symbols of the expression are set to the last given value,
      all others are kept.  The first unknown name is a ValueError. *)
  Lemma dget_dset : forall (k n : string) (v : val) d, dget n (dset k v d) = if String.eqb n k then Some v else dget n d.
  Proof.
    intros k n v d. induction d as [|[a w] d IH]; cbn.
    - destruct (String.eqb n k); reflexivity.
    - destruct (String.eqb_spec k a) as [->|NE]; cbn.
      + destruct (String.eqb_spec n a); reflexivity.
      + rewrite IH. destruct (String.eqb_spec n a) as [->|N2]; [|reflexivity].
        destruct (String.eqb_spec a k) as [->|]; [congruence|reflexivity].
  Qed.
  Definition last_value (n : string) (ps : list (string * val)) : option val :=
    match find (fun p => String.eqb n (fst p)) (rev ps) with Some p => Some (snd p) | None => None end.
  Lemma find_app : forall (f : string * val -> bool) l m,
    find f (l ++ m) = match find f l with Some x => Some x | None => find f m end.
  Proof. intros f l m. induction l as [|x l IH]; cbn; [reflexivity|]. destruct (f x); [reflexivity|exact IH]. Qed.
  Lemma smem_in : forall k l, smem k l = true <-> In k l.
  Proof.
    intros k l. unfold smem. rewrite existsb_exists. split.
    - intros (x & I & E). apply String.eqb_eq in E. subst. exact I.
    - intros I. exists k. split; [exact I|apply String.eqb_refl].
  Qed.
  Lemma loop_ok : forall e ps d, incl (map fst ps) (free e) ->
    snd (set_loop free e ps d) = Ok tt /\
    forall n, dget n (fst (set_loop free e ps d)) = match last_value n ps with Some v => Some v | None => dget n d end.
  Proof.
    intros e ps. induction ps as [|[k v] r IH]; intros d H; [split; reflexivity|]. cbn [set_loop].
    rewrite (proj2 (smem_in k (free e))) by (apply H; left; reflexivity).
    destruct (IH (dset k v d)) as [S G]; [intros n IN; apply H; right; exact IN|]. split; [exact S|]. intros n. rewrite G.
    unfold last_value. cbn [rev]. rewrite find_app. destruct (find _ (rev r)); [reflexivity|]. cbn [find fst snd].
    rewrite dget_dset. destruct (String.eqb n k); reflexivity.
  Qed.
  Theorem c143_set : forall x ps, incl (map fst ps) (free (x_expr x)) ->
    let p := set_parameters free x (Some ps) in
    snd p = Ok tt /\ x_expr (fst p) = x_expr x /\
    forall n, dget n (x_params (fst p)) = match last_value n ps with Some v => Some v | None => dget n (x_params x) end.
  Proof.
    intros x ps H p. destruct (loop_ok (x_expr x) ps (x_params x) H) as [S G]. split; [exact S|]. split; [reflexivity|]. exact G.
  Qed.
  Theorem c143_set_unknown : forall x before k v after, incl (map fst before) (free (x_expr x)) -> ~ In k (free (x_expr x)) ->
    set_parameters free x (Some (before ++ (k, v) :: after)%list) =
      (fst (set_parameters free x (Some before)), Err ValueError).
  Proof.
    intros x before k v after H NI. unfold set_parameters. cbn [fst snd].
    assert (L : forall d, set_loop free (x_expr x) (before ++ (k, v) :: after)%list d =
      (fst (set_loop free (x_expr x) before d), Err ValueError)).
    { clear - H NI. induction before as [|[a b] r IH]; intros d; cbn [app set_loop].
      - destruct (smem k (free (x_expr x))) eqn:M; [apply smem_in in M; contradiction|reflexivity].
      - rewrite (proj2 (smem_in a (free (x_expr x)))) by (apply H; left; reflexivity). apply IH.
        intros n IN. apply H. right. exact IN. }
    rewrite L. reflexivity.
  Qed.

  (** A new expression is as assumed above, and so is every expression after its
      parameters were set, with or without success. *)
  Lemma dset_names : forall k (v : val) d, NoDup (names d) -> NoDup (names (dset k v d)) /\
    forall n, In n (names (dset k v d)) <-> n = k \/ In n (names d).
  Proof.
    clear. intros k v d. induction d as [|[a w] d IH]; intros N; cbn in *.
    - split; [constructor; [intros []|constructor]|]. intros n. split; [intros [E|E]; auto|intros [E|E]; auto].
    - inversion N as [|? ? NI N']; subst. destruct (String.eqb_spec k a) as [->|NE]; cbn.
      + split; [constructor; assumption|]. intros n. split; [intros [E|E]; auto|intros [E|[E|E]]; auto].
      + destruct (IH N') as [A B]. split; [constructor; [rewrite B; intros [E|E]; [congruence|exact (NI E)]|exact A]|].
        intros n. rewrite B. tauto.
  Qed.
  Lemma dset_in : forall k (v : val) d n w, In (n, w) (dset k v d) -> (n = k /\ w = v) \/ In (n, w) d.
  Proof.
    intros k v d n w. induction d as [|[a b] d IH]; cbn.
    - intros [E|[]]. injection E as <- <-. auto.
    - destruct (String.eqb_spec k a) as [->|NE]; cbn; intros [E|E]; auto.
      + injection E as <- <-. auto.
      + destruct (IH E); auto.
  Qed.
  Lemma loop_names : forall e ps d, (forall k v, In (k, v) ps -> atomic v) ->
    NoDup (names d) /\ incl (names d) (free e) /\ (forall k v, In (k, v) d -> atomic v) ->
    let d' := fst (set_loop free e ps d) in
    NoDup (names d') /\ incl (names d') (free e) /\ (forall k v, In (k, v) d' -> atomic v).
  Proof.
    intros e ps. induction ps as [|[k v] r IH]; intros d A H; [exact H|]. cbn [set_loop].
    destruct (smem k (free e)) eqn:M; [|exact H]. apply smem_in in M. destruct H as (N & I & AD).
    apply IH; [intros k' v' IN; apply (A k'); right; exact IN|]. destruct (dset_names k v d N) as [N' B].
    split; [exact N'|]. split.
    - intros n IN. apply B in IN. destruct IN as [->|IN]; auto.
    - intros n w IN. apply dset_in in IN. destruct IN as [[-> ->]|IN]; [apply (A k); left; reflexivity|exact (AD n w IN)].
  Qed.
  Theorem c143_set_ok : forall x ps, expr_ok x -> (forall k v, In (k, v) ps -> atomic v) ->
    expr_ok (fst (set_parameters free x (Some ps))).
  Proof.
    intros x ps (F & E & N & I & A) AP. split; [exact F|]. split; [exact E|].
    exact (loop_names (x_expr x) ps (x_params x) AP (conj N (conj I A))).
  Qed.
  Theorem c143_new : forall e id ps x, NoDup (free e) -> ~ In "" (free e) ->
    (forall l k v, ps = Some l -> In (k, v) l -> atomic v) -> new_expression free e id ps = Ok x ->
    expr_ok x /\ x_expr x = e /\
    forall n, dget n (x_params x) = match ps with Some l => last_value n l | None => None end.
  Proof.
    intros e id ps x F E A N.
    assert (O : expr_ok (Mx e id [])).
    { split; [exact F|]. split; [exact E|]. split; [constructor|]. split; [intros n []|intros k v []]. }
    destruct ps as [l|].
    - cbn [new_expression] in N. destruct (snd (set_parameters free (Mx e id []) (Some l))) as [u|ex] eqn:S; [|discriminate].
      injection N as <-. split; [apply (c143_set_ok (Mx e id []) l O); intros k v; apply A; reflexivity|]. split; [reflexivity|].
      assert (IN : incl (map fst l) (free e)).
      { intros n IN. destruct (in_dec string_dec n (free e)) as [Y|NO]; [exact Y|exfalso]. revert S.
        unfold set_parameters. cbn [snd x_expr x_params]. generalize (@nil (string * val)).
        clear - IN NO. induction l as [|[k v] r IH]; intros d; [destruct IN|]. cbn [set_loop].
        destruct (smem k (free e)) eqn:M; [|discriminate]. destruct IN as [<-|IN]; [|apply IH; exact IN].
        apply smem_in in M. contradiction. }
      intros n. destruct (c143_set (Mx e id []) l IN) as (_ & _ & G). rewrite G. cbn. destruct (last_value n l); reflexivity.
    - injection N as <-. split; [exact O|]. split; reflexivity.
  Qed.
  Theorem c143_new_fails : forall e id ps, (exists l n, ps = Some l /\ In n (map fst l) /\ ~ In n (free e)) <->
    new_expression free e id ps = Err ValueError.
  Proof.
    intros e id [l|]; [|split; [intros (l & n & E & _); discriminate|discriminate]].
    assert (L : forall d, (exists n, In n (map fst l) /\ ~ In n (free e)) <-> snd (set_loop free e l d) = Err ValueError).
    { induction l as [|[k v] r IH]; intros d; cbn [set_loop map fst]; [split; [intros (n & [] & _)|discriminate]|].
      destruct (smem k (free e)) eqn:M.
      - apply smem_in in M. rewrite <- IH. split; intros (n & IN & NO); exists n; (split; [|exact NO]); [|right; exact IN].
        destruct IN as [<-|IN]; [contradiction|exact IN].
      - split; [reflexivity|]. intros _. exists k. split; [left; reflexivity|]. intros IN. apply smem_in in IN. congruence. }
    unfold new_expression, set_parameters. cbn [fst snd x_expr x_params]. specialize (L (@nil (string * val))).
    split.
    - intros (l' & n & E & H). injection E as <-. rewrite (proj1 L) by eauto. reflexivity.
    - intros E. destruct (snd (set_loop free e l [])) as [u|ex] eqn:S; [discriminate|]. injection E as ->.
      destruct (proj2 L eq_refl) as [n H]. exists l, n. auto.
  Qed.

  Lemma nodup_app : forall (l m : list string), NoDup l -> NoDup m -> (forall n, In n l -> ~ In n m) -> NoDup (l ++ m)%list.
  Proof.
    intros l m L M D. induction L as [|a l NI L IH]; [exact M|]. cbn. constructor.
    - rewrite in_app_iff. intros [H|H]; [exact (NI H)|exact (D a (or_introl eq_refl) H)].
    - apply IH. intros n IN. apply D. right. exact IN.
  Qed.
  (** The symbols of an expression are its variables and its parameters. *)
  Theorem c143_variable_names : forall x, expr_ok x ->
    (forall n, In n (variable_names free x) <-> variable free x n) /\
    List.length (variable_names free x) = num_variables free x.
  Proof.
    intros x (F & _ & N & I & _). split.
    - intros n. unfold variable_names, variable. rewrite filter_In, negb_true_iff. fold (names (x_params x)).
      rewrite <- (smem_in n (names (x_params x))). destruct (smem n (names (x_params x))); split; intros [A B]; split; congruence.
    - unfold num_variables, variable_names. replace (List.length (x_params x)) with (List.length (names (x_params x))) by (unfold names; apply map_length).
      fold (names (x_params x)). generalize (names (x_params x)) N I. clear N I. generalize (free (x_expr x)) F. clear F.
      intros f F p N I. assert (P : Permutation f (filter (fun n => negb (smem n p)) f ++ p)%list).
      { apply NoDup_Permutation; [exact F| |].
        - apply nodup_app; [apply NoDup_filter; exact F|exact N|]. intros n IN IP. apply filter_In in IN.
          destruct IN as [_ B]. apply smem_in in IP. rewrite IP in B. discriminate.
        - intros n. rewrite in_app_iff, filter_In, negb_true_iff. split.
          + intros IN. destruct (smem n p) eqn:M; [right; apply smem_in; exact M|left; auto].
          + intros [[IN _]|IN]; [exact IN|apply I; exact IN]. }
      apply Permutation_length in P. rewrite app_length in P. lia.
  Qed.
End C143.
Print Assumptions c143_expressions.
Print Assumptions c143_without_parameters.
Print Assumptions c143_mathematical.
Print Assumptions c143_variables.
Print Assumptions c143_symmetric.
Print Assumptions c143_transitive.
Print Assumptions c143_generic.
Print Assumptions c143_generic_operator.
Print Assumptions c143_time_series.
Print Assumptions c143_systems.
Print Assumptions c143_operator_total.
Print Assumptions c143_operator_symmetric.
Print Assumptions c143_reflexive.
Print Assumptions c143_kinds.
Print Assumptions c143_plain.
Print Assumptions c143_no_dictionary.
Print Assumptions c143_not_implemented.
Print Assumptions c143_set.
Print Assumptions c143_set_unknown.
Print Assumptions c143_set_ok.
Print Assumptions c143_new.
Print Assumptions c143_new_fails.
Print Assumptions c143_variable_names.

(** ** what does not hold *)
Definition ex_free (e : nat) : list string := match e with 0 => ["a"; "x"] | _ => ["t"] end.
Definition ex_none : mexpr := Mx 0 0 [].
Definition ex_one : mexpr := Mx 0 1 [("a", VOther 0 1)].
(** a*x without parameters "equals" a*x with a parameter, but not the other way round *)
Theorem c143_symmetric_refuted : forall pi me sub,
  new_expression ex_free 0 0 None = Ok ex_none /\
  new_expression ex_free 0 1 (Some [("a", VOther 0 1)]) = Ok ex_one /\
  expr_ok ex_free ex_none /\ expr_ok ex_free ex_one /\
  op_eq pi me sub (OExpr ex_none) (OExpr ex_one) = Ok true /\
  op_eq pi me sub (OExpr ex_one) (OExpr ex_none) = Ok false.
Proof.
  intros pi me sub. assert (A : forall k v, In (k, v) [("a", VOther 0 1)] -> atomic v).
  { intros k v [E|[]]. injection E as <- <-. repeat eexists. }
  assert (F : NoDup (ex_free 0)) by (repeat constructor; cbn; intuition discriminate).
  assert (E : ~ In "" (ex_free 0)) by (cbn; intuition discriminate).
  split; [reflexivity|]. split; [reflexivity|]. split; [|split; [|split; reflexivity]].
  - apply (c143_new ex_free 0 0 None); auto. discriminate.
  - apply (c143_new ex_free 0 1 (Some [("a", VOther 0 1)])); auto. intros l k v H. injection H as <-. apply A.
Qed.
Print Assumptions c143_symmetric_refuted.

(** the method of the base class accepts an equal series of a derived class, that of
    the derived class does not accept the series of the base class *)
Definition ex_sub (c d : nat) : bool := (Nat.eqb c d || Nat.eqb d 0)%bool.
Theorem c143_method_refuted : forall pi me,
  let base := Gs 0 (GDisc "linear" 5) in let derived := Gs 1 (GDisc "linear" 5) in
  generic_eq pi me ex_sub base (OGeneric derived) = Ok true /\
  generic_eq pi me ex_sub derived (OGeneric base) = Ok false /\
  op_eq pi me ex_sub (OGeneric base) (OGeneric derived) = Ok false /\
  op_eq pi me ex_sub (OGeneric derived) (OGeneric base) = Ok false.
Proof. intros pi me. repeat split. Qed.
Print Assumptions c143_method_refuted.

(** time series with different reference times are equal, coordinate systems are not *)
Theorem c143_reference_refuted : forall pi me sub,
  let e := Mx 1 0 [] in
  op_eq pi me sub (OTime (TExpr e (Some 0%Z))) (OTime (TExpr e (Some 1%Z))) = Ok true /\
  op_eq pi me sub (OLcs (Lcs 0 (CSeries (TExpr e None)) (Some 0%Z))) (OLcs (Lcs 0 (CSeries (TExpr e None)) (Some 1%Z))) = Ok false.
Proof. intros pi me sub. split; reflexivity. Qed.
Print Assumptions c143_reference_refuted.

(** a failing call changes the expression *)
Theorem c143_set_refuted :
  set_parameters ex_free ex_none (Some [("a", VOther 0 7); ("b", VOther 0 8)]) = (Mx 0 0 [("a", VOther 0 7)], Err ValueError).
Proof. reflexivity. Qed.
Print Assumptions c143_set_refuted.

Example ex_equal : forall pi me, expr_eq pi me (Mx 0 0 [("a", VOther 0 1); ("x", VOther 1 2)]) (OExpr (Mx 0 4 [("x", VOther 1 2); ("a", VOther 0 1)])) = Ok true.
Proof. intros. reflexivity. Qed.
Example ex_generic : forall pi me,
  let g c i := Gs c (GExpr [("x", "u")] [("x", 3)] (Mx 0 i [("a", VOther 0 1)])) in
  generic_ok ex_free (g 1 0) /\ op_eq pi me ex_sub (OGeneric (g 1 0)) (OGeneric (g 1 1)) = Ok true /\
  op_eq pi me ex_sub (OGeneric (g 0 0)) (OGeneric (g 1 1)) = Ok false.
Proof.
  intros pi me g. split; [|split; reflexivity]. cbn. split.
  - split; [repeat constructor; cbn; intuition discriminate|]. split; [cbn; intuition discriminate|].
    split; [repeat constructor; cbn; tauto|]. split; [intros n [<-|[]]; left; reflexivity|].
    intros k v [E|[]]. injection E as <- <-. repeat eexists.
  - split; [repeat constructor; cbn; tauto|]. split; [repeat constructor; cbn; tauto|]. split; [discriminate|].
    unfold variable. cbn. split; intros n; intuition (subst; auto; try discriminate).
Qed.
Example ex_classes : classes_ok ex_sub.
Proof.
  unfold classes_ok, ex_sub. split; [intros c; rewrite Nat.eqb_refl; reflexivity|].
  intros c d A B. apply orb_true_iff in A, B. rewrite !Nat.eqb_eq in *. destruct A as [A|A], B as [B|B]; congruence.
Qed.
