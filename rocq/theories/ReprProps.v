(** Theorems about the texts of expressions, series, shapes and profiles (C153). *)
From Coq Require Import List String Ascii Bool Arith Lia.
From Verif Require Import Base ReprModel.
Import ListNotations.
Open Scope string_scope.

(** the lines of a text *)
Fixpoint lines (s : string) : list string :=
  match s with
  | EmptyString => [""]
  | String c r =>
      if Ascii.eqb c "010" then "" :: lines r
      else match lines r with
           | x :: l => String c x :: l
           | [] => [String c ""]
           end
  end.
(** texts without a given character *)
Fixpoint free (c : ascii) (s : string) : Prop :=
  match s with EmptyString => True | String d r => d <> c /\ free c r end.
(** texts of one line *)
Definition line (s : string) : Prop := free "010" s.
(** texts of one line without "<", so that they cannot have the name of the class in them *)
Definition word (s : string) : Prop := free "010" s /\ free "<" s.
Definition expression_ok (x : expression) : Prop :=
  word (x_text x) /\ Forall (fun p => word (fst p) /\ word (snd p)) (x_parameters x).
Definition T : string := String "009" "".

Lemma free_app : forall c a b, free c (a ++ b) <-> free c a /\ free c b.
Proof. intros c a b. induction a; cbn; [tauto|]. rewrite IHa. tauto. Qed.
Lemma app_assoc_s : forall a b c : string, (a ++ b) ++ c = a ++ (b ++ c).
Proof. intros a b c. induction a; cbn; [reflexivity|]. now rewrite IHa. Qed.
Lemma app_nil_s : forall a : string, a ++ "" = a.
Proof. induction a; cbn; [reflexivity|]. now rewrite IHa. Qed.
Lemma lines_nl : forall a b, line a -> lines (a ++ nl ++ b) = a :: lines b.
Proof.
  induction a as [|c a IH]; intros b H; [reflexivity|]. destruct H as [N H].
  cbn [append lines]. destruct (Ascii.eqb_spec c "010"); [contradiction|]. now rewrite (IH b H).
Qed.
Lemma lines_line : forall a, line a -> lines a = [a].
Proof.
  induction a as [|c a IH]; intros H; [reflexivity|]. destruct H as [N H]. cbn [lines].
  destruct (Ascii.eqb_spec c "010"); [contradiction|]. now rewrite (IH H).
Qed.
Lemma lines_end : forall a, line a -> lines (a ++ nl) = [a; ""].
Proof. intros a H. rewrite <- (app_nil_s nl). rewrite (lines_nl a "" H). reflexivity. Qed.

Lemma prefix_refl : forall p s, String.prefix p (p ++ s) = true.
Proof.
  induction p as [|c p IH]; intros s; [now destruct s|]. cbn [append String.prefix].
  destruct (Ascii.ascii_dec c c); [apply IH|contradiction].
Qed.
Lemma remove_skip : forall p q t, remove_go p (String.length q) (q ++ t) = remove_go p 0 t.
Proof. intros p q t. induction q as [|c q IH]; [reflexivity|exact IH]. Qed.
Lemma remove_front : forall c p t, remove (String c p) (String c p ++ t) = remove (String c p) t.
Proof.
  intros c p t. unfold remove. cbn [append]. change (String c (p ++ t)) with (String c p ++ t).
  cbn [append remove_go]. change (String c (p ++ t)) with (String c p ++ t).
  rewrite prefix_refl. cbn [String.length]. rewrite Nat.sub_succ, Nat.sub_0_r. apply remove_skip.
Qed.
Lemma remove_free : forall c p s, free c s -> remove (String c p) s = s.
Proof.
  intros c p s. unfold remove. induction s as [|d s IH]; intros H; [reflexivity|]. destruct H as [N H].
  cbn [remove_go String.prefix]. destruct (Ascii.ascii_dec c d) as [->|_]; [contradiction|].
  now rewrite (IH H).
Qed.

(** the part of the text of an expression after its first line *)
Definition rest (x : expression) : string :=
  "Expression:" ++ nl ++ tab ++ x_text x ++ nl ++ "Parameters:" ++ nl ++
  match x_parameters x with
  | [] => tab ++ "None"
  | l => concat (map (fun p => tab ++ fst p ++ " = " ++ snd p ++ nl) l)
  end.
Ltac free_tac := repeat rewrite free_app; cbn; repeat split; try discriminate; try assumption.
Lemma parameters_free : forall l, Forall (fun p => word (fst p) /\ word (snd p)) l ->
  free "<" (concat (map (fun p : string * string => tab ++ fst p ++ " = " ++ snd p ++ nl) l)).
Proof.
  intros l H. induction H as [|p l [[_ H1] [_ H2]] _ IH]; [exact I|].
  unfold concat in *. cbn [map fold_right]. rewrite free_app. split; [|exact IH]. free_tac.
Qed.
Lemma rest_free : forall x, expression_ok x -> free "<" (rest x).
Proof.
  intros [t l] [[_ Ht] Hl]. unfold rest. cbn [x_text x_parameters] in *.
  repeat rewrite free_app. repeat split; try (cbn; repeat split; discriminate); try exact Ht.
  destruct l as [|p l]; [cbn; repeat split; discriminate|]. now apply parameters_free.
Qed.
Lemma parameters_lines : forall l b, Forall (fun p => word (fst p) /\ word (snd p)) l ->
  lines (concat (map (fun p : string * string => tab ++ fst p ++ " = " ++ snd p ++ nl) l) ++ b)
  = (map (fun p => (T ++ fst p ++ " = " ++ snd p)%string) l ++ lines b)%list.
Proof.
  intros l b H. induction H as [|p l [[H1 _] [H2 _]] _ IH]; [reflexivity|].
  unfold concat in *. cbn [map fold_right List.app]. rewrite <- IH.
  replace (((tab ++ fst p ++ " = " ++ snd p ++ nl) ++
    fold_right append "" (map (fun p => tab ++ fst p ++ " = " ++ snd p ++ nl) l)) ++ b)
  with ((tab ++ fst p ++ " = " ++ snd p) ++ nl ++
    (fold_right append "" (map (fun p => tab ++ fst p ++ " = " ++ snd p ++ nl) l) ++ b))
  by (rewrite !app_assoc_s; reflexivity).
  apply lines_nl. unfold line. free_tac.
Qed.
Lemma rest_lines : forall x b, expression_ok x -> x_parameters x <> [] ->
  lines (rest x ++ b)
  = (["Expression:"; (T ++ x_text x)%string; "Parameters:"]
     ++ map (fun p => (T ++ fst p ++ " = " ++ snd p)%string) (x_parameters x) ++ lines b)%list.
Proof.
  intros [t l] b [[Ht _] Hl] N. unfold rest. cbn [x_text x_parameters] in *.
  rewrite !app_assoc_s.
  rewrite (lines_nl "Expression:") by (cbn; repeat split; discriminate).
  rewrite <- (app_assoc_s tab t).
  rewrite (lines_nl (tab ++ t)) by (unfold line; free_tac).
  rewrite (lines_nl "Parameters:") by (cbn; repeat split; discriminate).
  destruct l as [|p l]; [contradiction|]. rewrite parameters_lines by exact Hl. reflexivity.
Qed.
Lemma rest_lines_none : forall t b, word t ->
  lines (rest (Expression t []) ++ b)
  = (["Expression:"; (T ++ t)%string; "Parameters:"] ++ lines ((T ++ "None") ++ b)%string)%list.
Proof.
  intros t b [Ht _]. unfold rest. cbn [x_text x_parameters].
  rewrite !app_assoc_s.
  rewrite (lines_nl "Expression:") by (cbn; repeat split; discriminate).
  rewrite <- (app_assoc_s tab t).
  rewrite (lines_nl (tab ++ t)) by (unfold line; free_tac).
  rewrite (lines_nl "Parameters:") by (cbn; repeat split; discriminate).
  reflexivity.
Qed.

(** expressions: one line for every parameter *)
Theorem c153_expression : forall x, expression_ok x ->
  lines (expression_repr x)
  = match x_parameters x with
    | [] => ["<MathematicalExpression>"; "Expression:"; T ++ x_text x; "Parameters:"; T ++ "None"]
    | l => (["<MathematicalExpression>"; "Expression:"; (T ++ x_text x)%string; "Parameters:"]
            ++ map (fun p => (T ++ fst p ++ " = " ++ snd p)%string) l ++ [""])%list
    end.
Proof.
  intros x H. change (expression_repr x) with ("<MathematicalExpression>" ++ nl ++ rest x).
  rewrite lines_nl by (cbn; repeat split; discriminate).
  rewrite <- (app_nil_s (rest x)). destruct x as [t [|p l]].
  - rewrite rest_lines_none by apply H. reflexivity.
  - rewrite rest_lines by (exact H || discriminate). reflexivity.
Qed.
Print Assumptions c153_expression.

(** time series with values *)
Theorem c153_time_values : forall t v i u, line t -> line v -> line i -> line u ->
  lines (time_series_repr (TOne v) u) = ["<TimeSeries>"; "Constant value:"; T ++ v; "Units:"; T ++ u; ""]
  /\ lines (time_series_repr (TMany t v i) u)
     = ["<TimeSeries>"; "Time:"; T ++ t; "Values:"; T ++ v; "Interpolation:"; T ++ i; "Units:"; T ++ u; ""].
Proof.
  intros t v i u Ht Hv Hi Hu.
  assert (L : forall x b, line x -> lines (tab ++ x ++ nl ++ b) = (T ++ x) :: lines b).
  { intros x b H. rewrite <- app_assoc_s. apply lines_nl. unfold line. free_tac. }
  assert (E : forall x, line x -> lines (tab ++ x ++ nl) = [T ++ x; ""]).
  { intros x H. rewrite <- app_assoc_s. apply lines_end. unfold line. free_tac. }
  unfold time_series_repr. rewrite !app_assoc_s. split.
  - rewrite (lines_nl "<TimeSeries>") by (cbn; repeat split; discriminate).
    rewrite (lines_nl "Constant value:") by (cbn; repeat split; discriminate).
    rewrite (L v) by assumption. rewrite (lines_nl "Units:") by (cbn; repeat split; discriminate).
    now rewrite E.
  - rewrite (lines_nl "<TimeSeries>") by (cbn; repeat split; discriminate).
    rewrite (lines_nl "Time:") by (cbn; repeat split; discriminate). rewrite (L t) by assumption.
    rewrite (lines_nl "Values:") by (cbn; repeat split; discriminate). rewrite (L v) by assumption.
    rewrite (lines_nl "Interpolation:") by (cbn; repeat split; discriminate). rewrite (L i) by assumption.
    rewrite (lines_nl "Units:") by (cbn; repeat split; discriminate). now rewrite E.
Qed.
Print Assumptions c153_time_values.

Lemma removed : forall x, expression_ok x ->
  remove "<MathematicalExpression>" (expression_repr x) = nl ++ rest x.
Proof.
  intros x H. change (expression_repr x) with ("<MathematicalExpression>" ++ (nl ++ rest x)).
  rewrite remove_front. apply remove_free. rewrite free_app. split; [cbn; repeat split; discriminate|].
  now apply rest_free.
Qed.
Lemma removed_line : forall x, expression_ok x ->
  remove ("<MathematicalExpression>" ++ nl) (expression_repr x) = rest x.
Proof.
  intros x H. change (expression_repr x) with (("<MathematicalExpression>" ++ nl) ++ rest x).
  change ("<MathematicalExpression>" ++ nl) with (String "<" ("MathematicalExpression>" ++ nl)).
  rewrite remove_front. apply remove_free. now apply rest_free.
Qed.

(** time series with an expression: the lines of the expression without its name *)
Theorem c153_time_expression : forall x u, expression_ok x -> line u -> x_parameters x <> [] ->
  lines (time_series_repr (TExpr x) u)
  = (["<TimeSeries>"; "Expression:"; (T ++ x_text x)%string; "Parameters:"]
     ++ map (fun p => (T ++ fst p ++ " = " ++ snd p)%string) (x_parameters x) ++ ["Units:"; (T ++ u)%string; ""])%list.
Proof.
  intros x u H Hu N. unfold time_series_repr. rewrite removed by exact H. rewrite !app_assoc_s.
  rewrite (lines_nl "<TimeSeries>") by (cbn; repeat split; discriminate).
  rewrite rest_lines by assumption.
  rewrite (lines_nl "Units:") by (cbn; repeat split; discriminate).
  rewrite <- app_assoc_s, lines_end by (unfold line; free_tac). reflexivity.
Qed.
Print Assumptions c153_time_expression.

(** false: the unit of a time series has a heading of its own; without parameters it is glued to the line before *)
Theorem c153_time_expression_refuted : forall t u, word t -> line u ->
  lines (time_series_repr (TExpr (Expression t [])) u)
  = ["<TimeSeries>"; "Expression:"; T ++ t; "Parameters:"; T ++ "NoneUnits:"; T ++ u; ""].
Proof.
  intros t u H Hu. unfold time_series_repr. rewrite removed by (split; [exact H|constructor]).
  rewrite !app_assoc_s. rewrite (lines_nl "<TimeSeries>") by (cbn; repeat split; discriminate).
  rewrite rest_lines_none by exact H.
  replace (((T ++ "None") ++ "Units:" ++ nl ++ tab ++ u ++ nl)) with ((T ++ "NoneUnits:") ++ nl ++ (tab ++ u) ++ nl)
    by (rewrite !app_assoc_s; reflexivity).
  rewrite lines_nl by (cbn; repeat split; discriminate).
  rewrite lines_end by (unfold line; free_tac). reflexivity.
Qed.
Print Assumptions c153_time_expression_refuted.

(** generic series with values: one line for every coordinate, names are filled up to six characters *)
Definition padded (s : string) : string := T ++ s ++ spaces (6 - String.length s).
Lemma spaces_line : forall n, line (spaces n).
Proof. induction n; cbn; [exact I|]. split; [discriminate|exact IHn]. Qed.
Theorem c153_generic_values : forall show cls v ds cs u, line cls -> line v -> line ds -> line u ->
  Forall (fun p => line (fst p) /\ line (fst (snd p)) /\ line (snd (snd p))) cs ->
  lines (generic_series_repr show cls (GValues v ds cs) u)
  = ([("<" ++ cls ++ ">")%string; "Values:"; (T ++ v)%string; "Dimensions:"; (T ++ ds)%string; "Coordinates:"]
     ++ map (fun p => (padded (fst p) ++ " = " ++ fst (snd p) ++ " " ++ snd (snd p))%string) cs
     ++ ["Units:"; (T ++ u)%string; ""])%list.
Proof.
  intros show cls v ds cs u Hc Hv Hd Hu H. unfold generic_series_repr. rewrite !app_assoc_s.
  assert (L : forall x b, line x -> lines (tab ++ x ++ nl ++ b) = (T ++ x) :: lines b).
  { intros x b Hx. rewrite <- app_assoc_s. apply lines_nl. unfold line. free_tac. }
  replace ("<" ++ cls ++ ">" ++ nl ++ "Values:" ++ nl ++ tab ++ v ++ nl ++ "Dimensions:" ++ nl ++ tab ++ ds ++ nl ++
    "Coordinates:" ++ nl ++ concat (map (fun p => ljust 7 (tab ++ fst p) ++ " = " ++ fst (snd p) ++ " " ++
      snd (snd p) ++ nl) cs) ++ "Units:" ++ nl ++ tab ++ u ++ nl)
  with (("<" ++ cls ++ ">") ++ nl ++ "Values:" ++ nl ++ tab ++ v ++ nl ++ "Dimensions:" ++ nl ++ tab ++ ds ++ nl ++
    "Coordinates:" ++ nl ++ concat (map (fun p => ljust 7 (tab ++ fst p) ++ " = " ++ fst (snd p) ++ " " ++
      snd (snd p) ++ nl) cs) ++ "Units:" ++ nl ++ tab ++ u ++ nl)
  by (rewrite !app_assoc_s; reflexivity).
  rewrite (lines_nl ("<" ++ cls ++ ">")) by (unfold line; free_tac).
  rewrite (lines_nl "Values:") by (cbn; repeat split; discriminate). rewrite (L v) by assumption.
  rewrite (lines_nl "Dimensions:") by (cbn; repeat split; discriminate). rewrite (L ds) by assumption.
  rewrite (lines_nl "Coordinates:") by (cbn; repeat split; discriminate).
  cbn [List.app]. do 6 f_equal.
  induction H as [|p cs (H1 & H2 & H3) _ IH].
  - cbn [concat map fold_right append List.app].
    change (lines ("Units:" ++ nl ++ (tab ++ u ++ nl)) = ["Units:"; T ++ u; ""]).
    rewrite (lines_nl "Units:") by (cbn; repeat split; discriminate).
    rewrite <- app_assoc_s, lines_end by (unfold line; free_tac). reflexivity.
  - unfold concat in *. cbn [map fold_right List.app]. rewrite <- IH.
    rewrite !app_assoc_s.
    set (tail := fold_right append "" _ ++ _).
    replace (ljust 7 (tab ++ fst p) ++ " = " ++ fst (snd p) ++ " " ++ snd (snd p) ++ nl ++ tail)
      with ((padded (fst p) ++ " = " ++ fst (snd p) ++ " " ++ snd (snd p)) ++ nl ++ tail).
    + apply lines_nl. unfold line, padded.
      pose proof (spaces_line (6 - String.length (fst p))) as Hs. unfold line in *. free_tac.
    + unfold padded, ljust. rewrite !app_assoc_s. reflexivity.
Qed.
Print Assumptions c153_generic_values.

(** generic series with an expression *)
Theorem c153_generic_expression : forall show cls x vs sd ds u, line cls -> expression_ok x ->
  x_parameters x <> [] -> line u -> line (show (other_dims vs sd ds)) ->
  Forall (fun p => word (fst p) /\ word (snd p)) vs ->
  lines (generic_series_repr show cls (GExpr x vs sd ds) u)
  = ([("<" ++ cls ++ ">")%string; "Expression:"; (T ++ x_text x)%string; "Parameters:"]
     ++ map (fun p => (T ++ fst p ++ " = " ++ snd p)%string) (x_parameters x)
     ++ ["Free Dimensions:"] ++ map (fun p => (T ++ fst p ++ " in " ++ snd p)%string) vs
     ++ ["Other Dimensions:"; (T ++ show (other_dims vs sd ds))%string; "Units:"; (T ++ u)%string; ""])%list.
Proof.
  intros show cls x vs sd ds u Hc Hx Nx Hu Ho Hv. unfold generic_series_repr.
  rewrite removed_line by exact Hx. rewrite !app_assoc_s.
  set (tail := rest x ++ _).
  replace ("<" ++ cls ++ ">" ++ nl ++ tail) with (("<" ++ cls ++ ">") ++ nl ++ tail)
    by (rewrite !app_assoc_s; reflexivity).
  rewrite (lines_nl ("<" ++ cls ++ ">")) by (unfold line; free_tac). unfold tail.
  rewrite rest_lines by assumption. cbn [List.app]. do 4 f_equal. f_equal.
  rewrite (lines_nl "Free Dimensions:") by (cbn; repeat split; discriminate). f_equal.
  generalize dependent (show (other_dims vs sd ds)). intros o Ho.
  induction Hv as [|p vs [[H1 _] [H2 _]] _ IH].
  - cbn [concat map fold_right append List.app].
    rewrite <- (app_assoc_s tab o).
    change (lines ("Other Dimensions:" ++ nl ++ (tab ++ o) ++ nl ++ "Units:" ++ nl ++ tab ++ u ++ nl)
      = ["Other Dimensions:"; T ++ o; "Units:"; T ++ u; ""]).
    rewrite (lines_nl "Other Dimensions:") by (cbn; repeat split; discriminate).
    rewrite (lines_nl (tab ++ o)) by (unfold line; free_tac).
    rewrite (lines_nl "Units:") by (cbn; repeat split; discriminate).
    rewrite <- app_assoc_s, lines_end by (unfold line; free_tac). reflexivity.
  - unfold concat in *. cbn [map fold_right List.app]. rewrite <- IH. rewrite !app_assoc_s.
    set (tail' := fold_right append "" _ ++ _).
    replace (tab ++ fst p ++ " in " ++ snd p ++ nl ++ tail')
      with ((T ++ fst p ++ " in " ++ snd p) ++ nl ++ tail') by (rewrite !app_assoc_s; reflexivity).
    apply lines_nl. unfold line. free_tac.
Qed.
Print Assumptions c153_generic_expression.

(** the other dimensions are those that belong to no variable *)
Theorem c153_other : forall vs sd ds d,
  In d (other_dims vs sd ds) <->
  In d ds /\ forall k u, In (k, u) vs -> match dget k sd with Some e => e <> d | None => k <> d end.
Proof.
  intros vs sd ds d. unfold other_dims. rewrite filter_In, negb_true_iff. unfold smem.
  rewrite <- not_true_iff_false, existsb_exists. split; intros [I H]; (split; [exact I|]).
  - intros k u J. enough (or_self k sd <> d) by (unfold or_self in *; now destruct (dget k sd)).
    intros E. apply H. exists d. split; [|apply String.eqb_refl]. apply in_map_iff. now exists (k, u).
  - intros (y & J & E). apply String.eqb_eq in E. subst y. apply in_map_iff in J.
    destruct J as ([k u] & E & J). specialize (H k u J). cbn [fst] in E. unfold or_self in E.
    destruct (dget k sd); congruence.
Qed.
Print Assumptions c153_other.

(** false: the free dimensions have a heading of their own *)
Theorem c153_generic_expression_refuted : forall show cls t vs sd ds u, line cls -> word t ->
  exists l, lines (generic_series_repr show cls (GExpr (Expression t []) vs sd ds) u)
  = ([("<" ++ cls ++ ">")%string; "Expression:"; (T ++ t)%string; "Parameters:"; (T ++ "NoneFree Dimensions:")%string] ++ l)%list.
Proof.
  intros show cls t vs sd ds u Hc Ht. unfold generic_series_repr.
  rewrite removed_line by (split; [exact Ht|constructor]). rewrite !app_assoc_s.
  set (tail := rest (Expression t []) ++ _).
  replace ("<" ++ cls ++ ">" ++ nl ++ tail) with (("<" ++ cls ++ ">") ++ nl ++ tail)
    by (rewrite !app_assoc_s; reflexivity).
  rewrite (lines_nl ("<" ++ cls ++ ">")) by (unfold line; free_tac). unfold tail.
  rewrite rest_lines_none by exact Ht. cbn [List.app].
  set (tail' := concat _ ++ _).
  replace ((T ++ "None") ++ "Free Dimensions:" ++ nl ++ tail') with ((T ++ "NoneFree Dimensions:") ++ nl ++ tail')
    by reflexivity.
  rewrite lines_nl by (cbn; repeat split; discriminate). exists (lines tail'). reflexivity.
Qed.
Print Assumptions c153_generic_expression_refuted.

(** shapes: one line for every segment *)
Lemma lines_join : forall l b, l <> [] -> Forall line l -> lines (join nl l ++ nl ++ b) = (l ++ lines b)%list.
Proof.
  intros l b N H. induction H as [|x l Hx Hl IH]; [contradiction|].
  destruct l as [|y l]; [cbn [join String.concat List.app]; now apply lines_nl|].
  change (join nl (x :: y :: l)) with (x ++ nl ++ join nl (y :: l)). rewrite !app_assoc_s.
  rewrite lines_nl by exact Hx. rewrite IH by discriminate. reflexivity.
Qed.
Lemma lines_join_end : forall l, l <> [] -> Forall line l -> lines (join nl l) = l.
Proof.
  intros l N H. induction H as [|x l Hx Hl IH]; [contradiction|].
  destruct l as [|y l]; [now apply lines_line|].
  change (join nl (x :: y :: l)) with (x ++ nl ++ join nl (y :: l)).
  rewrite lines_nl by exact Hx. rewrite IH by discriminate. reflexivity.
Qed.
Theorem c153_shape : forall l, l <> [] -> Forall line l -> lines (shape_str l) = l.
Proof. exact lines_join_end. Qed.
Print Assumptions c153_shape.

(** profiles: the number of shapes, then the shapes with their numbers from 0, separated by empty lines *)
Fixpoint numbered (number : nat -> string) (i : nat) (shapes : list (list string)) : list string :=
  match shapes with
  | [] => []
  | [s] => ("Shape " ++ number i ++ ":") :: s
  | s :: r => (("Shape " ++ number i ++ ":")%string :: s ++ "" :: numbered number (S i) r)%list
  end.
Theorem c153_profile : forall number shapes, (forall n, line (number n)) -> shapes <> [] ->
  Forall (fun s => s <> [] /\ Forall line s) shapes ->
  lines (profile_str number shapes)
  = ("Profile with " ++ number (List.length shapes) ++ " shape(s)") :: numbered number 0 shapes.
Proof.
  intros number shapes Hn N H. unfold profile_str.
  replace ("Profile with " ++ number (List.length shapes) ++ " shape(s)" ++ nl ++ join (nl ++ nl) (number_shapes number 0 shapes))
  with (("Profile with " ++ number (List.length shapes) ++ " shape(s)") ++ nl ++ join (nl ++ nl) (number_shapes number 0 shapes))
  by (rewrite !app_assoc_s; reflexivity).
  pose proof (Hn (List.length shapes)) as Hl. unfold line in Hl.
  rewrite lines_nl by (unfold line; free_tac). f_equal.
  clear Hl. generalize 0%nat as i. induction H as [|s r [Ns Hs] Hr IH]; [contradiction|]. intros i.
  pose proof (Hn i) as Hi. unfold line in Hi.
  destruct r as [|s' r].
  - cbn [number_shapes numbered]. unfold join at 1. cbn [String.concat].
    replace ("Shape " ++ number i ++ ":" ++ nl ++ shape_str s) with (("Shape " ++ number i ++ ":") ++ nl ++ shape_str s)
      by (rewrite !app_assoc_s; reflexivity).
    rewrite lines_nl by (unfold line; free_tac). f_equal. now apply c153_shape.
  - cbn [numbered]. change (number_shapes number i (s :: s' :: r))
      with (("Shape " ++ number i ++ ":" ++ nl ++ shape_str s) :: number_shapes number (S i) (s' :: r)).
    specialize (IH ltac:(discriminate) (S i)).
    set (q := number_shapes number (S i) (s' :: r)) in *.
    assert (Q : exists a b, q = a :: b) by (unfold q; cbn [number_shapes]; eauto).
    destruct Q as (a & b & Q). rewrite Q in *.
    change (join (nl ++ nl) (("Shape " ++ number i ++ ":" ++ nl ++ shape_str s) :: a :: b))
      with (("Shape " ++ number i ++ ":" ++ nl ++ shape_str s) ++ (nl ++ nl) ++ join (nl ++ nl) (a :: b)).
    replace (("Shape " ++ number i ++ ":" ++ nl ++ shape_str s) ++ (nl ++ nl) ++ join (nl ++ nl) (a :: b))
      with (("Shape " ++ number i ++ ":") ++ nl ++ shape_str s ++ nl ++ nl ++ join (nl ++ nl) (a :: b))
      by (rewrite !app_assoc_s; reflexivity).
    rewrite lines_nl by (unfold line; free_tac). f_equal.
    unfold shape_str. rewrite lines_join by assumption. f_equal.
    change (nl ++ join (nl ++ nl) (a :: b)) with ("" ++ nl ++ join (nl ++ nl) (a :: b)).
    rewrite lines_nl by exact I. f_equal. exact IH.
Qed.
Print Assumptions c153_profile.
Example c153_ex : time_series_repr (TExpr (Expression "a*t" [("a", "2 mm")])) "mm"
  = "<TimeSeries>" ++ nl ++ "Expression:" ++ nl ++ tab ++ "a*t" ++ nl ++ "Parameters:" ++ nl ++ tab ++ "a = 2 mm" ++ nl
    ++ "Units:" ++ nl ++ tab ++ "mm" ++ nl.
Proof. reflexivity. Qed.
Example c153_ex_ok : expression_ok (Expression "a*t" [("a", "2 mm")]).
Proof. cbn; repeat split; try discriminate. repeat constructor; cbn; discriminate. Qed.
