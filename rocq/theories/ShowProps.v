(* C147: showing headers and contents of files. *)
From Coq Require Import List String Ascii Bool Arith ZArith Lia.
From Verif Require Import Base ShowModel ShowSpec.
Import ListNotations.
Open Scope string_scope.

Section NodeInd.
  Variable P : node -> Prop.
  Hypothesis HN : forall n, P (NNum n).
  Hypothesis HS : forall t s, P (NStr t s).
  Hypothesis HL : forall t l, Forall P l -> P (NList t l).
  Hypothesis HD : forall t d, Forall (fun p => P (snd p)) d -> P (NDict t d).
  Fixpoint node_induction (v : node) : P v :=
    match v with
    | NNum n => HN n
    | NStr t s => HS t s
    | NList t l => HL t l ((fix go l := match l return Forall P l with
        | [] => Forall_nil _ | x :: r => Forall_cons _ (node_induction x) (go r) end) l)
    | NDict t d => HD t d ((fix go d := match d return Forall (fun p => P (snd p)) d with
        | [] => Forall_nil _ | x :: r => Forall_cons _ (node_induction (snd x)) (go r) end) d)
    end.
End NodeInd.

Definition U (v : node) : node := visit (remap v).

Lemma U_dict t d : U (NDict t d) = NDict None (map (fun p => (fst p, U (snd p))) d).
Proof. unfold U. cbn [remap]. destruct t; reflexivity. Qed.
Lemma U_list t l : U (NList t l) = NList None (map U l).
Proof. unfold U. cbn [remap]. destruct t; reflexivity. Qed.
Lemma U_str t s : U (NStr t s) = NStr None s.
Proof. destruct t; reflexivity. Qed.

Lemma plain_U v : plain v (U v).
Proof.
  induction v as [n|t s|t l F|t d F] using node_induction.
  - constructor.
  - rewrite U_str. constructor.
  - rewrite U_list. constructor. induction F; cbn [map]; constructor; auto.
  - rewrite U_dict. constructor. induction F; cbn [map]; constructor; cbn [fst snd]; auto.
Qed.

Lemma plain_is_U v : forall w, plain v w -> w = U v.
Proof.
  induction v as [n|t s|t l F|t d F] using node_induction; intros w H; inversion H; subst.
  - reflexivity.
  - now rewrite U_str.
  - rewrite U_list. f_equal.
    match goal with X : Forall2 _ _ _ |- _ => revert X end.
    generalize l'. clear H l'. induction F as [|x r Hx F IH]; intros l' G; inversion G; subst; [reflexivity|].
    cbn [map]. f_equal; auto.
  - rewrite U_dict. f_equal.
    match goal with X : Forall2 _ _ _ |- _ => revert X end.
    generalize d'. clear H d'. induction F as [|[a x] r Hx F IH]; intros d' G; inversion G as [|? [b y] ? ? [E1 E2]]; subst; [reflexivity|].
    cbn [map fst snd] in *. subst. f_equal; [|auto]. f_equal. now apply Hx.
Qed.

Lemma dget_map (d : list (string * node)) s :
  dget s (map (fun p => (fst p, U (snd p))) d) = match dget s d with Some x => Some (U x) | None => None end.
Proof.
  induction d as [|[a x] d IH]; [reflexivity|]. cbn [map dget fst snd].
  destruct (String.eqb s a); [reflexivity|exact IH].
Qed.

Definition rmap (r : res node) : res node := match r with Ok x => Ok (U x) | Err e => Err e end.

Lemma index_U v k : index (U v) k = rmap (index v k).
Proof.
  destruct v as [n|t s|t l|t d], k as [a|z]; try reflexivity; rewrite ?U_str, ?U_list, ?U_dict; cbn [index].
  - reflexivity.
  - destruct (at_index (String.length s) z); reflexivity.
  - reflexivity.
  - rewrite map_length. destruct (at_index (List.length l) z) as [i|]; [|reflexivity].
    rewrite nth_error_map. destruct (nth_error l i); reflexivity.
  - rewrite dget_map. destruct (dget a d); reflexivity.
  - reflexivity.
Qed.

Lemma at_index_position n z i : at_index n z = Some i <-> position n z i.
Proof.
  unfold at_index, position. destruct (Z.ltb_spec z 0) as [L|L].
  - destruct (Z.leb_spec 0 (Z.of_nat n + z)), (Z.ltb_spec (Z.of_nat n + z) (Z.of_nat n)); cbn [andb]; split.
    all: try (intros [= <-]); try lia; try discriminate.
    intros [A [B|B]]; [lia|]. f_equal. lia.
  - destruct (Z.leb_spec 0 z), (Z.ltb_spec z (Z.of_nat n)); cbn [andb]; split.
    all: try (intros [= <-]); try lia; try discriminate.
    intros [A [B|B]]; [|lia]. f_equal. lia.
Qed.

Section View.
  Variable parse_int : string -> option Z.
  Variable json_text : string -> res node.
  Notation view := (view_tree parse_int json_text).

  Lemma step_U v k : step parse_int (U v) k = rmap (step parse_int v k).
  Proof.
    unfold step. rewrite index_U. destruct (index v k) as [x|e]; [reflexivity|]. cbn [rmap].
    destruct e; try reflexivity.
    destruct (match k with KStr s => parse_int s | KInt z => Some z end) as [z|]; [|reflexivity].
    rewrite index_U. destruct (index v (KInt z)); reflexivity.
  Qed.
  Lemma walk_U l : forall v, walk parse_int (U v) l = rmap (walk parse_int v l).
  Proof.
    induction l as [|k l IH]; intros v; [reflexivity|]. cbn [walk]. rewrite step_U.
    destruct (step parse_int v k) as [x|e]; [|reflexivity]. cbn [rmap bind]. apply IH.
  Qed.

  Lemma step_error v k e : step parse_int v k = Err e -> e = KeyError.
  Proof.
    unfold step. destruct (index v k) as [x|e0]; [discriminate|].
    destruct e0; try congruence.
    destruct (match k with KStr s => parse_int s | KInt z => Some z end) as [z|]; [|congruence].
    destruct (index v (KInt z)); congruence.
  Qed.
  Lemma walk_error l : forall v e, walk parse_int v l = Err e -> e = KeyError.
  Proof.
    induction l as [|k l IH]; intros v e; [discriminate|]. cbn [walk].
    destruct (step parse_int v k) as [x|e0] eqn:E; cbn [bind].
    - apply IH.
    - intros [= <-]. eapply step_error, E.
  Qed.

  Lemma step_num n k x : step parse_int (NNum n) k <> Ok x.
  Proof.
    unfold step. cbn [index].
    destruct (match k with KStr s => parse_int s | KInt z => Some z end) as [z|]; destruct k; cbn [index]; discriminate.
  Qed.
  Lemma step_dict t d k x : step parse_int (NDict t d) k = Ok x <-> exists s, k = KStr s /\ dget s d = Some x.
  Proof.
    unfold step. destruct k as [s|z]; cbn [index].
    - destruct (dget s d) as [y|] eqn:E.
      + split; [intros [= ->]; eauto|]. intros (s' & [= <-] & F). congruence.
      + split; [discriminate|]. intros (s' & [= <-] & F). congruence.
    - split; [discriminate|]. intros (s' & H & _). discriminate.
  Qed.
  Lemma step_list t l k x : step parse_int (NList t l) k = Ok x <->
    exists z i, stands_for parse_int k z /\ position (List.length l) z i /\ nth_error l i = Some x.
  Proof.
    assert (G : forall z, (exists i, position (List.length l) z i /\ nth_error l i = Some x) <->
      index (NList t l) (KInt z) = Ok x).
    { intros z. cbn [index]. split.
      - intros (i & P & N). apply at_index_position in P. now rewrite P, N.
      - destruct (at_index (List.length l) z) as [i|] eqn:E; [|discriminate].
        apply at_index_position in E. destruct (nth_error l i) as [y|] eqn:N; [|discriminate].
        intros [= ->]. eauto. }
    unfold step, stands_for. destruct k as [s|z].
    - change (index (NList t l) (KStr s)) with (@Err node TypeError). cbv iota.
      destruct (parse_int s) as [z|].
      + specialize (G z). destruct (index (NList t l) (KInt z)) as [y|e]; split.
        * intros [= ->]. destruct (proj2 G eq_refl) as (i & P & N). eauto.
        * intros (z' & i & [= <-] & P & N). apply G. eauto.
        * discriminate.
        * intros (z' & i & [= <-] & P & N). assert (Err e = Ok x) by (apply G; eauto). discriminate.
      + split; [discriminate|]. intros (z' & i & H & _). discriminate.
    - specialize (G z). destruct (index (NList t l) (KInt z)) as [y|e] eqn:E; split.
      + intros [= ->]. destruct (proj2 G eq_refl) as (i & P & N). eauto.
      + intros (z' & i & <- & P & N). apply G. eauto.
      + destruct e; discriminate.
      + intros (z' & i & <- & P & N). assert (Err e = Ok x) by (apply G; eauto). discriminate.
  Qed.
  Lemma step_str t w k x : step parse_int (NStr t w) k = Ok x <->
    exists z i, stands_for parse_int k z /\ position (String.length w) z i /\ x = NStr None (substring i 1 w).
  Proof.
    assert (G : forall z, (exists i, position (String.length w) z i /\ x = NStr None (substring i 1 w)) <->
      index (NStr t w) (KInt z) = Ok x).
    { intros z. cbn [index]. split.
      - intros (i & P & ->). apply at_index_position in P. now rewrite P.
      - destruct (at_index (String.length w) z) as [i|] eqn:E; [|discriminate].
        apply at_index_position in E. intros [= <-]. eauto. }
    unfold step, stands_for. destruct k as [s|z].
    - change (index (NStr t w) (KStr s)) with (@Err node TypeError). cbv iota.
      destruct (parse_int s) as [z|].
      + specialize (G z). destruct (index (NStr t w) (KInt z)) as [y|e]; split.
        * intros [= ->]. destruct (proj2 G eq_refl) as (i & P & N). eauto.
        * intros (z' & i & [= <-] & P & N). apply G. eauto.
        * discriminate.
        * intros (z' & i & [= <-] & P & N). assert (Err e = Ok x) by (apply G; eauto). discriminate.
      + split; [discriminate|]. intros (z' & i & H & _). discriminate.
    - specialize (G z). destruct (index (NStr t w) (KInt z)) as [y|e] eqn:E; split.
      + intros [= ->]. destruct (proj2 G eq_refl) as (i & P & N). eauto.
      + intros (z' & i & <- & P & N). apply G. eauto.
      + destruct e; discriminate.
      + intros (z' & i & <- & P & N). assert (Err e = Ok x) by (apply G; eauto). discriminate.
  Qed.

  Lemma walk_reaches l : forall v w, walk parse_int v l = Ok w <-> reaches parse_int v l w.
  Proof.
    induction l as [|k l IH]; intros v w; cbn [walk].
    - split; [intros [= ->]; constructor|]. intros H. inversion H. reflexivity.
    - split.
      + destruct (step parse_int v k) as [x|e] eqn:E; [|discriminate]. cbn [bind]. intros W.
        apply IH in W. destruct v as [n|t s|t m|t d].
        * now apply step_num in E.
        * apply step_str in E. destruct E as (z & i & A & B & ->). econstructor; eauto.
        * apply step_list in E. destruct E as (z & i & A & B & C). econstructor; eauto.
        * apply step_dict in E. destruct E as (s & -> & G). econstructor; eauto.
      + intros H. inversion H; subst.
        * rewrite (proj2 (step_dict t d (KStr s) x)) by eauto. cbn [bind]. now apply IH.
        * rewrite (proj2 (step_list t l0 k x)) by eauto. cbn [bind]. now apply IH.
        * rewrite (proj2 (step_str t s k (NStr None (substring i 1 s)))) by eauto. cbn [bind]. now apply IH.
  Qed.

  (* Without a path, or with an empty one, the whole header is shown, without
     tags in any place; the label is the name of the file or "/". *)
  Theorem c147_whole f t d p : p = None \/ p = Some (PStr "") \/ p = Some (PTuple []) ->
    exists v, plain (NDict t d) v /\
      view f (Ok (NDict t d)) p = Ok (match f with SName s => s ++ "/" | SOther => "/" end, v).
  Proof.
    intros P. exists (U (NDict t d)). split; [apply plain_U|].
    rewrite U_dict. destruct P as [->|[->| ->]]; reflexivity.
  Qed.

  Lemma given_some p : p <> PStr "" -> p <> PTuple [] -> given (Some p) = Some p.
  Proof.
    intros A B. unfold given. destruct p as [s|l].
    - destruct s; [now destruct A|reflexivity].
    - destruct l; [now destruct B|reflexivity].
  Qed.
  Lemma words_strings ss : words (map KStr ss) = Ok ss.
  Proof. induction ss as [|s r IH]; [reflexivity|]. cbn [map words]. now rewrite IH. Qed.

  Lemma view_tuple f t d s ss :
    view f (Ok (NDict t d)) (Some (PTuple (map KStr (s :: ss)))) =
    bind (rmap (walk parse_int (NDict t d) (map KStr (s :: ss))))
      (json json_text (root_label f ++ String.concat "/" (s :: ss))).
  Proof.
    unfold view_tree. cbn [bind remap as_dict]. rewrite given_some by discriminate.
    cbn [joined]. rewrite words_strings. cbn [bind get_path].
    rewrite <- walk_U, U_dict. reflexivity.
  Qed.

  (* With a path of strings the part of the header is shown that the path leads
     to, without tags, if it is a mapping or a list; the label ends with the
     path.  A number there is a TypeError.  A string is not shown either: it is
     taken for JSON text. *)
  Theorem c147_part f t d s ss w : reaches parse_int (NDict t d) (map KStr (s :: ss)) w ->
    let label := (match f with SName x => x ++ "/" | SOther => "/" end) ++ String.concat "/" (s :: ss) in
    let r := view f (Ok (NDict t d)) (Some (PTuple (map KStr (s :: ss)))) in
    (container w -> exists v, plain w v /\ r = Ok (label, v)) /\
    (forall n, w = NNum n -> r = Err TypeError) /\
    (forall u x, w = NStr u x -> forall root v, r = Ok (root, v) -> json_text x = Ok v /\ root = label).
  Proof.
    intros R. apply walk_reaches in R. cbv zeta. rewrite view_tuple, R. cbn [rmap bind]. split; [|split].
    - intros C. exists (U w). split; [apply plain_U|].
      destruct w as [n|u x|u l|u e]; try contradiction; rewrite ?U_list, ?U_dict; destruct f; reflexivity.
    - intros n ->. reflexivity.
    - intros u x -> root v. rewrite U_str. cbn [json].
      destruct (json_text x) as [[n|a b|a b|a b]|e]; cbn [bind]; try discriminate;
        intros [= <- <-]; (split; [reflexivity|]); destruct f; reflexivity.
  Qed.

  (* A path that leads nowhere is a KeyError. *)
  Theorem c147_nowhere f t d s ss : (forall w, ~ reaches parse_int (NDict t d) (map KStr (s :: ss)) w) ->
    view f (Ok (NDict t d)) (Some (PTuple (map KStr (s :: ss)))) = Err KeyError.
  Proof.
    intros N. rewrite view_tuple. destruct (walk parse_int (NDict t d) (map KStr (s :: ss))) as [w|e] eqn:E.
    - apply walk_reaches in E. destruct (N w E).
    - apply walk_error in E. now subst.
  Qed.

  (* A number in the path is a TypeError, whether there is such an item or not. *)
  Theorem c147_number_refuted f t d l z : In (KInt z) l ->
    view f (Ok (NDict t d)) (Some (PTuple l)) = Err TypeError.
  Proof.
    intros I. unfold view_tree. cbn [bind remap as_dict].
    rewrite given_some; [|discriminate|intros [= ->]; contradiction].
    cbn [joined]. assert (words l = Err TypeError) as ->; [|reflexivity].
    induction l as [|[s|x] r IH]; [contradiction| |reflexivity].
    destruct I as [I|I]; [discriminate|]. cbn [words]. now rewrite IH.
  Qed.

  (* A path as text shows what the path of its parts shows, with another label:
     the letters of the text. *)
  Theorem c147_text f t d s root v : s <> "" ->
    (view f (Ok (NDict t d)) (Some (PTuple (map KStr (split_dots s)))) = Ok (root, v) ->
     exists root', view f (Ok (NDict t d)) (Some (PStr s)) = Ok (root', v) /\
       root' = (match f with SName x => x ++ "/" | SOther => "/" end) ++ String.concat "/" (letters s)) /\
    (forall e, view f (Ok (NDict t d)) (Some (PTuple (map KStr (split_dots s)))) = Err e ->
       view f (Ok (NDict t d)) (Some (PStr s)) = Err e).
  Proof.
    intros NE.
    assert (exists a r, split_dots s = a :: r) as (a & r & E).
    { destruct s as [|c s]; [now destruct NE|]. cbn [split_dots]. destruct (Ascii.eqb c "."); [eauto|].
      destruct (split_dots s); eauto. }
    rewrite E, view_tuple, <- E.
    assert (W : view f (Ok (NDict t d)) (Some (PStr s)) =
      bind (rmap (walk parse_int (NDict t d) (map KStr (split_dots s))))
        (json json_text (root_label f ++ String.concat "/" (letters s)))).
    { unfold view_tree. cbn [bind remap as_dict]. rewrite given_some; [|congruence|discriminate].
      cbn [joined bind get_path]. rewrite <- walk_U, U_dict. reflexivity. }
    rewrite W. destruct (rmap (walk parse_int (NDict t d) (map KStr (split_dots s)))) as [w|e]; cbn [bind].
    - destruct w as [n|u x|u l|u b]; cbn [json].
      + split; [discriminate|auto].
      + destruct (json_text x) as [[n|a' b|a' b|a' b]|e]; cbn [bind]; (split; [|intros e'; discriminate || auto]);
          try discriminate; intros [= <- <-]; eexists; (split; [reflexivity|]); destruct f; reflexivity.
      + split; [|discriminate]. intros [= <- <-]. eexists. split; [reflexivity|]. destruct f; reflexivity.
      + split; [|discriminate]. intros [= <- <-]. eexists. split; [reflexivity|]. destruct f; reflexivity.
    - split; [discriminate|auto].
  Qed.

  (* Contents: the entries without those of the library and the history; a path
     leads to the part with tags and all, and to no other. *)
  Theorem c147_info tree_ p :
    let t := NDict None (filter (fun q => if string_dec (fst q) "asdf_library" then false else
                                 if string_dec (fst q) "history" then false else true) tree_) in
    match p with
    | None => info parse_int tree_ p = Ok t
    | Some (PTuple l) => forall w, info parse_int tree_ p = Ok w <-> reaches parse_int t l w
    | Some (PStr s) => forall w, info parse_int tree_ p = Ok w <-> reaches parse_int t (map KStr (split_dots s)) w
    end.
  Proof.
    cbv zeta. unfold info.
    replace (filter (fun q => if string_dec (fst q) "asdf_library" then false else
                                 if string_dec (fst q) "history" then false else true) tree_)
      with (filter (fun q => negb (existsb (String.eqb (fst q)) ["asdf_library"; "history"])) tree_).
    - destruct p as [[s|l]|]; [| |reflexivity]; intros w; cbn [get_path]; apply walk_reaches.
    - apply filter_ext. intros q. cbn [existsb]. rewrite orb_false_r.
      destruct (string_dec (fst q) "asdf_library") as [->|A]; [reflexivity|].
      apply String.eqb_neq in A. rewrite A.
      destruct (string_dec (fst q) "history") as [->|B]; [reflexivity|].
      apply String.eqb_neq in B. rewrite B. reflexivity.
  Qed.

  (* A path that leads nowhere is a KeyError, and so are all paths below the two
     entries, which the header shows. *)
  Theorem c147_info_nowhere tree_ l :
    (forall e, info parse_int tree_ (Some (PTuple l)) = Err e -> e = KeyError) /\
    (forall r k, k = "asdf_library" \/ k = "history" ->
       info parse_int tree_ (Some (PTuple (KStr k :: r))) = Err KeyError).
  Proof.
    split.
    - intros e. unfold info. cbn [get_path]. apply walk_error.
    - intros r k K. destruct (info parse_int tree_ (Some (PTuple (KStr k :: r)))) as [w|e] eqn:E.
      + exfalso. apply (c147_info tree_ (Some (PTuple (KStr k :: r)))) in E. inversion E as [|? ? ? x ? ? G R|? ? ? ? ? ? ? ? ? ? ? ?|]; subst.
        revert G. clear -K. induction tree_ as [|[a y] q IH]; [discriminate|]. cbn [filter fst].
        destruct (string_dec a "asdf_library") as [->|A]; [exact IH|].
        destruct (string_dec a "history") as [->|B]; [exact IH|]. cbn [dget].
        destruct (String.eqb_spec k a); [destruct K; congruence|exact IH].
      + unfold info in E. cbn [get_path] in E. apply walk_error in E. now subst.
  Qed.
End View.
Print Assumptions c147_whole.
Print Assumptions c147_part.
Print Assumptions c147_nowhere.
Print Assumptions c147_number_refuted.
Print Assumptions c147_text.
Print Assumptions c147_info.
Print Assumptions c147_info_nowhere.

Section TreeInd.
  Variable P : tree -> Prop.
  Hypothesis HN : forall n, P (TNum n).
  Hypothesis HS : forall t s, P (TStr t s).
  Hypothesis HA : forall a b c, P (TArray a b c).
  Hypothesis HL : forall t l, Forall P l -> P (TList t l).
  Hypothesis HD : forall t d, Forall (fun p => P (snd p)) d -> P (TDict t d).
  Fixpoint tree_induction (v : tree) : P v :=
    match v with
    | TNum n => HN n
    | TStr t s => HS t s
    | TArray a b c => HA a b c
    | TList t l => HL t l ((fix go l := match l return Forall P l with
        | [] => Forall_nil _ | x :: r => Forall_cons _ (tree_induction x) (go r) end) l)
    | TDict t d => HD t d ((fix go d := match d return Forall (fun p => P (snd p)) d with
        | [] => Forall_nil _ | x :: r => Forall_cons _ (tree_induction (snd x)) (go r) end) d)
    end.
End TreeInd.

Lemma serialise_same a : forall b, same_but_data a b ->
  serialise (fun _ => []) a = serialise (fun _ => []) b.
Proof.
  induction a as [n|t s|dt sh x|t l F|t d F] using tree_induction; intros b H; inversion H; subst; try reflexivity.
  - cbn [serialise]. f_equal.
    match goal with X : Forall2 _ _ _ |- _ => revert X end.
    generalize l'. clear H l'. induction F as [|x r Hx F IH]; intros l' G; inversion G; subst; [reflexivity|].
    cbn [map]. f_equal; auto.
  - cbn [serialise]. f_equal.
    match goal with X : Forall2 _ _ _ |- _ => revert X end.
    generalize d'. clear H d'. induction F as [|[k x] r Hx F IH]; intros d' G; inversion G as [|? [k' y] ? ? [E1 E2]]; subst; [reflexivity|].
    cbn [map fst snd] in *. subst. f_equal; [|auto]. f_equal. now apply Hx.
Qed.

Section Header.
  Variable parse_int : string -> option Z.
  Variable json_text : string -> res node.
  Notation show := (show parse_int json_text).
  Notation header t := (serialise (fun _ => []) t).

  (* The four ways to show a header.  A path counts only for the widget. *)
  Theorem c147_modes s t p :
    (forall w, show s t (Some w) p (Some false) = Ok (Printed (header t))) /\
    show s t (Some false) p (Some true) = Ok (Highlighted (header t)) /\
    (forall root v, show s t (Some true) p (Some true) = Ok (Widget root v) <->
       view_tree parse_int json_text SOther (Ok (header t)) p = Ok (root, v)) /\
    (forall e, show s t (Some true) p (Some true) = Err e <->
       view_tree parse_int json_text SOther (Ok (header t)) p = Err e).
  Proof.
    unfold ShowModel.show. cbn [bind]. split; [reflexivity|]. split; [reflexivity|].
    destruct (view_tree parse_int json_text SOther (Ok (header t)) p) as [[a b]|e0]; cbn [bind fst snd];
      split; intros; split; congruence.
  Qed.

  (* The header is the tree with empty arrays; it is printed as a whole. *)
  Theorem c147_printed s t w p : exists h, written t h /\
    show s t (Some w) p (Some false) = Ok (Printed h) /\
    show s t (Some false) p (Some true) = Ok (Highlighted h).
  Proof.
    exists (header t). split; [|split; reflexivity].
    clear. induction t as [n|t s|dt sh x|t l F|t d F] using tree_induction; cbn [serialise]; try constructor.
    - induction F; cbn [map]; constructor; auto.
    - induction F; cbn [map]; constructor; cbn [fst snd]; auto.
  Qed.

  (* So a path has no effect outside of the widget. *)
  Theorem c147_path_refuted s t w i p : (w, i) <> (true, true) ->
    show s t (Some w) p (Some i) = show s t (Some w) None (Some i).
  Proof. destruct w, i; intros N; try reflexivity. now destruct N. Qed.

  (* What is given is not looked up, and what is not given is the answer of the
     session. *)
  Theorem c147_session s t w p i :
    (forall s', show s t (Some w) p (Some i) = show s' t (Some w) p (Some i)) /\
    show s t (Some w) p None = show s t (Some w) p (Some (is_interactive s)) /\
    (forall b, is_lab s = Ok b -> forall i', show s t None p i' = show s t (Some b) p i') /\
    (forall e, is_lab s = Err e -> forall i', show s t None p i' = Err e).
  Proof.
    unfold ShowModel.show. repeat split.
    - intros b E i'. now rewrite E.
    - intros e E i'. now rewrite E.
  Qed.

  (* The widgets are decided even if nothing interactive is shown: without a
     parent process a header cannot even be printed. *)
  Theorem c147_orphan_refuted t p i ip : show (Session ip None) t None p i = Err AttributeError.
  Proof. reflexivity. Qed.

  (* Sessions. *)
  Theorem c147_interactive s : is_interactive s = true <->
    exists config, ipython s = Some (Some config) /\ In "IPKernelApp" config.
  Proof.
    unfold is_interactive. destruct (ipython s) as [[c|]|].
    - rewrite existsb_exists. split.
      + intros (x & I & E). apply String.eqb_eq in E. subst. eauto.
      + intros (c' & [= <-] & I). exists "IPKernelApp". split; [exact I|reflexivity].
    - split; [discriminate|]. intros (c & E & _). discriminate.
    - split; [discriminate|]. intros (c & E & _). discriminate.
  Qed.
  Theorem c147_lab s name env : parent s = Some (name, env) ->
    exists b, is_lab s = Ok b /\
      (b = true <-> name = "jupyter-lab" \/
         exists k, In k ["JUPYTERHUB_API_KEY"; "JPY_API_TOKEN"; "JUPYTERHUB_API_TOKEN"] /\ In k env).
  Proof.
    intros E. unfold is_lab. rewrite E. destruct (String.eqb_spec name "jupyter-lab") as [->|N].
    - exists true. split; [reflexivity|]. tauto.
    - eexists. split; [reflexivity|]. rewrite existsb_exists. split.
      + intros (k & I & X). right. exists k. split; [exact I|].
        apply existsb_exists in X. destruct X as (y & J & Q). apply String.eqb_eq in Q. now subst.
      + intros [?|(k & I & J)]; [contradiction|]. exists k. split; [exact I|].
        apply existsb_exists. exists k. split; [exact J|apply String.eqb_refl].
  Qed.

  (* The data of arrays has no influence on what is shown. *)
  Theorem c147_arrays s t t' w p i : same_but_data t t' -> show s t w p i = show s t' w p i.
  Proof. intros H. apply serialise_same in H. unfold ShowModel.show. now rewrite H. Qed.
End Header.
Print Assumptions c147_modes.
Print Assumptions c147_printed.
Print Assumptions c147_path_refuted.
Print Assumptions c147_session.
Print Assumptions c147_orphan_refuted.
Print Assumptions c147_interactive.
Print Assumptions c147_lab.
Print Assumptions c147_arrays.

(* The copy is made with the copy function of weldx for arrays, and all others
   as before; afterwards the table has no function for arrays, also if the copy
   fails, and all others as before. *)
Theorem c147_table (A : Type) fake (copy : dict nat -> res A) table :
  exists during, snd (visualizer fake copy table) = copy during /\
    dget "ndarray" during = Some fake /\
    (forall k, k <> "ndarray" -> dget k during = dget k table) /\
    dget "ndarray" (fst (visualizer fake copy table)) = None /\
    (forall k, k <> "ndarray" -> dget k (fst (visualizer fake copy table)) = dget k table).
Proof.
  assert (G : forall k, dget k (dset "ndarray" fake table) = if String.eqb k "ndarray" then Some fake else dget k table).
  { intros k. induction table as [|[a v] r IH].
    - cbn. reflexivity.
    - cbn [dset dget]. destruct (String.eqb_spec "ndarray" a) as [<-|N]; cbn [dget].
      + destruct (String.eqb k "ndarray"); reflexivity.
      + rewrite IH. destruct (String.eqb_spec k a) as [->|M]; [|reflexivity].
        destruct (String.eqb_spec a "ndarray"); [congruence|reflexivity]. }
  assert (D : forall (d : dict nat) k, dget k (ddel "ndarray" d) = if String.eqb k "ndarray" then None else dget k d).
  { intros d k. unfold ddel. induction d as [|[a v] r IH]; cbn [filter dget fst].
    - now destruct (String.eqb k "ndarray").
    - destruct (String.eqb_spec "ndarray" a) as [<-|N]; cbn [negb].
      + rewrite IH. destruct (String.eqb k "ndarray"); reflexivity.
      + cbn [dget]. rewrite IH. destruct (String.eqb_spec k a) as [->|M]; [|reflexivity].
        destruct (String.eqb_spec a "ndarray"); [congruence|reflexivity]. }
  exists (dset "ndarray" fake table). unfold visualizer. cbn [fst snd]. split; [reflexivity|].
  split; [now rewrite G|]. split.
  - intros k N. rewrite G. now destruct (String.eqb_spec k "ndarray").
  - split; [now rewrite D|]. intros k N. rewrite D, G. now destruct (String.eqb_spec k "ndarray").
Qed.
Print Assumptions c147_table.
(* An own copy function for arrays is lost. *)
Theorem c147_table_refuted : exists table, fst (visualizer 1 (fun _ => Ok tt) table) <> table /\
  dget "ndarray" table = Some 5.
Proof. exists [("ndarray", 5)]. split; [discriminate|reflexivity]. Qed.
Print Assumptions c147_table_refuted.

(* The statements are about something. *)
Definition ex_int (s : string) : option Z := if String.eqb s "0" then Some 0%Z else None.
Definition ex_json (s : string) : res node := Err ValueError.
Definition ex_tree : tree := TDict (Some "!core/asdf") [("process", TDict (Some "!gmaw") [("steps", TList None [TStr (Some "!x") "a"; TDict None []])]);
  ("n", TNum 4); ("data", TArray "int" [2] [1; 2])].
Definition ex_header := serialise (fun _ => []) ex_tree.
Example c147_x1 : view_tree ex_int ex_json (SName "f.asdf") (Ok ex_header) (Some (PTuple [KStr "process"; KStr "steps"])) =
  Ok ("f.asdf/process/steps", NList None [NStr None "a"; NDict None []]).
Proof. reflexivity. Qed.
Example c147_x2 : view_tree ex_int ex_json (SName "f.asdf") (Ok ex_header) (Some (PStr "data")) =
  Ok ("f.asdf/d/a/t/a", NDict None [("data", NList None []); ("datatype", NStr None "int"); ("shape", NList None [NNum 2])]).
Proof. reflexivity. Qed.
Example c147_x3 : view_tree ex_int ex_json SOther (Ok ex_header) (Some (PTuple [KStr "n"])) = Err TypeError /\
  view_tree ex_int ex_json SOther (Ok ex_header) (Some (PTuple [KStr "x"])) = Err KeyError /\
  view_tree ex_int ex_json SOther (Ok ex_header) (Some (PTuple [KStr "process"; KStr "steps"; KStr "0"])) = Err ValueError.
Proof. repeat split. Qed.
Example c147_x4 : info ex_int [("history", NNum 1); ("a", NList (Some "!t") [NNum 2])] (Some (PTuple [KStr "a"; KInt (-1)])) = Ok (NNum 2) /\
  info ex_int [("history", NNum 1); ("a", NList (Some "!t") [NNum 2])] None = Ok (NDict None [("a", NList (Some "!t") [NNum 2])]).
Proof. split; reflexivity. Qed.
Example c147_x5 : is_interactive (Session (Some (Some ["IPKernelApp"])) None) = true /\
  is_lab (Session None (Some ("bash", ["JPY_API_TOKEN"]))) = Ok true /\ is_lab (Session None (Some ("bash", []))) = Ok false.
Proof. repeat split. Qed.
Example c147_x6 : same_but_data ex_tree (TDict (Some "!core/asdf") [("process", TDict (Some "!gmaw") [("steps", TList None [TStr (Some "!x") "a"; TDict None []])]);
  ("n", TNum 4); ("data", TArray "int" [2] [7; 8])]).
Proof. repeat (constructor; cbn [fst snd]). Qed.
