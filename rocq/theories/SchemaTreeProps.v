(** Properties of the reduced representation of schema files. *)
From Coq Require Import List String Ascii Bool Arith Lia.
From Verif Require Import Base SchemaTreeModel.
Import ListNotations.
Open Scope string_scope.

(** ** C131 Paths of schema files *)
(** The file has the given name, in any directory. *)
Definition named (name path : string) : Prop := path = name ++ ".yaml" \/ exists dir, path = dir ++ "/" ++ name ++ ".yaml".

Lemma ends_spec e s : ends_with e s = true <-> exists d, s = d ++ e.
Proof.
  split.
  - induction s as [|c r IH]; cbn [ends_with]; intros H; apply orb_prop in H as [H|H].
    + apply String.eqb_eq in H. exists "". now rewrite H.
    + discriminate.
    + apply String.eqb_eq in H. exists "". now rewrite H.
    + destruct (IH H) as [d ->]. now exists (String c d).
  - intros [d ->]. induction d as [|c d IH]; cbn [append].
    + destruct e; cbn [ends_with]; rewrite String.eqb_refl; reflexivity.
    + cbn [ends_with]. rewrite IH. apply orb_true_r.
Qed.
Lemma schema_file_spec n p : schema_file n p = true <-> named n p.
Proof.
  unfold schema_file, named. rewrite orb_true_iff, String.eqb_eq, ends_spec. reflexivity.
Qed.
Lemma filter_first {A : Type} (f : A -> bool) l p r : filter f l = p :: r ->
  exists a b, l = (a ++ p :: b)%list /\ Forall (fun x => f x = false) a /\ f p = true /\ filter f b = r.
Proof.
  induction l as [|x l IH]; intros H; [discriminate|]. cbn in H. destruct (f x) eqn:F.
  - injection H as -> <-. exists [], l. auto.
  - destruct (IH H) as (a & b & -> & Q & B & C). exists (x :: a), b. split; [reflexivity|]. auto.
Qed.

(** The first file with the name is used; there is a warning exactly if there are others. *)
Theorem c131_found : forall files schema p w, get_schema_path files schema = Ok (p, w) ->
  named (split_first ".yaml" schema) p /\
  exists a b, files = (a ++ p :: b)%list /\ Forall (fun q => ~ named (split_first ".yaml" schema) q) a /\
    (w = true <-> Exists (named (split_first ".yaml" schema)) b).
Proof.
  intros files schema p w H. unfold get_schema_path in H. set (n := split_first ".yaml" schema) in *.
  destruct (filter (schema_file n) files) as [|q r] eqn:F; [discriminate|]. injection H as <- <-.
  destruct (filter_first _ _ _ _ F) as (a & b & -> & A & B & C). split; [now apply schema_file_spec|].
  exists a, b. split; [reflexivity|]. split.
  - eapply Forall_impl; [|exact A]. intros x X N. apply schema_file_spec in N. congruence.
  - rewrite Exists_exists. split.
    + intros W. destruct r as [|x r]; [discriminate|]. exists x. rewrite <- schema_file_spec. apply (proj1 (filter_In (schema_file n) x b)). rewrite C. now left.
    + intros (x & X1 & X2). apply schema_file_spec in X2. destruct r as [|y r]; [|reflexivity].
      assert (X3 : In x (filter (schema_file n) b)) by now apply filter_In. rewrite C in X3. contradiction.
Qed.
Print Assumptions c131_found.
Theorem c131_missing : forall files schema,
  get_schema_path files schema = Err ValueError <-> Forall (fun q => ~ named (split_first ".yaml" schema) q) files.
Proof.
  intros files schema. unfold get_schema_path. set (n := split_first ".yaml" schema). split.
  - destruct (filter (schema_file n) files) as [|q r] eqn:F; [|discriminate]. intros _. apply Forall_forall. intros x X N.
    apply schema_file_spec in N. assert (Y : In x (filter (schema_file n) files)) by now apply filter_In. now rewrite F in Y.
  - intros H. destruct (filter (schema_file n) files) as [|q r] eqn:F; [reflexivity|]. exfalso. rewrite Forall_forall in H.
    assert (Y : In q (filter (schema_file n) files)) by (rewrite F; now left). apply filter_In in Y as [Y1 Y2].
    apply (H q Y1). now apply schema_file_spec.
Qed.
Print Assumptions c131_missing.
(** The ending may be given or not. *)
Lemma prefix_end s : s <> "" -> prefix ".yaml" (s ++ ".yaml") = prefix ".yaml" s.
Proof.
  intros N. destruct s as [|c1 [|c2 [|c3 [|c4 [|c5 r]]]]]; [congruence| | | | |]; cbn [append prefix];
    repeat (match goal with |- context [ascii_dec ?a ?b] => destruct (ascii_dec a b); try discriminate; try reflexivity end).
  now destruct r.
Qed.
Lemma prefix_app (a b : string) : prefix a (a ++ b) = true.
Proof. induction a as [|c a IH]; [now destruct b|]. cbn. destruct (ascii_dec c c); [exact IH|congruence]. Qed.
Lemma prefix_split a s : prefix a s = true -> exists b, s = a ++ b.
Proof.
  revert s. induction a as [|c a IH]; intros s H; [now exists s|]. destruct s as [|d s]; [discriminate|]. cbn in H.
  destruct (ascii_dec c d) as [->|]; [|discriminate]. destruct (IH _ H) as [b ->]. now exists b.
Qed.
Theorem c131_ending : forall files name, (forall a b, name <> a ++ ".yaml" ++ b) ->
  get_schema_path files (name ++ ".yaml") = get_schema_path files name /\
  (forall p w, get_schema_path files name = Ok (p, w) -> named name p).
Proof.
  intros files name N.
  assert (A : split_first ".yaml" name = name).
  { induction name as [|c r IH]; [reflexivity|]. cbn [split_first]. destruct (prefix ".yaml" (String c r)) eqn:P.
    - destruct (prefix_split _ _ P) as [b B]. exfalso. now apply (N "" b).
    - f_equal. apply IH. intros a b E. apply (N (String c a) b). cbn. now rewrite E. }
  assert (B : split_first ".yaml" (name ++ ".yaml") = name).
  { induction name as [|c r IH]; [reflexivity|]. change (String c r ++ ".yaml") with (String c (r ++ ".yaml")). cbn [split_first].
    change (String c (r ++ ".yaml")) with (String c r ++ ".yaml"). rewrite prefix_end by discriminate.
    destruct (prefix ".yaml" (String c r)) eqn:P.
    - destruct (prefix_split _ _ P) as [b Q]. exfalso. now apply (N "" b).
    - f_equal. apply IH; [|cbn [split_first] in A; rewrite P in A; now injection A]. intros a b E. apply (N (String c a) b). cbn. now rewrite E. }
  unfold get_schema_path at 1 2. rewrite A, B. split; [reflexivity|]. intros p w H. apply c131_found in H. rewrite A in H. tauto.
Qed.
Print Assumptions c131_ending.
(** False: only files with the given name are found. *)
Theorem c131_name_refuted : ~ forall files name p w, get_schema_path files name = Ok (p, w) -> named name p \/ name = p.
Proof.
  intros H. destruct (H ["x/a.yaml"] "a.yaml.txt" "x/a.yaml" false eq_refl) as [[E|[d E]]|E]; try discriminate.
  assert (L : String.length "x/a.yaml" = String.length (d ++ "/" ++ "a.yaml.txt" ++ ".yaml")) by now rewrite <- E.
  assert (G : forall a b, String.length (a ++ b) = String.length a + String.length b) by (induction a as [|c a IH]; intros b; cbn; [reflexivity|now rewrite IH]).
  rewrite G in L. cbn in L. lia.
Qed.
Print Assumptions c131_name_refuted.
Example ex_c131 : get_schema_path ["a/t-1.yaml"; "v-1.yaml"; "b/t-1.yaml"; "b/xv-1.yaml"] "t-1" = Ok ("a/t-1.yaml", true) /\
  get_schema_path ["a/t-1.yaml"; "v-1.yaml"; "b/t-1.yaml"; "b/xv-1.yaml"] "v-1.yaml" = Ok ("v-1.yaml", false) /\
  get_schema_path ["a/t-1.yaml"] "1" = Err ValueError.
Proof. repeat split. Qed.

(** ** C132 Names of properties in schema trees *)
Fixpoint blank_free (s : string) : bool :=
  match s with "" => true | String c r => negb (Ascii.eqb c " ") && blank_free r end.
(** what is known about a property: its tag, reference or type *)
Inductive kind : Type := KTag (t : string) | KRef (r : string) | KType (t : string).
Definition kind_node (k : kind) : node :=
  Obj [match k with KTag t => ("tag", Txt t) | KRef r => ("$ref", Txt r) | KType t => ("type", Txt t) end].
(** A schema of an object with properties. *)
Definition schema (ps : list (string * kind)) (reqs : list string) : node :=
  Obj [("type", Txt "object"); ("properties", Obj (map (fun p => (fst p, kind_node (snd p))) ps)); ("required", Arr (map Txt reqs))].
(** the name of the class of a property *)
Definition note (conv : string -> option string) (k : kind) : option string :=
  match k with
  | KTag t => match conv t with Some c => Some c | None => Some (split_last "asdf://weldx.bam.de/weldx/tags/" t) end
  | KRef r => Some ("$" ++ split_last "asdf://weldx.bam.de/weldx/schemas/" r)
  | KType t => if String.eqb t "object" then Some "dict" else if String.eqb t "array" then Some "list"
               else if String.eqb t "string" then Some "str" else if String.eqb t "number" then Some "number" else None
  end.
(** a property and its class *)
Definition label (n s : string) (required : bool) : string := n ++ " (" ++ s ++ (if required then ", required)" else ")").

Inductive items_ok (v : visitor) : list (string * node) -> list (string * node) -> Prop :=
| io_nil : items_ok v [] []
| io_cons k n n' o r l : remap v n = Ok n' -> v k n' = Ok o -> items_ok v r l -> items_ok v ((k, n) :: r) (keep o l).
Inductive arr_ok (v : visitor) : list node -> list (string * node) -> Prop :=
| ao_nil : arr_ok v [] []
| ao_cons n n' o r l : remap v n = Ok n' -> v "" n' = Ok o -> arr_ok v r l -> arr_ok v (n :: r) (keep o l).
Lemma remap_obj v d l : items_ok v d l -> remap v (Obj d) = Ok (Obj (of_items l)).
Proof.
  intros H. cbn [remap]. match goal with |- bind ?x _ = _ => replace x with (@Ok (list (string * node)) l); [reflexivity|] end.
  symmetry. induction H as [|k n n' o r l A B _ IH]; [reflexivity|]. rewrite A. cbn [bind]. rewrite B. cbn [bind]. rewrite IH. reflexivity.
Qed.
Lemma remap_arr v a l : arr_ok v a l -> remap v (Arr a) = Ok (Arr (map snd l)).
Proof.
  intros H. cbn [remap]. match goal with |- bind ?x _ = _ => replace x with (@Ok (list (string * node)) l); [reflexivity|] end.
  symmetry. induction H as [|n n' o r l A B _ IH]; [reflexivity|]. rewrite A. cbn [bind]. rewrite B. cbn [bind]. rewrite IH. reflexivity.
Qed.
Lemma arr_txt v l : (forall k s, v k (Txt s) = Ok (Some (k, Txt s))) -> remap v (Arr (map Txt l)) = Ok (Arr (map Txt l)).
Proof.
  intros H. rewrite (remap_arr v _ (map (fun s => ("", Txt s)) l)); [now rewrite map_map|].
  induction l as [|s l IH]; [constructor|]. cbn [map]. change (("", Txt s) :: ?x) with (keep (Some ("", Txt s)) x).
  econstructor; [reflexivity|apply H|exact IH].
Qed.
Lemma dset_new k (v : node) d : ~ In k (map fst d) -> dset k v d = (d ++ [(k, v)])%list.
Proof.
  induction d as [|[a b] d IH]; intros N; [reflexivity|]. cbn [dset]. destruct (String.eqb_spec k a) as [->|E].
  - exfalso. apply N. now left.
  - cbn [app]. f_equal. apply IH. intros I0. apply N. now right.
Qed.
Lemma of_items_id l : NoDup (map fst l) -> of_items l = l.
Proof.
  intros ND. unfold of_items. change l with ([] ++ l)%list at 2.
  assert (D : NoDup (map fst ([] ++ l)%list)) by exact ND. clear ND. revert D. generalize (@nil (string * node)) as acc.
  induction l as [|[k v] l IH]; intros acc D; [cbn; now rewrite app_nil_r|]. cbn [fold_left fst snd].
  rewrite dset_new. { rewrite IH by (rewrite <- app_assoc; exact D). now rewrite <- app_assoc. }
  rewrite map_app in D. cbn [map] in D. apply NoDup_remove_2 in D. intros I0. apply D. apply in_or_app. now left.
Qed.

Lemma blank_app a b : blank_free (a ++ b) = blank_free a && blank_free b.
Proof. induction a as [|c a IH]; [reflexivity|]. cbn. rewrite IH. apply andb_assoc. Qed.
Lemma label_blank n s b : blank_free (label n s b) = false.
Proof. unfold label. rewrite blank_app. cbn. now destruct (blank_free n). Qed.
Lemma label_inj n s b m t c : blank_free n = true -> blank_free m = true -> label n s b = label m t c -> n = m.
Proof.
  unfold label. revert m. induction n as [|x n IH]; intros [|y m] A B H; try reflexivity.
  - cbn in H. injection H as <- _. cbn in B. discriminate.
  - cbn in H. injection H as -> _. cbn in A. discriminate.
  - cbn [append] in H. injection H as -> H. cbn in A, B. apply andb_prop in A as [_ A]. apply andb_prop in B as [_ B]. f_equal. now apply (IH m).
Qed.
Lemma butlast_end x c : butlast (x ++ String c "") = x.
Proof.
  induction x as [|d x IH]; [reflexivity|]. cbn [append]. cbn [butlast]. destruct (x ++ String c "") as [|y z] eqn:Q.
  - destruct x; discriminate.
  - now rewrite IH.
Qed.
Lemma app_assoc_s (a b c : string) : (a ++ b) ++ c = a ++ b ++ c.
Proof. induction a as [|d a IH]; [reflexivity|]. cbn. now rewrite IH. Qed.
Lemma prefix_label r n s b : blank_free r = true -> prefix r (label n s b) = prefix r n.
Proof.
  unfold label. revert r. induction n as [|x n IH]; intros r H.
  - destruct r as [|y r]; [reflexivity|]. cbn. cbn in H. apply andb_prop in H as [H _]. destruct (ascii_dec y " ") as [->|]; [discriminate|reflexivity].
  - destruct r as [|y r]; [reflexivity|]. cbn in H. apply andb_prop in H as [_ H]. cbn. destruct (ascii_dec y x); [now apply IH|reflexivity].
Qed.
Lemma mark_label reqs n s : Forall (fun r => blank_free r = true) reqs ->
  mark_key reqs (label n s false) = label n s (existsb (fun r => prefix r n) reqs).
Proof.
  intros F. unfold mark_key.
  replace (existsb (fun r => prefix r (label n s false)) reqs) with (existsb (fun r => prefix r n) reqs).
  - destruct (existsb _ _); [|reflexivity]. unfold label.
    replace (n ++ " (" ++ s ++ ")") with ((n ++ " (" ++ s) ++ ")") by now rewrite !app_assoc_s.
    rewrite butlast_end. now rewrite !app_assoc_s.
  - induction F as [|r l A _ IH]; [reflexivity|]. cbn. now rewrite IH, prefix_label.
Qed.

Section Tree.
  Context (conv : string -> option string).
  Notation get_schema_tree := (get_schema_tree conv).
  Lemma annotation_note k : annotation conv [match k with KTag t => ("tag", Txt t) | KRef r => ("$ref", Txt r) | KType t => ("type", Txt t) end] = Ok (note conv k).
  Proof.
    destruct k as [t|r|t]; cbn.
    - unfold class_of. now destruct (conv t).
    - reflexivity.
    - reflexivity.
  Qed.
  (** The tree of an object lists its properties with their classes; those that begin with a required name are marked. *)
  Definition labels (mark : string -> bool) (ps : list (string * kind)) (val : kind -> node) : list (string * node) :=
    map (fun p => (label (fst p) (match note conv (snd p) with Some s => s | None => "" end) (mark (fst p)), val (snd p))) ps.
  Lemma labels_nodup mark val ps : Forall (fun p => blank_free (fst p) = true) ps -> NoDup (map fst ps) -> NoDup (map fst (labels mark ps val)).
  Proof.
    intros B ND. unfold labels. rewrite map_map. cbn [fst]. induction ps as [|p ps IH]; [constructor|]. cbn [map] in *.
    inversion ND as [|? ? N1 N2]; subst. pose proof (Forall_inv B) as B1. apply Forall_inv_tail in B.
    constructor; [|now apply IH]. intros I0. apply in_map_iff in I0 as (q & Q & I0). rewrite Forall_forall in B.
    apply label_inj in Q; [|now apply B|exact B1]. apply N1. rewrite <- Q. now apply in_map.
  Qed.
  Lemma labels_get k mark val ps : blank_free k = true -> dget k (labels mark ps val) = None.
  Proof.
    intros B. induction ps as [|p ps IH]; [reflexivity|]. cbn [labels map dget]. destruct (String.eqb_spec k (label (fst p) (match note conv (snd p) with Some s => s | None => "" end) (mark (fst p)))) as [->|]; [|exact IH].
    rewrite label_blank in B. discriminate.
  Qed.
  Lemma kind_kept v k : (forall key s, v key (Txt s) = Ok (Some (key, Txt s))) -> remap v (kind_node k) = Ok (kind_node k).
  Proof.
    intros H. unfold kind_node.
    destruct k; (etransitivity; [apply remap_obj; econstructor; [reflexivity|apply H|constructor]|reflexivity]).
  Qed.

  Theorem c132_tree : forall ps reqs, NoDup (map fst ps) -> Forall (fun p => blank_free (fst p) = true) ps ->
    Forall (fun p => note conv (snd p) <> None) ps -> Forall (fun r => blank_free r = true) reqs ->
    get_schema_tree [] (schema ps reqs) = Ok (Obj (labels (fun n => existsb (fun r => prefix r n) reqs) ps (fun _ => Obj []))).
  Proof.
    intros ps reqs ND B A RB. unfold SchemaTreeModel.get_schema_tree, schema.
    (* classes *)
    assert (P1 : remap (resolve_python_classes conv) (Obj (map (fun p => (fst p, kind_node (snd p))) ps)) =
                 Ok (Obj (labels (fun _ => false) ps kind_node))).
    { rewrite (remap_obj _ _ (labels (fun _ => false) ps kind_node)); [now rewrite of_items_id by now apply labels_nodup|].
      clear ND B. induction ps as [|p ps IH]; [constructor|]. pose proof (Forall_inv A) as A1. apply Forall_inv_tail in A. cbn [labels map].
      refine (io_cons _ _ _ _ (Some _) _ _ _ _ (IH A)); [now apply kind_kept|]. cbn beta iota. unfold resolve_python_classes, kind_node.
      rewrite annotation_note. cbn [bind]. destruct (note conv (snd p)) eqn:NT; [reflexivity|contradiction (A1 NT)]. }
    rewrite (remap_arr _ _ [("" ++ " (dict)", Obj [("type", Txt "object"); ("properties", Obj (labels (fun _ => false) ps kind_node)); ("required", Arr (map Txt reqs))])]).
    2:{ refine (ao_cons _ _ _ (Some _) _ _ _ _ (ao_nil _)).
        - etransitivity; [apply remap_obj|reflexivity].
          repeat (econstructor; [first [reflexivity | exact P1 | apply arr_txt; reflexivity]|try reflexivity|]); [|constructor].
          unfold resolve_python_classes, annotation, mark_required. rewrite !labels_get by reflexivity. reflexivity.
        - reflexivity. }
    cbn [bind map snd].
    (* required *)
    assert (P2 : remap mark_required (Obj (labels (fun _ => false) ps kind_node)) = Ok (Obj (labels (fun _ => false) ps kind_node))).
    { rewrite (remap_obj _ _ (labels (fun _ => false) ps kind_node)); [now rewrite of_items_id by now apply labels_nodup|].
      clear. induction ps as [|p ps IH]; [constructor|]. cbn [labels map].
      refine (io_cons _ _ _ _ (Some _) _ _ _ _ IH); [now apply kind_kept|]. now destruct (snd p). }
    set (mk := fun n => existsb (fun r => prefix r n) reqs).
    assert (P3 : mark_props reqs (labels (fun _ => false) ps kind_node) = labels mk ps kind_node).
    { unfold mark_props. rewrite <- (of_items_id (labels mk ps kind_node)) by now apply labels_nodup. f_equal.
      unfold labels. rewrite map_map. apply map_ext. intros p. cbn [fst snd]. now rewrite mark_label. }
    assert (NM : names (map Txt reqs) = reqs) by (clear; induction reqs as [|r l IH]; [reflexivity|]; cbn; now f_equal).
    rewrite (remap_arr _ _ [("", Obj [("type", Txt "object"); ("properties", Obj (labels mk ps kind_node)); ("required", Arr (map Txt reqs))])]).
    2:{ refine (ao_cons _ _ _ (Some _) _ _ _ _ (ao_nil _)).
        - etransitivity; [apply remap_obj|reflexivity].
          repeat (econstructor; [first [reflexivity | exact P2 | apply arr_txt; reflexivity]|try reflexivity|]); [|constructor].
          unfold resolve_python_classes, annotation, mark_required. rewrite !labels_get by reflexivity. reflexivity.
        - cbn. rewrite NM, P3. reflexivity. }
    cbn [bind map snd].
    (* meta *)
    assert (P4 : remap (drop_meta []) (Obj (labels mk ps kind_node)) = Ok (Obj (labels mk ps (fun _ => Obj [])))).
    { rewrite (remap_obj _ _ (labels mk ps (fun _ => Obj []))); [now rewrite of_items_id by now apply labels_nodup|].
      clear. induction ps as [|p ps IH]; [constructor|]. cbn [labels map].
      refine (io_cons _ _ _ _ (Some _) _ _ _ _ IH).
      - destruct (snd p); (etransitivity; [apply remap_obj; econstructor; [reflexivity|reflexivity|constructor]|reflexivity]).
      - unfold drop_meta. destruct (smem _ _) eqn:M; [|reflexivity]. exfalso. unfold smem in M. apply existsb_exists in M as (x & X & Y).
        apply String.eqb_eq in Y. subst x. rewrite app_nil_r in X. pose proof (label_blank (fst p) (match note conv (snd p) with Some s => s | None => "" end) (mk (fst p))) as L.
        cbn [In] in X. destruct X as [X|[X|[X|[X|[X|[]]]]]]; rewrite <- X in L; discriminate. }
    rewrite (remap_arr _ _ [("", Obj [("properties", Obj (labels mk ps (fun _ => Obj []))); ("required", Arr (map Txt reqs))])]).
    2:{ refine (ao_cons _ _ _ (Some _) _ _ _ _ (ao_nil _)).
        - etransitivity; [apply remap_obj|reflexivity].
          repeat (econstructor; [first [reflexivity | exact P4 | idtac]|try reflexivity|]); [|constructor].
          rewrite (remap_arr _ _ (map (fun s => ("", Txt s)) reqs)); [rewrite map_map; reflexivity|].
          clear. induction reqs as [|s l IH]; [constructor|]. cbn [map]. refine (ao_cons _ _ _ (Some _) _ _ _ _ IH); reflexivity.
        - reflexivity. }
    cbn [bind map snd].
    (* properties *)
    assert (P5 : remap drop_properties (Obj (labels mk ps (fun _ => Obj []))) = Ok (Obj (labels mk ps (fun _ => Obj [])))).
    { rewrite (remap_obj _ _ (labels mk ps (fun _ => Obj []))); [now rewrite of_items_id by now apply labels_nodup|].
      clear. induction ps as [|p ps IH]; [constructor|]. cbn [labels map]. refine (io_cons _ _ _ _ (Some _) _ _ _ _ IH); reflexivity. }
    rewrite (remap_arr _ _ [("", Obj (labels mk ps (fun _ => Obj [])))]); [reflexivity|].
    refine (ao_cons _ _ _ (Some _) _ _ _ _ (ao_nil _)).
    - etransitivity; [apply remap_obj|reflexivity].
      repeat (econstructor; [first [reflexivity | exact P5 | apply arr_txt; reflexivity]|try reflexivity|]); [|constructor].
      unfold drop_properties. rewrite !labels_get by reflexivity. reflexivity.
    - reflexivity.
  Qed.
  (** Exactly the required properties are marked if no required name begins another name. *)
  Theorem c132_required : forall ps reqs, NoDup (map fst ps) -> Forall (fun p => blank_free (fst p) = true) ps ->
    Forall (fun p => note conv (snd p) <> None) ps -> Forall (fun r => blank_free r = true) reqs ->
    (forall r p s, In r reqs -> In p ps -> fst p = r ++ s -> s = "") ->
    get_schema_tree [] (schema ps reqs) = Ok (Obj (labels (fun n => if in_dec string_dec n reqs then true else false) ps (fun _ => Obj []))).
  Proof.
    intros ps reqs ND B A RB C. rewrite c132_tree by assumption. do 2 f_equal. unfold labels. apply map_ext_in. intros p P. do 2 f_equal.
    destruct (in_dec string_dec (fst p) reqs) as [I0|N].
    - apply existsb_exists. exists (fst p). split; [exact I0|]. clear. induction (fst p) as [|c s IH]; [reflexivity|]. cbn. destruct (ascii_dec c c); [exact IH|congruence].
    - destruct (existsb _ reqs) eqn:Q; [|reflexivity]. exfalso. apply existsb_exists in Q as (r & R1 & R2).
      destruct (prefix_split _ _ R2) as [s E]. pose proof (C r p s R1 P E) as ->. apply N. rewrite E.
      replace (r ++ "") with r; [exact R1|]. clear. induction r as [|c r IH]; [reflexivity|]. cbn. now rewrite <- IH.
  Qed.
  (** Required names need properties. *)
  Theorem c132_no_properties : forall d reqs key, dget "required" d = Some (Arr reqs) -> dget "properties" d = None ->
    mark_required key (Obj d) = Err KeyError.
  Proof. intros d reqs key A B. unfold mark_required. now rewrite A, B. Qed.
  (** False: optional properties are not marked. *)
  Theorem c132_optional_refuted : exists ps reqs t, get_schema_tree [] (schema ps reqs) = Ok t /\ map fst ps = ["c"; "code_number"] /\ reqs = ["c"] /\
    t = Obj [("c (number, required)", Obj []); ("code_number (str, required)", Obj [])].
  Proof. exists [("c", KType "number"); ("code_number", KType "string")], ["c"]. eexists. repeat split. Qed.
  (** False: the names of the properties are kept; one of another type that is required loses its last letter, and *)
  Theorem c132_type_refuted : get_schema_tree [] (schema [("number_of_passes", KType "integer")] ["number_of_passes"]) =
    Ok (Obj [("number_of_passe, required)", Obj []) ]).
  Proof. reflexivity. Qed.
  (** false: no property is lost. *)
  Theorem c132_lost_refuted : exists ps reqs t, get_schema_tree [] (schema ps reqs) = Ok (Obj t) /\ NoDup (map fst ps) /\
    List.length ps = 2 /\ List.length t = 1.
  Proof.
    exists [("layer1", KType "integer"); ("layer2", KType "integer")], ["layer1"; "layer2"]. eexists. split; [reflexivity|].
    split; [|split; reflexivity]. repeat constructor; cbn; intuition discriminate.
  Qed.
End Tree.
Print Assumptions c132_tree.
Print Assumptions c132_required.
Print Assumptions c132_no_properties.
Print Assumptions c132_optional_refuted.
Print Assumptions c132_type_refuted.
Print Assumptions c132_lost_refuted.
Definition ex_conv (t : string) : option string :=
  if String.eqb t "asdf://weldx.bam.de/weldx/tags/time/time-0.1.*" then Some "Time" else None.
Example ex_c132 : get_schema_tree ex_conv [] (schema
  [("time", KTag "asdf://weldx.bam.de/weldx/tags/time/time-0.1.*"); ("gas", KTag "asdf://weldx.bam.de/weldx/tags/aws/gas-0.1.*");
   ("name", KType "string"); ("b", KRef "asdf://weldx.bam.de/weldx/schemas/x-0.1.0")] ["time"; "b"]) =
  Ok (Obj [("time (Time, required)", Obj []); ("gas (aws/gas-0.1.*)", Obj []); ("name (str)", Obj []); ("b ($x-0.1.0, required)", Obj [])]).
Proof. reflexivity. Qed.

(** Of the tags and references of weldx the text after the prefix remains; other texts
    without a colon remain as they are. *)
Fixpoint colon_free (s : string) : bool :=
  match s with "" => true | String c r => negb (Ascii.eqb c ":") && colon_free r end.
Lemma prefix_app_self : forall a b, prefix a (a ++ b) = true.
Proof.
  induction a as [|c a IH]; intro b; [destruct b; reflexivity|]. cbn.
  destruct (ascii_dec c c); [apply IH|congruence].
Qed.
Lemma drop_app : forall a b, drop (String.length a) (a ++ b) = b.
Proof. induction a; intro b; cbn; [destruct b; reflexivity|apply IHa]. Qed.
Lemma prefix_colon : forall sep s, prefix sep s = true -> colon_free s = true -> colon_free sep = true.
Proof.
  induction sep as [|c sep IH]; intros s P C; [reflexivity|]. destruct s as [|d s]; [discriminate|].
  cbn in P, C |- *. destruct (ascii_dec c d) as [->|]; [|discriminate].
  apply andb_prop in C as [C1 C2]. rewrite C1. now apply (IH s).
Qed.
Lemma after_last_none : forall sep s, colon_free sep = false -> colon_free s = true -> after_last sep s = None.
Proof.
  intros sep s S. induction s as [|c r IH]; intros C; [reflexivity|].
  assert (P : prefix sep (String c r) = false).
  { destruct (prefix sep (String c r)) eqn:P; [|reflexivity]. rewrite (prefix_colon _ _ P C) in S. discriminate. }
  cbn [after_last]. cbn in C. apply andb_prop in C as [_ C]. rewrite (IH C), P. reflexivity.
Qed.
Lemma colon_app : forall a b, colon_free a = true -> colon_free b = true -> colon_free (a ++ b) = true.
Proof.
  induction a; intros b A B; [exact B|]. cbn in *. apply andb_prop in A as [A1 A2]. rewrite A1. now apply IHa.
Qed.
Lemma after_last_cons : forall sep c r, after_last sep (String c r) =
  match after_last sep r with
  | Some t => Some t
  | None => if prefix sep (String c r) then Some (drop (String.length sep) (String c r)) else None
  end.
Proof. reflexivity. Qed.
Theorem c132_class : forall sep, In sep ["asdf://weldx.bam.de/weldx/tags/"; "asdf://weldx.bam.de/weldx/schemas/"] ->
  forall name, colon_free name = true -> split_last sep (sep ++ name) = name /\ split_last sep name = name.
Proof.
  intros sep S name C. assert (S0 : colon_free sep = false) by (destruct S as [<-|[<-|[]]]; reflexivity).
  split; [|unfold split_last; now rewrite after_last_none].
  assert (Rest : exists w, sep = "asdf:" ++ w /\ colon_free w = true).
  { destruct S as [<-|[<-|[]]]; [exists "//weldx.bam.de/weldx/tags/"|exists "//weldx.bam.de/weldx/schemas/"]; split; reflexivity. }
  destruct Rest as (w & E1 & W).
  assert (P := prefix_app_self sep name). assert (D := drop_app sep name).
  assert (N := after_last_none sep (w ++ name) S0 (colon_app w name W C)).
  unfold split_last. replace (after_last sep (sep ++ name)) with (Some name); [reflexivity|].
  rewrite E1 in *. cbn [append] in *.
  do 5 (rewrite after_last_cons). rewrite N.
  rewrite P, D. reflexivity.
Qed.
Print Assumptions c132_class.
Example ex_c132_class : split_last "asdf://weldx.bam.de/weldx/tags/" "asdf://weldx.bam.de/weldx/tags/time-0.1.0" = "time-0.1.0".
Proof. reflexivity. Qed.
