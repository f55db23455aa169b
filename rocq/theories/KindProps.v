(** C141: tags of saved grooves and processes. *)
From Coq Require Import List String Ascii Bool Arith Lia.
From Verif Require Import Base TagModel TagSpec TagFacts TagProps KindModel.
Import ListNotations.
Open Scope string_scope.

(** ** Specification *)
Definition lacks (c : ascii) (s : string) : Prop := ~ In c (list_ascii_of_string s).
Definition slashless (s : string) : Prop := lacks "/" s.
Definition dashless (s : string) : Prop := lacks "-" s.
Definition groove_base : string := "asdf://weldx.bam.de/weldx/tags/groove/iso_9692_1_2013_12/".
Definition processes : list string := ["GMAW"; "CLOOS/spray_arc"; "CLOOS/pulse"].

(** ** Lemmas *)
Lemma lacks_b : forall c s, existsb (Ascii.eqb c) (list_ascii_of_string s) = false -> lacks c s.
Proof.
  intros c s H Hi. assert (existsb (Ascii.eqb c) (list_ascii_of_string s) = true); [|congruence].
  apply existsb_exists. exists c. split; [exact Hi|apply Ascii.eqb_refl].
Qed.
Lemma app_assoc_s : forall a b c : string, (a ++ b) ++ c = a ++ (b ++ c).
Proof. induction a; intros; cbn; [reflexivity|now rewrite IHa]. Qed.
Lemma chars_app : forall a b, list_ascii_of_string (a ++ b) = (list_ascii_of_string a ++ list_ascii_of_string b)%list.
Proof. induction a; intros; cbn; [reflexivity|now rewrite IHa]. Qed.
Lemma app_inj_s : forall a b c : string, a ++ b = a ++ c -> b = c.
Proof. induction a; intros b c H; cbn in H; [exact H|]. injection H as H. now apply IHa. Qed.

Lemma contains_ex : forall sub s, contains sub s = true <-> exists a b, s = a ++ sub ++ b.
Proof.
  intro sub. induction s as [|c r IH].
  - cbn [contains]. rewrite orb_false_r, prefix_ex. split; [intros [b H]; exists "", b; exact H|].
    intros (a & b & H). destruct a; [exists b; exact H|discriminate].
  - cbn [contains]. rewrite orb_true_iff, IH, prefix_ex. split.
    + intros [[b H]|(a & b & H)]; [exists "", b; exact H|]. exists (String c a), b. cbn. now rewrite H.
    + intros (a & b & H). destruct a as [|x a]; [left; exists b; exact H|].
      cbn in H. injection H as <- H. right. now exists a, b.
Qed.
Lemma rpart_none : forall sep s, sep <> "" -> (rpart sep s = None <-> contains sep s = false).
Proof.
  intros sep s Hs. induction s as [|c r IH].
  - cbn. destruct sep; [congruence|]. now split.
  - cbn [rpart contains]. destruct (rpart sep r) as [[a b]|] eqn:Er.
    + split; [discriminate|]. intro H. apply orb_false_iff in H as [_ H]. apply IH in H. discriminate.
    + rewrite (proj1 IH eq_refl), orb_false_r. destruct (prefix sep (String c r)); split; congruence.
Qed.
Lemma drop_app : forall a b, drop (String.length a) (a ++ b) = b.
Proof. induction a; intro b; [reflexivity|apply IHa]. Qed.
Lemma rpart_last_occ : forall sep p q, sep <> "" -> contains sep (drop 1 (sep ++ q)) = false -> rpart sep (p ++ sep ++ q) = Some (p, q).
Proof.
  intros sep p q Hs H. induction p as [|c p IH].
  - cbn [append]. destruct sep as [|x sep]; [congruence|]. cbn [append] in *. cbn [drop] in H.
    cbn [rpart]. apply rpart_none in H; [|discriminate]. rewrite H.
    assert (P : prefix (String x sep) (String x (sep ++ q)) = true) by (apply prefix_ex; exists q; reflexivity). rewrite P.
    f_equal. f_equal. change (drop (String.length (String x sep)) (String x sep ++ q) = q). apply drop_app.
  - cbn [append rpart]. now rewrite IH.
Qed.
Lemma one_char : forall c s, lacks c s -> contains (String c "") s = false.
Proof.
  intros c s H. destruct (contains (String c "") s) eqn:Q; [|reflexivity]. apply contains_ex in Q as (a & b & ->).
  exfalso. apply H. rewrite !chars_app. apply in_or_app. right. now left.
Qed.
Definition slashes (s : string) : nat := count_occ ascii_dec (list_ascii_of_string s) "/"%char.
Lemma slashes_app : forall a b, slashes (a ++ b) = slashes a + slashes b.
Proof. intros. unfold slashes. rewrite chars_app. apply count_occ_app. Qed.
Lemma slashes_0 : forall s, slashless s -> slashes s = 0.
Proof. intros s H. now apply count_occ_not_In. Qed.

Lemma dot_last : forall p q, lacks "." q -> rpart_last "." (p ++ "." ++ q) = q /\ rpart_last "." q = q.
Proof.
  intros p q H. unfold rpart_last. rewrite rpart_last_occ; [|discriminate|now apply one_char].
  split; [reflexivity|]. now rewrite (proj2 (rpart_none "." q ltac:(discriminate)) (one_char _ _ H)).
Qed.

(** ** Texts *)
(** The displayed name of a class is the part of its path after the last dot. *)
Theorem c141_display : forall p q ts, lacks "." q ->
  display_name (TPath (p ++ "." ++ q) :: ts) = Ok q /\ display_name (TPath q :: ts) = Ok q /\ display_name (TClass (p ++ "." ++ q) :: ts) = Ok (p ++ "." ++ q).
Proof. intros p q ts H. cbn [display_name]. destruct (dot_last p q H) as [-> ->]. now repeat split. Qed.
Print Assumptions c141_display.

(** The class of a groove is the part of the tag before the version. *)
Theorem c141_class : forall p name version, slashless name -> slashless version -> dashless version ->
  class_of_tag (p ++ "/iso_9692_1_2013_12/" ++ name ++ "-" ++ version) = name.
Proof.
  intros p name version Hn Hv Hd. unfold class_of_tag, rpart_last. rewrite rpart_last_occ; [|discriminate|].
  - unfold rpart_first. rewrite rpart_last_occ; [reflexivity|discriminate|now apply one_char].
  - destruct (contains _ _) eqn:Q; [|reflexivity]. exfalso. apply contains_ex in Q as (a & b & Q).
    change ("iso_9692_1_2013_12/" ++ name ++ "-" ++ version = a ++ "/iso_9692_1_2013_12/" ++ b) in Q.
    apply (f_equal slashes) in Q. rewrite !slashes_app, (slashes_0 name), (slashes_0 version) in Q by assumption.
    change (slashes "iso_9692_1_2013_12/") with 1 in Q. change (slashes "-") with 0 in Q.
    change (slashes "/iso_9692_1_2013_12/") with 2 in Q. lia.
Qed.
Print Assumptions c141_class.

(** ** Grooves *)
Lemma selection_is : forall cls, In cls groove_names ->
  filter (contains (groove_schema ++ cls)) (removelast (filter (prefix "asdf://") groove_tags)) = [groove_base ++ cls ++ "-0.1.*"].
Proof. intros cls H. repeat (destruct H as [<-|H]; [vm_compute; reflexivity|]). destruct H. Qed.
Lemma groove_plain : forall cls, In cls groove_names -> plain (groove_base ++ cls ++ "-0.1.") /\ slashless cls /\ dashless cls.
Proof.
  intros cls H. unfold plain.
  repeat (destruct H as [<-|H]; [split; [|split]; apply lacks_b; vm_compute; reflexivity|]). destruct H.
Qed.
Lemma select_is : forall cls ext, In cls groove_names ->
  select_groove cls ext = match filter (glob (groove_base ++ cls ++ "-0.1.*")) ext with t :: _ => Ok t | [] => Err IndexError end.
Proof. intros cls ext H. unfold select_groove. rewrite (selection_is cls H). reflexivity. Qed.
Lemma glob_is : forall cls t, In cls groove_names ->
  (glob (groove_base ++ cls ++ "-0.1.*") t = true <-> exists v, t = groove_base ++ cls ++ "-0.1." ++ v /\ slashless v).
Proof.
  intros cls t H. destruct (groove_plain cls H) as (Pl & _).
  assert (A1 : forall x, (groove_base ++ cls ++ "-0.1.") ++ x = groove_base ++ cls ++ "-0.1." ++ x) by (intro x; now rewrite !app_assoc_s).
  pose proof (c92_versions (groove_base ++ cls ++ "-0.1.") t Pl) as K. rewrite (A1 "*") in K.
  assert (A2 : "-0.1." ++ "*" = "-0.1.*") by reflexivity. rewrite A2 in K.
  assert (A3 : forall x, uri_match (PStr x) t = glob x t) by (intro x; reflexivity). rewrite A3 in K.
  rewrite K. split; intros (v & Q & S); exists v; (split; [|exact S]); [now rewrite <- A1|now rewrite A1].
Qed.
(** A groove gets the first tag of the extension with its class and a version 0.1.*. *)
Theorem c141_select : forall cls ext, In cls groove_names ->
  let tag v := groove_base ++ cls ++ "-0.1." ++ v in
  match select_groove cls ext with
  | Ok t => exists l r v, ext = (l ++ t :: r)%list /\ t = tag v /\ slashless v /\ (forall v', slashless v' -> ~ In (tag v') l)
  | Err e => e = IndexError /\ forall v, slashless v -> ~ In (tag v) ext
  end.
Proof.
  intros cls ext H tag. rewrite (select_is cls ext H).
  assert (M : forall t, glob (groove_base ++ cls ++ "-0.1.*") t = true <-> exists v, t = tag v /\ slashless v).
  { intro t. now apply glob_is. }
  clearbody tag. generalize dependent (groove_base ++ cls ++ "-0.1.*"). intros pat M.
  induction ext as [|t ext IH]; cbn [filter].
  - split; [reflexivity|]. intros v _ [].
  - destruct (glob pat t) eqn:G.
    + apply M in G as (v & Q & S). exists [], ext, v. split; [reflexivity|]. split; [exact Q|]. split; [exact S|]. intros v' _ [].
    + assert (N : forall v, slashless v -> t <> tag v).
      { intros v S Q. assert (X : glob pat t = true) by (apply M; now exists v). congruence. }
      destruct (filter (glob pat) ext) as [|t0 f].
      * destruct IH as [_ IH]. split; [reflexivity|]. intros v S [Q|Q]; [now apply (N v S)|now apply (IH v S)].
      * destruct IH as (l & r & v & -> & Q & S & F). exists (t :: l), r, v. split; [reflexivity|]. split; [exact Q|]. split; [exact S|].
        intros v' S' [Q'|Q']; [now apply (N v' S')|now apply (F v' S')].
Qed.
Print Assumptions c141_select.

Section Grooves.
  Context {V : Type}.
  Variable classes : dict (fields V).

  Lemma dget_node : forall (d : dict (option V)) k, NoDup (map fst d) -> dget k (node_of d) = match dget k d with Some o => o | None => None end.
  Proof.
    induction d as [|[x o] d IH]; intros k N; [reflexivity|]. inversion N as [|? ? N1 N2]; subst. cbn.
    assert (Out : dget x (node_of d) = None).
    { rewrite IH by assumption. destruct (dget x d) eqn:Q; [|reflexivity]. exfalso. apply N1.
      clear - Q. induction d as [|[y o'] d IH]; [discriminate|]. cbn in *. destruct (String.eqb_spec x y); [now left|right; now apply IH]. }
    destruct o as [v|]; cbn.
    - destruct (String.eqb k x); [reflexivity|now apply IH].
    - destruct (String.eqb_spec k x) as [->|]; [exact Out|now apply IH].
  Qed.
  Lemma fill_ok : forall (fs : fields V) (n : dict V) d, map fst fs = map fst d ->
    (forall k o, In (k, o) d -> dget k n = o) -> Forall2 (fun f kv => snd kv = None -> snd f = Some None) fs d -> fill fs n = Ok d.
  Proof.
    induction fs as [|[k df] fs IH]; intros n d E0 G F; destruct d as [|[k' o] d]; try discriminate; [reflexivity|].
    cbn in E0. injection E0 as <- E0. inversion F as [|? ? ? ? F1 F2]; subst. cbn [fill]. rewrite (G k o (or_introl eq_refl)).
    specialize (IH n d E0 (fun k0 o0 H => G k0 o0 (or_intror H)) F2). destruct o as [v|].
    - now rewrite IH.
    - cbn in F1. rewrite (F1 eq_refl). now rewrite IH.
  Qed.

  (** A groove is loaded as it was saved, if it has a default for whatever is None and the
      version of the tag has no dash. *)
  Theorem c141_groove : forall g ext t n fs, In (g_class g) groove_names -> dget (g_class g) classes = Some fs ->
    map fst fs = map fst (g_fields g) -> NoDup (map fst fs) ->
    Forall2 (fun f kv => snd kv = None -> snd f = Some None) fs (g_fields g) ->
    (forall u, In u ext -> forall v, u = groove_base ++ g_class g ++ "-0.1." ++ v -> dashless v) ->
    save_groove ext g = Ok (t, n) -> load_groove classes t n = Ok g.
  Proof.
    intros g ext t n fs H Hc E0 Nd F Dv S. unfold save_groove in S.
    pose proof (c141_select (g_class g) ext H) as K. cbv zeta in K.
    destruct (select_groove (g_class g) ext) as [t'|e]; [|discriminate]. cbn [bind] in S. injection S as -> <-.
    destruct K as (l & r & v & Ee & Et & Sl & _). destruct (groove_plain _ H) as (_ & S1 & S2).
    assert (Hv : dashless v) by (apply (Dv t); [rewrite Ee; apply in_or_app; right; now left|exact Et]).
    assert (C : class_of_tag t = g_class g).
    { rewrite Et. unfold groove_base. change "asdf://weldx.bam.de/weldx/tags/groove/iso_9692_1_2013_12/"
        with ("asdf://weldx.bam.de/weldx/tags/groove" ++ "/iso_9692_1_2013_12/"). rewrite app_assoc_s.
      change ("-0.1." ++ v) with ("-" ++ ("0.1." ++ v)). apply c141_class; [exact S1| |].
      - unfold slashless, lacks. rewrite chars_app. intro Q. apply in_app_or in Q as [Q|Q]; [|now apply Sl]. revert Q. apply lacks_b. reflexivity.
      - unfold dashless, lacks. rewrite chars_app. intro Q. apply in_app_or in Q as [Q|Q]; [|now apply Hv]. revert Q. apply lacks_b. reflexivity. }
    unfold load_groove. rewrite C, Hc. unfold construct.
    assert (Fa : forallb (fun kv => smem (fst kv) (map fst fs)) (node_of (g_fields g)) = true).
    { apply forallb_forall. intros [k x] Hx. unfold node_of in Hx. apply in_flat_map in Hx as ([k' o] & Hi & Hx).
      destruct o; [|destruct Hx]. destruct Hx as [Q|[]]. injection Q as <- <-. cbn [fst]. rewrite E0. unfold smem. apply existsb_exists.
      exists k'. split; [now apply (in_map fst) in Hi|apply String.eqb_refl]. }
    rewrite Fa. rewrite (fill_ok fs _ (g_fields g)); [cbn [bind]; now destruct g|exact E0| |exact F].
    rewrite E0 in Nd. intros k o Hi. rewrite dget_node by exact Nd.
    assert (Q : dget k (g_fields g) = Some o).
    { clear - Hi Nd. induction (g_fields g) as [|[y o'] d IH]; [destruct Hi|]. inversion Nd as [|? ? N1 N2]; subst. cbn.
      destruct Hi as [Q|Q]; [injection Q as -> ->; now rewrite String.eqb_refl|].
      destruct (String.eqb_spec k y) as [->|]; [exfalso; apply N1; now apply (in_map fst) in Q|now apply IH]. }
    now rewrite Q.
  Qed.

  (** Tags of unknown classes and nodes without a required field. *)
  Theorem c141_unknown : forall tag n, dget (class_of_tag tag) classes = None -> load_groove classes tag n = Err KeyError.
  Proof. intros tag n H. unfold load_groove. now rewrite H. Qed.
  Theorem c141_required : forall tag n fs k, dget (class_of_tag tag) classes = Some fs -> In (k, None) fs -> dget k n = None ->
    load_groove classes tag n = Err TypeError.
  Proof.
    intros tag n fs k H Hi Hn. unfold load_groove. rewrite H. unfold construct. destruct (forallb _ n); [|reflexivity].
    assert (Q : fill fs n = Err TypeError); [|now rewrite Q].
    clear H. induction fs as [|[x o] fs IH]; [destruct Hi|]. cbn [fill]. destruct Hi as [Q|Q].
    - injection Q as -> ->. now rewrite Hn.
    - rewrite (IH Q). destruct (dget x n); [reflexivity|]. now destruct o.
  Qed.
End Grooves.
Print Assumptions c141_groove.
Print Assumptions c141_unknown.
Print Assumptions c141_required.

(** ** GMAW processes *)
Lemma app_cut : forall a b c d : string, a ++ b = c ++ d ->
  (exists k, a = c ++ k /\ d = k ++ b) \/ (exists k, c = a ++ k /\ b = k ++ d).
Proof.
  induction a as [|x a IH]; intros b c d H; [right; exists c; now split|].
  destruct c as [|y c]; [left; exists (String x a); now split|]. cbn in H. injection H as -> H.
  destruct (IH b c d H) as [(k & -> & ->)|(k & -> & ->)]; [left|right]; now exists k.
Qed.
Lemma process_tag : forall tag base, (exists v, tag ++ "-0.1.0" = base ++ "-0.1." ++ v /\ slashless v) <->
  tag = base \/ exists v, tag = base ++ "-0.1." ++ v /\ slashless v.
Proof.
  intros tag base. split.
  - intros (v & H & Sv). apply app_cut in H as [(k & -> & H)|(k & -> & H)].
    + apply app_cut in H as [(k' & E1 & E2)|(k' & E1 & E2)].
      * destruct k as [|a k]; [left; apply app_nil_str|].
        destruct k as [|a1 [|a2 [|a3 [|a4 k]]]]; cbn in E1;
          try (injection E1 as; subst; cbn in E2; discriminate).
        injection E1 as; subst. destruct k; [|discriminate]. right. exists "". split; [reflexivity|intros []].
      * right. exists k'. split; [now rewrite E1|]. intro Q. apply Sv. rewrite E2, chars_app. apply in_or_app. now left.
    + destruct k as [|a k]; [left; now rewrite app_nil_str|]. exfalso.
      apply (f_equal String.length) in H as L. cbn in L.
      assert (forall a b, String.length (a ++ b) = String.length a + String.length b) as La by (induction a0; intros; cbn; auto).
      rewrite La in L. cbn in L. destruct k; [|cbn in L; lia]. cbn in H. injection H as <- H. discriminate.
  - intros [->|(v & -> & Sv)].
    + exists "0". split; [reflexivity|]. apply lacks_b. reflexivity.
    + exists (v ++ "-0.1.0"). split; [now rewrite !app_assoc_s|]. unfold slashless, lacks. rewrite chars_app. intro Q.
      apply in_app_or in Q as [Q|Q]; [now apply Sv|revert Q; apply lacks_b; reflexivity].
Qed.
Lemma uri_list : forall l t, uri_match (PList l) t = true <-> exists p, In p l /\ uri_match (PStr p) t = true.
Proof. intros l t. unfold uri_match. rewrite existsb_exists. reflexivity. Qed.
Lemma process_match : forall base tag, plain base ->
  (uri_match (PStr (("asdf://weldx.bam.de/weldx/tags/process/" ++ base ++ "-0.1.") ++ "*")) ("asdf://weldx.bam.de/weldx/tags/process/" ++ tag ++ "-0.1.0") = true <->
   tag = base \/ exists v, tag = base ++ "-0.1." ++ v /\ slashless v).
Proof.
  intros base tag P. rewrite <- process_tag. rewrite c92_versions.
  - split; intros (v & Q & S); exists v; (split; [|exact S]).
    + rewrite !app_assoc_s in Q. now apply app_inj_s in Q.
    + rewrite Q. now rewrite !app_assoc_s.
  - unfold plain. rewrite !chars_app. intro Q. apply in_app_or in Q as [Q|Q]; [revert Q; apply lacks_b; reflexivity|].
    apply in_app_or in Q as [Q|Q]; [now apply P|revert Q; apply lacks_b; reflexivity].
Qed.
Lemma select_gmaw_is : forall tag, select_gmaw tag =
  if uri_match (PList gmaw_tags) ("asdf://weldx.bam.de/weldx/tags/process/" ++ tag ++ "-0.1.0")
  then Ok ("asdf://weldx.bam.de/weldx/tags/process/" ++ tag ++ "-0.1.0") else Err ValueError.
Proof.
  intro tag. unfold select_gmaw, format_tag.
  assert (Q : ("asdf://weldx.bam.de/weldx/tags/" ++ "process/" ++ tag) ++ "-" ++ "0.1.0" = "asdf://weldx.bam.de/weldx/tags/process/" ++ tag ++ "-0.1.0").
  { rewrite !app_assoc_s. reflexivity. }
  now rewrite Q.
Qed.
(** The tags of processes that are accepted: the three known ones, and those followed by
    a version. *)
Theorem c141_process : forall tag, 
  (exists b, In b processes /\ (tag = b \/ exists v, tag = b ++ "-0.1." ++ v /\ slashless v)) /\
    select_gmaw tag = Ok ("asdf://weldx.bam.de/weldx/tags/process/" ++ tag ++ "-0.1.0") \/
  (forall b, In b processes -> tag <> b /\ forall v, slashless v -> tag <> b ++ "-0.1." ++ v) /\ select_gmaw tag = Err ValueError.
Proof.
  intro tag. rewrite select_gmaw_is. set (t := "asdf://weldx.bam.de/weldx/tags/process/" ++ tag ++ "-0.1.0").
  assert (M : uri_match (PList gmaw_tags) t = true <-> exists b, In b processes /\ (tag = b \/ exists v, tag = b ++ "-0.1." ++ v /\ slashless v)).
  { rewrite uri_list.
    assert (E0 : gmaw_tags = map (fun b => ("asdf://weldx.bam.de/weldx/tags/process/" ++ b ++ "-0.1.") ++ "*") processes) by reflexivity.
    rewrite E0.
    assert (Pl : forall b, In b processes -> plain b).
    { intros b H. repeat (destruct H as [<-|H]; [apply lacks_b; reflexivity|]). destruct H. }
    split.
    - intros (p & Hp & H). apply in_map_iff in Hp as (b & <- & Hb). exists b. split; [exact Hb|]. now apply process_match in H; [|apply Pl].
    - intros (b & Hb & H). exists (("asdf://weldx.bam.de/weldx/tags/process/" ++ b ++ "-0.1.") ++ "*").
      split; [apply in_map_iff; now exists b|]. apply process_match; [now apply Pl|exact H]. }
  destruct (uri_match (PList gmaw_tags) t).
  - left. split; [now apply M|reflexivity].
  - right. split; [|reflexivity]. intros b Hb. split.
    + intro Q. assert (false = true); [|discriminate]. apply M. exists b. auto.
    + intros v S Q. assert (false = true); [|discriminate]. apply M. exists b. split; [exact Hb|]. right. now exists v.
Qed.
Print Assumptions c141_process.

Section Gmaw.
  Context {TS Val B M : Type}.
  Variable series : Val -> res TS.

  (** All parameters become time series, in the same order; time series are kept. *)
  Theorem c141_parameters : forall (b : B) (ps : dict (pvalue TS Val)) tag (meta : option M) p,
    new_gmaw series b ps tag meta = Ok p ->
    p_base p = b /\ p_meta p = meta /\ (tag = None -> p_tag p = "GMAW") /\ (forall t, tag = Some t -> p_tag p = t) /\
    Forall2 (fun i o => fst i = fst o /\ match snd i with PSeries t => snd o = t | POther v => series v = Ok (snd o) end) ps (p_params p).
  Proof.
    intros b ps tag meta p H. unfold new_gmaw in H. destruct (convert series ps) as [d|] eqn:Ec; [|discriminate].
    cbn [bind] in H. injection H as <-. cbn. split; [reflexivity|]. split; [reflexivity|].
    split; [intros ->; reflexivity|]. split; [intros t ->; reflexivity|].
    revert d Ec. induction ps as [|[k [t|v]] ps IH]; intros d Ec; cbn [convert] in Ec.
    - injection Ec as <-. constructor.
    - destruct (convert series ps); [|discriminate]. cbn [bind] in Ec. injection Ec as <-. constructor; [now split|]. now apply IH.
    - destruct (series v) eqn:Ev; [|discriminate]. cbn [bind] in Ec. destruct (convert series ps); [|discriminate]. cbn [bind] in Ec.
      injection Ec as <-. constructor; [now split|]. now apply IH.
  Qed.
  (** A process that can be saved is loaded unchanged. *)
  Theorem c141_gmaw : forall (p : gmaw TS B M) t n, save_gmaw p = Ok (t, n) -> load_gmaw series t n = Ok p.
  Proof.
    intros [b ps tag meta] t n H. unfold save_gmaw in H. cbn in H. destruct (select_gmaw tag); [|discriminate].
    cbn [bind] in H. injection H as <- <-. unfold load_gmaw, new_gmaw. cbn.
    assert (Q : convert series (map (fun kv => (fst kv, PSeries (snd kv))) ps) = Ok ps); [|now rewrite Q].
    induction ps as [|[k x] ps IH]; [reflexivity|]. cbn. now rewrite IH.
  Qed.
End Gmaw.
Print Assumptions c141_parameters.
Print Assumptions c141_gmaw.

(** ** Arc welding processes *)
Lemma dget_in : forall (d : dict string) k v, dget k d = Some v -> In (k, v) d.
Proof.
  induction d as [|[x y] d IH]; intros k v H; [discriminate|]. cbn in H.
  destruct (String.eqb_spec k x) as [->|]; [injection H as ->; now left|right; now apply IH].
Qed.
(** Name and abbreviation determine each other, and each of them the process. *)
Theorem c141_arc : forall s a, new_arc s = Ok a ->
  (s = arc_name a \/ s = arc_abbr a) /\ new_arc (arc_name a) = Ok a /\ new_arc (arc_abbr a) = Ok a /\ load_arc (save_arc a) = Ok a.
Proof.
  intros s a H. unfold new_arc in H. destruct (dget s name_to_abbr) as [x|] eqn:E1.
  - injection H as <-. apply dget_in in E1.
    repeat (destruct E1 as [Q|E1]; [injection Q as <- <-; split; [now left|vm_compute; now repeat split]|]). destruct E1.
  - destruct (dget s abbr_to_name) as [n|] eqn:E2; [|discriminate]. injection H as <-. apply dget_in in E2. clear E1.
    repeat (destruct E2 as [Q|E2]; [injection Q as <- <-; split; [now right|vm_compute; now repeat split]|]). destruct E2.
Qed.
Print Assumptions c141_arc.
(** All names and abbreviations are known. *)
Theorem c141_arc_known : forall n a, In (n, a) name_to_abbr -> new_arc n = Ok (Arc n a) /\ new_arc a = Ok (Arc n a).
Proof. intros n a H. repeat (destruct H as [Q|H]; [injection Q as <- <-; split; reflexivity|]). destruct H. Qed.
Print Assumptions c141_arc_known.
(** Everything else is a ValueError. *)
Theorem c141_arc_unknown : forall s, (forall n a, In (n, a) name_to_abbr -> s <> n /\ s <> a) -> new_arc s = Err ValueError.
Proof.
  intros s H. unfold new_arc. destruct (dget s name_to_abbr) as [x|] eqn:E1.
  - apply dget_in in E1. now destruct (H s x E1).
  - destruct (dget s abbr_to_name) as [n|] eqn:E2; [|reflexivity]. apply dget_in in E2.
    assert (In (n, s) name_to_abbr) as K.
    { clear E1 H. repeat (destruct E2 as [Q|E2]; [injection Q as <- <-; vm_compute; auto 20|]). destruct E2. }
    now destruct (H n s K).
Qed.
Print Assumptions c141_arc_unknown.

(** ** Examples *)
Definition manifest : list string := map (fun g => groove_base ++ g ++ "-0.1.0") groove_names.
Example select_ex : forallb (fun g => match select_groove g manifest with
    Ok t => String.eqb t (groove_base ++ g ++ "-0.1.0") && String.eqb (class_of_tag t) g | Err _ => false end) groove_names = true.
Proof. vm_compute. reflexivity. Qed.
Definition front_class : fields nat :=
  [("t_1", None); ("t_2", Some None); ("alpha", Some None); ("code_number", Some None); ("b", Some None); ("e", Some None)].
Definition v_class : fields nat := [("t", None); ("alpha", None); ("c", Some (Some 0)); ("b", Some (Some 0)); ("code_number", Some (Some 13))].
Definition classes_ex : dict (fields nat) := [("FFGroove", front_class); ("VGroove", v_class)].
Example groove_ex : let g := Groove "FFGroove" [("t_1", Some 2); ("t_2", None); ("alpha", Some 1); ("code_number", Some 311); ("b", Some 1); ("e", None)] in
  bind (save_groove manifest g) (fun tn => load_groove classes_ex (fst tn) (snd tn)) = Ok g.
Proof. vm_compute. reflexivity. Qed.
Example arc_ex : new_arc "SAW-S" = Ok (Arc "submergedArcWeldingSeries" "SAW-S") /\ new_arc "MAG" = Err ValueError.
Proof. split; reflexivity. Qed.
Example display_ex : display_name [TPath "weldx.time.Time"] = Ok "Time".
Proof. reflexivity. Qed.

(** ** False claims *)
(** A groove is loaded as it was saved: None becomes the default. *)
Theorem c141_default_refuted :
  exists (g g' : groove nat) t n, save_groove manifest g = Ok (t, n) /\ load_groove classes_ex t n = Ok g' /\
    dget "code_number" (g_fields g) = Some None /\ dget "code_number" (g_fields g') = Some (Some 13).
Proof.
  exists (Groove "VGroove" [("t", Some 5); ("alpha", Some 1); ("c", Some 0); ("b", Some 1); ("code_number", None)]).
  eexists _, _, _. split; [vm_compute; reflexivity|]. split; [vm_compute; reflexivity|]. split; reflexivity.
Qed.
Print Assumptions c141_default_refuted.

(** "The generated process tag is not supported": tags that are in no manifest are accepted. *)
Theorem c141_supported_refuted :
  ~ (forall tag t, select_gmaw tag = Ok t -> In tag processes).
Proof.
  intro H. specialize (H "GMAW-0.1.7" _ eq_refl). vm_compute in H. destruct H as [H|[H|[H|[]]]]; discriminate.
Qed.
Print Assumptions c141_supported_refuted.

(** A loaded process is saved with the tag it had: not if the file has no entry for it. *)
Theorem c141_tag_refuted :
  exists (n : gnode nat unit unit) p, load_gmaw (Val := unit) (fun _ => Err TypeError) "asdf://weldx.bam.de/weldx/tags/process/CLOOS/pulse-0.1.0" n = Ok p /\
    bind (save_gmaw p) (fun tn => Ok (fst tn)) = Ok "asdf://weldx.bam.de/weldx/tags/process/GMAW-0.1.0".
Proof. exists (Gn tt [] None None). eexists. split; [reflexivity|]. vm_compute. reflexivity. Qed.
Print Assumptions c141_tag_refuted.

(** Name and abbreviation in a file need not belong together; the abbreviation is not used. *)
Theorem c141_abbreviation_refuted :
  load_arc [("name", "gasMetalArcWelding"); ("abbreviation", "SAW")] = Ok (Arc "gasMetalArcWelding" "GMAW").
Proof. reflexivity. Qed.
Print Assumptions c141_abbreviation_refuted.

(** A tag without a version has no class. *)
Theorem c141_class_without_version : forall p name, slashless name -> dashless name ->
  class_of_tag (p ++ "/iso_9692_1_2013_12/" ++ name) = "".
Proof.
  intros p name Hn Hd. unfold class_of_tag, rpart_last. rewrite rpart_last_occ; [|discriminate|].
  - unfold rpart_first. now rewrite (proj2 (rpart_none "-" name ltac:(discriminate)) (one_char _ _ Hd)).
  - destruct (contains _ _) eqn:Q; [|reflexivity]. exfalso. apply contains_ex in Q as (a & b & Q).
    change ("iso_9692_1_2013_12/" ++ name = a ++ "/iso_9692_1_2013_12/" ++ b) in Q.
    apply (f_equal slashes) in Q. rewrite !slashes_app, (slashes_0 name) in Q by assumption.
    change (slashes "iso_9692_1_2013_12/") with 1 in Q.
    change (slashes "/iso_9692_1_2013_12/") with 2 in Q. lia.
Qed.
Print Assumptions c141_class_without_version.
Example c141_class_without_version_ex :
  class_of_tag "asdf://weldx.bam.de/weldx/tags/groove/iso_9692_1_2013_12/VGroove" = "" /\ slashless "VGroove" /\ dashless "VGroove".
Proof. split; [reflexivity|]. split; vm_compute; intuition discriminate. Qed.

(** A saved arc welding process has its name and its abbreviation under these keys, and nothing else. *)
Theorem c141_arc_saved : forall a,
  dget "name" (save_arc a) = Some (arc_name a) /\ dget "abbreviation" (save_arc a) = Some (arc_abbr a) /\
  forall k, k <> "name" -> k <> "abbreviation" -> dget k (save_arc a) = None.
Proof.
  intro a. split; [reflexivity|]. split; [reflexivity|]. intros k H1 H2. unfold save_arc. cbn [dget].
  apply String.eqb_neq in H1, H2. now rewrite H1, H2.
Qed.
Print Assumptions c141_arc_saved.
