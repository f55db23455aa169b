(** C145: converter classes and their registration. *)
From Coq Require Import List String Bool Arith Lia.
From Verif Require Import Base TagModel KindModel SerialModel SerialSpec SerialFacts ConvModel ConvSpec.
Import ListNotations.
Open Scope string_scope.

(** ** Metadata is handled once, however often the methods are wrapped *)
Lemma dget_ddel : forall (V : Type) k j (d : dict V), dget k (ddel j d) = if String.eqb j k then None else dget k d.
Proof.
  intros V k j d. unfold ddel. induction d as [|[a v] d IH]; cbn [filter dget fst].
  - now destruct (String.eqb j k).
  - destruct (String.eqb_spec j a) as [->|N]; cbn [negb].
    + rewrite IH. rewrite (String.eqb_sym k a). now destruct (String.eqb a k).
    + cbn [dget]. rewrite IH. destruct (String.eqb_spec k a) as [->|M]; [|reflexivity].
      now destruct (String.eqb_spec j a).
Qed.
Lemma ddel_twice : forall (V : Type) k (d : dict V), ddel k (ddel k d) = ddel k d.
Proof.
  intros V k d. unfold ddel. induction d as [|p d IH]; [reflexivity|]. cbn [filter].
  destruct (negb (String.eqb k (fst p))) eqn:E; [|exact IH]. cbn [filter]. now rewrite E, IH.
Qed.
Lemma ddel_comm : forall (V : Type) k j (d : dict V), ddel k (ddel j d) = ddel j (ddel k d).
Proof.
  intros V k j d. unfold ddel. induction d as [|p d IH]; [reflexivity|]. cbn [filter].
  destruct (negb (String.eqb k (fst p))) eqn:E; destruct (negb (String.eqb j (fst p))) eqn:F; cbn [filter]; rewrite ?E, ?F, ?IH; reflexivity.
Qed.
Lemma from_again : forall t t' m u, from_metadata t = (t', m, u) -> from_metadata t' = (t', None, None).
Proof.
  intros t t' m u H. destruct t as [|n|l|d]; cbn in H; injection H as <- <- <-; try reflexivity.
  unfold from_metadata. rewrite !dget_ddel. cbn [String.eqb].
  replace (String.eqb USER META) with false by reflexivity. replace (String.eqb META USER) with false by reflexivity.
  rewrite !String.eqb_refl. cbn [nonempty].
  rewrite (ddel_comm _ META USER), (ddel_twice _ META), (ddel_twice _ USER). reflexivity.
Qed.
Theorem c145_from_once : forall f t, wrap_from (wrap_from f) t = wrap_from f t.
Proof.
  intros f t. unfold wrap_from. destruct (from_metadata t) as [[t' m] u] eqn:E. rewrite (from_again _ _ _ _ E).
  destruct (f t') as [o|e]; reflexivity.
Qed.
Print Assumptions c145_from_once.

Lemma drop_drop : forall y, drop (drop y) = drop y.
Proof. intros y. apply drop_id, drop_complete. Qed.
(** the entries of a dropped dictionary *)
Definition kept (d : dict yaml) : dict yaml := map (fun p => (fst p, drop (snd p))) (filter (fun p => negb (is_none (snd p))) d).
Lemma drop_kept : forall d, drop (YDict d) = YDict (kept d).
Proof. exact drop_dict. Qed.
Lemma none_drop : forall y, is_none (drop y) = is_none y.
Proof. intros []; reflexivity. Qed.
Lemma kept_twice : forall d, kept (kept d) = kept d.
Proof.
  intros d. unfold kept. induction d as [|[k y] d IH]; [reflexivity|]. cbn [filter snd]. destruct (negb (is_none y)) eqn:E; [|exact IH].
  cbn [map filter fst snd]. rewrite none_drop, E. cbn [map fst snd]. rewrite drop_drop, IH. reflexivity.
Qed.
(** setting an entry that is there already *)
Lemma kept_again : forall k a b d, is_none a = false -> drop b = drop a -> dget k d = Some b -> kept (dset k a d) = kept d.
Proof.
  intros k a b d N B. assert (NB : is_none b = false) by (rewrite <- none_drop, B, none_drop; exact N).
  induction d as [|[j y] d IH]; [discriminate|]. cbn [dget dset].
  destruct (String.eqb_spec k j) as [->|M].
  - intros E. injection E as ->. unfold kept. cbn [filter snd]. rewrite N, NB. cbn [negb map fst snd]. now rewrite B.
  - intros E. unfold kept in *. cbn [filter snd]. destruct (is_none y); cbn [negb]; [apply IH, E|]. cbn [map fst snd]. f_equal. apply IH, E.
Qed.
Lemma dget_dset : forall (V : Type) k j (v : V) d, dget k (dset j v d) = if String.eqb k j then Some v else dget k d.
Proof.
  intros V k j v d. induction d as [|[a x] d IH]; cbn [dset].
  - cbn. destruct (String.eqb k j); reflexivity.
  - destruct (String.eqb_spec j a) as [->|N]; cbn [dget].
    + now destruct (String.eqb k a).
    + rewrite IH. destruct (String.eqb_spec k a) as [->|M]; [|reflexivity]. destruct (String.eqb_spec a j); congruence.
Qed.
Lemma dget_kept : forall k a d, is_none a = false -> dget k d = Some a -> dget k (kept d) = Some (drop a).
Proof.
  intros k a d N. induction d as [|[j y] d IH]; [discriminate|]. cbn [dget]. unfold kept. cbn [filter snd].
  destruct (String.eqb_spec k j) as [->|M].
  - intros E. injection E as ->. rewrite N. cbn [negb map fst snd dget]. now rewrite String.eqb_refl.
  - intros E. destruct (is_none y); cbn [negb]; [apply IH, E|]. cbn [map fst snd dget]. destruct (String.eqb_spec k j); [congruence|]. apply IH, E.
Qed.
Lemma truthy_some : forall a, truthy a = true -> is_none a = false.
Proof. intros []; [discriminate|reflexivity..]. Qed.

Lemma assign_dict : forall k a d, assign k a (Ok (YDict d)) = Ok (YDict (match nonempty a with Some x => dset k x d | None => d end)).
Proof. intros k [a|] d; cbn; [|reflexivity]. now destruct (truthy a). Qed.
Lemma nonempty_some : forall a x, nonempty a = Some x -> is_none x = false.
Proof. intros [a|] x; cbn; [|discriminate]. destruct (truthy a) eqn:T; [|discriminate]. intros E. injection E as <-. now apply truthy_some. Qed.
Definition put (k : string) (a : option yaml) (d : dict yaml) : dict yaml := match nonempty a with Some x => dset k x d | None => d end.
Lemma to_dict : forall d m u, to_metadata (YDict d) m u = Ok (YDict (kept (put USER u (put META m d)))).
Proof. intros d m u. unfold to_metadata. rewrite !assign_dict. cbn [bind]. now rewrite drop_kept. Qed.
Lemma kept_put : forall k a d, (forall x, nonempty a = Some x -> exists b, dget k d = Some b /\ drop b = drop x) -> kept (put k a d) = kept d.
Proof.
  intros k a d H. unfold put. destruct (nonempty a) as [x|] eqn:E; [|reflexivity]. destruct (H x eq_refl) as (b & G & B).
  eapply kept_again; [eapply nonempty_some, E|exact B|exact G].
Qed.
Lemma to_again : forall t m u t', to_metadata t m u = Ok t' -> to_metadata t' m u = Ok t'.
Proof.
  intros t m u t' H. destruct t as [|n|l|d]; cycle 3.
  - rewrite to_dict in H. injection H as <-. rewrite to_dict. do 2 f_equal. set (d1 := put USER u (put META m d)).
    assert (GM : forall x, nonempty m = Some x -> dget META d1 = Some x).
    { intros x X. unfold d1, put. rewrite X. destruct (nonempty u); [rewrite dget_dset; replace (String.eqb META USER) with false by reflexivity|];
        rewrite dget_dset, String.eqb_refl; reflexivity. }
    assert (GU : forall x, nonempty u = Some x -> dget USER d1 = Some x).
    { intros x X. unfold d1, put at 1. rewrite X, dget_dset, String.eqb_refl. reflexivity. }
    rewrite kept_put, kept_put; [apply kept_twice| |].
    + intros x X. exists (drop x). split; [|apply drop_drop]. apply dget_kept; [eapply nonempty_some, X|apply GM, X].
    + intros x X. exists (drop x). split; [|apply drop_drop]. unfold put. pose proof (dget_kept _ _ _ (nonempty_some _ _ X) (GU x X)) as K.
      destruct (nonempty m); [rewrite dget_dset; replace (String.eqb USER META) with false by reflexivity|]; exact K.
  - unfold to_metadata, assign in *. destruct m as [m|]; [destruct (truthy m)|]; cbn [bind] in H; try discriminate;
      (destruct u as [u|]; [destruct (truthy u)|]; cbn [bind] in H; try discriminate); injection H as <-; reflexivity.
  - unfold to_metadata, assign in *. destruct m as [m|]; [destruct (truthy m)|]; cbn [bind] in H; try discriminate;
      (destruct u as [u|]; [destruct (truthy u)|]; cbn [bind] in H; try discriminate); injection H as <-; reflexivity.
  - unfold to_metadata, assign in *. destruct m as [m|]; [destruct (truthy m)|]; cbn [bind] in H; try discriminate;
      (destruct u as [u|]; [destruct (truthy u)|]; cbn [bind] in H; try discriminate); injection H as <-;
      exact (f_equal (@Ok yaml) (drop_drop (YList l))).
Qed.
Theorem c145_to_once : forall f o, wrap_to (wrap_to f) o = wrap_to f o.
Proof.
  intros f o. unfold wrap_to. destruct (f o) as [t|e]; [|reflexivity]. cbn [bind].
  destruct (to_metadata t (o_meta o) (o_user o)) as [t'|e] eqn:E; [|reflexivity]. cbn [bind]. eapply to_again, E.
Qed.
Print Assumptions c145_to_once.

(** Reading: the method gets the tree without the two entries; an entry that is there and
    is not empty becomes the attribute, otherwise the attribute is what the method made of
    it; the value is the one of the method. Other trees are handed over as they are. *)
Definition entry_or (e : option yaml) (a : option yaml) : option yaml :=
  match e with
  | None | Some YNone | Some (YLeaf 0) | Some (YList []) | Some (YDict []) => a
  | Some x => Some x
  end.
Theorem c145_reading : forall f d,
  match f (YDict (filter (fun p => negb (String.eqb "wx_metadata" (fst p) || String.eqb "wx_user" (fst p))) d)) with
  | Ok o => wrap_from f (YDict d) =
      Ok (Obj (o_value o) (entry_or (dget "wx_metadata" d) (o_meta o)) (entry_or (dget "wx_user" d) (o_user o)))
  | Err e => wrap_from f (YDict d) = Err e
  end.
Proof.
  intros f d. unfold wrap_from, from_metadata.
  replace (ddel USER (ddel META d)) with
    (filter (fun p => negb (String.eqb "wx_metadata" (fst p) || String.eqb "wx_user" (fst p))) d).
  2:{ unfold ddel, META, USER. induction d as [|p d IH]; [reflexivity|]. cbn [filter].
      destruct (String.eqb "wx_metadata" (fst p)) eqn:A; cbn [orb negb filter].
      - exact IH.
      - destruct (String.eqb "wx_user" (fst p)) eqn:B; cbn [orb negb]; [exact IH|]. now rewrite IH. }
  rewrite dget_ddel. change (String.eqb META USER) with false. cbv iota.
  destruct (f _) as [o|e]; [|reflexivity]. cbn [bind].
  unfold META, USER. destruct o as [v m u].
  destruct (dget "wx_metadata" d) as [[|[|n]|[|x l]|[|x l]]|], (dget "wx_user" d) as [[|[|n']|[|x' l']|[|x' l']]|]; reflexivity.
Qed.
Print Assumptions c145_reading.
Theorem c145_reading_other : forall f t, (forall d, t <> YDict d) -> wrap_from f t = f t.
Proof.
  intros f [|n|l|d] N; try (unfold wrap_from; cbn [from_metadata]; now destruct (f _)).
  now destruct (N d).
Qed.
Print Assumptions c145_reading_other.
Example reading_ex : wrap_from (fun t => Ok (Obj 3 (Some (YLeaf 9)) None)) (YDict [("wx_user", YLeaf 4); ("wx_metadata", YDict [])]) =
  Ok (Obj 3 (Some (YLeaf 9)) (Some (YLeaf 4))).
Proof. reflexivity. Qed.

(** Writing: a dictionary gets the attributes that are there and are not empty, then
    entries without value are removed; other trees are a TypeError if there is such an
    attribute. *)
Definition put_entry (k : string) (a : option yaml) (d : dict yaml) : dict yaml :=
  match entry_or a None with Some x => dset k x d | None => d end.
Theorem c145_writing : forall f o t, f o = Ok t ->
  match t with
  | YDict d => wrap_to f o = Ok (drop (YDict (put_entry "wx_user" (o_user o) (put_entry "wx_metadata" (o_meta o) d))))
  | _ =>
      match entry_or (o_meta o) None, entry_or (o_user o) None with
      | None, None => wrap_to f o = Ok (drop t)
      | _, _ => wrap_to f o = Err TypeError
      end
  end.
Proof.
  intros f [v m u] t E. unfold wrap_to. rewrite E. cbn [bind o_meta o_user].
  destruct t as [|k|l|d], m as [[|[|n]|[|x r]|[|x r]]|], u as [[|[|n']|[|x' r']|[|x' r']]|]; reflexivity.
Qed.
Print Assumptions c145_writing.
Theorem c145_writing_error : forall f o e, f o = Err e -> wrap_to f o = Err e.
Proof. intros f o e E. unfold wrap_to. now rewrite E. Qed.
Print Assumptions c145_writing_error.

Lemma wrap_from_ext : forall f g, (forall t, f t = g t) -> forall t, wrap_from f t = wrap_from g t.
Proof. intros f g H t. unfold wrap_from. destruct (from_metadata t) as [[t' m] u]. now rewrite H. Qed.

(** ** Classes *)
Lemma nearest_more : forall (A : Type) (own : decl -> option A) dft ds es i o, nearest own dft ds i o -> nearest own dft (ds ++ es)%list i o.
Proof.
  intros A own dft ds es i o H. assert (X : forall j d, nth_error ds j = Some d -> nth_error (ds ++ es)%list j = Some d).
  { intros j d K. rewrite nth_error_app1; [exact K|]. apply nth_error_Some. congruence. }
  induction H; [constructor|eapply N_own; eauto|eapply N_inherit; eauto].
Qed.
Lemma tagged_more : forall ds es i t, tagged ds i t -> tagged (ds ++ es)%list i t.
Proof.
  intros ds es i t H. assert (X : forall j d, nth_error ds j = Some d -> nth_error (ds ++ es)%list j = Some d).
  { intros j d K. rewrite nth_error_app1; [exact K|]. apply nth_error_Some. congruence. }
  induction H; [constructor|apply T_name; [apply nearest_more|]; assumption| |].
  - eapply T_own; [apply nearest_more; eassumption|assumption|apply X; eassumption|assumption].
  - eapply T_inherit; [apply nearest_more; eassumption|assumption|apply X; eassumption|assumption|assumption].
Qed.
Lemma tag_text : forall n, format_tag n (Some "0.1.*") = "asdf://weldx.bam.de/weldx/tags/" ++ n ++ "-0.1.*".
Proof.
  assert (A : forall a b c : string, (a ++ b) ++ c = a ++ (b ++ c)) by (induction a as [|x a IH]; intros b c; cbn; [|rewrite IH]; reflexivity).
  intros n. unfold format_tag. rewrite A. reflexivity.
Qed.
Definition not_implemented {X Y : Type} : X -> res Y := fun _ => Err NotImplementedError.

Definition described (ds : list decl) (i : nat) (k : cls) : Prop :=
  nearest d_name None ds i (k_name k) /\ tagged ds i (k_tags k) /\
  (exists f, nearest d_to (Some not_implemented) ds i (Some f) /\ forall o, k_to k o = wrap_to f o) /\
  (exists f, nearest d_from (Some not_implemented) ds i (Some f) /\ forall t, k_from k t = wrap_from f t) /\
  k_base k = match i with O => None | S j => option_map d_base (nth_error ds j) end.
Lemma define_all_app : forall ds d, define_all (ds ++ [d])%list = bind (define_all ds) (fun w => define w d).
Proof. intros ds d. unfold define_all. now rewrite fold_left_app. Qed.
Lemma classes_described : forall ds w, define_all ds = Ok w -> List.length w = S (List.length ds) /\
  forall i k, nth_error w i = Some k -> described ds i k.
Proof.
  intros ds. induction ds as [|d ds IH] using rev_ind; intros w H.
  - injection H as <-. split; [reflexivity|]. intros [|i] k E; [|destruct i; discriminate]. injection E as <-.
    repeat split; try constructor; eexists; (split; [constructor|reflexivity]).
  - rewrite define_all_app in H. destruct (define_all ds) as [w0|]; [|discriminate]. cbn [bind] in H. destruct (IH w0 eq_refl) as [L D]. clear IH.
    unfold define in H. destruct (nth_error w0 (d_base d)) as [b|] eqn:B; [|discriminate]. injection H as <-.
    split; [rewrite !app_length, L; cbn; lia|]. intros i k E.
    assert (LB : d_base d < List.length w0) by (apply nth_error_Some; congruence).
    assert (ND : nth_error (ds ++ [d])%list (List.length ds) = Some d) by (rewrite nth_error_app2, Nat.sub_diag; [reflexivity|lia]).
    destruct (Nat.lt_ge_cases i (List.length w0)) as [LT|GE].
    + rewrite nth_error_app1 in E by exact LT. destruct (D i k E) as (N & TG & (f & F1 & F2) & (g & G1 & G2) & KB).
      split; [apply nearest_more, N|]. split; [apply tagged_more, TG|].
      split; [exists f; split; [apply nearest_more, F1|exact F2]|]. split; [exists g; split; [apply nearest_more, G1|exact G2]|].
      rewrite KB. destruct i as [|j]; [reflexivity|]. rewrite nth_error_app1 by lia. reflexivity.
    + assert (i = S (List.length ds)) as ->.
      { assert (i < List.length (w0 ++ [k])%list); [|rewrite app_length in *; cbn in *; lia]. rewrite app_length. cbn.
        assert (X : nth_error (w0 ++ [new_class (Some (d_base d)) match d_name d with Some n => Some n | None => k_name b end
          (or_else (d_tags d) (k_tags b)) (or_else (d_to d) (k_to b)) (or_else (d_from d) (k_from b))])%list i <> None) by congruence.
        apply nth_error_Some in X. rewrite app_length in X. cbn in X. exact X. }
      rewrite nth_error_app2 in E by lia. rewrite L, Nat.sub_diag in E. injection E as <-.
      destruct (D _ b B) as (N & TG & (f & F1 & F2) & (g & G1 & G2) & _).
      apply (nearest_more _ _ _ _ [d]) in N. apply (tagged_more _ [d]) in TG. apply (nearest_more _ _ _ _ [d]) in F1. apply (nearest_more _ _ _ _ [d]) in G1.
      set (nm := match d_name d with Some n => Some n | None => k_name b end).
      assert (NN : nearest d_name None (ds ++ [d])%list (S (List.length ds)) nm).
      { subst nm. destruct (d_name d) as [n|] eqn:DN; [eapply N_own; eassumption|eapply N_inherit; eassumption]. }
      unfold new_class. split; [exact NN|]. split; [|split; [|split]].
      * cbn [k_tags].
        assert (PLAIN : ~ named nm -> tagged (ds ++ [d])%list (S (List.length ds)) (or_else (d_tags d) (k_tags b))).
        { intros NX. destruct (d_tags d) as [t|] eqn:DT; cbn [or_else]; [eapply T_own; eassumption|eapply T_inherit; eassumption]. }
        destruct nm as [n|] eqn:Q; [destruct (String.eqb_spec n "") as [->|NE]|].
        -- apply PLAIN. intros (n & E & X). congruence.
        -- rewrite tag_text. apply T_name; assumption.
        -- apply PLAIN. intros (n & E & X). congruence.
      * cbn [k_to]. destruct (d_to d) as [h|] eqn:DT; cbn [or_else].
        -- exists h. split; [eapply N_own; eassumption|reflexivity].
        -- exists f. split; [eapply N_inherit; eassumption|]. intros o. unfold wrap_to at 1. rewrite F2. apply c145_to_once.
      * cbn [k_from]. destruct (d_from d) as [h|] eqn:DT; cbn [or_else].
        -- exists h. split; [eapply N_own; eassumption|reflexivity].
        -- exists g. split; [eapply N_inherit; eassumption|]. intros t. rewrite (wrap_from_ext _ _ G2). apply c145_from_once.
      * cbn [k_base]. rewrite ND. reflexivity.
Qed.

(** The tags of a class follow from its name, own or inherited; only classes without a
    name have the tags that they state or inherit. *)
Theorem c145_tags : forall ds w i k, define_all ds = Ok w -> nth_error w i = Some k -> tagged ds i (k_tags k) /\ forall t, tagged ds i t -> t = k_tags k.
Proof.
  intros ds w i k H K. destruct (classes_described ds w H) as [_ D]. destruct (D i k K) as (_ & T & _). split; [exact T|].
  assert (UN : forall j o, nearest d_name None ds j o -> forall o', nearest d_name None ds j o' -> o' = o).
  { intros j o N. induction N as [|j d a E O|j d o E O N IH]; intros o' N'; inversion N' as [|? d' a' E' O'|? d' ? E' O' N'']; subst; try congruence.
    apply IH. congruence. }
  assert (UT : forall j t, tagged ds j t -> forall t', tagged ds j t' -> t' = t).
  { intros j t A. induction A as [|j n N X|j d o t N X E O|j d o t N X E O A IH]; intros t' A'; inversion A'; subst; try congruence;
      repeat match goal with U : nearest d_name None ds _ _, V : nearest d_name None ds _ _ |- _ => pose proof (UN _ _ U _ V); clear V end; subst;
      try congruence; try (exfalso; match goal with Y : ~ named (Some ?n), Z : ?n <> "" |- _ => apply Y; exists n; auto end).
    apply IH. congruence. }
  intros t A. eapply UT; eassumption.
Qed.
Print Assumptions c145_tags.

(** The methods of a class are those of the nearest class that states them, with the
    metadata handled once. *)
Theorem c145_methods : forall ds w i k, define_all ds = Ok w -> nth_error w i = Some k ->
  (exists f, nearest d_to (Some not_implemented) ds i (Some f) /\ forall o, k_to k o = wrap_to f o) /\
  (exists f, nearest d_from (Some not_implemented) ds i (Some f) /\ forall t, k_from k t = wrap_from f t).
Proof. intros ds w i k H K. destruct (classes_described ds w H) as [_ D]. destruct (D i k K) as (_ & _ & A & B & _). split; assumption. Qed.
Print Assumptions c145_methods.

(** "A class has the tags that it states": not if a base has a name. *)
Definition named_ds : list decl := [Decl 0 (Some "core/media_file") None None None; Decl 1 None (Some (TPat (PStr "my/tag-*"))) None None].
Theorem c145_tags_refuted : exists w k, define_all named_ds = Ok w /\ nth_error w 2 = Some k /\
  k_tags k = TPat (PList ["asdf://weldx.bam.de/weldx/tags/core/media_file-0.1.*"]).
Proof. eexists. eexists. repeat split; reflexivity. Qed.
Print Assumptions c145_tags_refuted.

(** ** Lookup by tag *)
Lemma numbered_in : forall (A : Type) (l : list A) i x, In (i, x) (numbered l) <-> nth_error l i = Some x.
Proof.
  intros A l i x. unfold numbered.
  assert (G : forall (l : list A) n i, In (i, x) (combine (seq n (List.length l)) l) <-> n <= i /\ nth_error l (i - n) = Some x).
  { clear. induction l as [|y l IH]; intros n i.
    - cbn. split; [intros []|]. intros [_ H]. now destruct (i - n).
    - cbn [List.length seq combine In]. rewrite IH. split.
      + intros [E|[L H]]; [injection E as <- <-; rewrite Nat.sub_diag; split; [lia|reflexivity]|]. split; [lia|].
        replace (i - n) with (S (i - S n)) by lia. exact H.
      + intros [L H]. destruct (Nat.eq_dec i n) as [->|N]; [left; rewrite Nat.sub_diag in H; injection H as ->; reflexivity|right].
        split; [lia|]. replace (i - n) with (S (i - S n)) in H by lia. exact H. }
  rewrite G, Nat.sub_0_r. split; [tauto|]. intros H. split; [lia|exact H].
Qed.
Lemma numbered_sorted : forall (A : Type) (l : list A) n p, Sorted.StronglySorted lt (map fst (filter p (combine (seq n (List.length l)) l))) /\
  forall i, In i (map fst (filter p (combine (seq n (List.length l)) l))) -> n <= i.
Proof.
  intros A l. induction l as [|x l IH]; intros n p; cbn [List.length seq combine filter]; [split; [constructor|intros i []]|].
  destruct (IH (S n) p) as [S1 S2]. destruct (p (n, x)); cbn [map fst].
  - split; [constructor; [exact S1|]; apply Forall_forall; intros i I; apply S2 in I; lia|]. intros i [<-|I]; [lia|]. apply S2 in I. lia.
  - split; [exact S1|]. intros i I. apply S2 in I. lia.
Qed.
Lemma subclasses_in : forall ds w, define_all ds = Ok w -> forall i k, In (i, k) (subclasses w) <-> nth_error w i = Some k /\ direct ds i.
Proof.
  intros ds w H i k. destruct (classes_described ds w H) as [L D]. unfold subclasses. rewrite filter_In, numbered_in. cbn [snd].
  split; intros [K B]; (split; [exact K|]); destruct (D i k K) as (_ & _ & _ & _ & KB); unfold is_direct in *.
  - destruct i as [|j]; rewrite KB in B; [discriminate|]. destruct (nth_error ds j) as [d|] eqn:E; [|discriminate]. cbn in B.
    exists j, d. destruct (d_base d) eqn:DB; [auto|discriminate].
  - destruct B as (j & d & -> & E & DB). rewrite KB, E. cbn. rewrite DB. reflexivity.
Qed.
Lemma matching_ok : forall l tag r, matching l tag = Ok r ->
  r = map fst (filter (fun p => match k_tags (snd p) with TPat q => uri_match q tag | TNone => false end) l) /\
  forall i k, In (i, k) l -> k_tags k <> TNone.
Proof.
  induction l as [|[i k] l IH]; intros tag r H; [injection H as <-; split; [reflexivity|intros i k []]|]. cbn [matching] in H. unfold match_tags in H.
  destruct (k_tags k) as [|q] eqn:T; [discriminate|]. cbn [bind] in H. destruct (matching l tag) as [t|] eqn:M; [|discriminate]. injection H as <-.
  destruct (IH tag t M) as [-> N]. cbn [filter snd]. rewrite T. split; [now destruct (uri_match q tag)|].
  intros j k' [E|I]; [injection E as <- <-; congruence|eauto].
Qed.
Lemma matching_err : forall l tag, (exists i k, In (i, k) l /\ k_tags k = TNone) -> matching l tag = Err TypeError.
Proof.
  induction l as [|[i k] l IH]; intros tag (j & k' & I & T); [destruct I|]. cbn [matching]. destruct I as [E|I].
  - injection E as <- <-. now rewrite T.
  - destruct (k_tags k) as [|q] eqn:T'; [reflexivity|]. cbn [match_tags bind]. rewrite IH by eauto. reflexivity.
Qed.
Lemma matching_total : forall l tag, (forall i k, In (i, k) l -> k_tags k <> TNone) -> exists r, matching l tag = Ok r.
Proof.
  induction l as [|[i k] l IH]; intros tag N; [eexists; reflexivity|]. cbn [matching]. destruct (k_tags k) as [|q] eqn:T.
  - destruct (N i k (or_introl eq_refl) T).
  - cbn [match_tags bind]. destruct (IH tag) as [r ->]; [intros j k' I; apply (N j k'); now right|]. eexists. reflexivity.
Qed.
Definition fits (w : list cls) (tag : string) (i : nat) : Prop := exists k p, nth_error w i = Some k /\ k_tags k = TPat p /\ uri_match p tag = true.
(** Of the direct subclasses, the first one with a matching tag is found, with a warning
    if there are others. *)
Theorem c145_lookup : forall ds w tag o warned, define_all ds = Ok w -> converter_for w tag = Ok (o, warned) ->
  (forall i, o = Some i -> direct ds i /\ fits w tag i /\ forall j, direct ds j -> fits w tag j -> i <= j) /\
  (o = None <-> forall i, direct ds i -> ~ fits w tag i) /\
  (warned = true <-> exists i j, i <> j /\ direct ds i /\ direct ds j /\ fits w tag i /\ fits w tag j).
Proof.
  intros ds w tag o warned H C. unfold converter_for in C. destruct (matching (subclasses w) tag) as [r|] eqn:M; [|discriminate].
  cbn [bind] in C. injection C as <- <-. destruct (matching_ok _ _ _ M) as [R _].
  assert (IN : forall i, In i r <-> direct ds i /\ fits w tag i).
  { intros i. rewrite R, in_map_iff. split.
    - intros ([j k] & E & I). cbn in E. subst j. apply filter_In in I. destruct I as [I U]. cbn [snd] in U. apply (subclasses_in ds w H) in I. destruct I as [K DI].
      split; [exact DI|]. destruct (k_tags k) as [|q] eqn:T; [discriminate|]. exists k, q. auto.
    - intros [DI (k & q & K & T & U)]. exists (i, k). split; [reflexivity|]. apply filter_In. split; [apply (subclasses_in ds w H); auto|].
      cbn [snd]. rewrite T. exact U. }
  assert (SO : Sorted.StronglySorted lt r).
  { rewrite R. unfold subclasses, numbered.
    assert (FF : forall (A : Type) (p q : A -> bool) l, filter p (filter q l) = filter (fun x => (q x && p x)%bool) l).
    { clear. intros A p q l. induction l as [|x l IH]; [reflexivity|]. cbn. destruct (q x); cbn; rewrite IH; reflexivity. }
    rewrite FF. apply numbered_sorted. }
  split; [|split].
  - intros i E. destruct r as [|a r]; [discriminate|]. cbn in E. injection E as ->. destruct (proj1 (IN i) (or_introl eq_refl)) as [A B].
    split; [exact A|]. split; [exact B|]. intros j DJ FJ. destruct (proj2 (IN j) (conj DJ FJ)) as [->|J]; [lia|].
    inversion SO as [|? ? _ F]; subst. rewrite Forall_forall in F. specialize (F j J). lia.
  - destruct r as [|a r]; cbn [hd_error].
    + split; [|reflexivity]. intros _ i DI FI. destruct (proj2 (IN i) (conj DI FI)).
    + split; [discriminate|]. intros N. exfalso. destruct (proj1 (IN a) (or_introl eq_refl)) as [A B]. exact (N a A B).
  - rewrite Nat.ltb_lt. destruct r as [|a [|b r]]; cbn [List.length].
    + split; [lia|]. intros (i & j & N & DI & DJ & FI & FJ). destruct (proj2 (IN i) (conj DI FI)).
    + split; [lia|]. intros (i & j & N & DI & DJ & FI & FJ). destruct (proj2 (IN i) (conj DI FI)) as [<-|[]]. destruct (proj2 (IN j) (conj DJ FJ)) as [<-|[]]. congruence.
    + split; [|lia]. intros _. exists a, b. destruct (proj1 (IN a) (or_introl eq_refl)). destruct (proj1 (IN b) (or_intror (or_introl eq_refl))).
      inversion SO as [|? ? _ F]; subst. inversion F; subst. repeat split; try assumption. lia.
Qed.
Print Assumptions c145_lookup.

(** A direct subclass without name and tags makes all lookups fail, other classes none. *)
Theorem c145_untagged : forall ds w tag, define_all ds = Ok w ->
  (converter_for w tag = Err TypeError <-> exists i, direct ds i /\ tagged ds i TNone) /\
  ((forall i, direct ds i -> ~ tagged ds i TNone) -> exists r, converter_for w tag = Ok r).
Proof.
  intros ds w tag H. destruct (classes_described ds w H) as [L D].
  assert (EX : (exists i k, In (i, k) (subclasses w) /\ k_tags k = TNone) <-> exists i, direct ds i /\ tagged ds i TNone).
  { split.
    - intros (i & k & I & T). apply (subclasses_in ds w H) in I. destruct I as [K DI]. exists i. split; [exact DI|]. rewrite <- T. apply (D i k K).
    - intros (i & DI & T). pose proof DI as (j & d & -> & E & _). assert (J : j < List.length ds) by (apply nth_error_Some; congruence).
      destruct (nth_error w (S j)) as [k|] eqn:K; [|apply nth_error_None in K; lia]. exists (S j), k. split; [apply (subclasses_in ds w H); auto|].
      symmetry. apply (proj2 (c145_tags ds w (S j) k H K)). exact T. }
  unfold converter_for. split; [rewrite <- EX; split|].
  - intros E. destruct (matching (subclasses w) tag) as [r|e] eqn:M; [discriminate|].
    assert (DEC : (exists i k, In (i, k) (subclasses w) /\ k_tags k = TNone) \/ forall i k, In (i, k) (subclasses w) -> k_tags k <> TNone).
    { generalize (subclasses w). clear. induction l as [|[i k] l [(j & k' & I & T)|N]].
      - right. intros i k [].
      - left. exists j, k'. split; [now right|exact T].
      - destruct (k_tags k) eqn:T; [left; exists i, k; split; [now left|exact T]|right]. intros j k' [E|I]; [injection E as <- <-; congruence|eauto]. }
    destruct DEC as [X|N]; [exact X|]. destruct (matching_total _ tag N) as [r R]. congruence.
  - intros X. now rewrite (matching_err _ tag X).
  - intros N. destruct (matching_total (subclasses w) tag) as [r ->]; [|eexists; reflexivity]. intros i k I T. apply (subclasses_in ds w H) in I.
    destruct I as [K DI]. apply (N i DI). rewrite <- T. apply (D i k K).
Qed.
Print Assumptions c145_untagged.

(** "A class with a matching tag is found": not if it is no direct subclass. *)
Definition indirect_ds : list decl := [Decl 0 None (Some (TPat (PStr "a-*"))) None None; Decl 1 None (Some (TPat (PStr "b-*"))) None None].
Theorem c145_indirect_refuted : exists w, define_all indirect_ds = Ok w /\ fits w "b-1" 2 /\ converter_for w "b-1" = Ok (None, false).
Proof. eexists. split; [reflexivity|]. split; [|reflexivity]. eexists. eexists. repeat split; reflexivity. Qed.
Print Assumptions c145_indirect_refuted.

(** ** Registration *)
(** The extension has the direct subclasses that exist when it is imported, once. *)
Definition calm (es : list event) : Prop := forall e, In e es -> e <> EIterate.
Lemma run_left : forall es s l, s_left s = Some l -> calm es -> s_left (run s es) = Some l.
Proof.
  induction es as [|e es IH]; intros s l E C; [exact E|]. cbn [run fold_left]. apply IH; [|intros x X; apply C; now right].
  destruct e as [d| |]; cbn [happen].
  - destruct (define (s_classes s) d); exact E.
  - rewrite E. exact E.
  - destruct (C EIterate (or_introl eq_refl) eq_refl).
Qed.
Theorem c145_registered : forall s es, s_left s = None -> calm es ->
  let s1 := run (fst (happen s EImport)) es in
  snd (happen s1 EIterate) = Ok (map fst (subclasses (s_classes s))) /\
  forall es', calm es' -> snd (happen (run (fst (happen s1 EIterate)) es') EIterate) = Ok [].
Proof.
  intros s es N C s1. assert (L : s_left s1 = Some (map fst (subclasses (s_classes s)))).
  { apply run_left; [|exact C]. cbn [happen]. rewrite N. reflexivity. }
  cbn [happen]. rewrite L. split; [reflexivity|]. intros es' C'. cbn [fst].
  rewrite (run_left es' (Session (s_classes s1) (Some [])) [] eq_refl C'). reflexivity.
Qed.
Print Assumptions c145_registered.
(** "Every class that get_converter_for_tag finds is registered": not if it is defined
    after the import. *)
Theorem c145_late_refuted : let s := run start [EImport; EDefine (Decl 0 (Some "x") None None None)] in
  converter_for (s_classes s) "asdf://weldx.bam.de/weldx/tags/x-0.1.0" = Ok (Some 1, false) /\ snd (happen s EIterate) = Ok [].
Proof. split; reflexivity. Qed.
Print Assumptions c145_late_refuted.
Example early_ex : let s := run start [EDefine (Decl 0 (Some "x") None None None); EImport] in snd (happen s EIterate) = Ok [1].
Proof. reflexivity. Qed.

(** ** The weldx extension *)
Theorem c145_extension : forall l i, weldx_extension (CSerialization l) = Ok i <->
  nth_error l i = Some (Some "asdf://weldx.bam.de/weldx/extensions/weldx-0.1.2") /\
  forall j, nth_error l j = Some (Some "asdf://weldx.bam.de/weldx/extensions/weldx-0.1.2") -> j = i.
Proof.
  intros l i. unfold weldx_extension. fold EXTENSION_URI.
  assert (IN : forall j u, In (j, u) (filter (fun p => is_weldx (snd p)) (numbered l)) <-> nth_error l j = Some (Some EXTENSION_URI) /\ u = Some EXTENSION_URI).
  { intros j u. rewrite filter_In, numbered_in. cbn [snd]. unfold is_weldx. rewrite String.eqb_eq. split.
    - intros [E U]. destruct u as [s|]; [subst s; auto|discriminate].
    - intros [E ->]. auto. }
  assert (SO := proj1 (numbered_sorted _ l 0 (fun p => is_weldx (snd p)))). fold (numbered l) in SO.
  destruct (filter (fun p => is_weldx (snd p)) (numbered l)) as [|[a u] [|[b v] r]] eqn:F.
  - split; [discriminate|]. intros [E _]. exfalso. exact (proj2 (IN i (Some EXTENSION_URI)) (conj E eq_refl)).
  - destruct (proj1 (IN a u) (or_introl eq_refl)) as [A ->]. split.
    + intros E. injection E as <-. split; [exact A|]. intros j J. destruct (proj2 (IN j _) (conj J eq_refl)) as [E|[]]. congruence.
    + intros [_ U]. now rewrite (U a A).
  - split; [discriminate|]. intros [_ U]. exfalso. destruct (proj1 (IN a u) (or_introl eq_refl)) as [A _].
    destruct (proj1 (IN b v) (or_intror (or_introl eq_refl))) as [B _]. apply U in A. apply U in B. subst a b.
    cbn [map fst] in SO. inversion SO as [|? ? _ F']; subst. inversion F'; subst. lia.
Qed.
Print Assumptions c145_extension.
Theorem c145_contexts : forall l, weldx_extension (CConfig l) = weldx_extension (CSerialization l) /\ weldx_extension COther = Err TypeError /\
  forall e, weldx_extension (CConfig l) = Err e -> e = ValueError.
Proof.
  intros l. split; [reflexivity|]. split; [reflexivity|]. intros e. unfold weldx_extension.
  destruct (filter _ (numbered l)) as [|[a u] [|p r]]; congruence.
Qed.
Print Assumptions c145_contexts.
Example extension_ex : weldx_extension (CConfig [None; Some "asdf://x"; Some "asdf://weldx.bam.de/weldx/extensions/weldx-0.1.2"]) = Ok 2.
Proof. reflexivity. Qed.

(** Non-vacuity: a class with a method, and one that inherits it. *)
Definition family : list decl := [Decl 0 (Some "a") None (Some (fun o => Ok (YDict [("v", YLeaf (o_value o)); ("n", YNone)]))) None;
  Decl 1 (Some "b") None None None].
Example family_ex : exists w k, define_all family = Ok w /\ nth_error w 2 = Some k /\
  k_to k (Obj 5 (Some (YLeaf 7)) None) = Ok (YDict [("v", YLeaf 5); ("wx_metadata", YLeaf 7)]) /\
  k_from k (YDict []) = Err NotImplementedError /\
  converter_for w "asdf://weldx.bam.de/weldx/tags/a-0.1.3" = Ok (Some 1, false).
Proof. eexists. eexists. repeat split; reflexivity. Qed.
