(** Theorems C44 - C47 and C51. *)
From Coq Require Import List String Ascii Bool Arith ZArith Lia Sorted Permutation.
From Verif Require Import Base SerialModel SerialSpec SerialFacts.
Import ListNotations.
Open Scope list_scope.

(** * C44: external files *)
Section Hash.
  Variables (alg state : Type) (start : alg -> state) (feed : alg -> state -> nat -> state) (digest : alg -> state -> string) (sha256 : alg).
  Notation hash_file := (hash_file alg state start feed digest).
  Notation to_tree := (to_tree alg state start feed digest).
  Notation from_tree := (from_tree alg state start feed digest sha256).
  Notation write_to := (write_to alg).
  Notation content_hash a b := (digest a (fold_left (feed a) b (start a))).

  (** hashing in chunks of any size but zero is hashing the content *)
  Theorem c44_chunks : forall a size b, size <> 0%Z -> hash_file a size b = Ok (content_hash a b).
  Proof.
    intros a size b N. unfold SerialModel.hash_file. rewrite read_loop_all; [reflexivity|exact N|lia].
  Qed.

  (** with size zero it is the hash of the empty file for every content *)
  Theorem c44_zero_refuted : forall a b, hash_file a 0 b = Ok (content_hash a []).
  Proof. reflexivity. Qed.

  (** what is written: the content if it is to be saved, and always its hash *)
  Theorem c44_tree : forall f e b,
    e_buffer alg e = Some b \/ (e_buffer alg e = None /\ exists p, e_path alg e = Some p /\ f p = Some b /\ (e_save alg e = true \/ e_hash alg e = None)) ->
    exists t, to_tree f e = Ok t /\ t_filename alg t = e_filename alg e /\ t_info alg t = e_info alg e /\
      t_content alg t = (if e_save alg e then Some b else None) /\ t_hash alg t = Some (e_alg alg e, content_hash (e_alg alg e) b).
  Proof.
    intros f e b H. unfold SerialModel.to_tree. destruct H as [H|(H & p & P & F & S)].
    - rewrite H. destruct (e_save alg e); cbn [bind]; eexists; (split; [reflexivity|]); auto.
    - rewrite H. unfold get_file_content. rewrite P. destruct (e_save alg e).
      + rewrite F. cbn [bind]. eexists. split; [reflexivity|]. auto.
      + destruct S as [S|S]; [discriminate|]. cbn [bind]. rewrite S, F, c44_chunks by discriminate. cbn [bind]. eexists. split; [reflexivity|]. auto.
  Qed.

  (** saving with content and loading gives the content, its hash and the other
      fields; it can be written to a directory without the original file *)
  Theorem c44_round_trip : forall f g e b dir,
    e_save alg e = true ->
    e_buffer alg e = Some b \/ (e_buffer alg e = None /\ exists p, e_path alg e = Some p /\ f p = Some b) ->
    exists t e' g', to_tree f e = Ok t /\ from_tree t = Ok e' /\
      e_buffer alg e' = Some b /\ e_hash alg e' = Some (content_hash (e_alg alg e) b) /\ e_alg alg e' = e_alg alg e /\
      e_filename alg e' = e_filename alg e /\ e_info alg e' = e_info alg e /\
      write_to g e' dir = Ok g' /\ g' (dir ++ "/" ++ e_filename alg e)%string = Some b /\
      (forall p, p <> (dir ++ "/" ++ e_filename alg e)%string -> g' p = g p).
  Proof.
    intros f g e b dir S H. destruct (c44_tree f e b) as (t & E & F & I & C & D).
    { destruct H as [H|(H & p & P & Q)]; [left; exact H|]. right. split; [exact H|]. exists p. auto. }
    rewrite S in C. unfold SerialModel.from_tree. exists t. rewrite C, D. unfold hash_buffer, update. rewrite String.eqb_refl. cbn [negb].
    eexists. eexists. split; [exact E|]. split; [reflexivity|]. cbn [e_buffer e_hash e_alg e_filename e_info]. rewrite F, I.
    do 5 (split; [reflexivity|]). unfold SerialModel.write_to. cbn [e_buffer bind e_filename]. split; [reflexivity|]. cbv beta.
    split; [rewrite String.eqb_refl; reflexivity|]. intros p N. destruct (String.eqb_spec p (dir ++ "/" ++ e_filename alg e)%string); [contradiction|reflexivity].
  Qed.

  (** a tree whose content does not have the stored hash is refused *)
  Theorem c44_tamper : forall name info a b h, content_hash a b <> h -> from_tree (ETree alg name info (Some b) (Some (a, h))) = Err WeldxException.
  Proof.
    intros name info a b h N. unfold SerialModel.from_tree. cbn [t_content t_hash]. unfold hash_buffer, update.
    destruct (String.eqb_spec (content_hash a b) h) as [E|E]; [contradiction|reflexivity].
  Qed.

  (** a hash given by the user is kept without looking at the file, which may have
      another content or be missing *)
  Theorem c44_given_hash : forall f e h, e_save alg e = false -> e_buffer alg e = None -> e_hash alg e = Some h ->
    exists t, to_tree f e = Ok t /\ t_content alg t = None /\ t_hash alg t = Some (e_alg alg e, h).
  Proof. intros f e h S B H. unfold SerialModel.to_tree. rewrite S, B, H. cbn [bind]. eexists. split; [reflexivity|]. auto. Qed.

  (** [asdf_save_content] does not survive: the second save of a loaded file has no
      content, and after loading that one it cannot be written *)
  Theorem c44_resave_refuted : forall f g e b dir t e', e_save alg e = true -> e_buffer alg e = Some b ->
    to_tree f e = Ok t -> from_tree t = Ok e' ->
    exists t2 e2, to_tree g e' = Ok t2 /\ t_content alg t2 = None /\ from_tree t2 = Ok e2 /\ write_to g e2 dir = Err AttributeError.
  Proof.
    intros f g e b dir t e' S B T L. unfold SerialModel.to_tree in T. rewrite S, B in T. cbn [bind] in T. injection T as <-.
    unfold SerialModel.from_tree in L. cbn [t_content t_hash option_map] in L. rewrite String.eqb_refl in L. cbn [negb] in L. injection L as <-.
    unfold SerialModel.to_tree. cbn [e_save e_buffer bind]. eexists. eexists. split; [reflexivity|]. split; [reflexivity|]. split; reflexivity.
  Qed.

  (** no content and no readable file: nothing is written *)
  Theorem c44_missing : forall f e, e_save alg e = true -> e_buffer alg e = None -> (forall p, e_path alg e = Some p -> f p = None) ->
    to_tree f e = Err (match e_path alg e with None => AttributeError | Some _ => FileNotFoundError end).
  Proof.
    intros f e S B M. unfold SerialModel.to_tree, get_file_content. rewrite S, B. destruct (e_path alg e) as [p|]; [rewrite (M p eq_refl)|]; reflexivity.
  Qed.
End Hash.
Print Assumptions c44_chunks.
Print Assumptions c44_zero_refuted.
Print Assumptions c44_tree.
Print Assumptions c44_round_trip.
Print Assumptions c44_tamper.
Print Assumptions c44_given_hash.
Print Assumptions c44_resave_refuted.
Print Assumptions c44_missing.

(** a toy hash: the sum of the bytes in unary *)
Definition toy_hash : unit -> Z -> bytes -> res string :=
  hash_file unit nat (fun _ => 0) (fun _ s b => s + b) (fun _ s => string_of_list_ascii (repeat "x"%char s)).
Example ex_c44_chunks : toy_hash tt 2 [1; 2; 3] = Ok "xxxxxx"%string /\ toy_hash tt (-1) [1; 2; 3] = Ok "xxxxxx"%string /\ toy_hash tt 0 [1; 2; 3] = Ok ""%string.
Proof. repeat split. Qed.

(** * C45: trees *)
(** what is written has no [None] below its root *)
Theorem c45_complete : forall t meta user t', to_metadata t meta user = Ok t' -> complete t'.
Proof.
  intros t meta user t' E. unfold to_metadata in E. destruct (assign USER user (assign META meta (Ok t))) as [u|]; [|discriminate].
  cbn [bind] in E. injection E as <-. destruct u; [constructor|constructor|apply drop_complete|apply drop_complete].
Qed.
Print Assumptions c45_complete.

(** a tree without [None] is written as it is *)
Theorem c45_identity : forall t, complete t -> to_metadata t None None = Ok t.
Proof.
  intros t C. unfold to_metadata, assign. cbn [bind]. f_equal. destruct t; [reflexivity|reflexivity| |]; apply drop_id, C.
Qed.
Print Assumptions c45_identity.

(** entries of a dictionary that are not [None] stay, with their own [None]s dropped *)
Theorem c45_entries : forall d k x, In (k, x) d -> x <> YNone ->
  exists d', to_metadata (YDict d) None None = Ok (YDict d') /\ In (k, drop x) d' /\ drop x <> YNone.
Proof.
  intros d k x I N. unfold to_metadata, assign. cbn [bind]. rewrite drop_dict. eexists. split; [reflexivity|]. split; [|apply drop_not_none, N].
  apply in_map_iff. exists (k, x). split; [reflexivity|]. apply filter_In. split; [exact I|]. destruct x; [congruence|reflexivity..].
Qed.
Print Assumptions c45_entries.

(** and nothing is added *)
Theorem c45_nothing_new : forall d d' k y, to_metadata (YDict d) None None = Ok (YDict d') -> In (k, y) d' ->
  exists x, In (k, x) d /\ x <> YNone /\ y = drop x.
Proof.
  intros d d' k y E I. unfold to_metadata, assign in E. cbn [bind] in E. rewrite drop_dict in E. injection E as <-.
  apply in_map_iff in I. destruct I as ([k' x] & Q & I). injection Q as <- <-. apply filter_In in I. destruct I as [I N].
  exists x. split; [exact I|]. split; [|reflexivity]. cbn in N. destruct x; [discriminate|congruence..].
Qed.
Print Assumptions c45_nothing_new.

(** lists keep their length only if they have no [None] *)
Theorem c45_length : forall l l', to_metadata (YList l) None None = Ok (YList l') ->
  List.length l' <= List.length l /\ (List.length l' = List.length l <-> ~ In YNone l).
Proof.
  intros l l' E. unfold to_metadata, assign in E. cbn [bind] in E. rewrite drop_list in E. injection E as <-. rewrite map_length.
  induction l as [|x r [A B]]; [cbn; split; [lia|split; [intros _ []|reflexivity]]|]. cbn [filter]. destruct x; cbn [is_none negb List.length In].
  - split; [lia|]. split; [lia|tauto].
  - split; [lia|]. rewrite Nat.succ_inj_wd, B. firstorder congruence.
  - split; [lia|]. rewrite Nat.succ_inj_wd, B. firstorder congruence.
  - split; [lia|]. rewrite Nat.succ_inj_wd, B. firstorder congruence.
Qed.
Print Assumptions c45_length.

Theorem c45_list_refuted :
  to_metadata (YDict [("x"%string, YList [YLeaf 1; YNone; YLeaf 2])]) None None = Ok (YDict [("x"%string, YList [YLeaf 1; YLeaf 2])]).
Proof. reflexivity. Qed.
Print Assumptions c45_list_refuted.

(** attributes come back, and the tree of the class without them *)
Theorem c45_metadata : forall d meta user, complete (YDict d) -> ~ In META (map fst d) -> ~ In USER (map fst d) ->
  (forall a, meta = Some a -> complete a) -> (forall a, user = Some a -> complete a) ->
  (forall a, meta = Some a -> truthy a = true) -> (forall a, user = Some a -> truthy a = true) ->
  exists t, to_metadata (YDict d) meta user = Ok t /\ from_metadata t = (YDict d, meta, user).
Proof.
  intros d meta user C NM NU CM CU TM TU.
  assert (APP : forall k x (d0 : list (string * yaml)), ~ In k (map fst d0) -> dset k x d0 = d0 ++ [(k, x)]).
  { intros k x. induction d0 as [|[j y] r IH]; intros N; [reflexivity|]. cbn in *. destruct (String.eqb_spec k j) as [->|K]; [tauto|]. rewrite IH by tauto. reflexivity. }
  assert (GET : forall k x (d0 : list (string * yaml)), ~ In k (map fst d0) -> dget k (d0 ++ [(k, x)]) = Some x).
  { intros k x. induction d0 as [|[j y] r IH]; intros N; cbn in *; [rewrite String.eqb_refl; reflexivity|]. destruct (String.eqb_spec k j) as [->|K]; [tauto|]. apply IH. tauto. }
  assert (GETO : forall k j x (d0 : list (string * yaml)), ~ In k (map fst d0) -> k <> j -> dget k (d0 ++ [(j, x)]) = None).
  { intros k j x. induction d0 as [|[i y] r IH]; intros N K; cbn in *; [destruct (String.eqb_spec k j); [contradiction|reflexivity]|].
    destruct (String.eqb_spec k i) as [->|?]; [tauto|]. apply IH; tauto. }
  assert (GETN : forall k (d0 : list (string * yaml)), ~ In k (map fst d0) -> dget k d0 = None).
  { intros k. induction d0 as [|[i y] r IH]; intros N; cbn in *; [reflexivity|]. destruct (String.eqb_spec k i) as [->|?]; [tauto|]. apply IH; tauto. }
  assert (DELN : forall k (d0 : list (string * yaml)), ~ In k (map fst d0) -> ddel k d0 = d0).
  { intros k. unfold ddel. induction d0 as [|[i y] r IH]; intros N; cbn in *; [reflexivity|]. destruct (String.eqb_spec k i) as [->|?]; [tauto|]. cbn. rewrite IH by tauto. reflexivity. }
  assert (DEL : forall k x (d0 d1 : list (string * yaml)), ~ In k (map fst d0) -> ~ In k (map fst d1) -> ddel k (d0 ++ (k, x) :: d1) = d0 ++ d1).
  { intros k x. unfold ddel. induction d0 as [|[i y] r IH]; intros d1 N M; cbn in *.
    - rewrite String.eqb_refl. cbn. apply (DELN k d1 M).
    - destruct (String.eqb_spec k i) as [->|?]; [tauto|]. cbn. rewrite IH by tauto. reflexivity. }
  assert (MU : META <> USER) by discriminate.
  assert (CA : forall k x d0, complete (YDict d0) -> x <> YNone -> complete x -> complete (YDict (d0 ++ [(k, x)]))).
  { intros k x d0 C0 NX CX. inversion C0 as [| | |? H]; subst. constructor. intros j y I. apply in_app_or in I. destruct I as [I|[I|[]]]; [apply (H j y I)|].
    injection I as <- <-. auto. }
  assert (TN : forall a, truthy a = true -> a <> YNone) by (intros [] T; discriminate || congruence).
  unfold to_metadata, assign. destruct meta as [m|], user as [u|]; cbn [bind].
  - pose proof (TM m eq_refl) as T1. pose proof (TU u eq_refl) as T2. rewrite T1. cbn [bind]. rewrite T2. cbn [bind].
    rewrite (APP META m d NM). rewrite (APP USER u) by (rewrite map_app, in_app_iff; cbn; intuition congruence).
    rewrite drop_id by (apply CA; auto). eexists. split; [reflexivity|]. unfold from_metadata. rewrite <- app_assoc. cbn [app].
    assert (NM' : ~ In META (map fst [(USER, u)])) by (cbn; intuition congruence).
    rewrite (DEL META m d [(USER, u)]) by assumption. rewrite (DEL USER u d []) by (assumption || (cbn; tauto)). rewrite app_nil_r.
    rewrite (GET USER u d NU).
    assert (G : dget META (d ++ [(META, m); (USER, u)]) = Some m).
    { clear -NM. revert NM. generalize META. intros K0 NM. induction d as [|[j y] r IH]; cbn in *; [rewrite String.eqb_refl; reflexivity|]. destruct (String.eqb_spec K0 j) as [E|K]; [exfalso; apply NM; left; congruence|]. apply IH. tauto. }
    rewrite G. cbn [nonempty]. rewrite T1, T2. reflexivity.
  - pose proof (TM m eq_refl) as T1. rewrite T1. cbn [bind]. rewrite (APP META m d NM). rewrite drop_id by (apply CA; auto).
    eexists. split; [reflexivity|]. unfold from_metadata. rewrite (GET META m d NM), (DEL META m d []) by (assumption || (cbn; tauto)).
    rewrite app_nil_r, (DELN USER d NU), (GETN USER d NU). cbn [nonempty]. rewrite T1. reflexivity.
  - pose proof (TU u eq_refl) as T2. rewrite T2. cbn [bind]. rewrite (APP USER u d NU). rewrite drop_id by (apply CA; auto).
    eexists. split; [reflexivity|]. unfold from_metadata. rewrite (GETO META USER u d NM MU).
    rewrite (DELN META (d ++ [(USER, u)])) by (rewrite map_app, in_app_iff; cbn; intuition congruence).
    rewrite (DEL USER u d []) by (assumption || (cbn; tauto)). rewrite app_nil_r, (GET USER u d NU). cbn [nonempty]. rewrite T2. reflexivity.
  - rewrite drop_id by exact C. eexists. split; [reflexivity|]. unfold from_metadata.
    rewrite (GETN META d NM), (DELN META d NM), (GETN USER d NU), (DELN USER d NU). reflexivity.
Qed.
Print Assumptions c45_metadata.

Example ex_c45_metadata : exists t, to_metadata (YDict [("x"%string, YLeaf 1)]) (Some (YLeaf 5)) (Some (YDict [("n"%string, YLeaf 7)])) = Ok t /\
  from_metadata t = (YDict [("x"%string, YLeaf 1)], Some (YLeaf 5), Some (YDict [("n"%string, YLeaf 7)])).
Proof. eexists. split; reflexivity. Qed.

(** metadata that consist of [None]s are lost *)
Theorem c45_metadata_refuted : exists t, to_metadata (YDict [("x"%string, YLeaf 1)]) (Some (YDict [("a"%string, YNone)])) None = Ok t /\
  from_metadata t = (YDict [("x"%string, YLeaf 1)], None, None).
Proof. eexists. split; reflexivity. Qed.
Print Assumptions c45_metadata_refuted.

(** objects whose tree is not a dictionary cannot have metadata *)
Theorem c45_no_dict : forall t meta user, (forall d, t <> YDict d) ->
  to_metadata t meta user = Err TypeError <-> (exists a, meta = Some a /\ truthy a = true) \/ (exists a, user = Some a /\ truthy a = true).
Proof.
  intros t meta user N. unfold to_metadata, assign. split.
  - intros E. destruct meta as [m|]; cbn [bind] in E.
    + destruct (truthy m) eqn:T; [left; eauto|]. cbn [bind] in E. destruct user as [u|]; [|discriminate]. destruct (truthy u) eqn:U; [right; eauto|discriminate].
    + destruct user as [u|]; [|discriminate]. destruct (truthy u) eqn:U; [right; eauto|discriminate].
  - assert (Q : match t with YDict d => Ok (YDict d) | _ => @Err yaml TypeError end = Err TypeError) by (destruct t; try reflexivity; destruct (N d eq_refl)).
    intros [(a & -> & T)|(a & -> & T)].
    + cbn [bind]. rewrite T. destruct t; try reflexivity. destruct (N d eq_refl).
    + destruct meta as [m|]; cbn [bind].
      * destruct (truthy m); cbn [bind]; [|rewrite T]; destruct t; try reflexivity; destruct (N d eq_refl).
      * rewrite T. destruct t; try reflexivity. destruct (N d eq_refl).
Qed.
Print Assumptions c45_no_dict.

(** * C46: dataclasses *)
(** writing an object whose string lists are not sorted changes it *)
Theorem c46_refuted : forall mod_, fst (dataclass_tree true mod_ [("names"%string, FStrs ["b"%string; "a"%string])]) = [("names"%string, FStrs ["a"%string; "b"%string])].
Proof. reflexivity. Qed.
Print Assumptions c46_refuted.

(** exactly those objects stay that have sorted lists of strings only *)
Theorem c46_unchanged : forall mod_ obj, fst (dataclass_tree true mod_ obj) = obj <-> forall k l, In (k, FStrs l) obj -> Sorted le_string l.
Proof.
  intros mod_ obj. cbn [dataclass_tree fst]. unfold sort_fields. induction obj as [|[k f] r IH].
  - split; [intros _ k l []|reflexivity].
  - cbn [map fst snd]. split.
    + intros E. injection E as E1 E2. intros j l [I|I]; [|exact (proj1 IH E2 j l I)]. injection I as <- ->.
      injection E1 as E1. rewrite <- E1, sorted_isort. apply StronglySorted_Sorted, isort_sorted; [apply leb_total'|apply leb_trans].
    + intros H. f_equal; [|apply IH; intros j l I; apply (H j l); right; exact I]. f_equal. destruct f as [l|n]; [|reflexivity].
      f_equal. rewrite sorted_isort. apply isort_id. apply (H k l). left. reflexivity.
Qed.
Print Assumptions c46_unchanged.

(** the change is a sorting of the string lists, nothing else *)
Theorem c46_permuted : forall mod_ obj, Forall2 (fun p q => fst p = fst q /\
    match snd p, snd q with FStrs l, FStrs l' => Permutation l l' /\ Sorted le_string l' | FOther n, FOther m => n = m | _, _ => False end)
  obj (fst (dataclass_tree true mod_ obj)).
Proof.
  intros mod_ obj. cbn [dataclass_tree fst]. unfold sort_fields. induction obj as [|[k [l|n]] r IH]; cbn [map fst snd]; constructor; try exact IH; cbn; split; try reflexivity.
  rewrite sorted_isort. split; [apply isort_perm|]. apply StronglySorted_Sorted, isort_sorted; [apply leb_total'|apply leb_trans].
Qed.
Print Assumptions c46_permuted.

(** without sorting the object stays and the tree is the modified state; the second
    writing of an object changes nothing *)
Theorem c46_unsorted : forall mod_ obj, dataclass_tree false mod_ obj = (obj, mod_ obj).
Proof. reflexivity. Qed.
Print Assumptions c46_unsorted.
Theorem c46_stable : forall mod_ obj, let once := dataclass_tree true mod_ obj in dataclass_tree true mod_ (fst once) = once.
Proof.
  intros mod_ obj once. assert (E : fst (dataclass_tree true mod_ (fst once)) = fst once).
  { apply c46_unchanged. intros k l I. pose proof (c46_permuted mod_ obj) as P. unfold once in I. revert I. generalize dependent (fst (dataclass_tree true mod_ obj)).
    clear. intros o P. induction P as [|p q r s [_ H] P IH]; intros []; [|auto]. subst q. cbn in H. destruct (snd p); [apply H|destruct H]. }
  change (sort_fields (sort_fields obj) = sort_fields obj) in E. change ((sort_fields (sort_fields obj), mod_ (sort_fields (sort_fields obj))) = once). rewrite E. reflexivity.
Qed.
Print Assumptions c46_stable.

(** * C47: tags *)
(** the text of a tag is read as its base and its numbers *)
Theorem c47_parse : forall base l, l <> [] -> Forall is_number l ->
  base_tag (tag_text base l) = base /\ parse_release None (version_text (tag_text base l)) = Some (map number l).
Proof. intros base l N F. destruct (tag_parts base l F) as [A B]. split; [exact A|]. rewrite B. apply parse_text; assumption. Qed.
Print Assumptions c47_parse.
Example ex_c47_parse : tag_text "weldx:core/a" [[0]; [1]; [1; 0]] = "weldx:core/a-0.1.10"%string /\ map number [[0]; [1]; [1; 0]] = [0; 1; 10].
Proof. split; reflexivity. Qed.

(** the selected tag is one of the tags, none is newer, and its base is a prefix of
    all *)
Theorem c47_highest : forall tags t, highest_tag tags = Ok (Some t) ->
  In t tags /\ forall t', In t' tags -> String.prefix (base_tag t) t' = true /\
    exists v v', parse_release None (version_text t) = Some v /\ parse_release None (version_text t') = Some v' /\ not_newer v' v.
Proof.
  intros tags t E. unfold highest_tag in E. destruct tags as [|t0 r]; [discriminate|]. set (tags := t0 :: r) in *.
  destruct (parse_all tags) as [l|] eqn:P; [|discriminate]. cbn [bind] in E. destruct (parse_all_ok tags l P) as [F V].
  rewrite last_map, sort_tags_isort in E.
  destruct (isort_last _ tag_le tag_le_total tag_le_trans l) as ([m v] & L & I & M).
  { intros ->. discriminate F. }
  rewrite L in E. cbn [option_map fst] in E. destruct (forallb (String.prefix (base_tag m)) tags) eqn:B; [|discriminate]. injection E as <-.
  split; [rewrite <- F; apply (in_map fst _ _ I)|]. intros t' I'. rewrite forallb_forall in B. split; [apply B, I'|].
  rewrite <- F in I'. apply in_map_iff in I'. destruct I' as ([t'' v'] & <- & I'). exists v, v'. cbn [fst].
  split; [apply V, I|]. split; [apply V, I'|]. destruct (M (t'', v') I') as [Q|Q]; [injection Q as <- <-; left; reflexivity|]. apply release_le_iff. exact Q.
Qed.
Print Assumptions c47_highest.

(** for tags with one base the newest is found *)
Theorem c47_found : forall base (vs : list (list (list nat))), vs <> [] -> (forall l, In l vs -> l <> [] /\ Forall is_number l) ->
  exists l, In l vs /\ highest_tag (map (tag_text base) vs) = Ok (Some (tag_text base l)) /\ forall l', In l' vs -> not_newer (map number l') (map number l).
Proof.
  intros base vs N H.
  assert (P : parse_all (map (tag_text base) vs) = Ok (map (fun l => (tag_text base l, map number l)) vs)).
  { clear N. induction vs as [|l r IH]; [reflexivity|]. destruct (H l (or_introl eq_refl)) as [A B]. cbn [map parse_all].
    rewrite (proj2 (c47_parse base l A B)). rewrite IH by (intros l' I; apply H; right; exact I). reflexivity. }
  assert (X : exists t, highest_tag (map (tag_text base) vs) = Ok (Some t)).
  { unfold highest_tag. destruct (map (tag_text base) vs) as [|s0 l0] eqn:E; [destruct vs; [contradiction|discriminate]|]. rewrite <- E in *. clear E. rewrite P. cbn [bind].
    rewrite last_map, sort_tags_isort.
    destruct (isort_last _ tag_le tag_le_total tag_le_trans (map (fun l => (tag_text base l, map number l)) vs)) as (m & L & I & _).
    { destruct vs; [contradiction|discriminate]. }
    rewrite L. cbn [option_map]. apply in_map_iff in I. destruct I as (l & <- & I). cbn [fst]. destruct (H l I) as [A B]. rewrite (proj1 (c47_parse base l A B)).
    assert (F : forallb (String.prefix base) (map (tag_text base) vs) = true).
    { apply forallb_forall. intros t T. apply in_map_iff in T. destruct T as (l' & <- & _). unfold tag_text. generalize ("-" ++ release_text l')%string. clear.
      induction base as [|c b IH]; intros s; [destruct s; reflexivity|]. cbn. destruct (ascii_dec c c); [apply IH|congruence]. }
    rewrite F. eauto. }
  destruct X as (t & X). destruct (c47_highest _ _ X) as [I M]. apply in_map_iff in I. destruct I as (l & <- & I). exists l. split; [exact I|]. split; [exact X|].
  intros l' I'. destruct (M _ (in_map (tag_text base) _ _ I')) as (_ & v & v' & A & B & C).
  destruct (H l I) as [A1 A2], (H l' I') as [B1 B2]. rewrite (proj2 (c47_parse base l A1 A2)) in A. rewrite (proj2 (c47_parse base l' B1 B2)) in B. congruence.
Qed.
Print Assumptions c47_found.
Example ex_c47_found : highest_tag ["a-0.1.9"%string; "a-0.1.10"%string; "a-0.1"%string] = Ok (Some "a-0.1.10"%string).
Proof. reflexivity. Qed.

(** nothing is selected only from nothing *)
Theorem c47_none : forall tags, highest_tag tags = Ok None <-> tags = [].
Proof.
  intros [|t r]; [split; reflexivity|]. split; [|discriminate]. intros E. unfold highest_tag in E. destruct (parse_all (t :: r)) as [l|] eqn:P; [|discriminate].
  cbn [bind] in E. rewrite last_map, sort_tags_isort in E. destruct (parse_all_ok _ l P) as [F _].
  destruct (isort_last _ tag_le tag_le_total tag_le_trans l) as (m & L & _); [intros ->; discriminate F|]. rewrite L in E. cbn [option_map] in E.
  destruct (forallb _ _); discriminate.
Qed.
Print Assumptions c47_none.

(** other bases are found by comparing a prefix only: a tag with a longer name is
    accepted if the shorter one has the newest version, and refused otherwise *)
Theorem c47_base_refuted :
  highest_tag ["timedelta-0.1.1"%string; "timedeltaindex-0.1.0"%string] = Ok (Some "timedelta-0.1.1"%string) /\
  highest_tag ["timedelta-0.1.0"%string; "timedeltaindex-0.1.1"%string] = Err ValueError.
Proof. split; reflexivity. Qed.
Print Assumptions c47_base_refuted.

(** bases that are not prefixes of each other are refused *)
Theorem c47_rejects : forall tags t t', In t tags -> In t' tags ->
  (forall b, In b (map base_tag tags) -> String.prefix b t = false \/ String.prefix b t' = false) ->
  exists e, highest_tag tags = Err e.
Proof.
  intros tags t t' I I' H. destruct (highest_tag tags) as [[m|]|e] eqn:E; [| |eauto].
  - destruct (c47_highest tags m E) as [J M]. destruct (M t I) as [A _], (M t' I') as [B _]. destruct (H (base_tag m) (in_map base_tag _ _ J)); congruence.
  - apply c47_none in E. subst. destruct I.
Qed.
Print Assumptions c47_rejects.
Example ex_c47_rejects : highest_tag ["a-0.1.0"%string; "b-0.1.1"%string] = Err ValueError.
Proof. reflexivity. Qed.

(** [select_tag] takes the last tag in the order of strings *)
Theorem c47_select : forall tags t, select_tag tags = Ok t -> In t tags /\ forall t', In t' tags -> le_string t' t.
Proof.
  intros tags t E. unfold select_tag in E. rewrite sorted_isort in E. destruct tags as [|x r]; [discriminate|].
  destruct (isort_last string String.leb leb_total' leb_trans (x :: r)) as (m & L & I & M); [discriminate|]. rewrite L in E. injection E as <-.
  split; [exact I|]. intros t' I'. destruct (M t' I') as [->|Q]; [|exact Q]. unfold le_string. apply leb_iff. rewrite compare_refl. discriminate.
Qed.
Print Assumptions c47_select.

(** which is not the newest as soon as a number has two digits *)
Theorem c47_select_refuted : select_tag ["a-0.1.9"%string; "a-0.1.10"%string] = Ok "a-0.1.9"%string.
Proof. reflexivity. Qed.
Print Assumptions c47_select_refuted.

(** with one digit each it is *)
Theorem c47_select_single : forall base (vs : list (list nat)) t, vs <> [] -> (forall l, In l vs -> l <> [] /\ Forall (fun d => d < 10) l) ->
  select_tag (map (fun l => tag_text base (map (fun d => [d]) l)) vs) = Ok t ->
  exists l, In l vs /\ t = tag_text base (map (fun d => [d]) l) /\ forall l', In l' vs -> not_newer l' l.
Proof.
  intros base vs t N H E. destruct (c47_select _ _ E) as [I M]. apply in_map_iff in I. destruct I as (l & <- & I). exists l. split; [exact I|]. split; [reflexivity|].
  intros l' I'. specialize (M _ (in_map (fun l => tag_text base (map (fun d => [d]) l)) _ _ I')). cbv beta in M.
  destruct (H l I) as [Q1 F1], (H l' I') as [Q2 F2]. revert M. unfold le_string. rewrite leb_iff. unfold tag_text.
  assert (PRE : forall a b, String.compare (base ++ a)%string (base ++ b)%string = String.compare a b).
  { intros a b. clear. induction base as [|c r IH]; [reflexivity|]. cbn. unfold Ascii.compare. rewrite N.compare_refl. exact IH. }
  rewrite PRE. cbn [append String.compare]. unfold Ascii.compare at 1. rewrite N.compare_refl. clear - Q1 F1 Q2 F2.
  assert (DIG : forall d, d < 10 -> N_of_ascii (ascii_of_nat (48 + d)) = N.of_nat (48 + d)) by (intros d L; do 10 (destruct d as [|d]; [reflexivity|]); lia).
  revert l Q1 F1. induction l' as [|x l' IH]; [congruence|]. intros [|y l] Q1 F1; [congruence|]. inversion F1 as [|? ? LY FY]; subst. inversion F2 as [|? ? LX FX]; subst.
  assert (HEAD : forall d r, exists s, release_text (map (fun d => [d]) (d :: r)) = String (ascii_of_nat (48 + d)) s /\
                 s = match r with [] => ""%string | _ => String "."%char (release_text (map (fun d => [d]) r)) end).
  { intros d [|e r]; eexists; split; reflexivity. }
  destruct (HEAD x l') as (s & -> & ->), (HEAD y l) as (s' & -> & ->). cbn [String.compare]. unfold Ascii.compare at 1. rewrite !DIG by assumption.
  destruct (N.compare_spec (N.of_nat (48 + x)) (N.of_nat (48 + y))) as [E|L|L].
  - assert (x = y) by lia. subst y. destruct l' as [|x' l'], l as [|y' l].
    + intros _. left. reflexivity.
    + intros _. apply release_le_iff. cbn [release_le]. rewrite Nat.eqb_refl, orb_true_r. reflexivity.
    + cbn. congruence.
    + cbn [String.compare]. unfold Ascii.compare at 1. rewrite N.compare_refl. intros Q. specialize (IH ltac:(discriminate) FX (y' :: l) ltac:(discriminate) FY Q).
      apply release_le_iff. apply release_le_iff in IH. change (release_le (x :: x' :: l') (x :: y' :: l)) with ((x <? x) || ((x =? x) && release_le (x' :: l') (y' :: l))).
      rewrite IH, Nat.eqb_refl. apply orb_true_r.
  - intros _. right. exists 0. split; [intros j J; lia|cbn; lia].
  - congruence.
Qed.
Print Assumptions c47_select_single.
Example ex_c47_select_single : select_tag ["a-0.1.2"%string; "a-0.2.0"%string; "a-0.1.9"%string] = Ok "a-0.2.0"%string.
Proof. reflexivity. Qed.

(** * C51: frequencies *)
(** a multiple of a fixed frequency is converted to the same multiple of a current
    name with the same length *)
Theorem c51_alias : forall ds a n, Forall (fun d => d < 10) ds -> In (a, n) (old_alias ++ new_alias) ->
  exists a', convert_freq (number_text ds ++ a)%string = (number_text ds ++ a')%string /\ In (a', n) new_alias.
Proof.
  intros ds a n F I. exists (convert_freq a). split; [rewrite convert_app, convert_number by exact F; reflexivity|].
  cbn [old_alias new_alias app In] in I. repeat (destruct I as [I|I]; [injection I as <- <-; unfold new_alias; cbn; tauto|]). destruct I.
Qed.
Print Assumptions c51_alias.
Example ex_c51_alias : convert_freq "15T" = "15min"%string /\ convert_freq "L" = "ms"%string /\ convert_freq "500ms" = "500ms"%string.
Proof. repeat split; reflexivity. Qed.

(** converting twice is converting once *)
Theorem c51_stable : forall ds a n, Forall (fun d => d < 10) ds -> In (a, n) (old_alias ++ new_alias) ->
  convert_freq (convert_freq (number_text ds ++ a)%string) = convert_freq (number_text ds ++ a)%string.
Proof.
  intros ds a n F I. rewrite convert_app, (convert_number ds F), convert_app, (convert_number ds F). f_equal.
  cbn [old_alias new_alias app In] in I. repeat (destruct I as [I|I]; [injection I as <- <-; reflexivity|]). destruct I.
Qed.
Print Assumptions c51_stable.

(** anchored weeks, which pandas infers for steps of seven days, get a meaningless
    name *)
Theorem c51_week_refuted : convert_freq "W-THU" = "W-minhus"%string /\ convert_freq "W-SUN" = "W-susns"%string.
Proof. split; reflexivity. Qed.
Print Assumptions c51_week_refuted.

Section Index.
  Variable inferred : list Z -> option string.
  Variable freq_ns : string -> option Z.

  (** an index without frequency is kept *)
  Theorem c51_values : forall v, v <> [] -> inferred v = None -> exists t, tdi_to_tree inferred v = Ok t /\ tdi_from_tree freq_ns t = Ok v.
  Proof. intros [|x r] N I; [congruence|]. unfold tdi_to_tree. rewrite I. eexists. split; [reflexivity|]. reflexivity. Qed.

  (** an index with frequency is kept if the name stands for its step after the
      conversion *)
  Theorem c51_round_trip : forall a d n f, (0 < d)%Z -> inferred (progression a d (S n)) = Some f -> freq_ns (convert_freq f) = Some d ->
    exists t, tdi_to_tree inferred (progression a d (S n)) = Ok t /\ tdi_from_tree freq_ns t = Ok (progression a d (S n)).
  Proof.
    intros a d n f D I Q. unfold tdi_to_tree. assert (E : exists r, progression a d (S n) = (a + 0 * d)%Z :: r) by (eexists; reflexivity). destruct E as (r & E). rewrite E, <- E, I.
    eexists. split; [reflexivity|]. unfold tdi_from_tree. cbn [i_freq i_start i_end]. rewrite Q. f_equal.
    assert (L : last (progression a d (S n)) 0%Z = (a + Z.of_nat n * d)%Z).
    { unfold progression. rewrite seq_S, map_app. cbn [map]. rewrite last_last. reflexivity. }
    rewrite L. unfold td_range. destruct (Z.ltb_spec (a + Z.of_nat n * d) (a + 0 * d)); [nia|].
    replace (a + Z.of_nat n * d - (a + 0 * d))%Z with (Z.of_nat n * d)%Z by lia. rewrite Z.div_mul by lia. rewrite Nat2Z.id.
    unfold progression. apply map_ext. intros i. lia.
  Qed.

  (** an empty index cannot be written *)
  Theorem c51_empty_refuted : tdi_to_tree inferred [] = Err IndexError.
  Proof. reflexivity. Qed.
End Index.
Print Assumptions c51_values.
Print Assumptions c51_round_trip.
Print Assumptions c51_empty_refuted.
Example ex_c51_round_trip :
  let inferred := fun _ => Some "S"%string in
  let freq_ns := fun s => if String.eqb s "s" then Some 1000000000%Z else None in
  exists t, tdi_to_tree inferred [0; 1000000000; 2000000000]%Z = Ok t /\ tdi_from_tree freq_ns t = Ok [0; 1000000000; 2000000000]%Z.
Proof. apply (c51_round_trip _ _ 0 1000000000 2 "S"); reflexivity. Qed.
