(** Theorems about history entries of files (C136). *)
From Coq Require Import List String Bool Arith Lia.
From Verif Require Import Base HistModel.
Import ListNotations.
Open Scope string_scope.

(** Spec: the content of the history of a file. *)
Definition entries (h : heap) (f : file) : list (option entry) :=
  match f_hist f with
  | None => []
  | Some l => map (nth_error (h_entries h)) (nth l (h_lists h) [])
  end.

(** Spec: the objects of the file exist. *)
Definition good (h : heap) (f : file) : Prop :=
  f_soft f < List.length (h_dicts h) /\
  forall l, f_hist f = Some l ->
    l < List.length (h_lists h) /\ forall i, In i (nth l (h_lists h) []) -> i < List.length (h_entries h).

Lemma upd_length : forall (T : Type) (l : list T) i x, List.length (upd l i x) = List.length l.
Proof. induction l; destruct i; cbn; intros; auto. Qed.
Lemma upd_nth : forall (T : Type) (l : list T) i j x d,
  nth j (upd l i x) d = if Nat.eqb j i then (if Nat.ltb i (List.length l) then x else d) else nth j l d.
Proof.
  induction l as [|a l IH]; intros i j x d.
  - cbn. destruct i, j; cbn; try reflexivity. destruct (Nat.eqb j i); reflexivity.
  - destruct i, j; cbn [upd nth List.length]; try reflexivity. rewrite IH. cbn. reflexivity.
Qed.
Lemma map_entries_app : forall (es : list entry) e l, (forall i, In i l -> i < List.length es) ->
  map (nth_error (es ++ [e])%list) l = map (nth_error es) l.
Proof. intros es e l H. apply map_ext_in. intros i Hi. apply nth_error_app1. now apply H. Qed.

Section Proofs.
  Variable valid : dict string -> bool.
  Variable version : string.

  (** The setter accepts dictionaries with a valid content, which it keeps, and nothing, for which
      there is a new entry of weldx; everything else is a ValueError. *)
  Theorem c136_setter : forall h f a,
    match assign valid version h f a with
    | Ok (f', h') =>
        (a = ADict (f_soft f') /\ valid (dict_at h (f_soft f')) = true /\ h' = h \/
         a = ANone /\ dict_at h' (f_soft f') = weldx_entry version /\ List.length (h_dicts h) <= f_soft f' /\
         forall r, r < List.length (h_dicts h) -> dict_at h' r = dict_at h r)
        /\ entries h' f' = entries h f
    | Err e => e = ValueError /\ (a = AOther \/ exists r, a = ADict r /\ valid (dict_at h r) = false)
    end.
  Proof.
    intros h f a. unfold assign, set_entry. destruct a as [|r|]; cbn [bind fst snd].
    - split; [right|reflexivity]. cbn. split; [reflexivity|]. unfold dict_at. cbn. split; [|split; [lia|]].
      + rewrite app_nth2, Nat.sub_diag by lia. reflexivity.
      + intros r Hr. now rewrite app_nth1.
    - destruct (valid (dict_at h r)) eqn:Ev; cbn [bind fst snd].
      + split; [left|reflexivity]. cbn. auto.
      + split; [reflexivity|]. right. now exists r.
    - auto.
  Qed.

  (** A new entry with the given or the default software is appended. *)
  Theorem c136_added : forall h f desc sw f' h', good h f ->
    (match sw with Some r => r < List.length (h_dicts h) | None => True end) ->
    add_entry valid h f desc sw = Ok (f', h') ->
    entries h' f' = (entries h f ++ [Some (Entry desc (dict_at h (match sw with Some r => r | None => f_soft f end)))])%list
    /\ good h' f' /\ f_soft f' = f_soft f /\ h_dicts h' = h_dicts h.
  Proof.
    intros h f desc sw f' h' [G1 G2] Hsw H. unfold add_entry in H.
    replace (match sw with Some r => r | None => f_soft f end)
      with (match sw with None => f_soft f | Some s => s end) by (destruct sw; reflexivity).
    set (r := match sw with None => f_soft f | Some s => s end) in *.
    destruct (valid (dict_at h r)); [|discriminate].
    unfold entries. destruct (f_hist f) as [l|] eqn:Eh; injection H as <- <-; cbn [f_hist f_soft h_dicts h_entries h_lists].
    - rewrite Eh. destruct (G2 l eq_refl) as [Hl Hi].
      assert (El : nth l (upd (h_lists h) l (list_at h l ++ [List.length (h_entries h)])%list) [] = (list_at h l ++ [List.length (h_entries h)])%list).
      { rewrite upd_nth, Nat.eqb_refl. apply Nat.ltb_lt in Hl. now rewrite Hl. }
      rewrite El, map_app. cbn [map]. rewrite nth_error_app2, Nat.sub_diag by lia.
      unfold list_at at 1. rewrite map_entries_app by exact Hi. split; [reflexivity|].
      split; [|split; reflexivity]. split; [exact G1|]. intros l2 E2. rewrite Eh in E2. injection E2 as <-. cbn.
      rewrite upd_length, El. split; [exact Hl|]. intros i Hin. rewrite app_length. cbn.
      apply in_app_or in Hin as [Hin|[<-|[]]]; [|lia]. specialize (Hi i Hin). lia.
    - rewrite app_nth2, Nat.sub_diag by lia. cbn [nth map app]. rewrite nth_error_app2, Nat.sub_diag by lia.
      split; [reflexivity|]. split; [|split; reflexivity]. split; [exact G1|]. cbn. intros l2 E2. injection E2 as <-.
      rewrite app_nth2, Nat.sub_diag, app_length by lia. cbn. split; [lia|]. intros i [<-|[]]. rewrite app_length. cbn. lia.
  Qed.

  (** It fails exactly for dictionaries with an invalid content. *)
  Theorem c136_failed : forall h f desc sw,
    add_entry valid h f desc sw = Err ValidationError <->
    valid (dict_at h (match sw with Some r => r | None => f_soft f end)) = false.
  Proof.
    intros h f desc sw. unfold add_entry.
    replace (match sw with Some r => r | None => f_soft f end)
      with (match sw with None => f_soft f | Some s => s end) by (destruct sw; reflexivity).
    destruct (valid _); [|split; reflexivity]. destruct (f_hist f); split; discriminate.
  Qed.

  (** Entries do not change together with the dictionaries they were made from. *)
  Theorem c136_kept : forall h f r k v, entries (change_dict h r k v) f = entries h f.
  Proof. reflexivity. Qed.

  (** The list that [history] returns has the entries of the file; changing it does not
      change the file. *)
  Theorem c136_history : forall h f l h' x, good h f -> history h f = (l, h') ->
    map (nth_error (h_entries h')) (list_at h' l) = entries h f /\
    entries h' f = entries h f /\ entries (change_list h' l x) f = entries h f.
  Proof.
    intros h f l h' x [_ G] H. unfold history in H. injection H as <- <-. cbn. unfold list_at, entries.
    cbn [h_lists h_entries change_list]. rewrite app_nth2, Nat.sub_diag by lia. cbn [nth].
    destruct (f_hist f) as [m|]; [|repeat split]. destruct (G m eq_refl) as [Hm _].
    unfold list_at. rewrite upd_nth. rewrite app_nth1 by exact Hm.
    destruct (Nat.eqb_spec m (List.length (h_lists h))); [lia|]. repeat split.
  Qed.

  (** A copy has the same history, of its own. *)
  Theorem c136_copied : forall h f f' h' desc sw f2 h2, good h f ->
    copy_file valid version h f = Ok (f', h') ->
    entries h' f' = entries h f /\ entries h' f = entries h f /\ f_soft f' = f_soft f /\
    (add_entry valid h' f' desc sw = Ok (f2, h2) -> entries h2 f = entries h f) /\
    (add_entry valid h' f desc sw = Ok (f2, h2) -> entries h2 f' = entries h f).
  Proof.
    intros h f f' h' desc sw f2 h2 [G1 G2] H. unfold copy_file, set_entry in H.
    destruct (valid (dict_at h (f_soft f))); [|discriminate]. cbn [bind fst snd] in H.
    destruct (f_hist f) as [l|] eqn:Eh; injection H as <- <-.
    - destruct (G2 l eq_refl) as [Hl Hi].
      set (es := map (fun i => nth i (h_entries h) (Entry "" [])) (list_at h l)).
      assert (A1 : map (nth_error (h_entries h ++ es)%list) (seq (List.length (h_entries h)) (List.length es))
                   = map (nth_error (h_entries h)) (nth l (h_lists h) [])).
      { transitivity (map Some es).
        - apply nth_ext with (d := None) (d' := None); [now rewrite !map_length, seq_length|].
          intros j Hj. rewrite map_length, seq_length in Hj.
          rewrite (nth_indep _ None (nth_error (h_entries h ++ es)%list 0)) by (rewrite map_length, seq_length; exact Hj).
          rewrite map_nth, seq_nth by exact Hj. rewrite nth_error_app2 by lia.
          replace (List.length (h_entries h) + j - List.length (h_entries h)) with j by lia.
          rewrite (nth_indep _ None (Some (Entry "" []))) by (rewrite map_length; exact Hj).
          rewrite map_nth. apply nth_error_nth'. exact Hj.
        - unfold es. rewrite map_map. apply map_ext_in. intros i Hin. symmetry. apply nth_error_nth'. now apply Hi. }
      assert (A2 : map (nth_error (h_entries h ++ es)%list) (nth l (h_lists h) []) = map (nth_error (h_entries h)) (nth l (h_lists h) [])).
      { apply map_ext_in. intros i Hin. apply nth_error_app1. now apply Hi. }
      assert (A3 : forall e i, In i (nth l (h_lists h) []) -> nth_error ((h_entries h ++ es) ++ [e])%list i = nth_error (h_entries h) i).
      { intros e i Hin. specialize (Hi i Hin). rewrite !nth_error_app1; [reflexivity|exact Hi|rewrite app_length; lia]. }
      unfold entries. cbn [f_hist f_soft h_entries h_lists h_dicts]. rewrite Eh.
      rewrite app_nth2, Nat.sub_diag by lia. cbn [nth]. rewrite (app_nth1 (h_lists h)) by exact Hl.
      split; [exact A1|]. split; [exact A2|]. split; [reflexivity|].
      unfold add_entry. cbn [f_hist f_soft h_entries h_lists h_dicts].
      split; intro H; destruct (valid _); try discriminate.
      + injection H as <- <-. cbn [h_entries h_lists]. rewrite upd_nth.
        destruct (Nat.eqb_spec l (List.length (h_lists h))); [lia|]. rewrite app_nth1 by exact Hl.
        apply map_ext_in. intros i Hin. now apply A3.
      + rewrite Eh in H. injection H as <- <-. cbn [h_entries h_lists]. rewrite upd_nth.
        destruct (Nat.eqb_spec (List.length (h_lists h)) l); [lia|]. rewrite app_nth2, Nat.sub_diag by lia. cbn [nth].
        rewrite <- A1. apply map_ext_in. intros i Hin. apply in_seq in Hin. apply nth_error_app1. rewrite app_length. lia.
    - unfold entries. cbn [f_hist f_soft]. rewrite Eh. repeat split.
  Qed.
End Proofs.
Print Assumptions c136_setter.
Print Assumptions c136_added.
Print Assumptions c136_failed.
Print Assumptions c136_kept.
Print Assumptions c136_history.
Print Assumptions c136_copied.

(** The schema of software: a name and a version. *)
Definition ex_valid (d : dict string) : bool := dmem "name" d && dmem "version" d.
Definition ex_soft : dict string := [("name", "MyTool"); ("version", "1.0")].
Definition ex_heap : heap := Heap [ex_soft] [] [].
Example ex_c136 : exists f h f2 h2, new_file ex_valid "0.7" ex_heap (ADict 0) = Ok (f, h) /\ good h f /\
  add_entry ex_valid h f "change" None = Ok (f2, h2) /\ entries h2 f2 = [Some (Entry "change" ex_soft)].
Proof.
  eexists _, _, _, _. split; [vm_compute; reflexivity|]. split; [|split; vm_compute; reflexivity].
  split; [cbn; lia|]. intros l H. discriminate.
Qed.

(** The entry of a file is not protected from changes: it is the given dictionary, whose
    content is not checked again ... *)
Theorem c136_valid_refuted :
  ~ (forall valid version h f a f' h' r k v, assign valid version h f a = Ok (f', h') ->
       valid (dict_at (change_dict h' r k v) (f_soft f')) = true).
Proof.
  intro H.
  specialize (H (fun d => match dget "name" d with Some t => negb (String.eqb t "") | None => false end) ""
    ex_heap (File 0 None) (ADict 0) _ _ 0 "name" "" eq_refl).
  vm_compute in H. discriminate.
Qed.
Print Assumptions c136_valid_refuted.

(** ... and it is shared with copies of the file. *)
Theorem c136_shared_refuted :
  ~ (forall valid version h f f' h' k v, good h f -> copy_file valid version h f = Ok (f', h') ->
       dict_at (change_dict h' (f_soft f) k v) (f_soft f') = dict_at h' (f_soft f')).
Proof.
  intro H.
  specialize (H ex_valid "" ex_heap (File 0 None) _ _ "name" "other"
    ltac:(split; [cbn; lia|intros l E1; discriminate]) eq_refl).
  vm_compute in H. discriminate.
Qed.
Print Assumptions c136_shared_refuted.

(** The entries in the result of [history] are those of the file, not copies. *)
Theorem c136_entry_refuted :
  ~ (forall h f l h' i e, good h f -> history h f = (l, h') -> In i (list_at h' l) ->
       entries (change_entry h' i e) f = entries h' f).
Proof.
  intro H.
  specialize (H (Heap [ex_soft] [Entry "a" ex_soft] [[0]]) (File 0 (Some 0)) 1 (Heap [ex_soft] [Entry "a" ex_soft] [[0]; [0]]) 0 (Entry "b" [])).
  specialize (H ltac:(split; [cbn; lia|intros l E1; injection E1 as <-; cbn; split; [lia|intros i [<-|[]]; lia]])
                eq_refl ltac:(left; reflexivity)).
  vm_compute in H. discriminate.
Qed.
Print Assumptions c136_entry_refuted.

(** The entry of weldx names the package, its author, its homepage and the version. *)
Theorem c136_default : forall (version : string),
  dget "name" (weldx_entry version) = Some "weldx" /\ dget "author" (weldx_entry version) = Some "BAM" /\
  dget "homepage" (weldx_entry version) = Some "https://www.bam.de/Content/EN/Projects/WelDX/weldx.html" /\
  dget "version" (weldx_entry version) = Some version /\ List.length (weldx_entry version) = 4.
Proof. intro version. now repeat split. Qed.
Print Assumptions c136_default.
