(** Lemmas on the unit validator. *)
From Coq Require Import List String Ascii Bool Arith Lia.
From Verif Require Import Base TagModel TagSpec TagFacts UnitValModel UnitValSpec.
Import ListNotations.
Open Scope string_scope.
Open Scope list_scope.

(** ** Induction *)
Section TInd.
  Variable P : tnode -> Prop.
  Hypothesis H1 : P TNum.
  Hypothesis H2 : P TNull.
  Hypothesis H3 : forall s t, P (TStr s t).
  Hypothesis H4 : forall l t, P (TList l t).
  Hypothesis H5 : forall d t, (forall k c, In (k, c) d -> P c) -> P (TMap d t).
  Fixpoint tnode_ind2 (n : tnode) : P n :=
    match n with
    | TNum => H1
    | TNull => H2
    | TStr s t => H3 s t
    | TList l t => H4 l t
    | TMap d t => H5 d t
        ((fix go (d : list (string * tnode)) : forall k c, In (k, c) d -> P c :=
            match d with
            | [] => fun k c i => match i with end
            | (k', c') :: r => fun k c i =>
                match i with
                | or_introl e => match e in _ = y return P (snd y) with eq_refl => tnode_ind2 c' end
                | or_intror j => go r k c j
                end
            end) d)
    end.
End TInd.

Section VInd.
  Variable P : vspec -> Prop.
  Hypothesis H1 : forall e, P (VLeaf e).
  Hypothesis H2 : forall d, (forall k s, In (k, s) d -> P s) -> P (VDict d).
  Fixpoint vspec_ind2 (s : vspec) : P s :=
    match s with
    | VLeaf e => H1 e
    | VDict d => H2 d
        ((fix go (d : list (string * vspec)) : forall k s, In (k, s) d -> P s :=
            match d with
            | [] => fun k c i => match i with end
            | (k', c') :: r => fun k c i =>
                match i with
                | or_introl e => match e in _ = y return P (snd y) with eq_refl => vspec_ind2 c' end
                | or_intror j => go r k c j
                end
            end) d)
    end.
End VInd.

(** ** Access *)
Lemma dget_first : forall (A : Type) (d : list (string * A)) k c,
  dget k d = Some c <-> exists l r, d = l ++ (k, c) :: r /\ ~ In k (map fst l).
Proof.
  induction d as [|[k' c'] d IH]; intros k c; simpl.
  - split; [discriminate|]. intros [[|x l] [r [E _]]]; discriminate E.
  - destruct (String.eqb_spec k k') as [->|N].
    + split.
      * intro E. injection E as ->. exists [], d. split; [reflexivity|intros []].
      * intros [[|x l] [r [E M]]]; injection E; intros; subst; [reflexivity|].
        exfalso. apply M. left. reflexivity.
    + rewrite IH. split.
      * intros [l [r [-> M]]]. exists ((k', c') :: l), r. split; [reflexivity|].
        intros [E|I]; [apply N; symmetry; exact E|exact (M I)].
      * intros [[|x l] [r [E M]]]; injection E; intros; subst; [congruence|].
        exists l, r. split; [reflexivity|]. intro I. apply M. right. exact I.
Qed.

Lemma dget_in : forall (A : Type) (d : list (string * A)) k c, dget k d = Some c -> In (k, c) d.
Proof.
  intros A d k c G. apply dget_first in G. destruct G as [l [r [-> _]]].
  apply in_app_iff. right. left. reflexivity.
Qed.

Lemma node_at_cons : forall n k p m,
  node_at n (k :: p) m <-> exists c, getitem n k = Ok c /\ node_at c p m.
Proof.
  intros n k p m. split.
  - intro N. inversion N as [|d t k' c p' n' F N']; subst. exists c. split; [|exact N'].
    simpl. rewrite (proj2 (dget_first _ d k c) F). reflexivity.
  - intros [c [G N]]. destruct n; try discriminate G. simpl in G.
    destruct (dget k d) as [c'|] eqn:D; [|discriminate]. injection G as ->.
    apply dget_first in D. econstructor; eauto.
Qed.

Lemma node_at_one : forall n k c, node_at n [k] c <-> getitem n k = Ok c.
Proof.
  intros n k c. rewrite node_at_cons. split.
  - intros [c' [G N]]. inversion N. subst. exact G.
  - intro G. exists c. split; [exact G|constructor].
Qed.

Lemma node_at_fun : forall p n a b, node_at n p a -> node_at n p b -> a = b.
Proof.
  induction p as [|k p IH]; intros n a b A B.
  - inversion A. inversion B. congruence.
  - apply node_at_cons in A. apply node_at_cons in B.
    destruct A as [c [G A]]. destruct B as [c' [G' B]]. rewrite G in G'. injection G' as <-. exact (IH c a b A B).
Qed.

Lemma index_none : forall k s, index 0 k s = None <-> forall a b, s <> (a ++ k ++ b)%string.
Proof.
  intros k s. induction s as [|c s IH].
  - simpl. destruct k as [|x k]; split.
    + discriminate.
    + intro A. exfalso. apply (A ""%string ""%string). reflexivity.
    + intros _ [|y a] b; discriminate.
    + reflexivity.
  - pose proof (prefix_ex k (String c s)) as P. simpl. simpl in P.
    match goal with |- (if ?x then _ else _) = None <-> _ => destruct x eqn:X end.
    + split; [discriminate|]. intro A. exfalso. destruct (proj1 P eq_refl) as [b E]. exact (A ""%string b E).
    + destruct (index 0 k s) as [m|]; split; try discriminate; try reflexivity.
      * intro A. assert (Some m = None) as Y; [|discriminate Y]. apply IH. intros a b ->. apply (A (String c a) b). reflexivity.
      * intros _ [|y a] b E.
        -- discriminate (proj2 P (ex_intro _ b E)).
        -- simpl in E. injection E as -> E. exact (proj1 IH eq_refl a b E).
Qed.

Lemma dmem_in : forall {V} (d : dict V) k, dmem k d = true <-> In k (map fst d).
Proof.
  intros V d k. unfold dmem. induction d as [|[a x] d IH]; simpl; [split; [discriminate|intros []]|].
  destruct (String.eqb_spec k a) as [->|N]; [split; auto|]. rewrite IH. split; [auto|intros [E|I]; [congruence|exact I]].
Qed.

Lemma contains_lacks : forall n k, contains n k = Ok false <-> lacks n k.
Proof.
  intros n k. split.
  - destruct n as [| |s t|l t|d t]; simpl; intro C; try discriminate; injection C as C.
    + constructor. apply index_none. destruct (index 0 k s); [discriminate|reflexivity].
    + constructor. intros t' I. assert (existsb (fun x => match x with TStr s _ => String.eqb s k | _ => false end) l = true) as T;
        [|rewrite T in C; discriminate C].
      apply existsb_exists. exists (TStr k t'). split; [exact I|apply String.eqb_refl].
    + constructor. intro I. apply dmem_in in I. congruence.
  - intros [d t k' N|l t k' N|s t k' N]; simpl.
    + destruct (dmem k' d) eqn:D; [|reflexivity]. apply dmem_in in D. contradiction.
    + destruct (existsb _ l) eqn:X; [|reflexivity]. apply existsb_exists in X.
      destruct X as [[| |s t'| |] [I Q]]; try discriminate Q. apply String.eqb_eq in Q. subst. exfalso. exact (N t' I).
    + apply index_none in N. rewrite N. reflexivity.
Qed.

Section Units.
  Context {unit dim : Type} (parse : string -> res unit) (dimless : unit)
          (dimension : unit -> dim) (compatible : unit -> unit -> bool) (show : tnode -> string).
  Hypothesis compatible_iff : forall u x, compatible u x = true <-> dimension u = dimension x.

  Notation gu := (get_units parse dimless show).
  Notation uv := (unit_validator parse dimless compatible show).
  Notation wk := (walk parse dimless compatible show).
  Notation hu := (has_unit parse dimless show).
  Notation nu := no_unit.

  Lemma no_units_key : forall n, (forall v, ~ node_at n ["units"] v) <->
    match n with TMap d _ => dget "units" d = None | _ => True end.
  Proof.
    intro n. split.
    - intro A. destruct n; auto. destruct (dget "units" d) as [v|] eqn:D; [|reflexivity].
      exfalso. apply (A v). apply node_at_one. simpl. rewrite D. reflexivity.
    - intros A v N. apply node_at_one in N. destruct n; try discriminate N. simpl in N. rewrite A in N. discriminate N.
  Qed.

  Lemma is_array_iff : forall n t, tag_of n = Some t -> (is_array n <-> prefix ndarray_tag t = true).
  Proof.
    intros n t T. unfold is_array. rewrite prefix_ex. split.
    - intros [t' [s [T' ->]]]. rewrite T in T'. injection T' as ->. exists s. reflexivity.
    - intros [s ->]. exists (ndarray_tag ++ s)%string, s. split; [exact T|reflexivity].
  Qed.
  Lemma is_data_array_iff : forall n t, tag_of n = Some t -> (is_data_array n <-> uri_match data_array_tags t = true).
  Proof.
    intros n t T. unfold is_data_array, uri_match, data_array_tags. cbn [existsb]. rewrite orb_false_r, glob_denotes.
    split; [intros [t' [T' D]]; rewrite T in T'; injection T' as ->; exact D|eauto].
  Qed.
  Lemma untagged : forall n, tag_of n = None -> ~ is_array n /\ ~ is_data_array n.
  Proof. intros n T. split; [intros [t [s [T' _]]]|intros [t [T' _]]]; congruence. Qed.

  Definition dataf := fix data (d : list (string * tnode)) : res (option unit) :=
    match d with
    | [] => Err KeyError
    | (k, v) :: r => if String.eqb "data" k then gu v else data r
    end.
  Lemma dataf_eq : forall d, dataf d = match dget "data" d with Some v => gu v | None => Err KeyError end.
  Proof.
    induction d as [|[k v] d IH]; [reflexivity|].
    change (dataf ((k, v) :: d)) with (if String.eqb "data" k then gu v else dataf d).
    change (dget "data" ((k, v) :: d)) with (if String.eqb "data" k then Some v else dget "data" d).
    destruct (String.eqb "data" k); [reflexivity|exact IH].
  Qed.

  Lemma gu_map : forall d tag, gu (TMap d tag) =
    match dget "units" d with
    | Some v => bind (parse (pystr show v)) (fun u => Ok (Some u))
    | None =>
        match tag with
        | None => Ok None
        | Some t => if prefix ndarray_tag t then Ok (Some dimless)
                    else if uri_match data_array_tags t
                    then match dget "data" d with Some v => gu v | None => Err KeyError end
                    else Ok None
        end
    end.
  Proof.
    intros. change (gu (TMap d tag)) with
      (match dget "units" d with
       | Some v => bind (parse (pystr show v)) (fun u => Ok (Some u))
       | None => match tag with None => Ok None | Some t => if prefix ndarray_tag t then Ok (Some dimless)
         else if uri_match data_array_tags t then dataf d else Ok None end end).
    destruct (dget "units" d); [reflexivity|]. destruct tag; [|reflexivity]. rewrite dataf_eq. reflexivity.
  Qed.

  Lemma gu_sound : forall n, (forall u, gu n = Ok (Some u) -> hu n u) /\ (gu n = Ok None -> nu n).
  Proof.
    assert (forall n, (n = TNull \/ (exists s t, n = TStr s t) \/ exists l t, n = TList l t) ->
      (forall u, gu n = Ok (Some u) -> hu n u) /\ (gu n = Ok None -> nu n)) as Seq.
    { intros n Hn.
      assert (n <> TNum /\ (forall v, ~ node_at n ["units"] v)) as [Nn Nk].
      { split; [destruct Hn as [->|[[s [t ->]]|[l [t ->]]]]; discriminate|].
        apply no_units_key. destruct Hn as [->|[[s [t ->]]|[l [t ->]]]]; exact Logic.I. }
      assert (gu n = match tag_of n with None => Ok None | Some t =>
          if prefix ndarray_tag t then Ok (Some dimless)
          else if uri_match data_array_tags t then Err TypeError else Ok None end) as Eg.
      { destruct Hn as [->|[[s [[t|] ->]]|[l [[t|] ->]]]]; reflexivity. }
      rewrite Eg. destruct (tag_of n) as [t|] eqn:T.
      - pose proof (is_array_iff n t T) as A. pose proof (is_data_array_iff n t T) as B.
        destruct (prefix ndarray_tag t).
        + split; [|discriminate]. intros u E. injection E as <-. apply hu_array; [exact Nk|apply A; reflexivity].
        + destruct (uri_match data_array_tags t); split; intros; try discriminate.
          apply nu_plain; auto; intro X; [discriminate (proj1 A X)|discriminate (proj1 B X)].
      - destruct (untagged n T). split; [discriminate|]. intros _. apply nu_plain; auto. }
    induction n as [| |s t|l t|d t IH] using tnode_ind2.
    - split; [|discriminate]. intros u E. injection E as <-. constructor.
    - apply Seq. auto.
    - apply Seq. eauto.
    - apply Seq. eauto.
    - rewrite gu_map. pose proof (no_units_key (TMap d t)) as K. simpl in K.
      destruct (dget "units" d) as [v|] eqn:U.
      + assert (node_at (TMap d t) ["units"] v) as Nv by (apply node_at_one; simpl; rewrite U; reflexivity).
        unfold bind. destruct (parse (pystr show v)) as [u|] eqn:Pv; split; intros; try discriminate.
        injection H as <-. destruct v; simpl in Pv; try (apply (hu_value _ _ _ _ _ _ Nv); [intros; discriminate|exact Pv]).
        apply (hu_string _ _ _ _ _ _ _ Nv Pv).
      + apply proj2 in K. specialize (K eq_refl).
        destruct t as [t|].
        * pose proof (is_array_iff (TMap d (Some t)) t eq_refl) as A.
          pose proof (is_data_array_iff (TMap d (Some t)) t eq_refl) as B.
          destruct (prefix ndarray_tag t).
          -- split; [|discriminate]. intros u E. injection E as <-. apply hu_array; [exact K|apply A; reflexivity].
          -- assert (~ is_array (TMap d (Some t))) as NA by (intro X; discriminate (proj1 A X)).
             destruct (uri_match data_array_tags t).
             ++ assert (is_data_array (TMap d (Some t))) as DA by (apply B; reflexivity).
                destruct (dget "data" d) as [v|] eqn:Dd; [|split; intros; discriminate].
                assert (node_at (TMap d (Some t)) ["data"] v) as Nv by (apply node_at_one; simpl; rewrite Dd; reflexivity).
                destruct (IH "data" v (dget_in _ _ _ _ Dd)) as [I1 I2]. split.
                ** intros u E. apply (hu_data _ _ _ _ v); auto.
                ** intro E. apply (nu_data _ v); auto.
             ++ assert (~ is_data_array (TMap d (Some t))) as NB by (intro X; discriminate (proj1 B X)).
                split; [discriminate|]. intros _. apply nu_plain; auto. discriminate.
        * destruct (untagged (TMap d None) eq_refl). split; [discriminate|]. intros _. apply nu_plain; auto. discriminate.
  Qed.

  Lemma units_of_key : forall n v, node_at n ["units"] v -> gu n = bind (parse (pystr show v)) (fun u => Ok (Some u)).
  Proof.
    intros n v N. apply node_at_one in N. destruct n; try discriminate N. rewrite gu_map. simpl in N.
    destruct (dget "units" d); [|discriminate]. injection N as ->. reflexivity.
  Qed.
  Lemma units_of_array : forall n, (forall v, ~ node_at n ["units"] v) -> is_array n -> gu n = Ok (Some dimless).
  Proof.
    intros n K A. assert (exists t, tag_of n = Some t) as [t T] by (destruct A as [t [s [T _]]]; eauto).
    apply (is_array_iff n t T) in A. apply no_units_key in K.
    destruct n; try discriminate T; simpl in T; subst.
    - simpl. rewrite A. reflexivity.
    - simpl. rewrite A. reflexivity.
    - rewrite gu_map, K, A. reflexivity.
  Qed.
  Lemma units_of_data : forall n v, (forall v, ~ node_at n ["units"] v) -> ~ is_array n -> is_data_array n ->
    node_at n ["data"] v -> gu n = gu v.
  Proof.
    intros n v K A D N. apply node_at_one in N. destruct n; try discriminate N.
    assert (exists t, tag = Some t) as [t ->] by (destruct D as [t [T _]]; simpl in T; eauto).
    pose proof (is_array_iff (TMap d (Some t)) t eq_refl) as Ai.
    apply (is_data_array_iff (TMap d (Some t)) t eq_refl) in D. apply no_units_key in K.
    rewrite gu_map, K, D. simpl in N. destruct (dget "data" d); [|discriminate]. injection N as ->.
    destruct (prefix ndarray_tag t); [|reflexivity]. exfalso. apply A. apply Ai. reflexivity.
  Qed.

  Lemma hu_gu : forall n u, hu n u -> gu n = Ok (Some u).
  Proof.
    intros n u Hu. induction Hu as [|n s t u N P|n v u N NS P|n K A|n v u K A D N Hv IH].
    - reflexivity.
    - rewrite (units_of_key n _ N). simpl. rewrite P. reflexivity.
    - rewrite (units_of_key n _ N). assert (pystr show v = show v) as ->.
      { destruct v; try reflexivity. exfalso. exact (NS _ _ eq_refl). }
      rewrite P. reflexivity.
    - apply units_of_array; assumption.
    - rewrite (units_of_data n v K A D N). exact IH.
  Qed.
  Lemma nu_gu : forall n, nu n -> gu n = Ok None.
  Proof.
    intros n Hn. induction Hn as [n NN K A D|n v K A D N Hv IH].
    - pose proof (is_array_iff n) as Ai. pose proof (is_data_array_iff n) as Di.
      assert (forall t, tag_of n = Some t -> prefix ndarray_tag t = false /\ uri_match data_array_tags t = false) as F.
      { intros t T. specialize (Ai t T). specialize (Di t T). split.
        - destruct (prefix ndarray_tag t); [exfalso; apply A; apply Ai; reflexivity|reflexivity].
        - destruct (uri_match data_array_tags t); [exfalso; apply D; apply Di; reflexivity|reflexivity]. }
      apply no_units_key in K. destruct n as [| |s t|l t|d t].
      + congruence.
      + reflexivity.
      + destruct t as [t|]; [|reflexivity]. destruct (F t eq_refl) as [Fa Fd].
        change (gu (TStr s (Some t))) with (if prefix ndarray_tag t then Ok (Some dimless)
          else if uri_match data_array_tags t then Err TypeError else Ok None). rewrite Fa, Fd. reflexivity.
      + destruct t as [t|]; [|reflexivity]. destruct (F t eq_refl) as [Fa Fd].
        change (gu (TList l (Some t))) with (if prefix ndarray_tag t then Ok (Some dimless)
          else if uri_match data_array_tags t then Err TypeError else Ok None). rewrite Fa, Fd. reflexivity.
      + rewrite gu_map, K. destruct t as [t|]; [|reflexivity]. destruct (F t eq_refl) as [Fa Fd]. rewrite Fa, Fd. reflexivity.
    - rewrite (units_of_data n v K A D N). exact IH.
  Qed.
  Lemma gu_unit : forall n u, gu n = Ok (Some u) <-> hu n u.
  Proof. intros n u. split; [apply gu_sound|apply hu_gu]. Qed.
  Lemma gu_none : forall n, gu n = Ok None <-> nu n.
  Proof. intro n. split; [apply gu_sound|apply nu_gu]. Qed.

  (** ** Leaves *)
  Lemma uv_report : forall n e pos p k o, uv n e pos = ([(p, k)], o) ->
    p = pos /\ o = None /\
    match k with
    | NoUnit => nu n
    | Mismatch => exists u x, hu n u /\ parse e = Ok x /\ dimension u <> dimension x
    end.
  Proof.
    intros n e pos p k o. unfold unit_validator. pose proof (gu_unit n) as GU. pose proof (gu_none n) as GN.
    destruct (gu n) as [[u|]|x]; [|intro E; injection E as <- <- <-; split; [reflexivity|]; split; [reflexivity|apply GN; reflexivity]|discriminate].
    destruct (parse e) as [x|]; [|discriminate]. pose proof (compatible_iff u x) as C.
    destruct (compatible u x); [discriminate|]. intro E. injection E as <- <- <-. split; [reflexivity|]. split; [reflexivity|].
    exists u, x. split; [apply GU; reflexivity|]. split; [reflexivity|]. intro D. discriminate (proj2 C D).
  Qed.
  Lemma uv_cases : forall n e pos,
    (exists x, uv n e pos = ([], Some x) /\ ~ addressable parse dimless show n (VLeaf e)) \/
    (addressable parse dimless show n (VLeaf e) /\
      ((uv n e pos = ([], None) /\ satisfied parse dimless dimension show e n) \/
       (exists k, uv n e pos = ([(pos, k)], None) /\ ~ satisfied parse dimless dimension show e n /\
          forall k', match k' with
            | NoUnit => nu n
            | Mismatch => exists u x, hu n u /\ parse e = Ok x /\ dimension u <> dimension x
            end <-> k' = k))).
  Proof.
    intros n e pos. unfold unit_validator. pose proof (gu_unit n) as GU. pose proof (gu_none n) as GN.
    destruct (gu n) as [[u|]|x].
    - assert (hu n u) as Hu by (apply GU; reflexivity).
      assert (~ nu n) as Nn by (intro X; discriminate (proj2 GN X)).
      assert (forall u', hu n u' -> u' = u) as U1 by (intros u' X; pose proof (proj2 (GU u') X) as Y; congruence).
      destruct (parse e) as [x|y] eqn:P.
      + right. split; [constructor; right; exists u, x; auto|].
        pose proof (compatible_iff u x) as C. destruct (compatible u x).
        * left. split; [reflexivity|]. exists u, x. split; [exact Hu|]. split; [exact P|apply C; reflexivity].
        * assert (dimension u <> dimension x) as D by (intro D; discriminate (proj2 C D)).
          right. exists Mismatch. split; [reflexivity|]. split.
          -- intros [u' [x' [Hu' [P' E]]]]. rewrite (U1 u' Hu') in E. rewrite P in P'. injection P' as <-. exact (D E).
          -- intros [|].
             ++ split; [contradiction|discriminate].
             ++ split; [reflexivity|]. intros _. exists u, x. auto.
      + left. exists y. split; [reflexivity|]. intro A. inversion A as [? ? [X|[u' [x [_ X]]]]|]; subst; [contradiction|congruence].
    - assert (nu n) as Hn by (apply GN; reflexivity).
      assert (forall u, ~ hu n u) as Nu by (intros u X; discriminate (proj2 (GU u) X)).
      right. split; [constructor; left; exact Hn|]. right. exists NoUnit. split; [reflexivity|]. split.
      + intros [u [x [Hu _]]]. exact (Nu u Hu).
      + intros [|].
        * split; [reflexivity|intros _; exact Hn].
        * split; [|discriminate]. intros [u [x [Hu _]]]. exfalso. exact (Nu u Hu).
    - left. exists x. split; [reflexivity|]. intro A. inversion A as [? ? [X|[u' [x' [X _]]]]|]; subst.
      + discriminate (proj2 GN X).
      + discriminate (proj2 (GU u') X).
  Qed.

  (** ** The walk *)
  Definition itemf (n : tnode) (pos : list string) (kv : string * vspec) : gen :=
    let (key, item) := kv in
    match item with
    | VDict _ => match getitem n key with Err e => raise e | Ok c => wk c item (pos ++ [key]) end
    | VLeaf e =>
        match contains n key with
        | Err x => raise x
        | Ok false => done
        | Ok true => match getitem n key with Err x => raise x | Ok c => uv c e (pos ++ [key]) end
        end
    end.
  Definition itemsf (n : tnode) (pos : list string) := fix items (d : list (string * vspec)) : gen :=
    match d with [] => done | kv :: r => then_ (itemf n pos kv) (items r) end.
  Lemma walk_dict : forall n d pos, wk n (VDict d) pos = itemsf n pos d.
  Proof.
    intros n d pos. induction d as [|[k s] d IH]; [reflexivity|].
    change (itemsf n pos ((k, s) :: d)) with (then_ (itemf n pos (k, s)) (itemsf n pos d)). rewrite <- IH. reflexivity.
  Qed.

  Lemma then_fst : forall a b r, In r (fst (then_ a b)) <-> In r (fst a) \/ (snd a = None /\ In r (fst b)).
  Proof.
    intros [a [x|]] b r; unfold then_; simpl.
    - split; [auto|]. intros [I|[E _]]; [exact I|discriminate].
    - rewrite in_app_iff. intuition.
  Qed.
  Lemma then_snd : forall a b, snd (then_ a b) = None <-> snd a = None /\ snd b = None.
  Proof. intros [a [x|]] b; unfold then_; simpl; intuition; discriminate. Qed.

  Lemma itemsf_fst : forall n pos d r, In r (fst (itemsf n pos d)) ->
    exists kv, In kv d /\ In r (fst (itemf n pos kv)).
  Proof.
    induction d as [|kv d IH]; intros r I; [destruct I|].
    change (itemsf n pos (kv :: d)) with (then_ (itemf n pos kv) (itemsf n pos d)) in I.
    apply then_fst in I. destruct I as [I|[_ I]].
    - exists kv. split; [left; reflexivity|exact I].
    - destruct (IH r I) as [kv' [J I']]. exists kv'. split; [right; exact J|exact I'].
  Qed.
  Lemma itemsf_snd : forall n pos d, snd (itemsf n pos d) = None <-> forall kv, In kv d -> snd (itemf n pos kv) = None.
  Proof.
    induction d as [|kv d IH]; [split; [intros _ kv []|reflexivity]|].
    change (itemsf n pos (kv :: d)) with (then_ (itemf n pos kv) (itemsf n pos d)).
    rewrite then_snd, IH. split.
    - intros [A B] x [<-|J]; [exact A|exact (B x J)].
    - intro A. split; [apply A; left; reflexivity|intros x J; apply A; right; exact J].
  Qed.
  Lemma itemsf_complete : forall n pos d kv r, snd (itemsf n pos d) = None ->
    In kv d -> In r (fst (itemf n pos kv)) -> In r (fst (itemsf n pos d)).
  Proof.
    induction d as [|kv' d IH]; intros kv r N J I; [destruct J|].
    change (itemsf n pos (kv' :: d)) with (then_ (itemf n pos kv') (itemsf n pos d)) in *.
    apply then_snd in N. destruct N as [N1 N2]. apply then_fst.
    destruct J as [->|J]; [left; exact I|right; split; [exact N1|exact (IH kv r N2 J I)]].
  Qed.

  Lemma get_contains : forall n k c, getitem n k = Ok c -> contains n k = Ok true.
  Proof.
    intros n k c G. destruct n; try discriminate G. simpl in *. unfold dmem. destruct (dget k d); [reflexivity|discriminate].
  Qed.

  Definition dueS := @due unit dim parse dimless dimension show.

  Lemma due_leaf : forall e n q k, dueS (VLeaf e) n (q, k) <-> q = [] /\
    match k with
    | NoUnit => nu n
    | Mismatch => exists u x, hu n u /\ parse e = Ok x /\ dimension u <> dimension x
    end.
  Proof.
    intros e n q k. unfold dueS, due. simpl. split.
    - intros [e' [c [L [N M]]]]. inversion L. subst. inversion N. subst. auto.
    - intros [-> M]. exists e, n. split; [constructor|]. split; [constructor|exact M].
  Qed.
  Lemma due_dict : forall d n q k, dueS (VDict d) n (q, k) <->
    exists key s q' c, q = key :: q' /\ In (key, s) d /\ getitem n key = Ok c /\ dueS s c (q', k).
  Proof.
    intros d n q k. unfold dueS, due. simpl. split.
    - intros [e [c [L [N M]]]]. inversion L as [|d' key s p e' I L']; subst. apply node_at_cons in N.
      destruct N as [c' [G N]]. exists key, s, p, c'. repeat (split; [auto|]). exists e, c. auto.
    - intros [key [s [q' [c [-> [I [G [e [c' [L [N M]]]]]]]]]]]. exists e, c'. split; [econstructor; eauto|].
      split; [|exact M]. apply node_at_cons. exists c. auto.
  Qed.

  Lemma uv_sound : forall n e pos p k, In (p, k) (fst (uv n e pos)) -> p = pos /\ dueS (VLeaf e) n ([], k).
  Proof.
    intros n e pos p k I.
    destruct (uv_cases n e pos) as [[x [E _]]|[_ [[E _]|[k' [E [_ K]]]]]]; rewrite E in I; [destruct I|destruct I|].
    destruct I as [I|[]]. injection I as -> ->. split; [reflexivity|]. apply due_leaf. split; [reflexivity|]. apply K. reflexivity.
  Qed.
  Lemma uv_complete : forall n e pos k, snd (uv n e pos) = None -> dueS (VLeaf e) n ([], k) -> In (pos, k) (fst (uv n e pos)).
  Proof.
    intros n e pos k N D. apply due_leaf in D. destruct D as [_ D].
    destruct (uv_cases n e pos) as [[x [E _]]|[_ [[E S]|[k' [E [_ K]]]]]]; rewrite E in *; [discriminate| |].
    - exfalso. destruct S as [u [x [Hu [P Dm]]]]. destruct k.
      + apply gu_unit in Hu. apply gu_none in D. congruence.
      + destruct D as [u' [x' [Hu' [P' Nd]]]]. apply gu_unit in Hu. apply gu_unit in Hu'. congruence.
    - apply K in D. subst. left. reflexivity.
  Qed.

  Lemma walk_sound : forall s n pos p k, In (p, k) (fst (wk n s pos)) -> exists q, p = pos ++ q /\ dueS s n (q, k).
  Proof.
    induction s as [e|d IH] using vspec_ind2; intros n pos p k I.
    - apply uv_sound in I. destruct I as [-> D]. exists []. rewrite app_nil_r. auto.
    - rewrite walk_dict in I. apply itemsf_fst in I. destruct I as [[key s] [J I]].
      assert (exists c, getitem n key = Ok c /\ In (p, k) (fst (wk c s (pos ++ [key])))) as [c [G I']].
      { destruct s as [e|d']; simpl in I.
        - destruct (contains n key) as [[|]|]; [|destruct I|destruct I].
          destruct (getitem n key) as [c|]; [|destruct I]. exists c. auto.
        - destruct (getitem n key) as [c|]; [|destruct I]. exists c. auto. }
      destruct (IH key s J c (pos ++ [key]) p k I') as [q [-> D]]. exists (key :: q).
      rewrite <- app_assoc. split; [reflexivity|]. apply due_dict. exists key, s, q, c. auto.
  Qed.

  Lemma walk_complete : forall s n pos q k, snd (wk n s pos) = None -> dueS s n (q, k) -> In (pos ++ q, k) (fst (wk n s pos)).
  Proof.
    induction s as [e|d IH] using vspec_ind2; intros n pos q k N D.
    - assert (q = []) as -> by (apply due_leaf in D; tauto). rewrite app_nil_r. apply uv_complete; assumption.
    - rewrite walk_dict in *. apply due_dict in D. destruct D as [key [s [q' [c [-> [J [G D]]]]]]].
      assert (itemf n pos (key, s) = wk c s (pos ++ [key])) as E.
      { destruct s; simpl; [rewrite (get_contains n key c G)|]; rewrite G; reflexivity. }
      apply (itemsf_complete n pos d (key, s)); [exact N|exact J|]. rewrite E.
      replace (pos ++ key :: q') with ((pos ++ [key]) ++ q') by (rewrite <- app_assoc; reflexivity).
      apply (IH key s J); [|exact D]. rewrite <- E. rewrite itemsf_snd in N. apply N. exact J.
  Qed.

  Lemma walk_runs : forall s n pos, snd (wk n s pos) = None <-> addressable parse dimless show n s.
  Proof.
    induction s as [e|d IH] using vspec_ind2; intros n pos.
    - change (wk n (VLeaf e) pos) with (uv n e pos).
      destruct (uv_cases n e pos) as [[x [E A]]|[A [[E _]|[k [E _]]]]]; rewrite E; simpl; split; intro H; auto; try discriminate.
      contradiction.
    - rewrite walk_dict, itemsf_snd. split.
      + intro A. constructor.
        * intros k s J. specialize (A _ J). simpl in A. destruct (getitem n k) as [c|] eqn:G; [|discriminate].
          exists c. split; [apply node_at_one; exact G|]. apply (IH k (VDict s) J c (pos ++ [k])). exact A.
        * intros k e J. specialize (A _ J). simpl in A.
          destruct (contains n k) as [[|]|] eqn:Cn; [|right; apply contains_lacks; exact Cn|discriminate].
          destruct (getitem n k) as [c|] eqn:G; [|discriminate]. left.
          exists c. split; [apply node_at_one; exact G|]. apply (IH k (VLeaf e) J c (pos ++ [k])). exact A.
      + intros A [k s] J. inversion A as [|? ? AD AL]; subst. destruct s as [e|s]; simpl.
        * destruct (AL k e J) as [[c [N Ac]]|C].
          -- apply node_at_one in N. rewrite (get_contains n k c N), N. apply (IH k (VLeaf e) J c (pos ++ [k])). exact Ac.
          -- apply contains_lacks in C. rewrite C. reflexivity.
        * destruct (AD k s J) as [c [N Ac]]. apply node_at_one in N. rewrite N. apply (IH k (VDict s) J c (pos ++ [k])). exact Ac.
  Qed.

  (** ** Other units of the same dimension *)
  Notation rs := (rescaled parse dimension).

  Lemma rs_get : forall d d' t k, rs (TMap d t) (TMap d' t) ->
    match dget k d, dget k d' with
    | Some c, Some c' => (k <> "units" -> rs c c') /\
        (k = "units" -> c = c' \/ exists s s' u u', c = TStr s None /\ c' = TStr s' None /\
            parse s = Ok u /\ parse s' = Ok u' /\ dimension u = dimension u')
    | None, None => True
    | _, _ => False
    end.
  Proof.
    intros d d' t k R. inversion R as [|? ? ? F]; subst.
    - destruct (dget k d'); [|exact Logic.I]. split; [intros; constructor|auto].
    - clear R. induction F as [|[k1 c1] [k2 c2] d d' [E H] F IH]; [exact Logic.I|].
      simpl in E, H. subst k2. simpl. destruct (String.eqb_spec k k1) as [->|N]; [|exact IH].
      destruct H as [->|[[Nk R]|[Ek X]]].
      + split; [intros; constructor|auto].
      + split; [auto|]. intro E. contradiction.
      + split; [intro N; contradiction|auto].
  Qed.

  Lemma rs_inv : forall n n', rs n n' -> n = n' \/ exists d d' t, n = TMap d t /\ n' = TMap d' t.
  Proof. intros n n' R. inversion R; subst; [auto|]. right. eauto. Qed.

  Definition alike (a b : res (option unit)) : Prop :=
    a = b \/ exists u u', a = Ok (Some u) /\ b = Ok (Some u') /\ dimension u = dimension u'.

  Lemma rs_gu : forall n n', rs n n' -> alike (gu n) (gu n').
  Proof.
    induction n as [| |s t|l t|d t IH] using tnode_ind2; intros n' R;
      destruct (rs_inv _ _ R) as [<-|[d1 [d' [t1 [E ->]]]]]; try (left; reflexivity); try discriminate E.
    injection E as <- <-. rewrite !gu_map. pose proof (rs_get d d' t "units" R) as U. pose proof (rs_get d d' t "data" R) as D.
    destruct (dget "units" d) as [v|], (dget "units" d') as [v'|]; try contradiction.
    - destruct U as [_ U]. destruct (U eq_refl) as [->|[s [s' [u [u' [-> [-> [P [P' Dm]]]]]]]]]; [left; reflexivity|].
      right. exists u, u'. simpl. rewrite P, P'. auto.
    - destruct t as [t|]; [|left; reflexivity]. destruct (prefix ndarray_tag t); [left; reflexivity|].
      destruct (uri_match data_array_tags t); [|left; reflexivity].
      destruct (dget "data" d) as [v|] eqn:G, (dget "data" d') as [v'|]; try contradiction; [|left; reflexivity].
      apply (IH "data" v (dget_in _ _ _ _ G)). apply D. discriminate.
  Qed.

  Lemma compatible_dim : forall u u' x, dimension u = dimension u' -> compatible u x = compatible u' x.
  Proof.
    intros u u' x D. pose proof (compatible_iff u x) as A. pose proof (compatible_iff u' x) as B. rewrite D in A.
    destruct (compatible u x), (compatible u' x); try reflexivity.
    - symmetry. apply B. apply A. reflexivity.
    - apply A. apply B. reflexivity.
  Qed.

  Lemma rs_uv : forall n n' e pos, rs n n' -> uv n e pos = uv n' e pos.
  Proof.
    intros n n' e pos R. unfold unit_validator. destruct (rs_gu n n' R) as [->|[u [u' [-> [-> D]]]]]; [reflexivity|].
    destruct (parse e); [|reflexivity]. rewrite (compatible_dim u u' a D). reflexivity.
  Qed.

  Lemma rs_item : forall n n' k, rs n n' -> k <> "units" ->
    contains n k = contains n' k /\
    ((exists e, getitem n k = Err e /\ getitem n' k = Err e) \/
     exists c c', getitem n k = Ok c /\ getitem n' k = Ok c' /\ rs c c').
  Proof.
    intros n n' k R N. destruct (rs_inv _ _ R) as [<-|[d [d' [t [-> ->]]]]].
    - split; [reflexivity|]. destruct (getitem n k) as [c|e]; [right|left; eauto].
      exists c, c. split; [reflexivity|]. split; [reflexivity|constructor].
    - pose proof (rs_get d d' t k R) as U. simpl. unfold dmem.
      destruct (dget k d) as [c|], (dget k d') as [c'|]; try contradiction.
      + split; [reflexivity|]. right. exists c, c'. split; [reflexivity|]. split; [reflexivity|]. apply U. exact N.
      + split; [reflexivity|]. left. eauto.
  Qed.

  Lemma rs_walk : forall s n n' pos, leaves_units_alone s -> rs n n' -> wk n s pos = wk n' s pos.
  Proof.
    induction s as [e|d IH] using vspec_ind2; intros n n' pos L R.
    - exact (rs_uv n n' e pos R).
    - rewrite !walk_dict. inversion L as [|? A]; subst. clear L.
      induction d as [|[k s] d IHd]; [reflexivity|].
      change (then_ (itemf n pos (k, s)) (itemsf n pos d) = then_ (itemf n' pos (k, s)) (itemsf n' pos d)).
      rewrite IHd; [|intros k' s' J; apply (IH k' s'); right; exact J|intros k' s' J; apply (A k' s'); right; exact J].
      f_equal. destruct (A k s) as [N Ls]; [left; reflexivity|].
      destruct (rs_item n n' k R N) as [C [[e [G G']]|[c [c' [G [G' Rc]]]]]].
      + unfold itemf. rewrite C, G, G'. reflexivity.
      + unfold itemf. rewrite C, G, G'. rewrite (IH k s (or_introl eq_refl) c c' (pos ++ [k]) Ls Rc).
        destruct s; [|reflexivity]. rewrite (rs_uv c c' _ _ Rc). reflexivity.
  Qed.
End Units.
