(** Properties of shapes that are read from tagged trees. *)
From Coq Require Import List String ZArith Bool Lia.
From Verif Require Import Base TagShapeModel.
Import ListNotations.
Open Scope string_scope.

(** The shape that validation expects: the one of the data, [1] for scalars. *)
Definition scalar_one (s : list nat) : list nat := match s with [] => [1%nat] | _ => s end.
Definition pandas_shape (p : pandas) : option (list nat) :=
  match p with PScalar _ => None | PDelta l | PDate l => Some [List.length l] end.
Definition shape_of (o : obj) : option (list nat) :=
  match o with
  | ONum | OConstant => Some [1%nat]
  | OText => None
  | OArray s | ODiscrete s | OExpression s => Some s
  | OQuantity s => Some (scalar_one s)
  | OVariable s numeric _ | ODataArray s numeric _ =>
      match s with [] => if numeric then Some [1%nat] else None | _ => Some s end
  | OPandas p | OTime p _ => pandas_shape p
  end.

Section Shape.
  Context {Fr : Type} (date_range : Z -> Z -> Fr -> list Z) (step_of : list Z -> option Z) (freq_of : list Z -> option Fr).
  (** What pandas documents: an inferred frequency describes the values. *)
  Hypothesis step_ok : forall l d, step_of l = Some d -> d <> 0%Z /\
    forall z, hd_error l = Some z -> l = map (fun i => z + Z.of_nat i * d)%Z (seq 0 (List.length l)).
  Hypothesis freq_ok : forall l f z, freq_of l = Some f -> hd_error l = Some z -> date_range z (last l z) f = l.

  Lemma range_len_ok l d z : step_of l = Some d -> hd_error l = Some z -> range_len z (last l z) d = List.length l.
  Proof.
    intros H Z. destruct (step_ok _ _ H) as [N P]. specialize (P _ Z).
    destruct (List.length l) as [|n] eqn:L; [destruct l; discriminate|].
    assert (Q : last l z = (z + Z.of_nat n * d)%Z).
    { rewrite P, seq_S, map_app. cbn [map]. rewrite last_last. now rewrite Nat.add_0_l. }
    unfold range_len. rewrite (proj2 (Z.eqb_neq _ _) N), Q.
    replace (z + Z.of_nat n * d - z)%Z with (Z.of_nat n * d)%Z by lia.
    rewrite Z.div_mul by exact N. lia.
  Qed.

  Notation shape := (instance_shape date_range).
  Lemma pandas_ok k p n : pandas_tree step_of freq_of p = Ok n ->
    shape (S k) n = Ok (option_map NShape (pandas_shape p)).
  Proof.
    destruct p as [z|l|l]; cbn [pandas_tree pandas_shape option_map].
    - now intros [= <-].
    - destruct l as [|z r]; [discriminate|]. unfold index_tree. intros [= <-].
      destruct (step_of (z :: r)) as [d|] eqn:D; [|reflexivity].
      pose proof (range_len_ok _ _ z D eq_refl) as X. rewrite <- X. reflexivity.
    - destruct l as [|z r]; [discriminate|]. unfold index_tree. intros [= <-].
      destruct (freq_of (z :: r)) as [d|] eqn:D; [|reflexivity].
      pose proof (freq_ok _ _ z D eq_refl) as X. change (Ok (Some (NShape (Fr := Fr) [List.length (date_range z (last (z :: r) z) d)])) = Ok (Some (NShape [List.length (z :: r)]))). now rewrite X.
  Qed.

  (** The shape of the tree of an object is the shape of the object, [None] for strings and
      single points in time. *)
  Theorem c112_shape k o n : save step_of freq_of o = Ok n ->
    shape (S (S k)) n = Ok (option_map NShape (shape_of o)).
  Proof.
    destruct o as [| |s|s|s nu q|s nu q|p|p ref| |s|s]; cbn [save shape_of].
    - now intros [= <-].
    - now intros [= <-].
    - now intros [= <-].
    - intros [= <-]. destruct s; reflexivity.
    - intros [= <-]. destruct s, nu, q; reflexivity.
    - intros [= <-]. destruct s, nu, q; reflexivity.
    - apply pandas_ok.
    - destruct (pandas_tree step_of freq_of p) as [v|] eqn:P; cbn [bind]; [|discriminate].
      intros [= <-]. apply (pandas_ok k) in P. exact P.
    - now intros [= <-].
    - destruct s as [|[|[|]] []]; intros [= <-]; reflexivity.
    - now intros [= <-].
  Qed.
  (** All objects can be saved except for an empty index. *)
  Theorem c112_saved o : (exists n, save step_of freq_of o = Ok n) <->
    forall p, o = OPandas p \/ (exists r, o = OTime p r) -> p <> PDelta [] /\ p <> PDate [].
  Proof.
    assert (X : forall p, (exists n, pandas_tree step_of freq_of p = Ok n) <-> p <> PDelta [] /\ p <> PDate []).
    { intros [z|[|z l]|[|z l]]; split; intros H;
        first [split; discriminate|eexists; reflexivity|destruct H as [? H]; discriminate|destruct H; congruence]. }
    destruct o as [| |s|s|s nu q|s nu q|p|p ref| |s|s].
    7:{ cbn [save]. rewrite X. split; [|intros H; exact (H p (or_introl eq_refl))]. intros H p' [[= <-]|[r A]]; [exact H|discriminate]. }
    7:{ cbn [save]. split.
        - intros [n H] p' [A|[r A]]; [discriminate|injection A as <- _]. apply X.
          destruct (pandas_tree step_of freq_of p); [eauto|discriminate].
        - intros H. destruct (proj2 (X p) (H p (or_intror (ex_intro _ ref eq_refl)))) as [n E].
          rewrite E. eexists. reflexivity. }
    8:{ split; [intros _ p [A|[r A]]; discriminate|]. intros _. destruct s as [|[|[|]] []]; eexists; reflexivity. }
    all: split; [intros _ p [A|[r A]]; discriminate|intros _; eexists; reflexivity].
  Qed.
  Theorem c112_empty_refuted p : p = PDelta [] \/ p = PDate [] ->
    save step_of freq_of (OPandas p) = Err IndexError /\
    forall ref, save step_of freq_of (OTime p ref) = Err IndexError.
  Proof. now intros [-> | ->]. Qed.
  (** False: a single point in time has the shape [1] of a scalar. *)
  Theorem c112_time_refuted k z ref : exists n,
    save step_of freq_of (OTime (PScalar z) ref) = Ok n /\ shape (S (S k)) n = Ok None.
  Proof. eexists. split; reflexivity. Qed.
  (** False: only shapes are returned. Any mapping with the key "shape" gives its entry. *)
  Theorem c112_key_refuted k t l v : field "shape" l = Ok v -> shape (S k) (NMap t l) = Ok (Some v).
  Proof.
    intros H. cbn [instance_shape]. assert (X : has "shape" l = true).
    { induction l as [|[a b] l IH]; [discriminate|]. cbn [field] in H. unfold has. cbn [existsb fst].
      destruct (String.eqb "shape" a); [reflexivity|]. now apply IH. }
    now rewrite X, H.
  Qed.
  (** False: quantities with a list of values have its length as shape. *)
  Theorem c112_list_refuted k l u :
    shape (S k) (NMap (Some TQuantity) [("value", NList l); ("units", u)]) = Ok (Some (NShape [1%nat])).
  Proof. reflexivity. Qed.
End Shape.
Print Assumptions c112_shape.
Print Assumptions c112_saved.
Print Assumptions c112_empty_refuted.
Print Assumptions c112_time_refuted.
Print Assumptions c112_key_refuted.
Print Assumptions c112_list_refuted.

(** A function that infers frequencies as required. *)
Definition step3 (l : list Z) : option Z :=
  match l with [a; b; c] => if Z.eqb (b - a) (c - b) && negb (Z.eqb a b) then Some (b - a)%Z else None | _ => None end.
Example ex_step : forall l d, step3 l = Some d -> d <> 0%Z /\
  forall z, hd_error l = Some z -> l = map (fun i => z + Z.of_nat i * d)%Z (seq 0 (List.length l)).
Proof.
  intros [|a [|b [|c [|]]]] d; try discriminate. cbn [step3].
  destruct (Z.eqb_spec (b - a) (c - b)), (Z.eqb_spec a b); try discriminate.
  intros [= <-]. split; [lia|]. intros z [= <-]. cbn [List.length seq map]. f_equal; [lia|]. f_equal; [lia|]. f_equal. lia.
Qed.
Example ex_c112 :
  exists n, save (Fr := unit) step3 (fun _ => None) (OTime (PDelta [8; 6; 4]%Z) None) = Ok n /\
  instance_shape (fun _ _ _ => []) 2 n = Ok (Some (NShape [3%nat])).
Proof. eexists. split; reflexivity. Qed.
