(** C107 and C108: rotations and their converter. *)
From Coq Require Import Reals List String Ascii Bool Lra Lia.
From Verif Require Import Base RigidModel RotModel RotSpec RotFacts.
Import ListNotations.
Open Scope R_scope.

(** ** C107 Euler angles *)
Lemma pi_ne : PI / 180 <> 0.
Proof. pose proof PI_RGT_0. lra. Qed.
Lemma nmap_nmap : forall f g a, nmap f (nmap g a) = nmap (fun x => f (g x)) a.
Proof.
  intros f g [x|l|l]; cbn; [reflexivity|rewrite map_map; reflexivity|]. rewrite map_map. f_equal. apply map_ext.
  intros r. apply map_map.
Qed.
Lemma nmap_ext : forall f g a, (forall x, f x = g x) -> nmap f a = nmap g a.
Proof.
  intros f g [x|l|l] H; cbn; [rewrite H; reflexivity|rewrite (map_ext _ _ H); reflexivity|].
  f_equal. apply map_ext. intros r. apply map_ext, H.
Qed.
Lemma scipy_radians : forall s a, scipy_from_euler s a true = scipy_from_euler s (nmap radians a) false.
Proof. reflexivity. Qed.

(** The unit of a quantity counts, not its name and not the argument degrees. *)
Theorem c107_units : forall s a u f d, u_rad u = Some f ->
  exists deg, from_euler s (Quant a u) d =
    bind (from_euler s (Plain (nmap (fun x => x * f) a)) false) (fun w => Ok (Wx (w_rot w) (MEuler s deg))).
Proof.
  intros s a u f d F. pose proof pi_ne as P. unfold from_euler. rewrite F.
  assert (G : forall n b k, exists deg,
    bind (if negb (contains "rad" n) then Ok (nmap (fun x => x * k / (PI / 180)) b, negb (contains "rad" n)) else Ok (nmap (fun x => x * k) b, negb (contains "rad" n)))
      (fun ad => bind (scipy_from_euler s (fst ad) (snd ad)) (fun r => Ok (Wx r (MEuler s (snd ad))))) =
    bind (scipy_from_euler s (nmap (fun x => x * k) b) false) (fun r => Ok (Wx r (MEuler s deg)))).
  { intros n b k. exists (negb (contains "rad" n)). destruct (negb (contains "rad" n)); cbn [bind fst snd]; [|reflexivity].
    rewrite scipy_radians, nmap_nmap. erewrite nmap_ext; [reflexivity|]. intros x. unfold radians. field. exact PI_neq0. }
  assert (K : forall deg b, bind (scipy_from_euler s b false) (fun r => Ok (Wx r (MEuler s deg))) =
    bind (bind (Ok (b, false)) (fun ad => bind (scipy_from_euler s (fst ad) (snd ad)) (fun r => Ok (Wx r (MEuler s (snd ad)))))) (fun w => Ok (Wx (w_rot w) (MEuler s deg)))).
  { intros deg b. cbn [bind fst snd]. destruct (scipy_from_euler s b false); reflexivity. }
  destruct (String.eqb (u_name u) "dimensionless").
  - destruct (G "radian"%string (nmap (fun x => x * f) a) 1) as [deg E]. exists deg. rewrite E, <- K.
    rewrite (nmap_ext (fun x => x * 1) (fun x => x)) by (intros; ring).
    replace (nmap (fun x => x) (nmap (fun x => x * f) a)) with (nmap (fun x => x * f) a) by (rewrite nmap_nmap; reflexivity). reflexivity.
  - destruct (G (u_name u) a f) as [deg E]. exists deg. rewrite E, <- K. reflexivity.
Qed.
Print Assumptions c107_units.

(** The rotation remembers radians iff the name of the unit contains "rad" or there is no unit. *)
Lemma contains_iff : forall p s, contains p s = true <-> exists a b, s = (a ++ p ++ b)%string.
Proof.
  assert (P : forall p s, String.prefix p s = true <-> exists b, s = (p ++ b)%string).
  { induction p as [|c p IH]; intros s.
    - destruct s; split; intros; try reflexivity; eexists; reflexivity.
    - destruct s as [|d s]; cbn [String.prefix].
      + split; [discriminate|]. intros [b Hb]. discriminate.
      + destruct (Ascii.ascii_dec c d) as [->|N].
        * rewrite IH. split; intros [b Hb]; exists b; [now rewrite Hb | now injection Hb].
        * split; [discriminate|]. intros [b Hb]. injection Hb as E _. now elim N. }
  intros p s. induction s as [|c s IH]; cbn [contains].
  - rewrite orb_false_r, P. split.
    + intros [b Hb]. exists EmptyString, b. exact Hb.
    + intros [a [b Hb]]. destruct a; [exists b; exact Hb|discriminate].
  - rewrite orb_true_iff, P, IH. split.
    + intros [[b Hb]|[a [b Hb]]]; [exists EmptyString, b; exact Hb|].
      exists (String c a), b. cbn. now rewrite Hb.
    + intros [a [b Hb]]. destruct a as [|d a]; [left; exists b; exact Hb|].
      right. exists a, b. now injection Hb.
Qed.
Theorem c107_remembered : forall s a u d w, from_euler s (Quant a u) d = Ok w ->
  exists deg, w_meta w = MEuler s deg /\
    (deg = false <-> u_name u = "dimensionless"%string \/ exists x y, u_name u = (x ++ "rad" ++ y)%string).
Proof.
  intros s a u d w H. unfold from_euler in H. destruct (u_rad u) as [f|]; [|discriminate].
  destruct (String.eqb_spec (u_name u) "dimensionless") as [E|E].
  - exists false. change (negb (contains "rad" "radian")) with false in H. cbv iota in H. cbn [bind fst snd] in H.
    destruct (scipy_from_euler s (nmap (fun x => x * 1) (nmap (fun x => x * f) a)) false); [|discriminate].
    injection H as <-. split; [reflexivity|]. split; [left; exact E|reflexivity].
  - exists (negb (contains "rad" (u_name u))). split.
    + destruct (negb (contains "rad" (u_name u))); cbn [bind fst snd] in H;
      match type of H with bind ?r _ = _ => destruct r; [|discriminate] end; injection H as <-; reflexivity.
    + rewrite negb_false_iff, contains_iff. split; [intros C; right; exact C|intros [C|C]; [contradiction|exact C]].
Qed.
Print Assumptions c107_remembered.

Theorem c107_degrees : forall s a, from_euler s (Plain a) true =
  bind (from_euler s (Plain (nmap (fun x => x * (PI / 180)) a)) false) (fun w => Ok (Wx (w_rot w) (MEuler s true))).
Proof.
  intros s a. unfold from_euler. cbn [bind fst snd]. rewrite scipy_radians. unfold radians.
  destruct (scipy_from_euler s (nmap (fun x => x * (PI / 180)) a) false); reflexivity.
Qed.
Print Assumptions c107_degrees.

(** The sequences that are accepted: one to three letters, all small (fixed axes) or all capital (axes that
    move with the body), without equal neighbours. *)
Theorem c107_sequences : forall s i l, parse s = Some (i, l) <->
  s = names i l /\ (1 <= List.length l <= 3)%nat /\ forall u p q v, l = (u ++ p :: q :: v)%list -> p <> q.
Proof.
  intros s i l. split.
  - intros H. destruct (parse_names s i l H) as (E & L & D). repeat split; try exact E; try apply L.
    clear -D. intros u. revert l D. induction u as [|x u IH]; intros l D p q v ->; cbn [app] in D.
    + eapply differ_2. exact D.
    + destruct (u ++ p :: q :: v)%list as [|y r] eqn:R; [destruct u; discriminate|].
      change ((negb (axis_eqb x y) && consecutive_differ (y :: r))%bool = true) in D. apply andb_true_iff in D. destruct D as [_ D].
      eapply (IH _ D). exact (eq_sym R).
  - intros (-> & L & D).
    destruct l as [|p [|q [|r [|t l]]]]; cbn [List.length] in L; try lia.
    + destruct i, p; reflexivity.
    + pose proof (D [] p q [] eq_refl) as D1. destruct i, p, q; try congruence; reflexivity.
    + pose proof (D [] p q [r] eq_refl) as D1. pose proof (D [p] q r [] eq_refl) as D2.
      destruct i, p, q, r; try congruence; reflexivity.
Qed.
Print Assumptions c107_sequences.

(** which arguments are accepted *)
Theorem c107_accepts : forall s a d,
  (exists w, from_euler s a d = Ok w) <->
  (exists i l, parse s = Some (i, l) /\
    (match a with Plain _ => True | Quant _ u => u_rad u <> None end) /\
    match match a with Plain a | Quant a _ => a end with
    | N0 _ => List.length l = 1%nat
    | N1 xs => List.length l = 1%nat \/ List.length xs = List.length l
    | N2 xs => Forall (fun x => List.length x = List.length l) xs
    end).
Proof.
  assert (P : forall s a, (exists w, from_euler s (Plain a) false = Ok w) <->
    (exists i l, parse s = Some (i, l) /\
    match a with
    | N0 _ => List.length l = 1%nat
    | N1 xs => List.length l = 1%nat \/ List.length xs = List.length l
    | N2 xs => Forall (fun x => List.length x = List.length l) xs
    end)).
  { intros s a. unfold from_euler, scipy_from_euler. cbn [bind fst snd]. destruct (parse s) as [[i l]|].
    2:{ split; [intros [w H]; discriminate|intros (i & l & H & _); discriminate]. }
    assert (S : forall X : Prop, (exists i' l', Some (i, l) = Some (i', l') /\ X) <-> X).
    { intros X. split; [intros (? & ? & _ & H); exact H|intros H; exists i, l; auto]. }
    destruct a as [x|xs|xs].
    - destruct (Nat.eqb_spec (List.length l) 1) as [Q|Q]; cbn [bind]; (split; [intros [w H]; try discriminate; exists i, l; auto|]);
        intros (i' & l' & H & G); injection H as <- <-; [eexists; reflexivity|contradiction].
    - destruct (Nat.eqb_spec (List.length l) 1) as [Q|Q]; cbn [bind].
      + split; [intros _; exists i, l; auto|intros _; eexists; reflexivity].
      + destruct (Nat.eqb_spec (List.length xs) (List.length l)) as [Q'|Q']; cbn [bind];
          (split; [intros [w H]; try discriminate; exists i, l; auto|]); intros (i' & l' & H & G); injection H as <- <-; [eexists; reflexivity|tauto].
    - destruct (forallb (fun x => Nat.eqb (List.length x) (List.length l)) xs) eqn:B; cbn [bind].
      + split; [intros _; exists i, l; split; [reflexivity|]|intros _; eexists; reflexivity].
        rewrite forallb_forall in B. apply Forall_forall. intros x X. apply Nat.eqb_eq, B, X.
      + split; [intros [w H]; discriminate|]. intros (i' & l' & H & G). injection H as <- <-. exfalso.
        assert (true = false); [|discriminate]. rewrite <- B. symmetry. apply forallb_forall. intros x X. apply Nat.eqb_eq.
        rewrite Forall_forall in G. apply G, X. }
  assert (N : forall f l (b : nums), match nmap f b with
    | N0 _ => List.length (l : list axis) = 1%nat
    | N1 xs => List.length l = 1%nat \/ List.length xs = List.length l
    | N2 xs => Forall (fun x => List.length x = List.length l) xs
    end <-> match b with
    | N0 _ => List.length l = 1%nat
    | N1 xs => List.length l = 1%nat \/ List.length xs = List.length l
    | N2 xs => Forall (fun x => List.length x = List.length l) xs
    end).
  { intros f l [x|xs|xs]; cbn [nmap]; [tauto|rewrite map_length; tauto|]. rewrite Forall_map. split; apply Forall_impl; intros r; rewrite map_length; auto. }
  intros s a d. destruct a as [a|a u].
  - destruct d.
    + rewrite c107_degrees. specialize (P s (nmap (fun x => x * (PI / 180)) a)).
      split.
      * intros [w H]. destruct (from_euler s (Plain (nmap (fun x => x * (PI / 180)) a)) false) as [v|]; [|discriminate].
        destruct (proj1 P (ex_intro _ v eq_refl)) as (i & l & E & G). exists i, l. rewrite N in G. auto.
      * intros (i & l & E & _ & G). destruct (proj2 P) as [v V]; [exists i, l; rewrite N; auto|]. rewrite V. eexists. reflexivity.
    + rewrite P. split; [intros (i & l & E & G)|intros (i & l & E & _ & G)]; exists i, l; auto.
  - destruct (u_rad u) as [f|] eqn:F.
    + destruct (c107_units s a u f d F) as [deg ->]. specialize (P s (nmap (fun x => x * f) a)). split.
      * intros [w H]. destruct (from_euler s (Plain (nmap (fun x => x * f) a)) false) as [v|]; [|discriminate].
        destruct (proj1 P (ex_intro _ v eq_refl)) as (i & l & E & G). exists i, l. rewrite N in G. split; [exact E|]. split; [discriminate|exact G].
      * intros (i & l & E & _ & G). destruct (proj2 P) as [v V]; [exists i, l; rewrite N; auto|]. rewrite V. eexists. reflexivity.
    + split; [unfold from_euler; rewrite F; intros [w H]; discriminate|]. intros (i & l & _ & H & _). congruence.
Qed.
Print Assumptions c107_accepts.
Theorem c107_errors : forall s a d x, from_euler s a d = Err x ->
  x = match a with
      | Quant _ u => match u_rad u with None => DimensionalityError | Some _ => ValueError end
      | Plain _ => ValueError
      end.
Proof.
  assert (P : forall s b d x, scipy_from_euler s b d = Err x -> x = ValueError).
  { intros s b d x H. unfold scipy_from_euler in H. destruct (parse s) as [[i l]|]; [|congruence].
    destruct (if d then nmap radians b else b); repeat (match type of H with (if ?c then _ else _) = _ => destruct c end); congruence. }
  assert (Q : forall s b d x, from_euler s (Plain b) d = Err x -> x = ValueError).
  { intros s b d x H. unfold from_euler in H. cbn [bind fst snd] in H.
    destruct (scipy_from_euler s b d) eqn:E; [discriminate|]. injection H as <-. exact (P _ _ _ _ E). }
  intros s [b|b u] d x H; [exact (Q _ _ _ _ H)|]. destruct (u_rad u) as [f|] eqn:F.
  - destruct (c107_units s b u f d F) as [deg G]. rewrite G in H.
    destruct (from_euler s (Plain (nmap (fun x => x * f) b)) false) eqn:E; [discriminate|]. injection H as <-. exact (Q _ _ _ _ E).
  - unfold from_euler in H. rewrite F in H. injection H as <-. reflexivity.
Qed.
Print Assumptions c107_errors.

(** the results are rotations *)
Theorem c107_proper : forall s a d w, from_euler s a d = Ok w -> Forall proper (members (w_rot w)).
Proof.
  assert (P : forall s b d r, scipy_from_euler s b d = Ok r -> Forall proper (members r)).
  { intros s b d r H. unfold scipy_from_euler in H. destruct (parse s) as [[i l]|]; [|discriminate].
    destruct (if d then nmap radians b else b); repeat (match type of H with (if ?c then _ else _) = _ => destruct c end); try discriminate;
      injection H as <-; cbn [members]; rewrite ?Forall_map; try (constructor; [|constructor]); try apply Forall_forall; intros; apply euler_proper. }
  intros s a d w H. unfold from_euler in H.
  match type of H with bind ?x _ = _ => destruct x as [[b e]|]; [|discriminate] end. cbn [bind fst snd] in H.
  destruct (scipy_from_euler s b e) as [r|] eqn:E; [|discriminate]. injection H as <-. exact (P _ _ _ _ E).
Qed.
Print Assumptions c107_proper.

(** Rotations are applied one after the other: around fixed axes from right to left,
    around moving axes from left to right. *)
Theorem c107_composition : forall s i l m a b s1 s2 w w1 w2,
  parse s = Some (i, l ++ m) -> parse s1 = Some (i, l) -> parse s2 = Some (i, m) ->
  List.length a = List.length l -> List.length b = List.length m ->
  from_euler s (Plain (N2 [a ++ b])) false = Ok w ->
  from_euler s1 (Plain (N2 [a])) false = Ok w1 -> from_euler s2 (Plain (N2 [b])) false = Ok w2 ->
  exists x x1 x2, w_rot w = Stack [x] /\ w_rot w1 = Stack [x1] /\ w_rot w2 = Stack [x2] /\
    x = if i then mmul x1 x2 else mmul x2 x1.
Proof.
  intros s i l m a b s1 s2 w w1 w2 P P1 P2 LA LB H H1 H2.
  assert (G : forall t j k c v, parse t = Some (j, k) -> List.length c = List.length k -> from_euler t (Plain (N2 [c])) false = Ok v -> w_rot v = Stack [euler j k c]).
  { intros t j k c v T L V. unfold from_euler, scipy_from_euler in V. cbn [bind fst snd] in V. rewrite T in V. cbn [forallb] in V.
    rewrite L, Nat.eqb_refl in V. cbn in V. injection V as <-. reflexivity. }
  exists (euler i (l ++ m) (a ++ b)), (euler i l a), (euler i m b).
  split; [apply (G _ _ _ _ _ P); [rewrite !app_length; congruence|exact H]|].
  split; [apply (G _ _ _ _ _ P1 LA H1)|]. split; [apply (G _ _ _ _ _ P2 LB H2)|]. apply euler_app. auto.
Qed.
Print Assumptions c107_composition.

(** Moving axes are fixed axes in reverse order. *)
Theorem c107_reverse : forall s s' l a d, parse s = Some (true, l) -> parse s' = Some (false, rev l) ->
  List.length l <> 1%nat -> List.length a = List.length l ->
  exists m, from_euler s (Plain (N1 a)) d = Ok (Wx (Single m) (MEuler s d)) /\
    from_euler s' (Plain (N1 (rev a))) d = Ok (Wx (Single m) (MEuler s' d)).
Proof.
  assert (R : forall l a, List.length a = List.length l -> euler true l a = euler false (rev l) (rev a)).
  { induction l as [|p l IH]; intros [|x a] L; try discriminate L; [reflexivity|]. injection L as L. cbn [rev].
    rewrite euler_app by (rewrite !rev_length; auto). rewrite <- (IH a L). cbn [euler]. rewrite id_l. reflexivity. }
  intros s s' l a d P P' N L. exists (euler true l (map (fun x => if d then radians x else x) a)).
  unfold from_euler, scipy_from_euler. cbn [bind fst snd]. rewrite P, P', rev_length.
  apply Nat.eqb_neq in N.
  destruct d; cbn [nmap]; rewrite N, ?map_length, ?rev_length, L, Nat.eqb_refl; cbn [bind]; split; try reflexivity.
  - rewrite R by (rewrite map_length; exact L). rewrite map_rev. reflexivity.
  - rewrite map_id. reflexivity.
  - rewrite map_id, R by exact L. reflexivity.
Qed.
Print Assumptions c107_reverse.

(** one axis *)
(** The rotations around one axis are right-handed. *)
Theorem c107_right_handed : forall s p x,
  In (s, p) [("x", AX); ("y", AY); ("z", AZ); ("X", AX); ("Y", AY); ("Z", AZ)]%string ->
  exists m, from_euler s (Plain (N0 x)) false = Ok (Wx (Single m) (MEuler s false)) /\
    mvec m (unit_vec p) = unit_vec p /\
    mvec m (unit_vec (next p)) = vadd (vscale (cos x) (unit_vec (next p))) (vscale (sin x) (unit_vec (next (next p)))) /\
    mvec m (unit_vec (next (next p))) =
      vadd (vscale (- sin x) (unit_vec (next p))) (vscale (cos x) (unit_vec (next (next p)))).
Proof.
  intros s p x H. repeat destruct H as [[= <- <-]|H]; try contradiction;
    (eexists; split; [reflexivity|]); cbn [euler];
    repeat split; unfold mvec, mmul, mid, rot, vadd, vscale, unit_vec, next, dot; cbn; f_equal; ring.
Qed.
Print Assumptions c107_right_handed.
Theorem c107_axis : forall s i p x, parse s = Some (i, [p]) ->
  from_euler s (Plain (N0 x)) false = Ok (Wx (Single (rot p x)) (MEuler s false)).
Proof.
  intros s i p x P. unfold from_euler, scipy_from_euler. cbn [bind fst snd]. rewrite P. cbn [List.length Nat.eqb bind euler].
  rewrite id_l, id_r. destruct i; reflexivity.
Qed.
Print Assumptions c107_axis.

Example ex_c107 : exists w v, from_euler "z" (Quant (N0 90) degree) false = Ok w /\
  from_euler "z" (Quant (N0 (1/4)) (Unit "turn" (Some (2 * PI)))) true = Ok v /\ w_rot w = w_rot v /\
  w_rot w = Single (M 0 (-1) 0 1 0 0 0 0 1) /\
  from_euler "z" (Quant (N0 1) (Unit "meter" None)) false = Err DimensionalityError /\
  from_euler "xx" (Plain (N1 [1; 2])) false = Err ValueError /\ from_euler "xY" (Plain (N1 [1; 2])) false = Err ValueError.
Proof.
  assert (A : forall x, radians x = x * (PI / 180)) by reflexivity. pose proof pi_ne as P.
  assert (E : forall x y f, x * f = PI / 2 -> y = (x * f / (PI / 180)) -> rot AZ (radians y) = M 0 (-1) 0 1 0 0 0 0 1).
  { intros x y f H ->. unfold radians. replace (x * f / (PI / 180) * (PI / 180)) with (PI / 2) by (rewrite <- H; field; exact PI_neq0).
    cbn. rewrite sin_PI2, cos_PI2. reflexivity. }
  do 2 eexists. split; [reflexivity|]. split; [reflexivity|]. cbn [w_rot nmap euler].
  rewrite (E 90 (90 * (PI / 180) / (PI / 180)) (PI / 180)), (E (1/4) (1/4 * (2 * PI) / (PI / 180)) (2 * PI)); try reflexivity; try field.
  rewrite id_l. repeat split.
Qed.

(** ** C108 Saving and loading rotations *)
Section Converter.
  Context {Q W : Type} (as_quat : mat -> Q) (of_quat : Q -> mat) (as_rotvec : mat -> W) (of_rotvec : W -> mat).
  Context (as_euler : string -> mat -> list R).
  Notation to_tree := (to_tree as_quat as_rotvec as_euler).
  Notation from_tree := (from_tree of_quat of_rotvec).

  (** quaternions, matrices and rotation vectors *)
  Theorem c108_loaded : forall r k, (forall m, In m (members r) -> of_quat (as_quat m) = m) ->
    (forall m, In m (members r) -> of_rotvec (as_rotvec m) = m) -> (forall s d, k <> MEuler s d) ->
    bind (to_tree (Wx r k)) from_tree = Ok (Wx r (match k with MNone => MQuat | _ => k end)).
  Proof.
    intros r k HQ HW K.
    assert (G : forall X (f : mat -> X) g, (forall m, In m (members r) -> g (f m) = m) -> back g (each f r) = r).
    { intros X f g H. destruct r as [m|l]; cbn [each back members] in *; [rewrite H by (left; reflexivity); reflexivity|].
      rewrite map_map. f_equal. rewrite <- (map_id l) at 2. apply map_ext_in. exact H. }
    destruct k as [| | | |s d]; [| | | |destruct (K s d); reflexivity]; cbn [RotModel.to_tree w_meta w_rot bind RotModel.from_tree];
      rewrite G; auto.
  Qed.

  (** Euler angles: what is read is the rotation with the saved angles *)
  Lemma read : forall s i l e s3 r d, parse s = Some (i, l) -> complete s = Ok s3 -> parse s3 = Some (i, l ++ e) ->
    (List.length (l ++ e) = 3)%nat -> members r <> [] -> (forall m, In m (members r) -> List.length (as_euler s3 m) = 3%nat) ->
    bind (to_tree (Wx r (MEuler s d))) from_tree =
    Ok (Wx (match r with
            | Single m | Stack [m] => Single (euler i l (firstn (List.length l) (as_euler s3 m)))
            | Stack k => Stack (map (fun m => euler i l (firstn (List.length l) (as_euler s3 m))) k)
            end) (MEuler s d)).
  Proof.
    intros s i l e s3 r d P C P3 L3 NE LE. pose proof (parse_names _ _ _ P) as (SN & LL & _). pose proof pi_ne as PI0.
    cbn [RotModel.to_tree w_meta w_rot]. rewrite C. cbn [bind]. rewrite SN, names_length, <- SN.
    set (n := List.length l) in *. set (k := fun x => if d then x / (PI / 180) else x).
    assert (U : forall a, from_tree (TAngles s a (if d then degree else radian)) =
      bind (scipy_from_euler s (nmap (fun x => if d then radians x else x) a) false) (fun r => Ok (Wx r (MEuler s d)))).
    { intros a. unfold RotModel.from_tree, from_euler. destruct d; cbn [u_rad degree radian u_name String.eqb Ascii.eqb Bool.eqb].
      - change (negb (contains "rad" "degree")) with true. cbv iota. cbn [bind fst snd]. rewrite scipy_radians, nmap_nmap.
        erewrite nmap_ext; [reflexivity|]. intros x. unfold radians. field. exact PI_neq0.
      - change (negb (contains "rad" "radian")) with false. cbv iota. cbn [bind fst snd].
        erewrite nmap_ext; [reflexivity|]. intros x. apply Rmult_1_r. }
    rewrite U. clear U.
    assert (KK : forall x, (if d then radians (k x) else k x) = x).
    { intros x. unfold k, radians. destruct d; [field; exact PI_neq0|reflexivity]. }
    assert (CUT : forall m, map (fun x => if d then radians x else x) (firstn n (map k (as_euler s3 m))) = firstn n (as_euler s3 m)).
    { intros m. rewrite firstn_map, map_map. rewrite <- (map_id (firstn n _)) at 2. apply map_ext. exact KK. }
    assert (LC : forall m, In m (members r) -> List.length (firstn n (as_euler s3 m)) = n).
    { intros m M. rewrite firstn_length, LE by exact M. rewrite app_length in L3. unfold n. lia. }
    assert (LK : forall m, In m (members r) -> List.length (firstn n (map k (as_euler s3 m))) = n).
    { intros m M. rewrite firstn_map, map_length. exact (LC m M). }
    assert (ONE : forall m, In m (members r) ->
      bind (scipy_from_euler s (nmap (fun x => if d then radians x else x) (squeeze (N1 (firstn n (map k (as_euler s3 m)))))) false)
        (fun r => Ok (Wx r (MEuler s d))) = Ok (Wx (Single (euler i l (firstn n (as_euler s3 m)))) (MEuler s d)) /\
      squeeze (N2 [firstn n (map k (as_euler s3 m))]) = squeeze (N1 (firstn n (map k (as_euler s3 m))))).
    { intros m M. pose proof (CUT m) as CM. pose proof (LK m M) as KM. unfold scipy_from_euler. rewrite P. fold n.
      destruct (firstn n (map k (as_euler s3 m))) as [|x [|y t]] eqn:F.
      - cbn in KM. lia.
      - cbn in KM. split; [|reflexivity]. cbn [squeeze nmap]. cbn [map] in CM. rewrite <- CM, <- KM. reflexivity.
      - split; [|reflexivity]. cbn [squeeze]. cbn [nmap]. rewrite CM. rewrite (LC m M).
        assert (Nat.eqb n 1 = false) as -> by (cbn in KM; apply Nat.eqb_neq; lia). rewrite Nat.eqb_refl. reflexivity. }
    destruct r as [m|[|m1 [|m2 t]]]; cbn [members] in *; [| congruence| |].
    - apply ONE. left. reflexivity.
    - cbn [map]. rewrite (proj2 (ONE m1 (or_introl eq_refl))). apply ONE. left. reflexivity.
    - assert (SQ : squeeze (N2 (map (fun m => firstn n (map k (as_euler s3 m))) (m1 :: m2 :: t))) =
        if Nat.eqb n 1 then N1 (List.concat (map (fun m => firstn n (map k (as_euler s3 m))) (m1 :: m2 :: t)))
        else N2 (map (fun m => firstn n (map k (as_euler s3 m))) (m1 :: m2 :: t))).
      { assert (FB : forallb (fun r => Nat.eqb (List.length r) 1) (map (fun m => firstn n (map k (as_euler s3 m))) (m1 :: m2 :: t)) = Nat.eqb n 1).
        { destruct (Nat.eqb_spec n 1) as [N1'|N1'].
          - apply forallb_forall. intros x X. apply in_map_iff in X. destruct X as (m & <- & M). rewrite (LK m M). apply Nat.eqb_eq, N1'.
          - cbn [map forallb]. rewrite (LK m1 (or_introl eq_refl)). apply Nat.eqb_neq in N1'. rewrite N1'. reflexivity. }
        rewrite <- FB. cbn [map squeeze]. destruct (firstn n (map k (as_euler s3 m1))) as [|x [|y z]]; reflexivity. }
      fold k in SQ |- *. rewrite SQ. unfold scipy_from_euler. rewrite P. fold n. destruct (Nat.eqb_spec n 1) as [N1'|N1'].
      + cbn [nmap bind]. f_equal. f_equal. f_equal.
        assert (G : forall ms, (forall m, In m ms -> List.length (firstn n (as_euler s3 m)) = n) ->
          map (fun x => euler i l [x]) (map (fun x => if d then radians x else x) (List.concat (map (fun m => firstn n (map k (as_euler s3 m))) ms))) =
          map (fun m => euler i l (firstn n (as_euler s3 m))) ms).
        { induction ms as [|m ms IH]; intros H; [reflexivity|]. cbn [map List.concat]. rewrite !map_app, IH by (intros; apply H; right; assumption).
          rewrite CUT. pose proof (H m (or_introl eq_refl)) as HL. rewrite N1' in HL |- *.
          destruct (firstn 1 (as_euler s3 m)) as [|x [|? ?]]; try discriminate HL. reflexivity. }
        apply G. exact LC.
      + cbn [nmap]. rewrite map_map. erewrite (map_ext (fun m => map (fun x => if d then radians x else x) (firstn n (map k (as_euler s3 m))))) by exact CUT.
        assert (forallb (fun x => Nat.eqb (List.length x) n) (map (fun m => firstn n (as_euler s3 m)) (m1 :: m2 :: t)) = true) as ->.
        { apply forallb_forall. intros x X. apply in_map_iff in X. destruct X as (m & <- & M). apply Nat.eqb_eq, LC, M. }
        cbn [bind]. rewrite map_map. reflexivity.
  Qed.

  (** They are loaded as saved for one or three axes. For two axes the second angle has to
      lie between -90 and 90 degrees. *)
  Theorem c108_euler : forall s i l r d, parse s = Some (i, l) -> members r <> [] ->
    (forall m, In m (members r) -> euler_angles as_euler m /\ small_angles i l m) ->
    bind (to_tree (Wx r (MEuler s d))) from_tree =
    Ok (Wx (match r with Stack [m] => Single m | _ => r end) (MEuler s d)).
  Proof.
    intros s i l r d P NE H. destruct (complete_ok _ _ _ P) as (s3 & e & C & P3 & L3 & E).
    pose proof (parse_names _ _ _ P) as (_ & LL & _).
    assert (LN : l <> []) by (intros ->; cbn in LL; lia).
    assert (K : forall m, In m (members r) -> List.length (as_euler s3 m) = 3%nat /\ euler i l (firstn (List.length l) (as_euler s3 m)) = m).
    { intros m M. destruct (H m M) as [A S]. destruct (l ++ e) as [|p [|q [|t [|? ?]]]] eqn:LE; try discriminate L3.
      destruct (A s3 i p q t P3) as (a & b & c & EA & EU & G). rewrite EA. split; [reflexivity|].
      apply (kept i l e m a b c); [rewrite LE; reflexivity|exact E|exact LN|exact S|rewrite LE; exact EU|].
      intros p' q' t' X Y. rewrite LE in X. injection X as <- <- <-. exact (G Y). }
    rewrite (read s i l e s3 r d P C P3 L3 NE (fun m M => proj1 (K m M))). f_equal. f_equal.
    destruct r as [m|[|m1 [|m2 t]]]; cbn [members] in *.
    - rewrite (proj2 (K m (or_introl eq_refl))). reflexivity.
    - congruence.
    - rewrite (proj2 (K m1 (or_introl eq_refl))). reflexivity.
    - f_equal. rewrite <- (map_id (m1 :: m2 :: t)) at 2. apply map_ext_in. intros m M. exact (proj2 (K m M)).
  Qed.

  (** With other angles another rotation is loaded. *)
  Theorem c108_two_axes_refuted : forall s i p q a b d, parse s = Some (i, [p; q]) -> cos b < 0 ->
    euler_angles as_euler (euler i [p; q] [a; b]) ->
    exists m, bind (to_tree (Wx (Single (euler i [p; q] [a; b])) (MEuler s d))) from_tree = Ok (Wx (Single m) (MEuler s d)) /\
      m <> euler i [p; q] [a; b].
  Proof.
    intros s i p q a b d P CB A. destruct (complete_ok _ _ _ P) as (s3 & e & C & P3 & L3 & r & -> & PQ & QR & PR).
    destruct (A s3 i p q r P3) as (a' & b' & c' & EA & EU & G). destruct (G PR) as [G1 _].
    exists (euler i [p; q] [a'; b']). split.
    - rewrite (read s i [p; q] [r] s3 (Single (euler i [p; q] [a; b])) d P C P3 L3); [rewrite EA; reflexivity|discriminate|].
      intros m [<-|[]]. rewrite EA. reflexivity.
    - intros Q0.
      assert (H : euler i [p; q; r] [a; b; 0] = euler i [p; q] [a'; b']).
      { rewrite Q0. change (euler i ([p; q] ++ [r]) ([a; b] ++ [0]) = euler i [p; q] [a; b]). rewrite euler_app by reflexivity.
        cbn [euler]. rewrite rot_0. destruct i; rewrite ?id_l, ?id_r; reflexivity. }
      apply key in H; auto. destruct H as (H1 & _ & _). rewrite cos_0 in H1. lra.
  Qed.
End Converter.
Print Assumptions c108_loaded.
Print Assumptions c108_euler.
Print Assumptions c108_two_axes_refuted.

(** The angles of the rotation around y by 120 degrees for all sequences of three axes. *)
Definition ex_euler (s : string) (m : mat) : list R :=
  match parse s with
  | Some (_, [AY; _; _]) => [2 * (PI / 3); 0; 0]
  | Some (_, [_; _; AY]) => [0; 0; 2 * (PI / 3)]
  | Some (_, [AX; AY; AZ]) | Some (_, [AZ; AY; AX]) => [PI; PI / 3; PI]
  | Some (_, [_; AY; _]) => [0; 2 * (PI / 3); 0]
  | Some (i, [AX; _; _]) => if i then [- (PI / 2); 2 * (PI / 3); PI / 2] else [PI / 2; 2 * (PI / 3); - (PI / 2)]
  | Some (i, [AZ; _; _]) => if i then [PI / 2; 2 * (PI / 3); - (PI / 2)] else [- (PI / 2); 2 * (PI / 3); PI / 2]
  | _ => []
  end.
Lemma ex_euler_angles : euler_angles ex_euler (rot AY (2 * (PI / 3))).
Proof.
  intros s i p q r P. unfold ex_euler. rewrite P.
  pose proof (parse_names _ _ _ P) as (_ & _ & D).
  pose proof cos_PI3 as C3. pose proof cos_2PI3 as C2. pose proof sin_PI3 as S3. pose proof sin_2PI3 as S2.
  destruct p, q, r; try discriminate D; destruct i; do 3 eexists; (split; [reflexivity|]);
    (split; [apply mat_ext; cbn; rewrite ?sin_neg, ?cos_neg, ?sin_0, ?cos_0, ?sin_PI, ?cos_PI, ?sin_PI2, ?cos_PI2, ?C3, ?C2, ?S3, ?S2; lra|]);
    intros H; try congruence; rewrite ?cos_0, ?C3; split; lra.
Qed.
Example ex_c108 :
  (* around y alone: the rotation is kept *)
  bind (to_tree (fun m => m) (fun m => m) ex_euler (Wx (Single (rot AY (2 * (PI / 3)))) (MEuler "y" true))) (from_tree (fun m => m) (fun m => m)) =
    Ok (Wx (Single (rot AY (2 * (PI / 3)))) (MEuler "y" true)) /\
  (* with the sequence xy it is not *)
  exists m, bind (to_tree (fun m => m) (fun m => m) ex_euler (Wx (Single (rot AY (2 * (PI / 3)))) (MEuler "xy" true))) (from_tree (fun m => m) (fun m => m)) =
    Ok (Wx (Single m) (MEuler "xy" true)) /\ m <> rot AY (2 * (PI / 3)).
Proof.
  split.
  - apply (c108_euler _ _ _ _ _ "y" false [AY]); [reflexivity|discriminate|]. intros m [<-|[]]. split; [exact ex_euler_angles|].
    exists [2 * (PI / 3)]. split; [reflexivity|]. split; [|exact Logic.I]. cbn [euler]. apply id_l.
  - assert (E : rot AY (2 * (PI / 3)) = euler false [AX; AY] [0; 2 * (PI / 3)]) by (cbn [euler]; rewrite rot_0, id_l, id_r; reflexivity).
    pose proof ex_euler_angles as A. rewrite E in A |- *.
    apply (c108_two_axes_refuted _ _ _ _ _ "xy" false AX AY); [reflexivity|rewrite cos_2PI3; lra|exact A].
Qed.
