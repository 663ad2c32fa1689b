(** Proofs about tracked motion. *)
From Coq Require Import Reals ZArith List Bool Lra Lia.
From Verif Require Import Base RVec RVecFacts MotionModel MotionSpec.
Import ListNotations.
Open Scope R_scope.

(** ** Lattice vectors and coordinates *)
Lemma lattice_zero b : lattice b 0 0 0 = zero3.
Proof. unfold lattice, zero3. apply v3_eq; ring. Qed.
Lemma lattice_add b i j k i' j' k' : add3 (lattice b i j k) (lattice b i' j' k') = lattice b (i + i') (j + j') (k + k').
Proof. unfold lattice, add3. cbn [x3 y3 z3]. rewrite !plus_IZR. apply v3_eq; ring. Qed.
Lemma lattice_sub b i j k i' j' k' : sub3 (lattice b i j k) (lattice b i' j' k') = lattice b (i - i') (j - j') (k - k').
Proof. unfold lattice, sub3. cbn [x3 y3 z3]. rewrite !minus_IZR. apply v3_eq; ring. Qed.
Lemma is_lattice_zero b : is_lattice b zero3.
Proof. exists 0%Z, 0%Z, 0%Z. split; auto. symmetry. apply lattice_zero. Qed.
Lemma is_lattice_add b v w : is_lattice b v -> is_lattice b w -> is_lattice b (add3 v w).
Proof.
  intros (i & j & k & K & ->) (i' & j' & k' & K' & ->). exists (i + i')%Z, (j + j')%Z, (k + k')%Z.
  split; [intros H; rewrite K, K' by auto; reflexivity|apply lattice_add].
Qed.
Lemma is_lattice_sub b v w : is_lattice b v -> is_lattice b w -> is_lattice b (sub3 v w).
Proof.
  intros (i & j & k & K & ->) (i' & j' & k' & K' & ->). exists (i - i')%Z, (j - j')%Z, (k - k')%Z.
  split; [intros H; rewrite K, K' by auto; reflexivity|apply lattice_sub].
Qed.
Lemma is_lattice_planar b v : b2d b = true -> is_lattice b v -> z3 v = 0.
Proof. intros D (i & j & k & K & ->). rewrite K by auto. cbn. ring. Qed.

Lemma coord_a_lattice b d i j k : box_ok b -> coord_a b (add3 d (lattice b i j k)) = coord_a b d + IZR i.
Proof. intros (A & _). unfold coord_a, add3, lattice. cbn [x3 y3 z3]. field. lra. Qed.
Lemma coord_b_lattice b d i j k : box_ok b -> coord_b b (add3 d (lattice b i j k)) = coord_b b d + IZR j.
Proof. intros (_ & A & _). unfold coord_b, add3, lattice. cbn [x3 y3 z3]. field. lra. Qed.
Lemma coord_c_lattice b d i j k : box_ok b -> b2d b = false -> coord_c b (add3 d (lattice b i j k)) = coord_c b d + IZR k.
Proof. intros (_ & _ & A) D. specialize (A D). unfold coord_c, add3, lattice. cbn [x3 y3 z3]. field. lra. Qed.
Lemma int_small x i : Rabs x < 1 / 2 -> Rabs (x + IZR i) <= 1 / 2 -> i = 0%Z.
Proof.
  intros A B. apply Rabs_def2 in A. apply Rabs_le_inv in B || (unfold Rabs in B; destruct (Rcase_abs (x + IZR i)));
  assert (-1 < IZR i < 1) as [L U] by lra.
  all: apply lt_IZR in U; apply (lt_IZR (-1)) in L; lia.
Qed.

(** ** Wrapping *)
Lemma wrap_small w b v d : wrap_ok w -> box_ok b -> is_lattice b (sub3 v d) -> below_half b d -> w b v = d.
Proof.
  intros W B L (A1 & A2 & A3 & A4).
  assert (P : b2d b = true -> z3 v = 0).
  { intros D. pose proof (is_lattice_planar b _ D L) as Z. cbn in Z. rewrite A3 in Z by auto. lra. }
  destruct (W b v B P) as (L' & (H1 & H2 & H3 & H4)).
  destruct (is_lattice_sub b _ _ L L') as (i & j & k & K & E).
  assert (Q : w b v = add3 d (lattice b i j k)).
  { rewrite <- E. unfold add3, sub3. destruct (w b v) as [p q r]. cbn. apply v3_eq; ring. }
  rewrite Q in *. rewrite coord_a_lattice in H1 by auto. rewrite coord_b_lattice in H2 by auto.
  apply int_small in H1; auto. apply int_small in H2; auto. subst i j.
  assert (k = 0%Z).
  { destruct (b2d b) eqn:D; [auto|]. specialize (H4 eq_refl). specialize (A4 eq_refl).
    rewrite coord_c_lattice in H4 by auto. apply int_small in H4; auto. }
  subst k. rewrite lattice_zero, add3_zero_r. reflexivity.
Qed.

Lemma frac_bound r : 0 <= frac r < 1.
Proof. unfold frac, Rfloor. destruct (base_Int_part r). lra. Qed.
Lemma half_frac r : Rabs (frac r - 1 / 2) <= 1 / 2.
Proof. pose proof (frac_bound r). apply Rabs_le. lra. Qed.

(** The contract can be met. *)
Lemma freud_wrap_ok : wrap_ok freud_wrap.
Proof.
  intros b v (B1 & B2 & B3) P. set (f := makeFraction b v).
  assert (E : freud_wrap b v = makeCoordinates b (mk3 (frac (x3 f)) (frac (y3 f)) (frac (z3 f)))) by reflexivity.
  destruct (b2d b) eqn:D.
  - specialize (P eq_refl). split.
    + exists (Rfloor (x3 f)), (Rfloor (y3 f)), 0%Z. split; auto. rewrite E. unfold makeCoordinates, lattice. rewrite D. cbn [x3 y3 z3].
      unfold frac, sub3. cbn [x3 y3 z3]. rewrite P.
      assert (Fx : x3 f * bx b = x3 v + bx b / 2 - ((bxz b - byz b * bxy b) * z3 v + bxy b * y3 v)) by (cbn; field; lra).
      assert (Fy : y3 f * by_ b = y3 v + by_ b / 2 - byz b * z3 v) by (cbn; field; lra).
      rewrite P in Fx, Fy. apply v3_eq.
      * replace ((x3 f - IZR (Rfloor (x3 f))) * bx b) with (x3 f * bx b - IZR (Rfloor (x3 f)) * bx b) by ring.
        replace ((y3 f - IZR (Rfloor (y3 f))) * by_ b) with (y3 f * by_ b - IZR (Rfloor (y3 f)) * by_ b) by ring.
        rewrite Fx, Fy. field.
      * replace ((y3 f - IZR (Rfloor (y3 f))) * by_ b) with (y3 f * by_ b - IZR (Rfloor (y3 f)) * by_ b) by ring. rewrite Fy. field.
      * ring.
    + rewrite E. unfold half, coord_a, coord_b, makeCoordinates. rewrite D. cbn [x3 y3 z3].
      split; [|split; [|split; [auto|discriminate]]].
      * match goal with |- Rabs ?x <= _ => replace x with (frac (x3 f) - 1 / 2) by (field; lra) end. apply half_frac.
      * match goal with |- Rabs ?x <= _ => replace x with (frac (y3 f) - 1 / 2) by (field; lra) end. apply half_frac.
  - specialize (B3 eq_refl). split.
    + exists (Rfloor (x3 f)), (Rfloor (y3 f)), (Rfloor (z3 f)). split; [congruence|]. rewrite E. unfold makeCoordinates, lattice. rewrite D. cbn [x3 y3 z3].
      unfold frac, sub3. cbn [x3 y3 z3].
      assert (Fx : x3 f * bx b = x3 v + bx b / 2 - ((bxz b - byz b * bxy b) * z3 v + bxy b * y3 v)) by (cbn; field; lra).
      assert (Fy : y3 f * by_ b = y3 v + by_ b / 2 - byz b * z3 v) by (cbn; field; lra).
      assert (Fz : z3 f * bz b = z3 v + bz b / 2) by (unfold f; cbn; rewrite D; field; lra).
      assert (R1 : forall a c, (a - c) * bx b = a * bx b - c * bx b) by (intros; ring).
      assert (R2 : forall a c, (a - c) * by_ b = a * by_ b - c * by_ b) by (intros; ring).
      assert (R3 : forall a c, (a - c) * bz b = a * bz b - c * bz b) by (intros; ring).
      rewrite R1, R2, R3, Fx, Fy, Fz. apply v3_eq; field.
    + rewrite E. unfold half, coord_a, coord_b, coord_c, makeCoordinates. rewrite D. cbn [x3 y3 z3].
      split; [|split; [|split; [congruence|intros _]]].
      * match goal with |- Rabs ?x <= _ => replace x with (frac (x3 f) - 1 / 2) by (field; lra) end. apply half_frac.
      * match goal with |- Rabs ?x <= _ => replace x with (frac (y3 f) - 1 / 2) by (field; lra) end. apply half_frac.
      * match goal with |- Rabs ?x <= _ => replace x with (frac (z3 f) - 1 / 2) by (field; lra) end. apply half_frac.
Qed.

(** ** Lists *)
Lemma Forall2_len {A B} (P : A -> B -> Prop) l l' : Forall2 P l l' -> length l = length l'.
Proof. induction 1; cbn; auto. Qed.
Lemma zip_length {A B C} (f : A -> B -> C) a b : length a = length b -> length (zip f a b) = length a.
Proof. revert b. induction a; destruct b; cbn; intros; try discriminate; auto. Qed.
Lemma bzip_eq {A B C} (f : A -> B -> C) a b : length a = length b -> bzip f a b = inl (zip f a b).
Proof. intros E. unfold bzip. rewrite E, Nat.eqb_refl. reflexivity. Qed.
Lemma inplace_eq {A B} (f : A -> B -> A) a b : length a = length b -> inplace f a b = inl (zip f a b).
Proof. intros E. unfold inplace. rewrite E, Nat.eqb_refl. reflexivity. Qed.
Lemma inplace_length {A B} (f : A -> B -> A) a b r : inplace f a b = inl r -> length r = length a.
Proof.
  unfold inplace. destruct (length a =? length b)%nat eqn:E.
  - apply Nat.eqb_eq in E. intros [= <-]. apply zip_length. auto.
  - destruct b as [|y [|]]; intros [= <-]. apply map_length.
Qed.

Lemma last_cons {A} (x y : A) l : last (x :: l) y = last l x.
Proof.
  revert x y. induction l as [|z l IH]; intros x y; [reflexivity|].
  change (last (x :: z :: l) y) with (last (z :: l) y). rewrite IH, (IH z x). reflexivity.
Qed.

Section Adds.
  Variable wrap : fbox -> v3 -> v3.
  Variable gimbal : quat -> v3.
  Notation add := (motion_add wrap gimbal).
  Notation adds := (adds wrap gimbal).

  (** What a successful [add] does to frames of the same size *)
  Definition new_dt (m : motion) (p : list v3) : list v3 :=
    zip sub3 (m_dt m) (map (wrap (m_box m)) (zip sub3 (m_ppos m) p)).
  Lemma add_ok m p o m' : length (m_dt m) = length (m_ppos m) -> length (m_ppos m) = length p -> add m p o = (m', None) ->
    m_box m' = m_box m /\ m_dt m' = new_dt m p /\ m_ppos m' = p /\ m_pori m' = o.
  Proof.
    intros L1 L2. unfold motion_add. rewrite (bzip_eq sub3) by auto. cbn [ebind].
    rewrite inplace_eq by (rewrite map_length, zip_length; congruence). fold (new_dt m p).
    destruct (m_pori m); [destruct o|]; [|intros [= <-]; cbn; auto|intros [= <-]; cbn; auto].
    destruct (ebind _ _); intros [= <-]; cbn; auto.
  Qed.
  Lemma new_dt_length m p : length (m_dt m) = length (m_ppos m) -> length (m_ppos m) = length p -> length (new_dt m p) = length p.
  Proof. intros. unfold new_dt. rewrite zip_length; [congruence|]. rewrite map_length, zip_length; congruence. Qed.
  Lemma adds_app m l1 l2 : adds m (l1 ++ l2) = match adds m l1 with (m', None) => adds m' l2 | r => r end.
  Proof.
    revert m. induction l1 as [|[p o] l1 IH]; intros m; cbn; [destruct (adds m l2); reflexivity|].
    destruct (add m p o) as [m1 [e|]]; auto.
  Qed.

  (** ** The displacement is the true one for small steps *)
  Lemma new_dt_small b : wrap_ok wrap -> box_ok b -> forall u0 u u' pp p,
    length u0 = length u -> images b pp u -> images b p u' -> small_step b u u' ->
    zip sub3 (zip sub3 u u0) (map (wrap b) (zip sub3 pp p)) = zip sub3 u' u0.
  Proof.
    intros W B. induction u0 as [|x0 u0 IH]; intros u u' pp p L I I' St.
    - destruct u; [|discriminate]. inversion St; subst. reflexivity.
    - destruct u as [|x u]; [discriminate|]. cbn in L. inversion I as [|a ? pp' ? Ha Ipp]; subst.
      inversion St as [|? x' ? u1 Hs St']; subst. inversion I' as [|a' ? p' ? Ha' Ip]; subst. cbn.
      f_equal; [|apply IH; auto].
      assert (E : wrap b (sub3 a a') = sub3 x x').
      { apply wrap_small; auto.
        - replace (sub3 (sub3 a a') (sub3 x x')) with (sub3 (sub3 a x) (sub3 a' x')) by (unfold sub3; cbn; apply v3_eq; ring).
          apply is_lattice_sub; auto.
        - destruct Hs as (S1 & S2 & S3 & S4).
          assert (N : sub3 x x' = mk3 (- x3 (sub3 x' x)) (- y3 (sub3 x' x)) (- z3 (sub3 x' x))) by (unfold sub3; cbn; apply v3_eq; ring).
          set (s := sub3 x' x) in *. rewrite N. unfold below_half, coord_a, coord_b, coord_c. cbn [x3 y3 z3].
          split; [|split; [|split]].
          + rewrite <- Rabs_Ropp. match goal with |- Rabs ?y < _ => replace y with (coord_a b s); [auto|unfold coord_a; field; destruct B; lra] end.
          + rewrite <- Rabs_Ropp. match goal with |- Rabs ?y < _ => replace y with (coord_b b s); [auto|unfold coord_b; field; destruct B as (?&?&?); lra] end.
          + intros D. rewrite S3 by auto. ring.
          + intros D. rewrite <- Rabs_Ropp. match goal with |- Rabs ?y < _ => replace y with (coord_c b s); [auto|unfold coord_c; field; destruct B as (?&?&B3); specialize (B3 D); lra] end. }
      rewrite E. unfold sub3. cbn. apply v3_eq; ring.
  Qed.

  Lemma adds_small b u0 : wrap_ok wrap -> box_ok b -> forall l us u m m',
    m_box m = b -> m_dt m = zip sub3 u u0 -> length u0 = length u -> images b (m_ppos m) u ->
    Forall2 (fun f w => images b (fst f) w) l us -> chain (small_step b) u us ->
    adds m l = (m', None) -> m_dt m' = zip sub3 (last us u) u0.
  Proof.
    intros W B. induction l as [|[p o] l IH]; intros us u m m' E D L I F C A.
    - inversion F; subst. cbn in A. injection A as <-. cbn. auto.
    - inversion F as [|? u' ? us' Hp F']; subst. cbn in C. destruct C as [C1 C2]. cbn in A. cbn [fst] in Hp.
      assert (L1 : length (m_dt m) = length (m_ppos m)).
      { rewrite D, zip_length by auto. symmetry. apply (Forall2_len _ _ _ I). }
      assert (L2 : length (m_ppos m) = length p).
      { rewrite (Forall2_len _ _ _ I), (Forall2_len _ _ _ Hp). apply (Forall2_len _ _ _ C1). }
      destruct (add m p o) as [m1 [e|]] eqn:A1; [discriminate|].
      destruct (add_ok m p o m1 L1 L2 A1) as (E1 & D1 & P1 & _).
      rewrite last_cons.
      eapply (IH us' u' m1 m'); eauto.
      + rewrite D1. unfold new_dt. rewrite D. apply new_dt_small; auto.
      + rewrite L. apply (Forall2_len _ _ _ C1).
      + rewrite P1. auto.
  Qed.

  (** ** Right up to a lattice vector *)
  Lemma new_dt_mod b : wrap_ok wrap -> box_ok b -> forall p0 pp p dt,
    Forall2 (fun d xx => is_lattice b (sub3 d (sub3 (snd xx) (fst xx)))) dt (combine p0 pp) ->
    length p0 = length pp -> planar_step b pp p ->
    Forall2 (fun d xx => is_lattice b (sub3 d (sub3 (snd xx) (fst xx))))
      (zip sub3 dt (map (wrap b) (zip sub3 pp p))) (combine p0 p).
  Proof.
    intros W B. induction p0 as [|x0 p0 IH]; intros pp p dt F L P.
    - destruct pp; [|discriminate]. inversion P; subst. inversion F; subst. constructor.
    - destruct pp as [|x pp]; [discriminate|]. inversion P as [|? x' ? p' Hz P']; subst.
      inversion F as [|d ? dt' ? Hd F']; subst. cbn. constructor; [|apply IH; auto; cbn in L; congruence].
      cbn [fst snd] in *. destruct (W b (sub3 x x') B) as (Lw & _).
      { intros D. cbn. rewrite Hz by auto. ring. }
      match goal with |- is_lattice b ?g =>
        replace g with (add3 (sub3 d (sub3 x x0)) (sub3 (sub3 x x') (wrap b (sub3 x x')))) by (unfold add3, sub3; cbn; apply v3_eq; ring) end.
      apply is_lattice_add; auto.
  Qed.
  Lemma adds_mod b p0 : wrap_ok wrap -> box_ok b -> forall l m m',
    m_box m = b -> length p0 = length (m_ppos m) ->
    Forall2 (fun d xx => is_lattice b (sub3 d (sub3 (snd xx) (fst xx)))) (m_dt m) (combine p0 (m_ppos m)) ->
    chain (planar_step b) (m_ppos m) (map fst l) -> adds m l = (m', None) ->
    Forall2 (fun d xx => is_lattice b (sub3 d (sub3 (snd xx) (fst xx)))) (m_dt m') (combine p0 (m_ppos m')).
  Proof.
    intros W B. induction l as [|[p o] l IH]; intros m m' E L F C A.
    - cbn in A. injection A as <-. auto.
    - cbn in A, C. destruct C as [C1 C2]. destruct (add m p o) as [m1 [e|]] eqn:A1; [discriminate|].
      assert (L1 : length (m_dt m) = length (m_ppos m)).
      { rewrite (Forall2_len _ _ _ F), combine_length, L. lia. }
      pose proof (Forall2_len _ _ _ C1) as L2.
      destruct (add_ok m p o m1 L1 L2 A1) as (E1 & D1 & P1 & _).
      apply (IH m1 m'); auto; try congruence.
      rewrite D1, P1. unfold new_dt. rewrite E. apply new_dt_mod; auto.
  Qed.
  (** the last positions are kept *)
  Lemma adds_ppos : forall l m m', adds m l = (m', None) -> m_ppos m' = last (map fst l) (m_ppos m).
  Proof.
    induction l as [|[p o] l IH]; intros m m' A; cbn in A; [injection A as <-; reflexivity|].
    destruct (add m p o) as [m1 [e|]] eqn:A1; [discriminate|]. rewrite (IH m1 m' A).
    assert (P1 : m_ppos m1 = p).
    { unfold motion_add in A1. destruct (ebind (bzip sub3 _ _) _); [|discriminate].
      destruct (m_pori m); [destruct o|]; [|injection A1 as <-; reflexivity|injection A1 as <-; reflexivity].
      destruct (ebind _ _); [|discriminate]. injection A1 as <-. reflexivity. }
    rewrite P1. cbn [map fst].
    symmetry. apply last_cons.
  Qed.

  (** ** Rotation about z *)
  Lemma divide_turned q q' t t' : turned q t -> turned q' t' -> turned (qdivide q q') (t - t').
  Proof.
    assert (N : forall q, qnorm2 q = 1 -> qdivide qone (qneg q) = qneg (qdivide qone q)).
    { intros a U. unfold qdivide. rewrite !qinv_unit by (auto using unit_neg). unfold qone, qmul, qconj, qneg. cbn. apply q_eq; ring. }
    intros [-> | ->] [-> | ->]; unfold turned.
    - left. apply zquat_divide.
    - right. unfold qdivide. rewrite qinv_unit by (apply unit_neg, unit_zquat).
      rewrite <- zquat_divide. unfold qdivide. rewrite (qinv_unit (zquat t')) by apply unit_zquat.
      rewrite <- qneg_mul_r. f_equal.
    - right. rewrite <- zquat_divide. unfold qdivide. apply qneg_mul_l.
    - left. rewrite <- zquat_divide. unfold qdivide. rewrite qneg_mul_l.
      rewrite !qinv_unit by (auto using unit_neg, unit_zquat).
      replace (qconj (qneg (zquat t'))) with (qneg (qconj (zquat t'))) by reflexivity.
      rewrite qneg_mul_r. apply qneg_neg.
  Qed.
  Lemma turned_unit q t : turned q t -> unit q.
  Proof. intros [-> | ->]; [apply unit_zquat|apply unit_neg, unit_zquat]. Qed.

  Definition spin (x : R) : v3 := mk3 x 0 0.
  Lemma euler_turns : forall a a' q q', Forall2 turned q a -> Forall2 turned q' a' -> turn_step a a' ->
    to_euler_all gimbal (zip qdivide q' q) = inl (map spin (zip Rminus a' a)).
  Proof.
    intros a a' q q' F F' T. unfold to_euler_all.
    assert (G : forallb unitb (zip qdivide q' q) = true /\ map (to_euler gimbal) (zip qdivide q' q) = map spin (zip Rminus a' a)).
    2:{ destruct G as [-> ->]. reflexivity. }
    revert a' q' F' T. induction F as [|p t q a Hp F IH]; intros a' q' F' T.
    - inversion T; subst. inversion F'; subst. auto.
    - inversion T as [|? t' ? a1 Ht T']; subst. inversion F' as [|p' ? q1 ? Hp' F1]; subst.
      destruct (IH a1 q1 F1 T') as [I1 I2]. cbn. rewrite I1, I2.
      pose proof (divide_turned p' p t' t Hp' Hp) as D. split.
      + unfold unitb. destruct (Req_EM_T _ 1) as [|N]; auto. exfalso. apply N. apply (turned_unit _ _ D).
      + f_equal. apply to_euler_z; auto. apply Rabs_def2 in Ht. lra.
  Qed.
  Lemma spin_add : forall a0 a a', length a0 = length a -> length a = length a' ->
    zip add3 (map spin (zip Rminus a a0)) (map spin (zip Rminus a' a)) = map spin (zip Rminus a' a0).
  Proof.
    induction a0 as [|x a0 IH]; intros [|y a] [|z a']; cbn; intros; try discriminate; auto.
    f_equal; [|apply IH; congruence]. unfold spin, add3. cbn. apply v3_eq; ring.
  Qed.

  Lemma adds_turns n a0 : length a0 = n -> forall l angles a q m,
    length (m_dt m) = n -> length (m_ppos m) = n -> m_pori m = Some q ->
    m_dr m = map spin (zip Rminus a a0) -> Forall2 turned q a -> length a = n ->
    Forall2 (fun f t => length (fst f) = n /\ exists q', snd f = Some q' /\ Forall2 turned q' t) l angles ->
    chain turn_step a angles ->
    exists m', adds m l = (m', None) /\ m_dr m' = map spin (zip Rminus (last angles a) a0).
  Proof.
    intros La0. induction l as [|[p o] l IH]; intros angles a q m L1 L2 O D Fq La F C.
    - inversion F; subst. exists m. split; auto.
    - inversion F as [|? a' ? angles' Hf F']; subst. destruct Hf as (Lp & q' & O' & Fq'). cbn in Lp, O'. subst o.
      cbn in C. destruct C as [C1 C2]. cbn [MotionModel.adds].
      assert (A : exists m1, add m p (Some q') = (m1, None) /\ m_dr m1 = map spin (zip Rminus a' a0)
                             /\ length (m_dt m1) = length a0 /\ m_ppos m1 = p /\ m_pori m1 = Some q').
      { unfold motion_add. rewrite (bzip_eq sub3) by congruence. cbn [ebind].
        rewrite inplace_eq by (rewrite map_length, zip_length; congruence). rewrite O.
        pose proof (Forall2_len _ _ _ Fq). pose proof (Forall2_len _ _ _ Fq'). pose proof (Forall2_len _ _ _ C1).
        rewrite bzip_eq by congruence. cbn [ebind]. rewrite (euler_turns a a' q q' Fq Fq' C1). cbn [ebind].
        rewrite inplace_eq. 2:{ rewrite D, !map_length, !zip_length; congruence. }
        eexists. split; [reflexivity|]. cbn. split; [|split; [|auto]].
        - rewrite D. apply spin_add; congruence.
        - rewrite zip_length; [congruence|]. rewrite map_length, zip_length; congruence. }
      destruct A as (m1 & A & D1 & Ld1 & P1 & O1). rewrite A, last_cons.
      apply (IH angles' a' q' m1); auto; try congruence.
      rewrite <- La. symmetry. apply (Forall2_len _ _ _ C1).
  Qed.

  (** ** Which rotations are counted *)
  Definition rotate_by (dr : list v3) (qq : list quat * list quat) : list v3 + exn :=
    ebind (bzip qdivide (snd qq) (fst qq)) (fun q => ebind (to_euler_all gimbal q) (inplace add3 dr)).
  Fixpoint rotate_all (dr : list v3) (l : list (list quat * list quat)) : list v3 + exn :=
    match l with [] => inl dr | x :: l' => ebind (rotate_by dr x) (fun dr' => rotate_all dr' l') end.
  Lemma adds_pattern : forall l m m' s, adds m l = (m', None) ->
    m_box s = m_box m -> m_dt s = m_dt m -> m_ppos s = m_ppos m -> m_pori s = None ->
    rotate_all (m_dr m) (turns (m_pori m) (map snd l)) = inl (m_dr m') /\
    exists s', adds s (map (fun f => (fst f, None)) l) = (s', None) /\ m_dt s' = m_dt m' /\ m_ppos s' = m_ppos m' /\ m_dr s' = m_dr s.
  Proof.
    induction l as [|[p o] l IH]; intros m m' s A E1 E2 E3 E4; cbn in A.
    - injection A as <-. cbn. split; auto. exists s. auto.
    - destruct (add m p o) as [m1 [e|]] eqn:A1; [discriminate|].
      cbn [map snd fst MotionModel.adds turns]. unfold motion_add in A1.
      unfold motion_add at 1. rewrite E1, E2, E3, E4.
      destruct (ebind (bzip sub3 (m_ppos m) p) _) as [dt|] eqn:T; [|discriminate].
      specialize (IH m1 m' (mkmotion (m_box m) dt (m_dr s) p None) A).
      destruct (m_pori m) as [prev|]; [destruct o as [ori|]|].
      + destruct (ebind (bzip qdivide ori prev) _) as [dr|] eqn:Q; [|discriminate]. injection A1 as <-.
        cbn in IH. destruct IH as (R1 & S1); auto. split; auto.
        cbn. unfold rotate_by. cbn [fst snd]. rewrite Q. cbn. auto.
      + injection A1 as <-. cbn in IH. apply IH; auto.
      + injection A1 as <-. cbn in IH. destruct IH as (R1 & S1); auto.
  Qed.
End Adds.
