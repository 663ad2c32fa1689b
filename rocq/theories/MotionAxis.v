(** TrackedMotion with molecules turning about the x, y or z axis: property C107. *)
From Coq Require Import Reals ZArith List Bool Lra Lia.
From Verif Require Import Base RVec RVecFacts MotionModel MotionSpec MotionProofs MotionProps.
Import ListNotations.
Open Scope R_scope.

(** Rotation by [t] about a coordinate axis, the Euler angles that should record it, and the
    largest turn between frames *)
Inductive axis : Set := AX | AY | AZ.
Definition axis_quat (a : axis) : R -> quat := match a with AX => xquat | AY => yquat | AZ => zquat end.
Definition axis_turn (a : axis) (t : R) : v3 := match a with AX => mk3 0 0 t | AY => mk3 0 t 0 | AZ => mk3 t 0 0 end.
Definition axis_max (a : axis) : R := match a with AY => PI / 3 | _ => PI end.
Definition turned_about (a : axis) (q : quat) (t : R) : Prop := q = axis_quat a t \/ q = qneg (axis_quat a t).
Definition turn_step_about (a : axis) (l l' : list R) : Prop := Forall2 (fun t t' => Rabs (t' - t) < axis_max a) l l'.

Lemma axis_unit a t : unit (axis_quat a t).
Proof. destruct a; [apply unit_xquat|apply unit_yquat|apply unit_zquat]. Qed.
Lemma axis_divide a s t : qdivide (axis_quat a s) (axis_quat a t) = axis_quat a (s - t).
Proof.
  unfold qdivide. rewrite qinv_unit by apply axis_unit.
  destruct a; unfold axis_quat, qmul, qconj, xquat, yquat, zquat; cbn; replace ((s - t) / 2) with (s / 2 - t / 2) by field;
    rewrite cos_minus, sin_minus; apply q_eq; ring.
Qed.
Lemma turned_divide a q q' t t' : turned_about a q t -> turned_about a q' t' -> turned_about a (qdivide q q') (t - t').
Proof.
  intros [-> | ->] [-> | ->]; unfold turned_about.
  - left. apply axis_divide.
  - right. rewrite <- axis_divide. unfold qdivide. rewrite !qinv_unit by (auto using unit_neg, axis_unit).
    replace (qconj (qneg (axis_quat a t'))) with (qneg (qconj (axis_quat a t'))) by reflexivity. apply qneg_mul_r.
  - right. rewrite <- axis_divide. unfold qdivide. apply qneg_mul_l.
  - left. rewrite <- axis_divide. unfold qdivide. rewrite qneg_mul_l. rewrite !qinv_unit by (auto using unit_neg, axis_unit).
    replace (qconj (qneg (axis_quat a t'))) with (qneg (qconj (axis_quat a t'))) by reflexivity.
    rewrite qneg_mul_r. apply qneg_neg.
Qed.
Lemma turned_about_unit a q t : turned_about a q t -> unit q.
Proof. intros [-> | ->]; [apply axis_unit|apply unit_neg, axis_unit]. Qed.

Lemma atan2_0_pos x : 0 < x -> atan2 0 x = 0.
Proof.
  intros P. pose proof (atan2_polar x 0 P) as H. rewrite sin_0, cos_0, Rmult_0_r, Rmult_1_r in H. apply H.
  pose proof PI_RGT_0. lra.
Qed.
Lemma atan2_0_neg x : x < 0 -> atan2 0 x = PI.
Proof.
  intros P. pose proof (atan2_polar (- x) PI) as H. rewrite sin_PI, cos_PI, Rmult_0_r in H.
  replace (- x * -1) with x in H by ring. apply H; pose proof PI_RGT_0; lra.
Qed.
Lemma to_euler_axis g a q t : turned_about a q t -> Rabs t < axis_max a -> to_euler g q = axis_turn a t.
Proof.
  intros T B. apply Rabs_def2 in B. pose proof PI_RGT_0 as PP. destruct a; cbn in B.
  - destruct (double_half t) as (D1 & D2).
    assert (M : m20 q = 0 /\ m10 q = 0 /\ m00 q = 1 /\ m21 q = sin t /\ m22 q = cos t).
    { destruct T as [-> | ->]; unfold m20, m10, m00, m21, m22, axis_quat, xquat, qneg; cbn; rewrite <- D1, <- D2; repeat split; ring. }
    destruct M as (M1 & M2 & M3 & M4 & M5). unfold to_euler. rewrite M1, M2, M3, M4, M5.
    rewrite Ropp_0, asin_0, cos_0, Rabs_R1. destruct (Rle_dec 1 (/ 1000)); [lra|].
    cbn. apply v3_eq; auto; [apply atan2_0_pos; lra|apply atan2_unit; lra].
  - destruct (double_half t) as (D1 & D2).
    assert (M : m20 q = - sin t /\ m10 q = 0 /\ m00 q = cos t /\ m21 q = 0 /\ m22 q = cos t).
    { destruct T as [-> | ->]; unfold m20, m10, m00, m21, m22, axis_quat, yquat, qneg; cbn; rewrite <- D1, <- D2; repeat split; ring. }
    destruct M as (M1 & M2 & M3 & M4 & M5). unfold to_euler. rewrite M1, M2, M3, M4, M5.
    rewrite Ropp_involutive, asin_sin by lra.
    assert (C : 1 / 2 < cos t).
    { rewrite <- cos_PI3. destruct (Rle_dec 0 t) as [P|N].
      - apply cos_decreasing_1; lra.
      - rewrite <- (cos_neg t). apply cos_decreasing_1; lra. }
    rewrite Rabs_pos_eq by lra. destruct (Rle_dec (cos t) (/ 1000)); [lra|].
    cbn. apply v3_eq; auto; apply atan2_0_pos; lra.
  - apply to_euler_z; auto. lra.
Qed.

Section Axis.
  Variable wrap : fbox -> v3 -> v3.
  Variable gimbal : quat -> v3.
  Variable a : axis.

  Lemma axis_euler : forall t t' q q', Forall2 (turned_about a) q t -> Forall2 (turned_about a) q' t' -> turn_step_about a t t' ->
    to_euler_all gimbal (zip qdivide q' q) = inl (map (axis_turn a) (zip Rminus t' t)).
  Proof.
    intros t t' q q' F F' T.
    assert (G : Forall unit (zip qdivide q' q) /\ map (to_euler gimbal) (zip qdivide q' q) = map (axis_turn a) (zip Rminus t' t)).
    2:{ destruct G as [U E]. rewrite to_euler_all_ok, E by auto. reflexivity. }
    revert t' q' F' T. induction F as [|p x q t Hp F IH]; intros t' q' F' T.
    - inversion T; subst. inversion F'; subst. split; [constructor|reflexivity].
    - inversion T as [|? x' ? t1 Hx T']; subst. inversion F' as [|p' ? q1 ? Hp' F1]; subst.
      destruct (IH t1 q1 F1 T') as [I1 I2]. cbn. pose proof (turned_divide a p' p x' x Hp' Hp) as D. rewrite I2. split.
      + constructor; auto. apply (turned_about_unit _ _ _ D).
      + f_equal. apply to_euler_axis; auto.
  Qed.
  Lemma axis_add : forall t0 t t', length t0 = length t -> length t = length t' ->
    zip add3 (map (axis_turn a) (zip Rminus t t0)) (map (axis_turn a) (zip Rminus t' t)) = map (axis_turn a) (zip Rminus t' t0).
  Proof.
    induction t0 as [|x t0 IH]; intros [|y t] [|z t']; cbn; intros; try discriminate; auto.
    f_equal; [|apply IH; congruence]. destruct a; unfold add3; cbn; apply v3_eq; ring.
  Qed.
  Lemma axis_adds n t0 : length t0 = n -> forall l angles t q m,
    length (m_dt m) = n -> length (m_ppos m) = n -> m_pori m = Some q ->
    m_dr m = map (axis_turn a) (zip Rminus t t0) -> Forall2 (turned_about a) q t -> length t = n ->
    Forall2 (fun f t => length (fst f) = n /\ exists q', snd f = Some q' /\ Forall2 (turned_about a) q' t) l angles ->
    chain (turn_step_about a) t angles ->
    exists m', adds wrap gimbal m l = (m', None) /\ m_dr m' = map (axis_turn a) (zip Rminus (last angles t) t0).
  Proof.
    intros Lt0. induction l as [|[p o] l IH]; intros angles t q m L1 L2 O D Fq Lt F C.
    - inversion F; subst. exists m. split; auto.
    - inversion F as [|? t' ? angles' Hf F']; subst. destruct Hf as (Lp & q' & O' & Fq'). cbn in Lp, O'. subst o.
      cbn in C. destruct C as [C1 C2]. cbn [MotionModel.adds].
      assert (A : exists m1, motion_add wrap gimbal m p (Some q') = (m1, None) /\ m_dr m1 = map (axis_turn a) (zip Rminus t' t0)
                             /\ length (m_dt m1) = length t0 /\ m_ppos m1 = p /\ m_pori m1 = Some q').
      { unfold motion_add. rewrite (bzip_eq sub3) by congruence. cbn [ebind].
        rewrite inplace_eq by (rewrite map_length, zip_length; congruence). rewrite O.
        pose proof (Forall2_len _ _ _ Fq). pose proof (Forall2_len _ _ _ Fq'). pose proof (Forall2_len _ _ _ C1).
        rewrite bzip_eq by congruence. cbn [ebind]. rewrite (axis_euler t t' q q' Fq Fq' C1). cbn [ebind].
        rewrite inplace_eq. 2:{ rewrite D, !map_length, !zip_length; congruence. }
        eexists. split; [reflexivity|]. cbn. split; [|split; [|auto]].
        - rewrite D. apply axis_add; congruence.
        - rewrite zip_length; [congruence|]. rewrite map_length, zip_length; congruence. }
      destruct A as (m1 & A & D1 & Ld1 & P1 & O1). rewrite A, last_cons.
      apply (IH angles' t' q' m1); auto; try congruence.
      rewrite <- Lt. symmetry. apply (Forall2_len _ _ _ C1).
  Qed.
End Axis.

(** * C107 *)
(** Molecules turning about one coordinate axis by less than pi between frames (pi/3 about y)
    are tracked exactly. *)
Theorem C107_axis_partial (wrap : fbox -> v3 -> v3) (gimbal : quat -> v3) (a : axis) b p0 q0 m0 (frames : list frame) t0 angles :
  motion_init b p0 (Some q0) = inl m0 -> length p0 = length q0 -> Forall2 (turned_about a) q0 t0 ->
  Forall2 (fun f t => length (fst f) = length p0 /\ exists q, snd f = Some q /\ Forall2 (turned_about a) q t) frames angles ->
  chain (turn_step_about a) t0 angles ->
  exists m, adds wrap gimbal m0 frames = (m, None) /\
    m_dr m = map (axis_turn a) (zip Rminus (last angles t0) t0).
Proof.
  intros I L F0 F C. destruct (init_ok _ _ _ _ I) as (E1 & E2 & E3 & E4 & E5). pose proof (Forall2_len _ _ _ F0) as L0.
  apply (axis_adds wrap gimbal a (length p0) t0) with q0; auto; try (rewrite ?E2, ?E4, ?map_length; congruence).
  rewrite E3. assert (LL : length p0 = length t0) by congruence. clear - LL. revert t0 LL. induction p0 as [|x p IH]; intros [|y t] H; cbn in *; try discriminate; auto.
  rewrite <- (IH t) by congruence. f_equal. destruct a; unfold axis_turn, zero3; apply v3_eq; ring.
Qed.
Print Assumptions C107_axis_partial.
(** Four turns of pi/4 about y *)
Example C107_example : exists m, adds freud_wrap (fun _ => zero3)
    (mkmotion square10 [zero3] [zero3] (at_x 0) (Some [yquat 0]))
    (map (fun q => (at_x 0, Some [q])) [yquat (PI / 4); yquat (PI / 2); qneg (yquat (3 * PI / 4)); yquat PI]) = (m, None)
  /\ m_dr m = [mk3 0 PI 0].
Proof.
  destruct (C107_axis_partial freud_wrap (fun _ => zero3) AY square10 (at_x 0) [yquat 0]
    (mkmotion square10 [zero3] [zero3] (at_x 0) (Some [yquat 0]))
    (map (fun q => (at_x 0, Some [q])) [yquat (PI / 4); yquat (PI / 2); qneg (yquat (3 * PI / 4)); yquat PI])
    [0] [[PI / 4]; [PI / 2]; [3 * PI / 4]; [PI]]) as (m & A & D); try reflexivity.
  - repeat constructor.
  - cbn [map]. do 4 (apply Forall2_cons; [split; [reflexivity|]; eexists; split; [reflexivity|]; constructor; [unfold turned_about; auto|constructor]|]). apply Forall2_nil.
  - pose proof PI_RGT_0. cbn [chain]. repeat split; (constructor; [|constructor]); apply Rabs_def1; cbn; lra.
  - exists m. split; auto. rewrite D. cbn. f_equal. apply v3_eq; ring.
Qed.

(** A single turn by 3 pi / 4 about y is recorded as (pi, pi/4, pi), whose length is not the
    angle turned. *)
Theorem C107_axis_refuted : exists m,
  motion_add freud_wrap (fun _ => zero3) (mkmotion square10 [zero3] [zero3] (at_x 0) (Some [qone])) (at_x 0) (Some [yquat (3 * PI / 4)]) = (m, None)
  /\ m_dr m = [mk3 PI (PI / 4) PI] /\ Forall (fun d => norm3 d > 3 * PI / 4) (m_dr m).
Proof.
  assert (E : to_euler (fun _ => zero3) (qdivide (yquat (3 * PI / 4)) qone) = mk3 PI (PI / 4) PI).
  { set (t := 3 * PI / 4). pose proof PI_RGT_0 as PP.
    replace (qdivide (yquat t) qone) with (yquat t).
    2:{ unfold qdivide. rewrite qinv_unit by apply unit_one. replace (qconj qone) with qone by (unfold qconj, qone; cbn; apply q_eq; ring).
        symmetry. apply qmul_one_r. }
    destruct (double_half t) as (D1 & D2).
    assert (M : m20 (yquat t) = - sin t /\ m10 (yquat t) = 0 /\ m00 (yquat t) = cos t /\ m21 (yquat t) = 0 /\ m22 (yquat t) = cos t).
    { unfold m20, m10, m00, m21, m22, yquat; cbn; rewrite <- D1, <- D2; repeat split; ring. }
    destruct M as (M1 & M2 & M3 & M4 & M5). unfold to_euler. rewrite M1, M2, M3, M4, M5.
    rewrite Ropp_involutive. replace (sin t) with (sin (PI / 4)) by (rewrite <- sin_PI_x; f_equal; unfold t; field).
    rewrite asin_sin by lra.
    assert (C : 1 / 2 < cos (PI / 4)) by (rewrite <- cos_PI3; apply cos_decreasing_1; lra).
    assert (C' : cos t < 0) by (apply cos_lt_0; unfold t; lra).
    rewrite Rabs_pos_eq by lra. destruct (Rle_dec (cos (PI / 4)) (/ 1000)); [lra|].
    apply v3_eq; auto; apply atan2_0_neg; auto. }
  assert (U : unit (qdivide (yquat (3 * PI / 4)) qone)) by (apply unit_divide; [apply unit_yquat|apply unit_one]).
  unfold motion_add. cbn [m_ppos m_pori m_dt m_dr m_box at_x bzip length Nat.eqb zip ebind map inplace].
  rewrite to_euler_all_ok by (repeat constructor; auto). cbn [ebind map inplace length Nat.eqb zip].
  eexists. split; [reflexivity|]. cbn [m_dr]. rewrite E, add3_zero_l. split; auto. constructor; [|constructor].
  unfold norm3. pose proof PI_RGT_0. apply Rsqr_incrst_0; try (unfold Rdiv; nra); [|apply sqrt_pos].
  rewrite Rsqr_sqrt by apply norm2_nonneg. unfold norm2_3, dot3, Rsqr. cbn. nra.
Qed.
Print Assumptions C107_axis_refuted.
