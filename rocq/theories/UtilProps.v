(** Properties of the quaternion helpers, C87, C88, C115, C116. *)
From Coq Require Import Reals List Bool Arith ZArith Lra Lia.
From Verif Require Import Base RVec RVecFacts MotionModel OrderModel OrderProofs MoleculeSpec UtilModel UtilSpec UtilProofs.
Import ListNotations.
Open Scope R_scope.
Notation length := List.length.

(** * C87 *)
Theorem C87_round_trip gimbal theta : Forall (fun t => - PI < t <= PI) theta -> quaternion2z gimbal (z2quaternion theta) = theta.
Proof.
  intros F. unfold quaternion2z, z2quaternion. rewrite map_map. induction F as [|t l T F IH]; [reflexivity|]. cbn [map]. rewrite IH.
  rewrite from_euler_z, (to_euler_z _ _ t T) by auto. reflexivity.
Qed.
Print Assumptions C87_round_trip.
(** For every angle, up to full turns, and for both quaternions of an orientation *)
Theorem C87_any_angle gimbal theta qs : Forall2 (fun t q => q = zquat t \/ q = qneg (zquat t)) theta qs ->
  Forall2 (fun t z => - PI < z <= PI /\ exists k : Z, z = t - 2 * PI * IZR k) theta (quaternion2z gimbal qs).
Proof.
  induction 1 as [|t q l l' Q F IH]; [constructor|]. cbn [quaternion2z map]. constructor; auto. destruct (turn_down t) as (k & K).
  rewrite (to_euler_z gimbal q (t - 2 * PI * IZR k) K); [cbn; split; eauto|].
  destruct (zquat_period t k) as [E|E]; rewrite E in Q; rewrite ?qneg_neg in Q; destruct Q; auto.
Qed.
Print Assumptions C87_any_angle.
Theorem C87_unit theta : Forall unit (z2quaternion theta) /\ length (z2quaternion theta) = length theta /\
  forall i v, (i < length theta)%nat -> rot (nth i (z2quaternion theta) qone) v = turn (nth i theta 0) v.
Proof.
  unfold z2quaternion. split; [apply Forall_map, Forall_forall; intros; apply unit_from_euler|]. split; [apply map_length|].
  intros i v H. rewrite (nth_map_lt _ theta i 0) by auto. rewrite from_euler_z. apply rot_zquat.
Qed.
Print Assumptions C87_unit.
(** In three dimensions too, if rowan's answer in gimbal lock is an angle in that range *)
Theorem C87_bounds gimbal qs : (forall q, - PI <= x3 (gimbal q) <= PI) -> Forall (fun z => - PI <= z <= PI) (quaternion2z gimbal qs).
Proof.
  intros G. apply Forall_map, Forall_forall. intros q _. unfold to_euler. destruct (Rle_dec _ _); [auto|cbn; apply atan2_bound].
Qed.
Print Assumptions C87_bounds.
Example C87_example : quaternion2z (fun _ => zero3) (z2quaternion [0; 1; -2; PI]) = [0; 1; -2; PI].
Proof. apply C87_round_trip. pose proof PI_RGT_0. pose proof PI2_3_2. repeat constructor; lra. Qed.
Example C87_example_any : exists z, quaternion2z (fun _ => zero3) [qneg (zquat (3 * PI))] = [z] /\ - PI < z <= PI.
Proof.
  pose proof (C87_any_angle (fun _ => zero3) [3 * PI] [qneg (zquat (3 * PI))]) as H. specialize (H (Forall2_cons _ _ (or_intror eq_refl) (Forall2_nil _))).
  unfold quaternion2z in *. cbn [map] in *. eexists. split; [reflexivity|]. inversion H as [|? ? ? ? (B & _) F E1 E2]. exact B.
Qed.
Example C87_example_bounds : Forall (fun z => - PI <= z <= PI) (quaternion2z (fun _ => zero3) [yquat (PI / 2); xquat 1]).
Proof. apply C87_bounds. intros. cbn. pose proof PI_RGT_0. lra. Qed.

(** * C88 *)
Theorem C88_positions num offsets position orientation :
  offsets <> [] -> num = length offsets -> length position = length orientation ->
  exists res, orientation2positions num offsets position orientation = inl res /\
    length res = (num * length position)%nat /\
    forall p m, (p < num)%nat -> (m < length position)%nat ->
      nth (p * length position + m) res zero3 = add3 (nth m position zero3) (rot (nth m orientation qone) (nth p offsets zero3)).
Proof. apply positions_ok. Qed.
Print Assumptions C88_positions.
(** Molecules are rigid and, if the template is centred, at their position. *)
Theorem C88_rigid num offsets position orientation res :
  offsets <> [] -> num = length offsets -> length position = length orientation -> Forall unit orientation ->
  orientation2positions num offsets position orientation = inl res ->
  (forall m p p', (m < length position)%nat -> (p < num)%nat -> (p' < num)%nat ->
     norm3 (sub3 (nth (p * length position + m) res zero3) (nth (p' * length position + m) res zero3)) =
     norm3 (sub3 (nth p offsets zero3) (nth p' offsets zero3))) /\
  (centred offsets -> forall m, (m < length position)%nat ->
     fold_right add3 zero3 (map (fun p => nth (p * length position + m) res zero3) (seq 0 num)) = scale3 (INR num) (nth m position zero3)).
Proof.
  intros N E L U H. destruct (positions_ok num offsets position orientation N E L) as (res' & E' & Lr & V).
  assert (res' = res) by congruence. subst res'. clear E' H. split.
  - intros m p p' M P P'. rewrite !V by auto. set (q := nth m orientation qone). assert (Uq : unit q) by (apply nth_unit; auto).
    rewrite <- (rot_norm q (sub3 (nth p offsets zero3) (nth p' offsets zero3)) Uq). f_equal. rewrite rot_sub.
    destruct (rot q (nth p offsets zero3)), (rot q (nth p' offsets zero3)), (nth m position zero3). unfold sub3, add3. cbn. apply v3_eq; ring.
  - intros C m M. set (x := nth m position zero3). set (q := nth m orientation qone).
    rewrite (map_ext_in _ (fun p => add3 x (rot q (nth p offsets zero3)))).
    2:{ intros p I. apply in_seq in I. apply V; lia. }
    assert (S1 : map (fun p => add3 x (rot q (nth p offsets zero3))) (seq 0 num) = map (fun o => add3 x (rot q o)) offsets).
    { rewrite E. clear. rewrite <- (map_map (fun p => nth p offsets zero3) (fun o => add3 x (rot q o))). f_equal.
      apply nth_ext with zero3 zero3; rewrite map_length, seq_length; auto. intros n I. rewrite (nth_map_lt _ (seq 0 (length offsets)) n 0%nat) by (rewrite seq_length; auto).
      rewrite seq_nth by auto. reflexivity. }
    rewrite S1, E. clear - C.
    assert (G : forall l, fold_right add3 zero3 (map (fun o => add3 x (rot q o)) l) = add3 (scale3 (INR (length l)) x) (rot q (fold_right add3 zero3 l))).
    { induction l as [|o l IH].
      - cbn [map fold_right length]. rewrite rot_zero. destruct x. unfold add3, scale3, zero3. cbn. apply v3_eq; ring.
      - cbn [map fold_right length]. rewrite IH, rot_add, S_INR. destruct x, (rot q o), (rot q (fold_right add3 zero3 l)). unfold add3, scale3. cbn. apply v3_eq; ring. }
    rewrite G, C, rot_zero. apply add3_zero_r.
Qed.
Print Assumptions C88_rigid.
Definition two_offsets : list v3 := [mk3 (-1) 0 0; mk3 1 0 0].
Example C88_example : exists res, orientation2positions 2 two_offsets [mk3 5 0 0; mk3 0 5 0; mk3 7 7 0] [qone; zquat 1; zquat 2] = inl res /\
  nth 3 res zero3 = mk3 6 0 0 /\ norm3 (sub3 (nth 4 res zero3) (nth 1 res zero3)) = 2.
Proof.
  set (pos := [mk3 5 0 0; mk3 0 5 0; mk3 7 7 0]). set (ori := [qone; zquat 1; zquat 2]).
  destruct (C88_positions 2 two_offsets pos ori ltac:(discriminate) eq_refl eq_refl) as (res & E & _ & V). exists res. split; auto. split.
  - change (nth 3 res zero3) with (nth (1 * length pos + 0) res zero3). rewrite V by (cbn; lia). cbn [nth pos ori two_offsets]. rewrite rot_one. unfold add3. cbn. apply v3_eq; ring.
  - assert (U : Forall unit ori) by (unfold ori; do 3 (constructor; [first [apply unit_one|apply unit_zquat]|]); constructor).
    destruct (C88_rigid 2 two_offsets pos ori res ltac:(discriminate) eq_refl eq_refl U E) as (R & _).
    change (nth 4 res zero3) with (nth (1 * length pos + 1) res zero3). change (nth 1 res zero3) with (nth (0 * length pos + 1) res zero3).
    rewrite R by (cbn; lia). cbn [nth two_offsets]. unfold norm3, norm2_3, dot3, sub3. cbn [x3 y3 z3].
    replace (_ + _) with (2 * 2) by ring. apply sqrt_square. lra.
Qed.
(** A molecule whose list of particles does not match its positions is rejected, if there are
    at least two molecules. *)
Theorem C88_mismatch num offsets position orientation :
  (2 <= length position)%nat -> length position = length orientation -> (0 < num)%nat -> num <> length offsets ->
  orientation2positions num offsets position orientation = inr ValueError.
Proof.
  intros N L P D. unfold orientation2positions. destruct offsets as [|o os] eqn:O; auto. rewrite <- O in *.
  set (a := concat (repeat position num)). set (b := concat (map (fun o => map (fun q => rot q o) orientation) offsets)).
  assert (La : length a = (num * length position)%nat).
  { unfold a. rewrite (concat_length_const (length position)), repeat_length; auto. apply Forall_repeat; auto. }
  assert (Lb : length b = (length offsets * length position)%nat).
  { unfold b. rewrite (concat_length_const (length position)), map_length; auto. apply Forall_map, Forall_forall. intros. rewrite map_length. auto. }
  assert (0 < length offsets)%nat by (rewrite O; cbn; lia).
  unfold bzip. destruct (Nat.eqb_spec (length a) (length b)) as [E|E]; [rewrite La, Lb in E; nia|].
  destruct a as [|a1 [|a2 a']], b as [|b1 [|b2 b']]; cbn [length] in La, Lb; try nia; reflexivity.
Qed.
Print Assumptions C88_mismatch.
Example C88_example_mismatch : orientation2positions 3 two_offsets [mk3 5 0 0; mk3 0 5 0] [qone; zquat 1] = inr ValueError.
Proof. apply C88_mismatch; cbn; try lia. Qed.

(** * C115, C116 *)
Lemma trace_unit r : unit r -> trace r = 4 * (qw r * qw r) - 1.
Proof. destruct r as [a b c d]. unfold unit, qnorm2, trace. cbn [qw qx qy qz]. intros U. rewrite !rot_explicit. cbn [x3 y3 z3]. lra. Qed.
Lemma distance_cos nr p q : unit p -> unit q -> (nr = 0 \/ nr = PI) -> (0 <= qdot p q \/ q <> qneg p) ->
  0 <= intrinsic_distance nr p q <= PI /\ cos (intrinsic_distance nr p q) = qdot p q.
Proof.
  intros U V NR D. assert (W : unit (qmul (qconj p) q)) by (apply unit_mul; auto; apply unit_conj; auto).
  unfold intrinsic_distance. rewrite <- qw_conj_mul in *. set (r := qmul (qconj p) q) in *. unfold log_norm. rewrite W, sqrt_1, ln_1.
  replace (0 * 0 + log_angle nr r * log_angle nr r) with (Rsqr (log_angle nr r)) by (unfold Rsqr; ring). rewrite sqrt_Rsqr_abs.
  pose proof PI_RGT_0 as P. unfold log_angle. unfold unit in W. destruct (Req_EM_T _ 0) as [Z|Z].
  - unfold qnorm2 in W. destruct (Rlt_dec (qw r) 0) as [L|L].
    + exfalso. destruct D as [D|D]; [lra|]. apply D. assert (X : qx r = 0 /\ qy r = 0 /\ qz r = 0).
      { pose proof (Rle_0_sqr (qx r)). pose proof (Rle_0_sqr (qy r)). pose proof (Rle_0_sqr (qz r)). unfold Rsqr in *.
        repeat split; apply Rsqr_0_uniq; unfold Rsqr; lra. }
      destruct X as (X & Y & Z'). assert (Wm : qw r = -1) by nra.
      assert (R1 : r = qneg qone) by (destruct r; cbn in *; subst; unfold qneg, qone; cbn; apply q_eq; ring).
      assert (Q : q = qmul p r) by (unfold r; rewrite <- qmul_assoc, qmul_conj, qmul_one_l; auto).
      rewrite Q, R1, qneg_mul_r, qmul_one_r. reflexivity.
    + rewrite Rabs_R0, cos_0. split; [lra|]. assert (qw r * qw r = 1) by lra. nra.
  - rewrite W, sqrt_1. unfold Rdiv. rewrite Rinv_1, Rmult_1_r. pose proof (acos_bound (qw r)). rewrite Rabs_right by lra. split; auto.
    apply cos_acos. unfold qnorm2 in W. pose proof (Rle_0_sqr (qx r)). pose proof (Rle_0_sqr (qy r)). pose proof (Rle_0_sqr (qz r)). unfold Rsqr in *. nra.
Qed.
Lemma qdot_rel p q : qw (qmul q (qconj p)) = qdot p q.
Proof. destruct p, q. unfold qmul, qconj, qdot. cbn. ring. Qed.
Lemma distance_angle nr p q : unit p -> unit q -> (nr = 0 \/ nr = PI) ->
  (0 <= qdot p q -> rotation_angle p q (2 * intrinsic_distance nr p q)) /\
  (qdot p q <= 0 -> q <> qneg p -> rotation_angle p q (2 * PI - 2 * intrinsic_distance nr p q)).
Proof.
  intros U V NR. assert (T : trace (qmul q (qconj p)) = 4 * (qdot p q * qdot p q) - 1).
  { rewrite trace_unit, qdot_rel; auto. apply unit_mul; auto. apply unit_conj; auto. }
  unfold rotation_angle. rewrite T. pose proof PI_RGT_0 as P. split; [intros D|intros D N].
  - destruct (distance_cos nr p q U V NR (or_introl D)) as (B & C). set (d := intrinsic_distance nr p q) in *. split.
    + split; [lra|]. destruct (Rle_dec d (PI / 2)); [lra|]. exfalso. assert (cos d < 0) by (apply cos_lt_0; lra). lra.
    + rewrite cos_2a_cos, C. ring.
  - destruct (distance_cos nr p q U V NR (or_intror N)) as (B & C). set (d := intrinsic_distance nr p q) in *. split.
    + split; [lra|]. destruct (Rle_dec (PI / 2) d); [lra|]. exfalso. assert (0 < cos d) by (apply cos_gt_0; lra). lra.
    + replace (2 * PI - 2 * d) with (- (2 * d) + 2 * INR 1 * PI) by (cbn; ring). rewrite cos_period, cos_neg, cos_2a_cos, C. ring.
Qed.

(** quaternion_rotation gives half the angle, or pi less half the angle. *)
Theorem C115_rotation_partial nr p q : unit p -> unit q -> (nr = 0 \/ nr = PI) ->
  (0 <= qdot p q -> rotation_angle p q (2 * quaternion_rotation nr p q)) /\
  (qdot p q <= 0 -> q <> qneg p -> rotation_angle p q (2 * (PI - quaternion_rotation nr p q))).
Proof.
  intros U V NR. destruct (distance_angle nr p q U V NR) as (A & B). split; auto.
  intros D N. unfold quaternion_rotation. rewrite Rmult_minus_distr_l. auto.
Qed.
Print Assumptions C115_rotation_partial.
Lemma angle_unique p q s t : rotation_angle p q s -> rotation_angle p q t -> s = t.
Proof. intros (S1 & S2) (T1 & T2). apply cos_inj; auto; lra. Qed.
Lemma zquat_angle t : 0 <= t <= PI -> rotation_angle qone (zquat t) t.
Proof.
  intros T. split; auto. rewrite trace_unit. 2:{ apply unit_mul; [apply unit_zquat|apply unit_conj, unit_one]. }
  rewrite qdot_rel. unfold qdot, zquat, qone. cbn. destruct (double_half t) as (_ & D). pose proof (sin2_cos2' (t / 2)). nra.
Qed.
(** Only orientations that are equal get the angle of rotation. *)
Theorem C115_only_zero_partial nr p q : unit p -> unit q -> (nr = 0 \/ nr = PI) -> 0 <= qdot p q ->
  (rotation_angle p q (quaternion_rotation nr p q) <-> quaternion_rotation nr p q = 0).
Proof.
  intros U V NR D. destruct (C115_rotation_partial nr p q U V NR) as (A & _). specialize (A D). split; intros H.
  - pose proof (angle_unique p q _ _ A H). lra.
  - rewrite H in *. rewrite Rmult_0_r in A. exact A.
Qed.
Print Assumptions C115_only_zero_partial.
Lemma zquat_distance nr t : (nr = 0 \/ nr = PI) -> 0 <= t <= PI -> intrinsic_distance nr qone (zquat t) = t / 2.
Proof.
  intros NR T. assert (D : 0 <= qdot qone (zquat t)).
  { unfold qdot, qone, zquat. cbn. pose proof (cos_ge_0 (t / 2)). lra. }
  destruct (distance_angle nr qone (zquat t) unit_one (unit_zquat t) NR) as (A & _). pose proof (angle_unique _ _ _ _ (A D) (zquat_angle t T)). lra.
Qed.
Theorem C115_rotation_refuted : exists p q, unit p /\ unit q /\ rotation_angle p q (PI / 2) /\
  forall nr, (nr = 0 \/ nr = PI) -> quaternion_rotation nr p q = PI / 4.
Proof.
  pose proof PI_RGT_0. exists qone, (zquat (PI / 2)). split; [apply unit_one|]. split; [apply unit_zquat|]. split; [apply zquat_angle; lra|].
  intros nr NR. unfold quaternion_rotation. rewrite zquat_distance; auto; lra.
Qed.
Print Assumptions C115_rotation_refuted.

(** The angles that relative_orientations reports *)
Theorem C116_relative_partial nr nl ori : (nr = 0 \/ nr = PI) -> length nl = length ori -> Forall unit ori ->
  exists res, relative_angle nr nl ori = inl res /\ length res = length ori /\
    forall i s, (i < length ori)%nat -> (s < length (nth i nl []))%nat ->
      let j := nth s (nth i nl []) 0%nat in let a := nth s (nth i res []) 0 in
      ((length ori <= j)%nat -> a = 0) /\
      ((j < length ori)%nat ->
         (0 <= qdot (nth j ori qone) (nth i ori qone) -> rotation_angle (nth j ori qone) (nth i ori qone) a) /\
         (qdot (nth j ori qone) (nth i ori qone) <= 0 -> nth i ori qone <> qneg (nth j ori qone) -> rotation_angle (nth j ori qone) (nth i ori qone) (2 * PI - a))).
Proof.
  intros NR L U. unfold relative_angle.
  assert (B : forall {A B C} (f : A -> B -> C) a b, length a = length b -> bzip f a b = inl (zip f a b)).
  { intros A B C f a b E. unfold bzip. rewrite E, Nat.eqb_refl. reflexivity. }
  rewrite B by (rewrite seq_length; auto). cbn [ebind]. rewrite B by (rewrite zip_length; [auto|rewrite seq_length; auto]).
  eexists. split; [reflexivity|]. split; [rewrite !zip_length; auto; try (rewrite seq_length; auto); rewrite zip_length; auto; rewrite seq_length; auto|].
  intros i s I S'. match goal with |- context [2 * PI - ?A] => set (a := A) end. set (j := nth s (nth i nl []) 0%nat) in *.
  assert (Ea : a = 2 * intrinsic_distance nr (nth (if (j <? length ori)%nat then j else i) ori qone) (nth i ori qone)).
  { unfold a. rewrite (nth_zip' _ _ ori [] qone []) by (rewrite zip_length; [lia|rewrite seq_length; auto]).
    rewrite (nth_zip' (present (length ori)) nl (seq 0 (length ori)) [] 0%nat []) by (rewrite ?seq_length; lia). rewrite seq_nth by auto. unfold present.
    rewrite map_map, (nth_map_lt _ (nth i nl []) s 0%nat) by auto. reflexivity. }
  clearbody a. subst a. split.
  - intros J. destruct (Nat.ltb_spec j (length ori)); [lia|]. assert (Ui : unit (nth i ori qone)) by (apply nth_unit; auto).
    destruct (distance_cos nr (nth i ori qone) (nth i ori qone) Ui Ui NR) as (Bd & C).
    { left. change (0 <= qnorm2 (nth i ori qone)). rewrite Ui. lra. }
    change (qdot (nth i ori qone) (nth i ori qone)) with (qnorm2 (nth i ori qone)) in C. rewrite Ui in C. rewrite <- cos_0 in C. pose proof PI_RGT_0.
    apply cos_inj in C; lra.
  - intros J. destruct (Nat.ltb_spec j (length ori)); [|lia]. apply distance_angle; auto; apply nth_unit; auto.
Qed.
Print Assumptions C116_relative_partial.
(** The same two orientations, written with another sign, get another angle. *)
Theorem C116_relative_refuted : exists p q, unit p /\ unit q /\ rotation_angle p q (PI / 2) /\
  forall nr, (nr = 0 \/ nr = PI) ->
    relative_angle nr [[1]; [0]]%nat [p; q] = inl [[PI / 2]; [PI / 2]] /\
    relative_angle nr [[1]; [0]]%nat [p; qneg q] = inl [[3 * (PI / 2)]; [3 * (PI / 2)]].
Proof.
  exists qone, (zquat (PI / 2)). split; [apply unit_one|]. split; [apply unit_zquat|]. split; [pose proof PI_RGT_0; apply zquat_angle; lra|].
  intros nr NR. pose proof PI_RGT_0 as P. assert (ZA : rotation_angle qone (zquat (PI / 2)) (PI / 2)) by (apply zquat_angle; lra).
  assert (Cq : 0 < cos (PI / 2 / 2)) by (apply cos_gt_0; lra).
  assert (Sy : forall p q t, rotation_angle p q t -> unit p -> unit q -> rotation_angle q p t).
  { intros p q t (T & E) Up Uq. split; auto. rewrite trace_unit in * by (apply unit_mul; auto; apply unit_conj; auto). rewrite qdot_rel in *.
    rewrite (qdot_comm q p). exact E. }
  assert (D1 : intrinsic_distance nr qone (zquat (PI / 2)) = PI / 4) by (rewrite zquat_distance; auto; lra).
  assert (D2 : intrinsic_distance nr (zquat (PI / 2)) qone = PI / 4).
  { destruct (distance_angle nr (zquat (PI / 2)) qone (unit_zquat _) unit_one NR) as (A & _).
    assert (D : 0 <= qdot (zquat (PI / 2)) qone) by (unfold qdot, zquat, qone; cbn; lra).
    pose proof (angle_unique _ _ _ _ (A D) (Sy _ _ _ ZA unit_one (unit_zquat _))). lra. }
  assert (Un : unit (qneg (zquat (PI / 2)))) by (apply unit_neg, unit_zquat).
  assert (Zn : rotation_angle qone (qneg (zquat (PI / 2))) (PI / 2)).
  { destruct ZA as (T & E). split; auto. rewrite trace_unit in * by (apply unit_mul; auto using unit_zquat; apply unit_conj, unit_one).
    rewrite qdot_rel in *. rewrite E. unfold qdot, qneg, qone, zquat. cbn. ring. }
  assert (S4 : 0 < sin (PI / 2 / 2)) by (apply sin_gt_0; lra).
  assert (D3 : intrinsic_distance nr qone (qneg (zquat (PI / 2))) = 3 * (PI / 4)).
  { destruct (distance_angle nr qone _ unit_one Un NR) as (_ & A).
    assert (D : qdot qone (qneg (zquat (PI / 2))) <= 0) by (unfold qdot, qneg, zquat, qone; cbn; lra).
    assert (Ne : qneg (zquat (PI / 2)) <> qneg qone) by (unfold qneg, zquat, qone; cbn; intros X; injection X; lra).
    pose proof (angle_unique _ _ _ _ (A D Ne) Zn). lra. }
  assert (D4 : intrinsic_distance nr (qneg (zquat (PI / 2))) qone = 3 * (PI / 4)).
  { destruct (distance_angle nr _ qone Un unit_one NR) as (_ & A).
    assert (D : qdot (qneg (zquat (PI / 2))) qone <= 0) by (unfold qdot, qneg, zquat, qone; cbn; lra).
    assert (Ne : qone <> qneg (qneg (zquat (PI / 2)))) by (rewrite qneg_neg; unfold zquat, qone; intros X; injection X; lra).
    pose proof (angle_unique _ _ _ _ (A D Ne) (Sy _ _ _ Zn unit_one Un)). lra. }
  split; unfold relative_angle, bzip, present; cbn [length Nat.eqb seq zip map Nat.ltb Nat.leb ebind nth].
  - rewrite D1, D2. replace (2 * (PI / 4)) with (PI / 2) by field. reflexivity.
  - rewrite D3, D4. replace (2 * (3 * (PI / 4))) with (3 * (PI / 2)) by field. reflexivity.
Qed.
Print Assumptions C116_relative_refuted.
