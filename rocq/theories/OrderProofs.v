(** Proofs about the ordering. *)
From Coq Require Import Reals List Bool Arith Lra Lia.
From Verif Require Import Base RVec RVecFacts RelaxFitModel MotionModel MotionProofs OrderModel OrderSpec.
Import ListNotations.
Open Scope R_scope.

Lemma qw_conj_mul p q : qw (qmul (qconj p) q) = qdot p q.
Proof. destruct p, q. unfold qmul, qconj, qdot. cbn. ring. Qed.
Lemma qdot_comm p q : qdot p q = qdot q p.
Proof. unfold qdot. ring. Qed.
Lemma qdot_bound p q : unit p -> unit q -> -1 <= qdot p q <= 1.
Proof.
  intros U V. assert (W : unit (qmul (qconj p) q)) by (apply unit_mul; auto; apply unit_conj; auto).
  rewrite <- qw_conj_mul. unfold unit, qnorm2 in W. set (r := qmul (qconj p) q) in *.
  pose proof (Rle_0_sqr (qx r)). pose proof (Rle_0_sqr (qy r)). pose proof (Rle_0_sqr (qz r)). unfold Rsqr in *. nra.
Qed.

Section Angle.
  Variable nr : R.
  Hypothesis NR : nr = 0 \/ nr = PI.

  Lemma cos_2nr : cos (2 * nr) = 1.
  Proof. destruct NR as [-> | ->]; [rewrite Rmult_0_r; apply cos_0|apply cos_2PI]. Qed.
  Lemma cos_sq_distance p q : unit p -> unit q ->
    let a := 2 * intrinsic_distance nr p q in cos a * cos a = (2 * (qdot p q * qdot p q) - 1) * (2 * (qdot p q * qdot p q) - 1).
  Proof.
    intros U V a. unfold a, intrinsic_distance. rewrite <- qw_conj_mul.
    assert (W : unit (qmul (qconj p) q)) by (apply unit_mul; auto; apply unit_conj; auto).
    set (r := qmul (qconj p) q) in *. unfold log_norm. rewrite W, sqrt_1, ln_1.
    replace (0 * 0 + log_angle nr r * log_angle nr r) with (Rsqr (log_angle nr r)) by (unfold Rsqr; ring).
    rewrite sqrt_Rsqr_abs.
    assert (E : cos (2 * Rabs (log_angle nr r)) = 2 * (qw r * qw r) - 1).
    { replace (cos (2 * Rabs (log_angle nr r))) with (cos (2 * log_angle nr r)).
      2:{ unfold Rabs. destruct (Rcase_abs _); auto. rewrite <- cos_neg. f_equal. ring. }
      unfold unit, qnorm2 in W. unfold log_angle. destruct (Req_EM_T _ 0) as [Z|Z].
      - assert (H : qw r * qw r = 1) by lra. rewrite H. destruct (Rlt_dec (qw r) 0); [rewrite cos_2nr|rewrite Rmult_0_r, cos_0]; ring.
      - unfold qnorm2. rewrite W, sqrt_1. unfold Rdiv. rewrite Rinv_1, Rmult_1_r. rewrite cos_2a_cos, cos_acos; [ring|].
        pose proof (Rle_0_sqr (qx r)). pose proof (Rle_0_sqr (qy r)). pose proof (Rle_0_sqr (qz r)). unfold Rsqr in *. nra. }
    rewrite E. reflexivity.
  Qed.

  Definition slot_value (ori : list quat) (i j : nat) : R :=
    let w := qdot (nth j ori qone) (nth i ori qone) in (2 * (w * w) - 1) * (2 * (w * w) - 1).

  Lemma nth_unit ori i : Forall unit ori -> unit (nth i ori qone).
  Proof.
    intros F. destruct (Nat.lt_ge_cases i (length ori)) as [H|H]; [rewrite Forall_forall in F; apply F, nth_In; auto|].
    rewrite nth_overflow by auto. apply unit_one.
  Qed.
  Lemma nth_zip' {A B C} (f : A -> B -> C) a b da db dc i : length a = length b -> (i < length a)%nat -> nth i (zip f a b) dc = f (nth i a da) (nth i b db).
  Proof. revert b i. induction a as [|x a IH]; intros [|y b] [|i] L I; cbn in *; try discriminate; try lia; auto. apply IH; lia. Qed.

  Lemma order_values nl ori : length nl = length ori -> Forall unit ori ->
    exists res, orientational_order nr nl ori = inl res /\ length res = length ori /\
      forall i, (i < length ori)%nat -> nth i res 0 = slot_mean (length ori) (nth i nl []) (slot_value ori i).
  Proof.
    intros L U. unfold orientational_order, relative_angle.
    rewrite bzip_eq by (rewrite seq_length; auto). cbn [ebind].
    rewrite bzip_eq by (rewrite zip_length; [auto|rewrite seq_length; auto]). cbn [ebind].
    eexists. split; [reflexivity|]. split.
    - rewrite map_length, zip_length; rewrite zip_length; auto; rewrite seq_length; auto.
    - intros i H.
      assert (Lz : length (zip (present (length ori)) nl (seq 0 (length ori))) = length ori) by (rewrite zip_length; [auto|rewrite seq_length; auto]).
      rewrite (nth_indep _ 0 (rmean (map (fun x => cos x * cos x) []))) by (rewrite map_length, zip_length; lia).
      rewrite (map_nth (fun row => rmean (map (fun x => cos x * cos x) row))).
      rewrite (nth_zip' _ _ _ [] qone) by lia. rewrite (nth_zip' _ _ _ [] 0%nat) by (rewrite ?seq_length; lia).
      rewrite seq_nth by auto. cbn [plus]. unfold present. rewrite !map_map. unfold rmean, slot_mean, rsum. rewrite map_length. f_equal.
      induction (nth i nl []) as [|j row IH]; cbn [map fold_right]; auto. rewrite IH. f_equal.
      destruct (j <? length ori)%nat eqn:J.
      + rewrite cos_sq_distance by (apply nth_unit; auto). reflexivity.
      + rewrite cos_sq_distance by (apply nth_unit; auto).
        replace (qdot (nth i ori qone) (nth i ori qone)) with 1; [ring|]. symmetry. apply (nth_unit ori i U).
  Qed.
End Angle.

Lemma slot_value_bound ori i j : Forall unit ori -> 0 <= slot_value ori i j <= 1.
Proof.
  intros U. unfold slot_value. set (w := qdot _ _). assert (B : -1 <= w <= 1) by (apply qdot_bound; apply nth_unit; auto).
  assert (0 <= w * w <= 1) by (pose proof (Rle_0_sqr w); unfold Rsqr in *; nra).
  pose proof (Rle_0_sqr (2 * (w * w) - 1)) as H0. unfold Rsqr in H0. split; [auto|].
  assert (0 <= w * w * (1 - w * w)) by (apply Rmult_le_pos; lra). lra.
Qed.
Lemma slot_mean_bounds n row f : row <> [] -> (forall j, 0 <= f j <= 1) -> 0 <= slot_mean n row f <= 1.
Proof.
  intros N H. unfold slot_mean. pose proof (INR_len_pos row N) as P.
  assert (0 <= fold_right (fun j s => (if (j <? n)%nat then f j else 1) + s) 0 row <= INR (length row)).
  { clear N P. induction row as [|j row IH]; [cbn; lra|]. cbn [length fold_right]. rewrite S_INR. pose proof (H j). destruct (j <? n)%nat; lra. }
  split; [apply Rdiv_le_0_compat || (apply Rmult_le_pos; [lra|left; apply Rinv_0_lt_compat; lra]); lra|].
  apply Rmult_le_reg_r with (INR (length row)); auto. unfold Rdiv. rewrite Rmult_assoc, Rinv_l by lra. lra.
Qed.
Lemma slot_mean_one n row f : row <> [] -> (forall j, 0 <= f j <= 1) ->
  (slot_mean n row f = 1 <-> forall j, In j row -> (j < n)%nat -> f j = 1).
Proof.
  intros N H. unfold slot_mean. pose proof (INR_len_pos row N) as P.
  assert (B : forall l, fold_right (fun j s => (if (j <? n)%nat then f j else 1) + s) 0 l <= INR (length l)).
  { intros l. induction l as [|j l IH]; [cbn; lra|]. cbn [length fold_right]. rewrite S_INR. pose proof (H j). destruct (j <? n)%nat; lra. }
  assert (E : fold_right (fun j s => (if (j <? n)%nat then f j else 1) + s) 0 row = INR (length row) <-> forall j, In j row -> (j < n)%nat -> f j = 1).
  { clear N P. induction row as [|j row IH]; [cbn; tauto|]. cbn [length fold_right]. rewrite S_INR. pose proof (H j) as Hj. specialize (B row).
    split.
    - intros E. assert (E1 : (if (j <? n)%nat then f j else 1) = 1 /\ fold_right (fun j s => (if (j <? n)%nat then f j else 1) + s) 0 row = INR (length row)).
      { destruct (j <? n)%nat; split; lra. }
      destruct E1 as [E1 E2]. intros k [->|I] K; [|apply IH; auto]. apply Nat.ltb_lt in K. rewrite K in E1. auto.
    - intros A. rewrite (proj2 IH) by (intros k I K; apply A; [right; auto|auto]).
      destruct (j <? n)%nat eqn:J; [|ring]. rewrite (A j); [ring|left; auto|apply Nat.ltb_lt; auto]. }
  rewrite <- E. split; intros X.
  - apply (f_equal (fun x => x * INR (length row))) in X. unfold Rdiv in X. rewrite Rmult_assoc, Rinv_l in X by lra. lra.
  - apply (Rmult_eq_reg_r (INR (length row))); [|lra]. unfold Rdiv. rewrite Rmult_assoc, Rinv_l by lra. lra.
Qed.
Lemma slot_mean_ext n row f g : (forall j, (j < n)%nat -> f j = g j) -> slot_mean n row f = slot_mean n row g.
Proof.
  intros H. unfold slot_mean. f_equal. induction row as [|j row IH]; cbn [fold_right]; auto. rewrite IH. destruct (j <? n)%nat eqn:J; auto.
  rewrite H; auto. apply Nat.ltb_lt; auto.
Qed.

(** A rotation made twice is none exactly for w = 0 or w^2 = 1. *)
Lemma rot_none s : unit s -> ((forall v, rot s v = v) <-> qw s * qw s = 1).
Proof.
  intros U. destruct s as [w x y z]. unfold unit, qnorm2 in U. cbn [qw qx qy qz] in *. split.
  - intros H. pose proof (f_equal x3 (H (mk3 1 0 0))) as A. pose proof (f_equal y3 (H (mk3 0 1 0))) as B. pose proof (f_equal z3 (H (mk3 0 0 1))) as C.
    rewrite rot_explicit in A, B, C. cbn [x3 y3 z3] in A, B, C. nra.
  - intros W v. pose proof (Rle_0_sqr x). pose proof (Rle_0_sqr y). pose proof (Rle_0_sqr z). unfold Rsqr in *.
    assert (x = 0) by (apply Rsqr_0_uniq; unfold Rsqr; lra). assert (y = 0) by (apply Rsqr_0_uniq; unfold Rsqr; lra).
    assert (z = 0) by (apply Rsqr_0_uniq; unfold Rsqr; lra). subst. destruct v as [a b c]. rewrite rot_explicit. apply v3_eq; rewrite ?W; nra.
Qed.
Lemma twice_none r : unit r -> ((forall v, rot r (rot r v) = v) <-> qw r = 0 \/ qw r * qw r = 1).
Proof.
  intros U. assert (V : unit (qmul r r)) by (apply unit_mul; auto).
  assert (E : (forall v, rot r (rot r v) = v) <-> forall v, rot (qmul r r) v = v).
  { split; intros H v; [rewrite rot_mul|rewrite <- rot_mul]; apply H. }
  rewrite E, (rot_none _ V). destruct r as [w x y z]. unfold unit, qnorm2 in U. unfold qmul. cbn [qw qx qy qz] in *.
  assert (W : w * w - x * x - y * y - z * z = 2 * (w * w) - 1) by lra. rewrite W. split.
  - intros H. assert (Z : w * w * (w * w - 1) = 0) by lra. apply Rmult_integral in Z. destruct Z as [Z|Z]; [left; apply Rsqr_0_uniq; exact Z|right; lra].
  - intros [->|H]; [ring|rewrite H; ring].
Qed.
Lemma value_aligned ori i j : Forall unit ori -> (slot_value ori i j = 1 <-> aligned (nth j ori qone) (nth i ori qone)).
Proof.
  intros U. unfold aligned, slot_value. assert (A := nth_unit ori j U). assert (B := nth_unit ori i U).
  rewrite twice_none by (apply unit_mul; [auto|apply unit_conj; auto]). rewrite qw_mul_conj. set (w := qdot _ _).
  split.
  - intros H. assert (Z : w * w * (w * w - 1) = 0) by lra. apply Rmult_integral in Z. destruct Z as [Z|Z]; [left; apply Rsqr_0_uniq; exact Z|right; lra].
  - intros [->|H]; [ring|rewrite H; ring].
Qed.
