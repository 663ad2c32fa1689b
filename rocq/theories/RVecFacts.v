(** Facts about the vectors and quaternions of RVec. *)
From Coq Require Import Reals List Bool Lra Lia.
From Coq Require Import Permutation.
From Verif Require Import RVec.
Import ListNotations.
Open Scope R_scope.

Lemma v3_eq a b c a' b' c' : a = a' -> b = b' -> c = c' -> mk3 a b c = mk3 a' b' c'.
Proof. intros -> -> ->. reflexivity. Qed.
Lemma q_eq a b c d a' b' c' d' : a = a' -> b = b' -> c = c' -> d = d' -> mkq a b c d = mkq a' b' c' d'.
Proof. intros -> -> -> ->. reflexivity. Qed.
Ltac v3_ring := repeat match goal with v : v3 |- _ => destruct v end; cbn; apply v3_eq; ring.
Ltac q_ring := repeat match goal with q : quat |- _ => destruct q end; cbn; apply q_eq; ring.

Lemma add3_comm a b : add3 a b = add3 b a.
Proof. unfold add3. v3_ring. Qed.
Lemma add3_assoc a b c : add3 (add3 a b) c = add3 a (add3 b c).
Proof. unfold add3. v3_ring. Qed.
Lemma add3_zero_l a : add3 zero3 a = a.
Proof. unfold add3, zero3. v3_ring. Qed.
Lemma add3_zero_r a : add3 a zero3 = a.
Proof. unfold add3, zero3. v3_ring. Qed.
Lemma sub3_diag a : sub3 a a = zero3.
Proof. unfold sub3, zero3. v3_ring. Qed.
Lemma sub3_zero_r a : sub3 a zero3 = a.
Proof. unfold sub3, zero3. v3_ring. Qed.
Lemma norm2_nonneg a : 0 <= norm2_3 a.
Proof. unfold norm2_3, dot3. destruct a as [x y z]. cbn. nra. Qed.
Lemma norm3_nonneg a : 0 <= norm3 a.
Proof. apply sqrt_pos. Qed.
Lemma norm3_sq a : norm3 a * norm3 a = norm2_3 a.
Proof. apply sqrt_sqrt, norm2_nonneg. Qed.
Lemma norm3_zero : norm3 zero3 = 0.
Proof. unfold norm3, norm2_3, dot3. cbn. replace (0 * 0 + 0 * 0 + 0 * 0) with 0 by ring. apply sqrt_0. Qed.
Lemma norm2_zero_iff a : norm2_3 a = 0 <-> a = zero3.
Proof.
  unfold norm2_3, dot3, zero3. destruct a as [x y z]. cbn. split.
  - intros H. assert (x = 0) by nra. assert (y = 0) by nra. assert (z = 0) by nra. subst. reflexivity.
  - intros E. injection E as -> -> ->. ring.
Qed.

(** ** Quaternions *)
Lemma qmul_assoc p q r : qmul (qmul p q) r = qmul p (qmul q r).
Proof. unfold qmul. q_ring. Qed.
Lemma qmul_one_l q : qmul qone q = q.
Proof. unfold qmul, qone. q_ring. Qed.
Lemma qmul_one_r q : qmul q qone = q.
Proof. unfold qmul, qone. q_ring. Qed.
Lemma qnorm2_mul p q : qnorm2 (qmul p q) = qnorm2 p * qnorm2 q.
Proof. unfold qnorm2, qmul. cbn. ring. Qed.
Lemma qnorm2_conj q : qnorm2 (qconj q) = qnorm2 q.
Proof. unfold qnorm2, qconj. cbn. ring. Qed.
Lemma qnorm2_neg q : qnorm2 (qneg q) = qnorm2 q.
Proof. unfold qnorm2, qneg. cbn. ring. Qed.
Lemma qnorm2_nonneg q : 0 <= qnorm2 q.
Proof. unfold qnorm2. nra. Qed.
Lemma unit_mul p q : unit p -> unit q -> unit (qmul p q).
Proof. unfold unit. rewrite qnorm2_mul. intros -> ->. ring. Qed.
Lemma unit_conj q : unit q -> unit (qconj q).
Proof. unfold unit. rewrite qnorm2_conj. auto. Qed.
Lemma unit_neg q : unit q -> unit (qneg q).
Proof. unfold unit. rewrite qnorm2_neg. auto. Qed.
Lemma unit_one : unit qone.
Proof. unfold unit, qnorm2, qone. cbn. ring. Qed.
Lemma qinv_unit q : unit q -> qinv q = qconj q.
Proof. unfold unit, qinv, qconj. intros ->. apply q_eq; field. Qed.
Lemma unit_inv q : unit q -> unit (qinv q).
Proof. intros U. rewrite qinv_unit by auto. apply unit_conj. auto. Qed.
Lemma unit_divide p q : unit p -> unit q -> unit (qdivide p q).
Proof. intros. apply unit_mul; auto. apply unit_inv; auto. Qed.
Lemma qmul_conj q : unit q -> qmul q (qconj q) = qone.
Proof. unfold unit, qnorm2, qmul, qconj, qone. destruct q as [a b c d]. cbn. intros U. apply q_eq; lra. Qed.
Lemma qconj_mul q : unit q -> qmul (qconj q) q = qone.
Proof. unfold unit, qnorm2, qmul, qconj, qone. destruct q as [a b c d]. cbn. intros U. apply q_eq; lra. Qed.
Lemma qdivide_self q : unit q -> qdivide q q = qone.
Proof. intros U. unfold qdivide. rewrite qinv_unit by auto. apply qmul_conj. auto. Qed.
Lemma qconj_qmul p q : qconj (qmul p q) = qmul (qconj q) (qconj p).
Proof. unfold qconj, qmul. q_ring. Qed.
Lemma qneg_mul_l p q : qmul (qneg p) q = qneg (qmul p q).
Proof. unfold qneg, qmul. q_ring. Qed.
Lemma qneg_mul_r p q : qmul p (qneg q) = qneg (qmul p q).
Proof. unfold qneg, qmul. q_ring. Qed.
Lemma qneg_neg q : qneg (qneg q) = q.
Proof. unfold qneg. q_ring. Qed.
Lemma qw_mul_conj p q : qw (qmul p (qconj q)) = qdot p q.
Proof. unfold qmul, qconj, qdot. cbn. ring. Qed.

(** ** Rotation *)
Definition pure (v : v3) : quat := mkq 0 (x3 v) (y3 v) (z3 v).
Definition vecpart (q : quat) : v3 := mk3 (qx q) (qy q) (qz q).
Lemma rot_def q v : rot q v = vecpart (qmul q (qmul (pure v) (qconj q))).
Proof. reflexivity. Qed.
Lemma sandwich_pure q v : qmul q (qmul (pure v) (qconj q)) = pure (rot q v).
Proof.
  rewrite rot_def. set (r := qmul q (qmul (pure v) (qconj q))).
  assert (W : qw r = 0).
  { subst r. destruct q as [a b c d], v as [x y z]. unfold pure, qconj. cbn [x3 y3 z3 qw qx qy qz].
    unfold qmul at 2. cbn [qw qx qy qz]. unfold qmul. cbn [qw qx qy qz]. ring. }
  clearbody r. destruct r as [w x y z]. cbn in *. subst w. reflexivity.
Qed.
Lemma rot_explicit a b c d x y z :
  rot (mkq a b c d) (mk3 x y z) =
  mk3 ((a * a + b * b - c * c - d * d) * x + 2 * (b * c - a * d) * y + 2 * (b * d + a * c) * z)
      (2 * (b * c + a * d) * x + (a * a - b * b + c * c - d * d) * y + 2 * (c * d - a * b) * z)
      (2 * (b * d - a * c) * x + 2 * (c * d + a * b) * y + (a * a - b * b - c * c + d * d) * z).
Proof.
  rewrite rot_def. unfold pure, qconj. cbn [x3 y3 z3 qw qx qy qz]. unfold qmul at 2. cbn [qw qx qy qz].
  unfold qmul. unfold vecpart. cbn [qw qx qy qz]. apply v3_eq; ring.
Qed.
Lemma rot_mul p q v : rot (qmul p q) v = rot p (rot q v).
Proof.
  rewrite (rot_def p), (rot_def (qmul p q)). f_equal. rewrite qconj_qmul, <- sandwich_pure, !qmul_assoc. reflexivity.
Qed.
Lemma rot_neg q v : rot (qneg q) v = rot q v.
Proof. destruct q as [w1 w2 w3 w4], v as [v1 v2 v3]. unfold qneg. cbn [qw qx qy qz]. rewrite !rot_explicit. apply v3_eq; ring. Qed.
Lemma rot_one v : rot qone v = v.
Proof. destruct v as [v1 v2 v3]. unfold qone. rewrite rot_explicit. apply v3_eq; ring. Qed.
Lemma rot_add q a b : rot q (add3 a b) = add3 (rot q a) (rot q b).
Proof. destruct q as [w1 w2 w3 w4], a as [a1 a2 a3], b as [b1 b2 b3]. unfold add3. cbn [x3 y3 z3]. rewrite !rot_explicit. cbn [x3 y3 z3]. apply v3_eq; ring. Qed.
Lemma rot_sub q a b : rot q (sub3 a b) = sub3 (rot q a) (rot q b).
Proof. destruct q as [w1 w2 w3 w4], a as [a1 a2 a3], b as [b1 b2 b3]. unfold sub3. cbn [x3 y3 z3]. rewrite !rot_explicit. cbn [x3 y3 z3]. apply v3_eq; ring. Qed.
Lemma rot_zero q : rot q zero3 = zero3.
Proof. destruct q as [w1 w2 w3 w4]. unfold zero3. rewrite rot_explicit. apply v3_eq; ring. Qed.
Lemma rot_dot q a b : dot3 (rot q a) (rot q b) = qnorm2 q * qnorm2 q * dot3 a b.
Proof. destruct q as [w1 w2 w3 w4], a as [a1 a2 a3], b as [b1 b2 b3]. rewrite !rot_explicit. unfold dot3, qnorm2. cbn [x3 y3 z3 qw qx qy qz]. ring. Qed.
Lemma rot_norm2 q v : unit q -> norm2_3 (rot q v) = norm2_3 v.
Proof. intros U. unfold norm2_3. rewrite rot_dot, U. ring. Qed.
Lemma rot_norm q v : unit q -> norm3 (rot q v) = norm3 v.
Proof. intros U. unfold norm3. rewrite rot_norm2 by auto. reflexivity. Qed.
Lemma rot_conj_l q v : unit q -> rot (qconj q) (rot q v) = v.
Proof. intros U. rewrite <- rot_mul, qconj_mul by auto. apply rot_one. Qed.

(** ** Rotations about z *)
Lemma sin2_cos2' t : cos t * cos t + sin t * sin t = 1.
Proof. pose proof (sin2_cos2 t) as H. unfold Rsqr in H. lra. Qed.
Lemma unit_zquat t : unit (zquat t).
Proof. unfold unit, qnorm2, zquat. cbn. pose proof (sin2_cos2' (t / 2)). lra. Qed.
Lemma unit_yquat t : unit (yquat t).
Proof. unfold unit, qnorm2, yquat. cbn. pose proof (sin2_cos2' (t / 2)). lra. Qed.
Lemma unit_xquat t : unit (xquat t).
Proof. unfold unit, qnorm2, xquat. cbn. pose proof (sin2_cos2' (t / 2)). lra. Qed.
Lemma unit_from_euler a b c : unit (from_euler a b c).
Proof. apply unit_mul; [apply unit_zquat|apply unit_mul; [apply unit_yquat|apply unit_xquat]]. Qed.
Lemma zquat_mul a b : qmul (zquat a) (zquat b) = zquat (a + b).
Proof.
  unfold qmul, zquat. cbn. replace ((a + b) / 2) with (a / 2 + b / 2) by field. rewrite cos_plus, sin_plus. apply q_eq; ring.
Qed.
Lemma zquat_conj a : qconj (zquat a) = zquat (- a).
Proof. unfold qconj, zquat. cbn. replace (- a / 2) with (- (a / 2)) by field. rewrite cos_neg, sin_neg. apply q_eq; ring. Qed.
Lemma zquat_divide a b : qdivide (zquat a) (zquat b) = zquat (a - b).
Proof. unfold qdivide. rewrite qinv_unit by apply unit_zquat. rewrite zquat_conj, zquat_mul. reflexivity. Qed.
Lemma quat0 : zquat 0 = qone /\ yquat 0 = qone /\ xquat 0 = qone.
Proof.
  unfold zquat, yquat, xquat, qone. replace (0 / 2) with 0 by field. rewrite cos_0, sin_0. auto.
Qed.
Lemma from_euler_z t : from_euler t 0 0 = zquat t.
Proof. unfold from_euler. destruct quat0 as (_ & -> & ->). rewrite !qmul_one_r. reflexivity. Qed.
Lemma from_euler_x t : from_euler 0 0 t = xquat t.
Proof. unfold from_euler. destruct quat0 as (-> & -> & _). rewrite !qmul_one_l. reflexivity. Qed.
Lemma double_half t : 2 * (cos (t / 2) * sin (t / 2)) = sin t /\ 1 - 2 * (sin (t / 2) * sin (t / 2)) = cos t.
Proof.
  replace t with (2 * (t / 2)) at 3 6 by field. rewrite sin_2a, cos_2a_sin. split; ring.
Qed.
Lemma rot_zquat t v : rot (zquat t) v = mk3 (cos t * x3 v - sin t * y3 v) (sin t * x3 v + cos t * y3 v) (z3 v).
Proof.
  destruct (double_half t) as (D1 & D2). pose proof (sin2_cos2' (t / 2)) as H. unfold zquat. destruct v as [x y z].
  rewrite rot_explicit. cbn [x3 y3 z3].
  set (c := cos (t / 2)) in *. set (s := sin (t / 2)) in *. rewrite <- D1, <- D2.
  assert (E : c * c = 1 - s * s) by lra. rewrite E. apply v3_eq; ring.
Qed.
Lemma rot_xquat t v : rot (xquat t) v = mk3 (x3 v) (cos t * y3 v - sin t * z3 v) (sin t * y3 v + cos t * z3 v).
Proof.
  destruct (double_half t) as (D1 & D2). pose proof (sin2_cos2' (t / 2)) as H. unfold xquat. destruct v as [x y z].
  rewrite rot_explicit. cbn [x3 y3 z3].
  set (c := cos (t / 2)) in *. set (s := sin (t / 2)) in *. rewrite <- D1, <- D2.
  assert (E : c * c = 1 - s * s) by lra. rewrite E. apply v3_eq; ring.
Qed.

(** ** atan2 *)
(** The angle determines the direction, and lies in (-pi, pi]. *)
Lemma ratio_bound x y : let r := sqrt (x * x + y * y) in r <> 0 -> -1 <= x / r <= 1.
Proof.
  cbv zeta. set (r := sqrt (x * x + y * y)). intros N.
  assert (P : 0 < r) by (assert (0 <= r) by apply sqrt_pos; lra).
  assert (S2 : r * r = x * x + y * y) by (apply sqrt_sqrt; nra).
  assert (A : - r <= x <= r) by (split; nra).
  split.
  - apply Rmult_le_reg_r with r; auto. unfold Rdiv. rewrite Rmult_assoc, Rinv_l by auto. lra.
  - apply Rmult_le_reg_r with r; auto. unfold Rdiv. rewrite Rmult_assoc, Rinv_l by auto. lra.
Qed.
Lemma atan2_spec y x : let r := sqrt (x * x + y * y) in
  r <> 0 -> - PI < atan2 y x <= PI /\ x = r * cos (atan2 y x) /\ y = r * sin (atan2 y x).
Proof.
  cbv zeta. set (r := sqrt (x * x + y * y)). intros N. pose proof (ratio_bound x y N) as B. fold r in B.
  assert (P : 0 < r) by (assert (0 <= r) by apply sqrt_pos; lra).
  assert (S2 : r * r = x * x + y * y) by (apply sqrt_sqrt; nra).
  unfold atan2. fold r. destruct (Req_EM_T r 0); [contradiction|].
  pose proof (acos_bound (x / r)) as AB. pose proof PI_RGT_0.
  assert (C : cos (acos (x / r)) = x / r) by (apply cos_acos; auto).
  assert (X : x = r * (x / r)) by (field; auto).
  assert (SN : sin (acos (x / r)) = Rabs y / r).
  { rewrite sin_acos by auto. apply Rsqr_inj; [apply sqrt_pos| |].
    - apply Rmult_le_pos; [apply Rabs_pos|]. left. apply Rinv_0_lt_compat. auto.
    - assert (NN : 0 <= 1 - (x / r)²) by (unfold Rsqr; nra).
      rewrite Rsqr_sqrt by auto. unfold Rsqr.
      assert (Rabs y * Rabs y = y * y) by (rewrite <- Rabs_mult; apply Rabs_pos_eq; nra).
      replace (Rabs y / r * (Rabs y / r)) with (Rabs y * Rabs y / (r * r)) by (field; auto). rewrite H0.
      replace (y * y) with (r * r - x * x) by lra. field. auto. }
  destruct (Rlt_dec y 0) as [Y|Y].
  - rewrite cos_neg, sin_neg, C, SN, Rabs_left by auto. split; [|split; [exact X|field; auto]].
    split; [|lra]. assert (acos (x / r) <> PI); [|lra]. intros E. rewrite E, sin_PI in SN. symmetry in SN.
    assert (Rabs y = 0). { replace (Rabs y) with (Rabs y / r * r) by (field; auto). rewrite SN. ring. }
    rewrite Rabs_left in H0; auto. lra.
  - rewrite C, SN, Rabs_pos_eq by lra. split; [lra|]. split; [exact X|field; auto].
Qed.
Lemma polar_unique a b : - PI < a <= PI -> - PI < b <= PI -> cos a = cos b -> sin a = sin b -> a = b.
Proof.
  intros A B C S'.
  assert (E : cos (a - b) = 1).
  { rewrite cos_minus, C, S'. apply sin2_cos2'. }
  assert (H : sin ((a - b) / 2) = 0).
  { pose proof (cos_2a_sin ((a - b) / 2)) as D. replace (2 * ((a - b) / 2)) with (a - b) in D by field.
    assert (sin ((a - b) / 2) * sin ((a - b) / 2) = 0) by lra. apply Rmult_integral in H. tauto. }
  pose proof PI_RGT_0.
  destruct (Rtotal_order a b) as [L|[L|L]]; auto; exfalso.
  - assert (0 < sin ((b - a) / 2)); [apply sin_gt_0; lra|].
    replace ((b - a) / 2) with (- ((a - b) / 2)) in H1 by field. rewrite sin_neg in H1. lra.
  - assert (0 < sin ((a - b) / 2)); [apply sin_gt_0; lra|]. lra.
Qed.
Lemma atan2_polar r t : 0 < r -> - PI < t <= PI -> atan2 (r * sin t) (r * cos t) = t.
Proof.
  intros P T. assert (E : sqrt (r * cos t * (r * cos t) + r * sin t * (r * sin t)) = r).
  { replace (r * cos t * (r * cos t) + r * sin t * (r * sin t)) with (r * r * (cos t * cos t + sin t * sin t)) by ring.
    rewrite sin2_cos2', Rmult_1_r. apply sqrt_square. lra. }
  destruct (atan2_spec (r * sin t) (r * cos t)) as (B & C & S'); [rewrite E; lra|]. rewrite E in C, S'.
  apply polar_unique; auto.
  - symmetry. apply Rmult_eq_reg_l with r; lra.
  - symmetry. apply Rmult_eq_reg_l with r; lra.
Qed.
Lemma atan2_unit t : - PI < t <= PI -> atan2 (sin t) (cos t) = t.
Proof. intros T. rewrite <- (Rmult_1_l (sin t)), <- (Rmult_1_l (cos t)). apply atan2_polar; auto. lra. Qed.
Lemma atan2_bound y x : - PI <= atan2 y x <= PI.
Proof.
  pose proof PI_RGT_0. unfold atan2. destruct (Req_EM_T _ 0); [lra|]. pose proof (acos_bound (x / sqrt (x * x + y * y))).
  destruct (Rlt_dec y 0); lra.
Qed.

(** ** Euler angles of a rotation about z *)
Lemma to_euler_neg g q : (forall q, g (qneg q) = g q) -> to_euler g (qneg q) = to_euler g q.
Proof.
  intros G. unfold to_euler, m20, m10, m00, m21, m22, qneg. cbn. rewrite <- (G q). unfold qneg.
  replace (- qx q * - qz q - - qw q * - qy q) with (qx q * qz q - qw q * qy q) by ring.
  replace (- qx q * - qy q + - qw q * - qz q) with (qx q * qy q + qw q * qz q) by ring.
  replace (- qy q * - qy q + - qz q * - qz q) with (qy q * qy q + qz q * qz q) by ring.
  replace (- qy q * - qz q + - qw q * - qx q) with (qy q * qz q + qw q * qx q) by ring.
  replace (- qx q * - qx q + - qy q * - qy q) with (qx q * qx q + qy q * qy q) by ring.
  reflexivity.
Qed.
Lemma to_euler_z g q t : - PI < t <= PI -> q = zquat t \/ q = qneg (zquat t) -> to_euler g q = mk3 t 0 0.
Proof.
  intros T Q. destruct (double_half t) as (D1 & D2).
  assert (M : m20 q = 0 /\ m10 q = sin t /\ m00 q = cos t /\ m21 q = 0 /\ m22 q = 1).
  { destruct Q as [-> | ->]; unfold m20, m10, m00, m21, m22, zquat, qneg; cbn; rewrite <- D1, <- D2; repeat split; ring. }
  destruct M as (M1 & M2 & M3 & M4 & M5). unfold to_euler. rewrite M1, M2, M3, M4, M5.
  rewrite Ropp_0, asin_0, cos_0, Rabs_R1. destruct (Rle_dec 1 (/ 1000)); [lra|].
  rewrite atan2_unit by auto. apply v3_eq; auto. pose proof (atan2_unit 0) as A. rewrite sin_0, cos_0 in A. apply A. pose proof PI_RGT_0. lra.
Qed.

(** ** Sums *)
Lemma rsum_app a b : rsum (a ++ b) = rsum a + rsum b.
Proof. unfold rsum. induction a; cbn; [ring|]. rewrite IHa. ring. Qed.
Lemma rsum_perm a b : Permutation a b -> rsum a = rsum b.
Proof. unfold rsum. induction 1; cbn; lra. Qed.
Lemma rmean_perm a b : Permutation a b -> rmean a = rmean b.
Proof. intros P. unfold rmean. rewrite (rsum_perm a b P), (Permutation_length P). reflexivity. Qed.
Lemma rsum_nonneg l : Forall (fun x => 0 <= x) l -> 0 <= rsum l.
Proof. unfold rsum. induction 1; cbn; lra. Qed.
Lemma rsum_bounds a b l : Forall (fun x => a <= x <= b) l -> a * INR (length l) <= rsum l <= b * INR (length l).
Proof.
  unfold rsum. induction 1 as [|x l H F IH]; cbn [length]; [cbn; lra|]. rewrite S_INR. cbn [fold_right]. lra.
Qed.
Lemma INR_len_pos {A} (l : list A) : l <> [] -> 0 < INR (length l).
Proof. intros N. apply lt_0_INR. destruct l; [congruence|cbn; lia]. Qed.
Lemma rmean_bounds a b l : l <> [] -> Forall (fun x => a <= x <= b) l -> a <= rmean l <= b.
Proof.
  intros N F. pose proof (INR_len_pos l N) as P. destruct (rsum_bounds a b l F) as [L U]. unfold rmean. split.
  - apply Rmult_le_reg_r with (INR (length l)); auto. unfold Rdiv. rewrite Rmult_assoc, Rinv_l by lra. lra.
  - apply Rmult_le_reg_r with (INR (length l)); auto. unfold Rdiv. rewrite Rmult_assoc, Rinv_l by lra. lra.
Qed.
Lemma rmean_nonneg l : l <> [] -> Forall (fun x => 0 <= x) l -> 0 <= rmean l.
Proof.
  intros N F. unfold rmean. apply Rmult_le_pos; [apply rsum_nonneg; auto|]. left. apply Rinv_0_lt_compat, INR_len_pos; auto.
Qed.
Lemma rmean_const c l : l <> [] -> Forall (fun x => x = c) l -> rmean l = c.
Proof.
  intros N F. assert (c <= rmean l <= c); [|lra]. apply rmean_bounds; auto. eapply Forall_impl; [|exact F]. cbn. intros. lra.
Qed.
