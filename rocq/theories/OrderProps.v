(** Properties of the ordering of local environments, C80-C83, C110. *)
From Coq Require Import Reals List Bool Arith Lra Lia.
From Verif Require Import Base RVec RVecFacts RelaxFitModel MotionModel MotionSpec MotionProofs OrderModel OrderSpec OrderProofs.
Import ListNotations.
Open Scope R_scope.

(** * C80 *)
(** Throughout, the angle of a negative real quaternion is any that rowan could answer. *)
Theorem C80_bounds nr nl ori : (nr = 0 \/ nr = PI) ->
  length nl = length ori -> Forall unit ori -> Forall (fun row => row <> []) nl ->
  exists res, orientational_order nr nl ori = inl res /\ length res = length ori /\ Forall (fun x => 0 <= x <= 1) res.
Proof.
  intros NR L U F. destruct (order_values nr NR nl ori L U) as (res & E & Lr & V). exists res. split; auto. split; auto.
  apply Forall_forall. intros x I. destruct (In_nth _ _ 0 I) as (i & H & <-). rewrite V by lia.
  apply slot_mean_bounds; [|intros; apply slot_value_bound; auto]. rewrite Forall_forall in F. apply F, nth_In. lia.
Qed.
Print Assumptions C80_bounds.

Theorem C80_fully_ordered nr nl ori res i : (nr = 0 \/ nr = PI) ->
  length nl = length ori -> Forall unit ori -> orientational_order nr nl ori = inl res -> (i < length ori)%nat -> nth i nl [] <> [] ->
  (nth i res 0 = 1 <-> forall j, In j (nth i nl []) -> (j < length ori)%nat -> aligned (nth j ori qone) (nth i ori qone)).
Proof.
  intros NR L U E H N. destruct (order_values nr NR nl ori L U) as (res' & E' & Lr & V). assert (res' = res) by congruence. subst.
  rewrite V by auto. rewrite slot_mean_one by (auto; intros; apply slot_value_bound; auto).
  split; intros A j I J; apply (value_aligned ori i j U); auto.
Qed.
Print Assumptions C80_fully_ordered.
(** A molecule, one turned by pi and one by pi/2; 9 is a missing neighbour. *)
Definition three : list quat := [zquat 0; zquat PI; zquat (PI / 2)].
Lemma three_unit : Forall unit three.
Proof. repeat constructor; apply unit_zquat. Qed.
Example C80_example : exists res, orientational_order PI [[1; 9]; [0; 2]; [9; 9]]%nat three = inl res /\ nth 0 res 0 = 1 /\ nth 1 res 0 <> 1 /\ nth 2 res 0 = 1.
Proof.
  destruct (order_values PI (or_intror eq_refl) [[1; 9]; [0; 2]; [9; 9]]%nat three eq_refl three_unit) as (res & E & _ & V).
  exists res. split; auto. rewrite !V by (cbn; lia). unfold slot_mean, slot_value, three. cbn [nth length fold_right Nat.ltb Nat.leb]. unfold qdot, zquat. cbn [qw qx qy qz].
  replace (0 / 2) with 0 by field. rewrite cos_0, sin_0, cos_PI2, sin_PI2.
  replace (PI / 2 / 2) with (PI / 4) by field. rewrite cos_PI4, sin_PI4.
  assert (S2 : / sqrt 2 * / sqrt 2 = / 2) by (rewrite <- Rinv_mult, sqrt_sqrt; lra).
  split; [cbn; field|]. split; [|cbn; field].
  replace (1 / sqrt 2 * 0 + 0 * 0 + 0 * 0 + 1 / sqrt 2 * 1) with (/ sqrt 2) by (field; apply Rgt_not_eq, sqrt_lt_R0; lra).
  rewrite S2. cbn. lra.
Qed.

(** * C81 *)
Lemma same_dots nr nl ori ori' : (nr = 0 \/ nr = PI) -> length nl = length ori -> length ori' = length ori -> Forall unit ori -> Forall unit ori' ->
  (forall i j, (i < length ori)%nat -> (j < length ori)%nat ->
     qdot (nth j ori' qone) (nth i ori' qone) * qdot (nth j ori' qone) (nth i ori' qone) =
     qdot (nth j ori qone) (nth i ori qone) * qdot (nth j ori qone) (nth i ori qone)) ->
  orientational_order nr nl ori' = orientational_order nr nl ori.
Proof.
  intros NR L L' U U' H. destruct (order_values nr NR nl ori L U) as (r & -> & Lr & V).
  destruct (order_values nr NR nl ori' (eq_trans L (eq_sym L')) U') as (r' & -> & Lr' & V'). f_equal.
  apply nth_ext with 0 0; [congruence|]. intros i I. rewrite V, V' by lia. rewrite L'. apply slot_mean_ext. intros j J.
  unfold slot_value. rewrite H by lia. reflexivity.
Qed.
Lemma qdot_mul_l g p q : qdot (qmul g p) (qmul g q) = qnorm2 g * qdot p q.
Proof. destruct g, p, q. unfold qdot, qmul, qnorm2. cbn. ring. Qed.
Lemma qdot_mul_r g p q : qdot (qmul p g) (qmul q g) = qnorm2 g * qdot p q.
Proof. destruct g, p, q. unfold qdot, qmul, qnorm2. cbn. ring. Qed.
Lemma qdot_neg_l p q : qdot (qneg p) q = - qdot p q.
Proof. destruct p, q. unfold qdot, qneg. cbn. ring. Qed.

(** Rotating the whole configuration, or all molecules' own axes *)
Theorem C81_rotation nr nl ori g : (nr = 0 \/ nr = PI) -> length nl = length ori -> Forall unit ori -> unit g ->
  orientational_order nr nl (map (qmul g) ori) = orientational_order nr nl ori /\
  orientational_order nr nl (map (fun q => qmul q g) ori) = orientational_order nr nl ori.
Proof.
  intros NR L U G. split; apply same_dots; rewrite ?map_length; auto.
  1,3: apply Forall_map; revert U; apply Forall_impl; intros; apply unit_mul; auto.
  - intros i j I J. rewrite !(nth_indep (map (qmul g) ori) qone (qmul g qone)) by (rewrite map_length; auto).
    rewrite !map_nth, !qdot_mul_l, G. ring.
  - intros i j I J. rewrite !(nth_indep (map (fun q => qmul q g) ori) qone (qmul qone g)) by (rewrite map_length; auto).
    rewrite !(map_nth (fun q => qmul q g)), !qdot_mul_r, G. ring.
Qed.
Print Assumptions C81_rotation.
Theorem C81_sign nr nl ori ori' : (nr = 0 \/ nr = PI) -> length nl = length ori -> Forall unit ori ->
  Forall2 (fun q q' => q' = q \/ q' = qneg q) ori ori' ->
  orientational_order nr nl ori' = orientational_order nr nl ori.
Proof.
  intros NR L U F. pose proof (Forall2_len _ _ _ F) as L'. apply same_dots; auto.
  - clear L L' NR. induction F as [|q q' l l' H F IH]; inversion U; subst; constructor; auto. destruct H as [->| ->]; auto. apply unit_neg; auto.
  - assert (S : forall i, nth i ori' qone = nth i ori qone \/ nth i ori' qone = qneg (nth i ori qone)).
    { clear - F. induction F as [|q q' l l' H F IH]; intros [|i]; cbn; auto. }
    intros i j _ _. destruct (S i) as [-> | ->], (S j) as [-> | ->]; rewrite ?qdot_neg_l, ?(qdot_comm _ (qneg _)), ?qdot_neg_l, ?(qdot_comm (nth i ori qone)); ring.
Qed.
Print Assumptions C81_sign.
Example C81_example : orientational_order 0 [[1; 9]; [0; 2]; [9; 9]]%nat (map (qmul (xquat 1)) three) = orientational_order 0 [[1; 9]; [0; 2]; [9; 9]]%nat three.
Proof. apply C81_rotation; auto; [apply three_unit|apply unit_xquat]. Qed.
Example C81_example_sign : orientational_order 0 [[1; 9]; [0; 2]; [9; 9]]%nat [zquat 0; qneg (zquat PI); zquat (PI / 2)] = orientational_order 0 [[1; 9]; [0; 2]; [9; 9]]%nat three.
Proof. apply C81_sign; auto; [apply three_unit|unfold three; do 3 (apply Forall2_cons; [auto|]); apply Forall2_nil]. Qed.

(** * C82 *)
Theorem C82_planar nr nl ori theta : (nr = 0 \/ nr = PI) -> length nl = length ori -> Forall2 turned ori theta ->
  exists res, orientational_order nr nl ori = inl res /\ length res = length ori /\
    forall i, (i < length ori)%nat -> nth i res 0 = slot_mean (length ori) (nth i nl []) (fun j => cos (nth j theta 0 - nth i theta 0) ^ 2).
Proof.
  intros NR L F. assert (U : Forall unit ori).
  { clear - F. induction F; constructor; auto. destruct H as [->| ->]; [|apply unit_neg]; apply unit_zquat. }
  destruct (order_values nr NR nl ori L U) as (res & E & Lr & V). exists res. split; auto. split; auto. intros i I. rewrite V by auto.
  apply slot_mean_ext. intros j J. unfold slot_value.
  assert (T : forall k, (k < length ori)%nat -> turned (nth k ori qone) (nth k theta 0)).
  { clear - F. induction F as [|q t l l' H F IH]; intros [|k] K; cbn in *; try lia; auto. apply IH. lia. }
  assert (D : forall p q s t, turned p s -> turned q t -> qdot p q * qdot p q = cos ((s - t) / 2) * cos ((s - t) / 2)).
  { intros p q s t Hp Hq. assert (Z : qdot (zquat s) (zquat t) = cos ((s - t) / 2)).
    { unfold qdot, zquat. cbn. replace ((s - t) / 2) with (s / 2 - t / 2) by field. rewrite cos_minus. ring. }
    destruct Hp as [-> | ->], Hq as [-> | ->]; rewrite ?qdot_neg_l, ?(qdot_comm _ (qneg _)), ?qdot_neg_l, ?(qdot_comm (zquat t) (zquat s)), Z; ring. }
  rewrite (D _ _ _ _ (T j J) (T i I)). set (x := nth j theta 0 - nth i theta 0).
  replace (cos x) with (2 * (cos (x / 2) * cos (x / 2)) - 1); [ring|]. replace x with (2 * (x / 2)) at 3 by field. rewrite cos_2a_cos. ring.
Qed.
Print Assumptions C82_planar.
(** Neighbours at pi/3 and one missing: (1/4 + 1) / 2 *)
Example C82_example : exists res, orientational_order 0 [[1; 9]; [0; 0]]%nat [zquat 0; zquat (PI / 3)] = inl res /\ nth 0 res 0 = 5 / 8 /\ nth 1 res 0 = 1 / 4.
Proof.
  destruct (C82_planar 0 [[1; 9]; [0; 0]]%nat [zquat 0; zquat (PI / 3)] [0; PI / 3]) as (res & E & _ & V); auto.
  { repeat constructor. }
  exists res. split; auto. rewrite !V by (cbn; lia). unfold slot_mean. cbn [nth length fold_right Nat.ltb Nat.leb].
  replace (0 - PI / 3) with (- (PI / 3)) by ring. rewrite cos_neg. rewrite Rminus_0_r, cos_PI3. cbn. split; field.
Qed.

(** * C83 *)
Theorem C83_distances_partial slots :
  relative_distances (map (map freud_r_sq) slots) = map (map (fun s => match s with Some v => norm3 v | None => 0 end)) slots.
Proof.
  unfold relative_distances. rewrite map_map. apply map_ext. intros row. rewrite map_map. apply map_ext. intros [v|]; cbn [freud_r_sq].
  - pose proof (norm2_nonneg v). destruct (Rlt_dec _ 0); [lra|reflexivity].
  - destruct (Rlt_dec (-1) 0); [apply sqrt_0|lra].
Qed.
Print Assumptions C83_distances_partial.
(** No entry is ever -1, whatever freud answers; a missing neighbour looks like one at
    distance 0. *)
Theorem C83_missing_refuted : exists slots, In None (concat slots) /\
  relative_distances (map (map freud_r_sq) slots) = [[5; 0]] /\
  forall r_sq_list, Forall (Forall (fun x => x <> -1)) (relative_distances r_sq_list).
Proof.
  exists [[Some (mk3 3 4 0); None]]. split; [right; left; reflexivity|]. split.
  - rewrite C83_distances_partial. cbn [map]. unfold norm3, norm2_3, dot3. cbn [x3 y3 z3].
    replace (3 * 3 + 4 * 4 + 0 * 0) with (5 * 5) by ring. rewrite sqrt_square by lra. reflexivity.
  - intros l. unfold relative_distances. apply Forall_map, Forall_forall. intros row _. apply Forall_map, Forall_forall. intros x _.
    pose proof (sqrt_pos (if Rlt_dec x 0 then 0 else x)). lra.
Qed.
Print Assumptions C83_missing_refuted.

(** * C110 *)
Theorem C110_count_partial dist n nn r : nn_ok dist n nn ->
  num_neighbours nn n r = map (fun i => Nat.min 9 (length (within dist n r i))) (seq 0 n).
Proof. intros H. apply map_ext_in. intros i I. apply in_seq in I. destruct (H r 9%nat i) as (_ & _ & E); [lia|exact E]. Qed.
Print Assumptions C110_count_partial.

(** An instance of the contract *)
Definition some_nn (dist : nat -> nat -> R) (n : nat) (r : R) (k i : nat) : list nat := firstn k (within dist n r i).
Lemma some_nn_ok dist n : nn_ok dist n (some_nn dist n).
Proof.
  intros r k i I. assert (N : NoDup (within dist n r i)) by (apply NoDup_filter, seq_NoDup). unfold some_nn. split; [|split].
  - clear I. revert k. induction N as [|x l H N IH]; intros [|k]; cbn; try constructor; auto. intros J. apply H. rewrite <- (firstn_skipn k l). apply in_or_app. auto.
  - intros j J. rewrite <- (firstn_skipn k). apply in_or_app. auto.
  - apply firstn_length.
Qed.
(** Eleven molecules within the radius of each other: nine neighbours are reported, not ten,
    whatever freud answers. *)
Theorem C110_count_refuted : exists dist n r,
  (forall i, (i < n)%nat -> length (within dist n r i) = 10%nat) /\ (exists nn, nn_ok dist n nn) /\
  forall nn, nn_ok dist n nn -> num_neighbours nn n r = repeat 9%nat 11.
Proof.
  exists (fun _ _ => 1), 11%nat, 2.
  assert (W : forall i, (i < 11)%nat -> length (within (fun _ _ => 1) 11 2 i) = 10%nat).
  { intros i H. unfold within. destruct (Rlt_dec 1 2) as [_|N]; [|lra]. do 11 (destruct i as [|i]; [reflexivity|]). lia. }
  split; auto. split; [exists (some_nn (fun _ _ => 1) 11); apply some_nn_ok|].
  intros nn H. rewrite (C110_count_partial _ _ _ _ H). cbn [seq map]. rewrite !W by lia. reflexivity.
Qed.
Print Assumptions C110_count_refuted.
