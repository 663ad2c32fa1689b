(** Lemmas about the quaternion helpers. *)
From Coq Require Import Reals List Bool Arith ZArith Lra Lia.
From Verif Require Import Base RVec RVecFacts MotionModel OrderModel OrderProofs UtilModel.
Import ListNotations.
Open Scope R_scope.

(** ** Angles up to full turns *)
Lemma turn_down t : exists k : Z, - PI < t - 2 * PI * IZR k <= PI.
Proof.
  pose proof PI_RGT_0. exists (- Int_part ((PI - t) / (2 * PI)))%Z. rewrite opp_IZR.
  destruct (base_Int_part ((PI - t) / (2 * PI))) as (L & U). set (k := IZR (Int_part ((PI - t) / (2 * PI)))) in *.
  assert (E : PI - t = (PI - t) / (2 * PI) * (2 * PI)) by (field; lra).
  assert (P1 : k * (2 * PI) <= PI - t) by (rewrite E; apply Rmult_le_compat_r; lra).
  assert (P2 : (PI - t) < (k + 1) * (2 * PI)) by (rewrite E; apply Rmult_lt_compat_r; lra).
  lra.
Qed.
Lemma cos_sin_pi k x : (cos (x + IZR k * PI) = cos x /\ sin (x + IZR k * PI) = sin x) \/ (cos (x + IZR k * PI) = - cos x /\ sin (x + IZR k * PI) = - sin x).
Proof.
  assert (N : forall n x, (cos (x + INR n * PI) = cos x /\ sin (x + INR n * PI) = sin x) \/ (cos (x + INR n * PI) = - cos x /\ sin (x + INR n * PI) = - sin x)).
  { induction n as [|n IH]; intros y.
    - left. cbn. rewrite Rmult_0_l, Rplus_0_r. auto.
    - rewrite S_INR. replace (y + (INR n + 1) * PI) with (y + INR n * PI + PI) by ring. rewrite neg_cos, neg_sin.
      destruct (IH y) as [(-> & ->)|(-> & ->)]; [right|left]; auto using Ropp_involutive. }
  destruct (Z_le_gt_dec 0 k) as [P|P].
  - rewrite <- (Z2Nat.id k P), <- INR_IZR_INZ. apply N.
  - destruct (N (Z.to_nat (- k)) (x + IZR k * PI)) as [(C & S')|(C & S')]; rewrite INR_IZR_INZ, Z2Nat.id, opp_IZR in C, S' by lia;
      replace (x + IZR k * PI + - IZR k * PI) with x in C, S' by ring; rewrite C, S'; [left; auto|right; split; ring].
Qed.
Lemma zquat_period t k : zquat t = zquat (t - 2 * PI * IZR k) \/ zquat t = qneg (zquat (t - 2 * PI * IZR k)).
Proof.
  unfold zquat, qneg. cbn. set (s := (t - 2 * PI * IZR k) / 2). replace (t / 2) with (s + IZR k * PI) by (unfold s; field).
  destruct (cos_sin_pi k s) as [(-> & ->)|(-> & ->)]; [left; auto|right; apply q_eq; ring].
Qed.

(** ** Arrays made of blocks *)
Lemma concat_length_const {A} n (ll : list (list A)) : Forall (fun l => length l = n) ll -> length (concat ll) = (length ll * n)%nat.
Proof. induction 1 as [|l ll H F IH]; cbn; auto. rewrite app_length, IH, H. reflexivity. Qed.
Lemma nth_concat {A} n (ll : list (list A)) (d : A) p m : Forall (fun l => length l = n) ll -> (p < length ll)%nat -> (m < n)%nat ->
  nth (p * n + m) (concat ll) d = nth m (nth p ll []) d.
Proof.
  intros F. revert p. induction F as [|l ll H F IH]; intros p P M; cbn in P; [lia|]. destruct p as [|p]; cbn [concat nth].
  - rewrite Nat.mul_0_l, Nat.add_0_l. apply app_nth1. lia.
  - rewrite app_nth2 by (rewrite H; lia). rewrite H. replace (S p * n + m - n)%nat with (p * n + m)%nat by lia. apply IH; lia.
Qed.
Lemma Forall_repeat {A} (P : A -> Prop) x n : P x -> Forall P (repeat x n).
Proof. intros. induction n; cbn; auto. Qed.
Lemma nth_repeat_lt {A} (x d : A) n i : (i < n)%nat -> nth i (repeat x n) d = x.
Proof. revert i. induction n as [|n IH]; intros [|i] H; cbn; try lia; auto. apply IH. lia. Qed.
Lemma nth_map_lt {A B} (f : A -> B) l i d d' : (i < length l)%nat -> nth i (map f l) d' = f (nth i l d).
Proof. intros H. rewrite (nth_indep _ d' (f d)) by (rewrite map_length; auto). apply map_nth. Qed.

Lemma zip_length {A B C} (f : A -> B -> C) a b : length a = length b -> length (zip f a b) = length a.
Proof. revert b. induction a as [|x a IH]; intros [|y b] H; cbn in *; try lia; auto. Qed.

Lemma positions_ok num offsets position orientation :
  offsets <> [] -> num = length offsets -> length position = length orientation ->
  exists res, orientation2positions num offsets position orientation = inl res /\
    length res = (num * length position)%nat /\
    forall p m, (p < num)%nat -> (m < length position)%nat ->
      nth (p * length position + m) res zero3 = add3 (nth m position zero3) (rot (nth m orientation qone) (nth p offsets zero3)).
Proof.
  intros N E L. unfold orientation2positions. destruct offsets as [|o os] eqn:O; [congruence|]. rewrite <- O in *. clear N O o os.
  set (a := concat (repeat position num)). set (b := concat (map (fun o => map (fun q => rot q o) orientation) offsets)).
  assert (Fa : Forall (fun l => length l = length position) (repeat position num)) by (apply Forall_repeat; auto).
  assert (Fb : Forall (fun l => length l = length position) (map (fun o => map (fun q => rot q o) orientation) offsets)).
  { apply Forall_map, Forall_forall. intros o _. rewrite map_length. auto. }
  assert (La : length a = (num * length position)%nat) by (unfold a; rewrite (concat_length_const _ _ Fa), repeat_length; auto).
  assert (Lb : length b = (num * length position)%nat) by (unfold b; rewrite (concat_length_const _ _ Fb), map_length, <- E; auto).
  unfold bzip. rewrite La, Lb, Nat.eqb_refl. exists (zip add3 a b). split; auto. split; [rewrite zip_length; congruence|].
  intros p m P M. rewrite (nth_zip' add3 a b zero3 zero3) by (rewrite ?La, ?Lb; nia). f_equal.
  - unfold a. rewrite (nth_concat _ _ _ _ _ Fa) by (rewrite ?repeat_length; auto). rewrite nth_repeat_lt by auto. reflexivity.
  - unfold b. rewrite (nth_concat _ _ _ _ _ Fb) by (rewrite ?map_length; lia). rewrite (nth_map_lt _ offsets p zero3) by lia.
    rewrite (nth_map_lt _ orientation m qone) by lia. reflexivity.
Qed.
