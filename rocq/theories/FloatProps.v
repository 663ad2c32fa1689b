(** Properties C190-C194: the averages in floating point arithmetic. *)
From Coq Require Import Reals ZArith List Permutation Lia Lra.
From Coq.Floats Require Import SpecFloat.
From Verif Require Import RVec FloatModel FloatSpec.
Import ListNotations.
Open Scope R_scope.

(** * C190: bounds *)
Lemma keep_int p rnd k : rounding p rnd -> (Z.abs k <= 2 ^ p)%Z -> rnd (IZR k) = IZR k.
Proof.
  intros (_ & K) H. specialize (K k 0%Z H ltac:(lia)). cbn [powerRZ] in K. rewrite Rmult_1_r in K. exact K.
Qed.
Lemma fsum_pos rnd l s : fsum rnd l s -> (1 <= length l)%nat.
Proof. induction 1 as [|l l1 l2 s1 s2 P _ I1 _ I2]; cbn; [lia|]. rewrite (Permutation_length P), app_length. lia. Qed.
Lemma fsum_bound p rnd lo hi l s : rounding p rnd -> (Z.abs lo <= 1)%Z -> (Z.abs hi <= 1)%Z ->
  fsum rnd l s -> (Z.of_nat (length l) <= 2 ^ p)%Z -> Forall (fun x => IZR lo <= x <= IZR hi) l ->
  IZR (lo * Z.of_nat (length l)) <= s <= IZR (hi * Z.of_nat (length l)).
Proof.
  intros Rd Hlo Hhi F. induction F as [x|l l1 l2 s1 s2 P F1 I1 F2 I2]; intros L B.
  - inversion B; subst. cbn [length]. rewrite !Z.mul_1_r. assumption.
  - pose proof (Permutation_length P) as PL. rewrite app_length in PL.
    rewrite Forall_forall in B.
    assert (B1 : Forall (fun x => IZR lo <= x <= IZR hi) l1).
    { apply Forall_forall. intros x I. apply B. eapply Permutation_in; [apply Permutation_sym, P|]. apply in_or_app. auto. }
    assert (B2 : Forall (fun x => IZR lo <= x <= IZR hi) l2).
    { apply Forall_forall. intros x I. apply B. eapply Permutation_in; [apply Permutation_sym, P|]. apply in_or_app. auto. }
    specialize (I1 ltac:(lia) B1). specialize (I2 ltac:(lia) B2).
    assert (K : forall c, (Z.abs c <= 1)%Z -> (Z.abs (c * Z.of_nat (length l)) <= 2 ^ p)%Z) by (intros c Hc; nia).
    assert (E : forall c, IZR (c * Z.of_nat (length l)) = IZR (c * Z.of_nat (length l1)) + IZR (c * Z.of_nat (length l2))).
    { intros c. rewrite <- plus_IZR. f_equal. lia. }
    destruct Rd as (Mo & Ke). split.
    + rewrite <- (keep_int p rnd (lo * Z.of_nat (length l))) by (auto; split; auto). apply Mo. rewrite E. lra.
    + rewrite <- (keep_int p rnd (hi * Z.of_nat (length l))) by (auto; split; auto). apply Mo. rewrite E. lra.
Qed.
Lemma fmean_bound p rnd lo hi l m : rounding p rnd -> (1 <= p)%Z -> (Z.abs lo <= 1)%Z -> (Z.abs hi <= 1)%Z ->
  fmean rnd l m -> (Z.of_nat (length l) <= 2 ^ p)%Z -> Forall (fun x => IZR lo <= x <= IZR hi) l -> IZR lo <= m <= IZR hi.
Proof.
  intros Rd Hp Hlo Hhi (s & F & ->) L B. pose proof (fsum_pos _ _ _ F) as N.
  destruct (fsum_bound p rnd lo hi l s Rd Hlo Hhi F L B) as (A1 & A2).
  assert (P2 : (2 <= 2 ^ p)%Z). { change 2%Z with (2 ^ 1)%Z at 1. apply Z.pow_le_mono_r; lia. }
  rewrite !mult_IZR, <- !INR_IZR_INZ in A1, A2.
  assert (Np : 0 < INR (length l)) by (apply lt_0_INR; lia).
  assert (D : forall c, IZR c = IZR c * INR (length l) / INR (length l)) by (intros c; field; lra).
  pose proof Rd as (Mo & _). split.
  - rewrite <- (keep_int p rnd lo) by (auto; lia). apply Mo. rewrite (D lo). apply Rmult_le_compat_r; [left; apply Rinv_0_lt_compat, Np|lra].
  - rewrite <- (keep_int p rnd hi) by (auto; lia). apply Mo. rewrite (D hi). apply Rmult_le_compat_r; [left; apply Rinv_0_lt_compat, Np|lra].
Qed.
Lemma in_map_forall {A} (f : A -> R) (P : R -> Prop) l : (forall a, In a l -> P (f a)) -> Forall P (map f l).
Proof. intros H. apply Forall_forall. intros x I. apply in_map_iff in I. destruct I as (a & <- & I). auto. Qed.
Lemma square01 p rnd c : rounding p rnd -> (1 <= p)%Z -> -1 <= c <= 1 -> 0 <= rnd (c * c) <= 1.
Proof.
  intros Rd Hp H. assert (P2 : (2 <= 2 ^ p)%Z). { change 2%Z with (2 ^ 1)%Z at 1. apply Z.pow_le_mono_r; lia. }
  pose proof Rd as (Mo & _). split.
  - change 0 with (IZR 0) at 1. rewrite <- (keep_int p rnd 0) by (auto; lia). apply Mo. nra.
  - change 1 with (IZR 1). rewrite <- (keep_int p rnd 1) by (auto; lia). apply Mo. nra.
Qed.
Lemma rot2_term p rnd c : rounding p rnd -> (1 <= p)%Z -> -1 <= c <= 1 -> -1 <= rnd (rnd (2 * rnd (c * c)) - 1) <= 1.
Proof.
  intros Rd Hp H. assert (P2 : (2 <= 2 ^ p)%Z). { change 2%Z with (2 ^ 1)%Z at 1. apply Z.pow_le_mono_r; lia. }
  destruct (square01 p rnd c Rd Hp H) as (S1 & S2). pose proof Rd as (Mo & _).
  assert (T1 : 0 <= rnd (2 * rnd (c * c))). { rewrite <- (keep_int p rnd 0) at 1 by (auto; lia). apply Mo. apply Rmult_le_pos; [lra|exact S1]. }
  assert (T2 : rnd (2 * rnd (c * c)) <= 2). { apply Rle_trans with (rnd 2); [apply Mo; lra|right; apply (keep_int p rnd 2); auto; lia]. }
  split.
  - apply Rle_trans with (rnd (-1)); [right; symmetry; apply (keep_int p rnd (-1)); auto; lia|apply Mo; lra].
  - apply Rle_trans with (rnd 1); [apply Mo; lra|right; apply (keep_int p rnd 1); auto; lia].
Qed.
(** Whatever the rounding, the order of the additions, and the error of the cosine. *)
Theorem C190_bounds : forall p rnd fcos, rounding p rnd -> (1 <= p)%Z -> cosine fcos ->
  forall l m, (Z.of_nat (length l) <= 2 ^ p)%Z ->
  (frot1 rnd fcos l m -> -1 <= m <= 1) /\ (frot2 rnd fcos l m -> -1 <= m <= 1) /\ (fisf rnd fcos l m -> -1 <= m <= 1) /\
  (forder rnd fcos l m -> 0 <= m <= 1) /\ (forall dist, fstruct rnd dist l m -> 0 <= m <= 1).
Proof.
  intros p rnd fcos Rd Hp (C & C0) l m L. split; [|split; [|split; [|split]]].
  - intros F. apply (fmean_bound p rnd (-1) 1 _ _ Rd Hp ltac:(lia) ltac:(lia) F); [rewrite map_length; exact L|]. apply in_map_forall. intros a _. apply C.
  - intros F. apply (fmean_bound p rnd (-1) 1 _ _ Rd Hp ltac:(lia) ltac:(lia) F); [rewrite map_length; exact L|]. apply in_map_forall. intros a _. apply (rot2_term p); auto.
  - intros F. apply (fmean_bound p rnd (-1) 1 _ _ Rd Hp ltac:(lia) ltac:(lia) F); [rewrite map_length; exact L|]. apply in_map_forall. intros a _. apply C.
  - intros F. apply (fmean_bound p rnd 0 1 _ _ Rd Hp ltac:(lia) ltac:(lia) F); [rewrite map_length; exact L|]. apply in_map_forall. intros a _. apply (square01 p); auto.
  - intros dist F. apply (fmean_bound p rnd 0 1 _ _ Rd Hp ltac:(lia) ltac:(lia) F); [rewrite map_length; exact L|]. apply in_map_forall. intros a _. destruct (Rlt_dec a dist); lra.
Qed.
(** Nothing has moved: the correlation functions are exactly 1. *)
Theorem C190_start : forall p rnd fcos, rounding p rnd -> (1 <= p)%Z -> cosine fcos ->
  forall l m, (Z.of_nat (length l) <= 2 ^ p)%Z -> Forall (fun a => a = 0) l ->
  (frot1 rnd fcos l m -> m = 1) /\ (frot2 rnd fcos l m -> m = 1) /\ (fisf rnd fcos l m -> m = 1) /\
  (forder rnd fcos l m -> m = 1) /\ (forall dist, 0 < dist -> fstruct rnd dist l m -> m = 1).
Proof.
  intros p rnd fcos Rd Hp (C & C0) l m L Z. rewrite Forall_forall in Z.
  assert (P2 : (2 <= 2 ^ p)%Z). { change 2%Z with (2 ^ 1)%Z at 1. apply Z.pow_le_mono_r; lia. }
  assert (K1 : rnd 1 = 1) by (apply (keep_int p rnd 1); auto; lia). assert (K2 : rnd 2 = 2) by (apply (keep_int p rnd 2); auto; lia).
  assert (X : forall f, (forall a, In a l -> f a = 1) -> fmean rnd (map f l) m -> m = 1).
  { intros f Hf F. apply Rle_antisym; apply (fmean_bound p rnd 1 1 _ _ Rd Hp ltac:(lia) ltac:(lia) F); try (rewrite map_length; exact L);
      apply in_map_forall; intros a I; rewrite (Hf a I); lra. }
  split; [|split; [|split; [|split]]].
  - apply X. intros a I. rewrite (Z a I). exact C0.
  - apply X. intros a I. rewrite (Z a I), C0, Rmult_1_l, K1, Rmult_1_r, K2. replace (2 - 1) with 1 by lra. exact K1.
  - apply X. intros a I. rewrite (Z a I). exact C0.
  - apply X. intros a I. rewrite (Z a I), C0, Rmult_1_l. exact K1.
  - intros dist Hd. apply X. intros a I. rewrite (Z a I). destruct (Rlt_dec 0 dist); [reflexivity|contradiction].
Qed.
Print Assumptions C190_bounds. Print Assumptions C190_start.

(** An arithmetic with these properties, which rounds: 60 binary places, rounding down *)
Definition grid (x : R) : R := IZR (Int_part (x * powerRZ 2 60)) * powerRZ 2 (-60).
Lemma two_nz : 2 <> 0. Proof. lra. Qed.
Lemma Int_part_is r k : IZR k <= r < IZR k + 1 -> Int_part r = k.
Proof.
  intros H. unfold Int_part. rewrite <- (tech_up r (k + 1)); [lia| |]; rewrite plus_IZR; lra.
Qed.
Lemma Int_part_IZR k : Int_part (IZR k) = k.
Proof. apply Int_part_is. lra. Qed.
Lemma Int_part_mono x y : x <= y -> (Int_part x <= Int_part y)%Z.
Proof.
  intros H. destruct (base_Int_part x) as (A & B), (base_Int_part y) as (A' & B').
  apply Znot_gt_le. intros G. assert (G2 : (Int_part y + 1 <= Int_part x)%Z) by lia. apply IZR_le in G2. rewrite plus_IZR in G2. lra.
Qed.
Example C190_grid : rounding 53 grid.
Proof.
  split.
  - intros x y H. unfold grid. apply Rmult_le_compat_r; [apply powerRZ_le; lra|]. apply IZR_le, Int_part_mono.
    apply Rmult_le_compat_r; [apply powerRZ_le; lra|exact H].
  - intros m e _ He. unfold grid. rewrite Rmult_assoc, <- (powerRZ_add 2 e 60) by apply two_nz.
    assert (E : powerRZ 2 (e + 60) = IZR (2 ^ (e + 60))).
    { rewrite <- (Z2Nat.id (e + 60)) by lia. rewrite <- pow_powerRZ, pow_IZR. reflexivity. }
    rewrite E, <- mult_IZR, Int_part_IZR, mult_IZR, <- E, Rmult_assoc, <- powerRZ_add by apply two_nz. f_equal. f_equal. lia.
Qed.
Example C190_ex : exists m, frot1 grid cos [0; 0; 1] m /\ cosine cos.
Proof.
  eexists. split; [|split; [intros; apply COS_bound|apply cos_0]]. eexists. split; [|reflexivity].
  apply (fsum_add grid _ [cos 0; cos 0] [cos 1]); [apply Permutation_refl|apply (fsum_add grid _ [cos 0] [cos 0]); [apply Permutation_refl|constructor|constructor]|constructor].
Qed.

(** * C191: relative errors, and the numbering of the molecules *)
Section Relative.
  Variables (u : R) (rnd : R -> R).
  Hypothesis Rel : relative u rnd.
  Local Notation q := (1 - u).
  Lemma q_pos : 0 < q <= 1.
  Proof. destruct Rel as (H & _). lra. Qed.
  Lemma qk_pos k : 0 < q ^ k <= 1.
  Proof.
    pose proof q_pos as Q. split; [apply pow_lt; lra|]. induction k as [|k IH]; cbn [pow]; [lra|].
    assert (0 < q ^ k) by (apply pow_lt; lra). nra.
  Qed.
  Lemma w_nonneg k x y : 0 <= x -> within u k x y -> 0 <= y.
  Proof. intros H (A & _). pose proof (qk_pos k). nra. Qed.
  Lemma w_refl x : 0 <= x -> within u 0 x x.
  Proof. intros H. split; cbn; lra. Qed.
  Lemma w_trans a b x y z : within u a x y -> within u b y z -> within u (a + b) x z.
  Proof.
    intros (A1 & A2) (B1 & B2). unfold within. rewrite pow_add. pose proof (qk_pos a). pose proof (qk_pos b). split.
    - apply Rle_trans with (y * q ^ b); [|exact B1]. rewrite <- Rmult_assoc. apply Rmult_le_compat_r; lra.
    - apply Rle_trans with (y * q ^ a); [|exact A2]. replace (z * (q ^ a * q ^ b)) with (z * q ^ b * q ^ a) by ring. apply Rmult_le_compat_r; lra.
  Qed.
  Lemma w_sym k x y : within u k x y -> within u k y x.
  Proof. intros (A & B). split; assumption. Qed.
  Lemma w_rnd x : 0 <= x -> within u 1 x (rnd x).
  Proof.
    intros H. destruct Rel as (U & E). specialize (E x). rewrite (Rabs_right x) in E by lra.
    assert (B : x - u * x <= rnd x <= x + u * x).
    { unfold Rabs in E. destruct (Rcase_abs (rnd x - x)); lra. }
    unfold within. rewrite pow_1. split; [lra|]. assert (rnd x * (1 - u) <= (x + u * x) * (1 - u)) by (apply Rmult_le_compat_r; lra). nra.
  Qed.
  Lemma w_weak a b x y : (a <= b)%nat -> 0 <= x -> within u a x y -> within u b x y.
  Proof.
    intros L Hx W. pose proof (w_nonneg a x y Hx W) as Hy. destruct W as (A & B). unfold within.
    replace b with (a + (b - a))%nat by lia. rewrite pow_add. pose proof (qk_pos a). pose proof (qk_pos (b - a)). split.
    - apply Rle_trans with (x * q ^ a); [|exact A]. rewrite <- Rmult_assoc. assert (0 <= x * q ^ a) by nra. nra.
    - apply Rle_trans with (y * q ^ a); [|exact B]. rewrite <- Rmult_assoc. assert (0 <= y * q ^ a) by nra. nra.
  Qed.
  Lemma w_add k x y x' y' : within u k x y -> within u k x' y' -> within u k (x + x') (y + y').
  Proof. intros (A & B) (A' & B'). unfold within. split; lra. Qed.
  Lemma w_mul a b x y x' y' : 0 <= x -> 0 <= x' -> within u a x y -> within u b x' y' -> within u (a + b) (x * x') (y * y').
  Proof.
    intros H H' W W'. pose proof (w_nonneg _ _ _ H W). pose proof (w_nonneg _ _ _ H' W'). destruct W as (A & B), W' as (A' & B').
    unfold within. rewrite pow_add. pose proof (qk_pos a). pose proof (qk_pos b). split.
    - replace (x * x' * (q ^ a * q ^ b)) with (x * q ^ a * (x' * q ^ b)) by ring. apply Rmult_le_compat; nra.
    - replace (y * y' * (q ^ a * q ^ b)) with (y * q ^ a * (y' * q ^ b)) by ring. apply Rmult_le_compat; nra.
  Qed.
  Lemma w_inv k x y : 0 < x -> 0 < y -> within u k x y -> within u k (/ x) (/ y).
  Proof.
    intros H H' (A & B). unfold within. pose proof (qk_pos k) as Q.
    assert (Ix : 0 < / x) by (apply Rinv_0_lt_compat; auto). assert (Iy : 0 < / y) by (apply Rinv_0_lt_compat; auto).
    assert (E : forall a b, 0 < a -> 0 < b -> b * q ^ k <= a -> / a * q ^ k <= / b).
    { intros a b Ha Hb L. apply Rmult_le_reg_l with (a * b); [nra|].
      replace (a * b * (/ a * q ^ k)) with (b * q ^ k) by (field; lra). replace (a * b * / b) with a by (field; lra). exact L. }
    split; apply E; auto.
  Qed.
  Lemma w_div a b x y x' y' : 0 <= x -> 0 < x' -> 0 < y' -> within u a x y -> within u b x' y' -> within u (a + b) (x / x') (y / y').
  Proof.
    intros H H' Hy W W'. apply w_mul; auto; [left; apply Rinv_0_lt_compat; auto|]. apply w_inv; auto.
  Qed.
  Lemma sqrt_above r : 0 < r <= 1 -> r <= sqrt r.
  Proof. intros H. rewrite <- (sqrt_square r) at 1 by lra. apply sqrt_le_1_alt. nra. Qed.
  Lemma w_sqrt k x y : 0 <= x -> within u k x y -> within u k (sqrt x) (sqrt y).
  Proof.
    intros H W. pose proof (w_nonneg _ _ _ H W) as Hy. destruct W as (A & B). unfold within. pose proof (qk_pos k) as Q.
    assert (E : forall a b, 0 <= a -> 0 <= b -> a * q ^ k <= b -> sqrt a * q ^ k <= sqrt b).
    { intros a b Ha Hb L. apply Rle_trans with (sqrt (a * q ^ k)); [|apply sqrt_le_1_alt, L]. rewrite sqrt_mult by lra.
      apply Rmult_le_compat_l; [apply sqrt_pos|]. apply sqrt_above, Q. }
    split; apply E; auto.
  Qed.
  Lemma total_app a b : total (a ++ b) = total a + total b.
  Proof. unfold total. induction a as [|x a IH]; cbn; [lra|]. rewrite IH. lra. Qed.
  Lemma total_perm a b : Permutation a b -> total a = total b.
  Proof. unfold total. induction 1; cbn; try lra. Qed.
  Lemma total_nonneg l : Forall (fun x => 0 <= x) l -> 0 <= total l.
  Proof. unfold total. induction 1 as [|x l H F IH]; cbn; lra. Qed.
  Lemma w_fsum l s : fsum rnd l s -> Forall (fun x => 0 <= x) l -> within u (length l - 1) (total l) s.
  Proof.
    induction 1 as [x|l l1 l2 s1 s2 P F1 I1 F2 I2]; intros N.
    - cbn. rewrite Rplus_0_r. inversion N; subst. apply w_refl. auto.
    - assert (N' : Forall (fun x => 0 <= x) (l1 ++ l2)) by (eapply Permutation_Forall; eauto). apply Forall_app in N'. destruct N' as (N1 & N2).
      rewrite (total_perm _ _ P), total_app, (Permutation_length P), app_length.
      pose proof (fsum_pos _ _ _ F1) as L1. pose proof (fsum_pos _ _ _ F2) as L2.
      pose proof (total_nonneg _ N1). pose proof (total_nonneg _ N2).
      assert (W : within u (length l1 + length l2 - 2) (total l1 + total l2) (s1 + s2)).
      { apply w_add; (eapply w_weak; [| |eauto]); auto; lia. }
      replace (length l1 + length l2 - 1)%nat with (length l1 + length l2 - 2 + 1)%nat by lia.
      eapply w_trans; [exact W|]. apply w_rnd. eapply w_nonneg; [|exact W]. lra.
  Qed.
  Lemma w_total k xs ys : Forall (fun x => 0 <= x) xs -> Forall2 (within u k) xs ys -> within u k (total xs) (total ys).
  Proof.
    intros N F. induction F as [|x y xs ys W F IH]; [split; cbn; lra|]. inversion N; subst. apply (w_add k x y (total xs) (total ys)); auto.
  Qed.
  Lemma w_all_nonneg k xs ys : Forall (fun x => 0 <= x) xs -> Forall2 (within u k) xs ys -> Forall (fun x => 0 <= x) ys.
  Proof. intros N F. induction F as [|x y xs ys W F IH]; constructor; inversion N; subst; auto. eapply w_nonneg; eauto. Qed.
  (** The mean of numbers with at most [k] errors each has at most [k + n]. *)
  Lemma w_mean k xs ys m : Forall (fun x => 0 <= x) xs -> Forall2 (within u k) xs ys -> fmean rnd ys m -> within u (k + length xs) (average xs) m.
  Proof.
    intros N F (s & S & ->). pose proof (w_all_nonneg _ _ _ N F) as N'. pose proof (fsum_pos _ _ _ S) as L.
    assert (EL : length xs = length ys) by (clear -F; induction F; cbn; auto). unfold average.
    pose proof (w_trans _ _ _ _ _ (w_total _ _ _ N F) (w_fsum _ _ S N')) as W.
    assert (P : 0 < INR (length ys)) by (apply lt_0_INR; lia).
    assert (W2 : within u (k + (length ys - 1) + 0) (total xs / INR (length ys)) (s / INR (length ys))).
    { apply w_div; auto; [apply total_nonneg, N|apply w_refl; lra]. }
    rewrite EL. replace (k + length ys)%nat with (k + (length ys - 1) + 0 + 1)%nat by lia.
    eapply w_trans; [exact W2|]. apply w_rnd. eapply w_nonneg; [|exact W2]. apply Rmult_le_pos; [apply total_nonneg, N|left; apply Rinv_0_lt_compat, P].
  Qed.
  Lemma len2_nonneg v : 0 <= len2 v.
  Proof. unfold len2. nra. Qed.
  Lemma w_square v s : fsquare rnd v s -> within u 3 (len2 v) s.
  Proof.
    intros F. set (l := [x3 v * x3 v; y3 v * y3 v; z3 v * z3 v]).
    assert (N : Forall (fun x => 0 <= x) l) by (do 3 (constructor; [apply Rle_0_sqr|]); constructor).
    assert (F2 : Forall2 (within u 1) l [rnd (x3 v * x3 v); rnd (y3 v * y3 v); rnd (z3 v * z3 v)]) by (do 3 (constructor; [apply w_rnd, Rle_0_sqr|]); constructor).
    pose proof (w_trans _ _ _ _ _ (w_total _ _ _ N F2) (w_fsum _ _ F (w_all_nonneg _ _ _ N F2))) as W.
    cbn in W. unfold len2. replace (x3 v * x3 v + y3 v * y3 v + z3 v * z3 v) with (x3 v * x3 v + (y3 v * y3 v + (z3 v * z3 v + 0))) by ring. exact W.
  Qed.
  Lemma w_squares ds qs : Forall2 (fsquare rnd) ds qs -> Forall2 (within u 3) (map len2 ds) qs /\ Forall (fun x => 0 <= x) (map len2 ds).
  Proof.
    induction 1 as [|v s ds qs H F (A & B)]; cbn [map]; split; constructor; auto; [apply w_square, H|apply len2_nonneg].
  Qed.
  Lemma w_msd ds m : fmsd rnd ds m -> within u (length ds + 3) (average (map len2 ds)) m.
  Proof.
    intros (qs & F & M). destruct (w_squares ds qs F) as (A & B). rewrite Nat.add_comm.
    replace (length ds) with (length (map len2 ds)) by apply map_length. apply (w_mean 3 _ qs); auto.
  Qed.
  Lemma w_mfd ds m : fmfd rnd ds m -> within u (length ds + 7) (average (map (fun v => len2 v * len2 v) ds)) m.
  Proof.
    intros (qs & F & M). destruct (w_squares ds qs F) as (A & B). rewrite Nat.add_comm.
    replace (length ds) with (length (map (fun v => len2 v * len2 v) ds)) by apply map_length. eapply w_mean; [| |exact M].
    - apply in_map_forall. intros a _. pose proof (len2_nonneg a). nra.
    - clear M B. revert qs F A. induction ds as [|v ds IH]; intros qs F A; inversion F as [|? s ? qs' H F']; subst; cbn [map]; constructor.
      + replace 7%nat with (3 + 3 + 1)%nat by lia. pose proof (w_square v s H) as W. pose proof (len2_nonneg v) as L.
        pose proof (w_mul _ _ _ _ _ _ L L W W) as W2. eapply w_trans; [exact W2|]. apply w_rnd. eapply w_nonneg; [|exact W2]. nra.
      + inversion A; subst. apply IH; auto.
  Qed.
  Lemma w_mean_norm ds m : fmean_norm rnd ds m -> within u (length ds + 4) (average (map (fun v => sqrt (len2 v)) ds)) m.
  Proof.
    intros (rs & F & M). rewrite Nat.add_comm.
    replace (length ds) with (length (map (fun v => sqrt (len2 v)) ds)) by apply map_length. eapply w_mean; [| |exact M].
    - apply in_map_forall. intros a _. apply sqrt_pos.
    - clear M. induction F as [|v r ds rs (s & S & ->) F IH]; cbn [map]; constructor; auto.
      replace 4%nat with (3 + 1)%nat by lia. pose proof (w_sqrt _ _ _ (len2_nonneg v) (w_square v s S)) as W.
      eapply w_trans; [exact W|]. apply w_rnd, sqrt_pos.
  Qed.
End Relative.

(** The mean displacement, mean squared displacement and mean fourth power (and those of the rotations)
    are the true averages up to about as many relative rounding errors as there are molecules, and so are
    two results for the same molecules in different orders. *)
Theorem C191_error_partial : forall u rnd ds, relative u rnd ->
  (forall m, fmean_norm rnd ds m -> within u (length ds + 4) (average (map (fun v => sqrt (len2 v)) ds)) m) /\
  (forall m, fmsd rnd ds m -> within u (length ds + 3) (average (map len2 ds)) m) /\
  (forall m, fmfd rnd ds m -> within u (length ds + 7) (average (map (fun v => len2 v * len2 v) ds)) m).
Proof.
  intros u rnd ds Rel. split; [|split]; intros m H; [apply (w_mean_norm u rnd)|apply (w_msd u rnd)|apply (w_mfd u rnd)]; auto.
Qed.
Theorem C191_numbering_partial : forall u rnd ds ds', relative u rnd -> Permutation ds ds' ->
  (forall m m', fmean_norm rnd ds m -> fmean_norm rnd ds' m' -> within u (2 * (length ds + 4)) m m') /\
  (forall m m', fmsd rnd ds m -> fmsd rnd ds' m' -> within u (2 * (length ds + 3)) m m') /\
  (forall m m', fmfd rnd ds m -> fmfd rnd ds' m' -> within u (2 * (length ds + 7)) m m').
Proof.
  intros u rnd ds ds' Rel P. pose proof (Permutation_length P) as L.
  assert (A : forall f, average (map f ds) = average (map f ds')).
  { intros f. unfold average. rewrite !map_length, L, (total_perm _ _ (Permutation_map f P)). reflexivity. }
  assert (X : forall k (f : v3 -> R) m m', within u (length ds + k) (average (map f ds)) m -> within u (length ds' + k) (average (map f ds')) m' ->
    within u (2 * (length ds + k)) m m').
  { intros k f m m' W W'. rewrite <- A, <- L in W'. replace (2 * (length ds + k))%nat with (length ds + k + (length ds + k))%nat by lia.
    eapply w_trans; [exact Rel|apply w_sym; exact W|exact W']. }
  split; [|split]; intros m m' H H'; eapply X.
  - apply (w_mean_norm u rnd); auto.
  - apply (w_mean_norm u rnd); auto.
  - apply (w_msd u rnd); auto.
  - apply (w_msd u rnd); auto.
  - apply (w_mfd u rnd); auto.
  - apply (w_mfd u rnd); auto.
Qed.
(** ** The same in IEEE 754 arithmetic *)
Lemma two_neg e : powerRZ 2 (Zneg e) = / IZR (2 ^ Zpos e).
Proof. cbn [powerRZ]. f_equal. rewrite pow_IZR. rewrite positive_nat_Z. reflexivity. Qed.
Lemma value_neg s m e : value (S754_finite s m (Zneg e)) = (if s then -1 else 1) * IZR (Zpos m) / IZR (2 ^ Zpos e).
Proof. cbn [value]. rewrite two_neg. reflexivity. Qed.
(** In double precision, displacements 1, 5/2^29 and 5/2^29 along an axis *)
Definition one64 : spec_float := S754_finite false 4503599627370496 (-52).
Definition two64 : spec_float := S754_finite false 4503599627370496 (-51).
Definition three64 : spec_float := S754_finite false 6755399441055744 (-51).
Definition six64 : spec_float := S754_finite false 6755399441055744 (-50).
Definition tiny64 : spec_float := S754_finite false 5629499534213120 (-79).
Definition msd64 (l : list spec_float) (n : spec_float) : spec_float := mean64 (map (fun x => mul64 x x) l) n.
Theorem C191_numbering_refuted : exists l l' n, Permutation l l' /\ value n = INR (length l) /\ value (msd64 l n) <> value (msd64 l' n).
Proof.
  exists [one64; tiny64; tiny64], [tiny64; tiny64; one64], three64. split; [|split].
  - apply (Permutation_trans (l' := [tiny64; one64; tiny64])); constructor; constructor.
  - unfold three64. rewrite value_neg. change (2 ^ 51)%Z with 2251799813685248%Z. cbn [length INR]. lra.
  - assert (msd64 [one64; tiny64; tiny64] three64 = S754_finite false 6004799503160661 (-54)) as -> by (vm_compute; reflexivity).
    assert (msd64 [tiny64; tiny64; one64] three64 = S754_finite false 6004799503160663 (-54)) as -> by (vm_compute; reflexivity).
    rewrite !value_neg. change (2 ^ 54)%Z with 18014398509481984%Z. lra.
Qed.
Print Assumptions C191_error_partial. Print Assumptions C191_numbering_partial. Print Assumptions C191_numbering_refuted.
(** An arithmetic whose errors are relative ones *)
Definition shrink (x : R) : R := x * (1 - / 9007199254740992).
Example C191_shrink : relative (/ 9007199254740992) shrink.
Proof.
  split; [lra|]. intros x. unfold shrink. replace (x * (1 - / 9007199254740992) - x) with (- / 9007199254740992 * x) by ring.
  rewrite Rabs_mult, Rabs_left by lra. right. f_equal. ring.
Qed.
Example C191_ex : exists m, fmsd shrink [mk3 1 2 3; mk3 4 5 6] m.
Proof.
  assert (S : forall v, exists s, fsquare shrink v s).
  { intros v. unfold fsquare. generalize (shrink (x3 v * x3 v)), (shrink (y3 v * y3 v)), (shrink (z3 v * z3 v)). intros a b c. eexists.
    apply (fsum_add shrink [a; b; c] [a] [b; c]); [apply Permutation_refl|constructor|].
    apply (fsum_add shrink [b; c] [b] [c]); [apply Permutation_refl|constructor|constructor]. }
  destruct (S (mk3 1 2 3)) as (a & A), (S (mk3 4 5 6)) as (b & B).
  eexists. exists [a; b]. split; [auto|]. eexists. split; [|reflexivity].
  apply (fsum_add shrink _ [a] [b]); [apply Permutation_refl|constructor|constructor].
Qed.

(** * C192: the lower bounds of alpha and gamma *)
Lemma fsum_nonneg p rnd l s : rounding p rnd -> (0 <= p)%Z -> fsum rnd l s -> Forall (fun x => 0 <= x) l -> 0 <= s.
Proof.
  intros Rd Hp F. induction F as [x|l l1 l2 s1 s2 P F1 I1 F2 I2]; intros N; [inversion N; subst; auto|].
  assert (N' : Forall (fun x => 0 <= x) (l1 ++ l2)) by (eapply Permutation_Forall; eauto). apply Forall_app in N'. destruct N' as (N1 & N2).
  specialize (I1 N1). specialize (I2 N2). apply Rle_trans with (rnd 0).
  - right. symmetry. apply (keep_int p rnd 0 Rd). cbn. apply Z.pow_nonneg. lia.
  - apply Rd. lra.
Qed.
Lemma rnd_nonneg p rnd x : rounding p rnd -> 0 <= x -> 0 <= rnd x.
Proof.
  intros Rd H. apply Rle_trans with (rnd 0).
  - right. symmetry. apply (keep_int p rnd 0 Rd). cbn. apply Z.pow_nonneg. lia.
  - apply Rd. lra.
Qed.
Lemma fmean_nonneg p rnd l m : rounding p rnd -> (0 <= p)%Z -> fmean rnd l m -> Forall (fun x => 0 <= x) l -> 0 <= m.
Proof.
  intros Rd Hp (s & F & ->) N. pose proof (fsum_pos _ _ _ F). apply (rnd_nonneg p); auto.
  apply Rmult_le_pos; [eapply fsum_nonneg; eauto|]. left. apply Rinv_0_lt_compat, lt_0_INR. lia.
Qed.
Lemma squares_nonneg p rnd ds qs : rounding p rnd -> (0 <= p)%Z -> Forall2 (fsquare rnd) ds qs -> Forall (fun x => 0 <= x) qs.
Proof.
  intros Rd Hp. induction 1 as [|v s ds qs H F IH]; constructor; auto.
  apply (fsum_nonneg p _ _ _ Rd Hp H). do 3 (constructor; [apply (rnd_nonneg p), Rle_0_sqr; auto|]). constructor.
Qed.
(** Cauchy and Schwarz *)
Lemma cauchy l : Forall (fun x => 0 <= x) l -> total l * total l <= INR (length l) * total (map (fun x => x * x) l).
Proof.
  intros N. induction N as [|x l Hx N IH]; [cbn; lra|]. cbn [length map total fold_right]. fold (total l). fold (total (map (fun x => x * x) l)).
  rewrite S_INR. set (s := total l) in *. set (t := total (map (fun y => y * y) l)) in *. set (n := INR (length l)) in *.
  assert (Hn : 0 <= n) by apply pos_INR. assert (Ht : 0 <= t) by (apply total_nonneg, in_map_forall; intros; apply Rle_0_sqr).
  destruct (Req_dec n 0) as [E|E].
  - assert (s = 0). { rewrite E, Rmult_0_l in IH. nra. } rewrite H, E. nra.
  - assert (2 * x * s <= n * x * x + t); [|nra].
    apply Rmult_le_reg_l with n; [lra|]. assert (0 <= (n * x - s) * (n * x - s)) by apply Rle_0_sqr. nra.
Qed.
Theorem C192_alpha_partial : forall p u k rnd ds a, rounding p rnd -> (1 <= p)%Z -> relative u rnd -> 0 < k ->
  falpha rnd k ds a ->
  rnd ((1 - u) ^ (3 * length ds + 16) / k - 1) <= a /\
  (exists r, within u (3 * length ds + 16) (average (map (fun v => len2 v * len2 v) ds) / (k * (average (map len2 ds) * average (map len2 ds)))) r /\
     a = rnd (r - 1)).
Proof.
  intros p u k rnd ds a Rd Hp Rel Hk (m2 & m4 & M2 & M4 & NZ & ->).
  pose proof (w_msd u rnd Rel ds m2 M2) as W2. pose proof (w_mfd u rnd Rel ds m4 M4) as W4.
  set (t2 := average (map len2 ds)) in *. set (t4 := average (map (fun v => len2 v * len2 v) ds)) in *.
  assert (L : (1 <= length ds)%nat).
  { destruct M2 as (qs & F & s & S & _). apply fsum_pos in S. assert (length ds = length qs) by (clear -F; induction F; cbn; auto). lia. }
  assert (Ln : 0 < INR (length ds)) by (apply lt_0_INR; lia).
  assert (P2 : 0 <= t2).
  { apply Rmult_le_pos; [apply total_nonneg, in_map_forall; intros; apply len2_nonneg|left; apply Rinv_0_lt_compat; rewrite map_length; exact Ln]. }
  assert (P4 : 0 <= t4).
  { apply Rmult_le_pos; [apply total_nonneg, in_map_forall; intros; apply Rle_0_sqr|left; apply Rinv_0_lt_compat; rewrite map_length; exact Ln]. }
  pose proof (w_nonneg u rnd Rel _ _ _ P2 W2) as Q2.
  pose proof (w_mul u rnd Rel _ _ _ _ _ _ P2 P2 W2 W2) as A1.
  assert (P22 : 0 <= t2 * t2) by nra. assert (Q22 : 0 <= m2 * m2) by nra.
  pose proof (w_trans u rnd Rel _ _ _ _ _ A1 (w_rnd u rnd Rel _ Q22)) as A2.
  pose proof (w_nonneg u rnd Rel _ _ _ P22 A2) as Q3.
  assert (Ak : within u 0 k k) by (apply w_refl; lra).
  assert (Pk : 0 <= k) by lra.
  pose proof (w_mul u rnd Rel _ _ _ _ _ _ Pk P22 Ak A2) as A3.
  assert (Q4 : 0 <= k * rnd (m2 * m2)) by nra.
  pose proof (w_trans u rnd Rel _ _ _ _ _ A3 (w_rnd u rnd Rel _ Q4)) as A4.
  set (d := rnd (k * rnd (m2 * m2))) in *.
  assert (Dp : 0 < d) by (assert (0 <= d) by (apply (rnd_nonneg p); auto); lra).
  assert (T2 : 0 < t2).
  { destruct P2 as [P2|E]; auto. exfalso. destruct A4 as (_ & B). rewrite <- E in B. rewrite Rmult_0_l, Rmult_0_r in B.
    pose proof (qk_pos u rnd Rel (0 + (length ds + 3 + (length ds + 3) + 1) + 1)). nra. }
  assert (Kp : 0 < k * (t2 * t2)) by (apply Rmult_lt_0_compat; nra).
  pose proof (w_div u rnd Rel _ _ _ _ _ _ P4 Kp Dp W4 A4) as A5.
  assert (Pr : 0 <= t4 / (k * (t2 * t2))) by (apply Rmult_le_pos; [auto|left; apply Rinv_0_lt_compat, Kp]).
  pose proof (w_nonneg u rnd Rel _ _ _ Pr A5) as Q5.
  pose proof (w_trans u rnd Rel _ _ _ _ _ A5 (w_rnd u rnd Rel _ Q5)) as A6.
  replace (length ds + 7 + (0 + (length ds + 3 + (length ds + 3) + 1) + 1) + 1)%nat with (3 * length ds + 16)%nat in A6 by lia.
  split; [|exists (rnd (m4 / d)); split; [exact A6|reflexivity]].
  apply Rd. apply Rplus_le_compat_r. destruct A6 as (A6 & _). eapply Rle_trans; [|exact A6].
  pose proof (qk_pos u rnd Rel (3 * length ds + 16)) as Qk. set (c := (1 - u) ^ (3 * length ds + 16)) in *.
  unfold Rdiv. rewrite Rmult_comm. apply Rmult_le_compat_r; [lra|].
  apply Rmult_le_reg_l with (k * (t2 * t2)); [exact Kp|]. unfold Rdiv.
  replace (k * (t2 * t2) * / k) with (t2 * t2) by (field; lra). replace (k * (t2 * t2) * (t4 * / (k * (t2 * t2)))) with t4 by (field; split; lra).
  unfold t2, t4, average. rewrite !map_length.
  assert (C : total (map len2 ds) * total (map len2 ds) <= INR (length ds) * total (map (fun v => len2 v * len2 v) ds)).
  { pose proof (cauchy (map len2 ds)) as C. rewrite map_length, map_map in C. apply C. apply in_map_forall. intros; apply len2_nonneg. }
  apply Rmult_le_reg_l with (INR (length ds) * INR (length ds)); [nra|].
  match goal with |- ?x <= ?y => replace x with (total (map len2 ds) * total (map len2 ds)) by (field; lra); replace y with (INR (length ds) * total (map (fun v => len2 v * len2 v) ds)) by (field; lra) end.
  exact C.
Qed.
(** Six molecules displaced by 12085852/2^20 along an axis *)
Definition same64 : spec_float := S754_finite false 6488542385537024 (-49).
Theorem C192_alpha_refuted : exists x n, value n = 6 /\
  value (alpha64 (repeat (mul64 x x) 6) n two64 one64) < - (1 / 2).
Proof.
  exists same64, six64. split.
  - unfold six64. rewrite value_neg. change (2 ^ 50)%Z with 1125899906842624%Z. lra.
  - assert (alpha64 (repeat (mul64 same64 same64) 6) six64 two64 one64 = S754_finite true 4503599627370497 (-53)) as -> by (vm_compute; reflexivity).
    rewrite value_neg. change (2 ^ 53)%Z with 9007199254740992%Z. lra.
Qed.
(** gamma and the two alpha are never below -1 *)
Theorem C192_minus_one : forall p rnd, rounding p rnd -> (1 <= p)%Z ->
  (forall k ds a, 0 < k -> falpha rnd k ds a -> -1 <= a) /\ (forall ds rs g, fgamma rnd ds rs g -> -1 <= g).
Proof.
  intros p rnd Rd Hp.
  assert (P2 : (2 <= 2 ^ p)%Z). { change 2%Z with (2 ^ 1)%Z at 1. apply Z.pow_le_mono_r; lia. }
  assert (X : forall r, 0 <= r -> -1 <= rnd (r - 1)).
  { intros r H. apply Rle_trans with (rnd (-1)); [right; symmetry; apply (keep_int p rnd (-1)); auto; lia|]. apply Rd. lra. }
  assert (D : forall a b, 0 <= a -> 0 <= b -> b <> 0 -> -1 <= rnd (rnd (a / b) - 1)).
  { intros a b Ha Hb Nb. apply X. apply (rnd_nonneg p); auto. apply Rmult_le_pos; auto. left. apply Rinv_0_lt_compat. lra. }
  split.
  - intros k ds a Hk (m2 & m4 & (qs & F & M2) & (qs' & F' & M4) & NZ & ->). apply D; auto.
    + apply (fmean_nonneg p _ _ _ Rd ltac:(lia) M4). apply in_map_forall. intros q _. apply (rnd_nonneg p), Rle_0_sqr; auto.
    + apply (rnd_nonneg p); auto. apply Rmult_le_pos; [lra|]. apply (rnd_nonneg p), Rle_0_sqr; auto.
  - intros ds rs g (qs & ts & m & mq & mt & F & G & M & Mq & Mt & NZ & ->).
    pose proof (squares_nonneg p rnd ds qs Rd ltac:(lia) F) as Nq. pose proof (squares_nonneg p rnd rs ts Rd ltac:(lia) G) as Nt.
    apply D; auto.
    + apply (fmean_nonneg p _ _ _ Rd ltac:(lia) M). apply in_map_forall. intros [a b] I. cbn [fst snd]. rewrite Forall_forall in Nq, Nt.
      apply (rnd_nonneg p); auto. apply Rmult_le_pos; [apply Nq; eapply in_combine_l; eauto|apply Nt; eapply in_combine_r; eauto].
    + apply (rnd_nonneg p); auto. apply Rmult_le_pos; [apply (fmean_nonneg p _ _ _ Rd ltac:(lia) Mq Nq)|apply (fmean_nonneg p _ _ _ Rd ltac:(lia) Mt Nt)].
Qed.
Print Assumptions C192_alpha_partial. Print Assumptions C192_alpha_refuted. Print Assumptions C192_minus_one.

(** * C193: the displacement of a molecule over many frames *)
Lemma track_from u rnd : relative u rnd -> forall ws d,
  Rabs (fold_left (fun d w => rnd (d - w)) ws d - (d - total ws)) <= ((1 + u) ^ length ws - 1) * (Rabs d + total (map Rabs ws)).
Proof.
  intros (U & E) ws. induction ws as [|w ws IH]; intros d.
  - cbn. rewrite Rminus_0_r, Rminus_diag_eq, Rabs_R0 by reflexivity. lra.
  - cbn [fold_left length map total fold_right pow]. fold (total ws). fold (total (map Rabs ws)).
    specialize (IH (rnd (d - w))). specialize (E (d - w)). set (d' := rnd (d - w)) in *.
    set (f := fold_left _ ws d') in *. set (n := (1 + u) ^ length ws) in *. set (t := total (map Rabs ws)) in *.
    assert (N : 1 <= n) by (apply pow_R1_Rle; lra).
    assert (T : 0 <= t) by (apply total_nonneg, in_map_forall; intros; apply Rabs_pos).
    assert (A : Rabs (d - w) <= Rabs d + Rabs w). { unfold Rminus. rewrite <- (Rabs_Ropp w). apply Rabs_triang. }
    assert (B : Rabs d' <= Rabs (d' - (d - w)) + Rabs (d - w)). { replace d' with ((d' - (d - w)) + (d - w)) at 1 by ring. apply Rabs_triang. }
    assert (C : Rabs (f - (d - (w + total ws))) <= Rabs (f - (d' - total ws)) + Rabs (d' - (d - w))).
    { replace (f - (d - (w + total ws))) with ((f - (d' - total ws)) + (d' - (d - w))) by ring. apply Rabs_triang. }
    pose proof (Rabs_pos d) as Pd. pose proof (Rabs_pos w) as Pw.
    set (a := Rabs d + Rabs w) in *.
    assert (E2 : Rabs (d' - (d - w)) <= u * a) by nra.
    assert (D2 : Rabs d' <= (1 + u) * a) by lra.
    assert (I2 : (n - 1) * (Rabs d' + t) <= (n - 1) * ((1 + u) * a + t)) by (apply Rmult_le_compat_l; lra).
    replace (Rabs d + (Rabs w + t)) with (a + t) by (unfold a; ring).
    replace (((1 + u) * n - 1) * (a + t)) with (u * a + (n - 1) * ((1 + u) * a + t) + u * n * t) by ring.
    assert (0 <= u * n * t) by (apply Rmult_le_pos; [apply Rmult_le_pos; lra|exact T]). lra.
Qed.
Theorem C193_track_partial : forall u rnd ws, relative u rnd ->
  Rabs (ftrack rnd ws - - total ws) <= ((1 + u) ^ length ws - 1) * total (map Rabs ws).
Proof.
  intros u rnd ws Rel. pose proof (track_from u rnd Rel ws 0) as H. rewrite Rabs_R0, Rplus_0_l in H.
  replace (- total ws) with (0 - total ws) by ring. exact H.
Qed.
(** Single precision, as positions of gsd files have: once a molecule has moved by 5/4, steps of
    2^-25 are lost, however many there are. *)
Definition far32 : spec_float := S754_finite false 10485760 (-23).
Definition step32 : spec_float := S754_finite true 8388608 (-48).
Theorem C193_track_refuted : exists d w, value d = 5 / 4 /\ value w = - / 33554432 /\ forall n, track32 d (repeat w n) = d.
Proof.
  exists far32, step32. split; [|split].
  - unfold far32. rewrite value_neg. change (2 ^ 23)%Z with 8388608%Z. lra.
  - unfold step32. rewrite value_neg. change (2 ^ 48)%Z with 281474976710656%Z. lra.
  - assert (E : sub32 far32 step32 = far32) by (vm_compute; reflexivity).
    induction n as [|n IH]; [reflexivity|]. unfold track32 in *. cbn [repeat fold_left]. rewrite E. exact IH.
Qed.
Print Assumptions C193_track_partial. Print Assumptions C193_track_refuted.

(** * C194: the number of molecules called mobile *)
Theorem C194_tenth : forall rnd n, rounding 53 rnd -> (Z.of_nat n <= 2 ^ 52)%Z -> fnum rnd n = Z.of_nat (n / 10).
Proof.
  intros rnd n Rd Hn. unfold fnum. apply Int_part_is. rewrite <- INR_IZR_INZ.
  pose proof (Nat.div_mod n 10 ltac:(lia)) as E. pose proof (Nat.mod_upper_bound n 10 ltac:(lia)) as M.
  set (k := (n / 10)%nat) in *. set (r := (n mod 10)%nat) in *.
  assert (En : INR n = 10 * INR k + INR r). { rewrite E, plus_INR, mult_INR, (INR_IZR_INZ 10). reflexivity. }
  assert (Hr : 0 <= INR r <= 9). { split; [apply pos_INR|]. replace 9 with (INR 9) by (rewrite INR_IZR_INZ; reflexivity). apply le_INR. lia. }
  assert (Hb : INR n <= 4503599627370496). { rewrite INR_IZR_INZ. apply IZR_le. exact Hn. }
  pose proof (pos_INR k) as Pk. pose proof Rd as (Mo & Ke).
  set (x := INR n * (3602879701896397 / 36028797018963968)) in *.
  assert (X1 : INR k <= x) by (unfold x; lra).
  assert (X2 : x <= INR k + 15 / 16) by (unfold x; lra).
  assert (K1 : rnd (INR k) = INR k). { rewrite INR_IZR_INZ. apply (keep_int 53); auto. lia. }
  assert (K2 : rnd (INR k + 15 / 16) = INR k + 15 / 16).
  { specialize (Ke (16 * Z.of_nat k + 15)%Z (-4)%Z). rewrite two_neg, plus_IZR, mult_IZR, <- INR_IZR_INZ in Ke.
    change (2 ^ 4)%Z with 16%Z in Ke. replace ((16 * INR k + 15) * / 16) with (INR k + 15 / 16) in Ke by field. apply Ke; lia. }
  apply Mo in X1, X2. rewrite K1 in X1. rewrite K2 in X2. lra.
Qed.
Print Assumptions C194_tenth.
Example C194_ex : rounding 53 grid /\ (Z.of_nat 2537 <= 2 ^ 52)%Z /\ (2537 / 10 = 253)%nat.
Proof. split; [apply C190_grid|]. split; [lia|reflexivity]. Qed.

(** * Examples for C192 and C193: exact arithmetic, and one with errors *)
Lemma exact_rounding : rounding 53 (fun x => x).
Proof. split; auto. Qed.
Example C192_ex : rounding 53 (fun x => x) /\ relative 0 (fun x => x) /\ exists a, falpha (fun x => x) 2 [mk3 1 0 0; mk3 0 2 0] a.
Proof.
  split; [apply exact_rounding|]. split.
  - split; [lra|]. intros x. rewrite Rminus_diag_eq, Rabs_R0 by reflexivity. lra.
  - assert (A : fsquare (fun x => x) (mk3 1 0 0) (1 * 1 + (0 * 0 + 0 * 0))).
    { apply (fsum_add (fun x => x) _ [1 * 1] [0 * 0; 0 * 0]); [apply Permutation_refl|constructor|].
      apply (fsum_add (fun x => x) _ [0 * 0] [0 * 0]); [apply Permutation_refl|constructor|constructor]. }
    assert (B : fsquare (fun x => x) (mk3 0 2 0) (0 * 0 + (2 * 2 + 0 * 0))).
    { apply (fsum_add (fun x => x) _ [0 * 0] [2 * 2; 0 * 0]); [apply Permutation_refl|constructor|].
      apply (fsum_add (fun x => x) _ [2 * 2] [0 * 0]); [apply Permutation_refl|constructor|constructor]. }
    set (a := 1 * 1 + (0 * 0 + 0 * 0)) in *. set (b := 0 * 0 + (2 * 2 + 0 * 0)) in *.
    eexists. exists ((a + b) / 2), ((a * a + b * b) / 2). split; [|split; [|split; [|reflexivity]]].
    + exists [a; b]. split; [auto|]. exists (a + b). split; [|reflexivity]. apply (fsum_add (fun x => x) _ [a] [b]); [apply Permutation_refl|constructor|constructor].
    + exists [a; b]. split; [auto|]. exists (a * a + b * b). split; [|reflexivity].
      apply (fsum_add (fun x => x) _ [a * a] [b * b]); [apply Permutation_refl|constructor|constructor].
    + unfold a, b. lra.
Qed.
Example C193_ex : ftrack shrink [1; -3] = ((0 - 1) * (1 - / 9007199254740992) - -3) * (1 - / 9007199254740992).
Proof. reflexivity. Qed.
