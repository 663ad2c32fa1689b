(** C168, C169: where the fit starts, and how accurate the time of relaxation is. *)
From Coq Require Import Reals ZArith List Bool Arith Lia Lra.
From Verif Require Import Base RelaxFitModel RelaxFitSpec RelaxFitProofs RelaxExpProofs RelaxFitProps NewtonModel NewtonSpec.
Import ListNotations.
Open Scope R_scope.

(** * C168 *)
(** The running minimum *)
Lemma closest_spec target l : forall bt bd, exists t d, closest target bt bd l = t /\
  ((t = bt /\ d = bd) \/ exists i v, nth_error l i = Some (t, v) /\ d = Rabs (v - target) /\ d < bd /\
      forall j s u, (j < i)%nat -> nth_error l j = Some (s, u) -> d < Rabs (u - target)) /\
  d <= bd /\ forall j s u, nth_error l j = Some (s, u) -> d <= Rabs (u - target).
Proof.
  induction l as [|[t v] l IH]; intros bt bd.
  - exists bt, bd. split; [reflexivity|]. split; [left; auto|]. split; [lra|]. intros [|j] s u H; discriminate.
  - cbn [closest]. destruct (Rltb (Rabs (v - target)) bd) eqn:E.
    + apply Rltb_true in E. destruct (IH t (Rabs (v - target))) as (t' & d & C & W & LE & A). exists t', d. split; auto.
      split; [right|split; [lra|]].
      * destruct W as [(-> & ->)|(i & u & Hi & -> & LT & B)].
        { exists 0%nat, v. split; [reflexivity|]. split; auto. split; auto. intros j s u' J. lia. }
        exists (S i), u. split; auto. split; auto. split; [lra|].
        intros [|j] s w J H; [injection H as -> ->; lra|apply (B j s w); [lia|exact H]].
      * intros [|j] s w H; [injection H as -> ->; exact LE|eapply A; eauto].
    + apply Rltb_false in E. destruct (IH bt bd) as (t' & d & C & W & LE & A). exists t', d. split; auto.
      split; [|split; [lra|]].
      * destruct W as [(-> & ->)|(i & u & Hi & -> & LT & B)]; [left; auto|right].
        exists (S i), u. split; auto. split; auto. split; auto.
        intros [|j] s w J H; [injection H as -> ->; lra|apply (B j s w); [lia|exact H]].
      * intros [|j] s w H; [injection H as -> ->; lra|eapply A; eauto].
Qed.
(** Positions among the finite samples and among all *)
Lemma select_nth time : forall value k t v, length time = length value ->
  nth_error (select finite time value) k = Some (t, v) ->
  exists i, nth_error time i = Some t /\ nth_error value i = Some (FR v) /\
    forall j u, (j < i)%nat -> nth_error value j = Some (FR u) ->
      exists m s, (m < k)%nat /\ nth_error (select finite time value) m = Some (s, u).
Proof.
  induction time as [|t0 time IH]; intros [|v0 value] k t v L H; try discriminate; [destruct k; discriminate|].
  injection L as L. destruct (finite v0) eqn:F.
  - destruct v0; try discriminate. cbn [select finite] in *. destruct k as [|k].
    + injection H as -> ->. exists 0%nat. split; auto. split; auto. intros j u J. lia.
    + destruct (IH value k t v L H) as (i & T & V & B). exists (S i). split; auto. split; auto.
      intros [|j] u J Q; [injection Q as ->; exists 0%nat, t0; split; [lia|reflexivity]|].
      destruct (B j u) as (m & s & M & N); [lia|exact Q|]. exists (S m), s. split; [lia|exact N].
  - assert (S0 : select finite (t0 :: time) (v0 :: value) = select finite time value) by (destruct v0; try discriminate; reflexivity).
    rewrite S0 in *. destruct (IH value k t v L H) as (i & T & V & B). exists (S i). split; auto. split; auto.
    intros [|j] u J Q; [injection Q as ->; discriminate|]. apply (B j u); [lia|exact Q].
Qed.
Lemma select_all time : forall value j u, length time = length value -> nth_error value j = Some (FR u) ->
  exists m s, nth_error (select finite time value) m = Some (s, u).
Proof.
  induction time as [|t0 time IH]; intros [|v0 value] j u L H; try discriminate; [destruct j; discriminate|].
  injection L as L. destruct j as [|j].
  - injection H as ->. exists 0%nat, t0. reflexivity.
  - destruct (IH value j u L H) as (m & s & N). destruct v0; cbn [select finite]; eauto. exists (S m), s. exact N.
Qed.
Lemma closest_first time value t0 v0 rest : length time = length value ->
  select finite time value = (t0, v0) :: rest ->
  first_closest time value (closest exp_value t0 (Rabs (v0 - exp_value)) rest).
Proof.
  intros L D. destruct (closest_spec exp_value rest t0 (Rabs (v0 - exp_value))) as (t & d & -> & W & LE & A).
  assert (X : exists k v, nth_error (select finite time value) k = Some (t, v) /\ d = Rabs (v - exp_value) /\
    forall m s u, (m < k)%nat -> nth_error (select finite time value) m = Some (s, u) -> d < Rabs (u - exp_value)).
  { rewrite D. destruct W as [(-> & ->)|(i & v & Hi & -> & LT & B)].
    - exists 0%nat, v0. split; auto. split; auto. intros m s u M. lia.
    - exists (S i), v. split; auto. split; auto. intros [|m] s u M H; [injection H as <- <-; exact LT|apply (B m s u); [lia|exact H]]. }
  destruct X as (k & v & K & -> & B). destruct (select_nth time value k t v L K) as (i & T & V & P).
  exists i, v. split; auto. split; auto. fold exp_value. split.
  - intros j u J. destruct (select_all time value j u L J) as (m & s & M). rewrite D in M.
    destruct m as [|m]; [injection M as <- <-; exact LE|eapply A; eauto].
  - intros j u J Q. destruct (P j u J Q) as (m & s & M & N). eapply B; eauto.
Qed.
Lemma first_closest_unique time value t t' : first_closest time value t -> first_closest time value t' -> t = t'.
Proof.
  intros (i & v & T & V & A & B) (i' & v' & T' & V' & A' & B').
  destruct (lt_eq_lt_dec i i') as [[H|H]|H].
  - specialize (B' i v H V). specialize (A i' v' V'). lra.
  - subst. congruence.
  - specialize (B i' v' H V'). specialize (A' i v V). lra.
Qed.
Lemma points_near time value w pts :
  points number (fun r => / exp 1 - w / 2 < r < / exp 1 + w / 2) time value pts ->
  pts = select (nearb w) time value.
Proof.
  intros P. induction P as [|t v r time value pts E I P IH|t v time value pts N P IH]; auto.
  - destruct v; try discriminate. injection E as ->. cbn [select].
    assert (nearb w (FR r) = true) as -> by (apply nearb_iff; exists r; auto). rewrite <- IH. reflexivity.
  - destruct v; cbn [select]; auto.
    destruct (nearb w (FR r)) eqn:E; auto. apply nearb_iff in E. destruct E as (q & Q & I). injection Q as ->.
    exfalso. apply (N q); auto.
Qed.
Theorem C168_start : forall cf cf' newton newton' time value sigma width t pts,
  length time = length value -> first_closest time value t ->
  points number (fun r => / exp 1 - width / 2 < r < / exp 1 + width / 2) time value pts ->
  (t <> 0 -> forall s, cf pts (1, 1 / t) s = cf' pts (1, 1 / t) s) ->
  (t = 0 -> forall s, cf pts (1, 0) s = cf' pts (1, 0) s) ->
  (forall f f', newton f f' t = newton' f f' t) ->
  exponential_relaxation cf newton time value sigma width =
  exponential_relaxation cf' newton' time value sigma width.
Proof.
  intros cf cf' newton newton' time value sigma w t pts L FC P C1 C0 N.
  unfold exponential_relaxation. rewrite L, Nat.eqb_refl. cbn [negb].
  change (fun p : R * R => Rltb (exp_value - w / 2) (snd p) && Rltb (snd p) (exp_value + w / 2)) with (in_region w).
  cbv zeta. rewrite fit_select, <- (points_near _ _ _ _ P). destruct (length pts <=? 3)%nat; auto.
  destruct (select finite time value) as [|[t0 v0] rest] eqn:D; auto.
  rewrite <- (first_closest_unique _ _ _ _ FC (closest_first time value t0 v0 rest L D)).
  assert (CC : forall s, cf pts (1, if Req_EM_T t 0 then 0 else 1 / t) s = cf' pts (1, if Req_EM_T t 0 then 0 else 1 / t) s).
  { intros s. destruct (Req_EM_T t 0); auto. }
  destruct sigma as [s|].
  - destruct (length s =? _)%nat; auto. rewrite CC. destruct (cf' _ _ _) as [[[a b] [va vb]]|e]; auto.
    rewrite !N. reflexivity.
  - rewrite CC. destruct (cf' _ _ _) as [[[a b] [va vb]]|e]; auto. rewrite !N. reflexivity.
Qed.
Print Assumptions C168_start.
(** There is such a time unless all samples are non-finite. *)
Theorem C168_exists : forall time value, length time = length value ->
  (exists i r, nth_error value i = Some (FR r)) -> exists t, first_closest time value t.
Proof.
  intros time value L (i & r & H). destruct (select_all time value i r L H) as (m & s & M).
  destruct (select finite time value) as [|[t0 v0] rest] eqn:D; [destruct m; discriminate|].
  eexists. eapply closest_first; eauto.
Qed.
Print Assumptions C168_exists.
Example C168_ex : first_closest [0; 1; 2] [FR 1; FNaN; FR (1 / 2)] 2 /\
  points number (fun r => / exp 1 - 1 / 2 < r < / exp 1 + 1 / 2) [0; 1; 2] [FR 1; FNaN; FR (1 / 2)] [(2, 1 / 2)].
Proof.
  pose proof inv_e_bounds. split.
  - exists 2%nat, (1 / 2). split; auto. split; auto. rewrite (Rabs_right (1 / 2 - / exp 1)) by lra. split.
    + intros [|[|[|j]]] u E; cbn in E; try (destruct j; discriminate); try discriminate; injection E as <-;
        rewrite Rabs_right by lra; lra.
    + intros [|[|j]] u J E; cbn in E; try lia; try discriminate. injection E as <-. rewrite Rabs_right by lra. lra.
  - apply pt_skip; [|apply pt_skip; [|apply pt_keep; [reflexivity|lra|constructor]]].
    + intros r E. injection E as <-. lra.
    + intros r E. discriminate.
Qed.

(** * C169 *)
Lemma exp_inv x : exp (- x) * exp x = 1.
Proof. rewrite <- exp_plus, Rplus_opp_l. apply exp_0. Qed.
Lemma exp_neg_above x : 0 <= x -> exp (- x) * (1 + x) <= 1.
Proof. intros H. pose proof (exp_ineq1_le x). pose proof (exp_inv x). pose proof (exp_pos (- x)). nra. Qed.

Section Steps.
  Variable close : R -> bool.
  Variable flat : R -> R + exn.
  Variables a b : R.
  Hypothesis (Ha : 0 < a) (Hb : 0 < b) (C : small_step close).
  Let f := fun x => exponential_decay x a b (- exp_value).
  Let f' := fun x => ddx_exponential_decay x a b (- exp_value).
  Let root := (1 + ln a) / b.
  (** The point at distance [d] from the root, in units of 1/b *)
  Let at_ (d : R) := root + d / b.
  Lemma value_at d : a * exp (- b * at_ d) = exp (- d) * exp_value.
  Proof.
    unfold at_, root, exp_value. replace (- b * ((1 + ln a) / b + d / b)) with (- d + (Ropp 1 + - ln a)) by (field; lra).
    rewrite !exp_plus, !exp_Ropp, exp_ln by auto. pose proof (exp_pos 1). pose proof (exp_pos d). field. lra.
  Qed.
  Lemma slope_at d : f' (at_ d) = - b * (exp (- d) * exp_value).
  Proof. unfold f', ddx_exponential_decay. rewrite Rmult_assoc, value_at. reflexivity. Qed.
  Lemma slope_neq d : f' (at_ d) <> 0.
  Proof.
    rewrite slope_at. pose proof (exp_pos (- d)). assert (0 < exp_value) by (apply Rinv_0_lt_compat, exp_pos).
    assert (0 < exp (- d) * exp_value) by (apply Rmult_lt_0_compat; auto). nra.
  Qed.
  Lemma step_at d : at_ d - f (at_ d) / f' (at_ d) = at_ (d + 1 - exp d).
  Proof.
    rewrite slope_at. unfold f, exponential_decay. rewrite value_at. unfold at_. rewrite exp_Ropp.
    assert (0 < exp_value) by (apply Rinv_0_lt_compat, exp_pos). pose proof (exp_pos d). field. lra.
  Qed.
  Lemma loop_at n d : newton_loop close flat (S n) f f' (at_ d) =
    if close (Rabs (1 - exp d) / b) then inl (at_ (d + 1 - exp d)) else newton_loop close flat n f f' (at_ (d + 1 - exp d)).
  Proof.
    cbn [newton_loop]. destruct (Req_EM_T (f' (at_ d)) 0) as [E|_]; [destruct (slope_neq d E)|]. cbv zeta. rewrite step_at.
    replace (at_ (d + 1 - exp d) - at_ d) with ((1 - exp d) / b) by (unfold at_; field; lra).
    unfold Rdiv at 1. rewrite Rabs_mult, (Rabs_right (/ b)) by (apply Rle_ge, Rlt_le, Rinv_0_lt_compat; auto). reflexivity.
  Qed.
  (** Every step ends at or before the root. *)
  Lemma loop_below n : forall d x, newton_loop close flat n f f' (at_ d) = inl x -> x <= root.
  Proof.
    induction n as [|n IH]; intros d x; [discriminate|]. rewrite loop_at. destruct (close _); [|apply IH].
    intros E. injection E as <-. unfold at_. pose proof (exp_ineq1_le d).
    assert ((d + 1 - exp d) / b <= 0) by (apply Rmult_le_0_r_compat || (apply Rmult_le_reg_r with b; auto; unfold Rdiv; rewrite Rmult_assoc, Rinv_l, Rmult_0_l by lra; lra)).
    lra.
  Qed.
  Lemma newton_below x0 x : scipy_newton close flat f f' x0 = inl x -> x <= root.
  Proof.
    unfold scipy_newton. replace x0 with (at_ (b * (x0 - root))) by (unfold at_; field; lra). apply loop_below.
  Qed.
  (** A step that is accepted, from not too far left, ends within the tolerance. *)
  Lemma accepted d : -1 <= d -> close (Rabs (1 - exp d) / b) = true -> root - tolerance <= at_ (d + 1 - exp d) <= root.
  Proof.
    intros D A. apply C in A. pose proof (exp_ineq1_le d) as E. unfold at_.
    assert (Q : exp d - 1 - d <= Rabs (1 - exp d)).
    { destruct (Rle_lt_dec 0 d) as [P|P].
      - rewrite Rabs_left1 by lra. lra.
      - pose proof (exp_neg_above (- d)) as G. rewrite Ropp_involutive in G. assert (G' : exp d * (1 + - d) <= 1) by (apply G; lra).
        pose proof (exp_pos d). assert (exp d <= 1) by nra. rewrite Rabs_right by lra.
        (* 2 e^d - 2 - d <= 0 *) assert (exp d * (1 - d) <= 1) by lra. nra. }
    assert (T : Rabs (1 - exp d) <= tolerance * b).
    { apply Rmult_le_reg_r with (/ b); [apply Rinv_0_lt_compat; auto|]. rewrite Rmult_assoc, Rinv_r, Rmult_1_r by lra. exact A. }
    assert (U : - tolerance <= (d + 1 - exp d) / b <= 0); [|lra].
    split; apply Rmult_le_reg_r with b; auto; unfold Rdiv; rewrite Rmult_assoc, Rinv_l, Rmult_1_r by lra; lra.
  Qed.
  Lemma loop_converges m : forall k n d, d <= 0 -> - d <= (/ 2) ^ (2 ^ k) ->
    (/ 2) ^ (2 ^ (k + m)) < tolerance * b -> (m < n)%nat ->
    exists x, newton_loop close flat n f f' (at_ d) = inl x /\ root - tolerance <= x <= root.
  Proof.
    induction m as [|m IH]; intros k n d D K T N; (destruct n as [|n]; [lia|]); rewrite loop_at;
      assert (H1 : (/ 2) ^ (2 ^ k) <= / 2) by
        (replace (2 ^ k)%nat with (S (2 ^ k - 1)) by (pose proof (Nat.pow_nonzero 2 k); lia); cbn [pow];
         assert ((/ 2) ^ (2 ^ k - 1) <= 1) by (apply Rle_trans with (1 ^ (2 ^ k - 1)); [apply pow_incr; lra|rewrite pow1; lra]); lra);
      pose proof (exp_ineq1_le d) as E; pose proof (exp_neg_above (- d)) as G; rewrite Ropp_involutive in G; specialize (G ltac:(lra));
      pose proof (exp_pos d) as EP; assert (E1 : exp d <= 1) by nra.
    - assert (close (Rabs (1 - exp d) / b) = true) as A.
      { apply C. rewrite Nat.add_0_r in T. rewrite Rabs_right by lra. apply Rmult_lt_reg_r with b; auto.
        unfold Rdiv. rewrite Rmult_assoc, Rinv_l, Rmult_1_r by lra. lra. }
      rewrite A. eexists. split; [reflexivity|]. apply accepted; auto. lra.
    - destruct (close (Rabs (1 - exp d) / b)) eqn:A; [eexists; split; [reflexivity|]; apply accepted; auto; lra|].
      apply (IH (S k)); [lra| |replace (S k + m)%nat with (k + S m)%nat by lia; exact T|lia].
      replace ((/ 2) ^ (2 ^ S k)) with ((/ 2) ^ (2 ^ k) * (/ 2) ^ (2 ^ k)).
      2:{ rewrite <- pow_add. f_equal. cbn. lia. }
      assert (exp d - 1 - d <= d * d) by nra. nra.
  Qed.
End Steps.

Lemma tiny : (/ 2) ^ (2 ^ (0 + 11)) < / 10 ^ 304.
Proof.
  replace (2 ^ (0 + 11))%nat with (4 * 304 + 832)%nat by reflexivity. rewrite pow_add, pow_mult, <- (pow_inv 10 304).
  replace ((/ 2) ^ 4) with (/ 16) by field.
  assert (A : (/ 16) ^ 304 <= (/ 10) ^ 304) by (apply pow_incr; split; [lra|apply Rinv_le_contravar; lra]).
  assert (B : 0 <= (/ 2) ^ 832 < 1) by (apply pow_lt_1_compat; [lra|lia]).
  assert (P : 0 < (/ 16) ^ 304) by (apply pow_lt; lra).
  revert A B P. generalize ((/ 16) ^ 304) ((/ 10) ^ 304) ((/ 2) ^ 832). intros. nra.
Qed.
Lemma newton_near close flat a b x0 : 0 < a -> / 10 ^ 300 <= b -> small_step close ->
  Rabs (a * exp (- b * x0) - / exp 1) < 3 / 20 ->
  exists x, scipy_newton close flat (fun x => exponential_decay x a b (- exp_value))
              (fun x => ddx_exponential_decay x a b (- exp_value)) x0 = inl x /\
    (1 + ln a) / b - tolerance <= x <= (1 + ln a) / b.
Proof.
  intros A B C V.
  assert (B0 : 0 < b) by (apply Rlt_le_trans with (2 := B), Rinv_0_lt_compat, pow_lt; lra).
  set (root := (1 + ln a) / b). set (d := b * (x0 - root)).
  assert (EX : x0 = root + d / b) by (unfold d; field; lra).
  pose proof (value_at a b A B0 d) as VA. pose proof (loop_at close flat a b A B0 19 d) as LA.
  pose proof (accepted close a b B0 C d) as AC. pose proof (loop_converges close flat a b A B0 C 11 0 19 (d + 1 - exp d)) as LC.
  fold root in VA, LA, AC, LC. clearbody d. clearbody root. subst x0.
  rewrite VA in V. unfold scipy_newton. rewrite LA. clear VA LA.
  pose proof (exp_inv d) as YZ. set (y := exp (- d)) in *. set (z := exp d) in *.
  assert (Y : 55 / 100 < y < 145 / 100).
  { pose proof inv_e_bounds as IB. unfold exp_value in V. apply Rabs_def2 in V. split; nra. }
  pose proof (exp_ineq1_le (- d)) as D1. fold y in D1. pose proof (exp_ineq1_le d) as D2. fold z in D2.
  assert (DD : -1 <= d) by lra.
  destruct (close (Rabs (1 - z) / b)) eqn:E.
  - eexists. split; [reflexivity|]. apply AC; auto.
  - apply LC; [lra| | |lia].
    + cbn [Nat.pow]. rewrite pow_1. assert (z + y <= 5 / 2); [|lra]. apply Rmult_le_reg_r with y; [lra|]. nra.
    + apply Rlt_le_trans with (1 := tiny). unfold tolerance.
      replace (10 ^ 304) with (10 ^ 4 * 10 ^ 300) by (rewrite <- pow_add; reflexivity).
      rewrite Rinv_mult. apply Rmult_le_compat_l; auto. apply Rlt_le, Rinv_0_lt_compat, pow_lt. lra.
Qed.
Lemma exp_after_closest cf newton time value w :
  length time = length value -> at_least 4 (near w) value ->
  exists zero_est p0, first_closest time value zero_est /\
    exponential_relaxation cf newton time value None w =
    match cf (select (nearb w) time value) p0 None with
    | inr RuntimeError | inr FloatingPointError => inl nan_fres
    | inr e => inr e
    | inl (a, b, (va, vb)) => after_fit newton zero_est a b va vb
    end.
Proof.
  intros L N. apply (at_least_filter 4 _ (nearb w)) in N; [|apply nearb_iff].
  unfold exponential_relaxation. rewrite L, Nat.eqb_refl. cbn [negb].
  change (fun p : R * R => Rltb (exp_value - w / 2) (snd p) && Rltb (snd p) (exp_value + w / 2)) with (in_region w).
  cbv zeta. rewrite (near_length w time value L).
  destruct (Nat.leb_spec (length (filter (nearb w) value)) 3) as [H|_]; [lia|]. rewrite fit_select.
  destruct (select finite time value) as [|[t0 v0] rest] eqn:D.
  - exfalso. pose proof (near_length w time value L) as X. rewrite D in X. simpl in X. lia.
  - exists (closest exp_value t0 (Rabs (v0 - exp_value)) rest). eexists. split; [apply closest_first; auto|reflexivity].
Qed.

Theorem C169_accurate : forall curve_fit close flat time value width a b,
  fits_decays curve_fit -> small_step close -> length time = length value -> width <= 3 / 10 ->
  (forall i t r, nth_error time i = Some t -> nth_error value i = Some (FR r) -> r = a * exp (- b * t)) ->
  / 10 ^ 300 <= b -> / exp 1 < a ->
  at_least 4 (fun v => exists r, v = FR r /\ / exp 1 - width / 2 < r < / exp 1 + width / 2) value ->
  (exists i j t u r s, nth_error time i = Some t /\ nth_error time j = Some u /\ t <> u
     /\ nth_error value i = Some (FR r) /\ / exp 1 - width / 2 < r < / exp 1 + width / 2
     /\ nth_error value j = Some (FR s) /\ / exp 1 - width / 2 < s < / exp 1 + width / 2) ->
  exists T crossing, a * exp (- b * crossing) = / exp 1 /\ crossing - / 10 ^ 4 <= T <= crossing /\
    exponential_relaxation curve_fit (scipy_newton close flat) time value None width =
      if Rlt_dec 0 T then inl (FR T, FR 0) else inl (FNaN, FNaN).
Proof.
  intros cf close flat time value w a b FD C L W D B A N (i & j & t & u & r & s & Ht & Hu & TU & Hr & Wr & Hs & Ws).
  assert (B0 : 0 < b) by (apply Rlt_le_trans with (2 := B), Rinv_0_lt_compat, pow_lt; lra).
  assert (A0 : 0 < a) by (pose proof (Rinv_0_lt_compat _ (exp_pos 1)); lra).
  destruct (exp_after_closest cf (scipy_newton close flat) time value w L N) as (x0 & p0 & FC & ->).
  set (pts := select (nearb w) time value).
  assert (P : forall t v, In (t, v) pts -> v = a * exp (- b * t)).
  { intros q v H. apply select_In in H. destruct H as (k & H1 & H2 & _). eauto. }
  assert (TT : two_times pts).
  { exists t, r, u, s. split; [|split; auto]; apply select_In; eexists; (split; [eassumption|]);
      (split; [eassumption|]); apply nearb_iff; eexists; (split; [reflexivity|assumption]). }
  assert (LP : (3 <= length pts)%nat).
  { unfold pts. rewrite <- fit_select, near_length by auto.
    apply (at_least_filter 4 _ (nearb w)) in N; [lia|apply nearb_iff]. }
  destruct (FD pts p0 a b LP TT A0 P) as (a' & b' & E & Z). rewrite E.
  assert (a' = a /\ b' = b) as [-> ->].
  { destruct TT as (t1 & v1 & t2 & v2 & I1 & I2 & NT). pose proof (ssr_zero _ _ (Req_le _ _ Z)) as Q.
    eapply decay_params; eauto.
    - rewrite <- (Q _ _ I1). apply P; auto.
    - rewrite <- (Q _ _ I2). apply P; auto. }
  assert (V : Rabs (a * exp (- b * x0) - / exp 1) < 3 / 20).
  { destruct FC as (k & v & T1 & V1 & M & _). rewrite <- (D k x0 v T1 V1).
    apply Rle_lt_trans with (1 := M i r Hr). apply Rabs_def1; lra. }
  destruct (newton_near close flat a b x0 A0 B C V) as (x & EX & BX).
  exists x, ((1 + ln a) / b). split; [|split; [exact BX|]].
  - pose proof (proj2 (root_unique a b ((1 + ln a) / b) A0 (Rgt_not_eq _ _ B0)) eq_refl). lra.
  - unfold after_fit. assert (Rltb 0 0 = false) as -> by (apply Rltb_false; lra). cbn [orb]. cbv zeta.
    rewrite sqrt_0, Rmult_0_r, !Rminus_0_r, !Rplus_0_r. rewrite !EX. unfold Rltb.
    destruct (Rlt_dec 0 x); [|reflexivity]. do 3 f_equal. ring.
Qed.
Print Assumptions C169_accurate.

(** For any fitted decay: a time that is reported is never after the crossing. *)
Theorem C169_never_late : forall curve_fit close flat time value sigma width a b va vb m x,
  (forall pts p0 s, curve_fit pts p0 s = inl (a, b, (va, vb))) -> small_step close -> 0 < a -> 0 < b ->
  exponential_relaxation curve_fit (scipy_newton close flat) time value sigma width = inl (FR m, x) ->
  forall crossing, a * exp (- b * crossing) = / exp 1 -> m <= crossing.
Proof.
  intros cf close flat time value sigma w a b va vb m x CF C A B H c X.
  assert (c = (1 + ln a) / b) as -> by (apply root_unique; auto; lra).
  revert H. unfold exponential_relaxation. destruct (negb _); [discriminate|]. cbv zeta.
  destruct (length _ <=? 3)%nat; [unfold nan_fres; discriminate|].
  destruct (select finite time value) as [|[t0 v0] rest]; [unfold nan_fres; discriminate|].
  destruct sigma as [s|]; [destruct (length s =? _)%nat; [|discriminate]|]; rewrite CF;
    (destruct (Rltb va 0 || Rltb vb 0); [unfold nan_fres; discriminate|]);
    match goal with |- context [scipy_newton close flat ?f ?g ?z] => destruct (scipy_newton close flat f g z) as [y|e] eqn:E end;
    try (destruct e; unfold nan_fres; discriminate);
    pose proof (newton_below close flat a b A B _ _ E) as LE; intros H;
    repeat match type of H with context [match ?X with _ => _ end] => destruct X eqn:?; try discriminate H end;
    injection H as <- <-; exact LE.
Qed.
Print Assumptions C169_never_late.
(** exp(-t) at the times 0.8, 0.9, 1 and 1.1 *)
Definition ex_time : list R := [8 / 10; 9 / 10; 1; 11 / 10].
Definition ex_value : list fl := map (fun t => FR (1 * exp (- 1 * t))) ex_time.
Lemma ex_near t : 8 / 10 <= t <= 11 / 10 -> / exp 1 - (3 / 10) / 2 < 1 * exp (- 1 * t) < / exp 1 + (3 / 10) / 2.
Proof.
  intros T. pose proof inv_e_bounds as IB. replace (1 * exp (- 1 * t)) with (exp (1 - t) * / exp 1).
  2:{ rewrite <- exp_Ropp, <- exp_plus, Rmult_1_l. f_equal. ring. }
  pose proof (exp_ineq1_le (1 - t)) as E1. pose proof (exp_ineq1_le (- (1 - t))) as E2. pose proof (exp_inv (1 - t)) as E3.
  set (z := exp (1 - t)) in *. set (y := exp (- (1 - t))) in *. assert (z <= 125 / 100) by nra. nra.
Qed.
Lemma ex_at_least : at_least 4 (fun v => exists r, v = FR r /\ / exp 1 - (3 / 10) / 2 < r < / exp 1 + (3 / 10) / 2) ex_value.
Proof.
  exists [0; 1; 2; 3]%nat. split; [repeat constructor; simpl; intuition discriminate|]. split; [reflexivity|].
  intros i [<-|[<-|[<-|[<-|[]]]]]; eexists; (split; [reflexivity|]); eexists; (split; [reflexivity|]); apply ex_near; lra.
Qed.
Definition strictly (s : R) : bool := Rltb s tolerance.
Lemma strictly_ok : small_step strictly.
Proof. split; intros s H; [apply Rltb_true; exact H|apply Rlt_le, Rltb_true; exact H]. Qed.
Lemma big : / 10 ^ 300 <= 1.
Proof. rewrite <- Rinv_1. apply Rinv_le_contravar; [lra|]. apply pow_R1_Rle. lra. Qed.
Example C169_example : exists T, 1 - / 10 ^ 4 <= T <= 1 /\
  exponential_relaxation decay_instance (scipy_newton strictly inl) ex_time ex_value None (3 / 10) = inl (FR T, FR 0).
Proof.
  destruct (C169_accurate decay_instance strictly inl ex_time ex_value (3 / 10) 1 1) as (T & c & Hc & B & E);
    auto using decay_instance_ok, strictly_ok, big, ex_at_least; [lra| | | |].
  - intros [|[|[|[|i]]]] t r H G; cbn in H, G; try (destruct i; discriminate); injection H as <-; injection G as <-; reflexivity.
  - pose proof inv_e_bounds. lra.
  - exists 0%nat, 1%nat, (8 / 10), (9 / 10). do 2 eexists. split; [reflexivity|]. split; [reflexivity|]. split; [lra|].
    split; [reflexivity|]. split; [apply ex_near; lra|]. split; [reflexivity|]. apply ex_near; lra.
  - assert (c = 1).
    { assert (X : c = (1 + ln 1) / 1) by (apply root_unique; lra). rewrite ln_1 in X. lra. }
    subst c. exists T. split; auto. rewrite E. destruct (Rlt_dec 0 T) as [|F]; [reflexivity|].
    exfalso. apply F. lra.
Qed.
Example C169_example_fit : exists m, m <= 1 /\
  exponential_relaxation (fun _ _ _ => inl (1, 1, (0, 0))) (scipy_newton strictly inl) ex_time ex_value None (3 / 10) = inl (FR m, FR 0).
Proof.
  destruct (exp_after_closest (fun _ _ _ => inl (1, 1, (0, 0))) (scipy_newton strictly inl) ex_time ex_value (3 / 10)
              eq_refl ex_at_least) as (x0 & p0 & FC & E).
  assert (V : Rabs (1 * exp (- (1) * x0) - / exp 1) < 3 / 20).
  { destruct FC as (k & v & T1 & V1 & _). assert (Q : v = 1 * exp (- 1 * x0) /\ 8 / 10 <= x0 <= 11 / 10).
    { destruct k as [|[|[|[|k]]]]; cbn in T1, V1; try (destruct k; discriminate); injection T1 as <-; injection V1 as <-;
        (split; [reflexivity|lra]). }
    destruct Q as (_ & T). pose proof (ex_near x0 T) as Q. change (Ropp 1) with (-1). apply Rabs_def1; lra. }
  destruct (newton_near strictly inl 1 1 x0) as (x & EX & B); auto using strictly_ok, big; [lra|].
  rewrite ln_1 in B. exists x. split; [lra|]. rewrite E. unfold after_fit.
  assert (Rltb 0 0 = false) as -> by (apply Rltb_false; lra). cbn [orb]. cbv zeta.
  rewrite sqrt_0, Rmult_0_r, !Rminus_0_r, !Rplus_0_r. rewrite !EX.
  assert (Rltb 0 x = true) as ->. { apply Rltb_true. unfold tolerance in B. lra. }
  do 3 f_equal. ring.
Qed.
