(** C182: the relaxation time of a decay and the unit of time. *)
From Coq Require Import Reals List Bool Lia Lra Arith.
From Verif Require Import Base RelaxFitModel RelaxFitSpec RelaxFitProofs RelaxExpProofs RelaxFitProps NewtonModel NewtonSpec NewtonProps.
Import ListNotations.
Open Scope R_scope.
Notation length := List.length.

(** An exact decay with four values near 1/e at two times, as in C169 *)
Definition decaying (time : list R) (value : list fl) (width a b : R) : Prop :=
  length time = length value /\
  (forall i t r, nth_error time i = Some t -> nth_error value i = Some (FR r) -> r = a * exp (- b * t)) /\
  at_least 4 (fun v => exists r, v = FR r /\ / exp 1 - width / 2 < r < / exp 1 + width / 2) value /\
  (exists i j t u r s, nth_error time i = Some t /\ nth_error time j = Some u /\ t <> u
     /\ nth_error value i = Some (FR r) /\ / exp 1 - width / 2 < r < / exp 1 + width / 2
     /\ nth_error value j = Some (FR s) /\ / exp 1 - width / 2 < s < / exp 1 + width / 2).

Lemma scaled_decay time value width a b s : 0 < s -> decaying time value width a b -> decaying (map (Rmult s) time) value width a (b / s).
Proof.
  intros S (L & D & N & (i & j & t & u & r & q & Ht & Hu & TU & Hr & Wr & Hs & Ws)). split; [rewrite map_length; auto|]. split; [|split; auto].
  - intros k x y X Y. rewrite nth_error_map in X. destruct (nth_error time k) as [t0|] eqn:E; [|discriminate]. injection X as <-.
    rewrite (D k t0 y E Y). do 2 f_equal. field. lra.
  - exists i, j, (s * t), (s * u), r, q. rewrite !nth_error_map, Ht, Hu. cbn. split; auto. split; auto. split; [|auto].
    intros E. apply TU. apply Rmult_eq_reg_l in E; lra.
Qed.

(** In two units of time the times reported, if any, differ by the tolerance of the unit. *)
Theorem C182_unit_partial : forall curve_fit close flat time value width a b s T1 T2,
  fits_decays curve_fit -> small_step close -> width <= 3 / 10 -> decaying time value width a b ->
  / 10 ^ 300 <= b -> / 10 ^ 300 <= b / s -> / exp 1 < a -> 0 < s ->
  exponential_relaxation curve_fit (scipy_newton close flat) time value None width = inl (FR T1, FR 0) ->
  exponential_relaxation curve_fit (scipy_newton close flat) (map (Rmult s) time) value None width = inl (FR T2, FR 0) ->
  - (/ 10 ^ 4) / s <= T2 / s - T1 <= / 10 ^ 4.
Proof.
  intros cf close flat time value w a b s T1 T2 F C W D B B' A S E1 E2.
  assert (P : 0 < / 10 ^ 300) by (apply Rinv_0_lt_compat, pow_lt; lra).
  destruct (scaled_decay _ _ _ _ _ _ S D) as (L' & D' & N' & Q'). destruct D as (L & D & N & Q).
  destruct (C169_accurate cf close flat time value w a b F C L W D B A N Q) as (X1 & c1 & H1 & I1 & R1).
  destruct (C169_accurate cf close flat _ value w a (b / s) F C L' W D' B' A N' Q') as (X2 & c2 & H2 & I2 & R2).
  rewrite R1 in E1. rewrite R2 in E2.
  destruct (Rlt_dec 0 X1); [|discriminate]. destruct (Rlt_dec 0 X2); [|discriminate]. injection E1 as ->. injection E2 as ->.
  assert (A0 : 0 < a) by (pose proof (Rinv_0_lt_compat _ (exp_pos 1)); lra).
  assert (c1 = (1 + ln a) / b) by (apply root_unique; auto; lra).
  assert (c2 = (1 + ln a) / (b / s)) by (apply root_unique; auto; lra).
  assert (c2 / s = c1) as Z by (subst; field; lra).
  assert (Si : 0 < / s) by (apply Rinv_0_lt_compat; auto).
  assert (U1 : (c2 - / 10 ^ 4) * / s <= T2 * / s) by (apply Rmult_le_compat_r; lra).
  assert (U2 : T2 * / s <= c2 * / s) by (apply Rmult_le_compat_r; lra).
  unfold Rdiv in *. rewrite Rmult_minus_distr_r in U1. lra.
Qed.
Print Assumptions C182_unit_partial.

(** exp(-t) at the times 1.2 to 1.26, in units of 1 and of 10^6 *)
Definition u_time : list R := [120 / 100; 122 / 100; 124 / 100; 126 / 100].
Definition u_value : list fl := map (fun t => FR (1 * exp (- 1 * t))) u_time.
Lemma exp_pow2 x : exp (2 * x) = exp x * exp x.
Proof. rewrite <- exp_plus. f_equal. ring. Qed.
Lemma u_near t : 120 / 100 <= t <= 126 / 100 -> / exp 1 - (3 / 10) / 2 < 1 * exp (- 1 * t) < / exp 1 + (3 / 10) / 2.
Proof.
  intros T. pose proof inv_e_bounds as IB. replace (1 * exp (- 1 * t)) with (exp (1 - t) * / exp 1).
  2:{ rewrite <- exp_Ropp, <- exp_plus, Rmult_1_l. f_equal. ring. }
  pose proof (exp_ineq1_le (1 - t)) as E1. pose proof (exp_ineq1_le (- (1 - t))) as E2. pose proof (exp_inv (1 - t)) as E3.
  set (z := exp (1 - t)) in *. set (y := exp (- (1 - t))) in *. assert (0 < z) by apply exp_pos.
  assert (z * (12 / 10) <= z * y) by (apply Rmult_le_compat_l; lra). assert (z < 1) by lra. assert (74 / 100 <= z) by lra.
  set (w := / exp 1) in *. assert (0 <= (1 - z) * w) by (apply Rmult_le_pos; lra).
  assert ((1 - z) * w <= (26 / 100) * w) by (apply Rmult_le_compat_r; lra). lra.
Qed.
Lemma u_decaying : decaying u_time u_value (3 / 10) 1 1.
Proof.
  split; [reflexivity|]. split; [|split].
  - intros [|[|[|[|i]]]] t r H G; cbn in H, G; try (destruct i; discriminate); injection H as <-; injection G as <-; reflexivity.
  - exists [0; 1; 2; 3]%nat. split; [repeat constructor; simpl; intuition discriminate|]. split; [reflexivity|].
    intros i [<-|[<-|[<-|[<-|[]]]]]; eexists; (split; [reflexivity|]); eexists; (split; [reflexivity|]); apply u_near; lra.
  - exists 0%nat, 1%nat, (120 / 100), (122 / 100). do 2 eexists. split; [reflexivity|]. split; [reflexivity|]. split; [lra|].
    split; [reflexivity|]. split; [apply u_near; lra|]. split; [reflexivity|]. apply u_near; lra.
Qed.
Lemma u_closest s x : first_closest (map (Rmult s) u_time) u_value x -> x = s * (120 / 100).
Proof.
  intros (i & v & T & V & M & _).
  assert (DEC : forall t, 120 / 100 < t -> 1 * exp (- 1 * t) < 1 * exp (- 1 * (120 / 100))).
  { intros t L. rewrite !Rmult_1_l. apply exp_increasing. lra. }
  assert (BEL : 1 * exp (- 1 * (120 / 100)) < / exp 1).
  { rewrite Rmult_1_l, <- exp_Ropp. apply exp_increasing. lra. }
  specialize (M 0%nat _ eq_refl).
  destruct i as [|[|[|[|i]]]]; cbn in T, V; try (destruct i; discriminate); injection T as <-; injection V as <-; auto; exfalso;
    match type of M with Rabs (1 * exp (- 1 * ?t) - _) <= _ => specialize (DEC t ltac:(lra)) end;
    rewrite !Rabs_left in M by lra; lra.
Qed.
Lemma one_step close flat n f f' p0 : newton_loop close flat (S n) f f' p0 =
  if Req_EM_T (f' p0) 0 then flat p0 else if close (Rabs (p0 - f p0 / f' p0 - p0)) then inl (p0 - f p0 / f' p0) else newton_loop close flat n f f' (p0 - f p0 / f' p0).
Proof. reflexivity. Qed.
Theorem C182_unit_refuted : exists time value a b s T1 T2 curve_fit close flat,
  fits_decays curve_fit /\ small_step close /\ decaying time value (3 / 10) a b /\ 0 < s /\
  exponential_relaxation curve_fit (scipy_newton close flat) time value None (3 / 10) = inl (FR T1, FR 0) /\
  exponential_relaxation curve_fit (scipy_newton close flat) (map (Rmult s) time) value None (3 / 10) = inl (FR T2, FR 0) /\
  T2 / s <= T1 * (99 / 100).
Proof.
  pose proof inv_e_bounds as IB. set (s := / 10 ^ 6). assert (S : 0 < s) by (unfold s; apply Rinv_0_lt_compat, pow_lt; lra).
  pose proof u_decaying as D. pose proof (scaled_decay _ _ _ _ _ s S D) as D'.
  pose proof D as (L & DD & N & Q). pose proof D' as (L' & DD' & N' & Q').
  destruct (C169_accurate decay_instance strictly inl u_time u_value (3 / 10) 1 1) as (T1 & c & Hc & B & E1);
    auto using decay_instance_ok, strictly_ok, big; try lra.
  assert (c = 1). { assert (X : c = (1 + ln 1) / 1) by (apply root_unique; lra). rewrite ln_1 in X. lra. }
  subst c. destruct (Rlt_dec 0 T1) as [P1|]; [|exfalso; lra].
  exists u_time, u_value, 1, 1, s, T1. destruct (exp_after_closest decay_instance (scipy_newton strictly inl) (map (Rmult s) u_time) u_value (3 / 10) L' N') as (x0 & p0 & FC & E2).
  apply u_closest in FC.
  set (T2 := s * (120 / 100) - (exponential_decay x0 1 (1 / s) (- exp_value)) / (ddx_exponential_decay x0 1 (1 / s) (- exp_value))).
  exists T2, decay_instance, strictly, inl. split; [apply decay_instance_ok|]. split; [apply strictly_ok|]. split; auto. split; auto. split; auto.
  set (pts := select (nearb (3 / 10)) (map (Rmult s) u_time) u_value) in *.
  assert (P : forall t v, In (t, v) pts -> v = 1 * exp (- (1 / s) * t)).
  { intros q v H. apply select_In in H. destruct H as (k & H1 & H2 & _). eauto. }
  assert (TT : two_times pts).
  { destruct Q' as (i & j & t & u & r & q & Ht & Hu & TU & Hr & Wr & Hs & Ws).
    exists t, r, u, q. split; [|split; auto]; apply select_In; eexists; (split; [eassumption|]);
      (split; [eassumption|]); apply nearb_iff; eexists; (split; [reflexivity|assumption]). }
  assert (LP : (3 <= length pts)%nat).
  { unfold pts. rewrite <- fit_select, near_length by auto. apply (at_least_filter 4 _ (nearb (3 / 10))) in N'; [lia|apply nearb_iff]. }
  destruct (decay_instance_ok pts p0 1 (1 / s) LP TT ltac:(lra) P) as (a' & b' & E & Z). rewrite E in E2.
  assert (a' = 1 /\ b' = 1 / s) as [-> ->].
  { destruct TT as (t1 & v1 & t2 & v2 & I1 & I2 & NT). pose proof (ssr_zero _ _ (Req_le _ _ Z)) as Y.
    eapply decay_params; eauto.
    - lra.
    - rewrite <- (Y _ _ I1). apply P; auto.
    - rewrite <- (Y _ _ I2). apply P; auto. }
  (* the first step *)
  assert (EX : exp (2 * (2 * (1 / 20))) = exp (1 / 20) * exp (1 / 20) * (exp (1 / 20) * exp (1 / 20))) by (rewrite !exp_pow2; ring).
  pose proof (exp_ineq1_le (1 / 20)) as G1. pose proof (exp_ineq1_le (- (1 / 20))) as G2. pose proof (exp_inv (1 / 20)) as G3.
  pose proof (exp_pos (1 / 20)) as G4.
  set (z := exp (2 * (2 * (1 / 20)))) in *.
  assert (ZL : 1215 / 1000 <= z <= 13 / 10).
  { assert (G6 : 105 / 100 <= exp (1 / 20) <= 106 / 100) by nra. set (q := exp (1 / 20)) in *.
    assert (G7 : 11025 / 10000 <= q * q <= 11236 / 10000) by nra. rewrite EX. nra. }
  assert (VX : exp (- (1 / s) * x0) * z = / exp 1).
  { unfold z. rewrite <- exp_plus, <- exp_Ropp, FC. f_equal. field. lra. }
  assert (DX : ddx_exponential_decay x0 1 (1 / s) (- exp_value) = - (1 / s) * exp (- (1 / s) * x0)).
  { unfold ddx_exponential_decay. ring. }
  assert (FX : exponential_decay x0 1 (1 / s) (- exp_value) = exp (- (1 / s) * x0) * (1 - z)).
  { unfold exponential_decay, exp_value. rewrite <- VX. ring. }
  pose proof (exp_pos (- (1 / s) * x0)) as PX. set (y := exp (- (1 / s) * x0)) in *.
  assert (QX : exponential_decay x0 1 (1 / s) (- exp_value) / ddx_exponential_decay x0 1 (1 / s) (- exp_value) = s * (z - 1)).
  { rewrite FX, DX. field. split; lra. }
  assert (TX : T2 = s * (2200 / 1000 - z)) by (unfold T2; rewrite QX; field).
  split.
  - rewrite E2. unfold after_fit. assert (Rltb 0 0 = false) as -> by (apply Rltb_false; lra). cbn [orb]. cbv zeta.
    rewrite sqrt_0, Rmult_0_r, !Rminus_0_r, !Rplus_0_r.
    assert (SN : scipy_newton strictly inl (fun x => exponential_decay x 1 (1 / s) (- exp_value)) (fun x => ddx_exponential_decay x 1 (1 / s) (- exp_value)) x0 = inl T2).
    { unfold scipy_newton. rewrite (one_step strictly inl 19). destruct (Req_EM_T _ 0) as [K|_].
      - exfalso. rewrite DX in K. assert (0 < 1 / s * y) by (apply Rmult_lt_0_compat; auto; unfold Rdiv; rewrite Rmult_1_l; apply Rinv_0_lt_compat; auto). lra.
      - rewrite QX. assert (strictly (Rabs (x0 - s * (z - 1) - x0)) = true) as ->.
        { apply Rltb_true. replace (x0 - s * (z - 1) - x0) with (- (s * (z - 1))) by ring. rewrite Rabs_Ropp, Rabs_right by nra.
          assert (s <= / 10 ^ 4 * / 100) by (unfold s; simpl; lra). unfold tolerance. nra. }
        f_equal. rewrite TX, FC. field. }
    rewrite !SN. assert (0 < T2) by (rewrite TX; apply Rmult_lt_0_compat; lra). unfold Rltb. destruct (Rlt_dec 0 T2) as [_|]; [|contradiction].
    do 3 f_equal. ring.
  - rewrite TX. replace (s * (2200 / 1000 - z) / s) with (2200 / 1000 - z) by (field; lra). lra.
Qed.
Print Assumptions C182_unit_refuted.
(** The same decay in units of 1/2 *)
Example C182_ex : exists T1 T2, decaying u_time u_value (3 / 10) 1 1 /\ / 10 ^ 300 <= 1 / 2 /\
  exponential_relaxation decay_instance (scipy_newton strictly inl) u_time u_value None (3 / 10) = inl (FR T1, FR 0) /\
  exponential_relaxation decay_instance (scipy_newton strictly inl) (map (Rmult 2) u_time) u_value None (3 / 10) = inl (FR T2, FR 0).
Proof.
  pose proof inv_e_bounds as IB. pose proof u_decaying as D. pose proof (scaled_decay _ _ _ _ _ 2 ltac:(lra) D) as D'.
  assert (H2 : / 10 ^ 300 <= 1 / 2).
  { replace (1 / 2) with (/ 2) by lra. apply Rinv_le_contravar; [lra|]. replace 300%nat with (S 299) by reflexivity. rewrite <- tech_pow_Rmult.
    pose proof (pow_R1_Rle 10 299 ltac:(lra)). lra. }
  pose proof D as (L & DD & N & Q). pose proof D' as (L' & DD' & N' & Q').
  destruct (C169_accurate decay_instance strictly inl u_time u_value (3 / 10) 1 1) as (T1 & c & Hc & B & E1);
    auto using decay_instance_ok, strictly_ok, big; try lra.
  destruct (C169_accurate decay_instance strictly inl (map (Rmult 2) u_time) u_value (3 / 10) 1 (1 / 2)) as (T2 & c2 & Hc2 & B2 & E2);
    auto using decay_instance_ok, strictly_ok; try lra.
  assert (c = 1). { assert (X : c = (1 + ln 1) / 1) by (apply root_unique; lra). rewrite ln_1 in X. lra. }
  assert (c2 = 2). { assert (X : c2 = (1 + ln 1) / (1 / 2)) by (apply root_unique; lra). rewrite ln_1 in X. lra. }
  subst. exists T1, T2. split; auto. split; auto. rewrite E1, E2. destruct (Rlt_dec 0 T1); [|exfalso; lra]. destruct (Rlt_dec 0 T2); [|exfalso; lra]. auto.
Qed.
