(** C45-C47 and C97-C99: fitted relaxations, and the choice of method. *)
From Coq Require Import String Reals QArith Qreals ZArith List Bool Lra Lia.
From Verif Require Import Base XNum RelaxationModel RelaxationSpec RelaxationProofs RelaxationProps
  RelaxFitModel RelaxFitSpec RelaxFitProofs RelaxExpProofs RelaxFullModel.
Import ListNotations.
Open Scope R_scope.

Definition real (x : fl) : option R := match x with FR r => Some r | _ => None end.
(** The region of the mean squared displacement that is fitted. *)
Definition window (r : R) : Prop := 2 < r < 50.
Definition in_window (x : fl) : Prop := exists r, x = FR r /\ window r.

Lemma points_select time msd pts : points real window time msd pts -> pts = select region time msd.
Proof.
  induction 1 as [|t v r time value pts E P _ IH|t v time value pts N _ IH]; auto.
  - destruct v; try discriminate. injection E as ->. cbn [select].
    assert (region (FR r) = true) as -> by (apply region_iff; eauto). congruence.
  - destruct v; cbn [select]; auto. destruct (region (FR r)) eqn:X; auto.
    apply region_iff in X. destruct X as (q & E & W). injection E as ->. exfalso. apply (N q); auto.
Qed.
Lemma region_in_window x : region x = true <-> in_window x.
Proof. apply region_iff. Qed.

(** C45: the slope is that of the least squares line, and the error its standard deviation
    doubled, both divided by twice the dimension. *)
Theorem C45_least_squares : forall nan_raises curve_fit time msd dims pts,
  fits_lines curve_fit ->
  nan_raises = false \/ (forall i, nth_error msd i <> Some FNaN) ->
  points real window time msd pts -> (3 <= length pts)%nat -> two_times pts ->
  exists m b,
    diffusion_constant nan_raises curve_fit time msd dims
    = inl (FR (m / IZR (2 * dims)),
           FR (2 * sqrt (ssr (fun t => m * t + b) pts / INR (length pts - 2) / sxx pts) / IZR (2 * dims)))
    /\ m = sxy pts / sxx pts /\ b = mean snd pts - m * mean fst pts.
Proof.
  intros nr cf time msd dims pts F C P L T.
  assert (LE : length time = length msd) by (clear -P; induction P; simpl; congruence).
  assert (E := points_select _ _ _ P).
  destruct (F pts L T) as (m & b & H & M).
  exists m, b. split.
  - eapply diffusion_selected; eauto; rewrite <- E; auto. exact H.
  - destruct (least_squares_unique pts m b) as [M1 M2]; auto.
    + destruct pts; [simpl in L; lia|discriminate].
    + split; auto. rewrite M1 at 1. auto.
Qed.
Print Assumptions C45_least_squares.

Theorem C45_slope : forall nan_raises curve_fit time msd dims D b,
  fits_lines curve_fit -> (1 <= dims)%Z ->
  nan_raises = false \/ (forall i, nth_error msd i <> Some FNaN) ->
  length time = length msd -> at_least 3 in_window msd ->
  (forall i t r, nth_error time i = Some t -> nth_error msd i = Some (FR r) -> window r ->
     r = 2 * IZR dims * D * t + b) ->
  (exists i j t u x y, nth_error time i = Some t /\ nth_error time j = Some u /\ t <> u
     /\ nth_error msd i = Some x /\ in_window x /\ nth_error msd j = Some y /\ in_window y) ->
  diffusion_constant nan_raises curve_fit time msd dims = inl (FR D, FR 0).
Proof.
  intros nr cf time msd dims D b F DM C L N H (i & j & t & u & x & y & Ht & Hu & TU & Hx & Wx & Hy & Wy).
  apply (at_least_filter 3 _ region) in N; [|apply region_in_window].
  set (pts := select region time msd).
  assert (LP : (3 <= length pts)%nat).
  { unfold pts. rewrite select_length; auto. intros v V. apply region_iff in V. destruct V as (r & -> & _). reflexivity. }
  assert (T : two_times pts).
  { destruct Wx as (r & -> & Wr), Wy as (s & -> & Ws). exists t, r, u, s.
    repeat apply conj; auto; apply select_In; [exists i|exists j]; repeat apply conj; auto; apply region_iff; eauto. }
  assert (P : forall t v, In (t, v) pts -> v = 2 * IZR dims * D * t + b).
  { intros s v I. apply select_In in I. destruct I as (k & I1 & I2 & I3).
    apply region_iff in I3. destruct I3 as (r & E & W). injection E as ->. eauto. }
  destruct (F pts LP T) as (m & c & E & M).
  assert (Z : ssr (fun t => m * t + c) pts = 0).
  { apply Rle_antisym; [|apply ssr_nonneg].
    rewrite <- (ssr_exact (fun t => 2 * IZR dims * D * t + b) pts P). apply M. }
  assert (IZR dims <> 0) by (apply not_0_IZR; lia).
  assert (MS : m = 2 * IZR dims * D).
  { destruct T as (t1 & v1 & t2 & v2 & I1 & I2 & NT).
    pose proof (ssr_zero _ _ (Req_le _ _ Z)) as Q.
    pose proof (Q _ _ I1) as Q1. pose proof (Q _ _ I2) as Q2. rewrite (P _ _ I1) in Q1. rewrite (P _ _ I2) in Q2.
    assert (E0 : (m - 2 * IZR dims * D) * (t1 - t2) = 0) by lra.
    apply Rmult_integral in E0. destruct E0; lra. }
  rewrite (diffusion_selected nr cf time msd dims m c _ C L LP E), Z, MS, mult_IZR.
  do 3 f_equal.
  - field. auto.
  - unfold Rdiv. rewrite !Rmult_0_l, sqrt_0. ring.
Qed.
Print Assumptions C45_slope.

Theorem C45_few_samples : forall nan_raises curve_fit time msd dims,
  ~ at_least 3 in_window msd ->
  diffusion_constant nan_raises curve_fit time msd dims = inl (FNaN, FNaN).
Proof.
  intros nr cf time msd dims N. rewrite (at_least_filter 3 _ region) in N by apply region_in_window.
  apply diffusion_few. lia.
Qed.
Print Assumptions C45_few_samples.

(** The contract is satisfiable, and a line is recovered from data with outliers outside the
    window. *)
Example C45_contract : fits_lines closed_form.
Proof. exact closed_form_fits. Qed.
Example C45_example :
  diffusion_constant true closed_form [0; 1; 2; 3; 4] [FR 1; FR 5; FR 9; FR 13; FR 1000] 2
  = inl (FR 1, FR 0).
Proof.
  apply C45_slope with (b := 1); auto using closed_form_fits; try lia.
  - right. intros [|[|[|[|[|i]]]]]; simpl; try discriminate. destruct i; discriminate.
  - exists [1; 2; 3]%nat. repeat apply conj; auto.
    + repeat constructor; simpl; intuition discriminate.
    + intros i [<-|[<-|[<-|[]]]]; eexists; (split; [reflexivity|]); eexists; (split; [reflexivity|]); unfold window; lra.
  - intros [|[|[|[|[|i]]]]] t r; simpl; intros H G W; try (destruct i; discriminate);
    injection H as <-; injection G as <-; unfold window in W; lra.
  - exists 1%nat, 2%nat, 1, 2, (FR 5), (FR 9). repeat apply conj; auto; try lra;
    eexists; (split; [reflexivity|]); unfold window; lra.
Qed.

(** C46 *)
Theorem C46_derivatives : forall x a b c,
  derivable_pt_lim (fun z => exponential_decay z a b c) x (ddx_exponential_decay x a b c)
  /\ derivable_pt_lim (fun z => ddx_exponential_decay z a b c) x (d2dx2_exponential_decay x a b c)
  /\ (0 < a -> b <> 0 ->
      (exponential_decay x a b (- / exp 1) = 0 <-> x = (1 + ln a) / b)).
Proof.
  intros x a b c. refine (conj (ddx_correct a b c x) (conj (d2dx2_correct a b c x) _)).
  intros A B. unfold exponential_decay. apply root_unique; auto.
Qed.
Print Assumptions C46_derivatives.
Example C46_example : exponential_decay 3 1 (/ 3) (- / exp 1) = 0.
Proof.
  apply (C46_derivatives 3 1 (/ 3) 0); try lra. rewrite ln_1. field.
Qed.

Example C45_few_example : diffusion_constant false closed_form [0; 1] [FR 5; FPInf] 2 = inl (FNaN, FNaN).
Proof.
  apply C45_few_samples. rewrite (at_least_filter 3 _ region) by apply region_in_window.
  cbn [filter]. destruct (region (FR 5)), (region FPInf); simpl; lia.
Qed.

(** C47: lengths *)
Theorem C47_lengths : forall nan_raises curve_fit time values name,
  (length time <> length values ->
   relaxation_value nan_raises curve_fit time values name = inr RuntimeError)
  /\ (name <> "msd"%string -> name <> "msr"%string ->
      (relaxation_value nan_raises curve_fit time values name = inr RuntimeError
       <-> length time <> length values)
      /\ (length time = length values -> values <> [] ->
          exists r, relaxation_value nan_raises curve_fit time values name = inl r)).
Proof.
  intros nr cf time values name.
  assert (A : length time <> length values -> relaxation_value nr cf time values name = inr RuntimeError).
  { intros N. unfold relaxation_value, compute_relaxation_value.
    rewrite (proj2 (Nat.eqb_neq _ _) N). reflexivity. }
  split; auto. intros N1 N2.
  apply String.eqb_neq in N1. apply String.eqb_neq in N2.
  assert (NT : forall thr d, length time = length values ->
    (values <> [] -> exists r, threshold_relaxation nr time values thr d = inl r)
    /\ threshold_relaxation nr time values thr d <> inr RuntimeError).
  { intros thr d L. unfold threshold_relaxation.
    destruct (nr && existsb (fun v => xnan v || xnan thr) values); [split; [eauto|discriminate]|].
    destruct values as [|v vs]; [split; [congruence|discriminate]|].
    assert (X : exists t p i, argmax_bool (map (fun v => if d then xlt v thr else xgt v thr) (v :: vs)) = inl i
      /\ py_get time (Z.of_nat i) = inl t /\ py_get time (Z.of_nat i - 1) = inl p).
    { change (fun v => if d then xlt v thr else xgt v thr) with (passb d thr).
      pose proof (first_true_spec (map (passb d thr) (v :: vs)) 0) as FT.
      exists (nth (match first_true 0 (map (passb d thr) (v :: vs)) with Some i => i | None => 0%nat end) time 0%Q).
      set (i := match first_true 0 (map (passb d thr) (v :: vs)) with Some i => i | None => 0%nat end).
      assert (I : (i < length time)%nat).
      { unfold i. destruct (first_true 0 (map (passb d thr) (v :: vs))) as [k|].
        - destruct FT as (j & -> & FT & _). apply nth_len in FT. rewrite map_length in FT. simpl in *. lia.
        - rewrite L. simpl. lia. }
      exists (nth (match i with O => length time - 1 | S j => j end) time 0%Q), i.
      refine (conj _ (conj _ _)).
      - reflexivity.
      - apply py_get_some. apply nth_error_nth'. auto.
      - destruct i as [|j].
        + apply py_get_m1. apply nth_error_nth'. lia.
        + replace (Z.of_nat (S j) - 1)%Z with (Z.of_nat j) by lia.
          apply py_get_some. apply nth_error_nth'. lia. }
    destruct X as (t & p & i & -> & X1 & X2). cbn [ebind]. rewrite X1. cbn [ebind]. rewrite X2. cbn [ebind].
    split; [eauto|discriminate]. }
  assert (NM : length time = length values ->
    (exists r, max_time_relaxation time values = inl r)).
  { intros L. destruct (nanargmax values) as [k|e] eqn:K.
    - assert (LK : (k < length values)%nat).
      { destruct (forallb xnan values) eqn:FB.
        - unfold nanargmax in K. destruct (map (fun v => if xnan v then NInf else v) values); [discriminate|].
          rewrite FB in K. discriminate.
        - destruct (nanargmax_spec values) as (k' & K' & (w & W & _)).
          + destruct (existsb (fun v => negb (xnan v)) values) eqn:X.
            * apply existsb_exists in X. destruct X as (v & I & X). apply In_nth_error in I. destruct I as (i & I).
              exists i, v. split; auto. intros ->. discriminate.
            * exfalso. assert (forallb xnan values = true); [|congruence]. apply forallb_forall. intros v I.
              destruct (xnan v) eqn:V; auto. assert (existsb (fun v => negb (xnan v)) values = true); [|congruence].
              apply existsb_exists. exists v. rewrite V. auto.
          + rewrite K in K'. injection K' as ->. apply nth_len in W. rewrite map_length in W. auto. }
      unfold max_time_relaxation. rewrite (proj2 (Nat.eqb_eq _ _) L), K. cbn [negb].
      destruct (nth_lt time k) as (t & Ht); [lia|]. rewrite (py_get_some _ _ _ Ht). cbn [ebind].
      destruct (Z.eqb_spec (Z.of_nat k) (Z.of_nat (length values) - 1)) as [E|E].
      + destruct k as [|j].
        * destruct (nth_lt time (length time - 1)) as (p & Hp); [lia|].
          change (Z.of_nat 0 - 1)%Z with (-1)%Z. rewrite (py_get_m1 _ _ Hp). cbn [ebind]. eauto.
        * destruct (nth_lt time j) as (p & Hp); [lia|].
          replace (Z.of_nat (S j) - 1)%Z with (Z.of_nat j) by lia. rewrite (py_get_some _ _ _ Hp). cbn [ebind]. eauto.
      + destruct (nth_lt time (k + 1)) as (n & Hn); [lia|].
        replace (Z.of_nat k + 1)%Z with (Z.of_nat (k + 1)) by lia. rewrite (py_get_some _ _ _ Hn). cbn [ebind].
        destruct (Z.eqb_spec (Z.of_nat k) 0) as [E0|E0]; [cbn [ebind]; eauto|].
        destruct (nth_lt time (k - 1)) as (p & Hp); [lia|].
        assert (EK : (Z.of_nat k - 1)%Z = Z.of_nat (k - 1)) by (rewrite Nat2Z.inj_sub by lia; reflexivity). rewrite EK. rewrite (py_get_some _ _ _ Hp). cbn [ebind]. eauto.
    - unfold max_time_relaxation. rewrite (proj2 (Nat.eqb_eq _ _) L), K. cbn [negb]. eauto. }
  assert (OK : length time = length values ->
    relaxation_value nr cf time values name <> inr RuntimeError
    /\ (values <> [] -> exists r, relaxation_value nr cf time values name = inl r)).
  { intros L. unfold relaxation_value, compute_relaxation_value.
    rewrite (proj2 (Nat.eqb_eq _ _) L), N1, N2. cbn [negb].
    destruct (String.eqb name "struct_msd"); [|destruct (String.eqb name "alpha" || String.eqb name "gamma")%bool].
    - destruct (NT f016 false L) as [T1 T2]. destruct (threshold_relaxation nr time values f016 false) as [r|e]; cbn [ebind].
      + split; [discriminate|eauto].
      + split; [congruence|]. intros V. destruct (T1 V) as (r & R). discriminate.
    - destruct (NM L) as (r & ->). cbn [ebind]. split; [discriminate|eauto].
    - destruct (NT inv_e true L) as [T1 T2]. destruct (threshold_relaxation nr time values inv_e true) as [r|e]; cbn [ebind].
      + split; [discriminate|eauto].
      + split; [congruence|]. intros V. destruct (T1 V) as (r & R). discriminate. }
  split; [split; auto|].
  - intros H L. apply (OK L). auto.
  - intros L. apply OK; auto.
Qed.
Print Assumptions C47_lengths.

(** C47: methods.  0.16 and 1/e are the floats nearest to them. *)
Theorem C47_growth : forall nan_raises curve_fit time values i t,
  length time = length values ->
  (nan_raises = false \/ forall j v, nth_error values j = Some v -> v <> NaN) ->
  first_at (passed false (Fin (5764607523034235 # 36028797018963968))) values i ->
  nth_error time i = Some t ->
  exists e, relaxation_value nan_raises curve_fit time values "struct_msd" = inl (FR (Q2R t), e).
Proof.
  intros nr cf time values i t L C F Ht.
  destruct (C41_first_crossing nr time values f016 false i t L) as (e & E & _); auto.
  - destruct C; auto. right. split; auto. discriminate.
  - exists (FR (Q2R e)). unfold relaxation_value, compute_relaxation_value.
    rewrite (proj2 (Nat.eqb_eq _ _) L). cbn [negb String.eqb Ascii.eqb Bool.eqb]. rewrite E. reflexivity.
Qed.
Print Assumptions C47_growth.

Theorem C47_peak : forall nan_raises curve_fit time values name i v t,
  (name = "alpha" \/ name = "gamma")%string ->
  length time = length values -> first_max values i v -> v <> NInf -> nth_error time i = Some t ->
  exists e, relaxation_value nan_raises curve_fit time values name = inl (FR (Q2R t), e).
Proof.
  intros nr cf time values name i v t N L F NI Ht.
  destruct (C43_first_maximum time values i v t L F NI Ht) as ((e & E) & _).
  exists (x2f e). unfold relaxation_value, compute_relaxation_value.
  rewrite (proj2 (Nat.eqb_eq _ _) L).
  destruct N as [->| ->]; cbn [negb String.eqb Ascii.eqb Bool.eqb orb]; rewrite E; reflexivity.
Qed.
Print Assumptions C47_peak.

Theorem C47_decay : forall nan_raises curve_fit time values name i t,
  ~ In name ["msd"; "msr"; "struct_msd"; "alpha"; "gamma"]%string ->
  length time = length values ->
  (nan_raises = false \/ forall j v, nth_error values j = Some v -> v <> NaN) ->
  first_at (passed true (Fin (828390857088487 # 2251799813685248))) values i ->
  nth_error time i = Some t ->
  exists e, relaxation_value nan_raises curve_fit time values name = inl (FR (Q2R t), e).
Proof.
  intros nr cf time values name i t N L C F Ht.
  destruct (C41_first_crossing nr time values inv_e true i t L) as (e & E & _); auto.
  - destruct C; auto. right. split; auto. discriminate.
  - exists (FR (Q2R e)). unfold relaxation_value, compute_relaxation_value.
    rewrite (proj2 (Nat.eqb_eq _ _) L). cbn [negb].
    destruct (String.eqb_spec name "msd") as [->|_]; [simpl in N; tauto|].
    destruct (String.eqb_spec name "msr") as [->|_]; [simpl in N; tauto|].
    destruct (String.eqb_spec name "struct_msd") as [->|_]; [simpl in N; tauto|].
    destruct (String.eqb_spec name "alpha") as [->|_]; [simpl in N; tauto|].
    destruct (String.eqb_spec name "gamma") as [->|_]; [simpl in N; tauto|].
    cbn [orb]. rewrite E. reflexivity.
Qed.
Print Assumptions C47_decay.

Lemma nth_x2f values i : nth_error (map x2f values) i = option_map x2f (nth_error values i).
Proof. apply nth_error_map. Qed.

(** A straight mean squared displacement gives the diffusion constant of two translational
    or one rotational dimension. *)
Theorem C47_line : forall nan_raises curve_fit time values name dims D b,
  (name = "msd" /\ dims = 2 \/ name = "msr" /\ dims = 1)%string ->
  fits_lines curve_fit -> length time = length values ->
  nan_raises = false \/ (forall i, nth_error values i <> Some NaN) ->
  at_least 3 (fun x => exists q, x = Fin q /\ 2 < Q2R q < 50) values ->
  (forall i t q, nth_error time i = Some t -> nth_error values i = Some (Fin q) -> 2 < Q2R q < 50 ->
     Q2R q = 2 * dims * D * Q2R t + b) ->
  (exists i j t u x y, nth_error time i = Some t /\ nth_error time j = Some u /\ Q2R t <> Q2R u
     /\ nth_error values i = Some (Fin x) /\ 2 < Q2R x < 50
     /\ nth_error values j = Some (Fin y) /\ 2 < Q2R y < 50) ->
  relaxation_value nan_raises curve_fit time values name = inl (FR D, FR 0).
Proof.
  intros nr cf time values name dims D b N F L C W H (i & j & t & u & x & y & Ht & Hu & TU & Hx & Wx & Hy & Wy).
  assert (S : forall dz, IZR dz = dims -> (1 <= dz)%Z ->
     diffusion_constant nr cf (map Q2R time) (map x2f values) dz = inl (FR D, FR 0)).
  { intros dz E P. apply C45_slope with (b := b); auto.
    - destruct C as [C|C]; auto. right. intros k. rewrite nth_x2f. intros X.
      destruct (nth_error values k) as [v|] eqn:V; [|discriminate]. destruct v; try discriminate. apply (C k V).
    - rewrite !map_length; auto.
    - destruct W as (idx & W1 & W2 & W3). exists idx. repeat apply conj; auto.
      intros k K. destruct (W3 k K) as (v & V & (q & -> & Q)). exists (FR (Q2R q)). rewrite nth_x2f, V.
      split; auto. exists (Q2R q). split; auto.
    - intros k s r. rewrite nth_error_map, nth_x2f. intros S1 S2 S3.
      destruct (nth_error time k) as [tk|] eqn:T; [|discriminate].
      destruct (nth_error values k) as [v|] eqn:V; [|discriminate]. injection S1 as <-.
      destruct v; try discriminate. injection S2 as <-. rewrite E. eauto.
    - exists i, j, (Q2R t), (Q2R u), (FR (Q2R x)), (FR (Q2R y)).
      rewrite !nth_error_map, Ht, Hu, Hx, Hy. repeat apply conj; auto; eexists; split; eauto. }
  unfold relaxation_value, compute_relaxation_value. rewrite (proj2 (Nat.eqb_eq _ _) L).
  destruct N as [[-> ->]|[-> ->]]; cbn [negb String.eqb Ascii.eqb Bool.eqb]; apply S; auto; lia.
Qed.
Print Assumptions C47_line.

Example C47_example :
  (exists e, relaxation_value true closed_form [0; 10; 20]%Q [Fin 1; Fin (1#2); Fin (1#3)] "rot2"
             = inl (FR (Q2R 20), e))
  /\ (exists e, relaxation_value true closed_form [0; 10; 20]%Q [Fin 0; Fin (1#5); Fin (1#3)] "struct_msd"
             = inl (FR (Q2R 10), e))
  /\ (exists e, relaxation_value true closed_form [0; 10; 20]%Q [Fin 0; Fin (4#5); Fin (1#3)] "gamma"
             = inl (FR (Q2R 10), e)).
Proof. repeat apply conj; eexists; reflexivity. Qed.
Example C47_line_example :
  relaxation_value true closed_form [0; 1; 2; 3]%Q [Fin 3; Fin 5; Fin 7; Fin 90] "msr" = inl (FR 1, FR 0).
Proof.
  assert (E3 : Q2R 3 = 3) by (unfold Q2R; simpl; lra). assert (E5 : Q2R 5 = 5) by (unfold Q2R; simpl; lra).
  assert (E7 : Q2R 7 = 7) by (unfold Q2R; simpl; lra). assert (E9 : Q2R 90 = 90) by (unfold Q2R; simpl; lra).
  assert (E0 : Q2R 0 = 0) by (unfold Q2R; simpl; lra). assert (E1 : Q2R 1 = 1) by (unfold Q2R; simpl; lra).
  assert (E2 : Q2R 2 = 2) by (unfold Q2R; simpl; lra).
  apply C47_line with (dims := 1) (b := 3); auto using closed_form_fits.
  - right. intros [|[|[|[|i]]]]; simpl; try discriminate. destruct i; discriminate.
  - exists [0; 1; 2]%nat. repeat apply conj; auto.
    + repeat constructor; simpl; intuition discriminate.
    + intros i [<-|[<-|[<-|[]]]]; eexists; (split; [reflexivity|]); eexists; (split; [reflexivity|]);
      rewrite ?E3, ?E5, ?E7; lra.
  - intros [|[|[|[|i]]]] t q; simpl; intros H G W; try (destruct i; discriminate);
    injection H as <-; injection G as <-; rewrite ?E0, ?E1, ?E2, ?E3, ?E5, ?E7, ?E9 in *; lra.
  - exists 0%nat, 1%nat, 0%Q, 1%Q, 3%Q, 5%Q. rewrite E0, E1, E3, E5. repeat apply conj; auto; lra.
Qed.

(** C97 *)
Theorem C97_exact_decay : forall curve_fit newton time value width a b,
  fits_decays curve_fit -> finds_roots newton -> length time = length value ->
  (forall i t r, nth_error time i = Some t -> nth_error value i = Some (FR r) -> r = a * exp (- b * t)) ->
  0 < b -> / exp 1 < a ->
  at_least 4 (fun v => exists r, v = FR r /\ / exp 1 - width / 2 < r < / exp 1 + width / 2) value ->
  (exists i j t u r s, nth_error time i = Some t /\ nth_error time j = Some u /\ t <> u
     /\ nth_error value i = Some (FR r) /\ / exp 1 - width / 2 < r < / exp 1 + width / 2
     /\ nth_error value j = Some (FR s) /\ / exp 1 - width / 2 < s < / exp 1 + width / 2) ->
  exponential_relaxation curve_fit newton time value None width = inl (FR ((1 + ln a) / b), FR 0)
  /\ a * exp (- b * ((1 + ln a) / b)) = / exp 1.
Proof.
  intros cf newton time value w a b FD FN L D B A N (i & j & t & u & r & s & Ht & Hu & TU & Hr & Wr & Hs & Ws).
  assert (0 < a) by (pose proof (Rinv_0_lt_compat _ (exp_pos 1)); lra).
  split.
  - apply exp_exact; auto. exists i, j, t, u, (FR r), (FR s). unfold near. repeat apply conj; eauto.
  - pose proof (proj2 (root_unique a b ((1 + ln a) / b) H (Rgt_not_eq _ _ B)) eq_refl). lra.
Qed.
Print Assumptions C97_exact_decay.

Theorem C97_other_cases : forall curve_fit newton time value sigma width,
  (length time <> length value ->
   exponential_relaxation curve_fit newton time value sigma width = inr RuntimeError)
  /\ (length time = length value ->
      ~ at_least 4 (fun v => exists r, v = FR r /\ / exp 1 - width / 2 < r < / exp 1 + width / 2) value ->
      exponential_relaxation curve_fit newton time value sigma width = inl (FNaN, FNaN))
  /\ (forall m x, exponential_relaxation curve_fit newton time value sigma width = inl (FR m, x) -> 0 < m).
Proof.
  intros cf newton time value sigma w. refine (conj _ (conj _ _)).
  - intros N. unfold exponential_relaxation. rewrite (proj2 (Nat.eqb_neq _ _) N). reflexivity.
  - intros L N. apply exp_few; auto.
  - intros m x. apply positive_or_nan.
Qed.
Print Assumptions C97_other_cases.

(** Bounds on 1/e, for the examples. *)
Lemma inv_e_bounds : / 3 <= / exp 1 <= / 2.
Proof.
  assert (2 <= exp 1) by (pose proof (exp_ineq1 1); lra). pose proof exp_le_3.
  split; apply Rinv_le_contravar; lra.
Qed.

(** Five points of exp(-t) with the widest region. *)
Example C97_example :
  exponential_relaxation decay_instance newton_instance [0; 1; 2; 3; 7]
    [FR (1 * exp (- 1 * 0)); FR (1 * exp (- 1 * 1)); FR (1 * exp (- 1 * 2)); FR (1 * exp (- 1 * 3)); FNaN] None 2
  = inl (FR ((1 + ln 1) / 1), FR 0).
Proof.
  pose proof inv_e_bounds as IB.
  assert (E : forall t, 0 <= t -> / exp 1 - 2 / 2 < 1 * exp (- (1) * t) < / exp 1 + 2 / 2).
  { intros t T. pose proof (exp_pos (- (1) * t)). assert (exp (- (1) * t) <= exp 0).
    { destruct (Req_dec t 0) as [->|]; [right; f_equal; ring|left; apply exp_increasing; lra]. }
    rewrite exp_0 in *. lra. }
  apply C97_exact_decay; auto using decay_instance_ok, newton_instance_ok; try lra.
  - intros [|[|[|[|[|i]]]]] t r; simpl; intros H G; try (destruct i; discriminate); try discriminate;
    injection H as <-; injection G as <-; reflexivity.
  - exists [0; 1; 2; 3]%nat. repeat apply conj; auto.
    + repeat constructor; simpl; intuition discriminate.
    + intros i [<-|[<-|[<-|[<-|[]]]]]; eexists; (split; [reflexivity|]); eexists; (split; [reflexivity|]); apply E; lra.
  - exists 0%nat, 1%nat, 0, 1, (1 * exp (- 1 * 0)), (1 * exp (- 1 * 1)).
    repeat apply conj; auto; try lra; apply E; lra.
Qed.

(** C98: refuted.  The error of exponential_relaxation is negative whenever the fit is
    uncertain in the rate only: the larger rate is used for the upper end. *)
Theorem C98_error_sign_refuted : forall curve_fit newton time value width a b vb,
  (forall pts p0, curve_fit pts p0 None = inl (a, b, (0, vb))) -> finds_roots newton ->
  length time = length value ->
  at_least 4 (fun v => exists r, v = FR r /\ / exp 1 - width / 2 < r < / exp 1 + width / 2) value ->
  / exp 1 < a -> 0 < vb -> 2 * sqrt vb < b ->
  exists m e, exponential_relaxation curve_fit newton time value None width = inl (FR m, FR e)
              /\ 0 < m /\ e < 0.
Proof.
  intros cf newton time value w a b vb CF FN L N A V B.
  destruct (exp_after cf newton time value w L N) as (x0 & p0 & ->). rewrite CF.
  pose proof (sqrt_lt_R0 vb V) as SV.
  assert (0 < a) by (pose proof (Rinv_0_lt_compat _ (exp_pos 1)); lra).
  assert (LN : 0 < 1 + ln a).
  { apply ln_increasing in A; [|apply Rinv_0_lt_compat, exp_pos].
    rewrite ln_Rinv, ln_exp in A by apply exp_pos. lra. }
  rewrite after_fit_formula; rewrite ?sqrt_0; auto; try lra.
  - eexists. eexists. split; [reflexivity|]. split; [apply Rdiv_lt_0_compat; lra|].
    rewrite Rmult_0_r, Rplus_0_r, Rminus_0_r.
    assert ((1 + ln a) / (b + 2 * sqrt vb) < (1 + ln a) / (b - 2 * sqrt vb)); [|lra].
    unfold Rdiv. apply Rmult_lt_compat_l; auto. apply Rinv_lt_contravar; [|lra].
    apply Rmult_lt_0_compat; lra.
  - apply Rdiv_lt_0_compat; lra.
Qed.
Print Assumptions C98_error_sign_refuted.

(** C98, what holds: the error is the difference of the roots for both parameters increased
    and both decreased by their errors. *)
Theorem C98_error_partial : forall curve_fit newton time value width a b va vb,
  (forall pts p0, curve_fit pts p0 None = inl (a, b, (va, vb))) -> finds_roots newton ->
  length time = length value ->
  at_least 4 (fun v => exists r, v = FR r /\ / exp 1 - width / 2 < r < / exp 1 + width / 2) value ->
  0 <= va -> 0 <= vb -> 0 < a - 2 * sqrt va -> 0 < b - 2 * sqrt vb -> / exp 1 < a ->
  exists lo hi,
    exponential_relaxation curve_fit newton time value None width = inl (FR ((1 + ln a) / b), FR (hi - lo))
    /\ (a - 2 * sqrt va) * exp (- (b - 2 * sqrt vb) * lo) = / exp 1
    /\ (a + 2 * sqrt va) * exp (- (b + 2 * sqrt vb) * hi) = / exp 1.
Proof.
  intros cf newton time value w a b va vb CF FN L N VA VB A B AE.
  destruct (exp_after cf newton time value w L N) as (x0 & p0 & ->). rewrite CF.
  pose proof (sqrt_pos va) as SA. pose proof (sqrt_pos vb) as SB.
  assert (LN : 0 < 1 + ln a).
  { apply ln_increasing in AE; [|apply Rinv_0_lt_compat, exp_pos].
    rewrite ln_Rinv, ln_exp in AE by apply exp_pos. lra. }
  rewrite after_fit_formula; auto; try (apply Rdiv_lt_0_compat; lra).
  eexists. eexists. split; [reflexivity|]. split.
  - assert (B' : b - 2 * sqrt vb <> 0) by lra.
    pose proof (proj2 (root_unique (a - 2 * sqrt va) (b - 2 * sqrt vb) _ A B') eq_refl). lra.
  - assert (A' : 0 < a + 2 * sqrt va) by lra. assert (B' : b + 2 * sqrt vb <> 0) by lra.
    pose proof (proj2 (root_unique (a + 2 * sqrt va) (b + 2 * sqrt vb) _ A' B') eq_refl). lra.
Qed.
Print Assumptions C98_error_partial.
Example C98_example : exists m e,
  exponential_relaxation (fun _ _ _ => inl (1, 1, (0, / 16))) newton_instance [0; 1; 2; 3]
    [FR (/ exp 1); FR (/ exp 1); FR (/ exp 1); FR (/ exp 1)] None 1 = inl (FR m, FR e) /\ 0 < m /\ e < 0.
Proof.
  pose proof inv_e_bounds.
  apply C98_error_sign_refuted with (a := 1) (b := 1) (vb := / 16); auto using newton_instance_ok; try lra.
  - exists [0; 1; 2; 3]%nat. repeat apply conj; auto.
    + repeat constructor; simpl; intuition discriminate.
    + intros i [<-|[<-|[<-|[<-|[]]]]]; eexists; (split; [reflexivity|]); eexists; (split; [reflexivity|]); lra.
  - replace (/ 16) with (/ 4 * / 4) by lra. rewrite sqrt_square; lra.
Qed.

(** C99: refuted.  With uncertainties, one value that is not finite makes the fit fail. *)
Theorem C99_gaps_refuted : forall curve_fit newton time value sigma width,
  length time = length value -> length sigma = length value ->
  at_least 4 (fun v => exists r, v = FR r /\ / exp 1 - width / 2 < r < / exp 1 + width / 2) value ->
  (exists i v, nth_error value i = Some v /\ forall r, v <> FR r) ->
  exponential_relaxation curve_fit newton time value (Some sigma) width = inr IndexError.
Proof. intros. apply sigma_with_gaps; auto. Qed.
Print Assumptions C99_gaps_refuted.
Example C99_example :
  exponential_relaxation decay_instance newton_instance [0; 1; 2; 3; 4]
    [FR (/ exp 1); FR (/ exp 1); FR (/ exp 1); FR (/ exp 1); FNaN] (Some [1; 1; 1; 1; 1]) 1 = inr IndexError.
Proof.
  apply C99_gaps_refuted; auto.
  - exists [0; 1; 2; 3]%nat. repeat apply conj; auto.
    + repeat constructor; simpl; intuition discriminate.
    + intros i [<-|[<-|[<-|[<-|[]]]]]; eexists; (split; [reflexivity|]); eexists; (split; [reflexivity|]); lra.
  - exists 4%nat, FNaN. split; [reflexivity|discriminate].
Qed.

(** ** Closed counterexamples for C98 and C99, and what holds for C99 *)
Theorem C98_negative_refuted : exists curve_fit newton time value m e, finds_roots newton /\
  exponential_relaxation curve_fit newton time value None 1 = inl (FR m, FR e) /\ 0 < m /\ e < 0.
Proof. destruct C98_example as (m & e & H). do 4 eexists. exists m, e. split; [apply newton_instance_ok|]. exact H. Qed.
Print Assumptions C98_negative_refuted.
Theorem C99_sigma_refuted : exists curve_fit newton time value sigma, fits_decays curve_fit /\ finds_roots newton /\
  length time = length value /\ length sigma = length value /\
  exponential_relaxation curve_fit newton time value (Some sigma) 1 = inr IndexError.
Proof.
  do 5 eexists. split; [apply decay_instance_ok|]. split; [apply newton_instance_ok|]. split; [|split; [|apply C99_example]]; reflexivity.
Qed.
Print Assumptions C99_sigma_refuted.
(** Without uncertainties the values that are not finite are left out. *)
Definition finite_pairs (time : list R) (value : list fl) (time' : list R) (value' : list R) : Prop :=
  length time' = length value' /\
  combine time' (map FR value') = filter (fun p => match snd p with FR _ => true | _ => false end) (combine time value).
Lemma select_finite time : forall value time' value', length time = length value -> finite_pairs time value time' value' ->
  select finite time value = combine time' value'.
Proof.
  induction time as [|t time IH]; intros [|v value] time' value' L [L' E]; cbn in L; try discriminate.
  - cbn in E. destruct time', value'; cbn in *; auto; discriminate.
  - cbn in E. destruct v as [v| | |]; cbn [select finite]; try (apply IH; [lia|]; split; auto).
    destruct time' as [|t' time']; destruct value' as [|v' value']; cbn in E, L'; try discriminate. injection E as -> -> E. cbn [combine]. f_equal.
    apply IH; [lia|]. split; auto.
Qed.
Lemma select_all time : forall value, length time = length value -> select finite time (map FR value) = combine time value.
Proof. induction time as [|t time IH]; intros [|v value] L; cbn in *; try discriminate; auto. f_equal. apply IH. lia. Qed.
Theorem C99_without_sigma_partial : forall curve_fit newton time value time' value' width,
  length time = length value -> finite_pairs time value time' value' ->
  exponential_relaxation curve_fit newton time value None width = exponential_relaxation curve_fit newton time' (map FR value') None width.
Proof.
  intros cf nt time value time' value' w L P. pose proof (select_finite _ _ _ _ L P) as S. destruct P as [L' _].
  assert (S' : select finite time' (map FR value') = combine time' value') by (apply select_all; auto).
  unfold exponential_relaxation. rewrite map_length, L, L', !Nat.eqb_refl. cbn [negb]. rewrite S, S'. reflexivity.
Qed.
Print Assumptions C99_without_sigma_partial.
Example C99_finite_example : finite_pairs [0; 1; 2] [FR 5; FNaN; FR 7] [0; 2] [5; 7].
Proof. split; reflexivity. Qed.
