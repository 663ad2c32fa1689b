(** Lemmas about the fitted summaries. *)
From Coq Require Import Reals ZArith List Bool Lra Lia.
From Verif Require Import Base RelaxFitModel RelaxFitSpec.
Import ListNotations.
Open Scope R_scope.

Lemma Rltb_true a b : Rltb a b = true <-> a < b.
Proof. unfold Rltb. destruct (Rlt_dec a b); split; auto; intros; try discriminate; contradiction. Qed.
Lemma Rltb_false a b : Rltb a b = false <-> b <= a.
Proof. unfold Rltb. destruct (Rlt_dec a b); split; intros; auto; try discriminate; try lra. Qed.

(* sums *)
Lemma sum_ext {A} (f g : A -> R) l : (forall x, In x l -> f x = g x) -> sum f l = sum g l.
Proof.
  induction l as [|x l IH]; intros H; simpl; auto. rewrite (H x (or_introl eq_refl)), IH; auto.
  intros y Hy. apply H. right; auto.
Qed.
Lemma sum_plus {A} (f g : A -> R) l : sum (fun x => f x + g x) l = sum f l + sum g l.
Proof. induction l as [|x l IH]; simpl; [ring|rewrite IH; ring]. Qed.
Lemma sum_scal {A} c (f : A -> R) l : sum (fun x => c * f x) l = c * sum f l.
Proof. induction l as [|x l IH]; simpl; [ring|rewrite IH; ring]. Qed.
Lemma sum_const {A} c (l : list A) : sum (fun _ => c) l = c * INR (length l).
Proof. induction l as [|x l IH]; [simpl; ring|]. cbn [sum fold_right length]. fold (sum (fun _ : A => c) l).
  rewrite IH, S_INR. ring. Qed.
Lemma sum_nonneg {A} (f : A -> R) l : (forall x, In x l -> 0 <= f x) -> 0 <= sum f l.
Proof.
  induction l as [|x l IH]; intros H; simpl; [lra|].
  pose proof (H x (or_introl eq_refl)). assert (0 <= sum f l) by (apply IH; intros; apply H; right; auto). lra.
Qed.
Lemma sum_zero {A} (f : A -> R) l : (forall x, In x l -> 0 <= f x) -> sum f l <= 0 ->
  forall x, In x l -> f x = 0.
Proof.
  induction l as [|x l IH]; intros H Z y Hy; [destruct Hy|]. simpl in Z.
  assert (0 <= sum f l) by (apply sum_nonneg; intros; apply H; right; auto).
  pose proof (H x (or_introl eq_refl)). destruct Hy as [<-|Hy]; [lra|].
  apply IH; auto; [|lra]. intros; apply H; right; auto.
Qed.

Lemma sq_nonneg x : 0 <= x * x. Proof. pose proof (Rle_0_sqr x). unfold Rsqr in *. auto. Qed.
Lemma sq_zero x : x * x = 0 -> x = 0. Proof. intros H. apply Rsqr_0_uniq. exact H. Qed.

Lemma ssr_nonneg g pts : 0 <= ssr g pts.
Proof. apply sum_nonneg. intros; apply sq_nonneg. Qed.
Lemma ssr_zero g pts : ssr g pts <= 0 -> forall t v, In (t, v) pts -> v = g t.
Proof.
  intros H t v I.
  assert (E : (v - g t) * (v - g t) = 0).
  { apply (sum_zero (fun p : R * R => (snd p - g (fst p)) * (snd p - g (fst p))) pts) with (x := (t, v)); auto.
    intros; apply sq_nonneg. }
  apply sq_zero in E. lra.
Qed.
Lemma ssr_exact g pts : (forall t v, In (t, v) pts -> v = g t) -> ssr g pts = 0.
Proof.
  intros H. unfold ssr. rewrite (sum_ext _ (fun _ => 0)), sum_const; [ring|].
  intros (t, v) I. simpl. rewrite (H _ _ I). ring.
Qed.

(** Sums about the means *)
Lemma sum_centred (f : R * R -> R) pts : pts <> [] -> sum (fun p => f p - mean f pts) pts = 0.
Proof.
  intros N. unfold Rminus. rewrite sum_plus, sum_const. unfold mean.
  assert (INR (length pts) <> 0).
  { apply not_0_INR. destruct pts; simpl; congruence. }
  field. auto.
Qed.

Lemma sxx_pos pts : two_times pts -> 0 < sxx pts.
Proof.
  intros (t1 & v1 & t2 & v2 & I1 & I2 & N).
  assert (0 <= sxx pts) by (apply sum_nonneg; intros; apply sq_nonneg).
  destruct (Req_dec (sxx pts) 0) as [E|E]; [|lra]. exfalso.
  assert (Z : forall p, In p pts -> (fst p - mean fst pts) * (fst p - mean fst pts) = 0).
  { apply sum_zero; [intros; apply sq_nonneg|]. unfold sxx in E. lra. }
  pose proof (sq_zero _ (Z _ I1)). pose proof (sq_zero _ (Z _ I2)). simpl in *. lra.
Qed.

(** The residual as a function of the deviation from the least squares line. *)
Lemma ssr_line pts m b : pts <> [] -> sxx pts <> 0 ->
  let m0 := sxy pts / sxx pts in
  let b0 := mean snd pts - m0 * mean fst pts in
  let d := (mean snd pts - (m * mean fst pts + b)) in
  ssr (fun t => m * t + b) pts =
  ssr (fun t => m0 * t + b0) pts + (m - m0) * (m - m0) * sxx pts + d * d * INR (length pts).
Proof.
  intros N S m0 b0 d.
  set (X := mean fst pts) in *. set (Y := mean snd pts) in *.
  pose proof (sum_centred fst pts N) as CX. pose proof (sum_centred snd pts N) as CY. fold X in CX. fold Y in CY.
  assert (E : forall k c, ssr (fun t => k * t + c) pts =
     sum (fun p => (snd p - Y) * (snd p - Y)) pts + (- 2 * k) * sxy pts + k * k * sxx pts
     + (Y - (k * X + c)) * (Y - (k * X + c)) * INR (length pts)).
  { intros k c. unfold ssr.
    rewrite (sum_ext _ (fun p => ((snd p - Y) * (snd p - Y) + (- 2 * k) * ((fst p - X) * (snd p - Y))
        + (k * k) * ((fst p - X) * (fst p - X))) + ((2 * (Y - (k * X + c))) * (snd p - Y)
        + ((- 2 * k * (Y - (k * X + c))) * (fst p - X) + (Y - (k * X + c)) * (Y - (k * X + c)))))).
    2:{ intros p _. ring. }
    rewrite !sum_plus, !sum_scal, sum_const, CX, CY. fold (sxx pts) (sxy pts). unfold sxy, sxx. fold X Y. ring. }
  rewrite (E m b), (E m0 b0). subst d b0 m0. field. auto.
Qed.

Lemma least_squares_unique pts m b : pts <> [] -> two_times pts ->
  (forall m' b', ssr (fun t => m * t + b) pts <= ssr (fun t => m' * t + b') pts) ->
  m = sxy pts / sxx pts /\ b = mean snd pts - sxy pts / sxx pts * mean fst pts.
Proof.
  intros N T H. pose proof (sxx_pos _ T) as P.
  pose proof (ssr_line pts m b N) as E. cbv zeta in E.
  specialize (H (sxy pts / sxx pts) (mean snd pts - sxy pts / sxx pts * mean fst pts)).
  rewrite E in H by lra. clear E.
  set (m0 := sxy pts / sxx pts) in *. set (d := mean snd pts - (m * mean fst pts + b)) in *.
  assert (L : 0 < INR (length pts)) by (apply lt_0_INR; destruct pts; simpl; [congruence|lia]).
  pose proof (sq_nonneg (m - m0)). pose proof (sq_nonneg d).
  assert (0 <= (m - m0) * (m - m0) * sxx pts) by (apply Rmult_le_pos; lra).
  assert (0 <= d * d * INR (length pts)) by (apply Rmult_le_pos; lra).
  assert (E1 : (m - m0) * (m - m0) * sxx pts = 0) by lra.
  assert (E2 : d * d * INR (length pts) = 0) by lra.
  apply Rmult_integral in E1. destruct E1 as [E1|E1]; [|lra].
  apply Rmult_integral in E2. destruct E2 as [E2|E2]; [|lra].
  apply sq_zero in E1. apply sq_zero in E2. unfold d in E2.
  assert (m = m0) by lra. split; auto. subst m. lra.
Qed.

Lemma least_squares_min pts : pts <> [] -> two_times pts ->
  let m := sxy pts / sxx pts in
  let b := mean snd pts - m * mean fst pts in
  forall m' b', ssr (fun t => m * t + b) pts <= ssr (fun t => m' * t + b') pts.
Proof.
  intros N T m b m' b'. pose proof (sxx_pos _ T) as P.
  rewrite (ssr_line pts m' b' N) by lra. fold m. fold b.
  assert (L : 0 < INR (length pts)) by (apply lt_0_INR; destruct pts; simpl; [congruence|lia]).
  pose proof (sq_nonneg (m' - m)). set (d := mean snd pts - (m' * mean fst pts + b')).
  pose proof (sq_nonneg d).
  assert (0 <= (m' - m) * (m' - m) * sxx pts) by (apply Rmult_le_pos; lra).
  assert (0 <= d * d * INR (length pts)) by (apply Rmult_le_pos; lra). lra.
Qed.

(** The closed form satisfies the contract. *)
Definition closed_form (pts : list (R * R)) : (R * R * R) + exn :=
  let m := sxy pts / sxx pts in
  let b := mean snd pts - m * mean fst pts in
  inl (m, b, ssr (fun t => m * t + b) pts / INR (length pts - 2) / sxx pts).
Lemma closed_form_fits : fits_lines closed_form.
Proof.
  intros pts L T. eexists. eexists. split; [reflexivity|].
  apply least_squares_min; auto. destruct pts; simpl in *; [lia|congruence].
Qed.

(* selection *)
Lemma select_In keep time value t v :
  In (t, v) (select keep time value) <->
  exists i, nth_error time i = Some t /\ nth_error value i = Some (FR v) /\ keep (FR v) = true.
Proof.
  revert value. induction time as [|t0 time IH]; intros value; simpl.
  - split; [tauto|]. intros ([|i] & H & _); discriminate.
  - destruct value as [|v0 value].
    + split; [simpl; tauto|]. intros ([|i] & _ & H & _); discriminate.
    + assert (R : In (t, v) (select keep time value) <->
        exists i, nth_error (t0 :: time) (S i) = Some t /\ nth_error (v0 :: value) (S i) = Some (FR v)
                  /\ keep (FR v) = true) by (simpl; apply IH).
      assert (E : (exists i, nth_error (t0 :: time) i = Some t /\ nth_error (v0 :: value) i = Some (FR v)
                  /\ keep (FR v) = true) <->
          (t0 = t /\ v0 = FR v /\ keep (FR v) = true) \/ In (t, v) (select keep time value)).
      { rewrite R. split.
        - intros ([|i] & H1 & H2 & H3); [left; simpl in *; repeat apply conj; congruence|right; eauto].
        - intros [(H1 & H2 & H3)|(i & H)]; [exists 0%nat; simpl; repeat apply conj; congruence|eauto]. }
      rewrite E. destruct v0; try (split; [auto|intros [(_ & H & _)|H]; [discriminate|auto]]).
      destruct (keep (FR r)) eqn:K; simpl.
      * split; intros [H|H]; auto.
        -- injection H as <- <-. left; auto.
        -- destruct H as (-> & H & _). left. congruence.
      * split; auto. intros [(-> & H & H3)|H]; auto. injection H as <-. congruence.
Qed.

Lemma select_length keep time value : length time = length value ->
  (forall v, keep v = true -> finite v = true) ->
  length (select keep time value) = length (filter keep value).
Proof.
  intros L F. revert value L. induction time as [|t time IH]; intros [|v value] L; simpl in *; try lia; auto.
  destruct (keep v) eqn:K.
  - specialize (F _ K). destruct v; try discriminate. rewrite K. simpl. rewrite IH; auto.
  - destruct v; try (apply IH; lia). rewrite K. apply IH; lia.
Qed.

Definition region (x : fl) : bool := fgt 2 x && flt x 50.
Lemma region_iff x : region x = true <-> exists r, x = FR r /\ 2 < r < 50.
Proof.
  unfold region. destruct x; simpl; try (split; [discriminate|intros (r & H & _); discriminate]).
  rewrite andb_true_iff, !Rltb_true. split; [eauto|intros (q & H & G); injection H as ->; auto].
Qed.

Lemma diffusion_selected nr cf time msd dims m b v :
  nr = false \/ (forall i, nth_error msd i <> Some FNaN) ->
  length time = length msd -> (3 <= length (select region time msd))%nat ->
  cf (select region time msd) = inl (m, b, v) ->
  diffusion_constant nr cf time msd dims =
  inl (FR (m / IZR (2 * dims)), FR (2 * sqrt v / IZR (2 * dims))).
Proof.
  intros C L N E. unfold diffusion_constant. fold (region).
  assert (nr && existsb fnan msd = false) as ->.
  { destruct C as [->|C]; auto. apply andb_false_iff. right.
    destruct (existsb fnan msd) eqn:X; auto. apply existsb_exists in X. destruct X as (x & I & X).
    apply In_nth_error in I. destruct I as (i & I). destruct x; try discriminate. exfalso. apply (C i I). }
  change (fun x => fgt 2 x && flt x 50) with region.
  rewrite <- (select_length region time msd L).
  2:{ intros x H. apply region_iff in H. destruct H as (r & -> & _). reflexivity. }
  destruct (Nat.leb_spec (length (select region time msd)) 2); [lia|].
  rewrite L, Nat.eqb_refl. cbn [negb]. rewrite E. reflexivity.
Qed.

Lemma diffusion_few nr cf time msd dims :
  (length (filter region msd) <= 2)%nat ->
  diffusion_constant nr cf time msd dims = inl (FNaN, FNaN).
Proof.
  intros H. unfold diffusion_constant. destruct (nr && existsb fnan msd); auto.
  change (fun x => fgt 2 x && flt x 50) with region.
  destruct (Nat.leb_spec (length (filter region msd)) 2); [reflexivity|lia].
Qed.

(* derivatives *)
Lemma ddx_correct a b c x :
  derivable_pt_lim (fun z => exponential_decay z a b c) x (ddx_exponential_decay x a b c).
Proof.
  unfold exponential_decay, ddx_exponential_decay.
  assert (H : derivable_pt_lim (fun z => exp (- b * z)) x (exp (- b * x) * (- b))).
  { apply (derivable_pt_lim_comp (fun z => - b * z) exp x (- b) (exp (- b * x))).
    - pose proof (derivable_pt_lim_scal id (- b) x 1 (derivable_pt_lim_id x)) as K.
      rewrite Rmult_1_r in K. exact K.
    - apply derivable_pt_lim_exp. }
  pose proof (derivable_pt_lim_scal _ a _ _ H) as H1.
  pose proof (derivable_pt_lim_plus _ _ _ _ _ H1 (derivable_pt_lim_const c x)) as H2.
  unfold plus_fct, mult_real_fct, fct_cte in H2.
  replace (- b * a * exp (- b * x)) with (a * (exp (- b * x) * - b) + 0) by ring. exact H2.
Qed.
Lemma d2dx2_correct a b c x :
  derivable_pt_lim (fun z => ddx_exponential_decay z a b c) x (d2dx2_exponential_decay x a b c).
Proof.
  pose proof (ddx_correct (- b * a) b 0 x) as H. unfold exponential_decay, ddx_exponential_decay in *.
  unfold d2dx2_exponential_decay.
  replace (b * b * a * exp (- b * x)) with (- b * (- b * a) * exp (- b * x)) by ring.
  intros eps He. destruct (H eps He) as (delta & D). exists delta. intros h Hh Hd.
  specialize (D h Hh Hd).
  replace (- b * a * exp (- b * (x + h)) - - b * a * exp (- b * x))
    with (- b * a * exp (- b * (x + h)) + 0 - (- b * a * exp (- b * x) + 0)) by ring. exact D.
Qed.

Lemma root_unique a b x : 0 < a -> b <> 0 ->
  (a * exp (- b * x) - / exp 1 = 0 <-> x = (1 + ln a) / b).
Proof.
  intros A B. pose proof (exp_pos 1) as E1. split.
  - intros H. assert (H1 : a * exp (- b * x) = / exp 1) by lra.
    assert (H2 : ln (a * exp (- b * x)) = ln (/ exp 1)) by (f_equal; auto).
    rewrite ln_mult, ln_Rinv, !ln_exp in H2; auto; [|apply exp_pos].
    apply (Rmult_eq_reg_l b); auto. field_simplify; auto. lra.
  - intros ->. replace (- b * ((1 + ln a) / b)) with (- (ln a) + Ropp 1) by (field; auto).
    rewrite exp_plus, !exp_Ropp, exp_ln by auto. field. split; lra.
Qed.
