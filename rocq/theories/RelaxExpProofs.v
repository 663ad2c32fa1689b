(** Lemmas about exponential_relaxation, and about counting samples. *)
From Coq Require Import Reals ZArith List Bool Lra Lia.
From Verif Require Import Base RelaxFitModel RelaxFitSpec RelaxFitProofs.
Import ListNotations.
Open Scope R_scope.

(* counting *)
Lemma NoDup_app_l {A} (l m : list A) : NoDup (l ++ m) -> NoDup l.
Proof.
  induction l as [|x l IH]; simpl; intros H; [constructor|]. inversion H; subst.
  constructor; auto. intros I. apply H2. apply in_or_app; auto.
Qed.
Lemma filter_index {A} (p : A -> bool) l : forall k,
  length (filter (fun i => match nth_error l (i - k) with Some v => p v | None => false end) (seq k (length l)))
  = length (filter p l).
Proof.
  induction l as [|x l IH]; intros k; auto. cbn [length seq filter].
  rewrite Nat.sub_diag. cbn [nth_error].
  assert (E : filter (fun i => match nth_error (x :: l) (i - k) with Some v => p v | None => false end)
                (seq (S k) (length l))
            = filter (fun i => match nth_error l (i - S k) with Some v => p v | None => false end)
                (seq (S k) (length l))).
  { apply filter_ext_in. intros i Hi. apply in_seq in Hi.
    replace (i - k)%nat with (S (i - S k)) by lia. reflexivity. }
  destruct (p x); cbn [length]; rewrite E, IH; reflexivity.
Qed.

Lemma at_least_filter {A} k (P : A -> Prop) (p : A -> bool) l :
  (forall v, p v = true <-> P v) -> (at_least k P l <-> (k <= length (filter p l))%nat).
Proof.
  intros E. rewrite <- (filter_index p l 0).
  set (I := filter _ (seq 0 (length l))).
  assert (HI : forall i, In i I <-> exists v, nth_error l i = Some v /\ P v).
  { intros i. unfold I. rewrite filter_In, in_seq, Nat.sub_0_r. split.
    - intros [_ H]. destruct (nth_error l i) eqn:X; [|discriminate]. exists a. split; auto. apply E; auto.
    - intros (v & H & Pv). rewrite H. split; [|apply E; auto].
      assert (i < length l)%nat by (apply nth_error_Some; congruence). lia. }
  assert (ND : NoDup I) by (apply NoDup_filter, seq_NoDup).
  split.
  - intros (idx & N & <- & H). apply NoDup_incl_length; auto. intros i Hi. apply HI; auto.
  - intros H. exists (firstn k I). repeat apply conj.
    + rewrite <- (firstn_skipn k I) in ND. apply NoDup_app_l in ND. auto.
    + apply firstn_length_le; auto.
    + intros i Hi. apply HI. rewrite <- (firstn_skipn k I). apply in_or_app; auto.
Qed.

Lemma decay_params a b a0 b0 t1 t2 : 0 < a0 -> t1 <> t2 ->
  a * exp (- b * t1) = a0 * exp (- b0 * t1) -> a * exp (- b * t2) = a0 * exp (- b0 * t2) ->
  a = a0 /\ b = b0.
Proof.
  intros A T E1 E2.
  assert (P : 0 < a).
  { assert (0 < a0 * exp (- b0 * t1)) by (apply Rmult_lt_0_compat; auto; apply exp_pos).
    rewrite <- E1 in H. pose proof (exp_pos (- b * t1)).
    destruct (Rle_lt_dec a 0); auto. exfalso.
    assert (a * exp (- b * t1) <= 0) by (apply Rmult_le_0_r_compat || (rewrite <- (Rmult_0_l (exp (- b * t1))); apply Rmult_le_compat_r; lra)).
    lra. }
  apply (f_equal ln) in E1. apply (f_equal ln) in E2.
  rewrite !ln_mult, !ln_exp in E1, E2; auto; try apply exp_pos.
  assert (E : (b - b0) * (t1 - t2) = 0) by lra.
  apply Rmult_integral in E. destruct E as [E|E]; [|lra].
  assert (b = b0) by lra. subst b. split; auto.
  apply ln_inv; auto. lra.
Qed.

Definition near (w : R) (v : fl) : Prop := exists r, v = FR r /\ / exp 1 - w / 2 < r < / exp 1 + w / 2.
Definition nearb (w : R) (v : fl) : bool :=
  match v with FR r => Rltb (exp_value - w / 2) r && Rltb r (exp_value + w / 2) | _ => false end.
Lemma nearb_iff w v : nearb w v = true <-> near w v.
Proof.
  unfold near, nearb, exp_value. destruct v; try (split; [discriminate|intros (r & H & _); discriminate]).
  rewrite andb_true_iff, !Rltb_true. split; [eauto|].
  intros (q & H & G). injection H as ->. auto.
Qed.

Definition in_region (w : R) (p : R * R) : bool :=
  Rltb (exp_value - w / 2) (snd p) && Rltb (snd p) (exp_value + w / 2).
Lemma fit_select w time value :
  filter (in_region w) (select finite time value) = select (nearb w) time value.
Proof.
  revert value. induction time as [|t time IH]; intros value; auto.
  destruct value as [|v value]; auto. destruct v; simpl; auto.
  change (in_region w (t, r)) with (Rltb (exp_value - w / 2) r && Rltb r (exp_value + w / 2)).
  rewrite <- IH. destruct (_ && _); reflexivity.
Qed.
Lemma near_length w time value : length time = length value ->
  length (filter (in_region w) (select finite time value)) = length (filter (nearb w) value).
Proof.
  intros L. rewrite fit_select. apply select_length; auto. intros v. destruct v; simpl; auto.
Qed.
Lemma data_length time value : length time = length value ->
  length (select finite time value) = length (filter finite value).
Proof. intros L. apply select_length; auto. Qed.

Lemma select_cons_exists time value : select finite time value <> [] ->
  exists t v rest, select finite time value = (t, v) :: rest.
Proof. destruct (select finite time value) as [|[t v] rest]; [congruence|eauto]. Qed.

(** What exponential_relaxation does after the fit. *)
Definition after_fit newton (zero_est a b va vb : R) : fres + exn :=
  if Rltb va 0 || Rltb vb 0 then inl nan_fres
  else
    let find_root a b :=
      newton (fun x => exponential_decay x a b (- exp_value))
             (fun x => ddx_exponential_decay x a b (- exp_value)) zero_est in
    match find_root a b with
    | inr RuntimeError => inl nan_fres
    | inr e => inr e
    | inl val_mean =>
        let bars :=
          match find_root (a - 2 * sqrt va) (b - 2 * sqrt vb) with
          | inr e => inr e
          | inl val_min =>
              match find_root (a + 2 * sqrt va) (b + 2 * sqrt vb) with
              | inr e => inr e
              | inl val_max => inl (val_min, val_max)
              end
          end in
        let finish x := if Rltb 0 val_mean then inl (FR val_mean, FR x) else inl nan_fres in
        match bars with
        | inl (val_min, val_max) => finish (val_max - val_min)
        | inr FloatingPointError => finish (val_mean - 0 - 0)
        | inr RuntimeError => inl nan_fres
        | inr e => inr e
        end
    end.

Lemma exp_after cf newton time value w :
  length time = length value -> at_least 4 (near w) value ->
  exists zero_est p0,
    exponential_relaxation cf newton time value None w =
    match cf (select (nearb w) time value) p0 None with
    | inr RuntimeError | inr FloatingPointError => inl nan_fres
    | inr e => inr e
    | inl (a, b, (va, vb)) => after_fit newton zero_est a b va vb
    end.
Proof.
  intros L N. apply (at_least_filter 4 _ (nearb w)) in N; [|apply nearb_iff].
  unfold exponential_relaxation. rewrite L, Nat.eqb_refl. cbn [negb].
  change (fun p : R * R => Rltb (exp_value - w / 2) (snd p) && Rltb (snd p) (exp_value + w / 2))
    with (in_region w).
  cbv zeta. rewrite (near_length w time value L).
  destruct (Nat.leb_spec (length (filter (nearb w) value)) 3) as [H|_]; [lia|].
  rewrite fit_select.
  destruct (select finite time value) as [|[t0 v0] rest] eqn:D.
  - exfalso. pose proof (near_length w time value L) as X. rewrite D in X. simpl in X. lia.
  - exists (closest exp_value t0 (Rabs (v0 - exp_value)) rest). eexists. reflexivity.
Qed.

Lemma find_root_eq newton a b x0 : finds_roots newton -> 0 < a -> b <> 0 ->
  newton (fun x => exponential_decay x a b (- exp_value))
         (fun x => ddx_exponential_decay x a b (- exp_value)) x0 = inl ((1 + ln a) / b).
Proof.
  intros F A B.
  destruct (F (fun x => exponential_decay x a b (- exp_value))
              (fun x => ddx_exponential_decay x a b (- exp_value)) x0 a b A B) as (x & E & R).
  - intros z. unfold exponential_decay, exp_value. ring.
  - intros z. apply ddx_correct.
  - rewrite E. f_equal. apply root_unique; auto; unfold exponential_decay, exp_value in R; lra.
Qed.

Lemma after_fit_formula newton x0 a b va vb :
  finds_roots newton -> 0 <= va -> 0 <= vb ->
  0 < a - 2 * sqrt va -> 0 < b - 2 * sqrt vb -> 0 < (1 + ln a) / b ->
  after_fit newton x0 a b va vb =
  inl (FR ((1 + ln a) / b),
       FR ((1 + ln (a + 2 * sqrt va)) / (b + 2 * sqrt vb) - (1 + ln (a - 2 * sqrt va)) / (b - 2 * sqrt vb))).
Proof.
  intros F A B PA PB M. unfold after_fit.
  assert (Rltb va 0 || Rltb vb 0 = false) as ->.
  { apply orb_false_iff. split; apply Rltb_false; auto. }
  pose proof (sqrt_pos va). pose proof (sqrt_pos vb). cbv zeta.
  rewrite !find_root_eq by (auto; lra). cbv iota beta.
  apply Rltb_true in M. rewrite M. reflexivity.
Qed.

Lemma positive_or_nan cf newton time value sigma w m x :
  exponential_relaxation cf newton time value sigma w = inl (FR m, x) -> 0 < m.
Proof.
  unfold exponential_relaxation, nan_fres. intros H.
  repeat match type of H with
  | context [match ?X with _ => _ end] => destruct X eqn:?; try discriminate H
  end; injection H as <- <-; apply Rltb_true; assumption.
Qed.

Lemma sigma_with_gaps cf newton time value s w :
  length time = length value -> length s = length value -> at_least 4 (near w) value ->
  (exists i v, nth_error value i = Some v /\ forall r, v <> FR r) ->
  exponential_relaxation cf newton time value (Some s) w = inr IndexError.
Proof.
  intros L LS N (i & v & Hi & Hv). apply (at_least_filter 4 _ (nearb w)) in N; [|apply nearb_iff].
  unfold exponential_relaxation. rewrite L, Nat.eqb_refl. cbn [negb].
  change (fun p : R * R => Rltb (exp_value - w / 2) (snd p) && Rltb (snd p) (exp_value + w / 2))
    with (in_region w).
  cbv zeta. pose proof (near_length w time value L) as E. rewrite E.
  destruct (Nat.leb_spec (length (filter (nearb w) value)) 3) as [H|_]; [lia|].
  pose proof (data_length time value L) as DL.
  assert (F : (length (filter finite value) < length value)%nat).
  { clear -Hi Hv. revert i Hi. induction value as [|x l IH]; intros i Hi; [destruct i; discriminate|].
    assert (G : (length (filter finite l) <= length l)%nat).
    { clear. induction l as [|y l IH]; simpl; auto. destruct (finite y); simpl; lia. }
    destruct i as [|i]; simpl in *.
    - injection Hi as ->. destruct v; simpl; try lia. exfalso. eapply Hv; eauto.
    - specialize (IH _ Hi). destruct (finite x); simpl; lia. }
  destruct (select finite time value) as [|[t0 v0] rest] eqn:D.
  - simpl in E. lia.
  - destruct (Nat.eqb_spec (length s) (length ((t0, v0) :: rest))); [lia|]. reflexivity.
Qed.

Lemma exp_few cf newton time value sigma w :
  length time = length value -> ~ at_least 4 (near w) value ->
  exponential_relaxation cf newton time value sigma w = inl (FNaN, FNaN).
Proof.
  intros L N. rewrite (at_least_filter 4 _ (nearb w)) in N by apply nearb_iff.
  unfold exponential_relaxation. rewrite L, Nat.eqb_refl. cbn [negb].
  change (fun p : R * R => Rltb (exp_value - w / 2) (snd p) && Rltb (snd p) (exp_value + w / 2))
    with (in_region w).
  cbv zeta. rewrite (near_length w time value L).
  destruct (Nat.leb_spec (length (filter (nearb w) value)) 3) as [_|H]; [reflexivity|lia].
Qed.

(** The exact case. *)
Lemma exp_exact cf newton time value w a0 b0 :
  fits_decays cf -> finds_roots newton -> length time = length value ->
  (forall i t r, nth_error time i = Some t -> nth_error value i = Some (FR r) -> r = a0 * exp (- b0 * t)) ->
  0 < a0 -> 0 < b0 -> / exp 1 < a0 ->
  at_least 4 (near w) value ->
  (exists i j t u v v', nth_error time i = Some t /\ nth_error time j = Some u /\ t <> u
     /\ nth_error value i = Some v /\ near w v /\ nth_error value j = Some v' /\ near w v') ->
  exponential_relaxation cf newton time value None w = inl (FR ((1 + ln a0) / b0), FR 0).
Proof.
  intros FD FR_ L D A0 B0 AE N (i & j & t & u & v & v' & Ht & Hu & TU & Hv & Nv & Hv' & Nv').
  destruct (exp_after cf newton time value w L N) as (x0 & p0 & ->).
  set (pts := select (nearb w) time value).
  assert (P : forall t v, In (t, v) pts -> v = a0 * exp (- b0 * t)).
  { intros s r H. apply select_In in H. destruct H as (k & H1 & H2 & _). eauto. }
  assert (T : two_times pts).
  { apply nearb_iff in Nv, Nv'. destruct v; try discriminate. destruct v'; try discriminate.
    exists t, r, u, r0. repeat apply conj; auto; apply select_In; eauto. }
  assert (LP : (3 <= length pts)%nat).
  { unfold pts. rewrite <- fit_select, near_length by auto.
    apply (at_least_filter 4 _ (nearb w)) in N; [lia|apply nearb_iff]. }
  destruct (FD pts p0 a0 b0 LP T A0 P) as (a & b & E & Z). rewrite E.
  assert (a = a0 /\ b = b0) as [-> ->].
  { destruct T as (t1 & v1 & t2 & v2 & I1 & I2 & NT).
    pose proof (ssr_zero _ _ (Req_le _ _ Z)) as Q.
    eapply decay_params; eauto.
    - rewrite <- (Q _ _ I1). apply P; auto.
    - rewrite <- (Q _ _ I2). apply P; auto. }
  assert (LN : 0 < 1 + ln a0).
  { apply ln_increasing in AE; [|apply Rinv_0_lt_compat, exp_pos].
    rewrite ln_Rinv, ln_exp in AE by apply exp_pos. lra. }
  rewrite after_fit_formula; rewrite ?sqrt_0; auto; try lra.
  - rewrite Rmult_0_r, !Rminus_0_r, !Rplus_0_r. do 3 f_equal. ring.
  - apply Rdiv_lt_0_compat; lra.
Qed.

(** Instances of the contracts. *)
Definition newton_instance (f f' : R -> R) (x0 : R) : R + exn :=
  let a := f 0 + / exp 1 in
  let b := ln a - ln (f 1 + / exp 1) in
  inl ((1 + ln a) / b).
Lemma newton_instance_ok : finds_roots newton_instance.
Proof.
  intros f f' x0 a b A B F _. unfold newton_instance. eexists. split; [reflexivity|].
  rewrite !F. rewrite Rmult_0_r, exp_0, Rmult_1_r, Rmult_1_r.
  replace (a - / exp 1 + / exp 1) with a by ring.
  replace (a * exp (- b) - / exp 1 + / exp 1) with (a * exp (- b)) by ring.
  rewrite ln_mult, ln_exp; auto; [|apply exp_pos].
  apply root_unique; auto. f_equal. ring.
Qed.

Definition decay_instance (pts : list (R * R)) (p0 : R * R) (s : option (list R))
  : (R * R * (R * R)) + exn :=
  match pts with
  | [] => inr TypeError
  | (t1, v1) :: _ =>
      match filter (fun p => if Req_EM_T (fst p) t1 then false else true) pts with
      | [] => inr RuntimeError
      | (t2, v2) :: _ =>
          let b := (ln v1 - ln v2) / (t2 - t1) in
          inl (v1 * exp (b * t1), b, (0, 0))
      end
  end.
Lemma decay_instance_ok : fits_decays decay_instance.
Proof.
  intros pts p0 a0 b0 L T A D. destruct pts as [|[t1 v1] rest]; [simpl in L; lia|].
  unfold decay_instance.
  set (pts := (t1, v1) :: rest) in *.
  destruct (filter (fun p => if Req_EM_T (fst p) t1 then false else true) pts) as [|[t2 v2] fs] eqn:E.
  - exfalso. destruct T as (s1 & w1 & s2 & w2 & I1 & I2 & N).
    assert (F : forall t v, In (t, v) pts -> t = t1).
    { intros t v I. destruct (Req_EM_T t t1) as [|NE]; auto. exfalso.
      assert (X : In (t, v) (filter (fun p => if Req_EM_T (fst p) t1 then false else true) pts)).
      { apply filter_In. split; auto. simpl. destruct (Req_EM_T t t1); auto. }
      rewrite E in X. destruct X. }
    apply N. rewrite (F _ _ I1), (F _ _ I2). reflexivity.
  - assert (I2 : In (t2, v2) pts /\ t2 <> t1).
    { assert (X : In (t2, v2) (filter (fun p => if Req_EM_T (fst p) t1 then false else true) pts)) by (rewrite E; left; auto).
      apply filter_In in X. destruct X as [X Y]. split; auto. simpl in Y. destruct (Req_EM_T t2 t1); auto; discriminate. }
    destruct I2 as [I2 N]. assert (I1 : In (t1, v1) pts) by (left; auto).
    eexists. eexists. split; [reflexivity|]. apply ssr_exact. intros t v I.
    rewrite (D _ _ I1), (D _ _ I2), (D _ _ I).
    rewrite !ln_mult, !ln_exp; auto; try apply exp_pos.
    assert ((ln a0 + - b0 * t1 - (ln a0 + - b0 * t2)) / (t2 - t1) = b0) as -> by (field; lra).
    rewrite !Rmult_assoc, <- !exp_plus. do 2 f_equal. ring.
Qed.
