(** C41-C44: thresholds and maxima. *)
From Coq Require Import String ZArith QArith Qabs List Bool Lia Lqa.
From Verif Require Import Base XNum RelaxationModel RelaxationSpec RelaxationProofs.
Import ListNotations.
Open Scope Z_scope.

(** C41.  [nan_raises]: whether this numpy raises on comparisons with NaN; if it does not,
    NaN samples count as not having passed. *)
Theorem C41_first_crossing : forall nan_raises time value threshold decay i t,
  length time = length value ->
  (nan_raises = false \/ (threshold <> NaN /\ forall j v, nth_error value j = Some v -> v <> NaN)) ->
  first_at (passed decay threshold) value i -> nth_error time i = Some t ->
  exists e, threshold_relaxation nan_raises time value threshold decay = inl (Fin t, Fin e)
  /\ (forall j p, i = S j -> nth_error time j = Some p -> e = (t - p)%Q).
Proof.
  intros nr time value thr d i t L C F Ht.
  assert (exists p, match i with O => nth_error time (length time - 1) | S j => nth_error time j end = Some p) as (p & Hp).
  { pose proof (nth_len _ _ _ Ht). destruct i as [|j]; apply nth_lt; lia. }
  exists (t - p)%Q. split.
  - eapply threshold_at; eauto.
  - intros j p' -> Hp'. congruence.
Qed.
Print Assumptions C41_first_crossing.

Theorem C41_nan_samples : forall time value threshold decay,
  (exists i, nth_error value i = Some NaN) ->
  threshold_relaxation true time value threshold decay = inl (NaN, NaN).
Proof. intros. apply threshold_nan; auto. Qed.
Print Assumptions C41_nan_samples.

(** A curve that has relaxed at its first sample gets as error the (negated) length of the
    series: the preceding sample of the first one is, in Python, the last one. *)
Theorem C41_first_sample : forall nan_raises time value threshold decay t last,
  length time = length value ->
  (nan_raises = false \/ (threshold <> NaN /\ forall j v, nth_error value j = Some v -> v <> NaN)) ->
  first_at (passed decay threshold) value 0 -> nth_error time 0 = Some t ->
  nth_error time (length time - 1) = Some last ->
  threshold_relaxation nan_raises time value threshold decay = inl (Fin t, Fin (t - last)%Q).
Proof. intros. eapply threshold_at; eauto. Qed.
Print Assumptions C41_first_sample.

Example C41_example :
  threshold_relaxation false [0; 10; 30; 60]%Q [Fin 1; Fin (1#2); NaN; Fin (1#5)] (Fin (3#10)) true
  = inl (Fin 60, Fin (60 - 30)%Q).
Proof. vm_compute. reflexivity. Qed.
Example C41_hypotheses : first_at (passed true (Fin (3#10))) [Fin 1; Fin (1#2); NaN; Fin (1#5)] 3.
Proof.
  split; [exists (Fin (1#5)); split; reflexivity|].
  intros [|[|[|j]]] w L H; simpl in H; try lia; injection H as <-; intros E; discriminate E.
Qed.

(** C42: refuted.  A curve that never relaxes gets a time of the series as its relaxation
    time, namely the first, and no error. *)
Theorem C42_never_relaxed_refuted : exists time value t e,
  increasing time /\ (forall i v, nth_error value i = Some v -> ~ passed true inv_e v)
  /\ threshold_relaxation false time value inv_e true = inl (Fin t, Fin e)
  /\ threshold_relaxation true time value inv_e true = inl (Fin t, Fin e)
  /\ In t time /\ (e < 0)%Q.
Proof.
  exists [0; 1; 2]%Q, [Fin 1; Fin 1; Fin 1], 0%Q, (0 - 2)%Q. repeat apply conj; try reflexivity.
  - intros [|[|[|i]]] [|[|[|j]]] x y L; simpl; intros H G; try lia; try discriminate;
    try (destruct i; discriminate); try (destruct j; discriminate);
    injection H as <-; injection G as <-; reflexivity.
  - intros [|[|[|i]]] v; simpl; intros H; try (destruct i; discriminate); try discriminate; injection H as <-; discriminate.
  - left. reflexivity.
Qed.
Print Assumptions C42_never_relaxed_refuted.

(** C42, what holds: the result is always the one of a curve that has relaxed at its very
    first sample, so only the sign of the error tells. *)
Theorem C42_never_relaxed_partial : forall nan_raises time value threshold decay t last,
  length time = length value ->
  (nan_raises = false \/ (threshold <> NaN /\ forall j v, nth_error value j = Some v -> v <> NaN)) ->
  (forall i v, nth_error value i = Some v -> ~ passed decay threshold v) ->
  nth_error time 0 = Some t -> nth_error time (length time - 1) = Some last ->
  threshold_relaxation nan_raises time value threshold decay = inl (Fin t, Fin (t - last)%Q)
  /\ forall value', length value' = length value ->
     (forall j v, nth_error value' j = Some v -> v <> NaN) -> threshold <> NaN ->
     first_at (passed decay threshold) value' 0 ->
     threshold_relaxation nan_raises time value' threshold decay =
     threshold_relaxation nan_raises time value threshold decay.
Proof.
  intros nr time value thr d t last L C N Ht Hl.
  assert (E : threshold_relaxation nr time value thr d = inl (Fin t, Fin (t - last)%Q)).
  { eapply threshold_at with (i := 0%nat); eauto. }
  split; auto. intros v' L' N' T F. rewrite E. eapply threshold_at; eauto; [congruence|right; auto].
Qed.
Print Assumptions C42_never_relaxed_partial.
Example C42_partial_example :
  threshold_relaxation false [5; 7; 9]%Q [Fin 1; Fin (9#10); Fin (4#5)] inv_e true
  = threshold_relaxation false [5; 7; 9]%Q [Fin (1#10); Fin (1#20); Fin 0] inv_e true.
Proof. vm_compute. reflexivity. Qed.

(** C43 *)
Theorem C43_first_maximum : forall time value i v t,
  length time = length value -> first_max value i v -> v <> NInf -> nth_error time i = Some t ->
  (exists e, max_time_relaxation time value = inl (Fin t, e))
  /\ (all_finite value -> exists e, max_value_relaxation time value = inl (v, e)).
Proof.
  intros time value i v t L F N Ht. split.
  - destruct (max_time_at time value i v t L F N Ht) as (e & E & _). eauto.
  - intros A. destruct (max_value_at time value i v L F A) as (e & E & _). eauto.
Qed.
Print Assumptions C43_first_maximum.

Theorem C43_maximum_exists : forall value,
  (exists i v, nth_error value i = Some v /\ v <> NaN) ->
  (forall i v, nth_error value i = Some v -> v <> NInf) ->
  exists i v, first_max value i v /\ v <> NInf
  /\ forall j w, first_max value j w -> j = i /\ w = v.
Proof.
  intros value H N. destruct (first_max_exists value H N) as (i & v & F). exists i, v.
  refine (conj F (conj _ _)).
  - destruct F as (F & _). eauto.
  - intros j w G. eapply first_max_unique; eauto.
Qed.
Print Assumptions C43_maximum_exists.

Theorem C43_no_maximum : forall time value,
  (length time = length value -> (forall i v, nth_error value i = Some v -> v = NaN) ->
   max_time_relaxation time value = inl (NaN, NaN) /\ max_value_relaxation time value = inl (NaN, NaN))
  /\ (length time <> length value ->
      max_time_relaxation time value = inr RuntimeError /\ max_value_relaxation time value = inr RuntimeError).
Proof. intros. split; [apply max_all_nan|apply max_lengths]. Qed.
Print Assumptions C43_no_maximum.

Example C43_example :
  max_time_relaxation [0; 1; 2; 4]%Q [NaN; Fin 2; Fin 7; Fin 7] = inl (Fin 2, Fin ((4 - 1) / 2)%Q)
  /\ max_value_relaxation [0; 1; 2; 4]%Q [Fin 0; Fin 2; Fin 7; Fin 7]
     = inl (Fin 7, Fin (((7 - 2) + (7 - 7)) / 2)%Q).
Proof. vm_compute. split; reflexivity. Qed.
Example C43_hypotheses : first_max [NaN; Fin 2; Fin 7; Fin 7] 2 (Fin 7).
Proof.
  repeat apply conj; auto; try discriminate.
  - intros [|[|[|[|j]]]] w H; simpl in H; try (destruct j; discriminate); injection H as <-; reflexivity.
  - intros [|[|j]] w L H N; simpl in H; try lia; injection H as <-; [congruence|reflexivity].
Qed.
(** Why -inf and inf are excluded. *)
Example C43_minus_infinity : max_value_relaxation [0; 1]%Q [NaN; NInf] = inl (NaN, NaN).
Proof. reflexivity. Qed.
Example C43_infinity : max_value_relaxation [0; 1]%Q [PInf; PInf] = inr FloatingPointError.
Proof. reflexivity. Qed.

(** C44 *)
Theorem C44_time_error : forall time value i v t e,
  length time = length value -> first_max value i v -> v <> NInf ->
  max_time_relaxation time value = inl (t, Fin e) ->
  neighbour_gap (fun a b => b - a)%Q time i e
  /\ (increasing time -> (2 <= length time)%nat -> (0 < e)%Q).
Proof.
  intros time value i v t e L F N H.
  assert (exists t', nth_error time i = Some t') as (t' & Ht).
  { destruct F as (F & _). apply nth_len in F. apply nth_lt. lia. }
  destruct (max_time_at time value i v t' L F N Ht) as (e' & E & G). rewrite E in H.
  injection H as <- <-. split; auto. intros I L2. eapply gap_positive; eauto.
Qed.
Print Assumptions C44_time_error.

Theorem C44_value_error : forall time value,
  length time = length value -> value <> [] -> all_finite value ->
  exists m e i, max_value_relaxation time value = inl (Fin m, Fin e) /\ (0 <= e)%Q
  /\ nth_error value i = Some (Fin m)
  /\ neighbour_gap (fun a b => match a, b with Fin x, Fin y => Qabs (y - x) | _, _ => 0 end)%Q value i e.
Proof.
  intros time value L N A.
  destruct (first_max_exists value) as (i & v & F).
  - destruct value as [|v l]; [congruence|]. exists 0%nat, v. split; auto.
    destruct (A 0%nat v eq_refl) as (q & ->). discriminate.
  - intros i v H. destruct (A _ _ H) as (q & ->). discriminate.
  - destruct (max_value_at time value i v L F A) as (e & E & G & P).
    destruct F as (F & _). destruct (A _ _ F) as (q & ->).
    exists q, e, i. repeat apply conj; auto.
    destruct G as (x & Hx & G). exists x. split; auto. rewrite Hx in F. injection F as ->.
    destruct G as [G|[G|[G|G]]].
    + left. destruct G as (p & n & G1 & G2 & G3 & G4). exists p, n. repeat apply conj; auto.
      destruct (A _ _ G2) as (pq & ->), (A _ _ G3) as (nq & ->). exact G4.
    + right; left. destruct G as (p & G1 & G2 & G3 & G4). exists p. repeat apply conj; auto.
      destruct (A _ _ G3) as (pq & ->). exact G4.
    + right; right; left. destruct G as (n & G1 & G2 & G3). exists n. repeat apply conj; auto.
      destruct (A _ _ G2) as (nq & ->). exact G3.
    + right; right; right. exact G.
Qed.
Print Assumptions C44_value_error.
Example C44_example :
  max_time_relaxation [0; 1; 3]%Q [Fin 1; Fin 2; Fin 5] = inl (Fin 3, Fin (3 - 1)%Q)
  /\ max_value_relaxation [0; 1; 3]%Q [Fin 6; Fin 2; Fin 5] = inl (Fin 6, Fin (6 - 2)%Q).
Proof. vm_compute. split; reflexivity. Qed.
