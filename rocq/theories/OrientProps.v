(** C163, C164: what create_orient_ordering calls ordered. *)
From Coq Require Import Reals ZArith List Bool Arith Lia Lra Permutation.
From Verif Require Import Base RVec RVecFacts RelaxFitModel FrameModel MotionModel MotionSpec MotionProofs EndModel
  OrderModel OrderSpec OrderProofs OrderProps UtilSpec UtilProps NeighModel NeighSpec NeighProofs NeighProps OrientSpec.
Import ListNotations.
Open Scope R_scope.

Lemma agreement_perm theta i l l' : Permutation l l' -> agreement theta i l = agreement theta i l'.
Proof. intros P. unfold agreement. induction P; cbn in *; lra. Qed.
Lemma agreement_bounds theta i l : 0 <= agreement theta i l <= INR (length l).
Proof.
  induction l as [|j l IH]; [cbn; lra|]. cbn [length]. rewrite S_INR. cbn [agreement fold_right]. fold (agreement theta i l).
  pose proof (COS_bound (nth j theta 0 - nth i theta 0)). nra.
Qed.
Lemma same_view_refl b x r i : same_view b x x r i i (fun j => j).
Proof. split; [auto|]. split; [eauto|]. split; [auto|]. intros; tauto. Qed.
Lemma slots_filled n absent k l f : (n <= absent)%nat -> (forall j, In j l -> (j < n)%nat) -> (length l <= k)%nat -> (0 < k)%nat ->
  slot_mean n (filled absent k l) f = (fold_right (fun j s => f j + s) 0 l + INR (k - length l)) / INR k.
Proof.
  intros AB J K K0. unfold slot_mean, filled. rewrite app_length, repeat_length.
  replace (length l + (k - length l))%nat with k by lia. f_equal. rewrite fold_right_app.
  assert (E : forall m, fold_right (fun j s => (if (j <? n)%nat then f j else 1) + s) 0 (repeat absent m) = INR m).
  { induction m; [reflexivity|]. cbn [repeat fold_right]. rewrite IHm, S_INR. destruct (Nat.ltb_spec absent n); [lia|lra]. }
  rewrite E. clear E. generalize (INR (k - length l)). intros z. clear K. induction l as [|j l IH]; cbn [fold_right]; [lra|].
  rewrite IH by (intros; apply J; right; auto). destruct (Nat.ltb_spec j n) as [|H]; [lra|].
  specialize (J j (or_introl eq_refl)). lia.
Qed.

Section Any.
  Variable nr : R.
  Variable nearest : fbox -> list v3 -> R -> nat -> nat -> list nat.
  Variable absent : nat.
  Notation order := (order_of nr nearest absent).
  Notation ordering := (orient_ordering_of nr nearest absent).

  Lemma order_planar c b theta r k : (nr = 0 \/ nr = PI) -> flat_of (c_box c) b ->
    Forall2 turned (c_ori c) theta -> length (c_pos c) = length (c_ori c) -> (length (c_ori c) <= absent)%nat ->
    answers nearest b (c_pos c) r k -> (0 < k)%nat ->
    exists w, order c r k = inl w /\ length w = length (c_pos c) /\
      forall i, (i < length (c_pos c))%nat ->
        nth i w 0 = (agreement theta i (nearest b (c_pos c) r k i) + INR (k - length (nearest b (c_pos c) r k i))) / INR k.
  Proof.
    intros NR F T L AB A K. unfold order_of, compute_neighbours. rewrite (flat_box_of _ _ F). cbn [MotionModel.ebind].
    set (nl := map (fun i => filled absent k (nearest b (c_pos c) r k i)) (seq 0 (length (c_pos c)))).
    assert (LN : length nl = length (c_ori c)) by (unfold nl; rewrite map_length, seq_length; exact L).
    destruct (C82_planar nr nl (c_ori c) theta NR LN T) as (w & E & LW & V). exists w. split; auto. split; [congruence|].
    intros i I. rewrite V by lia. unfold nl.
    rewrite (nth_indep _ [] (filled absent k (nearest b (c_pos c) r k 0%nat))) by (rewrite map_length, seq_length; lia).
    rewrite (map_nth (fun i => filled absent k (nearest b (c_pos c) r k i))), seq_nth by lia. cbn [plus].
    destruct (A i I) as (_ & LE & O & _). apply slots_filled; auto. intros j J. destruct (O j J) as (H & _). lia.
  Qed.

  (** ** C163 *)
  Theorem C163_ordered : forall c b theta t, (nr = 0 \/ nr = PI) -> flat_of (c_box c) b ->
    Forall2 turned (c_ori c) theta -> length (c_pos c) = length (c_ori c) -> (length (c_ori c) <= absent)%nat ->
    answers nearest b (c_pos c) (35 / 10) 8 ->
    exists w, ordering t c = inl w /\ length w = length (c_pos c) /\
      forall i l, (i < length (c_pos c))%nat -> clear_cut b (c_pos c) (35 / 10) 8 i ->
        nearest_list b (c_pos c) (35 / 10) 8 i l ->
        (nth i w false = true <-> t < (agreement theta i l + INR (8 - length l)) / 8).
  Proof.
    intros c b theta t NR F T L AB A. destruct (order_planar c b theta (35 / 10) 8 NR F T L AB A) as (w & E & LW & V); [lia|].
    exists (map (fun x => Rltb t x) w). unfold orient_ordering_of. rewrite E. cbn [MotionModel.ebind].
    split; auto. split; [rewrite map_length; exact LW|]. intros i l I C N.
    rewrite (nth_indep _ false (Rltb t 0)) by (rewrite map_length; lia). rewrite (map_nth (fun x => Rltb t x)), V by auto.
    assert (P : Permutation (nearest b (c_pos c) (35 / 10) 8 i) l).
    { rewrite <- (map_id (nearest b (c_pos c) (35 / 10) 8 i)). symmetry.
      eapply (view_perm b (c_pos c) (c_pos c) (35 / 10) 8 i i (fun j => j)); eauto using same_view_refl. }
    rewrite (agreement_perm theta i _ _ P), (Permutation_length P).
    replace (INR 8) with 8 by (cbn; lra). unfold Rltb. destruct (Rlt_dec t _); split; auto; try discriminate; lra.
  Qed.
  (** A higher threshold only takes molecules away; from 1 on there are none, below 0 all. *)
  Theorem C163_threshold : forall c b theta t t', (nr = 0 \/ nr = PI) -> flat_of (c_box c) b ->
    Forall2 turned (c_ori c) theta -> length (c_pos c) = length (c_ori c) -> (length (c_ori c) <= absent)%nat ->
    answers nearest b (c_pos c) (35 / 10) 8 ->
    exists w w', ordering t c = inl w /\ ordering t' c = inl w' /\
      forall i, (i < length (c_pos c))%nat ->
        (t <= t' -> nth i w' false = true -> nth i w false = true) /\
        (1 <= t -> nth i w false = false) /\ (t < 0 -> nth i w false = true).
  Proof.
    intros c b theta t t' NR F T L AB A. destruct (order_planar c b theta (35 / 10) 8 NR F T L AB A) as (w & E & LW & V); [lia|].
    exists (map (fun x => Rltb t x) w), (map (fun x => Rltb t' x) w). unfold orient_ordering_of. rewrite E. cbn [MotionModel.ebind].
    split; auto. split; auto. intros i I.
    assert (N : forall s, nth i (map (fun x => Rltb s x) w) false = Rltb s (nth i w 0)).
    { intros s. rewrite (nth_indep _ false (Rltb s 0)) by (rewrite map_length; lia). apply (map_nth (fun x => Rltb s x)). }
    rewrite !N, (V i I). pose proof (agreement_bounds theta i (nearest b (c_pos c) (35 / 10) 8 i)) as B.
    destruct (A i I) as (_ & LE & _). rewrite minus_INR by exact LE.
    set (v := (_ / _)). assert (0 <= v <= 1).
    { unfold v. replace (INR 8) with 8 by (cbn; lra). pose proof (le_INR _ _ LE) as LE'. replace (INR 8) with 8 in LE' by (cbn; lra). lra. }
    unfold Rltb. destruct (Rlt_dec t v), (Rlt_dec t' v); split; try (split); intros; auto; try discriminate; lra.
  Qed.

  (** ** C164 *)
  Theorem C164_average_partial : forall c b theta r k, (nr = 0 \/ nr = PI) -> flat_of (c_box c) b ->
    Forall2 turned (c_ori c) theta -> length (c_pos c) = length (c_ori c) -> (length (c_ori c) <= absent)%nat ->
    answers nearest b (c_pos c) r k -> (0 < k)%nat ->
    exists w, order c r k = inl w /\ length w = length (c_pos c) /\
      forall i, (i < length (c_pos c))%nat -> exists l, nearest_list b (c_pos c) r k i l /\
        (length l = k -> nth i w 0 = agreement theta i l / INR (length l)) /\
        (l <> [] -> agreement theta i l / INR (length l) <= nth i w 0 <= 1) /\
        (l = [] -> nth i w 0 = 1).
  Proof.
    intros c b theta r k NR F T L AB A K. destruct (order_planar c b theta r k NR F T L AB A K) as (w & E & LW & V).
    exists w. split; auto. split; auto. intros i I. exists (nearest b (c_pos c) r k i). split; [apply A; auto|].
    rewrite (V i I). destruct (A i I) as (_ & LE & _). set (l := nearest b (c_pos c) r k i) in *.
    assert (K' : 0 < INR k) by (apply lt_0_INR; auto). pose proof (agreement_bounds theta i l) as B. pose proof (le_INR _ _ LE).
    split; [|split].
    - intros EL. rewrite EL, Nat.sub_diag. cbn [INR]. f_equal. lra.
    - intros NE. rewrite minus_INR by auto. assert (P : 0 < INR (length l)).
      { apply lt_0_INR. destruct l; [contradiction|cbn; lia]. }
      set (a := agreement theta i l) in *. set (m := INR (length l)) in *. set (q := INR k) in *. split.
      + apply Rmult_le_reg_r with (m * q); [nra|]. replace (a / m * (m * q)) with (a * q) by (field; lra).
        replace ((a + (q - m)) / q * (m * q)) with ((a + (q - m)) * m) by (field; lra). nra.
      + apply Rmult_le_reg_r with q; auto. replace ((a + (q - m)) / q * q) with (a + (q - m)) by (field; lra). lra.
    - intros EL. rewrite EL. cbn [length agreement fold_right]. rewrite Nat.sub_0_r. field. lra.
  Qed.
End Any.
Print Assumptions C163_ordered.
Print Assumptions C163_threshold.
Print Assumptions C164_average_partial.

(** Two molecules at right angles are the only neighbours of each other: the average is 0. *)
Definition crossed : config := mkconfig [10; 10; 1] duo [zquat 0; zquat (PI / 2)].
Lemma crossed_turned : Forall2 turned (c_ori crossed) [0; PI / 2].
Proof. constructor; [left; reflexivity|]. constructor; [left; reflexivity|constructor]. Qed.
Lemma duo_clear i : (i < 2)%nat -> clear_cut box10 duo (35 / 10) 8 i.
Proof.
  intros H. destruct (duo_answers i H) as (N & K & I & O & _).
  exists (35 / 10), (duo_nearest box10 duo (35 / 10) 8 i). split; [lra|]. split; auto. split; [|right; auto].
  intros j. split; auto. intros J. destruct (in_dec Nat.eq_dec j (duo_nearest box10 duo (35 / 10) 8 i)) as [|NI]; auto.
  destruct (O j J NI) as (E & _). exfalso. revert E. unfold duo_nearest. destruct i; cbn; discriminate.
Qed.
Lemma crossed_agreement i : (i < 2)%nat -> agreement [0; PI / 2] i (duo_nearest box10 duo (35 / 10) 8 i) = 0.
Proof.
  intros H. destruct i as [|[|i]]; [| |lia]; cbn [duo_nearest agreement fold_right nth].
  - rewrite Rminus_0_r, cos_PI2. ring.
  - rewrite Rminus_0_l, cos_neg, cos_PI2. ring.
Qed.
Theorem C164_average_refuted : exists (nearest : fbox -> list v3 -> R -> nat -> nat -> list nat) c b theta,
  flat_of (c_box c) b /\ Forall2 turned (c_ori c) theta /\ length (c_pos c) = length (c_ori c) /\
  answers nearest b (c_pos c) (35 / 10) 8 /\
  exists l, nearest_list b (c_pos c) (35 / 10) 8 0 l /\ l <> [] /\ agreement theta 0 l / INR (length l) = 0 /\
  forall nr absent, (nr = 0 \/ nr = PI) -> (2 <= absent)%nat ->
    (exists w, order_of nr nearest absent c (35 / 10) 8 = inl w /\ nth 0 w 0 = 7 / 8) /\
    exists w, orient_ordering_of nr nearest absent (8 / 10) c = inl w /\ nth 0 w false = true.
Proof.
  exists duo_nearest, crossed, box10, [0; PI / 2]. split; [apply box10_flat|]. split; [apply crossed_turned|]. split; [reflexivity|].
  split; [apply duo_answers|]. assert (H0 : (0 < 2)%nat) by lia.
  exists (duo_nearest box10 duo (35 / 10) 8 0). split; [apply duo_answers; exact H0|]. split; [discriminate|].
  split; [rewrite crossed_agreement by lia; unfold Rdiv; ring|]. intros nr absent NR AB. split.
  - destruct (order_planar nr duo_nearest absent crossed box10 [0; PI / 2] (35 / 10) 8) as (w & E & _ & V);
      auto using box10_flat, crossed_turned, duo_answers; [lia|]. exists w. split; auto.
    rewrite V by exact H0. change (c_pos crossed) with duo. rewrite crossed_agreement by lia. cbn [duo_nearest length Nat.sub].
    replace (INR 7) with 7 by (cbn; lra). replace (INR 8) with 8 by (cbn; lra). field.
  - destruct (C163_ordered nr duo_nearest absent crossed box10 [0; PI / 2] (8 / 10)) as (w & E & _ & V);
      auto using box10_flat, crossed_turned, duo_answers. exists w. split; auto.
    apply (V 0%nat (duo_nearest box10 duo (35 / 10) 8 0) H0); [apply duo_clear; exact H0|apply duo_answers; exact H0|].
    rewrite crossed_agreement by lia. cbn [duo_nearest length Nat.sub]. replace (INR 7) with 7 by (cbn; lra). lra.
Qed.
Print Assumptions C164_average_refuted.
(** With the threshold 0.9 neither is ordered. *)
Example C163_ex nr : (nr = 0 \/ nr = PI) ->
  exists w, orient_ordering_of nr duo_nearest 2 (9 / 10) crossed = inl w /\ nth 0 w false = false /\ nth 1 w false = false.
Proof.
  intros NR. destruct (C163_ordered nr duo_nearest 2 crossed box10 [0; PI / 2] (9 / 10)) as (w & E & _ & V);
    auto using box10_flat, crossed_turned, duo_answers. exists w. split; auto.
  assert (Q : forall i, (i < 2)%nat -> nth i w false = false).
  { intros i I. apply not_true_is_false. rewrite (V i (duo_nearest box10 duo (35 / 10) 8 i) I (duo_clear i I) (duo_answers i I)).
    rewrite crossed_agreement by auto. replace (length (duo_nearest box10 duo (35 / 10) 8 i)) with 1%nat by (destruct i; reflexivity).
    cbn [Nat.sub]. replace (INR 7) with 7 by (cbn; lra). lra. }
  split; apply Q; lia.
Qed.
(** With one neighbour asked for, the value is that of the neighbour. *)
Example C164_ex nr : (nr = 0 \/ nr = PI) ->
  exists w, order_of nr duo_nearest 2 crossed (35 / 10) 1 = inl w /\ nth 0 w 0 = 0.
Proof.
  intros NR. assert (A : answers duo_nearest box10 duo (35 / 10) 1).
  { intros i H. destruct (duo_answers i H) as (N & _ & I & O & S).
    assert (L : length (duo_nearest box10 duo (35 / 10) 1 i) = 1%nat) by (destruct i; reflexivity).
    split; [exact N|]. split; [lia|]. split; [exact I|]. split; [|intros s t ST; lia].
    intros j J NI. destruct (O j J NI) as (E & Q). split; auto. }
  destruct (C164_average_partial nr duo_nearest 2 crossed box10 [0; PI / 2] (35 / 10) 1) as (w & E & _ & V);
    auto using box10_flat, crossed_turned. exists w. split; auto.
  destruct (V 0%nat) as (l & (N & K & I & O & _) & V1 & _); [cbn; lia|].
  assert (L : l = [1%nat]).
  { destruct (A 0%nat) as (_ & _ & IA & _); [cbn; lia|]. specialize (IA 1%nat (or_introl eq_refl)).
    destruct l as [|j [|? ?]]; [|f_equal|cbn in K; lia].
    - destruct (O 1%nat IA (fun F => F)) as (F & _). discriminate F.
    - destruct (I j (or_introl eq_refl)) as (H1 & H2 & _). cbn in H1. lia. }
  rewrite V1 by (rewrite L; reflexivity). rewrite L. change [1%nat] with (duo_nearest box10 duo (35 / 10) 8 0).
  rewrite crossed_agreement by lia. unfold Rdiv. ring.
Qed.
