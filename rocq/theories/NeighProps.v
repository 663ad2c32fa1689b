(** C159, C160, C161, C162: ordering of a configuration. *)
From Coq Require Import Reals ZArith List Bool Arith Lia Lra Permutation.
From Verif Require Import Base RVec RVecFacts RelaxFitModel FrameModel MotionModel MotionSpec MotionProofs EndModel
  OrderModel OrderSpec OrderProofs UtilSpec UtilProps NeighModel NeighSpec NeighProofs.
Import ListNotations.
Open Scope R_scope.

Lemma flat_box_of box b : flat_of box b -> flat_box box = inl b.
Proof. intros (Lx & Ly & Lz & [(-> & ->)|(xy & xz & yz & -> & ->)]); reflexivity. Qed.

Section Any.
  Variable nr : R.
  Variable nearest : fbox -> list v3 -> R -> nat -> nat -> list nat.
  Variable absent : nat.
  Notation relative := (relative_orientations nr nearest absent).
  Notation order := (order_of nr nearest absent).

  Lemma relative_value c b r k : flat_of (c_box c) b -> length (c_pos c) = length (c_ori c) ->
    relative c r k = inl (map (fun i => row_of nr (c_ori c) i (filled absent k (nearest b (c_pos c) r k i)))
                              (seq 0 (length (c_pos c)))).
  Proof.
    intros F L. unfold relative_orientations, compute_neighbours. rewrite (flat_box_of _ _ F). cbn [MotionModel.ebind].
    rewrite relative_rows by (rewrite map_length, seq_length; exact L). rewrite <- L. f_equal.
    apply map_ext_in. intros i I. apply in_seq in I. f_equal.
    rewrite (nth_indep _ [] (filled absent k (nearest b (c_pos c) r k 0%nat))) by (rewrite map_length, seq_length; lia).
    rewrite (map_nth (fun i => filled absent k (nearest b (c_pos c) r k i))), seq_nth by lia. reflexivity.
  Qed.
  Definition mean_of (row : list R) : R := rmean (map (fun x => cos x * cos x) row).
  Lemma order_value c b r k : flat_of (c_box c) b -> length (c_pos c) = length (c_ori c) ->
    order c r k = inl (map (fun i => mean_of (row_of nr (c_ori c) i (filled absent k (nearest b (c_pos c) r k i))))
                           (seq 0 (length (c_pos c)))).
  Proof.
    intros F L. pose proof (relative_value c b r k F L) as E. revert E.
    unfold order_of, relative_orientations, orientational_order, compute_neighbours. rewrite (flat_box_of _ _ F). cbn [MotionModel.ebind].
    intros ->. cbn [MotionModel.ebind]. rewrite map_map. reflexivity.
  Qed.
  Lemma filled_perm k l l' : Permutation l l' -> Permutation (filled absent k l) (filled absent k l').
  Proof. intros P. unfold filled. rewrite (Permutation_length P). apply Permutation_app_tail, P. Qed.
  Lemma mean_row_perm o i l l' : Permutation l l' -> mean_of (row_of nr o i l) = mean_of (row_of nr o i l').
  Proof. intros P. apply mean_perm. unfold row_of. apply Permutation_map, Permutation_map, P. Qed.

  (** ** C159 *)
  Theorem C159_relative : forall c c' b r k,
    flat_of (c_box c) b -> c_box c' = c_box c -> c_ori c' = c_ori c -> moved b (c_pos c) (c_pos c') ->
    length (c_pos c) = length (c_ori c) ->
    answers nearest b (c_pos c) r k -> answers nearest b (c_pos c') r k ->
    (forall i, (i < length (c_pos c))%nat -> no_ties b (c_pos c) r i) ->
    relative c' r k = relative c r k.
  Proof.
    intros c c' b r k F EB EO M L A A' T. pose proof (moved_length _ _ _ M) as LM.
    rewrite (relative_value c b), (relative_value c' b) by (rewrite ?EB, ?EO; congruence). rewrite EO, <- LM. f_equal.
    apply map_ext_in. intros i I. apply in_seq in I. do 2 f_equal.
    assert (Hi : (i < length (c_pos c))%nat) by lia.
    rewrite (view_unique b (c_pos c) (c_pos c') r k i i (fun j => j) (nearest b (c_pos c) r k i) (nearest b (c_pos c') r k i)).
    - apply map_id.
    - apply view_moved; auto.
    - auto.
    - apply A; auto.
    - apply A'. lia.
  Qed.
  Theorem C159_ml : forall (C : Type) (predict : list (list R) -> list C + exn) c c' b,
    flat_of (c_box c) b -> c_box c' = c_box c -> c_ori c' = c_ori c -> moved b (c_pos c) (c_pos c') ->
    length (c_pos c) = length (c_ori c) ->
    answers nearest b (c_pos c) (35 / 10) 8 -> answers nearest b (c_pos c') (35 / 10) 8 ->
    (forall i, (i < length (c_pos c))%nat -> no_ties b (c_pos c) (35 / 10) i) ->
    ml_ordering nr nearest absent predict c' = ml_ordering nr nearest absent predict c.
  Proof. intros C predict c c' b F EB EO M L A A' T. unfold ml_ordering. rewrite (C159_relative c c' b) by auto. reflexivity. Qed.
  Theorem C159_order : forall c c' b r k,
    flat_of (c_box c) b -> c_box c' = c_box c -> c_ori c' = c_ori c -> moved b (c_pos c) (c_pos c') ->
    length (c_pos c) = length (c_ori c) ->
    answers nearest b (c_pos c) r k -> answers nearest b (c_pos c') r k ->
    (forall i, (i < length (c_pos c))%nat -> clear_cut b (c_pos c) r k i) ->
    order c' r k = order c r k.
  Proof.
    intros c c' b r k F EB EO M L A A' T. pose proof (moved_length _ _ _ M) as LM.
    rewrite (order_value c b), (order_value c' b) by (rewrite ?EB, ?EO; congruence). rewrite EO, <- LM. f_equal.
    apply map_ext_in. intros i I. apply in_seq in I. assert (Hi : (i < length (c_pos c))%nat) by lia.
    apply mean_row_perm, filled_perm.
    rewrite (view_perm b (c_pos c) (c_pos c') r k i i (fun j => j) (nearest b (c_pos c) r k i) (nearest b (c_pos c') r k i)).
    - rewrite map_id. reflexivity.
    - apply view_moved; auto.
    - auto.
    - apply A; auto.
    - apply A'. lia.
  Qed.

  (** ** C160 *)
  Lemma row_reordered o sigma k a l : (a < length sigma)%nat -> Permutation sigma (seq 0 (length o)) ->
    (length o <= absent)%nat -> (forall j, In j l -> (j < length sigma)%nat) ->
    row_of nr (reordered qone sigma o) a (filled absent k l) =
    row_of nr o (nth a sigma 0%nat) (filled absent k (map (fun j => nth j sigma 0%nat) l)).
  Proof.
    intros Ha P AB J. pose proof (Permutation_length P) as LS. rewrite seq_length in LS.
    assert (LR : length (reordered qone sigma o) = length o) by (unfold reordered; rewrite map_length; exact LS).
    assert (Q : forall j, (j < length sigma)%nat -> nth j (reordered qone sigma o) qone = nth (nth j sigma 0%nat) o qone).
    { intros j Hj. unfold reordered. rewrite (nth_indep _ qone (nth 0 o qone)) by (rewrite map_length; auto).
      rewrite (map_nth (fun i => nth i o qone)). reflexivity. }
    assert (B : forall j, (j < length sigma)%nat -> (nth j sigma 0 < length o)%nat).
    { intros j Hj. assert (I : In (nth j sigma 0%nat) (seq 0 (length o))) by (eapply Permutation_in; [exact P|apply nth_In; auto]).
      apply in_seq in I. lia. }
    unfold row_of, filled. rewrite !map_app, map_length, map_map, LR. f_equal.
    - apply map_ext_in. intros j Hj. specialize (J j Hj).
      destruct (Nat.ltb_spec j (length o)); [|lia]. destruct (Nat.ltb_spec (nth j sigma 0%nat) (length o)); [|specialize (B j J); lia].
      rewrite (Q j J), (Q a Ha). reflexivity.
    - apply map_ext_in. intros j Hj. apply repeat_spec in Hj. subst j.
      destruct (Nat.ltb_spec absent (length o)); [lia|]. rewrite (Q a Ha). reflexivity.
  Qed.
  Definition renamed (sigma : list nat) (c : config) : config :=
    mkconfig (c_box c) (reordered zero3 sigma (c_pos c)) (reordered qone sigma (c_ori c)).
  Lemma reordered_map {A} (d : A) sigma n (g : nat -> A) : (forall j, In j sigma -> (j < n)%nat) ->
    map g sigma = reordered d sigma (map g (seq 0 n)).
  Proof.
    intros H. unfold reordered. apply map_ext_in. intros j J. specialize (H j J).
    rewrite (nth_indep _ d (g 0%nat)) by (rewrite map_length, seq_length; auto). rewrite map_nth, seq_nth by auto. reflexivity.
  Qed.
  Lemma map_seq_nth {A} (g : nat -> A) sigma : map (fun a => g (nth a sigma 0%nat)) (seq 0 (length sigma)) = map g sigma.
  Proof.
    induction sigma as [|z sigma IH]; cbn [length seq map nth]; auto. f_equal. rewrite <- seq_shift, map_map. exact IH.
  Qed.
  Theorem C160_relative : forall c b r k sigma,
    flat_of (c_box c) b -> length (c_pos c) = length (c_ori c) -> (length (c_ori c) <= absent)%nat ->
    Permutation sigma (seq 0 (length (c_pos c))) ->
    answers nearest b (c_pos c) r k -> answers nearest b (reordered zero3 sigma (c_pos c)) r k ->
    (forall i, (i < length (c_pos c))%nat -> no_ties b (c_pos c) r i) ->
    exists res, relative c r k = inl res /\ length res = length (c_pos c) /\
      relative (renamed sigma c) r k = inl (reordered [] sigma res).
  Proof.
    intros c b r k sigma F L AB P A A' T. pose proof (Permutation_length P) as LS. rewrite seq_length in LS.
    assert (B : forall j, In j sigma -> (j < length (c_pos c))%nat).
    { intros j J. assert (I : In j (seq 0 (length (c_pos c)))) by (eapply Permutation_in; [exact P|exact J]). apply in_seq in I. lia. }
    eexists. split; [apply (relative_value c b); auto|]. split; [rewrite map_length, seq_length; reflexivity|].
    rewrite (relative_value (renamed sigma c) b); cbn [renamed c_box c_pos c_ori]; auto.
    2:{ unfold reordered. rewrite !map_length. reflexivity. }
    f_equal. rewrite <- (reordered_map [] sigma (length (c_pos c)) _ B). rewrite <- (map_seq_nth _ sigma).
    assert (LR : length (reordered zero3 sigma (c_pos c)) = length sigma) by (unfold reordered; apply map_length).
    rewrite LR. apply map_ext_in. intros a Ha. apply in_seq in Ha.
    assert (Hs : (a < length sigma)%nat) by lia.
    assert (Ia : (nth a sigma 0 < length (c_pos c))%nat) by (apply B, nth_In; auto).
    assert (A1 : nearest_list b (reordered zero3 sigma (c_pos c)) r k a (nearest b (reordered zero3 sigma (c_pos c)) r k a))
      by (apply A'; rewrite LR; exact Hs).
    rewrite row_reordered; auto; [|rewrite <- L; exact P|].
    - do 2 f_equal. symmetry.
      apply (nearest_unique b (c_pos c) r k (nth a sigma 0%nat)); auto.
      apply (nearest_view b (reordered zero3 sigma (c_pos c)) (c_pos c) r k a); auto. apply view_reordered; auto.
    - intros j J. destruct A1 as (_ & _ & I & _). destruct (I j J) as (I1 & _). lia.
  Qed.
  Theorem C160_order : forall c b r k sigma,
    flat_of (c_box c) b -> length (c_pos c) = length (c_ori c) -> (length (c_ori c) <= absent)%nat ->
    Permutation sigma (seq 0 (length (c_pos c))) ->
    answers nearest b (c_pos c) r k -> answers nearest b (reordered zero3 sigma (c_pos c)) r k ->
    (forall i, (i < length (c_pos c))%nat -> clear_cut b (c_pos c) r k i) ->
    exists res, order c r k = inl res /\ length res = length (c_pos c) /\
      order (renamed sigma c) r k = inl (reordered 0 sigma res).
  Proof.
    intros c b r k sigma F L AB P A A' T. pose proof (Permutation_length P) as LS. rewrite seq_length in LS.
    assert (B : forall j, In j sigma -> (j < length (c_pos c))%nat).
    { intros j J. assert (I : In j (seq 0 (length (c_pos c)))) by (eapply Permutation_in; [exact P|exact J]). apply in_seq in I. lia. }
    eexists. split; [apply (order_value c b); auto|]. split; [rewrite map_length, seq_length; reflexivity|].
    rewrite (order_value (renamed sigma c) b); cbn [renamed c_box c_pos c_ori]; auto.
    2:{ unfold reordered. rewrite !map_length. reflexivity. }
    f_equal. rewrite <- (reordered_map 0 sigma (length (c_pos c)) _ B). rewrite <- (map_seq_nth _ sigma).
    assert (LR : length (reordered zero3 sigma (c_pos c)) = length sigma) by (unfold reordered; apply map_length).
    rewrite LR. apply map_ext_in. intros a Ha. apply in_seq in Ha.
    assert (Hs : (a < length sigma)%nat) by lia.
    assert (Ia : (nth a sigma 0 < length (c_pos c))%nat) by (apply B, nth_In; auto).
    assert (A1 : nearest_list b (reordered zero3 sigma (c_pos c)) r k a (nearest b (reordered zero3 sigma (c_pos c)) r k a))
      by (apply A'; rewrite LR; exact Hs).
    rewrite row_reordered; auto; [|rewrite <- L; exact P|].
    - apply mean_row_perm, filled_perm. symmetry.
      destruct (T _ Ia) as (rho & s & L1 & ND & S & Q).
      rewrite (clear_perm b (c_pos c) r k (nth a sigma 0%nat) (nearest b (c_pos c) r k (nth a sigma 0%nat)) rho s) by auto.
      symmetry. apply (clear_perm b (c_pos c) r k (nth a sigma 0%nat) _ rho s); auto.
      apply (nearest_view b (reordered zero3 sigma (c_pos c)) (c_pos c) r k a); auto. apply view_reordered; auto.
    - intros j J. destruct A1 as (_ & _ & I & _). destruct (I j J) as (I1 & _). lia.
  Qed.

  (** ** C161 *)
  Lemma view_surroundings b x x' o o' r i : (i < length x)%nat -> same_surroundings b x x' o o' r i ->
    same_view b x x' r i i (fun j => j).
  Proof.
    intros I (L & N & _). split; [|split; [|split]]; auto.
    - intros j (J1 & J2 & J3). split; [lia|]. split; auto. apply N; auto. lra.
    - intros j (J1 & J2 & J3). exists j. split; auto. split; [lia|]. split; auto. apply N; auto; [lia|lra].
    - intros j rho H (J1 & _). apply N; auto.
  Qed.
  Lemma row_surroundings o o' i k l : length o = length o' -> nth i o qone = nth i o' qone ->
    (forall j, In j l -> nth j o qone = nth j o' qone) -> (length o <= absent)%nat ->
    row_of nr o i (filled absent k l) = row_of nr o' i (filled absent k l).
  Proof.
    intros L E Q AB. unfold row_of, filled. rewrite !map_app, L. f_equal; apply map_ext_in; intros j J.
    - destruct (j <? length o')%nat; rewrite ?E, ?(Q j J); reflexivity.
    - apply repeat_spec in J. subst j. destruct (Nat.ltb_spec absent (length o')); [lia|]. rewrite E. reflexivity.
  Qed.
  Theorem C161_local : forall c c' b r k i,
    flat_of (c_box c) b -> c_box c' = c_box c -> length (c_pos c) = length (c_ori c) ->
    length (c_pos c') = length (c_ori c') -> (length (c_ori c) <= absent)%nat ->
    answers nearest b (c_pos c) r k -> answers nearest b (c_pos c') r k ->
    (i < length (c_pos c))%nat -> same_surroundings b (c_pos c) (c_pos c') (c_ori c) (c_ori c') r i ->
    exists res res', relative c r k = inl res /\ relative c' r k = inl res' /\
      (no_ties b (c_pos c) r i -> nth i res [] = nth i res' []) /\
      exists w w', order c r k = inl w /\ order c' r k = inl w' /\
      (clear_cut b (c_pos c) r k i -> nth i w 0 = nth i w' 0).
  Proof.
    intros c c' b r k i F EB L L' AB A A' I S. pose proof S as (LX & _ & SO).
    do 2 eexists. split; [apply (relative_value c b); auto|]. split; [apply (relative_value c' b); auto; rewrite EB; auto|].
    assert (I' : (i < length (c_pos c'))%nat) by lia.
    assert (V : same_view b (c_pos c) (c_pos c') r i i (fun j => j)) by (eapply view_surroundings; eauto).
    assert (Ei : nth i (c_ori c) qone = nth i (c_ori c') qone) by (apply SO; auto).
    assert (Q : forall j, In j (nearest b (c_pos c) r k i) -> nth j (c_ori c) qone = nth j (c_ori c') qone).
    { intros j J. destruct (A i I) as (_ & _ & H & _). destruct (H j J) as (H1 & _ & H3). apply SO; auto. }
    assert (LO : length (c_ori c) = length (c_ori c')) by congruence.
    assert (NTH : forall {B : Type} (d : B) (g : nat -> B) n, (i < n)%nat -> nth i (map g (seq 0 n)) d = g i).
    { intros B d g n Hn. rewrite (nth_indep _ d (g 0%nat)) by (rewrite map_length, seq_length; auto).
      rewrite map_nth, seq_nth by auto. reflexivity. }
    split.
    - intros T. rewrite !NTH by auto.
      rewrite (view_unique b (c_pos c) (c_pos c') r k i i (fun j => j) (nearest b (c_pos c) r k i) (nearest b (c_pos c') r k i)); auto.
      rewrite map_id. apply row_surroundings; auto.
    - do 2 eexists. split; [apply (order_value c b); auto|]. split; [apply (order_value c' b); auto; rewrite EB; auto|].
      intros C. rewrite !NTH by auto.
      rewrite (row_surroundings (c_ori c) (c_ori c')); auto. apply mean_row_perm, filled_perm. symmetry.
      rewrite <- (map_id (nearest b (c_pos c) r k i)).
      eapply view_perm; [exact V|exact C|apply A; auto|apply A'; auto].
  Qed.

  (** A model that looks at each molecule by itself *)
  Theorem C160_ml : forall (C : Type) (g : list R -> C) (d : C) c b sigma,
    flat_of (c_box c) b -> length (c_pos c) = length (c_ori c) -> (length (c_ori c) <= absent)%nat ->
    Permutation sigma (seq 0 (length (c_pos c))) ->
    answers nearest b (c_pos c) (35 / 10) 8 -> answers nearest b (reordered zero3 sigma (c_pos c)) (35 / 10) 8 ->
    (forall i, (i < length (c_pos c))%nat -> no_ties b (c_pos c) (35 / 10) i) ->
    exists w, ml_ordering nr nearest absent (fun rows => inl (map g rows)) c = inl w /\
      ml_ordering nr nearest absent (fun rows => inl (map g rows)) (renamed sigma c) = inl (reordered d sigma w).
  Proof.
    intros C g d c b sigma F L AB P A A' T. destruct (C160_relative c b (35 / 10) 8 sigma F L AB P A A' T) as (res & E & LR & E').
    unfold ml_ordering. rewrite E, E'. cbn [MotionModel.ebind]. eexists. split; [reflexivity|]. f_equal.
    unfold reordered. rewrite map_map. apply map_ext_in. intros j J.
    assert (I : In j (seq 0 (length (c_pos c)))) by (eapply Permutation_in; [exact P|exact J]). apply in_seq in I.
    rewrite (nth_indep (map g res) d (g [])) by (rewrite map_length; lia). rewrite map_nth. reflexivity.
  Qed.

  (** ** C162 *)
  Theorem C162_sign_partial : forall c b r k o', (nr = 0 \/ nr = PI) ->
    flat_of (c_box c) b -> length (c_pos c) = length (c_ori c) -> (length (c_ori c) <= absent)%nat ->
    answers nearest b (c_pos c) r k -> Forall unit (c_ori c) -> same_turns (c_ori c) o' ->
    same_side b (c_pos c) (c_ori c) r -> same_side b (c_pos c) o' r ->
    relative (mkconfig (c_box c) (c_pos c) o') r k = relative c r k.
  Proof.
    intros c b r k o' NR F L AB A U S S1 S2. pose proof (Forall2_len _ _ _ S) as L'.
    rewrite (relative_value c b), (relative_value (mkconfig (c_box c) (c_pos c) o') b); cbn [c_box c_pos c_ori]; auto; [|congruence].
    f_equal. apply map_ext_in. intros i I. apply in_seq in I. assert (Hi : (i < length (c_pos c))%nat) by lia.
    assert (T : forall j, nth j o' qone = nth j (c_ori c) qone \/ nth j o' qone = qneg (nth j (c_ori c) qone)).
    { clear - S. unfold same_turns in S. induction S as [|q q' l l' H S IH]; intros [|j]; cbn; auto. }
    assert (Un : forall j, unit (nth j (c_ori c) qone)) by (intros; apply nth_unit; auto).
    assert (Un' : forall j, unit (nth j o' qone)) by (intros j; destruct (T j) as [->| ->]; [|apply unit_neg]; auto).
    assert (D : forall j m, 0 <= qdot (nth j (c_ori c) qone) (nth m (c_ori c) qone) -> 0 <= qdot (nth j o' qone) (nth m o' qone) ->
       2 * intrinsic_distance nr (nth j o' qone) (nth m o' qone) = 2 * intrinsic_distance nr (nth j (c_ori c) qone) (nth m (c_ori c) qone)).
    { intros j m D1 D2. destruct (distance_angle nr _ _ (Un j) (Un m) NR) as (G & _). specialize (G D1).
      destruct (distance_angle nr _ _ (Un' j) (Un' m) NR) as (G' & _). specialize (G' D2).
      destruct G as (G1 & G2). destruct G' as (G1' & G2'). apply cos_inj; auto.
      rewrite trace_unit in G2, G2' by (apply unit_mul; auto; apply unit_conj; auto). rewrite qdot_rel in G2, G2'.
      assert (E : qdot (nth j o' qone) (nth m o' qone) * qdot (nth j o' qone) (nth m o' qone) =
                  qdot (nth j (c_ori c) qone) (nth m (c_ori c) qone) * qdot (nth j (c_ori c) qone) (nth m (c_ori c) qone)).
      { destruct (T j) as [->| ->], (T m) as [->| ->]; unfold qdot, qneg; cbn [qw qx qy qz]; ring. }
      lra. }
    assert (SELF : forall q, unit q -> 0 <= qdot q q) by (intros q Uq; change (0 <= qnorm2 q); rewrite Uq; lra).
    unfold row_of. rewrite <- L'. unfold filled. rewrite !map_app. f_equal; apply map_ext_in; intros j J.
    - destruct (A i Hi) as (_ & _ & H & _). specialize (H j J). destruct (Nat.ltb_spec j (length (c_ori c))); [|destruct H; lia].
      apply D; [apply S1|apply S2]; auto.
    - apply repeat_spec in J. subst j. destruct (Nat.ltb_spec absent (length (c_ori c))); [lia|]. apply D; apply SELF; auto.
  Qed.
End Any.
Print Assumptions C159_relative.
Print Assumptions C159_ml.
Print Assumptions C159_order.
Print Assumptions C160_relative.
Print Assumptions C160_order.
Print Assumptions C160_ml.
Print Assumptions C161_local.
Print Assumptions C162_sign_partial.

(** ** Three molecules in a square box of side 10 *)
Definition box10 : fbox := mkbox 10 10 0 0 0 0 true.
Lemma box10_flat : flat_of [10; 10; 1] box10.
Proof. exists 10, 10, 1. left. split; reflexivity. Qed.
Lemma lattice10 v : is_lattice box10 v -> exists a c : Z, v = mk3 (IZR a * 10) (IZR c * 10) 0.
Proof.
  intros (a & c & k & K & ->). exists a, c. unfold lattice, box10. cbn [bx by_ bz bxy bxz byz]. rewrite K by reflexivity.
  apply v3_eq; ring.
Qed.
Lemma shift_sq d (a : Z) : Rabs d <= 5 -> d * d <= (d + IZR a * 10) * (d + IZR a * 10).
Proof.
  intros H. assert (Q : (a <= -1 \/ a = 0 \/ 1 <= a)%Z) by lia.
  assert (H' : -5 <= d <= 5) by (unfold Rabs in H; destruct (Rcase_abs d); lra).
  destruct Q as [Q|[->|Q]].
  - apply IZR_le in Q. nra.
  - right. ring.
  - apply IZR_le in Q. nra.
Qed.
Definition d2 (x : list v3) (i j : nat) : R := norm2_3 (sub3 (pos_of x j) (pos_of x i)).
Definition close_by (x : list v3) (i j : nat) : Prop :=
  let d := sub3 (pos_of x j) (pos_of x i) in Rabs (x3 d) <= 5 /\ Rabs (y3 d) <= 5 /\ z3 d = 0.
Lemma near10 x i j rho : close_by x i j -> near box10 x i j rho <-> 0 < rho /\ d2 x i j < rho * rho.
Proof.
  unfold close_by, d2, near. set (d := sub3 (pos_of x j) (pos_of x i)). cbv zeta. intros (X & Y & Z). split.
  - intros (v & L & N). apply lattice10 in L. destruct L as (a & c & ->). unfold norm3 in N.
    pose proof (sqrt_pos (norm2_3 (add3 d (mk3 (IZR a * 10) (IZR c * 10) 0)))) as P. split; [lra|].
    pose proof (shift_sq (x3 d) a X). pose proof (shift_sq (y3 d) c Y).
    assert (NN : 0 <= norm2_3 (add3 d (mk3 (IZR a * 10) (IZR c * 10) 0))).
    { unfold norm2_3, dot3. nra. }
    assert (S : norm2_3 (add3 d (mk3 (IZR a * 10) (IZR c * 10) 0)) < rho * rho).
    { rewrite <- (sqrt_sqrt (norm2_3 (add3 d (mk3 (IZR a * 10) (IZR c * 10) 0)))) by exact NN. nra. }
    revert S. unfold norm2_3, dot3, add3. cbn [x3 y3 z3]. rewrite Z. nra.
  - intros (P & S). exists zero3. split; [apply is_lattice_zero|]. unfold norm3.
    rewrite <- (sqrt_square rho) by lra. apply sqrt_lt_1_alt. split.
    + unfold norm2_3, dot3. nra.
    + unfold norm2_3, dot3, add3, zero3 in *. cbn [x3 y3 z3] in *. rewrite !Rplus_0_r. exact S.
Qed.
Lemma d2_pos x i j : 0 <= d2 x i j.
Proof. unfold d2, norm2_3, dot3. nra. Qed.
Lemma farther10 x i m j : close_by x i m -> close_by x i j -> no_farther box10 x i m j <-> d2 x i m <= d2 x i j.
Proof.
  intros M J. split.
  - intros H. destruct (Rle_lt_dec (d2 x i m) (d2 x i j)) as [|L]; auto. exfalso. pose proof (d2_pos x i j).
    assert (P : 0 < sqrt (d2 x i m)) by (apply sqrt_lt_R0; lra).
    assert (N : near box10 x i m (sqrt (d2 x i m))).
    { apply H. apply near10; auto. rewrite sqrt_sqrt by lra. split; auto. }
    apply near10 in N; auto. rewrite sqrt_sqrt in N by lra. lra.
  - intros H rho N. apply near10 in N; auto. apply near10; auto. lra.
Qed.
Lemma three_list x i p q : length x = 3%nat -> (forall j m, (j < 3)%nat -> (m < 3)%nat -> close_by x j m) ->
  (i < 3)%nat -> (p < 3)%nat -> (q < 3)%nat -> p <> i -> q <> i -> p <> q ->
  d2 x i p < d2 x i q -> d2 x i q < 12 ->
  nearest_list box10 x (35 / 10) 8 i [p; q] /\ no_ties box10 x (35 / 10) i.
Proof.
  intros L C Hi Hp Hq Np Nq Npq D1 D2.
  assert (EL : forall j, (j < 3)%nat -> j <> i -> j = p \/ j = q) by lia.
  split.
  - split; [|split; [|split; [|split]]].
    + constructor; [cbn; intuition congruence|]. constructor; [cbn; tauto|constructor].
    + cbn. lia.
    + intros j [<-|[<-|[]]]; split; try lia; split; auto; apply near10; auto; lra.
    + intros j (J1 & J2 & _) NI. exfalso. apply NI. rewrite L in J1. destruct (EL j J1 J2) as [->| ->]; cbn; auto.
    + intros s t H. cbn [length] in H. assert (s = 0%nat /\ t = 1%nat) as (-> & ->) by lia. cbn [nth].
      apply farther10; auto. lra.
  - intros j m (J1 & J2 & _) (M1 & M2 & _) A B. rewrite L in J1, M1. apply farther10 in A; auto. apply farther10 in B; auto.
    destruct (EL j J1 J2) as [->| ->], (EL m M1 M2) as [->| ->]; auto; lra.
Qed.
Definition tri : list v3 := [mk3 0 0 0; mk3 1 0 0; mk3 0 2 0].
Definition tri' : list v3 := [mk3 3 0 0; mk3 14 0 0; mk3 3 (-8) 0].
Definition tri_nearest (b : fbox) (x : list v3) (r : R) (k i : nat) : list nat :=
  if Req_EM_T (y3 (pos_of x 0)) 2
  then match i with 0 => [1; 2] | 1 => [2; 0] | _ => [1; 0] end%nat
  else match i with 0 => [1; 2] | 1 => [0; 2] | _ => [0; 1] end%nat.
Ltac small := unfold close_by, pos_of, sub3; cbn [nth x3 y3 z3]; split; [|split]; try (apply Rabs_le; lra); lra.
Lemma tri_close : forall j m, (j < 3)%nat -> (m < 3)%nat -> close_by tri j m.
Proof. intros [|[|[|j]]] [|[|[|m]]] J M; try lia; unfold tri; small. Qed.
Ltac dist := unfold d2, norm2_3, dot3, pos_of, sub3; cbn [nth x3 y3 z3]; lra.
Lemma tri_answers i : (i < 3)%nat ->
  nearest_list box10 tri (35 / 10) 8 i (tri_nearest box10 tri (35 / 10) 8 i) /\ no_ties box10 tri (35 / 10) i.
Proof.
  intros H. unfold tri_nearest. destruct (Req_EM_T (y3 (pos_of tri 0)) 2) as [E|_]; [unfold pos_of, tri in E; cbn in E; lra|].
  destruct i as [|[|[|i]]]; try lia; apply three_list; try reflexivity; try exact tri_close; try lia; unfold tri; dist.
Qed.
Lemma tri_moved : moved box10 tri tri'.
Proof.
  exists (mk3 3 0 0). unfold tri, tri'. constructor; [|constructor; [|constructor; [|constructor]]].
  - exists 0%Z, 0%Z, 0%Z. split; auto. unfold sub3, add3, lattice, box10. cbn. apply v3_eq; ring.
  - exists 1%Z, 0%Z, 0%Z. split; auto. unfold sub3, add3, lattice, box10. cbn. apply v3_eq; ring.
  - exists 0%Z, (-1)%Z, 0%Z. split; auto. unfold sub3, add3, lattice, box10. cbn. apply v3_eq; ring.
Qed.
Lemma tri_answers' : answers tri_nearest box10 tri' (35 / 10) 8.
Proof.
  intros i H. change (i < 3)%nat in H. assert (E : tri_nearest box10 tri' (35 / 10) 8 i = map (fun j => j) (tri_nearest box10 tri (35 / 10) 8 i)).
  { rewrite map_id. unfold tri_nearest, pos_of, tri, tri'. cbn [nth y3]. destruct (Req_EM_T 0 2); reflexivity. }
  rewrite E. apply (nearest_view box10 tri tri' (35 / 10) 8 i i); [apply view_moved; [apply tri_moved|exact H]|apply tri_answers; exact H].
Qed.
Definition tri_config (x : list v3) : config := mkconfig [10; 10; 1] x [qone; zquat 1; zquat 2].

Example C159_ex nr (C : Type) (predict : list (list R) -> list C + exn) :
  ml_ordering nr tri_nearest 4 predict (tri_config tri') = ml_ordering nr tri_nearest 4 predict (tri_config tri).
Proof.
  apply (C159_ml nr tri_nearest 4 C predict (tri_config tri) (tri_config tri') box10); try reflexivity.
  - apply box10_flat.
  - apply tri_moved.
  - intros i H. apply tri_answers. exact H.
  - apply tri_answers'.
  - intros i H. apply tri_answers. exact H.
Qed.
Lemma tri_clear i : (i < 3)%nat -> clear_cut box10 tri (35 / 10) 8 i.
Proof.
  intros H. destruct (tri_answers i H) as ((N & K & I & O & _) & _).
  exists (35 / 10), (tri_nearest box10 tri (35 / 10) 8 i). split; [lra|]. split; auto. split; [|right; auto].
  intros j. split; auto. intros J. destruct (in_dec Nat.eq_dec j (tri_nearest box10 tri (35 / 10) 8 i)) as [|NI]; auto.
  destruct (O j J NI) as (E & _). exfalso. revert E. unfold tri_nearest.
  destruct (Req_EM_T _ 2); destruct i as [|[|i]]; cbn; discriminate.
Qed.
Example C159_ex_order nr :
  order_of nr tri_nearest 4 (tri_config tri') (35 / 10) 8 = order_of nr tri_nearest 4 (tri_config tri) (35 / 10) 8.
Proof.
  apply (C159_order nr tri_nearest 4 (tri_config tri) (tri_config tri') box10); try reflexivity.
  - apply box10_flat.
  - apply tri_moved.
  - intros i H. apply tri_answers. exact H.
  - apply tri_answers'.
  - intros i H. apply tri_clear. exact H.
Qed.
(** The molecules in the order 2, 0, 1 *)
Example C160_ex : Permutation [2; 0; 1]%nat (seq 0 3) /\
  answers tri_nearest box10 (reordered zero3 [2; 0; 1]%nat tri) (35 / 10) 8.
Proof.
  split.
  - cbn. apply perm_trans with [0; 2; 1]%nat; [apply perm_swap|]. apply perm_skip, perm_swap.
  - intros i H. change (i < 3)%nat in H. unfold tri_nearest.
    destruct (Req_EM_T (y3 (pos_of (reordered zero3 [2; 0; 1]%nat tri) 0)) 2) as [_|N].
    2:{ exfalso. apply N. reflexivity. }
    assert (CL : forall j m, (j < 3)%nat -> (m < 3)%nat -> close_by (reordered zero3 [2; 0; 1]%nat tri) j m).
    { intros [|[|[|j]]] [|[|[|m]]] J M; try lia; unfold reordered, tri; cbn [map nth]; small. }
    destruct i as [|[|[|i]]]; try lia; apply three_list; try reflexivity; try exact CL; try lia; unfold reordered, tri; cbn [map nth]; dist.
Qed.
(** A molecule far away is turned and moved. *)
Definition far_x (y : R) : list v3 := [mk3 0 0 0; mk3 1 0 0; mk3 0 y 0].
Example C161_ex : same_surroundings box10 (far_x 4) (far_x 5) [qone; zquat 1; zquat 2] [qone; zquat 1; zquat 3] (35 / 10) 0.
Proof.
  assert (C : forall y, 4 <= y <= 5 -> forall j m, (j < 3)%nat -> (m < 3)%nat -> close_by (far_x y) j m).
  { intros y Y [|[|[|j]]] [|[|[|m]]] J M; try lia; unfold far_x; small. }
  split; [reflexivity|]. split.
  - intros j rho J R'. change (j < 3)%nat in J. rewrite !near10 by (apply C; [lra|lia|exact J]).
    destruct j as [|[|[|j]]]; try lia; unfold d2, norm2_3, dot3, pos_of, sub3, far_x; cbn [nth x3 y3 z3].
    + reflexivity.
    + reflexivity.
    + split; intros (P & S); nra.
  - intros j J H. change (j < 3)%nat in J. destruct j as [|[|[|j]]]; try lia; try reflexivity. exfalso.
    destruct H as [H|H]; [discriminate|]. apply near10 in H; [|apply C; [lra|lia|lia]].
    revert H. unfold d2, norm2_3, dot3, pos_of, sub3, far_x. cbn [nth x3 y3 z3]. lra.
Qed.

(** ** C162: two molecules *)
Definition duo : list v3 := [mk3 0 0 0; mk3 1 0 0].
Definition duo_nearest (b : fbox) (x : list v3) (r : R) (k i : nat) : list nat :=
  match i with 0 => [1] | _ => [0] end%nat.
Lemma duo_answers : answers duo_nearest box10 duo (35 / 10) 8.
Proof.
  assert (C : forall j m, (j < 2)%nat -> (m < 2)%nat -> close_by duo j m).
  { intros [|[|j]] [|[|m]] J M; try lia; unfold duo; small. }
  intros i H. change (i < 2)%nat in H.
  assert (E : exists p, (p < 2)%nat /\ p <> i /\ duo_nearest box10 duo (35 / 10) 8 i = [p]).
  { destruct i as [|[|i]]; [exists 1%nat|exists 0%nat|lia]; split; try lia; split; auto. }
  destruct E as (p & P & N & ->). split; [|split; [|split; [|split]]].
  - constructor; [cbn; tauto|constructor].
  - cbn. lia.
  - intros j [<-|[]]. split; [exact P|]. split; auto. apply near10; auto.
    destruct i as [|[|i]], p as [|[|p]]; try lia; unfold duo; (split; [lra|dist]).
  - intros j (J1 & J2 & _) NI. change (j < 2)%nat in J1. exfalso. apply NI. left. lia.
  - intros s t S. cbn in S. lia.
Qed.
(** Another sign of a quaternion makes another class. *)
Theorem C162_sign_refuted : exists (nearest : fbox -> list v3 -> R -> nat -> nat -> list nat) c o' b
    (g : list R -> bool),
  flat_of (c_box c) b /\ length (c_pos c) = length (c_ori c) /\ answers nearest b (c_pos c) (35 / 10) 8 /\
  Forall unit (c_ori c) /\ same_turns (c_ori c) o' /\
  forall nr absent, (nr = 0 \/ nr = PI) -> (2 <= absent)%nat ->
    ml_ordering nr nearest absent (fun rows => inl (map g rows)) (mkconfig (c_box c) (c_pos c) o') <>
    ml_ordering nr nearest absent (fun rows => inl (map g rows)) c.
Proof.
  destruct C116_relative_refuted as (p & q & Up & Uq & _ & H).
  exists duo_nearest, (mkconfig [10; 10; 1] duo [p; q]), [p; qneg q], box10, (fun row => Rltb PI (nth 0 row 0)).
  cbn [c_box c_pos c_ori]. split; [apply box10_flat|]. split; [reflexivity|]. split; [apply duo_answers|].
  split; [constructor; auto|]. split; [constructor; [left; reflexivity|constructor; [right; reflexivity|constructor]]|].
  intros nr absent NR AB. destruct (H nr NR) as (H1 & H2).
  assert (V : forall o a, length o = 2%nat -> relative_angle nr [[1]; [0]]%nat o = inl [[a]; [a]] ->
    ml_ordering nr duo_nearest absent (fun rows => inl (map (fun row => Rltb PI (nth 0 row 0)) rows)) (mkconfig [10; 10; 1] duo o)
    = inl [Rltb PI a; Rltb PI a]).
  { intros o a L E. unfold ml_ordering. rewrite (relative_value nr duo_nearest absent _ box10) by (auto using box10_flat).
    cbn [MotionModel.ebind c_pos c_ori duo length seq map]. rewrite relative_rows in E by (rewrite L; reflexivity).
    rewrite L in E. cbn [seq map nth] in E. unfold row_of, filled, duo_nearest in *. cbn [app map] in *. injection E as E1 E2.
    cbn [nth]. rewrite E1, E2. reflexivity. }
  rewrite (V [p; q] (PI / 2)), (V [p; qneg q] (3 * (PI / 2))) by auto. pose proof PI_RGT_0 as P. unfold Rltb.
  destruct (Rlt_dec PI (PI / 2)); [lra|]. destruct (Rlt_dec PI (3 * (PI / 2))); [|lra]. discriminate.
Qed.
Print Assumptions C162_sign_refuted.
Example C162_ex : same_turns [qone; zquat 1] [qneg qone; qneg (zquat 1)] /\
  same_side box10 duo [qone; zquat 1] (35 / 10) /\ same_side box10 duo [qneg qone; qneg (zquat 1)] (35 / 10).
Proof.
  pose proof PI_RGT_0. assert (P3 : 3 < PI) by (pose proof PI_4; pose proof (PI2_3_2); unfold PI2 in *; lra).
  assert (C : 0 <= cos (1 / 2)) by (apply cos_ge_0; lra).
  split; [constructor; [right; reflexivity|constructor; [right; reflexivity|constructor]]|].
  split; intros i j I (J1 & J2 & _); change (i < 2)%nat in I; change (j < 2)%nat in J1;
    destruct i as [|[|i]], j as [|[|j]]; try lia; unfold qdot, qneg, qone, zquat; cbn; lra.
Qed.
