(** Proofs about [exp_sequence] and [generate_steps]. *)
From Coq Require Import ZArith List Sorted Bool Lia Zwf.
From Verif Require Import Base StepSizeModel StepSizeSpec.
Import ListNotations.
Open Scope Z_scope.

(** ** Strictly increasing lists *)

Lemma increasing_nil : increasing [].
Proof. constructor. Qed.

Lemma increasing_cons x l :
  increasing (x :: l) <-> increasing l /\ forall y, In y l -> x < y.
Proof.
  unfold increasing. split.
  - intros H. apply StronglySorted_inv in H as [H1 H2].
    split; auto. intros y Hy. rewrite Forall_forall in H2. auto.
  - intros [H1 H2]. constructor; auto. apply Forall_forall. auto.
Qed.

Lemma increasing_ext l1 : forall l2,
  increasing l1 -> increasing l2 -> (forall x, In x l1 <-> In x l2) -> l1 = l2.
Proof.
  induction l1 as [|a l1 IH]; intros [|b l2] H1 H2 HE; auto.
  - specialize (HE b). simpl in HE. tauto.
  - specialize (HE a). simpl in HE. tauto.
  - apply increasing_cons in H1 as [H1 H1'].
    apply increasing_cons in H2 as [H2 H2'].
    assert (a = b).
    { destruct (proj1 (HE a) (or_introl eq_refl)) as [|Ha]; auto.
      destruct (proj2 (HE b) (or_introl eq_refl)) as [|Hb]; auto.
      apply H2' in Ha. apply H1' in Hb. lia. }
    subst b. f_equal. apply IH; auto.
    intros x. split; intros Hx.
    + destruct (proj1 (HE x) (or_intror Hx)); auto. subst. apply H1' in Hx. lia.
    + destruct (proj2 (HE x) (or_intror Hx)); auto. subst. apply H2' in Hx. lia.
Qed.

Lemma increasing_app l1 l2 :
  increasing (l1 ++ l2) <->
  increasing l1 /\ increasing l2 /\ forall x y, In x l1 -> In y l2 -> x < y.
Proof.
  induction l1 as [|a l1 IH]; simpl.
  - split; [intros; repeat split; auto using increasing_nil; contradiction|tauto].
  - rewrite !increasing_cons, IH. split.
    + intros [(A & B & C) D]. repeat split; auto.
      * intros y Hy. apply D. apply in_or_app; auto.
      * intros x y [<-|Hx] Hy; auto. apply D. apply in_or_app; auto.
    + intros ([A D] & B & C). repeat split; auto.
      intros y Hy. apply in_app_or in Hy as [|]; auto.
Qed.

Lemma increasing_NoDup l : increasing l -> NoDup l.
Proof.
  induction l as [|a l IH]; intros H; constructor; apply increasing_cons in H as [H1 H2]; auto.
  intros Hin. apply H2 in Hin. lia.
Qed.

(** ** The machine of exp_sequence visits the grid in order *)

(** [v] is the last value produced before the suspended state [e]. *)
Inductive exp_at (start n sz0 base : Z) : Z -> exp_state -> Prop :=
| exp_at_intro k sz cur i v :
    0 <= k -> sz = sz0 * base ^ k -> 0 <= i <= n + 1 ->
    (k = 0 /\ cur = start \/ 0 < k /\ cur = start + n * (sz0 * base ^ (k - 1))) ->
    v = Z.max cur (start + (i - 1) * sz) ->
    exp_at start n sz0 base v (ERun sz cur i).

Section Exp.
  Variables start n sz0 base : Z.
  Hypothesis Hn : 1 <= n.
  Hypothesis Hs : 1 <= sz0.
  Hypothesis Hb : 2 <= base.

  Lemma pow_pos k : 0 <= k -> 0 < base ^ k.
  Proof. intros; apply Z.pow_pos_nonneg; lia. Qed.

  Lemma pow_split k e : 0 <= k <= e -> base ^ e = base ^ k * base ^ (e - k).
  Proof. intros. rewrite <- Z.pow_add_r by lia. f_equal; lia. Qed.

  (** Grid points beyond the end of round [k-1] are multiples of the step of round [k]. *)
  Lemma grid_beyond k cur s :
    0 <= k ->
    (k = 0 /\ cur = start \/ 0 < k /\ cur = start + n * (sz0 * base ^ (k - 1))) ->
    grid start n sz0 base s -> cur < s ->
    exists m, 1 <= m /\ s = start + m * (sz0 * base ^ k).
  Proof.
    intros Hk Hcur (j & e & Hj & He & ->) Hlt.
    assert (Hke : k <= e).
    { destruct Hcur as [[-> _]|[Hk0 ->]]; [lia|].
      destruct (Z_lt_le_dec e k) as [Hek|]; auto. exfalso.
      assert (base ^ (k - 1) = base ^ e * base ^ (k - 1 - e)) by (apply pow_split; lia).
      assert (0 < base ^ (k - 1 - e)) by (apply pow_pos; lia).
      assert (0 < base ^ e) by (apply pow_pos; lia).
      assert (base ^ e <= base ^ (k - 1)) by nia.
      assert (j * base ^ e <= n * base ^ (k - 1)) by nia.
      nia. }
    exists (j * base ^ (e - k)). rewrite (pow_split k e) by lia. split; [|ring].
    assert (0 < base ^ (e - k)) by (apply pow_pos; lia).
    assert (0 < base ^ e) by (apply pow_pos; lia).
    assert (0 < j).
    { destruct (Z.eq_dec j 0) as [->|]; [|lia].
      destruct Hcur as [[_ ->]|[Hk0 ->]]; [lia|].
      assert (0 < base ^ (k - 1)) by (apply pow_pos; lia). nia. }
    nia.
  Qed.

  Lemma grid_round k i : 0 <= k -> 0 <= i <= n -> grid start n sz0 base (start + i * (sz0 * base ^ k)).
  Proof. intros; exists i, k; auto. Qed.

  (** Running the [for] loop inside round [k]. *)
  Lemma exp_loop_round k cur :
    0 <= k ->
    (k = 0 /\ cur = start \/ 0 < k /\ cur = start + n * (sz0 * base ^ (k - 1))) ->
    forall fuel i,
    0 <= i <= n -> (Z.to_nat (n - i) < fuel)%nat ->
    exists v' e',
      exp_loop fuel start n base (sz0 * base ^ k) cur i = Some (v', e') /\
      exp_at start n sz0 base v' e' /\
      grid start n sz0 base v' /\
      Z.max cur (start + (i - 1) * (sz0 * base ^ k)) < v' /\
      forall s, grid start n sz0 base s ->
        Z.max cur (start + (i - 1) * (sz0 * base ^ k)) < s -> v' <= s.
  Proof.
    intros Hk Hcur. induction fuel as [|fuel IH]; intros i Hi Hf; [lia|].
    assert (Hp : 0 < base ^ k) by (apply pow_pos; lia).
    simpl. replace (i <? n + 1) with true by (symmetry; apply Z.ltb_lt; lia).
    destruct (start + i * (sz0 * base ^ k) >? cur) eqn:E.
    - rewrite Z.gtb_ltb in E. apply Z.ltb_lt in E.
      eexists _, _. split; [reflexivity|]. split; [|split; [|split]].
      + apply exp_at_intro with (k := k); auto; lia.
      + apply grid_round; lia.
      + nia.
      + intros s Hg Hlt.
        destruct (grid_beyond k cur s Hk Hcur Hg) as (m & Hm & ->); [lia|].
        assert (i - 1 < m) by nia. nia.
    - rewrite Z.gtb_ltb in E. apply Z.ltb_ge in E.
      assert (i < n).
      { destruct (Z.eq_dec i n) as [->|]; [|lia]. exfalso.
        destruct Hcur as [[-> ->]|[Hk0 ->]].
        - rewrite Z.pow_0_r in E. nia.
        - rewrite (pow_split (k - 1) k) in E by lia.
          replace (k - (k - 1)) with 1 in E by lia. rewrite Z.pow_1_r in E.
          assert (0 < base ^ (k - 1)) by (apply pow_pos; lia).
          assert (0 < n * sz0 * base ^ (k - 1)) by (apply Z.mul_pos_pos; nia).
          nia. }
      destruct (IH (i + 1)) as (v' & e' & A & B & C & D & F); [lia|lia|].
      exists v', e'. split; [exact A|]. split; [exact B|]. split; [exact C|].
      replace (i + 1 - 1) with i in * by lia.
      split; [nia|]. intros s Hg Hlt. apply F; auto. nia.
  Qed.

  Definition exp_fuel : nat := Z.to_nat (2 * n + 4).

  Lemma exp_next_least fuel v e :
    (exp_fuel <= fuel)%nat -> exp_at start n sz0 base v e ->
    exists v' e',
      exp_next fuel start n sz0 base e = Some (v', e') /\
      exp_at start n sz0 base v' e' /\
      grid start n sz0 base v' /\ v < v' /\
      forall s, grid start n sz0 base s -> v < s -> v' <= s.
  Proof.
    unfold exp_fuel. intros Hf He. destruct He as [k sz cur i v Hk -> Hi Hcur ->].
    simpl. destruct (Z.eq_dec i (n + 1)) as [->|].
    - destruct fuel as [|fuel]; [lia|]. simpl.
      rewrite Z.ltb_irrefl.
      replace (sz0 * base ^ k * base) with (sz0 * base ^ (k + 1))
        by (rewrite Z.pow_add_r, Z.pow_1_r by lia; ring).
      assert (Hp : 0 < base ^ k) by (apply pow_pos; lia).
      assert (Hc : Z.max cur (start + (n + 1 - 1) * (sz0 * base ^ k))
                   = start + n * (sz0 * base ^ k)).
      { replace (n + 1 - 1) with n by lia. apply Z.max_r.
        destruct Hcur as [[-> ->]|[Hk0 ->]]; [rewrite Z.pow_0_r; nia|].
        assert (0 < base ^ (k - 1)) by (apply pow_pos; lia).
        rewrite (pow_split (k - 1) k) by lia.
        replace (k - (k - 1)) with 1 by lia. rewrite Z.pow_1_r.
        assert (0 < n * sz0 * base ^ (k - 1)) by (apply Z.mul_pos_pos; nia). nia. }
      rewrite Hc.
      destruct (exp_loop_round (k + 1) (start + n * (sz0 * base ^ k))) with (fuel := fuel) (i := 0)
        as (v' & e' & A & B & C & D & F); try lia.
      + right. replace (k + 1 - 1) with k by lia. lia.
      + assert (Hp' : 0 < base ^ (k + 1)) by (apply pow_pos; lia).
        rewrite Z.max_l in D, F by nia.
        eauto 10.
    - destruct (exp_loop_round k cur Hk Hcur fuel i) as (v' & e' & A & B & C & D & F); try lia.
      eauto 10.
  Qed.

  Lemma exp_at_init : exp_at start n sz0 base start (ERun sz0 start 0).
  Proof.
    apply exp_at_intro with (k := 0); try lia.
  Qed.

  Lemma grid_start : grid start n sz0 base start.
  Proof. exists 0, 0. lia. Qed.

  Lemma grid_ge s : grid start n sz0 base s -> start <= s.
  Proof.
    intros (i & k & Hi & Hk & ->). assert (0 < base ^ k) by (apply pow_pos; lia).
    assert (0 <= i * (sz0 * base ^ k)) by (apply Z.mul_nonneg_nonneg; nia). lia.
  Qed.

  (** The first [k] values are the first [k] grid points. *)
  Lemma exp_take_grid fuel (Hf : (exp_fuel <= fuel)%nat) k : forall v e,
    exp_at start n sz0 base v e ->
    exists l, exp_take fuel k start n sz0 base e = Some l /\ length l = k /\
      increasing l /\
      (forall s, In s l -> grid start n sz0 base s /\ v < s) /\
      (forall s m, grid start n sz0 base s -> v < s -> In m l -> s <= m -> In s l).
  Proof.
    induction k as [|k IH]; intros v e He.
    - exists []. simpl. repeat split; auto using increasing_nil; tauto.
    - destruct (exp_next_least fuel v e Hf He) as (v' & e' & A & B & C & D & F).
      destruct (IH v' e' B) as (l & L1 & L2 & L3 & L4 & L5).
      exists (v' :: l). cbn [exp_take]. rewrite A, L1. repeat split.
      + simpl; lia.
      + apply increasing_cons. split; auto. intros y Hy. apply L4 in Hy. lia.
      + destruct H as [<-|H]; auto. apply L4 in H; tauto.
      + destruct H as [<-|H]; auto. apply L4 in H. lia.
      + intros s m Hs1 Hs2 Hm Hle.
        pose proof (F s Hs1 Hs2). destruct (Z.eq_dec s v') as [->|]; [left; auto|right].
        destruct Hm as [<-|Hm]; [lia|].
        eapply L5; eauto. lia.
  Qed.

  Lemma grid_unbounded b : exists s, grid start n sz0 base s /\ b < s.
  Proof.
    exists (start + n * (sz0 * base ^ (Z.max 0 (b - start) + 1))).
    split; [apply grid_round; lia|].
    set (x := Z.max 0 (b - start)).
    assert (x + 1 < base ^ (x + 1)) by (apply Z.pow_gt_lin_r; lia).
    assert (1 * (1 * (x + 2)) <= n * (sz0 * base ^ (x + 1))).
    { apply Z.mul_le_mono_nonneg; try lia. apply Z.mul_le_mono_nonneg; lia. }
    lia.
  Qed.
End Exp.

(** ** generate_steps *)

(** [gen_trace fuel g l]: the iterator [g] produces exactly the values [l] and stops. *)
Inductive gen_trace (fuel : nat) : gen -> list Z -> Prop :=
| trace_stop g : gen_next fuel g = Stop -> gen_trace fuel g []
| trace_yield g v g' l : gen_next fuel g = Yield v g' -> gen_trace fuel g' l ->
                         gen_trace fuel g (v :: l).

Definition gen_in (total n start : Z) (e : option exp_state) : gen :=
  {| g_total := total; g_lin := n; g_start := start; g_state := e |}.

Lemma gen_trace_from total n start fuel :
  1 <= n -> (exp_fuel n <= fuel)%nat ->
  forall v e, exp_at start n 1 10 v e -> v < total ->
  exists l, gen_trace fuel (gen_in total n start (Some e)) l /\
            increasing l /\
            forall s, In s l <-> s = total \/ (v < s < total /\ grid start n 1 10 s).
Proof.
  intros Hn Hf v. remember (total - v) as d eqn:Hd. revert v Hd.
  induction d as [d IH] using (well_founded_induction (Zwf_well_founded 0)).
  intros v -> e He Hv.
  destruct (exp_next_least start n 1 10 Hn ltac:(lia) ltac:(lia) fuel v e Hf He)
    as (v' & e' & A & B & C & D & F).
  destruct (Z_lt_le_dec v' total) as [Hlt|Hge].
  - destruct (IH (total - v') ltac:(unfold Zwf; lia) v' eq_refl e' B Hlt) as (l & L1 & L2 & L3).
    exists (v' :: l). split; [|split].
    + eapply trace_yield; [|exact L1].
      unfold gen_next; simpl. rewrite A.
      replace (v' <? total) with true by (symmetry; apply Z.ltb_lt; lia). reflexivity.
    + apply increasing_cons. split; auto. intros y Hy. apply L3 in Hy. lia.
    + intros s. simpl. rewrite L3. split.
      * intros [<-|[->|[H1 H2]]]; auto. right; split; auto; lia.
      * intros [->|[H1 H2]]; auto.
        destruct (Z.eq_dec v' s); auto. right; right. split; auto.
        pose proof (F s H2 ltac:(lia)). lia.
  - exists [total]. split; [|split].
    + apply trace_yield with (g' := gen_in total n start None); [|apply trace_stop; reflexivity].
      unfold gen_next; simpl. rewrite A.
      replace (v' <? total) with false by (symmetry; apply Z.ltb_ge; lia). reflexivity.
    + apply increasing_cons. split; [apply increasing_nil|simpl; tauto].
    + intros s; simpl. split; [intuition|].
      intros [->|[H1 H2]]; auto. pose proof (F s H2 ltac:(lia)). lia.
Qed.

Lemma gen_trace_init total n start fuel :
  1 <= n -> (exp_fuel n <= fuel)%nat ->
  exists l, gen_trace fuel (generate_steps total n start) l /\ steps_of total n start l.
Proof.
  intros Hn Hf. destruct (Z_lt_le_dec start total) as [Hlt|Hge].
  - destruct (gen_trace_from total n start fuel Hn Hf start (ERun 1 start 0)
                (exp_at_init start n 1 10 Hn ltac:(lia)) Hlt) as (l & L1 & L2 & L3).
    exists (start :: l). split; [|split].
    + eapply trace_yield; [|exact L1]. unfold gen_next; simpl.
      replace (start <? total) with true by (symmetry; apply Z.ltb_lt; lia). reflexivity.
    + apply increasing_cons. split; auto. intros y Hy. apply L3 in Hy. lia.
    + intros s; simpl. rewrite L3. split.
      * intros [<-|[->|[H1 H2]]]; auto; right; split; auto; try lia.
        apply grid_start; lia.
      * intros [->|[H1 H2]]; auto. destruct (Z.eq_dec start s); auto.
        right; right. split; auto. pose proof (grid_ge start n 1 10 ltac:(lia) ltac:(lia) _ H2); lia.
  - exists [total]. split; [|split].
    + apply trace_yield with (g' := gen_in total n start None); [|apply trace_stop; reflexivity]. unfold gen_next; simpl.
      replace (start <? total) with false by (symmetry; apply Z.ltb_ge; lia). reflexivity.
    + apply increasing_cons. split; [apply increasing_nil|simpl; tauto].
    + intros s; simpl. split; [intuition|]. intros [->|[H1 H2]]; auto.
      pose proof (grid_ge start n 1 10 ltac:(lia) ltac:(lia) _ H2); lia.
Qed.

Lemma gen_list_trace fuel g l :
  gen_trace fuel g l -> forall k, (length l < k)%nat -> gen_list fuel k g = Some l.
Proof.
  induction 1 as [g H|g v g' l H _ IH]; intros [|k] Hk; simpl in *; try lia.
  - now rewrite H.
  - rewrite H. rewrite IH by lia. reflexivity.
Qed.

Lemma steps_of_unique total n start l1 l2 :
  steps_of total n start l1 -> steps_of total n start l2 -> l1 = l2.
Proof.
  intros [A B] [C D]. apply increasing_ext; auto. intros x. rewrite B, D. tauto.
Qed.

Lemma steps_of_last total n start l :
  steps_of total n start l -> exists l', l = l' ++ [total].
Proof.
  intros [A B]. assert (Hin : In total l) by (apply B; auto).
  apply in_split in Hin as (l1 & l2 & ->). exists l1.
  destruct l2 as [|x l2]; auto. exfalso.
  apply increasing_app in A as (_ & A & _). apply increasing_cons in A as [_ A].
  pose proof (A x (or_introl eq_refl)).
  destruct (proj1 (B x)) as [|[]]; [|lia|lia]. apply in_or_app; simpl; auto.
Qed.

(** All of C02 for the model, with explicit fuel. *)
Lemma generate_steps_correct total n start :
  1 <= n ->
  exists l, steps_of total n start l /\
    forall fuel k, (exp_fuel n <= fuel)%nat -> (length l < k)%nat ->
      gen_list fuel k (generate_steps total n start) = Some l.
Proof.
  intros Hn.
  destruct (gen_trace_init total n start (exp_fuel n) Hn (le_n _)) as (l & L1 & L2).
  exists l. split; auto. intros fuel k Hf Hk.
  destruct (gen_trace_init total n start fuel Hn Hf) as (l' & L1' & L2').
  assert (l' = l) by (eapply steps_of_unique; eauto). subst.
  apply gen_list_trace; auto.
Qed.

(** ** Non-positive num_linear *)
(** With [n <= 0] the loop never finds a value above [start]. *)
Lemma exp_loop_stuck fuel : forall start base sz i n,
  n = 0 -> 0 <= i -> exp_loop fuel start n base sz start i = None.
Proof.
  induction fuel as [|fuel IH]; intros start base sz i n -> Hi; cbn [exp_loop]; auto.
  destruct (i <? 0 + 1) eqn:E.
  - apply Z.ltb_lt in E. replace (start + i * sz) with start by (replace i with 0 by lia; lia).
    rewrite Z.gtb_ltb, Z.ltb_irrefl. apply IH; lia.
  - replace (start + 0 * sz) with start by lia. apply IH; lia.
Qed.

Lemma exp_loop_stuck_neg fuel : forall start base sz cur i n,
  n < 0 -> 0 <= i -> exp_loop fuel start n base sz cur i = None.
Proof.
  induction fuel as [|fuel IH]; intros start base sz cur i n Hn Hi; simpl; auto.
  destruct (i <? n + 1) eqn:E.
  - apply Z.ltb_lt in E. lia.
  - apply IH; lia.
Qed.

Lemma generate_steps_hangs total n start fuel :
  n <= 0 -> start < total ->
  exists g', gen_next fuel (generate_steps total n start) = Yield start g' /\
             gen_next fuel g' = NoFuel.
Proof.
  intros Hn Hlt. eexists. split.
  - unfold gen_next; simpl.
    replace (start <? total) with true by (symmetry; apply Z.ltb_lt; lia). reflexivity.
  - unfold gen_next; simpl.
    destruct (Z.eq_dec n 0) as [->|].
    + rewrite exp_loop_stuck by lia. reflexivity.
    + rewrite exp_loop_stuck_neg by lia. reflexivity.
Qed.
