(** Shift invariance, gaps and linear prefix of generate_steps; failing configurations. *)
From Coq Require Import ZArith List Sorted Bool Lia Arith.
From Verif Require Import Base DictFacts StepSizeModel StepSizeSpec StepSizeProofs
  StepSeriesProofs StepSeriesRun.
Import ListNotations.
Open Scope Z_scope.

(** ** Shift *)
Definition shift_e (c : Z) (e : exp_state) : exp_state :=
  match e with EInit => EInit | ERun sz cur i => ERun sz (cur + c) i end.

Definition shift_g (c : Z) (g : gen) : gen :=
  {| g_total := g_total g + c; g_lin := g_lin g; g_start := g_start g + c;
     g_state := option_map (shift_e c) (g_state g) |}.

Lemma exp_loop_shift fuel c : forall start n base sz cur i,
  exp_loop fuel (start + c) n base sz (cur + c) i =
  option_map (fun p => (fst p + c, shift_e c (snd p))) (exp_loop fuel start n base sz cur i).
Proof.
  induction fuel as [|fuel IH]; intros; simpl; auto.
  destruct (i <? n + 1).
  - replace (start + c + i * sz >? cur + c) with (start + i * sz >? cur)
      by (rewrite !Z.gtb_ltb; apply eq_true_iff_eq; rewrite !Z.ltb_lt; lia).
    destruct (start + i * sz >? cur); simpl; [do 2 f_equal; lia|apply IH].
  - replace (start + c + n * sz) with (start + n * sz + c) by lia. apply IH.
Qed.

Lemma gen_next_shift fuel c g :
  gen_next fuel (shift_g c g) =
  match gen_next fuel g with
  | Yield v g' => Yield (v + c) (shift_g c g')
  | Stop => Stop
  | NoFuel => NoFuel
  end.
Proof.
  destruct g as [total n start [e|]]; simpl; auto.
  unfold gen_next; simpl.
  assert (E : exp_next fuel (start + c) n 1 10 (shift_e c e) =
              option_map (fun p => (fst p + c, shift_e c (snd p))) (exp_next fuel start n 1 10 e)).
  { destruct e as [|sz cur i]; simpl; [reflexivity|apply exp_loop_shift]. }
  rewrite E. destruct (exp_next fuel start n 1 10 e) as [[v e']|]; simpl; auto.
  replace (v + c <? total + c) with (v <? total)
    by (apply eq_true_iff_eq; rewrite !Z.ltb_lt; lia).
  destruct (v <? total); reflexivity.
Qed.

Lemma gen_list_shift fuel c k : forall g,
  gen_list fuel k (shift_g c g) = option_map (map (fun x => x + c)) (gen_list fuel k g).
Proof.
  induction k as [|k IH]; intros g; simpl; auto.
  rewrite gen_next_shift. destruct (gen_next fuel g) as [v g'| |]; simpl; auto.
  rewrite IH. destruct (gen_list fuel k g'); reflexivity.
Qed.

Lemma generate_steps_shift fuel k total n start c :
  gen_list fuel k (generate_steps (total + c) n (start + c)) =
  option_map (map (fun x => x + c)) (gen_list fuel k (generate_steps total n start)).
Proof. apply (gen_list_shift fuel c k (generate_steps total n start)). Qed.

(** ** Gaps *)
Lemma next_grid n start : 1 <= n -> forall k, 0 <= k -> forall i, 0 <= i <= n ->
  exists g, grid start n 1 10 g /\ start + i * 10 ^ k < g /\
    (g - (start + i * 10 ^ k) = 1 \/
     (g - (start + i * 10 ^ k)) * n <= 10 * (i * 10 ^ k)).
Proof.
  intros Hn k Hk. pattern k. apply natlike_ind; [| |exact Hk]; clear k Hk.
  - intros i Hi. rewrite Z.pow_0_r.
    destruct (Z.eq_dec i n) as [->|].
    + exists (start + (n / 10 + 1) * (1 * 10 ^ 1)). rewrite Z.pow_1_r.
      pose proof (Z.div_mod n 10 ltac:(lia)). pose proof (Z.mod_pos_bound n 10 ltac:(lia)).
      split; [|split].
      * exists (n / 10 + 1), 1. split; [|split; [lia|]]; [lia|]. rewrite Z.pow_1_r. lia.
      * lia.
      * right. nia.
    + exists (start + (i + 1) * (1 * 10 ^ 0)). rewrite Z.pow_0_r. split; [|lia].
      exists (i + 1), 0. rewrite Z.pow_0_r. lia.
  - intros k Hk IH i Hi.
    assert (E : 10 ^ Z.succ k = 10 * 10 ^ k) by (apply Z.pow_succ_r; lia).
    assert (Hp : 0 < 10 ^ k) by (apply Z.pow_pos_nonneg; lia).
    destruct (Z_le_gt_dec (10 * i) n) as [Hsmall|Hbig].
    + destruct (IH (10 * i)) as (g & A & B & C); [lia|].
      exists g. rewrite E. replace (i * (10 * 10 ^ k)) with (10 * i * 10 ^ k) by ring. auto.
    + destruct (Z.eq_dec i n) as [->|].
      * exists (start + (n / 10 + 1) * (1 * 10 ^ Z.succ (Z.succ k))).
        pose proof (Z.div_mod n 10 ltac:(lia)). pose proof (Z.mod_pos_bound n 10 ltac:(lia)).
        assert (E2 : 10 ^ Z.succ (Z.succ k) = 10 * 10 ^ Z.succ k) by (apply Z.pow_succ_r; lia).
        split; [|split].
        -- exists (n / 10 + 1), (Z.succ (Z.succ k)). lia.
        -- rewrite E2. assert (0 < 10 ^ Z.succ k) by lia. nia.
        -- right. rewrite E2. set (p := 10 ^ Z.succ k) in *. assert (0 < p) by lia.
           replace (start + (n / 10 + 1) * (1 * (10 * p)) - (start + n * p))
             with ((10 * (n / 10) + 10 - n) * p) by ring.
           assert (10 * (n / 10) + 10 - n <= 10) by lia.
           replace (10 * (n * p)) with (10 * (p * n)) by ring.
           rewrite <- Z.mul_assoc. apply Z.mul_le_mono_nonneg_r; nia.
      * exists (start + (i + 1) * (1 * 10 ^ Z.succ k)). split; [|split].
        -- exists (i + 1), (Z.succ k). lia.
        -- nia.
        -- right. replace (start + (i + 1) * (1 * 10 ^ Z.succ k) - (start + i * 10 ^ Z.succ k))
             with (10 ^ Z.succ k) by ring.
           assert (0 < 10 ^ Z.succ k) by lia. nia.
Qed.

Lemma gap_bound total n start l :
  1 <= n -> steps_of total n start l ->
  forall a x y b, l = a ++ x :: y :: b ->
  y - x = 1 \/ (y - x) * n <= 10 * (x - start).
Proof.
  intros Hn [HL HM] a x y b ->.
  apply increasing_app in HL as (_ & HL & HLa).
  apply increasing_cons in HL as [HL HLx]. apply increasing_cons in HL as [HL HLy].
  assert (Hxy : x < y) by (apply HLx; left; auto).
  assert (Hy : y <= total).
  { destruct (proj1 (HM y)) as [|[]]; [|lia|lia]. apply in_or_app; right; right; left; auto. }
  destruct (proj1 (HM x)) as [->|[Hxt (i & k & Hi & Hk & ->)]];
    [apply in_or_app; right; left; auto|lia|].
  destruct (next_grid n start Hn k Hk i Hi) as (g & G1 & G2 & G3).
  rewrite Z.mul_1_l in *.
  assert (Hyg : y <= g).
  { destruct (Z_lt_le_dec g total) as [Hgt|]; [|lia].
    assert (Hg : In g (a ++ (start + i * 10 ^ k) :: y :: b)) by (apply HM; auto).
    apply in_app_or in Hg as [Hg|[<-|[<-|Hg]]]; try lia.
    - apply (HLa g (start + i * 10 ^ k)) in Hg; [lia|left; auto].
    - apply HLy in Hg. lia. }
  destruct G3 as [G3|G3]; [left; lia|]. right. nia.
Qed.

(** ** Linear prefix *)
Lemma linear_prefix total n start l :
  1 <= n -> start + n < total -> steps_of total n start l ->
  firstn (Z.to_nat n + 1) l = map (fun i => start + Z.of_nat i) (seq 0 (Z.to_nat n + 1)).
Proof.
  intros Hn Ht [HL HM].
  set (p := fun x => x <=? start + n).
  assert (Hsplit : forall l, increasing l -> l = filter p l ++ filter (fun x => negb (p x)) l).
  { clear. induction l as [|a l IH]; simpl; intros H; auto.
    apply increasing_cons in H as [H1 H2]. destruct (p a) eqn:E; simpl.
    - f_equal; auto.
    - assert (filter p l = []) as ->.
      { destruct (filter p l) as [|b r] eqn:F; auto.
        assert (In b (filter p l)) by (rewrite F; left; auto).
        apply filter_In in H as [Hb Hp]. apply H2 in Hb. unfold p in *. lia. }
      simpl. f_equal.
      assert (Hall : forall x, In x l -> p x = false) by (intros x Hx; apply H2 in Hx; unfold p in *; lia).
      clear IH H1 H2. induction l as [|b l IH]; simpl; auto.
      rewrite Hall by (left; auto). simpl. f_equal. apply IH. intros; apply Hall; right; auto. }
  assert (Hseq : filter p l = map (fun i => start + Z.of_nat i) (seq 0 (Z.to_nat n + 1))).
  { apply increasing_ext.
    - now apply filter_increasing.
    - generalize 0%nat (Z.to_nat n + 1)%nat. intros a m. revert a. induction m as [|m IH]; intros a; simpl.
      + apply increasing_nil.
      + apply increasing_cons. split; auto. intros y Hy. apply in_map_iff in Hy as (j & <- & Hj).
        apply in_seq in Hj. lia.
    - intros x. rewrite filter_In, HM, in_map_iff. unfold p. split.
      + intros [[->|[H1 H2]] H3]; [lia|]. exists (Z.to_nat (x - start)).
        pose proof (grid_ge start n 1 10 ltac:(lia) ltac:(lia) _ H2). split; [lia|].
        apply in_seq. lia.
      + intros (i & <- & Hi). apply in_seq in Hi. split; [|lia]. right. split; [lia|].
        exists (Z.of_nat i), 0. rewrite Z.pow_0_r. lia. }
  rewrite (Hsplit l HL), Hseq.
  rewrite firstn_app, map_length, seq_length, Nat.sub_diag, firstn_O, app_nil_r.
  apply firstn_all2. rewrite map_length, seq_length. lia.
Qed.

(** ** Failing configurations *)
Lemma init_negative fuel total n G M :
  total < 0 -> (1 <= fuel)%nat ->
  exists s, series_init fuel total n G M = Ok s /\ series_next fuel s = Raise KeyError.
Proof.
  intros Ht Hf. unfold series_init, add_generator, enqueue. simpl.
  unfold gen_next; simpl. replace (0 <? total) with false by (symmetry; apply Z.ltb_ge; lia).
  simpl. eexists. split; [reflexivity|].
  unfold series_next; simpl. rewrite Z.eqb_refl.
  replace (total =? 0) with false by (symmetry; apply Z.eqb_neq; lia). simpl.
  replace (match total with 0 => true | _ => false end) with false
    by (destruct total; auto; lia). reflexivity.
Qed.

Lemma init_zero_interval fuel total n M :
  0 <= total -> (1 <= fuel)%nat ->
  exists s, series_init fuel total n 0 M = Ok s /\ series_next fuel s = Raise ZeroDivisionError.
Proof.
  intros Ht Hf. unfold series_init, add_generator, enqueue. simpl.
  unfold gen_next; simpl. destruct (0 <? total) eqn:E; simpl.
  - eexists. split; reflexivity.
  - assert (total = 0) by (apply Z.ltb_ge in E; lia). subst. eexists. split; reflexivity.
Qed.

(** ** Statements used by the property file *)
Lemma exp_sequence_grid : forall start n sz0 base,
  1 <= n -> 1 <= sz0 -> 2 <= base ->
  exists fuel0, forall fuel, (fuel0 <= fuel)%nat -> forall k,
  exists l, exp_take fuel (S k) start n sz0 base EInit = Some (start :: l) /\
    length l = k /\
    increasing (start :: l) /\
    (forall s, In s l -> grid start n sz0 base s) /\
    (forall s m, grid start n sz0 base s -> In m (start :: l) -> s <= m -> In s (start :: l)).
Proof.
  intros start n sz0 base Hn Hs Hb. exists (exp_fuel n). intros fuel Hf k.
  destruct (exp_take_grid start n sz0 base Hn Hs Hb fuel Hf k start (ERun sz0 start 0)
    (exp_at_init start n sz0 base Hn Hs)) as (l & A & B & C & D & E).
  exists l. cbn [exp_take exp_next]. rewrite A. repeat split; auto.
  - apply increasing_cons. split; auto. intros y Hy. apply D in Hy. lia.
  - intros s Hin. apply D in Hin. tauto.
  - intros s m Hg Hm Hle. pose proof (grid_ge start n sz0 base Hs Hb s Hg).
    destruct (Z.eq_dec start s) as [|]; [left; auto|right].
    destruct Hm as [<-|Hm]; [lia|]. eapply E; eauto. lia.
Qed.

Lemma increasing_length_ge l : forall a, increasing (a :: l) ->
  a + Z.of_nat (length l) <= last (a :: l) a.
Proof.
  induction l as [|b l IH]; intros a H; [simpl; lia|].
  apply increasing_cons in H as [H1 H2]. specialize (IH b H1).
  assert (a < b) by (apply H2; left; auto).
  change (last (a :: b :: l) a) with (last (b :: l) a).
  assert (E : forall d d', last (b :: l) d = last (b :: l) d').
  { clear. revert b. induction l as [|c l IH]; intros b d d'; [reflexivity|].
    change (last (c :: l) d = last (c :: l) d'). apply IH. }
  rewrite (E a b). simpl length. lia.
Qed.

Lemma last_In {A} (l : list A) d : l <> [] -> In (last l d) l.
Proof.
  induction l as [|a l IH]; [congruence|]. intros _. destruct l as [|b l]; [left; auto|].
  right. apply IH. congruence.
Qed.

Lemma exp_sequence_complete : forall start n sz0 base s,
  1 <= n -> 1 <= sz0 -> 2 <= base -> grid start n sz0 base s ->
  exists fuel k l, exp_take fuel k start n sz0 base EInit = Some l /\ In s l.
Proof.
  intros start n sz0 base s Hn Hs Hb Hg.
  destruct (exp_sequence_grid start n sz0 base Hn Hs Hb) as (fuel0 & H).
  destruct (H fuel0 (le_n _) (Z.to_nat (s - start))) as (l & A & B & C & D & E).
  exists fuel0, (S (Z.to_nat (s - start))), (start :: l). split; auto.
  apply (E s (last (start :: l) start)); auto.
  - apply last_In. congruence.
  - pose proof (increasing_length_ge l start C).
    pose proof (grid_ge start n sz0 base Hs Hb s Hg). lia.
Qed.

Lemma generate_steps_full : forall total n start, 1 <= n ->
  exists fuel0 k0 l,
    steps_of total n start l /\
    (exists l', l = l' ++ [total]) /\
    (total <= start -> l = [total]) /\
    forall fuel k, (fuel0 <= fuel)%nat -> (k0 <= k)%nat ->
      gen_list fuel k (generate_steps total n start) = Some l.
Proof.
  intros total n start Hn. destruct (generate_steps_correct total n start Hn) as (l & A & B).
  exists (exp_fuel n), (S (length l)), l. split; auto. split; [eapply steps_of_last; eauto|].
  split; [|intros; apply B; lia].
  intros Hle. destruct A as [A1 A2]. apply increasing_ext; auto.
  - apply increasing_cons. split; [apply increasing_nil|simpl; tauto].
  - intros x. rewrite A2. simpl. split; [|intuition].
    intros [->|[H1 H2]]; auto. apply grid_ge in H2; lia.
Qed.

Lemma generate_steps_never_ends : forall total n start, n <= 0 -> start < total ->
  forall fuel k,
    gen_list fuel k (generate_steps total n start) = None /\
    exists g, gen_next fuel (generate_steps total n start) = Yield start g /\
              gen_next fuel g = NoFuel.
Proof.
  intros total n start Hn Hlt fuel k.
  destruct (generate_steps_hangs total n start fuel Hn Hlt) as (g & A & B).
  split; [|eauto]. destruct k as [|k]; auto. cbn [gen_list]. rewrite A.
  destruct k as [|k]; auto. cbn [gen_list]. rewrite B. auto.
Qed.

Lemma generate_steps_hang_witness : exists total n start,
  forall fuel k, gen_list fuel k (generate_steps total n start) = None.
Proof. exists 10, 0, 0. intros. apply generate_steps_never_ends; lia. Qed.

Lemma generate_steps_terminates_iff : forall total n start,
  (exists fuel k l, gen_list fuel k (generate_steps total n start) = Some l)
  <-> (1 <= n \/ total <= start).
Proof.
  intros total n start. split.
  - intros (fuel & k & l & H). destruct (Z_le_gt_dec 1 n) as [|Hn]; auto.
    destruct (Z_le_gt_dec total start) as [|Ht]; auto.
    destruct (generate_steps_never_ends total n start ltac:(lia) ltac:(lia) fuel k). congruence.
  - intros [Hn|Ht].
    + destruct (generate_steps_full total n start Hn) as (f & k & l & _ & _ & _ & H).
      exists f, k, l. apply H; lia.
    + exists 0%nat, 2%nat, [total]. simpl. unfold gen_next; simpl.
      replace (start <? total) with false by (symmetry; apply Z.ltb_ge; lia). reflexivity.
Qed.

Lemma gen_list_mono fuel k g l : gen_list fuel k g = Some l -> forall fuel' k',
  (fuel <= fuel')%nat -> (k <= k')%nat -> gen_list fuel' k' g = Some l.
Proof.
  assert (Hloop : forall fuel start n base sz cur i r fuel', (fuel <= fuel')%nat ->
    exp_loop fuel start n base sz cur i = Some r -> exp_loop fuel' start n base sz cur i = Some r).
  { clear. induction fuel as [|fuel IH]; intros start n base sz cur i r [|fuel'] Hle H; simpl in *; try lia; try discriminate.
    destruct (i <? n + 1).
    - destruct (start + i * sz >? cur); auto. apply IH; auto; lia.
    - apply IH; auto; lia. }
  assert (Hnext : forall fuel g fuel', (fuel <= fuel')%nat -> gen_next fuel g <> NoFuel ->
    gen_next fuel' g = gen_next fuel g).
  { clear - Hloop. intros fuel g fuel' Hle H. unfold gen_next in *. destruct (g_state g) as [[|sz cur i]|]; auto.
    simpl in *. destruct (exp_loop fuel (g_start g) (g_lin g) 10 sz cur i) as [r|] eqn:E; [|congruence].
    rewrite (Hloop _ _ _ _ _ _ _ _ _ Hle E). auto. }
  revert g l. induction k as [|k IH]; intros g l H fuel' [|k'] Hf Hk; simpl in *; try lia; try discriminate.
  destruct (gen_next fuel g) as [v g'| |] eqn:E; try discriminate;
    rewrite (Hnext fuel g fuel' Hf ltac:(congruence)), E.
  - destruct (gen_list fuel k g') as [l'|] eqn:El; [|discriminate].
    rewrite (IH _ _ El fuel' k') by lia. auto.
  - auto.
Qed.

Lemma gen_list_steps_of total n start l :
  1 <= n -> (exists fuel k, gen_list fuel k (generate_steps total n start) = Some l) ->
  steps_of total n start l.
Proof.
  intros Hn (fuel & k & H).
  destruct (generate_steps_full total n start Hn) as (f & k' & l' & A & _ & _ & B).
  pose proof (gen_list_mono _ _ _ _ H (Nat.max fuel f) (Nat.max k k') ltac:(lia) ltac:(lia)).
  rewrite B in H0 by lia. congruence.
Qed.

Lemma generate_steps_gap : forall total n start l,
  1 <= n -> (exists fuel k, gen_list fuel k (generate_steps total n start) = Some l) ->
  forall a x y b, l = a ++ x :: y :: b ->
  y - x = 1 \/ (y - x) * n <= 10 * (x - start).
Proof. intros. eapply gap_bound; eauto. eapply gen_list_steps_of; eauto. Qed.

Lemma generate_steps_linear : forall total n start l,
  1 <= n -> start + n < total ->
  (exists fuel k, gen_list fuel k (generate_steps total n start) = Some l) ->
  firstn (Z.to_nat n + 1) l = map (fun i => start + Z.of_nat i) (seq 0 (Z.to_nat n + 1)).
Proof. intros. eapply linear_prefix; eauto. eapply gen_list_steps_of; eauto. Qed.

Lemma series_correct : forall total n G M,
  0 <= total -> 1 <= n -> G <> 0 ->
  exists fuel0 k0, forall fuel k, (fuel0 <= fuel)%nat -> (k0 <= k)%nat ->
  exists s out sf,
    series_init fuel total n G M = Ok s /\
    series_run fuel k s = Ok (out, sf) /\
    series_next fuel sf = Ok None /\
    series_ok total n G M out.
Proof.
  intros total n G M Ht Hn HG.
  exists (exp_fuel n + Z.to_nat (Z.max 1 M) + 1)%nat, (Z.to_nat total + 2)%nat.
  intros fuel k Hf Hk. apply series_run_ok; auto; lia.
Qed.

Lemma keyframe_starts_count : forall G M steps,
  Z.of_nat (length (keyframe_starts G M steps)) <= Z.max 1 M.
Proof. intros. simpl. rewrite firstn_length. lia. Qed.

Lemma single_series_steps : forall total n G M out l,
  1 <= n -> M <= 1 -> series_ok total n G M out ->
  (exists fuel k, gen_list fuel k (generate_steps total n 0) = Some l) ->
  map fst out = l /\ forall c idx, In (c, idx) out -> idx = [0%nat].
Proof.
  intros total n G M out l Hn HM Hok Hl.
  destruct (single_series total n G M out HM Hok) as [A B]. split; auto.
  eapply steps_of_unique; eauto. apply gen_list_steps_of; auto.
Qed.

Lemma series_tidy : forall total n G M,
  0 <= total -> 1 <= n -> G <> 0 ->
  exists fuel0, forall fuel, (fuel0 <= fuel)%nat ->
  exists s0, series_init fuel total n G M = Ok s0 /\
  forall k, (1 <= k)%nat ->
  exists s, after_calls fuel k s0 = Ok s /\ tidy total M s.
Proof.
  intros total n G M Ht Hn HG. exists (exp_fuel n + Z.to_nat (Z.max 1 M) + 1)%nat.
  intros fuel Hf.
  destruct (init_inv fuel total n G M Hn ltac:(lia) Ht) as (s0 & L & A & B).
  exists s0. split; auto. intros k Hk.
  destruct (after_calls_inv fuel total n G M Hn ltac:(lia) HG ltac:(lia) k _ _ _ _ _ B)
    as (s & st & Ls & c & fr & C & D & E).
  exists s. split; auto. rewrite E in D by lia. eapply inv_tidy; [..|exact D]; auto; lia.
Qed.

Lemma series_error_witness : exists total n G M, 1 <= n /\
  forall fuel, (1 <= fuel)%nat ->
  exists s, series_init fuel total n G M = Ok s /\ exists e, series_next fuel s = Raise e.
Proof.
  exists (-1), 1, 1, 1. split; [lia|]. intros fuel Hf.
  destruct (init_negative fuel (-1) 1 1 1 ltac:(lia) Hf) as (s & A & B). eauto.
Qed.

Lemma series_errors : forall total n G M,
  (total < 0 -> forall fuel, (1 <= fuel)%nat -> exists s,
     series_init fuel total n G M = Ok s /\ series_next fuel s = Raise KeyError) /\
  (0 <= total -> G = 0 -> forall fuel, (1 <= fuel)%nat -> exists s,
     series_init fuel total n G M = Ok s /\ series_next fuel s = Raise ZeroDivisionError).
Proof.
  intros. split; intros; subst; [apply init_negative|apply init_zero_interval]; auto.
Qed.
