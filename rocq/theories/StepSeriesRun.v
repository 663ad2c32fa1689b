(** Complete iterations of GenerateStepSeries. *)
From Coq Require Import ZArith List Sorted Bool Lia Arith Permutation.
From Verif Require Import Base DictFacts StepSizeModel StepSizeSpec StepSizeProofs StepSeriesProofs.
Import ListNotations.
Open Scope Z_scope.

Section Run.
  Variables (fuel : nat) (total n G M : Z).
  Hypothesis Hn : 1 <= n.
  Hypothesis Hfuel : (exp_fuel n <= fuel)%nat.
  Hypothesis Htotal : 0 <= total.
  Hypothesis HG : G <> 0.
  Hypothesis Hfuel2 : (Z.to_nat (Z.max 1 M) + 1 <= fuel)%nat.

  Notation mult := (fun s => (0 <? s) && (s mod G =? 0)).

  Definition later (starts : list Z) (out : list (Z * list nat)) : list Z :=
    firstn (Z.to_nat M - length starts) (filter mult (map fst out)).

  Lemma later_In starts out st : In st (later starts out) -> In st (map fst out).
  Proof.
    unfold later. intros H.
    assert (In st (filter mult (map fst out))).
    { rewrite <- (firstn_skipn (Z.to_nat M - length starts)). apply in_or_app; auto. }
    apply filter_In in H0. tauto.
  Qed.

  Lemma later_cons starts c' idx out :
    0 <= c' ->
    starts ++ later starts ((c', idx) :: out) =
    (if new_start G M starts c' then starts ++ [c'] else starts) ++
    later (if new_start G M starts c' then starts ++ [c'] else starts) out.
  Proof.
    intros Hc. unfold later, new_start. simpl.
    rewrite Z.gtb_ltb, (andb_comm (c' mod G =? 0)).
    destruct ((0 <? c') && (c' mod G =? 0)) eqn:E; simpl.
    - destruct (Z.of_nat (length starts) <? M) eqn:EM.
      + apply Z.ltb_lt in EM. rewrite app_length, <- app_assoc. simpl.
        replace (Z.to_nat M - length starts)%nat with (S (Z.to_nat M - (length starts + 1))) by lia.
        reflexivity.
      + apply Z.ltb_ge in EM.
        replace (Z.to_nat M - length starts)%nat with 0%nat by lia. reflexivity.
    - reflexivity.
  Qed.

  Lemma on_steps_ge st x : st <= total -> on_steps total n st x -> st <= x.
  Proof.
    intros Hst [->|[H1 H2]]; [lia|].
    apply (grid_ge st n 1 10) in H2; lia.
  Qed.

  Lemma run_inv k : forall starts Ls c fresh s,
    inv fuel total n G M starts Ls c fresh s ->
    (Z.to_nat (total - c) < k)%nat ->
    (forall st, In st starts -> st <= Z.max 0 c) ->
    exists out sf, series_run fuel k s = Ok (out, sf) /\
      series_next fuel sf = Ok None /\
      increasing (map fst out) /\
      (forall x, In x (map fst out) -> c < x <= total) /\
      (c < total -> exists l, map fst out = l ++ [total]) /\
      (fresh = true -> exists r, map fst out = 0 :: r) /\
      (forall c' idx, In (c', idx) out -> NoDup idx /\ idx <> [] /\
         forall m, In m idx <-> exists st, nth_error (starts ++ later starts out) m = Some st /\
                                           on_steps total n st c') /\
      (forall st x, In st (starts ++ later starts out) -> on_steps total n st x -> c < x ->
         In x (map fst out)) /\
      (forall x, In x (map fst out) ->
         x = 0 \/ exists st, In st (starts ++ later starts out) /\ st < x /\ on_steps total n st x).
  Proof.
    induction k as [|k IH]; intros starts Ls c fresh s Hinv Hk Hle; [lia|].
    cbn [series_run].
    destruct (next_inv fuel total n G M Hn Hfuel HG starts Ls c fresh s Hfuel2 Hinv)
      as [(Hq & Hnext & -> & ->)|(c' & s' & Ls' & Hnext & Hc & Hc0 & Hfr & (m0 & L0 & HL0 & Hin0) & Hleast & (tl & ->) & Hinv')].
    - rewrite Hnext. cbn [bind]. exists [], s. split; auto. split; auto.
      split; [apply increasing_nil|]. split; [simpl; tauto|]. split; [lia|].
      split; [discriminate|]. split; [simpl; tauto|]. split; [|simpl; tauto].
      intros st x Hin Hon Hlt. exfalso. destruct Hon as [->|[]]; lia.
    - rewrite Hnext. cbn [bind].
      destruct (IH _ _ _ _ _ Hinv') as (out & sf & R1 & R2 & R3 & R4 & R5 & _ & R7 & R8 & R9); [lia| |].
      { intros st Hst. destruct (new_start G M starts c'); [apply in_app_or in Hst as [Hst|[<-|[]]]; [|lia]|]; apply Hle in Hst; lia. }
      rewrite R1. cbn [bind]. exists ((c', get_index s') :: out), sf.
      rewrite later_cons by auto.
      set (starts' := if new_start G M starts c' then starts ++ [c'] else starts) in *.
      pose proof (mi_lists _ _ _ _ _ _ _ _ _ _ _ (iv_m _ _ _ _ _ _ _ _ _ _ Hinv')) as HLs'.
      assert (Hpre : starts' = starts \/ starts' = starts ++ [c']).
      { unfold starts'. destruct (new_start G M starts c'); auto. }
      assert (Hlen : length starts' = length (Ls ++ tl)) by (eapply lists_of_length; eauto).
      pose proof (lists_of_length _ _ _ _ (mi_lists _ _ _ _ _ _ _ _ _ _ _ (iv_m _ _ _ _ _ _ _ _ _ _ Hinv))) as Hlen0.
      split; [reflexivity|]. split; [auto|]. split; [|split; [|split; [|split; [|split; [|split]]]]].
      + simpl. apply increasing_cons. split; auto. intros y Hy. apply R4 in Hy. lia.
      + simpl. intros x [<-|Hx]; [lia|]. apply R4 in Hx. lia.
      + intros _. simpl. destruct (Z.eq_dec c' total) as [->|Hne].
        * destruct out as [|[x i] out]; [exists []; reflexivity|].
          exfalso. specialize (R4 x (or_introl eq_refl)). lia.
        * destruct R5 as [l ->]; [lia|]. exists (c' :: l). reflexivity.
      + intros Hf. simpl. rewrite (Hfr Hf). eauto.
      + intros c2 idx [E|Hin]; [|apply R7; auto].
        injection E as <- <-.
        destruct (iv_vals _ _ _ _ _ _ _ _ _ _ Hinv' eq_refl) as (l & G1 & G2 & G3 & G4).
        pose proof (iv_curr _ _ _ _ _ _ _ _ _ _ Hinv') as [Hcur _].
        unfold get_index. rewrite Hcur, G1. split; auto. split; auto.
        intros m. rewrite G4. split.
        * intros (L & A & B). destruct (lists_of_nth _ _ _ _ _ _ HLs' A) as (st & C1 & _ & [_ C2]).
          exists st. split; [|apply C2; auto].
          rewrite nth_error_app1; auto. apply nth_error_Some. congruence.
        * intros (st & A & B). destruct (Nat.lt_ge_cases m (length starts')) as [Hm|Hm].
          -- rewrite nth_error_app1 in A by auto. rewrite Hlen in Hm.
             destruct (nth_error (Ls ++ tl) m) as [L|] eqn:EL; [|apply nth_error_None in EL; lia].
             exists L. split; auto.
             destruct (lists_of_nth _ _ _ _ _ _ HLs' EL) as (st2 & C1 & _ & [_ C2]).
             rewrite A in C1. injection C1 as <-. apply C2. exact B.
          -- exfalso. rewrite nth_error_app2 in A by auto. apply nth_error_In in A.
             apply later_In in A. apply R4 in A. apply on_steps_ge in B; lia.
      + intros st x Hin Hon Hlt. simpl.
        destruct (Z.eq_dec c' x) as [|Hne]; auto. right. apply (R8 st); auto.
        assert (c' <= x); [|lia].
        apply in_app_or in Hin as [Hin|Hin].
        * assert (Hcase : In st starts \/ st = c').
          { destruct Hpre as [->| ->]; auto. apply in_app_or in Hin as [|[|[]]]; auto. }
          destruct Hcase as [Hst| ->].
          -- apply In_nth_error in Hst as (m & Hm).
             assert (Hml : (m < length Ls)%nat) by (rewrite <- Hlen0; apply nth_error_Some; congruence).
             destruct (nth_error Ls m) as [L|] eqn:EL; [|apply nth_error_None in EL; lia].
             destruct (lists_of_nth _ _ _ _ _ _ (mi_lists _ _ _ _ _ _ _ _ _ _ _ (iv_m _ _ _ _ _ _ _ _ _ _ Hinv)) EL)
               as (st2 & C1 & _ & [_ C2]).
             rewrite Hm in C1. injection C1 as <-.
             apply (Hleast m L); auto. apply C2. exact Hon.
          -- apply on_steps_ge in Hon; lia.
        * apply later_In in Hin. apply R4 in Hin. apply on_steps_ge in Hon; lia.
      + simpl. intros x [<-|Hx]; [|apply R9; auto].
        destruct (Z.eq_dec c' 0) as [|Hne]; [auto|right].
        destruct (lists_of_nth _ _ _ _ _ _ (mi_lists _ _ _ _ _ _ _ _ _ _ _ (iv_m _ _ _ _ _ _ _ _ _ _ Hinv)) HL0)
          as (st & C1 & _ & [_ C2]).
        apply nth_error_In in C1. exists st. split; [|split; [|apply C2; auto]].
        * apply in_or_app. left. destruct Hpre as [->| ->]; auto. apply in_or_app; auto.
        * apply Hle in C1. lia.
  Qed.

  Lemma later_first out : [0] ++ later [0] out = keyframe_starts G M (map fst out).
  Proof.
    unfold later, keyframe_starts. simpl. do 2 f_equal. lia.
  Qed.

  Lemma series_run_ok k :
    (Z.to_nat total + 1 < k)%nat ->
    exists s out sf,
      series_init fuel total n G M = Ok s /\
      series_run fuel k s = Ok (out, sf) /\
      series_next fuel sf = Ok None /\
      series_ok total n G M out.
  Proof.
    intros Hk. destruct (init_inv fuel total n G M Hn Hfuel Htotal) as (s & L & A & B).
    destruct (run_inv k _ _ _ _ _ B) as (out & sf & R1 & R2 & R3 & R4 & R5 & R6 & R7 & R8 & R9); [lia|intros st [<-|[]]; lia|].
    exists s, out, sf. rewrite later_first in R7, R8, R9.
    split; [auto|]. split; [auto|]. split; [auto|]. constructor; auto.
    - apply R5; lia.
    - intros st x Hin Hon. apply (R8 st); auto. destruct Hon as [->|[_ Hg]]; [lia|].
      assert (0 <= st).
      { destruct Hin as [<-|Hin]; [lia|].
        assert (In st (filter mult (map fst out))).
        { rewrite <- (firstn_skipn (Z.to_nat (M - 1))). apply in_or_app; auto. }
        apply filter_In in H as [H _]. apply R4 in H. lia. }
      apply (grid_ge st n 1 10) in Hg; lia.
  Qed.

  (** ** Reachable states *)
  Fixpoint after_calls (k : nat) (s : series) : result series :=
    match k with
    | O => Ok s
    | S k' => bind (series_next fuel s) (fun r =>
              match r with None => Ok s | Some (_, s') => after_calls k' s' end)
    end.

  Lemma after_calls_inv k : forall starts Ls c fresh s,
    inv fuel total n G M starts Ls c fresh s ->
    exists s' starts' Ls' c' fresh',
      after_calls k s = Ok s' /\ inv fuel total n G M starts' Ls' c' fresh' s' /\
      (k <> 0%nat -> fresh' = false).
  Proof.
    induction k as [|k IH]; intros starts Ls c fresh s Hinv; simpl.
    - exists s, starts, Ls, c, fresh. repeat split; auto; try apply Hinv. congruence.
    - destruct (next_inv fuel total n G M Hn Hfuel HG starts Ls c fresh s Hfuel2 Hinv)
      as [(Hq & Hnext & -> & ->)|(c' & s' & Ls' & Hnext & Hc & Hc0 & Hfr & _ & Hleast & (tl & ->) & Hinv')];
      rewrite Hnext; cbn [bind].
      + exists s, starts, Ls, total, false. auto.
      + destruct (IH _ _ _ _ _ Hinv') as (s2 & st2 & Ls2 & c2 & f2 & A & B & C).
        exists s2, st2, Ls2, c2, f2. split; auto. split; auto. intros _.
        destruct k as [|k]; [|auto].
        simpl in A. injection A as <-. destruct f2; auto.
        exfalso. destruct (iv_curr _ _ _ _ _ _ _ _ _ _ B) as (D1 & D2 & D3).
        destruct (iv_curr _ _ _ _ _ _ _ _ _ _ Hinv') as (E1 & E2).
        assert (In 0 (s_queue s')) by (rewrite D3; left; auto).
        apply (minv_queue_gt _ _ _ _ _ _ _ _ _ _ _ _ (iv_m _ _ _ _ _ _ _ _ _ _ Hinv')) in H. lia.
  Qed.

  (** What a state at rest looks like after at least one call. *)
  Definition tidy (s : series) : Prop :=
    NoDup (s_queue s) /\
    (forall v, In v (s_queue s) -> s_curr s < v <= total) /\
    (forall v, In v (dkeys (s_values s)) <-> v = s_curr s \/ In v (s_queue s)) /\
    NoDup (dkeys (s_values s)) /\
    (length (s_queue s) <= s_num s)%nat /\
    (1 <= s_num s)%nat /\ Z.of_nat (s_num s) <= Z.max 1 M.

  Lemma inv_tidy starts Ls c s : inv fuel total n G M starts Ls c false s -> tidy s.
  Proof.
    intros H. pose proof (iv_m _ _ _ _ _ _ _ _ _ _ H) as HM.
    destruct (iv_curr _ _ _ _ _ _ _ _ _ _ H) as [Hc Hc0].
    pose proof (lists_of_length _ _ _ _ (mi_lists _ _ _ _ _ _ _ _ _ _ _ HM)) as Hl.
    unfold tidy. rewrite Hc. repeat split.
    - apply (mi_qnd _ _ _ _ _ _ _ _ _ _ _ HM).
    - eapply minv_queue_gt; eauto.
    - apply (mi_queue _ _ _ _ _ _ _ _ _ _ _ HM) in H0 as (m & L & A & _ & B).
      destruct (lists_of_nth _ _ _ _ _ _ (mi_lists _ _ _ _ _ _ _ _ _ _ _ HM) A) as (st & _ & C1 & C2).
      destruct (after c L) eqn:Ea; [discriminate|]. injection B as ->.
      assert (Hin : In v (after c L)) by (rewrite Ea; left; auto). apply after_In in Hin as [Hin _].
      eapply steps_of_bounds; eauto.
    - intros Hv. apply (mi_keys _ _ _ _ _ _ _ _ _ _ _ HM) in Hv. tauto.
    - intros Hv. apply (mi_keys _ _ _ _ _ _ _ _ _ _ _ HM). simpl. tauto.
    - apply (mi_vnd _ _ _ _ _ _ _ _ _ _ _ HM).
    - rewrite (mi_num _ _ _ _ _ _ _ _ _ _ _ HM).
      rewrite <- (map_length (fun L => hd 0 (after c L)) Ls).
      apply NoDup_incl_length; [apply (mi_qnd _ _ _ _ _ _ _ _ _ _ _ HM)|].
      intros v Hv. apply (mi_queue _ _ _ _ _ _ _ _ _ _ _ HM) in Hv as (m & L & A & _ & B).
      apply in_map_iff. exists L. split; [|eapply nth_error_In; eauto].
      destruct (after c L); [discriminate|]. injection B as ->. reflexivity.
    - rewrite (mi_num _ _ _ _ _ _ _ _ _ _ _ HM), <- Hl. apply (iv_len _ _ _ _ _ _ _ _ _ _ H).
    - rewrite (mi_num _ _ _ _ _ _ _ _ _ _ _ HM), <- Hl. apply (iv_max _ _ _ _ _ _ _ _ _ _ H).
  Qed.
End Run.

(** ** Consequences of [series_ok] *)

Lemma filter_increasing (f : Z -> bool) l : increasing l -> increasing (filter f l).
Proof.
  induction l as [|a l IH]; simpl; intros H; auto.
  apply increasing_cons in H as [H1 H2]. destruct (f a); auto.
  apply increasing_cons. split; auto. intros y Hy. apply filter_In in Hy. apply H2; tauto.
Qed.

Lemma firstn_increasing k l : increasing l -> increasing (firstn k l).
Proof.
  intros H. rewrite <- (firstn_skipn k l) in H. apply increasing_app in H. tauto.
Qed.

Lemma increasing_nth_lt l : increasing l -> forall i j x y, (i < j)%nat ->
  nth_error l i = Some x -> nth_error l j = Some y -> x < y.
Proof.
  induction l as [|a l IH]; intros H i j x y Hij Hi Hj; [destruct i; discriminate|].
  apply increasing_cons in H as [H1 H2]. destruct j as [|j]; [lia|]. simpl in Hj.
  destruct i as [|i]; simpl in Hi.
  - injection Hi as <-. apply H2. eapply nth_error_In; eauto.
  - eapply (IH H1 i j); eauto. lia.
Qed.

(** Positive multiples of [G] in increasing order: the [i]-th is at least [(i+1)*G]. *)
Lemma multiples_nth_ge G F : 0 < G -> increasing F ->
  (forall x, In x F -> 0 < x /\ x mod G = 0) ->
  forall i x, nth_error F i = Some x -> (Z.of_nat i + 1) * G <= x.
Proof.
  intros HG HF Hm. induction i as [|i IH]; intros x Hx.
  - apply nth_error_In in Hx. apply Hm in Hx as [H1 H2].
    apply Z.mod_divide in H2 as [q ->]; [|lia]. simpl Z.of_nat. assert (0 < q) by nia. nia.
  - destruct (nth_error F i) as [y|] eqn:Ey.
    + specialize (IH y eq_refl).
      assert (y < x) by (eapply (increasing_nth_lt F HF i (S i)); eauto).
      apply nth_error_In in Ey, Hx. apply Hm in Ey as [A1 A2], Hx as [B1 B2].
      apply Z.mod_divide in A2 as [q ->]; [|lia]. apply Z.mod_divide in B2 as [r ->]; [|lia].
      assert (q < r) by nia. assert (Z.of_nat i + 1 <= q) by nia.
      assert (Z.of_nat (S i) + 1 <= r) by lia. nia.
    + apply nth_error_None in Ey. assert (S i < length F)%nat by (apply nth_error_Some; congruence). lia.
Qed.

Lemma grid_shift start n sz0 base c s :
  grid start n sz0 base s <-> grid (start + c) n sz0 base (s + c).
Proof.
  unfold grid. split; intros (i & k & A & B & C); exists i, k; lia.
Qed.

(** Key frames are evenly spaced when [G] is on the grid. *)
Lemma even_starts total n G M out :
  1 <= n -> 0 <= total -> 0 < G -> 1 <= M -> grid 0 n 1 10 G ->
  series_ok total n G M out ->
  keyframe_starts G M (map fst out) =
  map (fun m => Z.of_nat m * G) (seq 0 (Z.to_nat (Z.min M (total / G + 1)))).
Proof.
  intros Hn Ht HG HM Hgrid Hok.
  set (F := filter (fun s => (0 <? s) && (s mod G =? 0)) (map fst out)).
  assert (HF : increasing F) by (apply filter_increasing, Hok).
  assert (HFm : forall x, In x F -> 0 < x /\ x mod G = 0).
  { intros x Hx. apply filter_In in Hx as [_ Hx]. apply andb_true_iff in Hx as [A B].
    apply Z.ltb_lt in A. apply Z.eqb_eq in B. auto. }
  assert (Hle : forall x, In x (map fst out) -> x <= total).
  { intros x Hx. destruct (so_last _ _ _ _ _ Hok) as [r Er].
    pose proof (so_increasing _ _ _ _ _ Hok) as Hi. rewrite Er in Hx, Hi.
    apply increasing_app in Hi as (_ & _ & Hi).
    apply in_app_or in Hx as [Hx|[<-|[]]]; [|lia]. apply (Hi x total) in Hx; [lia|left; auto]. }
  assert (HFl : forall x, In x F -> x <= total).
  { intros x Hx. apply filter_In in Hx as [Hx _]. auto. }
  assert (Hall : forall j, (Z.of_nat j < M) -> Z.of_nat j * G <= total ->
            nth_error (keyframe_starts G M (map fst out)) j = Some (Z.of_nat j * G)).
  { induction j as [|j IH]; intros HjM Hjt; [reflexivity|].
    assert (Hj : nth_error (keyframe_starts G M (map fst out)) j = Some (Z.of_nat j * G)) by (apply IH; nia).
    assert (Hin : In (Z.of_nat (S j) * G) (map fst out)).
    { apply (so_complete _ _ _ _ _ Hok (Z.of_nat j * G)); [eapply nth_error_In; eauto|].
      destruct (Z.eq_dec (Z.of_nat (S j) * G) total) as [|Hne]; [left; auto|right].
      split; [lia|]. apply (grid_shift 0 n 1 10 (Z.of_nat j * G)) in Hgrid.
      replace (Z.of_nat (S j) * G) with (G + Z.of_nat j * G) by lia. exact Hgrid. }
    assert (HinF : In (Z.of_nat (S j) * G) F).
    { apply filter_In. split; auto. apply andb_true_iff. split; [apply Z.ltb_lt; nia|].
      apply Z.eqb_eq. apply Z_mod_mult. }
    change (nth_error (firstn (Z.to_nat (M - 1)) F) j = Some (Z.of_nat (S j) * G)).
    assert (Hfirst : forall i, (i < Z.to_nat (M - 1))%nat -> nth_error (firstn (Z.to_nat (M - 1)) F) i = nth_error F i).
    { intros i Hi. rewrite <- (firstn_skipn (Z.to_nat (M - 1)) F) at 2.
      destruct (Nat.lt_ge_cases i (length (firstn (Z.to_nat (M - 1)) F))).
      - now rewrite nth_error_app1.
      - rewrite (proj2 (nth_error_None _ _)) by auto. symmetry. apply nth_error_None.
        rewrite firstn_skipn. rewrite firstn_length in H. lia. }
    rewrite Hfirst by lia.
    apply In_nth_error in HinF as (i & Hi).
    destruct (lt_eq_lt_dec i j) as [[Hlt| ->]|Hgt]; auto; exfalso.
    - (* i < j: then nth (i+1) of the starts is (S j)*G, but earlier entries are smaller *)
      destruct j as [|j]; [lia|].
      assert (Hj' : nth_error F j = Some (Z.of_nat (S j) * G)).
      { rewrite <- Hfirst by lia. exact Hj. }
      assert (i = j \/ (i < j)%nat) as [->|Hij] by lia.
      + rewrite Hi in Hj'. assert (E : Z.of_nat (S (S j)) * G = Z.of_nat (S j) * G) by congruence.
        rewrite !Nat2Z.inj_succ in E. nia.
      + pose proof (increasing_nth_lt F HF i j _ _ Hij Hi Hj') as E. rewrite !Nat2Z.inj_succ in E. nia.
    - assert (Hj2 : exists y, nth_error F j = Some y).
      { destruct (nth_error F j) eqn:E; eauto. apply nth_error_None in E.
        assert (i < length F)%nat by (apply nth_error_Some; congruence). lia. }
      destruct Hj2 as [y Hy].
      pose proof (multiples_nth_ge G F HG HF HFm j y Hy).
      pose proof (increasing_nth_lt F HF j i _ _ Hgt Hy Hi). lia. }
  assert (Hdiv : forall j, Z.of_nat j * G <= total <-> Z.of_nat j <= total / G).
  { intros j. split; intros Hj.
    - apply Z.div_le_lower_bound; [lia|]. rewrite Z.mul_comm; lia.
    - pose proof (Z.mul_div_le total G HG).
      assert (Z.of_nat j * G <= total / G * G) by (apply Z.mul_le_mono_nonneg_r; lia). lia. }
  assert (Hlen : length (keyframe_starts G M (map fst out)) = Z.to_nat (Z.min M (total / G + 1))).
  { assert (0 <= total / G) by (apply Z.div_pos; lia).
    apply Nat.le_antisymm.
    - destruct (Nat.le_gt_cases (length (keyframe_starts G M (map fst out))) (Z.to_nat (Z.min M (total / G + 1)))) as [|Hgt]; auto.
      exfalso. set (K := Z.to_nat (Z.min M (total / G + 1))) in *.
      assert (HK1 : (length (keyframe_starts G M (map fst out)) <= Z.to_nat M)%nat).
      { simpl. rewrite firstn_length. lia. }
      assert (HK : Z.of_nat K = total / G + 1) by lia.
      destruct K as [|K]; [lia|].
      destruct (nth_error (keyframe_starts G M (map fst out)) (S K)) as [y|] eqn:E;
        [|apply nth_error_None in E; lia].
      assert (Hy : In y (keyframe_starts G M (map fst out))) by (eapply nth_error_In; eauto).
      change (nth_error (firstn (Z.to_nat (M - 1)) F) K = Some y) in E.
      pose proof (multiples_nth_ge G (firstn (Z.to_nat (M - 1)) F) HG (firstn_increasing _ _ HF)) as Hge.
      assert (HinF : forall x, In x (firstn (Z.to_nat (M - 1)) F) -> In x F).
      { intros x Hx. rewrite <- (firstn_skipn (Z.to_nat (M - 1)) F). apply in_or_app; auto. }
      specialize (Hge (fun x Hx => HFm x (HinF x Hx)) K y E).
      apply nth_error_In in E. apply HinF, HFl in E.
      pose proof (Z.mod_pos_bound total G HG). pose proof (Z.div_mod total G ltac:(lia)). nia.
    - set (K := Z.to_nat (Z.min M (total / G + 1))) in *.
      destruct K as [|K'] eqn:EK; [lia|].
      assert (nth_error (keyframe_starts G M (map fst out)) K' <> None).
      { rewrite Hall; [congruence|lia|apply Hdiv; lia]. }
      apply nth_error_Some in H0. lia. }
  apply nth_ext with (d := 0) (d' := 0).
  - rewrite Hlen, map_length, seq_length. reflexivity.
  - intros i Hi. rewrite Hlen in Hi.
    assert (0 <= total / G) by (apply Z.div_pos; lia).
    assert (E1 : nth_error (keyframe_starts G M (map fst out)) i = Some (Z.of_nat i * G)).
    { apply Hall; [lia|apply Hdiv; lia]. }
    rewrite (nth_error_nth _ _ _ E1). symmetry.
    apply nth_error_nth. rewrite (map_nth_error (fun m => Z.of_nat m * G) i (seq 0 (Z.to_nat (Z.min M (total / G + 1)))) (d := i)); auto.
    rewrite (nth_error_nth' _ 0%nat) by (rewrite seq_length; auto). now rewrite seq_nth.
Qed.

(** With a single generator. *)
Lemma single_series total n G M out :
  M <= 1 -> series_ok total n G M out ->
  steps_of total n 0 (map fst out) /\ forall c idx, In (c, idx) out -> idx = [0%nat].
Proof.
  intros HM Hok.
  assert (Hks : keyframe_starts G M (map fst out) = [0]).
  { unfold keyframe_starts. replace (Z.to_nat (M - 1)) with 0%nat by lia. reflexivity. }
  assert (Hidx : forall c idx, In (c, idx) out -> idx = [0%nat] /\ on_steps total n 0 c).
  { intros c idx Hin. destruct (so_index _ _ _ _ _ Hok c idx Hin) as (A & B & C).
    rewrite Hks in C. destruct idx as [|i idx]; [congruence|].
    assert (Hall : forall m, In m (i :: idx) -> m = 0%nat /\ on_steps total n 0 c).
    { intros m Hm. apply C in Hm as (st & D1 & D2).
      destruct m as [|[|m]]; simpl in D1; try discriminate. injection D1 as <-. auto. }
    destruct (Hall i (or_introl eq_refl)) as [-> Hon]. split; auto.
    destruct idx as [|j idx]; auto. destruct (Hall j) as [-> _]; [right; left; auto|].
    inversion A. simpl in *. tauto. }
  split.
  - split; [apply Hok|]. intros s. split.
    + intros Hs. apply in_map_iff in Hs as ([c idx] & <- & Hin). apply (Hidx c idx Hin).
    + intros Hs. apply (so_complete _ _ _ _ _ Hok 0); auto. rewrite Hks. left; auto.
  - intros c idx Hin. apply (Hidx c idx Hin).
Qed.
