(** The gsd readers as a whole, and open_trajectory. *)
From Coq Require Import ZArith List Bool Lia Arith Sorted.
From Verif Require Import Base DictFacts StepSizeModel StepSizeSpec StepSizeProofs
  StepSeriesProofs StepSeriesRun StepSizeExtra GsdModel GsdSpec GsdProofs.
Import ListNotations.
Open Scope Z_scope.

Section Readers.
  Context {P : Type}.
  Implicit Types (t : list (raw P)) (f : frame P) (fs : list (frame P)).

  Lemma series_le_total total n G M out : series_ok total n G M out ->
    forall c i, In (c, i) out -> c <= total.
  Proof.
    intros H c i Hin. destruct (so_last _ _ _ _ _ H) as [r Hr].
    assert (Hi := so_increasing _ _ _ _ _ H). rewrite Hr in Hi.
    apply (in_map fst) in Hin. rewrite Hr in Hin. simpl in Hin.
    apply in_app_or in Hin. destruct Hin as [Hin|[Hin|[]]]; [|lia].
    clear - Hi Hin. induction r as [|x r IH]; simpl in *; [tauto|].
    inversion Hi as [|? ? H1 H2]; subst. destruct Hin as [->|Hin]; auto.
    rewrite Forall_forall in H2. assert (c < total); [|lia].
    apply H2. apply in_or_app; right; left; auto.
  Qed.

  (** The exponential reader is [exp_l] on a correct series. *)
  Lemma exponential_l smax K M n t total :
    match smax with Some m => inl m | None => get_num_steps t end = inl total ->
    0 <= total -> 1 <= n -> K <> 0 ->
    exists fuel0 k0, forall fuel k, (fuel0 <= fuel)%nat -> (k0 <= k)%nat ->
      exists out, series_ok total n K M out /\
      (length (items (iter_trajectory t)) < k)%nat /\
      exponential_trajectory fuel k smax K M n t =
      Ok (exp_l k out (items (iter_trajectory t)) (ending (iter_trajectory t))).
  Proof.
    intros Hs Ht Hn HK.
    destruct (series_correct total n K M Ht Hn HK) as (fuel0 & k0 & H).
    exists (fuel0 + k0)%nat, (S (length (items (iter_trajectory t)))).
    intros fuel k Hf Hk.
    destruct (H fuel k0 ltac:(lia) (le_n _)) as (s & out & sf & A & B & C & D).
    exists out. split; [exact D|]. split; [lia|].
    unfold exponential_trajectory. rewrite Hs, A.
    destruct (run_trace _ _ _ _ _ B) as [T L].
    apply exp_loop_l; auto; try lia. eapply series_le_total; eauto.
  Qed.

  Lemma exponential_sound : forall smax K M n t total,
    match smax with Some m => inl m | None => get_num_steps t end = inl total ->
    0 <= total -> 1 <= n -> K <> 0 ->
    exists fuel0 k0, forall fuel k, (fuel0 <= fuel)%nat -> (k0 <= k)%nat ->
    exists steps out,
      series_ok total n K M steps /\
      exponential_trajectory fuel k smax K M n t = Ok out /\
      sublist (map snd (items out)) (readables t) /\
      forall idx f, In (idx, f) (items out) -> In (timestep f, idx) steps.
  Proof.
    intros smax K M n t total Hs Ht Hn HK.
    destruct (exponential_l smax K M n t total Hs Ht Hn HK) as (f0 & k0 & H).
    exists f0, k0. intros fuel k Hf Hk. destruct (H fuel k Hf Hk) as (out & A & B & C).
    eexists out, _. split; [exact A|]. split; [exact C|].
    destruct (exp_l_sound (ending (iter_trajectory t)) k out (items (iter_trajectory t))) as [S1 S2].
    split; auto. eapply sublist_trans; [exact S1|]. apply iter_sublist.
  Qed.

  Lemma exponential_errors : forall smax K M n t,
    (forall e, smax = None -> get_num_steps t = inr e -> forall fuel k,
       exponential_trajectory fuel k smax K M n t = Ok {| items := []; ending := Some e |}) /\
    (forall total f, match smax with Some m => inl m | None => get_num_steps t end = inl total ->
       In f (items (iter_trajectory t)) ->
       (total < 0 -> forall fuel k, (1 <= fuel)%nat -> (1 <= k)%nat ->
          exponential_trajectory fuel k smax K M n t = Ok {| items := []; ending := Some KeyError |}) /\
       (0 <= total -> K = 0 -> forall fuel k, (1 <= fuel)%nat -> (1 <= k)%nat ->
          exponential_trajectory fuel k smax K M n t =
          Ok {| items := []; ending := Some ZeroDivisionError |})).
  Proof.
    intros. split.
    - intros e -> H fuel k. unfold exponential_trajectory. rewrite H. reflexivity.
    - intros total f Hs Hin.
      assert (Hne : exists g r, items (iter_trajectory t) = g :: r).
      { destruct (items (iter_trajectory t)); [destruct Hin|eauto]. }
      destruct Hne as (g & r & Hg).
      destruct (series_errors total n K M) as [E1 E2].
      split; intros; [destruct (E1 H fuel H0) as (s & A & B)|destruct (E2 H H0 fuel H1) as (s & A & B)];
        unfold exponential_trajectory; rewrite Hs, A, Hg; (destruct k; [lia|]); simpl; rewrite B;
        reflexivity.
  Qed.

  Lemma exponential_complete : forall smax K M n t total,
    match smax with Some m => inl m | None => get_num_steps t end = inl total ->
    0 <= total -> 1 <= n -> K <> 0 ->
    (forall r, In r t -> ~ fatal r) -> rising (readables t) ->
    exists fuel0 k0, forall fuel k, (fuel0 <= fuel)%nat -> (k0 <= k)%nat ->
    exists steps out,
      series_ok total n K M steps /\
      exponential_trajectory fuel k smax K M n t = Ok out /\
      ((forall f, In f (readables t) -> In (timestep f) (map fst steps)) ->
       map snd (items out) = readables t) /\
      ((forall x g, In x (map fst steps) -> In g (readables t) -> x <= timestep g ->
                    exists f, In f (readables t) /\ timestep f = x) ->
       forall f, In f (readables t) -> In (timestep f) (map fst steps) ->
                 exists idx, In (idx, f) (items out)).
  Proof.
    intros smax K M n t total Hs Ht Hn HK Hfat Hr.
    destruct (exponential_l smax K M n t total Hs Ht Hn HK) as (f0 & k0 & H).
    exists f0, k0. intros fuel k Hf Hk. destruct (H fuel k Hf Hk) as (out & A & B & C).
    eexists out, _. split; [exact A|]. split; [exact C|].
    rewrite (iter_ok t Hfat) in *. simpl items in *. simpl ending in *.
    assert (Hi := so_increasing _ _ _ _ _ A). split.
    - intros Hall. apply exp_l_all_frames; auto.
    - intros Hall f Hin Hst.
      assert (X := exp_l_all_steps None k out (readables t) Hi Hr B Hall f Hin Hst).
      apply in_map_iff in X. destruct X as [[idx g] [E1 E2]]. simpl in E1. subst g. eauto.
  Qed.

  (** *** open_trajectory *)
  Definition every_from {A} (o k : nat) (l : list A) : list A :=
    map snd (filter (fun p => (fst p mod k =? 0)%nat) (combine (seq o (length l)) l)).

  Lemma every_from_skip {A} k : forall j o (l : list A),
    (forall x, (o <= x < o + j)%nat -> (x mod k)%nat <> 0%nat) ->
    every_from o k l = every_from (o + j) k (skipn j l).
  Proof.
    induction j as [|j IH]; intros o l H.
    - rewrite Nat.add_0_r. reflexivity.
    - destruct l as [|x l].
      + unfold every_from. rewrite skipn_nil. reflexivity.
      + unfold every_from at 1. simpl. destruct ((o mod k =? 0)%nat) eqn:E.
        * apply Nat.eqb_eq in E. exfalso. apply (H o); auto. lia.
        * fold (every_from (S o) k l). rewrite IH by (intros; apply H; lia).
          replace (S o + j)%nat with (o + S j)%nat by lia. reflexivity.
  Qed.

  Lemma every_from_hit {A} k o (x : A) l : (1 <= k)%nat -> (o mod k = 0)%nat ->
    every_from o k (x :: l) = x :: every_from (o + k) k (skipn (k - 1) l).
  Proof.
    intros Hk Ho. unfold every_from at 1. simpl. rewrite Ho. simpl. f_equal.
    fold (every_from (S o) k l). rewrite (every_from_skip k (k - 1)).
    - replace (S o + (k - 1))%nat with (o + k)%nat by lia. reflexivity.
    - intros y Hy. apply Nat.mod_divides in Ho; [|lia]. destruct Ho as [c Hc].
      intros E. apply Nat.mod_divides in E; [|lia]. destruct E as [d Hd].
      assert (k * c < k * d < k * (c + 1))%nat by (rewrite Nat.mul_add_distr_l; lia).
      assert (c < d < c + 1)%nat; [|lia].
      split; eapply Nat.mul_lt_mono_pos_l with (p := k); lia.
  Qed.

  Lemma skipn_skipn {A} a b (l : list A) : skipn a (skipn b l) = skipn (b + a) l.
  Proof.
    revert l. induction b as [|b IH]; intros l; simpl; auto.
    destruct l; simpl; auto. apply skipn_nil.
  Qed.

  Lemma nth_error_skipn {A} i (l : list A) : 
    match nth_error l i with Some x => skipn i l = x :: skipn (S i) l | None => skipn i l = [] end.
  Proof.
    revert l. induction i as [|i IH]; intros [|x l]; simpl; auto. apply IH.
  Qed.

  Lemma read_range t k : (1 <= k)%nat -> forall fuel i, (i mod k = 0)%nat ->
    (length t <= i + fuel)%nat ->
    read_indices t (range_from fuel (Z.of_nat i) (Z.of_nat (length t)) (Z.of_nat k)) =
    iter_trajectory (every_from i k (skipn i t)).
  Proof.
    intros Hk. induction fuel as [|fuel IH]; intros i Hi Hf; simpl range_from.
    - rewrite skipn_all2 by lia. reflexivity.
    - destruct (Z.of_nat i <? Z.of_nat (length t)) eqn:E.
      + apply Z.ltb_lt in E. simpl. rewrite Nat2Z.id.
        assert (N := nth_error_skipn i t).
        destruct (nth_error t i) as [r|] eqn:En.
        2:{ apply nth_error_None in En. lia. }
        rewrite N, every_from_hit by auto. simpl.
        replace (Z.of_nat i + Z.of_nat k) with (Z.of_nat (i + k)) by lia.
        rewrite IH.
        * change (match t with [] => [] | _ :: l => skipn i l end) with (skipn (S i) t).
          rewrite skipn_skipn. replace (S i + (k - 1))%nat with (i + k)%nat by lia. reflexivity.
        * replace (i + k)%nat with (i + 1 * k)%nat by lia. rewrite Nat.mod_add; auto. lia.
        * lia.
      + apply Z.ltb_ge in E. rewrite skipn_all2 by lia. reflexivity.
  Qed.

  Lemma open_gsd_every : forall pb k t, 1 <= k -> pb <> PbOther ->
    open_gsd pb k t = iter_trajectory (every (Z.to_nat k) t).
  Proof.
    intros pb k t Hk Hpb. unfold open_gsd.
    assert (H : (if k =? 0 then @ended (frame P) (Some ValueError)
                 else if k <? 0 then ended None
                 else read_indices t (range_from (length t) 0 (Z.of_nat (length t)) k)) =
                iter_trajectory (every (Z.to_nat k) t)).
    { destruct (k =? 0) eqn:E; [apply Z.eqb_eq in E; lia|].
      destruct (k <? 0) eqn:E1; [apply Z.ltb_lt in E1; lia|].
      assert (R := read_range t (Z.to_nat k) ltac:(lia) (length t) 0).
      rewrite Z2Nat.id in R by lia. simpl Z.of_nat in R. rewrite R; auto.
      apply Nat.mod_0_l. lia. }
    destruct pb; auto. congruence.
  Qed.

  Lemma every_In {A} k (l : list A) x : In x (every k l) -> In x l.
  Proof.
    unfold every. intros H. apply in_map_iff in H. destruct H as [[i y] [<- H]].
    apply filter_In in H as [H _]. apply in_combine_r in H. exact H.
  Qed.

  Lemma open_gsd_ok : forall pb k t, 1 <= k -> pb <> PbOther ->
    (forall r, In r t -> ~ fatal r) ->
    open_gsd pb k t = {| items := readables (every (Z.to_nat k) t); ending := None |}.
  Proof.
    intros. rewrite open_gsd_every by auto. apply iter_ok. intros r Hr. apply H1.
    eapply every_In; eauto.
  Qed.
End Readers.
