(** Proofs about the gsd readers. *)
From Coq Require Import ZArith List Bool Lia Arith Sorted.
From Verif Require Import Base DictFacts StepSizeModel StepSizeSpec StepSizeProofs
  StepSeriesProofs StepSeriesRun StepSizeExtra GsdModel GsdSpec.
Import ListNotations.
Open Scope Z_scope.

Section Proofs.
  Context {P : Type}.
  Implicit Types (t : list (raw P)) (r : raw P) (f : frame P) (fs : list (frame P)).

  Lemma stream_eta {A} (s : stream A) : s = {| items := items s; ending := ending s |}.
  Proof. destruct s; reflexivity. Qed.

  (** *** iter_trajectory *)
  Lemma is_runtime_true e : is_runtime e = true <-> e = RuntimeError.
  Proof. destruct e; simpl; split; congruence. Qed.
  Lemma is_runtime_false e : is_runtime e = false <-> e <> RuntimeError.
  Proof. destruct e; simpl; split; congruence. Qed.

  Lemma read_frame_inl r f : read_frame r = inl f <-> reads r f.
  Proof.
    split.
    - destruct r as [s [p|e]| |e]; simpl; intros H; inversion H; subst; constructor.
    - intros H; inversion H; subst; reflexivity.
  Qed.
  Lemma read_frame_inr r e : read_frame r = inr e <-> fails r e.
  Proof.
    split.
    - destruct r as [s [p|x]| |x]; simpl; intros H; inversion H; subst; constructor.
    - intros H; inversion H; subst; reflexivity.
  Qed.
  Lemma readable_reads r f : reads r f -> readable r = [f].
  Proof. intros H; inversion H; subst; reflexivity. Qed.
  Lemma readable_fails r e : fails r e -> readable r = [].
  Proof. intros H; inversion H; subst; reflexivity. Qed.

  Lemma iter_app t1 t2 : (forall r, In r t1 -> ~ fatal r) ->
    iter_trajectory (t1 ++ t2) =
    {| items := readables t1 ++ items (iter_trajectory t2);
       ending := ending (iter_trajectory t2) |}.
  Proof.
    induction t1 as [|r t1 IH]; intros H; simpl.
    - apply stream_eta.
    - rewrite IH by (intros; apply H; right; auto).
      destruct (read_frame r) as [f|e] eqn:E.
      + apply read_frame_inl in E. unfold readables; simpl. rewrite (readable_reads _ _ E).
        reflexivity.
      + apply read_frame_inr in E. unfold readables; simpl. rewrite (readable_fails _ _ E).
        destruct (is_runtime e) eqn:R; [reflexivity|].
        exfalso. apply (H r); [left; auto|]. exists e. split; auto.
        apply is_runtime_false; auto.
  Qed.

  Lemma iter_ok t : (forall r, In r t -> ~ fatal r) ->
    iter_trajectory t = {| items := readables t; ending := None |}.
  Proof.
    intros H. rewrite <- (app_nil_r t) at 1. rewrite iter_app by auto. simpl.
    rewrite app_nil_r. reflexivity.
  Qed.

  Lemma iter_fatal t1 r e t2 : (forall r, In r t1 -> ~ fatal r) -> fails r e -> e <> RuntimeError ->
    iter_trajectory (t1 ++ r :: t2) = {| items := readables t1; ending := Some e |}.
  Proof.
    intros H Hr He. rewrite iter_app by auto. simpl.
    apply read_frame_inr in Hr. rewrite Hr. apply is_runtime_false in He. rewrite He.
    simpl. rewrite app_nil_r. reflexivity.
  Qed.

  Lemma iter_sublist t : sublist (items (iter_trajectory t)) (readables t).
  Proof.
    induction t as [|r t IH]; simpl; [constructor|].
    unfold readables; simpl. fold (readables t).
    destruct (read_frame r) as [f|e] eqn:E.
    - apply read_frame_inl in E. rewrite (readable_reads _ _ E). simpl. constructor; auto.
    - apply read_frame_inr in E. rewrite (readable_fails _ _ E).
      destruct (is_runtime e); simpl; auto. constructor.
  Qed.

  (** *** _get_num_steps *)
  Lemma traj_step_neg t k : (k < length t)%nat ->
    traj_step t (- Z.of_nat (S k)) =
    match nth_error t (length t - S k) with
    | Some (Good s _) => inl s
    | Some Corrupt => inr RuntimeError
    | Some (Broken e) => inr e
    | None => inr IndexError
    end.
  Proof.
    intros H. unfold traj_step.
    destruct (- Z.of_nat (S k) <? 0) eqn:E; [|apply Z.ltb_ge in E; lia].
    destruct (- Z.of_nat (S k) + Z.of_nat (length t) <? 0) eqn:E1; [apply Z.ltb_lt in E1; lia|].
    destruct (Z.of_nat (length t) <=? - Z.of_nat (S k) + Z.of_nat (length t)) eqn:E2;
      [apply Z.leb_le in E2; lia|]. simpl orb.
    replace (Z.to_nat (- Z.of_nat (S k) + Z.of_nat (length t))) with (length t - S k)%nat by lia.
    reflexivity.
  Qed.

  Lemma traj_step_out t k : (length t <= k)%nat -> traj_step t (- Z.of_nat (S k)) = inr IndexError.
  Proof.
    intros H. unfold traj_step.
    destruct (- Z.of_nat (S k) <? 0) eqn:E; [|apply Z.ltb_ge in E; lia].
    destruct (- Z.of_nat (S k) + Z.of_nat (length t) <? 0) eqn:E1; [|apply Z.ltb_ge in E1; lia].
    reflexivity.
  Qed.

  (** Skip the unreadable tail. *)
  Lemma num_steps_skip a b : (forall r, In r b -> no_snapshot r) -> forall j retries,
    (j + retries = 10)%nat -> (j <= length b)%nat -> (length b <= 10)%nat ->
    num_steps_loop retries (- Z.of_nat (S j)) (a ++ b) =
    num_steps_loop (10 - length b) (- Z.of_nat (S (length b))) (a ++ b).
  Proof.
    intros Hb j. remember (length b - j)%nat as d eqn:Hd. revert j Hd.
    induction d as [|d IH]; intros j Hd retries Hr Hj Hl.
    - assert (j = length b) by lia. subst j. replace retries with (10 - length b)%nat by lia. reflexivity.
    - destruct retries as [|retries]; [lia|]. cbn [num_steps_loop].
      rewrite traj_step_neg by (rewrite app_length; lia).
      rewrite app_length.
      replace (length a + length b - S j)%nat with (length a + (length b - S j))%nat by lia.
      rewrite nth_error_app2 by lia.
      replace (length a + (length b - S j) - length a)%nat with (length b - S j)%nat by lia.
      destruct (nth_error b (length b - S j)) as [r|] eqn:E.
      2:{ apply nth_error_None in E. lia. }
      apply nth_error_In in E. apply Hb in E.
      replace (- Z.of_nat (S j) - 1) with (- Z.of_nat (S (S j))) by lia.
      destruct E as [-> | ->]; simpl is_runtime; cbv iota; apply IH; lia.
  Qed.

  Lemma num_steps_good a s c b : (forall r, In r b -> no_snapshot r) -> (length b < 10)%nat ->
    get_num_steps (a ++ Good s c :: b) = inl s.
  Proof.
    intros Hb Hl. unfold get_num_steps.
    change (a ++ Good s c :: b) with (a ++ [Good s c] ++ b). rewrite app_assoc.
    change (-1) with (- Z.of_nat 1). rewrite num_steps_skip by (auto; lia).
    destruct (10 - length b)%nat as [|k] eqn:E; [lia|]. cbn [num_steps_loop].
    rewrite traj_step_neg by (rewrite !app_length; simpl; lia).
    rewrite !app_length. simpl length.
    replace (length a + 1 + length b - S (length b))%nat with (length a) by lia.
    rewrite <- app_assoc, nth_error_app2, Nat.sub_diag by lia. reflexivity.
  Qed.

  Lemma num_steps_broken a e b : (forall r, In r b -> no_snapshot r) -> (length b < 10)%nat ->
    e <> RuntimeError -> get_num_steps (a ++ Broken e :: b) = inr e.
  Proof.
    intros Hb Hl He. unfold get_num_steps.
    change (a ++ Broken e :: b) with (a ++ [@Broken P e] ++ b). rewrite app_assoc.
    change (-1) with (- Z.of_nat 1). rewrite num_steps_skip by (auto; lia).
    destruct (10 - length b)%nat as [|k] eqn:E; [lia|]. cbn [num_steps_loop].
    rewrite traj_step_neg by (rewrite !app_length; simpl; lia).
    rewrite !app_length. simpl length.
    replace (length a + 1 + length b - S (length b))%nat with (length a) by lia.
    rewrite <- app_assoc, nth_error_app2, Nat.sub_diag by lia. simpl.
    apply is_runtime_false in He. rewrite He. reflexivity.
  Qed.

  Lemma num_steps_short t : (forall r, In r t -> no_snapshot r) -> (length t < 10)%nat ->
    get_num_steps t = inr IndexError.
  Proof.
    intros Hb Hl. unfold get_num_steps.
    change (-1) with (- Z.of_nat 1).
    change t with ([] ++ t). rewrite num_steps_skip by (auto; lia).
    destruct (10 - length t)%nat as [|k] eqn:E; [lia|]. cbn [num_steps_loop].
    rewrite traj_step_out by (simpl; lia). reflexivity.
  Qed.

  Lemma num_steps_bad a b : (forall r, In r b -> no_snapshot r) -> length b = 10%nat ->
    get_num_steps (a ++ b) = inr RuntimeError.
  Proof.
    intros Hb Hl. unfold get_num_steps.
    change (-1) with (- Z.of_nat 1). rewrite num_steps_skip by (auto; lia).
    rewrite Hl. reflexivity.
  Qed.

  (** *** the linear reader *)
  Definition cap (M : Z) (c : nat) : nat := Nat.min (Z.to_nat (M + 1)) c.

  Lemma cap_step K M f fs :
    (let idx := seq 0 (cap M (multiples K fs)) in
     if (timestep f mod K =? 0) && (Z.of_nat (length idx) <=? M) then idx ++ [length idx] else idx)
    = seq 0 (cap M (multiples K (fs ++ [f]))).
  Proof.
    cbv zeta. rewrite seq_length. unfold multiples. rewrite filter_app, app_length.
    set (c := length (filter _ fs)). simpl filter.
    destruct (timestep f mod K =? 0); simpl length.
    - destruct (Z.of_nat (cap M c) <=? M) eqn:E; simpl andb; cbv iota.
      + apply Z.leb_le in E. unfold cap in *.
        replace (Nat.min (Z.to_nat (M + 1)) (c + 1)) with (S (Nat.min (Z.to_nat (M + 1)) c)) by lia.
        rewrite seq_S. reflexivity.
      + apply Z.leb_gt in E. unfold cap in *. f_equal. lia.
    - simpl. rewrite Nat.add_0_r. reflexivity.
  Qed.

  Fixpoint numbered K M pre fs : list (list nat * frame P) :=
    match fs with
    | [] => []
    | f :: fs' => (seq 0 (cap M (multiples K (pre ++ [f]))), f) :: numbered K M (pre ++ [f]) fs'
    end.

  Lemma numbered_snd K M fs : forall pre, map snd (numbered K M pre fs) = fs.
  Proof. induction fs; intros; simpl; f_equal; auto. Qed.

  Lemma numbered_nth K M fs : forall pre i idx f,
    nth_error (numbered K M pre fs) i = Some (idx, f) ->
    idx = seq 0 (cap M (multiples K (pre ++ firstn (S i) fs))).
  Proof.
    induction fs as [|g fs IH]; intros pre [|i] idx f H; simpl in H; try discriminate.
    - injection H as <- <-. reflexivity.
    - apply IH in H. rewrite <- app_assoc in H. exact H.
  Qed.

  Lemma linear_loop_ok smax K M fin : K <> 0 -> forall fs pre,
    exists good rest,
      fs = good ++ rest /\ (forall f, In f good -> within smax f) /\
      (rest = [] \/ exists f fr, rest = f :: fr /\ ~ within smax f) /\
      linear_loop smax K M fs fin (seq 0 (cap M (multiples K pre))) =
      ({| items := numbered K M pre good; ending := match rest with [] => fin | _ => None end |},
       seq 0 (cap M (multiples K (pre ++ good ++ firstn 1 rest)))).
  Proof.
    intros HK. induction fs as [|f fs IH]; intros pre.
    - exists [], []. simpl. rewrite app_nil_r. repeat split; auto; tauto.
    - assert (Hstep := cap_step K M f pre). cbv zeta in Hstep.
      simpl linear_loop. destruct (K =? 0) eqn:EK; [apply Z.eqb_eq in EK; lia|].
      rewrite Hstep.
      assert (Hyes : within smax f ->
        exists good rest,
          f :: fs = good ++ rest /\ (forall f, In f good -> within smax f) /\
          (rest = [] \/ exists f fr, rest = f :: fr /\ ~ within smax f) /\
          (let (s, i) := linear_loop smax K M fs fin (seq 0 (cap M (multiples K (pre ++ [f])))) in
               (cons_item (seq 0 (cap M (multiples K (pre ++ [f]))), f) s, i)) =
          ({| items := numbered K M pre good; ending := match rest with [] => fin | _ => None end |},
           seq 0 (cap M (multiples K (pre ++ good ++ firstn 1 rest))))).
      { intros Hw. destruct (IH (pre ++ [f])) as (good & rest & A & B & C & F).
        exists (f :: good), rest. repeat apply conj.
        - simpl; congruence.
        - intros g [->|Hg]; auto.
        - auto.
        - rewrite F. rewrite <- app_assoc. reflexivity. }
      destruct smax as [m|].
      + destruct (timestep f >? m) eqn:Em.
        * exists [], (f :: fs). repeat apply conj; simpl; auto; try tauto.
          right. exists f, fs. split; auto. rewrite Z.gtb_ltb in Em. apply Z.ltb_lt in Em. lia.
        * apply Hyes. simpl. rewrite Z.gtb_ltb in Em. apply Z.ltb_ge in Em. lia.
      + apply Hyes. exact I.
  Qed.

  Lemma firstn_app_1 {A} i (l r : list A) : (i < length l)%nat ->
    firstn (S i) (l ++ r) = firstn (S i) l.
  Proof.
    intros H. rewrite firstn_app. replace (S i - length l)%nat with 0%nat by lia.
    simpl firstn at 2. apply app_nil_r.
  Qed.

  Lemma linear_ok smax K M t : K <> 0 ->
    exists out final rest,
      linear_trajectory smax K M t = (out, final) /\
      items (iter_trajectory t) = map snd (items out) ++ rest /\
      (forall idx f, In (idx, f) (items out) -> within smax f) /\
      ((rest = [] /\ ending out = ending (iter_trajectory t)) \/
       (exists f fr, rest = f :: fr /\ ~ within smax f /\ ending out = None)) /\
      (forall i idx f, nth_error (items out) i = Some (idx, f) ->
         idx = seq 0 (Nat.min (Z.to_nat (M + 1))
                        (multiples K (firstn (S i) (items (iter_trajectory t)))))) /\
      final = seq 0 (Nat.min (Z.to_nat (M + 1))
                        (multiples K (map snd (items out) ++ firstn 1 rest))).
  Proof.
    intros HK. unfold linear_trajectory. set (fs := items (iter_trajectory t)).
    destruct (linear_loop_ok smax K M (ending (iter_trajectory t)) HK fs [])
      as (good & rest & A & B & C & F).
    change (seq 0 (cap M (multiples K []))) with (seq 0 (cap M 0)) in F.
    replace (cap M 0) with 0%nat in F by (unfold cap; lia).
    change (seq 0 0) with (@nil nat) in F. rewrite F.
    eexists _, _, rest. split; [reflexivity|]. simpl items; simpl ending.
    rewrite numbered_snd. repeat apply conj; auto.
    - intros idx f Hin. apply B. apply (in_map snd) in Hin. rewrite numbered_snd in Hin. exact Hin.
    - destruct C as [-> | (f & r & -> & H)]; [left|right]; eauto.
    - intros i idx f Hi.
      assert (Hlt : (i < length good)%nat).
      { rewrite <- (numbered_snd K M good []), map_length. apply nth_error_Some. congruence. }
      apply numbered_nth in Hi. rewrite A, firstn_app_1 by auto. exact Hi.
  Qed.

  (** *** the exponential reader *)
  Inductive trace (fuel : nat) : series -> list (Z * list nat) -> Prop :=
  | trace_nil : forall s, series_next fuel s = Ok None -> trace fuel s []
  | trace_cons : forall s c s' out, series_next fuel s = Ok (Some (c, s')) ->
      trace fuel s' out -> trace fuel s ((c, get_index s') :: out).

  Lemma run_trace fuel k : forall s out sf, series_run fuel k s = Ok (out, sf) ->
    trace fuel s out /\ (length out < k)%nat.
  Proof.
    induction k as [|k IH]; intros s out sf H; simpl in H; [discriminate|].
    destruct (series_next fuel s) as [[[c s']|]| |] eqn:E; simpl in H; try discriminate.
    - destruct (series_run fuel k s') as [[o f]| |] eqn:R; simpl in H; try discriminate.
      injection H as <- <-. apply IH in R. simpl. split; [constructor; tauto|lia].
    - injection H as <- <-. split; [constructor; auto|simpl; lia].
  Qed.

  Fixpoint drop_steps (ts : Z) (steps : list (Z * list nat)) : list (Z * list nat) :=
    match steps with
    | [] => []
    | (c, i) :: r => if c <? ts then drop_steps ts r else steps
    end.

  Lemma skip_steps_trace fuel ts : forall k c s out,
    trace fuel s out -> (length out < k)%nat ->
    exists s', trace fuel s' (tl (drop_steps ts ((c, get_index s) :: out))) /\
      skip_steps fuel k c ts s =
      Ok (match drop_steps ts ((c, get_index s) :: out) with
          | [] => None
          | (c', i') :: _ => Some (c', s')
          end) /\
      forall c' i' q, drop_steps ts ((c, get_index s) :: out) = (c', i') :: q -> get_index s' = i'.
  Proof.
    induction k as [|k IH]; intros c s out Ht Hk; [simpl in Hk; lia|].
    simpl. destruct (c <? ts) eqn:E.
    - inversion Ht as [s0 H | s0 c' s' out' H Ht']; subst.
      + rewrite H. simpl. exists s. repeat apply conj; [constructor; auto|reflexivity|discriminate].
      + rewrite H. simpl in Hk. destruct (IH c' s' out' Ht' ltac:(lia)) as (s2 & A & B & C).
        exists s2. rewrite B. simpl in *. auto.
    - exists s. simpl. repeat apply conj; auto. intros ? ? ? H. injection H as <- <- <-. reflexivity.
  Qed.

  (** The reader with the step series given as a list. *)
  Fixpoint exp_l (k : nat) (steps : list (Z * list nat)) fs (fin : option exn)
    : stream (list nat * frame P) :=
    match k with
    | O => ended fin
    | S k' =>
        match fs, steps with
        | [], _ => ended fin
        | _, [] => ended None
        | f :: rest, (c, i) :: steps' =>
            if c >? timestep f then
              match skip_frames c f rest with
              | None => ended fin
              | Some (f', rest') =>
                  let out := exp_l k' steps' rest' fin in
                  if c =? timestep f' then cons_item (i, f') out else out
              end
            else
              match drop_steps (timestep f) steps with
              | [] => ended None
              | (c', i') :: steps'' =>
                  let out := exp_l k' steps'' rest fin in
                  if c' =? timestep f then cons_item (i', f) out else out
              end
        end
    end.

  Lemma skip_frames_length c rest : forall f f' rest',
    skip_frames c f rest = Some (f', rest') -> (length rest' <= length rest)%nat.
  Proof.
    induction rest as [|g rest IH]; intros f f' rest' H; simpl in H.
    - destruct (timestep f <? c); inversion H; subst; auto.
    - destruct (timestep f <? c).
      + apply IH in H. simpl; lia.
      + injection H as <- <-. simpl; lia.
  Qed.

  Lemma drop_steps_suffix ts steps : exists pre, steps = pre ++ drop_steps ts steps.
  Proof.
    induction steps as [|[c i] r IH]; simpl; [exists []; auto|].
    destruct (c <? ts); [|exists []; auto].
    destruct IH as [pre H]. exists ((c, i) :: pre). simpl; congruence.
  Qed.

  Lemma exp_loop_l fuel smax fin : forall k s steps fs,
    trace fuel s steps -> (length steps < fuel)%nat -> (length fs < k)%nat ->
    (forall c i, In (c, i) steps -> c <= smax) ->
    exp_loop_gsd fuel k smax s fs fin = Ok (exp_l k steps fs fin).
  Proof.
    induction k as [|k IH]; intros s steps fs Ht Hf Hk Hle; [lia|].
    destruct fs as [|f rest]; [reflexivity|]. simpl in Hk.
    inversion Ht as [s0 H | s0 c s' out H Ht']; subst.
    - simpl. rewrite H. reflexivity.
    - simpl exp_loop_gsd. simpl exp_l. rewrite H.
      assert (Hle' : forall x i, In (x, i) out -> x <= smax) by (intros; eapply Hle; right; eauto).
      simpl in Hf.
      assert (Hfin : forall c s' i out f rest, trace fuel s' out -> (length out < fuel)%nat ->
        (length rest < k)%nat -> (forall c i, In (c, i) out -> c <= smax) -> c <= smax ->
        get_index s' = i ->
        (if c >? smax then Ok (ended None)
         else match exp_loop_gsd fuel k smax s' rest fin with
              | Ok out => Ok (if c =? timestep f then cons_item (get_index s', f) out else out)
              | Raise e => Raise e
              | OutOfFuel => OutOfFuel
              end) =
        Ok (if c =? timestep f then cons_item (i, f) (exp_l k out rest fin) else exp_l k out rest fin)).
      { intros c0 s0' i0 out0 f0 rest0 T1 T2 T3 T4 T5 T6. rewrite Z.gtb_ltb.
        destruct (smax <? c0) eqn:E; [apply Z.ltb_lt in E; lia|].
        rewrite (IH s0' out0 rest0) by auto. rewrite T6. reflexivity. }
      assert (Hc : c <= smax) by (eapply Hle; left; reflexivity).
      destruct (c >? timestep f) eqn:Egt.
      + destruct (skip_frames c f rest) as [[f' rest']|] eqn:Es; [|reflexivity].
        apply skip_frames_length in Es. apply Hfin; auto; lia.
      + destruct (c <? timestep f) eqn:Elt.
        * destruct (skip_steps_trace fuel (timestep f) fuel c s' out Ht' ltac:(lia)) as (s2 & A & B & C).
          rewrite B. simpl in A, C |- *. rewrite Elt in *.
          destruct (drop_steps_suffix (timestep f) out) as [pre Hpre].
          destruct (drop_steps (timestep f) out) as [|[c' i'] r] eqn:Ed; [reflexivity|].
          simpl in A. assert (Hin : forall x i, In (x, i) ((c', i') :: r) -> x <= smax).
          { intros x i Hx. apply (Hle' x i). rewrite Hpre. apply in_or_app; auto. }
          apply Hfin; auto; try lia.
          -- rewrite Hpre, app_length in Hf. simpl in Hf. lia.
          -- intros; eapply Hin; right; eauto.
          -- eapply Hin; left; eauto.
          -- eapply C; reflexivity.
        * simpl. apply Hfin; auto; lia.
  Qed.

  Lemma sublist_refl {A} (l : list A) : sublist l l.
  Proof. induction l; constructor; auto. Qed.
  Lemma sublist_trans {A} (l1 l2 l3 : list A) : sublist l1 l2 -> sublist l2 l3 -> sublist l1 l3.
  Proof.
    intros H1 H2. revert l1 H1. induction H2; intros l0 H1.
    - inversion H1; constructor.
    - inversion H1; subst; constructor; auto.
    - constructor; auto.
  Qed.
  Lemma sublist_app_l {A} (pre l : list A) : sublist l (pre ++ l).
  Proof. induction pre; simpl; [apply sublist_refl|constructor; auto]. Qed.
  Lemma sublist_In {A} (l1 l2 : list A) x : sublist l1 l2 -> In x l1 -> In x l2.
  Proof. induction 1; simpl; tauto. Qed.

  Lemma skip_frames_suffix c rest : forall f f' rest',
    skip_frames c f rest = Some (f', rest') ->
    exists pre, f :: rest = pre ++ f' :: rest' /\ (forall g, In g pre -> timestep g < c) /\
                c <= timestep f'.
  Proof.
    induction rest as [|g rest IH]; intros f f' rest' H; simpl in H.
    - destruct (timestep f <? c) eqn:E; inversion H; subst. apply Z.ltb_ge in E.
      exists []. simpl. repeat split; auto; tauto.
    - destruct (timestep f <? c) eqn:E.
      + destruct (IH _ _ _ H) as (pre & A & B & C). exists (f :: pre). simpl.
        apply Z.ltb_lt in E. rewrite A. repeat split; auto. intros x [->|Hx]; auto.
      + injection H as <- <-. apply Z.ltb_ge in E. exists []. simpl. repeat split; auto; tauto.
  Qed.

  Lemma skip_frames_none c rest : forall f, skip_frames c f rest = None ->
    forall g, In g (f :: rest) -> timestep g < c.
  Proof.
    induction rest as [|h rest IH]; intros f H g Hg; simpl in H;
      destruct (timestep f <? c) eqn:E; try discriminate; apply Z.ltb_lt in E.
    - destruct Hg as [->|[]]; auto.
    - destruct Hg as [->|Hg]; auto. eapply IH; eauto.
  Qed.

  Lemma exp_l_sound fin : forall k steps fs,
    sublist (map snd (items (exp_l k steps fs fin))) fs /\
    forall i f, In (i, f) (items (exp_l k steps fs fin)) -> In (timestep f, i) steps.
  Proof.
    induction k as [|k IH]; intros steps fs; simpl; [split; [constructor|tauto]|].
    destruct fs as [|f rest]; [split; [constructor|simpl; tauto]|].
    destruct steps as [|[c i] steps]; [split; [constructor|simpl; tauto]|].
    destruct (c >? timestep f) eqn:E.
    - destruct (skip_frames c f rest) as [[f' rest']|] eqn:Es; [|split; [constructor|simpl; tauto]].
      destruct (skip_frames_suffix _ _ _ _ _ Es) as (pre & A & B & C).
      destruct (IH steps rest') as [I1 I2]. rewrite A.
      destruct (c =? timestep f') eqn:Ee.
      + apply Z.eqb_eq in Ee. subst c. simpl. split.
        * eapply sublist_trans; [|apply sublist_app_l]. constructor; auto.
        * intros j g [H|H]; [injection H as <- <-; auto|right; auto].
      + split.
        * eapply sublist_trans; [|apply sublist_app_l]. constructor; auto.
        * intros j g H. right; auto.
    - destruct (drop_steps_suffix (timestep f) ((c, i) :: steps)) as [pre Hp].
      destruct (drop_steps (timestep f) ((c, i) :: steps)) as [|[c' i'] st'] eqn:Ed;
        [split; [constructor|simpl; tauto]|].
      destruct (IH st' rest) as [I1 I2]. rewrite Hp.
      destruct (c' =? timestep f) eqn:Ee.
      + apply Z.eqb_eq in Ee. subst c'. simpl. split; [constructor; auto|].
        intros j g [H|H].
        * injection H as <- <-. apply in_or_app; simpl; auto.
        * apply in_or_app; simpl; auto.
      + simpl. split; [constructor; auto|].
        intros j g H. apply in_or_app; simpl; auto.
  Qed.

  Lemma drop_steps_spec ts steps : increasing (map fst steps) ->
    forall c i, In (c, i) steps -> ts <= c -> In (c, i) (drop_steps ts steps).
  Proof.
    induction steps as [|[x j] r IH]; intros Hs c i Hin Hc; simpl in *; [tauto|].
    inversion Hs; subst. destruct (x <? ts) eqn:E; [|exact Hin].
    apply Z.ltb_lt in E. destruct Hin as [H|H]; [injection H as <- <-; lia|]. auto.
  Qed.

  Lemma drop_steps_head ts steps c i q : drop_steps ts steps = (c, i) :: q -> ts <= c.
  Proof.
    induction steps as [|[x j] s IH]; simpl; [discriminate|].
    destruct (x <? ts) eqn:E; auto. intros H; injection H as <- <- <-. apply Z.ltb_ge in E; auto.
  Qed.

  Lemma increasing_suffix a b : increasing (a ++ b) -> increasing b.
  Proof. induction a; simpl; auto. intros H; inversion H; auto. Qed.

  Lemma rising_suffix (a b : list (frame P)) : rising (a ++ b) -> rising b.
  Proof. induction a; simpl; auto. intros [_ H]; auto. Qed.

  Definition stepset (steps : list (Z * list nat)) (x : Z) : Prop := In x (map fst steps).

  (** Every frame is a step: all frames are yielded. *)
  Lemma exp_l_all_frames fin : forall k steps fs,
    increasing (map fst steps) -> rising fs -> (length fs < k)%nat ->
    (forall f, In f fs -> stepset steps (timestep f)) ->
    map snd (items (exp_l k steps fs fin)) = fs.
  Proof.
    induction k as [|k IH]; intros steps fs Hs Hr Hk Hin; [lia|].
    destruct fs as [|f rest]; [reflexivity|]. simpl in Hk. destruct Hr as [Hr1 Hr2].
    assert (Hf := Hin f (or_introl eq_refl)). unfold stepset in Hf.
    destruct steps as [|[c i] steps]; [simpl in Hf; tauto|].
    simpl exp_l.
    assert (Hcle : c <= timestep f).
    { inversion Hs as [|? ? ? HF]; subst. destruct Hf as [Hf|Hf]; simpl in *; [lia|].
      rewrite Forall_forall in HF. apply HF in Hf. lia. }
    destruct (c >? timestep f) eqn:E; [rewrite Z.gtb_ltb in E; apply Z.ltb_lt in E; lia|].
    destruct (drop_steps_suffix (timestep f) ((c, i) :: steps)) as [pre Hp].
    apply in_map_iff in Hf. destruct Hf as [[c0 i0] [Hc0 Hf]]. simpl in Hc0. subst c0.
    assert (Hd := drop_steps_spec (timestep f) _ Hs _ _ Hf (Z.le_refl _)).
    assert (Hs' := Hs). rewrite Hp, map_app in Hs'. apply increasing_suffix in Hs'.
    destruct (drop_steps (timestep f) ((c, i) :: steps)) as [|[c' i'] st'] eqn:Ed; [destruct Hd|].
    change (drop_steps (timestep f) ((c, i) :: steps)) with
      (if c <? timestep f then drop_steps (timestep f) steps else (c, i) :: steps) in Ed.
    assert (Hle := drop_steps_head (timestep f) ((c, i) :: steps) c' i' st' Ed).
    inversion Hs' as [|? ? Hs'' HF]; subst. rewrite Forall_forall in HF.
    assert (c' = timestep f).
    { destruct Hd as [H|H]; [injection H as <- <-; auto|].
      apply (in_map fst) in H. apply HF in H. simpl in H. lia. }
    subst c'. rewrite Ed, Z.eqb_refl. simpl. f_equal.
    apply IH; auto; [lia|].
    intros g Hg. assert (Hg' := Hin g (or_intror Hg)). unfold stepset in *.
    apply in_map_iff in Hg'. destruct Hg' as [[cg ig] [E1 E2]]. simpl in E1. subst cg.
    assert (Hlt := Hr1 g Hg).
    assert (Hdg := drop_steps_spec (timestep f) _ Hs _ _ E2 ltac:(lia)).
    change (drop_steps (timestep f) ((c, i) :: steps)) with
      (if c <? timestep f then drop_steps (timestep f) steps else (c, i) :: steps) in Hdg.
    rewrite Ed in Hdg. destruct Hdg as [H|H]; [injection H; lia|].
    apply (in_map fst) in H. exact H.
  Qed.

  (** Every step up to the end of the file is a frame: all frames on steps are yielded. *)
  Lemma exp_l_all_steps fin : forall k steps fs,
    increasing (map fst steps) -> rising fs -> (length fs < k)%nat ->
    (forall x g, stepset steps x -> In g fs -> x <= timestep g ->
                 exists f, In f fs /\ timestep f = x) ->
    forall f, In f fs -> stepset steps (timestep f) ->
    In f (map snd (items (exp_l k steps fs fin))).
  Proof.
    induction k as [|k IH]; intros steps fs Hs Hr Hk Hin f0 Hf0 Hs0; [lia|].
    destruct fs as [|f rest]; [destruct Hf0|]. simpl in Hk.
    unfold stepset in Hs0. destruct steps as [|[c i] steps]; [destruct Hs0|].
    inversion Hs as [|? ? Hs' HF]; subst. simpl in Hs', HF. rewrite Forall_forall in HF.
    assert (Hc0 : c <= timestep f0).
    { destruct Hs0 as [H|H]; simpl in *; [lia|]. apply HF in H. lia. }
    destruct (Hin c f0 (or_introl eq_refl) Hf0 Hc0) as (fc & Hfc & Efc).
    assert (Hfle : timestep f <= c).
    { destruct Hfc as [->|Hfc]; [lia|]. destruct Hr as [Hr1 _]. apply Hr1 in Hfc. lia. }
    assert (Hfind : exists pre rest', f :: rest = pre ++ fc :: rest' /\
      (length rest' <= length rest)%nat /\
      items (exp_l (S k) ((c, i) :: steps) (f :: rest) fin) = (i, fc) :: items (exp_l k steps rest' fin)).
    { simpl exp_l. destruct (c >? timestep f) eqn:E.
      - destruct (skip_frames c f rest) as [[f' rest']|] eqn:Es.
        + assert (Hl := skip_frames_length _ _ _ _ _ Es).
          destruct (skip_frames_suffix _ _ _ _ _ Es) as (pre & A & B & C).
          assert (f' = fc).
          { assert (Hfc' : In fc (pre ++ f' :: rest')) by (rewrite <- A; exact Hfc).
            apply in_app_or in Hfc'. destruct Hfc' as [H|[H|H]]; auto.
            - apply B in H. lia.
            - rewrite A in Hr. apply rising_suffix in Hr. destruct Hr as [Hr _]. apply Hr in H. lia. }
          subst f'. exists pre, rest'. rewrite <- Efc, Z.eqb_refl. simpl. auto.
        + apply (skip_frames_none _ _ _ Es) in Hfc. lia.
      - rewrite Z.gtb_ltb in E. apply Z.ltb_ge in E.
        assert (f = fc).
        { destruct Hfc as [H|H]; auto. destruct Hr as [Hr1 _]. apply Hr1 in H. lia. }
        subst fc. exists [], rest. simpl.
        destruct (c <? timestep f) eqn:E2; [apply Z.ltb_lt in E2; lia|].
        rewrite <- Efc, Z.eqb_refl. simpl. auto. }
    destruct Hfind as (pre & rest' & A & B & C). rewrite C. simpl.
    assert (Hpre : forall h, In h pre -> timestep h < timestep fc).
    { rewrite A in Hr. clear - Hr. intros h H. induction pre as [|p pre IH]; simpl in *; [tauto|].
      destruct Hr as [Hr1 Hr2]. destruct H as [->|H]; auto.
      apply Hr1. apply in_or_app; right; left; auto. }
    rewrite A in Hr. apply rising_suffix in Hr. destruct Hr as [Hr1 Hr2].
    assert (Hcase : f0 = fc \/ (In f0 rest' /\ In (timestep f0) (map fst steps))).
    { rewrite A in Hf0. apply in_app_or in Hf0. destruct Hf0 as [H|[H|H]]; auto.
      - apply Hpre in H. lia.
      - right. split; auto. destruct Hs0 as [H0|H0]; auto. simpl in H0.
        apply Hr1 in H. lia. }
    destruct Hcase as [->|[H1 H2]]; [left; auto|]. right.
    apply IH; auto; [lia|].
    intros x g Hx Hg Hxg. assert (Hcx : c < x) by (apply HF; auto).
    destruct (Hin x g) as (fx & Hfx & Efx); auto.
    { right; exact Hx. }
    { rewrite A. apply in_or_app; right; right; auto. }
    exists fx. split; auto. rewrite A in Hfx. apply in_app_or in Hfx.
    destruct Hfx as [H|[H|H]]; auto.
    - apply Hpre in H. lia.
    - subst fx. lia.
  Qed.
End Proofs.
