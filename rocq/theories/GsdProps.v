(** C14-C21, C94: properties of the gsd readers (src/sdanalysis/read/_gsd.py) and of
    open_trajectory (read/_read.py). *)
From Coq Require Import ZArith List Bool Lia.
From Verif Require Import Base StepSizeModel StepSizeSpec GsdModel GsdSpec GsdProofs GsdReaders.
Import ListNotations.
Open Scope Z_scope.

(** A sample file: content is just a label. *)
Definition sample : list (raw nat) :=
  [Good 0 (inl 7%nat); Corrupt; Good 5 (inl 8%nat); Good 6 (inr RuntimeError);
   Good 10 (inl 9%nat); Good 100 (inl 3%nat); Broken RuntimeError].

Lemma sample_not_fatal : forall r, In r sample -> ~ fatal r.
Proof.
  intros r H [e [F N]]. simpl in H.
  repeat (destruct H as [<-|H]; [inversion F; congruence|]). destruct H.
Qed.

(** ** C14 *)
Theorem C14_iter_trajectory : forall (P : Type) (t : list (raw P)),
  ((forall r, In r t -> ~ fatal r) ->
     iter_trajectory t = {| items := readables t; ending := None |}) /\
  (forall t1 r e t2, t = t1 ++ r :: t2 -> (forall r', In r' t1 -> ~ fatal r') ->
     fails r e -> e <> RuntimeError ->
     iter_trajectory t = {| items := readables t1; ending := Some e |}).
Proof.
  intros P t. split; [apply iter_ok|]. intros t1 r e t2 -> H1 H2 H3. eapply iter_fatal; eauto.
Qed.
Print Assumptions C14_iter_trajectory.

(** What [readables] means. *)
Theorem C14_readables : forall (P : Type) (t : list (raw P)) f,
  In f (readables t) <-> exists r, In r t /\ reads r f.
Proof.
  intros P t f. unfold readables. rewrite in_flat_map. split.
  - intros [r [H1 H2]]. exists r. split; auto.
    destruct r as [s [p|e]| |e]; simpl in H2; try tauto. destruct H2 as [<-|[]]. constructor.
  - intros [r [H1 H2]]. exists r. split; auto. inversion H2; subst. left; reflexivity.
Qed.

Example C14_example :
  items (iter_trajectory sample) = [(0, 7%nat); (5, 8%nat); (10, 9%nat); (100, 3%nat)] /\
  iter_trajectory (firstn 3 sample ++ Broken KeyError :: sample) =
  {| items := [(0, 7%nat); (5, 8%nat)]; ending := Some KeyError |}.
Proof. split; reflexivity. Qed.

(** ** C15 *)
Theorem C15_num_steps : forall (P : Type) (a b : list (raw P)),
  (forall r, In r b -> no_snapshot r) ->
  (forall s c, (length b < 10)%nat -> get_num_steps (a ++ Good s c :: b) = inl s) /\
  (forall e, (length b < 10)%nat -> e <> RuntimeError ->
             get_num_steps (a ++ Broken e :: b) = inr e) /\
  ((length b < 10)%nat -> get_num_steps b = inr IndexError) /\
  (length b = 10%nat -> get_num_steps (a ++ b) = inr RuntimeError).
Proof.
  intros P a b H. repeat apply conj; intros.
  - apply num_steps_good; auto.
  - apply num_steps_broken; auto.
  - apply num_steps_short; auto.
  - apply num_steps_bad; auto.
Qed.
Print Assumptions C15_num_steps.

(** The four cases are exhaustive. *)
Theorem C15_exhaustive : forall (P : Type) (t : list (raw P)),
  exists a b, (forall r, In r b -> no_snapshot r) /\
    ((exists s c, t = a ++ Good s c :: b /\ (length b < 10)%nat) \/
     (exists e, t = a ++ Broken e :: b /\ e <> RuntimeError /\ (length b < 10)%nat) \/
     (t = b /\ (length b < 10)%nat) \/
     (t = a ++ b /\ length b = 10%nat)).
Proof.
  intros P t.
  assert (H : forall k, exists a b, (forall r, In r b -> no_snapshot r) /\ (length b <= k)%nat /\
    ((exists s c, t = a ++ Good s c :: b /\ (length b < k)%nat) \/
     (exists e, t = a ++ Broken e :: b /\ e <> RuntimeError /\ (length b < k)%nat) \/
     (t = b /\ (length b < k)%nat) \/
     (t = a ++ b /\ length b = k))).
  { induction k as [|k (a & b & H1 & Hle & H2)].
    - exists t, []. rewrite app_nil_r. simpl. repeat split; auto; tauto.
    - destruct H2 as [(s & c & H2 & H3)|[(e & H2 & H3 & H4)|[[H2 H3]|[H2 H3]]]].
      + exists a, b. split; auto. split; [lia|]. left. exists s, c. split; auto.
      + exists a, b. split; auto. split; [lia|]. right; left. exists e. auto.
      + exists a, b. split; auto. split; [lia|]. right; right; left. auto.
      + destruct a as [|r a] using rev_ind.
        * exists [], b. split; auto. split; [lia|]. right; right; left. simpl in H2. split; auto. lia.
        * clear IHa. rewrite <- app_assoc in H2. simpl in H2.
          destruct r as [s c| |e].
          -- exists a, b. split; auto. split; [lia|]. left. exists s, c. split; auto. lia.
          -- exists a, (Corrupt :: b). split.
             { intros r [<-|Hr]; auto. left; auto. }
             simpl. split; [lia|]. right; right; right. split; auto.
          -- assert (D : e = RuntimeError \/ e <> RuntimeError) by (destruct e; auto; right; discriminate).
             destruct D as [->|D].
             ++ exists a, (Broken RuntimeError :: b). split.
                { intros r [<-|Hr]; auto. right; auto. }
                simpl. split; [lia|]. right; right; right. split; auto.
             ++ exists a, b. split; auto. split; [lia|]. right; left. exists e. repeat split; auto. lia. }
  destruct (H 10%nat) as (a & b & H1 & _ & H2). exists a, b. auto.
Qed.
Print Assumptions C15_exhaustive.

Example C15_example :
  get_num_steps sample = inl 100 /\
  get_num_steps (sample ++ repeat Corrupt 8) = inl 100 /\
  get_num_steps (sample ++ repeat Corrupt 9) = inr RuntimeError /\
  get_num_steps (repeat (@Corrupt nat) 9) = inr IndexError.
Proof. repeat split; reflexivity. Qed.

(** ** C16: [rest] is what is left unread. *)
Theorem C16_linear_reader : forall (P : Type) smax K M (t : list (raw P)), K <> 0 ->
  exists out final rest,
    linear_trajectory smax K M t = (out, final) /\
    items (iter_trajectory t) = map snd (items out) ++ rest /\
    (forall idx f, In (idx, f) (items out) -> within smax f) /\
    ((rest = [] /\ ending out = ending (iter_trajectory t)) \/
     (exists f r, rest = f :: r /\ ~ within smax f /\ ending out = None)) /\
    (forall i idx f, nth_error (items out) i = Some (idx, f) ->
       idx = seq 0 (Nat.min (Z.to_nat (M + 1))
                      (multiples K (firstn (S i) (items (iter_trajectory t)))))) /\
    final = seq 0 (Nat.min (Z.to_nat (M + 1))
                      (multiples K (map snd (items out) ++ firstn 1 rest))).
Proof. intros; apply linear_ok; auto. Qed.
Print Assumptions C16_linear_reader.

Example C16_example :
  fst (linear_trajectory (Some 50) 5 500 sample) =
  {| items := [([0%nat], (0, 7%nat)); ([0%nat; 1%nat], (5, 8%nat));
              ([0%nat; 1%nat; 2%nat], (10, 9%nat))]; ending := None |}.
Proof. reflexivity. Qed.

(** ** C17 *)
Theorem C17_keyframe_max_refuted : exists K M (t : list (raw nat)) idx f,
  0 < K /\ 0 <= M /\
  In (idx, f) (items (fst (linear_trajectory None K M t))) /\ Z.of_nat (length idx) > M.
Proof.
  exists 5, 1, sample, [0; 1]%nat, (10, 9%nat). vm_compute. intuition discriminate.
Qed.
Print Assumptions C17_keyframe_max_refuted.

(** The bound that holds; it is reached as soon as there are enough multiples. *)
Theorem C17_keyframe_max_partial : forall (P : Type) smax K M (t : list (raw P)) idx f,
  K <> 0 -> 0 <= M ->
  In (idx, f) (items (fst (linear_trajectory smax K M t))) ->
  Z.of_nat (length idx) <= M + 1 /\ idx = seq 0 (length idx).
Proof.
  intros P smax K M t idx f HK HM Hin.
  destruct (linear_ok smax K M t HK) as (out & final & rest & E & _ & _ & _ & H & _).
  rewrite E in Hin. simpl in Hin. apply In_nth_error in Hin. destruct Hin as [i Hi].
  apply H in Hi. subst idx. rewrite seq_length. split; auto. lia.
Qed.
Print Assumptions C17_keyframe_max_partial.

Example C17_example : forall M, 0 <= M -> exists t : list (raw nat), exists idx f,
  In (idx, f) (items (fst (linear_trajectory None 1 M t))) /\ Z.of_nat (length idx) = M + 1.
Proof.
  intros M HM.
  set (N := Z.to_nat (M + 1)).
  exists (repeat (Good 0 (inl 0%nat)) N).
  destruct (linear_ok None 1 M (repeat (@Good nat 0 (inl 0%nat)) N) ltac:(lia))
    as (out & final & rest & E & A & B & C & H & _).
  assert (Hfs : items (iter_trajectory (repeat (@Good nat 0 (inl 0%nat)) N)) = repeat ((0, 0%nat) : frame nat) N).
  { clear. induction N as [|N IH]; simpl; [reflexivity|]. rewrite IH. reflexivity. }
  assert (rest = []).
  { destruct C as [[-> _]|(f & r & _ & X & _)]; auto. simpl in X. tauto. }
  subst rest. rewrite app_nil_r in A. rewrite E. simpl fst.
  assert (Hl : length (items out) = N).
  { rewrite <- (map_length snd), <- A, Hfs. apply repeat_length. }
  destruct (nth_error (items out) (N - 1)) as [[idx f]|] eqn:En.
  2:{ apply nth_error_None in En. lia. }
  exists idx, f. split; [eapply nth_error_In; eauto|].
  apply H in En. subst idx. rewrite seq_length, Hfs.
  replace (S (N - 1)) with N by lia.
  assert (Hm : multiples 1 (firstn N (repeat ((0, 0%nat) : frame nat) N)) = N).
  { unfold multiples. rewrite firstn_all2 by (rewrite repeat_length; lia). clear. induction N; simpl; auto. }
  rewrite Hm. lia.
Qed.

(** ** C18.  [series_ok] (StepSizeSpec.v, fields so_index and so_complete) says that in
    [steps] the list beside a step is the list of key-frame sequences containing it. *)
Theorem C18_exponential_sound : forall (P : Type) smax K M n (t : list (raw P)) total,
  match smax with Some m => inl m | None => get_num_steps t end = inl total ->
  0 <= total -> 1 <= n -> K <> 0 ->
  exists fuel0 k0, forall fuel k, (fuel0 <= fuel)%nat -> (k0 <= k)%nat ->
  exists steps out,
    series_ok total n K M steps /\
    exponential_trajectory fuel k smax K M n t = Ok out /\
    sublist (map snd (items out)) (readables t) /\
    forall idx f, In (idx, f) (items out) -> In (timestep f, idx) steps.
Proof. intros P; exact exponential_sound. Qed.
Print Assumptions C18_exponential_sound.

(** Outside those hypotheses ([n <= 0] is C03) nothing is yielded but an exception. *)
Theorem C18_exponential_errors : forall (P : Type) smax K M n (t : list (raw P)),
  (forall e, smax = None -> get_num_steps t = inr e -> forall fuel k,
     exponential_trajectory fuel k smax K M n t = Ok {| items := []; ending := Some e |}) /\
  (forall total f, match smax with Some m => inl m | None => get_num_steps t end = inl total ->
     In f (items (iter_trajectory t)) ->
     (total < 0 -> forall fuel k, (1 <= fuel)%nat -> (1 <= k)%nat ->
        exponential_trajectory fuel k smax K M n t = Ok {| items := []; ending := Some KeyError |}) /\
     (0 <= total -> K = 0 -> forall fuel k, (1 <= fuel)%nat -> (1 <= k)%nat ->
        exponential_trajectory fuel k smax K M n t =
        Ok {| items := []; ending := Some ZeroDivisionError |})).
Proof. intros P; exact exponential_errors. Qed.
Print Assumptions C18_exponential_errors.

(** Key frames at multiples of 10; frame 12 of the file is on sequence 1 only. *)
Definition sample2 : list (raw nat) :=
  [Good 0 (inl 0%nat); Good 5 (inl 1%nat); Corrupt; Good 10 (inl 2%nat); Good 12 (inl 3%nat);
   Good 13 (inl 4%nat)].
Example C18_example :
  exponential_trajectory 100 100 None 10 5 5 sample2 =
  Ok {| items := [([0%nat], (0, 0%nat)); ([0%nat], (5, 1%nat)); ([0%nat; 1%nat], (10, 2%nat));
                  ([1%nat], (12, 3%nat)); ([0%nat; 1%nat], (13, 4%nat))];
        ending := None |}.
Proof. vm_compute; reflexivity. Qed.

(** ** C19 *)
Theorem C19_exponential_complete : forall (P : Type) smax K M n (t : list (raw P)) total,
  match smax with Some m => inl m | None => get_num_steps t end = inl total ->
  0 <= total -> 1 <= n -> K <> 0 ->
  (forall r, In r t -> ~ fatal r) -> rising (readables t) ->
  exists fuel0 k0, forall fuel k, (fuel0 <= fuel)%nat -> (k0 <= k)%nat ->
  exists steps out,
    series_ok total n K M steps /\
    exponential_trajectory fuel k smax K M n t = Ok out /\
    ((forall f, In f (readables t) -> In (timestep f) (map fst steps)) ->
     map snd (items out) = readables t) /\
    ((forall x g, In x (map fst steps) -> In g (readables t) -> x <= timestep g ->
                  exists f, In f (readables t) /\ timestep f = x) ->
     forall f, In f (readables t) -> In (timestep f) (map fst steps) ->
               exists idx, In (idx, f) (items out)).
Proof. intros P; exact exponential_complete. Qed.
Print Assumptions C19_exponential_complete.

(** [sample2] meets the hypotheses of the first case, the following file those of the
    second one (11 is not a step for key frames every 100, 10 and 100 are present). *)
Example C19_example :
  (forall r, In r sample2 -> ~ fatal r) /\ rising (readables sample2) /\
  get_num_steps sample2 = inl 13 /\
  (exists out, exponential_trajectory 100 100 None 10 5 5 sample2 = Ok out /\
               map snd (items out) = readables sample2) /\
  exponential_trajectory 100 100 None 100 5 1
    [Good 0 (inl 0%nat); Good 1 (inl 1%nat); Good 10 (inl 2%nat); Good 11 (inl 3%nat);
     Good 100 (inl 4%nat)] =
  Ok {| items := [([0%nat], (0, 0%nat)); ([0%nat], (1, 1%nat)); ([0%nat], (10, 2%nat));
                  ([0%nat; 1%nat], (100, 4%nat))]; ending := None |}.
Proof.
  split.
  { intros r H [e [F N]]. simpl in H.
    repeat (destruct H as [<-|H]; [inversion F; congruence|]). destruct H. }
  split.
  { simpl. unfold timestep. repeat split; simpl;
      intros g H; repeat (destruct H as [<-|H]; [simpl; lia|]); destruct H. }
  split; [reflexivity|]. split.
  - eexists. split; [vm_compute; reflexivity|reflexivity].
  - vm_compute. reflexivity.
Qed.

(** ** C20 *)
Theorem C20_complete_refuted :
  exists (t : list (raw nat)) K M n total f,
    (forall r, In r t -> ~ fatal r) /\ rising (readables t) /\
    get_num_steps t = inl total /\ 0 <= total /\ 1 <= n /\ 0 < K /\
    In f (readables t) /\
    (forall steps, series_ok total n K M steps -> In (timestep f) (map fst steps)) /\
    exists fuel k out, exponential_trajectory fuel k None K M n t = Ok out /\
      ending out = None /\ ~ exists idx, In (idx, f) (items out).
Proof.
  exists sample, 1000, 1, 1, 100, (10, 9%nat).
  split; [exact sample_not_fatal|].
  split.
  { simpl. unfold timestep. repeat split; simpl;
      intros g H; repeat (destruct H as [<-|H]; [simpl; lia|]); destruct H. }
  split; [reflexivity|]. split; [lia|]. split; [lia|]. split; [lia|].
  split; [simpl; auto|]. split.
  { intros steps H. apply (so_complete _ _ _ _ _ H 0); [left; reflexivity|].
    right. split; [simpl; lia|]. exists 1, 1. simpl. lia. }
  exists 100%nat, 100%nat. eexists. split; [vm_compute; reflexivity|]. split; [reflexivity|].
  intros [idx H]. simpl in H. intuition congruence.
Qed.
Print Assumptions C20_complete_refuted.

(** ** C21 *)
Theorem C21_open_trajectory : forall (P : Type) pb k (t : list (raw P)),
  1 <= k -> pb <> PbOther ->
  ((forall r, In r t -> ~ fatal r) ->
   open_gsd pb k t = {| items := readables (every (Z.to_nat k) t); ending := None |}) /\
  open_gsd pb k t = iter_trajectory (every (Z.to_nat k) t).
Proof. intros. split; [intros; apply open_gsd_ok; auto|apply open_gsd_every; auto]. Qed.
Print Assumptions C21_open_trajectory.

Theorem C21_bad_arguments : forall (P : Type) pb k (t : list (raw P)),
  (open_gsd PbOther k t = {| items := []; ending := Some ValueError |}) /\
  (pb <> PbOther -> k = 0 -> open_gsd pb k t = {| items := []; ending := Some ValueError |}) /\
  (pb <> PbOther -> k < 0 -> open_gsd pb k t = {| items := []; ending := None |}).
Proof.
  intros P pb k t. split; [reflexivity|]. split.
  - intros H ->. destruct pb; try reflexivity.
  - intros H Hk. unfold open_gsd. destruct (Z.eqb_spec k 0); [lia|].
    destruct (Z.ltb_spec k 0); [|lia]. destruct pb; try reflexivity. congruence.
Qed.
Print Assumptions C21_bad_arguments.

Example C21_example :
  open_gsd PbTrue 2 sample = {| items := [(0, 7%nat); (5, 8%nat); (10, 9%nat)]; ending := None |} /\
  every 2 [10; 11; 12; 13; 14] = [10; 12; 14].
Proof. split; reflexivity. Qed.

(** ** C94: the linear reader yields one and the same list object every time; a consumer
    that keeps the lists sees the final one beside every frame.  [kept] is what
    [list(reader)] shows. *)
Definition kept {P} (r : stream (list nat * frame P) * list nat) : list (list nat * frame P) :=
  map (fun p => (snd r, snd p)) (items (fst r)).

Theorem C94_kept_lists_refuted : exists K M (t : list (raw nat)),
  0 < K /\ 0 <= M /\
  kept (linear_trajectory None K M t) <> items (fst (linear_trajectory None K M t)).
Proof. exists 5, 500, sample. vm_compute. intuition discriminate. Qed.
Print Assumptions C94_kept_lists_refuted.

(** They agree exactly when the number of key frames does not grow after the first frame
    (for runs that read the whole file). *)
Theorem C94_kept_lists_partial : forall (P : Type) K M (t : list (raw P)) f fs,
  K <> 0 -> items (iter_trajectory t) = f :: fs ->
  (kept (linear_trajectory None K M t) = items (fst (linear_trajectory None K M t)) <->
   Nat.min (Z.to_nat (M + 1)) (multiples K [f]) = Nat.min (Z.to_nat (M + 1)) (multiples K (f :: fs))).
Proof.
  intros P K M t f fs HK Hfs.
  destruct (linear_ok None K M t HK) as (out & final & rest & E & A & _ & C & H & F).
  assert (rest = []).
  { destruct C as [[-> _]|(g & r & _ & X & _)]; auto. simpl in X. tauto. }
  subst rest. rewrite app_nil_r in A. simpl in F. rewrite app_nil_r, <- A, Hfs in F.
  rewrite E. unfold kept. simpl fst. simpl snd. rewrite Hfs in A, H. split.
  - intros Heq. destruct (items out) as [|[i0 f0] os] eqn:Eo; [discriminate A|].
    simpl in Heq. injection Heq as H0 _. assert (H1 := H 0%nat i0 f0 eq_refl).
    simpl firstn in H1. rewrite <- H0, F in H1. apply (f_equal (@length nat)) in H1.
    rewrite !seq_length in H1. auto.
  - intros Hmin.
    assert (Hall : forall i idx g, nth_error (items out) i = Some (idx, g) -> idx = final).
    { intros i idx g Hi. apply H in Hi. subst idx final. f_equal.
      assert (M1 : (multiples K [f] <= multiples K (firstn (S i) (f :: fs)))%nat).
      { unfold multiples. simpl. destruct (timestep f mod K =? 0); simpl; lia. }
      assert (M2 : (multiples K (firstn (S i) (f :: fs)) <= multiples K (f :: fs))%nat).
      { unfold multiples. rewrite <- (firstn_skipn (S i) (f :: fs)) at 2.
        rewrite filter_app, app_length. lia. }
      lia. }
    clear - Hall. induction (items out) as [|[i g] l IH]; simpl; auto.
    rewrite (Hall 0%nat i g eq_refl). f_equal. apply IH.
    intros j idx h Hj. apply (Hall (S j) idx h Hj).
Qed.
Print Assumptions C94_kept_lists_partial.

Example C94_example :
  map fst (kept (linear_trajectory None 5 500 sample)) = repeat (seq 0 4) 4 /\
  map fst (items (fst (linear_trajectory None 5 500 sample))) = map (seq 0) [1; 2; 3; 4]%nat.
Proof. split; reflexivity. Qed.
