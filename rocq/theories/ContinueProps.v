(** C215: analysing a simulation that was continued. *)
From Coq Require Import ZArith List Bool Lia Arith Sorted.
From Verif Require Import Base DictFacts StepSizeModel StepSizeSpec StepSizeProofs
  StepSeriesProofs StepSeriesRun StepSizeExtra StepSizeProps WriteCacheModel WriteCacheSpec ProcessModel ProcessSpec ProcessProofs ProcessProps GsdModel GsdSpec GsdProofs GsdReaders GsdProps MoreKeysSpec MoreKeysProps.
Import ListNotations.
Open Scope Z_scope.

(** ** The readers on a longer file *)
Section Longer.
  Context {P : Type}.
  Implicit Types (t u : list (raw P)) (fs gs : list (frame P)).
  Lemma skip_longer c rest gs : forall (f : frame P) x, skip_frames c f rest = Some x -> skip_frames c f (rest ++ gs) = Some (fst x, snd x ++ gs).
  Proof.
    induction rest as [|g rest IH]; intros f x; cbn [skip_frames app].
    - destruct (timestep f <? c) eqn:E; [discriminate|]. intros [= <-]. cbn [fst snd]. destruct gs; cbn; rewrite E; reflexivity.
    - destruct (timestep f <? c); [apply IH|]. intros [= <-]. reflexivity.
  Qed.
  Lemma exp_longer fin gs fin' : forall k steps fs, exists more, items (exp_l k steps (fs ++ gs) fin') = items (exp_l k steps fs fin) ++ more.
  Proof.
    induction k as [|k IH]; intros steps fs; [exists []; reflexivity|].
    destruct fs as [|f rest]; [cbn; eexists; reflexivity|]. cbn [exp_l app]. destruct steps as [|[c i] steps]; [exists []; reflexivity|].
    destruct (c >? timestep f).
    - destruct (skip_frames c f rest) as [[f' rest']|] eqn:E; [|cbn; eexists; reflexivity].
      rewrite (skip_longer _ _ gs _ _ E). cbn [fst snd]. destruct (IH steps rest') as (more & H).
      exists more. destruct (c =? timestep f'); cbn [cons_item items]; rewrite H; reflexivity.
    - destruct (drop_steps (timestep f) ((c, i) :: steps)) as [|[c' i'] steps']; [exists []; reflexivity|].
      destruct (IH steps' rest) as (more & H). exists more. destruct (c' =? timestep f); cbn [cons_item items]; rewrite H; reflexivity.
  Qed.
  Lemma linear_longer smax K M fin gs fin' : forall fs idx, exists more,
    items (fst (linear_loop smax K M (fs ++ gs) fin' idx)) = items (fst (linear_loop smax K M fs fin idx)) ++ more.
  Proof.
    induction fs as [|f fs IH]; intros idx; [cbn; eexists; reflexivity|]. cbn [linear_loop app].
    destruct (K =? 0); [exists []; reflexivity|].
    set (idx' := if _ && _ then _ else _). destruct (IH idx') as (more & H). cbv zeta.
    destruct (linear_loop smax K M (fs ++ gs) fin' idx') as [o i], (linear_loop smax K M fs fin idx') as [o' i']. cbn [fst] in H.
    destruct smax as [m|]; [destruct (timestep f >? m); [exists []; reflexivity|]|]; exists more; cbn [fst cons_item items]; rewrite H; reflexivity.
  Qed.
  Lemma iter_longer t u : (forall r, In r t -> ~ fatal r) ->
    ending (iter_trajectory t) = None /\ items (iter_trajectory (t ++ u)) = items (iter_trajectory t) ++ items (iter_trajectory u).
  Proof. intros H. rewrite (iter_app t u H), (iter_ok t H). split; reflexivity. Qed.
End Longer.

(** ** The series up to different steps *)
Section Totals.
  Variables (n G M : Z).
  Notation mult := (fun s => (0 <? s) && (s mod G =? 0)).
  Notation below x := (fun y => y <? x).
  Lemma below_first x l : increasing (x :: l) -> filter (below x) l = [].
  Proof.
    intros H. apply increasing_cons in H as [_ H]. assert (A : forall y, In y l -> ~ y < x) by (intros y I; apply H in I; lia). clear H.
    induction l as [|y l IH]; cbn; auto. assert (L := A y (or_introl eq_refl)). destruct (Z.ltb_spec y x); [lia|]. apply IH. intros z I. apply A. right; auto.
  Qed.
  Lemma nth_rank l : increasing l -> forall j x, nth_error l j = Some x <-> In x l /\ length (filter (below x) l) = j.
  Proof.
    induction l as [|y l IH]; intros Hi j x; [destruct j; cbn; split; [discriminate|tauto|discriminate|tauto]|].
    assert (Hf := below_first _ _ Hi). apply increasing_cons in Hi as [Hi Hy]. destruct j as [|j]; cbn [nth_error filter In].
    - split.
      + intros [= <-]. split; auto. rewrite Z.ltb_irrefl, Hf. reflexivity.
      + intros [[->|I] L]; auto. apply Hy in I. destruct (Z.ltb_spec y x); [discriminate|lia].
    - rewrite (IH Hi). split.
      + intros [I L]. split; auto. apply Hy in I. destruct (Z.ltb_spec y x); [cbn; congruence|lia].
      + intros [[->|I] L].
        * rewrite Z.ltb_irrefl, Hf in L. discriminate.
        * split; auto. apply Hy in I. destruct (Z.ltb_spec y x); [cbn in L; congruence|lia].
  Qed.
  Lemma firstn_rank l k x : increasing l -> In x (firstn k l) <-> In x l /\ (length (filter (below x) l) < k)%nat.
  Proof.
    intros Hi. split.
    - intros I. assert (J := firstn_in _ _ _ I). split; auto. apply In_nth_error in I as (m & Hm).
      assert (m < k)%nat by (apply Nat.lt_le_trans with (length (firstn k l)); [apply nth_error_Some; congruence|rewrite firstn_length; lia]).
      assert (E : nth_error l m = Some x).
      { rewrite <- (firstn_skipn k l). rewrite nth_error_app1; auto. apply nth_error_Some. congruence. }
      apply nth_rank in E as [_ E]; auto. lia.
    - intros [I L]. apply nth_firstn with (length (filter (below x) l)); auto. apply nth_rank; auto.
  Qed.
  Lemma filter_below l l' x p : increasing l -> increasing l' -> (forall y, y < x -> In y l <-> In y l') -> filter (below x) (filter p l) = filter (below x) (filter p l').
  Proof.
    intros Hi Hi' H. apply increasing_ext; [apply filter_increasing, filter_increasing, Hi|apply filter_increasing, filter_increasing, Hi'|].
    intros y. rewrite !filter_In. split; intros [[A B] C]; repeat split; auto; apply Z.ltb_lt in C; apply (H y C); auto.
  Qed.
  Lemma starts_below l l' x : increasing l -> increasing l' -> (forall y, y < x -> In y l <-> In y l') ->
    forall st, st < x -> In st (keyframe_starts G M l) <-> In st (keyframe_starts G M l').
  Proof.
    intros Hi Hi' H st L. unfold keyframe_starts. cbn [In]. rewrite !firstn_rank by (apply filter_increasing; auto).
    rewrite (filter_below l l' st) by (auto; intros y Y; apply H; lia). rewrite !filter_In, (H st L). tauto.
  Qed.
  Lemma starts_increasing l : increasing l -> increasing (keyframe_starts G M l).
  Proof.
    intros Hi. unfold keyframe_starts. constructor; [apply firstn_increasing, filter_increasing, Hi|]. apply Forall_forall.
    intros y I. apply firstn_in in I. apply filter_In in I as [_ I]. apply andb_true_iff in I as [I _]. apply Z.ltb_lt in I. auto.
  Qed.
  Lemma on_steps_below total total' st x : total <= total' -> x < total -> on_steps total n st x <-> on_steps total' n st x.
  Proof. unfold on_steps. intros L X. split; intros [E|[A B]]; try lia; right; split; auto; lia. Qed.
  Lemma steps_nonneg total out x : series_ok total n G M out -> In x (map fst out) -> 0 <= x.
  Proof.
    intros S I. destruct (so_first _ _ _ _ _ S) as (r & E). assert (Hi := so_increasing _ _ _ _ _ S). rewrite E in *. apply increasing_cons in Hi as [_ Hi].
    destruct I as [<-|I]; [lia|]. apply Hi in I. lia.
  Qed.
  Lemma steps_below total total' out out' : total <= total' -> series_ok total n G M out -> series_ok total' n G M out' ->
    forall x, x < total -> In x (map fst out) <-> In x (map fst out').
  Proof.
    intros L S S'.
    assert (H : forall b x, x < Z.of_nat b -> x < total -> In x (map fst out) <-> In x (map fst out')).
    { induction b as [|b IH]; intros x X Xt; [split; intros I; [apply (steps_nonneg _ _ _ S) in I|apply (steps_nonneg _ _ _ S') in I]; lia|].
      assert (Hs : forall st, st < x -> In st (keyframe_starts G M (map fst out)) <-> In st (keyframe_starts G M (map fst out'))).
      { apply starts_below; [apply (so_increasing _ _ _ _ _ S)|apply (so_increasing _ _ _ _ _ S')|]. intros y Y. apply IH; lia. }
      split; intros I.
      - destruct (so_founded _ _ _ _ _ S x I) as [->|(st & J & Lt & On)].
        + destruct (so_first _ _ _ _ _ S') as (r & ->). left; auto.
        + apply (so_complete _ _ _ _ _ S' st); [apply Hs; auto|]. apply (on_steps_below total total'); auto.
      - destruct (so_founded _ _ _ _ _ S' x I) as [->|(st & J & Lt & On)].
        + destruct (so_first _ _ _ _ _ S) as (r & ->). left; auto.
        + apply (so_complete _ _ _ _ _ S st); [apply Hs; auto|]. apply (on_steps_below total total'); auto. }
    intros x X. destruct (Z.lt_ge_cases x 0) as [N|N]; [apply (H 0%nat); lia|]. apply (H (Datatypes.S (Z.to_nat x))); lia.
  Qed.
  Lemma nth_starts_below total total' out out' : total <= total' -> series_ok total n G M out -> series_ok total' n G M out' ->
    forall j st, st < total -> nth_error (keyframe_starts G M (map fst out)) j = Some st <-> nth_error (keyframe_starts G M (map fst out')) j = Some st.
  Proof.
    intros L S S' j st X. assert (I := so_increasing _ _ _ _ _ S). assert (I' := so_increasing _ _ _ _ _ S').
    assert (Hs : forall s, s < total -> In s (keyframe_starts G M (map fst out)) <-> In s (keyframe_starts G M (map fst out'))).
    { apply starts_below; auto. apply (steps_below total total'); auto. }
    rewrite !nth_rank by (apply starts_increasing; auto). rewrite (Hs st X).
    replace (filter (below st) (keyframe_starts G M (map fst out'))) with (filter (below st) (keyframe_starts G M (map fst out))); [tauto|].
    apply increasing_ext; [apply filter_increasing, starts_increasing, I|apply filter_increasing, starts_increasing, I'|].
    intros y. rewrite !filter_In. split; intros [A B]; split; auto; apply Z.ltb_lt in B; apply Hs; auto; lia.
  Qed.
End Totals.

(** ** The frames of a key frame *)
Lemma exp_keys (P : Type) smax K M n (t : list (raw P)) total :
  match smax with Some m => inl m | None => get_num_steps t end = inl total ->
  0 <= total -> 1 <= n -> K <> 0 -> (forall r, In r t -> ~ fatal r) -> rising (readables t) ->
  (forall steps, series_ok total n K M steps -> fits (map fst steps) (map (@timestep P) (readables t))) ->
  exists fuel0 k0, forall fuel k, (fuel0 <= fuel)%nat -> (k0 <= k)%nat ->
  exists steps out, series_ok total n K M steps /\ exponential_trajectory fuel k smax K M n t = Ok out /\
    sublist (map snd (items out)) (readables t) /\ (forall idx f, In (idx, f) (items out) -> NoDup idx) /\
    forall j f, In f (of_key j (items out)) <->
      In f (readables t) /\ exists s, nth_error (keyframe_starts K M (map fst steps)) j = Some s /\ on_steps total n s (timestep f).
Proof.
  intros Hs Ht Hn HK Hf Hr All.
  destruct (C18_exponential_sound P smax K M n t total Hs Ht Hn HK) as (a1 & b1 & A).
  destruct (C19_exponential_complete P smax K M n t total Hs Ht Hn HK Hf Hr) as (a2 & b2 & B).
  exists (a1 + a2)%nat, (b1 + b2)%nat. intros fuel k F1 F2.
  destruct (A fuel k ltac:(lia) ltac:(lia)) as (st & out & S & E & Sub & Snd).
  destruct (B fuel k ltac:(lia) ltac:(lia)) as (st2 & out2 & S2 & E2 & Cmp0 & Cmp). rewrite E in E2. injection E2 as <-.
  rewrite (proj1 (C09_determined _ _ _ _ _ _ S2 S)) in Cmp0, Cmp.
  exists st, out. split; [exact S|]. split; [exact E|]. split; [exact Sub|]. split; [intros idx f I; apply (so_index _ _ _ _ _ S _ _ (Snd _ _ I))|].
  assert (C1 : forall f, In f (readables t) -> In (timestep f) (map fst st) -> exists idx, In (idx, f) (items out)).
  { clear - All S Cmp0 Cmp. specialize (All st S). intros f I J. destruct All as [X|X].
    - rewrite <- Cmp0 in I by (intros g Hg; apply X, in_map, Hg). apply in_map_iff in I as ([idx g] & <- & I). exists idx. exact I.
    - apply Cmp; auto. intros x g Hx Hg Le. specialize (X x (timestep g) Hx (in_map _ _ _ Hg) Le). apply in_map_iff in X as (h & <- & Ih). eauto. }
  intros j f. rewrite in_of_key. split.
  - intros (idx & I & J). split; [apply (sublist_In _ _ _ Sub); apply (in_map snd) in I; exact I|].
    apply (proj2 (proj2 (so_index _ _ _ _ _ S _ _ (Snd _ _ I)))). exact J.
  - intros (I & s & N & On). destruct (C1 f I) as (idx & J); [apply (so_complete _ _ _ _ _ S s); auto; eapply nth_error_In; eauto|].
    exists idx. split; auto. apply (proj2 (proj2 (so_index _ _ _ _ _ S _ _ (Snd _ _ J)))). eauto.
Qed.

(** ** The rows of a longer list of frames *)
Section Rows.
  Context {D R F Row Out : Type}.
  Variable npos : F -> nat.
  Variable mk : F -> (D * R) + exn.
  Variable custom : option (R -> R * option exn).
  Variable compute : D -> F -> D * (Row + exn).
  Variable radd : R -> F -> R * option exn.
  Variable label : nat -> Row -> Out + exn.
  Notation run := (ProcessModel.frames npos mk custom compute radd label).

  Lemma run_none l fin s : run l fin (start_state true) = (s, None) -> fin = None.
  Proof. rewrite frames_flat. destruct (flat mk custom compute radd label (vlist npos l) (start_state true)) as [s' [e|]]; congruence. Qed.
  Lemma rows_longer l m fin s' : run (l ++ m) fin (start_state true) = (s', None) ->
    exists s more, run l None (start_state true) = (s, None) /\ all_rows s' = all_rows s ++ more.
  Proof.
    intros H. destruct (pure mk custom compute radd label (vlist npos (l ++ m)) []) as [[d' rows'] e'] eqn:E'.
    destruct (run_rows npos mk custom compute radd label (l ++ m) fin d' rows' e' E') as (x & Hx & _ & A'). rewrite H in Hx. injection Hx as <- He.
    destruct e' as [e'|]; [discriminate|].
    assert (Hv : vlist npos (l ++ m) = vlist npos l ++ vlist npos m) by (unfold vlist; apply flat_map_app). rewrite Hv, pure_app in E'.
    destruct (pure mk custom compute radd label (vlist npos l) []) as [[d rows] [e|]] eqn:E; [discriminate|].
    destruct (pure mk custom compute radd label (vlist npos m) d) as [[d2 r2] e2]. injection E' as _ <- _.
    destruct (run_rows npos mk custom compute radd label l None d rows None E) as (s & Hs & _ & A). exists s, r2. split; auto. rewrite A', A. reflexivity.
  Qed.
End Rows.

(** ** C215 *)
(** Without linear steps, every row stays and the others are appended. *)
Theorem C215_linear : forall (P D R Row Out : Type) npos mk custom compute radd label smax K M (t u : list (raw P)) s',
  (forall r, In r t -> ~ fatal r) ->
  let out := fst (linear_trajectory smax K M t) in let out' := fst (linear_trajectory smax K M (t ++ u)) in
  @ProcessModel.frames D R (frame P) Row Out npos mk custom compute radd label (items out') (ending out') (start_state true) = (s', None) ->
  (exists later, items out' = items out ++ later) /\
  exists s more, @ProcessModel.frames D R (frame P) Row Out npos mk custom compute radd label (items out) (ending out) (start_state true) = (s, None) /\
    all_rows s' = all_rows s ++ more.
Proof.
  intros P D R Row Out npos mk custom compute radd label smax K M t u s' Hf out out' H.
  assert (He : ending out = None).
  { assert (N := run_none npos mk custom compute radd label _ _ _ H). destruct (Z.eq_dec K 0) as [->|HK].
    - unfold out, out', linear_trajectory in *. rewrite (iter_ok t Hf), (iter_app t u Hf) in *. cbn [items ending] in *.
      destruct (readables t) as [|f fs]; [reflexivity|]. cbn in N. discriminate.
    - destruct (C16_linear_reader P smax K M t HK) as (o & fn & rest & E & _ & _ & En & _). unfold out. rewrite E. cbn [fst].
      destruct En as [[_ ->]|(f & r & _ & _ & ->)]; auto. rewrite (iter_ok t Hf). reflexivity. }
  assert (Hm : exists later, items out' = items out ++ later).
  { unfold out, out', linear_trajectory. rewrite (iter_ok t Hf), (iter_app t u Hf). cbn [items ending]. apply linear_longer. }
  split; [exact Hm|]. destruct Hm as (later & Hm). rewrite Hm in H. rewrite He. apply rows_longer in H. exact H.
Qed.
Print Assumptions C215_linear.

(** So it is with linear steps and a fixed last step. *)
Theorem C215_steps_max : forall (P D R Row Out : Type) npos mk custom compute radd label m K M n (t u : list (raw P)),
  (forall r, In r t -> ~ fatal r) -> 0 <= m -> 1 <= n -> K <> 0 ->
  exists fuel0 k0, forall fuel k, (fuel0 <= fuel)%nat -> (k0 <= k)%nat ->
  exists out out', exponential_trajectory fuel k (Some m) K M n t = Ok out /\ exponential_trajectory fuel k (Some m) K M n (t ++ u) = Ok out' /\
  (exists later, items out' = items out ++ later) /\
  forall s', @ProcessModel.frames D R (frame P) Row Out npos mk custom compute radd label (items out') (ending out') (start_state true) = (s', None) ->
  exists s more, @ProcessModel.frames D R (frame P) Row Out npos mk custom compute radd label (items out) (ending out) (start_state true) = (s, None) /\
    all_rows s' = all_rows s ++ more.
Proof.
  intros P D R Row Out npos mk custom compute radd label m K M n t u Hf Hm Hn HK.
  destruct (series_correct m n K M Hm Hn HK) as (fuel0 & k0 & H).
  exists (fuel0 + k0)%nat, (S (length (items (iter_trajectory (t ++ u))) + length (items (iter_trajectory t)))).
  intros fuel k F1 F2. destruct (H fuel k0 ltac:(lia) (le_n _)) as (s & steps & sf & A & B & C & S). destruct (run_trace _ _ _ _ _ B) as [T L].
  assert (X : forall v : list (raw P), (length (items (iter_trajectory v)) < k)%nat -> exponential_trajectory fuel k (Some m) K M n v = Ok (exp_l k steps (items (iter_trajectory v)) (ending (iter_trajectory v)))).
  { intros v Hv. unfold exponential_trajectory. rewrite A. apply exp_loop_l; auto; try lia. eapply series_le_total; eauto. }
  eexists _, _. split; [apply X; lia|]. split; [apply X; lia|].
  rewrite (iter_ok t Hf), (iter_app t u Hf). cbn [items ending].
  destruct (exp_longer None (items (iter_trajectory u)) (ending (iter_trajectory u)) k steps (readables t)) as (later & E).
  split; [eauto|]. intros s' R1. rewrite E in R1. apply rows_longer in R1.
  replace (ending (exp_l k steps (readables t) None)) with (@None exn); [exact R1|].
  clear. revert steps. generalize (readables t) as fs. induction k as [|k IH]; intros fs steps; [reflexivity|].
  destruct fs as [|f fs]; [reflexivity|]. cbn [exp_l]. destruct steps as [|[c i] steps]; [reflexivity|].
  destruct (c >? timestep f).
  - destruct (skip_frames c f fs) as [[f' r']|]; [|reflexivity]. cbv zeta. destruct (c =? timestep f'); cbn [cons_item ending]; apply IH.
  - destruct (drop_steps (timestep f) ((c, i) :: steps)) as [|[c' i'] s1]; [reflexivity|]. cbv zeta. destruct (c' =? timestep f); cbn [cons_item ending]; apply IH.
Qed.
Print Assumptions C215_steps_max.

Section Split.
  Context {P : Type}.
  Notation early T := (fun f : frame P => timestep f <? T).
  Lemma rising_sub (l : list (frame P)) : rising l -> forall a, sublist a l -> rising a.
  Proof.
    induction l as [|x l IH]; intros H a S; [inversion S; exact I|]. destruct H as [Hx H].
    destruct a as [|f a]; [exact I|]. destruct (sub_cons _ _ _ _ S) as [[-> S1]|S1]; [|apply IH; auto].
    split; [intros g Hg; apply Hx; eapply sublist_In; eauto|apply IH; auto].
  Qed.
  Lemma rising_split T (l : list (frame P)) : rising l -> l = filter (early T) l ++ filter (fun f => negb (timestep f <? T)) l.
  Proof.
    induction l as [|x l IH]; intros H; [reflexivity|]. destruct H as [Hx H]. cbn [filter]. destruct (Z.ltb_spec (timestep x) T) as [L|L]; cbn [negb].
    - cbn [app]. f_equal. auto.
    - assert (A : forall m : list (frame P), (forall g, In g m -> T <= timestep g) -> filter (early T) m = [] /\ filter (fun f => negb (timestep f <? T)) m = m).
      { induction m as [|y m IHm]; intros A; [auto|]. cbn [filter]. assert (Y := A y (or_introl eq_refl)). destruct (Z.ltb_spec (timestep y) T); [lia|]. cbn [negb].
        destruct IHm as [-> ->]; auto. intros g Hg. apply A. right; auto. }
      destruct (A l) as [-> ->]; [|reflexivity]. intros g Hg. apply Hx in Hg. lia.
  Qed.
  Lemma filter_sub {A} (p : A -> bool) l : sublist (filter p l) l.
  Proof. induction l as [|x l IH]; cbn; [constructor|]. destruct (p x); constructor; auto. Qed.
  Lemma readables_two (t u : list (raw P)) : readables (t ++ u) = readables t ++ readables u.
  Proof. unfold readables. apply flat_map_app. Qed.
End Split.
Lemma grid_ge start n s : grid start n 1 10 s -> start <= s.
Proof. intros (i & k & Hi & Hk & ->). assert (0 < 10 ^ k) by (apply Z.pow_pos_nonneg; lia). nia. Qed.

(** With linear steps up to the end of the file: the rows before the former end stay. *)
Theorem C215_unfinished_partial : forall (P D R Row Out : Type) npos mk custom compute radd label K M n (t u : list (raw P)) total total',
  get_num_steps t = inl total -> get_num_steps (t ++ u) = inl total' -> 0 <= total -> total <= total' -> 1 <= n -> K <> 0 ->
  (forall r, In r (t ++ u) -> ~ fatal r) -> rising (readables (t ++ u)) -> (forall f, In f (readables u) -> total <= timestep f) ->
  (forall steps, series_ok total n K M steps -> fits (map fst steps) (map (@timestep P) (readables t))) ->
  (forall steps, series_ok total' n K M steps -> fits (map fst steps) (map (@timestep P) (readables (t ++ u)))) ->
  exists fuel0 k0, forall fuel k, (fuel0 <= fuel)%nat -> (k0 <= k)%nat ->
  exists out out', exponential_trajectory fuel k None K M n t = Ok out /\ exponential_trajectory fuel k None K M n (t ++ u) = Ok out' /\
  forall j, exists kept rest rest',
    of_key j (items out) = kept ++ rest /\ of_key j (items out') = kept ++ rest' /\
    (forall f, In f kept -> timestep f < total) /\ (forall f, In f rest \/ In f rest' -> total <= timestep f) /\
    forall s s',
      @ProcessModel.frames D R (frame P) Row Out npos mk custom compute radd label (items out) (ending out) (start_state true) = (s, None) ->
      @ProcessModel.frames D R (frame P) Row Out npos mk custom compute radd label (items out') (ending out') (start_state true) = (s', None) ->
      exists s0 more more',
        @ProcessModel.frames D R (frame P) Row Out npos mk custom compute radd label (map (fun f => ([j], f)) kept) None (start_state true) = (s0, None) /\
        key_rows j (all_rows s) = all_rows s0 ++ more /\ key_rows j (all_rows s') = all_rows s0 ++ more'.
Proof.
  intros P D R Row Out npos mk custom compute radd label K M n t u total total' Ht Ht' H0 HL Hn HK Hf Hr Hu Fi Fi'.
  assert (Hf1 : forall r, In r t -> ~ fatal r) by (intros r I; apply Hf, in_or_app; auto).
  assert (Sub0 : sublist (readables t) (readables (t ++ u))).
  { rewrite readables_two. clear. induction (readables t); cbn; constructor; auto. }
  assert (Hr1 := rising_sub _ Hr _ Sub0).
  destruct (exp_keys P None K M n t total Ht H0 Hn HK Hf1 Hr1 Fi) as (f0 & k0 & A).
  destruct (exp_keys P None K M n (t ++ u) total' Ht' ltac:(lia) Hn HK Hf Hr Fi') as (f1 & k1 & A').
  exists (f0 + f1)%nat, (k0 + k1)%nat. intros fuel k F1 F2.
  destruct (A fuel k ltac:(lia) ltac:(lia)) as (st & out & S & E & Sb & N & Idx).
  destruct (A' fuel k ltac:(lia) ltac:(lia)) as (st' & out' & S' & E' & Sb' & N' & Idx').
  exists out, out'. split; [exact E|]. split; [exact E'|]. intros j.
  assert (S1 : sublist (of_key j (items out)) (readables (t ++ u))) by (eapply sublist_trans; [apply of_key_sub|eapply sublist_trans; eauto]).
  assert (S2 : sublist (of_key j (items out')) (readables (t ++ u))) by (eapply sublist_trans; [apply of_key_sub|eauto]).
  assert (Eq : filter (fun f => timestep f <? total) (of_key j (items out)) = filter (fun f => timestep f <? total) (of_key j (items out'))).
  { apply (rising_same _ Hr); [eapply sublist_trans; [apply filter_sub|exact S1]|eapply sublist_trans; [apply filter_sub|exact S2]|].
    intros f. rewrite !filter_In, Idx, Idx', !Z.ltb_lt. split; intros ((I & s & Ns & On) & L); (split; [split|exact L]).
    - apply (sublist_In _ _ _ Sub0 I).
    - exists s. assert (Ls : s < total) by (destruct On as [On|[_ On]]; [lia|apply grid_ge in On; lia]).
      split; [apply (nth_starts_below n K M total total' st st' HL S S'); auto|apply (on_steps_below n total total'); auto].
    - rewrite readables_two in I. apply in_app_or in I as [I|I]; auto. apply Hu in I. lia.
    - assert (On1 : on_steps total n s (timestep f)) by (apply (on_steps_below n total total'); auto).
      exists s. assert (Ls : s < total) by (destruct On1 as [On1|[_ On1]]; [lia|apply grid_ge in On1; lia]).
      split; [apply (nth_starts_below n K M total total' st st' HL S S'); auto|auto]. }
  exists (filter (fun f => timestep f <? total) (of_key j (items out))), (filter (fun f => negb (timestep f <? total)) (of_key j (items out))),
    (filter (fun f => negb (timestep f <? total)) (of_key j (items out'))).
  assert (X1 := rising_split total _ (rising_sub _ Hr _ S1)). assert (X2 := rising_split total _ (rising_sub _ Hr _ S2)). rewrite <- Eq in X2.
  split; [exact X1|]. split; [exact X2|].
  split; [intros f I; apply filter_In in I as [_ I]; apply Z.ltb_lt in I; exact I|].
  split; [intros f [I|I]; apply filter_In in I as [_ I]; destruct (Z.ltb_spec (timestep f) total); [discriminate I|auto|discriminate I|auto]|].
  revert X1 X2. generalize (filter (fun f => timestep f <? total) (of_key j (items out))) as kept.
  generalize (filter (fun f => negb (timestep f <? total)) (of_key j (items out))) as rest. generalize (filter (fun f => negb (timestep f <? total)) (of_key j (items out'))) as rest'.
  intros rest' rest kept X1 X2 s s' R1 R2.
  destruct (C26_keyframes_independent npos mk custom compute radd label _ _ _ R1 j) as (a & A1 & A2 & _).
  destruct (C26_keyframes_independent npos mk custom compute radd label _ _ _ R2 j) as (b & B1 & B2 & _).
  rewrite restrict_of_key in A1, B1 by eauto. rewrite X1, map_app in A1. rewrite X2, map_app in B1.
  apply rows_longer in A1. destruct A1 as (s0 & more & R0 & M1). apply rows_longer in B1. destruct B1 as (s1 & more' & R0' & M2).
  rewrite R0 in R0'. injection R0' as <-. exists s0, more, more'. split; [exact R0|]. split; congruence.
Qed.
Print Assumptions C215_unfinished_partial.

(** The last row does not stay: the last step of an unfinished file is a step of every series,
    and needs not be one of the longer ones. *)
Theorem C215_unfinished_refuted : exists (t u : list (raw nat)) K M n total total' out out',
  get_num_steps t = inl total /\ get_num_steps (t ++ u) = inl total' /\ 0 <= total <= total' /\ 1 <= n /\ K <> 0 /\
  (forall r, In r (t ++ u) -> ~ fatal r) /\ rising (readables (t ++ u)) /\ (forall f, In f (readables u) -> total <= timestep f) /\
  exponential_trajectory 300 300 None K M n t = Ok out /\ exponential_trajectory 300 300 None K M n (t ++ u) = Ok out' /\
  of_key 0 (items out) = readables t /\ In (50, 3%nat) (readables t) /\ ~ In (50, 3%nat) (of_key 0 (items out')).
Proof.
  exists [Good 0 (inl 0%nat); Good 1 (inl 1%nat); Good 10 (inl 2%nat); Good 50 (inl 3%nat)], [Good 100 (inl 4%nat)], 1000, 500, 1, 50, 100. do 2 eexists.
  split; [vm_compute; reflexivity|]. split; [vm_compute; reflexivity|]. split; [lia|]. split; [lia|]. split; [lia|].
  split; [intros r H [e [F N]]; cbn in H; repeat (destruct H as [<-|H]; [inversion F|]); destruct H|].
  split; [cbn; repeat split; intros g I; repeat (destruct I as [<-|I]; [cbn; lia|]); destruct I|].
  split; [intros f [<-|[]]; cbn; lia|].
  split; [vm_compute; reflexivity|]. split; [vm_compute; reflexivity|]. split; [vm_compute; reflexivity|].
  split; [cbn; auto|]. vm_compute. intuition discriminate.
Qed.
Print Assumptions C215_unfinished_refuted.

(** A file that fits, before and after two more frames were written. *)
Definition first_part : list (raw nat) := map (fun s => Good s (inl 1%nat)) [0; 1; 10; 11; 15].
Definition second_part : list (raw nat) := map (fun s => Good s (inl 1%nat)) [20; 100].
Example C215_example :
  fits [0; 1; 10; 11; 15] (map (@timestep nat) (readables first_part)) /\
  fits [0; 1; 10; 11; 20; 100] (map (@timestep nat) (readables (first_part ++ second_part))) /\
  get_num_steps first_part = inl 15 /\ get_num_steps (first_part ++ second_part) = inl 100 /\
  (forall f, In f (readables second_part) -> 15 <= timestep f) /\
  let run out := all_rows (fst (@ProcessModel.frames Z unit (frame nat) Z Z snd (fun f => inl (fst f, tt)) None
                     (fun d f => (d, inl (fst f - d))) (fun r _ => (r, None)) (fun _ x => inl x) (items out) (ending out) (start_state true))) in
  let times t smax := match exponential_trajectory 300 300 smax 10 2 1 t with Ok out => run out | _ => [] end in
  times first_part None = [(0%nat, 0); (0%nat, 1); (0%nat, 10); (1%nat, 0); (1%nat, 1); (0%nat, 15); (1%nat, 5)] /\
  times (first_part ++ second_part) None = [(0%nat, 0); (0%nat, 1); (0%nat, 10); (1%nat, 0); (1%nat, 1); (1%nat, 10); (0%nat, 100); (1%nat, 90)] /\
  times first_part (Some 100) = [(0%nat, 0); (0%nat, 1); (0%nat, 10); (1%nat, 0); (1%nat, 1)] /\
  times (first_part ++ second_part) (Some 100) = times first_part (Some 100) ++ [(1%nat, 10); (0%nat, 100); (1%nat, 90)] /\
  run (fst (linear_trajectory None 10 0 first_part)) = [(0%nat, 0); (0%nat, 1); (0%nat, 10); (0%nat, 11); (0%nat, 15)] /\
  run (fst (linear_trajectory None 10 0 (first_part ++ second_part))) = run (fst (linear_trajectory None 10 0 first_part)) ++ [(0%nat, 20); (0%nat, 100)].
Proof.
  split; [left; intros x I; cbn in I; cbn; tauto|].
  split; [right; intros x y I J L; cbn in I, J; cbn; tauto|].
  split; [reflexivity|]. split; [reflexivity|]. split; [intros f I; repeat (destruct I as [<-|I]; [cbn; lia|]); destruct I|].
  cbv zeta. repeat split; vm_compute; reflexivity.
Qed.
