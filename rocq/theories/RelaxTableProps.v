(** C48-C50 and C100: the tables of relaxations. *)
From Coq Require Import String Reals ZArith QArith Qreals List Bool Lia Lqa.
From Verif Require Import Base XNum RelaxationModel RelaxationSpec RelaxationProofs RelaxFitModel RelaxFitSpec
  RelaxFitProofs RelaxFullModel RelaxFitProps RelaxTableModel RelaxTableSpec RelaxTableProofs.
Import ListNotations.
Open Scope Q_scope.

Lemma rows_of_fun {A} (keyof : A -> key) k rows g g' :
  rows_of keyof k rows g -> rows_of keyof k rows g' -> g = g'.
Proof.
  intros H. revert g'. induction H; intros g' G; inversion G; subst; auto; try contradiction.
  f_equal; auto.
Qed.
Lemma rows_of_filter {A} (keyof : A -> key) k rows :
  rows_of keyof k rows (filter (fun r => key_eqb k (keyof r)) rows).
Proof.
  induction rows as [|r rows IH]; simpl; [constructor|]. destruct (key_eqb k (keyof r)) eqn:E.
  - constructor; auto. apply key_eqb_iff; auto.
  - constructor; auto. apply key_eqb_false; auto.
Qed.
Lemma present_iff k : present k <-> same_key k k.
Proof.
  destruct k as [[a b] c]. simpl.
  assert (H : forall x, x <> CNaN <-> same_cell x x).
  { intros x. split; [destruct x; try congruence; constructor; reflexivity|intros S E; subst; inversion S]. }
  rewrite !H. tauto.
Qed.
Lemma ordpairs_one_row {A} (keyof : A -> key) out :
  ForallOrdPairs (fun a b => ~ same_key (keyof a) (keyof b)) out -> one_row_per_key keyof out.
Proof.
  intros H i j x y Hi Hj S. destruct (Nat.lt_trichotomy i j) as [L|[E|L]]; auto; exfalso.
  - apply (ordpairs_nth _ _ _ _ _ _ H Hi Hj L S).
  - apply (ordpairs_nth _ _ _ _ _ _ H Hj Hi L). apply same_key_sym; auto.
Qed.

(** * C48 *)
(** compute_relaxation_value(...).mean *)
Definition value_of (nan_raises : bool) curve_fit (time : list Q) (values : list xnum) (name : string)
  : fl + exn := ebind (relaxation_value nan_raises curve_fit time values name) (fun r => inl (fst r)).

Lemma columns_of_In {M} (vo : list Q -> list xnum -> string -> M + exn) cols rows out c v :
  columns_of vo cols rows = inl out -> In (c, v) out ->
  In c cols /\ vo (map d_label rows) (map (fun r => d_val r c) rows) c = inl v.
Proof.
  revert out. induction cols as [|c0 cols IH]; simpl; intros out H I.
  - injection H as <-. destruct I.
  - unfold series_relaxation_value in H.
    destruct (vo (map d_label rows) (map (fun r => d_val r c0) rows) c0) as [v0|e] eqn:E; cbn [ebind] in H; [|discriminate].
    destruct (columns_of vo cols rows) as [vs|e] eqn:E2; cbn [ebind] in H; [|discriminate]. injection H as <-.
    destruct I as [I|I].
    + injection I as <- <-. auto.
    + destruct (IH _ eq_refl I) as [I1 I2]. auto.
Qed.
Lemma columns_of_all {M} (vo : list Q -> list xnum -> string -> M + exn) cols rows out c :
  columns_of vo cols rows = inl out -> In c cols -> exists v, In (c, v) out.
Proof.
  revert out. induction cols as [|c0 cols IH]; simpl; intros out H I; [tauto|].
  destruct (series_relaxation_value vo c0 rows) as [v0|e] eqn:E; cbn [ebind] in H; [|discriminate].
  destruct (columns_of vo cols rows) as [vs|e] eqn:E2; cbn [ebind] in H; [|discriminate]. injection H as <-.
  destruct I as [<-|I]; [exists v0; left; auto|]. destruct (IH _ eq_refl I) as (v & V). exists v. right; auto.
Qed.
Lemma all_groups_In {M} (vo : list Q -> list xnum -> string -> M + exn) cols gs out k vs :
  all_groups vo cols gs = inl out -> In (k, vs) out ->
  exists rows, In (k, rows) gs /\ columns_of vo cols rows = inl vs.
Proof.
  revert out. induction gs as [|[k0 r0] gs IH]; simpl; intros out H I.
  - injection H as <-. destruct I.
  - destruct (columns_of vo cols r0) as [v0|e] eqn:E; cbn [ebind] in H; [|discriminate].
    destruct (all_groups vo cols gs) as [l|e] eqn:E2; cbn [ebind] in H; [|discriminate]. injection H as <-.
    destruct I as [I|I].
    + injection I as <- <-. eauto.
    + destruct (IH _ eq_refl I) as (rows & I1 & I2). eauto.
Qed.
Lemma all_groups_keys {M} (vo : list Q -> list xnum -> string -> M + exn) cols gs out :
  all_groups vo cols gs = inl out -> map fst out = map fst gs.
Proof.
  revert out. induction gs as [|[k0 r0] gs IH]; simpl; intros out H.
  - injection H as <-. auto.
  - destruct (columns_of vo cols r0) as [v0|e] eqn:E; cbn [ebind] in H; [|discriminate].
    destruct (all_groups vo cols gs) as [l|e] eqn:E2; cbn [ebind] in H; [|discriminate]. injection H as <-.
    simpl. f_equal; auto.
Qed.

(** C48: refuted.  A table as process_file writes it for one key frame: the rows are labelled
    0, 1, 2, the times are 0, 100, 200, and the reported relaxation time is 1. *)
Theorem C48_simulation_times_refuted : exists df out k vs v,
  map d_label (d_rows df) = [0; 1; 2]
  /\ map (fun r => d_val r "time"%string) (d_rows df) = [Fin 0; Fin 100; Fin 200]
  /\ (forall nan_raises curve_fit, dynamics_relaxations (value_of nan_raises curve_fit) df = inl out)
  /\ In (k, vs) out /\ In ("struct"%string, FR v) vs
  /\ (forall r t, In r (d_rows df) -> d_val r "time"%string = Fin t -> v <> Q2R t).
Proof.
  set (k := (CNum 0, CNum (13#10), CNum 1) : key).
  set (row l t s := {| d_label := l; d_key := k;
         d_val := fun c => if (c =? "time")%string then t else s |}).
  exists {| d_columns := ["time"; "struct"; "keyframe"; "temperature"; "pressure"]%string;
            d_rows := [row 0 (Fin 0) (Fin 1); row 1 (Fin 100) (Fin (1#10)); row 2 (Fin 200) (Fin 0)] |},
    [(k, [("time"%string, FR (Q2R 0)); ("struct"%string, FR (Q2R 1))])], k,
    [("time"%string, FR (Q2R 0)); ("struct"%string, FR (Q2R 1))], (Q2R 1).
  repeat apply conj; try reflexivity.
  - intros [] cf; reflexivity.
  - left; reflexivity.
  - right; left; reflexivity.
  - intros r t [<-|[<-|[<-|[]]]] E; injection E as <-; unfold Q2R; simpl; Lra.lra.
Qed.
Print Assumptions C48_simulation_times_refuted.

(** C48, what holds: the reported time is the row label of the first row of the key frame
    that has decayed, so it is a simulation time iff the rows are labelled with the times. *)
Theorem C48_labels_partial : forall nan_raises curve_fit df out k vs c v,
  dynamics_relaxations (value_of nan_raises curve_fit) df = inl out ->
  In (k, vs) out -> In (c, v) vs ->
  exists rows, rows_of d_key k (d_rows df) rows /\ present k /\ rows <> []
  /\ (forall i r, ~ In c ["msd"; "msr"; "struct_msd"; "alpha"; "gamma"]%string ->
      (nan_raises = false \/ forall r, In r rows -> d_val r c <> NaN) ->
      first_at (fun r => passed true (Fin (828390857088487 # 2251799813685248)) (d_val r c)) rows i ->
      nth_error rows i = Some r -> v = FR (Q2R (d_label r))).
Proof.
  intros nr cf df out k vs c v H I J. unfold dynamics_relaxations in H.
  destruct (forallb (fun c => memb c (d_columns df)) key_names); [|discriminate].
  destruct (all_groups_In _ _ _ _ _ _ H I) as (rows & G & C).
  apply groupby_In in G. destruct G as (K & M & ->).
  exists (filter (fun r => key_eqb k (d_key r)) (d_rows df)).
  refine (conj (rows_of_filter _ _ _) (conj (proj2 (present_iff k) K) (conj _ _))).
  - apply in_map_iff in M. destruct M as (r & E & M). intros X.
    assert (In r (filter (fun r => key_eqb k (d_key r)) (d_rows df))).
    { apply filter_In. split; auto. rewrite E. apply key_eqb_iff; auto. }
    rewrite X in H0. destruct H0.
  - set (rows := filter (fun r => key_eqb k (d_key r)) (d_rows df)) in *.
    intros i r N NA F Hr. destruct (columns_of_In _ _ _ _ _ _ C J) as [_ E].
    unfold value_of in E.
    destruct (C47_decay nr cf (map d_label rows) (map (fun r => d_val r c) rows) c i (d_label r)) as (e & E'); auto.
    + rewrite !map_length; auto.
    + destruct NA as [NA|NA]; auto. right. intros j w Hw. rewrite nth_error_map in Hw.
      destruct (nth_error rows j) as [r'|] eqn:Ej; [|discriminate]. injection Hw as <-. apply NA.
      eapply nth_error_In; eauto.
    + destruct F as [(r' & F1 & F2) F3]. split.
      * exists (d_val r' c). rewrite nth_error_map, F1. auto.
      * intros j w L Hw. rewrite nth_error_map in Hw. destruct (nth_error rows j) as [q|] eqn:Ej; [|discriminate].
        injection Hw as <-. eapply F3; eauto.
    + rewrite nth_error_map, Hr. reflexivity.
    + rewrite E' in E. cbn [ebind fst] in E. congruence.
Qed.
Print Assumptions C48_labels_partial.

(** Two interleaved key frames: the second is given 3, its row number in the file, as its
    relaxation time, though it relaxed 100 steps after its start. *)
Example C48_example :
  let k n := (CNum n, CNum (13#10), CNum 1) : key in
  let row l n t s := {| d_label := l; d_key := k n; d_val := fun c => if (c =? "time")%string then t else s |} in
  dynamics_relaxations (value_of true closed_form)
    {| d_columns := ["time"; "struct"; "keyframe"; "temperature"; "pressure"]%string;
       d_rows := [row 0 0 (Fin 0) (Fin 1); row 1 0 (Fin 100) (Fin 0); row 2 1 (Fin 0) (Fin 1); row 3 1 (Fin 100) (Fin 0)] |}
  = inl [(k 0, [("time"%string, FR (Q2R 0)); ("struct"%string, FR (Q2R 1))]);
         (k 1, [("time"%string, FR (Q2R 2)); ("struct"%string, FR (Q2R 3))])].
Proof. reflexivity. Qed.

(** * C49 *)
Theorem C49_missing_column : forall zero_ok df,
  compute_molecular_relaxations zero_ok df = inr ValueError
  <-> ~ (In "temperature" (m_columns df) /\ In "pressure" (m_columns df) /\ In "keyframe" (m_columns df))%string.
Proof.
  intros zo df. unfold compute_molecular_relaxations.
  rewrite <- !memb_In.
  destruct (memb "temperature" (m_columns df)), (memb "pressure" (m_columns df)), (memb "keyframe" (m_columns df));
  cbn [negb]; split; intros H; try discriminate; try reflexivity; try (intros (A & B & C); discriminate);
  try (exfalso; apply H; auto).
Qed.
Print Assumptions C49_missing_column.

Theorem C49_groups : forall zero_ok df,
  (In "temperature" (m_columns df) /\ In "pressure" (m_columns df) /\ In "keyframe" (m_columns df))%string ->
  exists out, compute_molecular_relaxations zero_ok df = inl out
  (* each row of the result is a fully relaxed key frame *)
  /\ (forall k stats, In (k, stats) out ->
      relaxed_group (m_columns df) (m_rows df) k /\ exists r, In r (m_rows df) /\ same_key k (m_key r))
  (* each fully relaxed key frame has exactly one row *)
  /\ (forall r, In r (m_rows df) -> relaxed_group (m_columns df) (m_rows df) (m_key r) ->
      exists k stats, In (k, stats) out /\ same_key k (m_key r))
  /\ one_row_per_key fst out
  (* a column of positive relaxation times is averaged in both ways *)
  /\ (forall k stats c, In (k, stats) out -> In c (m_columns df) ->
      ~ In c ["keyframe"; "temperature"; "pressure"]%string ->
      (forall k' stats' vs, In (k', stats') out -> column_values c k' (m_rows df) vs -> positive vs) ->
      exists vs m h, column_values c k (m_rows df) vs /\ vs <> []
        /\ In ((c ++ "_mean")%string, m) stats /\ is_mean vs m
        /\ In ((c ++ "_hmean")%string, h) stats /\ is_hmean vs h).
Proof.
  intros zo df (C1 & C2 & C3). unfold compute_molecular_relaxations.
  apply memb_In in C1, C2, C3. rewrite C1, C2, C3. cbn [negb].
  set (cols := value_columns (m_columns df)).
  set (rows := m_rows df).
  set (good := filter (fun g => forallb (complete_row cols) (snd g)) (groupby m_key (map repl_row rows))).
  set (kept := filter (fun c => forallb (fun g => forallb (hmean_ok zo) (col_values c (snd g))) good) cols).
  assert (VC : forall c, In c cols <-> In c (m_columns df) /\ ~ In c key_names) by (intros; apply value_columns_In).
  (* what a group is *)
  assert (G : forall k g, In (k, g) good ->
    relaxed_group (m_columns df) rows k /\ (exists r, In r rows /\ same_key k (m_key r))
    /\ g = map repl_row (group k rows)).
  { intros k g I. apply filter_In in I. destruct I as [I F]. apply groupby_In in I. destruct I as (K & M & ->).
    rewrite map_map in M. apply in_map_iff in M. destruct M as (r & E & M).
    rewrite m_key_repl in E. rewrite <- E in K. apply repl_key_refl in K. destruct K as [RK SK].
    rewrite (repl_key_id _ RK) in E. subst k.
    rewrite (group_repl _ _ RK) in *. simpl in F. rewrite forallb_forall in F.
    refine (conj (conj RK _) (conj (ex_intro _ r (conj M SK)) eq_refl)).
    intros r' I' S c Ic Nc. assert (X : complete_row cols (repl_row r') = true).
    { apply F. apply in_map. apply filter_In. split; auto. apply key_eqb_iff; auto. }
    rewrite complete_row_iff in X. apply X. apply VC. auto. }
  (* every relaxed key is a group *)
  assert (G' : forall r, In r rows -> relaxed_group (m_columns df) rows (m_key r) ->
    exists k g, In (k, g) good /\ same_key k (m_key r)).
  { intros r I [RK RV].
    assert (PK : same_key (m_key r) (m_key r)).
    { apply present_iff. destruct (m_key r) as [[a b] c]. simpl in *. destruct RK as (R1 & R2 & R3).
      repeat apply conj; intros ->; [apply R1|apply R2|apply R3]; left; auto. }
    destruct (groupby_covers m_key (map repl_row rows) (repl_row r)) as (k & g & Ig & S).
    - apply in_map; auto.
    - rewrite m_key_repl. apply repl_key_refl. auto.
    - rewrite m_key_repl, (repl_key_id _ RK) in S. exists k, g. split; auto.
      apply filter_In. split; auto. simpl.
      assert (RK' : relaxed_key k) by (eapply same_relaxed; [apply same_key_sym; eauto|auto]).
      apply groupby_In in Ig. destruct Ig as (_ & _ & ->). rewrite (group_repl _ _ RK').
      apply forallb_forall. intros r' I'. apply in_map_iff in I'. destruct I' as (r2 & <- & I2).
      apply filter_In in I2. destruct I2 as [I2 E2]. apply key_eqb_iff in E2.
      apply complete_row_iff. intros c Ic. apply VC in Ic. destruct Ic as [Ic1 Ic2].
      apply RV; auto. eapply same_key_trans; [apply same_key_sym; eauto|auto]. }
  eexists. split; [reflexivity|]. refine (conj _ (conj _ (conj _ _))).
  - intros k stats I. apply in_map_iff in I. destruct I as ([k0 g0] & E & I). simpl in E. injection E as <- <-.
    destruct (G _ _ I) as (A & B & _). auto.
  - intros r I R. destruct (G' r I R) as (k & g & Ig & S). exists k. eexists. split; [|exact S].
    apply in_map_iff. exists (k, g). split; [reflexivity|auto].
  - apply ordpairs_one_row. apply ordpairs_map. cbn [fst]. apply ordpairs_filter. apply groupby_apart.
  - intros k stats c I Ic Nc P. apply in_map_iff in I. destruct I as ([k0 g0] & E & I). simpl in E.
    injection E as <- <-.
    assert (IC : In c cols) by (apply VC; auto).
    assert (V : forall k1 g1, In (k1, g1) good -> column_values c k1 rows (col_values c g1)).
    { intros k1 g1 I1. destruct (G _ _ I1) as ((RK & RV) & _ & ->). apply col_values_spec. intros; apply RV; auto. }
    assert (PV : forall k1 g1, In (k1, g1) good -> positive (col_values c g1)).
    { intros k1 g1 I1. eapply P; [|apply V; eauto].
      apply in_map_iff. exists (k1, g1). split; [reflexivity|auto]. }
    assert (KC : In c kept).
    { apply filter_In. split; auto. apply forallb_forall. intros [k1 g1] I1. simpl.
      apply forallb_forall. intros q Iq. specialize (PV _ _ I1 q Iq). unfold hmean_ok.
      destruct zo; [apply Qle_bool_iff; lra|apply Qltb_lt; auto]. }
    assert (NE : col_values c g0 <> []).
    { destruct (G _ _ I) as ((RK & RV) & (r & Ir & Sr) & ->). pose proof (V _ _ I) as W.
      clear -W Ir Sr. intros X. rewrite X in W. remember [] as vs eqn:EV. clear X. revert EV.
      induction W; intros; [destruct Ir|discriminate|destruct Ir as [<-|Ir]; [contradiction|auto]]. }
    exists (col_values c g0), (qmean (col_values c g0)), (qhmean (col_values c g0)).
    refine (conj (V _ _ I) (conj NE (conj _ (conj (qmean_spec _ NE) (conj _ (qhmean_spec _ NE (PV _ _ I))))))).
    + apply in_flat_map. exists c. split; auto. left; reflexivity.
    + apply in_flat_map. exists c. split; auto. right; left; reflexivity.
Qed.
Print Assumptions C49_groups.

(** Key frame 1 has an unrelaxed molecule and is left out. *)
Example C49_example :
  let k n := (CNum n, CNum (13#10), CNum 1) : key in
  let row n v := {| m_key := k n; m_val := fun _ => v |} in
  compute_molecular_relaxations false
    {| m_columns := ["keyframe"; "tau"; "temperature"; "pressure"]%string;
       m_rows := [row 0 (Some 2); row 1 (Some 4294967295); row 0 (Some 6); row 1 (Some 5); row 2 (Some 3)] |}
  = inl [(k 0, [("tau_mean"%string, 8 / 2); ("tau_hmean"%string, 2 / (/ 2 + / 6))]);
         (k 2, [("tau_mean"%string, 3 / 1); ("tau_hmean"%string, 1 / / 3)])].
Proof. vm_compute. reflexivity. Qed.

(** * C50 *)
Theorem C50_means : forall l lo hi,
  l <> [] -> 0 < lo -> (forall q, In q l -> lo <= q <= hi) ->
  qhmean l <= qmean l
  /\ (qhmean l == qmean l <-> forall x y, In x l -> In y l -> x == y)
  /\ lo <= qhmean l <= hi /\ lo <= qmean l <= hi.
Proof.
  intros l lo hi N L B.
  assert (P : positive l) by (intros q I; specialize (B q I); lra).
  pose proof (qmean_spec l N) as M. pose proof (qhmean_spec l N P) as H.
  destruct (means_order l _ _ N P M H) as [A1 A2].
  destruct (means_bounds l _ _ lo hi N P M H L B) as [B1 B2]. auto.
Qed.
Print Assumptions C50_means.

(** The same for the columns that compute_molecular_relaxations writes. *)
Theorem C50_columns : forall vs m h, vs <> [] -> positive vs -> is_mean vs m -> is_hmean vs h ->
  h <= m /\ (h == m <-> forall x y, In x vs -> In y vs -> x == y).
Proof. intros; apply means_order; auto. Qed.
Print Assumptions C50_columns.
Example C50_example : qhmean [2; 6] == 3 /\ qmean [2; 6] == 4.
Proof. split; vm_compute; reflexivity. Qed.

(** * C100 *)
(** Refuted: a key frame with dynamics need not have a row in the table 'relaxations'. *)
Theorem C100_all_keyframes_refuted : exists dyn mol out k r,
  (forall nan_raises curve_fit zero_ok,
     compute_relaxations (value_of nan_raises curve_fit) zero_ok (Some dyn) (Some mol) = inl out)
  /\ In r (d_rows dyn) /\ d_key r = k /\ (exists m, In m (m_rows mol) /\ m_key m = k)
  /\ forall x, In x out -> ~ same_key (fst (fst x)) k.
Proof.
  set (k := (CNum 0, CNum (13#10), CNum 1) : key).
  set (r := {| d_label := 0; d_key := k; d_val := fun c => Fin 0 |}).
  set (m := {| m_key := k; m_val := fun _ => Some 4294967295 |}).
  exists {| d_columns := ["time"; "struct"; "keyframe"; "temperature"; "pressure"]%string; d_rows := [r] |},
    {| m_columns := ["tau"; "keyframe"; "temperature"; "pressure"]%string; m_rows := [m] |}, [], k, r.
  repeat apply conj.
  - intros [] cf []; reflexivity.
  - left; auto.
  - reflexivity.
  - exists m. split; [left|]; auto.
  - intros x [].
Qed.
Print Assumptions C100_all_keyframes_refuted.

(** What holds: the rows are those of the molecular relaxations, joined with the dynamic
    quantities of the same key frame. *)
Theorem C100_rows_partial : forall nan_raises curve_fit zero_ok dyn mol out,
  compute_relaxations (value_of nan_raises curve_fit) zero_ok (Some dyn) (Some mol) = inl out ->
  exists dout mout,
    dynamics_relaxations (value_of nan_raises curve_fit) dyn = inl dout
    /\ compute_molecular_relaxations zero_ok mol = inl mout
    /\ map fst out = mout /\ one_row_per_key fst dout
    /\ forall k st d, In (k, st, d) out ->
       (forall vs, d = Some vs -> exists k', In (k', vs) dout /\ same_key k k')
       /\ (d = None -> forall r, In r (d_rows dyn) -> ~ same_key k (d_key r)).
Proof.
  intros nr cf zo dyn mol out H. unfold compute_relaxations in H.
  destruct (dynamics_relaxations (value_of nr cf) dyn) as [dout|e] eqn:D; cbn [ebind] in H; [|discriminate].
  destruct (compute_molecular_relaxations zo mol) as [mout|e] eqn:M; cbn [ebind] in H; [|discriminate].
  injection H as <-. exists dout, mout. refine (conj eq_refl (conj eq_refl (conj _ (conj _ _)))).
  - rewrite map_map. simpl. rewrite <- (map_id mout) at 2. apply map_ext. intros [a b]; auto.
  - unfold dynamics_relaxations in D.
    destruct (forallb (fun c => memb c (d_columns dyn)) key_names); [|discriminate].
    apply ordpairs_one_row. apply all_groups_keys in D.
    pose proof (groupby_apart d_key (d_rows dyn)) as P.
    apply (ordpairs_map fst (fun a b => ~ same_key a b)) in P. rewrite <- D in P.
    clear -P. remember (map fst dout) as ks eqn:E. revert dout E. induction P as [|k ks F P IH]; intros dout E.
    + destruct dout; [constructor|discriminate].
    + destruct dout as [|x dout]; [discriminate|]. injection E as -> ->. constructor; [|apply IH; auto].
      apply Forall_forall. intros y I. rewrite Forall_forall in F. apply F. apply in_map; auto.
  - intros k st d I. apply in_map_iff in I. destruct I as ([k0 s0] & E & I). simpl in E.
    destruct (filter (fun x => key_eqb k0 (fst x)) dout) as [|x xs] eqn:X; injection E as <- <- <-.
    + split; [discriminate|]. intros _ r Ir S.
      unfold dynamics_relaxations in D.
      destruct (forallb (fun c => memb c (d_columns dyn)) key_names); [|discriminate].
      destruct (groupby_covers d_key (d_rows dyn) r Ir) as (k' & g & G & S').
      { eapply same_key_trans; [apply same_key_sym|]; eauto. }
      apply all_groups_keys in D.
      assert (In k' (map fst dout)) as K by (rewrite D; apply (in_map fst _ (k', g)); auto).
      apply in_map_iff in K. destruct K as ([k2 v2] & E2 & K). simpl in E2. subst k2.
      assert (In (k', v2) (filter (fun x => key_eqb k0 (fst x)) dout)) as Y.
      { apply filter_In. split; auto. apply key_eqb_iff. simpl.
        eapply same_key_trans; [exact S|apply same_key_sym; auto]. }
      rewrite X in Y. destruct Y.
    + split; [|discriminate]. intros vs E. injection E as <-.
      assert (In x (filter (fun x => key_eqb k0 (fst x)) dout)) as Y by (rewrite X; left; auto).
      apply filter_In in Y. destruct Y as [Y1 Y2]. apply key_eqb_iff in Y2.
      exists (fst x). split; auto. destruct x; auto.
Qed.
Print Assumptions C100_rows_partial.
Example C100_example :
  let k := (CNum 0, CNum (13#10), CNum 1) : key in
  compute_relaxations (value_of true closed_form) false
    (Some {| d_columns := ["struct"; "mfd"; "keyframe"; "temperature"; "pressure"]%string;
             d_rows := [{| d_label := 4; d_key := k; d_val := fun _ => Fin 0 |}] |})
    (Some {| m_columns := ["tau"; "keyframe"; "temperature"; "pressure"]%string;
             m_rows := [{| m_key := k; m_val := fun _ => Some 7 |}] |})
  = inl [(k, [("tau_mean"%string, 7 / 1); ("tau_hmean"%string, 1 / / 7)], Some [("struct"%string, FR (Q2R 4))])].
Proof. reflexivity. Qed.
