(** C186: the time axis of comp-relaxations over the rows that comp-dynamics wrote. *)
From Coq Require Import String Reals ZArith QArith Qreals List Bool Arith Lia Lra.
From Verif Require Import Base XNum DynModel ParamsModel ProcessModel ProcessPathModel RelaxationModel RelaxationSpec RelaxFitModel RelaxFullModel
  RelaxTableModel RelaxTableSpec RelaxTableProofs RelaxTableProps PipelineModel PipelineSpec PipelineProofs.
Import ListNotations.
Open Scope string_scope.
Open Scope list_scope.
Notation length := List.length.

(** The value of the quantity [c] in a row of the table dynamics, and whether it is below 1/e. *)
Definition quantity (fl : R -> xnum) (c : string) (r : nat * labelled (dict string dval)) : xnum :=
  number_of fl (dget String.eqb c (lb_row (snd r))).
Definition decayed fl c r : Prop := passed true (Fin (828390857088487 # 2251799813685248)) (quantity fl c r).
(** The key frame, temperature and pressure of a row. *)
Definition row_key (r : nat * labelled (dict string dval)) : key :=
  key_of (lb_keyframe (snd r)) (lb_temperature (snd r)) (lb_pressure (snd r)).

Lemma rows_nth fl rows : forall n i, nth_error (dyn_rows fl n rows) i = option_map (dyn_row fl (n + i)) (nth_error rows i).
Proof.
  induction rows as [|r rows IH]; intros n [|i]; cbn [dyn_rows nth_error option_map]; auto.
  - rewrite Nat.add_0_r. reflexivity.
  - rewrite IH. rewrite Nat.add_succ_r. reflexivity.
Qed.
Lemma rows_of_first {A} (keyof : A -> key) k (P : A -> Prop) : forall rows g, rows_of keyof k rows g ->
  forall i r, nth_error rows i = Some r -> same_key k (keyof r) -> P r ->
  (forall j r', (j < i)%nat -> nth_error rows j = Some r' -> same_key k (keyof r') -> ~ P r') ->
  exists i', first_at P g i' /\ nth_error g i' = Some r.
Proof.
  induction 1 as [|r0 rows g S0 G IH|r0 rows g S0 G IH]; intros i r N K Pr F.
  - destruct i; discriminate.
  - destruct i as [|i]; cbn in N.
    + injection N as <-. exists 0%nat. split; [|reflexivity]. split; [exists r0; auto|]. intros j w L; lia.
    + destruct (IH i r N K Pr) as (i' & (F1 & F2) & E).
      { intros j r' L N' K'. apply (F (S j) r'); auto. lia. }
      exists (S i'). split; [|exact E]. split; [exact F1|]. intros [|j] w L; cbn; intros N'.
      * injection N' as <-. apply (F 0%nat r0); auto. lia.
      * apply (F2 j w); auto. lia.
  - destruct i as [|i]; cbn in N.
    + injection N as <-. contradiction.
    + apply (IH i r N K Pr). intros j r' L N' K'. apply (F (S j) r'); auto. lia.
Qed.
Lemma rows_of_In {A} (keyof : A -> key) k rows g r : rows_of keyof k rows g -> In r g -> In r rows.
Proof. induction 1; cbn; intuition. Qed.

(** What is reported for a quantity that decays at row [i] of the table. *)
Theorem C186_row_partial : forall nan_raises curve_fit fl rows out k vs c v i r,
  dynamics_relaxations (mean_of nan_raises curve_fit) (dyn_table fl rows) = inl out -> In (k, vs) out -> In (c, v) vs ->
  ~ In c ["msd"; "msr"; "struct_msd"; "alpha"; "gamma"] ->
  (nan_raises = false \/ forall r, In r rows -> quantity fl c r <> NaN) ->
  nth_error rows i = Some r -> same_key k (row_key r) -> decayed fl c r ->
  (forall j r', (j < i)%nat -> nth_error rows j = Some r' -> same_key k (row_key r') -> ~ decayed fl c r') ->
  v = FR (IZR (Z.of_nat i mod 8192)) /\ ((Z.of_nat (length rows) <= 8192)%Z -> v = FR (INR i)).
Proof.
  intros nr cf fl rows out k vs c v i r D I J N NA Hi K Dc F.
  destruct (C48_labels_partial nr cf (dyn_table fl rows) out k vs c v D I J) as (g & G & _ & _ & V).
  cbn [dyn_table d_rows] in G.
  destruct (rows_of_first d_key k (fun r => passed true (Fin (828390857088487 # 2251799813685248)) (d_val r c)) _ g G i (dyn_row fl i r)) as (i' & F1 & E).
  - rewrite rows_nth, Hi. reflexivity.
  - exact K.
  - exact Dc.
  - intros j r' L Hj K'. rewrite rows_nth in Hj. destruct (nth_error rows j) as [q|] eqn:Ej; [|discriminate].
    injection Hj as <-. apply (F j q L Ej K').
  - assert (X : v = FR (IZR (Z.of_nat i mod 8192))).
    { rewrite (V i' (dyn_row fl i r) N); auto.
      - cbn [dyn_row d_label]. f_equal. unfold Q2R, inject_Z. cbn. field.
      - destruct NA as [NA|NA]; auto. right. intros x Ix. apply (rows_of_In _ _ _ _ _ G) in Ix.
        apply In_nth_error in Ix. destruct Ix as (n & Ix). rewrite rows_nth in Ix.
        destruct (nth_error rows n) as [q|] eqn:En; [|discriminate]. injection Ix as <-. apply (NA q). eapply nth_error_In; eauto. }
    split; [exact X|]. intros L. rewrite X. f_equal. rewrite INR_IZR_INZ. f_equal. apply Z.mod_small.
    assert (i < length rows)%nat by (apply nth_error_Some; congruence). lia.
Qed.
Print Assumptions C186_row_partial.

(** [n] rows before the decay, and one after it. *)
Definition w_row (z : Z) : nat * labelled (dict string dval) :=
  (0%nat, {| lb_row := [("struct", VInt z)]; lb_keyframe := 0; lb_temperature := Fin 1; lb_pressure := Fin 1 |}).
Definition w_rows (n : nat) := repeat (w_row 1) n ++ [w_row 0].
Lemma w_run nr cf fl n : fit_ends cf ->
  exists out k vs v, dynamics_relaxations (mean_of nr cf) (dyn_table fl (w_rows n)) = inl out /\ In (k, vs) out /\ In ("struct", v) vs /\
    v = FR (IZR (Z.of_nat n mod 8192)).
Proof.
  intros Fe. destruct (dynamics_ok nr cf fl (w_rows n) Fe) as (out & D).
  assert (Hn : nth_error (w_rows n) n = Some (w_row 0)).
  { unfold w_rows. rewrite nth_error_app2; rewrite repeat_length; [|lia]. rewrite Nat.sub_diag. reflexivity. }
  assert (Hl : forall j r, (j < n)%nat -> nth_error (w_rows n) j = Some r -> r = w_row 1).
  { intros j r L E. unfold w_rows in E. rewrite nth_error_app1 in E by (rewrite repeat_length; lia).
    apply nth_error_In in E. apply repeat_spec in E. exact E. }
  assert (Hk : forall r, In r (w_rows n) -> row_key r = row_key (w_row 0)).
  { intros r I. apply in_app_or in I. destruct I as [I|[<-|[]]]; auto. apply repeat_spec in I. subst. reflexivity. }
  assert (D' := D). unfold dynamics_relaxations in D'. destruct (forallb _ key_names); [|discriminate].
  assert (C : d_columns (dyn_table fl (w_rows n)) = ["struct"; "keyframe"; "temperature"; "pressure"]).
  { cbn [dyn_table d_columns]. unfold w_rows. destruct n; reflexivity. }
  rewrite C in D'.
  assert (X : forall gs out, all_groups (mean_of nr cf) (filter (fun c => negb (memb c extra_columns)) (value_columns ["struct"; "keyframe"; "temperature"; "pressure"])) gs = inl out ->
     gs <> [] -> exists k vs v, In (k, vs) out /\ In ("struct", v) vs).
  { clear. intros [|[k rows] gs] out H N; [congruence|]. cbn -[mean_of series_relaxation_value] in H.
    destruct (series_relaxation_value (mean_of nr cf) "struct" rows) as [v|e]; cbn in H; [|discriminate].
    destruct (all_groups _ _ gs) as [l|e]; cbn in H; [|discriminate]. injection H as <-.
    exists k, [("struct", v)], v. cbn. auto. }
  destruct (X _ _ D') as (k & vs & v & I & J).
  { unfold groupby, w_rows. destruct n; cbn; discriminate. }
  exists out, k, vs, v. split; auto. split; auto. split; auto.
  assert (Ek : k = row_key (w_row 0)).
  { destruct (all_groups_In _ _ _ _ _ _ D' I) as (g & G & _). apply groupby_In in G. destruct G as (_ & M & _).
    apply in_map_iff in M. destruct M as (x & <- & M). cbn [dyn_table d_rows] in M. apply In_nth_error in M. destruct M as (m & M).
    rewrite rows_nth in M. destruct (nth_error (w_rows n) m) as [q|] eqn:Em; [|discriminate]. injection M as <-.
    apply (Hk q). eapply nth_error_In; eauto. }
  assert (Sk : same_key k (row_key (w_row 0))).
  { rewrite Ek. cbn. repeat split; constructor; reflexivity. }
  destruct (C186_row_partial nr cf fl (w_rows n) out k vs "struct" v n (w_row 0) D I J) as [E _]; auto.
  - cbn. intuition discriminate.
  - right. intros r Ir. apply in_app_or in Ir. destruct Ir as [Ir|[<-|[]]]; [apply repeat_spec in Ir; subst|]; discriminate.
  - cbn. reflexivity || (unfold decayed, passed; cbn; auto).
  - intros j r' L E _. rewrite (Hl j r' L E). intros H. vm_compute in H. discriminate H.
Qed.

(** A decay at row 1 is reported as the time 1, one that is 8191 rows later as the time 0. *)
Theorem C186_row_refuted : forall nan_raises curve_fit fl, fit_ends curve_fit -> exists early late,
  (forall i r, (i < 1)%nat -> nth_error early i = Some r -> ~ decayed fl "struct" r) /\ (exists r, nth_error early 1 = Some r /\ decayed fl "struct" r) /\
  (forall i r, (i < Z.to_nat 8192)%nat -> nth_error late i = Some r -> ~ decayed fl "struct" r) /\ (exists r, nth_error late (Z.to_nat 8192) = Some r /\ decayed fl "struct" r) /\
  (exists out k vs, dynamics_relaxations (mean_of nan_raises curve_fit) (dyn_table fl early) = inl out /\ In (k, vs) out /\ In ("struct", FR 1) vs) /\
  (exists out k vs, dynamics_relaxations (mean_of nan_raises curve_fit) (dyn_table fl late) = inl out /\ In (k, vs) out /\ In ("struct", FR 0) vs).
Proof.
  intros nr cf fl Fe. exists (w_rows 1), (w_rows (Z.to_nat 8192)).
  assert (A : forall n i r, (i < n)%nat -> nth_error (w_rows n) i = Some r -> ~ decayed fl "struct" r).
  { intros n j r L E. unfold w_rows in E. rewrite nth_error_app1 in E by (rewrite repeat_length; exact L).
    apply nth_error_In in E. apply repeat_spec in E. subst r. intros H. vm_compute in H. discriminate H. }
  assert (B : forall n, exists r, nth_error (w_rows n) n = Some r /\ decayed fl "struct" r).
  { intros n. exists (w_row 0). split.
    - unfold w_rows. rewrite nth_error_app2; rewrite repeat_length; [|apply le_n]. rewrite Nat.sub_diag. reflexivity.
    - reflexivity || (unfold decayed, passed; cbn; auto). }
  split; [apply A|]. split; [apply B|]. split; [apply A|]. split; [apply B|]. split.
  - destruct (w_run nr cf fl 1 Fe) as (out & k & vs & v & D & I & J & ->). exists out, k, vs. auto.
  - destruct (w_run nr cf fl (Z.to_nat 8192) Fe) as (out & k & vs & v & D & I & J & E). exists out, k, vs. split; auto. split; auto.
    rewrite Z2Nat.id in E by lia. change (8192 mod 8192)%Z with 0%Z in E. rewrite <- E. exact J.
Qed.
Print Assumptions C186_row_refuted.
