(** Proofs about comp-relaxations after comp-dynamics. *)
From Coq Require Import String Reals ZArith QArith Qreals List Bool Lia Lra Classical.
From Verif Require Import Base XNum DynModel ParamsModel ProcessModel ProcessPathModel ProcessPathProps RelaxationModel RelaxFitModel RelaxFullModel
  RelaxTableModel RelaxTableSpec RelaxTableProofs RelaxTableProps EndModel EndSpec PipelineModel PipelineSpec.
Import ListNotations.
Notation length := List.length.
Open Scope nat_scope.

(** * The aggregation of the dynamics does not raise *)
Lemma py_get_ok {A} (l : list A) i : (- Z.of_nat (length l) <= i < Z.of_nat (length l))%Z -> exists x, py_get l i = inl x.
Proof.
  intros H. unfold py_get. set (n := Z.of_nat (length l)) in *. destruct (i <? 0)%Z eqn:E.
  - apply Z.ltb_lt in E. replace ((i + n <? 0) || (n <=? i + n))%Z with false.
    2:{ symmetry. apply orb_false_iff. split; [apply Z.ltb_ge; lia|apply Z.leb_gt; lia]. }
    destruct (nth_error l (Z.to_nat (i + n))) eqn:N; [eauto|]. apply nth_error_None in N. lia.
  - apply Z.ltb_ge in E. replace ((i <? 0) || (n <=? i))%Z with false.
    2:{ symmetry. apply orb_false_iff. split; [apply Z.ltb_ge; lia|apply Z.leb_gt; lia]. }
    destruct (nth_error l (Z.to_nat i)) eqn:N; [eauto|]. apply nth_error_None in N. lia.
Qed.
Lemma first_true_lt l : forall i k, first_true i l = Some k -> i <= k < i + length l.
Proof.
  induction l as [|[] l IH]; intros i k; cbn; [discriminate|intros [= <-]; lia|]. intros H. apply IH in H. lia.
Qed.
Lemma threshold_ok nr time value thr decay : length time = length value -> value <> [] ->
  exists r, threshold_relaxation nr time value thr decay = inl r.
Proof.
  intros L N. unfold threshold_relaxation. destruct (nr && _); [eauto|].
  set (bs := map _ value). assert (Lb : length bs = length value) by apply map_length.
  unfold argmax_bool. destruct bs as [|b bs'] eqn:Eb; [destruct value; [congruence|discriminate]|].
  set (index := match first_true 0 (b :: bs') with Some i => i | None => 0 end).
  assert (Hi : index < length time).
  { rewrite L, <- Lb. subst index. destruct (first_true 0 (b :: bs')) eqn:F; [apply first_true_lt in F; lia|cbn; lia]. }
  cbn [RelaxationModel.ebind]. destruct (py_get_ok time (Z.of_nat index)) as (t & ->); [lia|]. cbn [RelaxationModel.ebind].
  destruct (py_get_ok time (Z.of_nat index - 1)) as (q & ->); [lia|]. cbn [RelaxationModel.ebind]. eauto.
Qed.
Lemma argmax_from_lt l : forall best bi i, bi < i -> argmax_from best bi i l < i + length l.
Proof.
  induction l as [|v l IH]; intros best bi i H; cbn; [lia|]. destruct (xgt v best); eapply Nat.lt_le_trans; try apply IH; lia.
Qed.
Lemma max_time_ok time value : length time = length value -> exists r, max_time_relaxation time value = inl r.
Proof.
  intros L. unfold max_time_relaxation. rewrite L, Nat.eqb_refl. cbn [negb].
  destruct (nanargmax value) as [k|e] eqn:E; [|eauto].
  assert (Hk : k < length value).
  { unfold nanargmax in E. destruct (map _ value) as [|v l'] eqn:M; [discriminate|].
    destruct (forallb xnan value); [discriminate|]. injection E as <-. rewrite <- (map_length (fun v => if xnan v then NInf else v) value), M. cbn.
    apply argmax_from_lt. lia. }
  destruct (py_get_ok time (Z.of_nat k)) as (t & ->); [lia|]. cbn [RelaxationModel.ebind].
  destruct (Z.of_nat k =? Z.of_nat (length value) - 1)%Z eqn:E1; [|destruct (Z.of_nat k =? 0)%Z eqn:E2].
  - destruct (py_get_ok time (Z.of_nat k - 1)) as (q & ->); [lia|]. cbn [RelaxationModel.ebind]. eauto.
  - apply Z.eqb_neq in E1. destruct (py_get_ok time (Z.of_nat k + 1)) as (q & ->); [lia|]. cbn [RelaxationModel.ebind]. eauto.
  - apply Z.eqb_neq in E1, E2. destruct (py_get_ok time (Z.of_nat k + 1)) as (q & ->); [lia|]. cbn [RelaxationModel.ebind].
    destruct (py_get_ok time (Z.of_nat k - 1)) as (q' & ->); [lia|]. cbn [RelaxationModel.ebind]. eauto.
Qed.
Lemma diffusion_ok nr cf time msd dim : fit_ends cf -> length time = length msd -> exists r, diffusion_constant nr cf time msd dim = inl r.
Proof.
  intros F L. unfold diffusion_constant. destruct (nr && _); [eauto|]. destruct (_ <=? 2); [eauto|]. rewrite L, Nat.eqb_refl. cbn [negb].
  destruct (cf _) as [[[m b] v]|e] eqn:E; [eauto|]. apply F in E. subst. eauto.
Qed.
Lemma mean_of_ok nr cf time value name : fit_ends cf -> length time = length value -> value <> [] -> exists r, mean_of nr cf time value name = inl r.
Proof.
  intros F L N. unfold mean_of, relaxation_value, compute_relaxation_value. rewrite L, Nat.eqb_refl. cbn [negb].
  assert (T : forall thr d, exists r, threshold_relaxation nr time value thr d = inl r) by (intros; apply threshold_ok; auto).
  assert (D : forall dim, exists r, diffusion_constant nr cf (map Q2R time) (map x2f value) dim = inl r)
    by (intros; apply diffusion_ok; auto; rewrite !map_length; auto).
  destruct (String.eqb name "msd"); [destruct (D 2%Z) as (r & ->); cbn; eauto|].
  destruct (String.eqb name "msr"); [destruct (D 1%Z) as (r & ->); cbn; eauto|].
  destruct (String.eqb name "struct_msd"); [destruct (T f016 false) as (r & ->); cbn; eauto|].
  destruct (_ || _); [destruct (max_time_ok time value L) as (r & ->); cbn; eauto|].
  destruct (T inv_e true) as (r & ->). cbn. eauto.
Qed.
Lemma columns_ok nr cf cols rows : fit_ends cf -> rows <> [] -> exists r, columns_of (mean_of nr cf) cols rows = inl r.
Proof.
  intros F N. induction cols as [|c cols (r & IH)]; cbn; [eauto|].
  unfold series_relaxation_value. destruct (mean_of_ok nr cf (map d_label rows) (map (fun r => d_val r c) rows) c) as (v & ->); auto.
  - rewrite !map_length. auto.
  - destruct rows; [congruence|discriminate].
  - cbn. rewrite IH. cbn. eauto.
Qed.
Lemma groups_ok nr cf cols gs : fit_ends cf -> (forall g, In g gs -> snd g <> []) -> exists r, all_groups (mean_of nr cf) cols gs = inl r.
Proof.
  intros F. induction gs as [|[k rows] gs IH]; intros N; cbn; [eauto|].
  destruct (columns_ok nr cf cols rows F) as (v & ->); [apply (N (k, rows)); left; auto|]. cbn.
  destruct IH as (r & ->); [intros g I; apply N; right; auto|]. cbn. eauto.
Qed.
Lemma group_nonempty {A} (keyof : A -> key) rows g : In g (groupby keyof rows) -> snd g <> [].
Proof.
  unfold groupby. intros I. apply in_map_iff in I. destruct I as (k & <- & I). cbn. apply distinct_In in I. apply filter_In in I.
  destruct I as (I & Ok). apply in_map_iff in I. destruct I as (r & <- & I). intros E.
  assert (X : In r (filter (fun r0 => key_eqb (keyof r) (keyof r0)) rows)) by (apply filter_In; auto). rewrite E in X. destruct X.
Qed.
Lemma dynamics_ok nr cf fl rows : fit_ends cf -> exists r, dynamics_relaxations (mean_of nr cf) (dyn_table fl rows) = inl r.
Proof.
  intros F. unfold dynamics_relaxations.
  replace (forallb (fun c => memb c (d_columns (dyn_table fl rows))) key_names) with true.
  - apply groups_ok; auto. intros g. apply group_nonempty.
  - symmetry. apply forallb_forall. intros c I. apply memb_In. cbn [dyn_table d_columns]. apply in_or_app. right. exact I.
Qed.

(** * The table of the times of the molecules *)
Definition summary_ok (N : nat) (s : dict string (list Z)) : Prop := map fst s = columns6 /\ forall name col, In (name, col) s -> length col = N.
Lemma cell_of_fin q : cell_of (Fin q) = CNum q. Proof. reflexivity. Qed.

Lemma in_columns6 : forall c, In c columns6 -> c <> "molecule"%string /\ ~ In c ["keyframe"; "temperature"; "pressure"]%string.
Proof. intros c I. cbn in I. split; [|cbn]; intuition (subst; discriminate). Qed.
Lemma dget_columns N s c : summary_ok N s -> In c columns6 -> exists col, dget String.eqb c s = Some col /\ length col = N.
Proof.
  intros (M & L) I. rewrite <- M in I. clear M. induction s as [|[n col] s IH]; [destruct I|]. cbn.
  destruct (String.eqb c n) eqn:E.
  - exists col. split; auto. apply (L n). left. auto.
  - apply String.eqb_neq in E. destruct I as [I|I]; [cbn in I; congruence|]. apply IH; auto. intros name col' I'. apply (L name). right. auto.
Qed.
Lemma rows_number N s : summary_ok N s -> match s with (_, col) :: _ => length col | [] => 0%nat end = N.
Proof. intros (M & L). destruct s as [|[n col] s]; [discriminate|]. apply (L n). left. auto. Qed.

Section Table.
  Variables (t p : Q) (N : nat).
  Notation key j := (key_of j (Fin t) (Fin p)).
  Lemma key_inj j j' : same_key (key j) (key j') -> j = j'.
  Proof.
    intros (A & _ & _). inversion A as [q r E|]; subst. unfold inject_Z, Qeq in E. cbn in E. lia.
  Qed.
  Lemma key_refl j : same_key (key j) (key j).
  Proof. repeat split; constructor; reflexivity. Qed.
  Lemma key_mol_rows j s r : In r (mol_rows (Fin t) (Fin p) (j, s)) -> m_key r = key j.
  Proof. unfold mol_rows. intros I. apply in_map_iff in I. destruct I as (i & <- & _). reflexivity. Qed.

  Lemma values_miss c j l : ~ In j (map fst l) -> column_values c (key j) (flat_map (mol_rows (Fin t) (Fin p)) l) [].
  Proof.
    induction l as [|[j' s'] l IH]; intros NI; [constructor|]. cbn [flat_map].
    assert (Nj : j <> j') by (intros ->; apply NI; left; auto).
    assert (IH' := IH (fun X => NI (or_intror X))). clear IH.
    assert (G : forall rows, (forall r, In r rows -> m_key r = key j') -> column_values c (key j) (rows ++ flat_map (mol_rows (Fin t) (Fin p)) l) []).
    { induction rows as [|r rows IHr]; intros K; [exact IH'|]. cbn [app]. apply cv_miss.
      - rewrite (K r (or_introl eq_refl)). intros X. apply Nj, key_inj, X.
      - apply IHr. intros; apply K; right; auto. }
    apply G. apply key_mol_rows.
  Qed.
  Lemma values_app_miss c j rows rest vs : (forall r, In r rows -> ~ same_key (key j) (m_key r)) ->
    column_values c (key j) rest vs -> column_values c (key j) (rows ++ rest) vs.
  Proof.
    induction rows as [|r rows IH]; intros K H; [exact H|]. cbn [app]. apply cv_miss; [apply K; left; auto|].
    apply IH; auto. intros; apply K; right; auto.
  Qed.
  Lemma values_hit c j rest : forall (f : nat -> option Q) (l : list nat) vs,
    (map f l = map Some vs) ->
    column_values c (key j) rest [] ->
    column_values c (key j) (map (fun i => {| m_key := key j; m_val := fun c' => if String.eqb c' c then f i else None |}) l ++ rest) vs.
  Proof.
    intros f l. induction l as [|i l IH]; intros vs E H; destruct vs as [|v vs]; try discriminate; [exact H|].
    cbn in E. injection E as E1 E2. cbn [map app]. apply cv_hit; [apply key_refl|cbn; rewrite String.eqb_refl; auto|auto].
  Qed.
  Lemma nth_error_seq {A B} (f : A -> B) (col : list A) : forall k,
    map (fun i => option_map f (nth_error col (i - k))) (List.seq k (length col)) = map Some (map f col).
  Proof.
    induction col as [|x col IH]; intros k; [reflexivity|]. cbn [length List.seq map]. f_equal.
    - rewrite Nat.sub_diag. reflexivity.
    - rewrite <- (IH (S k)). apply map_ext_in. intros i I. apply in_seq in I.
      replace (i - k) with (S (i - S k)) by lia. reflexivity.
  Qed.
  (** The values of a column in the rows of a key frame *)
  Lemma values_in c relax j s col : In c columns6 -> NoDup (map fst relax) -> (forall j s, In (j, s) relax -> summary_ok N s) ->
    In (j, s) relax -> dget String.eqb c s = Some col ->
    column_values c (key j) (flat_map (mol_rows (Fin t) (Fin p)) relax) (map inject_Z col).
  Proof.
    intros Hc. induction relax as [|[j' s'] relax IH]; intros ND Ok I D; [destruct I|]. cbn [flat_map].
    cbn in ND. inversion ND as [|? ? NI ND']; subst. destruct I as [[= -> ->]|I].
    - assert (Miss := values_miss c j relax NI).
      assert (Lc : match s with (_, col) :: _ => length col | [] => 0%nat end = length col).
      { rewrite (rows_number N s) by (apply (Ok j); left; auto). destruct (dget_columns N s c) as (col' & D' & L'); auto; [apply (Ok j); left; auto|]. congruence. }
      unfold mol_rows. rewrite Lc.
      assert (E := nth_error_seq inject_Z col 0). revert E.
      generalize (List.seq 0 (length col)). intros l E.
      revert E. generalize (map inject_Z col). induction l as [|i l IHl]; intros vs E; destruct vs as [|v vs]; try discriminate; [exact Miss|].
      cbn in E. injection E as E1 E2. cbn [map app]. apply cv_hit; [apply key_refl| |].
      + cbn. destruct (in_columns6 c Hc) as (Nm & _). apply String.eqb_neq in Nm. rewrite Nm, D. rewrite Nat.sub_0_r in E1. exact E1.
      + apply IHl. exact E2.
    - apply values_app_miss; [|apply IH; auto; intros; eapply Ok; right; eauto].
      intros r Ir K. rewrite (key_mol_rows _ _ _ Ir) in K. apply key_inj in K. subst j'.
      apply NI. apply in_map_iff. exists (j, s). auto.
  Qed.
End Table.

Section Groups.
  Variables (t p : Q) (N : nat) (relax : list (nat * dict string (list Z))).
  Hypotheses (Ht : ~ (t == 4294967295)%Q) (Hp : ~ (p == 4294967295)%Q) (HN : (Z.of_nat N < 2 ^ 32)%Z) (N0 : 0 < N)
    (ND : NoDup (map fst relax)) (Ok : forall j s, In (j, s) relax -> summary_ok N s)
    (Hj : forall j, In j (map fst relax) -> Z.of_nat j <> (2 ^ 32 - 1)%Z).
  Notation key j := (key_of j (Fin t) (Fin p)).
  Notation df := (mol_table (Fin t) (Fin p) relax).

  Lemma mol_columns c : relax <> [] -> In c (m_columns df) <-> In c ["keyframe"; "molecule"]%string \/ In c columns6 \/ In c ["temperature"; "pressure"]%string.
  Proof.
    intros NE. cbn [mol_table m_columns]. destruct relax as [|[j s] l]; [congruence|].
    destruct (Ok j s (or_introl eq_refl)) as (-> & _). cbn [In]. rewrite in_app_iff. cbn. tauto.
  Qed.
  Lemma fst_fun (l : list (nat * dict string (list Z))) j s s' : NoDup (map fst l) -> In (j, s) l -> In (j, s') l -> s = s'.
  Proof.
    induction l as [|[a b] l IH]; intros D I I'; [destruct I|]. cbn in D. inversion D as [|? ? NI D']; subst.
    destruct I as [[= -> ->]|I], I' as [[= E]|I']; auto; try congruence.
    - exfalso. apply NI. apply (in_map fst) in I'. exact I'.
    - exfalso. apply NI. subst. apply (in_map fst) in I. exact I.
  Qed.
  Lemma row_inv r : In r (m_rows df) -> exists j s i, In (j, s) relax /\ i < N /\ m_key r = key j /\
    m_val r "molecule"%string = Some (inject_Z (Z.of_nat i)) /\
    forall c col, In c columns6 -> dget String.eqb c s = Some col -> m_val r c = option_map inject_Z (nth_error col i).
  Proof.
    cbn [mol_table m_rows]. intros I. apply in_flat_map in I. destruct I as ([j s] & I & Ir). unfold mol_rows in Ir.
    apply in_map_iff in Ir. destruct Ir as (i & <- & Ii). apply in_seq in Ii. rewrite (rows_number N s) in Ii by eauto.
    exists j, s, i. split; auto. split; [lia|]. split; auto. split; auto. intros c col Hc D. cbn.
    destruct (in_columns6 c Hc) as (Nm & _). apply String.eqb_neq in Nm. rewrite Nm, D. reflexivity.
  Qed.
  Lemma row_make j s i : In (j, s) relax -> i < N -> exists r, In r (m_rows df) /\ m_key r = key j /\
    forall c col, In c columns6 -> dget String.eqb c s = Some col -> m_val r c = option_map inject_Z (nth_error col i).
  Proof.
    intros I Hi. eexists. split; [|split].
    - cbn [mol_table m_rows]. apply in_flat_map. exists (j, s). split; auto. unfold mol_rows. apply in_map. apply in_seq.
      rewrite (rows_number N s) by eauto. instantiate (1 := i). lia.
    - reflexivity.
    - intros c col Hc D. cbn. destruct (in_columns6 c Hc) as (Nm & _). apply String.eqb_neq in Nm. rewrite Nm, D. reflexivity.
  Qed.
  Lemma inj_max z : (inject_Z z == 4294967295)%Q -> z = (2 ^ 32 - 1)%Z.
  Proof. unfold inject_Z, Qeq. cbn. lia. Qed.
  Lemma key_relaxed j : In j (map fst relax) -> relaxed_key (key j).
  Proof.
    intros I. cbn. unfold unrelaxed_cell.
    split; [|split]; intros [E|(q & [= <-] & E)]; try discriminate; auto. apply inj_max in E. destruct (Hj j I E).
  Qed.
  Lemma group_iff j s : In (j, s) relax -> relaxed_group (m_columns df) (m_rows df) (key j) <-> all_relaxed N s.
  Proof.
    intros I. assert (NE : relax <> []) by (intros ->; destruct I). split.
    - intros (_ & G) name i v Hc Hi (col & D & E) ->. destruct (row_make j s i I Hi) as (r & Ir & Kr & V).
      assert (Kr' : same_key (key j) (m_key r)) by (rewrite Kr; apply key_refl).
      destruct (G r Ir Kr' name) as (q & Eq & Nq).
      + apply mol_columns; auto.
      + apply in_columns6. auto.
      + rewrite (V name col Hc D), E in Eq. cbn in Eq. injection Eq as <-. apply Nq. reflexivity.
    - intros A. split; [apply key_relaxed; apply (in_map fst) in I; exact I|]. intros r Ir Kr c Hc Nc.
      destruct (row_inv r Ir) as (j' & s' & i & I' & Hi & Kr' & Vm & V). rewrite Kr' in Kr. apply key_inj in Kr. subst j'.
      assert (s' = s) by (eapply fst_fun; eauto). subst s'. apply mol_columns in Hc; auto. destruct Hc as [[<-|[<-|[]]]|[Hc|Hc]].
      + cbn in Nc. tauto.
      + rewrite Vm. eexists. split; [reflexivity|]. intros E. apply inj_max in E. lia.
      + destruct (dget_columns N s c (Ok j s I) Hc) as (col & D & L). rewrite (V c col Hc D).
        destruct (nth_error col i) as [z|] eqn:E; [|apply nth_error_None in E; lia]. eexists. split; [reflexivity|].
        intros Eq. apply inj_max in Eq. apply (A c i z Hc Hi); auto. exists col. auto.
      + cbn in Nc, Hc. tauto.
  Qed.
  Lemma same_values c k k' rows vs : same_key k k' -> column_values c k rows vs -> column_values c k' rows vs.
  Proof.
    intros S H. induction H; [constructor|apply cv_hit; auto; eapply same_key_trans; [apply same_key_sym; eauto|auto]|apply cv_miss; auto].
    intros X. apply H. eapply same_key_trans; eauto.
  Qed.
  (** The averages of the molecular relaxations *)
  Lemma molecular zo : exists out, compute_molecular_relaxations zo df = inl out /\ one_row_per_key fst out /\
    (forall k st, In (k, st) out -> exists j s, In (j, s) relax /\ all_relaxed N s /\ same_key (key j) k) /\
    (forall j s, In (j, s) relax -> all_relaxed N s -> exists k st, In (k, st) out /\ same_key (key j) k) /\
    (forall j s k st c, In (j, s) relax -> In (k, st) out -> same_key (key j) k -> In c columns6 ->
      (forall j' s' col, In (j', s') relax -> all_relaxed N s' -> dget String.eqb c s' = Some col -> forall z, In z col -> (0 < z)%Z) ->
      averaged s c st).
  Proof.
    destruct (C49_groups zo df) as (out & E & G1 & G2 & One & G3).
    { cbn [mol_table m_columns]. cbn [In]. rewrite !in_app_iff. cbn. tauto. }
    exists out. split; auto. split; auto.
    assert (K1 : forall k st, In (k, st) out -> exists j s, In (j, s) relax /\ all_relaxed N s /\ same_key (key j) k).
    { intros k st I. destruct (G1 k st I) as (G & r & Ir & Kr). destruct (row_inv r Ir) as (j & s & i & I' & _ & Kr' & _).
      rewrite Kr' in Kr. exists j, s. split; auto. split; [|apply same_key_sym; auto]. apply (group_iff j s I').
      destruct G as (Rk & Rv). split; [apply key_relaxed; apply (in_map fst) in I'; exact I'|].
      intros r' Ir' Kr2 c. apply Rv; auto. eapply same_key_trans; eauto. }
    split; [exact K1|]. split.
    - intros j s I A. destruct (row_make j s 0 I N0) as (r & Ir & Kr & _).
      destruct (G2 r Ir) as (k & st & Io & S); [rewrite Kr; apply (group_iff j s I); auto|].
      exists k, st. split; auto. rewrite Kr in S. apply same_key_sym. auto.
    - intros j s k st c I Io S Hc Pos. assert (NE : relax <> []) by (intros ->; destruct I).
      assert (CV : forall j s k, In (j, s) relax -> same_key (key j) k -> exists col, dget String.eqb c s = Some col /\ column_values c k (m_rows df) (map inject_Z col)).
      { intros j1 s1 k1 I1 S1. destruct (dget_columns N s1 c (Ok j1 s1 I1) Hc) as (col & D & _). exists col. split; auto.
        eapply same_values; [exact S1|]. cbn [mol_table m_rows]. apply (values_in t p N c relax j1 s1); auto. }
      destruct (G3 k st c Io) as (vs & m & h & V & _ & M1 & M2 & H1 & H2).
      + apply mol_columns; auto.
      + apply in_columns6. auto.
      + intros k' st' vs Io' V. destruct (K1 k' st' Io') as (j' & s' & I' & A' & S').
        destruct (CV j' s' k' I' S') as (col & D & V'). rewrite (column_values_fun _ _ _ _ _ V V').
        intros q Iq. apply in_map_iff in Iq. destruct Iq as (z & <- & Iz). specialize (Pos j' s' col I' A' D z Iz).
        unfold Qlt, inject_Z. cbn. lia.
      + destruct (CV j s k I S) as (col & D & V'). rewrite (column_values_fun _ _ _ _ _ V V') in *.
        exists col, m, h. auto 8.
  Qed.
End Groups.
