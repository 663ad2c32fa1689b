(** Properties C151 and C152: the relaxation times of a trajectory file, after comp-dynamics and
    comp-relaxations. *)
From Coq Require Import String Reals ZArith QArith Qreals List Bool Lia Lra Classical Sorted.
From Verif Require Import Base XNum RVec RVecFacts FrameModel FrameSpec RunModel MotionModel MotionSpec MotionProofs DynModel DynSpec DynProps DynTrue
  MolRelaxModel ParamsModel WriteCacheModel ProcessModel ProcessSpec ProcessProps ProcessPathModel ProcessPathProps StepSizeModel StepSizeSpec GsdModel
  EndModel EndSpec EndProofs EndProps EndGsdModel EndGsdSpec EndGsdProofs EndGsdProps EndLammpsModel EndLammpsSpec EndLammpsProps
  MainModel MainSpec MainProofs MainProps CommandModel CommandSpec CommandProofs CommandProps
  RelaxationModel RelaxFitModel RelaxFitProofs RelaxFullModel RelaxTableModel RelaxTableSpec RelaxTableProofs RelaxTableProps PipelineModel PipelineSpec PipelineProofs.
Import ListNotations.
Notation length := List.length.
Open Scope R_scope.

Section Written.
  Variables (parse : string -> option xnum) (k : R) (sc : bool) (u : R) (T : eframe -> truth) (v : variables) (N : nat)
            (seq : nat -> list eframe -> Prop)
            (rows : list (nat * labelled (dict string dval))) (relax : list (nat * dict string (list Z))).
  Hypothesis W : written parse k sc u T v N seq rows relax.

  Lemma seq_of j s : In (j, s) relax -> exists f0 rest, seq j (f0 :: rest) /\ reports T u k N f0 (f0 :: rest) s /\ key_rows j rows <> [].
  Proof.
    destruct W as (ND & W0 & W1). intros I.
    destruct (classic (exists f0 rest, seq j (f0 :: rest))) as [(f0 & rest & S)|No].
    - destruct (W1 j f0 rest S) as (F & s' & I' & R). assert (s = s') by (eapply fst_fun; eauto). subst s'.
      exists f0, rest. split; auto. split; auto. inversion F; subst; discriminate.
    - exfalso. destruct (W0 j) as (_ & NI); [intros f0 rest S; apply No; eauto|]. apply NI. apply (in_map fst) in I. exact I.
  Qed.
  Lemma summaries_ok j s : In (j, s) relax -> summary_ok N s.
  Proof. intros I. destruct (seq_of j s I) as (f0 & rest & _ & (A & B & _) & _). split; auto. Qed.
End Written.

Lemma moves_zero (T : eframe -> truth) f0 i : sqrt (moved2 (T f0) (T f0) i) = 0.
Proof.
  unfold moved2. match goal with |- sqrt ?x = 0 => replace x with 0 by (cbv zeta; ring) end. apply sqrt_0.
Qed.
Lemma spins_zero (T : eframe -> truth) f0 i : Rabs (angle (T f0) (T f0) i) = 0.
Proof. unfold angle. match goal with |- Rabs ?x = 0 => replace x with 0 by ring end. apply Rabs_R0. Qed.

(** All distances of the molecules of a key frame are clearly above or below the thresholds. *)
Definition distances_clear (T : eframe -> truth) (u k : R) (N : nat) (fs : list eframe) : Prop :=
  forall f0 rest i t x, fs = f0 :: rest -> (i < N)%nat -> In (t, x) (moves T f0 i fs) -> clear u (PI / (2 * k)) x /\ clear u (3 * (PI / (2 * k))) x.

Section Positive.
  Variables (T : eframe -> truth) (u k : R) (N : nat) (f0 : eframe) (rest : list eframe) (s : dict string (list Z)).
  Hypotheses (Hu : 0 <= u < 1) (Hk : 0 < k) (Later : forall f, In f rest -> (e_ts f0 < e_ts f)%Z)
    (Rp : reports T u k N f0 (f0 :: rest) s) (A : all_relaxed N s).
  Lemma entries_of thr (dist : nat -> eframe -> R) i z : 0 < thr -> dist i f0 = 0 -> z <> (2 ^ 32 - 1)%Z ->
    first_about u thr (map (fun f => ((e_ts f - e_ts f0)%Z, dist i f)) (f0 :: rest)) z -> (0 < z)%Z.
  Proof.
    intros Ht D0 Nz ([E|(x & I & M)] & _); [contradiction|]. cbn [map In] in I. destruct I as [[= <- <-]|I].
    - exfalso. rewrite D0 in M. unfold maybe in M. nra.
    - apply in_map_iff in I. destruct I as (f & [= <- <-] & I). specialize (Later f I). lia.
  Qed.
  Lemma D_pos : 0 < PI / (2 * k).
  Proof. apply Rdiv_lt_0_compat; [apply PI_RGT_0|lra]. Qed.
  Lemma last_pos i z : last_passage (PI / (2 * k)) (3 * (PI / (2 * k))) (moves T f0 i (f0 :: rest)) z -> z <> (2 ^ 32 - 1)%Z -> (0 < z)%Z.
  Proof.
    pose proof D_pos as HD. intros [(_ & ->)|(a & d & b & post & before & e & El & _ & _ & _ & Td & _)] Nz; [congruence|].
    assert (I : In (z, d) (moves T f0 i (f0 :: rest))) by (rewrite El; apply in_or_app; left; apply in_elt).
    cbn [moves map In] in I. destruct I as [[= <- <-]|I].
    - rewrite moves_zero in Td. lra.
    - apply in_map_iff in I. destruct I as (f & [= <- <-] & I). specialize (Later f I). lia.
  Qed.
  Lemma column_pos name col : In name columns6 -> (name = "tau_L"%string -> distances_clear T u k N (f0 :: rest)) ->
    dget String.eqb name s = Some col -> forall z, In z col -> (0 < z)%Z.
  Proof.
    intros Hn Cl D z Iz. apply In_nth_error in Iz. destruct Iz as (i & Ei).
    destruct Rp as (Names & Len & H).
    assert (Hi : (i < N)%nat).
    { assert (L : length col = N).
      { destruct (dget_columns N s name) as (col' & D' & L); [split; auto|auto|congruence]. }
      rewrite <- L. apply nth_error_Some. congruence. }
    assert (En : entry s name i z) by (exists col; auto).
    assert (Nz : z <> (2 ^ 32 - 1)%Z) by (apply (A name i z); auto).
    assert (Same : forall z', entry s name i z' -> z' = z) by (intros z' (c' & D' & E'); congruence).
    pose proof D_pos as HD. pose proof PI_RGT_0 as HP.
    destruct (H i Hi) as ((z1 & E1 & F1) & (z2 & E2 & F2) & (z3 & E3 & F3) & (z4 & E4 & F4) & (z5 & E5 & F5) & (z6 & E6 & F6)).
    cbn [In columns6] in Hn. destruct Hn as [<-|[<-|[<-|[<-|[<-|[<-|[]]]]]]].
    - apply Same in E1. subst z1. eapply (entries_of _ (fun i f => sqrt (moved2 (T f0) (T f) i))); [|apply moves_zero|exact Nz|exact F1]. lra.
    - apply Same in E2. subst z2. eapply (entries_of _ (fun i f => sqrt (moved2 (T f0) (T f) i))); [|apply moves_zero|exact Nz|exact F2]. lra.
    - apply Same in E3. subst z3. apply (last_pos i); auto. apply F3. intros t x I. apply (Cl eq_refl f0 rest i t x); auto.
    - apply Same in E4. subst z4. eapply (entries_of _ (fun i f => Rabs (angle (T f0) (T f) i))); [|apply spins_zero|exact Nz|exact F4]. lra.
    - apply Same in E5. subst z5. eapply (entries_of _ (fun i f => Rabs (angle (T f0) (T f) i))); [|apply spins_zero|exact Nz|exact F5]. lra.
    - apply Same in E6. subst z6. eapply (entries_of _ (fun i f => Rabs (angle (T f0) (T f) i))); [|apply spins_zero|exact Nz|exact F6]. lra.
  Qed.
End Positive.

Lemma parsed_column parse v x : parsed parse v x -> column parse v = inl x.
Proof. destruct v as [s|]; cbn; [intros ->; auto|intros ->; auto]. Qed.
Lemma parsed_fun parse v x y : parsed parse v x -> parsed parse v y -> x = y.
Proof. intros A B. apply parsed_column in A, B. congruence. Qed.
Lemma dyn_rows_In fl rows : forall n r, In r rows -> exists d, In d (dyn_rows fl n rows) /\
  d_key d = key_of (lb_keyframe (snd r)) (lb_temperature (snd r)) (lb_pressure (snd r)).
Proof.
  induction rows as [|r0 rows IH]; intros n r I; [destruct I|]. cbn [dyn_rows]. destruct I as [->|I].
  - eexists. split; [left; reflexivity|reflexivity].
  - destruct (IH (S n) r I) as (d & Id & E). exists d. split; [right|]; auto.
Qed.

(** * C151 *)
(** Whatever the trajectory: after comp-dynamics has written what the true motion says (C147),
    comp-relaxations does not fail.  It writes one row for exactly the key frames all of whose
    molecules passed all thresholds, with the means and the harmonic means over the molecules
    of the times of passage, joined with values of the dynamic quantities. *)
Theorem C151_relaxations nan_raises curve_fit zero_ok fl parse k sc u T v N seq rows relax infile t p :
  written parse k sc u T v N seq rows relax -> 0 <= u < 1 -> 0 < k -> (0 < N)%nat -> (Z.of_nat N < 2 ^ 32)%Z ->
  get_filename_vars infile = inl v -> parsed parse (v_temperature v) (Fin t) -> parsed parse (v_pressure v) (Fin p) ->
  labels (Fin t) -> labels (Fin p) ->
  (forall j f0 rest, seq j (f0 :: rest) -> Z.of_nat j <> (2 ^ 32 - 1)%Z /\ forall f, In f rest -> (e_ts f0 < e_ts f)%Z) ->
  fit_ends curve_fit ->
  exists out, comp_relaxations nan_raises curve_fit zero_ok fl parse infile
      {| out_result := inl None; out_table := Some rows; out_relax := Some relax |} = inl out /\
    one_row_per_key (fun x => fst (fst x)) out /\
    (forall x, In x out -> exists j s, In (j, s) relax /\ all_relaxed N s /\ row_of j t p x) /\
    (forall j s, In (j, s) relax -> all_relaxed N s -> exists x, In x out /\ row_of j t p x) /\
    (forall j s x name, In (j, s) relax -> In x out -> row_of j t p x -> In name columns6 ->
      (name = "tau_L"%string -> forall j fs, seq j fs -> distances_clear T u k N fs) ->
      averaged s name (snd (fst x))) /\
    (forall x, In x out -> snd x <> None).
Proof.
  intros W Hu Hk N0 HN EV Pt Pp (t' & [= <-] & Lt) (p' & [= <-] & Lp) Hs Fe.
  assert (Ok := summaries_ok _ _ _ _ _ _ _ _ _ _ W). assert (ND := proj1 W).
  assert (Hj : forall j, In j (map fst relax) -> Z.of_nat j <> (2 ^ 32 - 1)%Z).
  { intros j I. apply in_map_iff in I. destruct I as ([j' s] & E & I). cbn in E. subst j'.
    destruct (seq_of _ _ _ _ _ _ _ _ _ _ W j s I) as (f0 & rest & S & _). apply (Hs j f0 rest S). }
  destruct (dynamics_ok nan_raises curve_fit fl rows Fe) as (dout & Ed).
  destruct (molecular t p N relax Lt Lp HN N0 ND Ok Hj zero_ok) as (mout & Em & One & M1 & M2 & M3).
  assert (Ec : exists out, comp_relaxations nan_raises curve_fit zero_ok fl parse infile
      {| out_result := inl None; out_table := Some rows; out_relax := Some relax |} = inl out /\ map fst out = mout /\
      forall kx st d, In (kx, st, d) out -> d = None -> forall r, In r (d_rows (dyn_table fl rows)) -> ~ same_key kx (d_key r)).
  { unfold comp_relaxations. rewrite EV, (parsed_column _ _ _ Pt), (parsed_column _ _ _ Pp). cbn [option_map out_table out_relax].
    destruct (compute_relaxations (mean_of nan_raises curve_fit) zero_ok (Some (dyn_table fl rows)) (Some (mol_table (Fin t) (Fin p) relax))) as [out|e] eqn:E.
    - exists out. split; auto.
      destruct (C100_rows_partial nan_raises curve_fit zero_ok _ _ _ E) as (dout' & mout' & _ & Em' & Mf & _ & Dn).
      assert (mout' = mout) by congruence. subst mout'. split; auto. intros kx st d I. apply (Dn kx st d I).
    - exfalso. unfold compute_relaxations in E. rewrite Ed in E. cbn [RelaxationModel.ebind] in E. rewrite Em in E. discriminate. }
  destruct Ec as (out & Ec & Mf & Dn). exists out. split; auto.
  assert (Fst : forall x, In x out -> In (fst x) mout) by (intros x I; rewrite <- Mf; apply in_map; auto).
  split; [|split; [|split; [|split]]].
  - intros i j x y Ei Ej S. apply (One i j (fst x) (fst y)); auto; rewrite <- Mf; apply map_nth_error; auto.
  - intros [[kx st] d] I. destruct (M1 kx st (Fst _ I)) as (j & s & A). exists j, s. exact A.
  - intros j s I A. destruct (M2 j s I A) as (kx & st & Io & S). rewrite <- Mf in Io. apply in_map_iff in Io.
    destruct Io as ([[k1 st1] d] & E & Io). cbn in E. injection E as -> ->. exists (kx, st, d). split; auto.
  - intros j s [[kx st] d] name I Io S Hn Cl. apply (M3 j s kx st name I (Fst _ Io) S Hn).
    intros j' s' col I' A' D. destruct (seq_of _ _ _ _ _ _ _ _ _ _ W j' s' I') as (f0 & rest & Sq & R & _).
    apply (column_pos T u k N f0 rest s' Hu Hk (proj2 (Hs _ _ _ Sq)) R A' name col Hn); auto. intros E. apply (Cl E j'). auto.
  - intros [[kx st] d] I E. cbn in E. destruct (M1 kx st (Fst _ I)) as (j & s & Ij & _ & S).
    destruct (seq_of _ _ _ _ _ _ _ _ _ _ W j s Ij) as (f0 & rest & Sq & _ & _).
    destruct (proj2 (proj2 W) j f0 rest Sq) as (F & _). inversion F as [|? r ? rs Rf F' E1 E2]; subst.
    assert (Ir : In r rows) by (assert (X : In r (key_rows j rows)) by (rewrite <- E2; left; auto); unfold key_rows in X; apply filter_In in X; apply X).
    destruct (dyn_rows_In fl rows 0 r Ir) as (d & Id & Kd).
    apply (Dn kx st None I eq_refl d); auto. rewrite Kd. destruct Rf as (_ & -> & P1 & P2 & _).
    rewrite <- (parsed_fun _ _ _ _ Pt P1), <- (parsed_fun _ _ _ _ Pp P2). apply same_key_sym. exact S.
Qed.
Print Assumptions C151_relaxations.

(** * C152 *)
(** If the name of the trajectory does not tell the temperature or the pressure, the
    molecular relaxations of all key frames are lost: there is no row. *)
Theorem C152_unnamed_partial nan_raises curve_fit zero_ok fl parse v infile o out :
  get_filename_vars infile = inl v -> v_temperature v = None \/ v_pressure v = None ->
  comp_relaxations nan_raises curve_fit zero_ok fl parse infile o = inl out -> out = [].
Proof.
  intros EV Nn. unfold comp_relaxations. rewrite EV.
  destruct (column parse (v_temperature v)) as [t|] eqn:Et; [|discriminate]. destruct (column parse (v_pressure v)) as [p|] eqn:Ep; [|discriminate].
  intros E. destruct (out_table o) as [rows|]; [|discriminate]. destruct (out_relax o) as [relax|]; [|discriminate]. cbn [option_map] in E.
  destruct (C100_rows_partial nan_raises curve_fit zero_ok _ _ _ E) as (dout & mout & _ & Em & Mf & _).
  destruct (C49_groups zero_ok (mol_table t p relax)) as (mout' & Em' & G & _).
  { cbn [mol_table m_columns]. cbn [In]. rewrite !in_app_iff. cbn. tauto. }
  assert (mout' = mout) by congruence. subst mout'.
  destruct out as [|[[kx st] d] out]; auto. exfalso.
  destruct (G kx st) as ((Rk & _) & r & Ir & S); [rewrite <- Mf; left; auto|].
  cbn [mol_table m_rows] in Ir. apply in_flat_map in Ir. destruct Ir as ([j s] & _ & Ir). unfold mol_rows in Ir. apply in_map_iff in Ir.
  destruct Ir as (i & <- & _). cbn [m_key] in S. unfold key_of in S. destruct kx as [[a b] c]. destruct S as (_ & Sb & Sc).
  destruct Nn as [Nn|Nn]; rewrite Nn in *; cbn in Et, Ep; [injection Et as <-; cbn in Sb; inversion Sb|injection Ep as <-; cbn in Sc; inversion Sc].
Qed.
Print Assumptions C152_unnamed_partial.

Lemma increasing_picks (P : eframe -> Prop) l f0 rest : StronglySorted Z.lt (map e_ts l) -> picks P l (f0 :: rest) ->
  forall f, In f rest -> (e_ts f0 < e_ts f)%Z.
Proof.
  intros S H. remember (f0 :: rest) as m eqn:E. induction H as [|x l m Px H IH|x l m Px H IH]; [discriminate| |].
  - injection E as -> ->. cbn in S. inversion S as [|? ? _ F]; subst. intros f I. apply (picks_In _ _ _ _ H) in I.
    rewrite Forall_forall in F. apply F. apply in_map. apply I.
  - cbn in S. inversion S; subst. auto.
Qed.
Lemma parsed_readable parse v x : parsed parse v x -> ~ unreadable parse v.
Proof. intros Px (s & -> & E). cbn in Px. congruence. Qed.

Section Both.
  Variables (to_float : string -> option xnum) (printable : string -> bool).
  Variables (pfloat : string -> option R) (sub : R -> R -> R) (f32 : R -> R) (junk : nat -> R).
  Variables (wrap : MotionModel.fbox -> v3 -> v3) (gimbal : RVec.quat -> v3) (argsort : list R -> list nat)
            (fl : R -> xnum) (calculate : MotionModel.fbox -> list v3 -> R + exn) (parse : string -> option xnum)
            (show : yaml -> string) (mol : list v3).
  Variables (gsd_of : string -> list (snapshot R + exn)) (text_of : string -> string).
  Variables (nan_raises : bool) (curve_fit : list (R * R) -> (R * R * R) + exn) (zero_ok : bool).
  Notation command := (command to_float printable pfloat sub f32 junk wrap gimbal argsort fl calculate parse show mol gsd_of text_of).
  Variable u : R.
  Hypotheses (W : wrap_ok wrap) (Ar : argsort_ok argsort) (Fl : rounds u fl) (Hm : mol <> []) (Fe : fit_ends curve_fit).

  (** comp-dynamics and then comp-relaxations, for a gsd file whose name has the temperature
      and the pressure: every key frame that is fully relaxed gets the averages of the
      times of passage of the true motion, and no other row is written. *)
  Theorem C151_commands (T : eframe -> truth) N v line c smax total n G M q t0 r0 t p :
    let file := gsd_of (c_infile c) in
    let frames := map (molecules_of N) (snapshots file) in
    let seq := fun j fs => picks (fun f => on_key total n G M j (e_ts f)) frames fs in
    asks to_float line c smax (Some n) G M q -> (0 < q)%Q ->
    path_suffix (c_infile c) = ".gsd"%string -> (10 <= N)%nat -> (Z.of_nat N < 2 ^ 32)%Z -> (M < 2 ^ 32)%Z ->
    get_filename_vars (c_infile c) = inl v -> parsed parse (v_temperature v) (Fin t) -> parsed parse (v_pressure v) (Fin p) ->
    labels (Fin t) -> labels (Fin p) ->
    (forall s, In (inl s) file -> gsd_snapshot N s) -> (forall e, In (inr e) file -> e = RuntimeError) ->
    increasing (map s_step (snapshots file)) ->
    number_of_steps smax file total -> (0 <= total)%Z -> (1 <= n)%Z -> (0 < G)%Z -> (1 <= M)%Z -> StepSizeSpec.grid 0 n 1 10 G ->
    steps_agree total n G M frames ->
    (exists j f, In f frames /\ on_key total n G M j (e_ts f)) ->
    (forall j f0 rest, seq j (f0 :: rest) -> followable T N f0 rest) ->
    exists fuel0 steps0, forall fuel steps, (fuel0 <= fuel)%nat -> (steps0 <= steps)%nat ->
      exists o out, command fuel steps line c t0 r0 = Done o /\
        comp_relaxations nan_raises curve_fit zero_ok fl parse (c_infile c) o = inl out /\
        one_row_per_key (fun x => fst (fst x)) out /\
        (forall x, In x out -> exists j f0 rest s, seq j (f0 :: rest) /\ reports T u (Q2R q) N f0 (f0 :: rest) s /\ all_relaxed N s /\ row_of j t p x) /\
        (forall j f0 rest, seq j (f0 :: rest) -> exists s, reports T u (Q2R q) N f0 (f0 :: rest) s /\
          (all_relaxed N s -> exists x, In x out /\ row_of j t p x /\ snd x <> None /\
             forall name, In name columns6 ->
               (name = "tau_L"%string -> forall j fs, seq j fs -> distances_clear T u (Q2R q) N fs) ->
               averaged s name (snd (fst x)))).
  Proof.
    intros file frames seq A Hq Sx HN HN2 HM2 EV Pt Pp Lt Lp V1 V2 Inc Ns Ht Hn HG HM Gr Ag Ex Fo.
    assert (Hk : 0 < Q2R q) by (apply Qlt_Rlt in Hq; replace (Q2R 0) with 0 in Hq by (unfold Q2R; cbn; lra); auto).
    destruct (C147_exponential to_float printable pfloat sub f32 junk wrap gimbal argsort fl calculate parse show mol gsd_of text_of u W Ar Fl Hm
      T N v line c smax total n G M q t0 r0 A Hq Sx HN EV (parsed_readable _ _ _ Pt) (parsed_readable _ _ _ Pp) V1 V2 Inc Ns Ht Hn HG HM Gr Ag Ex Fo)
      as (fuel0 & steps0 & H).
    exists fuel0, steps0. intros fuel steps L1 L2. destruct (H fuel steps L1 L2) as (rows & relax & E & Wr).
    destruct (C151_relaxations nan_raises curve_fit zero_ok fl parse (Q2R q) (c_scattering c) u T v N seq rows relax (c_infile c) t p Wr)
      as (out & Eo & One & O1 & O2 & O3 & O4); auto; [apply Fl|lia| |].
    - intros j f0 rest S. split.
      + assert (I : In f0 frames /\ on_key total n G M j (e_ts f0)) by (apply (picks_In _ _ _ _ S); left; auto).
        destruct I as (_ & L & _). lia.
      + eapply increasing_picks; [|exact S]. unfold frames. rewrite map_map. cbn. exact Inc.
    - eexists. exists out. split; [exact E|]. split; [exact Eo|]. split; [exact One|]. split.
      + intros x I. destruct (O1 x I) as (j & s & Ij & Al & Ro). destruct (seq_of _ _ _ _ _ _ _ _ _ _ Wr j s Ij) as (f0 & rest & S & R & _).
        exists j, f0, rest, s. auto.
      + intros j f0 rest S. destruct (proj2 (proj2 Wr) j f0 rest S) as (_ & s & Ij & R). exists s. split; auto.
        intros Al. destruct (O2 j s Ij Al) as (x & I & Ro). exists x. split; auto. split; auto. split; auto.
        intros name Hn' Cl. apply (O3 j s x name); auto.
  Qed.
End Both.
Print Assumptions C151_commands.

(** ** Example: the trajectory of C128_example, whose molecules all relax in key frame 0 *)
Definition y_command (infile : string) : nat -> nat -> ran := fun fuel steps =>
  command x_float (fun _ => true) lfloat Rminus (fun r => r) (fun _ => 77) freud_wrap (fun _ => zero3) sort_index fl100
    (fun _ _ => inr ValueError) ex_pf (fun _ => EmptyString) [mk3 0 1 0] (fun _ => gfile) x_text fuel steps
    [("--wave-number", "2")]%string (x_line false infile) None None.
Lemma closed_ends : fit_ends closed_form. Proof. intros pts e H. discriminate. Qed.
Lemma y_asks infile : asks x_float [("--wave-number", "2")]%string (x_line false infile) None (Some 100%Z) 1000000 500 2.
Proof. apply main_asks; reflexivity. Qed.
Lemma y_picks j fs : picks (fun f => on_key 20 100 1000000 500 j (e_ts f)) (map (molecules_of 10) (snapshots gfile)) fs <->
  fs = match j with 0%nat => [gf0; gf1; gf2] | _ => [] end.
Proof. rewrite g_frames. apply x_picks. Qed.
Lemma y_number : number_of_steps None gfile 20.
Proof.
  right. split; auto. exists [inl (gs 0 (9 / 2) (zquat 0)); inr RuntimeError; inl (gs 10 (- (7 / 2)) (qneg (zquat (5 / 2))))],
      (gs 20 (1 / 2) (zquat 0)), [inr RuntimeError]. split; [reflexivity|]. split; [reflexivity|]. split; [cbn; lia|].
  intros x [<-|[]]. reflexivity.
Qed.
Lemma y_on f : In f [gf0; gf1; gf2] -> on_key 20 100 1000000 500 0 (e_ts f).
Proof. intros I. assert (Pj := proj2 (y_picks 0%nat _) eq_refl). apply (picks_In _ _ _ _ Pj) in I. apply I. Qed.

Lemma y_spins i : (i < 10)%nat -> spins gT gf0 i [gf0; gf1; gf2] = [(0%Z, 0); (10%Z, 5 / 2); (20%Z, 0)].
Proof.
  intros H. unfold spins. cbn [map]. unfold angle, ang, gf0, gf1, gf2, gT, ef. cbn [e_ts Z.eqb Pos.eqb fst snd]. rewrite !nth_rep by auto.
  replace (0 - 0) with 0 by lra. replace (5 / 2 - 0) with (5 / 2) by lra. rewrite Rabs_R0, (Rabs_right (5 / 2)) by lra. reflexivity.
Qed.
Lemma y_clear j fs : picks (fun f => on_key 20 100 1000000 500 j (e_ts f)) (map (molecules_of 10) (snapshots gfile)) fs ->
  distances_clear gT (1 / 100) 2 10 fs.
Proof.
  intros Pk f0 rest i t x E Hi I. apply y_picks in Pk. destruct j as [|j]; [|subst; discriminate]. rewrite Pk in *. injection E as <- <-. clear Pk.
  rewrite g_moves in I by auto. pose proof pi_above_3. pose proof PI_4. unfold clear, surely.
  destruct I as [[= <- <-]|[[= <- <-]|[[= <- <-]|[]]]]; split.
  - right; lra.
  - right; lra.
  - left; lra.
  - right; lra.
  - left; lra.
  - left; lra.
Qed.
Lemma y_times s i : reports gT (1 / 100) 2 10 gf0 [gf0; gf1; gf2] s -> (i < 10)%nat ->
  entry s "tau_D" i 20 /\ entry s "tau_F" i 10 /\ entry s "tau_L" i 10 /\ entry s "tau_T2" i 10 /\ entry s "tau_T3" i 10 /\ entry s "tau_T4" i 10.
Proof.
  intros (_ & _ & H) Hi. pose proof pi_above_3. pose proof PI_4.
  assert (Fp : forall thr a b y z w, first_about (1 / 100) thr [(0%Z, 0); (10%Z, a); (20%Z, b)] w -> 0 < thr -> y = a ->
     (surely (1 / 100) thr a /\ z = 10%Z \/ ~ maybe (1 / 100) thr a /\ surely (1 / 100) thr b /\ z = 20%Z) -> w = z).
  { intros thr a b y z w (F1 & _ & F3) Ht -> [(S & ->)|(Nm & S & ->)].
    - assert (w <= 10)%Z by (apply (F3 10%Z a); [cbn; auto|auto]).
      destruct F1 as [->|(x & I & Mx)]; [lia|]. unfold maybe in Mx. cbn [In] in I. destruct I as [[= <- <-]|[[= <- <-]|[[= <- <-]|[]]]]; auto; [nra|lia].
    - assert (w <= 20)%Z by (apply (F3 20%Z b); [cbn; auto|auto]).
      destruct F1 as [->|(x & I & Mx)]; [lia|]. cbn [In] in I. destruct I as [[= <- <-]|[[= <- <-]|[[= <- <-]|[]]]]; auto; [unfold maybe in Mx; nra|tauto]. }
  destruct (H i Hi) as ((z1 & E1 & F1) & (z2 & E2 & F2) & (z3 & E3 & F3) & (z4 & E4 & F4) & (z5 & E5 & F5) & (z6 & E6 & F6)).
  rewrite g_moves in F1, F2, F3 by auto. rewrite y_spins in F4, F5, F6 by auto.
  assert (z1 = 20%Z) by (apply (Fp _ _ _ 2 20%Z z1 F1); [lra|auto|right; unfold maybe, surely; split; [lra|split; [lra|auto]]]).
  assert (z2 = 10%Z) by (apply (Fp _ _ _ 2 10%Z z2 F2); [lra|auto|left; unfold surely; split; [lra|auto]]).
  assert (z4 = 10%Z) by (apply (Fp _ _ _ (5 / 2) 10%Z z4 F4); [lra|auto|left; unfold surely; split; [lra|auto]]).
  assert (z5 = 10%Z) by (apply (Fp _ _ _ (5 / 2) 10%Z z5 F5); [lra|auto|left; unfold surely; split; [lra|auto]]).
  assert (z6 = 10%Z) by (apply (Fp _ _ _ (5 / 2) 10%Z z6 F6); [lra|auto|left; unfold surely; split; [lra|auto]]).
  assert (z3 = 10%Z).
  { destruct F3 as [(Al & _)|(a & d & b & post & before & e & El & Eb & Ce & Cb & Td & Bb & a1 & a2 & Ea & A1 & A2)].
    - intros t x I. assert (Cl := y_clear 0 [gf0; gf1; gf2] (proj2 (y_picks 0%nat _) eq_refl) gf0 [gf1; gf2] i t x eq_refl Hi).
      rewrite g_moves in Cl by auto. auto.
    - specialize (Al (20%Z, 6) ltac:(cbn; auto)). cbn in Al. lra.
    - destruct a as [|x1 [|x2 [|x3 a]]]; cbn in El; try injection El as; subst.
      + lra.
      + reflexivity.
      + exfalso. destruct a1 as [|c1 a1].
        * cbn in Ea. subst a2. specialize (A2 (10%Z, 2) ltac:(cbn; auto)). cbn in A2. lra.
        * destruct A1 as [A1|(a0 & c & A1 & Lc)]; [discriminate|]. rewrite A1 in Ea.
          destruct a0 as [|y1 [|y2 a0]]; cbn in Ea; injection Ea as; subst.
          -- specialize (A2 (10%Z, 2) ltac:(cbn; auto)). cbn in A2. lra.
          -- cbn in Lc. lra.
          -- destruct a0; discriminate.
      + destruct a; discriminate. }
  subst. auto 8.
Qed.
Lemma y_relaxed s : reports gT (1 / 100) 2 10 gf0 [gf0; gf1; gf2] s -> all_relaxed 10 s.
Proof.
  intros R name i v Hn Hi (col & D & E) ->. destruct (y_times s i R Hi) as (E1 & E2 & E3 & E4 & E5 & E6).
  cbn [In columns6] in Hn. destruct Hn as [<-|[<-|[<-|[<-|[<-|[<-|[]]]]]]];
    [destruct E1 as (c & D' & E')|destruct E2 as (c & D' & E')|destruct E3 as (c & D' & E')|destruct E4 as (c & D' & E')
    |destruct E5 as (c & D' & E')|destruct E6 as (c & D' & E')]; rewrite D in D'; injection D' as <-; rewrite E in E'; discriminate.
Qed.

Lemma all_equal (col : list Z) z : (forall i, (i < 10)%nat -> nth_error col i = Some z) -> length col = 10%nat -> col = repeat z 10.
Proof.
  intros H L. do 10 (destruct col as [|? col]; [discriminate|]). destruct col; [|discriminate].
  pose proof (H 0%nat ltac:(lia)); pose proof (H 1%nat ltac:(lia)); pose proof (H 2%nat ltac:(lia)); pose proof (H 3%nat ltac:(lia)); pose proof (H 4%nat ltac:(lia));
  pose proof (H 5%nat ltac:(lia)); pose proof (H 6%nat ltac:(lia)); pose proof (H 7%nat ltac:(lia)); pose proof (H 8%nat ltac:(lia)); pose proof (H 9%nat ltac:(lia)).
  cbn in *. repeat match goal with X : Some _ = Some _ |- _ => injection X as -> end. reflexivity.
Qed.
Lemma y_mean s name st z : reports gT (1 / 100) 2 10 gf0 [gf0; gf1; gf2] s -> In name columns6 ->
  (forall i, (i < 10)%nat -> entry s name i z) -> (0 < z)%Z -> averaged s name st ->
  exists m h, In ((name ++ "_mean")%string, m) st /\ (m == inject_Z z)%Q /\ In ((name ++ "_hmean")%string, h) st /\ (h == inject_Z z)%Q.
Proof.
  intros R Hn He Hz (col & m & h & D & M1 & M2 & H1 & H2).
  assert (E : col = repeat z 10).
  { apply all_equal.
    - intros i Hi. destruct (He i Hi) as (c & D' & E'). congruence.
    - destruct (dget_columns 10 s name) as (c & D' & L); auto; [destruct R as (A & B & _); split; auto|congruence]. }
  subst col. exists m, h. split; auto.
  assert (Nz : ~ (inject_Z z == 0)%Q) by (unfold inject_Z, Qeq; cbn; lia).
  cbn [map repeat] in M2, H2. unfold is_mean, is_hmean, total, count in M2, H2. cbn [map fold_right List.length Z.of_nat Pos.of_succ_nat Pos.succ] in M2, H2.
  assert (T10 : forall a : Q, (a + (a + (a + (a + (a + (a + (a + (a + (a + (a + 0))))))))) == inject_Z 10 * a)%Q) by (intros; ring).
  rewrite T10 in M2, H2. split; [|split]; auto.
  - setoid_replace m with ((m * inject_Z 10) / inject_Z 10)%Q by (field; discriminate). rewrite M2. field.
  - setoid_replace h with ((h * (inject_Z 10 * / inject_Z z)) * (inject_Z z / inject_Z 10))%Q by (field; auto).
    rewrite H2. field.
Qed.

Lemma y_labels : labels (Fin (6 # 5)) /\ labels (Fin (27 # 2)).
Proof. split; eexists; (split; [reflexivity|]); intros E; vm_compute in E; discriminate. Qed.
(** The one row has the averages 20 and 10. *)
Example C151_example : exists fuel0 steps0, forall fuel steps, (fuel0 <= fuel)%nat -> (steps0 <= steps)%nat ->
  exists o x m h m' h', y_command e_name fuel steps = Done o /\
    comp_relaxations true closed_form false fl100 ex_pf e_name o = inl [x] /\ row_of 0 (6 # 5) (27 # 2) x /\ snd x <> None /\
    In ("tau_D_mean"%string, m) (snd (fst x)) /\ (m == 20)%Q /\ In ("tau_D_hmean"%string, h) (snd (fst x)) /\ (h == 20)%Q /\
    In ("tau_L_mean"%string, m') (snd (fst x)) /\ (m' == 10)%Q /\ In ("tau_L_hmean"%string, h') (snd (fst x)) /\ (h' == 10)%Q.
Proof.
  destruct x_valid as [V1 V2], y_labels as [Lt Lp].
  destruct (C151_commands x_float (fun _ => true) lfloat Rminus (fun r => r) (fun _ => 77) freud_wrap (fun _ => zero3) sort_index fl100
    (fun _ _ => inr ValueError) ex_pf (fun _ => EmptyString) [mk3 0 1 0] (fun _ => gfile) x_text true closed_form false (1 / 100) freud_wrap_ok sort_index_ok fl100_rounds
    ltac:(discriminate) closed_ends gT 10 gv [("--wave-number", "2")]%string (x_line false e_name) None 20 100 1000000 500 2 None None (6 # 5) (27 # 2)
    (y_asks e_name) eq_refl eq_refl ltac:(lia) ltac:(lia) ltac:(lia) eq_refl eq_refl eq_refl Lt Lp V1 V2)
    as (fuel0 & steps0 & H).
  - cbn. repeat constructor.
  - apply y_number.
  - lia.
  - lia.
  - lia.
  - lia.
  - exists 100%Z, 4%Z. lia.
  - left. rewrite g_frames. intros f I. exists 0%nat. apply y_on. exact I.
  - exists 0%nat, gf0. rewrite g_frames. split; [cbn; auto|apply y_on; cbn; auto].
  - intros j f0 rest Pj. apply y_picks in Pj. apply g_followable. destruct j as [|j]; auto. discriminate.
  - exists fuel0, steps0. intros fuel steps L1 L2. destruct (H fuel steps L1 L2) as (o & out & Ec & Er & One & O1 & O2).
    assert (E2 : Q2R 2 = 2) by (unfold Q2R; cbn; lra). rewrite E2 in O1, O2.
    destruct (O2 0%nat gf0 [gf1; gf2]) as (s & R & O3); [apply y_picks; reflexivity|].
    destruct (O3 (y_relaxed s R)) as (x & I & Ro & Nn & Av).
    assert (Rows : forall y, In y out -> row_of 0 (6 # 5) (27 # 2) y).
    { intros y Iy. destruct (O1 y Iy) as (j & f0 & rest & s' & S & _ & _ & Ry). apply y_picks in S. destruct j; [exact Ry|discriminate]. }
    assert (Eo : out = [x]).
    { destruct out as [|a [|b out]]; [destruct I| |].
      - destruct I as [->|[]]. reflexivity.
      - exfalso. assert (0%nat = 1%nat) as X; [|discriminate]. apply (One 0%nat 1%nat a b eq_refl eq_refl).
        eapply same_key_trans; [apply same_key_sym; apply (Rows a); left; auto|apply (Rows b); right; left; auto]. }
    assert (Cl : forall j fs, picks (fun f => on_key 20 100 1000000 500 j (e_ts f)) (map (molecules_of 10) (snapshots gfile)) fs -> distances_clear gT (1 / 100) 2 10 fs)
      by (intros; eapply y_clear; eauto).
    destruct (y_mean s "tau_D" (snd (fst x)) 20 R) as (m & h & M1 & M2 & H1 & H2).
    + cbn. auto.
    + intros i Hi. apply (y_times s i R Hi).
    + lia.
    + apply Av; [cbn; auto|discriminate].
    + destruct (y_mean s "tau_L" (snd (fst x)) 10 R) as (m' & h' & M1' & M2' & H1' & H2').
      * cbn. auto.
      * intros i Hi. apply (y_times s i R Hi).
      * lia.
      * apply Av; [cbn; auto 6|intros _; exact Cl].
      * exists o, x, m, h, m', h'. rewrite Eo in Er. split; [exact Ec|]. split; [exact Er|]. auto 12.
Qed.

(** The property "the times of a fully relaxed key frame are in the table" fails for the same
    trajectory in a file trajectory.gsd. *)
Theorem C152_unnamed_refuted : exists infile fuel0 steps0, path_suffix infile = ".gsd"%string /\
  forall fuel steps, (fuel0 <= fuel)%nat -> (steps0 <= steps)%nat ->
  exists rows relax s, y_command infile fuel steps = Done {| out_result := inl None; out_table := Some rows; out_relax := Some relax |} /\
    In (0%nat, s) relax /\ reports gT (1 / 100) 2 10 gf0 [gf0; gf1; gf2] s /\ all_relaxed 10 s /\
    forall nan_raises curve_fit zero_ok out,
      comp_relaxations nan_raises curve_fit zero_ok fl100 ex_pf infile {| out_result := inl None; out_table := Some rows; out_relax := Some relax |} = inl out ->
      out = [].
Proof.
  destruct x_valid as [V1 V2].
  set (v0 := {| v_temperature := None; v_pressure := None; v_crystal := None; v_iteration := None |}).
  assert (EV : get_filename_vars "trajectory.gsd" = inl v0) by (vm_compute; reflexivity).
  destruct (C147_exponential x_float (fun _ => true) lfloat Rminus (fun r => r) (fun _ => 77) freud_wrap (fun _ => zero3) sort_index fl100
    (fun _ _ => inr ValueError) ex_pf (fun _ => EmptyString) [mk3 0 1 0] (fun _ => gfile) x_text (1 / 100) freud_wrap_ok sort_index_ok fl100_rounds
    ltac:(discriminate) gT 10 v0 [("--wave-number", "2")]%string (x_line false "trajectory.gsd") None 20 100 1000000 500 2 None None
    (y_asks _) eq_refl eq_refl ltac:(lia) EV)
    as (fuel0 & steps0 & H); auto.
  - intros (x & E & _). discriminate.
  - intros (x & E & _). discriminate.
  - cbn. repeat constructor.
  - apply y_number.
  - lia.
  - lia.
  - lia.
  - lia.
  - exists 100%Z, 4%Z. lia.
  - left. rewrite g_frames. intros f I. exists 0%nat. apply y_on. exact I.
  - exists 0%nat, gf0. rewrite g_frames. split; [cbn; auto|apply y_on; cbn; auto].
  - intros j f0 rest Pj. apply y_picks in Pj. apply g_followable. destruct j as [|j]; auto. discriminate.
  - exists "trajectory.gsd"%string, fuel0, steps0. split; [reflexivity|]. intros fuel steps L1 L2.
    destruct (H fuel steps L1 L2) as (rows & relax & E & W). assert (E2 : Q2R 2 = 2) by (unfold Q2R; cbn; lra). rewrite E2 in W.
    destruct (proj2 (proj2 W) 0%nat gf0 [gf1; gf2]) as (_ & s & I & R); [apply y_picks; reflexivity|].
    exists rows, relax, s. split; [exact E|]. split; auto. split; auto. split; [apply y_relaxed; auto|].
    intros nr cf zo out. apply (C152_unnamed_partial nr cf zo fl100 ex_pf v0); auto.
Qed.
Print Assumptions C152_unnamed_refuted.
(** It does not fail: the table has no rows. *)
Example C152_example : forall zero_ok rows relax, exists out,
  comp_relaxations true closed_form zero_ok fl100 ex_pf "trajectory.gsd" {| out_result := inl None; out_table := Some rows; out_relax := Some relax |} = inl out.
Proof.
  intros zo rows relax. unfold comp_relaxations.
  replace (get_filename_vars "trajectory.gsd") with (@inl variables exn {| v_temperature := None; v_pressure := None; v_crystal := None; v_iteration := None |}) by (vm_compute; reflexivity).
  cbn [column v_temperature v_pressure option_map out_table out_relax]. unfold compute_relaxations.
  destruct (dynamics_ok true closed_form fl100 rows closed_ends) as (d & ->). cbn [RelaxationModel.ebind].
  destruct (C49_groups zo (mol_table NaN NaN relax)) as (out & -> & _).
  { cbn [mol_table m_columns]. cbn [In]. rewrite !in_app_iff. cbn. tauto. }
  cbn [RelaxationModel.ebind]. eauto.
Qed.
