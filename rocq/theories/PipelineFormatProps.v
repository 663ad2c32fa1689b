(** Properties C151 (the other readers) and C199: relaxation times of trajectories read with
    linear steps, and of lammpstrj files. *)
From Coq Require Import String Reals ZArith QArith Qreals List Bool Lia Lra Classical Sorted.
From Verif Require Import Base PyStr PyStrFacts XNum RVec RVecFacts FrameModel FrameSpec LammpsModel LammpsSpec LammpsProofs LammpsProps RunModel MotionModel MotionSpec MotionProofs DynModel DynSpec DynProps DynTrue
  MolRelaxModel ParamsModel WriteCacheModel ProcessModel ProcessSpec ProcessProps ProcessPathModel ProcessPathProps StepSizeModel StepSizeSpec GsdModel
  EndModel EndSpec EndProofs EndProps EndGsdModel EndGsdSpec EndGsdProofs EndGsdProps EndLammpsModel EndLammpsSpec EndLammpsProps
  MainModel MainSpec MainProofs MainProps CommandModel CommandSpec CommandProofs CommandProps
  RelaxationModel RelaxFitModel RelaxFitProofs RelaxFullModel RelaxTableModel RelaxTableSpec RelaxTableProofs RelaxTableProps PipelineModel PipelineSpec PipelineProofs PipelineProps.
Import ListNotations.
Notation length := List.length.
Open Scope R_scope.

(** Molecules that are never turned have no angle other than that of the first frame. *)
Lemma turned_one t : turned qone t -> exists k, t = 2 * IZR k * PI.
Proof.
  intros H. assert (S : sin (t / 2) = 0).
  { destruct H as [H|H]; unfold qone, zquat, qneg in H; cbn in H; injection H; intros; lra. }
  apply sin_eq_0_0 in S. destruct S as [k S]. exists k. lra.
Qed.
Lemma turned_same t t' : turned qone t -> turned qone t' -> Rabs (t' - t) < PI -> t' = t.
Proof.
  intros A B C. apply turned_one in A, B. destruct A as [k ->], B as [k' ->].
  replace (2 * IZR k' * PI - 2 * IZR k * PI) with (PI * (2 * IZR (k' - k))) in C by (rewrite minus_IZR; ring).
  pose proof PI_RGT_0. rewrite Rabs_mult, (Rabs_right PI) in C by lra.
  assert (D : Rabs (2 * IZR (k' - k)) < 1) by nra.
  replace (2 * IZR (k' - k)) with (IZR (2 * (k' - k))) in D by (rewrite mult_IZR; reflexivity).
  rewrite <- abs_IZR in D. change 1 with (IZR 1) in D. apply lt_IZR in D. assert (k' = k) by lia. subst. reflexivity.
Qed.

Section Still.
  Variable T : eframe -> truth.
  Definition still (f : eframe) : Prop := exists n, e_ori f = Some (repeat qone n).
  Lemma still_turned b N f : still f -> shown_in T b N f -> Forall (turned qone) (snd (T f)).
  Proof.
    intros [n E] (_ & _ & _ & q & Eq & F). rewrite E in Eq. injection Eq as <-.
    clear E. apply Forall_forall. intros t I. apply In_nth_error in I. destruct I as [i I].
    assert (G : exists x, nth_error (repeat qone n) i = Some x /\ turned x t).
    { clear - F I. revert i I. induction F as [|x y l l' Q F IH]; intros [|i] I; cbn in *; try discriminate; eauto.
      injection I as <-. eauto. }
    destruct G as (x & Ex & Tx). apply nth_error_In, repeat_spec in Ex. subst. auto.
  Qed.
  Lemma still_chain b N : forall rest f0, Forall still (f0 :: rest) -> Forall (shown_in T b N) (f0 :: rest) -> chain (slow b) (T f0) (map T rest) ->
    forall f, In f (f0 :: rest) -> snd (T f) = snd (T f0).
  Proof.
    induction rest as [|f1 rest IH]; intros f0 S V C f I; [destruct I as [<-|[]]; auto|].
    destruct I as [<-|I]; auto. inversion S as [|? ? S0 S1]; subst. inversion V as [|? ? V0 V1]; subst. cbn [map chain] in C. destruct C as [C0 C1].
    rewrite (IH f1 S1 V1 C1 f I).
    assert (A := still_turned _ _ _ S0 V0). inversion S1 as [|? ? S2 _]; subst. inversion V1 as [|? ? V2 _]; subst.
    assert (B := still_turned _ _ _ S2 V2).
    destruct C0 as (_ & C0). unfold turn_step in C0. revert A B C0. generalize (snd (T f0)) (snd (T f1)). induction l as [|a l IHl]; intros l' A B C0; inversion C0; subst; auto.
    inversion A; subst. inversion B; subst. f_equal; [apply turned_same; auto|apply IHl; auto].
  Qed.
End Still.

Section Formats.
  Variables (to_float : string -> option xnum) (printable : string -> bool).
  Variables (pfloat : string -> option R) (sub : R -> R -> R) (f32 : R -> R) (junk : nat -> R).
  Variables (wrap : MotionModel.fbox -> v3 -> v3) (gimbal : RVec.quat -> v3) (argsort : list R -> list nat)
            (fl : R -> xnum) (calculate : MotionModel.fbox -> list v3 -> R + exn) (parse : string -> option xnum)
            (show : yaml -> string) (mol : list v3).
  Variables (gsd_of : string -> list (snapshot R + exn)) (text_of : string -> string).
  Variables (nan_raises : bool) (curve_fit : list (R * R) -> (R * R * R) + exn) (zero_ok : bool).
  Notation command := (command to_float printable pfloat sub f32 junk wrap gimbal argsort fl calculate parse show mol gsd_of text_of).
  Variable u : R.
  Hypotheses (W : wrap_ok wrap) (Ar : argsort_ok argsort) (Fl : rounds u fl) (Hm : mol <> []) (Fe : fit_ends curve_fit).

  (** What comp-relaxations writes after the key frames [seq] were written by comp-dynamics *)
  Lemma after_written (T : eframe -> truth) N v c q seq rows relax t p :
    written parse (Q2R q) (c_scattering c) u T v N seq rows relax -> (0 < q)%Q -> (10 <= N)%nat -> (Z.of_nat N < 2 ^ 32)%Z ->
    get_filename_vars (c_infile c) = inl v -> parsed parse (v_temperature v) (Fin t) -> parsed parse (v_pressure v) (Fin p) ->
    labels (Fin t) -> labels (Fin p) ->
    (forall j f0 rest, seq j (f0 :: rest) -> Z.of_nat j <> (2 ^ 32 - 1)%Z /\ forall f, In f rest -> (e_ts f0 < e_ts f)%Z) ->
    exists out, comp_relaxations nan_raises curve_fit zero_ok fl parse (c_infile c) {| out_result := inl None; out_table := Some rows; out_relax := Some relax |} = inl out /\
      one_row_per_key (fun x => fst (fst x)) out /\
      (forall x, In x out -> exists j f0 rest s, seq j (f0 :: rest) /\ reports T u (Q2R q) N f0 (f0 :: rest) s /\ all_relaxed N s /\ row_of j t p x) /\
      (forall j f0 rest, seq j (f0 :: rest) -> exists s, reports T u (Q2R q) N f0 (f0 :: rest) s /\
        (all_relaxed N s -> exists x, In x out /\ row_of j t p x /\ snd x <> None /\
           forall name, In name columns6 ->
             (name = "tau_L"%string -> forall j fs, seq j fs -> distances_clear T u (Q2R q) N fs) ->
             averaged s name (snd (fst x)))).
  Proof.
    intros Wr Hq HN HN2 EV Pt Pp Lt Lp Hs.
    assert (Hk : 0 < Q2R q) by (apply Qlt_Rlt in Hq; replace (Q2R 0) with 0 in Hq by (unfold Q2R; cbn; lra); auto).
    destruct (C151_relaxations nan_raises curve_fit zero_ok fl parse (Q2R q) (c_scattering c) u T v N seq rows relax (c_infile c) t p Wr)
      as (out & Eo & One & O1 & O2 & O3 & O4); auto; [apply Fl|lia|].
    exists out. split; [exact Eo|]. split; [exact One|]. split.
    + intros x I. destruct (O1 x I) as (j & s & Ij & Al & Ro). destruct (seq_of _ _ _ _ _ _ _ _ _ _ Wr j s Ij) as (f0 & rest & S & R & _).
      exists j, f0, rest, s. auto.
    + intros j f0 rest S. destruct (proj2 (proj2 Wr) j f0 rest S) as (_ & s & Ij & R). exists s. split; auto.
      intros Al. destruct (O2 j s Ij Al) as (x & I & Ro). exists x. split; auto. split; auto. split; auto.
      intros name Hn' Cl. apply (O3 j s x name); auto.
  Qed.

  (** The two commands for a gsd file with evenly spaced key frames (C147_linear) *)
  Theorem C151_commands_linear (T : eframe -> truth) N v line c smax G M q pre t0 r0 fuel steps t p :
    let file := gsd_of (c_infile c) in
    let seq := fun j fs => (Z.of_nat j <= M)%Z /\ from_multiple G j pre fs in
    asks to_float line c smax None G M q -> (0 < q)%Q ->
    path_suffix (c_infile c) = ".gsd"%string -> (10 <= N)%nat -> (Z.of_nat N < 2 ^ 32)%Z -> (M < 2 ^ 32 - 1)%Z ->
    get_filename_vars (c_infile c) = inl v -> parsed parse (v_temperature v) (Fin t) -> parsed parse (v_pressure v) (Fin p) ->
    labels (Fin t) -> labels (Fin p) ->
    (forall s, In (inl s) file -> gsd_snapshot N s) -> (forall e, In (inr e) file -> e = RuntimeError) ->
    StepSizeSpec.increasing (map s_step (snapshots file)) ->
    G <> 0%Z -> (0 <= M)%Z -> read_until smax (map (molecules_of N) (snapshots file)) pre ->
    (exists f, In f pre /\ (G | e_ts f)%Z) ->
    (forall j f0 rest, seq j (f0 :: rest) -> followable T N f0 rest) ->
    exists o out, command fuel steps line c t0 r0 = Done o /\
      comp_relaxations nan_raises curve_fit zero_ok fl parse (c_infile c) o = inl out /\
      one_row_per_key (fun x => fst (fst x)) out /\
      (forall x, In x out -> exists j f0 rest s, seq j (f0 :: rest) /\ reports T u (Q2R q) N f0 (f0 :: rest) s /\ all_relaxed N s /\ row_of j t p x) /\
      (forall j f0 rest, seq j (f0 :: rest) -> exists s, reports T u (Q2R q) N f0 (f0 :: rest) s /\
        (all_relaxed N s -> exists x, In x out /\ row_of j t p x /\ snd x <> None /\
           forall name, In name columns6 ->
             (name = "tau_L"%string -> forall j fs, seq j fs -> distances_clear T u (Q2R q) N fs) ->
             averaged s name (snd (fst x)))).
  Proof.
    intros file seq A Hq Sx HN HN2 HM2 EV Pt Pp Lt Lp V1 V2 Inc HG HM Ru Ex Fo.
    destruct (C147_linear to_float printable pfloat sub f32 junk wrap gimbal argsort fl calculate parse show mol gsd_of text_of u W Ar Fl Hm
      T N v line c smax G M q pre t0 r0 fuel steps A Hq Sx HN EV (parsed_readable _ _ _ Pt) (parsed_readable _ _ _ Pp) V1 V2 HG HM Ru Ex Fo)
      as (rows & relax & E & Wr).
    destruct (after_written T N v c q seq rows relax t p Wr) as (out & Eo & R); auto.
    - intros j f0 rest (L & a & f & b & m & E1 & [= -> ->] & _). split; [lia|].
      destruct Ru as (post & Ef & _). assert (S : StronglySorted Z.lt (map e_ts (a ++ f :: b))).
      { assert (S : StronglySorted Z.lt (map e_ts ((a ++ f :: b) ++ post))) by (rewrite <- E1, <- Ef, map_map; exact Inc).
        rewrite map_app in S. clear - S. induction (map e_ts (a ++ f :: b)) as [|x l IH]; [constructor|]. cbn in S. inversion S; subst.
        constructor; auto. apply Forall_app in H2. tauto. }
      clear - S. induction a as [|x a IH]; cbn in S; inversion S; subst; auto. intros g I. rewrite Forall_forall in H2. apply H2, in_map, I.
    - exists {| out_result := inl None; out_table := Some rows; out_relax := Some relax |}, out. split; [exact E|]. split; [exact Eo|exact R].
  Qed.

  (** A lammpstrj file: the two commands finish, but the table of relaxations is empty, whatever
      the molecules do: without orientations no rotation is seen, and only key frames all of whose
      molecules have passed all thresholds are averaged. *)
  Theorem C199_lammps_partial (T : eframe -> truth) N v line c smax lin G M q ts pre f0 rest t0 r0 fuel steps t p :
    let text := text_of (c_infile c) in
    asks to_float line c smax lin G M q -> (0 < q)%Q ->
    path_suffix (c_infile c) = ".lammpstrj"%string -> (10 <= N)%nat -> (Z.of_nat N < 2 ^ 32)%Z ->
    get_filename_vars (c_infile c) = inl v -> parsed parse (v_temperature v) (Fin t) -> parsed parse (v_pressure v) (Fin p) ->
    labels (Fin t) -> labels (Fin p) ->
    ignores_line_end pfloat -> (forall x, f32 (f32 x) = f32 x) ->
    text = render_all ts \/ text = crlf (render_all ts) ->
    Forall (well_formed pfloat) ts -> Forall has_positions ts ->
    steps_until smax ts pre -> Forall2 (written_as pfloat sub f32) pre (f0 :: rest) ->
    (forall f, In f rest -> (e_ts f0 < e_ts f)%Z) ->
    followable T N f0 rest ->
    exists rows relax s, command fuel steps line c t0 r0 = Done {| out_result := inl None; out_table := Some rows; out_relax := Some relax |} /\
      In (0%nat, s) relax /\ reports T u (Q2R q) N f0 (f0 :: rest) s /\
      (forall i, (i < N)%nat -> entry s "tau_T2" i (2 ^ 32 - 1) /\ entry s "tau_T3" i (2 ^ 32 - 1) /\ entry s "tau_T4" i (2 ^ 32 - 1)) /\
      comp_relaxations nan_raises curve_fit zero_ok fl parse (c_infile c)
        {| out_result := inl None; out_table := Some rows; out_relax := Some relax |} = inl [].
  Proof.
    intros text A Hq Sx HN HN2 EV Pt Pp Lt Lp Ig Id Et Wf Hp Un Wa Ord Fo.
    destruct (C147_lammps to_float printable pfloat sub f32 junk wrap gimbal argsort fl calculate parse show mol gsd_of text_of u W Ar Fl Hm
      T N v line c smax lin G M q ts pre f0 rest t0 r0 fuel steps A Hq Sx HN EV (parsed_readable _ _ _ Pt) (parsed_readable _ _ _ Pp) Ig Id Et Wf Hp Un Wa Fo)
      as (rows & relax & E & Wr).
    assert (St : Forall still (f0 :: rest)).
    { clear - Wa. remember (f0 :: rest) as l. clear Heql. induction Wa as [|a f l l' (_ & _ & _ & O & _) F IH]; constructor; auto. eexists. exact O. }
    assert (NoSpin : forall i x, In x (spins T f0 i (f0 :: rest)) -> snd x = 0).
    { intros i x I. unfold spins in I. apply in_map_iff in I. destruct I as (f & <- & I). cbn [snd].
      destruct Fo as (b & _ & _ & Sh & Ch & _). unfold angle, ang. rewrite (still_chain T b N rest f0 St Sh Ch f I).
      rewrite Rminus_diag_eq by auto. apply Rabs_R0. }
    assert (u1 : 0 <= u < 1) by apply Fl.
    assert (Never : forall thr i w, 0 < thr -> first_about u thr (spins T f0 i (f0 :: rest)) w -> w = (2 ^ 32 - 1)%Z).
    { intros thr i w Ht ([->|(x & I & Mx)] & _); auto. exfalso. apply NoSpin in I. cbn in I. subst x. unfold maybe in Mx. nra. }
    pose proof PI_RGT_0 as P0.
    assert (Ent : forall s, reports T u (Q2R q) N f0 (f0 :: rest) s -> forall i, (i < N)%nat ->
      entry s "tau_T2" i (2 ^ 32 - 1) /\ entry s "tau_T3" i (2 ^ 32 - 1) /\ entry s "tau_T4" i (2 ^ 32 - 1)).
    { intros s (_ & _ & R) i Hi. destruct (R i Hi) as (_ & _ & _ & (z4 & E4 & F4) & (z5 & E5 & F5) & (z6 & E6 & F6)).
      apply Never in F4, F5, F6; try lra. subst. auto. }
    destruct (after_written T N v c q (fun j fs => j = 0%nat /\ fs = f0 :: rest) rows relax t p Wr) as (out & Eo & _ & O1 & _); auto.
    { intros j g0 gs [-> [= -> ->]]. split; [lia|auto]. }
    destruct (proj2 (proj2 Wr) 0%nat f0 rest) as (_ & s & Ij & R); auto.
    exists rows, relax, s. split; [exact E|]. split; [exact Ij|]. split; [exact R|]. split; [apply Ent; exact R|].
    rewrite Eo. f_equal. destruct out as [|x out]; auto. exfalso. destruct (O1 x ltac:(left; auto)) as (j & g0 & gs & s' & [-> [= -> ->]] & R' & Al & _).
    destruct (Ent s' R' 0%nat ltac:(lia)) as (B & _). apply (Al "tau_T2"%string 0%nat (2 ^ 32 - 1)%Z); auto; [cbn; auto|lia].
  Qed.
End Formats.
Print Assumptions C151_commands_linear.
Print Assumptions C199_lammps_partial.

(** Evenly spaced key frames: the row of the key frame 0, in which every molecule has relaxed *)
Example C151_example_linear : forall fuel steps, exists o out x,
  x_command fuel steps [("--gen-steps", "20"); ("--wave-number", "2")]%string (x_line true e_name) None None = Done o /\
  comp_relaxations true closed_form false fl100 ex_pf e_name o = inl out /\
  In x out /\ row_of 0 (6 # 5) (27 # 2) x /\ snd x <> None.
Proof.
  intros fuel steps. destruct x_valid as [V1 V2], y_labels as [Lt Lp].
  destruct (C151_commands_linear x_float (fun _ => true) lfloat Rminus (fun r => r) (fun _ => 77) freud_wrap (fun _ => zero3) sort_index fl100
    (fun _ _ => inr ValueError) ex_pf (fun _ => EmptyString) [mk3 0 1 0] x_gsd x_text true closed_form false (1 / 100) freud_wrap_ok sort_index_ok fl100_rounds ltac:(discriminate)
    closed_ends gT 10 gv [("--gen-steps", "20"); ("--wave-number", "2")]%string (x_line true e_name) None 20 500 2 [gf0; gf1; gf2] None None fuel steps (6 # 5) (27 # 2))
    as (o & out & E & Eo & _ & _ & O); auto; try reflexivity; try lia.
  - apply main_asks; reflexivity.
  - change (x_gsd (c_infile (x_line true e_name))) with gfile. unfold StepSizeSpec.increasing. cbn. repeat (constructor; [|repeat (constructor; try lia)]). constructor.
  - change (x_gsd (c_infile (x_line true e_name))) with gfile. exists []. rewrite g_frames. split; [reflexivity|]. split; [discriminate|]. left. reflexivity.
  - exists gf0. split; [cbn; auto|exists 0%Z; reflexivity].
  - intros j f0 rest (_ & a & f & b & m & E1 & [= -> ->] & _). apply g_followable.
    destruct a as [|x1 [|x2 [|x3 a]]]; cbn in E1; [injection E1 as <- <-; auto|injection E1 as _ <- <-; auto|injection E1 as _ _ <- <-; auto|destruct a; discriminate].
  - destruct (O 0%nat gf0 [gf1; gf2]) as (s & R & Al).
    + split; [lia|]. exists [], gf0, [gf1; gf2], []. split; auto. split; auto. split; [exists 0%Z; reflexivity|]. split; [constructor|reflexivity].
    + replace (Q2R 2) with 2 in R by (unfold Q2R; cbn; lra). destruct (Al (y_relaxed s R)) as (x & I & Ro & Sx & _).
      exists o, out, x. auto.
Qed.

(** In this lammpstrj file every molecule moves by 6, beyond all thresholds for distances. *)
Theorem C199_lammps_refuted : exists fuel steps rows relax s,
  x_command fuel steps x_keys (x_line false x_lammps) None None =
    Done {| out_result := inl None; out_table := Some rows; out_relax := Some relax |} /\
  In (0%nat, s) relax /\
  (forall i, (i < 10)%nat -> exists a b, entry s "tau_D" i a /\ (a <= 2000)%Z /\ entry s "tau_F" i b /\ (b <= 2000)%Z) /\
  comp_relaxations true closed_form false fl100 ex_pf x_lammps
    {| out_result := inl None; out_table := Some rows; out_relax := Some relax |} = inl [].
Proof.
  destruct x_readable as [R1 R2], up_ok as [U1 U2], rev_ok as [V1 V2], y_labels as [Lt Lp].
  exists 0%nat, 0%nat.
  destruct (C199_lammps_partial x_float (fun _ => true) lfloat Rminus (fun r => r) (fun _ => 77) freud_wrap (fun _ => zero3) sort_index fl100
    (fun _ _ => inr ValueError) ex_pf (fun _ => EmptyString) [mk3 0 1 0] x_gsd x_text true closed_form false (1 / 100) freud_wrap_ok sort_index_ok fl100_rounds ltac:(discriminate)
    closed_ends lT 10 gv x_keys (x_line false x_lammps) (Some 5000%Z) (Some 100%Z) 1000 500 2 lts
    [lt 0 "4" up; lt 1000 "-4" (rev up); lt 2000 "0" up] (lf 0 4) [lf 1000 (-4); lf 2000 0] None None 0%nat 0%nat (6 # 5) (27 # 2)
    x_keys_asks eq_refl eq_refl ltac:(lia) ltac:(lia) eq_refl eq_refl eq_refl Lt Lp) as (rows & relax & s & E & I & R & _ & C).
  - apply lfloat_line_end.
  - reflexivity.
  - right. reflexivity.
  - repeat (constructor; [apply lt_ok; [apply word_dec; reflexivity|discriminate|auto|auto]|]). constructor.
  - repeat (constructor; [split; [cbn; auto|split; cbn; auto]|]). constructor.
  - exists [lt 9000 "1" up]. split; [reflexivity|]. split.
    + intros m t [= <-] [<-|[<-|[<-|[]]]]; cbn; lia.
    + right. do 3 eexists. split; [reflexivity|]. split; [reflexivity|]. cbn. lia.
  - repeat (constructor; [apply lt_as; auto|]). constructor.
  - intros f [<-|[<-|[]]]; cbn; lia.
  - apply l_followable.
  - exists rows, relax, s. split; [exact E|]. split; [exact I|]. split; [|exact C].
    intros i Hi. destruct R as (_ & _ & R). destruct (R i Hi) as ((a & Ea & _ & _ & Fa) & (b & Eb & _ & _ & Fb) & _).
    exists a, b. replace (Q2R 2) with 2 in Fa, Fb by (unfold Q2R; cbn; lra). pose proof PI_4. pose proof PI_RGT_0.
    assert (Mv : In (2000%Z, 6) (moves lT (lf 0 4) i [lf 0 4; lf 1000 (-4); lf 2000 0])).
    { unfold moves. cbn [map]. right. right. left. f_equal. unfold moved2, pos, lT, lf, ef. cbn [e_ts Z.eqb Pos.eqb fst snd]. rewrite !nth_rep by auto. cbn [x3 y3 z3].
      match goal with |- sqrt ?x = _ => replace x with (6 * 6) by (cbn; ring) end. apply sqrt_square. lra. }
    split; [exact Ea|]. split; [|split; [exact Eb|]].
    + apply (Fa _ _ Mv). unfold surely. lra.
    + apply (Fb _ _ Mv). unfold surely. lra.
Qed.
Print Assumptions C199_lammps_refuted.
