(** Property C140: the analysis of gsd and lammpstrj files without a wave number, from the
    contents of the file to the tables written. *)
From Coq Require Import String Reals ZArith QArith List Bool Lia Lra Arith Sorted.
From Verif Require Import Base PyStr PyStrFacts XNum RVec RVecFacts FrameModel FrameSpec MotionModel MotionSpec MotionProofs DynModel DynSpec DynProps DynTrue
  ParamsModel WriteCacheModel ProcessModel ProcessSpec ProcessProps ProcessPathModel ProcessPathProps StepSizeModel StepSizeSpec GsdModel
  LammpsModel LammpsSpec LammpsProofs LammpsProps RunModel MolRelaxModel WaveModel WaveSpec WaveProps
  EndModel EndSpec EndProofs EndProps EndGsdModel EndGsdSpec EndGsdProofs EndGsdProps EndLammpsModel EndLammpsSpec EndLammpsProps EndAutoProps.
Import ListNotations.
Open Scope R_scope.
Notation length := List.length.

(** Every frame of a key frame is in a box that is tilted little enough, and the frames can be
    followed. *)
Definition analysable (T : eframe -> truth) (N : nat) (f0 : eframe) (rest : list eframe) : Prop :=
  followable T N f0 rest /\ Forall fits (f0 :: rest).

Section Auto.
  Variables (wrap : MotionModel.fbox -> v3 -> v3) (gimbal : RVec.quat -> v3) (argsort : list R -> list nat) (fl : R -> xnum)
            (rdf : MotionModel.fbox -> list v3 -> R -> R -> (list R * list R) + exn)
            (parse : string -> option xnum) (show : yaml -> string) (mol : list v3) (scattering : bool) (u : R).
  Notation calculate := (calculate_wave_number rdf).
  Notation analyse_gsd := (analyse_gsd wrap gimbal argsort fl calculate parse show mol None scattering None).

  (** The relaxation times for the wave number of the first frame *)
  Definition own_times (T : eframe -> truth) (N : nat) (f0 : eframe) (fs : list eframe) (s : dict string (list Z)) : Prop :=
    exists k, wave_number_of rdf f0 k /\ 1 / 2 <= k <= 20 /\ reports T u k N f0 fs s.
  Definition written_without (T : eframe -> truth) (v : variables) (N : nat) : (nat -> list eframe -> Prop) ->
      list (nat * labelled (dict string dval)) -> list (nat * dict string (list Z)) -> Prop :=
    written_by (row_without T parse v N) (own_times T N).

  Lemma runs_without (T : eframe -> truth) N v infile t0 r0 :
    wrap_ok wrap -> argsort_ok argsort -> rounds u fl -> rdf_ok rdf -> mol <> [] -> (10 <= N)%nat ->
    get_filename_vars infile = inl v -> ~ unreadable parse (v_temperature v) -> ~ unreadable parse (v_pressure v) ->
    runs wrap gimbal argsort fl calculate parse show mol None scattering infile t0 r0
      (analysable T N) (row_without T parse v N) (own_times T N).
  Proof.
    intros W Ar Fl Ok Hm HN EV U1 U2 gsd lammps l Ho HK Fo. apply C138_default_wave_number; auto.
    - intros K f I. destruct (frames_of (fun f => length (e_pos f)) K l) as [|f0 rest] eqn:E; [destruct I|].
      destruct (Fo K f0 rest E) as [_ F]. rewrite Forall_forall in F. apply F. exact I.
    - intros K f0 rest E. apply (Fo K f0 rest E).
  Qed.

  (** A gsd file with a number of linear steps, as in C128 *)
  Theorem C140_gsd_exponential (T : eframe -> truth) N v infile smax total n G M file t0 r0 :
    let frames := map (molecules_of N) (snapshots file) in
    let seq := fun j fs => picks (fun f => on_key total n G M j (e_ts f)) frames fs in
    wrap_ok wrap -> argsort_ok argsort -> rounds u fl -> rdf_ok rdf -> mol <> [] -> (10 <= N)%nat ->
    path_suffix infile = ".gsd"%string ->
    get_filename_vars infile = inl v -> ~ unreadable parse (v_temperature v) -> ~ unreadable parse (v_pressure v) ->
    (forall s, In (inl s) file -> gsd_snapshot N s) -> (forall e, In (inr e) file -> e = RuntimeError) ->
    increasing (map s_step (snapshots file)) ->
    number_of_steps smax file total -> (0 <= total)%Z -> (1 <= n)%Z -> (0 < G)%Z -> (1 <= M)%Z -> StepSizeSpec.grid 0 n 1 10 G ->
    steps_agree total n G M frames ->
    (exists j f, In f frames /\ on_key total n G M j (e_ts f)) ->
    (forall j f0 rest, seq j (f0 :: rest) -> analysable T N f0 rest) ->
    (exists fuel0 steps0, forall fuel steps, (fuel0 <= fuel)%nat -> (steps0 <= steps)%nat ->
     exists rows relax,
       analyse_gsd fuel steps infile true smax (Some n) G M file t0 r0 =
         Ok {| out_result := inl None; out_table := Some rows; out_relax := Some relax |} /\
       written_without T v N seq rows relax) /\
    (forall j f0 rest g, seq j (f0 :: rest) -> In g frames -> e_ts g = (Z.of_nat j * G)%Z -> e_ts f0 = (Z.of_nat j * G)%Z).
  Proof.
    intros frames seq W Ar Fl Ok Hm HN Sx EV U1 U2. apply exponential_file; auto. apply runs_without; auto.
  Qed.

  (** A gsd file without linear steps, as in C129 *)
  Theorem C140_gsd_linear (T : eframe -> truth) N v infile fuel steps smax G M file pre t0 r0 :
    let seq := fun j fs => (Z.of_nat j <= M)%Z /\ from_multiple G j pre fs in
    wrap_ok wrap -> argsort_ok argsort -> rounds u fl -> rdf_ok rdf -> mol <> [] -> (10 <= N)%nat ->
    path_suffix infile = ".gsd"%string ->
    get_filename_vars infile = inl v -> ~ unreadable parse (v_temperature v) -> ~ unreadable parse (v_pressure v) ->
    (forall s, In (inl s) file -> gsd_snapshot N s) -> (forall e, In (inr e) file -> e = RuntimeError) ->
    G <> 0%Z -> (0 <= M)%Z -> read_until smax (map (molecules_of N) (snapshots file)) pre ->
    (exists f, In f pre /\ (G | e_ts f)%Z) ->
    (forall j f0 rest, seq j (f0 :: rest) -> analysable T N f0 rest) ->
    exists rows relax,
      analyse_gsd fuel steps infile true smax None G M file t0 r0 =
        Ok {| out_result := inl None; out_table := Some rows; out_relax := Some relax |} /\
      written_without T v N seq rows relax.
  Proof.
    intros seq W Ar Fl Ok Hm HN Sx EV U1 U2. apply linear_file; auto. apply runs_without; auto.
  Qed.

  (** A lammpstrj file, as in C130 *)
  Theorem C140_lammps pfloat sub f32 junk (T : eframe -> truth) N v infile smax ts pre f0 rest text t0 r0 :
    wrap_ok wrap -> argsort_ok argsort -> rounds u fl -> rdf_ok rdf -> mol <> [] -> (10 <= N)%nat ->
    path_suffix infile = ".lammpstrj"%string ->
    get_filename_vars infile = inl v -> ~ unreadable parse (v_temperature v) -> ~ unreadable parse (v_pressure v) ->
    ignores_line_end pfloat -> (forall x, f32 (f32 x) = f32 x) ->
    text = render_all ts \/ text = crlf (render_all ts) ->
    Forall (well_formed pfloat) ts -> Forall has_positions ts ->
    steps_until smax ts pre -> Forall2 (written_as pfloat sub f32) pre (f0 :: rest) ->
    analysable T N f0 rest ->
    exists rows relax,
      analyse_lammps pfloat sub f32 junk wrap gimbal argsort fl calculate parse show mol None scattering None infile true smax text t0 r0 =
        Ok {| out_result := inl None; out_table := Some rows; out_relax := Some relax |} /\
      written_without T v N (fun j fs => j = 0%nat /\ fs = f0 :: rest) rows relax.
  Proof.
    intros W Ar Fl Ok Hm HN Sx EV U1 U2 Ig Id Et Wf Hp Un Wr Fo.
    eapply lammps_file with (N := N); eauto; [apply runs_without; eauto|].
    intros f I. destruct Fo as ((b & _ & _ & Sh & _) & _). rewrite Forall_forall in Sh. apply (Sh f I).
  Qed.
End Auto.
Print Assumptions C140_gsd_exponential.
Print Assumptions C140_gsd_linear.
Print Assumptions C140_lammps.

(** The examples of C128 and C130 *)
Example C140_gsd_example : exists fuel0 steps0, forall fuel steps, (fuel0 <= fuel)%nat -> (steps0 <= steps)%nat ->
  exists rows relax s,
    analyse_gsd freud_wrap (fun _ => zero3) sort_index fl100 (calculate_wave_number histogram) ex_pf (fun _ => EmptyString)
      [mk3 0 1 0] None true None fuel steps e_name true None (Some 10%Z) 10 500 gfile None None =
      Ok {| out_result := inl None; out_table := Some rows; out_relax := Some relax |} /\
    Forall2 (row_without gT ex_pf gv 10 0 gf0) [gf0; gf1; gf2] (key_rows 0 rows) /\
    length (key_rows 1 rows) = 2%nat /\ length (key_rows 2 rows) = 1%nat /\ key_rows 3 rows = [] /\
    In (0%nat, s) relax /\ own_times histogram (1 / 100) gT 10 gf0 [gf0; gf1; gf2] s /\ ~ In 3%nat (map fst relax).
Proof.
  assert (P : forall j fs, picks (fun f => on_key 20 10 10 500 j (e_ts f)) (map (molecules_of 10) (snapshots gfile)) fs <->
     fs = match j with 0%nat => [gf0; gf1; gf2] | 1%nat => [gf1; gf2] | 2%nat => [gf2] | _ => [] end).
  { intros. rewrite g_frames. apply g_picks. }
  assert (On : forall j f, In f match j with 0%nat => [gf0; gf1; gf2] | 1%nat => [gf1; gf2] | 2%nat => [gf2] | _ => [] end -> on_key 20 10 10 500 j (e_ts f)).
  { intros j f I. assert (Pj := proj2 (P j _) eq_refl). apply (picks_In _ _ _ _ Pj) in I. apply I. }
  destruct (C140_gsd_exponential freud_wrap (fun _ => zero3) sort_index fl100 histogram ex_pf (fun _ => EmptyString)
    [mk3 0 1 0] true (1 / 100) gT 10 gv e_name None 20 10 10 500 gfile None None
    freud_wrap_ok sort_index_ok fl100_rounds histogram_ok ltac:(discriminate) ltac:(lia) eq_refl eq_refl) as ((fuel0 & steps0 & H) & _).
  - intros (x & [= <-] & U). vm_compute in U. discriminate.
  - intros (x & [= <-] & U). vm_compute in U. discriminate.
  - intros s I. repeat (destruct I as [I|I]; [try discriminate; injection I as <-; apply gs_valid|]). destruct I.
  - intros e I. repeat (destruct I as [I|I]; [try discriminate; injection I as <-; reflexivity|]). destruct I.
  - cbn. repeat constructor.
  - right. split; auto. exists [inl (gs 0 (9 / 2) (zquat 0)); inr RuntimeError; inl (gs 10 (- (7 / 2)) (qneg (zquat (5 / 2))))],
      (gs 20 (1 / 2) (zquat 0)), [inr RuntimeError]. split; [reflexivity|]. split; [reflexivity|]. split; [cbn; lia|].
    intros x [<-|[]]. reflexivity.
  - lia.
  - lia.
  - lia.
  - lia.
  - exists 10%Z, 0%Z. lia.
  - left. rewrite g_frames. intros f I. exists 0%nat. apply On. exact I.
  - exists 0%nat, gf0. rewrite g_frames. split; [cbn; auto|apply On; cbn; auto].
  - intros j f0 rest Pj. apply P in Pj. split; [apply g_followable; destruct j as [|[|[|j]]]; auto; discriminate|].
    rewrite Pj. destruct j as [|[|[|j]]]; repeat constructor; apply e_fits.
  - exists fuel0, steps0. intros fuel steps Lf Ls. destruct (H fuel steps Lf Ls) as (rows & relax & E & ND & W0 & W1).
    destruct (W1 0%nat gf0 [gf1; gf2]) as (A0 & s & I0 & R0); [apply P; reflexivity|].
    destruct (W1 1%nat gf1 [gf2]) as (A1 & _); [apply P; reflexivity|].
    destruct (W1 2%nat gf2 []) as (A2 & _); [apply P; reflexivity|].
    destruct (W0 3%nat) as (A3 & A4); [intros f0 rest Pj; apply P in Pj; discriminate|].
    exists rows, relax, s. split; [exact E|]. split; [exact A0|].
    apply Forall2_len in A1, A2. cbn in A1, A2. auto 10.
Qed.

Open Scope string_scope.
Lemma lf_fits s x : fits (lf s x).
Proof. destruct (e_fits 0 0 qone) as (b & P & H). exists b. split; [exact P|exact H]. Qed.
Example C140_lammps_example : exists rows relax,
  analyse_lammps lfloat Rminus (fun r => r) (fun _ => 77) freud_wrap (fun _ => zero3) sort_index fl100 (calculate_wave_number histogram) ex_pf (fun _ => EmptyString)
    [mk3 0 1 0] None true None "dump-Trimer-P13.50-T1.20.lammpstrj" true (Some 5000%Z) (crlf (render_all lts)) None None =
    Ok {| out_result := inl None; out_table := Some rows; out_relax := Some relax |} /\
  Forall2 (row_without lT ex_pf gv 10 0 (lf 0 4)) [lf 0 4; lf 1000 (-4); lf 2000 0] (key_rows 0 rows) /\
  key_rows 1 rows = [].
Proof.
  destruct up_ok as [U1 U2], rev_ok as [V1 V2].
  destruct (C140_lammps freud_wrap (fun _ => zero3) sort_index fl100 histogram ex_pf (fun _ => EmptyString)
    [mk3 0 1 0] true (1 / 100) lfloat Rminus (fun r => r) (fun _ => 77) lT 10 gv "dump-Trimer-P13.50-T1.20.lammpstrj" (Some 5000%Z) lts
    [lt 0 "4" up; lt 1000 "-4" (rev up); lt 2000 "0" up] (lf 0 4) [lf 1000 (-4); lf 2000 0] (crlf (render_all lts)) None None
    freud_wrap_ok sort_index_ok fl100_rounds histogram_ok ltac:(discriminate) ltac:(lia) eq_refl eq_refl) as (rows & relax & E & ND & W0 & W1).
  - intros (x & [= <-] & U). vm_compute in U. discriminate.
  - intros (x & [= <-] & U). vm_compute in U. discriminate.
  - apply lfloat_line_end.
  - reflexivity.
  - right. reflexivity.
  - repeat (constructor; [apply lt_ok; [apply word_dec; reflexivity|discriminate|auto|auto]|]). constructor.
  - repeat (constructor; [split; [cbn; auto|split; cbn; auto]|]). constructor.
  - exists [lt 9000 "1" up]. split; [reflexivity|]. split.
    + intros m t [= <-] [<-|[<-|[<-|[]]]]; cbn; lia.
    + right. do 3 eexists. split; [reflexivity|]. split; [reflexivity|]. cbn. lia.
  - repeat (constructor; [apply lt_as; auto|]). constructor.
  - split; [apply l_followable|]. repeat constructor; apply lf_fits.
  - exists rows, relax. split; [exact E|]. split; [apply (W1 0%nat); auto|]. apply (W0 1%nat). intros f0 rest [? _]. discriminate.
Qed.
