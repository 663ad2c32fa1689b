(** Properties C147 to C150: what the program makes of a command line and a file. *)
From Coq Require Import String Reals ZArith QArith Qreals List Bool Lia Lra Arith.
From Verif Require Import Base PyStr PyStrFacts XNum RVec RVecFacts FrameModel FrameSpec LammpsModel LammpsSpec LammpsProofs LammpsProps RunModel MotionModel MotionSpec MotionProofs DynModel DynSpec DynProps DynTrue
  MolRelaxModel ParamsModel WriteCacheModel ProcessModel ProcessSpec ProcessProps ProcessPathModel ProcessPathProps StepSizeModel StepSizeSpec GsdModel
  EndModel EndSpec EndProofs EndProps EndGsdModel EndGsdSpec EndGsdProofs EndGsdProps EndLammpsModel EndLammpsSpec EndLammpsProps
  MainModel MainSpec MainProofs MainProps CommandModel CommandSpec CommandProofs.
Import ListNotations.
Open Scope R_scope.
Notation length := List.length.

Section Command.
  Variables (to_float : string -> option xnum) (printable : string -> bool).
  Variables (pfloat : string -> option R) (sub : R -> R -> R) (f32 : R -> R) (junk : nat -> R).
  Variables (wrap : MotionModel.fbox -> v3 -> v3) (gimbal : RVec.quat -> v3) (argsort : list R -> list nat)
            (fl : R -> xnum) (calculate : MotionModel.fbox -> list v3 -> R + exn) (parse : string -> option xnum)
            (show : yaml -> string) (mol : list v3).
  Variables (gsd_of : string -> list (snapshot R + exn)) (text_of : string -> string).
  Notation command := (command to_float printable pfloat sub f32 junk wrap gimbal argsort fl calculate parse show mol gsd_of text_of).
  Notation finished rows relax := (Done {| out_result := inl None; out_table := Some rows; out_relax := Some relax |}).
  Variable u : R.
  Hypotheses (W : wrap_ok wrap) (Ar : argsort_ok argsort) (Fl : rounds u fl) (Hm : mol <> []).

  (** * C147 *)
  (** With the linear steps of the command line or the 100 that are the default, the tables have
      a key frame every [G] steps, each with the frames at its exponential sequence of steps;
      what the rows and the times say is what [written] says (C128). *)
  Theorem C147_exponential (T : eframe -> truth) N v line c smax total n G M q t0 r0 :
    let file := gsd_of (c_infile c) in
    let frames := map (molecules_of N) (snapshots file) in
    let seq := fun j fs => picks (fun f => on_key total n G M j (e_ts f)) frames fs in
    asks to_float line c smax (Some n) G M q -> (0 < q)%Q ->
    path_suffix (c_infile c) = ".gsd"%string -> (10 <= N)%nat ->
    get_filename_vars (c_infile c) = inl v -> ~ unreadable parse (v_temperature v) -> ~ unreadable parse (v_pressure v) ->
    (forall s, In (inl s) file -> gsd_snapshot N s) -> (forall e, In (inr e) file -> e = RuntimeError) ->
    increasing (map s_step (snapshots file)) ->
    number_of_steps smax file total -> (0 <= total)%Z -> (1 <= n)%Z -> (0 < G)%Z -> (1 <= M)%Z -> StepSizeSpec.grid 0 n 1 10 G ->
    steps_agree total n G M frames ->
    (exists j f, In f frames /\ on_key total n G M j (e_ts f)) ->
    (forall j f0 rest, seq j (f0 :: rest) -> followable T N f0 rest) ->
    exists fuel0 steps0, forall fuel steps, (fuel0 <= fuel)%nat -> (steps0 <= steps)%nat ->
      exists rows relax, command fuel steps line c t0 r0 = finished rows relax /\
        written parse (Q2R q) (c_scattering c) u T v N seq rows relax.
  Proof.
    intros file frames seq A Hq Sx HN EV U1 U2 V1 V2 Inc Ns Ht Hn HG HM Gr Ag Ex Fo.
    assert (Hk : 0 < Q2R q) by (apply Qlt_Rlt in Hq; replace (Q2R 0) with 0 in Hq by (unfold Q2R; cbn; lra); auto).
    destruct (C128_gsd_exponential wrap gimbal argsort fl calculate parse show mol (Q2R q) (c_scattering c) u T N v (c_infile c) smax total n G M file t0 r0)
      as ((fuel0 & steps0 & H) & _); auto.
    exists fuel0, steps0. intros fuel steps L1 L2. destruct (H fuel steps L1 L2) as (rows & relax & E & Wr).
    exists rows, relax. split; auto. erewrite command_gsd by eauto. fold file. rewrite E. reflexivity.
  Qed.
  (** With --linear-dynamics every frame up to --num-steps is used, and key frame [j] starts at
      the [j]th frame whose step is a multiple of [G] (C129). *)
  Theorem C147_linear (T : eframe -> truth) N v line c smax G M q pre t0 r0 fuel steps :
    let file := gsd_of (c_infile c) in
    let seq := fun j fs => (Z.of_nat j <= M)%Z /\ from_multiple G j pre fs in
    asks to_float line c smax None G M q -> (0 < q)%Q ->
    path_suffix (c_infile c) = ".gsd"%string -> (10 <= N)%nat ->
    get_filename_vars (c_infile c) = inl v -> ~ unreadable parse (v_temperature v) -> ~ unreadable parse (v_pressure v) ->
    (forall s, In (inl s) file -> gsd_snapshot N s) -> (forall e, In (inr e) file -> e = RuntimeError) ->
    G <> 0%Z -> (0 <= M)%Z -> read_until smax (map (molecules_of N) (snapshots file)) pre ->
    (exists f, In f pre /\ (G | e_ts f)%Z) ->
    (forall j f0 rest, seq j (f0 :: rest) -> followable T N f0 rest) ->
    exists rows relax, command fuel steps line c t0 r0 = finished rows relax /\
      written parse (Q2R q) (c_scattering c) u T v N seq rows relax.
  Proof.
    intros file seq A Hq Sx HN EV U1 U2 V1 V2 HG HM Ru Ex Fo.
    assert (Hk : 0 < Q2R q) by (apply Qlt_Rlt in Hq; replace (Q2R 0) with 0 in Hq by (unfold Q2R; cbn; lra); auto).
    destruct (C129_gsd_linear wrap gimbal argsort fl calculate parse show mol (Q2R q) (c_scattering c) u T N v (c_infile c) fuel steps smax G M file pre t0 r0)
      as (rows & relax & E & Wr); auto.
    exists rows, relax. split; auto. erewrite command_gsd by eauto. fold file. rewrite E. reflexivity.
  Qed.
  (** A lammpstrj file gives one key frame (C130). *)
  Theorem C147_lammps (T : eframe -> truth) N v line c smax lin G M q ts pre f0 rest t0 r0 fuel steps :
    let text := text_of (c_infile c) in
    asks to_float line c smax lin G M q -> (0 < q)%Q ->
    path_suffix (c_infile c) = ".lammpstrj"%string -> (10 <= N)%nat ->
    get_filename_vars (c_infile c) = inl v -> ~ unreadable parse (v_temperature v) -> ~ unreadable parse (v_pressure v) ->
    ignores_line_end pfloat -> (forall x, f32 (f32 x) = f32 x) ->
    text = render_all ts \/ text = crlf (render_all ts) ->
    Forall (well_formed pfloat) ts -> Forall has_positions ts ->
    steps_until smax ts pre -> Forall2 (written_as pfloat sub f32) pre (f0 :: rest) ->
    followable T N f0 rest ->
    exists rows relax, command fuel steps line c t0 r0 = finished rows relax /\
      written parse (Q2R q) (c_scattering c) u T v N (fun j fs => j = 0%nat /\ fs = f0 :: rest) rows relax.
  Proof.
    intros text A Hq Sx HN EV U1 U2 Ig Id Et Wf Hp Un Wr Fo.
    assert (Hk : 0 < Q2R q) by (apply Qlt_Rlt in Hq; replace (Q2R 0) with 0 in Hq by (unfold Q2R; cbn; lra); auto).
    destruct (C130_lammps pfloat sub f32 junk wrap gimbal argsort fl calculate parse show mol (Q2R q) (c_scattering c) u T N v (c_infile c) smax ts pre f0 rest text t0 r0)
      as (rows & relax & E & Wt); auto.
    exists rows, relax. split; auto. erewrite command_lammps by eauto. fold text. rewrite E. reflexivity.
  Qed.

  (** * C148 *)
  (** A wave number that is not positive is accepted, but then every analysis of every file
      fails, and nothing is written. *)
  Theorem C148_nonpositive_partial line c smax lin G M q t0 r0 fuel steps :
    asks to_float line c smax lin G M q -> (q <= 0)%Q ->
    (exists e, command fuel steps line c t0 r0 = Failed e) \/ command fuel steps line c t0 r0 = Unfinished \/
    exists e, command fuel steps line c t0 r0 = Done {| out_result := inr e; out_table := t0; out_relax := r0 |}.
  Proof.
    intros A Hq.
    assert (Hk : Q2R q <= 0) by (apply Qle_Rle in Hq; replace (Q2R 0) with 0 in Hq by (unfold Q2R; cbn; lra); auto).
    assert (B : forall gsd lammps, exists e, process_path (fun f => length (e_pos f)) (make fl calculate parse show mol (Some (Q2R q)))
        None (compute wrap gimbal argsort (c_scattering c)) (radd wrap gimbal fl) (fun x => summary (r_relax x)) parse (c_infile c) true gsd lammps t0 r0 =
        {| out_result := inr e; out_table := t0; out_relax := r0 |}).
    { intros gsd lammps. unfold process_path. destruct (get_filename_vars (c_infile c)); apply process_bad; eapply make_bad; eauto. }
    destruct (string_dec (path_suffix (c_infile c)) ".gsd") as [S|S]; [|destruct (string_dec (path_suffix (c_infile c)) ".lammpstrj") as [S'|S']].
    - erewrite command_gsd by eauto. unfold analyse_gsd. destruct (gsd_reader _ _ _ _ _ _ _) as [g|e|]; cbn; eauto.
      right. right. unfold analyse, custom. destruct (B g ([], None)) as (e & ->). eauto.
    - erewrite command_lammps by eauto. unfold analyse_lammps. destruct (lammps_reader _ _ _ _ _ _) as [g|e|]; cbn; eauto.
      right. right. unfold analyse, custom. destruct (B ([], None) g) as (e & ->). eauto.
    - right. right. unfold CommandModel.command. rewrite (asks_main _ _ _ _ _ _ _ _ A).
      cbn [a_wave_number a_steps_max a_linear_steps a_keyframe_interval a_keyframe_max a_infile a_mol_relaxations a_scattering_function wave_arg int_arg custom_of].
      replace (int_or_none (some_int smax)) with (Some smax) by (destruct smax; reflexivity).
      replace (int_or_none (some_int lin)) with (Some lin) by (destruct lin; reflexivity).
      apply String.eqb_neq in S, S'. rewrite S, S'. destruct (B ([], None) ([], None)) as (e & ->). eauto.
  Qed.

  (** * C149 *)
  (** The options about key frames do nothing for a lammpstrj file. *)
  Theorem C149_lammps_partial line line' c c' smax lin lin' G G' M M' q t0 r0 fuel steps fuel' steps' :
    asks to_float line c smax lin G M q -> asks to_float line' c' smax lin' G' M' q ->
    c_infile c = c_infile c' -> c_scattering c = c_scattering c' -> path_suffix (c_infile c) = ".lammpstrj"%string ->
    command fuel steps line c t0 r0 = command fuel' steps' line' c' t0 r0.
  Proof.
    intros A A' I S P. erewrite command_lammps by eauto. rewrite I, S in *. erewrite command_lammps by eauto. reflexivity.
  Qed.

  (** * C150 *)
  (** A file with another suffix ends the program with an UnboundLocalError. *)
  Theorem C150_suffix_partial line c smax lin G M q t0 r0 fuel steps v :
    asks to_float line c smax lin G M q -> get_filename_vars (c_infile c) = inl v ->
    path_suffix (c_infile c) <> ".gsd"%string -> path_suffix (c_infile c) <> ".lammpstrj"%string ->
    command fuel steps line c t0 r0 = Done {| out_result := inr UnboundLocalError; out_table := t0; out_relax := r0 |}.
  Proof. intros. eapply command_other; eauto. Qed.
End Command.
Print Assumptions C147_exponential.
Print Assumptions C147_linear.
Print Assumptions C147_lammps.
Print Assumptions C148_nonpositive_partial.
Print Assumptions C149_lammps_partial.
Print Assumptions C150_suffix_partial.

(** ** Examples: the trajectories of the examples of C128 and C130 *)
Definition x_float (s : string) : option xnum :=
  if String.eqb s "2" then Some (Fin 2) else if String.eqb s "0" then Some (Fin 0) else if String.eqb s "-1.5" then Some (Fin (-3 # 2)) else None.
Definition x_lammps : string := "dump-Trimer-P13.50-T1.20.lammpstrj".
Definition x_gsd (f : string) : list (snapshot R + exn) := if String.eqb f e_name then gfile else [].
Definition x_text (f : string) : string := if String.eqb f x_lammps then crlf (render_all lts) else EmptyString.
Definition x_command : nat -> nat -> list (string * string) -> comp_line -> table (nat * labelled (dict string dval)) -> option (list (nat * dict string (list Z))) -> ran :=
  command x_float (fun _ => true) lfloat Rminus (fun r => r) (fun _ => 77) freud_wrap (fun _ => zero3) sort_index fl100
    (fun _ _ => inr ValueError) ex_pf (fun _ => EmptyString) [mk3 0 1 0] x_gsd x_text.
Definition x_line (linear : bool) (infile : string) : comp_line :=
  {| c_mol_relaxations := None; c_linear_dynamics := linear; c_scattering := true; c_infile := infile; c_outfile := "out.h5" |}.
Lemma x_readable : ~ unreadable ex_pf (v_temperature gv) /\ ~ unreadable ex_pf (v_pressure gv).
Proof. split; intros (x & [= <-] & U); vm_compute in U; discriminate. Qed.
Lemma x_valid : (forall s, In (inl s) gfile -> gsd_snapshot 10 s) /\ (forall e, In (inr e) gfile -> e = RuntimeError).
Proof.
  split.
  - intros s I. repeat (destruct I as [I|I]; [try discriminate; injection I as <-; apply gs_valid|]). destruct I.
  - intros e I. repeat (destruct I as [I|I]; [try discriminate; injection I as <-; reflexivity|]). destruct I.
Qed.

(** Without any option: a key frame every million steps, of which there is one, with the
    frames at 0, 1, 2 ..., 100, 110, ... *)
Lemma x_picks j fs : picks (fun f => on_key 20 100 1000000 500 j (e_ts f)) [gf0; gf1; gf2] fs <->
  fs = match j with 0%nat => [gf0; gf1; gf2] | _ => [] end.
Proof.
  assert (E : picks (fun f => on_key 20 100 1000000 500 j (e_ts f)) [gf0; gf1; gf2] match j with 0%nat => [gf0; gf1; gf2] | _ => [] end).
  { destruct j as [|j].
    - assert (Y : forall s, (0 <= s < 20)%Z -> on_key 20 100 1000000 500 0 s).
      { intros s L. split; [lia|]. split; [lia|]. right. split; [lia|]. exists s, 0%Z. lia. }
      apply picks_yes; [apply Y; cbn; lia|]. apply picks_yes; [apply Y; cbn; lia|]. apply picks_yes; [|constructor].
      split; [lia|]. split; [lia|]. left. reflexivity.
    - apply picks_none. intros x _ (_ & B & _). lia. }
  split; [intros H; eapply picks_fun; eauto|intros ->; exact E].
Qed.
Example C147_example : exists fuel0 steps0, forall fuel steps, (fuel0 <= fuel)%nat -> (steps0 <= steps)%nat ->
  exists rows relax,
    x_command fuel steps [] (x_line false e_name) None None =
      Done {| out_result := inl None; out_table := Some rows; out_relax := Some relax |} /\
    Forall2 (row_for gT ex_pf gv (Q2R (3 # 10)) 10 true 0 gf0) [gf0; gf1; gf2] (key_rows 0 rows) /\
    key_rows 1 rows = [] /\ ~ In 1%nat (map fst relax).
Proof.
  destruct x_readable as [U1 U2], x_valid as [V1 V2].
  assert (A : asks x_float [] (x_line false e_name) None (Some 100%Z) 1000000 500 (3 # 10)) by (apply main_asks; reflexivity).
  assert (P : forall j fs, picks (fun f => on_key 20 100 1000000 500 j (e_ts f)) (map (molecules_of 10) (snapshots gfile)) fs <->
     fs = match j with 0%nat => [gf0; gf1; gf2] | _ => [] end).
  { intros. rewrite g_frames. apply x_picks. }
  assert (On : forall f, In f [gf0; gf1; gf2] -> on_key 20 100 1000000 500 0 (e_ts f)).
  { intros f I. assert (Pj := proj2 (P 0%nat _) eq_refl). apply (picks_In _ _ _ _ Pj) in I. apply I. }
  destruct (C147_exponential x_float (fun _ => true) lfloat Rminus (fun r => r) (fun _ => 77) freud_wrap (fun _ => zero3) sort_index fl100
    (fun _ _ => inr ValueError) ex_pf (fun _ => EmptyString) [mk3 0 1 0] x_gsd x_text (1 / 100) freud_wrap_ok sort_index_ok fl100_rounds ltac:(discriminate)
    gT 10 gv [] (x_line false e_name) None 20 100 1000000 500 (3 # 10) None None A eq_refl eq_refl ltac:(lia) eq_refl U1 U2 V1 V2)
    as (fuel0 & steps0 & H).
  - cbn. repeat constructor.
  - right. split; auto. exists [inl (gs 0 (9 / 2) (zquat 0)); inr RuntimeError; inl (gs 10 (- (7 / 2)) (qneg (zquat (5 / 2))))],
      (gs 20 (1 / 2) (zquat 0)), [inr RuntimeError]. split; [reflexivity|]. split; [reflexivity|]. split; [cbn; lia|].
    intros x [<-|[]]. reflexivity.
  - lia.
  - lia.
  - lia.
  - lia.
  - exists 100%Z, 4%Z. lia.
  - left. change (x_gsd (c_infile (x_line false e_name))) with gfile. rewrite g_frames. intros f I. exists 0%nat. apply On. exact I.
  - change (x_gsd (c_infile (x_line false e_name))) with gfile. exists 0%nat, gf0. rewrite g_frames. split; [cbn; auto|apply On; cbn; auto].
  - intros j f0 rest Pj. apply P in Pj. apply g_followable. destruct j as [|j]; auto. discriminate.
  - exists fuel0, steps0. intros fuel steps Lf Ls. destruct (H fuel steps Lf Ls) as (rows & relax & E & ND & W0 & W1).
    destruct (W1 0%nat gf0 [gf1; gf2]) as (A0 & _); [apply P; reflexivity|].
    destruct (W0 1%nat) as (A1 & A2); [intros f0 rest Pj; apply P in Pj; discriminate|].
    exists rows, relax. split; [exact E|]. auto.
Qed.

(** With three names of options, and up to step 15 *)
Definition x_options (wave : string) : list (string * string) := [("--num-steps", "15"); ("--gen-steps", "10"); ("--wave-number", wave)]%string.
Example C147_example_linear : forall fuel steps, exists rows relax,
    x_command fuel steps (x_options "2") (x_line true e_name) None None =
      Done {| out_result := inl None; out_table := Some rows; out_relax := Some relax |} /\
    Forall2 (row_for gT ex_pf gv (Q2R 2) 10 true 0 gf0) [gf0; gf1] (key_rows 0 rows) /\
    length (key_rows 1 rows) = 1%nat.
Proof.
  intros fuel steps. destruct x_readable as [U1 U2], x_valid as [V1 V2].
  assert (A : asks x_float (x_options "2") (x_line true e_name) (Some 15%Z) None 10 500 2) by (apply main_asks; reflexivity).
  assert (Mu : forall j a f b m fs, [gf0; gf1] = (a ++ f :: b)%list -> fs = f :: b -> picks (fun g => (10 | e_ts g)%Z) a m -> length m = j ->
     (j = 0%nat /\ fs = [gf0; gf1]) \/ (j = 1%nat /\ fs = [gf1])).
  { intros j a f b m fs E -> Pm <-. destruct a as [|x [|y [|z a]]]; cbn in E.
    - injection E as <- <-. inversion Pm; subst. auto.
    - injection E as <- <- <-. right. inversion Pm as [|? ? ? D Pm'|? ? ? D Pm']; subst; inversion Pm'; subst; auto.
      exfalso. apply D. exists 0%Z. reflexivity.
    - discriminate.
    - destruct a; discriminate. }
  assert (K0 : from_multiple 10 0 [gf0; gf1] [gf0; gf1]).
  { exists [], gf0, [gf1], []. split; auto. split; auto. split; [exists 0%Z; reflexivity|]. split; [constructor|reflexivity]. }
  assert (K1 : from_multiple 10 1 [gf0; gf1] [gf1]).
  { exists [gf0], gf1, [], [gf0]. split; auto. split; auto. split; [exists 1%Z; reflexivity|]. split; [|reflexivity].
    apply picks_yes; [exists 0%Z; reflexivity|constructor]. }
  destruct (C147_linear x_float (fun _ => true) lfloat Rminus (fun r => r) (fun _ => 77) freud_wrap (fun _ => zero3) sort_index fl100
    (fun _ _ => inr ValueError) ex_pf (fun _ => EmptyString) [mk3 0 1 0] x_gsd x_text (1 / 100) freud_wrap_ok sort_index_ok fl100_rounds ltac:(discriminate)
    gT 10 gv (x_options "2") (x_line true e_name) (Some 15%Z) 10 500 2 [gf0; gf1] None None fuel steps A eq_refl eq_refl ltac:(lia) eq_refl U1 U2 V1 V2)
    as (rows & relax & E & ND & W0 & W1).
  - lia.
  - lia.
  - change (x_gsd (c_infile (x_line true e_name))) with gfile. exists [gf2]. rewrite g_frames. split; auto. split.
    + intros m f [= <-] [<-|[<-|[]]]; cbn; lia.
    + right. exists 15%Z, gf2, []. split; auto. split; auto. cbn. lia.
  - exists gf0. split; [cbn; auto|exists 0%Z; reflexivity].
  - intros j f0 rest (_ & a & f & b & m & E1 & E2 & _ & E3 & E4). destruct g_shown as (S0 & S1 & S2), g_slow as (L0 & L1).
    destruct (Mu j a f b m _ E1 E2 E3 E4) as [[_ [= -> ->]]|[_ [= -> ->]]]; exists ebox;
      (split; [apply ef_plane|split; [apply ebox_ok|split; [auto 6 using Forall_cons, Forall_nil|split; [cbn [map chain]; auto|]]]]).
    + intros g [<-|[]]; eexists; apply ef_plane.
    + intros g [].
  - exists rows, relax. destruct (W1 0%nat gf0 [gf1]) as (A0 & _); [split; [lia|exact K0]|].
    destruct (W1 1%nat gf1 []) as (A1 & _); [split; [lia|exact K1]|].
    apply Forall2_len in A1. cbn in A1. split; [exact E|]. auto.
Qed.

(** A lammpstrj file, with key frames asked for every 1000 steps *)
Definition x_keys : list (string * string) := [("-s", "5000"); ("--keyframe-interval", "1000"); ("--wave-number", "2")]%string.
Lemma x_keys_asks : asks x_float x_keys (x_line false x_lammps) (Some 5000%Z) (Some 100%Z) 1000 500 2.
Proof. apply main_asks; reflexivity. Qed.
Example C147_example_lammps : forall fuel steps, exists rows relax,
    x_command fuel steps x_keys (x_line false x_lammps) None None =
      Done {| out_result := inl None; out_table := Some rows; out_relax := Some relax |} /\
    Forall2 (row_for lT ex_pf gv (Q2R 2) 10 true 0 (lf 0 4)) [lf 0 4; lf 1000 (-4); lf 2000 0] (key_rows 0 rows) /\
    key_rows 1 rows = [] /\ ~ In 1%nat (map fst relax).
Proof.
  intros fuel steps. destruct x_readable as [R1 R2], up_ok as [U1 U2], rev_ok as [V1 V2].
  destruct (C147_lammps x_float (fun _ => true) lfloat Rminus (fun r => r) (fun _ => 77) freud_wrap (fun _ => zero3) sort_index fl100
    (fun _ _ => inr ValueError) ex_pf (fun _ => EmptyString) [mk3 0 1 0] x_gsd x_text (1 / 100) freud_wrap_ok sort_index_ok fl100_rounds ltac:(discriminate)
    lT 10 gv x_keys (x_line false x_lammps) (Some 5000%Z) (Some 100%Z) 1000 500 2 lts
    [lt 0 "4" up; lt 1000 "-4" (rev up); lt 2000 "0" up] (lf 0 4) [lf 1000 (-4); lf 2000 0] None None fuel steps
    x_keys_asks eq_refl eq_refl ltac:(lia) eq_refl R1 R2) as (rows & relax & E & ND & W0 & W1).
  - apply lfloat_line_end.
  - reflexivity.
  - right. reflexivity.
  - repeat (constructor; [apply lt_ok; [apply word_dec; reflexivity|discriminate|auto|auto]|]). constructor.
  - repeat (constructor; [split; [cbn; auto|split; cbn; auto]|]). constructor.
  - exists [lt 9000 "1" up]. split; [reflexivity|]. split.
    + intros m t [= <-] [<-|[<-|[<-|[]]]]; cbn; lia.
    + right. do 3 eexists. split; [reflexivity|]. split; [reflexivity|]. cbn. lia.
  - repeat (constructor; [apply lt_as; auto|]). constructor.
  - apply l_followable.
  - destruct (W0 1%nat) as (A1 & A2); [intros f0 rest [? _]; discriminate|].
    exists rows, relax. split; [exact E|]. split; [apply (W1 0%nat); auto|]. auto.
Qed.

(** ** The claims that are false *)
(** C148: a wave number of zero is accepted, but not analysed. *)
Theorem C148_wave_refuted : exists line line' c smax lin G M q' e, forall fuel steps,
  asks x_float line c smax lin G M 2 /\ asks x_float line' c smax lin G M q' /\
  (exists rows relax, x_command fuel steps line c None None = Done {| out_result := inl None; out_table := Some rows; out_relax := Some relax |}) /\
  x_command fuel steps line' c None None = Done {| out_result := inr e; out_table := None; out_relax := None |}.
Proof.
  exists (x_options "2"), (x_options "0"), (x_line true e_name), (Some 15%Z), None, 10%Z, 500%Z, 0%Q.
  assert (A : asks x_float (x_options "2") (x_line true e_name) (Some 15%Z) None 10 500 2) by (apply main_asks; reflexivity).
  assert (A' : asks x_float (x_options "0") (x_line true e_name) (Some 15%Z) None 10 500 0) by (apply main_asks; reflexivity).
  assert (Rd : forall fuel steps, exists g, gsd_reader fuel steps (Some 15%Z) None 10 500 gfile = Ok g).
  { intros fuel steps. destruct (C147_example_linear fuel steps) as (rows & relax & E & _). unfold x_command in E.
    erewrite command_gsd in E by eauto. unfold analyse_gsd in E. change (x_gsd (c_infile (x_line true e_name))) with gfile in E.
    destruct (gsd_reader _ _ _ _ _ _ _) as [g|x|]; [eauto|discriminate|discriminate]. }
  assert (Sm : forall fuel steps, gsd_reader fuel steps (Some 15%Z) None 10 500 gfile = gsd_reader 0 0 (Some 15%Z) None 10 500 gfile) by reflexivity.
  destruct (Rd 0%nat 0%nat) as (g & Eg).
  assert (Bad : exists e, analyse freud_wrap (fun _ => zero3) sort_index fl100 (fun _ _ => inr ValueError) ex_pf (fun _ => EmptyString) [mk3 0 1 0] (Some (Q2R 0))
      true None e_name true g ([], None) None None = {| out_result := inr e; out_table := None; out_relax := None |}).
  { unfold analyse, process_path, custom. destruct (get_filename_vars e_name); apply process_bad; eapply make_bad;
      solve [apply fl100_rounds|unfold Q2R; cbn; lra]. }
  destruct Bad as (e & Ee). exists e. intros fuel steps. split; auto. split; auto. split.
  - destruct (C147_example_linear fuel steps) as (rows & relax & E & _). eauto.
  - unfold x_command. erewrite command_gsd by eauto. unfold analyse_gsd. change (x_gsd (c_infile (x_line true e_name))) with gfile.
    rewrite Sm, Eg. cbn [as_ran]. change (c_infile (x_line true e_name)) with e_name. change (c_scattering (x_line true e_name)) with true. rewrite Ee. reflexivity.
Qed.

(** C149: key frames every 1000 steps are asked for and there is a frame at step 1000, but it
    starts no key frame. *)
Theorem C149_keyframes_refuted : exists line c smax n M, forall fuel steps, exists rows relax,
  asks x_float line c smax (Some n) 1000 M 2 /\
  x_command fuel steps line c None None = Done {| out_result := inl None; out_table := Some rows; out_relax := Some relax |} /\
  (exists t, In t lts /\ t_step t = 1000%Z) /\ (1 < M)%Z /\
  forall j, j <> 0%nat -> key_rows j rows = [] /\ ~ In j (map fst relax).
Proof.
  exists x_keys, (x_line false x_lammps), (Some 5000%Z), 100%Z, 500%Z. intros fuel steps.
  destruct x_readable as [R1 R2], up_ok as [U1 U2], rev_ok as [V1 V2].
  destruct (C147_lammps x_float (fun _ => true) lfloat Rminus (fun r => r) (fun _ => 77) freud_wrap (fun _ => zero3) sort_index fl100
    (fun _ _ => inr ValueError) ex_pf (fun _ => EmptyString) [mk3 0 1 0] x_gsd x_text (1 / 100) freud_wrap_ok sort_index_ok fl100_rounds ltac:(discriminate)
    lT 10 gv x_keys (x_line false x_lammps) (Some 5000%Z) (Some 100%Z) 1000 500 2 lts
    [lt 0 "4" up; lt 1000 "-4" (rev up); lt 2000 "0" up] (lf 0 4) [lf 1000 (-4); lf 2000 0] None None fuel steps
    x_keys_asks eq_refl eq_refl ltac:(lia) eq_refl R1 R2) as (rows & relax & E & ND & W0 & W1).
  - apply lfloat_line_end.
  - reflexivity.
  - right. reflexivity.
  - repeat (constructor; [apply lt_ok; [apply word_dec; reflexivity|discriminate|auto|auto]|]). constructor.
  - repeat (constructor; [split; [cbn; auto|split; cbn; auto]|]). constructor.
  - exists [lt 9000 "1" up]. split; [reflexivity|]. split.
    + intros m t [= <-] [<-|[<-|[<-|[]]]]; cbn; lia.
    + right. do 3 eexists. split; [reflexivity|]. split; [reflexivity|]. cbn. lia.
  - repeat (constructor; [apply lt_as; auto|]). constructor.
  - apply l_followable.
  - exists rows, relax. split; [apply x_keys_asks|]. split; [exact E|]. split; [|split; [lia|]].
    + exists (lt 1000 "-4" (rev up)). split; [cbn; auto|reflexivity].
    + intros j Nj. apply W0. intros f0 rest [-> _]. auto.
Qed.

(** C150: the name of a file that cannot be read is no misuse, and the error says nothing about it. *)
Theorem C150_suffix_refuted : exists line c, forall fuel steps,
  ~ misuse x_float line /\ path_suffix (c_infile c) = ".GSD"%string /\
  x_command fuel steps line c None None = Done {| out_result := inr UnboundLocalError; out_table := None; out_relax := None |}.
Proof.
  exists [], (x_line false "dump-Trimer-P13.50-T1.20.GSD"). intros fuel steps.
  assert (A : asks x_float [] (x_line false "dump-Trimer-P13.50-T1.20.GSD") None (Some 100%Z) 1000000 500 (3 # 10)) by (apply main_asks; reflexivity).
  split; [apply A|]. split; [reflexivity|]. unfold x_command.
  eapply C150_suffix_partial; [exact A|reflexivity| |]; vm_compute; discriminate.
Qed.
Print Assumptions C148_wave_refuted.
Print Assumptions C149_keyframes_refuted.
Print Assumptions C150_suffix_refuted.

(** C148: a negative wave number *)
Example C148_ex : forall fuel steps, exists e, x_command fuel steps [("--wave-number", "-1.5")]%string (x_line false "a.txt") None None =
  Done {| out_result := inr e; out_table := None; out_relax := None |}.
Proof.
  intros fuel steps.
  assert (A : asks x_float [("--wave-number", "-1.5")]%string (x_line false "a.txt") None (Some 100%Z) 1000000 500 (-3 # 2)) by (apply main_asks; reflexivity).
  destruct (C148_nonpositive_partial x_float (fun _ => true) lfloat Rminus (fun r => r) (fun _ => 77) freud_wrap (fun _ => zero3) sort_index fl100
    (fun _ _ => inr ValueError) ex_pf (fun _ => EmptyString) [mk3 0 1 0] x_gsd x_text (1 / 100) fl100_rounds _ _ _ _ _ _ _ None None fuel steps A ltac:(discriminate))
    as [(e & E)|[E|E]]; auto; exfalso; vm_compute in E; discriminate.
Qed.
