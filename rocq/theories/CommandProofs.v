(** Proofs about the whole program. *)
From Coq Require Import String Reals ZArith QArith Qreals List Bool Lia Lra.
From Verif Require Import Base XNum RVec FrameModel RunModel LammpsModel MotionModel DynModel MolRelaxModel
  WriteCacheModel ProcessModel ProcessPathModel GsdModel StepSizeModel EndModel EndSpec EndGsdModel EndLammpsModel
  ParamsModel MainModel MainSpec MainProofs MainProps CommandModel CommandSpec.
Import ListNotations.
Open Scope R_scope.
Notation length := List.length.

Lemma int_option_fun names d line v w : int_option names d line v -> int_option names d line w -> v = w.
Proof.
  intros [(t & z & A & B & ->)|(N & ->)] [(t' & z' & A' & B' & ->)|(N' & ->)]; auto.
  - rewrite (last_given_unique _ _ _ _ A' A) in B'. congruence.
  - destruct (never_not_given _ _ _ N' A).
  - destruct (never_not_given _ _ _ N A').
Qed.
Lemma float_option_fun tf names d line v w : float_option tf names d line v -> float_option tf names d line w -> v = w.
Proof.
  intros [(t & z & A & B & ->)|(N & ->)] [(t' & z' & A' & B' & ->)|(N' & ->)]; auto.
  - rewrite (last_given_unique _ _ _ _ A' A) in B'. congruence.
  - destruct (never_not_given _ _ _ N' A).
  - destruct (never_not_given _ _ _ N A').
Qed.

Lemma asks_main tf line c smax lin G M q : asks tf line c smax lin G M q ->
  main tf line c = Some (inl {| a_infile := c_infile c; a_wave_number := VFloat (Fin q); a_steps_max := some_int smax;
    a_linear_steps := some_int lin; a_keyframe_interval := VInt G; a_keyframe_max := VInt M;
    a_mol_relaxations := RNone; a_outfile := c_outfile c; a_scattering_function := c_scattering c |}).
Proof.
  intros (NM & Nv & Mr & Is & Ii & Im & Fw & Li).
  destruct (main_cases tf line c) as [[X _]|[(_ & (f & v & I1 & I2) & _)|(_ & _ & a & E & Ga)]].
  - destruct (NM X).
  - destruct (Nv f v I1 I2).
  - rewrite E. destruct Ga as (A1 & A2 & A3 & A4 & A5 & A6 & A7 & A8 & A9). rewrite Mr in A9.
    apply (int_option_fun _ _ _ _ _ Is) in A4. apply (int_option_fun _ _ _ _ _ Ii) in A5.
    apply (int_option_fun _ _ _ _ _ Im) in A6. apply (float_option_fun _ _ _ _ _ _ Fw) in A7.
    assert (A8' : a_linear_steps a = some_int lin).
    { destruct Li as [[L ->]|(L & n & -> & In)]; rewrite L in A8; auto. symmetry. eapply int_option_fun; eauto. }
    destruct a. cbn in *. subst. reflexivity.
Qed.

Section Command.
  Variables (to_float : string -> option xnum) (printable : string -> bool).
  Variables (pfloat : string -> option R) (sub : R -> R -> R) (f32 : R -> R) (junk : nat -> R).
  Variables (wrap : MotionModel.fbox -> v3 -> v3) (gimbal : RVec.quat -> v3) (argsort : list R -> list nat)
            (fl : R -> xnum) (calculate : MotionModel.fbox -> list v3 -> R + exn) (parse : string -> option xnum)
            (show : yaml -> string) (mol : list v3).
  Variables (gsd_of : string -> list (snapshot R + exn)) (text_of : string -> string).
  Notation command := (command to_float printable pfloat sub f32 junk wrap gimbal argsort fl calculate parse show mol gsd_of text_of).

  Definition as_ran (r : result (outcome (labelled (dict string dval)) (dict string (list Z)))) : ran :=
    match r with Ok o => Done o | Raise e => Failed e | OutOfFuel => Unfinished end.

  Lemma command_gsd fuel steps line c smax lin G M q t0 r0 : asks to_float line c smax lin G M q ->
    path_suffix (c_infile c) = ".gsd"%string ->
    command fuel steps line c t0 r0 =
      as_ran (analyse_gsd wrap gimbal argsort fl calculate parse show mol (Some (Q2R q)) (c_scattering c) None
                fuel steps (c_infile c) true smax lin G M (gsd_of (c_infile c)) t0 r0).
  Proof.
    intros A S. unfold CommandModel.command. rewrite (asks_main _ _ _ _ _ _ _ _ A).
    cbn [a_wave_number a_steps_max a_linear_steps a_keyframe_interval a_keyframe_max a_infile a_mol_relaxations a_scattering_function wave_arg int_arg custom_of].
    replace (int_or_none (some_int smax)) with (Some smax) by (destruct smax; reflexivity).
    replace (int_or_none (some_int lin)) with (Some lin) by (destruct lin; reflexivity).
    rewrite S. cbn [String.eqb Ascii.eqb Bool.eqb]. unfold analyse_gsd. destruct (gsd_reader _ _ _ _ _ _ _); reflexivity.
  Qed.
  Lemma command_lammps fuel steps line c smax lin G M q t0 r0 : asks to_float line c smax lin G M q ->
    path_suffix (c_infile c) = ".lammpstrj"%string ->
    command fuel steps line c t0 r0 =
      as_ran (analyse_lammps pfloat sub f32 junk wrap gimbal argsort fl calculate parse show mol (Some (Q2R q)) (c_scattering c) None
                (c_infile c) true smax (text_of (c_infile c)) t0 r0).
  Proof.
    intros A S. unfold CommandModel.command. rewrite (asks_main _ _ _ _ _ _ _ _ A).
    cbn [a_wave_number a_steps_max a_linear_steps a_keyframe_interval a_keyframe_max a_infile a_mol_relaxations a_scattering_function wave_arg int_arg custom_of].
    replace (int_or_none (some_int smax)) with (Some smax) by (destruct smax; reflexivity).
    replace (int_or_none (some_int lin)) with (Some lin) by (destruct lin; reflexivity).
    rewrite S. cbn [String.eqb Ascii.eqb Bool.eqb]. unfold analyse_lammps. destruct (lammps_reader _ _ _ _ _ _); reflexivity.
  Qed.
  Lemma command_other fuel steps line c smax lin G M q t0 r0 v : asks to_float line c smax lin G M q ->
    path_suffix (c_infile c) <> ".gsd"%string -> path_suffix (c_infile c) <> ".lammpstrj"%string ->
    get_filename_vars (c_infile c) = inl v ->
    command fuel steps line c t0 r0 = Done {| out_result := inr UnboundLocalError; out_table := t0; out_relax := r0 |}.
  Proof.
    intros A S1 S2 V. unfold CommandModel.command. rewrite (asks_main _ _ _ _ _ _ _ _ A).
    cbn [a_wave_number a_steps_max a_linear_steps a_keyframe_interval a_keyframe_max a_infile a_mol_relaxations a_scattering_function wave_arg int_arg custom_of].
    replace (int_or_none (some_int smax)) with (Some smax) by (destruct smax; reflexivity).
    replace (int_or_none (some_int lin)) with (Some lin) by (destruct lin; reflexivity).
    apply String.eqb_neq in S1, S2. rewrite S1, S2. unfold process_path. rewrite V, S1, S2. reflexivity.
  Qed.
End Command.

(** * A constructor that always raises *)
Section Fails.
  Context {D R F Row Out Sum : Type} (npos : F -> nat) (mk : F -> (D * R) + exn) (custom : option (R -> R * option exn))
    (compute : D -> F -> D * (Row + exn)) (radd : R -> F -> R * option exn) (label : nat -> Row -> Out + exn) (summary : R -> Sum).
  Hypothesis bad : forall f, exists e, mk f = inr e.
  Lemma frames_bad fin : forall l s, exists e, frames npos mk custom compute radd label l fin s = (s, e).
  Proof.
    induction l as [|[idx f] l IH]; intros s; cbn [frames]; [eauto|].
    destruct (npos f =? 0)%nat; auto. destruct idx as [|k idx]; cbn [visits]; auto.
    unfold visit. destruct (bad f) as [e ->]. eauto.
  Qed.
  Lemma process_bad vars floats reader t0 r0 :
    exists e, process_file npos mk custom compute radd label summary true vars floats reader t0 r0 =
      {| out_result := inr e; out_table := t0; out_relax := r0 |}.
  Proof.
    unfold process_file. destruct vars; [eauto|]. destruct reader as [[l fin]|]; [|eauto].
    match goal with |- context [frames _ _ _ _ _ _ _ _ ?s0] => destruct (frames_bad fin l s0) as (e & ->) end.
    destruct e; cbn; eauto.
  Qed.
End Fails.

Lemma make_bad fl calculate parse show mol u k : rounds u fl -> k <= 0 ->
  forall f, exists e, make fl calculate parse show mol (Some k) f = inr e.
Proof.
  intros (Hu & Ap) Hk f. unfold make. destruct (make_dynamics mol (Some k) f) as [d|e]; cbn [MotionModel.ebind]; [|eauto].
  unfold make_relaxations. destruct (frame_box f) as [b|e]; cbn [MotionModel.ebind]; [|eauto].
  destruct (motion_init b (e_pos f) (e_ori f)) as [m|e]; cbn [MotionModel.ebind]; [|eauto].
  destruct (Req_EM_T k 0) as [->|N]; [cbn; eauto|].
  destruct (Ap (PI / (2 * k))) as (q & Eq & Bq).
  assert (Neg : PI / (2 * k) < 0).
  { unfold Rdiv. pose proof PI_RGT_0. assert (/ (2 * k) < 0) by (apply Rinv_lt_0_compat; lra). nra. }
  assert (Q2R q < 0).
  { rewrite (Rabs_left _ Neg) in Bq.
    assert (Q2R q - PI / (2 * k) <= u * - (PI / (2 * k))) by (eapply Rle_trans; [apply Rle_abs|exact Bq]). nra. }
  assert (Lt : xlt (xtriple (fl (PI / (2 * k)))) xzero = true).
  { rewrite Eq. cbn. apply Qltb_lt. apply Rlt_Qlt. rewrite Q2R_mult. replace (Q2R 0) with 0 by (unfold Q2R; cbn; lra).
    replace (Q2R 3) with 3 by (unfold Q2R; cbn; lra). lra. }
  unfold set_mol_relax, default_definitions. cbn [set_loop]. unfold make_relax at 1. cbn. unfold create_mol_relaxations. rewrite Lt. cbn. eauto.
Qed.

(** The converse of [asks_main] *)
Lemma main_asks tf line c smax lin G M q : c_mol_relaxations c = None ->
  main tf line c = Some (inl {| a_infile := c_infile c; a_wave_number := VFloat (Fin q); a_steps_max := some_int smax;
    a_linear_steps := some_int lin; a_keyframe_interval := VInt G; a_keyframe_max := VInt M;
    a_mol_relaxations := RNone; a_outfile := c_outfile c; a_scattering_function := c_scattering c |}) ->
  asks tf line c smax lin G M q.
Proof.
  intros Mr E. destruct (main_cases tf line c) as [[_ X]|[(_ & _ & X)|(NM & Nv & a & X & Ga)]]; rewrite E in X; try discriminate.
  injection X as <-. destruct Ga as (_ & _ & _ & A4 & A5 & A6 & A7 & A8 & _). cbn in A4, A5, A6, A7, A8.
  unfold asks. split; auto. split; [exact Nv|]. do 5 (split; [assumption|]).
  destruct (c_linear_dynamics c); [left; split; auto; destruct lin; [discriminate|reflexivity]|].
  right. split; auto. destruct lin as [n|]; [eauto|]. destruct A8 as [(? & ? & _ & _ & ?)|(_ & ?)]; discriminate.
Qed.
