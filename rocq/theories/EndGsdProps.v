(** The analysis of a gsd file, from the snapshots in it to the tables written. *)
From Coq Require Import String Reals ZArith QArith List Bool Lia Lra Arith Sorted.
From Verif Require Import Base XNum RVec RVecFacts FrameModel FrameSpec MotionModel MotionSpec MotionProofs DynModel DynSpec DynProps DynTrue
  ParamsModel WriteCacheModel ProcessModel ProcessSpec ProcessProps ProcessPathModel ProcessPathProps StepSizeModel StepSizeSpec GsdModel MolRelaxModel
  EndModel EndSpec EndProofs EndProps EndGsdModel EndGsdSpec EndGsdProofs.
Import ListNotations.
Open Scope R_scope.
Notation length := List.length.

Section Any.
  Variables (wrap : MotionModel.fbox -> v3 -> v3) (gimbal : RVec.quat -> v3) (argsort : list R -> list nat) (fl : R -> xnum)
            (calculate : MotionModel.fbox -> list v3 -> R + exn) (parse : string -> option xnum) (show : yaml -> string)
            (mol : list v3) (wave : option R) (scattering : bool)
            (infile : string) (t0 : table (nat * labelled (dict string dval))) (r0 : option (list (nat * dict string (list Z)))).
  Notation analyse_gsd := (analyse_gsd wrap gimbal argsort fl calculate parse show mol wave scattering None).
  Notation npos := (fun f => length (e_pos f)).
  (** Which frames can be analysed, and what rows and summaries then say *)
  Variables (ok : eframe -> list eframe -> Prop) (row : nat -> eframe -> eframe -> nat * labelled (dict string dval) -> Prop)
            (rep : eframe -> list eframe -> dict string (list Z) -> Prop).

  (** What is written about the key frames: [seq j fs] says that key frame [j] has the frames
      [fs]. *)
  Definition written_by (seq : nat -> list eframe -> Prop)
             (rows : list (nat * labelled (dict string dval))) (relax : list (nat * dict string (list Z))) : Prop :=
    NoDup (map fst relax) /\
    (forall j, (forall f0 rest, ~ seq j (f0 :: rest)) -> key_rows j rows = [] /\ ~ In j (map fst relax)) /\
    (forall j f0 rest, seq j (f0 :: rest) ->
       Forall2 (row j f0) (f0 :: rest) (key_rows j rows) /\
       exists s, In (j, s) relax /\ rep f0 (f0 :: rest) s).

  (** The analysis of a list of frames, as in C126 *)
  Definition runs : Prop := forall gsd lammps l, holds infile gsd lammps l ->
    (exists K, frames_of npos K l <> []) ->
    (forall K f0 rest, frames_of npos K l = f0 :: rest -> ok f0 rest) ->
    exists rows relax,
      analyse wrap gimbal argsort fl calculate parse show mol wave scattering None infile true gsd lammps t0 r0 =
        {| out_result := inl None; out_table := Some rows; out_relax := Some relax |} /\
      (forall K, frames_of npos K l = [] -> key_rows K rows = []) /\
      (forall K f0 rest, frames_of npos K l = f0 :: rest -> Forall2 (row K f0) (f0 :: rest) (key_rows K rows)) /\
      NoDup (map fst relax) /\
      (forall K, In K (map fst relax) <-> frames_of npos K l <> []) /\
      (forall K f0 rest s, frames_of npos K l = f0 :: rest -> In (K, s) relax -> rep f0 (f0 :: rest) s).

  Lemma whole_list seq gsd lammps l : runs -> holds infile gsd lammps l ->
    (forall j f0 rest, seq j (f0 :: rest) <-> frames_of npos j l = f0 :: rest) ->
    (exists j f0 rest, seq j (f0 :: rest)) ->
    (forall j f0 rest, seq j (f0 :: rest) -> ok f0 rest) ->
    exists rows relax,
      analyse wrap gimbal argsort fl calculate parse show mol wave scattering None infile true gsd lammps t0 r0 =
        {| out_result := inl None; out_table := Some rows; out_relax := Some relax |} /\
      written_by seq rows relax.
  Proof.
    intros Run Ho Sq (j0 & f0 & r1 & S0) Fo.
    destruct (Run gsd lammps l Ho) as (rows & relax & E & R0 & R1 & ND & R2 & R3).
    - exists j0. apply Sq in S0. rewrite S0. discriminate.
    - intros K g rest Eg. apply (Fo K). apply Sq. auto.
    - exists rows, relax. split; [exact E|]. split; auto. split.
      + intros j Hj. assert (Ej : frames_of npos j l = []).
        { destruct (frames_of _ j l) as [|g rest] eqn:Eg; auto. apply Sq in Eg. destruct (Hj _ _ Eg). }
        split; [auto|]. rewrite R2. auto.
      + intros j g rest Sj. apply Sq in Sj. split; [apply R1; auto|].
        assert (I : In j (map fst relax)) by (apply R2; rewrite Sj; discriminate).
        apply in_map_iff in I. destruct I as ([j' s] & Ej & I). cbn in Ej. subst j'. exists s. split; auto. eapply R3; eauto.
  Qed.
  Lemma whole_file seq fuel steps smax lin G M file l :
    runs -> path_suffix infile = ".gsd"%string ->
    gsd_reader fuel steps smax lin G M file = Ok (l, None) ->
    (forall j f0 rest, seq j (f0 :: rest) <-> frames_of npos j l = f0 :: rest) ->
    (exists j f0 rest, seq j (f0 :: rest)) ->
    (forall j f0 rest, seq j (f0 :: rest) -> ok f0 rest) ->
    exists rows relax,
      analyse_gsd fuel steps infile true smax lin G M file t0 r0 =
        Ok {| out_result := inl None; out_table := Some rows; out_relax := Some relax |} /\
      written_by seq rows relax.
  Proof.
    intros Run Sx Er Sq Ex Fo. destruct (whole_list seq (l, None) ([], None) l Run) as (rows & relax & E & Wr); auto.
    { left. auto. }
    exists rows, relax. unfold EndGsdModel.analyse_gsd. rewrite Er, E. auto.
  Qed.

  Lemma exponential_file N smax total n G M file :
    let frames := map (molecules_of N) (snapshots file) in
    let seq := fun j fs => picks (fun f => on_key total n G M j (e_ts f)) frames fs in
    runs -> (10 <= N)%nat -> path_suffix infile = ".gsd"%string ->
    (forall s, In (inl s) file -> gsd_snapshot N s) -> (forall e, In (inr e) file -> e = RuntimeError) ->
    increasing (map s_step (snapshots file)) ->
    number_of_steps smax file total -> (0 <= total)%Z -> (1 <= n)%Z -> (0 < G)%Z -> (1 <= M)%Z -> grid 0 n 1 10 G ->
    steps_agree total n G M frames ->
    (exists j f, In f frames /\ on_key total n G M j (e_ts f)) ->
    (forall j f0 rest, seq j (f0 :: rest) -> ok f0 rest) ->
    (exists fuel0 steps0, forall fuel steps, (fuel0 <= fuel)%nat -> (steps0 <= steps)%nat ->
     exists rows relax,
       analyse_gsd fuel steps infile true smax (Some n) G M file t0 r0 =
         Ok {| out_result := inl None; out_table := Some rows; out_relax := Some relax |} /\
       written_by seq rows relax) /\
    (forall j f0 rest g, seq j (f0 :: rest) -> In g frames -> e_ts g = (Z.of_nat j * G)%Z -> e_ts f0 = (Z.of_nat j * G)%Z).
  Proof.
    intros frames seq Run HN Sx Hv He Hi Ht H0 Hn HG HM Hgr Ag (j0 & g0 & I0 & O0) Fo. split.
    - destruct (exp_reader N file Hv He Hi ltac:(lia) smax total n G M Ht H0 Hn HG HM Hgr Ag) as (fuel0 & k0 & H).
      exists fuel0, k0. intros fuel steps Lf Lk. destruct (H fuel steps Lf Lk) as (l & Er & Pk).
      eapply whole_file; eauto.
      + intros j f0 rest. split.
        * intros S. eapply picks_fun; [apply Pk|exact S].
        * intros <-. apply Pk.
      + specialize (Pk j0). assert (I : In g0 (frames_of (fun f => length (e_pos f)) j0 l)) by (apply (picks_In _ _ _ _ Pk); auto).
        exists j0. destruct (frames_of (fun f => length (e_pos f)) j0 l) as [|f0 rest]; [destruct I|]. exists f0, rest. exact Pk.
    - intros j f0 rest g S Ig Eg.
      assert (O : In f0 frames /\ on_key total n G M j (e_ts f0)) by (apply (picks_In _ _ _ _ S); cbn; auto).
      destruct O as (_ & L1 & L2 & _).
      eapply (first_on_key N file Hi ltac:(lia) total n G M); eauto.
  Qed.

  Lemma linear_file N fuel steps smax G M file pre :
    let seq := fun j fs => (Z.of_nat j <= M)%Z /\ from_multiple G j pre fs in
    runs -> (10 <= N)%nat -> path_suffix infile = ".gsd"%string ->
    (forall s, In (inl s) file -> gsd_snapshot N s) -> (forall e, In (inr e) file -> e = RuntimeError) ->
    G <> 0%Z -> (0 <= M)%Z -> read_until smax (map (molecules_of N) (snapshots file)) pre ->
    (exists f, In f pre /\ (G | e_ts f)%Z) ->
    (forall j f0 rest, seq j (f0 :: rest) -> ok f0 rest) ->
    exists rows relax,
      analyse_gsd fuel steps infile true smax None G M file t0 r0 =
        Ok {| out_result := inl None; out_table := Some rows; out_relax := Some relax |} /\
      written_by seq rows relax.
  Proof.
    intros seq Run HN Sx Hv He HG HM Hpre (g0 & I0 & D0) Fo.
    destruct (lin_reader N file ltac:(lia) Hv He smax G M HG HM fuel steps) as (l & pre' & Er & Hpre' & H).
    assert (pre' = pre) by (eapply read_until_fun; eauto). subst pre'.
    eapply whole_file; eauto.
    - intros j f0 rest. destruct (H j) as [H1 H2]. split.
      + intros [Hj S]. auto.
      + intros E. rewrite E in H2. apply H2. discriminate.
    - exists 0%nat.
      assert (X : exists f0 rest, from_multiple G 0 pre (f0 :: rest)).
      { clear - HG I0 D0. induction pre as [|x p IH]; [destruct I0|].
        destruct (Z.eq_dec (e_ts x mod G) 0) as [E|E].
        - exists x, p, [], x, p, []. split; auto. split; auto. split; [apply Z.mod_divide; auto|]. split; [constructor|reflexivity].
        - destruct I0 as [->|I0]; [apply Z.mod_divide in D0; congruence|].
          destruct (IH I0) as (f0 & rest & a & f & b & m & -> & E1 & E2 & E3 & E4).
          exists f0, rest, (x :: a), f, b, m. split; auto. split; auto. split; auto. split; auto. apply picks_no; auto.
          intros Dx. apply Z.mod_divide in Dx; auto. }
      destruct X as (f0 & rest & X). exists f0, rest. split; [lia|exact X].
  Qed.
End Any.

Section Whole.
  Variables (wrap : MotionModel.fbox -> v3 -> v3) (gimbal : RVec.quat -> v3) (argsort : list R -> list nat) (fl : R -> xnum)
            (calculate : MotionModel.fbox -> list v3 -> R + exn) (parse : string -> option xnum) (show : yaml -> string)
            (mol : list v3) (k : R) (scattering : bool) (u : R).
  Notation analyse_gsd := (analyse_gsd wrap gimbal argsort fl calculate parse show mol (Some k) scattering None).

  (** With a wave number: rows and relaxation times of the true motion *)
  Definition written (T : eframe -> truth) (v : variables) (N : nat) : (nat -> list eframe -> Prop) ->
      list (nat * labelled (dict string dval)) -> list (nat * dict string (list Z)) -> Prop :=
    written_by (row_for T parse v k N scattering) (reports T u k N).
  Lemma runs_given (T : eframe -> truth) N v infile t0 r0 :
    wrap_ok wrap -> argsort_ok argsort -> rounds u fl -> 0 < k -> mol <> [] -> (10 <= N)%nat ->
    get_filename_vars infile = inl v -> ~ unreadable parse (v_temperature v) -> ~ unreadable parse (v_pressure v) ->
    runs wrap gimbal argsort fl calculate parse show mol (Some k) scattering infile t0 r0
      (followable T N) (row_for T parse v k N scattering) (reports T u k N).
  Proof. intros W Ar Fl Hk Hm HN EV U1 U2 gsd lammps l Ho HK Fo. apply C126_trajectory; auto. Qed.

  (** * C128 *)
  (** With a number of linear steps.  The snapshots that can be read show [N] molecules at
      increasing steps; reading the others raises a RuntimeError.  Key frame [j] gets exactly
      the frames at the steps of its sequence, which starts at [j * G], and they are those
      that the two tables are about. *)
  Theorem C128_gsd_exponential (T : eframe -> truth) N v infile smax total n G M file t0 r0 :
    let frames := map (molecules_of N) (snapshots file) in
    let seq := fun j fs => picks (fun f => on_key total n G M j (e_ts f)) frames fs in
    wrap_ok wrap -> argsort_ok argsort -> rounds u fl -> 0 < k -> mol <> [] -> (10 <= N)%nat ->
    path_suffix infile = ".gsd"%string ->
    get_filename_vars infile = inl v -> ~ unreadable parse (v_temperature v) -> ~ unreadable parse (v_pressure v) ->
    (forall s, In (inl s) file -> gsd_snapshot N s) -> (forall e, In (inr e) file -> e = RuntimeError) ->
    increasing (map s_step (snapshots file)) ->
    number_of_steps smax file total -> (0 <= total)%Z -> (1 <= n)%Z -> (0 < G)%Z -> (1 <= M)%Z -> grid 0 n 1 10 G ->
    steps_agree total n G M frames ->
    (exists j f, In f frames /\ on_key total n G M j (e_ts f)) ->
    (forall j f0 rest, seq j (f0 :: rest) -> followable T N f0 rest) ->
    (exists fuel0 steps0, forall fuel steps, (fuel0 <= fuel)%nat -> (steps0 <= steps)%nat ->
     exists rows relax,
       analyse_gsd fuel steps infile true smax (Some n) G M file t0 r0 =
         Ok {| out_result := inl None; out_table := Some rows; out_relax := Some relax |} /\
       written T v N seq rows relax) /\
    (forall j f0 rest g, seq j (f0 :: rest) -> In g frames -> e_ts g = (Z.of_nat j * G)%Z -> e_ts f0 = (Z.of_nat j * G)%Z).
  Proof.
    intros frames seq W Ar Fl Hk Hm HN Sx EV U1 U2. apply exponential_file; auto. apply runs_given; auto.
  Qed.

  (** * C129 *)
  (** Without linear steps every frame up to [steps_max] is used; key frame [j] begins at the
      frame number [j], counted from 0, of those at a multiple of [G], and gets every later
      frame.  There are up to [M + 1] key frames. *)
  Theorem C129_gsd_linear (T : eframe -> truth) N v infile fuel steps smax G M file pre t0 r0 :
    let seq := fun j fs => (Z.of_nat j <= M)%Z /\ from_multiple G j pre fs in
    wrap_ok wrap -> argsort_ok argsort -> rounds u fl -> 0 < k -> mol <> [] -> (10 <= N)%nat ->
    path_suffix infile = ".gsd"%string ->
    get_filename_vars infile = inl v -> ~ unreadable parse (v_temperature v) -> ~ unreadable parse (v_pressure v) ->
    (forall s, In (inl s) file -> gsd_snapshot N s) -> (forall e, In (inr e) file -> e = RuntimeError) ->
    G <> 0%Z -> (0 <= M)%Z -> read_until smax (map (molecules_of N) (snapshots file)) pre ->
    (exists f, In f pre /\ (G | e_ts f)%Z) ->
    (forall j f0 rest, seq j (f0 :: rest) -> followable T N f0 rest) ->
    exists rows relax,
      analyse_gsd fuel steps infile true smax None G M file t0 r0 =
        Ok {| out_result := inl None; out_table := Some rows; out_relax := Some relax |} /\
      written T v N seq rows relax.
  Proof.
    intros seq W Ar Fl Hk Hm HN Sx EV U1 U2. apply linear_file; auto. apply runs_given; auto.
  Qed.
End Whole.
Print Assumptions C128_gsd_exponential.
Print Assumptions C129_gsd_linear.

(** ** An example: ten molecules of two particles move as in C126_example, at the steps 0, 10
    and 20; the file has two corrupted frames. *)
Definition gq (q : RVec.quat) : FrameModel.quat R := (qw q, qx q, qy q, qz q).
Definition gs (ts : Z) (x : R) (q : RVec.quat) : snapshot R :=
  {| s_N := 20; s_body := Some ([0; 1; 2; 3; 4; 5; 6; 7; 8; 9] ++ [0; 1; 2; 3; 4; 5; 6; 7; 8; 9])%Z;
     s_position := Some (repeat (x, 0, 0) 10 ++ repeat (x, 1, 0) 10);
     s_orientation := Some (repeat (gq q) 20);
     s_image := None; s_step := ts; s_cbox := [10; 10; 1; 0; 0; 0]; s_dimensions := 2; s_box := None |}.
Definition gfile : list (snapshot R + exn) :=
  [inl (gs 0 (9 / 2) (zquat 0)); inr RuntimeError; inl (gs 10 (- (7 / 2)) (qneg (zquat (5 / 2))));
   inl (gs 20 (1 / 2) (zquat 0)); inr RuntimeError].
Definition gT (f : eframe) : truth :=
  if (e_ts f =? 0)%Z then (repeat (mk3 (9 / 2) 0 0) 10, repeat 0 10)
  else if (e_ts f =? 10)%Z then (repeat (mk3 (13 / 2) 0 0) 10, repeat (5 / 2) 10)
  else (repeat (mk3 (21 / 2) 0 0) 10, repeat 0 10).
Definition gf0 := ef 0 (9 / 2) (zquat 0).
Definition gf1 := ef 10 (- (7 / 2)) (qneg (zquat (5 / 2))).
Definition gf2 := ef 20 (1 / 2) (zquat 0).
Lemma gs_ef ts x q : molecules_of 10 (gs ts x q) = ef ts x q.
Proof. destruct q. reflexivity. Qed.
Lemma g_frames : map (molecules_of 10) (snapshots gfile) = [gf0; gf1; gf2].
Proof. unfold gfile, snapshots. cbn [flat_map map app]. rewrite !gs_ef. reflexivity. Qed.
Lemma gs_valid ts x q : gsd_snapshot 10 (gs ts x q).
Proof.
  unfold gsd_snapshot. cbn [s_box s_N s_body s_position s_orientation gs]. split; [reflexivity|]. split; [lia|]. split; [|split].
  - change (Z.of_nat 10) with (9 + 1)%Z. apply mol_bodies; [|lia]. split; [cbn; tauto|].
    intros y I. cbn in I. repeat (destruct I as [<-|I]; [lia|]). destruct I.
  - intros b [= <-]. rewrite Forall_forall. intros y I. cbn in I. repeat (destruct I as [<-|I]; [lia|]). destruct I.
  - do 2 eexists. split; [reflexivity|]. split; [reflexivity|]. rewrite app_length, !repeat_length. split; cbn; lia.
Qed.
Lemma gf_shown ts x q y t : gT (ef ts x q) = (repeat (mk3 y 0 0) 10, repeat t 10) ->
  (exists i, x - y = IZR i * 10) -> turned q t -> shown_in gT ebox 10 (ef ts x q).
Proof.
  intros E (i & Hi) Tq. unfold shown_in. rewrite E. cbn [fst snd ef e_pos e_ori]. rewrite !repeat_length. split; [|split; [|split]]; auto.
  - apply Forall2_repeat. exists i, 0%Z, 0%Z. split; auto. unfold lattice, sub3. cbn [x3 y3 z3 bx by_ bz MotionModel.bxy MotionModel.bxz MotionModel.byz ebox]. apply v3_eq; lra.
  - eexists. split; [reflexivity|]. apply Forall2_repeat. auto.
Qed.
Lemma g_shown : shown_in gT ebox 10 gf0 /\ shown_in gT ebox 10 gf1 /\ shown_in gT ebox 10 gf2.
Proof.
  split; [|split].
  - apply gf_shown with (y := 9 / 2) (t := 0); auto. exists 0%Z. lra. left; auto.
  - apply gf_shown with (y := 13 / 2) (t := 5 / 2); auto. exists (-1)%Z. lra. right; auto.
  - apply gf_shown with (y := 21 / 2) (t := 0); auto. exists (-1)%Z. lra. left; auto.
Qed.
Lemma g_slow : slow ebox (gT gf0) (gT gf1) /\ slow ebox (gT gf1) (gT gf2).
Proof. pose proof pi_above_3. split; apply e_slow; apply Rabs_def1; lra. Qed.
Lemma g_followable f0 rest : (f0 :: rest = [gf0; gf1; gf2] \/ f0 :: rest = [gf1; gf2] \/ f0 :: rest = [gf2]) -> followable gT 10 f0 rest.
Proof.
  destruct g_shown as (S0 & S1 & S2), g_slow as (L0 & L1).
  intros [[= -> ->]|[[= -> ->]|[= -> ->]]]; exists ebox; (split; [apply ef_plane|split; [apply ebox_ok|split; [|split]]]);
    auto 6 using Forall_cons, Forall_nil; try solve [cbn [map chain]; auto].
  - intros f [<-|[<-|[]]]; eexists; apply ef_plane.
  - intros f [<-|[]]; eexists; apply ef_plane.
  - intros f [].
Qed.
Definition gv : variables := {| v_temperature := Some "1.20"%string; v_pressure := Some "13.50"%string; v_crystal := None; v_iteration := None |}.
Lemma g_moves i : (i < 10)%nat -> moves gT gf0 i [gf0; gf1; gf2] = [(0%Z, 0); (10%Z, 2); (20%Z, 6)].
Proof.
  intros H. unfold moves. cbn [map]. unfold moved2, pos, gf0, gf1, gf2, gT, ef. cbn [e_ts Z.eqb Pos.eqb fst snd]. rewrite !nth_rep by auto.
  cbn [x3 y3 z3].
  replace ((9 / 2 - 9 / 2) ^ 2 + (0 - 0) ^ 2 + (0 - 0) ^ 2) with (Rsqr 0) by (unfold Rsqr; lra).
  replace ((13 / 2 - 9 / 2) ^ 2 + (0 - 0) ^ 2 + (0 - 0) ^ 2) with (Rsqr 2) by (unfold Rsqr; lra).
  replace ((21 / 2 - 9 / 2) ^ 2 + (0 - 0) ^ 2 + (0 - 0) ^ 2) with (Rsqr 6) by (unfold Rsqr; lra).
  rewrite !sqrt_Rsqr by lra. reflexivity.
Qed.
(** The cage of size pi/4 is left at step 10, the distance 3 pi / 4 is passed at step 20,
    up to one percent. *)
Lemma g_times s : reports gT (1 / 100) 2 10 gf0 [gf0; gf1; gf2] s -> entry s "tau_F" 7 10 /\ entry s "tau_D" 7 20.
Proof.
  intros (_ & _ & H). destruct (H 7%nat ltac:(lia)) as ((d & D1 & D2) & (f & F1 & F2) & _).
  rewrite g_moves in D2, F2 by lia. pose proof pi_above_3. pose proof PI_4.
  destruct D2 as (D2 & _ & D3), F2 as (F2 & _ & F3).
  assert (d = 20%Z).
  { assert (d <= 20)%Z by (apply (D3 20%Z 6); [cbn; auto|unfold surely; lra]).
    destruct D2 as [->|(x & I & Mx)]; [lia|]. unfold maybe in Mx. cbn [In] in I. destruct I as [[= <- <-]|[[= <- <-]|[[= <- <-]|[]]]]; auto; lra. }
  assert (f = 10%Z).
  { assert (f <= 10)%Z by (apply (F3 10%Z 2); [cbn; auto|unfold surely; lra]).
    destruct F2 as [->|(x & I & Mx)]; [lia|]. unfold maybe in Mx. cbn [In] in I. destruct I as [[= <- <-]|[[= <- <-]|[[= <- <-]|[]]]]; auto; [lra|lia]. }
  subst. auto.
Qed.

Lemma g_picks j fs : picks (fun f => on_key 20 10 10 500 j (e_ts f)) [gf0; gf1; gf2] fs <->
  fs = match j with 0%nat => [gf0; gf1; gf2] | 1%nat => [gf1; gf2] | 2%nat => [gf2] | _ => [] end.
Proof.
  assert (E : picks (fun f => on_key 20 10 10 500 j (e_ts f)) [gf0; gf1; gf2]
     match j with 0%nat => [gf0; gf1; gf2] | 1%nat => [gf1; gf2] | 2%nat => [gf2] | _ => [] end).
  { assert (Y : forall s, (exists i, 0 <= i <= 10 /\ s = Z.of_nat j * 10 + i)%Z -> (s < 20)%Z -> on_key 20 10 10 500 j s).
    { intros s (i & Hi & ->) L. split; [lia|]. split; [lia|]. right. split; auto. exists i, 0%Z. lia. }
    assert (Y' : (Z.of_nat j <= 2)%Z -> on_key 20 10 10 500 j 20) by (intros; split; [lia|split; [lia|left; auto]]).
    assert (Nn : forall s, (s < Z.of_nat j * 10 \/ 2 < Z.of_nat j)%Z -> ~ on_key 20 10 10 500 j s).
    { intros s L (A & B & [->|(C & i & k & Hi & Hk & ->)]); [lia|]. assert (0 < 10 ^ k)%Z by (apply Z.pow_pos_nonneg; lia). nia. }
    destruct j as [|[|[|j]]].
    - apply picks_yes; [apply Y; [exists 0%Z; cbn; lia|cbn; lia]|]. apply picks_yes; [apply Y; [exists 10%Z; cbn; lia|cbn; lia]|].
      apply picks_yes; [apply Y'; lia|constructor].
    - apply picks_no; [apply Nn; cbn; lia|]. apply picks_yes; [apply Y; [exists 0%Z; cbn; lia|cbn; lia]|].
      apply picks_yes; [apply Y'; lia|constructor].
    - apply picks_no; [apply Nn; cbn; lia|]. apply picks_no; [apply Nn; cbn; lia|]. apply picks_yes; [apply Y'; lia|constructor].
    - apply picks_none. intros x _. apply Nn. lia. }
  split; [intros H; eapply picks_fun; eauto|intros ->; exact E].
Qed.

(** With 10 linear steps and key frames every 10 steps there are three key frames; without
    steps_max the number of steps is 20. *)
Example C128_example : exists fuel0 steps0, forall fuel steps, (fuel0 <= fuel)%nat -> (steps0 <= steps)%nat ->
  exists rows relax s,
    analyse_gsd freud_wrap (fun _ => zero3) sort_index fl100 (fun _ _ => inr ValueError) ex_pf (fun _ => EmptyString)
      [mk3 0 1 0] (Some 2) true None fuel steps e_name true None (Some 10%Z) 10 500 gfile None None =
      Ok {| out_result := inl None; out_table := Some rows; out_relax := Some relax |} /\
    Forall2 (row_for gT ex_pf gv 2 10 true 0 gf0) [gf0; gf1; gf2] (key_rows 0 rows) /\
    length (key_rows 1 rows) = 2%nat /\ length (key_rows 2 rows) = 1%nat /\ key_rows 3 rows = [] /\
    In (0%nat, s) relax /\ entry s "tau_F" 7 10 /\ entry s "tau_D" 7 20 /\ ~ In 3%nat (map fst relax).
Proof.
  assert (P : forall j fs, picks (fun f => on_key 20 10 10 500 j (e_ts f)) (map (molecules_of 10) (snapshots gfile)) fs <->
     fs = match j with 0%nat => [gf0; gf1; gf2] | 1%nat => [gf1; gf2] | 2%nat => [gf2] | _ => [] end).
  { intros. rewrite g_frames. apply g_picks. }
  assert (On : forall j f, In f match j with 0%nat => [gf0; gf1; gf2] | 1%nat => [gf1; gf2] | 2%nat => [gf2] | _ => [] end -> on_key 20 10 10 500 j (e_ts f)).
  { intros j f I. assert (Pj := proj2 (P j _) eq_refl). apply (picks_In _ _ _ _ Pj) in I. apply I. }
  destruct (C128_gsd_exponential freud_wrap (fun _ => zero3) sort_index fl100 (fun _ _ => inr ValueError) ex_pf (fun _ => EmptyString)
    [mk3 0 1 0] 2 true (1 / 100) gT 10 gv e_name None 20 10 10 500 gfile None None
    freud_wrap_ok sort_index_ok fl100_rounds ltac:(lra) ltac:(discriminate) ltac:(lia) eq_refl eq_refl) as ((fuel0 & steps0 & H) & _).
  - intros (x & [= <-] & U). vm_compute in U. discriminate.
  - intros (x & [= <-] & U). vm_compute in U. discriminate.
  - intros s I. repeat (destruct I as [I|I]; [try discriminate; injection I as <-; apply gs_valid|]). destruct I.
  - intros e I. repeat (destruct I as [I|I]; [try discriminate; injection I as <-; reflexivity|]). destruct I.
  - cbn. repeat constructor.
  - right. split; auto. exists [inl (gs 0 (9 / 2) (zquat 0)); inr RuntimeError; inl (gs 10 (- (7 / 2)) (qneg (zquat (5 / 2))))],
      (gs 20 (1 / 2) (zquat 0)), [inr RuntimeError]. split; [reflexivity|]. split; [reflexivity|]. split; [cbn; lia|].
    intros x [<-|[]]. reflexivity.
  - lia.
  - lia.
  - lia.
  - lia.
  - exists 10%Z, 0%Z. lia.
  - left. rewrite g_frames. intros f I. exists 0%nat. apply On. exact I.
  - exists 0%nat, gf0. rewrite g_frames. split; [cbn; auto|apply On; cbn; auto].
  - intros j f0 rest Pj. apply P in Pj. apply g_followable. destruct j as [|[|[|j]]]; auto. discriminate.
  - exists fuel0, steps0. intros fuel steps Lf Ls. destruct (H fuel steps Lf Ls) as (rows & relax & E & ND & W0 & W1).
    destruct (W1 0%nat gf0 [gf1; gf2]) as (A0 & s & I0 & R0); [apply P; reflexivity|].
    destruct (W1 1%nat gf1 [gf2]) as (A1 & _); [apply P; reflexivity|].
    destruct (W1 2%nat gf2 []) as (A2 & _); [apply P; reflexivity|].
    destruct (W0 3%nat) as (A3 & A4); [intros f0 rest Pj; apply P in Pj; discriminate|].
    destruct (g_times s R0). exists rows, relax, s. split; [exact E|]. split; [exact A0|].
    apply Forall2_len in A1, A2. cbn in A1, A2. auto 10.
Qed.

(** Without linear steps, up to step 15: the frame at step 20 is not used. *)
Example C129_example : exists rows relax,
  analyse_gsd freud_wrap (fun _ => zero3) sort_index fl100 (fun _ _ => inr ValueError) ex_pf (fun _ => EmptyString)
    [mk3 0 1 0] (Some 2) true None 0 0 e_name true (Some 15%Z) None 10 500 gfile None None =
    Ok {| out_result := inl None; out_table := Some rows; out_relax := Some relax |} /\
  Forall2 (row_for gT ex_pf gv 2 10 true 0 gf0) [gf0; gf1] (key_rows 0 rows) /\
  length (key_rows 1 rows) = 1%nat /\ key_rows 2 rows = [].
Proof.
  assert (Mu : forall j a f b m fs, [gf0; gf1] = a ++ f :: b -> fs = f :: b -> picks (fun g => (10 | e_ts g)%Z) a m -> length m = j ->
     (j = 0%nat /\ fs = [gf0; gf1]) \/ (j = 1%nat /\ fs = [gf1])).
  { intros j a f b m fs E -> Pm <-. destruct a as [|x [|y [|z a]]]; cbn in E.
    - injection E as <- <-. inversion Pm; subst. auto.
    - injection E as <- <- <-. right. inversion Pm as [|? ? ? D Pm'|? ? ? D Pm']; subst; inversion Pm'; subst; auto.
      exfalso. apply D. exists 0%Z. reflexivity.
    - discriminate.
    - destruct a; discriminate. }
  assert (K0 : from_multiple 10 0 [gf0; gf1] [gf0; gf1]).
  { exists [], gf0, [gf1], []. split; auto. split; auto. split; [exists 0%Z; reflexivity|]. split; [constructor|reflexivity]. }
  assert (K1 : from_multiple 10 1 [gf0; gf1] [gf1]).
  { exists [gf0], gf1, [], [gf0]. split; auto. split; auto. split; [exists 1%Z; reflexivity|]. split; [|reflexivity].
    apply picks_yes; [exists 0%Z; reflexivity|constructor]. }
  destruct (C129_gsd_linear freud_wrap (fun _ => zero3) sort_index fl100 (fun _ _ => inr ValueError) ex_pf (fun _ => EmptyString)
    [mk3 0 1 0] 2 true (1 / 100) gT 10 gv e_name 0 0 (Some 15%Z) 10 500 gfile [gf0; gf1] None None
    freud_wrap_ok sort_index_ok fl100_rounds ltac:(lra) ltac:(discriminate) ltac:(lia) eq_refl eq_refl) as (rows & relax & E & ND & W0 & W1).
  - intros (x & [= <-] & U). vm_compute in U. discriminate.
  - intros (x & [= <-] & U). vm_compute in U. discriminate.
  - intros s I. repeat (destruct I as [I|I]; [try discriminate; injection I as <-; apply gs_valid|]). destruct I.
  - intros e I. repeat (destruct I as [I|I]; [try discriminate; injection I as <-; reflexivity|]). destruct I.
  - lia.
  - lia.
  - exists [gf2]. rewrite g_frames. split; auto. split.
    + intros m f [= <-] [<-|[<-|[]]]; cbn; lia.
    + right. exists 15%Z, gf2, []. split; auto. split; auto. cbn. lia.
  - exists gf0. split; [cbn; auto|exists 0%Z; reflexivity].
  - intros j f0 rest (_ & a & f & b & m & E1 & E2 & _ & E3 & E4). destruct g_shown as (S0 & S1 & S2), g_slow as (L0 & L1).
    destruct (Mu j a f b m _ E1 E2 E3 E4) as [[_ [= -> ->]]|[_ [= -> ->]]]; exists ebox;
      (split; [apply ef_plane|split; [apply ebox_ok|split; [auto 6 using Forall_cons, Forall_nil|split; [cbn [map chain]; auto|]]]]).
    + intros g [<-|[]]; eexists; apply ef_plane.
    + intros g [].
  - exists rows, relax. destruct (W1 0%nat gf0 [gf1]) as (A0 & _); [split; [lia|exact K0]|].
    destruct (W1 1%nat gf1 []) as (A1 & _); [split; [lia|exact K1]|].
    destruct (W0 2%nat) as (A2 & _).
    { intros f0 rest (_ & a & f & b & m & E1 & E2 & _ & E3 & E4). destruct (Mu _ a f b m _ E1 E2 E3 E4) as [[? _]|[? _]]; lia. }
    apply Forall2_len in A1. cbn in A1. split; [exact E|]. auto.
Qed.
