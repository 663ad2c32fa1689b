(** C204: files whose steps do not start at zero. *)
From Coq Require Import String Reals ZArith QArith List Bool Lia Lra Arith.
From Verif Require Import Base XNum RVec RVecFacts FrameModel FrameSpec PyStr PyStrFacts LammpsModel LammpsSpec LammpsProofs LammpsProps
  MotionModel MotionSpec MotionProofs MotionProps DynModel DynSpec DynProps DynTrue
  ParamsModel WriteCacheModel ProcessModel ProcessSpec ProcessProps ProcessPathModel ProcessPathProps StepSizeModel GsdModel GsdSpec GsdProofs MolRelaxModel
  EndModel EndSpec EndProofs EndProps EndGsdModel EndGsdSpec EndGsdProofs EndGsdProps EndLammpsModel EndLammpsSpec EndLammpsProps LammpsBadSpec LammpsBadProps InterruptProps
  CutProps SimProofs ShiftSpec ShiftProps LateSpec.
Import ListNotations.
Open Scope list_scope.
Notation length := List.length.

(** Only the time of the frame changes. *)
Definition late_frame (c : Z) (f f' : eframe) : Prop :=
  e_ts f' = (e_ts f + c)%Z /\ e_box f' = e_box f /\ e_pos f' = e_pos f /\ e_ori f' = e_ori f.
Lemma Forall2_refl_eq {A} (l : list A) : Forall2 eq l l.
Proof. induction l; constructor; auto. Qed.

Section Film.
  Variables (wrap : fbox -> v3 -> v3) (gimbal : RVec.quat -> v3) (argsort : list R -> list nat) (fl : R -> xnum)
            (calculate : fbox -> list v3 -> R + exn) (parse : string -> option xnum) (show : yaml -> string) (mol : list v3)
            (wave : option R) (scattering : bool) (defs : option (list definition)) (infile : string) (outfile : bool)
            (t0 : table (nat * labelled (dict string dval))) (r0 : option (list (nat * dict string (list Z)))).
  Variable c : Z.
  Notation an := (analyse wrap gimbal argsort fl calculate parse show mol wave scattering defs infile outfile).
  Definition late_film (l l' : list (list nat * eframe)) : Prop := Forall2 (fun x x' => fst x = fst x' /\ late_frame c (snd x) (snd x')) l l'.

  Lemma film_late g g' fg l l' fl_ : late_film g g' -> late_film l l' -> an (g', fg) (l', fl_) t0 r0 = an (g, fg) (l, fl_) t0 r0.
  Proof.
    intros Hg Hl. unfold analyse, process_path. destruct (get_filename_vars infile) as [v|e]; [|reflexivity].
    assert (FS : forall f f', late_frame c f f' -> (forall b, frame_box f = inl b -> True) /\
      e_ts f' = (e_ts f + c)%Z /\ e_box f' = e_box f /\ Forall2 eq (e_pos f) (e_pos f') /\ ori_rel eq (e_ori f) (e_ori f')).
    { intros f f' (T & B & P & O). rewrite P, O. split; [auto|]. split; [auto|]. split; [auto|]. split; [apply Forall2_refl_eq|].
      unfold ori_rel. destruct (e_ori f); [apply Forall2_refl_eq|auto]. }
    assert (E2 : forall p p' : list v3, Forall2 eq p p' -> p' = p) by (induction 1; congruence).
    destruct (String.eqb (path_suffix infile) ".gsd"); [|destruct (String.eqb (path_suffix infile) ".lammpstrj"); [|reflexivity]];
      apply (analyse_reader wrap gimbal argsort fl calculate parse show mol wave scattering defs eq eq (fun _ => True) (late_frame c) c); auto; intros; subst; auto.
    - rewrite (E2 p p'); auto.
    - rewrite (E2 p p'); auto.
  Qed.
End Film.

(** ** The reader of gsd files *)
Definition late_hoomd (c : Z) (h : hoomd_frame R) : hoomd_frame R := {| h_frame := late_snapshot c (h_frame h); h_num := h_num h |}.
Definition late_item (c : Z) (p : Z * hoomd_frame R) : Z * hoomd_frame R := ((fst p + c)%Z, late_hoomd c (snd p)).
Lemma late_readable c s : HoomdFrame (late_snapshot c s) = match HoomdFrame s with inl h => inl (late_hoomd c h) | inr e => inr e end.
Proof. unfold HoomdFrame. change (get_num_bodies (late_snapshot c s)) with (get_num_bodies s). destruct (get_num_bodies s); reflexivity. Qed.
Lemma late_iter c file : iter_trajectory (map raw_of (late_file c file)) =
  {| items := map (late_item c) (items (iter_trajectory (map raw_of file))); ending := ending (iter_trajectory (map raw_of file)) |}.
Proof.
  induction file as [|[s|e] file IH]; [reflexivity| |]; cbn [late_file map raw_of iter_trajectory].
  - fold (late_file c file). rewrite late_readable. destruct (HoomdFrame s) as [h|e]; cbn [read_frame].
    + rewrite IH. reflexivity.
    + destruct (is_runtime e); [exact IH|reflexivity].
  - fold (late_file c file). destruct e; cbn [raw_of read_frame is_runtime]; try reflexivity; exact IH.
Qed.
Lemma late_loop c smax K M fin : (K | c)%Z -> forall fs idx,
  linear_loop (option_map (fun m => m + c)%Z smax) K M (map (late_item c) fs) fin idx =
  let (s, i) := linear_loop smax K M fs fin idx in
  ({| items := map (fun p => (fst p, late_item c (snd p))) (items s); ending := ending s |}, i).
Proof.
  intros D. induction fs as [|f fs IH]; intros idx; cbn [map linear_loop]; [destruct fin; reflexivity|].
  destruct (Z.eqb_spec K 0) as [->|HK]; [reflexivity|].
  assert (EM : (timestep (late_item c f) mod K = timestep f mod K)%Z).
  { destruct D as [q ->]. unfold timestep, late_item. cbn [fst]. apply Z.mod_add. auto. }
  rewrite EM. set (idx' := if ((timestep f mod K =? 0)%Z && (Z.of_nat (length idx) <=? M)%Z)%bool then idx ++ [length idx] else idx).
  specialize (IH idx').
  destruct smax as [m|]; cbn [option_map] in *.
  - replace (timestep (late_item c f) >? m + c)%Z with (timestep f >? m)%Z.
    + destruct (timestep f >? m)%Z; [reflexivity|]. rewrite IH. destruct (linear_loop (Some m) K M fs fin idx') as [s i]. reflexivity.
    + unfold timestep, late_item. cbn [fst]. rewrite !Z.gtb_ltb. destruct (Z.ltb_spec m (fst f)), (Z.ltb_spec (m + c) (fst f + c)); lia.
  - rewrite IH. destruct (linear_loop None K M fs fin idx') as [s i]. reflexivity.
Qed.
Lemma late_eframe c h : late_frame c (eframe_of h) (eframe_of (late_hoomd c h)).
Proof. repeat split. Qed.

(** ** The reader of lammpstrj files *)
Section Lammps.
  Variables (pfloat : string -> option R) (sub : R -> R -> R) (f32 : R -> R) (junk : nat -> R) (c : Z).
  Lemma late_formed t : well_formed pfloat t -> well_formed pfloat (late_text c t).
  Proof. exact (fun H => H). Qed.
  Lemma late_take smax : forall ts ds ds', Forall2 (LammpsSpec.describes pfloat sub f32) ts ds -> Forall2 (LammpsSpec.describes pfloat sub f32) (map (late_text c) ts) ds' ->
    exists n, take_steps smax ds (Ok tt) = {| LammpsModel.items := map (fun d => ([0%nat], d)) (firstn n ds); LammpsModel.ending := Ok tt |} /\
      take_steps (option_map (fun m => m + c)%Z smax) ds' (Ok tt) = {| LammpsModel.items := map (fun d => ([0%nat], d)) (firstn n ds'); LammpsModel.ending := Ok tt |}.
  Proof.
    induction ts as [|t ts IH]; intros ds ds' F F'; inversion F as [|? d ? ds1 (D & _) F1]; inversion F' as [|? d' ? ds1' (D' & _) F1']; subst.
    - exists 0%nat. split; reflexivity.
    - destruct (IH _ _ F1 F1') as (n & E & E'). cbn [take_steps]. unfold l_timestep, lget. rewrite D, D'. cbn [t_step late_text].
      assert (Go : forall b, b = false -> exists n, (if b then LammpsModel.ended (Ok tt) else LammpsModel.cons_item ([0%nat], d) (take_steps smax ds1 (Ok tt))) = {| LammpsModel.items := map (fun d => ([0%nat], d)) (firstn n (d :: ds1)); LammpsModel.ending := Ok tt |} /\
        (if b then LammpsModel.ended (Ok tt) else LammpsModel.cons_item ([0%nat], d') (take_steps (option_map (fun m => m + c)%Z smax) ds1' (Ok tt))) = {| LammpsModel.items := map (fun d => ([0%nat], d)) (firstn n (d' :: ds1')); LammpsModel.ending := Ok tt |}).
      { intros b ->. exists (S n). cbn [firstn map]. rewrite E, E'. split; reflexivity. }
      destruct smax as [m|]; cbn [option_map] in *; [|apply (Go false eq_refl)].
      replace (m + c <? t_step t + c)%Z with (m <? t_step t)%Z by (destruct (Z.ltb_spec m (t_step t)), (Z.ltb_spec (m + c) (t_step t + c)); lia).
      destruct (m <? t_step t)%Z; [exists 0%nat; split; reflexivity|apply (Go false eq_refl)].
  Qed.
  Lemma late_written t f f' : well_formed pfloat t -> written_as pfloat sub f32 t f -> written_as pfloat sub f32 (late_text c t) f' -> late_frame c f f'.
  Proof.
    intros W H H'.
    assert (G : written_as pfloat sub f32 (late_text c t) (mkframe (e_ts f + c)%Z (e_box f) (e_pos f) (e_ori f))).
    { destruct H as (T & B & L & O & N). split; [cbn; rewrite T; reflexivity|]. split; [exact B|]. split; [exact L|]. split; [exact O|exact N]. }
    rewrite (written_fun pfloat sub f32 _ _ _ (late_formed t W) H' G). repeat split.
  Qed.
End Lammps.

Section Files.
  Variables (pfloat : string -> option R) (sub : R -> R -> R) (f32 : R -> R) (junk : nat -> R)
            (wrap : fbox -> v3 -> v3) (gimbal : RVec.quat -> v3) (argsort : list R -> list nat) (fl : R -> xnum)
            (calculate : fbox -> list v3 -> R + exn) (parse : string -> option xnum) (show : yaml -> string) (mol : list v3)
            (wave : option R) (scattering : bool) (defs : option (list definition)) (infile : string) (outfile : bool)
            (t0 : table (nat * labelled (dict string dval))) (r0 : option (list (nat * dict string (list Z)))).
  Notation analyse_lammps text smax := (analyse_lammps pfloat sub f32 junk wrap gimbal argsort fl calculate parse show mol wave scattering defs infile outfile smax text t0 r0).
  Notation analyse_gsd fuel steps smax lin G M file :=
    (analyse_gsd wrap gimbal argsort fl calculate parse show mol wave scattering defs fuel steps infile outfile smax lin G M file t0 r0).

  (** * C204 *)
  (** Without linear steps, if the distance of key frames divides the number of steps by which
      all snapshots are later.  Any file. *)
  Theorem C204_gsd_partial fuel steps smax G M c file : (G | c)%Z ->
    analyse_gsd fuel steps (option_map (fun m => m + c)%Z smax) None G M (late_file c file) = analyse_gsd fuel steps smax None G M file.
  Proof.
    intros D. unfold EndGsdModel.analyse_gsd, gsd_reader, read_gsd_trajectory, linear_trajectory. rewrite late_iter. cbn [GsdModel.items GsdModel.ending].
    rewrite late_loop by auto. destruct (linear_loop smax G M _ _ []) as [s i]. cbn [fst GsdModel.items GsdModel.ending]. f_equal.
    apply (film_late wrap gimbal argsort fl calculate parse show mol wave scattering defs infile outfile t0 r0 c); [|constructor].
    induction (GsdModel.items s) as [|x l IH]; cbn [map]; constructor; auto. cbn [fst snd late_item]. split; [auto|apply late_eframe].
  Qed.
  (** lammpstrj files: any number of steps *)
  Theorem C204_lammps_partial smax c ts : float_strips pfloat -> (forall x, f32 (f32 x) = f32 x) ->
    Forall (well_formed pfloat) ts -> Forall has_positions ts ->
    analyse_lammps (render_all (map (late_text c) ts)) (option_map (fun m => m + c)%Z smax) = analyse_lammps (render_all ts) smax.
  Proof.
    intros S Id Wf Hp.
    assert (Ig : ignores_line_end pfloat) by (intros w x H; rewrite S; exact H).
    assert (Wf' : Forall (well_formed pfloat) (map (late_text c) ts)) by (apply Forall_map; exact Wf).
    destruct (C64_parse_back pfloat sub f32 junk ts Ig Wf) as (ds & P & D).
    destruct (C64_parse_back pfloat sub f32 junk _ Ig Wf') as (ds' & P' & D').
    destruct (late_take pfloat sub f32 c smax ts ds ds' D D') as (n & T & T').
    assert (Dn : Forall2 (LammpsSpec.describes pfloat sub f32) (firstn n ts) (firstn n ds)) by (clear - D; revert n; induction D; destruct n; cbn; constructor; auto).
    assert (Dn' : Forall2 (LammpsSpec.describes pfloat sub f32) (map (late_text c) (firstn n ts)) (firstn n ds')).
    { clear - D'. remember (map (late_text c) ts) as us eqn:E. revert ts E n. induction D'; intros [|t ts]; try discriminate; intros E [|n]; cbn; constructor.
      - injection E as -> ->. auto. - injection E as -> ->. auto. }
    assert (Pn : Forall has_positions (firstn n ts)) by (clear - Hp; revert n; induction Hp; destruct n; cbn; constructor; auto).
    assert (Wn : Forall (well_formed pfloat) (firstn n ts)) by (clear - Wf; revert n; induction Wf; destruct n; cbn; constructor; auto).
    destruct (all_frames pfloat sub f32 Id _ _ Dn Pn) as (fs & A & F).
    destruct (all_frames pfloat sub f32 Id _ _ Dn' ltac:(apply Forall_map; exact Pn)) as (fs' & A' & F').
    assert (Rd : lammps_reader pfloat sub f32 junk (render_all ts) smax = Ok (map (fun f => ([0%nat], f)) fs, None)).
    { unfold lammps_reader, read_lammps_trajectory. rewrite P. cbn [LammpsModel.items LammpsModel.ending]. rewrite T. cbn [LammpsModel.items LammpsModel.ending]. rewrite A. reflexivity. }
    assert (Rd' : lammps_reader pfloat sub f32 junk (render_all (map (late_text c) ts)) (option_map (fun m => m + c)%Z smax) = Ok (map (fun f => ([0%nat], f)) fs', None)).
    { unfold lammps_reader, read_lammps_trajectory. rewrite P'. cbn [LammpsModel.items LammpsModel.ending]. rewrite T'. cbn [LammpsModel.items LammpsModel.ending]. rewrite A'. reflexivity. }
    unfold EndLammpsModel.analyse_lammps. rewrite Rd, Rd'. f_equal.
    apply (film_late wrap gimbal argsort fl calculate parse show mol wave scattering defs infile outfile t0 r0 c); [constructor|].
    clear - F F' Wn. remember (firstn n ts) as us. clear Hequs. revert fs' F'. induction F as [|t f us fs H F IH]; intros fs' F'; inversion F' as [|? f' ? fs1' H' F1']; subst; cbn [map]; constructor.
    - split; [reflexivity|]. inversion Wn; subst. eapply late_written; eauto.
    - inversion Wn; subst. apply IH; auto.
  Qed.
End Files.
Print Assumptions C204_gsd_partial.
Print Assumptions C204_lammps_partial.

(** ** A simulation that starts at step 5 instead of step 0: no snapshot is at a multiple of
    the distance of key frames, so nothing is analysed and the analysis fails. *)
Lemma late_nothing wrap gimbal argsort fl calculate parse show mol wave scattering defs infile l lammps t0 r0 v :
  get_filename_vars infile = inl v -> path_suffix infile = ".gsd"%string -> (forall x, In x l -> fst x = []) ->
  out_result (analyse wrap gimbal argsort fl calculate parse show mol wave scattering defs infile true (l, None) lammps t0 r0) = inr ValueError /\
  out_table (analyse wrap gimbal argsort fl calculate parse show mol wave scattering defs infile true (l, None) lammps t0 r0) = t0.
Proof.
  intros Ev Es H. unfold analyse, process_path. rewrite Ev, Es. cbn [String.eqb Ascii.eqb Bool.eqb]. unfold process_file.
  match goal with |- context [ProcessModel.frames ?a ?b ?c ?d ?e ?g l None ?s] => assert (E : ProcessModel.frames a b c d e g l None s = (s, None)) end.
  { generalize {| ps_keys := @nil (nat * (dynamics * robj)); ps_cache := wc_new true true 1 false; ps_table := t0 |}. intros s.
    induction l as [|[idx f] l IH]; [reflexivity|]. cbn [ProcessModel.frames]. assert (idx = []) by (apply (H (idx, f)); left; auto). subst idx.
    destruct (length (e_pos f) =? 0)%nat; cbn [visits]; apply IH; intros x I; apply H; right; auto. }
  rewrite E. split; reflexivity.
Qed.
Theorem C204_refuted : exists c file rows relax o,
  let an smax file := analyse_gsd freud_wrap (fun _ => zero3) sort_index fl100 (fun _ _ => inr ValueError) ex_pf (fun _ => EmptyString)
    [mk3 0 1 0] (Some 2%R) true None 0 0 e_name true (Some smax) None 10 500 file None None in
  (forall s, In (inl s) file -> gsd_snapshot 10 s) /\
  an 15%Z file = Ok {| out_result := inl None; out_table := Some rows; out_relax := Some relax |} /\ length (key_rows 0 rows) = 2%nat /\
  an (15 + c)%Z (late_file c file) = Ok o /\ out_result o = inr ValueError /\ out_table o = None.
Proof.
  destruct C129_example as (rows & relax & E & F & _). exists 5%Z, gfile, rows, relax.
  assert (Rd : exists l, gsd_reader 0 0 (Some (15 + 5)%Z) None 10 500 (late_file 5 gfile) = Ok (l, None) /\ forall x, In x l -> fst x = []).
  { unfold gsd_reader, read_gsd_trajectory, linear_trajectory. rewrite late_iter.
    assert (I : iter_trajectory (map raw_of gfile) = {| items := [(0%Z, held 10 (gs 0 (9 / 2) (zquat 0))); (10%Z, held 10 (gs 10 (- (7 / 2)) (qneg (zquat (5 / 2))))); (20%Z, held 10 (gs 20 (1 / 2) (zquat 0)))]; ending := None |}).
    { unfold gfile. cbn [map raw_of]. rewrite !(good_frame 10) by apply gs_valid. reflexivity. }
    rewrite I. cbn [GsdModel.items GsdModel.ending map]. eexists. split; [reflexivity|].
    intros x. cbn. intros [<-|[<-|[]]]; reflexivity. }
  destruct Rd as (l & Rd & Hl).
  destruct (late_nothing freud_wrap (fun _ => zero3) sort_index fl100 (fun _ _ => inr ValueError) ex_pf (fun _ => EmptyString)
    [mk3 0 1 0] (Some 2%R) true None e_name l ([], None) None None gv eq_refl eq_refl Hl) as [O1 O2].
  eexists. cbn zeta. split; [|split; [exact E|split; [apply Forall2_len in F; auto|split; [|split; [exact O1|exact O2]]]]].
  - intros s I. unfold gfile in I. cbn [In] in I. destruct I as [[= <-]|[[=]|[[= <-]|[[= <-]|[[=]|[]]]]]]; apply gs_valid.
  - unfold EndGsdModel.analyse_gsd. rewrite Rd. reflexivity.
Qed.
Print Assumptions C204_refuted.

(** With linear steps the frames are taken at the steps of a series that starts at step 0: of
    the three snapshots only the last is analysed. *)
Lemma late_exponential {P : Type} (a b c : P) : let t := [Good 5 (inl a); Corrupt; Good 15 (inl b); Good 25 (inl c); Corrupt] in
  exponential_trajectory 100 100 None 1000 500 1 t = Ok {| items := [([0%nat], (25%Z, c))]; ending := None |}.
Proof. vm_compute. reflexivity. Qed.
Theorem C204_exponential_refuted : exists c file l l',
  (forall s, In (inl s) file -> gsd_snapshot 10 s) /\
  gsd_reader 100 100 None (Some 1%Z) 1000 500 file = Ok (l, None) /\ length l = 3%nat /\
  gsd_reader 100 100 None (Some 1%Z) 1000 500 (late_file c file) = Ok (l', None) /\ length l' = 1%nat.
Proof.
  exists 5%Z, gfile. destruct CutProps.reader25 as [_ R]. do 2 eexists. split; [|split; [exact R|split; [reflexivity|]]].
  - intros s I. unfold gfile in I. cbn [In] in I. destruct I as [[= <-]|[[=]|[[= <-]|[[= <-]|[[=]|[]]]]]]; apply gs_valid.
  - unfold gsd_reader, read_gsd_trajectory, gfile, late_file. cbn [map raw_of]. rewrite !late_readable.
    rewrite !(good_frame 10) by apply gs_valid. cbn [s_step gs late_snapshot].
    change (0 + 5)%Z with 5%Z. change (10 + 5)%Z with 15%Z. change (20 + 5)%Z with 25%Z. rewrite late_exponential.
    cbn [GsdModel.items GsdModel.ending map]. split; reflexivity.
Qed.
Print Assumptions C204_exponential_refuted.

(** ** Examples *)
Example C204_ex_gsd : exists rows relax,
  analyse_gsd freud_wrap (fun _ => zero3) sort_index fl100 (fun _ _ => inr ValueError) ex_pf (fun _ => EmptyString)
    [mk3 0 1 0] (Some 2%R) true None 0 0 e_name true (Some 1015%Z) None 10 500 (late_file 1000 gfile) None None =
    Ok {| out_result := inl None; out_table := Some rows; out_relax := Some relax |} /\
  length (key_rows 0 rows) = 2%nat.
Proof.
  destruct C129_example as (rows & relax & E & F & _). exists rows, relax. split; [|apply Forall2_len in F; auto].
  rewrite <- E. apply (C204_gsd_partial freud_wrap (fun _ => zero3) sort_index fl100 (fun _ _ => inr ValueError) ex_pf (fun _ => EmptyString)
    [mk3 0 1 0] (Some 2%R) true None e_name true None None 0 0 (Some 15%Z) 10 500 1000 gfile). exists 100%Z. reflexivity.
Qed.
Example C204_ex_lammps : exists rows relax,
  analyse_lammps lfloat Rminus (fun r => r) (fun _ => 77%R) freud_wrap (fun _ => zero3) sort_index fl100 (fun _ _ => inr ValueError) ex_pf (fun _ => EmptyString)
    [mk3 0 1 0] (Some 2%R) true None "dump-Trimer-P13.50-T1.20.lammpstrj" true (Some 5003%Z) (render_all (map (late_text 3) lts)) None None =
    Ok {| out_result := inl None; out_table := Some rows; out_relax := Some relax |} /\
  length (key_rows 0 rows) = 3%nat /\ key_rows 1 rows = [].
Proof.
  destruct up_ok as [U1 U2], rev_ok as [V1 V2].
  assert (W : Forall (well_formed lfloat) lts) by (repeat (constructor; [apply lt_ok; [apply word_dec; reflexivity|discriminate|auto|auto]|]); constructor).
  assert (H : Forall has_positions lts) by (repeat (constructor; [split; [cbn; auto|split; cbn; auto]|]); constructor).
  destruct (C130_lammps lfloat Rminus (fun r => r) (fun _ => 77%R) freud_wrap (fun _ => zero3) sort_index fl100 (fun _ _ => inr ValueError) ex_pf (fun _ => EmptyString)
    [mk3 0 1 0] 2 true (1 / 100) lT 10 gv "dump-Trimer-P13.50-T1.20.lammpstrj" (Some 5000%Z) lts
    [lt 0 "4" up; lt 1000 "-4" (rev up); lt 2000 "0" up] (lf 0 4) [lf 1000 (-4); lf 2000 0] (render_all lts) None None
    freud_wrap_ok sort_index_ok fl100_rounds ltac:(lra) ltac:(discriminate) ltac:(lia) eq_refl eq_refl) as (rows & relax & E & ND & W0 & W1).
  - intros (x & [= <-] & U). vm_compute in U. discriminate.
  - intros (x & [= <-] & U). vm_compute in U. discriminate.
  - apply lfloat_line_end.
  - reflexivity.
  - left. reflexivity.
  - exact W.
  - exact H.
  - exists [lt 9000 "1" up]. split; [reflexivity|]. split.
    + intros m t [= <-] [<-|[<-|[<-|[]]]]; cbn; lia.
    + right. do 3 eexists. split; [reflexivity|]. split; [reflexivity|]. cbn. lia.
  - repeat (constructor; [apply lt_as; auto|]). constructor.
  - apply l_followable.
  - exists rows, relax. split; [|split].
    + rewrite <- E. apply (C204_lammps_partial lfloat Rminus (fun r => r) (fun _ => 77%R) freud_wrap (fun _ => zero3) sort_index fl100 (fun _ _ => inr ValueError) ex_pf (fun _ => EmptyString)
        [mk3 0 1 0] (Some 2%R) true None "dump-Trimer-P13.50-T1.20.lammpstrj" true None None (Some 5000%Z) 3 lts); auto using lfloat_strips.
    + destruct (W1 0%nat (lf 0 4) [lf 1000 (-4); lf 2000 0]) as [F _]; [auto|]. apply Forall2_len in F. auto.
    + apply (W0 1%nat). intros f0 rest [? _]. discriminate.
Qed.
