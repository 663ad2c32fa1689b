(** C200: what is left of the analysis of a trajectory file that is not complete. *)
From Coq Require Import String Reals ZArith QArith Qreals List Bool Lra Lia.
From Verif Require Import Base DictFacts XNum RVec RVecFacts FrameModel PyStr PyStrFacts LammpsModel LammpsSpec LammpsProofs LammpsProps LammpsBadSpec LammpsBadProps
  MotionModel MotionSpec MotionProofs MotionProps DynModel DynSpec DynProps DynTrue MolRelaxModel WriteCacheModel WriteCacheSpec WriteCacheProofs WriteCacheProps ProcessModel ProcessSpec ProcessProofs ProcessProps
  ParamsModel ProcessPathModel ProcessPathProps EndModel EndSpec EndProofs EndProps EndGsdProps EndLammpsModel EndLammpsSpec EndLammpsProps InterruptSpec.
Import ListNotations.
Open Scope list_scope.
Open Scope R_scope.
Notation length := List.length.

(** The cache has at least one row once rows were appended. *)
Lemma client_blocks {A} (rows : list A) t0 w t : client (adds rows) (wc_new true true 1 false) t0 = (w, t, rows) -> rows <> [] ->
  last_block_lost t0 rows t.
Proof.
  intros C Nr.
  assert (Oa : only_adds (adds rows)) by (intros o I; apply in_map_iff in I; destruct I as (x & <- & _); exact I).
  assert (H : blocks 1 [] (wc_new true true 1 false) t0).
  { split; auto. exists []. simpl. repeat split; auto; intros; try lia; congruence. }
  assert (H1 := client_inv (fun o => match o with Add _ _ => True | Flush _ => False end) (blocks 1) (blocks_step 1) (adds rows) Oa _ _ _ H).
  assert (H2 := C22_no_loss A 1 (adds rows) t0). change (client (adds rows) (wc_new true true 1 false) t0 = (w, t, rows)) in C. rewrite C in H1, H2.
  destruct H1 as (_ & p & Hp & L & He & Hc & Hn). cbn [app] in Hp.
  destruct H2 as (q & Hq & Q1 & _ & Q2). rewrite Hp in Hq at 1. apply app_inv_tail in Hq. subst q.
  exists p, (wc_cache w). split; auto. split.
  { destruct p; [|apply Hn; discriminate]. cbn in Hp. congruence. }
  split; [specialize (Hc ltac:(lia)); lia|]. split; [exists (wc_emptied w); lia|].
  destruct p as [|x p]; [auto|]. apply Q2; [discriminate|]. left. destruct rows; [congruence|exact I].
Qed.

(** If a list of frames is analysed, but reading raises after the last one *)
Lemma process_file_interrupted {D R F Row Out Sum : Type} npos mk custom compute radd label (summ : R -> Sum) l e t0 r0 floats rows relax :
  @process_file D R F Row Out Sum npos mk custom compute radd label summ true None floats (Some (l, None)) None None =
    {| out_result := inl None; out_table := Some rows; out_relax := relax |} ->
  exists t, process_file npos mk custom compute radd label summ true None floats (Some (l, Some e)) t0 r0 =
      {| out_result := inr e; out_table := t; out_relax := r0 |} /\ last_block_lost t0 rows t.
Proof.
  intros E. destruct (pure mk custom compute radd label (vlist npos l) []) as [[d rows'] oe] eqn:P.
  set (s0 := {| ps_keys := []; ps_cache := wc_new true true 1 false; ps_table := None |} : pstate D R Out).
  set (s1 := {| ps_keys := []; ps_cache := wc_new true true 1 false; ps_table := t0 |} : pstate D R Out).
  destruct (flat_named mk custom compute radd label (vlist npos l) s0 d rows' oe eq_refl eq_refl P) as (w & t & H1 & H2 & H3 & H4).
  destruct (flat_named mk custom compute radd label (vlist npos l) s1 d rows' oe eq_refl eq_refl P) as (w' & t' & H1' & H2' & H3' & H4').
  destruct oe as [e'|].
  { exfalso. unfold process_file in E. fold s0 in E. rewrite frames_flat, H4 in E. discriminate. }
  assert (T := file_or_memory npos mk custom compute radd label summ l None None d rows' floats P). cbv zeta in T. rewrite E in T. cbn [out_table] in T.
  destruct T as (T & _).
  assert (rows = rows' /\ rows' <> []) as [-> Nr] by (destruct rows'; [discriminate|injection T as ->; split; [auto|discriminate]]).
  exists t'. split.
  - unfold process_file. fold s1. rewrite frames_flat, H4'. reflexivity.
  - eapply client_blocks; eauto.
Qed.

Section Files.
  Variables (pfloat : string -> option R) (sub : R -> R -> R) (f32 : R -> R) (junk : nat -> R)
            (wrap : fbox -> v3 -> v3) (gimbal : RVec.quat -> v3) (argsort : list R -> list nat) (fl : R -> xnum)
            (calculate : fbox -> list v3 -> R + exn) (parse : string -> option xnum) (show : yaml -> string) (mol : list v3).
  Notation analyse_lammps := (analyse_lammps pfloat sub f32 junk wrap gimbal argsort fl calculate parse show mol).

  (** Whatever stops the reader of a trajectory file *)
  Lemma analyse_interrupted wave scattering defs infile (gsd lammps : list (list nat * eframe)) e t0 r0 rows relax :
    let an := fun g l => analyse wrap gimbal argsort fl calculate parse show mol wave scattering defs infile true (gsd, g) (lammps, l) in
    an None None None None = {| out_result := inl None; out_table := Some rows; out_relax := relax |} ->
    exists t, an (Some e) (Some e) t0 r0 = {| out_result := inr e; out_table := t; out_relax := r0 |} /\ last_block_lost t0 rows t.
  Proof.
    intros an. unfold an, analyse, process_path. cbv zeta. destruct (get_filename_vars infile) as [v|x]; [|discriminate].
    destruct (String.eqb (path_suffix infile) ".gsd"); [apply process_file_interrupted|].
    destruct (String.eqb (path_suffix infile) ".lammpstrj"); [apply process_file_interrupted|discriminate].
  Qed.

  Lemma broken_parse ts tail : float_strips pfloat -> Forall (well_formed pfloat) ts -> broken pfloat tail ->
    exists ds e, Forall2 (LammpsSpec.describes pfloat sub f32) ts ds /\ parse_lammpstrj pfloat sub f32 junk (render_all ts ++ tail) = {| items := ds; ending := Raise e |}.
  Proof.
    intros S F B. assert (Ig : ignores_line_end pfloat) by (intros w v H; rewrite S; exact H).
    destruct B as [t p q Wt E Q|t k bad more Wt NB WH|t j a e more Wt J Na Wa Ba|t heads more Wt Nh Wh Ni].
    - eapply C102_cut_partial; eauto.
    - destruct (C65_wrong_header pfloat sub f32 junk ts t k bad more Ig F Wt NB WH) as (ds & D & E). exists ds, RuntimeError. auto.
    - destruct (C174_bad_atom_partial R pfloat sub f32 junk ts t j a e more S F Wt J Na Wa Ba) as (ds & D & E). exists ds, e. auto.
    - destruct (C174_no_id_partial R pfloat sub f32 junk ts t heads more S F Wt Nh Wh Ni) as (ds & D & E). exists ds, ValueError. auto.
  Qed.

  Lemma take_all smax ts ds e : Forall2 (LammpsSpec.describes pfloat sub f32) ts ds -> (forall m t, smax = Some m -> In t ts -> (t_step t <= m)%Z) ->
    take_steps smax ds e = {| items := map (fun d => ([0%nat], d)) ds; ending := e |}.
  Proof.
    induction 1 as [|t d ts ds (D & _) F IH]; intros H; [reflexivity|]. cbn [take_steps map].
    rewrite IH by (intros m x Em I; apply (H m x Em); right; exact I).
    destruct smax as [m|]; [|reflexivity]. unfold l_timestep, lget. rewrite D.
    replace (m <? t_step t)%Z with false by (symmetry; apply Z.ltb_ge; apply (H m t); [auto|left; auto]). reflexivity.
  Qed.
  Lemma attributes_end l fin fin' out : attributes f32 l fin = (out, fin) -> fin = None -> attributes f32 l fin' = (out, fin').
  Proof.
    intros E ->. revert out E. induction l as [|[idx d] l IH]; intros out E; cbn [attributes] in *; [congruence|].
    destruct (l_position f32 d); [|discriminate]. destruct (attributes f32 l None) as [o [x|]] eqn:A; [discriminate|].
    injection E as <-. rewrite (IH o eq_refl). reflexivity.
  Qed.

  (** * C200 *)
  (** The complete frames of the file would be analysed if it ended after them (C130).  Followed by
      anything else than complete frames, the analysis ends in an exception: no relaxation times are
      written, and of the rows only blocks of 8192; the last block, which may be all, is lost. *)
  Theorem C200_lost_partial k scattering u (T : eframe -> truth) N v infile smax ts tail f0 rest t0 r0 :
    wrap_ok wrap -> argsort_ok argsort -> rounds u fl -> 0 < k -> mol <> [] -> (10 <= N)%nat ->
    path_suffix infile = ".lammpstrj"%string ->
    get_filename_vars infile = inl v -> ~ unreadable parse (v_temperature v) -> ~ unreadable parse (v_pressure v) ->
    float_strips pfloat -> (forall x, f32 (f32 x) = f32 x) ->
    Forall (well_formed pfloat) ts -> Forall has_positions ts ->
    (forall m t, smax = Some m -> In t ts -> (t_step t <= m)%Z) ->
    Forall2 (written_as pfloat sub f32) ts (f0 :: rest) -> followable T N f0 rest -> broken pfloat tail ->
    exists rows relax e t,
      analyse_lammps (Some k) scattering None infile true smax (render_all ts) None None =
        Ok {| out_result := inl None; out_table := Some rows; out_relax := Some relax |} /\
      written parse k scattering u T v N (fun j fs => j = 0%nat /\ fs = f0 :: rest) rows relax /\
      analyse_lammps (Some k) scattering None infile true smax (render_all ts ++ tail) t0 r0 =
        Ok {| out_result := inr e; out_table := t; out_relax := r0 |} /\
      last_block_lost t0 rows t.
  Proof.
    intros W Ar Fl Hk Hm HN Sx EV U1 U2 S Id Wf Hp Hs Wr Fo B.
    assert (Ig : ignores_line_end pfloat) by (intros w x H; rewrite S; exact H).
    destruct (C130_lammps pfloat sub f32 junk wrap gimbal argsort fl calculate parse show mol k scattering u T N v infile smax ts ts f0 rest (render_all ts) None None)
      as (rows & relax & E & Wt); auto.
    { exists []. rewrite app_nil_r. auto. }
    destruct (broken_parse ts tail S Wf B) as (ds & e & D & P).
    destruct (C64_parse_back pfloat sub f32 junk ts Ig Wf) as (ds0 & P0 & D0).
    destruct (all_frames pfloat sub f32 Id ts ds D Hp) as (fs & A & Fs).
    destruct (all_frames pfloat sub f32 Id ts ds0 D0 Hp) as (fs0 & A0 & Fs0).
    assert (fs0 = fs) by (apply (written_all pfloat sub f32 ts); auto). subst fs0.
    set (l := map (fun f => ([0%nat], f)) fs) in *.
    assert (R0 : lammps_reader pfloat sub f32 junk (render_all ts) smax = Ok (l, None)).
    { unfold lammps_reader, read_lammps_trajectory. rewrite P0. cbn [items ending]. rewrite (take_all smax ts ds0 _ D0 Hs). cbn [items ending]. rewrite A0. reflexivity. }
    assert (R1 : lammps_reader pfloat sub f32 junk (render_all ts ++ tail) smax = Ok (l, Some e)).
    { unfold lammps_reader, read_lammps_trajectory. rewrite P. cbn [items ending]. rewrite (take_all smax ts ds _ D Hs). cbn [items ending].
      rewrite (attributes_end _ None (Some e) _ A eq_refl). reflexivity. }
    unfold EndLammpsModel.analyse_lammps in E |- *. rewrite R0 in E. rewrite R0, R1. injection E as E.
    destruct (analyse_interrupted (Some k) scattering None infile [] l e t0 r0 rows (Some relax) E) as (t & Et & Lt).
    exists rows, relax, e, t. split; [|split; [exact Wt|split; [|exact Lt]]].
    - f_equal. exact E.
    - f_equal. rewrite <- Et. unfold analyse, process_path. cbv zeta. rewrite EV, Sx. reflexivity.
  Qed.
End Files.
Print Assumptions C200_lost_partial.

(** Three complete frames, and the first line of a fourth one: nothing is written. *)
Lemma lfloat_strips : float_strips lfloat.
Proof. intros w. unfold lfloat. rewrite ex_strips. reflexivity. Qed.
Definition whole : list tframe := [lt 0 "4" up; lt 1000 "-4" (rev up); lt 2000 "0" up].
Theorem C200_refuted : exists tail rows relax e,
  analyse_lammps lfloat Rminus (fun r => r) (fun _ => 77) freud_wrap (fun _ => zero3) sort_index fl100 (fun _ _ => inr ValueError) ex_pf (fun _ => EmptyString)
    [mk3 0 1 0] (Some 2) true None "dump-Trimer-P13.50-T1.20.lammpstrj" true (Some 5000%Z) (render_all whole) None None =
    Ok {| out_result := inl None; out_table := Some rows; out_relax := Some relax |} /\
  Forall2 (row_for lT ex_pf gv 2 10 true 0 (lf 0 4)) [lf 0 4; lf 1000 (-4); lf 2000 0] (key_rows 0 rows) /\
  (exists q, tail ++ q = render (lt 9000 "1" up))%string /\
  analyse_lammps lfloat Rminus (fun r => r) (fun _ => 77) freud_wrap (fun _ => zero3) sort_index fl100 (fun _ _ => inr ValueError) ex_pf (fun _ => EmptyString)
    [mk3 0 1 0] (Some 2) true None "dump-Trimer-P13.50-T1.20.lammpstrj" true (Some 5000%Z) (render_all whole ++ tail) None None =
    Ok {| out_result := inr e; out_table := None; out_relax := None |}.
Proof.
  destruct up_ok as [U1 U2], rev_ok as [V1 V2].
  assert (Ok9 : well_formed lfloat (lt 9000 "1" up)) by (apply lt_ok; [apply word_dec; reflexivity|discriminate|auto|auto]).
  set (q := String.concat "" (map line (skipn 1 (header_lines (lt 9000 "1" up) ++ atom_lines (lt 9000 "1" up))))).
  assert (Eq : (line "ITEM: TIMESTEP" ++ q = render (lt 9000 "1" up))%string) by (vm_compute; reflexivity).
  destruct (C200_lost_partial lfloat Rminus (fun r => r) (fun _ => 77) freud_wrap (fun _ => zero3) sort_index fl100 (fun _ _ => inr ValueError) ex_pf (fun _ => EmptyString)
    [mk3 0 1 0] 2 true (1 / 100) lT 10 gv "dump-Trimer-P13.50-T1.20.lammpstrj" (Some 5000%Z) whole (line "ITEM: TIMESTEP") (lf 0 4) [lf 1000 (-4); lf 2000 0] None None
    freud_wrap_ok sort_index_ok fl100_rounds ltac:(lra) ltac:(discriminate) ltac:(lia) eq_refl eq_refl) as (rows & relax & e & t & E & (ND & W0 & W1) & E' & (saved & lost & R1 & R2 & R3 & (z & R4) & R5)).
  - intros (x & [= <-] & U). vm_compute in U. discriminate.
  - intros (x & [= <-] & U). vm_compute in U. discriminate.
  - apply lfloat_strips.
  - reflexivity.
  - repeat (constructor; [apply lt_ok; [apply word_dec; reflexivity|discriminate|auto|auto]|]). constructor.
  - repeat (constructor; [split; [cbn; auto|split; cbn; auto]|]). constructor.
  - intros m t [= <-] [<-|[<-|[<-|[]]]]; cbn; lia.
  - repeat (constructor; [apply lt_as; auto|]). constructor.
  - apply l_followable.
  - eapply cut_off; [exact Ok9|exact Eq|vm_compute; discriminate].
  - assert (Fr : Forall2 (row_for lT ex_pf gv 2 10 true 0 (lf 0 4)) [lf 0 4; lf 1000 (-4); lf 2000 0] (key_rows 0 rows)) by (apply (W1 0%nat); auto).
    assert (length rows = 3%nat).
    { assert (K : key_rows 0 rows = rows).
      { unfold key_rows. clear - W0. assert (H : forall x, In x rows -> fst x = 0%nat).
        { intros [j r] I. cbn. destruct j as [|j]; [auto|]. exfalso.
          assert (N : key_rows (S j) rows = []) by (apply W0; intros f0 rest [Z0 _]; discriminate Z0).
          assert (I' : In (S j, r) (key_rows (S j) rows)) by (apply filter_In; split; [auto|cbn; apply Nat.eqb_refl]). rewrite N in I'. destruct I'. }
        clear W0. induction rows as [|x l IH]; [reflexivity|]. cbn [filter]. rewrite (H x) by (left; auto). cbn [Nat.eqb]. f_equal. apply IH.
        intros y I. apply H. right; auto. }
      apply Forall2_len in Fr. rewrite K in Fr. symmetry. exact Fr. }
    assert (saved = []) as ->.
    { destruct saved as [|x saved]; auto. exfalso. rewrite R1, app_length in H. cbn [length] in R4, H.
      assert (z > 0)%Z by lia. lia. }
    exists (line "ITEM: TIMESTEP"), rows, relax, e. split; [exact E|]. split; [exact Fr|]. split; [exists q; exact Eq|].
    rewrite E', R5. reflexivity.
Qed.
Print Assumptions C200_refuted.
