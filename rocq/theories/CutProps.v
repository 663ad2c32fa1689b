(** C201: steps_max and files that end earlier. *)
From Coq Require Import String Reals ZArith QArith List Bool Lia Lra Arith.
From Verif Require Import Base XNum RVec RVecFacts FrameModel FrameSpec PyStr PyStrFacts LammpsModel LammpsSpec LammpsProofs LammpsProps
  MotionModel MotionSpec MotionProofs MotionProps DynModel DynSpec DynProps DynTrue
  ParamsModel WriteCacheModel ProcessModel ProcessSpec ProcessProps ProcessPathModel ProcessPathProps StepSizeModel StepSizeSpec StepSizeProofs StepSeriesProofs StepSeriesRun StepSizeExtra GsdModel GsdSpec GsdProofs GsdReaders MolRelaxModel
  EndModel EndSpec EndProofs EndProps EndGsdModel EndGsdSpec EndGsdProofs EndGsdProps EndLammpsModel EndLammpsSpec EndLammpsProps LammpsBadSpec LammpsBadProps InterruptProps CutSpec.
Import ListNotations.
Open Scope list_scope.
Notation length := List.length.

Section Readers.
  Context {P : Type}.
  Implicit Types (t : list (raw P)) (fs : list (frame P)).

  Lemma iter_two (a b : list (raw P)) : iter_trajectory (a ++ b) =
    match ending (iter_trajectory a) with
    | None => {| items := items (iter_trajectory a) ++ items (iter_trajectory b); ending := ending (iter_trajectory b) |}
    | Some _ => iter_trajectory a
    end.
  Proof.
    induction a as [|r a IH]; cbn [app iter_trajectory]; [apply stream_eta|].
    destruct (read_frame (P := P) r) as [f|e].
    - rewrite IH. cbn [GsdModel.cons_item GsdModel.ending GsdModel.items]. destruct (ending (iter_trajectory a)); reflexivity.
    - destruct (is_runtime e); [exact IH|reflexivity].
  Qed.

  (** The list of steps ends at [m]; so does the first part of the frames. *)
  Lemma skip_app (c : Z) (rest : list (frame P)) : forall f g post, (exists x, In x (f :: rest) /\ (c <= timestep x)%Z) ->
    skip_frames c f (rest ++ g :: post) =
      match skip_frames c f rest with Some (f', r') => Some (f', r' ++ g :: post) | None => None end /\
    skip_frames c f rest <> None.
  Proof.
    induction rest as [|h rest IH]; intros f g post (x & I & L); cbn [app skip_frames].
    - destruct I as [->|[]]. apply Z.ltb_ge in L. rewrite L. split; [reflexivity|discriminate].
    - destruct (timestep f <? c)%Z eqn:E; [|split; [reflexivity|discriminate]].
      apply IH. destruct I as [->|I]; [apply Z.ltb_lt in E; lia|]. exists x. auto.
  Qed.
  Definition ends_at (m : Z) fs : Prop := fs = [] \/ exists a f, fs = a ++ [f] /\ timestep f = m.
  Lemma ends_at_suffix m (a b : list (frame P)) : ends_at m (a ++ b) -> ends_at m b.
  Proof.
    intros [E|(x & f & E & T)]; [apply app_eq_nil in E; left; tauto|].
    destruct b as [|y b] using rev_ind; [left; auto|]. right. rewrite app_assoc in E. apply app_inj_tail in E. destruct E as [_ <-]. eauto.
  Qed.
  Lemma drop_all m steps : (forall c i, In (c, i) steps -> (c <= m)%Z) -> forall ts, (m < ts)%Z -> drop_steps ts steps = [].
  Proof.
    intros H ts L. induction steps as [|[c i] steps IH]; [reflexivity|]. cbn [drop_steps].
    assert (c <= m)%Z by (eapply H; left; reflexivity). destruct (Z.ltb_spec c ts); [|lia]. apply IH. intros; eapply H; right; eauto.
  Qed.
  Lemma exp_l_cut m g post fin : (m < timestep g)%Z -> forall k steps pre, (forall c i, In (c, i) steps -> (c <= m)%Z) ->
    ends_at m pre -> (length pre < k)%nat ->
    exp_l k steps (pre ++ g :: post) fin = exp_l k steps pre None.
  Proof.
    intros Lg. induction k as [|k IH]; intros steps pre Hs He Hk; [lia|].
    destruct pre as [|f rest]; cbn [app exp_l].
    - destruct steps as [|[c i] steps]; [reflexivity|]. assert (c <= m)%Z by (eapply Hs; left; reflexivity).
      rewrite Z.gtb_ltb. destruct (Z.ltb_spec (timestep g) c); [lia|]. rewrite (drop_all m) by auto. reflexivity.
    - destruct steps as [|[c i] steps]; [reflexivity|]. assert (Hc : (c <= m)%Z) by (eapply Hs; left; reflexivity).
      cbn [length] in Hk. destruct (c >? timestep f)%Z eqn:E.
      + destruct (skip_app c rest f g post) as [Es Ns].
        { destruct He as [He|(a & x & He & T)]; [discriminate|]. exists x. split; [rewrite He; apply in_or_app; right; left; auto|lia]. }
        rewrite Es. destruct (skip_frames c f rest) as [[f' r']|] eqn:Ef; [|congruence].
        destruct (skip_frames_suffix _ _ _ _ _ Ef) as (p & Ep & _). rewrite IH.
        * reflexivity.
        * intros; eapply Hs; right; eauto.
        * apply (ends_at_suffix m (p ++ [f'])). rewrite <- app_assoc. cbn [app]. rewrite <- Ep. exact He.
        * apply (f_equal (@List.length _)) in Ep. rewrite app_length in Ep. cbn [length] in Ep. lia.
      + destruct (drop_steps_suffix (timestep f) ((c, i) :: steps)) as [p Ep].
        destruct (drop_steps (timestep f) ((c, i) :: steps)) as [|[c' i'] st]; [reflexivity|]. rewrite IH.
        * reflexivity.
        * intros x j I. apply (Hs x j). rewrite Ep. apply in_or_app. right. right. exact I.
        * apply (ends_at_suffix m [f]). exact He.
        * lia.
  Qed.

  Lemma linear_cut m K M (g : frame P) post fin : K <> 0%Z -> (m < timestep g)%Z -> forall pre idx, (forall f, In f pre -> (timestep f <= m)%Z) ->
    fst (linear_loop (Some m) K M (pre ++ g :: post) fin idx) = fst (linear_loop None K M pre None idx).
  Proof.
    intros HK Lg. induction pre as [|f pre IH]; intros idx H; cbn [app linear_loop]; (destruct (Z.eqb_spec K 0) as [?|_]; [congruence|]).
    - destruct (timestep g >? m)%Z eqn:E; [auto|]. rewrite Z.gtb_ltb in E. apply Z.ltb_ge in E. lia.
    - assert (timestep f <= m)%Z by (apply H; left; auto). rewrite Z.gtb_ltb. destruct (Z.ltb_spec m (timestep f)); [lia|].
      set (idx' := if ((timestep f mod K =? 0)%Z && (Z.of_nat (length idx) <=? M)%Z)%bool then idx ++ [length idx] else idx). assert (I1 := IH idx' ltac:(intros; apply H; right; auto)).
      destruct (linear_loop (Some m) K M (pre ++ g :: post) fin idx'), (linear_loop None K M pre None idx'). cbn [fst] in *. subst. auto.
  Qed.
  Lemma linear_all m K M fin : forall (pre : list (frame P)) idx, (forall f, In f pre -> (timestep f <= m)%Z) ->
    fst (linear_loop (Some m) K M pre fin idx) = fst (linear_loop None K M pre fin idx).
  Proof.
    induction pre as [|f pre IH]; intros idx H; cbn [linear_loop]; [reflexivity|]. destruct (K =? 0)%Z; [reflexivity|].
    assert (timestep f <= m)%Z by (apply H; left; auto). rewrite Z.gtb_ltb. destruct (Z.ltb_spec m (timestep f)); [lia|].
    set (idx' := if ((timestep f mod K =? 0)%Z && (Z.of_nat (length idx) <=? M)%Z)%bool then idx ++ [length idx] else idx). assert (I1 := IH idx' ltac:(intros; apply H; right; auto)).
    destruct (linear_loop (Some m) K M pre fin idx'), (linear_loop None K M pre fin idx'). cbn [fst] in *. subst. auto.
  Qed.
  (** The rest of the file begins with a later frame, if there is one. *)
  Definition goes_on m t : Prop :=
    (items (iter_trajectory t) = [] /\ ending (iter_trajectory t) = None) \/
    exists g post, items (iter_trajectory t) = g :: post /\ (m < timestep g)%Z.

  Lemma linear_reader_cut m K M (a b : list (raw P)) : K <> 0%Z -> (forall f, In f (items (iter_trajectory a)) -> (timestep f <= m)%Z) -> goes_on m b ->
    fst (linear_trajectory (Some m) K M (a ++ b)) = fst (linear_trajectory None K M a).
  Proof.
    intros HK H Gb. unfold linear_trajectory. rewrite iter_two. destruct (ending (iter_trajectory a)) as [e|] eqn:E.
    - rewrite E. apply linear_all; auto.
    - cbn [GsdModel.items GsdModel.ending]. destruct Gb as [(-> & ->)|(g & post & -> & L)].
      + rewrite app_nil_r. apply linear_all; auto.
      + apply linear_cut; auto.
  Qed.

  Lemma exponential_reader_cut m K M n (a b : list (raw P)) x : (0 <= m)%Z -> (1 <= n)%Z -> K <> 0%Z -> goes_on m b ->
    exists fuel0 k0, forall fuel k, (fuel0 <= fuel)%nat -> (k0 <= k)%nat ->
      exponential_trajectory fuel k (Some m) K M n ((a ++ [Good m (inl x)]) ++ b) = exponential_trajectory fuel k None K M n (a ++ [Good m (inl x)]).
  Proof.
    intros Hm Hn HK Gb. set (c := a ++ [Good m (inl x)]).
    destruct (series_correct m n K M Hm Hn HK) as (fuel0 & k0 & H).
    exists (fuel0 + k0)%nat, (S (length (items (iter_trajectory (c ++ b))) + length (items (iter_trajectory c)))).
    intros fuel k Hf Hk. destruct (H fuel k0 ltac:(lia) (le_n _)) as (s & out & sf & A & B & C & D).
    destruct (run_trace _ _ _ _ _ B) as [T L].
    assert (Gs : get_num_steps c = inl m) by (apply (num_steps_good a m (inl x) []); [intros r []|cbn; lia]).
    unfold exponential_trajectory. rewrite Gs, A.
    assert (Le := series_le_total _ _ _ _ _ D).
    rewrite !(exp_loop_l fuel m) with (steps := out) by (auto; lia). f_equal.
    rewrite iter_two. destruct (ending (iter_trajectory c)) as [e|] eqn:E; [rewrite E; reflexivity|]. cbn [GsdModel.items GsdModel.ending].
    destruct Gb as [(-> & ->)|(g & post & -> & Lg)]; [rewrite app_nil_r; reflexivity|].
    apply (exp_l_cut m); auto; [|lia]. right. unfold c. rewrite iter_two.
    unfold c in E. rewrite iter_two in E. destruct (ending (iter_trajectory a)) as [e|] eqn:Ea; [congruence|].
    cbn [GsdModel.items iter_trajectory read_frame GsdModel.cons_item GsdModel.ended]. eexists _, _. split; [reflexivity|reflexivity].
  Qed.
End Readers.

Lemma later_goes_on N m b : later N m b -> goes_on m (map raw_of b).
Proof.
  induction 1 as [|b L IH|s b V L]; [left; auto|exact IH|right].
  cbn [map raw_of iter_trajectory]. rewrite (good_frame N s V). cbn [read_frame]. eexists _, _. split; [reflexivity|exact L].
Qed.
Lemma steps_before m a : (forall s, In (inl s) a -> (s_step s <= m)%Z) -> forall f, In f (items (iter_trajectory (map raw_of a))) -> (timestep f <= m)%Z.
Proof.
  induction a as [|[s|e] a IH]; intros H f; cbn [map raw_of iter_trajectory]; [intros []| |].
  - cbn [read_frame]. destruct (HoomdFrame s) as [h|e].
    + intros [<-|I]; [apply H; left; auto|]. apply IH; [intros; apply H; right; auto|exact I].
    + destruct (is_runtime e); [|intros []]. intros I. apply IH; [intros; apply H; right; auto|exact I].
  - assert (X : In f (items (iter_trajectory (map raw_of a))) -> (timestep f <= m)%Z) by (apply IH; intros; apply H; right; auto).
    destruct e; cbn [read_frame is_runtime]; try (intros []; fail); exact X.
Qed.

Section Files.
  Variables (pfloat : string -> option R) (sub : R -> R -> R) (f32 : R -> R) (junk : nat -> R)
            (wrap : fbox -> v3 -> v3) (gimbal : RVec.quat -> v3) (argsort : list R -> list nat) (fl : R -> xnum)
            (calculate : fbox -> list v3 -> R + exn) (parse : string -> option xnum) (show : yaml -> string) (mol : list v3)
            (wave : option R) (scattering : bool) (defs : option (list definition)) (infile : string) (outfile : bool)
            (t0 : table (nat * labelled (dict string dval))) (r0 : option (list (nat * dict string (list Z)))).
  Notation analyse_lammps text smax := (analyse_lammps pfloat sub f32 junk wrap gimbal argsort fl calculate parse show mol wave scattering defs infile outfile smax text t0 r0).
  Notation analyse_gsd fuel steps smax lin G M file :=
    (analyse_gsd wrap gimbal argsort fl calculate parse show mol wave scattering defs fuel steps infile outfile smax lin G M file t0 r0).

  (** * C201 *)
  (** Without linear steps, process_file with steps_max [m] returns and writes what it does for
      the file that ends before the first snapshot after step [m].  Whatever else the file
      contains. *)
  Theorem C201_linear_partial fuel steps N m G M a b : G <> 0%Z ->
    (forall s, In (inl s) a -> (s_step s <= m)%Z) -> later N m b ->
    analyse_gsd fuel steps (Some m) None G M (a ++ b) = analyse_gsd fuel steps None None G M a.
  Proof.
    intros HG H L. unfold EndGsdModel.analyse_gsd, gsd_reader, read_gsd_trajectory. rewrite map_app.
    rewrite linear_reader_cut; auto; [apply steps_before; auto|eapply later_goes_on; eauto].
  Qed.

  (** With linear steps, if there is a snapshot at step [m] *)
  Theorem C201_exponential_partial N m n G M a s b : G <> 0%Z -> (0 <= m)%Z -> (1 <= n)%Z -> gsd_snapshot N s -> s_step s = m -> later N m b ->
    exists fuel0 steps0, forall fuel steps, (fuel0 <= fuel)%nat -> (steps0 <= steps)%nat ->
    analyse_gsd fuel steps (Some m) (Some n) G M ((a ++ [inl s]) ++ b) = analyse_gsd fuel steps None (Some n) G M (a ++ [inl s]).
  Proof.
    intros HG Hm Hn V E L. subst m. apply later_goes_on in L.
    destruct (exponential_reader_cut (s_step s) G M n (map raw_of a) (map raw_of b) (held N s) Hm Hn HG L) as (f0 & k0 & H).
    exists f0, k0. intros fuel k Lf Lk. specialize (H fuel k Lf Lk).
    unfold EndGsdModel.analyse_gsd, gsd_reader, read_gsd_trajectory. rewrite map_app, map_app. cbn [map raw_of]. rewrite (good_frame N s V), H. reflexivity.
  Qed.

  (** A lammpstrj file, whatever follows the first frame after step [m] *)
  Theorem C201_lammps_partial m ts t tail : float_strips pfloat -> (forall x, f32 (f32 x) = f32 x) ->
    Forall (well_formed pfloat) ts -> Forall has_positions ts -> (forall x, In x ts -> (t_step x <= m)%Z) ->
    well_formed pfloat t -> (m < t_step t)%Z ->
    analyse_lammps (render_all (ts ++ [t]) ++ tail)%string (Some m) = analyse_lammps (render_all ts) None.
  Proof.
    intros S Id Wf Hp Hm Wt Lt.
    assert (Ig : ignores_line_end pfloat) by (intros w x H; rewrite S; exact H).
    assert (Wf' : Forall (well_formed pfloat) (ts ++ [t])) by (apply Forall_app; auto).
    destruct (C64_parse_back pfloat sub f32 junk ts Ig Wf) as (ds0 & P0 & D0).
    destruct (parse_lines_frames pfloat sub f32 junk Ig (ts ++ [t]) (lines_of (universal tail)) Wf') as (ds & D & P).
    apply Forall2_app_inv_l in D. destruct D as (ds1 & dt & D1 & D2 & ->). inversion D2 as [|? d ? ? Dt D3]; subst. inversion D3; subst. clear D2 D3.
    destruct (all_frames pfloat sub f32 Id ts ds0 D0 Hp) as (fs0 & A0 & Fs0).
    destruct (all_frames pfloat sub f32 Id ts ds1 D1 Hp) as (fs1 & A1 & Fs1).
    assert (fs0 = fs1) by (apply (written_all pfloat sub f32 ts); auto). subst fs0.
    set (l := map (fun f => ([0%nat], f)) fs1) in *.
    assert (R0 : lammps_reader pfloat sub f32 junk (render_all ts) None = Ok (l, None)).
    { unfold lammps_reader, read_lammps_trajectory. rewrite P0. cbn [LammpsModel.items LammpsModel.ending].
      rewrite (take_all pfloat sub f32 None ts ds0 _ D0) by discriminate. cbn [LammpsModel.items LammpsModel.ending]. rewrite A0. reflexivity. }
    assert (R1 : lammps_reader pfloat sub f32 junk (render_all (ts ++ [t]) ++ tail) (Some m) = Ok (l, None)).
    { unfold lammps_reader, read_lammps_trajectory, parse_lammpstrj.
      rewrite universal_app by (apply render_all_cr with pfloat; auto). rewrite (render_all_lines pfloat) by auto.
      unfold parse_lines in P at 1. rewrite P. cbn [LammpsModel.items LammpsModel.ending]. clear P.
      assert (TK : forall r e, take_steps (Some m) ((ds1 ++ [d]) ++ r) e = {| LammpsModel.items := map (fun d => ([0%nat], d)) ds1; LammpsModel.ending := Ok tt |}).
      { intros r e. clear - D1 Dt Hm Lt. destruct Dt as (Dt & _). induction D1 as [|x y ts ds (Dy & _) F IH]; cbn [app take_steps map].
        - unfold l_timestep, lget. rewrite Dt. destruct (Z.ltb_spec m (t_step t)); [reflexivity|lia].
        - unfold l_timestep, lget. rewrite Dy. assert (t_step x <= m)%Z by (apply Hm; left; auto). destruct (Z.ltb_spec m (t_step x)); [lia|].
          rewrite IH by (intros; apply Hm; right; auto). reflexivity. }
      rewrite TK. cbn [LammpsModel.items LammpsModel.ending]. rewrite A1. reflexivity. }
    unfold EndLammpsModel.analyse_lammps. rewrite R0, R1. reflexivity.
  Qed.
End Files.
Print Assumptions C201_linear_partial.
Print Assumptions C201_exponential_partial.
Print Assumptions C201_lammps_partial.

(** ** The frames at the steps 0, 10 and 20: with linear_steps 1 and a steps_max of 25 the last
    one is not analysed, because 20 is not a step of the series up to 25.  Without steps_max
    it is the last step of the series. *)
Lemma run25 {P : Type} (a b c : P) : let t := [Good 0 (inl a); Corrupt; Good 10 (inl b); Good 20 (inl c); Corrupt] in
  exponential_trajectory 100 100 (Some 25%Z) 1000 500 1 t = Ok {| items := [([0%nat], (0%Z, a)); ([0%nat], (10%Z, b))]; ending := None |} /\
  exponential_trajectory 100 100 None 1000 500 1 t = Ok {| items := [([0%nat], (0%Z, a)); ([0%nat], (10%Z, b)); ([0%nat], (20%Z, c))]; ending := None |}.
Proof. split; vm_compute; reflexivity. Qed.
Lemma reader25 :
  gsd_reader 100 100 (Some 25%Z) (Some 1%Z) 1000 500 gfile = Ok ([([0%nat], gf0); ([0%nat], gf1)], None) /\
  gsd_reader 100 100 None (Some 1%Z) 1000 500 gfile = Ok ([([0%nat], gf0); ([0%nat], gf1); ([0%nat], gf2)], None).
Proof.
  unfold gsd_reader, read_gsd_trajectory, gfile. cbn [map raw_of].
  rewrite !(good_frame 10) by apply gs_valid. cbn [s_step gs].
  rewrite (proj1 (run25 _ _ _)), (proj2 (run25 _ _ _)). cbn [GsdModel.items GsdModel.ending map fst snd].
  rewrite !(proj1 (good_eframe 10 _ (gs_valid _ _ _))), !gs_ef. split; reflexivity.
Qed.
Theorem C201_refuted : exists m file rows rows' relax relax',
  let an smax := analyse_gsd freud_wrap (fun _ => zero3) sort_index fl100 (fun _ _ => inr ValueError) ex_pf (fun _ => EmptyString)
    [mk3 0 1 0] (Some 2%R) true None 100 100 e_name true smax (Some 1%Z) 1000 500 file None None in
  (forall s, In (inl s) file -> gsd_snapshot 10 s /\ (s_step s <= m)%Z) /\ later 10 m [] /\
  an (Some m) = Ok {| out_result := inl None; out_table := Some rows; out_relax := Some relax |} /\
  an None = Ok {| out_result := inl None; out_table := Some rows'; out_relax := Some relax' |} /\
  length (key_rows 0 rows) = 2%nat /\ length (key_rows 0 rows') = 3%nat.
Proof.
  exists 25%Z, gfile.
  assert (Fr : forall l j, frames_of (fun f => length (e_pos f)) j (map (fun f => ([0%nat], f)) l) =
     (if Nat.eqb j 0 then filter (fun f => negb (length (e_pos f) =? 0)%nat) l else [])).
  { induction l as [|f l IH]; intros j; [destruct j; reflexivity|]. unfold frames_of. cbn [map flat_map fst snd].
    fold (frames_of (fun f => length (e_pos f)) j (map (fun f => ([0%nat], f)) l)). rewrite IH.
    destruct j, (Nat.eqb_spec (length (e_pos f)) 0) as [E|E]; cbn [filter Nat.eqb app]; rewrite ?E; try reflexivity.
    apply Nat.eqb_neq in E. rewrite E. reflexivity. }
  assert (Fo : forall j f0 rest, (j = 0%nat /\ f0 :: rest = [gf0; gf1]) -> followable gT 10 f0 rest).
  { intros j f0 rest [_ [= -> ->]]. destruct g_shown as (S0 & S1 & S2), g_slow as (L0 & L1). exists ebox. split; [apply ef_plane|].
    split; [apply ebox_ok|]. split; [auto using Forall_cons, Forall_nil|]. split; [cbn [map chain]; auto|]. intros f [<-|[]]. eexists. apply ef_plane. }
  assert (Fo' : forall j f0 rest, (j = 0%nat /\ f0 :: rest = [gf0; gf1; gf2]) -> followable gT 10 f0 rest) by (intros j f0 rest [_ E]; apply g_followable; auto).
  assert (U : ~ unreadable ex_pf (v_temperature gv) /\ ~ unreadable ex_pf (v_pressure gv)).
  { split; intros (x & [= <-] & U); vm_compute in U; discriminate. }
  destruct U as [U1 U2].
  assert (Run := runs_given freud_wrap (fun _ => zero3) sort_index fl100 (fun _ _ => inr ValueError) ex_pf (fun _ => EmptyString)
    [mk3 0 1 0] 2 true (1 / 100) gT 10 gv e_name None None freud_wrap_ok sort_index_ok fl100_rounds ltac:(lra) ltac:(discriminate) ltac:(lia) eq_refl U1 U2).
  destruct reader25 as [R1 R2].
  destruct (whole_file _ _ _ _ _ _ _ _ _ _ _ _ _ _ _ _ (fun j fs => j = 0%nat /\ fs = [gf0; gf1]) _ _ _ _ _ _ _ _ Run eq_refl R1) as (rows & relax & E & _ & _ & W).
  { intros j f0 rest. change ([([0%nat], gf0); ([0%nat], gf1)]) with (map (fun f => ([0%nat], f)) [gf0; gf1]). rewrite Fr.
    destruct j; cbn [Nat.eqb]; [|split; [intros [? _]|]; discriminate]. split; [intros [_ ->]; reflexivity|]. intros H. split; [reflexivity|]. rewrite <- H. reflexivity. }
  { exists 0%nat, gf0, [gf1]. auto. }
  { exact Fo. }
  destruct (whole_file _ _ _ _ _ _ _ _ _ _ _ _ _ _ _ _ (fun j fs => j = 0%nat /\ fs = [gf0; gf1; gf2]) _ _ _ _ _ _ _ _ Run eq_refl R2) as (rows' & relax' & E' & _ & _ & W').
  { intros j f0 rest. change ([([0%nat], gf0); ([0%nat], gf1); ([0%nat], gf2)]) with (map (fun f => ([0%nat], f)) [gf0; gf1; gf2]). rewrite Fr.
    destruct j; cbn [Nat.eqb]; [|split; [intros [? _]|]; discriminate]. split; [intros [_ ->]; reflexivity|]. intros H. split; [reflexivity|]. rewrite <- H. reflexivity. }
  { exists 0%nat, gf0, [gf1; gf2]. auto. }
  { exact Fo'. }
  exists rows, rows', relax, relax'. split; [|split; [constructor|split; [exact E|split; [exact E'|]]]].
  - intros s I. unfold gfile in I. cbn [In] in I. destruct I as [[= <-]|[[=]|[[= <-]|[[= <-]|[[=]|[]]]]]]; (split; [apply gs_valid|cbn [s_step gs]; lia]).
  - destruct (W 0%nat gf0 [gf1] ltac:(auto)) as [F _]. destruct (W' 0%nat gf0 [gf1; gf2] ltac:(auto)) as [F' _].
    apply Forall2_len in F, F'. auto.
Qed.
Print Assumptions C201_refuted.

(** ** Examples of the hypotheses *)
Example C201_ex_linear : exists a b, gfile = a ++ b /\ (forall s, In (inl s) a -> (s_step s <= 15)%Z) /\ later 10 15 b /\ length a = 3%nat.
Proof.
  eexists (firstn 3 gfile), (skipn 3 gfile). split; [reflexivity|]. split; [|split; [|reflexivity]].
  - intros s I. repeat (destruct I as [I|I]; [try discriminate I; injection I as <-; cbn; lia|]). destruct I.
  - apply later_snapshot; [apply gs_valid|cbn; lia].
Qed.
Example C201_ex_exponential : exists a s b, gfile = (a ++ [inl s]) ++ b /\ gsd_snapshot 10 s /\ s_step s = 10%Z /\ later 10 10 b.
Proof.
  eexists (firstn 2 gfile), (gs 10 (- (7 / 2)) (qneg (zquat (5 / 2)))), (skipn 3 gfile). split; [reflexivity|]. split; [apply gs_valid|]. split; [reflexivity|].
  apply later_snapshot; [apply gs_valid|cbn; lia].
Qed.
Example C201_ex_lammps : exists ts t, lts = ts ++ [t] /\ (forall x, In x ts -> (t_step x <= 5000)%Z) /\ (5000 < t_step t)%Z /\ length ts = 3%nat.
Proof.
  eexists (firstn 3 lts), (lt 9000 "1" up). split; [reflexivity|]. split; [|split; [cbn; lia|reflexivity]].
  intros s I. repeat (destruct I as [<-|I]; [cbn; lia|]). destruct I.
Qed.
