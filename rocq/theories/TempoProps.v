(** C207: the unit of time. *)
From Coq Require Import String Reals ZArith QArith List Bool Lia Lra Arith.
From Verif Require Import Base XNum RVec RVecFacts RelaxFitModel FrameModel FrameSpec PyStr
  MotionModel MotionSpec MotionProofs MotionProps DynModel DynSpec DynProps DynTrue
  ParamsModel WriteCacheModel ProcessModel ProcessSpec ProcessProps ProcessPathModel ProcessPathProps StepSizeModel GsdModel GsdSpec GsdProofs MolRelaxModel MolRelaxDefs
  EndModel EndSpec EndProofs EndProps EndGsdModel EndGsdSpec EndGsdProofs EndGsdProps SimProofs TempoSpec.
Import ListNotations.
Open Scope list_scope.
Open Scope Z_scope.
Notation length := List.length.

Section Tempo.
  Variables (wrap : fbox -> v3 -> v3) (gimbal : RVec.quat -> v3) (argsort : list R -> list nat) (fl : R -> xnum)
            (calculate : fbox -> list v3 -> R + exn) (parse : string -> option xnum) (show : yaml -> string) (mol : list v3)
            (wave : option R) (scattering : bool) (defs : option (list definition)).
  Variable c : Z.
  Hypothesis Hc : 0 < c.
  Variable steps : list Z.
  Hypothesis Hs : short c steps.

  (** Relaxations *)
  Definition tmr (r : molrel) : molrel :=
    {| mr_threshold := mr_threshold r; mr_status := map (tempo_time c) (mr_status r); mr_type := mr_type r; mr_last := mr_last r |}.
  Lemma below t : c * t < max_value -> t < max_value.
  Proof. unfold max_value. intros H. nia. Qed.
  Lemma tempo_short t : c * t < max_value -> tempo_time c t = c * t.
  Proof. intros H. apply below in H. unfold tempo_time. unfold max_value in H. destruct (Z.eqb_spec t (2 ^ 32 - 1)); [lia|auto]. Qed.
  Lemma tempo_gt t s : c * t < max_value -> (tempo_time c s >? c * t) = (s >? t).
  Proof.
    intros H. assert (H' := below t H). unfold tempo_time. change (2 ^ 32 - 1) with max_value. destruct (Z.eqb_spec s max_value) as [->|N].
    - rewrite !Z.gtb_ltb. destruct (Z.ltb_spec (c * t) max_value), (Z.ltb_spec t max_value); auto; lia.
    - rewrite !Z.gtb_ltb. destruct (Z.ltb_spec (c * t) (c * s)), (Z.ltb_spec t s); auto; nia.
  Qed.
  Lemma set_tempo mask t a : c * t < max_value -> set_where mask (c * t) (map (tempo_time c) a) = map (tempo_time c) (set_where mask t a).
  Proof.
    intros H. unfold set_where. revert a. induction mask as [|b mask IH]; intros [|x a]; cbn [map zip_with]; auto.
    f_equal; auto. destruct b; [rewrite tempo_short; auto|auto].
  Qed.
  Lemma mr_add_tempo t d r : c * t < max_value ->
    mr_add (c * t) d (tmr r) = match mr_add t d r with inl r' => inl (tmr r') | inr e => inr e end.
  Proof.
    intros H. unfold mr_add. cbn [tmr mr_status mr_threshold mr_last mr_type]. rewrite map_length. destruct (negb _); auto.
    destruct (mr_last r) as [[st irr]|].
    - unfold last_update. cbv zeta. rewrite set_tempo by auto. reflexivity.
    - unfold first_update. cbv zeta. unfold tmr. cbn [mr_status mr_threshold mr_last mr_type]. rewrite <- set_tempo by auto. rewrite map_map.
      do 3 f_equal. f_equal. apply map_ext. intros s. apply tempo_gt; auto.
  Qed.
  Definition tdict (d : dict string molrel) : dict string molrel := map (fun p => (fst p, tmr (snd p))) d.
  Lemma loop_tempo t D Ro d : c * t < max_value ->
    relax_loop (c * t) D Ro (tdict d) = (tdict (fst (relax_loop t D Ro d)), snd (relax_loop t D Ro d)).
  Proof.
    intros H. induction d as [|[k r] d IH]; [reflexivity|]. cbn [tdict map relax_loop fst snd]. change (mr_type (tmr r)) with (mr_type r).
    rewrite mr_add_tempo by auto. destruct (mr_add t _ r) as [r'|e]; [|reflexivity]. fold (tdict d). rewrite IH.
    destruct (relax_loop t D Ro d) as [d1 e1]. reflexivity.
  Qed.
  Lemma status_tempo r : get_status (tmr r) = map (tempo_time c) (get_status r).
  Proof.
    unfold get_status. cbn [tmr mr_last mr_status]. destruct (mr_last r) as [[st irr]|]; auto.
    unfold set_where. generalize (map (fun s => negb (s =? 2)%nat) st). intros mask. revert mask. generalize (mr_status r). intros a.
    induction a as [|x a IH]; intros [|b mask]; cbn [map zip_with]; auto. f_equal; auto. destruct b; reflexivity.
  Qed.
  Lemma fresh_tempo n : map (tempo_time c) (repeat max_value n) = repeat max_value n.
  Proof. induction n; cbn [repeat map]; f_equal; auto. Qed.
  Lemma set_fresh n ds : forall acc, tdict acc = acc -> tdict (fst (set_loop parse show n ds acc)) = fst (set_loop parse show n ds acc).
  Proof.
    induction ds as [|d ds IH]; intros acc H; cbn [set_loop]; auto.
    destruct (make_relax parse show n d) as [[nm r]|e] eqn:E; auto. apply IH.
    destruct (MolRelaxDefs.make_sound parse show n d nm r E) as (thr & cut & l & ty & _ & F).
    assert (G : tmr r = r).
    { destruct F as (A & B & C & D). destruct r as [a b c0 d0]. cbn in *. unfold tmr. cbn. subst b. rewrite fresh_tempo. reflexivity. }
    clear - H G. induction acc as [|[k x] acc IH]; cbn [dset tdict map fst snd] in *; [rewrite G; reflexivity|].
    injection H as H1 H2. destruct (String.eqb nm k); cbn [map fst snd]; [rewrite G; f_equal; auto|rewrite H1; f_equal; auto].
  Qed.

  Definition TF (f f' : eframe) : Prop := In (e_ts f) steps /\ f' = tempo_frame c f.
  Definition TD (d d' : dynamics) : Prop := d' = mkdyn (d_motion d) (c * d_timestep d) (d_num d) (d_mol d) (d_wave d) (d_res d).
  Definition TR (r r' : robj) : Prop :=
    In (rx_init_time (r_relax r)) steps /\
    r' = mkrobj (r_motion r) (r_num r) {| rx_init_time := c * rx_init_time (r_relax r); rx_relax := tdict (rx_relax (r_relax r)) |}.

  Lemma row_put k v row : tempo_row c (put k v row) = put k (match v with VInt n => if String.eqb k "time" then VInt (c * n) else VInt n | v => v end) (tempo_row c row).
  Proof.
    unfold put, tempo_row. induction row as [|[a x] row IH]; cbn [dset map fst snd]; [destruct v; reflexivity|].
    destruct (String.eqb_spec k a) as [->|N]; cbn [map fst snd]; [destruct v; reflexivity|]. rewrite IH. reflexivity.
  Qed.
  Lemma row_putr k x row : tempo_row c (putr k x row) = putr k x (tempo_row c row).
  Proof. apply row_put. Qed.
  Lemma quantities_tempo d d' ts : TD d d' ->
    quantities argsort d' (c * ts) scattering = match quantities argsort d ts scattering with inl row => inl (tempo_row c row) | inr e => inr e end.
  Proof.
    intros ->. set (d' := mkdyn _ _ _ _ _ _). unfold quantities. cbv zeta.
    change (distance d') with (distance d). change (compute_struct_relax d') with (compute_struct_relax d).
    unfold d'. cbn [d_motion d_timestep d_num d_mol d_wave d_res]. clear d'.
    rewrite <- Z.mul_sub_distr_l.
    set (dt := m_dt (d_motion d)). set (dr := m_dr (d_motion d)).
    destruct (alpha 2 dt) as [a|e]; [|reflexivity]. cbn [MotionModel.ebind].
    destruct (distance d) as [dist|e]; [|reflexivity]. cbn [MotionModel.ebind].
    destruct (alpha 3 dr) as [ar|e]; [|reflexivity]. cbn [MotionModel.ebind].
    destruct (gamma dt dr) as [g|e]; [|reflexivity]. cbn [MotionModel.ebind].
    destruct (mobile_overlap argsort (displacement dt) (displacement dr)) as [ov|e]; [|reflexivity]. cbn [MotionModel.ebind].
    assert (E0 : tempo_row c (map (fun k => (k, VFl FNaN)) all_quantities) = map (fun k => (k, VFl FNaN)) all_quantities) by reflexivity.
    destruct (compute_struct_relax d) as [st|e];
    destruct scattering, (d_wave d), dist, (d_mol d), (m_pori (d_motion d)); cbv iota; cbn [MotionModel.ebind]; try reflexivity;
      rewrite ?row_putr, ?row_put; cbn [String.eqb Ascii.eqb Bool.eqb]; rewrite ?E0; reflexivity.
  Qed.
  Lemma compute_tempo d d' f f' : TD d d' -> TF f f' ->
    TD (fst (compute wrap gimbal argsort scattering d f)) (fst (compute wrap gimbal argsort scattering d' f')) /\
    sum_rel (fun row row' => row' = tempo_row c row) (snd (compute wrap gimbal argsort scattering d f)) (snd (compute wrap gimbal argsort scattering d' f')).
  Proof.
    intros -> [_ ->]. unfold compute, compute_all, dyn_add. cbn [tempo_frame e_ts e_pos e_ori d_motion d_timestep d_num d_mol d_wave d_res].
    destruct (motion_add wrap gimbal (d_motion d) (e_pos f) (e_ori f)) as [m [e|]]; cbn [fst snd]; (split; [reflexivity|]); [reflexivity|].
    rewrite (quantities_tempo (mkdyn m (d_timestep d) (d_num d) (d_mol d) (d_wave d) (d_res d))) by reflexivity.
    destruct (quantities argsort _ _ scattering); reflexivity.
  Qed.
  Lemma radd_tempo r r' f f' : TR r r' -> TF f f' ->
    TR (fst (radd wrap gimbal fl r f)) (fst (radd wrap gimbal fl r' f')) /\ snd (radd wrap gimbal fl r' f') = snd (radd wrap gimbal fl r f).
  Proof.
    intros [I ->] [J ->]. unfold radd. cbn [tempo_frame e_ts e_pos e_ori r_motion r_num r_relax].
    destruct (motion_add wrap gimbal (r_motion r) (e_pos f) (e_ori f)) as [m [e|]]; cbn [fst snd]; [split; [split; auto|auto]|].
    unfold relaxations_add. cbn [rx_init_time rx_relax]. rewrite <- Z.mul_sub_distr_l, loop_tempo by (apply Hs; auto).
    destruct (relax_loop _ _ _ (rx_relax (r_relax r))) as [x e]. cbn [fst snd]. split; [split; auto|auto].
  Qed.
  Lemma make_tempo f f' : TF f f' ->
    sum_rel (fun x x' => TD (fst x) (fst x') /\ TR (snd x) (snd x'))
      (make fl calculate parse show mol wave f) (make fl calculate parse show mol wave f').
  Proof.
    intros [I ->]. unfold make, make_dynamics, make_relaxations. change (frame_box (tempo_frame c f)) with (frame_box f).
    cbn [tempo_frame e_ts e_pos e_ori]. destruct (e_pos f) as [|p0 ps] eqn:Ep; [reflexivity|]. rewrite <- Ep.
    destruct (frame_box f) as [b|e]; cbn [MotionModel.ebind]; [|reflexivity].
    unfold dyn_init. rewrite Ep. destruct (motion_init b (p0 :: ps) (e_ori f)) as [m|e]; cbn [MotionModel.ebind]; [|reflexivity].
    destruct (match wave with Some k => inl k | None => _ end) as [k|e]; cbn [MotionModel.ebind]; [|reflexivity].
    destruct (Req_EM_T k 0); [reflexivity|].
    match goal with |- context [set_mol_relax parse show ?n ?ds] => pose proof (set_fresh n ds [] eq_refl) as G; unfold set_mol_relax; destruct (set_loop parse show n ds []) as [r e1] end.
    cbn [fst] in G. destruct e1 as [e|]; cbn [MotionModel.ebind]; [reflexivity|]. cbn [sum_rel fst snd]. split; [reflexivity|]. split; [exact I|]. cbn [r_motion r_num r_relax rx_init_time rx_relax]. rewrite G. reflexivity.
  Qed.
  Lemma custom_tempo : match custom parse show defs, custom parse show defs with
    | None, None => True
    | Some g, Some g' => forall r r', TR r r' -> TR (fst (g r)) (fst (g' r')) /\ snd (g' r') = snd (g r)
    | _, _ => False
    end.
  Proof.
    unfold custom. destruct defs as [ds|]; [|exact I]. intros r r' [J ->]. cbn [r_num r_motion r_relax rx_init_time].
    pose proof (set_fresh (r_num r) ds [] eq_refl) as G. unfold set_mol_relax. destruct (set_loop parse show (r_num r) ds []) as [x e]. cbn [fst snd] in *.
    split; [|auto]. split; [exact J|]. cbn [r_motion r_num r_relax rx_init_time rx_relax]. rewrite G. reflexivity.
  Qed.
  Lemma reader_tempo l fin outfile v vars floats t0 r0 : Forall (fun x => In (e_ts (snd x)) steps) l ->
    process_file (fun f => length (e_pos f)) (make fl calculate parse show mol wave) (custom parse show defs)
      (compute wrap gimbal argsort scattering) (radd wrap gimbal fl) (label_vars parse v) (fun x => summary (r_relax x)) outfile vars floats
      (Some (tempo_film c l, fin)) (tempo_table c t0) (tempo_relax c r0) =
    tempo_outcome c (process_file (fun f => length (e_pos f)) (make fl calculate parse show mol wave) (custom parse show defs)
      (compute wrap gimbal argsort scattering) (radd wrap gimbal fl) (label_vars parse v) (fun x => summary (r_relax x)) outfile vars floats (Some (l, fin)) t0 r0).
  Proof.
    intros Hl. set (go := fun o : labelled (dict string dval) => snd (tempo_line c (0%nat, o))).
    pose proof (process_sim (fun f => length (e_pos f)) (fun f => length (e_pos f)) (make fl calculate parse show mol wave) (make fl calculate parse show mol wave)
      (custom parse show defs) (custom parse show defs) (compute wrap gimbal argsort scattering) (compute wrap gimbal argsort scattering)
      (radd wrap gimbal fl) (radd wrap gimbal fl) (label_vars parse v) (label_vars parse v) (fun x => summary (r_relax x)) (fun x => summary (r_relax x))
      (tempo_row c) go (tempo_times c) TD TR TF) as S.
    assert (HN : forall f f', TF f f' -> length (e_pos f') = length (e_pos f)) by (intros f f' [_ ->]; reflexivity).
    specialize (S HN make_tempo custom_tempo compute_tempo radd_tempo).
    assert (HL : forall j row, sum_rel (fun o o' => o' = go o) (label_vars parse v j row) (label_vars parse v j (tempo_row c row))).
    { intros j row. unfold label_vars. destruct (column parse (v_temperature v)); cbn [FrameModel.ebind]; [|reflexivity]. destruct (column parse (v_pressure v)); reflexivity. }
    assert (HS : forall r r', TR r r' -> summary (r_relax r') = tempo_times c (summary (r_relax r))).
    { intros r r' [_ ->]. cbn [r_relax]. unfold summary, tempo_times, tdict. cbn [rx_relax]. rewrite !map_map. apply map_ext. intros [k m]. cbn [fst snd]. rewrite status_tempo. reflexivity. }
    specialize (S HL HS outfile vars floats (Some (l, fin)) (Some (tempo_film c l, fin)) t0 r0).
    assert (HF : Forall2 (fun x x' : list nat * eframe => fst x = fst x' /\ TF (snd x) (snd x')) l (tempo_film c l)).
    { clear - Hl. unfold tempo_film. induction Hl; cbn [map]; constructor; auto. split; [reflexivity|split; auto]. }
    exact (S (conj eq_refl HF)).
  Qed.
End Tempo.

(** * C207 *)
Theorem C207_film (wrap : fbox -> v3 -> v3) gimbal argsort fl calculate parse show mol wave scattering defs c infile outfile gsd lammps t0 r0 :
  0 < c -> short c (map (fun x => e_ts (snd x)) (fst gsd)) -> short c (map (fun x => e_ts (snd x)) (fst lammps)) ->
  analyse wrap gimbal argsort fl calculate parse show mol wave scattering defs infile outfile
    (tempo_film c (fst gsd), snd gsd) (tempo_film c (fst lammps), snd lammps) (tempo_table c t0) (tempo_relax c r0) =
  tempo_outcome c (analyse wrap gimbal argsort fl calculate parse show mol wave scattering defs infile outfile gsd lammps t0 r0).
Proof.
  intros Hc Hg Hl. destruct gsd as [g fg], lammps as [l fl_]. cbn [fst snd] in *.
  unfold analyse, process_path. destruct (get_filename_vars infile) as [v|e]; [|reflexivity].
  destruct (String.eqb (path_suffix infile) ".gsd"); [|destruct (String.eqb (path_suffix infile) ".lammpstrj"); [|reflexivity]];
    [apply (reader_tempo wrap gimbal argsort fl calculate parse show mol wave scattering defs c Hc _ Hg)
    |apply (reader_tempo wrap gimbal argsort fl calculate parse show mol wave scattering defs c Hc _ Hl)];
    apply Forall_forall; intros x I; apply in_map_iff; eauto.
Qed.

(** gsd files without linear steps, the distance of key frames and steps_max in the same unit *)
Definition tempo_hoomd (c : Z) (h : hoomd_frame R) : hoomd_frame R := {| h_frame := tempo_snapshot c (h_frame h); h_num := h_num h |}.
Definition tempo_item (c : Z) (p : Z * hoomd_frame R) : Z * hoomd_frame R := (c * fst p, tempo_hoomd c (snd p)).
Lemma tempo_readable c s : HoomdFrame (tempo_snapshot c s) = match HoomdFrame s with inl h => inl (tempo_hoomd c h) | inr e => inr e end.
Proof. unfold HoomdFrame. change (get_num_bodies (tempo_snapshot c s)) with (get_num_bodies s). destruct (get_num_bodies s); reflexivity. Qed.
Lemma tempo_iter c file : iter_trajectory (map raw_of (tempo_file c file)) =
  {| items := map (tempo_item c) (items (iter_trajectory (map raw_of file))); ending := ending (iter_trajectory (map raw_of file)) |}.
Proof.
  induction file as [|[s|e] file IH]; [reflexivity| |]; cbn [tempo_file map raw_of iter_trajectory].
  - fold (tempo_file c file). rewrite tempo_readable. destruct (HoomdFrame s) as [h|e]; cbn [read_frame].
    + rewrite IH. reflexivity.
    + destruct (is_runtime e); [exact IH|reflexivity].
  - fold (tempo_file c file). destruct e; cbn [raw_of read_frame is_runtime]; try reflexivity; exact IH.
Qed.
Lemma tempo_loop c smax K M fin : 0 < c -> forall fs idx,
  linear_loop (option_map (fun m => c * m) smax) (c * K) M (map (tempo_item c) fs) fin idx =
  let (s, i) := linear_loop smax K M fs fin idx in
  ({| items := map (fun p => (fst p, tempo_item c (snd p))) (items s); ending := ending s |}, i).
Proof.
  intros Hc. induction fs as [|f fs IH]; intros idx; cbn [map linear_loop]; [destruct fin; reflexivity|].
  destruct (Z.eqb_spec K 0) as [->|HK]; [rewrite Z.mul_0_r; reflexivity|].
  destruct (Z.eqb_spec (c * K) 0) as [E|_]; [exfalso; nia|].
  assert (EM : (timestep (tempo_item c f) mod (c * K) =? 0) = (timestep f mod K =? 0)).
  { unfold timestep, tempo_item. cbn [fst]. rewrite Z.mul_mod_distr_l by lia. destruct (Z.eqb_spec (fst f mod K) 0), (Z.eqb_spec (c * (fst f mod K)) 0); auto; nia. }
  rewrite EM. set (idx' := if ((timestep f mod K =? 0) && (Z.of_nat (length idx) <=? M))%bool then idx ++ [length idx] else idx).
  specialize (IH idx').
  destruct smax as [m|]; cbn [option_map] in *.
  - replace (timestep (tempo_item c f) >? c * m) with (timestep f >? m).
    + destruct (timestep f >? m); [reflexivity|]. rewrite IH. destruct (linear_loop (Some m) K M fs fin idx') as [s i]. reflexivity.
    + unfold timestep, tempo_item. cbn [fst]. rewrite !Z.gtb_ltb. destruct (Z.ltb_spec m (fst f)), (Z.ltb_spec (c * m) (c * fst f)); auto; nia.
  - rewrite IH. destruct (linear_loop None K M fs fin idx') as [s i]. reflexivity.
Qed.
Lemma iter_steps file h : In h (items (iter_trajectory (map raw_of file))) -> In (s_step (h_frame (snd h))) (steps_of file).
Proof.
  induction file as [|[s|e] file IH]; cbn [map raw_of iter_trajectory]; [contradiction| |].
  - cbn [steps_of flat_map app]. destruct (HoomdFrame s) as [h0|e] eqn:E; cbn [read_frame].
    + assert (G : h_frame h0 = s) by (unfold HoomdFrame in E; destruct (get_num_bodies s); cbn in E; [injection E as <-; reflexivity|discriminate]).
      cbn [cons_item items]. intros [<-|I]; [left; cbn [snd]; rewrite G; reflexivity|right; apply IH, I].
    + destruct (is_runtime e); [intros I; right; apply IH, I|contradiction].
  - cbn [steps_of flat_map app]. destruct e; cbn [raw_of read_frame is_runtime]; try contradiction; exact IH.
Qed.
Lemma loop_in smax K M fin : forall (fs : list (Z * hoomd_frame R)) idx p, In p (items (fst (linear_loop smax K M fs fin idx))) -> In (snd p) fs.
Proof.
  induction fs as [|f fs IH]; intros idx p; cbn [linear_loop]; [contradiction|]. destruct (K =? 0); [contradiction|].
  set (idx' := if ((timestep f mod K =? 0) && (Z.of_nat (length idx) <=? M))%bool then idx ++ [length idx] else idx). specialize (IH idx' p). destruct (linear_loop smax K M fs fin idx') as [s i]. cbn [fst] in IH.
  destruct smax as [m|]; [destruct (timestep f >? m); [contradiction|]|]; cbn [fst cons_item items]; intros [<-|I]; first [left; reflexivity|right; apply IH; exact I].
Qed.
Theorem C207_gsd (wrap : fbox -> v3 -> v3) gimbal argsort fl calculate parse show mol wave scattering defs fuel steps infile outfile smax K M c file t0 r0 :
  0 < c -> short c (steps_of file) ->
  analyse_gsd wrap gimbal argsort fl calculate parse show mol wave scattering defs fuel steps infile outfile
    (option_map (fun m => c * m) smax) None (c * K) M (tempo_file c file) (tempo_table c t0) (tempo_relax c r0) =
  match analyse_gsd wrap gimbal argsort fl calculate parse show mol wave scattering defs fuel steps infile outfile smax None K M file t0 r0 with
  | Ok o => Ok (tempo_outcome c o) | Raise e => Raise e | OutOfFuel => OutOfFuel end.
Proof.
  intros Hc Sh. unfold analyse_gsd, gsd_reader, read_gsd_trajectory, linear_trajectory. rewrite tempo_iter. cbn [GsdModel.items GsdModel.ending].
  pose proof (loop_in smax K M (ending (iter_trajectory (map raw_of file))) (items (iter_trajectory (map raw_of file))) []) as Li.
  rewrite tempo_loop by auto. destruct (linear_loop smax K M _ _ []) as [s i]. cbn [fst GsdModel.items GsdModel.ending] in *. f_equal.
  rewrite <- C207_film; auto.
  - cbn [fst snd]. f_equal. f_equal. unfold tempo_film. rewrite !map_map. reflexivity.
  - intros a b A B. cbn [fst] in A, B. rewrite map_map in A, B. apply in_map_iff in A, B. destruct A as (p & <- & Ip), B as (q & <- & Iq). cbn [snd eframe_of e_ts].
    apply Sh; apply iter_steps, Li; auto.
  - intros a b [].
Qed.
Print Assumptions C207_film.
Print Assumptions C207_gsd.

(** The films of C126_example and C129_example with steps of a thousand *)
Lemma short_le c l : (forall s t, In s l -> In t l -> c * (t - s) < 2 ^ 32 - 1) -> short c l.
Proof. exact (fun H => H). Qed.
Lemma tempo_entry c s name i v : entry s name i v -> entry (tempo_times c s) name i (tempo_time c v).
Proof.
  intros (col & D & N). exists (map (tempo_time c) col). split; [|apply map_nth_error; auto].
  induction s as [|[k x] s IH]; cbn [dget tempo_times map fst snd] in *; [discriminate|]. destruct (String.eqb name k); [congruence|auto].
Qed.
Example C207_example : exists relax s,
  out_relax (analyse freud_wrap (fun _ => zero3) sort_index fl100 (fun _ _ => inr ValueError) ex_pf (fun _ => EmptyString)
    [mk3 0 1 0] (Some 2%R) true None e_name true (tempo_film 1000 efile, None) ([], None) None None) = Some relax /\
  In (0%nat, s) relax /\ entry s "tau_F" 7 100000 /\ entry s "tau_D" 7 200000 /\ entry s "tau_T2" 7 100000.
Proof.
  destruct C126_example as (rows & relax & s & E & _ & _ & _ & I & F & D & T).
  assert (X := C207_film freud_wrap (fun _ => zero3) sort_index fl100 (fun _ _ => inr ValueError) ex_pf (fun _ => EmptyString)
    [mk3 0 1 0] (Some 2%R) true None 1000 e_name true (efile, None) ([], None) None None eq_refl).
  cbn [fst snd] in X. fold e_run in X. rewrite E in X.
  exists (map (fun p => (fst p, tempo_times 1000 (snd p))) relax), (tempo_times 1000 s). split; [|split; [|split; [|split]]].
  - pose proof (f_equal out_relax (X ltac:(intros a b [<-|[<-|[<-|[]]]] [<-|[<-|[<-|[]]]]; reflexivity) ltac:(intros a b []))) as G. exact G.
  - apply (in_map (fun p => (fst p, tempo_times 1000 (snd p))) relax (0%nat, s)), I.
  - apply (tempo_entry 1000 s _ _ 100), F.
  - apply (tempo_entry 1000 s _ _ 200), D.
  - apply (tempo_entry 1000 s _ _ 100), T.
Qed.
Example C207_example_gsd : exists rows relax,
  analyse_gsd freud_wrap (fun _ => zero3) sort_index fl100 (fun _ _ => inr ValueError) ex_pf (fun _ => EmptyString)
    [mk3 0 1 0] (Some 2%R) true None 0 0 e_name true (Some 15000) None 10000 500 (tempo_file 1000 gfile) None None =
    Ok (tempo_outcome 1000 {| out_result := inl None; out_table := Some rows; out_relax := Some relax |}) /\
  Forall2 (row_for gT ex_pf gv 2 10 true 0 gf0) [gf0; gf1] (key_rows 0 rows).
Proof.
  destruct C129_example as (rows & relax & E & F & _). exists rows, relax. split; [|exact F].
  pose proof (C207_gsd freud_wrap (fun _ => zero3) sort_index fl100 (fun _ _ => inr ValueError) ex_pf (fun _ => EmptyString)
    [mk3 0 1 0] (Some 2%R) true None 0 0 e_name true (Some 15) 10 500 1000 gfile None None eq_refl) as X. rewrite E in X. apply X.
  intros a b A B. cbn in A, B. repeat destruct A as [<-|A]; try contradiction; repeat destruct B as [<-|B]; try contradiction; reflexivity.
Qed.
(** Beyond 2^32 - 1 the factor does not apply: the molecule that moved is not counted as relaxed. *)
Example C207_limit :
  let r := first_init 1 (Fin 1) translation in
  mr_add 100 [Fin 2] r = inl {| mr_threshold := Fin 1; mr_status := [100]; mr_type := translation; mr_last := None |} /\
  mr_add (2 ^ 26 * 100) [Fin 2] r = inl {| mr_threshold := Fin 1; mr_status := [2 ^ 32 - 1]; mr_type := translation; mr_last := None |}.
Proof. split; reflexivity. Qed.
