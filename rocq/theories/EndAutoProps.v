(** Properties C138 and C139: the analysis of a trajectory file without a wave number, which
    is what the command line does by default. *)
From Coq Require Import String Reals ZArith QArith Qreals List Bool Lra Lia.
From Verif Require Import Base DictFacts XNum RVec RVecFacts FrameModel MotionModel MotionSpec MotionProofs MotionProps
  DynModel DynSpec DynProofs DynStruct DynProps DynPerm DynTrue
  MolRelaxModel MolRelaxSpec MolRelaxProofs MolRelaxDefs MolRelaxProps
  WriteCacheModel WriteCacheSpec WriteCacheProofs WriteCacheProps ProcessModel ProcessSpec ProcessProofs ProcessProps ParamsModel ProcessPathModel ProcessPathProps
  WaveModel WaveSpec WaveProofs WaveProps EndModel EndSpec EndProofs EndProps.
Import ListNotations.
Open Scope list_scope.
Open Scope R_scope.
Notation length := List.length.

(** The box of a frame is tilted little enough for freud. *)
Definition fits (f : eframe) : Prop :=
  exists b, plane_box f b /\ has_sides b /\ 10 * sqrt (1 + bxy b ^ 2) * Rmin (bx b) (by_ b) <= 11 * bx b.
Definition too_tilted (f : eframe) : Prop :=
  exists b, plane_box f b /\ has_sides b /\ 11 * bx b < 10 * sqrt (1 + bxy b ^ 2) * Rmin (bx b) (by_ b).

(** [k] is the wave number of the frame [f]: the first maximum of the structure factor that
    belongs to the radial distribution function of its molecules, up to the shorter side over
    2.2. *)
Definition wave_number_of (rdf : fbox -> list v3 -> R -> R -> (list R * list R) + exn) (f : eframe) (k : R) : Prop :=
  exists b radii g, plane_box f b /\
    (let r := Rmin (bx b) (by_ b) / 2.2 in rdf b (e_pos f) r (r / 200)) = inl (radii, g) /\
    first_maximum (structure_factor (INR (length (e_pos f)) / (bx b * by_ b))
                     (fun i => nth i radii 0) (fun i => nth i g 0) (length radii)) k.

Lemma plane_flat f b : plane_box f b -> flat_box b /\ frame_box f = inl b.
Proof.
  intros P. split; [|apply plane_frame; auto]. unfold flat_box.
  destruct P as (Lx & Ly & Lz & [[_ ->]|(xy & xz & yz & _ & ->)]); cbn; auto.
Qed.

Section Auto.
  Variables (wrap : fbox -> v3 -> v3) (gimbal : RVec.quat -> v3) (argsort : list R -> list nat) (fl : R -> xnum)
            (rdf : fbox -> list v3 -> R -> R -> (list R * list R) + exn)
            (parse : string -> option xnum) (show : yaml -> string) (mol : list v3) (scattering : bool) (u : R).
  Notation calculate := (calculate_wave_number rdf).
  Notation analyse := (analyse wrap gimbal argsort fl calculate parse show mol None scattering None).
  Notation npos := (fun f => length (e_pos f)).

  (** The wave number of a frame, if it has one *)
  Definition chosen (f : eframe) : R :=
    match frame_box f with
    | inl b => match calculate b (e_pos f) with inl k => k | inr _ => 1 end
    | inr _ => 1
    end.
  Lemma chosen_range f : 1 / 2 <= chosen f <= 20.
  Proof.
    unfold chosen. destruct (frame_box f) as [b|e]; [|lra]. destruct (calculate b (e_pos f)) as [k|e] eqn:E; [|lra].
    apply (C136_units_partial rdf b (e_pos f) k E).
  Qed.
  Lemma fits_chosen f : rdf_ok rdf -> fits f -> wave_of calculate None chosen f /\ wave_number_of rdf f (chosen f).
  Proof.
    intros Ok (b & P & Sd & H). destruct (plane_flat f b P) as [Fb E].
    assert (Tw : ~ too_wide b (rdf_range b)) by (rewrite (flat_wide b Sd Fb); lra).
    destruct (C135_wave_number rdf b (e_pos f) (rdf_range b) Ok Sd (range_cutoff b Sd Fb) Tw) as (radii & g & k & R1 & R2 & R3).
    assert (C : chosen f = k) by (unfold chosen; rewrite E, R2; reflexivity). rewrite C. split.
    - intros b' E'. rewrite E in E'. injection E' as <-. rewrite C. exact R2.
    - exists b, radii, g. split; auto. cbv zeta. split.
      + rewrite <- R1, (flat_range b Fb). replace 2.2 with (22 / 10) by lra. reflexivity.
      + replace (bx b * by_ b) with (content b); auto. unfold content, sides. destruct Fb as (-> & _). cbn. ring.
  Qed.

  (** * C138 *)
  (** Without a wave number the scattering function and the two structural relaxations are
      missing from the rows (NaN), the other averages are those of the true motion, and the
      relaxation times of a key frame are those for the distance pi / (2 k) where [k] is the
      wave number of its first frame, which is between 1/2 and 20. *)
  Theorem C138_default_wave_number (T : eframe -> truth) N infile v gsd lammps l t0 r0 :
    wrap_ok wrap -> argsort_ok argsort -> rounds u fl -> rdf_ok rdf -> mol <> [] -> (10 <= N)%nat ->
    get_filename_vars infile = inl v -> ~ unreadable parse (v_temperature v) -> ~ unreadable parse (v_pressure v) ->
    holds infile gsd lammps l ->
    (exists K, frames_of npos K l <> []) ->
    (forall K f, In f (frames_of npos K l) -> fits f) ->
    (forall K f0 rest, frames_of npos K l = f0 :: rest -> followable T N f0 rest) ->
    exists rows relax,
      analyse infile true gsd lammps t0 r0 = {| out_result := inl None; out_table := Some rows; out_relax := Some relax |} /\
      (forall K, frames_of npos K l = [] -> key_rows K rows = []) /\
      (forall K f0 rest, frames_of npos K l = f0 :: rest ->
         Forall2 (row_without T parse v N K f0) (f0 :: rest) (key_rows K rows)) /\
      NoDup (map fst relax) /\
      (forall K, In K (map fst relax) <-> frames_of npos K l <> []) /\
      (forall K f0 rest s, frames_of npos K l = f0 :: rest -> In (K, s) relax ->
         exists k, wave_number_of rdf f0 k /\ 1 / 2 <= k <= 20 /\ reports T u k N f0 (f0 :: rest) s).
  Proof.
    intros W Ar Fl Ok Hm HN EV U1 U2 Ho HK Ft Fo.
    destruct (whole_run wrap gimbal argsort fl calculate parse show mol scattering u None chosen T N infile v gsd lammps l t0 r0)
      as (rows & relax & E & R1 & R2 & R3 & R4 & R5); auto.
    - intros f. pose proof (chosen_range f). lra.
    - discriminate.
    - intros K f I. apply fits_chosen; eauto.
    - exists rows, relax. split; [exact E|]. split; [exact R1|]. split; [exact R2|]. split; [exact R3|]. split; [exact R4|].
      intros K f0 rest s EK I. exists (chosen f0). split; [|split; [apply chosen_range|eapply R5; eauto]].
      apply fits_chosen; auto. apply (Ft K). rewrite EK. left; auto.
  Qed.

  (** * C139 *)
  (** One frame in a box that is too tilted ends the analysis, wherever it is and although the
      wave number of such a frame is not used unless it is the first of a key frame. *)
  Lemma tilted_make f : rdf_ok rdf -> too_tilted f -> e_pos f <> [] -> e_ori f <> Some [] ->
    make fl calculate parse show mol None f = inr RuntimeError.
  Proof.
    intros Ok (b & P & Sd & H) Np No. destruct (plane_flat f b P) as [Fb E].
    unfold make, make_dynamics. assert (Ed : forall X (y z : X), match e_pos f with [] => y | _ :: _ => z end = z) by (intros; destruct (e_pos f); congruence).
    rewrite Ed, E. cbn [MotionModel.ebind]. unfold dyn_init. rewrite Ed. unfold motion_init.
    destruct (C137_every_box_partial rdf b (e_pos f) Ok Sd Fb) as (C & _).
    unfold make_relaxations. rewrite E. cbn [MotionModel.ebind]. unfold motion_init.
    destruct (e_ori f) as [[|q qs]|]; [congruence| |]; cbn [MotionModel.ebind]; rewrite (C H); reflexivity.
  Qed.

  Theorem C139_tilted_partial (T : eframe -> truth) N infile v gsd lammps l1 K0 idx f l2 t0 r0 :
    wrap_ok wrap -> argsort_ok argsort -> rounds u fl -> rdf_ok rdf -> mol <> [] -> (10 <= N)%nat ->
    get_filename_vars infile = inl v -> ~ unreadable parse (v_temperature v) -> ~ unreadable parse (v_pressure v) ->
    holds infile gsd lammps (l1 ++ (K0 :: idx, f) :: l2) ->
    (forall K g, In g (frames_of npos K l1) -> fits g) ->
    (forall K f0 rest, frames_of npos K l1 = f0 :: rest -> followable T N f0 rest) ->
    too_tilted f -> e_pos f <> [] -> e_ori f <> Some [] ->
    let out := analyse infile true gsd lammps t0 r0 in
    out_result out = inr RuntimeError /\ out_relax out = r0.
  Proof.
    intros W Ar Fl Ok Hm HN EV U1 U2 Ho Ft Fo Ti Np No out.
    destruct (pure_run wrap gimbal argsort fl calculate parse show mol None chosen scattering u T N v W Ar Fl) with (l := vlist npos l1) as (d & rows & P & _); auto.
    - intros g. pose proof (chosen_range g). lra.
    - discriminate.
    - intros K g I. apply fits_chosen; auto. apply (Ft K). rewrite <- kframes_of. unfold kframes. apply in_map_iff. exists (K, g). split; auto.
      apply filter_In. split; auto. apply Nat.eqb_refl.
    - intros K f0 rest E. rewrite kframes_of in E. eapply Fo; eauto.
    - assert (M := tilted_make f Ok Ti Np No).
      assert (V : vlist npos (l1 ++ (K0 :: idx, f) :: l2) = vlist npos l1 ++ (K0, f) :: (map (fun k => (k, f)) idx ++ vlist npos l2)).
      { unfold vlist. rewrite flat_map_app. cbn [flat_map fst snd]. destruct (Nat.eqb_spec (length (e_pos f)) 0) as [E|_]; [destruct (e_pos f); cbn in E; congruence|]. reflexivity. }
      assert (X : snd (pure (make fl calculate parse show mol None) None (compute wrap gimbal argsort scattering) (radd wrap gimbal fl) (label_vars parse v)
                  (vlist npos (l1 ++ (K0 :: idx, f) :: l2)) []) = Some RuntimeError).
      { rewrite V, pure_app, P. cbn [pure]. unfold solo. rewrite M. reflexivity. }
      unfold out, EndModel.analyse, process_path. rewrite EV.
      assert (E : (if String.eqb (path_suffix infile) ".gsd" then Some gsd else if String.eqb (path_suffix infile) ".lammpstrj" then Some lammps else None) = Some (l1 ++ (K0 :: idx, f) :: l2, None)).
      { destruct Ho as [[-> ->]|[-> ->]]; reflexivity. }
      rewrite E. unfold process_file. cbn [custom]. rewrite frames_flat.
      assert (Q := pure_none_flat (make fl calculate parse show mol None) None (compute wrap gimbal argsort scattering) (radd wrap gimbal fl) (label_vars parse v)
                     (vlist npos (l1 ++ (K0 :: idx, f) :: l2)) {| ps_keys := []; ps_cache := wc_new true true 1 false; ps_table := t0 |} eq_refl eq_refl).
      cbn [ps_keys] in Q. rewrite X in Q. destruct (flat _ _ _ _ _ _ _) as [s e]. cbn [snd] in Q. subst e. cbn. auto.
  Qed.
End Auto.

Lemma e_fits ts x q : fits (ef ts x q).
Proof.
  exists ebox. split; [apply ef_plane|]. split; [unfold has_sides; cbn; repeat split; try lra; discriminate|]. cbn [bx by_ bxy ebox].
  replace (1 + 0 ^ 2) with 1 by ring. rewrite sqrt_1. unfold Rmin. destruct (Rle_dec 10 10); lra.
Qed.
(** The example of C126, without a wave number *)
Example C138_example : exists rows relax s k,
  analyse freud_wrap (fun _ => zero3) sort_index fl100 (calculate_wave_number histogram) ex_pf (fun _ => EmptyString)
    [mk3 0 1 0] None true None e_name true (efile, None) ([], None) None None
    = {| out_result := inl None; out_table := Some rows; out_relax := Some relax |} /\
  Forall2 (row_without eT ex_pf {| v_temperature := Some "1.20"; v_pressure := Some "13.50"; v_crystal := None; v_iteration := None |} 10 0 ef0)
    [ef0; ef1; ef2] (key_rows 0 rows) /\ In (0%nat, s) relax /\
  wave_number_of histogram ef0 k /\ entry s "tau_T2" 7 100 /\ reports eT (1 / 100) k 10 ef0 [ef0; ef1; ef2] s.
Proof.
  destruct (C138_default_wave_number freud_wrap (fun _ => zero3) sort_index fl100 histogram ex_pf (fun _ => EmptyString)
            [mk3 0 1 0] true (1 / 100) eT 10 e_name {| v_temperature := Some "1.20"; v_pressure := Some "13.50"; v_crystal := None; v_iteration := None |}
            (efile, None) ([], None) efile None None
            freud_wrap_ok sort_index_ok fl100_rounds histogram_ok ltac:(discriminate) ltac:(lia) eq_refl) as (rows & relax & E & _ & R1 & _ & R2 & R3).
  - intros (x & [= <-] & U). vm_compute in U. discriminate.
  - intros (x & [= <-] & U). vm_compute in U. discriminate.
  - left. split; reflexivity.
  - exists 0%nat. cbn. discriminate.
  - intros K f I. destruct K as [|[|K]]; cbn in I; repeat (destruct I as [<-|I]; [apply e_fits|]); destruct I.
  - apply e_followable.
  - assert (I : In 0%nat (map fst relax)) by (apply R2; cbn; discriminate). apply in_map_iff in I. destruct I as ([K s] & EK & I). cbn in EK. subst K.
    destruct (R3 0%nat ef0 [ef1; ef2] s eq_refl I) as (k & K1 & K2 & K3).
    exists rows, relax, s, k. split; [exact E|]. split; [apply R1; reflexivity|]. split; [exact I|]. split; [exact K1|]. split; [|exact K3].
    destruct K3 as (_ & _ & K3). destruct (K3 7%nat ltac:(lia)) as (_ & _ & _ & (v & V1 & V2) & _).
    assert (v = 100%Z); [|subst; exact V1]. rewrite e_spins in V2 by lia. pose proof pi_above_3. pose proof PI_4. destruct V2 as (A & _ & B).
    assert (v <= 100)%Z by (apply (B 100%Z (5 / 2)); [cbn; auto|unfold surely; lra]).
    destruct A as [->|(x & A & M)]; [lia|]. unfold maybe in M. cbn [In] in A. destruct A as [[= <- <-]|[[= <- <-]|[[= <- <-]|[]]]]; auto; lra.
Qed.

(** Two frames of the same motion, the second of which says that the box is sheared by half a
    side: with any wave number both key frames are analysed, without one there is an
    exception, whatever the radial distribution function *)
Definition sheared : eframe := mkframe 105 [10; 10; 1; 1 / 2; 0; 0] (repeat (mk3 (- (7 / 2)) 0 0) 10) (Some (repeat (qneg (zquat (5 / 2))) 10)).
Definition sfile : list (list nat * eframe) := [([0%nat], ef0); ([0%nat], sheared)].
Lemma sheared_shown : shown_in eT ebox 10 sheared.
Proof. exact e_shown1. Qed.
Lemma s_followable K f0 rest : frames_of (fun f => length (e_pos f)) K sfile = f0 :: rest -> followable eT 10 f0 rest.
Proof.
  intros E. assert (C : f0 :: rest = [ef0; sheared]) by (destruct K as [|K]; cbn in E; [auto|discriminate]). injection C as -> ->.
  exists ebox. split; [apply ef_plane|]. split; [apply ebox_ok|]. split; [auto 6 using e_shown0, sheared_shown, Forall_cons, Forall_nil|]. split.
  - cbn [map chain]. split; [exact e_slow01|exact Logic.I].
  - intros f [<-|[]]. eexists. exists 10, 10, 1. right. exists (1 / 2), 0, 0. split; reflexivity.
Qed.
Lemma sheared_tilted : too_tilted sheared.
Proof.
  exists (mkbox 10 10 0 (1 / 2) 0 0 true). split; [exists 10, 10, 1; right; exists (1 / 2), 0, 0; split; reflexivity|].
  split; [unfold has_sides; cbn; repeat split; try lra; discriminate|]. cbn [bx by_ bxy].
  unfold Rmin. destruct (Rle_dec _ _); [|lra].
  assert (1.1 < sqrt (1 + (1 / 2) ^ 2)); [|lra]. rewrite <- (sqrt_square 1.1) by lra. apply sqrt_lt_1_alt. lra.
Qed.
Theorem C139_tilted_refuted : exists infile l (T : eframe -> truth) N,
  (forall K f0 rest, frames_of (fun f => length (e_pos f)) K l = f0 :: rest -> followable T N f0 rest) /\
  (forall calculate k, 0 < k ->
     out_result (analyse freud_wrap (fun _ => zero3) sort_index fl100 calculate ex_pf (fun _ => EmptyString)
                   [mk3 0 1 0] (Some k) true None infile true (l, None) ([], None) None None) = inl None) /\
  (forall rdf, rdf_ok rdf ->
     out_result (analyse freud_wrap (fun _ => zero3) sort_index fl100 (calculate_wave_number rdf) ex_pf (fun _ => EmptyString)
                   [mk3 0 1 0] None true None infile true (l, None) ([], None) None None) = inr RuntimeError).
Proof.
  exists e_name, sfile, eT, 10%nat. split; [apply s_followable|]. split.
  - intros calculate k Hk.
    destruct (C126_trajectory freud_wrap (fun _ => zero3) sort_index fl100 calculate ex_pf (fun _ => EmptyString)
            [mk3 0 1 0] k true (1 / 100) eT 10 e_name {| v_temperature := Some "1.20"; v_pressure := Some "13.50"; v_crystal := None; v_iteration := None |}
            (sfile, None) ([], None) sfile None None
            freud_wrap_ok sort_index_ok fl100_rounds Hk ltac:(discriminate) ltac:(lia) eq_refl) as (rows & relax & E & _).
    + intros (x & [= <-] & U). vm_compute in U. discriminate.
    + intros (x & [= <-] & U). vm_compute in U. discriminate.
    + left. split; reflexivity.
    + exists 0%nat. cbn. discriminate.
    + apply s_followable.
    + rewrite E. reflexivity.
  - intros rdf Ok.
    apply (C139_tilted_partial freud_wrap (fun _ => zero3) sort_index fl100 rdf ex_pf (fun _ => EmptyString)
            [mk3 0 1 0] true (1 / 100) eT 10 e_name {| v_temperature := Some "1.20"; v_pressure := Some "13.50"; v_crystal := None; v_iteration := None |}
            (sfile, None) ([], None) [([0%nat], ef0)] 0%nat [] sheared [] None None
            freud_wrap_ok sort_index_ok fl100_rounds Ok ltac:(discriminate) ltac:(lia) eq_refl).
    + intros (x & [= <-] & U). vm_compute in U. discriminate.
    + intros (x & [= <-] & U). vm_compute in U. discriminate.
    + left. split; reflexivity.
    + intros K g I. destruct K as [|K]; cbn in I; repeat (destruct I as [<-|I]; [apply e_fits|]); destruct I.
    + intros K f0 rest E. assert (C : f0 :: rest = [ef0]) by (destruct K as [|K]; cbn in E; [auto|discriminate]). injection C as -> ->.
      exists ebox. split; [apply ef_plane|]. split; [apply ebox_ok|]. split; [auto using e_shown0, Forall_cons, Forall_nil|]. split; [exact Logic.I|]. intros f [].
    + apply sheared_tilted.
    + discriminate.
    + discriminate.
Qed.
Print Assumptions C139_tilted_refuted.
Print Assumptions C138_default_wave_number.
Print Assumptions C139_tilted_partial.
