(** Property C126: the relaxation times and averages written for a trajectory file are those
    of the true motion. *)
From Coq Require Import String Reals ZArith QArith Qreals List Bool Lra Lia.
From Verif Require Import Base DictFacts XNum RVec RVecFacts FrameModel MotionModel MotionSpec MotionProofs MotionProps
  DynModel DynSpec DynProofs DynStruct DynProps DynPerm DynTrue
  MolRelaxModel MolRelaxSpec MolRelaxProofs MolRelaxDefs MolRelaxProps
  WriteCacheModel WriteCacheSpec WriteCacheProofs WriteCacheProps ProcessModel ProcessSpec ProcessProofs ProcessProps ParamsModel ProcessPathModel ProcessPathProps EndModel EndSpec EndProofs.
Import ListNotations.
Open Scope list_scope.
Open Scope R_scope.
Notation length := List.length.

(** A run without exceptions writes both tables. *)
Lemma process_file_written {D R F Row Out Sum : Type} npos mk custom compute radd label (summ : R -> Sum) l t0 r0 d rows :
  @pure D R F Row Out mk custom compute radd label (vlist npos l) [] = (d, rows, None) -> d <> [] ->
  let out := process_file npos mk custom compute radd label summ true None None (Some (l, None)) t0 r0 in
  out_result out = inl None /\ out_table out = (match rows with [] => t0 | _ => Some rows end) /\
  out_relax out = Some (map (fun p => (fst p, summ (snd (snd p)))) d).
Proof.
  intros P Nd out. assert (T := file_or_memory npos mk custom compute radd label summ l t0 r0 d rows None P).
  cbv zeta in T. destruct T as (T & _). fold out in T.
  set (s0 := {| ps_keys := []; ps_cache := wc_new true true 1 false; ps_table := t0 |} : pstate D R Out).
  destruct (flat_named mk custom compute radd label (vlist npos l) s0 d rows None eq_refl eq_refl P) as (w & t & H1 & H2 & H3 & H4).
  split; [|split; [exact T|]].
  - unfold out, process_file. fold s0. rewrite frames_flat, H4. cbn [ps_cache ps_table ps_keys].
    unfold flush. rewrite H2, H3. cbn. destruct d; [congruence|]. reflexivity.
  - unfold out, process_file. fold s0. rewrite frames_flat, H4. cbn [ps_cache ps_table ps_keys].
    unfold flush. rewrite H2, H3. cbn. destruct d; [congruence|]. reflexivity.
Qed.

Section Reports.
  Variables (fl : R -> xnum) (wave : option R) (kw : eframe -> R) (u : R) (T : eframe -> truth) (N : nat).
  Hypothesis Fl : rounds u fl.
  Hypothesis Hk : forall f, 0 < kw f.

  Lemma seen_hist f0 fs i ty : (i < N)%nat ->
    seen N i (hist fl T N f0 fs ty) = rounded fl (match ty with rotation => spins T f0 i fs | translation => moves T f0 i fs end).
  Proof.
    intros Hi. unfold seen, hist, rounded. rewrite flat_map_concat_map, map_map.
    assert (L : forall f, length (far fl T N f0 f ty) = N) by (intros; unfold far; rewrite map_length, seq_length; auto).
    assert (E : forall f, nth i (far fl T N f0 f ty) NaN =
              fl (match ty with rotation => Rabs (angle (T f0) (T f) i) | translation => sqrt (moved2 (T f0) (T f) i) end)).
    { intros f. unfold far. rewrite nth_indep with (d' := fl (match ty with rotation => Rabs (angle (T f0) (T f) 0) | translation => sqrt (moved2 (T f0) (T f) 0) end))
        by (rewrite map_length, seq_length; auto).
      rewrite (map_nth (fun i => fl (match ty with rotation => Rabs (angle (T f0) (T f) i) | translation => sqrt (moved2 (T f0) (T f) i) end)) (seq 0 N) 0%nat i).
      rewrite seq_nth by auto. reflexivity. }
    destruct ty; unfold moves, spins; rewrite map_map; induction fs as [|f fs IH]; cbn [map concat fst snd]; auto;
      rewrite L, Nat.eqb_refl; cbn [app]; rewrite E; f_equal; exact IH.
  Qed.
  Lemma moves_nonneg f0 i fs c : In c (moves T f0 i fs) -> 0 <= snd c.
  Proof. intros I. unfold moves in I. apply in_map_iff in I. destruct I as (f & <- & _). cbn. apply sqrt_pos. Qed.
  Lemma spins_nonneg f0 i fs c : In c (spins T f0 i fs) -> 0 <= snd c.
  Proof. intros I. unfold spins in I. apply in_map_iff in I. destruct I as (f & <- & _). cbn. apply Rabs_pos. Qed.

  Lemma first_entry f0 fs i thr a ty : (i < N)%nat -> 0 <= thr -> approx u thr a ->
    exists v, nth_error (get_status (observe (first_init N a ty) (hist fl T N f0 fs ty))) i = Some v /\
      first_about u thr (match ty with rotation => spins T f0 i fs | translation => moves T f0 i fs end) v.
  Proof.
    intros Hi H0 A. destruct (C31_first_passage N a ty (hist fl T N f0 fs ty)) as [_ C]. destruct (C i Hi) as (v & E & V).
    exists v. split; auto. rewrite seen_hist in V by auto. eapply earliest_about; eauto.
    intros c I. destruct ty; [eapply spins_nonneg|eapply moves_nonneg]; eauto.
  Qed.
  Lemma last_entry f0 fs i thr cut a b : (i < N)%nat -> 0 <= thr -> thr <= cut -> approx u thr a -> approx u cut b ->
    exists v, nth_error (get_status (observe (last_init N a b translation) (hist fl T N f0 fs translation))) i = Some v /\
      ((forall t x, In (t, x) (moves T f0 i fs) -> clear u thr x /\ clear u cut x) -> last_passage thr cut (moves T f0 i fs) v).
  Proof.
    intros Hi H0 H1 A B. destruct (C34_last_passage N a b translation (hist fl T N f0 fs translation)) as [_ C]. destruct (C i Hi) as (v & E & V).
    exists v. split; auto. intros P. rewrite seen_hist in V by auto. eapply (last_exit_passage u fl Fl); eauto.
    intros [t x] I. split; [eapply moves_nonneg; eauto|apply (P t x I)].
  Qed.

  Lemma good_reports mol b f0 fs d r : good fl mol wave kw T N b f0 fs (d, r) -> reports T u (kw f0) N f0 fs (summary (r_relax r)).
  Proof.
    intros (_ & _ & _ & _ & G). set (k := kw f0). assert (Hk0 : 0 < k) by apply Hk. unfold summary. rewrite G, map_map. cbn [map six fst snd]. cbn [mr_type first_init last_init].
    pose proof PI_RGT_0. assert (Hd : 0 < PI / (2 * k)) by (apply Rdiv_lt_0_compat; lra).
    destruct Fl as [Hu Hf]. assert (A3 := approx_triple u _ _ (Hf (PI / (2 * k)))).
    unfold reports. cbn [map fst]. split; [reflexivity|]. split.
    - intros nm col I. cbn [In] in I.
      repeat (destruct I as [I|I]; [injection I as _ <-; (apply status_length_first || apply status_length_last)|]). destruct I.
    - intros i Hi. unfold entry. cbn [dget String.eqb Ascii.eqb Bool.eqb].
      split; [|split; [|split; [|split; [|split]]]].
      + destruct (first_entry f0 fs i (3 * (PI / (2 * k))) _ translation Hi ltac:(lra) A3) as (v & E & V). exists v. split; eauto.
      + destruct (first_entry f0 fs i (PI / (2 * k)) _ translation Hi ltac:(lra) (Hf _)) as (v & E & V). exists v. split; eauto.
      + destruct (last_entry f0 fs i (PI / (2 * k)) (3 * (PI / (2 * k))) _ _ Hi ltac:(lra) ltac:(lra) (Hf _) A3) as (v & E & V). exists v. split; eauto.
      + destruct (first_entry f0 fs i (PI / 2) _ rotation Hi ltac:(lra) (Hf _)) as (v & E & V). exists v. split; eauto.
      + destruct (first_entry f0 fs i (PI / 3) _ rotation Hi ltac:(lra) (Hf _)) as (v & E & V). exists v. split; eauto.
      + destruct (first_entry f0 fs i (PI / 4) _ rotation Hi ltac:(lra) (Hf _)) as (v & E & V). exists v. split; eauto.
  Qed.
End Reports.

(** * C126 *)
Section Whole.
  Variables (wrap : fbox -> v3 -> v3) (gimbal : RVec.quat -> v3) (argsort : list R -> list nat) (fl : R -> xnum)
            (calculate : fbox -> list v3 -> R + exn) (parse : string -> option xnum) (show : yaml -> string)
            (mol : list v3) (k : R) (scattering : bool) (u : R).
  Notation analyse := (analyse wrap gimbal argsort fl calculate parse show mol (Some k) scattering None).
  Notation npos := (fun f => length (e_pos f)).

  (** The frames [l] of the file [infile] *)
  Definition holds (infile : string) (gsd lammps : list (list nat * eframe) * option exn) (l : list (list nat * eframe)) : Prop :=
    (path_suffix infile = ".gsd"%string /\ gsd = (l, None)) \/ (path_suffix infile = ".lammpstrj"%string /\ lammps = (l, None)).

  (** The same with or without a wave number; the frame [f] is given the wave number [kw f]. *)
  Lemma whole_run (wave : option R) (kw : eframe -> R) (T : eframe -> truth) N infile v gsd lammps l t0 r0 :
    (forall f, 0 < kw f) -> (forall k, wave = Some k -> forall f, kw f = k) ->
    wrap_ok wrap -> argsort_ok argsort -> rounds u fl -> mol <> [] -> (10 <= N)%nat ->
    get_filename_vars infile = inl v -> ~ unreadable parse (v_temperature v) -> ~ unreadable parse (v_pressure v) ->
    holds infile gsd lammps l ->
    (exists K, frames_of npos K l <> []) ->
    (forall K f, In f (frames_of npos K l) -> wave_of calculate wave kw f) ->
    (forall K f0 rest, frames_of npos K l = f0 :: rest -> followable T N f0 rest) ->
    exists rows relax,
      EndModel.analyse wrap gimbal argsort fl calculate parse show mol wave scattering None infile true gsd lammps t0 r0 =
        {| out_result := inl None; out_table := Some rows; out_relax := Some relax |} /\
      (forall K, frames_of npos K l = [] -> key_rows K rows = []) /\
      (forall K f0 rest, frames_of npos K l = f0 :: rest ->
         Forall2 (row_told parse wave scattering T N v K f0) (f0 :: rest) (key_rows K rows)) /\
      NoDup (map fst relax) /\
      (forall K, In K (map fst relax) <-> frames_of npos K l <> []) /\
      (forall K f0 rest s, frames_of npos K l = f0 :: rest -> In (K, s) relax -> reports T u (kw f0) N f0 (f0 :: rest) s).
  Proof.
    intros Hk Hw W Ar Fl Hm HN EV U1 U2 Ho [K0 HK0] Wv Fo.
    destruct (pure_run wrap gimbal argsort fl calculate parse show mol wave kw scattering u T N v W Ar Fl Hk Hm HN U1 U2 Hw (vlist npos l)) as (d & rows & P & ND & Inv).
    { intros K f I. apply (Wv K). rewrite <- kframes_of. unfold kframes. apply in_map_iff. exists (K, f). split; auto.
      apply filter_In. split; auto. apply Nat.eqb_refl. }
    { intros K f0 rest E. rewrite kframes_of in E. eapply Fo; eauto. }
    assert (Nd : d <> []).
    { specialize (Inv K0). rewrite kframes_of in Inv. destruct (frames_of npos K0 l); [congruence|]. destruct Inv as (b & x & _ & _ & E & _).
      intros ->. discriminate. }
    assert (Nr : rows <> []).
    { specialize (Inv K0). rewrite kframes_of in Inv. destruct (frames_of npos K0 l); [congruence|]. destruct Inv as (b & x & _ & _ & _ & _ & F).
      intros ->. inversion F. }
    assert (FE : float_exn parse v = None).
    { apply (C57_readable_partial (Row := Datatypes.unit) parse infile v EV U1 U2). }
    exists rows, (map (fun p => (fst p, summary (r_relax (snd (snd p))))) d).
    split; [|split; [|split; [|split; [|split]]]].
    - unfold EndModel.analyse, process_path. rewrite EV, FE.
      assert (E : (if String.eqb (path_suffix infile) ".gsd" then Some gsd else if String.eqb (path_suffix infile) ".lammpstrj" then Some lammps else None) = Some (l, None)).
      { destruct Ho as [[-> ->]|[-> ->]]; reflexivity. }
      cbv zeta. rewrite E.
      destruct (process_file_written npos (make fl calculate parse show mol wave) None (compute wrap gimbal argsort scattering) (radd wrap gimbal fl)
                  (label_vars parse v) (fun x => summary (r_relax x)) l t0 r0 d rows P Nd) as (E1 & E2 & E3). cbv zeta in E1, E2, E3.
      cbn [custom]. destruct (process_file _ _ _ _ _ _ _ _ _ _ _ _ _) as [o1 o2 o3]. cbn in *. subst. destruct rows; [congruence|]. reflexivity.
    - intros K E. specialize (Inv K). rewrite kframes_of, E in Inv. apply Inv.
    - intros K f0 rest E. specialize (Inv K). rewrite kframes_of, E in Inv. destruct Inv as (b & x & _ & _ & _ & _ & F). exact F.
    - rewrite map_map. exact ND.
    - intros K. rewrite map_map. change (In K (dkeys d) <-> frames_of npos K l <> []). rewrite <- (dget_In Nat.eqb Nat.eqb_eq).
      specialize (Inv K). rewrite kframes_of in Inv. destruct (frames_of npos K l).
      + destruct Inv as [-> _]. tauto.
      + destruct Inv as (b & x & _ & _ & -> & _). split; intros; discriminate.
    - intros K f0 rest s E I. specialize (Inv K). rewrite kframes_of, E in Inv. destruct Inv as (b & [dd rr] & _ & _ & G1 & G2 & _).
      apply in_map_iff in I. destruct I as ([K' [dd' rr']] & [= -> <-] & I). apply (In_dget Nat.eqb Nat.eqb_eq) in I; auto.
      rewrite G1 in I. injection I as <- <-. cbn [snd]. eapply good_reports; eauto.
  Qed.

  (** Whatever the true motion [T] of [N] molecules, if every key frame can be followed, then
      process_file writes to its output file
      - for every frame of every key frame the row of averages of the true motion, and
      - for every key frame the six relaxation times of each molecule: the times of passage
        of its true displacement and of its true angle. *)
  Theorem C126_trajectory (T : eframe -> truth) N infile v gsd lammps l t0 r0 :
    wrap_ok wrap -> argsort_ok argsort -> rounds u fl -> 0 < k -> mol <> [] -> (10 <= N)%nat ->
    get_filename_vars infile = inl v -> ~ unreadable parse (v_temperature v) -> ~ unreadable parse (v_pressure v) ->
    holds infile gsd lammps l ->
    (exists K, frames_of npos K l <> []) ->
    (forall K f0 rest, frames_of npos K l = f0 :: rest -> followable T N f0 rest) ->
    exists rows relax,
      analyse infile true gsd lammps t0 r0 = {| out_result := inl None; out_table := Some rows; out_relax := Some relax |} /\
      (forall K, frames_of npos K l = [] -> key_rows K rows = []) /\
      (forall K f0 rest, frames_of npos K l = f0 :: rest ->
         Forall2 (row_for T parse v k N scattering K f0) (f0 :: rest) (key_rows K rows)) /\
      NoDup (map fst relax) /\
      (forall K, In K (map fst relax) <-> frames_of npos K l <> []) /\
      (forall K f0 rest s, frames_of npos K l = f0 :: rest -> In (K, s) relax -> reports T u k N f0 (f0 :: rest) s).
  Proof.
    intros W Ar Fl Hk Hm HN EV U1 U2 Ho HK Fo.
    apply (whole_run (Some k) (fun _ => k) T N infile v gsd lammps l t0 r0); auto.
    - intros ? [= ->]; auto.
    - intros K f _ b _. reflexivity.
  Qed.
End Whole.

(** When no distance is within the rounding of a threshold the times are those of the true
    motion, exactly. *)
Definition exactly (T : eframe -> truth) (k : R) (N : nat) (f0 : eframe) (fs : list eframe) (s : dict string (list Z)) : Prop :=
  let D := PI / (2 * k) in
  forall i, (i < N)%nat -> exists d f l t2 t3 t4,
    entry s "tau_D" i d /\ first_passage (3 * D) (moves T f0 i fs) d /\
    entry s "tau_F" i f /\ first_passage D (moves T f0 i fs) f /\
    entry s "tau_L" i l /\ last_passage D (3 * D) (moves T f0 i fs) l /\
    entry s "tau_T2" i t2 /\ first_passage (PI / 2) (spins T f0 i fs) t2 /\
    entry s "tau_T3" i t3 /\ first_passage (PI / 3) (spins T f0 i fs) t3 /\
    entry s "tau_T4" i t4 /\ first_passage (PI / 4) (spins T f0 i fs) t4.
Definition well_apart (T : eframe -> truth) (u k : R) (N : nat) (f0 : eframe) (fs : list eframe) : Prop :=
  let D := PI / (2 * k) in
  forall i, (i < N)%nat ->
    (forall t x, In (t, x) (moves T f0 i fs) -> clear u D x /\ clear u (3 * D) x) /\
    (forall t x, In (t, x) (spins T f0 i fs) -> clear u (PI / 2) x /\ clear u (PI / 3) x /\ clear u (PI / 4) x).
Lemma reports_exactly T u k N f0 fs s : 0 <= u < 1 -> 0 < k -> reports T u k N f0 fs s -> well_apart T u k N f0 fs -> exactly T k N f0 fs s.
Proof.
  intros Hu Hk (_ & _ & H) W i Hi. destruct (H i Hi) as ((d & D1 & D2) & (f & F1 & F2) & (l & L1 & L2) & (t2 & A1 & A2) & (t3 & B1 & B2) & (t4 & G1 & G2)).
  destruct (W i Hi) as (W1 & W2). pose proof PI_RGT_0. assert (Hd : 0 < PI / (2 * k)) by (apply Rdiv_lt_0_compat; lra).
  assert (M : forall thr w, 0 <= thr -> (forall t x, In (t, x) (moves T f0 i fs) -> clear u thr x) ->
              first_about u thr (moves T f0 i fs) w -> first_passage thr (moves T f0 i fs) w).
  { intros thr w Ht Hc. apply (about_exact u); auto. intros t x Ix. split; [apply (moves_nonneg T f0 i fs (t, x) Ix)|apply (Hc t x Ix)]. }
  assert (P : forall thr w, 0 <= thr -> (forall t x, In (t, x) (spins T f0 i fs) -> clear u thr x) ->
              first_about u thr (spins T f0 i fs) w -> first_passage thr (spins T f0 i fs) w).
  { intros thr w Ht Hc. apply (about_exact u); auto. intros t x Ix. split; [apply (spins_nonneg T f0 i fs (t, x) Ix)|apply (Hc t x Ix)]. }
  exists d, f, l, t2, t3, t4.
  split; [auto|]. split; [apply M; auto; [lra|]; intros t x Ix; apply (W1 t x Ix)|].
  split; [auto|]. split; [apply M; auto; [lra|]; intros t x Ix; apply (W1 t x Ix)|].
  split; [auto|]. split; [apply L2, W1|].
  split; [auto|]. split; [apply P; auto; [lra|]; intros t x Ix; apply (W2 t x Ix)|].
  split; [auto|]. split; [apply P; auto; [lra|]; intros t x Ix; apply (W2 t x Ix)|].
  split; [auto|]. apply P; auto; [lra|]; intros t x Ix; apply (W2 t x Ix).
Qed.
Theorem C126_exact_times (wrap : fbox -> v3 -> v3) gimbal argsort fl calculate parse show mol k scattering u
        (T : eframe -> truth) N infile v gsd lammps l t0 r0 out :
  wrap_ok wrap -> argsort_ok argsort -> rounds u fl -> 0 < k -> mol <> [] -> (10 <= N)%nat ->
  get_filename_vars infile = inl v -> ~ unreadable parse (v_temperature v) -> ~ unreadable parse (v_pressure v) ->
  holds infile gsd lammps l ->
  (forall K f0 rest, frames_of (fun f => length (e_pos f)) K l = f0 :: rest -> followable T N f0 rest) ->
  analyse wrap gimbal argsort fl calculate parse show mol (Some k) scattering None infile true gsd lammps t0 r0 = out ->
  forall K f0 rest, frames_of (fun f => length (e_pos f)) K l = f0 :: rest -> well_apart T u k N f0 (f0 :: rest) ->
  exists relax s, out_relax out = Some relax /\ In (K, s) relax /\ exactly T k N f0 (f0 :: rest) s.
Proof.
  intros W Ar Fl Hk Hm HN EV U1 U2 Ho Fo <- K f0 rest E WA.
  destruct (C126_trajectory wrap gimbal argsort fl calculate parse show mol k scattering u T N infile v gsd lammps l t0 r0 W Ar Fl Hk Hm HN EV U1 U2 Ho)
    as (rows & relax & -> & _ & _ & _ & R1 & R2); auto.
  { exists K. rewrite E. discriminate. }
  assert (I : In K (map fst relax)) by (apply R1; rewrite E; discriminate). apply in_map_iff in I. destruct I as ([K' s] & EK & I). cbn in EK. subst K'.
  exists relax, s. split; auto. split; auto. apply (reports_exactly T u); auto; [apply Fl|eapply R2; eauto].
Qed.
Print Assumptions C126_trajectory.
Print Assumptions C126_exact_times.

(** ** The contracts hold for an example. *)
(** Rounding down with a relative error of one percent *)
Definition fl100 (x : R) : xnum :=
  if Req_EM_T x 0 then Fin 0
  else let m := (100 * up (/ Rabs x))%Z in Fin (Int_part (x * IZR m) # Z.to_pos m).
Lemma fl100_rounds : rounds (1 / 100) fl100.
Proof.
  split; [lra|]. intros x. unfold fl100, approx. destruct (Req_EM_T x 0) as [->|Nx].
  - exists 0%Q. split; auto. replace (Q2R 0 - 0) with 0 by (unfold Q2R; cbn; lra). rewrite Rabs_R0. lra.
  - eexists. split; [reflexivity|]. set (m := (100 * up (/ Rabs x))%Z).
    assert (Hx : 0 < Rabs x) by (apply Rabs_pos_lt; auto).
    assert (Hi : 0 < / Rabs x) by (apply Rinv_0_lt_compat; auto).
    destruct (archimed (/ Rabs x)) as [A _].
    assert (Hm : 100 * / Rabs x < IZR m) by (unfold m; rewrite mult_IZR; lra).
    assert (Pm : (0 < m)%Z) by (apply lt_IZR; lra).
    unfold Q2R. cbn [Qnum Qden]. rewrite Z2Pos.id by auto.
    destruct (base_Int_part (x * IZR m)) as [B1 B2].
    assert (M0 : 0 < IZR m) by (apply IZR_lt; auto).
    replace (IZR (Int_part (x * IZR m)) * / IZR m - x) with (- ((x * IZR m - IZR (Int_part (x * IZR m))) * / IZR m)) by (field; lra).
    assert (Mi : 0 < / IZR m) by (apply Rinv_0_lt_compat; auto).
    rewrite Rabs_Ropp, Rabs_pos_eq by (apply Rmult_le_pos; lra).
    apply Rle_trans with (1 * / IZR m); [apply Rmult_le_compat_r; lra|]. rewrite Rmult_1_l.
    apply Rmult_le_reg_r with (IZR m); auto. rewrite Rinv_l by lra.
    apply Rle_trans with (1 / 100 * Rabs x * (100 * / Rabs x)); [right; field; lra|].
    apply Rmult_le_compat_l; lra.
Qed.

(** Ten molecules move along x from 4.5 to 6.5 and to 10.5 in a box of 10, and turn by 2.5 and
    then back; the positions in the file are in the box and one frame has quaternions of the
    other sign.  The middle frame is a key frame too. *)
Definition ef (ts : Z) (x : R) (q : RVec.quat) : eframe :=
  mkframe ts [10; 10; 1; 0; 0; 0] (repeat (mk3 x 0 0) 10) (Some (repeat q 10)).
Definition ef0 := ef 5 (9 / 2) (zquat 0).
Definition ef1 := ef 105 (- (7 / 2)) (qneg (zquat (5 / 2))).
Definition ef2 := ef 205 (1 / 2) (zquat 0).
Definition eT (f : eframe) : truth :=
  if (e_ts f =? 5)%Z then (repeat (mk3 (9 / 2) 0 0) 10, repeat 0 10)
  else if (e_ts f =? 105)%Z then (repeat (mk3 (13 / 2) 0 0) 10, repeat (5 / 2) 10)
  else (repeat (mk3 (21 / 2) 0 0) 10, repeat 0 10).
Definition efile : list (list nat * eframe) := [([0%nat], ef0); ([0%nat; 1%nat], ef1); ([0%nat; 1%nat], ef2)].
Definition ebox : fbox := mkbox 10 10 0 0 0 0 true.
Lemma ebox_ok : box_ok ebox.
Proof. unfold box_ok. cbn. split; [lra|]. split; [lra|discriminate]. Qed.
Lemma ef_shown ts x q u t : e_ts (ef ts x q) = ts -> eT (ef ts x q) = (repeat (mk3 u 0 0) 10, repeat t 10) ->
  (exists i, x - u = IZR i * 10) -> turned q t -> shown_in eT ebox 10 (ef ts x q).
Proof.
  intros _ E (i & Hi) Tq. unfold shown_in. rewrite E. cbn [fst snd ef e_pos e_ori]. rewrite !repeat_length. split; [|split; [|split]]; auto.
  - apply Forall2_repeat. exists i, 0%Z, 0%Z. split; auto. unfold lattice, sub3. cbn [x3 y3 z3 bx by_ bz bxy bxz byz ebox]. apply v3_eq; lra.
  - eexists. split; [reflexivity|]. apply Forall2_repeat. auto.
Qed.
Lemma e_shown0 : shown_in eT ebox 10 ef0.
Proof. apply ef_shown with (u := 9 / 2) (t := 0); auto. exists 0%Z. lra. left; auto. Qed.
Lemma e_shown1 : shown_in eT ebox 10 ef1.
Proof. apply ef_shown with (u := 13 / 2) (t := 5 / 2); auto. exists (-1)%Z. lra. right; auto. Qed.
Lemma e_shown2 : shown_in eT ebox 10 ef2.
Proof. apply ef_shown with (u := 21 / 2) (t := 0); auto. exists (-1)%Z. lra. left; auto. Qed.
Lemma e_slow x y a c : Rabs (y - x) < 5 -> Rabs (c - a) < PI -> slow ebox (repeat (mk3 x 0 0) 10, repeat a 10) (repeat (mk3 y 0 0) 10, repeat c 10).
Proof.
  intros H1 H2. unfold slow. cbn [fst snd]. split; apply Forall2_repeat; auto.
  unfold sub3. cbn [x3 y3 z3]. unfold below_half, coord_a, coord_b. cbn [x3 y3 z3 bx by_ bz bxy bxz byz ebox b2d].
  apply Rabs_def2 in H1. split; [apply Rabs_def1; lra|]. split; [apply Rabs_def1; lra|]. split; [intros; lra|discriminate].
Qed.
Lemma pi_above_3 : 3 < PI.
Proof. pose proof PI2_3_2. unfold PI2 in *. lra. Qed.
Lemma e_slow01 : slow ebox (eT ef0) (eT ef1).
Proof. pose proof pi_above_3. apply e_slow; apply Rabs_def1; lra. Qed.
Lemma e_slow12 : slow ebox (eT ef1) (eT ef2).
Proof. pose proof pi_above_3. apply e_slow; apply Rabs_def1; lra. Qed.
Lemma ef_plane ts x q : plane_box (ef ts x q) ebox.
Proof. exists 10, 10, 1. right. exists 0, 0, 0. split; reflexivity. Qed.
Lemma e_followable K f0 rest : frames_of (fun f => length (e_pos f)) K efile = f0 :: rest -> followable eT 10 f0 rest.
Proof.
  intros E. assert (C : (f0 :: rest = [ef0; ef1; ef2]) \/ (f0 :: rest = [ef1; ef2])).
  { destruct K as [|[|K]]; cbn in E; auto. discriminate. }
  destruct C as [[= -> ->]|[= -> ->]]; exists ebox; (split; [apply ef_plane|split; [apply ebox_ok|split; [|split]]]).
  - auto 6 using e_shown0, e_shown1, e_shown2, Forall_cons, Forall_nil.
  - cbn [map chain]. auto using e_slow01, e_slow12.
  - intros f [<-|[<-|[]]]; eexists; apply ef_plane.
  - auto 6 using e_shown0, e_shown1, e_shown2, Forall_cons, Forall_nil.
  - cbn [map chain]. auto using e_slow01, e_slow12.
  - intros f [<-|[]]; eexists; apply ef_plane.
Qed.
Definition e_name : string := "dump-Trimer-P13.50-T1.20.gsd".
Definition e_run := analyse freud_wrap (fun _ => zero3) sort_index fl100 (fun _ _ => inr ValueError) ex_pf (fun _ => EmptyString)
  [mk3 0 1 0] (Some 2) true None e_name true (efile, None) ([], None) None None.

Lemma e_moves i : (i < 10)%nat -> moves eT ef0 i [ef0; ef1; ef2] = [(0%Z, 0); (100%Z, 2); (200%Z, 6)].
Proof.
  intros H. unfold moves. cbn [map]. unfold moved2, pos, ef0, ef1, ef2, eT, ef. cbn [e_ts Z.eqb Pos.eqb fst snd]. rewrite !nth_rep by auto.
  cbn [x3 y3 z3].
  replace ((9 / 2 - 9 / 2) ^ 2 + (0 - 0) ^ 2 + (0 - 0) ^ 2) with (Rsqr 0) by (unfold Rsqr; lra).
  replace ((13 / 2 - 9 / 2) ^ 2 + (0 - 0) ^ 2 + (0 - 0) ^ 2) with (Rsqr 2) by (unfold Rsqr; lra).
  replace ((21 / 2 - 9 / 2) ^ 2 + (0 - 0) ^ 2 + (0 - 0) ^ 2) with (Rsqr 6) by (unfold Rsqr; lra).
  rewrite !sqrt_Rsqr by lra. reflexivity.
Qed.
Lemma e_spins i : (i < 10)%nat -> spins eT ef0 i [ef0; ef1; ef2] = [(0%Z, 0); (100%Z, 5 / 2); (200%Z, 0)].
Proof.
  intros H. unfold spins. cbn [map]. unfold angle, ang, ef0, ef1, ef2, eT, ef. cbn [e_ts Z.eqb Pos.eqb fst snd]. rewrite !nth_rep by auto.
  rewrite !Rminus_0_r, Rabs_R0, Rabs_pos_eq by lra. reflexivity.
Qed.
Lemma e_apart : well_apart eT (1 / 100) 2 10 ef0 [ef0; ef1; ef2].
Proof.
  intros i Hi. rewrite e_moves, e_spins by auto. pose proof pi_above_3. pose proof PI_4. split.
  - intros t x I. cbn [In] in I. destruct I as [[= <- <-]|[[= <- <-]|[[= <- <-]|[]]]]; unfold clear, surely; split; solve [left; lra|right; lra].
  - intros t x I. cbn [In] in I. destruct I as [[= <- <-]|[[= <- <-]|[[= <- <-]|[]]]]; unfold clear, surely; (split; [|split]); solve [left; lra|right; lra].
Qed.
Lemma first_is thr l v w : first_passage thr l v -> first_passage thr l w -> v = w.
Proof.
  intros (A1 & A2 & A3) (B1 & B2 & B3). destruct A1 as [A1|(x & A1 & A4)], B1 as [B1|(y & B1 & B4)]; try lia.
  - specialize (A3 _ _ B1 B4). lia.
  - specialize (B3 _ _ A1 A4). lia.
  - specialize (A3 _ _ B1 B4). specialize (B3 _ _ A1 A4). lia.
Qed.
(** There are three rows for the first key frame and two for the second; molecule 7 leaves
    its cage at time 100, has diffused at time 200, and was turned by a right angle at time
    100, although it turned back. *)
Example C126_example : exists rows relax s,
  e_run = {| out_result := inl None; out_table := Some rows; out_relax := Some relax |} /\
  Forall2 (row_for eT ex_pf {| v_temperature := Some "1.20"; v_pressure := Some "13.50"; v_crystal := None; v_iteration := None |} 2 10 true 0 ef0)
    [ef0; ef1; ef2] (key_rows 0 rows) /\ length (key_rows 1 rows) = 2%nat /\
  In 1%nat (map fst relax) /\ In (0%nat, s) relax /\
  entry s "tau_F" 7 100 /\ entry s "tau_D" 7 200 /\ entry s "tau_T2" 7 100.
Proof.
  destruct (C126_trajectory freud_wrap (fun _ => zero3) sort_index fl100 (fun _ _ => inr ValueError) ex_pf (fun _ => EmptyString)
            [mk3 0 1 0] 2 true (1 / 100) eT 10 e_name {| v_temperature := Some "1.20"; v_pressure := Some "13.50"; v_crystal := None; v_iteration := None |}
            (efile, None) ([], None) efile None None
            freud_wrap_ok sort_index_ok fl100_rounds ltac:(lra) ltac:(discriminate) ltac:(lia) eq_refl) as (rows & relax & E & _ & R1 & _ & R2 & R3).
  - intros (x & [= <-] & U). vm_compute in U. discriminate.
  - intros (x & [= <-] & U). vm_compute in U. discriminate.
  - left. split; reflexivity.
  - exists 0%nat. cbn. discriminate.
  - apply e_followable.
  - assert (I : In 0%nat (map fst relax)) by (apply R2; cbn; discriminate). apply in_map_iff in I. destruct I as ([K s] & EK & I). cbn in EK. subst K.
    exists rows, relax, s. split; [exact E|]. split; [apply R1; reflexivity|]. split.
    { assert (F := R1 1%nat ef1 [ef2] eq_refl). apply Forall2_len in F. rewrite <- F. reflexivity. }
    split; [apply R2; cbn; discriminate|]. split; [auto|].
    assert (Re := R3 0%nat ef0 [ef1; ef2] s eq_refl I). apply reports_exactly in Re; [|lra|lra|apply e_apart].
    destruct (Re 7%nat ltac:(lia)) as (d & f & l & t2 & t3 & t4 & D1 & D2 & F1 & F2 & _ & _ & T1 & T2 & _).
    rewrite e_moves in D2, F2 by lia. rewrite e_spins in T2 by lia. pose proof pi_above_3. pose proof PI_4.
    assert (d = 200%Z).
    { apply (first_is _ _ _ _ D2). split; [right; exists 6; split; [cbn; auto|lra]|]. split; [lia|].
      intros t x J Hx. cbn [In] in J. destruct J as [[= <- <-]|[[= <- <-]|[[= <- <-]|[]]]]; try lia; lra. }
    assert (f = 100%Z).
    { apply (first_is _ _ _ _ F2). split; [right; exists 2; split; [cbn; auto|lra]|]. split; [lia|].
      intros t x J Hx. cbn [In] in J. destruct J as [[= <- <-]|[[= <- <-]|[[= <- <-]|[]]]]; try lia; lra. }
    assert (t2 = 100%Z).
    { apply (first_is _ _ _ _ T2). split; [right; exists (5 / 2); split; [cbn; auto|lra]|]. split; [lia|].
      intros t x J Hx. cbn [In] in J. destruct J as [[= <- <-]|[[= <- <-]|[[= <- <-]|[]]]]; try lia; lra. }
    subst. auto.
Qed.
