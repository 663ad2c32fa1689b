(** Proofs about the analysis of a whole trajectory. *)
From Coq Require Import String Reals ZArith QArith Qreals List Bool Lra Lia.
From Verif Require Import Base DictFacts XNum RVec RVecFacts FrameModel MotionModel MotionSpec MotionProofs MotionProps
  DynModel DynSpec DynProofs DynStruct DynProps DynPerm DynTrue
  MolRelaxModel MolRelaxSpec MolRelaxProofs MolRelaxDefs MolRelaxProps
  WriteCacheModel ProcessModel ProcessSpec ProcessProofs ProcessProps ParamsModel ProcessPathModel ProcessPathProps EndModel EndSpec.
Import ListNotations.
Open Scope list_scope.
Open Scope R_scope.
Notation length := List.length.

(** ** Rounding *)
Lemma xlt_fin a b : xlt (Fin a) (Fin b) = true <-> Q2R a < Q2R b.
Proof. cbn. rewrite Qltb_lt. split; [apply Qlt_Rlt|apply Rlt_Qlt]. Qed.
Lemma approx_bounds u x n : 0 <= x -> approx u x n -> exists q, n = Fin q /\ x * (1 - u) <= Q2R q <= x * (1 + u).
Proof.
  intros Hx (q & -> & H). exists q. split; auto. rewrite (Rabs_pos_eq x) in H by auto.
  revert H. unfold Rabs. destruct (Rcase_abs _); lra.
Qed.
Lemma lt_maybe u x y a b : 0 <= x -> 0 <= y -> approx u x a -> approx u y b -> xlt a b = true -> maybe u x y.
Proof.
  intros Hx Hy A B L. destruct (approx_bounds _ _ _ Hx A) as (p & -> & Hp). destruct (approx_bounds _ _ _ Hy B) as (q & -> & Hq).
  apply xlt_fin in L. unfold maybe. lra.
Qed.
Lemma surely_lt u x y a b : 0 <= x -> 0 <= y -> approx u x a -> approx u y b -> surely u x y -> xlt a b = true.
Proof.
  intros Hx Hy A B L. destruct (approx_bounds _ _ _ Hx A) as (p & -> & Hp). destruct (approx_bounds _ _ _ Hy B) as (q & -> & Hq).
  apply xlt_fin. unfold surely in L. lra.
Qed.
Lemma surely_real u x y : 0 <= u < 1 -> 0 <= x -> 0 <= y -> surely u x y -> x < y.
Proof.
  intros Hu Hx Hy S0. unfold surely in S0. assert (0 <= x * u) by (apply Rmult_le_pos; lra). assert (0 <= y * u) by (apply Rmult_le_pos; lra). lra.
Qed.
Lemma xlt_asym a b : xlt a b = true -> xlt b a = false.
Proof.
  destruct a as [| | |p], b as [| | |q]; cbn; try discriminate; auto. intros H. apply Qltb_lt in H. apply Qltb_ge. apply Qlt_le_weak. auto.
Qed.
(** Away from the threshold rounded comparisons are right. *)
Lemma clear_lt u x y a b : 0 <= u < 1 -> 0 <= x -> 0 <= y -> approx u x a -> approx u y b -> clear u x y ->
  (xlt a b = true <-> x < y) /\ (xlt b a = true <-> y < x).
Proof.
  intros Hu Hx Hy A B [C|C].
  - pose proof (surely_lt _ _ _ _ _ Hx Hy A B C) as E. pose proof (surely_real _ _ _ Hu Hx Hy C). rewrite E, (xlt_asym _ _ E).
    split; split; intros; auto; try discriminate; lra.
  - pose proof (surely_lt _ _ _ _ _ Hy Hx B A C) as E. pose proof (surely_real _ _ _ Hu Hy Hx C). rewrite E, (xlt_asym _ _ E).
    split; split; intros; auto; try discriminate; lra.
Qed.
Lemma approx_triple u x n : approx u x n -> approx u (3 * x) (xtriple n).
Proof.
  intros (q & -> & H). exists (3 * q)%Q. split; auto. rewrite Q2R_mult. replace (Q2R 3) with 3 by (unfold Q2R; cbn; lra).
  replace (3 * Q2R q - 3 * x) with (3 * (Q2R q - x)) by ring. rewrite !Rabs_mult, (Rabs_pos_eq 3) by lra. lra.
Qed.
Lemma approx_not_neg u x n : 0 <= u < 1 -> 0 <= x -> approx u x n -> xlt n (Fin 0%Q) = false.
Proof.
  intros Hu Hx A. destruct (approx_bounds _ _ _ Hx A) as (q & -> & H). cbn. apply Qltb_ge. apply Rle_Qle.
  replace (Q2R 0) with 0 by (unfold Q2R; cbn; lra). assert (0 <= x * (1 - u)) by (apply Rmult_le_pos; lra). lra.
Qed.

(** ** Times of passage of the rounded distances *)
Section Passage.
  Variables (u : R) (fl : R -> xnum).
  Hypothesis Fl : rounds u fl.
  Definition rounded : list (Z * R) -> list (Z * xnum) := map (fun c => (fst c, fl (snd c))).

  Lemma earliest_about thr a l v : 0 <= thr -> approx u thr a -> (forall c, In c l -> 0 <= snd c) ->
    earliest a (rounded l) v -> first_about u thr l v.
  Proof.
    intros H0 A P (E1 & E2 & E3). destruct Fl as [Hu Hf]. split; [|split; auto].
    - destruct E1 as [E1|(d & I & L)]; auto. right. unfold rounded in I. apply in_map_iff in I. destruct I as ((t & x) & [= -> <-] & I).
      exists x. split; auto. apply (lt_maybe u thr x a (fl x)); auto. apply (P _ I).
    - intros t x I S0. apply (E3 t (fl x)); [|apply (surely_lt u thr x); auto; apply (P _ I)].
      unfold rounded. apply in_map_iff. exists (t, x). auto.
  Qed.

  Lemma last_exit_passage thr cut a b l v : 0 <= thr -> thr <= cut -> approx u thr a -> approx u cut b ->
    (forall c, In c l -> 0 <= snd c /\ clear u thr (snd c) /\ clear u cut (snd c)) ->
    last_exit a b (rounded l) v -> last_passage thr cut l v.
  Proof.
    intros H0 H1 A B P. destruct Fl as [Hu Hf].
    assert (CT : forall c, In c l -> (xlt a (fl (snd c)) = true <-> thr < snd c) /\ (xlt (fl (snd c)) a = true <-> snd c < thr)).
    { intros c I. destruct (P c I) as (P1 & P2 & P3). apply (clear_lt u); auto. }
    assert (CC : forall c, In c l -> (xlt b (fl (snd c)) = true <-> cut < snd c)).
    { intros c I. destruct (P c I) as (P1 & P2 & P3). apply (clear_lt u cut (snd c) b (fl (snd c))); auto; lra. }
    assert (ES : forall c, In c l -> (escapes a b (fst c, fl (snd c)) <-> cut < snd c)).
    { intros c I. unfold escapes. cbn [snd]. rewrite (CC c I). rewrite (proj1 (CT c I)). lra. }
    intros [[N ->]|(p & d & q & post & before & e & E1 & E2 & E3 & E4 & E5 & E6 & p1 & p2 & E7 & E8 & E9)].
    - left. split; auto. intros c I. apply Rnot_lt_le. intros L. apply (N (fst c, fl (snd c))); [|apply ES; auto].
      unfold rounded. apply in_map_iff. exists c. auto.
    - right. unfold rounded in E1. apply map_eq_app in E1. destruct E1 as (l1 & lpost & -> & E1 & Epost).
      apply map_eq_app in E1. destruct E1 as (la & l2 & -> & Ea & E1). apply map_eq_cons in E1. destruct E1 as ((t & x) & lb & -> & Ex & Eb).
      cbn [fst snd] in Ex. injection Ex as -> <-.
      assert (IN : forall c, In c (la ++ (v, x) :: lb) -> In c ((la ++ (v, x) :: lb) ++ lpost)) by (intros; apply in_or_app; auto).
      assert (E2' : map (fun c => (fst c, fl (snd c))) (la ++ (v, x) :: lb) = before ++ [e]) by (rewrite map_app; cbn [map fst snd]; rewrite Ea, Eb; auto).
      apply map_eq_app in E2'. destruct E2' as (lbefore & le & E2' & Eb1 & Ele). apply map_eq_cons in Ele.
      destruct Ele as (ee & le' & -> & Ee & Enil). apply map_eq_nil in Enil. subst le'.
      assert (I_before : forall c, In c lbefore -> In c ((la ++ (v, x) :: lb) ++ lpost)).
      { intros c I. apply IN. rewrite E2'. apply in_or_app. auto. }
      assert (I_e : In ee ((la ++ (v, x) :: lb) ++ lpost)) by (apply IN; rewrite E2'; apply in_or_app; right; left; auto).
      exists la, x, lb, lpost, lbefore, ee.
      split; auto. split; auto. split; [|split; [|split; [|split]]].
      + apply (ES ee I_e). rewrite Ee. auto.
      + intros c I. apply Rnot_lt_le. intros L. apply (E4 (fst c, fl (snd c))); [|apply ES; auto].
        rewrite <- Eb1. apply in_map_iff. exists c. auto.
      + apply (proj1 (CT (v, x) (IN _ (in_elt _ _ _)))). auto.
      + intros c I. apply Rnot_lt_le. intros L. assert (I' : In c ((la ++ (v, x) :: lb) ++ lpost)) by (apply IN; apply in_or_app; right; right; auto).
        assert (X := E6 (fst c, fl (snd c))). rewrite <- Eb in X. specialize (X ltac:(apply in_map_iff; exists c; auto)). cbn [snd] in X.
        apply (proj2 (CT c I')) in L. congruence.
      + rewrite E7 in Ea. apply map_eq_app in Ea. destruct Ea as (la1 & la2 & -> & Ea1 & Ea2). exists la1, la2. split; auto. split.
        * destruct E8 as [E8|(a0 & c & E8 & L)]; [left; subst p1; apply map_eq_nil in E8; auto|right].
          rewrite <- Ea1 in E8. apply map_eq_app in E8. destruct E8 as (k0 & k1 & -> & _ & E8). apply map_eq_cons in E8.
          destruct E8 as (cc & k2 & -> & Ec & Enil). apply map_eq_nil in Enil. subst k2. exists k0, cc. split; auto.
          assert (I' : In cc (((((k0 ++ [cc]) ++ la2) ++ (v, x) :: lb)) ++ lpost)) by (apply IN; rewrite <- !app_assoc; apply in_or_app; right; left; auto).
          apply (proj2 (CT cc I')). rewrite <- Ec in L. auto.
        * intros c I. apply Rnot_lt_le. intros L. assert (I' : In c (((la1 ++ la2) ++ (v, x) :: lb) ++ lpost)).
          { apply IN. apply in_or_app. left. apply in_or_app. auto. }
          assert (X := E9 (fst c, fl (snd c))). rewrite <- Ea2 in X. specialize (X ltac:(apply in_map_iff; exists c; auto)). cbn [snd] in X.
          apply (proj1 (CT c I')) in L. congruence.
  Qed.
End Passage.

(** Away from the threshold a time up to rounding is the time. *)
Lemma about_exact u thr l v : 0 <= u < 1 -> 0 <= thr -> (forall t x, In (t, x) l -> 0 <= x /\ clear u thr x) ->
  first_about u thr l v -> first_passage thr l v.
Proof.
  intros Hu H0 P (E1 & E2 & E3). split; [|split; auto].
  - destruct E1 as [E1|(x & I & M)]; auto. right. exists x. split; auto. destruct (P _ _ I) as (Hx & [C|C]).
    + apply (surely_real u); auto.
    + unfold maybe, surely in *. lra.
  - intros t x I L. apply (E3 t x I). destruct (P _ _ I) as (Hx & [C|C]); auto.
    apply surely_real in C; auto. lra.
Qed.

(** ** One frame for all relaxations *)
Definition of_type (ty : rtype) (disp rot : list xnum) : list xnum := match ty with rotation => rot | translation => disp end.
Definition feed (t : Z) (disp rot : list xnum) (d : dict string molrel) : dict string molrel :=
  map (fun p => (fst p, observe (snd p) [(t, of_type (mr_type (snd p)) disp rot)])) d.
Lemma loop_feed n t disp rot d : length disp = n -> length rot = n -> (forall k r, In (k, r) d -> sized n r) ->
  relax_loop t disp rot d = (feed t disp rot d, None).
Proof.
  intros L1 L2. induction d as [|[k r] d IH]; intros S0; cbn [relax_loop]; auto.
  assert (Sr : sized n r) by (apply (S0 k); left; auto).
  set (dist := match mr_type r with rotation => rot | translation => disp end).
  assert (Ld : length dist = n) by (unfold dist; destruct (mr_type r); auto).
  destruct (mr_add_sized n t dist r Sr Ld) as (r' & A & _). rewrite A, IH by (intros k' r'' I; apply (S0 k'); right; auto).
  unfold feed. cbn [map fst snd]. unfold observe at 2. cbn [fold_left fst snd]. fold dist.
  assert (E : of_type (mr_type r) disp rot = dist) by reflexivity. rewrite E, A. reflexivity.
Qed.

Lemma observe_type h : forall r, mr_type (observe r h) = mr_type r.
Proof.
  unfold observe. induction h as [|c h IH]; intros r; cbn [fold_left]; auto.
  rewrite IH. unfold mr_add. destruct (negb _); auto. destruct (mr_last r) as [[st irr]|]; auto.
Qed.
Lemma feed_map t disp rot (h : rtype -> history) d :
  feed t disp rot (map (fun p => (fst p, observe (snd p) (h (mr_type (snd p))))) d) =
  map (fun p => (fst p, observe (snd p) (h (mr_type (snd p)) ++ [(t, of_type (mr_type (snd p)) disp rot)]))) d.
Proof.
  unfold feed. rewrite map_map. apply map_ext. intros [k r]. cbn [fst snd]. f_equal.
  rewrite observe_type. unfold observe. rewrite fold_left_app. reflexivity.
Qed.

(** The row of a frame without a wave number *)
Lemma row_bare s0 s n argsort d ts sc q : length (fst s0) = n -> length (fst s) = n -> length (snd s0) = n -> length (snd s) = n ->
  (0 < n)%nat -> m_dt (d_motion d) = zip sub3 (fst s) (fst s0) ->
  m_dr (d_motion d) = map (fun t => mk3 t 0 0) (zip Rminus (snd s) (snd s0)) -> d_wave d = None ->
  quantities argsort d ts sc = inl q -> describes_bare s0 s n (ts - d_timestep d) q.
Proof.
  intros L0 L1 L2 L3 Hn Et Er W Q. destruct (quantities_row _ _ _ _ _ Q) as (al & dist & ar & g & ov & st & H1 & H2 & H3 & H4 & _ & H6 & ->).
  rewrite Et, Er, W in *. unfold distance in H2. rewrite W in H2. injection H2 as <-.
  unfold describes_bare, row, is_nan. cbn [dget String.eqb Ascii.eqb Bool.eqb].
  unfold alpha in H1, H3. unfold gamma in H4.
  split; [reflexivity|]. split; [rewrite (v_md s0 s n) by auto; reflexivity|]. split; [unfold msd; rewrite (v_msd s0 s n) by auto; reflexivity|].
  split; [unfold mfd; rewrite (v_mfd s0 s n) by auto; reflexivity|]. split; [unfold mean_rotation; rewrite (v_mr s0 s n) by auto; reflexivity|].
  split; [unfold msr; rewrite (v_msr s0 s n) by auto; reflexivity|]. split; [rewrite (v_rot1 s0 s n) by auto; reflexivity|]. split; [rewrite (v_rot2 s0 s n) by auto; reflexivity|].
  split; [refine (ratio_is _ _ _ _ _ (v_mfd s0 s n L0 L1 L2 L3) _ H1); rewrite (v_msd s0 s n) by auto; unfold sq; ring|].
  split; [refine (ratio_is _ _ _ _ _ (v_mfr s0 s n L0 L1 L2 L3) _ H3); rewrite (v_msr s0 s n) by auto; unfold sq; ring|].
  split; [refine (ratio_is _ _ _ _ _ (v_gamma s0 s n L0 L1 L2 L3) _ H4); rewrite (v_msd s0 s n), (v_msr s0 s n) by auto; reflexivity|].
  split; [destruct sc; reflexivity|]. split; [reflexivity|]. rewrite H6. reflexivity.
Qed.

Section Run.
  Variables (wrap : fbox -> v3 -> v3) (gimbal : RVec.quat -> v3) (argsort : list R -> list nat) (fl : R -> xnum)
            (calculate : fbox -> list v3 -> R + exn) (parse : string -> option xnum) (show : yaml -> string)
            (mol : list v3) (wave : option R) (kw : eframe -> R) (scattering : bool) (u : R) (T : eframe -> truth) (N : nat) (v : variables).
  Hypothesis W : wrap_ok wrap.
  Hypothesis Ar : argsort_ok argsort.
  Hypothesis Fl : rounds u fl.
  (** The wave number of the relaxations that start with a frame *)
  Hypothesis Hk : forall f, 0 < kw f.
  Definition wave_of (f : eframe) : Prop := forall b, frame_box f = inl b ->
    match wave with Some k => inl k | None => calculate b (e_pos f) end = inl (kw f).
  Hypothesis Hmol : mol <> [].
  Hypothesis HN : (10 <= N)%nat.
  Hypothesis V1 : ~ unreadable parse (v_temperature v).
  Hypothesis V2 : ~ unreadable parse (v_pressure v).

  Notation make := (make fl calculate parse show mol wave).
  Notation compute := (compute wrap gimbal argsort scattering).
  Notation radd := (radd wrap gimbal fl).
  Notation label := (label_vars (Row := dict string dval) parse v).
  Hypothesis Hw : forall k, wave = Some k -> forall f, kw f = k.
  Definition dist (f0 : eframe) := PI / (2 * kw f0).

  Lemma dist_pos f : 0 < dist f.
  Proof. unfold dist. pose proof (Hk f). apply Rdiv_lt_0_compat; [apply PI_RGT_0|lra]. Qed.

  Open Scope string_scope.
  Definition six (f0 : eframe) : dict string molrel :=
    [ ("tau_D", first_init N (xtriple (fl (dist f0))) translation); ("tau_F", first_init N (fl (dist f0)) translation);
      ("tau_L", last_init N (fl (dist f0)) (xtriple (fl (dist f0))) translation);
      ("tau_T2", first_init N (fl (PI / 2)) rotation); ("tau_T3", first_init N (fl (PI / 3)) rotation);
      ("tau_T4", first_init N (fl (PI / 4)) rotation) ].
  Close Scope string_scope.

  (** The distances of a frame, rounded *)
  Definition far (f0 f : eframe) (ty : rtype) : list xnum :=
    map (fun i => fl (match ty with rotation => Rabs (angle (T f0) (T f) i)
                                  | translation => sqrt (moved2 (T f0) (T f) i) end)) (seq 0 N).
  Definition hist (f0 : eframe) (fs : list eframe) (ty : rtype) : history :=
    map (fun f => ((e_ts f - e_ts f0)%Z, far f0 f ty)) fs.

  (** The objects of a key frame that has seen [fs] *)
  Definition good (b : fbox) (f0 : eframe) (fs : list eframe) (x : dynamics * robj) : Prop :=
    let (d, r) := x in
    follows b (T f0) (T (last fs f0)) N (d_motion d) /\
    (d_timestep d = e_ts f0 /\ d_num d = N /\ d_wave d = wave /\ d_res d = 360%nat /\ d_mol d = Some mol) /\
    follows b (T f0) (T (last fs f0)) N (r_motion r) /\
    rx_init_time (r_relax r) = e_ts f0 /\
    rx_relax (r_relax r) = map (fun p => (fst p, observe (snd p) (hist f0 fs (mr_type (snd p))))) (six f0).

  Definition fresh_motion (b : fbox) (f : eframe) : motion :=
    mkmotion b (map (fun _ => zero3) (e_pos f)) (map (fun _ => zero3) (e_pos f)) (e_pos f) (e_ori f).
  Lemma make_shape f b q : wave_of f -> frame_box f = inl b -> length (e_pos f) = N -> e_ori f = Some q -> length q = N ->
    make f = inl (mkdyn (fresh_motion b f) (e_ts f) N (Some mol) wave 360,
                  mkrobj (fresh_motion b f) N {| rx_init_time := e_ts f; rx_relax := six f |}).
  Proof.
    intros Wf B Ln Eo P. unfold EndModel.make, make_dynamics, fresh_motion.
    assert (Np : e_pos f <> []) by (intros E; rewrite E in Ln; cbn in Ln; lia).
    assert (Ed : forall X (y z : X), match e_pos f with [] => y | _ :: _ => z end = z) by (intros; destruct (e_pos f); congruence).
    rewrite Ed, B. cbn [MotionModel.ebind]. unfold dyn_init. rewrite Ed.
    unfold motion_init. rewrite Eo. destruct q as [|q0 qs]; [cbn in P; lia|]. cbn [MotionModel.ebind].
    unfold make_relaxations. rewrite B. cbn [MotionModel.ebind]. unfold motion_init. rewrite Eo. cbn [MotionModel.ebind].
    rewrite (Wf b B). cbn [MotionModel.ebind]. pose proof (Hk f). destruct (Req_EM_T (kw f) 0); [lra|]. fold (dist f). destruct Fl as [Hu Hf]. pose proof PI_RGT_0. pose proof (dist_pos f).
    rewrite (C39_defaults parse show (length (e_pos f)) (fl (dist f)) (fl (PI / 2)) (fl (PI / 3)) (fl (PI / 4)))
      by (eapply (approx_not_neg u); [exact Hu| |apply Hf]; lra).
    rewrite Ln. reflexivity.
  Qed.
  Lemma make_ok f b : wave_of f -> frame_box f = inl b -> shown_in T b N f -> exists x, make f = inl x /\ good b f [] x.
  Proof.
    intros Wf B (Im & Ln & Lt & q & Eo & F). assert (P := Forall2_len _ _ _ F).
    rewrite (make_shape f b q) by (auto; congruence). eexists. split; [reflexivity|]. cbn [good last].
    assert (Fo : follows b (T f) (T f) N (fresh_motion b f)).
    { assert (L1 := Forall2_len _ _ _ Im). unfold follows, fresh_motion. cbn [m_box m_dt m_dr m_ppos m_pori]. split; auto.
      split; [symmetry; apply zip_zero_sub; congruence|]. split; auto. split; [eexists; split; eauto|].
      split; [symmetry; apply zip_zero_ang; congruence|]. split; congruence. }
    split; [exact Fo|]. split; [cbn; auto|]. split; [exact Fo|]. split; reflexivity.
  Qed.

  (** The rounded distances that Relaxations.add computes *)
  Lemma far_moved b f0 f m : follows b (T f0) (T f) N m -> length (fst (T f0)) = N -> length (snd (T f0)) = N ->
    map fl (displacement (m_dt m)) = far f0 f translation /\ map fl (displacement (m_dr m)) = far f0 f rotation.
  Proof.
    intros (E1 & E2 & E3 & E4 & E5 & L1 & L2) L3 L4. split.
    - unfold far, displacement. rewrite map_map, E2.
      rewrite <- (map_nth_seq zero3 (zip sub3 (fst (T f)) (fst (T f0)))). rewrite zip_length, L1, map_map by congruence.
      apply map_ext_in. intros i I. apply in_seq in I. f_equal. unfold norm3. rewrite (moved_norm (T f0) (T f) N) by (auto; lia). reflexivity.
    - unfold far, displacement. rewrite map_map, E5.
      rewrite <- (map_nth_seq zero3 (map (fun t => mk3 t 0 0) (zip Rminus (snd (T f)) (snd (T f0))))).
      rewrite map_length, zip_length, L2, map_map by congruence.
      apply map_ext_in. intros i I. apply in_seq in I. f_equal. rewrite (dr_nth (T f0) (T f) N) by (auto; lia). apply norm_spin.
  Qed.

  Lemma observe_sized r h : sized N r -> sized N (observe r h).
  Proof.
    unfold observe. revert r. induction h as [|[t d] h IH]; intros r S0; cbn [fold_left fst snd]; auto.
    apply IH. destruct (mr_add t d r) as [r'|e] eqn:E; auto.
    unfold mr_add in E. destruct (Nat.eq_dec (length d) (length (mr_status r))) as [L|L].
    - destruct (mr_add_sized N t d r S0) as (r2 & A & B & _); [destruct S0; congruence|]. unfold mr_add in A. rewrite A in E. injection E as <-. auto.
    - apply Nat.eqb_neq in L. rewrite L in E. discriminate.
  Qed.
  Lemma six_sized f0 nm r : In (nm, r) (six f0) -> sized N r.
  Proof.
    intros I. cbn in I. repeat (destruct I as [I|I]; [injection I as _ <-; split; cbn; rewrite ?repeat_length; auto|]). destruct I.
  Qed.

  Definition told (f0 f : eframe) (row : dict string dval) : Prop :=
    match wave with
    | Some k => describes (T f0) (T f) N k 360 (e_ts f - e_ts f0) scattering row
    | None => describes_bare (T f0) (T f) N (e_ts f - e_ts f0) row
    end.
  Definition row_told (K : nat) (f0 f : eframe) (p : nat * labelled (dict string dval)) : Prop :=
    match wave with
    | Some k => row_for T parse v k N scattering K f0 f p
    | None => row_without T parse v N K f0 f p
    end.

  (** One more frame *)
  Lemma good_step b f0 fs f d r : box_ok b -> shown_in T b N f0 -> good b f0 fs (d, r) -> slow b (T (last fs f0)) (T f) -> shown_in T b N f ->
    exists d' row r', compute d f = (d', inl row) /\ radd r f = (r', None) /\
      told f0 f row /\ good b f0 (fs ++ [f]) (d', r').
  Proof.
    intros B (Im0 & Ln0 & Lt0 & q0 & Eo0 & F0) (G1 & (G2 & G3 & G4 & G5 & G6) & G7 & G8 & G9) Sl (Im & Ln & Lt & q & Eo & F).
    assert (LP0 := Forall2_len _ _ _ Im0).
    assert (L0 : length (fst (T f0)) = N) by congruence.
    destruct (follows_add wrap gimbal b (T f0) _ _ N (d_motion d) (e_pos f) q W B L0 Lt0 G1 Sl Im F) as (m1 & A1 & Fo1).
    destruct (follows_add wrap gimbal b (T f0) _ _ N (r_motion r) (e_pos f) q W B L0 Lt0 G7 Sl Im F) as (m2 & A2 & Fo2).
    set (d' := mkdyn m1 (d_timestep d) (d_num d) (d_mol d) (d_wave d) (d_res d)).
    destruct (C75_all_quantities_partial argsort d' (e_ts f) scattering Ar) as (row & Q & _); cbn [d' d_num d_wave d_mol].
    { destruct Fo1 as (E1 & E2 & E3 & (q' & E4 & E5) & E6 & L1 & L3).
      unfold dyn_ok. cbn [d' d_num d_motion d_res]. rewrite E2, E6, map_length, !zip_length by congruence. repeat split; try congruence; lia. }
    { lia. }
    { rewrite G4. intros E. pose proof (Hk f0). rewrite (Hw 0 E f0) in *. lra. }
    { rewrite G6. intros E. injection E as E. auto. }
    assert (RA : exists r', radd r f = (r', None) /\ r_motion r' = m2 /\ rx_init_time (r_relax r') = e_ts f0 /\
       rx_relax (r_relax r') = map (fun p => (fst p, observe (snd p) (hist f0 (fs ++ [f]) (mr_type (snd p))))) (six f0)).
    { unfold EndModel.radd. rewrite Eo, A2. unfold relaxations_add. destruct (far_moved b f0 f m2 Fo2 L0 Lt0) as [-> ->].
      rewrite (loop_feed N).
      - eexists. split; [reflexivity|]. cbn [r_motion r_relax rx_init_time rx_relax]. split; auto. split; auto.
        rewrite G8, G9. rewrite (feed_map _ _ _ (hist f0 fs)). apply map_ext. intros [nm r0]. cbn [fst snd]. do 2 f_equal.
        unfold hist. rewrite map_app. cbn [map]. do 2 f_equal. unfold of_type. destruct (mr_type r0); reflexivity.
      - unfold far. rewrite map_length, seq_length. auto.
      - unfold far. rewrite map_length, seq_length. auto.
      - intros nm r0 I. rewrite G9 in I. apply in_map_iff in I. destruct I as ([nm' r1] & [= <- <-] & I). apply observe_sized. eapply six_sized; eauto. }
    destruct RA as (r' & RA & R1 & R2 & R3).
    exists d', row, r'. split; [|split; [auto|split]].
    - unfold EndModel.compute, compute_all, dyn_add. rewrite Eo, A1. fold d'. rewrite Q. reflexivity.
    - destruct Fo1 as (E1 & E2 & E3 & (q' & E4 & E5) & E6 & L1 & L3).
      unfold told. replace (e_ts f - e_ts f0)%Z with (e_ts f - d_timestep d')%Z by (cbn; rewrite G2; auto).
      replace 360%nat with (d_res d') by auto. destruct wave as [k|] eqn:Ew.
      + apply (row_describes (T f0) (T f) N) with (argsort := argsort) (d := d'); auto; try lia. cbn. lia.
      + apply (row_bare (T f0) (T f) N) with (argsort := argsort) (d := d') (sc := scattering); auto; lia.
    - unfold good. rewrite last_last. split; [exact Fo1|]. split; [cbn; auto|]. rewrite R1. auto.
  Qed.

  Lemma slow_same b f : box_ok b -> slow b (T f) (T f).
  Proof.
    intros (B1 & B2 & B3). split.
    - unfold small_step. generalize (fst (T f)). induction l as [|x l IH]; constructor; auto.
      rewrite sub3_diag. unfold below_half, coord_a, coord_b, coord_c, zero3. cbn.
      repeat split; auto; try (intros D; specialize (B3 D)); match goal with |- Rabs ?e < _ => replace e with 0 by (field; lra) end; rewrite Rabs_R0; lra.
    - unfold turn_step. generalize (snd (T f)). induction l as [|x l IH]; constructor; auto.
      rewrite Rminus_diag_eq, Rabs_R0 by auto. apply PI_RGT_0.
  Qed.

  Lemma label_ok K row : exists o, label K row = inl o /\ lb_row o = row /\ lb_keyframe o = K /\
    parsed parse (v_temperature v) (lb_temperature o) /\ parsed parse (v_pressure v) (lb_pressure o).
  Proof.
    unfold label_vars. pose proof (column_parsed parse (v_temperature v)) as A. pose proof (column_parsed parse (v_pressure v)) as B.
    destruct (column parse (v_temperature v)) as [t|]; [|destruct A; contradiction].
    destruct (column parse (v_pressure v)) as [p|]; [|destruct B; contradiction]. eexists. split; [reflexivity|]. cbn. auto.
  Qed.

  Notation solo := (solo make None compute radd label).
  Notation pure := (pure make None compute radd label).

  Lemma solo_step K b f0 fs f d r nx : box_ok b -> shown_in T b N f0 -> good b f0 fs (d, r) -> slow b (T (last fs f0)) (T f) -> shown_in T b N f ->
    make f = inl nx ->
    forall x, match x with Some y => y | None => nx end = (d, r) ->
    exists x' o, solo K f x = (Some x', Some o, None) /\ good b f0 (fs ++ [f]) x' /\ row_told K f0 f (K, o).
  Proof.
    intros B S0 G Sl Sf M x Hx. destruct (good_step b f0 fs f d r B S0 G Sl Sf) as (d' & row & r' & E1 & E2 & E3 & E4).
    destruct (label_ok K row) as (o & L1 & L2 & L3 & L4 & L5).
    exists (d', r'), o. unfold ProcessProofs.solo. rewrite M, Hx, E1, E2, L1. split; auto. split; auto.
    unfold row_told, row_for, row_without, told in *. cbn [fst snd]. rewrite L2. destruct wave; auto.
  Qed.

  Lemma kframes_snoc K (l : list (nat * eframe)) K' f : kframes K (l ++ [(K', f)]) = (kframes K l ++ (if Nat.eqb K K' then [f] else []))%list.
  Proof. unfold kframes. rewrite filter_app, map_app. cbn. destruct (Nat.eqb K K'); reflexivity. Qed.

  Lemma last_cons {A} : forall l (a x : A), last (a :: l) x = last l a.
  Proof. induction l as [|b l IH]; intros a x; auto. change (last (b :: l) x = last (b :: l) a). rewrite !IH. reflexivity. Qed.
  Lemma chain_prefix {A} (P : A -> A -> Prop) : forall l x y, chain P x (l ++ [y]) -> chain P x l /\ P (last l x) y.
  Proof.
    induction l as [|a l IH]; intros x y H; cbn in H; [split; [exact I|apply H]|]. destruct H as [H1 H2]. destruct (IH a y H2) as [H3 H4]. split; [split; auto|].
    rewrite last_cons. auto.
  Qed.
  Lemma plane_frame f b : plane_box f b -> frame_box f = inl b.
  Proof.
    intros (Lx & Ly & Lz & [[E ->]|(xy & xz & yz & E & ->)]); unfold frame_box; rewrite E; reflexivity.
  Qed.
  Lemma followable_prefix f0 rest f : followable T N f0 (rest ++ [f]) -> followable T N f0 rest /\
    exists b, frame_box f0 = inl b /\ box_ok b /\ shown_in T b N f0 /\ shown_in T b N f /\ slow b (T (last rest f0)) (T f) /\ exists b', frame_box f = inl b'.
  Proof.
    intros (b & E1 & E2 & E3 & E4 & E5). rewrite app_comm_cons in E3. apply Forall_app in E3. destruct E3 as [E3 E6].
    rewrite map_app in E4. cbn [map] in E4. apply chain_prefix in E4. destruct E4 as [E4 E7]. inversion E6; subst. inversion E3; subst.
    split.
    - exists b. split; auto. split; auto. split; auto. split; auto. intros g I. apply E5. apply in_or_app; auto.
    - exists b. split; [apply plane_frame; auto|]. split; auto. split; auto. split; auto.
      split; [|destruct (E5 f) as [b' E8]; [apply in_or_app; right; left; auto|exists b'; apply plane_frame; auto]].
      replace (T (last rest f0)) with (last (map T rest) (T f0)); auto. clear. revert f0. induction rest as [|a rest IH]; intros f0; auto.
      cbn [map]. rewrite !last_cons. apply IH.
  Qed.

  Lemma pure_run l :
    (forall K f, In (K, f) l -> wave_of f) ->
    (forall K f0 rest, kframes K l = f0 :: rest -> followable T N f0 rest) ->
    exists d rows, pure l [] = (d, rows, None) /\ NoDup (dkeys d) /\
      forall K, match kframes K l with
                | [] => dget Nat.eqb K d = None /\ key_rows K rows = []
                | f0 :: rest => exists b x, box_ok b /\ frame_box f0 = inl b /\ dget Nat.eqb K d = Some x /\ good b f0 (f0 :: rest) x /\
                    Forall2 (row_told K f0) (f0 :: rest) (key_rows K rows)
                end.
  Proof.
    induction l as [|[K' f] l IH] using rev_ind; intros Wv H.
    - exists [], []. cbn. split; auto. split; [constructor|auto].
    - assert (Wf : wave_of f) by (apply (Wv K'), in_or_app; right; left; auto).
      destruct IH as (d & rows & P & ND & Inv).
      { intros K g I. apply (Wv K), in_or_app. auto. }
      { intros K f0 rest E. specialize (H K f0). rewrite kframes_snoc, E in H. destruct (Nat.eqb K K').
        - apply (followable_prefix f0 rest f). apply H. reflexivity.
        - apply H. rewrite app_nil_r. reflexivity. }
      assert (St : exists x' o b f0, solo K' f (dget Nat.eqb K' d) = (Some x', Some o, None) /\
        f0 = match kframes K' l with [] => f | g :: _ => g end /\ box_ok b /\ frame_box f0 = inl b /\
        good b f0 (kframes K' l ++ [f]) x' /\ row_told K' f0 f (K', o)).
      { specialize (Inv K'). specialize (H K'). rewrite kframes_snoc, Nat.eqb_refl in H.
        destruct (kframes K' l) as [|f0 rest].
        - destruct Inv as [E _]. rewrite E. destruct (H f [] eq_refl) as (b & B1 & B2 & B3 & _). inversion B3; subst. apply plane_frame in B1.
          destruct (make_ok f b Wf B1 H2) as ([d0 r0] & M & G).
          destruct (solo_step K' b f [] f d0 r0 (d0, r0) B2 H2 G (slow_same b f B2) H2 M None eq_refl) as (x' & o & S1 & S2 & S3).
          exists x', o, b, f. split; auto.
        - destruct Inv as (b & [d0 r0] & B1 & B2 & E & G & _). rewrite E.
          destruct (followable_prefix f0 rest f (H f0 (rest ++ [f]) eq_refl)) as (_ & b' & C1 & C2 & C3 & C4 & C5 & bf & C6).
          rewrite B2 in C1. injection C1 as <-.
          assert (M : exists nx, make f = inl nx).
          { destruct C4 as (_ & Ln & Lt & q & Eo & F). assert (P' := Forall2_len _ _ _ F). eexists. apply (make_shape f bf q); auto. congruence. }
          destruct M as (nx & M).
          assert (Sl : slow b (T (last (f0 :: rest) f0)) (T f)) by (rewrite last_cons; auto).
          destruct (solo_step K' b f0 (f0 :: rest) f d0 r0 nx B1 C3 G Sl C4 M (Some (d0, r0)) eq_refl) as (x' & o & S1 & S2 & S3).
          exists x', o, b, f0. split; auto. }
      destruct St as (x' & o & b & f0 & St & E0 & Bo & Fb & G & Rw).
      exists (dset Nat.eqb K' x' d), (rows ++ [(K', o)]). split; [|split].
      + rewrite pure_app, P. cbn. rewrite St. reflexivity.
      + apply dset_NoDup; auto. apply Nat.eqb_eq.
      + intros K. specialize (Inv K). rewrite kframes_snoc. unfold key_rows in *. rewrite filter_app. cbn [filter fst].
        destruct (Nat.eqb_spec K K') as [->|NE].
        * rewrite dget_dset_same by apply Nat.eqb_eq.
          destruct (kframes K' l) as [|g rest]; cbn [app] in *; subst f0.
          -- destruct Inv as [_ ->]. exists b, x'. repeat (split; [assumption || reflexivity|]). constructor; auto.
          -- destruct Inv as (b0 & x0 & _ & _ & _ & _ & F). exists b, x'. repeat (split; [assumption || reflexivity|]).
             apply (Forall2_app F). constructor; auto.
        * rewrite !app_nil_r. rewrite dget_dset_other by (auto; apply Nat.eqb_eq). exact Inv.
  Qed.
End Run.
