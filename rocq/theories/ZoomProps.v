(** C203: the unit of length. *)
From Coq Require Import String Reals ZArith QArith Qreals Qpower List Bool Lia Lqa Lra Arith.
From Verif Require Import Base XNum RVec RVecFacts FrameModel PyStr RelaxFitModel
  MotionModel MotionSpec MotionProofs MotionProps DynModel DynSpec DynProps DynTrue
  ParamsModel WriteCacheModel ProcessModel ProcessSpec ProcessProps ProcessPathModel ProcessPathProps MolRelaxModel
  EndModel EndSpec EndProofs EndProps WaveModel WaveSpec WaveProps SimProofs ShiftSpec ShiftProps ZoomSpec.
Import ListNotations.
Open Scope list_scope.
Open Scope R_scope.
Notation length := List.length.

Section Zoom.
  Variable wrap : fbox -> v3 -> v3.
  Variable gimbal : RVec.quat -> v3.
  Variable argsort : list R -> list nat.
  Variable fl : R -> xnum.
  Variable a : R.
  Hypothesis Ha : 0 < a.
  Hypothesis Hwrap : wrap_scales a wrap.
  Hypothesis Hsort : argsort_scales a argsort.
  Hypothesis Hfl : rounding_scales a fl.

  Lemma sub3_scale u v : sub3 (scale3 a u) (scale3 a v) = scale3 a (sub3 u v).
  Proof. unfold sub3, scale3. cbn [x3 y3 z3]. apply v3_eq; ring. Qed.
  Lemma add3_scale u v : add3 (scale3 a u) (scale3 a v) = scale3 a (add3 u v).
  Proof. unfold add3, scale3. cbn [x3 y3 z3]. apply v3_eq; ring. Qed.
  Lemma rot_scale q v : rot q (scale3 a v) = scale3 a (rot q v).
  Proof. destruct q as [w1 w2 w3 w4], v as [v1 v2 v3]. unfold scale3. cbn [x3 y3 z3]. rewrite !rot_explicit. cbn [x3 y3 z3]. apply v3_eq; ring. Qed.
  Lemma norm2_scale v : norm2_3 (scale3 a v) = a ^ 2 * norm2_3 v.
  Proof. unfold norm2_3, dot3, scale3. cbn [x3 y3 z3]. ring. Qed.
  Lemma norm3_scale v : norm3 (scale3 a v) = a * norm3 v.
  Proof.
    unfold norm3. rewrite norm2_scale. rewrite sqrt_mult; [|apply pow2_ge_0|unfold norm2_3, dot3; nra].
    rewrite sqrt_pow2 by lra. reflexivity.
  Qed.
  Lemma zero_scale : scale3 a zero3 = zero3.
  Proof. unfold scale3, zero3. cbn [x3 y3 z3]. apply v3_eq; ring. Qed.

  Lemma zip_map {A B C : Type} (g : A -> A) (h : B -> B) (k : C -> C) (f : A -> B -> C) :
    (forall x y, f (g x) (h y) = k (f x y)) -> forall l m, zip f (map g l) (map h m) = map k (zip f l m).
  Proof. intros H. induction l as [|x l IH]; intros [|y m]; cbn [map zip]; auto. f_equal; auto. Qed.
  Lemma bzip_map {A B C : Type} (g : A -> A) (h : B -> B) (k : C -> C) (f : A -> B -> C) :
    (forall x y, f (g x) (h y) = k (f x y)) -> forall l m,
    bzip f (map g l) (map h m) = match bzip f l m with inl x => inl (map k x) | inr e => inr e end.
  Proof.
    intros H l m. unfold bzip. rewrite !map_length. destruct (length l =? length m)%nat; [f_equal; apply zip_map; auto|].
    assert (M1 : forall y, map (fun x => f x (h y)) (map g l) = map k (map (fun x => f x y) l)) by (intros; rewrite !map_map; apply map_ext; auto).
    assert (M2 : forall x, map (f (g x)) (map h m) = map k (map (f x) m)) by (intros; rewrite !map_map; apply map_ext; auto).
    destruct m as [|y [|y2 m]]; cbn [map].
    - destruct l as [|x [|x2 l]]; reflexivity.
    - destruct l as [|x [|x2 l]]; cbn [map]; f_equal; apply (M1 y).
    - destruct l as [|x [|x2 l]]; cbn [map]; try reflexivity. f_equal. apply (M2 x).
  Qed.
  Lemma inplace_map {A B : Type} (g : A -> A) (h : B -> B) (f : A -> B -> A) :
    (forall x y, f (g x) (h y) = g (f x y)) -> forall l m,
    inplace f (map g l) (map h m) = match inplace f l m with inl x => inl (map g x) | inr e => inr e end.
  Proof.
    intros H l m. unfold inplace. rewrite !map_length. destruct (length l =? length m)%nat; [f_equal; apply zip_map; auto|].
    destruct m as [|y [|y2 m]]; cbn [map]; try reflexivity. f_equal. rewrite !map_map. apply map_ext. auto.
  Qed.

  (** Averages *)
  Lemma rsum_scale c l : rsum (map (Rmult c) l) = c * rsum l.
  Proof. induction l as [|x l IH]; cbn [map rsum fold_right]; [ring|]. fold (rsum (map (Rmult c) l)). fold (rsum l). rewrite IH. ring. Qed.
  Lemma rmean_scale c l : rmean (map (Rmult c) l) = c * rmean l.
  Proof. unfold rmean. rewrite rsum_scale, map_length. unfold Rdiv. ring. Qed.
  Lemma disp_scale d : displacement (zoom a d) = map (Rmult a) (displacement d).
  Proof. unfold displacement, zoom. rewrite !map_map. apply map_ext. intros. apply norm3_scale. Qed.
  Lemma disp2_scale d : displacement2 (zoom a d) = map (Rmult (a ^ 2)) (displacement2 d).
  Proof. unfold displacement2, zoom. rewrite !map_map. apply map_ext. intros. apply norm2_scale. Qed.
  Lemma mean_disp_scale d : rmean (displacement (zoom a d)) = a ^ 1 * rmean (displacement d).
  Proof. rewrite disp_scale, rmean_scale. ring. Qed.
  Lemma msd_scale d : msd (zoom a d) = a ^ 2 * msd d.
  Proof. unfold msd. rewrite disp2_scale, rmean_scale. reflexivity. Qed.
  Lemma sq_scale d : map sq (displacement2 (zoom a d)) = map (Rmult (a ^ 4)) (map sq (displacement2 d)).
  Proof. rewrite disp2_scale, !map_map. apply map_ext. intros. unfold sq. ring. Qed.
  Lemma mfd_scale d : mfd (zoom a d) = a ^ 4 * mfd d.
  Proof. unfold mfd. rewrite sq_scale, rmean_scale. reflexivity. Qed.
  Lemma ratio_scale c x y : c <> 0 -> ratio (c * x) (c * y) = ratio x y.
  Proof.
    intros Hc. unfold ratio.
    assert (Z : forall z, c * z = 0 -> z = 0) by (intros z E; apply Rmult_integral in E; tauto).
    destruct (Req_EM_T (c * y) 0) as [E|E], (Req_EM_T y 0) as [F|F]; try (exfalso; first [now auto|apply E; rewrite F; ring]).
    - destruct (Req_EM_T (c * x) 0) as [G|G], (Req_EM_T x 0) as [H|H]; try reflexivity; exfalso; [now auto|apply G; rewrite H; ring].
    - do 2 f_equal. field. auto.
  Qed.
  Lemma a_pow n : a ^ n <> 0.
  Proof. apply pow_nonzero. lra. Qed.
  Lemma alpha_scale k d : alpha k (zoom a d) = alpha k d.
  Proof.
    unfold alpha. rewrite sq_scale, disp2_scale, !rmean_scale.
    replace (k * sq (a ^ 2 * rmean (displacement2 d))) with (a ^ 4 * (k * sq (rmean (displacement2 d)))) by (unfold sq; ring).
    apply ratio_scale, a_pow.
  Qed.
  Lemma gamma_scale d r : gamma (zoom a d) r = gamma d r.
  Proof.
    unfold gamma. rewrite disp2_scale.
    replace (zip Rmult (map (Rmult (a ^ 2)) (displacement2 d)) (displacement2 r)) with (map (Rmult (a ^ 2)) (zip Rmult (displacement2 d) (displacement2 r))).
    - rewrite !rmean_scale, Rmult_assoc. apply ratio_scale, a_pow.
    - rewrite <- (map_id (displacement2 r)) at 2. symmetry. apply zip_map. intros. ring.
  Qed.
  Lemma isf_scale k n d : isf (k / a) n (zoom a d) = isf k n d.
  Proof.
    unfold isf, wave_vectors. f_equal. rewrite !flat_map_concat_map, !map_map. f_equal. apply map_ext. intros i. cbn [fst snd].
    unfold zoom. rewrite map_map. apply map_ext. intros v. f_equal. unfold scale3. cbn [x3 y3 z3]. field. lra.
  Qed.
  Lemma struct_scale l x : structural_relax (map (Rmult a) l) (a * x) = structural_relax l x.
  Proof.
    unfold structural_relax. f_equal. rewrite map_map. apply map_ext. intros y. unfold Rltb.
    destruct (Rlt_dec (a * y) (a * x)) as [H|H], (Rlt_dec y x) as [G|G]; auto; exfalso.
    - apply G. apply Rmult_lt_reg_l with a; auto.
    - apply H. apply Rmult_lt_compat_l; auto.
  Qed.
  Lemma overlap_scale d r : mobile_overlap argsort (displacement (zoom a d)) r = mobile_overlap argsort (displacement d) r.
  Proof. unfold mobile_overlap. rewrite disp_scale, map_length, Hsort. reflexivity. Qed.
  Lemma m2p_scale p q mol : molecule2particles (zoom a p) q (zoom a mol) =
    match molecule2particles p q mol with inl x => inl (zoom a x) | inr e => inr e end.
  Proof.
    unfold molecule2particles. set (o := if forallb near_zero q then _ else _). clearbody o.
    destruct (negb (forallb unitb o)); [reflexivity|]. destruct mol as [|v mol]; [reflexivity|]. set (ms := v :: mol).
    change (zoom a ms) with (scale3 a v :: zoom a mol). cbv iota. change (scale3 a v :: zoom a mol) with (zoom a ms).
    replace (flat_map (fun v0 => map (fun q0 => rot q0 v0) o) (zoom a ms)) with (zoom a (flat_map (fun v0 => map (fun q0 => rot q0 v0) o) ms)).
    2:{ clear. induction ms as [|w ms IH]; cbn [flat_map zoom map]; [reflexivity|]. unfold zoom in *. rewrite map_app, IH, map_map. f_equal. apply map_ext. intros. rewrite rot_scale. reflexivity. }
    replace (flat_map (fun p0 => repeat p0 (length (zoom a ms))) (zoom a p)) with (zoom a (flat_map (fun p0 => repeat p0 (length ms)) p)).
    2:{ unfold zoom. rewrite map_length. clear. induction p as [|w p IH]; cbn [flat_map map]; [reflexivity|]. rewrite map_app, IH. f_equal.
        generalize (length ms). induction n; cbn [repeat map]; [reflexivity|]. f_equal; auto. }
    unfold zoom. apply bzip_map. apply add3_scale.
  Qed.
  Lemma struct_relax_scale dt dr mol n x : struct_relax (zoom a dt) dr (zoom a mol) n (a * x) = struct_relax dt dr mol n x.
  Proof.
    unfold struct_relax, struct_positions.
    replace (map (fun _ : v3 => zero3) (zoom a dt)) with (zoom a (map (fun _ : v3 => zero3) dt)) by (unfold zoom; rewrite !map_map; apply map_ext; intros; apply zero_scale).
    rewrite !m2p_scale. destruct (molecule2particles dt _ mol) as [fi|e]; cbn [MotionModel.ebind]; [|reflexivity].
    destruct (molecule2particles (map _ dt) _ mol) as [ini|e]; cbn [MotionModel.ebind fst snd]; [|reflexivity].
    unfold zoom. rewrite (bzip_map (scale3 a) (scale3 a) (scale3 a) sub3 sub3_scale). destruct (bzip sub3 fi ini) as [d|e]; cbn [MotionModel.ebind]; [|reflexivity].
    f_equal. rewrite <- (struct_scale (map norm3 d)). f_equal. rewrite !map_map. apply map_ext. intros. apply norm3_scale.
  Qed.

  (** Motion *)
  Definition zmotion (m : motion) : motion :=
    mkmotion (zoom_box a (m_box m)) (zoom a (m_dt m)) (m_dr m) (zoom a (m_ppos m)) (m_pori m).
  Lemma motion_zoom m p o : motion_add wrap gimbal (zmotion m) (zoom a p) o =
    (zmotion (fst (motion_add wrap gimbal m p o)), snd (motion_add wrap gimbal m p o)).
  Proof.
    unfold motion_add. cbn [m_box m_dt m_dr m_ppos m_pori zmotion]. change (bzip sub3 (zoom a (m_ppos m)) (zoom a p)) with (bzip sub3 (map (scale3 a) (m_ppos m)) (map (scale3 a) p)).
    rewrite (bzip_map (scale3 a) (scale3 a) (scale3 a) sub3 sub3_scale). destruct (bzip sub3 (m_ppos m) p) as [d|e]; cbn [MotionModel.ebind]; [|reflexivity].
    replace (map (wrap (zoom_box a (m_box m))) (map (scale3 a) d)) with (map (scale3 a) (map (wrap (m_box m)) d))
      by (rewrite !map_map; apply map_ext; intros; rewrite Hwrap; reflexivity).
    unfold zoom. rewrite (inplace_map (scale3 a) (scale3 a) sub3 sub3_scale). destruct (inplace sub3 (m_dt m) _) as [dt|e]; [|reflexivity].
    destruct (m_pori m) as [prev|]; [|reflexivity]. destruct o as [ori|]; [|reflexivity].
    destruct (MotionModel.ebind _ _) as [dr|e]; reflexivity.
  Qed.
  Lemma init_zoom b p o : motion_init (zoom_box a b) (zoom a p) o = match motion_init b p o with inl m => inl (zmotion m) | inr e => inr e end.
  Proof.
    unfold motion_init. assert (Z : map (fun _ : v3 => zero3) (zoom a p) = zoom a (map (fun _ : v3 => zero3) p)) by (unfold zoom; rewrite !map_map; apply map_ext; intros; symmetry; apply zero_scale).
    assert (Z' : map (fun _ : v3 => zero3) (zoom a p) = map (fun _ : v3 => zero3) p) by (unfold zoom; rewrite map_map; reflexivity).
    destruct o as [[|q o]|]; unfold zmotion; cbn [m_box m_dt m_dr m_ppos m_pori]; rewrite <- ?Z, ?Z'; reflexivity.
  Qed.

  (** Dynamics *)
  Definition zdyn (d : dynamics) : dynamics :=
    mkdyn (zmotion (d_motion d)) (d_timestep d) (d_num d) (option_map (zoom a) (d_mol d)) (option_map (fun k => k / a) (d_wave d)) (d_res d).
  Lemma div_zero k : k / a = 0 <-> k = 0.
  Proof. split; intros H; [|rewrite H; unfold Rdiv; ring]. replace k with (k / a * a) by (field; lra). rewrite H. ring. Qed.
  Lemma distance_scale k : k <> 0 -> PI / (2 * (k / a)) = a * (PI / (2 * k)).
  Proof. intros. field. split; lra. Qed.
  Lemma distance_zoom d : distance (zdyn d) = match distance d with inl x => inl (option_map (Rmult a) x) | inr e => inr e end.
  Proof.
    unfold distance. cbn [d_wave zdyn]. destruct (d_wave d) as [k|]; cbn [option_map]; [|reflexivity].
    pose proof (div_zero k). destruct (Req_EM_T (k / a) 0), (Req_EM_T k 0); try (exfalso; tauto); [reflexivity|]. cbn [option_map]. rewrite distance_scale by auto. reflexivity.
  Qed.
  Lemma struct_zoom d : compute_struct_relax (zdyn d) = compute_struct_relax d.
  Proof.
    unfold compute_struct_relax. rewrite distance_zoom. destruct (distance d) as [[x|]|e]; cbn [MotionModel.ebind option_map]; try reflexivity.
    cbn [d_mol zdyn d_motion zmotion m_dt m_dr d_num]. destruct (d_mol d) as [mol|]; cbn [option_map]; [|reflexivity]. apply struct_relax_scale.
  Qed.
  Lemma dset_units k v q : row_in_units a (put k v q) = put k (value_in_units a (power k) v) (row_in_units a q).
  Proof.
    unfold put, row_in_units. induction q as [|[k' v'] q IH]; [reflexivity|]. cbn [dset map fst snd].
    destruct (String.eqb k k') eqn:E; cbn [map fst snd]; [apply String.eqb_eq in E; subst k'; reflexivity|]. f_equal. exact IH.
  Qed.
  Lemma putr_units k x q : row_in_units a (putr k x q) = putr k (a ^ power k * x) (row_in_units a q).
  Proof. apply dset_units. Qed.
  Lemma put_ratio k f q : power k = O -> row_in_units a (put k (VFl f) q) = put k (VFl f) (row_in_units a q).
  Proof. intros E. rewrite dset_units, E. destruct f; cbn [value_in_units pow]; rewrite ?Rmult_1_l; reflexivity. Qed.
  Lemma putr_plain k x q : power k = O -> row_in_units a (putr k x q) = putr k x (row_in_units a q).
  Proof. apply put_ratio. Qed.
  Lemma quantities_zoom d ts sc : quantities argsort (zdyn d) ts sc =
    match quantities argsort d ts sc with inl row => inl (row_in_units a row) | inr e => inr e end.
  Proof.
    unfold quantities. rewrite distance_zoom. rewrite struct_zoom. cbn [d_motion zdyn zmotion m_dt m_dr m_pori d_timestep d_mol d_wave d_res].
    rewrite mean_disp_scale, msd_scale, mfd_scale, alpha_scale, gamma_scale, overlap_scale.
    set (q0 := map _ all_quantities).
    assert (E0 : row_in_units a q0 = q0) by reflexivity.
    set (q1 := put "time" _ q0). assert (E1 : row_in_units a q1 = q1) by (unfold q1; rewrite dset_units, E0; reflexivity).
    destruct (alpha 2 (m_dt (d_motion d))) as [al|e]; cbn [MotionModel.ebind]; [|reflexivity].
    set (qa := put "alpha" (VFl al) (putr "mfd" (mfd _) _)). set (qa' := put "alpha" (VFl al) (putr "mfd" (a ^ 4 * _) _)).
    assert (Ea : qa' = row_in_units a qa).
    { unfold qa, qa'. rewrite put_ratio by reflexivity. rewrite !putr_units, E1. reflexivity. }
    clearbody qa qa'. subst qa'.
    set (qs := match sc, d_wave d with true, Some k => putr "scattering_function" _ qa | _, _ => qa end).
    set (qs' := match sc, option_map _ (d_wave d) with true, Some k => putr "scattering_function" _ _ | _, _ => _ end).
    assert (Es : qs' = row_in_units a qs).
    { unfold qs, qs'. destruct sc; [|reflexivity]. destruct (d_wave d) as [k|]; cbn [option_map]; [|reflexivity].
      rewrite putr_plain by reflexivity. rewrite isf_scale. reflexivity. }
    clearbody qs qs'. subst qs'.
    destruct (distance d) as [dist|e]; cbn [MotionModel.ebind]; [|reflexivity].
    set (qc := match dist with Some x => putr "com_struct" _ qs | None => qs end).
    set (qc' := match option_map _ dist with Some x => putr "com_struct" _ _ | None => _ end).
    assert (Ec : qc' = row_in_units a qc).
    { unfold qc, qc'. destruct dist as [x|]; cbn [option_map]; [|reflexivity]. rewrite putr_plain by reflexivity. rewrite disp_scale, struct_scale. reflexivity. }
    clearbody qc qc'. subst qc'.
    destruct (alpha 3 (m_dr (d_motion d))) as [ar|e]; cbn [MotionModel.ebind]; [|reflexivity].
    destruct (gamma (m_dt (d_motion d)) (m_dr (d_motion d))) as [ga|e]; cbn [MotionModel.ebind]; [|reflexivity].
    destruct (mobile_overlap _ _ _) as [ov|e]; cbn [MotionModel.ebind]; [|reflexivity].
    set (qo := putr "overlap" ov (put "gamma" _ (put "alpha_rot" _ (putr "rot2" _ (putr "rot1" _ (putr "msr" _ (putr "mean_rotation" _ qc))))))).
    assert (Eo : row_in_units a qo = putr "overlap" ov (put "gamma" (VFl ga) (put "alpha_rot" (VFl ar) (putr "rot2" (rot2 (m_dr (d_motion d)))
              (putr "rot1" (rot1 (m_dr (d_motion d))) (putr "msr" (msr (m_dr (d_motion d))) (putr "mean_rotation" (mean_rotation (m_dr (d_motion d))) (row_in_units a qc)))))))).
    { unfold qo. rewrite putr_plain, put_ratio, put_ratio, putr_plain, putr_plain, putr_plain, putr_plain by reflexivity. reflexivity. }
    rewrite <- Eo. clearbody qo.
    destruct dist as [x|]; cbn [option_map]; [|reflexivity]. destruct (d_mol d) as [mol|]; cbn [option_map]; [|reflexivity].
    destruct (m_pori (d_motion d)); [|reflexivity]. destruct (compute_struct_relax d) as [st|e]; cbn [MotionModel.ebind]; [|reflexivity].
    rewrite putr_plain by reflexivity. reflexivity.
  Qed.

  (** Relaxation times *)
  Variable q : Q.
  Hypothesis Hq : (0 < q)%Q.
  Hypothesis Hflq : forall x, xequal (fl (a * x)) (xtimes q (fl x)).

  Lemma xlt_times x x' y y' : xequal x' (xtimes q x) -> xequal y' (xtimes q y) -> xlt x' y' = xlt x y.
  Proof.
    destruct x as [| | |x], y as [| | |y]; cbn [xtimes]; intros Hx Hy; destruct x' as [| | |x'], y' as [| | |y']; cbn [xequal] in Hx, Hy; try discriminate; try reflexivity.
    cbn [xlt]. apply eq_true_iff_eq. rewrite !Qltb_lt. rewrite Hx, Hy. split; intros H.
    - apply Qmult_lt_l in H; auto.
    - apply Qmult_lt_l; auto.
  Qed.
  Lemma xtriple_times x x' : xequal x' (xtimes q x) -> xequal (xtriple x') (xtimes q (xtriple x)).
  Proof.
    destruct x as [| | |x]; cbn [xtimes xtriple]; intros H; destruct x' as [| | |x']; cbn [xequal] in H; try discriminate; try reflexivity.
    cbn [xtriple xequal]. rewrite H. ring.
  Qed.
  Lemma xzero_times : xequal xzero (xtimes q xzero).
  Proof. cbn [xtimes xzero xequal]. ring. Qed.

  Definition thr_rel (ty : rtype) (t t' : xnum) : Prop :=
    match ty with translation => xequal t' (xtimes q t) | rotation => t' = t end.
  Definition last_rel (ty : rtype) (l l' : option (list nat * xnum)) : Prop :=
    match l, l' with
    | None, None => True
    | Some (s, i), Some (s', i') => s' = s /\ thr_rel ty i i'
    | _, _ => False
    end.
  Definition mr_rel (r r' : molrel) : Prop :=
    mr_status r' = mr_status r /\ mr_type r' = mr_type r /\ thr_rel (mr_type r) (mr_threshold r) (mr_threshold r') /\
    last_rel (mr_type r) (mr_last r) (mr_last r').
  Definition dist_rel (ty : rtype) (L L' : list xnum) : Prop := Forall2 (thr_rel ty) L L'.

  Lemma gt_rel ty d d' t t' : thr_rel ty d d' -> thr_rel ty t t' -> xgt d' t' = xgt d t.
  Proof. unfold xgt. destruct ty; cbn [thr_rel]; intros H1 H2; [subst; reflexivity|]. apply xlt_times; auto. Qed.
  Lemma lt_rel ty d d' t t' : thr_rel ty d d' -> thr_rel ty t t' -> xlt d' t' = xlt d t.
  Proof. destruct ty; cbn [thr_rel]; intros H1 H2; [subst; reflexivity|]. apply xlt_times; auto. Qed.
  Lemma zip_with_rel {A B C : Type} (P : A -> A -> Prop) (f f' : A -> B -> C) : (forall x x' y, P x x' -> f' x' y = f x y) ->
    forall l l', Forall2 P l l' -> forall m, zip_with f' l' m = zip_with f l m.
  Proof. intros H l l' Hl. induction Hl; intros [|z m]; cbn [zip_with]; auto. f_equal; auto. Qed.
  Lemma map_rel {A C : Type} (P : A -> A -> Prop) (f f' : A -> C) : (forall x x', P x x' -> f' x' = f x) ->
    forall l l', Forall2 P l l' -> map f' l' = map f l.
  Proof. intros H l l' Hl. induction Hl; cbn [map]; auto. f_equal; auto. Qed.

  Lemma mr_add_zoom t r r' D D' : mr_rel r r' -> dist_rel (mr_type r) D D' ->
    sum_rel mr_rel (mr_add t D r) (mr_add t D' r').
  Proof.
    intros (H1 & H2 & H3 & H4) HD. unfold mr_add. rewrite H1, <- (Forall2_len _ _ _ HD).
    destruct (negb _); [reflexivity|].
    assert (F : first_update (mr_threshold r') t D' (mr_status r) = first_update (mr_threshold r) t D (mr_status r)).
    { unfold first_update. rewrite (map_rel (thr_rel (mr_type r)) (fun d => xgt d (mr_threshold r)) (fun d => xgt d (mr_threshold r')) (fun x x' Hx => gt_rel _ _ _ _ _ Hx H3) D D' HD). reflexivity. }
    unfold last_rel in H4. destruct (mr_last r) as [[st i]|] eqn:El, (mr_last r') as [[st' i']|] eqn:El'; try contradiction.
    - destruct H4 as [-> H4].
      assert (G : last_update (mr_threshold r') i' t D' (mr_status r) st = last_update (mr_threshold r) i t D (mr_status r) st).
      { unfold last_update.
        rewrite !(zip_with_rel (thr_rel (mr_type r)) (fun d s => xgt d (mr_threshold r) && (s =? 0)%nat)%bool (fun d s => xgt d (mr_threshold r') && (s =? 0)%nat)%bool
                    (fun x x' y Hx => f_equal (fun b => b && _)%bool (gt_rel _ _ _ _ _ Hx H3)) D D' HD).
        rewrite !(zip_with_rel (thr_rel (mr_type r)) (fun d s => xlt d (mr_threshold r) && (s =? 1)%nat)%bool (fun d s => xlt d (mr_threshold r') && (s =? 1)%nat)%bool
                    (fun x x' y Hx => f_equal (fun b => b && _)%bool (lt_rel _ _ _ _ _ Hx H3)) D D' HD).
        rewrite !(zip_with_rel (thr_rel (mr_type r)) (fun d s => xgt d i && (s =? 1)%nat)%bool (fun d s => xgt d i' && (s =? 1)%nat)%bool
                    (fun x x' y Hx => f_equal (fun b => b && _)%bool (gt_rel _ _ _ _ _ Hx H4)) D D' HD).
        reflexivity. }
      rewrite G. destruct (last_update _ _ _ _ _ _) as [a1 a2]. cbn [sum_rel]. unfold mr_rel. cbn. auto.
    - rewrite F. cbn [sum_rel]. unfold mr_rel. cbn. auto.
  Qed.
  Definition dict_rel : dict string molrel -> dict string molrel -> Prop := Forall2 (fun p p' => fst p' = fst p /\ mr_rel (snd p) (snd p')).
  Lemma loop_zoom t D D' Ro : dist_rel translation D D' -> forall d d', dict_rel d d' ->
    dict_rel (fst (relax_loop t D Ro d)) (fst (relax_loop t D' Ro d')) /\ snd (relax_loop t D' Ro d') = snd (relax_loop t D Ro d).
  Proof.
    intros HD d d' Hd. induction Hd as [|[k r] [k' r'] d d' [E Hr] Hd IH]; [split; [constructor|reflexivity]|].
    cbn [fst snd] in E, Hr. subst k'. cbn [relax_loop].
    assert (HX : dist_rel (mr_type r) (match mr_type r with rotation => Ro | translation => D end) (match mr_type r' with rotation => Ro | translation => D' end)).
    { destruct Hr as (_ & -> & _). destruct (mr_type r); [|exact HD]. clear. induction Ro; constructor; cbn; auto. }
    pose proof (mr_add_zoom t _ _ _ _ Hr HX) as G.
    destruct (mr_add t _ r) as [r1|e], (mr_add t _ r') as [r1'|e']; cbn [sum_rel] in G; try contradiction.
    - destruct (relax_loop t D Ro d) as [d1 e1], (relax_loop t D' Ro d') as [d1' e1']. cbn [fst snd] in *. destruct IH as [I1 I2]. split; [constructor; cbn; auto|auto].
    - subst e'. cbn [fst snd]. split; [constructor; cbn; auto|auto].
  Qed.
  Lemma status_zoom r r' : mr_rel r r' -> get_status r' = get_status r.
  Proof.
    intros (H1 & _ & _ & H4). unfold get_status, last_rel in *. rewrite H1. destruct (mr_last r) as [[s i]|], (mr_last r') as [[s' i']|]; try contradiction; [|reflexivity].
    destruct H4 as [-> _]. reflexivity.
  Qed.
  Lemma defaults_zoom parse show n D D' p2 p3 p4 : xequal D' (xtimes q D) ->
    dict_rel (fst (set_mol_relax parse show n (default_definitions D p2 p3 p4))) (fst (set_mol_relax parse show n (default_definitions D' p2 p3 p4))) /\
    snd (set_mol_relax parse show n (default_definitions D' p2 p3 p4)) = snd (set_mol_relax parse show n (default_definitions D p2 p3 p4)).
  Proof.
    intros H. assert (H3 := xtriple_times _ _ H).
    assert (E1 : xlt D' xzero = xlt D xzero) by (apply xlt_times; auto using xzero_times).
    assert (E3 : xlt (xtriple D') xzero = xlt (xtriple D) xzero) by (apply xlt_times; auto using xzero_times).
    unfold set_mol_relax, default_definitions. cbn [set_loop]. unfold make_relax, create_mol_relaxations.
    cbn [given def_name def_threshold def_last def_cutoff def_type to_float to_bool to_str].
    rewrite E1, E3. destruct (xlt (xtriple D) xzero); [split; [constructor|reflexivity]|].
    cbn. destruct (xlt D xzero); cbn; [split; [repeat constructor; cbn; auto|reflexivity]|].
    destruct (xlt p2 xzero); cbn; [split; [repeat constructor; cbn; auto|reflexivity]|].
    destruct (xlt p3 xzero); cbn; [split; [repeat constructor; cbn; auto|reflexivity]|].
    destruct (xlt p4 xzero); cbn; (split; [repeat constructor; cbn; auto|reflexivity]).
  Qed.

  (** The whole analysis *)
  Variable calculate : fbox -> list v3 -> R + exn.
  Variable parse : string -> option xnum.
  Variable show : yaml -> string.
  Variable mol : list v3.
  Variable k : R.
  Variable scattering : bool.

  Definition ZD (d d' : dynamics) : Prop := d' = zdyn d.
  Definition ZR (r r' : robj) : Prop :=
    r_motion r' = zmotion (r_motion r) /\ r_num r' = r_num r /\ rx_init_time (r_relax r') = rx_init_time (r_relax r) /\
    dict_rel (rx_relax (r_relax r)) (rx_relax (r_relax r')).
  Definition ZF (f f' : eframe) : Prop := f' = zoom_frame a f.

  Lemma box_zoom f : frame_box (zoom_frame a f) = match frame_box f with inl b => inl (zoom_box a b) | inr e => inr e end.
  Proof.
    unfold frame_box, zoom_frame. cbn [e_box]. destruct (e_box f) as [|Lx [|Ly [|Lz tl]]]; try reflexivity.
    unfold create_freud_box. cbn [firstn length]. destruct tl as [|t1 [|t2 [|t3 [|t4 tl]]]]; cbn; unfold zoom_box; cbn [bx by_ bz bxy bxz byz b2d]; rewrite Rmult_0_r; reflexivity.
  Qed.
  Lemma make_zoom f f' : ZF f f' ->
    sum_rel (fun x x' => ZD (fst x) (fst x') /\ ZR (snd x) (snd x'))
      (make fl calculate parse show mol (Some k) f) (make fl calculate parse show (zoom a mol) (Some (k / a)) f').
  Proof.
    intros ->. unfold make, make_dynamics, make_relaxations. rewrite box_zoom.
    change (e_pos (zoom_frame a f)) with (zoom a (e_pos f)). change (e_ori (zoom_frame a f)) with (e_ori f). change (e_ts (zoom_frame a f)) with (e_ts f).
    destruct (e_pos f) as [|p0 ps] eqn:Ep; [reflexivity|]. set (P := p0 :: ps). change (zoom a P) with (scale3 a p0 :: zoom a ps). cbv iota. change (scale3 a p0 :: zoom a ps) with (zoom a P).
    destruct (frame_box f) as [b|e]; cbn [MotionModel.ebind]; [|reflexivity].
    unfold dyn_init. change (zoom a P) with (scale3 a p0 :: zoom a ps) at 1. cbv iota. rewrite init_zoom.
    assert (EL : length (zoom a P) = length P) by (unfold zoom; apply map_length).
    destruct (motion_init b P (e_ori f)) as [m|e]; cbn [MotionModel.ebind]; [|reflexivity].
    pose proof (div_zero k) as Z. destruct (Req_EM_T (k / a) 0), (Req_EM_T k 0); try (exfalso; tauto); [reflexivity|].
    rewrite EL, distance_scale by auto.
    destruct (defaults_zoom parse show (length P) (fl (PI / (2 * k))) (fl (a * (PI / (2 * k)))) (fl (PI / 2)) (fl (PI / 3)) (fl (PI / 4)) (Hflq _)) as [G1 G2].
    destruct (set_mol_relax parse show (length P) (default_definitions (fl (PI / (2 * k))) _ _ _)) as [r e1],
             (set_mol_relax parse show (length P) (default_definitions (fl (a * (PI / (2 * k)))) _ _ _)) as [r' e1']. cbn [fst snd] in G1, G2. subst e1'.
    destruct e1 as [e|]; cbn [MotionModel.ebind]; [reflexivity|]. cbn [sum_rel fst snd]. split; [reflexivity|]. unfold ZR. cbn. auto.
  Qed.
  Lemma compute_zoom d d' f f' : ZD d d' -> ZF f f' ->
    ZD (fst (compute wrap gimbal argsort scattering d f)) (fst (compute wrap gimbal argsort scattering d' f')) /\
    sum_rel (fun row row' => row' = row_in_units a row) (snd (compute wrap gimbal argsort scattering d f)) (snd (compute wrap gimbal argsort scattering d' f')).
  Proof.
    intros -> ->. unfold compute, compute_all, dyn_add. cbn [d_motion zdyn d_timestep d_num d_mol d_wave d_res zoom_frame e_ts e_pos e_ori]. rewrite motion_zoom.
    destruct (motion_add wrap gimbal (d_motion d) (e_pos f) (e_ori f)) as [m [e|]]; cbn [fst snd]; (split; [reflexivity|]); [reflexivity|].
    pose proof (quantities_zoom (mkdyn m (d_timestep d) (d_num d) (d_mol d) (d_wave d) (d_res d)) (e_ts f) scattering) as Q.
    unfold zdyn in Q. cbn [d_motion d_timestep d_num d_mol d_wave d_res] in Q. rewrite Q.  match goal with |- sum_rel _ ?x _ => generalize x end. intros [row|e]; reflexivity.
  Qed.
  Lemma radd_zoom r r' f f' : ZR r r' -> ZF f f' ->
    ZR (fst (radd wrap gimbal fl r f)) (fst (radd wrap gimbal fl r' f')) /\ snd (radd wrap gimbal fl r' f') = snd (radd wrap gimbal fl r f).
  Proof.
    intros (M & H1 & H2 & H3) ->. unfold radd. rewrite M. cbn [zoom_frame e_ts e_pos e_ori]. rewrite motion_zoom.
    destruct (motion_add wrap gimbal (r_motion r) (e_pos f) (e_ori f)) as [m [e|]]; cbn [fst snd]; [split; [unfold ZR; cbn; auto|auto]|].
    cbn [zmotion m_dt m_dr]. rewrite H1. unfold relaxations_add. rewrite H2.
    assert (HD : dist_rel translation (map fl (displacement (m_dt m))) (map fl (displacement (zoom a (m_dt m))))).
    { rewrite disp_scale, map_map. induction (displacement (m_dt m)); cbn [map]; constructor; auto. cbn [thr_rel]. apply Hflq. }
    destruct (loop_zoom (e_ts f - rx_init_time (r_relax r)) _ _ (map fl (displacement (m_dr m))) HD _ _ H3) as [G1 G2].
    destruct (relax_loop _ (map fl (displacement (m_dt m))) _ _) as [x e], (relax_loop _ (map fl (displacement (zoom a (m_dt m)))) _ _) as [x' e']. cbn [fst snd] in *.
    subst e'. split; [|auto]. unfold ZR. cbn. auto.
  Qed.
  Lemma reader_zoom l fin outfile v vars floats t0 r0 :
    process_file (fun f => length (e_pos f)) (make fl calculate parse show (zoom a mol) (Some (k / a))) (custom parse show None)
      (compute wrap gimbal argsort scattering) (radd wrap gimbal fl) (label_vars parse v) (fun x => summary (r_relax x)) outfile vars floats
      (Some (zoom_film a l, fin)) (table_in_units a t0) r0 =
    outcome_in_units a (process_file (fun f => length (e_pos f)) (make fl calculate parse show mol (Some k)) (custom parse show None)
      (compute wrap gimbal argsort scattering) (radd wrap gimbal fl) (label_vars parse v) (fun x => summary (r_relax x)) outfile vars floats (Some (l, fin)) t0 r0).
  Proof.
    set (go := fun o : labelled (dict string dval) => snd (line_in_units a (0%nat, o))).
    pose proof (process_sim (fun f => length (e_pos f)) (fun f => length (e_pos f)) (make fl calculate parse show mol (Some k)) (make fl calculate parse show (zoom a mol) (Some (k / a)))
      (custom parse show None) (custom parse show None) (compute wrap gimbal argsort scattering) (compute wrap gimbal argsort scattering)
      (radd wrap gimbal fl) (radd wrap gimbal fl) (label_vars parse v) (label_vars parse v) (fun x => summary (r_relax x)) (fun x => summary (r_relax x))
      (row_in_units a) go (fun x => x) ZD ZR ZF) as S.
    assert (HN : forall f f', ZF f f' -> length (e_pos f') = length (e_pos f)) by (intros f f' ->; cbn [zoom_frame e_pos]; unfold zoom; apply map_length).
    specialize (S HN make_zoom I compute_zoom radd_zoom).
    assert (HL : forall j row, sum_rel (fun o o' => o' = go o) (label_vars parse v j row) (label_vars parse v j (row_in_units a row))).
    { intros j row. unfold label_vars. destruct (column parse (v_temperature v)); cbn [FrameModel.ebind]; [|reflexivity]. destruct (column parse (v_pressure v)); reflexivity. }
    assert (HS : forall r r', ZR r r' -> summary (r_relax r') = summary (r_relax r)).
    { intros r r' (_ & _ & _ & G). unfold summary. induction G as [|[n1 m1] [n2 m2] ? ? [E G1] _ IH]; cbn [map]; [reflexivity|]. cbn [fst snd] in *. subst. f_equal; auto. f_equal. apply status_zoom. auto. }
    specialize (S HL HS outfile vars floats (Some (l, fin)) (Some (zoom_film a l, fin)) t0 r0).
    assert (HF : Forall2 (fun x x' : list nat * eframe => fst x = fst x' /\ ZF (snd x) (snd x')) l (zoom_film a l)).
    { clear. unfold zoom_film. induction l; cbn [map]; constructor; auto. split; reflexivity. }
    specialize (S (conj eq_refl HF)).
    assert (ML : forall A (l : list (nat * A)), map (fun p => (fst p, snd p)) l = l).
    { intros A l0. rewrite <- (map_id l0) at 2. apply map_ext. intros []; reflexivity. }
    assert (T2 : forall r : option (list (nat * dict string (list Z))), option_map (map (fun p => (fst p, snd p))) r = r).
    { intros [r|]; [|reflexivity]. cbn [option_map]. rewrite ML. reflexivity. }
    rewrite T2 in S. unfold omap in S. rewrite T2 in S. exact S.
  Qed.
End Zoom.

Theorem C203_unit_of_length (wrap : fbox -> v3 -> v3) gimbal argsort fl calculate parse show mol k scattering a
        infile outfile gsd lammps t0 r0 :
  0 < a -> wrap_scales a wrap -> argsort_scales a argsort -> rounding_scales a fl ->
  analyse wrap gimbal argsort fl calculate parse show (zoom a mol) (Some (k / a)) scattering None infile outfile
          (zoom_film a (fst gsd), snd gsd) (zoom_film a (fst lammps), snd lammps) (table_in_units a t0) r0 =
  outcome_in_units a
    (analyse wrap gimbal argsort fl calculate parse show mol (Some k) scattering None infile outfile gsd lammps t0 r0).
Proof.
  intros Ha Hw Hs (q & Hq & _ & Hf). destruct gsd as [g fg], lammps as [l fl_]. cbn [fst snd].
  unfold analyse, process_path. destruct (get_filename_vars infile) as [v|e]; [|reflexivity].
  destruct (String.eqb (path_suffix infile) ".gsd"); [|destruct (String.eqb (path_suffix infile) ".lammpstrj"); [|reflexivity]];
    apply (reader_zoom wrap gimbal argsort fl a Ha Hw Hs q Hq Hf).
Qed.
Print Assumptions C203_unit_of_length.

(** ** The contracts can be met. *)
Lemma freud_wrap_scales a : 0 < a -> wrap_scales a freud_wrap.
Proof.
  intros Ha b v.
  assert (D : forall x L, a * x / (a * L) = x / L).
  { intros x L. destruct (Req_EM_T L 0) as [->|H]; [rewrite Rmult_0_r; unfold Rdiv; rewrite Rinv_0; ring|]. field. lra. }
  assert (F : makeFraction (zoom_box a b) (scale3 a v) = makeFraction b v).
  { unfold makeFraction, zoom_box, scale3. cbn [bx by_ bz bxy bxz byz b2d x3 y3 z3].
    replace (a * x3 v + a * bx b / 2 - ((bxz b - byz b * bxy b) * (a * z3 v) + bxy b * (a * y3 v))) with
            (a * (x3 v + bx b / 2 - ((bxz b - byz b * bxy b) * z3 v + bxy b * y3 v))) by field.
    replace (a * y3 v + a * by_ b / 2 - byz b * (a * z3 v)) with (a * (y3 v + by_ b / 2 - byz b * z3 v)) by field.
    replace (a * z3 v + a * bz b / 2) with (a * (z3 v + bz b / 2)) by field. rewrite !D. reflexivity. }
  unfold freud_wrap. rewrite F. unfold makeCoordinates, zoom_box, scale3. cbn [bx by_ bz bxy bxz byz b2d x3 y3 z3].
  destruct (b2d b); apply v3_eq; field.
Qed.
Lemma sort_index_scales a : 0 < a -> argsort_scales a sort_index.
Proof.
  intros Ha l. unfold sort_index. rewrite map_length.
  assert (K : forall i, nth i (map (Rmult a) l) 0 = a * nth i l 0).
  { intros i. rewrite <- (Rmult_0_r a) at 1. apply map_nth. }
  assert (I : forall i m, ins (fun i => nth i (map (Rmult a) l) 0) i m = ins (fun i => nth i l 0) i m).
  { intros i m. induction m as [|j m IH]; cbn [ins]; [reflexivity|]. rewrite !K, IH.
    destruct (Rle_dec (a * nth i l 0) (a * nth j l 0)) as [H|H], (Rle_dec (nth i l 0) (nth j l 0)) as [G|G]; try reflexivity; exfalso.
    - apply G. apply Rmult_le_reg_l with a; auto.
    - apply H. apply Rmult_le_compat_l; lra. }
  induction (seq 0 (length l)) as [|i m IH]; cbn [fold_right]; [reflexivity|]. rewrite IH. apply I.
Qed.
(** Binary numbers with eight significant digits, rounded down *)
Definition unit_place (x : R) : Z := (Int_part (ln (Rabs x) / ln 2) - 7)%Z.
Definition fl8 (x : R) : xnum :=
  if Req_EM_T x 0 then Fin 0
  else Fin (inject_Z (Int_part (x / powerRZ 2 (unit_place x))) * (2 # 1) ^ unit_place x)%Q.
Lemma ln2_pos : 0 < ln 2.
Proof. rewrite <- ln_1. apply ln_increasing; lra. Qed.
Lemma q2_power n : Q2R ((2 # 1) ^ n) = powerRZ 2 n.
Proof. rewrite RMicromega.Q2RpowerRZ by (left; discriminate). f_equal. unfold Q2R. cbn [Qnum Qden]. lra. Qed.
Lemma place_bound x : x <> 0 -> 128 * powerRZ 2 (unit_place x) <= Rabs x.
Proof.
  intros H. apply Rabs_pos_lt in H. unfold unit_place, Z.sub. rewrite powerRZ_add by lra.
  assert (E7 : powerRZ 2 (- (7)) = / 128) by (change (powerRZ 2 (- (7))) with (/ (2 ^ 7)); f_equal; ring). rewrite E7.
  set (n := Int_part _). assert (E : powerRZ 2 n <= Rabs x); [|lra].
  rewrite powerRZ_Rpower by lra. unfold Rpower. rewrite <- (exp_ln (Rabs x)) at 1 by auto.
  assert (G : IZR n * ln 2 <= ln (Rabs x)).
  { unfold n. destruct (base_Int_part (ln (Rabs x) / ln 2)) as [B _]. pose proof ln2_pos.
    apply Rmult_le_compat_r with (r := ln 2) in B; [|lra]. replace (ln (Rabs x) / ln 2 * ln 2) with (ln (Rabs x)) in B by (field; lra). exact B. }
  destruct G as [G|G]; [left; apply exp_increasing; auto|right; rewrite G; reflexivity].
Qed.
Lemma fl8_rounds : rounds (1 / 128) fl8.
Proof.
  split; [lra|]. intros x. unfold fl8, approx. destruct (Req_EM_T x 0) as [->|Nx].
  - exists 0%Q. split; auto. replace (Q2R 0 - 0) with 0 by (unfold Q2R; cbn; lra). rewrite Rabs_R0. lra.
  - eexists. split; [reflexivity|]. rewrite Q2R_mult, q2_power. pose proof (place_bound x Nx) as B.
    assert (P : 0 < powerRZ 2 (unit_place x)) by (apply powerRZ_lt; lra).
    set (u := powerRZ 2 (unit_place x)) in *. destruct (base_Int_part (x / u)) as [B1 B2].
    assert (Ex : x = x / u * u) by (field; lra).
    replace (Q2R (inject_Z (Int_part (x / u)))) with (IZR (Int_part (x / u))) by (unfold Q2R, inject_Z; cbn [Qnum Qden]; lra).
    set (m := IZR (Int_part (x / u))) in *. replace (m * u - x) with (- ((x / u - m) * u)) by (rewrite Ex at 2; ring).
    rewrite Rabs_Ropp, Rabs_pos_eq by (apply Rmult_le_pos; lra).
    apply Rle_trans with (1 * u); [apply Rmult_le_compat_r; lra|]. lra.
Qed.
Lemma fl8_scales : rounding_scales 2 fl8.
Proof.
  exists (2 # 1)%Q. split; [reflexivity|]. split; [unfold Q2R; cbn; lra|]. intros x. unfold fl8.
  destruct (Req_EM_T x 0) as [->|Nx]; [destruct (Req_EM_T (2 * 0) 0); [reflexivity|lra]|]. destruct (Req_EM_T (2 * x) 0) as [E|_]; [lra|].
  assert (U : unit_place (2 * x) = (unit_place x + 1)%Z).
  { unfold unit_place. rewrite Rabs_mult, (Rabs_pos_eq 2) by lra. apply Rabs_pos_lt in Nx. rewrite ln_mult by lra. pose proof ln2_pos.
    replace ((ln 2 + ln (Rabs x)) / ln 2) with (ln (Rabs x) / ln 2 + IZR 1) by (field; lra).
    set (y := ln (Rabs x) / ln 2). pose proof (frac_int y 1) as F. unfold frac, Rfloor in F.
    assert (E : IZR (Int_part (y + IZR 1)) = IZR (Int_part y + 1)) by (rewrite plus_IZR; lra). apply eq_IZR in E. lia. }
  rewrite U. rewrite powerRZ_add by lra. assert (E1 : powerRZ 2 1 = 2) by (unfold powerRZ; change (Pos.to_nat 1) with 1%nat; ring). rewrite E1.
  assert (P : powerRZ 2 (unit_place x) <> 0) by (apply powerRZ_NOR; lra).
  replace (2 * x / (powerRZ 2 (unit_place x) * 2)) with (x / powerRZ 2 (unit_place x)) by (field; auto).
  cbn [xtimes xequal]. rewrite Qpower_plus by discriminate. change ((2 # 1) ^ 1)%Q with (2 # 1)%Q. ring.
Qed.

(** The trajectory of C126_example in a unit of half the size *)
Example C203_ex : exists rows relax,
  analyse freud_wrap (fun _ => zero3) sort_index fl8 (fun _ _ => inr ValueError) ex_pf (fun _ => EmptyString)
    (zoom 2 [mk3 0 1 0]) (Some (2 / 2)) true None e_name true (zoom_film 2 efile, None) ([], None) None None =
    {| out_result := inl None; out_table := Some (map (line_in_units 2) rows); out_relax := Some relax |} /\
  Forall2 (row_for eT ex_pf {| v_temperature := Some "1.20"; v_pressure := Some "13.50"; v_crystal := None; v_iteration := None |} 2 10 true 0 ef0)
    [ef0; ef1; ef2] (key_rows 0 rows).
Proof.
  destruct (C126_trajectory freud_wrap (fun _ => zero3) sort_index fl8 (fun _ _ => inr ValueError) ex_pf (fun _ => EmptyString)
            [mk3 0 1 0] 2 true (1 / 128) eT 10 e_name {| v_temperature := Some "1.20"; v_pressure := Some "13.50"; v_crystal := None; v_iteration := None |}
            (efile, None) ([], None) efile None None
            freud_wrap_ok sort_index_ok fl8_rounds ltac:(lra) ltac:(discriminate) ltac:(lia) eq_refl) as (rows & relax & E & _ & R1 & _).
  - intros (x & [= <-] & U). vm_compute in U. discriminate.
  - intros (x & [= <-] & U). vm_compute in U. discriminate.
  - left. split; reflexivity.
  - exists 0%nat. cbn. discriminate.
  - apply e_followable.
  - exists rows, relax. split; [|apply R1; reflexivity].
    pose proof (C203_unit_of_length freud_wrap (fun _ => zero3) sort_index fl8 (fun _ _ => inr ValueError) ex_pf (fun _ => EmptyString) [mk3 0 1 0] 2 true 2
      e_name true (efile, None) ([], None) None None ltac:(lra) (freud_wrap_scales 2 ltac:(lra)) (sort_index_scales 2 ltac:(lra)) fl8_scales) as C.
    rewrite E in C. exact C.
Qed.
