(** C202: the analysis does not depend on the origin, on the choice of periodic images, on
    the signs of quaternions and on the number of the first step. *)
From Coq Require Import String Reals ZArith QArith List Bool Lia Lra Arith.
From Verif Require Import Base XNum RVec RVecFacts FrameModel PyStr
  MotionModel MotionSpec MotionProofs MotionProps DynModel DynSpec DynProps DynTrue
  ParamsModel WriteCacheModel ProcessModel ProcessSpec ProcessProps ProcessPathModel ProcessPathProps MolRelaxModel
  EndModel EndSpec EndProofs EndProps WaveModel WaveSpec WaveProps SimProofs ShiftSpec.
Import ListNotations.
Open Scope list_scope.
Open Scope R_scope.
Notation length := List.length.

Section Shift.
  Variable wrap : fbox -> v3 -> v3.
  Variable gimbal : RVec.quat -> v3.
  Variable argsort : list R -> list nat.
  Variable fl : R -> xnum.
  Variable calculate : fbox -> list v3 -> R + exn.
  Variable parse : string -> option xnum.
  Variable show : yaml -> string.
  Variable mol : list v3.
  Variable wave : option R.
  Variable scattering : bool.
  Variable defs : option (list definition).
  Variable place : v3 -> v3 -> Prop.
  Variable sign : RVec.quat -> RVec.quat -> Prop.
  Variable known : fbox -> Prop.
  Variable RF : eframe -> eframe -> Prop.
  Variable c : Z.
  Definition ori_rel (o o' : option (list RVec.quat)) : Prop :=
    match o, o' with None, None => True | Some q, Some q' => Forall2 sign q q' | _, _ => False end.
  Hypothesis place_diff : forall b p p' q q', known b -> place p p' -> place q q' -> wrap b (sub3 p' q') = wrap b (sub3 p q).
  Hypothesis sign_div : forall p p' q q', sign p p' -> sign q q' -> sign (qdivide p q) (qdivide p' q').
  Hypothesis sign_unit : forall q q', sign q q' -> unitb q' = unitb q.
  Hypothesis sign_euler : forall q q', sign q q' -> to_euler gimbal q' = to_euler gimbal q.
  Hypothesis place_calc : wave = None -> forall b p p', known b -> Forall2 place p p' -> calculate b p' = calculate b p.
  Hypothesis frame_same : forall f f', RF f f' -> (forall b, frame_box f = inl b -> known b) /\
    e_ts f' = (e_ts f + c)%Z /\ e_box f' = e_box f /\ Forall2 place (e_pos f) (e_pos f') /\ ori_rel (e_ori f) (e_ori f').

  Lemma zip_rel {A B C X : Type} (f : A -> B -> C) (f' : A -> B -> C) (h : C -> X) (PA : A -> A -> Prop) (PB : B -> B -> Prop) :
    (forall a a' b b', PA a a' -> PB b b' -> h (f' a' b') = h (f a b)) ->
    forall l l', Forall2 PA l l' -> forall k k', Forall2 PB k k' -> map h (zip f' l' k') = map h (zip f l k).
  Proof.
    intros H l l' Hl. induction Hl as [|a a' l l' Ha Hl IH]; intros k k' Hk; [reflexivity|].
    destruct Hk as [|b b' k k' Hb Hk]; [reflexivity|]. cbn [zip map]. f_equal; auto.
  Qed.
  Lemma bzip_rel {A B C X : Type} (f f' : A -> B -> C) (h : C -> X) (PA : A -> A -> Prop) (PB : B -> B -> Prop) l l' k k' :
    (forall a a' b b', PA a a' -> PB b b' -> h (f' a' b') = h (f a b)) -> Forall2 PA l l' -> Forall2 PB k k' ->
    match bzip f l k, bzip f' l' k' with
    | inl x, inl x' => map h x' = map h x
    | inr e, inr e' => e = e'
    | _, _ => False
    end.
  Proof.
    intros H Hl Hk. unfold bzip. rewrite <- (Forall2_len _ _ _ Hl), <- (Forall2_len _ _ _ Hk).
    destruct (length l =? length k)%nat; [apply (zip_rel f f' h PA PB); auto|].
    assert (M1 : forall b b', PB b b' -> map h (map (fun x => f' x b') l') = map h (map (fun x => f x b) l)).
    { intros b b' Hb. clear - H Hl Hb. induction Hl; cbn [map]; [reflexivity|]. f_equal; auto. }
    assert (M2 : forall a a', PA a a' -> map h (map (f' a') k') = map h (map (f a) k)).
    { intros a a' Ha. clear - H Hk Ha. induction Hk; cbn [map]; [reflexivity|]. f_equal; auto. }
    destruct Hk as [|b b' k k' Hb Hk]; [destruct Hl as [|a a' l l' Ha Hl]; [reflexivity|destruct Hl; [apply (M2 a a'); auto|reflexivity]]|].
    destruct Hk as [|b2 b2' k k' Hb2 Hk]; [destruct Hl as [|a a' l l' Ha Hl]; [apply (M1 b b'); auto|]; destruct Hl; apply (M1 b b'); auto|].
    destruct Hl as [|a a' l l' Ha Hl]; [reflexivity|]. destruct Hl; [apply (M2 a a'); auto|reflexivity].
  Qed.

  Definition RM (m m' : motion) : Prop :=
    m_box m' = m_box m /\ known (m_box m) /\ m_dt m' = m_dt m /\ m_dr m' = m_dr m /\
    Forall2 place (m_ppos m) (m_ppos m') /\ ori_rel (m_pori m) (m_pori m').

  Lemma euler_all l l' : map (fun q => (unitb q, to_euler gimbal q)) l' = map (fun q => (unitb q, to_euler gimbal q)) l ->
    to_euler_all gimbal l' = to_euler_all gimbal l.
  Proof.
    intros E. unfold to_euler_all.
    assert (G : forall k, forallb unitb k = forallb fst (map (fun q => (unitb q, to_euler gimbal q)) k)) by (induction k; cbn; f_equal; auto).
    assert (M : forall k, map (to_euler gimbal) k = map snd (map (fun q => (unitb q, to_euler gimbal q)) k)) by (intros; rewrite map_map; reflexivity).
    rewrite !G, !M, E. reflexivity.
  Qed.

  Lemma motion_sim m m' p p' o o' : RM m m' -> Forall2 place p p' -> ori_rel o o' ->
    RM (fst (motion_add wrap gimbal m p o)) (fst (motion_add wrap gimbal m' p' o')) /\
    snd (motion_add wrap gimbal m' p' o') = snd (motion_add wrap gimbal m p o).
  Proof.
    intros (M1 & M2 & M3 & M4 & M5 & M6) Hp Ho. unfold motion_add. rewrite M1, M3, M4.
    pose proof (bzip_rel sub3 sub3 (wrap (m_box m)) _ _ _ _ _ _ (fun a a' b b' => place_diff (m_box m) a a' b b' M2) M5 Hp) as D.
    destruct (bzip sub3 (m_ppos m) p) as [d|e], (bzip sub3 (m_ppos m') p') as [d'|e']; try contradiction; cbn [MotionModel.ebind].
    2:{ subst e'. cbn [fst snd]. split; [|auto]. unfold RM. auto 8. }
    rewrite D. destruct (inplace sub3 (m_dt m) (map (wrap (m_box m)) d)) as [dt|e]; [|cbn [fst snd]; split; [unfold RM; auto 8|auto]].
    unfold ori_rel in M6, Ho.
    destruct (m_pori m) as [prev|] eqn:Ep, (m_pori m') as [prev'|] eqn:Ep'; try contradiction.
    2:{ destruct o, o'; try contradiction; cbn [fst snd]; (split; [unfold RM; cbn; auto 8|auto]). }
    destruct o as [ori|], o' as [ori'|]; try contradiction.
    2:{ cbn [fst snd]. split; [unfold RM; cbn; auto 8|auto]. }
    pose proof (bzip_rel qdivide qdivide (fun q => (unitb q, to_euler gimbal q)) sign sign ori ori' prev prev') as Q.
    specialize (Q (fun a a' b b' Ha Hb => f_equal2 pair (sign_unit _ _ (sign_div _ _ _ _ Ha Hb)) (sign_euler _ _ (sign_div _ _ _ _ Ha Hb))) Ho M6).
    destruct (bzip qdivide ori prev) as [q|e], (bzip qdivide ori' prev') as [q'|e']; try contradiction; cbn [MotionModel.ebind].
    2:{ subst e'. cbn [fst snd]. split; [|auto]. unfold RM. cbn. unfold ori_rel. auto 8. }
    rewrite (euler_all _ _ Q). destruct (MotionModel.ebind _ _) as [dr|e]; cbn [fst snd]; (split; [|auto]); unfold RM; cbn; unfold ori_rel; auto 8.
  Qed.

  Definition RD (d d' : dynamics) : Prop :=
    RM (d_motion d) (d_motion d') /\ d_timestep d' = (d_timestep d + c)%Z /\ d_num d' = d_num d /\ d_mol d' = d_mol d /\
    d_wave d' = d_wave d /\ d_res d' = d_res d.
  Definition RR (r r' : robj) : Prop :=
    RM (r_motion r) (r_motion r') /\ r_num r' = r_num r /\ rx_init_time (r_relax r') = (rx_init_time (r_relax r) + c)%Z /\
    rx_relax (r_relax r') = rx_relax (r_relax r).

  Lemma quantities_same d d' ts : RD d d' ->
    quantities argsort d' (ts + c) scattering = quantities argsort d ts scattering.
  Proof.
    intros ((M1 & _ & M3 & M4 & _ & M6) & H1 & H2 & H3 & H4 & H5).
    unfold quantities, compute_struct_relax, distance. rewrite M3, M4, H1, H2, H3, H4, H5.
    replace (ts + c - (d_timestep d + c))%Z with (ts - d_timestep d)%Z by lia.
    unfold ori_rel in M6. destruct (m_pori (d_motion d)), (m_pori (d_motion d')); try contradiction; reflexivity.
  Qed.
  Lemma compute_sim d d' f f' : RD d d' -> RF f f' ->
    RD (fst (compute wrap gimbal argsort scattering d f)) (fst (compute wrap gimbal argsort scattering d' f')) /\
    sum_rel (fun row row' => row' = row) (snd (compute wrap gimbal argsort scattering d f)) (snd (compute wrap gimbal argsort scattering d' f')).
  Proof.
    intros Hd Hf. destruct (frame_same _ _ Hf) as (_ & T & B & P & O). unfold compute, compute_all, dyn_add.
    pose proof Hd as (M & H1 & H2 & H3 & H4 & H5).
    destruct (motion_sim _ _ _ _ _ _ M P O) as [A E].
    destruct (motion_add wrap gimbal (d_motion d) (e_pos f) (e_ori f)) as [m e], (motion_add wrap gimbal (d_motion d') (e_pos f') (e_ori f')) as [m' e'].
    cbn [fst snd] in A, E. subst e'.
    assert (Hd' : RD (mkdyn m (d_timestep d) (d_num d) (d_mol d) (d_wave d) (d_res d)) (mkdyn m' (d_timestep d') (d_num d') (d_mol d') (d_wave d') (d_res d')))
      by (unfold RD; cbn; auto 8).
    destruct e as [e|]; cbn [fst snd]; (split; [exact Hd'|]); [reflexivity|].
    rewrite T, (quantities_same _ _ _ Hd'). destruct (quantities _ _ _ _); reflexivity.
  Qed.
  Lemma radd_sim r r' f f' : RR r r' -> RF f f' ->
    RR (fst (radd wrap gimbal fl r f)) (fst (radd wrap gimbal fl r' f')) /\ snd (radd wrap gimbal fl r' f') = snd (radd wrap gimbal fl r f).
  Proof.
    intros (M & H1 & H2 & H3) Hf. destruct (frame_same _ _ Hf) as (_ & T & B & P & O). unfold radd.
    destruct (motion_sim _ _ _ _ _ _ M P O) as [A E].
    destruct (motion_add wrap gimbal (r_motion r) (e_pos f) (e_ori f)) as [m e], (motion_add wrap gimbal (r_motion r') (e_pos f') (e_ori f')) as [m' e'].
    cbn [fst snd] in A, E. subst e'. destruct e as [e|]; [cbn [fst snd]; split; [unfold RR; cbn; auto|auto]|].
    destruct A as (A1 & A2 & A3 & A4 & A5 & A6). rewrite A3, A4, T, H1. unfold relaxations_add. rewrite H2, H3.
    replace (e_ts f + c - (rx_init_time (r_relax r) + c))%Z with (e_ts f - rx_init_time (r_relax r))%Z by lia.
    destruct (relax_loop _ _ _ _) as [x e]. cbn [fst snd]. split; [|auto]. unfold RR. cbn. unfold RM. auto 10.
  Qed.
  Lemma make_sim f f' : RF f f' ->
    sum_rel (fun x x' => RD (fst x) (fst x') /\ RR (snd x) (snd x'))
      (make fl calculate parse show mol wave f) (make fl calculate parse show mol wave f').
  Proof.
    intros Hf. destruct (frame_same _ _ Hf) as (I & T & B & P & O). unfold make, make_dynamics, make_relaxations.
    assert (EB : frame_box f' = frame_box f) by (unfold frame_box; rewrite B; reflexivity). rewrite EB.
    pose proof (Forall2_len _ _ _ P) as EL.
    destruct (e_pos f) as [|p0 ps] eqn:Ep, (e_pos f') as [|p0' ps'] eqn:Ep'; try discriminate EL; [reflexivity|].
    destruct (frame_box f) as [b|e] eqn:Eb; cbn [MotionModel.ebind]; [|reflexivity].
    assert (K : known b) by auto.
    unfold dyn_init.
    assert (MI : sum_rel RM (motion_init b (p0 :: ps) (e_ori f)) (motion_init b (p0' :: ps') (e_ori f'))).
    { unfold motion_init. assert (Z : forall (l l' : list v3), length l = length l' -> map (fun _ : v3 => zero3) l' = map (fun _ : v3 => zero3) l).
      { induction l as [|a l IH]; destruct l' as [|a' l']; intros E; try discriminate E; [reflexivity|]. cbn [map]. f_equal. apply IH. cbn in E. injection E. auto. }
      specialize (Z _ _ EL).
      unfold ori_rel in O. destruct (e_ori f) as [q|], (e_ori f') as [q'|]; try contradiction.
      - destruct O as [|q q' l l' Hq Hl]; [reflexivity|]. cbn [sum_rel]. unfold RM. cbn [m_box m_dt m_dr m_ppos m_pori ori_rel]. auto 8.
      - cbn [sum_rel]. unfold RM. cbn [m_box m_dt m_dr m_ppos m_pori ori_rel]. auto 8. }
    destruct (motion_init b (p0 :: ps) (e_ori f)) as [m|e], (motion_init b (p0' :: ps') (e_ori f')) as [m'|e']; cbn [sum_rel] in MI; try contradiction;
      cbn [MotionModel.ebind]; [|exact MI].
    assert (EK : match wave with Some k => inl k | None => calculate b (p0' :: ps') end = match wave with Some k => inl k | None => calculate b (p0 :: ps) end).
    { destruct wave as [k|] eqn:Ew; [reflexivity|]. apply (place_calc eq_refl b); auto. }
    rewrite EK. destruct (match wave with Some k => inl k | None => calculate b (p0 :: ps) end) as [k|e]; cbn [MotionModel.ebind]; [|reflexivity].
    destruct (Req_EM_T k 0); [reflexivity|]. rewrite <- EL. destruct (set_mol_relax _ _ _ _) as [r [e|]]; cbn [MotionModel.ebind]; [reflexivity|].
    cbn [sum_rel fst snd]. split; [unfold RD|unfold RR]; cbn; auto 8.
  Qed.
  Lemma custom_sim : match custom parse show defs, custom parse show defs with
    | None, None => True
    | Some g, Some g' => forall r r', RR r r' -> RR (fst (g r)) (fst (g' r')) /\ snd (g' r') = snd (g r)
    | _, _ => False
    end.
  Proof.
    unfold custom. destruct defs as [ds|]; [|exact I]. intros r r' (M & H1 & H2 & H3). rewrite H1.
    destruct (set_mol_relax _ _ _ _) as [x e]. cbn [fst snd]. split; [|auto]. unfold RR. cbn. auto.
  Qed.
  Lemma analyse_reader l l' fin : Forall2 (fun x x' => fst x = fst x' /\ RF (snd x) (snd x')) l l' ->
    forall outfile v vars floats t0 r0,
    process_file (fun f => length (e_pos f)) (make fl calculate parse show mol wave) (custom parse show defs)
      (compute wrap gimbal argsort scattering) (radd wrap gimbal fl) (label_vars parse v) (fun x => summary (r_relax x)) outfile vars floats (Some (l', fin)) t0 r0 =
    process_file (fun f => length (e_pos f)) (make fl calculate parse show mol wave) (custom parse show defs)
      (compute wrap gimbal argsort scattering) (radd wrap gimbal fl) (label_vars parse v) (fun x => summary (r_relax x)) outfile vars floats (Some (l, fin)) t0 r0.
  Proof.
    intros HF outfile v vars floats t0 r0.
    pose proof (process_sim (fun f => length (e_pos f)) (fun f => length (e_pos f)) (make fl calculate parse show mol wave) (make fl calculate parse show mol wave)
      (custom parse show defs) (custom parse show defs) (compute wrap gimbal argsort scattering) (compute wrap gimbal argsort scattering)
      (radd wrap gimbal fl) (radd wrap gimbal fl) (label_vars parse v) (label_vars parse v) (fun x => summary (r_relax x)) (fun x => summary (r_relax x))
      (fun x => x) (fun x => x) (fun x => x) RD RR RF) as S.
    specialize (S (fun f f' H => eq_sym (Forall2_len _ _ _ (proj1 (proj2 (proj2 (proj2 (frame_same f f' H))))))) make_sim custom_sim compute_sim radd_sim).
    assert (HL : forall k row, sum_rel (fun o o' => o' = o) (label_vars parse v k row) (label_vars (Row := dict string dval) parse v k row))
      by (intros; destruct (label_vars parse v k row); reflexivity).
    assert (HS : forall r r', RR r r' -> summary (r_relax r') = summary (r_relax r)) by (intros r r' (_ & _ & _ & E); unfold summary; rewrite E; reflexivity).
    specialize (S HL HS outfile vars floats (Some (l, fin)) (Some (l', fin)) t0 r0).
    specialize (S (conj eq_refl HF)).
    assert (ML : forall A (l : list (nat * A)), map (fun p => (fst p, snd p)) l = l).
    { intros A k. rewrite <- (map_id k) at 2. apply map_ext. intros []; reflexivity. }
    assert (T1 : forall t : table (nat * labelled (dict string dval)), tmap (line (fun x => x)) t = t).
    { intros [t|]; [|reflexivity]. unfold tmap, line. cbn [option_map]. rewrite ML. reflexivity. }
    assert (T2 : forall r : option (list (nat * dict string (list Z))), option_map (map (fun p => (fst p, snd p))) r = r).
    { intros [r|]; [|reflexivity]. cbn [option_map]. rewrite ML. reflexivity. }
    rewrite T1, T2 in S. rewrite S. unfold omap. rewrite T1, T2.
    destruct (process_file _ _ _ _ _ _ _ _ _ _ (Some (l, fin)) t0 r0) as [[[rows|]|e] tb rl]; cbn [out_result out_table out_relax option_map]; auto.
    unfold line. rewrite ML. reflexivity.
  Qed.
End Shift.

Section Pictures.
  Variable wrap : fbox -> v3 -> v3.
  Variable gimbal : RVec.quat -> v3.
  Hypothesis Hwrap : wrap_periodic wrap.
  Hypothesis Heven : even gimbal.
  Variable fs : list eframe.
  Variable s : v3.

  (** Boxes of the frames *)
  Definition known (b : fbox) : Prop := exists f, In f fs /\ frame_box f = inl b.
  Lemma period_lattice f b w : frame_box f = inl b -> period f w -> box_ok b /\ is_lattice b w.
  Proof.
    intros E (Lx & Ly & Lz & tl & i & j & Eb & H1 & H2 & ->). unfold frame_box in E. rewrite Eb in E. unfold create_freud_box in E. cbn [firstn length] in E.
    assert (C : b = mkbox Lx Ly 0 (match tl with [xy; _; _] => xy | _ => 0 end) 0 0 true).
    { destruct tl as [|t1 [|t2 [|t3 [|t4 tl]]]]; cbn in E; congruence. }
    subst b. split; [split; [auto|split; [auto|discriminate]]|]. exists i, j, 0%Z. split; [auto|]. unfold lattice. cbn [bx by_ bz bxy bxz byz]. apply v3_eq; ring.
  Qed.
  Lemma moved_diff b p p' q q' : known b -> moved fs s p p' -> moved fs s q q' -> wrap b (sub3 p' q') = wrap b (sub3 p q).
  Proof.
    intros (f & If & Ef) (w & -> & Hw) (v & -> & Hv).
    assert (Z : forall x y, sub3 (add3 (add3 x s) w) (add3 (add3 y s) v) = add3 (sub3 x y) (sub3 w v)).
    { intros x y. unfold add3, sub3. cbn [x3 y3 z3]. apply v3_eq; ring. }
    rewrite Z.
    assert (G : forall u, (u = zero3 \/ forall f, In f fs -> period f u) -> u = zero3 \/ (box_ok b /\ is_lattice b u)).
    { intros u [H|H]; [auto|]. right. apply (period_lattice f); auto. }
    destruct (G w Hw) as [->|[B Lw]], (G v Hv) as [->|[B' Lv]].
    - f_equal. unfold add3, sub3, zero3. cbn [x3 y3 z3]. apply v3_eq; ring.
    - apply Hwrap; auto. apply is_lattice_sub; auto. exists 0%Z, 0%Z, 0%Z. split; auto. unfold lattice, zero3. apply v3_eq; ring.
    - apply Hwrap; auto. apply is_lattice_sub; auto. exists 0%Z, 0%Z, 0%Z. split; auto. unfold lattice, zero3. apply v3_eq; ring.
    - apply Hwrap; auto. apply is_lattice_sub; auto.
  Qed.

  Lemma sign_div p p' q q' : either_sign p p' -> either_sign q q' -> either_sign (qdivide p q) (qdivide p' q').
  Proof.
    assert (N : forall q, qinv (qneg q) = qneg (qinv q)).
    { intros x. unfold qinv. rewrite qnorm2_neg. unfold qneg. cbn [qw qx qy qz]. apply q_eq; unfold Rdiv; ring. }
    unfold either_sign, qdivide. intros [->| ->] [->| ->]; rewrite ?N, ?qneg_mul_l, ?qneg_mul_r, ?qneg_neg; auto.
  Qed.
  Lemma sign_unit q q' : either_sign q q' -> unitb q' = unitb q.
  Proof. intros [->| ->]; [reflexivity|]. unfold unitb. rewrite qnorm2_neg. reflexivity. Qed.
  Lemma sign_euler q q' : either_sign q q' -> to_euler gimbal q' = to_euler gimbal q.
  Proof. intros [->| ->]; [reflexivity|]. apply to_euler_neg, Heven. Qed.
  Lemma moved_image b p p' : known b -> moved fs s p p' -> is_lattice b (sub3 p' (add3 p s)).
  Proof.
    intros (f & If & Ef) (w & -> & Hw).
    assert (G : is_lattice b w).
    { destruct Hw as [->|H]; [exists 0%Z, 0%Z, 0%Z; split; [auto|]; unfold lattice, zero3; apply v3_eq; ring|]. apply (period_lattice f); auto. }
    replace (sub3 (add3 (add3 p s) w) (add3 p s)) with w; [auto|]. destruct w as [w1 w2 w3]; unfold add3, sub3; cbn [x3 y3 z3]; apply v3_eq; ring.
  Qed.
End Pictures.

Lemma film_frame fs s c f f' : In f fs /\ same_picture fs s c f f' -> (forall b, frame_box f = inl b -> known fs b) /\
  e_ts f' = (e_ts f + c)%Z /\ e_box f' = e_box f /\ Forall2 (moved fs s) (e_pos f) (e_pos f') /\ ori_rel either_sign (e_ori f) (e_ori f').
Proof. intros (I & T & B & P & O). split; [intros b E; exists f; auto|]. auto. Qed.
Lemma film_in s c l l' : same_film s c l l' ->
  Forall2 (fun x x' => fst x = fst x' /\ In (snd x) (map snd l) /\ same_picture (map snd l) s c (snd x) (snd x')) l l'.
Proof.
  unfold same_film. intros H.
  assert (G : forall k, (forall x, In x k -> In (snd x) (map snd l)) -> forall k', Forall2 (fun x x' : list nat * eframe => fst x = fst x' /\ same_picture (map snd l) s c (snd x) (snd x')) k k' ->
     Forall2 (fun x x' => fst x = fst x' /\ In (snd x) (map snd l) /\ same_picture (map snd l) s c (snd x) (snd x')) k k').
  { intros k Hk k' F. induction F as [|x x' k k' [E P] F IH]; constructor; [split; [auto|split; [apply Hk; left; auto|auto]]|]. apply IH. intros y I. apply Hk. right; auto. }
  apply G; auto using in_map.
Qed.
Theorem C202_same_motion (wrap : fbox -> v3 -> v3) gimbal argsort fl calculate parse show mol wave scattering defs
        s c infile outfile gsd gsd' lammps lammps' t0 r0 :
  wrap_periodic wrap -> even gimbal -> (wave = None -> calc_invariant calculate) ->
  same_film s c (fst gsd) (fst gsd') -> snd gsd = snd gsd' ->
  same_film s c (fst lammps) (fst lammps') -> snd lammps = snd lammps' ->
  analyse wrap gimbal argsort fl calculate parse show mol wave scattering defs infile outfile gsd' lammps' t0 r0 =
  analyse wrap gimbal argsort fl calculate parse show mol wave scattering defs infile outfile gsd lammps t0 r0.
Proof.
  intros Hw He Hc Hg Eg Hl El. destruct gsd as [g fg], gsd' as [g' fg'], lammps as [l fl_], lammps' as [l' fl']. cbn [fst snd] in *. subst fg' fl'.
  unfold analyse, process_path. destruct (get_filename_vars infile) as [v|e]; [|reflexivity].
  destruct (String.eqb (path_suffix infile) ".gsd"); [|destruct (String.eqb (path_suffix infile) ".lammpstrj"); [|reflexivity]].
  - apply (analyse_reader wrap gimbal argsort fl calculate parse show mol wave scattering defs (moved (map snd g) s) either_sign (known (map snd g))
      (fun f f' => In f (map snd g) /\ same_picture (map snd g) s c f f') c); eauto using moved_diff, sign_div, sign_unit, sign_euler, film_frame, film_in.
    intros Ew b p p' K P. apply (Hc Ew b s). clear - P K. induction P; constructor; eauto using moved_image.
  - apply (analyse_reader wrap gimbal argsort fl calculate parse show mol wave scattering defs (moved (map snd l) s) either_sign (known (map snd l))
      (fun f f' => In f (map snd l) /\ same_picture (map snd l) s c f f') c); eauto using moved_diff, sign_div, sign_unit, sign_euler, film_frame, film_in.
    intros Ew b p p' K P. apply (Hc Ew b s). clear - P K. induction P; constructor; eauto using moved_image.
Qed.
Print Assumptions C202_same_motion.

(** freud's wrap as it is written meets the contract. *)
Lemma frac_int r (i : Z) : frac (r + IZR i) = frac r.
Proof.
  unfold frac, Rfloor. destruct (base_Int_part r) as [A1 A2], (base_Int_part (r + IZR i)) as [B1 B2].
  assert (E : Int_part (r + IZR i) = (Int_part r + i)%Z).
  { assert (H1 : (Int_part (r + IZR i) < Int_part r + i + 1)%Z) by (apply lt_IZR; rewrite !plus_IZR; lra).
    assert (H2 : (Int_part r + i < Int_part (r + IZR i) + 1)%Z) by (apply lt_IZR; rewrite !plus_IZR; lra). lia. }
  rewrite E, plus_IZR. lra.
Qed.
Lemma frac_quot a (i : Z) L : frac ((a + IZR i * L) / L) = frac (a / L).
Proof.
  destruct (Req_EM_T L 0) as [->|H]; [f_equal; f_equal; ring|].
  replace ((a + IZR i * L) / L) with (a / L + IZR i) by (field; auto). apply frac_int.
Qed.
Lemma freud_images b v w : is_lattice b w -> freud_wrap b (add3 v w) = freud_wrap b v.
Proof.
  intros (i & j & k & K & ->). unfold freud_wrap, makeFraction. cbn [x3 y3 z3 add3 lattice]. f_equal.
  match goal with |- mk3 (frac (?a / _)) (frac (?d / _)) _ = mk3 (frac (?a' / _)) (frac (?d' / _)) _ =>
    replace a with (a' + IZR i * bx b) by ring; replace d with (d' + IZR j * by_ b) by ring end.
  rewrite !frac_quot. f_equal. destruct (b2d b) eqn:D; [reflexivity|].
  match goal with |- frac (?a / _) = frac (?a' / _) => replace a with (a' + IZR k * bz b) by ring end. apply frac_quot.
Qed.
Lemma freud_wrap_periodic : wrap_periodic freud_wrap.
Proof. intros b v w _. apply freud_images. Qed.
Lemma histogram_invariant : calc_invariant (calculate_wave_number histogram).
Proof.
  intros b s p p' H.
  assert (L : length p = length p') by (apply (Forall2_len _ _ _ H)).
  assert (E : forall j k, (j < length p)%nat -> (k < length p)%nat ->
            freud_wrap b (sub3 (nth j p' zero3) (nth k p' zero3)) = freud_wrap b (sub3 (nth j p zero3) (nth k p zero3))).
  { assert (N : forall j, (j < length p)%nat -> is_lattice b (sub3 (nth j p' zero3) (add3 (nth j p zero3) s))).
    { clear - H. induction H as [|x x' l l' Hx _ IH]; cbn [length]; intros j Hj; [lia|]. destruct j; cbn [nth]; [auto|apply IH; lia]. }
    intros j k Hj Hk. rewrite <- (freud_images b (sub3 (nth j p zero3) (nth k p zero3)) _ (is_lattice_sub b _ _ (N j Hj) (N k Hk))). f_equal.
    unfold sub3, add3. cbn [x3 y3 z3]. apply v3_eq; ring. }
  assert (E2 : forall r d, histogram b p' r d = histogram b p r d).
  { intros r d. unfold histogram. rewrite <- L. destruct (Rlt_dec (faces_x b / 2) r); [reflexivity|]. destruct (Rlt_dec (faces_y b / 2) r); [reflexivity|].
    destruct (negb (b2d b) && _)%bool; [reflexivity|]. do 2 f_equal. apply map_ext. intros i. do 3 f_equal.
    apply filter_ext_in. intros [j k] I. apply in_prod_iff in I. destruct I as [I1 I2]. apply in_seq in I1, I2. cbn [fst snd]. rewrite E by lia. reflexivity. }
  unfold calculate_wave_number. rewrite E2, L. reflexivity.
Qed.

(** The trajectory of C126_example seen from another origin, in a file that starts at
    step 1005: the first frame in one image, the second in another, all quaternions of the
    last with the other sign. *)
Definition shown (ts : Z) (x y : R) (q : RVec.quat) : eframe :=
  mkframe ts [10; 10; 1; 0; 0; 0] (repeat (mk3 x y 0) 10) (Some (repeat q 10)).
Definition sfile : list (list nat * eframe) :=
  [([0%nat], shown 1005 (15 / 2) (-2) (zquat 0)); ([0%nat; 1%nat], shown 1105 (19 / 2) (8) (qneg (zquat (5 / 2))));
   ([0%nat; 1%nat], shown 1205 (- (13 / 2)) (-2) (qneg (zquat 0)))].
Lemma shown_same ts ts' x x' y' q q' (i j : Z) : ts' = (ts + 1000)%Z -> x' = x + 3 + IZR i * 10 -> y' = 0 - 2 + IZR j * 10 -> either_sign q q' ->
  same_picture (map snd efile) (mk3 3 (-2) 0) 1000 (ef ts x q) (shown ts' x' y' q').
Proof.
  intros -> -> -> Hq. unfold same_picture, ef, shown. cbn [e_ts e_box e_pos e_ori]. split; [auto|]. split; [auto|]. split; [|apply Forall2_repeat; auto].
  apply Forall2_repeat. exists (mk3 (IZR i * 10) (IZR j * 10) 0). split; [unfold add3; cbn [x3 y3 z3]; apply v3_eq; ring|].
  right. intros f If. assert (Eb : e_box f = [10; 10; 1; 0; 0; 0]) by (cbn [map snd efile In] in If; destruct If as [<-|[<-|[<-|[]]]]; reflexivity).
  exists 10, 10, 1, [0; 0; 0], i, j. split; [auto|]. split; [lra|]. split; [lra|]. apply v3_eq; lra.
Qed.
Lemma sfile_same : same_film (mk3 3 (-2) 0) 1000 efile sfile.
Proof.
  unfold same_film. unfold efile at 2, sfile. repeat (apply Forall2_cons; [cbn [fst snd]; split; [reflexivity|]|]); [| | |constructor].
  - apply (shown_same 5 _ _ _ _ _ _ 0 0); [lia|lra|lra|left; auto].
  - apply (shown_same 105 _ _ _ _ _ _ 1 1); [lia|lra|lra|left; auto].
  - apply (shown_same 205 _ _ _ _ _ _ (-1) 0); [lia|lra|lra|right; auto].
Qed.
Example C202_ex : exists rows relax s,
  analyse freud_wrap (fun _ => zero3) sort_index fl100 (fun _ _ => inr ValueError) ex_pf (fun _ => EmptyString)
    [mk3 0 1 0] (Some 2) true None e_name true (sfile, None) ([], None) None None =
    {| out_result := inl None; out_table := Some rows; out_relax := Some relax |} /\
  length (key_rows 1 rows) = 2%nat /\ In (0%nat, s) relax /\ entry s "tau_F" 7 100 /\ entry s "tau_D" 7 200.
Proof.
  destruct C126_example as (rows & relax & s & E & _ & H1 & _ & H2 & H3 & H4 & _). exists rows, relax, s. split; [|auto].
  rewrite <- E. unfold e_run.
  apply (C202_same_motion freud_wrap (fun _ => zero3) sort_index fl100 _ ex_pf _ [mk3 0 1 0] (Some 2) true None (mk3 3 (-2) 0) 1000 e_name true (efile, None) (sfile, None));
    auto using freud_wrap_periodic; [intros q; reflexivity|discriminate|apply sfile_same|constructor].
Qed.
(** The same with the wave number computed from the positions *)
Example C202_ex_own_wave t0 r0 :
  analyse freud_wrap (fun _ => zero3) sort_index fl100 (calculate_wave_number histogram) ex_pf (fun _ => EmptyString)
    [mk3 0 1 0] None true None e_name true (sfile, None) ([], None) t0 r0 =
  analyse freud_wrap (fun _ => zero3) sort_index fl100 (calculate_wave_number histogram) ex_pf (fun _ => EmptyString)
    [mk3 0 1 0] None true None e_name true (efile, None) ([], None) t0 r0.
Proof.
  apply (C202_same_motion freud_wrap (fun _ => zero3) sort_index fl100 _ ex_pf _ [mk3 0 1 0] None true None (mk3 3 (-2) 0) 1000 e_name true (efile, None) (sfile, None));
    auto using freud_wrap_periodic, histogram_invariant; [intros q; reflexivity|apply sfile_same|constructor].
Qed.
