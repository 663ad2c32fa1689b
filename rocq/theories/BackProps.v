(** C221: a film shown backwards. *)
From Coq Require Import String Reals ZArith QArith List Bool Permutation Lia Lra Arith.
From Verif Require Import Base DictFacts XNum RVec RVecFacts RelaxFitModel FrameModel
  MotionModel MotionSpec MotionProofs MotionProps DynModel DynSpec DynProofs DynStruct DynProps DynPerm
  EndModel DynTrue EndSpec EndProofs EndProps PartSpec AxesProps BackSpec.
Import ListNotations.
Open Scope list_scope.
Open Scope R_scope.
Notation length := List.length.

(** ** The opposite order *)
Lemma below_half_opp b u v : below_half b (sub3 u v) -> below_half b (sub3 v u).
Proof.
  unfold below_half. intros (A & B & C & D).
  assert (E1 : coord_a b (sub3 v u) = - coord_a b (sub3 u v)) by (unfold coord_a, sub3; cbn [x3 y3 z3]; unfold Rdiv; ring).
  assert (E2 : coord_b b (sub3 v u) = - coord_b b (sub3 u v)) by (unfold coord_b, sub3; cbn [x3 y3 z3]; unfold Rdiv; ring).
  assert (E3 : coord_c b (sub3 v u) = - coord_c b (sub3 u v)) by (unfold coord_c, sub3; cbn [x3 y3 z3]; unfold Rdiv; ring).
  rewrite E1, E2, E3, !Rabs_Ropp. split; [exact A|]. split; [exact B|]. split; [|exact D].
  intros H. specialize (C H). unfold sub3 in *. cbn [z3] in *. lra.
Qed.
Lemma flip {A B} (P : A -> B -> Prop) (Q : B -> A -> Prop) l l' : (forall x y, P x y -> Q y x) -> Forall2 P l l' -> Forall2 Q l' l.
Proof. intros H F. induction F; constructor; auto. Qed.
Lemma slow_sym b s s' : slow b s s' -> slow b s' s.
Proof.
  intros [A B]. split; [eapply flip; [|exact A]|eapply flip; [|exact B]]; cbv beta; intros x y H.
  - apply below_half_opp, H.
  - rewrite Rabs_minus_sym. exact H.
Qed.
Lemma chain_snoc {A} (P : A -> A -> Prop) l : forall x y, chain P x l -> P (last l x) y -> chain P x (l ++ [y]).
Proof.
  induction l as [|a l IH]; intros x y H L; cbn [app chain] in *; [auto|]. destruct H as [H1 H2]. split; auto. apply IH; auto.
  rewrite last_cons in L. exact L.
Qed.
Lemma chain_rev {A} (P : A -> A -> Prop) (Sy : forall x y, P x y -> P y x) l : forall x, chain P x l ->
  exists y l', rev (x :: l) = y :: l' /\ chain P y l' /\ last l' y = x /\ y = last l x.
Proof.
  induction l as [|a l IH]; intros x C; [exists x, []; cbn; auto|]. destruct C as [C1 C2].
  destruct (IH a C2) as (y & l' & E & C' & L & Y). exists y, (l' ++ [x]).
  change (rev (x :: a :: l)) with (rev (a :: l) ++ [x]). rewrite E. split; [reflexivity|]. split; [|split; [apply last_last|rewrite last_cons; exact Y]].
  apply chain_snoc; auto. rewrite L. auto.
Qed.
Lemma Forall2_rev {A B} (P : A -> B -> Prop) l l' : Forall2 P l l' -> Forall2 P (rev l) (rev l').
Proof. intros F. induction F; cbn [rev]; [constructor|]. apply Forall2_app; auto. Qed.
Lemma seen_reclock c b N f s : seen b N f s -> seen b N (reclock c f) s.
Proof. intros H. exact H. Qed.
Lemma Forall2_map_l {A B C} (P : B -> C -> Prop) (g : A -> B) l l' : Forall2 (fun x y => P (g x) y) l l' -> Forall2 P (map g l) l'.
Proof. intros F. induction F; constructor; auto. Qed.

(** ** What the object has accumulated *)
Lemma each_follows wrap gimbal b N s0 (W : wrap_ok wrap) (B : box_ok b) (L0 : length (fst s0) = N) (L2 : length (snd s0) = N) fs ss :
  Forall2 (seen b N) fs ss -> forall s d, chain (slow b) s ss -> follows b s0 s N (d_motion d) ->
  exists d', dyn_each wrap gimbal d fs = inl d' /\ follows b s0 (last ss s) N (d_motion d') /\
    d_timestep d' = d_timestep d /\ d_num d' = d_num d /\ d_mol d' = d_mol d /\ d_wave d' = d_wave d /\ d_res d' = d_res d.
Proof.
  intros F. induction F as [|f s1 fs ss H F IH]; intros s d C Fo; [exists d; cbn; auto 10|]. destruct C as [C1 C2].
  destruct H as (_ & Im & _ & _ & q & Eo & Tq).
  destruct (follows_add wrap gimbal b s0 s s1 N (d_motion d) (e_pos f) q) as (m' & Ad & Fo'); auto.
  cbn [dyn_each]. unfold dyn_add. rewrite Eo, Ad. rewrite last_cons.
  destruct (IH s1 (mkdyn m' (d_timestep d) (d_num d) (d_mol d) (d_wave d) (d_res d)) C2 Fo') as (d' & E & R). exists d'. split; [exact E|]. exact R.
Qed.
Lemma of_follows wrap gimbal b N mol wave f0 fs s0 ss : wrap_ok wrap -> box_ok b -> (0 < N)%nat ->
  Forall2 (seen b N) (f0 :: fs) (s0 :: ss) -> chain (slow b) s0 ss ->
  exists d, dynamics_of wrap gimbal mol wave f0 fs = inl d /\ follows b s0 (last ss s0) N (d_motion d) /\
    d_timestep d = e_ts f0 /\ d_num d = N /\ d_mol d = Some mol /\ d_wave d = wave /\ d_res d = 360%nat /\
    length (fst s0) = N /\ length (snd s0) = N.
Proof.
  intros W B N0 F C. inversion F as [|? ? ? ? H F']; subst. destruct H as (Pb & Im & Lp & Ls & q & Eo & Tq).
  assert (Lf : length (fst s0) = N) by (rewrite <- (Forall2_len _ _ _ Im); exact Lp). assert (Lq := Forall2_len _ _ _ Tq).
  unfold dynamics_of, make_dynamics. destruct (e_pos f0) as [|p ps] eqn:Ep; [cbn in Lp; lia|].
  rewrite (plane_frame f0 b Pb). cbn [MotionModel.ebind]. unfold dyn_init. rewrite Eo. unfold motion_init. destruct q as [|q0 q]; [cbn in Lq; lia|]. cbn [MotionModel.ebind].
  set (d0 := mkdyn _ _ _ _ _ _).
  destruct (each_follows wrap gimbal b N s0 W B Lf Ls fs ss F' s0 d0 C) as (d & E & Fo & D1 & D2 & D3 & D4 & D5).
  - subst d0. unfold follows. cbn [d_motion m_box m_dt m_dr m_ppos m_pori]. split; [auto|]. split; [|split; [auto|split; [|split; [|split; auto]]]].
    + assert (L : length (p :: ps) = length (fst s0)) by congruence. rewrite (zip_zero_sub _ _ L). reflexivity.
    + eexists. split; eauto.
    + assert (L : length (p :: ps) = length (snd s0)) by congruence. rewrite (zip_zero_ang _ _ L). reflexivity.
  - exists d. split; [exact E|]. split; [exact Fo|]. subst d0. cbn [d_timestep d_num d_mol d_wave d_res] in *. rewrite D1, D2, D3, D4, D5. auto 10.
Qed.
Lemma opp_norm u : forall v, displacement2 (zip sub3 u v) = displacement2 (zip sub3 v u).
Proof.
  unfold displacement2. induction u as [|x u IH]; intros [|y v]; cbn [zip map]; auto. rewrite IH. f_equal. unfold norm2_3, dot3, sub3. cbn [x3 y3 z3]. ring.
Qed.
Lemma opp_turn u : forall v, displacement2 (map (fun t => mk3 t 0 0) (zip Rminus u v)) = displacement2 (map (fun t => mk3 t 0 0) (zip Rminus v u)).
Proof.
  unfold displacement2. induction u as [|x u IH]; intros [|y v]; cbn [zip map]; auto. rewrite IH. f_equal. unfold norm2_3, dot3. cbn [x3 y3 z3]. ring.
Qed.
Lemma opp_isf k res u v : isf k res (zip sub3 u v) = isf k res (zip sub3 v u).
Proof.
  unfold isf. f_equal. induction (wave_vectors k res) as [|w ws IH]; cbn [flat_map]; auto. rewrite IH. f_equal. clear IH.
  revert v. induction u as [|x u IH]; intros [|y v]; cbn [zip map]; auto. rewrite IH. f_equal. rewrite <- cos_neg. f_equal. unfold sub3. cbn [x3 y3]. ring.
Qed.

(** * C221 *)
Theorem C221_backwards wrap gimbal argsort mol wave b N c f0 fs s0 ss g0 gs sc :
  wrap_ok wrap -> argsort_ok argsort -> box_ok b -> (10 <= N)%nat -> wave <> Some 0 -> mol <> [] ->
  Forall2 (seen b N) (f0 :: fs) (s0 :: ss) -> chain (slow b) s0 ss -> backwards c (f0 :: fs) = g0 :: gs ->
  exists d d' q q', dynamics_of wrap gimbal mol wave f0 fs = inl d /\ dynamics_of wrap gimbal mol wave g0 gs = inl d' /\
    quantities argsort d (e_ts (last fs f0)) sc = inl q /\ quantities argsort d' (e_ts (last gs g0)) sc = inl q' /\
    forall key, key <> "struct"%string -> dget String.eqb key q' = dget String.eqb key q.
Proof.
  intros W As B N10 Wv Mo F C G.
  destruct (chain_rev (slow b) (slow_sym b) ss s0 C) as (t0 & ts & Et & C' & Lt & T0).
  assert (F' : Forall2 (seen b N) (g0 :: gs) (t0 :: ts)).
  { rewrite <- G, <- Et. unfold backwards. apply Forall2_map_l. apply Forall2_rev in F. exact F. }
  assert (Cf : chain (fun _ _ : eframe => True) f0 fs) by (clear; revert f0; induction fs; cbn; auto).
  destruct (chain_rev (fun _ _ : eframe => True) (fun _ _ H => H) fs f0 Cf) as (h0 & hs & Eh & _ & Lh & H0).
  unfold backwards in G. rewrite Eh in G. cbn [map] in G. injection G as <- <-.
  destruct (of_follows wrap gimbal b N mol wave f0 fs s0 ss) as (d & E & Fo & D1 & D2 & D3 & D4 & D5 & S1 & S2); auto; [lia|].
  destruct (of_follows wrap gimbal b N mol wave (reclock c h0) (map (reclock c) hs) t0 ts) as (d' & E' & Fo' & D1' & D2' & D3' & D4' & D5' & S1' & S2'); auto; [lia|].
  rewrite Lt in Fo'. rewrite <- T0 in Fo.
  destruct Fo as (_ & M1 & _ & _ & M2 & _). destruct Fo' as (_ & M1' & _ & _ & M2' & _).
  destruct (C75_all_quantities_partial argsort d (e_ts (last fs f0)) sc As) as (q & Q & _).
  { unfold dyn_ok. rewrite M1, M2, D2, D5, map_length, !zip_length by congruence. repeat split; try congruence; lia. }
  { lia. } { congruence. } { congruence. }
  destruct (C75_all_quantities_partial argsort d' (e_ts (last (map (reclock c) hs) (reclock c h0))) sc As) as (q' & Q' & _).
  { unfold dyn_ok. rewrite M1', M2', D2', D5', map_length, !zip_length by congruence. repeat split; try congruence; lia. }
  { lia. } { congruence. } { congruence. }
  exists d, d', q, q'. split; [exact E|]. split; [exact E'|]. split; [exact Q|]. split; [exact Q'|]. intros key K.
  apply (rows_agree argsort _ _ _ _ _ _ _ Q' Q); auto; try congruence.
  - rewrite D1, D1'. assert (El : last (map (reclock c) hs) (reclock c h0) = reclock c (last hs h0)).
    { clear. revert h0. induction hs as [|a hs IH]; intros h0; auto. cbn [map]. rewrite !last_cons. apply IH. }
    rewrite El, Lh, H0. cbn [reclock e_ts]. lia.
  - rewrite M1, M1'. apply opp_norm.
  - rewrite M2, M2'. apply opp_turn.
  - intros _ k _. rewrite M1, M1', D5, D5'. apply opp_isf.
Qed.
Print Assumptions C221_backwards.

(** Ten molecules move by 1 along y and turn by a right angle. *)
Definition bk0 := gf 0 0 0 (zquat 0).
Definition bk1 := gf 100 0 1 (zquat (PI / 2)).
Definition bs0 : truth := (repeat (mk3 0 0 0) 10, repeat 0 10).
Definition bs1 : truth := (repeat (mk3 0 1 0) 10, repeat (PI / 2) 10).
Lemma bk_seen : Forall2 (seen ebox 10) [bk0; bk1] [bs0; bs1] /\ chain (slow ebox) bs0 [bs1].
Proof.
  pose proof pi_above_3. assert (Pl : forall ts x y q, plane_box (gf ts x y q) ebox) by (intros; exists 10, 10, 1; right; exists 0, 0, 0; split; reflexivity).
  assert (Sn : forall ts x y q t, turned q t -> seen ebox 10 (gf ts x y q) (repeat (mk3 x y 0) 10, repeat t 10)).
  { intros ts x y q t Tq. split; [apply Pl|]. unfold gf. cbn [fst snd e_pos e_ori]. rewrite !repeat_length. split; [|split; [|split]]; auto.
    - apply Forall2_repeat. exists 0%Z, 0%Z, 0%Z. split; auto. unfold lattice, sub3. cbn [x3 y3 z3 bx by_ bz bxy bxz byz ebox]. apply v3_eq; lra.
    - eexists. split; [reflexivity|]. apply Forall2_repeat. auto. }
  split; [constructor; [apply Sn; left; auto|constructor; [apply Sn; left; auto|constructor]]|].
  cbn [chain]. split; auto. unfold slow, bs0, bs1. cbn [fst snd]. split; apply Forall2_repeat; [|apply Rabs_def1; lra].
  unfold sub3. cbn [x3 y3 z3]. unfold below_half, coord_a, coord_b. cbn [x3 y3 z3 bx by_ bz bxy bxz byz ebox b2d].
  split; [apply Rabs_def1; lra|]. split; [apply Rabs_def1; lra|]. split; [intros; lra|discriminate].
Qed.
Lemma bk_struct d ts sc q v t : quantities sort_index d ts sc = inl q -> m_dt (d_motion d) = repeat v 10 -> m_dr (d_motion d) = repeat (mk3 t 0 0) 10 ->
  d_num d = 10%nat -> d_mol d = Some [mk3 0 1 0] -> d_wave d = Some 1 -> (exists o, m_pori (d_motion d) = Some o) ->
  dget String.eqb "struct"%string q = Some (VFl (FR (if RelaxFitModel.Rltb (norm3 (mk3 (x3 v) (cos t - 1 + y3 v) (sin t + z3 v))) (PI / 2) then 1 else 0))) /\
  dget String.eqb "msd"%string q = Some (VFl (FR (norm2_3 v))).
Proof.
  intros Q E1 E2 E3 E4 E5 (o & E6). destruct (quantities_row _ _ _ _ _ Q) as (al & dist & ar & g & ov & st & _ & H2 & _ & _ & _ & H6 & ->).
  unfold distance in H2. rewrite E5 in H2. destruct (Req_EM_T 1 0) as [E|_]; [lra|]. injection H2 as <-.
  rewrite E4, E6 in H6. destruct H6 as (s & Es & ->). unfold compute_struct_relax, distance in Es. rewrite E5 in Es.
  destruct (Req_EM_T 1 0) as [E|_]; [lra|]. cbn [MotionModel.ebind] in Es. rewrite E4, E1, E2, E3, struct_ten in Es. injection Es as <-.
  replace (PI / (2 * 1)) with (PI / 2) by lra. split; [reflexivity|].
  assert (Em : msd (m_dt (d_motion d)) = norm2_3 v) by (rewrite E1; unfold msd, displacement2; rewrite map_rep; apply rep_rmean). rewrite Em. reflexivity.
Qed.
(** The column "struct" is another: 1 forwards and 0 backwards. *)
Theorem C221_struct_refuted : exists b mol k f0 fs s0 ss g0 gs d d' q q',
  box_ok b /\ Forall2 (seen b 10) (f0 :: fs) (s0 :: ss) /\ chain (slow b) s0 ss /\ backwards 100 (f0 :: fs) = g0 :: gs /\
  dynamics_of freud_wrap (fun _ => zero3) mol (Some k) f0 fs = inl d /\ dynamics_of freud_wrap (fun _ => zero3) mol (Some k) g0 gs = inl d' /\
  quantities sort_index d (e_ts (last fs f0)) true = inl q /\ quantities sort_index d' (e_ts (last gs g0)) true = inl q' /\
  dget String.eqb "msd"%string q = Some (VFl (FR 1)) /\ dget String.eqb "msd"%string q' = Some (VFl (FR 1)) /\
  dget String.eqb "struct"%string q = Some (VFl (FR 1)) /\ dget String.eqb "struct"%string q' = Some (VFl (FR 0)).
Proof.
  destruct bk_seen as [F C]. pose proof pi_above_3 as P3. pose proof PI_4 as P4.
  exists ebox, [mk3 0 1 0], 1, bk0, [bk1], bs0, [bs1], (reclock 100 bk1), [reclock 100 bk0].
  assert (W1 : Some 1 <> Some 0) by (intros X; injection X; lra).
  destruct (C221_backwards freud_wrap (fun _ => zero3) sort_index [mk3 0 1 0] (Some 1) ebox 10 100 bk0 [bk1] bs0 [bs1] (reclock 100 bk1) [reclock 100 bk0] true
    freud_wrap_ok sort_index_ok ebox_ok ltac:(lia) W1 ltac:(discriminate) F C eq_refl) as (d & d' & q & q' & E & E' & Q & Q' & _).
  exists d, d', q, q'. split; [apply ebox_ok|]. split; [exact F|]. split; [exact C|]. split; [reflexivity|]. split; [exact E|]. split; [exact E'|]. split; [exact Q|]. split; [exact Q'|].
  destruct (of_follows freud_wrap (fun _ => zero3) ebox 10 [mk3 0 1 0] (Some 1) bk0 [bk1] bs0 [bs1] freud_wrap_ok ebox_ok ltac:(lia) F C) as (d1 & X & Fo & _ & D2 & D3 & D4 & _).
  rewrite E in X. injection X as <-.
  assert (F' : Forall2 (seen ebox 10) [reclock 100 bk1; reclock 100 bk0] [bs1; bs0]).
  { apply (Forall2_map_l (seen ebox 10) (reclock 100) [bk1; bk0]). apply Forall2_rev in F. exact F. }
  assert (C' : chain (slow ebox) bs1 [bs0]) by (split; [apply slow_sym, C|exact I]).
  destruct (of_follows freud_wrap (fun _ => zero3) ebox 10 [mk3 0 1 0] (Some 1) _ _ bs1 [bs0] freud_wrap_ok ebox_ok ltac:(lia) F' C') as (d1 & X & Fo' & _ & D2' & D3' & D4' & _).
  rewrite E' in X. injection X as <-. cbn [last] in Fo, Fo'.
  destruct Fo as (_ & M1 & _ & (o & Mo & _) & M2 & _). destruct Fo' as (_ & M1' & _ & (o' & Mo' & _) & M2' & _).
  unfold bs0, bs1 in M1, M2, M1', M2'. cbn [fst snd] in M1, M2, M1', M2'. rewrite zip_rep in M1, M1'. rewrite zip_rep, map_rep in M2, M2'.
  destruct (bk_struct d _ _ q _ _ Q M1 M2 D2 D3 D4 (ex_intro _ o Mo)) as [-> ->].
  destruct (bk_struct d' _ _ q' _ _ Q' M1' M2' D2' D3' D4' (ex_intro _ o' Mo')) as [-> ->].
  replace (PI / 2 - 0) with (PI / 2) by lra. replace (0 - PI / 2) with (- (PI / 2)) by lra. rewrite cos_neg, sin_neg, cos_PI2, sin_PI2.
  unfold sub3. cbn [x3 y3 z3].
  split; [apply (f_equal (fun z => Some (VFl (FR z)))); unfold norm2_3, dot3; cbn [x3 y3 z3]; lra|].
  split; [apply (f_equal (fun z => Some (VFl (FR z)))); unfold norm2_3, dot3; cbn [x3 y3 z3]; lra|]. split.
  - rewrite Rltb_true; [reflexivity|]. unfold norm3, norm2_3, dot3. cbn [x3 y3 z3]. apply Rle_lt_trans with (3 / 2); [|lra].
    rewrite <- (sqrt_Rsqr (3 / 2)) by lra. apply sqrt_le_1_alt. unfold Rsqr. lra.
  - rewrite Rltb_false; [reflexivity|]. unfold norm3, norm2_3, dot3. cbn [x3 y3 z3]. apply Rle_trans with 2; [lra|].
    rewrite <- (sqrt_Rsqr 2) at 1 by lra. apply sqrt_le_1_alt. unfold Rsqr. lra.
Qed.
Print Assumptions C221_struct_refuted.
Example C221_example : Forall2 (seen ebox 10) [bk0; bk1] [bs0; bs1] /\ chain (slow ebox) bs0 [bs1] /\
  backwards 100 [bk0; bk1] = [reclock 100 bk1; reclock 100 bk0] /\ exists d' q',
  dynamics_of freud_wrap (fun _ => zero3) [mk3 0 1 0] (Some 1) (reclock 100 bk1) [reclock 100 bk0] = inl d' /\
  quantities sort_index d' (e_ts (reclock 100 bk0)) true = inl q' /\ dget String.eqb "time"%string q' = Some (VInt 100).
Proof.
  destruct bk_seen as [F C]. split; [exact F|]. split; [exact C|]. split; [reflexivity|].
  assert (W1 : Some 1 <> Some 0) by (intros X; injection X; lra).
  destruct (C221_backwards freud_wrap (fun _ => zero3) sort_index [mk3 0 1 0] (Some 1) ebox 10 100 bk0 [bk1] bs0 [bs1] (reclock 100 bk1) [reclock 100 bk0] true
    freud_wrap_ok sort_index_ok ebox_ok ltac:(lia) W1 ltac:(discriminate) F C eq_refl) as (d & d' & q & q' & E & E' & Q & Q' & K).
  exists d', q'. split; [exact E'|]. split; [exact Q'|]. rewrite K by discriminate.
  destruct (of_follows freud_wrap (fun _ => zero3) ebox 10 [mk3 0 1 0] (Some 1) bk0 [bk1] bs0 [bs1] freud_wrap_ok ebox_ok ltac:(lia) F C) as (d1 & X & _ & D1 & _).
  rewrite E in X. injection X as <-.
  destruct (quantities_row _ _ _ _ _ Q) as (al & dist & ar & g & ov & st & _ & _ & _ & _ & _ & _ & ->). rewrite D1. reflexivity.
Qed.
