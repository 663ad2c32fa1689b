(** TrackedMotion: properties C67-C70, C105, C106. *)
From Coq Require Import Reals ZArith List Bool Lra Lia.
From Verif Require Import Base RVec RVecFacts MotionModel MotionSpec MotionProofs.
Import ListNotations.
Open Scope R_scope.

(** Orientations that [add] accepts: none, or one unit quaternion per particle *)
Definition good_ori (n : nat) (o : option (list quat)) : Prop :=
  match o with None => True | Some q => length q = n /\ Forall unit q end.

Lemma to_euler_all_ok g l : Forall unit l -> to_euler_all g l = inl (map (to_euler g) l).
Proof.
  intros F. unfold to_euler_all. assert (E : forallb unitb l = true); [|rewrite E; reflexivity].
  apply forallb_forall. intros q I. unfold unitb. destruct (Req_EM_T _ 1) as [|N]; auto. exfalso. apply N.
  rewrite Forall_forall in F. apply (F q I).
Qed.
Lemma zip_unit a b : Forall unit a -> Forall unit b -> Forall unit (zip qdivide a b).
Proof.
  intros F. revert b. induction F as [|x a H F IH]; intros b G; [constructor|]. destruct G; cbn; constructor; auto.
  apply unit_divide; auto.
Qed.
Lemma adds_total w g n : forall l m, length (m_dt m) = n -> length (m_dr m) = n -> length (m_ppos m) = n -> good_ori n (m_pori m) ->
  Forall (fun f => length (fst f) = n /\ good_ori n (snd f)) l ->
  exists m', adds w g m l = (m', None).
Proof.
  induction l as [|[p o] l IH]; intros m L1 L2 L3 O F; [exists m; reflexivity|].
  inversion F as [|? ? [Lp Go] F']; subst. cbn [fst snd] in *. cbn [adds].
  assert (A : exists m1, motion_add w g m p o = (m1, None) /\ length (m_dt m1) = length (m_dt m) /\ length (m_dr m1) = length (m_dt m)
              /\ m_ppos m1 = p /\ m_pori m1 = o).
  { unfold motion_add. rewrite (bzip_eq sub3) by congruence. cbn [ebind].
    rewrite inplace_eq by (rewrite map_length, zip_length; congruence).
    assert (LL : length (zip sub3 (m_dt m) (map (w (m_box m)) (zip sub3 (m_ppos m) p))) = length (m_dt m)).
    { rewrite zip_length; auto. rewrite map_length, zip_length; congruence. }
    destruct (m_pori m) as [q|]; [destruct o as [q'|]|]; try (eexists; split; [reflexivity|cbn; auto; fail]).
    cbn in O, Go. destruct O as [Lq Uq], Go as [Lq' Uq'].
    rewrite bzip_eq by congruence. cbn [ebind]. rewrite to_euler_all_ok by (apply zip_unit; auto). cbn [ebind].
    rewrite inplace_eq by (rewrite map_length, zip_length; congruence).
    eexists. split; [reflexivity|]. cbn. split; auto. split; auto. rewrite zip_length; auto. rewrite map_length, zip_length; congruence. }
  destruct A as (m1 & A & L1' & L2' & P & Q). rewrite A. apply IH; rewrite ?Q; auto; congruence.
Qed.
Lemma init_ok b p o m : motion_init b p o = inl m ->
  m_box m = b /\ m_dt m = map (fun _ => zero3) p /\ m_dr m = map (fun _ => zero3) p /\ m_ppos m = p /\ m_pori m = o.
Proof. unfold motion_init. destruct o as [[|]|]; intros [= <-]; cbn; auto. Qed.

(** * C67 *)
(** [u0], [us]: true positions at the start and in each frame; [p0] and the frames hold any
    periodic images of them. *)
Theorem C67_true_displacement (wrap : fbox -> v3 -> v3) (gimbal : quat -> v3) b p0 o0 m0 (frames : list frame) u0 us :
  wrap_ok wrap -> box_ok b -> motion_init b p0 o0 = inl m0 ->
  good_ori (length p0) o0 -> Forall (fun f => good_ori (length p0) (snd f)) frames ->
  images b p0 u0 -> Forall2 (fun f u => images b (fst f) u) frames us ->
  chain (small_step b) u0 us ->
  exists m, adds wrap gimbal m0 frames = (m, None) /\ m_dt m = zip sub3 (last us u0) u0.
Proof.
  intros W B I O0 O I0 F C. destruct (init_ok _ _ _ _ I) as (E1 & E2 & E3 & E4 & E5).
  pose proof (Forall2_len _ _ _ I0) as L0.
  destruct (adds_total wrap gimbal (length p0) frames m0) as (m & A); try (rewrite ?E2, ?E3, ?E4, ?map_length; reflexivity).
  - rewrite E5. auto.
  - clear - F C L0 O. revert u0 L0 us F C. induction O as [|f l Hf O IH]; intros u0 L0 us F C; [constructor|].
    inversion F as [|? u ? us' Hfu F']; subst. destruct C as [C1 C2].
    pose proof (Forall2_len _ _ _ Hfu). pose proof (Forall2_len _ _ _ C1). constructor; [split; auto; congruence|].
    apply (IH u) with us'; auto. congruence.
  - exists m. split; auto. apply (adds_small wrap gimbal b u0 W B frames us u0 m0); auto.
    + rewrite E2. clear - L0. revert u0 L0. induction p0 as [|x p IH]; intros [|y u] L; cbn in *; try discriminate; auto.
      f_equal; [symmetry; apply sub3_diag|apply IH; congruence].
    + rewrite E4. auto.
Qed.
Print Assumptions C67_true_displacement.

Definition square10 : fbox := mkbox 10 10 1 0 0 0 true.
Definition at_x (x : R) : list v3 := [mk3 x 0 0].
Lemma square10_ok : box_ok square10.
Proof. repeat split; cbn; try lra; congruence. Qed.
Lemma at_image i x : images square10 (at_x (x - IZR i * 10)) (at_x x).
Proof.
  repeat constructor. exists (- i)%Z, 0%Z, 0%Z. split; auto. unfold lattice, sub3. cbn. rewrite opp_IZR. apply v3_eq; ring.
Qed.
Lemma at_step x y : Rabs (y - x) < 5 -> small_step square10 (at_x x) (at_x y).
Proof.
  intros H. repeat constructor; cbn; try lra; try discriminate.
  - unfold coord_a. cbn. match goal with |- Rabs ?e < _ => replace e with ((y - x) * / 10) by field end.
    rewrite Rabs_mult, (Rabs_pos_eq (/ 10)) by lra. lra.
  - unfold coord_b. cbn. match goal with |- Rabs ?e < _ => replace e with 0 by field end. rewrite Rabs_R0. lra.
Qed.
(** Three steps of 4 in a box of 10: stored at 4, -2, 2; tracked as 12. *)
Example C67_example : exists m, adds freud_wrap (fun _ => zero3)
    (mkmotion square10 [zero3] [zero3] (at_x 0) None) [(at_x 4, None); (at_x (-2), None); (at_x 2, None)] = (m, None)
  /\ m_dt m = [mk3 12 0 0].
Proof.
  destruct (C67_true_displacement freud_wrap (fun _ => zero3) square10 (at_x 0) None (mkmotion square10 [zero3] [zero3] (at_x 0) None)
    [(at_x 4, None); (at_x (-2), None); (at_x 2, None)] (at_x 0) [at_x 4; at_x 8; at_x 12]) as (m & A & D).
  - apply freud_wrap_ok.
  - apply square10_ok.
  - reflexivity.
  - exact I.
  - repeat constructor.
  - replace 0 with (0 - IZR 0 * 10) at 1 by ring. apply at_image.
  - apply Forall2_cons; [|apply Forall2_cons; [|apply Forall2_cons; [|apply Forall2_nil]]]; cbn [fst].
    + replace 4 with (4 - IZR 0 * 10) at 1 by ring. apply at_image.
    + replace (-2) with (8 - IZR 1 * 10) by ring. apply at_image.
    + replace 2 with (12 - IZR 1 * 10) by ring. apply at_image.
  - cbn [chain]. repeat split; apply at_step; apply Rabs_def1; lra.
  - exists m. split; auto. rewrite D. cbn. unfold sub3, zero3. cbn. repeat f_equal; ring.
Qed.

(** * C68 *)
(** [planar_step]: in a two-dimensional box the positions stay in their plane. *)
Theorem C68_modulo_box (wrap : fbox -> v3 -> v3) (gimbal : quat -> v3) b p0 o0 m0 (frames : list frame) m :
  wrap_ok wrap -> box_ok b -> motion_init b p0 o0 = inl m0 ->
  chain (planar_step b) p0 (map fst frames) -> adds wrap gimbal m0 frames = (m, None) ->
  Forall2 (fun d pq => is_lattice b (sub3 d (sub3 (snd pq) (fst pq))))
          (m_dt m) (combine p0 (last (map fst frames) p0)).
Proof.
  intros W B I C A. destruct (init_ok _ _ _ _ I) as (E1 & E2 & E3 & E4 & E5).
  pose proof (adds_ppos wrap gimbal frames m0 m A) as P. rewrite E4 in P. rewrite <- P.
  apply (adds_mod wrap gimbal b p0 W B frames m0 m); auto.
  - rewrite E4. reflexivity.
  - rewrite E2, E4. clear. induction p0; cbn; constructor; auto. cbn. rewrite sub3_diag, sub3_diag. apply is_lattice_zero.
  - rewrite E4. auto.
Qed.
Print Assumptions C68_modulo_box.

Lemma half_opp b d d' : box_ok b -> half b (sub3 d d') -> half b (sub3 d' d).
Proof.
  intros (B1 & B2 & B3) (H1 & H2 & H3 & H4).
  assert (N : forall x y, x = - y -> Rabs x = Rabs y) by (intros x y ->; apply Rabs_Ropp).
  unfold half. split; [|split; [|split]].
  - rewrite (N _ (coord_a b (sub3 d d'))); auto. unfold coord_a, sub3. cbn. field. lra.
  - rewrite (N _ (coord_b b (sub3 d d'))); auto. unfold coord_b, sub3. cbn. field. lra.
  - intros D. specialize (H3 D). cbn in *. lra.
  - intros D. specialize (B3 D). rewrite (N _ (coord_c b (sub3 d d'))); auto. unfold coord_c, sub3. cbn. field. lra.
Qed.
(** One update moves every particle by at most half a box along each lattice vector. *)
Theorem C68_single_update (wrap : fbox -> v3 -> v3) (gimbal : quat -> v3) m p o m' :
  wrap_ok wrap -> box_ok (m_box m) -> length (m_dt m) = length (m_ppos m) -> planar_step (m_box m) (m_ppos m) p ->
  motion_add wrap gimbal m p o = (m', None) ->
  Forall2 (fun d d' => half (m_box m) (sub3 d' d)) (m_dt m) (m_dt m').
Proof.
  intros W B L P A. pose proof (Forall2_len _ _ _ P) as L2. destruct (add_ok wrap gimbal m p o m' L L2 A) as (_ & D & _).
  rewrite D. unfold new_dt. clear D A. revert L. generalize (m_dt m) as dt. induction P as [|x x' pp p' Hz P IH]; intros [|d dt] L; cbn in *; try discriminate; constructor; auto.
  apply half_opp; auto. destruct (W (m_box m) (sub3 x x') B) as (_ & H).
  { intros E. cbn. rewrite Hz by auto. ring. }
  replace (sub3 d (sub3 d (wrap (m_box m) (sub3 x x')))) with (wrap (m_box m) (sub3 x x')); auto.
  unfold sub3. destruct (wrap (m_box m) _). cbn. apply v3_eq; ring.
Qed.
Print Assumptions C68_single_update.
(** A step of 7 in a box of 10 is taken as one of -3. *)
Example C68_example : exists m, motion_add freud_wrap (fun _ => zero3) (mkmotion square10 [zero3] [zero3] (at_x 0) None) (at_x 7) None = (m, None)
  /\ m_dt m = [mk3 (-3) 0 0].
Proof.
  eexists. split; [reflexivity|]. cbn [m_dt].
  assert (E : freud_wrap square10 (sub3 (mk3 0 0 0) (mk3 7 0 0)) = mk3 3 0 0).
  { apply wrap_small.
    - apply freud_wrap_ok.
    - apply square10_ok.
    - exists (-1)%Z, 0%Z, 0%Z. split; auto. unfold lattice, sub3. cbn. apply v3_eq; ring.
    - repeat split; cbn; try lra; try discriminate.
      + unfold coord_a. cbn. apply Rabs_def1; lra.
      + unfold coord_b. cbn. apply Rabs_def1; lra. }
  cbn [m_dt m_ppos m_box map zip at_x]. rewrite E. unfold sub3, zero3. cbn. f_equal. apply v3_eq; ring.
Qed.

(** * C69 *)
(** [a0], [angles]: the accumulated angle of each molecule, at the start and in each frame,
    not reduced modulo 2 pi.  The quaternions may have either sign. *)
Theorem C69_turns_accumulate (wrap : fbox -> v3 -> v3) (gimbal : quat -> v3) b p0 q0 m0 (frames : list frame) a0 angles :
  motion_init b p0 (Some q0) = inl m0 -> length p0 = length q0 -> Forall2 turned q0 a0 ->
  Forall2 (fun f t => length (fst f) = length p0 /\ exists q, snd f = Some q /\ Forall2 turned q t) frames angles ->
  chain turn_step a0 angles ->
  exists m, adds wrap gimbal m0 frames = (m, None) /\
    m_dr m = map (fun t => mk3 t 0 0) (zip Rminus (last angles a0) a0).
Proof.
  intros I L F0 F C. destruct (init_ok _ _ _ _ I) as (E1 & E2 & E3 & E4 & E5). pose proof (Forall2_len _ _ _ F0) as L0.
  apply (adds_turns wrap gimbal (length p0) a0) with q0; auto; try (rewrite ?E2, ?E4, ?map_length; congruence).
  - rewrite E3. assert (LL : length p0 = length a0) by congruence. clear - LL. revert a0 LL. induction p0 as [|x p IH]; intros [|y a] H; cbn in *; try discriminate; auto.
    rewrite <- (IH a) by congruence. f_equal. unfold spin, zero3. apply v3_eq; ring.
Qed.
Print Assumptions C69_turns_accumulate.
(** Five quarter turns, one quaternion with its sign changed: 5 pi / 2 *)
Example C69_example : exists m, adds freud_wrap (fun _ => zero3)
    (mkmotion square10 [zero3] [zero3] (at_x 0) (Some [zquat 0]))
    (map (fun q => (at_x 0, Some [q])) [zquat (PI / 2); qneg (zquat PI); zquat (3 * PI / 2); zquat (2 * PI); zquat (5 * PI / 2)]) = (m, None)
  /\ m_dr m = [mk3 (5 * PI / 2) 0 0].
Proof.
  destruct (C69_turns_accumulate freud_wrap (fun _ => zero3) square10 (at_x 0) [zquat 0]
    (mkmotion square10 [zero3] [zero3] (at_x 0) (Some [zquat 0]))
    (map (fun q => (at_x 0, Some [q])) [zquat (PI / 2); qneg (zquat PI); zquat (3 * PI / 2); zquat (2 * PI); zquat (5 * PI / 2)])
    [0] [[PI / 2]; [PI]; [3 * PI / 2]; [2 * PI]; [5 * PI / 2]]) as (m & A & D); try reflexivity.
  - repeat constructor.
  - cbn [map]. do 5 (apply Forall2_cons; [split; [reflexivity|]; eexists; split; [reflexivity|]; constructor; [unfold turned; auto|constructor]|]). apply Forall2_nil.
  - pose proof PI_RGT_0. cbn [chain]. repeat split; (constructor; [|constructor]); apply Rabs_def1; lra.
  - exists m. split; auto. rewrite D. cbn. f_equal. apply v3_eq; ring.
Qed.

(** * C70 *)
(** The rotation is the sum over consecutive pairs of frames that both have orientations
    ([turns]), and the translation is that of the same frames without orientations. *)
Theorem C70_orientation_gaps (wrap : fbox -> v3 -> v3) (gimbal : quat -> v3) b p0 o0 m0 (frames : list frame) m :
  motion_init b p0 o0 = inl m0 -> adds wrap gimbal m0 frames = (m, None) ->
  rotate_all gimbal (map (fun _ => zero3) p0) (turns o0 (map snd frames)) = inl (m_dr m) /\
  exists n0 n, motion_init b p0 None = inl n0 /\ adds wrap gimbal n0 (map (fun f => (fst f, None)) frames) = (n, None) /\
    m_dt n = m_dt m /\ m_ppos n = m_ppos m /\ m_dr n = map (fun _ => zero3) p0.
Proof.
  intros I A. destruct (init_ok _ _ _ _ I) as (E1 & E2 & E3 & E4 & E5).
  set (n0 := mkmotion b (map (fun _ => zero3) p0) (map (fun _ => zero3) p0) p0 None).
  destruct (adds_pattern wrap gimbal frames m0 m n0 A) as (R1 & n & N1 & N2 & N3 & N4); auto.
  rewrite E3, E5 in R1. split; auto. exists n0, n. repeat split; auto.
Qed.
Print Assumptions C70_orientation_gaps.
(** A frame without orientation between two with: nothing is counted. *)
Example C70_example :
  turns (Some 1%nat) [Some 2%nat; None; Some 3%nat; Some 4%nat] = [(1, 2); (3, 4)]%nat.
Proof. reflexivity. Qed.
(** ... so turns made around the gap are lost. *)
Example C70_gap_loses_turn : exists m, adds freud_wrap (fun _ => zero3)
    (mkmotion square10 [zero3] [zero3] (at_x 0) (Some [zquat 0])) [(at_x 0, None); (at_x 0, Some [zquat 1])] = (m, None)
  /\ m_dr m = [zero3].
Proof. eexists. split; reflexivity. Qed.

(** * C105 *)
(** Frames of a different size are rejected and change nothing, unless they (or the previous
    frame) hold a single particle. *)
Theorem C105_wrong_size_partial (wrap : fbox -> v3 -> v3) (gimbal : quat -> v3) m p o :
  length p <> length (m_ppos m) -> length p <> 1%nat -> length (m_ppos m) <> 1%nat ->
  motion_add wrap gimbal m p o = (m, Some ValueError).
Proof.
  intros N N1 N2. unfold motion_add, bzip. destruct (length (m_ppos m) =? length p)%nat eqn:E; [apply Nat.eqb_eq in E; congruence|].
  destruct (m_ppos m) as [|x [|y l]]; destruct p as [|a [|c l']]; cbn in *; try congruence; try reflexivity.
Qed.
Print Assumptions C105_wrong_size_partial.
Example C105_example : motion_add freud_wrap (fun _ => zero3) (mkmotion square10 [zero3; zero3] [zero3; zero3] [zero3; zero3] None) [zero3; zero3; zero3] None
  = (mkmotion square10 [zero3; zero3] [zero3; zero3] [zero3; zero3] None, Some ValueError).
Proof. apply C105_wrong_size_partial; cbn; discriminate. Qed.
(** A frame of one particle is accepted and taken as the position of every particle. *)
Theorem C105_wrong_size_refuted : exists m p m',
  length p <> length (m_ppos m) /\ motion_add freud_wrap (fun _ => zero3) m p None = (m', None) /\
  m_dt m' = [mk3 1 0 0; mk3 0 0 0] /\ m_ppos m' = p.
Proof.
  exists (mkmotion square10 [zero3; zero3] [zero3; zero3] [mk3 0 0 0; mk3 1 0 0] None), [mk3 1 0 0].
  eexists. split; [discriminate|]. split; [reflexivity|]. cbn [m_dt m_ppos]. split; auto.
  assert (W : forall x, Rabs x < 5 -> freud_wrap square10 (mk3 x 0 0) = mk3 x 0 0).
  { intros x H. apply wrap_small.
    - apply freud_wrap_ok.
    - apply square10_ok.
    - rewrite sub3_diag. apply is_lattice_zero.
    - repeat split; cbn; try lra; try discriminate.
      + unfold coord_a. cbn. replace ((x - 0 * (0 - 0 * 0) - 0 * 0) / 10) with (x * / 10) by field.
        rewrite Rabs_mult, (Rabs_pos_eq (/ 10)) by lra. lra.
      + unfold coord_b. cbn. apply Rabs_def1; lra. }
  cbn [m_dt m_ppos m_box map zip length Nat.eqb]. unfold sub3 at 2 4. cbn [x3 y3 z3]. replace (0 - 0) with 0 by ring. rewrite !W by (apply Rabs_def1; lra).
  unfold sub3, zero3. cbn. repeat f_equal; ring.
Qed.
Print Assumptions C105_wrong_size_refuted.

(** * C106 *)
(** When [add] raises because of the positions, nothing changes; in every case the rotation
    and the stored previous frame are kept. *)
Theorem C106_rejected_partial (wrap : fbox -> v3 -> v3) (gimbal : quat -> v3) m p o m' e :
  motion_add wrap gimbal m p o = (m', Some e) ->
  m_dr m' = m_dr m /\ m_ppos m' = m_ppos m /\ m_pori m' = m_pori m /\
  (m_pori m = None \/ o = None -> m' = m).
Proof.
  unfold motion_add. destruct (ebind (bzip sub3 _ _) _) as [dt|e']; [|intros [= <- <-]; auto].
  destruct (m_pori m) as [q|] eqn:Q; [destruct o as [q'|]|]; try discriminate.
  destruct (ebind (bzip qdivide q' q) _); [discriminate|]. intros [= <- <-]. cbn. repeat split; auto. intros [H|H]; discriminate.
Qed.
Print Assumptions C106_rejected_partial.
(** An orientation that is not a unit quaternion is rejected with a ValueError, which
    process_file takes as "skip this frame", but the translation has already been counted:
    the next frame counts it again.  Here the particle moves by 1 and is reported at 2. *)
Theorem C106_rejected_refuted : exists m p o m' m'',
  motion_add freud_wrap (fun _ => zero3) m p o = (m', Some ValueError) /\
  m_dt m = [zero3] /\ m_ppos m = at_x 0 /\
  motion_add freud_wrap (fun _ => zero3) m' (at_x 1) None = (m'', None) /\ m_dt m'' = [mk3 2 0 0].
Proof.
  exists (mkmotion square10 [zero3] [zero3] (at_x 0) (Some [qone])), (at_x 1), (Some [mkq 2 0 0 0]).
  assert (W : freud_wrap square10 (sub3 (mk3 0 0 0) (mk3 1 0 0)) = mk3 (-1) 0 0).
  { apply wrap_small.
    - apply freud_wrap_ok.
    - apply square10_ok.
    - exists 0%Z, 0%Z, 0%Z. split; auto. unfold lattice, sub3. cbn. apply v3_eq; ring.
    - repeat split; cbn; try lra; try discriminate.
      + unfold coord_a. cbn. apply Rabs_def1; lra.
      + unfold coord_b. cbn. apply Rabs_def1; lra. }
  eexists. eexists. split.
  - unfold motion_add. cbn [m_ppos m_pori m_dt m_dr m_box at_x bzip length Nat.eqb zip ebind map inplace].
    unfold to_euler_all. cbn [forallb]. unfold unitb. destruct (Req_EM_T _ 1) as [H|H]; [exfalso|reflexivity].
    unfold qnorm2, qdivide, qinv, qmul, qone in H. cbn in H. unfold qnorm2 in H. cbn in H. 
    field_simplify in H. lra.
  - split; auto. split; auto. split; [reflexivity|]. cbn [m_dt m_ppos m_box map zip at_x]. rewrite W.
    unfold sub3, zero3. cbn. f_equal. apply v3_eq; ring.
Qed.
Print Assumptions C106_rejected_refuted.
