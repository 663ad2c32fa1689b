(** Dynamics: the quantities of a true trajectory, property C109. *)
From Coq Require Import String Reals ZArith List Bool Permutation Lra Lia.
From Verif Require Import Base RVec RVecFacts RelaxFitModel MotionModel MotionSpec MotionProofs MotionProps DynModel DynSpec DynProofs DynStruct DynProps DynPerm.
Import ListNotations.
Open Scope R_scope.
Notation length := List.length.

(** ** Specification *)
(** The true state: unwrapped positions and total angles *)
Definition truth : Set := (list v3 * list R)%type.
Definition pos (s : truth) (i : nat) : v3 := nth i (fst s) zero3.
Definition ang (s : truth) (i : nat) : R := nth i (snd s) 0.

(** The average of [f 0], ..., [f (n-1)] *)
Definition avg (n : nat) (f : nat -> R) : R := fold_left (fun s i => s + f i) (seq 0 n) 0 / INR n.

Section Describes.
  Variables s0 s : truth.
  Definition moved2 (i : nat) : R :=
    (x3 (pos s i) - x3 (pos s0 i)) ^ 2 + (y3 (pos s i) - y3 (pos s0 i)) ^ 2 + (z3 (pos s i) - z3 (pos s0 i)) ^ 2.
  Definition angle (i : nat) : R := ang s i - ang s0 i.
  Definition is_ratio (num den : R) (o : option dval) : Prop :=
    (den <> 0 -> o = Some (VFl (FR (num / den - 1)))) /\ (den = 0 -> o = Some (VFl FNaN)).

  Open Scope string_scope.
  (** What a dictionary [q] says of the motion from [s0] to [s] of [n] molecules *)
  Definition describes (n : nat) (k : R) (res : nat) (time : Z) (scattering : bool) (q : dict string dval) : Prop :=
    let get key := dget String.eqb key q in
    let real x := Some (VFl (FR x)) in
    get "time" = Some (VInt time) /\
    get "mean_displacement" = real (avg n (fun i => sqrt (moved2 i))) /\
    get "msd" = real (avg n moved2) /\
    get "mfd" = real (avg n (fun i => moved2 i ^ 2)) /\
    get "mean_rotation" = real (avg n (fun i => Rabs (angle i))) /\
    get "msr" = real (avg n (fun i => angle i ^ 2)) /\
    get "rot1" = real (avg n (fun i => cos (angle i))) /\
    get "rot2" = real (avg n (fun i => cos (2 * angle i))) /\
    is_ratio (avg n (fun i => moved2 i ^ 2)) (2 * avg n moved2 ^ 2) (get "alpha") /\
    is_ratio (avg n (fun i => angle i ^ 4)) (3 * avg n (fun i => angle i ^ 2) ^ 2) (get "alpha_rot") /\
    is_ratio (avg n (fun i => moved2 i * angle i ^ 2)) (avg n moved2 * avg n (fun i => angle i ^ 2)) (get "gamma") /\
    get "scattering_function" =
      (if scattering
       then real (avg res (fun j => avg n (fun i =>
                    cos (k * (cos (2 * PI * INR j / INR res) * (x3 (pos s i) - x3 (pos s0 i)) +
                              sin (2 * PI * INR j / INR res) * (y3 (pos s i) - y3 (pos s0 i)))))))
       else Some (VFl FNaN)) /\
    get "com_struct" = real (avg n (fun i => if Rlt_dec (sqrt (moved2 i)) (PI / (2 * k)) then 1 else 0)).
End Describes.

(** A frame shows the true state, in any periodic images and with any signs; *)
Definition shows (b : fbox) (f : dframe) (s : truth) : Prop :=
  let '(ts, p, o, sc) := f in images b p (fst s) /\ exists q, o = Some q /\ Forall2 turned q (snd s).
(** between frames nothing moves by half a box or turns by pi. *)
Definition slow (b : fbox) (s s' : truth) : Prop := small_step b (fst s) (fst s') /\ turn_step (snd s) (snd s').

(** ** Proofs *)
Lemma fold_rsum f l : forall x, fold_left (fun s (i : nat) => s + f i) l x = x + rsum (map f l).
Proof. induction l as [|i l IH]; intros x; cbn [fold_left map]; [unfold rsum; cbn; lra|]. rewrite IH. unfold rsum. cbn [fold_right]. lra. Qed.
Lemma map_nth_seq {A} (d : A) l : map (fun i => nth i l d) (seq 0 (length l)) = l.
Proof. induction l as [|x l IH]; cbn; auto. f_equal. rewrite <- seq_shift, map_map. auto. Qed.
Lemma rmean_avg n f l : length l = n -> (forall i, (i < n)%nat -> nth i l 0 = f i) -> rmean l = avg n f.
Proof.
  intros L H. unfold rmean, avg. rewrite fold_rsum, Rplus_0_l, L. f_equal. f_equal.
  rewrite <- (map_nth_seq 0 l) at 1. rewrite L. apply map_ext_in. intros i I. apply in_seq in I. apply H. lia.
Qed.
Lemma nth_map {A B} (f : A -> B) l d d' i : (i < length l)%nat -> nth i (map f l) d' = f (nth i l d).
Proof. revert i. induction l as [|x l IH]; intros [|i] H; cbn in *; try lia; auto. apply IH. lia. Qed.
Lemma rsum_flat {A} (g : A -> list R) l : rsum (flat_map g l) = rsum (map (fun x => rsum (g x)) l).
Proof. induction l; cbn [flat_map map]; auto. rewrite rsum_app, IHl. reflexivity. Qed.
Lemma rsum_scale c l : rsum (map (fun x => x * c) l) = rsum l * c.
Proof. unfold rsum. induction l; cbn [map fold_right]; [lra|]. rewrite IHl. lra. Qed.
Lemma norm_spin t : norm3 (mk3 t 0 0) = Rabs t.
Proof. unfold norm3, norm2_3, dot3. cbn. replace (t * t + 0 * 0 + 0 * 0) with (Rsqr t) by (unfold Rsqr; ring). apply sqrt_Rsqr_abs. Qed.
Lemma cos_abs x : cos (Rabs x) = cos x.
Proof. unfold Rabs. destruct (Rcase_abs x); auto. apply cos_neg. Qed.

Section Values.
  Variables s0 s : truth.
  Variable n : nat.
  Hypothesis L0 : length (fst s0) = n.
  Hypothesis L1 : length (fst s) = n.
  Hypothesis L2 : length (snd s0) = n.
  Hypothesis L3 : length (snd s) = n.
  Let dt := zip sub3 (fst s) (fst s0).
  Let dr := map (fun t => mk3 t 0 0) (zip Rminus (snd s) (snd s0)).

  Lemma dt_len : length dt = n.
  Proof. unfold dt. rewrite zip_length; congruence. Qed.
  Lemma dr_len : length dr = n.
  Proof. unfold dr. rewrite map_length, zip_length; congruence. Qed.
  Lemma dt_nth i : (i < n)%nat -> nth i dt zero3 = sub3 (pos s i) (pos s0 i).
  Proof. intros H. unfold dt. apply (nth_zip sub3); congruence. Qed.
  Lemma dr_nth i : (i < n)%nat -> nth i dr zero3 = mk3 (angle s0 s i) 0 0.
  Proof.
    intros H. unfold dr. rewrite (nth_map _ _ 0) by (rewrite zip_length; congruence). f_equal.
    apply (nth_zip Rminus); congruence.
  Qed.
  Lemma avg_map (g : v3 -> R) f d : length d = n -> (forall i, (i < n)%nat -> g (nth i d zero3) = f i) -> rmean (map g d) = avg n f.
  Proof. intros L H. apply rmean_avg; [rewrite map_length; auto|]. intros i I. rewrite (nth_map _ _ zero3) by lia. auto. Qed.
  Lemma moved_norm i : (i < n)%nat -> norm2_3 (nth i dt zero3) = moved2 s0 s i.
  Proof. intros H. rewrite dt_nth by auto. unfold norm2_3, dot3, sub3, moved2. cbn [x3 y3 z3]. ring. Qed.
  Lemma turned_norm i : (i < n)%nat -> norm2_3 (nth i dr zero3) = angle s0 s i ^ 2.
  Proof. intros H. rewrite dr_nth by auto. unfold norm2_3, dot3. cbn [x3 y3 z3]. ring. Qed.

  Lemma v_md : rmean (displacement dt) = avg n (fun i => sqrt (moved2 s0 s i)).
  Proof. apply avg_map; [apply dt_len|]. intros i I. unfold norm3. rewrite moved_norm; auto. Qed.
  Lemma v_msd : rmean (displacement2 dt) = avg n (moved2 s0 s).
  Proof. apply avg_map; [apply dt_len|]. intros i I. apply moved_norm; auto. Qed.
  Lemma v_mfd : rmean (map sq (displacement2 dt)) = avg n (fun i => moved2 s0 s i ^ 2).
  Proof. unfold displacement2. rewrite map_map. apply avg_map; [apply dt_len|]. intros i I. rewrite moved_norm; auto. unfold sq. ring. Qed.
  Lemma v_mr : rmean (displacement dr) = avg n (fun i => Rabs (angle s0 s i)).
  Proof. apply avg_map; [apply dr_len|]. intros i I. rewrite dr_nth by auto. apply norm_spin. Qed.
  Lemma v_msr : rmean (displacement2 dr) = avg n (fun i => angle s0 s i ^ 2).
  Proof. apply avg_map; [apply dr_len|]. intros i I. apply turned_norm; auto. Qed.
  Lemma v_mfr : rmean (map sq (displacement2 dr)) = avg n (fun i => angle s0 s i ^ 4).
  Proof. unfold displacement2. rewrite map_map. apply avg_map; [apply dr_len|]. intros i I. rewrite turned_norm; auto. unfold sq. ring. Qed.
  Lemma v_rot1 : rot1 dr = avg n (fun i => cos (angle s0 s i)).
  Proof. unfold rot1, displacement. rewrite map_map. apply avg_map; [apply dr_len|]. intros i I. rewrite dr_nth, norm_spin by auto. apply cos_abs. Qed.
  Lemma v_rot2 : rot2 dr = avg n (fun i => cos (2 * angle s0 s i)).
  Proof.
    unfold rot2, displacement. rewrite map_map. apply avg_map; [apply dr_len|]. intros i I. rewrite dr_nth, norm_spin by auto.
    rewrite cos_abs, cos_2a_cos. unfold sq. ring.
  Qed.
  Lemma v_gamma : rmean (zip Rmult (displacement2 dt) (displacement2 dr)) = avg n (fun i => moved2 s0 s i * angle s0 s i ^ 2).
  Proof.
    unfold displacement2. assert (A := dt_len). assert (B := dr_len). apply rmean_avg; [rewrite zip_length; rewrite !map_length; congruence|].
    intros i I. rewrite (nth_zip Rmult _ _ 0 0) by (rewrite !map_length; congruence).
    rewrite !(nth_map _ _ zero3) by congruence. rewrite moved_norm, turned_norm; auto.
  Qed.
  Lemma v_com x : structural_relax (displacement dt) x = avg n (fun i => if Rlt_dec (sqrt (moved2 s0 s i)) x then 1 else 0).
  Proof.
    unfold structural_relax, displacement. rewrite map_map. apply avg_map; [apply dt_len|]. intros i I.
    unfold norm3. rewrite moved_norm by auto. unfold Rltb. destruct (Rlt_dec _ _); reflexivity.
  Qed.
  Lemma v_isf k res : (0 < n)%nat -> (0 < res)%nat -> isf k res dt = avg res (fun j => avg n (fun i =>
                    cos (k * (cos (2 * PI * INR j / INR res) * (x3 (pos s i) - x3 (pos s0 i)) +
                              sin (2 * PI * INR j / INR res) * (y3 (pos s i) - y3 (pos s0 i)))))).
  Proof.
    intros Hn Hr. unfold isf, rmean. assert (A := dt_len).
    rewrite (flat_map_len _ n) by (intros; rewrite map_length; auto). unfold wave_vectors at 2. rewrite map_length, seq_length.
    rewrite rsum_flat. unfold wave_vectors. rewrite map_map. unfold avg at 1. rewrite fold_rsum, Rplus_0_l.
    assert (In_ : 0 < INR n) by (apply lt_0_INR; auto). assert (Ir : 0 < INR res) by (apply lt_0_INR; auto).
    rewrite mult_INR.
    match goal with |- rsum (map ?g _) / _ = rsum (map ?h _) / _ =>
      assert (E : forall j, g j = h j * INR n) end.
    - intros j. cbn [fst snd]. unfold avg. rewrite fold_rsum, Rplus_0_l. field_simplify; [|lra].
      rewrite <- (map_nth_seq zero3 dt) at 1. rewrite A, map_map. f_equal. apply map_ext_in. intros i I. apply in_seq in I.
      rewrite dt_nth by lia. unfold sub3. cbn [x3 y3]. f_equal. replace (INR j * (2 * PI) / INR res) with (2 * PI * INR j / INR res) by (field; lra). ring.
    - rewrite (map_ext _ _ E), <- (map_map _ (fun x => x * INR n)), rsum_scale. field. split; lra.
  Qed.

  Lemma ratio_is num den num' den' r : num = num' -> den = den' -> ratio num den = inl r -> is_ratio num' den' (Some (VFl r)).
  Proof.
    intros -> -> H. unfold ratio in H. destruct (Req_EM_T den' 0) as [E|E].
    - destruct (Req_EM_T num' 0); [|discriminate]. injection H as <-. split; intros; [contradiction|reflexivity].
    - injection H as <-. split; intros; [reflexivity|contradiction].
  Qed.

  Lemma row_describes argsort d ts sc q k : (0 < n)%nat -> (0 < d_res d)%nat -> m_dt (d_motion d) = dt -> m_dr (d_motion d) = dr -> d_wave d = Some k ->
    quantities argsort d ts sc = inl q -> describes s0 s n k (d_res d) (ts - d_timestep d) sc q.
  Proof.
    intros Hn Hr Et Er W Q. destruct (quantities_row _ _ _ _ _ Q) as (al & dist & ar & g & ov & st & H1 & H2 & H3 & H4 & _ & _ & ->).
    rewrite Et, Er, W in *. unfold distance in H2. rewrite W in H2. destruct (Req_EM_T k 0) as [Ek|Ek]; [discriminate|]. injection H2 as <-.
    unfold describes, row. cbn [dget String.eqb Ascii.eqb Bool.eqb].
    unfold alpha in H1, H3. unfold gamma in H4.
    split; [reflexivity|]. split; [rewrite v_md; reflexivity|]. split; [unfold msd; rewrite v_msd; reflexivity|].
    split; [unfold mfd; rewrite v_mfd; reflexivity|]. split; [unfold mean_rotation; rewrite v_mr; reflexivity|].
    split; [unfold msr; rewrite v_msr; reflexivity|]. split; [rewrite v_rot1; reflexivity|]. split; [rewrite v_rot2; reflexivity|].
    split; [refine (ratio_is _ _ _ _ _ v_mfd _ H1); rewrite v_msd; unfold sq; ring|].
    split; [refine (ratio_is _ _ _ _ _ v_mfr _ H3); rewrite v_msr; unfold sq; ring|].
    split; [refine (ratio_is _ _ _ _ _ v_gamma _ H4); rewrite v_msd, v_msr; reflexivity|].
    split; [destruct sc; [rewrite v_isf by auto|]; reflexivity|]. rewrite v_com. reflexivity.
  Qed.
End Values.

Definition follows (b : fbox) (s0 s : truth) (n : nat) (m : motion) : Prop :=
  m_box m = b /\ m_dt m = zip sub3 (fst s) (fst s0) /\ images b (m_ppos m) (fst s) /\
  (exists q, m_pori m = Some q /\ Forall2 turned q (snd s)) /\
  m_dr m = map (fun t => mk3 t 0 0) (zip Rminus (snd s) (snd s0)) /\ length (fst s) = n /\ length (snd s) = n.

Lemma follows_add wrap gimbal b s0 s s' n m p q : wrap_ok wrap -> box_ok b -> length (fst s0) = n -> length (snd s0) = n ->
  follows b s0 s n m -> slow b s s' -> images b p (fst s') -> Forall2 turned q (snd s') ->
  exists m', motion_add wrap gimbal m p (Some q) = (m', None) /\ follows b s0 s' n m'.
Proof.
  intros W B L0 L2 (E1 & E2 & E3 & (q0 & E4 & E5) & E6 & L1 & L3) (S1 & S2) Im F.
  pose proof (Forall2_len _ _ _ E3) as H1. pose proof (Forall2_len _ _ _ S1) as H2. pose proof (Forall2_len _ _ _ S2) as H3.
  pose proof (Forall2_len _ _ _ Im) as H4. pose proof (Forall2_len _ _ _ F) as H5.
  assert (Ld : length (m_dt m) = n) by (rewrite E2, zip_length; congruence).
  destruct (adds_turns wrap gimbal n (snd s0) L2 [(p, Some q)] [snd s'] (snd s) q0 m) as (m' & A & D); auto; try congruence.
  - constructor; [|constructor]. split; [cbn; congruence|]. exists q. split; auto.
  - split; [auto|constructor].
  - cbn in A. destruct (motion_add wrap gimbal m p (Some q)) as [m1 [e|]] eqn:Ad; [discriminate|]. injection A as ->.
    exists m'. split; auto.
    assert (L4 : length (m_dt m) = length (m_ppos m)) by congruence. assert (L5 : length (m_ppos m) = length p) by congruence.
    destruct (add_ok wrap gimbal m p (Some q) m' L4 L5 Ad) as (B1 & _ & B2 & B3).
    split; [congruence|]. split; [|split; [|split; [|split; [|split]]]].
    + change (fst s') with (last [fst s'] (fst s)). apply (adds_small wrap gimbal b (fst s0) W B [(p, Some q)] [fst s'] (fst s) m m'); auto; try congruence.
      * split; [auto|exact I].
      * cbn. rewrite Ad. reflexivity.
    + congruence.
    + exists q. split; [congruence|auto].
    + cbn in D. exact D.
    + congruence.
    + congruence.
Qed.

Lemma zip_zero_sub : forall (p u : list v3), length p = length u -> zip sub3 u u = map (fun _ => zero3) p.
Proof. induction p as [|x p IH]; intros [|y u] L; cbn in L; try discriminate; auto. injection L as L. cbn [zip map]. rewrite sub3_diag, IH; auto. Qed.
Lemma zip_zero_ang : forall (p : list v3) (u : list R), length p = length u -> map (fun t => mk3 t 0 0) (zip Rminus u u) = map (fun _ => zero3) p.
Proof.
  induction p as [|x p IH]; intros [|y u] L; cbn in L; try discriminate; auto. injection L as L. cbn [zip map]. rewrite IH by auto.
  f_equal. unfold zero3. apply v3_eq; ring.
Qed.

(** * C109 *)
(** A trajectory of ten or more molecules in the plane or space, each turning about z, seen
    through frames with positions in any periodic image and quaternions of either sign, the
    first of them the reference frame.  If nothing moves by half a box or turns by pi between
    frames, then for each frame [compute_all] returns the documented averages over the true
    displacements and the true angles. *)
Theorem C109_true_averages (wrap : fbox -> v3 -> v3) (gimbal : quat -> v3) (argsort : list R -> list nat)
        ts b p0 q0 mol k res d (s0 : truth) (fs : list dframe) (states : list truth) :
  wrap_ok wrap -> argsort_ok argsort -> box_ok b -> k <> 0 -> (0 < res)%nat -> mol <> Some [] ->
  (10 <= length p0)%nat ->
  dyn_init ts b p0 (Some q0) mol (Some k) res = inl d ->
  images b p0 (fst s0) -> Forall2 turned q0 (snd s0) -> length q0 = length p0 ->
  Forall2 (shows b) fs states -> chain (slow b) s0 states ->
  Forall2 (fun fr s => exists q, snd fr = inl q /\
             let '(ts', _, _, scattering) := fst fr in describes s0 s (length p0) k res (ts' - ts) scattering q)
          (combine fs (run wrap gimbal argsort d fs)) states.
Proof.
  intros W A B K Rs M N I Im T Lq F C. set (n := length p0) in *.
  pose proof (Forall2_len _ _ _ Im) as L0. pose proof (Forall2_len _ _ _ T) as L2.
  assert (L0' : length (fst s0) = n) by (unfold n; congruence). assert (L2' : length (snd s0) = n) by (unfold n; congruence).
  assert (D : follows b s0 s0 n (d_motion d) /\ d_timestep d = ts /\ d_num d = n /\ d_wave d = Some k /\ d_res d = res /\ d_mol d = mol).
  { unfold dyn_init in I. destruct p0 as [|x p0]; [discriminate|]. unfold motion_init in I. destruct q0 as [|q q0]; [discriminate|].
    cbn [ebind] in I. injection I as <-. cbn [d_motion d_timestep d_num d_wave d_res d_mol]. split; [|auto 10].
    unfold follows. cbn [m_box m_dt m_dr m_ppos m_pori]. split; [auto|]. split; [|split; [auto|split; [|split; [|split; auto]]]].
    - assert (L : length (x :: p0) = length (fst s0)) by congruence. rewrite (zip_zero_sub _ _ L). reflexivity.
    - eexists. split; eauto.
    - assert (L : length (x :: p0) = length (snd s0)) by congruence. rewrite (zip_zero_ang _ _ L). reflexivity. }
  assert (G : forall s d, follows b s0 s n (d_motion d) -> d_timestep d = ts -> d_num d = n -> d_wave d = Some k -> d_res d = res -> d_mol d = mol ->
     chain (slow b) s states -> Forall2 (fun fr s => exists q, snd fr = inl q /\
             let '(ts', _, _, scattering) := fst fr in describes s0 s n k res (ts' - ts) scattering q)
          (combine fs (run wrap gimbal argsort d fs)) states); [|destruct D as (D1 & D2 & D3 & D4 & D5 & D6); apply (G s0); auto].
  clear I D C d. induction F as [|[[[ts' p] o] sc] s fs states Hs F IH]; intros s1 d Fo D1 D2 D3 D4 D5 C; cbn [run combine]; [constructor|].
  destruct C as [C1 C2]. destruct Hs as (I1 & q & -> & I2).
  destruct (follows_add wrap gimbal b s0 s1 s n (d_motion d) p q) as (m' & Ad & Fo'); auto.
  unfold compute_all, dyn_add. rewrite Ad. set (d' := mkdyn m' (d_timestep d) (d_num d) (d_mol d) (d_wave d) (d_res d)).
  cbn [combine]. constructor; [|apply (IH s d'); auto]. cbn [fst snd].
  destruct Fo' as (E1 & E2 & E3 & (q' & E4 & E5) & E6 & L1 & L3).
  destruct (C75_all_quantities_partial argsort d' ts' sc A) as (r & Q & _); cbn [d' d_num d_wave d_mol d_res d_motion].
  { unfold dyn_ok. cbn [d' d_num d_motion d_res]. rewrite E2, E6, map_length, !zip_length by congruence. repeat split; try congruence; lia. }
  { rewrite D2. auto. }
  { rewrite D3. congruence. }
  { rewrite D5. auto. }
  exists r. split; auto. rewrite <- D1, <- D4. apply (row_describes s0 s n) with (argsort := argsort) (d := d'); auto; try congruence; try lia.
  cbn. lia.
Qed.
Print Assumptions C109_true_averages.

(** Ten molecules at x = 4.5 of a box of 10 move to x = 5.5, stored as -4.5, and make a
    quarter turn, stored with the sign of the quaternion changed; msd is 1 and msr pi^2/4. *)
Lemma Forall2_repeat {A B} (P : A -> B -> Prop) x y n : P x y -> Forall2 P (repeat x n) (repeat y n).
Proof. intros H. induction n; cbn; constructor; auto. Qed.
Lemma avg_const n c : (0 < n)%nat -> avg n (fun _ => c) = c.
Proof.
  intros H. unfold avg. rewrite fold_rsum. assert (E : forall k m, rsum (map (fun _ : nat => c) (seq k m)) = INR m * c).
  { intros k m. revert k. unfold rsum. induction m as [|m IH]; intros k; cbn [seq map fold_right]; [cbn; ring|]. rewrite IH, S_INR. ring. }
  rewrite E. field. apply not_0_INR. lia.
Qed.
Lemma avg_ext n f g : (forall i, (i < n)%nat -> f i = g i) -> avg n f = avg n g.
Proof.
  intros H. unfold avg. rewrite !fold_rsum. do 2 f_equal. f_equal. apply map_ext_in. intros i I. apply in_seq in I. apply H. lia.
Qed.
Lemma nth_rep {A} (x d : A) n i : (i < n)%nat -> nth i (repeat x n) d = x.
Proof. revert i. induction n; intros [|i] H; cbn; auto; try lia. apply IHn. lia. Qed.
Definition c109_s0 : truth := (repeat (mk3 (9 / 2) 0 0) 10, repeat 0 10).
Definition c109_s1 : truth := (repeat (mk3 (11 / 2) 0 0) 10, repeat (PI / 2) 10).
Definition c109_frame : dframe := (8%Z, repeat (mk3 (- (9 / 2)) 0 0) 10, Some (repeat (qneg (zquat (PI / 2))) 10), true).
Lemma c109_shows : shows square10 c109_frame c109_s1.
Proof.
  unfold shows, c109_frame, c109_s1. cbn [fst snd]. split.
  - apply Forall2_repeat. exists (-1)%Z, 0%Z, 0%Z. split; auto. unfold lattice, sub3. cbn [x3 y3 z3 bx by_ bz bxy bxz byz square10]. apply v3_eq; field.
  - eexists. split; [reflexivity|]. apply Forall2_repeat. right. reflexivity.
Qed.
Lemma c109_slow : slow square10 c109_s0 c109_s1.
Proof.
  unfold slow, c109_s0, c109_s1. cbn [fst snd]. split.
  - apply Forall2_repeat. unfold sub3. cbn [x3 y3 z3]. unfold below_half, coord_a, coord_b. cbn [x3 y3 z3 bx by_ bz bxy bxz byz square10 b2d].
    split; [apply Rabs_def1; lra|]. split; [apply Rabs_def1; lra|]. split; [intros; lra|discriminate].
  - apply Forall2_repeat. rewrite Rminus_0_r. pose proof PI_RGT_0. rewrite Rabs_pos_eq; lra.
Qed.
Example C109_example d :
  dyn_init 5 square10 (repeat (mk3 (9 / 2) 0 0) 10) (Some (repeat (zquat 0) 10)) (Some [mk3 0 1 0]) (Some 2) 360 = inl d ->
  exists q, run freud_wrap (fun _ => zero3) sort_index d [c109_frame] = [inl q] /\
  dget String.eqb "time"%string q = Some (VInt 3) /\
  dget String.eqb "msd"%string q = Some (VFl (FR 1)) /\ dget String.eqb "msr"%string q = Some (VFl (FR ((PI / 2) ^ 2))).
Proof.
  intros J.
  assert (T : exists q, run freud_wrap (fun _ => zero3) sort_index d [c109_frame] = [inl q] /\ describes c109_s0 c109_s1 10 2 360 3 true q).
  { assert (T := C109_true_averages freud_wrap (fun _ => zero3) sort_index 5 square10 (repeat (mk3 (9 / 2) 0 0) 10) (repeat (zquat 0) 10) (Some [mk3 0 1 0]) 2 360 d c109_s0
                  [c109_frame] [c109_s1] freud_wrap_ok sort_index_ok square10_ok).
    specialize (T ltac:(lra) ltac:(lia) ltac:(discriminate) ltac:(cbn; lia) J).
    assert (H1 : images square10 (repeat (mk3 (9 / 2) 0 0) 10) (fst c109_s0)).
    { apply Forall2_repeat. exists 0%Z, 0%Z, 0%Z. split; auto. unfold lattice, sub3. cbn [x3 y3 z3 bx by_ bz bxy bxz byz square10]. apply v3_eq; ring. }
    assert (H2 : Forall2 turned (repeat (zquat 0) 10) (snd c109_s0)) by (apply Forall2_repeat; left; reflexivity).
    specialize (T H1 H2 eq_refl (Forall2_cons _ _ c109_shows (Forall2_nil _)) (conj c109_slow I)).
    unfold run, c109_frame in T |- *.
    match type of T with context [compute_all ?a ?b ?c ?d ?e ?f ?g ?h] => destruct (compute_all a b c d e f g h) as [d' r] end.
    cbn [combine] in T. inversion T as [|? ? ? ? (q & E & D) _]; subst. cbn [fst snd] in *. subst r. exists q. split; auto. }
  destruct T as (q & E & D). exists q. split; auto. destruct D as (D1 & _ & D2 & _ & _ & D3 & _). split; [exact D1|]. rewrite D2, D3.
  split; do 3 f_equal.
  - rewrite <- (avg_const 10 1) by lia. apply avg_ext. intros i H. unfold moved2, pos, c109_s0, c109_s1. cbn [fst]. rewrite !nth_rep by auto. cbn [x3 y3 z3]. field.
  - rewrite <- (avg_const 10 ((PI / 2) ^ 2)) by lia. apply avg_ext. intros i H. unfold angle, ang, c109_s0, c109_s1. cbn [snd]. rewrite !nth_rep by auto. rewrite Rminus_0_r. reflexivity.
Qed.
Example C109_example_exists : exists d,
  dyn_init 5 square10 (repeat (mk3 (9 / 2) 0 0) 10) (Some (repeat (zquat 0) 10)) (Some [mk3 0 1 0]) (Some 2) 360 = inl d.
Proof. eexists. reflexivity. Qed.
