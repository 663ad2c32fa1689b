(** Dynamics: properties C71-C73, C75-C77, C108. *)
From Coq Require Import String Reals ZArith List Bool Permutation Lra Lia.
From Verif Require Import Base RVec RVecFacts RelaxFitModel MotionModel MotionSpec MotionProofs MotionProps DynModel DynSpec DynProofs DynStruct.
Import ListNotations.
Open Scope R_scope.
Notation length := List.length.

(** A sorting function meeting the contract: insertion sort of the indices *)
Section Argsort.
  Variable key : nat -> R.
  Fixpoint ins (i : nat) (l : list nat) : list nat :=
    match l with
    | [] => [i]
    | j :: l' => if Rle_dec (key i) (key j) then i :: l else j :: ins i l'
    end.
  Lemma ins_perm i l : Permutation (ins i l) (i :: l).
  Proof. induction l as [|j l IH]; cbn; auto. destruct (Rle_dec _ _); auto. rewrite IH. apply perm_swap. Qed.
  Definition sorted (l : list nat) : Prop := forall i j, (i < j < length l)%nat -> key (nth i l 0%nat) <= key (nth j l 0%nat).
  Lemma sorted_cons i l : (forall j, In j l -> key i <= key j) -> sorted l -> sorted (i :: l).
  Proof.
    intros H S' a b [L1 L2]. cbn in L2. destruct b as [|b]; [lia|]. destruct a as [|a]; cbn [nth].
    - apply H. apply nth_In. lia.
    - apply S'. lia.
  Qed.
  Lemma sorted_tail i l : sorted (i :: l) -> sorted l /\ forall j, In j l -> key i <= key j.
  Proof.
    intros H. split.
    - intros a b L. apply (H (S a) (S b)). cbn. lia.
    - intros j I. apply In_nth with (d := 0%nat) in I. destruct I as (a & L & E). specialize (H 0%nat (S a)). cbn [nth] in H.
      rewrite E in H. apply H. cbn. lia.
  Qed.
  Lemma ins_sorted i l : sorted l -> sorted (ins i l).
  Proof.
    induction l as [|j l IH]; intros H; cbn.
    - intros a b L. cbn in L. lia.
    - destruct (sorted_tail j l H) as [H1 H2]. destruct (Rle_dec (key i) (key j)) as [L|L].
      + apply sorted_cons; auto. intros x [<- | I]; auto. specialize (H2 x I). lra.
      + apply sorted_cons; auto. intros x I. apply (Permutation_in _ (ins_perm i l)) in I. destruct I as [<- | I]; auto. lra.
  Qed.
End Argsort.
Definition sort_index (l : list R) : list nat := fold_right (ins (fun i => nth i l 0)) [] (seq 0 (length l)).
Lemma sort_index_ok : argsort_ok sort_index.
Proof.
  intros l. unfold sort_index. set (key := fun i => nth i l 0).
  assert (G : forall s, Permutation (fold_right (ins key) [] s) s /\ sorted key (fold_right (ins key) [] s)).
  { induction s as [|i s [P S']]; cbn; split.
    - auto.
    - intros a b L. cbn in L. lia.
    - rewrite ins_perm, P. auto.
    - apply ins_sorted. auto. }
  destruct (G (seq 0 (length l))) as [P S']. split; auto. intros i j L. apply S'.
  rewrite (Permutation_length P), seq_length. auto.
Qed.

Open Scope string_scope.

(** * C71 *)
Lemma add_same wrap gimbal b p o m0 : wrap_ok wrap -> box_ok b -> motion_init b p o = inl m0 -> good_ori (length p) o ->
  motion_add wrap gimbal m0 p o = (m0, None).
Proof.
  intros W B I G. destruct (init_ok _ _ _ _ I) as (E1 & E2 & E3 & E4 & E5). unfold motion_add.
  rewrite E4, (bzip_eq sub3) by auto. cbn [ebind]. rewrite E1, E2.
  rewrite inplace_eq by (rewrite !map_length, zip_length; auto).
  assert (W0 : wrap b zero3 = zero3).
  { apply wrap_small; auto.
    - rewrite sub3_diag. apply is_lattice_zero.
    - destruct B as (B1 & B2 & B3). unfold below_half, coord_a, coord_b, coord_c, zero3. cbn.
      repeat split; auto; try (intros D; specialize (B3 D)); match goal with |- Rabs ?e < _ => replace e with 0 by (field; lra) end; rewrite Rabs_R0; lra. }
  assert (Z : zip sub3 (map (fun _ => zero3) p) (map (wrap b) (zip sub3 p p)) = map (fun _ => zero3) p).
  { clear - W0. induction p as [|x p IH]; cbn; auto. rewrite sub3_diag, W0, sub3_diag. f_equal. auto. }
  rewrite Z, E3, E5. destruct m0 as [mb mdt mdr mp mo]. cbn in E1, E2, E3, E4, E5. subst.
  destruct o as [q|]; [|reflexivity]. destruct G as [Lq U]. rewrite bzip_eq by auto. cbn [ebind].
  rewrite to_euler_all_ok by (apply zip_unit; auto). cbn [ebind]. rewrite inplace_eq by (rewrite !map_length, zip_length; auto).
  do 2 f_equal. rewrite zip_self, map_map. f_equal.
  assert (T0 : forall x, unit x -> to_euler gimbal (qdivide x x) = zero3).
  { intros x Ux. rewrite qdivide_self by auto. destruct quat0 as (E & _). apply (to_euler_z gimbal qone 0); [pose proof PI_RGT_0; lra|left; congruence]. }
  clear - Lq U T0. revert q Lq U. induction p as [|x p IH]; intros [|y q] Lq U; cbn in *; try discriminate; auto.
  inversion U; subst. rewrite T0, add3_zero_l by auto. f_equal. apply IH; auto.
Qed.

Definition unless_nan (c : bool) (x : R) : fl := if c then FR x else FNaN.
(** The whole result on the reference frame.  struct is 1 with a molecule and orientations. *)
Theorem C71_reference_frame (wrap : fbox -> v3 -> v3) (gimbal : quat -> v3) (argsort : list R -> list nat)
        ts b p o mol k res d :
  wrap_ok wrap -> argsort_ok argsort -> box_ok b -> 0 < k -> (0 < res)%nat -> (10 <= length p)%nat ->
  good_ori (length p) o -> mol <> Some [] ->
  dyn_init ts b p o mol (Some k) res = inl d ->
  compute_all wrap gimbal argsort d ts p o true =
  (d, inl [("time", VInt 0); ("mean_displacement", VFl (FR 0)); ("msd", VFl (FR 0)); ("mfd", VFl (FR 0)); ("alpha", VFl FNaN);
           ("scattering_function", VFl (FR 1)); ("com_struct", VFl (FR 1)); ("mean_rotation", VFl (FR 0)); ("msr", VFl (FR 0));
           ("rot1", VFl (FR 1)); ("rot2", VFl (FR 1)); ("alpha_rot", VFl FNaN); ("gamma", VFl FNaN); ("overlap", VFl (FR 1));
           ("struct", VFl (match mol, o with Some _, Some _ => FR 1 | _, _ => FNaN end))]).
Proof.
  intros W A B K Rs N G Mo I. assert (DK := dyn_init_ok _ _ _ _ _ _ _ _ Rs I).
  unfold dyn_init in I. destruct p as [|x p']; [discriminate|]. set (p := x :: p') in *.
  destruct (motion_init b p o) as [m0|] eqn:M; [|discriminate]. cbn [ebind] in I. injection I as <-.
  destruct (init_ok _ _ _ _ M) as (E1 & E2 & E3 & E4 & E5).
  unfold compute_all, dyn_add. cbn [d_motion d_timestep d_num d_mol d_wave d_res]. rewrite (add_same wrap gimbal b p o m0 W B M G).
  f_equal. set (d := mkdyn m0 ts (length p) mol (Some k) res).
  set (z := map (fun _ => zero3) p) in *.
  assert (Nz : z <> []) by discriminate.
  assert (Fz : Forall (fun v => v = zero3) z) by (apply Forall_map, Forall_forall; auto).
  assert (Z1 : Forall (fun r => r = 0) (displacement z)).
  { apply Forall_map. eapply Forall_impl; [|exact Fz]. intros v ->. apply norm3_zero. }
  assert (Z2 : Forall (fun r => r = 0) (displacement2 z)).
  { apply Forall_map. eapply Forall_impl; [|exact Fz]. intros v ->. apply norm2_zero_iff. auto. }
  assert (Q1 : msd z = 0) by (apply rmean_zero; auto; apply map_nonnil; auto).
  assert (Q3 : mfd z = 0).
  { apply rmean_zero; [do 2 apply map_nonnil; auto|]. apply Forall_map. eapply Forall_impl; [|exact Z2]. intros v ->. unfold sq. ring. }
  assert (Q4 : rmean (displacement z) = 0) by (apply rmean_zero; auto; apply map_nonnil; auto).
  assert (Qa : forall c, 0 < c -> alpha c z = inl FNaN).
  { intros c Pc. destruct (alpha_total c z Pc Nz) as [[_ E]|[E _]]; auto. lra. }
  assert (Qg : gamma z z = inl FNaN).
  { destruct (gamma_total z z Nz eq_refl) as [[_ E]|[E _]]; auto. rewrite Q1 in E. lra. }
  assert (Qi : isf k res z = 1).
  { unfold isf. apply rmean_const.
    - apply flat_map_nonnil; [|intros; apply map_nonnil; auto]. unfold wave_vectors. apply map_nonnil. destruct res; [lia|discriminate].
    - apply Forall_forall. intros y I. apply in_flat_map in I. destruct I as (w & _ & I). apply in_map_iff in I. destruct I as (v & <- & I).
      rewrite Forall_forall in Fz. rewrite (Fz v I). cbn. replace (fst w * 0 + snd w * 0) with 0 by ring. apply cos_0. }
  assert (Qr1 : rot1 z = 1).
  { apply rmean_const; [do 2 apply map_nonnil; auto|]. apply Forall_map. eapply Forall_impl; [|exact Z1]. intros v ->. apply cos_0. }
  assert (Qr2 : rot2 z = 1).
  { apply rmean_const; [do 2 apply map_nonnil; auto|]. apply Forall_map. eapply Forall_impl; [|exact Z1]. intros v ->. rewrite cos_0. unfold sq. ring. }
  assert (Di : distance d = inl (Some (PI / (2 * k)))).
  { unfold distance. cbn. destruct (Req_EM_T k 0); [lra|auto]. }
  assert (Px : 0 < PI / (2 * k)).
  { apply Rmult_lt_0_compat; [apply PI_RGT_0|]. apply Rinv_0_lt_compat. lra. }
  assert (Qs : structural_relax (displacement z) (PI / (2 * k)) = 1).
  { apply rmean_const; [do 2 apply map_nonnil; auto|]. apply Forall_map. eapply Forall_impl; [|exact Z1]. intros v ->. rewrite Rltb_true by auto. auto. }
  assert (Qo : mobile_overlap argsort (displacement z) (displacement z) = inl 1).
  { apply overlap_self; auto; [|apply disp_nonneg]. unfold displacement, z. rewrite !map_length. auto. }
  assert (Qst : forall ml, mol = Some ml -> compute_struct_relax d = inl 1).
  { intros ml E. unfold compute_struct_relax. rewrite Di. cbn [ebind d_mol d]. rewrite E. unfold d. cbn [d_motion d_num]. rewrite E2, E3. fold z.
    replace (length p) with (length z) by (unfold z; apply map_length).
    rewrite C78_no_turn_partial; auto; [|intros ->; congruence]. f_equal.
    rewrite <- map_fraction, <- structural_fraction. exact Qs. }
  assert (F1 : d_motion d = m0) by reflexivity. assert (F2 : d_wave d = Some k) by reflexivity.
  assert (F3 : d_mol d = mol) by reflexivity. assert (F4 : d_res d = res) by reflexivity.
  match goal with |- quantities argsort ?D ts true = _ => change D with d end.
  unfold quantities. rewrite F1, F2, F3, F4, E2, E3. fold z. rewrite (Qa 2), (Qa 3), Qg, Qo by lra. cbn [ebind]. rewrite Di. cbn [ebind].
  unfold mean_rotation. change (msr z) with (msd z). rewrite E5, Q1, Q3, Q4, Qi, Qr1, Qr2, Qs.
  replace (ts - d_timestep d)%Z with 0%Z by (cbn; lia).
  destruct mol as [ml|]; [destruct o as [q|]|]; [rewrite (Qst ml eq_refl)| |]; reflexivity.
Qed.
Print Assumptions C71_reference_frame.
Lemma ten_particles : exists d, dyn_init 5 square10 (repeat (mk3 1 2 0) 10) (Some (repeat qone 10)) (Some [mk3 0 1 0]) (Some 2) 360 = inl d
  /\ good_ori 10 (Some (repeat qone 10)).
Proof. eexists. split; [reflexivity|]. split; [reflexivity|apply repeat_unit]. Qed.
Example C71_example : exists d, dget String.eqb "struct"
   (match snd (compute_all freud_wrap (fun _ => zero3) sort_index d 5 (repeat (mk3 1 2 0) 10) (Some (repeat qone 10)) true) with inl q => q | inr _ => [] end)
   = Some (VFl (FR 1)).
Proof.
  destruct ten_particles as (d & I & G). exists d.
  rewrite (C71_reference_frame freud_wrap (fun _ => zero3) sort_index 5 square10 (repeat (mk3 1 2 0) 10) (Some (repeat qone 10)) (Some [mk3 0 1 0]) 2 360 d);
    [reflexivity|apply freud_wrap_ok|apply sort_index_ok|apply square10_ok|lra|lia|cbn; lia|exact G|discriminate|exact I].
Qed.

(** * C72 *)
(** Of every result of [compute_all], from any state reached by any frames *)
Definition within (a b : R) (q : dict string dval) (key : string) : Prop :=
  forall x, dget String.eqb key q = Some (VFl (FR x)) -> a <= x <= b.
Theorem C72_bounded (argsort : list R -> list nat) d ts sc q :
  argsort_ok argsort -> dyn_ok d -> quantities argsort d ts sc = inl q ->
  within (-1) 1 q "scattering_function" /\ within (-1) 1 q "rot1" /\ within (-1) 1 q "rot2" /\
  within 0 1 q "com_struct" /\ within 0 1 q "struct" /\ within 0 1 q "overlap".
Proof.
  intros A (P & L1 & L2 & Rs) H. destruct (quantities_row _ _ _ _ _ H) as (al & dist & ar & g & ov & st & H1 & H2 & H3 & H4 & H5 & H6 & ->).
  set (dt := m_dt (d_motion d)) in *. set (dr := m_dr (d_motion d)) in *.
  assert (Nt : dt <> []) by (apply len_nonnil; lia). assert (Nr : dr <> []) by (apply len_nonnil; lia).
  unfold within. cbn. repeat split; intros.
  - destruct sc, (d_wave d); try discriminate. injection H0 as <-. apply isf_bounds; auto.
  - destruct sc, (d_wave d); try discriminate. injection H0 as <-. apply isf_bounds; auto.
  - injection H0 as <-. apply rot1_bounds; auto.
  - injection H0 as <-. apply rot1_bounds; auto.
  - injection H0 as <-. apply rot2_bounds; auto.
  - injection H0 as <-. apply rot2_bounds; auto.
  - destruct dist; try discriminate. injection H0 as <-. apply structural_bounds, map_nonnil; auto.
  - destruct dist; try discriminate. injection H0 as <-. apply structural_bounds, map_nonnil; auto.
  - assert (exists s, compute_struct_relax d = inl s /\ x = s) as (s & E & ->).
    { destruct dist, (d_mol d), (m_pori (d_motion d)); subst; try discriminate. destruct H6 as (s & E & ->). injection H0 as <-. eauto. }
    unfold compute_struct_relax in E. rewrite H2 in E. cbn [ebind] in E. destruct dist as [r|]; [|discriminate].
    destruct (d_mol d) as [ml|]; [|discriminate].
    destruct ml as [|v ml].
    + unfold struct_relax, struct_positions, molecule2particles in E.
      destruct (negb _) in E; cbn in E; discriminate.
    + rewrite <- L1 in E. fold dt dr in E. destruct (struct_ok dt dr (v :: ml) r) as (dd & Ld & E'); try congruence.
      rewrite E' in E. injection E as <-. apply structural_bounds, map_nonnil, len_nonnil. rewrite Ld. cbn. lia.
  - assert (exists s, compute_struct_relax d = inl s /\ x = s) as (s & E & ->).
    { destruct dist, (d_mol d), (m_pori (d_motion d)); subst; try discriminate. destruct H6 as (s & E & ->). injection H0 as <-. eauto. }
    unfold compute_struct_relax in E. rewrite H2 in E. cbn [ebind] in E. destruct dist as [r|]; [|discriminate].
    destruct (d_mol d) as [ml|]; [|discriminate].
    destruct ml as [|v ml].
    + unfold struct_relax, struct_positions, molecule2particles in E.
      destruct (negb _) in E; cbn in E; discriminate.
    + rewrite <- L1 in E. fold dt dr in E. destruct (struct_ok dt dr (v :: ml) r) as (dd & Ld & E'); try congruence.
      rewrite E' in E. injection E as <-. apply structural_bounds, map_nonnil, len_nonnil. rewrite Ld. cbn. lia.
  - injection H0 as <-. apply (overlap_bounds argsort) in H5; tauto.
  - injection H0 as <-. apply (overlap_bounds argsort) in H5; tauto.
Qed.
Print Assumptions C72_bounded.
(** Every state reached from [__init__] is covered. *)
Theorem C72_states wrap gimbal : forall frames ts b p o mol wave res d,
  (0 < res)%nat -> dyn_init ts b p o mol wave res = inl d ->
  dyn_ok (fold_left (fun d (f : frame) => fst (dyn_add wrap gimbal d (fst f) (snd f))) frames d).
Proof.
  intros frames ts b p o mol wave res d Rs I. apply dyn_init_ok in I; auto. revert d I.
  induction frames as [|[p' o'] l IH]; intros d I; cbn; auto. apply IH.
  destruct (dyn_add wrap gimbal d p' o') as [d' e] eqn:E. apply (dyn_add_ok _ _ _ _ _ _ _ E I).
Qed.
Print Assumptions C72_states.
Definition moved : list v3 := map (fun i => mk3 (INR i) 0 0) (seq 0 10).
Definition spun : list v3 := map (fun i => mk3 (INR i) 0 0) (seq 0 10).
Definition dyn_example : dynamics := mkdyn (mkmotion square10 moved spun moved None) 0 10 None (Some 1) 360.
Example C72_example : exists q, quantities sort_index dyn_example 7 true = inl q /\ dyn_ok dyn_example.
Proof.
  assert (L : length moved = 10%nat) by reflexivity.
  unfold quantities, distance. cbn [dyn_example d_motion d_wave m_dt m_dr]. destruct (Req_EM_T 1 0) as [E|_]; [lra|].
  destruct (alpha_total 2 moved) as [[_ ->]|[_ ->]]; [lra|discriminate| |];
  (destruct (alpha_total 3 spun) as [[_ ->]|[_ ->]]; [lra|discriminate| |]);
  (destruct (gamma_total moved spun) as [[_ ->]|[_ ->]]; [discriminate|reflexivity| |]); cbn [ebind];
  (destruct (overlap_spec sort_index (displacement moved) (displacement spun)) as (x & T & U & -> & _);
    [apply sort_index_ok|reflexivity|cbn; lia|]); eexists; (split; [reflexivity|]); unfold dyn_ok; cbn; repeat split; lia.
Qed.

(** * C73 *)
Theorem C73_inequalities (argsort : list R -> list nat) d ts sc q :
  dyn_ok d -> quantities argsort d ts sc = inl q ->
  exists msd mfd md msr mr,
    dget String.eqb "msd" q = Some (VFl (FR msd)) /\ dget String.eqb "mfd" q = Some (VFl (FR mfd)) /\
    dget String.eqb "mean_displacement" q = Some (VFl (FR md)) /\ dget String.eqb "msr" q = Some (VFl (FR msr)) /\
    dget String.eqb "mean_rotation" q = Some (VFl (FR mr)) /\
    0 <= msd /\ 0 <= mfd /\ 0 <= msr /\ 0 <= md /\ 0 <= mr /\
    msd * msd <= mfd /\ md * md <= msd /\ mr * mr <= msr /\
    (forall x, dget String.eqb "alpha" q = Some (VFl (FR x)) -> - 1 / 2 <= x) /\
    (forall x, dget String.eqb "alpha_rot" q = Some (VFl (FR x)) -> - 2 / 3 <= x) /\
    (forall x, dget String.eqb "gamma" q = Some (VFl (FR x)) -> - 1 <= x) /\
    (dget String.eqb "alpha" q = Some (VFl FNaN) <-> msd = 0) /\
    (dget String.eqb "alpha_rot" q = Some (VFl FNaN) <-> msr = 0) /\
    (dget String.eqb "gamma" q = Some (VFl FNaN) <-> msd = 0 \/ msr = 0).
Proof.
  intros (P & L1 & L2 & Rs) H. destruct (quantities_row _ _ _ _ _ H) as (al & dist & ar & g & ov & st & H1 & H2 & H3 & H4 & H5 & H6 & ->).
  set (dt := m_dt (d_motion d)) in *. set (dr := m_dr (d_motion d)) in *.
  assert (Nt : dt <> []) by (apply len_nonnil; lia). assert (Nr : dr <> []) by (apply len_nonnil; lia).
  exists (msd dt), (mfd dt), (rmean (displacement dt)), (msr dr), (mean_rotation dr).
  assert (A1 : 0 <= msd dt) by (apply rmean_nonneg; [apply map_nonnil; auto|apply disp2_nonneg]).
  assert (A2 : 0 <= mfd dt) by (apply rmean_nonneg; [do 2 apply map_nonnil; auto|apply all_sq_nonneg]).
  assert (A3 : 0 <= msr dr) by (apply rmean_nonneg; [apply map_nonnil; auto|apply disp2_nonneg]).
  assert (A4 : 0 <= rmean (displacement dt)) by (apply rmean_nonneg; [apply map_nonnil; auto|apply disp_nonneg]).
  assert (A5 : 0 <= mean_rotation dr) by (apply rmean_nonneg; [apply map_nonnil; auto|apply disp_nonneg]).
  assert (B1 : msd dt * msd dt <= mfd dt) by (apply (rmean_sq (displacement2 dt)); apply map_nonnil; auto).
  assert (B1' : msr dr * msr dr <= mfd dr) by (apply (rmean_sq (displacement2 dr)); apply map_nonnil; auto).
  assert (B2 : rmean (displacement dt) * rmean (displacement dt) <= msd dt).
  { unfold msd. rewrite <- disp_sq. apply (rmean_sq (displacement dt)). apply map_nonnil; auto. }
  assert (B3 : mean_rotation dr * mean_rotation dr <= msr dr).
  { unfold msr. rewrite <- disp_sq. apply (rmean_sq (displacement dr)). apply map_nonnil; auto. }
  assert (Ra : forall k m f, 0 < k -> 0 < m -> m * m <= f -> / k <= f / (k * sq m)).
  { intros k m f K M F. assert (0 < k * sq m) by (unfold sq; apply Rmult_lt_0_compat; nra).
    apply Rmult_le_reg_r with (k * sq m); auto. unfold Rdiv at 1. rewrite Rmult_assoc, Rinv_l by lra. unfold sq in *. field_simplify; lra. }
  cbn. do 5 (split; [reflexivity|]). do 8 (split; [assumption|]).
  assert (RT2 := alpha_total 2 dt ltac:(lra) Nt). assert (RT3 := alpha_total 3 dr ltac:(lra) Nr).
  change (msr dr) with (msd dr) in *. assert (RG := gamma_total dt dr Nt ltac:(congruence)). change (msr dr) with (msd dr) in *.
  split; [|split; [|split; [|split; [|split]]]].
  - intros x E. injection E as ->. destruct RT2 as [[_ E]|[M E]]; rewrite E in H1; [discriminate|]. injection H1 as <-.
    specialize (Ra 2 (msd dt) (mfd dt)). lra.
  - intros x E. injection E as ->. destruct RT3 as [[_ E]|[M E]]; rewrite E in H3; [discriminate|]. injection H3 as <-.
    specialize (Ra 3 (msd dr) (mfd dr)). lra.
  - intros x E. injection E as ->. destruct RG as [[_ E]|[M E]]; rewrite E in H4; [discriminate|]. injection H4 as <-.
    assert (0 <= rmean (zip Rmult (displacement2 dt) (displacement2 dr))).
    { apply rmean_nonneg; [|apply zip_nonneg; apply disp2_nonneg]. apply zip_nonnil; [apply map_nonnil; auto|unfold displacement2; rewrite !map_length; congruence]. }
    assert (0 <= rmean (zip Rmult (displacement2 dt) (displacement2 dr)) / (msd dt * msd dr)); [|lra].
    apply Rmult_le_pos; auto. left. apply Rinv_0_lt_compat. auto.
  - destruct RT2 as [[M E]|[M E]]; rewrite E in H1; injection H1 as <-; split; auto; [discriminate|lra].
  - destruct RT3 as [[M E]|[M E]]; rewrite E in H3; injection H3 as <-; split; auto; [discriminate|lra].
  - destruct RG as [[M E]|[M E]]; rewrite E in H4; injection H4 as <-; split; auto.
    + intros _. apply Rmult_integral. auto.
    + discriminate.
    + intros [X|X]; rewrite X in M; lra.
Qed.
Print Assumptions C73_inequalities.
Example C73_example : exists q, quantities sort_index dyn_example 7 true = inl q /\ dyn_ok dyn_example.
Proof. exact C72_example. Qed.

(** * C75 *)
(** Ten or more particles, a wave number other than 0, a molecule with particles: all
    quantities are reported, in the documented order, NaN exactly where said. *)
Theorem C75_all_quantities_partial (argsort : list R -> list nat) d ts sc :
  argsort_ok argsort -> dyn_ok d -> (10 <= d_num d)%nat -> d_wave d <> Some 0 -> d_mol d <> Some [] ->
  exists q, quantities argsort d ts sc = inl q /\ dkeys q = all_quantities /\
    (dget String.eqb "scattering_function" q = Some (VFl FNaN) <-> sc = false \/ d_wave d = None) /\
    (dget String.eqb "com_struct" q = Some (VFl FNaN) <-> d_wave d = None) /\
    (dget String.eqb "struct" q = Some (VFl FNaN) <-> d_wave d = None \/ d_mol d = None \/ m_pori (d_motion d) = None).
Proof.
  intros A (P & L1 & L2 & Rs) N W M.
  set (dt := m_dt (d_motion d)) in *. set (dr := m_dr (d_motion d)) in *.
  assert (Nt : dt <> []) by (apply len_nonnil; lia). assert (Nr : dr <> []) by (apply len_nonnil; lia).
  assert (Q : exists q, quantities argsort d ts sc = inl q).
  { unfold quantities. fold dt dr.
    destruct (overlap_spec argsort (displacement dt) (displacement dr)) as (ov & _ & _ & Eov & _); auto.
    { unfold displacement. rewrite !map_length. congruence. }
    { unfold displacement. rewrite map_length. lia. }
    rewrite Eov.
    assert (exists a, alpha 2 dt = inl a) as [a ->] by (destruct (alpha_total 2 dt) as [[_ E]|[_ E]]; auto; try lra; eauto).
    assert (exists a, alpha 3 dr = inl a) as [ar ->] by (destruct (alpha_total 3 dr) as [[_ E]|[_ E]]; auto; try lra; eauto).
    assert (exists a, gamma dt dr = inl a) as [g ->] by (destruct (gamma_total dt dr) as [[_ E]|[_ E]]; auto; try congruence; eauto).
    cbn [ebind]. unfold compute_struct_relax.
    assert (exists x, distance d = inl x) as [x Ex].
    { unfold distance. destruct (d_wave d) as [k|]; [|eauto]. destruct (Req_EM_T k 0); [subst; congruence|eauto]. }
    rewrite Ex. cbn [ebind]. destruct x as [x|]; [|eauto]. destruct (d_mol d) as [ml|]; [|eauto]. destruct (m_pori (d_motion d)); [|eauto].
    fold dt dr. rewrite <- L1. destruct (struct_ok dt dr ml x) as (dd & _ & E); try congruence. rewrite E. cbn. eauto. }
  destruct Q as [q Q]. exists q. split; auto.
  destruct (quantities_row _ _ _ _ _ Q) as (al & dist & ar & g & ov & st & H1 & H2 & H3 & H4 & H5 & H6 & ->).
  split; [reflexivity|]. cbn.
  assert (DW : dist = None <-> d_wave d = None).
  { unfold distance in H2. destruct (d_wave d) as [k|]; [|split; congruence]. destruct (Req_EM_T k 0); [discriminate|]. injection H2 as <-. split; congruence. }
  split; [|split].
  - destruct sc, (d_wave d); split; intros X; auto; try discriminate. destruct X; discriminate.
  - rewrite <- DW. destruct dist; split; intros X; auto; discriminate.
  - rewrite <- DW. destruct dist; [|subst; tauto]. destruct (d_mol d); [|subst; tauto]. destruct (m_pori (d_motion d)); [|subst; tauto].
    destruct H6 as (s & _ & ->). split; [discriminate|]. intros [X|[X|X]]; discriminate.
Qed.
Print Assumptions C75_all_quantities_partial.
Example C75_example : dyn_ok dyn_example /\ (10 <= d_num dyn_example)%nat /\ d_wave dyn_example <> Some 0 /\ d_mol dyn_example <> Some [].
Proof. split; [unfold dyn_ok; cbn; repeat split; lia|]. split; [cbn; lia|]. split; [cbn; intros E; injection E; lra|discriminate]. Qed.
(** With fewer than ten particles [compute_all] raises instead of returning, for every
    frame; nothing catches this in process_file. *)
Theorem C75_all_quantities_refuted (wrap : fbox -> v3 -> v3) (gimbal : quat -> v3) (argsort : list R -> list nat) d ts p o sc q :
  dyn_ok d -> (d_num d < 10)%nat -> snd (compute_all wrap gimbal argsort d ts p o sc) <> inl q.
Proof.
  intros D N. unfold compute_all. destruct (dyn_add wrap gimbal d p o) as [d' [e|]] eqn:E; [discriminate|]. cbn [snd].
  pose proof (dyn_add_ok _ _ _ _ _ _ _ E D) as (_ & L1 & _). intros Q.
  destruct (quantities_row _ _ _ _ _ Q) as (al & dist & ar & g & ov & st & _ & _ & _ & _ & H5 & _).
  unfold mobile_overlap in H5. unfold displacement in H5 at 1 2. rewrite map_length, L1 in H5.
  assert (d_num d' = d_num d) by (unfold dyn_add in E; destruct (motion_add _ _ _ _ _); injection E as <- _; reflexivity).
  rewrite H, Nat.div_small in H5 by auto. discriminate.
Qed.
Print Assumptions C75_all_quantities_refuted.
Example C75_refuted_example : exists d, dyn_init 0 square10 (repeat zero3 9) None None None 360 = inl d /\ dyn_ok d /\ (d_num d < 10)%nat /\
  snd (compute_all freud_wrap (fun _ => zero3) sort_index d 0 (repeat zero3 9) None false) = inr ZeroDivisionError.
Proof.
  eexists. split; [reflexivity|]. split; [unfold dyn_ok; cbn; repeat split; lia|]. split; [cbn; lia|].
  match goal with |- snd (compute_all _ _ _ ?d _ _ _ _) = _ => set (d0 := d) end.
  assert (A : dyn_add freud_wrap (fun _ => zero3) d0 (repeat zero3 9) None = (d0, None)).
  { unfold dyn_add. rewrite (add_same freud_wrap (fun _ => zero3) square10 (repeat zero3 9) None); auto; [apply freud_wrap_ok|apply square10_ok|exact I]. }
  unfold compute_all. rewrite A. cbn [snd]. unfold quantities, distance. cbn [d0 d_motion m_dt m_dr d_wave].
  set (z := map (fun _ => zero3) (repeat zero3 9)).
  destruct (alpha_total 2 z) as [[_ ->]|[_ ->]]; [lra|discriminate| |];
  (destruct (alpha_total 3 z) as [[_ ->]|[_ ->]]; [lra|discriminate| |]);
  (destruct (gamma_total z z) as [[_ ->]|[_ ->]]; [discriminate|reflexivity| |]); reflexivity.
Qed.

(** * C76 *)
(** The function returns the fraction that moved less than [dist]. *)
Theorem C76_fraction_partial disp dist : structural_relax disp dist = fraction (fun x => Rltb x dist) disp.
Proof. apply structural_fraction. Qed.
Print Assumptions C76_fraction_partial.
(** The documentation says "the proportion of particles which have moved further than dist". *)
Theorem C76_fraction_refuted : exists disp dist, structural_relax disp dist <> fraction (fun x => Rltb dist x) disp.
Proof.
  exists [1; 1; 3], 2. rewrite structural_fraction. unfold fraction. cbn [filter length].
  rewrite !(Rltb_true 1 2), (Rltb_false 3 2), !(Rltb_false 2 1), (Rltb_true 2 3) by lra. cbn. lra.
Qed.
Print Assumptions C76_fraction_refuted.
Example C76_example : structural_relax [1; 1; 3; 5] 2 = 1 / 2.
Proof.
  rewrite C76_fraction_partial. unfold fraction. cbn [filter length].
  rewrite !(Rltb_true 1 2), (Rltb_false 3 2), (Rltb_false 5 2) by lra. cbn. lra.
Qed.

(** * C77 *)
(** Ten or more particles: the overlap of some choice of the most mobile tenth by either
    measure; between 0 and 1; 1 for equal arguments. *)
Theorem C77_overlap_partial (argsort : list R -> list nat) disp rotn :
  argsort_ok argsort -> length rotn = length disp -> (10 <= length disp)%nat ->
  exists x T U, mobile_overlap argsort disp rotn = inl x /\ 0 <= x <= 1 /\
    top_set (length disp / 10) disp T /\ top_set (length disp / 10) (map Rabs rotn) U /\
    x = INR (length (filter (fun i => existsb (Nat.eqb i) U) T)) / INR (length disp / 10) /\
    (rotn = disp -> Forall (fun y => 0 <= y) disp -> x = 1).
Proof.
  intros A L N. destruct (overlap_spec argsort disp rotn A L N) as (x & T & U & E & HT & HU & X).
  exists x, T, U. pose proof (overlap_bounds argsort disp rotn x A E). do 5 (split; auto).
  intros -> F. rewrite overlap_self in E by auto. congruence.
Qed.
Print Assumptions C77_overlap_partial.
Example C77_example : exists x, mobile_overlap sort_index (map INR (seq 0 20)) (map INR (seq 0 20)) = inl x /\ x = 1.
Proof.
  destruct (C77_overlap_partial sort_index (map INR (seq 0 20)) (map INR (seq 0 20)) sort_index_ok eq_refl) as (x & T & U & E & _ & _ & _ & _ & H).
  - rewrite map_length, seq_length. lia.
  - exists x. split; auto. apply H; auto. apply Forall_map, Forall_forall. intros. apply pos_INR.
Qed.
Theorem C77_overlap_refuted (argsort : list R -> list nat) disp rotn :
  (length disp < 10)%nat -> mobile_overlap argsort disp rotn = inr ZeroDivisionError.
Proof. intros H. unfold mobile_overlap. rewrite Nat.div_small by auto. reflexivity. Qed.
Print Assumptions C77_overlap_refuted.
Example C77_refuted_example : mobile_overlap sort_index [1; 2; 3] [1; 2; 3] = inr ZeroDivisionError.
Proof. apply C77_overlap_refuted. cbn. lia. Qed.

(** * C108 *)
(** In the plane, rot1 and rot2 are the averages of the first and second order functions of
    the angle between a direction fixed to each molecule now and at the start. *)
Theorem C108_planar_rotation (angles : list R) (e : v3) : angles <> [] ->
  z3 e = 0 -> norm2_3 e = 1 ->
  rot1 (map (fun t => mk3 t 0 0) angles) = rmean (map (fun t => dot3 e (rot (zquat t) e)) angles) /\
  rot2 (map (fun t => mk3 t 0 0) angles) = rmean (map (fun t => 2 * (dot3 e (rot (zquat t) e)) ^ 2 - 1) angles).
Proof.
  intros N Z U.
  assert (D : forall t, dot3 e (rot (zquat t) e) = cos t).
  { intros t. rewrite rot_zquat. unfold norm2_3, dot3 in *. cbn. rewrite Z in *. transitivity (cos t * (x3 e * x3 e + y3 e * y3 e + 0 * 0)); [ring|].
    rewrite U. ring. }
  assert (C : forall t, cos (norm3 (mk3 t 0 0)) = cos t).
  { intros t. replace (norm3 (mk3 t 0 0)) with (Rabs t).
    - unfold Rabs. destruct (Rcase_abs t); auto. apply cos_neg.
    - unfold norm3, norm2_3, dot3. cbn. replace (t * t + 0 * 0 + 0 * 0) with (t * t) by ring. symmetry. apply sqrt_Rsqr_abs. }
  unfold rot1, rot2, displacement. rewrite !map_map. split; f_equal; apply map_ext; intros t; rewrite C, D; auto. unfold sq. ring.
Qed.
Print Assumptions C108_planar_rotation.
Example C108_example : rot1 (map (fun t => mk3 t 0 0) [0; PI]) = 0.
Proof.
  destruct (C108_planar_rotation [0; PI] (mk3 1 0 0)) as [E _]; [discriminate|reflexivity|unfold norm2_3, dot3; cbn; ring|].
  rewrite E. cbn [map]. rewrite !rot_zquat. unfold dot3. cbn. rewrite cos_0, sin_0, cos_PI, sin_PI. unfold rmean, rsum. cbn. field.
Qed.

(** ** Closed counterexamples for C75 and C77 *)
Theorem C75_nine_refuted : exists ts b p d, dyn_init ts b p None None None 360 = inl d /\ p <> [] /\
  forall wrap gimbal argsort ts' p' o sc q, snd (compute_all wrap gimbal argsort d ts' p' o sc) <> inl q.
Proof.
  destruct C75_refuted_example as (d & E & K & N & _). exists 0%Z, square10, (repeat zero3 9), d. split; auto. split; [discriminate|].
  intros wrap gimbal argsort ts' p' o sc q. apply (C75_all_quantities_refuted wrap gimbal argsort d ts' p' o sc q K N).
Qed.
Print Assumptions C75_nine_refuted.
Theorem C77_three_refuted : exists disp rotn, disp <> [] /\ length rotn = length disp /\
  forall argsort, mobile_overlap argsort disp rotn = inr ZeroDivisionError.
Proof. exists [1; 2; 3], [1; 2; 3]. split; [discriminate|]. split; [reflexivity|]. intros. apply C77_overlap_refuted. cbn. lia. Qed.
Print Assumptions C77_three_refuted.
