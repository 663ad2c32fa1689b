(** C220: a system made of copies of a system. *)
From Coq Require Import String Reals ZArith QArith List Bool Permutation Lia Lra Arith.
From Verif Require Import Base DictFacts XNum RVec RVecFacts RelaxFitModel FrameModel
  MotionModel MotionSpec MotionProofs MotionProps DynModel DynSpec DynProofs DynStruct DynProps DynPerm
  MolRelaxModel EndModel RenumberSpec RenumberProps DynTrue PartSpec PartProps CopySpec.
Import ListNotations.
Open Scope list_scope.
Open Scope R_scope.
Notation length := List.length.

Lemma sum_copies l m : rsum (concat (repeat l m)) = INR m * rsum l.
Proof. induction m as [|m IH]; cbn [repeat concat]; [cbn; lra|]. rewrite rsum_app, IH, S_INR. lra. Qed.
Lemma len_copies {A} (l : list A) m : length (concat (repeat l m)) = (m * length l)%nat.
Proof. induction m as [|m IH]; cbn [repeat concat]; auto. rewrite app_length, IH. reflexivity. Qed.
Lemma map_copies {A B} (f : A -> B) l m : map f (concat (repeat l m)) = concat (repeat (map f l) m).
Proof. induction m as [|m IH]; cbn [repeat concat]; auto. rewrite map_app, IH. reflexivity. Qed.
Lemma mean_copies l l' m : (0 < m)%nat -> Permutation l' (concat (repeat l m)) -> rmean l' = rmean l.
Proof.
  intros H P. unfold rmean. rewrite (rsum_perm _ _ P), (Permutation_length P), sum_copies, len_copies, mult_INR.
  assert (M : INR m <> 0) by (apply not_0_INR; lia). destruct l as [|x l]; [cbn; unfold Rdiv; ring|].
  assert (L : INR (length (x :: l)) <> 0) by (apply not_0_INR; cbn; lia). field. auto.
Qed.
Lemma copies_perm {A} (d : A) n m idx l : copies n m idx -> length l = n -> Permutation (reorder d idx l) (concat (repeat l m)).
Proof.
  intros (_ & P) L. unfold reorder. rewrite (Permutation_map (fun i => nth i l d) P), map_copies, <- L, map_nth_seq. apply Permutation_refl.
Qed.
Lemma copies_lt n m idx i : copies n m idx -> In i idx -> (i < n)%nat.
Proof.
  intros (_ & P) J. apply (Permutation_in _ P) in J. apply in_concat in J as (l & L & J). apply repeat_spec in L. subst l. apply in_seq in J. lia.
Qed.
Lemma mean_map_copies {A} (d : A) (f : A -> R) n m idx l : copies n m idx -> length l = n -> rmean (map f (reorder d idx l)) = rmean (map f l).
Proof.
  intros C L. apply (mean_copies _ _ m); [apply C|]. rewrite (Permutation_map f (copies_perm d n m idx l C L)), map_copies. apply Permutation_refl.
Qed.
Lemma isf_copies k res n m idx dt : copies n m idx -> length dt = n -> isf k res (reorder zero3 idx dt) = isf k res dt.
Proof.
  intros C L. apply (mean_copies _ _ m); [apply C|]. induction (wave_vectors k res) as [|w ws IH]; cbn [flat_map].
  - clear. induction m as [|m IH]; cbn; auto.
  - rewrite IH. clear IH. rewrite (Permutation_map _ (copies_perm zero3 n m idx dt C L)), map_copies. clear.
    set (a := map _ dt). set (b := flat_map _ ws). clearbody a b. induction m as [|m IH]; cbn [repeat concat]; [apply Permutation_refl|].
    rewrite <- IH, <- !app_assoc. apply Permutation_app_head. rewrite !app_assoc. apply Permutation_app_tail, Permutation_app_comm.
Qed.
Lemma dyn_each_fields wrap gimbal fs : forall d d1, dyn_each wrap gimbal d fs = inl d1 ->
  d_num d1 = d_num d /\ d_wave d1 = d_wave d /\ d_mol d1 = d_mol d.
Proof.
  induction fs as [|f fs IH]; intros d d1 H; cbn [dyn_each] in H; [injection H as <-; auto|].
  unfold dyn_add in H. destruct (motion_add wrap gimbal (d_motion d) (e_pos f) (e_ori f)) as [m [e|]]; [discriminate|].
  destruct (IH _ _ H) as (A & B & C). cbn in *. auto.
Qed.
Lemma dynamics_fields wrap gimbal mol wave f0 fs d : dynamics_of wrap gimbal mol wave f0 fs = inl d ->
  d_num d = length (e_pos f0) /\ d_wave d = wave /\ d_mol d = Some mol.
Proof.
  unfold dynamics_of, make_dynamics, dyn_init. destruct (e_pos f0) as [|p ps]; [discriminate|].
  destruct (frame_box f0) as [b|]; cbn [MotionModel.ebind]; [|discriminate].
  destruct (motion_init b (p :: ps) (e_ori f0)) as [m|]; cbn [MotionModel.ebind]; [|discriminate].
  intros H. apply dyn_each_fields in H. cbn [d_num d_wave d_mol] in H. exact H.
Qed.

(** * C220 *)
Theorem C220_copies wrap gimbal argsort mol wave n m idx f0 fs d ts sc :
  argsort_ok argsort -> (10 <= n)%nat -> wave <> Some 0 -> mol <> [] ->
  copies n m idx -> Forall (of_size n) (f0 :: fs) ->
  dynamics_of wrap gimbal mol wave f0 fs = inl d ->
  exists d' q q', dynamics_of wrap gimbal mol wave (renumber idx f0) (map (renumber idx) fs) = inl d' /\
    quantities argsort d ts sc = inl q /\ quantities argsort d' ts sc = inl q' /\
    forall key, intensive key -> dget String.eqb key q' = dget String.eqb key q.
Proof.
  intros As N W Mo C F H. pose proof (Forall_inv F) as S0. pose proof (Forall_inv_tail F) as S.
  assert (I : forall i, In i idx -> (i < n)%nat) by (intros; eapply copies_lt; eauto).
  assert (Li : (length idx = m * n)%nat) by (destruct C as (_ & P); rewrite (Permutation_length P), len_copies, seq_length; reflexivity).
  assert (Lm : (n <= m * n)%nat) by (destruct C; nia).
  assert (Ni : idx <> []) by (intros E; rewrite E in Li; cbn in Li; lia).
  destruct (pick_dynamics idx n I wrap gimbal Ni mol wave f0 fs d S0 S H) as (E & Z & Rs).
  destruct (dynamics_fields _ _ _ _ _ _ _ H) as (Dn & Dw & Dm). rewrite (proj1 S0) in Dn. pose proof Z as (L1 & L2 & _).
  destruct (C75_all_quantities_partial argsort d ts sc) as (q & Q & _); auto.
  { unfold dyn_ok. rewrite Dn, Rs. repeat split; auto; lia. } { lia. } { congruence. } { rewrite Dm. congruence. }
  destruct (C75_all_quantities_partial argsort (pick_dyn idx d) ts sc) as (q' & Q' & _); auto.
  { unfold dyn_ok, pick_dyn, reorder_motion. cbn [d_motion d_num d_res m_dt m_dr]. rewrite !pick_len, Rs. repeat split; auto; lia. }
  { cbn [pick_dyn d_num]. lia. } { cbn [pick_dyn d_wave]. congruence. } { cbn [pick_dyn d_mol]. rewrite Dm. congruence. }
  exists (pick_dyn idx d), q, q'. split; [exact E|]. split; [exact Q|]. split; [exact Q'|].
  intros key [K1 K2]. clear E H.
  apply quantities_row in Q. destruct Q as (al & dist & ar & g & ov & st & Qa & D & Qr & Qg & _ & _ & ->).
  apply quantities_row in Q'. destruct Q' as (al' & dist' & ar' & g' & ov' & st' & Qa' & D' & Qr' & Qg' & _ & _ & ->).
  change (distance (pick_dyn idx d)) with (distance d) in D'. rewrite D in D'. injection D' as <-.
  change (d_wave (pick_dyn idx d)) with (d_wave d). change (d_res (pick_dyn idx d)) with (d_res d). change (d_timestep (pick_dyn idx d)) with (d_timestep d).
  change (m_dt (d_motion (pick_dyn idx d))) with (reorder zero3 idx (m_dt (d_motion d))) in *. change (m_dr (d_motion (pick_dyn idx d))) with (reorder zero3 idx (m_dr (d_motion d))) in *.
  set (dt := m_dt (d_motion d)) in *. set (dr := m_dr (d_motion d)) in *.
  assert (G : forall (f : v3 -> R) l, length l = n -> rmean (map f (reorder zero3 idx l)) = rmean (map f l)) by (intros f l L; apply (mean_map_copies zero3 f n m); auto).
  assert (A : forall k l, length l = n -> alpha k (reorder zero3 idx l) = alpha k l).
  { intros k l L. unfold alpha, displacement2. rewrite !map_map, (G norm2_3 l L), (G (fun v => sq (norm2_3 v)) l L). reflexivity. }
  rewrite A, Qa in Qa' by auto. injection Qa' as <-. rewrite A, Qr in Qr' by auto. injection Qr' as <-.
  assert (Gg : gamma (reorder zero3 idx dt) (reorder zero3 idx dr) = gamma dt dr).
  { unfold gamma, displacement2. rewrite (G norm2_3 dt L1), (G norm2_3 dr L2).
    rewrite (pick_map idx n I norm2_3 zero3 0 dt L1), (pick_map idx n I norm2_3 zero3 0 dr L2).
    rewrite (pick_zip idx n I Rmult 0 0 0) by (rewrite map_length; auto).
    assert (Zl : length (zip Rmult (map norm2_3 dt) (map norm2_3 dr)) = n) by (rewrite zip_length; rewrite !map_length; congruence).
    assert (X := mean_map_copies 0 (fun x => x) n m idx (zip Rmult (map norm2_3 dt) (map norm2_3 dr)) C Zl). rewrite !map_id in X. rewrite X. reflexivity. }
  rewrite Gg, Qg in Qg'. injection Qg' as <-.
  assert (Ev : row (ts - d_timestep d) (rmean (displacement (reorder zero3 idx dt))) (msd (reorder zero3 idx dt)) (mfd (reorder zero3 idx dt)) (mean_rotation (reorder zero3 idx dr))
      (msr (reorder zero3 idx dr)) (rot1 (reorder zero3 idx dr)) (rot2 (reorder zero3 idx dr)) al
      (match sc, d_wave d with true, Some k => FR (isf k (d_res d) (reorder zero3 idx dt)) | _, _ => FNaN end)
      (match dist with Some x => FR (structural_relax (displacement (reorder zero3 idx dt)) x) | None => FNaN end) ar g ov' st'
    = row (ts - d_timestep d) (rmean (displacement dt)) (msd dt) (mfd dt) (mean_rotation dr) (msr dr) (rot1 dr) (rot2 dr) al
      (match sc, d_wave d with true, Some k => FR (isf k (d_res d) dt) | _, _ => FNaN end)
      (match dist with Some x => FR (structural_relax (displacement dt) x) | None => FNaN end) ar g ov' st').
  { assert (Is : forall k, isf k (d_res d) (reorder zero3 idx dt) = isf k (d_res d) dt) by (intros k; apply (isf_copies k (d_res d) n m); auto).
    assert (Es : forall cut, structural_relax (displacement (reorder zero3 idx dt)) cut = structural_relax (displacement dt) cut).
    { intros cut. unfold structural_relax, displacement. rewrite !map_map. apply (G (fun v => if Rltb (norm3 v) cut then 1 else 0) dt L1). }
    assert (E1 : rmean (displacement (reorder zero3 idx dt)) = rmean (displacement dt)) by apply (G norm3 dt L1).
    assert (E2 : msd (reorder zero3 idx dt) = msd dt) by apply (G norm2_3 dt L1).
    assert (E3 : mfd (reorder zero3 idx dt) = mfd dt) by (unfold mfd, displacement2; rewrite !map_map; apply (G (fun v => sq (norm2_3 v)) dt L1)).
    assert (E4 : mean_rotation (reorder zero3 idx dr) = mean_rotation dr) by apply (G norm3 dr L2).
    assert (E5 : msr (reorder zero3 idx dr) = msr dr) by apply (G norm2_3 dr L2).
    assert (E6 : rot1 (reorder zero3 idx dr) = rot1 dr) by (unfold rot1, displacement; rewrite !map_map; apply (G (fun v => cos (norm3 v)) dr L2)).
    assert (E7 : rot2 (reorder zero3 idx dr) = rot2 dr) by (unfold rot2, displacement; rewrite !map_map; apply (G (fun v => 2 * sq (cos (norm3 v)) - 1) dr L2)).
    rewrite E1, E2, E3, E4, E5, E6, E7. f_equal; [destruct sc, (d_wave d); rewrite ?Is; reflexivity|destruct dist; rewrite ?Es; reflexivity]. }
  rewrite Ev. clear - K1 K2. unfold row. cbn [dget].
  repeat (match goal with |- context [String.eqb key ?s] => destruct (String.eqb_spec key s); [try reflexivity; exfalso; congruence|] end). reflexivity.
Qed.
Print Assumptions C220_copies.
(** Twenty molecules, twice: alpha is -8/25 again. *)
Example C220_example : copies 20 2 (seq 0 20 ++ seq 0 20) /\ exists d d' q',
  dynamics_of pt_wrap (fun _ => zero3) [zero3] (Some 1) (tw 5 0 0) [tw 9 1 2] = inl d /\
  dynamics_of pt_wrap (fun _ => zero3) [zero3] (Some 1) (renumber (seq 0 20 ++ seq 0 20) (tw 5 0 0)) [renumber (seq 0 20 ++ seq 0 20) (tw 9 1 2)] = inl d' /\
  quantities sort_index d' 9 true = inl q' /\ dget String.eqb "alpha"%string q' = Some (VFl (FR (- (8 / 25)))).
Proof.
  assert (C : copies 20 2 (seq 0 20 ++ seq 0 20)) by (split; [lia|apply Permutation_refl]).
  split; [exact C|]. destruct twenty as (d & da & db & q & qa & qb & D & _ & _ & Q & _ & _ & _ & V & _). destruct tw_sizes as [_ S].
  destruct (C220_copies pt_wrap (fun _ => zero3) sort_index [zero3] (Some 1) 20 2 (seq 0 20 ++ seq 0 20) (tw 5 0 0) [tw 9 1 2] d 9 true sort_index_ok) as (d' & q0 & q' & E & Q0 & Q' & A); auto.
  - lia.
  - intros X. injection X. lra.
  - discriminate.
  - exists d, d', q'. split; [exact D|]. split; [exact E|]. split; [exact Q'|]. rewrite Q in Q0. injection Q0 as <-. rewrite A; [exact V|]. split; discriminate.
Qed.

(** The overlap of the most mobile molecules is another: one in ten of fifteen is one molecule,
    of thirty three. *)
Definition c_disp : list R := [3; 2; 0; 0; 0; 0; 0; 0; 0; 0; 0; 0; 0; 0; 0].
Definition c_rotn : list R := [3; 0; 2; 0; 0; 0; 0; 0; 0; 0; 0; 0; 0; 0; 0].
Lemma top_incl n l T big : top_set n l T -> NoDup big -> (n <= length big)%nat ->
  (forall j, In j big -> (j < length l)%nat) ->
  (forall i j, (i < length l)%nat -> ~ In i big -> In j big -> nth i l 0 < nth j l 0) -> incl T big.
Proof.
  intros (N & L & B & O) Nb Lb Bb G i I. destruct (in_dec Nat.eq_dec i big) as [|X]; auto. exfalso.
  assert (J : incl (i :: big) T).
  { intros j [<-|J]; auto. destruct (in_dec Nat.eq_dec j T) as [|Y]; auto. specialize (O i j I (Bb j J) Y). specialize (G i j (B i I) X J). lra. }
  assert (K := NoDup_incl_length (NoDup_cons i X Nb) J). cbn in K. lia.
Qed.
Lemma abs_same l : Forall (fun x => 0 <= x) l -> map Rabs l = l.
Proof. induction 1 as [|x l H F IH]; cbn [map]; auto. rewrite IH, Rabs_pos_eq by auto. reflexivity. Qed.
Theorem C220_overlap_refuted : exists disp rotn idx, copies (length disp) 2 idx /\ length rotn = length disp /\ (10 <= length disp)%nat /\
  forall argsort, argsort_ok argsort -> exists x x',
    mobile_overlap argsort disp rotn = inl x /\ mobile_overlap argsort (reorder 0 idx disp) (reorder 0 idx rotn) = inl x' /\ x' < x.
Proof.
  exists c_disp, c_rotn, (seq 0 15 ++ seq 0 15). split; [split; [lia|apply Permutation_refl]|]. split; [reflexivity|]. split; [cbn; lia|].
  intros argsort A.
  set (d2 := reorder 0 (seq 0 15 ++ seq 0 15) c_disp). set (r2 := reorder 0 (seq 0 15 ++ seq 0 15) c_rotn).
  assert (Ed : d2 = c_disp ++ c_disp) by reflexivity. assert (Er : r2 = c_rotn ++ c_rotn) by reflexivity. clearbody d2 r2. subst d2 r2.
  assert (Pr : Forall (fun x => 0 <= x) c_rotn) by (unfold c_rotn; repeat constructor; lra).
  destruct (overlap_spec argsort c_disp c_rotn A eq_refl) as (x & T & U & E & HT & HU & V); [cbn; lia|].
  destruct (overlap_spec argsort (c_disp ++ c_disp) (c_rotn ++ c_rotn) A eq_refl) as (x' & T' & U' & E' & HT' & HU' & V'); [cbn; lia|].
  exists x, x'. split; [exact E|]. split; [exact E'|].
  rewrite (abs_same c_rotn Pr) in HU. rewrite (abs_same (c_rotn ++ c_rotn)) in HU' by (apply Forall_app; auto).
  change (length c_disp / 10)%nat with 1%nat in *. change (length (c_disp ++ c_disp) / 10)%nat with 3%nat in *.
  assert (IT : incl T [0%nat]).
  { apply (top_incl 1 c_disp); auto; [repeat constructor; cbn; tauto|cbn; lia|]. intros i j Li Ni [<-|[]]. unfold c_disp in *. cbn [length] in Li. do 15 (destruct i as [|i]; [cbn [nth]; solve [lra|exfalso; apply Ni; cbn; tauto]|]). lia. }
  assert (IU : incl U [0%nat]).
  { apply (top_incl 1 c_rotn); auto; [repeat constructor; cbn; tauto|cbn; lia|]. intros i j Li Ni [<-|[]]. unfold c_rotn in *. cbn [length] in Li. do 15 (destruct i as [|i]; [cbn [nth]; solve [lra|exfalso; apply Ni; cbn; tauto]|]). lia. }
  assert (IT' : incl T' [0; 1; 15; 16]%nat).
  { apply (top_incl 3 (c_disp ++ c_disp)); auto; [repeat constructor; cbn; lia|cbn; lia|cbn; lia|]. intros i j Li Ni J. unfold c_disp in *. cbn [length app] in Li |- *.
    do 30 (destruct i as [|i]; [solve [exfalso; apply Ni; cbn; tauto|destruct J as [<-|[<-|[<-|[<-|[]]]]]; cbn [nth]; lra]|]). lia. }
  assert (IU' : incl U' [0; 2; 15; 17]%nat).
  { apply (top_incl 3 (c_rotn ++ c_rotn)); auto; [repeat constructor; cbn; lia|cbn; lia|cbn; lia|]. intros i j Li Ni J. unfold c_rotn in *. cbn [length app] in Li |- *.
    do 30 (destruct i as [|i]; [solve [exfalso; apply Ni; cbn; tauto|destruct J as [<-|[<-|[<-|[<-|[]]]]]; cbn [nth]; lra]|]). lia. }
  assert (Single : forall l, NoDup l -> length l = 1%nat -> incl l [0%nat] -> l = [0%nat]).
  { intros [|a [|]] _ L J; try discriminate L. destruct (J a (or_introl eq_refl)) as [<-|[]]. reflexivity. }
  rewrite (Single T) in V by (auto; apply HT). rewrite (Single U) in V by (auto; apply HU). cbn in V.
  set (c := filter (fun i => existsb (Nat.eqb i) U') T') in *.
  assert (Lc : (length c <= 2)%nat).
  { apply (NoDup_incl_length (l' := [0; 15]%nat)); [apply NoDup_filter, HT'|]. intros i J. apply filter_In in J as [J1 J2]. apply existsb_exists in J2 as (j & J2 & J3). apply Nat.eqb_eq in J3. subst j.
    specialize (IT' i J1). specialize (IU' i J2). cbn in *. lia. }
  apply le_INR in Lc. rewrite V, V'. replace (INR 2) with 2 in Lc by (cbn; lra). replace (INR 3) with 3 by (cbn; lra). lra.
Qed.
Print Assumptions C220_overlap_refuted.
