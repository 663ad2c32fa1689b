(** molecule2particles and compute_struct_relax: lemmas and properties C78, C79. *)
From Coq Require Import String Reals ZArith List Bool Permutation Lra Lia.
From Verif Require Import Base RVec RVecFacts RelaxFitModel MotionModel MotionSpec MotionProofs DynModel DynSpec DynProofs.
Import ListNotations.
Open Scope R_scope.
Notation length := List.length.

Lemma Rltb_true a b : a < b -> Rltb a b = true.
Proof. intros. unfold Rltb. destruct (Rlt_dec a b); [auto|contradiction]. Qed.
Lemma Rltb_false a b : b <= a -> Rltb a b = false.
Proof. intros. unfold Rltb. destruct (Rlt_dec a b); [lra|auto]. Qed.
Lemma flat_map_len {A B} (f : A -> list B) n l : (forall x, length (f x) = n) -> length (flat_map f l) = (length l * n)%nat.
Proof. intros H. induction l; cbn; auto. rewrite app_length, H, IHl. lia. Qed.
Lemma near0_spec x : near0 x = true -> Rabs x <= / 100000000.
Proof. unfold near0. destruct (Rle_dec _ _); [auto|discriminate]. Qed.
Lemma near_zero_unit q : unit q -> near_zero q = false.
Proof.
  intros U. destruct (near_zero q) eqn:E; auto. exfalso. unfold near_zero in E. apply andb_true_iff in E. destruct E as [E E4].
  apply andb_true_iff in E. destruct E as [E E3]. apply andb_true_iff in E. destruct E as [E1 E2].
  apply near0_spec in E1, E2, E3, E4.
  assert (Q : forall x, Rabs x <= / 100000000 -> x * x <= / 100000000).
  { intros x H. replace (x * x) with (Rabs x * Rabs x) by (rewrite <- Rabs_mult; apply Rabs_pos_eq; nra). pose proof (Rabs_pos x). nra. }
  apply Q in E1, E2, E3, E4. unfold unit, qnorm2 in U. lra.
Qed.
Lemma forallb_unit l : Forall unit l -> forallb unitb l = true.
Proof.
  intros F. apply forallb_forall. intros q I. unfold unitb. destruct (Req_EM_T _ 1) as [|N]; auto. exfalso. apply N.
  rewrite Forall_forall in F. apply (F q I).
Qed.
Lemma m2p_ok position orientation mol : Forall unit orientation -> length orientation = length position -> mol <> [] ->
  molecule2particles position orientation mol =
  inl (zip add3 (flat_map (fun v => map (fun q => rot q v) orientation) mol) (flat_map (fun p => repeat p (length mol)) position)).
Proof.
  intros U L N. unfold molecule2particles.
  assert (E : (if forallb near_zero orientation then map (fun q => mkq 1 (qx q) (qy q) (qz q)) orientation else orientation) = orientation).
  { destruct orientation as [|q o]; [reflexivity|]. cbn [forallb]. inversion U; subst. rewrite near_zero_unit by auto. reflexivity. }
  rewrite E, forallb_unit by auto. cbn [negb]. destruct mol as [|v mol]; [congruence|]. apply bzip_eq.
  rewrite (flat_map_len _ (length orientation)) by (intros; apply map_length).
  rewrite (flat_map_len _ (length (v :: mol))) by (intros; apply repeat_length). lia.
Qed.
Lemma zip_app {A B C} (f : A -> B -> C) a b c d : length a = length b -> (zip f (a ++ c) (b ++ d) = zip f a b ++ zip f c d)%list.
Proof. revert b. induction a as [|x a IH]; intros [|y b] L; cbn in *; try discriminate; auto. f_equal. apply IH. congruence. Qed.
Lemma zip_self {A C} (f : A -> A -> C) l : zip f l l = map (fun x => f x x) l.
Proof. induction l; cbn; auto. f_equal. auto. Qed.

(** ** The pairing is right for one molecule, or for molecules of one particle *)
Lemma m2p_one t q mol : unit q -> mol <> [] -> molecule2particles [t] [q] mol = inl (own_particles [t] [q] mol).
Proof.
  intros U N. rewrite m2p_ok by auto. f_equal. unfold own_particles. cbn. rewrite app_nil_r. clear N.
  induction mol as [|v mol IH]; cbn; auto. f_equal. auto.
Qed.
Lemma m2p_single position orientation v : Forall unit orientation -> length orientation = length position ->
  molecule2particles position orientation [v] = inl (own_particles position orientation [v]).
Proof.
  intros U L. rewrite m2p_ok; [|auto|auto|congruence]. f_equal. unfold own_particles. cbn. rewrite !app_nil_r. clear U.
  revert orientation L. induction position as [|t p IH]; intros [|q o] L; cbn in *; try discriminate; auto. f_equal. apply IH. congruence.
Qed.

(** ** Without rotation *)
Lemma sub_repeat (rotated : list v3) (translated : list v3) : length rotated = length translated ->
  zip sub3 (zip add3 rotated translated) (zip add3 rotated (map (fun _ => zero3) translated)) = translated.
Proof.
  revert translated. induction rotated as [|r l IH]; intros [|t m] L; cbn in *; try discriminate; auto.
  f_equal; [|apply IH; congruence]. unfold sub3, add3, zero3. destruct t. cbn. apply v3_eq; ring.
Qed.
Lemma fraction_repeat {A} (P : A -> bool) n l : (0 < n)%nat -> fraction P (flat_map (fun p => repeat p n) l) = fraction P l.
Proof.
  intros Hn. unfold fraction.
  assert (L1 : length (flat_map (fun p => repeat p n) l) = (length l * n)%nat) by (apply flat_map_len; intros; apply repeat_length).
  assert (L2 : length (filter P (flat_map (fun p => repeat p n) l)) = (length (filter P l) * n)%nat).
  { clear L1. induction l as [|x l IH]; cbn; auto. rewrite filter_app, app_length, IH.
    assert (R : length (filter P (repeat x n)) = (if P x then n else 0)%nat).
    { clear. induction n; cbn; [destruct (P x); auto|]. destruct (P x); cbn; lia. }
    rewrite R. destruct (P x); cbn; lia. }
  rewrite L1, L2, !mult_INR. assert (INR n <> 0) by (apply not_0_INR; lia).
  destruct l as [|x l]; [cbn; unfold Rdiv; ring|]. assert (INR (length (x :: l)) <> 0) by (apply not_0_INR; cbn; lia). field. auto.
Qed.
Lemma map_fraction {A} (f : A -> R) x l : fraction (fun y => Rltb y x) (map f l) = fraction (fun a => Rltb (f a) x) l.
Proof.
  unfold fraction. rewrite map_length. do 2 f_equal. induction l; cbn; auto. destruct (Rltb (f a) x); cbn; auto.
Qed.
Lemma no_turn_quat (dr : list v3) : Forall (fun r => r = zero3) dr ->
  map (fun r => from_euler (z3 r) (y3 r) (x3 r)) dr = repeat qone (length dr).
Proof.
  induction 1 as [|r l -> F IH]; cbn; auto. rewrite IH. f_equal. rewrite from_euler_z. destruct quat0 as (-> & _). reflexivity.
Qed.
Lemma repeat_unit n : Forall unit (repeat qone n).
Proof. induction n; cbn; constructor; auto. apply unit_one. Qed.

Lemma struct_positions_ok dt dr mol : length dr = length dt -> mol <> [] ->
  struct_positions dt dr mol (length dt) =
  inl (zip add3 (flat_map (fun v => map (fun q => rot q v) (map (fun r => from_euler (z3 r) (y3 r) (x3 r)) dr)) mol)
                (flat_map (fun p => repeat p (length mol)) dt),
       zip add3 (flat_map (fun v => map (fun q => rot q v) (repeat qone (length dt))) mol)
                (flat_map (fun p => repeat p (length mol)) (map (fun _ => zero3) dt))).
Proof.
  intros L N. unfold struct_positions. rewrite m2p_ok; [|apply Forall_map, Forall_forall; intros; apply unit_from_euler|rewrite map_length; auto|auto].
  cbn [ebind]. rewrite m2p_ok; [reflexivity|apply repeat_unit|rewrite map_length, repeat_length; auto|auto].
Qed.
Lemma struct_ok dt dr mol x : length dr = length dt -> mol <> [] -> exists d,
  length d = (length dt * length mol)%nat /\ struct_relax dt dr mol (length dt) x = inl (structural_relax (map norm3 d) x).
Proof.
  intros L N. unfold struct_relax. rewrite struct_positions_ok by auto. cbn [ebind fst snd].
  assert (L1 : length (flat_map (fun v => map (fun q => rot q v) (map (fun r => from_euler (z3 r) (y3 r) (x3 r)) dr)) mol) = (length mol * length dt)%nat).
  { apply flat_map_len. intros. rewrite !map_length. auto. }
  assert (L2 : length (flat_map (fun p => repeat p (length mol)) dt) = (length dt * length mol)%nat) by (apply flat_map_len; intros; apply repeat_length).
  assert (L3 : length (flat_map (fun v => map (fun q => rot q v) (repeat qone (length dt))) mol) = (length mol * length dt)%nat).
  { apply flat_map_len. intros. rewrite map_length, repeat_length. auto. }
  assert (L4 : length (flat_map (fun p => repeat p (length mol)) (map (fun _ => zero3) dt)) = (length dt * length mol)%nat).
  { rewrite (flat_map_len _ (length mol)) by (intros; apply repeat_length). rewrite map_length. auto. }
  rewrite bzip_eq. 2:{ rewrite !zip_length; lia. }
  cbn [ebind]. eexists. split; [|reflexivity]. rewrite !zip_length; rewrite ?zip_length; lia.
Qed.

(** * C78 *)
(** With one molecule, or molecules of a single particle, each particle gets the rotation
    and translation of its own molecule. *)
Theorem C78_own_motion_partial position orientation mol :
  Forall unit orientation -> length orientation = length position -> mol <> [] ->
  length position = 1%nat \/ length mol = 1%nat ->
  molecule2particles position orientation mol = inl (own_particles position orientation mol).
Proof.
  intros U L N [E|E].
  - destruct position as [|t [|]]; try discriminate. destruct orientation as [|q [|]]; try discriminate.
    inversion U; subst. apply m2p_one; auto.
  - destruct mol as [|v [|]]; try discriminate. apply m2p_single; auto.
Qed.
Print Assumptions C78_own_motion_partial.
Example C78_example : molecule2particles [mk3 5 0 0] [zquat PI] [mk3 1 0 0; mk3 (-1) 0 0] = inl [mk3 4 0 0; mk3 6 0 0].
Proof.
  rewrite C78_own_motion_partial; [|repeat constructor; apply unit_zquat|reflexivity|discriminate|auto].
  unfold own_particles. cbn [flat_map zip app]. rewrite !rot_zquat, cos_PI, sin_PI. cbn. unfold add3. cbn.
  repeat f_equal; ring.
Qed.
(** If no molecule has turned, struct is the fraction of molecules that moved less than the
    distance, the same as com_struct. *)
Theorem C78_no_turn_partial dt dr mol x :
  length dr = length dt -> mol <> [] -> Forall (fun r => r = zero3) dr ->
  struct_relax dt dr mol (length dt) x = inl (fraction (fun d => Rltb (norm3 d) x) dt).
Proof.
  intros L N Z. unfold struct_relax. rewrite struct_positions_ok by auto. cbn [ebind fst snd].
  rewrite no_turn_quat, L by auto.
  assert (E : flat_map (fun p : v3 => repeat p (length mol)) (map (fun _ => zero3) dt) = map (fun _ => zero3) (flat_map (fun p => repeat p (length mol)) dt)).
  { clear. induction dt as [|a dt IH]; cbn; auto. rewrite map_app, IH. f_equal. generalize (length mol). intros n. induction n; cbn; auto. f_equal. auto. }
  rewrite E.
  assert (LL : length (flat_map (fun v => map (fun q => rot q v) (repeat qone (length dt))) mol) = length (flat_map (fun p => repeat p (length mol)) dt)).
  { rewrite (flat_map_len _ (length dt)) by (intros; rewrite map_length, repeat_length; auto).
    rewrite (flat_map_len _ (length mol)) by (intros; apply repeat_length). lia. }
  rewrite bzip_eq. 2:{ rewrite !zip_length; auto. rewrite map_length. auto. }
  cbn [ebind]. rewrite sub_repeat by auto. rewrite structural_fraction, map_fraction, fraction_repeat; auto.
  destruct mol; [congruence|cbn; lia].
Qed.
Print Assumptions C78_no_turn_partial.
(** Two molecules of two particles.  The first turns by pi (as compute_struct_relax turns it,
    C79), the second moves by 2: all particles have moved by 2.  The code reports that a
    quarter of them moved less than 3/2. *)
Theorem C78_own_motion_refuted : exists dt dr mol x,
  let q := map (fun r => from_euler (z3 r) (y3 r) (x3 r)) dr in
  Forall (fun d => norm3 d = 2) (zip sub3 (own_particles dt q mol) (own_particles (map (fun _ => zero3) dt) (repeat qone 2) mol)) /\
  x = 3 / 2 /\ struct_relax dt dr mol 2 x = inl (1 / 4).
Proof.
  exists [zero3; mk3 0 2 0], [mk3 PI 0 0; zero3], [mk3 0 1 0; mk3 0 (-1) 0], (3 / 2).
  assert (Q : map (fun r => from_euler (z3 r) (y3 r) (x3 r)) [mk3 PI 0 0; zero3] = [xquat PI; qone]).
  { cbn. rewrite !from_euler_x. destruct quat0 as (_ & _ & E). rewrite E. reflexivity. }
  cbv zeta. rewrite Q.
  assert (N0 : norm3 zero3 = 0) by apply norm3_zero.
  assert (Ny : forall y, 0 <= y -> norm3 (mk3 0 y 0) = y).
  { intros y P. unfold norm3, norm2_3, dot3. cbn. replace (0 * 0 + y * y + 0 * 0) with (y * y) by ring. apply sqrt_square. auto. }
  assert (Ny' : forall y, y <= 0 -> norm3 (mk3 0 y 0) = - y).
  { intros y P. unfold norm3, norm2_3, dot3. cbn. replace (0 * 0 + y * y + 0 * 0) with ((- y) * (- y)) by ring. apply sqrt_square. lra. }
  split; [|split; auto].
  - unfold own_particles. cbn [flat_map zip app map repeat]. rewrite !rot_xquat, !rot_one, cos_PI, sin_PI. cbn [x3 y3 z3].
    unfold add3, sub3, zero3. cbn [x3 y3 z3].
    repeat constructor; match goal with |- norm3 (mk3 ?a ?b ?c) = 2 =>
      replace a with 0 by ring; replace c with 0 by ring; first [replace b with 2 by ring; rewrite Ny; lra|replace b with (-2) by ring; rewrite Ny'; lra] end.
  - unfold struct_relax. rewrite (struct_positions_ok [zero3; mk3 0 2 0]) by (auto; discriminate). cbn [ebind fst snd].
    rewrite Q. cbn [flat_map map app repeat length zip]. rewrite !rot_xquat, !rot_one, cos_PI, sin_PI. cbn [x3 y3 z3].
    unfold add3, zero3. cbn [x3 y3 z3]. unfold bzip. cbn [length Nat.eqb zip ebind map]. unfold sub3. cbn [x3 y3 z3].
    assert (T : forall a b c, a = 0 -> c = 0 -> mk3 a b c = mk3 0 b 0) by (intros a b c -> ->; reflexivity).
    f_equal. rewrite structural_fraction. unfold fraction. cbn [filter length].
    assert (E : forall a b c y, a = 0 -> c = 0 -> b = y -> 0 <= y -> norm3 (mk3 a b c) = y) by (intros a b c y -> -> -> P; apply Ny; auto).
    assert (E' : forall a b c y, a = 0 -> c = 0 -> b = - y -> 0 <= y -> norm3 (mk3 a b c) = y) by (intros a b c y -> -> -> P; rewrite Ny'; lra).
    rewrite (E' (0 + 0 - (0 + 0)) _ _ 2) by lra.
    rewrite (Rltb_false 2) by lra.
    rewrite (E (0 + 0 - (0 + 0)) _ _ 0) by lra.
    rewrite (Rltb_true 0) by lra.
    rewrite (E (0 + 0 - (0 + 0)) _ _ 4) by lra.
    rewrite (Rltb_false 4) by lra.
    rewrite (E (0 + 0 - (0 + 0)) _ _ 2) by lra.
    rewrite (Rltb_false 2) by lra. cbn. lra.
Qed.
Print Assumptions C78_own_motion_refuted.

(** * C79 *)
(** What the code does with a molecule turned by [t] in the plane: a rotation by [t] about x,
    for every molecule and angle. *)
Theorem C79_axis_partial t d mol : mol <> [] ->
  struct_positions [d] [mk3 t 0 0] mol 1 =
  inl (map (fun v => add3 (mk3 (x3 v) (cos t * y3 v - sin t * z3 v) (sin t * y3 v + cos t * z3 v)) d) mol, mol).
Proof.
  intros N. unfold struct_positions. cbn [map x3 y3 z3 repeat]. rewrite from_euler_x.
  rewrite m2p_one by (auto; apply unit_xquat). cbn [ebind]. rewrite m2p_one by (auto; apply unit_one). cbn [ebind].
  f_equal. unfold own_particles. cbn [zip]. f_equal; clear N.
  - induction mol as [|v mol IH]; cbn; auto. f_equal; auto. rewrite rot_xquat. reflexivity.
  - induction mol as [|v mol IH]; cbn; auto. f_equal; auto. rewrite rot_one. apply add3_zero_r.
Qed.
Print Assumptions C79_axis_partial.
(** A planar molecule with particles on its x axis that turned by pi: its particles have
    moved by 2, the code finds that none has moved. *)
Theorem C79_axis_refuted : exists t mol x,
  Forall (fun v => norm3 (sub3 (rot (zquat t) v) v) = 2) mol /\ x < 2 /\
  struct_relax [zero3] [mk3 t 0 0] mol 1 x = inl 1.
Proof.
  exists PI, [mk3 1 0 0; mk3 (-1) 0 0], 1. split; [|split].
  - repeat constructor; rewrite rot_zquat, cos_PI, sin_PI; unfold norm3, norm2_3, dot3, sub3; cbn;
      match goal with |- sqrt ?e = 2 => replace e with (2 * 2) by ring end; apply sqrt_square; lra.
  - lra.
  - unfold struct_relax. rewrite C79_axis_partial by discriminate. cbn [ebind fst snd map].
    unfold bzip. cbn [length Nat.eqb zip ebind map].
    assert (Z : forall v, y3 v = 0 -> z3 v = 0 -> norm3 (sub3 (add3 (mk3 (x3 v) (cos PI * y3 v - sin PI * z3 v) (sin PI * y3 v + cos PI * z3 v)) zero3) v) = 0).
    { intros v Y Z. replace (sub3 _ v) with zero3; [apply norm3_zero|]. unfold sub3, add3, zero3. cbn. rewrite Y, Z. apply v3_eq; ring. }
    rewrite (Z (mk3 1 0 0)), (Z (mk3 (-1) 0 0)) by reflexivity.
    f_equal. rewrite structural_fraction. unfold fraction. cbn [filter length]. rewrite Rltb_true by lra. cbn. lra.
Qed.
Print Assumptions C79_axis_refuted.
