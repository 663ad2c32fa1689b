(** C222: a frame that occurs twice. *)
From Coq Require Import String Reals ZArith QArith List Bool Permutation Lia Lra Arith.
From Verif Require Import Base DictFacts XNum RVec RVecFacts RelaxFitModel FrameModel
  MotionModel MotionSpec MotionProofs MotionProps DynModel DynSpec DynProofs DynStruct DynProps DynPerm
  MolRelaxModel MolRelaxSpec MolRelaxProofs MolRelaxDefs MolRelaxProps
  EndModel DynTrue EndSpec RenumberSpec RenumberProps PartSpec PartProps EndProps AxesProps BackSpec BackProps TwiceSpec.
Import ListNotations.
Open Scope list_scope.
Open Scope R_scope.
Notation length := List.length.

(** ** The motion *)
Lemma wrap_zero wrap b : wrap_ok wrap -> box_ok b -> wrap b zero3 = zero3.
Proof.
  intros W B. apply (wrap_small wrap b zero3 zero3 W B).
  - replace (sub3 zero3 zero3) with zero3 by (unfold sub3, zero3; cbn [x3 y3 z3]; apply v3_eq; cbn; lra). apply is_lattice_zero.
  - unfold below_half, coord_a, coord_b, coord_c, zero3. cbn [x3 y3 z3].
    replace ((0 - bxy b * (0 - byz b * 0) - bxz b * 0) / bx b) with 0 by (unfold Rdiv; ring).
    replace ((0 - byz b * 0) / by_ b) with 0 by (unfold Rdiv; ring). replace (0 / bz b) with 0 by (unfold Rdiv; ring).
    rewrite Rabs_R0. split; [lra|]. split; [lra|]. split; intros; lra.
Qed.
Lemma divide_self q : qnorm2 q <> 0 -> qdivide q q = zquat 0.
Proof.
  intros H. unfold qdivide, qinv, qmul, zquat. replace (0 / 2) with 0 by lra. rewrite cos_0, sin_0. cbn [qw qx qy qz].
  unfold qnorm2 in *. f_equal; field; exact H.
Qed.
Lemma same_euler gimbal q : Forall (fun x => qnorm2 x <> 0) q -> to_euler_all gimbal (zip qdivide q q) = inl (map (fun _ => zero3) q).
Proof.
  intros H. pose proof PI_RGT_0.
  assert (E : to_euler gimbal (zquat 0) = zero3) by (rewrite (to_euler_z gimbal (zquat 0) 0); [reflexivity|lra|left; reflexivity]).
  assert (U : unitb (zquat 0) = true) by (unfold unitb; destruct (Req_EM_T _ 1) as [|N]; auto; exfalso; apply N; apply (turned_unit _ 0); left; reflexivity).
  unfold to_euler_all. assert (Z : zip qdivide q q = map (fun _ => zquat 0) q) by (induction H; cbn [zip map]; auto; rewrite divide_self, IHForall; auto).
  rewrite Z. assert (A : forallb unitb (map (fun _ : RVec.quat => zquat 0) q) = true) by (clear - U; induction q; cbn [map forallb]; auto; rewrite U; auto).
  rewrite A, map_map. f_equal. apply map_ext. intros _. exact E.
Qed.
Lemma minus_zero (wrap : fbox -> v3 -> v3) b (Z : wrap b zero3 = zero3) dt : forall p, length dt = length p -> zip sub3 dt (map (wrap b) (zip sub3 p p)) = dt.
Proof.
  induction dt as [|d dt IH]; intros [|x p] L; cbn [zip map length] in *; try discriminate; auto. rewrite IH by lia. f_equal.
  replace (sub3 x x) with zero3 by (unfold sub3, zero3; apply v3_eq; cbn; lra). rewrite Z. destruct d. unfold sub3, zero3. apply v3_eq; cbn; lra.
Qed.
Lemma plus_zero {A} dr : forall q : list A, length dr = length q -> zip add3 dr (map (fun _ => zero3) q) = dr.
Proof.
  induction dr as [|d dr IH]; intros [|x q] L; cbn [zip map length] in *; try discriminate; auto. rewrite IH by lia. f_equal. destruct d. unfold add3, zero3. apply v3_eq; cbn; lra.
Qed.
Section Motion.
  Variables (wrap : fbox -> v3 -> v3) (gimbal : RVec.quat -> v3) (n : nat) (b : fbox).
  Hypothesis Z : wrap b zero3 = zero3.
  Lemma keeps m p o m' : DynPerm.sized n m -> length p = n -> DynPerm.sized_ori n o -> motion_add wrap gimbal m p o = (m', None) ->
    DynPerm.sized n m' /\ m_box m' = m_box m /\ m_ppos m' = p /\ m_pori m' = o.
  Proof.
    intros S Lp Lo E. destruct (pick_add [] n (fun i (H : In i []) => match H with end) wrap gimbal m p o m' S Lp Lo E) as [_ S'].
    split; [exact S'|]. destruct S as (L1 & L2 & L3 & L4). destruct (add_ok wrap gimbal m p o m') as (A & _ & B & C); auto; congruence.
  Qed.
  Lemma motion_twice m p o m' : DynPerm.sized n m -> m_box m = b -> length p = n -> DynPerm.sized_ori n o ->
    match o with Some q => Forall (fun x => qnorm2 x <> 0) q | None => True end ->
    motion_add wrap gimbal m p o = (m', None) -> motion_add wrap gimbal m' p o = (m', None).
  Proof.
    intros S Bx Lp Lo Po E. destruct (keeps m p o m' S Lp Lo E) as ((L1 & L2 & L3 & L4) & B' & P' & O').
    destruct m' as [mb dt dr pp po]. cbn [m_box m_dt m_dr m_ppos m_pori] in *. subst pp po. rewrite Bx in B'. subst mb.
    unfold motion_add. cbn [m_box m_dt m_dr m_ppos m_pori]. rewrite bzip_eq by auto. cbn [MotionModel.ebind].
    rewrite inplace_eq by (rewrite map_length, zip_length; congruence). rewrite (minus_zero wrap b Z) by congruence.
    destruct o as [q|]; [|reflexivity]. cbn in L4. rewrite bzip_eq by auto. cbn [MotionModel.ebind].
    rewrite same_euler by auto. cbn [MotionModel.ebind]. rewrite inplace_eq by (rewrite map_length; congruence). rewrite plus_zero by congruence. reflexivity.
  Qed.
End Motion.

(** ** The relaxation times *)
Lemma first_twice thr t : forall d s, length d = length s -> first_update thr t d (first_update thr t d s) = first_update thr t d s.
Proof.
  unfold first_update, set_where. induction d as [|x d IH]; intros [|y s] L; cbn [map zip_with length] in *; try discriminate; auto.
  rewrite IH by lia. f_equal. destruct (xgt x thr); cbn [andb]; auto. destruct (y >? t)%Z eqn:E; [|rewrite E; auto]. destruct (t >? t)%Z; auto.
Qed.
Lemma last_twice thr irr t : forall d s st, length d = length s -> length d = length st ->
  last_update thr irr t d (fst (last_update thr irr t d s st)) (snd (last_update thr irr t d s st)) = last_update thr irr t d s st.
Proof.
  unfold last_update, set_where. cbv zeta. cbn [fst snd].
  induction d as [|x d IH]; intros [|y s] [|z st] L L'; cbn [zip_with length] in *; try discriminate; auto.
  specialize (IH s st ltac:(lia) ltac:(lia)). injection IH as I1 I2. apply f_equal2; (apply f_equal2; [|assumption]); clear I1 I2;
    unfold xgt; destruct (xlt thr x) eqn:E1; [rewrite (xlt_asym _ _ E1)| |rewrite (xlt_asym _ _ E1)|];
    destruct (xlt x thr) eqn:E2; try (rewrite (xlt_asym _ _ E2) in E1; discriminate);
    destruct z as [|[|z]]; cbn [Nat.eqb andb]; destruct (xlt irr x); cbn [Nat.eqb andb]; reflexivity.
Qed.
Lemma mr_twice n t d r r' : MolRelaxDefs.sized n r -> length d = n -> mr_add t d r = inl r' -> mr_add t d r' = inl r'.
Proof.
  intros S L E. destruct (mr_add_sized n t d r S L) as (r0 & E0 & [S1 S2] & _). rewrite E in E0. injection E0 as <-.
  unfold mr_add at 1. rewrite S1, L, Nat.eqb_refl. cbn [negb]. destruct S as [H1 H2].
  unfold mr_add in E. rewrite H1, L, Nat.eqb_refl in E. cbn [negb] in E. destruct (mr_last r) as [[st irr]|] eqn:El.
  - destruct (last_update (mr_threshold r) irr t d (mr_status r) st) as [s' st'] eqn:Eu. injection E as <-. cbn [mr_last mr_threshold mr_status mr_type].
    assert (T := last_twice (mr_threshold r) irr t d (mr_status r) st ltac:(congruence) ltac:(congruence)). rewrite Eu in T. cbn [fst snd] in T. rewrite T. reflexivity.
  - injection E as <-. cbn [mr_last mr_threshold mr_status mr_type]. rewrite first_twice by congruence. reflexivity.
Qed.
Lemma loop_twice n t disp rot d : length disp = n -> length rot = n -> Forall (fun p => MolRelaxDefs.sized n (snd p)) d ->
  forall d', relax_loop t disp rot d = (d', None) -> relax_loop t disp rot d' = (d', None).
Proof.
  intros Ld Lr. induction d as [|[k r] d IH]; intros H d' E; cbn [relax_loop] in E; [injection E as <-; reflexivity|].
  pose proof (Forall_inv H) as Hr. cbn [snd] in Hr. set (x := match mr_type r with rotation => rot | translation => disp end) in *.
  assert (Lx : length x = n) by (subst x; destruct (mr_type r); auto).
  destruct (mr_add_sized n t x r Hr Lx) as (r' & E1 & _ & Ty). rewrite E1 in E.
  destruct (relax_loop t disp rot d) as [d1 e] eqn:E2. injection E as <- ->. cbn [relax_loop]. rewrite Ty. fold x.
  rewrite (mr_twice n t x r r' Hr Lx E1). rewrite (IH (Forall_inv_tail H) d1 eq_refl). reflexivity.
Qed.
Section Objects.
  Variables (wrap : fbox -> v3 -> v3) (gimbal : RVec.quat -> v3) (fl : R -> xnum) (parse : string -> option xnum) (show : yaml -> string) (n : nat) (b : fbox).
  Hypothesis Z : wrap b zero3 = zero3.
  Definition robj_ok (r : robj) : Prop :=
    DynPerm.sized n (r_motion r) /\ m_box (r_motion r) = b /\ r_num r = n /\ Forall (fun p => MolRelaxDefs.sized n (snd p)) (rx_relax (r_relax r)).
  Lemma radd_twice r f r1 : robj_ok r -> of_size n f -> oriented f -> radd wrap gimbal fl r f = (r1, None) ->
    robj_ok r1 /\ radd wrap gimbal fl r1 f = (r1, None).
  Proof.
    intros (S & Bx & N & F) [Lp Lo] O. unfold radd.
    destruct (motion_add wrap gimbal (r_motion r) (e_pos f) (e_ori f)) as [m [e|]] eqn:Em; [discriminate|].
    destruct (keeps wrap gimbal n _ _ _ _ S Lp Lo Em) as (S' & B' & _). assert (M2 := motion_twice wrap gimbal n b Z _ _ _ _ S Bx Lp Lo O Em).
    unfold relaxations_add. pose proof S' as (L1 & L2 & _).
    set (disp := map fl (displacement (m_dt m))). set (rot := map fl (displacement (m_dr m))).
    assert (Ld : length disp = n) by (unfold disp, displacement; rewrite !map_length; auto). assert (Lr : length rot = n) by (unfold rot, displacement; rewrite !map_length; auto).
    destruct (pick_relax_loop [] n (fun i (H : In i []) => match H with end) (e_ts f - rx_init_time (r_relax r)) disp rot (rx_relax (r_relax r)) Ld Lr F) as [_ F'].
    destruct (relax_loop (e_ts f - rx_init_time (r_relax r)) disp rot (rx_relax (r_relax r))) as [x e] eqn:Ex. cbn [fst] in F'. intros [= <- ->].
    split; [split; [exact S'|]; cbn; rewrite B'; auto|]. cbn [r_motion r_num r_relax rx_init_time rx_relax]. rewrite M2. fold disp rot.
    rewrite (loop_twice n _ _ _ _ Ld Lr F x Ex). reflexivity.
  Qed.
  Lemma each_twice f ys : of_size n f -> oriented f -> forall xs r, robj_ok r -> Forall (of_size n) xs -> Forall oriented xs ->
    add_each wrap gimbal fl r (xs ++ f :: f :: ys) = add_each wrap gimbal fl r (xs ++ f :: ys).
  Proof.
    intros Sf Of. induction xs as [|x xs IH]; intros r H Sx Ox; cbn [app add_each].
    - destruct (radd wrap gimbal fl r f) as [r1 [e|]] eqn:E; [reflexivity|]. destruct (radd_twice r f r1 H Sf Of E) as [_ E2]. rewrite E2. reflexivity.
    - destruct (radd wrap gimbal fl r x) as [r1 [e|]] eqn:E; [reflexivity|].
      apply IH; [apply (radd_twice r x r1 H (Forall_inv Sx) (Forall_inv Ox) E)|apply (Forall_inv_tail Sx)|apply (Forall_inv_tail Ox)].
  Qed.
  Lemma dyn_twice f ys : of_size n f -> oriented f -> forall xs d, DynPerm.sized n (d_motion d) -> m_box (d_motion d) = b -> Forall (of_size n) xs ->
    dyn_each wrap gimbal d (xs ++ f :: f :: ys) = dyn_each wrap gimbal d (xs ++ f :: ys).
  Proof.
    intros [Lp Lo] Of. induction xs as [|x xs IH]; intros d S Bx Sx; cbn [app dyn_each]; unfold dyn_add.
    - destruct (motion_add wrap gimbal (d_motion d) (e_pos f) (e_ori f)) as [m [e|]] eqn:Em; [reflexivity|]. cbn [d_motion d_timestep d_num d_mol d_wave d_res].
      rewrite (motion_twice wrap gimbal n b Z _ _ _ _ S Bx Lp Lo Of Em). reflexivity.
    - destruct (motion_add wrap gimbal (d_motion d) (e_pos x) (e_ori x)) as [m [e|]] eqn:Em; [reflexivity|].
      destruct (keeps wrap gimbal n _ _ _ _ S (proj1 (Forall_inv Sx)) (proj2 (Forall_inv Sx)) Em) as (S' & B' & _).
      apply IH; cbn [d_motion]; auto; [congruence|apply (Forall_inv_tail Sx)].
  Qed.
  Lemma set_sized defs x e : set_mol_relax parse show n defs = (x, e) -> Forall (fun p => MolRelaxDefs.sized n (snd p)) x.
  Proof.
    unfold set_mol_relax. intros E. destruct (pick_loop [] n (fun i (H : In i []) => match H with end) parse show defs [] (Forall_nil _)) as [_ F]. rewrite E in F. exact F.
  Qed.
  Lemma init_sized p o m : length p = n -> DynPerm.sized_ori n o -> motion_init b p o = inl m -> DynPerm.sized n m /\ m_box m = b.
  Proof.
    unfold motion_init. intros Lp Lo H. assert (E : m = mkmotion b (map (fun _ => zero3) p) (map (fun _ => zero3) p) p o) by (destruct o as [[|]|]; congruence).
    subst m. repeat split; cbn; rewrite ?map_length; auto.
  Qed.
End Objects.

(** * C222 *)
Theorem C222_twice wrap gimbal fl parse show k defs mol wave n f0 xs f ys :
  wrap_ok wrap -> has_area f0 -> Forall (of_size n) (f0 :: xs ++ [f]) -> Forall oriented (xs ++ [f]) ->
  relaxations_of wrap gimbal fl parse show k defs f0 (xs ++ f :: f :: ys) = relaxations_of wrap gimbal fl parse show k defs f0 (xs ++ f :: ys) /\
  dynamics_of wrap gimbal mol wave f0 (xs ++ f :: f :: ys) = dynamics_of wrap gimbal mol wave f0 (xs ++ f :: ys).
Proof.
  intros W (b & Eb & B) S O. pose proof (Forall_inv S) as [Lp Lo]. apply Forall_inv_tail, Forall_app in S as [Sx Sf]. apply Forall_inv in Sf.
  apply Forall_app in O as [Ox Of]. apply Forall_inv in Of. assert (Z := wrap_zero wrap b W B). split.
  - unfold relaxations_of, make_relaxations. rewrite Eb. cbn [MotionModel.ebind].
    destruct (motion_init b (e_pos f0) (e_ori f0)) as [m|] eqn:Em; cbn [MotionModel.ebind]; [|reflexivity].
    destruct (init_sized n b _ _ _ Lp Lo Em) as [Sm Bm]. destruct (Req_EM_T k 0); [reflexivity|]. rewrite Lp.
    destruct (set_mol_relax parse show n _) as [x [e|]] eqn:Ex; [reflexivity|]. apply set_sized in Ex.
    unfold custom. destruct defs as [ds|].
    + cbn [r_num]. destruct (set_mol_relax parse show n ds) as [y [e|]] eqn:Ey; [reflexivity|]. apply set_sized in Ey.
      apply (each_twice wrap gimbal fl n b Z); auto. repeat split; cbn; auto; apply Sm.
    + apply (each_twice wrap gimbal fl n b Z); auto. repeat split; cbn; auto; apply Sm.
  - unfold dynamics_of, make_dynamics, dyn_init. destruct (e_pos f0) as [|p ps]; [reflexivity|]. rewrite Eb. cbn [MotionModel.ebind].
    destruct (motion_init b (p :: ps) (e_ori f0)) as [m|] eqn:Em; cbn [MotionModel.ebind]; [|reflexivity].
    destruct (init_sized n b _ _ _ Lp Lo Em) as [Sm Bm]. apply (dyn_twice wrap gimbal n b Z); auto.
Qed.
Print Assumptions C222_twice.
(** Ten molecules move by 1 and turn by a right angle; the second frame occurs three times. *)
Example C222_example : has_area bk0 /\ Forall (of_size 10) [bk0; bk1; bk1] /\ Forall oriented [bk1; bk1] /\ exists d q,
  dynamics_of freud_wrap (fun _ => zero3) [mk3 0 1 0] (Some 1) bk0 [bk1; bk1; bk1] = inl d /\
  quantities sort_index d 100 true = inl q /\ dget String.eqb "msd"%string q = Some (VFl (FR 1)).
Proof.
  assert (Sz : forall ts x y q, of_size 10 (gf ts x y q)) by (intros; split; cbn; auto).
  assert (Bo : has_area bk0) by (exists ebox; split; [reflexivity|apply ebox_ok]).
  assert (Or : oriented bk1).
  { unfold oriented, bk1, gf. cbn [e_ori]. apply Forall_forall. intros q I. apply repeat_spec in I. subst q.
    assert (U := turned_unit (zquat (PI / 2)) (PI / 2) (or_introl eq_refl)). unfold unit in U. lra. }
  assert (F3 : Forall (of_size 10) [bk0; bk1; bk1]) by (repeat constructor). assert (O1 : Forall oriented [bk1]) by (apply Forall_cons; [exact Or|apply Forall_nil]).
  assert (O2 : Forall oriented [bk1; bk1]) by (apply Forall_cons; [exact Or|exact O1]).
  split; [exact Bo|]. split; [exact F3|]. split; [exact O2|].
  destruct (C222_twice freud_wrap (fun _ => zero3) (fun _ => Fin 0) (fun _ => None) (fun _ => EmptyString) 1 None [mk3 0 1 0] (Some 1) 10 bk0 [bk1] bk1 [] freud_wrap_ok Bo F3 O2) as [_ T1].
  destruct (C222_twice freud_wrap (fun _ => zero3) (fun _ => Fin 0) (fun _ => None) (fun _ => EmptyString) 1 None [mk3 0 1 0] (Some 1) 10 bk0 [] bk1 [] freud_wrap_ok Bo) as [_ T2].
  { repeat constructor. } { exact O1. }
  cbn [app] in T1, T2. rewrite T1, T2. destruct bk_seen as [F C].
  assert (W1 : Some 1 <> Some 0) by (intros X; injection X; lra).
  destruct (C221_backwards freud_wrap (fun _ => zero3) sort_index [mk3 0 1 0] (Some 1) ebox 10 100 bk0 [bk1] bs0 [bs1] (reclock 100 bk1) [reclock 100 bk0] true
    freud_wrap_ok sort_index_ok ebox_ok ltac:(lia) W1 ltac:(discriminate) F C eq_refl) as (d & d' & q & q' & E & E' & Q & _).
  exists d, q. split; [exact E|]. split; [exact Q|].
  destruct (of_follows freud_wrap (fun _ => zero3) ebox 10 [mk3 0 1 0] (Some 1) bk0 [bk1] bs0 [bs1] freud_wrap_ok ebox_ok ltac:(lia) F C) as (d1 & X & Fo & _ & D2 & D3 & D4 & _).
  rewrite E in X. injection X as <-. cbn [last] in Fo. destruct Fo as (_ & M1 & _ & (o & Mo & _) & M2 & _).
  unfold bs0, bs1 in M1, M2. cbn [fst snd] in M1, M2. rewrite zip_rep in M1. rewrite zip_rep, map_rep in M2.
  destruct (bk_struct d _ _ q _ _ Q M1 M2 D2 D3 D4 (ex_intro _ o Mo)) as [_ ->].
  apply (f_equal (fun z => Some (VFl (FR z)))). unfold norm2_3, dot3, sub3. cbn [x3 y3 z3]. lra.
Qed.
