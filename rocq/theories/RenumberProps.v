(** C206: the analysis of a trajectory in which the molecules are numbered in another way. *)
From Coq Require Import String Reals ZArith QArith List Bool Permutation Lia Lra Arith.
From Verif Require Import Base DictFacts XNum RVec RVecFacts RelaxFitModel FrameModel PyStr
  MotionModel MotionSpec MotionProofs MotionProps DynModel DynSpec DynProofs DynStruct DynProps DynPerm DynTrue
  ParamsModel WriteCacheModel ProcessModel ProcessSpec ProcessProps ProcessPathModel ProcessPathProps MolRelaxModel MolRelaxSpec MolRelaxProofs MolRelaxDefs
  EndModel EndSpec EndProofs EndProps WaveModel WaveSpec WaveProps SimProofs ShiftSpec ShiftProps RenumberSpec.
Import ListNotations.
Open Scope list_scope.
Open Scope R_scope.
Notation length := List.length.

Lemma zip_with_zip {A B C} (f : A -> B -> C) a b : zip_with f a b = zip f a b.
Proof. revert b. induction a as [|x a IH]; intros [|y b]; cbn; f_equal; auto. Qed.
Lemma zip_len {A B C} (f : A -> B -> C) a b n : length a = n -> length b = n -> length (zip f a b) = n.
Proof. intros <- E. apply zip_length. congruence. Qed.

Section Renumber.
  Variable idx : list nat.
  Variable n : nat.
  Hypothesis P : Permutation idx (seq 0 n).

  (** ** Relaxations *)
  Definition reorder_mr (r : molrel) : molrel :=
    {| mr_threshold := mr_threshold r; mr_status := reorder 0%Z idx (mr_status r); mr_type := mr_type r;
       mr_last := option_map (fun x => (reorder 0%nat idx (fst x), snd x)) (mr_last r) |}.
  Lemma reorder_repeat {A} (d x : A) : reorder d idx (repeat x n) = repeat x n.
  Proof.
    assert (G : forall l, (forall i, In i l -> (i < n)%nat) -> map (fun i => nth i (repeat x n) d) l = repeat x (length l)).
    { induction l as [|i l IH]; intros H; cbn [map length repeat]; auto. f_equal; [apply nth_rep, H; left; auto|apply IH; intros j I; apply H; right; auto]. }
    unfold reorder. rewrite G by apply (idx_lt idx n P). rewrite (idx_len idx n P). reflexivity.
  Qed.
  Lemma fresh_fixed thr cut l ty r : fresh n thr cut l ty r -> reorder_mr r = r.
  Proof.
    intros (A & B & C & D & E). destruct r as [a b c d]. cbn in *. unfold reorder_mr. cbn. subst. rewrite reorder_repeat.
    destruct l; cbn [option_map fst snd]; [rewrite reorder_repeat|]; reflexivity.
  Qed.
  Lemma set_fixed parse show defs : forall acc, Forall (fun p => reorder_mr (snd p) = snd p /\ MolRelaxDefs.sized n (snd p)) acc ->
    Forall (fun p => reorder_mr (snd p) = snd p /\ MolRelaxDefs.sized n (snd p)) (fst (set_loop parse show n defs acc)).
  Proof.
    induction defs as [|d defs IH]; intros acc H; cbn [set_loop]; auto.
    destruct (make_relax parse show n d) as [[nm r]|e] eqn:E; auto.
    apply IH. destruct (make_sound parse show n d nm r E) as (thr & cut & l & ty & _ & F).
    assert (G : reorder_mr r = r /\ MolRelaxDefs.sized n r) by (split; [eapply fresh_fixed; eauto|eapply fresh_sized; eauto]).
    clear - H G. induction acc as [|[k x] acc IH]; cbn [dset]; [constructor; auto|]. inversion H; subst.
    destruct (String.eqb nm k); constructor; auto.
  Qed.
  Lemma reorder_set mask (v : Z) a : length mask = n -> length a = n ->
    set_where (reorder false idx mask) v (reorder 0%Z idx a) = reorder 0%Z idx (set_where mask v a).
  Proof. intros. unfold set_where. rewrite !zip_with_zip. apply (reorder_zip idx n P); auto. Qed.
  Lemma reorder_set_n mask (v : nat) a : length mask = n -> length a = n ->
    set_where (reorder false idx mask) v (reorder 0%nat idx a) = reorder 0%nat idx (set_where mask v a).
  Proof. intros. unfold set_where. rewrite !zip_with_zip. apply (reorder_zip idx n P); auto. Qed.
  Lemma set_len {A} mask (v : A) a : length mask = n -> length a = n -> length (set_where mask v a) = n.
  Proof. intros. unfold set_where. rewrite zip_with_zip. apply zip_len; auto. Qed.
  Lemma reorder_mr_add t d r : MolRelaxDefs.sized n r -> length d = n ->
    mr_add t (reorder (Fin 0) idx d) (reorder_mr r) = match mr_add t d r with inl r' => inl (reorder_mr r') | inr e => inr e end.
  Proof.
    intros [H1 H2] Hd. unfold mr_add. cbn [reorder_mr mr_status mr_threshold mr_last mr_type].
    rewrite !(reorder_len idx n P), H1, Hd, Nat.eqb_refl. cbn [negb].
    destruct (mr_last r) as [[st irr]|] eqn:El; cbn [option_map fst snd].
    - unfold last_update. cbv zeta.
      assert (Z : forall (f : xnum -> nat -> bool) s, length s = n -> zip_with f (reorder (Fin 0) idx d) (reorder 0%nat idx s) = reorder false idx (zip_with f d s)).
      { intros f s Hs. rewrite !zip_with_zip. apply (reorder_zip idx n P); auto. }
      assert (ZL : forall (f : xnum -> nat -> bool) s, length s = n -> length (zip_with f d s) = n) by (intros; rewrite zip_with_zip; apply zip_len; auto).
      rewrite Z by auto. rewrite reorder_set by auto. rewrite reorder_set_n by auto.
      set (s1 := set_where (zip_with (fun d0 s => xgt d0 (mr_threshold r) && (s =? 0)%nat) d st) 1%nat st).
      assert (L1 : length s1 = n) by (apply set_len; auto).
      rewrite Z by auto. rewrite reorder_set_n by auto.
      set (s2 := set_where (zip_with (fun d0 s => xlt d0 (mr_threshold r) && (s =? 1)%nat) d s1) 0%nat s1).
      assert (L2 : length s2 = n) by (apply set_len; auto).
      rewrite Z by auto. rewrite reorder_set_n by auto. reflexivity.
    - unfold first_update. cbv zeta.
      rewrite (reorder_map idx n P _ (Fin 0) false) by auto. rewrite (reorder_map idx n P _ 0%Z false) by auto.
      rewrite !zip_with_zip. rewrite (reorder_zip idx n P andb false false false) by (rewrite map_length; auto).
      rewrite reorder_set by (auto; apply zip_len; rewrite map_length; auto). reflexivity.
  Qed.
  Definition reorder_all (d : dict string molrel) : dict string molrel := map (fun p => (fst p, reorder_mr (snd p))) d.
  Lemma reorder_relax_loop t disp rot d : length disp = n -> length rot = n -> Forall (fun p => MolRelaxDefs.sized n (snd p)) d ->
    relax_loop t (reorder (Fin 0) idx disp) (reorder (Fin 0) idx rot) (reorder_all d) =
      (reorder_all (fst (relax_loop t disp rot d)), snd (relax_loop t disp rot d)) /\
    Forall (fun p => MolRelaxDefs.sized n (snd p)) (fst (relax_loop t disp rot d)).
  Proof.
    intros Ld Lr. induction d as [|[k r] d IH]; intros H; [split; [reflexivity|constructor]|]. pose proof (Forall_inv H) as Hr. pose proof (Forall_inv_tail H) as Hd. cbn [snd] in Hr.
    cbn [reorder_all map relax_loop fst snd]. fold (reorder_all d). change (mr_type (reorder_mr r)) with (mr_type r).
    replace (match mr_type r with rotation => reorder (Fin 0) idx rot | translation => reorder (Fin 0) idx disp end)
      with (reorder (Fin 0) idx (match mr_type r with rotation => rot | translation => disp end)) by (destruct (mr_type r); reflexivity).
    assert (LL : length (match mr_type r with rotation => rot | translation => disp end) = n) by (destruct (mr_type r); auto).
    rewrite reorder_mr_add by auto. destruct (mr_add_sized n t _ r Hr LL) as (r' & -> & S1 & _).
    destruct (IH Hd) as [E1 E2]. rewrite E1. destruct (relax_loop t disp rot d) as [d' e]. cbn [fst snd] in *. split; [reflexivity|]. constructor; auto.
  Qed.
  Lemma reorder_status r : MolRelaxDefs.sized n r -> get_status (reorder_mr r) = reorder 0%Z idx (get_status r).
  Proof.
    intros [H1 H2]. unfold get_status. cbn [reorder_mr mr_last mr_status]. destruct (mr_last r) as [[st irr]|]; cbn [option_map fst snd]; auto.
    rewrite (reorder_map idx n P _ 0%nat false) by auto. apply reorder_set; auto. rewrite map_length. auto.
  Qed.
  Lemma status_sized r : MolRelaxDefs.sized n r -> length (get_status r) = n.
  Proof.
    intros [H1 H2]. unfold get_status. destruct (mr_last r) as [[st irr]|]; auto. apply set_len; auto. rewrite map_length. auto.
  Qed.

  (** ** process_file *)
  Variable wrap : fbox -> v3 -> v3.
  Variable gimbal : RVec.quat -> v3.
  Variable argsort : list R -> list nat.
  Variable fl : R -> xnum.
  Variable calculate : fbox -> list v3 -> R + exn.
  Variable parse : string -> option xnum.
  Variable show : yaml -> string.
  Variable mol : list v3.
  Variable wave : option R.
  Variable scattering : bool.
  Variable defs : option (list definition).
  Hypothesis Hcalc : wave = None -> calc_symmetric calculate.

  (** A row without "overlap" and "struct" *)
  Definition strip (q : dict string dval) : dict string dval :=
    filter (fun p => negb (String.eqb (fst p) "overlap" || String.eqb (fst p) "struct")) q.
  Lemma strip_get q key : key <> "overlap"%string -> key <> "struct"%string -> dget String.eqb key (strip q) = dget String.eqb key q.
  Proof.
    intros N1 N2. induction q as [|[k v] q IH]; auto. cbn [strip filter fst dget].
    destruct (String.eqb_spec k "overlap") as [->|M1]; [apply String.eqb_neq in N1; rewrite N1; exact IH|].
    destruct (String.eqb_spec k "struct") as [->|M2]; [apply String.eqb_neq in N2; rewrite N2; exact IH|].
    cbn [orb negb dget]. destruct (String.eqb key k); auto.
  Qed.
  Lemma strip_rows t md s4 s5 mr sr r1 r2 al sc cs ar g ov st ov' st' :
    strip (row t md s4 s5 mr sr r1 r2 al sc cs ar g ov st) = strip (row t md s4 s5 mr sr r1 r2 al sc cs ar g ov' st').
  Proof. reflexivity. Qed.
  Lemma strip_same q q' t md s4 s5 mr sr r1 r2 al sc cs ar g ov st t' md' s4' s5' mr' sr' r1' r2' al' sc' cs' ar' g' ov' st' :
    q = row t md s4 s5 mr sr r1 r2 al sc cs ar g ov st -> q' = row t' md' s4' s5' mr' sr' r1' r2' al' sc' cs' ar' g' ov' st' ->
    same_row q q' -> strip q' = strip q.
  Proof.
    intros -> -> [_ H].
    pose proof (H "time"%string ltac:(discriminate) ltac:(discriminate)) as X1. pose proof (H "mean_displacement"%string ltac:(discriminate) ltac:(discriminate)) as X2.
    pose proof (H "msd"%string ltac:(discriminate) ltac:(discriminate)) as X3. pose proof (H "mfd"%string ltac:(discriminate) ltac:(discriminate)) as X4.
    pose proof (H "alpha"%string ltac:(discriminate) ltac:(discriminate)) as X5. pose proof (H "scattering_function"%string ltac:(discriminate) ltac:(discriminate)) as X6.
    pose proof (H "com_struct"%string ltac:(discriminate) ltac:(discriminate)) as X7. pose proof (H "mean_rotation"%string ltac:(discriminate) ltac:(discriminate)) as X8.
    pose proof (H "msr"%string ltac:(discriminate) ltac:(discriminate)) as X9. pose proof (H "rot1"%string ltac:(discriminate) ltac:(discriminate)) as Y1.
    pose proof (H "rot2"%string ltac:(discriminate) ltac:(discriminate)) as Y2. pose proof (H "alpha_rot"%string ltac:(discriminate) ltac:(discriminate)) as Y3.
    pose proof (H "gamma"%string ltac:(discriminate) ltac:(discriminate)) as Y4. clear H.
    cbn [row dget String.eqb Ascii.eqb Bool.eqb] in *. unfold row, strip. cbn [filter fst String.eqb Ascii.eqb Bool.eqb orb negb]. congruence.
  Qed.
  Lemma strip_result d ts : DynPerm.sized n (d_motion d) -> d_num d = n ->
    sum_rel (fun q q' => strip q' = strip q) (quantities argsort d ts scattering) (quantities argsort (reorder_dyn idx d) ts scattering).
  Proof.
    intros Z Ln. pose proof (reorder_quantities idx n P argsort d ts scattering Z Ln) as S.
    destruct (quantities argsort d ts scattering) as [q|e] eqn:Q, (quantities argsort (reorder_dyn idx d) ts scattering) as [q'|e'] eqn:Q'; cbn [same_result sum_rel] in *; auto.
    destruct (quantities_row _ _ _ _ _ Q) as (? & ? & ? & ? & ? & ? & _ & _ & _ & _ & _ & _ & E).
    destruct (quantities_row _ _ _ _ _ Q') as (? & ? & ? & ? & ? & ? & _ & _ & _ & _ & _ & _ & E').
    eapply strip_same; eauto.
  Qed.

  Definition RFr (f f' : eframe) : Prop := of_size n f /\ f' = renumber idx f.
  Definition RDr (d d' : dynamics) : Prop := d' = reorder_dyn idx d /\ DynPerm.sized n (d_motion d) /\ d_num d = n.
  Definition RRr (r r' : robj) : Prop :=
    r_motion r' = reorder_motion idx (r_motion r) /\ DynPerm.sized n (r_motion r) /\ r_num r = n /\ r_num r' = n /\
    rx_init_time (r_relax r') = rx_init_time (r_relax r) /\ rx_relax (r_relax r') = reorder_all (rx_relax (r_relax r)) /\
    Forall (fun p => MolRelaxDefs.sized n (snd p)) (rx_relax (r_relax r)).
  Definition bare (d : dynamics) (f : eframe) : dynamics * (dict string dval + exn) :=
    let (d', r) := compute wrap gimbal argsort scattering d f in (d', match r with inl q => inl (strip q) | inr e => inr e end).

  Lemma size_ori f : of_size n f -> DynPerm.sized_ori n (e_ori f).
  Proof. intros [_ H]. exact H. Qed.
  Lemma renumber_compute d d' f f' : RDr d d' -> RFr f f' ->
    RDr (fst (compute wrap gimbal argsort scattering d f)) (fst (bare d' f')) /\
    sum_rel (fun row row' => row' = strip row) (snd (compute wrap gimbal argsort scattering d f)) (snd (bare d' f')).
  Proof.
    intros (-> & Z & Ln) (S & ->). unfold bare, compute, compute_all, dyn_add. cbn [renumber e_ts e_box e_pos e_ori].
    destruct (reorder_add idx n P wrap gimbal (d_motion d) (e_pos f) (e_ori f) Z (proj1 S) (size_ori f S)) as [E1 E2].
    cbn [reorder_dyn d_motion d_timestep d_num d_mol d_wave d_res]. unfold reorder_ori in E1 |- *. rewrite E1.
    destruct (motion_add wrap gimbal (d_motion d) (e_pos f) (e_ori f)) as [m' e]. cbn [fst] in E2.
    set (d1 := mkdyn m' (d_timestep d) (d_num d) (d_mol d) (d_wave d) (d_res d)).
    change (mkdyn (reorder_motion idx m') (d_timestep d) (d_num d) (d_mol d) (d_wave d) (d_res d)) with (reorder_dyn idx d1).
    destruct e as [e|]; cbn [fst snd]; (split; [split; [reflexivity|split; auto]|]); [reflexivity|].
    assert (Q := strip_result d1 (e_ts f) E2 Ln).
    destruct (quantities argsort d1 (e_ts f) scattering), (quantities argsort (reorder_dyn idx d1) (e_ts f) scattering); cbn [sum_rel] in *; auto; contradiction.
  Qed.
  Lemma far_reorder l : length l = n -> map fl (displacement (reorder zero3 idx l)) = reorder (Fin 0) idx (map fl (displacement l)).
  Proof.
    intros L. unfold displacement. rewrite (reorder_map idx n P norm3 zero3 0) by auto. apply (reorder_map idx n P). rewrite map_length. auto.
  Qed.
  Lemma renumber_radd r r' f f' : RRr r r' -> RFr f f' ->
    RRr (fst (radd wrap gimbal fl r f)) (fst (radd wrap gimbal fl r' f')) /\ snd (radd wrap gimbal fl r' f') = snd (radd wrap gimbal fl r f).
  Proof.
    intros (M & Z & N1 & N2 & T & X & S) (Sf & ->). unfold radd. cbn [renumber e_ts e_box e_pos e_ori].
    destruct (reorder_add idx n P wrap gimbal (r_motion r) (e_pos f) (e_ori f) Z (proj1 Sf) (size_ori f Sf)) as [E1 E2].
    unfold reorder_ori in E1. rewrite M, E1. destruct (motion_add wrap gimbal (r_motion r) (e_pos f) (e_ori f)) as [m e]. cbn [fst] in E2.
    destruct e as [e|]; [cbn [fst snd]; split; [unfold RRr; cbn; auto 8|auto]|].
    pose proof E2 as (L1 & L2 & _). unfold relaxations_add. rewrite T, X. cbn [reorder_motion m_dt m_dr]. rewrite !far_reorder by auto.
    destruct (reorder_relax_loop (e_ts f - rx_init_time (r_relax r)) (map fl (displacement (m_dt m))) (map fl (displacement (m_dr m))) (rx_relax (r_relax r))) as [A B]; auto;
      [unfold displacement; rewrite !map_length; auto..|].
    rewrite A. destruct (relax_loop _ (map fl (displacement (m_dt m))) _ _) as [x e]. cbn [fst snd] in *. split; [|auto]. unfold RRr. cbn. auto 8.
  Qed.
  Lemma fixed_all d : Forall (fun p => reorder_mr (snd p) = snd p /\ MolRelaxDefs.sized n (snd p)) d ->
    d = reorder_all d /\ Forall (fun p => MolRelaxDefs.sized n (snd p)) d.
  Proof.
    induction d as [|[k r] d IH]; intros H; [split; [reflexivity|constructor]|]. inversion H as [|? ? [E S] H']; subst. destruct (IH H') as [E1 E2].
    split; [|constructor; auto]. cbn [reorder_all map fst snd] in *. fold (reorder_all d). rewrite <- E1, E. reflexivity.
  Qed.
  Lemma renumber_make f f' : RFr f f' ->
    sum_rel (fun x x' => RDr (fst x) (fst x') /\ RRr (snd x) (snd x'))
      (make fl calculate parse show mol wave f) (make fl calculate parse show mol wave f').
  Proof.
    intros (S & ->). unfold make, make_dynamics, make_relaxations.
    change (frame_box (renumber idx f)) with (frame_box f). cbn [renumber e_ts e_pos e_ori].
    assert (Lp := proj1 S). assert (Lr := reorder_len idx n P zero3 (e_pos f)).
    destruct (e_pos f) as [|p0 ps] eqn:Ep, (reorder zero3 idx (e_pos f)) as [|p0' ps'] eqn:Ep'; rewrite Ep in Ep'; rewrite Ep' in *; cbn [length] in *; try lia; [reflexivity|].
    destruct (frame_box f) as [b|e]; cbn [MotionModel.ebind]; [|reflexivity]. unfold dyn_init.
    assert (MI : match motion_init b (p0 :: ps) (e_ori f), motion_init b (p0' :: ps') (option_map (reorder qone idx) (e_ori f)) with
                 | inl m, inl m' => m' = reorder_motion idx m /\ DynPerm.sized n m | inr e, inr e' => e = e' | _, _ => False end).
    { assert (M : map (fun _ : v3 => zero3) (p0' :: ps') = reorder zero3 idx (map (fun _ => zero3) (p0 :: ps))) by (rewrite <- Ep'; apply (reorder_map idx n P); cbn; auto).
      pose proof (size_ori f S) as So. unfold motion_init. destruct (e_ori f) as [[|q o]|]; cbn [option_map].
      - cbn in So. destruct (reorder qone idx []) as [|q' o'] eqn:Eq; auto. assert (Hq := reorder_len idx n P qone []). rewrite Eq in Hq. cbn in Hq. lia.
      - assert (Hq := reorder_len idx n P qone (q :: o)). destruct (reorder qone idx (q :: o)) as [|q' o'] eqn:Eq; [cbn in *; lia|].
        cbn in So. unfold reorder_motion. cbn [m_box m_dt m_dr m_ppos m_pori reorder_ori option_map]. rewrite M, Eq, Ep'. split; [reflexivity|].
        repeat split; cbn; rewrite ?map_length; auto.
      - unfold reorder_motion. cbn [m_box m_dt m_dr m_ppos m_pori reorder_ori option_map]. rewrite M, Ep'. split; [reflexivity|].
        repeat split; cbn; rewrite ?map_length; auto. }
    destruct (motion_init b (p0 :: ps) (e_ori f)) as [m|e], (motion_init b (p0' :: ps') (option_map (reorder qone idx) (e_ori f))) as [m'|e']; try contradiction;
      cbn [MotionModel.ebind]; [|exact MI].
    destruct MI as [Em Sm].
    assert (EK : match wave with Some k => inl k | None => calculate b (p0' :: ps') end = match wave with Some k => inl k | None => calculate b (p0 :: ps) end).
    { destruct wave as [k|] eqn:Ew; [reflexivity|]. apply (Hcalc eq_refl b). rewrite <- Ep'. symmetry. apply (reorder_perm idx n P). cbn. auto. }
    rewrite EK. destruct (match wave with Some k => inl k | None => calculate b (p0 :: ps) end) as [k|e]; cbn [MotionModel.ebind]; [|reflexivity].
    destruct (Req_EM_T k 0); [reflexivity|]. cbn [length]. rewrite Lr, Lp.
    pose proof (set_fixed parse show (default_definitions (fl (PI / (2 * k))) (fl (PI / 2)) (fl (PI / 3)) (fl (PI / 4))) [] (Forall_nil _)) as SF.
    unfold set_mol_relax. destruct (set_loop parse show n _ []) as [r [e|]]; cbn [MotionModel.ebind]; [reflexivity|]. cbn [fst] in SF.
    destruct (fixed_all r SF) as [F1 F2].
    cbn [sum_rel fst snd]. split; [unfold RDr|unfold RRr]; cbn; subst m'; auto 8.
  Qed.
  Lemma renumber_custom : match custom parse show defs, custom parse show defs with
    | None, None => True
    | Some g, Some g' => forall r r', RRr r r' -> RRr (fst (g r)) (fst (g' r')) /\ snd (g' r') = snd (g r)
    | _, _ => False
    end.
  Proof.
    unfold custom. destruct defs as [ds|]; [|exact I]. intros r r' (M & Z & N1 & N2 & T & X & S). rewrite N1, N2.
    pose proof (set_fixed parse show ds [] (Forall_nil _)) as SF. unfold set_mol_relax. destruct (set_loop parse show n ds []) as [x e]. cbn [fst snd] in *.
    destruct (fixed_all x SF) as [F1 F2]. split; [|auto]. unfold RRr. cbn. auto 8.
  Qed.
  Definition carry (s : dict string (list Z)) : dict string (list Z) := map (fun p => (fst p, reorder 0%Z idx (snd p))) s.
  Lemma renumber_summary r r' : RRr r r' -> summary (r_relax r') = carry (summary (r_relax r)).
  Proof.
    intros (_ & _ & _ & _ & _ & X & S). unfold summary, carry. rewrite X. unfold reorder_all. rewrite !map_map. cbn [fst snd].
    apply map_ext_in. intros p I. rewrite Forall_forall in S. rewrite reorder_status by (apply S; auto). reflexivity.
  Qed.
  Definition bare_label (x : labelled (dict string dval)) : labelled (dict string dval) :=
    {| lb_row := strip (lb_row x); lb_keyframe := lb_keyframe x; lb_temperature := lb_temperature x; lb_pressure := lb_pressure x |}.
  Lemma label_strip v k (row : dict string dval) :
    sum_rel (fun o o' => o' = bare_label o) (label_vars parse v k row) (label_vars parse v k (strip row)).
  Proof.
    unfold label_vars. destruct (column parse (v_temperature v)) as [t|e]; cbn; [|reflexivity]. destruct (column parse (v_pressure v)) as [p|e]; cbn; reflexivity.
  Qed.

  Notation npos := (fun f => length (e_pos f)).
  Notation proc cmp := (process_file npos (make fl calculate parse show mol wave) (custom parse show defs) cmp (radd wrap gimbal fl)).
  Lemma stripped outfile v vars floats (l : list (list nat * eframe)) fin t0 : Forall (fun x => of_size n (snd x)) l ->
    omap bare_label (fun s => s) (proc (compute wrap gimbal argsort scattering) (label_vars parse v) (fun x => summary (r_relax x)) outfile vars floats (Some (renumber_film idx l, fin)) t0 None) =
    omap bare_label carry (proc (compute wrap gimbal argsort scattering) (label_vars parse v) (fun x => summary (r_relax x)) outfile vars floats (Some (l, fin)) t0 None).
  Proof.
    intros Hs.
    pose proof (process_sim npos npos (make fl calculate parse show mol wave) (make fl calculate parse show mol wave)
      (custom parse show defs) (custom parse show defs) (compute wrap gimbal argsort scattering) bare
      (radd wrap gimbal fl) (radd wrap gimbal fl) (label_vars parse v) (label_vars parse v) (fun x => summary (r_relax x)) (fun x => summary (r_relax x))
      strip bare_label carry RDr RRr RFr) as S1.
    pose proof (process_sim npos npos (make fl calculate parse show mol wave) (make fl calculate parse show mol wave)
      (custom parse show defs) (custom parse show defs) (compute wrap gimbal argsort scattering) bare
      (radd wrap gimbal fl) (radd wrap gimbal fl) (label_vars parse v) (label_vars parse v) (fun x => summary (r_relax x)) (fun x => summary (r_relax x))
      strip bare_label (fun s => s) eq eq eq) as S2.
    specialize (S1 ltac:(intros f f' [[L _] ->]; cbn [renumber e_pos]; rewrite (reorder_len idx n P); auto) renumber_make renumber_custom renumber_compute renumber_radd
      (label_strip v) renumber_summary outfile vars floats (Some (l, fin)) (Some (renumber_film idx l, fin)) t0 None).
    assert (F1 : fin = fin /\ Forall2 (fun x x' => fst x = fst x' /\ RFr (snd x) (snd x')) l (renumber_film idx l)).
    { split; auto. unfold renumber_film. clear - Hs. induction l as [|x l IH]; cbn [map]; [constructor|]. pose proof (Forall_inv Hs). pose proof (Forall_inv_tail Hs).
      constructor; auto. cbn [fst snd]. split; auto. split; auto. }
    specialize (S1 F1).
    assert (H2 : forall f f', f = f' -> sum_rel (fun x x' => fst x = fst x' /\ snd x = snd x') (make fl calculate parse show mol wave f) (make fl calculate parse show mol wave f')).
    { intros f f' <-. destruct (make fl calculate parse show mol wave f); cbn [sum_rel]; auto. }
    assert (H3 : match custom parse show defs, custom parse show defs with
      | None, None => True | Some g, Some g' => forall r r', r = r' -> fst (g r) = fst (g' r') /\ snd (g' r') = snd (g r) | _, _ => False end).
    { destruct (custom parse show defs); auto. intros r r' <-. auto. }
    assert (H4 : forall d d' f f', d = d' -> f = f' -> fst (compute wrap gimbal argsort scattering d f) = fst (bare d' f') /\
      sum_rel (fun row row' => row' = strip row) (snd (compute wrap gimbal argsort scattering d f)) (snd (bare d' f'))).
    { intros d d' f f' <- <-. unfold bare. destruct (compute wrap gimbal argsort scattering d f) as [d1 [q|e]]; cbn; auto. }
    assert (H5 : forall r r' f f', r = r' -> f = f' -> fst (radd wrap gimbal fl r f) = fst (radd wrap gimbal fl r' f') /\ snd (radd wrap gimbal fl r' f') = snd (radd wrap gimbal fl r f)).
    { intros r r' f f' <- <-. auto. }
    specialize (S2 ltac:(intros f f' <-; reflexivity) H2 H3 H4 H5 (label_strip v) ltac:(intros r r' <-; reflexivity) outfile vars floats
      (Some (renumber_film idx l, fin)) (Some (renumber_film idx l, fin)) t0 None).
    assert (F2 : fin = fin /\ Forall2 (fun x x' : list nat * eframe => fst x = fst x' /\ snd x = snd x') (renumber_film idx l) (renumber_film idx l)).
    { split; auto. generalize (renumber_film idx l). intros k. induction k; constructor; auto. }
    specialize (S2 F2). cbn [option_map] in S1, S2. rewrite <- S1, <- S2. reflexivity.
  Qed.
End Renumber.

Lemma map_alike a : forall a', map (line bare_label) a' = map (line bare_label) a -> Forall2 alike a a'.
Proof.
  induction a as [|[k x] a IH]; intros [|[k' x'] a'] E; try discriminate E; [constructor|]. cbn [map line fst snd] in E.
  pose proof (f_equal (hd (line bare_label (k, x))) E) as E1. pose proof (f_equal (@tl _) E) as E2. cbn [hd tl] in E1, E2. constructor; auto.
  assert (Ek : k' = k) by exact (f_equal fst E1). apply (f_equal snd) in E1. unfold line in E1. cbn [fst snd] in E1.
  assert (A1 := f_equal lb_row E1). assert (A2 := f_equal lb_keyframe E1). assert (A3 := f_equal lb_temperature E1). assert (A4 := f_equal lb_pressure E1).
  cbn [bare_label lb_row lb_keyframe lb_temperature lb_pressure] in *. unfold alike. cbn [fst snd].
  split; [auto|]. split; [auto|]. split; [auto|]. split; [auto|]. intros key N1 N2. rewrite <- (strip_get (lb_row x')), <- (strip_get (lb_row x)) by auto. rewrite A1. reflexivity.
Qed.
Lemma reorder_seq {A} (d : A) l : reorder d (seq 0 (length l)) l = l.
Proof. unfold reorder. induction l as [|x l IH]; cbn [length seq map]; auto. f_equal. rewrite <- seq_shift, map_map. exact IH. Qed.
Lemma renumber_seq n l : Forall (fun x => of_size n (snd x)) l -> renumber_film (seq 0 n) l = l.
Proof.
  induction l as [|[k f] l IH]; intros H; [reflexivity|]. destruct (Forall_inv H) as [L O]. cbn [renumber_film map fst snd] in *. f_equal; [|apply IH, (Forall_inv_tail H)].
  f_equal. destruct f as [ts b p o]. unfold renumber. cbn [e_ts e_box e_pos e_ori] in *. f_equal; [rewrite <- L; apply reorder_seq|].
  destruct o as [q|]; cbn [option_map]; [|reflexivity]. f_equal. rewrite <- O. apply reorder_seq.
Qed.
Lemma carry_times idx n r : Permutation idx (seq 0 n) -> map (fun p => (fst p, carry (seq 0 n) (snd p))) r = r ->
  Forall2 (same_times idx) r (map (fun p => (fst p, carry idx (snd p))) r).
Proof.
  intros P H. induction r as [|[k s] r IH]; [constructor|]. cbn [map fst snd] in *. injection H as E H. constructor; [|auto]. split; [reflexivity|]. cbn [snd]. clear IH H.
  unfold carry in *. induction s as [|[nm c] s IH]; [constructor|]. cbn [map fst snd] in *. injection E as E1 E. constructor; [|auto]. cbn [fst snd]. split; [reflexivity|].
  assert (L : length c = n) by (rewrite <- E1; unfold reorder; rewrite map_length; apply seq_length).
  unfold carried, reorder. rewrite map_length. split; [reflexivity|]. intros i j Hj. rewrite nth_error_map, Hj. cbn [option_map].
  symmetry. apply nth_error_nth'. rewrite L. apply (idx_lt idx n P). eapply nth_error_In; eauto.
Qed.

Theorem C206_renumbered_partial (wrap : fbox -> v3 -> v3) gimbal argsort fl calculate parse show mol wave scattering defs
        idx n infile outfile gsd lammps t0 :
  Permutation idx (seq 0 n) -> (wave = None -> calc_symmetric calculate) ->
  Forall (fun x => of_size n (snd x)) (fst gsd) -> Forall (fun x => of_size n (snd x)) (fst lammps) ->
  same_outcome idx
    (analyse wrap gimbal argsort fl calculate parse show mol wave scattering defs infile outfile gsd lammps t0 None)
    (analyse wrap gimbal argsort fl calculate parse show mol wave scattering defs infile outfile
       (renumber_film idx (fst gsd), snd gsd) (renumber_film idx (fst lammps), snd lammps) t0 None).
Proof.
  intros P Hc Hg Hl.
  assert (Same : forall t, both alike t t).
  { intros [t|]; cbn; auto. induction t as [|x t IH]; constructor; auto. unfold alike. auto 6. }
  assert (Go : forall v vars floats (l : list (list nat * eframe)) fin, Forall (fun x => of_size n (snd x)) l ->
    same_outcome idx
     (process_file (fun f => length (e_pos f)) (make fl calculate parse show mol wave) (custom parse show defs) (compute wrap gimbal argsort scattering) (radd wrap gimbal fl)
        (label_vars parse v) (fun x => summary (r_relax x)) outfile vars floats (Some (l, fin)) t0 None)
     (process_file (fun f => length (e_pos f)) (make fl calculate parse show mol wave) (custom parse show defs) (compute wrap gimbal argsort scattering) (radd wrap gimbal fl)
        (label_vars parse v) (fun x => summary (r_relax x)) outfile vars floats (Some (renumber_film idx l, fin)) t0 None)).
  { intros v vars floats l fin Hs.
    pose proof (stripped idx n P wrap gimbal argsort fl calculate parse show mol wave scattering defs Hc outfile v vars floats l fin t0 Hs) as S.
    pose proof (stripped (seq 0 n) n (Permutation_refl _) wrap gimbal argsort fl calculate parse show mol wave scattering defs Hc outfile v vars floats l fin t0 Hs) as I.
    rewrite (renumber_seq n l Hs) in I.
    destruct (process_file _ _ _ _ _ _ _ _ _ _ (Some (l, fin)) t0 None) as [o1 o2 o3].
    destruct (process_file _ _ _ _ _ _ _ _ _ _ (Some (renumber_film idx l, fin)) t0 None) as [p1 p2 p3].
    unfold omap in S, I. cbn [out_result out_table out_relax] in S, I.
    pose proof (f_equal out_result S) as S1. pose proof (f_equal out_table S) as S2. pose proof (f_equal out_relax S) as S3. pose proof (f_equal out_relax I) as I3.
    cbn [out_result out_table out_relax] in S1, S2, S3, I3. clear S I.
    unfold same_outcome. cbn [out_result out_table out_relax]. split; [|split].
    - destruct o1 as [[o1|]|], p1 as [[p1|]|]; cbn [option_map] in S1; try discriminate S1; cbn [both]; [|auto|congruence].
      apply map_alike. congruence.
    - destruct o2 as [o2|], p2 as [p2|]; cbn [tmap option_map] in S2; try discriminate S2; cbn [both]; [|auto]. apply map_alike. congruence.
    - assert (ML : forall r : list (nat * dict string (list Z)), map (fun p => (fst p, snd p)) r = r).
      { intros r. rewrite <- (map_id r) at 2. apply map_ext. intros []; reflexivity. }
      destruct o3 as [o3|], p3 as [p3|]; cbn [option_map] in S3, I3; try discriminate S3; cbn [both]; [|auto]. rewrite !ML in S3. rewrite !ML in I3.
      replace p3 with (map (fun p => (fst p, carry idx (snd p))) o3) by congruence. apply (carry_times idx n); auto. congruence. }
  destruct gsd as [g fg], lammps as [l fl_]. cbn [fst snd] in *. unfold analyse, process_path.
  destruct (get_filename_vars infile) as [v|e]; [|cbn; split; [reflexivity|split; [apply Same|exact I]]].
  destruct (String.eqb (path_suffix infile) ".gsd"); [apply Go; auto|destruct (String.eqb (path_suffix infile) ".lammpstrj"); [apply Go; auto|]].
  cbn. split; [cbn; auto|split; [apply Same|exact I]].
Qed.
Print Assumptions C206_renumbered_partial.

(** The numbering matters to "struct": the two molecules of two particles, one of which turns
    and the other moves; exchanged, a quarter of the particles stays instead of three. *)
Theorem C206_struct_refuted : exists dt dr mol x a b, Permutation [1%nat; 0%nat] (seq 0 2) /\ length dt = 2%nat /\ length dr = 2%nat /\
  struct_relax dt dr mol 2 x = inl a /\ struct_relax (reorder zero3 [1%nat; 0%nat] dt) (reorder zero3 [1%nat; 0%nat] dr) mol 2 x = inl b /\ a <> b.
Proof.
  exists [zero3; mk3 0 2 0], [mk3 PI 0 0; zero3], [zero3; mk3 0 1 0], 1, (3 / 4), (1 / 4).
  assert (Q : from_euler 0 0 PI = xquat PI) by apply from_euler_x.
  assert (Q0 : from_euler 0 0 0 = qone) by (rewrite from_euler_x; destruct quat0 as (_ & _ & E); rewrite E; reflexivity).
  assert (Ny : forall y, 0 <= y -> norm3 (mk3 0 y 0) = y).
  { intros y Hy. unfold norm3, norm2_3, dot3. cbn. replace (0 * 0 + y * y + 0 * 0) with (y * y) by ring. apply sqrt_square. auto. }
  assert (Ny' : forall y, y <= 0 -> norm3 (mk3 0 y 0) = - y).
  { intros y Hy. unfold norm3, norm2_3, dot3. cbn. replace (0 * 0 + y * y + 0 * 0) with ((- y) * (- y)) by ring. apply sqrt_square. lra. }
  assert (E : forall a b c y, a = 0 -> c = 0 -> b = y -> 0 <= y -> norm3 (mk3 a b c) = y) by (intros a b c y -> -> -> Hy; apply Ny; auto).
  assert (E' : forall a b c y, a = 0 -> c = 0 -> b = - y -> 0 <= y -> norm3 (mk3 a b c) = y) by (intros a b c y -> -> -> Hy; rewrite Ny'; lra).
  split; [apply perm_swap|]. split; [reflexivity|]. split; [reflexivity|]. split; [|split; [|lra]].
  - unfold struct_relax. rewrite (struct_positions_ok [zero3; mk3 0 2 0]) by (auto; discriminate). cbn [ebind fst snd].
    cbn [flat_map map app repeat length zip x3 y3 z3 zero3]. rewrite Q, Q0. rewrite !rot_xquat, !rot_one, cos_PI, sin_PI. cbn [x3 y3 z3].
    unfold add3, zero3. cbn [x3 y3 z3]. unfold bzip. cbn [length Nat.eqb zip ebind map]. unfold sub3. cbn [x3 y3 z3].
    f_equal. rewrite structural_fraction. unfold fraction. cbn [filter length].
    repeat match goal with |- context [norm3 (mk3 ?a ?b ?c)] =>
      first [rewrite (E a b c 0) by lra|rewrite (E a b c 2) by lra|rewrite (E' a b c 2) by lra] end.
    rewrite !(Rltb_true 0), !(Rltb_false 2) by lra. cbn. lra.
  - unfold reorder. cbn [map nth]. unfold struct_relax. rewrite (struct_positions_ok [mk3 0 2 0; zero3]) by (auto; discriminate). cbn [ebind fst snd].
    cbn [flat_map map app repeat length zip x3 y3 z3 zero3]. rewrite Q, Q0. rewrite !rot_xquat, !rot_one, cos_PI, sin_PI. cbn [x3 y3 z3].
    unfold add3, zero3. cbn [x3 y3 z3]. unfold bzip. cbn [length Nat.eqb zip ebind map]. unfold sub3. cbn [x3 y3 z3].
    f_equal. rewrite structural_fraction. unfold fraction. cbn [filter length].
    repeat match goal with |- context [norm3 (mk3 ?a ?b ?c)] =>
      first [rewrite (E a b c 0) by lra|rewrite (E a b c 2) by lra|rewrite (E' a b c 2) by lra] end.
    rewrite !(Rltb_true 0), !(Rltb_false 2) by lra. cbn. lra.
Qed.
Print Assumptions C206_struct_refuted.

(** "overlap" does not depend on the numbering when there are no ties. *)
Lemma top_unique m l T T' : NoDup l -> top_set m l T -> top_set m l T' -> incl T T'.
Proof.
  intros N (A1 & A2 & A3 & A4) (B1 & B2 & B3 & B4) i I. destruct (in_dec Nat.eq_dec i T') as [|Ni]; auto. exfalso.
  assert (H : exists j, In j T' /\ ~ In j T).
  { destruct (Forall_Exists_dec (fun j => In j T) (fun j => in_dec Nat.eq_dec j T) T') as [F|Ex].
    - exfalso. apply Ni. apply (NoDup_length_incl B1 (l' := T)); [lia| |auto]. intros j Hj. rewrite Forall_forall in F. auto.
    - apply Exists_exists in Ex. exact Ex. }
  destruct H as (j & Hj & Nj). assert (E : nth i l 0 = nth j l 0) by (apply Rle_antisym; [apply B4; auto|apply A4; auto]).
  assert (i = j) by (apply (proj1 (NoDup_nth l 0) N); auto). congruence.
Qed.
Section Overlap.
  Variable idx : list nat.
  Variable n : nat.
  Hypothesis P : Permutation idx (seq 0 n).
  Notation old := (fun i => nth i idx 0%nat).
  Lemma old_inj i j : (i < n)%nat -> (j < n)%nat -> old i = old j -> i = j.
  Proof.
    intros Hi Hj E. assert (N : NoDup idx) by (apply (Permutation_NoDup (Permutation_sym P)), seq_NoDup).
    apply (proj1 (NoDup_nth idx 0%nat) N); auto; rewrite (idx_len idx n P); auto.
  Qed.
  Lemma old_lt i : (i < n)%nat -> (old i < n)%nat.
  Proof. intros H. apply (idx_lt idx n P), nth_In. rewrite (idx_len idx n P). auto. Qed.
  Lemma old_map_nodup T : NoDup T -> (forall i, In i T -> (i < n)%nat) -> NoDup (map old T).
  Proof.
    induction 1 as [|i T Ni N IH]; intros H; cbn [map]; constructor; [|apply IH; intros j J; apply H; right; auto].
    intros I. apply in_map_iff in I. destruct I as (j & E & J). apply Ni. replace i with j; auto. apply old_inj; auto; [apply H; right; auto|apply H; left; auto].
  Qed.
  Lemma pull m l T : length l = n -> top_set m (reorder 0 idx l) T -> top_set m l (map old T).
  Proof.
    intros L (A1 & A2 & A3 & A4). rewrite (reorder_len idx n P) in A3, A4.
    assert (V : forall i, (i < n)%nat -> nth i (reorder 0 idx l) 0 = nth (old i) l 0).
    { intros i Hi. unfold reorder. rewrite (nth_indep _ 0 ((fun j => nth j l 0) 0%nat)) by (rewrite map_length, (idx_len idx n P); auto). exact (map_nth (fun j => nth j l 0) idx 0%nat i). }
    split; [apply old_map_nodup; auto|]. split; [rewrite map_length; auto|]. split.
    - intros i I. apply in_map_iff in I. destruct I as (j & <- & J). rewrite L. apply old_lt. auto.
    - intros i j I Hj Nj. apply in_map_iff in I. destruct I as (i' & <- & I). rewrite L in Hj.
      assert (J : In j idx) by (apply (Permutation_in _ (Permutation_sym P)), in_seq; lia).
      apply (In_nth _ _ 0%nat) in J. destruct J as (j' & J1 & <-). rewrite (idx_len idx n P) in J1.
      rewrite <- !V by auto. apply A4; auto. intros K. apply Nj. apply in_map_iff. eauto.
  Qed.
  Lemma overlap_same (argsort : list R -> list nat) disp rotn : argsort_ok argsort -> length disp = n -> length rotn = n ->
    NoDup disp -> NoDup (map Rabs rotn) ->
    mobile_overlap argsort (reorder 0 idx disp) (reorder 0 idx rotn) = mobile_overlap argsort disp rotn.
  Proof.
    intros Ar Ld Lr Nd Nr. unfold mobile_overlap. cbv zeta. rewrite (reorder_len idx n P), Ld. set (m := (n / 10)%nat).
    destruct (m =? 0)%nat eqn:Em; auto. do 3 f_equal. apply Nat.eqb_neq in Em.
    assert (Hm : (0 < m <= n)%nat) by (split; [lia|apply Nat.div_le_upper_bound; lia]).
    rewrite (reorder_map idx n P Rabs 0 0) by auto.
    assert (Lr' : length (map Rabs rotn) = n) by (rewrite map_length; auto).
    set (ra := map Rabs rotn) in *.
    assert (T1 : top_set m disp (last_n m (argsort disp))) by (apply top_last; auto; lia).
    assert (T2 : top_set m ra (last_n m (argsort ra))) by (apply top_last; auto; lia).
    assert (U1 : top_set m (reorder 0 idx disp) (last_n m (argsort (reorder 0 idx disp)))) by (apply top_last; auto; rewrite (reorder_len idx n P); lia).
    assert (U2 : top_set m (reorder 0 idx ra) (last_n m (argsort (reorder 0 idx ra)))) by (apply top_last; auto; rewrite (reorder_len idx n P); lia).
    assert (V1 := pull m disp _ Ld U1). assert (V2 := pull m ra _ Lr' U2).
    assert (S1 := top_unique m disp _ _ Nd V1 T1). assert (S1' := top_unique m disp _ _ Nd T1 V1).
    assert (S2 := top_unique m ra _ _ Nr V2 T2). assert (S2' := top_unique m ra _ _ Nr T2 V2).
    assert (B1 : forall i, In i (last_n m (argsort (reorder 0 idx disp))) -> (i < n)%nat) by (intros i I; apply U1 in I; rewrite (reorder_len idx n P) in I; auto).
    assert (B2 : forall i, In i (last_n m (argsort (reorder 0 idx ra))) -> (i < n)%nat) by (intros i I; apply U2 in I; rewrite (reorder_len idx n P) in I; auto).
    set (A := last_n m (argsort disp)) in *. set (B := last_n m (argsort ra)) in *.
    set (A' := last_n m (argsort (reorder 0 idx disp))) in *. set (B' := last_n m (argsort (reorder 0 idx ra))) in *.
    rewrite <- (map_length old (intersect1d A' B')). apply Permutation_length, NoDup_Permutation.
    - apply old_map_nodup; [apply intersect_nodup|]. intros i I. apply intersect_in in I. apply B1. apply I.
    - apply intersect_nodup.
    - intros x. rewrite in_map_iff, intersect_in. split.
      + intros (i & <- & I). apply intersect_in in I. destruct I as [I1 I2]. split; [apply S1|apply S2]; apply in_map_iff; eauto.
      + intros [I1 I2]. apply S1' in I1. apply S2' in I2. apply in_map_iff in I1, I2. destruct I1 as (i & E1 & I1), I2 as (j & E2 & I2).
        assert (i = j) by (apply old_inj; auto; congruence). subst j. exists i. split; auto. apply intersect_in. auto.
  Qed.
End Overlap.
Theorem C206_overlap_partial (argsort : list R -> list nat) idx n dt dr :
  argsort_ok argsort -> Permutation idx (seq 0 n) -> length dt = n -> length dr = n ->
  NoDup (displacement dt) -> NoDup (displacement dr) ->
  mobile_overlap argsort (displacement (reorder zero3 idx dt)) (displacement (reorder zero3 idx dr)) = mobile_overlap argsort (displacement dt) (displacement dr).
Proof.
  intros Ar P L1 L2 N1 N2. unfold displacement in *. rewrite !(reorder_map idx n P norm3 zero3 0) by auto.
  apply (overlap_same idx n P); auto; rewrite ?map_length; auto.
  replace (map Rabs (map norm3 dr)) with (map norm3 dr); auto. rewrite map_map. apply map_ext. intros v. rewrite Rabs_pos_eq; auto. apply sqrt_pos.
Qed.
Print Assumptions C206_overlap_partial.

(** The wave number does not depend on the order for a histogram of pairs. *)
Lemma list_prod_map {A B} (f : A -> B) a b : map (fun p => (f (fst p), f (snd p))) (list_prod a b) = list_prod (map f a) (map f b).
Proof. induction a as [|x a IH]; cbn; auto. rewrite map_app, IH, !map_map. reflexivity. Qed.
Lemma filter_map_len {A B} (f : A -> B) g l : length (filter g (map f l)) = length (filter (fun x => g (f x)) l).
Proof. induction l as [|x l IH]; cbn; auto. destruct (g (f x)); cbn; auto. Qed.
Lemma list_prod_perm_l {A B} (a b : list A) (c : list B) : Permutation a b -> Permutation (list_prod a c) (list_prod b c).
Proof.
  induction 1; cbn [list_prod]; auto; [apply Permutation_app_head; auto| |etransitivity; eauto].
  rewrite !app_assoc. apply Permutation_app_tail, Permutation_app_comm.
Qed.
Lemma list_prod_perm_r {A B} (a : list A) (c d : list B) : Permutation c d -> Permutation (list_prod a c) (list_prod a d).
Proof. intros H. induction a as [|x a IH]; cbn [list_prod]; auto. apply Permutation_app; auto. apply Permutation_map, H. Qed.
Lemma filter_perm_len {A} (g : A -> bool) a b : Permutation a b -> length (filter g a) = length (filter g b).
Proof. induction 1; cbn [filter]; auto; [destruct (g x); cbn; auto|destruct (g x), (g y); cbn; auto|congruence]. Qed.
Lemma filter_split {A} (e g : A -> bool) l :
  (length (filter (fun x => negb (e x) && g x) l) + length (filter (fun x => e x && g x) l) = length (filter g l))%nat.
Proof. induction l as [|x l IH]; cbn [filter]; auto. destruct (e x), (g x); cbn [negb andb length]; lia. Qed.
Lemma diag_row (G : nat -> nat -> bool) x l : NoDup l ->
  length (filter (fun jk => (fst jk =? snd jk)%nat && G (fst jk) (snd jk)) (map (fun y => (x, y)) l)) = (if in_dec Nat.eq_dec x l then if G x x then 1%nat else 0%nat else 0%nat).
Proof.
  rewrite filter_map_len. cbn [fst snd]. induction 1 as [|y l N D IH]; cbn [filter]; auto.
  destruct (Nat.eqb_spec x y) as [->|Ne]; cbn [andb].
  - destruct (in_dec Nat.eq_dec y l) as [|N0]; [contradiction|]. destruct (in_dec Nat.eq_dec y (y :: l)) as [_|K]; [|exfalso; apply K; left; auto].
    destruct (G y y); cbn [length]; rewrite IH; auto.
  - rewrite IH. destruct (in_dec Nat.eq_dec x l) as [I|I], (in_dec Nat.eq_dec x (y :: l)) as [J|J]; auto.
    + exfalso. apply J. right. auto.
    + destruct J; [congruence|contradiction].
Qed.
Lemma diag_count (G : nat -> nat -> bool) l : NoDup l -> forall a, incl a l ->
  length (filter (fun jk => (fst jk =? snd jk)%nat && G (fst jk) (snd jk)) (list_prod a l)) = length (filter (fun j => G j j) a).
Proof.
  intros N. induction a as [|x a IH]; intros I; cbn [list_prod]; auto.
  rewrite filter_app, app_length, diag_row by auto. rewrite IH by (intros y Y; apply I; right; auto).
  destruct (in_dec Nat.eq_dec x l) as [_|K]; [|exfalso; apply K, I; left; auto]. cbn [filter]. destruct (G x x); cbn [length]; lia.
Qed.
Lemma nth_seq {A} (d : A) p : map (fun i => nth i p d) (seq 0 (length p)) = p.
Proof.
  induction p as [|x p IH]; cbn [length seq map]; auto. f_equal; auto. rewrite <- seq_shift, map_map. exact IH.
Qed.
Definition pairs {A} (F : A -> A -> bool) (d : A) (p : list A) : nat :=
  length (filter (fun jk => negb (fst jk =? snd jk)%nat && F (nth (fst jk) p d) (nth (snd jk) p d)) (list_prod (seq 0 (length p)) (seq 0 (length p)))).
Lemma pairs_count {A} (F : A -> A -> bool) d p :
  (pairs F d p + length (filter (fun x => F x x) p) = length (filter (fun q => F (fst q) (snd q)) (list_prod p p)))%nat.
Proof.
  set (G := fun j k => F (nth j p d) (nth k p d)).
  replace (length (filter (fun x => F x x) p)) with (length (filter (fun j => G j j) (seq 0 (length p)))).
  2: { unfold G. rewrite <- (filter_map_len (fun j => nth j p d) (fun x => F x x)), nth_seq. reflexivity. }
  rewrite <- (diag_count G (seq 0 (length p)) (seq_NoDup _ _) _ (incl_refl _)).
  unfold pairs. rewrite (filter_split (fun jk => (fst jk =? snd jk)%nat) (fun jk => G (fst jk) (snd jk))).
  unfold G. rewrite <- (filter_map_len (fun jk => (nth (fst jk) p d, nth (snd jk) p d)) (fun q => F (fst q) (snd q))).
  rewrite (list_prod_map (fun i => nth i p d)), nth_seq. reflexivity.
Qed.
Lemma pairs_symmetric {A} (F : A -> A -> bool) d p p' : Permutation p p' -> pairs F d p' = pairs F d p.
Proof.
  intros H. assert (A1 := pairs_count F d p). assert (A2 := pairs_count F d p').
  rewrite (filter_perm_len (fun x => F x x) p p' H) in A1.
  rewrite (filter_perm_len _ (list_prod p p) (list_prod p' p')) in A1
    by (transitivity (list_prod p' p); [apply list_prod_perm_l|apply list_prod_perm_r]; auto).
  lia.
Qed.
Lemma histogram_symmetric b p p' r dr : Permutation p p' -> histogram b p' r dr = histogram b p r dr.
Proof.
  intros H. unfold histogram. cbv zeta. rewrite <- (Permutation_length H).
  destruct (Rlt_dec _ _); auto. destruct (Rlt_dec _ _); auto. destruct (_ && _); auto. do 2 f_equal. apply map_ext. intros i. do 2 f_equal.
  rewrite (Permutation_length H) at 1 2.
  exact (pairs_symmetric (fun x y => (if Rle_dec (INR i * dr) (norm3 (freud_wrap b (sub3 x y))) then true else false) &&
    (if Rlt_dec (norm3 (freud_wrap b (sub3 x y))) (INR (S i) * dr) then true else false)) zero3 p p' H).
Qed.
Example C206_histogram : calc_symmetric (calculate_wave_number histogram).
Proof.
  intros b p p' H. unfold calculate_wave_number. cbv zeta. rewrite (histogram_symmetric b p p' _ _ H), (Permutation_length H). reflexivity.
Qed.

(** Ten molecules of which the first stays where it is and the others move by 2, through the
    side of the box; the first is numbered last. *)
Definition gf (ts : Z) (x : R) : eframe :=
  mkframe ts [10; 10; 1; 0; 0; 0] (mk3 0 1 0 :: repeat (mk3 x 0 0) 9) (Some (repeat (zquat 0) 10)).
Definition gf0 := gf 5 (9 / 2).
Definition gf1 := gf 105 (- (7 / 2)).
Definition gT (f : eframe) : truth :=
  if (e_ts f =? 5)%Z then (mk3 0 1 0 :: repeat (mk3 (9 / 2) 0 0) 9, repeat 0 10) else (mk3 0 1 0 :: repeat (mk3 (13 / 2) 0 0) 9, repeat 0 10).
Definition gfile : list (list nat * eframe) := [([0%nat], gf0); ([0%nat], gf1)].
Definition cyc : list nat := [1; 2; 3; 4; 5; 6; 7; 8; 9; 0]%nat.
Lemma cyc_perm : Permutation cyc (seq 0 10).
Proof. change cyc with (seq 1 9 ++ [0%nat]). change (seq 0 10) with ([0%nat] ++ seq 1 9). apply Permutation_app_comm. Qed.
Definition g_run (l : list (list nat * eframe)) := analyse freud_wrap (fun _ => zero3) sort_index fl100 (fun _ _ => inr ValueError) ex_pf (fun _ => EmptyString)
  [mk3 0 1 0] (Some 2) true None e_name true (l, None) ([], None) None None.
Lemma g_shown ts x u : gT (gf ts x) = (mk3 0 1 0 :: repeat (mk3 u 0 0) 9, repeat 0 10) -> (exists i, x - u = IZR i * 10) -> shown_in gT ebox 10 (gf ts x).
Proof.
  intros E (i & Hi). unfold shown_in. rewrite E. cbn [fst snd gf e_pos e_ori length]. rewrite !repeat_length. split; [|split; [|split]]; auto.
  - constructor; [exists 0%Z, 0%Z, 0%Z; split; auto; unfold lattice, sub3; cbn [x3 y3 z3 bx by_ bz bxy bxz byz ebox]; apply v3_eq; lra|].
    apply Forall2_repeat. exists i, 0%Z, 0%Z. split; auto. unfold lattice, sub3. cbn [x3 y3 z3 bx by_ bz bxy bxz byz ebox]. apply v3_eq; lra.
  - eexists. split; [reflexivity|]. apply Forall2_repeat. left; auto.
Qed.
Lemma g_slow : slow ebox (gT gf0) (gT gf1).
Proof.
  unfold slow, gT, gf0, gf1, gf. cbn [e_ts Z.eqb Pos.eqb fst snd]. split.
  - constructor; [|apply Forall2_repeat]; unfold sub3; cbn [x3 y3 z3]; unfold below_half, coord_a, coord_b; cbn [x3 y3 z3 bx by_ bz bxy bxz byz ebox b2d];
      (split; [apply Rabs_def1; lra|]; split; [apply Rabs_def1; lra|]; split; [intros; lra|discriminate]).
  - apply Forall2_repeat. pose proof pi_above_3. rewrite Rminus_0_r, Rabs_R0. lra.
Qed.
Lemma g_followable K f0 rest : frames_of (fun f => length (e_pos f)) K gfile = f0 :: rest -> followable gT 10 f0 rest.
Proof.
  intros E. assert (C : f0 :: rest = [gf0; gf1]) by (destruct K as [|K]; cbn in E; [auto|discriminate]).
  injection C as -> ->. exists ebox. split; [exists 10, 10, 1; right; exists 0, 0, 0; split; reflexivity|]. split; [apply ebox_ok|]. split; [|split].
  - apply Forall_cons; [|apply Forall_cons; [|apply Forall_nil]]; [apply g_shown with (u := 9 / 2)|apply g_shown with (u := 13 / 2)]; try reflexivity; [exists 0%Z|exists (-1)%Z]; lra.
  - cbn [map chain]. auto using g_slow.
  - intros f [<-|[]]. exists ebox, 10, 10, 1. right. exists 0, 0, 0. split; reflexivity.
Qed.
Lemma carried_entry idx s s' name i j v : Forall2 (fun x x' => fst x' = fst x /\ carried idx (snd x) (snd x')) s s' ->
  nth_error idx i = Some j -> entry s name j v -> entry s' name i v.
Proof.
  intros F Ei (col & D & N). induction F as [|[k c] [k' c'] s s' [E C] F IH]; cbn in *; [discriminate|]. subst k'.
  unfold entry in *. cbn [dget] in *. destruct (String.eqb name k); [|apply IH; auto]. injection D as ->. exists c'. split; auto. destruct C as [_ C]. rewrite (C i j Ei). auto.
Qed.
Example C206_example : exists s s',
  (exists relax, out_relax (g_run gfile) = Some relax /\ In (0%nat, s) relax) /\
  (exists relax, out_relax (g_run (renumber_film cyc gfile)) = Some relax /\ In (0%nat, s') relax) /\
  entry s "tau_F" 0 (2 ^ 32 - 1) /\ entry s "tau_F" 1 100 /\ entry s' "tau_F" 9 (2 ^ 32 - 1) /\ entry s' "tau_F" 0 100.
Proof.
  assert (R := C206_renumbered_partial freud_wrap (fun _ => zero3) sort_index fl100 (fun _ _ => inr ValueError) ex_pf (fun _ => EmptyString)
    [mk3 0 1 0] (Some 2) true None cyc 10 e_name true (gfile, None) ([], None) None cyc_perm ltac:(discriminate)
    ltac:(repeat constructor) ltac:(constructor)).
  cbn [fst snd] in R.
  change (analyse freud_wrap (fun _ => zero3) sort_index fl100 (fun _ _ => inr ValueError) ex_pf (fun _ => EmptyString)
    [mk3 0 1 0] (Some 2) true None e_name true (gfile, None) ([], None) None None) with (g_run gfile) in R.
  change (analyse freud_wrap (fun _ => zero3) sort_index fl100 (fun _ _ => inr ValueError) ex_pf (fun _ => EmptyString)
    [mk3 0 1 0] (Some 2) true None e_name true (renumber_film cyc gfile, None) (renumber_film cyc [], None) None None) with (g_run (renumber_film cyc gfile)) in R.
  destruct (C126_trajectory freud_wrap (fun _ => zero3) sort_index fl100 (fun _ _ => inr ValueError) ex_pf (fun _ => EmptyString)
            [mk3 0 1 0] 2 true (1 / 100) gT 10 e_name {| v_temperature := Some "1.20"%string; v_pressure := Some "13.50"%string; v_crystal := None; v_iteration := None |}
            (gfile, None) ([], None) gfile None None
            freud_wrap_ok sort_index_ok fl100_rounds ltac:(lra) ltac:(discriminate) ltac:(lia) eq_refl) as (rows & relax & E & _ & R1 & _ & R2 & R3).
  - intros (x & [= <-] & U). vm_compute in U. discriminate.
  - intros (x & [= <-] & U). vm_compute in U. discriminate.
  - left. split; reflexivity.
  - exists 0%nat. cbn. discriminate.
  - apply g_followable.
  - fold (g_run gfile) in E. assert (I : In 0%nat (map fst relax)) by (apply R2; cbn; discriminate).
    apply in_map_iff in I. destruct I as ([K s] & EK & I). cbn in EK. subst K.
    destruct R as (_ & _ & Rr). rewrite E in Rr. cbn [out_relax] in Rr.
    destruct (out_relax (g_run (renumber_film cyc gfile))) as [relax'|] eqn:E'; [|contradiction]. cbn [both] in Rr.
    assert (X : exists s', In (0%nat, s') relax' /\ same_times cyc (0%nat, s) (0%nat, s')).
    { clear - Rr I. induction Rr as [|a b l l' H F IH]; [contradiction|]. destruct I as [->|I].
      - destruct b as [K s']. exists s'. assert (K = 0%nat) by apply H. subst K. split; [left; auto|auto].
      - destruct (IH I) as (s' & J1 & J2). exists s'. split; [right; auto|auto]. }
    destruct X as (s' & I' & [_ S]). cbn [snd] in S. exists s, s'.
    split; [exists relax; rewrite E; auto|]. split; [eauto|].
    assert (Re := R3 0%nat gf0 [gf1] s eq_refl I). destruct Re as (_ & _ & Re).
    assert (V : forall i v, (i < 10)%nat -> (forall w, first_about (1 / 100) (PI / (2 * 2)) (moves gT gf0 i [gf0; gf1]) w -> w = v) -> entry s "tau_F" i v).
    { intros i v Hi H. destruct (Re i Hi) as (_ & (w & W1 & W2) & _). rewrite <- (H w W2). exact W1. }
    pose proof pi_above_3. pose proof PI_4.
    assert (A0 : entry s "tau_F" 0 (2 ^ 32 - 1)).
    { apply V; [lia|]. intros w (A & B & _). destruct A as [A|(x & J & M)]; auto. exfalso. unfold moves, gf0, gf1, gf, gT, moved2, pos in J.
      cbn [map e_ts fst snd nth Z.eqb Pos.eqb x3 y3 z3 Z.sub Z.opp Z.add Z.pos_sub] in J. unfold maybe in M.
      assert (x = 0); [|subst; lra]. replace ((0 - 0) ^ 2 + (1 - 1) ^ 2 + (0 - 0) ^ 2) with 0 in J by ring. rewrite sqrt_0 in J. destruct J as [[= _ ->]|[[= _ ->]|[]]]; auto. }
    assert (A1 : entry s "tau_F" 1 100).
    { apply V; [lia|]. intros w (A & B & C). unfold moves, gf0, gf1, gf, gT, moved2, pos in A, C.
      cbn [map e_ts fst snd nth repeat Z.eqb Pos.eqb x3 y3 z3] in A, C.
      replace ((9 / 2 - 9 / 2) ^ 2 + (0 - 0) ^ 2 + (0 - 0) ^ 2) with (Rsqr 0) in A, C by (unfold Rsqr; lra).
      replace ((13 / 2 - 9 / 2) ^ 2 + (0 - 0) ^ 2 + (0 - 0) ^ 2) with (Rsqr 2) in A, C by (unfold Rsqr; lra).
      rewrite !sqrt_Rsqr in A, C by lra. change (105 - 5)%Z with 100%Z in A, C. change (5 - 5)%Z with 0%Z in A, C.
      assert (w <= 100)%Z by (apply (C 100%Z 2); [cbn; auto|unfold surely; lra]).
      destruct A as [A|(x & J & M)]; [lia|]. destruct J as [[= <- <-]|[[= <- <-]|[]]]; auto. unfold maybe in M. lra. }
    split; auto. split; auto. split; [eapply carried_entry; eauto; reflexivity|eapply carried_entry; eauto; reflexivity].
Qed.
(** Ten molecules with different displacements and rotations *)
Example C206_overlap_example :
  let dt := map (fun i => mk3 (INR i) 0 0) (seq 1 10) in let dr := map (fun i => mk3 0 0 (INR (11 - i))) (seq 1 10) in
  NoDup (displacement dt) /\ NoDup (displacement dr) /\
  mobile_overlap sort_index (displacement (reorder zero3 cyc dt)) (displacement (reorder zero3 cyc dr)) = mobile_overlap sort_index (displacement dt) (displacement dr).
Proof.
  intros dt dr.
  assert (N1 : displacement dt = map INR (seq 1 10)).
  { unfold displacement, dt. rewrite map_map. apply map_ext. intros i. unfold norm3, norm2_3, dot3. cbn [x3 y3 z3].
    replace (INR i * INR i + 0 * 0 + 0 * 0) with (INR i * INR i) by ring. apply sqrt_square, pos_INR. }
  assert (N2 : displacement dr = map INR (map (fun i => 11 - i)%nat (seq 1 10))).
  { unfold displacement, dr. rewrite !map_map. apply map_ext. intros i. unfold norm3, norm2_3, dot3. cbn [x3 y3 z3].
    replace (0 * 0 + 0 * 0 + INR (11 - i) * INR (11 - i)) with (INR (11 - i) * INR (11 - i)) by ring. apply sqrt_square, pos_INR. }
  assert (D : forall l, NoDup l -> NoDup (map INR l)) by (intros l; apply FinFun.Injective_map_NoDup; intros a b; apply INR_eq).
  assert (X1 : NoDup (displacement dt)) by (rewrite N1; apply D, seq_NoDup).
  assert (X2 : NoDup (displacement dr)).
  { rewrite N2. apply D. cbn. repeat constructor; cbn; intuition discriminate. }
  split; [exact X1|]. split; [exact X2|].
  apply (C206_overlap_partial sort_index cyc 10); auto; [apply sort_index_ok|apply cyc_perm].
Qed.
