(** C218: the analysis of some of the molecules. *)
From Coq Require Import String Reals ZArith QArith List Bool Permutation Lia Lra Arith.
From Verif Require Import Base DictFacts XNum RVec RVecFacts RelaxFitModel FrameModel PyStr
  MotionModel MotionSpec MotionProofs MotionProps DynModel DynSpec DynProofs DynStruct DynProps DynPerm DynTrue
  ParamsModel WriteCacheModel ProcessModel ProcessSpec ProcessProps ProcessPathModel ProcessPathProps MolRelaxModel MolRelaxSpec MolRelaxProofs MolRelaxDefs
  EndModel EndSpec EndProofs EndProps RenumberSpec RenumberProps PartSpec.
Import ListNotations.
Open Scope list_scope.
Open Scope R_scope.
Notation length := List.length.

Section Part.
  Variable idx : list nat.
  Variable n : nat.
  Hypothesis I : forall i, In i idx -> (i < n)%nat.

  Lemma pick_len {A} (d : A) l : length (reorder d idx l) = length idx.
  Proof. unfold reorder. apply map_length. Qed.
  Lemma pick_zip {A B C} (f : A -> B -> C) da db dc a b : length a = n -> length b = n ->
    zip f (reorder da idx a) (reorder db idx b) = reorder dc idx (zip f a b).
  Proof.
    intros La Lb. unfold reorder. induction idx as [|i l IH]; cbn; auto. f_equal.
    - symmetry. apply nth_zip; [congruence|]. rewrite La. apply I. left. auto.
    - apply IH. intros j J. apply I. right. auto.
  Qed.
  Lemma pick_map {A B} (f : A -> B) da db l : length l = n -> map f (reorder da idx l) = reorder db idx (map f l).
  Proof.
    intros L. unfold reorder. rewrite map_map. apply map_ext_in. intros i Hi. apply I in Hi.
    rewrite (nth_indep (map f l) db (f da)) by (rewrite map_length; lia). symmetry. apply map_nth.
  Qed.
  Lemma pick_forallb {A} (f : A -> bool) d l : length l = n -> forallb f l = true -> forallb f (reorder d idx l) = true.
  Proof.
    intros L H. rewrite forallb_forall in *. intros x Hx. unfold reorder in Hx. apply in_map_iff in Hx as (i & <- & Hi).
    apply H, nth_In. rewrite L. auto.
  Qed.
  Lemma pick_repeat {A} (d x : A) : reorder d idx (repeat x n) = repeat x (length idx).
  Proof.
    unfold reorder. induction idx as [|i l IH]; cbn [map length repeat]; auto. f_equal; [apply nth_rep, I; left; auto|apply IH; intros j J; apply I; right; auto].
  Qed.

  Variable wrap : fbox -> v3 -> v3.
  Variable gimbal : RVec.quat -> v3.

  Lemma pick_add m p o m' : DynPerm.sized n m -> length p = n -> sized_ori n o -> motion_add wrap gimbal m p o = (m', None) ->
    motion_add wrap gimbal (reorder_motion idx m) (reorder zero3 idx p) (reorder_ori idx o) = (reorder_motion idx m', None) /\ DynPerm.sized n m'.
  Proof.
    intros (L1 & L2 & L3 & L4) Lp Lo. unfold motion_add, reorder_motion. cbn [m_dt m_dr m_ppos m_pori m_box].
    rewrite !(bzip_eq sub3) by (rewrite ?pick_len; congruence). cbn [MotionModel.ebind].
    rewrite (pick_zip sub3 zero3 zero3 zero3) by auto.
    rewrite (pick_map (wrap (m_box m)) zero3 zero3) by (rewrite zip_length; congruence).
    rewrite !inplace_eq by (rewrite ?pick_len, ?map_length, ?zip_length; congruence).
    rewrite (pick_zip sub3 zero3 zero3 zero3) by (rewrite ?map_length, ?zip_length; congruence).
    assert (LL : length (zip sub3 (m_dt m) (map (wrap (m_box m)) (zip sub3 (m_ppos m) p))) = n) by (rewrite zip_length; rewrite ?map_length, ?zip_length; congruence).
    destruct m as [mb mdt mdr mpp mpo]. cbn [m_dt m_dr m_ppos m_pori m_box] in *.
    destruct mpo as [q|]; cbn [reorder_ori option_map]; [|intros [= <-]; split; [reflexivity|repeat split; cbn; auto]].
    destruct o as [q'|]; cbn [reorder_ori option_map]; [|intros [= <-]; split; [reflexivity|repeat split; cbn; auto]].
    cbn in L4, Lo. rewrite !bzip_eq by (rewrite ?pick_len; congruence). cbn [MotionModel.ebind].
    rewrite (pick_zip qdivide qone qone qone) by auto.
    unfold to_euler_all. destruct (forallb unitb (zip qdivide q' q)) eqn:U; [|discriminate].
    rewrite (pick_forallb unitb) by (auto; rewrite zip_length; congruence).
    cbn [MotionModel.ebind]. rewrite (pick_map (to_euler gimbal) qone zero3) by (rewrite zip_length; congruence).
    rewrite !inplace_eq by (rewrite ?pick_len, ?map_length, ?zip_length; congruence).
    rewrite (pick_zip add3 zero3 zero3 zero3) by (rewrite ?map_length, ?zip_length; congruence).
    intros [= <-]. split; [reflexivity|]. repeat split; cbn; auto. rewrite zip_length; rewrite ?map_length, ?zip_length; congruence.
  Qed.
  Lemma pick_init b p o m : length p = n -> sized_ori n o -> idx <> [] -> motion_init b p o = inl m ->
    motion_init b (reorder zero3 idx p) (reorder_ori idx o) = inl (reorder_motion idx m) /\ DynPerm.sized n m.
  Proof.
    intros Lp Lo N H. unfold motion_init in *.
    assert (Z : map (fun _ : v3 => zero3) (reorder zero3 idx p) = reorder zero3 idx (map (fun _ => zero3) p)) by (apply pick_map; auto).
    assert (S : DynPerm.sized n (mkmotion b (map (fun _ => zero3) p) (map (fun _ => zero3) p) p o)) by (repeat split; cbn; rewrite ?map_length; auto).
    destruct o as [[|q o]|]; cbn [reorder_ori option_map]; [discriminate| |].
    - injection H as <-. split; [|exact S]. rewrite Z. assert (L := pick_len qone (q :: o)).
      unfold reorder_motion. cbn [m_box m_dt m_dr m_ppos m_pori reorder_ori option_map].
      destruct (reorder qone idx (q :: o)); [destruct idx; [congruence|discriminate]|]. reflexivity.
    - injection H as <-. split; [|exact S]. rewrite Z. reflexivity.
  Qed.

  (** ** Relaxations *)
  Lemma pick_set mask (v : Z) a : length mask = n -> length a = n ->
    set_where (reorder false idx mask) v (reorder 0%Z idx a) = reorder 0%Z idx (set_where mask v a).
  Proof. intros. unfold set_where. rewrite !zip_with_zip. apply pick_zip; auto. Qed.
  Lemma pick_set_n mask (v : nat) a : length mask = n -> length a = n ->
    set_where (reorder false idx mask) v (reorder 0%nat idx a) = reorder 0%nat idx (set_where mask v a).
  Proof. intros. unfold set_where. rewrite !zip_with_zip. apply pick_zip; auto. Qed.
  Lemma set_size {A} mask (v : A) a : length mask = n -> length a = n -> length (set_where mask v a) = n.
  Proof. intros. unfold set_where. rewrite zip_with_zip. apply zip_len; auto. Qed.
  Lemma pick_mr_add t d r : MolRelaxDefs.sized n r -> length d = n ->
    mr_add t (reorder (Fin 0) idx d) (reorder_mr idx r) = match mr_add t d r with inl r' => inl (reorder_mr idx r') | inr e => inr e end.
  Proof.
    intros [H1 H2] Hd. unfold mr_add. cbn [reorder_mr mr_status mr_threshold mr_last mr_type].
    rewrite !pick_len, H1, Hd, !Nat.eqb_refl. cbn [negb].
    destruct (mr_last r) as [[st irr]|] eqn:El; cbn [option_map fst snd].
    - unfold last_update. cbv zeta.
      assert (Z : forall (f : xnum -> nat -> bool) s, length s = n -> zip_with f (reorder (Fin 0) idx d) (reorder 0%nat idx s) = reorder false idx (zip_with f d s)).
      { intros f s Hs. rewrite !zip_with_zip. apply pick_zip; auto. }
      assert (ZL : forall (f : xnum -> nat -> bool) s, length s = n -> length (zip_with f d s) = n) by (intros; rewrite zip_with_zip; apply zip_len; auto).
      rewrite Z by auto. rewrite pick_set by auto. rewrite pick_set_n by auto.
      set (s1 := set_where (zip_with (fun d0 s => xgt d0 (mr_threshold r) && (s =? 0)%nat) d st) 1%nat st).
      assert (L1 : length s1 = n) by (apply set_size; auto).
      rewrite Z by auto. rewrite pick_set_n by auto.
      set (s2 := set_where (zip_with (fun d0 s => xlt d0 (mr_threshold r) && (s =? 1)%nat) d s1) 0%nat s1).
      assert (L2 : length s2 = n) by (apply set_size; auto).
      rewrite Z by auto. rewrite pick_set_n by auto. reflexivity.
    - unfold first_update. cbv zeta.
      rewrite (pick_map _ (Fin 0) false) by auto. rewrite (pick_map _ 0%Z false) by auto.
      rewrite !zip_with_zip. rewrite (pick_zip andb false false false) by (rewrite map_length; auto).
      rewrite pick_set by (auto; apply zip_len; rewrite map_length; auto). reflexivity.
  Qed.
  Lemma pick_relax_loop t disp rot d : length disp = n -> length rot = n -> Forall (fun p => MolRelaxDefs.sized n (snd p)) d ->
    relax_loop t (reorder (Fin 0) idx disp) (reorder (Fin 0) idx rot) (reorder_all idx d) =
      (reorder_all idx (fst (relax_loop t disp rot d)), snd (relax_loop t disp rot d)) /\
    Forall (fun p => MolRelaxDefs.sized n (snd p)) (fst (relax_loop t disp rot d)).
  Proof.
    intros Ld Lr. induction d as [|[k r] d IH]; intros H; [split; [reflexivity|constructor]|]. pose proof (Forall_inv H) as Hr. pose proof (Forall_inv_tail H) as Hd. cbn [snd] in Hr.
    cbn [reorder_all map relax_loop fst snd]. fold (reorder_all idx d). change (mr_type (reorder_mr idx r)) with (mr_type r).
    replace (match mr_type r with rotation => reorder (Fin 0) idx rot | translation => reorder (Fin 0) idx disp end)
      with (reorder (Fin 0) idx (match mr_type r with rotation => rot | translation => disp end)) by (destruct (mr_type r); reflexivity).
    assert (LL : length (match mr_type r with rotation => rot | translation => disp end) = n) by (destruct (mr_type r); auto).
    rewrite pick_mr_add by auto. destruct (mr_add_sized n t _ r Hr LL) as (r' & -> & S1 & _).
    destruct (IH Hd) as [E1 E2]. rewrite E1. destruct (relax_loop t disp rot d) as [d' e]. cbn [fst snd] in *. split; [reflexivity|]. constructor; auto.
  Qed.
  Lemma pick_status r : MolRelaxDefs.sized n r -> get_status (reorder_mr idx r) = reorder 0%Z idx (get_status r).
  Proof.
    intros [H1 H2]. unfold get_status. cbn [reorder_mr mr_last mr_status]. destruct (mr_last r) as [[st irr]|]; cbn [option_map fst snd]; auto.
    rewrite (pick_map _ 0%nat false) by auto. apply pick_set; auto. rewrite map_length. auto.
  Qed.
  Lemma pick_make parse show d : make_relax parse show (length idx) d =
    match make_relax parse show n d with inl (nm, r) => inl (nm, reorder_mr idx r) | inr e => inr e end.
  Proof.
    unfold make_relax. destruct (given (def_name d)); auto. destruct (given (def_threshold d)); auto. destruct (to_float _ _) as [thr|]; auto.
    destruct (match def_cutoff d with Some v => _ | None => _ end) as [cut|]; auto.
    unfold create_mol_relaxations. destruct (xlt thr xzero); auto.
    destruct (match def_last d with Some v => to_bool v | None => false end).
    - destruct (xlt cut xzero); auto. destruct (type_of_name _); auto. unfold last_init, reorder_mr. cbn [mr_threshold mr_status mr_type mr_last option_map fst snd]. rewrite !pick_repeat. reflexivity.
    - destruct (type_of_name _); auto. unfold first_init, reorder_mr. cbn [mr_threshold mr_status mr_type mr_last option_map fst snd]. rewrite !pick_repeat. reflexivity.
  Qed.
  Lemma pick_dset nm r d : dset String.eqb nm (reorder_mr idx r) (reorder_all idx d) = reorder_all idx (dset String.eqb nm r d).
  Proof. unfold reorder_all. induction d as [|[k x] d IH]; cbn; auto. destruct (String.eqb nm k); cbn; auto. rewrite IH. reflexivity. Qed.
  Lemma pick_loop parse show defs : forall acc, Forall (fun p => MolRelaxDefs.sized n (snd p)) acc ->
    set_loop parse show (length idx) defs (reorder_all idx acc) = (reorder_all idx (fst (set_loop parse show n defs acc)), snd (set_loop parse show n defs acc)) /\
    Forall (fun p => MolRelaxDefs.sized n (snd p)) (fst (set_loop parse show n defs acc)).
  Proof.
    induction defs as [|d defs IH]; intros acc H; cbn [set_loop]; auto. rewrite pick_make.
    destruct (make_relax parse show n d) as [[nm r]|e] eqn:E; auto. rewrite pick_dset. apply IH.
    destruct (make_sound parse show n d nm r E) as (thr & cut & l & ty & _ & F). apply fresh_sized in F.
    clear - H F. induction acc as [|[k x] acc IH]; cbn [dset]; [constructor; auto|]. inversion H; subst. destruct (String.eqb nm k); constructor; auto.
  Qed.

  Variable fl : R -> xnum.
  Variable parse : string -> option xnum.
  Variable show : yaml -> string.
  Hypothesis Nidx : idx <> [].

  Definition alike_r (r r' : robj) : Prop :=
    r_motion r' = reorder_motion idx (r_motion r) /\ DynPerm.sized n (r_motion r) /\ r_num r = n /\ r_num r' = length idx /\
    rx_init_time (r_relax r') = rx_init_time (r_relax r) /\ rx_relax (r_relax r') = reorder_all idx (rx_relax (r_relax r)) /\
    Forall (fun p => MolRelaxDefs.sized n (snd p)) (rx_relax (r_relax r)).
  Lemma far_pick l : length l = n -> map fl (displacement (reorder zero3 idx l)) = reorder (Fin 0) idx (map fl (displacement l)).
  Proof. intros L. unfold displacement. rewrite (pick_map norm3 zero3 0) by auto. apply pick_map. rewrite map_length. auto. Qed.
  Lemma pick_radd r r' f r1 : alike_r r r' -> of_size n f -> radd wrap gimbal fl r f = (r1, None) ->
    exists r1', radd wrap gimbal fl r' (renumber idx f) = (r1', None) /\ alike_r r1 r1'.
  Proof.
    intros (M & Z & N1 & N2 & T & X & S) Sf. unfold radd. cbn [renumber e_ts e_box e_pos e_ori].
    destruct (motion_add wrap gimbal (r_motion r) (e_pos f) (e_ori f)) as [m [e|]] eqn:Em; [discriminate|].
    destruct (pick_add (r_motion r) (e_pos f) (e_ori f) m Z (proj1 Sf) (size_ori n f Sf) Em) as [E1 E2].
    unfold reorder_ori in E1. rewrite M, E1. pose proof E2 as (L1 & L2 & _). unfold relaxations_add. rewrite T, X. cbn [reorder_motion m_dt m_dr]. rewrite !far_pick by auto.
    destruct (pick_relax_loop (e_ts f - rx_init_time (r_relax r)) (map fl (displacement (m_dt m))) (map fl (displacement (m_dr m))) (rx_relax (r_relax r))) as [A B]; auto;
      [unfold displacement; rewrite !map_length; auto..|].
    rewrite A. destruct (relax_loop _ (map fl (displacement (m_dt m))) _ _) as [x e]. cbn [fst snd] in *. intros [= <- ->]. eexists. split; [reflexivity|]. unfold alike_r. cbn. auto 8.
  Qed.
  Lemma pick_each fs : forall r r' r1, alike_r r r' -> Forall (of_size n) fs -> add_each wrap gimbal fl r fs = inl r1 ->
    exists r1', add_each wrap gimbal fl r' (map (renumber idx) fs) = inl r1' /\ alike_r r1 r1'.
  Proof.
    induction fs as [|f fs IH]; intros r r' r1 A F H; cbn [add_each map] in *; [injection H as <-; eauto|].
    destruct (radd wrap gimbal fl r f) as [r2 [e|]] eqn:E; [discriminate|].
    destruct (pick_radd r r' f r2 A (Forall_inv F) E) as (r2' & E2 & A2). rewrite E2. apply (IH r2); auto. apply (Forall_inv_tail F).
  Qed.
  Lemma pick_start calc k f r : of_size n f -> make_relaxations fl calc parse show (Some k) f = inl r ->
    exists r', make_relaxations fl calc parse show (Some k) (renumber idx f) = inl r' /\ alike_r r r'.
  Proof.
    intros S. unfold make_relaxations. change (frame_box (renumber idx f)) with (frame_box f). cbn [renumber e_ts e_pos e_ori].
    destruct (frame_box f) as [b|e]; cbn [MotionModel.ebind]; [|discriminate].
    destruct (motion_init b (e_pos f) (e_ori f)) as [m|e] eqn:Em; cbn [MotionModel.ebind]; [|discriminate].
    destruct (pick_init b (e_pos f) (e_ori f) m (proj1 S) (size_ori n f S) Nidx Em) as [E1 E2]. unfold reorder_ori in E1. rewrite E1. cbn [MotionModel.ebind].
    destruct (Req_EM_T k 0); [discriminate|]. rewrite pick_len, (proj1 S). unfold set_mol_relax.
    destruct (pick_loop parse show (default_definitions (fl (PI / (2 * k))) (fl (PI / 2)) (fl (PI / 3)) (fl (PI / 4))) [] (Forall_nil _)) as [A B].
    change (reorder_all idx []) with (@nil (string * molrel)) in A. rewrite A.
    destruct (set_loop parse show n _ []) as [x [e|]]; cbn [fst snd] in *; [discriminate|]. intros [= <-]. eexists. split; [reflexivity|]. unfold alike_r. cbn. auto 8.
  Qed.
  Lemma pick_custom defs : match custom parse show defs with
    | None => True
    | Some g => forall r r' r1, alike_r r r' -> g r = (r1, None) -> exists r1', g r' = (r1', None) /\ alike_r r1 r1'
    end.
  Proof.
    unfold custom. destruct defs as [ds|]; [|exact Logic.I]. intros r r' r1 (M & Z & N1 & N2 & T & X & S). rewrite N1, N2. unfold set_mol_relax.
    destruct (pick_loop parse show ds [] (Forall_nil _)) as [A B]. change (reorder_all idx []) with (@nil (string * molrel)) in A. rewrite A.
    destruct (set_loop parse show n ds []) as [x e]. cbn [fst snd] in *. intros [= <- ->]. eexists. split; [reflexivity|]. unfold alike_r. cbn. auto 8.
  Qed.
  Lemma pick_summary r r' : alike_r r r' -> Forall2 (fun x x' => fst x' = fst x /\ carried idx (snd x) (snd x')) (summary (r_relax r)) (summary (r_relax r')).
  Proof.
    intros (_ & _ & _ & _ & _ & X & S). unfold summary. rewrite X. clear X. unfold reorder_all. induction (rx_relax (r_relax r)) as [|[nm x] l IH]; cbn [map fst snd]; [constructor|].
    constructor; [|apply IH, (Forall_inv_tail S)]. split; [reflexivity|]. cbn [fst snd]. pose proof (Forall_inv S) as Sx. cbn [snd] in Sx. rewrite pick_status by auto.
    split; [apply pick_len|]. intros i j Hj. unfold reorder. rewrite nth_error_map, Hj. cbn [option_map]. symmetry. apply nth_error_nth'.
    rewrite (status_sized n) by auto. apply I. eapply nth_error_In; eauto.
  Qed.

  (** ** Dynamics *)
  Definition pick_dyn (d : dynamics) : dynamics :=
    mkdyn (reorder_motion idx (d_motion d)) (d_timestep d) (length idx) (d_mol d) (d_wave d) (d_res d).
  Lemma pick_dyn_each fs : forall d d1, DynPerm.sized n (d_motion d) -> Forall (of_size n) fs -> dyn_each wrap gimbal d fs = inl d1 ->
    dyn_each wrap gimbal (pick_dyn d) (map (renumber idx) fs) = inl (pick_dyn d1) /\ DynPerm.sized n (d_motion d1) /\ d_res d1 = d_res d.
  Proof.
    induction fs as [|f fs IH]; intros d d1 Z F H; cbn [dyn_each map] in *; [injection H as <-; auto|].
    unfold dyn_add in *. destruct (motion_add wrap gimbal (d_motion d) (e_pos f) (e_ori f)) as [m [e|]] eqn:Em; [discriminate|].
    destruct (pick_add (d_motion d) (e_pos f) (e_ori f) m Z (proj1 (Forall_inv F)) (size_ori n f (Forall_inv F)) Em) as [E1 E2].
    cbn [pick_dyn d_motion renumber e_pos e_ori]. unfold reorder_ori in E1. rewrite E1.
    destruct (IH (mkdyn m (d_timestep d) (d_num d) (d_mol d) (d_wave d) (d_res d)) d1 E2 (Forall_inv_tail F) H) as (A & B & C). split; [exact A|]. split; auto.
  Qed.
  Lemma pick_dynamics mol wave f0 fs d : of_size n f0 -> Forall (of_size n) fs -> dynamics_of wrap gimbal mol wave f0 fs = inl d ->
    dynamics_of wrap gimbal mol wave (renumber idx f0) (map (renumber idx) fs) = inl (pick_dyn d) /\ DynPerm.sized n (d_motion d) /\ d_res d = 360%nat.
  Proof.
    intros S F. unfold dynamics_of, make_dynamics, dyn_init. change (frame_box (renumber idx f0)) with (frame_box f0). cbn [renumber e_ts e_pos e_ori].
    assert (Lp := proj1 S). destruct (e_pos f0) as [|p0 ps] eqn:Ep; [discriminate|].
    destruct (frame_box f0) as [b|e]; cbn [MotionModel.ebind]; [|discriminate].
    destruct (motion_init b (p0 :: ps) (e_ori f0)) as [m|e] eqn:Em; cbn [MotionModel.ebind]; [|discriminate].
    destruct (pick_init b (p0 :: ps) (e_ori f0) m Lp (size_ori n f0 S) Nidx Em) as [E1 E2]. unfold reorder_ori in E1.
    assert (L := pick_len zero3 (p0 :: ps)).
    destruct (reorder zero3 idx (p0 :: ps)) as [|p0' ps'] eqn:Er; [destruct idx; [congruence|discriminate]|]. rewrite E1. cbn [MotionModel.ebind]. rewrite L.
    intros H. destruct (pick_dyn_each fs (mkdyn m (e_ts f0) (length (p0 :: ps)) (Some mol) wave 360) d E2 F H) as (A & B & C). split; [exact A|]. split; auto.
  Qed.
End Part.

(** * C218 *)
(** The times of a molecule are those found when some of the molecules only are analysed. *)
Theorem C218_times wrap gimbal fl parse show k defs n idx f0 fs r :
  some_of n idx -> Forall (of_size n) (f0 :: fs) ->
  relaxations_of wrap gimbal fl parse show k defs f0 fs = inl r ->
  exists r', relaxations_of wrap gimbal fl parse show k defs (renumber idx f0) (map (renumber idx) fs) = inl r' /\
    Forall2 (fun x x' => fst x' = fst x /\ carried idx (snd x) (snd x')) (summary (r_relax r)) (summary (r_relax r')).
Proof.
  intros [N I] F. pose proof (Forall_inv F) as S0. pose proof (Forall_inv_tail F) as S. unfold relaxations_of.
  destruct (make_relaxations fl _ parse show (Some k) f0) as [r0|e] eqn:E0; [|discriminate].
  destruct (pick_start idx n I fl parse show N _ k f0 r0 S0 E0) as (r0' & -> & A0).
  assert (C := pick_custom idx n I parse show defs). destruct (custom parse show defs) as [g|].
  - destruct (g r0) as [r1 [e|]] eqn:E1; [discriminate|]. destruct (C r0 r0' r1 A0 E1) as (r1' & -> & A1). intros H.
    destruct (pick_each idx n I wrap gimbal fl fs r1 r1' r A1 S H) as (r2 & E2 & A2). exists r2. split; auto. eapply pick_summary; eauto.
  - intros H. destruct (pick_each idx n I wrap gimbal fl fs r0 r0' r A0 S H) as (r2 & E2 & A2). exists r2. split; auto. eapply pick_summary; eauto.
Qed.
Print Assumptions C218_times.

Lemma weigh l a b : Permutation (a ++ b) l -> a <> [] -> b <> [] -> INR (length l) * rmean l = INR (length a) * rmean a + INR (length b) * rmean b.
Proof.
  intros P A B. unfold rmean. rewrite <- (rsum_perm _ _ P), rsum_app.
  assert (L : l <> []) by (intros ->; apply Permutation_sym, Permutation_nil, app_eq_nil in P; tauto).
  pose proof (INR_len_pos a A). pose proof (INR_len_pos b B). pose proof (INR_len_pos l L). field. lra.
Qed.
Lemma weigh_map {A} (f : A -> R) (l a b : list A) : Permutation (a ++ b) l -> a <> [] -> b <> [] ->
  INR (length l) * rmean (map f l) = INR (length a) * rmean (map f a) + INR (length b) * rmean (map f b).
Proof.
  intros P H H'. rewrite <- (map_length f l), <- (map_length f a), <- (map_length f b). apply weigh.
  - rewrite <- map_app. apply Permutation_map. auto.
  - destruct a; [congruence|discriminate].
  - destruct b; [congruence|discriminate].
Qed.
Lemma flat_len {A B} (g : A -> list B -> list R) ws (l : list B) : (forall w, length (g w l) = length l) -> length (flat_map (fun w => g w l) ws) = (length ws * length l)%nat.
Proof. intros H. induction ws as [|w ws IH]; cbn; auto. rewrite app_length, H, IH. reflexivity. Qed.
Lemma flat_sum {B} (g : R * R -> B -> R) ws (l a b : list B) : Permutation (a ++ b) l ->
  rsum (flat_map (fun w => map (g w) l) ws) = rsum (flat_map (fun w => map (g w) a) ws) + rsum (flat_map (fun w => map (g w) b) ws).
Proof.
  intros P. induction ws as [|w ws IH]; cbn [flat_map]; [cbn; lra|]. rewrite !rsum_app, IH.
  rewrite <- (rsum_perm _ _ (Permutation_map (g w) P)), map_app, rsum_app. lra.
Qed.
Lemma weigh_isf k res (l a b : list v3) : (0 < res)%nat -> Permutation (a ++ b) l -> a <> [] -> b <> [] ->
  INR (length l) * isf k res l = INR (length a) * isf k res a + INR (length b) * isf k res b.
Proof.
  intros H P A B. unfold isf, rmean.
  rewrite !(flat_len (fun w l => map (fun d => cos (fst w * x3 d + snd w * y3 d)) l)) by (intros; apply map_length).
  rewrite (flat_sum (fun w d => cos (fst w * x3 d + snd w * y3 d)) _ l a b P). rewrite !mult_INR.
  assert (L : l <> []) by (intros ->; apply Permutation_sym, Permutation_nil, app_eq_nil in P; tauto).
  assert (W : 0 < INR (length (wave_vectors k res))) by (unfold wave_vectors; rewrite map_length, seq_length; apply lt_0_INR; auto).
  assert (PA : INR (length a) <> 0) by (pose proof (INR_len_pos a A); lra). assert (PB : INR (length b) <> 0) by (pose proof (INR_len_pos b B); lra).
  assert (PL : INR (length l) <> 0) by (pose proof (INR_len_pos l L); lra). field. repeat split; auto; lra.
Qed.
Lemma parts_perm {A} (d : A) a b l : Permutation (a ++ b) (seq 0 (length l)) -> Permutation (reorder d a l ++ reorder d b l) l.
Proof. intros P. unfold reorder. rewrite <- map_app. apply (reorder_perm (a ++ b) (length l) P d l eq_refl). Qed.

(** The molecules in two parts, each in any order: the value of an average is that of the parts,
    weighted with the numbers of molecules. *)
Theorem C218_averages wrap gimbal argsort mol wave n a b f0 fs d :
  Permutation (a ++ b) (seq 0 n) -> a <> [] -> b <> [] -> Forall (of_size n) (f0 :: fs) ->
  dynamics_of wrap gimbal mol wave f0 fs = inl d ->
  exists da db,
    dynamics_of wrap gimbal mol wave (renumber a f0) (map (renumber a) fs) = inl da /\
    dynamics_of wrap gimbal mol wave (renumber b f0) (map (renumber b) fs) = inl db /\
    forall ts sc q qa qb key,
      quantities argsort d ts sc = inl q -> quantities argsort da ts sc = inl qa -> quantities argsort db ts sc = inl qb ->
      In key averages -> weighted (length a) (length b) (dget String.eqb key q) (dget String.eqb key qa) (dget String.eqb key qb).
Proof.
  intros P A B F H. pose proof (Forall_inv F) as S0. pose proof (Forall_inv_tail F) as S.
  assert (I : forall i, In i (a ++ b) -> (i < n)%nat) by (intros i J; apply (Permutation_in _ P), in_seq in J; lia).
  assert (Ia : forall i, In i a -> (i < n)%nat) by (intros; apply I, in_or_app; auto).
  assert (Ib : forall i, In i b -> (i < n)%nat) by (intros; apply I, in_or_app; auto).
  destruct (pick_dynamics a n Ia wrap gimbal A mol wave f0 fs d S0 S H) as (Ea & Z & Rs).
  destruct (pick_dynamics b n Ib wrap gimbal B mol wave f0 fs d S0 S H) as (Eb & _ & _).
  exists (pick_dyn a d), (pick_dyn b d). split; [exact Ea|]. split; [exact Eb|]. clear Ea Eb H F S0 S.
  intros ts sc q qa qb key Q Qa Qb K.
  apply quantities_row in Q. destruct Q as (? & dist & ? & ? & ? & ? & _ & D & _ & _ & _ & _ & ->).
  apply quantities_row in Qa. destruct Qa as (? & dista & ? & ? & ? & ? & _ & Da & _ & _ & _ & _ & ->).
  apply quantities_row in Qb. destruct Qb as (? & distb & ? & ? & ? & ? & _ & Db & _ & _ & _ & _ & ->).
  change (distance (pick_dyn a d)) with (distance d) in Da. change (distance (pick_dyn b d)) with (distance d) in Db.
  rewrite D in Da, Db. injection Da as <-. injection Db as <-.
  change (d_wave (pick_dyn a d)) with (d_wave d). change (d_wave (pick_dyn b d)) with (d_wave d).
  change (d_res (pick_dyn a d)) with (d_res d). change (d_res (pick_dyn b d)) with (d_res d).
  change (m_dt (d_motion (pick_dyn a d))) with (reorder zero3 a (m_dt (d_motion d))). change (m_dt (d_motion (pick_dyn b d))) with (reorder zero3 b (m_dt (d_motion d))).
  change (m_dr (d_motion (pick_dyn a d))) with (reorder zero3 a (m_dr (d_motion d))). change (m_dr (d_motion (pick_dyn b d))) with (reorder zero3 b (m_dr (d_motion d))).
  destruct Z as (L1 & L2 & _). set (dt := m_dt (d_motion d)) in *. set (dr := m_dr (d_motion d)) in *.
  assert (NE : forall c (l : list v3), c <> [] -> reorder zero3 c l <> []) by (intros [|i c] l Hc; [congruence|discriminate]).
  assert (Nab : (length a + length b)%nat = n) by (rewrite <- app_length, (Permutation_length P); apply seq_length).
  assert (G : forall (f : v3 -> R) l, length l = n -> INR (length a + length b) * rmean (map f l) = INR (length a) * rmean (map f (reorder zero3 a l)) + INR (length b) * rmean (map f (reorder zero3 b l))).
  { intros f l L. assert (W := weigh_map f l (reorder zero3 a l) (reorder zero3 b l) (parts_perm zero3 a b l ltac:(rewrite L; exact P)) (NE a l A) (NE b l B)).
    rewrite !pick_len, L in W. rewrite Nab. exact W. }
  assert (Gi : forall w, INR (length a + length b) * isf w (d_res d) dt = INR (length a) * isf w (d_res d) (reorder zero3 a dt) + INR (length b) * isf w (d_res d) (reorder zero3 b dt)).
  { intros w. assert (W := weigh_isf w (d_res d) dt (reorder zero3 a dt) (reorder zero3 b dt) ltac:(rewrite Rs; lia) (parts_perm zero3 a b dt ltac:(rewrite L1; exact P)) (NE a dt A) (NE b dt B)).
    rewrite !pick_len, L1 in W. rewrite Nab. exact W. }
  unfold row. cbn in K.
  repeat (destruct K as [<-|K]; [cbn [dget String.eqb Ascii.eqb Bool.eqb]|]); [..|contradiction].
  - right. eexists _, _, _. repeat split. apply (G norm3 dt L1).
  - right. eexists _, _, _. repeat split. apply (G norm2_3 dt L1).
  - right. eexists _, _, _. repeat split. unfold mfd, displacement2. rewrite !map_map. apply (G (fun v => sq (norm2_3 v)) dt L1).
  - destruct sc, (d_wave d) as [w|]; [|left; auto..]. right. eexists _, _, _. repeat split. apply Gi.
  - destruct dist as [cut|]; [|left; auto]. right. eexists _, _, _. repeat split. unfold structural_relax, displacement. rewrite !map_map. apply (G (fun v => if Rltb (norm3 v) cut then 1 else 0) dt L1).
  - right. eexists _, _, _. repeat split. apply (G norm3 dr L2).
  - right. eexists _, _, _. repeat split. apply (G norm2_3 dr L2).
  - right. eexists _, _, _. repeat split. unfold rot1, displacement. rewrite !map_map. apply (G (fun v => cos (norm3 v)) dr L2).
  - right. eexists _, _, _. repeat split. unfold rot2, displacement. rewrite !map_map. apply (G (fun v => 2 * sq (cos (norm3 v)) - 1) dr L2).
Qed.
Print Assumptions C218_averages.

(** Three molecules of which the last moves by 4; the last and the first are analysed. *)
Definition pt_wrap (_ : fbox) (v : v3) : v3 := v.
Definition pt_fl (r : R) : xnum := if Rle_dec 3 r then Fin 2 else Fin 1.
Definition pt0 : eframe := mkframe 5 [100; 100; 1; 0; 0; 0] [mk3 0 0 0; mk3 1 0 0; mk3 2 0 0] None.
Definition pt1 : eframe := mkframe 9 [100; 100; 1; 0; 0; 0] [mk3 0 0 0; mk3 1 0 0; mk3 6 0 0] None.
Lemma pt_lo x : x < 3 -> pt_fl x = Fin 1.
Proof. intros H. unfold pt_fl. destruct (Rle_dec 3 x); [lra|reflexivity]. Qed.
Lemma pt_hi x : 3 <= x -> pt_fl x = Fin 2.
Proof. intros H. unfold pt_fl. destruct (Rle_dec 3 x); [reflexivity|lra]. Qed.
Lemma norm_x x y z : y = 0 -> z = 0 -> norm3 (mk3 x y z) = Rabs x.
Proof. intros -> ->. unfold norm3, norm2_3, dot3. cbn [x3 y3 z3]. rewrite <- sqrt_Rsqr_abs. f_equal. unfold Rsqr. ring. Qed.
Example C218_times_example : some_of 3 [2; 0]%nat /\ Forall (of_size 3) [pt0; pt1] /\
  exists r r', relaxations_of pt_wrap (fun _ => zero3) pt_fl ex_pf (fun _ => EmptyString) 1 None pt0 [pt1] = inl r /\
    relaxations_of pt_wrap (fun _ => zero3) pt_fl ex_pf (fun _ => EmptyString) 1 None (renumber [2; 0]%nat pt0) [renumber [2; 0]%nat pt1] = inl r' /\
    dget String.eqb "tau_F"%string (summary (r_relax r)) = Some [2 ^ 32 - 1; 2 ^ 32 - 1; 4]%Z /\
    dget String.eqb "tau_F"%string (summary (r_relax r')) = Some [4; 2 ^ 32 - 1]%Z.
Proof.
  assert (S : some_of 3 [2; 0]%nat) by (split; [discriminate|cbn; intros i [<-|[<-|[]]]; lia]).
  assert (F : Forall (of_size 3) [pt0; pt1]) by (repeat constructor).
  assert (E : exists r, relaxations_of pt_wrap (fun _ => zero3) pt_fl ex_pf (fun _ => EmptyString) 1 None pt0 [pt1] = inl r /\
    dget String.eqb "tau_F"%string (summary (r_relax r)) = Some [2 ^ 32 - 1; 2 ^ 32 - 1; 4]%Z).
  { pose proof pi_above_3. pose proof PI_4. unfold relaxations_of, make_relaxations.
    assert (B : exists b, frame_box pt0 = inl b) by (eexists; reflexivity). destruct B as (bb & ->). cbn [MotionModel.ebind pt0 e_pos e_ori e_ts motion_init].
    destruct (Req_EM_T 1 0) as [X|_]; [lra|]. rewrite (pt_lo (PI / (2 * 1))), (pt_lo (PI / 2)), (pt_lo (PI / 3)), (pt_lo (PI / 4)) by lra.
    unfold custom. destruct (set_mol_relax _ _ _ _) as [rx oe] eqn:Es. vm_compute in Es. injection Es as <- <-.
    cbn [add_each]. unfold radd, motion_add. cbn [r_motion r_num r_relax m_dt m_dr m_ppos m_pori m_box map pt1 e_pos e_ori e_ts length].
    rewrite bzip_eq by reflexivity. cbn [MotionModel.ebind]. cbn [zip map pt_wrap]. rewrite inplace_eq by reflexivity. cbn [zip].
    unfold relaxations_add. cbn [m_dt m_dr displacement map].
    assert (N : forall u v w, norm3 (sub3 zero3 (pt_wrap bb (sub3 (mk3 u 0 0) (mk3 v w 0)))) = Rabs (v - u) \/ w <> 0).
    { intros u v w. destruct (Req_EM_T w 0) as [->|]; auto. left. unfold pt_wrap, sub3, zero3. cbn [x3 y3 z3]. rewrite norm_x by ring. f_equal. ring. }
    assert (N0 : forall u v, norm3 (sub3 zero3 (pt_wrap bb (sub3 (mk3 u 0 0) (mk3 v 0 0)))) = Rabs (v - u)) by (intros u v; destruct (N u v 0); [auto|lra]).
    unfold pt_wrap in N0 |- *. unfold displacement. cbn [map]. rewrite !N0.
    replace (norm3 zero3) with 0 by (unfold zero3; rewrite norm_x by auto; rewrite Rabs_R0; auto).
    replace (Rabs (0 - 0)) with 0 by (rewrite Rminus_0_r, Rabs_R0; auto). replace (Rabs (1 - 1)) with 0 by (replace (1 - 1) with 0 by ring; rewrite Rabs_R0; auto).
    replace (Rabs (6 - 2)) with 4 by (rewrite Rabs_pos_eq; lra). rewrite (pt_lo 0), (pt_hi 4) by lra.
    destruct (relax_loop _ _ _ _) as [x' e'] eqn:El. vm_compute in El. injection El as <- <-. eexists. split; [reflexivity|]. vm_compute. reflexivity. }
  destruct E as (r & E & V). destruct (C218_times pt_wrap (fun _ => zero3) pt_fl ex_pf (fun _ => EmptyString) 1 None 3 [2; 0]%nat pt0 [pt1] r S F E) as (r' & E' & Q).
  split; [exact S|]. split; [exact F|]. exists r, r'. split; [exact E|]. split; [exact E'|]. split; [exact V|].
  clear - Q V. induction Q as [|[k c] [k' c'] l l' [Ek C] Q IH]; cbn [dget fst snd] in *; [discriminate|]. subst k'.
  destruct (String.eqb "tau_F" k); [|auto]. injection V as ->. destruct C as [L C].
  destruct c' as [|u [|v [|]]]; try discriminate L. assert (C0 := C 0%nat 2%nat eq_refl). assert (C1 := C 1%nat 0%nat eq_refl). cbn in C0, C1. injection C0 as ->. injection C1 as ->. reflexivity.
Qed.

(** Twenty molecules of which ten move by 1 and ten by 2. The non-Gaussian parameter is not such
    an average. *)
Definition tw (ts : Z) (u v : R) : eframe := mkframe ts [100; 100; 1; 0; 0; 0] (repeat (mk3 u 0 0) 10 ++ repeat (mk3 v 0 0) 10) None.
Lemma tw_dyn (l : list v3) d : d_motion d = mkmotion (m_box (d_motion d)) l (repeat zero3 (length l)) (m_ppos (d_motion d)) None -> d_wave d = Some 1 -> (10 <= length l)%nat -> d_num d = length l -> (0 < d_res d)%nat -> d_mol d = Some [zero3] ->
  exists q, quantities sort_index d 9 true = inl q /\ dget String.eqb "msd"%string q = Some (VFl (FR (msd l))) /\
    (msd l <> 0 -> dget String.eqb "alpha"%string q = Some (VFl (FR (mfd l / (2 * sq (msd l)) - 1)))).
Proof.
  intros M W L N Rs Mo. destruct (C75_all_quantities_partial sort_index d 9 true) as (q & Q & _).
  - apply sort_index_ok.
  - unfold dyn_ok. rewrite M. cbn [m_dt m_dr]. rewrite repeat_length. repeat split; lia.
  - lia.
  - rewrite W. intros E. injection E. lra.
  - rewrite Mo. discriminate.
  - exists q. split; auto. apply quantities_row in Q. rewrite M in Q. cbn [m_dt m_dr] in Q.
    destruct Q as (al & ? & ? & ? & ? & ? & A & _ & _ & _ & _ & _ & ->). split; [reflexivity|]. intros Nz. unfold row. cbn [dget String.eqb Ascii.eqb Bool.eqb].
    unfold alpha, ratio in A. destruct (Req_EM_T _ 0) as [Z|_]; [exfalso; apply Nz|injection A as <-; reflexivity].
    unfold sq in Z. apply Rmult_integral in Z. destruct Z as [Z|Z]; [lra|]. apply Rmult_integral in Z. tauto.
Qed.
Lemma tw_step u v : sub3 zero3 (pt_wrap (mkbox 100 100 0 0 0 0 true) (sub3 (mk3 u 0 0) (mk3 v 0 0))) = mk3 (v - u) 0 0.
Proof. unfold pt_wrap, sub3, zero3. cbn [x3 y3 z3]. apply v3_eq; ring. Qed.
Lemma norm2_x x : norm2_3 (mk3 x 0 0) = sq x.
Proof. unfold norm2_3, dot3, sq. cbn [x3 y3 z3]. ring. Qed.
Lemma msd_rep c m : (0 < m)%nat -> msd (repeat (mk3 c 0 0) m) = sq c /\ mfd (repeat (mk3 c 0 0) m) = sq (sq c).
Proof.
  intros H. unfold msd, mfd, displacement2.
  split; apply rmean_const; try (destruct m; [lia|discriminate]); apply Forall_forall; intros y Y.
  - apply in_map_iff in Y as (w & <- & W). apply repeat_spec in W. subst w. apply norm2_x.
  - apply in_map_iff in Y as (z & <- & Y). apply in_map_iff in Y as (w & <- & W). apply repeat_spec in W. subst w. rewrite norm2_x. reflexivity.
Qed.
Lemma msd_two : msd (repeat (mk3 1 0 0) 10 ++ repeat (mk3 2 0 0) 10) = 5 / 2 /\ mfd (repeat (mk3 1 0 0) 10 ++ repeat (mk3 2 0 0) 10) = 17 / 2.
Proof.
  unfold msd, mfd, displacement2, rmean. cbn [repeat app map length]. rewrite !norm2_x. unfold rsum, sq. cbn [fold_right].
  replace (INR 20) with 20 by (rewrite INR_IZR_INZ; reflexivity). split; lra.
Qed.
Lemma zeros (l : list v3) : map (fun _ => zero3) l = repeat zero3 (length l).
Proof. induction l as [|x l IH]; cbn; [reflexivity|]. rewrite IH. reflexivity. Qed.
Definition tw_d (l p : list v3) : dynamics := mkdyn (mkmotion (mkbox 100 100 0 0 0 0 true) l (repeat zero3 (length l)) p None) 5 (length l) (Some [zero3]) (Some 1) 360.
Lemma tw_run f0 f1 l b : frame_box f0 = inl b -> e_pos f0 <> [] -> e_ori f0 = None -> e_ori f1 = None -> e_ts f0 = 5%Z -> b = mkbox 100 100 0 0 0 0 true -> length (e_pos f1) = length (e_pos f0) ->
  zip sub3 (map (fun _ => zero3) (e_pos f0)) (map (pt_wrap b) (zip sub3 (e_pos f0) (e_pos f1))) = l ->
  dynamics_of pt_wrap (fun _ => zero3) [zero3] (Some 1) f0 [f1] = inl (tw_d l (e_pos f1)).
Proof.
  intros B N O O1 T Eb L H. unfold dynamics_of, make_dynamics. rewrite B. destruct (e_pos f0) as [|p0 ps] eqn:Ep; [congruence|]. cbn [MotionModel.ebind].
  unfold dyn_init, motion_init. rewrite O, T. cbn [MotionModel.ebind dyn_each].
  unfold dyn_add, motion_add. cbn [d_motion m_dt m_dr m_ppos m_pori m_box].
  rewrite bzip_eq by congruence. cbn [MotionModel.ebind].
  rewrite inplace_eq by (rewrite !map_length, zip_length; congruence). rewrite H.
  assert (Ll : length l = length (p0 :: ps)) by (rewrite <- H, zip_length; rewrite !map_length, ?zip_length; congruence).
  unfold tw_d. rewrite zeros, Ll, <- Eb, O1. reflexivity.
Qed.
Lemma tw_box ts p o : exists e, frame_box (mkframe ts [100; 100; 1; 0; 0; 0] p o) = inl e /\ e = mkbox 100 100 0 0 0 0 true.
Proof. eexists. split; reflexivity. Qed.
Lemma twenty : exists d da db q qa qb,
  dynamics_of pt_wrap (fun _ => zero3) [zero3] (Some 1) (tw 5 0 0) [tw 9 1 2] = inl d /\
  dynamics_of pt_wrap (fun _ => zero3) [zero3] (Some 1) (renumber (seq 0 10) (tw 5 0 0)) [renumber (seq 0 10) (tw 9 1 2)] = inl da /\
  dynamics_of pt_wrap (fun _ => zero3) [zero3] (Some 1) (renumber (seq 10 10) (tw 5 0 0)) [renumber (seq 10 10) (tw 9 1 2)] = inl db /\
  quantities sort_index d 9 true = inl q /\ quantities sort_index da 9 true = inl qa /\ quantities sort_index db 9 true = inl qb /\
  (dget String.eqb "msd"%string q = Some (VFl (FR (5 / 2))) /\ dget String.eqb "msd"%string qa = Some (VFl (FR 1)) /\ dget String.eqb "msd"%string qb = Some (VFl (FR 4))) /\
  (dget String.eqb "alpha"%string q = Some (VFl (FR (- (8 / 25)))) /\ dget String.eqb "alpha"%string qa = Some (VFl (FR (- (1 / 2)))) /\ dget String.eqb "alpha"%string qb = Some (VFl (FR (- (1 / 2))))).
Proof.
  set (l1 := repeat (mk3 1 0 0) 10). set (l2 := repeat (mk3 2 0 0) 10).
  assert (A1 : sub3 zero3 (pt_wrap (mkbox 100 100 0 0 0 0 true) (sub3 (mk3 0 0 0) (mk3 1 0 0))) = mk3 1 0 0) by (rewrite tw_step; apply v3_eq; ring).
  assert (A2 : sub3 zero3 (pt_wrap (mkbox 100 100 0 0 0 0 true) (sub3 (mk3 0 0 0) (mk3 2 0 0))) = mk3 2 0 0) by (rewrite tw_step; apply v3_eq; ring).
  exists (tw_d (l1 ++ l2) (e_pos (tw 9 1 2))), (tw_d l1 l1), (tw_d l2 l2).
  destruct (tw_dyn (l1 ++ l2) (tw_d (l1 ++ l2) (e_pos (tw 9 1 2)))) as (q & Q & M & A); try reflexivity; try (cbn; lia).
  destruct (tw_dyn l1 (tw_d l1 l1)) as (qa & Qa & Ma & Aa); try reflexivity; try (cbn; lia).
  destruct (tw_dyn l2 (tw_d l2 l2)) as (qb & Qb & Mb & Ab); try reflexivity; try (cbn; lia).
  destruct msd_two as [V1 V2]. fold l1 l2 in V1, V2.
  destruct (msd_rep 1 10 ltac:(lia)) as [W1 W2]. fold l1 in W1, W2. destruct (msd_rep 2 10 ltac:(lia)) as [U1 U2]. fold l2 in U1, U2.
  rewrite V1 in M, A. rewrite V2 in A. rewrite W1 in Ma, Aa. rewrite W2 in Aa. rewrite U1 in Mb, Ab. rewrite U2 in Ab. unfold sq in *.
  specialize (A ltac:(lra)). specialize (Aa ltac:(lra)). specialize (Ab ltac:(lra)).
  exists q, qa, qb. split; [|split; [|split]].
  - destruct (tw_box 5 (e_pos (tw 5 0 0)) None) as (e & B & Ee). apply (tw_run (tw 5 0 0) (tw 9 1 2) _ e B); auto; [discriminate|]. subst e.
    cbn [tw e_pos repeat app map zip]. rewrite A1, A2. reflexivity.
  - destruct (tw_box 5 (e_pos (renumber (seq 0 10) (tw 5 0 0))) None) as (e & B & Ee). apply (tw_run (renumber (seq 0 10) (tw 5 0 0)) (renumber (seq 0 10) (tw 9 1 2)) _ e B); auto; [discriminate|]. subst e.
    cbn [renumber reorder tw e_pos repeat app map zip seq nth]. rewrite A1. reflexivity.
  - destruct (tw_box 5 (e_pos (renumber (seq 10 10) (tw 5 0 0))) None) as (e & B & Ee). apply (tw_run (renumber (seq 10 10) (tw 5 0 0)) (renumber (seq 10 10) (tw 9 1 2)) _ e B); auto; [discriminate|]. subst e.
    cbn [renumber reorder tw e_pos repeat app map zip seq nth]. rewrite A2. reflexivity.
  - split; [exact Q|]. split; [exact Qa|]. split; [exact Qb|]. split; [split; [exact M|split]|split; [|split]].
    + rewrite Ma. apply (f_equal (fun z => Some (VFl (FR z)))); lra.
    + rewrite Mb. apply (f_equal (fun z => Some (VFl (FR z)))); lra.
    + rewrite A. apply (f_equal (fun z => Some (VFl (FR z)))); field.
    + rewrite Aa. apply (f_equal (fun z => Some (VFl (FR z)))); field.
    + rewrite Ab. apply (f_equal (fun z => Some (VFl (FR z)))); field.
Qed.
Lemma tw_sizes : Permutation (seq 0 10 ++ seq 10 10) (seq 0 20) /\ Forall (of_size 20) [tw 5 0 0; tw 9 1 2].
Proof. split; [apply Permutation_refl|repeat constructor]. Qed.
Example C218_averages_example : exists d da db q qa qb,
  dynamics_of pt_wrap (fun _ => zero3) [zero3] (Some 1) (tw 5 0 0) [tw 9 1 2] = inl d /\
  dynamics_of pt_wrap (fun _ => zero3) [zero3] (Some 1) (renumber (seq 0 10) (tw 5 0 0)) [renumber (seq 0 10) (tw 9 1 2)] = inl da /\
  dynamics_of pt_wrap (fun _ => zero3) [zero3] (Some 1) (renumber (seq 10 10) (tw 5 0 0)) [renumber (seq 10 10) (tw 9 1 2)] = inl db /\
  quantities sort_index d 9 true = inl q /\ quantities sort_index da 9 true = inl qa /\ quantities sort_index db 9 true = inl qb /\
  dget String.eqb "msd"%string q = Some (VFl (FR (5 / 2))) /\ dget String.eqb "msd"%string qa = Some (VFl (FR 1)) /\ dget String.eqb "msd"%string qb = Some (VFl (FR 4)).
Proof. destruct twenty as (d & da & db & q & qa & qb & A & B & C & D & E & F & G & _). exists d, da, db, q, qa, qb. auto 10. Qed.
(** The non-Gaussian parameter of the whole is not the weighted average of those of the parts. *)
Theorem C218_alpha_refuted : exists n a b f0 f1 d da db q qa qb,
  Permutation (a ++ b) (seq 0 n) /\ a <> [] /\ b <> [] /\ Forall (of_size n) [f0; f1] /\
  dynamics_of pt_wrap (fun _ => zero3) [zero3] (Some 1) f0 [f1] = inl d /\
  dynamics_of pt_wrap (fun _ => zero3) [zero3] (Some 1) (renumber a f0) [renumber a f1] = inl da /\
  dynamics_of pt_wrap (fun _ => zero3) [zero3] (Some 1) (renumber b f0) [renumber b f1] = inl db /\
  quantities sort_index d 9 true = inl q /\ quantities sort_index da 9 true = inl qa /\ quantities sort_index db 9 true = inl qb /\
  ~ weighted (length a) (length b) (dget String.eqb "alpha"%string q) (dget String.eqb "alpha"%string qa) (dget String.eqb "alpha"%string qb).
Proof.
  destruct twenty as (d & da & db & q & qa & qb & A & B & C & D & E & F & _ & V & Va & Vb). destruct tw_sizes as [S1 S2].
  exists 20%nat, (seq 0 10), (seq 10 10), (tw 5 0 0), (tw 9 1 2), d, da, db, q, qa, qb.
  split; [exact S1|]. split; [discriminate|]. split; [discriminate|]. split; [exact S2|].
  split; [exact A|]. split; [exact B|]. split; [exact C|]. split; [exact D|]. split; [exact E|]. split; [exact F|].
  rewrite V, Va, Vb, !seq_length. intros [(X & _)|(x & xa & xb & X & Xa & Xb & H)]; [discriminate|].
  injection X as <-. injection Xa as <-. injection Xb as <-. rewrite plus_INR in H. replace (INR 10) with 10 in H by (rewrite INR_IZR_INZ; reflexivity). lra.
Qed.
Print Assumptions C218_alpha_refuted.
