(** Dynamics: the numbering of the particles does not matter, property C74. *)
From Coq Require Import String Reals ZArith List Bool Permutation Lra Lia.
From Verif Require Import Base RVec RVecFacts RelaxFitModel MotionModel MotionSpec MotionProofs MotionProps DynModel DynSpec DynProofs DynStruct DynProps.
Import ListNotations.
Open Scope R_scope.
Notation length := List.length.

Section Reorder.
  Variable idx : list nat.
  Variable n : nat.
  Hypothesis P : Permutation idx (seq 0 n).

  Lemma idx_lt i : In i idx -> (i < n)%nat.
  Proof. intros I. apply (Permutation_in _ P), in_seq in I. lia. Qed.
  Lemma idx_len : length idx = n.
  Proof. rewrite (Permutation_length P). apply seq_length. Qed.
  Lemma reorder_len {A} (d : A) l : length (reorder d idx l) = n.
  Proof. unfold reorder. rewrite map_length. apply idx_len. Qed.
  Lemma reorder_perm {A} (d : A) l : length l = n -> Permutation (reorder d idx l) l.
  Proof.
    intros L. unfold reorder. rewrite (Permutation_map (fun i => nth i l d) P). rewrite <- L. clear.
    assert (E : map (fun i => nth i l d) (seq 0 (length l)) = l); [|rewrite E; auto].
    induction l as [|x l IH]; cbn; auto. f_equal. rewrite <- seq_shift, map_map. auto.
  Qed.
  Lemma nth_zip {A B C} (f : A -> B -> C) a b da db dc i : length a = length b -> (i < length a)%nat -> nth i (zip f a b) dc = f (nth i a da) (nth i b db).
  Proof. revert b i. induction a as [|x a IH]; intros [|y b] [|i] L I; cbn in *; try discriminate; try lia; auto. apply IH; lia. Qed.
  Lemma reorder_zip {A B C} (f : A -> B -> C) da db dc a b : length a = n -> length b = n ->
    zip f (reorder da idx a) (reorder db idx b) = reorder dc idx (zip f a b).
  Proof.
    intros La Lb. unfold reorder. assert (I := idx_lt). clear P. induction idx as [|i l IH]; cbn; auto. f_equal.
    - symmetry. apply nth_zip; [congruence|]. rewrite La. apply I. left. auto.
    - apply IH. intros j J. apply I. right. auto.
  Qed.
  Lemma reorder_map {A B} (f : A -> B) da db l : length l = n -> map f (reorder da idx l) = reorder db idx (map f l).
  Proof.
    intros L. unfold reorder. rewrite map_map. apply map_ext_in. intros i I. apply idx_lt in I.
    rewrite (nth_indep (map f l) db (f da)) by (rewrite map_length; lia). symmetry. apply map_nth.
  Qed.
  Lemma forallb_perm {A} (f : A -> bool) a b : Permutation a b -> forallb f a = forallb f b.
  Proof. induction 1; cbn; auto; [rewrite IHPermutation; auto|destruct (f x), (f y); auto|congruence]. Qed.

  Definition reorder_ori : option (list quat) -> option (list quat) := option_map (reorder qone idx).
  Definition reorder_motion (m : motion) : motion :=
    mkmotion (m_box m) (reorder zero3 idx (m_dt m)) (reorder zero3 idx (m_dr m)) (reorder zero3 idx (m_ppos m)) (reorder_ori (m_pori m)).
  Definition reorder_dyn (d : dynamics) : dynamics :=
    mkdyn (reorder_motion (d_motion d)) (d_timestep d) (d_num d) (d_mol d) (d_wave d) (d_res d).

  Definition sized_ori (o : option (list quat)) : Prop := match o with None => True | Some q => length q = n end.
  Definition sized (m : motion) : Prop := length (m_dt m) = n /\ length (m_dr m) = n /\ length (m_ppos m) = n /\ sized_ori (m_pori m).

  Variable wrap : fbox -> v3 -> v3.
  Variable gimbal : quat -> v3.

  Lemma reorder_add m p o : sized m -> length p = n -> sized_ori o ->
    motion_add wrap gimbal (reorder_motion m) (reorder zero3 idx p) (reorder_ori o) =
    (let (m', e) := motion_add wrap gimbal m p o in (reorder_motion m', e)) /\
    sized (fst (motion_add wrap gimbal m p o)).
  Proof.
    intros (L1 & L2 & L3 & L4) Lp Lo. unfold motion_add, reorder_motion. cbn [m_dt m_dr m_ppos m_pori m_box].
    rewrite !(bzip_eq sub3) by (rewrite ?reorder_len; congruence). cbn [ebind].
    rewrite (reorder_zip sub3 zero3 zero3 zero3) by auto.
    rewrite (reorder_map (wrap (m_box m)) zero3 zero3) by (rewrite zip_length; congruence).
    rewrite !inplace_eq by (rewrite ?reorder_len, ?map_length, ?zip_length; congruence).
    rewrite (reorder_zip sub3 zero3 zero3 zero3) by (rewrite ?map_length, ?zip_length; congruence).
    assert (LL : length (zip sub3 (m_dt m) (map (wrap (m_box m)) (zip sub3 (m_ppos m) p))) = n) by (rewrite zip_length; rewrite ?map_length, ?zip_length; congruence).
    destruct m as [mb mdt mdr mpp mpo]. cbn [m_dt m_dr m_ppos m_pori m_box] in *. destruct mpo as [q|]; cbn [reorder_ori option_map]; [|split; [reflexivity|repeat split; cbn; auto]].
    destruct o as [q'|]; cbn [reorder_ori option_map]; [|split; [reflexivity|repeat split; cbn; auto]].
    cbn in L4, Lo. rewrite !bzip_eq by (rewrite ?reorder_len; congruence). cbn [ebind].
    rewrite (reorder_zip qdivide qone qone qone) by auto.
    unfold to_euler_all. rewrite (forallb_perm unitb _ (zip qdivide q' q)) by (apply reorder_perm; rewrite zip_length; congruence).
    destruct (forallb unitb (zip qdivide q' q)); [|split; [reflexivity|repeat split; cbn; auto]].
    cbn [ebind]. rewrite (reorder_map (to_euler gimbal) qone zero3) by (rewrite zip_length; congruence).
    rewrite !inplace_eq by (rewrite ?reorder_len, ?map_length, ?zip_length; congruence).
    rewrite (reorder_zip add3 zero3 zero3 zero3) by (rewrite ?map_length, ?zip_length; congruence).
    split; [reflexivity|]. repeat split; cbn; auto. rewrite zip_length; rewrite ?map_length, ?zip_length; congruence.
  Qed.

  (** ** The averages *)
  Lemma reorder_disp d : length d = n -> Permutation (displacement (reorder zero3 idx d)) (displacement d).
  Proof. intros L. apply Permutation_map, reorder_perm. auto. Qed.
  Lemma reorder_disp2 d : length d = n -> Permutation (displacement2 (reorder zero3 idx d)) (displacement2 d).
  Proof. intros L. apply Permutation_map, reorder_perm. auto. Qed.
  Lemma reorder_isf k res d : length d = n -> isf k res (reorder zero3 idx d) = isf k res d.
  Proof.
    intros L. unfold isf. apply rmean_perm. induction (wave_vectors k res) as [|w l IH]; cbn; auto.
    apply Permutation_app; auto. apply Permutation_map, reorder_perm. auto.
  Qed.
  Lemma reorder_gamma dt dr : length dt = n -> length dr = n -> gamma (reorder zero3 idx dt) (reorder zero3 idx dr) = gamma dt dr.
  Proof.
    intros L1 L2. unfold gamma. f_equal.
    - unfold displacement2. rewrite (reorder_map norm2_3 zero3 0), (reorder_map norm2_3 zero3 0) by auto.
      rewrite (reorder_zip Rmult 0 0 0) by (rewrite map_length; auto). apply rmean_perm, reorder_perm. rewrite zip_length; rewrite !map_length; congruence.
    - rewrite (rmean_perm _ _ (reorder_disp2 dt L1)), (rmean_perm _ _ (reorder_disp2 dr L2)). reflexivity.
  Qed.
  Lemma reorder_alpha k d : length d = n -> alpha k (reorder zero3 idx d) = alpha k d.
  Proof.
    intros L. unfold alpha. rewrite (rmean_perm _ _ (Permutation_map sq (reorder_disp2 d L))), (rmean_perm _ _ (reorder_disp2 d L)). reflexivity.
  Qed.

  (** Two rows with the same values except overlap and struct *)
  Definition same_row (q q' : dict string dval) : Prop :=
    dkeys q = dkeys q' /\ forall key, key <> "overlap"%string -> key <> "struct"%string -> dget String.eqb key q = dget String.eqb key q'.
  Definition same_result (r r' : dict string dval + exn) : Prop :=
    match r, r' with inl q, inl q' => same_row q q' | inr e, inr e' => e = e' | _, _ => False end.

  Variable argsort : list R -> list nat.

  Lemma struct_nil dt dr k x : struct_relax dt dr [] k x = inr ValueError.
  Proof. unfold struct_relax, struct_positions, molecule2particles. destruct (negb _); reflexivity. Qed.

  Lemma row_same t md s4 s5 mr sr r1 r2 al sc cs ar g ov st ov' st' :
    same_row (row t md s4 s5 mr sr r1 r2 al sc cs ar g ov st) (row t md s4 s5 mr sr r1 r2 al sc cs ar g ov' st').
  Proof.
    split; [reflexivity|]. intros key N1 N2. apply String.eqb_neq in N1, N2. unfold row. cbn [dget]. rewrite N1, N2.
    repeat match goal with |- context [String.eqb key ?k] => destruct (String.eqb key k); auto end.
  Qed.
  Lemma reorder_outcome d ts sc : sized (d_motion d) -> d_num d = n ->
    match quantities argsort d ts sc, quantities argsort (reorder_dyn d) ts sc with
    | inl _, inl _ => True | inr e, inr e' => e = e' | _, _ => False end.
  Proof.
    intros (L1 & L2 & L3 & L4) Ln.
    assert (OV : match mobile_overlap argsort (displacement (m_dt (d_motion d))) (displacement (m_dr (d_motion d))),
                       mobile_overlap argsort (displacement (reorder zero3 idx (m_dt (d_motion d)))) (displacement (reorder zero3 idx (m_dr (d_motion d)))) with
                 inl _, inl _ => True | inr e, inr e' => e = e' | _, _ => False end).
    { unfold mobile_overlap, displacement. rewrite !map_length, L1, reorder_len. destruct (n / 10 =? 0)%nat; auto. }
    assert (ST : match compute_struct_relax d, compute_struct_relax (reorder_dyn d) with
                 inl _, inl _ => True | inr e, inr e' => e = e' | _, _ => False end).
    { unfold compute_struct_relax. change (distance (reorder_dyn d)) with (distance d).
      destruct (distance d) as [[x|]|]; cbn [ebind]; auto. cbn [reorder_dyn d_mol d_motion reorder_motion m_dt m_dr d_num].
      destruct (d_mol d) as [ml|]; auto. rewrite Ln.
      destruct ml as [|v ml].
      - rewrite !struct_nil; auto.
      - destruct (struct_ok (m_dt (d_motion d)) (m_dr (d_motion d)) (v :: ml) x) as (d1 & _ & E1); try congruence. rewrite L1 in E1. rewrite E1.
        destruct (struct_ok (reorder zero3 idx (m_dt (d_motion d))) (reorder zero3 idx (m_dr (d_motion d))) (v :: ml) x) as (d2 & _ & E2); try congruence; [rewrite !reorder_len; auto|].
        rewrite reorder_len in E2. rewrite E2. auto. }
    unfold quantities. cbv zeta. change (distance (reorder_dyn d)) with (distance d).
    cbn [reorder_dyn d_motion d_wave d_res d_timestep reorder_motion m_dt m_dr d_mol m_pori].
    rewrite !reorder_alpha, reorder_gamma by auto. fold (reorder_motion (d_motion d)). fold (reorder_dyn d).
    destruct (alpha 2 _) as [al|]; cbn [ebind]; auto.
    destruct (distance d) as [dist|]; cbn [ebind]; auto.
    destruct (alpha 3 _) as [ar|]; cbn [ebind]; auto.
    destruct (gamma _ _) as [g|]; cbn [ebind]; auto.
    destruct (mobile_overlap argsort (displacement (m_dt (d_motion d))) (displacement (m_dr (d_motion d)))) as [ov|e] eqn:E1;
    destruct (mobile_overlap argsort (displacement (reorder zero3 idx (m_dt (d_motion d)))) (displacement (reorder zero3 idx (m_dr (d_motion d))))) as [ov'|e'] eqn:E2;
      rewrite ?E1, ?E2 in OV; cbn [ebind]; auto; try contradiction.
    destruct dist as [x|], (d_mol d) as [ml|], (m_pori (d_motion d)) as [po|]; cbn [option_map reorder_ori]; auto.
    destruct (compute_struct_relax d), (compute_struct_relax (reorder_dyn d)); cbn [ebind]; auto.
  Qed.

  Lemma reorder_quantities d ts sc : sized (d_motion d) -> d_num d = n ->
    same_result (quantities argsort d ts sc) (quantities argsort (reorder_dyn d) ts sc).
  Proof.
    intros Z Ln. assert (O := reorder_outcome d ts sc Z Ln). destruct Z as (L1 & L2 & L3 & L4).
    destruct (quantities argsort d ts sc) as [q|e] eqn:Q; destruct (quantities argsort (reorder_dyn d) ts sc) as [q'|e'] eqn:Q'; cbn [same_result]; auto.
    set (dt := m_dt (d_motion d)) in *. set (dr := m_dr (d_motion d)) in *.
    assert (R1 : rmean (displacement (reorder zero3 idx dt)) = rmean (displacement dt)) by apply rmean_perm, reorder_disp, L1.
    assert (R2 : msd (reorder zero3 idx dt) = msd dt) by apply rmean_perm, reorder_disp2, L1.
    assert (R3 : mfd (reorder zero3 idx dt) = mfd dt) by apply rmean_perm, Permutation_map, reorder_disp2, L1.
    assert (R4 : mean_rotation (reorder zero3 idx dr) = mean_rotation dr) by apply rmean_perm, reorder_disp, L2.
    assert (R5 : msr (reorder zero3 idx dr) = msr dr) by apply rmean_perm, reorder_disp2, L2.
    assert (R6 : rot1 (reorder zero3 idx dr) = rot1 dr) by apply rmean_perm, Permutation_map, reorder_disp, L2.
    assert (R7 : rot2 (reorder zero3 idx dr) = rot2 dr) by apply rmean_perm, Permutation_map, reorder_disp, L2.
    assert (R8 : forall x, structural_relax (displacement (reorder zero3 idx dt)) x = structural_relax (displacement dt) x).
    { intros x. apply rmean_perm, Permutation_map, reorder_disp, L1. }
    assert (R9 : forall k, isf k (d_res d) (reorder zero3 idx dt) = isf k (d_res d) dt) by (intros k; apply reorder_isf, L1).
    destruct (quantities_row _ _ _ _ _ Q) as (al & dist & ar & g & ov & st & H1 & H2 & H3 & H4 & _ & _ & ->).
    destruct (quantities_row _ _ _ _ _ Q') as (al' & dist' & ar' & g' & ov' & st' & H1' & H2' & H3' & H4' & _ & _ & ->).
    change (distance (reorder_dyn d)) with (distance d) in H2'.
    cbn [reorder_dyn d_motion d_wave d_res d_timestep reorder_motion m_dt m_dr] in *. fold dt dr in H1, H3, H4, H1', H3', H4' |- *.
    rewrite reorder_alpha in H1', H3' by auto. rewrite reorder_gamma in H4' by auto.
    assert (al' = al) by congruence. assert (dist' = dist) by congruence. assert (ar' = ar) by congruence. assert (g' = g) by congruence. subst.
    rewrite R1, R2, R3, R4, R5, R6, R7.
    replace (match sc, d_wave d with true, Some k => FR (isf k (d_res d) (reorder zero3 idx dt)) | _, _ => FNaN end)
      with (match sc, d_wave d with true, Some k => FR (isf k (d_res d) dt) | _, _ => FNaN end) by (destruct sc, (d_wave d); rewrite ?R9; reflexivity).
    destruct dist as [x|]; [rewrite R8|]; apply row_same.
  Qed.

  (** ** Whole runs *)
  Definition dframe : Set := (Z * list v3 * option (list quat) * bool)%type.
  Definition reorder_frame (f : dframe) : dframe :=
    let '(ts, p, o, sc) := f in (ts, reorder zero3 idx p, reorder_ori o, sc).
  Definition sized_frame (f : dframe) : Prop := let '(ts, p, o, sc) := f in length p = n /\ sized_ori o.
  (** The results of [compute_all] for each frame, going on after an exception *)
  Fixpoint run (d : dynamics) (fs : list dframe) : list (dict string dval + exn) :=
    match fs with
    | [] => []
    | (ts, p, o, sc) :: fs' => let (d', r) := compute_all wrap gimbal argsort d ts p o sc in r :: run d' fs'
    end.

  Lemma reorder_run fs : forall d, sized (d_motion d) -> d_num d = n -> Forall sized_frame fs ->
    Forall2 same_result (run d fs) (run (reorder_dyn d) (map reorder_frame fs)).
  Proof.
    induction fs as [|[[[ts p] o] sc] fs IH]; intros d Z Ln F; cbn [run map reorder_frame]; [constructor|].
    inversion F as [|? ? H F']; subst. destruct H as [Lp Lo].
    destruct (reorder_add (d_motion d) p o Z Lp Lo) as [E1 E2]. unfold compute_all, dyn_add.
    cbn [reorder_dyn d_motion d_timestep d_num d_mol d_wave d_res]. rewrite E1.
    destruct (motion_add wrap gimbal (d_motion d) p o) as [m' e]. cbn [fst] in E2.
    set (d' := mkdyn m' (d_timestep d) (d_num d) (d_mol d) (d_wave d) (d_res d)).
    change (mkdyn (reorder_motion m') (d_timestep d) (d_num d) (d_mol d) (d_wave d) (d_res d)) with (reorder_dyn d').
    destruct e as [e|]; constructor; try (apply IH; auto); [reflexivity|]. apply (reorder_quantities d'); auto.
  Qed.
End Reorder.

(** ** C74: the numbering does not matter *)

(** Two [Dynamics] objects see the same frames, the second with the particles renumbered.
    Any number of frames is added by [compute_all], also frames it rejects.  The two return
    the same dictionaries, apart from "overlap" (ties may be broken differently) and "struct"
    (C78), or raise the same exception. *)
Theorem C74_renumbering (wrap : fbox -> v3 -> v3) (gimbal : quat -> v3) (argsort : list R -> list nat)
        (ts : Z) (b : fbox) (mol : option (list v3)) (wave : option R) (res : nat)
        (n : nat) (idx : list nat) (p : list v3) (o : option (list quat)) (fs : list dframe) d :
  Permutation idx (seq 0 n) ->
  length p = n -> sized_ori n o -> Forall (sized_frame n) fs ->
  dyn_init ts b p o mol wave res = inl d ->
  exists d', dyn_init ts b (reorder zero3 idx p) (reorder_ori idx o) mol wave res = inl d' /\
    Forall2 same_result (run wrap gimbal argsort d fs) (run wrap gimbal argsort d' (map (reorder_frame idx) fs)).
Proof.
  intros P Lp Lo F I.
  assert (Z : sized n (d_motion d) /\ d_num d = n).
  { unfold dyn_init in I. destruct p as [|x p]; [discriminate|]. unfold motion_init in I.
    destruct o as [[|q o]|]; try discriminate; cbn [ebind] in I; injection I as <-; cbn in *;
      (split; [repeat split; cbn; rewrite ?map_length; auto|auto]). }
  destruct Z as [Z Ln]. exists (reorder_dyn idx d). split; [|apply reorder_run with (n := n); auto].
  unfold dyn_init in I. destruct p as [|x p]; [discriminate|].
  assert (Hl := reorder_len idx n P zero3 (x :: p)). unfold dyn_init.
  destruct (reorder zero3 idx (x :: p)) as [|y l] eqn:E; [cbn in *; lia|]. rewrite <- E.
  assert (M : map (fun _ : v3 => zero3) (reorder zero3 idx (x :: p)) = reorder zero3 idx (map (fun _ => zero3) (x :: p))) by (apply (reorder_map idx n P); auto).
  unfold motion_init in *. destruct o as [[|q o]|]; cbn [reorder_ori option_map]; try discriminate.
  - assert (Hq := reorder_len idx n P qone (q :: o)). destruct (reorder qone idx (q :: o)) as [|q' o'] eqn:Eq; [cbn in *; lia|].
    cbn [ebind] in *. injection I as <-. unfold reorder_dyn, reorder_motion. cbn [d_motion d_timestep d_num d_mol d_wave d_res m_box m_dt m_dr m_ppos m_pori reorder_ori option_map].
    rewrite M, Eq, E, Hl. cbn in Ln. rewrite ?Ln. reflexivity.
  - cbn [ebind] in *. injection I as <-. unfold reorder_dyn, reorder_motion. cbn [d_motion d_timestep d_num d_mol d_wave d_res m_box m_dt m_dr m_ppos m_pori reorder_ori option_map].
    rewrite M, E, Hl. cbn in Ln. rewrite ?Ln. reflexivity.
Qed.
Print Assumptions C74_renumbering.

(** Renumbering is a renumbering: for three particles, exchanging the first two. *)
Example C74_example : reorder zero3 [1; 0; 2]%nat [mk3 1 0 0; mk3 2 0 0; mk3 3 0 0] = [mk3 2 0 0; mk3 1 0 0; mk3 3 0 0].
Proof. reflexivity. Qed.
Example C74_applies wrap gimbal argsort : exists d d',
  dyn_init 0 square10 [mk3 1 0 0; mk3 2 0 0; mk3 3 0 0] None None (Some 1) 360 = inl d /\
  dyn_init 0 square10 [mk3 2 0 0; mk3 1 0 0; mk3 3 0 0] None None (Some 1) 360 = inl d' /\
  Forall2 same_result (run wrap gimbal argsort d [(1%Z, [mk3 1 1 0; mk3 2 0 0; mk3 3 0 0], None, true)])
                      (run wrap gimbal argsort d' [(1%Z, [mk3 2 0 0; mk3 1 1 0; mk3 3 0 0], None, true)]).
Proof.
  destruct (C74_renumbering wrap gimbal argsort 0 square10 None (Some 1) 360 3 [1; 0; 2]%nat [mk3 1 0 0; mk3 2 0 0; mk3 3 0 0] None
              [(1%Z, [mk3 1 1 0; mk3 2 0 0; mk3 3 0 0], None, true)]
              (mkdyn (mkmotion square10 [zero3; zero3; zero3] [zero3; zero3; zero3] [mk3 1 0 0; mk3 2 0 0; mk3 3 0 0] None) 0 3 None (Some 1) 360)) as (d' & H1 & H2).
  - cbn. apply perm_swap.
  - reflexivity.
  - exact I.
  - repeat constructor.
  - reflexivity.
  - eexists _, d'. split; [|split]; [reflexivity|exact H1|exact H2].
Qed.
