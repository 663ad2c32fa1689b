(** Proofs about the dynamic quantities. *)
From Coq Require Import String Reals ZArith List Bool Permutation Lra Lia.
From Verif Require Import Base RVec RVecFacts RelaxFitModel MotionModel MotionSpec MotionProofs DynModel DynSpec.
Import ListNotations.
Open Scope R_scope.
Notation length := List.length.

(** ** Invariant *)
Lemma motion_add_lengths w g m p o m' e : motion_add w g m p o = (m', e) ->
  length (m_dt m') = length (m_dt m) /\ length (m_dr m') = length (m_dr m) /\ m_box m' = m_box m.
Proof.
  unfold motion_add. destruct (ebind (bzip sub3 (m_ppos m) p) _) as [dt|] eqn:T; [|intros [= <- <-]; auto].
  assert (L : length dt = length (m_dt m)).
  { destruct (bzip sub3 (m_ppos m) p); [|discriminate]. cbn in T. apply inplace_length in T. auto. }
  destruct (m_pori m) as [q|]; [destruct o as [q'|]|]; try (intros [= <- <-]; cbn; auto; fail).
  destruct (ebind (bzip qdivide q' q) _) as [dr|] eqn:Q; intros [= <- <-]; cbn; auto.
  destruct (bzip qdivide q' q) as [l|]; [|discriminate]. cbn in Q. destruct (to_euler_all g l); [|discriminate].
  cbn in Q. apply inplace_length in Q. auto.
Qed.
Lemma dyn_init_ok ts b p o mol wave res d : (0 < res)%nat -> dyn_init ts b p o mol wave res = inl d -> dyn_ok d.
Proof.
  unfold dyn_init. intros R. destruct p as [|x p]; [discriminate|]. destruct (motion_init b (x :: p) o) as [m|] eqn:M; [|discriminate].
  intros [= <-]. unfold motion_init in M. unfold dyn_ok. destruct o as [[|]|]; try discriminate; injection M as <-; cbn; rewrite !map_length; repeat split; auto; lia.
Qed.
Lemma dyn_add_ok w g d p o d' e : dyn_add w g d p o = (d', e) -> dyn_ok d -> dyn_ok d'.
Proof.
  unfold dyn_add. destruct (motion_add w g (d_motion d) p o) as [m e'] eqn:A. intros [= <- <-] (P & L1 & L2 & R).
  destruct (motion_add_lengths _ _ _ _ _ _ _ A) as (M1 & M2 & _). unfold dyn_ok. cbn. repeat split; auto; congruence.
Qed.

(** ** Means *)
Lemma map_nonnil {A B} (f : A -> B) l : l <> [] -> map f l <> [].
Proof. destruct l; cbn; congruence. Qed.
Lemma len_nonnil {A} (l : list A) : (0 < length l)%nat -> l <> [].
Proof. destruct l; cbn; [lia|congruence]. Qed.
Lemma rmean_zero l : l <> [] -> Forall (fun x => x = 0) l -> rmean l = 0.
Proof. apply rmean_const. Qed.
Lemma rsum_zero_all l : Forall (fun x => 0 <= x) l -> rsum l = 0 -> Forall (fun x => x = 0) l.
Proof.
  induction 1 as [|x l H F IH]; intros E; constructor; pose proof (rsum_nonneg l F); unfold rsum in *; cbn [fold_right] in E; fold (rsum l) in *; unfold rsum in *; try apply IH; lra.
Qed.
Lemma rmean_zero_all l : l <> [] -> Forall (fun x => 0 <= x) l -> rmean l = 0 -> Forall (fun x => x = 0) l.
Proof.
  intros N F E. apply rsum_zero_all; auto. unfold rmean in E. pose proof (INR_len_pos l N).
  replace (rsum l) with (rsum l / INR (length l) * INR (length l)) by (field; lra). rewrite E. ring.
Qed.
Lemma sum_sq_dev l m : rsum (map (fun x => sq (x - m)) l) = rsum (map sq l) - 2 * m * rsum l + INR (length l) * sq m.
Proof.
  unfold rsum. induction l as [|x l IH]; [cbn; ring|]. cbn [map fold_right length]. rewrite IH, S_INR. unfold sq. ring.
Qed.
(** The mean of squares is at least the square of the mean. *)
Lemma rmean_sq l : l <> [] -> sq (rmean l) <= rmean (map sq l).
Proof.
  intros N. pose proof (INR_len_pos l N) as P.
  assert (D : 0 <= rsum (map (fun x => sq (x - rmean l)) l)).
  { apply rsum_nonneg. apply Forall_forall. intros y I. apply in_map_iff in I. destruct I as (x & <- & _). apply Rle_0_sqr. }
  rewrite sum_sq_dev in D. unfold rmean in *. rewrite map_length. set (n := INR (length l)) in *. set (s := rsum l) in *. set (t := rsum (map sq l)) in *.
  unfold sq in *. replace (s / n * (s / n)) with ((2 * (s / n) * s - n * (s / n * (s / n))) / n) by (field; lra).
  unfold Rdiv at 1. unfold Rdiv at 3. apply Rmult_le_compat_r; [left; apply Rinv_0_lt_compat; auto|]. lra.
Qed.
Lemma all_sq_nonneg l : Forall (fun x => 0 <= x) (map sq l).
Proof. apply Forall_forall. intros y I. apply in_map_iff in I. destruct I as (x & <- & _). apply Rle_0_sqr. Qed.
Lemma disp2_nonneg d : Forall (fun x => 0 <= x) (displacement2 d).
Proof. apply Forall_forall. intros y I. apply in_map_iff in I. destruct I as (x & <- & _). apply norm2_nonneg. Qed.
Lemma disp_nonneg d : Forall (fun x => 0 <= x) (displacement d).
Proof. apply Forall_forall. intros y I. apply in_map_iff in I. destruct I as (x & <- & _). apply norm3_nonneg. Qed.
Lemma disp_sq d : map sq (displacement d) = displacement2 d.
Proof. unfold displacement, displacement2. rewrite map_map. apply map_ext. intros. apply norm3_sq. Qed.
Lemma zip_nonneg a b : Forall (fun x => 0 <= x) a -> Forall (fun x => 0 <= x) b -> Forall (fun x => 0 <= x) (zip Rmult a b).
Proof. intros F. revert b. induction F; intros b G; [constructor|]. destruct G; cbn; constructor; auto. nra. Qed.
Lemma zip_nonnil {A B C} (f : A -> B -> C) a b : a <> [] -> length a = length b -> zip f a b <> [].
Proof. destruct a, b; cbn; congruence. Qed.

(** ** Ratios never raise *)
Lemma alpha_total k d : 0 < k -> d <> [] ->
  (msd d = 0 /\ alpha k d = inl FNaN) \/ (0 < msd d /\ alpha k d = inl (FR (mfd d / (k * sq (msd d)) - 1))).
Proof.
  intros K N. unfold alpha, ratio. fold (msd d). fold (mfd d).
  assert (NN : 0 <= msd d) by (apply rmean_nonneg; [apply map_nonnil; auto|apply disp2_nonneg]).
  destruct (Req_dec (msd d) 0) as [E|E].
  - left. split; auto. destruct (Req_EM_T _ 0) as [_|H]; [|exfalso; apply H; rewrite E; unfold sq; ring].
    destruct (Req_EM_T _ 0) as [_|H]; auto. exfalso. apply H. unfold mfd. apply rmean_zero.
    + do 2 apply map_nonnil. auto.
    + apply rmean_zero_all in E; [|apply map_nonnil; auto|apply disp2_nonneg]. apply Forall_forall. intros y I. apply in_map_iff in I.
      destruct I as (x & <- & I). rewrite Forall_forall in E. rewrite (E x I). unfold sq. ring.
  - right. split; [lra|]. destruct (Req_EM_T _ 0) as [H|_]; auto. exfalso. unfold sq in H.
    assert (0 < msd d) by lra. assert (0 < k * (msd d * msd d)) by (apply Rmult_lt_0_compat; nra). lra.
Qed.
Lemma gamma_total dt dr : dt <> [] -> length dt = length dr ->
  (msd dt * msr dr = 0 /\ gamma dt dr = inl FNaN) \/
  (0 < msd dt * msr dr /\ gamma dt dr = inl (FR (rmean (zip Rmult (displacement2 dt) (displacement2 dr)) / (msd dt * msr dr) - 1))).
Proof.
  intros N L. assert (N' : dr <> []) by (destruct dt, dr; cbn in *; congruence).
  unfold gamma, ratio. fold (msd dt). fold (msr dr).
  assert (A : 0 <= msd dt) by (apply rmean_nonneg; [apply map_nonnil; auto|apply disp2_nonneg]).
  assert (B : 0 <= msr dr) by (apply rmean_nonneg; [apply map_nonnil; auto|apply disp2_nonneg]).
  destruct (Req_EM_T _ 0) as [E|E].
  - left. split; auto. destruct (Req_EM_T _ 0) as [_|H]; auto. exfalso. apply H. apply rmean_zero.
    + apply zip_nonnil; [apply map_nonnil; auto|]. unfold displacement2. rewrite !map_length. auto.
    + apply Rmult_integral in E. destruct E as [E|E]; (apply rmean_zero_all in E; [|apply map_nonnil; auto|apply disp2_nonneg]); revert E; unfold displacement2; generalize (map norm2_3 dt) (map norm2_3 dr).
      * intros l l' F. revert l'. induction F as [|x l Hx F IH]; intros [|y l']; cbn; constructor; auto. rewrite Hx. ring.
      * intros l l' F. revert l. induction F as [|y l' Hy F IH]; intros [|x l]; cbn; constructor; auto. rewrite Hy. ring.
  - right. split; [nra|reflexivity].
Qed.

(** ** The dictionary *)
Open Scope string_scope.
Definition row (time : Z) (md s4 s5 mr sr r1 r2 : R) (al sc cs ar g : fl) (ov : R) (st : fl) : dict string dval :=
  [("time", VInt time); ("mean_displacement", VFl (FR md)); ("msd", VFl (FR s4)); ("mfd", VFl (FR s5)); ("alpha", VFl al);
   ("scattering_function", VFl sc); ("com_struct", VFl cs); ("mean_rotation", VFl (FR mr)); ("msr", VFl (FR sr));
   ("rot1", VFl (FR r1)); ("rot2", VFl (FR r2)); ("alpha_rot", VFl ar); ("gamma", VFl g); ("overlap", VFl (FR ov)); ("struct", VFl st)].

Lemma quantities_row argsort d ts sc q : quantities argsort d ts sc = inl q ->
  let dt := m_dt (d_motion d) in let dr := m_dr (d_motion d) in
  exists al dist ar g ov st,
    alpha 2 dt = inl al /\ distance d = inl dist /\ alpha 3 dr = inl ar /\ gamma dt dr = inl g /\
    mobile_overlap argsort (displacement dt) (displacement dr) = inl ov /\
    (match dist, d_mol d, m_pori (d_motion d) with
     | Some _, Some _, Some _ => exists s, compute_struct_relax d = inl s /\ st = FR s
     | _, _, _ => st = FNaN end) /\
    q = row (ts - d_timestep d) (rmean (displacement dt)) (msd dt) (mfd dt) (mean_rotation dr) (msr dr) (rot1 dr) (rot2 dr)
        al (match sc, d_wave d with true, Some k => FR (isf k (d_res d) dt) | _, _ => FNaN end)
        (match dist with Some x => FR (structural_relax (displacement dt) x) | None => FNaN end) ar g ov st.
Proof.
  unfold quantities. cbv zeta. intros H.
  destruct (alpha 2 (m_dt (d_motion d))) as [al|]; [|discriminate]. cbn [ebind] in H.
  destruct (distance d) as [dist|] eqn:Di; [|discriminate]. cbn [ebind] in H.
  destruct (alpha 3 (m_dr (d_motion d))) as [ar|]; [|discriminate]. cbn [ebind] in H.
  destruct (gamma (m_dt (d_motion d)) (m_dr (d_motion d))) as [g|]; [|discriminate]. cbn [ebind] in H.
  destruct (mobile_overlap argsort _ _) as [ov|]; [|discriminate]. cbn [ebind] in H.
  exists al, dist, ar, g, ov.
  destruct dist as [x|]; [|destruct sc, (d_wave d); injection H as <-; exists FNaN; repeat split; auto].
  destruct (d_mol d) as [mol|]; [destruct (m_pori (d_motion d)) as [po|]|].
  - destruct (compute_struct_relax d) as [s|]; [|discriminate]. cbn [ebind] in H. injection H as <-.
    exists (FR s). repeat split; auto; [exists s; auto|]. destruct sc, (d_wave d); reflexivity.
  - injection H as <-. exists FNaN. repeat split; auto. destruct sc, (d_wave d); reflexivity.
  - injection H as <-. exists FNaN. repeat split; auto. destruct sc, (d_wave d); reflexivity.
Qed.

(** ** Bounded averages *)
Lemma rmean_map_bounds {A} (f : A -> R) a b l : l <> [] -> (forall x, a <= f x <= b) -> a <= rmean (map f l) <= b.
Proof.
  intros N H. apply rmean_bounds; [apply map_nonnil; auto|]. apply Forall_forall. intros y I. apply in_map_iff in I.
  destruct I as (x & <- & _). apply H.
Qed.
Lemma rot1_bounds d : d <> [] -> -1 <= rot1 d <= 1.
Proof. intros N. apply rmean_map_bounds; [apply map_nonnil; auto|]. apply COS_bound. Qed.
Lemma rot2_bounds d : d <> [] -> -1 <= rot2 d <= 1.
Proof.
  intros N. apply rmean_map_bounds; [apply map_nonnil; auto|]. intros x. pose proof (COS_bound x) as [L U]. unfold sq. nra.
Qed.
Lemma flat_map_nonnil {A B} (f : A -> list B) l : l <> [] -> (forall x, f x <> []) -> flat_map f l <> [].
Proof. destruct l as [|x l]; [congruence|]. intros _ H E. cbn in E. apply app_eq_nil in E. apply (H x). tauto. Qed.
Lemma isf_bounds k res d : d <> [] -> (0 < res)%nat -> -1 <= isf k res d <= 1.
Proof.
  intros N P. unfold isf. apply rmean_bounds.
  - apply flat_map_nonnil; [|intros; apply map_nonnil; auto]. unfold wave_vectors. apply map_nonnil. destruct res; [lia|discriminate].
  - apply Forall_forall. intros y I. apply in_flat_map in I. destruct I as (w & _ & I). apply in_map_iff in I. destruct I as (x & <- & _). apply COS_bound.
Qed.
Lemma structural_bounds l x : l <> [] -> 0 <= structural_relax l x <= 1.
Proof. intros N. apply rmean_map_bounds; auto. intros y. destruct (Rltb y x); lra. Qed.
Lemma structural_fraction l x : structural_relax l x = fraction (fun y => Rltb y x) l.
Proof.
  unfold structural_relax, fraction, rmean. rewrite map_length. f_equal. unfold rsum. induction l as [|y l IH]; [reflexivity|].
  cbn [map fold_right filter]. destruct (Rltb y x); cbn [length]; rewrite IH; [rewrite S_INR|]; ring.
Qed.

(** ** Overlap *)
Lemma last_n_in {A} n (l : list A) x : In x (last_n n l) -> In x l.
Proof. unfold last_n. destruct (n =? 0)%nat; auto. intros I. rewrite <- (firstn_skipn (length l - n) l). apply in_or_app. auto. Qed.
Lemma last_n_length {A} n (l : list A) : (0 < n <= length l)%nat -> length (last_n n l) = n.
Proof. intros [P L]. unfold last_n. destruct (n =? 0)%nat eqn:E; [apply Nat.eqb_eq in E; lia|]. rewrite skipn_length. lia. Qed.
Lemma NoDup_skipn {A} n (l : list A) : NoDup l -> NoDup (skipn n l).
Proof. revert l. induction n; intros l N; [auto|]. destruct l; [auto|]. inversion N; subst. apply IHn. auto. Qed.
Lemma last_n_nodup {A} n (l : list A) : NoDup l -> NoDup (last_n n l).
Proof. unfold last_n. destruct (n =? 0)%nat; auto. apply NoDup_skipn. Qed.
Lemma intersect_in a b i : In i (intersect1d a b) <-> In i a /\ In i b.
Proof.
  unfold intersect1d. rewrite nodup_In, filter_In. split; intros [H1 H2]; split; auto.
  - apply existsb_exists in H2. destruct H2 as (j & J & E). apply Nat.eqb_eq in E. subst. auto.
  - apply existsb_exists. exists i. split; auto. apply Nat.eqb_refl.
Qed.
Lemma intersect_nodup a b : NoDup (intersect1d a b).
Proof. apply NoDup_nodup. Qed.
Lemma intersect_le a b : (length (intersect1d a b) <= length a)%nat.
Proof. apply NoDup_incl_length; [apply intersect_nodup|]. intros i I. apply intersect_in in I. tauto. Qed.
Lemma intersect_self a : NoDup a -> length (intersect1d a a) = length a.
Proof.
  intros N. apply Nat.le_antisymm; [apply intersect_le|]. apply NoDup_incl_length; auto.
  intros i I. apply intersect_in. auto.
Qed.
Lemma argsort_length argsort l : argsort_ok argsort -> length (argsort l) = length l.
Proof. intros A. destruct (A l) as [P _]. rewrite (Permutation_length P). apply seq_length. Qed.
Lemma top_last argsort n l : argsort_ok argsort -> (0 < n <= length l)%nat -> top_set n l (last_n n (argsort l)).
Proof.
  intros A B. destruct (A l) as [P So]. pose proof (argsort_length argsort l A) as L.
  assert (N : NoDup (argsort l)) by (eapply Permutation_NoDup; [symmetry; exact P|apply seq_NoDup]).
  split; [apply last_n_nodup; auto|]. split; [apply last_n_length; lia|]. split.
  - intros i I. apply last_n_in in I. apply (Permutation_in _ P) in I. apply in_seq in I. lia.
  - intros i j I J NJ.
    assert (IJ : In j (argsort l)) by (apply (Permutation_in j (Permutation_sym P)); apply in_seq; lia).
    unfold last_n in *. destruct (n =? 0)%nat eqn:E; [apply Nat.eqb_eq in E; lia|].
    set (k := (length (argsort l) - n)%nat) in *.
    rewrite <- (firstn_skipn k (argsort l)) in IJ. apply in_app_or in IJ. destruct IJ as [IJ|IJ]; [|contradiction].
    apply In_nth with (d := 0%nat) in IJ. destruct IJ as (a & La & Ea). rewrite firstn_length in La.
    apply In_nth with (d := 0%nat) in I. destruct I as (c & Lc & Ec). rewrite skipn_length in Lc.
    assert (Ea' : nth a (argsort l) 0%nat = j).
    { rewrite <- Ea, <- (firstn_skipn k (argsort l)) at 1. rewrite app_nth1; auto. rewrite firstn_length. lia. }
    assert (Ec' : nth (k + c) (argsort l) 0%nat = i).
    { rewrite <- Ec, <- (firstn_skipn k (argsort l)) at 1. rewrite app_nth2; rewrite firstn_length, Nat.min_l by lia; [|lia].
      f_equal. lia. }
    rewrite <- Ea', <- Ec'. apply So. lia.
Qed.
Lemma tenth n : (10 <= n)%nat -> (0 < n / 10 <= n)%nat.
Proof.
  intros H. split.
  - apply Nat.div_str_pos. lia.
  - apply Nat.div_le_upper_bound; lia.
Qed.
Lemma overlap_spec argsort disp rotn : argsort_ok argsort -> length rotn = length disp -> (10 <= length disp)%nat ->
  exists x T U, mobile_overlap argsort disp rotn = inl x /\
    top_set (length disp / 10) disp T /\ top_set (length disp / 10) (map Rabs rotn) U /\
    x = INR (length (filter (fun i => existsb (Nat.eqb i) U) T)) / INR (length disp / 10).
Proof.
  intros A L B. set (n := (length disp / 10)%nat). pose proof (tenth (length disp) B) as T. fold n in T.
  unfold mobile_overlap. fold n. destruct (n =? 0)%nat eqn:E; [apply Nat.eqb_eq in E; lia|].
  exists (INR (length (intersect1d (last_n n (argsort disp)) (last_n n (argsort (map Rabs rotn))))) / INR n),
    (last_n n (argsort disp)), (last_n n (argsort (map Rabs rotn))).
  assert (T1 : top_set n disp (last_n n (argsort disp))) by (apply top_last; auto).
  repeat (split; [first [exact T1|reflexivity|apply top_last; [auto|rewrite map_length; lia]]|]).
  unfold intersect1d. rewrite nodup_fixed_point; auto. apply NoDup_filter. apply T1.
Qed.
Lemma overlap_bounds argsort disp rotn x : argsort_ok argsort -> mobile_overlap argsort disp rotn = inl x -> 0 <= x <= 1.
Proof.
  intros A. unfold mobile_overlap. set (n := (length disp / 10)%nat). destruct (n =? 0)%nat eqn:E; [discriminate|]. apply Nat.eqb_neq in E.
  intros [= <-]. assert (P : 0 < INR n) by (apply lt_0_INR; lia).
  assert (LE : (length (intersect1d (last_n n (argsort disp)) (last_n n (argsort (map Rabs rotn)))) <= n)%nat).
  { etransitivity; [apply intersect_le|]. rewrite last_n_length; auto. rewrite argsort_length by auto.
    assert (n <= length disp)%nat; [|lia]. apply Nat.div_le_upper_bound; lia. }
  apply le_INR in LE. split.
  - apply Rmult_le_pos; [apply pos_INR|]. left. apply Rinv_0_lt_compat. auto.
  - apply Rmult_le_reg_r with (INR n); auto. unfold Rdiv. rewrite Rmult_assoc, Rinv_l by lra. lra.
Qed.
Lemma overlap_self argsort l : argsort_ok argsort -> (10 <= length l)%nat -> Forall (fun x => 0 <= x) l -> mobile_overlap argsort l l = inl 1.
Proof.
  intros A B F. unfold mobile_overlap. set (n := (length l / 10)%nat). pose proof (tenth (length l) B) as T. fold n in T.
  destruct (n =? 0)%nat eqn:E; [apply Nat.eqb_eq in E; lia|].
  assert (M : map Rabs l = l).
  { clear - F. induction F as [|x l H F IH]; cbn; auto. rewrite IH, Rabs_pos_eq by auto. reflexivity. }
  rewrite M. f_equal. rewrite intersect_self.
  - rewrite last_n_length by (rewrite argsort_length; auto). field. apply not_0_INR. lia.
  - apply last_n_nodup. destruct (A l) as [P _]. eapply Permutation_NoDup; [symmetry; exact P|apply seq_NoDup].
Qed.
