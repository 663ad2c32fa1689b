(** The nearest neighbours of a molecule are determined by the distances. *)
From Coq Require Import Reals List Bool Arith Lia Lra Permutation.
From Verif Require Import Base RVec RVecFacts RelaxFitModel FrameModel MotionModel MotionSpec MotionProofs EndModel
  OrderModel OrderSpec OrderProofs NeighModel NeighSpec.
Import ListNotations.
Open Scope R_scope.

(** ** Lists of nearest neighbours *)
(** Two configurations look the same from molecules [i] and [i'] up to [r], [f] giving the
    names of the molecules of the first in the second. *)
Definition same_view b x x' r i i' (f : nat -> nat) : Prop :=
  (forall j, other b x i r j -> other b x' i' r (f j)) /\
  (forall j', other b x' i' r j' -> exists j, other b x i r j /\ f j = j') /\
  (forall j m, other b x i r j -> other b x i r m -> f j = f m -> j = m) /\
  (forall j rho, rho <= r -> other b x i r j -> (near b x i j rho <-> near b x' i' (f j) rho)).

Lemma near_mono b x i j r r' : r <= r' -> near b x i j r -> near b x i j r'.
Proof. intros H (v & L & N). exists v. split; auto. lra. Qed.
Lemma same_view_farther b x x' r i i' f j m : same_view b x x' r i i' f ->
  other b x i r j -> other b x i r m -> no_farther b x i m j -> no_farther b x' i' (f m) (f j).
Proof.
  intros (V1 & V2 & V3 & V4) J M H rho N. destruct (Rle_lt_dec rho r) as [L|L].
  - apply (V4 m rho L M). apply H. apply (V4 j rho L J). exact N.
  - destruct (V1 m M) as (_ & _ & N'). revert N'. apply near_mono. lra.
Qed.
Lemma nearest_view b x x' r k i i' f l : same_view b x x' r i i' f ->
  nearest_list b x r k i l -> nearest_list b x' r k i' (map f l).
Proof.
  intros V (N & K & I & O & S). pose proof V as (V1 & V2 & V3 & V4). split; [|split; [|split; [|split]]].
  - assert (Q : forall l', incl l' l -> NoDup l' -> NoDup (map f l')).
    { induction l' as [|a l' IH]; intros C ND; cbn; constructor.
      - intros H. apply in_map_iff in H. destruct H as (a' & E & H). inversion ND; subst.
        assert (a' = a). { apply V3; auto; apply I, C; [right|left]; auto. } subst. contradiction.
      - inversion ND; subst. apply IH; auto. intros z Z. apply C. right. auto. }
    apply Q; auto. intros z Z. exact Z.
  - rewrite map_length. exact K.
  - intros j' J. apply in_map_iff in J. destruct J as (j & <- & J). auto.
  - intros j' J' NI. destruct (V2 j' J') as (j & J & <-). destruct (O j J) as (E & F).
    { intros H. apply NI. apply in_map. exact H. }
    rewrite map_length. split; auto. intros m' M'. apply in_map_iff in M'. destruct M' as (m & <- & M).
    apply (same_view_farther b x x' r i i' f j m V); auto.
  - intros s t. rewrite map_length. intros L.
    rewrite (nth_indep (map f l) 0%nat (f 0%nat)) by (rewrite map_length; lia).
    rewrite (nth_indep (map f l) 0%nat (f 0%nat)) by (rewrite map_length; lia).
    rewrite !map_nth. apply (same_view_farther b x x' r i i' f _ _ V); try (apply I, nth_In; lia). apply S; auto.
Qed.

(** Without ties there is one such list. *)
Lemma sorted_unique (R' : nat -> nat -> Prop) l : forall l', NoDup l -> Permutation l l' ->
  (forall a c, In a l -> In c l -> R' a c -> R' c a -> a = c) ->
  (forall s t, (s < t < length l)%nat -> R' (nth s l 0%nat) (nth t l 0%nat)) ->
  (forall s t, (s < t < length l')%nat -> R' (nth s l' 0%nat) (nth t l' 0%nat)) -> l = l'.
Proof.
  induction l as [|a l IH]; intros l' ND P A S S'.
  { apply Permutation_nil in P. subst. reflexivity. }
  destruct l' as [|a' l']. { symmetry in P. apply Permutation_nil in P. discriminate. }
  assert (E : a = a').
  { destruct (Nat.eq_dec a a') as [E|NE]; auto.
    assert (I : In a (a' :: l')) by (eapply Permutation_in; [exact P|left; reflexivity]).
    assert (I' : In a' (a :: l)) by (eapply Permutation_in; [symmetry; exact P|left; reflexivity]).
    destruct I as [E|I]; [congruence|]. destruct I' as [E|I']; [congruence|].
    destruct (In_nth _ _ 0%nat I) as (s & L & E). destruct (In_nth _ _ 0%nat I') as (s' & L' & E').
    apply A; [left; auto|right; auto| |].
    - specialize (S 0%nat (Datatypes.S s')). cbn [nth length] in S. rewrite E' in S. apply S. lia.
    - specialize (S' 0%nat (Datatypes.S s)). cbn [nth length] in S'. rewrite E in S'. apply S'. lia. }
  subst a'. f_equal. inversion ND; subst. apply IH; auto.
  - apply Permutation_cons_inv in P. exact P.
  - intros u v U V. apply A; right; auto.
  - intros s t L. apply (S (Datatypes.S s) (Datatypes.S t)). cbn [length]. lia.
  - intros s t L. apply (S' (Datatypes.S s) (Datatypes.S t)). cbn [length]. lia.
Qed.
Lemma not_incl (l l' : list nat) : ~ incl l l' -> exists m, In m l /\ ~ In m l'.
Proof.
  intros H. induction l as [|a l IH]; [exfalso; apply H; intros z []|].
  destruct (in_dec Nat.eq_dec a l') as [I|I]; [|exists a; split; [left|]; auto].
  destruct IH as (m & M & N). { intros C. apply H. intros z [<-|Z]; auto. }
  exists m. split; [right|]; auto.
Qed.
Lemma nearest_incl b x r k i l l' : no_ties b x r i ->
  nearest_list b x r k i l -> nearest_list b x r k i l' -> incl l l'.
Proof.
  intros T (N & K & I & O & S) (N' & K' & I' & O' & S') j J.
  destruct (in_dec Nat.eq_dec j l') as [|NI]; auto. exfalso.
  destruct (O' j (I j J) NI) as (E & F).
  assert (C : ~ incl l' l).
  { intros C. assert (D : incl l l') by (apply NoDup_length_incl; auto; lia). auto. }
  apply not_incl in C. destruct C as (m & M & NM).
  destruct (O m (I' m M) NM) as (E2 & F2).
  assert (j = m) by (apply T; auto). subst. contradiction.
Qed.
Lemma nearest_unique b x r k i l l' : no_ties b x r i ->
  nearest_list b x r k i l -> nearest_list b x r k i l' -> l = l'.
Proof.
  intros T H H'. assert (P : Permutation l l').
  { apply NoDup_Permutation; [apply H|apply H'|]. intros j. split; apply (nearest_incl b x r k i); auto. }
  apply (sorted_unique (no_farther b x i)); auto.
  - apply H.
  - intros a c A C. apply T; apply H; auto.
  - apply H.
  - apply H'.
Qed.
(** Where the cut is clear there is one set of neighbours. *)
Lemma clear_perm b x r k i l rho s : rho <= r -> NoDup s -> (forall j, In j s <-> other b x i rho j) ->
  (length s = k \/ (length s <= k)%nat /\ rho = r) -> nearest_list b x r k i l -> Permutation l s.
Proof.
  intros L ND S C (N & K & I & O & _).
  assert (UP : forall j, In j s -> other b x i r j).
  { intros j J. apply S in J. destruct J as (J1 & J2 & J3). split; auto. split; auto. eapply near_mono; eauto. }
  assert (A : incl s l).
  { intros j J. destruct (in_dec Nat.eq_dec j l) as [|NI]; auto. exfalso. destruct (O j (UP j J) NI) as (E & F).
    assert (B : incl l s).
    { intros m M. apply S. destruct (I m M) as (M1 & M2 & M3). split; auto. split; auto. apply F; auto. apply S in J. apply J. }
    assert (D : incl s l). { apply NoDup_length_incl; auto. destruct C as [C|[C _]]; lia. }
    auto. }
  assert (B : incl l s).
  { destruct C as [C|[C E]].
    - apply NoDup_length_incl; auto. lia.
    - subst rho. intros m M. apply S, I, M. }
  apply NoDup_Permutation; auto. intros j. split; auto.
Qed.
Lemma clear_view b x x' r k i i' f : same_view b x x' r i i' f -> clear_cut b x r k i -> clear_cut b x' r k i'.
Proof.
  intros (V1 & V2 & V3 & V4) (rho & s & L & ND & S & C). exists rho, (map f s). split; auto.
  assert (UP : forall j, In j s -> other b x i r j).
  { intros j J. apply S in J. destruct J as (J1 & J2 & J3). split; auto. split; auto. eapply near_mono; eauto. }
  split; [|split].
  - assert (Q : forall l', incl l' s -> NoDup l' -> NoDup (map f l')).
    { induction l' as [|a l' IH]; intros D N; cbn; constructor.
      - intros H. apply in_map_iff in H. destruct H as (a' & E & H). inversion N; subst.
        assert (a' = a). { apply V3; auto; apply UP, D; [right|left]; auto. } subst. contradiction.
      - inversion N; subst. apply IH; auto. intros z Z. apply D. right. auto. }
    apply Q; auto. intros z Z. exact Z.
  - intros j'. rewrite in_map_iff. split.
    + intros (j & <- & J). destruct (V1 j (UP j J)) as (A & B & _). split; auto. split; auto. apply V4; auto. apply S in J. apply J.
    + intros (J1 & J2 & J3). destruct (V2 j') as (j & J & <-). { split; auto. split; auto. eapply near_mono; eauto. }
      exists j. split; auto. apply S. split; [apply J|]. split; [apply J|]. apply (V4 j rho L J). exact J3.
  - rewrite map_length. exact C.
Qed.
Lemma ties_back b x x' r i i' f : same_view b x x' r i i' f -> no_ties b x r i -> no_ties b x' r i'.
Proof.
  intros V T j' m' J M A B. pose proof V as (V1 & V2 & V3 & V4).
  destruct (V2 j' J) as (j & J0 & <-). destruct (V2 m' M) as (m & M0 & <-). f_equal.
  assert (Q : forall u w, other b x i r u -> other b x i r w -> no_farther b x' i' (f u) (f w) -> no_farther b x i u w).
  { intros u w U W H rho N. destruct (Rle_lt_dec rho r) as [Lr|Lr].
    - apply (V4 u rho Lr U), H, (V4 w rho Lr W), N.
    - apply (near_mono _ _ _ _ r); [lra|apply U]. }
  apply T; auto.
Qed.
(** Configurations which look the same have the same neighbours. *)
Lemma view_unique b x x' r k i i' f l l' : same_view b x x' r i i' f -> no_ties b x r i ->
  nearest_list b x r k i l -> nearest_list b x' r k i' l' -> l' = map f l.
Proof.
  intros V T N N'. apply (nearest_unique b x' r k i'); auto; [eapply ties_back; eauto|eapply nearest_view; eauto].
Qed.
Lemma view_perm b x x' r k i i' f l l' : same_view b x x' r i i' f -> clear_cut b x r k i ->
  nearest_list b x r k i l -> nearest_list b x' r k i' l' -> Permutation l' (map f l).
Proof.
  intros V C N N'. destruct (clear_view b x x' r k i i' f V C) as (rho & s & L & ND & S & Q).
  rewrite (clear_perm b x' r k i' l' rho s), (clear_perm b x' r k i' (map f l) rho s); auto. eapply nearest_view; eauto.
Qed.

(** ** The same view *)
Lemma near_moved b x x' i j rho : moved b x x' -> (i < length x)%nat -> (j < length x)%nat ->
  near b x i j rho <-> near b x' i j rho.
Proof.
  intros (t & F) I J.
  assert (Q : forall n, (n < length x)%nat -> is_lattice b (sub3 (pos_of x' n) (add3 (pos_of x n) t))).
  { unfold pos_of. clear - F. induction F as [|p p' l l' H F IH]; intros [|n] L; cbn in *; try lia; auto. apply IH. lia. }
  pose proof (Q i I) as Li. pose proof (Q j J) as Lj. clear F Q. unfold near. split; intros (v & L & N).
  - exists (sub3 v (sub3 (sub3 (pos_of x' j) (add3 (pos_of x j) t)) (sub3 (pos_of x' i) (add3 (pos_of x i) t)))).
    split; [apply is_lattice_sub; [exact L|apply is_lattice_sub; assumption]|]. eapply Rle_lt_trans; [|exact N]. right.
    f_equal. unfold add3, sub3. cbn [x3 y3 z3]. apply v3_eq; ring.
  - exists (add3 v (sub3 (sub3 (pos_of x' j) (add3 (pos_of x j) t)) (sub3 (pos_of x' i) (add3 (pos_of x i) t)))).
    split; [apply is_lattice_add; [exact L|apply is_lattice_sub; assumption]|]. eapply Rle_lt_trans; [|exact N]. right.
    f_equal. unfold add3, sub3. cbn [x3 y3 z3]. apply v3_eq; ring.
Qed.
Lemma moved_length b x x' : moved b x x' -> length x = length x'.
Proof. intros (t & F). apply Forall2_len in F. exact F. Qed.
Lemma view_moved b x x' r i : moved b x x' -> (i < length x)%nat -> same_view b x x' r i i (fun j => j).
Proof.
  intros M I. pose proof (moved_length _ _ _ M) as L. split; [|split; [|split]].
  - intros j (J1 & J2 & J3). split; [lia|]. split; auto. apply (near_moved b x x'); auto.
  - intros j (J1 & J2 & J3). exists j. split; auto. split; [lia|]. split; auto. apply (near_moved b x x'); auto. lia.
  - auto.
  - intros j rho _ (J1 & _). apply near_moved; auto.
Qed.
Lemma view_reordered b x sigma r a : Permutation sigma (seq 0 (length x)) -> (a < length sigma)%nat ->
  same_view b (reordered zero3 sigma x) x r a (nth a sigma 0%nat) (fun j => nth j sigma 0%nat).
Proof.
  intros P A. assert (N : NoDup sigma) by (eapply Permutation_NoDup; [symmetry; exact P|apply seq_NoDup]).
  pose proof (Permutation_length P) as L. rewrite seq_length in L.
  assert (B : forall j, (j < length sigma)%nat -> (nth j sigma 0 < length x)%nat).
  { intros j J. assert (I : In (nth j sigma 0%nat) (seq 0 (length x))) by (eapply Permutation_in; [exact P|apply nth_In; auto]).
    apply in_seq in I. lia. }
  assert (LR : length (reordered zero3 sigma x) = length sigma) by (unfold reordered; apply map_length).
  assert (Q : forall j, (j < length sigma)%nat -> pos_of (reordered zero3 sigma x) j = pos_of x (nth j sigma 0%nat)).
  { intros j J. unfold pos_of, reordered. rewrite (nth_indep _ zero3 (nth 0 x zero3)) by (rewrite map_length; auto).
    rewrite (map_nth (fun i => nth i x zero3)). reflexivity. }
  assert (NE : forall j rho, (j < length sigma)%nat ->
     near b (reordered zero3 sigma x) a j rho <-> near b x (nth a sigma 0%nat) (nth j sigma 0%nat) rho).
  { intros j rho J. unfold near. rewrite (Q j J), (Q a A). reflexivity. }
  split; [|split; [|split]].
  - intros j (J1 & J2 & J3). rewrite LR in J1. split; auto. split; [|apply NE; auto].
    intros E. apply J2. eapply NoDup_nth; eauto.
  - intros j' (J1 & J2 & J3). assert (I : In j' sigma).
    { eapply Permutation_in; [symmetry; exact P|]. apply in_seq. lia. }
    destruct (In_nth _ _ 0%nat I) as (j & J & E). exists j. split; auto. split; [lia|]. split; [intros ->; congruence|].
    apply NE; auto. rewrite E. exact J3.
  - intros j m (J & _) (M & _) E. rewrite LR in J, M. eapply NoDup_nth; eauto.
  - intros j rho _ (J & _). rewrite LR in J. apply NE; auto.
Qed.

(** ** Values *)
Section Values.
  Variable nr : R.
  Definition row_of (ori : list RVec.quat) (i : nat) (l : list nat) : list R :=
    map (fun j => 2 * intrinsic_distance nr (nth (if (j <? length ori)%nat then j else i) ori qone) (nth i ori qone)) l.
  Lemma relative_rows nl ori : length nl = length ori ->
    relative_angle nr nl ori = inl (map (fun i => row_of ori i (nth i nl [])) (seq 0 (length ori))).
  Proof.
    intros L. unfold relative_angle.
    assert (B : forall {A B C} (f : A -> B -> C) a b, length a = length b -> bzip f a b = inl (zip f a b)).
    { intros A B C f a b E. unfold bzip. rewrite E, Nat.eqb_refl. reflexivity. }
    rewrite B by (rewrite seq_length; auto). cbn [MotionModel.ebind].
    assert (L2 : length (zip (present (length ori)) nl (seq 0 (length ori))) = length ori).
    { rewrite zip_length; [auto|rewrite seq_length; auto]. }
    rewrite B by exact L2. f_equal. apply (nth_ext _ _ [] (row_of ori 0 [])).
    { rewrite zip_length, map_length, seq_length; auto. }
    intros i I. rewrite zip_length in I by exact L2. rewrite L2 in I.
    rewrite (nth_zip' _ _ ori [] qone []) by (rewrite ?L2; auto).
    rewrite (nth_zip' (present (length ori)) nl (seq 0 (length ori)) [] 0%nat []) by (rewrite ?seq_length; lia).
    rewrite (nth_indep _ _ (row_of ori 0 (nth 0 nl []))) by (rewrite map_length, seq_length; auto).
    rewrite (map_nth (fun i => row_of ori i (nth i nl []))), seq_nth by auto. cbn [plus].
    unfold present, row_of. rewrite map_map. apply map_ext. intros j. reflexivity.
  Qed.
End Values.
Lemma mean_perm l l' : Permutation l l' -> rmean l = rmean l'.
Proof.
  intros P. unfold rmean. rewrite (Permutation_length P). f_equal.
  unfold rsum. induction P; cbn in *; lra.
Qed.
