(** C208: Voronoi neighbours. *)
From Coq Require Import Reals ZArith List Bool Lia Lra Arith Classical.
From Verif Require Import VoronoiModel VoronoiSpec.
Import ListNotations.
Open Scope R_scope.

Lemma distance_pos p q : 0 <= distance p q.
Proof. apply sqrt_pos. Qed.
Lemma distance_sym p q : distance p q = distance q p.
Proof. apply distance_symm. Qed.
Lemma distance_tri p q r : distance p r <= distance p q + distance q r.
Proof. apply triangle. Qed.
Lemma distance_zero p : distance p p = 0.
Proof. apply distance_refl. Qed.
Definition on_way (t : R) (p x : point) : point := (fst p + t * (fst x - fst p), snd p + t * (snd x - snd p)).
Lemma way_from t p x : 0 <= t -> distance p (on_way t p x) = t * distance p x.
Proof.
  intros H. unfold distance, dist_euc, on_way. cbn [fst snd].
  replace (Rsqr (fst p - (fst p + t * (fst x - fst p))) + Rsqr (snd p - (snd p + t * (snd x - snd p)))) with
          (Rsqr t * (Rsqr (fst p - fst x) + Rsqr (snd p - snd x))) by (unfold Rsqr; ring).
  rewrite sqrt_mult, sqrt_Rsqr; auto using Rle_0_sqr, Rplus_le_le_0_compat.
Qed.
Lemma way_to t p x : t <= 1 -> distance x (on_way t p x) = (1 - t) * distance p x.
Proof.
  intros H. unfold distance, dist_euc, on_way. cbn [fst snd].
  replace (Rsqr (fst x - (fst p + t * (fst x - fst p))) + Rsqr (snd x - (snd p + t * (snd x - snd p)))) with
          (Rsqr (1 - t) * (Rsqr (fst p - fst x) + Rsqr (snd p - snd x))) by (unfold Rsqr; ring).
  rewrite sqrt_mult, sqrt_Rsqr; auto using Rle_0_sqr, Rplus_le_le_0_compat. lra.
Qed.

Section Cells.
  Variables (b : sheet) (pos : list point) (r reach : R).
  Hypothesis D : dense b pos r.
  Hypothesis Hr : 2 * r < reach.
  Variable T : point -> Prop.
  Hypothesis HT : forall q, T q -> periodic b pos q.
  Variable p : point.
  Hypothesis Hp : forall q, periodic b pos q -> distance p q < reach -> T q.

  Lemma r_pos : 0 <= r.
  Proof. destruct (D p) as (q & _ & H). pose proof (distance_pos p q). lra. Qed.
  Lemma cell_small x : closest T x p -> distance x p <= r.
  Proof.
    intros [_ C]. destruct (Rle_dec (distance x p) r) as [|N]; auto. exfalso. apply Rnot_le_lt in N.
    rewrite distance_sym in N. set (d := distance p x) in *. pose proof r_pos as R0.
    set (s := Rmin d (reach / 2)). assert (S1 : r < s <= d) by (unfold s, Rmin; destruct (Rle_dec _ _); lra).
    assert (S2 : s <= reach / 2) by (unfold s; apply Rmin_r).
    set (t := s / d). assert (T0 : 0 <= t <= 1) by (unfold t; split; [apply Rlt_le, Rdiv_lt_0_compat; lra|apply Rmult_le_reg_r with d; [lra|]; unfold Rdiv; rewrite Rmult_assoc, Rinv_l; lra]).
    assert (Ts : t * d = s) by (unfold t; field; lra).
    destruct (D (on_way t p x)) as (z & Pz & Hz).
    pose proof (way_from t p x ltac:(lra)) as W1. pose proof (way_to t p x ltac:(lra)) as W2. fold d in W1, W2.
    pose proof (distance_tri p (on_way t p x) z) as A1. pose proof (distance_tri x (on_way t p x) z) as A2.
    assert (Tz : T z) by (apply Hp; auto; lra).
    specialize (C z Tz). rewrite (distance_sym x p) in C. fold d in C. lra.
  Qed.
  Lemma closest_same x : closest T x p <-> closest (periodic b pos) x p /\ T p.
  Proof.
    split.
    - intros C. pose proof (cell_small x C) as S. destruct C as [C1 C2]. split; [|auto]. split; [auto|]. intros q Pq.
      destruct (Rle_dec (distance x p) (distance x q)) as [|N]; auto. apply Rnot_le_lt in N. apply C2, Hp; auto.
      pose proof (distance_tri p x q). rewrite (distance_sym p x) in *. lra.
    - intros [[C1 C2] C3]. split; auto.
  Qed.
End Cells.
Lemma full_small b pos r p x : dense b pos r -> closest (periodic b pos) x p -> distance x p <= r.
Proof. intros D [_ C]. destruct (D x) as (q & Pq & H). specialize (C q Pq). lra. Qed.
Lemma edge_same b pos r reach (T : point -> Prop) p q : dense b pos r -> 2 * r < reach -> (forall q, T q -> periodic b pos q) ->
  (forall q, periodic b pos q -> distance p q < reach -> T q) -> edge T p q <-> edge (periodic b pos) p q.
Proof.
  intros D Hr HT Hp. split.
  - intros (N & x & y & Nxy & X1 & X2 & Y1 & Y2). split; auto. exists x, y. split; auto.
    assert (G : forall x, closest T x p -> closest T x q -> closest (periodic b pos) x p /\ closest (periodic b pos) x q).
    { intros z Z1 Z2. destruct (proj1 (closest_same b pos r reach D Hr T HT p Hp z) Z1) as [Z3 _]. split; auto.
      split; [apply HT, Z2|]. intros w Pw. apply Rle_trans with (distance z p); [apply Z2, Z1|apply Z3, Pw]. }
    destruct (G x X1 X2), (G y Y1 Y2). auto.
  - intros (N & x & y & Nxy & X1 & X2 & Y1 & Y2). split; auto. exists x, y. split; auto.
    assert (Tp : T p). { apply Hp; [apply X1|]. rewrite distance_zero. pose proof (r_pos b pos r D p). lra. }
    assert (Tq : T q).
    { apply Hp; [apply X2|]. pose proof (full_small b pos r p x D X1). pose proof (full_small b pos r q x D X2).
      pose proof (distance_tri p x q). rewrite (distance_sym p x) in *. lra. }
    assert (G : forall x w, T w -> closest (periodic b pos) x w -> closest T x w) by (intros z w Tw [_ Z2]; split; auto).
    auto 8.
Qed.

(** The number that is counted *)
Definition far_end (i : nat) (r : nat * nat) : nat := if (fst r =? i)%nat then snd r else fst r.
Lemma map_nodup_on {A B} (f : A -> B) l : (forall x y, In x l -> In y l -> f x = f y -> x = y) -> NoDup l -> NoDup (map f l).
Proof.
  intros H N. induction N as [|x l Nx N IH]; cbn [map]; constructor.
  - intros I. apply in_map_iff in I. destruct I as (y & E & Y). apply Nx. replace x with y; auto. apply H; [right; auto|left; auto|auto].
  - apply IH. intros; apply H; auto; right; auto.
Qed.
Lemma edge_sym S p q : edge S p q -> edge S q p.
Proof. intros (N & x & y & Nxy & A & B & C & D). split; [congruence|]. exists x, y. auto. Qed.
Theorem C208_voronoi_partial b pos r expanded ridges i :
  separate b pos -> dense b pos r -> 2 * r < 5 -> buffered b pos 5 expanded -> divides (map snd expanded) ridges -> (i < length pos)%nat ->
  exists n, nth_error (compute_voronoi_neighs pos expanded ridges) i = Some n /\ has_neighbours b pos i n.
Proof.
  intros Se D Hr (B1 & B2 & B3 & B4) (V1 & V2) Hi.
  destruct (nth_error pos i) as [p|] eqn:Ep; [|apply nth_error_None in Ep; lia].
  assert (Ip : In p pos) by (eapply nth_error_In; eauto).
  set (T := fun x => In x (map snd expanded)) in *.
  assert (TP : forall q, T q -> periodic b pos q).
  { intros q I. apply in_map_iff in I. destruct I as ([k q'] & <- & I). cbn [snd]. destruct (B2 k q' I) as (w & a & c & W & E). exists w, a, c. split; auto. eapply nth_error_In; eauto. }
  assert (ES : forall q, edge T p q <-> edge (periodic b pos) p q) by (intros q; apply (edge_same b pos r 5 T p q D Hr TP); intros w Pw Dw; apply (B4 p w); auto).
  assert (Ei := B1 i p Ep).
  assert (ids : forall k q, nth_error expanded k = Some q -> nth k (map fst expanded) 0%nat = fst q).
  { intros k q E. apply nth_error_nth. apply map_nth_error. auto. }
  assert (pts : forall k q, nth_error (map snd expanded) k = Some q -> exists e, nth_error expanded k = Some e /\ snd e = q).
  { intros k q E. destruct (nth_error expanded k) as [e|] eqn:Ee; [|apply nth_error_None in Ee; assert (nth_error (map snd expanded) k = None) by (apply nth_error_None; rewrite map_length; auto); congruence].
    exists e. split; auto. apply (map_nth_error snd) in Ee. congruence. }
  assert (Pi : nth_error (map snd expanded) i = Some p) by (apply (map_nth_error snd) in Ei; auto).
  assert (uniq : forall a c q, nth_error (map snd expanded) a = Some q -> nth_error (map snd expanded) c = Some q -> a = c).
  { intros a c q A C. apply (proj1 (NoDup_nth_error _) B3); [apply nth_error_Some; congruence|congruence]. }
  eexists. split; [unfold compute_voronoi_neighs; apply (map_nth_error (fun i => length (filter (leads (map fst expanded) i) ridges))); rewrite (nth_error_nth' (seq 0 (length pos)) 0%nat) by (rewrite seq_length; auto); rewrite seq_nth by auto; reflexivity|].
  cbn [Nat.add]. set (F := filter (leads (map fst expanded) i) ridges).
  exists p, (map (fun rr => nth (far_end i rr) (map snd expanded) p) F). split; [auto|].
  assert (InF : forall a c, In (a, c) F <-> (a < c)%nat /\ exists k q, (a = i /\ c = k \/ c = i /\ a = k) /\ nth_error (map snd expanded) k = Some q /\ edge T p q /\ nth k (map fst expanded) 0%nat <> i).
  { intros a c. unfold F. rewrite filter_In, V2. unfold leads. cbn [fst snd]. split.
    - intros ((L & q1 & q2 & Q1 & Q2 & E) & H). split; auto. apply orb_true_iff in H. destruct H as [H|H]; apply andb_true_iff in H; destruct H as [H1 H2]; apply Nat.eqb_eq in H1; apply negb_true_iff, Nat.eqb_neq in H2.
      + subst a. exists c, q2. split; [auto|]. split; auto. split; auto. assert (q1 = p) by congruence. subst. auto.
      + subst c. exists a, q1. split; [auto|]. split; auto. split; auto. assert (q2 = p) by congruence. subst. apply edge_sym. auto.
    - intros (L & k & q & [[-> ->]|[-> ->]] & Q & E & N).
      + split; [split; [auto|exists p, q; auto]|]. apply Nat.eqb_neq in N. rewrite Nat.eqb_refl, N. reflexivity.
      + split; [split; [auto|exists q, p; split; [auto|split; [auto|apply edge_sym; auto]]]|]. apply Nat.eqb_neq in N. rewrite Nat.eqb_refl, N. apply orb_true_r. }
  assert (far : forall a c, In (a, c) F -> exists q, nth_error (map snd expanded) (far_end i (a, c)) = Some q /\ edge T p q /\ nth (far_end i (a, c)) (map fst expanded) 0%nat <> i /\ (a = i /\ far_end i (a, c) = c \/ c = i /\ far_end i (a, c) = a)).
  { intros a c I. apply InF in I. destruct I as (L & k & q & H & Q & E & N). exists q. unfold far_end. cbn [fst snd].
    destruct H as [[-> ->]|[-> ->]]; [rewrite Nat.eqb_refl; auto 6|]. replace (k =? i)%nat with false by (symmetry; apply Nat.eqb_neq; lia). auto 6. }
  split; [|split].
  - apply map_nodup_on; [|apply NoDup_filter; auto].
    intros [a c] [a' c'] I I' E. destruct (far a c I) as (q & Q & _ & _ & H), (far a' c' I') as (q' & Q' & _ & _ & H').
    rewrite (nth_error_nth _ _ p Q), (nth_error_nth _ _ p Q') in E. subst q'. pose proof (uniq _ _ _ Q Q') as U.
    apply InF in I, I'. destruct I as (L & _), I' as (L' & _). f_equal; lia.
  - apply map_length.
  - intros q. rewrite in_map_iff. split.
    + intros ([a c] & <- & I). destruct (far a c I) as (q' & Q & E & N & H). rewrite (nth_error_nth _ _ p Q). split; [apply ES; auto|].
      destruct (pts _ _ Q) as ([k w] & Ee & Es). cbn in Es. subst w. rewrite (ids _ _ Ee) in N. cbn in N.
      destruct (B2 k q' (nth_error_In _ _ Ee)) as (p' & m & n & W1 & W2). exists k, p', m, n. auto.
    + intros (E & j & p' & m & n & W1 & Nj & W2). apply ES in E.
      assert (Tq : T q) by (destruct E as (_ & x & _ & _ & _ & [X _] & _); exact X).
      unfold T in Tq. apply In_nth_error in Tq. destruct Tq as (k & Ek). destruct (pts _ _ Ek) as ([k' w] & Ee & Es). cbn in Es. subst w.
      assert (k' = j).
      { destruct (B2 k' q (nth_error_In _ _ Ee)) as (p'' & m' & n' & U1 & U2). destruct (Se k' j p'' p' m' n' m n U1 W1) as (X & _); [congruence|auto]. }
      subst k'. assert (Nk : nth k (map fst expanded) 0%nat <> i) by (rewrite (ids _ _ Ee); cbn; auto).
      assert (Ki : k <> i) by (intros ->; apply Nk; rewrite (ids _ _ Ei); reflexivity).
      destruct (Nat.lt_ge_cases i k) as [L|L].
      * exists (i, k). split; [unfold far_end; cbn [fst snd]; rewrite Nat.eqb_refl; apply nth_error_nth; auto|]. apply InF. split; auto. exists k, q. auto 6.
      * exists (k, i). split; [unfold far_end; cbn [fst snd]; replace (k =? i)%nat with false by (symmetry; apply Nat.eqb_neq; auto); apply nth_error_nth; auto|].
        apply InF. split; [lia|]. exists k, q. auto 6.
Qed.
Print Assumptions C208_voronoi_partial.

(** ** What the contracts say can be met. *)
Lemma some_of {A} (dec : forall x y : A, {x = y} + {x <> y}) (P : A -> Prop) l : exists m, NoDup m /\ forall x, In x m <-> In x l /\ P x.
Proof.
  induction l as [|x l (m & N & H)].
  - exists []. split; [constructor|]. cbn. tauto.
  - destruct (classic (P x /\ ~ In x l)) as [[Px Nx]|Q].
    + exists (x :: m). split; [constructor; auto; intros I; apply H in I; tauto|]. intros y. cbn [In]. rewrite H. split.
      * intros [->|[I Py]]; auto. * intros [[->|I] Py]; auto.
    + exists m. split; auto. intros y. cbn [In]. rewrite H. split; [tauto|]. intros [[->|I] Py]; auto. split; auto.
      destruct (in_dec dec y l) as [|Ny]; auto. exfalso. apply Q. auto.
Qed.
Lemma ridges_exist points : exists ridges, divides points ridges.
Proof.
  destruct (some_of (fun x y : nat * nat => ltac:(decide equality; apply Nat.eq_dec))
    (fun ac => (fst ac < snd ac)%nat /\ exists p q, nth_error points (fst ac) = Some p /\ nth_error points (snd ac) = Some q /\ edge (fun x => In x points) p q)
    (list_prod (seq 0 (length points)) (seq 0 (length points)))) as (m & N & H).
  exists m. split; auto. intros a c. rewrite H. cbn [fst snd]. split; [tauto|]. intros (L & p & q & A & C & E). split; [|split; [auto|exists p, q; auto]].
  assert (La : (a < length points)%nat) by (apply nth_error_Some; rewrite A; discriminate).
  assert (Lc : (c < length points)%nat) by (apply nth_error_Some; rewrite C; discriminate).
  apply in_prod; apply in_seq; lia.
Qed.
Lemma separate_box b (pos : list point) : 0 < Lx b -> 0 < Ly b -> tilt b = 0 -> NoDup pos ->
  (forall p q, In p pos -> In q pos -> Rabs (fst p - fst q) < Lx b /\ Rabs (snd p - snd q) < Ly b) -> separate b pos.
Proof.
  intros Hx Hy Ht N W i j p q k l k' l' Ei Ej E. destruct (W p q (nth_error_In _ _ Ei) (nth_error_In _ _ Ej)) as [W1 W2].
  unfold shift in E. rewrite Ht in E. injection E as E1 E2.
  assert (Small : forall (m : Z) L, 0 < L -> Rabs (IZR m * L) < L -> m = 0%Z).
  { intros m L HL A. destruct (Z.eq_dec m 0) as [|Nz]; auto. exfalso. rewrite Rabs_mult, (Rabs_pos_eq L) in A by lra.
    assert (1 <= Rabs (IZR m)) by (rewrite <- abs_IZR; apply IZR_le; lia). nra. }
  assert (k' - k = 0)%Z by (apply (Small _ (Lx b) Hx); replace (IZR (k' - k) * Lx b) with (fst p - fst q) by (rewrite minus_IZR; lra); auto).
  assert (l' - l = 0)%Z by (apply (Small _ (Ly b) Hy); replace (IZR (l' - l) * Ly b) with (snd p - snd q) by (rewrite minus_IZR; lra); auto).
  assert (k = k') by lia. assert (l = l') by lia. subst k' l'. split; [|auto].
  assert (p = q) by (destruct p, q; cbn in *; f_equal; lra). subst q.
  apply (proj1 (NoDup_nth_error pos) N); [apply nth_error_Some; rewrite Ei; discriminate|rewrite Ei, Ej; reflexivity].
Qed.
Lemma distance_le x p q : Rsqr (fst x - fst p) + Rsqr (snd x - snd p) <= Rsqr (fst x - fst q) + Rsqr (snd x - snd q) -> distance x p <= distance x q.
Proof. intros H. apply sqrt_le_1_alt. exact H. Qed.
Lemma distance_sq x p q : distance x p <= distance x q -> Rsqr (fst x - fst p) + Rsqr (snd x - snd p) <= Rsqr (fst x - fst q) + Rsqr (snd x - snd q).
Proof. intros H. apply sqrt_le_0; auto using Rle_0_sqr, Rplus_le_le_0_compat. Qed.
Lemma distance_parts p q d : distance p q < d -> Rabs (fst p - fst q) < d /\ Rabs (snd p - snd q) < d.
Proof.
  intros H. pose proof (distance_pos p q). assert (G : Rsqr (distance p q) = Rsqr (fst p - fst q) + Rsqr (snd p - snd q)).
  { unfold distance, dist_euc. apply Rsqr_sqrt. auto using Rle_0_sqr, Rplus_le_le_0_compat. }
  assert (Rsqr (distance p q) < Rsqr d) by (apply Rsqr_incrst_1; lra).
  pose proof (Rle_0_sqr (fst p - fst q)). pose proof (Rle_0_sqr (snd p - snd q)).
  split; (rewrite <- (Rabs_pos_eq d) by lra); apply Rsqr_lt_abs_0; lra.
Qed.

(** ** Nine molecules on a square grid *)
Definition grid_box : sheet := {| Lx := 9; Ly := 9; tilt := 0 |}.
Definition grid : list point := [(0, 0); (0, 3); (0, 6); (3, 0); (3, 3); (3, 6); (6, 0); (6, 3); (6, 6)].
Lemma grid_all q : periodic grid_box grid q <-> exists k l, q = (3 * IZR k, 3 * IZR l).
Proof.
  split.
  - intros (p & i & j & I & ->). unfold shift. cbn [Lx Ly tilt grid_box].
    assert (C : exists a c : Z, p = (3 * IZR a, 3 * IZR c)).
    { cbn [grid In] in I. repeat destruct I as [<-|I]; try contradiction; [exists 0%Z, 0%Z|exists 0%Z, 1%Z|exists 0%Z, 2%Z|exists 1%Z, 0%Z|exists 1%Z, 1%Z|exists 1%Z, 2%Z|exists 2%Z, 0%Z|exists 2%Z, 1%Z|exists 2%Z, 2%Z]; f_equal; lra. }
    destruct C as (a & c & ->). exists (a + 3 * i)%Z, (c + 3 * j)%Z. cbn [fst snd]. rewrite !plus_IZR, !mult_IZR. f_equal; lra.
  - intros (k & l & ->).
    assert (C : forall k, exists a i, (k = a + 3 * i)%Z /\ (a = 0 \/ a = 1 \/ a = 2)%Z).
    { intros m. exists (m mod 3)%Z, (m / 3)%Z. pose proof (Z.mod_pos_bound m 3). pose proof (Z.div_mod m 3). lia. }
    destruct (C k) as (a & i & -> & A), (C l) as (c & j & -> & B). exists (3 * IZR a, 3 * IZR c), i, j. split.
    + destruct A as [->|[->| ->]], B as [->|[->| ->]]; cbn [grid In];
        repeat first [left; f_equal; lra|right].
    + unfold shift. cbn [Lx Ly tilt grid_box fst snd]. rewrite !plus_IZR, !mult_IZR. f_equal; lra.
Qed.
Lemma grid_separate : separate grid_box grid.
Proof.
  apply separate_box; cbn [Lx Ly tilt grid_box]; try lra.
  - unfold grid. repeat (constructor; [cbn [In]; intros H; repeat destruct H as [H|H]; try contradiction; injection H; intros; lra|]). constructor.
  - intros p q I J. assert (G : forall p, In p grid -> 0 <= fst p <= 6 /\ 0 <= snd p <= 6) by (intros w K; cbn [grid In] in K; repeat destruct K as [<-|K]; try contradiction; cbn [fst snd]; lra).
    apply G in I, J. split; apply Rabs_def1; lra.
Qed.
Lemma nearest_int x : exists k : Z, Rabs (x - 3 * IZR k) <= 3 / 2.
Proof.
  exists (Int_part (x / 3 + 1 / 2)). destruct (base_Int_part (x / 3 + 1 / 2)) as [A B]. apply Rabs_le. lra.
Qed.
Lemma grid_dense : dense grid_box grid (22 / 10).
Proof.
  intros x. destruct (nearest_int (fst x)) as (k & K), (nearest_int (snd x)) as (l & L). exists (3 * IZR k, 3 * IZR l). split; [apply grid_all; eauto|].
  unfold distance, dist_euc. cbn [fst snd]. rewrite <- (sqrt_Rsqr (22 / 10)) by lra. apply sqrt_le_1_alt.
  assert (forall t, Rabs t <= 3 / 2 -> Rsqr t <= Rsqr (3 / 2)) by (intros t H; apply Rsqr_le_abs_1; rewrite (Rabs_pos_eq (3 / 2)) by lra; auto).
  pose proof (H _ K). pose proof (H _ L). unfold Rsqr in *. lra.
Qed.
Definition grid_points : list (nat * point) :=
  let own := combine (seq 0 9) grid in
  own ++ flat_map (fun ij => map (fun e => (fst e, shift grid_box (fst ij) (snd ij) (snd e))) own)
           [(-1, -1); (-1, 0); (-1, 1); (0, -1); (0, 1); (1, -1); (1, 0); (1, 1)]%Z.

Lemma grid_images : buffered grid_box grid 5 grid_points.
Proof.
  assert (Own : forall k q, In (k, q) (combine (seq 0 9) grid) -> nth_error grid k = Some q).
  { intros k q I. cbn [combine seq grid In] in I. repeat destruct I as [I|I]; try contradiction; injection I as <- <-; reflexivity. }
  assert (Img : forall k q, In (k, q) grid_points -> exists p i j, nth_error grid k = Some p /\ q = shift grid_box i j p /\ In (i, j) [(0, 0); (-1, -1); (-1, 0); (-1, 1); (0, -1); (0, 1); (1, -1); (1, 0); (1, 1)]%Z).
  { intros k q I. unfold grid_points in I. cbv zeta in I. apply in_app_or in I. destruct I as [I|I].
    - exists q, 0%Z, 0%Z. split; [auto|]. split; [destruct q; unfold shift; cbn; f_equal; lra|left; auto].
    - apply in_flat_map in I. destruct I as ([i j] & Ij & I). apply in_map_iff in I. destruct I as ([k' p] & E & I). injection E as <- <-.
      exists p, i, j. split; [auto|]. split; [auto|right; auto]. }
  split; [|split; [|split]].
  - intros i p E. do 9 (destruct i as [|i]; [injection E as <-; reflexivity|]). destruct i; discriminate.
  - intros k q I. destruct (Img k q I) as (p & i & j & A & B & _). eauto.
  - assert (X : map snd grid_points = map (fun e => shift grid_box (fst (fst e)) (snd (fst e)) (snd e)) (list_prod [(0, 0); (-1, -1); (-1, 0); (-1, 1); (0, -1); (0, 1); (1, -1); (1, 0); (1, 1)]%Z grid)).
    { unfold grid_points, grid, shift. cbn [combine seq map flat_map list_prod app fst snd Lx Ly tilt grid_box]. do 9 (apply (f_equal2 (@cons point)); [apply (f_equal2 (@pair R R)); lra|]). reflexivity. }
    rewrite X. apply map_nodup_on.
    + intros [[i j] p] [[k l] q] I J E. apply in_prod_iff in I, J. destruct I as [_ I], J as [_ J]. cbn [fst snd] in E.
      apply In_nth_error in I, J. destruct I as (a & A), J as (c & C). destruct (grid_separate a c p q i j k l A C E) as (-> & -> & ->). congruence.
    + assert (NP : forall (A B : Type) (x : list A) (y : list B), NoDup x -> NoDup y -> NoDup (list_prod x y)).
      { intros A B x y Nx Ny. induction Nx as [|u x Nu Nx IH]; cbn [list_prod]; [constructor|].
        assert (M : NoDup (map (fun y0 => (u, y0)) y)) by (apply map_nodup_on; auto; intros; congruence).
        revert M.
        assert (Dj : forall e, In e (map (fun y0 => (u, y0)) y) -> ~ In e (list_prod x y)).
        { intros e I J. apply in_map_iff in I. destruct I as (w & <- & W). apply in_prod_iff in J. tauto. }
        clear - Dj IH. induction (map (fun y0 => (u, y0)) y) as [|e m IHm]; intros M; cbn [app]; auto. inversion M; subst. constructor.
        - intros I. apply in_app_or in I. destruct I as [I|I]; [auto|]. apply (Dj e); [left; auto|auto].
        - apply IHm; auto. intros e' I. apply Dj. right; auto. }
      apply NP.
      * repeat (constructor; [cbn [In]; intuition discriminate|]). constructor.
      * unfold grid. repeat (constructor; [cbn [In]; intros H; repeat destruct H as [H|H]; try contradiction; injection H; intros; lra|]). constructor.
  - intros p q Ip (p' & i & j & Ip' & ->) Dq. apply distance_parts in Dq. destruct Dq as [D1 D2].
    assert (G : forall p, In p grid -> 0 <= fst p <= 6 /\ 0 <= snd p <= 6) by (intros w K; cbn [grid In] in K; repeat destruct K as [<-|K]; try contradiction; cbn [fst snd]; lra).
    pose proof (G p Ip). pose proof (G p' Ip'). unfold shift in D1, D2. cbn [fst snd Lx Ly tilt grid_box] in D1, D2. apply Rabs_def2 in D1, D2.
    assert (I1 : (-2 < i < 2)%Z) by (split; apply lt_IZR; lra). assert (J1 : (-2 < j < 2)%Z) by (split; apply lt_IZR; lra).
    apply In_nth_error in Ip'. destruct Ip' as (k & Ek).
    assert (Ek' : In (k, p') (combine (seq 0 9) grid)).
    { do 9 (destruct k as [|k]; [injection Ek as <-; cbn [combine seq grid In]; tauto|]). destruct k; discriminate. }
    destruct (Z.eq_dec i 0) as [->|Ni], (Z.eq_dec j 0) as [->|Nj].
    { apply in_map_iff. exists (k, p'). split; [cbn [snd]; destruct p'; unfold shift; cbn; f_equal; lra|]. apply in_or_app. left. auto. }
    all: apply in_map_iff; eexists (k, _); (split; [reflexivity|]); apply in_or_app; right; apply in_flat_map; eexists (_, _); (split; [|apply in_map_iff; exists (k, p'); split; [reflexivity|exact Ek']]); cbn [In].
    + assert (j = -1 \/ j = 1)%Z as [->| ->] by lia; tauto.
    + assert (i = -1 \/ i = 1)%Z as [->| ->] by lia; tauto.
    + assert (i = -1 \/ i = 1)%Z as [->| ->] by lia; assert (j = -1 \/ j = 1)%Z as [->| ->] by lia; tauto.
Qed.
Lemma in_square (a : Z) u : -3 / 2 <= u <= 3 / 2 ->
  IZR a * u <= 3 / 2 * (IZR a * IZR a) /\ (IZR a * u = 3 / 2 * (IZR a * IZR a) -> a = 0%Z \/ a = 1%Z /\ u = 3 / 2 \/ a = (-1)%Z /\ u = -3 / 2).
Proof.
  intros H. destruct (Z_le_gt_dec a (-2)) as [L|L].
  { apply IZR_le in L. split; [nra|intros E; exfalso; nra]. }
  destruct (Z_le_gt_dec 2 a) as [M|M].
  { apply IZR_le in M. split; [nra|intros E; exfalso; nra]. }
  assert (a = -1 \/ a = 0 \/ a = 1)%Z as [->|[->| ->]] by lia; (split; [lra|intros E]).
  - right. right. split; [auto|lra].
  - auto.
  - right. left. split; [auto|lra].
Qed.
Lemma grid_closest x : closest (periodic grid_box grid) x (3, 3) <-> 3 / 2 <= fst x <= 9 / 2 /\ 3 / 2 <= snd x <= 9 / 2.
Proof.
  split.
  - intros [_ C].
    assert (G : forall k l, Rsqr (fst x - 3) + Rsqr (snd x - 3) <= Rsqr (fst x - 3 * IZR k) + Rsqr (snd x - 3 * IZR l)).
    { intros k l. apply (distance_sq x (3, 3) (3 * IZR k, 3 * IZR l)). apply C, grid_all. eauto. }
    pose proof (G 0%Z 1%Z). pose proof (G 2%Z 1%Z). pose proof (G 1%Z 0%Z). pose proof (G 1%Z 2%Z). unfold Rsqr in *. lra.
  - intros [H1 H2]. split; [apply grid_all; exists 1%Z, 1%Z; f_equal; lra|]. intros q Q. apply grid_all in Q. destruct Q as (k & l & ->).
    apply distance_le. cbn [fst snd].
    destruct (in_square (k - 1) (fst x - 3)) as [A _]; [lra|]. destruct (in_square (l - 1) (snd x - 3)) as [B _]; [lra|].
    rewrite minus_IZR in A, B. unfold Rsqr. nra.
Qed.
Lemma closest_level S x p q : closest S x p -> S q -> Rsqr (fst x - fst q) + Rsqr (snd x - snd q) = Rsqr (fst x - fst p) + Rsqr (snd x - snd p) -> closest S x q.
Proof.
  intros [_ C] Q E. split; auto. intros w W. apply Rle_trans with (distance x p); [|auto]. apply distance_le. lra.
Qed.
Lemma grid_neighbours : has_neighbours grid_box grid 4 4.
Proof.
  exists (3, 3), [(0, 3); (6, 3); (3, 0); (3, 6)]. split; [reflexivity|]. split; [|split; [reflexivity|]].
  { repeat (constructor; [cbn [In]; intros H; repeat destruct H as [H|H]; try contradiction; injection H; intros; lra|]). constructor. }
  intros q. split.
  - assert (N : forall j p' x y, nth_error grid j = Some p' -> j <> 4%nat -> x <> y ->
        3 / 2 <= fst x <= 9 / 2 /\ 3 / 2 <= snd x <= 9 / 2 -> 3 / 2 <= fst y <= 9 / 2 /\ 3 / 2 <= snd y <= 9 / 2 -> (3, 3) <> p' ->
        Rsqr (fst x - fst p') + Rsqr (snd x - snd p') = Rsqr (fst x - 3) + Rsqr (snd x - 3) ->
        Rsqr (fst y - fst p') + Rsqr (snd y - snd p') = Rsqr (fst y - 3) + Rsqr (snd y - 3) -> neighbour grid_box grid 4 (3, 3) p').
    { intros j p' x y E J Nxy Hx Hy Np Ex Ey.
      assert (Pp : periodic grid_box grid p') by (exists p', 0%Z, 0%Z; split; [eapply nth_error_In; eauto|destruct p'; unfold shift; cbn; f_equal; lra]).
      apply grid_closest in Hx, Hy. split.
      - split; auto. exists x, y. split; auto. split; auto. split; [apply (closest_level _ _ (3, 3)); auto|]. split; [auto|]. apply (closest_level _ _ (3, 3)); auto.
      - exists j, p', 0%Z, 0%Z. split; auto. split; auto. destruct p'; unfold shift; cbn; f_equal; lra. }
    assert (Q : forall a b c d : R, a <> c \/ b <> d -> (a, b) <> (c, d)) by (intros a b c d H E; injection E; intros; destruct H; lra).
    intros I. cbn [In] in I. repeat destruct I as [<-|I]; try contradiction.
    + apply (N 1%nat _ (3 / 2, 2) (3 / 2, 4)); try reflexivity; try discriminate; try (apply Q); cbn [fst snd]; unfold Rsqr; lra.
    + apply (N 7%nat _ (9 / 2, 2) (9 / 2, 4)); try reflexivity; try discriminate; try (apply Q); cbn [fst snd]; unfold Rsqr; lra.
    + apply (N 3%nat _ (2, 3 / 2) (4, 3 / 2)); try reflexivity; try discriminate; try (apply Q); cbn [fst snd]; unfold Rsqr; lra.
    + apply (N 5%nat _ (2, 9 / 2) (4, 9 / 2)); try reflexivity; try discriminate; try (apply Q); cbn [fst snd]; unfold Rsqr; lra.
  - intros ((Nq & x & y & Nxy & X1 & X2 & Y1 & Y2) & _).
    assert (Pq : periodic grid_box grid q) by apply X2. apply grid_all in Pq. destruct Pq as (k & l & ->).
    assert (G : forall x, closest (periodic grid_box grid) x (3, 3) -> closest (periodic grid_box grid) x (3 * IZR k, 3 * IZR l) ->
        ((k = 1)%Z \/ (k = 2)%Z /\ fst x = 9 / 2 \/ (k = 0)%Z /\ fst x = 3 / 2) /\ ((l = 1)%Z \/ (l = 2)%Z /\ snd x = 9 / 2 \/ (l = 0)%Z /\ snd x = 3 / 2)).
    { intros z Z1 Z2. assert (E : Rsqr (fst z - 3 * IZR k) + Rsqr (snd z - 3 * IZR l) = Rsqr (fst z - 3) + Rsqr (snd z - 3)).
      { apply Rle_antisym; [apply (distance_sq z (3 * IZR k, 3 * IZR l) (3, 3)); apply Z2, Z1|apply (distance_sq z (3, 3) (3 * IZR k, 3 * IZR l)); apply Z1, Z2]. }
      apply grid_closest in Z1. destruct Z1 as [H1 H2].
      destruct (in_square (k - 1) (fst z - 3)) as [A A']; [lra|]. destruct (in_square (l - 1) (snd z - 3)) as [B B']; [lra|].
      rewrite minus_IZR in *. unfold Rsqr in E.
      assert (EA : (IZR k - 1) * (fst z - 3) = 3 / 2 * ((IZR k - 1) * (IZR k - 1))) by nra.
      assert (EB : (IZR l - 1) * (snd z - 3) = 3 / 2 * ((IZR l - 1) * (IZR l - 1))) by nra.
      specialize (A' EA). specialize (B' EB). split.
      - destruct A' as [A'|[[A' A'']|[A' A'']]]; [left; lia|right; left; split; [lia|lra]|right; right; split; [lia|lra]].
      - destruct B' as [B'|[[B' B'']|[B' B'']]]; [left; lia|right; left; split; [lia|lra]|right; right; split; [lia|lra]]. }
    destruct (G x X1 X2) as [Gx Gx'], (G y Y1 Y2) as [Gy Gy']. clear G.
    assert (Eq : fst x = fst y -> snd x = snd y -> False) by (intros E1 E2; apply Nxy; destruct x, y; cbn [fst snd] in *; subst; reflexivity).
    destruct Gx as [->|[[-> Gx]|[-> Gx]]], Gx' as [->|[[-> Gx']|[-> Gx']]]; cbn [In].
    1: exfalso; apply Nq; f_equal; lra.
    1: do 3 right; left; f_equal; lra.
    1: do 2 right; left; f_equal; lra.
    1: right; left; f_equal; lra.
    3: left; f_equal; lra.
    all: exfalso; apply Eq; [destruct Gy as [Gy|[[Gy ?]|[Gy ?]]]; try discriminate; lra|destruct Gy' as [Gy'|[[Gy' ?]|[Gy' ?]]]; try discriminate; lra].
Qed.
Lemma one_number b pos i n m : has_neighbours b pos i n -> has_neighbours b pos i m -> n = m.
Proof.
  intros (p & l & E & N & L & H) (p' & l' & E' & N' & L' & H'). assert (p' = p) by congruence. subst p' n m.
  apply Nat.le_antisymm; (apply NoDup_incl_length; [auto|]); intros q I; [apply H', H|apply H, H']; auto.
Qed.
(** The molecule in the middle of the grid has the four neighbours. *)
Example C208_example : (exists ridges, divides (map snd grid_points) ridges) /\
  forall ridges, divides (map snd grid_points) ridges -> nth_error (compute_voronoi_neighs grid grid_points ridges) 4 = Some 4%nat.
Proof.
  split; [apply ridges_exist|]. intros ridges D.
  destruct (C208_voronoi_partial grid_box grid (22 / 10) grid_points ridges 4 grid_separate grid_dense ltac:(lra) grid_images D ltac:(cbn; lia)) as (n & E & H).
  rewrite E. f_equal. apply (one_number grid_box grid 4); auto using grid_neighbours.
Qed.

(** ** Five molecules close together in a large box *)
Definition wide_box : sheet := {| Lx := 100; Ly := 100; tilt := 0 |}.
Definition cluster : list point := [(1, 0); (0, 0); (0, 1); (0, -1); (-1, 0)].
Definition cluster_points : list (nat * point) := combine (seq 0 5) cluster.
Lemma cluster_near p : In p cluster -> -1 <= fst p <= 1 /\ -1 <= snd p <= 1.
Proof. intros K. cbn [cluster In] in K. repeat destruct K as [<-|K]; try contradiction; cbn [fst snd]; lra. Qed.
Lemma cluster_nodup : NoDup cluster.
Proof. unfold cluster. repeat (constructor; [cbn [In]; intros H; repeat destruct H as [H|H]; try contradiction; injection H; intros; lra|]). constructor. Qed.
Lemma cluster_separate : separate wide_box cluster.
Proof.
  apply separate_box; cbn [Lx Ly tilt wide_box]; try lra; [apply cluster_nodup|].
  intros p q I J. apply cluster_near in I, J. split; apply Rabs_def1; lra.
Qed.
Lemma cluster_images : buffered wide_box cluster 5 cluster_points.
Proof.
  split; [|split; [|split]].
  - intros i p E. do 5 (destruct i as [|i]; [injection E as <-; reflexivity|]). destruct i; discriminate.
  - intros k q I. exists q, 0%Z, 0%Z. split; [|destruct q; unfold shift; cbn; f_equal; lra].
    cbn [cluster_points combine seq cluster In] in I. repeat destruct I as [I|I]; try contradiction; injection I as <- <-; reflexivity.
  - apply cluster_nodup.
  - intros p q Ip (p' & i & j & Ip' & ->) Dq. apply distance_parts in Dq. destruct Dq as [D1 D2].
    pose proof (cluster_near p Ip). pose proof (cluster_near p' Ip'). unfold shift in D1, D2. cbn [fst snd Lx Ly tilt wide_box] in D1, D2. apply Rabs_def2 in D1, D2.
    assert (I1 : (-1 < i < 1)%Z) by (split; apply lt_IZR; lra). assert (J1 : (-1 < j < 1)%Z) by (split; apply lt_IZR; lra).
    assert (i = 0%Z) by lia. assert (j = 0%Z) by lia. subst i j.
    replace (shift wide_box 0 0 p') with p' by (destruct p'; unfold shift; cbn; f_equal; lra). exact Ip'.
Qed.
Definition apart (x p : point) : R := (fst x - fst p) * (fst x - fst p) + (snd x - snd p) * (snd x - snd p).
Lemma cluster_closest x p : periodic wide_box cluster p -> -1 <= fst x <= 50 -> -1 <= snd x <= 1 -> apart x p <= 9604 ->
  (forall q, In q cluster -> apart x p <= apart x q /\ apart x p <= apart x (fst q + 100, snd q)) -> closest (periodic wide_box cluster) x p.
Proof.
  intros P H1 H2 Far C. split; auto. intros q (p' & i & j & I & ->). apply distance_le. change (apart x p <= apart x (shift wide_box i j p')).
  destruct (C p' I) as [C0 C1]. pose proof (cluster_near p' I) as Np.
  destruct (Z.eq_dec j 0) as [->|Nj].
  - destruct (Z.eq_dec i 0) as [->|Ni]; [replace (shift wide_box 0 0 p') with p' by (destruct p'; unfold shift; cbn; f_equal; lra); auto|].
    destruct (Z.eq_dec i 1) as [->|Ni']; [replace (shift wide_box 1 0 p') with (fst p' + 100, snd p') by (unfold shift; cbn; f_equal; lra); auto|].
    apply Rle_trans with 9604; auto. unfold apart, shift. cbn [fst snd Lx Ly tilt wide_box].
    assert (98 <= fst p' + IZR i * 100 + 0 * (0 * 100) - fst x \/ 98 <= fst x - (fst p' + IZR i * 100 + 0 * (0 * 100))) as [K|K].
    { destruct (Z_le_gt_dec i 0) as [L|L].
      - assert (L' : (i <= -1)%Z) by lia. apply IZR_le in L'. right. lra.
      - assert (L' : (2 <= i)%Z) by lia. apply IZR_le in L'. left. lra. }
    all: pose proof (Rle_0_sqr (snd x - (snd p' + 0 * 100))); unfold Rsqr in *; nra.
  - apply Rle_trans with 9604; auto. unfold apart, shift. cbn [fst snd Lx Ly tilt wide_box].
    assert (98 <= snd p' + IZR j * 100 - snd x \/ 98 <= snd x - (snd p' + IZR j * 100)) as [K|K].
    { destruct (Z_le_gt_dec j 0) as [L|L].
      - assert (L' : (j <= -1)%Z) by lia. apply IZR_le in L'. right. lra.
      - assert (L' : (1 <= j)%Z) by lia. apply IZR_le in L'. left. lra. }
    all: pose proof (Rle_0_sqr (fst x - (fst p' + IZR i * 100 + IZR j * (0 * 100)))); unfold Rsqr in *; nra.
Qed.
Ltac on_cluster := first [assumption|cbn [fst snd]; lra|unfold apart; cbn [fst snd]; lra
  |intros q I; cbn [cluster In] in I; repeat destruct I as [<-|I]; try contradiction; unfold apart; cbn [fst snd]; lra].
Lemma cluster_neighbour q x y j p' i : nth_error cluster j = Some p' -> j <> 0%nat -> q = shift wide_box i 0 p' ->
  (1, 0) <> q -> x <> y -> closest (periodic wide_box cluster) x (1, 0) -> closest (periodic wide_box cluster) y (1, 0) ->
  apart x q = apart x (1, 0) -> apart y q = apart y (1, 0) -> neighbour wide_box cluster 0 (1, 0) q.
Proof.
  intros E J Q N Nxy X Y Ex Ey. assert (P : periodic wide_box cluster q) by (exists p', i, 0%Z; split; [eapply nth_error_In; eauto|auto]).
  split; [|exists j, p', i, 0%Z; auto]. split; auto. exists x, y. split; auto. split; auto.
  split; [apply (closest_level _ _ (1, 0)); auto|]. split; auto. apply (closest_level _ _ (1, 0)); auto.
Qed.
(** The first molecule: its cell reaches up to the cell of the image of the last one. *)
Lemma cluster_neighbours n : has_neighbours wide_box cluster 0 n -> (4 <= n)%nat.
Proof.
  intros (p & l & E & N & L & H). injection E as <-. subst n.
  assert (P0 : periodic wide_box cluster (1, 0)) by (exists (1, 0), 0%Z, 0%Z; split; [left; auto|unfold shift; cbn; f_equal; lra]).
  assert (Q : forall a b c d : R, a <> c \/ b <> d -> (a, b) <> (c, d)) by (intros a b c d K E; injection E; intros; destruct K; lra).
  change 4%nat with (length [(0, 0); (0, 1); (0, -1); (99, 0)] : nat).
  apply NoDup_incl_length.
  { repeat (constructor; [cbn [In]; intros K; repeat destruct K as [K|K]; try contradiction; injection K; intros; lra|]). constructor. }
  intros q I. apply H. cbn [In] in I. repeat destruct I as [<-|I]; try contradiction.
  - apply (cluster_neighbour _ (1 / 2, 1 / 4) (1 / 2, - (1 / 4)) 1 (0, 0) 0); try reflexivity; try discriminate; try (apply Q; lra);
      try (unfold shift; cbn; f_equal; lra); try (apply cluster_closest; on_cluster); unfold apart; cbn [fst snd]; lra.
  - apply (cluster_neighbour _ (6 / 10, 6 / 10) (7 / 10, 7 / 10) 2 (0, 1) 0); try reflexivity; try discriminate; try (apply Q; lra);
      try (unfold shift; cbn; f_equal; lra); try (apply cluster_closest; on_cluster); unfold apart; cbn [fst snd]; lra.
  - apply (cluster_neighbour _ (6 / 10, - (6 / 10)) (7 / 10, - (7 / 10)) 3 (0, -1) 0); try reflexivity; try discriminate; try (apply Q; lra);
      try (unfold shift; cbn; f_equal; lra); try (apply cluster_closest; on_cluster); unfold apart; cbn [fst snd]; lra.
  - apply (cluster_neighbour _ (50, 1 / 4) (50, - (1 / 4)) 4 (-1, 0) 1); try reflexivity; try discriminate; try (apply Q; lra);
      try (unfold shift; cbn; f_equal; lra); try (apply cluster_closest; on_cluster); unfold apart; cbn [fst snd]; lra.
Qed.
Lemma cluster_counted ridges : divides (map snd cluster_points) ridges ->
  exists n, nth_error (compute_voronoi_neighs cluster cluster_points ridges) 0 = Some n /\ (n <= 3)%nat.
Proof.
  intros [N V]. eexists. split; [reflexivity|]. set (F := filter _ _).
  assert (NF : NoDup F) by (apply NoDup_filter; auto).
  change 3%nat with (length [(0, 1); (0, 2); (0, 3)]%nat). apply NoDup_incl_length; auto.
  intros [a c] I. apply filter_In in I. destruct I as [I J]. apply V in I. destruct I as (L & p & q & A & C & E).
  assert (La : (c < 5)%nat) by (change 5%nat with (length (map snd cluster_points)); apply nth_error_Some; rewrite C; discriminate).
  assert (a = 0%nat).
  { unfold leads in J. cbn [fst snd] in J. apply orb_true_iff in J. destruct J as [J|J]; apply andb_true_iff in J; destruct J as [J _]; apply Nat.eqb_eq in J; lia. }
  subst a. injection A as <-. assert (c = 1 \/ c = 2 \/ c = 3 \/ c = 4)%nat as [->|[->|[->| ->]]] by lia; cbn [In]; auto.
  exfalso. injection C as <-. destruct E as (_ & x & _ & _ & X1 & X2 & _).
  assert (O : In ((0, 0) : point) (map snd cluster_points)) by (right; left; reflexivity).
  pose proof (distance_sq _ _ _ (proj2 X1 _ (proj1 X2))) as D1. pose proof (distance_sq _ _ _ (proj2 X2 _ (proj1 X1))) as D2.
  pose proof (distance_sq _ _ _ (proj2 X1 _ O)) as D3. cbn [fst snd] in D1, D2, D3. unfold Rsqr in *. lra.
Qed.
(** Where the box has an empty part the counts are not those of the periodic configuration, although the buffer contains all that it should. *)
Theorem C208_sparse_refuted : exists b pos expanded ridges i,
  separate b pos /\ buffered b pos 5 expanded /\ divides (map snd expanded) ridges /\ (i < length pos)%nat /\
  ~ exists n, nth_error (compute_voronoi_neighs pos expanded ridges) i = Some n /\ has_neighbours b pos i n.
Proof.
  destruct (ridges_exist (map snd cluster_points)) as (ridges & D).
  exists wide_box, cluster, cluster_points, ridges, 0%nat. split; [apply cluster_separate|]. split; [apply cluster_images|]. split; [auto|]. split; [cbn; lia|].
  intros (n & E & H). destruct (cluster_counted ridges D) as (m & E' & L). apply cluster_neighbours in H. assert (n = m) by congruence. lia.
Qed.
Print Assumptions C208_sparse_refuted.
