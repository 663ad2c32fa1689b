(** C209: the ordering by the number of neighbours does not depend on origin, periodic images and
    the numbering of the particles, and each particle is called ordered that has this number of
    neighbours. *)
From Coq Require Import Reals ZArith List Bool Arith Lia Lra.
From Verif Require Import VoronoiModel VoronoiSpec NeighMoveSpec VoronoiProps.
Import ListNotations.
Open Scope R_scope.

Definition go (v p : point) : point := (fst p + fst v, snd p + snd v).
Lemma go_back v p : go (- fst v, - snd v) (go v p) = p.
Proof. destruct p, v. unfold go. cbn [fst snd]. f_equal; lra. Qed.
Lemma back_go v p : go v (go (- fst v, - snd v) p) = p.
Proof. destruct p, v. unfold go. cbn [fst snd]. f_equal; lra. Qed.
Lemma go_inj v p q : go v p = go v q -> p = q.
Proof. intros E. rewrite <- (go_back v p), <- (go_back v q), E. reflexivity. Qed.
Lemma go_distance v p q : distance (go v p) (go v q) = distance p q.
Proof. unfold distance, dist_euc, go. cbn [fst snd]. f_equal. unfold Rsqr. ring. Qed.
Lemma closest_go (S S' : point -> Prop) v x p : (forall q, S q <-> S' (go v q)) -> closest S x p -> closest S' (go v x) (go v p).
Proof.
  intros H [A B]. split; [apply H; auto|]. intros q Q. rewrite <- (back_go v q) in *. apply H in Q. rewrite !go_distance. auto.
Qed.
Lemma edge_go (S S' : point -> Prop) v p q : (forall q, S q <-> S' (go v q)) -> edge S p q -> edge S' (go v p) (go v q).
Proof.
  intros H (N & x & y & Nxy & A & B & C & D). split; [intros E; apply N, (go_inj v); auto|]. exists (go v x), (go v y).
  split; [intros E; apply Nxy, (go_inj v); auto|]. repeat split; try (apply (closest_go S S' v); auto).
  all: try (apply H; first [apply A|apply B|apply C|apply D]).
  all: eapply closest_go; eauto.
Qed.
Lemma edge_back (S S' : point -> Prop) v p q : (forall q, S q <-> S' (go v q)) -> edge S' (go v p) (go v q) -> edge S p q.
Proof.
  intros H E. rewrite <- (go_back v p), <- (go_back v q). apply (edge_go S' S); auto. intros w. rewrite (H (go _ w)), back_go. tauto.
Qed.
Lemma shift_shift b i j k l p : shift b i j (shift b k l p) = shift b (i + k) (j + l) p.
Proof. unfold shift. cbn [fst snd]. rewrite !plus_IZR. f_equal; ring. Qed.
Lemma shift_go b i j v p : shift b i j (go v p) = go v (shift b i j p).
Proof. unfold shift, go. cbn [fst snd]. f_equal; ring. Qed.
Lemma shift_is_go b i j p q : shift b i j p = go (fst (shift b i j q) - fst q, snd (shift b i j q) - snd q) p.
Proof. unfold shift, go. cbn [fst snd]. f_equal; ring. Qed.
Lemma shift_0 b p : shift b 0 0 p = p.
Proof. destruct p. unfold shift. cbn [fst snd]. f_equal; ring. Qed.

Section Moved.
  Variables (b : sheet) (t : point) (f : nat -> nat) (pos pos' : list point).
  Hypothesis M : moved b t f pos pos'.

  Lemma f_small i : (i < length pos)%nat -> (f i < length pos')%nat.
  Proof.
    intros H. destruct M as (_ & _ & P). destruct (nth_error pos i) as [p|] eqn:E; [|apply nth_error_None in E; lia].
    destruct (P i p E) as (k & l & E'). apply nth_error_Some. rewrite E'. discriminate.
  Qed.
  Lemma f_onto j : (j < length pos')%nat -> exists i, (i < length pos)%nat /\ f i = j.
  Proof.
    intros H. destruct M as (L & I & _).
    assert (X : incl (seq 0 (length pos)) (map f (seq 0 (length pos)))).
    { apply NoDup_length_incl.
      - apply map_nodup_on; [|apply seq_NoDup]. intros x y X Y. apply in_seq in X, Y. apply I; lia.
      - rewrite map_length. auto.
      - intros x X. apply in_map_iff in X. destruct X as (y & <- & Y). apply in_seq in Y. apply in_seq. pose proof (f_small y). lia. }
    specialize (X j). rewrite in_seq, in_map_iff in X. destruct X as (i & E & Hi); [lia|]. apply in_seq in Hi. exists i. split; [lia|auto].
  Qed.
  Lemma moved_back j p' : nth_error pos' j = Some p' -> exists i p k l, nth_error pos i = Some p /\ f i = j /\ p' = shift b k l (go t p).
  Proof.
    intros E. destruct (f_onto j) as (i & Hi & <-); [apply nth_error_Some; rewrite E; discriminate|].
    destruct (nth_error pos i) as [p|] eqn:Ei; [|apply nth_error_None in Ei; lia]. destruct M as (_ & _ & P). destruct (P i p Ei) as (k & l & E').
    exists i, p, k, l. split; [auto|]. split; [auto|]. unfold go. congruence.
  Qed.
  Lemma periodic_moved k l q : periodic b pos q <-> periodic b pos' (shift b k l (go t q)).
  Proof.
    split.
    - intros (p & i & j & I & ->). apply In_nth_error in I. destruct I as (a & A). destruct M as (_ & _ & P). destruct (P a p A) as (k' & l' & E).
      exists (shift b k' l' (go t p)), (k + i - k')%Z, (l + j - l')%Z. split; [eapply nth_error_In; exact E|].
      rewrite !shift_shift, <- shift_go, shift_shift. f_equal; lia.
    - intros (p' & i & j & I & E). apply In_nth_error in I. destruct I as (c & C). destruct (moved_back c p' C) as (a & p & k' & l' & A & _ & ->).
      exists p, (i + k' - k)%Z, (j + l' - l)%Z. split; [eapply nth_error_In; eauto|]. apply (go_inj t).
      rewrite <- shift_go. apply (f_equal (shift b (- k) (- l))) in E. rewrite !shift_shift in E.
      replace (- k + k)%Z with 0%Z in E by lia. replace (- l + l)%Z with 0%Z in E by lia. rewrite shift_0 in E. rewrite E. f_equal; lia.
  Qed.
  Lemma dense_moved r : dense b pos r -> dense b pos' r.
  Proof.
    intros D x. destruct (D (go (- fst t, - snd t) x)) as (q & Q & H). exists (go t q). split.
    - rewrite <- (shift_0 b (go t q)). apply (periodic_moved 0 0). auto.
    - rewrite <- (back_go t x), go_distance. auto.
  Qed.
  Lemma separate_moved : separate b pos -> separate b pos'.
  Proof.
    intros Se i j p q k l k' l' Ei Ej E. destruct (moved_back i p Ei) as (a & p0 & k1 & l1 & A & <- & ->), (moved_back j q Ej) as (c & q0 & k2 & l2 & C & <- & ->).
    rewrite !shift_shift, !shift_go in E. apply go_inj in E. destruct (Se _ _ _ _ _ _ _ _ A C E) as (-> & H1 & H2). split; [auto|].
    assert (p0 = q0) by congruence. subst q0. assert (X : shift b k1 l1 (go t p0) = shift b k2 l2 (go t p0)) by congruence.
    destruct (Se c c p0 p0 k1 l1 k2 l2 A A) as (_ & -> & ->); [|lia].
    apply (go_inj t). rewrite <- !shift_go. exact X.
  Qed.
  Lemma neighbours_moved i n : has_neighbours b pos i n -> has_neighbours b pos' (f i) n.
  Proof.
    intros (p & m & E & N & L & H). destruct M as (Le & I & P). destruct (P i p E) as (k & l & E').
    assert (Hi : (i < length pos)%nat) by (apply nth_error_Some; rewrite E; discriminate).
    set (g := fun q => shift b k l (go t q)).
    assert (G : exists v, forall q, g q = go v q).
    { exists (fst (g (0, 0)), snd (g (0, 0))). intros q. unfold g, shift, go. cbn [fst snd]. f_equal; ring. }
    destruct G as (v & G).
    assert (PP : forall q, periodic b pos q <-> periodic b pos' (go v q)) by (intros q; rewrite <- G; apply periodic_moved).
    exists (g p), (map g m). split; [exact E'|]. split; [|split; [rewrite map_length; auto|]].
    - apply map_nodup_on; auto. intros x y _ _ X. rewrite !G in X. apply go_inj in X. auto.
    - intros q. rewrite in_map_iff. split.
      + intros (w & <- & W). apply H in W. destruct W as (Ed & j & p' & a & c & Ej & Nj & ->). split; [rewrite !G; apply (edge_go (periodic b pos)); auto|].
        destruct (P j p' Ej) as (a' & c' & Ej'). exists (f j), (shift b a' c' (go t p')), (k + a - a')%Z, (l + c - c')%Z. split; [exact Ej'|].
        split; [|unfold g; rewrite <- shift_go, !shift_shift; f_equal; lia]. intros X. apply Nj, I; auto. apply nth_error_Some. rewrite Ej. discriminate.
      + intros (Ed & j & p' & a & c & Ej & Nj & ->). destruct (moved_back j p' Ej) as (j0 & p0 & a' & c' & Ej0 & <- & ->).
        exists (shift b (a + a' - k) (c + c' - l) p0).
        assert (Eg : g (shift b (a + a' - k) (c + c' - l) p0) = shift b a c (shift b a' c' (go t p0))) by (unfold g; rewrite <- shift_go, !shift_shift; f_equal; lia).
        split; [exact Eg|]. apply H. split.
        * rewrite <- Eg, !G in Ed. apply (edge_back _ _ v _ _ PP). auto.
        * exists j0, p0, (a + a' - k)%Z, (c + c' - l)%Z. split; [auto|]. split; [intros ->; auto|auto].
  Qed.
End Moved.

Lemma ordering_nth m pos e r i : nth_error (create_neigh_ordering m pos e r) i = option_map (fun n => (Z.of_nat n =? m)%Z) (nth_error (compute_voronoi_neighs pos e r) i).
Proof.
  unfold create_neigh_ordering. generalize (compute_voronoi_neighs pos e r). intros l. revert i. induction l; intros [|i]; cbn; auto.
Qed.
Theorem C209_counted m b pos r expanded ridges i :
  separate b pos -> dense b pos r -> 2 * r < 5 -> buffered b pos 5 expanded -> divides (map snd expanded) ridges -> (i < length pos)%nat ->
  exists n, has_neighbours b pos i n /\ (forall n', has_neighbours b pos i n' -> n' = n) /\
    nth_error (create_neigh_ordering m pos expanded ridges) i = Some (Z.of_nat n =? m)%Z.
Proof.
  intros Se D Hr B V Hi. destruct (C208_voronoi_partial b pos r expanded ridges i Se D Hr B V Hi) as (n & E & H).
  exists n. split; auto. split; [intros n' H'; apply (one_number b pos i); auto|]. rewrite ordering_nth, E. reflexivity.
Qed.
Print Assumptions C209_counted.
Theorem C209_moved m b t f pos pos' r expanded expanded' ridges ridges' i :
  separate b pos -> dense b pos r -> 2 * r < 5 -> moved b t f pos pos' ->
  buffered b pos 5 expanded -> divides (map snd expanded) ridges ->
  buffered b pos' 5 expanded' -> divides (map snd expanded') ridges' -> (i < length pos)%nat ->
  nth_error (create_neigh_ordering m pos' expanded' ridges') (f i) = nth_error (create_neigh_ordering m pos expanded ridges) i.
Proof.
  intros Se D Hr M B V B' V' Hi.
  destruct (C209_counted m b pos r expanded ridges i Se D Hr B V Hi) as (n & H & _ & ->).
  destruct (C209_counted m b pos' r expanded' ridges' (f i) (separate_moved _ _ _ _ _ M Se) (dense_moved _ _ _ _ _ M r D) Hr B' V' (f_small _ _ _ _ _ M i Hi)) as (n' & _ & U & ->).
  rewrite (U n); auto. eapply neighbours_moved; eauto.
Qed.
Print Assumptions C209_moved.

(** ** The buffer of a rectangular box: its eight neighbours *)
Definition around : list (Z * Z) := [(-1, -1); (-1, 0); (-1, 1); (0, -1); (0, 1); (1, -1); (1, 0); (1, 1)]%Z.
Definition images (b : sheet) (pos : list point) : list (nat * point) :=
  let own := combine (seq 0 (length pos)) pos in
  own ++ flat_map (fun ij => map (fun e => (fst e, shift b (fst ij) (snd ij) (snd e))) own) around.
Lemma nodup_app {A} (l m : list A) : NoDup l -> NoDup m -> (forall x, In x l -> ~ In x m) -> NoDup (l ++ m).
Proof.
  intros Nl Nm H. induction Nl as [|x l Nx Nl IH]; cbn [app]; auto. constructor.
  - intros I. apply in_app_or in I. destruct I as [I|I]; [auto|]. apply (H x); [left; auto|auto].
  - apply IH. intros y I. apply H. right; auto.
Qed.
Lemma combine_nth {A} (l : list A) s k q : In (k, q) (combine (seq s (length l)) l) <-> exists i, k = (s + i)%nat /\ nth_error l i = Some q.
Proof.
  revert s. induction l as [|x l IH]; intros s; cbn [length seq combine In].
  - split; [tauto|]. intros ([|i] & _ & E); discriminate.
  - rewrite IH. split.
    + intros [E|(i & -> & E)]; [injection E as <- <-; exists 0%nat; split; [lia|auto]|exists (S i); split; [lia|auto]].
    + intros ([|i] & -> & E); cbn in E; [left; injection E as <-; f_equal; lia|right; exists i; split; [lia|auto]].
Qed.
Lemma combine_first {A} (l : list A) s i q : nth_error l i = Some q -> nth_error (combine (seq s (length l)) l) i = Some ((s + i)%nat, q).
Proof.
  revert s i. induction l as [|x l IH]; intros s [|i] E; try discriminate; cbn in *; [injection E as <-; do 2 f_equal; lia|].
  rewrite IH by auto. do 2 f_equal. lia.
Qed.
Lemma snd_combine {A} (l : list A) s : map snd (combine (seq s (length l)) l) = l.
Proof. revert s. induction l; intros s; cbn; [auto|f_equal; auto]. Qed.
Lemma images_buffered b (pos : list point) : 5 <= Lx b -> 5 <= Ly b -> tilt b = 0 -> NoDup pos ->
  (forall p q, In p pos -> In q pos -> Rabs (fst p - fst q) < Lx b /\ Rabs (snd p - snd q) < Ly b) -> buffered b pos 5 (images b pos).
Proof.
  intros Hx Hy Ht N W. assert (Se : separate b pos) by (apply separate_box; auto; lra).
  set (own := combine (seq 0 (length pos)) pos).
  assert (Own : forall k q, In (k, q) own <-> nth_error pos k = Some q).
  { intros k q. unfold own. rewrite combine_nth. split; [intros (i & -> & E); auto|intros E; exists k; auto]. }
  assert (Lo : length own = length pos) by (unfold own; rewrite combine_length, seq_length; lia).
  split; [|split; [|split]].
  - intros i p E. unfold images. cbv zeta. fold own. rewrite nth_error_app1 by (rewrite Lo; apply nth_error_Some; rewrite E; discriminate).
    unfold own. rewrite (combine_first pos 0 i p E). reflexivity.
  - intros k q I. unfold images in I. cbv zeta in I. fold own in I. apply in_app_or in I. destruct I as [I|I].
    + exists q, 0%Z, 0%Z. rewrite shift_0. split; [apply Own; auto|auto].
    + apply in_flat_map in I. destruct I as ([i j] & _ & I). apply in_map_iff in I. destruct I as ([k' p] & E & I). injection E as <- <-.
      exists p, i, j. split; [apply Own; auto|auto].
  - assert (X : map snd (images b pos) = flat_map (fun ij => map (shift b (fst ij) (snd ij)) pos) ((0, 0)%Z :: around)).
    { unfold images. cbv zeta. fold own. rewrite map_app. cbn [flat_map fst snd]. f_equal.
      - unfold own. rewrite snd_combine, <- (map_id pos) at 1. apply map_ext. intros p. rewrite shift_0. auto.
      - induction around as [|ij l IH]; cbn [flat_map map]; auto. rewrite map_app, IH. f_equal. rewrite map_map.
        rewrite <- (snd_combine pos 0) at 1. fold own. rewrite map_map. reflexivity. }
    rewrite X. clear X. assert (Na : NoDup ((0, 0)%Z :: around)) by (unfold around; repeat (constructor; [cbn [In]; intuition discriminate|]); constructor).
    induction Na as [|ij l Nij Nl IH]; cbn [flat_map]; [constructor|]. apply nodup_app; auto.
    + apply map_nodup_on; auto. intros p q Ip Iq E. apply In_nth_error in Ip, Iq. destruct Ip as (a & A), Iq as (c & C).
      destruct (Se _ _ _ _ _ _ _ _ A C E) as (-> & _). congruence.
    + intros q I J. apply in_map_iff in I. destruct I as (p & <- & Ip). apply in_flat_map in J. destruct J as (ij' & Ij & J). apply in_map_iff in J. destruct J as (p' & E & Ip').
      apply In_nth_error in Ip, Ip'. destruct Ip as (a & A), Ip' as (c & C). destruct (Se _ _ _ _ _ _ _ _ C A E) as (_ & H1 & H2).
      apply Nij. replace ij with ij'; auto. destruct ij, ij'; cbn in *; congruence.
  - intros p q Ip (p' & i & j & Ip' & ->) Dq. apply distance_parts in Dq. destruct Dq as [D1 D2].
    destruct (W p p' Ip Ip') as [W1 W2]. unfold shift in D1, D2. cbn [fst snd] in D1, D2. rewrite Ht in D1.
    apply Rabs_def2 in D1, D2, W1, W2.
    assert (Small : forall (m : Z) L d, 5 <= L -> -L < d < L -> -5 < d - IZR m * L < 5 -> (-2 < m < 2)%Z).
    { intros m L d HL Hd Hm. destruct (Z_le_gt_dec m (-2)) as [G|G]; [exfalso; apply IZR_le in G; nra|].
      destruct (Z_le_gt_dec 2 m) as [G'|G']; [exfalso; apply IZR_le in G'; nra|lia]. }
    pose proof (Small i (Lx b) (fst p - fst p') Hx ltac:(lra) ltac:(lra)) as I1. pose proof (Small j (Ly b) (snd p - snd p') Hy ltac:(lra) ltac:(lra)) as J1.
    apply In_nth_error in Ip'. destruct Ip' as (k & Ek). apply Own in Ek. apply in_map_iff. exists (k, shift b i j p'). split; [auto|].
    unfold images. cbv zeta. fold own. apply in_or_app.
    assert ((i, j) = (0, 0)%Z \/ In (i, j) around) as [E|E].
    { unfold around. cbn [In]. assert (i = -1 \/ i = 0 \/ i = 1)%Z as [->|[->| ->]] by lia; assert (j = -1 \/ j = 0 \/ j = 1)%Z as [->|[->| ->]] by lia; tauto. }
    + injection E as -> ->. left. rewrite shift_0. auto.
    + right. apply in_flat_map. exists (i, j). split; auto. apply in_map_iff. exists (k, p'). auto.
Qed.

(** ** The grid of VoronoiProps.v, moved by (5, -2), back in the box, and numbered row by row *)
Definition grid_name (i : nat) : nat := ((i mod 3) * 3 + i / 3)%nat.
Definition grid' : list point := [(-4, -2); (-1, -2); (2, -2); (-4, 1); (-1, 1); (2, 1); (-4, 4); (-1, 4); (2, 4)].
Lemma grid_moved : moved grid_box (5, -2) grid_name grid grid'.
Proof.
  split; [reflexivity|]. split.
  - intros i j Hi Hj. cbn in Hi, Hj. do 9 (destruct i as [|i]; [do 9 (destruct j as [|j]; [vm_compute; intros; congruence|]); lia|]). lia.
  - intros i p E. exists (-1)%Z, 0%Z.
    do 9 (destruct i as [|i]; [injection E as <-; match goal with |- context [grid_name ?n] => let v := eval vm_compute in (grid_name n) in change (grid_name n) with v end;
      cbn [nth_error grid']; f_equal; unfold shift; cbn [fst snd Lx Ly tilt grid_box]; f_equal; lra|]). destruct i; discriminate.
Qed.
Lemma grid_images' : buffered grid_box grid' 5 (images grid_box grid').
Proof.
  apply images_buffered; cbn [Lx Ly tilt grid_box]; try lra.
  - unfold grid'. repeat (constructor; [cbn [In]; intros H; repeat destruct H as [H|H]; try contradiction; injection H; intros; lra|]). constructor.
  - intros p q I J. assert (G : forall p, In p grid' -> -4 <= fst p <= 2 /\ -2 <= snd p <= 4) by (intros w K; cbn [grid' In] in K; repeat destruct K as [<-|K]; try contradiction; cbn [fst snd]; lra).
    apply G in I, J. split; apply Rabs_def1; lra.
Qed.
Example C209_example : (exists ridges', divides (map snd (images grid_box grid')) ridges') /\
  forall ridges', divides (map snd (images grid_box grid')) ridges' ->
    nth_error (create_neigh_ordering 4 grid' (images grid_box grid') ridges') 4 = Some true /\
    nth_error (create_neigh_ordering 6 grid' (images grid_box grid') ridges') 4 = Some false.
Proof.
  split; [apply ridges_exist|]. intros ridges' D'. destruct (ridges_exist (map snd grid_points)) as (ridges & D).
  assert (G : forall m, nth_error (create_neigh_ordering m grid' (images grid_box grid') ridges') 4 = Some (4 =? m)%Z).
  { intros m. change 4%nat with (grid_name 4) at 1.
    rewrite (C209_moved m grid_box (5, -2) grid_name grid grid' (22 / 10) grid_points (images grid_box grid') ridges ridges' 4
      grid_separate grid_dense ltac:(lra) grid_moved grid_images D grid_images' D' ltac:(cbn; lia)).
    rewrite ordering_nth, (proj2 C208_example ridges D). reflexivity. }
  split; apply G.
Qed.
