(** Lemmas about the tables of relaxations. *)
From Coq Require Import String ZArith QArith Qfield List Bool Lia Lqa.
From Verif Require Import Base XNum RelaxationModel RelaxTableModel RelaxTableSpec.
Import ListNotations.
Open Scope Q_scope.

Lemma cell_eqb_iff a b : cell_eqb a b = true <-> same_cell a b.
Proof.
  destruct a as [|q|s], b as [|r|t]; simpl; try (split; [discriminate|intros H; inversion H]).
  - rewrite Qeq_bool_iff. split; [constructor; auto|intros H; inversion H; auto].
  - rewrite String.eqb_eq. split; [intros ->; constructor|intros H; inversion H; auto].
Qed.
Lemma key_eqb_iff a b : key_eqb a b = true <-> same_key a b.
Proof.
  destruct a as [[a1 a2] a3], b as [[b1 b2] b3]. simpl. rewrite !andb_true_iff, !cell_eqb_iff. tauto.
Qed.
Lemma key_eqb_false a b : key_eqb a b = false <-> ~ same_key a b.
Proof. rewrite <- key_eqb_iff. destruct (key_eqb a b); split; intros; try congruence; exfalso; auto. Qed.

Lemma same_cell_sym a b : same_cell a b -> same_cell b a.
Proof. intros H; inversion H; subst; constructor. symmetry; auto. Qed.
Lemma same_cell_trans a b c : same_cell a b -> same_cell b c -> same_cell a c.
Proof. intros H G; inversion H; subst; inversion G; subst; constructor. etransitivity; eauto. Qed.
Lemma same_key_sym a b : same_key a b -> same_key b a.
Proof.
  destruct a as [[a1 a2] a3], b as [[b1 b2] b3]; simpl. intros (H1 & H2 & H3). auto using same_cell_sym.
Qed.
Lemma same_key_trans a b c : same_key a b -> same_key b c -> same_key a c.
Proof.
  destruct a as [[a1 a2] a3], b as [[b1 b2] b3], c as [[c1 c2] c3]; simpl.
  intros (H1 & H2 & H3) (G1 & G2 & G3). eauto 7 using same_cell_trans.
Qed.
Lemma key_eqb_compat a b c : same_key a b -> key_eqb a c = key_eqb b c.
Proof.
  intros H. apply eq_true_iff_eq. rewrite !key_eqb_iff.
  split; intros; [eapply same_key_trans; [apply same_key_sym|]; eauto|eapply same_key_trans; eauto].
Qed.

(** distinct *)
Lemma distinct_In l k : In k (distinct l) -> In k l.
Proof.
  revert k. induction l as [|x l IH]; intros k; simpl; auto.
  intros [H|H]; auto. apply filter_In in H. right. apply IH. tauto.
Qed.
Lemma distinct_covers l k : In k l -> same_key k k -> exists k', In k' (distinct l) /\ same_key k' k.
Proof.
  induction l as [|x l IH]; intros H R; simpl in *; [tauto|].
  destruct H as [->|H]; [eauto|]. destruct (IH H R) as (k' & I & S).
  destruct (key_eqb x k') eqn:E.
  - apply key_eqb_iff in E. exists x. split; auto. eapply same_key_trans; eauto.
  - exists k'. split; auto. right. apply filter_In. rewrite E. auto.
Qed.
Lemma distinct_apart l : ForallOrdPairs (fun a b => ~ same_key a b) (distinct l).
Proof.
  induction l as [|x l IH]; simpl; constructor.
  - apply Forall_forall. intros y H. apply filter_In in H. destruct H as [_ H].
    apply negb_true_iff in H. apply key_eqb_false; auto.
  - induction IH as [|y m H1 H2 IH2]; simpl; [constructor|]. destruct (negb (key_eqb x y)); auto.
    constructor; auto. apply Forall_forall. intros z Hz. apply filter_In in Hz. rewrite Forall_forall in H1.
    apply H1. tauto.
Qed.

Section Group.
  Context {A : Type} (keyof : A -> key).
  Lemma groupby_In rows k g :
    In (k, g) (groupby keyof rows) ->
    same_key k k /\ In k (map keyof rows) /\ g = filter (fun r => key_eqb k (keyof r)) rows.
  Proof.
    unfold groupby. intros H. apply in_map_iff in H. destruct H as (k' & E & H). injection E as <- <-.
    apply distinct_In in H. apply filter_In in H. destruct H as [H1 H2].
    repeat apply conj; auto. apply key_eqb_iff in H2; auto.
  Qed.
  Lemma groupby_covers rows r : In r rows -> same_key (keyof r) (keyof r) ->
    exists k g, In (k, g) (groupby keyof rows) /\ same_key k (keyof r).
  Proof.
    intros I R. destruct (distinct_covers (filter key_ok (map keyof rows)) (keyof r)) as (k & H & S); auto.
    - apply filter_In. split; [apply in_map; auto|apply key_eqb_iff; auto].
    - exists k. eexists. split; auto. unfold groupby. apply in_map_iff. exists k. split; eauto.
  Qed.
  Lemma groupby_apart rows :
    ForallOrdPairs (fun a b : key * list A => ~ same_key (fst a) (fst b)) (groupby keyof rows).
  Proof.
    unfold groupby. induction (distinct_apart (filter key_ok (map keyof rows))) as [|x l H1 H2 IH]; simpl; constructor; auto.
    apply Forall_forall. intros y Hy. apply in_map_iff in Hy. destruct Hy as (k & <- & Hk). simpl.
    rewrite Forall_forall in H1. auto.
  Qed.
End Group.

Lemma ordpairs_filter {A} (R : A -> A -> Prop) p l : ForallOrdPairs R l -> ForallOrdPairs R (filter p l).
Proof.
  induction 1 as [|x l H1 H2 IH]; simpl; [constructor|]. destruct (p x); auto. constructor; auto.
  apply Forall_forall. intros y Hy. apply filter_In in Hy. rewrite Forall_forall in H1. apply H1; tauto.
Qed.
Lemma ordpairs_map {A B} (f : A -> B) (R : B -> B -> Prop) l :
  ForallOrdPairs (fun a b => R (f a) (f b)) l -> ForallOrdPairs R (map f l).
Proof.
  induction 1 as [|x l H1 H2 IH]; simpl; constructor; auto.
  apply Forall_forall. intros y Hy. apply in_map_iff in Hy. destruct Hy as (z & <- & Hz).
  rewrite Forall_forall in H1. auto.
Qed.
Lemma ordpairs_nth {A} (R : A -> A -> Prop) l i j x y : ForallOrdPairs R l ->
  nth_error l i = Some x -> nth_error l j = Some y -> (i < j)%nat -> R x y.
Proof.
  intros H. revert i j. induction H as [|z l H1 H2 IH]; intros i j Hi Hj L.
  - destruct i; discriminate.
  - destruct j as [|j]; [lia|]. destruct i as [|i]; simpl in *.
    + injection Hi as ->. rewrite Forall_forall in H1. apply H1. eapply nth_error_In; eauto.
    + eapply IH; eauto. lia.
Qed.

(** The replacement of 2^32 - 1. *)
Lemma repl_cell_spec c : ~ unrelaxed_cell c -> repl_cell c = c.
Proof.
  intros H. destruct c; auto. simpl. destruct (Qeq_bool q max32) eqn:E; auto. exfalso. apply H.
  right. exists q. split; auto. apply Qeq_bool_iff in E. exact E.
Qed.
Lemma repl_cell_nan c : unrelaxed_cell c -> repl_cell c = CNaN.
Proof.
  intros [->|(q & -> & E)]; auto. simpl. apply Qeq_bool_iff in E.
  change max32 with 4294967295. rewrite E. reflexivity.
Qed.
Lemma unrelaxed_dec c : unrelaxed_cell c \/ ~ unrelaxed_cell c.
Proof.
  destruct c.
  - left; left; auto.
  - destruct (Qeq_dec q 4294967295); [left; right; eauto|right; intros [H|(r & H & E)]; [discriminate|]].
    injection H as <-. auto.
  - right. intros [H|(r & H & E)]; discriminate.
Qed.
Definition repl_key (k : key) : key := let '(a, b, c) := k in (repl_cell a, repl_cell b, repl_cell c).
Lemma repl_same k k' : same_key k (repl_key k') <-> relaxed_key k /\ same_key k k'.
Proof.
  destruct k as [[a b] c], k' as [[a' b'] c']. simpl.
  assert (H : forall x y, same_cell x (repl_cell y) <-> ~ unrelaxed_cell x /\ same_cell x y).
  { intros x y. split.
    - intros S. destruct (unrelaxed_dec y) as [U|U].
      + rewrite (repl_cell_nan _ U) in S. inversion S.
      + rewrite (repl_cell_spec _ U) in S. split; auto. intros X. apply U.
        inversion S; subst; auto. destruct X as [X|(z & X & E)]; [discriminate|].
        injection X as <-. right. exists r. split; auto. rewrite <- H. auto.
    - intros [U S]. rewrite repl_cell_spec; auto. intros X. apply U.
      inversion S; subst; auto. destruct X as [X|(z & X & E)]; [discriminate|].
      injection X as <-. right. exists q. split; auto. rewrite H. auto. }
  rewrite !H. tauto.
Qed.
Lemma same_relaxed k k' : same_key k k' -> relaxed_key k -> relaxed_key k'.
Proof.
  destruct k as [[a b] c], k' as [[a' b'] c']. simpl.
  assert (H : forall x y, same_cell x y -> ~ unrelaxed_cell x -> ~ unrelaxed_cell y).
  { intros x y S U X. apply U. inversion S; subst; auto. destruct X as [X|(z & X & E)]; [discriminate|].
    injection X as <-. right. exists q. split; auto. rewrite H. auto. }
  intros (H1 & H2 & H3) (G1 & G2 & G3). eauto 6.
Qed.
Lemma repl_key_refl k : same_key (repl_key k) (repl_key k) <-> relaxed_key k /\ same_key k k.
Proof.
  split.
  - intros H. assert (R : relaxed_key k).
    { destruct k as [[a b] c]. simpl in *. destruct H as (H1 & H2 & H3).
      repeat apply conj; intros U; rewrite (repl_cell_nan _ U) in *;
      match goal with S : same_cell CNaN CNaN |- _ => inversion S end. }
    split; auto. apply repl_same in H. destruct H as [_ H].
    assert (repl_key k = k) as E; [|rewrite E in H; auto].
    destruct k as [[a b] c]. simpl in *. destruct R as (R1 & R2 & R3). rewrite !repl_cell_spec; auto.
  - intros [R S]. assert (repl_key k = k) as ->; auto.
    destruct k as [[a b] c]. simpl in *. destruct R as (R1 & R2 & R3). rewrite !repl_cell_spec; auto.
Qed.
Lemma repl_key_id k : relaxed_key k -> repl_key k = k.
Proof. destruct k as [[a b] c]. simpl. intros (R1 & R2 & R3). rewrite !repl_cell_spec; auto. Qed.

Lemma m_key_repl r : m_key (repl_row r) = repl_key (m_key r).
Proof. reflexivity. Qed.

Lemma memb_In s l : memb s l = true <-> In s l.
Proof.
  unfold memb. rewrite existsb_exists. split.
  - intros (x & I & E). apply String.eqb_eq in E. subst; auto.
  - intros I. exists s. split; auto. apply String.eqb_refl.
Qed.
Lemma value_columns_In c cols : In c (value_columns cols) <-> In c cols /\ ~ In c key_names.
Proof.
  unfold value_columns. rewrite filter_In, negb_true_iff, <- (memb_In c key_names), not_true_iff_false.
  reflexivity.
Qed.

Lemma complete_row_iff cols r :
  complete_row cols (repl_row r) = true <-> forall c, In c cols -> relaxed_value (m_val r c).
Proof.
  unfold complete_row. rewrite forallb_forall.
  split; intros H c I; specialize (H c I).
  - simpl in H. destruct (m_val r c) as [q|]; [|discriminate].
    destruct (Qeq_bool q max32) eqn:E; [discriminate|]. exists q. split; auto.
    intros X. apply Qeq_bool_iff in X. change max32 with 4294967295 in E. congruence.
  - destruct H as (q & E & N). simpl. rewrite E. destruct (Qeq_bool q max32) eqn:X; auto.
    apply Qeq_bool_iff in X. contradiction.
Qed.

(** The group of a key, before and after the replacement. *)
Definition group (k : key) (rows : list mrow) : list mrow := filter (fun r => key_eqb k (m_key r)) rows.
Lemma group_repl k rows : relaxed_key k ->
  filter (fun r => key_eqb k (m_key r)) (map repl_row rows) = map repl_row (group k rows).
Proof.
  intros R. induction rows as [|r rows IH]; auto. cbn [map filter group].
  rewrite m_key_repl, IH.
  assert (key_eqb k (repl_key (m_key r)) = key_eqb k (m_key r)) as ->.
  { apply eq_true_iff_eq. rewrite !key_eqb_iff, repl_same. tauto. }
  unfold group. destruct (key_eqb k (m_key r)); reflexivity.
Qed.

Lemma col_values_spec c k rows :
  (forall r, In r rows -> same_key k (m_key r) -> relaxed_value (m_val r c)) ->
  column_values c k rows (col_values c (map repl_row (group k rows))).
Proof.
  induction rows as [|r rows IH]; intros H; [constructor|].
  assert (IH' := IH (fun r' I => H r' (or_intror I))). unfold group in *. cbn [filter].
  destruct (key_eqb k (m_key r)) eqn:E.
  - apply key_eqb_iff in E. destruct (H r (or_introl eq_refl) E) as (q & V & N).
    cbn [map]. unfold col_values in *. cbn [flat_map].
    assert (m_val (repl_row r) c = Some q) as ->.
    { simpl. rewrite V. destruct (Qeq_bool q max32) eqn:X; auto. apply Qeq_bool_iff in X. contradiction. }
    apply cv_hit; auto.
  - apply cv_miss; auto. apply key_eqb_false; auto.
Qed.

Lemma column_values_fun c k rows vs ws : column_values c k rows vs -> column_values c k rows ws -> vs = ws.
Proof.
  intros H. revert ws. induction H; intros ws G; inversion G; subst; auto; try contradiction.
  f_equal; [congruence|auto].
Qed.

Lemma total_app l m : total (l ++ m) == total l + total m.
Proof. induction l as [|x l IH]; simpl; [ring|]. rewrite IH. ring. Qed.
Lemma count_nil : count [] == 0. Proof. reflexivity. Qed.
Lemma count_cons x l : count (x :: l) == count l + 1.
Proof. unfold count. cbn [Datatypes.length]. rewrite Nat2Z.inj_succ. unfold Z.succ. rewrite inject_Z_plus. reflexivity. Qed.
Lemma count_nonneg l : 0 <= count l.
Proof. induction l as [|x l IH]; [rewrite count_nil; simpl; lra|]. rewrite count_cons. lra. Qed.
Lemma count_pos l : l <> [] -> 0 < count l.
Proof. destruct l as [|x l]; [congruence|]. intros _. rewrite count_cons. pose proof (count_nonneg l). lra. Qed.

Lemma inv_pos q : 0 < q -> 0 < / q. Proof. apply Qinv_lt_0_compat. Qed.
Lemma total_pos l : l <> [] -> positive l -> 0 < total l.
Proof.
  intros N P. destruct l as [|x l]; [congruence|]. clear N. revert x P.
  induction l as [|y l IH]; intros x P; simpl.
  - pose proof (P x (or_introl eq_refl)). lra.
  - specialize (IH y (fun q I => P q (or_intror I))). simpl in IH. pose proof (P x (or_introl eq_refl)). lra.
Qed.
Lemma positive_inv l : positive l -> positive (map Qinv l).
Proof. intros P q I. apply in_map_iff in I. destruct I as (x & <- & I). apply inv_pos; auto. Qed.

Lemma qmean_spec l : l <> [] -> is_mean l (qmean l).
Proof.
  intros N. unfold is_mean, qmean. pose proof (count_pos l N). unfold qlen. fold (count l).
  change (qsum l) with (total l). field. lra.
Qed.
Lemma qhmean_spec l : l <> [] -> positive l -> is_hmean l (qhmean l).
Proof.
  intros N P. unfold is_hmean, qhmean.
  assert (existsb (fun q => Qeq_bool q 0) l = false) as ->.
  { destruct (existsb (fun q => Qeq_bool q 0) l) eqn:E; auto. apply existsb_exists in E.
    destruct E as (q & I & E). apply Qeq_bool_iff in E. specialize (P q I). lra. }
  change (qsum (map Qinv l)) with (total (map Qinv l)). change (qlen l) with (count l).
  assert (0 < total (map Qinv l)).
  { apply total_pos; [destruct l; simpl; congruence|apply positive_inv; auto]. }
  field. lra.
Qed.

(** Arithmetic and harmonic mean. *)
Lemma qsq_nonneg x : 0 <= x * x.
Proof.
  destruct (Qlt_le_dec x 0) as [H|H].
  - assert (E : x * x == (- x) * (- x)) by ring. rewrite E. apply Qmult_le_0_compat; lra.
  - apply Qmult_le_0_compat; auto.
Qed.
Lemma qsq_pos x : ~ x == 0 -> 0 < x * x.
Proof.
  intros N. destruct (Q_dec x 0) as [[H|H]|H]; [| |contradiction].
  - assert (E : x * x == (- x) * (- x)) by ring. rewrite E. apply Qmult_lt_0_compat; lra.
  - apply Qmult_lt_0_compat; auto.
Qed.
Lemma two_le a x : 0 < a -> 0 < x -> 2 <= a * / x + x * / a.
Proof.
  intros A X. assert (E : a * / x + x * / a - 2 == (a - x) * (a - x) * (/ a * / x)) by (field; lra).
  pose proof (inv_pos a A). pose proof (inv_pos x X).
  assert (0 <= (a - x) * (a - x) * (/ a * / x)).
  { apply Qmult_le_0_compat; [apply qsq_nonneg|]. apply Qmult_le_0_compat; lra. }
  lra.
Qed.
Lemma two_eq a x : 0 < a -> 0 < x -> a * / x + x * / a <= 2 -> a == x.
Proof.
  intros A X H. assert (E : a * / x + x * / a - 2 == (a - x) * (a - x) * (/ a * / x)) by (field; lra).
  pose proof (inv_pos a A). pose proof (inv_pos x X).
  destruct (Qeq_dec a x) as [L|L]; auto. exfalso.
  assert (0 < (a - x) * (a - x) * (/ a * / x)).
  { apply Qmult_lt_0_compat; [apply qsq_pos; lra|]. apply Qmult_lt_0_compat; auto. }
  lra.
Qed.
Lemma cross a l : 0 < a -> positive l ->
  2 * count l <= a * total (map Qinv l) + total l * / a
  /\ (a * total (map Qinv l) + total l * / a <= 2 * count l -> forall x, In x l -> a == x).
Proof.
  intros A. induction l as [|x l IH]; intros P.
  - split; [rewrite count_nil; simpl; lra|]. intros _ x [].
  - destruct (IH (fun q I => P q (or_intror I))) as [I1 I2].
    pose proof (P x (or_introl eq_refl)) as X. pose proof (two_le a x A X) as T.
    cbn [map total fold_right]. fold (total (map Qinv l)). fold (total l). rewrite count_cons.
    assert (E : a * (/ x + total (map Qinv l)) + (x + total l) * / a ==
            (a * / x + x * / a) + (a * total (map Qinv l) + total l * / a)) by ring.
    rewrite E. split; [lra|]. intros H y [<-|I].
    + apply two_eq; auto. lra.
    + apply I2; auto. lra.
Qed.
Lemma am_hm l : positive l ->
  count l * count l <= total l * total (map Qinv l)
  /\ (total l * total (map Qinv l) <= count l * count l -> forall x y, In x l -> In y l -> x == y).
Proof.
  induction l as [|a l IH]; intros P.
  - split; [rewrite count_nil; simpl; lra|]. intros _ x y [].
  - destruct (IH (fun q I => P q (or_intror I))) as [I1 I2].
    pose proof (P a (or_introl eq_refl)) as A.
    destruct (cross a l A (fun q I => P q (or_intror I))) as [C1 C2].
    cbn [map total fold_right]. fold (total (map Qinv l)). fold (total l). rewrite count_cons.
    assert (E : (a + total l) * (/ a + total (map Qinv l)) ==
       1 + (a * total (map Qinv l) + total l * / a) + total l * total (map Qinv l)) by (field; lra).
    rewrite E. split; [lra|]. intros H.
    assert (G : forall x, In x l -> a == x) by (apply C2; lra).
    intros x y [<-|Ix] [<-|Iy]; try reflexivity.
    + auto.
    + symmetry; auto.
    + rewrite <- (G x Ix). auto.
Qed.

Lemma total_bounds l lo hi : (forall q, In q l -> lo <= q <= hi) ->
  lo * count l <= total l <= hi * count l.
Proof.
  induction l as [|x l IH]; intros H.
  - rewrite count_nil; simpl; lra.
  - pose proof (H x (or_introl eq_refl)). specialize (IH (fun q I => H q (or_intror I))).
    rewrite count_cons. cbn [total fold_right]. fold (total l). lra.
Qed.

Lemma div_le_iff a b c : 0 < b -> (a <= c * b <-> a / b <= c).
Proof.
  intros B. split; intros H.
  - apply Qle_shift_div_r; auto.
  - assert (a == a / b * b) by (field; lra). rewrite H0. apply Qmult_le_compat_r; lra.
Qed.

Lemma means_order l m h : l <> [] -> positive l -> is_mean l m -> is_hmean l h ->
  h <= m /\ (h == m <-> forall x y, In x l -> In y l -> x == y).
Proof.
  intros N P M H. destruct (am_hm l P) as [A1 A2]. unfold is_mean, is_hmean in *.
  pose proof (count_pos l N) as C.
  assert (S : 0 < total (map Qinv l)) by (apply total_pos; [destruct l; simpl; congruence|apply positive_inv; auto]).
  set (T := total (map Qinv l)) in *.
  assert (K : h * T * count l <= m * T * count l).
  { rewrite H. assert (m * T * count l == (m * count l) * T) by ring. rewrite H0, M. auto. }
  assert (L : h <= m).
  { apply (Qmult_le_r _ _ (T * count l)); [apply Qmult_lt_0_compat; auto|]. rewrite !Qmult_assoc. auto. }
  split; auto. split.
  - intros E. apply A2. rewrite <- M, <- H, E. apply Qle_lteq. right. ring.
  - intros E. apply Qle_antisym; auto.
    destruct l as [|x l]; [congruence|].
    assert (X : forall q, In q (x :: l) -> x <= q <= x).
    { intros q I. assert (q == x) by (apply E; auto; left; auto). lra. }
    assert (PX := P x (or_introl eq_refl)).
    assert (Y : forall q, In q (map Qinv (x :: l)) -> / x <= q <= / x).
    { intros q I. apply in_map_iff in I. destruct I as (z & <- & I).
      assert (EZ : z == x) by (apply E; auto; left; auto). rewrite EZ. split; apply Qle_refl. }
    pose proof (total_bounds _ _ _ X) as B1. pose proof (total_bounds _ _ _ Y) as B2.
    fold T in B2. unfold count in B2. rewrite map_length in B2. fold (count (x :: l)) in B2.
    assert (M' : m == x) by (apply (Qmult_inj_r _ _ (count (x :: l))); lra).
    assert (T' : T == / x * count (x :: l)) by lra.
    rewrite M', <- (Qmult_le_r _ _ T) by auto. rewrite H, T'.
    assert (x * (/ x * count (x :: l)) == count (x :: l)) as -> by (field; lra). apply Qle_refl.
Qed.

Lemma means_bounds l m h lo hi : l <> [] -> positive l -> is_mean l m -> is_hmean l h -> 0 < lo ->
  (forall q, In q l -> lo <= q <= hi) -> lo <= m <= hi /\ lo <= h <= hi.
Proof.
  intros N P M H LO B. unfold is_mean, is_hmean in *.
  pose proof (count_pos l N) as C.
  assert (S : 0 < total (map Qinv l)) by (apply total_pos; [destruct l; simpl; congruence|apply positive_inv; auto]).
  pose proof (total_bounds l lo hi B) as T.
  assert (M' : lo <= m <= hi).
  { rewrite <- M in T. destruct T as [T1 T2]. apply Qmult_le_r in T1; auto. apply Qmult_le_r in T2; auto. }
  split; auto.
  assert (HI : 0 < hi).
  { destruct l as [|x l]; [congruence|]. specialize (B x (or_introl eq_refl)). lra. }
  assert (B' : forall q, In q (map Qinv l) -> / hi <= q <= / lo).
  { intros q I. apply in_map_iff in I. destruct I as (z & <- & I). specialize (B z I).
    assert (Z := P z I). split.
    - apply (Qmult_le_r _ _ (hi * z)); [apply Qmult_lt_0_compat; auto|].
      assert (/ hi * (hi * z) == z) as -> by (field; lra).
      assert (/ z * (hi * z) == hi) as -> by (field; lra). lra.
    - apply (Qmult_le_r _ _ (z * lo)); [apply Qmult_lt_0_compat; auto|].
      assert (/ z * (z * lo) == lo) as -> by (field; lra).
      assert (/ lo * (z * lo) == z) as -> by (field; lra). lra. }
  pose proof (total_bounds _ _ _ B') as T'. unfold count in T'. rewrite map_length in T'. fold (count l) in T'.
  set (X := total (map Qinv l)) in *.
  split.
  - apply (Qmult_le_r _ _ X); auto. rewrite H.
    apply Qle_trans with (lo * (/ lo * count l)); [apply Qmult_le_l; lra|].
    assert (lo * (/ lo * count l) == count l) as -> by (field; lra). apply Qle_refl.
  - apply (Qmult_le_r _ _ X); auto. rewrite H.
    apply Qle_trans with (hi * (/ hi * count l)); [|apply Qmult_le_l; lra].
    assert (hi * (/ hi * count l) == count l) as -> by (field; lra). apply Qle_refl.
Qed.
