(** Lemmas about the comparison-only summaries. *)
From Coq Require Import String ZArith QArith Qfield Qabs List Bool Lia Lqa.
From Verif Require Import Base XNum RelaxationModel RelaxationSpec.
Import ListNotations.
Open Scope Z_scope.

Lemma py_get_nat {A} (l : list A) (i : nat) :
  py_get l (Z.of_nat i) = match nth_error l i with Some x => inl x | None => inr IndexError end.
Proof.
  unfold py_get. destruct (Z.ltb_spec (Z.of_nat i) 0) as [H|_]; [lia|].
  destruct (Z.ltb_spec (Z.of_nat i) 0) as [H|_]; [lia|]. cbn [orb].
  destruct (Z.leb_spec (Z.of_nat (length l)) (Z.of_nat i)) as [H|H].
  - assert (nth_error l i = None) as -> by (apply nth_error_None; lia). reflexivity.
  - rewrite Nat2Z.id. reflexivity.
Qed.
Lemma py_get_some {A} (l : list A) (i : nat) x : nth_error l i = Some x -> py_get l (Z.of_nat i) = inl x.
Proof. intros H. rewrite py_get_nat, H. reflexivity. Qed.
Lemma py_get_m1 {A} (l : list A) x : nth_error l (length l - 1) = Some x -> py_get l (-1) = inl x.
Proof.
  intros H. unfold py_get. cbn [Z.ltb Z.compare].
  assert (L : (length l - 1 < length l)%nat) by (apply nth_error_Some; congruence).
  destruct (Z.ltb_spec (-1 + Z.of_nat (length l)) 0); [lia|].
  destruct (Z.leb_spec (Z.of_nat (length l)) (-1 + Z.of_nat (length l))); [lia|].
  cbn [orb]. replace (Z.to_nat (-1 + Z.of_nat (length l))) with (length l - 1)%nat by lia.
  rewrite H. reflexivity.
Qed.

Lemma nth_lt {A} (l : list A) i : (i < length l)%nat -> exists x, nth_error l i = Some x.
Proof. intros H. destruct (nth_error l i) eqn:E; eauto. apply nth_error_None in E. lia. Qed.
Lemma nth_len {A} (l : list A) i x : nth_error l i = Some x -> (i < length l)%nat.
Proof. intros H. apply nth_error_Some. congruence. Qed.

(* first_true *)
Lemma first_true_spec l : forall k,
  match first_true k l with
  | Some i => exists j, i = (k + j)%nat /\ nth_error l j = Some true
                        /\ forall m, (m < j)%nat -> nth_error l m = Some false
  | None => forall m b, nth_error l m = Some b -> b = false
  end.
Proof.
  induction l as [|b l IH]; intros k; simpl.
  - intros m b H. destruct m; discriminate.
  - destruct b.
    + exists 0%nat. repeat apply conj; auto; lia.
    + specialize (IH (S k)). destruct (first_true (S k) l) as [i|].
      * destruct IH as (j & E & H1 & H2). exists (S j). repeat apply conj; auto; [lia|].
        intros [|m] Hm; simpl; auto. apply H2; lia.
      * intros [|m] b H; simpl in H; [congruence|eauto].
Qed.

Definition passb (decay : bool) (threshold v : xnum) : bool :=
  if decay then xlt v threshold else xgt v threshold.
Lemma passb_iff d t v : passb d t v = true <-> passed d t v.
Proof. unfold passb, passed, xgt. destruct d; tauto. Qed.

Lemma first_true_passed d thr value i :
  first_at (passed d thr) value i ->
  first_true 0 (map (passb d thr) value) = Some i.
Proof.
  intros [(v & Hv & Pv) Hb]. pose proof (first_true_spec (map (passb d thr) value) 0) as H.
  destruct (first_true 0 (map (passb d thr) value)) as [k|].
  - destruct H as (j & -> & H1 & H2). cbn [Nat.add]. f_equal.
    destruct (Nat.lt_trichotomy j i) as [L|[E|L]]; auto; exfalso.
    + rewrite nth_error_map in H1. destruct (nth_error value j) as [w|] eqn:Ew; [|discriminate].
      injection H1 as H1. apply (Hb _ _ L Ew). apply passb_iff; auto.
    + specialize (H2 _ L). rewrite nth_error_map, Hv in H2. simpl in H2. injection H2 as H2.
      apply passb_iff in Pv. congruence.
  - exfalso. specialize (H i (passb d thr v)). rewrite nth_error_map, Hv in H.
    specialize (H eq_refl). apply passb_iff in Pv. congruence.
Qed.

Lemma first_true_never d thr value :
  (forall i v, nth_error value i = Some v -> ~ passed d thr v) ->
  first_true 0 (map (passb d thr) value) = None.
Proof.
  intros H. pose proof (first_true_spec (map (passb d thr) value) 0) as S.
  destruct (first_true 0 (map (passb d thr) value)) as [k|]; auto. exfalso.
  destruct S as (j & _ & H1 & _). rewrite nth_error_map in H1.
  destruct (nth_error value j) as [w|] eqn:Ew; [|discriminate]. injection H1 as H1.
  apply (H _ _ Ew). apply passb_iff; auto.
Qed.

Definition comparable (nan_raises : bool) (threshold : xnum) (value : list xnum) : Prop :=
  nan_raises = false \/ (threshold <> NaN /\ forall i v, nth_error value i = Some v -> v <> NaN).

Lemma comparable_test nr thr value : comparable nr thr value ->
  nr && existsb (fun v => xnan v || xnan thr) value = false.
Proof.
  intros [->|[H1 H2]]; auto. apply andb_false_iff. right.
  destruct (existsb (fun v => xnan v || xnan thr) value) eqn:E; auto. exfalso.
  apply existsb_exists in E. destruct E as (v & I & E). apply orb_prop in E.
  apply In_nth_error in I. destruct I as (i & I). destruct E as [E|E].
  - apply (H2 _ _ I). destruct v; auto; discriminate.
  - destruct thr; auto; discriminate.
Qed.

Lemma argmax_bool_eq l i : l <> [] ->
  (first_true 0 l = Some i \/ (first_true 0 l = None /\ i = 0%nat)) -> argmax_bool l = inl i.
Proof. intros H [E|[E ->]]; destruct l; try congruence; unfold argmax_bool; rewrite E; auto. Qed.

Lemma threshold_at nr time value thr d i t p :
  length time = length value -> comparable nr thr value ->
  (first_at (passed d thr) value i \/
   ((forall j v, nth_error value j = Some v -> ~ passed d thr v) /\ i = 0%nat)) ->
  nth_error time i = Some t ->
  (match i with O => nth_error time (length time - 1) | S j => nth_error time j end = Some p) ->
  threshold_relaxation nr time value thr d = inl (Fin t, Fin (t - p)%Q).
Proof.
  intros L C F Ht Hp. unfold threshold_relaxation. rewrite (comparable_test _ _ _ C).
  change (fun v => if d then xlt v thr else xgt v thr) with (passb d thr).
  rewrite (argmax_bool_eq _ i).
  - cbn [ebind]. rewrite (py_get_some _ _ _ Ht). cbn [ebind].
    destruct i as [|j].
    + change (Z.of_nat 0 - 1) with (-1). rewrite (py_get_m1 _ _ Hp). reflexivity.
    + replace (Z.of_nat (S j) - 1) with (Z.of_nat j) by lia. rewrite (py_get_some _ _ _ Hp). reflexivity.
  - apply nth_len in Ht. intros E. apply (f_equal (@length bool)) in E. rewrite map_length in E.
    simpl in E. lia.
  - destruct F as [F|[F ->]]; [left; apply first_true_passed|right; split; auto; apply first_true_never]; auto.
Qed.

Lemma threshold_nan nr time value thr d :
  nr = true -> (exists i, nth_error value i = Some NaN) ->
  threshold_relaxation nr time value thr d = inl (NaN, NaN).
Proof.
  intros -> (i & H). unfold threshold_relaxation.
  assert (existsb (fun v => xnan v || xnan thr) value = true) as ->; [|reflexivity].
  apply existsb_exists. exists NaN. split; auto. eapply nth_error_In; eauto.
Qed.

(* nanargmax *)
Lemma xlt_total x y : x <> NaN -> y <> NaN -> xlt x y = false -> xlt y x = false ->
  forall z, xlt x z = xlt y z /\ xlt z x = xlt z y.
Proof.
  destruct x as [| | |a], y as [| | |b]; simpl; try congruence; try discriminate; auto.
  intros _ _ H1 H2 z. apply Qltb_ge in H1. apply Qltb_ge in H2.
  assert (E : (a == b)%Q) by lra.
  destruct z as [| | |c]; simpl; auto. split.
  - destruct (Qltb b c) eqn:G; [apply Qltb_lt in G; apply Qltb_lt; lra
    |apply Qltb_ge in G; apply Qltb_ge; lra].
  - destruct (Qltb c b) eqn:G; [apply Qltb_lt in G; apply Qltb_lt; lra
    |apply Qltb_ge in G; apply Qltb_ge; lra].
Qed.
Lemma xge_trans x y z : x <> NaN -> y <> NaN -> z <> NaN ->
  xlt x y = false -> xlt y z = false -> xlt x z = false.
Proof.
  destruct x as [| | |a], y as [| | |b], z as [| | |c]; simpl; try congruence; try discriminate; auto.
  rewrite !Qltb_ge. intros; lra.
Qed.
Lemma xlt_ge_trans x y z : x <> NaN -> y <> NaN -> z <> NaN ->
  xlt x y = true -> xlt z y = false -> xlt x z = true.
Proof.
  destruct x as [| | |a], y as [| | |b], z as [| | |c]; simpl; try congruence; try discriminate; auto.
  rewrite !Qltb_ge, !Qltb_lt. intros; lra.
Qed.

(** The first maximum of a NaN-free list. *)
Definition amax (l : list xnum) (i : nat) : Prop :=
  exists v, nth_error l i = Some v
  /\ (forall j w, nth_error l j = Some w -> xlt v w = false)
  /\ (forall j w, (j < i)%nat -> nth_error l j = Some w -> xlt w v = true).

Lemma amax_unique l i j : amax l i -> amax l j -> i = j.
Proof.
  intros (v & Hv & A1 & A2) (w & Hw & B1 & B2).
  destruct (Nat.lt_trichotomy i j) as [L|[E|L]]; auto; exfalso.
  - specialize (B2 _ _ L Hv). specialize (A1 _ _ Hw). congruence.
  - specialize (A2 _ _ L Hw). specialize (B1 _ _ Hv). congruence.
Qed.

Lemma argmax_from_spec l : forall done best bi,
  (forall v, In v (done ++ l) -> v <> NaN) -> nth_error done bi = Some best -> amax done bi ->
  amax (done ++ l) (argmax_from best bi (length done) l).
Proof.
  induction l as [|v l IH]; intros done best bi N Hb A; cbn [argmax_from].
  - rewrite app_nil_r. exact A.
  - assert (NN : forall x, In x ((done ++ [v]) ++ l) -> x <> NaN) by (intros x; rewrite <- app_assoc; apply N).
    assert (Lb := nth_len _ _ _ Hb).
    assert (Nb : best <> NaN) by (apply N, in_or_app; left; eapply nth_error_In; eauto).
    assert (Nv : v <> NaN) by (apply N, in_or_app; right; left; auto).
    destruct A as (b & Hb' & A1 & A2). rewrite Hb in Hb'. injection Hb' as <-.
    replace (done ++ v :: l) with ((done ++ [v]) ++ l) by (rewrite <- app_assoc; auto).
    replace (S (length done)) with (length (done ++ [v])) by (rewrite app_length; simpl; lia).
    unfold xgt. destruct (xlt best v) eqn:E.
    + replace (length done) with (length done + 0)%nat by lia.
      apply IH; auto.
      * rewrite nth_error_app2 by lia. replace (length done + 0 - length done)%nat with 0%nat by lia. auto.
      * exists v. rewrite nth_error_app2 by lia. replace (length done + 0 - length done)%nat with 0%nat by lia.
        repeat apply conj; auto.
        -- intros j w Hw. destruct (Nat.lt_ge_cases j (length done)) as [L|L].
           ++ rewrite nth_error_app1 in Hw by lia. specialize (A1 _ _ Hw).
              assert (Nw : w <> NaN) by (apply N, in_or_app; left; eapply nth_error_In; eauto).
              destruct (xlt v w) eqn:G; auto. pose proof (xlt_trans _ _ _ E G). congruence.
           ++ rewrite nth_error_app2 in Hw by lia. destruct (j - length done)%nat as [|k]; simpl in Hw.
              ** injection Hw as <-. apply xlt_irrefl.
              ** destruct k; discriminate.
        -- intros j w L Hw. rewrite nth_error_app1 in Hw by lia. specialize (A1 _ _ Hw).
           assert (Nw : w <> NaN) by (apply N, in_or_app; left; eapply nth_error_In; eauto).
           destruct (xlt w v) eqn:G; auto.
           assert (xlt best v = false) by (eapply xge_trans with w; eauto). congruence.
    + apply IH; auto.
      * rewrite nth_error_app1; auto.
      * exists best. rewrite nth_error_app1 by lia. repeat apply conj; auto.
        -- intros j w Hw. destruct (Nat.lt_ge_cases j (length done)) as [L|L].
           ++ rewrite nth_error_app1 in Hw by lia. eauto.
           ++ rewrite nth_error_app2 in Hw by lia. destruct (j - length done)%nat as [|k]; simpl in Hw.
              ** injection Hw as <-. auto.
              ** destruct k; discriminate.
        -- intros j w L Hw. rewrite nth_error_app1 in Hw by lia. eauto.
Qed.

Definition denan (v : xnum) : xnum := if xnan v then NInf else v.
Lemma denan_nonan v : denan v <> NaN. Proof. destruct v; discriminate. Qed.
Lemma denan_id v : v <> NaN -> denan v = v. Proof. destruct v; auto; congruence. Qed.

Lemma nanargmax_spec l : (exists i v, nth_error l i = Some v /\ v <> NaN) ->
  exists k, nanargmax l = inl k /\ amax (map denan l) k.
Proof.
  intros (i & v & H & Hn). unfold nanargmax.
  change (fun v => if xnan v then NInf else v) with denan.
  destruct l as [|x l]; [destruct i; discriminate|].
  cbn [map]. assert (forallb xnan (x :: l) = false) as ->.
  { destruct (forallb xnan (x :: l)) eqn:E; auto. exfalso.
    rewrite forallb_forall in E. apply nth_error_In in H. specialize (E _ H). destruct v; auto; discriminate. }
  eexists. split; [reflexivity|].
  change (denan x :: map denan l) with ([denan x] ++ map denan l).
  change 1%nat with (length [denan x]).
  apply argmax_from_spec; auto.
  - intros y Hy. change ([denan x] ++ map denan l) with (map denan (x :: l)) in Hy.
    apply in_map_iff in Hy. destruct Hy as (z & <- & _). apply denan_nonan.
  - exists (denan x). repeat apply conj; auto.
    + intros [|[|j]] w Hw; simpl in Hw; try discriminate. injection Hw as <-. apply xlt_irrefl.
    + intros; lia.
Qed.

Lemma nanargmax_none l : (forall i v, nth_error l i = Some v -> v = NaN) -> nanargmax l = inr ValueError.
Proof.
  intros H. unfold nanargmax. destruct l as [|x l]; auto. cbn [map].
  assert (forallb xnan (x :: l) = true) as ->; auto.
  apply forallb_forall. intros y Hy. apply In_nth_error in Hy. destruct Hy as (i & Hy).
  rewrite (H _ _ Hy). reflexivity.
Qed.

Lemma first_max_amax l i v : first_max l i v -> v <> NInf -> amax (map denan l) i.
Proof.
  intros (Hv & Nv & H1 & H2) NI. exists v.
  rewrite nth_error_map, Hv. cbn [option_map]. rewrite (denan_id _ Nv).
  repeat apply conj; auto.
  - intros j w Hw. rewrite nth_error_map in Hw. destruct (nth_error l j) as [u|] eqn:E; [|discriminate].
    injection Hw as <-. destruct u; cbn; first [apply (H1 _ _ E) | destruct v; auto].
  - intros j w L Hw. rewrite nth_error_map in Hw. destruct (nth_error l j) as [u|] eqn:E; [|discriminate].
    injection Hw as <-. destruct u; try (apply (H2 _ _ L E); discriminate).
    cbn. destruct v; auto; congruence.
Qed.

Lemma nanargmax_first_max l i v : first_max l i v -> v <> NInf -> nanargmax l = inl i.
Proof.
  intros F NI. destruct (nanargmax_spec l) as (k & E & A).
  - destruct F as (F1 & F2 & _). eauto.
  - rewrite E. f_equal. eapply amax_unique; eauto using first_max_amax.
Qed.

Lemma first_max_exists l : (exists i w, nth_error l i = Some w /\ w <> NaN) ->
  (forall i w, nth_error l i = Some w -> w <> NInf) ->
  exists i v, first_max l i v.
Proof.
  intros (i0 & w0 & H0 & N0) NI.
  destruct (nanargmax_spec l) as (k & _ & A); [eauto|]. destruct A as (v & Hv & A1 & A2).
  rewrite nth_error_map in Hv. destruct (nth_error l k) as [u|] eqn:E; [|discriminate]. injection Hv as <-.
  assert (U : u <> NaN).
  { intros ->. cbn in *. specialize (A1 i0 (denan w0)). rewrite nth_error_map, H0 in A1.
    specialize (A1 eq_refl). rewrite (denan_id _ N0) in A1.
    specialize (NI _ _ H0). destruct w0; simpl in A1; congruence. }
  rewrite (denan_id _ U) in *. exists k, u. repeat apply conj; auto.
  - intros j w Hw. specialize (A1 j (denan w)). rewrite nth_error_map, Hw in A1. specialize (A1 eq_refl).
    destruct w; first [exact A1 | destruct u; reflexivity].
  - intros j w L Hw Nw. specialize (A2 j (denan w) L). rewrite nth_error_map, Hw in A2.
    specialize (A2 eq_refl). rewrite (denan_id _ Nw) in A2. auto.
Qed.

Lemma first_max_unique l i j v w : first_max l i v -> first_max l j w -> i = j /\ v = w.
Proof.
  intros (Hv & Nv & A1 & A2) (Hw & Nw & B1 & B2).
  destruct (Nat.lt_trichotomy i j) as [L|[E|L]].
  - specialize (B2 _ _ L Hv Nv). specialize (A1 _ _ Hw). congruence.
  - subst. split; congruence.
  - specialize (A2 _ _ L Hw Nw). specialize (B1 _ _ Hv). congruence.
Qed.

(* max_time *)
Lemma max_time_at time value i v t :
  length time = length value -> first_max value i v -> v <> NInf -> nth_error time i = Some t ->
  exists e, max_time_relaxation time value = inl (Fin t, Fin e)
            /\ neighbour_gap (fun a b => b - a)%Q time i e.
Proof.
  intros L F NI Ht. unfold max_time_relaxation. rewrite (proj2 (Nat.eqb_eq _ _) L). cbn [negb].
  rewrite (nanargmax_first_max _ _ _ F NI), (py_get_some _ _ _ Ht). cbn [ebind].
  assert (Li := nth_len _ _ _ Ht).
  destruct (Z.eqb_spec (Z.of_nat i) (Z.of_nat (length value) - 1)) as [E|E].
  - destruct i as [|j].
    + change (Z.of_nat 0 - 1) with (-1).
      assert (L1 : length time = 1%nat) by lia.
      assert (Hl : nth_error time (length time - 1) = Some t) by (rewrite L1; exact Ht).
      rewrite (py_get_m1 _ _ Hl). cbn [ebind]. eexists. split; [reflexivity|].
      exists t. split; auto. right; right; right. split; auto. ring.
    + replace (Z.of_nat (S j) - 1) with (Z.of_nat j) by lia.
      destruct (nth_lt time j) as (p & Hp); [lia|]. rewrite (py_get_some _ _ _ Hp). cbn [ebind].
      eexists. split; [reflexivity|]. exists t. split; auto. right; left. exists p.
      replace (S j - 1)%nat with j by lia. repeat apply conj; auto; try lia. reflexivity.
  - destruct (Z.eqb_spec (Z.of_nat i) 0) as [E0|E0].
    + assert (i = 0%nat) by lia. subst i.
      destruct (nth_lt time 1) as (n & Hn); [lia|].
      change (Z.of_nat 0 + 1) with (Z.of_nat 1). rewrite (py_get_some _ _ _ Hn). cbn [ebind].
      eexists. split; [reflexivity|]. exists t. split; auto. right; right; left. exists n.
      repeat apply conj; auto. reflexivity.
    + destruct (nth_lt time (i + 1)) as (n & Hn); [lia|]. destruct (nth_lt time (i - 1)) as (p & Hp); [lia|].
      replace (Z.of_nat i + 1) with (Z.of_nat (i + 1)) by lia.
      replace (Z.of_nat i - 1) with (Z.of_nat (i - 1)) by lia.
      rewrite (py_get_some _ _ _ Hn). cbn [ebind]. rewrite (py_get_some _ _ _ Hp). cbn [ebind].
      eexists. split; [reflexivity|]. exists t. split; auto. left. exists p, n.
      repeat apply conj; auto; try lia. field.
Qed.

Definition fin_of (v : xnum) : Q := match v with Fin q => q | _ => 0%Q end.

Lemma max_value_at time value i v :
  length time = length value -> first_max value i v -> all_finite value ->
  exists e, max_value_relaxation time value = inl (v, Fin e)
            /\ neighbour_gap (fun a b => Qabs (fin_of b - fin_of a))%Q value i e /\ (0 <= e)%Q.
Proof.
  intros L F A. assert (F' := F). destruct F' as (Hv & Nv & F1 & F2).
  destruct (A _ _ Hv) as (q & ->). unfold max_value_relaxation.
  rewrite (proj2 (Nat.eqb_eq _ _) L). cbn [negb].
  rewrite (nanargmax_first_max _ _ _ F) by discriminate. rewrite (py_get_some _ _ _ Hv). cbn [ebind].
  assert (Li := nth_len _ _ _ Hv).
  assert (G : forall j w, nth_error value j = Some (Fin w) -> (w <= q)%Q).
  { intros j w Hw. specialize (F1 _ _ Hw). simpl in F1. apply Qltb_ge in F1. exact F1. }
  destruct (Z.eqb_spec (Z.of_nat i) (Z.of_nat (length value) - 1)) as [E|E].
  - destruct i as [|j].
    + change (Z.of_nat 0 - 1) with (-1).
      assert (L1 : length value = 1%nat) by lia.
      assert (Hl : nth_error value (length value - 1) = Some (Fin q)) by (rewrite L1; exact Hv).
      rewrite (py_get_m1 _ _ Hl). cbn [ebind xsub]. eexists. split; [reflexivity|].
      split; [|lra]. exists (Fin q). split; auto. right; right; right. split; auto. ring.
    + replace (Z.of_nat (S j) - 1) with (Z.of_nat j) by lia.
      destruct (nth_lt value j) as (p & Hp); [lia|]. destruct (A _ _ Hp) as (pq & ->).
      rewrite (py_get_some _ _ _ Hp). cbn [ebind xsub]. specialize (G _ _ Hp).
      eexists. split; [reflexivity|]. split; [|lra]. exists (Fin q). split; auto. right; left. exists (Fin pq).
      replace (S j - 1)%nat with j by lia. repeat apply conj; auto; try lia. cbn [fin_of].
      rewrite Qabs_pos by lra. reflexivity.
  - destruct (Z.eqb_spec (Z.of_nat i) 0) as [E0|E0].
    + assert (i = 0%nat) by lia. subst i.
      destruct (nth_lt value 1) as (n & Hn); [lia|]. destruct (A _ _ Hn) as (nq & ->).
      change (Z.of_nat 0 + 1) with (Z.of_nat 1). rewrite (py_get_some _ _ _ Hn). cbn [ebind xsub].
      specialize (G _ _ Hn).
      eexists. split; [reflexivity|]. split; [|lra]. exists (Fin q). split; auto. right; right; left. exists (Fin nq).
      repeat apply conj; auto. cbn [fin_of]. rewrite Qabs_neg by lra. ring.
    + destruct (nth_lt value (i + 1)) as (n & Hn); [lia|]. destruct (nth_lt value (i - 1)) as (p & Hp); [lia|].
      destruct (A _ _ Hn) as (nq & ->). destruct (A _ _ Hp) as (pq & ->).
      replace (Z.of_nat i + 1) with (Z.of_nat (i + 1)) by lia.
      replace (Z.of_nat i - 1) with (Z.of_nat (i - 1)) by lia.
      rewrite (py_get_some _ _ _ Hn), (py_get_some _ _ _ Hp). cbn [ebind xsub xadd xhalf].
      pose proof (G _ _ Hn). pose proof (G _ _ Hp).
      eexists. split; [reflexivity|]. split.
      * exists (Fin q). split; auto. left. exists (Fin pq), (Fin nq).
        repeat apply conj; auto; try lia. cbn [fin_of].
        rewrite Qabs_pos by lra. rewrite Qabs_neg by lra. field.
      * apply Qle_shift_div_l; lra.
Qed.

Lemma gap_positive time i e :
  neighbour_gap (fun a b => b - a)%Q time i e -> increasing time -> (2 <= length time)%nat -> (0 < e)%Q.
Proof.
  intros (x & Hx & H) I L. destruct H as [H|[H|[H|H]]].
  - destruct H as (p & n & Hi & Hp & Hn & ->).
    assert (p < x)%Q by (eapply (I (i - 1)%nat i); eauto; lia).
    assert (x < n)%Q by (eapply (I i (i + 1)%nat); eauto; lia).
    apply Qlt_shift_div_l; lra.
  - destruct H as (p & Hi & _ & Hp & ->).
    assert (p < x)%Q by (eapply (I (i - 1)%nat i); eauto; lia). lra.
  - destruct H as (n & -> & Hn & ->).
    assert (x < n)%Q by (eapply (I 0%nat (0 + 1)%nat); eauto; lia). lra.
  - destruct H as [H _]. lia.
Qed.

Lemma max_all_nan time value : length time = length value ->
  (forall i v, nth_error value i = Some v -> v = NaN) ->
  max_time_relaxation time value = inl (NaN, NaN) /\ max_value_relaxation time value = inl (NaN, NaN).
Proof.
  intros L H. unfold max_time_relaxation, max_value_relaxation.
  rewrite (proj2 (Nat.eqb_eq _ _) L). cbn [negb]. rewrite (nanargmax_none _ H). auto.
Qed.

Lemma max_lengths time value : length time <> length value ->
  max_time_relaxation time value = inr RuntimeError /\ max_value_relaxation time value = inr RuntimeError.
Proof.
  intros L. unfold max_time_relaxation, max_value_relaxation.
  rewrite (proj2 (Nat.eqb_neq _ _) L). auto.
Qed.
