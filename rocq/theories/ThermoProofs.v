(** Lemmas about the dashboard of thermodynamic quantities. *)
From Coq Require Import String Reals ZArith List Bool Lia Lra Arith Sorted Permutation.
From Verif Require Import Base MotionModel ThermoModel ThermoSpec DictFacts.
Import ListNotations.
Open Scope nat_scope.
Open Scope string_scope.
Notation length := List.length.

(** ** Means *)
Lemma total_perm l l' : Permutation l l' -> total l = total l' /\ many l = many l'.
Proof.
  induction 1 as [|x l l' _ [IHt IHm]|x y l|l l' l'' _ [A B] _ [C D]]; cbn.
  - split; reflexivity.
  - destruct x; rewrite ?IHt, ?IHm; split; reflexivity.
  - destruct x, y; cbn; split; try reflexivity; lra.
  - rewrite A, B, C, D. split; reflexivity.
Qed.

Lemma is_mean_perm l l' c : Permutation l l' -> is_mean l c -> is_mean l' c.
Proof.
  intros P. destruct (total_perm _ _ P) as [T M]. destruct c as [m|]; cbn.
  - intros [[x Hx] E]. split; [exists x; eapply Permutation_in; eauto|]. now rewrite <- T, <- M.
  - intros H x Hx. apply (H x). eapply Permutation_in; [apply Permutation_sym, P|exact Hx].
Qed.

Lemma many_pos l : (exists x, In (Some x) l) -> many l <> 0.
Proof.
  intros [x Hx]. induction l as [|[y|] l IH]; cbn in *; [easy|discriminate|].
  destruct Hx as [Hx|Hx]; [discriminate|auto].
Qed.

Lemma is_mean_fun l c c' : is_mean l c -> is_mean l c' -> c = c'.
Proof.
  destruct c as [m|], c' as [m'|]; cbn.
  - intros [Hx E] [_ E']. f_equal. apply (Rmult_eq_reg_r (INR (many l))); [congruence|].
    apply not_0_INR, many_pos, Hx.
  - intros [[x Hx] _] H. destruct (H _ Hx).
  - intros H [[x Hx] _]. destruct (H _ Hx).
  - reflexivity.
Qed.

Lemma mean_cell_ok l : is_mean l (mean_cell l).
Proof.
  set (f := fun c : cell => match c with Some x => [x] | None => [] end).
  change (is_mean l (match flat_map f l with [] => None | _ => Some (fold_right Rplus 0 (flat_map f l) / INR (length (flat_map f l)))%R end)).
  assert (T : fold_right Rplus 0%R (flat_map f l) = total l /\ length (flat_map f l) = many l).
  { induction l as [|[x|] l [IHa IHb]]; cbn; [split; reflexivity| |split; assumption].
    rewrite IHa, IHb. split; reflexivity. }
  assert (M : forall x, In x (flat_map f l) <-> In (Some x) l).
  { intros x. rewrite in_flat_map. split.
    - intros ([y|] & Hy & Hx); cbn in Hx; [destruct Hx as [->|[]]; exact Hy|easy].
    - intros Hx. exists (Some x). split; [exact Hx|now left]. }
  destruct T as [T L]. destruct (flat_map f l) as [|x xs] eqn:E; unfold is_mean; cbv beta iota zeta.
  - intros x Hx. apply M in Hx. destruct Hx.
  - assert (Ex : exists y, In (Some y) l) by (exists x; apply M; now left).
    split; [exact Ex|]. rewrite T, L. field. apply not_0_INR, many_pos, Ex.
Qed.

(** ** The rows that are kept *)
Lemma kept_ok l : forall i0 i, In i (kept i0 l) <->
  i0 <= i < i0 + length l /\ forall j, i < j < i0 + length l -> nth (j - i0) l 0%Z <> nth (i - i0) l 0%Z.
Proof.
  induction l as [|t l IH]; intros i0 i; cbn [kept length].
  - cbn. lia.
  - assert (N : In i (kept (S i0) l) -> i0 < i) by (intros H; apply IH in H; lia).
    assert (R : i0 < i -> (In i (kept (S i0) l) <->
        i0 <= i < i0 + S (length l) /\ forall j, i < j < i0 + S (length l) -> nth (j - i0) (t :: l) 0%Z <> nth (i - i0) (t :: l) 0%Z)).
    { intros Hi. rewrite IH. split; intros [A B]; (split; [lia|]); intros j Hj; specialize (B j ltac:(lia)).
      - replace (j - i0) with (S (j - S i0)) by lia. replace (i - i0) with (S (i - S i0)) by lia. exact B.
      - replace (j - i0) with (S (j - S i0)) in B by lia. replace (i - i0) with (S (i - S i0)) in B by lia. exact B. }
    destruct (existsb (Z.eqb t) l) eqn:E.
    + destruct (Nat.lt_ge_cases i0 i) as [Hi|Hi]; [exact (R Hi)|].
      split; [intros H; apply N in H; lia|]. intros [A B]. assert (i = i0) by lia. subst i.
      apply existsb_exists in E. destruct E as (u & Hu & Eu). apply Z.eqb_eq in Eu. subst u.
      apply (In_nth _ _ 0%Z) in Hu. destruct Hu as (n & Hn & En).
      specialize (B (i0 + S n) ltac:(lia)). replace (i0 + S n - i0) with (S n) in B by lia.
      rewrite Nat.sub_diag in B. cbn in B. congruence.
    + cbn [In]. destruct (Nat.lt_ge_cases i0 i) as [Hi|Hi].
      * rewrite <- (R Hi). intuition lia.
      * split.
        -- intros [<-|H]; [|apply N in H; lia]. split; [lia|]. intros j Hj.
           rewrite Nat.sub_diag. replace (j - i0) with (S (j - S i0)) by lia. cbn. intros Ej.
           assert (existsb (Z.eqb t) l = true); [|congruence].
           apply existsb_exists. exists t. split; [|apply Z.eqb_refl]. rewrite <- Ej. apply nth_In. lia.
        -- intros [A _]. left. lia.
Qed.

Lemma kept_latest l i : In i (kept 0 l) <-> latest l i.
Proof.
  rewrite kept_ok. unfold latest, step_at. split; intros [A B]; (split; [lia|]); intros j Hj; specialize (B j Hj).
  - rewrite !Nat.sub_0_r in B. exact B.
  - rewrite !Nat.sub_0_r. exact B.
Qed.

Lemma kept_nodup l : forall i0, NoDup (kept i0 l).
Proof.
  induction l as [|t l IH]; intros i0; cbn [kept]; [constructor|].
  destruct (existsb (Z.eqb t) l); [apply IH|].
  constructor; [|apply IH]. intros H. apply kept_ok in H. lia.
Qed.

(** Every step has a row that is kept. *)
Lemma latest_of l s : In s l -> exists i, latest l i /\ step_at l i = s.
Proof.
  intros Hs. unfold latest, step_at. induction l as [|t l IH]; [easy|].
  destruct (in_dec Z.eq_dec s l) as [Hi|Hi].
  - destruct (IH Hi) as (i & [L M] & E). exists (S i). cbn [length nth]. split; [split; [lia|]|exact E].
    intros [|j] Hj; [lia|]. apply M. lia.
  - destruct Hs as [->|Hs]; [|contradiction]. exists 0. cbn [length nth]. split; [split; [lia|]|reflexivity].
    intros [|j] Hj; [lia|]. intros E. apply Hi. rewrite <- E. apply nth_In. lia.
Qed.

(** ** Sorting *)
Section Sort.
  Variable time : nat -> Z.
  Definition le_time (i j : nat) : Prop := (time i <= time j)%Z.

  Lemma insert_perm i l : Permutation (insert_row time i l) (i :: l).
  Proof.
    induction l as [|j l IH]; cbn; [reflexivity|].
    destruct (time i <=? time j)%Z; [reflexivity|].
    rewrite IH. apply perm_swap.
  Qed.
  Lemma sort_perm l : Permutation (sort_rows time l) l.
  Proof.
    induction l as [|i l IH]; cbn; [reflexivity|].
    unfold sort_rows in *. rewrite insert_perm. now constructor.
  Qed.
  Lemma insert_sorted i l : StronglySorted le_time l -> StronglySorted le_time (insert_row time i l).
  Proof.
    induction 1 as [|j l Sl IH F]; cbn; [repeat constructor|].
    destruct (Z.leb_spec (time i) (time j)) as [H|H].
    - constructor; [constructor; assumption|]. constructor; [exact H|].
      eapply Forall_impl; [|exact F]. unfold le_time. intros; lia.
    - constructor; [exact IH|]. apply (Permutation_Forall (Permutation_sym (insert_perm i l))).
      constructor; [unfold le_time; lia|exact F].
  Qed.
  Lemma sort_sorted l : StronglySorted le_time (sort_rows time l).
  Proof. induction l as [|i l IH]; cbn; [constructor|]. now apply insert_sorted. Qed.

  (** ** Bins *)
  Lemma before_firstn l e : StronglySorted le_time l ->
    firstn (before time l e) l = filter (fun i => (time i <? e)%Z) l.
  Proof.
    unfold before. induction 1 as [|j l Sl IH F]; cbn; [reflexivity|].
    destruct (Z.ltb_spec (time j) e) as [H|H]; cbn; [now f_equal|].
    assert (E : filter (fun i => (time i <? e)%Z) l = []); [|rewrite E; reflexivity].
    clear IH Sl. induction F as [|k l Hk F IH]; cbn; [reflexivity|].
    unfold le_time in Hk. destruct (Z.ltb_spec (time k) e); [lia|exact IH].
  Qed.
  Lemma before_skipn l e : StronglySorted le_time l ->
    skipn (before time l e) l = filter (fun i => (e <=? time i)%Z) l.
  Proof.
    unfold before. induction 1 as [|j l Sl IH F]; cbn; [reflexivity|].
    destruct (Z.ltb_spec (time j) e) as [H|H]; cbn.
    - destruct (Z.leb_spec e (time j)); [lia|exact IH].
    - assert (E : filter (fun i => (time i <? e)%Z) l = []).
      { clear IH Sl. induction F as [|k l Hk F IH]; cbn; [reflexivity|].
        unfold le_time in Hk. destruct (Z.ltb_spec (time k) e); [lia|exact IH]. }
      rewrite E in *. cbn. destruct (Z.leb_spec e (time j)); [|lia]. f_equal. cbn in IH. exact IH.
  Qed.
  Lemma before_mono l lo hi : (lo <= hi)%Z -> before time l lo <= before time l hi.
  Proof.
    intros H. unfold before. induction l as [|j l IH]; cbn; [lia|].
    destruct (Z.ltb_spec (time j) lo), (Z.ltb_spec (time j) hi); cbn; lia.
  Qed.
  Lemma sorted_filter (p : nat -> bool) l : StronglySorted le_time l -> StronglySorted le_time (filter p l).
  Proof.
    induction 1 as [|j l Sl IH F]; cbn; [constructor|]. destruct (p j); [|exact IH].
    constructor; [exact IH|]. apply Forall_forall. intros k Hk. apply filter_In in Hk.
    rewrite Forall_forall in F. now apply F.
  Qed.
  Lemma before_filter l lo hi : (lo <= hi)%Z ->
    before time (filter (fun i => (time i <? hi)%Z) l) lo = before time l lo.
  Proof.
    intros H. unfold before. induction l as [|j l IH]; cbn; [reflexivity|].
    destruct (Z.ltb_spec (time j) hi) as [A|A]; cbn.
    - destruct (time j <? lo)%Z; cbn; now rewrite IH.
    - destruct (Z.ltb_spec (time j) lo); [lia|exact IH].
  Qed.
  (** A slice between the edges has the rows between them. *)
  Lemma slice_in l lo hi i : StronglySorted le_time l -> (lo <= hi)%Z ->
    In i (firstn (before time l hi - before time l lo) (skipn (before time l lo) l)) <->
    In i l /\ (lo <= time i < hi)%Z.
  Proof.
    intros Sl H. pose proof (before_mono l _ _ H) as M.
    rewrite firstn_skipn_comm. replace (before time l lo + (before time l hi - before time l lo)) with (before time l hi) by lia.
    rewrite before_firstn by exact Sl. rewrite <- (before_filter l lo hi H).
    rewrite before_skipn by (apply sorted_filter, Sl).
    rewrite !filter_In, Z.leb_le, Z.ltb_lt. intuition lia.
  Qed.
  Lemma slice_nodup {A} n m (l : list A) : NoDup l -> NoDup (firstn n (skipn m l)).
  Proof.
    intros H.
    assert (K : NoDup (skipn m l)).
    { rewrite <- (firstn_skipn m l) in H. revert H. generalize (firstn m l) (skipn m l).
      intros a b. induction a as [|x a IH]; cbn; [easy|]. inversion 1; auto. }
    revert K. rewrite <- (firstn_skipn n (skipn m l)) at 1. generalize (firstn n (skipn m l)) (skipn n (skipn m l)).
    intros a b. induction a as [|x a IH]; cbn; [constructor|]. inversion 1; subst. constructor; [|auto].
    intros Hx. apply H2. apply in_or_app. now left.
  Qed.

  Lemma sorted_last l d i : StronglySorted le_time l -> In i l -> le_time i (last l d).
  Proof.
    intros Sl. revert d i. induction Sl as [|j l Sl IH F]; intros d i; [easy|].
    intros [->|Hi].
    - destruct l as [|k l]; [unfold le_time; cbn; lia|].
      change (last (i :: k :: l) d) with (last (k :: l) d).
      inversion F; subst. specialize (IH d k (or_introl eq_refl)). unfold le_time in *. lia.
    - destruct l as [|k l]; [easy|]. change (last (j :: k :: l) d) with (last (k :: l) d). now apply IH.
  Qed.
  Lemma last_in {A} (l : list A) d : l <> [] -> In (last l d) l.
  Proof.
    induction l as [|x l IH]; [easy|]. intros _. destruct l as [|y l]; [now left|].
    right. change (last (x :: y :: l) d) with (last (y :: l) d). apply IH. discriminate.
  Qed.

  (** The bins *)
  Lemma groups_ok l i0 l' : StronglySorted le_time l -> NoDup l -> l = i0 :: l' ->
    let start := time i0 in let n := length (groups time l) in
    (forall i, In i l -> (start <= time i < start + Z.of_nat n * bin)%Z) /\
    (exists i, In i l /\ (start + (Z.of_nat n - 1) * bin <= time i)%Z) /\
    forall k, k < n -> NoDup (nth k (groups time l) []) /\
      forall i, In i (nth k (groups time l) []) <->
        In i l /\ (start + Z.of_nat k * bin <= time i < start + (Z.of_nat k + 1) * bin)%Z.
  Proof.
    intros Sl Nl El. cbv zeta.
    assert (B : (0 < bin)%Z) by reflexivity.
    assert (L : length (groups time l) = Z.to_nat ((time (last l i0) - time i0) / bin + 1)).
    { rewrite El. unfold groups. now rewrite map_length, seq_length. }
    assert (I0 : In i0 l) by (rewrite El; now left).
    pose proof (sorted_last l i0 i0 Sl I0) as Le. unfold le_time in Le.
    assert (P : (0 <= (time (last l i0) - time i0) / bin)%Z) by (apply Z.div_pos; lia).
    pose proof (Z.mul_div_le (time (last l i0) - time i0) bin B) as D1.
    pose proof (Z.mul_succ_div_gt (time (last l i0) - time i0) bin B) as D2.
    assert (Ln : Z.of_nat (length (groups time l)) = ((time (last l i0) - time i0) / bin + 1)%Z) by (rewrite L; lia).
    assert (Mn : forall i, In i l -> (time i0 <= time i)%Z).
    { intros i Hi. rewrite El in Hi, Sl. destruct Hi as [->|Hi]; [lia|].
      inversion Sl as [|? ? _ F]; subst. rewrite Forall_forall in F. apply (F _ Hi). }
    split; [|split].
    - intros i Hi. split; [now apply Mn|].
      pose proof (sorted_last l i0 i Sl Hi) as Li. unfold le_time in Li. rewrite Ln. lia.
    - exists (last l i0). split; [apply last_in; rewrite El; discriminate|]. rewrite Ln. lia.
    - intros k Hk.
      assert (E : nth k (groups time l) [] =
        firstn (before time l (time i0 + (Z.of_nat k + 1) * bin) - before time l (time i0 + Z.of_nat k * bin))
               (skipn (before time l (time i0 + Z.of_nat k * bin)) l)).
      { rewrite L in Hk. rewrite El in *. unfold groups.
        match goal with |- nth k (map ?g ?s) [] = _ => rewrite (nth_indep _ [] (g 0)) by (rewrite map_length, seq_length; exact Hk);
          rewrite (map_nth g s 0 k) end.
        rewrite seq_nth by exact Hk. reflexivity. }
      rewrite E. split; [now apply slice_nodup|]. intros i. apply slice_in; [exact Sl|lia].
  Qed.
End Sort.

(** ** Resampling *)
Lemma resample_ok steps c : steps <> [] -> averages steps c (resample steps c).
Proof.
  intros Ne. unfold resample. set (time := fun i => time_of (nth i steps 0%Z)).
  set (l := sort_rows time (kept 0 steps)).
  assert (Sl : StronglySorted (le_time time) l) by apply sort_sorted.
  assert (Pl : Permutation l (kept 0 steps)) by apply sort_perm.
  assert (Nl : NoDup l) by (eapply Permutation_NoDup; [apply Permutation_sym, Pl|apply kept_nodup]).
  assert (Il : forall i, In i l <-> latest steps i).
  { intros i. rewrite <- kept_latest. split; apply Permutation_in; [exact Pl|apply Permutation_sym, Pl]. }
  destruct l as [|i0 l'] eqn:El.
  { exfalso. destruct steps as [|s steps]; [easy|].
    destruct (latest_of (s :: steps) s (or_introl eq_refl)) as (i & Hi & _). apply Il in Hi. destruct Hi. }
  rewrite <- El in *.
  assert (El' : l = i0 :: l') by exact El. clear El.
  destruct (groups_ok time l i0 l' Sl Nl El') as (A & (im & Im & Bm) & G).
  assert (T : forall i, time i = (5 * step_at steps i)%Z) by reflexivity.
  exists (step_at steps i0). rewrite map_length. unfold bin in *.
  split; [split; [|split]|].
  - apply nth_In. assert (In i0 l) as H by (rewrite El'; now left). apply Il in H. apply H.
  - intros s Hs. destruct (latest_of _ _ Hs) as (i & Hi & <-). apply Il in Hi. specialize (A i Hi). rewrite !T in A. lia.
  - exists (step_at steps im). split; [apply nth_In; apply Il in Im; apply Im|]. rewrite !T in Bm. lia.
  - intros k Hk. destruct (G k Hk) as [Nk Ik]. exists (nth k (groups time l) []).
    split; [exact Nk|]. split.
    + intros i. rewrite Ik, Il. unfold in_window. rewrite !T. intuition lia.
    + match goal with |- is_mean _ (nth k (map ?g _) None) =>
        rewrite (nth_indep _ None (g [])) by (rewrite map_length; exact Hk); rewrite (map_nth g) end.
      apply mean_cell_ok.
Qed.

Lemma averages_fun steps c out out' : averages steps c out -> averages steps c out' -> out = out'.
Proof.
  intros (s0 & (I0 & B & L) & A) (s0' & (I0' & B' & L') & A').
  assert (s0 = s0').
  { pose proof (B _ I0'). pose proof (B' _ I0). lia. }
  subst s0'. destruct L as (s & Is & Ls). destruct L' as (s' & Is' & Ls').
  pose proof (B _ Is'). pose proof (B' _ Is).
  assert (N : length out = length out') by lia.
  apply (nth_ext _ _ None None); [exact N|]. intros k Hk.
  destruct (A k Hk) as (r & Nr & Ir & Mr). destruct (A' k (eq_ind _ (fun n => k < n) Hk _ N)) as (r' & Nr' & Ir' & Mr').
  assert (P : Permutation r r').
  { apply NoDup_Permutation; [assumption..|]. intros i. now rewrite Ir, Ir'. }
  eapply is_mean_fun; [|exact Mr']. eapply is_mean_perm; [|exact Mr]. apply Permutation_map, P.
Qed.

(** ** Reading *)
Lemma quantity_dec p : {quantity p} + {~ quantity p}.
Proof.
  destruct p as [n c]. destruct (string_dec n "time") as [->|H].
  - right. inversion 1; congruence.
  - destruct c; [left; now constructor|left; now constructor|right; inversion 1].
Qed.

Lemma quantities_fun f a b : quantities f a -> quantities f b -> a = b.
Proof.
  intros H. revert b. induction H; intros b Hb; inversion Hb; subst; try contradiction; f_equal; auto.
Qed.

Lemma quantities_in f names : quantities f names -> forall n, In n names <-> exists c, In (n, c) f /\ quantity (n, c).
Proof.
  induction 1 as [|p f names Q _ IH|p f names Q _ IH]; intros n.
  - cbn. split; [easy|intros (c & [] & _)].
  - cbn. rewrite IH. split.
    + intros [<-|(c & I & Hq)]; [exists (snd p); destruct p; split; [now left|exact Q]|exists c; auto].
    + intros (c & [->|I] & Hq); [now left|right; eauto].
  - rewrite IH. cbn. split; intros (c & I & Hq); [exists c; auto|].
    destruct I as [->|I]; [contradiction|eauto].
Qed.

Lemma quantities_nodup f names : quantities f names -> NoDup (map fst f) -> NoDup names.
Proof.
  induction 1 as [|p f names Q H IH|p f names Q H IH]; cbn; intros Nd; [constructor| |].
  - inversion Nd; subst. constructor; [|auto]. intros Hi. apply H2.
    apply (quantities_in _ _ H) in Hi. destruct Hi as (c & I & _). apply in_map_iff. exists (fst p, c). auto.
  - inversion Nd; auto.
Qed.

Lemma dget_of_in {V} n (c : V) f : NoDup (map fst f) -> In (n, c) f -> dget String.eqb n f = Some c.
Proof.
  induction f as [|[m d] f IH]; cbn; [easy|]. intros Nd [[= -> ->]|I].
  - now rewrite String.eqb_refl.
  - inversion Nd; subst. destruct (String.eqb_spec n m) as [->|_]; [|auto].
    exfalso. apply H1. apply in_map_iff. exists (m, c). auto.
Qed.

Definition columns_of (steps : list Z) (f : tfile) : frame :=
  flat_map (fun p => match numbers (snd p) with Some c => [(fst p, resample steps c)] | None => [] end)
           (filter (fun p => negb (String.eqb (fst p) "time")) f).

Lemma columns_of_spec steps f : quantities f (map fst (columns_of steps f)) /\
  forall n out, In (n, out) (columns_of steps f) <->
    exists c, In (n, c) f /\ quantity (n, c) /\ out = resample steps (cells c).
Proof.
  unfold columns_of. induction f as [|[m d] f [IHq IHi]]; cbn -[String.eqb].
  - split; [constructor|]. intros. split; [easy|intros (c & [] & _)].
  - destruct (String.eqb_spec m "time") as [->|Hm]; cbn.
    + split; [constructor 3; [inversion 1; congruence|exact IHq]|]. intros n out. rewrite IHi.
      split; intros (c & I & Hq & E); [exists c; auto|]. destruct I as [[= <- <-]|I]; [inversion Hq; congruence|eauto].
    + assert (T : forall c, numbers d = Some c -> quantity (m, d) /\ cells d = c).
      { destruct d; cbn; intros c [= <-]; (split; [now constructor|reflexivity]). }
      destruct (numbers d) as [c|] eqn:Ed; cbn.
      * destruct (T _ eq_refl) as [Q E]. split; [now apply (qs_yes (m, d))|]. intros n out. rewrite IHi. split.
        -- intros [[= <- <-]|(c' & I & Hq & E')]; [exists d; subst; auto|eauto].
        -- intros (c' & [[= <- <-]|I] & Hq & E'); [left; subst; reflexivity|right; eauto].
      * assert (Q : ~ quantity (m, d)) by (inversion 1; subst; discriminate).
        split; [now constructor 3|]. intros n out. rewrite IHi. split.
        -- intros (c & I & R). exists c. auto.
        -- intros (c & [[= <- <-]|I] & Hq & E'); [contradiction|eauto].
Qed.

Lemma read_ok f : rectangular f -> exists d, read_file f = inl d /\ table_of f d /\ NoDup (map fst d).
Proof.
  intros (Nd & steps & Is & Ne & _). unfold read_file. rewrite (dget_of_in _ _ _ Nd Is).
  destruct (columns_of_spec steps f) as [Q I]. exists (columns_of steps f).
  split; [reflexivity|]. split; [|eapply quantities_nodup; eauto].
  split; [exact Q|]. exists steps. split; [exact Is|]. intros n c out Hc Ho.
  apply I in Ho. destruct Ho as (c' & Hc' & _ & ->).
  assert (c' = c).
  { pose proof (dget_of_in _ _ _ Nd Hc). pose proof (dget_of_in _ _ _ Nd Hc'). congruence. }
  subst c'. apply resample_ok, Ne.
Qed.

Lemma table_fun f d d' : rectangular f -> table_of f d -> table_of f d' -> d = d'.
Proof.
  intros (Nd & steps & Is & Ne & _) (Q & st & I & A) (Q' & st' & I' & A').
  assert (st = steps).
  { pose proof (dget_of_in _ _ _ Nd Is). pose proof (dget_of_in _ _ _ Nd I). congruence. }
  assert (st' = steps).
  { pose proof (dget_of_in _ _ _ Nd Is). pose proof (dget_of_in _ _ _ Nd I'). congruence. }
  subst st st'.
  pose proof (quantities_fun _ _ _ Q Q') as K.
  assert (In0 : forall n, In n (map fst d) -> exists c, In (n, c) f).
  { intros n Hn. apply (quantities_in _ _ Q) in Hn. destruct Hn as (c & Hc & _). eauto. }
  clear Q Q' I I'.
  revert d' K A'. induction d as [|[n out] d IH]; intros [|[n' out'] d'] K A'; try discriminate; [reflexivity|].
  cbn in K. injection K as <- K. f_equal.
  - f_equal. destruct (In0 n (or_introl eq_refl)) as (c & Hc).
    eapply averages_fun; [apply (A n c out Hc (or_introl eq_refl))|apply (A' n c out' Hc (or_introl eq_refl))].
  - apply IH; auto.
    + intros n0 c0 out0 H0 H1. apply (A n0); [exact H0|now right].
    + intros n0 Hn. apply In0. now right.
    + intros n0 c0 out0 H0 H1. apply (A' n0); [exact H0|now right].
Qed.

(** ** The dashboard *)
Lemma dget_some_in {V} n (d : dict string V) : In n (map fst d) -> exists c, dget String.eqb n d = Some c.
Proof.
  intros H. destruct (dget String.eqb n d) as [c|] eqn:E; [eauto|].
  exfalso. apply (dget_In String.eqb String.eqb_eq) in H. contradiction.
Qed.

(** The averages [d] have everything that the plots need. *)
Definition complete (d : frame) : Prop := In "timestep" (map fst d) /\ incl four (map fst d) /\ NoDup (map fst d).

Lemma good_read f : good f -> exists d, read_file f = inl d /\ table_of f d /\ complete d.
Proof.
  intros (Hr & names & Q & T & F). destruct (read_ok f Hr) as (d & E & Td & Nd).
  exists d. split; [exact E|]. split; [exact Td|].
  pose proof (quantities_fun _ _ _ Q (proj1 Td)) as ->. repeat split; assumption.
Qed.

Lemma complete_third d : complete d -> exists q, nth_error (map fst d) 2 = Some q.
Proof.
  intros (T & F & Nd). destruct (nth_error (map fst d) 2) eqn:E; [eauto|].
  apply nth_error_None in E.
  assert (L : length four <= length (map fst d)).
  { apply NoDup_incl_length; [|exact F]. repeat constructor; cbn; intuition discriminate. }
  cbn in L. lia.
Qed.

Lemma update_datacolumns_ok s d : v_data s = d -> complete d -> In (v_factor s) (map fst d) -> v_factors s = map fst d ->
  exists s', update_datacolumns s = (s', None) /\ plotted s' d /\ v_data s' = d /\ v_dir s' = v_dir s /\
    v_options s' = v_options s /\ v_file s' = v_file s /\ v_factor s' = v_factor s.
Proof.
  intros Ed (T & F & Nd) Hf Hfs.
  destruct (dget_some_in _ _ T) as (x & Ex).
  destruct (dget_some_in _ _ (F "temperature" ltac:(cbn; tauto))) as (t & Et).
  destruct (dget_some_in _ _ (F "pressure" ltac:(cbn; tauto))) as (p & Ep).
  destruct (dget_some_in _ _ (F "potential_energy" ltac:(cbn; tauto))) as (u & Eu).
  destruct (dget_some_in _ _ (F "kinetic_energy" ltac:(cbn; tauto))) as (k & Ek).
  destruct (dget_some_in _ _ Hf) as (y & Ey).
  unfold update_datacolumns, attribute. rewrite Ed, Ex, Et, Ep, Eu, Ek. cbn [ebind v_factor]. rewrite Ey.
  eexists. split; [reflexivity|]. cbn [v_data v_dir v_options v_file v_factor]. repeat (split; [|now auto]).
  unfold plotted, column. cbn [v_default v_columns v_factor v_factors].
  rewrite Ex, Ey. split; [split; [reflexivity|discriminate]|]. split.
  - intros name [<-|[<-|[<-|[<-|[]]]]]; rewrite ?Et, ?Ep, ?Eu, ?Ek; split; try reflexivity; discriminate.
  - split; [split; [reflexivity|discriminate]|]. split; [split; [reflexivity|discriminate]|].
    split; [reflexivity|exact Hfs].
Qed.

Lemma set_factor_ok s d q : v_data s = d -> complete d -> v_factors s = map fst d -> In q (map fst d) ->
  (q = v_factor s -> plotted s d) ->
  exists s', set_factor q s = (s', None) /\ plotted s' d /\ v_data s' = d /\ v_dir s' = v_dir s /\
    v_options s' = v_options s /\ v_file s' = v_file s /\ v_factor s' = q.
Proof.
  intros Ed Cd Hfs Hq Hp. unfold set_factor. destruct (String.eqb_spec q (v_factor s)) as [->|N].
  - exists s. auto 10.
  - destruct (update_datacolumns_ok
      (mkview (v_dir s) (v_options s) (v_file s) (v_data s) (v_factors s) q (v_default s) (v_columns s)) d)
      as (s' & E & R); auto. exists s'. auto.
Qed.

Section View.
  Variable content : string -> string -> tfile + exn.

  Lemma update_file_ok s n f : content (v_dir s) n = inl f -> good f ->
    exists s' d, update_file content n s = (s', None) /\ read_file f = inl d /\ table_of f d /\ complete d /\
      plotted s' d /\ v_data s' = d /\ v_dir s' = v_dir s /\ v_options s' = v_options s /\ v_file s' = v_file s /\
      nth_error (v_factors s') 2 = Some (v_factor s').
  Proof.
    intros Hc Hg. destruct (good_read f Hg) as (d & Ed & Td & Cd). destruct (complete_third d Cd) as (q & Eq).
    assert (Iq : In q (map fst d)) by (eapply nth_error_In, Eq).
    unfold update_file. rewrite Hc. cbn [ebind]. rewrite Ed. unfold update_factors.
    cbn [v_data v_dir v_options v_file v_factor v_factors v_default v_columns]. unfold dkeys. rewrite Eq.
    unfold set_factor. cbn [v_data v_dir v_options v_file v_factor v_factors v_default v_columns].
    destruct (String.eqb_spec q (v_factor s)) as [Eq'|N].
    - destruct (update_datacolumns_ok
        (mkview (v_dir s) (v_options s) (v_file s) d (map fst d) (v_factor s) (v_default s) (v_columns s)) d)
        as (s' & E & P & Dt & A1 & A2 & A3 & A4); auto; [cbn; now rewrite <- Eq'|].
      exists s', d. cbn in A1, A2, A3, A4. repeat (split; [assumption || reflexivity|]).
      replace (v_factors s') with (map fst d) by (symmetry; apply P). rewrite A4, <- Eq'. exact Eq.
    - destruct (update_datacolumns_ok
        (mkview (v_dir s) (v_options s) (v_file s) d (map fst d) q (v_default s) (v_columns s)) d)
        as (s1 & E1 & P1 & Dt1 & A1 & A2 & A3 & A4); auto.
      rewrite E1. cbn in A1, A2, A3, A4.
      destruct (update_datacolumns_ok s1 d) as (s' & E & P & Dt & B1 & B2 & B3 & B4); auto; [now rewrite A4|apply P1|].
      exists s', d. rewrite B1, B2, B3. repeat (split; [assumption || reflexivity|]).
      replace (v_factors s') with (map fst d) by (symmetry; apply P). rewrite B4, A4. exact Eq.
  Qed.

  Lemma set_file_ok s n f : content (v_dir s) n = inl f -> good f -> n <> v_file s ->
    exists s' d, set_file content n s = (s', None) /\ read_file f = inl d /\ table_of f d /\ complete d /\
      plotted s' d /\ v_data s' = d /\ v_dir s' = v_dir s /\ v_options s' = v_options s /\ v_file s' = n /\
      nth_error (v_factors s') 2 = Some (v_factor s').
  Proof.
    intros Hc Hg N. unfold set_file. destruct (String.eqb_spec n (v_file s)) as [->|_]; [contradiction|].
    apply (update_file_ok (mkview (v_dir s) (v_options s) n (v_data s) (v_factors s) (v_factor s) (v_default s) (v_columns s))); assumption.
  Qed.

  Lemma update_datacolumns_same s s' e : update_datacolumns s = (s', e) ->
    v_dir s' = v_dir s /\ v_options s' = v_options s /\ v_file s' = v_file s /\ v_factor s' = v_factor s /\
    v_data s' = v_data s /\ v_factors s' = v_factors s.
  Proof.
    unfold update_datacolumns. destruct (ebind _ _) as [[x def]|ex]; [|intros [= <- <-]; auto 10].
    cbn [v_data v_dir v_options v_file v_factor v_factors v_default v_columns].
    destruct (dget _ _ _); intros [= <- <-]; cbn; auto 10.
  Qed.
  Lemma set_factor_same q s s' e : set_factor q s = (s', e) ->
    v_dir s' = v_dir s /\ v_options s' = v_options s /\ v_file s' = v_file s /\ v_factor s' = q /\
    v_data s' = v_data s /\ v_factors s' = v_factors s.
  Proof.
    unfold set_factor. destruct (String.eqb_spec q (v_factor s)) as [->|_]; [intros [= <- <-]; auto 10|].
    intros H. apply update_datacolumns_same in H. exact H.
  Qed.
  Lemma update_file_same n s s' e : update_file content n s = (s', e) ->
    v_dir s' = v_dir s /\ v_options s' = v_options s /\ v_file s' = v_file s /\
    (v_factors s = dkeys (v_data s) -> v_factors s' = dkeys (v_data s')).
  Proof.
    unfold update_file. destruct (ebind _ _) as [d|ex]; [|intros [= <- <-]; auto].
    unfold update_factors. cbn [v_data v_dir v_options v_file v_factor v_factors v_default v_columns].
    destruct (nth_error _ 2) as [q|]; [|intros [= <- <-]; cbn; auto].
    destruct (set_factor q _) as [s1 [e1|]] eqn:E1.
    - intros [= <- <-]. apply set_factor_same in E1. cbn in E1. destruct E1 as (A & B & C & D & F & G).
      rewrite F, G. auto.
    - intros H. apply update_datacolumns_same in H. apply set_factor_same in E1. cbn in E1.
      destruct E1 as (A & B & C & D & F & G). destruct H as (A' & B' & C' & D' & F' & G').
      rewrite A', B', C', F', G', A, B, C, F, G. auto.
  Qed.
  Lemma set_file_same n s s' e : set_file content n s = (s', e) ->
    v_dir s' = v_dir s /\ v_options s' = v_options s /\ v_file s' = n /\ (n = v_file s -> s' = s /\ e = None) /\
    (v_factors s = dkeys (v_data s) -> v_factors s' = dkeys (v_data s')).
  Proof.
    unfold set_file. destruct (String.eqb_spec n (v_file s)) as [->|N]; [intros [= <- <-]; auto 10|].
    intros H. apply update_file_same in H. cbn in H. intuition.
  Qed.
End View.
