(** Proofs about molecular relaxations. *)
From Coq Require Import String ZArith QArith List Bool Lia Arith Permutation.
From Verif Require Import Base DictFacts XNum MolRelaxModel MolRelaxSpec.
Import ListNotations.
Open Scope Z_scope.

(** *** elementwise operations *)
Lemma zip_with_length {A B C} (f : A -> B -> C) l : forall m,
  length l = length m -> length (zip_with f l m) = length m.
Proof. induction l; intros [|y m] H; simpl in *; auto; try discriminate. Qed.

Lemma zip_with_nth {A B C} (f : A -> B -> C) i : forall l m a b,
  nth_error l i = Some a -> nth_error m i = Some b ->
  nth_error (zip_with f l m) i = Some (f a b).
Proof.
  induction i as [|i IH]; intros [|x l] [|y m] a b H1 H2; simpl in *; try discriminate; eauto.
  congruence.
Qed.

Lemma nth_error_nth_lt {A} (l : list A) i d : (i < length l)%nat -> nth_error l i = Some (nth i l d).
Proof.
  revert i. induction l as [|x l IH]; intros [|i] H; simpl in *; try lia; auto. apply IH; lia.
Qed.

(** *** one molecule *)
Definition fstep (thr : xnum) (s : Z) (c : Z * xnum) : Z :=
  if xgt (snd c) thr && (s >? fst c) then fst c else s.

Definition lstep (thr irr : xnum) (x : Z * nat) (c : Z * xnum) : Z * nat :=
  let (t, d) := c in
  let (s, st) := x in
  let passed := xgt d thr && (st =? 0)%nat in
  let st := if passed then 1%nat else st in
  let s := if passed then t else s in
  let st := if xlt d thr && (st =? 1)%nat then 0%nat else st in
  let st := if xgt d irr && (st =? 1)%nat then 2%nat else st in
  (s, st).

Definition is_first (thr : xnum) (ty : rtype) (n : nat) (r : molrel) : Prop :=
  mr_threshold r = thr /\ mr_type r = ty /\ mr_last r = None /\ length (mr_status r) = n.
Definition is_last (thr irr : xnum) (ty : rtype) (n : nat) (r : molrel) : Prop :=
  mr_threshold r = thr /\ mr_type r = ty /\ length (mr_status r) = n /\
  exists st, mr_last r = Some (st, irr) /\ length st = n.

Definition cell (r : molrel) (i : nat) : option (Z * nat) :=
  match mr_last r with
  | None => None
  | Some (st, _) => match nth_error (mr_status r) i, nth_error st i with
                    | Some a, Some b => Some (a, b)
                    | _, _ => None
                    end
  end.

Lemma mr_add_first thr ty n r t d : is_first thr ty n r ->
  (length d <> n -> mr_add t d r = inr RuntimeError) /\
  (length d = n -> exists r', mr_add t d r = inl r' /\ is_first thr ty n r' /\
     forall i s, (i < n)%nat -> nth_error (mr_status r) i = Some s ->
       nth_error (mr_status r') i = Some (fstep thr s (t, nth i d NaN))).
Proof.
  intros (H1 & H2 & H3 & H4). unfold mr_add. rewrite H4. split; intros Hd.
  - apply Nat.eqb_neq in Hd. rewrite Hd. reflexivity.
  - rewrite Hd, Nat.eqb_refl, H3. simpl. eexists. split; [reflexivity|]. split.
    + unfold is_first; simpl. repeat split; auto. unfold first_update, set_where.
      rewrite zip_with_length; auto.
      rewrite zip_with_length; rewrite !map_length; congruence.
    + simpl. intros i s Hi Hs. unfold first_update, set_where.
      assert (Ed : nth_error d i = Some (nth i d NaN)) by (apply nth_error_nth_lt; lia).
      assert (E1 := map_nth_error (fun d => xgt d (mr_threshold r)) _ _ Ed).
      assert (E2 := map_nth_error (fun s => s >? t) _ _ Hs).
      rewrite (zip_with_nth _ i _ _ _ _ (zip_with_nth andb i _ _ _ _ E1 E2) Hs).
      unfold fstep. simpl. rewrite H1. reflexivity.
Qed.

Lemma mr_add_last thr irr ty n r t d : is_last thr irr ty n r ->
  (length d <> n -> mr_add t d r = inr RuntimeError) /\
  (length d = n -> exists r', mr_add t d r = inl r' /\ is_last thr irr ty n r' /\
     forall i x, (i < n)%nat -> cell r i = Some x ->
       cell r' i = Some (lstep thr irr x (t, nth i d NaN))).
Proof.
  intros (H1 & H2 & H3 & st & H4 & H5). unfold mr_add. rewrite H3. split; intros Hd.
  - apply Nat.eqb_neq in Hd. rewrite Hd. reflexivity.
  - rewrite Hd, Nat.eqb_refl, H4. simpl negb. cbv iota.
    unfold last_update. eexists. split; [reflexivity|]. rewrite H1.
    set (passed := zip_with _ d st).
    set (st1 := set_where passed 1%nat st).
    set (below := zip_with _ d st1).
    set (st2 := set_where below 0%nat st1).
    set (irrev := zip_with _ d st2).
    assert (L0 : length passed = n) by (unfold passed; rewrite zip_with_length; congruence).
    assert (L1 : length st1 = n) by (unfold st1, set_where; rewrite zip_with_length; congruence).
    assert (L2 : length below = n) by (unfold below; rewrite zip_with_length; congruence).
    assert (L3 : length st2 = n) by (unfold st2, set_where; rewrite zip_with_length; congruence).
    assert (L4 : length irrev = n) by (unfold irrev; rewrite zip_with_length; congruence).
    split.
    + unfold is_last; simpl. unfold set_where. rewrite zip_with_length by congruence.
      repeat split; auto. eexists. split; [reflexivity|]. rewrite zip_with_length; congruence.
    + intros i [s x] Hi Hc. unfold cell in *. rewrite H4 in Hc. simpl.
      destruct (nth_error (mr_status r) i) as [s0|] eqn:Es; [|discriminate].
      destruct (nth_error st i) as [x0|] eqn:Ex; [|discriminate]. injection Hc as -> ->.
      assert (Ed : nth_error d i = Some (nth i d NaN)) by (apply nth_error_nth_lt; lia).
      assert (E0 : nth_error passed i = Some (xgt (nth i d NaN) thr && (x =? 0)%nat))
        by (unfold passed; erewrite zip_with_nth; eauto).
      assert (E1 := zip_with_nth (fun (b : bool) x => if b then 1%nat else x) i _ _ _ _ E0 Ex).
      fold (set_where passed 1%nat st) in E1. fold st1 in E1.
      assert (E2 := zip_with_nth (fun d s => xlt d thr && (s =? 1)%nat) i _ _ _ _ Ed E1).
      fold below in E2.
      assert (E3 := zip_with_nth (fun (b : bool) x => if b then 0%nat else x) i _ _ _ _ E2 E1).
      fold (set_where below 0%nat st1) in E3. fold st2 in E3.
      assert (E4 := zip_with_nth (fun d s => xgt d irr && (s =? 1)%nat) i _ _ _ _ Ed E3).
      fold irrev in E4.
      assert (E5 := zip_with_nth (fun (b : bool) x => if b then 2%nat else x) i _ _ _ _ E4 E3).
      fold (set_where irrev 2%nat st2) in E5.
      assert (E6 := zip_with_nth (fun (b : bool) x => if b then t else x) i _ _ _ _ E0 Es).
      fold (set_where passed t (mr_status r)) in E6.
      rewrite E5, E6. reflexivity.
Qed.

Lemma observe_first thr ty n h : forall r, is_first thr ty n r ->
  is_first thr ty n (observe r h) /\
  forall i s, (i < n)%nat -> nth_error (mr_status r) i = Some s ->
    nth_error (mr_status (observe r h)) i = Some (fold_left (fstep thr) (seen n i h) s).
Proof.
  induction h as [|[t d] h IH]; intros r Hr; simpl; [auto|].
  destruct (mr_add_first thr ty n r t d Hr) as [A B].
  unfold observe in *; simpl.
  destruct (Nat.eq_dec (length d) n) as [E|E].
  - destruct (B E) as (r' & B1 & B2 & B3). rewrite B1. destruct (IH r' B2) as [C1 C2].
    split; auto. intros i s Hi Hs. apply Nat.eqb_eq in E. rewrite E. simpl. apply C2; [auto|exact (B3 i s Hi Hs)].
  - rewrite (A E). destruct (IH r Hr) as [C1 C2]. split; auto.
    apply Nat.eqb_neq in E. rewrite E. simpl. auto.
Qed.

Lemma observe_last thr irr ty n h : forall r, is_last thr irr ty n r ->
  is_last thr irr ty n (observe r h) /\
  forall i x, (i < n)%nat -> cell r i = Some x ->
    cell (observe r h) i = Some (fold_left (lstep thr irr) (seen n i h) x).
Proof.
  induction h as [|[t d] h IH]; intros r Hr; simpl; [auto|].
  destruct (mr_add_last thr irr ty n r t d Hr) as [A B].
  unfold observe in *; simpl.
  destruct (Nat.eq_dec (length d) n) as [E|E].
  - destruct (B E) as (r' & B1 & B2 & B3). rewrite B1. destruct (IH r' B2) as [C1 C2].
    split; auto. intros i s Hi Hs. apply Nat.eqb_eq in E. rewrite E. simpl. apply C2; [auto|exact (B3 i s Hi Hs)].
  - rewrite (A E). destruct (IH r Hr) as [C1 C2]. split; auto.
    apply Nat.eqb_neq in E. rewrite E. simpl. auto.
Qed.

Lemma nth_error_repeat {A} (x : A) n i : (i < n)%nat -> nth_error (repeat x n) i = Some x.
Proof. revert i. induction n; intros [|i] H; simpl; try lia; auto. apply IHn; lia. Qed.

Lemma first_init_is n thr ty : is_first thr ty n (first_init n thr ty).
Proof. unfold is_first; simpl. rewrite repeat_length. auto. Qed.
Lemma last_init_is n thr irr ty : is_last thr irr ty n (last_init n thr irr ty).
Proof.
  unfold is_last; simpl. rewrite repeat_length. repeat split; auto.
  eexists. split; [reflexivity|]. apply repeat_length.
Qed.

Lemma first_status n thr ty h i : (i < n)%nat ->
  nth_error (get_status (observe (first_init n thr ty) h)) i =
  Some (fold_left (fstep thr) (seen n i h) max_value).
Proof.
  intros Hi. destruct (observe_first thr ty n h _ (first_init_is n thr ty)) as [(A1 & A2 & A3 & A4) B].
  unfold get_status. rewrite A3. apply B; auto. apply nth_error_repeat; auto.
Qed.

Definition shown_status (x : Z * nat) : Z := if (snd x =? 2)%nat then fst x else max_value.

Lemma last_status n thr irr ty h i : (i < n)%nat ->
  nth_error (get_status (observe (last_init n thr irr ty) h)) i =
  Some (shown_status (fold_left (lstep thr irr) (seen n i h) (max_value, 0%nat))).
Proof.
  intros Hi.
  destruct (observe_last thr irr ty n h _ (last_init_is n thr irr ty))
    as [(A1 & A2 & A3 & st & A4 & A5) B].
  specialize (B i (max_value, 0%nat) Hi). unfold cell in B at 1. simpl in B.
  rewrite !nth_error_repeat in B by auto. specialize (B eq_refl).
  unfold cell in B. unfold get_status. rewrite A4 in *.
  destruct (nth_error (mr_status _) i) as [a|] eqn:E1; [|discriminate].
  destruct (nth_error st i) as [b|] eqn:E2; [|discriminate].
  injection B as B. rewrite <- B. unfold set_where.
  erewrite zip_with_nth; [|apply map_nth_error; exact E2|exact E1].
  unfold shown_status; simpl. destruct (b =? 2)%nat; reflexivity.
Qed.

Lemma status_length_first n thr ty h : length (get_status (observe (first_init n thr ty) h)) = n.
Proof.
  destruct (observe_first thr ty n h _ (first_init_is n thr ty)) as [(A1 & A2 & A3 & A4) B].
  unfold get_status. rewrite A3. auto.
Qed.
Lemma status_length_last n thr irr ty h :
  length (get_status (observe (last_init n thr irr ty) h)) = n.
Proof.
  destruct (observe_last thr irr ty n h _ (last_init_is n thr irr ty))
    as [(A1 & A2 & A3 & st & A4 & A5) B].
  unfold get_status. rewrite A4. unfold set_where. rewrite zip_with_length; auto.
  rewrite map_length. congruence.
Qed.

(** *** first passage *)
Lemma fstep_le thr s c : fstep thr s c <= s.
Proof. unfold fstep. destruct (xgt (snd c) thr && (s >? fst c)) eqn:E; [|lia].
  apply andb_prop in E as [_ E]. rewrite Z.gtb_ltb in E. apply Z.ltb_lt in E. lia. Qed.

Lemma fold_fstep_le thr l : forall s, fold_left (fstep thr) l s <= s.
Proof.
  induction l as [|c l IH]; intros s; simpl; [lia|].
  specialize (IH (fstep thr s c)). assert (H := fstep_le thr s c). lia.
Qed.

Lemma fold_fstep_spec thr l : forall s,
  (fold_left (fstep thr) l s = s \/
   exists d, In (fold_left (fstep thr) l s, d) l /\ xlt thr d = true) /\
  (forall t d, In (t, d) l -> xlt thr d = true -> fold_left (fstep thr) l s <= t).
Proof.
  induction l as [|[t d] l IH]; intros s; simpl; [split; [auto|tauto]|].
  destruct (IH (fstep thr s (t, d))) as [A B]. split.
  - destruct A as [A|(d' & A1 & A2)].
    + rewrite A. unfold fstep, xgt. simpl. destruct (xlt thr d) eqn:E; simpl; auto.
      destruct (s >? t); auto. right. exists d. auto.
    + right. exists d'. auto.
  - intros t' d' [H|H] Hd; [|eapply B; eauto].
    injection H as <- <-.
    assert (H := fold_fstep_le thr l (fstep thr s (t, d))).
    assert (fstep thr s (t, d) <= t); [|lia].
    unfold fstep, xgt; simpl. rewrite Hd. simpl. rewrite Z.gtb_ltb.
    destruct (t <? s) eqn:E; [lia|]. apply Z.ltb_ge in E. lia.
Qed.

Lemma first_passage n thr ty h i : (i < n)%nat ->
  exists v, nth_error (get_status (observe (first_init n thr ty) h)) i = Some v /\
            earliest thr (seen n i h) v.
Proof.
  intros Hi. rewrite first_status by auto. eexists. split; [reflexivity|].
  destruct (fold_fstep_spec thr (seen n i h) max_value) as [A B].
  split; [exact A|]. split; [apply fold_fstep_le|exact B].
Qed.

Lemma earliest_unique thr l v w : earliest thr l v -> earliest thr l w -> v = w.
Proof.
  intros ([A1|(d & A1 & A1')] & A2 & A3) ([B1|(d' & B1 & B1')] & B2 & B3); try lia.
  - assert (v <= w) by (eapply A3; eauto). lia.
  - assert (w <= v) by (eapply B3; eauto). lia.
  - assert (v <= w) by (eapply A3; eauto). assert (w <= v) by (eapply B3; eauto). lia.
Qed.

Lemma earliest_perm thr l l' v : Permutation l l' -> earliest thr l v -> earliest thr l' v.
Proof.
  intros Hp (A1 & A2 & A3). split; [|split; auto].
  - destruct A1 as [A1|(d & A1 & A1')]; auto. right. exists d. split; auto.
    eapply Permutation_in; eauto.
  - intros t d H. apply A3. eapply Permutation_in; [apply Permutation_sym|]; eauto.
Qed.

Lemma seen_perm n i h h' : Permutation h h' -> Permutation (seen n i h) (seen n i h').
Proof. intros. unfold seen. apply Permutation_flat_map. auto. Qed.

Lemma list_eq_nth {A} (l l' : list A) n :
  length l = n -> length l' = n ->
  (forall i, (i < n)%nat -> nth_error l i = nth_error l' i) -> l = l'.
Proof.
  revert l'  n. induction l as [|x l IH]; intros [|y l'] n H1 H2 H; simpl in *; subst; try discriminate; auto.
  assert (E := H 0%nat ltac:(lia)). simpl in E. injection E as ->. f_equal.
  apply (IH l' (length l)); auto. intros i Hi. apply (H (S i)). lia.
Qed.

Lemma first_order_irrelevant n thr ty h h' : Permutation h h' ->
  get_status (observe (first_init n thr ty) h) = get_status (observe (first_init n thr ty) h').
Proof.
  intros Hp. apply (list_eq_nth _ _ n); [apply status_length_first..|].
  intros i Hi.
  destruct (first_passage n thr ty h i Hi) as (v & A & B).
  destruct (first_passage n thr ty h' i Hi) as (w & C & D).
  rewrite A, C. f_equal. eapply earliest_unique; [exact B|].
  eapply earliest_perm; [|exact D]. apply seen_perm. apply Permutation_sym; auto.
Qed.

Lemma seen_app n i h h' : seen n i (h ++ h') = seen n i h ++ seen n i h'.
Proof. unfold seen. apply flat_map_app. Qed.

Lemma first_monotone n thr ty h h' i v w : (i < n)%nat ->
  nth_error (get_status (observe (first_init n thr ty) h)) i = Some v ->
  nth_error (get_status (observe (first_init n thr ty) (h ++ h'))) i = Some w -> w <= v.
Proof.
  intros Hi. rewrite !first_status by auto. rewrite seen_app, fold_left_app.
  intros [= <-] [= <-]. apply fold_fstep_le.
Qed.

(** *** last passage *)
Definition escapesb thr cut (c : Z * xnum) : bool := xlt cut (snd c) && xlt thr (snd c).
Lemma escapesb_iff thr cut c : escapesb thr cut c = true <-> escapes thr cut c.
Proof. unfold escapesb, escapes. apply andb_true_iff. Qed.

(** What is known of a molecule after the calls [l]. *)
Inductive linv (thr cut : xnum) (l : list (Z * xnum)) : Z * nat -> Prop :=
| linv0 : forall s a1 a2, (forall c, In c l -> ~ escapes thr cut c) ->
    l = a1 ++ a2 ->
    (a1 = [] \/ exists a0 c, a1 = a0 ++ [c] /\ xlt (snd c) thr = true) ->
    (forall c, In c a2 -> xlt thr (snd c) = false) -> linv thr cut l (s, 0%nat)
| linv1 : forall t d b a1 a2, (forall c, In c l -> ~ escapes thr cut c) ->
    l = (a1 ++ a2) ++ (t, d) :: b ->
    (a1 = [] \/ exists a0 c, a1 = a0 ++ [c] /\ xlt (snd c) thr = true) ->
    (forall c, In c a2 -> xlt thr (snd c) = false) ->
    xlt thr d = true -> (forall c, In c b -> xlt (snd c) thr = false) ->
    linv thr cut l (t, 1%nat)
| linv2 : forall v, last_exit thr cut l v -> (exists c, In c l /\ escapes thr cut c) ->
    linv thr cut l (v, 2%nat).

Lemma last_exit_app thr cut l v c : last_exit thr cut l v -> (exists c, In c l /\ escapes thr cut c) ->
  last_exit thr cut (l ++ [c]) v.
Proof.
  intros [[H _]|H] [c0 [H1 H2]]; [exfalso; eapply H; eauto|].
  right. destruct H as (a & d & b & post & bf & e & -> & H).
  exists a, d, b, (post ++ [c]), bf, e. rewrite <- app_assoc. auto.
Qed.

Lemma lstep_inv thr cut l x c : linv thr cut l x -> linv thr cut (l ++ [c]) (lstep thr cut x c).
Proof.
  intros Hi. destruct c as [t d].
  assert (Hne : (forall c, In c l -> ~ escapes thr cut c) -> escapesb thr cut (t, d) = false ->
                forall c, In c (l ++ [(t, d)]) -> ~ escapes thr cut c).
  { intros H E c Hc. apply in_app_or in Hc. destruct Hc as [Hc|[<-|[]]]; auto.
    rewrite <- escapesb_iff. congruence. }
  destruct Hi as [s a1 a2 H1 H2 H3 H4 | t0 d0 b a1 a2 H1 H2 H3 H4 H5 H6 | v H1 H2].
  - (* state 0 *)
    simpl. unfold xgt. rewrite andb_true_r. destruct (xlt thr d) eqn:E; simpl.
    + (* passes the threshold *)
      rewrite (xlt_asym _ _ E). simpl. rewrite andb_true_r.
      destruct (xlt cut d) eqn:E2; simpl.
      * apply linv2.
        -- right. exists l, d, [], [], l, (t, d). rewrite app_nil_r.
           split; [auto|]. split; [auto|]. split; [split; auto|]. split; [auto|].
           split; [auto|]. split; [simpl; tauto|]. exists a1, a2. auto.
        -- exists (t, d). split; [apply in_or_app; right; left; auto|split; auto].
      * apply linv1 with (d := d) (b := []) (a1 := a1) (a2 := a2); auto.
        -- apply Hne; auto. unfold escapesb. simpl. rewrite E2. auto.
        -- congruence.
        -- simpl; tauto.
    + rewrite andb_false_r. simpl. rewrite andb_false_r.
      assert (Hn := Hne H1). unfold escapesb in Hn. simpl in Hn. rewrite E, andb_false_r in Hn.
      apply linv0 with (a1 := a1) (a2 := a2 ++ [(t, d)]); auto.
      * rewrite H2, app_assoc. auto.
      * intros c Hc. apply in_app_or in Hc. destruct Hc as [Hc|[<-|[]]]; auto.
  - (* state 1 *)
    simpl. unfold xgt. rewrite andb_false_r. simpl. rewrite andb_true_r.
    destruct (xlt d thr) eqn:E; simpl.
    + rewrite andb_false_r.
      apply linv0 with (a1 := l ++ [(t, d)]) (a2 := []); auto.
      * apply Hne; auto. unfold escapesb; simpl. rewrite (xlt_asym _ _ E). apply andb_false_r.
      * rewrite app_nil_r; auto.
      * right. eauto.
      * simpl; tauto.
    + rewrite andb_true_r. destruct (xlt cut d) eqn:E2; simpl.
      * destruct (xlt thr d) eqn:E3.
        -- apply linv2.
           ++ right. exists (a1 ++ a2), d0, (b ++ [(t, d)]), [], l, (t, d).
              rewrite app_nil_r. rewrite H2, <- app_assoc. simpl.
              split; [auto|]. split; [auto|]. split; [split; auto|]. split.
              { rewrite <- H2. auto. }
              split; [auto|]. split.
              { intros c Hc. apply in_app_or in Hc. destruct Hc as [Hc|[<-|[]]]; auto. }
              exists a1, a2. auto.
           ++ exists (t, d). split; [apply in_or_app; right; left; auto|split; auto].
        -- exfalso. (* cut < d <= thr, but the molecule was already beyond both *)
           apply (H1 (t0, d0)).
           { rewrite H2. apply in_or_app; right; left; auto. }
           split; auto. simpl.
           (* cut < d, not thr < d, not d < thr: d0 > thr *)
           clear - E E2 E3 H5.
           destruct cut as [| | |q], d as [| | |q1], thr as [| | |q2], d0 as [| | |q3];
             simpl in *; try discriminate; auto.
           apply Qltb_ge in E, E3. apply Qltb_lt in E2, H5. apply Qltb_lt.
           eapply Qlt_le_trans; [exact E2|]. eapply Qle_trans; [exact E3|]. apply Qlt_le_weak; auto.
      * apply linv1 with (d := d0) (b := b ++ [(t, d)]) (a1 := a1) (a2 := a2); auto.
        -- apply Hne; auto. unfold escapesb; simpl. rewrite E2. auto.
        -- rewrite H2, <- app_assoc. auto.
        -- intros c Hc. apply in_app_or in Hc. destruct Hc as [Hc|[<-|[]]]; auto.
  - (* state 2 *)
    simpl. repeat (rewrite andb_false_r; simpl).
    apply linv2; [apply last_exit_app; auto|].
    destruct H2 as [c0 [H2 H3]]. exists c0. split; auto. apply in_or_app; auto.
Qed.

Lemma fold_lstep_inv thr cut l : linv thr cut l (fold_left (lstep thr cut) l (max_value, 0%nat)).
Proof.
  induction l as [|c l IH] using rev_ind.
  - simpl. apply linv0 with (a1 := []) (a2 := []); simpl; auto; tauto.
  - rewrite fold_left_app. simpl. apply lstep_inv. exact IH.
Qed.

Lemma linv_status thr cut l x : linv thr cut l x -> last_exit thr cut l (shown_status x).
Proof.
  intros H. inversion H; subst; unfold shown_status; simpl; auto; left; auto.
Qed.

Lemma last_passage n thr cut ty h i : (i < n)%nat ->
  exists v, nth_error (get_status (observe (last_init n thr cut ty) h)) i = Some v /\
            last_exit thr cut (seen n i h) v.
Proof.
  intros Hi. rewrite last_status by auto. eexists. split; [reflexivity|].
  apply linv_status. apply fold_lstep_inv.
Qed.

Lemma fold_lstep_final thr cut l s : fold_left (lstep thr cut) l (s, 2%nat) = (s, 2%nat).
Proof.
  induction l as [|[t d] l IH]; simpl; auto. repeat (rewrite andb_false_r; simpl). auto.
Qed.

Lemma last_final n thr cut ty h h' i v : (i < n)%nat ->
  nth_error (get_status (observe (last_init n thr cut ty) h)) i = Some v ->
  v <> 2 ^ 32 - 1 ->
  nth_error (get_status (observe (last_init n thr cut ty) (h ++ h'))) i = Some v.
Proof.
  intros Hi. rewrite !last_status by auto. rewrite seen_app, fold_left_app.
  destruct (fold_left (lstep thr cut) (seen n i h) (max_value, 0%nat)) as [s st].
  unfold shown_status at 1. simpl. destruct (st =? 2)%nat eqn:E.
  - apply Nat.eqb_eq in E. subst st. intros [= <-] _. rewrite fold_lstep_final. reflexivity.
  - intros [= <-] H. exfalso. apply H. reflexivity.
Qed.

Lemma last_exit_ge thr cut l v w : last_exit thr cut l v -> earliest thr l w -> w <= v.
Proof.
  intros [[_ ->]|(a & d & b & post & bf & e & -> & _ & _ & _ & Hd & _)] (_ & H1 & H2); auto.
  eapply H2; eauto. apply in_or_app; left. apply in_or_app; right; left; auto.
Qed.

Lemma last_state_bound thr cut l : forall s st, (st <= 2)%nat ->
  (snd (fold_left (lstep thr cut) l (s, st)) <= 2)%nat.
Proof.
  induction l as [|[t d] l IH]; intros s st H; simpl; auto. apply IH.
  destruct (xgt d thr && (st =? 0)%nat); simpl;
  repeat match goal with |- context [if ?b then _ else _] => destruct b end; lia.
Qed.
