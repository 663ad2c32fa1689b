(** C214: allowing more key frames. *)
From Coq Require Import ZArith List Bool Lia Arith Sorted.
From Verif Require Import Base DictFacts StepSizeModel StepSizeSpec StepSizeProofs
  StepSeriesProofs StepSeriesRun StepSizeExtra StepSizeProps WriteCacheModel WriteCacheSpec ProcessModel ProcessSpec ProcessProps GsdModel GsdSpec GsdProofs GsdReaders GsdProps MoreKeysSpec.
Import ListNotations.
Open Scope Z_scope.

(** ** The starts of the generators *)
Section Starts.
  Variables (total n G : Z).
  Notation mult := (fun s => (0 <? s) && (s mod G =? 0)).
  Notation mults := (fun out : list (Z * list nat) => filter mult (map fst out)).

  Lemma nth_firstn {A} (l : list A) x : forall j k, (j < k)%nat -> nth_error l j = Some x -> In x (firstn k l).
  Proof. induction l as [|y l IH]; intros [|j] [|k] H E; cbn in *; try discriminate; try lia; [injection E as ->; auto|]. right. apply (IH j); auto. lia. Qed.
  Lemma increasing_before l a : increasing l -> forall j x, nth_error l j = Some a -> In x l -> x < a -> In x (firstn j l).
  Proof.
    induction l as [|y l IH]; intros Hi [|j] x E I L; cbn in *; try discriminate.
    - injection E as ->. apply increasing_cons in Hi as [_ Hi]. destruct I as [E|I]; [subst; lia|]. apply Hi in I. lia.
    - apply increasing_cons in Hi as [Hi Hy]. destruct I as [->|I]; [auto|right; apply IH; auto].
  Qed.
  Lemma increasing_first l a : increasing l -> forall j x, nth_error l j = Some a -> In x (firstn j l) -> x < a.
  Proof.
    induction l as [|y l IH]; intros Hi [|j] x E I; cbn in *; try discriminate; try tauto.
    apply increasing_cons in Hi as [Hi Hy]. destruct I as [->|I]; [|apply (IH Hi j x E I)]. apply Hy. eapply nth_error_In; eauto.
  Qed.
  Lemma firstn_incl {A} (l : list A) x : forall j k, (j <= k)%nat -> In x (firstn j l) -> In x (firstn k l).
  Proof. induction l as [|y l IH]; intros [|j] [|k] H I; cbn in *; try tauto; try lia. destruct I as [->|I]; [auto|right; apply (IH j); auto; lia]. Qed.
  Lemma firstn_in {A} (l : list A) x k : In x (firstn k l) -> In x l.
  Proof. intros I. rewrite <- (firstn_skipn k l). apply in_or_app; auto. Qed.

  (** The next multiple of one series is there in the other, and not earlier. *)
  Lemma next_start M M' out out' j a : series_ok total n G M out -> series_ok total n G M' out' ->
    (j < Z.to_nat (M' - 1))%nat -> firstn j (mults out) = firstn j (mults out') -> nth_error (mults out) j = Some a ->
    exists a', nth_error (mults out') j = Some a' /\ a' <= a.
  Proof.
    intros S S' Hj E Ha.
    assert (Hi := filter_increasing mult _ (so_increasing _ _ _ _ _ S)). assert (Hi' := filter_increasing mult _ (so_increasing _ _ _ _ _ S')).
    assert (Ia := nth_error_In _ _ Ha). apply filter_In in Ia as [Ia Ma]. assert (Pa : 0 < a).
    { apply andb_true_iff in Ma as [Ma _]. apply Z.ltb_lt in Ma. auto. }
    destruct (so_founded _ _ _ _ _ S a Ia) as [->|(st & I & L & On)]; [lia|].
    assert (I' : In st (keyframe_starts G M' (map fst out'))).
    { destruct I as [<-|I]; [left; auto|]. right. apply firstn_incl with j; [lia|]. rewrite <- E.
      apply increasing_before with a; auto. eapply firstn_in; eauto. }
    assert (Ia' : In a (mults out')) by (apply filter_In; split; auto; apply (so_complete _ _ _ _ _ S' st); auto).
    apply In_nth_error in Ia' as (m & Hm). destruct (Nat.lt_ge_cases m j) as [Hl|Hl].
    - exfalso. assert (X := nth_firstn _ _ m j Hl Hm). rewrite <- E in X. assert (Y := increasing_first _ _ Hi j a Ha X). lia.
    - destruct (nth_error (mults out') j) as [a'|] eqn:Ea'.
      + exists a'. split; auto. destruct (Nat.eq_dec m j) as [->|Hne]; [rewrite Hm in Ea'; injection Ea' as ->; lia|].
        assert (a' < a); [|lia]. apply (increasing_first _ _ Hi' m a' Hm). apply nth_firstn with j; auto. lia.
      + apply nth_error_None in Ea'. assert (m < length (mults out'))%nat by (apply nth_error_Some; congruence). lia.
  Qed.
  Lemma firstn_nth {A} (l l' : list A) j : firstn j l = firstn j l' -> nth_error l j = nth_error l' j -> firstn (S j) l = firstn (S j) l'.
  Proof.
    revert l l'. induction j as [|j IH]; intros [|x l] [|y l'] E N; cbn in *; try congruence.
    injection E as -> E. f_equal. apply IH; auto.
  Qed.
  Lemma same_starts M M' out out' : series_ok total n G M out -> series_ok total n G M' out' ->
    forall j, (j <= Z.to_nat (M - 1))%nat -> (j <= Z.to_nat (M' - 1))%nat -> firstn j (mults out) = firstn j (mults out').
  Proof.
    intros S S'. induction j as [|j IH]; intros H H'; auto.
    assert (E : firstn j (mults out) = firstn j (mults out')) by (apply IH; lia).
    apply firstn_nth; [exact E|].
    destruct (nth_error (mults out) j) as [a|] eqn:Ea.
    - destruct (next_start M M' out out' j a S S' ltac:(lia) E Ea) as (a' & Ea' & L).
      destruct (next_start M' M out' out j a' S' S ltac:(lia) (eq_sym E) Ea') as (b & Eb & L').
      rewrite Ea in Eb. injection Eb as <-. rewrite Ea'. f_equal. lia.
    - destruct (nth_error (mults out') j) as [a'|] eqn:Ea'; auto.
      destruct (next_start M' M out' out j a' S' S ltac:(lia) (eq_sym E) Ea') as (b & Eb & L'). congruence.
  Qed.
  Lemma starts_prefix M M' out out' : series_ok total n G M out -> series_ok total n G M' out' -> M <= M' ->
    keyframe_starts G M (map fst out) = firstn (Z.to_nat (Z.max 1 M)) (keyframe_starts G M' (map fst out')).
  Proof.
    intros S S' L. unfold keyframe_starts. replace (Z.to_nat (Z.max 1 M)) with (Datatypes.S (Z.to_nat (M - 1))) by lia. cbn [firstn]. f_equal.
    rewrite firstn_firstn, Nat.min_l by lia. apply (same_starts M M'); auto; lia.
  Qed.
  Lemma in_series M out x : series_ok total n G M out ->
    In x (map fst out) <-> exists st, In st (keyframe_starts G M (map fst out)) /\ on_steps total n st x.
  Proof.
    intros S. split; [|intros (st & I & On); apply (so_complete _ _ _ _ _ S st); auto].
    intros I. apply in_map_iff in I as ([c idx] & <- & I). cbn [fst]. destruct (so_index _ _ _ _ _ S _ _ I) as (_ & Ne & H).
    destruct idx as [|m idx]; [congruence|]. destruct (proj1 (H m) (or_introl eq_refl)) as (st & E & On). exists st. split; auto. eapply nth_error_In; eauto.
  Qed.
  Lemma series_incl M M' out out' : series_ok total n G M out -> series_ok total n G M' out' -> M <= M' -> incl (map fst out) (map fst out').
  Proof.
    intros S S' L x I. apply (in_series M out x S) in I as (st & I & On). apply (in_series M' out' x S'). exists st. split; auto.
    rewrite (starts_prefix M M' out out' S S' L) in I. eapply firstn_in; eauto.
  Qed.
End Starts.

(** The specification of C07 to C09 determines the series. *)
Theorem C09_determined total n G M out out' : series_ok total n G M out -> series_ok total n G M out' ->
  map fst out = map fst out' /\ keyframe_starts G M (map fst out) = keyframe_starts G M (map fst out') /\
  forall c idx idx', In (c, idx) out -> In (c, idx') out' -> forall m, In m idx <-> In m idx'.
Proof.
  intros S S'. assert (E : map fst out = map fst out').
  { apply increasing_ext; [apply (so_increasing _ _ _ _ _ S)|apply (so_increasing _ _ _ _ _ S')|].
    intros x. split; [apply (series_incl total n G M M out out'); auto; lia|apply (series_incl total n G M M out' out); auto; lia]. }
  split; [exact E|]. split; [rewrite E; auto|]. intros c idx idx' I I' m.
  destruct (so_index _ _ _ _ _ S _ _ I) as (_ & _ & H). destruct (so_index _ _ _ _ _ S' _ _ I') as (_ & _ & H'). rewrite H, H', E. tauto.
Qed.
Print Assumptions C09_determined.

(** ** The readers *)
Section Readers.
  Context {P : Type}.
  Implicit Types (r a b : list (frame P)).
  Lemma in_of_key {F} j (l : list (list nat * F)) f : In f (of_key j l) <-> exists idx, In (idx, f) l /\ In j idx.
  Proof.
    unfold of_key. rewrite in_map_iff. split.
    - intros ([idx g] & E & I). cbn in E. subst g. apply filter_In in I as [I X]. apply existsb_exists in X as (y & Y & Z). apply Nat.eqb_eq in Z. subst y. eauto.
    - intros (idx & I & J). exists (idx, f). split; auto. apply filter_In. split; auto. apply existsb_exists. exists j. split; auto. apply Nat.eqb_refl.
  Qed.
  Lemma of_key_sub {F} j (l : list (list nat * F)) : sublist (of_key j l) (map snd l).
  Proof. unfold of_key. induction l as [|p l IH]; cbn [filter map]; [constructor|]. destruct (existsb _ _); constructor; auto. Qed.
  Lemma sub_cons r x f a : sublist (f :: a) (x :: r) -> f = x /\ sublist a r \/ sublist (f :: a) r.
  Proof. intros S. inversion S; subst; auto. Qed.
  Lemma rising_same r : rising r -> forall a b, sublist a r -> sublist b r -> (forall f, In f a <-> In f b) -> a = b.
  Proof.
    induction r as [|x r IH]; intros Hr a b Sa Sb E.
    - assert (Z : forall c : list (frame P), sublist c [] -> c = []) by (intros c S; inversion S; auto). rewrite (Z a Sa), (Z b Sb). auto.
    - destruct a as [|fa a]; [destruct b as [|fb b]; auto; exfalso; apply (proj2 (E fb)); left; auto|].
      destruct b as [|fb b]; [exfalso; apply (proj1 (E fa)); left; auto|].
      destruct Hr as [Hx Hr].
      assert (Nx : ~ In x r) by (intros I; apply Hx in I; lia).
      assert (Ni : forall c : list (frame P), sublist c r -> ~ In x c) by (intros c S I; apply Nx; eapply sublist_In; eauto).
      destruct (sub_cons _ _ _ _ Sa) as [[-> Sa1]|Sa1], (sub_cons _ _ _ _ Sb) as [[-> Sb1]|Sb1].
      + f_equal. apply IH; auto. intros f. split; intros I.
        * destruct (proj1 (E f) (or_intror I)) as [<-|]; auto. exfalso. apply (Ni a); auto.
        * destruct (proj2 (E f) (or_intror I)) as [<-|]; auto. exfalso. apply (Ni b); auto.
      + exfalso. apply (Ni _ Sb1). apply E. left; auto.
      + exfalso. apply (Ni _ Sa1). apply E. left; auto.
      + apply IH; auto.
  Qed.
End Readers.

(** A file that fits both series *)
Theorem C214_exponential : forall (P : Type) smax K M M' n (t : list (raw P)) total,
  match smax with Some m => inl m | None => get_num_steps t end = inl total ->
  0 <= total -> 1 <= n -> K <> 0 -> M <= M' ->
  (forall r, In r t -> ~ fatal r) -> rising (readables t) ->
  (forall m steps, m = M \/ m = M' -> series_ok total n K m steps -> fits (map fst steps) (map (@timestep P) (readables t))) ->
  exists fuel0 k0, forall fuel k, (fuel0 <= fuel)%nat -> (k0 <= k)%nat ->
  exists out out',
    exponential_trajectory fuel k smax K M n t = Ok out /\ exponential_trajectory fuel k smax K M' n t = Ok out' /\
    (forall j, Z.of_nat j < Z.max 1 M -> of_key j (items out) = of_key j (items out')) /\
    (forall j, Z.max 1 M <= Z.of_nat j -> of_key j (items out) = []) /\
    (forall idx f, In (idx, f) (items out) \/ In (idx, f) (items out') -> NoDup idx).
Proof.
  intros P smax K M M' n t total Hs Ht Hn HK HM Hf Hr All.
  destruct (C18_exponential_sound P smax K M n t total Hs Ht Hn HK) as (a1 & b1 & A).
  destruct (C19_exponential_complete P smax K M n t total Hs Ht Hn HK Hf Hr) as (a2 & b2 & B).
  destruct (C18_exponential_sound P smax K M' n t total Hs Ht Hn HK) as (a3 & b3 & A').
  destruct (C19_exponential_complete P smax K M' n t total Hs Ht Hn HK Hf Hr) as (a4 & b4 & B').
  exists (a1 + a2 + a3 + a4)%nat, (b1 + b2 + b3 + b4)%nat. intros fuel k F1 F2.
  destruct (A fuel k ltac:(lia) ltac:(lia)) as (st & out & S & E & Sub & Snd).
  destruct (B fuel k ltac:(lia) ltac:(lia)) as (st2 & out2 & S2 & E2 & Cmp0 & Cmp). rewrite E in E2. injection E2 as <-.
  destruct (A' fuel k ltac:(lia) ltac:(lia)) as (st' & out' & S' & E' & Sub' & Snd').
  destruct (B' fuel k ltac:(lia) ltac:(lia)) as (st2' & out2' & S2' & E2' & Cmp0' & Cmp'). rewrite E' in E2'. injection E2' as <-.
  exists out, out'. split; [exact E|]. split; [exact E'|].
  assert (Pre := starts_prefix total n K M M' st st' S S' HM).
  assert (Pn : forall j, Z.of_nat j < Z.max 1 M -> nth_error (keyframe_starts K M (map fst st)) j = nth_error (keyframe_starts K M' (map fst st')) j).
  { intros j Hj. rewrite Pre. clear -Hj. assert (J : (j < Z.to_nat (Z.max 1 M))%nat) by lia. clear Hj. revert J.
    generalize (Z.to_nat (Z.max 1 M)) as m. revert j. induction (keyframe_starts K M' (map fst st')) as [|x l IH]; intros [|j] [|m] J; cbn; try lia; auto. apply IH. lia. }
  rewrite (proj1 (C09_determined _ _ _ _ _ _ S2 S)) in Cmp0, Cmp. rewrite (proj1 (C09_determined _ _ _ _ _ _ S2' S')) in Cmp0', Cmp'.
  assert (Two : forall (steps : list (Z * list nat)) (o : stream (list nat * frame P)), fits (map fst steps) (map (@timestep P) (readables t)) ->
     ((forall f, In f (readables t) -> In (timestep f) (map fst steps)) -> map snd (items o) = readables t) ->
     ((forall x g, In x (map fst steps) -> In g (readables t) -> x <= timestep g -> exists f, In f (readables t) /\ timestep f = x) ->
       forall f, In f (readables t) -> In (timestep f) (map fst steps) -> exists idx : list nat, In (idx, f) (items o)) ->
     forall f, In f (readables t) -> In (timestep f) (map fst steps) -> exists idx, In (idx, f) (items o)).
  { clear. intros steps o [X|X] H1 H2 f I J.
    - rewrite <- H1 in I by (intros g G; apply X, in_map, G). apply in_map_iff in I as ([idx g] & <- & I). exists idx. exact I.
    - apply H2; auto. intros x g Hx Hg Le. specialize (X x (timestep g) Hx (in_map _ _ _ Hg) Le). apply in_map_iff in X as (h & <- & Ih). eauto. }
  assert (C1 := Two st out (All M st (or_introl eq_refl) S) Cmp0 Cmp).
  assert (C2 := Two st' out' (All M' st' (or_intror eq_refl) S') Cmp0' Cmp').
  assert (Idx : forall j f, In f (of_key j (items out)) <-> In f (readables t) /\ exists s, nth_error (keyframe_starts K M (map fst st)) j = Some s /\ on_steps total n s (timestep f)).
  { intros j f. rewrite in_of_key. split.
    - intros (idx & I & J). split; [apply (sublist_In _ _ _ Sub); apply (in_map snd) in I; exact I|].
      apply (proj2 (proj2 (so_index _ _ _ _ _ S _ _ (Snd _ _ I)))). exact J.
    - intros (I & s & N & On). destruct (C1 f I) as (idx & J); [apply (so_complete _ _ _ _ _ S s); auto; eapply nth_error_In; eauto|].
      exists idx. split; auto. apply (proj2 (proj2 (so_index _ _ _ _ _ S _ _ (Snd _ _ J)))). eauto. }
  assert (Idx' : forall j f, In f (of_key j (items out')) <-> In f (readables t) /\ exists s, nth_error (keyframe_starts K M' (map fst st')) j = Some s /\ on_steps total n s (timestep f)).
  { intros j f. rewrite in_of_key. split.
    - intros (idx & I & J). split; [apply (sublist_In _ _ _ Sub'); apply (in_map snd) in I; exact I|].
      apply (proj2 (proj2 (so_index _ _ _ _ _ S' _ _ (Snd' _ _ I)))). exact J.
    - intros (I & s & N & On). destruct (C2 f I) as (idx & J); [apply (so_complete _ _ _ _ _ S' s); auto; eapply nth_error_In; eauto|].
      exists idx. split; auto. apply (proj2 (proj2 (so_index _ _ _ _ _ S' _ _ (Snd' _ _ J)))). eauto. }
  split; [|split; [|intros idx f [I|I]; [apply (so_index _ _ _ _ _ S _ _ (Snd _ _ I))|apply (so_index _ _ _ _ _ S' _ _ (Snd' _ _ I))]]]; intros j Hj.
  - apply (rising_same (readables t) Hr).
    + eapply sublist_trans; [apply of_key_sub|exact Sub].
    + eapply sublist_trans; [apply of_key_sub|exact Sub'].
    + intros f. rewrite Idx, Idx', (Pn j Hj). tauto.
  - destruct (of_key j (items out)) as [|f l] eqn:Eo; auto. exfalso.
    destruct (proj1 (Idx j f)) as (_ & s & N & _); [rewrite Eo; left; auto|].
    assert (L := C09_generator_count K M (map fst st)). assert (j < length (keyframe_starts K M (map fst st)))%nat by (apply nth_error_Some; congruence). lia.
Qed.
Print Assumptions C214_exponential.

(** The linear reader, for any file *)
Theorem C214_linear : forall (P : Type) smax K M M' (t : list (raw P)), K <> 0 -> M <= M' ->
  let out := items (fst (linear_trajectory smax K M t)) in let out' := items (fst (linear_trajectory smax K M' t)) in
  ending (fst (linear_trajectory smax K M t)) = ending (fst (linear_trajectory smax K M' t)) /\
  map snd out = map snd out' /\
  (forall j, Z.of_nat j <= M -> of_key j out = of_key j out') /\ (forall j, M < Z.of_nat j -> of_key j out = []) /\
  (forall idx f, In (idx, f) out \/ In (idx, f) out' -> NoDup idx).
Proof.
  intros P smax K M M' t HK HM.
  destruct (C16_linear_reader P smax K M t HK) as (o & fn & rest & E & R & W & En & Ix & _).
  destruct (C16_linear_reader P smax K M' t HK) as (o' & fn' & rest' & E' & R' & W' & En' & Ix' & _).
  rewrite E, E'. cbn [fst]. cbv zeta.
  assert (Pre : forall (a b : list (frame P)) ra rb, a ++ ra = b ++ rb -> (forall f, In f a -> within smax f) -> (forall f, In f b -> within smax f) ->
            (ra = [] \/ exists f r, ra = f :: r /\ ~ within smax f) -> (rb = [] \/ exists f r, rb = f :: r /\ ~ within smax f) -> a = b).
  { induction a as [|x a IH]; intros [|y b] ra rb Q Wa Wb Ha Hb; auto; cbn in Q.
    - exfalso. subst ra. destruct Ha as [Ha|(f & r & Ha & Nf)]; [discriminate|]. injection Ha as -> _. apply Nf, Wb. left; auto.
    - exfalso. subst rb. destruct Hb as [Hb|(f & r & Hb & Nf)]; [discriminate|]. injection Hb as -> _. apply Nf, Wa. left; auto.
    - injection Q as -> Q. f_equal. apply (IH b ra rb); auto; intros f I; [apply Wa|apply Wb]; right; auto. }
  assert (Sn : map snd (items o) = map snd (items o')).
  { apply (Pre _ _ rest rest'); [congruence| | | |].
    - intros f I. apply in_map_iff in I as ([idx g] & <- & I). eapply W; eauto.
    - intros f I. apply in_map_iff in I as ([idx g] & <- & I). eapply W'; eauto.
    - destruct En as [[-> _]|(f & r & -> & Nf & _)]; eauto.
    - destruct En' as [[-> _]|(f & r & -> & Nf & _)]; eauto. }
  split; [|split; [exact Sn|split; [|split; [|intros idx f [I|I]; apply In_nth_error in I as (i & I); [apply Ix in I|apply Ix' in I]; subst idx; apply seq_NoDup]]]].
  - assert (rest = rest') by (rewrite R, Sn in R'; apply app_inv_head in R'; auto). subst rest'.
    destruct En as [[-> ->]|(f & r & -> & Nf & ->)], En' as [[Q ->]|(f' & r' & Q & Nf' & ->)]; auto; discriminate.
  - intros j Hj. unfold of_key.
    assert (G : forall (l l' : list (list nat * frame P)), map snd l = map snd l' ->
        (forall i idx f idx', nth_error l i = Some (idx, f) -> nth_error l' i = Some (idx', f) -> (In j idx <-> In j idx')) ->
        map snd (filter (fun p => existsb (Nat.eqb j) (fst p)) l) = map snd (filter (fun p => existsb (Nat.eqb j) (fst p)) l')).
    { induction l as [|[idx f] l IH]; intros [|[idx' f'] l'] Q H; try discriminate; auto. cbn in Q. injection Q as <- Q.
      assert (X : existsb (Nat.eqb j) idx = existsb (Nat.eqb j) idx').
      { apply eq_true_iff_eq. rewrite !existsb_exists. specialize (H 0%nat idx f idx' eq_refl eq_refl).
        split; intros (y & Y & Z); apply Nat.eqb_eq in Z; subst y; exists j; rewrite Nat.eqb_refl; tauto. }
      cbn [filter fst]. rewrite X. assert (Y := IH l' Q (fun i => H (S i))). destruct (existsb _ idx'); [cbn [map snd]; rewrite Y; auto|auto]. }
    apply G; auto. intros i idx f idx' I I'. apply Ix in I. apply Ix' in I'. subst idx idx'. rewrite !in_seq. lia.
  - intros j Hj. destruct (of_key j (items o)) as [|f l] eqn:Eo; auto. exfalso.
    assert (I : In f (of_key j (items o))) by (rewrite Eo; left; auto). apply in_of_key in I as (idx & I & J).
    apply In_nth_error in I as (i & I). apply Ix in I. subst idx. apply in_seq in J. lia.
Qed.
Print Assumptions C214_linear.

(** ** The tables *)
Section Rows.
  Context {D R F Row Out : Type}.
  Variable npos : F -> nat.
  Variable mk : F -> (D * R) + exn.
  Variable custom : option (R -> R * option exn).
  Variable compute : D -> F -> D * (Row + exn).
  Variable radd : R -> F -> R * option exn.
  Variable label : nat -> Row -> Out + exn.
  Notation run := (ProcessModel.frames npos mk custom compute radd label).

  Lemma only_k k idx : NoDup idx -> In k idx -> filter (Nat.eqb k) idx = [k].
  Proof.
    induction idx as [|x idx IH]; intros N I; [destruct I|]. inversion N; subst. cbn [filter]. destruct (Nat.eqb_spec k x) as [<-|Ne].
    - f_equal. clear -H1. induction idx as [|y idx IH]; cbn; auto. destruct (Nat.eqb_spec k y) as [<-|]; [exfalso; apply H1; left; auto|]. apply IH. intros I; apply H1; right; auto.
    - destruct I as [->|I]; [congruence|auto].
  Qed.
  Lemma restrict_of_key k (l : list (list nat * F)) : (forall idx f, In (idx, f) l -> NoDup idx) ->
    restrict k l = map (fun f => ([k], f)) (of_key k l).
  Proof.
    unfold restrict, of_key. intros N. rewrite map_map. apply map_ext_in. intros [idx f] I. apply filter_In in I as [I X]. cbn [fst snd] in *.
    apply existsb_exists in X as (y & Y & Z). apply Nat.eqb_eq in Z. subst y. rewrite only_k; eauto.
  Qed.
  Lemma rows_of_key k (l l' : list (list nat * F)) fin fin' s s' :
    (forall idx f, In (idx, f) l \/ In (idx, f) l' -> NoDup idx) -> of_key k l = of_key k l' ->
    run l fin (start_state true) = (s, None) -> run l' fin' (start_state true) = (s', None) ->
    key_rows k (all_rows s) = key_rows k (all_rows s') /\ dget Nat.eqb k (ps_keys s) = dget Nat.eqb k (ps_keys s').
  Proof.
    intros N E H H'.
    destruct (C26_keyframes_independent npos mk custom compute radd label l fin s H k) as (a & A1 & A2 & A3).
    destruct (C26_keyframes_independent npos mk custom compute radd label l' fin' s' H' k) as (b & B1 & B2 & B3).
    rewrite restrict_of_key in A1, B1 by eauto. rewrite E in A1.
    assert (fin = None /\ fin' = None) as [-> ->].
    { revert H H'. clear. intros H H'. rewrite ProcessProofs.frames_flat in H, H'.
      split; [revert H|revert H']; match goal with |- context [ProcessProofs.flat] => idtac | _ => idtac end; cbv zeta;
      match goal with |- (let (_, _) := ?x in _) = _ -> _ => destruct x as [? [?|]] | _ => idtac end; congruence. }
    rewrite A1 in B1. injection B1 as <-. split; congruence.
  Qed.
End Rows.

(** The tables computed from the frames, whatever is computed for a frame *)
Theorem C214_exponential_rows : forall (P D R Row Out : Type) npos mk custom compute radd label smax K M M' n (t : list (raw P)) total,
  match smax with Some m => inl m | None => get_num_steps t end = inl total ->
  0 <= total -> 1 <= n -> K <> 0 -> M <= M' ->
  (forall r, In r t -> ~ fatal r) -> rising (readables t) ->
  (forall m steps, m = M \/ m = M' -> series_ok total n K m steps -> fits (map fst steps) (map (@timestep P) (readables t))) ->
  exists fuel0 k0, forall fuel k, (fuel0 <= fuel)%nat -> (k0 <= k)%nat ->
  exists out out',
    exponential_trajectory fuel k smax K M n t = Ok out /\ exponential_trajectory fuel k smax K M' n t = Ok out' /\
    forall s s',
      @ProcessModel.frames D R (frame P) Row Out npos mk custom compute radd label (items out) (ending out) (start_state true) = (s, None) ->
      @ProcessModel.frames D R (frame P) Row Out npos mk custom compute radd label (items out') (ending out') (start_state true) = (s', None) ->
      forall j,
        (Z.of_nat j < Z.max 1 M -> key_rows j (all_rows s) = key_rows j (all_rows s') /\ dget Nat.eqb j (ps_keys s) = dget Nat.eqb j (ps_keys s')) /\
        (Z.max 1 M <= Z.of_nat j -> key_rows j (all_rows s) = [] /\ dget Nat.eqb j (ps_keys s) = None).
Proof.
  intros P D R Row Out npos mk custom compute radd label smax K M M' n t total Hs Ht Hn HK HM Hf Hr All.
  destruct (C214_exponential P smax K M M' n t total Hs Ht Hn HK HM Hf Hr All) as (f0 & k0 & H). exists f0, k0. intros fuel k F1 F2.
  destruct (H fuel k F1 F2) as (out & out' & E & E' & A & B & N). exists out, out'. split; auto. split; auto. intros s s' R1 R2 j. split; intros Hj.
  - apply (rows_of_key npos mk custom compute radd label j (items out) (items out') (ending out) (ending out') s s' N (A j Hj) R1 R2).
  - assert (Nil : @ProcessModel.frames D R (frame P) Row Out npos mk custom compute radd label [] None (start_state true) = (start_state true, None)) by reflexivity.
    apply (rows_of_key npos mk custom compute radd label j (items out) [] (ending out) None s (start_state true)); auto.
    intros idx f [I|[]]. eauto.
Qed.
Print Assumptions C214_exponential_rows.

Theorem C214_linear_rows : forall (P D R Row Out : Type) npos mk custom compute radd label smax K M M' (t : list (raw P)) s s', K <> 0 -> M <= M' ->
  let out := fst (linear_trajectory smax K M t) in let out' := fst (linear_trajectory smax K M' t) in
  @ProcessModel.frames D R (frame P) Row Out npos mk custom compute radd label (items out) (ending out) (start_state true) = (s, None) ->
  @ProcessModel.frames D R (frame P) Row Out npos mk custom compute radd label (items out') (ending out') (start_state true) = (s', None) ->
  forall j,
    (Z.of_nat j <= M -> key_rows j (all_rows s) = key_rows j (all_rows s') /\ dget Nat.eqb j (ps_keys s) = dget Nat.eqb j (ps_keys s')) /\
    (M < Z.of_nat j -> key_rows j (all_rows s) = [] /\ dget Nat.eqb j (ps_keys s) = None).
Proof.
  intros P D R Row Out npos mk custom compute radd label smax K M M' t s s' HK HM out out' R1 R2 j.
  destruct (C214_linear P smax K M M' t HK HM) as (_ & _ & A & B & N). fold out out' in A, B, N. split; intros Hj.
  - apply (rows_of_key npos mk custom compute radd label j (items out) (items out') (ending out) (ending out') s s' N (A j Hj) R1 R2).
  - assert (Nil : @ProcessModel.frames D R (frame P) Row Out npos mk custom compute radd label [] None (start_state true) = (start_state true, None)) by reflexivity.
    apply (rows_of_key npos mk custom compute radd label j (items out) [] (ending out) None s (start_state true)); auto.
    intros idx f [I|[]]. eauto.
Qed.
Print Assumptions C214_linear_rows.

(** A file with a frame that is no step and without some steps of the longer series: a frame of
    the first key frame is lost when a second key frame is allowed. *)
Theorem C214_mixed_file_refuted : exists (t : list (raw nat)) K M M' n total out out', M <= M' /\ 0 <= total /\ 1 <= n /\ K <> 0 /\
  rising (readables t) /\ get_num_steps t = inl total /\ (forall r, In r t -> ~ fatal r) /\
  exponential_trajectory 300 300 None K M n t = Ok out /\ exponential_trajectory 300 300 None K M' n t = Ok out' /\
  of_key 0 (items out) = [(0, 0%nat); (1, 0%nat); (10, 0%nat); (100, 0%nat)] /\
  of_key 0 (items out') = [(0, 0%nat); (1, 0%nat); (10, 0%nat)].
Proof.
  exists (map (fun s => Good s (inl 0%nat)) [0; 1; 10; 50; 100]), 10, 1, 2, 1, 100. do 2 eexists.
  split; [lia|]. split; [lia|]. split; [lia|]. split; [lia|].
  split; [cbn; repeat split; intros g I; repeat (destruct I as [<-|I]; [cbn; lia|]); destruct I|].
  split; [vm_compute; reflexivity|].
  split; [intros r H [e [F N]]; cbn in H; repeat (destruct H as [<-|H]; [inversion F|]); destruct H|].
  split; [vm_compute; reflexivity|]. split; [vm_compute; reflexivity|]. split; vm_compute; reflexivity.
Qed.
Print Assumptions C214_mixed_file_refuted.

(** The file of C18, whose frames are all steps of the series with one key frame or more, and
    the tables with the elapsed times of every key frame. *)
Definition sample3 : list (raw nat) := map (fun s => Good s (inl 1%nat)) [0; 1; 10; 11; 20; 100].
Example C214_example :
  fits [0; 1; 10; 11; 20; 21; 30; 100] (map (@timestep nat) (readables sample3)) /\
  (forall r, In r sample3 -> ~ fatal r) /\ rising (readables sample3) /\ get_num_steps sample3 = inl 100 /\
  let times M := match exponential_trajectory 300 300 None 10 M 1 sample3 with
                 | Ok o => all_rows (fst (@ProcessModel.frames Z unit (frame nat) Z Z snd (fun f => inl (fst f, tt)) None
                     (fun d f => (d, inl (fst f - d))) (fun r _ => (r, None)) (fun _ x => inl x) (items o) (ending o) (start_state true)))
                 | _ => [] end in
  times 1 = [(0%nat, 0); (0%nat, 1); (0%nat, 10); (0%nat, 100)] /\
  times 2 = [(0%nat, 0); (0%nat, 1); (0%nat, 10); (1%nat, 0); (1%nat, 1); (1%nat, 10); (0%nat, 100); (1%nat, 90)] /\
  times 3 = [(0%nat, 0); (0%nat, 1); (0%nat, 10); (1%nat, 0); (1%nat, 1); (1%nat, 10); (2%nat, 0); (0%nat, 100); (1%nat, 90); (2%nat, 80)] /\
  map (fun p => (fst p, fst (snd p))) (items (fst (linear_trajectory None 10 0 sample3))) =
    [([0%nat], 0); ([0%nat], 1); ([0%nat], 10); ([0%nat], 11); ([0%nat], 20); ([0%nat], 100)] /\
  map (fun p => (fst p, fst (snd p))) (items (fst (linear_trajectory None 10 1 sample3))) =
    [([0%nat], 0); ([0%nat], 1); ([0; 1]%nat, 10); ([0; 1]%nat, 11); ([0; 1]%nat, 20); ([0; 1]%nat, 100)].
Proof.
  split; [left; intros x I; cbn in I; cbn; tauto|].
  split; [intros r H [e [F N]]; cbn in H; repeat (destruct H as [<-|H]; [inversion F|]); destruct H|].
  split; [cbn; repeat split; intros g I; repeat (destruct I as [<-|I]; [cbn; lia|]); destruct I|].
  split; [vm_compute; reflexivity|]. cbv zeta.
  repeat split; vm_compute; reflexivity.
Qed.
