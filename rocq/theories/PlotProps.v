(** C179-C181: the colours of classes in figures. *)
From Coq Require Import String Reals ZArith List Bool Lia Arith Lra.
From Verif Require Import Base RVec MotionModel MoleculeModel UtilModel ConfigModel ConfigSpec ConfigProps PlotModel.
Import ListNotations.
Open Scope nat_scope.
Open Scope string_scope.
Open Scope list_scope.
Notation length := List.length.

(** ** np.unique *)
Lemma insert_In s l x : In x (insert s l) <-> x = s \/ In x l.
Proof.
  induction l as [|y l IH]; cbn; [intuition|]. destruct (String.compare s y) eqn:C; cbn.
  - apply String.compare_eq_iff in C. subst. intuition.
  - intuition.
  - rewrite IH. intuition.
Qed.
Lemma unique_In l x : In x (np_unique l) <-> In x l.
Proof. induction l; cbn; [tauto|]. rewrite insert_In, IHl. intuition. Qed.
Definition slt (a b : string) : Prop := String.compare a b = Lt.
Lemma compare_refl a : String.compare a a = Eq.
Proof. induction a; cbn; auto. assert (Ascii.compare a a = Eq) as -> by (unfold Ascii.compare; apply N.compare_eq_iff; auto). auto. Qed.
Lemma slt_irr a : ~ slt a a.
Proof. unfold slt. rewrite compare_refl. discriminate. Qed.
Lemma ascii_trans a b c : Ascii.compare a b = Lt -> Ascii.compare b c = Lt -> Ascii.compare a c = Lt.
Proof. unfold Ascii.compare. rewrite !N.compare_lt_iff. lia. Qed.
Lemma ascii_eq a b : Ascii.compare a b = Eq -> a = b.
Proof. unfold Ascii.compare. intros H%N.compare_eq_iff. rewrite <- (Ascii.ascii_N_embedding a), <- (Ascii.ascii_N_embedding b), H. auto. Qed.
Lemma slt_trans a : forall b c, slt a b -> slt b c -> slt a c.
Proof.
  unfold slt. induction a as [|x a IH]; intros [|y b] [|z c]; cbn; try discriminate; auto.
  destruct (Ascii.compare x y) eqn:E; try discriminate; destruct (Ascii.compare y z) eqn:F; try discriminate; intros H1 H2.
  - apply ascii_eq in E. apply ascii_eq in F. subst. assert (Ascii.compare z z = Eq) as -> by (unfold Ascii.compare; apply N.compare_eq_iff; auto). eauto.
  - apply ascii_eq in E. subst. rewrite F. auto.
  - apply ascii_eq in F. subst. rewrite E. auto.
  - rewrite (ascii_trans _ _ _ E F). auto.
Qed.
Lemma slt_gt a b : String.compare a b = Gt -> slt b a.
Proof. unfold slt. rewrite String.compare_antisym. destruct (String.compare b a); cbn; congruence. Qed.
Inductive ascending : list string -> Prop :=
| asc_nil : ascending []
| asc_cons x l : (forall y, In y l -> slt x y) -> ascending l -> ascending (x :: l).
Lemma insert_asc s l : ascending l -> ascending (insert s l).
Proof.
  induction 1 as [|x l H A IH]; cbn; [constructor; [intros y []|constructor]|]. destruct (String.compare s x) eqn:C.
  - constructor; auto.
  - constructor; [|constructor; auto]. intros y [<-|Y]; [exact C|eapply slt_trans; eauto].
  - constructor; auto. intros y Y%insert_In. destruct Y as [->|Y]; auto. apply slt_gt; auto.
Qed.
Lemma unique_asc l : ascending (np_unique l).
Proof. induction l; cbn; [constructor|]. apply insert_asc; auto. Qed.
Lemma asc_NoDup l : ascending l -> NoDup l.
Proof. induction 1 as [|x l H A IH]; constructor; auto. intros I. apply (slt_irr x), H, I. Qed.

(** ** places *)
Lemma place_some s f : In s f -> exists i, place s f = Some i /\ nth_error f i = Some s.
Proof.
  induction f as [|x f IH]; [intros []|]. cbn [place]. destruct (String.eqb_spec s x) as [->|N]; [exists 0; auto|].
  intros [E|I]; [congruence|]. destruct (IH I) as (i & E & F). rewrite E. exists (S i). auto.
Qed.
Lemma place_inv s f i : place s f = Some i -> nth_error f i = Some s.
Proof.
  revert i. induction f as [|x f IH]; cbn [place]; [discriminate|]. intros i. destruct (String.eqb_spec s x) as [->|N]; [intros [= <-]; auto|].
  destruct (place s f) as [j|]; [|discriminate]. intros [= <-]. cbn. auto.
Qed.
Lemma mapped_in f cm s : In s f -> length f <= length cm -> exists i c, place s f = Some i /\ nth_error cm i = Some c /\ mapped f cm s = Mapped c.
Proof.
  intros I L. destruct (place_some s f I) as (i & E & F). assert (X : i < length f) by (apply nth_error_Some; congruence).
  destruct (nth_error cm i) as [c|] eqn:G; [|apply nth_error_None in G; lia]. exists i, c. unfold mapped. rewrite E, G. auto.
Qed.
Lemma mapped_inj f cm s t : NoDup cm -> In s f -> In t f -> length f <= length cm -> mapped f cm s = mapped f cm t -> s = t.
Proof.
  intros ND I J L E. destruct (mapped_in f cm s I L) as (i & c & P & N & M). destruct (mapped_in f cm t J L) as (j & d & Q & O & K).
  rewrite M, K in E. injection E as E. subst d. assert (i = j).
  { apply (proj1 (NoDup_nth_error cm) ND); [apply nth_error_Some; congruence|congruence]. }
  subst j. apply place_inv in P, Q. congruence.
Qed.
Lemma cover (l names : list string) : NoDup l -> (forall x, In x l -> In x names) -> length l <= length names.
Proof. intros N I. apply NoDup_incl_length; auto. Qed.

(** ** the sources *)
Lemma set_data_at h i d : i < length h -> nth_error (set_data h i d) i = Some d.
Proof. revert i; induction h; intros [|i] H; cbn in *; auto; try lia. apply IHh. lia. Qed.
Lemma set_data_other h i j d : i <> j -> nth_error (set_data h i d) j = nth_error h j.
Proof. revert i j; induction h; intros [|i] [|j] H; cbn in *; auto; try lia. Qed.
Definition known (h : sources) (source : option nat) : Prop := match source with Some i => i < length h | None => True end.
Lemma framed h d source cat f cm h' r : known h source -> plot_frame h (inl d) source cat f cm = (h', r) ->
  exists i, nth_error h' i = Some d /\ r = plot_circles h' i cat f (match cm with None => category10 | Some c => c end) /\
    (forall j, j < length h -> Some j <> source -> nth_error h' j = nth_error h j) /\ source = Some i \/ source = None /\
    nth_error h' (length h) = Some d /\ r = plot_circles h' (length h) cat f (match cm with None => category10 | Some c => c end) /\
    (forall j, j < length h -> nth_error h' j = nth_error h j).
Proof.
  unfold plot_frame. destruct source as [i|]; cbn [known]; intros K [= <- <-].
  - exists i. left. split; [apply set_data_at; auto|]. split; auto. split; auto. intros j L N. apply set_data_other. congruence.
  - exists 0. right. split; auto. split; [rewrite nth_error_app2, Nat.sub_diag by lia; auto|]. split; auto.
    intros j L. apply nth_error_app1; auto.
Qed.

(** The effective colour map *)
Definition colours_of (cm : option (list string)) : list string := match cm with None => category10 | Some c => c end.
Lemma category10_NoDup : NoDup category10.
Proof.
  assert (H : forall l : list string, (if list_eq_dec string_dec (nodup string_dec l) l then true else false) = true -> NoDup l).
  { intros l. destruct (list_eq_dec string_dec (nodup string_dec l) l) as [E|]; [|discriminate]. intros _. rewrite <- E. apply NoDup_nodup. }
  apply H. vm_compute. reflexivity.
Qed.
Lemma category_colours h d l source f cm h' p : known h source -> d_colour d = Categories l ->
  plot_frame h (inl d) source true f cm = (h', inl p) ->
  painted h' p = map (mapped (match f with Some f => f | None => np_unique l end) (colours_of cm)) l.
Proof.
  intros K C E. destruct d as [dx dy do dr dc]. cbn in C. subst dc.
  destruct (framed _ _ _ _ _ _ _ _ K E) as (i & [(N & R & _)|(_ & N & R & _)]); unfold plot_circles in R; rewrite N in R;
    destruct f as [f|]; injection R as ->; unfold painted; cbn; rewrite N; reflexivity.
Qed.

(** * C179 *)
Definition few_classes (classes : list string) (k : nat) : Prop := exists names, length names <= k /\ forall c, In c classes -> In c names.
Definition colour_at (n : nat) (l : list paint) (p m : nat) : paint := entry n l p m Gray.
Theorem C179_apart_partial : forall gimbal position orientation n o of_ ol num offsets radii h source cm h' fig,
  length position = n -> length orientation = n -> offsets <> [] -> num = length offsets -> length (o_strings o) = n ->
  (of_ = Some (inl o) /\ ol = None) \/ (of_ = None /\ ol = Some o) ->
  known h source -> NoDup (colours_of cm) -> few_classes (o_strings o) (length (colours_of cm)) ->
  plot_frame h (frame2data gimbal position orientation n of_ ol num offsets (inl radii) true) source true None cm = (h', inl fig) ->
  length (painted h' fig) = num * n /\
  forall p m p' m', p < num -> m < n -> p' < num -> m' < n ->
    (colour_at n (painted h' fig) p m = colour_at n (painted h' fig) p' m' <-> nth m (o_strings o) "" = nth m' (o_strings o) "") /\
    exists c, In c (colours_of cm) /\ colour_at n (painted h' fig) p m = Mapped c.
Proof.
  intros gimbal position orientation n o of_ ol num offsets radii h source cm h' fig Lp Lo N E Ls Or K ND (names & Le & Co) P.
  destruct (C89_categories gimbal position orientation n o num offsets radii Lp Lo N E Ls) as (H & _).
  destruct (H of_ ol Or) as (d & cs & Ed & Ec & Lc & En). rewrite Ed in P.
  rewrite (category_colours _ _ _ _ _ _ _ _ K Ec P). rewrite map_length. split; auto. intros p m p' m' Pp Pm Pp' Pm'.
  assert (IN : forall p m, p < num -> m < n -> In (nth m (o_strings o) "") (np_unique cs)
     /\ colour_at n (map (mapped (np_unique cs) (colours_of cm)) cs) p m = mapped (np_unique cs) (colours_of cm) (nth m (o_strings o) "")).
  { intros q k Q R. assert (X : q * n + k < length cs) by (rewrite Lc; nia). split.
    - apply unique_In. rewrite <- (En q k Q R). apply nth_In. auto.
    - unfold colour_at, entry. rewrite <- (En q k Q R). unfold entry. rewrite (nth_indep _ Gray (mapped (np_unique cs) (colours_of cm) "")) by (rewrite map_length; auto).
      apply map_nth. }
  assert (SH : forall x, In x cs -> In x (o_strings o)).
  { intros x X. apply (In_nth _ _ "") in X. destruct X as (k & Lk & <-). rewrite Lc in Lk. assert (n <> 0) by nia.
    rewrite (Nat.div_mod k n), Nat.mul_comm by auto.
    assert (D1 : k / n < num) by (apply Nat.div_lt_upper_bound; lia). assert (D2 : k mod n < n) by (apply Nat.mod_upper_bound; auto).
    pose proof (En _ _ D1 D2) as F. unfold entry in F. rewrite F. apply nth_In. lia. }
  assert (LE : length (np_unique cs) <= length (colours_of cm)).
  { etransitivity; [apply (cover _ names)|exact Le].
    - apply asc_NoDup, unique_asc.
    - intros x X. apply Co, SH, unique_In. auto. }
  destruct (IN p m Pp Pm) as (I1 & ->). destruct (IN p' m' Pp' Pm') as (I2 & ->). split; [split|].
  - intros F. exact (mapped_inj _ _ _ _ ND I1 I2 LE F).
  - intros ->. auto.
  - destruct (mapped_in _ (colours_of cm) _ I1 LE) as (i & c & _ & Nc & M). exists c. split; auto. eapply nth_error_In; eauto.
Qed.
Print Assumptions C179_apart_partial.
Definition disc (classes : list string) : columns + exn :=
  frame2data (fun _ => zero3) (map (fun _ => zero3) classes) (map (fun _ => RVec.mkq 1 0 0 0) classes) (length classes) None (Some (mkord Text classes []))
             1 [zero3] (inl [1%R]) true.
Lemma disc_colour classes : exists d, disc classes = inl d /\ d_colour d = Categories classes.
Proof.
  destruct (C89_categories (fun _ => zero3) (map (fun _ => zero3) classes) (map (fun _ => RVec.mkq 1 0 0 0) classes) (length classes) (mkord Text classes []) 1 [zero3] [1%R])
    as (H & _); try (rewrite ?map_length; reflexivity); [discriminate|].
  destruct (H None (Some (mkord Text classes []))) as (d & cs & E & C & L & En); [right; auto|]. exists d. split; [exact E|]. rewrite C. f_equal.
  apply (nth_ext _ _ "" ""); [lia|]. intros k Lk. specialize (En 0 k ltac:(lia) ltac:(lia)). exact En.
Qed.
Definition letters : list string := ["a"; "b"; "c"; "d"; "e"; "f"; "g"; "h"; "i"; "j"; "k"; "l"].
(** With the twelve classes of letters two of them are gray. *)
Theorem C179_apart_refuted : exists h' fig, plot_frame [] (disc letters) None true None None = (h', inl fig) /\
  nth 10 letters "" <> nth 11 letters "" /\ colour_at 12 (painted h' fig) 0 10 = Gray /\ colour_at 12 (painted h' fig) 0 11 = Gray.
Proof.
  destruct (disc_colour letters) as (d & E & C). rewrite E. unfold plot_frame, plot_circles. cbn [app length nth_error].
  destruct d as [dx dy do dr dc]. cbn in C. subst dc. eexists _, _. split; [reflexivity|]. split; [discriminate|]. split; vm_compute; reflexivity.
Qed.
Print Assumptions C179_apart_refuted.
(** Three molecules of two classes. *)
Example C179_ex : exists h' fig, plot_frame [] (disc ["liq"; "p2"; "liq"]) None true None None = (h', inl fig) /\
  painted h' fig = [Mapped "#1f77b4"; Mapped "#ff7f0e"; Mapped "#1f77b4"] /\ few_classes ["liq"; "p2"; "liq"] (length (colours_of None)) /\ NoDup (colours_of None).
Proof.
  destruct (disc_colour ["liq"; "p2"; "liq"]) as (d & E & C). rewrite E. unfold plot_frame, plot_circles. cbn [app length nth_error].
  destruct d as [dx dy do dr dc]. cbn in C. subst dc. eexists _, _. split; [reflexivity|]. split; [vm_compute; reflexivity|]. split.
  - exists ["liq"; "p2"]. split; [cbn; lia|]. cbn. intuition.
  - exact category10_NoDup.
Qed.

(** * C180 *)
(** Two figures with the same factors and colours: a class of both is shown alike. *)
Theorem C180_same_partial : forall h1 d1 l1 s1 h1' fig1 h2 d2 l2 s2 h2' fig2 factors cm i j c,
  known h1 s1 -> d_colour d1 = Categories l1 -> plot_frame h1 (inl d1) s1 true (Some factors) cm = (h1', inl fig1) ->
  known h2 s2 -> d_colour d2 = Categories l2 -> plot_frame h2 (inl d2) s2 true (Some factors) cm = (h2', inl fig2) ->
  nth_error l1 i = Some c -> nth_error l2 j = Some c ->
  exists x, nth_error (painted h1' fig1) i = Some x /\ nth_error (painted h2' fig2) j = Some x /\
    (x <> Gray <-> exists k, (exists f, nth_error factors k = Some f /\ f = c /\ forall k' f', k' < k -> nth_error factors k' = Some f' -> f' <> c) /\ k < length (colours_of cm)).
Proof.
  intros h1 d1 l1 s1 h1' fig1 h2 d2 l2 s2 h2' fig2 factors cm i j c K1 C1 P1 K2 C2 P2 I J.
  rewrite (category_colours _ _ _ _ _ _ _ _ K1 C1 P1), (category_colours _ _ _ _ _ _ _ _ K2 C2 P2). cbn.
  exists (mapped factors (colours_of cm) c). rewrite !nth_error_map, I, J. cbn. split; auto. split; auto.
  assert (FST : forall f k, place c f = Some k <-> nth_error f k = Some c /\ forall k' f', k' < k -> nth_error f k' = Some f' -> f' <> c).
  { clear. induction f as [|x f IH]; intros k; cbn [place].
    - split; [discriminate|]. intros (H & _). destruct k; discriminate.
    - destruct (String.eqb_spec c x) as [->|N].
      + split; [intros [= <-]; split; [auto|intros; lia]|]. intros (H & F). destruct k as [|k]; auto. exfalso. apply (F 0 x); auto. lia.
      + destruct k as [|k]; split.
        * destruct (place c f); discriminate.
        * cbn. intros ([= ->] & _). congruence.
        * destruct (place c f) as [q|] eqn:Q; [|discriminate]. intros [= <-]. destruct (proj1 (IH q) eq_refl) as (Q1 & Q2). split; auto.
          intros [|k'] f' L; cbn; [intros [= <-]; congruence|]. intros H. apply (Q2 k'); auto. lia.
        * cbn. intros (H & F). assert (Q : place c f = Some k).
          { apply IH. split; auto. intros k' f' L H'. apply (F (S k') f'); auto. lia. }
          rewrite Q. auto. }
  unfold mapped. destruct (place c factors) as [k|] eqn:Q.
  - apply FST in Q as Q'. destruct Q' as (Q1 & Q2). destruct (nth_error (colours_of cm) k) as [col|] eqn:NC.
    + split; [|discriminate]. intros _. exists k. split; [exists c; auto|]. apply nth_error_Some. congruence.
    + split; [congruence|]. intros (k2 & (f & F1 & -> & F2) & L). apply nth_error_None in NC. exfalso.
      assert (X : place c factors = Some k2) by (apply FST; auto). rewrite Q in X. injection X as ->. lia.
  - split; [congruence|]. intros (k2 & (f & F1 & -> & F2) & _). assert (X : place c factors = Some k2) by (apply FST; auto). congruence.
Qed.
Print Assumptions C180_same_partial.
(** Without factors the colour of the class p2 depends on the other molecules. *)
Theorem C180_same_refuted : exists h1 fig1 h2 fig2,
  plot_frame [] (disc ["liq"; "p2"]) None true None None = (h1, inl fig1) /\ plot_frame [] (disc ["p2"; "p2"]) None true None None = (h2, inl fig2) /\
  nth_error (painted h1 fig1) 1 = Some (Mapped "#ff7f0e") /\ nth_error (painted h2 fig2) 1 = Some (Mapped "#1f77b4").
Proof.
  destruct (disc_colour ["liq"; "p2"]) as (d & E & C). rewrite E. destruct (disc_colour ["p2"; "p2"]) as (d' & E' & C'). rewrite E'.
  unfold plot_frame, plot_circles. cbn [app length nth_error].
  destruct d as [dx dy do dr dc]. cbn in C. subst dc. destruct d' as [dx' dy' do' dr' dc']. cbn in C'. subst dc'.
  eexists _, _, _, _. split; [reflexivity|]. split; [reflexivity|]. split; vm_compute; reflexivity.
Qed.
Print Assumptions C180_same_refuted.
Example C180_ex : exists h1 fig1 h2 fig2,
  plot_frame [] (disc ["liq"; "p2"]) None true (Some ["p2"; "liq"]) None = (h1, inl fig1) /\ plot_frame [] (disc ["p2"; "pg"]) None true (Some ["p2"; "liq"]) None = (h2, inl fig2) /\
  painted h1 fig1 = [Mapped "#ff7f0e"; Mapped "#1f77b4"] /\ painted h2 fig2 = [Mapped "#1f77b4"; Gray].
Proof.
  destruct (disc_colour ["liq"; "p2"]) as (d & E & C). rewrite E. destruct (disc_colour ["p2"; "pg"]) as (d' & E' & C'). rewrite E'.
  unfold plot_frame, plot_circles. cbn [app length nth_error].
  destruct d as [dx dy do dr dc]. cbn in C. subst dc. destruct d' as [dx' dy' do' dr' dc']. cbn in C'. subst dc'.
  eexists _, _, _, _. split; [reflexivity|]. split; [reflexivity|]. split; vm_compute; reflexivity.
Qed.

(** * C181 *)
Lemma circles_source h i cat f cm fig : plot_circles h i cat f cm = inl fig -> p_source fig = i.
Proof.
  unfold plot_circles. destruct cat; [|intros [= <-]; auto]. destruct f; [intros [= <-]; auto|].
  destruct (nth_error h i) as [[dx dy do dr [l|l]]|]; try discriminate. intros [= <-]; auto.
Qed.
(** A figure goes on to show its frame as long as its source is not given to another one. *)
Theorem C181_kept_partial : forall h d cat f cm source h' fig d2 cat2 f2 cm2 source2 h'' r2,
  known h source -> plot_frame h d source cat f cm = (h', inl fig) ->
  known h' source2 -> source2 <> Some (p_source fig) ->
  plot_frame h' d2 source2 cat2 f2 cm2 = (h'', r2) ->
  painted h'' fig = painted h' fig /\ placed h'' fig = placed h' fig.
Proof.
  intros h d cat f cm source h' fig d2 cat2 f2 cm2 source2 h'' r2 K P K2 N P2.
  destruct d2 as [d2|e]; [|injection P2 as <- <-; auto]. destruct d as [d|e]; [|injection P as _ P; discriminate].
  assert (L : p_source fig < length h').
  { destruct (framed _ _ _ _ _ _ _ _ K P) as (i & [(A & R & _)|(_ & A & R & _)]); symmetry in R; apply circles_source in R; rewrite R; apply nth_error_Some; congruence. }
  assert (E : nth_error h'' (p_source fig) = nth_error h' (p_source fig)).
  { destruct (framed _ _ _ _ _ _ _ _ K2 P2) as (i & [(_ & _ & A & _)|(_ & _ & _ & A)]); apply A; auto. }
  unfold painted, placed. rewrite E. auto.
Qed.
Print Assumptions C181_kept_partial.
(** A figure that is refused leaves the sources alone. *)
Theorem C181_refused_partial : forall gimbal position orientation n of_ ol num offsets radii h source cat f cm h' e,
  known h source ->
  plot_frame h (frame2data gimbal position orientation n of_ ol num offsets radii cat) source cat f cm = (h', inr e) -> h' = h.
Proof.
  intros gimbal position orientation n of_ ol num offsets radii h source cat f cm h' e K P.
  destruct (frame2data gimbal position orientation n of_ ol num offsets radii cat) as [d|e'] eqn:E; [|injection P; auto]. exfalso.
  destruct (framed _ _ _ _ _ _ _ _ K P) as (i & H). assert (X : exists i, nth_error h' i = Some d /\ inr e = plot_circles h' i cat f (colours_of cm)).
  { destruct H as [(A & B & _)|(_ & A & B & _)]; eauto. }
  clear H. destruct X as (k & A & B). unfold plot_circles in B. rewrite A in B. destruct cat; [|discriminate]. destruct f; [discriminate|].
  assert (C : exists l, d_colour d = Categories l).
  { unfold frame2data in E. destruct of_ as [o|], ol as [ol|]; try discriminate; unfold frame_colours in E; cbn [ebind] in E; try discriminate;
      [destruct o as [o|]; cbn [ebind] in E; [|discriminate]|];
      (destruct (orientation2positions num offsets position orientation); [|discriminate]; destruct radii; [|discriminate]; cbn in E; injection E as <-; cbn; eauto). }
  destruct C as (l & C). destruct d as [dx dy do dr dc]. cbn in C. subst dc. discriminate.
Qed.
Print Assumptions C181_refused_partial.
(** Two frames drawn to one source: the first figure has the second frame, in wrong colours. *)
Theorem C181_kept_refuted : exists h1 fig1 h2 fig2,
  plot_frame [] (disc ["liq"; "p2"]) None true None None = (h1, inl fig1) /\
  plot_frame h1 (disc ["p2"; "pg"]) (Some 0) true None None = (h2, inl fig2) /\
  painted h1 fig1 = [Mapped "#1f77b4"; Mapped "#ff7f0e"] /\
  painted h2 fig2 = [Mapped "#1f77b4"; Mapped "#ff7f0e"] /\ painted h2 fig1 = [Mapped "#ff7f0e"; Gray].
Proof.
  destruct (disc_colour ["liq"; "p2"]) as (d & E & C). rewrite E. destruct (disc_colour ["p2"; "pg"]) as (d' & E' & C'). rewrite E'.
  unfold plot_frame. cbn [app length set_data]. destruct d as [dx dy do dr dc]. cbn in C. subst dc. destruct d' as [dx' dy' do' dr' dc']. cbn in C'. subst dc'.
  eexists _, _, _, _. split; [reflexivity|]. split; [reflexivity|]. split; [vm_compute; reflexivity|]. split; vm_compute; reflexivity.
Qed.
Print Assumptions C181_kept_refuted.
Example C181_ex : exists h1 fig1 h2 fig2,
  plot_frame [] (disc ["liq"; "p2"]) None true None None = (h1, inl fig1) /\
  plot_frame h1 (disc ["p2"; "pg"]) None true None None = (h2, inl fig2) /\ known h1 None /\ painted h2 fig1 = painted h1 fig1
  /\ plot_frame h2 (frame2data (fun _ => zero3) [] [] 0 None None 1 [zero3] (inl [1%R]) true) (Some 0) true None None = (h2, inr ValueError).
Proof.
  destruct (disc_colour ["liq"; "p2"]) as (d & E & C). rewrite E. destruct (disc_colour ["p2"; "pg"]) as (d' & E' & C'). rewrite E'.
  unfold plot_frame. cbn [app length set_data]. destruct d as [dx dy do dr dc]. cbn in C. subst dc. destruct d' as [dx' dy' do' dr' dc']. cbn in C'. subst dc'.
  eexists _, _, _, _. split; [reflexivity|]. split; [reflexivity|]. split; [exact I|]. split; reflexivity.
Qed.
