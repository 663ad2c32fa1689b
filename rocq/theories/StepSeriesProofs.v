(** Invariant of GenerateStepSeries. *)
From Coq Require Import ZArith List Sorted Bool Lia Arith Permutation.
From Verif Require Import Base DictFacts StepSizeModel StepSizeSpec StepSizeProofs.
Import ListNotations.
Open Scope Z_scope.

Definition zget_set_same {V} := @dget_dset_same Z V Z.eqb Z.eqb_eq.
Definition zget_set {V} := @dget_dset Z V Z.eqb Z.eqb_eq.
Definition zget_In {V} := @dget_In Z V Z.eqb Z.eqb_eq.

(** ** List helpers *)

Lemma upd_nth_length {A} i (x : A) l : length (upd_nth i x l) = length l.
Proof.
  unfold upd_nth. rewrite app_length.
  destruct (skipn i l) as [|y t] eqn:E.
  - assert (length (skipn i l) = 0%nat) by now rewrite E.
    rewrite skipn_length in H. rewrite firstn_length. simpl. lia.
  - assert (length (skipn i l) = S (length t)) by now rewrite E.
    rewrite skipn_length in H. rewrite firstn_length. simpl. lia.
Qed.

Lemma nth_error_upd_same {A} i (x : A) l :
  (i < length l)%nat -> nth_error (upd_nth i x l) i = Some x.
Proof.
  intros H. unfold upd_nth.
  rewrite nth_error_app2 by (rewrite firstn_length; lia).
  rewrite firstn_length. replace (i - Nat.min i (length l))%nat with 0%nat by lia.
  destruct (skipn i l) eqn:E; simpl; auto.
  assert (length (skipn i l) = 0%nat) by now rewrite E.
  rewrite skipn_length in H0. lia.
Qed.

Lemma nth_error_upd_other {A} i j (x : A) l :
  i <> j -> nth_error (upd_nth i x l) j = nth_error l j.
Proof.
  intros H. revert i j H. induction l as [|a l IH]; intros i j H.
  - unfold upd_nth. now rewrite firstn_nil, skipn_nil.
  - destruct i as [|i], j as [|j]; try congruence; auto.
    unfold upd_nth in *; simpl. apply (IH i j). congruence.
Qed.

Lemma NoDup_snoc {A} (x : A) l : NoDup l -> ~ In x l -> NoDup (l ++ [x]).
Proof.
  intros H1 H2. apply Permutation_NoDup with (l := x :: l); [|now constructor].
  apply Permutation_cons_append.
Qed.

(** ** The queue *)

Lemma pq_min_spec l : forall x, In (pq_min x l) (x :: l) /\ forall y, In y (x :: l) -> pq_min x l <= y.
Proof.
  induction l as [|a l IH]; intros x.
  - simpl. split; auto. intros y [->|[]]; lia.
  - cbn [pq_min]. destruct (IH a) as [A B]. split.
    + destruct (Z.min_dec x (pq_min a l)) as [->| ->]; [left; auto|right; auto].
    + intros y [->|Hy]; [lia|]. specialize (B y Hy). lia.
Qed.

Lemma remove_one_In x y l : NoDup l -> (In y (remove_one x l) <-> In y l /\ y <> x).
Proof.
  induction l as [|a l IH]; intros Hnd; simpl; [tauto|].
  inversion Hnd as [|? ? Hn Hnd']; subst.
  destruct (Z.eqb_spec x a) as [->|Hne].
  - split; [intros H; split; [auto|intros ->; auto]|intros [[->|] ?]; congruence].
  - simpl. rewrite IH by auto. intuition congruence.
Qed.

Lemma remove_one_NoDup x l : NoDup l -> NoDup (remove_one x l).
Proof.
  induction l as [|a l IH]; intros Hnd; simpl; auto.
  inversion Hnd as [|? ? Hn Hnd']; subst.
  destruct (Z.eqb_spec x a); auto. constructor; auto.
  rewrite remove_one_In by auto. tauto.
Qed.

Lemma pq_get_spec q :
  NoDup q ->
  match pq_get q with
  | None => q = []
  | Some (c, q') => In c q /\ (forall y, In y q -> c <= y) /\ NoDup q' /\
                    forall y, In y q' <-> In y q /\ y <> c
  end.
Proof.
  intros Hnd. destruct q as [|x q]; simpl; auto.
  destruct (pq_min_spec q x) as [A B].
  change (if pq_min x q =? x then q else x :: remove_one (pq_min x q) q)
    with (remove_one (pq_min x q) (x :: q)).
  repeat split; auto.
  - now apply remove_one_NoDup.
  - apply remove_one_In in H; tauto.
  - apply remove_one_In in H; tauto.
  - intros H. now apply remove_one_In.
Qed.

(** ** Pending values *)

Definition after (c : Z) (L : list Z) : list Z := filter (fun x => c <? x) L.

Lemma after_In c L x : In x (after c L) <-> In x L /\ c < x.
Proof. unfold after. rewrite filter_In, Z.ltb_lt. tauto. Qed.

Lemma after_increasing c L : increasing L -> increasing (after c L).
Proof.
  induction L as [|a L IH]; simpl; intros H; auto.
  apply increasing_cons in H as [H1 H2].
  destruct (c <? a); auto. apply increasing_cons. split; auto.
  intros y Hy. apply after_In in Hy. apply H2; tauto.
Qed.

Lemma after_cons_inv c L v r :
  increasing L -> after c L = v :: r -> r = after v L /\ In v L /\ c < v.
Proof.
  intros HL H. assert (Hv : In v (after c L)) by (rewrite H; left; auto).
  apply after_In in Hv as [Hv1 Hv2]. repeat split; auto.
  pose proof (after_increasing c L HL) as Hi. rewrite H in Hi.
  apply increasing_cons in Hi as [Hi1 Hi2].
  apply increasing_ext; auto using after_increasing.
  intros x. rewrite after_In. split.
  - intros Hx. split; [|apply Hi2; auto].
    assert (In x (after c L)) by (rewrite H; right; auto). apply after_In in H0; tauto.
  - intros [Hx1 Hx2]. assert (Hx : In x (after c L)) by (apply after_In; lia || (split; auto; lia)).
    rewrite H in Hx. destruct Hx as [->|]; auto. lia.
Qed.

Lemma after_skip c last L :
  increasing L -> last <= c -> ~ In c L ->
  (forall v, hd_error (after last L) = Some v -> c <= v) ->
  after c L = after last L.
Proof.
  intros HL Hle Hn Hh.
  apply increasing_ext; auto using after_increasing.
  intros x. rewrite !after_In. split; [intros []; split; auto; lia|].
  intros [H1 H2]. split; auto.
  destruct (after last L) as [|v r] eqn:E.
  - assert (In x (after last L)) by (apply after_In; auto). rewrite E in H. destruct H.
  - specialize (Hh v eq_refl).
    assert (Hx : In x (after last L)) by (apply after_In; auto). rewrite E in Hx.
    pose proof (after_increasing last L HL) as Hi. rewrite E in Hi.
    apply increasing_cons in Hi as [_ Hi].
    assert (c <= x) by (destruct Hx as [<-|Hx]; auto; apply Hi in Hx; lia).
    assert (c <> x) by (intros ->; auto). lia.
Qed.

(** ** The invariant *)

Section Inv.
  Variables (fuel : nat) (total n G M : Z).
  Hypothesis Hn : 1 <= n.
  Hypothesis Hfuel : (exp_fuel n <= fuel)%nat.
  Hypothesis Htotal : 0 <= total.
  Hypothesis HG : G <> 0.

  (** Every generator [m] has its list [L m]. *)
  Definition lists_of (starts : list Z) (Ls : list (list Z)) : Prop :=
    Forall2 (fun st L => 0 <= st <= total /\ steps_of total n st L) starts Ls.

  Definition params (s : series) : Prop :=
    s_total s = total /\ s_lin s = n /\ s_gen_steps s = G /\ s_max_gen s = M.

  (** [done m]: generator [m] has been advanced past [c]. *)
  Record minv (starts : list Z) (Ls : list (list Z)) (c : Z) (extra : bool)
         (done : nat -> Prop) (s : series) : Prop := {
    mi_params : params s;
    mi_lists : lists_of starts Ls;
    mi_num : s_num s = length Ls;
    mi_gens : length (s_gens s) = length Ls;
    mi_dec : forall m, done m \/ ~ done m;
    mi_done : forall m L g, nth_error Ls m = Some L -> nth_error (s_gens s) m = Some g -> done m ->
       (after c L = [] /\ gen_trace fuel g []) \/
       (exists v r, after c L = v :: r /\ gen_trace fuel g r);
    mi_todo : forall m L g, nth_error Ls m = Some L -> nth_error (s_gens s) m = Some g -> ~ done m ->
       gen_trace fuel g (after c L);
    mi_qnd : NoDup (s_queue s);
    mi_vnd : NoDup (dkeys (s_values s));
    mi_queue : forall v, In v (s_queue s) <->
       exists m L, nth_error Ls m = Some L /\ done m /\ hd_error (after c L) = Some v;
    mi_vals : forall v, In v (s_queue s) ->
       exists l, dget Z.eqb v (s_values s) = Some l /\ NoDup l /\
         forall m, In m l <-> exists L, nth_error Ls m = Some L /\ done m /\ hd_error (after c L) = Some v;
    mi_keys : forall v, In v (dkeys (s_values s)) <-> In v (s_queue s) \/ (extra = true /\ v = c)
  }.

  Lemma minv_queue_gt starts Ls c extra done s v :
    minv starts Ls c extra done s -> In v (s_queue s) -> c < v.
  Proof.
    intros H Hv. apply (mi_queue _ _ _ _ _ _ H) in Hv as (m & L & _ & _ & Hh).
    destruct (after c L) as [|x r] eqn:E; [discriminate|].
    injection Hh as ->. assert (In v (after c L)) by (rewrite E; left; auto).
    apply after_In in H0. tauto.
  Qed.

  Lemma lists_of_nth starts Ls m L :
    lists_of starts Ls -> nth_error Ls m = Some L ->
    exists st, nth_error starts m = Some st /\ 0 <= st <= total /\ steps_of total n st L.
  Proof.
    intros H. revert m. induction H as [|st L' starts Ls HS H IH]; intros [|m] Hm; simpl in *; try discriminate.
    - injection Hm as ->. eauto.
    - auto.
  Qed.

  Lemma lists_of_length starts Ls : lists_of starts Ls -> length starts = length Ls.
  Proof. induction 1; simpl; auto. Qed.

  Lemma gen_trace_inv g l : gen_trace fuel g l ->
    match l with [] => gen_next fuel g = Stop
               | v :: l' => exists g', gen_next fuel g = Yield v g' /\ gen_trace fuel g' l' end.
  Proof. destruct 1; eauto. Qed.

  (** The parts of a series that [_enqueue] leaves alone. *)
  Definition same_frame (s s' : series) : Prop :=
    s_curr s' = s_curr s /\ s_num s' = s_num s /\ params s'.

  Lemma enqueue_minv starts Ls c done s m :
    minv starts Ls c true done s ->
    (m < length Ls)%nat -> ~ done m ->
    exists s', enqueue fuel m s = Ok s' /\
      minv starts Ls c true (fun j => done j \/ j = m) s' /\
      same_frame s s' /\
      dget Z.eqb c (s_values s') = dget Z.eqb c (s_values s).
  Proof.
    intros H Hm Hd.
    destruct (nth_error Ls m) as [L|] eqn:EL; [|apply nth_error_None in EL; lia].
    destruct (nth_error (s_gens s) m) as [g|] eqn:Eg;
      [|apply nth_error_None in Eg; rewrite (mi_gens _ _ _ _ _ _ H) in Eg; lia].
    pose proof (mi_todo _ _ _ _ _ _ H _ _ _ EL Eg Hd) as Ht.
    unfold enqueue. rewrite Eg.
    assert (HL : increasing L).
    { destruct (lists_of_nth _ _ _ _ (mi_lists _ _ _ _ _ _ H) EL) as (st & _ & _ & [HL _]). auto. }
    destruct (after c L) as [|v r] eqn:Ea.
    - (* exhausted *)
      apply gen_trace_inv in Ht as Hstop. simpl in Hstop. rewrite Hstop.
      eexists; split; [reflexivity|]. split; [|split; [repeat split; apply (mi_params _ _ _ _ _ _ H)|auto]].
      destruct H as [h1 h2 h3 h4 h5 h6 h7 h8 h9 h10 h11 h12].
      constructor; auto.
      + intros j. destruct (Nat.eq_dec j m); auto. destruct (h5 j); [auto|]. right; tauto.
      + intros j L' g' HL' Hg' [Hj| ->]; [eauto|]. left. rewrite EL in HL'. injection HL' as <-.
        rewrite Eg in Hg'. injection Hg' as <-. auto.
      + intros j L' g' HL' Hg' Hj. apply (h7 j L' g'); auto.
      + intros v. rewrite h10. split; intros (j & L' & A & B & C); exists j, L'; repeat split; auto.
        destruct B as [B| ->]; auto. rewrite EL in A. injection A as <-. rewrite Ea in C. discriminate.
      + intros v Hv. destruct (h11 v Hv) as (l & A & B & C). exists l. repeat split; auto.
        * intros Hj. apply C in Hj as (L' & D1 & D2 & D3). eauto.
        * intros (L' & D1 & [D2| ->] & D3); [apply C; eauto|].
          rewrite EL in D1. injection D1 as <-. rewrite Ea in D3. discriminate.
    - (* a value [v] *)
      apply gen_trace_inv in Ht as (g' & Hy & Ht'). rewrite Hy.
      destruct (after_cons_inv _ _ _ _ HL Ea) as (_ & _ & Hcv).
      assert (Hlen : (m < length (s_gens s))%nat) by (rewrite (mi_gens _ _ _ _ _ _ H); lia).
      assert (Hgens : forall j gj, nth_error (upd_nth m g' (s_gens s)) j = Some gj ->
                (j = m /\ gj = g') \/ (j <> m /\ nth_error (s_gens s) j = Some gj)).
      { intros j gj Hj. destruct (Nat.eq_dec j m) as [->|Hne].
        - rewrite nth_error_upd_same in Hj by auto. injection Hj as <-. auto.
        - rewrite nth_error_upd_other in Hj by auto. auto. }
      cbn [set_gens s_values s_queue s_gens].
      destruct (dget Z.eqb v (s_values s)) as [temp|] eqn:Ev.
      + (* existing entry: v in queue *)
        assert (Hvq : In v (s_queue s)).
        { assert (In v (dkeys (s_values s))) by (apply zget_In; congruence).
          apply (mi_keys _ _ _ _ _ _ H) in H0 as [|[_ ->]]; auto. lia. }
        eexists; split; [reflexivity|]. split; [|split].
        * destruct H as [h1 h2 h3 h4 h5 h6 h7 h8 h9 h10 h11 h12].
          constructor; simpl; auto.
          -- now rewrite upd_nth_length.
          -- intros j. destruct (Nat.eq_dec j m); auto. destruct (h5 j); [auto|]. right; tauto.
          -- intros j L' gj HL' Hgj Hj. apply Hgens in Hgj as [[-> ->]|[Hne Hgj]].
             ++ right. exists v, r. rewrite EL in HL'. injection HL' as <-. auto.
             ++ destruct Hj; [eauto|contradiction].
          -- intros j L' gj HL' Hgj Hj. apply Hgens in Hgj as [[-> ->]|[Hne Hgj]]; [tauto|].
             apply (h7 j); auto.
          -- apply dset_NoDup; auto. apply Z.eqb_eq.
          -- intros w. rewrite h10. split.
             ++ intros (j & L' & A & B & C). exists j, L'; auto.
             ++ intros (j & L' & A & [B| ->] & C); [exists j, L'; auto|].
                rewrite EL in A. injection A as <-. rewrite Ea in C. injection C as <-.
                apply h10; auto.
          -- intros w Hw. rewrite zget_set. destruct (h11 w Hw) as (l & A & B & C).
             destruct (Z.eqb_spec w v) as [->|Hne].
             ++ rewrite Ev in A. injection A as <-. exists (temp ++ [m]). split; auto. split.
                ** assert (~ In m temp) by (intros Hin; apply C in Hin as (L' & ? & ? & ?); auto).
                   apply NoDup_snoc; auto.
                ** intros j. rewrite in_app_iff, C. simpl. split.
                   --- intros [(L' & A1 & A2 & A3)|[<-|[]]]; [eauto|].
                       exists L. rewrite Ea. auto.
                   --- intros (L' & A1 & [A2| ->] & A3); [left; eauto|auto].
             ++ exists l. split; auto. split; auto. intros j. rewrite C. split.
                ** intros (L' & A1 & A2 & A3). eauto.
                ** intros (L' & A1 & [A2| ->] & A3); [eauto|].
                   rewrite EL in A1. injection A1 as <-. rewrite Ea in A3. injection A3 as <-. congruence.
          -- intros w. rewrite dset_In_keys by apply Z.eqb_eq. rewrite h12.
             split; [intros [->|]; auto|auto].
        * repeat split; apply (mi_params _ _ _ _ _ _ H).
        * simpl. rewrite zget_set. destruct (Z.eqb_spec c v); [lia|auto].
      + (* new entry *)
        assert (Hvq : ~ In v (s_queue s)).
        { intros Hq. assert (In v (dkeys (s_values s))) by (apply (mi_keys _ _ _ _ _ _ H); auto).
          apply zget_In in H0. congruence. }
        assert (Hvk : ~ In v (dkeys (s_values s))).
        { intros Hk. apply zget_In in Hk. congruence. }
        eexists; split; [reflexivity|]. split; [|split].
        * destruct H as [h1 h2 h3 h4 h5 h6 h7 h8 h9 h10 h11 h12].
          constructor; simpl; auto.
          -- now rewrite upd_nth_length.
          -- intros j. destruct (Nat.eq_dec j m); auto. destruct (h5 j); [auto|]. right; tauto.
          -- intros j L' gj HL' Hgj Hj. apply Hgens in Hgj as [[-> ->]|[Hne Hgj]].
             ++ right. exists v, r. rewrite EL in HL'. injection HL' as <-. auto.
             ++ destruct Hj; [eauto|contradiction].
          -- intros j L' gj HL' Hgj Hj. apply Hgens in Hgj as [[-> ->]|[Hne Hgj]]; [tauto|].
             apply (h7 j); auto.
          -- apply NoDup_snoc; auto.
          -- apply dset_NoDup; auto. apply Z.eqb_eq.
          -- intros w. rewrite in_app_iff, h10. simpl. split.
             ++ intros [(j & L' & A & B & C)|[<-|[]]]; [exists j, L'; auto|].
                exists m, L. rewrite Ea. auto.
             ++ intros (j & L' & A & [B| ->] & C); [left; exists j, L'; auto|].
                rewrite EL in A. injection A as <-. rewrite Ea in C. injection C as <-. auto.
          -- intros w Hw. rewrite zget_set. destruct (Z.eqb_spec w v) as [->|Hne].
             ++ exists [m]. split; auto. split; [constructor; [simpl; tauto|constructor]|].
                intros j. simpl. split.
                ** intros [<-|[]]. exists L. rewrite Ea. auto.
                ** intros (L' & A1 & [A2| ->] & A3); auto.
                   exfalso. apply Hvq. apply h10. eauto.
             ++ apply in_app_or in Hw as [Hw|[->|[]]]; [|congruence].
                destruct (h11 w Hw) as (l & A & B & C).
                exists l. split; auto. split; auto. intros j. rewrite C. split.
                ** intros (L' & A1 & A2 & A3). eauto.
                ** intros (L' & A1 & [A2| ->] & A3); [eauto|].
                   rewrite EL in A1. injection A1 as <-. rewrite Ea in A3. injection A3 as <-. congruence.
          -- intros w. rewrite dset_In_keys by apply Z.eqb_eq. rewrite h12, in_app_iff. simpl.
             split; [intros [->|[|]]; auto|intros [[|[->|[]]]|]; auto].
        * repeat split; apply (mi_params _ _ _ _ _ _ H).
        * simpl. rewrite zget_set. destruct (Z.eqb_spec c v); [lia|auto].
  Qed.

  Lemma minv_done_ext starts Ls c extra (d d' : nat -> Prop) s :
    (forall m, (m < length Ls)%nat -> (d m <-> d' m)) -> (forall m, d' m \/ ~ d' m) ->
    minv starts Ls c extra d s -> minv starts Ls c extra d' s.
  Proof.
    intros E Hdec [h1 h2 h3 h4 h5 h6 h7 h8 h9 h10 h11 h12].
    assert (E' : forall m L, nth_error Ls m = Some L -> (d m <-> d' m)).
    { intros m L HL. apply E. apply nth_error_Some. congruence. }
    constructor; auto.
    - intros m L g HL Hg Hd. eapply h6; eauto. eapply E'; eauto.
    - intros m L g HL Hg Hd. eapply h7; eauto. rewrite (E' m L HL). auto.
    - intros v. rewrite h10. split; intros (m & L & A & B & C); exists m, L; repeat split; auto;
        eapply E'; eauto.
    - intros v Hv. destruct (h11 v Hv) as (l & A & B & C). exists l. repeat split; auto.
      + intros Hm. apply C in Hm as (L & D1 & D2 & D3). exists L. repeat split; auto. eapply E'; eauto.
      + intros (L & D1 & D2 & D3). apply C. exists L. repeat split; auto. eapply E'; eauto.
  Qed.

  Lemma enqueue_all_minv starts Ls c lc :
    NoDup lc -> (forall m, In m lc -> (m < length Ls)%nat) ->
    forall todo pre s k,
    lc = pre ++ todo ->
    s_curr s = c -> dget Z.eqb c (s_values s) = Some lc ->
    minv starts Ls c true (fun j => ~ In j todo) s ->
    (length todo < k)%nat ->
    exists s', enqueue_all fuel k (length pre) s = Ok s' /\
      minv starts Ls c true (fun _ => True) s' /\ same_frame s s' /\
      dget Z.eqb c (s_values s') = Some lc.
  Proof.
    intros Hnd Hb. induction todo as [|m todo IH]; intros pre s k -> Hc Hv Hi Hk;
      (destruct k as [|k]; [simpl in Hk; lia|]); cbn [enqueue_all]; rewrite Hc, Hv.
    - replace (nth_error (pre ++ []) (length pre)) with (@None nat)
        by (symmetry; apply nth_error_None; rewrite app_length; simpl; lia).
      exists s. split; [reflexivity|]. split; [|split; [repeat split; try apply Hi; auto|auto]].
      eapply minv_done_ext; [| |exact Hi]; simpl; tauto.
    - rewrite nth_error_app2 by lia. rewrite Nat.sub_diag. simpl.
      destruct (enqueue_minv _ _ _ _ _ m Hi) as (s1 & A & B & C & D).
      { apply Hb. apply in_or_app; right; left; auto. }
      { simpl; tauto. }
      rewrite A. simpl.
      destruct (IH (pre ++ [m]) s1 k) as (s' & A' & B' & C' & D').
      + now rewrite <- app_assoc.
      + destruct C as [C _]. congruence.
      + congruence.
      + eapply minv_done_ext; [| |exact B].
        * intros j Hj. simpl. split; [intros [H|H] H'|intros H].
          -- apply H; auto.
          -- subst. apply NoDup_remove_2 in Hnd. apply Hnd. apply in_or_app; auto.
          -- destruct (Nat.eq_dec j m); auto. left. intros [|]; auto.
        * intros j. destruct (in_dec Nat.eq_dec j todo); tauto.
      + simpl in Hk. lia.
      + rewrite app_length in A'. simpl in A'. rewrite Nat.add_1_r in A'.
        exists s'. split; auto. split; auto. split; auto.
        destruct C as (C1 & C2 & C3), C' as (C1' & C2' & C3'). split; [congruence|]. split; [congruence|auto].
  Qed.

  (** At rest.  [c] is the last step returned, or -1 before the first call. *)
  Record inv (starts : list Z) (Ls : list (list Z)) (c : Z) (fresh : bool) (s : series) : Prop := {
    iv_m : minv starts Ls c (negb fresh) (fun _ => True) s;
    iv_curr : if fresh then s_curr s = 0 /\ c = -1 /\ s_queue s = [0] else s_curr s = c /\ 0 <= c;
    iv_vals : fresh = false ->
       exists l, dget Z.eqb c (s_values s) = Some l /\ NoDup l /\ l <> [] /\
         forall m, In m l <-> exists L, nth_error Ls m = Some L /\ In c L;
    iv_len : (1 <= length starts)%nat;
    iv_max : Z.of_nat (length starts) <= Z.max 1 M
  }.

  Lemma steps_of_head st L : 0 <= st <= total -> steps_of total n st L -> exists r, L = st :: r.
  Proof.
    intros Hst [HL HM].
    assert (Hin : In st L).
    { apply HM. destruct (Z.eq_dec st total); auto. right. split; [lia|]. apply grid_start; lia. }
    destruct L as [|x r]; [destruct Hin|]. exists r. f_equal.
    apply increasing_cons in HL as [_ HL]. destruct Hin as [|Hin]; auto.
    apply HL in Hin. destruct (proj1 (HM x)) as [->|[H1 H2]]; [left; auto| |].
    - lia.
    - pose proof (grid_ge st n 1 10 ltac:(lia) ltac:(lia) _ H2). lia.
  Qed.

  Lemma steps_of_bounds st L x : 0 <= st <= total -> steps_of total n st L -> In x L -> st <= x <= total.
  Proof.
    intros Hst [HL HM] Hx. apply HM in Hx as [->|[H1 H2]]; [lia|].
    pose proof (grid_ge st n 1 10 ltac:(lia) ltac:(lia) _ H2). lia.
  Qed.

  Lemma after_head st L : 0 <= st <= total -> steps_of total n st L -> L = st :: after st L.
  Proof.
    intros Hst HS. destruct (steps_of_head st L Hst HS) as [r ->].
    f_equal. destruct HS as [HL _]. simpl after.
    rewrite Z.ltb_irrefl. apply increasing_cons in HL as [HL HL'].
    symmetry. apply increasing_ext; auto using after_increasing.
    intros x. rewrite after_In. split; [tauto|]. auto.
  Qed.

  Lemma init_inv :
    exists s L, series_init fuel total n G M = Ok s /\ inv [0] [L] (-1) true s.
  Proof.
    unfold series_init, add_generator, enqueue. simpl.
    destruct (gen_trace_init total n 0 fuel Hn Hfuel) as (L & HT & HS).
    assert (H0 : 0 <= 0 <= total) by lia.
    pose proof (after_head 0 L H0 HS) as HL.
    rewrite HL in HT. apply gen_trace_inv in HT as (g' & Hy & Ht). rewrite Hy. simpl.
    eexists _, L. split; [reflexivity|].
    assert (Ha : after (-1) L = L).
    { apply increasing_ext; try apply after_increasing; try apply HS. intros x. rewrite after_In.
      split; [tauto|]. intros Hx. split; auto. pose proof (steps_of_bounds 0 L x H0 HS Hx). lia. }
    constructor; simpl; try lia; auto; try discriminate.
    constructor; simpl; auto.
    - repeat split.
    - constructor; [|constructor]. split; [lia|exact HS].
    - intros [|[|m]] L' g HL' Hg _; simpl in *; try discriminate.
      injection HL' as <-. injection Hg as <-. right. exists 0, (after 0 L).
      rewrite Ha. auto.
    - intros; tauto.
    - constructor; [simpl; tauto|constructor].
    - constructor; [simpl; tauto|constructor].
    - intros v. split.
      + intros [<-|[]]. exists 0%nat, L. simpl. rewrite Ha. repeat split; auto. rewrite HL. reflexivity.
      + intros ([|[|m]] & L' & A & _ & B); simpl in A; try discriminate. injection A as <-.
        rewrite Ha, HL in B. simpl in B. injection B as <-. auto.
    - intros v [<-|[]]. exists [0%nat]. simpl. split; auto. split; [constructor; [simpl; tauto|constructor]|].
      intros m. split.
      + intros [<-|[]]. exists L. rewrite Ha. repeat split; auto. rewrite HL. reflexivity.
      + intros (L' & A & _). destruct m as [|[|m]]; simpl in A; try discriminate. auto.
    - intros v. intuition discriminate.
  Qed.

  Lemma inv_pend starts Ls c fresh s m L :
    inv starts Ls c fresh s -> nth_error Ls m = Some L ->
    forall v, hd_error (after c L) = Some v -> In v (s_queue s).
  Proof.
    intros H HL v Hv. apply (mi_queue _ _ _ _ _ _ (iv_m _ _ _ _ _ H)). exists m, L. auto.
  Qed.

  Lemma lists_of_snoc starts Ls st L :
    lists_of starts Ls -> 0 <= st <= total -> steps_of total n st L -> lists_of (starts ++ [st]) (Ls ++ [L]).
  Proof. intros. apply Forall2_app; auto. Qed.

  (** Effect of one call of [__next__] on the ghost state. *)
  Definition new_start (starts : list Z) (c : Z) : bool :=
    (c mod G =? 0) && (c >? 0) && (Z.of_nat (length starts) <? M).

  Lemma next_inv starts Ls c fresh s :
    (Z.to_nat (Z.max 1 M) + 1 <= fuel)%nat ->
    inv starts Ls c fresh s ->
    (s_queue s = [] /\ series_next fuel s = Ok None /\ fresh = false /\ c = total) \/
    (exists c' s' Ls',
       series_next fuel s = Ok (Some (c', s')) /\
       c < c' <= total /\ 0 <= c' /\
       (fresh = true -> c' = 0) /\
       (exists m L, nth_error Ls m = Some L /\ In c' L) /\
       (forall m L x, nth_error Ls m = Some L -> In x L -> c < x -> c' <= x) /\
       (exists tl, Ls' = Ls ++ tl) /\
       inv (if new_start starts c' then starts ++ [c'] else starts) Ls' c' false s').
  Proof.
    intros Hf2 H. pose proof (iv_m _ _ _ _ _ H) as HM.
    unfold series_next.
    pose proof (pq_get_spec (s_queue s) (mi_qnd _ _ _ _ _ _ HM)) as HQ.
    destruct (pq_get (s_queue s)) as [[c' q']|] eqn:Eq.
    2:{ left. rewrite HQ. repeat split; auto.
        - pose proof (iv_curr _ _ _ _ _ H). destruct fresh; auto.
          destruct H0 as (_ & _ & H0). congruence.
        - pose proof (iv_curr _ _ _ _ _ H) as Hc. destruct fresh; [destruct Hc as (_ & _ & Hc); congruence|].
          pose proof (iv_len _ _ _ _ _ H) as Hl.
          pose proof (lists_of_length _ _ (mi_lists _ _ _ _ _ _ HM)) as Hl'.
          destruct Ls as [|L Ls]; [simpl in Hl'; lia|].
          destruct (lists_of_nth _ _ 0%nat L (mi_lists _ _ _ _ _ _ HM) eq_refl) as (st & _ & Hst & HS).
          destruct (after c L) as [|v r] eqn:Ea.
          + assert (Hin : In total L) by (apply HS; auto).
            assert (total <= c).
            { destruct (Z_lt_le_dec c total) as [Hlt|]; auto.
              assert (In total (after c L)) by (apply after_In; auto). rewrite Ea in H0. destruct H0. }
            destruct (iv_vals _ _ _ _ _ H eq_refl) as (l & _ & _ & Hne & Hl2).
            destruct l as [|m l]; [congruence|].
            destruct (proj1 (Hl2 m) (or_introl eq_refl)) as (L2 & A & B).
            destruct (lists_of_nth _ _ m L2 (mi_lists _ _ _ _ _ _ HM) A) as (st2 & _ & Hst2 & HS2).
            pose proof (steps_of_bounds st2 L2 c Hst2 HS2 B). lia.
          + assert (In v (s_queue s)) by (eapply (inv_pend _ _ _ _ _ 0%nat L H); simpl; auto; rewrite Ea; auto).
            rewrite HQ in H0. destruct H0. }
    right. destruct HQ as (Hc1 & Hc2 & Hc3 & Hc4).
    assert (Hcc : c < c') by (eapply minv_queue_gt; eauto).
    (* c' is the least pending value *)
    assert (Hleast : forall m L x, nth_error Ls m = Some L -> In x L -> c < x -> c' <= x).
    { intros m L x HL Hx Hlt. destruct (after c L) as [|v r] eqn:Ea.
      - assert (In x (after c L)) by (apply after_In; auto). rewrite Ea in H0. destruct H0.
      - assert (Hv : In v (s_queue s)) by (eapply inv_pend; eauto; rewrite Ea; auto).
        apply Hc2 in Hv. assert (Hx' : In x (after c L)) by (apply after_In; auto).
        destruct (lists_of_nth _ _ _ _ (mi_lists _ _ _ _ _ _ HM) HL) as (st & _ & _ & [Hinc _]).
        pose proof (after_increasing c L Hinc) as Hi. rewrite Ea in Hi, Hx'.
        apply increasing_cons in Hi as [_ Hi]. destruct Hx' as [->|Hx']; auto.
        apply Hi in Hx'. lia. }
    destruct (mi_vals _ _ _ _ _ _ HM c' Hc1) as (lc & Hlc & Hlcnd & Hlcm).
    (* membership of the entry of c' *)
    assert (Hlcm' : forall m, In m lc <-> exists L, nth_error Ls m = Some L /\ In c' L).
    { intros m. rewrite Hlcm. split.
      - intros (L & A & _ & B). exists L. split; auto.
        destruct (after c L) eqn:Ea; [discriminate|]. injection B as ->.
        assert (In c' (after c L)) by (rewrite Ea; left; auto). apply after_In in H0; tauto.
      - intros (L & A & B). exists L. split; auto. split; auto.
        destruct (after c L) as [|v r] eqn:Ea.
        + assert (In c' (after c L)) by (apply after_In; auto). rewrite Ea in H0. destruct H0.
        + simpl. f_equal.
          assert (Hv : In v (s_queue s)) by (eapply inv_pend; eauto; rewrite Ea; auto).
          apply Hc2 in Hv.
          destruct (lists_of_nth _ _ _ _ (mi_lists _ _ _ _ _ _ HM) A) as (st & _ & _ & [Hinc _]).
          pose proof (after_increasing c L Hinc) as Hi.
          assert (Hx' : In c' (after c L)) by (apply after_In; auto). rewrite Ea in Hi, Hx'.
          apply increasing_cons in Hi as [_ Hi]. destruct Hx' as [->|Hx']; auto.
          apply Hi in Hx'. lia. }
    assert (Hlcne : exists m L, nth_error Ls m = Some L /\ In c' L /\ In m lc).
    { apply (mi_queue _ _ _ _ _ _ HM) in Hc1 as (m & L & A & _ & B).
      exists m, L. split; auto.
      destruct (after c L) eqn:Ea; [discriminate|]. injection B as ->.
      assert (Hin : In c' (after c L)) by (rewrite Ea; left; auto). apply after_In in Hin as [Hin _].
      split; auto. apply Hlcm'. eauto. }
    assert (Hbnd : 0 <= c' <= total).
    { destruct Hlcne as (m & L & A & B & _).
      destruct (lists_of_nth _ _ _ _ (mi_lists _ _ _ _ _ _ HM) A) as (st & _ & Hst & HS).
      pose proof (steps_of_bounds st L c' Hst HS B). lia. }
    assert (Hlcb : forall m, In m lc -> (m < length Ls)%nat).
    { intros m Hm. apply Hlcm' in Hm as (L & A & _). apply nth_error_Some. congruence. }
    (* state after the cleanup *)
    set (s0 := set_curr (set_queue s q') c').
    set (s1 := if fresh then s0 else set_values s0 (ddel Z.eqb c (s_values s0))).
    assert (Es1 : (if negb (c' =? s_curr s)
                 then match dget Z.eqb (s_curr s) (s_values s0) with
                      | None => Raise KeyError
                      | Some _ => Ok (set_values s0 (ddel Z.eqb (s_curr s) (s_values s0)))
                      end
                 else Ok s0) = Ok s1).
    { subst s1. pose proof (iv_curr _ _ _ _ _ H) as Hcur. destruct fresh.
      - destruct Hcur as (-> & -> & Hq). rewrite Hq in Hc1. destruct Hc1 as [<-|[]]. reflexivity.
      - destruct Hcur as [-> Hcpos]. replace (c' =? c) with false by (symmetry; apply Z.eqb_neq; lia).
        simpl. destruct (iv_vals _ _ _ _ _ H eq_refl) as (l & -> & _). reflexivity. }
    assert (HV1 : forall v, v <> c -> dget Z.eqb v (s_values s1) = dget Z.eqb v (s_values s)).
    { intros v Hv. subst s1. destruct fresh; simpl; auto.
      apply dget_ddel_other; auto. apply Z.eqb_eq. }
    assert (HV1c : fresh = false -> dget Z.eqb c (s_values s1) = None).
    { intros ->. subst s1. simpl. apply dget_ddel_same; [apply Z.eqb_eq|].
      apply (mi_vnd _ _ _ _ _ _ HM). }
    assert (HF1 : s_gens s1 = s_gens s /\ s_num s1 = s_num s /\ s_queue s1 = q' /\ s_curr s1 = c' /\ params s1).
    { subst s1. destruct fresh; simpl; repeat split; auto; apply (mi_params _ _ _ _ _ _ HM). }
    destruct HF1 as (HF1 & HF2 & HF3 & HF4 & HF5).
    assert (HI1 : minv starts Ls c' true (fun j => ~ In j lc) s1).
    { destruct HM as [h1 h2 h3 h4 h5 h6 h7 h8 h9 h10 h11 h12].
      assert (Hafter : forall m L, nth_error Ls m = Some L ->
                ~ In m lc -> after c' L = after c L).
      { intros m L HL Hm.
        destruct (lists_of_nth _ _ _ _ h2 HL) as (st & _ & _ & [Hinc _]).
        apply after_skip; auto; try lia.
        - intros Hin. apply Hm. apply Hlcm'. eauto.
        - intros v Hv. apply Hc2. apply h10. exists m, L. auto. }
      constructor; auto.
      - rewrite HF2; auto.
      - rewrite HF1; auto.
      - intros m. destruct (in_dec Nat.eq_dec m lc); tauto.
      - rewrite HF1. intros m L g HL Hg Hm. rewrite (Hafter m L) by auto. eapply h6; eauto.
      - rewrite HF1. intros m L g HL Hg Hm.
        assert (Hin : In m lc) by (destruct (in_dec Nat.eq_dec m lc); tauto).
        apply Hlcm in Hin as (L' & A & _ & B). rewrite HL in A. injection A as <-.
        destruct (h6 m L g HL Hg I) as [[Ea _]|(v & r & Ea & Ht)]; rewrite Ea in B; simpl in B; [discriminate|].
        injection B as <-.
        destruct (lists_of_nth _ _ _ _ h2 HL) as (st & _ & _ & [Hinc _]).
        apply after_cons_inv in Ea as (-> & _); auto.
      - rewrite HF3. auto.
      - subst s1. destruct fresh; simpl; auto. apply ddel_NoDup; auto.
      - intros v. rewrite HF3, Hc4, h10. split.
        + intros [(m & L & A & _ & B) Hne]. exists m, L. split; auto.
          assert (Hm : ~ In m lc).
          { intros Hm. apply Hlcm in Hm as (L' & A' & _ & B'). rewrite A in A'. injection A' as <-. congruence. }
          split; auto. rewrite (Hafter m L); auto.
        + intros (m & L & A & Hm & B). rewrite (Hafter m L) in B by auto. split; [exists m, L; auto|].
          intros ->. apply Hm. apply Hlcm. eauto.
      - intros v. rewrite HF3, Hc4. intros [Hv Hne].
        assert (c < v) by (apply Hc2 in Hv; lia).
        rewrite HV1 by lia. destruct (h11 v Hv) as (l & A & B & C). exists l. repeat split; auto.
        + intros Hm. apply C in Hm as (L & D1 & _ & D2). exists L. split; auto.
          assert (Hm : ~ In m lc).
          { intros Hm. apply Hlcm in Hm as (L' & A' & _ & B'). rewrite D1 in A'. injection A' as <-. congruence. }
          split; auto. rewrite (Hafter m L); auto.
        + intros (L & D1 & Hm & D2). apply C. exists L. rewrite (Hafter m L) in D2 by auto. auto.
      - intros v. rewrite HF3, Hc4. rewrite <- zget_In.
        destruct (Z.eq_dec v c) as [->|Hne].
        + split.
          * destruct fresh; [|rewrite (HV1c eq_refl); congruence].
            subst s1. simpl. intros Hg. apply zget_In in Hg. apply h12 in Hg as [Hg|[Hg _]]; [|discriminate].
            apply Hc2 in Hg. lia.
          * intros [[Hg _]|[_ Hg]]; [apply Hc2 in Hg; lia|lia].
        + rewrite HV1 by auto. rewrite zget_In, h12. split.
          * intros [Hv|[_ ->]]; [|congruence]. destruct (Z.eq_dec v c'); auto.
          * intros [[Hv _]|[_ ->]]; auto. }
    assert (HV1' : dget Z.eqb c' (s_values s1) = Some lc) by (rewrite HV1 by lia; auto).
    (* the new generator, if any *)
    assert (Hstep2 : exists s2 Ls2 lc2,
       (if s_gen_steps s1 =? 0 then Raise ZeroDivisionError
        else if (c' mod s_gen_steps s1 =? 0) && (c' >? 0) then
               if Z.of_nat (s_num s1) <? s_max_gen s1
               then add_generator fuel s1 else Ok s1
             else Ok s1) = Ok s2 /\
       (exists tl, Ls2 = Ls ++ tl) /\
       minv (if new_start starts c' then starts ++ [c'] else starts) Ls2 c' true (fun j => ~ In j lc2) s2 /\
       dget Z.eqb c' (s_values s2) = Some lc2 /\ NoDup lc2 /\ s_curr s2 = c' /\
       (exists x, In x lc2) /\
       (forall m, In m lc2 <-> exists L, nth_error Ls2 m = Some L /\ In c' L) /\
       (length lc2 <= Z.to_nat (Z.max 1 M))%nat /\
       Z.of_nat (length (if new_start starts c' then starts ++ [c'] else starts)) <= Z.max 1 M).
    { pose proof (lists_of_length _ _ (mi_lists _ _ _ _ _ _ HM)) as Hlen.
      assert (Hnum : s_num s1 = length starts) by (rewrite HF2, (mi_num _ _ _ _ _ _ HM); auto).
      destruct HF5 as (P1 & P2 & P3 & P4). rewrite P3, P4, Hnum.
      replace (G =? 0) with false by (symmetry; apply Z.eqb_neq; auto).
      assert (Hlclen : (length lc <= length Ls)%nat).
      { rewrite <- (seq_length (length Ls) 0). apply NoDup_incl_length; auto.
        intros m Hm. apply in_seq. apply Hlcb in Hm. lia. }
      pose proof (iv_max _ _ _ _ _ H) as Hmax.
      unfold new_start. destruct ((c' mod G =? 0) && (c' >? 0)) eqn:Em; simpl;
        [destruct (Z.of_nat (length starts) <? M) eqn:EM|].
      2,3: exists s1, Ls, lc; split; [reflexivity|]; split; [exists []; now rewrite app_nil_r|];
           split; [exact HI1|]; split; [exact HV1'|]; split; [exact Hlcnd|]; split; [exact HF4|];
           split; [destruct Hlcne as (m & _ & _ & _ & Hm); eauto|]; split; [exact Hlcm'|]; lia.
      apply Z.ltb_lt in EM.
      destruct (gen_trace_init total n c' fuel Hn Hfuel) as (L & HT & HS).
      pose proof (after_head c' L Hbnd HS) as HL.
      assert (Hlen_g : length (s_gens s1) = length Ls) by (rewrite HF1; apply (mi_gens _ _ _ _ _ _ HM)).
      unfold add_generator, enqueue. cbn [set_gens s_gens s_num s_values].
      rewrite Hnum, nth_error_app2 by lia.
      replace (length starts - length (s_gens s1))%nat with 0%nat by lia.
      cbn [nth_error].
      rewrite P1, P2, HF4. rewrite HL in HT. apply gen_trace_inv in HT as (g' & Hy & Ht). rewrite Hy.
      rewrite HV1'. cbn [bind].
      eexists _, (Ls ++ [L]), (lc ++ [length starts]). split; [reflexivity|].
      split; [eauto|].
      assert (Hgens : forall j gj, nth_error (upd_nth (length starts) g' (s_gens s1 ++ [generate_steps total n c'])) j = Some gj ->
                (j = length starts /\ gj = g') \/ (j <> length starts /\ nth_error (s_gens s1) j = Some gj)).
      { intros j gj Hj. destruct (Nat.eq_dec j (length starts)) as [->|Hne].
        - rewrite nth_error_upd_same in Hj by (rewrite app_length; simpl; lia). injection Hj as <-. auto.
        - rewrite nth_error_upd_other in Hj by auto. right. split; auto.
          destruct (Nat.lt_ge_cases j (length (s_gens s1))).
          + rewrite nth_error_app1 in Hj by auto. auto.
          + assert (nth_error (s_gens s1 ++ [generate_steps total n c']) j <> None) by congruence.
            apply nth_error_Some in H1. rewrite app_length in H1. simpl in H1. lia. }
      assert (HLs : forall j L', nth_error (Ls ++ [L]) j = Some L' ->
                (j = length starts /\ L' = L) \/ (j <> length starts /\ nth_error Ls j = Some L')).
      { intros j L' Hj. destruct (Nat.lt_ge_cases j (length Ls)).
        - rewrite nth_error_app1 in Hj by auto. right. split; auto. lia.
        - rewrite nth_error_app2 in Hj by auto. left.
          destruct (j - length Ls)%nat as [|[|?]] eqn:Ej; simpl in Hj; try discriminate.
          injection Hj as <-. split; auto. lia. }
      assert (HLs1 : forall j L', nth_error Ls j = Some L' -> nth_error (Ls ++ [L]) j = Some L').
      { intros j L' Hj. rewrite nth_error_app1; auto. apply nth_error_Some. congruence. }
      assert (HLs2 : nth_error (Ls ++ [L]) (length starts) = Some L).
      { rewrite Hlen, nth_error_app2, Nat.sub_diag by lia. reflexivity. }
      assert (Hnew : ~ In (length starts) lc).
      { intros Hin. apply Hlcb in Hin. lia. }
      split; [|split; [|split; [|split; [|split; [|split; [|split]]]]]].
      - destruct HI1 as [h1 h2 h3 h4 h5 h6 h7 h8 h9 h10 h11 h12].
        constructor; cbn [set_num set_values set_gens s_num s_gens s_queue s_values]; auto.
        + apply lists_of_snoc; auto.
        + rewrite app_length. simpl. lia.
        + rewrite upd_nth_length, !app_length. simpl. lia.
        + intros m. destruct (in_dec Nat.eq_dec m (lc ++ [length starts])); tauto.
        + intros m L' gj HL' Hgj Hm.
          apply HLs in HL' as [[-> ->]|[Hne HL']].
          * exfalso. apply Hm. apply in_or_app; right; left; auto.
          * apply Hgens in Hgj as [[-> _]|[_ Hgj]]; [congruence|].
            eapply h6; eauto. intros Hin; apply Hm; apply in_or_app; auto.
        + intros m L' gj HL' Hgj Hm.
          apply HLs in HL' as [[-> ->]|[Hne HL']].
          * apply Hgens in Hgj as [[_ ->]|[? _]]; [auto|congruence].
          * apply Hgens in Hgj as [[-> _]|[_ Hgj]]; [congruence|].
            eapply h7; eauto. intros Hin. apply Hm. intros Hin'.
            apply in_app_or in Hin' as [|[|[]]]; congruence || auto.
        + apply dset_NoDup; auto. apply Z.eqb_eq.
        + intros v. rewrite h10. split.
          * intros (m & L' & A & B & C). exists m, L'. repeat split; auto.
            intros Hin. apply in_app_or in Hin as [|[<-|[]]]; auto.
            assert (length starts < length Ls)%nat by (apply nth_error_Some; congruence). lia.
          * intros (m & L' & A & B & C). apply HLs in A as [[-> ->]|[Hne A]].
            -- exfalso. apply B. apply in_or_app; right; left; auto.
            -- exists m, L'. repeat split; auto. intros Hin; apply B; apply in_or_app; auto.
        + intros v Hv. assert (Hvc : v <> c').
          { rewrite HF3 in Hv. apply Hc4 in Hv. tauto. }
          rewrite zget_set. replace (v =? c') with false by (symmetry; apply Z.eqb_neq; auto).
          destruct (h11 v Hv) as (l & A & B & C). exists l. repeat split; auto.
          * intros Hm. apply C in Hm as (L' & D1 & D2 & D3). exists L'. repeat split; auto.
            intros Hin. apply in_app_or in Hin as [|[<-|[]]]; auto.
            assert (length starts < length Ls)%nat by (apply nth_error_Some; congruence). lia.
          * intros (L' & D1 & D2 & D3). apply C. apply HLs in D1 as [[-> ->]|[Hne D1]].
            -- exfalso. apply D2. apply in_or_app; right; left; auto.
            -- exists L'. repeat split; auto. intros Hin; apply D2; apply in_or_app; auto.
        + intros v. rewrite dset_In_keys by apply Z.eqb_eq. rewrite h12.
          split; [intros [->|]; auto|auto].
      - cbn [set_num set_values set_gens s_values]. now rewrite zget_set_same.
      - apply NoDup_snoc; auto.
      - exact HF4.
      - exists (length starts). apply in_or_app; right; left; auto.
      - intros m. rewrite in_app_iff, Hlcm'. split.
        + intros [(L' & A & B)|[<-|[]]]; [eauto|]. exists L. split; auto.
          rewrite HL. left; auto.
        + intros (L' & A & B). apply HLs in A as [[-> ->]|[Hne A]]; [right; left; auto|left; eauto].
      - rewrite app_length. simpl. lia.
      - rewrite app_length. simpl. lia. }
    destruct Hstep2 as (s2 & Ls2 & lc2 & Es2 & Htl & HI2 & HV2 & Hnd2 & Hcur2 & Hne2 & Hm2 & Hlen2 & Hmax2).
    destruct (enqueue_all_minv (if new_start starts c' then starts ++ [c'] else starts) Ls2 c' lc2 Hnd2) with (todo := lc2) (pre := @nil nat) (s := s2) (k := fuel)
      as (s3 & E3 & HI3 & HF & HV3); auto.
    { intros m Hm. apply Hm2 in Hm as (L & A & _). apply nth_error_Some. congruence. }
    { lia. }
    exists c', s3, Ls2. split.
    - fold s0. rewrite Es1. cbn [bind]. rewrite Es2. cbn [bind]. rewrite HV2.
      simpl in E3. rewrite E3. reflexivity.
    - split; [lia|]. split; [lia|]. split; [|split; [|split; [exact Hleast|split; [exact Htl|]]]].
      + intros ->. pose proof (iv_curr _ _ _ _ _ H) as (_ & _ & Hq). rewrite Hq in Hc1.
        destruct Hc1 as [|[]]; auto.
      + destruct Hlcne as (m & L & A & B & _). eauto.
      + constructor; auto.
      { destruct HF. split; [congruence|lia]. }
      { intros _. exists lc2. repeat split; auto.
        * intros ->. destruct Hne2 as [x []].
        * apply Hm2.
        * apply Hm2. }
      { pose proof (iv_len _ _ _ _ _ H). destruct (new_start starts c'); auto.
        rewrite app_length; lia. }
  Qed.
End Inv.
