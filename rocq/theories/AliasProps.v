(** C195-C198: arrays shared between the caller and the objects. *)
From Coq Require Import Reals ZArith List Bool Lia Lra.
From Verif Require Import Base RVec MotionModel MotionSpec MotionProofs MotionProps DynModel DynStruct RVecFacts AliasModel AliasSpec.
Import ListNotations.

(** * Reading and writing *)
Lemma put_length {A} a (x : A) l : length (put a x l) = length l.
Proof. revert a; induction l as [|y l IH]; intros [|a]; cbn; auto. Qed.
Lemma put_same {A} a (x d : A) l : (a < length l)%nat -> nth a (put a x l) d = x.
Proof. revert a; induction l as [|y l IH]; intros [|a] H; cbn in *; try lia; auto. apply IH. lia. Qed.
Lemma put_other {A} a a' (x d : A) l : a <> a' -> nth a' (put a x l) d = nth a' l d.
Proof. revert a a'; induction l as [|y l IH]; intros [|a] [|a'] H; cbn; auto; try lia. Qed.
Lemma put_split {A} i (x : A) l : (i < length l)%nat -> put i x l = firstn i l ++ [x] ++ skipn (S i) l.
Proof.
  revert i; induction l as [|y l IH]; intros [|i] H; cbn in *; try lia; auto. f_equal. apply IH. lia.
Qed.
Lemma put_map {A B} (f : A -> B) i x l : map f (put i x l) = put i (f x) (map f l).
Proof. revert i; induction l as [|y l IH]; intros [|i]; cbn; auto. f_equal. apply IH. Qed.
Lemma put_id {A} i (x : A) l : nth_error l i = Some x -> put i x l = l.
Proof. revert i; induction l as [|y l IH]; intros [|i] H; cbn in *; try discriminate; [congruence|]. f_equal. auto. Qed.
Lemma put_In {A} i (x y : A) l : In y (put i x l) -> y = x \/ In y l.
Proof.
  revert i; induction l as [|z l IH]; intros [|i] H; cbn in *; auto; destruct H as [H|H]; auto.
  destruct (IH _ H); auto.
Qed.

Lemma rdv_wrv_same h a x : (a < length (hv h))%nat -> rdv (wrv h a x) a = x.
Proof. apply put_same. Qed.
Lemma rdv_wrv_other h a a' x : a <> a' -> rdv (wrv h a x) a' = rdv h a'.
Proof. apply put_other. Qed.
Lemma rdq_wrv h a x a' : rdq (wrv h a x) a' = rdq h a'.
Proof. reflexivity. Qed.
Lemma rdv_new h x a : (a < length (hv h))%nat -> rdv (fst (newv h x)) a = rdv h a.
Proof. intros H. unfold rdv, newv; cbn. apply app_nth1; auto. Qed.
Lemma rdq_new h x a : (a < length (hq h))%nat -> rdq (fst (newq h x)) a = rdq h a.
Proof. intros H. unfold rdq, newq; cbn. apply app_nth1; auto. Qed.

(** * The invariant *)
Definition valid (h : heap) (t : tracked) : Prop :=
  (t_dt t < length (hv h))%nat /\ (t_dr t < length (hv h))%nat /\ (t_ppos t < length (hv h))%nat /\
  forall a, t_pori t = Some a -> (a < length (hq h))%nat.
Definition inv (w : world) : Prop :=
  Forall (valid (fst w)) (snd w) /\ NoDup (results (snd w)) /\
  Forall (fun t => ~ In (t_ppos t) (results (snd w))) (snd w).

Lemma contents_ext h h' t :
  rdv h' (t_dt t) = rdv h (t_dt t) -> rdv h' (t_dr t) = rdv h (t_dr t) -> rdv h' (t_ppos t) = rdv h (t_ppos t) ->
  (forall a, t_pori t = Some a -> rdq h' a = rdq h a) -> contents h' t = contents h t.
Proof.
  intros A B C D. unfold contents. rewrite A, B, C. f_equal. destruct (t_pori t); cbn; auto. rewrite D; auto.
Qed.

Lemma results_put ts i t t' : nth_error ts i = Some t -> t_dt t' = t_dt t -> t_dr t' = t_dr t -> results (put i t' ts) = results ts.
Proof.
  revert i; induction ts as [|u ts IH]; intros [|i] H A B; cbn in *; try discriminate.
  - injection H as ->. rewrite A, B. auto.
  - do 2 f_equal. apply IH; auto.
Qed.
Lemma results_In ts t : In t ts -> In (t_dt t) (results ts) /\ In (t_dr t) (results ts).
Proof. intros H. unfold results. split; apply in_flat_map; exists t; cbn; auto. Qed.

(** Results of different objects are different arrays. *)
Lemma results_apart ts i j t u : NoDup (results ts) -> nth_error ts i = Some t -> nth_error ts j = Some u -> i <> j ->
  t_dt t <> t_dt u /\ t_dt t <> t_dr u /\ t_dr t <> t_dt u /\ t_dr t <> t_dr u.
Proof.
  revert i j; induction ts as [|v ts IH]; intros [|i] [|j] N A B D; cbn in *; try discriminate; try lia.
  - injection A as ->. apply nth_error_In, results_In in B. destruct B as [B1 B2].
    inversion N as [|? ? N1 N2]; subst. inversion N2 as [|? ? N3 N4]; subst. cbn in N1.
    repeat split; intros E; rewrite E in *; tauto.
  - injection B as ->. apply nth_error_In, results_In in A. destruct A as [B1 B2].
    inversion N as [|? ? N1 N2]; subst. inversion N2 as [|? ? N3 N4]; subst. cbn in N1.
    repeat split; intros E; rewrite <- E in *; tauto.
  - inversion N as [|? ? N1 N2]; subst. inversion N2 as [|? ? N3 N4]; subst. apply (IH i j); auto.
Qed.
Lemma results_own ts i t : NoDup (results ts) -> nth_error ts i = Some t -> t_dt t <> t_dr t.
Proof.
  revert i; induction ts as [|v ts IH]; intros [|i] N A; cbn in *; try discriminate;
    inversion N as [|? ? N1 N2]; subst; inversion N2 as [|? ? N3 N4]; subst.
  - injection A as ->. intros E. apply N1. left. auto.
  - eauto.
Qed.

Section Refine.
  Variable wrap : fbox -> v3 -> v3.
  Variable gimbal : quat -> v3.

  (** ** One call of add *)
  Lemma t_add_spec h t p o h' t' e :
    valid h t -> t_dt t <> t_dr t -> t_ppos t <> t_dt t -> t_ppos t <> t_dr t ->
    p <> t_dt t -> p <> t_dr t -> (p < length (hv h))%nat ->
    t_add wrap gimbal h t p o = (h', t', e) ->
    (contents h' t', e) = motion_add wrap gimbal (contents h t) (rdv h p) (option_map (rdq h) o) /\
    t_dt t' = t_dt t /\ t_dr t' = t_dr t /\ (t_ppos t' = p /\ t_pori t' = o \/ t_ppos t' = t_ppos t /\ t_pori t' = t_pori t) /\
    (forall a, a <> t_dt t -> a <> t_dr t -> rdv h' a = rdv h a) /\ hq h' = hq h /\ length (hv h') = length (hv h).
  Proof.
    intros (V1 & V2 & V3 & V4) D1 D2 D3 P1 P2 P3. unfold t_add, motion_add. cbn [contents m_ppos m_dt m_dr m_box m_pori].
    destruct (ebind (bzip sub3 (rdv h (t_ppos t)) (rdv h p)) _) as [dt|e1].
    2: { intros H. injection H as <- <- <-. repeat split; auto. }
    assert (R : rdv (wrv h (t_dt t) dt) (t_dr t) = rdv h (t_dr t)) by (apply rdv_wrv_other; auto).
    assert (C : forall u, t_dt u = t_dt t -> t_dr u = t_dr t -> t_box u = t_box t -> t_ppos u <> t_dt t ->
      contents (wrv h (t_dt t) dt) u = mkmotion (t_box t) dt (rdv h (t_dr t)) (rdv h (t_ppos u)) (option_map (rdq h) (t_pori u))).
    { intros u A B F G. unfold contents. rewrite A, B, F, R, rdv_wrv_same, rdv_wrv_other by auto. reflexivity. }
    assert (L : forall a, a <> t_dt t -> a <> t_dr t -> rdv (wrv h (t_dt t) dt) a = rdv h a) by (intros; apply rdv_wrv_other; auto).
    assert (N : (length (hv (wrv h (t_dt t) dt)) = length (hv h))%nat) by apply put_length.
    destruct (t_pori t) as [prev|] eqn:Ep; [destruct o as [ori|]|]; cbn [option_map].
    - rewrite R. change (rdq (wrv h (t_dt t) dt)) with (rdq h).
      destruct (ebind (bzip qdivide (rdq h ori) (rdq h prev)) _) as [dr|e1].
      + intros H. injection H as <- <- <-. split; [|split; [|split; [|split; [|split; [|split]]]]]; auto.
        * unfold contents. cbn [t_box t_dt t_dr t_ppos t_pori option_map]. rewrite (rdv_wrv_same _ (t_dr t)) by (rewrite N; auto).
          rewrite (rdv_wrv_other _ _ (t_dt t)), (rdv_wrv_same _ (t_dt t)) by auto.
          rewrite (rdv_wrv_other _ _ p), rdv_wrv_other by auto. reflexivity.
        * intros a A B. rewrite rdv_wrv_other by auto. auto.
        * unfold wrv at 1. cbn [hv]. rewrite put_length. auto.
      + intros H. injection H as <- <- <-. split; [|split; [|split; [|split; [|split; [|split]]]]]; auto.
        rewrite C by auto. rewrite Ep. reflexivity.
    - intros H. injection H as <- <- <-. split; [|split; [|split; [|split; [|split; [|split]]]]]; auto.
      rewrite C by auto. reflexivity.
    - intros H. injection H as <- <- <-. split; [|split; [|split; [|split; [|split; [|split]]]]]; auto.
      rewrite C by auto. reflexivity.
  Qed.

  Definition holds (w : world) : list motion := map (contents (fst w)) (snd w).

  Lemma map_contents_ext h h' ts : (forall t, In t ts -> contents h' t = contents h t) -> map (contents h') ts = map (contents h) ts.
  Proof. intros. apply map_ext_in. auto. Qed.
  Lemma valid_mono h h' t : (length (hv h) <= length (hv h'))%nat -> (length (hq h) <= length (hq h'))%nat -> valid h t -> valid h' t.
  Proof. intros A B (V1 & V2 & V3 & V4). repeat split; try lia. intros a E. specialize (V4 _ E). lia. Qed.

  Lemma step_spec w o : inv w -> careful_op w o ->
    inv (fst (step wrap gimbal w o)) /\
    vstep wrap gimbal (holds w) (call w o) = (holds (fst (step wrap gimbal w o)), snd (step wrap gimbal w o)).
  Proof.
    destruct w as [h ts]. intros (V & N & P) C. unfold inv, holds in *. cbn [fst snd] in *. destruct o as [x|x|a x|a x|b p o|i p o]; cbn [careful_op fst snd] in C.
    - (* NewV *) cbn. split; [split; [|split]|f_equal]; auto.
      + eapply Forall_impl; [|exact V]. intros t. apply valid_mono; cbn; rewrite ?app_length; lia.
      + symmetry. apply map_contents_ext. intros t Ht. rewrite Forall_forall in V. destruct (V t Ht) as (V1 & V2 & V3 & V4).
        apply contents_ext; auto; apply (rdv_new h x); auto.
    - (* NewQ *) cbn. split; [split; [|split]|f_equal]; auto.
      + eapply Forall_impl; [|exact V]. intros t. apply valid_mono; cbn; rewrite ?app_length; lia.
      + symmetry. apply map_contents_ext. intros t Ht. rewrite Forall_forall in V. destruct (V t Ht) as (V1 & V2 & V3 & V4).
        apply contents_ext; auto. intros a Ea. apply (rdq_new h x); auto.
    - (* WriteV *) destruct C as [C1 C2]. cbn. split; [split; [|split]|f_equal]; auto.
      + eapply Forall_impl; [|exact V]. intros t. apply valid_mono; cbn; rewrite ?put_length; lia.
      + symmetry. apply map_contents_ext. intros t Ht. destruct (results_In _ _ Ht) as [I1 I2].
        apply contents_ext; auto; apply rdv_wrv_other; intros E; subst; auto. apply C2. apply in_map; auto.
    - (* WriteQ *) cbn. split; [split; [|split]|f_equal]; auto.
      + eapply Forall_impl; [|exact V]. intros t. apply valid_mono; cbn; rewrite ?put_length; lia.
      + symmetry. apply map_contents_ext. intros t Ht. apply contents_ext; auto. intros a' Ea. apply put_other. intros E. subst a'.
        apply C. rewrite <- Ea. apply in_map; auto.
    - (* Make *) destruct C as (C1 & C2 & C3). cbn [fst snd] in *. unfold step, call, vstep.
      assert (T : t_init h b p o = match o with
        | Some a => match rdq h a with [] => inr RuntimeError | _ => inl (fst (newv (fst (newv h (map (fun _ => zero3) (rdv h p)))) (map (fun _ => zero3) (rdv h p))), mktracked b (length (hv h)) (S (length (hv h))) p o) end
        | None => inl (fst (newv (fst (newv h (map (fun _ => zero3) (rdv h p)))) (map (fun _ => zero3) (rdv h p))), mktracked b (length (hv h)) (S (length (hv h))) p o) end).
      { unfold t_init, newv. cbn. rewrite app_length. cbn. rewrite Nat.add_1_r. destruct o as [a|]; auto. }
      set (z := map (fun _ => zero3) (rdv h p)) in *. set (h2 := fst (newv (fst (newv h z)) z)) in *.
      assert (L : length (hv h2) = S (S (length (hv h)))) by (unfold h2; cbn; rewrite !app_length; cbn; lia).
      assert (RD : forall a, (a < length (hv h))%nat -> rdv h2 a = rdv h a).
      { intros a A. unfold h2. rewrite rdv_new, rdv_new; auto. cbn. rewrite app_length. lia. }
      assert (KEEP : forall t, In t ts -> contents h2 t = contents h t).
      { intros t Ht. rewrite Forall_forall in V. destruct (V t Ht) as (V1 & V2 & V3 & V4). apply contents_ext; auto. }
      assert (OK : forall t, t = mktracked b (length (hv h)) (S (length (hv h))) p o ->
        (Forall (valid h2) (ts ++ [t]) /\ NoDup (results (ts ++ [t])) /\ Forall (fun u => ~ In (t_ppos u) (results (ts ++ [t]))) (ts ++ [t])) /\
        map (contents h2) (ts ++ [t]) = map (contents h) ts ++ [mkmotion b z z (rdv h p) (option_map (rdq h) o)]).
      { intros t ->. set (t := mktracked b (length (hv h)) (S (length (hv h))) p o).
        assert (RS : results (ts ++ [t]) = results ts ++ [length (hv h); S (length (hv h))]) by (unfold results; rewrite flat_map_app; reflexivity).
        assert (RB : forall a, In a (results ts) -> (a < length (hv h))%nat).
        { intros a Ha. unfold results in Ha. apply in_flat_map in Ha. destruct Ha as (u & Hu & Ha). rewrite Forall_forall in V.
          destruct (V u Hu) as (V1 & V2 & _). destruct Ha as [<-|[<-|[]]]; auto. }
        split; [split; [|split]|].
        - apply Forall_app. split.
          + eapply Forall_impl; [|exact V]. intros u. apply valid_mono; [lia|]. cbn. lia.
          + constructor; auto. unfold valid. rewrite L. unfold t. cbn [t_dt t_dr t_ppos t_pori]. split; [lia|]. split; [lia|]. split; [lia|]. exact C3.
        - rewrite RS. clear - RB N. induction (results ts) as [|a l IH]; cbn.
          + repeat constructor; cbn; [intros [E|[]]; lia|auto].
          + inversion N; subst. constructor.
            * intros I. apply in_app_iff in I. destruct I as [I|I]; auto. assert (a < length (hv h))%nat by (apply RB; left; auto).
              cbn in I. lia.
            * apply IH; auto. intros; apply RB; right; auto.
        - rewrite RS. apply Forall_app. split.
          + apply Forall_forall. intros u Hu I. apply in_app_iff in I. rewrite Forall_forall in P, V. destruct I as [I|I]; [apply (P u Hu I)|].
            destruct (V u Hu) as (_ & _ & V3 & _). cbn in I. lia.
          + constructor; auto. cbn. intros I. apply in_app_iff in I. destruct I as [I|I]; auto. cbn in I. lia.
        - rewrite map_app. f_equal; [apply map_contents_ext; auto|]. cbn [map]. f_equal. unfold contents. unfold t. cbn [t_box t_dt t_dr t_ppos t_pori]. f_equal.
          + unfold h2. rewrite rdv_new; [|cbn; rewrite app_length; cbn; lia]. unfold rdv, newv. cbn [fst hv]. rewrite app_nth2, Nat.sub_diag; auto.
          + unfold h2, rdv, newv. cbn [fst hv]. replace (S (length (hv h))) with (length (hv h ++ [z])) by (rewrite app_length; cbn; lia). rewrite app_nth2, Nat.sub_diag; auto.
          + apply RD; auto. }
      rewrite T. destruct o as [a|].
      + cbn [option_map motion_init fst snd]. destruct (rdq h a) eqn:Ea.
        * cbn [fst snd]. repeat split; auto.
        * cbn [fst snd]. destruct (OK _ eq_refl) as [O1 O2]. split; auto. rewrite O2. cbn [option_map]. rewrite ?Ea. reflexivity.
      + cbn [option_map motion_init fst snd]. destruct (OK _ eq_refl) as [O1 O2]. split; auto. rewrite O2. reflexivity.
    - (* Add *) destruct C as (C1 & C2 & C3). cbn [fst snd] in *. unfold step, call, vstep. cbn [fst snd].
      rewrite nth_error_map. destruct (nth_error ts i) as [t|] eqn:Et; cbn [option_map]; [|cbn [fst snd]; repeat split; auto].
      assert (It := nth_error_In _ _ Et).
      assert (Vt : valid h t) by (rewrite Forall_forall in V; auto).
      assert (Pt : ~ In (t_ppos t) (results ts)) by (rewrite Forall_forall in P; apply (P t It)).
      destruct (results_In _ _ It) as [I1 I2]. assert (Own := results_own _ _ _ N Et).
      destruct (t_add wrap gimbal h t p o) as [[h' t'] e] eqn:Ea. cbn [fst snd].
      destruct (t_add_spec h t p o h' t' e) as (A & B1 & B2 & B3 & B4 & B5 & B6); auto; try (intros E; rewrite E in *; auto; fail).
      rewrite <- A. cbn [fst snd].
      assert (RP := results_put ts i t t' Et B1 B2).
      assert (Vt' : valid h' t').
      { unfold valid. rewrite B1, B2, B5, B6. destruct Vt as (V1 & V2 & V3 & V4). destruct B3 as [[-> ->]|[-> ->]]; repeat split; auto. }
      assert (MC : map (contents h') (put i t' ts) = put i (contents h' t') (map (contents h) ts)).
      { rewrite put_map. clear A.
        assert (K : forall j u, nth_error ts j = Some u -> j <> i -> contents h' u = contents h u).
        { intros j u Eu D. destruct (results_apart _ _ _ _ _ N Eu Et D) as (Q1 & Q2 & Q3 & Q4).
          assert (Iu := nth_error_In _ _ Eu). rewrite Forall_forall in P. assert (Pu := P u Iu).
          apply contents_ext; try (apply B4; auto; fail).
          - apply B4; intros E; rewrite E in *; auto.
          - intros a _. unfold rdq. rewrite B5. reflexivity. }
        clear - K. revert i K. induction ts as [|u ts IH]; intros i K; [destruct i; reflexivity|]. destruct i as [|i]; cbn.
        - f_equal. apply map_ext_in. intros v Hv. apply In_nth_error in Hv. destruct Hv as [j Hj]. apply (K (S j) v); auto.
        - f_equal; [apply (K 0%nat u); auto|]. apply IH. intros j v Hj D. apply (K (S j) v); auto. }
      split; [split; [|split]|].
      + apply Forall_forall. intros u Hu. apply put_In in Hu. destruct Hu as [->|Hu]; auto. rewrite Forall_forall in V.
        eapply valid_mono; [| |apply V; auto]; [rewrite B6|rewrite B5]; auto.
      + rewrite RP; auto.
      + rewrite RP. apply Forall_forall. intros u Hu. apply put_In in Hu. destruct Hu as [->|Hu].
        * destruct B3 as [[-> _]|[-> _]]; auto.
        * rewrite Forall_forall in P; auto.
      + rewrite MC. f_equal. symmetry. apply (put_split i (contents h' t') (map (contents h) ts)). rewrite map_length. apply nth_error_Some. congruence.
  Qed.

  Lemma run_spec l : forall w, inv w -> careful wrap gimbal w l ->
    values wrap gimbal (holds w) (calls wrap gimbal w l) = (holds (fst (run wrap gimbal w l)), snd (run wrap gimbal w l)).
  Proof.
    induction l as [|o l IH]; intros w I C; [reflexivity|]. destruct C as [C1 C2]. destruct (step_spec w o I C1) as [J E].
    cbn [calls values run]. rewrite E. specialize (IH _ J C2).
    destruct (step wrap gimbal w o) as [w1 e]. cbn [fst snd] in *. rewrite IH. destruct (run wrap gimbal w1 l) as [w2 es]. reflexivity.
  Qed.
End Refine.

Lemma run_fst wrap gimbal w o l : fst (run wrap gimbal w (o :: l)) = fst (run wrap gimbal (fst (step wrap gimbal w o)) l).
Proof. cbn. destruct (step wrap gimbal w o) as [w1 e]. cbn. destruct (run wrap gimbal w1 l). reflexivity. Qed.
Lemma inv_nothing : inv nothing.
Proof. repeat constructor. Qed.

(** ** C195: objects that share arrays behave as if they held values, if the arrays in use are not
    changed. *)
Theorem C195_values_partial : forall wrap gimbal prog,
  careful wrap gimbal nothing prog ->
  let w := run wrap gimbal nothing prog in
  values wrap gimbal [] (calls wrap gimbal nothing prog) = (map (contents (fst (fst w))) (snd (fst w)), snd w).
Proof. intros. apply (run_spec wrap gimbal prog nothing inv_nothing H). Qed.
Print Assumptions C195_values_partial.

(** process_file is such a caller: no array is changed, and only arrays of frames are passed. *)
Section Reading.
  Variable wrap : fbox -> v3 -> v3.
  Variable gimbal : quat -> v3.
  Definition free (w : world) (p : nat) : Prop := (p < length (hv (fst w)))%nat /\ ~ In p (results (snd w)).
  Lemma uses_careful p o : forall us w l q,
    inv w -> free w p -> nth_error (hq (fst w)) o = Some q -> q <> [] ->
    (forall w', inv w' -> length (hv (fst w')) = (length (hv (fst w)) + 2 * started us)%nat -> hq (fst w') = hq (fst w) -> careful wrap gimbal w' l) ->
    careful wrap gimbal w (map (use_op p o) us ++ l).
  Proof.
    induction us as [|u us IH]; intros w l q I [F1 F2] Q NE K.
    - cbn. apply K; auto.
    - cbn [map app careful]. assert (OL : (o < length (hq (fst w)))%nat) by (apply nth_error_Some; congruence).
      assert (RQ : rdq (fst w) o = q) by (unfold rdq; apply nth_error_nth; auto).
      assert (C : careful_op w (use_op p o u)).
      { destruct u; cbn; unfold fits; repeat split; auto; intros a [= <-]; auto. }
      split; auto. destruct (step_spec wrap gimbal w (use_op p o u) I C) as [J _].
      destruct w as [h ts]. cbn [fst snd] in *. destruct u as [b|i].
      + cbn [use_op] in *. assert (SE : exists h' t, step wrap gimbal (h, ts) (Make b p (Some o)) = ((h', ts ++ [t]), None) /\
          length (hv h') = (length (hv h) + 2)%nat /\ hq h' = hq h /\ t_dt t = length (hv h) /\ t_dr t = S (length (hv h))).
        { unfold step, t_init, newv. cbn [hq rdq]. unfold rdq at 1. cbn [hq]. change (nth o (hq h) []) with (rdq h o). rewrite RQ.
          destruct q as [|q0 q']; [congruence|]. eexists _, _. split; [reflexivity|]. cbn. rewrite !app_length. cbn. repeat split; auto; lia. }
        destruct SE as (h' & t & SE & S1 & S2 & S3 & S4). rewrite SE in *. cbn [fst snd] in *.
        apply (IH _ _ q); auto; cbn [fst snd].
        * split; [cbn; lia|]. cbn. unfold results. rewrite flat_map_app. intros H. apply in_app_iff in H. destruct H as [H|H]; auto.
          cbn in H. rewrite S3, S4 in H. lia.
        * rewrite S2; auto.
        * intros w' A B D. apply K; auto; [|congruence]. rewrite B, S1. cbn [started filter length]. unfold started. cbn. lia.
      + cbn [use_op] in *. unfold step in *. destruct (nth_error ts i) as [t|] eqn:E; cbn [fst snd] in *.
        * destruct (t_add wrap gimbal h t p (Some o)) as [[h' t'] e] eqn:A. cbn [fst snd] in *.
          assert (L : length (hv h') = length (hv h) /\ hq h' = hq h).
          { clear - A. unfold t_add in A. destruct (ebind (bzip sub3 _ _) _); [|injection A as <- <- <-; auto].
            destruct (t_pori t); [|injection A as <- <- <-; cbn; rewrite put_length; auto].
            destruct (ebind (bzip qdivide _ _) _); injection A as <- <- <-; cbn; rewrite ?put_length; auto. }
          destruct L as [L1 L2]. assert (TA : t_dt t' = t_dt t /\ t_dr t' = t_dr t).
          { clear - A. unfold t_add in A. destruct (ebind (bzip sub3 _ _) _); [|injection A as <- <- <-; auto].
            destruct (t_pori t); [|injection A as <- <- <-; auto].
            destruct (ebind (bzip qdivide _ _) _); injection A as <- <- <-; auto. }
          destruct TA as [T1 T2]. apply (IH _ _ q); auto; cbn [fst snd].
          -- split; cbn; [lia|]. rewrite (results_put _ _ t); auto.
          -- rewrite L2; auto.
          -- intros w' W1 W2 W3. apply K; auto; [|congruence]. rewrite W2, L1. reflexivity.
        * apply (IH _ _ q); auto; cbn [fst snd]. split; auto.
  Qed.

  Lemma reading_careful l : forall w, inv w -> (forall x q us, In (x, q, us) l -> q <> []) ->
    careful wrap gimbal w (reading (length (hv (fst w))) (length (hq (fst w))) l).
  Proof.
    induction l as [|[[x q] us] l IH]; intros w I Q; [exact Logic.I|]. cbn [reading careful]. split; [exact Logic.I|].
    destruct (step_spec wrap gimbal w (NewV x) I Logic.I) as [I1 _]. set (w1 := fst (step wrap gimbal w (NewV x))) in *.
    split; [exact Logic.I|]. destruct (step_spec wrap gimbal w1 (NewQ q) I1 Logic.I) as [I2 _]. set (w2 := fst (step wrap gimbal w1 (NewQ q))) in *.
    destruct w as [h ts]. cbn [fst snd] in *.
    assert (L1 : hv (fst w2) = hv h ++ [x]) by reflexivity. assert (L2 : hq (fst w2) = hq h ++ [q]) by reflexivity. assert (L3 : snd w2 = ts) by reflexivity.
    apply (uses_careful _ _ _ _ _ q); auto.
    - split; [rewrite L1, app_length; cbn; lia|]. rewrite L3. intros H. unfold results in H. apply in_flat_map in H. destruct H as (t & Ht & H).
      destruct I as (V & _). cbn [fst snd] in V. rewrite Forall_forall in V. destruct (V t Ht) as (V1 & V2 & _). destruct H as [H|[H|[]]]; lia.
    - rewrite L2, nth_error_app2, Nat.sub_diag; auto.
    - apply (Q x q us). left. auto.
    - intros w' J W1 W2. rewrite L1, app_length in W1. rewrite L2 in W2. cbn [length] in W1.
      replace (length (hv h) + 1 + 2 * started us)%nat with (length (hv (fst w'))) by lia.
      replace (length (hq h) + 1)%nat with (length (hq (fst w'))) by (rewrite W2, app_length; reflexivity).
      apply IH; auto. intros y r vs H. apply (Q y r vs). right. auto.
  Qed.
End Reading.

Theorem C195_process_file : forall wrap gimbal l,
  (forall x q us, In (x, q, us) l -> q <> []) -> careful wrap gimbal nothing (reading 0 0 l).
Proof. intros wrap gimbal l H. apply (reading_careful wrap gimbal l nothing inv_nothing H). Qed.
Print Assumptions C195_process_file.
Definition wall : fbox := mkbox 10 10 10 0 0 0 false.
Definition at_ (x : R) : list v3 := [mk3 x 0 0].
(** Two objects share a frame, and the array of an old frame is reused. *)
Example C195_ex wrap gimbal : careful wrap gimbal nothing
  [NewV (at_ 0); NewV (at_ 1); Make wall 0 None; Add 0 1 None; WriteV 0 (at_ 2); Make wall 1 None; Add 0 0 None].
Proof. cbn. unfold fits. cbn. intuition (try lia; try discriminate). Qed.

(** The values are lost if all frames are read into the same array: no motion is ever seen. *)
Lemma buffer_steps wrap gimbal b xs : wrap b zero3 = zero3 -> forall x h t n,
  hv h = [x; repeat zero3 n; repeat zero3 n] -> length x = n -> t = mktracked b 1 2 0 None ->
  (forall y, In y xs -> length y = n) ->
  exists x', hv (fst (fst (run wrap gimbal (h, [t]) (flat_map (fun y => [WriteV 0 y; Add 0 0 None]) xs)))) = [x'; repeat zero3 n; repeat zero3 n].
Proof.
  intros W. induction xs as [|y xs IH]; intros x h t n Hh Hx -> Hl; [exists x; auto|].
  cbn [flat_map app run]. cbn [step].
  assert (Ly : length y = n) by (apply Hl; left; auto).
  cbn [nth_error]. unfold t_add. cbn [t_box t_dt t_dr t_ppos t_pori].
  assert (A : rdv (wrv h 0 y) 0 = y) by (unfold rdv, wrv; rewrite Hh; reflexivity).
  assert (B : rdv (wrv h 0 y) 1 = repeat zero3 n) by (unfold rdv, wrv; rewrite Hh; reflexivity).
  rewrite A, B. unfold bzip. rewrite Nat.eqb_refl. cbn [ebind].
  assert (Z : zip sub3 y y = repeat zero3 (length y)).
  { clear. induction y as [|v y IH]; cbn; auto. rewrite IH. f_equal. unfold sub3, zero3. f_equal; lra. }
  assert (M : map (wrap b) (repeat zero3 (length y)) = repeat zero3 (length y)).
  { clear - W. induction (length y); cbn; auto. rewrite W, IHn. auto. }
  rewrite Z, M, Ly. unfold inplace. rewrite Nat.eqb_refl.
  assert (Z2 : zip sub3 (repeat zero3 n) (repeat zero3 n) = repeat zero3 n).
  { clear. induction n; cbn; auto. rewrite IHn. f_equal. unfold sub3, zero3; cbn. f_equal; lra. }
  rewrite Z2.
  assert (H2 : hv (wrv (wrv h 0 y) 1 (repeat zero3 n)) = [y; repeat zero3 n; repeat zero3 n]) by (unfold wrv; cbn [hv]; rewrite Hh; reflexivity).
  destruct (IH y (wrv (wrv h 0 y) 1 (repeat zero3 n)) (mktracked b 1 2 0 None) n) as [x' Hx']; auto.
  { intros z Hz. apply Hl. right; auto. }
  exists x'. cbn [put]. destruct (run wrap gimbal _ _) as [w2 es]. exact Hx'.
Qed.

Lemma wrap_zero wrap b : wrap_ok wrap -> box_ok b -> wrap b zero3 = zero3.
Proof.
  intros W B. apply wrap_small with (b := b); auto.
  - exists 0%Z, 0%Z, 0%Z. split; auto. unfold lattice, sub3, zero3; cbn. f_equal; lra.
  - unfold below_half, coord_a, coord_b, coord_c, zero3. cbn [x3 y3 z3]. destruct B as (B1 & B2 & B3).
    unfold Rdiv. rewrite !Rmult_0_r, !Rminus_0_r, !Rmult_0_r, !Rminus_0_r, !Rmult_0_l, Rabs_R0. repeat split; auto; intros; lra.
Qed.

Theorem C195_buffer_refuted : forall wrap gimbal b x xs,
  wrap_ok wrap -> box_ok b -> (forall y, In y xs -> length y = length x) ->
  let w := fst (run wrap gimbal nothing (one_buffer b x xs)) in
  rdv (fst w) 1 = map (fun _ => zero3) x /\ rdv (fst w) 2 = map (fun _ => zero3) x.
Proof.
  intros wrap gimbal b x xs W B L. assert (Z := wrap_zero wrap b W B).
  assert (M : map (fun _ => zero3) x = repeat zero3 (length x)) by (clear; induction x; cbn; congruence).
  destruct (buffer_steps wrap gimbal b xs Z x (mkheap [x; repeat zero3 (length x); repeat zero3 (length x)] []) (mktracked b 1 2 0 None) (length x)) as [x' E]; auto.
  cbn zeta. unfold one_buffer. set (l := flat_map _ xs) in *.
  change ([NewV x; Make b 0 None] ++ l) with (NewV x :: Make b 0 None :: l). rewrite !run_fst.
  change (fst (step wrap gimbal (fst (step wrap gimbal nothing (NewV x))) (Make b 0 None)))
    with (mkheap [x; map (fun _ => zero3) x; map (fun _ => zero3) x] [], [mktracked b 1 2 0 None]).
  rewrite M. unfold rdv. rewrite E. auto.
Qed.
Print Assumptions C195_buffer_refuted.

Lemma minus_one_wrap wrap : wrap_ok wrap -> wrap wall (mk3 (-1) 0 0) = mk3 (-1) 0 0.
Proof.
  intros W. apply wrap_small with (b := wall); auto.
  - unfold box_ok, wall; cbn. repeat split; intros; lra.
  - exists 0%Z, 0%Z, 0%Z. split; auto. unfold lattice, sub3, wall; cbn. f_equal; lra.
  - unfold below_half, coord_a, coord_b, coord_c, wall. cbn [x3 y3 z3 bx by_ bz bxy bxz byz b2d].
    repeat split; intros; try discriminate; apply Rabs_def1; lra.
Qed.
Lemma wall_ok : box_ok wall.
Proof. unfold box_ok, wall; cbn. repeat split; intros; lra. Qed.

Theorem C195_refuted : forall wrap gimbal, wrap_ok wrap -> exists prog,
  fst (values wrap gimbal [] (calls wrap gimbal nothing prog)) <>
  map (contents (fst (fst (run wrap gimbal nothing prog)))) (snd (fst (run wrap gimbal nothing prog))).
Proof.
  intros wrap gimbal W. exists (one_buffer wall (at_ 0) [at_ 1]). intros H.
  destruct (C195_buffer_refuted wrap gimbal wall (at_ 0) [at_ 1] W wall_ok) as [A _].
  { intros y [<-|[]]. reflexivity. }
  assert (E : map m_dt (fst (values wrap gimbal [] (calls wrap gimbal nothing (one_buffer wall (at_ 0) [at_ 1])))) =
    [[sub3 zero3 (wrap wall (sub3 (mk3 0 0 0) (mk3 1 0 0)))]]) by reflexivity.
  rewrite H in E.
  assert (F : map m_dt (map (contents (fst (fst (run wrap gimbal nothing (one_buffer wall (at_ 0) [at_ 1]))))) (snd (fst (run wrap gimbal nothing (one_buffer wall (at_ 0) [at_ 1])))))
    = [rdv (fst (fst (run wrap gimbal nothing (one_buffer wall (at_ 0) [at_ 1])))) 1]) by reflexivity.
  rewrite F, A in E. replace (sub3 (mk3 0 0 0) (mk3 1 0 0)) with (mk3 (-1) 0 0) in E by (unfold sub3; cbn; f_equal; lra).
  rewrite minus_one_wrap in E by auto. injection E as E1. lra.
Qed.
Print Assumptions C195_refuted.

(** ** C196: the arrays returned by delta_translation and delta_rotation *)
Section Keep.
  Variable wrap : fbox -> v3 -> v3.
  Variable gimbal : quat -> v3.
  Lemma nth_put_other {A} i j (x : A) l : i <> j -> nth_error (put i x l) j = nth_error l j.
  Proof. revert i j; induction l as [|y l IH]; intros [|i] [|j] D; cbn; auto; try lia. Qed.
  Lemma nth_put_same {A} i (x y : A) l : nth_error l i = Some y -> nth_error (put i x l) i = Some x.
  Proof. revert i; induction l as [|z l IH]; intros [|i] H; cbn in *; try discriminate; auto. Qed.
  Lemma t_add_addr h t p o h' t' e : t_add wrap gimbal h t p o = (h', t', e) -> t_dt t' = t_dt t /\ t_dr t' = t_dr t.
  Proof.
    unfold t_add. destruct (ebind (bzip sub3 _ _) _); [|intros H; injection H as <- <- <-; auto].
    destruct (t_pori t), o; try (intros H; injection H as <- <- <-; auto; fail).
    destruct (ebind (bzip qdivide _ _) _); intros H; injection H as <- <- <-; auto.
  Qed.
  Lemma step_addr w o i t : nth_error (snd w) i = Some t ->
    exists t', nth_error (snd (fst (step wrap gimbal w o))) i = Some t' /\ t_dt t' = t_dt t /\ t_dr t' = t_dr t /\
      ((forall p q, o <> Add i p q) -> t' = t).
  Proof.
    destruct w as [h ts]. cbn [snd]. intros H. destruct o as [x|x|a x|a x|b p o|j p o]; try (exists t; cbn; auto; fail).
    - exists t. unfold step. destruct (t_init h b p o) as [[h' t']|e]; cbn [fst snd]; auto.
      rewrite nth_error_app1; auto. apply nth_error_Some. congruence.
    - unfold step. destruct (nth_error ts j) as [u|] eqn:E; [|exists t; auto].
      destruct (t_add wrap gimbal h u p o) as [[h' u'] e] eqn:A. cbn [fst snd]. destruct (Nat.eq_dec j i) as [->|D].
      + rewrite H in E. injection E as <-. exists u'. rewrite (nth_put_same _ _ t) by auto. apply t_add_addr in A. destruct A.
        repeat split; auto. intros N. exfalso. apply (N p o). auto.
      + exists t. rewrite nth_put_other by auto. auto.
  Qed.
  Lemma run_addr l : forall w i t, nth_error (snd w) i = Some t ->
    exists t', nth_error (snd (fst (run wrap gimbal w l))) i = Some t' /\ t_dt t' = t_dt t /\ t_dr t' = t_dr t /\
      ((forall p q, ~ In (Add i p q) l) -> t' = t).
  Proof.
    induction l as [|o l IH]; intros w i t H; [exists t; auto|]. rewrite run_fst.
    destruct (step_addr w o i t H) as (u & Hu & A & B & C). destruct (IH _ _ _ Hu) as (v & Hv & D & E & F).
    exists v. repeat split; auto; try congruence. intros N. rewrite F; [apply C|].
    - intros p q ->. apply (N p q). left. auto.
    - intros p q I. apply (N p q). right. auto.
  Qed.
  Lemma run_inv l : forall w, inv w -> careful wrap gimbal w l -> inv (fst (run wrap gimbal w l)).
  Proof.
    induction l as [|o l IH]; intros w I C; auto. destruct C as [C1 C2]. rewrite run_fst. apply IH; auto. apply step_spec; auto.
  Qed.
  Lemma vstep_keep ms c i m : nth_error ms i = Some m -> (forall p q, c <> Some (VAdd i p q)) -> nth_error (fst (vstep wrap gimbal ms c)) i = Some m.
  Proof.
    intros H N. destruct c as [[b p o|j p o]|]; cbn [vstep fst]; auto.
    - destruct (motion_init b p o); cbn [fst]; auto. rewrite nth_error_app1; auto. apply nth_error_Some. congruence.
    - destruct (nth_error ms j) eqn:E; cbn [fst]; auto. destruct (motion_add wrap gimbal _ p o) as [m' e]. cbn [fst].
      rewrite <- put_split by (apply nth_error_Some; congruence). rewrite nth_put_other; auto. intros ->. apply (N p o). auto.
  Qed.
  Lemma values_keep cs : forall ms i m, nth_error ms i = Some m -> (forall p q, ~ In (Some (VAdd i p q)) cs) ->
    nth_error (fst (values wrap gimbal ms cs)) i = Some m.
  Proof.
    induction cs as [|c cs IH]; intros ms i m H N; auto. cbn [values].
    assert (K := vstep_keep ms c i m H). destruct (vstep wrap gimbal ms c) as [ms1 e]. cbn [fst] in K.
    assert (K2 := IH ms1 i m). destruct (values wrap gimbal ms1 cs) as [ms2 es]. cbn [fst] in *. apply K2.
    - apply K. intros p q ->. apply (N p q). left; auto.
    - intros p q I. apply (N p q). right; auto.
  Qed.
  Lemma calls_add l : forall w i p q, In (Some (VAdd i p q)) (calls wrap gimbal w l) -> exists p' q', In (Add i p' q') l.
  Proof.
    induction l as [|o l IH]; intros w i p q; [intros []|]. cbn [calls]. intros [H|H].
    - destruct o; try discriminate. injection H as -> _ _. eexists _, _. left. reflexivity.
    - destruct (IH _ _ _ _ H) as (p' & q' & I). exists p', q'. right. auto.
  Qed.
End Keep.

(** The values are kept while no frame is added to the object ... *)
Theorem C196_kept_partial : forall wrap gimbal prog more i t,
  careful wrap gimbal nothing (prog ++ more) ->
  let w := fst (run wrap gimbal nothing prog) in
  nth_error (snd w) i = Some t -> (forall p q, ~ In (Add i p q) more) ->
  let w' := fst (run wrap gimbal nothing (prog ++ more)) in
  rdv (fst w') (delta_translation t) = rdv (fst w) (delta_translation t) /\
  rdv (fst w') (delta_rotation t) = rdv (fst w) (delta_rotation t).
Proof.
  intros wrap gimbal prog more i t C w Ht N.
  assert (CA : forall l l' v, careful wrap gimbal v (l ++ l') -> careful wrap gimbal v l /\ careful wrap gimbal (fst (run wrap gimbal v l)) l').
  { induction l as [|o l IH]; intros l' v H; [split; [exact I|exact H]|]. destruct H as [H1 H2]. destruct (IH _ _ H2) as [A B].
    split; [split; auto|]. rewrite run_fst. auto. }
  assert (RA : forall l l' v, fst (run wrap gimbal v (l ++ l')) = fst (run wrap gimbal (fst (run wrap gimbal v l)) l')).
  { induction l as [|o l IH]; intros l' v; auto. cbn [app]. rewrite !run_fst. auto. }
  destruct (CA _ _ _ C) as [C1 C2]. cbn zeta. rewrite RA. fold w. fold w in C2.
  assert (I : inv w) by (apply run_inv; auto using inv_nothing).
  destruct (run_addr wrap gimbal more w i t Ht) as (t' & Ht' & _ & _ & E). specialize (E N). subst t'.
  assert (V := run_spec wrap gimbal more w I C2).
  assert (K := values_keep wrap gimbal (calls wrap gimbal w more) (holds w) i (contents (fst w) t)).
  rewrite V in K. unfold holds in K. cbn [fst] in K. rewrite nth_error_map, Ht in K.
  specialize (K eq_refl). assert (K' : forall p q, ~ In (Some (VAdd i p q)) (calls wrap gimbal w more)).
  { intros p q H. apply calls_add in H. destruct H as (p' & q' & H). apply (N p' q' H). }
  specialize (K K'). rewrite nth_error_map, Ht' in K. cbn in K. injection K as K1 K2. auto.
Qed.
Print Assumptions C196_kept_partial.

(** ... and always show the state of the object: they are the same arrays for its whole life. *)
Theorem C196_live : forall wrap gimbal prog more i t,
  nth_error (snd (fst (run wrap gimbal nothing prog))) i = Some t ->
  exists t', nth_error (snd (fst (run wrap gimbal nothing (prog ++ more)))) i = Some t' /\
    delta_translation t' = delta_translation t /\ delta_rotation t' = delta_rotation t.
Proof.
  intros wrap gimbal prog more i t H.
  assert (RA : forall l l' v, fst (run wrap gimbal v (l ++ l')) = fst (run wrap gimbal (fst (run wrap gimbal v l)) l')).
  { induction l as [|o l IH]; intros l' v; auto. cbn [app]. rewrite !run_fst. auto. }
  rewrite RA. destruct (run_addr wrap gimbal more _ i t H) as (t' & A & B & C & _). exists t'. auto.
Qed.
Print Assumptions C196_live.

Theorem C196_refuted : forall wrap gimbal, wrap_ok wrap -> exists prog more t,
  careful wrap gimbal nothing (prog ++ more) /\
  nth_error (snd (fst (run wrap gimbal nothing prog))) 0 = Some t /\
  rdv (fst (fst (run wrap gimbal nothing (prog ++ more)))) (delta_translation t) <>
  rdv (fst (fst (run wrap gimbal nothing prog))) (delta_translation t).
Proof.
  intros wrap gimbal W. exists [NewV (at_ 0); NewV (at_ 1); Make wall 0 None], [Add 0 1 None], (mktracked wall 2 3 0 None).
  split; [|split].
  - cbn. unfold fits. cbn. intuition (try lia; try discriminate).
  - reflexivity.
  - assert (E : rdv (fst (fst (run wrap gimbal nothing ([NewV (at_ 0); NewV (at_ 1); Make wall 0 None] ++ [Add 0 1 None])))) 2 =
      [sub3 zero3 (wrap wall (sub3 (mk3 0 0 0) (mk3 1 0 0)))]) by reflexivity.
    assert (F : rdv (fst (fst (run wrap gimbal nothing [NewV (at_ 0); NewV (at_ 1); Make wall 0 None]))) 2 = [zero3]) by reflexivity.
    change (delta_translation (mktracked wall 2 3 0 None)) with 2%nat. rewrite E, F.
    replace (sub3 (mk3 0 0 0) (mk3 1 0 0)) with (mk3 (-1) 0 0) by (unfold sub3; cbn; f_equal; lra).
    rewrite minus_one_wrap by auto. intros H. injection H as H. lra.
Qed.
Print Assumptions C196_refuted.

(** ** C197: positions given as integers *)
Theorem C197_refuted : forall wrap gimbal m position orientation,
  length position = length (m_ppos m) ->
  typed_add wrap gimbal true m position orientation = (m, Some TypeError).
Proof. intros. unfold typed_add, bzip. rewrite H, Nat.eqb_refl. reflexivity. Qed.
Print Assumptions C197_refuted.
Theorem C197_floats_partial : forall wrap gimbal m position orientation,
  length position = length (m_ppos m) -> length (m_dt m) = length (m_ppos m) -> length (m_dr m) = length (m_ppos m) ->
  (forall o, orientation = Some o -> length o = length (m_ppos m) /\ Forall unit o) ->
  (forall o, m_pori m = Some o -> length o = length (m_ppos m) /\ Forall unit o) ->
  snd (typed_add wrap gimbal false m position orientation) = None.
Proof.
  intros wrap gimbal m p o L1 L2 L3 O1 O2. unfold typed_add, motion_add.
  rewrite bzip_eq by auto. cbn [ebind]. rewrite inplace_eq by (rewrite map_length, zip_length; congruence).
  destruct (m_pori m) as [prev|], o as [ori|]; auto.
  destruct (O1 _ eq_refl) as [A B]. destruct (O2 _ eq_refl) as [C D].
  rewrite bzip_eq by congruence. cbn [ebind]. rewrite to_euler_all_ok by (apply zip_unit; auto). cbn [ebind].
  rewrite inplace_eq by (rewrite map_length, zip_length; congruence). reflexivity.
Qed.
Print Assumptions C197_floats_partial.
(** The same two frames of one molecule, with integers and with floats *)
Example C197_ex : forall wrap gimbal, exists m, motion_init wall (at_ 0) None = inl m /\
  snd (typed_add wrap gimbal true m (at_ 1) None) = Some TypeError /\ snd (typed_add wrap gimbal false m (at_ 1) None) = None.
Proof. intros. eexists. split; [reflexivity|]. split; reflexivity. Qed.

(** ** C198: orientations that are all zero *)
Definition qzero : quat := mkq 0 0 0 0.
Lemma near_qzero : near_zero qzero = true.
Proof. unfold near_zero, near0, qzero; cbn [qw qx qy qz]. rewrite Rabs_R0. destruct (Rle_dec 0 (/ 100000000)); [reflexivity|]. exfalso. apply n. lra. Qed.
Lemma zeros_written n : map (fun q => mkq 1 (qx q) (qy q) (qz q)) (repeat qzero n) = repeat qone n.
Proof. induction n; cbn; auto. rewrite IHn. reflexivity. Qed.
Lemma zeros_near n : forallb near_zero (repeat qzero n) = true.
Proof. induction n; cbn [repeat forallb]; auto. rewrite near_qzero, IHn. auto. Qed.
Lemma ones_far n : n <> 0%nat -> forallb near_zero (repeat qone n) = false.
Proof. destruct n; [congruence|]. intros _. cbn [repeat forallb]. rewrite near_zero_unit by apply unit_one. reflexivity. Qed.

(** Such molecules are not rotated, ... *)
Theorem C198_unrotated : forall h p o mol n,
  rdq h o = repeat qzero n -> n <> 0%nat -> (o < length (hq h))%nat ->
  snd (h_molecule2particles h p o mol) = molecule2particles (rdv h p) (repeat qone n) mol.
Proof.
  intros h p o mol n E N L. unfold h_molecule2particles. rewrite E, zeros_near. cbn [snd].
  unfold rdq, wrq. cbn [hq]. rewrite put_same by auto. rewrite zeros_written. reflexivity.
Qed.
Print Assumptions C198_unrotated.

(** ... an array of orientations is left alone ... *)
Theorem C198_kept_partial : forall h p o mol,
  Forall unit (rdq h o) -> rdq h o <> [] -> fst (h_molecule2particles h p o mol) = h.
Proof.
  intros h p o mol U N. unfold h_molecule2particles. cbn [fst]. destruct (rdq h o) as [|q l]; [congruence|].
  inversion U; subst. cbn [forallb]. rewrite near_zero_unit by auto. reflexivity.
Qed.
Print Assumptions C198_kept_partial.

(** ... but zeros are replaced in the caller's array. *)
Theorem C198_refuted : forall h p o mol n,
  rdq h o = repeat qzero n -> n <> 0%nat -> (o < length (hq h))%nat ->
  rdq (fst (h_molecule2particles h p o mol)) o = repeat qone n /\ repeat qone n <> rdq h o.
Proof.
  intros h p o mol n E N L. unfold h_molecule2particles. rewrite E, zeros_near. cbn [fst].
  split.
  - unfold rdq, wrq. cbn [hq]. rewrite put_same by auto. apply zeros_written.
  - destruct n; [congruence|]. cbn. intros H. injection H as H _. lra.
Qed.
Print Assumptions C198_refuted.
Example C198_ex : let h := mkheap [[mk3 1 2 0; mk3 3 4 0]] [repeat qzero 2] in
  h_molecule2particles h 0 0 [mk3 1 0 0] = (mkheap [[mk3 1 2 0; mk3 3 4 0]] [repeat qone 2], inl [mk3 (1 + 1) (0 + 2) (0 + 0); mk3 (1 + 3) (0 + 4) (0 + 0)]).
Proof.
  cbn zeta. rewrite (surjective_pairing (h_molecule2particles _ _ _ _)). f_equal.
  - unfold h_molecule2particles. change (rdq _ 0) with (repeat qzero 2) at 1 2. rewrite zeros_near. cbn [fst]. unfold wrq. cbn [hv hq put]. rewrite zeros_written. reflexivity.
  - rewrite (C198_unrotated _ 0 0 _ 2) by (auto; cbn; lia). rewrite m2p_single by (auto; repeat constructor; apply unit_one).
    cbn. rewrite !rot_one. reflexivity.
Qed.

(** ** Closed counterexamples for C197 and C198 *)
Theorem C197_added_refuted : exists b position next m, motion_init b position None = inl m /\
  forall wrap gimbal, snd (typed_add wrap gimbal true m next None) = Some TypeError /\ snd (typed_add wrap gimbal false m next None) = None.
Proof.
  exists wall, (at_ 0), (at_ 1). destruct (C197_ex (fun _ v => v) (fun _ => zero3)) as (m & E & _). exists m. split; auto. intros wrap gimbal.
  destruct (C197_ex wrap gimbal) as (m' & E' & H). rewrite E in E'. injection E' as <-. exact H.
Qed.
Print Assumptions C197_added_refuted.
Theorem C198_zeros_refuted : exists h p o mol, rdq (fst (h_molecule2particles h p o mol)) o <> rdq h o.
Proof.
  exists (mkheap [[mk3 1 2 0; mk3 3 4 0]] [repeat qzero 2]), 0%nat, 0%nat, [mk3 1 0 0].
  destruct (C198_refuted (mkheap [[mk3 1 2 0; mk3 3 4 0]] [repeat qzero 2]) 0 0 [mk3 1 0 0] 2) as [A B]; [reflexivity|discriminate|cbn; lia|].
  rewrite A. exact B.
Qed.
Print Assumptions C198_zeros_refuted.
