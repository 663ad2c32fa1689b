(** How a definition of a relaxation is rejected, and what is left then. *)
From Coq Require Import String ZArith QArith List Bool.
From Verif Require Import Base XNum MolRelaxModel MolRelaxSpec MolRelaxDefs MolRelaxProps DefSpec.
Import ListNotations.

Section Faults.
  Variable parse : string -> option xnum.
  Variable show : yaml -> string.

  Lemma given_absent v : given v = None <-> absent v.
  Proof.
    unfold absent. destruct v as [v|]; cbn; [|tauto]. destruct v; cbn; split; intros H; try discriminate; auto;
    destruct H as [H|H]; discriminate.
  Qed.
  Lemma given_some v y : given v = Some y <-> v = Some y /\ y <> YNone.
  Proof.
    destruct v as [v|]; cbn; [|split; [discriminate|intros [H _]; discriminate]].
    destruct v; cbn; split; intros H; try discriminate; try (injection H as <-; split; [reflexivity|discriminate]);
    destruct H as [H N]; congruence.
  Qed.
  Lemma to_float_bad y e : to_float parse y = inr e <-> no_number parse y e.
  Proof.
    split.
    - destruct y as [|b|x|s|]; cbn; try discriminate; try (intros [= <-]; constructor).
      destruct (parse s) eqn:E; [discriminate|]. intros [= <-]. constructor. auto.
    - intros []; cbn; try reflexivity. rewrite H. reflexivity.
  Qed.
  Lemma known_type_name d :
    type_of_name (match def_type d with Some v => to_str show v | None => "translation"%string end) <> None <->
    known_type show d.
  Proof.
    unfold known_type. destruct (def_type d) as [v|]; [|cbn; split; [tauto|discriminate]].
    change (to_str show v) with (shown show v). unfold type_of_name.
    destruct (String.eqb_spec (shown show v) "rotation"); [split; [tauto|discriminate]|].
    destruct (String.eqb_spec (shown show v) "translation"); [split; [tauto|discriminate]|].
    split; [congruence|tauto].
  Qed.
  Lemma numeric_fun v x y : numeric parse v x -> numeric parse v y -> x = y.
  Proof.
    rewrite <- !to_float_numeric. intros (a & A & A') (b & B & B'). congruence.
  Qed.

  Lemma make_fault n d e : make_relax parse show n d = inr e <-> fault parse show d e.
  Proof.
    unfold make_relax.
    destruct (given (def_name d)) as [nm|] eqn:N.
    2:{ split.
        - intros [= <-]. apply f_name, given_absent, N.
        - apply given_absent in N. intros []; auto; contradiction. }
    assert (NA : ~ absent (def_name d)) by (rewrite <- given_absent; congruence).
    destruct (given (def_threshold d)) as [th|] eqn:T.
    2:{ apply given_absent in T. split.
        - intros [= <-]. apply f_threshold; auto.
        - assert (X : forall x, ~ numeric parse (def_threshold d) x).
          { intros x (y & Y1 & Y2). destruct T as [T|T]; rewrite T in Y1; [discriminate|]. injection Y1 as <-. exact Y2. }
          intros F; destruct F as [ | | v e N0 V NV _ |thr v e N0 P|thr cut N0 P|thr cut N0 P|thr cut N0 P]; try reflexivity;
          try (apply X in P; contradiction).
          destruct T as [T|T]; rewrite V in T; [discriminate|]. injection T as ->. congruence. }
    assert (TA : ~ absent (def_threshold d)) by (rewrite <- given_absent; congruence).
    apply given_some in T. destruct T as [T TN].
    destruct (to_float parse th) as [thr|e0] eqn:TF.
    2:{ assert (TB : no_number parse th e0) by (apply to_float_bad; auto). split.
        - intros [= <-]. eapply f_threshold_kind; eauto.
        - assert (X : forall x, ~ numeric parse (def_threshold d) x).
          { intros x P. apply to_float_numeric in P. destruct P as (y & Y1 & Y2). congruence. }
          intros F; destruct F as [ | | v e N0 V NV B |thr v e N0 P|thr cut N0 P|thr cut N0 P|thr cut N0 P];
          try contradiction; try (apply X in P; contradiction).
          apply to_float_bad in B. assert (v = th) as -> by congruence. congruence. }
    assert (P : numeric parse (def_threshold d) thr) by (apply to_float_numeric; eauto).
    destruct (match def_cutoff d with Some v => to_float parse v | None => inl (xtriple thr) end) as [cut|e0] eqn:CF.
    2:{ destruct (def_cutoff d) as [v|] eqn:CD; [|discriminate]. split.
        - intros [= <-]. eapply f_cutoff_kind; eauto. apply to_float_bad; auto.
        - assert (Y : forall t c, ~ cutoff_of parse d t c).
          { intros t c [[H _]|H]; [congruence|]. apply to_float_numeric in H. destruct H as (y & Y1 & Y2). congruence. }
          intros F; destruct F as [ | | w e N0 V NV B |t w e N0 Q V B|t c N0 Q C|t c N0 Q C|t c N0 Q C];
          try contradiction; try (apply Y in C; contradiction).
          + apply to_float_bad in B. assert (w = th) as -> by congruence. congruence.
          + apply to_float_bad in B. assert (w = v) as -> by congruence. congruence. }
    assert (C : cutoff_of parse d thr cut).
    { unfold cutoff_of. destruct (def_cutoff d) as [v|] eqn:CD; [|left; split; congruence].
      right. apply to_float_numeric. eauto. }
    assert (CU : forall t c, numeric parse (def_threshold d) t -> cutoff_of parse d t c -> t = thr /\ c = cut).
    { intros t c Q D. assert (t = thr) as -> by (eapply numeric_fun; eauto). split; auto.
      destruct C as [[C1 C2]|C], D as [[D1 D2]|D]; try congruence.
      - destruct D as (? & D & _). congruence.
      - destruct C as (? & C & _). congruence.
      - eapply numeric_fun; eauto. }
    assert (NT : forall v e, def_threshold d = Some v -> ~ no_number parse v e).
    { intros v e1 V B. apply to_float_bad in B. assert (v = th) as -> by congruence. congruence. }
    assert (NC : forall v e, def_cutoff d = Some v -> ~ no_number parse v e).
    { intros v e1 V B. apply to_float_bad in B. rewrite V in CF. congruence. }
    pose proof (last_falsy d) as L. fold (no_last d) in L. pose proof (known_type_name d) as K.
    set (ty := match def_type d with Some v => to_str show v | None => "translation"%string end) in *.
    set (last := match def_last d with Some v => to_bool v | None => false end) in *.
    assert (R : match create_mol_relaxations n thr last (Some cut) (Some ty) with inr e => inr e | inl r => inl (to_str show nm, r) end
                = (inr e : (string * molrel) + exn) <->
              (xlt thr (Fin 0) = true /\ e = ValueError) \/ (xlt thr (Fin 0) = false /\ last = true /\ xlt cut (Fin 0) = true /\ e = ValueError)
              \/ (xlt thr (Fin 0) = false /\ (last = false \/ xlt cut (Fin 0) = false) /\ type_of_name ty = None /\ e = KeyError)).
    { unfold create_mol_relaxations. change xzero with (Fin 0).
      destruct (xlt thr (Fin 0)) eqn:E1; [split; [intros [= <-]; tauto|intuition congruence]|].
      destruct last; [destruct (xlt cut (Fin 0)) eqn:E2|]; destruct (type_of_name ty) eqn:E3;
      (split; [first [discriminate | intros [= <-]; tauto]|intuition congruence]). }
    rewrite R. split.
    - intros [(H1 & ->)|[(H1 & H2 & H3 & ->)|(H1 & H2 & H3 & ->)]].
      + eapply f_negative; eauto.
      + eapply f_negative_cutoff; eauto. rewrite <- L. congruence.
      + eapply f_type; eauto; [|rewrite <- K; congruence]. destruct H2; [left; apply L; auto|auto].
    - intros F; destruct F as [ | | v e N0 V NV B |t v e N0 Q V B|t c N0 Q D H|t c N0 Q D H1 H2|t c N0 Q D H1 H2 H3];
      try contradiction.
      + destruct (NT v e V B).
      + destruct (NC v e V B).
      + destruct (CU t c Q D) as [-> ->]. tauto.
      + destruct (CU t c Q D) as [-> ->]. destruct (xlt thr (Fin 0)); [tauto|]. right. left.
        destruct last; [tauto|]. destruct H1. apply L. reflexivity.
      + destruct (CU t c Q D) as [-> ->]. right. right. split; auto. split; [tauto|]. split; auto.
        destruct (type_of_name ty); auto. destruct H3. apply K. discriminate.
  Qed.
End Faults.

(** * C171 *)
Theorem C171_fault : forall parse show n defs e,
  snd (set_mol_relax parse show n defs) = Some e <->
  exists pre d post, defs = pre ++ d :: post /\ fault parse show d e /\
    forall x, In x pre -> exists nm thr cut l ty, well_formed parse show x nm thr cut l ty.
Proof.
  intros parse show n defs e. unfold set_mol_relax. generalize (@nil (string * molrel)) as acc.
  induction defs as [|d defs IH]; intros acc; cbn [set_loop].
  - split; [discriminate|]. intros ([|? ?] & ? & ? & H & _); discriminate.
  - destruct (make_relax parse show n d) as [[nm r]|e0] eqn:M.
    + rewrite IH. split.
      * intros (pre & x & post & -> & F & W). exists (d :: pre), x, post. split; auto. split; auto.
        intros y [<-|I]; auto. apply make_sound in M. destruct M as (thr & cut & l & ty & M & _). eauto 6.
      * intros (pre & x & post & E & F & W). destruct pre as [|p pre]; injection E as -> ->.
        -- apply make_fault with (n := n) in F. congruence.
        -- exists pre, x, post. split; auto. split; auto. intros y I. apply W. right; auto.
    + cbn [snd]. split.
      * intros [= <-]. exists [], d, defs. split; auto. split; [eapply make_fault; eauto|intros x []].
      * intros (pre & x & post & E & F & W). destruct pre as [|p pre]; injection E as -> ->.
        -- apply make_fault with (n := n) in F. congruence.
        -- destruct (W p (or_introl eq_refl)) as (nm & thr & cut & l & ty & H).
           destruct (make_complete parse show n p _ _ _ _ _ H) as (r & H' & _). congruence.
Qed.
Print Assumptions C171_fault.
Example C171_ex : forall parse show, parse "fast"%string = None ->
  fault parse show (defn "a" (YStr "fast") None None) ValueError /\
  fault parse show (defn "a" YOther None None) TypeError /\
  fault parse show (defn "a" (YNum one) None (Some (YStr "spin"))) KeyError /\
  well_formed parse show (defn "b" (YNum one) (Some YNone) None) "b" one three false translation.
Proof.
  intros parse show H. split; [|split; [|split]].
  - apply f_threshold_kind with (YStr "fast"); try discriminate; cbn; auto.
    + intros [A|A]; discriminate.
    + constructor; auto.
  - apply f_threshold_kind with YOther; try discriminate; cbn; auto.
    + intros [A|A]; discriminate.
    + constructor.
  - apply f_type with one three; cbn; auto.
    + intros [A|A]; discriminate.
    + exists (YNum one). auto.
    + left. auto.
    + intros [A|A]; discriminate.
  - constructor; cbn; auto; try discriminate.
    + eexists. split; [reflexivity|]. split; [discriminate|reflexivity].
    + exists (YNum one). auto.
    + split; auto. constructor.
Qed.

(** * C172 *)
(** Refuted: after a rejected list the relaxations are those before the call. *)
Theorem C172_unchanged_refuted : exists n before defs old new e,
  (forall parse show, set_mol_relax parse show n before = (old, None)) /\
  (forall parse show, set_mol_relax parse show n defs = (new, Some e)) /\ new <> old /\ new = [].
Proof.
  exists 2%nat, [defn "tau" (YNum one) None None], [defn "tau" (YNum (Fin (- 1))) None None],
    [("tau"%string, first_init 2 one translation)], [], ValueError.
  split; [reflexivity|]. split; [reflexivity|]. split; [discriminate|reflexivity].
Qed.
Print Assumptions C172_unchanged_refuted.
(** They are what the definitions before the faulty one make. *)
Theorem C172_before_partial : forall parse show n pre d post e,
  (forall x, In x pre -> exists nm thr cut l ty, well_formed parse show x nm thr cut l ty) ->
  fault parse show d e ->
  set_mol_relax parse show n (pre ++ d :: post) = (fst (set_mol_relax parse show n pre), Some e).
Proof.
  intros parse show n pre d post e W F. unfold set_mol_relax. generalize (@nil (string * molrel)) as acc.
  induction pre as [|p pre IH]; intros acc; cbn [app set_loop].
  - apply make_fault with (n := n) in F. rewrite F. reflexivity.
  - destruct (W p (or_introl eq_refl)) as (nm & thr & cut & l & ty & H).
    destruct (make_complete parse show n p _ _ _ _ _ H) as (r & H' & _). rewrite H'. apply IH.
    intros x I. apply W. right; auto.
Qed.
Print Assumptions C172_before_partial.
Example C172_ex : forall parse show,
  set_mol_relax parse show 2 ([defn "a" (YNum one) None None] ++ defn "b" YOther None None :: [defn "c" (YNum one) None None])
  = ([("a"%string, first_init 2 one translation)], Some TypeError).
Proof. reflexivity. Qed.
