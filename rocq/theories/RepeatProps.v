(** C217: running a command again. *)
From Coq Require Import ZArith List Bool Lia Arith.
From Verif Require Import Base DictFacts WriteCacheModel WriteCacheSpec WriteCacheProofs WriteCacheProps
  ProcessModel ProcessSpec ProcessProofs ProcessProps StoreModel StoreSpec StoreProps.
Import ListNotations.
Open Scope Z_scope.

(** A table that is replaced, or stays *)
Definition over {A} (old new : option A) : option A := match new with Some x => Some x | None => old end.
Lemma over_over {A} (t x y : option A) : over (over t x) y = over t (over x y).
Proof. destruct x, y; reflexivity. Qed.
Lemma over_same {A} (t x : option A) : over (over t x) x = over t x.
Proof. destruct x; reflexivity. Qed.

Section Cache.
  Context {A : Type}.
  Lemma flush_over (w : wcache A) x : (wc_append w = true -> x <> None) ->
    match flush None w (over None x) with
    | inr e => forall t0, flush None w (over t0 x) = inr e
    | inl _ => exists w' x', (wc_cache w <> [] -> x' <> None) /\ forall t0, flush None w (over t0 x) = inl (w', over t0 x')
    end.
  Proof.
    intros H. unfold flush. destruct (wc_named w); cbn; auto. destruct (wc_group w); cbn; auto. eexists.
    destruct (wc_cache w) as [|y c]; [exists x; split; [congruence|]; reflexivity|].
    destruct (wc_append w).
    - destruct x as [x|]; [|exfalso; apply H; auto]. exists (Some (x ++ y :: c)). split; [discriminate|]. reflexivity.
    - exists (Some (y :: c)). split; [discriminate|]. reflexivity.
  Qed.
  Lemma append_over a (w : wcache A) x : (wc_append w = true -> x <> None) ->
    (exists e, forall t0, append a None w (over t0 x) = inr e) \/
    exists w' x', (wc_append w' = true -> x' <> None) /\ forall t0, append a None w (over t0 x) = inl (w', over t0 x').
  Proof.
    intros H. unfold append. destruct (negb _ && _) eqn:E.
    - assert (F := flush_over w x H). destruct (flush None w (over None x)) as [[w0 t]|e].
      + right. destruct F as (w' & x' & N & F).
        assert (Nc : wc_cache w <> []) by (destruct (wc_cache w); [discriminate|discriminate]).
        eexists. exists x'. split; [intros _; exact (N Nc)|]. intros t0. rewrite F. reflexivity.
      + left. exists e. intros t0. rewrite F. reflexivity.
    - right. exists (push a w), x. split; [exact H|]. reflexivity.
  Qed.
  Lemma client_over (rows : list A) : forall w x, (wc_append w = true -> x <> None) ->
    exists w' x' acc, (wc_append w' = true -> x' <> None) /\ forall t0, client (adds rows) w (over t0 x) = (w', over t0 x', acc).
  Proof.
    induction rows as [|a rows IH]; intros w x H; [exists w, x, []; split; auto|].
    cbn [adds map client WriteCacheSpec.step]. destruct (append_over a w x H) as [[e E]|(w' & x' & H' & E)].
    - destruct (IH w x H) as (w2 & x2 & acc & H2 & E2). exists w2, x2, acc. split; auto. intros t0. rewrite E. apply E2.
    - destruct (IH w' x' H') as (w2 & x2 & acc & H2 & E2). exists w2, x2, (a :: acc). split; auto. intros t0. rewrite E. fold (adds rows). rewrite E2. reflexivity.
  Qed.
End Cache.

Section Any.
  Context {D R F Row Out Sum Rel : Type}.
  Variable relaxations : table (nat * Out) -> option (list (nat * Sum)) -> Rel + exn.
  Notation job := (job D R F Row Out Sum).
  Notation command := (command D R F Row Out Sum).
  Notation store := (store Out Sum Rel).
  Notation run := (@StoreModel.run D R F Row Out Sum Rel relaxations).
  Notation step := (@StoreModel.step D R F Row Out Sum Rel relaxations).

  (** What an analysis writes, and how it ends, does not depend on the file. *)
  Theorem C217_independent (j : job) : exists rows mol r, forall st : store,
    step (CDynamics j) st = ({| st_dyn := over (st_dyn st) rows; st_mol := over (st_mol st) mol; st_rel := st_rel st |}, r).
  Proof.
    cbn [StoreModel.step]. unfold comp_dynamics, process_file.
    destruct (j_vars j) as [e|]; [exists None, None, (Some e); reflexivity|].
    destruct (j_reader j) as [[l fin]|]; [|exists None, None, (Some UnboundLocalError); reflexivity].
    destruct (pure (j_mk j) (j_custom j) (j_compute j) (j_radd j) (j_label j) (vlist (j_npos j) l) []) as [[d rows] e0] eqn:Ep.
    destruct (client_over rows (wc_new true true 1 false) None) as (w & x & acc & H & C); [discriminate|].
    assert (Fr : forall t0, ProcessModel.frames (j_npos j) (j_mk j) (j_custom j) (j_compute j) (j_radd j) (j_label j) l fin
                   {| ps_keys := []; ps_cache := wc_new true true 1 false; ps_table := t0 |} =
                 ({| ps_keys := d; ps_cache := w; ps_table := over t0 x |}, match e0 with Some e => Some e | None => fin end)).
    { intros t0. destruct (flat_named _ _ _ _ _ (vlist (j_npos j) l) {| ps_keys := []; ps_cache := wc_new true true 1 false; ps_table := t0 |} d rows e0 eq_refl eq_refl Ep) as (w' & t & E & _ & _ & Fl).
      cbn [ps_cache ps_table] in E. specialize (C t0). cbn [over] in C. rewrite C in E. injection E as <- <- _.
      rewrite frames_flat, Fl. destruct e0; reflexivity. }
    destruct (match e0 with Some e => Some e | None => fin end) as [e|] eqn:Ef.
    { exists x, None, (Some e). intros st. rewrite Fr. reflexivity. }
    assert (Fl := flush_over w x H). destruct (flush None w (over None x)) as [[w0 t]|e] eqn:E0.
    - destruct Fl as (w' & x' & _ & Fl). destruct d as [|k d].
      + exists x', None, (Some ValueError). intros st. rewrite Fr. cbn [ps_cache ps_table ps_keys]. rewrite Fl. reflexivity.
      + destruct (j_floats j) as [e|].
        * exists x', None, (Some e). intros st. rewrite Fr. cbn [ps_cache ps_table ps_keys]. rewrite Fl. reflexivity.
        * exists x'. eexists (Some _), None. intros st. rewrite Fr. cbn [ps_cache ps_table ps_keys]. rewrite Fl. reflexivity.
    - exists x, None, (Some e). intros st. rewrite Fr. cbn [ps_cache ps_table]. rewrite Fl. reflexivity.
  Qed.

  (** The same command again: nothing changes, and it ends in the same way. *)
  Theorem C217_again (c : command) (st : store) : step c (fst (step c st)) = step c st.
  Proof.
    destruct c as [j|].
    - destruct (C217_independent j) as (x & m & r & E). rewrite (E st). cbn [fst]. rewrite E. cbn [st_dyn st_mol st_rel]. rewrite !over_same. reflexivity.
    - cbn [StoreModel.step]. unfold comp_relaxations. destruct (relaxations (st_dyn st) (st_mol st)) as [r|e] eqn:E; cbn [fst st_dyn st_mol]; rewrite E; reflexivity.
  Qed.

  Lemma analyses_over (cs : list command) : ~ In CRelaxations cs -> exists x m, forall st : store,
    run cs st = {| st_dyn := over (st_dyn st) x; st_mol := over (st_mol st) m; st_rel := st_rel st |}.
  Proof.
    induction cs as [|[j|] cs IH]; intros N; [exists None, None; intros []; reflexivity| |exfalso; apply N; left; auto].
    destruct IH as (x & m & E); [intros I; apply N; right; auto|]. destruct (C217_independent j) as (x0 & m0 & r & E0).
    exists (over x0 x), (over m0 m). intros st. cbn [StoreModel.run]. rewrite E0, E. cbn [fst st_dyn st_mol st_rel]. rewrite !over_over. reflexivity.
  Qed.

  (** Analyses followed by comp-relaxations, run again as a whole. *)
  Theorem C217_script (cs : list command) (st : store) : ~ In CRelaxations cs ->
    run ((cs ++ [CRelaxations]) ++ (cs ++ [CRelaxations])) st = run (cs ++ [CRelaxations]) st.
  Proof.
    intros N. destruct (analyses_over cs N) as (x & m & E). rewrite !(run_app relaxations).
    set (s2 := run [CRelaxations] (run cs st)).
    assert (K : run cs s2 = s2).
    { assert (Kd : st_dyn s2 = over (st_dyn st) x /\ st_mol s2 = over (st_mol st) m).
      { unfold s2. cbn [StoreModel.run]. destruct (relax_keeps (F := F) (R := R) (D := D) (Row := Row) relaxations (run cs st)) as [-> ->]. rewrite E. split; reflexivity. }
      rewrite E. clearbody s2. destruct s2 as [a b c]. cbn [st_rel st_dyn st_mol] in *. destruct Kd as [-> ->]. rewrite !over_same. reflexivity. }
    rewrite K. unfold s2. cbn [StoreModel.run]. rewrite C217_again. reflexivity.
  Qed.
End Any.
Print Assumptions C217_independent.
Print Assumptions C217_again.
Print Assumptions C217_script.

(** In the other order a second run can differ: relaxations are computed that were not before. *)
Theorem C217_order_refuted : exists (j : job Z (list Z) xframe Z Z Z) rows mol, analyses j rows mol /\
  st_rel (run x_relaxations [CRelaxations; CDynamics j] x_empty) = None /\
  st_rel (run x_relaxations ([CRelaxations; CDynamics j] ++ [CRelaxations; CDynamics j]) x_empty) = Some (rows, mol).
Proof.
  exists x_first, [(0%nat, 0); (0%nat, 2)], [(0%nat, 12)]. split.
  { split; [discriminate|]. split; [reflexivity|]. split; [reflexivity|]. do 2 eexists. split; [reflexivity|]. split; [vm_compute; reflexivity|]. split; vm_compute; reflexivity. }
  split; vm_compute; reflexivity.
Qed.
Print Assumptions C217_order_refuted.

Example C217_example :
  let b := x_job ([([0; 1]%nat, (100, 2)); ([0; 1]%nat, (130, 2))], None) in
  let cs := [CDynamics x_first; CDynamics b] in
  let st := {| st_dyn := Some [(7%nat, 7)]; st_mol := None; st_rel := None |} : x_store in
  ~ In CRelaxations cs /\ run x_relaxations (cs ++ [CRelaxations]) st <> st /\
  st_rel (run x_relaxations (cs ++ [CRelaxations]) st) <> None /\
  run x_relaxations ((cs ++ [CRelaxations]) ++ (cs ++ [CRelaxations])) st = run x_relaxations (cs ++ [CRelaxations]) st.
Proof.
  cbv zeta. split; [intros [H|[H|[]]]; discriminate|]. split; [vm_compute; discriminate|]. split; [vm_compute; discriminate|]. vm_compute. reflexivity.
Qed.
