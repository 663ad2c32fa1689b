(** C216: the tables of an output file. *)
From Coq Require Import ZArith List Bool Lia Arith.
From Verif Require Import Base DictFacts WriteCacheModel WriteCacheSpec WriteCacheProofs WriteCacheProps
  ProcessModel ProcessSpec ProcessProofs ProcessProps StoreModel StoreSpec.
Import ListNotations.
Open Scope Z_scope.

Section Any.
  Context {D R F Row Out Sum Rel : Type}.
  Variable relaxations : table (nat * Out) -> option (list (nat * Sum)) -> Rel + exn.
  Notation job := (job D R F Row Out Sum).
  Notation command := (command D R F Row Out Sum).
  Notation store := (store Out Sum Rel).
  Notation run := (@StoreModel.run D R F Row Out Sum Rel relaxations).
  Notation step := (@StoreModel.step D R F Row Out Sum Rel relaxations).

  Lemma keys_of_rows npos mk custom compute radd label (l : list (list nat * F)) s :
    @ProcessModel.frames D R F Row Out npos mk custom compute radd label l None (start_state true) = (s, None) -> all_rows s <> [] -> ps_keys s <> [].
  Proof.
    intros H Hr Hk. destruct (pure mk custom compute radd label (vlist npos l) []) as [[d rows] e] eqn:Ep.
    destruct (run_rows npos mk custom compute radd label l None d rows e Ep) as (s' & E & K & A). rewrite H in E. injection E as <- _.
    destruct (vlist npos l) as [|[k f] v] eqn:Ev; [cbn in Ep; injection Ep as _ <- _; congruence|].
    assert (Ne : frames_of npos k l <> []).
    { rewrite <- kframes_of, Ev. unfold kframes. cbn [filter fst]. rewrite Nat.eqb_refl. discriminate. }
    destruct (exists_last Ne) as (fs & g & Eg).
    destruct (last_visit npos mk custom compute radd label l None s k fs g H Eg) as (x & x' & o & _ & G & _). rewrite Hk in G. discriminate.
  Qed.
  Lemma dynamics_done (j : job) rows mol (st : store) : analyses j rows mol ->
    step (CDynamics j) st = ({| st_dyn := Some rows; st_mol := Some mol; st_rel := st_rel st |}, None).
  Proof.
    intros (Hr & Hv & Hf & l & s & Ej & H & -> & ->). cbn [StoreModel.step]. unfold comp_dynamics. rewrite Hv, Hf, Ej.
    destruct (C30_file_or_memory _ _ _ _ _ _ (j_summary j) l (st_dyn st) (st_mol st) None s H) as (A & _).
    destruct (C30_file_result _ _ _ _ _ _ (j_summary j) l (st_dyn st) (st_mol st) None s H) as (B & C).
    assert (Hk := keys_of_rows _ _ _ _ _ _ _ _ H Hr).
    destruct (process_file (j_npos j) (j_mk j) (j_custom j) (j_compute j) (j_radd j) (j_label j) (j_summary j) true None None (Some (l, None)) (st_dyn st) (st_mol st)) as [res tab rel].
    cbn [out_table out_result out_relax] in *. destruct (ps_keys s) as [|x ks] eqn:Ek; [congruence|]. subst res. rewrite C by reflexivity. rewrite A.
    destruct (all_rows s); [congruence|]. reflexivity.
  Qed.
  Lemma run_app (a b : list command) : forall st, run (a ++ b) st = run b (run a st).
  Proof. induction a as [|c a IH]; intros st; cbn; auto. Qed.
  Lemma relax_keeps (st : store) : st_dyn (fst (step CRelaxations st)) = st_dyn st /\ st_mol (fst (step CRelaxations st)) = st_mol st.
  Proof. cbn. unfold comp_relaxations. destruct (relaxations _ _); split; reflexivity. Qed.

  (** Commands of which every analysis has rows: the tables of the last analysis, and the
      relaxations of the tables that were there at the last time they were computed. *)
  Lemma no_jobs (cs : list command) : jobs cs = [] -> forall st, st_dyn (run cs st) = st_dyn st /\ st_mol (run cs st) = st_mol st.
  Proof.
    induction cs as [|[j|] cs IH]; intros H st; [split; reflexivity|discriminate|]. cbn [StoreModel.run]. destruct (IH H (fst (step CRelaxations st))) as [-> ->]. apply relax_keeps.
  Qed.
  Lemma jobs_app (a b : list command) : jobs (a ++ b) = jobs a ++ jobs b.
  Proof. induction a as [|[j|] a IH]; cbn; auto. rewrite IH. reflexivity. Qed.
  Lemma last_job (cs : list command) js j rows mol st : jobs cs = js ++ [j] -> analyses j rows mol ->
    st_dyn (run cs st) = Some rows /\ st_mol (run cs st) = Some mol.
  Proof.
    revert js st. induction cs as [|c cs IH]; intros js st E A; [destruct js; discriminate|].
    destruct c as [i|]; cbn [jobs] in E; [|cbn [StoreModel.run]; apply (IH js); auto].
    destruct js as [|i' js]; cbn in E; injection E as -> E.
    - cbn [StoreModel.run]. destruct (no_jobs cs E (fst (step (CDynamics j) st))) as [-> ->]. rewrite (dynamics_done j rows mol st A). split; reflexivity.
    - cbn [StoreModel.run]. apply (IH js); auto.
  Qed.
  Lemma only_jobs (b : list command) : ~ In CRelaxations b -> forall st, st_rel (run b st) = st_rel st.
  Proof.
    induction b as [|[j|] b IH]; intros N st; [reflexivity| |exfalso; apply N; left; auto].
    cbn [StoreModel.run]. rewrite IH by (intros I; apply N; right; auto). reflexivity.
  Qed.

  (** * C216 *)
  (** Whatever was in the file, and whatever commands wrote to it before. *)
  Theorem C216_last_analysis_partial (cs : list command) js j rows mol (st : store) : jobs cs = js ++ [j] -> analyses j rows mol ->
    st_dyn (run cs st) = Some rows /\ st_mol (run cs st) = Some mol.
  Proof. apply last_job. Qed.

  (** The relaxations are those of the last analysis before they were computed last. *)
  Theorem C216_relaxations_partial (a b : list command) js j rows mol r (st : store) : jobs a = js ++ [j] -> analyses j rows mol ->
    relaxations (Some rows) (Some mol) = inl r -> ~ In CRelaxations b -> st_rel (run (a ++ CRelaxations :: b) st) = Some r.
  Proof.
    intros E A Hr N. rewrite run_app. cbn [StoreModel.run]. rewrite only_jobs by auto. cbn [StoreModel.step]. unfold comp_relaxations.
    destruct (last_job a js j rows mol st E A) as [-> ->]. rewrite Hr. reflexivity.
  Qed.

  (** An analysis that is ended by an exception: whole blocks of 8192 rows replace the table
      dynamics, and the other tables stay. *)
  Theorem C216_interrupted_partial (j : job) l fin s e (st : store) : j_vars j = None -> j_reader j = Some (l, fin) ->
    ProcessModel.frames (j_npos j) (j_mk j) (j_custom j) (j_compute j) (j_radd j) (j_label j) l fin (start_state true) = (s, Some e) ->
    exists p rest n, all_rows s = p ++ rest /\ Z.of_nat (length p) = Z.of_nat n * 8192 /\ Z.of_nat (length rest) <= 8192 /\
      step (CDynamics j) st = ({| st_dyn := match n with O => st_dyn st | _ => Some p end; st_mol := st_mol st; st_rel := st_rel st |}, Some e).
  Proof.
    intros Hv Ej H. cbn [StoreModel.step]. unfold comp_dynamics. rewrite Hv, Ej. unfold process_file.
    destruct (pure (j_mk j) (j_custom j) (j_compute j) (j_radd j) (j_label j) (vlist (j_npos j) l) []) as [[d rows] e0] eqn:Ep.
    destruct (run_rows _ _ _ _ _ _ l fin d rows e0 Ep) as (s' & E & K & A). rewrite H in E. injection E as <- He.
    set (s0 := {| ps_keys := []; ps_cache := wc_new true true 1 false; ps_table := st_dyn st |} : pstate D R Out).
    destruct (flat_named _ _ _ _ _ (vlist (j_npos j) l) s0 d rows e0 eq_refl eq_refl Ep) as (w & t & C & _ & _ & Fl).
    rewrite frames_flat, Fl.
    assert (B := C23_bounded_loss _ 1 (adds rows) (st_dyn st) ltac:(lia)). cbn [ps_cache ps_table s0] in C. rewrite C in B.
    destruct B as (p & Ep' & Lr & (k & Hk & Lk) & B1 & B2).
    { intros o Io. unfold adds in Io. apply in_map_iff in Io as (x & <- & _). exact I. }
    exists p, (wc_cache w), (Z.to_nat k). split; [congruence|]. split; [lia|]. split; [lia|].
    replace (match e0 with None => (_, fin) | Some _ => _ end) with ({| ps_keys := d; ps_cache := w; ps_table := t |}, Some e) by (destruct e0; congruence).
    cbn [out_table out_relax out_result ps_table]. destruct p as [|x p].
    - cbn [length] in Lk. assert (k = 0) by lia. subst k. rewrite B1 by auto. reflexivity.
    - cbn [length] in Lk. destruct (Z.to_nat k) eqn:Ek; [lia|]. rewrite B2 by discriminate. reflexivity.
  Qed.
End Any.
Print Assumptions C216_last_analysis_partial.
Print Assumptions C216_relaxations_partial.
Print Assumptions C216_interrupted_partial.

(** *** an instance: the analyses of ProcessProps, and relaxations that keep both tables *)
Definition x_job (r : list (list nat * xframe) * option exn) : job Z (list Z) xframe Z Z Z :=
  {| j_npos := x_npos; j_mk := x_mk; j_custom := None; j_compute := x_compute; j_radd := fun _ f => ([fst f], None);
     j_label := x_label; j_summary := fun r => hd 0 r; j_vars := None; j_floats := None; j_reader := Some r |}.
Definition x_relaxations (d : table (nat * Z)) (m : option (list (nat * Z))) : (list (nat * Z) * list (nat * Z)) + exn :=
  match d, m with Some d, Some m => inl (d, m) | _, _ => inr KeyError end.
Definition x_store := store Z Z (list (nat * Z) * list (nat * Z)).
Definition x_empty : x_store := {| st_dyn := None; st_mol := None; st_rel := None |}.
Definition x_first := x_job ([([0%nat], (10, 1)); ([0%nat], (12, 1))], None).

(** Both commands end without an exception, and the rows are of the one, the molecules of the
    other: no frame of the second could be analysed.  comp-relaxations joins them. *)
Theorem C216_mixed_refuted : exists (a b : job Z (list Z) xframe Z Z Z) rows mol mol',
  let st := run x_relaxations [CDynamics a; CDynamics b] x_empty in
  analyses a rows mol /\ mol' <> mol /\
  snd (StoreModel.step x_relaxations (CDynamics b) (run x_relaxations [CDynamics a] x_empty)) = None /\
  st_dyn st = Some rows /\ st_mol st = Some mol' /\
  st_mol (run x_relaxations [CDynamics b] x_empty) = Some mol' /\
  st_rel (run x_relaxations [CDynamics a; CDynamics b; CRelaxations] x_empty) = Some (rows, mol').
Proof.
  exists x_first, (x_job ([([0; 1]%nat, (100, 2)); ([0; 1]%nat, (130, 2))], None)), [(0%nat, 0); (0%nat, 2)], [(0%nat, 12)]. eexists. cbv zeta.
  split.
  { split; [discriminate|]. split; [reflexivity|]. split; [reflexivity|]. do 2 eexists. split; [reflexivity|]. split; [vm_compute; reflexivity|]. split; vm_compute; reflexivity. }
  split; [|split; [vm_compute; reflexivity|]; split; [vm_compute; reflexivity|]; split; [vm_compute; reflexivity|]; split; vm_compute; reflexivity].
  vm_compute. discriminate.
Qed.
Print Assumptions C216_mixed_refuted.

(** A long analysis of one frame again and again *)
Lemma long_pure n : forall d, dget Nat.eqb 0%nat d = Some (100, [100]) ->
  snd (fst (pure x_mk None x_compute (fun _ f => ([fst f], None)) x_label (repeat (0%nat, (100, 1)) n) d)) = repeat (0%nat, 0) n /\
  snd (pure x_mk None x_compute (fun _ f => ([fst f], None)) x_label (repeat (0%nat, (100, 1)) n) d) = None.
Proof.
  induction n as [|n IH]; intros d H; [split; reflexivity|]. cbn [repeat pure]. rewrite H. cbn -[pure repeat put].
  specialize (IH (dset Nat.eqb 0%nat (100, [100]) d)). destruct (pure _ _ _ _ _ (repeat _ n) _) as [[d' rows] e]. cbn [fst snd] in *.
  destruct IH as [-> ->]; [|split; reflexivity]. apply dget_dset_same. apply Nat.eqb_eq.
Qed.
Lemma long_vlist n : vlist x_npos (repeat ([0%nat], (100, 1)) n) = repeat (0%nat, (100, 1)) n.
Proof. induction n as [|n IH]; [reflexivity|]. cbn [repeat]. rewrite <- IH. reflexivity. Qed.
Lemma long_rows n fin : exists s, ProcessModel.frames x_npos x_mk None x_compute (fun _ f => ([fst f], None)) x_label
  (repeat ([0%nat], (100, 1)) (Datatypes.S n)) fin (start_state true) = (s, fin) /\ all_rows s = repeat (0%nat, 0) (Datatypes.S n).
Proof.
  destruct (pure x_mk None x_compute (fun _ f => ([fst f], None)) x_label (vlist x_npos (repeat ([0%nat], (100, 1)) (Datatypes.S n))) []) as [[d rows] e] eqn:E.
  destruct (run_rows x_npos x_mk None x_compute (fun _ f => ([fst f], None)) x_label _ fin d rows e E) as (s & H & _ & A).
  exists s. rewrite long_vlist in E. cbn [repeat pure dget] in E. cbn -[pure repeat] in E.
  destruct (long_pure n [(0%nat, (100, [100]))] eq_refl) as [P Q].
  destruct (pure _ _ _ _ _ (repeat _ n) _) as [[d' rows'] e']. cbn [fst snd] in *. injection E as _ <- <-. subst. split; [exact H|exact A].
Qed.

(** The second is ended by an exception after 8193 rows: the file has 8192 of its rows with the
    molecules of the first. *)
Theorem C216_crash_refuted : exists (a b : job Z (list Z) xframe Z Z Z) rows mol rows' e,
  let st := run x_relaxations [CDynamics a; CDynamics b] x_empty in
  analyses a rows mol /\
  snd (StoreModel.step x_relaxations (CDynamics b) (run x_relaxations [CDynamics a] x_empty)) = Some e /\
  Z.of_nat (length rows') = 8192 /\ st_dyn st = Some rows' /\ st_mol st = Some mol /\
  st_rel (run x_relaxations [CDynamics a; CDynamics b; CRelaxations] x_empty) = Some (rows', mol).
Proof.
  set (n := Z.to_nat 8192). set (b := x_job (repeat ([0%nat], (100, 1)) (Datatypes.S n), Some RuntimeError)).
  assert (A : analyses x_first [(0%nat, 0); (0%nat, 2)] [(0%nat, 12)]).
  { split; [discriminate|]. split; [reflexivity|]. split; [reflexivity|]. do 2 eexists. split; [reflexivity|]. split; [vm_compute; reflexivity|]. split; vm_compute; reflexivity. }
  assert (D := dynamics_done x_relaxations x_first _ _ x_empty A).
  destruct (long_rows n (Some RuntimeError)) as (s & H & R).
  destruct (C216_interrupted_partial x_relaxations b _ _ s RuntimeError (fst (StoreModel.step x_relaxations (CDynamics x_first) x_empty)) eq_refl eq_refl H) as (p & rest & k & E & L & L' & S).
  assert (Lr : Z.of_nat (length (all_rows s)) = 8193) by (rewrite R, repeat_length; unfold n; lia).
  rewrite E, app_length in Lr. destruct k as [|k]; [lia|].
  exists x_first, b, [(0%nat, 0); (0%nat, 2)], [(0%nat, 12)], p, RuntimeError. cbv zeta. cbn [run]. rewrite S.
  split; [exact A|]. split; [reflexivity|]. split; [lia|]. rewrite D. split; [reflexivity|]. split; reflexivity.
Qed.
Print Assumptions C216_crash_refuted.

(** The relaxations stay when the analysis is repeated, and belong to tables that are gone. *)
Theorem C216_stale_refuted : exists (a b : job Z (list Z) xframe Z Z Z) rows mol rows' mol',
  let st := run x_relaxations [CDynamics a; CRelaxations; CDynamics b] x_empty in
  analyses a rows mol /\ analyses b rows' mol' /\ rows <> rows' /\ mol <> mol' /\
  st_dyn st = Some rows' /\ st_mol st = Some mol' /\ st_rel st = Some (rows, mol).
Proof.
  exists x_first, (x_job ([([0%nat], (10, 1)); ([0%nat], (15, 1))], None)), [(0%nat, 0); (0%nat, 2)], [(0%nat, 12)], [(0%nat, 0); (0%nat, 5)], [(0%nat, 15)]. cbv zeta.
  split; [|split].
  1,2: split; [discriminate|]; split; [reflexivity|]; split; [reflexivity|]; do 2 eexists; split; [reflexivity|]; split; [vm_compute; reflexivity|]; split; vm_compute; reflexivity.
  split; [discriminate|]. split; [discriminate|]. split; [vm_compute; reflexivity|]. split; vm_compute; reflexivity.
Qed.
Print Assumptions C216_stale_refuted.

(** Commands that meet the hypotheses: the second analysis replaces what the first wrote, and
    the relaxations, computed once before and once after it, are the ones after it; an analysis
    that crashes early then changes nothing. *)
Example C216_example :
  let b := x_job (x_frames, None) in
  let c := x_job ([([0%nat], (10, 1)); ([0%nat], (15, 1))], Some RuntimeError) in
  jobs [CDynamics x_first; CRelaxations; CDynamics b] = [x_first] ++ [b] /\
  analyses b [(0%nat, 0); (0%nat, 10); (1%nat, 0); (1%nat, 20)] [(0%nat, 20); (1%nat, 40)] /\
  ~ In CRelaxations [CDynamics c] /\
  run x_relaxations ([CDynamics x_first; CRelaxations; CDynamics b] ++ CRelaxations :: [CDynamics c]) x_empty =
  {| st_dyn := Some [(0%nat, 0); (0%nat, 10); (1%nat, 0); (1%nat, 20)]; st_mol := Some [(0%nat, 20); (1%nat, 40)];
     st_rel := Some ([(0%nat, 0); (0%nat, 10); (1%nat, 0); (1%nat, 20)], [(0%nat, 20); (1%nat, 40)]) |}.
Proof.
  cbv zeta. split; [reflexivity|]. split.
  { split; [discriminate|]. split; [reflexivity|]. split; [reflexivity|]. do 2 eexists. split; [reflexivity|]. split; [vm_compute; reflexivity|]. split; vm_compute; reflexivity. }
  split; [intros [H|[]]; discriminate|]. vm_compute. reflexivity.
Qed.
