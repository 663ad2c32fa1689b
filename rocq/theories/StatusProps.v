(** Properties C153 to C155: structural relaxations, and who owns a status. *)
From Coq Require Import ZArith QArith List Bool Lia Arith.
From Verif Require Import Base XNum MolRelaxModel MolRelaxSpec MolRelaxProofs MolRelaxProps StatusModel StatusSpec.
Import ListNotations.
Open Scope nat_scope.

(** * C153, C154 *)
Lemma watch_rel h : forall s, sr_rel (watch s h) = observe (sr_rel s) h /\ sr_particles (watch s h) = sr_particles s.
Proof.
  induction h as [|c h IH]; intros s; [auto|]. unfold watch, observe in *. cbn [fold_left].
  assert (E : struct_add (fst c) (snd c) s = match mr_add (fst c) (snd c) (sr_rel s) with inl r => inl {| sr_particles := sr_particles s; sr_rel := r |} | inr e => inr e end) by reflexivity.
  destruct (mr_add (fst c) (snd c) (sr_rel s)) as [r|e]; rewrite E; [apply (IH {| sr_particles := sr_particles s; sr_rel := r |})|apply IH].
Qed.
Lemma sum_Q l : (inject_Z (fold_right Z.add 0%Z l) == fold_right (fun z q => inject_Z z + q) 0 l)%Q.
Proof. induction l as [|z l IH]; [reflexivity|]. cbn. rewrite inject_Z_plus, IH. reflexivity. Qed.
Lemma row_mean_spec row : row <> [] -> mean_of row (row_mean row).
Proof.
  intros NE. unfold mean_of, row_mean. rewrite <- sum_Q. field. destruct row; [congruence|]. unfold Qeq, inject_Z. cbn. lia.
Qed.
Lemma nth_error_firstn_lt {A} (l : list A) n p : p < n -> nth_error (firstn n l) p = nth_error l p.
Proof. revert n p. induction l as [|x l IH]; intros [|n] [|p] H; try lia; auto. cbn. apply IH. lia. Qed.
Lemma nth_error_skipn' {A} (l : list A) k p : nth_error (skipn k l) p = nth_error l (k + p).
Proof. revert k. induction l as [|x l IH]; intros [|k]; cbn; auto. destruct p; auto. Qed.

Lemma struct_rows N n thr h : 0 < n -> exists rows,
  struct_status (watch (struct_init N thr n) h) = inl (map row_mean rows) /\ length rows = N /\
  forall i row, nth_error rows i = Some row -> i < N /\ passages by_molecule N n thr h i row.
Proof.
  intros Hn. unfold struct_status. destruct (watch_rel h (struct_init N thr n)) as (-> & ->). cbn [struct_init sr_rel sr_particles].
  destruct (C31_first_passage (N * n) thr translation h) as (L & F). set (l := get_status _) in *.
  unfold reshape. rewrite L. replace (n =? 0) with false by (symmetry; apply Nat.eqb_neq; lia).
  rewrite Nat.mod_mul, Nat.div_mul by lia. cbn [Nat.eqb]. eexists. split; [reflexivity|].
  split; [rewrite map_length, seq_length; auto|]. intros i row E.
  assert (Hi : i < N) by (assert (X : i < length (map (fun i => firstn n (skipn (i * n) l)) (seq 0 N))) by (apply nth_error_Some; congruence); rewrite map_length, seq_length in X; auto).
  split; auto. rewrite (map_nth_error _ i (seq 0 N) (d := i)) in E.
  2:{ rewrite (nth_error_nth' _ 0) by (rewrite seq_length; auto). f_equal. apply seq_nth. auto. }
  injection E as <-. split.
  - rewrite firstn_length, skipn_length, L. nia.
  - intros p v E. assert (Hp : p < n).
    { assert (X : p < length (firstn n (skipn (i * n) l))) by (apply nth_error_Some; congruence). rewrite firstn_length in X. lia. }
    rewrite nth_error_firstn_lt, nth_error_skipn' in E by auto.
    destruct (F (i * n + p)) as (w & Ew & Er); [nia|]. unfold by_molecule. congruence.
Qed.

(** Fed with the distances of the particles of one molecule after another, the status of a
    molecule is the mean of the passage times of its particles. *)
Theorem C153_by_molecule_partial : forall N n thr h, 0 < n ->
  exists status, struct_status (watch (struct_init N thr n) h) = inl status /\ length status = N /\
  forall i m, nth_error status i = Some m -> exists vs, passages by_molecule N n thr h i vs /\ mean_of vs m.
Proof.
  intros N n thr h Hn. destruct (struct_rows N n thr h Hn) as (rows & -> & L & H). eexists. split; [reflexivity|].
  split; [rewrite map_length; auto|]. intros i m E. destruct (nth_error rows i) as [row|] eqn:Er.
  - rewrite (map_nth_error _ _ _ Er) in E. injection E as <-. destruct (H i row Er) as (_ & P). exists row. split; auto.
    apply row_mean_spec. destruct P as (Lr & _). destruct row; [cbn in Lr; lia|discriminate].
  - apply nth_error_None in Er. assert (X : i < length (map row_mean rows)) by (apply nth_error_Some; congruence). rewrite map_length in X. lia.
Qed.
Print Assumptions C153_by_molecule_partial.

(** The particles of molecule 0 pass at step 10, those of molecule 1 at step 20. *)
Definition two : xnum := Fin 2.
Definition zero : xnum := Fin 0.
Definition s_one : xnum := Fin 1.
Definition mixed : history := [(0%Z, [zero; zero; zero; zero]); (10%Z, [two; zero; two; zero]); (20%Z, [two; two; two; two])].
Example C153_example : struct_status (watch (struct_init 2 s_one 2)
    [(0%Z, [zero; zero; zero; zero]); (10%Z, [two; two; zero; zero]); (20%Z, [two; two; two; two])]) = inl [20 # 2; 40 # 2].
Proof. vm_compute. reflexivity. Qed.

(** In the order of the particles in a frame and in orientation2positions, the molecules are
    mixed. *)
Theorem C153_by_particle_refuted : exists N n thr h status, 0 < n /\
  (forall c, In c h -> length (snd c) = N * n) /\
  struct_status (watch (struct_init N thr n) h) = inl status /\
  forall i, i < N -> exists m vs, nth_error status i = Some m /\ passages by_particle N n thr h i vs /\ ~ mean_of vs m.
Proof.
  exists 2, 2, s_one, mixed. eexists. split; [lia|]. split; [|split; [vm_compute; reflexivity|]].
  - intros c [<-|[<-|[<-|[]]]]; reflexivity.
  - intros i Hi.
    assert (P : forall t, (i = 0 /\ t = 10%Z) \/ (i = 1 /\ t = 20%Z) -> passages by_particle 2 2 s_one mixed i [t; t]).
    { intros t Ht. split; auto. intros p v E.
      assert (v = t /\ (p = 0 \/ p = 1)) as (-> & Hp) by (destruct p as [|[|p]]; cbn in E; [injection E as <-; auto|injection E as <-; auto|destruct p; discriminate]).
      destruct Ht as [(-> & ->)|(-> & ->)], Hp as [-> | ->]; (split; [right; exists two; split; [cbn; auto|reflexivity]|split; [lia|]]);
        intros t d I X; cbn in I; destruct I as [[= <- <-]|[[= <- <-]|[[= <- <-]|[]]]]; try lia; discriminate. }
    destruct i as [|[|i]]; [| |lia].
    + exists (30 # 2), [10%Z; 10%Z]. split; auto. split; [apply P; auto|]. intros M. vm_compute in M. discriminate.
    + exists (30 # 2), [20%Z; 20%Z]. split; auto. split; [apply P; auto|]. intros M. vm_compute in M. discriminate.
Qed.
Print Assumptions C153_by_particle_refuted.

Lemma sum_max l : (forall v, In v l -> v <= 2 ^ 32 - 1)%Z ->
  (fold_right Z.add 0 l <= Z.of_nat (length l) * (2 ^ 32 - 1))%Z /\
  (fold_right Z.add 0 l = Z.of_nat (length l) * (2 ^ 32 - 1) <-> forall v, In v l -> v = 2 ^ 32 - 1)%Z.
Proof.
  induction l as [|x l IH]; intros H; [cbn; split; [lia|split; [intros _ v []|auto]]|].
  destruct IH as (A & B); [intros; apply H; right; auto|]. assert (Hx := H x (or_introl eq_refl)).
  cbn [fold_right length]. rewrite Nat2Z.inj_succ. split; [lia|]. split.
  - intros E v [<-|I]; [lia|]. apply B; auto. lia.
  - intros E. rewrite (E x (or_introl eq_refl)) in *. assert (E' := proj2 B (fun v I => E v (or_intror I))). lia.
Qed.
(** What holds: the mark for a missing relaxation is the status of exactly those molecules
    none of whose particles passed. *)
Theorem C154_none_partial : forall N n thr h, 0 < n ->
  exists status, struct_status (watch (struct_init N thr n) h) = inl status /\
  forall i m, nth_error status i = Some m -> exists vs, passages by_molecule N n thr h i vs /\
    (m <= 4294967295)%Q /\ ((m == 4294967295)%Q <-> forall v, In v vs -> v = (2 ^ 32 - 1)%Z).
Proof.
  intros N n thr h Hn. destruct (struct_rows N n thr h Hn) as (rows & -> & L & H). eexists. split; [reflexivity|].
  intros i m E. destruct (nth_error rows i) as [row|] eqn:Er.
  2:{ apply nth_error_None in Er. assert (X : i < length (map row_mean rows)) by (apply nth_error_Some; congruence). rewrite map_length in X. lia. }
  rewrite (map_nth_error _ _ _ Er) in E. injection E as <-. destruct (H i row Er) as (_ & P). exists row. split; auto.
  destruct P as (Lr & P). destruct (sum_max row) as (A & B).
  { intros v I. apply In_nth_error in I. destruct I as (p & Ep). apply (P p v Ep). }
  assert (Hl : (0 < Z.of_nat (length row))%Z) by lia.
  unfold row_mean. set (S := fold_right Z.add 0%Z row) in *. set (k := Z.of_nat (length row)) in *.
  assert (Pk : (0 < inject_Z k)%Q) by (unfold Qlt, inject_Z; cbn; lia).
  assert (Nk : ~ (inject_Z k == 0)%Q) by (unfold Qeq, inject_Z; cbn; lia).
  split.
  - apply Qle_shift_div_r; auto. unfold Qle, inject_Z, Qmult. cbn [Qnum Qden Pos.mul]. lia.
  - rewrite <- B. split; intros E.
    + assert (X : (inject_Z S == 4294967295 * inject_Z k)%Q) by (rewrite <- E; field; auto). unfold Qeq, inject_Z, Qmult in X. cbn [Qnum Qden Pos.mul] in X. lia.
    + rewrite E. rewrite inject_Z_mult. change (inject_Z (2 ^ 32 - 1)) with 4294967295%Q. field. auto.
Qed.
Print Assumptions C154_none_partial.
(** One of the two particles of a molecule never passes. *)
Theorem C154_unrelaxed_refuted : exists N n thr h m, struct_status (watch (struct_init N thr n) h) = inl [m] /\
  (exists v, passages by_molecule N n thr h 0 [v; (2 ^ 32 - 1)%Z]) /\ ~ (m == 4294967295)%Q /\
  forall t d, In (t, d) h -> (inject_Z t < m)%Q.
Proof.
  exists 1, 2, s_one, [(0%Z, [zero; zero]); (10%Z, [two; zero])]. eexists. split; [vm_compute; reflexivity|]. split; [|split].
  - exists 10%Z. split; auto. intros [|[|p]] v E; cbn in E; [injection E as <-|injection E as <-|destruct p; discriminate].
    + split; [right; exists two; split; [cbn; auto|reflexivity]|split; [lia|]].
      intros t d I X; cbn in I; destruct I as [[= <- <-]|[[= <- <-]|[]]]; try lia; discriminate.
    + split; [left; auto|split; [lia|]]. intros t d I X; cbn in I; destruct I as [[= <- <-]|[[= <- <-]|[]]]; discriminate.
  - intros E. vm_compute in E. discriminate.
  - intros t d [[= <- <-]|[[= <- <-]|[]]]; vm_compute; reflexivity.
Qed.
Print Assumptions C154_unrelaxed_refuted.
Example C154_example : struct_status (watch (struct_init 1 s_one 2) [(10%Z, [zero; zero])]) = inl [8589934590 # 2]
  /\ (8589934590 # 2 == 4294967295)%Q.
Proof. split; vm_compute; reflexivity. Qed.

(** * C155 *)
Lemma load_store_same h a v : a < length h -> load (store h a v) a = v.
Proof. intros H. unfold load, store. rewrite app_nth2; rewrite firstn_length_le by lia; [|lia]. rewrite Nat.sub_diag. reflexivity. Qed.
Lemma load_store_other h a b v : a < length h -> a <> b -> load (store h a v) b = load h b.
Proof.
  unfold load, store. revert a b. induction h as [|x h IH]; intros a b H N; [cbn in H; lia|].
  destruct a as [|a], b as [|b]; cbn; auto; [lia|]. apply IH; cbn in H; lia.
Qed.
Lemma store_length h a v : a < length h -> length (store h a v) = length h.
Proof. intros H. unfold store. rewrite app_length, firstn_length_le by lia. cbn [length]. rewrite skipn_length. lia. Qed.
Lemma load_app h l a : a < length h -> load (h ++ l) a = load h a.
Proof. intros H. unfold load. apply app_nth1. auto. Qed.

Definition step (r : molrel) (c : Z * list xnum) : molrel := match mr_add (fst c) (snd c) r with inl r' => r' | inr _ => r end.
Lemma mr_add_fixed t d r r' : mr_add t d r = inl r' -> mr_threshold r' = mr_threshold r /\ mr_type r' = mr_type r /\ (mr_last r' = None <-> mr_last r = None).
Proof.
  unfold mr_add. destruct (negb _); [discriminate|]. destruct (mr_last r) as [[st irr]|].
  - destruct (last_update _ _ _ _ _ _). intros [= <-]. cbn. split; auto. split; auto. split; discriminate.
  - intros [= <-]. cbn. tauto.
Qed.
(** One call: the object goes on as the values do, other arrays keep their contents. *)
Lemma call_step h o c : ob_status o < length h -> let (h', o') := do_call (h, o) c in
  ob_status o' = ob_status o /\ length h <= length h' /\ (ob_last o' = None <-> ob_last o = None) /\
  contents h' o' = fold_left step (adds [c]) (contents h o) /\
  forall a, a < length h -> a <> ob_status o -> load h' a = load h a.
Proof.
  intros Hl. destruct c as [t d|]; cbn [do_call adds fold_left].
  - unfold obj_add, step. cbn [fst snd]. destruct (mr_add t d (contents h o)) as [r|e] eqn:E.
    + destruct (mr_add_fixed _ _ _ _ E) as (F1 & F2 & F3). cbn [ob_status ob_last]. split; auto. split; [rewrite store_length; auto|]. split; [exact F3|]. split.
      * unfold contents. cbn [ob_threshold ob_status ob_type ob_last]. rewrite load_store_same by auto. destruct r. cbn in *. subst. reflexivity.
      * intros a La Na. apply load_store_other; auto.
    + split; auto. split; auto. split; [tauto|]. split; auto.
  - unfold obj_get. destruct (ob_last o) as [x|] eqn:El; cbn [fst].
    + split; auto. rewrite app_length. cbn [length]. split; [lia|]. split; [rewrite El; tauto|]. split.
      * unfold contents. rewrite load_app by auto. reflexivity.
      * intros a La Na. apply load_app. auto.
    + split; auto. split; auto. split; [rewrite El; tauto|]. split; auto.
Qed.
Lemma adds_app a b : adds (a ++ b) = adds a ++ adds b.
Proof. induction a as [|[t d|] a IH]; cbn; auto. rewrite IH. auto. Qed.
Lemma calls_step cs : forall h o h' o', ob_status o < length h -> do_calls cs (h, o) = (h', o') ->
  ob_status o' = ob_status o /\ length h <= length h' /\ (ob_last o' = None <-> ob_last o = None) /\
  contents h' o' = observe (contents h o) (adds cs) /\
  forall a, a < length h -> a <> ob_status o -> load h' a = load h a.
Proof.
  induction cs as [|c cs IH]; intros h o h' o' Hl; unfold do_calls; cbn [fold_left].
  - intros [= <- <-]. split; auto. split; auto. split; [tauto|]. split; auto.
  - assert (S := call_step h o c Hl). destruct (do_call (h, o) c) as [h1 o1]. destruct S as (A & B & C & D & E). intros Eq.
    destruct (IH h1 o1 h' o' ltac:(lia) Eq) as (A' & B' & C' & D' & E'). split; [congruence|]. split; [lia|]. split; [tauto|]. split.
    + rewrite D', D. change (c :: cs) with ([c] ++ cs). rewrite adds_app. unfold observe. rewrite fold_left_app. reflexivity.
    + intros a La Na. rewrite E' by (try lia; congruence). auto.
Qed.
Lemma new_contents h r : let (h', o) := new h r in contents h' o = r /\ ob_status o < length h' /\ ob_last o = mr_last r.
Proof.
  unfold new, contents. cbn. rewrite app_length. cbn. split; [|split; [lia|auto]]. unfold load. rewrite nth_middle. destruct r; auto.
Qed.

(** A status of a last passage is what had been observed when it was asked for, whatever is
    called later; and what the caller writes into it does not reach the object. *)
Theorem C155_last_partial : forall h0 n thr cut ty before after v,
  let (ho, a) := obj_get (do_calls before (new h0 (last_init n thr cut ty))) in
  load (fst (do_calls after ho)) a = get_status (observe (last_init n thr cut ty) (adds before)) /\
  let (h', o') := do_calls after (store (fst ho) a v, snd ho) in
  contents h' o' = observe (last_init n thr cut ty) (adds (before ++ after)).
Proof.
  intros h0 n thr cut ty before after v. set (r := last_init n thr cut ty).
  assert (Nw := new_contents h0 r). destruct (new h0 r) as [h o]. destruct Nw as (Ec & Hl & La).
  destruct (do_calls before (h, o)) as [h1 o1] eqn:E1. destruct (calls_step before h o h1 o1 Hl E1) as (A & B & C & D & _).
  assert (Ls : exists x, ob_last o1 = Some x).
  { destruct (ob_last o1) as [x|]; [eauto|]. exfalso. assert (X : ob_last o = None) by tauto. rewrite La in X. discriminate. }
  destruct Ls as (x & Ls). unfold obj_get. rewrite Ls. set (h2 := h1 ++ [get_status (contents h1 o1)]).
  assert (L2 : length h2 = S (length h1)) by (unfold h2; rewrite app_length; cbn; lia).
  assert (Old : contents h2 o1 = contents h1 o1) by (unfold contents, h2; rewrite load_app by lia; reflexivity).
  split.
  - destruct (do_calls after (h2, o1)) as [h3 o3] eqn:E3. destruct (calls_step after h2 o1 h3 o3 ltac:(lia) E3) as (_ & _ & _ & _ & K).
    cbn [fst]. rewrite K by lia. unfold h2. unfold load. rewrite nth_middle. rewrite D, Ec. reflexivity.
  - cbn [fst snd]. assert (Ls2 : length (store h2 (length h1) v) = length h2) by (apply store_length; lia).
    destruct (do_calls after (store h2 (length h1) v, o1)) as [h3 o3] eqn:E3.
    destruct (calls_step after (store h2 (length h1) v) o1 h3 o3 ltac:(lia) E3) as (_ & _ & _ & E & _). rewrite E. rewrite adds_app. unfold observe in *. rewrite fold_left_app.
    f_equal. rewrite <- Ec, <- D, <- Old. unfold contents. rewrite load_store_other by lia. reflexivity.
Qed.
Print Assumptions C155_last_partial.
(** A status of a first passage is always the present one. *)
Theorem C155_live_partial : forall h0 n thr ty before after,
  let (ho, a) := obj_get (do_calls before (new h0 (first_init n thr ty))) in
  load (fst (do_calls after ho)) a = get_status (observe (first_init n thr ty) (adds (before ++ after))).
Proof.
  intros h0 n thr ty before after. set (r := first_init n thr ty).
  assert (Nw := new_contents h0 r). destruct (new h0 r) as [h o]. destruct Nw as (Ec & Hl & La).
  destruct (do_calls before (h, o)) as [h1 o1] eqn:E1. destruct (calls_step before h o h1 o1 Hl E1) as (A & B & C & D & _).
  assert (Ls : ob_last o1 = None) by (apply C; rewrite La; reflexivity). unfold obj_get. rewrite Ls.
  destruct (do_calls after (h1, o1)) as [h3 o3] eqn:E3. destruct (calls_step after h1 o1 h3 o3 ltac:(lia) E3) as (A' & _ & C' & E & _).
  cbn [fst]. assert (L3 : ob_last o3 = None) by (apply C'; auto).
  rewrite adds_app. unfold observe in *. rewrite fold_left_app. rewrite <- Ec, <- D, <- E. unfold get_status, contents. cbn [mr_last mr_status]. rewrite L3, A'. reflexivity.
Qed.
Print Assumptions C155_live_partial.
(** So an earlier result changes when a frame is added, and writing into it changes the
    object. *)
Theorem C155_snapshot_refuted : exists n thr ty before after,
  let (ho, a) := obj_get (do_calls before (new [] (first_init n thr ty))) in
  load (fst (do_calls after ho)) a <> load (fst ho) a /\
  exists v, get_status (contents (store (fst ho) a v) (snd ho)) <> get_status (contents (fst ho) (snd ho)).
Proof.
  exists 2, s_one, translation, [Add 10 [two; zero]], [Add 20 [two; two]]. vm_compute. split; [discriminate|]. exists []. discriminate.
Qed.
Print Assumptions C155_snapshot_refuted.
Example C155_example :
  let (ho, a) := obj_get (do_calls [Add 10 [Fin 4; zero]] (new [] (last_init 2 s_one two translation))) in
  load (fst (do_calls [Add 20 [Fin 4; Fin 4]; Get] ho)) a = [10; 4294967295]%Z.
Proof. vm_compute. reflexivity. Qed.
