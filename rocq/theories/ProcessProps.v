(** Properties C26-C30 and C96: process_file. *)
From Coq Require Import String ZArith QArith List Bool Lia Arith.
From Verif Require Import Base DictFacts XNum WriteCacheModel WriteCacheSpec WriteCacheProofs WriteCacheProps
  MolRelaxModel MolRelaxSpec MolRelaxProofs MolRelaxDefs ProcessModel ProcessSpec ProcessProofs.
Import ListNotations.
Open Scope Z_scope.

Section Any.
  Context {D R F Row Out Sum : Type}.
  Variable npos : F -> nat.
  Variable mk : F -> (D * R) + exn.
  Variable custom : option (R -> R * option exn).
  Variable compute : D -> F -> D * (Row + exn).
  Variable radd : R -> F -> R * option exn.
  Variable label : nat -> Row -> Out + exn.
  Variable summary : R -> Sum.
  Notation frames := (frames npos mk custom compute radd label).
  Notation process_file := (process_file npos mk custom compute radd label summary).
  Notation pure := (pure mk custom compute radd label).

  Lemma run_rows l fin d rows e : pure (vlist npos l) [] = (d, rows, e) ->
    exists s, frames l fin (start_state true) = (s, match e with Some e => Some e | None => fin end) /\
      ps_keys s = d /\ all_rows s = rows.
  Proof.
    intros Hp. rewrite frames_flat.
    destruct (flat_named mk custom compute radd label (vlist npos l) (start_state true) d rows e eq_refl eq_refl Hp)
      as (w & t & Hc & _ & _ & Hf).
    rewrite Hf. eexists. split; [destruct e; reflexivity|]. split; auto.
    unfold all_rows. simpl. change (client (adds rows) (wc_new true true 1 false) None = (w, t, rows)) in Hc.
    assert (H := C22_new_table _ 1 (adds rows)). rewrite Hc in H. exact H.
  Qed.

  (** ** C26 *)
  Theorem C26_keyframes_independent l fin s : frames l fin (start_state true) = (s, None) ->
    forall k, exists sk, frames (restrict k l) fin (start_state true) = (sk, None) /\
      all_rows sk = key_rows k (all_rows s) /\
      dget Nat.eqb k (ps_keys sk) = dget Nat.eqb k (ps_keys s).
  Proof.
    intros H k. destruct (pure (vlist npos l) []) as [[d rows] e] eqn:Ep.
    destruct (run_rows l fin d rows e Ep) as (s' & E & K & A). rewrite H in E. injection E as -> He.
    destruct e as [e|]; [discriminate|].
    destruct (pure_key mk custom compute radd label k (vlist npos l) [] [] eq_refl _ _ Ep) as (d1 & P1 & P2).
    rewrite <- vlist_restrict in P1.
    destruct (run_rows (restrict k l) fin _ _ _ P1) as (sk & E1 & K1 & A1).
    exists sk. rewrite E1. rewrite <- He. split; auto. split; [congruence|congruence].
  Qed.

  (** ** C27 *)
  Theorem C27_times_from_first_frame (start : D -> Z) (ts : F -> Z) (time : Out -> Z) :
    (forall f d r, mk f = inl (d, r) -> start d = ts f) ->
    (forall d f, start (fst (compute d f)) = start d) ->
    (forall d f row k o, snd (compute d f) = inl row -> label k row = inl o -> time o = ts f - start d) ->
    forall l fin s e k f0 rest, frames l fin (start_state true) = (s, e) ->
    frames_of npos k l = f0 :: rest ->
    exists fs, subseq fs (f0 :: rest) /\
      map (fun p => time (snd p)) (key_rows k (all_rows s)) = map (fun f => ts f - ts f0) fs.
  Proof.
    intros H1 H2 H3 l fin s e k f0 rest Hr Hk.
    destruct (pure (vlist npos l) []) as [[d rows] e'] eqn:Ep.
    destruct (run_rows l fin d rows e' Ep) as (s' & E & K & A). rewrite Hr in E. injection E as -> _.
    assert (T := pure_times mk custom compute radd label start ts time H1 H2 H3 k (vlist npos l) [] (ts f0)).
    rewrite Ep, kframes_of, Hk in T. rewrite A. apply T; simpl; [discriminate|auto].
  Qed.

  (** ** C28 *)
  Theorem C28_empty_frames_ignored l fin s :
    frames l fin s = frames (filter (fun p => negb (npos (snd p) =? 0)%nat) l) fin s.
  Proof. rewrite !frames_flat, vlist_filter. reflexivity. Qed.

  Theorem C28_failures_do_not_abort l :
    (forall f e, mk f <> inr e) ->
    (forall g r, custom = Some g -> snd (g r) = None) ->
    (forall d f e, snd (compute d f) = inr e -> e = ValueError \/ e = RuntimeError) ->
    (forall r f e, snd (radd r f) = Some e -> e = ValueError \/ e = RuntimeError) ->
    (forall k row e, label k row <> inr e) ->
    snd (frames l None (start_state true)) = None.
  Proof.
    intros H1 H2 H3' H4' H5.
    assert (H3 : forall d f e, snd (compute d f) = inr e -> skipped e = true).
    { intros d f e H. destruct (H3' d f e H) as [-> | ->]; reflexivity. }
    assert (H4 : forall r f e, snd (radd r f) = Some e -> skipped e = true).
    { intros r f e H. destruct (H4' r f e H) as [-> | ->]; reflexivity. }
    destruct (pure (vlist npos l) []) as [[d rows] e] eqn:Ep.
    assert (N := pure_never mk custom compute radd label (vlist npos l) H1 H2 H3 H4 H5 []).
    rewrite Ep in N. simpl in N. subst e.
    destruct (run_rows l None _ _ _ Ep) as (s & -> & _). reflexivity.
  Qed.

  (** One more frame [f] for key frame [k], on which the computation fails. *)
  Theorem C28_failing_frame l k f s e new :
    frames l None (start_state true) = (s, None) ->
    npos f <> 0%nat -> mk f = inl new -> custom = None ->
    (let x := match dget Nat.eqb k (ps_keys s) with Some x => x | None => new end in
     snd (compute (fst x) f) = inr e \/
     (exists row, snd (compute (fst x) f) = inl row) /\ snd (radd (snd x) f) = Some e) ->
    exists s' res, frames (l ++ [([k], f)]) None (start_state true) = (s', res) /\
      (e = ValueError \/ e = RuntimeError -> res = None) /\
      (e <> ValueError -> e <> RuntimeError -> res = Some e) /\
      all_rows s' = all_rows s /\
      forall k', k' <> k -> dget Nat.eqb k' (ps_keys s') = dget Nat.eqb k' (ps_keys s).
  Proof.
    intros Hr Hn Hm Hc Hf.
    destruct (pure (vlist npos l) []) as [[d rows] e0] eqn:Ep.
    destruct (run_rows l None d rows e0 Ep) as (s1 & E & K & A). rewrite Hr in E. injection E as -> He.
    destruct e0; [discriminate|]. clear He.
    assert (Hv : vlist npos (l ++ [([k], f)]) = vlist npos l ++ [(k, f)]).
    { unfold vlist. rewrite flat_map_app. simpl. apply Nat.eqb_neq in Hn. rewrite Hn. reflexivity. }
    assert (Hs : exists x, solo mk custom compute radd label k f (dget Nat.eqb k d) =
                           (Some x, None, if skipped e then None else Some e)).
    { subst d. unfold solo. rewrite Hm, Hc. cbv zeta in Hf.
      destruct (match dget Nat.eqb k (ps_keys s1) with Some x => x | None => new end) as [d0 r0].
      simpl in Hf. destruct (compute d0 f) as [d1 [row|ec]]; simpl in Hf.
      - destruct Hf as [Hf|[_ Hf]]; [discriminate|]. destruct (radd r0 f) as [r1 er]. simpl in Hf.
        subst er. eauto.
      - destruct Hf as [Hf|[[row Hf] _]]; [|discriminate]. injection Hf as ->. eauto. }
    destruct Hs as (x & Hs).
    assert (Ep2 : pure (vlist npos (l ++ [([k], f)])) [] =
                  (dset Nat.eqb k x d, rows, if skipped e then None else Some e)).
    { rewrite Hv, pure_app, Ep. simpl. rewrite Hs. simpl.
      destruct (skipped e); rewrite app_nil_r; reflexivity. }
    destruct (run_rows _ None _ _ _ Ep2) as (s2 & E2 & K2 & A2). exists s2. eexists. rewrite E2.
    split; [reflexivity|]. split; [intros [-> | ->]; reflexivity|].
    split; [intros N1 N2; destruct e; simpl; congruence|]. split; [congruence|].
    intros k' Hk'. rewrite K2, K. apply dget_dset_other; auto. apply Nat.eqb_eq.
  Qed.

  (** After an abort nothing more is processed. *)
  Theorem C28_aborts l l' fin s s' e : frames l None s = (s', Some e) -> frames (l ++ l') fin s = (s', Some e).
  Proof.
    rewrite !frames_flat. unfold vlist. rewrite flat_map_app, flat_app. fold (vlist npos l). fold (vlist npos l').
    destruct (flat mk custom compute radd label (vlist npos l) s) as [s1 [e1|]].
    - intros [= -> ->]. reflexivity.
    - discriminate.
  Qed.

  (** ** C30 *)
  Lemma file_or_memory l t0 r0 d rows floats :
    pure (vlist npos l) [] = (d, rows, None) ->
    let mem := process_file false None floats (Some (l, None)) t0 r0 in
    let file := process_file true None floats (Some (l, None)) t0 r0 in
    (** on disk: all rows; the old table stays if there are none *)
    out_table file = (match rows with [] => t0 | _ => Some rows end) /\
    out_table mem = t0 /\
    (** in memory *)
    out_result mem = (if 8192 <? Z.of_nat (Datatypes.length rows) then inr AssertionError
                      else match rows with [] => inr AssertionError | _ => inl (Some rows) end).
  Proof.
    intros Hp mem file.
    assert (Hc := C22_no_loss _ 1 (adds rows) t0).
    set (s0 := fun b => {| ps_keys := []; ps_cache := wc_new b true 1 false; ps_table := t0 |} : pstate D R Out).
    split; [|].
    - destruct (flat_named mk custom compute radd label (vlist npos l) (s0 true) d rows None eq_refl eq_refl Hp)
        as (w & t & H1 & H2 & H3 & H4).
      unfold file, ProcessModel.process_file. cbv zeta. fold (s0 true).
      rewrite frames_flat, H4. cbn [ps_cache ps_table ps_keys].
      assert (Hfl : exists w', flush None w t = inl (w', to_hdf (wc_append w) (wc_cache w) t)).
      { unfold flush. rewrite H2, H3. simpl. eauto. }
      destruct Hfl as (w' & Hfl). rewrite Hfl.
      assert (Ht : to_hdf (wc_append w) (wc_cache w) t = match rows with [] => t0 | _ => Some rows end).
      { change (client (adds rows) (wc_new true true 1 false) t0 = (w, t, rows)) in H1.
        clear - H1 Hfl Hc.
        assert (Hc2 := C22_no_loss _ 1 (adds rows ++ [Flush None]) t0).
        assert (Happ : forall (ops : list (op (nat * Out))) w t w1 t1 a,
          client ops w t = (w1, t1, a) -> flush None w1 t1 = inl (w', to_hdf (wc_append w1) (wc_cache w1) t1) ->
          client (ops ++ [Flush None]) w t = (w', to_hdf (wc_append w1) (wc_cache w1) t1, a)).
        { clear. induction ops as [|o ops IH]; intros w t w1 t1 a; simpl.
          - intros [= <- <- <-] ->. reflexivity.
          - destruct (step o w t) as [[w2 t2]|e].
            + destruct (client ops w2 t2) as [[w3 t3] a3] eqn:E. intros [= <- <- <-] H.
              rewrite (IH _ _ _ _ _ E H). reflexivity.
            + apply IH. }
        rewrite (Happ _ _ _ _ _ _ H1 Hfl) in Hc2.
        destruct Hc2 as (p & P1 & P2 & _ & P3).
        assert (Hw' : wc_cache w' = []) by (apply flush_inl in Hfl; destruct Hfl as (_ & _ & _ & -> & _); reflexivity).
        rewrite Hw', app_nil_r in P1. subst p. destruct rows as [|x rows].
        - apply P2. reflexivity.
        - apply P3; [discriminate|left; exact I]. }
      rewrite Ht. destruct d; [reflexivity|]. destruct floats; reflexivity.
    - assert (G : forall rows, client (adds rows) (@wc_new (nat * Out) false true 1 false) t0 =
                  client (map (fun x => Add x None) rows) (wc_new false true 1 false) t0) by reflexivity.
      assert (L := C25_list_partial _ true 1 rows t0).
      destruct (client (map (fun x => Add x None) rows) (wc_new false true 1 false) t0) as [[w t] acc] eqn:Ec.
      destruct L as (-> & L1 & L2 & _). cbn [Z.ltb Z.compare] in L2.
      unfold mem, ProcessModel.process_file. cbv zeta. fold (s0 false). rewrite frames_flat.
      destruct (Z.ltb_spec 8192 (Z.of_nat (Datatypes.length rows))) as [Hl|Hl].
      + assert (O := flat_overflow mk custom compute radd label (vlist npos l) (s0 false) d rows None
                       eq_refl eq_refl ltac:(simpl; lia) Hp ltac:(simpl; lia)).
        assert (T : ps_table (fst (flat mk custom compute radd label (vlist npos l) (s0 false))) = t0).
        { clear. assert (H : forall l s, wc_named (ps_cache s) = false ->
            ps_table (fst (flat mk custom compute radd label l s)) = ps_table s).
          { induction l0 as [|[k f] l0 IH]; intros s Hs; simpl; auto. rewrite visit_solo.
            destruct (solo mk custom compute radd label k f (dget Nat.eqb k (ps_keys s))) as [[x o] [e|]]; auto.
            destruct o as [o|]; [|cbv iota beta zeta; rewrite IH; auto].
            destruct (append (k, o) None (ps_cache s) (ps_table s)) as [[w t]|e] eqn:Ea; auto.
            apply append_inl in Ea. destruct Ea as [(-> & -> & _)|(_ & _ & Hn & _)]; [|congruence].
            cbv iota beta zeta; rewrite IH; auto. }
          rewrite H; reflexivity. }
        destruct (flat mk custom compute radd label (vlist npos l) (s0 false)) as [s1 e1]. simpl in O, T. subst e1.
        split; [exact T|reflexivity].
      + assert (acc = rows).
        { rewrite L2. apply firstn_all2. lia. }
        rewrite H in Ec, L1.
        assert (Fl := flat_pure mk custom compute radd label (vlist npos l) (s0 false) d rows None w t0 Hp Ec).
        rewrite Fl. cbn [ps_cache ps_table ps_keys]. unfold to_dataframe. rewrite L1.
        destruct rows; split; reflexivity.
  Qed.

  (** [rows] are the rows of the run, whatever the storage. *)
  Theorem C30_file_or_memory l t0 r0 floats s :
    frames l None (start_state true) = (s, None) ->
    let rows := all_rows s in
    let mem := process_file false None floats (Some (l, None)) t0 r0 in
    let file := process_file true None floats (Some (l, None)) t0 r0 in
    out_table file = (match rows with [] => t0 | _ => Some rows end) /\
    out_table mem = t0 /\
    out_result mem = (if 8192 <? Z.of_nat (Datatypes.length rows) then inr AssertionError
                      else match rows with [] => inr AssertionError | _ => inl (Some rows) end).
  Proof.
    intros H. destruct (pure (vlist npos l) []) as [[d rows] e] eqn:Ep.
    destruct (run_rows l None _ _ _ Ep) as (s' & E & K & A). rewrite H in E. injection E as <- He.
    destruct e; [discriminate|]. rewrite A. exact (file_or_memory l t0 r0 d rows floats Ep).
  Qed.

  (** With outfile it returns None, unless there was no key frame at all or the
      temperature is not a number. *)
  Theorem C30_file_result l t0 r0 floats s :
    frames l None (start_state true) = (s, None) ->
    let file := process_file true None floats (Some (l, None)) t0 r0 in
    out_result file = (match ps_keys s, floats with
                       | [], _ => inr ValueError
                       | _, Some e => inr e
                       | _, None => inl None
                       end) /\
    (out_result file = inl None -> out_relax file =
       Some (map (fun p => (fst p, summary (snd (snd p)))) (ps_keys s))).
  Proof.
    intros H. destruct (pure (vlist npos l) []) as [[d rows] e] eqn:Ep.
    destruct (run_rows l None _ _ _ Ep) as (s' & E & K & A). rewrite H in E. injection E as <- He.
    destruct e; [discriminate|]. rewrite K.
    set (s0 := {| ps_keys := []; ps_cache := wc_new true true 1 false; ps_table := t0 |} : pstate D R Out).
    destruct (flat_named mk custom compute radd label (vlist npos l) s0 d rows None eq_refl eq_refl Ep)
      as (w & t & H1 & H2 & H3 & H4).
    unfold ProcessModel.process_file. cbv zeta. fold s0. rewrite frames_flat, H4.
    cbn [ps_cache ps_table ps_keys]. unfold flush. rewrite H2, H3. simpl.
    destruct d; [split; [reflexivity|discriminate]|]. destruct floats; split; auto; discriminate.
  Qed.

  (** An unknown suffix leaves file_iterator unassigned. *)
  Lemma other_suffix outfile floats t0 r0 :
    out_result (process_file outfile None floats None t0 r0) = inr UnboundLocalError.
  Proof. reflexivity. Qed.

  (** ** what the relaxations of a key frame have seen *)
  Lemma last_visit l fin s k fs f : frames l fin (start_state true) = (s, None) ->
    frames_of npos k l = fs ++ [f] ->
    exists x x' o, solo mk custom compute radd label k f x = (Some x', o, None) /\
      dget Nat.eqb k (ps_keys s) = Some x' /\
      (fs = [] -> x = None).
  Proof.
    intros H Hk. destruct (C26_keyframes_independent l fin s H k) as (sk & E1 & _ & E3).
    destruct (pure (vlist npos (restrict k l)) []) as [[d rows] e] eqn:Ep.
    destruct (run_rows _ fin _ _ _ Ep) as (s' & E & K & A). rewrite E1 in E. injection E as <- He.
    destruct e; [discriminate|]. rewrite vlist_restrict in Ep.
    assert (Hl : filter (fun p => Nat.eqb k (fst p)) (vlist npos l) = map (fun f => (k, f)) (fs ++ [f])).
    { rewrite <- Hk, <- kframes_of. unfold kframes. clear.
      induction (vlist npos l) as [|[a g] v IH]; simpl; auto. destruct (Nat.eqb_spec k a); simpl; congruence. }
    rewrite Hl, map_app, pure_app in Ep. simpl in Ep.
    destruct (pure (map (fun f => (k, f)) fs) []) as [[d1 r1] [e1|]] eqn:E1'; [discriminate|].
    destruct (solo mk custom compute radd label k f (dget Nat.eqb k d1)) as [[x o] [e2|]] eqn:Es; [discriminate|].
    assert (Hx : exists x', x = Some x').
    { clear - Es. unfold solo in Es. destruct (mk f) as [new|]; [|discriminate].
      destruct (match dget Nat.eqb k d1 with Some y => y | None => new end) as [d r].
      destruct (match custom with Some g => g r | None => (r, None) end) as [r1 [ec|]]; [discriminate|].
      destruct (compute d f) as [d2 [row|ec]]; [|injection Es as <- _ _; eauto].
      destruct (radd r1 f) as [r2 [er|]]; [injection Es as <- _ _; eauto|].
      destruct (label k row); injection Es as <- _; eauto. }
    destruct Hx as (x' & ->). exists (dget Nat.eqb k d1), x', o. split; auto. split.
    - rewrite <- E3, K. injection Ep as <- _. simpl. apply dget_dset_same. apply Nat.eqb_eq.
    - intros ->. simpl in E1'. injection E1' as <- _. reflexivity.
  Qed.

  (** Without custom definitions a key frame's relaxations have been given every frame. *)
  Theorem C29_default_accumulates l fin s k f0 rest : custom = None ->
    (forall d f e, snd (compute d f) <> inr e) ->
    frames l fin (start_state true) = (s, None) ->
    frames_of npos k l = f0 :: rest ->
    exists d0 r0 d, mk f0 = inl (d0, r0) /\
      dget Nat.eqb k (ps_keys s) = Some (d, fold_left (fun r f => fst (radd r f)) (f0 :: rest) r0).
  Proof.
    intros Hc Hno H Hk. destruct (C26_keyframes_independent l fin s H k) as (sk & E1 & _ & E3).
    destruct (pure (vlist npos (restrict k l)) []) as [[d rows] e] eqn:Ep.
    destruct (run_rows _ fin _ _ _ Ep) as (s' & E & K & A). rewrite E1 in E. injection E as <- He.
    destruct e; [discriminate|]. rewrite vlist_restrict in Ep.
    assert (Hl : filter (fun p => Nat.eqb k (fst p)) (vlist npos l) = map (fun f => (k, f)) (f0 :: rest)).
    { rewrite <- Hk, <- kframes_of. unfold kframes. clear.
      induction (vlist npos l) as [|[a g] v IH]; simpl; auto. destruct (Nat.eqb_spec k a); simpl; congruence. }
    rewrite Hl in Ep. rewrite <- E3, K. clear - Ep Hc Hno.
    assert (S : forall f x d0 r0 x' o, match x with Some y => y | None => match mk f with inl n => n | inr _ => (d0, r0) end end = (d0, r0) ->
       solo mk custom compute radd label k f x = (x', o, None) ->
       exists d', x' = Some (d', fst (radd r0 f))).
    { intros f x d0 r0 x' o Hx. unfold solo. rewrite Hc. destruct (mk f) as [new|]; [|discriminate].
      assert (Hx' : match x with Some y => y | None => new end = (d0, r0)) by (destruct x; auto).
      rewrite Hx'. assert (N := Hno d0 f). destruct (compute d0 f) as [d1 [row|ec]]; [|exfalso; eapply N; reflexivity].
      destruct (radd r0 f) as [r1 [er|]]; [intros [= <- _ _]; eauto|].
      destruct (label k row); [|discriminate]. intros [= <- _]; eauto. }
    assert (G : forall fs d0 x r d' rows', dget Nat.eqb k d0 = Some (x, r) ->
       pure (map (fun f => (k, f)) fs) d0 = (d', rows', None) ->
       exists x', dget Nat.eqb k d' = Some (x', fold_left (fun r f => fst (radd r f)) fs r)).
    { induction fs as [|f fs IH]; intros d0 x r d' rows' Hg; simpl.
      - intros [= <- _]. eauto.
      - destruct (solo mk custom compute radd label k f (dget Nat.eqb k d0)) as [[x1 o] [e|]] eqn:Es; [discriminate|].
        rewrite Hg in Es. destruct (S f (Some (x, r)) x r x1 o eq_refl Es) as (d1 & ->).
        destruct (pure (map (fun f => (k, f)) fs) (put k (Some (d1, fst (radd r f))) d0)) as [[d2 r2] e2] eqn:Ep2.
        intros [= <- _ ->]. eapply IH; [|exact Ep2]. simpl. apply dget_dset_same. apply Nat.eqb_eq. }
    cbn [map] in Ep. simpl in Ep.
    destruct (mk f0) as [[d0 r0]|] eqn:Em.
    2:{ unfold solo in Ep. rewrite Em in Ep. discriminate. }
    destruct (solo mk custom compute radd label k f0 None) as [[x1 o] [e|]] eqn:Es; [discriminate|].
    destruct (S f0 None d0 r0 x1 o) as (d1 & ->); auto. { rewrite Em. reflexivity. }
    destruct (pure (map (fun f => (k, f)) rest) (put k (Some (d1, fst (radd r0 f0))) [])) as [[d2 r2] e2] eqn:Ep2.
    injection Ep as <- _ ->.
    assert (Hg : dget Nat.eqb k (put k (Some (d1, fst (radd r0 f0))) []) = Some (d1, fst (radd r0 f0))).
    { simpl. rewrite Nat.eqb_refl. reflexivity. }
    destruct (G rest _ d1 (fst (radd r0 f0)) d2 r2 Hg Ep2) as (x' & Hx').
    exists d0, r0, x'. split; auto.
  Qed.
End Any.

Print Assumptions C26_keyframes_independent.
Print Assumptions C27_times_from_first_frame.
Print Assumptions C28_empty_frames_ignored.
Print Assumptions C28_failures_do_not_abort.
Print Assumptions C28_failing_frame.
Print Assumptions C28_aborts.
Print Assumptions C29_default_accumulates.
Print Assumptions C30_file_or_memory.
Print Assumptions C30_file_result.

(** *** an instance for the examples: a frame is (timestep, kind); kind 0 has no particles,
    kind 2 makes the computation raise ValueError, kind 3 TypeError. *)
Definition xframe := (Z * Z)%type.
Definition x_npos (f : xframe) : nat := if snd f =? 0 then 0%nat else 3%nat.
Definition x_mk (f : xframe) : (Z * list Z) + exn := inl (fst f, []).
Definition x_compute (d : Z) (f : xframe) : Z * (Z + exn) :=
  (d, if snd f =? 2 then inr ValueError else if snd f =? 3 then inr TypeError else inl (fst f - d)).
Definition x_radd (r : list Z) (f : xframe) : list Z * option exn := (r ++ [fst f], None).
Definition x_label (k : nat) (row : Z) : Z + exn := inl row.
Definition x_run := frames x_npos x_mk None x_compute x_radd x_label.
Definition x_frames : list (list nat * xframe) :=
  [ ([0%nat], (10, 1)); ([0; 1]%nat, (20, 1)); ([0%nat], (25, 0)); ([0; 1]%nat, (30, 2)); ([1%nat], (40, 1)) ].

Example C26_example :
  exists s sk, x_run x_frames None (start_state true) = (s, None) /\
    all_rows s = [(0%nat, 0); (0%nat, 10); (1%nat, 0); (1%nat, 20)] /\
    restrict 1 x_frames = [([1%nat], (20, 1)); ([1%nat], (30, 2)); ([1%nat], (40, 1))] /\
    x_run (restrict 1 x_frames) None (start_state true) = (sk, None) /\
    all_rows sk = [(1%nat, 0); (1%nat, 20)].
Proof. do 2 eexists. repeat apply conj; try (vm_compute; reflexivity). Qed.

Example C27_example :
  (forall f d r, x_mk f = inl (d, r) -> d = fst f) /\
  (forall d f, fst (x_compute d f) = d) /\
  (forall d f row k o, snd (x_compute d f) = inl row -> x_label k row = inl o -> o = fst f - d) /\
  frames_of x_npos 1 x_frames = [(20, 1); (30, 2); (40, 1)].
Proof.
  split; [intros f d r [= -> _]; reflexivity|]. split; [reflexivity|]. split; [|reflexivity].
  intros d f row k o H [= <-]. unfold x_compute in H. simpl in H.
  destruct (snd f =? 2); [discriminate|]. destruct (snd f =? 3); [discriminate|]. congruence.
Qed.

Example C28_example :
  snd (x_run (x_frames ++ [([0%nat], (50, 3)); ([0%nat], (60, 1))]) None (start_state true)) = Some TypeError /\
  snd (x_run x_frames None (start_state true)) = None.
Proof. split; vm_compute; reflexivity. Qed.

Example C30_example :
  let out := fun b => process_file x_npos x_mk None x_compute x_radd x_label (fun r => r) b None None
                        (Some (x_frames, None)) (Some [(7%nat, 7)]) None in
  out_result (out false) = inl (Some [(0%nat, 0); (0%nat, 10); (1%nat, 0); (1%nat, 20)]) /\
  out_table (out true) = Some [(0%nat, 0); (0%nat, 10); (1%nat, 0); (1%nat, 20)] /\
  out_relax (out true) = Some [(0%nat, [10; 20]); (1%nat, [20; 40])].
Proof. vm_compute. auto. Qed.

(** ** C96: process_file leaves stale rows in the file when no frame could be analysed. *)
Theorem C96_stale_rows_refuted : exists l t0,
  let out := process_file x_npos x_mk None x_compute x_radd x_label (fun r => r) true None None
               (Some (l, None)) t0 None in
  out_result out = inl None /\ out_table out = t0 /\ t0 = Some [(7%nat, 7)] /\
  exists m, out_relax out = Some m /\ m <> [].
Proof.
  exists [([0%nat], (10, 2))], (Some [(7%nat, 7)]). vm_compute.
  repeat split; try reflexivity. eexists. split; [reflexivity|discriminate].
Qed.
Print Assumptions C96_stale_rows_refuted.

(** Otherwise the old rows are gone. *)
Theorem C96_stale_rows_partial : forall D R F Row Out Sum npos mk custom compute radd label (summary : R -> Sum)
  l (t0 : table (nat * Out)) r0 floats s,
  @frames D R F Row Out npos mk custom compute radd label l None (start_state true) = (s, None) ->
  all_rows s <> [] ->
  out_table (process_file npos mk custom compute radd label summary true None floats (Some (l, None)) t0 r0)
  = Some (all_rows s).
Proof.
  intros D R F Row Out Sum npos mk custom compute radd label summary l t0 r0 floats s H Hn.
  destruct (C30_file_or_memory npos mk custom compute radd label summary l t0 r0 floats s H) as [-> _].
  destruct (all_rows s); [congruence|reflexivity].
Qed.
Print Assumptions C96_stale_rows_partial.

(** ** C29.  Relaxations objects with their motion: [madd] is TrackedMotion.add and the
    magnitudes of 152-154. *)
Section Custom.
  Context {D M F Row Out : Type}.
  Variable parse : string -> option xnum.
  Variable show : yaml -> string.
  Variable npos : F -> nat.
  Variable ts : F -> Z.
  Variable mkd : F -> D + exn.
  Variable mkm : F -> M + exn.
  Variable madd : M -> F -> M * ((list xnum * list xnum) + exn).
  Variable compute : D -> F -> D * (Row + exn).
  Variable label : nat -> Row -> Out + exn.
  Variable defs0 : list definition.         (* the default definitions *)
  Variable defs : list definition.          (* the definitions passed to process_file *)

  (** relaxations.py:41-81: number of molecules, motion, relaxations *)
  Definition robj := (nat * M * relaxations)%type.
  Definition c_mk (f : F) : (D * robj) + exn :=
    match mkd f with
    | inr e => inr e
    | inl d => match mkm f with
               | inr e => inr e
               | inl m => match set_mol_relax parse show (npos f) defs0 with
                          | (_, Some e) => inr e
                          | (r, None) => inl (d, (npos f, m, {| rx_init_time := ts f; rx_relax := r |}))
                          end
               end
    end.
  (** relaxations.py:109-130 *)
  Definition c_custom (x : robj) : robj * option exn :=
    let '(n, m, r) := x in
    let (d, e) := set_mol_relax parse show n defs in
    ((n, m, {| rx_init_time := rx_init_time r; rx_relax := d |}), e).
  (** relaxations.py:135-162 *)
  Definition c_radd (x : robj) (f : F) : robj * option exn :=
    let '(n, m, r) := x in
    match madd m f with
    | (m', inr e) => ((n, m', r), Some e)
    | (m', inl (disp, rot)) => let (r', e) := relaxations_add (ts f) disp rot r in ((n, m', r'), e)
    end.

  (** Every reported time is that of the last frame. *)
  Theorem C29_custom_partial l fin s k fs f :
    frames npos c_mk (Some c_custom) compute c_radd label l fin (start_state true) = (s, None) ->
    frames_of npos k l = fs ++ [f] ->
    exists d n m x, dget Nat.eqb k (ps_keys s) = Some (d, (n, m, x)) /\
      forall nm col, In (nm, col) (summary x) ->
      forall v, In v col -> v = 2 ^ 32 - 1 \/ v = ts f - rx_init_time x.
  Proof.
    intros H Hk.
    destruct (last_visit npos c_mk (Some c_custom) compute c_radd label l fin s k fs f H Hk)
      as (x0 & x' & o & Hs & Hg & _).
    destruct x' as [d' [[n' m'] r']]. exists d', n', m', r'. split; auto.
    unfold solo in Hs. destruct (c_mk f) as [new|]; [|discriminate].
    destruct (match x0 with Some y => y | None => new end) as [d [[n m] r]].
    unfold c_custom in Hs.
    destruct (set_mol_relax parse show n defs) as [dd [e|]] eqn:Ed; [discriminate|].
    assert (Hfresh := set_mol_relax_fresh _ _ _ _ _ Ed).
    assert (Hstat : forall k r, In (k, r) dd -> forall v, In v (get_status r) -> v = 2 ^ 32 - 1).
    { intros k0 r0 Hin v Hv.
      destruct (Hfresh k0 r0 Hin) as (thr & cut & l0 & ty & _ & _ & _ & _ & E). rewrite E in Hv.
      apply repeat_spec in Hv. exact Hv. }
    assert (Hinit : forall t disp rot d0 d1 e1, relax_loop t disp rot d0 = (d1, e1) ->
      (forall k r, In (k, r) d0 -> exists thr cut l ty, fresh n thr cut l ty r) ->
      forall k r, In (k, r) d1 -> forall v, In v (get_status r) -> v = 2 ^ 32 - 1 \/ v = t).
    { clear. intros t disp rot. induction d0 as [|[k0 r0] d0 IH]; intros d1 e1; simpl.
      - intros [= <- <-] _ k r [].
      - set (dist := match mr_type r0 with rotation => rot | translation => disp end).
        destruct (mr_add t dist r0) as [r1|e] eqn:Em.
        + destruct (relax_loop t disp rot d0) as [d2 e2] eqn:El. intros [= <- <-] Hfr k r [[= <- <-]|Hin] v Hv.
          2:{ eapply IH; eauto. }
          destruct (Hfr k0 r0 (or_introl eq_refl)) as (thr & cut & l & ty & F1 & F2 & F3 & F4 & F5).
          assert (Hd : length dist = n).
          { destruct (Nat.eq_dec (length dist) n) as [E|E]; auto. exfalso.
            unfold mr_add in Em. rewrite F3, repeat_length in Em. apply Nat.eqb_neq in E.
            rewrite E in Em. discriminate. }
          apply In_nth_error in Hv. destruct Hv as (i & Hi).
          destruct l.
          * assert (Hr0 : r0 = last_init n thr cut ty).
            { destruct r0; unfold last_init; simpl in *; subst; reflexivity. }
            assert (Hob : r1 = observe (last_init n thr cut ty) [(t, dist)]).
            { unfold observe. simpl. rewrite <- Hr0, Em. reflexivity. }
            assert (Hlt : (i < n)%nat).
            { rewrite <- (status_length_last n thr cut ty [(t, dist)]), <- Hob.
              apply nth_error_Some. congruence. }
            rewrite Hob, last_status in Hi by auto. injection Hi as <-.
            unfold seen. simpl. rewrite Hd, Nat.eqb_refl. simpl.
            unfold shown_status. destruct (xgt (nth i dist NaN) thr); simpl;
            repeat match goal with |- context [if ?b then _ else _] => destruct b; simpl end; auto.
          * assert (Hr0 : r0 = first_init n thr ty).
            { destruct r0; unfold first_init; simpl in *; subst; reflexivity. }
            assert (Hob : r1 = observe (first_init n thr ty) [(t, dist)]).
            { unfold observe. simpl. rewrite <- Hr0, Em. reflexivity. }
            assert (Hlt : (i < n)%nat).
            { rewrite <- (status_length_first n thr ty [(t, dist)]), <- Hob.
              apply nth_error_Some. congruence. }
            rewrite Hob, first_status in Hi by auto. injection Hi as <-.
            unfold seen. simpl. rewrite Hd, Nat.eqb_refl. simpl. unfold fstep. simpl.
            match goal with |- context [if ?b then _ else _] => destruct b; auto end.
        + intros [= <- <-] Hfr k r Hin v Hv. destruct (Hfr k r Hin) as (thr & cut & l & ty & _ & _ & _ & _ & E).
          rewrite E in Hv. apply repeat_spec in Hv. auto. }
    unfold summary. intros nm col Hin v Hv. apply in_map_iff in Hin.
    destruct Hin as ([k1 r1] & [= <- <-] & Hin).
    destruct (compute d f) as [d1 [row|ec]].
    - unfold c_radd in Hs. destruct (madd m f) as [m1 [[disp rot]|em]].
      + unfold relaxations_add in Hs. cbn [rx_init_time rx_relax] in Hs.
        destruct (relax_loop (ts f - rx_init_time r) disp rot dd) as [d2 e2] eqn:El.
        assert (Hr' : r' = {| rx_init_time := rx_init_time r; rx_relax := d2 |}).
        { destruct e2 as [e2|]; [|destruct (label k row)]; injection Hs; intros; subst; congruence. }
        subst r'. cbn [rx_init_time rx_relax] in *. eapply Hinit; eauto.
      + injection Hs as <- <- <- <- _ _. cbn [rx_relax] in Hin. left. eapply Hstat; eauto.
    - injection Hs as <- <- <- <- _ _. cbn [rx_relax] in Hin. left. eapply Hstat; eauto.
  Qed.
End Custom.
Print Assumptions C29_custom_partial.

(** A molecule beyond the threshold in the second of three frames, and back in the third:
    the summary says it never relaxed; without custom definitions the same relaxation
    reports the time of the second frame. *)
Definition y_frame := (Z * xnum)%type.       (* timestep, displacement *)
Definition y_defs : list definition :=
  [ {| def_name := Some (YStr "tau"%string); def_threshold := Some (YNum (Fin 1)); def_last := None;
       def_cutoff := None; def_type := None |} ].
Definition y_madd (m : unit) (f : y_frame) : unit * ((list xnum * list xnum) + exn) :=
  (m, inl ([snd f], [Fin 0])).
Definition y_run custom :=
  frames (fun _ : y_frame => 1%nat)
    (c_mk (D := unit) (M := unit) (fun _ => None) (fun _ => ""%string) (fun _ => 1%nat) fst
          (fun _ => inl tt) (fun _ => inl tt) y_defs)
    (if custom : bool then Some (c_custom (fun _ => None) (fun _ => ""%string) y_defs) else None)
    (fun d f => (d, inl tt)) (c_radd fst y_madd) (fun k row => inl tt).
Definition y_summary custom l : option (dict string (list Z)) :=
  match dget Nat.eqb 0%nat (ps_keys (fst (y_run custom l None (start_state true)))) with
  | Some (_, (_, _, x)) => Some (summary x)
  | None => None
  end.

Theorem C29_custom_refuted : exists l,
  snd (y_run true l None (start_state true)) = None /\
  y_summary true l = Some [("tau"%string, [2 ^ 32 - 1])] /\
  y_summary false l = Some [("tau"%string, [10])].
Proof.
  exists [ ([0%nat], (100, Fin 0)); ([0%nat], (110, Fin 2)); ([0%nat], (120, Fin 0)) ].
  vm_compute. auto.
Qed.
Print Assumptions C29_custom_refuted.
