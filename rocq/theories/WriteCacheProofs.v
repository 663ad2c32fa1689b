(** Invariants of WriteCache. *)
From Coq Require Import ZArith List Bool Lia.
From Verif Require Import Base WriteCacheModel WriteCacheSpec.
Import ListNotations.
Open Scope Z_scope.

Section Proofs.
  Context {A : Type}.
  Implicit Types (w : wcache A) (t : table A) (acc p : list A).

  Definition new_rows (o : op A) : list A := match o with Add x _ => [x] | Flush _ => [] end.

  Lemma client_inv (P : op A -> Prop) (Inv : list A -> wcache A -> table A -> Prop) :
    (forall o w t acc w' t', P o -> Inv acc w t -> step o w t = inl (w', t') ->
       Inv (acc ++ new_rows o) w' t') ->
    forall ops, (forall o, In o ops -> P o) -> forall w t acc, Inv acc w t ->
    let '(w', t', rows) := client ops w t in Inv (acc ++ rows) w' t'.
  Proof.
    intros Hs. induction ops as [|o ops IH]; intros Hp w t acc H; simpl.
    - rewrite app_nil_r. exact H.
    - destruct (step o w t) as [[w' t']|e] eqn:E.
      + assert (H' := Hs o w t acc w' t' (Hp o (or_introl eq_refl)) H E).
        specialize (IH (fun o H => Hp o (or_intror H)) w' t' _ H').
        destruct (client ops w' t') as [[w'' t''] rows]. rewrite <- app_assoc in IH.
        destruct o; exact IH.
      + apply IH; auto. intros; apply Hp; right; auto.
  Qed.

  Lemma client_inv_all (Inv : list A -> wcache A -> table A -> Prop) :
    (forall o w t acc w' t', Inv acc w t -> step o w t = inl (w', t') ->
       Inv (acc ++ new_rows o) w' t') ->
    forall ops w t acc, Inv acc w t ->
    let '(w', t', rows) := client ops w t in Inv (acc ++ rows) w' t'.
  Proof.
    intros Hs ops. apply (client_inv (fun _ => True)); auto. intros; eapply Hs; eauto.
  Qed.

  (** What a successful operation does. *)
  Lemma flush_inl e w t w' t' : flush e w t = inl (w', t') ->
    wc_named w = true /\ wc_group w = true /\ e = None /\
    w' = {| wc_named := true; wc_group := true; wc_mult := wc_mult w; wc_append := true;
            wc_cache := []; wc_emptied := wc_emptied w |} /\
    t' = to_hdf (wc_append w) (wc_cache w) t.
  Proof.
    unfold flush. destruct (wc_named w), (wc_group w); simpl; try discriminate.
    destruct e; [discriminate|]. intros [= <- <-]. auto.
  Qed.

  Lemma append_inl x e w t w' t' : append x e w t = inl (w', t') ->
    (w' = push x w /\ t' = t /\
       (wc_cache w = [] \/ Z.of_nat (length (wc_cache w)) <> wc_size w)) \/
    (wc_cache w <> [] /\ Z.of_nat (length (wc_cache w)) = wc_size w /\
     wc_named w = true /\ wc_group w = true /\ e = None /\
     w' = {| wc_named := true; wc_group := true; wc_mult := wc_mult w; wc_append := true;
             wc_cache := [x]; wc_emptied := wc_emptied w + 1 |} /\
     t' = to_hdf (wc_append w) (wc_cache w) t).
  Proof.
    unfold append. destruct (wc_cache w) as [|y c] eqn:Ec; simpl negb.
    - simpl. intros [= <- <-]. auto.
    - rewrite <- Ec. destruct (Z.eqb_spec (Z.of_nat (length (wc_cache w))) (wc_size w)) as [El|El];
        cbn [andb].
      + destruct (flush e w t) as [[w1 t1]|] eqn:Ef; [|discriminate].
        apply flush_inl in Ef. destruct Ef as (F1 & F2 & F3 & F4 & F5). intros [= <- <-]. right. rewrite F4.
        split; [rewrite Ec; discriminate|]. repeat split; auto.
      + intros [= <- <-]. auto.
  Qed.

  Lemma append_room x e w t :
    wc_cache w = [] \/ Z.of_nat (length (wc_cache w)) <> wc_size w ->
    append x e w t = inl (push x w, t).
  Proof.
    unfold append. intros [H|H]; [rewrite H; reflexivity|].
    apply Z.eqb_neq in H. rewrite H, andb_false_r. reflexivity.
  Qed.
  Lemma append_full x e w t :
    wc_cache w <> [] -> Z.of_nat (length (wc_cache w)) = wc_size w -> wc_named w = false ->
    append x e w t = inr AssertionError.
  Proof.
    unfold append, flush. intros H1 H2 H3. apply Z.eqb_eq in H2. rewrite H2, H3.
    destruct (wc_cache w); [congruence|reflexivity].
  Qed.

  (** *** contents *)
  Definition content t0 acc w t : Prop := exists p, acc = p ++ wc_cache w /\
    (p = [] /\ t = t0 \/
     p <> [] /\ wc_append w = true /\ (t = Some p \/ t = Some (rows_of t0 ++ p))).

  Lemma to_hdf_nonempty app c t : c <> [] ->
    @to_hdf A app c t = if app then Some (rows_of t ++ c) else Some c.
  Proof. destruct c; [congruence|]. intros _. reflexivity. Qed.

  Lemma content_flush t0 acc w t : content t0 acc w t ->
    (acc = [] /\ wc_cache w = [] /\ to_hdf (wc_append w) (wc_cache w) t = t0) \/
    (acc <> [] /\ (to_hdf (wc_append w) (wc_cache w) t = Some acc \/
                   to_hdf (wc_append w) (wc_cache w) t = Some (rows_of t0 ++ acc))).
  Proof.
    intros (p & -> & H). destruct (wc_cache w) as [|x c] eqn:Ec.
    - rewrite app_nil_r. simpl. destruct H as [[-> ->]|(H1 & H2 & H3)]; auto.
    - right. split; [destruct p; discriminate|]. rewrite to_hdf_nonempty by discriminate.
      destruct H as [[-> ->]|(H1 & H2 & H3)].
      + destruct (wc_append w); auto.
      + rewrite H2. destruct H3 as [-> | ->]; simpl; rewrite <- ?app_assoc; auto.
  Qed.

  Lemma content_step t0 o w t acc w' t' : content t0 acc w t -> step o w t = inl (w', t') ->
    content t0 (acc ++ new_rows o) w' t'.
  Proof.
    intros H E. destruct o as [x e|e]; simpl in E.
    - apply append_inl in E. destruct E as [(-> & -> & _)|(H1 & H2 & H3 & H4 & H5 & -> & ->)].
      + destruct H as (p & -> & H). exists p. simpl. rewrite <- app_assoc. auto.
      + exists acc. simpl. split; auto.
        destruct (content_flush _ _ _ _ H) as [(G1 & G2 & G3)|(G1 & G2)]; auto.
    - apply flush_inl in E. destruct E as (H1 & H2 & H3 & -> & ->). exists acc. simpl.
      rewrite app_nil_r. split; auto.
      destruct (content_flush _ _ _ _ H) as [(G1 & G2 & G3)|(G1 & G2)]; auto.
  Qed.

  (** After the first row: nothing written yet, or the old table is gone. *)
  Definition replaced t0 acc w t : Prop := exists p, acc = p ++ wc_cache w /\
    (p = [] /\ t = t0 /\ wc_append w = false /\ wc_cache w <> [] \/
     p <> [] /\ wc_append w = true /\ t = Some p).

  Lemma replaced_step t0 o w t acc w' t' : replaced t0 acc w t -> step o w t = inl (w', t') ->
    replaced t0 (acc ++ new_rows o) w' t'.
  Proof.
    assert (F : replaced t0 acc w t -> acc <> [] /\ to_hdf (wc_append w) (wc_cache w) t = Some acc).
    { intros (p & -> & [(-> & -> & -> & H)|(H1 & -> & ->)]).
      - simpl. rewrite to_hdf_nonempty by auto. auto.
      - split; [destruct p; [congruence|discriminate]|].
        destruct (wc_cache w) as [|x c]; [rewrite app_nil_r; auto|].
        rewrite to_hdf_nonempty by discriminate. reflexivity. }
    intros H E. destruct o as [x e|e]; simpl in E.
    - apply append_inl in E. destruct E as [(-> & -> & _)|(H1 & H2 & H3 & H4 & H5 & -> & ->)].
      + destruct H as (p & -> & H). exists p. simpl. rewrite <- app_assoc. split; auto.
        destruct H as [(-> & -> & -> & H)|H]; auto. left. repeat split; auto.
        destruct (wc_cache w); discriminate.
      + exists acc. simpl. split; auto. destruct (F H) as [G1 G2]. auto.
    - apply flush_inl in E. destruct E as (H1 & H2 & H3 & -> & ->). exists acc. simpl.
      rewrite app_nil_r. split; auto. destruct (F H) as [G1 G2]. auto.
  Qed.

  (** to_append = True: the table is extended. *)
  Definition extended t0 acc w t : Prop := wc_append w = true /\ exists p, acc = p ++ wc_cache w /\
    (p = [] /\ t = t0 \/ p <> [] /\ t = Some (rows_of t0 ++ p)).
  Lemma extended_step t0 o w t acc w' t' : extended t0 acc w t -> step o w t = inl (w', t') ->
    extended t0 (acc ++ new_rows o) w' t'.
  Proof.
    assert (F : extended t0 acc w t ->
      acc = [] /\ to_hdf (wc_append w) (wc_cache w) t = t0 \/
      acc <> [] /\ to_hdf (wc_append w) (wc_cache w) t = Some (rows_of t0 ++ acc)).
    { intros (Ha & p & -> & H). rewrite Ha. destruct (wc_cache w) as [|x c].
      - rewrite app_nil_r. simpl. destruct H as [[-> ->]|[H ->]]; auto.
      - right. split; [destruct p; discriminate|]. rewrite to_hdf_nonempty by discriminate.
        destruct H as [[-> ->]|[H ->]]; simpl; rewrite <- ?app_assoc; auto. }
    intros H E. destruct o as [x e|e]; simpl in E.
    - apply append_inl in E. destruct E as [(-> & -> & _)|(H1 & H2 & H3 & H4 & H5 & -> & ->)].
      + destruct H as (Ha & p & -> & H). split; auto. exists p. simpl. rewrite <- app_assoc. split; auto.
      + split; auto. exists acc. simpl. split; auto.
    - apply flush_inl in E. destruct E as (H1 & H2 & H3 & -> & ->). split; auto. exists acc. simpl.
      rewrite app_nil_r. split; auto.
  Qed.

  (** *** configuration and counts *)
  Definition config (nm g : bool) (m : Z) w : Prop :=
    wc_named w = nm /\ wc_group w = g /\ wc_mult w = m.

  Lemma config_step nm g m o w t w' t' : config nm g m w -> step o w t = inl (w', t') ->
    config nm g m w'.
  Proof.
    intros (H1 & H2 & H3) E. destruct o as [x e|e]; simpl in E.
    - apply append_inl in E. destruct E as [(-> & _ & _)|(_ & _ & G1 & G2 & _ & -> & _)].
      + repeat split; auto.
      + repeat split; simpl; congruence.
    - apply flush_inl in E. destruct E as (G1 & G2 & _ & -> & _). repeat split; simpl; congruence.
  Qed.

  (** Append-only histories: whole caches are written. *)
  Definition blocks (m : Z) acc w t : Prop :=
    wc_mult w = m /\ exists p, acc = p ++ wc_cache w /\
      Z.of_nat (length p) = m * 8192 * wc_emptied w /\ 0 <= wc_emptied w /\
      (0 < m -> Z.of_nat (length (wc_cache w)) <= m * 8192) /\
      (p <> [] -> wc_cache w <> []).

  Lemma blocks_step m o w t acc w' t' : (match o with Add _ _ => True | Flush _ => False end) ->
    blocks m acc w t -> step o w t = inl (w', t') -> blocks m (acc ++ new_rows o) w' t'.
  Proof.
    intros Ho (Hm & p & -> & Hp & He & Hc & Hn) E. destruct o as [x e|e]; [|contradiction].
    simpl in E. apply append_inl in E.
    destruct E as [(-> & -> & H)|(H1 & H2 & H3 & H4 & H5 & -> & ->)].
    - split; auto. exists p. simpl. rewrite <- app_assoc, app_length. simpl.
      split; auto. split; auto. split; auto. split.
      + intros Hpos. specialize (Hc Hpos). unfold wc_size in H. rewrite Hm in H.
        destruct H as [H|H]; [rewrite H; simpl; lia|]. lia.
      + intros _. destruct (wc_cache w); discriminate.
    - split; auto. exists (p ++ wc_cache w). simpl. split; auto.
      unfold wc_size in H2. rewrite Hm in H2. rewrite app_length, Nat2Z.inj_add, Hp, H2.
      split; [ring|]. split; [lia|]. split; [intros; lia|discriminate].
  Qed.

  Lemma client_len ops : forall w t,
    let '(w', t', rows) := client ops w t in
    wc_len w' = wc_len w + Z.of_nat (length rows) - explicitly_flushed ops w t.
  Proof.
    induction ops as [|o ops IH]; intros w t; simpl; [lia|].
    destruct (step o w t) as [[w1 t1]|e] eqn:E; [|apply IH].
    specialize (IH w1 t1). destruct (client ops w1 t1) as [[w2 t2] rows]. rewrite IH.
    clear IH. destruct o as [x e|e]; simpl in E.
    - apply append_inl in E. destruct E as [(-> & -> & H)|(H1 & H2 & H3 & H4 & H5 & -> & ->)];
        unfold wc_len, wc_size; cbn [wc_mult wc_emptied wc_cache push length].
      + rewrite app_length. cbn [length]. lia.
      + unfold wc_size in H2. lia.
    - apply flush_inl in E. destruct E as (G1 & G2 & _ & -> & ->).
      unfold wc_len, wc_size; cbn [wc_mult wc_emptied wc_cache length]. lia.
  Qed.

  Lemma no_flush_no_flushed ops : only_adds ops -> forall w t, explicitly_flushed ops w t = 0.
  Proof.
    induction ops as [|o ops IH]; intros H w t; simpl; auto.
    assert (Ho := H o (or_introl eq_refl)). destruct o as [x e|e]; [|contradiction].
    assert (H' : only_adds ops) by (intros o' Hin; apply H; right; auto).
    destruct (step (Add x e) w t) as [[w1 t1]|]; rewrite IH; auto.
  Qed.
End Proofs.
