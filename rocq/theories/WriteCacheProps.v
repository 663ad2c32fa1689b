(** Properties C22-C25 and C95: WriteCache. *)
From Coq Require Import ZArith List Bool Lia.
From Verif Require Import Base WriteCacheModel WriteCacheSpec WriteCacheProofs.
Import ListNotations.
Open Scope Z_scope.

(** ** C22.  [p] are the rows that have been written. *)
Theorem C22_no_loss : forall (A : Type) mult ops (t0 : table A),
  let '(w, t, rows) := client ops (wc_new true true mult false) t0 in
  exists p, rows = p ++ wc_cache w /\
    (p = [] -> t = t0) /\
    (p <> [] -> t = Some p \/ t = Some (rows_of t0 ++ p)) /\
    (p <> [] -> starts_with_row ops \/ t0 = None -> t = Some p).
Proof.
  intros A mult ops t0.
  assert (H : content t0 [] (wc_new true true mult false) t0).
  { exists []. simpl. auto. }
  assert (H1 := client_inv_all (content t0) (content_step t0) ops _ _ _ H).
  destruct (client ops (wc_new true true mult false) t0) as [[w t] rows] eqn:E.
  destruct H1 as (p & Hp & H1). simpl in Hp. exists p. split; auto.
  split; [intros ->; destruct H1 as [[_ ->]|[H1 _]]; congruence|].
  split; [intros Hn; destruct H1 as [[-> _]|(_ & _ & H1)]; congruence|].
  intros Hn Hc. destruct H1 as [[-> _]|(_ & _ & H1)]; [congruence|].
  destruct Hc as [Hc| ->]; [|destruct H1; auto].
  destruct ops as [|[x e|e] ops]; simpl in Hc; [|clear Hc|contradiction].
  { simpl in E. injection E as <- <- <-. simpl in Hp. rewrite app_nil_r in Hp. congruence. }
  simpl in E. set (w1 := push x (wc_new true true mult false)) in *.
  destruct (client ops w1 t0) as [[w2 t2] rows2] eqn:E2. injection E as -> -> <-.
  assert (H2 : replaced t0 [x] w1 t0).
  { exists []. simpl. split; auto. left. repeat split; auto. discriminate. }
  assert (H3 := client_inv_all (replaced t0) (replaced_step t0) ops _ _ _ H2). rewrite E2 in H3.
  destruct H3 as (q & Hq & H3). simpl in Hq. rewrite Hp in Hq. apply app_inv_tail in Hq. subst q.
  destruct H3 as [(-> & _)|(_ & _ & H3)]; congruence.
Qed.
Print Assumptions C22_no_loss.

(** In particular, for a new table, table and cache together are what was appended. *)
Theorem C22_new_table : forall (A : Type) mult ops,
  let '(w, t, rows) := @client A ops (wc_new true true mult false) None in
  rows_of t ++ wc_cache w = rows.
Proof.
  intros A mult ops. assert (H := C22_no_loss A mult ops None).
  destruct (client ops (wc_new true true mult false) None) as [[w t] rows].
  destruct H as (p & -> & H1 & _ & H2). destruct p as [|x p].
  - rewrite H1 by auto. reflexivity.
  - rewrite H2 by (auto; discriminate). reflexivity.
Qed.
Print Assumptions C22_new_table.

(** flush empties the cache and, with a file and without fault, never fails. *)
Theorem C22_flush_empties : forall (A : Type) (w : wcache A) t e w' t',
  (flush e w t = inl (w', t') -> wc_cache w' = []) /\
  (wc_named w = true -> wc_group w = true -> exists r, flush None w t = inl r).
Proof.
  intros A w t e w' t'. split.
  - intros H. apply flush_inl in H. destruct H as (_ & _ & _ & -> & _). reflexivity.
  - intros H1 H2. unfold flush. rewrite H1, H2. simpl. eauto.
Qed.
Print Assumptions C22_flush_empties.

(** With to_append=True every row is added behind the existing table. *)
Theorem C22_append_mode : forall (A : Type) mult ops (t0 : table A),
  let '(w, t, rows) := client ops (wc_new true true mult true) t0 in
  rows_of t ++ wc_cache w = rows_of t0 ++ rows.
Proof.
  intros A mult ops t0.
  assert (H : extended t0 [] (wc_new true true mult true) t0).
  { split; auto. exists []. simpl. auto. }
  assert (H1 := client_inv_all (extended t0) (extended_step t0) ops _ _ _ H).
  destruct (client ops (wc_new true true mult true) t0) as [[w t] rows].
  destruct H1 as (_ & p & Hp & H1). simpl in Hp. subst rows. rewrite app_assoc. f_equal.
  destruct H1 as [[-> ->]|[_ ->]]; simpl; rewrite ?app_nil_r; auto.
Qed.
Print Assumptions C22_append_mode.

(** A faulty write leaves everything as it was, so the next write has the rows. *)
Example C22_example :
  client [Add 1 None; Add 2 None; Flush (Some OtherError); Add 3 None; Flush None; Add 4 None]
         (wc_new true true 1 false) (Some [7; 8; 9]) =
  ({| wc_named := true; wc_group := true; wc_mult := 1; wc_append := true; wc_cache := [4];
      wc_emptied := 0 |}, Some [1; 2; 3], [1; 2; 3; 4]).
Proof. reflexivity. Qed.
(** ** C23 *)
Theorem C23_bounded_loss : forall (A : Type) mult ops (t0 : table A), 1 <= mult -> only_adds ops ->
  let '(w, t, rows) := client ops (wc_new true true mult false) t0 in
  exists p, rows = p ++ wc_cache w /\
    Z.of_nat (length (wc_cache w)) <= mult * 8192 /\
    (exists k, 0 <= k /\ Z.of_nat (length p) = k * (mult * 8192)) /\
    (p = [] -> t = t0) /\ (p <> [] -> t = Some p).
Proof.
  intros A mult ops t0 Hm Ho.
  assert (H : blocks mult [] (wc_new true true mult false) t0).
  { split; auto. exists []. simpl. repeat split; auto; intros; try lia; congruence. }
  assert (H1 := client_inv (fun o => match o with Add _ _ => True | Flush _ => False end)
                 (blocks mult) (blocks_step mult) ops Ho _ _ _ H).
  assert (H2 := C22_no_loss A mult ops t0).
  destruct (client ops (wc_new true true mult false) t0) as [[w t] rows].
  destruct H1 as (_ & p & Hp & L & He & Hc & _). simpl in Hp.
  destruct H2 as (q & Hq & Q1 & _ & Q2). rewrite Hp in Hq. apply app_inv_tail in Hq. subst q.
  exists p. split; auto. split; [apply Hc; lia|]. split; [exists (wc_emptied w); lia|].
  split; auto. intros Hn. apply Q2; auto. left. destruct ops as [|[x e|e] ops]; simpl; auto.
  exact (Ho _ (or_introl eq_refl)).
Qed.
Print Assumptions C23_bounded_loss.

Example C23_example :
  1 <= 2 /\ only_adds [Add 1 None; Add 2 (Some OtherError)] /\
  (** the boundary *)
  append 8192 None {| wc_named := true; wc_group := true; wc_mult := 1; wc_append := false;
                      wc_cache := repeat 5 (Z.to_nat 8192); wc_emptied := 0 |} None =
  inl ({| wc_named := true; wc_group := true; wc_mult := 1; wc_append := true;
          wc_cache := [8192]; wc_emptied := 1 |}, Some (repeat 5 (Z.to_nat 8192))).
Proof.
  split; [lia|]. split; [intros o [<-|[<-|[]]]; exact I|]. vm_compute. auto.
Qed.

(** ** C24 *)
Theorem C24_len_refuted : exists mult (ops : list (op Z)),
  let '(w, t, rows) := client ops (wc_new true true mult false) None in
  wc_len w <> Z.of_nat (length rows).
Proof. exists 1, [Add 1 None; Flush None]. vm_compute. discriminate. Qed.
Print Assumptions C24_len_refuted.

Theorem C24_len_partial : forall (A : Type) nm g mult app ops (t0 : table A),
  let '(w, t, rows) := client ops (wc_new nm g mult app) t0 in
  wc_len w = Z.of_nat (length rows) - explicitly_flushed ops (wc_new nm g mult app) t0 /\
  (only_adds ops -> wc_len w = Z.of_nat (length rows)).
Proof.
  intros A nm g mult app ops t0. assert (H := client_len ops (wc_new nm g mult app) t0).
  destruct (client ops (wc_new nm g mult app) t0) as [[w t] rows].
  assert (E : wc_len (@wc_new A nm g mult app) = 0).
  { unfold wc_len. simpl. lia. }
  rewrite E in H. split; [lia|]. intros Ho. rewrite (no_flush_no_flushed _ Ho) in H. lia.
Qed.
Print Assumptions C24_len_partial.

Example C24_example :
  explicitly_flushed [Add 1 None; Add 2 None; Flush None; Add 3 None] (wc_new true true 1 false) None = 2 /\
  only_adds [Add 1 None].
Proof. split; [reflexivity|]. intros o [<-|[]]. exact I. Qed.

(** ** C25 *)
(** Without a file the first [mult * 8192] rows are kept in order, and every further append
    raises AssertionError and changes nothing; for [mult <= 0] no append fails. *)
Theorem C25_list_partial : forall (A : Type) g mult (rows : list A) (t0 : table A),
  let '(w, t, accepted) := client (map (fun x => Add x None) rows) (wc_new false g mult false) t0 in
  t = t0 /\ wc_cache w = accepted /\
  accepted = (if 0 <? mult then firstn (Z.to_nat (mult * 8192)) rows else rows) /\
  forall x e, (0 < mult -> mult * 8192 <= Z.of_nat (length rows) -> append x e w t = inr AssertionError) /\
              (mult <= 0 \/ Z.of_nat (length rows) < mult * 8192 -> append x e w t = inl (push x w, t)).
Proof.
  intros A g mult rows t0.
  assert (Hg : forall (rows : list A) w t, wc_named w = false -> wc_mult w = mult ->
    (0 < mult -> Z.of_nat (length (wc_cache w)) <= mult * 8192) ->
    let '(w', t', acc) := client (map (fun x => Add x None) rows) w t in
    t' = t /\ wc_named w' = false /\ wc_mult w' = mult /\ wc_cache w' = wc_cache w ++ acc /\
    (0 < mult -> Z.of_nat (length (wc_cache w')) <= mult * 8192) /\
    acc = (if 0 <? mult then firstn (Z.to_nat (mult * 8192) - length (wc_cache w)) rows else rows)).
  { clear. induction rows as [|x rows IH]; intros w t Hn Hm Hl; cbn [map client].
    - rewrite app_nil_r, firstn_nil. repeat split; auto. destruct (0 <? mult); auto.
    - cbn [step].
      assert (C : wc_cache w = [] \/ wc_cache w <> [] /\
                  (Z.of_nat (length (wc_cache w)) = mult * 8192 \/
                   Z.of_nat (length (wc_cache w)) <> mult * 8192)).
      { destruct (wc_cache w); [auto|]. right. split; [discriminate|]. lia. }
      assert (Room : wc_cache w = [] \/ Z.of_nat (length (wc_cache w)) <> mult * 8192 ->
                     append x None w t = inl (push x w, t) /\
                     (0 < mult -> Z.of_nat (length (wc_cache w) + 1) <= mult * 8192)).
      { intros H. split; [apply append_room; unfold wc_size; rewrite Hm; exact H|].
        intros Hp. specialize (Hl Hp). destruct H as [H|H]; [rewrite H; cbn; lia|lia]. }
      assert (Step : wc_cache w = [] \/ Z.of_nat (length (wc_cache w)) <> mult * 8192 ->
        let '(w', t', acc) := client (map (fun x => Add x None) rows) (push x w) t in
        t' = t /\ wc_named w' = false /\ wc_mult w' = mult /\ wc_cache w' = wc_cache w ++ x :: acc /\
        (0 < mult -> Z.of_nat (length (wc_cache w')) <= mult * 8192) /\
        x :: acc = (if 0 <? mult then firstn (Z.to_nat (mult * 8192) - length (wc_cache w)) (x :: rows)
                    else x :: rows)).
      { intros H. destruct (Room H) as [_ Hl'].
        specialize (IH (push x w) t Hn Hm). cbn [push wc_cache] in IH. rewrite app_length in IH.
        cbn [length] in IH. specialize (IH Hl').
        destruct (client (map (fun x => Add x None) rows) (push x w) t) as [[w' t'] acc].
        destruct IH as (I1 & I2 & I3 & I4 & I5 & I6). repeat split; auto.
        { rewrite I4, <- app_assoc. reflexivity. }
        rewrite I6. destruct (Z.ltb_spec 0 mult) as [Hp|Hp]; auto. specialize (Hl Hp). specialize (Hl' Hp).
        replace (Z.to_nat (mult * 8192) - length (wc_cache w))%nat
          with (S (Z.to_nat (mult * 8192) - (length (wc_cache w) + 1))) by lia.
        reflexivity. }
      assert (Fin : wc_cache w = [] \/ Z.of_nat (length (wc_cache w)) <> mult * 8192 ->
        let '(w', t', acc) :=
          match append x None w t with
          | inl (w', t') => let '(w'', t'', rows0) := client (map (fun x => Add x None) rows) w' t' in
                            (w'', t'', x :: rows0)
          | inr _ => client (map (fun x => Add x None) rows) w t
          end in
        t' = t /\ wc_named w' = false /\ wc_mult w' = mult /\ wc_cache w' = wc_cache w ++ acc /\
        (0 < mult -> Z.of_nat (length (wc_cache w')) <= mult * 8192) /\
        acc = (if 0 <? mult then firstn (Z.to_nat (mult * 8192) - length (wc_cache w)) (x :: rows)
               else x :: rows)).
      { intros H. destruct (Room H) as [E _]. rewrite E. specialize (Step H).
        destruct (client (map (fun x => Add x None) rows) (push x w) t) as [[w' t'] acc]. exact Step. }
      destruct C as [C|[Hne [El|El]]]; [apply Fin; auto| |apply Fin; auto].
      rewrite append_full; auto; [|unfold wc_size; rewrite Hm; exact El].
      specialize (IH w t Hn Hm Hl).
      destruct (client (map (fun x => Add x None) rows) w t) as [[w' t'] acc].
      destruct IH as (I1 & I2 & I3 & I4 & I5 & I6). repeat split; auto.
      rewrite I6. destruct (Z.ltb_spec 0 mult).
      + replace (Z.to_nat (mult * 8192) - length (wc_cache w))%nat with 0%nat by lia. reflexivity.
      + destruct (wc_cache w); [congruence|]. cbn [length] in El. lia. }
  specialize (Hg rows (wc_new false g mult false) t0 eq_refl eq_refl).
  cbn [wc_new wc_cache length app] in Hg. rewrite Nat.sub_0_r in Hg.
  assert (Hl : 0 < mult -> Z.of_nat 0 <= mult * 8192) by lia. specialize (Hg Hl).
  destruct (client (map (fun x => Add x None) rows) (wc_new false g mult false) t0) as [[w t] acc].
  destruct Hg as (I1 & I2 & I3 & I4 & I5 & I6). repeat split; auto.
  - intros Hp Hr.
    assert (Z.of_nat (length (wc_cache w)) = mult * 8192).
    { rewrite I4, I6. destruct (Z.ltb_spec 0 mult); [|lia]. rewrite firstn_length. lia. }
    apply append_full; auto; [|unfold wc_size; rewrite I3; auto].
    intros E. rewrite E in H. cbn in H. lia.
  - intros Hc. apply append_room. unfold wc_size. rewrite I3.
    destruct (wc_cache w) as [|y c] eqn:Ec; [left; reflexivity|]. right.
    destruct Hc as [Hc|Hc]; [cbn [length]; lia|].
    rewrite I4, I6. destruct (Z.ltb_spec 0 mult); [rewrite firstn_length|]; lia.
Qed.
Print Assumptions C25_list_partial.

Theorem C25_list_refuted : exists (rows : list Z),
  let '(w, t, accepted) := client (map (fun x => Add x None) rows) (wc_new false true 1 false) None in
  wc_cache w <> rows /\ accepted <> rows /\ append 0 None w t = inr AssertionError.
Proof.
  exists (repeat 0 (Z.to_nat 8193)).
  assert (H := C25_list_partial Z true 1 (repeat 0 (Z.to_nat 8193)) None).
  destruct (client _ _ _) as [[w t] acc]. destruct H as (_ & H1 & H2 & H3).
  cbn [Z.ltb Z.compare] in H2.
  assert (E : acc <> repeat 0 (Z.to_nat 8193)).
  { intros H. apply (f_equal (@length Z)) in H. rewrite H2, firstn_length, repeat_length in H. lia. }
  split; [congruence|]. split; auto. apply (proj1 (H3 0 None)); [lia|].
  rewrite repeat_length. lia.
Qed.
Print Assumptions C25_list_refuted.

(** ** C95 *)
Theorem C95_replaces_refuted : exists (ops : list (op Z)) old,
  let '(w, t, rows) := client ops (wc_new true true 1 false) (Some old) in
  wc_cache w = [] /\ rows <> [] /\ t <> Some rows.
Proof.
  exists [Flush None; Add 1 None; Flush None], [7]. vm_compute.
  repeat split; discriminate.
Qed.
Print Assumptions C95_replaces_refuted.

(** An old table survives exactly through a flush before the first row; it also survives
    when there are no rows at all. *)
Theorem C95_replaces_partial : forall (A : Type) mult ops (old : list A),
  let '(w, t, rows) := client ops (wc_new true true mult false) (Some old) in
  wc_cache w = [] ->
  (rows = [] -> t = Some old) /\
  (rows <> [] -> starts_with_row ops -> t = Some rows) /\
  (rows <> [] -> t = Some rows \/ t = Some (old ++ rows)).
Proof.
  intros A mult ops old. assert (H := C22_no_loss A mult ops (Some old)).
  destruct (client ops (wc_new true true mult false) (Some old)) as [[w t] rows].
  intros Hc. destruct H as (p & -> & H1 & H2 & H3). rewrite Hc, app_nil_r. auto.
Qed.
Print Assumptions C95_replaces_partial.
