(** Proofs about the interactive figure. *)
From Coq Require Import String Ascii ZArith List Bool Lia Permutation.
From Verif Require Import Base DictFacts FrameModel ParamsModel MoleculeModel MoleculeProofs DirectoryProps FigureModel FigureSpec.
Import ListNotations.
Notation length := List.length.

Lemma sorted_keys_in {V} (d : dict string V) k : In k (sorted_keys d) <-> exists v, sget k d = Some v.
Proof.
  unfold sorted_keys. destruct (sort_strings (dkeys d)) as [_ P]. split.
  - intros H. apply (Permutation_in _ P) in H. apply (dget_In String.eqb String.eqb_eq) in H.
    destruct (sget k d); [eauto|congruence].
  - intros (v & E). apply (Permutation_in _ (Permutation_sym P)). apply (dget_In String.eqb String.eqb_eq). congruence.
Qed.
Lemma first_key {V} (d : dict string V) : d <> [] -> exists k v, item (sorted_keys d) 0 = inl k /\ sget k d = Some v.
Proof.
  intros N. destruct (sorted_keys d) as [|k l] eqn:E.
  - exfalso. destruct d as [|[k v] d]; [congruence|].
    assert (H : In k (sorted_keys ((k, v) :: d))) by (apply sorted_keys_in; exists v; cbn; rewrite String.eqb_refl; auto).
    rewrite E in H. destruct H.
  - destruct (proj1 (sorted_keys_in d k)) as (v & H); [rewrite E; left; auto|]. exists k, v. auto.
Qed.
Lemma item_in l i x : item l i = inl x -> In x l.
Proof. unfold item. destruct (nth_error l i) eqn:E; [|discriminate]. intros H. injection H as <-. eapply nth_error_In; eauto. Qed.
Lemma item_lt l i : (i < length l)%nat -> exists x, item l i = inl x.
Proof. intros H. unfold item. destruct (nth_error l i) eqn:E; eauto. apply nth_error_None in E. lia. Qed.
Lemma at_some {V} (d : dict string V) k v : sget k d = Some v -> at_ d k = inl v.
Proof. unfold at_. intros ->. auto. Qed.

Section Proofs.
Context {F O D : Type}.
Context (timestep : F -> Z) (render : option O -> F -> D + exn) (open_file : string -> list (F + exn) + exn).
Notation fig := (fig F O D).
Notation uframe := (update_frame timestep render).
Notation utraj := (update_current_trajectory timestep render open_file).
Notation uidx := (update_index_button timestep render open_file).
Notation ucry := (update_crystal_button timestep render open_file).
Notation utem := (update_temperature_button timestep render open_file).

(** The attributes that make up the selection. *)
Definition sel (s : fig) :=
  (f_vs s, f_pressures s, f_pact s, (f_temps s, f_topts s, f_tval s), (f_crystals s, f_clabels s, f_cact s),
   (f_iters s, f_iopts s, f_ival s)).
(** The attributes that no action changes, or only its own. *)
Definition plotted (s : fig) : bool := match f_plot s with Some _ => true | None => false end.
Definition rest (s : fig) := (f_vs s, f_pressures s, f_orders s, f_labels s, f_oact s, f_incr s, plotted s).
Definition player (s : fig) := (f_playing s, f_callback s, f_doc s, f_fresh s).

Lemma udata_keep (s : fig) : let s' := fst (update_data timestep render s) in
  sel s' = sel s /\ rest s' = rest s /\ player s' = player s /\ f_traj s' = f_traj s /\ f_slider s' = f_slider s /\ f_frame s' = f_frame s /\
  f_filename s' = f_filename s.
Proof.
  unfold update_data, rest, plotted. destruct (f_frame s) eqn:EF; cbn; [|auto 8].
  destruct (f_plot s) eqn:EP; destruct (andthen _ _); cbn; rewrite ?EP; repeat (split; [auto; reflexivity|]); auto.
Qed.
Lemma uframe_keep (s : fig) : let s' := fst (uframe s) in
  sel s' = sel s /\ rest s' = rest s /\ player s' = player s /\ f_traj s' = f_traj s /\ f_slider s' = f_slider s /\
  f_filename s' = f_filename s.
Proof.
  unfold update_frame, reading, seq, do. destruct (read_frame _ _) as [f|e]; cbn; [|auto 8].
  destruct (udata_keep (set_frame (Some f) s)) as (A & B & C & E & G & _ & I'). cbn in *. rewrite A, B, C, E, G, I'. auto 8.
Qed.
Lemma set_value_keep v (s : fig) : let s' := fst (set_value timestep render v s) in
  sel s' = sel s /\ rest s' = rest s /\ player s' = player s /\ f_traj s' = f_traj s /\ f_filename s' = f_filename s.
Proof.
  unfold set_value. destruct (f_slider s) as [sl|]; cbn; auto 8. destruct (v =? s_value sl)%Z; cbn; auto 8.
  match goal with |- context [uframe ?x] => destruct (uframe_keep x) as (A & B & C & E & _ & G) end. cbn in *. rewrite A, B, C, E, G. auto 8.
Qed.
(** The part of update_current_trajectory that corrects the slider. *)
Definition correct (l : list (F + exn)) : fig -> fig * option exn :=
  seq (fun s => match f_slider s with
               | None => (s, Some AttributeError)
               | Some sl => if (Z.of_nat (length l) <? s_value sl)%Z then set_value timestep render (Z.of_nat (length l) - 1) s else (s, None)
               end)
     (fun s => set_end (Z.of_nat (length (f_traj s)) - 1) s).
Lemma correct_keep l (s : fig) : let s' := fst (correct l s) in
  sel s' = sel s /\ rest s' = rest s /\ player s' = player s /\ f_traj s' = f_traj s /\ f_filename s' = f_filename s.
Proof.
  unfold correct, seq. set (r := match f_slider s with None => _ | Some _ => _ end).
  assert (K : sel (fst r) = sel s /\ rest (fst r) = rest s /\ player (fst r) = player s /\ f_traj (fst r) = f_traj s /\
              f_filename (fst r) = f_filename s).
  { unfold r. destruct (f_slider s) as [sl|]; cbn; auto 8. destruct (_ <? _)%Z; cbn; auto 8. apply set_value_keep. }
  clearbody r. destruct r as [s1 [e|]]; cbn in *; auto. unfold set_end. destruct (f_slider s1); cbn; auto.
Qed.
Lemma attempt_keep l (s : fig) : let s' := fst (try_attribute (correct l) s) in
  sel s' = sel s /\ rest s' = rest s /\ player s' = player s /\ f_traj s' = f_traj s /\ f_filename s' = f_filename s.
Proof.
  unfold try_attribute. generalize (correct_keep l s). destruct (correct l s) as [s1 [[]|]]; cbn; auto.
Qed.
Lemma utraj_unfold (s : fig) : utraj s =
  match get_selected_file s with
  | inr e => (s, Some e)
  | inl lf => match open_leaf open_file lf with
              | inr e => (s, Some e)
              | inl l => match try_attribute (correct l) (set_traj l s) with
                         | (s1, Some e) => (s1, Some e)
                         | (s1, None) => match uframe s1 with
                                         | (s2, Some e) => (s2, Some e)
                                         | (s2, None) => match get_selected_file s2 with
                                                         | inl lf' => (set_filename (leaf_name lf') s2, None)
                                                         | inr e => (s2, Some e)
                                                         end
                                         end
                         end
              end
  end.
Proof.
  unfold update_current_trajectory, reading, seq, do. destruct (get_selected_file s) as [lf|e]; [|reflexivity].
  reflexivity.
Qed.
Lemma utraj_keep (s : fig) : let s' := fst (utraj s) in sel s' = sel s /\ rest s' = rest s /\ player s' = player s.
Proof.
  rewrite utraj_unfold. destruct (get_selected_file s) as [lf|e]; cbn; auto. destruct (open_leaf open_file lf) as [l|e]; cbn; auto.
  destruct (attempt_keep l (set_traj l s)) as (A & B & C & _ & _). destruct (try_attribute _ _) as [s1 e1]. cbn in A, B, C.
  destruct e1; cbn; auto. destruct (uframe_keep s1) as (A' & B' & C' & _). destruct (uframe s1) as [s2 e2]. cbn in *.
  destruct e2; cbn; [rewrite A', B', C'; auto|]. destruct (get_selected_file s2); cbn; [|rewrite A', B', C'; auto].
  change (sel (set_filename (leaf_name l0) s2)) with (sel s2). change (rest (set_filename (leaf_name l0) s2)) with (rest s2).
  change (player (set_filename (leaf_name l0) s2)) with (player s2). rewrite A', B', C'. auto.
Qed.

(** ** The selection *)
Definition okp (s : fig) p l3 := f_pressures s = sorted_keys (f_vs s) /\ pressure s = inl p /\ sget p (f_vs s) = Some l3.
Definition okt (s : fig) (l3 : level3) l2 := f_temps s = sorted_keys l3 /\ f_topts s = f_temps s /\ sget (f_tval s) l3 = Some l2.
Definition okc (s : fig) (l2 : level2) c l1 := f_crystals s = sorted_keys l2 /\ f_clabels s = f_crystals s /\ crystal s = inl c /\ sget c l2 = Some l1.
Definition oki (s : fig) (l1 : level1) lf := f_iters s = sorted_keys l1 /\ f_iopts s = f_iters s /\ sget (f_ival s) l1 = Some lf.
Definition full (s : fig) p l3 l2 c l1 lf := okp s p l3 /\ okt s l3 l2 /\ okc s l2 c l1 /\ oki s l1 lf.
Definition first1 (l1 : level1) lf := exists k, item (sorted_keys l1) 0 = inl k /\ sget k l1 = Some lf.
Definition first2 (l2 : level2) c l1 := item (sorted_keys l2) 0 = inl c /\ sget c l2 = Some l1.
Definition first3 (l3 : level3) t l2 := item (sorted_keys l3) 0 = inl t /\ sget t l3 = Some l2.

Lemma sel_file s p l3 l2 c l1 lf : full s p l3 l2 c l1 lf -> get_selected_file s = inl lf.
Proof.
  intros ((_ & P & P3) & (_ & _ & T) & (_ & _ & C & C1) & (_ & _ & J)). unfold get_selected_file, temperature, iter_index.
  rewrite P. cbn. rewrite (at_some _ _ _ P3). cbn. rewrite (at_some _ _ _ T). cbn. rewrite C. cbn.
  rewrite (at_some _ _ _ C1). cbn. apply at_some. auto.
Qed.
Lemma sel_eq s s' : sel s' = sel s ->
  f_vs s' = f_vs s /\ f_pressures s' = f_pressures s /\ f_pact s' = f_pact s /\ f_temps s' = f_temps s /\ f_topts s' = f_topts s /\
  f_tval s' = f_tval s /\ f_crystals s' = f_crystals s /\ f_clabels s' = f_clabels s /\ f_cact s' = f_cact s /\
  f_iters s' = f_iters s /\ f_iopts s' = f_iopts s /\ f_ival s' = f_ival s.
Proof. unfold sel. intros H. injection H. intros. auto 20. Qed.
Lemma full_sel s s' p l3 l2 c l1 lf : sel s' = sel s -> full s p l3 l2 c l1 lf -> full s' p l3 l2 c l1 lf.
Proof.
  intros H. destruct (sel_eq _ _ H) as (A1 & A2 & A3 & A4 & A5 & A6 & A7 & A8 & A9 & A10 & A11 & A12).
  unfold full, okp, okt, okc, oki, pressure, crystal. rewrite A1, A2, A3, A4, A5, A6, A7, A8, A9, A10, A11, A12. auto.
Qed.
Lemma get_selected_sel s s' : sel s' = sel s -> get_selected_file s' = get_selected_file s.
Proof.
  intros H. destruct (sel_eq _ _ H) as (A1 & A2 & A3 & A4 & A5 & A6 & A7 & A8 & A9 & A10 & A11 & A12).
  unfold get_selected_file, temperature, pressure, crystal, iter_index. rewrite A1, A2, A3, A6, A7, A9, A12. auto.
Qed.

(** What a cascade of callbacks leaves, whether it raises or not: the selection, with file [lf]; what it raises and
    what the attributes of the slider are is a matter of [E], which is closed under sequencing. *)
Definition keeps (s s' : fig) := rest s' = rest s /\ player s' = player s.
Lemma keeps_trans a b c : keeps a b -> keeps b c -> keeps a c.
Proof. unfold keeps. intros [-> ->] [-> ->]. auto. Qed.

Section Effect.
(** [E lf s s' e]: an effect of opening [lf] once or more. *)
Context (E : leaf -> fig -> fig -> option exn -> Prop).
Context (E_one : forall s lf, get_selected_file s = inl lf -> E lf s (fst (utraj s)) (snd (utraj s))).
Context (E_trans : forall lf a b c e, E lf a b None -> E lf b c e -> E lf a c e).
(** It does not depend on the selection before. *)
Context (E_sel : forall lf a a' b e, f_slider a = f_slider a' -> rest a = rest a' -> player a = player a' -> E lf a' b e -> E lf a b e).

Definition cause lf s s' e := E lf s s' e /\ keeps s s'.
Lemma cause_one s lf : get_selected_file s = inl lf -> cause lf s (fst (utraj s)) (snd (utraj s)).
Proof. intros H. split; [apply E_one; auto|]. unfold keeps. apply utraj_keep. Qed.

Lemma uidx_effect s p l3 l2 c l1 lf : okp s p l3 -> okt s l3 l2 -> okc s l2 c l1 -> first1 l1 lf ->
  let s' := fst (uidx s) in full s' p l3 l2 c l1 lf /\ cause lf s s' (snd (uidx s)) /\ f_cact s' = f_cact s /\ f_pact s' = f_pact s /\ f_tval s' = f_tval s.
Proof.
  intros (P1 & P & P3) (T1 & T2 & T) (C1 & C2 & C & CL) (k & K & KL). unfold update_index_button, reading, seq, do.
  unfold temperature. rewrite P. cbn [andthen]. rewrite (at_some _ _ _ P3). cbn [andthen]. rewrite (at_some _ _ _ T). cbn [andthen].
  rewrite C. cbn [andthen]. rewrite (at_some _ _ _ CL).
  set (s1 := set_iopts _ _). change (f_iters s1) with (sorted_keys l1). rewrite K. unfold set_ival_. change (f_ival s1) with (f_ival s).
  set (s2 := set_ival k s1).
  assert (F2 : full s2 p l3 l2 c l1 lf).
  { split; [split; auto|]. split; [split; auto|]. split; [split; auto|]. split; auto. }
  assert (KS : f_cact s2 = f_cact s /\ f_pact s2 = f_pact s /\ f_tval s2 = f_tval s) by (cbn; auto).
  destruct (String.eqb_spec k (f_ival s)) as [Ek|Nk].
  - (* the value is the same: nothing is called *)
    assert (F1 : full s1 p l3 l2 c l1 lf).
    { split; [split; auto|]. split; [split; auto|]. split; [split; auto|]. split; auto. split; auto.
      change (f_ival s1) with (f_ival s). rewrite <- Ek. auto. }
    destruct (utraj_keep s1) as (A & B & B'). split; [eapply full_sel; eauto|]. split.
    + destruct (cause_one s1 lf (sel_file _ _ _ _ _ _ _ F1)) as [X Y]. split; [|exact Y]. revert X. apply E_sel; reflexivity.
    + destruct (sel_eq _ _ A) as (_ & _ & A3 & _ & _ & A6 & _ & _ & A9 & _). rewrite A3, A6, A9. cbn. auto.
  - pose proof (utraj_keep s2) as (A & B & B').
    pose proof (cause_one s2 lf (sel_file _ _ _ _ _ _ _ F2)) as CA. destruct (utraj s2) as [s3 e3] eqn:E3. cbn [fst snd] in *.
    assert (F3 : full s3 p l3 l2 c l1 lf) by (eapply full_sel; eauto).
    destruct (sel_eq _ _ A) as (_ & _ & A3 & _ & _ & A6 & _ & _ & A9 & _).
    assert (CA' : cause lf s s3 e3).
    { destruct CA as [X Y]. split; [|exact Y]. revert X. apply E_sel; reflexivity. }
    destruct e3 as [e3|]; cbn [fst snd].
    + split; [exact F3|]. split; [exact CA'|]. rewrite A3, A6, A9. auto.
    + pose proof (utraj_keep s3) as (AA & BB & BB'). pose proof (cause_one s3 lf (sel_file _ _ _ _ _ _ _ F3)) as CC.
      split; [eapply full_sel; eauto|]. split.
      * destruct CA', CC. split; [eapply E_trans; eauto|eapply keeps_trans; eauto].
      * destruct (sel_eq _ _ AA) as (_ & _ & -> & _ & _ & -> & _ & _ & -> & _). rewrite A3, A6, A9. auto.
Qed.

Lemma ucry_effect s p l3 l2 c l1 lf : okp s p l3 -> okt s l3 l2 -> first2 l2 c l1 -> first1 l1 lf ->
  let s' := fst (ucry s) in full s' p l3 l2 c l1 lf /\ cause lf s s' (snd (ucry s)) /\ f_pact s' = f_pact s /\ f_tval s' = f_tval s.
Proof.
  intros (P1 & P & P3) (T1 & T2 & T) (C & CL) F1. unfold update_crystal_button, reading, seq, do.
  unfold temperature. rewrite P. cbn [andthen]. rewrite (at_some _ _ _ P3). cbn [andthen]. rewrite (at_some _ _ _ T).
  set (s1 := set_clabels _ _). unfold set_cact_. change (f_cact s1) with (f_cact s). set (s2 := set_cact 0 s1).
  assert (OP2 : okp s2 p l3) by (split; auto). assert (OT2 : okt s2 l3 l2) by (split; auto).
  assert (OC2 : okc s2 l2 c l1) by (split; auto).
  assert (EQ : forall lf b e, cause lf s2 b e -> cause lf s b e).
  { intros lf' b e [X Y]. split; [|exact Y]. revert X. apply E_sel; reflexivity. }
  destruct (Nat.eqb_spec 0 (f_cact s)) as [Ek|Nk].
  - assert (OC1 : okc s1 l2 c l1).
    { split; auto. split; auto. split; auto. unfold crystal. cbn. rewrite <- Ek. auto. }
    destruct (uidx_effect s1 p l3 l2 c l1 lf OP2 OT2 OC1 F1) as (A & B & _ & G & H). split; auto. split.
    + apply EQ. destruct B as [X Y]. split; [|exact Y]. revert X. apply E_sel; reflexivity.
    + rewrite G, H. cbn. auto.
  - destruct (uidx_effect s2 p l3 l2 c l1 lf OP2 OT2 OC2 F1) as (A & B & BC & G & H). destruct (uidx s2) as [s3 e3]. cbn [fst snd] in *.
    apply EQ in B. destruct e3 as [e3|]; cbn [fst snd]; [split; auto|].
    destruct A as (OP3 & OT3 & OC3 & _). destruct (uidx_effect s3 p l3 l2 c l1 lf OP3 OT3 OC3 F1) as (A & B' & _ & G' & H').
    split; auto. split; [|rewrite G', H', G, H; cbn; auto]. destruct B, B'. split; [eapply E_trans; eauto|eapply keeps_trans; eauto].
Qed.

Lemma utem_effect s p l3 t l2 c l1 lf : okp s p l3 -> first3 l3 t l2 -> first2 l2 c l1 -> first1 l1 lf ->
  let s' := fst (utem s) in full s' p l3 l2 c l1 lf /\ cause lf s s' (snd (utem s)) /\ f_pact s' = f_pact s.
Proof.
  intros (P1 & P & P3) (T & TL) F2 F1. unfold update_temperature_button, reading, seq, do.
  rewrite P. cbn [andthen]. rewrite (at_some _ _ _ P3).
  set (s1 := set_topts _ _). change (f_temps s1) with (sorted_keys l3). rewrite T.
  unfold set_tval_. change (f_tval s1) with (f_tval s). set (s2 := set_tval t s1).
  assert (OP2 : okp s2 p l3) by (split; auto). assert (OT2 : okt s2 l3 l2) by (split; auto).
  assert (EQ : forall lf b e, cause lf s2 b e -> cause lf s b e).
  { intros lf' b e [X Y]. split; [|exact Y]. revert X. apply E_sel; reflexivity. }
  destruct (String.eqb_spec t (f_tval s)) as [Ek|Nk].
  - assert (OT1 : okt s1 l3 l2).
    { split; auto. split; auto. change (f_tval s1) with (f_tval s). rewrite <- Ek. auto. }
    destruct (ucry_effect s1 p l3 l2 c l1 lf OP2 OT1 F2 F1) as (A & B & G & H). split; auto. split.
    + apply EQ. destruct B as [X Y]. split; [|exact Y]. revert X. apply E_sel; reflexivity.
    + rewrite G. cbn. auto.
  - destruct (ucry_effect s2 p l3 l2 c l1 lf OP2 OT2 F2 F1) as (A & B & G & H). destruct (ucry s2) as [s3 e3]. cbn [fst snd] in *.
    apply EQ in B. destruct e3 as [e3|]; cbn [fst snd]; [split; auto|].
    destruct A as (OP3 & OT3 & _ & _). destruct (ucry_effect s3 p l3 l2 c l1 lf OP3 OT3 F2 F1) as (A & B' & G' & H').
    split; auto. split; [|rewrite G', G; cbn; auto]. destruct B, B'. split; [eapply E_trans; eauto|eapply keeps_trans; eauto].
Qed.

(** ** One action *)
Lemma firsts_exist vs p l3 : no_empty vs -> sget p vs = Some l3 ->
  (forall t l2, sget t l3 = Some l2 -> forall c l1, sget c l2 = Some l1 -> exists lf, first1 l1 lf) /\
  (forall t l2, sget t l3 = Some l2 -> exists c l1, first2 l2 c l1) /\ (exists t l2, first3 l3 t l2).
Proof.
  intros NE P. destruct (NE p l3 P) as [N3 H3]. split; [|split].
  - intros t l2 T c l1 C. destruct (H3 t l2 T) as [_ H2]. specialize (H2 c l1 C). destruct (first_key l1 H2) as (k & v & A & B).
    exists v, k. auto.
  - intros t l2 T. destruct (H3 t l2 T) as [N2 _]. destruct (first_key l2 N2) as (k & v & A & B). exists k, v. split; auto.
  - destruct (first_key l3 N3) as (k & v & A & B). exists k, v. split; auto.
Qed.
Definition is_full (s : fig) := exists p l3 l2 c l1 lf, full s p l3 l2 c l1 lf.
Definition requested (a : action) (s : fig) : Prop :=
  match a with
  | APressure i => f_pact s = i
  | ATemperature t => f_tval s = t
  | ACrystal i => f_cact s = i
  | AIteration r => f_ival s = r
  | _ => True
  end.
(** What a selection leaves as it was *)
Definition not_touched (a : action) (s s' : fig) : Prop :=
  match a with
  | ATemperature t => f_pact s' = f_pact s
  | ACrystal i => f_pact s' = f_pact s /\ f_tval s' = f_tval s
  | AIteration r => f_pact s' = f_pact s /\ f_tval s' = f_tval s /\ f_cact s' = f_cact s
  | _ => True
  end.
Notation stp := (step timestep render open_file).
Lemma select_effect s a s' e : no_empty (f_vs s) -> is_full s -> offered s a -> selecting a = true -> stp a s = (s', e) ->
  is_full s' /\ requested a s' /\ not_touched a s s' /\ ((s' = s /\ e = None) \/ exists lf, get_selected_file s' = inl lf /\ cause lf s s' e).
Proof.
  intros NE (p & l3 & l2 & c & l1 & lf & FU) OF SL. destruct FU as (OP & OT & OC & OI).
  destruct a as [i|t|i|r| | | | | | | ]; try discriminate; cbn [step offered requested not_touched] in *.
  - (* pressure *)
    unfold set_pact_. destruct (Nat.eqb_spec i (f_pact s)) as [->|N].
    { intros H. injection H as <- <-. split; [do 6 eexists; split; eauto|]. auto. }
    destruct OP as (P1 & P & P3).
    destruct (item_lt _ _ OF) as (p' & IP). assert (IP' := item_in _ _ _ IP). rewrite P1 in IP'. apply sorted_keys_in in IP'. destruct IP' as (l3' & L3').
    destruct (firsts_exist _ _ _ NE L3') as (A1 & A2 & (t' & l2' & F3)). destruct (A2 _ _ (proj2 F3)) as (c' & l1' & F2).
    destruct (A1 _ _ (proj2 F3) _ _ (proj2 F2)) as (lf' & F1).
    assert (OP' : okp (set_pact i s) p' l3') by (split; auto).
    destruct (utem_effect _ _ _ _ _ _ _ _ OP' F3 F2 F1) as (A & B & C). destruct (utem (set_pact i s)) as [s1 e1]. cbn [fst snd] in *.
    intros H. injection H as <- <-. split; [do 6 eexists; eauto|]. split; [rewrite C; auto|]. split; auto. right. exists lf'.
    split; [eapply sel_file; eauto|]. destruct B as [X Y]. split; [|exact Y]. revert X. apply E_sel; reflexivity.
  - (* temperature *)
    unfold set_tval_. destruct (String.eqb_spec t (f_tval s)) as [->|N].
    { intros H. injection H as <- <-. split; [do 6 eexists; split; eauto|]. auto. }
    destruct OT as (T1 & T2 & T). rewrite T2, T1 in OF. apply sorted_keys_in in OF. destruct OF as (l2' & L2').
    destruct (firsts_exist _ _ _ NE (proj2 (proj2 OP))) as (A1 & A2 & _). destruct (A2 _ _ L2') as (c' & l1' & F2).
    destruct (A1 _ _ L2' _ _ (proj2 F2)) as (lf' & F1).
    assert (OP' : okp (set_tval t s) p l3) by exact OP. assert (OT' : okt (set_tval t s) l3 l2') by (split; auto).
    destruct (ucry_effect _ _ _ _ _ _ _ OP' OT' F2 F1) as (A & B & C & C'). destruct (ucry (set_tval t s)) as [s1 e1]. cbn [fst snd] in *.
    intros H. injection H as <- <-. split; [do 6 eexists; eauto|]. split; [rewrite C'; auto|]. split; [rewrite C; auto|]. right. exists lf'.
    split; [eapply sel_file; eauto|]. destruct B as [X Y]. split; [|exact Y]. revert X. apply E_sel; reflexivity.
  - (* crystal *)
    unfold set_cact_. destruct (Nat.eqb_spec i (f_cact s)) as [->|N].
    { intros H. injection H as <- <-. split; [do 6 eexists; split; eauto|]. auto. }
    destruct OC as (C1 & C2 & C & CL). rewrite C2 in OF.
    destruct (item_lt _ _ OF) as (c' & IC). assert (IC' := item_in _ _ _ IC). rewrite C1 in IC'. apply sorted_keys_in in IC'. destruct IC' as (l1' & L1').
    destruct (firsts_exist _ _ _ NE (proj2 (proj2 OP))) as (A1 & _ & _). destruct (A1 _ _ (proj2 (proj2 OT)) _ _ L1') as (lf' & F1).
    assert (OP' : okp (set_cact i s) p l3) by exact OP. assert (OT' : okt (set_cact i s) l3 l2) by exact OT.
    assert (OC' : okc (set_cact i s) l2 c' l1') by (split; auto).
    destruct (uidx_effect _ _ _ _ _ _ _ OP' OT' OC' F1) as (A & B & G & G' & G''). destruct (uidx (set_cact i s)) as [s1 e1]. cbn [fst snd] in *.
    intros H. injection H as <- <-. split; [do 6 eexists; eauto|]. split; [rewrite G; auto|]. split; [rewrite G', G''; auto|]. right. exists lf'.
    split; [eapply sel_file; eauto|]. destruct B as [X Y]. split; [|exact Y]. revert X. apply E_sel; reflexivity.
  - (* iteration *)
    unfold set_ival_. destruct (String.eqb_spec r (f_ival s)) as [->|N].
    { intros H. injection H as <- <-. split; [do 6 eexists; split; eauto|]. auto. }
    destruct OI as (I1 & I2 & J). rewrite I2, I1 in OF. apply sorted_keys_in in OF. destruct OF as (lf' & LF').
    assert (FU : full (set_ival r s) p l3 l2 c l1 lf') by (split; [exact OP|]; split; [exact OT|]; split; [exact OC|]; split; auto).
    destruct (utraj_keep (set_ival r s)) as (A & B & B'). pose proof (cause_one (set_ival r s) lf' (sel_file _ _ _ _ _ _ _ FU)) as CA.
    destruct (utraj (set_ival r s)) as [s1 e1]. cbn [fst snd] in *.
    intros H. injection H as <- <-. pose proof (full_sel _ _ _ _ _ _ _ _ A FU) as FU'. split; [do 6 eexists; eauto|].
    destruct (sel_eq _ _ A) as (_ & _ & A3 & _ & _ & A6 & _ & _ & A9 & _ & _ & A12).
    split; [rewrite A12; auto|]. split; [rewrite A3, A6, A9; auto|]. right. exists lf'. split; [eapply sel_file; eauto|].
    destruct CA as [X Y]. split; [|exact Y]. revert X. apply E_sel; reflexivity.
Qed.
End Effect.

Notation stp := (step timestep render open_file).
(** What the other actions leave as it was. *)
Lemma incr_keep (s : fig) : let s' := fst (incr_index timestep render s) in
  sel s' = sel s /\ rest s' = rest s /\ player s' = player s /\ f_traj s' = f_traj s /\ f_filename s' = f_filename s.
Proof. unfold incr_index. destruct (f_slider s) as [sl|]; cbn; auto 8. destruct (_ <? _)%Z; cbn; auto 8. apply set_value_keep. Qed.
Lemma decr_keep (s : fig) : let s' := fst (decr_index timestep render s) in
  sel s' = sel s /\ rest s' = rest s /\ player s' = player s /\ f_traj s' = f_traj s /\ f_filename s' = f_filename s.
Proof. unfold decr_index. destruct (f_slider s) as [sl|]; cbn; auto 8. destruct (_ <? _)%Z; cbn; auto 8. apply set_value_keep. Qed.
Lemma other_keep a (s : fig) : selecting a = false -> let s' := fst (stp a s) in
  sel s' = sel s /\ f_vs s' = f_vs s /\ f_orders s' = f_orders s /\ f_labels s' = f_labels s /\ f_traj s' = f_traj s /\ f_filename s' = f_filename s
  /\ plotted s' = plotted s.
Proof.
  intros SL. assert (R : forall a b : fig, rest b = rest a -> f_vs b = f_vs a /\ f_orders b = f_orders a /\ f_labels b = f_labels a /\ plotted b = plotted a).
  { unfold rest. intros x y H. injection H. auto. }
  destruct a; try discriminate; cbn [step].
  - unfold set_oact_. destruct (Nat.eqb _ _); cbn [fst]; auto 8. destruct (uframe_keep (set_oact i s)) as (A & B & _ & C & _ & E).
    apply R in B. destruct B as (B1 & B2 & B3 & B4). rewrite A, B1, B2, B3, B4, C, E. auto 8.
  - destruct (set_value_keep v s) as (A & B & _ & C & E). apply R in B. destruct B as (B1 & B2 & B3 & B4). cbn zeta. rewrite A, B1, B2, B3, B4, C, E. auto 8.
  - cbn. auto 8.
  - destruct (incr_keep s) as (A & B & _ & C & E). apply R in B. destruct B as (B1 & B2 & B3 & B4). cbn zeta. rewrite A, B1, B2, B3, B4, C, E. auto 8.
  - destruct (decr_keep s) as (A & B & _ & C & E). apply R in B. destruct B as (B1 & B2 & B3 & B4). cbn zeta. rewrite A, B1, B2, B3, B4, C, E. auto 8.
  - unfold play_pause_toggle. destruct (f_playing s); cbn; auto 8. destruct (f_callback s); cbn; auto 8. destruct (existsb _ _); cbn; auto 8.
  - destruct (incr_keep s) as (A & B & _ & C & E). apply R in B. destruct B as (B1 & B2 & B3 & B4). cbn zeta. rewrite A, B1, B2, B3, B4, C, E. auto 8.
Qed.

(** ** Opening the directory *)
Lemma parsed_usable files : forall all all', parse_files files all = inl all' -> forall f, In f files -> exists k, file_key f k.
Proof.
  induction files as [|g files IH]; intros all all' E f H; [destruct H|]. cbn [parse_files] in E.
  destruct (get_filename_vars g) as [v|e] eqn:EV; cbn in E; [|discriminate].
  destruct (insert_file v g all) as [a|e] eqn:EI; cbn in E; [|discriminate].
  destruct H as [<-|H]; [|eapply IH; eauto]. unfold insert_file in EI.
  destruct (truthy (v_temperature v)) eqn:TT; [|discriminate]. destruct (truthy (v_pressure v)) eqn:TP; [|discriminate].
  apply readable_file. destruct (v_temperature v) as [[|ct t]|] eqn:ET; try discriminate. destruct (v_pressure v) as [[|cp p]|] eqn:EP; try discriminate.
  exists v, (String cp p), (String ct t). split; [exact EV|]. split; [exact EP|]. split; [discriminate|]. split; [exact ET|discriminate].
Qed.
Lemma parsed files vs : parse_directory files = inl vs ->
  no_empty vs /\ forall k, exists r, last_with files k r /\ lookup vs k = option_map LFile r.
Proof.
  intros E. destruct (C62_parse_directory files) as (all & A & B & C).
  - intros f H. eapply parsed_usable; eauto.
  - rewrite E in A. injection A as <-. auto.
Qed.
Lemma init_dir vs b s : initialise_directory vs b = inl s -> is_full s /\ f_vs s = vs /\
  (f_orders s, f_labels s, f_oact s, f_plot s, player s, f_slider s) = (f_orders b, f_labels b, f_oact b, f_plot b, player b, f_slider b).
Proof.
  unfold initialise_directory. destruct (item (sorted_keys vs) 0) as [p|] eqn:EP; [|discriminate]. cbn [andthen].
  unfold at_ at 1. destruct (sget p vs) as [l3|] eqn:E3; [|discriminate]. cbn [andthen].
  destruct (item (sorted_keys l3) 0) as [t|] eqn:ET; [|discriminate]. cbn [andthen].
  unfold at_ at 1. destruct (sget t l3) as [l2|] eqn:E2; [|discriminate]. cbn [andthen].
  destruct (item (sorted_keys l2) 0) as [c|] eqn:EC; [|discriminate]. cbn [andthen].
  unfold at_ at 1. destruct (sget c l2) as [l1|] eqn:E1; [|discriminate]. cbn [andthen].
  destruct (item (sorted_keys l1) 0) as [k|] eqn:EK; [|discriminate]. cbn [andthen].
  intros H. injection H as <-. split; [|split; reflexivity].
  assert (IK := item_in _ _ _ EK). apply sorted_keys_in in IK. destruct IK as (lf & L).
  exists p, l3, l2, c, l1, lf. split; [split; auto|]. split; [split; auto|]. split; [split; auto|]. split; auto.
Qed.

(** ** C92 *)
Notation mkdoc := (make_document timestep render open_file).
Notation hist := (history timestep render open_file).
Lemma started create models files orders orders' s0 : mkdoc create models files orders = (orders', inl s0) ->
  exists vs si s1, parse_directory files = inl vs /\ initialise_directory vs (blank orders') = inl si /\
    utraj (set_oact 0 (set_labels (dkeys orders') (set_filename EmptyString si))) = (s1, None) /\
    create_doc timestep render (set_plot (Some 0%Z) (set_incr 10 (set_slider (Some (mk_slider 0 0 (Z.max (Z.of_nat (length (f_traj s1))) 1)))
       (set_playing false s1)))) = (s0, None).
Proof.
  unfold make_document. destruct (add_models create models orders) as [o1 [e|]]; [discriminate|].
  intros H. injection H as <- H. unfold init in H. destruct (parse_directory files) as [vs|]; [|discriminate]. cbn [andthen] in H.
  destruct (initialise_directory vs (blank o1)) as [si|] eqn:EI; [|discriminate]. cbn [andthen] in H. unfold seq, do, initialise_media_interface in H.
  exists vs, si. match type of H with context [utraj ?x] => destruct (utraj x) as [s1 [e|]] eqn:EU end; [discriminate|]. exists s1. cbn [andthen] in H.
  change (f_traj (set_playing false s1)) with (f_traj s1) in H.
  destruct (create_doc _ _ _) as [s2 [e|]] eqn:EC; [discriminate|]. injection H as <-. split; [reflexivity|]. split; [exact EI|]. split; reflexivity.
Qed.
Lemma create_doc_keep (s : fig) : let s' := fst (create_doc timestep render s) in
  sel s' = sel s /\ rest s' = rest s /\ player s' = player s /\ f_traj s' = f_traj s /\ f_slider s' = f_slider s.
Proof.
  unfold create_doc, seq, reading, do. destruct (udata_keep s) as (A & B & C & E & G & _). destruct (update_data timestep render s) as [s1 [e|]];
    cbn in *; auto 8. destruct (get_selected_file s1); cbn; rewrite <- A, <- B, <- C, <- E, <- G; auto 8.
Qed.
Lemma started_full create models files orders orders' s0 : mkdoc create models files orders = (orders', inl s0) ->
  is_full s0 /\ parse_directory files = inl (f_vs s0) /\ f_orders s0 = orders' /\ f_labels s0 = dkeys orders'.
Proof.
  intros H. destruct (started _ _ _ _ _ _ H) as (vs & si & s1 & P & SI & U & CD). destruct (init_dir _ _ _ SI) as (FU & V & R).
  injection R as R1 R2 R3 R4 R5 R6 R7 R8 R9.
  set (sj := set_oact 0 _) in U. destruct (utraj_keep sj) as (A & B & _). rewrite U in A, B. cbn [fst] in A, B.
  set (s2 := set_plot _ _) in CD. destruct (create_doc_keep s2) as (A2 & B2 & _). rewrite CD in A2, B2. cbn [fst] in A2, B2.
  assert (SE : sel s0 = sel si) by (rewrite A2; change (sel s2) with (sel s1); rewrite A; reflexivity).
  destruct FU as (p & l3 & l2 & c & l1 & lf & FU). split; [exists p, l3, l2, c, l1, lf; eapply full_sel; eauto|].
  destruct (sel_eq _ _ SE) as (-> & _). rewrite V. split; auto.
  unfold rest in B2. injection B2 as _ _ B3 B4 _ _ _. unfold rest in B. injection B as _ _ B5 B6 _ _ _.
  rewrite B3, B4. change (f_orders s2) with (f_orders s1). change (f_labels s2) with (f_labels s1). rewrite B5, B6. cbn. rewrite R1. auto.
Qed.
Definition any_effect (lf : leaf) (s s' : fig) (e : option exn) : Prop := True.
Lemma hist_full s0 h s : no_empty (f_vs s0) -> is_full s0 -> hist s0 h s ->
  is_full s /\ f_vs s = f_vs s0 /\ f_orders s = f_orders s0 /\ f_labels s = f_labels s0.
Proof.
  intros NE FU. induction 1 as [|h s a s' e H IH OF ST]; [auto|]. destruct IH as (IH & V & OO & LL).
  destruct (selecting a) eqn:SL.
  - rewrite <- V in NE.
    destruct (select_effect any_effect (fun _ _ _ => Logic.I) (fun _ _ _ _ _ _ _ => Logic.I) (fun _ _ _ _ _ _ _ _ _ => Logic.I) s a s' e NE IH OF SL ST)
      as (A & _ & _ & B). split; auto. destruct B as [[-> _]|(lf & _ & _ & B & _)]; auto.
    unfold rest in B. injection B as B1 _ B2 B3 _ _ _. rewrite B1, B2, B3. auto.
  - destruct (other_keep a s SL) as (A & B & C & E & _). rewrite ST in *. cbn [fst] in *. rewrite B, C, E. split; auto.
    destruct IH as (p & l3 & l2 & c & l1 & lf & FF). exists p, l3, l2, c, l1, lf. eapply full_sel; eauto.
Qed.
Lemma full_selects files s : no_empty (f_vs s) -> (forall k, exists r, last_with files k r /\ lookup (f_vs s) k = option_map LFile r) ->
  is_full s -> selects_one_of files s.
Proof.
  intros NE L (p & l3 & l2 & c & l1 & lf & FU). pose proof (sel_file _ _ _ _ _ _ _ FU) as G.
  destruct FU as ((P1 & P & P3) & (T1 & T2 & T) & (C1 & C2 & C & C3) & (I1 & I2 & J)).
  destruct (L (p, temperature s, c, iter_index s)) as (r & LW & LK). unfold lookup, temperature, iter_index in LK.
  rewrite P3, T, C3, J in LK. destruct r as [f|]; [|discriminate]. cbn in LK. injection LK as ->. exists p, c, f. auto.
Qed.
Lemma hist_app s0 h1 s1 h2 s2 : hist s0 h1 s1 -> hist s1 h2 s2 -> hist s0 (h1 ++ h2) s2.
Proof.
  intros A. induction 1 as [|h s a s' e H IH OF ST]; [rewrite app_nil_r; auto|]. rewrite app_assoc. econstructor; eauto.
Qed.
Lemma in_item l x : In x l -> exists i, (i < length l)%nat /\ item l i = inl x.
Proof. intros H. apply In_nth_error in H. destruct H as (i & E). exists i. split; [apply nth_error_Some; congruence|]. unfold item. rewrite E. auto. Qed.
Lemma reach_key s p t c r lf : no_empty (f_vs s) -> is_full s -> lookup (f_vs s) (p, t, c, r) = Some lf ->
  exists h s', hist s h s' /\ (length h <= 4)%nat /\ get_selected_file s' = inl lf.
Proof.
  intros NE FU LK. unfold lookup in LK. destruct (sget p (f_vs s)) as [l3|] eqn:E3; [|discriminate].
  destruct (sget t l3) as [l2|] eqn:E2; [|discriminate]. destruct (sget c l2) as [l1|] eqn:E1; [|discriminate].
  pose proof (select_effect any_effect (fun _ _ _ => Logic.I) (fun _ _ _ _ _ _ _ => Logic.I) (fun _ _ _ _ _ _ _ _ _ => Logic.I)) as SE.
  assert (VR : forall (s s' : fig) e, (s' = s /\ e = None \/ (exists lf, get_selected_file s' = inl lf /\ cause any_effect lf s s' e)) ->
    f_vs s' = f_vs s /\ f_pressures s' = f_pressures s).
  { intros a b e [[-> _]|(lf' & _ & _ & B & _)]; auto. unfold rest in B. injection B as B1 B2 _ _ _ _ _. auto. }
  (* pressure *)
  destruct (in_item (f_pressures s) p) as (i & LI & IT).
  { destruct FU as (p0 & l30 & l20 & c0 & l10 & lf0 & ((P1 & _) & _)). rewrite P1. apply sorted_keys_in. eauto. }
  destruct (stp (APressure i) s) as [s1 e1] eqn:S1. destruct (SE s (APressure i) s1 e1 NE FU LI eq_refl S1) as (FU1 & R1 & _ & V1).
  apply VR in V1. destruct V1 as (V1 & VP1). cbn in R1.
  assert (PR1 : pressure s1 = inl p) by (unfold pressure; rewrite R1, VP1; auto).
  assert (NE1 : no_empty (f_vs s1)) by (rewrite V1; auto).
  (* temperature *)
  assert (OT : In t (f_topts s1)).
  { destruct FU1 as (p0 & l30 & l20 & c0 & l10 & lf0 & ((_ & P & P3) & (T1 & T2 & _) & _)). rewrite PR1 in P. injection P as <-.
    rewrite V1, E3 in P3. injection P3 as <-. rewrite T2, T1. apply sorted_keys_in. eauto. }
  destruct (stp (ATemperature t) s1) as [s2 e2] eqn:S2. destruct (SE s1 (ATemperature t) s2 e2 NE1 FU1 OT eq_refl S2) as (FU2 & R2 & N2 & V2).
  apply VR in V2. destruct V2 as (V2 & VP2). cbn in R2, N2.
  assert (PR2 : pressure s2 = inl p) by (unfold pressure; rewrite N2, VP2; exact PR1).
  assert (NE2 : no_empty (f_vs s2)) by (rewrite V2; auto).
  assert (OC : exists j, (j < length (f_clabels s2))%nat /\ item (f_crystals s2) j = inl c /\ f_crystals s2 = sorted_keys l2).
  { destruct FU2 as (p0 & l30 & l20 & c0 & l10 & lf0 & ((_ & P & P3) & (_ & _ & T) & (C1 & C2 & _) & _)). rewrite PR2 in P. injection P as <-.
    rewrite V2, V1, E3 in P3. injection P3 as <-. rewrite R2, E2 in T. injection T as <-. destruct (in_item (f_crystals s2) c) as (j & A & B).
    { rewrite C1. apply sorted_keys_in. eauto. }
    exists j. rewrite C2. auto. }
  destruct OC as (j & OC & IC & CS).
  destruct (stp (ACrystal j) s2) as [s3 e3'] eqn:S3. destruct (SE s2 (ACrystal j) s3 e3' NE2 FU2 OC eq_refl S3) as (FU3 & R3 & N3 & V3).
  apply VR in V3. destruct V3 as (V3 & VP3). cbn in R3, N3. destruct N3 as [N3 N3'].
  assert (PR3 : pressure s3 = inl p) by (unfold pressure; rewrite N3, VP3; exact PR2).
  assert (NE3 : no_empty (f_vs s3)) by (rewrite V3; auto).
  assert (OI : In r (f_iopts s3) /\ crystal s3 = inl c).
  { destruct FU3 as (p0 & l30 & l20 & c0 & l10 & lf0 & ((_ & P & P3) & (_ & _ & T) & (C1 & C2 & C & CL) & (I1 & I2 & _))). rewrite PR3 in P. injection P as <-.
    rewrite V3, V2, V1, E3 in P3. injection P3 as <-. rewrite N3', R2, E2 in T. injection T as <-.
    assert (CC : crystal s3 = inl c) by (unfold crystal; rewrite R3, C1, <- CS; exact IC). split; auto.
    rewrite CC in C. injection C as <-. rewrite E1 in CL. injection CL as <-. rewrite I2, I1. apply sorted_keys_in. eauto. }
  destruct OI as (OI & CR3).
  destruct (stp (AIteration r) s3) as [s4 e4] eqn:S4. destruct (SE s3 (AIteration r) s4 e4 NE3 FU3 OI eq_refl S4) as (FU4 & R4 & N4 & V4).
  apply VR in V4. destruct V4 as (V4 & VP4). cbn in R4, N4. destruct N4 as (N4 & N4' & N4'').
  exists [(APressure i, e1); (ATemperature t, e2); (ACrystal j, e3'); (AIteration r, e4)], s4. split; [|split].
  - change [(APressure i, e1); (ATemperature t, e2); (ACrystal j, e3'); (AIteration r, e4)]
      with (((([] ++ [(APressure i, e1)]) ++ [(ATemperature t, e2)]) ++ [(ACrystal j, e3')]) ++ [(AIteration r, e4)])%list.
    econstructor; eauto. econstructor; eauto. econstructor; eauto. econstructor; eauto. constructor.
  - cbn. lia.
  - destruct FU4 as (p0 & l30 & l20 & c0 & l10 & lf0 & FU4). rewrite (sel_file _ _ _ _ _ _ _ FU4). f_equal.
    destruct FU4 as ((_ & P & P3) & (_ & _ & T) & (C1 & _ & C & CL) & (_ & _ & J)).
    assert (PR4 : pressure s4 = inl p) by (unfold pressure; rewrite N4, VP4; exact PR3). rewrite PR4 in P. injection P as <-.
    rewrite V4, V3, V2, V1, E3 in P3. injection P3 as <-. rewrite N4', N3', R2, E2 in T. injection T as <-.
    assert (CC : crystal s4 = inl c) by (unfold crystal; rewrite N4'', R3, C1, <- CS; exact IC).
    rewrite CC in C. injection C as <-. rewrite E1 in CL. injection CL as <-. rewrite R4, LK in J. congruence.
Qed.

(** ** What is shown *)
Definition framed (s : fig) : Prop := exists f o d,
  read_frame (f_traj s) (index s) = inl f /\ get_order_function s = inl o /\ render o f = inl d /\ f_frame s = Some f /\
  f_data s = Some d /\ (plotted s = true -> f_plot s = Some (timestep f)).
Definition pos (s : fig) : Prop := exists sl, f_slider s = Some sl /\ s_start sl = 0%Z /\ (0 <= s_value sl)%Z.
Definition shown (lf : leaf) (s : fig) : Prop :=
  get_selected_file s = inl lf /\ open_leaf open_file lf = inl (f_traj s) /\ f_filename s = leaf_name lf /\ framed s.
Lemma udata_ok (s s' : fig) f : read_frame (f_traj s) (index s) = inl f -> f_frame s = Some f ->
  update_data timestep render s = (s', None) -> framed s'.
Proof.
  intros RF FR. unfold update_data. rewrite FR. destruct (f_plot s) as [z|] eqn:EP.
  - change (get_order_function (set_plot (Some (timestep f)) s)) with (get_order_function s).
    destruct (get_order_function s) as [o|e] eqn:EO; cbn [andthen]; [|discriminate]. destruct (render o f) as [d|e] eqn:ER; [|discriminate].
    intros H. injection H as <-. exists f, o, d. repeat split; auto.
  - destruct (get_order_function s) as [o|e] eqn:EO; cbn [andthen]; [|discriminate]. destruct (render o f) as [d|e] eqn:ER; [|discriminate].
    intros H. injection H as <-. exists f, o, d. repeat split; auto. unfold plotted. cbn. rewrite EP. discriminate.
Qed.
Lemma uframe_ok (s s' : fig) : uframe s = (s', None) -> framed s'.
Proof.
  unfold update_frame, reading, seq, do. destruct (read_frame _ _) as [f|e] eqn:RF; [|discriminate].
  apply (udata_ok (set_frame (Some f) s) s' f); auto.
Qed.
Lemma set_value_slider v (s : fig) sl : f_slider s = Some sl ->
  f_slider (fst (set_value timestep render v s)) = Some (mk_slider v (s_start sl) (s_end sl)).
Proof.
  intros H. unfold set_value. rewrite H. destruct (Z.eqb_spec v (s_value sl)) as [->|N]; cbn [fst].
  - rewrite H. destruct sl; auto.
  - match goal with |- context [uframe ?x] => destruct (uframe_keep x) as (_ & _ & _ & _ & E & _) end. rewrite E. auto.
Qed.
Lemma set_value_ok v (s s' : fig) : set_value timestep render v s = (s', None) -> framed s -> framed s'.
Proof.
  unfold set_value. destruct (f_slider s) as [sl|]; [|discriminate]. destruct (v =? s_value sl)%Z.
  - intros H. injection H as <-. auto.
  - intros H _. eapply uframe_ok; eauto.
Qed.
Lemma correct_slider l (s : fig) sl : f_slider s = Some sl -> f_traj s = l ->
  exists sl', f_slider (fst (correct l s)) = Some sl' /\ s_start sl' = s_start sl /\
    (s_value sl' = s_value sl \/ s_value sl' = (Z.of_nat (length l) - 1)%Z).
Proof.
  intros H T. unfold correct, seq. rewrite H. destruct (_ <? _)%Z.
  - pose proof (set_value_slider (Z.of_nat (length l) - 1) s sl H) as HS. destruct (set_value _ _ _ s) as [s1 [e|]]; cbn [fst snd] in *.
    + eexists; split; [exact HS|]. cbn. auto.
    + unfold set_end. rewrite HS. eexists; split; [reflexivity|]. cbn. auto.
  - unfold set_end. rewrite H. eexists; split; [reflexivity|]. cbn. auto.
Qed.
Lemma utraj_ok (s s' : fig) lf : get_selected_file s = inl lf -> utraj s = (s', None) -> shown lf s' /\ (pos s -> pos s').
Proof.
  intros G. rewrite utraj_unfold, G. destruct (open_leaf open_file lf) as [l|e] eqn:OL; [|discriminate].
  pose proof (attempt_keep l (set_traj l s)) as (A & _ & _ & TR & _).
  assert (PS : forall sl, f_slider s = Some sl -> exists sl', f_slider (fst (try_attribute (correct l) (set_traj l s))) = Some sl' /\ s_start sl' = s_start sl /\
    (s_value sl' = s_value sl \/ s_value sl' = (Z.of_nat (length l) - 1)%Z)).
  { intros sl HS. destruct (correct_slider l (set_traj l s) sl HS eq_refl) as (sl' & X). exists sl'. unfold try_attribute.
    destruct (correct l (set_traj l s)) as [s1 [[]|]]; auto. }
  destruct (try_attribute _ _) as [s1 [e|]]; [discriminate|]. cbn [fst] in *.
  pose proof (uframe_keep s1) as (A2 & _ & _ & TR2 & SL2 & _). destruct (uframe s1) as [s2 [e|]] eqn:UF; [discriminate|]. cbn [fst] in *.
  destruct (get_selected_file s2) as [lf2|e] eqn:G2; [|discriminate]. intros H. injection H as <-.
  assert (lf2 = lf).
  { rewrite (get_selected_sel s s2) in G2; [congruence|]. rewrite A2, A. reflexivity. }
  subst lf2. change (f_traj (set_traj l s)) with l in TR. pose proof (uframe_ok _ _ UF) as FR. split.
  - split; [exact G2|]. split; [cbn; rewrite TR2, TR; exact OL|]. split; [reflexivity|exact FR].
  - intros (sl & P1 & P2 & P3). destruct (PS sl P1) as (sl' & Q1 & Q2 & Q3). exists sl'. cbn. rewrite SL2. split; auto. split; [congruence|].
    destruct Q3 as [->|Q3]; auto. rewrite Q3. destruct FR as (f & _ & _ & RF & _). rewrite TR2, TR in RF. unfold read_frame in RF.
    destruct l; [|cbn [length]; lia]. exfalso. cbn in RF. destruct (index s2 <? 0)%Z eqn:X.
    + rewrite Z.add_0_r, X in RF. discriminate.
    + rewrite X in RF. apply Z.ltb_ge in X. apply Z.leb_le in X. rewrite X in RF. discriminate.
Qed.
Definition clean_effect (lf : leaf) (s s' : fig) (e : option exn) : Prop := e = None -> shown lf s' /\ (pos s -> pos s').
Lemma clean_one s lf : get_selected_file s = inl lf -> clean_effect lf s (fst (utraj s)) (snd (utraj s)).
Proof. intros G. unfold clean_effect. destruct (utraj s) as [s' e] eqn:E. cbn. intros ->. eapply utraj_ok; eauto. Qed.
Lemma clean_trans lf a b c e : clean_effect lf a b None -> clean_effect lf b c e -> clean_effect lf a c e.
Proof. unfold clean_effect. intros A B H. destruct (A eq_refl), (B H). auto. Qed.
Lemma clean_sel lf (a a' b : fig) e : f_slider a = f_slider a' -> rest a = rest a' -> player a = player a' ->
  clean_effect lf a' b e -> clean_effect lf a b e.
Proof. unfold clean_effect, pos. intros -> _ _. auto. Qed.

Lemma frame_or_skip a s s' : selecting a = false -> offered s a -> pos s -> (1 <= f_incr s)%Z -> framed s -> stp a s = (s', None) ->
  framed s' /\ pos s' /\ (1 <= f_incr s')%Z.
Proof.
  intros SL OF (sl & P1 & P2 & P3) IN FR.
  assert (SV : forall v, (0 <= v)%Z -> set_value timestep render v s = (s', None) -> framed s' /\ pos s' /\ (1 <= f_incr s')%Z).
  { intros v V H. split; [eapply set_value_ok; eauto|]. pose proof (set_value_slider v s sl P1) as X.
    destruct (set_value_keep v s) as (_ & R & _). rewrite H in X, R. cbn [fst] in X, R. unfold rest in R. injection R as _ _ _ _ _ -> _. split; auto.
    eexists; split; [exact X|]. cbn. auto. }
  destruct a; try discriminate; cbn [step offered] in *.
  - unfold set_oact_. destruct (Nat.eqb _ _); [intros H; injection H as <-; split; [|split]; auto; exists sl; auto|]. intros H. split; [eapply uframe_ok; eauto|].
    pose proof (uframe_keep (set_oact i s)) as (_ & R & _ & _ & X & _). rewrite H in X, R. cbn [fst] in X, R. unfold rest in R. injection R as _ _ _ _ _ -> _. split; auto.
    exists sl. rewrite X. auto.
  - destruct OF as (sl' & E & L & U). rewrite P1 in E. injection E as <-. apply SV. lia.
  - unfold do. intros H. injection H as <-. split; [exact FR|]. split; [exists sl; auto|]. cbn. lia.
  - unfold incr_index. rewrite P1. destruct (Z.ltb_spec (s_value sl) (s_end sl)); [apply SV; lia|]. intros H'. injection H' as <-. split; [|split]; auto. exists sl; auto.
  - unfold decr_index. rewrite P1. destruct (Z.ltb_spec (s_start sl) (s_value sl)); [apply SV; lia|]. intros H'. injection H' as <-. split; [|split]; auto. exists sl; auto.
  - unfold play_pause_toggle. destruct (f_playing s).
    + destruct (f_callback s); [|discriminate]. destruct (existsb _ _); [|discriminate]. intros H. injection H as <-. split; [exact FR|]. split; [exists sl; auto|auto].
    + intros H. injection H as <-. split; [exact FR|]. split; [exists sl; auto|auto].
  - unfold incr_index. rewrite P1. destruct (Z.ltb_spec (s_value sl) (s_end sl)); [apply SV; lia|]. intros H'. injection H' as <-. split; [|split]; auto. exists sl; auto.
Qed.
Lemma started_shown create models files orders orders' s0 : mkdoc create models files orders = (orders', inl s0) ->
  exists lf, shown lf s0 /\ pos s0 /\ f_incr s0 = 10%Z /\ plotted s0 = true /\
    f_slider s0 = Some (mk_slider 0 0 (Z.max (Z.of_nat (length (f_traj s0))) 1)) /\ f_oact s0 = 0%nat /\ player s0 = (false, None, [], 0%nat).
Proof.
  intros H. destruct (started _ _ _ _ _ _ H) as (vs & si & s1 & P & SI & U & CD). destruct (init_dir _ _ _ SI) as (FU & V & R).
  set (sj := set_oact 0 _) in U. destruct FU as (p & l3 & l2 & c & l1 & lf & FU). exists lf.
  assert (GJ : get_selected_file sj = inl lf) by (rewrite (get_selected_sel si sj eq_refl); eapply sel_file; eauto).
  destruct (utraj_ok _ _ _ GJ U) as ((G1 & OL & FN & FR) & _).
  pose proof (utraj_keep sj) as (_ & RJ & PJ). rewrite U in RJ, PJ. cbn [fst] in RJ, PJ.
  set (s2 := set_plot _ _) in CD. pose proof (create_doc_keep s2) as (A2 & B2 & C2 & T2 & S2). rewrite CD in A2, B2, C2, T2, S2. cbn [fst] in *.
  assert (PL : plotted s0 = true) by (unfold rest in B2; injection B2 as _ _ _ _ _ _ ->; reflexivity).
  assert (GS0 : get_selected_file s0 = inl lf) by (rewrite (get_selected_sel s2 s0 A2); exact G1).
  assert (IX : index s1 = 0%Z).
  { unfold index. replace (f_slider s1) with (@None slider); auto.
    assert (X : f_slider sj = None) by (injection R as _ _ _ _ _ _ _ _ X; exact X).
    pose proof U as U'. rewrite utraj_unfold, GJ in U'. destruct (open_leaf open_file lf) as [l|]; [|discriminate].
    assert (Y : try_attribute (correct l) (set_traj l sj) = (set_traj l sj, None)).
    { unfold try_attribute, correct, seq. change (f_slider (set_traj l sj)) with (f_slider sj). rewrite X. auto. }
    rewrite Y in U'. pose proof (uframe_keep (set_traj l sj)) as (_ & _ & _ & _ & Z' & _). destruct (uframe (set_traj l sj)) as [s3 [e|]]; [discriminate|].
    destruct (get_selected_file s3); [|discriminate]. injection U' as <-. cbn in *. rewrite Z'. auto. }
  assert (FR0 : framed s0 /\ f_filename s0 = leaf_name lf).
  { unfold create_doc, seq, reading, do in CD. destruct (update_data timestep render s2) as [s3 [e|]] eqn:UD; [discriminate|].
    destruct FR as (f & o & d & F1 & F2 & F3 & F4 & F5 & _).
    assert (FR3 : framed s3).
    { eapply (udata_ok s2 s3 f); eauto. change (f_traj s2) with (f_traj s1). change (index s2) with 0%Z. rewrite <- IX. exact F1. }
    pose proof (udata_keep s2) as (A3 & _). rewrite UD in A3. cbn [fst] in A3.
    rewrite (get_selected_sel s2 s3 A3) in CD. change (get_selected_file s2) with (get_selected_file s1) in CD. rewrite G1 in CD. injection CD as <-. split; [exact FR3|reflexivity]. }
  destruct FR0 as [FR0 FN0]. split; [|split; [|split; [|split; [|split; [|split]]]]].
  - split; [exact GS0|]. split; [rewrite T2; exact OL|]. auto.
  - eexists. split; [rewrite S2; reflexivity|]. cbn. lia.
  - unfold rest in B2. injection B2 as _ _ _ _ _ -> _. reflexivity.
  - exact PL.
  - rewrite S2, T2. reflexivity.
  - unfold rest in B2. injection B2 as _ _ _ _ -> _ _. unfold rest in RJ. injection RJ as _ _ _ _ RJ _ _. exact RJ.
  - rewrite C2. unfold player in *. injection PJ as P1 P2 P3 P4. cbn. rewrite P2, P3, P4. cbn. injection R as _ _ _ _ R5 R6 R7 R8 _. rewrite R6, R7, R8. auto.
Qed.
Lemma hist_shown create models files orders orders' s0 h s : mkdoc create models files orders = (orders', inl s0) -> hist s0 h s -> clean h ->
  exists lf, shown lf s /\ pos s /\ (1 <= f_incr s)%Z /\ plotted s = true.
Proof.
  intros MK. destruct (started_full _ _ _ _ _ _ MK) as (FU0 & PD & _). destruct (parsed _ _ PD) as [NE _].
  induction 1 as [|h s a s' e H IH OF ST]; intros CL.
  - destruct (started_shown _ _ _ _ _ _ MK) as (lf & A & B & C & E & _). exists lf. rewrite C. split; auto. split; auto. split; auto. lia.
  - assert (e = None) by (eapply (CL a); apply in_or_app; right; left; auto). subst e.
    destruct IH as (lf & SH & PO & IN & PL); [intros b x X; eapply (CL b); apply in_or_app; left; eauto|].
    destruct (hist_full _ _ _ NE FU0 H) as (FU & V & _). destruct (selecting a) eqn:SL.
    + assert (NE' : no_empty (f_vs s)) by (rewrite V; auto).
      destruct (select_effect clean_effect clean_one clean_trans clean_sel s a s' None NE' FU OF SL ST) as (_ & _ & _ & [[-> _]|(lf' & G & CE & K & _)]).
      * exists lf. auto.
      * destruct (CE eq_refl) as [X Y]. exists lf'. unfold rest in K. injection K as _ _ _ _ _ -> ->. auto.
    + destruct (frame_or_skip a s s' SL OF PO IN) as (A & B & C); auto; [apply SH|].
      destruct (other_keep a s SL) as (K1 & _ & _ & _ & K2 & K3 & K4). rewrite ST in *. cbn [fst] in *.
      exists lf. destruct SH as (S1 & S2 & S3 & S4). rewrite K4. split; auto. split; [rewrite (get_selected_sel s s' K1); auto|].
      rewrite K2, K3. auto.
Qed.

(** ** The periodic callback *)
Definition player_inv (n : nat) (s : fig) : Prop :=
  f_playing s = Nat.odd n /\ if Nat.odd n then exists k, f_callback s = Some k /\ f_doc s = [k] else f_doc s = [].
Definition plays (h : list (action * option exn)) : nat :=
  length (filter (fun ae => match fst ae with APlay => true | _ => false end) h).
Lemma player_other a s s' e : no_empty (f_vs s) -> is_full s -> offered s a -> a <> APlay -> stp a s = (s', e) -> player s' = player s.
Proof.
  intros NE FU OF N ST. destruct (selecting a) eqn:SL.
  - destruct (select_effect any_effect (fun _ _ _ => Logic.I) (fun _ _ _ _ _ _ _ => Logic.I) (fun _ _ _ _ _ _ _ _ _ => Logic.I) s a s' e NE FU OF SL ST)
      as (_ & _ & _ & [[-> _]|(lf & _ & _ & _ & K)]); auto.
  - replace s' with (fst (stp a s)) by (rewrite ST; auto). destruct a; try discriminate; try congruence; cbn [step].
    + unfold set_oact_. destruct (Nat.eqb _ _); auto. destruct (uframe_keep (set_oact i s)) as (_ & _ & K & _). exact K.
    + apply set_value_keep.
    + reflexivity.
    + apply incr_keep.
    + apply decr_keep.
    + apply incr_keep.
Qed.
Lemma hist_player s0 h s : no_empty (f_vs s0) -> is_full s0 -> player_inv 0 s0 -> hist s0 h s ->
  player_inv (plays h) s /\ forall e, In (APlay, e) h -> e = None.
Proof.
  intros NE FU P0. induction 1 as [|h s a s' e H IH OF ST]; [split; auto; intros e []|].
  destruct IH as [PI AL]. destruct (hist_full _ _ _ NE FU H) as (FU' & V & _). assert (NE' : no_empty (f_vs s)) by (rewrite V; auto).
  unfold plays. rewrite filter_app, app_length. fold (plays h).
  assert (DA : a = APlay \/ a <> APlay) by (destruct a; (left; reflexivity) || (right; discriminate)). destruct DA as [->|N].
  - cbn [filter fst length]. rewrite Nat.add_comm. cbn [Nat.add]. destruct PI as [PL D']. cbn [step] in ST. unfold play_pause_toggle in ST. rewrite PL in ST.
    unfold player_inv. rewrite Nat.odd_succ, <- Nat.negb_odd. destruct (Nat.odd (plays h)); cbn [negb].
    + destruct D' as (k & C & DO). rewrite C, DO in ST. cbn in ST. rewrite Nat.eqb_refl in ST. cbn in ST. injection ST as <- <-. split; [auto|].
      intros x X. apply in_app_or in X. destruct X as [X|[X|[]]]; [auto|congruence].
    + injection ST as <- <-. split.
      * split; [reflexivity|]. exists (f_fresh s). cbn. rewrite D'. auto.
      * intros x X. apply in_app_or in X. destruct X as [X|[X|[]]]; [auto|congruence].
  - assert (E0 : filter (fun ae : action * option exn => match fst ae with APlay => true | _ => false end) [(a, e)] = []) by (destruct a; cbn; congruence).
    rewrite E0. cbn [length]. rewrite Nat.add_0_r. pose proof (player_other a s s' e NE' FU' OF N ST) as K. unfold player in K. injection K as K1 K2 K3 _.
    split; [unfold player_inv in *; rewrite K1, K2, K3; auto|].
    intros x X. apply in_app_or in X. destruct X as [X|[X|[]]]; [auto|congruence].
Qed.

(** ** The slider, when all files are healthy *)
Definition good (l : list (F + exn)) : Prop := l <> [] /\ forall r, In r l -> exists x, r = inl x.
Definition drawable (s : fig) : Prop := forall f, exists d, andthen (get_order_function s) (fun o => render o f) = inl d.
Lemma drawable_rest s s' : rest s' = rest s -> drawable s -> drawable s'.
Proof. unfold rest. intros H. injection H as _ _ A _ B _ _. unfold drawable, get_order_function. rewrite A, B. auto. Qed.
Lemma good_read l i : good l -> (0 <= i)%Z ->
  read_frame l i = inr IndexError /\ (Z.of_nat (length l) <= i)%Z \/ (exists f, read_frame l i = inl f /\ nth_error l (Z.to_nat i) = Some (inl f)) /\ (i < Z.of_nat (length l))%Z.
Proof.
  intros [_ G] P. unfold read_frame. destruct (Z.ltb_spec i 0); [lia|]. destruct (Z.ltb_spec i 0); [lia|]. cbn [orb].
  destruct (Z.leb_spec (Z.of_nat (length l)) i); [left; auto|]. right. split; auto.
  destruct (nth_error l (Z.to_nat i)) as [r|] eqn:E; [|apply nth_error_None in E; lia].
  destruct (G r (nth_error_In _ _ E)) as (x & ->). eauto.
Qed.
Lemma uframe_good s : good (f_traj s) -> drawable s -> (0 <= index s)%Z ->
  snd (uframe s) = if (index s <? Z.of_nat (length (f_traj s)))%Z then None else Some IndexError.
Proof.
  intros G DR P. unfold update_frame, reading, seq, do. destruct (good_read _ _ G P) as [[-> L]|[(f & -> & _) L]].
  - destruct (Z.ltb_spec (index s) (Z.of_nat (length (f_traj s)))); [lia|]. auto.
  - destruct (Z.ltb_spec (index s) (Z.of_nat (length (f_traj s)))); [|lia]. unfold update_data. cbn [f_frame set_frame].
    destruct (DR f) as (d & E). unfold get_order_function in *. destruct (f_plot (set_frame (Some f) s)); cbn [f_orders f_oact set_plot set_frame]; rewrite E; auto.
Qed.
Lemma set_value_good v s sl : f_slider s = Some sl -> good (f_traj s) -> drawable s -> (0 <= v)%Z ->
  snd (set_value timestep render v s) = if (v =? s_value sl)%Z then None else if (v <? Z.of_nat (length (f_traj s)))%Z then None else Some IndexError.
Proof.
  intros H G DR V. unfold set_value. rewrite H. destruct (v =? s_value sl)%Z; auto. rewrite uframe_good; auto.
Qed.
Lemma utraj_good s lf l sl : get_selected_file s = inl lf -> open_leaf open_file lf = inl l -> good l -> drawable s ->
  f_slider s = Some sl -> (0 <= s_value sl)%Z ->
  let n := Z.of_nat (length l) in let s' := fst (utraj s) in
  f_traj s' = l /\ f_slider s' = Some (mk_slider (if (n <? s_value sl)%Z then n - 1 else s_value sl)%Z (s_start sl) (n - 1)%Z) /\
  snd (utraj s) = if (s_value sl =? n)%Z then Some IndexError else None.
Proof.
  intros G OL GL DR SL P n s'. assert (NP : (1 <= n)%Z) by (unfold n; destruct GL as [N _]; destruct l; [congruence|cbn [length]; lia]).
  pose proof (utraj_unfold s) as U. rewrite G, OL in U.
  assert (CO : exists s1, correct l (set_traj l s) = (s1, None) /\ f_traj s1 = l /\ sel s1 = sel s /\ rest s1 = rest s /\
     f_slider s1 = Some (mk_slider (if (n <? s_value sl)%Z then n - 1 else s_value sl)%Z (s_start sl) (n - 1)%Z)).
  { clear U. pose proof (correct_keep l (set_traj l s)) as (A & B & _ & C & _). unfold correct, seq in *. change (f_slider (set_traj l s)) with (f_slider s) in *.
    rewrite SL in *. fold n. fold n in A, B, C. destruct (Z.ltb_spec n (s_value sl)) as [L|L].
    - pose proof (set_value_slider (n - 1) (set_traj l s) sl SL) as X.
      pose proof (set_value_good (n - 1) (set_traj l s) sl SL GL DR ltac:(lia)) as Y. pose proof (set_value_keep (n - 1) (set_traj l s)) as (_ & _ & _ & TR & _).
      change (f_traj (set_traj l s)) with l in *. fold n in Y.
      destruct (set_value timestep render (n - 1) (set_traj l s)) as [s1 e1]. cbn [fst snd] in *.
      assert (e1 = None). { rewrite Y. destruct (Z.eqb_spec (n - 1) (s_value sl)); auto. destruct (Z.ltb_spec (n - 1) n); auto. lia. }
      clear Y. subst e1. unfold set_end in *. rewrite X in *. cbn [fst snd] in *. eexists. split; [reflexivity|]. cbn [f_slider set_slider f_traj]. rewrite TR. auto.
    - unfold set_end in *. change (f_slider (set_traj l s)) with (f_slider s) in *. rewrite SL in *. eexists. split; [reflexivity|]. auto. }
  destruct CO as (s1 & CO & T1 & S1 & R1 & L1). unfold try_attribute in U. rewrite CO in U.
  assert (I1 : index s1 = (if (n <? s_value sl)%Z then n - 1 else s_value sl)%Z) by (unfold index; rewrite L1; auto).
  pose proof (uframe_keep s1) as (A2 & B2 & _ & T2 & L2 & _).
  pose proof (uframe_good s1) as UG. rewrite T1 in UG. fold n in UG. specialize (UG GL (drawable_rest _ _ R1 DR)).
  rewrite I1 in UG. destruct (uframe s1) as [s2 e2]. cbn [fst snd] in *.
  assert (E2 : e2 = if (s_value sl =? n)%Z then Some IndexError else None).
  { rewrite UG; [|destruct (Z.ltb_spec n (s_value sl)); lia]. destruct (Z.ltb_spec n (s_value sl)).
    - destruct (Z.ltb_spec (n - 1) n); [|lia]. destruct (Z.eqb_spec (s_value sl) n); [lia|auto].
    - destruct (Z.ltb_spec (s_value sl) n), (Z.eqb_spec (s_value sl) n); auto; lia. }
  assert (G2 : get_selected_file s2 = inl lf) by (rewrite (get_selected_sel s s2); [auto|rewrite A2; auto]).
  unfold s'. rewrite U. clear U. destruct e2 as [e2|].
  - cbn [fst snd]. rewrite T2, L2. auto.
  - rewrite G2. cbn. rewrite T2, L2. auto.
Qed.
Definition opened (l : list (F + exn)) (s s' : fig) (e : option exn) : Prop :=
  forall sl, f_slider s = Some sl -> (0 <= s_value sl)%Z ->
  let n := Z.of_nat (length l) in
  f_traj s' = l /\ f_slider s' = Some (mk_slider (if (n <? s_value sl)%Z then n - 1 else s_value sl)%Z (s_start sl) (n - 1)%Z) /\
  e = if (s_value sl =? n)%Z then Some IndexError else None.
Definition good_effect (lf : leaf) (s s' : fig) (e : option exn) : Prop :=
  rest s' = rest s /\ forall l, open_leaf open_file lf = inl l -> good l -> drawable s -> opened l s s' e.
Lemma good_one s lf : get_selected_file s = inl lf -> good_effect lf s (fst (utraj s)) (snd (utraj s)).
Proof.
  intros G. split; [apply utraj_keep|]. intros l OL GL DR sl SL P. eapply utraj_good; eauto.
Qed.
Lemma good_trans lf a b c e : good_effect lf a b None -> good_effect lf b c e -> good_effect lf a c e.
Proof.
  intros [R1 A] [R2 B]. split; [congruence|]. intros l OL GL DR sl SL P n.
  destruct (A l OL GL DR sl SL P) as (_ & S1 & E1). fold n in S1, E1.
  assert (NP : (1 <= n)%Z) by (unfold n; destruct GL as [N _]; destruct l; [congruence|cbn [length]; lia]).
  assert (V : s_value sl <> n) by (intros V; rewrite (proj2 (Z.eqb_eq _ _) V) in E1; discriminate). 
  destruct (B l OL GL (drawable_rest _ _ R1 DR) _ S1) as (T2 & S2 & E2).
  { cbn. destruct (Z.ltb_spec n (s_value sl)); lia. }
  fold n in S2, E2. cbn [s_value s_start] in S2, E2. split; auto. destruct (Z.eqb_spec (s_value sl) n); [congruence|].
  destruct (Z.ltb_spec n (s_value sl)).
  - destruct (Z.ltb_spec n (n - 1)); [lia|]. destruct (Z.eqb_spec (n - 1) n); [lia|]. auto.
  - destruct (Z.ltb_spec n (s_value sl)); [lia|]. destruct (Z.eqb_spec (s_value sl) n); [lia|]. auto.
Qed.
Lemma good_sel lf (a a' b : fig) e : f_slider a = f_slider a' -> rest a = rest a' -> player a = player a' ->
  good_effect lf a' b e -> good_effect lf a b e.
Proof.
  intros S' R P [X Y]. split; [congruence|]. intros l OL GL DR. unfold opened. rewrite S'. apply Y; auto. apply (drawable_rest a a'); auto.
Qed.

(** The invariant. *)
Definition slider_inv (files : list string) (s0 s : fig) : Prop :=
  exists f sl, get_selected_file s = inl (LFile f) /\ In f files /\ open_file f = inl (f_traj s) /\ good (f_traj s) /\ drawable s /\
    f_slider s = Some sl /\ s_start sl = 0%Z /\ (0 <= s_value sl <= Z.of_nat (length (f_traj s)))%Z /\ (1 <= f_incr s)%Z /\
    (s_end sl = (Z.of_nat (length (f_traj s)) - 1)%Z \/ s_end sl = Z.of_nat (length (f_traj s)) /\ get_selected_file s = get_selected_file s0).
Lemma order_drawable (s : fig) i : (forall k o, sget k (f_orders s) = Some o -> forall x, exists d, render o x = inl d) ->
  f_labels s = dkeys (f_orders s) -> (i < length (f_labels s))%nat -> drawable (set_oact i s).
Proof.
  intros H L I'. rewrite L in I'. destruct (item_lt _ _ I') as (k & IT). intros f. unfold get_order_function.
  change (f_orders (set_oact i s)) with (f_orders s). change (f_oact (set_oact i s)) with i. rewrite IT. cbn [andthen].
  apply item_in in IT. apply (dget_In String.eqb String.eqb_eq) in IT. unfold at_. destruct (sget k (f_orders s)) as [o|] eqn:E; [|congruence].
  cbn [andthen]. destruct (H k o E f) as (d & ->). eauto.
Qed.
(** What one action that selects nothing does to the slider. *)
Lemma other_slider a s s' e sl : selecting a = false -> offered s a -> f_slider s = Some sl -> s_start sl = 0%Z ->
  (0 <= s_value sl <= s_end sl + 1)%Z -> (1 <= f_incr s)%Z -> good (f_traj s) -> drawable s ->
  (forall k o, sget k (f_orders s) = Some o -> forall x, exists d, render o x = inl d) -> f_labels s = dkeys (f_orders s) ->
  (a = APlay -> e = None) -> stp a s = (s', e) ->
  exists v, f_slider s' = Some (mk_slider v 0 (s_end sl)) /\ (0 <= v)%Z /\ (v = s_value sl \/ v <= s_end sl)%Z /\ drawable s' /\ (1 <= f_incr s')%Z /\
    (e = None \/ e = Some IndexError /\ (Z.of_nat (length (f_traj s)) <= v)%Z).
Proof.
  intros SL OF S1 S2 S3 IN GT DR RD LB AP.
  assert (SE : sl = mk_slider (s_value sl) 0 (s_end sl)) by (destruct sl; cbn in *; subst; auto).
  assert (SAME : forall s'' : fig, f_slider s'' = f_slider s -> drawable s'' -> (1 <= f_incr s'')%Z -> (s'', None) = (s', e) ->
    exists v, f_slider s' = Some (mk_slider v 0 (s_end sl)) /\ (0 <= v)%Z /\ (v = s_value sl \/ v <= s_end sl)%Z /\ drawable s' /\ (1 <= f_incr s')%Z /\
    (e = None \/ e = Some IndexError /\ (Z.of_nat (length (f_traj s)) <= v)%Z)).
  { intros s'' A B C H. injection H as <- <-. exists (s_value sl). rewrite A, S1, <- SE. split; auto. split; [lia|]. auto. }
  assert (SV : forall v, (0 <= v <= s_end sl)%Z -> set_value timestep render v s = (s', e) ->
    exists v, f_slider s' = Some (mk_slider v 0 (s_end sl)) /\ (0 <= v)%Z /\ (v = s_value sl \/ v <= s_end sl)%Z /\ drawable s' /\ (1 <= f_incr s')%Z /\
    (e = None \/ e = Some IndexError /\ (Z.of_nat (length (f_traj s)) <= v)%Z)).
  { intros v V H. exists v. pose proof (set_value_slider v s sl S1) as X. pose proof (set_value_keep v s) as (_ & R & _).
    pose proof (set_value_good v s sl S1 GT DR ltac:(lia)) as Y. rewrite H in X, R, Y. cbn [fst snd] in *. rewrite S2 in X.
    split; auto. split; [lia|]. split; [lia|]. split; [eapply drawable_rest; eauto|]. split; [unfold rest in R; injection R as _ _ _ _ _ -> _; auto|].
    destruct (v =? s_value sl)%Z; auto. destruct (Z.ltb_spec v (Z.of_nat (length (f_traj s)))); auto. }
  destruct a; try discriminate; cbn [step offered] in *.
  - unfold set_oact_. destruct (Nat.eqb i (f_oact s)) eqn:EO; [apply SAME; auto|]. intros H.
    pose proof (order_drawable s i RD LB OF) as DR'. pose proof (uframe_keep (set_oact i s)) as (_ & R & _ & _ & X & _).
    pose proof (uframe_good (set_oact i s) GT DR') as Y. rewrite H in R, X, Y. cbn [fst snd] in *. exists (s_value sl).
    change (f_slider (set_oact i s)) with (f_slider s) in X. change (f_traj (set_oact i s)) with (f_traj s) in Y.
    rewrite X, S1, <- SE. split; auto. split; [lia|]. split; auto. split; [eapply drawable_rest; eauto|].
    split; [unfold rest in R; injection R as _ _ _ _ _ -> _; auto|].
    assert (IX : index (set_oact i s) = s_value sl) by (unfold index; change (f_slider (set_oact i s)) with (f_slider s); rewrite S1; auto).
    rewrite IX in Y. specialize (Y ltac:(lia)). rewrite Y. destruct (Z.ltb_spec (s_value sl) (Z.of_nat (length (f_traj s)))); auto.
  - destruct OF as (sl' & E & L & U). rewrite S1 in E. injection E as <-. apply SV. lia.
  - unfold do. apply SAME; auto. cbn. lia.
  - unfold incr_index. rewrite S1. destruct (Z.ltb_spec (s_value sl) (s_end sl)); [apply SV; lia|]. apply SAME; auto.
  - unfold decr_index. rewrite S1. destruct (Z.ltb_spec (s_start sl) (s_value sl)); [|apply SAME; auto]. apply SV. lia.
  - rewrite (AP eq_refl) in *. unfold play_pause_toggle. destruct (f_playing s).
    + destruct (f_callback s); [|discriminate]. destruct (existsb _ _); [apply SAME; auto|discriminate].
    + apply SAME; auto.
  - unfold incr_index. rewrite S1. destruct (Z.ltb_spec (s_value sl) (s_end sl)); [apply SV; lia|]. apply SAME; auto.
Qed.
(** What one action that selects does. *)
Lemma select_slider files s a s' e sl : no_empty (f_vs s) -> is_full s -> selects_one_of files s' ->
  offered s a -> selecting a = true -> stp a s = (s', e) -> healthy render open_file files (f_orders s) ->
  f_slider s = Some sl -> (0 <= s_value sl)%Z -> drawable s ->
  (s' = s /\ e = None) \/ exists f l, get_selected_file s' = inl (LFile f) /\ In f files /\ open_file f = inl l /\ good l /\ rest s' = rest s /\ opened l s s' e.
Proof.
  intros NE FU SO OF SL ST HE SS P DR.
  destruct (select_effect good_effect good_one good_trans good_sel s a s' e NE FU OF SL ST) as (_ & _ & _ & [X|(lf & G & GE & _)]); auto.
  right. destruct SO as (p & c & f & _ & _ & G' & LW). rewrite G in G'. injection G' as ->.
  assert (IF : In f files) by (destruct LW as (x & y & -> & _); apply in_or_app; right; left; auto).
  destruct (proj1 HE f IF) as (l & OL & N & R). exists f, l. destruct GE as [RE GE]. repeat (split; [assumption|]).
  split; [split; auto|]. split; auto. apply GE; auto. split; auto.
Qed.
Lemma hist_slider create models files orders orders' s0 h s : mkdoc create models files orders = (orders', inl s0) ->
  healthy render open_file files orders' -> hist s0 h s -> slider_inv files s0 s /\ forall a e, In (a, e) h -> e = None \/ e = Some IndexError.
Proof.
  intros MK HE. destruct (started_full _ _ _ _ _ _ MK) as (FU0 & PD & O0 & L0). destruct (parsed _ _ PD) as [NE LK].
  destruct (started_shown _ _ _ _ _ _ MK) as (lf & SH & PO & IN & PL & SL0 & OA & PLY).
  assert (P0 : player_inv 0 s0) by (unfold player in PLY; injection PLY as A B C _; split; auto).
  assert (SO : forall h' s', hist s0 h' s' -> selects_one_of files s').
  { intros h' s' H'. destruct (hist_full _ _ _ NE FU0 H') as (FU & V & _). apply full_selects; rewrite ?V; auto. }
  induction 1 as [|h s a s' e H IH OF ST].
  - split; [|intros a e []]. destruct (SO [] s0 (h_start _ _ _ s0)) as (p & c & f & _ & _ & G & LW).
    destruct SH as (G' & OL & _ & FR). rewrite G in G'. injection G' as <-. cbn in OL.
    assert (IF : In f files) by (destruct LW as (x & y & -> & _); apply in_or_app; right; left; auto).
    destruct (proj1 HE f IF) as (l & OL' & N & R). rewrite OL in OL'. injection OL' as <-.
    exists f. eexists. split; [exact G|]. split; [exact IF|]. split; [exact OL|]. split; [split; auto|]. split.
    { destruct FR as (fr & o & d & _ & GO & _). intros x. rewrite GO. cbn [andthen]. unfold get_order_function in GO.
      destruct (item (dkeys (f_orders s0)) (f_oact s0)) as [k|]; [|discriminate]. cbn [andthen] in GO. unfold at_ in GO.
      destruct (sget k (f_orders s0)) as [o'|] eqn:EO; [|discriminate]. injection GO as ->. rewrite O0 in EO. apply (proj2 HE k o EO). }
    split; [exact SL0|]. cbn [s_start s_value s_end]. split; auto. split; [lia|]. split; [lia|]. right.
    split; auto. destruct (f_traj s0); [congruence|]. cbn [length]. lia.
  - destruct IH as [(f & sl & G & IF & OL & GT & DR & S1 & S2 & S3 & IN' & EN) AL].
    destruct (hist_full _ _ _ NE FU0 H) as (FU & V & OO & LL).
    assert (H' : hist s0 (h ++ [(a, e)])%list s') by (econstructor; eauto). pose proof (SO _ _ H') as SO'.
    destruct (hist_player _ _ _ NE FU0 P0 H') as [_ AP].
    assert (HE' : healthy render open_file files (f_orders s)) by (rewrite OO, O0; auto).
    destruct (selecting a) eqn:SL.
    + destruct (select_slider files s a s' e sl ltac:(rewrite V; auto) FU SO' OF SL ST HE' S1 ltac:(lia) DR) as [[-> ->]|(f' & l & G' & IF' & OL' & GL & RE & OP)].
      * split; [exists f, sl; auto 12|]. intros b x X. apply in_app_or in X. destruct X as [X|[X|[]]]; [eauto|]. left. congruence.
      * destruct (OP sl S1 ltac:(lia)) as (T' & S1' & E'). set (n := Z.of_nat (length l)) in *.
        assert (NP : (1 <= n)%Z) by (unfold n; destruct GL as [N _]; destruct l; [congruence|cbn [length]; lia]). split.
        -- exists f'. eexists. split; [exact G'|]. split; [exact IF'|]. rewrite T'. fold n. split; [exact OL'|]. split; [exact GL|].
           split; [eapply drawable_rest; eauto|]. split; [exact S1'|]. cbn [s_start s_value s_end]. split; auto.
           split; [destruct (Z.ltb_spec n (s_value sl)); lia|]. split; [unfold rest in RE; injection RE as _ _ _ _ _ -> _; auto|]. auto.
        -- intros b x X. apply in_app_or in X. destruct X as [X|[X|[]]]; [eauto|]. injection X as _ <-. rewrite E'. destruct (_ =? _)%Z; auto.
    + destruct (other_slider a s s' e sl SL OF S1 S2) as (v & A1 & A2 & A3 & A4 & A5 & A6); auto; [lia|apply HE'|rewrite OO, LL, O0; auto| |].
      { intros ->. apply AP. apply in_or_app. right. left. auto. }
      pose proof (other_keep a s SL) as (K1 & _ & _ & _ & K2 & _). rewrite ST in K1, K2. cbn [fst] in K1, K2. split.
      * exists f. eexists. rewrite (get_selected_sel s s' K1), K2. split; [exact G|]. split; [exact IF|]. split; [exact OL|]. split; [exact GT|].
        split; [exact A4|]. split; [exact A1|]. cbn [s_start s_value s_end]. split; auto. split; [lia|]. split; auto.
      * intros b x X. apply in_app_or in X. destruct X as [X|[X|[]]]; [eauto|]. injection X as _ <-. destruct A6 as [->|[-> _]]; auto.
Qed.
End Proofs.

(** ** The dictionary of the class *)
Section Orders.
Context {O : Type} (create : string -> O + exn).
Lemma dset_prefix {V} k (v : V) d : exists l, dkeys (sset k v d) = (dkeys d ++ l)%list.
Proof.
  induction d as [|[k' v'] d IH]; cbn; [exists [k]; auto|]. destruct (String.eqb k k'); cbn.
  - exists []. rewrite app_nil_r. auto.
  - destruct IH as (l & IH). exists l. unfold dkeys in IH. rewrite IH. auto.
Qed.
Lemma add_prefix models : forall d d' e, add_models create models d = (d', e) -> exists l, dkeys d' = (dkeys d ++ l)%list.
Proof.
  induction models as [|m ms IH]; intros d d' e H; cbn in H; [injection H as <- _; exists []; rewrite app_nil_r; auto|].
  destruct (create m) as [o|x]; [|injection H as <- _; exists []; rewrite app_nil_r; auto].
  destruct (IH _ _ _ H) as (l & ->). destruct (dset_prefix (path_stem m) (Some o) d) as (l' & ->). rewrite <- app_assoc. eauto.
Qed.
Lemma under_trans l1 l2 k a b c : under create l1 k a b -> under create l2 k b c -> under create (l1 ++ l2)%list k a c.
Proof.
  intros A [(x & m & y & o & -> & S' & C & -> & N)|[N ->]].
  - left. exists (l1 ++ x)%list, m, y, o. rewrite <- app_assoc. auto.
  - destruct A as [(x & m & y & o & -> & S' & C & -> & N')|[N' ->]].
    + left. exists x, m, (y ++ l2)%list, o. rewrite <- app_assoc. repeat split; auto. intros z Z. apply in_app_or in Z. destruct Z; auto.
    + right. split; auto. intros z Z. apply in_app_or in Z. destruct Z; auto.
Qed.
Lemma add_under models loaded : loads create models loaded -> forall d d' e k, add_models create models d = (d', e) -> under create loaded k (sget k d) (sget k d').
Proof.
  induction 1 as [|m ms l o C L IH|m ms x C]; intros d d' e k H; cbn in H.
  - injection H as <- _. right. split; auto. 
  - rewrite C in H. change (m :: l) with ([m] ++ l)%list. eapply under_trans; [|eapply IH; eauto].
    destruct (String.eqb_spec (path_stem m) k) as [<-|N].
    + left. exists [], m, [], o. rewrite sget_same. repeat split; auto.
    + right. split; [intros x [<-|[]]; auto|]. apply sget_other. auto.
  - rewrite C in H. injection H as <- _. right. split; auto.
Qed.
Lemma grown_spec d l d' : grown create d l d' -> (exists more, dkeys d' = (dkeys d ++ more)%list) /\ forall k, under create l k (sget k d) (sget k d').
Proof.
  induction 1 as [|l d1 models loaded d2 e G [(m1 & IH1) IH2] L A].
  - split; [exists []; rewrite app_nil_r; auto|]. intros k. right. split; auto.
  - destruct (add_prefix _ _ _ _ A) as (m2 & ->). rewrite IH1. split; [exists (m1 ++ m2)%list; rewrite app_assoc; auto|].
    intros k. eapply under_trans; eauto. eapply add_under; eauto.
Qed.
Lemma loads_total models : exists l, loads create models l.
Proof.
  induction models as [|m ms (l & IH)]; [exists []; constructor|]. destruct (create m) as [o|e] eqn:E.
  - exists (m :: l). econstructor; eauto.
  - exists []. econstructor; eauto.
Qed.
End Orders.
