(** Properties C91, C92, C119, C120, C121: the interactive figure. *)
From Coq Require Import String Ascii ZArith List Bool Lia.
From Verif Require Import Base DictFacts FrameModel ParamsModel DirectoryProps FigureModel FigureSpec FigureProofs.
Import ListNotations.
Notation length := List.length.

(** ** C92: the selected file is always a file of the directory, the one of the name shown, whatever the
    files, frames and classifications do: also after actions that raised. *)
Theorem C92_selected_file : forall (F O D : Type) (timestep : F -> Z) (render : option O -> F -> D + exn) open_file
    create models files orders orders' s0 h s,
  make_document timestep render open_file create models files orders = (orders', inl s0) ->
  history timestep render open_file s0 h s -> selects_one_of files s.
Proof.
  intros. destruct (started_full _ _ _ _ _ _ _ _ _ H) as (FU0 & PD & _). destruct (parsed _ _ PD) as [NE LK].
  destruct (hist_full _ _ _ _ _ _ NE FU0 H0) as (FU & V & _). apply full_selects; rewrite ?V; auto.
Qed.
(** And every file can be selected, from every state, by four actions: every file that is not hidden by a
    later file of the same four values. *)
Theorem C92_every_file : forall (F O D : Type) (timestep : F -> Z) (render : option O -> F -> D + exn) open_file
    create models files orders orders' s0 h s k f,
  make_document timestep render open_file create models files orders = (orders', inl s0) ->
  history timestep render open_file s0 h s -> last_with files k (Some f) ->
  exists h' s', history timestep render open_file s0 (h ++ h') s' /\ (length h' <= 4)%nat /\ get_selected_file s' = inl (LFile f).
Proof.
  intros. destruct (started_full _ _ _ _ _ _ _ _ _ H) as (FU0 & PD & _). destruct (parsed _ _ PD) as [NE LK].
  destruct (hist_full _ _ _ _ _ _ NE FU0 H0) as (FU & V & _). destruct (LK k) as (r & LW & L).
  assert (r = Some f).
  { destruct r as [g|].
    - destruct H1 as (a & b & E1 & K1 & N1). destruct LW as (a' & b' & E2 & K2 & N2).
      assert (E : (a ++ f :: b)%list = (a' ++ g :: b')%list) by congruence. f_equal.
      clear - E N1 N2 K1 K2. revert a' E. induction a as [|x a IH]; intros [|y a'] E; cbn in E; injection E as EX E.
      + auto.
      + subst. exfalso. apply (N1 g); auto. apply in_or_app. right. left. auto.
      + subst. exfalso. apply (N2 f); auto. apply in_or_app. right. left. auto.
      + eapply IH; eauto.
    - exfalso. destruct H1 as (a & b & E1 & K1 & N1). apply (LW f); auto. rewrite E1. apply in_or_app. right. left. auto. }
  subst r. cbn in L. destruct k as [[[p t] c] r]. rewrite <- V in L.
  destruct (reach_key timestep render open_file s p t c r (LFile f)) as (h' & s' & A & B & C); auto; [rewrite V; auto|].
  exists h', s'. split; auto. eapply hist_app; eauto.
Qed.
(** A directory without files has no figure. *)
Theorem C92_no_files : forall (F O D : Type) (timestep : F -> Z) (render : option O -> F -> D + exn) open_file
    create models orders orders',
  add_models create models orders = (orders', None) ->
  make_document timestep render open_file create models [] orders = (orders', inr IndexError).
Proof. intros. unfold make_document. rewrite H. reflexivity. Qed.

(** ** C119: after a history in which nothing raised, the frame at the slider of the selected file is shown,
    coloured by the function chosen, and the file's name and the timestep are shown. *)
Theorem C119_shown : forall (F O D : Type) (timestep : F -> Z) (render : option O -> F -> D + exn) open_file
    create models files orders orders' s0 h s,
  make_document timestep render open_file create models files orders = (orders', inl s0) ->
  history timestep render open_file s0 h s -> clean h ->
  exists f label o, get_selected_file s = inl (LFile f) /\ nth_error (f_labels s) (f_oact s) = Some label /\
    dget String.eqb label orders' = Some o /\ shows timestep render open_file s f (index s) o.
Proof.
  intros. pose proof (C92_selected_file _ _ _ _ _ _ _ _ _ _ _ _ _ _ H H0) as (p & c & f & _ & _ & G & _).
  destruct (hist_shown _ _ _ _ _ _ _ _ _ _ _ H H0 H1) as (lf & (G' & OL & FN & FR) & (sl & P1 & P2 & P3) & _ & PL).
  rewrite G in G'. injection G' as <-. cbn in OL. destruct FR as (fr & o & d & RF & GO & RE & FF & DD & PP).
  destruct (started_full _ _ _ _ _ _ _ _ _ H) as (FU0 & PD & O0 & L0). destruct (parsed _ _ PD) as [NE _].
  destruct (hist_full _ _ _ _ _ _ NE FU0 H0) as (_ & _ & OO & LL).
  unfold get_order_function in GO. rewrite OO, O0 in GO. rewrite LL, L0. unfold item in GO.
  destruct (nth_error (dkeys orders') (f_oact s)) as [label|] eqn:EL; [|discriminate]. cbn [andthen] in GO. unfold at_ in GO.
  destruct (dget String.eqb label orders') as [o'|] eqn:EO; [|discriminate]. injection GO as ->.
  exists f, label, o. split; auto. split; auto. split; auto.
  assert (IX : (0 <= index s)%Z) by (unfold index; rewrite P1; auto).
  unfold read_frame in RF. destruct (Z.ltb_spec (index s) 0); [lia|]. destruct (Z.ltb_spec (index s) 0); [lia|]. cbn [orb] in RF.
  destruct (Z.leb_spec (Z.of_nat (length (f_traj s))) (index s)); [discriminate|].
  destruct (nth_error (f_traj s) (Z.to_nat (index s))) as [r|] eqn:EN; [|discriminate]. subst r.
  exists (f_traj s), fr, d. auto 10.
Qed.

(** ** C120: there is exactly one periodic callback while the figure plays, none otherwise, and the button never
    raises. *)
Theorem C120_playing : forall (F O D : Type) (timestep : F -> Z) (render : option O -> F -> D + exn) open_file
    create models files orders orders' s0 h s,
  make_document timestep render open_file create models files orders = (orders', inl s0) ->
  history timestep render open_file s0 h s ->
  let n := length (filter (fun ae => match fst ae with APlay => true | _ => false end) h) in
  f_playing s = Nat.odd n /\ length (f_doc s) = (n mod 2)%nat /\ forall e, In (APlay, e) h -> e = None.
Proof.
  intros. destruct (started_full _ _ _ _ _ _ _ _ _ H) as (FU0 & PD & _). destruct (parsed _ _ PD) as [NE _].
  destruct (started_shown _ _ _ _ _ _ _ _ _ H) as (_ & _ & _ & _ & _ & _ & _ & PLY).
  assert (P0 : player_inv 0 s0) by (unfold player in PLY; injection PLY as A B C _; split; auto).
  destruct (hist_player _ _ _ _ _ _ NE FU0 P0 H0) as [[A B] C]. change (plays h) with n in *. split; auto. split; auto.
  pose proof (Nat.div_mod n 2 ltac:(lia)) as DM. pose proof (Nat.mod_upper_bound n 2 ltac:(lia)) as UB.
  destruct (Nat.odd n) eqn:OD.
  - destruct B as (k & _ & ->). apply Nat.odd_spec in OD. destruct OD as (m & ->). cbn [length].
    rewrite Nat.add_comm, Nat.mul_comm, Nat.mod_add; auto.
  - rewrite B. assert (EV : Nat.even n = true) by (rewrite <- Nat.negb_odd, OD; auto). apply Nat.even_spec in EV. destruct EV as (m & ->).
    rewrite Nat.mul_comm, Nat.mod_mul; auto.
Qed.

(** ** C91: with healthy files the slider is at most one beyond the last frame, ... *)
Theorem C91_bounds_partial : forall (F O D : Type) (timestep : F -> Z) (render : option O -> F -> D + exn) open_file
    create models files orders orders' s0 h s,
  make_document timestep render open_file create models files orders = (orders', inl s0) ->
  healthy render open_file files orders' -> history timestep render open_file s0 h s ->
  (forall a e, In (a, e) h -> e = None \/ e = Some IndexError) /\
  exists f frames sl, get_selected_file s = inl (LFile f) /\ open_file f = inl frames /\ f_slider s = Some sl /\
    let n := Z.of_nat (length frames) in
    s_start sl = 0%Z /\ (0 <= s_value sl <= n)%Z /\
    (s_end sl = n - 1 \/ s_end sl = n /\ get_selected_file s = get_selected_file s0)%Z.
Proof.
  intros. destruct (hist_slider _ _ _ _ _ _ _ _ _ _ _ H H0 H1) as [(f & sl & G & IF & OL & GT & DR & S1 & S2 & S3 & IN & EN) AL].
  split; auto. exists f, (f_traj s), sl. auto 10.
Qed.
(** ... and once it points at a frame and its end is right, this stays so, and nothing raises, until a file is
    selected that has exactly as many frames as the index. *)
Theorem C91_stays_partial : forall (F O D : Type) (timestep : F -> Z) (render : option O -> F -> D + exn) open_file
    create models files orders orders' s0 h s a s' e sl f frames,
  make_document timestep render open_file create models files orders = (orders', inl s0) ->
  healthy render open_file files orders' -> history timestep render open_file s0 h s ->
  get_selected_file s = inl (LFile f) -> open_file f = inl frames -> f_slider s = Some sl ->
  s_end sl = (Z.of_nat (length frames) - 1)%Z -> (s_value sl < Z.of_nat (length frames))%Z ->
  offered s a -> step timestep render open_file a s = (s', e) ->
  (forall f' frames', get_selected_file s' = inl (LFile f') -> open_file f' = inl frames' -> Z.of_nat (length frames') <> s_value sl) ->
  e = None /\ points_at_frame open_file s' /\
  exists f' frames' sl', get_selected_file s' = inl (LFile f') /\ open_file f' = inl frames' /\ f_slider s' = Some sl' /\
    s_end sl' = (Z.of_nat (length frames') - 1)%Z /\ (s_value sl' < Z.of_nat (length frames'))%Z.
Proof.
  intros until frames. intros MK HE HI G0 OL0 SL0 EN0 V0 OF ST NN.
  destruct (hist_slider _ _ _ _ _ _ _ _ _ _ _ MK HE HI) as [(f1 & sl1 & G & IF & OL & GT & DR & S1 & S2 & S3 & IN & EN) AL].
  rewrite G0 in G. injection G as <-. rewrite OL0 in OL. injection OL as OL. rewrite SL0 in S1. injection S1 as <-. subst frames.
  destruct (started_full _ _ _ _ _ _ _ _ _ MK) as (FU0 & PD & O0 & L0). destruct (parsed _ _ PD) as [NE LK].
  destruct (hist_full _ _ _ _ _ _ NE FU0 HI) as (FU & V & OO & LL).
  destruct (started_shown _ _ _ _ _ _ _ _ _ MK) as (_ & _ & _ & _ & _ & _ & _ & PLY).
  assert (P0 : player_inv 0 s0) by (unfold player in PLY; injection PLY as A B C _; split; auto).
  assert (H' : history timestep render open_file s0 (h ++ [(a, e)])%list s') by (econstructor; eauto).
  destruct (hist_player _ _ _ _ _ _ NE FU0 P0 H') as [_ AP].
  pose proof (C92_selected_file _ _ _ _ _ _ _ _ _ _ _ _ _ _ MK H') as SO'.
  assert (HE' : healthy render open_file files (f_orders s)) by (rewrite OO, O0; auto).
  assert (GO : e = None /\ exists f' sl', get_selected_file s' = inl (LFile f') /\ open_file f' = inl (f_traj s') /\ f_slider s' = Some sl' /\
    s_end sl' = (Z.of_nat (length (f_traj s')) - 1)%Z /\ (0 <= s_value sl' < Z.of_nat (length (f_traj s')))%Z).
  { destruct (selecting a) eqn:SL.
    - destruct (select_slider timestep render open_file files s a s' e sl ltac:(rewrite V; auto) FU SO' OF SL ST HE' SL0 ltac:(lia) DR) as [[-> ->]|(f' & l & G' & IF' & OL' & GL & RE & OP)].
      + split; auto. exists f, sl. auto 10 with zarith.
      + destruct (OP sl SL0 ltac:(lia)) as (T' & S1' & E'). specialize (NN f' l G' OL').
        assert (NP : (1 <= Z.of_nat (length l))%Z) by (destruct GL as [N _]; destruct l; [congruence|cbn [length]; lia]).
        split; [rewrite E'; destruct (Z.eqb_spec (s_value sl) (Z.of_nat (length l))); [congruence|auto]|].
        exists f'. eexists. rewrite T'. split; [exact G'|]. split; [exact OL'|]. split; [exact S1'|]. cbn. split; auto.
        destruct (Z.ltb_spec (Z.of_nat (length l)) (s_value sl)); lia.
    - destruct (other_slider timestep render open_file a s s' e sl SL OF SL0 S2) as (v & A1 & A2 & A3 & A4 & A5 & A6); auto; [lia|apply HE'|rewrite OO, LL, O0; auto| |].
      { intros ->. apply AP. apply in_or_app. right. left. auto. }
      pose proof (other_keep timestep render open_file a s SL) as (K1 & _ & _ & _ & K2 & _). rewrite ST in K1, K2. cbn [fst] in K1, K2.
      split; [destruct A6 as [->|[_ A6]]; auto; lia|]. exists f. eexists. rewrite K2. split; [rewrite (get_selected_sel s s' K1); exact G0|].
      split; [exact OL0|]. split; [exact A1|]. cbn. split; auto. lia. }
  destruct GO as (-> & f' & sl' & B1 & B2 & B3 & B4 & B5). split; auto. split.
  - exists f', (f_traj s'). unfold index. rewrite B3. auto.
  - exists f', (f_traj s'), sl'. intuition.
Qed.
(** In particular a selection that opens a file and does not raise leaves the slider right. *)
Theorem C91_recovers_partial : forall (F O D : Type) (timestep : F -> Z) (render : option O -> F -> D + exn) open_file
    create models files orders orders' s0 h s a s',
  make_document timestep render open_file create models files orders = (orders', inl s0) ->
  healthy render open_file files orders' -> history timestep render open_file s0 h s ->
  selecting a = true -> offered s a -> step timestep render open_file a s = (s', None) -> get_selected_file s' <> get_selected_file s ->
  exists f frames sl, get_selected_file s' = inl (LFile f) /\ open_file f = inl frames /\ f_slider s' = Some sl /\
    s_end sl = (Z.of_nat (length frames) - 1)%Z /\ (0 <= s_value sl < Z.of_nat (length frames))%Z.
Proof.
  intros until s'. intros MK HE HI SL OF ST ND.
  destruct (hist_slider _ _ _ _ _ _ _ _ _ _ _ MK HE HI) as [(f1 & sl1 & G & IF & OL & GT & DR & S1 & S2 & S3 & IN & EN) AL].
  destruct (started_full _ _ _ _ _ _ _ _ _ MK) as (FU0 & PD & O0 & L0). destruct (parsed _ _ PD) as [NE LK].
  destruct (hist_full _ _ _ _ _ _ NE FU0 HI) as (FU & V & OO & LL).
  assert (H' : history timestep render open_file s0 (h ++ [(a, None)])%list s') by (econstructor; eauto).
  pose proof (C92_selected_file _ _ _ _ _ _ _ _ _ _ _ _ _ _ MK H') as SO'.
  assert (HE' : healthy render open_file files (f_orders s)) by (rewrite OO, O0; auto).
  destruct (select_slider timestep render open_file files s a s' None sl1 ltac:(rewrite V; auto) FU SO' OF SL ST HE' S1 ltac:(lia) DR) as [[-> _]|(f' & l & G' & IF' & OL' & GL & RE & OP)]; [congruence|].
  destruct (OP sl1 S1 ltac:(lia)) as (T' & S1' & E').
  assert (NP : (1 <= Z.of_nat (length l))%Z) by (destruct GL as [N _]; destruct l; [congruence|cbn [length]; lia]).
  exists f', l. eexists. split; [exact G'|]. split; [exact OL'|]. split; [exact S1'|]. cbn. split; auto.
  destruct (Z.eqb_spec (s_value sl1) (Z.of_nat (length l))); [discriminate|].
  destruct (Z.ltb_spec (Z.of_nat (length l)) (s_value sl1)); lia.
Qed.

(** Two files, of two and of three frames; frames are numbers; nothing can fail. *)
Definition two : string := "d/dump-Trimer-P1.00-T1.00-p2.gsd".
Definition three : string := "d/dump-Trimer-P1.00-T2.00-p2.gsd".
Definition open2 (f : string) : list (nat + exn) + exn :=
  if String.eqb f two then inl [inl 10%nat; inl 11%nat] else if String.eqb f three then inl [inl 20%nat; inl 21%nat; inl 22%nat] else inr OtherError.
Definition rd (o : option unit) (f : nat) : (bool * nat) + exn := inl (match o with Some _ => true | None => false end, f).
Definition mk1 (m : string) : unit + exn := inl tt.
Definition builtin : dict string (option unit) := [("None"%string, None); ("Orient"%string, Some tt)].
Definition doc2 := make_document Z.of_nat rd open2 mk1 [] [three; two] builtin.
Lemma healthy2 : healthy rd open2 [three; two] builtin.
Proof.
  split.
  - intros f [<-|[<-|[]]]; eexists; (split; [vm_compute; reflexivity|]); (split; [discriminate|]);
      intros r; cbn; intuition subst; eauto.
  - intros k o _ x. eexists. reflexivity.
Qed.
(** C91 is false: the first file has two frames, and the slider can be moved to 2 by pressing "Next"; after
    selecting a file of two frames at index 2 it stays there and is beyond its own end. *)
Fixpoint play_all {F O D} (timestep : F -> Z) (render : option O -> F -> D + exn) open_file (l : list action) (s : fig F O D) : list (action * option exn) * fig F O D :=
  match l with
  | [] => ([], s)
  | a :: l' => let '(s', e) := step timestep render open_file a s in
               let '(h, s'') := play_all timestep render open_file l' s' in ((a, e) :: h, s'')
  end.
Fixpoint all_offered {F O D} (timestep : F -> Z) (render : option O -> F -> D + exn) open_file (l : list action) (s : fig F O D) : Prop :=
  match l with [] => True | a :: l' => offered s a /\ all_offered timestep render open_file l' (fst (step timestep render open_file a s)) end.
Lemma play_all_history {F O D} (timestep : F -> Z) (render : option O -> F -> D + exn) open_file l : forall s0 h0 s,
  history timestep render open_file s0 h0 s -> all_offered timestep render open_file l s ->
  history timestep render open_file s0 (h0 ++ fst (play_all timestep render open_file l s))%list (snd (play_all timestep render open_file l s)).
Proof.
  induction l as [|a l IH]; intros s0 h0 s H A; cbn; [rewrite app_nil_r; auto|]. destruct A as [OF A].
  destruct (step timestep render open_file a s) as [s' e] eqn:ST. cbn [fst] in A.
  specialize (IH s0 (h0 ++ [(a, e)])%list s' ltac:(econstructor; eauto) A). rewrite <- app_assoc in IH.
  destruct (play_all timestep render open_file l s') as [h s'']. exact IH.
Qed.
Theorem C91_frame_refuted : exists s0 h s, doc2 = (builtin, inl s0) /\ healthy rd open2 [three; two] builtin /\
  history Z.of_nat rd open2 s0 h s /\ ~ points_at_frame open2 s.
Proof.
  destruct (snd doc2) as [s0|] eqn:E; [|vm_compute in E; discriminate]. exists s0.
  exists (fst (play_all Z.of_nat rd open2 [ANext] s0)), (snd (play_all Z.of_nat rd open2 [ANext] s0)).
  split; [vm_compute in E; injection E as <-; vm_compute; reflexivity|]. split; [exact healthy2|].
  vm_compute in E. injection E as <-. split.
  - apply (play_all_history Z.of_nat rd open2 [ANext] _ [] _ (h_start _ _ _ _)). cbn. auto.
  - intros (f & frames & G & OL & L). vm_compute in G. injection G as <-. vm_compute in OL. injection OL as <-. vm_compute in L. destruct L. discriminate.
Qed.
(** Also the slider leaves its own range. *)
Theorem C91_range_refuted : exists s0 h s sl, doc2 = (builtin, inl s0) /\ healthy rd open2 [three; two] builtin /\
  history Z.of_nat rd open2 s0 h s /\ f_slider s = Some sl /\ (s_end sl < s_value sl)%Z /\ ~ points_at_frame open2 s.
Proof.
  destruct (snd doc2) as [s0|] eqn:E; [|vm_compute in E; discriminate]. exists s0.
  set (l := [ATemperature "2.00"; ADrag 2; ATemperature "1.00"]%string).
  exists (fst (play_all Z.of_nat rd open2 l s0)), (snd (play_all Z.of_nat rd open2 l s0)).
  exists (mk_slider 2 0 1).
  split; [vm_compute in E; injection E as <-; vm_compute; reflexivity|]. split; [exact healthy2|].
  vm_compute in E. injection E as <-. split; [|split; [|split]].
  - apply (play_all_history Z.of_nat rd open2 l _ [] _ (h_start _ _ _ _)). unfold l. cbn [all_offered]. split; [vm_compute; auto|].
    split; [vm_compute; eexists; split; [reflexivity|]; split; discriminate|]. split; [vm_compute; auto|auto].
  - vm_compute. reflexivity.
  - reflexivity.
  - intros (f & frames & G & OL & L). vm_compute in G. injection G as <-. vm_compute in OL. injection OL as <-. vm_compute in L. destruct L. discriminate.
Qed.

(** ** C121: figures share their classifications. *)
(** False: a figure made without models offers the model of a figure made before; and loading a model of the same
    name in another figure replaces the function behind a label of the first. *)
Definition mk2 (m : string) : string + exn := inl m.
Definition rd2 (o : option string) (f : nat) : option string + exn := inl o.
Theorem C121_own_refuted : exists orders1 s1 orders2 s2,
  make_document Z.of_nat rd2 open2 mk2 ["a/knn.pkl"%string] [three; two] [("None"%string, None)] = (orders1, inl s1) /\
  make_document Z.of_nat rd2 open2 mk2 [] [three; two] orders1 = (orders2, inl s2) /\
  In "knn"%string (f_labels s2).
Proof. do 4 eexists. split; [vm_compute; reflexivity|]. split; [vm_compute; reflexivity|]. vm_compute. auto. Qed.
Theorem C121_replaced_refuted : exists orders1 s1 orders2 s2,
  make_document Z.of_nat rd2 open2 mk2 ["a/knn.pkl"%string] [three; two] [("None"%string, None)] = (orders1, inl s1) /\
  make_document Z.of_nat rd2 open2 mk2 ["b/knn.pkl"%string] [three; two] orders1 = (orders2, inl s2) /\
  get_order_function (set_oact 1 s1) = inl (Some "a/knn.pkl"%string) /\
  get_order_function (set_oact 1 (set_orders orders2 s1)) = inl (Some "b/knn.pkl"%string).
Proof. do 4 eexists. split; [vm_compute; reflexivity|]. split; [vm_compute; reflexivity|]. split; vm_compute; reflexivity. Qed.
(** True: whichever figures are made later, with whatever success, a label goes on to stand for its name: for the last
    model loaded under this name, and the same function as before if there was none. *)
Theorem C121_label_partial : forall (F O D : Type) (timestep : F -> Z) (render : option O -> F -> D + exn) open_file
    create models files orders orders' s0 h s later orders'' i label,
  make_document timestep render open_file create models files orders = (orders', inl s0) ->
  history timestep render open_file s0 h s -> grown create orders' later orders'' ->
  nth_error (f_labels s) i = Some label ->
  exists o o', dget String.eqb label orders' = Some o /\
    get_order_function (set_oact i (set_orders orders'' s)) = inl o' /\ under create later label (Some o) (Some o').
Proof.
  intros until label. intros MK HI GR EL.
  destruct (started_full _ _ _ _ _ _ _ _ _ MK) as (FU0 & PD & O0 & L0). destruct (parsed _ _ PD) as [NE _].
  destruct (hist_full _ _ _ _ _ _ NE FU0 HI) as (_ & _ & _ & LL). rewrite LL, L0 in EL.
  destruct (grown_spec _ _ _ _ GR) as [(more & DK) UN].
  assert (IN : In label (dkeys orders')) by (eapply nth_error_In; eauto).
  apply (dget_In String.eqb String.eqb_eq) in IN. destruct (dget String.eqb label orders') as [o|] eqn:EO; [|congruence].
  assert (EL' : nth_error (dkeys orders'') i = Some label).
  { rewrite DK, nth_error_app1; auto. apply nth_error_Some. congruence. }
  assert (IN' : In label (dkeys orders'')) by (eapply nth_error_In; eauto).
  apply (dget_In String.eqb String.eqb_eq) in IN'. destruct (dget String.eqb label orders'') as [o'|] eqn:EO'; [|congruence].
  exists o, o'. split; auto. split.
  - unfold get_order_function. change (f_orders (set_oact i (set_orders orders'' s))) with orders''. change (f_oact _) with i.
    unfold item. rewrite EL'. cbn [andthen]. unfold at_. rewrite EO'. auto.
  - rewrite <- EO, <- EO'. apply UN.
Qed.

Print Assumptions C92_selected_file.
Print Assumptions C92_every_file.
Print Assumptions C92_no_files.
Print Assumptions C119_shown.
Print Assumptions C120_playing.
Print Assumptions C91_bounds_partial.
Print Assumptions C91_stays_partial.
Print Assumptions C91_recovers_partial.
Print Assumptions C91_frame_refuted.
Print Assumptions C91_range_refuted.
Print Assumptions C121_own_refuted.
Print Assumptions C121_replaced_refuted.
Print Assumptions C121_label_partial.

(** ** Examples *)
Definition fig2 : fig nat unit (bool * nat) := match snd doc2 with inl s => s | inr _ => blank builtin end.
Definition tour : list action := [AIncrement 1; ATemperature "2.00"; ADrag 2; AOrder 1; APlay; ATick; APrevious]%string.
Lemma tour_offered : all_offered Z.of_nat rd open2 tour fig2.
Proof.
  unfold tour. cbn [all_offered]. split; [vm_compute; split; discriminate|].
  split; [vm_compute; auto|]. split; [eexists; split; [vm_compute; reflexivity|]; split; vm_compute; discriminate|].
  split; [vm_compute; auto|]. split; [exact Logic.I|]. split; [vm_compute; discriminate|]. split; exact Logic.I.
Qed.
(** C92, C119, C120, C91: a history without exceptions *)
Example C92_ex : doc2 = (builtin, inl fig2) /\
  history Z.of_nat rd open2 fig2 (fst (play_all Z.of_nat rd open2 tour fig2)) (snd (play_all Z.of_nat rd open2 tour fig2)) /\
  clean (fst (play_all Z.of_nat rd open2 tour fig2)) /\ healthy rd open2 [three; two] builtin.
Proof.
  split; [vm_compute; reflexivity|]. split; [|split; [|exact healthy2]].
  - apply (play_all_history Z.of_nat rd open2 tour fig2 [] fig2 (h_start _ _ _ _) tour_offered).
  - intros a e H. vm_compute in H. intuition congruence.
Qed.
Example C92_ex_file : get_selected_file (snd (play_all Z.of_nat rd open2 tour fig2)) = inl (LFile three) /\
  last_with [three; two] ("1.00", "2.00", "p2", "None")%string (Some three) /\
  get_selected_file fig2 = inl (LFile two).
Proof.
  split; [vm_compute; reflexivity|]. split; [|vm_compute; reflexivity].
  exists [], [two]. split; [reflexivity|]. split.
  - eexists. split; [vm_compute; reflexivity|]. cbn. repeat split; try discriminate; unfold none_str; auto.
  - intros g [<-|[]] (v & E & _ & _ & T & _). vm_compute in E. injection E as <-. vm_compute in T. discriminate.
Qed.
Example C119_ex : let s := snd (play_all Z.of_nat rd open2 tour fig2) in
  f_data s = Some (true, 21%nat) /\ f_plot s = Some 21%Z /\ index s = 1%Z /\ f_filename s = "dump-Trimer-P1.00-T2.00-p2.gsd"%string
  /\ f_data fig2 = Some (false, 10%nat).
Proof. vm_compute. auto. Qed.
Example C120_ex : let s := snd (play_all Z.of_nat rd open2 tour fig2) in f_playing s = true /\ f_doc s = [0%nat].
Proof. vm_compute. auto. Qed.
(** C91: the end is right after the selection, and the drag keeps the slider at a frame *)
Example C91_ex : exists s sl, history Z.of_nat rd open2 fig2 [(ATemperature "2.00", None)]%string s /\ f_slider s = Some sl /\
  s_end sl = 2%Z /\ s_value sl = 0%Z /\ get_selected_file s = inl (LFile three) /\ offered s (ADrag 2) /\
  snd (step Z.of_nat rd open2 (ADrag 2) s) = None /\ get_selected_file s <> get_selected_file fig2.
Proof.
  exists (fst (step Z.of_nat rd open2 (ATemperature "2.00"%string) fig2)). eexists. split.
  { apply (h_step Z.of_nat rd open2 fig2 [] fig2); [constructor|vm_compute; auto|vm_compute; reflexivity]. }
  split; [vm_compute; reflexivity|]. split; [reflexivity|]. split; [reflexivity|]. split; [vm_compute; reflexivity|].
  split; [eexists; split; [vm_compute; reflexivity|]; split; vm_compute; discriminate|]. split; vm_compute; [reflexivity|discriminate].
Qed.
(** C121: the dictionary after two more figures, one of which failed at its second model *)
Definition mk3 (m : string) : string + exn := if String.eqb m "bad.pkl" then inr OtherError else inl m.
Example C121_ex : exists d, grown mk3 [("None"%string, None); ("knn"%string, Some "a/knn.pkl"%string)] ["b/knn.pkl"; "c/svm.pkl"]%string d /\
  d = [("None", None); ("knn", Some "b/knn.pkl"); ("svm", Some "c/svm.pkl")]%string.
Proof.
  eexists. split; [|reflexivity].
  apply (grown_more mk3 _ ["b/knn.pkl"]%string [("None", None); ("knn", Some "b/knn.pkl")]%string ["c/svm.pkl"; "bad.pkl"; "d/knn.pkl"]%string ["c/svm.pkl"]%string _ (Some OtherError)).
  - apply (grown_more mk3 _ []%string [("None", None); ("knn", Some "a/knn.pkl")]%string ["b/knn.pkl"]%string ["b/knn.pkl"]%string _ None).
    + constructor.
    + econstructor; [reflexivity|constructor].
    + reflexivity.
  - econstructor; [reflexivity|]. econstructor. reflexivity.
  - reflexivity.
Qed.
