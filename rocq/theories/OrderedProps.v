(** C219: relaxation times that must be in order. *)
From Coq Require Import String Reals ZArith QArith List Bool Lia Lra Sorting.
From Verif Require Import Base DictFacts XNum RVec RelaxFitModel MotionModel DynModel DynProofs
  MolRelaxModel MolRelaxSpec MolRelaxProofs MolRelaxDefs MolRelaxProps EndModel EndSpec EndProofs EndProps ProcessPathProps PartProps OrderedSpec.
Import ListNotations.
Open Scope list_scope.
Open Scope Z_scope.
Notation length := List.length.

Lemma earliest_mono thr thr' l v w : xle thr thr' = true -> earliest thr l v -> earliest thr' l w -> v <= w.
Proof.
  intros H (_ & V2 & V3) ([W|(d & W1 & W2)] & _ & _); [lia|]. apply (V3 w d W1). eapply xle_lt_trans; eauto.
Qed.
Lemma sorted_split (a b : list (Z * xnum)) x y : StronglySorted Z.le (map fst (a ++ b)) -> In x a -> In y b -> fst x <= fst y.
Proof.
  intros S X Y. induction a as [|c a IH]; [contradiction|]. cbn [app map] in S. inversion S as [|? ? S' F]; subst. destruct X as [->|X]; [|auto].
  rewrite Forall_forall in F. apply F, in_map, in_or_app. auto.
Qed.
Lemma last_exit_le thr cut l v w : xle thr cut = true -> StronglySorted Z.le (map fst l) -> (forall c, In c l -> fst c <= 2 ^ 32 - 1) ->
  last_exit thr cut l v -> earliest cut l w -> v <= w.
Proof.
  intros H S M [(N & ->)|(a & d & b & post & before & e & E1 & E2 & Es & N & T & _)] (W & _ & _).
  - destruct W as [->|(d & W1 & W2)]; [lia|]. exfalso. apply (N (w, d) W1). split; auto. cbn. eapply xle_lt_trans; eauto.
  - assert (Iv : In (v, d) (before ++ [e])) by (rewrite <- E2; apply in_or_app; right; left; auto).
    rewrite E2, <- app_assoc in E1. cbn [app] in E1.
    assert (Il : In (v, d) l) by (rewrite E1; apply in_app_or in Iv; apply in_or_app; destruct Iv as [Iv|[->|[]]]; [left; auto|right; left; auto]).
    destruct W as [->|(d' & W1 & W2)]; [apply (M (v, d) Il)|].
    assert (Ew : In (w, d') (e :: post)).
    { rewrite E1 in W1. apply in_app_or in W1. destruct W1 as [W1|W1]; auto. exfalso. apply (N (w, d') W1). split; auto. cbn. eapply xle_lt_trans; eauto. }
    rewrite E1 in S. apply in_app_or in Iv. destruct Iv as [Iv|[->|[]]].
    + apply (sorted_split before (e :: post) (v, d) (w, d') S Iv Ew).
    + destruct Ew as [[= -> ->]|Ew]; [lia|]. change (before ++ (v, d) :: post) with (before ++ [(v, d)] ++ post) in S. rewrite app_assoc in S.
      apply (sorted_split (before ++ [(v, d)]) post (v, d) (w, d') S); [apply in_or_app; right; left; auto|auto].
Qed.
Lemma seen_times n i h : StronglySorted Z.le (map fst h) -> StronglySorted Z.le (map fst (seen n i h)).
Proof.
  unfold seen. induction h as [|c h IH]; intros S; [constructor|]. cbn [flat_map map] in *. inversion S as [|? ? S' F]; subst.
  destruct (length (snd c) =? n)%nat; cbn [app map]; auto. constructor; auto. rewrite Forall_forall in *. intros t T.
  apply in_map_iff in T as (x & <- & X). apply in_flat_map in X as (c' & C & X). destruct (length (snd c') =? n)%nat; [|contradiction]. destruct X as [<-|[]]. cbn [fst]. apply F. exact (in_map fst h c' C).
Qed.
Lemma seen_in n i h x : In x (seen n i h) -> In (fst x) (map fst h).
Proof. unfold seen. intros X. apply in_flat_map in X as (c & C & X). destruct (length (snd c) =? n)%nat; [|contradiction]. destruct X as [<-|[]]. cbn [fst]. exact (in_map fst h c C). Qed.

(** A larger distance is not reached earlier, whatever is added. *)
Theorem C219_distances n thr thr' ty h i v w : xle thr thr' = true -> (i < n)%nat ->
  nth_error (get_status (observe (first_init n thr ty) h)) i = Some v ->
  nth_error (get_status (observe (first_init n thr' ty) h)) i = Some w -> v <= w.
Proof.
  intros H I V W. destruct (C31_first_passage n thr ty h) as [_ A]. destruct (C31_first_passage n thr' ty h) as [_ B].
  destruct (A i I) as (v' & V' & EV). destruct (B i I) as (w' & W' & EW). rewrite V in V'. rewrite W in W'. injection V' as <-. injection W' as <-. eapply earliest_mono; eauto.
Qed.
Print Assumptions C219_distances.
(** The last passage is not later than the first passage of the cutoff, if times do not decrease. *)
Theorem C219_cutoff n thr cut ty h i v w : xle thr cut = true -> (i < n)%nat ->
  StronglySorted Z.le (map fst h) -> (forall t, In t (map fst h) -> t <= 2 ^ 32 - 1) ->
  nth_error (get_status (observe (last_init n thr cut ty) h)) i = Some v ->
  nth_error (get_status (observe (first_init n cut ty) h)) i = Some w -> v <= w.
Proof.
  intros H I S M V W. destruct (C34_last_passage n thr cut ty h) as [_ A]. destruct (C31_first_passage n cut ty h) as [_ B].
  destruct (A i I) as (v' & V' & EV). destruct (B i I) as (w' & W' & EW). rewrite V in V'. rewrite W in W'. injection V' as <-. injection W' as <-.
  eapply (last_exit_le thr cut (seen n i h)); eauto; [apply seen_times; auto|intros c C; apply M; eapply seen_in; eauto].
Qed.
Print Assumptions C219_cutoff.
(** The order of time is needed, and so is the limit. *)
Theorem C219_cutoff_refuted :
  (exists n thr cut h i v w, xle thr cut = true /\ (i < n)%nat /\ (forall t, In t (map fst h) -> t <= 2 ^ 32 - 1) /\
    nth_error (get_status (observe (last_init n thr cut translation) h)) i = Some v /\
    nth_error (get_status (observe (first_init n cut translation) h)) i = Some w /\ w < v) /\
  (exists n thr cut h i v w, xle thr cut = true /\ (i < n)%nat /\ StronglySorted Z.le (map fst h) /\
    nth_error (get_status (observe (last_init n thr cut translation) h)) i = Some v /\
    nth_error (get_status (observe (first_init n cut translation) h)) i = Some w /\ w < v).
Proof.
  split.
  - exists 1%nat, (Fin 1), (Fin 3), [(10, [Fin 2]); (5, [Fin 4])], 0%nat, 10, 5.
    split; [vm_compute; reflexivity|]. split; [lia|]. split; [cbn [map fst]; intros t [<-|[<-|[]]]; discriminate|].
    split; [vm_compute; reflexivity|]. split; [vm_compute; reflexivity|]. lia.
  - exists 1%nat, (Fin 1), (Fin 3), [(4294967296, [Fin 4])], 0%nat, 4294967296, 4294967295.
    split; [vm_compute; reflexivity|]. split; [lia|]. split; [cbn [map fst]; constructor; constructor|].
    split; [vm_compute; reflexivity|]. split; [vm_compute; reflexivity|]. lia.
Qed.
Print Assumptions C219_cutoff_refuted.

(** ** The default relaxation times of an analysis *)
Lemma offered_hist wrap gimbal fl n fs : forall r,
  length (m_dt (r_motion r)) = n -> length (m_dr (r_motion r)) = n -> (forall k x, In (k, x) (rx_relax (r_relax r)) -> sized n x) ->
  exists h, r_relax (offered_all wrap gimbal fl r fs) = add_frames (r_relax r) h /\
    (forall f, In f h -> length (fst (snd f)) = n /\ length (snd (snd f)) = n) /\
    (forall t, In t (map fst h) -> In t (map e_ts fs)) /\
    (StronglySorted Z.le (map e_ts fs) -> StronglySorted Z.le (map fst h)).
Proof.
  induction fs as [|f fs IH]; intros r L1 L2 S; [exists []; cbn; repeat split; auto; try contradiction; constructor|].
  unfold offered_all. cbn [fold_left]. fold (offered_all wrap gimbal fl (fst (radd wrap gimbal fl r f)) fs).
  destruct (motion_add wrap gimbal (r_motion r) (e_pos f) (e_ori f)) as [m e] eqn:Em.
  destruct (motion_add_lengths _ _ _ _ _ _ _ Em) as (M1 & M2 & _).
  assert (Er : radd wrap gimbal fl r f = match e with Some e => (mkrobj m (r_num r) (r_relax r), Some e) | None =>
     let (x, e) := relaxations_add (e_ts f) (map fl (displacement (m_dt m))) (map fl (displacement (m_dr m))) (r_relax r) in (mkrobj m (r_num r) x, e) end).
  { unfold radd. rewrite Em. destruct e; reflexivity. }
  destruct e as [e|].
  - rewrite Er. cbn [fst]. destruct (IH (mkrobj m (r_num r) (r_relax r))) as (h & H1 & H2 & H3 & H4); cbn [r_motion r_relax]; [congruence|congruence|auto|].
    exists h. split; [exact H1|]. split; [exact H2|]. split; [intros t T; right; auto|]. cbn [map]. intros Q. inversion Q; subst. auto.
  - set (mv := (e_ts f, (map fl (displacement (m_dt m)), map fl (displacement (m_dr m))))).
    assert (Lm : forall g, In g [mv] -> length (fst (snd g)) = n /\ length (snd (snd g)) = n).
    { intros g [<-|[]]. unfold mv, displacement. cbn [fst snd]. rewrite !map_length. split; congruence. }
    destruct (C40_routing n (r_relax r) [mv] S Lm) as (_ & R1 & R2).
    destruct (relaxations_add (e_ts f) (map fl (displacement (m_dt m))) (map fl (displacement (m_dr m))) (r_relax r)) as [x e] eqn:Ex.
    assert (Ax : add_frames (r_relax r) [mv] = x) by (unfold add_frames, mv; cbn [fold_left fst snd]; rewrite Ex; reflexivity).
    rewrite Er. cbn [fst].
    destruct (IH (mkrobj m (r_num r) x)) as (h & H1 & H2 & H3 & H4); cbn [r_motion r_relax]; [congruence|congruence| |].
    { intros k y Y. rewrite <- Ax, R2 in Y. apply in_map_iff in Y as ([k0 y0] & Q & Y). apply (f_equal snd) in Q. cbn [snd] in Q. rewrite <- Q. apply (observe_sized n). eapply S; eauto. }
    cbn [r_relax] in H1. exists (mv :: h). split; [|split; [|split]].
    + rewrite H1, <- Ax. reflexivity.
    + intros g [<-|G]; [apply Lm; left; auto|auto].
    + intros t [<-|T]; [left; auto|right; auto].
    + cbn [map]. intros Q. inversion Q as [|? ? Q' F]; subst. constructor; [auto|]. rewrite Forall_forall in *. intros t T. apply F, H3, T.
Qed.

Lemma default_shape parse show n d p2 p3 p4 x : set_mol_relax parse show n (default_definitions d p2 p3 p4) = (x, None) ->
  x = [ ("tau_D"%string, first_init n (xtriple d) translation); ("tau_F"%string, first_init n d translation);
        ("tau_L"%string, last_init n d (xtriple d) translation); ("tau_T2"%string, first_init n p2 rotation);
        ("tau_T3"%string, first_init n p3 rotation); ("tau_T4"%string, first_init n p4 rotation) ] /\ xlt d xzero = false.
Proof.
  unfold set_mol_relax, default_definitions, set_loop, make_relax, create_mol_relaxations. cbn [given def_name def_threshold def_last def_cutoff def_type to_float to_bool to_str type_of_name String.eqb Ascii.eqb Bool.eqb].
  destruct (xlt (xtriple d) xzero); [discriminate|]. destruct (xlt d xzero); [discriminate|]. destruct (xlt p2 xzero); [discriminate|]. destruct (xlt p3 xzero); [discriminate|]. destruct (xlt p4 xzero); [discriminate|].
  intros H. injection H as <-. split; reflexivity.
Qed.
Lemma triple_above d : xle d d = true -> xlt d xzero = false -> xle d (xtriple d) = true.
Proof.
  destruct d as [| | |q]; cbn; auto. intros _ H. apply Qltb_ge in H. apply Qle_bool_iff. setoid_replace q with (1 * q)%Q at 1 by ring. apply Qmult_le_compat_r; auto. discriminate.
Qed.
(** A molecule leaves a distance before three times the distance, and its last passage is in
    between; it turns by a smaller angle before a larger one. *)
Theorem C219_default wrap gimbal fl calc parse show wave f0 fs r i :
  keeps_order fl -> make_relaxations fl calc parse show wave f0 = inl r -> (i < length (e_pos f0))%nat ->
  let s := summary (r_relax (offered_all wrap gimbal fl r fs)) in
  exists D F L T2 T3 T4,
    entry s "tau_D"%string i D /\ entry s "tau_F"%string i F /\ entry s "tau_L"%string i L /\
    entry s "tau_T2"%string i T2 /\ entry s "tau_T3"%string i T3 /\ entry s "tau_T4"%string i T4 /\
    F <= D /\ F <= L /\ T4 <= T3 <= T2 /\ (in_time f0 fs -> L <= D).
Proof.
  intros K M I s. unfold make_relaxations in M.
  destruct (frame_box f0) as [b|e]; cbn [MotionModel.ebind] in M; [|discriminate].
  destruct (motion_init b (e_pos f0) (e_ori f0)) as [m|e] eqn:Em; cbn [MotionModel.ebind] in M; [|discriminate].
  destruct (match wave with Some k => inl k | None => calc b (e_pos f0) end) as [k|e]; cbn [MotionModel.ebind] in M; [|discriminate].
  destruct (Req_EM_T k 0) as [|Nk]; [discriminate|]. set (n := length (e_pos f0)) in *. set (d := fl (PI / (2 * k))%R) in *.
  destruct (set_mol_relax parse show n _) as [x [e|]] eqn:Es; [discriminate|]. apply default_shape in Es. destruct Es as [Ex Nd].
  assert (Lm : length (m_dt m) = n /\ length (m_dr m) = n).
  { unfold motion_init in Em. destruct (e_ori f0) as [[|q o]|]; [discriminate| |]; injection Em as <-; cbn [m_dt m_dr]; rewrite !map_length; auto. }
  injection M as <-.
  assert (Sz : forall nm y, In (nm, y) x -> sized n y).
  { rewrite Ex. intros nm y Y. cbn in Y. repeat (destruct Y as [Y|Y]; [injection Y as _ <-; split; cbn; rewrite ?repeat_length; auto|]). destruct Y. }
  destruct (offered_hist wrap gimbal fl n fs (mkrobj m n {| rx_init_time := e_ts f0; rx_relax := x |})) as (h & H1 & H2 & H3 & H4); cbn [r_motion r_relax rx_relax]; [apply Lm|apply Lm|exact Sz|].
  cbn [r_relax] in H1. destruct (C40_routing n {| rx_init_time := e_ts f0; rx_relax := x |} h Sz H2) as (_ & _ & R2).
  rewrite <- H1 in R2. cbn [rx_relax rx_init_time] in R2.
  set (ht := map (fun f : MolRelaxProps.moves => (fst f - e_ts f0, fst (snd f))) h). set (hr := map (fun f : MolRelaxProps.moves => (fst f - e_ts f0, snd (snd f))) h).
  assert (Es : s = [("tau_D"%string, get_status (observe (first_init n (xtriple d) translation) ht)); ("tau_F"%string, get_status (observe (first_init n d translation) ht));
    ("tau_L"%string, get_status (observe (last_init n d (xtriple d) translation) ht)); ("tau_T2"%string, get_status (observe (first_init n (fl (PI / 2)%R) rotation) hr));
    ("tau_T3"%string, get_status (observe (first_init n (fl (PI / 3)%R) rotation) hr)); ("tau_T4"%string, get_status (observe (first_init n (fl (PI / 4)%R) rotation) hr))]).
  { unfold s, summary. rewrite R2, Ex. reflexivity. }
  clearbody s. subst s. clear R2 H1.
  assert (G : forall thr ty hh, exists v, nth_error (get_status (observe (first_init n thr ty) hh)) i = Some v).
  { intros thr ty hh. destruct (C31_first_passage n thr ty hh) as [_ A]. destruct (A i I) as (v & V & _). eauto. }
  destruct (G (xtriple d) translation ht) as (D & VD). destruct (G d translation ht) as (F & VF).
  destruct (G (fl (PI / 2)%R) rotation hr) as (T2 & V2). destruct (G (fl (PI / 3)%R) rotation hr) as (T3 & V3). destruct (G (fl (PI / 4)%R) rotation hr) as (T4 & V4).
  destruct (C34_last_passage n d (xtriple d) translation ht) as [_ A]. destruct (A i I) as (L & VL & _). clear A G.
  pose proof (triple_above d (K _ _ (Rle_refl _)) Nd) as Td. pose proof PI_RGT_0.
  assert (K43 : xle (fl (PI / 4)%R) (fl (PI / 3)%R) = true) by (apply K; lra). assert (K32 : xle (fl (PI / 3)%R) (fl (PI / 2)%R) = true) by (apply K; lra).
  exists D, F, L, T2, T3, T4.
  split; [eexists; split; [reflexivity|exact VD]|]. split; [eexists; split; [reflexivity|exact VF]|]. split; [eexists; split; [reflexivity|exact VL]|].
  split; [eexists; split; [reflexivity|exact V2]|]. split; [eexists; split; [reflexivity|exact V3]|]. split; [eexists; split; [reflexivity|exact V4]|].
  split; [exact (C219_distances n d (xtriple d) translation ht i F D Td I VF VD)|].
  split; [exact (C37_last_after_first n d (xtriple d) translation ht i F L I VF VL)|].
  split; [split; [apply (C219_distances n (fl (PI / 4)%R) (fl (PI / 3)%R) rotation hr i T4 T3 K43 I V4 V3)|apply (C219_distances n (fl (PI / 3)%R) (fl (PI / 2)%R) rotation hr i T3 T2 K32 I V3 V2)]|].
  intros [S B]. apply (C219_cutoff n d (xtriple d) translation ht i L D Td I); auto.
  - specialize (H4 S). unfold ht. rewrite map_map. cbn [fst]. clear - H4. induction h as [|c h IH]; cbn [map] in *; [constructor|]. inversion H4 as [|? ? Q F]; subst. constructor; auto.
    rewrite Forall_forall in *. intros t T. apply in_map_iff in T as (c' & <- & C). specialize (F (fst c') (in_map fst h c' C)). lia.
  - intros t T. unfold ht in T. rewrite map_map in T. cbn [fst] in T. apply in_map_iff in T as (c & <- & C).
    assert (J := H3 (fst c) (in_map fst h c C)). apply in_map_iff in J as (f & <- & J). apply B. auto.
Qed.
Print Assumptions C219_default.

(** A molecule that leaves, comes back, leaves again and escapes: 1 <= 3 <= 4 *)
Example C219_example :
  let h := [(1, [Fin 2]); (2, [Fin 0]); (3, [Fin 2]); (4, [Fin 4])] in
  StronglySorted Z.le (map fst h) /\ (forall t, In t (map fst h) -> t <= 2 ^ 32 - 1) /\ xle (Fin 1) (Fin 3) = true /\
  get_status (observe (first_init 1 (Fin 1) translation) h) = [1] /\
  get_status (observe (last_init 1 (Fin 1) (Fin 3) translation) h) = [3] /\
  get_status (observe (first_init 1 (Fin 3) translation) h) = [4].
Proof.
  cbv zeta. split; [|split]; [|cbn [map fst]; intros t [<-|[<-|[<-|[<-|[]]]]]; discriminate|vm_compute; auto].
  cbn [map fst]. repeat constructor; discriminate.
Qed.
(** The frames of C218_times_example *)
Example C219_default_example : keeps_order pt_fl /\ in_time pt0 [pt1] /\
  exists r, make_relaxations pt_fl (fun _ _ => inr ValueError) ex_pf (fun _ => EmptyString) (Some 1%R) pt0 = inl r /\
    dget String.eqb "tau_F"%string (summary (r_relax (offered_all pt_wrap (fun _ => zero3) pt_fl r [pt1]))) = Some [2 ^ 32 - 1; 2 ^ 32 - 1; 4].
Proof.
  split; [|split].
  - intros x y H. unfold pt_fl. destruct (Rle_dec 3 x), (Rle_dec 3 y); try reflexivity. lra.
  - split; [cbn [map]; repeat constructor|]. intros f [<-|[]]. cbn. discriminate.
  - destruct C218_times_example as (_ & _ & r & r' & E & _ & V & _). unfold PartSpec.relaxations_of in E.
    destruct (make_relaxations pt_fl (fun _ _ => inr ValueError) ex_pf (fun _ => EmptyString) (Some 1%R) pt0) as [r0|e]; [|discriminate].
    exists r0. split; [reflexivity|]. cbn [custom PartSpec.add_each] in E. unfold offered_all. cbn [fold_left].
    destruct (radd pt_wrap (fun _ => zero3) pt_fl r0 pt1) as [r1 [e|]]; [discriminate|]. injection E as ->. exact V.
Qed.
