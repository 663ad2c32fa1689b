(** Properties C31-C40: molecular relaxations. *)
From Coq Require Import String ZArith QArith List Bool Lia Arith Permutation Sorted.
From Verif Require Import Base DictFacts XNum MolRelaxModel MolRelaxSpec MolRelaxProofs MolRelaxDefs.
Import ListNotations.
Open Scope Z_scope.

(** Five calls for two molecules, threshold 1; the third call has the wrong length. *)
Definition dist_calls : history :=
  [ (10, [Fin (1#2); Fin (3#2)]); (20, [Fin (3#2); NaN]); (25, [PInf]);
    (30, [Fin (1#2); Fin 4]); (40, [Fin 2; Fin 0]) ].
Definition one : xnum := Fin 1%Q.
Definition three : xnum := Fin 3%Q.

(** ** C31 *)
Theorem C31_first_passage : forall n thr ty h,
  length (get_status (observe (first_init n thr ty) h)) = n /\
  forall i, (i < n)%nat ->
    exists v, nth_error (get_status (observe (first_init n thr ty) h)) i = Some v /\
              earliest thr (seen n i h) v.
Proof. intros. split; [apply status_length_first|]. intros. apply first_passage; auto. Qed.
Print Assumptions C31_first_passage.

(** With times that do not decrease it is the time of the first call beyond the
    threshold. *)
Theorem C31_first_crossing : forall n thr ty h i pre t d post,
  (i < n)%nat -> seen n i h = pre ++ (t, d) :: post ->
  (forall c, In c pre -> xlt thr (snd c) = false) -> xlt thr d = true ->
  (forall c, In c post -> t <= fst c) ->
  nth_error (get_status (observe (first_init n thr ty) h)) i = Some (Z.min t (2 ^ 32 - 1)).
Proof.
  intros n thr ty h i pre t d post Hi Hs Hpre Hd Hpost.
  destruct (first_passage n thr ty h i Hi) as (v & Hv & He). rewrite Hv. f_equal.
  apply (earliest_unique thr (seen n i h)); auto. rewrite Hs. split; [|split].
  - destruct (Z.min_spec t (2 ^ 32 - 1)) as [[_ ->]|[_ ->]]; auto.
    right. exists d. split; auto. apply in_or_app; right; left; auto.
  - lia.
  - intros t' d' H Ht. apply in_app_or in H. destruct H as [H|[H|H]].
    + apply Hpre in H. simpl in H. congruence.
    + injection H as <- <-. lia.
    + apply Hpost in H. simpl in H. lia.
Qed.
Print Assumptions C31_first_crossing.

Example C31_example :
  get_status (observe (first_init 2 one translation) dist_calls) = [20; 10] /\
  seen 2 0 dist_calls = [(10, Fin (1#2))] ++ (20, Fin (3#2)) :: [(30, Fin (1#2)); (40, Fin 2)].
Proof. split; vm_compute; reflexivity. Qed.

(** ** C32 *)
Theorem C32_monotone_and_order : forall n thr ty h,
  (forall h' i v w, (i < n)%nat ->
     nth_error (get_status (observe (first_init n thr ty) h)) i = Some v ->
     nth_error (get_status (observe (first_init n thr ty) (h ++ h'))) i = Some w -> w <= v) /\
  (forall h', Permutation h h' ->
     get_status (observe (first_init n thr ty) h) = get_status (observe (first_init n thr ty) h')).
Proof.
  intros. split; intros; [eapply first_monotone|apply first_order_irrelevant]; eauto.
Qed.
Print Assumptions C32_monotone_and_order.

Example C32_example :
  Permutation dist_calls (rev dist_calls) /\ rev dist_calls <> dist_calls /\
  get_status (observe (first_init 2 one translation) (rev dist_calls)) = [20; 10] /\
  get_status (observe (first_init 2 one translation) (firstn 1 dist_calls)) = [2 ^ 32 - 1; 10].
Proof.
  split; [apply Permutation_rev|]. split; [discriminate|]. split; vm_compute; reflexivity.
Qed.

(** ** C33 *)
Theorem C33_late_relaxation_refuted : exists t d thr,
  xlt thr d = true /\ get_status (observe (first_init 1 thr translation) [(t, [d])]) <> [t].
Proof. exists (2 ^ 32), three, one. vm_compute. intuition discriminate. Qed.
Print Assumptions C33_late_relaxation_refuted.

(** What is reported for one crossing at time [t]. *)
Theorem C33_late_relaxation_partial : forall t d thr ty, xlt thr d = true ->
  get_status (observe (first_init 1 thr ty) [(t, [d])]) = [Z.min t (2 ^ 32 - 1)] /\
  (get_status (observe (first_init 1 thr ty) [(t, [d])]) = [t] <-> t <= 2 ^ 32 - 1) /\
  (t >= 2 ^ 32 - 1 -> get_status (observe (first_init 1 thr ty) [(t, [d])])
                      = get_status (observe (first_init 1 thr ty) [])).
Proof.
  intros t d thr ty H.
  assert (E : get_status (observe (first_init 1 thr ty) [(t, [d])]) = [Z.min t (2 ^ 32 - 1)]).
  { assert (L := status_length_first 1 thr ty [(t, [d])]).
    assert (X := C31_first_crossing 1 thr ty [(t, [d])] 0 [] t d []
                   ltac:(lia) eq_refl ltac:(simpl; tauto) H ltac:(simpl; tauto)).
    destruct (get_status (observe (first_init 1 thr ty) [(t, [d])])) as [|v [|w l]];
      cbn [length] in L; try discriminate. cbn [nth_error] in X. injection X as ->. reflexivity. }
  rewrite E. split; [reflexivity|]. split.
  - split; [intros [= X]; lia|intros X; f_equal; lia].
  - intros X. change (get_status (observe (first_init 1 thr ty) [])) with [2 ^ 32 - 1]. f_equal. lia.
Qed.
Print Assumptions C33_late_relaxation_partial.

Example C33_example :
  xlt one three = true /\
  get_status (observe (first_init 1 one translation) [(2 ^ 32 - 2, [three])]) = [2 ^ 32 - 2] /\
  get_status (observe (first_init 1 one translation) [(2 ^ 32, [three])]) = [2 ^ 32 - 1].
Proof. vm_compute. auto. Qed.

(** ** C34 *)
Theorem C34_last_passage : forall n thr cut ty h,
  length (get_status (observe (last_init n thr cut ty) h)) = n /\
  forall i, (i < n)%nat ->
    exists v, nth_error (get_status (observe (last_init n thr cut ty) h)) i = Some v /\
              last_exit thr cut (seen n i h) v.
Proof. intros. split; [apply status_length_last|]. intros. apply last_passage; auto. Qed.
Print Assumptions C34_last_passage.

(** For cutoff >= threshold an escape is a distance beyond the cutoff, as the property is
    worded. *)
Theorem C34_escape_is_cutoff : forall thr cut c, xle thr cut = true ->
  (escapes thr cut c <-> xlt cut (snd c) = true).
Proof.
  intros thr cut c H. unfold escapes. split; [tauto|]. intros E. split; auto.
  eapply xle_lt_trans; eauto.
Qed.
Print Assumptions C34_escape_is_cutoff.

(** The specification leaves no choice. *)
Theorem C34_unique : forall thr cut l v w,
  last_exit thr cut l v -> last_exit thr cut l w -> v = w.
Proof. exact last_exit_unique. Qed.
Print Assumptions C34_unique.

Example C34_example :
  let h := [ (1, [Fin 0]); (2, [Fin 2]); (3, [Fin (1#2)]); (4, [Fin (3#2)]); (5, [Fin 2]);
             (6, [Fin 1]); (7, [Fin (5#2)]); (8, [Fin 4]); (9, [Fin 0]); (10, [Fin 9]) ] in
  xle one three = true /\
  get_status (observe (last_init 1 one three translation) h) = [4] /\
  get_status (observe (last_init 1 one three translation) (firstn 7 h)) = [2 ^ 32 - 1].
Proof. vm_compute. auto. Qed.

(** ** C35 *)
Theorem C35_documented_algorithm : forall thr irr t dist status state,
  length dist = length status -> length state = length status ->
  xle thr irr = true -> (forall s, In s state -> (s <= 2)%nat) ->
  let (status', state') := last_update thr irr t dist status state in
  length status' = length status /\ length state' = length status /\
  (forall s, In s state' -> (s <= 2)%nat) /\
  forall i d s st, nth_error dist i = Some d -> nth_error status i = Some s ->
    nth_error state i = Some st ->
    exists s' st', nth_error status' i = Some s' /\ nth_error state' i = Some st' /\
      if (st =? 0)%nat && xgt d thr && xgt d irr then (s', st') = (t, 2%nat)
      else (s', st') = documented thr irr t d s st.
Proof.
  intros thr irr t dist status state L1 L2 Hle Hst.
  assert (P := fun i d s st => last_update_pointwise thr irr t dist status state i d s st L1 L2).
  assert (Len : length (fst (last_update thr irr t dist status state)) = length status /\
                length (snd (last_update thr irr t dist status state)) = length status).
  { unfold last_update, set_where. simpl.
    repeat (rewrite zip_with_length); repeat (rewrite zip_with_length); repeat split; auto;
    repeat (rewrite zip_with_length); try congruence; repeat (rewrite zip_with_length); congruence. }
  destruct (last_update thr irr t dist status state) as [status' state'].
  simpl in Len. destruct Len as [E1 E2].
  assert (Q : forall i d s st, nth_error dist i = Some d -> nth_error status i = Some s ->
    nth_error state i = Some st ->
    exists s' st', nth_error status' i = Some s' /\ nth_error state' i = Some st' /\
      (s', st') = one_jump thr irr t d s st).
  { intros i d s st Hd Hs Hst'. destruct (P i d s st Hd Hs Hst') as [A B].
    assert (Hb : (st <= 2)%nat) by (apply Hst; eapply nth_error_In; eauto).
    rewrite lstep_documented in A, B by auto.
    do 2 eexists. split; [exact A|]. split; [exact B|]. symmetry. apply surjective_pairing. }
  split; auto. split; auto. split.
  - intros s Hs. apply In_nth_error in Hs. destruct Hs as [i Hi].
    assert (Hl : (i < length status)%nat) by (rewrite <- E2; apply nth_error_Some; congruence).
    destruct (nth_error dist i) as [d|] eqn:Ed.
    2:{ apply nth_error_None in Ed. lia. }
    destruct (nth_error status i) as [s0|] eqn:Es.
    2:{ apply nth_error_None in Es. lia. }
    destruct (nth_error state i) as [st|] eqn:Et.
    2:{ apply nth_error_None in Et. lia. }
    destruct (Q i d s0 st Ed Es Et) as (s' & st' & _ & B & C).
    assert (st' = s) by congruence. subst st'.
    assert (Hb : (st <= 2)%nat) by (apply Hst; eapply nth_error_In; eauto).
    unfold one_jump, documented in C.
    destruct ((st =? 0)%nat && xgt d thr && xgt d irr); [injection C as -> ->; lia|].
    destruct st as [|[|st]].
    + destruct (xgt d thr); injection C as -> ->; lia.
    + destruct (xgt d irr); [|destruct (xlt d thr)]; injection C as -> ->; lia.
    + injection C as -> ->. lia.
  - intros i d s st Hd Hs Ht. destruct (Q i d s st Hd Hs Ht) as (s' & st' & A & B & C).
    exists s', st'. split; auto. split; auto. unfold one_jump in C.
    destruct ((st =? 0)%nat && xgt d thr && xgt d irr); exact C.
Qed.
Print Assumptions C35_documented_algorithm.

(** The hypothesis cutoff >= threshold is needed: below it the code goes from state 1 to
    state 0 where the documented algorithm goes to state 2. *)
Example C35_cutoff_needed :
  last_update three one 5 [Fin 2%Q] [4] [1%nat] = ([4], [0%nat]) /\
  documented three one 5 (Fin 2%Q) 4 1 = (4, 2%nat).
Proof. vm_compute. auto. Qed.
Example C35_example :
  last_update one three 5 [Fin 4; Fin 2; Fin 1; Fin 0; Fin 4; NaN; Fin 0]
              [9; 9; 4; 4; 4; 4; 3] [0; 0; 1; 1; 1; 1; 2]%nat
  = ([5; 5; 4; 4; 4; 4; 3], [2; 1; 1; 0; 2; 1; 2]%nat) /\ xle one three = true.
Proof. vm_compute. auto. Qed.

(** ** C36 *)
Theorem C36_final : forall n thr cut ty h h' i v, (i < n)%nat ->
  nth_error (get_status (observe (last_init n thr cut ty) h)) i = Some v -> v <> 2 ^ 32 - 1 ->
  nth_error (get_status (observe (last_init n thr cut ty) (h ++ h'))) i = Some v.
Proof. exact last_final. Qed.
Print Assumptions C36_final.

Example C36_example :
  get_status (observe (last_init 2 one three translation) dist_calls) = [2 ^ 32 - 1; 10] /\
  get_status (observe (last_init 2 one three translation)
                (dist_calls ++ [(50, [Fin 0; Fin 0]); (60, [Fin 7; Fin 7])])) = [60; 10].
Proof. vm_compute. auto. Qed.

(** ** C37: neither monotone times nor cutoff >= threshold are needed. *)
Theorem C37_last_after_first : forall n thr cut ty h i v w, (i < n)%nat ->
  nth_error (get_status (observe (first_init n thr ty) h)) i = Some v ->
  nth_error (get_status (observe (last_init n thr cut ty) h)) i = Some w -> v <= w.
Proof.
  intros n thr cut ty h i v w Hi Hv Hw.
  destruct (first_passage n thr ty h i Hi) as (v' & A & B).
  destruct (last_passage n thr cut ty h i Hi) as (w' & C & D).
  assert (v' = v) by congruence. assert (w' = w) by congruence. subst.
  eapply last_exit_ge; eauto.
Qed.
Print Assumptions C37_last_after_first.

Example C37_example :
  let h := [ (2, [Fin 2]); (3, [Fin (1#2)]); (4, [Fin (3#2)]); (8, [Fin 4]) ] in
  get_status (observe (first_init 1 one translation) h) = [2] /\
  get_status (observe (last_init 1 one three translation) h) = [4].
Proof. vm_compute. auto. Qed.

(** ** C38.  [sized n r]: the arrays of [r] have length [n], as after every constructor and
    every accepted call. *)
Theorem C38_size_mismatch : forall n r t d, sized n r ->
  (length d <> n -> mr_add t d r = inr RuntimeError /\ observe r [(t, d)] = r) /\
  (length d = n -> exists r', mr_add t d r = inl r' /\ sized n r' /\
     length (get_status r') = n).
Proof.
  intros n r t d Hr. split.
  - intros Hd. assert (E : mr_add t d r = inr RuntimeError).
    { unfold mr_add. destruct Hr as [-> _]. apply Nat.eqb_neq in Hd. rewrite Hd. reflexivity. }
    split; auto. unfold observe. simpl. rewrite E. reflexivity.
  - intros Hd. destruct (mr_add_sized n t d r Hr Hd) as (r' & A & B & _).
    exists r'. split; auto. split; auto. destruct B as [B1 B2]. unfold get_status.
    destruct (mr_last r') as [[st irr]|]; auto. unfold set_where.
    rewrite zip_with_length; rewrite ?map_length; congruence.
Qed.
Print Assumptions C38_size_mismatch.

Theorem C38_always_sized : forall n thr cut ty h,
  sized n (observe (first_init n thr ty) h) /\ sized n (observe (last_init n thr cut ty) h).
Proof.
  intros n thr cut ty h. split.
  - destruct (observe_first thr ty n h _ (first_init_is n thr ty)) as [(A1 & A2 & A3 & A4) _].
    split; auto. rewrite A3. auto.
  - destruct (observe_last thr cut ty n h _ (last_init_is n thr cut ty)) as [(A1 & A2 & A3 & st & A4 & A5) _].
    split; auto. rewrite A4. auto.
Qed.
Print Assumptions C38_always_sized.

Example C38_example :
  mr_add 7 [PInf; PInf] (last_init 3 one three rotation) = inr RuntimeError /\
  exists r, mr_add 7 [PInf; PInf; NaN] (last_init 3 one three rotation) = inl r /\
    get_status r = [7; 7; 2 ^ 32 - 1].
Proof. split; [reflexivity|]. eexists. split; [reflexivity|vm_compute; reflexivity]. Qed.

(** ** C39 *)
Theorem C39_set_mol_relax : forall parse show n defs,
  let (d, e) := set_mol_relax parse show n defs in
  (e = None <-> forall x, In x defs -> exists nm thr cut l ty, well_formed parse show x nm thr cut l ty) /\
  (e = None ->
     NoDup (dkeys d) /\
     (forall nm, In nm (dkeys d) <->
        exists x thr cut l ty, In x defs /\ well_formed parse show x nm thr cut l ty) /\
     forall pre x post nm thr cut l ty,
       defs = pre ++ x :: post -> well_formed parse show x nm thr cut l ty ->
       (forall y thr' cut' l' ty', In y post -> ~ well_formed parse show y nm thr' cut' l' ty') ->
       exists r, dget String.eqb nm d = Some r /\ fresh n thr cut l ty r) /\
  (forall x, e = Some x -> x = ValueError \/ x = TypeError \/ x = KeyError).
Proof.
  intros parse show n defs.
  destruct (set_mol_relax parse show n defs) as [d e] eqn:E. unfold set_mol_relax in E.
  split; [|split].
  - assert (H := set_loop_ok parse show n defs []). rewrite E in H. exact H.
  - intros ->. assert (H0 : snd (set_loop parse show n defs []) = None) by (rewrite E; auto).
    destruct (set_loop_keys parse show n defs [] H0 (NoDup_nil _)) as [A B].
    rewrite E in A, B. simpl in A, B. split; auto. split.
    + intros nm. rewrite B. split.
      * intros [[]|(x & H1 & thr & cut & l & ty & H2)]. exists x, thr, cut, l, ty. auto.
      * intros (x & thr & cut & l & ty & H1 & H2). right. exists x. split; auto.
        exists thr, cut, l, ty. auto.
    + intros pre x post nm thr cut l ty -> Hw Hp.
      destruct (set_loop_last parse show n pre x post nm thr cut l ty [] H0 Hw) as (r & H1 & H2).
      { intros y Hy (thr' & cut' & l' & ty' & Hn). eapply Hp; eauto. }
      rewrite E in H1. eauto.
  - assert (H : forall defs acc d e, set_loop parse show n defs acc = (d, Some e) ->
              e = ValueError \/ e = TypeError \/ e = KeyError).
    { clear. induction defs as [|x defs IH]; intros acc d e; simpl; [discriminate|].
      destruct (make_relax parse show n x) as [[nm r]|e0] eqn:Em.
      - apply IH.
      - intros [= <- <-]. eapply make_errors; eauto. }
    intros x ->. eapply H; eauto.
Qed.
Print Assumptions C39_set_mol_relax.

(** The default definitions (66-81) give the six documented relaxations whenever the
    distance is not negative. *)
Theorem C39_defaults : forall parse show n d p2 p3 p4,
  xlt d (Fin 0%Q) = false -> xlt p2 (Fin 0%Q) = false -> xlt p3 (Fin 0%Q) = false ->
  xlt p4 (Fin 0%Q) = false ->
  set_mol_relax parse show n (default_definitions d p2 p3 p4) =
  ([ ("tau_D"%string, first_init n (xtriple d) translation);
     ("tau_F"%string, first_init n d translation);
     ("tau_L"%string, last_init n d (xtriple d) translation);
     ("tau_T2"%string, first_init n p2 rotation);
     ("tau_T3"%string, first_init n p3 rotation);
     ("tau_T4"%string, first_init n p4 rotation) ], None).
Proof.
  intros parse show n d p2 p3 p4 Hd H2 H3 H4.
  assert (Hd3 : xlt (xtriple d) (Fin 0%Q) = false).
  { destruct d as [| | |q]; simpl in *; auto. apply Qltb_ge in Hd. apply Qltb_ge.
    apply (Qmult_le_l 0 q 3) in Hd; [|reflexivity]. rewrite Qmult_0_r in Hd. exact Hd. }
  unfold set_mol_relax, default_definitions, set_loop, make_relax, create_mol_relaxations, xzero. simpl.
  rewrite Hd3, Hd, H2, H3, H4. reflexivity.
Qed.
Print Assumptions C39_defaults.

Definition no_parse : string -> option xnum := fun _ => None.
Definition no_show : yaml -> string := fun _ => ""%string.
Definition defn (nm : string) (th : yaml) (last : option yaml) (ty : option yaml) : definition :=
  {| def_name := Some (YStr nm); def_threshold := Some th; def_last := last; def_cutoff := None;
     def_type := ty |}.

Example C39_example :
  let defs := [ defn "a" (YNum one) None None; defn "b" (YBool true) (Some (YBool true)) (Some (YStr "rotation"));
                defn "a" (YNum three) None (Some (YStr "rotation")) ]%string in
  set_mol_relax no_parse no_show 2 defs =
    ([("a"%string, first_init 2 three rotation); ("b"%string, last_init 2 one (xtriple one) rotation)], None) /\
  well_formed no_parse no_show (defn "b" (YBool true) (Some (YBool true)) (Some (YStr "rotation")))%string
              "b" one three true rotation /\
  snd (set_mol_relax no_parse no_show 2 [defn "c" (YNum (Fin (-1))) None None]) = Some ValueError /\
  snd (set_mol_relax no_parse no_show 2 [defn "c" (YNum one) None (Some (YStr "spin"%string))]) = Some KeyError.
Proof.
  cbv zeta. split; [reflexivity|]. split; [|split; reflexivity].
  constructor; simpl; try reflexivity.
  - eexists. split; [reflexivity|]. split; [discriminate|reflexivity].
  - exists (YBool true). split; reflexivity.
  - split; [discriminate|intros H; inversion H].
  - left. split; reflexivity.
  - left. split; reflexivity.
Qed.

(** ** C40.  A frame is a timestep with the displacement and rotation magnitudes of each
    molecule. *)
Definition moves := (Z * (list xnum * list xnum))%type.
Definition add_frames (x : relaxations) (fs : list moves) : relaxations :=
  fold_left (fun x f => fst (relaxations_add (fst f) (fst (snd f)) (snd (snd f)) x)) fs x.

Theorem C40_routing : forall n x fs,
  (forall k r, In (k, r) (rx_relax x) -> sized n r) ->
  (forall f, In f fs -> length (fst (snd f)) = n /\ length (snd (snd f)) = n) ->
  (forall f, In f fs -> snd (relaxations_add (fst f) (fst (snd f)) (snd (snd f)) x) = None) /\
  rx_init_time (add_frames x fs) = rx_init_time x /\
  rx_relax (add_frames x fs) =
  map (fun p => (fst p, observe (snd p)
         (map (fun f => (fst f - rx_init_time x,
                         match mr_type (snd p) with
                         | rotation => snd (snd f)
                         | translation => fst (snd f)
                         end)) fs))) (rx_relax x).
Proof.
  intros n x fs Hs Hf.
  assert (One : forall x f, (forall k r, In (k, r) (rx_relax x) -> sized n r) ->
            length (fst (snd f)) = n -> length (snd (snd f)) = n ->
            let y := fst (relaxations_add (fst f) (fst (snd f)) (snd (snd f)) x) in
            snd (relaxations_add (fst f) (fst (snd f)) (snd (snd f)) x) = None /\
            rx_init_time y = rx_init_time x /\
            (forall k r, In (k, r) (rx_relax y) -> sized n r) /\
            rx_relax y = map (fun p => (fst p, observe (snd p)
              [(fst f - rx_init_time x, match mr_type (snd p) with
                         | rotation => snd (snd f) | translation => fst (snd f) end)])) (rx_relax x) /\
            (forall p q, In (p, q) (combine (rx_relax x) (rx_relax y)) -> mr_type (snd q) = mr_type (snd p))).
  { clear. intros x [t [disp rot]] Hs H1 H2. simpl in *.
    destruct (relax_loop_ok n (t - rx_init_time x) disp rot (rx_relax x) H1 H2 Hs) as (d' & A & B).
    unfold relaxations_add. rewrite A. simpl. split; auto. split; auto. clear A Hs H1 H2.
    induction B as [|[k r] [k' r'] l l' (E1 & E2 & E3) B IH]; simpl; [tauto|].
    simpl in *. subst k'. destruct IH as (I1 & I2 & I3). split; [|split].
    - intros k0 r0 [[= <- <-]|H]; eauto.
    - f_equal; auto. f_equal. unfold observe. simpl. rewrite E3. reflexivity.
    - intros p q [[= <- <-]|H]; auto. simpl.
      unfold mr_add in E3. destruct (negb _); [discriminate|].
      destruct (mr_last r) as [[st irr]|]; [destruct (last_update _ _ _ _ _ _)|];
        injection E3 as <-; reflexivity. }
  split.
  { intros f H. destruct (Hf f H) as [A B]. apply (One x f Hs A B). }
  revert x Hs. induction fs as [|f fs IH]; intros x Hs; simpl.
  - split; auto. symmetry. erewrite map_ext; [apply map_id|]. intros [k r]; reflexivity.
  - destruct (Hf f (or_introl eq_refl)) as [Hf1 Hf2].
    destruct (One x f Hs Hf1 Hf2) as (A & B & C & D & E). cbv zeta in *.
    set (y := fst (relaxations_add (fst f) (fst (snd f)) (snd (snd f)) x)) in *.
    destruct (IH (fun f H => Hf f (or_intror H)) y C) as [I1 I2].
    split; [rewrite <- B; exact I1|].
    unfold add_frames in *. cbn [fold_left]. fold y. rewrite I2, B.
    clear - D E. rewrite D in *. clear D. induction (rx_relax x) as [|[k r] l IHl]; simpl; auto.
    simpl in E. f_equal.
    + f_equal. assert (T := E (k, r) _ (or_introl eq_refl)). simpl in T. rewrite T. reflexivity.
    + apply IHl. intros p q H. apply (E p q). right. exact H.
Qed.
Print Assumptions C40_routing.

(** The objects made by set_mol_relax meet the hypothesis. *)
Theorem C40_reachable : forall parse show n defs d,
  set_mol_relax parse show n defs = (d, None) -> forall k r, In (k, r) d -> sized n r.
Proof.
  intros parse show n defs d. unfold set_mol_relax.
  assert (H : forall defs acc d, set_loop parse show n defs acc = (d, None) ->
            (forall k r, In (k, r) acc -> sized n r) -> forall k r, In (k, r) d -> sized n r).
  { clear. induction defs as [|x defs IH]; intros acc d; simpl.
    - intros [= <-]; auto.
    - destruct (make_relax parse show n x) as [[nm r]|e] eqn:E; [|discriminate].
      intros H Hacc. refine (IH _ _ H _). intros k r0 Hin.
      apply make_sound in E. destruct E as (thr & cut & l & ty & _ & Hf). apply fresh_sized in Hf.
      clear - Hin Hf Hacc. induction acc as [|[k' r'] acc IHa]; simpl in *.
      + destruct Hin as [[= <- <-]|[]]; auto.
      + destruct (String.eqb nm k'); simpl in Hin; destruct Hin as [[= <- <-]|Hin]; eauto. }
  intros E. eapply H; eauto. simpl; tauto.
Qed.
Print Assumptions C40_reachable.

Example C40_example :
  let x := {| rx_init_time := 100;
              rx_relax := [("a"%string, first_init 2 one rotation); ("b"%string, first_init 2 one translation)] |} in
  summary (add_frames x [(110, ([Fin 2; Fin 0], [Fin 0; Fin 2])); (120, ([Fin 2; Fin 2], [Fin 2; Fin 2]))])
  = [("a"%string, [20; 10]); ("b"%string, [10; 20])].
Proof. vm_compute. reflexivity. Qed.
