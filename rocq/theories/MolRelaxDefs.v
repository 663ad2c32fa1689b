(** Proofs about set_mol_relax and Relaxations.add. *)
From Coq Require Import String ZArith QArith List Bool Lia Arith.
From Verif Require Import Base DictFacts XNum MolRelaxModel MolRelaxSpec MolRelaxProofs.
Import ListNotations.
Open Scope Z_scope.

(** *** C35 *)
Definition one_jump (thr irr : xnum) (t : Z) (d : xnum) (status : Z) (state : nat) : Z * nat :=
  if (state =? 0)%nat && xgt d thr && xgt d irr then (t, 2%nat)
  else documented thr irr t d status state.

Lemma lstep_documented thr irr t d s st : xle thr irr = true -> (st <= 2)%nat ->
  lstep thr irr (s, st) (t, d) = one_jump thr irr t d s st.
Proof.
  intros Hle Hst. unfold one_jump, lstep, documented, xgt.
  destruct st as [|[|[|st]]]; [| | |lia]; simpl.
  - destruct (xlt thr d) eqn:E; simpl.
    + rewrite (xlt_asym _ _ E). simpl. destruct (xlt irr d); reflexivity.
    + destruct (xlt d thr); simpl; destruct (xlt irr d) eqn:E2; simpl; auto.
  - rewrite andb_false_r. simpl. destruct (xlt irr d) eqn:E2; simpl.
    + rewrite (xlt_asym thr d). reflexivity. eapply xle_lt_trans; eauto.
    + destruct (xlt d thr); simpl; reflexivity.
  - repeat (rewrite andb_false_r; simpl). reflexivity.
Qed.

Lemma last_update_pointwise thr irr t dist status state i d s st :
  length dist = length status -> length state = length status ->
  nth_error dist i = Some d -> nth_error status i = Some s -> nth_error state i = Some st ->
  let (status', state') := last_update thr irr t dist status state in
  nth_error status' i = Some (fst (lstep thr irr (s, st) (t, d))) /\
  nth_error state' i = Some (snd (lstep thr irr (s, st) (t, d))).
Proof.
  intros L1 L2 Hd Hs Hst.
  assert (Hi : (i < length status)%nat) by (apply nth_error_Some; congruence).
  set (r := {| mr_threshold := thr; mr_status := status; mr_type := translation;
               mr_last := Some (state, irr) |}).
  assert (Hr : is_last thr irr translation (length status) r).
  { unfold is_last; simpl. repeat split; auto. eauto. }
  destruct (mr_add_last thr irr translation (length status) r t dist Hr) as [_ B].
  destruct (B L1) as (r' & B1 & B2 & B3).
  unfold mr_add in B1. cbn [mr_status mr_last mr_threshold mr_type r] in B1.
  rewrite L1, Nat.eqb_refl in B1. cbn [negb] in B1.
  destruct (last_update thr irr t dist status state) as [status' state'].
  injection B1 as <-. specialize (B3 i (s, st) Hi). unfold cell in B3. cbn [mr_status mr_last r] in B3.
  rewrite Hs, Hst in B3. specialize (B3 eq_refl).
  rewrite (nth_error_nth _ _ NaN Hd) in B3.
  destruct (nth_error status' i) as [a|]; [|discriminate].
  destruct (nth_error state' i) as [b|]; [|discriminate].
  assert (B4 : (a, b) = lstep thr irr (s, st) (t, d)) by congruence.
  rewrite <- B4. auto.
Qed.

(** *** [last_exit] is functional *)
Lemma app_cons_cases {A} : forall (a a' : list A) x y b b', a ++ x :: b = a' ++ y :: b' ->
  (a = a' /\ x = y /\ b = b') \/
  (exists m, a' = a ++ x :: m /\ b = m ++ y :: b') \/
  (exists m, a = a' ++ y :: m /\ b' = m ++ x :: b).
Proof.
  induction a as [|z a IH]; intros [|z' a'] x y b b' H; simpl in H.
  - injection H as -> ->. auto.
  - injection H as -> ->. right; left. exists a'. auto.
  - injection H as -> <-. right; right. exists a. auto.
  - injection H as -> H. destruct (IH _ _ _ _ _ H) as [(-> & -> & ->)|[(m & -> & ->)|(m & -> & ->)]].
    + auto.
    + right; left. exists m. auto.
    + right; right. exists m. auto.
Qed.

Lemma first_escape_unique thr cut bf e post : forall bf' e' post',
  bf ++ e :: post = bf' ++ e' :: post' ->
  escapes thr cut e -> escapes thr cut e' ->
  (forall c, In c bf -> ~ escapes thr cut c) -> (forall c, In c bf' -> ~ escapes thr cut c) ->
  bf = bf' /\ e = e'.
Proof.
  intros bf' e' post' H He He' Hb Hb'.
  destruct (app_cons_cases _ _ _ _ _ _ H) as [(-> & -> & _)|[(m & -> & _)|(m & -> & _)]]; auto.
  - exfalso. apply (Hb' e); auto. apply in_or_app; right; left; auto.
  - exfalso. apply (Hb e'); auto. apply in_or_app; right; left; auto.
Qed.

Lemma exit_not_later thr (a b a' b' : list (Z * xnum)) x y m a1 a2 :
  a' = a ++ x :: m -> b = m ++ y :: b' -> xlt thr (snd x) = true ->
  (forall c, In c b -> xlt (snd c) thr = false) ->
  a' = a1 ++ a2 -> (a1 = [] \/ exists a0 c, a1 = a0 ++ [c] /\ xlt (snd c) thr = true) ->
  (forall c, In c a2 -> xlt thr (snd c) = false) -> False.
Proof.
  intros -> -> Hx Hb Ha Ha1 Ha2.
  assert (Ni : ~ In x a2) by (intros H; apply Ha2 in H; congruence).
  destruct Ha1 as [->|(a0 & c & -> & Hc)].
  - apply Ni. simpl in Ha. rewrite <- Ha. apply in_or_app; right; left; auto.
  - rewrite <- app_assoc in Ha. simpl in Ha.
    destruct (app_cons_cases _ _ _ _ _ _ Ha) as [(_ & -> & _)|[(m' & _ & ->)|(m' & _ & ->)]].
    + rewrite (xlt_asym _ _ Hx) in Hc. discriminate.
    + assert (xlt (snd c) thr = false); [|congruence]. apply Hb.
      apply in_or_app; left. apply in_or_app; right; left; auto.
    + apply Ni. apply in_or_app; right; left; auto.
Qed.

Lemma last_exit_unique thr cut l v w : last_exit thr cut l v -> last_exit thr cut l w -> v = w.
Proof.
  intros [[A1 A2]|(a & d & b & post & bf & e & H1 & H2 & H3 & H4 & H5 & H6 & a1 & a2 & H7 & H8 & H9)]
         [[B1 B2]|(a' & d' & b' & post' & bf' & e' & G1 & G2 & G3 & G4 & G5 & G6 & a1' & a2' & G7 & G8 & G9)].
  - congruence.
  - exfalso. apply (A1 e'); auto. rewrite G1, G2. rewrite <- app_assoc. apply in_or_app; right; left; auto.
  - exfalso. apply (B1 e); auto. rewrite H1, H2. rewrite <- app_assoc. apply in_or_app; right; left; auto.
  - rewrite H2 in H1. rewrite G2 in G1. rewrite H1 in G1. rewrite <- !app_assoc in G1. simpl in G1.
    destruct (first_escape_unique thr cut _ _ _ _ _ _ G1) as [-> ->]; auto.
    rewrite <- G2 in H2.
    destruct (app_cons_cases _ _ _ _ _ _ H2) as [(_ & E & _)|[(m & E1 & E2)|(m & E1 & E2)]].
    + congruence.
    + exfalso. exact (exit_not_later thr a b a' b' _ _ m a1' a2' E1 E2 H5 H6 G7 G8 G9).
    + exfalso. exact (exit_not_later thr a' b' a b _ _ m a1 a2 E1 E2 G5 G6 H7 H8 H9).
Qed.

(** *** sizes *)
Lemma mr_add_total r t d : (length (mr_status r) = match mr_last r with Some (st, _) => length st | None => length (mr_status r) end) ->
  (length d <> length (mr_status r) -> mr_add t d r = inr RuntimeError) /\
  (length d = length (mr_status r) -> exists r', mr_add t d r = inl r' /\
     length (mr_status r') = length (mr_status r) /\
     length (get_status r') = length (mr_status r)).
Proof.
  intros Hw. destruct (mr_last r) as [[st irr]|] eqn:El.
  - assert (Hr : is_last (mr_threshold r) irr (mr_type r) (length (mr_status r)) r).
    { unfold is_last. repeat split; auto. exists st. auto. }
    destruct (mr_add_last _ _ _ _ r t d Hr) as [A B]. split; auto.
    intros Hd. destruct (B Hd) as (r' & B1 & (C1 & C2 & C3 & st' & C4 & C5) & _).
    exists r'. split; auto. split; auto. unfold get_status. rewrite C4. unfold set_where.
    rewrite zip_with_length; rewrite ?map_length; congruence.
  - assert (Hr : is_first (mr_threshold r) (mr_type r) (length (mr_status r)) r).
    { unfold is_first. auto. }
    destruct (mr_add_first _ _ _ r t d Hr) as [A B]. split; auto.
    intros Hd. destruct (B Hd) as (r' & B1 & (C1 & C2 & C3 & C4) & _).
    exists r'. split; auto. split; auto. unfold get_status. rewrite C3. auto.
Qed.

(** *** definitions *)
Section Defs.
  Variable parse_float : string -> option xnum.
  Variable show : yaml -> string.
  Notation make := (make_relax parse_float show).
  Notation wf := (well_formed parse_float show).

  Lemma to_float_numeric v x :
    (exists y, v = Some y /\ to_float parse_float y = inl x) <-> numeric parse_float v x.
  Proof.
    unfold numeric. split; intros (y & -> & H); exists y; split; auto.
    - destruct y as [|b|z|s|]; simpl in *; try discriminate; try congruence.
      destruct (parse_float s); congruence.
    - destruct y as [|b|z|s|]; simpl in *; try contradiction; subst; auto. rewrite H. auto.
  Qed.

  Lemma fresh_first n thr cut ty : fresh n thr cut false ty (first_init n thr ty).
  Proof. repeat split. Qed.

  Lemma fresh_last n thr cut ty : fresh n thr cut true ty (last_init n thr cut ty).
  Proof.
    repeat split. unfold get_status. simpl.
    induction n; simpl; auto. unfold set_where in *. simpl. f_equal. exact IHn.
  Qed.

  Lemma create_ok n thr last cut s r ty :
    create_mol_relaxations n thr last (Some cut) (Some s) = inl r ->
    type_of_name s = Some ty ->
    xlt thr xzero = false /\ (last = true -> xlt cut xzero = false) /\
    r = if last then last_init n thr cut ty else first_init n thr ty.
  Proof.
    unfold create_mol_relaxations. intros H Ht. rewrite Ht in H.
    destruct (xlt thr xzero); [discriminate|]. destruct last.
    - destruct (xlt cut xzero); [discriminate|]. injection H as <-. auto.
    - injection H as <-. repeat split; auto. discriminate.
  Qed.

  Lemma to_bool_falsy v : to_bool v = false <-> falsy v.
  Proof.
    split.
    - destruct v as [|[]|[| | |q]|[|a s]|]; simpl; try discriminate; intros H; constructor.
      apply Qeq_bool_iff. destruct (Qeq_bool q 0); [reflexivity|discriminate].
    - intros []; simpl; try reflexivity. apply Qeq_bool_iff in H. rewrite H. reflexivity.
  Qed.
  Lemma last_falsy d :
    match def_last d with Some v => to_bool v | None => false end = false <->
    match def_last d with Some v => falsy v | None => True end.
  Proof. destruct (def_last d); [apply to_bool_falsy|tauto]. Qed.

  Lemma make_sound n d nm r : make n d = inl (nm, r) ->
    exists thr cut last ty, wf d nm thr cut last ty /\ fresh n thr cut last ty r.
  Proof.
    unfold make_relax. intros H.
    destruct (def_name d) as [y|] eqn:En; simpl in H; [|discriminate].
    destruct (def_threshold d) as [th|] eqn:Et.
    2:{ destruct y; discriminate. }
    assert (Hy : y <> YNone) by (intros ->; discriminate).
    assert (Hy' : (match y with YNone => None | _ => Some y end) = Some y) by (destruct y; congruence).
    assert (Hth : th <> YNone) by (intros ->; destruct y; discriminate).
    assert (Hth' : (match th with YNone => None | _ => Some th end) = Some th) by (destruct th; congruence).
    unfold given in H.
    replace (match y with YNone => None | _ => Some y end) with (Some y) in H.
    replace (match th with YNone => None | _ => Some th end) with (Some th) in H.
    cbv iota beta in H.
    destruct (to_float parse_float th) as [thr|e] eqn:Ef; [|discriminate].
    destruct (match def_cutoff d with Some v => to_float parse_float v | None => inl (xtriple thr) end)
      as [cut|e] eqn:Ec; [|discriminate].
    set (s := match def_type d with Some v => to_str show v | None => "translation"%string end) in *.
    set (last := match def_last d with Some v => to_bool v | None => false end) in *.
    destruct (create_mol_relaxations n thr last (Some cut) (Some s)) as [r0|e] eqn:Er; [|discriminate].
    injection H as <- <-.
    destruct (type_of_name s) as [ty|] eqn:Ety.
    2:{ unfold create_mol_relaxations in Er. rewrite Ety in Er.
        destruct (xlt thr xzero); [discriminate|]. destruct last; [|discriminate].
        destruct (xlt cut xzero); discriminate. }
    destruct (create_ok _ _ _ _ _ _ _ Er Ety) as (A & B & C).
    exists thr, cut, last, ty. split.
    - constructor.
      + exists y. repeat split; auto.
      + apply to_float_numeric. exists th. auto.
      + exact A.
      + apply last_falsy.
      + destruct (def_cutoff d) as [c|] eqn:Edc.
        * right. apply to_float_numeric. eauto.
        * left. split; congruence.
      + exact B.
      + subst s. destruct (def_type d) as [v|].
        * unfold type_of_name in Ety. destruct (String.eqb_spec (to_str show v) "rotation").
          -- left. split; [exact e|congruence].
          -- destruct (String.eqb_spec (to_str show v) "translation"); [|discriminate].
             right. split; [exact e|congruence].
        * cbv in Ety. congruence.
    - subst r0. destruct last; [apply fresh_last|apply fresh_first].
  Qed.

  Lemma make_complete n d nm thr cut last ty : wf d nm thr cut last ty ->
    exists r, make n d = inl (nm, r) /\ fresh n thr cut last ty r.
  Proof.
    intros [(y & H1 & H1' & H1'') H2 H3 H4 H5 H6 H7].
    apply to_float_numeric in H2. destruct H2 as (th & H2 & H2').
    unfold make_relax. rewrite H1, H2.
    assert (E1 : given (Some y) = Some y) by (destruct y; simpl; congruence).
    assert (E2 : given (Some th) = Some th) by (destruct th; simpl in *; congruence).
    assert (E0 : match def_last d with Some v => to_bool v | None => false end = last).
    { pose proof (last_falsy d) as L. destruct last, (match def_last d with Some v => to_bool v | None => false end); auto.
      - symmetry. apply H4, L. reflexivity.
      - apply L, H4. reflexivity. }
    rewrite E1, E2, H2', E0.
    assert (E3 : match def_cutoff d with Some v => to_float parse_float v | None => inl (xtriple thr) end = inl cut).
    { destruct H5 as [[-> ->]|H5]; auto. apply to_float_numeric in H5.
      destruct H5 as (c & -> & ->). auto. }
    rewrite E3. unfold create_mol_relaxations.
    assert (E4 : type_of_name (match def_type d with Some v => to_str show v | None => "translation"%string end) = Some ty).
    { destruct (def_type d) as [v|]; [|subst ty; reflexivity].
      change (to_str show v) with (shown show v).
      destruct H7 as [[-> ->]|[-> ->]]; reflexivity. }
    rewrite E4. unfold xzero. rewrite H3. destruct last.
    - rewrite (H6 eq_refl). eexists. split; [f_equal; f_equal; symmetry; exact H1''|].
      apply fresh_last.
    - eexists. split; [f_equal; f_equal; symmetry; exact H1''|]. apply fresh_first.
  Qed.

  Lemma wf_name_unique d nm nm' thr thr' cut cut' l l' ty ty' :
    wf d nm thr cut l ty -> wf d nm' thr' cut' l' ty' -> nm = nm'.
  Proof.
    intros [(y & H1 & _ & H2) _ _ _ _ _ _] [(z & H3 & _ & H4) _ _ _ _ _ _]. congruence.
  Qed.

  Lemma set_loop_ok n defs : forall acc,
    snd (set_loop parse_float show n defs acc) = None <->
    (forall d, In d defs -> exists nm thr cut l ty, wf d nm thr cut l ty).
  Proof.
    induction defs as [|d defs IH]; intros acc; simpl.
    - split; auto; try tauto.
    - destruct (make n d) as [[nm r]|e] eqn:E; simpl.
      + rewrite IH. split; intros H.
        * intros d' [<-|Hd']; auto. apply make_sound in E.
          destruct E as (thr & cut & l & ty & E & _). eauto 10.
        * intros d' Hd'. apply H; auto.
      + split; [discriminate|]. intros H.
        destruct (H d (or_introl eq_refl)) as (nm & thr & cut & l & ty & Hw).
        destruct (make_complete n d nm thr cut l ty Hw) as (r & Hr & _). congruence.
  Qed.

  Definition named d nm : Prop := exists thr cut l ty, wf d nm thr cut l ty.

  Lemma set_loop_other n defs nm : forall acc,
    snd (set_loop parse_float show n defs acc) = None ->
    (forall d, In d defs -> ~ named d nm) ->
    dget String.eqb nm (fst (set_loop parse_float show n defs acc)) = dget String.eqb nm acc.
  Proof.
    induction defs as [|d defs IH]; intros acc H Hn; simpl in *; auto.
    destruct (make n d) as [[nm' r]|e] eqn:E; [|discriminate].
    rewrite IH; auto. apply dget_dset_other; [apply String.eqb_eq|].
    intros ->. apply make_sound in E. destruct E as (thr & cut & l & ty & E & _).
    apply (Hn d); auto. exists thr, cut, l, ty; auto.
  Qed.

  Lemma set_loop_last n pre d post nm thr cut l ty : forall acc,
    snd (set_loop parse_float show n (pre ++ d :: post) acc) = None ->
    wf d nm thr cut l ty -> (forall d', In d' post -> ~ named d' nm) ->
    exists r, dget String.eqb nm (fst (set_loop parse_float show n (pre ++ d :: post) acc)) = Some r /\
              fresh n thr cut l ty r.
  Proof.
    induction pre as [|p pre IH]; intros acc H Hw Hn; simpl in *.
    - destruct (make_complete n d nm thr cut l ty Hw) as (r & Hr & Hf). rewrite Hr in *.
      exists r. split; auto. rewrite set_loop_other; auto.
      apply dget_dset_same. apply String.eqb_eq.
    - destruct (make n p) as [[nm' r]|e] eqn:E; [|discriminate]. apply IH; auto.
  Qed.

  Lemma set_loop_keys n defs : forall acc,
    snd (set_loop parse_float show n defs acc) = None -> NoDup (dkeys acc) ->
    NoDup (dkeys (fst (set_loop parse_float show n defs acc))) /\
    forall nm, In nm (dkeys (fst (set_loop parse_float show n defs acc))) <->
      In nm (dkeys acc) \/ exists d, In d defs /\ named d nm.
  Proof.
    induction defs as [|d defs IH]; intros acc H Hn; simpl in *.
    - split; auto. intros nm. split; auto. intros [?|(d & [] & _)]; auto.
    - destruct (make n d) as [[nm' r]|e] eqn:E; [|discriminate].
      destruct (IH (dset String.eqb nm' r acc) H) as [A B].
      { apply dset_NoDup; auto. apply String.eqb_eq. }
      split; auto. intros nm. rewrite B, dset_In_keys by apply String.eqb_eq.
      apply make_sound in E. destruct E as (thr & cut & l & ty & E & _). split.
      + intros [[->|H1]|(d' & H1 & H2)]; auto.
        * right. exists d. split; auto. exists thr, cut, l, ty; auto.
        * right. exists d'; auto.
      + intros [H1|(d' & [<-|H1] & H2)]; auto.
        * left. left. destruct H2 as (? & ? & ? & ? & H2). eapply wf_name_unique; eauto.
        * right. exists d'. auto.
  Qed.

  Lemma make_errors n d e : make n d = inr e -> e = ValueError \/ e = TypeError \/ e = KeyError.
  Proof.
    unfold make_relax, create_mol_relaxations.
    assert (Hf : forall y e, to_float parse_float y = inr e -> e = ValueError \/ e = TypeError).
    { intros y e0. destruct y; simpl; try congruence; try (intros [= <-]; auto).
      destruct (parse_float s); [discriminate|intros [= <-]; auto]. }
    destruct (given (def_name d)); [|intros [= <-]; auto].
    destruct (given (def_threshold d)) as [th|]; [|intros [= <-]; auto].
    destruct (to_float parse_float th) as [thr|e0] eqn:E1; [|apply Hf in E1; intros [= <-]; tauto].
    destruct (match def_cutoff d with Some v => to_float parse_float v | None => inl (xtriple thr) end)
      as [cut|e0] eqn:E2.
    2:{ destruct (def_cutoff d); [|discriminate]. apply Hf in E2. intros [= <-]. tauto. }
    destruct (xlt thr xzero); [intros [= <-]; auto|].
    destruct (match def_last d with Some v => to_bool v | None => false end);
    [destruct (xlt cut xzero); [intros [= <-]; auto|]|];
    destruct (type_of_name _); try discriminate; intros [= <-]; auto.
  Qed.
End Defs.

Lemma set_loop_fresh parse show n : forall defs acc d, set_loop parse show n defs acc = (d, None) ->
  (forall k r, In (k, r) acc -> exists thr cut l ty, fresh n thr cut l ty r) ->
  forall k r, In (k, r) d -> exists thr cut l ty, fresh n thr cut l ty r.
Proof.
  induction defs as [|x defs IH]; intros acc d; simpl.
  - intros [= <-]; auto.
  - destruct (make_relax parse show n x) as [[nm r]|e] eqn:E; [|discriminate].
    intros H Hacc. refine (IH _ _ H _). intros k r0 Hin.
    apply make_sound in E. destruct E as (thr & cut & l & ty & _ & Hf).
    clear - Hin Hf Hacc. induction acc as [|[k' r'] acc IHa]; simpl in *.
    + destruct Hin as [[= <- <-]|[]]; eauto.
    + destruct (String.eqb nm k'); simpl in Hin; destruct Hin as [[= <- <-]|Hin]; eauto.
Qed.
Lemma set_mol_relax_fresh parse show n defs d : set_mol_relax parse show n defs = (d, None) ->
  forall k r, In (k, r) d -> exists thr cut l ty, fresh n thr cut l ty r.
Proof. intros H. eapply set_loop_fresh; [exact H|]. simpl; tauto. Qed.

(** *** Relaxations.add *)
Definition sized (n : nat) (r : molrel) : Prop :=
  length (mr_status r) = n /\
  match mr_last r with Some (st, _) => length st = n | None => True end.

Lemma fresh_sized n thr cut l ty r : fresh n thr cut l ty r -> sized n r.
Proof.
  intros (A & B & C & D & E). unfold sized. rewrite C, D. split; [apply repeat_length|].
  destruct l; auto. apply repeat_length.
Qed.

Lemma mr_add_sized n t d r : sized n r -> length d = n ->
  exists r', mr_add t d r = inl r' /\ sized n r' /\ mr_type r' = mr_type r.
Proof.
  intros [H1 H2] Hd. destruct (mr_last r) as [[st irr]|] eqn:El.
  - assert (Hr : is_last (mr_threshold r) irr (mr_type r) n r).
    { unfold is_last. repeat split; auto. exists st. auto. }
    destruct (mr_add_last _ _ _ _ r t d Hr) as [_ B]. destruct (B Hd) as (r' & B1 & (C1 & C2 & C3 & st' & C4 & C5) & _).
    exists r'. repeat split; auto. rewrite C4. auto.
  - assert (Hr : is_first (mr_threshold r) (mr_type r) n r).
    { unfold is_first. auto. }
    destruct (mr_add_first _ _ _ r t d Hr) as [_ B]. destruct (B Hd) as (r' & B1 & (C1 & C2 & C3 & C4) & _).
    exists r'. repeat split; auto. rewrite C3. auto.
Qed.

Lemma relax_loop_ok n t disp rot d : length disp = n -> length rot = n ->
  (forall k r, In (k, r) d -> sized n r) ->
  exists d', relax_loop t disp rot d = (d', None) /\
    Forall2 (fun p q => fst q = fst p /\ sized n (snd q) /\
       mr_add t (match mr_type (snd p) with rotation => rot | translation => disp end) (snd p)
       = inl (snd q)) d d'.
Proof.
  intros Hd Hr. induction d as [|[k r] d IH]; intros Hs; simpl.
  - eexists. split; [reflexivity|constructor].
  - destruct IH as (d' & A & B); [intros; eapply Hs; right; eauto|].
    destruct (mr_add_sized n t (match mr_type r with rotation => rot | translation => disp end) r)
      as (r' & C1 & C2 & C3).
    { eapply Hs; left; eauto. }
    { destruct (mr_type r); auto. }
    rewrite C1, A. eexists. split; [reflexivity|]. constructor; auto.
Qed.
