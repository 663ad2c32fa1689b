(** Proofs about the LAMMPS parser. *)
From Coq Require Import String Ascii ZArith List Bool Lia.
From Verif Require Import Base DictFacts PyStr PyStrFacts FrameModel LammpsModel LammpsSpec.
Import ListNotations.
Open Scope string_scope.
Open Scope Z_scope.

(** ** Arrays *)
Definition upd {A} (i : nat) (v : A) (l : list A) : list A := (firstn i l ++ v :: skipn (S i) l)%list.
Lemma upd_length {A} i (v : A) l : (i < List.length l)%nat -> List.length (upd i v l) = List.length l.
Proof. intros H. unfold upd. rewrite app_length, firstn_length. cbn [List.length]. rewrite skipn_length. lia. Qed.
Lemma upd_same {A} i (v : A) l : (i < List.length l)%nat -> nth_error (upd i v l) i = Some v.
Proof.
  intros H. unfold upd. rewrite nth_error_app2; rewrite firstn_length; [|lia].
  replace (i - Nat.min i (Datatypes.length l))%nat with 0%nat by lia. reflexivity.
Qed.
Lemma upd_other {A} i j (v : A) l :
  (i < List.length l)%nat -> i <> j -> nth_error (upd i v l) j = nth_error l j.
Proof.
  unfold upd. revert j l. induction i as [|i IH]; intros j l L H; (destruct l as [|x l]; simpl in L; [lia|]).
  - destruct j; [lia|]. reflexivity.
  - destruct j; [reflexivity|]. cbn. apply IH; lia.
Qed.
Lemma py_set_upd {A} (l : list A) i v :
  0 <= i < Z.of_nat (List.length l) -> py_set l i v = inl (upd (Z.to_nat i) v l).
Proof.
  intros H. unfold py_set. destruct (i <? 0) eqn:E; [apply Z.ltb_lt in E; lia|]. rewrite E.
  destruct (_ <=? i) eqn:F; [apply Z.leb_le in F; lia|]. reflexivity.
Qed.

Lemma index_of_spec k l : forall i, NoDup l -> In k l ->
  exists c, index_of k i l = inl (i + c)%nat /\ nth_error l c = Some k.
Proof.
  induction l as [|x l IH]; intros i N I; [destruct I|]. cbn [index_of].
  destruct (String.eqb_spec k x) as [->|E].
  - exists 0%nat. split; [f_equal; lia|reflexivity].
  - destruct I as [I|I]; [congruence|]. inversion N; subst.
    destruct (IH (S i) H2 I) as (c & C1 & C2). exists (S c). rewrite C1. split; [f_equal; lia|auto].
Qed.

(** ** Lines *)
Lemma lines_of_app p q : lines_of ((p ++ NL) ++ q) = (lines_of (p ++ NL) ++ lines_of q)%list.
Proof.
  induction p as [|c p IH]; simpl; auto. rewrite IH.
  destruct (Ascii.eqb c nl); [reflexivity|].
  destruct (lines_of (p ++ NL)) as [|l ls] eqn:E; [|reflexivity].
  exfalso. destruct p as [|d p]; simpl in E; [discriminate|].
  destruct (Ascii.eqb d nl); [discriminate|]. destruct (lines_of (p ++ NL)); discriminate.
Qed.
Lemma concat_cons x l : String.concat "" (x :: l) = x ++ String.concat "" l.
Proof. destruct l; simpl; [rewrite app_nil_s|]; reflexivity. Qed.
Lemma concat_app a b : String.concat "" (a ++ b)%list = String.concat "" a ++ String.concat "" b.
Proof. induction a; [reflexivity|]. cbn [app]. rewrite !concat_cons, IHa, app_assoc_s. reflexivity. Qed.
Lemma lines_of_concat ls rest :
  Forall (free (fun c => Ascii.eqb c nl)) ls ->
  lines_of (String.concat "" (map line ls) ++ rest) = (map line ls ++ lines_of rest)%list.
Proof.
  induction 1; [reflexivity|]. cbn [map]. rewrite concat_cons. unfold line at 1.
  rewrite !app_assoc_s, lines_of_line by auto. rewrite IHForall. reflexivity.
Qed.

Lemma word_no_end w : word w -> no_line_end w.
Proof.
  intros [_ F]. eapply free_imp; [|exact F]. intros c H. rewrite (ws_nl c H), (ws_cr c H). reflexivity.
Qed.
Lemma no_end_app a b : no_line_end (a ++ b) <-> no_line_end a /\ no_line_end b.
Proof. apply free_app. Qed.
Lemma no_end_join l : Forall word l -> no_line_end (join " " l).
Proof.
  induction 1 as [|x l W F IH]; [apply free_nil|]. destruct l as [|y l]; [apply word_no_end; auto|].
  rewrite join_cons. apply no_end_app. split; [apply word_no_end; auto|].
  apply free_cons. split; [reflexivity|apply IH].
Qed.
Lemma no_end_nl s : no_line_end s -> free (fun c => Ascii.eqb c nl) s.
Proof. apply free_imp. intros c H. apply orb_false_iff in H. tauto. Qed.
Lemma no_end_cr s : no_line_end s -> free (fun c => Ascii.eqb c cr) s.
Proof. apply free_imp. intros c H. apply orb_false_iff in H. tauto. Qed.

Lemma well_formed_lines {A} (pfloat : string -> option A) t :
  well_formed pfloat t -> Forall no_line_end (header_lines t ++ atom_lines t).
Proof.
  intros (Hfl & Bx & By & Bz & Hw & _ & _ & _ & _ & Ha & _).
  assert (B : forall b, ok_bound pfloat b -> no_line_end (bound_text b)).
  { intros b (B1 & B2 & B3 & _). unfold bound_text. apply no_end_app. split; [apply word_no_end; auto|].
    apply no_end_app. split; [apply free_cons; split; [reflexivity|apply free_nil]|].
    apply no_end_app. split; auto. apply word_no_end; auto. }
  assert (T : no_line_end (tail_text (t_blank t))).
  { destruct (t_blank t); [apply free_cons; split; [reflexivity|]|]; apply free_nil. }
  apply Forall_app. split.
  - unfold header_lines. repeat constructor; try (apply B; auto); try (apply word_no_end, dec_word).
    + intros c. simpl. intuition (subst; reflexivity).
    + intros c. simpl. intuition (subst; reflexivity).
    + apply no_end_app. split; auto. intros c. simpl. intuition (subst; reflexivity).
    + apply (proj2 (no_end_app "ITEM: ATOMS " _)). split; [intros c; simpl; intuition (subst; reflexivity)|].
      apply no_end_app. split; auto. apply no_end_join; auto.
  - unfold atom_lines. apply Forall_forall. intros s. rewrite in_map_iff. intros (a & <- & I).
    destruct (Ha a I) as (_ & W & _). apply no_end_app. split; auto. apply no_end_join; auto.
Qed.

Section Parse.
  Context {A : Type} (pfloat : string -> option A) (sub : A -> A -> A) (f32 : A -> A)
          (junk : nat -> A).
  (** [float] ignores a line end after the number. *)
  Hypothesis strips : forall w v, pfloat w = Some v -> pfloat (w ++ NL) = Some v.
  Notation parse_frame := (parse_frame pfloat sub f32 junk).
  Notation parse_loop := (parse_loop pfloat sub f32 junk).

  Lemma bounds_ok b : ok_bound pfloat b ->
    exists x, bounds pfloat sub (line (bound_text b)) = inl x /\ width pfloat sub b x.
  Proof.
    intros (W1 & W2 & _ & M & P1 & P2). unfold bounds, line, bound_text.
    assert (E : exists more, split_ws ((b_lo b ++ " " ++ b_hi b ++ b_more b) ++ NL) = b_lo b :: b_hi b :: more).
    { rewrite !app_assoc_s. rewrite split_ws_word; auto.
      2:{ right. exists " "%char, (b_hi b ++ b_more b ++ NL). auto. }
      cbn [append split_ws]. change (ws " ") with true. cbn [split_ws].
      eexists. f_equal. apply split_ws_word; auto. right.
      destruct M as [->|(m & ->)]; cbn [append]; [exists nl, ""|eexists _, _]; split; reflexivity. }
    destruct E as (more & ->). cbn [get nth_error ebind]. unfold py_float.
    destruct (pfloat (b_hi b)) as [h|] eqn:H; [|congruence].
    destruct (pfloat (b_lo b)) as [l|] eqn:L; [|congruence].
    cbn [ebind]. eexists. split; [reflexivity|]. exists l, h. auto.
  Qed.

  Lemma store_spec n i : 0 <= i < Z.of_nat n -> forall heads toks d,
    NoDup heads ->
    (forall h, In h heads -> exists arr, dget String.eqb h d = Some (LArr arr) /\ List.length arr = n) ->
    (forall c, (c < List.length heads)%nat -> exists w v, nth_error toks c = Some w /\ pfloat w = Some v) ->
    exists d', store pfloat f32 heads toks i d = inl d'
      /\ (forall h, ~ In h heads -> dget String.eqb h d' = dget String.eqb h d)
      /\ (forall c h w v arr, nth_error heads c = Some h -> nth_error toks c = Some w ->
            pfloat w = Some v -> dget String.eqb h d = Some (LArr arr) ->
            dget String.eqb h d' = Some (LArr (upd (Z.to_nat i) (f32 v) arr))).
  Proof.
    intros Hi. induction heads as [|h heads IH]; intros toks d ND HA HT.
    - exists d. split; [reflexivity|]. split; auto. intros [|c]; discriminate.
    - destruct (HT 0%nat ltac:(simpl; lia)) as (w & v & T0 & P0). destruct toks as [|w0 toks]; [discriminate|].
      injection T0 as ->. cbn [store]. unfold py_float at 1. rewrite P0. cbn [ebind].
      destruct (HA h (or_introl eq_refl)) as (arr & G & L). unfold lget. rewrite G. cbn [ebind larr].
      rewrite py_set_upd by lia. cbn [ebind]. inversion ND; subst.
      set (d1 := dset String.eqb h (LArr (upd (Z.to_nat i) (f32 v) arr)) d).
      destruct (IH toks d1) as (d' & S1 & S2 & S3); auto.
      + intros h' I. unfold d1. rewrite dget_dset_other; [|exact String.eqb_eq|congruence].
        apply HA. right; auto.
      + intros c C. apply (HT (S c)). simpl; lia.
      + exists d'. split; auto. split.
        * intros h' I. rewrite S2 by (simpl in I; tauto). unfold d1. apply dget_dset_other; [exact String.eqb_eq|].
          intros ->. apply I. left; auto.
        * intros [|c] h' w' v' arr' C T P D.
          -- injection C as <-. injection T as <-. rewrite S2 by auto. unfold d1.
             rewrite dget_dset_same by exact String.eqb_eq. rewrite P0 in P. injection P as <-. congruence.
          -- cbn [nth_error] in C, T. apply (S3 c h' w' v' arr' C T P). unfold d1.
             rewrite dget_dset_other; [auto|exact String.eqb_eq|]. intros ->. apply H1. eapply nth_error_In; eauto.
  Qed.

  (** The fields of an atom line as they are split: the last one keeps the line end. *)
  Lemma fields a blank : a <> [] -> Forall word a ->
    let toks := split_char " " (line (join " " a ++ tail_text blank)) in
    (forall c w v, nth_error a c = Some w -> pfloat w = Some v ->
       exists w', nth_error toks c = Some w' /\ pfloat w' = Some v)
    /\ (forall c k, nth_error a c = Some (dec k) ->
       exists w', nth_error toks c = Some w' /\ py_int w' = inl k).
  Proof.
    intros N W. cbv zeta. unfold line.
    assert (F : Forall (free (fun d => Ascii.eqb d " ")) a).
    { eapply Forall_impl; [|exact W]. intros w [_ X]. eapply free_imp; [|exact X]. apply ws_blank. }
    assert (E : split_char " " ((join " " a ++ tail_text blank) ++ NL) =
                if blank then (a ++ [NL])%list else last_app a NL).
    { destruct blank; cbn [tail_text].
      - rewrite app_assoc_s. cbn [append]. rewrite split_join_sep by auto. reflexivity.
      - rewrite app_nil_s. apply split_join_app; auto. intros c [<-|[]]. reflexivity. }
    rewrite E. assert (K : forall c w, nth_error a c = Some w -> exists w',
       nth_error (if blank then (a ++ [NL])%list else last_app a NL) c = Some w' /\ (w' = w \/ w' = w ++ NL)).
    { destruct blank.
      - intros c w C. exists w. split; auto. rewrite nth_error_app1; auto. apply nth_error_Some. congruence.
      - clear. induction a as [|x a IH]; intros c w C; [destruct c; discriminate|].
        destruct a as [|y a].
        + destruct c as [|c]; [|destruct c; discriminate]. injection C as <-. simpl. eauto.
        + destruct c as [|c]; [injection C as <-; exists x; split; auto|].
          change (nth_error (y :: a) c = Some w) in C. apply (IH c w C). }
    split.
    - intros c w v C P. destruct (K c w C) as (w' & C' & [->| ->]); eexists; (split; [exact C'|]); auto.
    - intros c k C. destruct (K c _ C) as (w' & C' & [->| ->]); eexists; split; try exact C'.
      + apply py_int_dec.
      + apply py_int_dec_nl.
  Qed.

  Lemma empty_arrays_get heads n h :
    dget String.eqb h (empty_arrays junk heads n) =
    if in_dec string_dec h heads then Some (LArr (map junk (seq 0 n))) else None.
  Proof.
    unfold empty_arrays.
    assert (K : forall d, dget String.eqb h (fold_left (fun d h => dset String.eqb h (LArr (map junk (seq 0 n))) d) heads d)
      = if in_dec string_dec h heads then Some (LArr (map junk (seq 0 n))) else dget String.eqb h d).
    { induction heads as [|x heads IH]; intros d; cbn [fold_left]; [reflexivity|].
      rewrite IH. rewrite dget_dset by exact String.eqb_eq.
      destruct (in_dec string_dec h heads) as [I|I], (in_dec string_dec h (x :: heads)) as [J|J]; auto.
      - exfalso. apply J. right; auto.
      - destruct J as [->|J]; [|contradiction]. rewrite String.eqb_refl. reflexivity.
      - destruct (String.eqb_spec h x); auto. exfalso. apply J. left; auto. }
    rewrite K. destruct (in_dec _ _ _); reflexivity.
  Qed.

  Lemma atoms_spec t n id_col : well_formed pfloat t -> n = List.length (t_atoms t) ->
    nth_error (t_heads t) id_col = Some "id" ->
    forall todo done d rest, t_atoms t = (done ++ todo)%list ->
    (forall c h, column t c h -> exists arr, dget String.eqb h d = Some (LArr arr) /\ List.length arr = n
        /\ (forall a k, In a done -> atom_id t a k -> exists w v, nth_error a c = Some w
              /\ pfloat w = Some v /\ nth_error arr (Z.to_nat (k - 1)) = Some (f32 v))) ->
    (forall h, dget String.eqb h d <> None -> In h (t_heads t)) ->
    exists d', atoms pfloat f32 (List.length todo) (t_heads t) id_col d
                 (map line (map (fun a => join " " a ++ tail_text (t_blank t)) todo) ++ rest) = inl (d', rest)
      /\ (forall c h, column t c h -> exists arr, dget String.eqb h d' = Some (LArr arr) /\ List.length arr = n
        /\ (forall a k, In a (t_atoms t) -> atom_id t a k -> exists w v, nth_error a c = Some w
              /\ pfloat w = Some v /\ nth_error arr (Z.to_nat (k - 1)) = Some (f32 v)))
      /\ (forall h, dget String.eqb h d' <> None -> In h (t_heads t)).
  Proof.
    intros WF Hn Hid. pose proof WF as (_ & _ & _ & _ & HW & HN & HI & _ & _ & HAt & HU).
    induction todo as [|a todo IH]; intros done d rest E HD HK.
    - exists d. split; [reflexivity|]. rewrite app_nil_r in E. rewrite E. split; auto.
    - cbn [List.length map app atoms readline].
      assert (Ia : In a (t_atoms t)) by (rewrite E; apply in_or_app; right; left; auto).
      destruct (HAt a Ia) as (La & Wa & Pa & k & Ik & Rk).
      assert (Na : a <> []) by (intros ->; simpl in La; destruct (t_heads t); [destruct HI|discriminate]).
      destruct (fields a (t_blank t) Na Wa) as [F1 F2].
      set (toks := split_char " " (line (join " " a ++ tail_text (t_blank t)))) in *.
      assert (Ak : nth_error a id_col = Some (dec k)).
      { destruct Ik as (c & C1 & C2). unfold column in C1.
        assert (c = id_col). { eapply NoDup_nth_error; eauto. { apply nth_error_Some. congruence. } congruence. }
        subst. auto. }
      destruct (F2 _ _ Ak) as (w' & T & I). unfold get. rewrite T. cbn [ebind]. rewrite I. cbn [ebind].
      destruct (store_spec n (k - 1) ltac:(unfold num_atoms in Rk; lia) (t_heads t) toks d HN) as (d1 & S1 & S2 & S3).
      + intros h Ih. apply In_nth_error in Ih. destruct Ih as (c & C). destruct (HD c h C) as (arr & D1 & D2 & _). eauto.
      + intros c Hc. assert (exists w, nth_error a c = Some w) as (w & Hw).
        { destruct (nth_error a c) eqn:X; eauto. apply nth_error_None in X. lia. }
        destruct (pfloat w) as [v|] eqn:Pw; [|exfalso; apply (Pa w); auto; eapply nth_error_In; eauto].
        destruct (F1 c w v Hw Pw) as (w1 & ? & ?). eauto.
      + rewrite S1. cbn [ebind].
        destruct (IH (done ++ [a])%list d1 rest) as (d' & R1 & R2 & R3).
        * rewrite <- app_assoc. exact E.
        * intros c h C. destruct (HD c h C) as (arr & D1 & D2 & D3).
          assert (exists w, nth_error a c = Some w) as (w & Hw).
          { destruct (nth_error a c) eqn:X; eauto. apply nth_error_None in X.
            assert (c < Datatypes.length (t_heads t))%nat by (apply nth_error_Some; unfold column in C; congruence). lia. }
          destruct (pfloat w) as [v|] eqn:Pw; [|exfalso; apply (Pa w); auto; eapply nth_error_In; eauto].
          destruct (F1 c w v Hw Pw) as (w1 & T1 & P1).
          assert (Lk : (Z.to_nat (k - 1) < List.length arr)%nat) by (unfold num_atoms in Rk; lia).
          exists (upd (Z.to_nat (k - 1)) (f32 v) arr). split; [eapply S3; eauto|].
          split; [rewrite upd_length; auto|].
          intros b kb Ib Ab. apply in_app_or in Ib. destruct Ib as [Ib|[<-|[]]].
          -- destruct (D3 b kb Ib Ab) as (wb & vb & X1 & X2 & X3). exists wb, vb. split; auto. split; auto.
             rewrite upd_other; auto. intros Ek.
             assert (Rb : 1 <= kb <= num_atoms t).
             { destruct (HAt b) as (_ & _ & _ & kb' & A1 & A2); [rewrite E; apply in_or_app; auto|].
               assert (kb' = kb); [|subst; auto].
               destruct A1 as (c1 & Q1 & Q2), Ab as (c2 & Q3 & Q4). unfold column in *.
               assert (c1 = c2). { eapply NoDup_nth_error; eauto. { apply nth_error_Some. congruence. } congruence. }
               subst. rewrite Q2 in Q4. injection Q4 as Q4. pose proof (py_int_dec kb') as Z1.
               rewrite Q4, py_int_dec in Z1. congruence. }
             assert (kb = k) by lia. subst kb.
             apply In_nth_error in Ib. destruct Ib as (ib & Ib).
             assert (ib < List.length done)%nat by (apply nth_error_Some; congruence).
             assert (ib = List.length done).
             { apply (HU ib (List.length done) b a k).
               - rewrite E, nth_error_app1 by auto. auto.
               - rewrite E, nth_error_app2, Nat.sub_diag by lia. reflexivity.
               - auto.
               - exists id_col. split; auto. }
             lia.
          -- exists w, v. split; auto. split; auto.
             assert (kb = k); [|subst; apply upd_same; auto].
             destruct Ab as (c2 & Q3 & Q4). unfold column in *.
             assert (c2 = id_col). { eapply NoDup_nth_error; eauto. { apply nth_error_Some. congruence. } congruence. }
             subst. rewrite Ak in Q4. injection Q4 as Q4. pose proof (py_int_dec k) as Z1.
             rewrite Q4, py_int_dec in Z1. congruence.
        * intros h Hh. destruct (in_dec string_dec h (t_heads t)); auto. apply HK. rewrite S2 in Hh; auto.
        * exists d'. auto.
  Qed.

  Definition frame_lines (t : tframe) : list string := map line (header_lines t ++ atom_lines t).

  Lemma rstrip_heads l : l <> [] -> Forall word l -> forall tl, rstrip tl = "" ->
    rstrip (join " " l ++ tl) = join " " l.
  Proof.
    intros N W tl R. induction W as [|x l Wx W IH]; [congruence|]. destruct l as [|y l].
    - cbn [join]. destruct Wx. rewrite rstrip_word, R, app_nil_s by auto. reflexivity.
    - rewrite join_cons, app_assoc_s. specialize (IH ltac:(discriminate)).
      assert (Ne : rstrip ((String " " (join " " (y :: l))) ++ tl) = String " " (join " " (y :: l))).
      { cbn [append]. rewrite rstrip_cons, IH. destruct (join " " (y :: l)) eqn:Ej; auto.
        exfalso. inversion W; subst. destruct H1 as [Hy _]. destruct l; [simpl in Ej; congruence|].
        rewrite join_cons in Ej. destruct y; [congruence|discriminate]. }
      rewrite rstrip_app_ne by (rewrite Ne; discriminate). rewrite Ne. reflexivity.
  Qed.
  Lemma headings_ok t : well_formed pfloat t ->
    skipn 2 (split_char " " (strip (line ("ITEM: ATOMS " ++ join " " (t_heads t) ++ tail_text (t_blank t))))) = t_heads t.
  Proof.
    intros (_ & _ & _ & _ & W & _ & I & _).
    assert (N : t_heads t <> []) by (destruct (t_heads t); [destruct I|discriminate]).
    unfold line, strip. rewrite !app_assoc_s.
    change (lstrip ("ITEM: ATOMS " ++ (join " " (t_heads t) ++ tail_text (t_blank t) ++ NL)))
      with ("ITEM: ATOMS " ++ (join " " (t_heads t) ++ tail_text (t_blank t) ++ NL)).
    assert (R : rstrip (join " " (t_heads t) ++ tail_text (t_blank t) ++ NL) = join " " (t_heads t)).
    { apply rstrip_heads; auto. destruct (t_blank t); reflexivity. }
    rewrite rstrip_app_ne.
    2:{ rewrite R. destruct (t_heads t) as [|x [|y l]]; [congruence| |].
        - cbn [join]. inversion W; subst. destruct H1; auto.
        - rewrite join_cons. inversion W; subst. destruct H1. destruct x; [congruence|discriminate]. }
    rewrite R. change ("ITEM: ATOMS " ++ join " " (t_heads t)) with ("ITEM:" ++ String " " ("ATOMS" ++ String " " (join " " (t_heads t)))).
    rewrite split_char_sep by (intros c; simpl; intuition (subst; reflexivity)).
    rewrite split_char_sep by (intros c; simpl; intuition (subst; reflexivity)).
    cbn [skipn]. apply split_join; auto. eapply Forall_impl; [|exact W]. intros w [_ X].
    eapply free_imp; [|exact X]. apply ws_blank.
  Qed.

  Theorem parse_frame_ok t rest : well_formed pfloat t ->
    exists l ls d, frame_lines t = l :: ls /\ l <> "" /\ parse_frame l (ls ++ rest) = inl (d, rest)
      /\ describes pfloat sub f32 t d.
  Proof.
    intros WF. pose proof WF as (_ & Bx & By & Bz & HW & HN & HI & HB & HT & HAt & HU).
    unfold frame_lines. rewrite map_app. unfold header_lines. cbn [map app].
    do 2 eexists. enough (exists d, parse_frame (line "ITEM: TIMESTEP")
      ((line (dec (t_step t)) :: line "ITEM: NUMBER OF ATOMS" :: line (dec (num_atoms t)) ::
        line ("ITEM: BOX BOUNDS" ++ t_flags t) :: line (bound_text (t_x t)) :: line (bound_text (t_y t)) ::
        line (bound_text (t_z t)) :: line ("ITEM: ATOMS " ++ join " " (t_heads t) ++ tail_text (t_blank t)) ::
        map line (atom_lines t)) ++ rest) = inl (d, rest) /\ describes pfloat sub f32 t d) as (d & D1 & D2).
    { exists d. split; [reflexivity|]. split; [discriminate|]. split; auto. }
    unfold LammpsModel.parse_frame. unfold line at 1. rewrite String.eqb_refl. cbn [negb app readline].
    unfold line at 1. rewrite (strip_word (dec (t_step t)) NL (dec_word _) eq_refl), py_int_dec. cbn [ebind readline].
    unfold line at 1. rewrite String.eqb_refl. cbn [negb readline].
    unfold line at 1. rewrite (strip_word (dec (num_atoms t)) NL (dec_word _) eq_refl), py_int_dec. cbn [ebind readline].
    unfold line at 1. rewrite app_assoc_s, contains_app. cbn [negb readline].
    destruct (bounds_ok _ Bx) as (lx & Ex & Wx). destruct (bounds_ok _ By) as (ly & Ey & Wy).
    destruct (bounds_ok _ Bz) as (lz & Ez & Wz). rewrite Ex, Ey, Ez. cbn [ebind readline].
    replace (contains "ITEM: ATOMS" _) with true.
    2:{ symmetry. unfold line. rewrite app_assoc_s.
        change ("ITEM: ATOMS " ++ ?x) with ("ITEM: ATOMS" ++ String " " x). apply contains_app. }
    cbn [negb]. rewrite headings_ok by auto.
    destruct (index_of_spec "id" (t_heads t) 0 HN HI) as (ic & C1 & C2). rewrite C1. cbn [ebind plus].
    destruct (num_atoms t <? 0) eqn:Ng; [apply Z.ltb_lt in Ng; unfold num_atoms in Ng; lia|].
    unfold num_atoms. rewrite Nat2Z.id.
    destruct (atoms_spec t _ ic WF eq_refl C2 (t_atoms t) [] (empty_arrays junk (t_heads t) (List.length (t_atoms t))) rest eq_refl)
      as (d' & R1 & R2 & R3).
    - intros c h C. rewrite empty_arrays_get. unfold column in C. apply nth_error_In in C.
      destruct (in_dec _ _ _); [|contradiction]. eexists. split; [reflexivity|].
      rewrite map_length, seq_length. split; auto. intros a k [].
    - intros h. rewrite empty_arrays_get. destruct (in_dec _ _ _); auto. congruence.
    - unfold atom_lines. rewrite R1. cbn [ebind]. eexists. split; [reflexivity|].
      unfold describes. refine (conj _ (conj _ (conj _ _))).
      + apply dget_dset_same, String.eqb_eq.
      + exists lx, ly, lz. split; auto. rewrite dget_dset_other; [|exact String.eqb_eq|discriminate].
        apply dget_dset_same, String.eqb_eq.
      + intros c h C. destruct (R2 c h C) as (arr & A1 & A2 & A3). exists arr.
        assert (I : In h (t_heads t)) by (eapply nth_error_In; eauto).
        rewrite !dget_dset_other; try exact String.eqb_eq; try (intros ->; contradiction). auto.
      + intros h. rewrite !dget_dset by exact String.eqb_eq.
        destruct (String.eqb_spec h "timestep"); auto. destruct (String.eqb_spec h "box"); auto.
  Qed.

  (** ** The loop *)
  Lemma atoms_consumes n heads ic : forall d ls d' ls',
    atoms pfloat f32 n heads ic d ls = inl (d', ls') ->
    exists used, ls = (used ++ ls')%list /\ List.length used = n.
  Proof.
    induction n as [|n IH]; intros d ls d' ls' H; cbn [atoms] in H.
    - injection H as <- <-. exists []. auto.
    - destruct ls as [|l ls]; cbn [readline] in H.
      + exfalso. unfold get in H. destruct ic as [|ic]; cbn in H; [discriminate|]. destruct ic; discriminate.
      + destruct (get _ ic) as [w|] in H; cbn [ebind] in H; [|discriminate].
        destruct (py_int w) in H; cbn [ebind] in H; [|discriminate].
        destruct (store _ _ _ _ _ _) in H; cbn [ebind] in H; [|discriminate].
        apply IH in H. destruct H as (used & -> & <-). exists (l :: used). auto.
  Qed.
  Lemma parse_frame_consumes l ls d ls' : parse_frame l ls = inl (d, ls') ->
    exists used n cnt, ls = (used ++ ls')%list /\ nth_error ls 2 = Some n
      /\ py_int (strip n) = inl cnt /\ List.length used = (8 + Z.to_nat cnt)%nat.
  Proof.
    unfold LammpsModel.parse_frame. destruct (negb _); [discriminate|].
    destruct ls as [|l1 ls]; cbn [readline]; [discriminate|].
    destruct (py_int (strip l1)); cbn [ebind]; [|discriminate].
    destruct ls as [|l2 ls]; cbn [readline]; [discriminate|]. destruct (negb _); [discriminate|].
    destruct ls as [|l3 ls]; cbn [readline]; [discriminate|].
    destruct (py_int (strip l3)) as [cnt|] eqn:Hc; cbn [ebind]; [|discriminate].
    destruct ls as [|l4 ls]; cbn [readline]; [discriminate|]. destruct (negb _); [discriminate|].
    destruct ls as [|l5 ls]; cbn [readline]; [discriminate|].
    destruct ls as [|l6 ls]; cbn [readline].
    { destruct (bounds pfloat sub l5); cbn [ebind]; [|discriminate]. discriminate. }
    destruct ls as [|l7 ls]; cbn [readline].
    { destruct (bounds pfloat sub l5), (bounds pfloat sub l6); cbn [ebind]; discriminate. }
    destruct (bounds pfloat sub l5), (bounds pfloat sub l6), (bounds pfloat sub l7); cbn [ebind]; try discriminate.
    destruct ls as [|l8 ls]; cbn [readline]; [discriminate|]. destruct (negb _); [discriminate|].
    destruct (index_of _ _ _) as [ic|]; cbn [ebind]; [|discriminate]. destruct (cnt <? 0); [discriminate|].
    destruct (atoms _ _ _ _ _ _ _) as [[d0 ls0]|] eqn:Ha; cbn [ebind]; [|discriminate].
    intros H. injection H as _ <-. apply atoms_consumes in Ha. destruct Ha as (used & -> & L).
    exists (l1 :: l2 :: l3 :: l4 :: l5 :: l6 :: l7 :: l8 :: used), l3, cnt.
    split; [reflexivity|]. split; [reflexivity|]. split; auto. cbn [List.length]. lia.
  Qed.
  Lemma parse_loop_enough : forall fuel ls, (List.length ls < fuel)%nat ->
    ending (parse_loop fuel ls) <> OutOfFuel /\
    forall fuel', (List.length ls < fuel')%nat -> parse_loop fuel' ls = parse_loop fuel ls.
  Proof.
    induction fuel as [|fuel IH]; intros ls L; [lia|]. cbn [LammpsModel.parse_loop].
    destruct ls as [|l ls]; cbn [readline].
    - split; [discriminate|]. intros [|f'] L'; [simpl in L'; lia|]. reflexivity.
    - destruct l as [|c l].
      { split; [discriminate|]. intros [|f'] L'; [simpl in L'; lia|]. reflexivity. }
      destruct (parse_frame (String c l) ls) as [[d ls']|e] eqn:E.
      + destruct (parse_frame_consumes _ _ _ _ E) as (used & _ & _ & -> & _). 
        assert (L1 : (List.length ls' < fuel)%nat) by (simpl in L; rewrite app_length in L; lia).
        destruct (IH ls' L1) as [I1 I2]. split; [exact I1|]. intros [|f'] L'; [lia|].
        cbn [LammpsModel.parse_loop readline]. rewrite E. f_equal. apply I2. simpl in L'. rewrite app_length in L'. lia.
      + split; [destruct e; discriminate|]. intros [|f'] L'; [lia|].
        cbn [LammpsModel.parse_loop readline]. rewrite E. reflexivity.
  Qed.
  Definition parse_lines (ls : list string) := parse_loop (S (List.length ls)) ls.
  Lemma parse_lines_frame t rest : well_formed pfloat t ->
    exists d, describes pfloat sub f32 t d /\ parse_lines (frame_lines t ++ rest) = cons_item d (parse_lines rest).
  Proof.
    intros WF. destruct (parse_frame_ok t rest WF) as (l & ls & d & E & N & P & D). exists d. split; auto.
    rewrite E. unfold parse_lines. cbn [List.length app].
    transitivity (cons_item d (parse_loop (S (List.length (ls ++ rest))) rest)).
    - remember (S (List.length (ls ++ rest))) as f. cbn [LammpsModel.parse_loop readline].
      destruct l as [|c l]; [congruence|]. rewrite P. reflexivity.
    - f_equal. apply parse_loop_enough; rewrite ?app_length; lia.
  Qed.
  Lemma parse_lines_frames ts rest : Forall (well_formed pfloat) ts ->
    exists ds, Forall2 (describes pfloat sub f32) ts ds /\
      parse_lines (concat (map frame_lines ts) ++ rest) =
      {| items := (ds ++ items (parse_lines rest))%list; ending := ending (parse_lines rest) |}.
  Proof.
    induction 1 as [|t ts W F IH].
    - exists []. split; [constructor|]. cbn [map concat app]. destruct (parse_lines rest); reflexivity.
    - destruct IH as (ds & I1 & I2). cbn [map concat]. rewrite <- app_assoc.
      destruct (parse_lines_frame t (concat (map frame_lines ts) ++ rest) W) as (d & D1 & D2).
      exists (d :: ds). split; [constructor; auto|]. rewrite D2, I2. reflexivity.
  Qed.

  Lemma render_lines t rest : well_formed pfloat t ->
    lines_of (render t ++ rest) = (frame_lines t ++ lines_of rest)%list.
  Proof.
    intros W. unfold render, frame_lines. apply lines_of_concat.
    eapply Forall_impl; [|exact (well_formed_lines pfloat t W)]. intros s. apply no_end_nl.
  Qed.
  Lemma render_all_lines ts rest : Forall (well_formed pfloat) ts ->
    lines_of (render_all ts ++ rest) = (concat (map frame_lines ts) ++ lines_of rest)%list.
  Proof.
    unfold render_all. induction 1 as [|t ts W F IH]; [reflexivity|].
    cbn [map concat]. rewrite concat_cons, app_assoc_s, render_lines, IH, app_assoc by auto. reflexivity.
  Qed.
  Lemma free_concat p l : Forall (free p) l -> free p (String.concat "" l).
  Proof. induction 1; [apply free_nil|]. rewrite concat_cons. apply free_app. auto. Qed.
  Lemma render_all_cr ts : Forall (well_formed pfloat) ts -> free (fun c => Ascii.eqb c cr) (render_all ts).
  Proof.
    intros F. apply free_concat. apply Forall_forall. intros s. rewrite in_map_iff. intros (t & <- & I).
    rewrite Forall_forall in F. apply free_concat. apply Forall_forall. intros l. rewrite in_map_iff.
    intros (l0 & <- & I0). pose proof (well_formed_lines pfloat t (F t I)) as W. rewrite Forall_forall in W.
    unfold line. apply free_app. split; [apply no_end_cr, W, I0|]. intros c [<-|[]]. reflexivity.
  Qed.
End Parse.
