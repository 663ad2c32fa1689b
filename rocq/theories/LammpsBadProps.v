(** C173, C174: LAMMPS trajectories with bad atom lines. *)
From Coq Require Import String Ascii ZArith List Bool Lia.
From Verif Require Import Base DictFacts PyStr PyStrFacts FrameModel LammpsModel LammpsSpec LammpsProofs LammpsProps LammpsBadSpec.
Import ListNotations.
Open Scope string_scope.
Open Scope list_scope.
Open Scope Z_scope.
Notation length := List.length.

Lemma is_digit_listed c : is_digit c = true -> In c (chars "0123456789_+-").
Proof.
  destruct c as [[] [] [] [] [] [] [] []]; intros H; first [discriminate H | cbn; tauto].
Qed.
Lemma digits_chars s : forall acc b n, digits acc b s = Some n ->
  forall c, In c (chars s) -> In c (chars "0123456789_+-").
Proof.
  induction s as [|d s IH]; intros acc b n H c I; [destruct I|]. cbn [digits] in H.
  destruct (digit d) as [v|] eqn:D.
  - destruct I as [<-|I]; [|eapply IH; eauto]. apply is_digit_listed. unfold is_digit. rewrite D. reflexivity.
  - destruct (Ascii.eqb_spec d "_"); cbn [andb] in H; [|discriminate]. destruct b; [|discriminate].
    destruct I as [<-|I]; [subst; cbn; tauto|eapply IH; eauto].
Qed.
Lemma py_int_chars s n : py_int s = inl n -> forall c, In c (chars (strip s)) -> In c (chars "0123456789_+-").
Proof.
  unfold py_int. destruct (strip s) as [|d w]; [discriminate|]. intros H c I.
  destruct (Ascii.eqb_spec d "-") as [->|].
  { destruct (digits 0 false w) eqn:E; [|discriminate]. destruct I as [<-|I]; [cbn; tauto|eapply digits_chars; eauto]. }
  destruct (Ascii.eqb_spec d "+") as [->|].
  { destruct (digits 0 false w) eqn:E; [|discriminate]. destruct I as [<-|I]; [cbn; tauto|eapply digits_chars; eauto]. }
  destruct (digits 0 false (String d w)) eqn:E; [|discriminate]. eapply digits_chars; eauto.
Qed.
Lemma py_int_error s : (exists c, In c (chars (strip s)) /\ not_in_integers c) -> py_int s = inr ValueError.
Proof.
  intros (c & I & N). destruct (py_int s) as [n|e] eqn:E.
  - destruct N. eapply py_int_chars; eauto.
  - unfold py_int in E. destruct (match strip s with "" => None | _ => _ end); [discriminate|congruence].
Qed.

Section Bad.
  Context {A : Type} (pfloat : string -> option A) (sub : A -> A -> A) (f32 : A -> A) (junk : nat -> A).
  Hypothesis strips : float_strips pfloat.
  Notation parse_frame := (parse_frame pfloat sub f32 junk).
  Lemma strips_some w v : pfloat w = Some v -> pfloat (w ++ NL) = Some v.
  Proof. rewrite strips. auto. Qed.

  (** The fields of a line as they are split. *)
  Lemma tokens a blank : a <> [] -> Forall word a ->
    let toks := split_char " " (line (join " " a ++ tail_text blank)) in
    length toks = (length a + if blank then 1 else 0)%nat
    /\ forall c w, nth_error a c = Some w -> exists w', nth_error toks c = Some w' /\ (w' = w \/ w' = (w ++ NL)%string).
  Proof.
    intros N W. cbv zeta. unfold line.
    assert (F : Forall (free (fun d => Ascii.eqb d " ")) a).
    { eapply Forall_impl; [|exact W]. intros w [_ X]. eapply free_imp; [|exact X]. apply ws_blank. }
    assert (E : split_char " " ((join " " a ++ tail_text blank) ++ NL) =
                if blank then (a ++ [NL])%list else last_app a NL).
    { destruct blank; cbn [tail_text].
      - rewrite app_assoc_s. cbn [append]. rewrite split_join_sep by auto. reflexivity.
      - rewrite app_nil_s. apply split_join_app; auto. intros c [<-|[]]. reflexivity. }
    rewrite E. destruct blank.
    - split; [rewrite app_length; reflexivity|]. intros c w C. exists w. split; auto.
      rewrite nth_error_app1; auto. apply nth_error_Some. congruence.
    - clear - N. split.
      + rewrite Nat.add_0_r. destruct a as [|x a]; [congruence|]. clear N. revert x.
        induction a as [|y a IH]; intros x; [reflexivity|].
        change (S (length (last_app (y :: a) NL)) = S (length (y :: a))). f_equal. apply IH.
      + clear N. induction a as [|x a IH]; intros c w C; [destruct c; discriminate|].
        destruct a as [|y a].
        * destruct c as [|c]; [|destruct c; discriminate]. injection C as <-. simpl. eauto.
        * destruct c as [|c]; [injection C as <-; exists x; split; auto|].
          change (nth_error (y :: a) c = Some w) in C. apply (IH c w C).
  Qed.

  Lemma strip_tok w w' : word w -> w' = w \/ w' = (w ++ NL)%string -> strip w' = w.
  Proof. intros W [-> | ->]; [apply strip_word0; auto|apply strip_word; auto]. Qed.

  (** Arrays of length [n] for every heading. *)
  Definition arrays (n : nat) (heads : list string) (d : lframe A) : Prop :=
    forall h, In h heads -> exists arr, dget String.eqb h d = Some (LArr arr) /\ length arr = n.

  Lemma arrays_set n heads d h arr : arrays n heads d -> length arr = n -> arrays n heads (dset String.eqb h (LArr arr) d).
  Proof.
    intros H L h' I. rewrite dget_dset by exact String.eqb_eq. destruct (String.eqb h' h); [eauto|auto].
  Qed.
  (** Storing a line changes no length, whatever is on it. *)
  Lemma store_arrays n all heads : forall toks i d d', (forall h, In h heads -> In h all) -> arrays n all d ->
    store pfloat f32 heads toks i d = inl d' -> arrays n all d'.
  Proof.
    induction heads as [|h heads IH]; intros toks i d d' S H E; cbn [store] in E; [injection E as <-; auto|].
    destruct toks as [|w toks]; [injection E as <-; auto|].
    destruct (py_float pfloat w) as [x|]; cbn [ebind] in E; [|discriminate].
    destruct (H h (S h (or_introl eq_refl))) as (arr & G & L). unfold lget in E. rewrite G in E. cbn [ebind larr] in E.
    destruct (py_set arr i (f32 x)) as [a'|] eqn:P; cbn [ebind] in E; [|discriminate].
    apply (IH toks i _ d') in E; auto; [intros; apply S; right; auto|]. apply arrays_set; auto.
    unfold py_set in P. destruct ((_ <? 0) || (_ <=? _)) eqn:B; [discriminate|]. injection P as <-.
    apply orb_false_iff in B. destruct B as [B1 B2]. apply Z.ltb_ge in B1. apply Z.leb_gt in B2.
    set (k := if i <? 0 then i + Z.of_nat (length arr) else i) in *.
    change (length (upd (Z.to_nat k) (f32 x) arr) = n). rewrite upd_length; lia.
  Qed.
  Lemma store_value n i all heads : 0 <= i < Z.of_nat n -> (forall h, In h heads -> In h all) ->
    forall toks d c w, arrays n all d ->
    (c < length heads)%nat -> nth_error toks c = Some w -> pfloat w = None ->
    store pfloat f32 heads toks i d = inr ValueError.
  Proof.
    intros Hi. induction heads as [|h heads IH]; intros S toks d c w H C T P; [cbn in C; lia|].
    destruct toks as [|x toks]; [destruct c; discriminate|]. cbn [store]. unfold py_float at 1.
    destruct (pfloat x) as [v|] eqn:X; cbn [ebind]; [|reflexivity].
    destruct (H h (S h (or_introl eq_refl))) as (arr & G & L). unfold lget. rewrite G. cbn [ebind larr].
    rewrite py_set_upd by lia. cbn [ebind]. destruct c as [|c]; [injection T as ->; congruence|].
    apply IH with c w; auto.
    - intros h' I. apply S. right; auto.
    - apply arrays_set; auto. rewrite upd_length; auto. lia.
    - cbn in C. lia.
  Qed.
  Lemma store_range n i heads : i < - Z.of_nat n \/ Z.of_nat n <= i -> heads <> [] ->
    forall toks d w, arrays n heads d -> nth_error toks 0 = Some w -> pfloat w <> None ->
    store pfloat f32 heads toks i d = inr IndexError.
  Proof.
    intros Hi N toks d w H T P. destruct heads as [|h heads]; [congruence|]. destruct toks as [|x toks]; [discriminate|].
    injection T as ->. cbn [store]. unfold py_float at 1. destruct (pfloat w) as [v|]; [|congruence]. cbn [ebind].
    destruct (H h (or_introl eq_refl)) as (arr & G & L). unfold lget. rewrite G. cbn [ebind larr].
    unfold py_set. rewrite L. replace (((if i <? 0 then i + Z.of_nat n else i) <? 0) || (Z.of_nat n <=? (if i <? 0 then i + Z.of_nat n else i))) with true; [reflexivity|].
    symmetry. apply orb_true_iff. rewrite Z.ltb_lt, Z.leb_le. destruct (i <? 0) eqn:E; [apply Z.ltb_lt in E|apply Z.ltb_ge in E]; lia.
  Qed.

  Lemma id_field t a k ic : NoDup (t_heads t) -> nth_error (t_heads t) ic = Some "id" -> atom_id t a k ->
    nth_error a ic = Some (dec k).
  Proof.
    intros N C (c & C1 & C2). unfold column in C1.
    assert (c = ic). { eapply NoDup_nth_error; eauto. { apply nth_error_Some. congruence. } congruence. }
    subst. auto.
  Qed.

  (** Good atom lines leave arrays. *)
  Lemma atoms_prefix t ic m : well_formed pfloat t -> nth_error (t_heads t) ic = Some "id" ->
    forall pre d rest, (forall a, In a pre -> In a (t_atoms t)) -> arrays (length (t_atoms t)) (t_heads t) d ->
    exists d', arrays (length (t_atoms t)) (t_heads t) d' /\
      atoms pfloat f32 (length pre + m) (t_heads t) ic d
        (map line (map (fun a => join " " a ++ tail_text (t_blank t))%string pre) ++ rest) =
      atoms pfloat f32 m (t_heads t) ic d' rest.
  Proof.
    intros WF Hid. pose proof WF as (_ & _ & _ & _ & HW & HN & HI & _ & _ & HAt & _).
    induction pre as [|a pre IH]; intros d rest S H; [exists d; auto|].
    cbn [length plus map app atoms readline].
    destruct (HAt a (S a (or_introl eq_refl))) as (La & Wa & Pa & k & Ik & Rk).
    assert (Na : a <> []) by (intros ->; simpl in La; destruct (t_heads t); [destruct HI|discriminate]).
    destruct (tokens a (t_blank t) Na Wa) as [_ T]. cbv zeta in T.
    set (toks := split_char " " (line (join " " a ++ tail_text (t_blank t)))) in *.
    pose proof (id_field t a k ic HN Hid Ik) as Ak. destruct (T _ _ Ak) as (w' & T1 & T2).
    unfold get. rewrite T1. cbn [ebind]. replace (py_int w') with (inl k : Z + exn).
    2:{ symmetry. apply py_int_strip. apply strip_tok; auto. apply dec_word. }
    cbn [ebind]. unfold num_atoms in Rk.
    destruct (store_spec pfloat sub f32 (length (t_atoms t)) (k - 1) ltac:(lia) (t_heads t) toks d HN H) as (d1 & S1 & _ & _).
    { intros c Hc. assert (exists w, nth_error a c = Some w) as (w & Hw).
      { destruct (nth_error a c) eqn:X; eauto. apply nth_error_None in X. lia. }
      destruct (T c w Hw) as (w1 & T3 & T4). exists w1.
      destruct (pfloat w) as [v|] eqn:Pw; [|exfalso; apply (Pa w); auto; eapply nth_error_In; eauto].
      exists v. split; auto. destruct T4 as [-> | ->]; auto. rewrite strips. auto. }
    rewrite S1. cbn [ebind]. apply IH; [intros b I; apply S; right; auto|].
    eapply store_arrays; eauto.
  Qed.

  (** A bad line ends it. *)
  Lemma atoms_bad t ic m a e d rest : well_formed pfloat t -> nth_error (t_heads t) ic = Some "id" ->
    arrays (length (t_atoms t)) (t_heads t) d -> a <> [] -> Forall word a -> bad_atom pfloat t a e ->
    atoms pfloat f32 (S m) (t_heads t) ic d (line (join " " a ++ tail_text (t_blank t)) :: rest) = inr e.
  Proof.
    intros WF Hid H Na Wa B. pose proof WF as (_ & _ & _ & _ & HW & HN & HI & _).
    assert (NH : t_heads t <> []) by (destruct (t_heads t); [destruct HI|discriminate]).
    assert (CI : forall c, column t c "id" -> c = ic).
    { intros c C. unfold column in C. eapply NoDup_nth_error; eauto. { apply nth_error_Some. congruence. } congruence. }
    cbn [atoms readline]. destruct (tokens a (t_blank t) Na Wa) as [TL T]. cbv zeta in T, TL.
    set (toks := split_char " " (line (join " " a ++ tail_text (t_blank t)))) in *.
    assert (ID : forall k, atom_id t a k -> exists w', nth_error toks ic = Some w' /\ py_int w' = inl k).
    { intros k Ik. pose proof (id_field t a k ic HN Hid Ik) as Ak. destruct (T _ _ Ak) as (w' & T1 & T2).
      exists w'. split; auto. apply py_int_strip. apply strip_tok; auto. apply dec_word. }
    unfold get. destruct B as [k c w Ik Rk L C P|c w ch C Cw I N|k Ik R L P|c C L].
    - destruct (ID k Ik) as (w' & -> & E). cbn [ebind]. rewrite E. cbn [ebind].
      destruct (T c w C) as (w1 & T1 & T2). unfold num_atoms in Rk.
      rewrite (store_value (length (t_atoms t)) (k - 1) (t_heads t) (t_heads t) ltac:(lia) ltac:(auto) toks d c w1); auto.
      + rewrite <- L. apply nth_error_Some. congruence.
      + destruct T2 as [-> | ->]; auto. rewrite strips. auto.
    - apply CI in C. subst c. destruct (T ic w Cw) as (w' & -> & T2). cbn [ebind].
      rewrite py_int_error; [reflexivity|]. exists ch. split; auto. rewrite (strip_tok w w'); auto.
      rewrite Forall_forall in Wa. apply Wa. eapply nth_error_In; eauto.
    - destruct (ID k Ik) as (w' & -> & E). cbn [ebind]. rewrite E. cbn [ebind].
      destruct a as [|w0 a]; [congruence|]. destruct (T 0%nat w0 eq_refl) as (w1 & T1 & T2).
      rewrite (store_range (length (t_atoms t)) (k - 1) (t_heads t)) with (w := w1); auto; [unfold num_atoms in R; lia|].
      destruct T2 as [-> | ->]; [|rewrite strips]; apply P; left; auto.
    - apply CI in C. subst c. replace (nth_error toks ic) with (@None string); [reflexivity|].
      symmetry. apply nth_error_None. lia.
  Qed.

  Lemma headings_words heads blank : heads <> [] -> Forall word heads ->
    skipn 2 (split_char " " (strip (line ("ITEM: ATOMS " ++ join " " heads ++ tail_text blank)))) = heads.
  Proof.
    intros N W. unfold line, strip. rewrite !app_assoc_s.
    change (lstrip ("ITEM: ATOMS " ++ (join " " heads ++ tail_text blank ++ NL)))
      with ("ITEM: ATOMS " ++ (join " " heads ++ tail_text blank ++ NL))%string.
    assert (R : rstrip (join " " heads ++ tail_text blank ++ NL) = join " " heads).
    { apply rstrip_heads; auto. destruct blank; reflexivity. }
    rewrite rstrip_app_ne.
    2:{ rewrite R. destruct heads as [|x [|y l]]; [congruence| |].
        - cbn [join]. inversion W; subst. destruct H1; auto.
        - rewrite join_cons. inversion W; subst. destruct H1. destruct x; [congruence|discriminate]. }
    rewrite R. change ("ITEM: ATOMS " ++ join " " heads)%string with ("ITEM:" ++ String " " ("ATOMS" ++ String " " (join " " heads)))%string.
    rewrite split_char_sep by (intros c; simpl; intuition (subst; reflexivity)).
    rewrite split_char_sep by (intros c; simpl; intuition (subst; reflexivity)).
    cbn [skipn]. apply split_join; auto. eapply Forall_impl; [|exact W]. intros w [_ X].
    eapply free_imp; [|exact X]. apply ws_blank.
  Qed.

  Lemma frame_header t heads rest : well_formed pfloat t -> heads <> [] -> Forall word heads ->
    exists box, parse_frame (line "ITEM: TIMESTEP")
      (map line (tl (firstn 8 (header_lines t)) ++ ["ITEM: ATOMS " ++ join " " heads ++ tail_text (t_blank t)]%string) ++ rest) =
    ebind (index_of "id" 0 heads) (fun ic =>
      ebind (atoms pfloat f32 (length (t_atoms t)) heads ic (empty_arrays junk heads (length (t_atoms t))) rest) (fun r =>
        let '(d, ls) := r in
        inl (dset String.eqb "timestep" (LInt (t_step t)) (dset String.eqb "box" (LArr box) d), ls))).
  Proof.
    intros (_ & Bx & By & Bz & _) N W.
    destruct (bounds_ok pfloat sub _ Bx) as (lx & Ex & _). destruct (bounds_ok pfloat sub _ By) as (ly & Ey & _).
    destruct (bounds_ok pfloat sub _ Bz) as (lz & Ez & _). exists [lx; ly; lz].
    unfold LammpsModel.parse_frame. unfold line at 1. rewrite String.eqb_refl. cbn [negb].
    cbn [header_lines firstn tl map app readline].
    unfold line at 1. rewrite (strip_word (dec (t_step t)) NL (dec_word _) eq_refl), py_int_dec. cbn [ebind readline].
    unfold line at 1. rewrite String.eqb_refl. cbn [negb readline].
    unfold line at 1. rewrite (strip_word (dec (num_atoms t)) NL (dec_word _) eq_refl), py_int_dec. cbn [ebind readline].
    unfold line at 1. rewrite app_assoc_s, contains_app. cbn [negb readline].
    rewrite Ex, Ey, Ez. cbn [ebind readline].
    replace (contains "ITEM: ATOMS" _) with true.
    2:{ symmetry. unfold line. rewrite app_assoc_s.
        change ("ITEM: ATOMS " ++ ?x)%string with ("ITEM: ATOMS" ++ String " " x)%string. apply contains_app. }
    cbn [negb]. rewrite headings_words by auto.
    destruct (index_of "id" 0 heads); [|reflexivity]. cbn [ebind].
    destruct (num_atoms t <? 0) eqn:Ng; [apply Z.ltb_lt in Ng; unfold num_atoms in Ng; lia|].
    unfold num_atoms. rewrite Nat2Z.id. reflexivity.
  Qed.

  (** What follows whole frames, line by line. *)
  Lemma after_frames ts ls more : Forall (well_formed pfloat) ts -> Forall no_line_end ls ->
    exists ds, Forall2 (describes pfloat sub f32) ts ds /\
      parse_lammpstrj pfloat sub f32 junk (render_all ts ++ String.concat "" (map line ls) ++ more) =
      {| items := ds ++ items (parse_lines pfloat sub f32 junk (map line ls ++ lines_of (universal more)));
         ending := ending (parse_lines pfloat sub f32 junk (map line ls ++ lines_of (universal more))) |}.
  Proof.
    intros F N.
    destruct (parse_lines_frames pfloat sub f32 junk strips_some ts (map line ls ++ lines_of (universal more)) F) as (ds & D1 & D2).
    exists ds. split; auto. unfold parse_lammpstrj.
    assert (C : free (fun c => Ascii.eqb c cr) (String.concat "" (map line ls))).
    { apply free_concat. apply Forall_forall. intros l. rewrite in_map_iff. intros (l0 & <- & I0).
      rewrite Forall_forall in N. unfold line. apply free_app. split; [apply no_end_cr, N, I0|].
      intros c [<-|[]]. reflexivity. }
    rewrite universal_app by (apply render_all_cr with pfloat; auto). rewrite universal_app by auto.
    rewrite (render_all_lines pfloat) by auto.
    rewrite lines_of_concat by (eapply Forall_impl; [|exact N]; intros s; apply no_end_nl).
    unfold parse_lines in D2 at 1. exact D2.
  Qed.
  Lemma fails_first ls e : parse_frame (line "ITEM: TIMESTEP") ls = inr e -> e <> AssertionError ->
    parse_lines pfloat sub f32 junk (line "ITEM: TIMESTEP" :: ls) = ended (Raise e).
  Proof.
    intros H N. unfold parse_lines. remember (length (line "ITEM: TIMESTEP" :: ls)) as n. cbn [parse_loop readline].
    change (line "ITEM: TIMESTEP") with (String "I" ("TEM: TIMESTEP" ++ NL)) at 1. cbv iota beta.
    change (String "I" ("TEM: TIMESTEP" ++ NL)) with (line "ITEM: TIMESTEP"). rewrite H. destruct e; congruence.
  Qed.
End Bad.

(** * C174 *)
(** A bad atom line ends the reading with an exception; the frames before it are yielded, the
    one it stands in is not. *)
Theorem C174_bad_atom_partial : forall A (pfloat : string -> option A) sub f32 junk ts t j a e more,
  float_strips pfloat -> Forall (well_formed pfloat) ts -> well_formed pfloat t ->
  (j < length (t_atoms t))%nat -> a <> [] -> Forall word a -> bad_atom pfloat t a e ->
  exists ds, Forall2 (describes pfloat sub f32) ts ds /\
    parse_lammpstrj pfloat sub f32 junk
      (render_all ts ++ start_of t j ++ line (join " " a ++ tail_text (t_blank t)) ++ more) =
    {| items := ds; ending := Raise e |}.
Proof.
  intros A pfloat sub f32 junk ts t j a e more S F W J Na Wa B.
  assert (N : Forall no_line_end ((header_lines t ++ firstn j (atom_lines t)) ++ [join " " a ++ tail_text (t_blank t)]%string)).
  { apply Forall_app. split.
    - pose proof (well_formed_lines pfloat t W) as WL. apply Forall_app in WL. destruct WL as [W1 W2].
      apply Forall_app. split; auto. rewrite <- (firstn_skipn j (atom_lines t)) in W2. apply Forall_app in W2. tauto.
    - constructor; [|constructor]. apply no_end_app. split; [apply no_end_join; auto|].
      destruct (t_blank t); intros c; cbn; [intros [<-|[]]; reflexivity|intros []]. }
  destruct (after_frames pfloat sub f32 junk S ts _ more F N) as (ds & D1 & D2). exists ds. split; auto.
  rewrite map_app, concat_app in D2. cbn [map] in D2. rewrite (concat_cons (line _) []) in D2. cbn [String.concat] in D2.
  rewrite app_nil_s, app_assoc_s in D2. unfold start_of. rewrite D2.
  enough (E : parse_lines pfloat sub f32 junk
     ((map line (header_lines t ++ firstn j (atom_lines t)) ++ [line (join " " a ++ tail_text (t_blank t))]) ++ lines_of (universal more))
     = ended (Raise e)) by (rewrite E; cbn; rewrite app_nil_r; reflexivity).
  pose proof W as (_ & _ & _ & _ & HW & HN & HI & _).
  assert (NH : t_heads t <> []) by (destruct (t_heads t); [destruct HI|discriminate]).
  set (rest := map line (firstn j (atom_lines t)) ++ line (join " " a ++ tail_text (t_blank t)) :: lines_of (universal more)).
  replace ((map line (header_lines t ++ firstn j (atom_lines t)) ++ [line (join " " a ++ tail_text (t_blank t))]) ++ lines_of (universal more))
    with (line "ITEM: TIMESTEP" :: map line (tl (firstn 8 (header_lines t)) ++ ["ITEM: ATOMS " ++ join " " (t_heads t) ++ tail_text (t_blank t)]%string) ++ rest).
  2:{ unfold rest. cbn [header_lines firstn tl map app]. rewrite <- !app_assoc. reflexivity. }
  apply fails_first; [|destruct B; discriminate].
  destruct (frame_header pfloat sub f32 junk t (t_heads t) rest W NH HW) as (box & ->).
  destruct (index_of_spec "id" (t_heads t) 0 HN HI) as (ic & C1 & C2). rewrite C1. cbn [ebind plus].
  set (n := length (t_atoms t)) in *.
  assert (AR : arrays n (t_heads t) (empty_arrays junk (t_heads t) n)).
  { intros h I. rewrite empty_arrays_get. destruct (in_dec _ _ _); [|contradiction]. eexists. split; [reflexivity|].
    rewrite map_length, seq_length. auto. }
  assert (PL : length (firstn j (t_atoms t)) = j) by (rewrite firstn_length; lia).
  destruct (atoms_prefix pfloat sub f32 S t ic (n - j) W C2 (firstn j (t_atoms t)) (empty_arrays junk (t_heads t) n)
    (line (join " " a ++ tail_text (t_blank t)) :: lines_of (universal more))) as (d' & AR' & E); auto.
  { intros b I. rewrite <- (firstn_skipn j (t_atoms t)). apply in_or_app. auto. }
  rewrite PL in E. replace (j + (n - j))%nat with n in E by lia.
  unfold rest, atom_lines. rewrite firstn_map, E. replace (n - j)%nat with (Datatypes.S (n - j - 1)) by lia.
  rewrite (atoms_bad pfloat f32 S t ic (n - j - 1) a e); auto.
Qed.
Print Assumptions C174_bad_atom_partial.
(** So does a heading without an id column. *)
Theorem C174_no_id_partial : forall A (pfloat : string -> option A) sub f32 junk ts t heads more,
  float_strips pfloat -> Forall (well_formed pfloat) ts -> well_formed pfloat t ->
  heads <> [] -> Forall word heads -> ~ In "id" heads ->
  exists ds, Forall2 (describes pfloat sub f32) ts ds /\
    parse_lammpstrj pfloat sub f32 junk (render_all ts ++ other_heads t heads ++ more) =
    {| items := ds; ending := Raise ValueError |}.
Proof.
  intros A pfloat sub f32 junk ts t heads more S F W N HW NI.
  set (h := ("ITEM: ATOMS " ++ join " " heads ++ tail_text (t_blank t))%string).
  assert (NE : Forall no_line_end (firstn 8 (header_lines t) ++ [h])).
  { apply Forall_app. split.
    - pose proof (well_formed_lines pfloat t W) as WL. apply Forall_app in WL. destruct WL as [W1 _].
      rewrite <- (firstn_skipn 8 (header_lines t)) in W1. apply Forall_app in W1. tauto.
    - constructor; [|constructor]. unfold h. apply no_end_app. split.
      + intros c I. cbn in I. intuition (subst; reflexivity).
      + apply no_end_app. split; [apply no_end_join; auto|].
        destruct (t_blank t); intros c; cbn; [intros [<-|[]]; reflexivity|intros []]. }
  destruct (after_frames pfloat sub f32 junk S ts _ more F NE) as (ds & D1 & D2). exists ds. split; auto.
  unfold other_heads. fold h. rewrite D2.
  enough (E : parse_lines pfloat sub f32 junk (map line (firstn 8 (header_lines t) ++ [h]) ++ lines_of (universal more))
     = ended (Raise ValueError)) by (rewrite E; cbn; rewrite app_nil_r; reflexivity).
  change (map line (firstn 8 (header_lines t) ++ [h]) ++ lines_of (universal more)) with
    (line "ITEM: TIMESTEP" :: map line (tl (firstn 8 (header_lines t)) ++ [h]) ++ lines_of (universal more)).
  apply fails_first; [|discriminate].
  destruct (frame_header pfloat sub f32 junk t heads (lines_of (universal more)) W N HW) as (box & E).
  fold h in E. rewrite E.
  assert (X : forall l i, ~ In "id" l -> index_of "id" i l = inr ValueError).
  { clear. induction l as [|x l IH]; intros i H; cbn [index_of]; [reflexivity|].
    destruct (String.eqb_spec "id" x) as [E|]; [destruct H; left; auto|]. apply IH. intros I. apply H. right; auto. }
  rewrite X by auto. reflexivity.
Qed.
Print Assumptions C174_no_id_partial.
Lemma ex_strips : float_strips ex_float.
Proof.
  intros w. unfold ex_float, py_int.
  assert (S : strip (w ++ NL) = strip w).
  { assert (R : forall s, rstrip (s ++ NL) = rstrip s).
    { induction s as [|c s IH]; [reflexivity|]. cbn [append]. rewrite !rstrip_cons, IH. reflexivity. }
    unfold strip. assert (L : lstrip (w ++ NL) = (lstrip w ++ NL)%string \/ lstrip (w ++ NL) = "" /\ lstrip w = "").
    { clear. induction w as [|c w IH]; [right; split; reflexivity|]. cbn [append lstrip].
      destruct (ws c); [exact IH|left; reflexivity]. }
    destruct L as [-> |[-> ->]]; [apply R|reflexivity]. }
  rewrite S. reflexivity.
Qed.
Example C174_ex :
  let t := ex_t 0 ex_atoms false " 3" in
  bad_atom ex_float t ["2"; "one"; "11"; "12"] ValueError /\ bad_atom ex_float t ["two"; "1"; "11"; "12"] ValueError /\
  bad_atom ex_float t ["3"; "1"; "11"; "12"] IndexError /\
  ex_parse (start_of t 1 ++ line (join " " ["3"; "1"; "11"; "12"])) = {| items := []; ending := Raise IndexError |} /\
  ex_parse (other_heads t ["x"; "y"]) = {| items := []; ending := Raise ValueError |}.
Proof.
  cbv zeta. split; [|split; [|split; [|split; vm_compute; reflexivity]]].
  - apply bad_value with 2 1%nat "one"; auto; [exists 0%nat; split; reflexivity|cbn; lia].
  - apply bad_id with 0%nat "two" "t"%char; auto; [reflexivity|left; reflexivity|].
    unfold not_in_integers. cbn. intuition discriminate.
  - apply bad_range with 3; auto; [exists 0%nat; split; reflexivity|left; cbn; lia|].
    intros w [<-|[<-|[<-|[<-|[]]]]]; cbv; discriminate.
Qed.
(** Refuted: an id of 0 or less is taken for an atom counted from the end. *)
Theorem C174_ids_refuted : exists text d,
  (exists p q, text = (p ++ NL ++ "0 10 11 12" ++ NL ++ q)%string) /\
  ex_parse text = {| items := [d]; ending := Ok tt |} /\
  dget String.eqb "x" d = Some (LArr [7; 10]).
Proof.
  exists (render (ex_t 0 [["1"; "7"; "8"; "19"]; ["0"; "10"; "11"; "12"]] false "")). eexists. split.
  - exists (start_of (ex_t 0 [["1"; "7"; "8"; "19"]; ["0"; "10"; "11"; "12"]] false "") 0 ++ "1 7 8 19")%string, "". vm_compute. reflexivity.
  - split; vm_compute; reflexivity.
Qed.
Print Assumptions C174_ids_refuted.

(** * C173 *)
(** Refuted: an entry that stands on no line. With two lines of the same atom, or with a line that
    is too short, an entry is whatever was in memory. *)
Theorem C173_entries_refuted : exists text text', forall junk, exists d d',
  parse_lammpstrj ex_float Z.sub (fun x => x) junk text = {| items := [d]; ending := Ok tt |} /\
  dget String.eqb "x" d = Some (LArr [10; junk 1%nat]) /\
  parse_lammpstrj ex_float Z.sub (fun x => x) junk text' = {| items := [d']; ending := Ok tt |} /\
  dget String.eqb "x" d' = Some (LArr [7; junk 1%nat]) /\
  dget String.eqb "id" d' = Some (LArr [1; 2]).
Proof.
  exists (render (ex_t 0 [["1"; "7"; "8"; "19"]; ["1"; "10"; "11"; "12"]] false "")),
    (render (ex_t 0 [["1"; "7"; "8"; "19"]; ["2"]] false "")).
  intros junk. do 2 eexists. split; [vm_compute; reflexivity|]. split; [reflexivity|]. split; [vm_compute; reflexivity|].
  split; reflexivity.
Qed.
Print Assumptions C173_entries_refuted.

Definition part_of (w text : string) : Prop := exists u z, text = (u ++ w ++ z)%string.
Lemma part_refl s : part_of s s.
Proof. exists "", "". rewrite app_nil_s. reflexivity. Qed.
Lemma part_trans a b c : part_of a b -> part_of b c -> part_of a c.
Proof. intros (u & z & ->) (u' & z' & ->). exists (u' ++ u)%string, (z ++ z')%string. rewrite !app_assoc_s. reflexivity. Qed.
Lemma part_tail c s w : part_of w s -> part_of w (String c s).
Proof. intros (u & z & ->). exists (String c u), z. reflexivity. Qed.
Lemma lines_concat s : String.concat "" (lines_of s) = s.
Proof.
  induction s as [|c s IH]; [reflexivity|]. cbn [lines_of].
  destruct (Ascii.eqb c nl) eqn:E.
  - rewrite concat_cons, IH. apply Ascii.eqb_eq in E. subst. reflexivity.
  - destruct (lines_of s) as [|l ls] eqn:L.
    + rewrite <- IH. reflexivity.
    + rewrite concat_cons in IH |- *. rewrite <- IH. reflexivity.
Qed.
Lemma line_part l ls : In l ls -> part_of l (String.concat "" ls).
Proof.
  induction ls as [|x ls IH]; intros I; [destruct I|]. rewrite concat_cons. destruct I as [-> |I].
  - exists "", (String.concat "" ls). reflexivity.
  - destruct (IH I) as (u & z & ->). exists (x ++ u)%string, z. rewrite app_assoc_s. reflexivity.
Qed.
Lemma split_parts c s : forall w, In w (split_char c s) -> part_of w s.
Proof.
  assert (K : forall s, match split_char c s with [] => True | w :: ws => (exists z, s = (w ++ z)%string) /\ forall x, In x ws -> part_of x s end).
  { clear s. induction s as [|d s IH].
    - cbn. split; [exists ""; reflexivity|intros x []].
    - cbn [split_char]. destruct (Ascii.eqb d c).
      + split; [exists (String d s); reflexivity|]. intros x I. destruct (split_char c s) as [|w ws]; [destruct I|].
        destruct IH as [(z & E) P]. apply part_tail. destruct I as [<-|I]; [exists "", z; exact E|auto].
      + destruct (split_char c s) as [|w ws].
        * split; [exists s; reflexivity|intros x []].
        * destruct IH as [(z & E) P]. split; [exists z; rewrite E; reflexivity|]. intros x I. apply part_tail; auto. }
  intros w I. specialize (K s). destruct (split_char c s) as [|x ws]; [destruct I|]. destruct K as [(z & E) P].
  destruct I as [<-|I]; [exists "", z; exact E|auto].
Qed.

Section Provenance.
  Context {A : Type} (pfloat : string -> option A) (sub : A -> A -> A) (f32 : A -> A) (junk : nat -> A).
  Variable text : string.
  (** Entry [i] is left over or a number in the text. *)
  Definition entry_ok (i : nat) (x : A) : Prop :=
    x = junk i \/ exists w v, part_of w text /\ pfloat w = Some v /\ x = f32 v.
  Definition sound (n : nat) (d : lframe A) : Prop :=
    forall h arr, dget String.eqb h d = Some (LArr arr) -> length arr = n /\ forall i x, nth_error arr i = Some x -> entry_ok i x.

  Lemma store_sound n heads : forall toks i d d', (forall w, In w toks -> part_of w text) -> sound n d ->
    store pfloat f32 heads toks i d = inl d' -> sound n d'.
  Proof.
    induction heads as [|h heads IH]; intros toks i d d' P S E; cbn [store] in E; [injection E as <-; auto|].
    destruct toks as [|w toks]; [injection E as <-; auto|].
    unfold py_float in E. destruct (pfloat w) as [x|] eqn:X; cbn [ebind] in E; [|discriminate].
    unfold lget in E. destruct (dget String.eqb h d) as [v|] eqn:G; cbn [ebind] in E; [|discriminate].
    destruct v as [arr|z]; cbn [larr ebind] in E; [|discriminate].
    destruct (py_set arr i (f32 x)) as [a'|] eqn:Q; cbn [ebind] in E; [|discriminate].
    apply IH in E; auto; [intros; apply P; right; auto|].
    intros h' arr' G'. rewrite dget_dset in G' by exact String.eqb_eq.
    destruct (String.eqb h' h); [|apply (S _ _ G')]. injection G' as <-. destruct (S _ _ G) as [L N].
    unfold py_set in Q. destruct ((_ <? 0) || (_ <=? _)) eqn:B; [discriminate|]. injection Q as <-.
    apply orb_false_iff in B. destruct B as [B1 B2]. apply Z.ltb_ge in B1. apply Z.leb_gt in B2.
    set (k := if i <? 0 then i + Z.of_nat (length arr) else i) in *.
    change (length (upd (Z.to_nat k) (f32 x) arr) = n /\
            forall j y, nth_error (upd (Z.to_nat k) (f32 x) arr) j = Some y -> entry_ok j y).
    assert (Lk : (Z.to_nat k < length arr)%nat) by lia. split; [rewrite upd_length; auto|].
    intros j y J. destruct (Nat.eq_dec (Z.to_nat k) j) as [<-|D].
    - rewrite upd_same in J by auto. injection J as <-. right. exists w, x. split; [apply P; left; auto|auto].
    - rewrite upd_other in J by auto. eapply N; eauto.
  Qed.
  Lemma atoms_sound n : forall m heads ic d ls d' ls', (forall l, In l ls -> part_of l text) -> sound n d ->
    atoms pfloat f32 m heads ic d ls = inl (d', ls') -> sound n d' /\ forall l, In l ls' -> part_of l text.
  Proof.
    induction m as [|m IH]; intros heads ic d ls d' ls' P S E; cbn [atoms] in E; [injection E as <- <-; auto|].
    destruct ls as [|l ls]; cbn [readline] in E.
    - destruct (get (split_char " " "") ic) as [w|]; cbn [ebind] in E; [|discriminate].
      destruct (py_int w) as [k|]; cbn [ebind] in E; [|discriminate].
      destruct (store pfloat f32 heads (split_char " " "") (k - 1) d) as [d1|] eqn:Q; cbn [ebind] in E; [|discriminate].
      apply IH in E; auto. apply (store_sound n) in Q; auto. intros w' [<-|[]]. exists "", text. reflexivity.
    - destruct (get (split_char " " l) ic) as [w|]; cbn [ebind] in E; [|discriminate].
      destruct (py_int w) as [k|]; cbn [ebind] in E; [|discriminate].
      destruct (store pfloat f32 heads (split_char " " l) (k - 1) d) as [d1|] eqn:Q; cbn [ebind] in E; [|discriminate].
      apply IH in E; auto; [intros; apply P; right; auto|]. apply (store_sound n) in Q; auto.
      intros w' I. apply part_trans with l; [eapply split_parts; eauto|apply P; left; auto].
  Qed.
  Definition frame_sound (d : lframe A) : Prop :=
    exists n, forall h arr, h <> "box" -> dget String.eqb h d = Some (LArr arr) ->
      length arr = n /\ forall i x, nth_error arr i = Some x -> entry_ok i x.
  Ltac step H := match type of H with
    | context [readline ?ls] => let l := fresh "l" in let r := fresh "r" in destruct ls as [|l r]; cbn [readline] in H
    end.
  Lemma readline_parts ls : (forall l, In l ls -> part_of l text) -> forall l, In l (snd (readline ls)) -> part_of l text.
  Proof. destruct ls as [|x ls]; cbn; auto. Qed.
  Lemma frame_sound_ok l ls d ls' : (forall l, In l ls -> part_of l text) ->
    LammpsModel.parse_frame pfloat sub f32 junk l ls = inl (d, ls') -> frame_sound d /\ forall l, In l ls' -> part_of l text.
  Proof.
    intros P E. unfold LammpsModel.parse_frame in E. destruct (negb _); [discriminate|].
    assert (R := readline_parts ls P). destruct (readline ls) as [l1 ls1]. cbn [snd] in R. clear P ls. cbv iota beta in E.
    destruct (py_int (strip l1)) as [ts|]; cbn [ebind] in E; [|discriminate].
    assert (R2 := readline_parts ls1 R). destruct (readline ls1) as [l2 ls2]. cbn [snd] in R2. clear R. cbv iota beta in E.
    destruct (negb _); [discriminate|].
    assert (R3 := readline_parts ls2 R2). destruct (readline ls2) as [l3 ls3]. cbn [snd] in R3. clear R2. cbv iota beta in E.
    destruct (py_int (strip l3)) as [cnt|]; cbn [ebind] in E; [|discriminate].
    assert (R4 := readline_parts ls3 R3). destruct (readline ls3) as [l4 ls4]. cbn [snd] in R4. clear R3. cbv iota beta in E.
    destruct (negb _); [discriminate|].
    assert (R5 := readline_parts ls4 R4). destruct (readline ls4) as [l5 ls5]. cbn [snd] in R5. clear R4. cbv iota beta in E.
    assert (R6 := readline_parts ls5 R5). destruct (readline ls5) as [l6 ls6]. cbn [snd] in R6. clear R5. cbv iota beta in E.
    assert (R7 := readline_parts ls6 R6). destruct (readline ls6) as [l7 ls7]. cbn [snd] in R7. clear R6. cbv iota beta in E.
    destruct (bounds pfloat sub l5) as [lx|]; cbn [ebind] in E; [|discriminate].
    destruct (bounds pfloat sub l6) as [ly|]; cbn [ebind] in E; [|discriminate].
    destruct (bounds pfloat sub l7) as [lz|]; cbn [ebind] in E; [|discriminate].
    assert (R8 := readline_parts ls7 R7). destruct (readline ls7) as [l8 ls8]. cbn [snd] in R8. clear R7. cbv iota beta in E.
    destruct (negb _); [discriminate|]. set (heads := skipn 2 (split_char " " (strip l8))) in *.
    destruct (index_of "id" 0 heads) as [ic|]; cbn [ebind] in E; [|discriminate].
    destruct (cnt <? 0); [discriminate|].
    destruct (atoms pfloat f32 (Z.to_nat cnt) heads ic (empty_arrays junk heads (Z.to_nat cnt)) ls8) as [[d0 ls0]|] eqn:Q;
      cbn [ebind] in E; [|discriminate].
    injection E as <- <-. apply (atoms_sound (Z.to_nat cnt)) in Q; auto.
    - destruct Q as [Q1 Q2]. split; auto. exists (Z.to_nat cnt). intros h arr NB G.
      rewrite !dget_dset in G by exact String.eqb_eq.
      destruct (String.eqb_spec h "timestep"); [discriminate|]. destruct (String.eqb_spec h "box"); [contradiction|].
      apply (Q1 h arr G).
    - intros h arr G. rewrite empty_arrays_get in G. destruct (in_dec _ _ _) as [Ih|]; [|discriminate]. injection G as <-.
      rewrite map_length, seq_length. split; auto. intros i x I. left.
      rewrite nth_error_map in I. destruct (nth_error (seq 0 (Z.to_nat cnt)) i) as [k|] eqn:K; [|discriminate]. injection I as <-.
      f_equal. assert (LT : (i < length (seq 0 (Z.to_nat cnt)))%nat) by (apply nth_error_Some; congruence).
      rewrite seq_length in LT. apply nth_error_nth with (d := 0%nat) in K. rewrite <- K. apply seq_nth; auto.
  Qed.
End Provenance.

(** For any text: the columns of a frame have one length, and an entry is left over from memory or
    a number that stands in the text. *)
Theorem C173_origin_partial : forall A (pfloat : string -> option A) sub f32 junk text d,
  free (fun c => Ascii.eqb c cr) text -> In d (items (parse_lammpstrj pfloat sub f32 junk text)) ->
  exists n, forall h arr, h <> "box" -> dget String.eqb h d = Some (LArr arr) ->
    length arr = n /\ forall i x, nth_error arr i = Some x ->
    x = junk i \/ exists u w z v, text = (u ++ w ++ z)%string /\ pfloat w = Some v /\ x = f32 v.
Proof.
  intros A pfloat sub f32 junk text d F I.
  enough (K : forall fuel ls, (forall l, In l ls -> part_of l text) ->
    In d (items (parse_loop pfloat sub f32 junk fuel ls)) -> frame_sound pfloat f32 junk text d).
  { unfold parse_lammpstrj in I. rewrite universal_id in I by auto.
    assert (P : forall l, In l (lines_of text) -> part_of l text).
    { intros l H. rewrite <- (lines_concat text). apply line_part; auto. }
    destruct (K _ _ P I)
      as (n & H). exists n. intros h arr NB G. destruct (H h arr NB G) as [L E]. split; auto. intros i x X.
    destruct (E i x X) as [-> |(w & v & (u & z & T) & P0 & ->)]; [auto|right; exists u, w, z, v; auto]. }
  clear F I. induction fuel as [|fuel IH]; intros ls P I; cbn [parse_loop] in I; [destruct I|].
  assert (R := readline_parts text ls P). destruct (readline ls) as [l ls1]. cbn [snd] in R.
  destruct l as [|c l]; [destruct I|].
  destruct (LammpsModel.parse_frame pfloat sub f32 junk (String c l) ls1) as [[d0 ls2]|e] eqn:Q.
  - destruct (frame_sound_ok pfloat sub f32 junk text _ _ _ _ R Q) as [S1 S2]. destruct I as [<-|I]; [exact S1|].
    apply (IH ls2); auto.
  - destruct e; destruct I.
Qed.
Print Assumptions C173_origin_partial.
Example C173_ex : free (fun c => Ascii.eqb c cr) (render (ex_t 0 ex_atoms false "")) /\
  length (items (ex_parse (render (ex_t 0 ex_atoms false "")))) = 1%nat.
Proof. split; [|vm_compute; reflexivity]. intros c I. vm_compute in I. intuition (subst; reflexivity). Qed.
