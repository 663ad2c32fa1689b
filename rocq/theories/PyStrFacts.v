(** Facts about the string functions of PyStr. *)
From Coq Require Import String Ascii List Bool ZArith Lia.
From Verif Require Import Base PyStr.
Import ListNotations.
Open Scope string_scope.
Open Scope Z_scope.

(** No character of [s] satisfies [p]. *)
Definition free (p : ascii -> bool) (s : string) : Prop := forall c, In c (chars s) -> p c = false.
(** A non-empty string without white space. *)
Definition word (s : string) : Prop := s <> "" /\ free ws s.

Lemma chars_app s t : chars (s ++ t) = (chars s ++ chars t)%list.
Proof. induction s; simpl; congruence. Qed.
Lemma app_assoc_s (a b c : string) : (a ++ b) ++ c = a ++ (b ++ c).
Proof. induction a; simpl; congruence. Qed.
Lemma app_nil_s (a : string) : a ++ "" = a.
Proof. induction a; simpl; congruence. Qed.
Lemma free_nil p : free p "".
Proof. intros c []. Qed.
Lemma free_cons p c s : free p (String c s) <-> p c = false /\ free p s.
Proof.
  split.
  - intros H. split; [apply H; left; auto|intros d I; apply H; right; auto].
  - intros [H1 H2] d [<-|I]; auto.
Qed.
Lemma free_app p s t : free p (s ++ t) <-> free p s /\ free p t.
Proof.
  unfold free. rewrite chars_app. split.
  - intros H. split; intros c I; apply H; apply in_or_app; auto.
  - intros [H1 H2] c I. apply in_app_or in I. destruct I; auto.
Qed.
Lemma free_imp p q s : (forall c, p c = false -> q c = false) -> free p s -> free q s.
Proof. intros H F c I. auto. Qed.
Lemma ws_nl c : ws c = false -> Ascii.eqb c nl = false.
Proof. intros H. destruct (Ascii.eqb_spec c nl); auto. subst. discriminate. Qed.
Lemma ws_cr c : ws c = false -> Ascii.eqb c cr = false.
Proof. intros H. destruct (Ascii.eqb_spec c cr); auto. subst. discriminate. Qed.
Lemma ws_blank c : ws c = false -> Ascii.eqb c " " = false.
Proof. intros H. destruct (Ascii.eqb_spec c " "); auto. subst. discriminate. Qed.

Lemma universal_id s : free (fun c => Ascii.eqb c cr) s -> universal s = s.
Proof.
  induction s as [|c s IH]; simpl; auto. rewrite free_cons. intros [H1 H2]. rewrite H1, IH; auto.
Qed.
(** A text with "\r\n" line ends. *)
Fixpoint crlf (s : string) : string :=
  match s with
  | "" => ""
  | String c s' => if Ascii.eqb c nl then String cr (String nl (crlf s')) else String c (crlf s')
  end.
Lemma universal_crlf s : free (fun c => Ascii.eqb c cr) s -> universal (crlf s) = s.
Proof.
  induction s as [|c s IH]; simpl; auto. rewrite free_cons. intros [H1 H2].
  destruct (Ascii.eqb_spec c nl) as [->|N].
  - simpl. rewrite IH; auto.
  - simpl. rewrite H1, IH; auto.
Qed.

Lemma lines_of_line l rest :
  free (fun c => Ascii.eqb c nl) l -> lines_of (l ++ NL ++ rest) = (l ++ NL) :: lines_of rest.
Proof.
  induction l as [|c l IH]; simpl; auto. rewrite free_cons. intros [H1 H2].
  rewrite H1. specialize (IH H2). unfold NL in IH. cbn [append] in IH. rewrite IH. reflexivity.
Qed.

Lemma split_char_ne c s : split_char c s <> [].
Proof. destruct s; simpl; [discriminate|]. destruct (Ascii.eqb _ _); [discriminate|]. destruct (split_char c s); discriminate. Qed.
Lemma split_char_app c w s :
  free (fun d => Ascii.eqb d c) w ->
  split_char c (w ++ s) =
  match split_char c s with [] => [w] | x :: xs => (w ++ x) :: xs end.
Proof.
  induction w as [|d w IH]; intros F; simpl.
  - pose proof (split_char_ne c s). destruct (split_char c s); congruence.
  - rewrite free_cons in F. destruct F as [F1 F2]. rewrite F1, (IH F2).
    destruct (split_char c s); reflexivity.
Qed.
Lemma split_char_sep c w s :
  free (fun d => Ascii.eqb d c) w -> split_char c (w ++ String c s) = w :: split_char c s.
Proof.
  intros F. rewrite split_char_app by auto. cbn [split_char]. rewrite Ascii.eqb_refl, app_nil_s. reflexivity.
Qed.
Lemma split_char_free c w : free (fun d => Ascii.eqb d c) w -> split_char c w = [w].
Proof. intros F. rewrite <- (app_nil_s w) at 1. rewrite split_char_app by auto. simpl. rewrite app_nil_s. auto. Qed.
Lemma join_cons c x y l : join c (x :: y :: l) = x ++ String c (join c (y :: l)).
Proof. reflexivity. Qed.
Lemma split_join c l : l <> [] -> Forall (free (fun d => Ascii.eqb d c)) l -> split_char c (join c l) = l.
Proof.
  induction l as [|x l IH]; [congruence|]. intros _ F. inversion F; subst.
  destruct l as [|y l]; [apply split_char_free; auto|].
  rewrite join_cons.
  rewrite split_char_sep by auto. rewrite IH; auto. discriminate.
Qed.
(** The last of several fields takes whatever follows without separator. *)
Fixpoint last_app (l : list string) (t : string) : list string :=
  match l with
  | [] => [t]
  | [x] => [x ++ t]
  | x :: l' => x :: last_app l' t
  end.
Lemma split_join_app c l t :
  l <> [] -> Forall (free (fun d => Ascii.eqb d c)) l -> free (fun d => Ascii.eqb d c) t ->
  split_char c (join c l ++ t) = last_app l t.
Proof.
  induction l as [|x l IH]; [congruence|]. intros _ F T. inversion F; subst.
  destruct l as [|y l].
  - cbn [join last_app]. apply split_char_free. rewrite free_app. auto.
  - rewrite join_cons, app_assoc_s. cbn [append]. rewrite split_char_sep by auto.
    rewrite IH; auto. discriminate.
Qed.
Lemma split_join_sep c l t :
  l <> [] -> Forall (free (fun d => Ascii.eqb d c)) l ->
  split_char c (join c l ++ String c t) = (l ++ split_char c t)%list.
Proof.
  induction l as [|x l IH]; [congruence|]. intros _ F. inversion F; subst.
  destruct l as [|y l].
  - cbn [join app]. apply split_char_sep; auto.
  - rewrite join_cons, app_assoc_s. cbn [append]. rewrite split_char_sep by auto.
    rewrite IH; auto. discriminate.
Qed.

Lemma rstrip_cons c s : rstrip (String c s) =
  match rstrip s with "" => if ws c then "" else String c "" | r => String c r end.
Proof. reflexivity. Qed.
Lemma rstrip_word w s : w <> "" -> free ws w -> rstrip (w ++ s) = w ++ rstrip s.
Proof.
  induction w as [|c w IH]; [congruence|]. intros _ F. rewrite free_cons in F. destruct F as [F1 F2].
  destruct w as [|d w].
  - cbn [append rstrip]. rewrite F1. destruct (rstrip s); reflexivity.
  - change (String c (String d w) ++ s) with (String c (String d w ++ s)).
    rewrite rstrip_cons, (IH ltac:(discriminate) F2). reflexivity.
Qed.
Lemma rstrip_app_ne a s : rstrip s <> "" -> rstrip (a ++ s) = a ++ rstrip s.
Proof.
  intros N. induction a as [|c a IH]; simpl; auto. rewrite IH.
  destruct (a ++ rstrip s) eqn:E; auto. destruct a; simpl in E; [congruence|discriminate].
Qed.
Lemma lstrip_word w s : word w -> lstrip (w ++ s) = w ++ s.
Proof.
  intros [N F]. destruct w as [|c w]; [congruence|]. rewrite free_cons in F. destruct F as [F _].
  cbn [append lstrip]. rewrite F. reflexivity.
Qed.
Lemma strip_word w s : word w -> rstrip s = "" -> strip (w ++ s) = w.
Proof.
  intros W R. unfold strip. rewrite lstrip_word by auto. destruct W as [N F].
  rewrite rstrip_word by auto. rewrite R, app_nil_s. reflexivity.
Qed.
Lemma strip_word0 w : word w -> strip w = w.
Proof. intros W. rewrite <- (app_nil_s w) at 1. apply strip_word; auto. Qed.

Lemma split_ws_word w s :
  word w -> (s = "" \/ exists c s', s = String c s' /\ ws c = true) ->
  split_ws (w ++ s) = w :: split_ws s.
Proof.
  intros [N F]. revert N F. induction w as [|c w IH]; [congruence|]. intros _ F Hs.
  rewrite free_cons in F. destruct F as [F1 F2]. destruct w as [|d w].
  - cbn [append]. destruct Hs as [->|(c' & s' & -> & E)]; cbn [split_ws]; rewrite F1; auto.
    rewrite E. reflexivity.
  - specialize (IH ltac:(discriminate) F2 Hs). cbn [append] in IH |- *.
    cbn [split_ws]. rewrite F1. rewrite free_cons in F2. destruct F2 as [F2 _]. rewrite F2.
    cbn [split_ws] in IH. rewrite F2 in IH. rewrite IH. reflexivity.
Qed.

Lemma prefix_app a s : String.prefix a (a ++ s) = true.
Proof. induction a as [|c a IH]; simpl; [destruct s; reflexivity|]. destruct (ascii_dec c c); congruence. Qed.
Lemma contains_app a s : contains a (a ++ s) = true.
Proof. assert (H := prefix_app a s). destruct (a ++ s); cbn [contains]; rewrite H; reflexivity. Qed.

(** ** Integers *)
Lemma digits_app s : forall acc b v t,
  digits acc b s = Some v -> digits acc b (s ++ t) = digits v true t.
Proof.
  induction s as [|c s IH]; intros acc b v t H; cbn [append digits] in *.
  - destruct b; [|discriminate]. injection H as <-. reflexivity.
  - destruct (digit c); [apply IH; auto|].
    destruct (Ascii.eqb c "_" && b)%bool; [apply IH; auto|discriminate].
Qed.
Lemma digit_digit_char d : 0 <= d < 10 -> digit (digit_char d) = Some d.
Proof.
  intros H. assert (C : d = 0 \/ d = 1 \/ d = 2 \/ d = 3 \/ d = 4 \/ d = 5 \/ d = 6 \/ d = 7 \/ d = 8 \/ d = 9) by lia.
  repeat (destruct C as [->|C]; [reflexivity|]). subst. reflexivity.
Qed.
Definition is_digit (c : ascii) : bool := match digit c with Some _ => true | None => false end.
Definition all_digits (s : string) : Prop := forall c, In c (chars s) -> is_digit c = true.
Lemma dec_go_spec fuel : forall n, 0 <= n < 10 ^ Z.of_nat fuel -> fuel <> O ->
  digits 0 false (dec_go fuel n) = Some n /\ dec_go fuel n <> "" /\ all_digits (dec_go fuel n).
Proof.
  induction fuel as [|f IH]; intros n H N; [congruence|]. cbn [dec_go].
  destruct (n <? 10) eqn:E; [apply Z.ltb_lt in E|apply Z.ltb_ge in E].
  - cbn [digits]. rewrite digit_digit_char by lia. split; [f_equal; lia|]. split; [discriminate|].
    intros c [<-|[]]. unfold is_digit. rewrite digit_digit_char by lia. reflexivity.
  - assert (f <> O) by (intros ->; change (10 ^ Z.of_nat 1) with 10 in H; lia).
    assert (B : 0 <= n / 10 < 10 ^ Z.of_nat f).
    { split; [apply Z.div_pos; lia|]. apply Z.div_lt_upper_bound; [lia|].
      rewrite Nat2Z.inj_succ, Z.pow_succ_r in H by lia. lia. }
    destruct (IH _ B H0) as (I1 & I2 & I3). pose proof (Z.mod_pos_bound n 10 ltac:(lia)) as M.
    split; [|split].
    + rewrite (digits_app _ _ _ _ _ I1). cbn [digits]. rewrite digit_digit_char by lia. f_equal.
      pose proof (Z.div_mod n 10). lia.
    + destruct (dec_go f (n / 10)); [congruence|discriminate].
    + intros c. rewrite chars_app, in_app_iff. intros [I|[<-|[]]]; auto.
      unfold is_digit. rewrite digit_digit_char by lia. reflexivity.
Qed.
Lemma dec_nonneg_spec n : 0 <= n ->
  digits 0 false (dec_nonneg n) = Some n /\ dec_nonneg n <> "" /\ all_digits (dec_nonneg n).
Proof.
  intros H. unfold dec_nonneg. apply dec_go_spec; [|congruence]. split; [lia|].
  pose proof (Z.log2_nonneg n) as L.
  destruct (Z.eq_dec n 0) as [->|Ne]; [apply Z.pow_pos_nonneg; lia|].
  pose proof (Z.log2_spec n ltac:(lia)) as [_ U]. rewrite Nat2Z.inj_succ, Z2Nat.id by auto.
  eapply Z.lt_le_trans; [apply U|]. apply Z.pow_le_mono_l; lia.
Qed.
Lemma digit_ws c : is_digit c = true -> ws c = false.
Proof.
  unfold is_digit, digit, ws. destruct (_ && _)%bool eqn:E; [|discriminate]. intros _.
  apply andb_true_iff in E. destruct E as [E1 E2]. apply Z.leb_le in E1, E2.
  set (n := nat_of_ascii c) in *.
  destruct (n =? 32)%nat eqn:A; [apply Nat.eqb_eq in A; lia|].
  destruct (n <=? 13)%nat eqn:B; [apply Nat.leb_le in B; lia|].
  destruct (n <=? 31)%nat eqn:C; [apply Nat.leb_le in C; lia|].
  rewrite !andb_false_r. reflexivity.
Qed.
Lemma dec_word n : word (dec n).
Proof.
  unfold dec. destruct (n <? 0) eqn:E; [apply Z.ltb_lt in E|apply Z.ltb_ge in E].
  - destruct (dec_nonneg_spec (- n)) as (_ & H1 & H2); [lia|]. split; [discriminate|].
    rewrite free_cons. split; [reflexivity|]. intros c I. apply digit_ws. auto.
  - destruct (dec_nonneg_spec n) as (_ & H1 & H2); [lia|]. split; auto.
    intros c I. apply digit_ws. auto.
Qed.
Lemma digit_not_sign c : is_digit c = true -> Ascii.eqb c "-" = false /\ Ascii.eqb c "+" = false.
Proof.
  intros H. split.
  - destruct (Ascii.eqb_spec c "-") as [->|]; [discriminate H|reflexivity].
  - destruct (Ascii.eqb_spec c "+") as [->|]; [discriminate H|reflexivity].
Qed.
Lemma py_int_strip s n : strip s = dec n -> py_int s = inl n.
Proof.
  intros H. unfold py_int. rewrite H. unfold dec.
  destruct (n <? 0) eqn:E; [apply Z.ltb_lt in E|apply Z.ltb_ge in E].
  - destruct (dec_nonneg_spec (- n)) as (D & _ & _); [lia|].
    rewrite Ascii.eqb_refl, D. cbn [option_map]. f_equal. lia.
  - destruct (dec_nonneg_spec n) as (D & H1 & H2); [lia|].
    destruct (dec_nonneg n) as [|c s'] eqn:Es; [congruence|].
    destruct (digit_not_sign c) as [S1 S2]; [apply H2; left; auto|]. rewrite S1, S2, D. reflexivity.
Qed.
Lemma py_int_dec n : py_int (dec n) = inl n.
Proof. apply py_int_strip. apply strip_word0, dec_word. Qed.
Lemma py_int_dec_nl n : py_int (dec n ++ NL) = inl n.
Proof. apply py_int_strip. apply strip_word; [apply dec_word|reflexivity]. Qed.
