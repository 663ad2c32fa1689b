(** File names: specification and proofs. *)
From Coq Require Import String Ascii ZArith QArith Qabs Qround List Bool Lia Lqa.
From Verif Require Import Base XNum PyStr PyStrFacts FrameModel ParamsModel.
Import ListNotations.
Open Scope string_scope.
Open Scope Z_scope.

(** ** Specification *)
(** No field separator inside. *)
Definition dash_free (s : string) : Prop := free (fun c => Ascii.eqb c "-") s.
Definition slash_free (s : string) : Prop := free (fun c => Ascii.eqb c "/") s.

(** The kinds of fields. *)
Definition is_P (s : string) : Prop := exists r, s = String "P" r.
Definition is_T (s : string) : Prop := exists r, s = String "T" r.
Definition is_ID (s : string) : Prop := exists r, s = String "I" (String "D" r).
Definition is_other (s : string) : Prop := ~ is_P s /\ ~ is_T s /\ ~ is_ID s.
(** [r] is what the last field of kind [K] gives, with its mark [m] removed. *)
Definition last_of (K : string -> Prop) (m : string) (l : list string) (r : option string) : Prop :=
  match r with
  | Some x => exists a b, l = (a ++ (m ++ x)%string :: b)%list /\ K (m ++ x) /\ (forall y, In y b -> ~ K y)
  | None => forall y, In y l -> ~ K y
  end.
Definition standard_prefix (s : string) : Prop := s = "dump" \/ s = "trajectory" \/ s = "thermo".
(** The fields that count. *)
Inductive counted : list string -> list string -> Prop :=
| counted_prefix x l : standard_prefix x -> counted (x :: l) l
| counted_all l : (forall x l', l = x :: l' -> ~ standard_prefix x) -> counted l l.

(** A path with this last component, with or without a directory. *)
Definition names (p n : string) : Prop := p = n \/ exists d, p = d ++ String "/" n.
(** A file name without its extension, if it has one: a non-empty part after the last
    dot, which is not the first character. *)
Definition has_ext (n stem ext : string) : Prop :=
  n = stem ++ String "." ext /\ stem <> "" /\ ext <> "" /\ free (fun c => Ascii.eqb c ".") ext.
Definition stem_of (n stem : string) : Prop :=
  (exists ext, has_ext n stem ext) \/ ((forall s e, ~ has_ext n s e) /\ stem = n).

(** [s] is the decimal notation, with two decimals, of the number of hundredths nearest
    to [q], ties to even. *)
Definition rounded (q : Q) (s : string) : Prop :=
  exists n d1 d2 : Z, 0 <= n /\ 0 <= d1 <= 9 /\ 0 <= d2 <= 9
    /\ s = dec n ++ "." ++ String (digit_char d1) (String (digit_char d2) "")
    /\ (let h := (100 * n + 10 * d1 + d2)%Z in
        inject_Z h - (1 # 2) <= 100 * q <= inject_Z h + (1 # 2)
        /\ (Qabs.Qabs (100 * q - inject_Z h) == 1 # 2 -> Z.even h = true))%Q.

(** ** Paths *)
Lemma last_app_one {A} (l : list A) x d : last (l ++ [x]) d = x.
Proof. apply last_last. Qed.
Lemma split_char_app_sep c a b : split_char c (a ++ String c b) = (split_char c a ++ split_char c b)%list.
Proof.
  induction a as [|d a IH]; cbn [append split_char].
  - rewrite Ascii.eqb_refl. reflexivity.
  - rewrite IH. destruct (Ascii.eqb d c); [reflexivity|].
    pose proof (split_char_ne c a). destruct (split_char c a); [congruence|]. cbn [app]. reflexivity.
Qed.
Lemma path_name_join d n : slash_free n -> n <> "" -> n <> "." ->
  path_name (d ++ String "/" n) = n.
Proof.
  intros F N1 N2. unfold path_name, path_parts. rewrite split_char_app_sep, (split_char_free _ n) by exact F.
  rewrite filter_app. cbn [filter].
  destruct (String.eqb_spec n ""); [congruence|]. destruct (String.eqb_spec n "."); [congruence|].
  cbn [orb negb]. apply last_app_one.
Qed.
Lemma path_name_bare n : slash_free n -> n <> "" -> n <> "." -> path_name n = n.
Proof.
  intros F N1 N2. unfold path_name, path_parts. rewrite split_char_free by exact F. cbn [filter].
  destruct (String.eqb_spec n ""); [congruence|]. destruct (String.eqb_spec n "."); [congruence|]. reflexivity.
Qed.
Lemma rfind_dot_none s : forall i, free (fun c => Ascii.eqb c ".") s -> rfind_dot i s = None.
Proof.
  induction s as [|c s IH]; intros i F; auto. rewrite free_cons in F. destruct F as [F1 F2].
  cbn [rfind_dot]. rewrite IH by auto. rewrite F1. reflexivity.
Qed.
Lemma rfind_dot_ext s ext : free (fun c => Ascii.eqb c ".") ext ->
  forall i, rfind_dot i (s ++ String "." ext) = Some (i + String.length s)%nat.
Proof.
  intros F. induction s as [|c s IH]; intros i; cbn [append rfind_dot].
  - rewrite rfind_dot_none by auto. cbn. f_equal. lia.
  - rewrite IH. cbn [String.length]. f_equal. lia.
Qed.
Lemma substring_app s t : String.substring 0 (String.length s) (s ++ t) = s.
Proof. induction s as [|c s IH]; cbn; [destruct t; reflexivity|]. rewrite IH. reflexivity. Qed.
Lemma length_app_s s t : String.length (s ++ t) = (String.length s + String.length t)%nat.
Proof. induction s; cbn; auto. Qed.
Lemma rfind_dot_spec s : forall i,
  match rfind_dot i s with
  | None => free (fun c => Ascii.eqb c ".") s
  | Some j => exists a ext, s = a ++ String "." ext /\ free (fun c => Ascii.eqb c ".") ext
                            /\ j = (i + String.length a)%nat
  end.
Proof.
  induction s as [|c s IH]; intros i; cbn [rfind_dot]; [apply free_nil|].
  specialize (IH (S i)). destruct (rfind_dot (S i) s) as [j|].
  - destruct IH as (a & ext & -> & F & ->). exists (String c a), ext. split; auto. split; auto. cbn. lia.
  - destruct (Ascii.eqb_spec c ".") as [->|N].
    + exists "", s. refine (conj eq_refl (conj IH _)). cbn. lia.
    + apply free_cons. split; auto. apply Ascii.eqb_neq. exact N.
Qed.
Lemma ext_unique a b e1 e2 : free (fun c => Ascii.eqb c ".") e1 -> free (fun c => Ascii.eqb c ".") e2 ->
  a ++ String "." e1 = b ++ String "." e2 -> a = b /\ e1 = e2.
Proof.
  intros F1 F2 E. pose proof (rfind_dot_ext a e1 F1 0) as R1. pose proof (rfind_dot_ext b e2 F2 0) as R2.
  rewrite E in R1. rewrite R1 in R2. injection R2 as L.
  assert (X : a = b).
  { pose proof (substring_app a (String "." e1)) as A. pose proof (substring_app b (String "." e2)) as B.
    rewrite E, L in A. congruence. }
  split; auto. subst b. clear -E. induction a; cbn in E; [congruence|injection E; auto].
Qed.
Lemma path_name_names p n : names p n -> slash_free n -> n <> "" -> n <> "." -> path_name p = n.
Proof. intros [->|(d & ->)] F N1 N2; [apply path_name_bare|apply path_name_join]; auto. Qed.
Lemma path_stem_of p n stem : names p n -> slash_free n -> n <> "" -> n <> "." -> stem_of n stem ->
  path_stem p = stem.
Proof.
  intros H F N1 N2 ST. unfold path_stem. rewrite (path_name_names p n) by auto.
  destruct ST as [(ext & -> & S1 & S2 & S3)|(NO & ->)].
  - rewrite rfind_dot_ext by auto. rewrite length_app_s. cbn [plus String.length].
    destruct (0 <? String.length stem)%nat eqn:E1.
    2:{ apply Nat.ltb_ge in E1. destruct stem; [congruence|cbn in E1; lia]. }
    destruct (S (String.length stem) <? _)%nat eqn:E2.
    2:{ apply Nat.ltb_ge in E2. destruct ext; [congruence|cbn in E2; lia]. }
    cbn [andb]. apply substring_app.
  - pose proof (rfind_dot_spec n 0) as R. destruct (rfind_dot 0 n) as [j|]; auto.
    destruct R as (a & ext & E & FE & ->). cbn [plus].
    destruct (0 <? String.length a)%nat eqn:E1; auto. cbn [andb].
    destruct (S (String.length a) <? String.length n)%nat eqn:E2; auto.
    exfalso. apply (NO a ext). split; auto. apply Nat.ltb_lt in E1, E2. subst n. rewrite length_app_s in E2. cbn in E2.
    split; [|split; auto]; intros ->; cbn in *; lia.
Qed.
Lemma stem_slash_free n stem : slash_free n -> stem_of n stem -> slash_free stem.
Proof. intros F [(ext & -> & _)|(_ & ->)]; auto. apply free_app in F. apply F. Qed.

(** ** Fields *)
Lemma drop_prefix_counted l : counted l (drop_prefix l).
Proof.
  destruct l as [|x l]; [apply counted_all; discriminate|]. unfold drop_prefix. cbn [existsb].
  destruct (String.eqb_spec x "dump"); [apply counted_prefix; left; auto|].
  destruct (String.eqb_spec x "trajectory"); [apply counted_prefix; right; left; auto|].
  destruct (String.eqb_spec x "thermo"); [apply counted_prefix; right; right; auto|].
  apply counted_all. intros y l' E. injection E as <- <-. intros [?|[?|?]]; contradiction.
Qed.
Lemma counted_fun l a b : counted l a -> counted l b -> a = b.
Proof.
  intros A B. inversion A; subst; inversion B; subst; auto.
  - exfalso. apply (H0 x a eq_refl H).
  - exfalso. apply (H x b eq_refl H0).
Qed.
Lemma last_of_app K m a b r :
  last_of K m b (Some r) -> last_of K m (a ++ b) (Some r).
Proof.
  intros (x & y & -> & H1 & H2). exists (a ++ x)%list, y. rewrite <- app_assoc. auto.
Qed.
(** One more field of another kind changes nothing. *)
Lemma last_of_snoc_no K m l x r : ~ K x -> last_of K m l r -> last_of K m (l ++ [x]) r.
Proof.
  intros N. destruct r as [r|]; simpl.
  - intros (a & b & -> & H1 & H2). exists a, (b ++ [x])%list. rewrite <- app_assoc. split; auto. split; auto.
    intros y I. apply in_app_or in I. destruct I as [I|[<-|[]]]; auto.
  - intros H y I. apply in_app_or in I. destruct I as [I|[<-|[]]]; auto.
Qed.
Lemma last_of_snoc_yes (K : string -> Prop) m l x : K (m ++ x) -> last_of K m (l ++ [m ++ x]) (Some x).
Proof. intros H. exists l, []. split; auto. Qed.

Definition good (l : list string) (v : variables) : Prop :=
  last_of is_T "T" l (v_temperature v) /\ last_of is_P "P" l (v_pressure v)
  /\ last_of is_ID "ID" l (v_iteration v) /\ last_of is_other "" l (v_crystal v).
Lemma field_good l v item : item <> "" -> good l v -> exists v', field v item = inl v' /\ good (l ++ [item]) v'.
Proof.
  intros N (G1 & G2 & G3 & G4). destruct item as [|c rest]; [congruence|]. cbn [field].
  assert (PT : forall r, is_P (String c r) <-> c = "P"%char) by (intros r; split; [intros (r' & E); congruence|intros ->; exists r; auto]).
  assert (TT : forall r, is_T (String c r) <-> c = "T"%char) by (intros r; split; [intros (r' & E); congruence|intros ->; exists r; auto]).
  destruct (Ascii.eqb_spec c "P") as [->|NP].
  { eexists. split; [reflexivity|]. unfold good; cbn.
    refine (conj _ (conj _ (conj _ _))).
    - apply last_of_snoc_no; auto. intros (r & E). discriminate.
    - apply (last_of_snoc_yes is_P "P"). exists rest. reflexivity.
    - apply last_of_snoc_no; auto. intros (r & E). discriminate.
    - apply last_of_snoc_no; auto. intros (H & _). apply H. exists rest. reflexivity. }
  destruct (Ascii.eqb_spec c "T") as [->|NT].
  { eexists. split; [reflexivity|]. unfold good; cbn.
    refine (conj _ (conj _ (conj _ _))).
    - apply (last_of_snoc_yes is_T "T"). exists rest. reflexivity.
    - apply last_of_snoc_no; auto. intros (r & E). discriminate.
    - apply last_of_snoc_no; auto. intros (r & E). discriminate.
    - apply last_of_snoc_no; auto. intros (_ & H & _). apply H. exists rest. reflexivity. }
  assert (OTH : ~ is_ID (String c rest) -> good (l ++ [String c rest])
      {| v_temperature := v_temperature v; v_pressure := v_pressure v; v_crystal := Some (String c rest); v_iteration := v_iteration v |}).
  { intros NI. unfold good; cbn. refine (conj _ (conj _ (conj _ _))).
    - apply last_of_snoc_no; auto. rewrite TT; auto.
    - apply last_of_snoc_no; auto. rewrite PT; auto.
    - apply last_of_snoc_no; auto.
    - apply (last_of_snoc_yes is_other ""). cbn. split; [rewrite PT; auto|]. split; [rewrite TT; auto|auto]. }
  destruct rest as [|d rest].
  { eexists. split; [reflexivity|]. apply OTH. intros (r & E). discriminate. }
  destruct (ascii_dec d "D") as [->|ND].
  - destruct (Ascii.eqb_spec c "I") as [->|NI].
    + eexists. split; [reflexivity|]. unfold good; cbn. refine (conj _ (conj _ (conj _ _))).
      * apply last_of_snoc_no; auto. intros (r & E). discriminate.
      * apply last_of_snoc_no; auto. intros (r & E). discriminate.
      * apply (last_of_snoc_yes is_ID "ID"). exists rest. reflexivity.
      * apply last_of_snoc_no; auto. intros (_ & _ & H). apply H. exists rest. reflexivity.
    + eexists. split; [reflexivity|]. apply OTH. intros (r & E). congruence.
  - eexists. split; [|apply OTH; intros (r & E); congruence].
    destruct d as [[] [] [] [] [] [] [] []]; try reflexivity. congruence.
Qed.
Lemma fields_loop_good l : forall done v, Forall (fun s => s <> "") l -> good done v ->
  exists v', fields_loop v l = inl v' /\ good (done ++ l) v'.
Proof.
  induction l as [|x l IH]; intros done v F G; cbn [fields_loop].
  - exists v. rewrite app_nil_r. auto.
  - inversion F; subst. destruct (field_good done v x H1 G) as (v1 & E & G1). rewrite E. cbn [ebind].
    destruct (IH (done ++ [x])%list v1 H2 G1) as (v' & E' & G'). exists v'. rewrite <- app_assoc in G'. auto.
Qed.
Lemma good_nil : good [] no_variables.
Proof. refine (conj _ (conj _ (conj _ _))); intros y []. Qed.
Lemma fields_loop_empty l : forall v, In "" l -> fields_loop v l = inr IndexError.
Proof.
  induction l as [|x l IH]; intros v I; [destruct I|]. cbn [fields_loop].
  destruct x as [|c x].
  - reflexivity.
  - destruct I as [I|I]; [discriminate|]. destruct (field v (String c x)) as [v1|e] eqn:E; cbn [ebind]; auto.
    cbn [field] in E. destruct (Ascii.eqb c "P"); [discriminate|]. destruct (Ascii.eqb c "T"); [discriminate|].
    destruct x as [|d x]; [discriminate|].
    destruct d as [[] [] [] [] [] [] [] []]; try discriminate. destruct (Ascii.eqb c "I"); discriminate.
Qed.
Lemma last_of_fun (K : string -> Prop) m l r r' : last_of K m l r -> last_of K m l r' -> r = r'.
Proof.
  destruct r as [x|], r' as [y|]; simpl; auto.
  - intros (a & b & E1 & K1 & H1) (a' & b' & E2 & K2 & H2). subst l.
    assert (m ++ x = m ++ y).
    { revert a' E2. induction a as [|z a IH]; intros a' E2.
      - destruct a' as [|z' a']; cbn in E2.
        + congruence.
        + injection E2 as _ E2. exfalso. apply (H1 (m ++ y)); auto. rewrite E2. apply in_or_app. right. left. auto.
      - destruct a' as [|z' a']; cbn in E2.
        + injection E2 as _ E2. exfalso. apply (H2 (m ++ x)); auto. rewrite <- E2. apply in_or_app. right. left. auto.
        + injection E2 as _ E2. apply (IH a' E2). }
    f_equal. clear - H. induction m; cbn in H; [auto|]. injection H as H. auto.
  - intros (a & b & -> & K1 & _) H. exfalso. apply (H (m ++ x)); auto. apply in_or_app. right; left; auto.
  - intros H (a & b & -> & K1 & _). exfalso. apply (H (m ++ y)); auto. apply in_or_app. right; left; auto.
Qed.

(** ** Numbers *)
Lemma half_even_spec q : (0 <= q)%Q ->
  (0 <= half_even q)%Z /\ (inject_Z (half_even q) - (1 # 2) <= q <= inject_Z (half_even q) + (1 # 2))%Q
  /\ (Qabs.Qabs (q - inject_Z (half_even q)) == 1 # 2 -> Z.even (half_even q) = true)%Q.
Proof.
  intros H. unfold half_even. pose proof (Qfloor_le q) as L. pose proof (Qlt_floor q) as U.
  assert (F : (0 <= Qfloor q)%Z).
  { assert (0 < Qfloor q + 1)%Z; [|lia]. rewrite Zlt_Qlt. eapply Qle_lt_trans; [|exact U]. exact H. }
  set (n := Qfloor q) in *. rewrite inject_Z_plus in U. change (inject_Z 1) with 1%Q in U.
  assert (A : forall z, (z == 1 # 2)%Q -> (z == (1 # 2))%Q) by auto.
  destruct (Qltb (q - inject_Z n) (1 # 2)) eqn:E1.
  - apply Qltb_lt in E1. split; auto. split; [split; lra|]. intros X.
    rewrite Qabs.Qabs_pos in X by lra. exfalso. lra.
  - apply Qltb_ge in E1. destruct (Qltb (1 # 2) (q - inject_Z n)) eqn:E2.
    + apply Qltb_lt in E2. rewrite inject_Z_plus. change (inject_Z 1) with 1%Q. split; [lia|]. split; [split; lra|].
      intros X. rewrite Qabs.Qabs_neg in X by lra. exfalso. lra.
    + apply Qltb_ge in E2. destruct (Z.even n) eqn:E3.
      * split; auto. split; [split; lra|auto].
      * rewrite inject_Z_plus. change (inject_Z 1) with 1%Q. split; [lia|]. split; [split; lra|].
        intros _. rewrite Z.even_add, E3. reflexivity.
Qed.
Lemma fmt2_nonneg_rounded q : (0 <= q)%Q -> rounded q (fmt2_nonneg q).
Proof.
  intros H. destruct (half_even_spec (100 * q)) as (N & B & T).
  { assert (0 <= 100 * q)%Q by (apply Qmult_le_0_compat; [discriminate|auto]). auto. }
  set (n := half_even (100 * q)) in *. exists (n / 100), ((n / 10) mod 10), (n mod 10).
  pose proof (Z.mod_pos_bound (n / 10) 10 ltac:(lia)). pose proof (Z.mod_pos_bound n 10 ltac:(lia)).
  split; [apply Z.div_pos; lia|]. split; [lia|]. split; [lia|]. split; [reflexivity|].
  assert (E : 100 * (n / 100) + 10 * ((n / 10) mod 10) + n mod 10 = n).
  { pose proof (Z.div_mod n 10 ltac:(lia)). pose proof (Z.div_mod (n / 10) 10 ltac:(lia)).
    rewrite Z.div_div in H3 by lia. change (10 * 10) with 100 in H3. lia. }
  cbv zeta. rewrite E. auto.
Qed.
Lemma digit_char_free d (p : ascii -> bool) : 0 <= d <= 9 ->
  (forall c, is_digit c = true -> p c = false) -> p (digit_char d) = false.
Proof. intros H F. apply F. unfold is_digit. rewrite digit_digit_char by lia. reflexivity. Qed.
Lemma rounded_free q s (p : ascii -> bool) : rounded q s ->
  (forall c, is_digit c = true -> p c = false) -> p "."%char = false -> free p s.
Proof.
  intros (n & d1 & d2 & N & D1 & D2 & -> & _) P1 P2. apply free_app. split.
  - intros c I. apply P1. unfold dec in I. destruct (n <? 0) eqn:E; [apply Z.ltb_lt in E; lia|].
    destruct (dec_nonneg_spec n N) as (_ & _ & A). apply A. auto.
  - cbn [append]. apply free_cons. split; auto. apply free_cons. split; [apply digit_char_free; auto|].
    apply free_cons. split; [apply digit_char_free; auto|apply free_nil].
Qed.
Lemma digit_not c d : is_digit c = true -> is_digit d = false -> Ascii.eqb c d = false.
Proof. intros H1 H2. destruct (Ascii.eqb_spec c d); auto. subst. congruence. Qed.
