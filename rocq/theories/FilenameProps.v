(** Properties C54-C57: file names. *)
From Coq Require Import String Ascii ZArith QArith Qabs Qround List Bool Lia Lqa.
From Verif Require Import Base XNum PyStr PyStrFacts FrameModel ParamsModel FilenameProofs.
Import ListNotations.
Open Scope string_scope.
Open Scope Z_scope.

(** ** C56: the rules for the fields *)
Lemma vars_fields p n stem l fl : names p n -> slash_free n -> n <> "" -> n <> "." -> stem_of n stem ->
  split_char "-" stem = l -> counted l fl ->
  ((List.length fl < 3)%nat -> get_filename_vars p = inl no_variables) /\
  ((3 <= List.length fl)%nat -> In "" fl -> get_filename_vars p = inr IndexError) /\
  ((3 <= List.length fl)%nat -> ~ In "" fl -> exists v, get_filename_vars p = inl v /\ good fl v).
Proof.
  intros H F N1 N2 ST SP C. unfold get_filename_vars. rewrite (path_stem_of p n stem) by auto. rewrite SP.
  rewrite (counted_fun l (drop_prefix l) fl (drop_prefix_counted l) C).
  refine (conj _ (conj _ _)).
  - intros L. apply Nat.ltb_lt in L. rewrite L. reflexivity.
  - intros L I. apply Nat.ltb_ge in L. rewrite L. apply fields_loop_empty; auto.
  - intros L I. apply Nat.ltb_ge in L. rewrite L.
    destruct (fields_loop_good fl [] no_variables) as (v & E & G); [|apply good_nil|exists v; auto].
    apply Forall_forall. intros x X ->. contradiction.
Qed.

Theorem C56_filename_fields : forall p n stem l fl,
  names p n -> slash_free n -> n <> "" -> n <> "." -> stem_of n stem ->
  stem = join "-" l -> l <> [] -> Forall dash_free l -> counted l fl ->
  ((List.length fl < 3)%nat ->
     get_filename_vars p = inl {| v_temperature := None; v_pressure := None; v_crystal := None; v_iteration := None |}) /\
  ((3 <= List.length fl)%nat -> In "" fl -> get_filename_vars p = inr IndexError) /\
  ((3 <= List.length fl)%nat -> ~ In "" fl -> exists t pr c i,
     get_filename_vars p = inl {| v_temperature := t; v_pressure := pr; v_crystal := c; v_iteration := i |}
     /\ last_of is_T "T" fl t /\ last_of is_P "P" fl pr /\ last_of is_other "" fl c /\ last_of is_ID "ID" fl i).
Proof.
  intros p n stem l fl H F N1 N2 ST E NE D C.
  destruct (vars_fields p n stem l fl H F N1 N2 ST) as (A & B & G); auto.
  { subst stem. apply split_join; auto. }
  refine (conj A (conj B _)). intros L I. destruct (G L I) as (v & EV & G1 & G2 & G3 & G4).
  destruct v as [t pr c i]. exists t, pr, c, i. auto.
Qed.

(** Every stem has such fields, so that the theorem speaks of every file name. *)
Theorem C56_fields_exist : forall stem, exists l fl,
  stem = join "-" l /\ l <> [] /\ Forall dash_free l /\ counted l fl.
Proof.
  intros stem. exists (split_char "-" stem), (drop_prefix (split_char "-" stem)).
  refine (conj _ (conj (split_char_ne _ _) (conj _ (drop_prefix_counted _)))).
  - induction stem as [|c s IH]; [reflexivity|]. cbn [split_char].
    pose proof (split_char_ne "-" s) as NE.
    destruct (Ascii.eqb_spec c "-") as [->|N].
    + destruct (split_char "-" s) as [|x l]; [congruence|]. rewrite join_cons. cbn [append]. congruence.
    + destruct (split_char "-" s) as [|x l]; [congruence|]. destruct l as [|y l].
      * cbn in *. congruence.
      * rewrite join_cons in *. cbn [append]. congruence.
  - induction stem as [|c s IH]; [repeat constructor; apply free_nil|]. cbn [split_char].
    destruct (Ascii.eqb_spec c "-") as [->|N]; [constructor; auto; apply free_nil|].
    destruct (split_char "-" s) as [|x l]; constructor.
    + apply free_cons. split; [apply Ascii.eqb_neq; auto|apply free_nil].
    + constructor.
    + inversion IH; subst. apply free_cons. split; [apply Ascii.eqb_neq; auto|auto].
    + inversion IH; auto.
Qed.
(** ... and these rules determine the variables. *)
Theorem C56_fields_determine : forall K m l r r', last_of K m l r -> last_of K m l r' -> r = r'.
Proof. exact last_of_fun. Qed.
Print Assumptions C56_filename_fields.
Print Assumptions C56_fields_exist.
Print Assumptions C56_fields_determine.

Definition d0 : string := "run-3/dump-Trimer-P13.50-T1.20-ID3-p2.gsd".
Example C56_ex : get_filename_vars d0 =
  inl {| v_temperature := Some "1.20"; v_pressure := Some "13.50"; v_crystal := Some "p2"; v_iteration := Some "3" |}.
Proof. vm_compute. reflexivity. Qed.
Example C56_ex_hyps : exists n stem l fl, names d0 n /\ slash_free n /\ n <> "" /\ n <> "." /\ stem_of n stem /\
  stem = join "-" l /\ l <> [] /\ Forall dash_free l /\ counted l fl /\ (3 <= List.length fl)%nat /\ ~ In "" fl.
Proof.
  exists "dump-Trimer-P13.50-T1.20-ID3-p2.gsd", "dump-Trimer-P13.50-T1.20-ID3-p2",
    ["dump"; "Trimer"; "P13.50"; "T1.20"; "ID3"; "p2"], ["Trimer"; "P13.50"; "T1.20"; "ID3"; "p2"].
  assert (forall p s, forallb (fun c => negb (p c)) (chars s) = true -> free p s) as FB.
  { intros p s H c I. rewrite forallb_forall in H. apply H in I. destruct (p c); [discriminate|auto]. }
  refine (conj _ (conj _ (conj _ (conj _ (conj _ (conj _ (conj _ (conj _ (conj _ (conj _ _)))))))))).
  - right. exists "run-3". reflexivity.
  - apply FB. reflexivity.
  - discriminate.
  - discriminate.
  - left. exists "gsd". refine (conj eq_refl (conj _ (conj _ _))); try discriminate. apply FB. reflexivity.
  - reflexivity.
  - discriminate.
  - repeat constructor; apply FB; reflexivity.
  - apply counted_prefix. left. reflexivity.
  - cbn. lia.
  - cbn. intuition discriminate.
Qed.
Example C56_ex_empty : get_filename_vars "a--b-c.gsd" = inr IndexError.
Proof. vm_compute. reflexivity. Qed.
Example C56_ex_short : get_filename_vars "dump-P1-T2.gsd" = inl no_variables.
Proof. vm_compute. reflexivity. Qed.

(** ** C54: round trip *)
Lemma field_free_I x c : Ascii.eqb c "-" = false ->
  (forall r, is_other (String c r) \/ exists r', r = String "D" r') ->
  Forall (fun f => f <> "" /\ is_other f) (split_char "-" (String c (fmt2 x))).
Proof.
  intros C O.
  assert (G : forall s, dash_free s -> (forall r', s <> String "D" r') ->
              Forall (fun f => f <> "" /\ is_other f) (split_char "-" (String c s))).
  { intros s F ND. rewrite split_char_free by (apply free_cons; auto). constructor; [|constructor].
    split; [discriminate|]. destruct (O s) as [|(r' & E)]; auto. exfalso. apply (ND r' E). }
  assert (R : forall q, (0 <= q)%Q -> dash_free (fmt2_nonneg q) /\ (exists a s, fmt2_nonneg q = String a s /\ is_digit a = true)).
  { intros q H. pose proof (fmt2_nonneg_rounded q H) as RD. split.
    - apply (rounded_free q); auto. intros a A. apply (digit_not a "-"); auto.
    - destruct RD as (n & d1 & d2 & N & _ & _ & -> & _). destruct (dec_nonneg_spec n N) as (_ & NE & A).
      unfold dec. destruct (n <? 0) eqn:E; [apply Z.ltb_lt in E; lia|].
      destruct (dec_nonneg n) as [|a s]; [congruence|]. eexists a, _. split; [reflexivity|]. apply A. left. reflexivity. }
  assert (DG : forall a s, is_digit a = true -> is_other (String a s)).
  { intros a s A. refine (conj _ (conj _ _)); intros (r & E); injection E as ->; discriminate A. }
  destruct x as [| | |q]; cbn [fmt2].
  - apply G; [intros a I|intros; discriminate]. cbn in I. intuition subst; reflexivity.
  - apply G; [intros a I|intros; discriminate]. cbn in I. intuition subst; reflexivity.
  - change (String c "-inf") with (String c "" ++ String "-" "inf"). rewrite split_char_app_sep.
    apply Forall_app. split.
    + apply G; [apply free_nil|discriminate].
    + repeat constructor; try discriminate; intros (r & E); discriminate.
  - destruct (Qltb q 0) eqn:Q0.
    + apply Qltb_lt in Q0. destruct (R (- q)%Q) as (F & a & s & E & A); [lra|].
      change (String c ("-" ++ fmt2_nonneg (- q))) with (String c "" ++ String "-" (fmt2_nonneg (- q))).
      rewrite split_char_app_sep. apply Forall_app. split; [apply G; [apply free_nil|discriminate]|].
      rewrite split_char_free by auto. constructor; [|constructor]. rewrite E. split; [discriminate|auto].
    + apply Qltb_ge in Q0. destruct (R q Q0) as (F & a & s & E & A). apply G; auto.
      intros r' E'. rewrite E in E'. injection E' as -> _. discriminate A.
Qed.
Lemma fmt2_slash x : slash_free (fmt2 x).
Proof.
  assert (R : forall q, (0 <= q)%Q -> slash_free (fmt2_nonneg q)).
  { intros q H. apply (rounded_free q); [apply fmt2_nonneg_rounded; auto| |reflexivity].
    intros a A. apply (digit_not a "/"); auto. }
  destruct x as [| | |q]; cbn [fmt2]; try (intros a I; cbn in I; intuition subst; reflexivity).
  destruct (Qltb q 0) eqn:Q0.
  - apply Qltb_lt in Q0. apply free_cons. split; auto. apply R. lra.
  - apply R. apply Qltb_ge. auto.
Qed.

(** An attribute that is None or a number. *)
Definition none_or_num (v : pyval) : Prop := v = VNone \/ exists x, v = VNum x.
(** A space group that can be read back. *)
Definition plain_group (s : string) : Prop := s <> "" /\ dash_free s /\ slash_free s /\ is_other s.
Definition std (prefix : option string) : Prop := match prefix with Some x => standard_prefix x | None => True end.

Lemma opt_part_num m v : none_or_num v ->
  exists s, opt_part v (fun v => ebind (py_fmt2 v) (fun s => inl (m ++ s))) = inl s
    /\ ((v = VNone /\ s = "") \/ exists x, v = VNum x /\ s = m ++ fmt2 x).
Proof.
  intros [->|(x & ->)]; cbn.
  - exists "". auto.
  - eexists. split; [reflexivity|]. right. exists x. auto.
Qed.

Lemma free_lit p s : forallb (fun c => negb (p c)) (chars s) = true -> free p s.
Proof. intros H c I. rewrite forallb_forall in H. apply H in I. destruct (p c); [discriminate|auto]. Qed.

Lemma filename_fields str_num cwd o prefix p t inertia force group d :
  getattr cwd o "molecule" = inl (VMol "Trimer") ->
  getattr cwd o "pressure" = inl (VNum (Fin p)) -> (0 <= p)%Q ->
  getattr cwd o "temperature" = inl (VNum (Fin t)) -> (0 <= t)%Q ->
  getattr cwd o "moment_inertia_scale" = inl inertia -> none_or_num inertia ->
  getattr cwd o "harmonic_force" = inl force -> none_or_num force ->
  getattr cwd o "output" = inl (VPath d) ->
  getattr cwd o "space_group" = inl group ->
  (group = VNone \/ exists s, group = VStr s /\ plain_group s) ->
  std prefix ->
  exists f ex, filename str_num cwd o prefix = inl f
    /\ Forall (fun f => f <> "" /\ is_other f) ex
    /\ (inertia = VNone -> force = VNone -> ex = [])
    /\ (let fl := (["Trimer"; String "P" (fmt2_nonneg p); String "T" (fmt2_nonneg t)] ++ ex
                   ++ match group with VStr s => [s] | _ => [] end)%list in
        exists v, get_filename_vars f = inl v /\ good fl v).
Proof.
  intros Hm Hp P0 Ht T0 Hi Ni Hf Nf Ho Hg Ng SP.
  assert (FP : fmt2 (Fin p) = fmt2_nonneg p).
  { cbn. destruct (Qltb p 0) eqn:E; auto. apply Qltb_lt in E. lra. }
  assert (FT : fmt2 (Fin t) = fmt2_nonneg t).
  { cbn. destruct (Qltb t 0) eqn:E; auto. apply Qltb_lt in E. lra. }
  destruct (opt_part_num "-I" inertia Ni) as (si & Ei & Ci).
  destruct (opt_part_num "-K" force Nf) as (sk & Ek & Ck).
  set (sg := match group with VStr s => "-" ++ s | _ => "" end).
  assert (Eg : opt_part group (fun v => inl ("-" ++ py_str str_num v)) = (inl sg : string + exn)).
  { destruct Ng as [->|(s & -> & _)]; reflexivity. }
  set (pre := match prefix with Some x => x ++ "-" | None => "" end).
  set (stem := pre ++ "Trimer" ++ "-P" ++ fmt2_nonneg p ++ "-T" ++ fmt2_nonneg t ++ si ++ sk ++ sg).
  assert (EF : filename str_num cwd o prefix = inl (path_join d (stem ++ ".gsd"))).
  { unfold filename. rewrite Hi. cbn [ebind]. rewrite Hf. cbn [ebind]. rewrite Hg. cbn [ebind]. rewrite Ht. cbn [ebind].
    rewrite Hm. cbn [ebind]. rewrite Hp. cbn [ebind py_fmt2]. rewrite Ei. cbn [ebind]. rewrite Ek. cbn [ebind].
    rewrite Eg. cbn [ebind]. rewrite Ho. cbn [ebind py_str]. rewrite FP, FT. fold pre. unfold stem.
    rewrite !app_assoc_s. reflexivity. }
  assert (SL : slash_free stem).
  { unfold stem. apply free_app. split.
    { unfold pre. destruct prefix as [x|]; [|apply free_nil]. destruct SP as [->|[->| ->]]; apply free_lit; reflexivity. }
    apply free_app. split; [apply free_lit; reflexivity|]. apply free_app. split; [apply free_lit; reflexivity|].
    apply free_app. split; [rewrite <- FP; apply fmt2_slash|]. apply free_app. split; [apply free_lit; reflexivity|].
    apply free_app. split; [rewrite <- FT; apply fmt2_slash|]. apply free_app. split.
    { destruct Ci as [(_ & ->)|(x & _ & ->)]; [apply free_nil|]. apply free_app. split; [apply free_lit; reflexivity|apply fmt2_slash]. }
    apply free_app. split.
    { destruct Ck as [(_ & ->)|(x & _ & ->)]; [apply free_nil|]. apply free_app. split; [apply free_lit; reflexivity|apply fmt2_slash]. }
    unfold sg. destruct Ng as [->|(s & -> & _ & _ & S & _)]; [apply free_nil|]. apply free_cons. split; auto. }
  set (exi := match inertia with VNum x => split_char "-" (String "I" (fmt2 x)) | _ => [] end).
  set (exk := match force with VNum x => split_char "-" (String "K" (fmt2 x)) | _ => [] end).
  assert (XI : Forall (fun f => f <> "" /\ is_other f) exi).
  { unfold exi. destruct inertia; try constructor. apply field_free_I; auto.
    intros [|c r]; [left; refine (conj _ (conj _ _)); intros (r' & E); discriminate|].
    destruct (ascii_dec c "D") as [->|N]; [right; eauto|left; refine (conj _ (conj _ _)); intros (r' & E); congruence]. }
  assert (XK : Forall (fun f => f <> "" /\ is_other f) exk).
  { unfold exk. destruct force; try constructor. apply field_free_I; auto.
    intros r. left; refine (conj _ (conj _ _)); intros (r' & E); discriminate. }
  set (gl := match group with VStr s => [s] | _ => [] end).
  set (fl := (["Trimer"; String "P" (fmt2_nonneg p); String "T" (fmt2_nonneg t)] ++ (exi ++ exk) ++ gl)%list).
  assert (NR : forall q, (0 <= q)%Q -> dash_free (fmt2_nonneg q)).
  { intros q H. apply (rounded_free q); [apply fmt2_nonneg_rounded; auto| |reflexivity]. intros a A. apply (digit_not a "-"); auto. }
  assert (TAIL : forall a, split_char "-" (a ++ si ++ sk ++ sg) = (split_char "-" a ++ (exi ++ exk) ++ gl)%list).
  { assert (T3 : forall a, split_char "-" (a ++ sg) = (split_char "-" a ++ gl)%list).
    { intros a. unfold sg, gl. destruct Ng as [->|(s & -> & _ & D & _)].
      - rewrite app_nil_s, app_nil_r. reflexivity.
      - change ("-" ++ s) with (String "-" s). rewrite split_char_app_sep, (split_char_free _ s) by auto. reflexivity. }
    assert (T2 : forall a, split_char "-" (a ++ sk) = (split_char "-" a ++ exk)%list).
    { intros a. unfold exk. destruct Ck as [(-> & ->)|(x & -> & ->)].
      - rewrite app_nil_s, app_nil_r. reflexivity.
      - change ("-K" ++ fmt2 x) with (String "-" (String "K" (fmt2 x))). apply split_char_app_sep. }
    assert (T1 : forall a, split_char "-" (a ++ si) = (split_char "-" a ++ exi)%list).
    { intros a. unfold exi. destruct Ci as [(-> & ->)|(x & -> & ->)].
      - rewrite app_nil_s, app_nil_r. reflexivity.
      - change ("-I" ++ fmt2 x) with (String "-" (String "I" (fmt2 x))). apply split_char_app_sep. }
    intros a. rewrite <- !app_assoc_s, T3, T2, T1, <- !app_assoc. reflexivity. }
  assert (SPL : split_char "-" stem = (match prefix with Some x => [x] | None => [] end ++ fl)%list).
  { unfold stem.
    assert (B : split_char "-" ("Trimer" ++ "-P" ++ fmt2_nonneg p ++ "-T" ++ fmt2_nonneg t ++ si ++ sk ++ sg) = fl).
    {
      change ("-P" ++ fmt2_nonneg p ++ "-T" ++ fmt2_nonneg t ++ si ++ sk ++ sg)
        with (String "-" ("P" ++ fmt2_nonneg p ++ String "-" ("T" ++ fmt2_nonneg t ++ si ++ sk ++ sg))).
      rewrite split_char_app_sep. rewrite <- (app_assoc_s "P"), split_char_app_sep.
      rewrite <- (app_assoc_s "T"), TAIL. rewrite (split_char_free "-" ("P" ++ fmt2_nonneg p)), (split_char_free "-" ("T" ++ fmt2_nonneg t))
        by (apply free_cons; split; [reflexivity|apply NR; assumption]).
      reflexivity. }
    unfold pre. destruct prefix as [x|]; [|exact B].
    assert (D : dash_free x) by (destruct SP as [->|[->| ->]]; apply free_lit; reflexivity).
    rewrite app_assoc_s. match goal with |- context [x ++ ("-" ++ ?z)] => change ("-" ++ z) with (String "-" z) end. rewrite split_char_app_sep, (split_char_free _ x) by auto.
    rewrite B. reflexivity. }
  exists (path_join d (stem ++ ".gsd")), (exi ++ exk)%list. refine (conj EF (conj _ (conj _ _))).
  - apply Forall_app. auto.
  - intros -> ->. reflexivity.
  - cbv zeta. fold gl fl.
    assert (SN : stem <> "").
    { unfold stem. destruct pre; discriminate. }
    assert (CT : counted (split_char "-" stem) fl).
    { rewrite SPL. destruct prefix as [x|]; [apply counted_prefix; auto|]. apply counted_all.
      intros x l' E. unfold fl in E. injection E as <- _. intros [E|[E|E]]; discriminate. }
    assert (NM : names (path_join d (stem ++ ".gsd")) (stem ++ ".gsd")).
    { right. exists d. unfold path_join. destruct (stem ++ ".gsd") as [|c r] eqn:E; [destruct stem; discriminate|].
      destruct stem as [|c' st]; [congruence|]. injection E as <- E. apply free_cons in SL. destruct SL as [SL _].
      destruct c' as [[] [] [] [] [] [] [] []]; try reflexivity. discriminate SL. }
    destruct (vars_fields _ (stem ++ ".gsd") stem (split_char "-" stem) fl NM) as (_ & _ & G); auto.
    + apply free_app. split; auto. apply free_lit. reflexivity.
    + destruct stem; discriminate.
    + destruct stem as [|c [|c' st]]; discriminate.
    + left. exists "gsd". refine (conj eq_refl (conj SN (conj _ _))); [discriminate|apply free_lit; reflexivity].
    + apply G.
      * unfold fl. rewrite app_length. cbn. lia.
      * unfold fl. intros I. apply in_app_or in I. destruct I as [I|I].
        { cbn in I. intuition discriminate. }
        apply in_app_or in I. destruct I as [I|I].
        { apply in_app_or in I. rewrite Forall_forall in XI, XK. destruct I as [I|I]; [apply XI in I|apply XK in I]; destruct I; congruence. }
        unfold gl in I. destruct Ng as [->|(s & -> & N & _)]; [destruct I|]. destruct I as [E|[]]. congruence.
Qed.

Theorem C54_filename_round_trip : forall str_num cwd o prefix p t inertia force group d,
  getattr cwd o "molecule" = inl (VMol "Trimer") ->
  getattr cwd o "pressure" = inl (VNum (Fin p)) -> (0 <= p)%Q ->
  getattr cwd o "temperature" = inl (VNum (Fin t)) -> (0 <= t)%Q ->
  getattr cwd o "moment_inertia_scale" = inl inertia -> none_or_num inertia ->
  getattr cwd o "harmonic_force" = inl force -> none_or_num force ->
  getattr cwd o "output" = inl (VPath d) ->
  getattr cwd o "space_group" = inl group ->
  (exists s, group = VStr s /\ plain_group s) \/ (group = VNone /\ inertia = VNone /\ force = VNone) ->
  std prefix ->
  exists f v, filename str_num cwd o prefix = inl f /\ get_filename_vars f = inl v
    /\ (exists s, v_temperature v = Some s /\ rounded t s)
    /\ (exists s, v_pressure v = Some s /\ rounded p s)
    /\ v_crystal v = match group with VStr s => Some s | _ => None end
    /\ v_iteration v = None.
Proof.
  intros str_num cwd o prefix p t inertia force group d Hm Hp P0 Ht T0 Hi Ni Hf Nf Ho Hg Ng SP.
  destruct (filename_fields str_num cwd o prefix p t inertia force group d) as (f & ex & EF & X & XN & v & EV & GT & GP & GI & GC); auto.
  { destruct Ng as [|(-> & _)]; auto. }
  set (gl := match group with VStr s => [s] | _ => [] end) in *.
  assert (GL : Forall (fun f => f <> "" /\ is_other f) gl).
  { unfold gl. destruct Ng as [(s & -> & N & _ & _ & O)|(-> & _)]; repeat constructor; auto; apply O. }
  assert (XG : Forall (fun f => f <> "" /\ is_other f) (ex ++ gl)) by (apply Forall_app; auto).
  rewrite Forall_forall in XG.
  exists f, v. refine (conj EF (conj EV (conj _ (conj _ (conj _ _))))).
  - exists (fmt2_nonneg t). split; [|apply fmt2_nonneg_rounded; auto].
    refine (last_of_fun _ _ _ _ _ GT _). exists ["Trimer"; String "P" (fmt2_nonneg p)], (ex ++ gl)%list.
    refine (conj eq_refl (conj _ _)); [eexists; reflexivity|]. intros y I. apply XG in I. apply I.
  - exists (fmt2_nonneg p). split; [|apply fmt2_nonneg_rounded; auto].
    refine (last_of_fun _ _ _ _ _ GP _). exists ["Trimer"], (String "T" (fmt2_nonneg t) :: ex ++ gl)%list.
    refine (conj eq_refl (conj _ _)); [eexists; reflexivity|]. intros y [<-|I]; [intros (r & E); discriminate|]. apply XG in I. apply I.
  - refine (last_of_fun _ _ _ _ _ GC _). destruct Ng as [(s & -> & N & _ & _ & O)|(-> & -> & ->)].
    + exists (["Trimer"; String "P" (fmt2_nonneg p); String "T" (fmt2_nonneg t)] ++ ex)%list, []. cbn [append].
      refine (conj _ (conj O _)); [rewrite <- app_assoc; reflexivity|intros y []].
    + rewrite XN by auto. cbn. intros y [<-|[<-|[<-|[]]]] (A & B & C).
      * apply B. eexists. reflexivity.
      * apply A. eexists. reflexivity.
      * apply B. eexists. reflexivity.
  - refine (last_of_fun _ _ _ _ _ GI _). intros y I (r & E). cbn [app] in I. destruct I as [<-|[<-|[<-|I]]]; try discriminate.
    apply XG in I. destruct I as (_ & _ & _ & O). apply O. exists r. auto.
Qed.
Print Assumptions C54_filename_round_trip.

Definition sp0 (p t : Q) (i k g : pyval) : obj :=
  [("temperature", VNum (Fin t)); ("pressure", VNum (Fin p)); ("molecule", VMol "Trimer");
   ("moment_inertia_scale", i); ("harmonic_force", k); ("space_group", g);
   ("_infile", VNone); ("_outfile", VNone); ("_output", VPath "out")].
Example C54_ex : filename (fun _ => "") "/home" (sp0 (27 # 2) (13 # 1000) (VNum (Fin (-1))) VNone (VStr "p2gg")) (Some "dump")
    = inl "out/dump-Trimer-P13.50-T0.01-I-1.00-p2gg.gsd"
  /\ get_filename_vars "out/dump-Trimer-P13.50-T0.01-I-1.00-p2gg.gsd"
    = inl {| v_temperature := Some "0.01"; v_pressure := Some "13.50"; v_crystal := Some "p2gg"; v_iteration := None |}.
Proof. split; vm_compute; reflexivity. Qed.
Example C54_ex_hyps : plain_group "p2gg" /\ none_or_num (VNum (Fin (-1))) /\ std (Some "dump").
Proof.
  refine (conj _ (conj _ _)).
  - refine (conj _ (conj _ (conj _ (conj _ (conj _ _))))); try discriminate; try (apply free_lit; reflexivity);
      intros (r & E); discriminate.
  - right. eexists. reflexivity.
  - left. reflexivity.
Qed.

(** ** C55: not for all parameters *)
(** What a full round trip would give. *)
Definition round_trip (p t : Q) (group : pyval) (r : variables + exn) : Prop :=
  exists v, r = inl v /\ (exists s, v_temperature v = Some s /\ rounded t s)
    /\ (exists s, v_pressure v = Some s /\ rounded p s)
    /\ v_crystal v = match group with VStr s => Some s | _ => None end.
(** The three ways to lose information, for whole families of parameters. *)
Theorem C55_round_trip_refuted :
  (exists p t o f, getattr "/" o "molecule" = inl (VMol "Trimer")
     /\ getattr "/" o "pressure" = inl (VNum (Fin p)) /\ getattr "/" o "temperature" = inl (VNum (Fin t))
     /\ getattr "/" o "space_group" = inl VNone
     /\ filename (fun _ => "") "/" o None = inl f /\ ~ round_trip p t VNone (get_filename_vars f)
     /\ (exists v, get_filename_vars f = inl v /\ v_pressure v = Some "")) /\
  (exists o f, getattr "/" o "molecule" = inl (VMol "Disc")
     /\ getattr "/" o "space_group" = inl VNone
     /\ filename (fun _ => "") "/" o None = inl f
     /\ (exists v, get_filename_vars f = inl v /\ v_crystal v = Some "Disc")) /\
  (exists o f, getattr "/" o "molecule" = inl (VMol "Trimer")
     /\ getattr "/" o "space_group" = inl VNone
     /\ filename (fun _ => "") "/" o None = inl f
     /\ (exists v, get_filename_vars f = inl v /\ v_crystal v = Some "I1.00")).
Proof.
  refine (conj _ (conj _ _)).
  - exists (-1)%Q, 1%Q, (sp0 (-1) 1 VNone VNone VNone). eexists.
    refine (conj eq_refl (conj eq_refl (conj eq_refl (conj eq_refl (conj _ (conj _ _)))))).
    + vm_compute. reflexivity.
    + intros (v & E & _ & (s & Ep & R) & _). vm_compute in E. injection E as <-. cbn in Ep. injection Ep as <-.
      destruct R as (n & d1 & d2 & _ & _ & _ & E & _). destruct (dec n); discriminate.
    + eexists. split; [vm_compute; reflexivity|reflexivity].
  - exists (dset String.eqb "molecule" (VMol "Disc") (sp0 1 1 VNone VNone VNone)). eexists.
    refine (conj eq_refl (conj eq_refl (conj _ _))); [vm_compute; reflexivity|].
    eexists. split; [vm_compute; reflexivity|reflexivity].
  - exists (sp0 1 1 (VNum (Fin 1)) VNone VNone). eexists.
    refine (conj eq_refl (conj eq_refl (conj _ _))); [vm_compute; reflexivity|].
    eexists. split; [vm_compute; reflexivity|reflexivity].
Qed.
Print Assumptions C55_round_trip_refuted.
