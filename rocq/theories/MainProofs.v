(** Proofs about the command line. *)
From Coq Require Import String ZArith QArith List Bool.
From Verif Require Import Base XNum PyStr MainModel MainSpec.
Import ListNotations.
Open Scope string_scope.

Lemma existsb_in f l : existsb (String.eqb f) l = true <-> In f l.
Proof.
  rewrite existsb_exists. split.
  - intros (x & I1 & E). apply String.eqb_eq in E. subst. auto.
  - intros I1. exists f. split; auto. apply String.eqb_refl.
Qed.
Lemma existsb_out f l : existsb (String.eqb f) l = false <-> ~ In f l.
Proof. rewrite <- existsb_in. destruct (existsb _ _); split; congruence. Qed.

Lemma last_given_snoc names line f v text :
  last_given names (line ++ [(f, v)]) text <-> (In f names /\ text = v) \/ (~ In f names /\ last_given names line text).
Proof.
  split.
  - intros (a & g & b & E & I1 & N). destruct b as [|x b _] using rev_ind.
    + apply app_inj_tail in E. destruct E as [-> E]. injection E as -> ->. left. auto.
    + rewrite app_comm_cons, app_assoc in E. apply app_inj_tail in E. destruct E as [-> <-]. right. split.
      * apply (N f v). apply in_or_app. right. left. auto.
      * exists a, g, b. split; auto. split; auto. intros h w I2. apply (N h w). apply in_or_app. auto.
  - intros [[I1 ->]|[N (a & g & b & -> & I1 & M)]].
    + exists line, f, []. split; auto.
    + exists a, g, (b ++ [(f, v)])%list. split; [rewrite <- app_assoc; auto|]. split; auto.
      intros h w I2. apply in_app_or in I2. destruct I2 as [I2|[E|[]]]; [eapply M; eauto|]. injection E as <- <-. auto.
Qed.
Lemma never_snoc names line f v : never names (line ++ [(f, v)]) <-> never names line /\ ~ In f names.
Proof.
  split.
  - intros N. split.
    + intros g w I1. apply (N g w). apply in_or_app. auto.
    + apply (N f v). apply in_or_app. right. left. auto.
  - intros [N M] g w I1. apply in_app_or in I1. destruct I1 as [I1|[E|[]]]; [eapply N; eauto|]. injection E as <- <-. auto.
Qed.
Lemma given_spec d line :
  match given_text d line with Some text => last_given (o_flags d) line text | None => never (o_flags d) line end.
Proof.
  unfold given_text. induction line as [|[f v] line IH] using rev_ind; [intros g w []|].
  rewrite fold_left_app. cbn [fold_left fst snd]. unfold has_flag at 1. destruct (existsb (String.eqb f) (o_flags d)) eqn:E.
  - apply existsb_in in E. apply last_given_snoc. auto.
  - apply existsb_out in E. destruct (fold_left _ line None).
    + apply last_given_snoc. auto.
    + apply never_snoc. auto.
Qed.
Lemma last_given_unique names line t1 t2 : last_given names line t1 -> last_given names line t2 -> t1 = t2.
Proof.
  induction line as [|[f v] line IH] using rev_ind.
  - intros (a & g & b & E & _). destruct a; discriminate.
  - rewrite !last_given_snoc. intros [[A ->]|[A B]] [[C ->]|[C D]]; tauto.
Qed.
Lemma never_not_given names line t : never names line -> ~ last_given names line t.
Proof. intros N (a & f & b & -> & I1 & _). apply (N f t); auto. apply in_or_app. right. left. auto. Qed.

Section Options.
Context (to_float : string -> option xnum).
Lemma int_value d line v : o_type d = TInt -> option_value to_float d line = Some v -> int_option (o_flags d) (o_default d) line v.
Proof.
  unfold option_value. pose proof (given_spec d line) as G. destruct (given_text d line) as [text|].
  - intros ->. cbn. destruct (py_int text) as [z|] eqn:E; [|discriminate]. intros [= <-]. left. eauto.
  - intros _ [= <-]. right. auto.
Qed.
Lemma float_value d line v : o_type d = TFloat -> option_value to_float d line = Some v -> float_option to_float (o_flags d) (o_default d) line v.
Proof.
  unfold option_value. pose proof (given_spec d line) as G. destruct (given_text d line) as [text|].
  - intros ->. cbn. destruct (to_float text) as [z|] eqn:E; [|discriminate]. intros [= <-]. left. eauto.
  - intros _ [= <-]. right. auto.
Qed.
Lemma int_fails d line : o_type d = TInt ->
  option_value to_float d line = None <-> exists text e, last_given (o_flags d) line text /\ py_int text = inr e.
Proof.
  unfold option_value. pose proof (given_spec d line) as G. destruct (given_text d line) as [text|]; intros T.
  - rewrite T. cbn. destruct (py_int text) as [z|] eqn:E; split; try discriminate; eauto.
    intros (t & e & L & F). rewrite (last_given_unique _ _ _ _ L G) in F. congruence.
  - split; [discriminate|]. intros (t & e & L & _). destruct (never_not_given _ _ _ G L).
Qed.
Lemma float_fails d line : o_type d = TFloat ->
  option_value to_float d line = None <-> exists text, last_given (o_flags d) line text /\ to_float text = None.
Proof.
  unfold option_value. pose proof (given_spec d line) as G. destruct (given_text d line) as [text|]; intros T.
  - rewrite T. cbn. destruct (to_float text) as [z|] eqn:E; split; try discriminate; eauto.
    intros (t & L & F). rewrite (last_given_unique _ _ _ _ L G) in F. congruence.
  - split; [discriminate|]. intros (t & L & _). destruct (never_not_given _ _ _ G L).
Qed.
Lemma choice_fails d line l : o_type d = TChoice l ->
  option_value to_float d line = None <-> exists text, last_given (o_flags d) line text /\ ~ In text l.
Proof.
  unfold option_value. pose proof (given_spec d line) as G. destruct (given_text d line) as [text|]; intros T.
  - rewrite T. cbn [convert]. destruct (existsb (String.eqb text) l) eqn:E.
    + apply existsb_in in E. split; [discriminate|]. intros (t & L & F). rewrite (last_given_unique _ _ _ _ L G) in F. tauto.
    + apply existsb_out in E. split; eauto.
  - split; [discriminate|]. intros (t & L & _). destruct (never_not_given _ _ _ G L).
Qed.
Lemma text_value d line v : (exists l, o_type d = TChoice l) \/ o_type d = TPath -> o_default d = VNone ->
  option_value to_float d line = Some v -> (exists text, last_given (o_flags d) line text /\ v = VText text) \/ (never (o_flags d) line /\ v = VNone).
Proof.
  unfold option_value. pose proof (given_spec d line) as G. intros T D. destruct (given_text d line) as [text|].
  - destruct T as [(l & ->)| ->]; cbn [convert]; [destruct (existsb _ _); [|discriminate]|]; intros [= <-]; eauto.
  - intros [= <-]. auto.
Qed.
Lemma path_ok d line : o_type d = TPath -> option_value to_float d line <> None.
Proof. unfold option_value. intros T. destruct (given_text d line); [rewrite T|]; discriminate. Qed.

Lemma known (line : list (string * string)) :
  forallb (fun fv => existsb (fun d => has_flag d (fst fv)) group_options) line = true <-> forall f v, In (f, v) line -> In f all_names.
Proof.
  rewrite forallb_forall. split.
  - intros H f v I1. specialize (H _ I1). apply existsb_exists in H. destruct H as (d & I2 & H). cbn [fst] in H.
    apply existsb_in in H. cbn in I2. unfold all_names. cbn.
    destruct I2 as [<-|[<-|[<-|[<-|[<-|[<-|[<-|[]]]]]]]]; cbn in H; tauto.
  - intros H [f v] I1. specialize (H _ _ I1). apply existsb_exists. unfold all_names in H. cbn [fst]. unfold has_flag.
    assert (K : exists d, In d group_options /\ In f (o_flags d)).
    { unfold n_steps, n_interval, n_linear, n_max, n_molecule, n_wave, n_output in H.
      cbn [app In] in H.
      destruct H as [H|[H|[H|[H|[H|[H|[H|[H|[H|[H|[H|[H|[]]]]]]]]]]]]];
        [exists (nth 0 group_options (Build_option_decl [] "" TInt VNone))|exists (nth 0 group_options (Build_option_decl [] "" TInt VNone))|exists (nth 0 group_options (Build_option_decl [] "" TInt VNone))
        |exists (nth 1 group_options (Build_option_decl [] "" TInt VNone))|exists (nth 1 group_options (Build_option_decl [] "" TInt VNone))
        |exists (nth 2 group_options (Build_option_decl [] "" TInt VNone))
        |exists (nth 3 group_options (Build_option_decl [] "" TInt VNone))|exists (nth 3 group_options (Build_option_decl [] "" TInt VNone))
        |exists (nth 4 group_options (Build_option_decl [] "" TInt VNone))|exists (nth 5 group_options (Build_option_decl [] "" TInt VNone))
        |exists (nth 6 group_options (Build_option_decl [] "" TInt VNone))|exists (nth 6 group_options (Build_option_decl [] "" TInt VNone))];
        rewrite <- H; cbn; tauto. }
    destruct K as (d & I2 & I3). exists d. split; auto. apply existsb_in; auto.
Qed.

(** Everything about the command line at once *)
Lemma main_cases line c :
  (misuse to_float line /\ main to_float line c = None) \/
  (~ misuse to_float line /\ (exists f v, In (f, v) line /\ In f (n_molecule ++ n_output)) /\ main to_float line c = Some (inr TypeError)) \/
  (~ misuse to_float line /\ (forall f v, In (f, v) line -> ~ In f (n_molecule ++ n_output)) /\
   exists a, main to_float line c = Some (inl a) /\ as_given to_float line c a).
Proof.
  unfold main, sdanalysis.
  destruct (forallb (fun fv => existsb (fun d => has_flag d (fst fv)) group_options) line) eqn:KN.
  2:{ left. split; auto. left. apply not_true_iff_false in KN. rewrite known in KN.
      assert (~ Forall (fun fv => In (fst fv) all_names) line).
      { intros F. apply KN. intros f v I1. rewrite Forall_forall in F. apply (F _ I1). }
      apply neg_Forall_Exists_neg in H; [|intros x; apply In_dec, String.string_dec].
      apply Exists_exists in H. destruct H as ([f v] & I1 & N). eauto. }
  pose proof (proj1 (known line) KN) as ALL. clear KN. unfold group_options. cbn [kwargs].
  set (d1 := Build_option_decl _ "steps_max" _ _).
  set (d2 := Build_option_decl _ "keyframe_interval" _ _).
  set (d3 := Build_option_decl _ "linear_steps" _ _).
  set (d4 := Build_option_decl _ "keyframe_max" _ _).
  set (d5 := Build_option_decl _ "molecule" _ _).
  set (d6 := Build_option_decl _ "wave_number" _ _).
  set (d7 := Build_option_decl _ "output" _ _).
  assert (MIS : misuse to_float line <-> option_value to_float d1 line = None \/ option_value to_float d2 line = None \/ option_value to_float d3 line = None
     \/ option_value to_float d4 line = None \/ option_value to_float d5 line = None \/ option_value to_float d6 line = None).
  { rewrite (int_fails d1), (int_fails d2), (int_fails d3), (int_fails d4), (choice_fails d5 _ molecule_options), (float_fails d6) by reflexivity.
    unfold misuse. split.
    - intros [(f & v & I1 & N)|[(names & text & e & I1 & L & E)|[H|H]]].
      + destruct (N (ALL f v I1)).
      + destruct I1 as [<-|[<-|[<-|[<-|[]]]]]; eauto 10.
      + auto 10.
      + auto 10.
    - intros [(t & e & L & E)|[(t & e & L & E)|[(t & e & L & E)|[(t & e & L & E)|[H|H]]]]];
        [right; left; exists n_steps, t, e; cbn; tauto|right; left; exists n_interval, t, e; cbn; tauto
        |right; left; exists n_linear, t, e; cbn; tauto|right; left; exists n_max, t, e; cbn; tauto|auto|auto]. }
  destruct (option_value to_float d1 line) as [v1|] eqn:E1; [|left; split; [apply MIS; auto 10|reflexivity]].
  destruct (option_value to_float d2 line) as [v2|] eqn:E2; [|left; split; [apply MIS; auto 10|reflexivity]].
  destruct (option_value to_float d3 line) as [v3|] eqn:E3; [|left; split; [apply MIS; auto 10|reflexivity]].
  destruct (option_value to_float d4 line) as [v4|] eqn:E4; [|left; split; [apply MIS; auto 10|reflexivity]].
  destruct (option_value to_float d5 line) as [v5|] eqn:E5; [|left; split; [apply MIS; auto 10|reflexivity]].
  destruct (option_value to_float d6 line) as [v6|] eqn:E6; [|left; split; [apply MIS; auto 10|reflexivity]].
  destruct (option_value to_float d7 line) as [v7|] eqn:E7; [|destruct (path_ok d7 line eq_refl E7)].
  right. assert (NM : ~ misuse to_float line) by (rewrite MIS; intuition discriminate). clear MIS ALL.
  apply int_value in E1, E2, E3, E4; try reflexivity. apply float_value in E6; [|reflexivity].
  apply text_value in E5; [|left; eexists; reflexivity|reflexivity]. apply text_value in E7; [|right; reflexivity|reflexivity].
  assert (W : exists x, v6 = VFloat x) by (destruct E6 as [(t & x & _ & _ & ->)|[_ ->]]; eexists; reflexivity). destruct W as (x6 & ->).
  assert (W2 : exists x, v2 = VInt x) by (destruct E2 as [(t & x & _ & _ & ->)|[_ ->]]; eexists; reflexivity). destruct W2 as (x2 & ->).
  assert (W3 : exists x, v3 = VInt x) by (destruct E3 as [(t & x & _ & _ & ->)|[_ ->]]; eexists; reflexivity). destruct W3 as (x3 & ->).
  assert (W4 : exists x, v4 = VInt x) by (destruct E4 as [(t & x & _ & _ & ->)|[_ ->]]; eexists; reflexivity). destruct W4 as (x4 & ->).
  assert (W1 : (exists x, v1 = VInt x) \/ v1 = VNone) by (destruct E1 as [(t & x & _ & _ & ->)|[_ ->]]; [left; eexists; reflexivity|right; reflexivity]).
  assert (BAD : (exists t, last_given (n_molecule ++ n_output) line t) -> exists f v, In (f, v) line /\ In f (n_molecule ++ n_output)).
  { intros (t & a & f & b & -> & I1 & _). exists f, t. split; auto. apply in_or_app. right. left. auto. }
  assert (TXT : v5 <> VNone \/ v7 <> VNone -> exists f v, In (f, v) line /\ In f (n_molecule ++ n_output)).
  { intros [N|N]; [destruct E5 as [(t & L & ->)|[_ ->]]; [|congruence]|destruct E7 as [(t & L & ->)|[_ ->]]; [|congruence]];
    destruct L as (a & f & b & -> & I1 & _); exists f, t; (split; [apply in_or_app; right; left; auto|apply in_or_app; tauto]). }
  destruct E5 as [(t5 & L5 & ->)|[N5 ->]].
  { left. split; auto. split; [apply TXT; left; discriminate|].
    destruct W1 as [(x1 & ->)| ->]; destruct E7 as [(t7 & L7 & ->)|[N7 ->]]; destruct c as [mr [] sc i o]; reflexivity. }
  destruct E7 as [(t7 & L7 & ->)|[N7 ->]].
  { left. split; auto. split; [apply TXT; right; discriminate|].
    destruct W1 as [(x1 & ->)| ->]; destruct c as [mr [] sc i o]; reflexivity. }
  right. split; auto. split.
  { intros f v I1 I2. apply in_app_or in I2. destruct I2 as [I2|I2]; [apply (N5 f v I1 I2)|apply (N7 f v I1 I2)]. }
  destruct c as [mr ld sc i o].
  destruct W1 as [(x1 & ->)| ->]; destruct ld; (eexists; split; [reflexivity|]); unfold as_given; cbn;
    repeat (split; [reflexivity || assumption|]); reflexivity || auto.
Qed.
End Options.
