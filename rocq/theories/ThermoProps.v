(** Theorems about the dashboard of thermodynamic quantities: C141-C146. *)
From Coq Require Import String Reals ZArith List Bool Lia Lra Arith.
From Verif Require Import Base MotionModel ThermoModel ThermoSpec ThermoProofs DictFacts.
Import ListNotations.
Open Scope nat_scope.
Open Scope string_scope.
Notation length := List.length.

(** *** C141: reading a file averages every quantity over windows of 200000 steps that begin
    at the smallest step, taking the last row of each step; and nothing else fits that
    description. *)
Theorem C141_windows f : rectangular f ->
  exists d, read_file f = inl d /\ table_of f d /\ forall d', table_of f d' -> d' = d.
Proof.
  intros H. destruct (read_ok f H) as (d & E & T & _). exists d. split; [exact E|]. split; [exact T|].
  intros d' T'. now apply (table_fun f).
Qed.
Print Assumptions C141_windows.

(** Four rows, one of them repeated, in two windows of three; with text *)
Definition log_a : tfile :=
  [("timestep", Ints [100; 300100; 500099; 300100]%Z);
   ("N", Ints [5; 5; 5; 5]%Z);
   ("comment", Texts ["a"; "b"; "c"; "d"]);
   ("temperature", Floats [Some 1; Some 2; Some 4; Some 8]%R)].
Example ex_rectangular : rectangular log_a.
Proof.
  split; [repeat constructor; cbn; intuition discriminate|].
  exists [100; 300100; 500099; 300100]%Z. split; [now left|]. split; [discriminate|].
  intros n c [[= <- <-]|[[= <- <-]|[[= <- <-]|[[= <- <-]|[]]]]]; reflexivity.
Qed.
Example ex_C141 : exists x n t, read_file log_a = inl [("timestep", x); ("N", n); ("temperature", t)] /\
  t = [Some 1; Some 8; Some 4]%R.
Proof.
  do 3 eexists. split; [reflexivity|]. unfold resample.
  replace (groups _ _) with [[0]; [3]; [2]] by (vm_compute; reflexivity).
  unfold mean_cell. cbn. repeat (apply f_equal2; [f_equal; lra|]). reflexivity.
Qed.

(** *** C142: is every row shown? *)
(** Whenever two different steps are at least 200000 apart *)
Definition far_apart (steps : list Z) : Prop :=
  forall s s', In s steps -> In s' steps -> (s < s')%Z -> (s + 200000 <= s')%Z.
(** The row [i] is shown: there is a point with its step and with its values. *)
Definition row_shown (f : tfile) (d : frame) (steps : list Z) (i : nat) : Prop :=
  exists k, forall name c out, In (name, c) f -> In (name, out) d -> nth_error out k = Some (nth i (cells c) None).

Lemma minimum (l : list Z) : l <> [] -> exists s0, In s0 l /\ forall s, In s l -> (s0 <= s)%Z.
Proof.
  induction l as [|t l IH]; [easy|]. intros _. destruct l as [|u l].
  - exists t. split; [now left|]. intros s [->|[]]. lia.
  - destruct IH as (s0 & I0 & M0); [discriminate|]. destruct (Z.le_gt_cases t s0).
    + exists t. split; [now left|]. intros s [->|Hs]; [lia|]. specialize (M0 s Hs). lia.
    + exists s0. split; [now right|]. intros s [->|Hs]; [lia|auto].
Qed.

Theorem C142_shown_partial f d steps : rectangular f -> read_file f = inl d -> In ("timestep", Ints steps) f ->
  far_apart steps -> forall i, latest steps i -> row_shown f d steps i.
Proof.
  intros Hr E Is Fa i Hi. destruct (read_ok f Hr) as (d' & E' & (Q & st & I & A) & _).
  assert (d' = d) by congruence. subst d'.
  assert (st = steps).
  { destruct Hr as (Nd & _). pose proof (dget_of_in _ _ _ Nd Is). pose proof (dget_of_in _ _ _ Nd I). congruence. }
  subst st. set (si := step_at steps i).
  assert (Isi : In si steps) by (apply nth_In, Hi).
  (* the smallest step *)
  assert (Mn : exists s0, In s0 steps /\ forall s, In s steps -> (s0 <= s)%Z).
  { apply minimum. intros ->. destruct Isi. }
  destruct Mn as (s0 & I0 & M0).
  pose proof (Z.mul_div_le (si - s0) 200000 ltac:(lia)) as D1.
  pose proof (Z.mul_succ_div_gt (si - s0) 200000 ltac:(lia)) as D2.
  pose proof (Z.div_pos (si - s0) 200000 ltac:(specialize (M0 si Isi); lia) ltac:(lia)) as D3.
  exists (Z.to_nat ((si - s0) / 200000)). set (k := Z.to_nat ((si - s0) / 200000)).
  assert (Ek : Z.of_nat k = ((si - s0) / 200000)%Z) by (unfold k; lia).
  intros name c out Hc Ho. destruct (A name c out Hc Ho) as (s0' & (I0' & B & _) & W).
  assert (s0' = s0).
  { pose proof (M0 _ I0'). pose proof (B _ I0). lia. }
  subst s0'. assert (Hk : k < length out) by (specialize (B si Isi); lia).
  destruct (W k Hk) as (rows & Nr & Ir & Mr).
  assert (Ri : In i rows) by (apply Ir; split; [exact Hi|]; unfold in_window; fold si; lia).
  assert (Ro : forall j, In j rows -> j = i).
  { intros j Hj. apply Ir in Hj. destruct Hj as [Hj Wj]. unfold in_window in Wj.
    assert (Isj : In (step_at steps j) steps) by (apply nth_In, Hj).
    assert (Es : step_at steps j = step_at steps i).
    { fold si. destruct (Z.lt_trichotomy (step_at steps j) si) as [L|[L|L]]; [|exact L|].
      - pose proof (Fa _ _ Isj Isi L). lia.
      - pose proof (Fa _ _ Isi Isj L). lia. }
    destruct (Nat.lt_trichotomy j i) as [L|[L|L]]; [|exact L|].
    - exfalso. apply (proj2 Hj i); [|congruence]. split; [exact L|apply Hi].
    - exfalso. apply (proj2 Hi j); [|congruence]. split; [exact L|apply Hj]. }
  assert (Er : rows = [i]).
  { destruct rows as [|a [|b rows]]; [easy|rewrite (Ro a); [reflexivity|now left]|].
    exfalso. assert (a = b) by (rewrite (Ro a), (Ro b); [reflexivity|right; now left|now left]).
    subst b. inversion Nr as [|? ? Hn _]. apply Hn. now left. }
  subst rows. cbn [map] in Mr.
  rewrite (nth_error_nth' out None Hk). f_equal.
  apply (is_mean_fun [nth i (cells c) None]); [exact Mr|].
  destruct (nth i (cells c) None) as [x|]; cbn.
  - split; [exists x; now left|]. ring.
  - intros x [H|[]]. discriminate.
Qed.
Print Assumptions C142_shown_partial.

(** Two rows that are closer are replaced by their mean. *)
Theorem C142_shown_refuted : exists f d steps i,
  rectangular f /\ read_file f = inl d /\ In ("timestep", Ints steps) f /\ latest steps i /\ ~ row_shown f d steps i.
Proof.
  set (f := [("timestep", Ints [0; 100000]%Z); ("N", Ints [5; 7]%Z)]).
  exists f. eexists. exists [0; 100000]%Z, 0.
  split; [|split; [reflexivity|split; [now left|split]]].
  - split; [repeat constructor; cbn; intuition discriminate|].
    exists [0; 100000]%Z. split; [now left|]. split; [discriminate|].
    intros n c [[= <- <-]|[[= <- <-]|[]]]; reflexivity.
  - split; [cbn; lia|]. intros j Hj. cbn in Hj. assert (j = 1) by lia. subst j. discriminate.
  - intros (k & H).
    specialize (H "N" (Ints [5; 7]%Z) _ (or_intror (or_introl eq_refl)) (or_intror (or_introl eq_refl))).
    vm_compute groups in H. destruct k as [|k]; [|destruct k; discriminate].
    cbn in H. injection H as H. lra.
Qed.
Print Assumptions C142_shown_refuted.

Example ex_far_apart : far_apart [100; 300100; 500100; 300100]%Z /\ latest [100; 300100; 500100; 300100]%Z 3.
Proof.
  split.
  - intros s s' [<-|[<-|[<-|[<-|[]]]]] [<-|[<-|[<-|[<-|[]]]]]; lia.
  - split; [cbn; lia|]. intros j Hj. cbn in Hj. lia.
Qed.

Section Dashboard.
  Variable ls : string -> list string.
  Variable content : string -> string -> tfile + exn.

  (** The dashboard shows the good file of the directory [src] that has the selected name. *)
  Definition current (src : string) (s : view) : Prop :=
    exists f, content src (v_file s) = inl f /\ good f /\ table_of f (v_data s) /\ complete (v_data s) /\ plotted s (v_data s).

  Lemma list_ok new s s' e : all_good ls content -> v_dir s = new -> update_file_list ls content new s = (s', e) ->
    e = None /\ v_dir s' = new /\ v_options s' = ls new /\
    ((v_file s' = v_file s /\ v_data s' = v_data s /\ v_default s' = v_default s /\ v_columns s' = v_columns s /\
      v_factor s' = v_factor s /\ v_factors s' = v_factors s /\ (ls new = [] \/ In (v_file s) (ls new))) \/
     (v_file s' <> v_file s /\ In (v_file s') (ls new) /\ current new s' /\ ~ In (v_file s) (ls new) /\
      nth_error (v_factors s') 2 = Some (v_factor s'))).
  Proof.
    intros G Ed. unfold update_file_list. cbn [v_options].
    destruct (ls new) as [|f0 l] eqn:El.
    { intros [= <- <-]. cbn. repeat (split; [auto|]). left. auto 10. }
    rewrite <- El.
    destruct (existsb (String.eqb (v_file s)) (ls new)) eqn:Ex.
    - apply existsb_exists in Ex. destruct Ex as (n & Hn & En). apply String.eqb_eq in En. subst n.
      unfold set_file. cbn [v_file]. rewrite String.eqb_refl. intros [= <- <-]. cbn.
      repeat (split; [auto|]). left. auto 10.
    - assert (Ni : ~ In (v_file s) (ls new)).
      { intros H. assert (existsb (String.eqb (v_file s)) (ls new) = true); [|congruence].
        apply existsb_exists. exists (v_file s). split; [exact H|apply String.eqb_refl]. }
      assert (I0 : In f0 (ls new)) by (rewrite El; now left).
      assert (N : f0 <> v_file s) by (intros ->; contradiction).
      destruct (G new f0 I0) as (_ & f & Hc & Hg).
      destruct (set_file_ok content (mkview (v_dir s) (ls new) (v_file s) (v_data s) (v_factors s) (v_factor s) (v_default s) (v_columns s)) f0 f)
        as (s1 & d & E & Er & T & C & P & D & A1 & A2 & A3 & A4); auto; [cbn; now rewrite Ed|].
      rewrite E. intros [= <- <-]. cbn in A1, A2. rewrite A1, A2, A3.
      repeat (split; [auto|]). right. split; [auto|]. split; [auto|]. split; [|auto].
      exists f. rewrite A3, D. auto 10.
  Qed.

  Lemma act_ok a s s' e src : all_good ls content -> v_options s = ls (v_dir s) -> current src s ->
    offered a s -> act ls content a s = (s', e) ->
    e = None /\ v_options s' = ls (v_dir s') /\
    ((v_file s' = v_file s /\ current src s') \/
     (v_file s' <> v_file s /\ current (v_dir s') s' /\ nth_error (v_factors s') 2 = Some (v_factor s'))).
  Proof.
    intros G Ho Hcur Hof. destruct a as [dn|n|q]; cbn [act offered] in *.
    - destruct (String.eqb_spec dn (v_dir s)) as [->|N]; [intros [= <- <-]; auto|].
      intros H. apply list_ok in H; [|exact G|reflexivity]. cbn in H.
      destruct H as (He & A1 & A2 & H). split; [exact He|]. split; [congruence|].
      destruct H as [(B1 & B2 & B3 & B4 & B5 & B6 & B7)|(B1 & B2 & B3 & B4 & B5)].
      + left. split; [exact B1|]. destruct Hcur as (f & Hc & Hg & T & C & P).
        exists f. rewrite B1, B2. repeat (split; [assumption|]).
        unfold plotted in *. now rewrite B3, B4, B5, B6.
      + right. rewrite A1. auto.
    - destruct (string_dec n (v_file s)) as [->|N].
      + unfold set_file. rewrite String.eqb_refl. intros [= <- <-]. auto.
      + rewrite Ho in Hof. destruct (G _ _ Hof) as (_ & f & Hc & Hg).
        destruct (set_file_ok content s n f Hc Hg N) as (s1 & d & E & Er & T & C & P & D & A1 & A2 & A3 & A4).
        rewrite E. intros [= <- <-]. split; [reflexivity|]. split; [congruence|]. right.
        rewrite A3. split; [exact N|]. split; [|exact A4]. exists f. rewrite A1, A3, D. auto.
    - destruct Hcur as (f & Hc & Hg & T & C & P).
      destruct (set_factor_ok s (v_data s) q eq_refl C) as (s1 & E & P1 & D & A1 & A2 & A3 & A4); auto.
      + apply P.
      + replace (map fst (v_data s)) with (v_factors s) by apply P. exact Hof.
      + rewrite E. intros [= <- <-]. split; [reflexivity|]. split; [congruence|]. left. split; [exact A3|].
        exists f. rewrite A3, D. auto.
  Qed.

  Lemma start_ok s e : all_good ls content -> start ls content = (s, e) -> ls "." <> [] ->
    e = None /\ v_dir s = "." /\ v_options s = ls "." /\ In (v_file s) (ls ".") /\ current "." s /\
    nth_error (v_factors s) 2 = Some (v_factor s).
  Proof.
    intros G H Ne. unfold start in H. apply list_ok in H; [|exact G|reflexivity]. cbn in H.
    destruct H as (A & B & C & [(_ & _ & _ & _ & _ & _ & [D|D])|(D & I & E & _ & F)]); [contradiction| |auto 10].
    destruct (G _ _ D) as [N _]. contradiction.
  Qed.

  Lemma run_head s acts trace : run ls content s acts trace -> exists t, trace = s :: t.
  Proof. inversion 1; eauto. Qed.

  (** The last change of the file *)
  Lemma run_current s0 acts trace : run ls content s0 acts trace -> forall src s,
    all_good ls content -> v_options s0 = ls (v_dir s0) -> current src s0 -> final trace s ->
    exists a sm b, trace = (a ++ sm :: b)%list /\ (forall t, In t (sm :: b) -> v_file t = v_file s) /\
      ((a = [] /\ current src s) \/
       (exists a0 p, a = (a0 ++ [p])%list /\ v_file p <> v_file sm /\ current (v_dir sm) s)).
  Proof.
    induction 1 as [s0|s0 a s1 e acts trace Hof Ha Hr IH]; intros src s G Ho Hc (pre & Ef).
    - exists [], s0, []. split; [reflexivity|].
      assert (s0 = s). { destruct pre as [|p [|? ?]]; cbn in Ef; congruence. } subst s.
      split; [intros t [->|[]]; reflexivity|]. left. auto.
    - destruct (act_ok a s0 s1 e src G Ho Hc Hof Ha) as (_ & Ho1 & Hn).
      destruct (run_head _ _ _ Hr) as (tl & Et).
      assert (Fin : final trace s).
      { destruct pre as [|p pre]; cbn in Ef; [|exists pre; congruence].
        exfalso. injection Ef as _ Ef. rewrite Et in Ef. discriminate. }
      destruct Hn as [[Hf Hc1]|(Hf & Hc1 & _)].
      + destruct (IH src s G Ho1 Hc1 Fin) as (a' & sm & b & E & F & D).
        destruct D as [[Ea D]|(a0 & p & Ea & Hp & D)].
        * exists [], s0, trace. split; [reflexivity|]. subst a'. cbn in E. split; [|left; auto].
          intros t [<-|Ht]; [|apply F; now rewrite <- E]. rewrite <- Hf. apply F. rewrite <- E, Et. now left.
        * exists (s0 :: a')%list, sm, b. split; [cbn; now rewrite E|]. split; [exact F|]. right.
          exists (s0 :: a0)%list, p. subst a'. auto.
      + destruct (IH (v_dir s1) s G Ho1 Hc1 Fin) as (a' & sm & b & E & F & D).
        destruct D as [[Ea D]|(a0 & p & Ea & Hp & D)].
        * subst a'. cbn in E. assert (sm = s1) by congruence. subst sm.
          exists [s0], s1, b. split; [cbn; now rewrite E|]. split; [exact F|]. right. exists [], s0. auto.
        * exists (s0 :: a')%list, sm, b. split; [cbn; now rewrite E|]. split; [exact F|]. right.
          exists (s0 :: a0)%list, p. subst a'. auto.
  Qed.

  Lemma current_displays src s : current src s -> exists f, content src (v_file s) = inl f /\ displays s f.
  Proof. intros (f & Hc & _ & T & _ & P). exists f. split; [exact Hc|]. exists (v_data s). auto. Qed.

  (** *** C143: with good files the dashboard shows the selected file of the directory in which
      it was when the selected name last changed. *)
  Theorem C143_selected_partial s0 acts trace s :
    all_good ls content -> ls "." <> [] -> start ls content = (s0, None) ->
    run ls content s0 acts trace -> final trace s ->
    exists a sm b, trace = (a ++ sm :: b)%list /\ (forall t, In t (sm :: b) -> v_file t = v_file s) /\
      (a = [] \/ exists a0 p, a = (a0 ++ [p])%list /\ v_file p <> v_file sm) /\
      exists f, content (v_dir sm) (v_file s) = inl f /\ displays s f.
  Proof.
    intros G Ne Hs Hr Hf. destruct (start_ok _ _ G Hs Ne) as (_ & Hd & Ho & _ & Hc & _).
    destruct (run_current s0 acts trace Hr "." s G) as (a & sm & b & E & F & D); auto; [congruence|].
    exists a, sm, b. split; [exact E|]. split; [exact F|].
    destruct D as [[Ea D]|(a0 & p & Ea & Hp & D)].
    - split; [now left|]. subst a. destruct (run_head _ _ _ Hr) as (tl & Et).
      assert (sm = s0) by (cbn in E; congruence). subst sm. rewrite Hd. now apply current_displays.
    - split; [right; eauto|]. now apply current_displays.
  Qed.

  (** With names that say which directory a file is in, it is the file that the two widgets
      name. *)
  Theorem C143_distinct_names_partial s0 acts trace s :
    all_good ls content -> ls "." <> [] -> start ls content = (s0, None) ->
    (forall d d' n, In n (ls d) -> In n (ls d') -> d = d') -> (forall d, In (SetDirectory d) acts -> ls d <> []) ->
    run ls content s0 acts trace -> final trace s ->
    In (v_file s) (ls (v_dir s)) /\ exists f, content (v_dir s) (v_file s) = inl f /\ displays s f.
  Proof.
    intros G Ne Hs Dj Hne Hr Hf. destruct (start_ok _ _ G Hs Ne) as (_ & Hd & Ho & Hi & Hc & _).
    rewrite <- Hd in Ho, Hi, Hc. clear Hs Hd Ne.
    cut (In (v_file s) (ls (v_dir s)) /\ current (v_dir s) s).
    { intros [A B]. split; [exact A|]. now apply current_displays. }
    revert Hne s Hf. induction Hr as [s0|s0 a s1 e acts trace Hof Ha Hr IH]; intros Hne s (pre & Ef).
    - assert (s0 = s). { destruct pre as [|p [|? ?]]; cbn in Ef; congruence. } subst s. auto.
    - destruct (run_head _ _ _ Hr) as (tl & Et).
      assert (Fin : final trace s).
      { destruct pre as [|p pre]; cbn in Ef; [|exists pre; congruence].
        exfalso. injection Ef as _ Ef. rewrite Et in Ef. discriminate. }
      destruct (act_ok a s0 s1 e _ G Ho Hc Hof Ha) as (_ & Ho1 & Hn).
      assert (K : In (v_file s1) (ls (v_dir s1)) /\ current (v_dir s1) s1).
      { destruct a as [dn|n|q]; cbn [act offered] in *.
        - destruct (String.eqb_spec dn (v_dir s0)) as [->|N]; [injection Ha as <- <-; auto|].
          apply list_ok in Ha; [|exact G|reflexivity]. cbn in Ha.
          destruct Ha as (_ & A1 & A2 & [(B1 & _ & _ & _ & _ & _ & [B2|B2])|(_ & B2 & B3 & _)]).
          + destruct (Hne dn (or_introl eq_refl) B2).
          + destruct (N (Dj _ _ _ B2 Hi)).
          + rewrite A1. auto.
        - pose proof (set_file_same _ _ _ _ _ Ha) as (A1 & A2 & A3 & A4 & _).
          rewrite A1, A3. split; [now rewrite <- Ho|].
          destruct Hn as [[Hfs Hc1]|(_ & Hc1 & _)]; [exact Hc1|now rewrite A1 in Hc1].
        - pose proof (set_factor_same _ _ _ _ Ha) as (A1 & A2 & A3 & _). rewrite A1, A3. split; [exact Hi|].
          destruct Hn as [[_ Hc1]|(Hfs & _)]; [exact Hc1|contradiction]. }
      apply IH; [exact Ho1|apply K|apply K| |exact Fin]. intros dn Hdn. apply Hne. now right.
  Qed.

  (** The name that is selected after a directory is entered, whatever the files are *)
  Theorem C143_name_partial dn s s' e : dn <> v_dir s -> act ls content (SetDirectory dn) s = (s', e) ->
    v_dir s' = dn /\ v_options s' = ls dn /\
    (In (v_file s) (ls dn) -> v_file s' = v_file s) /\
    (~ In (v_file s) (ls dn) -> v_file s' = hd (v_file s) (ls dn)).
  Proof.
    intros N. cbn [act]. destruct (String.eqb_spec dn (v_dir s)) as [?|_]; [contradiction|].
    unfold update_file_list. cbn [v_options v_file]. destruct (ls dn) as [|f0 l] eqn:El.
    { intros [= <- <-]. cbn. auto. }
    rewrite <- El. destruct (set_file content _ _) as [s1 e1] eqn:E1. intros H.
    assert (s1 = s') by (destruct e1 as [[]|]; congruence). subst s1. clear H.
    apply set_file_same in E1. cbn in E1. destruct E1 as (A1 & A2 & A3 & _ & _). rewrite A1, A2, A3.
    split; [reflexivity|]. split; [reflexivity|].
    destruct (existsb (String.eqb (v_file s)) (ls dn)) eqn:Ex.
    - apply existsb_exists in Ex. destruct Ex as (m & Hm & Em). apply String.eqb_eq in Em. subst m.
      split; [reflexivity|contradiction].
    - split; [|rewrite El; reflexivity]. intros Hi. exfalso.
      assert (existsb (String.eqb (v_file s)) (ls dn) = true); [|congruence].
      apply existsb_exists. exists (v_file s). split; [exact Hi|apply String.eqb_refl].
  Qed.

  (** *** C144: the quantity of the second tab is kept while the file is, and is the third
      of the file whenever another file is shown. *)
  Theorem C144_quantity_partial a s s' e : act ls content a s = (s', e) ->
    (v_file s' = v_file s -> v_factor s' = match a with SelectFactor q => q | _ => v_factor s end) /\
    (v_file s' <> v_file s -> forall f, content (v_dir s') (v_file s') = inl f -> good f ->
       exists names, quantities f names /\ nth_error names 2 = Some (v_factor s')).
  Proof.
    assert (K : forall n s0 s1 e1, set_file content n s0 = (s1, e1) ->
      (v_file s1 = v_file s0 -> v_factor s1 = v_factor s0) /\
      (v_file s1 <> v_file s0 -> forall f, content (v_dir s1) (v_file s1) = inl f -> good f ->
         exists names, quantities f names /\ nth_error names 2 = Some (v_factor s1))).
    { intros n s0 s1 e1 H. pose proof (set_file_same _ _ _ _ _ H) as (A1 & A2 & A3 & A4 & _). split.
      - intros Hf. rewrite A3 in Hf. destruct (A4 Hf) as [-> _]. reflexivity.
      - intros N f Hc Hg. rewrite A1, A3 in Hc. rewrite A3 in N.
        destruct (set_file_ok content s0 n f Hc Hg N) as (s2 & d & E & _ & T & _ & P & _ & _ & _ & _ & A5).
        assert (s2 = s1) by congruence. subst s2. exists (map fst d). split; [apply T|].
        replace (map fst d) with (v_factors s1) by apply P. exact A5. }
    destruct a as [dn|n|q]; cbn [act]; intros H.
    - destruct (String.eqb_spec dn (v_dir s)) as [->|N]; [injection H as <- <-; split; [auto|congruence]|].
      unfold update_file_list in H. cbn [v_options] in H.
      destruct (ls dn) as [|f0 l]; [injection H as <- <-; cbn; split; [auto|congruence]|].
      destruct (set_file content _ _) as [s1 e1] eqn:E1. apply K in E1. cbn in E1.
      assert (s1 = s') by (destruct e1 as [[]|]; congruence). subst s1. exact E1.
    - exact (K _ _ _ _ H).
    - pose proof (set_factor_same _ _ _ _ H) as (A1 & A2 & A3 & A4 & _). split; [auto|congruence].
  Qed.

  (** *** C145: with a file in the directory in which it is started, the first tab has the
      plots of the four quantities. *)
  Theorem C145_plots_partial s e : all_good ls content -> ls "." <> [] -> start ls content = (s, e) ->
    e = None /\ plots s = four.
  Proof.
    intros G Ne H.
    destruct (start_ok _ _ G H Ne) as (He & _ & _ & _ & (f & _ & _ & _ & _ & P) & _). split; [exact He|].
    unfold plots, dkeys. destruct P as (_ & _ & _ & _ & -> & _). reflexivity.
  Qed.

  (** *** C146: a file that cannot be shown *)
  (** The factors that are offered are the columns of the last file that could be read. *)
  Definition factors_match (s : view) : Prop := v_factors s = dkeys (v_data s).
  Lemma factors_match_act a s s' e : factors_match s -> act ls content a s = (s', e) -> factors_match s'.
  Proof.
    unfold factors_match. intros M. destruct a as [dn|n|q]; cbn [act]; intros H.
    - destruct (String.eqb dn (v_dir s)); [injection H as <- <-; exact M|].
      unfold update_file_list in H. cbn [v_options] in H.
      destruct (ls dn) as [|f0 l]; [injection H as <- <-; exact M|].
      destruct (set_file content _ _) as [s1 e1] eqn:E1. apply set_file_same in E1.
      assert (s1 = s') by (destruct e1 as [[]|]; congruence). subst s1. now apply E1.
    - apply set_file_same in H. now apply H.
    - apply set_factor_same in H. destruct H as (_ & _ & _ & _ & -> & ->). exact M.
  Qed.
  Lemma factors_match_start : factors_match (fst (start ls content)).
  Proof.
    unfold start, update_file_list. cbn [v_options]. destruct (ls ".") as [|f0 l]; [reflexivity|].
    destruct (set_file content _ _) as [s1 e1] eqn:E1. apply set_file_same in E1.
    assert (K : factors_match s1) by (now apply E1). destruct e1 as [[]|]; exact K.
  Qed.

  Definition same_plots (s s' : view) : Prop := v_default s' = v_default s /\ v_columns s' = v_columns s.

  Lemma datacolumns_any s s' e : factors_match s -> In (v_factor s) (dkeys (v_data s)) -> update_datacolumns s = (s', e) ->
    (e <> None /\ s' = s) \/ (e = None /\ plotted s' (v_data s') /\ update_datacolumns s' = (s', None)).
  Proof.
    unfold factors_match, update_datacolumns, attribute. intros M Hf.
    destruct (dget String.eqb "timestep" (v_data s)) as [x|] eqn:E1; [|intros [= <- <-]; left; split; [discriminate|reflexivity]].
    destruct (dget String.eqb "temperature" (v_data s)) as [t|] eqn:E2; [|intros [= <- <-]; left; split; [discriminate|reflexivity]].
    destruct (dget String.eqb "pressure" (v_data s)) as [p|] eqn:E3; [|intros [= <- <-]; left; split; [discriminate|reflexivity]].
    destruct (dget String.eqb "potential_energy" (v_data s)) as [u|] eqn:E4; [|intros [= <- <-]; left; split; [discriminate|reflexivity]].
    destruct (dget String.eqb "kinetic_energy" (v_data s)) as [k|] eqn:E5; [|intros [= <- <-]; left; split; [discriminate|reflexivity]].
    cbn [ebind v_factor]. destruct (dget_some_in _ _ Hf) as (y & Ey). rewrite Ey. intros [= <- <-].
    right. split; [reflexivity|]. cbn [v_data v_dir v_options v_file v_factor v_factors v_default v_columns]. split.
    - unfold plotted, column. cbn [v_data v_dir v_options v_file v_factor v_factors v_default v_columns].
      rewrite E1, Ey. split; [split; [reflexivity|discriminate]|]. split.
      + intros name [<-|[<-|[<-|[<-|[]]]]]; rewrite ?E2, ?E3, ?E4, ?E5; split; try reflexivity; discriminate.
      + split; [split; [reflexivity|discriminate]|]. split; [split; [reflexivity|discriminate]|]. auto.
    - rewrite E1, E2, E3, E4, E5. cbn [ebind]. rewrite Ey. reflexivity.
  Qed.

  Lemma set_factor_any q s s' e : factors_match s -> In q (dkeys (v_data s)) -> set_factor q s = (s', e) ->
    same_plots s s' \/ (e = None /\ plotted s' (v_data s')).
  Proof.
    unfold set_factor. intros M Hq. destruct (String.eqb q (v_factor s)); [intros [= <- <-]; left; split; reflexivity|].
    intros H. apply datacolumns_any in H; [|exact M|exact Hq].
    destruct H as [[_ ->]|(-> & P & _)]; [left; split; reflexivity|right; auto].
  Qed.

  Lemma set_file_any n s s' e : set_file content n s = (s', e) ->
    same_plots s s' \/ (e = None /\ plotted s' (v_data s')).
  Proof.
    unfold set_file. destruct (String.eqb n (v_file s)); [intros [= <- <-]; left; split; reflexivity|]. unfold update_file.
    destruct (ebind _ _) as [d|ex]; [|intros [= <- _]; left; split; reflexivity].
    unfold update_factors. cbn [v_data v_dir v_options v_file v_factor v_factors v_default v_columns].
    destruct (nth_error (dkeys d) 2) as [q|] eqn:Eq; [|intros [= <- _]; left; split; reflexivity].
    assert (Iq : In q (dkeys d)) by (eapply nth_error_In, Eq).
    unfold set_factor. cbn [v_factor]. destruct (String.eqb_spec q (v_factor s)) as [Es|Ns].
    - intros H. apply datacolumns_any in H; [|reflexivity|cbn; now rewrite <- Es].
      destruct H as [[_ ->]|(-> & P & _)]; [left; split; reflexivity|right; auto].
    - destruct (update_datacolumns _) as [s1 e1] eqn:E1.
      pose proof (update_datacolumns_same _ _ _ E1) as (_ & _ & _ & B1 & B2 & B3).
      apply datacolumns_any in E1; [|reflexivity|exact Iq].
      destruct E1 as [[N ->]|(-> & P & I1)].
      + destruct e1; [|contradiction]. intros [= <- _]. left. split; reflexivity.
      + rewrite I1. intros [= <- <-]. right. auto.
  Qed.

  (** The plots are left as they are unless all of them are those of the file that was read
      last; and from any state at all a good file with another name is shown, whether it is
      selected or found in a new directory. *)
  Theorem C146_recovers_partial :
    (factors_match (fst (start ls content)) /\
     forall a s s' e, factors_match s -> offered a s -> act ls content a s = (s', e) ->
       factors_match s' /\ (same_plots s s' \/ (e = None /\ plotted s' (v_data s')))) /\
    (forall s n f, n <> v_file s -> content (v_dir s) n = inl f -> good f ->
       exists s', act ls content (SelectFile n) s = (s', None) /\ v_file s' = n /\ displays s' f) /\
    (forall s dn n l f, dn <> v_dir s -> ls dn = n :: l -> ~ In (v_file s) (ls dn) -> content dn n = inl f -> good f ->
       exists s', act ls content (SetDirectory dn) s = (s', None) /\ v_file s' = n /\ displays s' f).
  Proof.
    split; [split; [apply factors_match_start|]|split].
    - intros a s s' e M Hof H. split; [eapply factors_match_act; eauto|].
      destruct a as [dn|n|q]; cbn [act offered] in *.
      + destruct (String.eqb dn (v_dir s)); [injection H as <- <-; left; split; reflexivity|].
        unfold update_file_list in H. cbn [v_options] in H.
        destruct (ls dn) as [|f0 l]; [injection H as <- <-; left; split; reflexivity|].
        destruct (set_file content _ _) as [s1 e1] eqn:E1. apply set_file_any in E1.
        unfold same_plots in *. cbn in E1. destruct E1 as [E1|[-> P]].
        * left. assert (s1 = s') by (destruct e1 as [[]|]; congruence). now subst s1.
        * right. injection H as <- <-. auto.
      + now apply set_file_any in H.
      + apply set_factor_any in H; auto. now rewrite <- M.
    - intros s n f N Hc Hg. destruct (set_file_ok content s n f Hc Hg N) as (s1 & d & E & Er & T & C & P & D & A1 & A2 & A3 & A4).
      exists s1. split; [exact E|]. split; [exact A3|]. exists d. auto.
    - intros s dn n l f N El Ni Hc Hg. cbn [act]. destruct (String.eqb_spec dn (v_dir s)) as [?|_]; [contradiction|].
      unfold update_file_list. cbn [v_options v_file].
      assert (Nx : existsb (String.eqb (v_file s)) (ls dn) = false).
      { apply not_true_is_false. intros Ex. apply existsb_exists in Ex. destruct Ex as (m & Hm & Em).
        apply String.eqb_eq in Em. now subst m. }
      rewrite El in Nx |- *. rewrite Nx.
      match goal with |- context [set_file content n ?v] =>
        destruct (set_file_ok content v n f Hc Hg) as (s1 & d & E & Er & T & C & P & D & A1 & A2 & A3 & A4) end.
      { cbn. intros ->. apply Ni. rewrite El. now left. }
      rewrite E. exists s1. split; [reflexivity|]. split; [exact A3|]. exists d. auto.
  Qed.
  (** A file that cannot be shown is reported if it is selected, and the plots stay: the error of
      reading it, or the error of a quantity that it does not have. *)
  Lemma datacolumns_missing name s : In name ("timestep" :: four) -> dget String.eqb name (v_data s) = None ->
    update_datacolumns s = (s, Some AttributeError).
  Proof.
    intros I E. unfold update_datacolumns, attribute.
    destruct (dget String.eqb "timestep" (v_data s)) eqn:E1; [|reflexivity].
    destruct (dget String.eqb "temperature" (v_data s)) eqn:E2; [|reflexivity].
    destruct (dget String.eqb "pressure" (v_data s)) eqn:E3; [|reflexivity].
    destruct (dget String.eqb "potential_energy" (v_data s)) eqn:E4; [|reflexivity].
    destruct (dget String.eqb "kinetic_energy" (v_data s)) eqn:E5; [|reflexivity].
    cbn [In four] in I. destruct I as [<-|[<-|[<-|[<-|[<-|[]]]]]]; congruence.
  Qed.
  Theorem C146_reported_partial s n : n <> v_file s ->
    (forall e, content (v_dir s) n = inr e -> exists s', act ls content (SelectFile n) s = (s', Some e) /\ same_plots s s') /\
    (forall f, content (v_dir s) n = inl f -> rectangular f -> ~ good f ->
       exists s' e, act ls content (SelectFile n) s = (s', Some e) /\ (e = AttributeError \/ e = IndexError) /\ same_plots s s').
  Proof.
    intros Nf. cbn [act]. unfold set_file. destruct (String.eqb_spec n (v_file s)) as [|_]; [contradiction|]. unfold update_file. cbn [v_dir]. split.
    - intros e ->. cbn [ebind]. eexists. split; [reflexivity|]. split; reflexivity.
    - intros f -> R Ng. cbn [ebind]. destruct (read_ok f R) as (d & -> & T & _).
      assert (M : exists name, In name ("timestep" :: four) /\ dget String.eqb name d = None).
      { destruct T as (Q & _).
        assert (H : forall name, {dget String.eqb name d = None} + {In name (map fst d)}).
        { intros name. destruct (dget String.eqb name d) eqn:E; [right|left; auto]. clear - E. induction d as [|[k c] d IH]; cbn in *; [discriminate|]. destruct (String.eqb_spec name k); [left; congruence|right; auto]. }
        destruct (H "timestep"); [eexists; split; [left; reflexivity|auto]|].
        destruct (H "temperature"); [eexists; split; [right; left; reflexivity|auto]|].
        destruct (H "pressure"); [eexists; split; [right; right; left; reflexivity|auto]|].
        destruct (H "potential_energy"); [eexists; split; [do 3 right; left; reflexivity|auto]|].
        destruct (H "kinetic_energy"); [eexists; split; [do 4 right; left; reflexivity|auto]|].
        exfalso. apply Ng. split; [exact R|]. exists (map fst d). split; [exact Q|]. split; [auto|].
        intros name [<-|[<-|[<-|[<-|[]]]]]; auto. }
      destruct M as (name & I & E). unfold update_factors. cbn [v_data v_dir v_options v_file v_factor v_factors v_default v_columns].
      destruct (nth_error (dkeys d) 2) as [q|]; [|do 2 eexists; split; [reflexivity|]; split; [auto|split; reflexivity]].
      unfold set_factor. cbn [v_factor v_dir v_options v_file v_data v_factors v_default v_columns]. destruct (String.eqb q (v_factor s));
        rewrite (datacolumns_missing name) by (cbn; auto); do 2 eexists; (split; [reflexivity|]); (split; [auto|split; reflexivity]).
  Qed.
End Dashboard.
Print Assumptions C143_selected_partial.
Print Assumptions C143_distinct_names_partial.
Print Assumptions C143_name_partial.
Print Assumptions C144_quantity_partial.
Print Assumptions C145_plots_partial.
Print Assumptions C146_recovers_partial.
Print Assumptions C146_reported_partial.

(** ** Files for the examples: [n] windows of one row each *)
Definition table (n : nat) (third : string) : tfile :=
  [("timestep", Ints (map (fun k => 200000 * Z.of_nat k)%Z (seq 0 n))); ("N", Ints (repeat 5%Z n));
   (third, Floats (repeat (Some 1%R) n)); ("temperature", Floats (repeat (Some 1%R) n));
   ("pressure", Floats (repeat None n)); ("potential_energy", Floats (repeat None n));
   ("kinetic_energy", Floats (repeat None n))].
Lemma table_good n third : n <> 0 -> third = "volume" \/ third = "momentum" -> good (table n third).
Proof.
  intros Hn Ht.
  assert (Q : quantities (table n third) (map fst (table n third))).
  { unfold table. repeat first [apply (qs_yes (_, _)); [constructor; destruct Ht as [->| ->]; discriminate|]|apply qs_nil]. }
  split.
  - split.
    + destruct Ht as [->| ->]; repeat constructor; cbn; intuition discriminate.
    + eexists. split; [now left|]. split.
      * destruct n; [contradiction|discriminate].
      * rewrite map_length, seq_length. unfold table. intros name c H. cbn [In] in H.
        repeat (destruct H as [[= <- <-]|H]; [cbn; rewrite ?map_length, ?seq_length, ?repeat_length; reflexivity|]).
        destruct H.
  - exists (map fst (table n third)). split; [exact Q|]. split; [now left|].
    intros name [<-|[<-|[<-|[<-|[]]]]]; cbn; tauto.
Qed.

(** What is plotted against tells two files apart. *)
Lemma not_displayed s f d : rectangular f -> read_file f = inl d ->
  option_map (@length cell) (dget String.eqb "x" (v_default s)) <> option_map (@length cell) (dget String.eqb "timestep" d) ->
  ~ displays s f.
Proof.
  intros Hr E N (d' & T & ((P & _) & _)).
  destruct (read_ok f Hr) as (d0 & E0 & T0 & _). assert (d0 = d) by congruence. subst d0.
  rewrite (table_fun f d' d Hr T T0) in P. congruence.
Qed.

(** Two directories, each with a file of the same name *)
Definition ls2 (d : string) : list string :=
  if String.eqb d "." then ["thermo-a"; "thermo-b"] else if String.eqb d "run2" then ["thermo-a"] else [].
Definition content2 (d n : string) : tfile + exn :=
  if String.eqb d "." then inl (if String.eqb n "thermo-a" then table 1 "volume" else table 2 "momentum")
  else inl (table 3 "volume").
Lemma all_good2 : all_good ls2 content2.
Proof.
  intros d n. unfold ls2, content2. destruct (String.eqb d "."); [|destruct (String.eqb d "run2"); [|intros []]].
  - intros [<-|[<-|[]]]; (split; [discriminate|]); eexists; (split; [reflexivity|]); apply table_good; auto; discriminate.
  - intros [<-|[]]; (split; [discriminate|]); eexists; (split; [reflexivity|]); apply table_good; auto; discriminate.
Qed.
(** The second of a pair is enough. *)
Lemma fst_and {A B} (p : A * B) b : snd p = b -> p = (fst p, b).
Proof. destruct p; cbn; congruence. Qed.
Definition s_start : view := fst (start ls2 content2).
Definition after (a : action) (s : view) : view := fst (act ls2 content2 a s).
Lemma start2 : start ls2 content2 = (s_start, None).
Proof. unfold s_start. apply fst_and. vm_compute. reflexivity. Qed.
Lemma act_after a s : snd (act ls2 content2 a s) = None -> act ls2 content2 a s = (after a s, None).
Proof. intros H. unfold after. now apply fst_and. Qed.

(** The shown file is not the one that the widgets name. *)
Theorem C143_selected_refuted : exists ls content s0 acts trace s f,
  all_good ls content /\ ls "." <> [] /\ start ls content = (s0, None) /\ run ls content s0 acts trace /\ final trace s /\
  In (v_file s) (ls (v_dir s)) /\ content (v_dir s) (v_file s) = inl f /\ good f /\ ~ displays s f.
Proof.
  exists ls2, content2, s_start, [SetDirectory "run2"], [s_start; after (SetDirectory "run2") s_start],
    (after (SetDirectory "run2") s_start), (table 3 "volume").
  split; [apply all_good2|]. split; [discriminate|]. split; [exact start2|].
  split; [|split; [exists [s_start]; exact eq_refl|]].
  - apply (run_cons ls2 content2 s_start (SetDirectory "run2") (after (SetDirectory "run2") s_start) None []).
    + exact Logic.I.
    + apply act_after. vm_compute. reflexivity.
    + constructor.
  - split; [vm_compute; auto|]. split; [vm_compute; reflexivity|].
    assert (G : good (table 3 "volume")) by (apply table_good; auto).
    split; [exact G|]. apply (not_displayed _ _ _ (proj1 G) eq_refl). vm_compute. discriminate.
Qed.
Print Assumptions C143_selected_refuted.

(** Another file that has the chosen quantity *)
Theorem C144_quantity_refuted : exists ls content s0 q n s1 s2,
  all_good ls content /\ start ls content = (s0, None) /\
  offered (SelectFactor q) s0 /\ act ls content (SelectFactor q) s0 = (s1, None) /\ v_factor s1 = q /\
  offered (SelectFile n) s1 /\ act ls content (SelectFile n) s1 = (s2, None) /\ In q (v_factors s2) /\ v_factor s2 <> q.
Proof.
  exists ls2, content2, s_start, "temperature", "thermo-b", (after (SelectFactor "temperature") s_start),
    (after (SelectFile "thermo-b") (after (SelectFactor "temperature") s_start)).
  split; [exact all_good2|]. split; [exact start2|]. split; [vm_compute; tauto|].
  split; [apply act_after; vm_compute; reflexivity|]. split; [vm_compute; reflexivity|]. split; [vm_compute; tauto|].
  split; [apply act_after; vm_compute; reflexivity|]. split; [vm_compute; tauto|]. vm_compute. discriminate.
Qed.
Print Assumptions C144_quantity_refuted.

(** Started in a directory without files, the first tab never has a plot. *)
Theorem C145_plots_refuted : exists ls content s0 dn s f,
  all_good ls content /\ start ls content = (s0, None) /\ act ls content (SetDirectory dn) s0 = (s, None) /\
  content (v_dir s) (v_file s) = inl f /\ displays s f /\ plots s0 = [].
Proof.
  set (ls := fun d => if String.eqb d "run2" then ["thermo-a"] else []).
  set (content := fun _ _ : string => inl (table 3 "volume") : tfile + exn).
  assert (G : good (table 3 "volume")) by (apply table_good; auto).
  exists ls, content, blank, "run2".
  destruct (proj2 (proj2 (C146_recovers_partial ls content)) blank "run2" "thermo-a" [] (table 3 "volume"))
    as (s & E & F & D); auto; [discriminate| |].
  - intros [H|[]]. discriminate.
  - exists s, (table 3 "volume"). split.
    + intros d n H. unfold ls in H. destruct (String.eqb d "run2"); [|destruct H].
      destruct H as [<-|[]]. split; [discriminate|]. eexists. split; [reflexivity|exact G].
    + split; [reflexivity|]. split; [exact E|]. split; [reflexivity|]. split; [exact D|reflexivity].
Qed.
Print Assumptions C145_plots_refuted.

(** A file without one of the quantities, and one with too few columns: the name is selected
    while the plots are those of the file before; the second without any message *)
Definition short : tfile := [("timestep", Ints [0]%Z); ("temperature", Floats [Some 2%R])].
Definition partly : tfile := [("timestep", Ints [0; 200000]%Z); ("N", Ints [5; 5]%Z); ("temperature", Floats [Some 2%R; Some 3%R])].
Definition ls3 (d : string) : list string :=
  if String.eqb d "." then ["thermo-a"; "thermo-b"] else if String.eqb d "run2" then ["thermo-c"] else [].
Definition content3 (d n : string) : tfile + exn :=
  if String.eqb d "." then inl (if String.eqb n "thermo-a" then table 1 "volume" else partly) else inl short.
Definition s_start3 : view := fst (start ls3 content3).
Lemma start3 : start ls3 content3 = (s_start3, None).
Proof. unfold s_start3. apply fst_and. vm_compute. reflexivity. Qed.
Theorem C146_unchanged_refuted : exists ls content s0,
  start ls content = (s0, None) /\ plots s0 = four /\
  (exists n s e, offered (SelectFile n) s0 /\ act ls content (SelectFile n) s0 = (s, Some e) /\
     v_file s = n /\ v_file s <> v_file s0 /\ v_factors s <> v_factors s0 /\ same_plots s0 s /\ v_default s0 <> []) /\
  (exists dn s, act ls content (SetDirectory dn) s0 = (s, None) /\
     In (v_file s) (ls dn) /\ v_file s <> v_file s0 /\ v_factors s <> v_factors s0 /\ same_plots s0 s).
Proof.
  exists ls3, content3, s_start3. split; [exact start3|]. split; [vm_compute; reflexivity|]. split.
  - exists "thermo-b", (fst (act ls3 content3 (SelectFile "thermo-b") s_start3)), AttributeError.
    split; [vm_compute; tauto|].
    split; [apply (fst_and (act ls3 content3 (SelectFile "thermo-b") s_start3)); vm_compute; reflexivity|].
    split; [vm_compute; reflexivity|]. split; [vm_compute; discriminate|]. split; [vm_compute; discriminate|].
    split; [split; vm_compute; reflexivity|]. vm_compute. discriminate.
  - exists "run2", (fst (act ls3 content3 (SetDirectory "run2") s_start3)).
    split; [apply (fst_and (act ls3 content3 (SetDirectory "run2") s_start3)); vm_compute; reflexivity|].
    split; [vm_compute; now left|]. split; [vm_compute; discriminate|].
    split; [vm_compute; discriminate|]. split; vm_compute; reflexivity.
Qed.
Print Assumptions C146_unchanged_refuted.
Example C146_ex_reported : content3 "." "thermo-b" = inl partly /\ rectangular partly /\ ~ good partly.
Proof.
  split; [reflexivity|]. split.
  - split; [repeat constructor; cbn; intuition discriminate|]. exists [0; 200000]%Z. split; [now left|]. split; [discriminate|].
    intros name c [[= <- <-]|[[= <- <-]|[[= <- <-]|[]]]]; reflexivity.
  - intros (_ & names & Q & _ & I). specialize (I "pressure" (or_intror (or_introl eq_refl))).
    apply (quantities_in _ _ Q) in I. destruct I as (c & [[=]|[[=]|[[=]|[]]]] & _).
Qed.

(** ** Examples of the hypotheses *)
Example ex_C143 : exists trace s, run ls2 content2 s_start [SelectFactor "pressure"; SelectFile "thermo-b"; SetDirectory "run2"] trace /\
  final trace s /\ v_file s = "thermo-a" /\ v_dir s = "run2" /\ displays s (table 3 "volume").
Proof.
  set (s1 := after (SelectFactor "pressure") s_start). set (s2 := after (SelectFile "thermo-b") s1).
  set (s3 := after (SetDirectory "run2") s2).
  exists [s_start; s1; s2; s3], s3. split; [|split; [exists [s_start; s1; s2]; exact eq_refl|]].
  - apply (run_cons _ _ _ _ s1 None); [vm_compute; tauto|apply act_after; vm_compute; reflexivity|].
    apply (run_cons _ _ _ _ s2 None); [vm_compute; tauto|apply act_after; vm_compute; reflexivity|].
    apply (run_cons _ _ _ _ s3 None); [exact Logic.I|apply act_after; vm_compute; reflexivity|constructor].
  - split; [vm_compute; reflexivity|]. split; [vm_compute; reflexivity|].
    assert (G : good (table 3 "volume")) by (apply table_good; auto).
    assert (N : "run2" <> v_dir s2) by (vm_compute; discriminate).
    assert (Ni : ~ In (v_file s2) (ls2 "run2")) by (vm_compute; intros [H|[]]; discriminate).
    destruct (proj2 (proj2 (C146_recovers_partial ls2 content2)) s2 "run2" "thermo-a" [] (table 3 "volume")
                N eq_refl Ni eq_refl G) as (s & E & F & D).
    assert (Es : s3 = s) by (unfold s3, after; rewrite E; exact eq_refl).
    rewrite Es. exact D.
Qed.
(** Names that say the directory *)
Definition ls4 (d : string) : list string :=
  if String.eqb d "." then ["thermo-1"] else if String.eqb d "run2" then ["thermo-2"] else [].
Example ex_C143_distinct : (forall d d' n, In n (ls4 d) -> In n (ls4 d') -> d = d') /\ ls4 "run2" <> [].
Proof.
  split; [|discriminate]. intros d d' n. unfold ls4.
  destruct (String.eqb_spec d "."), (String.eqb_spec d' "."), (String.eqb_spec d "run2"), (String.eqb_spec d' "run2");
  subst; cbn; intuition congruence.
Qed.
