(** The frames of a gsd file that reach the analysis. *)
From Coq Require Import String Reals ZArith List Bool Lia Arith Sorted.
From Verif Require Import Base XNum RVec FrameModel FrameSpec FrameProps RunModel MotionModel StepSizeModel StepSizeSpec
  StepSeriesProofs StepSeriesRun GsdModel GsdSpec GsdProofs GsdReaders EndModel EndGsdModel EndGsdSpec ProcessSpec.
Import ListNotations.
Open Scope Z_scope.
Notation length := List.length.

(** ** picks *)
Section Picks.
  Context {A : Type}.
  Lemma picks_fun (P : A -> Prop) l m1 m2 : picks P l m1 -> picks P l m2 -> m1 = m2.
  Proof.
    intros H. revert m2. induction H; intros m2 H2; inversion H2; subst; try tauto; auto. f_equal; auto.
  Qed.
  Lemma picks_In (P : A -> Prop) l m x : picks P l m -> (In x m <-> In x l /\ P x).
  Proof.
    induction 1; cbn [In]; [tauto| |].
    - rewrite IHpicks. intuition (subst; auto).
    - rewrite IHpicks. intuition (subst; auto). tauto.
  Qed.
  Lemma picks_iff (P Q : A -> Prop) l m : (forall x, In x l -> (P x <-> Q x)) -> picks P l m -> picks Q l m.
  Proof.
    intros H1 H. induction H; [constructor| |].
    - apply picks_yes; [apply H1; cbn; auto|apply IHpicks; intros; apply H1; cbn; auto].
    - apply picks_no; [rewrite <- H1; cbn; auto|apply IHpicks; intros; apply H1; cbn; auto].
  Qed.
  Lemma picks_none (P : A -> Prop) l : (forall x, In x l -> ~ P x) -> picks P l [].
  Proof. induction l as [|x l IH]; intros H; [constructor|]. apply picks_no; [apply H; cbn; auto|apply IH; intros; apply H; cbn; auto]. Qed.
  Lemma picks_sublist (P : A -> Prop) l1 l2 m : sublist l1 l2 -> NoDup l2 ->
    (forall x, In x l2 -> P x -> In x l1) -> picks P l1 m -> picks P l2 m.
  Proof.
    intros S. revert m. induction S as [l|x l1 l2 S IH|x l1 l2 S IH]; intros m ND C H.
    - inversion H; subst. apply picks_none. intros x I Hx. destruct (C x I Hx).
    - inversion ND as [|? ? N1 N2]; subst.
      assert (C' : forall y, In y l2 -> P y -> In y l1).
      { intros y I Hy. destruct (C y (or_intror I) Hy) as [->|J]; [tauto|auto]. }
      inversion H; subst; [apply picks_yes|apply picks_no]; auto.
    - inversion ND as [|? ? N1 N2]; subst. apply picks_no.
      + intros Hx. apply N1. eapply sublist_In; eauto. apply C; cbn; auto.
      + apply IH; auto. intros y I Hy. apply C; cbn; auto.
  Qed.
  Lemma picks_len (P : A -> Prop) (dec : A -> bool) l m : (forall x, dec x = true <-> P x) -> picks P l m -> m = filter dec l.
  Proof.
    intros D. induction 1; cbn; auto.
    - rewrite (proj2 (D x) H). f_equal. auto.
    - destruct (dec x) eqn:E; auto. apply D in E. tauto.
  Qed.
  Lemma picks_filter (P : A -> Prop) (dec : A -> bool) l : (forall x, dec x = true <-> P x) -> picks P l (filter dec l).
  Proof.
    intros D. induction l as [|x l IH]; cbn; [constructor|]. destruct (dec x) eqn:E.
    - apply picks_yes; auto. apply D; auto.
    - apply picks_no; auto. rewrite <- D, E. discriminate.
  Qed.
End Picks.
Lemma picks_map {A B} (g : A -> B) (P : B -> Prop) l m : picks (fun x => P (g x)) l m -> picks P (map g l) (map g m).
Proof. induction 1; cbn; [constructor|apply picks_yes|apply picks_no]; auto. Qed.

Lemma filter_once j l : NoDup l -> In j l -> filter (Nat.eqb j) l = [j].
Proof.
  induction 1 as [|x l N1 N2 IH]; intros I; [destruct I|]. cbn. destruct (Nat.eqb_spec j x) as [->|Ne].
  - f_equal. clear - N1. induction l as [|y l IH]; cbn; auto. destruct (Nat.eqb_spec x y) as [->|]; [cbn in N1; tauto|]. apply IH. cbn in N1; tauto.
  - apply IH. destruct I as [->|I]; [congruence|auto].
Qed.
Lemma filter_never j l : ~ In j l -> filter (Nat.eqb j) l = [].
Proof.
  induction l as [|x l IH]; intros N; cbn; auto. destruct (Nat.eqb_spec j x) as [->|]; [cbn in N; tauto|]. apply IH. cbn in N; tauto.
Qed.
(** The frames of a key frame are those with its number. *)
Lemma frames_picks {F} (npos : F -> nat) (P : F -> Prop) j (l : list (list nat * F)) :
  (forall idx f, In (idx, f) l -> NoDup idx /\ npos f <> 0%nat /\ (In j idx <-> P f)) ->
  picks P (map snd l) (frames_of npos j l).
Proof.
  induction l as [|[idx f] l IH]; intros H; [constructor|].
  destruct (H idx f (or_introl eq_refl)) as (N & Z0 & E). unfold frames_of. cbn [flat_map map fst snd].
  fold (frames_of npos j l). destruct (Nat.eqb_spec (npos f) 0) as [|_]; [contradiction|].
  assert (IH' := IH (fun i g I => H i g (or_intror I))).
  destruct (in_dec Nat.eq_dec j idx) as [I|I].
  - rewrite filter_once by auto. cbn. apply picks_yes; auto. apply E; auto.
  - rewrite filter_never by auto. cbn. apply picks_no; auto. rewrite <- E. auto.
Qed.

(** ** Snapshots *)
Section File.
  Variables (N : nat) (file : list (snapshot R + exn)).
  Hypothesis Hval : forall s, In (inl s) file -> gsd_snapshot N s.
  Hypothesis Herr : forall e, In (inr e) file -> e = RuntimeError.
  Definition held (s : snapshot R) : hoomd_frame R := {| h_frame := s; h_num := Z.of_nat N |}.
  Definition packed (s : snapshot R) : frame (hoomd_frame R) := (s_step s, held s).

  Lemma molecules_fun n b m1 m2 : molecules n b m1 -> molecules n b m2 -> m1 = m2.
  Proof.
    assert (L : forall m m' b, largest m b -> largest m' b -> m = m').
    { intros m m' b' [A1 A2] [B1 B2]. specialize (A2 _ B1). specialize (B2 _ A1). lia. }
    intros H1 H2. inversion H1; subst; inversion H2; subst; auto; try solve [f_equal; eauto];
      repeat match goal with H : largest _ [] |- _ => destruct H as [[] _] end;
      match goal with H : largest ?a ?b, H' : largest ?c ?b |- _ => assert (a = c) by eauto; subst; tauto end.
  Qed.
  Lemma good_frame s : gsd_snapshot N s -> HoomdFrame s = inl (held s).
  Proof.
    intros (_ & H0 & M & B & p & o & Ep & Eo & Lp & Lo).
    destruct (C51_number_of_molecules s p H0 Ep B) as (n & M' & _ & _ & H).
    assert (n = Z.of_nat N) by (eapply molecules_fun; eauto). subst n.
    assert (Z.of_nat N <= s_N s) by (inversion M; subst; lia).
    destruct H as (f & E & E1 & E2); [lia|]. rewrite E. f_equal.
    unfold HoomdFrame in E. destruct (get_num_bodies s) as [n|] eqn:En; [|discriminate]. cbn in E. injection E as <-.
    unfold h_num_mols in E2. cbn in E2. subst n. reflexivity.
  Qed.
  Lemma good_eframe s : gsd_snapshot N s -> eframe_of (held s) = molecules_of N s /\ length (e_pos (eframe_of (held s))) = N.
  Proof.
    intros (Eb & H0 & M & B & p & o & Ep & Eo & Lp & Lo).
    assert (Z.of_nat N <= s_N s) by (inversion M; subst; lia).
    unfold eframe_of, molecules_of, h_position, h_orientation, h_timestep, h_box, held. cbn. rewrite Eb, Ep, Eo.
    unfold slice_to. destruct (Z.ltb_spec (Z.of_nat N) 0); [lia|]. rewrite Nat2Z.id. cbn. split.
    - f_equal; [|f_equal]; apply map_ext.
      + intros [[x y] z]; reflexivity.
      + intros [[[w x] y] z]; reflexivity.
    - rewrite map_length, firstn_length. lia.
  Qed.

  Lemma not_fatal : forall r, In r (map raw_of file) -> ~ fatal r.
  Proof.
    intros r I (e & F & Ne). apply in_map_iff in I. destruct I as ([s|e'] & <- & I); cbn in F.
    - rewrite (good_frame s) in F by auto. inversion F.
    - rewrite (Herr e' I) in F. inversion F. subst. congruence.
  Qed.
  Lemma file_readables : readables (map raw_of file) = map packed (snapshots file).
  Proof.
    assert (H : forall x, In x file -> readable (raw_of x) = map packed (match x with inl s => [s] | inr _ => [] end)).
    { intros [s|e] I; cbn.
      - rewrite (good_frame s) by auto. reflexivity.
      - rewrite (Herr e I). reflexivity. }
    clear Hval Herr. unfold readables, snapshots. induction file as [|x l IH]; auto. cbn [map flat_map].
    rewrite map_app, IH by (intros; apply H; cbn; auto). f_equal. apply H. cbn; auto.
  Qed.
  Lemma snapshots_In s : In s (snapshots file) -> gsd_snapshot N s.
  Proof.
    intros I. apply in_flat_map in I. destruct I as ([s'|e] & I & J); [destruct J as [->|[]]; auto|destruct J].
  Qed.
  Lemma frames_In f : In f (map packed (snapshots file)) ->
    exists s, In s (snapshots file) /\ f = packed s /\ eframe_of (snd f) = molecules_of N s /\ length (e_pos (eframe_of (snd f))) = N.
  Proof.
    intros I. apply in_map_iff in I. destruct I as (s & <- & I). exists s. split; auto. split; auto. apply good_eframe. apply snapshots_In; auto.
  Qed.
  Definition frames : list eframe := map (molecules_of N) (snapshots file).
  Lemma frames_eq : frames = map (fun f => eframe_of (snd f)) (map packed (snapshots file)).
  Proof.
    unfold frames. rewrite map_map. apply map_ext_in. intros s I. symmetry. apply good_eframe. apply snapshots_In; auto.
  Qed.
  Lemma ts_eq s : e_ts (molecules_of N s) = s_step s.
  Proof. reflexivity. Qed.

  Hypothesis Hinc : increasing (map s_step (snapshots file)).
  Lemma file_rising : rising (map packed (snapshots file)).
  Proof.
    unfold increasing in Hinc. induction (snapshots file) as [|s l IH]; cbn; auto. cbn in Hinc. inversion Hinc as [|? ? H1 H2]; subst.
    split; [|apply IH; auto]. intros g I. apply in_map_iff in I. destruct I as (s' & <- & I). rewrite Forall_forall in H2. apply (H2 (s_step s')). apply in_map; auto.
  Qed.
  Lemma file_NoDup : NoDup (map packed (snapshots file)).
  Proof.
    generalize file_rising. clear. induction (map packed (snapshots file)) as [|f l IH]; intros H; constructor.
    - intros I. destruct H as [H _]. specialize (H f I). lia.
    - apply IH. apply H.
  Qed.

  (** *** The exponential reader *)
  Hypothesis HN : (0 < N)%nat.
  Lemma exp_l_ending : forall k steps (fs : list (frame (hoomd_frame R))), ending (exp_l k steps fs None) = None.
  Proof.
    induction k as [|k IH]; intros steps fs; [reflexivity|]. cbn [exp_l]. destruct fs as [|f fs]; [reflexivity|]. destruct steps as [|[c i] steps]; [reflexivity|].
    destruct (c >? timestep f).
    - destruct (skip_frames c f fs) as [[f' r]|]; [|reflexivity]. destruct (c =? timestep f'); cbn [cons_item ending]; apply IH.
    - destruct (drop_steps (timestep f) ((c, i) :: steps)) as [|[c' i'] st]; [reflexivity|]. destruct (c' =? timestep f); cbn [cons_item ending]; apply IH.
  Qed.

  Variables (smax : option Z) (total n G M : Z).
  Hypothesis Htot : number_of_steps smax file total.
  Hypotheses (H0 : 0 <= total) (Hn : 1 <= n) (HG : 0 < G) (HM : 1 <= M) (Hgrid : grid 0 n 1 10 G).
  Lemma total_steps : match smax with Some m => inl m | None => get_num_steps (map raw_of file) end = inl total.
  Proof.
    destruct Htot as [->|(-> & a & s & b & -> & <- & L & B)]; auto.
    rewrite map_app. cbn [map raw_of]. apply num_steps_good.
    - intros r I. apply in_map_iff in I. destruct I as (x & <- & I). rewrite (B x I). left. reflexivity.
    - rewrite map_length. auto.
  Qed.
  Lemma key_index out : series_ok total n G M out -> forall c idx, In (c, idx) out ->
    NoDup idx /\ forall j, In j idx <-> on_key total n G M j c.
  Proof.
    intros S c idx I. destruct (so_index _ _ _ _ _ S c idx I) as (ND & _ & E). split; auto.
    intros j. rewrite E, (even_starts total n G M out Hn H0 HG HM Hgrid S). unfold on_key.
    split.
    - intros (st & Hst & On). assert (L : (j < length (map (fun m => (Z.of_nat m * G)%Z) (seq 0 (Z.to_nat (Z.min M (total / G + 1))))))%nat).
      { apply nth_error_Some. congruence. }
      rewrite map_length, seq_length in L. rewrite nth_error_map, (nth_error_nth' _ 0%nat) in Hst by (rewrite seq_length; auto).
      rewrite seq_nth in Hst by auto. cbn in Hst. injection Hst as <-.
      assert (Z.of_nat j < M /\ Z.of_nat j <= total / G) as [A B] by lia.
      split; auto. split; auto. assert (D := Z.mul_div_le total G HG). nia.
    - intros (A & B & On). exists (Z.of_nat j * G). split; auto.
      assert (Z.of_nat j <= total / G) by (apply Z.div_le_lower_bound; lia).
      rewrite nth_error_map, (nth_error_nth' _ 0%nat) by (rewrite seq_length; lia). rewrite seq_nth by lia. reflexivity.
  Qed.
  Lemma key_steps out : series_ok total n G M out -> forall x, In x (map fst out) <-> exists j, on_key total n G M j x.
  Proof.
    intros S x. split.
    - intros I. apply in_map_iff in I. destruct I as ([c idx] & <- & I). cbn.
      destruct (so_index _ _ _ _ _ S c idx I) as (_ & Ne & _). destruct (key_index out S c idx I) as [_ E].
      destruct idx as [|j idx]; [congruence|]. exists j. apply E. cbn; auto.
    - intros (j & A & B & On). apply (so_complete _ _ _ _ _ S (Z.of_nat j * G)); auto.
      rewrite (even_starts total n G M out Hn H0 HG HM Hgrid S). apply in_map_iff. exists j. split; auto. apply in_seq.
      assert (Z.of_nat j <= total / G) by (apply Z.div_le_lower_bound; lia). lia.
  Qed.

  Lemma exp_reader : steps_agree total n G M frames ->
    exists fuel0 k0, forall fuel k, (fuel0 <= fuel)%nat -> (k0 <= k)%nat ->
    exists l, gsd_reader fuel k smax (Some n) G M file = Ok (l, None) /\
      forall j, picks (fun f => on_key total n G M j (e_ts f)) frames (frames_of (fun f => length (e_pos f)) j l).
  Proof.
    intros Ag. destruct (exponential_l smax G M n (map raw_of file) total total_steps H0 Hn ltac:(lia)) as (f0 & k0 & H).
    exists f0, k0. intros fuel k Hf Hk. destruct (H fuel k Hf Hk) as (out & S & L & E). clear H.
    rewrite (iter_ok _ not_fatal) in L, E. cbn [items ending] in L, E. rewrite file_readables in L, E.
    set (fs := map packed (snapshots file)) in *.
    unfold gsd_reader, read_gsd_trajectory. rewrite E, exp_l_ending.
    eexists. split; [reflexivity|]. intros j.
    destruct (exp_l_sound None k out fs) as [S1 S2].
    set (its := items (exp_l k out fs None)) in *.
    assert (Cov : forall f, In f fs -> on_key total n G M j (timestep f) -> In f (map snd its)).
    { intros f I On. assert (St : In (timestep f) (map fst out)) by (apply key_steps; eauto).
      destruct Ag as [Ag|Ag].
      - unfold its. rewrite exp_l_all_frames; auto using file_rising.
        + apply (so_increasing _ _ _ _ _ S).
        + intros g Ig. apply key_steps; auto. destruct (frames_In g Ig) as (s & Is & -> & _).
          apply (Ag (molecules_of N s)). apply in_map; auto.
      - unfold its. apply exp_l_all_steps; auto using file_rising.
        + apply (so_increasing _ _ _ _ _ S).
        + intros x g Ix Ig Le. apply key_steps in Ix; auto. destruct Ix as (i & Oi). destruct (frames_In g Ig) as (s & Is & -> & _).
          destruct (Ag i x (molecules_of N s) Oi) as (f' & If' & <-); [apply in_map; auto|auto|].
          apply in_map_iff in If'. destruct If' as (s' & <- & Is'). exists (packed s'). split; [apply in_map; auto|reflexivity]. }
    assert (Pk : picks (fun f => on_key total n G M j (timestep f)) fs (frames_of (fun f => length (e_pos (eframe_of (snd f)))) j its)).
    { apply (picks_sublist _ (map snd its)); auto using file_NoDup.
      apply frames_picks. intros idx f I. destruct (key_index out S _ _ (S2 idx f I)) as [ND Ej]. split; auto. split; auto.
      assert (If : In f fs) by (eapply sublist_In; [exact S1|apply (in_map snd) in I; exact I]).
      destruct (frames_In f If) as (s & _ & _ & _ & Ls). rewrite Ls. lia. }
    rewrite frames_eq.
    assert (Ef : frames_of (fun f => length (e_pos f)) j (map (fun p => (fst p, eframe_of (snd (snd p)))) its) =
                 map (fun f => eframe_of (snd f)) (frames_of (fun f => length (e_pos (eframe_of (snd f)))) j its)).
    { unfold frames_of. clear. induction its as [|[idx f] l IH]; auto. cbn [map flat_map fst snd]. rewrite map_app, IH. f_equal.
      destruct (_ =? 0)%nat; auto. rewrite map_map. reflexivity. }
    rewrite Ef. apply picks_map. eapply picks_iff; [|exact Pk]. intros f I. cbn beta. destruct (frames_In f I) as (s & _ & -> & E1 & _). rewrite E1. tauto.
  Qed.

  (** The first frame of a key frame that starts in the file *)
  Lemma first_on_key j f0 rest g : picks (fun f => on_key total n G M j (e_ts f)) frames (f0 :: rest) ->
    In g frames -> e_ts g = Z.of_nat j * G -> Z.of_nat j < M -> Z.of_nat j * G <= total -> e_ts f0 = Z.of_nat j * G.
  Proof.
    intros Pk Ig Eg Lj Lt.
    assert (Og : on_key total n G M j (e_ts g)).
    { split; auto. split; auto. rewrite Eg. destruct (Z.eq_dec (Z.of_nat j * G) total); [left; auto|]. right. split; [lia|].
      exists 0, 0. split; [lia|]. split; [lia|]. lia. }
    assert (I : In g (f0 :: rest)) by (apply (picks_In _ _ _ _ Pk); auto).
    assert (O0 : In f0 frames /\ on_key total n G M j (e_ts f0)) by (apply (picks_In _ _ _ _ Pk); cbn; auto).
    destruct O0 as (I0 & _ & _ & O0).
    assert (Le : Z.of_nat j * G <= e_ts f0).
    { destruct O0 as [->|(_ & i & k & Hi & Hk & ->)]; auto. assert (0 < 10 ^ k) by (apply Z.pow_pos_nonneg; lia). nia. }
    assert (Ge : e_ts f0 <= e_ts g); [|lia].
    destruct I as [->|I]; [lia|].
    assert (Inc : increasing (map e_ts frames)).
    { unfold frames. rewrite map_map. exact Hinc. }
    assert (Sub : forall (P : eframe -> Prop) l m, picks P l m -> increasing (map e_ts l) -> increasing (map e_ts m)).
    { clear. unfold increasing. intros P l m H. induction H; intros S; auto.
      - cbn in *. inversion S as [|? ? S1 S2]; subst. constructor; auto. rewrite Forall_forall in *. intros y Iy.
        apply in_map_iff in Iy. destruct Iy as (z & <- & Iz). apply S2. apply in_map. apply (picks_In _ _ _ z H0) in Iz. apply Iz.
      - cbn in *. inversion S; subst; auto. }
    specialize (Sub _ _ _ Pk Inc). cbn in Sub. inversion Sub as [|? ? _ F]; subst. rewrite Forall_forall in F.
    specialize (F (e_ts g) (in_map e_ts _ _ I)). lia.
  Qed.
End File.

(** ** The linear reader *)
Section Linear.
  Variables (N : nat) (file : list (snapshot R + exn)).
  Hypothesis HN : (0 < N)%nat.
  Hypothesis Hval : forall s, In (inl s) file -> gsd_snapshot N s.
  Hypothesis Herr : forall e, In (inr e) file -> e = RuntimeError.
  Variables (smax : option Z) (G M : Z).
  Hypotheses (HG : G <> 0) (HM : 0 <= M).

  Lemma multiple_b x : (x mod G =? 0) = true <-> (G | x).
  Proof. rewrite Z.eqb_eq. split; intros; [apply Z.mod_divide; auto|apply Z.mod_divide in H; auto]. Qed.

  Definition nmult (l : list eframe) : nat := length (filter (fun f => e_ts f mod G =? 0) l).
  Lemma nmult_app a b : nmult (a ++ b) = (nmult a + nmult b)%nat.
  Proof. unfold nmult. rewrite filter_app, app_length. reflexivity. Qed.

  (** The frames of key frame [j] when frame [i] has the indices below [c i] *)
  Lemma frames_from (j : nat) : forall (l : list (list nat * eframe)) a,
    (forall idx f, In (idx, f) l -> length (e_pos f) <> 0%nat) ->
    (forall i idx f, nth_error l i = Some (idx, f) ->
       idx = seq 0 (Nat.min (Z.to_nat (M + 1)) (nmult (a ++ firstn (S i) (map snd l))))) ->
    let fs := frames_of (fun f => length (e_pos f)) j l in
    (fs = [] \/ Z.of_nat j <= M) /\
    (Z.of_nat j <= M -> (j < nmult a)%nat -> fs = map snd l) /\
    (Z.of_nat j <= M -> (nmult a <= j)%nat ->
       (forall b f c, map snd l = b ++ f :: c -> (G | e_ts f) -> nmult (a ++ b) = j -> fs = f :: c) /\
       (fs <> [] -> exists b f c, map snd l = b ++ f :: c /\ fs = f :: c /\ (G | e_ts f) /\ nmult (a ++ b) = j)).
  Proof.
    induction l as [|[idx f] l IH]; intros a Hp Hi fs.
    - subst fs. cbn. split; auto. split; [auto|]. intros. split; [|tauto]. intros b g c E. destruct b; discriminate.
    - assert (Hidx := Hi 0%nat idx f eq_refl). cbn [map firstn snd] in Hidx.
      destruct (IH (a ++ [f])) as (I1 & I2 & I3).
      { intros idx' g I. apply (Hp idx' g). cbn; auto. }
      { intros i idx' g E. rewrite <- app_assoc. apply (Hi (S i) idx' g E). }
      set (fs' := frames_of (fun f => length (e_pos f)) j l) in *.
      assert (Efs : fs = (if in_dec Nat.eq_dec j idx then [f] else []) ++ fs').
      { unfold fs, frames_of. cbn [flat_map fst snd]. fold (frames_of (fun f => length (e_pos f)) j l). fold fs'. f_equal.
        destruct (Nat.eqb_spec (length (e_pos f)) 0) as [Z0|_]; [destruct (Hp idx f (or_introl eq_refl) Z0)|].
        destruct (in_dec Nat.eq_dec j idx) as [I|I].
        - rewrite filter_once; auto. rewrite Hidx. apply seq_NoDup.
        - rewrite filter_never; auto. }
      assert (Ij : In j idx <-> Z.of_nat j <= M /\ (j < nmult (a ++ [f]))%nat) by (rewrite Hidx, in_seq; lia).
      split; [|split].
      + destruct (Z_le_gt_dec (Z.of_nat j) M) as [Hj|Hj]; auto. left. rewrite Efs.
        destruct (in_dec Nat.eq_dec j idx) as [I|_]; [rewrite Ij in I; lia|]. destruct I1 as [->|]; [reflexivity|lia].
      + intros Hj Lj. assert (Lj' : (j < nmult (a ++ [f]))%nat) by (rewrite nmult_app; lia).
        rewrite Efs, I2 by auto. destruct (in_dec Nat.eq_dec j idx) as [_|I]; [reflexivity|]. exfalso. apply I, Ij. auto.
      + intros Hj Lj. destruct (lt_dec j (nmult (a ++ [f]))) as [Lt|Ge].
        * assert (Efs' : fs = f :: map snd l).
          { rewrite Efs, I2 by auto. destruct (in_dec Nat.eq_dec j idx) as [_|I]; [reflexivity|]. exfalso. apply I, Ij. auto. }
          assert (Hf : (G | e_ts f) /\ nmult a = j).
          { rewrite nmult_app in Lt. unfold nmult at 2 in Lt. cbn in Lt. destruct (e_ts f mod G =? 0) eqn:E; cbn in Lt; [|lia].
            split; [apply multiple_b; auto|lia]. }
          destruct Hf as [Hf1 Hf2]. split.
          -- intros [|x b] g c E Hg Eb.
             ++ cbn in E. injection E as <- <-. exact Efs'.
             ++ cbn in E. injection E as <- E. replace (a ++ f :: b) with ((a ++ [f]) ++ b) in Eb by (rewrite <- app_assoc; reflexivity).
                rewrite nmult_app in Eb. lia.
          -- intros _. exists [], f, (map snd l). rewrite app_nil_r. auto.
        * destruct (I3 Hj ltac:(lia)) as [I4 I5].
          assert (Efs' : fs = fs').
          { rewrite Efs. destruct (in_dec Nat.eq_dec j idx) as [I|_]; [rewrite Ij in I; lia|reflexivity]. }
          split.
          -- intros [|x b] g c E Hg Eb.
             ++ cbn in E. injection E as <- <-. exfalso. apply Ge. rewrite nmult_app. rewrite app_nil_r in Eb. unfold nmult at 2. cbn.
                rewrite (proj2 (multiple_b (e_ts f)) Hg). cbn. lia.
             ++ cbn in E. injection E as <- E. rewrite Efs'. apply (I4 b g c); auto. rewrite <- app_assoc. exact Eb.
          -- rewrite Efs'. intros Ne. destruct (I5 Ne) as (b & g & c & E1 & E2 & E3 & E4).
             exists (f :: b), g, c. cbn [map snd app]. rewrite E1. split; auto. split; auto. split; auto. rewrite <- app_assoc in E4. exact E4.
  Qed.

  Lemma nmult_picks l m : picks (fun g => (G | e_ts g)) l m -> nmult l = length m.
  Proof. intros H. unfold nmult. rewrite (picks_len _ _ l m (fun g => multiple_b (e_ts g)) H). reflexivity. Qed.

  Lemma read_until_fun fr p1 p2 : read_until smax fr p1 -> read_until smax fr p2 -> p1 = p2.
  Proof.
    intros (q1 & E1 & A1 & B1) (q2 & E2 & A2 & B2).
    assert (K : forall p q p' q', p ++ q = p' ++ q' -> (forall m f, smax = Some m -> In f p -> e_ts f <= m) ->
                (forall m f, smax = Some m -> In f p' -> e_ts f <= m) ->
                (q = [] \/ exists m f r, smax = Some m /\ q = f :: r /\ m < e_ts f) ->
                (q' = [] \/ exists m f r, smax = Some m /\ q' = f :: r /\ m < e_ts f) -> p = p').
    { clear. induction p as [|x p IH]; intros q [|y p'] q' E A A' B B'; auto.
      - cbn in E. subst q. destruct B as [B|(m & f & r & Em & [= -> _] & L)]; [discriminate|]. specialize (A' m f Em (or_introl eq_refl)). lia.
      - cbn in E. subst q'. destruct B' as [B1|(m & f & r & Em & [= -> _] & L)]; [discriminate|]. specialize (A m f Em (or_introl eq_refl)). lia.
      - cbn in E. injection E as <- E. f_equal. apply (IH q p' q'); auto; intros; [apply A|apply A']; cbn; auto. }
    apply (K p1 q1 p2 q2); auto. congruence.
  Qed.

  Lemma nmult_multiples (q : list (frame (hoomd_frame R))) : (forall g, In g q -> e_ts (eframe_of (snd g)) = timestep g) ->
    nmult (map (fun f => eframe_of (snd f)) q) = multiples G q.
  Proof.
    intros Ss. unfold multiples, nmult. induction q as [|x t IH]; auto.
    cbn [filter map]. rewrite (Ss x) by (cbn; auto). destruct (timestep x mod G =? 0); cbn [length]; rewrite IH; auto; intros; apply Ss; cbn; auto.
  Qed.
  Lemma lin_reader fuel k : exists l pre, gsd_reader fuel k smax None G M file = Ok (l, None) /\
    read_until smax (frames N file) pre /\
    forall j, let fs := frames_of (fun f => length (e_pos f)) j l in
      (forall fs', Z.of_nat j <= M -> from_multiple G j pre fs' -> fs = fs') /\
      (fs <> [] -> Z.of_nat j <= M /\ from_multiple G j pre fs).
  Proof.
    destruct (linear_ok smax G M (map raw_of file) HG) as (out & final & rest & E & A & B & C & D & _).
    rewrite (iter_ok _ (not_fatal N file Hval Herr)) in A, C, D. cbn [items ending] in A, C, D. rewrite (file_readables N file Hval Herr) in A, D.
    unfold gsd_reader, read_gsd_trajectory. rewrite E. cbn [fst].
    assert (En : ending out = None) by (destruct C as [[_ ?]|(f & r & _ & _ & ?)]; auto). rewrite En.
    exists (map (fun p => (fst p, eframe_of (snd (snd p)))) (items out)), (map (fun f => eframe_of (snd f)) (map snd (items out))).
    set (l := map (fun p => (fst p, eframe_of (snd (snd p)))) (items out)).
    assert (El : map snd l = map (fun f => eframe_of (snd f)) (map snd (items out))) by (unfold l; rewrite !map_map; reflexivity).
    assert (Ts : forall f, In f (map (packed N) (snapshots file)) -> e_ts (eframe_of (snd f)) = timestep f).
    { intros f I. destruct (frames_In N file Hval f I) as (s & _ & -> & -> & _). reflexivity. }
    assert (Sub : forall f, In f (map snd (items out) ++ rest) -> In f (map (packed N) (snapshots file))) by (rewrite A; auto).
    split; [reflexivity|]. split.
    - exists (map (fun f => eframe_of (snd f)) rest). rewrite (frames_eq N file Hval), A, map_app. split; auto. split.
      + intros m f Em I. apply in_map_iff in I. destruct I as (g & <- & I). rewrite Ts by (apply Sub, in_or_app; auto).
        apply in_map_iff in I. destruct I as ([idx g'] & <- & I). cbn. specialize (B idx g' I). rewrite Em in B. exact B.
      + destruct C as [[-> _]|(f & r & -> & Nw & _)]; [left; reflexivity|right].
        destruct smax as [m|]; [|cbn in Nw; tauto]. exists m, (eframe_of (snd f)), (map (fun f => eframe_of (snd f)) r).
        split; auto. split; auto. rewrite Ts by (apply Sub, in_or_app; cbn; auto). cbn in Nw. lia.
    - intros j. destruct (frames_from j l []) as (F1 & _ & F3).
      + intros idx f I. apply in_map_iff in I. destruct I as ([i g] & [= <- <-] & I). cbn.
        destruct (frames_In N file Hval g) as (s & _ & _ & _ & L).
        { apply Sub, in_or_app. left. apply (in_map snd) in I. exact I. }
        intros Q. cbn in L, Q. rewrite Q in L. lia.
      + intros i idx f Ei. unfold l in Ei. rewrite nth_error_map in Ei. match type of Ei with option_map _ ?x = _ => destruct x as [[idx' g]|] eqn:Eo end; [|cbn in Ei; discriminate Ei].
        cbn in Ei. injection Ei as <- <-. rewrite (D i idx' g Eo). do 2 f_equal.
        cbn [app]. rewrite El, A.
        assert (Li : (S i <= length (map snd (items out)))%nat) by (rewrite map_length; apply nth_error_Some; intros Q; assert (Eo' := eq_trans (eq_sym Q) Eo); discriminate Eo').
        rewrite firstn_app. replace (S i - length (map snd (items out)))%nat with 0%nat by lia. rewrite (firstn_O rest), app_nil_r.
        assert (Ss : forall g, In g (firstn (S i) (map snd (items out))) -> e_ts (eframe_of (snd g)) = timestep g).
        { intros g' I. apply Ts, Sub, in_or_app. left. rewrite <- (firstn_skipn (S i)). apply in_or_app. auto. }
        rewrite <- (nmult_multiples _ Ss). f_equal. symmetry. apply firstn_map.
      + cbn [app] in F3. rewrite El in F3. cbv zeta. split.
        * intros fs' Hj (a & f & b & m & Ea & -> & Hf & Pm & Lm). destruct (F3 Hj ltac:(cbn; lia)) as [F4 _].
          apply (F4 a f b); auto. rewrite (nmult_picks a m Pm). auto.
        * intros Ne. destruct F1 as [F1|Hj]; [contradiction|]. split; auto. destruct (F3 Hj ltac:(cbn; lia)) as [_ F5].
          destruct (F5 Ne) as (b & f & c & E1 & E2 & E3 & E4). exists b, f, c, (filter (fun g => e_ts g mod G =? 0) b).
          split; auto. split; auto. split; auto. split; [|exact E4]. apply picks_filter. intros x. apply multiple_b.
  Qed.
End Linear.
