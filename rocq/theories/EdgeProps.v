(** C175-C178: what is missing or empty, and how it is reported. *)
From Coq Require Import String Reals ZArith QArith List Bool Lia Lra.
From Verif Require Import Base XNum RVec FrameModel ParamsModel RelaxationModel RelaxFitModel MotionModel DynModel DynSpec DynProofs DynStruct RunModel.
Import ListNotations.
Open Scope nat_scope.
Open Scope string_scope.
Open Scope list_scope.

(** * C175: the values of a file name *)
(** What formatting [v] as a number raises. *)
Inductive no_format : pyval -> exn -> Prop :=
| nf_none : no_format VNone TypeError
| nf_text s : no_format (VStr s) ValueError
| nf_path s : no_format (VPath s) TypeError
| nf_mol s : no_format (VMol s) TypeError
| nf_property : no_format VProperty TypeError.
Definition a_number (v : pyval) : Prop := exists x, v = VNum x.
Definition none_or_number (v : pyval) : Prop := v = VNone \/ a_number v.
(** The first value that is no number decides. *)
Inductive name_fault (p t i k : pyval) : exn -> Prop :=
| nf_p e : no_format p e -> name_fault p t i k e
| nf_t e : a_number p -> no_format t e -> name_fault p t i k e
| nf_i e : a_number p -> a_number t -> i <> VNone -> no_format i e -> name_fault p t i k e
| nf_k e : a_number p -> a_number t -> none_or_number i -> k <> VNone -> no_format k e -> name_fault p t i k e.

Lemma py_fmt2_cases v : (exists x, v = VNum x /\ py_fmt2 v = inl (fmt2 x)) \/ (~ a_number v /\ exists e, no_format v e /\ py_fmt2 v = inr e).
Proof.
  destruct v; cbn; try (right; split; [intros (x & E); discriminate|eexists; split; [constructor|reflexivity]]).
  left. eauto.
Qed.
Lemma no_format_number v e : no_format v e -> ~ a_number v.
Proof. intros [] (x & E); discriminate. Qed.
Lemma no_format_fun v e e' : no_format v e -> no_format v e' -> e = e'.
Proof. intros [] H; inversion H; reflexivity. Qed.

Theorem C175_file_name : forall str_num cwd o prefix mol p t i k g d,
  getattr cwd o "molecule" = inl mol -> getattr cwd o "pressure" = inl p -> getattr cwd o "temperature" = inl t ->
  getattr cwd o "moment_inertia_scale" = inl i -> getattr cwd o "harmonic_force" = inl k ->
  getattr cwd o "space_group" = inl g -> getattr cwd o "output" = inl (VPath d) ->
  (forall e, filename str_num cwd o prefix = inr e <-> name_fault p t i k e) /\
  ((exists f, filename str_num cwd o prefix = inl f) <-> a_number p /\ a_number t /\ none_or_number i /\ none_or_number k).
Proof.
  intros sn cwd o prefix mol p t i k g d M P T I K G D. unfold filename. rewrite I, K, G, T, M, P. cbn [FrameModel.ebind].
  assert (NN : forall v, v <> VNone -> opt_part v = fun f => f v) by (intros []; reflexivity || congruence).
  destruct (py_fmt2_cases p) as [(x & -> & Ex)|(NP & e0 & N0 & Ex)]; rewrite ?Ex; cbn [FrameModel.ebind py_fmt2].
  2:{ split; [intros e; split|split].
      - intros E0; injection E0 as E0; subst e0. apply nf_p; auto.
      - intros [e1 H|e1 H|e1 H|e1 H]; try contradiction. f_equal. eapply no_format_fun; eauto.
      - intros (f & H); discriminate.
      - intros (H & _); contradiction. }
  assert (AP : a_number (VNum x)) by (eexists; eauto).
  destruct (py_fmt2_cases t) as [(y & -> & Ey)|(NT & e0 & N0 & Ey)]; rewrite ?Ey; cbn [FrameModel.ebind py_fmt2].
  2:{ split; [intros e; split|split].
      - intros E0; injection E0 as E0; subst e0. apply nf_t; auto.
      - intros [e1 H|e1 H H1|e1 H H1|e1 H H1]; try contradiction; [inversion H|]. f_equal. eapply no_format_fun; eauto.
      - intros (f & H); discriminate.
      - intros (_ & H & _); contradiction. }
  assert (AT : a_number (VNum y)) by (eexists; eauto).
  assert (X : (exists s, none_or_number i /\ opt_part i (fun v => FrameModel.ebind (py_fmt2 v) (fun s => inl ("-I" ++ s)%string)) = inl s)
    \/ (~ none_or_number i /\ i <> VNone /\ exists e, no_format i e /\ opt_part i (fun v => FrameModel.ebind (py_fmt2 v) (fun s => inl ("-I" ++ s)%string)) = inr e)).
  { unfold none_or_number. destruct i; try (right; split; [intros [E|(z & E)]; discriminate|]; split; [discriminate|]; eexists; split; [constructor|reflexivity]);
      left; eexists; (split; [|reflexivity]); [auto|right; eexists; eauto]. }
  destruct X as [(s & NI & ->)|(NI & I0 & e0 & N0 & ->)]; cbn [FrameModel.ebind].
  2:{ split; [intros e; split|split].
      - intros E0; injection E0 as E0; subst e0. apply nf_i; auto.
      - intros [e1 H|e1 H H1|e1 H H1 H2 H3|e1 H H1 H2]; try contradiction; [inversion H|inversion H1|]. f_equal. eapply no_format_fun; eauto.
      - intros (f & H); discriminate.
      - intros (_ & _ & H & _); contradiction. }
  assert (X : (exists s, none_or_number k /\ opt_part k (fun v => FrameModel.ebind (py_fmt2 v) (fun s => inl ("-K" ++ s)%string)) = inl s)
    \/ (~ none_or_number k /\ k <> VNone /\ exists e, no_format k e /\ opt_part k (fun v => FrameModel.ebind (py_fmt2 v) (fun s => inl ("-K" ++ s)%string)) = inr e)).
  { unfold none_or_number. destruct k; try (right; split; [intros [E|(z & E)]; discriminate|]; split; [discriminate|]; eexists; split; [constructor|reflexivity]);
      left; eexists; (split; [|reflexivity]); [auto|right; eexists; eauto]. }
  destruct X as [(s' & NK & ->)|(NK & K0 & e0 & N0 & ->)]; cbn [FrameModel.ebind].
  2:{ split; [intros e; split|split].
      - intros E0; injection E0 as E0; subst e0. apply nf_k; auto.
      - intros [e1 H|e1 H H1|e1 H H1 H2 H3|e1 H H1 H2 H3 H4]; try contradiction; [inversion H|inversion H1| |].
        + destruct NI as [NI|NI]; [contradiction|]. destruct (no_format_number _ _ H3 NI).
        + f_equal. eapply no_format_fun; eauto.
      - intros (f & H); discriminate.
      - intros (_ & _ & _ & H); contradiction. }
  assert (X : exists s, opt_part g (fun v => inl ("-" ++ py_str sn v)%string) = inl s) by (destruct g; cbn; eauto).
  destruct X as (s2 & ->). cbn [FrameModel.ebind]. rewrite D. cbn [FrameModel.ebind]. split; [intros e; split|split].
  - discriminate.
  - intros [e1 H|e1 H H1|e1 H H1 H2 H3|e1 H H1 H2 H3 H4].
    + inversion H.
    + inversion H1.
    + destruct NI as [NI|NI]; [contradiction|]. destruct (no_format_number _ _ H3 NI).
    + destruct NK as [NK|NK]; [contradiction|]. destruct (no_format_number _ _ H4 NK).
  - auto.
  - intros _. eauto.
Qed.
Print Assumptions C175_file_name.
(** A molecule that is None is written as None. *)
Theorem C175_no_molecule : forall str_num cwd o x y d,
  getattr cwd o "molecule" = inl VNone -> getattr cwd o "pressure" = inl (VNum x) -> getattr cwd o "temperature" = inl (VNum y) ->
  getattr cwd o "moment_inertia_scale" = inl VNone -> getattr cwd o "harmonic_force" = inl VNone ->
  getattr cwd o "space_group" = inl VNone -> getattr cwd o "output" = inl (VPath d) ->
  exists rest, filename str_num cwd o None = inl (d ++ "/None-P" ++ rest)%string.
Proof.
  intros sn cwd o x y d M P T I K G D. unfold filename. rewrite I, K, G, T, M, P. cbn [FrameModel.ebind py_fmt2 opt_part]. rewrite D. cbn [FrameModel.ebind py_str]. eexists. reflexivity.
Qed.
Print Assumptions C175_no_molecule.
Definition ex_params (p t : pyval) : obj :=
  [("molecule", VNone); ("pressure", p); ("temperature", t); ("moment_inertia_scale", VNone); ("harmonic_force", VNone);
   ("space_group", VNone); ("_output", VPath "out")].
Example C175_ex : filename (fun _ => "") "/" (ex_params (VNum (Fin 1)) (VNum (Fin (1 # 2)))) None = inl "out/None-P1.00-T0.50.gsd"
  /\ filename (fun _ => "") "/" (ex_params (VStr "1.0") VNone) None = inr ValueError
  /\ filename (fun _ => "") "/" (ex_params (VNum (Fin 1)) VNone) None = inr TypeError.
Proof. vm_compute. auto. Qed.

(** * C176: a quantity without values *)
(** The relaxations that look for a maximum or a fit give NaN. *)
Theorem C176_empty_partial : forall nan_raises cf newton cf' sigma width dim,
  max_time_relaxation [] [] = inl (NaN, NaN) /\ max_value_relaxation [] [] = inl (NaN, NaN) /\
  exponential_relaxation cf newton [] [] sigma width = inl (FNaN, FNaN) /\
  diffusion_constant nan_raises cf' [] [] dim = inl (FNaN, FNaN).
Proof. intros nr cf newton cf' sigma width dim. split; [reflexivity|]. split; [reflexivity|]. split; [reflexivity|]. destruct nr; reflexivity. Qed.
Print Assumptions C176_empty_partial.
(** A threshold raises, whatever the threshold. *)
Theorem C176_empty_refuted : forall nan_raises thr decay, threshold_relaxation nan_raises [] [] thr decay = inr ValueError.
Proof. intros [] thr []; reflexivity. Qed.
Print Assumptions C176_empty_refuted.
Theorem C176_threshold_refuted : exists nan_raises thr decay,
  ~ (exists r, threshold_relaxation nan_raises [] [] thr decay = inl r) /\ exists r, threshold_relaxation nan_raises [1%Q] [Fin 1] thr decay = inl r.
Proof.
  exists false, (Fin (1 # 2)), true. split; [intros [r H]; discriminate|]. eexists. vm_compute. reflexivity.
Qed.
Print Assumptions C176_threshold_refuted.

(** * C177: what a Dynamics object needs *)
Theorem C177_init : forall ts b p o mol wave res,
  ((exists d, dyn_init ts b p o mol wave res = inl d) <-> p <> [] /\ o <> Some []) /\
  (forall e, dyn_init ts b p o mol wave res = inr e -> e = RuntimeError).
Proof.
  intros ts b p o mol wave res. unfold dyn_init, motion_init. destruct p as [|x p]; [|destruct o as [[|q o]|]]; cbn; (split; [split|]);
    try (intros (d & E); discriminate); try congruence; try (intros (A & B); congruence); try (intros _; eauto; fail);
    try (intros _; split; discriminate).
Qed.
Print Assumptions C177_init.
(** The structural relaxation, of an object after any frames. *)
Definition after (wrap : fbox -> v3 -> v3) (gimbal : RVec.quat -> v3) (d : dynamics) (frames : list (list v3 * option (list RVec.quat))) : dynamics :=
  fold_left (fun d f => fst (dyn_add wrap gimbal d (fst f) (snd f))) frames d.
Lemma after_attrs wrap gimbal frames : forall d, d_mol (after wrap gimbal d frames) = d_mol d /\ d_wave (after wrap gimbal d frames) = d_wave d
  /\ (dyn_ok d -> dyn_ok (after wrap gimbal d frames)).
Proof.
  unfold after. induction frames as [|[p o] l IH]; intros d; cbn [fold_left]; auto. destruct (IH (fst (dyn_add wrap gimbal d p o))) as (A & B & C).
  assert (F : d_mol (fst (dyn_add wrap gimbal d p o)) = d_mol d /\ d_wave (fst (dyn_add wrap gimbal d p o)) = d_wave d).
  { unfold dyn_add. destruct (motion_add wrap gimbal (d_motion d) p o). auto. }
  destruct F as (F & G). cbn [fst snd]. split; [congruence|]. split; [congruence|]. intros K. apply C.
  destruct (dyn_add wrap gimbal d p o) as [d' e] eqn:E. exact (dyn_add_ok _ _ _ _ _ _ _ E K).
Qed.
Inductive struct_fault (wave : option R) (mol : option (list v3)) : exn -> Prop :=
| sf_wave : wave = None -> struct_fault wave mol ValueError
| sf_zero : wave = Some 0%R -> struct_fault wave mol ZeroDivisionError
| sf_mol k : wave = Some k -> k <> 0%R -> mol = None -> struct_fault wave mol AttributeError
| sf_empty k : wave = Some k -> k <> 0%R -> mol = Some [] -> struct_fault wave mol ValueError.
Theorem C177_struct : forall wrap gimbal ts b p o mol wave res d frames, (0 < res)%nat ->
  dyn_init ts b p o mol wave res = inl d ->
  let d' := after wrap gimbal d frames in
  (forall e, compute_struct_relax d' = inr e <-> struct_fault wave mol e) /\
  ((exists x, compute_struct_relax d' = inl x) <-> exists k v ml, wave = Some k /\ k <> 0%R /\ mol = Some (v :: ml)).
Proof.
  intros wrap gimbal ts b p o mol wave res d frames RS I d'. pose proof (dyn_init_ok _ _ _ _ _ _ _ _ RS I) as OK.
  destruct (after_attrs wrap gimbal frames d) as (M & W & K). fold d' in M, W, K. specialize (K OK). destruct K as (P & L1 & L2 & _).
  assert (X : d_mol d = mol /\ d_wave d = wave).
  { unfold dyn_init in I. destruct p; [discriminate|]. destruct (motion_init b (v :: p) o); [|discriminate]. cbn in I. injection I as <-. auto. }
  destruct X as (X & Y). rewrite X in M. rewrite Y in W.
  unfold compute_struct_relax, distance. rewrite M, W. destruct wave as [k|]; [destruct (Req_EM_T k 0) as [Z|Z]|]; cbn [MotionModel.ebind].
  - subst k. split; [intros e; split|split].
    + intros [= <-]. apply sf_zero. auto.
    + intros H; destruct H; congruence.
    + intros (x & H); discriminate.
    + intros (k & v & ml & A & B & _). congruence.
  - destruct mol as [[|v ml]|].
    + assert (E : forall x, exists e, struct_relax (m_dt (d_motion d')) (m_dr (d_motion d')) [] (d_num d') x = inr e /\ e = ValueError).
      { intros x. unfold struct_relax, struct_positions, molecule2particles. destruct (negb _); cbn; eauto. }
      destruct (E (PI / (2 * k))%R) as (e0 & E0 & ->). rewrite E0. split; [intros e; split|split].
      * intros [= <-]. eapply sf_empty; eauto.
      * intros H; destruct H; congruence.
      * intros (x & H); discriminate.
      * intros (k0 & v & ml & _ & _ & H). discriminate.
    + destruct (struct_ok (m_dt (d_motion d')) (m_dr (d_motion d')) (v :: ml) (PI / (2 * k))%R) as (dd & _ & E); try congruence.
      rewrite L1 in E. rewrite E. split; [intros e; split|split].
      * discriminate.
      * intros H; destruct H; congruence.
      * intros _. eauto 7.
      * eauto.
    + split; [intros e; split|split].
      * intros [= <-]. eapply sf_mol; eauto.
      * intros H; destruct H; congruence.
      * intros (x & H); discriminate.
      * intros (k0 & v & ml & _ & _ & H). discriminate.
  - split; [intros e; split|split].
    + intros [= <-]. apply sf_wave; auto.
    + intros H; destruct H; congruence.
    + intros (x & H); discriminate.
    + intros (k & v & ml & A & _). discriminate.
Qed.
Print Assumptions C177_struct.
Definition ex_box : fbox := mkbox 10 10 10 0 0 0 false.
Definition ex_dyn (mol : option (list v3)) (wave : option R) : dynamics + exn :=
  dyn_init 0 ex_box [mk3 0 0 0; mk3 1 0 0] None mol wave 360.
Example C177_ex : (exists d, ex_dyn None None = inl d) /\ dyn_init 0 ex_box [] None None None 360 = inr RuntimeError
  /\ (exists d, ex_dyn None (Some 2%R) = inl d /\ compute_struct_relax d = inr AttributeError)
  /\ (exists d, ex_dyn (Some [mk3 0 0 0]) None = inl d /\ compute_struct_relax d = inr ValueError)
  /\ (exists d x, ex_dyn (Some [mk3 0 0 0]) (Some 2%R) = inl d /\ compute_struct_relax d = inl x).
Proof.
  assert (RS : (0 < 360)%nat) by lia.
  split; [eexists; reflexivity|]. split; [reflexivity|].
  split; [|split].
  - eexists. split; [reflexivity|].
    destruct (C177_struct (fun _ v => v) (fun _ => zero3) 0 ex_box [mk3 0 0 0; mk3 1 0 0] None None (Some 2%R) 360 _ [] RS eq_refl) as (A & _).
    apply A. apply (sf_mol _ _ 2%R); [reflexivity|lra|reflexivity].
  - eexists. split; [reflexivity|].
    destruct (C177_struct (fun _ v => v) (fun _ => zero3) 0 ex_box [mk3 0 0 0; mk3 1 0 0] None (Some [mk3 0 0 0]) None 360 _ [] RS eq_refl) as (A & _).
    apply A. apply sf_wave; auto.
  - destruct (C177_struct (fun _ v => v) (fun _ => zero3) 0 ex_box [mk3 0 0 0; mk3 1 0 0] None (Some [mk3 0 0 0]) (Some 2%R) 360 _ [] RS eq_refl) as (_ & A).
    destruct A as (_ & A). destruct A as (x & A); [exists 2%R, (mk3 0 0 0), []; repeat split; lra|]. eexists _, x. split; [reflexivity|exact A].
Qed.

(** * C178: the output of [order] *)
(** An input that cannot be opened leaves the output file, present or not, as it was; one that can replaces it. *)
Theorem C178_output : forall nr neigh infile before,
  match infile with
  | inr e => order nr neigh infile before = (before, Some e)
  | inl _ => forall before', order nr neigh infile before = order nr neigh infile before' /\ fst (order nr neigh infile before) <> None
  end.
Proof.
  intros nr neigh [l|e] before; [|reflexivity]. intros before'. unfold order. destruct (loop nr neigh l) as [rows e']. split; [reflexivity|discriminate].
Qed.
Print Assumptions C178_output.
Example C178_ex : fst (order 0 (fun _ _ => inr ValueError) (inr RuntimeError) (Some [(1%Z, 1%R)])) = Some [(1%Z, 1%R)]
  /\ fst (order 0 (fun _ _ => inr ValueError) (inl []) (Some [(1%Z, 1%R)])) = Some [].
Proof. split; reflexivity. Qed.
