(** Property C127: trajectories with a box that changes between frames (constant pressure).

    The Dynamics and Relaxations of a key frame keep the box of this key frame: TrackedMotion
    is given the box once (_util.py:122, dynamics.py:100-102, relaxations.py:56-57), and
    [add] wraps with it (_util.py:149); frames after the first give no box. *)
From Coq Require Import String Reals ZArith QArith Qreals List Bool Lra Lia.
From Verif Require Import Base DictFacts XNum RVec RVecFacts FrameModel MotionModel MotionSpec MotionProofs MotionProps
  DynModel DynSpec DynProofs DynStruct DynProps DynPerm DynTrue
  MolRelaxModel ProcessModel ProcessSpec ProcessProofs ProcessProps ParamsModel ProcessPathModel ProcessPathProps
  EndModel EndSpec EndProofs EndProps.
Import ListNotations.
Open Scope list_scope.
Open Scope R_scope.
Notation length := List.length.

(** ** Specification *)
(** Every frame shows the true state in the images of its own box, and between consecutive
    frames nothing moves by half of either box or turns by pi. *)
Definition slow_between (T : eframe -> truth) (f f' : eframe) : Prop :=
  forall b, plane_box f b \/ plane_box f' b -> slow b (T f) (T f').
Definition followable_own (T : eframe -> truth) (N : nat) (f0 : eframe) (rest : list eframe) : Prop :=
  Forall (fun f => exists b, plane_box f b /\ box_ok b /\ shown_in T b N f) (f0 :: rest) /\
  chain (slow_between T) f0 rest.

(** The rows of the key frame [K] are those of the true motion. *)
Definition rows_true (T : eframe -> truth) parse v k N scattering K (fs : list eframe)
           (out : outcome (labelled (dict string dval)) (dict string (list Z))) : Prop :=
  exists rows f0 rest, out_table out = Some rows /\ fs = f0 :: rest /\
    Forall2 (row_for T parse v k N scattering K f0) fs (key_rows K rows).
Definition times_true (T : eframe -> truth) u k N K (fs : list eframe)
           (out : outcome (labelled (dict string dval)) (dict string (list Z))) : Prop :=
  exists relax s f0 rest, out_relax out = Some relax /\ fs = f0 :: rest /\ In (K, s) relax /\
    reports T u k N f0 fs s.

(** ** Refutation *)
(** A box of 10 grows to 12; ten molecules move from 4.9 to 6.9, which is stored as -5.1. *)
Definition bframe (ts : Z) (L x : R) : eframe := mkframe ts [L; L; 1; 0; 0; 0] (repeat (mk3 x 0 0) 10) (Some (repeat (zquat 0) 10)).
Definition bf0 := bframe 0 10 (49 / 10).
Definition bf1 := bframe 100 12 (- (51 / 10)).
Definition bfile : list (list nat * eframe) := [([0%nat], bf0); ([0%nat], bf1)].
Definition b_state (x : R) : truth := (repeat (mk3 x 0 0) 10, repeat 0 10).
Definition bT (f : eframe) : truth := b_state (if (e_ts f =? 0)%Z then 49 / 10 else 69 / 10).
(** What is analysed instead: nothing moves. *)
Definition bT' (f : eframe) : truth := b_state (49 / 10).
Definition bbox (L : R) : fbox := mkbox L L 0 0 0 0 true.

Lemma bbox_ok L : 0 < L -> box_ok (bbox L).
Proof. intros H. unfold box_ok. cbn. split; [auto|]. split; [auto|discriminate]. Qed.
Lemma b_plane ts L x : plane_box (bframe ts L x) (bbox L).
Proof. exists L, L, 1. right. exists 0, 0, 0. split; reflexivity. Qed.
Lemma b_plane_only ts L x b : plane_box (bframe ts L x) b -> b = bbox L.
Proof. intros (Lx & Ly & Lz & [[E ->]|(xy & xz & yz & E & ->)]); cbn in E; [discriminate|]. injection E as <- <- <- <- <- <-. reflexivity. Qed.
Lemma b_shown (T : eframe -> truth) ts L L' x y i : T (bframe ts L x) = b_state y -> x - y = IZR i * L' -> shown_in T (bbox L') 10 (bframe ts L x).
Proof.
  intros E H. unfold shown_in. rewrite E. cbn [fst snd bframe b_state e_pos e_ori]. rewrite !repeat_length. split; [|split; [|split]]; auto.
  - apply Forall2_repeat. exists i, 0%Z, 0%Z. split; auto. unfold lattice, sub3. cbn [x3 y3 z3 bx by_ bz bxy bxz byz bbox]. apply v3_eq; lra.
  - eexists. split; [reflexivity|]. apply Forall2_repeat. left; auto.
Qed.
Lemma b_slow L x y : 0 < L -> Rabs (y - x) < L / 2 -> slow (bbox L) (b_state x) (b_state y).
Proof.
  intros HL H. unfold slow, b_state. cbn [fst snd]. split; apply Forall2_repeat.
  - unfold sub3. cbn [x3 y3 z3]. unfold below_half, coord_a, coord_b. cbn [x3 y3 z3 bx by_ bz bxy bxz byz bbox b2d].
    split; [|split; [|split; [intros; lra|discriminate]]].
    + match goal with |- Rabs ?e < _ => replace e with ((y - x) * / L) by (field; lra) end.
      assert (Hi : 0 < / L) by (apply Rinv_0_lt_compat; auto). rewrite Rabs_mult, (Rabs_pos_eq (/ L)) by lra.
      apply Rmult_lt_reg_r with L; auto. rewrite Rmult_assoc, Rinv_l by lra. lra.
    + match goal with |- Rabs ?e < _ => replace e with 0 by (field; lra) end. rewrite Rabs_R0. lra.
  - rewrite Rminus_0_r, Rabs_R0. apply PI_RGT_0.
Qed.

Lemma b_own : followable_own bT 10 bf0 [bf1].
Proof.
  split.
  - apply Forall_cons; [|apply Forall_cons; [|constructor]].
    + exists (bbox 10). split; [apply b_plane|]. split; [apply bbox_ok; lra|]. apply (b_shown bT 0 10 10 (49 / 10) (49 / 10) 0); [reflexivity|lra].
    + exists (bbox 12). split; [apply b_plane|]. split; [apply bbox_ok; lra|]. apply (b_shown bT 100 12 12 (- (51 / 10)) (69 / 10) (-1)); [reflexivity|lra].
  - cbn [chain]. split; [|exact Logic.I]. intros b [E|E]; apply b_plane_only in E; subst b; apply (b_slow _ (49 / 10) (69 / 10)); try lra; apply Rabs_def1; lra.
Qed.
Lemma b_followed : followable bT' 10 bf0 [bf1].
Proof.
  exists (bbox 10). split; [apply b_plane|]. split; [apply bbox_ok; lra|]. split; [|split].
  - apply Forall_cons; [|apply Forall_cons; [|constructor]].
    + apply (b_shown bT' 0 10 10 (49 / 10) (49 / 10) 0); [reflexivity|lra].
    + apply (b_shown bT' 100 12 10 (- (51 / 10)) (49 / 10) (-1)); [reflexivity|lra].
  - cbn [map chain]. split; [|exact Logic.I]. apply (b_slow _ (49 / 10) (49 / 10)); try lra; apply Rabs_def1; lra.
  - intros f [<-|[]]. eexists. apply b_plane.
Qed.
Lemma b_moved2 x y i : (i < 10)%nat -> moved2 (b_state x) (b_state y) i = (y - x) ^ 2.
Proof. intros H. unfold moved2, pos, b_state. cbn [fst]. rewrite !nth_rep by auto. cbn [x3 y3 z3]. ring. Qed.

Definition b_vars : variables := {| v_temperature := Some "1.20"; v_pressure := Some "13.50"; v_crystal := None; v_iteration := None |}.
(** For every wrapping, sorting and rounding within the contracts, the row of the second frame
    is wrong and so are the relaxation times. *)
Theorem C127_changing_box_refuted :
  exists l T, followable_own T 10 bf0 [bf1] /\ frames_of (fun f => length (e_pos f)) 0 l = [bf0; bf1] /\
  forall wrap gimbal argsort fl calculate parse show u t0 r0,
    wrap_ok wrap -> argsort_ok argsort -> rounds u fl -> u <= 1 / 100 -> parse "1.20"%string <> None -> parse "13.50"%string <> None ->
    let out := analyse wrap gimbal argsort fl calculate parse show [mk3 0 1 0] (Some 2) true None e_name true (l, None) ([], None) t0 r0 in
    out_result out = inl None /\
    ~ rows_true T parse b_vars 2 10 true 0 [bf0; bf1] out /\
    ~ times_true T u 2 10 0 [bf0; bf1] out.
Proof.
  exists bfile, bT. split; [apply b_own|]. split; [reflexivity|].
  intros wrap gimbal argsort fl calculate parse show u t0 r0 W A Fl Hu P1 P2.
  destruct (C126_trajectory wrap gimbal argsort fl calculate parse show [mk3 0 1 0] 2 true u bT' 10 e_name b_vars (bfile, None) ([], None) bfile t0 r0
            W A Fl ltac:(lra) ltac:(discriminate) ltac:(lia) eq_refl) as (rows & relax & E & _ & R1 & R0 & _ & R3).
  - intros (x & [= <-] & U). congruence.
  - intros (x & [= <-] & U). congruence.
  - left. split; reflexivity.
  - exists 0%nat. cbn. discriminate.
  - intros K f0 rest E. destruct K as [|K]; cbn in E; [|discriminate]. injection E as <- <-. apply b_followed.
  - intros out. unfold out. rewrite E. cbn [out_result out_table out_relax]. split; auto.
    assert (F := R1 0%nat bf0 [bf1] eq_refl). split.
    + intros (rows' & f0 & rest & [= <-] & [= <- <-] & F'). cbn [out_table] in *.
      remember (key_rows 0 rows) as kr eqn:Ekr. clear Ekr. destruct kr as [|p [|p2 kr]]; inversion F as [|? ? ? ? _ F2]; subst; [inversion F2|].
      inversion F2 as [|? ? ? ? G _]; subst. inversion F' as [|? ? ? ? _ F2']; subst. inversion F2' as [|? ? ? ? G' _]; subst.
      destruct G as (_ & _ & _ & _ & _ & _ & G & _). destruct G' as (_ & _ & _ & _ & _ & _ & G' & _).
      rewrite G in G'. injection G' as G'.
      assert (A1 : avg 10 (moved2 (bT' bf0) (bT' bf1)) = avg 10 (fun _ => 0)).
      { apply avg_ext. intros i Hi. change (moved2 (b_state (49 / 10)) (b_state (49 / 10)) i = 0). rewrite b_moved2 by auto. ring. }
      assert (A2 : avg 10 (moved2 (bT bf0) (bT bf1)) = avg 10 (fun _ => 4)).
      { apply avg_ext. intros i Hi. change (moved2 (b_state (49 / 10)) (b_state (69 / 10)) i = 4). rewrite b_moved2 by auto. field. }
      rewrite A1, A2 in G'.
      rewrite !avg_const in G' by lia. lra.
    + intros (relax' & s & f0 & rest & [= <-] & [= <- <-] & I & Rp). cbn [out_relax] in *.
      assert (Rp' := R3 0%nat bf0 [bf1] s eq_refl I).
      destruct Rp as (_ & _ & Rp). destruct Rp' as (_ & _ & Rp').
      destruct (Rp 0%nat ltac:(lia)) as (_ & (v & (c & E1 & E2) & V) & _). destruct (Rp' 0%nat ltac:(lia)) as (_ & (v' & (c' & E1' & E2') & V') & _).
      rewrite E1 in E1'. injection E1' as <-. rewrite E2 in E2'. injection E2' as <-.
      pose proof pi_above_3. pose proof PI_4. destruct Fl as [U0 _].
      assert (M : moves bT bf0 0 [bf0; bf1] = [(0%Z, sqrt ((49 / 10 - 49 / 10) ^ 2)); (100%Z, sqrt ((69 / 10 - 49 / 10) ^ 2))]).
      { unfold moves. cbn [map]. change (bT bf0) with (b_state (49 / 10)). change (bT bf1) with (b_state (69 / 10)). rewrite !b_moved2 by lia. reflexivity. }
      assert (M' : moves bT' bf0 0 [bf0; bf1] = [(0%Z, sqrt ((49 / 10 - 49 / 10) ^ 2)); (100%Z, sqrt ((49 / 10 - 49 / 10) ^ 2))]).
      { unfold moves. cbn [map]. change (bT' bf0) with (b_state (49 / 10)). change (bT' bf1) with (b_state (49 / 10)). rewrite !b_moved2 by lia. reflexivity. }
      replace ((69 / 10 - 49 / 10) ^ 2) with (Rsqr 2) in M by (unfold Rsqr; field). rewrite sqrt_Rsqr in M by lra.
      replace ((49 / 10 - 49 / 10) ^ 2) with (Rsqr 0) in M, M' by (unfold Rsqr; ring). rewrite sqrt_Rsqr in M, M' by lra.
      rewrite M in V. rewrite M' in V'. destruct V as (_ & _ & V). destruct V' as (V' & _ & _).
      specialize (V 100%Z 2 ltac:(cbn; auto) ltac:(unfold surely; nra)).
      destruct V' as [->|(x & J & Mb)]; [lia|]. unfold maybe in Mb.
      assert (x = 0) by (cbn [In] in J; destruct J as [[= _ <-]|[[= _ <-]|[]]]; auto). subst x. nra.
Qed.

(** ** What holds *)
(** If the positions in the file are those in space (no molecule is stored in another image),
    and nothing moves by half of the box of the key frame, then the box may change. *)
Definition unwrapped (T : eframe -> truth) (N : nat) (f0 : eframe) (rest : list eframe) : Prop :=
  (exists b, plane_box f0 b /\ box_ok b /\ chain (slow b) (T f0) (map T rest)) /\
  Forall (fun f => (exists b, plane_box f b) /\ fst (T f) = e_pos f /\ length (e_pos f) = N /\ length (snd (T f)) = N /\
            exists q, e_ori f = Some q /\ Forall2 turned q (snd (T f))) (f0 :: rest).
Lemma images_refl b l : images b l l.
Proof.
  unfold images. induction l; constructor; auto. exists 0%Z, 0%Z, 0%Z. split; auto. unfold lattice, sub3. apply v3_eq; cbn [x3 y3 z3]; ring.
Qed.
Theorem C127_unwrapped_partial (wrap : fbox -> v3 -> v3) gimbal argsort fl calculate parse show mol k scattering u
        (T : eframe -> truth) N infile v gsd lammps l t0 r0 :
  wrap_ok wrap -> argsort_ok argsort -> rounds u fl -> 0 < k -> mol <> [] -> (10 <= N)%nat ->
  get_filename_vars infile = inl v -> ~ unreadable parse (v_temperature v) -> ~ unreadable parse (v_pressure v) ->
  holds infile gsd lammps l ->
  (forall K f0 rest, frames_of (fun f => length (e_pos f)) K l = f0 :: rest -> unwrapped T N f0 rest) ->
  forall K fs, frames_of (fun f => length (e_pos f)) K l = fs -> fs <> [] ->
  let out := analyse wrap gimbal argsort fl calculate parse show mol (Some k) scattering None infile true gsd lammps t0 r0 in
  out_result out = inl None /\ rows_true T parse v k N scattering K fs out /\ times_true T u k N K fs out.
Proof.
  intros W Ar Fl Hk Hm HN EV U1 U2 Ho Fo K fs E Nf out.
  destruct (C126_trajectory wrap gimbal argsort fl calculate parse show mol k scattering u T N infile v gsd lammps l t0 r0 W Ar Fl Hk Hm HN EV U1 U2 Ho)
    as (rows & relax & EO & _ & R1 & _ & R2 & R3).
  - exists K. congruence.
  - intros K' f0 rest E'. destruct (Fo K' f0 rest E') as ((b & B1 & B2 & B3) & F). exists b. split; [auto|]. split; [auto|]. split; [|split; [auto|]].
    + eapply Forall_impl; [|exact F]. intros f (_ & P1 & P2 & P3 & P4). split; [rewrite P1; apply images_refl|]. auto.
    + intros f I. rewrite Forall_forall in F. apply (F f (or_intror I)).
  - unfold out. rewrite EO. cbn [out_result]. split; auto. destruct fs as [|f0 rest]; [congruence|]. split.
    + exists rows, f0, rest. repeat (split; [reflexivity|]). apply R1; auto.
    + assert (I : In K (map fst relax)) by (apply R2; rewrite E; discriminate). apply in_map_iff in I. destruct I as ([K' s] & EK & I). cbn in EK. subst K'.
      exists relax, s, f0, rest. repeat (split; [reflexivity|]). split; auto. apply (R3 K f0 rest s); auto.
Qed.
Print Assumptions C127_changing_box_refuted.
Print Assumptions C127_unwrapped_partial.

(** The box grows from 10 to 12 and the molecules move from 1 to 4. *)
Definition cf0 := bframe 0 10 1.
Definition cf1 := bframe 100 12 4.
Definition cT (f : eframe) : truth := (e_pos f, repeat 0 10).
Example C127_example : unwrapped cT 10 cf0 [cf1] /\ e_box cf0 <> e_box cf1.
Proof.
  split.
  - split.
    + exists (bbox 10). split; [apply b_plane|]. split; [apply bbox_ok; lra|]. cbn [map chain]. split; [|exact Logic.I]. apply (b_slow 10 1 4); [lra|apply Rabs_def1; lra].
    + apply Forall_cons; [|apply Forall_cons; [|constructor]]; (split; [eexists; apply b_plane|]; split; [reflexivity|]; split; [reflexivity|]; split; [reflexivity|];
        eexists; split; [reflexivity|]; apply Forall2_repeat; left; reflexivity).
  - cbn. intros [= H]. lra.
Qed.
