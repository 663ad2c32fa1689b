(** The analysis of a lammpstrj file, from the text to the tables written. *)
From Coq Require Import String Reals ZArith QArith List Bool Lia Lra Arith.
From Verif Require Import Base PyStr PyStrFacts XNum RVec RVecFacts FrameModel FrameSpec MotionModel MotionSpec MotionProofs DynModel DynSpec DynProps DynTrue
  ParamsModel ProcessModel ProcessSpec ProcessProps ProcessPathModel ProcessPathProps LammpsModel LammpsSpec LammpsProofs LammpsProps RunModel MolRelaxModel
  EndModel EndSpec EndProofs EndProps EndGsdModel EndGsdSpec EndGsdProofs EndGsdProps EndLammpsModel EndLammpsSpec.
Import ListNotations.
Open Scope R_scope.
Notation length := List.length.
Notation mentions := LammpsSpec.describes.

Section Reader.
  Variables (pfloat : string -> option R) (sub : R -> R -> R) (f32 : R -> R) (junk : nat -> R).
  Notation mentions := (mentions pfloat sub f32).
  Notation written_as := (written_as pfloat sub f32).

  Lemma take_ok smax ts ds pre : Forall2 mentions ts ds -> steps_until smax ts pre ->
    exists ds', take_steps smax ds (Ok tt) = {| items := map (fun d => ([0%nat], d)) ds'; ending := Ok tt |} /\ Forall2 mentions pre ds'.
  Proof.
    intros F (post & -> & A & B). revert ds F. induction pre as [|t pre IH]; intros ds F.
    - exists []. split; [|constructor]. cbn [app] in F. destruct B as [->|(m & t & r & -> & -> & L)].
      + inversion F. reflexivity.
      + inversion F as [|? d ? ds' (D & _) _]; subst. cbn. unfold l_timestep, lget. rewrite D. destruct (Z.ltb_spec m (t_step t)); [reflexivity|lia].
    - cbn [app] in F. inversion F as [|? d ? ds' D F']; subst.
      destruct (IH (fun m x E I => A m x E (or_intror I)) ds' F') as (ds'' & E & F''). exists (d :: ds''). split; [|constructor; auto].
      cbn [take_steps map]. destruct smax as [m|].
      + destruct D as (D & _). unfold l_timestep, lget. rewrite D. specialize (A m t eq_refl (or_introl eq_refl)).
        destruct (Z.ltb_spec m (t_step t)); [lia|]. rewrite E. reflexivity.
      + rewrite E. reflexivity.
  Qed.

  Hypothesis f32_idem : forall x, f32 (f32 x) = f32 x.
  Lemma zip3_nth : forall i (x y z : list R) a b c, nth_error x i = Some a -> nth_error y i = Some b -> nth_error z i = Some c ->
    nth_error (zip3 x y z) i = Some (a, b, c).
  Proof.
    induction i as [|i IH]; intros [|x0 x] [|y0 y] [|z0 z] a b c Ha Hb Hc; cbn in *; try discriminate.
    - injection Ha as ->. injection Hb as ->. injection Hc as ->. reflexivity.
    - auto.
  Qed.
  Lemma zip3_len : forall (x y z : list R) n, length x = n -> length y = n -> length z = n -> length (zip3 x y z) = n.
  Proof. induction x as [|a x IH]; intros [|b y] [|c z] n <- Hy Hz; cbn in *; try discriminate; auto. Qed.

  Lemma one_frame t d : mentions t d -> has_positions t -> exists p, l_position f32 d = inl p /\ written_as t (leframe f32 d p).
  Proof.
    intros (D1 & (lx & ly & lz & D2 & W1 & W2 & W3) & D3 & _) (Hx & Hy & Hz).
    apply In_nth_error in Hx, Hy, Hz. destruct Hx as (cx & Hx), Hy as (cy & Hy), Hz as (cz & Hz).
    destruct (D3 cx _ Hx) as (ax & Ex & Lx & Vx). destruct (D3 cy _ Hy) as (ay & Ey & Ly & Vy). destruct (D3 cz _ Hz) as (az & Ez & Lz & Vz).
    exists (zip3 (map f32 ax) (map f32 ay) (map f32 az)). split.
    - unfold l_position, lget. rewrite Ex, Ey, Ez. cbn. rewrite Lx, Ly, Lz, !Nat.eqb_refl. reflexivity.
    - assert (L : length (zip3 (map f32 ax) (map f32 ay) (map f32 az)) = length (t_atoms t)) by (apply zip3_len; rewrite map_length; auto).
      unfold written_as, leframe. cbn [e_ts e_box e_pos e_ori]. split; [|split; [|split; [|split]]].
      + unfold l_timestep, lget. rewrite D1. reflexivity.
      + exists lx, ly, lz. split; auto. split; auto. split; auto. unfold l_box, lget. rewrite D2. reflexivity.
      + rewrite map_length. exact L.
      + unfold l_orientation, l_len, lget. rewrite Ex. cbn. rewrite Lx. f_equal. generalize (length (t_atoms t)). intros n. induction n as [|n IH]; [reflexivity|]. cbn [repeat map]. rewrite IH. reflexivity.
      + intros a k I K. destruct (Vx a k I K) as (wx & vx & X1 & X2 & X3). destruct (Vy a k I K) as (wy & vy & Y1 & Y2 & Y3).
        destruct (Vz a k I K) as (wz & vz & Z1 & Z2 & Z3). exists (mk3 (f32 vx) (f32 vy) (f32 vz)). split.
        * rewrite nth_error_map, (zip3_nth _ _ _ _ (f32 vx) (f32 vy) (f32 vz)); auto; rewrite nth_error_map.
          -- rewrite X3. cbn. rewrite f32_idem. reflexivity.
          -- rewrite Y3. cbn. rewrite f32_idem. reflexivity.
          -- rewrite Z3. cbn. rewrite f32_idem. reflexivity.
        * unfold number. cbn [x3 y3 z3]. split; [|split]; do 3 eexists; eauto.
  Qed.

  Lemma all_frames ts ds : Forall2 mentions ts ds -> Forall has_positions ts ->
    exists fs, attributes f32 (map (fun d => ([0%nat], d)) ds) None = (map (fun f => ([0%nat], f)) fs, None) /\ Forall2 written_as ts fs.
  Proof.
    induction 1 as [|t d ts ds D F IH]; intros H; [exists []; split; [reflexivity|constructor]|].
    inversion H as [|? ? H1 H2]; subst. destruct (one_frame t d D H1) as (p & Ep & Wp). destruct (IH H2) as (fs & E & Fs).
    exists (leframe f32 d p :: fs). split; [|constructor; auto]. cbn [map attributes]. rewrite Ep, E. reflexivity.
  Qed.

  (** What is written determines the frame. *)
  Lemma number_fun t a h x y : NoDup (t_heads t) -> number pfloat f32 t a h x -> number pfloat f32 t a h y -> x = y.
  Proof.
    intros ND (c & w & v & C & A & P & ->) (c' & w' & v' & C' & A' & P' & ->). unfold column in *.
    assert (c = c') by (eapply NoDup_nth_error; eauto; [apply nth_error_Some; congruence|congruence]). subst c'. congruence.
  Qed.
  Lemma width_fun b x y : width pfloat sub b x -> width pfloat sub b y -> x = y.
  Proof. intros (l & h & A & B & ->) (l' & h' & A' & B' & ->). congruence. Qed.
  Lemma written_fun t f g : well_formed pfloat t -> written_as t f -> written_as t g -> f = g.
  Proof.
    intros W (A1 & (lx & ly & lz & A2 & A3 & A4 & A5) & A6 & A7 & A8) (B1 & (lx' & ly' & lz' & B2 & B3 & B4 & B5) & B6 & B7 & B8).
    assert (lx = lx') by (eapply width_fun; eauto). assert (ly = ly') by (eapply width_fun; eauto). assert (lz = lz') by (eapply width_fun; eauto). subst.
    destruct f as [ts box pos ori], g as [ts' box' pos' ori']. cbn in *. subst. f_equal.
    apply list_ext; [congruence|]. intros i Hi. rewrite A6 in Hi.
    destruct (C64_every_entry pfloat t i W Hi) as (a & I & K).
    destruct (A8 a _ I K) as (p & P1 & P2 & P3 & P4). destruct (B8 a _ I K) as (q & Q1 & Q2 & Q3 & Q4).
    replace (Z.to_nat (Z.of_nat i + 1 - 1)) with i in * by lia. rewrite P1, Q1. f_equal.
    assert (ND : NoDup (t_heads t)) by apply W. destruct p, q; apply v3_eq; eapply number_fun; eauto.
  Qed.
  Lemma written_all ts fs gs : Forall (well_formed pfloat) ts -> Forall2 written_as ts fs -> Forall2 written_as ts gs -> fs = gs.
  Proof.
    intros W F. revert gs. induction F as [|t f ts fs H F IH]; intros gs G; inversion G as [|? g ? gs' H' G']; subst; auto.
    inversion W; subst. f_equal; [eapply written_fun; eauto|auto].
  Qed.
End Reader.

Lemma frames_zero fs j : (forall f, In f fs -> length (e_pos f) <> 0%nat) ->
  frames_of (fun f => length (e_pos f)) j (map (fun f => ([0%nat], f)) fs) = match j with 0%nat => fs | _ => [] end.
Proof.
  induction fs as [|f fs IH]; intros H; [destruct j; reflexivity|]. unfold frames_of. cbn [map flat_map fst snd].
  fold (frames_of (fun f => length (e_pos f)) j (map (fun f => ([0%nat], f)) fs)). rewrite IH by (intros; apply H; cbn; auto).
  destruct (Nat.eqb_spec (length (e_pos f)) 0) as [E|_]; [destruct (H f (or_introl eq_refl) E)|]. destruct j; reflexivity.
Qed.

(** For any way to analyse a list of frames *)
Lemma lammps_file pfloat sub f32 junk wrap gimbal argsort fl calculate parse show mol wave scattering infile t0 r0 ok row rep
        N smax ts pre f0 rest text :
  runs wrap gimbal argsort fl calculate parse show mol wave scattering infile t0 r0 ok row rep -> (10 <= N)%nat ->
  path_suffix infile = ".lammpstrj"%string ->
  ignores_line_end pfloat -> (forall x, f32 (f32 x) = f32 x) ->
  text = render_all ts \/ text = crlf (render_all ts) ->
  Forall (well_formed pfloat) ts -> Forall has_positions ts ->
  steps_until smax ts pre -> Forall2 (written_as pfloat sub f32) pre (f0 :: rest) ->
  (forall f, In f (f0 :: rest) -> length (e_pos f) = N) -> ok f0 rest ->
  exists rows relax,
    analyse_lammps pfloat sub f32 junk wrap gimbal argsort fl calculate parse show mol wave scattering None infile true smax text t0 r0 =
      Ok {| out_result := inl None; out_table := Some rows; out_relax := Some relax |} /\
    written_by row rep (fun j fs => j = 0%nat /\ fs = f0 :: rest) rows relax.
Proof.
  intros Run HN Sx Ig Id Et Wf Hp Un Wr Sz Fo.
  destruct (C64_parse_back pfloat sub f32 junk ts Ig Wf) as (ds & Ep & Ds).
  assert (Ep' : parse_lammpstrj pfloat sub f32 junk text = {| items := ds; ending := Ok tt |}).
  { destruct Et as [-> | ->]; auto. rewrite C64_dos_line_ends; auto. }
  destruct (take_ok pfloat sub f32 smax ts ds pre Ds Un) as (ds' & Et' & Ds').
  assert (Sub : forall (P : tframe -> Prop), Forall P ts -> Forall P pre).
  { intros P H. destruct Un as (post & -> & _). apply Forall_app in H. apply H. }
  destruct (all_frames pfloat sub f32 Id pre ds' Ds' (Sub _ Hp)) as (fs & Ea & Fs).
  assert (fs = f0 :: rest) by (apply (written_all pfloat sub f32 pre); auto). subst fs.
  set (l := map (fun f => ([0%nat], f)) (f0 :: rest)) in *.
  assert (Fr : forall j, frames_of (fun f => length (e_pos f)) j l = match j with 0%nat => f0 :: rest | _ => [] end).
  { intros j. apply frames_zero. intros f I. rewrite (Sz f I). lia. }
  destruct (whole_list _ _ _ _ _ _ _ _ _ _ _ _ _ _ _ _ (fun j fs => j = 0%nat /\ fs = f0 :: rest) ([], None) (l, None) l Run) as (rows & relax & E & Wt).
  - right. auto.
  - intros j g r. rewrite Fr. split; [intros [-> ->]; reflexivity|]. destruct j; [auto|discriminate].
  - exists 0%nat, f0, rest. auto.
  - intros j g r [-> [= -> ->]]. exact Fo.
  - exists rows, relax. unfold analyse_lammps, lammps_reader, read_lammps_trajectory. rewrite Ep'. cbn [items ending].
    rewrite Et'. cbn [items ending]. rewrite Ea, E. auto.
Qed.

(** * C130 *)
(** Whatever the true motion [T]: if the frames [f0 :: rest], written in the file up to the
    first one after [steps_max], show it, the analysis writes a row for each of them, and
    relaxation times of every atom, for one key frame; Unix or DOS line ends. *)
Theorem C130_lammps pfloat sub f32 junk wrap gimbal argsort fl calculate parse show mol k scattering u
        (T : eframe -> truth) N v infile smax ts pre f0 rest text t0 r0 :
  wrap_ok wrap -> argsort_ok argsort -> rounds u fl -> 0 < k -> mol <> [] -> (10 <= N)%nat ->
  path_suffix infile = ".lammpstrj"%string ->
  get_filename_vars infile = inl v -> ~ unreadable parse (v_temperature v) -> ~ unreadable parse (v_pressure v) ->
  ignores_line_end pfloat -> (forall x, f32 (f32 x) = f32 x) ->
  text = render_all ts \/ text = crlf (render_all ts) ->
  Forall (well_formed pfloat) ts -> Forall has_positions ts ->
  steps_until smax ts pre -> Forall2 (written_as pfloat sub f32) pre (f0 :: rest) ->
  followable T N f0 rest ->
  exists rows relax,
    analyse_lammps pfloat sub f32 junk wrap gimbal argsort fl calculate parse show mol (Some k) scattering None infile true smax text t0 r0 =
      Ok {| out_result := inl None; out_table := Some rows; out_relax := Some relax |} /\
    written parse k scattering u T v N (fun j fs => j = 0%nat /\ fs = f0 :: rest) rows relax.
Proof.
  intros W Ar Fl Hk Hm HN Sx EV U1 U2 Ig Id Et Wf Hp Un Wr Fo.
  eapply lammps_file with (N := N); eauto; [apply runs_given; eauto|].
  intros f I. destruct Fo as (b & _ & _ & Sh & _). rewrite Forall_forall in Sh. apply (Sh f I).
Qed.
Print Assumptions C130_lammps.

(** ** An example: ten atoms at 4, -4 and 0 in a box from -5 to 5, which have moved to 4, 6 and
    10; the lines are in another order in the second frame, and the last frame is left out. *)
Open Scope string_scope.
Definition lt (step : Z) (x : string) (ids : list Z) : tframe :=
  {| t_step := step; t_flags := " pp pp pp"; t_x := ex_bound "-5" "5" ""; t_y := ex_bound "-5" "5" ""; t_z := ex_bound "0" "1" "";
     t_heads := ["id"; "x"; "y"; "z"]; t_atoms := map (fun k => [dec k; x; "0"; "0"]) ids; t_blank := false |}.
Definition up : list Z := [1; 2; 3; 4; 5; 6; 7; 8; 9; 10]%Z.
Definition lts := [lt 0 "4" up; lt 1000 "-4" (rev up); lt 2000 "0" up; lt 9000 "1" up].
Definition lfloat (s : string) : option R := option_map IZR (ex_float s).
Definition lf (step : Z) (x : R) : eframe := mkframe step [10; 10; 1; 0; 0; 0] (repeat (mk3 x 0 0) 10) (Some (repeat qone 10)).
Definition lT (f : eframe) : truth :=
  (repeat (mk3 (if (e_ts f =? 0)%Z then 4 else if (e_ts f =? 1000)%Z then 6 else 10) 0 0) 10, repeat 0 10).
Lemma lfloat_line_end : ignores_line_end lfloat.
Proof.
  intros w v H. unfold lfloat in *. destruct (ex_float w) as [n|] eqn:E; [|discriminate]. rewrite (C64_ex3 w n E). exact H.
Qed.
Lemma lt_id step x ids a k : atom_id (lt step x ids) a k <-> nth_error a 0 = Some (dec k).
Proof.
  split; [|intros H; exists 0%nat; split; auto; reflexivity].
  intros (c & C & K). unfold column in C. cbn in C. destruct c as [|[|[|[|c]]]]; try discriminate; auto. cbn in C. destruct c; discriminate.
Qed.
Lemma dec_inj a b : dec a = dec b -> a = b.
Proof. intros E. pose proof (py_int_dec a) as H. rewrite E, py_int_dec in H. congruence. Qed.
Lemma lt_ok step x ids : word x -> lfloat x <> None -> NoDup ids -> (forall k, In k ids -> 1 <= k <= Z.of_nat (length ids))%Z ->
  well_formed lfloat (lt step x ids).
Proof.
  intros Wx Fx ND Hk.
  assert (B : forall lo hi, word lo -> word hi -> lfloat lo <> None -> lfloat hi <> None -> ok_bound lfloat (ex_bound lo hi "")).
  { intros. unfold ok_bound. cbn. split; auto. split; auto. split; [apply no_end_dec; reflexivity|]. split; [left; reflexivity|auto]. }
  unfold well_formed. cbn [t_flags t_x t_y t_z t_heads t_atoms lt].
  split; [apply no_end_dec; reflexivity|]. do 3 (split; [apply B; solve [apply word_dec; reflexivity|discriminate]|]).
  split; [repeat (constructor; [apply word_dec; reflexivity|]); constructor|].
  split; [repeat (constructor; [cbn; intuition discriminate|]); constructor|].
  split; [cbn; auto|]. split; [cbn; intuition discriminate|]. split; [cbn; intuition discriminate|]. split.
  - intros a I. apply in_map_iff in I. destruct I as (k & <- & I). split; [reflexivity|]. split.
    + constructor; [apply dec_word|]. constructor; auto. do 2 (constructor; [apply word_dec; reflexivity|]). constructor.
    + split.
      * intros w [<-|[<-|[<-|[<-|[]]]]]; auto; try discriminate. unfold lfloat, ex_float. rewrite py_int_dec. discriminate.
      * exists k. split; [apply lt_id; reflexivity|]. unfold num_atoms. cbn [t_atoms lt]. rewrite map_length. auto.
  - intros i j a b k A1 B1 A2 B2. apply lt_id in A2, B2. rewrite nth_error_map in A1, B1.
    destruct (nth_error ids i) as [ki|] eqn:Ei; [|discriminate]. destruct (nth_error ids j) as [kj|] eqn:Ej; [|discriminate].
    cbn in A1, B1. injection A1 as <-. injection B1 as <-. cbn in A2, B2. injection A2 as A2. injection B2 as B2. apply dec_inj in A2, B2. subst.
    eapply NoDup_nth_error; eauto; [apply nth_error_Some; congruence|congruence].
Qed.
Lemma lt_as step x n ids : lfloat x = Some n -> NoDup ids -> length ids = 10%nat -> (forall k, In k ids -> 1 <= k <= 10)%Z ->
  written_as lfloat Rminus (fun r => r) (lt step x ids) (lf step n).
Proof.
  intros Fx ND L Hk. unfold written_as. cbn [e_ts e_box e_pos e_ori lf t_step t_x t_y t_z t_atoms lt]. rewrite map_length, L.
  split; [reflexivity|]. split; [|split; [reflexivity|split; [reflexivity|]]].
  - exists (5 - -5), (5 - -5), (1 - 0). split; [do 2 eexists; split; [reflexivity|split; reflexivity]|].
    split; [do 2 eexists; split; [reflexivity|split; reflexivity]|]. split; [do 2 eexists; split; [reflexivity|split; reflexivity]|].
    repeat f_equal; lra.
  - intros a k I K. apply lt_id in K. apply in_map_iff in I. destruct I as (k' & <- & I). cbn in K. injection K as K. apply dec_inj in K. subst k'.
    specialize (Hk k I). exists (mk3 n 0 0). split.
    + assert (Lk : (Z.to_nat (k - 1) < 10)%nat) by lia. rewrite (nth_error_nth' _ zero3) by (rewrite repeat_length; auto). rewrite nth_rep by auto. reflexivity.
    + unfold number. cbn [x3 y3 z3]. split; [exists 1%nat, x, n|split; [exists 2%nat, "0", 0|exists 3%nat, "0", 0]]; repeat (split; [reflexivity || auto|]); reflexivity || auto.
Qed.
Lemma lf_shown step x y : lT (lf step x) = (repeat (mk3 y 0 0) 10, repeat 0 10) -> (exists i, x - y = IZR i * 10) -> shown_in lT ebox 10 (lf step x).
Proof.
  intros E (i & Hi). unfold shown_in. rewrite E. cbn [fst snd lf e_pos e_ori]. rewrite !repeat_length. split; [|split; [|split]]; auto.
  - apply Forall2_repeat. exists i, 0%Z, 0%Z. split; auto. unfold lattice, sub3. cbn [x3 y3 z3 bx by_ bz MotionModel.bxy MotionModel.bxz MotionModel.byz ebox]. apply v3_eq; lra.
  - eexists. split; [reflexivity|]. apply Forall2_repeat. left. unfold zquat, qone. replace (0 / 2) with 0 by lra. rewrite cos_0, sin_0. reflexivity.
Qed.
Lemma up_ok : NoDup up /\ (forall k, In k up -> 1 <= k <= 10)%Z.
Proof.
  split.
  - repeat (constructor; [cbn; intuition lia|]). constructor.
  - intros k I. cbn in I. intuition lia.
Qed.
Lemma rev_ok : NoDup (rev up) /\ (forall k, In k (rev up) -> 1 <= k <= 10)%Z.
Proof.
  split.
  - cbn. repeat (constructor; [cbn; intuition lia|]). constructor.
  - intros k I. cbn in I. intuition lia.
Qed.
Lemma l_followable : followable lT 10 (lf 0 4) [lf 1000 (-4); lf 2000 0].
Proof.
  assert (Pl : forall s x, plane_box (lf s x) ebox) by (intros; exists 10, 10, 1; right; exists 0, 0, 0; split; reflexivity).
  pose proof PI_RGT_0. exists ebox. split; [apply Pl|]. split; [apply ebox_ok|]. split; [|split].
  - constructor; [apply lf_shown with (y := 4); [reflexivity|exists 0%Z; lra]|]. constructor; [apply lf_shown with (y := 6); [reflexivity|exists (-1)%Z; lra]|].
    constructor; [apply lf_shown with (y := 10); [reflexivity|exists (-1)%Z; lra]|constructor].
  - cbn [map chain]. split; [apply (e_slow 4 6 0 0)|split; [apply (e_slow 6 10 0 0)|auto]]; apply Rabs_def1; lra.
  - intros f I. exists ebox. destruct I as [<-|[<-|[]]]; apply Pl.
Qed.
Example C130_example : exists rows relax,
  analyse_lammps lfloat Rminus (fun r => r) (fun _ => 77) freud_wrap (fun _ => zero3) sort_index fl100 (fun _ _ => inr ValueError) ex_pf (fun _ => EmptyString)
    [mk3 0 1 0] (Some 2) true None "dump-Trimer-P13.50-T1.20.lammpstrj" true (Some 5000%Z) (crlf (render_all lts)) None None =
    Ok {| out_result := inl None; out_table := Some rows; out_relax := Some relax |} /\
  Forall2 (row_for lT ex_pf gv 2 10 true 0 (lf 0 4)) [lf 0 4; lf 1000 (-4); lf 2000 0] (key_rows 0 rows) /\
  key_rows 1 rows = [].
Proof.
  destruct up_ok as [U1 U2], rev_ok as [V1 V2].
  destruct (C130_lammps lfloat Rminus (fun r => r) (fun _ => 77) freud_wrap (fun _ => zero3) sort_index fl100 (fun _ _ => inr ValueError) ex_pf (fun _ => EmptyString)
    [mk3 0 1 0] 2 true (1 / 100) lT 10 gv "dump-Trimer-P13.50-T1.20.lammpstrj" (Some 5000%Z) lts
    [lt 0 "4" up; lt 1000 "-4" (rev up); lt 2000 "0" up] (lf 0 4) [lf 1000 (-4); lf 2000 0] (crlf (render_all lts)) None None
    freud_wrap_ok sort_index_ok fl100_rounds ltac:(lra) ltac:(discriminate) ltac:(lia) eq_refl eq_refl) as (rows & relax & E & ND & W0 & W1).
  - intros (x & [= <-] & U). vm_compute in U. discriminate.
  - intros (x & [= <-] & U). vm_compute in U. discriminate.
  - apply lfloat_line_end.
  - reflexivity.
  - right. reflexivity.
  - repeat (constructor; [apply lt_ok; [apply word_dec; reflexivity|discriminate|auto|auto]|]). constructor.
  - repeat (constructor; [split; [cbn; auto|split; cbn; auto]|]). constructor.
  - exists [lt 9000 "1" up]. split; [reflexivity|]. split.
    + intros m t [= <-] [<-|[<-|[<-|[]]]]; cbn; lia.
    + right. do 3 eexists. split; [reflexivity|]. split; [reflexivity|]. cbn. lia.
  - repeat (constructor; [apply lt_as; auto|]). constructor.
  - apply l_followable.
  - exists rows, relax. split; [exact E|]. split; [apply (W1 0%nat); auto|]. apply (W0 1%nat). intros f0 rest [? _]. discriminate.
Qed.
