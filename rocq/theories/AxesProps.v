(** C213: the directions of the axes. *)
From Coq Require Import String Reals ZArith QArith Qreals List Bool Lra Lia.
From Verif Require Import Base DictFacts XNum RVec RVecFacts RelaxFitModel FrameModel MotionModel MotionSpec MotionProofs MotionProps
  DynModel DynSpec DynProofs DynStruct DynProps DynPerm DynTrue
  MolRelaxModel MolRelaxSpec MolRelaxProofs MolRelaxDefs MolRelaxProps
  WriteCacheModel ProcessModel ProcessSpec ProcessProofs ProcessProps ParamsModel ProcessPathModel ProcessPathProps EndModel EndSpec EndProofs EndProps SkipProps AxesSpec.
Import ListNotations.
Open Scope list_scope.
Open Scope R_scope.
Notation length := List.length.

(** ** Sums around the circle *)
Definition around (n : nat) (G : Z -> R) : R := rsum (map (fun j => G (Z.of_nat j)) (seq 0 n)).
Lemma rsum_snoc l x : rsum (l ++ [x]) = rsum l + x.
Proof. unfold rsum. induction l as [|y l IH]; cbn [app fold_right]; [lra|]. rewrite IH. lra. Qed.
Lemma rsum_rev l : rsum (rev l) = rsum l.
Proof. induction l as [|x l IH]; auto. change (rev (x :: l)) with (rev l ++ [x]). rewrite rsum_snoc, IH. unfold rsum. cbn [fold_right]. lra. Qed.
Lemma around_ext n G H : (forall z, G z = H z) -> around n G = around n H.
Proof. intros E. unfold around. f_equal. apply map_ext. auto. Qed.
Lemma around_S n G : around (S n) G = around n G + G (Z.of_nat n).
Proof. unfold around. rewrite seq_S, map_app. cbn [map]. rewrite rsum_snoc. reflexivity. Qed.
Lemma around_back n G : around n (fun z => G (z - 1)%Z) + G (Z.of_nat n - 1)%Z = around n G + G (-1)%Z.
Proof.
  induction n as [|n IH]; [unfold around; cbn; lra|]. rewrite !around_S. replace (Z.of_nat (S n) - 1)%Z with (Z.of_nat n) by lia. lra.
Qed.
Lemma around_shift n G m : (forall z, G (z + Z.of_nat n)%Z = G z) -> around n (fun z => G (z - Z.of_nat m)%Z) = around n G.
Proof.
  revert G. induction m as [|m IH]; intros G Per; [apply around_ext; intros z; f_equal; lia|].
  assert (P1 : forall z, G (z + Z.of_nat n - 1)%Z = G (z - 1)%Z).
  { intros z. replace (z + Z.of_nat n - 1)%Z with (z - 1 + Z.of_nat n)%Z by lia. apply Per. }
  assert (A := IH (fun z => G (z - 1)%Z) P1). cbv beta in A.
  transitivity (around n (fun z => G (z - 1)%Z)).
  - rewrite <- A. apply around_ext. intros z. f_equal. lia.
  - assert (B := around_back n G). assert (C := Per (-1)%Z). replace (-1 + Z.of_nat n)%Z with (Z.of_nat n - 1)%Z in C by lia. lra.
Qed.
Lemma around_shiftZ n G m : (forall z, G (z + Z.of_nat n)%Z = G z) -> around n (fun z => G (z - m)%Z) = around n G.
Proof.
  intros Per. destruct (Z_le_gt_dec 0 m) as [H|H].
  - rewrite <- (Z2Nat.id m H). apply around_shift, Per.
  - assert (P1 : forall z, G (z + Z.of_nat n - m)%Z = G (z - m)%Z).
    { intros z. replace (z + Z.of_nat n - m)%Z with (z - m + Z.of_nat n)%Z by lia. apply Per. }
    assert (A := around_shift n (fun z => G (z - m)%Z) (Z.to_nat (- m)) P1). cbv beta in A. rewrite <- A.
    apply around_ext. intros z. f_equal. lia.
Qed.
Lemma around_rev n G : (forall z, G (z + Z.of_nat n)%Z = G z) -> around n (fun z => G (- z)%Z) = around n G.
Proof.
  intros Per. rewrite <- (around_shiftZ n G (Z.of_nat n - 1)%Z Per). unfold around.
  rewrite <- rsum_rev, <- map_rev. f_equal. clear Per.
  assert (E : forall m k, rev (seq k m) = map (fun j => (2 * k + m - 1 - j)%nat) (seq k m)).
  { induction m as [|m IH]; intros k; auto. rewrite seq_S at 1. rewrite rev_app_distr, IH. cbn [rev app seq map]. f_equal; [lia|].
    rewrite <- seq_shift, map_map. apply map_ext. intros j. lia. }
  rewrite E, map_map. apply map_ext_in. intros j J. apply in_seq in J. f_equal. lia.
Qed.

(** ** The same motion in other axes *)
Section Axes.
  Variables (th : R) (m : bool) (a : v3) (s : Z) (T T' : eframe -> truth) (n : nat).
  Let R := same_motion th m a s T T'.

  Lemma new_difference p q : let d := sub3 p q in let y := if m then - y3 d else y3 d in
    sub3 (new_point th m a p) (new_point th m a q) = mk3 (cos th * x3 d - sin th * y) (sin th * x3 d + cos th * y) (z3 d).
  Proof. cbv zeta. unfold new_point, sub3. cbn [x3 y3 z3]. destruct m; apply v3_eq; lra. Qed.
  Lemma unit_circle : cos th * cos th + sin th * sin th = 1.
  Proof. pose proof (sin2_cos2 th) as H. unfold Rsqr in H. lra. Qed.
  Lemma new_norm2 p q : norm2_3 (sub3 (new_point th m a p) (new_point th m a q)) = norm2_3 (sub3 p q).
  Proof.
    rewrite new_difference. set (d := sub3 p q). unfold norm2_3, dot3. cbn [x3 y3 z3]. pose proof unit_circle as U.
    assert (Y : forall y, (cos th * x3 d - sin th * y) * (cos th * x3 d - sin th * y) + (sin th * x3 d + cos th * y) * (sin th * x3 d + cos th * y) + z3 d * z3 d =
                          x3 d * x3 d + y * y + z3 d * z3 d).
    { intros y. transitivity ((cos th * cos th + sin th * sin th) * (x3 d * x3 d + y * y) + z3 d * z3 d); [ring|]. rewrite U. ring. }
    rewrite Y. destruct m; ring.
  Qed.
  Lemma zip_new l l' : displacement2 (zip sub3 (map (new_point th m a) l) (map (new_point th m a) l')) = displacement2 (zip sub3 l l').
  Proof.
    unfold displacement2. revert l'. induction l as [|p l IH]; intros [|q l']; auto. cbn [map zip]. rewrite new_norm2.
    apply (f_equal2 (@cons _)); auto.
  Qed.
  Lemma norm3_map d : displacement d = map sqrt (displacement2 d).
  Proof. unfold displacement, displacement2. rewrite map_map. reflexivity. Qed.
  Lemma spin_new l l' : displacement2 (map (fun t => mk3 t 0 0) (zip Rminus (map (new_angle th m) l) (map (new_angle th m) l'))) =
                        displacement2 (map (fun t => mk3 t 0 0) (zip Rminus l l')).
  Proof.
    unfold displacement2. revert l'. induction l as [|p l IH]; intros [|q l']; auto. cbn [map zip].
    apply (f_equal2 (@cons _)); auto. unfold norm2_3, dot3, new_angle. cbn [x3 y3 z3]. destruct m; ring.
  Qed.
  Lemma moved_new f0 f0' f f' i : R f0 f0' -> R f f' -> length (fst (T f0)) = n -> length (fst (T f)) = n -> (i < n)%nat ->
    moved2 (T' f0') (T' f') i = moved2 (T f0) (T f) i.
  Proof.
    intros (_ & E0 & _) (_ & E & _) L0 L Hi. unfold moved2, pos. rewrite E0, E. rewrite !(nth_map _ _ zero3) by lia.
    assert (H := new_norm2 (nth i (fst (T f)) zero3) (nth i (fst (T f0)) zero3)). unfold norm2_3, dot3, sub3 in H. cbn [x3 y3 z3] in H. lra.
  Qed.
  Lemma angle_new f0 f0' f f' i : R f0 f0' -> R f f' -> length (snd (T f0)) = n -> length (snd (T f)) = n -> (i < n)%nat ->
    Rabs (angle (T' f0') (T' f') i) = Rabs (angle (T f0) (T f) i).
  Proof.
    intros (_ & _ & E0) (_ & _ & E) L0 L Hi. unfold angle, ang. rewrite E0, E. rewrite !(nth_map _ _ 0) by lia.
    unfold new_angle. destruct m; [|f_equal; lra]. rewrite <- Rabs_Ropp. f_equal. lra.
  Qed.

  (** The scattering function, for whole degrees *)
  Lemma scattered k f0 f0' f f' : R f0 f0' -> R f f' -> length (fst (T f0)) = n -> length (fst (T f)) = n -> degrees th ->
    avg 360 (fun j => avg n (fun i => cos (k * (cos (2 * PI * INR j / INR 360) * (x3 (pos (T' f') i) - x3 (pos (T' f0') i)) +
                                               sin (2 * PI * INR j / INR 360) * (y3 (pos (T' f') i) - y3 (pos (T' f0') i)))))) =
    avg 360 (fun j => avg n (fun i => cos (k * (cos (2 * PI * INR j / INR 360) * (x3 (pos (T f) i) - x3 (pos (T f0) i)) +
                                               sin (2 * PI * INR j / INR 360) * (y3 (pos (T f) i) - y3 (pos (T f0) i)))))).
  Proof.
    intros (_ & E0 & _) (_ & E & _) L0 L (c & Hc).
    assert (I360 : INR 360 = 360) by (rewrite INR_IZR_INZ; reflexivity).
    set (F := fun t => avg n (fun i => cos (k * (cos t * (x3 (pos (T f) i) - x3 (pos (T f0) i)) + sin t * (y3 (pos (T f) i) - y3 (pos (T f0) i)))))).
    set (G := fun z => F (2 * PI * IZR z / 360)).
    assert (Per : forall z, G (z + Z.of_nat 360)%Z = G z).
    { intros z. unfold G. replace (2 * PI * IZR (z + Z.of_nat 360) / 360) with (2 * PI * IZR z / 360 + 2 * PI).
      2: { rewrite plus_IZR. change (Z.of_nat 360) with 360%Z. field. }
      unfold F. rewrite cos_plus, sin_plus, cos_2PI, sin_2PI. unfold avg. rewrite !fold_rsum. f_equal. f_equal. f_equal. apply map_ext. intros i. f_equal. ring. }
    assert (A : forall h : nat -> Rdefinitions.R, avg 360 h = rsum (map h (seq 0 360)) / INR 360).
    { intros h. unfold avg. rewrite fold_rsum, Rplus_0_l. reflexivity. }
    rewrite !A. f_equal.
    transitivity (around 360 G).
    - transitivity (around 360 (fun z => if m then G (- (z - c))%Z else G (z - c)%Z)).
      + unfold around. f_equal. apply map_ext. intros j.
        transitivity (F (if m then - (2 * PI * INR j / INR 360 - th) else 2 * PI * INR j / INR 360 - th)).
        * unfold F, avg. rewrite !fold_rsum. f_equal. f_equal. f_equal. apply map_ext_in. intros i Hi. apply in_seq in Hi.
          unfold pos. rewrite E0, E. rewrite !(nth_map _ _ zero3) by lia.
          set (p := nth i (fst (T f)) zero3). set (q := nth i (fst (T f0)) zero3). f_equal. f_equal.
          set (t := 2 * PI * INR j / INR 360). unfold new_point. cbn [x3 y3]. destruct m; [rewrite cos_neg, sin_neg|]; rewrite cos_minus, sin_minus; ring.
        * unfold G. rewrite Hc, I360, INR_IZR_INZ. destruct m; f_equal; rewrite ?opp_IZR, minus_IZR; field.
      + destruct m.
        * rewrite (around_shiftZ 360 (fun z => G (- z)%Z) c); [apply around_rev, Per|]. intros z.
          replace (- (z + Z.of_nat 360))%Z with (- z - Z.of_nat 360)%Z by lia. rewrite <- (Per (- z - Z.of_nat 360)%Z). f_equal. lia.
        * apply (around_shiftZ 360 G c Per).
    - unfold around. f_equal. apply map_ext. intros j. unfold G. rewrite I360, <- INR_IZR_INZ. reflexivity.
  Qed.
End Axes.

Section Rows.
  Variables (argsort : list R -> list nat).
  Lemma rows_agree d d' ts ts' sc q q' : quantities argsort d ts sc = inl q -> quantities argsort d' ts' sc = inl q' ->
    (ts - d_timestep d = ts' - d_timestep d')%Z -> d_wave d = d_wave d' -> d_mol d = d_mol d' ->
    displacement2 (m_dt (d_motion d)) = displacement2 (m_dt (d_motion d')) ->
    displacement2 (m_dr (d_motion d)) = displacement2 (m_dr (d_motion d')) ->
    forall name, name <> "struct"%string ->
      (name = "scattering_function"%string -> forall k, d_wave d = Some k -> isf k (d_res d) (m_dt (d_motion d)) = isf k (d_res d') (m_dt (d_motion d'))) ->
      dget String.eqb name q = dget String.eqb name q'.
  Proof.
    intros Q Q' Et Ew Em D1 D2 name Ns Sc.
    destruct (quantities_row _ _ _ _ _ Q) as (al & dist & ar & g & ov & st & H1 & H2 & H3 & H4 & H5 & _ & ->).
    destruct (quantities_row _ _ _ _ _ Q') as (al' & dist' & ar' & g' & ov' & st' & H1' & H2' & H3' & H4' & H5' & _ & ->).
    unfold alpha in *. unfold gamma in *. unfold distance in *. rewrite !norm3_map in H5, H5'.
    rewrite D1, Ew in *. rewrite D2 in *. rewrite Et.
    rewrite H1 in H1'. rewrite H2 in H2'. rewrite H3 in H3'. rewrite H4 in H4'. rewrite H5 in H5'.
    injection H1' as <-. injection H2' as <-. injection H3' as <-. injection H4' as <-. injection H5' as <-.
    unfold row, msd, mfd, mean_rotation, msr, rot1, rot2. rewrite !norm3_map, D1, D2.
    cbn [dget].
    repeat match goal with |- (if String.eqb ?x ?y then _ else _) = _ =>
      let E := fresh "E" in destruct (String.eqb x y) eqn:E; [apply String.eqb_eq in E|clear E] end; try reflexivity; try congruence.
    destruct sc, (d_wave d') as [k|]; auto. rewrite (Sc E k eq_refl). reflexivity.
  Qed.
End Rows.
Section Films.
  Variables (wrap : fbox -> v3 -> v3) (gimbal : RVec.quat -> v3) (argsort : list R -> list nat) (fl : R -> xnum)
            (calculate : fbox -> list v3 -> R + exn) (parse : string -> option xnum) (show : yaml -> string)
            (mol : list v3) (k : R) (scattering : bool) (u : R).
  Notation analyse := (analyse wrap gimbal argsort fl calculate parse show mol (Some k) scattering None).
  Notation npos := (fun f => length (e_pos f)).
  Notation kw := (fun _ : eframe => k).

  Lemma shown_lengths T b N f : shown_in T b N f -> length (fst (T f)) = N /\ length (snd (T f)) = N.
  Proof. intros (Im & L & Lt & _). split; auto. rewrite <- (Forall2_len _ _ _ Im). auto. Qed.
  Lemma follow_lengths T N f0 rest : followable T N f0 rest -> Forall (fun f => length (fst (T f)) = N /\ length (snd (T f)) = N) (f0 :: rest).
  Proof. intros (b & _ & _ & F & _). eapply Forall_impl; [|exact F]. intros f. apply shown_lengths. Qed.
  Lemma hist_same th m a s T T' N f0 f0' fs fs' ty : same_motion th m a s T T' f0 f0' -> Forall2 (same_motion th m a s T T') fs fs' ->
    (length (fst (T f0)) = N /\ length (snd (T f0)) = N) -> Forall (fun f => length (fst (T f)) = N /\ length (snd (T f)) = N) fs ->
    hist fl T N f0 fs ty = hist fl T' N f0' fs' ty.
  Proof.
    intros H0 F [L0 L0'] Fl. unfold hist. induction F as [|f f' fs fs' H F IH]; auto. inversion Fl as [|? ? [L L'] Fl']; subst. cbn [map].
    apply (f_equal2 (@cons _)); [|apply IH; auto]. f_equal.
    - destruct H0 as (-> & _). destruct H as (-> & _). lia.
    - unfold far. apply map_ext_in. intros i I. apply in_seq in I. f_equal. destruct ty.
      + symmetry. apply (angle_new th m a s T T' (length (fst (T f0)))); auto; lia.
      + f_equal. symmetry. apply (moved_new th m a s T T' (length (fst (T f0)))); auto; lia.
  Qed.

  (** Two films of the same motion, in other axes and perhaps with other boxes *)
  Theorem C213_axes_partial (T T' : eframe -> truth) N infile v gsd lammps l gsd' lammps' l' t0 r0 th m a s :
    wrap_ok wrap -> argsort_ok argsort -> rounds u fl -> 0 < k -> mol <> [] -> (10 <= N)%nat ->
    get_filename_vars infile = inl v -> ~ unreadable parse (v_temperature v) -> ~ unreadable parse (v_pressure v) ->
    holds infile gsd lammps l -> holds infile gsd' lammps' l' ->
    (exists K, frames_of npos K l <> []) ->
    (forall K f0 rest, frames_of npos K l = f0 :: rest -> followable T N f0 rest) ->
    (forall K f0 rest, frames_of npos K l' = f0 :: rest -> followable T' N f0 rest) ->
    (forall K, Forall2 (same_motion th m a s T T') (frames_of npos K l) (frames_of npos K l')) ->
    exists rows relax rows' relax',
      analyse infile true gsd lammps t0 r0 = {| out_result := inl None; out_table := Some rows; out_relax := Some relax |} /\
      analyse infile true gsd' lammps' t0 r0 = {| out_result := inl None; out_table := Some rows'; out_relax := Some relax' |} /\
      (forall K, Forall2 (fun p p' => fst p = fst p' /\ lb_keyframe (snd p) = lb_keyframe (snd p') /\
           lb_temperature (snd p) = lb_temperature (snd p') /\ lb_pressure (snd p) = lb_pressure (snd p') /\
           forall name, name <> "struct"%string -> (name = "scattering_function"%string -> degrees th) ->
             dget String.eqb name (lb_row (snd p)) = dget String.eqb name (lb_row (snd p')))
         (key_rows K rows) (key_rows K rows')) /\
      (forall K, In K (map fst relax) <-> In K (map fst relax')) /\
      (forall K t t', In (K, t) relax -> In (K, t') relax' -> t = t').
  Proof.
    intros W Ar Fl Hk Hm HN EV U1 U2 Ho Ho' Ne Fo Fo' Sm.
    assert (Ne' : exists K, frames_of npos K l' <> []).
    { destruct Ne as (K & NE). exists K. intros E. specialize (Sm K). rewrite E in Sm. inversion Sm as [X|]. congruence. }
    destruct (film wrap gimbal argsort fl calculate parse show mol k scattering u T N infile v gsd lammps l t0 r0 W Ar Fl Hk Hm HN EV U1 U2 Ho Ne Fo) as (rows & relax & A & R & S).
    destruct (film wrap gimbal argsort fl calculate parse show mol k scattering u T' N infile v gsd' lammps' l' t0 r0 W Ar Fl Hk Hm HN EV U1 U2 Ho' Ne' Fo') as (rows' & relax' & A' & R' & S').
    destruct (C126_trajectory wrap gimbal argsort fl calculate parse show mol k scattering u T N infile v gsd lammps l t0 r0 W Ar Fl Hk Hm HN EV U1 U2 Ho Ne Fo) as (rows1 & relax1 & A1 & Em & _ & _ & Kx & _).
    destruct (C126_trajectory wrap gimbal argsort fl calculate parse show mol k scattering u T' N infile v gsd' lammps' l' t0 r0 W Ar Fl Hk Hm HN EV U1 U2 Ho' Ne' Fo') as (rows2 & relax2 & A2 & Em' & _ & _ & Kx' & _).
    rewrite A in A1. injection A1 as <- <-. rewrite A' in A2. injection A2 as <- <-.
    exists rows, relax, rows', relax'. split; [exact A|]. split; [exact A'|].
    assert (Cs : forall K, (frames_of npos K l = [] /\ frames_of npos K l' = []) \/
              exists f0 rest f0' rest', frames_of npos K l = f0 :: rest /\ frames_of npos K l' = f0' :: rest' /\
                 same_motion th m a s T T' f0 f0' /\ Forall2 (same_motion th m a s T T') (f0 :: rest) (f0' :: rest')).
    { intros K. specialize (Sm K). destruct (frames_of npos K l) as [|f0 rest], (frames_of npos K l') as [|f0' rest']; try solve [inversion Sm].
      - left. auto.
      - right. exists f0, rest, f0', rest'. split; [auto|]. split; [auto|]. split; [inversion Sm; auto|auto]. }
    split; [|split].
    - intros K. destruct (Cs K) as [[E E']|(f0 & rest & f0' & rest' & E & E' & H0 & F)].
      { rewrite Em, Em' by auto. constructor. }
      specialize (R K f0 rest E). specialize (R' K f0' rest' E'). assert (Ls := follow_lengths T N f0 rest (Fo K f0 rest E)).
      assert (L0 : length (fst (T f0)) = N /\ length (snd (T f0)) = N) by (inversion Ls; auto).
      assert (Ls' := follow_lengths T' N f0' rest' (Fo' K f0' rest' E')).
      assert (L0' : length (fst (T' f0')) = N /\ length (snd (T' f0')) = N) by (inversion Ls'; auto).
      clear E E'. revert F R R' Ls Ls'. generalize (f0' :: rest') as fs', (key_rows K rows') as ps', (f0 :: rest) as fs, (key_rows K rows) as ps.
      intros fs' ps' fs ps F. revert ps ps'. induction F as [|f f' fs fs' H F IH]; intros ps ps' R R' Ls Ls'.
      + inversion R. inversion R'. constructor.
      + inversion R as [|? p ? pr X R1]; subst. inversion R' as [|? p' ? pr' X' R1']; subst.
        inversion Ls as [|? ? [La Lb] Ls1]; subst. inversion Ls' as [|? ? [La' Lb'] Ls1']; subst.
        constructor; [|apply IH; auto]. clear IH R1 R1' R R' Ls Ls' Ls1 Ls1' F.
        destruct X as (b & row & _ & Q & Lb1 & Ek). destruct X' as (b' & row' & _ & Q' & Lb1' & Ek').
        split; [congruence|].
        assert (Lab : forall x o, label_vars (Row := dict string dval) parse v K x = inl o ->
                   lb_keyframe o = K /\ lb_row o = x /\ exists t q, column parse (v_temperature v) = inl t /\ column parse (v_pressure v) = inl q /\ lb_temperature o = t /\ lb_pressure o = q).
        { intros x o. unfold label_vars, ebind. destruct (column parse (v_temperature v)) as [t|e]; [|discriminate].
          destruct (column parse (v_pressure v)) as [q|e]; [|discriminate]. intros [= <-]. cbn. split; auto. split; auto. exists t, q. auto. }
        destruct (Lab _ _ Lb1) as (K1 & Rw1 & t1 & q1 & Z1 & Z2 & Z3 & Z4). destruct (Lab _ _ Lb1') as (K2 & Rw2 & t2 & q2 & Z1' & Z2' & Z3' & Z4').
        split; [congruence|]. split; [congruence|]. split; [congruence|].
        intros name Ns Sc. rewrite Rw1, Rw2.
        refine (rows_agree argsort _ _ _ _ _ _ _ Q Q' _ _ _ _ _ name Ns _).
        * cbn [true_dyn d_timestep]. destruct H0 as (-> & _). destruct H as (-> & _). lia.
        * reflexivity.
        * reflexivity.
        * cbn [true_dyn d_motion m_dt]. destruct H0 as (_ & -> & _). destruct H as (_ & -> & _). symmetry. exact (zip_new th m a s T T' _ _).
        * cbn [true_dyn d_motion m_dr]. destruct H0 as (_ & _ & ->). destruct H as (_ & _ & ->). symmetry. exact (spin_new th m a s T T' _ _).
        * intros En k0 [= <-]. cbn [true_dyn d_motion d_res m_dt]. destruct L0 as [P1 P2]. destruct L0' as [P1' P2'].
          rewrite (v_isf (T f0) (T f) (length (fst (T f)))), (v_isf (T' f0') (T' f') (length (fst (T f)))); try lia.
          symmetry. apply (scattered th m a s T T' (length (fst (T f)))); auto.
    - intros K. rewrite Kx, Kx'. destruct (Cs K) as [[-> ->]|(f0 & rest & f0' & rest' & -> & -> & _)]; [tauto|]. split; intros _; discriminate.
    - intros K t t' I I'. destruct (Cs K) as [[E E']|(f0 & rest & f0' & rest' & E & E' & H0 & F)].
      { exfalso. assert (X : In K (map fst relax)) by (apply in_map_iff; exists (K, t); auto). apply Kx in X. congruence. }
      rewrite (S K f0 rest t E I), (S' K f0' rest' t' E' I'). assert (Ls := follow_lengths T N f0 rest (Fo K f0 rest E)).
      assert (L0 : length (fst (T f0)) = N /\ length (snd (T f0)) = N) by (inversion Ls; auto).
      change (six fl kw N f0') with (six fl kw N f0). apply map_ext. intros p. f_equal. f_equal. f_equal.
      apply (hist_same th m a s T T' N); auto.
  Qed.
End Films.
Print Assumptions C213_axes_partial.

(** ** Examples *)
Lemma Forall2_impl {A B} (P Q : A -> B -> Prop) l l' : (forall x y, P x y -> Q x y) -> Forall2 P l l' -> Forall2 Q l l'.
Proof. intros H F. induction F; auto. Qed.
(** Ten molecules move by 2 along x and turn by a right angle; the same in axes turned by a
    right angle. *)
Definition gf (ts : Z) (x y : R) (q : RVec.quat) : eframe :=
  mkframe ts [10; 10; 1; 0; 0; 0] (repeat (mk3 x y 0) 10) (Some (repeat q 10)).
Definition ga0 := gf 0 0 0 (zquat 0).
Definition ga1 := gf 100 2 0 (zquat (PI / 2)).
Definition gb0 := gf 0 0 0 (zquat (PI / 2)).
Definition gb1 := gf 100 0 2 (zquat PI).
Definition gT (a b : R) (f : eframe) : truth := (e_pos f, repeat (if (e_ts f =? 0)%Z then a else b) 10).
Definition gfilm (f0 f1 : eframe) : list (list nat * eframe) := [([0%nat], f0); ([0%nat], f1)].
Definition g_run (l : list (list nat * eframe)) := analyse freud_wrap (fun _ => zero3) sort_index fl100 (fun _ _ => inr ValueError) ex_pf (fun _ => EmptyString)
  [mk3 0 1 0] (Some 1) true None e_name true (l, None) ([], None) None None.
Definition gvars := {| v_temperature := Some "1.20"%string; v_pressure := Some "13.50"%string; v_crystal := None; v_iteration := None |}.

Lemma map_rep {A B} (f : A -> B) x n : map f (repeat x n) = repeat (f x) n.
Proof. induction n as [|n IH]; auto. cbn [repeat map]. rewrite IH. reflexivity. Qed.
Lemma zip_rep {A B C} (f : A -> B -> C) x y n : zip f (repeat x n) (repeat y n) = repeat (f x y) n.
Proof. induction n as [|n IH]; auto. cbn [repeat zip]. rewrite IH. reflexivity. Qed.
Lemma g_shown a b ts x y q : turned q (if (ts =? 0)%Z then a else b) -> shown_in (gT a b) ebox 10 (gf ts x y q).
Proof.
  intros Tq. unfold shown_in, gT, gf. cbn [fst snd e_pos e_ori e_ts]. rewrite !repeat_length. split; [|split; [|split]]; auto.
  - apply Forall2_repeat. exists 0%Z, 0%Z, 0%Z. split; auto. unfold lattice, sub3. cbn [x3 y3 z3 bx by_ bz bxy bxz byz ebox]. apply v3_eq; lra.
  - eexists. split; [reflexivity|]. apply Forall2_repeat. auto.
Qed.
Lemma g_slow a b x y q q' : Rabs x < 5 -> Rabs y < 5 -> Rabs (b - a) < PI -> slow ebox (gT a b (gf 0 0 0 q)) (gT a b (gf 100 x y q')).
Proof.
  intros Hx Hy Hb. unfold slow, gT, gf. cbn [fst snd e_pos e_ts Z.eqb]. split; apply Forall2_repeat; auto.
  unfold sub3. cbn [x3 y3 z3]. unfold below_half, coord_a, coord_b. cbn [x3 y3 z3 bx by_ bz bxy bxz byz ebox b2d].
  apply Rabs_def2 in Hx. apply Rabs_def2 in Hy. split; [apply Rabs_def1; lra|]. split; [apply Rabs_def1; lra|]. split; [intros; lra|discriminate].
Qed.
Lemma g_followable a b x y q q' : Rabs x < 5 -> Rabs y < 5 -> Rabs (b - a) < PI -> turned q a -> turned q' b ->
  forall K f0 rest, frames_of (fun f => length (e_pos f)) K (gfilm (gf 0 0 0 q) (gf 100 x y q')) = f0 :: rest -> followable (gT a b) 10 f0 rest.
Proof.
  intros Hx Hy Hb Ta Tb K f0 rest E. assert (C : f0 :: rest = [gf 0 0 0 q; gf 100 x y q']) by (destruct K as [|K]; cbn in E; auto; discriminate).
  injection C as -> ->. exists ebox.
  assert (Pl : forall ts x y q, plane_box (gf ts x y q) ebox) by (intros; exists 10, 10, 1; right; exists 0, 0, 0; split; reflexivity).
  split; [apply Pl|]. split; [apply ebox_ok|]. split; [|split].
  - apply Forall_cons; [apply g_shown; auto|]. apply Forall_cons; [apply g_shown; auto|apply Forall_nil].
  - cbn [map chain]. split; auto. apply g_slow; auto.
  - intros f [<-|[]]; eexists; apply Pl.
Qed.
Lemma g_films :
  (forall K f0 rest, frames_of (fun f => length (e_pos f)) K (gfilm ga0 ga1) = f0 :: rest -> followable (gT 0 (PI / 2)) 10 f0 rest) /\
  (forall K f0 rest, frames_of (fun f => length (e_pos f)) K (gfilm gb0 gb1) = f0 :: rest -> followable (gT (PI / 2) PI) 10 f0 rest) /\
  (forall K, Forall2 (same_motion (PI / 2) false zero3 0 (gT 0 (PI / 2)) (gT (PI / 2) PI))
     (frames_of (fun f => length (e_pos f)) K (gfilm ga0 ga1)) (frames_of (fun f => length (e_pos f)) K (gfilm gb0 gb1))) /\ degrees (PI / 2).
Proof.
  pose proof pi_above_3. split; [|split; [|split]].
  - apply g_followable; try (apply Rabs_def1; lra); left; auto.
  - apply g_followable; try (apply Rabs_def1; lra); left; auto.
  - intros K. destruct K as [|K]; [|constructor]. cbn [gfilm frames_of]. 
    assert (Sm : forall ts x y q x' y' q', x' = - y -> y' = x ->
       same_motion (PI / 2) false zero3 0 (gT 0 (PI / 2)) (gT (PI / 2) PI) (gf ts x y q) (gf ts x' y' q')).
    { intros ts x y q x' y' q' -> ->. unfold same_motion, gT, gf. cbn [e_ts e_pos fst snd]. split; [lia|]. split.
      - rewrite map_rep. f_equal. unfold new_point. cbn [x3 y3 z3 zero3]. rewrite cos_PI2, sin_PI2. unfold zero3. cbn [x3 y3 z3]. apply v3_eq; lra.
      - rewrite map_rep. f_equal. unfold new_angle. destruct (ts =? 0)%Z; lra. }
    change (Forall2 (same_motion (PI / 2) false zero3 0 (gT 0 (PI / 2)) (gT (PI / 2) PI)) [ga0; ga1] [gb0; gb1]).
    constructor; [|constructor; [|constructor]]; apply Sm; lra.
  - exists 90%Z. field.
Qed.

(** The value of "struct" when all ten molecules move by [d] and turn by [t] *)
Lemma rep_rmean x : rmean (repeat x 10) = x.
Proof. unfold rmean, rsum. cbn [repeat fold_right length]. cbn [INR]. lra. Qed.
Lemma flat_rep (p : v3) n : flat_map (fun p => repeat p (length [mk3 0 1 0])) (repeat p n) = repeat p n.
Proof. induction n as [|n IH]; auto. cbn [repeat flat_map length app] in *. rewrite IH. reflexivity. Qed.
Lemma struct_ten d t x : struct_relax (repeat d 10) (repeat (mk3 t 0 0) 10) [mk3 0 1 0] 10 x =
  inl (if RelaxFitModel.Rltb (norm3 (mk3 (x3 d) (cos t - 1 + y3 d) (sin t + z3 d))) x then 1 else 0).
Proof.
  unfold struct_relax, struct_positions. rewrite !map_rep. cbn [x3 y3 z3]. rewrite from_euler_x.
  rewrite m2p_ok by (try (rewrite !repeat_length; reflexivity); try discriminate; apply Forall_forall; intros q I; apply repeat_spec in I; subst; apply unit_xquat).
  cbn [MotionModel.ebind].
  rewrite m2p_ok by (try (rewrite !repeat_length; reflexivity); try discriminate; apply Forall_forall; intros q I; apply repeat_spec in I; subst; apply unit_one).
  cbn [MotionModel.ebind fst snd]. rewrite !flat_rep. cbn [flat_map]. rewrite !app_nil_r, !map_rep, !zip_rep.
  unfold bzip. rewrite !repeat_length. cbn [Nat.eqb MotionModel.ebind]. rewrite zip_rep.
  unfold structural_relax. rewrite !map_rep, rep_rmean. rewrite rot_xquat, rot_one, add3_zero_r.
  replace (sub3 _ _) with (mk3 (x3 d) (cos t - 1 + y3 d) (sin t + z3 d)); [reflexivity|].
  unfold sub3, add3. cbn [x3 y3 z3]. apply v3_eq; ring.
Qed.
Lemma g_struct T N f0 f K p d t : exact_row sort_index ex_pf [mk3 0 1 0] 1 true T N gvars K f0 f p -> N = 10%nat ->
  zip sub3 (fst (T f)) (fst (T f0)) = repeat d 10 -> zip Rminus (snd (T f)) (snd (T f0)) = repeat t 10 -> (exists q, e_ori f = Some q) ->
  dget String.eqb "struct"%string (lb_row (snd p)) =
    Some (VFl (FR (if RelaxFitModel.Rltb (norm3 (mk3 (x3 d) (cos t - 1 + y3 d) (sin t + z3 d))) (PI / 2) then 1 else 0))).
Proof.
  intros (b & row & _ & Q & L & _) -> Ed Et (q & Eo).
  assert (Er : lb_row (snd p) = row).
  { unfold label_vars, ebind in L. cbn in L. injection L as L. rewrite <- L. reflexivity. }
  rewrite Er. destruct (quantities_row _ _ _ _ _ Q) as (al & dist & ar & g & ov & st & _ & H2 & _ & _ & _ & H6 & ->).
  unfold distance in H2. cbn [true_dyn d_wave] in H2. destruct (Req_EM_T 1 0) as [E|_]; [lra|]. injection H2 as <-.
  cbn [true_dyn d_mol d_motion m_pori] in H6. rewrite Eo in H6. destruct H6 as (s & Es & ->).
  unfold compute_struct_relax, distance in Es. cbn [true_dyn d_wave d_mol d_motion m_dt m_dr d_num] in Es.
  destruct (Req_EM_T 1 0) as [E|_]; [lra|]. cbn [MotionModel.ebind] in Es. rewrite Ed, Et, map_rep, struct_ten in Es.
  injection Es as <-. replace (PI / (2 * 1)) with (PI / 2) by lra. reflexivity.
Qed.

(** The column "struct" does depend on the axes: everything moves by 2 and
    turns by a right angle.  It is 0 in the first axes and 1 in those turned by a right angle. *)
Theorem C213_struct_refuted : exists (T T' : eframe -> truth) l l' th rows relax rows' relax' p p',
  (forall K f0 rest, frames_of (fun f => length (e_pos f)) K l = f0 :: rest -> followable T 10 f0 rest) /\
  (forall K f0 rest, frames_of (fun f => length (e_pos f)) K l' = f0 :: rest -> followable T' 10 f0 rest) /\
  (forall K, Forall2 (same_motion th false zero3 0 T T')
     (frames_of (fun f => length (e_pos f)) K l) (frames_of (fun f => length (e_pos f)) K l')) /\ degrees th /\
  g_run l = {| out_result := inl None; out_table := Some rows; out_relax := Some relax |} /\
  g_run l' = {| out_result := inl None; out_table := Some rows'; out_relax := Some relax' |} /\
  nth_error (key_rows 0 rows) 1 = Some p /\ nth_error (key_rows 0 rows') 1 = Some p' /\
  dget String.eqb "struct"%string (lb_row (snd p)) = Some (VFl (FR 0)) /\
  dget String.eqb "struct"%string (lb_row (snd p')) = Some (VFl (FR 1)).
Proof.
  destruct g_films as (F & F' & Sm & Dg). pose proof pi_above_3 as P3. pose proof PI_4 as P4.
  assert (V1 : ~ unreadable ex_pf (v_temperature gvars)) by (intros (x & [= <-] & U); vm_compute in U; discriminate).
  assert (V2 : ~ unreadable ex_pf (v_pressure gvars)) by (intros (x & [= <-] & U); vm_compute in U; discriminate).
  destruct (film freud_wrap (fun _ => zero3) sort_index fl100 (fun _ _ => inr ValueError) ex_pf (fun _ => EmptyString) [mk3 0 1 0] 1 true (1 / 100)
             (gT 0 (PI / 2)) 10 e_name gvars (gfilm ga0 ga1, None) ([], None) (gfilm ga0 ga1) None None
             freud_wrap_ok sort_index_ok fl100_rounds ltac:(lra) ltac:(discriminate) ltac:(lia) eq_refl V1 V2) as (rows & relax & A & R & _).
  { left. split; reflexivity. } { exists 0%nat. cbn. discriminate. } { exact F. }
  destruct (film freud_wrap (fun _ => zero3) sort_index fl100 (fun _ _ => inr ValueError) ex_pf (fun _ => EmptyString) [mk3 0 1 0] 1 true (1 / 100)
             (gT (PI / 2) PI) 10 e_name gvars (gfilm gb0 gb1, None) ([], None) (gfilm gb0 gb1) None None
             freud_wrap_ok sort_index_ok fl100_rounds ltac:(lra) ltac:(discriminate) ltac:(lia) eq_refl V1 V2) as (rows' & relax' & A' & R' & _).
  { left. split; reflexivity. } { exists 0%nat. cbn. discriminate. } { exact F'. }
  specialize (R 0%nat ga0 [ga1] eq_refl). specialize (R' 0%nat gb0 [gb1] eq_refl).
  destruct (key_rows 0 rows) as [|p0 [|p [|p2 ps]]] eqn:Ek; try solve [apply Forall2_len in R; discriminate R].
  destruct (key_rows 0 rows') as [|p0' [|p' [|p2' ps']]] eqn:Ek'; try solve [apply Forall2_len in R'; discriminate R'].
  exists (gT 0 (PI / 2)), (gT (PI / 2) PI), (gfilm ga0 ga1), (gfilm gb0 gb1), (PI / 2), rows, relax, rows', relax', p, p'.
  split; [exact F|]. split; [exact F'|]. split; [exact Sm|]. split; [exact Dg|]. split; [exact A|]. split; [exact A'|].
  rewrite Ek, Ek'. split; [reflexivity|]. split; [reflexivity|].
  inversion R as [|? ? ? ? _ R1]; subst. inversion R1 as [|? ? ? ? X _]; subst.
  inversion R' as [|? ? ? ? _ R1']; subst. inversion R1' as [|? ? ? ? X' _]; subst.
  split.
  - rewrite (g_struct _ _ _ _ _ _ (mk3 2 0 0) (PI / 2) X eq_refl).
    + cbn [x3 y3 z3]. rewrite cos_PI2, sin_PI2, Rltb_false; [reflexivity|].
      unfold norm3, norm2_3, dot3. cbn [x3 y3 z3]. apply Rle_trans with 2; [lra|].
      rewrite <- (sqrt_Rsqr 2) at 1 by lra. apply sqrt_le_1_alt. unfold Rsqr. lra.
    + unfold gT, ga0, ga1, gf. cbn [fst e_pos]. rewrite zip_rep. f_equal. unfold sub3. cbn [x3 y3 z3]. apply v3_eq; lra.
    + unfold gT, ga0, ga1, gf. cbn [snd e_ts Z.eqb]. rewrite zip_rep. f_equal. lra.
    + eexists. reflexivity.
  - rewrite (g_struct _ _ _ _ _ _ (mk3 0 2 0) (PI / 2) X' eq_refl).
    + cbn [x3 y3 z3]. rewrite cos_PI2, sin_PI2, Rltb_true; [reflexivity|].
      unfold norm3, norm2_3, dot3. cbn [x3 y3 z3]. apply Rle_lt_trans with (3 / 2); [|lra].
      rewrite <- (sqrt_Rsqr (3 / 2)) by lra. apply sqrt_le_1_alt. unfold Rsqr. lra.
    + unfold gT, gb0, gb1, gf. cbn [fst e_pos]. rewrite zip_rep. f_equal. unfold sub3. cbn [x3 y3 z3]. apply v3_eq; lra.
    + unfold gT, gb0, gb1, gf. cbn [snd e_ts Z.eqb]. rewrite zip_rep. f_equal. lra.
    + eexists. reflexivity.
Qed.
Print Assumptions C213_struct_refuted.

(** The other columns and the relaxation times of the two films *)
Example C213_example : exists rows relax rows' relax',
  g_run (gfilm ga0 ga1) = {| out_result := inl None; out_table := Some rows; out_relax := Some relax |} /\
  g_run (gfilm gb0 gb1) = {| out_result := inl None; out_table := Some rows'; out_relax := Some relax' |} /\
  Forall2 (fun p p' => forall name, name <> "struct"%string ->
     dget String.eqb name (lb_row (snd p)) = dget String.eqb name (lb_row (snd p'))) (key_rows 0 rows) (key_rows 0 rows') /\
  forall t t', In (0%nat, t) relax -> In (0%nat, t') relax' -> t = t'.
Proof.
  destruct g_films as (F & F' & Sm & Dg).
  destruct (C213_axes_partial freud_wrap (fun _ => zero3) sort_index fl100 (fun _ _ => inr ValueError) ex_pf (fun _ => EmptyString) [mk3 0 1 0] 1 true (1 / 100)
             (gT 0 (PI / 2)) (gT (PI / 2) PI) 10 e_name gvars (gfilm ga0 ga1, None) ([], None) (gfilm ga0 ga1) (gfilm gb0 gb1, None) ([], None) (gfilm gb0 gb1) None None
             (PI / 2) false zero3 0%Z freud_wrap_ok sort_index_ok fl100_rounds ltac:(lra) ltac:(discriminate) ltac:(lia) eq_refl)
    as (rows & relax & rows' & relax' & A & A' & R & _ & S).
  - intros (x & [= <-] & U); vm_compute in U; discriminate.
  - intros (x & [= <-] & U); vm_compute in U; discriminate.
  - left. split; reflexivity.
  - left. split; reflexivity.
  - exists 0%nat. cbn. discriminate.
  - exact F.
  - exact F'.
  - exact Sm.
  - exists rows, relax, rows', relax'. split; [exact A|]. split; [exact A'|]. split; [|apply S].
    eapply Forall2_impl; [|apply (R 0%nat)]. intros p p' (_ & _ & _ & _ & H) name Nn. apply H; auto.
Qed.
