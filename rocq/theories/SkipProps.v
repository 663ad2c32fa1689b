(** C205: the frames between the first frame of a key frame and another frame. *)
From Coq Require Import String Reals ZArith QArith Qreals List Bool Lra Lia.
From Verif Require Import Base DictFacts XNum RVec RVecFacts FrameModel MotionModel MotionSpec MotionProofs MotionProps
  DynModel DynSpec DynProofs DynStruct DynProps DynPerm DynTrue
  MolRelaxModel MolRelaxSpec MolRelaxProofs MolRelaxDefs MolRelaxProps
  WriteCacheModel ProcessModel ProcessSpec ProcessProofs ProcessProps ParamsModel ProcessPathModel ProcessPathProps EndModel EndSpec EndProofs EndProps.
Import ListNotations.
Open Scope list_scope.
Open Scope R_scope.
Notation length := List.length.

Lemma motion_add_last wrap gimbal m p o m' : motion_add wrap gimbal m p o = (m', None) -> m_ppos m' = p /\ m_pori m' = o.
Proof.
  unfold motion_add. destruct (MotionModel.ebind _ _) as [dt|e]; [|discriminate].
  destruct (m_pori m), o; [|intros [= <-]; auto..]. destruct (MotionModel.ebind _ _); [intros [= <-]; auto|discriminate].
Qed.

Section Run.
  Variables (wrap : fbox -> v3 -> v3) (gimbal : RVec.quat -> v3) (argsort : list R -> list nat) (fl : R -> xnum)
            (calculate : fbox -> list v3 -> R + exn) (parse : string -> option xnum) (show : yaml -> string)
            (mol : list v3) (k : R) (scattering : bool) (u : R) (T : eframe -> truth) (N : nat) (v : variables).
  Hypothesis W : wrap_ok wrap.
  Hypothesis Ar : argsort_ok argsort.
  Hypothesis Fl : rounds u fl.
  Hypothesis Hk : 0 < k.
  Hypothesis Hmol : mol <> [].
  Hypothesis HN : (10 <= N)%nat.
  Hypothesis V1 : ~ unreadable parse (v_temperature v).
  Hypothesis V2 : ~ unreadable parse (v_pressure v).
  Notation wave := (Some k).
  Notation kw := (fun _ : eframe => k).
  Notation make := (make fl calculate parse show mol wave).
  Notation compute := (compute wrap gimbal argsort scattering).
  Notation radd := (radd wrap gimbal fl).
  Notation label := (label_vars (Row := dict string dval) parse v).
  Notation good := (good fl mol wave kw T N).
  Notation solo := (solo make None compute radd label).
  Notation pure := (pure make None compute radd label).
  Let Hkw : forall f : eframe, 0 < kw f := fun _ => Hk.
  Let Hw : forall k0, wave = Some k0 -> forall f : eframe, kw f = k0 := fun k0 E f => match E with eq_refl => eq_refl end.
  Lemma wv f : wave_of calculate wave kw f.
  Proof. intros b _. reflexivity. Qed.

  (** The row that a frame has, whatever was seen before *)
  Definition true_dyn (b : fbox) (f0 f : eframe) : dynamics :=
    mkdyn (mkmotion b (zip sub3 (fst (T f)) (fst (T f0))) (map (fun t => mk3 t 0 0) (zip Rminus (snd (T f)) (snd (T f0)))) (e_pos f) (e_ori f))
          (e_ts f0) N (Some mol) wave 360.
  Definition exact_row (K : nat) (f0 f : eframe) (p : nat * labelled (dict string dval)) : Prop :=
    exists b row, frame_box f0 = inl b /\ quantities argsort (true_dyn b f0 f) (e_ts f) scattering = inl row /\
      label K row = inl (snd p) /\ fst p = K.
  Lemma exact_row_fun K f0 f p p' : exact_row K f0 f p -> exact_row K f0 f p' -> p = p'.
  Proof.
    intros (b & row & B & Q & L & E) (b' & row' & B' & Q' & L' & E'). rewrite B in B'. injection B' as <-. rewrite Q in Q'. injection Q' as <-.
    rewrite L in L'. destruct p, p'. cbn in *. congruence.
  Qed.
  Lemma row_exact b f0 fs f d r : box_ok b -> shown_in T b N f0 -> good b f0 fs (d, r) -> slow b (T (last fs f0)) (T f) -> shown_in T b N f ->
    forall d' row, compute d f = (d', inl row) -> quantities argsort (true_dyn b f0 f) (e_ts f) scattering = inl row.
  Proof.
    intros B (Im0 & Ln0 & Lt0 & q0 & Eo0 & F0) (G1 & (G2 & G3 & G4 & G5 & G6) & _) Sl (Im & Ln & Lt & q & Eo & F) d' row C.
    assert (LP0 := Forall2_len _ _ _ Im0).
    assert (L0 : length (fst (T f0)) = N) by congruence.
    destruct (follows_add wrap gimbal b (T f0) _ _ N (d_motion d) (e_pos f) q W B L0 Lt0 G1 Sl Im F) as (m1 & A1 & E1 & E2 & _ & _ & E6 & _).
    unfold EndModel.compute, compute_all, dyn_add in C. rewrite Eo, A1 in C. rewrite G2, G3, G4, G5, G6 in C.
    destruct (motion_add_last _ _ _ _ _ _ A1) as [P1 P2].
    assert (Em : m1 = mkmotion b (zip sub3 (fst (T f)) (fst (T f0))) (map (fun t => mk3 t 0 0) (zip Rminus (snd (T f)) (snd (T f0)))) (e_pos f) (e_ori f)).
    { destruct m1. cbn in *. congruence. }
    rewrite Em in C. unfold true_dyn. congruence.
  Qed.

  Lemma rows_exact l : (forall K f0 rest, kframes K l = f0 :: rest -> followable T N f0 rest) ->
    forall d rows, pure l [] = (d, rows, None) ->
    forall K, match kframes K l with [] => True | f0 :: rest => Forall2 (exact_row K f0) (f0 :: rest) (key_rows K rows) end.
  Proof.
    induction l as [|[K' f] l IH] using rev_ind; intros H d1 rows1 P1; [intros; exact I|].
    assert (H' : forall K f0 rest, kframes K l = f0 :: rest -> followable T N f0 rest).
    { intros K f0 rest E. specialize (H K f0). rewrite kframes_snoc, E in H. destruct (Nat.eqb K K').
      - apply (followable_prefix T N f0 rest f). apply H. reflexivity.
      - apply H. rewrite app_nil_r. reflexivity. }
    destruct (pure_run wrap gimbal argsort fl calculate parse show mol wave kw scattering u T N v W Ar Fl Hkw Hmol HN V1 V2 Hw l (fun _ f _ => wv f) H') as (d & rows & P & ND & Inv).
    specialize (IH H' d rows P).
    assert (St : exists x' o f0, solo K' f (dget Nat.eqb K' d) = (Some x', Some o, None) /\
        f0 = match kframes K' l with [] => f | g :: _ => g end /\ exact_row K' f0 f (K', o)).
    { specialize (Inv K'). specialize (H K'). rewrite kframes_snoc, Nat.eqb_refl in H.
      assert (Go : forall b f0 fs d0 r0 nx x, box_ok b -> frame_box f0 = inl b -> shown_in T b N f0 -> good b f0 fs (d0, r0) -> slow b (T (last fs f0)) (T f) -> shown_in T b N f ->
         make f = inl nx -> match x with Some y => y | None => nx end = (d0, r0) ->
         exists x' o, solo K' f x = (Some x', Some o, None) /\ exact_row K' f0 f (K', o)).
      { intros b f0 fs d0 r0 nx x B Bf S0 G Sl Sf M Hx.
        destruct (good_step wrap gimbal argsort fl mol wave kw scattering T N W Ar Hkw Hmol HN Hw b f0 fs f d0 r0 B S0 G Sl Sf) as (d' & row & r' & E1 & E2 & E3 & E4).
        destruct (label_ok parse v V1 V2 K' row) as (o & L1 & L2).
        exists (d', r'), o. unfold ProcessProofs.solo. rewrite M, Hx, E1, E2, L1. split; [reflexivity|].
        exists b, row. split; [auto|]. split; [|split; auto].
        exact (row_exact b f0 fs f d0 r0 B S0 G Sl Sf d' row E1). }
      destruct (kframes K' l) as [|f0 rest].
      - destruct Inv as [E _]. rewrite E. destruct (H f [] eq_refl) as (b & B1 & B2 & B3 & _). inversion B3 as [|? ? H2 _]; subst. apply plane_frame in B1.
        destruct (make_ok fl calculate parse show mol wave kw u T N Fl Hkw HN f b (wv f) B1 H2) as ([d0 r0] & M & G).
        destruct (Go b f [] d0 r0 (d0, r0) None B2 B1 H2 G (slow_same T b f B2) H2 M eq_refl) as (x' & o & S1 & S2). exists x', o, f. auto.
      - destruct Inv as (b & [d0 r0] & B1 & B2 & E & G & _). rewrite E.
        destruct (followable_prefix T N f0 rest f (H f0 (rest ++ [f]) eq_refl)) as (_ & b' & C1 & C2 & C3 & C4 & C5 & bf & C6).
        rewrite B2 in C1. injection C1 as <-.
        assert (M : exists nx, make f = inl nx).
        { destruct C4 as (_ & Ln & Lt & q & Eo & F). assert (P' := Forall2_len _ _ _ F). eexists. apply (make_shape fl calculate parse show mol wave kw u N Fl Hkw HN f bf q); auto using wv. congruence. }
        destruct M as (nx & M).
        assert (Sl : slow b (T (last (f0 :: rest) f0)) (T f)) by (rewrite last_cons; auto).
        destruct (Go b f0 (f0 :: rest) d0 r0 nx (Some (d0, r0)) B1 B2 C3 G Sl C4 M eq_refl) as (x' & o & S1 & S2). exists x', o, f0. auto. }
    destruct St as (x' & o & f0 & St & E0 & Rw).
    rewrite pure_app, P in P1. cbn in P1. rewrite St in P1. injection P1 as _ <-.
    intros K. specialize (IH K). specialize (Inv K). rewrite kframes_snoc. unfold key_rows in *. rewrite filter_app. cbn [filter fst].
    destruct (Nat.eqb_spec K K') as [->|NE].
    - destruct (kframes K' l) as [|g rest]; cbn [app] in *; subst f0.
      + destruct Inv as [_ ->]. constructor; auto.
      + apply (Forall2_app IH). constructor; auto.
    - rewrite !app_nil_r. exact IH.
  Qed.
End Run.

Section Films.
  Variables (wrap : fbox -> v3 -> v3) (gimbal : RVec.quat -> v3) (argsort : list R -> list nat) (fl : R -> xnum)
            (calculate : fbox -> list v3 -> R + exn) (parse : string -> option xnum) (show : yaml -> string)
            (mol : list v3) (k : R) (scattering : bool) (u : R).
  Notation analyse := (analyse wrap gimbal argsort fl calculate parse show mol (Some k) scattering None).
  Notation npos := (fun f => length (e_pos f)).
  Notation kw := (fun _ : eframe => k).

  (** What is reported of a film, exactly *)
  Lemma film (T : eframe -> truth) N infile v gsd lammps l t0 r0 :
    wrap_ok wrap -> argsort_ok argsort -> rounds u fl -> 0 < k -> mol <> [] -> (10 <= N)%nat ->
    get_filename_vars infile = inl v -> ~ unreadable parse (v_temperature v) -> ~ unreadable parse (v_pressure v) ->
    holds infile gsd lammps l ->
    (exists K, frames_of npos K l <> []) ->
    (forall K f0 rest, frames_of npos K l = f0 :: rest -> followable T N f0 rest) ->
    exists rows relax,
      analyse infile true gsd lammps t0 r0 = {| out_result := inl None; out_table := Some rows; out_relax := Some relax |} /\
      (forall K f0 rest, frames_of npos K l = f0 :: rest ->
         Forall2 (exact_row argsort parse mol k scattering T N v K f0) (f0 :: rest) (key_rows K rows)) /\
      (forall K f0 rest s, frames_of npos K l = f0 :: rest -> In (K, s) relax ->
         s = map (fun p => (fst p, get_status (observe (snd p) (hist fl T N f0 (f0 :: rest) (mr_type (snd p)))))) (six fl kw N f0)).
  Proof.
    intros W Ar Fl Hk Hm HN EV U1 U2 Ho [K0 HK0] Fo.
    assert (Hkw : forall f : eframe, 0 < kw f) by auto.
    assert (Hw : forall k0, Some k = Some k0 -> forall f : eframe, kw f = k0) by (intros ? [= ->]; auto).
    assert (Fk : forall K f0 rest, kframes K (vlist npos l) = f0 :: rest -> followable T N f0 rest).
    { intros K f0 rest E. rewrite kframes_of in E. eapply Fo; eauto. }
    destruct (pure_run wrap gimbal argsort fl calculate parse show mol (Some k) kw scattering u T N v W Ar Fl Hkw Hm HN U1 U2 Hw (vlist npos l)
                (fun _ f _ => wv calculate k f) Fk) as (d & rows & P & ND & Inv).
    assert (Ex := rows_exact wrap gimbal argsort fl calculate parse show mol k scattering u T N v W Ar Fl Hk Hm HN U1 U2 (vlist npos l) Fk d rows P).
    assert (Nd : d <> []).
    { specialize (Inv K0). rewrite kframes_of in Inv. destruct (frames_of npos K0 l); [congruence|]. destruct Inv as (b & x & _ & _ & E & _).
      intros ->. discriminate. }
    assert (Nr : rows <> []).
    { specialize (Inv K0). rewrite kframes_of in Inv. destruct (frames_of npos K0 l); [congruence|]. destruct Inv as (b & x & _ & _ & _ & _ & F).
      intros ->. inversion F. }
    assert (FE : float_exn parse v = None).
    { apply (C57_readable_partial (Row := Datatypes.unit) parse infile v EV U1 U2). }
    exists rows, (map (fun p => (fst p, summary (r_relax (snd (snd p))))) d).
    split; [|split].
    - unfold EndModel.analyse, process_path. rewrite EV, FE.
      assert (E : (if String.eqb (path_suffix infile) ".gsd" then Some gsd else if String.eqb (path_suffix infile) ".lammpstrj" then Some lammps else None) = Some (l, None)).
      { destruct Ho as [[-> ->]|[-> ->]]; reflexivity. }
      cbv zeta. rewrite E.
      destruct (process_file_written npos (make fl calculate parse show mol (Some k)) None (compute wrap gimbal argsort scattering) (radd wrap gimbal fl)
                  (label_vars parse v) (fun x => summary (r_relax x)) l t0 r0 d rows P Nd) as (E1 & E2 & E3). cbv zeta in E1, E2, E3.
      cbn [custom]. destruct (process_file _ _ _ _ _ _ _ _ _ _ _ _ _) as [o1 o2 o3]. cbn in *. subst. destruct rows; [congruence|]. reflexivity.
    - intros K f0 rest E. specialize (Ex K). rewrite kframes_of, E in Ex. exact Ex.
    - intros K f0 rest s E I. specialize (Inv K). rewrite kframes_of, E in Inv. destruct Inv as (b & [dd rr] & _ & _ & G1 & G2 & _).
      apply in_map_iff in I. destruct I as ([K' [dd' rr']] & [= -> <-] & I). apply (In_dget Nat.eqb Nat.eqb_eq) in I; auto.
      rewrite G1 in I. injection I as <- <-. cbn [snd]. destruct G2 as (_ & _ & _ & _ & G). unfold summary. rewrite G, map_map. reflexivity.
  Qed.

  Lemma some_inj {A} (a b : A) : Some a = Some b -> a = b.
  Proof. intros [= ->]. reflexivity. Qed.
  Lemma later n a ty h h' i x x' : incl h' h ->
    nth_error (get_status (observe (first_init n a ty) h)) i = Some x ->
    nth_error (get_status (observe (first_init n a ty) h')) i = Some x' -> (x <= x')%Z.
  Proof.
    intros In E E'. destruct (C31_first_passage n a ty h) as [L C]. destruct (C31_first_passage n a ty h') as [L' C'].
    assert (Hi : (i < n)%nat) by (rewrite <- L; apply nth_error_Some; congruence).
    destruct (C i Hi) as (y & Y & V1 & V2 & V3). destruct (C' i Hi) as (y' & Y' & W1 & W2 & W3).
    rewrite E in Y. injection Y as <-. rewrite E' in Y'. injection Y' as <-.
    destruct W1 as [->|(d & I & X)]; auto. apply (V3 x' d); auto. unfold seen in *. apply in_flat_map in I. destruct I as (c & I & J). apply in_flat_map. eauto.
  Qed.

  (** Two films of the same motion, both fine enough to be followed *)
  Theorem C205_films (T : eframe -> truth) N infile v gsd lammps l gsd' lammps' l' t0 r0 :
    wrap_ok wrap -> argsort_ok argsort -> rounds u fl -> 0 < k -> mol <> [] -> (10 <= N)%nat ->
    get_filename_vars infile = inl v -> ~ unreadable parse (v_temperature v) -> ~ unreadable parse (v_pressure v) ->
    holds infile gsd lammps l -> holds infile gsd' lammps' l' ->
    (exists K, frames_of npos K l <> []) -> (exists K, frames_of npos K l' <> []) ->
    (forall K f0 rest, frames_of npos K l = f0 :: rest -> followable T N f0 rest) ->
    (forall K f0 rest, frames_of npos K l' = f0 :: rest -> followable T N f0 rest) ->
    exists rows relax rows' relax',
      analyse infile true gsd lammps t0 r0 = {| out_result := inl None; out_table := Some rows; out_relax := Some relax |} /\
      analyse infile true gsd' lammps' t0 r0 = {| out_result := inl None; out_table := Some rows'; out_relax := Some relax' |} /\
      forall K f0 rest rest', frames_of npos K l = f0 :: rest -> frames_of npos K l' = f0 :: rest' ->
        length (key_rows K rows) = length (f0 :: rest) /\ length (key_rows K rows') = length (f0 :: rest') /\
        (forall i j f, nth_error (f0 :: rest) i = Some f -> nth_error (f0 :: rest') j = Some f ->
           nth_error (key_rows K rows) i = nth_error (key_rows K rows') j) /\
        (incl rest' rest -> forall s s' name m x x', In (K, s) relax -> In (K, s') relax' -> name <> "tau_L"%string ->
           entry s name m x -> entry s' name m x' -> (x <= x')%Z).
  Proof.
    intros W Ar Fl Hk Hm HN EV U1 U2 Ho Ho' Ne Ne' Fo Fo'.
    destruct (film T N infile v gsd lammps l t0 r0 W Ar Fl Hk Hm HN EV U1 U2 Ho Ne Fo) as (rows & relax & A & R & S).
    destruct (film T N infile v gsd' lammps' l' t0 r0 W Ar Fl Hk Hm HN EV U1 U2 Ho' Ne' Fo') as (rows' & relax' & A' & R' & S').
    exists rows, relax, rows', relax'. split; [exact A|]. split; [exact A'|].
    intros K f0 rest rest' E E'. specialize (R K f0 rest E). specialize (R' K f0 rest' E').
    split; [symmetry; apply (Forall2_len _ _ _ R)|]. split; [symmetry; apply (Forall2_len _ _ _ R')|]. split.
    - assert (Pick : forall A B (P : A -> B -> Prop) la lb i a, Forall2 P la lb -> nth_error la i = Some a -> exists b, nth_error lb i = Some b /\ P a b).
      { intros AA BB P la lb i a F. revert i. induction F; intros [|i] Q; cbn in *; try discriminate; eauto. injection Q as <-. eauto. }
      intros i j f Hi Hj. destruct (Pick _ _ _ _ _ _ _ R Hi) as (p & -> & P1). destruct (Pick _ _ _ _ _ _ _ R' Hj) as (p' & -> & P2).
      f_equal. eapply exact_row_fun; eauto.
    - intros In s s' name m x x' Is Is' Nl (c & C & X) (c' & C' & X').
      rewrite (S K f0 rest s E Is) in C. rewrite (S' K f0 rest' s' E' Is') in C'.
      assert (Ih : forall ty, incl (hist fl T N f0 (f0 :: rest') ty) (hist fl T N f0 (f0 :: rest) ty)).
      { intros ty h. unfold hist. rewrite !in_map_iff. intros (f & Ef & [If|If]); exists f; split; auto; [left|right]; auto. }
      unfold six in C, C'. cbn [map fst snd mr_type first_init last_init dget] in C, C'.
      repeat match type of C with (if String.eqb ?a ?b then _ else _) = _ =>
        revert C C'; destruct (String.eqb a b) eqn:Eq; intros C C';
        [first [apply String.eqb_eq in Eq; congruence|apply some_inj in C; apply some_inj in C'; subst c c'; eapply later; [|exact X|exact X']; apply Ih]|clear Eq] end.
      discriminate.
  Qed.
End Films.
Print Assumptions C205_films.

(** The frames of the example: the molecules move from 4.5 to 6.5 to 8.5 in a box of 10, and
    turn by 2.5 and back. *)
Definition ssT (f : eframe) : truth :=
  if (e_ts f =? 5)%Z then (repeat (mk3 (9 / 2) 0 0) 10, repeat 0 10)
  else if (e_ts f =? 105)%Z then (repeat (mk3 (13 / 2) 0 0) 10, repeat (5 / 2) 10)
  else (repeat (mk3 (17 / 2) 0 0) 10, repeat 0 10).
Definition sf2 := ef 205 (- (3 / 2)) (zquat 0).
Definition fine : list (list nat * eframe) := [([0%nat], ef0); ([0%nat], ef1); ([0%nat], sf2)].
Definition coarse : list (list nat * eframe) := [([0%nat], ef0); ([0%nat], sf2)].
Lemma ss_shown ts x q u t : ssT (ef ts x q) = (repeat (mk3 u 0 0) 10, repeat t 10) ->
  (exists i, x - u = IZR i * 10) -> turned q t -> shown_in ssT ebox 10 (ef ts x q).
Proof.
  intros E (i & Hi) Tq. unfold shown_in. rewrite E. cbn [fst snd ef e_pos e_ori]. rewrite !repeat_length. split; [|split; [|split]]; auto.
  - apply Forall2_repeat. exists i, 0%Z, 0%Z. split; auto. unfold lattice, sub3. cbn [x3 y3 z3 bx by_ bz bxy bxz byz ebox]. apply v3_eq; lra.
  - eexists. split; [reflexivity|]. apply Forall2_repeat. auto.
Qed.
Lemma ss_shown0 : shown_in ssT ebox 10 ef0.
Proof. apply ss_shown with (u := 9 / 2) (t := 0); auto. exists 0%Z. lra. left; auto. Qed.
Lemma ss_shown1 : shown_in ssT ebox 10 ef1.
Proof. apply ss_shown with (u := 13 / 2) (t := 5 / 2); auto. exists (-1)%Z. lra. right; auto. Qed.
Lemma ss_shown2 : shown_in ssT ebox 10 sf2.
Proof. apply ss_shown with (u := 17 / 2) (t := 0); auto. exists (-1)%Z. lra. left; auto. Qed.
Lemma fine_followable K f0 rest : frames_of (fun f => length (e_pos f)) K fine = f0 :: rest -> followable ssT 10 f0 rest.
Proof.
  intros E. assert (C : f0 :: rest = [ef0; ef1; sf2]) by (destruct K as [|K]; cbn in E; auto; discriminate).
  injection C as -> ->. pose proof pi_above_3. exists ebox. split; [apply ef_plane|]. split; [apply ebox_ok|]. split; [|split].
  - auto 6 using ss_shown0, ss_shown1, ss_shown2, Forall_cons, Forall_nil.
  - cbn [map chain]. split; [|split; auto]; apply e_slow; apply Rabs_def1; lra.
  - intros f [<-|[<-|[]]]; eexists; apply ef_plane.
Qed.
Lemma coarse_followable K f0 rest : frames_of (fun f => length (e_pos f)) K coarse = f0 :: rest -> followable ssT 10 f0 rest.
Proof.
  intros E. assert (C : f0 :: rest = [ef0; sf2]) by (destruct K as [|K]; cbn in E; auto; discriminate).
  injection C as -> ->. pose proof pi_above_3. exists ebox. split; [apply ef_plane|]. split; [apply ebox_ok|]. split; [|split].
  - auto 6 using ss_shown0, ss_shown1, ss_shown2, Forall_cons, Forall_nil.
  - cbn [map chain]. split; auto; apply e_slow; apply Rabs_def1; lra.
  - intros f [<-|[]]; eexists; apply ef_plane.
Qed.
Definition s_run (l : list (list nat * eframe)) := analyse freud_wrap (fun _ => zero3) sort_index fl100 (fun _ _ => inr ValueError) ex_pf (fun _ => EmptyString)
  [mk3 0 1 0] (Some 2) true None e_name true (l, None) ([], None) None None.
(** The third row of the fine film is the second row of the coarse one. *)
Example C205_example : exists rows relax rows' relax',
  s_run fine = {| out_result := inl None; out_table := Some rows; out_relax := Some relax |} /\
  s_run coarse = {| out_result := inl None; out_table := Some rows'; out_relax := Some relax' |} /\
  length (key_rows 0 rows) = 3%nat /\ length (key_rows 0 rows') = 2%nat /\
  nth_error (key_rows 0 rows) 2 = nth_error (key_rows 0 rows') 1 /\
  forall s s' x x', In (0%nat, s) relax -> In (0%nat, s') relax' -> entry s "tau_T2" 7 x -> entry s' "tau_T2" 7 x' -> (x <= x')%Z.
Proof.
  destruct (C205_films freud_wrap (fun _ => zero3) sort_index fl100 (fun _ _ => inr ValueError) ex_pf (fun _ => EmptyString)
            [mk3 0 1 0] 2 true (1 / 100) ssT 10 e_name {| v_temperature := Some "1.20"; v_pressure := Some "13.50"; v_crystal := None; v_iteration := None |}
            (fine, None) ([], None) fine (coarse, None) ([], None) coarse None None
            freud_wrap_ok sort_index_ok fl100_rounds ltac:(lra) ltac:(discriminate) ltac:(lia) eq_refl) as (rows & relax & rows' & relax' & E & E' & H).
  - intros (x & [= <-] & U). vm_compute in U. discriminate.
  - intros (x & [= <-] & U). vm_compute in U. discriminate.
  - left. split; reflexivity.
  - left. split; reflexivity.
  - exists 0%nat. cbn. discriminate.
  - exists 0%nat. cbn. discriminate.
  - apply fine_followable.
  - apply coarse_followable.
  - destruct (H 0%nat ef0 [ef1; sf2] [sf2] eq_refl eq_refl) as (L & L' & P & Q).
    exists rows, relax, rows', relax'. split; [exact E|]. split; [exact E'|]. split; [exact L|]. split; [exact L'|].
    split; [apply (P 2%nat 1%nat sf2); reflexivity|]. intros s s' x x' I I'. apply (Q ltac:(intros f [<-|[]]; cbn; auto) s s' "tau_T2"%string 7%nat x x' I I'). discriminate.
Qed.

(** "tau_L" is not such a time: with the return to the cage at time 3 left out, the last exit
    from the cage is reported two steps earlier. *)
Example C205_last_earlier :
  let h := [(1, [Fin 0]); (2, [Fin 2]); (3, [Fin (1 # 2)]); (4, [Fin 2]); (5, [Fin 4])]%Z in
  let h' := [(1, [Fin 0]); (2, [Fin 2]); (4, [Fin 2]); (5, [Fin 4])]%Z in
  incl h' h /\ get_status (observe (last_init 1 (Fin 1) (Fin 3) translation) h) = [4%Z] /\
  get_status (observe (last_init 1 (Fin 1) (Fin 3) translation) h') = [2%Z].
Proof. split; [|vm_compute; auto]. intros c. cbn [In]. tauto. Qed.
