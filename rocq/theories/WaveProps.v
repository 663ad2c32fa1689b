(** Wave vectors and wave numbers: properties C131-C137. *)
From Coq Require Import Reals ZArith List Bool Permutation Lra Lia.
From Verif Require Import Base RVec MotionModel MotionProofs MotionProps DynModel DynTrue WaveModel WaveSpec WaveProofs.
Import ListNotations.
Open Scope R_scope.
Notation length := List.length.

(** * C131 *)
(** Whatever was called before, a call returns the [n] vectors of length [k] in evenly spaced
    directions, or refuses a negative number; the cache holds at most 128 arrays, and the
    arrays handed out keep their contents. *)
Theorem C131_wave_vectors (h : list (R * Z)) w outs :
  run w_empty (map (fun a => Call (fst a) (snd a)) h) = (w, outs) ->
  Forall2 (fun a o => ((0 <= snd a)%Z -> exists r v, o = inl (r, v) /\ star (fst a) (snd a) v /\ nth_error (w_heap w) r = Some v) /\
                      ((snd a < 0)%Z -> o = inr ValueError)) h outs /\
  (length (w_cache w) <= 128)%nat.
Proof.
  intros E. set (l := map (fun a => Call (fst a) (snd a)) h) in *.
  assert (Cl : calls l = h).
  { unfold l. clear. induction h as [|[k n] h IH]; cbn; auto. f_equal. exact IH. }
  assert (No : forall Q, only_into Q l).
  { intros Q l1 r v l2 X. exfalso. assert (I : In (Store r v) l) by (rewrite X; apply in_elt).
    unfold l in I. apply in_map_iff in I. destruct I as (a & Y & _). discriminate. }
  destruct (run_owned (fun _ => True) l (No _)) as (own & (L & C & S0 & M) & F). rewrite E, Cl in *. cbn [fst snd] in *.
  split; [|exact M].
  assert (Keep : forall i r v, nth_error outs i = Some (inl (r, v)) -> nth_error (w_heap w) r = Some v).
  { clear F S0 C L M Cl No own. revert w outs E. unfold l. clear l.
    induction h as [|a h IH] using rev_ind; intros w outs E i r v I.
    - cbn in E. injection E as <- <-. destruct i; discriminate.
    - rewrite map_app, run_app in E. destruct (run w_empty (map (fun a => Call (fst a) (snd a)) h)) as [w1 o1] eqn:E1.
      cbn [map run fst snd] in E. destruct (create_wave_vector (fst a, snd a) w1) as [w2 o] eqn:Cr. injection E as <- <-.
      destruct (run_owned (fun _ => True) (map (fun a => Call (fst a) (snd a)) h)) as (own & Ow & F).
      { intros l1 r' v' l2 X. exfalso. assert (I' : In (Store r' v') (map (fun a => Call (fst a) (snd a)) h)) by (rewrite X; apply in_elt).
        apply in_map_iff in I'. destruct I' as (b & Y & _). discriminate. }
      rewrite E1 in Ow. cbn [fst] in Ow.
      assert (Ext : exists t, w_heap w2 = w_heap w1 ++ t).
      { unfold create_wave_vector in Cr. destruct (lookup _ _); [injection Cr as <- <-; exists []; cbn; rewrite app_nil_r; auto|].
        destruct (compute_wave_vector _ _); injection Cr as <- <-; cbn; eauto. exists []. rewrite app_nil_r. auto. }
      destruct Ext as [t Ext]. destruct (Nat.lt_ge_cases i (length o1)) as [H|H].
      + rewrite nth_error_app1 in I by auto. rewrite Ext. apply nth_error_app_some. eapply IH; eauto.
      + rewrite nth_error_app2 in I by auto. destruct (i - length o1)%nat as [|q]; [|destruct q; discriminate]. cbn in I.
        destruct o as [s|e]; [|discriminate]. injection I as -> <-.
        destruct (create_owned _ _ _ _ _ _ Ow Cr) as (own1 & (L1 & _) & A).
        apply nth_error_nth'. rewrite <- L1. apply nth_error_Some. congruence. }
  clear E. revert Keep. generalize (w_heap w) as hp. intros hp Keep. clear L C S0 M No Cl l w.
  induction F as [|a o h outs A F IH]; constructor.
  - split.
    + intros Hn. destruct o as [[r v]|e]; cbn in A; [|lia]. exists r, v. split; auto. split; [apply A; auto|apply (Keep 0%nat); auto].
    + intros Hn. destruct o as [[r v]|e]; cbn in A; [|destruct A; congruence]. destruct A as [_ A]. destruct (A Logic.I) as [X _]. lia.
  - apply IH. intros i r v I. apply (Keep (S i)). auto.
Qed.
Print Assumptions C131_wave_vectors.
Lemma star4 : star 2 4 [(2, 0); (0, 2); (-2, 0); (0, -2)].
Proof.
  split; [reflexivity|]. intros j J. cbn in J.
  assert (D1 : 2 * PI * 1 / 4 = PI / 2) by field. assert (D2 : 2 * PI * (1 + 1) / 4 = PI) by field.
  assert (D3 : 2 * PI * (1 + 1 + 1) / 4 = 3 * (PI / 2)) by field. assert (D0 : 2 * PI * 0 / 4 = 0) by field.
  destruct j as [|[|[|[|j]]]]; [| | | |lia]; cbn [nth_error INR]; f_equal.
  - rewrite D0, cos_0, sin_0. f_equal; ring.
  - rewrite D1, cos_PI2, sin_PI2. f_equal; ring.
  - rewrite D2, cos_PI, sin_PI. f_equal; ring.
  - rewrite D3, cos_3PI2, sin_3PI2. f_equal; ring.
Qed.
(** A repeated call, one that is refused, and other arguments *)
Example C131_example : exists w o1 o2 o3 o4,
  run w_empty [Call 2 4; Call 2 (-1); Call 3 4; Call 2 4] = (w, [o1; o2; o3; o4]) /\
  o1 = o4 /\ o1 <> o3 /\ o2 = inr ValueError /\ length (w_cache w) = 2%nat.
Proof.
  assert (N1 : same_args (2, (-1)%Z) (2, 4%Z) = false) by (apply same_args_neq; intros [=]).
  assert (N2 : same_args (3, 4%Z) (2, 4%Z) = false) by (apply same_args_neq; intros [= X]; lra).
  assert (N3 : same_args (2, 4%Z) (3, 4%Z) = false) by (apply same_args_neq; intros [= X]; lra).
  assert (N4 := same_args_refl (2, 4%Z)).
  set (vec k := map (fun i => let t := INR i * (2 * PI) / INR (Z.to_nat 4) in (cos t * k, sin t * k)) (seq 0 (Z.to_nat 4))).
  assert (E1 : create_wave_vector (2, 4%Z) w_empty = (mkworld [vec 2] [((2, 4%Z), 0%nat)], inl 0%nat)) by reflexivity.
  assert (E2 : create_wave_vector (2, (-1)%Z) (mkworld [vec 2] [((2, 4%Z), 0%nat)]) = (mkworld [vec 2] [((2, 4%Z), 0%nat)], inr ValueError)).
  { unfold create_wave_vector. cbn [lookup w_cache]. rewrite N1. reflexivity. }
  assert (E3 : create_wave_vector (3, 4%Z) (mkworld [vec 2] [((2, 4%Z), 0%nat)]) =
    (mkworld [vec 2; vec 3] [((3, 4%Z), 1%nat); ((2, 4%Z), 0%nat)], inl 1%nat)).
  { unfold create_wave_vector. cbn [lookup w_cache]. rewrite N2. reflexivity. }
  assert (E4 : create_wave_vector (2, 4%Z) (mkworld [vec 2; vec 3] [((3, 4%Z), 1%nat); ((2, 4%Z), 0%nat)]) =
    (mkworld [vec 2; vec 3] [((2, 4%Z), 0%nat); ((3, 4%Z), 1%nat)], inl 0%nat)).
  { unfold create_wave_vector. cbn [lookup w_cache]. rewrite N3, N4. unfold without. cbn [filter fst]. rewrite N3, N4. reflexivity. }
  cbn [run]. rewrite E1. cbn [run]. rewrite E2. cbn [run]. rewrite E3. cbn [run]. rewrite E4. cbn [run].
  do 5 eexists. split; [reflexivity|]. cbn [w_heap nth]. split; [reflexivity|]. split; [intros [= X]; discriminate|]. split; reflexivity.
Qed.

(** * C132 *)
(** Storing into the arrays got with other arguments does no harm. *)
Theorem C132_own_array_partial (l : list event) k n : (0 <= n)%Z ->
  only_into (fun a => a <> (k, n)) l ->
  forall i, nth_error (calls l) i = Some (k, n) ->
  exists r v, nth_error (snd (run w_empty l)) i = Some (inl (r, v)) /\ star k n v.
Proof.
  intros Hn O i I. destruct (run_owned (fun a => a = (k, n)) l O) as (own & _ & F).
  assert (Li : (i < length (snd (run w_empty l)))%nat) by (rewrite run_length; apply nth_error_Some; congruence).
  destruct (nth_error (snd (run w_empty l)) i) as [o|] eqn:E; [|apply nth_error_None in E; lia].
  assert (A := F2_nth _ _ _ F i _ _ I E). destruct o as [[r v]|e]; cbn in A; [|lia]. exists r, v. split; auto. apply A. auto.
Qed.
Print Assumptions C132_own_array_partial.
(** A user who empties the array that they got changes what the next user gets. *)
Theorem C132_own_array_refuted : exists l k n r v,
  only_into (fun _ => True) l /\ (0 <= n)%Z /\ nth_error (calls l) 1 = Some (k, n) /\
  nth_error (snd (run w_empty l)) 1 = Some (inl (r, v)) /\ ~ star k n v.
Proof.
  exists [Call 2 4; Store 0 [(0, 0); (0, 0); (0, 0); (0, 0)]; Call 2 4], 2, 4%Z, 0%nat, [(0, 0); (0, 0); (0, 0); (0, 0)].
  assert (Rn : forall l, run w_empty (Call 2 4 :: l) =
    let v := map (fun i => let t := INR i * (2 * PI) / INR 4 in (cos t * 2, sin t * 2)) (seq 0 4) in
    let w := mkworld [v] [((2, 4%Z), 0%nat)] in
    (fst (run w l), inl (0%nat, v) :: snd (run w l))).
  { intros l. cbn [run]. unfold create_wave_vector. cbn [lookup w_cache w_empty fst snd]. unfold compute_wave_vector.
    cbn [Z.ltb Z.compare fst snd firstn maxsize w_heap w_empty length app w_cache nth]. cbv zeta. change (Z.to_nat 4) with 4%nat.
    destruct (run _ l). reflexivity. }
  split; [|split; [lia|split; [reflexivity|split]]].
  - intros l1 r v l2 E. destruct l1 as [|e1 [|e2 [|e3 l1]]]; cbn in E; try discriminate.
    + injection E as <- <- <- <-. exists 0%nat, (2, 4%Z). eexists. split; [reflexivity|]. rewrite Rn. split; [reflexivity|auto].
    + injection E as <- <- E. destruct l1; discriminate.
  - rewrite Rn. cbv zeta. cbn [run w_heap replace snd]. unfold create_wave_vector. cbn [lookup w_cache]. rewrite same_args_refl. reflexivity.
  - intros [_ S0]. specialize (S0 0%nat ltac:(cbn; lia)). cbn in S0. injection S0 as X _.
    replace (2 * PI * 0 / 4) with 0 in X by field. rewrite cos_0 in X. lra.
Qed.
Print Assumptions C132_own_array_refuted.
(** A user scales their array for the wave number 3; that for 2 is intact. *)
Example C132_example : only_into (fun a => a <> (2, 4%Z)) [Call 3 4; Store 0 []; Call 2 4].
Proof.
  intros l1 r v l2 E. destruct l1 as [|e1 [|e2 [|e3 l1]]]; cbn in E; try discriminate.
  - injection E as <- <- <- <-. exists 0%nat, (3, 4%Z). eexists. split; [reflexivity|]. split.
    + cbn [run]. unfold create_wave_vector. cbn [lookup w_cache w_empty fst snd]. unfold compute_wave_vector.
      cbn [Z.ltb Z.compare]. cbn [snd nth_error w_heap w_empty length app]. reflexivity.
    + intros [= X]. lra.
  - injection E as <- <- E. destruct l1; discriminate.
Qed.

(** * C133 *)
(** With fewer than 128 other pairs of arguments in between, a call gets the array of the
    previous call with the same arguments. *)
Theorem C133_computed_once_partial (h1 h2 h3 : list event) k n (D : list (R * Z)) r v :
  nth_error (snd (run w_empty (h1 ++ Call k n :: h2 ++ Call k n :: h3))) (length (calls h1)) = Some (inl (r, v)) ->
  incl (calls h2) ((k, n) :: D) -> (length D < 128)%nat ->
  exists v', nth_error (snd (run w_empty (h1 ++ Call k n :: h2 ++ Call k n :: h3))) (length (calls h1) + S (length (calls h2))) = Some (inl (r, v')).
Proof.
  intros E I LD. rewrite run_app in E |- *. cbn [snd] in E |- *.
  assert (L1 : length (snd (run w_empty h1)) = length (calls h1)) by apply run_length.
  rewrite nth_error_app2 in E |- * by lia. rewrite L1 in *. rewrite Nat.sub_diag in E. replace (length (calls h1) + S (length (calls h2)) - length (calls h1))%nat with (S (length (calls h2))) by lia.
  set (w := fst (run w_empty h1)) in *. cbn [run] in E |- *. destruct (create_wave_vector (k, n) w) as [w1 o] eqn:C1.
  rewrite run_app in E |- *. cbn [fst snd nth_error] in E |- *. destruct o as [s|e]; [|discriminate]. injection E as -> _.
  rewrite nth_error_app2, run_length, Nat.sub_diag by (rewrite run_length; auto).
  assert (Rc : recent D (k, n) r w1) by (eapply recent_called; eauto; unfold maxsize; lia).
  apply (recent_run D (k, n) r) with (l := h2) in Rc; auto.
  cbn [run]. destruct (create_wave_vector (k, n) (fst (run w1 h2))) as [w2 o] eqn:C2.
  destruct (recent_hit _ _ _ _ Rc _ _ C2) as [-> _]. destruct (run w2 h3). cbn. eauto.
Qed.
Print Assumptions C133_computed_once_partial.
Example C133_example : incl (calls [Call 1 5; Call 2 4; Call 1 6; Call 1 5]) ((2, 4%Z) :: [(1, 5%Z); (1, 6%Z)]) /\
  (length [(1, 5%Z); (1, 6%Z)] < 128)%nat.
Proof. split; [|cbn; lia]. intros a I. cbn in *. tauto. Qed.
(** After 128 others the vectors are computed again. *)
Theorem C133_computed_once_refuted : exists h k n r r' v v',
  (0 <= n)%Z /\ calls h = (k, n) :: calls (tl h) /\ last (calls h) (0, 0%Z) = (k, n) /\
  hd_error (snd (run w_empty h)) = Some (inl (r, v)) /\ last (snd (run w_empty h)) (inr ValueError) = inl (r', v') /\ r <> r'.
Proof.
  set (others := map (fun i => (1, Z.of_nat i)) (seq 1 128)).
  set (mid := map (fun a => Call (fst a) (snd a)) others).
  set (a := (1, 0%Z)).
  assert (C1 : create_wave_vector a w_empty = (mkworld [[]] [(a, 0%nat)], inl 0%nat)) by reflexivity.
  assert (ND : NoDup others).
  { unfold others. apply FinFun.Injective_map_NoDup; [|apply seq_NoDup]. intros i j [= X]. apply Nat2Z.inj. auto. }
  destruct (new_calls others (mkworld [[]] [(a, 0%nat)])) as [N1 N2]; auto.
  { intros b I. unfold others in I. apply in_map_iff in I. destruct I as (i & <- & I). apply in_seq in I. cbn [snd]. split; [lia|].
    cbn. intros [X|[]]. unfold a in X. injection X as X. lia. }
  cbv zeta in N1, N2. fold mid in N1, N2. set (w := fst (run (mkworld [[]] [(a, 0%nat)]) mid)) in *.
  assert (Lk : lookup a (w_cache w) = None).
  { apply lookup_None. assert (Ln : length (rev others) = 128%nat) by (rewrite rev_length; reflexivity).
    assert (N1' : map fst (w_cache w) = firstn maxsize (rev others ++ [a])) by exact N1. rewrite N1'.
    unfold maxsize. rewrite <- Ln at 1. rewrite firstn_app, firstn_all, Nat.sub_diag. cbn [firstn]. rewrite app_nil_r.
    rewrite <- in_rev. unfold others. intros I. apply in_map_iff in I. destruct I as (i & X & I). apply in_seq in I. unfold a in X. injection X as X. lia. }
  exists (Call 1 0 :: mid ++ [Call 1 0]), 1, 0%Z, 0%nat, (length (w_heap w)), [], [].
  split; [lia|]. split; [reflexivity|]. split.
  { cbn [calls flat_map app]. fold (calls (mid ++ [Call 1 0])). rewrite calls_app. cbn [calls flat_map app].
    change ((1, 0%Z) :: calls mid ++ [(1, 0%Z)]) with (((1, 0%Z) :: calls mid) ++ [(1, 0%Z)]). apply last_last. }
  cbn [run]. fold a. rewrite C1. rewrite run_app. fold w. cbn [run fst snd].
  unfold create_wave_vector. fold a. rewrite Lk. cbn [compute_wave_vector fst snd a Z.ltb Z.compare Z.to_nat seq map w_heap].
  unfold compute_wave_vector. cbn [Z.ltb Z.compare Z.to_nat seq map fst snd w_heap].
  split; [reflexivity|]. split.
  - rewrite app_comm_cons, last_last. rewrite app_nth2, Nat.sub_diag by lia. reflexivity.
  - rewrite N2. cbn. lia.
Qed.
Print Assumptions C133_computed_once_refuted.

(** * C134 *)
(** The wave vectors are as symmetric as a regular polygon: all of length |k|, mapped onto
    each other by a turn, without a preferred direction to the first order and, for three or
    more, to the second order; and the scattering function does not change when all
    displacements are turned. *)
Theorem C134_symmetry k n v : star k n v ->
  (forall w, In w v -> fst w ^ 2 + snd w ^ 2 = k ^ 2) /\
  ((1 <= n)%Z -> Permutation (map (turn (2 * PI / IZR n)) v) v) /\
  ((2 <= n)%Z -> rsum (map fst v) = 0 /\ rsum (map snd v) = 0) /\
  ((3 <= n)%Z -> forall dx dy, rsum (map (fun w => along dx dy w ^ 2) v) = IZR n * k ^ 2 / 2 * (dx ^ 2 + dy ^ 2)).
Proof.
  intros S0. assert (Ev := star_rays k n v S0). destruct S0 as [L _]. set (N := length v) in *. clearbody N.
  assert (En : IZR n = INR N) by (rewrite <- L, <- INR_IZR_INZ; auto). rewrite En, Ev. split; [|split; [|split]].
  - intros w I. eapply rays_length; eauto.
  - intros Hn. rewrite map_map. assert (HN : (0 < N)%nat) by lia.
    rewrite (map_ext _ (fun j => ray k N (S j))) by (intros; apply ray_turn; auto).
    apply (shift_perm (ray k N)). apply ray_full; auto.
  - intros Hn. apply rays_sum. lia.
  - intros Hn dx dy. apply rays_square. lia.
Qed.
Theorem C134_scattering k n m dt : (0 < n)%nat -> isf k n (map (turn3 (2 * PI * INR m / INR n)) dt) = isf k n dt.
Proof.
  intros H. induction m as [|m IH].
  - f_equal. rewrite <- (map_id dt) at 2. apply map_ext. intros [x y z]. unfold turn3. cbn. rewrite Rmult_0_r. unfold Rdiv. rewrite Rmult_0_l, cos_0, sin_0. f_equal; ring.
  - rewrite <- IH. rewrite <- (isf_turn k n (map (turn3 (2 * PI * INR m / INR n)) dt)) by auto. f_equal. rewrite map_map. apply map_ext. intros d.
    rewrite theta_S by auto. unfold turn3. cbn [x3 y3 z3]. rewrite cos_plus, sin_plus. f_equal; ring.
Qed.
Print Assumptions C134_symmetry.
Print Assumptions C134_scattering.
Example C134_example : star 2 4 [(2, 0); (0, 2); (-2, 0); (0, -2)] /\
  rsum (map (fun w => along 3 1 w ^ 2) [(2, 0); (0, 2); (-2, 0); (0, -2)]) = 80.
Proof. split; [apply star4|]. unfold rsum, along. cbn. lra. Qed.

(** * C135 *)
Lemma cutoff_range b r : cutoff b r -> rdf_range b = r.
Proof.
  intros [(s & I & E) M]. unfold rdf_range, sides in *. destruct (b2d b); cbn in I, M.
  - assert (A := M (bx b) ltac:(auto)). assert (B := M (by_ b) ltac:(auto)).
    destruct I as [<-|[<-|[]]]; unfold Rmin; destruct (Rle_dec _ _); lra.
  - assert (A := M (bx b) ltac:(auto)). assert (B := M (by_ b) ltac:(auto)). assert (C := M (bz b) ltac:(auto)).
    destruct I as [<-|[<-|[<-|[]]]]; unfold Rmin; repeat destruct (Rle_dec _ _); lra.
Qed.
Lemma content_volume b : volume b = content b.
Proof. unfold volume, content, sides. destruct (b2d b); cbn; ring. Qed.
(** The wave number of a configuration is the first maximum, among the 200 values from 0.5 to
    20, of the structure factor that belongs to freud's radial distribution function up to the
    shortest side divided by 2.2. *)
Theorem C135_wave_number rdf b p rmax : rdf_ok rdf -> has_sides b -> cutoff b rmax -> ~ too_wide b rmax ->
  exists radii g k, rdf b p rmax (rmax / 200) = inl (radii, g) /\ calculate_wave_number rdf b p = inl k /\
    first_maximum (structure_factor (INR (length p) / content b) (fun i => nth i radii 0) (fun i => nth i g 0) (length radii)) k.
Proof.
  intros Ok Sd Cu Tw. destruct (Ok b p rmax (rmax / 200)) as [_ O]. destruct (O Tw) as (radii & g & E & L & H).
  assert (V := volume_pos b Sd). assert (V0 : volume b <> 0) by lra.
  destruct (collect_total b radii g (length p) L H V0) as [ss C].
  exists radii, g, (trial (argmax ss)). split; auto. split.
  - unfold calculate_wave_number. rewrite (cutoff_range b rmax Cu), E. cbn [ebind fst snd]. rewrite C. reflexivity.
  - rewrite <- content_volume. apply first_max_collect; auto.
Qed.
(** The density is of no importance: two configurations with the same radial distribution
    function have the same wave number. *)
Lemma factor_density rho radii g n q : q <> 0 ->
  structure_factor rho radii g n q = 1 + rho * (structure_factor 1 radii g n q - 1).
Proof. intros H. unfold structure_factor. field. auto. Qed.
Theorem C135_density rho rho' radii g n k : 0 < rho -> 0 < rho' ->
  first_maximum (structure_factor rho radii g n) k -> first_maximum (structure_factor rho' radii g n) k.
Proof.
  intros P P' (i & I & -> & M & F). exists i. split; auto. split; auto.
  assert (Nz : forall j, (j < 200)%nat -> grid j <> 0) by (intros j J; pose proof (grid_range j J); lra). split.
  - intros j J. specialize (M j J). rewrite (factor_density rho), (factor_density rho _ _ _ (grid i)) in M by auto.
    rewrite (factor_density rho'), (factor_density rho' _ _ _ (grid i)) by auto.
    assert (X : structure_factor 1 radii g n (grid j) <= structure_factor 1 radii g n (grid i)) by (apply Rmult_le_reg_l with rho; lra).
    apply Rmult_le_compat_l with (r := rho') in X; lra.
  - intros j J. specialize (F j J). rewrite (factor_density rho), (factor_density rho _ _ _ (grid i)) in F by (apply Nz; lia).
    rewrite (factor_density rho'), (factor_density rho' _ _ _ (grid i)) by (apply Nz; lia).
    assert (X : structure_factor 1 radii g n (grid j) < structure_factor 1 radii g n (grid i)) by (apply Rmult_lt_reg_l with rho; lra).
    apply Rmult_lt_compat_l with (r := rho') in X; lra.
Qed.
Theorem C135_same_function rdf b p b' p' k k' rg : rdf_ok rdf ->
  has_sides b -> has_sides b' -> p <> [] -> p' <> [] ->
  (forall r, cutoff b r -> rdf b p r (r / 200) = inl rg) -> (forall r, cutoff b' r -> rdf b' p' r (r / 200) = inl rg) ->
  calculate_wave_number rdf b p = inl k -> calculate_wave_number rdf b' p' = inl k' -> k = k'.
Proof.
  intros Ok S1 S2 N1 N2 E1 E2 C1 C2.
  assert (Ex : forall c, has_sides c -> exists r, cutoff c r).
  { intros c (X & Y & Z0). exists (rdf_range c). unfold cutoff, rdf_range, sides. destruct (b2d c).
    - unfold Rmin. destruct (Rle_dec _ _); split; [exists (bx c)| |exists (by_ c)|]; cbn; try (split; [auto|lra]); intros s [<-|[<-|[]]]; lra.
    - specialize (Z0 eq_refl). unfold Rmin. repeat destruct (Rle_dec _ _);
        (split; [first [exists (bx c); cbn; split; [auto|lra]|exists (by_ c); cbn; split; [auto|lra]|exists (bz c); cbn; split; [auto|lra]]
                |cbn; intros s [<-|[<-|[<-|[]]]]; lra]). }
  assert (Main : forall c q r kk, has_sides c -> q <> [] -> cutoff c r -> rdf c q r (r / 200) = inl rg -> calculate_wave_number rdf c q = inl kk ->
            first_maximum (structure_factor 1 (fun i => nth i (fst rg) 0) (fun i => nth i (snd rg) 0) (length (fst rg))) kk).
  { intros c q r kk Sc Nq Cu Er Ec.
    assert (Tw : ~ too_wide c r) by (intros T0; destruct (Ok c q r (r / 200)) as [O _]; rewrite (O T0) in Er; discriminate).
    destruct (C135_wave_number rdf c q r Ok Sc Cu Tw) as (radii & g & k0 & X1 & X2 & X3). rewrite Er in X1. injection X1 as ->. cbn [fst snd].
    rewrite Ec in X2. injection X2 as ->. revert X3. apply C135_density; [|lra].
    apply Rdiv_lt_0_compat; [destruct q; [congruence|apply INR_pos; cbn; lia]|rewrite <- content_volume; apply volume_pos; auto]. }
  destruct (Ex b S1) as [r Cr]. destruct (Ex b' S2) as [r' Cr'].
  eapply first_maximum_unique; [apply (Main b p r)|apply (Main b' p' r')]; auto.
Qed.
Print Assumptions C135_wave_number.
Print Assumptions C135_density.
Print Assumptions C135_same_function.

(** A radial distribution function that meets the contract: 200 bins, the number of ordered
    pairs in a bin over that of an ideal gas *)
Definition histogram (b : fbox) (p : list v3) (rmax dr : R) : (list R * list R) + exn :=
  if Rlt_dec (faces_x b / 2) rmax then inr RuntimeError
  else if Rlt_dec (faces_y b / 2) rmax then inr RuntimeError
  else if (negb (b2d b) && (if Rlt_dec (faces_z b / 2) rmax then true else false))%bool then inr RuntimeError
  else
    let edge i := INR i * dr in
    let inside i d := andb (if Rle_dec (edge i) d then true else false) (if Rlt_dec d (edge (S i)) then true else false) in
    let shell i := if b2d b then PI * (edge (S i) ^ 2 - edge i ^ 2) else 4 / 3 * PI * (edge (S i) ^ 3 - edge i ^ 3) in
    let count i := length (filter (fun jk => andb (negb (fst jk =? snd jk)%nat)
                     (inside i (norm3 (freud_wrap b (sub3 (nth (fst jk) p zero3) (nth (snd jk) p zero3))))))
                     (list_prod (seq 0 (length p)) (seq 0 (length p)))) in
    inl (map (fun i => (edge i + edge (S i)) / 2) (seq 0 200),
         map (fun i => INR (count i) / (INR (length p) * (INR (length p) / volume b) * shell i)) (seq 0 200)).
Lemma histogram_ok : rdf_ok histogram.
Proof.
  intros b p rmax dr. unfold histogram, too_wide. split.
  - intros T0. destruct (Rlt_dec (faces_x b / 2) rmax) as [|X]; auto. destruct (Rlt_dec (faces_y b / 2) rmax) as [|Y]; auto.
    destruct T0 as [T0|[T0|[-> T0]]]; try lra. cbn [negb andb]. destruct (Rlt_dec (faces_z b / 2) rmax); auto. lra.
  - intros T0. destruct (Rlt_dec (faces_x b / 2) rmax) as [|X]; [tauto|]. destruct (Rlt_dec (faces_y b / 2) rmax) as [|Y]; [tauto|].
    destruct (negb (b2d b)) eqn:D; cbn [andb].
    + destruct (Rlt_dec (faces_z b / 2) rmax) as [|Z0]; [exfalso; apply T0; right; right; destruct (b2d b); [discriminate|auto]|].
      do 2 eexists. split; [reflexivity|]. rewrite !map_length, seq_length. split; lia.
    + do 2 eexists. split; [reflexivity|]. rewrite !map_length, seq_length. split; lia.
Qed.
Definition square22 : fbox := mkbox 22 22 0 0 0 0 true.
Lemma square22_cutoff : cutoff square22 10.
Proof. split; [exists 22; cbn; split; [auto|lra]|]. cbn. intros s [<-|[<-|[]]]; lra. Qed.
Lemma square22_wide : ~ too_wide square22 10.
Proof.
  unfold too_wide, faces_x, faces_y, square22. cbn [bx by_ bz bxy bxz byz b2d].
  replace (1 + 0 ^ 2 + (0 * 0 - 0) ^ 2) with 1 by ring. replace (1 + 0 ^ 2) with 1 by ring. rewrite sqrt_1.
  intros [H|[H|[H _]]]; [lra|lra|discriminate].
Qed.
Example C135_example : exists radii g k, histogram square22 [mk3 0 0 0; mk3 1 2 0] 10 (10 / 200) = inl (radii, g) /\
  calculate_wave_number histogram square22 [mk3 0 0 0; mk3 1 2 0] = inl k /\ has_sides square22 /\
  first_maximum (structure_factor (2 / 484) (fun i => nth i radii 0) (fun i => nth i g 0) (length radii)) k.
Proof.
  assert (Sd : has_sides square22) by (unfold has_sides, square22; cbn; repeat split; try lra; discriminate).
  destruct (C135_wave_number histogram square22 [mk3 0 0 0; mk3 1 2 0] 10 histogram_ok Sd square22_cutoff square22_wide) as (radii & g & k & A & B & C).
  exists radii, g, k. split; auto. split; auto. split; auto.
  replace (2 / 484) with (INR (length [mk3 0 0 0; mk3 1 2 0]) / content square22) by (unfold content, square22; cbn; lra). exact C.
Qed.

(** * C136 *)
(** Every wave number is one of the 200 values. *)
Theorem C136_units_partial rdf b p k : calculate_wave_number rdf b p = inl k ->
  1 / 2 <= k <= 20 /\ exists i, (i < 200)%nat /\ k = grid i.
Proof.
  unfold calculate_wave_number. destruct (rdf b p (rdf_range b) (rdf_range b / 200)) as [[radii g]|e]; [|discriminate]. cbn [ebind fst snd].
  destruct (collect _ _) as [ss|e] eqn:C; [|discriminate]. cbn [ebind]. intros [= <-].
  apply collect_ok in C. assert (L : length ss = 200%nat) by (rewrite <- (Forall2_len _ _ _ C), map_length, seq_length; auto).
  destruct (argmax_spec ss) as (m & A & _); [intros ->; discriminate|].
  assert (I : (argmax ss < 200)%nat) by (rewrite <- L; apply nth_error_Some; congruence).
  rewrite trial_grid. split; [apply grid_range; auto|eauto].
Qed.
Print Assumptions C136_units_partial.
(** Measuring lengths in a unit more than 40 times smaller or larger never divides the wave
    number accordingly. *)
Theorem C136_units_refuted rdf b p k c : calculate_wave_number rdf b p = inl k -> 40 < c ->
  calculate_wave_number rdf (zoom_box c b) (zoom c p) <> inl (k / c).
Proof.
  intros E H E'. apply C136_units_partial in E. apply C136_units_partial in E'. destruct E as [E _], E' as [E' _].
  assert (X : k / c * c = k) by (field; lra). nra.
Qed.
Print Assumptions C136_units_refuted.
Example C136_example : exists k k', calculate_wave_number histogram square22 [mk3 0 0 0; mk3 1 2 0] = inl k /\
  calculate_wave_number histogram (zoom_box 100 square22) (zoom 100 [mk3 0 0 0; mk3 1 2 0]) = inl k' /\ k' <> k / 100.
Proof.
  destruct C135_example as (radii & g & k & _ & E & _).
  assert (Sd : has_sides (zoom_box 100 square22)) by (unfold has_sides, zoom_box, square22; cbn; repeat split; try lra; discriminate).
  destruct (C135_wave_number histogram (zoom_box 100 square22) (zoom 100 [mk3 0 0 0; mk3 1 2 0]) 1000 histogram_ok Sd) as (r2 & g2 & k2 & _ & E2 & _).
  - split; [exists (100 * 22); cbn; split; [auto|lra]|]. cbn. intros s [<-|[<-|[]]]; lra.
  - unfold too_wide, faces_x, faces_y, zoom_box, square22. cbn [bx by_ bz bxy bxz byz b2d].
    replace (1 + 0 ^ 2 + (0 * 0 - 0) ^ 2) with 1 by ring. replace (1 + 0 ^ 2) with 1 by ring. rewrite sqrt_1.
    intros [H|[H|[H _]]]; [lra|lra|discriminate].
  - exists k, k2. split; auto. split; auto. intros X. rewrite X in E2. revert E2. apply (C136_units_refuted histogram square22 [mk3 0 0 0; mk3 1 2 0] k 100 E). lra.
Qed.

(** * C137 *)
Definition flat_box (b : fbox) : Prop := b2d b = true /\ bxz b = 0 /\ byz b = 0.
Lemma flat_range b : flat_box b -> rdf_range b = Rmin (bx b) (by_ b) / (22 / 10).
Proof. intros (D & _). unfold rdf_range. rewrite D. unfold Rmin. repeat destruct (Rle_dec _ _); lra. Qed.
Lemma range_cutoff b : has_sides b -> flat_box b -> cutoff b (rdf_range b).
Proof.
  intros (X & Y & _) F. rewrite (flat_range b F). destruct F as (D & _). unfold cutoff, sides. rewrite D. unfold Rmin. destruct (Rle_dec _ _).
  - split; [exists (bx b); cbn; split; [auto|lra]|]. cbn. intros s [<-|[<-|[]]]; lra.
  - split; [exists (by_ b); cbn; split; [auto|lra]|]. cbn. intros s [<-|[<-|[]]]; lra.
Qed.
Lemma flat_wide b : has_sides b -> flat_box b ->
  (too_wide b (rdf_range b) <-> 11 * bx b < 10 * sqrt (1 + bxy b ^ 2) * Rmin (bx b) (by_ b)).
Proof.
  intros (X & Y & _) F. rewrite (flat_range b F). destruct F as (D & Zx & Zy). unfold too_wide, faces_x, faces_y. rewrite D, Zx, Zy.
  replace (1 + bxy b ^ 2 + (bxy b * 0 - 0) ^ 2) with (1 + bxy b ^ 2) by ring. replace (1 + 0 ^ 2) with 1 by ring. rewrite sqrt_1.
  set (s := sqrt (1 + bxy b ^ 2)). assert (S1 : 1 <= s) by (pose proof (sqrt_le_1_alt 1 (1 + bxy b ^ 2)) as Q; rewrite sqrt_1 in Q; apply Q; pose proof (pow2_ge_0 (bxy b)); lra).
  set (m := Rmin (bx b) (by_ b)). assert (M1 : m <= by_ b) by apply Rmin_r.
  assert (E : bx b / s / 2 < m / (22 / 10) <-> 11 * bx b < 10 * s * m).
  { assert (A : bx b / s / 2 * (2 * s) = bx b) by (field; lra). assert (B : m / (22 / 10) * (2 * s) = 10 / 11 * s * m) by field. split; intros H.
    - apply Rmult_lt_compat_r with (r := 2 * s) in H; [|lra]. lra.
    - apply Rmult_lt_reg_r with (2 * s); [lra|]. lra. }
  rewrite E. split; [intros [H|[H|[H _]]]; [auto|lra|discriminate]|auto].
Qed.
(** In the plane a wave number is found exactly if the tilt is small enough; a square may be
    tilted by a factor of 0.458. *)
Theorem C137_every_box_partial rdf b p : rdf_ok rdf -> has_sides b -> flat_box b ->
  (11 * bx b < 10 * sqrt (1 + bxy b ^ 2) * Rmin (bx b) (by_ b) -> calculate_wave_number rdf b p = inr RuntimeError) /\
  (10 * sqrt (1 + bxy b ^ 2) * Rmin (bx b) (by_ b) <= 11 * bx b -> exists k, calculate_wave_number rdf b p = inl k) /\
  (Rabs (bxy b) <= 0.458 -> exists k, calculate_wave_number rdf b p = inl k).
Proof.
  intros Ok Sd F. assert (Fine : 10 * sqrt (1 + bxy b ^ 2) * Rmin (bx b) (by_ b) <= 11 * bx b -> exists k, calculate_wave_number rdf b p = inl k).
  { intros H. destruct (C135_wave_number rdf b p (rdf_range b) Ok Sd (range_cutoff b Sd F)) as (_ & _ & k & _ & E & _); eauto.
    rewrite (flat_wide b Sd F). lra. }
  split; [|split; [exact Fine|]].
  - intros H. apply (flat_wide b Sd F) in H. unfold calculate_wave_number. destruct (Ok b p (rdf_range b) (rdf_range b / 200)) as [O _].
    rewrite (O H). reflexivity.
  - intros H. apply Fine. assert (S1 : sqrt (1 + bxy b ^ 2) <= 1.1).
    { rewrite <- (sqrt_square 1.1) by lra. apply sqrt_le_1_alt. assert (Hb : -0.458 <= bxy b <= 0.458) by (revert H; unfold Rabs; destruct (Rcase_abs _); lra). assert (0 <= (0.458 - bxy b) * (0.458 + bxy b)) by (apply Rmult_le_pos; lra). lra. }
    assert (M0 : Rmin (bx b) (by_ b) <= bx b) by apply Rmin_l. assert (S2 : 0 <= sqrt (1 + bxy b ^ 2)) by apply sqrt_pos.
    destruct Sd as (X & Y & _). assert (M1 : 0 < Rmin (bx b) (by_ b)) by (apply Rmin_glb_lt; auto).
    apply Rle_trans with (10 * 1.1 * Rmin (bx b) (by_ b)); [apply Rmult_le_compat_r; lra|lra].
Qed.
Print Assumptions C137_every_box_partial.
Example C137_example : flat_box square22 /\ has_sides square22 /\ Rabs (bxy square22) <= 0.458.
Proof.
  unfold flat_box, has_sides, square22. cbn. split; [auto|]. split; [repeat split; try lra; discriminate|]. rewrite Rabs_R0. lra.
Qed.
(** A square tilted by a factor of a half, for any positions *)
Theorem C137_every_box_refuted : exists b, has_sides b /\ flat_box b /\
  forall rdf p, rdf_ok rdf -> calculate_wave_number rdf b p = inr RuntimeError.
Proof.
  exists (mkbox 10 10 0 (1 / 2) 0 0 true).
  assert (Sd : has_sides (mkbox 10 10 0 (1 / 2) 0 0 true)) by (unfold has_sides; cbn; repeat split; try lra; discriminate).
  assert (F : flat_box (mkbox 10 10 0 (1 / 2) 0 0 true)) by (unfold flat_box; cbn; auto).
  split; auto. split; auto. intros rdf p Ok. apply (C137_every_box_partial rdf _ p Ok Sd F). cbn [bx by_ bxy].
  unfold Rmin. destruct (Rle_dec _ _); [|lra].
  assert (1.1 < sqrt (1 + (1 / 2) ^ 2)); [|lra]. rewrite <- (sqrt_square 1.1) by lra. apply sqrt_lt_1_alt. lra.
Qed.
Print Assumptions C137_every_box_refuted.

(** ** A closed counterexample for C136 *)
Theorem C136_hundred_refuted : exists rdf b p k k', rdf_ok rdf /\ has_sides b /\ calculate_wave_number rdf b p = inl k /\
  calculate_wave_number rdf (zoom_box 100 b) (zoom 100 p) = inl k' /\ k' <> k / 100.
Proof.
  destruct C136_example as (k & k' & E & E' & N). exists histogram, square22, [mk3 0 0 0; mk3 1 2 0], k, k'.
  split; [apply histogram_ok|]. split; [unfold has_sides, square22; cbn; repeat split; try lra; discriminate|]. auto.
Qed.
Print Assumptions C136_hundred_refuted.
