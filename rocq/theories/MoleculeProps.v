(** Properties of molecules, C84-C86, C111-C114. *)
From Coq Require Import String Reals ZArith List Bool Lra Lia Permutation QArith_base.
From Verif Require Import Base XNum RVec RVecFacts MoleculeModel MoleculeSpec MoleculeProofs.
Import ListNotations.
Open Scope R_scope.
Notation length := List.length.

(** * C84 *)
Theorem C84_centred h dim ps p r rigid :
  (p < length (h_arrays h))%nat -> a_float (array_at h p) = true -> a_rows (array_at h p) <> [] ->
  exists h' m, molecule_init h dim ps p r rigid = (h', inl m) /\
    centred (a_rows (array_at h' (mol_positions m))) /\
    same_shape (a_rows (array_at h p)) (a_rows (array_at h' (mol_positions m))).
Proof.
  intros L F N. destruct (init_float h dim ps p r rigid F L) as (h' & E & A & _). exists h'. eexists. split; [exact E|].
  cbn [mol_positions]. rewrite A. split; [apply centre_centred; auto|apply centre_shape].
Qed.
Print Assumptions C84_centred.
Definition pair_heap : heap := mkheap [mkarr true [mk3 1 0 0; mk3 3 2 0]] [[("B"%string, 2)]].
Example C84_example : exists h' m, molecule_init pair_heap 2 ["B"; "B"]%string 0 0 true = (h', inl m) /\
  a_rows (array_at h' (mol_positions m)) = [mk3 (-1) (-1) 0; mk3 1 1 0].
Proof.
  eexists. eexists. split; [reflexivity|]. cbn [array_at nth h_arrays mol_positions update a_rows map]. unfold mean3, rmean, rsum, sub3. cbn.
  repeat f_equal; field.
Qed.

(** * C85 *)
Theorem C85_trimer h radius distance angle r d a :
  number radius = Some r -> number distance = Some d -> number angle = Some a ->
  exists h' m c1 c2 c3, trimer h radius distance angle = (h', inl m) /\
    a_rows (array_at h' (mol_positions m)) = [c1; c2; c3] /\
    z3 c1 = 0 /\ z3 c2 = 0 /\ z3 c3 = 0 /\ centred [c1; c2; c3] /\
    norm3 (sub3 c2 c1) = Rabs d /\ norm3 (sub3 c3 c1) = Rabs d /\
    sub3 c2 c1 = turn (a * PI / 180) (sub3 c3 c1) /\
    (0 < d -> 0 <= a <= 180 -> between (sub3 c2 c1) (sub3 c3 c1) = a).
Proof.
  intros R D A. unfold trimer. rewrite R, D, A. cbn [new_array new_dict fst snd h_arrays h_dicts].
  match goal with |- context [molecule_init ?H ?D ?P ?I ?J ?B] => destruct (init_float H D P I J B) as (h' & E & Ar & _) end.
  { unfold array_at. cbn [h_arrays]. rewrite app_nth2, Nat.sub_diag by lia. reflexivity. }
  { cbn [h_arrays]. rewrite app_length. cbn. lia. }
  rewrite E. match type of E with _ = (_, inl ?m) => exists h', m end. unfold array_at in Ar at 2. cbn [h_arrays] in Ar. rewrite app_nth2, Nat.sub_diag in Ar by lia. cbn [nth a_rows] in Ar.
  cbn [mol_positions]. rewrite Ar. cbn [a_rows]. unfold trimer_positions, deg2rad.
  set (t := a * PI / 180 / 2). assert (T : a * PI / 180 = 2 * t) by (unfold t; field).
  set (ps := [mk3 0 0 0; mk3 (- d * sin t) (d * cos t) 0; mk3 (d * sin t) (d * cos t) 0]).
  pose proof (centre_centred ps ltac:(discriminate)) as C. pose proof (centre_shape ps) as (_ & Sh).
  unfold centre in *. set (m := mean3 ps) in *. assert (Zm : z3 m = 0) by (unfold m, ps, mean3, rmean, rsum; cbn; field). clearbody m.
  cbn [map ps] in *. do 3 eexists. split; [reflexivity|]. split; [reflexivity|].
  assert (S2 : sub3 (sub3 (mk3 (- d * sin t) (d * cos t) 0) m) (sub3 (mk3 0 0 0) m) = mk3 (- d * sin t) (d * cos t) 0) by (rewrite sub_sub; unfold sub3; cbn; apply v3_eq; ring).
  assert (S3 : sub3 (sub3 (mk3 (d * sin t) (d * cos t) 0) m) (sub3 (mk3 0 0 0) m) = mk3 (d * sin t) (d * cos t) 0) by (rewrite sub_sub; unfold sub3; cbn; apply v3_eq; ring).
  pose proof (sin2_cos2' t) as SC.
  assert (N2 : norm3 (mk3 (- d * sin t) (d * cos t) 0) = Rabs d).
  { unfold norm3, norm2_3, dot3. cbn [x3 y3 z3]. replace (_ + _) with (d * d * (cos t * cos t + sin t * sin t)) by ring. rewrite SC, Rmult_1_r. apply sqrt_Rsqr_abs. }
  assert (N3 : norm3 (mk3 (d * sin t) (d * cos t) 0) = Rabs d).
  { unfold norm3, norm2_3, dot3. cbn [x3 y3 z3]. replace (_ + _) with (d * d * (cos t * cos t + sin t * sin t)) by ring. rewrite SC, Rmult_1_r. apply sqrt_Rsqr_abs. }
  split; [cbn; rewrite Zm; ring|]. split; [cbn; rewrite Zm; ring|]. split; [cbn; rewrite Zm; ring|]. split; [exact C|].
  rewrite S2, S3, N2, N3. split; auto. split; auto. split.
  - unfold turn. cbn [x3 y3 z3]. rewrite T, cos_2a_cos, sin_2a. apply v3_eq; [| |reflexivity].
    + replace (- d * sin t) with (- d * sin t * (cos t * cos t + sin t * sin t)) by (rewrite SC; ring).
      replace 1 with (cos t * cos t + sin t * sin t) at 1 by exact SC. ring.
    + replace (d * cos t) with (d * cos t * (cos t * cos t + sin t * sin t)) at 1 by (rewrite SC; ring).
      replace 1 with (cos t * cos t + sin t * sin t) at 1 by exact SC. ring.
  - intros Dp Ap. unfold between. rewrite N2, N3, Rabs_right by lra. unfold dot3. cbn [x3 y3 z3].
    replace ((- d * sin t * (d * sin t) + d * cos t * (d * cos t) + 0 * 0) / (d * d)) with (cos t * cos t - sin t * sin t) by (field; lra).
    rewrite <- cos_2a, <- T. rewrite acos_cos; [field; apply PI_neq0|]. pose proof PI_RGT_0. split.
    + apply Rmult_le_pos; [apply Rmult_le_pos|]; lra.
    + apply (Rmult_le_reg_r 180); [lra|]. replace (a * PI / 180 * 180) with (a * PI) by field. rewrite (Rmult_comm PI). apply Rmult_le_compat_r; lra.
Qed.
Print Assumptions C85_trimer.
Theorem C85_not_a_number h radius distance angle :
  snd (trimer h radius distance angle) = inr ValueError <-> radius = PyOther \/ distance = PyOther \/ angle = PyOther.
Proof.
  unfold trimer. destruct radius, distance, angle; cbn [number]; try (split; [auto|intros _; reflexivity]).
  all: cbn [new_array new_dict]; match goal with |- context [molecule_init ?H ?D ?P ?I ?J ?B] => destruct (init_float H D P I J B) as (h' & E & _) end;
    [unfold array_at; cbn [h_arrays]; rewrite app_nth2, Nat.sub_diag by lia; reflexivity|cbn [h_arrays]; rewrite app_length; cbn; lia|];
    rewrite E; cbn; split; [discriminate|]; intros [Q|[Q|Q]]; discriminate.
Qed.
Print Assumptions C85_not_a_number.
Example C85_example : exists h' m c1 c2 c3, trimer (mkheap [] []) (PyFloat (637556 / 1000000)) (PyInt 1) (PyInt 120) = (h', inl m) /\
  a_rows (array_at h' (mol_positions m)) = [c1; c2; c3] /\ between (sub3 c2 c1) (sub3 c3 c1) = 120 /\ norm3 (sub3 c2 c1) = 1.
Proof.
  destruct (C85_trimer (mkheap [] []) (PyFloat (637556 / 1000000)) (PyInt 1) (PyInt 120) _ _ _ eq_refl eq_refl eq_refl)
    as (h' & m & c1 & c2 & c3 & E & P & _ & _ & _ & _ & N & _ & _ & B).
  exists h', m, c1, c2, c3. split; auto. split; auto. split; [apply B; lra|]. rewrite N. apply Rabs_right. lra.
Qed.

(** * C86 *)
Definition no_nan (o : obj) : Prop :=
  match o with OTrimer r d a => r <> NaN /\ d <> NaN /\ a <> NaN | ODimer r d => r <> NaN /\ d <> NaN | _ => True end.
Definition plain (o : obj) : bool := match o with OMolecule => true | _ => false end.
Definition parametrised (o : obj) : bool := match o with OTrimer _ _ _ | ODimer _ _ => true | _ => false end.
Theorem C86_equality_partial :
  (** it raises exactly when a Trimer or Dimer is compared with a plain Molecule *)
  (forall a b, (exists e, py_eq a b = inr e) <-> (plain a = true /\ parametrised b = true) \/ (parametrised a = true /\ plain b = true)) /\
  (** it is symmetric, *)
  (forall a b, py_eq a b = py_eq b a) /\
  (** reflexive but for NaN, *)
  (forall a, py_eq a a = inl true <-> no_nan a) /\
  (** and transitive unless a plain Molecule is in the middle *)
  (forall a b c, plain b = false -> py_eq a b = inl true -> py_eq b c = inl true -> py_eq a c = inl true).
Proof.
  assert (Sym : forall a b, py_eq a b = py_eq b a).
  { intros a b. destruct a as [| | |r d g|r d], b as [| | |r' d' g'|r' d']; cbn; auto.
    - rewrite (xeqb_comm r), (xeqb_comm d), (xeqb_comm g). reflexivity.
    - rewrite (xeqb_comm r), (xeqb_comm d). reflexivity. }
  split; [|split; [exact Sym|split]].
  - intros a b. destruct a, b; cbn; split; intros H; try (destruct H as [e H]; discriminate H); try (destruct H as [[H1 H2]|[H1 H2]]; discriminate); auto; try (eexists; reflexivity).
  - intros a. destruct a as [| | |r d g|r d]; cbn; try tauto.
    + split.
      * intros H. injection H. rewrite !andb_true_iff. intros [[H1 H2] H3]. repeat split; intros ->; discriminate.
      * intros (H1 & H2 & H3). rewrite !xeqb_refl by auto. reflexivity.
    + split.
      * intros H. injection H. rewrite !andb_true_iff. intros [H1 H2]. split; intros ->; discriminate.
      * intros (H1 & H2). rewrite !xeqb_refl by auto. reflexivity.
  - intros a b c. destruct a as [| | |r d g|r d], b as [| | |r' d' g'|r' d'], c as [| | |r'' d'' g''|r'' d'']; cbn; try discriminate; auto; intros _ H1 H2;
      injection H1; injection H2; rewrite !andb_true_iff; intros; f_equal; rewrite !andb_true_iff; intuition eauto using xeqb_trans.
Qed.
Print Assumptions C86_equality_partial.
(** Molecules of one class are equal iff their parameters are; of different classes, neither of
    them Molecule itself, never. *)
Theorem C86_parameters_partial :
  (forall r d a r' d' a', py_eq (OTrimer r d a) (OTrimer r' d' a') = inl true <-> same_number r r' /\ same_number d d' /\ same_number a a') /\
  (forall r d r' d', py_eq (ODimer r d) (ODimer r' d') = inl true <-> same_number r r' /\ same_number d d') /\
  (forall a b, plain a = false -> plain b = false -> class_of a <> class_of b -> py_eq a b = inl false).
Proof.
  split; [|split].
  - intros. rewrite <- !xeqb_same. cbn. destruct (xeqb r r'), (xeqb d d'), (xeqb a a'); cbn; intuition discriminate.
  - intros. rewrite <- !xeqb_same. cbn. destruct (xeqb r r'), (xeqb d d'); cbn; intuition discriminate.
  - intros a b. destruct a, b; cbn; try discriminate; try congruence; auto.
Qed.
Print Assumptions C86_parameters_partial.
Theorem C86_equality_refuted :
  (exists a b c, py_eq a b = inl true /\ py_eq b c = inl true /\ py_eq a c = inl false) /\
  (exists a b, no_nan a /\ no_nan b /\ py_eq a b = inr AttributeError).
Proof.
  split; [exists ODisc, OMolecule, OSphere; auto|]. exists (OTrimer (Fin 1) (Fin 1) (Fin 120)), OMolecule.
  split; [repeat split; discriminate|]. split; [exact I|reflexivity].
Qed.
Print Assumptions C86_equality_refuted.
Example C86_example : py_eq (OTrimer (Fin (1 # 2)) (Fin 1) (Fin 120)) (OTrimer (Fin (2 # 4)) (Fin 1) (Fin 120)) = inl true /\
  py_eq (OTrimer (Fin 1) (Fin 1) (Fin 120)) (OTrimer (Fin 1) (Fin 1) (Fin 90)) = inl false /\
  py_eq (ODimer (Fin 1) NaN) (ODimer (Fin 1) NaN) = inl false.
Proof. repeat split. Qed.

(** * C111 *)
Theorem C111_arguments_refuted : exists h p r dim ps rigid h' m,
  molecule_init h dim ps p r rigid = (h', inl m) /\ array_at h' p <> array_at h p /\ dict_at h' r <> dict_at h r.
Proof.
  exists pair_heap, 0%nat, 0%nat, 2%Z, ["B"; "B"]%string, true. eexists. eexists. split; [reflexivity|]. split.
  - cbn [array_at nth h_arrays update pair_heap]. intros E. injection E. unfold mean3, rmean, rsum. cbn. intros. lra.
  - cbn. discriminate.
Qed.
Print Assumptions C111_arguments_refuted.
Theorem C111_arguments_partial h dim ps p r rigid h' m :
  (p < length (h_arrays h))%nat -> (r < length (h_dicts h))%nat -> a_rows (array_at h p) <> [] ->
  molecule_init h dim ps p r rigid = (h', inl m) ->
  (array_at h' p = array_at h p <-> centred (a_rows (array_at h p))) /\
  (dict_at h' r = dict_at h r <-> In "A"%string (dkeys (dict_at h r))) /\
  (forall k, k <> p -> array_at h' k = array_at h k) /\ (forall k, k <> r -> dict_at h' k = dict_at h k).
Proof.
  intros L D N E. assert (F : a_float (array_at h p) = true).
  { destruct (a_float (array_at h p)) eqn:F; auto. pose proof (init_int h dim ps p r rigid F) as X. rewrite E in X. discriminate. }
  destruct (init_float h dim ps p r rigid F L) as (h1 & E1 & A & O & DO & DD). rewrite E in E1. injection E1. intros Hm <-. clear E1.
  split; [|split; [|split; auto]].
  - rewrite A. destruct (array_at h p) as (f, rows). cbn [a_float a_rows] in *. subst f. split.
    + intros X. injection X. intros Y. apply centre_same; auto.
    + intros C. f_equal. apply centre_same; auto.
  - rewrite DD by auto. apply setdefault_same.
Qed.
Print Assumptions C111_arguments_partial.
Example C111_example : exists h' m, molecule_init (mkheap [mkarr true [mk3 (-1) 0 0; mk3 1 0 0]] [[("A"%string, 2)]]) 2 ["A"; "A"]%string 0 0 true = (h', inl m) /\
  array_at h' 0 = mkarr true [mk3 (-1) 0 0; mk3 1 0 0] /\ dict_at h' 0 = [("A"%string, 2)].
Proof.
  eexists. eexists. split; [reflexivity|]. split; [|reflexivity]. cbn [array_at nth h_arrays update]. f_equal. apply (proj2 (centre_same [mk3 (-1) 0 0; mk3 1 0 0] ltac:(discriminate))).
  unfold centred, add3, zero3. cbn. apply v3_eq; ring.
Qed.

(** * C112 *)
Theorem C112_integer_refuted :
  (forall h radius z, snd (dimer h radius (PyInt z)) = inr TypeError) /\
  (forall h dim ps p r rigid, a_float (array_at h p) = false -> snd (molecule_init h dim ps p r rigid) = inr TypeError).
Proof.
  split; [|intros; apply init_int; auto]. intros h radius z. unfold dimer. cbn [new_array new_dict]. apply init_int.
  unfold array_at. cbn [h_arrays]. rewrite app_nth2, Nat.sub_diag by lia. reflexivity.
Qed.
Print Assumptions C112_integer_refuted.
Theorem C112_dimer_partial h radius d : exists h' m c1 c2, dimer h radius (PyFloat d) = (h', inl m) /\
  a_rows (array_at h' (mol_positions m)) = [c1; c2] /\ centred [c1; c2] /\ norm3 (sub3 c2 c1) = Rabs d /\
  x3 c1 = 0 /\ z3 c1 = 0 /\ x3 c2 = 0 /\ z3 c2 = 0.
Proof.
  unfold dimer. cbn [new_array new_dict].
  match goal with |- context [molecule_init ?H ?D ?P ?I ?J ?B] => destruct (init_float H D P I J B) as (h' & E & Ar & _) end.
  { unfold array_at. cbn [h_arrays]. rewrite app_nth2, Nat.sub_diag by lia. reflexivity. }
  { cbn [h_arrays]. rewrite app_length. cbn. lia. }
  rewrite E. match type of E with _ = (_, inl ?m) => exists h', m end. unfold array_at in Ar at 2. cbn [h_arrays] in Ar. rewrite app_nth2, Nat.sub_diag in Ar by lia. cbn [nth a_rows] in Ar.
  cbn [mol_positions]. rewrite Ar. cbn [a_rows]. pose proof (centre_centred [mk3 0 0 0; mk3 0 d 0] ltac:(discriminate)) as C.
  unfold centre in *. set (m := mean3 [mk3 0 0 0; mk3 0 d 0]) in *.
  assert (Xm : x3 m = 0) by (unfold m, mean3, rmean, rsum; cbn; field). assert (Zm : z3 m = 0) by (unfold m, mean3, rmean, rsum; cbn; field). clearbody m.
  cbn [map] in *. do 2 eexists. split; [reflexivity|]. split; [reflexivity|]. split; [exact C|]. rewrite sub_sub. split.
  - unfold norm3, norm2_3, dot3, sub3. cbn [x3 y3 z3]. replace (_ + _) with (d * d) by ring. apply sqrt_Rsqr_abs.
  - cbn. rewrite Xm, Zm. repeat split; ring.
Qed.
Print Assumptions C112_dimer_partial.
Example C112_example : exists h' m c1 c2, dimer (mkheap [] []) (1 / 2) (PyFloat 3) = (h', inl m) /\
  a_rows (array_at h' (mol_positions m)) = [c1; c2] /\ norm3 (sub3 c2 c1) = 3.
Proof.
  destruct (C112_dimer_partial (mkheap [] []) (1 / 2) 3) as (h' & m & c1 & c2 & E & P & _ & N & _). exists h', m, c1, c2. split; auto. split; auto.
  rewrite N. apply Rabs_right. lra.
Qed.

(** * C113 *)
(** Each particle of the classes provided has one position and one radius. *)
Theorem C113_radii_partial h :
  (exists h' m, disc h = (h', inl m) /\ get_radii h' m = inl [1 / 2] /\ num_particles m = 1%nat /\ a_rows (array_at h' (mol_positions m)) = [zero3] /\ mol_dimensions m = 2%Z) /\
  (exists h' m, sphere h = (h', inl m) /\ get_radii h' m = inl [1 / 2] /\ num_particles m = 1%nat /\ a_rows (array_at h' (mol_positions m)) = [zero3] /\ mol_dimensions m = 3%Z) /\
  (forall radius distance angle r d a, number radius = Some r -> number distance = Some d -> number angle = Some a ->
     exists h' m, trimer h radius distance angle = (h', inl m) /\ get_radii h' m = inl [1; r; r] /\ num_particles m = 3%nat /\ length (a_rows (array_at h' (mol_positions m))) = 3%nat /\ mol_dimensions m = 2%Z) /\
  (forall radius d, exists h' m, dimer h radius (PyFloat d) = (h', inl m) /\ get_radii h' m = inl [1; radius] /\ num_particles m = 2%nat /\ length (a_rows (array_at h' (mol_positions m))) = 2%nat /\ mol_dimensions m = 2%Z).
Proof.
  assert (Rd : forall dim, exists h' m, round_molecule h dim = (h', inl m) /\ get_radii h' m = inl [1 / 2] /\ num_particles m = 1%nat /\ a_rows (array_at h' (mol_positions m)) = [zero3] /\ mol_dimensions m = dim).
  { intros dim. unfold round_molecule, default_molecule. cbn [new_array new_dict].
    match goal with |- context [molecule_init ?H ?D ?P ?I ?J ?B] => destruct (init_float H D P I J B) as (h' & E & Ar & _) end.
    { unfold array_at. cbn [h_arrays]. rewrite app_nth2, Nat.sub_diag by lia. reflexivity. }
    { cbn [h_arrays]. rewrite app_length. cbn. lia. }
    rewrite E. eexists. eexists. split; [reflexivity|]. unfold get_radii, dict_at. cbn [mol_radii mol_particles h_dicts]. rewrite app_nth2, Nat.sub_diag by lia.
    split; [reflexivity|]. split; [reflexivity|]. split; [|reflexivity]. unfold array_at in *. cbn [h_arrays mol_positions] in *. rewrite Ar.
    rewrite app_nth2, Nat.sub_diag by lia. cbn [nth a_rows]. unfold centre, mean3, rmean, rsum, sub3, zero3. cbn. repeat f_equal; field. }
  split; [apply Rd|]. split; [apply Rd|].
  split.
  - intros radius distance angle r d a R D A. unfold trimer. rewrite R, D, A. cbn [new_array new_dict].
    match goal with |- context [molecule_init ?H ?D ?P ?I ?J ?B] => destruct (init_float H D P I J B) as (h' & E & Ar & _ & _ & Di) end.
    { unfold array_at. cbn [h_arrays]. rewrite app_nth2, Nat.sub_diag by lia. reflexivity. }
    { cbn [h_arrays]. rewrite app_length. cbn. lia. }
    rewrite E. eexists. eexists. split; [reflexivity|]. unfold get_radii. cbn [mol_radii mol_particles mol_positions]. rewrite Di by (cbn [h_dicts]; rewrite app_length; cbn; lia).
    rewrite Ar. unfold dict_at, array_at. cbn [h_dicts h_arrays]. rewrite !app_nth2, !Nat.sub_diag by lia. repeat split.
  - intros radius d. unfold dimer. cbn [new_array new_dict].
    match goal with |- context [molecule_init ?H ?D ?P ?I ?J ?B] => destruct (init_float H D P I J B) as (h' & E & Ar & _ & _ & Di) end.
    { unfold array_at. cbn [h_arrays]. rewrite app_nth2, Nat.sub_diag by lia. reflexivity. }
    { cbn [h_arrays]. rewrite app_length. cbn. lia. }
    rewrite E. eexists. eexists. split; [reflexivity|]. unfold get_radii. cbn [mol_radii mol_particles mol_positions]. rewrite Di by (cbn [h_dicts]; rewrite app_length; cbn; lia).
    rewrite Ar. unfold dict_at, array_at. cbn [h_dicts h_arrays]. rewrite !app_nth2, !Nat.sub_diag by lia. repeat split.
Qed.
Print Assumptions C113_radii_partial.
Example C113_example : exists h' m, trimer (mkheap [] []) (PyFloat 2) (PyInt 1) (PyInt 120) = (h', inl m) /\ get_radii h' m = inl [1; 2; 2].
Proof.
  destruct (C113_radii_partial (mkheap [] [])) as (_ & _ & T & _). destruct (T (PyFloat 2) (PyInt 1) (PyInt 120) _ _ _ eq_refl eq_refl eq_refl) as (h' & m & E & G & _).
  exists h', m. auto.
Qed.
(** Nothing checks this for a Molecule made of lists: get_radii answers iff every particle is of
    a type with a radius or "A"; the number of particles need not be that of the positions. *)
Theorem C113_radii_exact_partial h dim ps p r rigid h' m :
  (p < length (h_arrays h))%nat -> (r < length (h_dicts h))%nat ->
  molecule_init h dim ps p r rigid = (h', inl m) ->
  (Forall (fun q => q = "A"%string \/ In q (dkeys (dict_at h r))) ps ->
     exists rs, get_radii h' m = inl rs /\
       Forall2 (fun q x => dget String.eqb q (dict_at h r) = Some x \/ (q = "A"%string /\ dget String.eqb q (dict_at h r) = None /\ x = 1)) ps rs) /\
  (~ Forall (fun q => q = "A"%string \/ In q (dkeys (dict_at h r))) ps -> get_radii h' m = inr KeyError).
Proof.
  intros L D E. assert (F : a_float (array_at h p) = true).
  { destruct (a_float (array_at h p)) eqn:F; auto. pose proof (init_int h dim ps p r rigid F) as X. rewrite E in X. discriminate. }
  destruct (init_float h dim ps p r rigid F L) as (h1 & E1 & _ & _ & _ & DD). rewrite E in E1. injection E1. intros -> <-. clear E1.
  unfold get_radii. cbn [mol_radii mol_particles]. rewrite DD by auto. split; intros H.
  - destruct (get_all_ok (setdefault "A" 1 (dict_at h r)) ps) as (rs & G & F2).
    { revert H. apply Forall_impl. intros q. apply setdefault_keys. }
    exists rs. split; auto. revert F2. clear. induction 1 as [|q x ps rs H F IH]; constructor; auto. rewrite setdefault_get in H.
    destruct (dget String.eqb q (dict_at h r)); [injection H as ->; auto|]. destruct (String.eqb_spec q "A"); [injection H as <-; auto|discriminate].
  - apply get_all_missing. intros G. apply H. revert G. apply Forall_impl. intros q. apply setdefault_keys.
Qed.
Print Assumptions C113_radii_exact_partial.
Theorem C113_radii_refuted :
  (exists h dim ps p r rigid h' m, molecule_init h dim ps p r rigid = (h', inl m) /\ num_particles m <> length (a_rows (array_at h' (mol_positions m)))) /\
  (exists h dim ps p r rigid h' m, molecule_init h dim ps p r rigid = (h', inl m) /\ get_radii h' m = inr KeyError).
Proof.
  split.
  - exists pair_heap, 2%Z, ["B"]%string, 0%nat, 0%nat, true. eexists. eexists. split; [reflexivity|]. cbn. discriminate.
  - exists pair_heap, 2%Z, ["B"; "C"]%string, 0%nat, 0%nat, true. eexists. eexists. split; reflexivity.
Qed.
Print Assumptions C113_radii_refuted.

(** * C114 *)
Theorem C114_types_partial h dim ps p r rigid h' m :
  (p < length (h_arrays h))%nat -> (r < length (h_dicts h))%nat ->
  molecule_init h dim ps p r rigid = (h', inl m) ->
  strings_sorted (get_types h' m) /\ (forall t, In t (get_types h' m) <-> t = "A"%string \/ In t (dkeys (dict_at h r))).
Proof.
  intros L D E. assert (F : a_float (array_at h p) = true).
  { destruct (a_float (array_at h p)) eqn:F; auto. pose proof (init_int h dim ps p r rigid F) as X. rewrite E in X. discriminate. }
  destruct (init_float h dim ps p r rigid F L) as (h1 & E1 & _ & _ & _ & DD). rewrite E in E1. injection E1. intros -> <-. clear E1.
  unfold get_types. cbn [mol_radii]. rewrite DD by auto. destruct (sort_strings (dkeys (setdefault "A" 1 (dict_at h r)))) as (So & P). split; auto.
  intros t. rewrite <- setdefault_keys. split; apply Permutation_in; auto. apply Permutation_sym; auto.
Qed.
Print Assumptions C114_types_partial.
Theorem C114_types_refuted : exists h dim ps p r rigid h' m, molecule_init h dim ps p r rigid = (h', inl m) /\
  num_particles m = length (a_rows (array_at h' (mol_positions m))) /\ In "A"%string (get_types h' m) /\ ~ In "A"%string (mol_particles m).
Proof.
  exists pair_heap, 2%Z, ["B"; "B"]%string, 0%nat, 0%nat, true. eexists. eexists. split; [reflexivity|]. split; [reflexivity|].
  split; [vm_compute; auto|]. cbn. intuition discriminate.
Qed.
Print Assumptions C114_types_refuted.
Example C114_example : exists h' m, molecule_init (mkheap [mkarr true [mk3 0 0 0]] [[("C", 1); ("B", 2)]%string]) 2 ["C"%string] 0 0 true = (h', inl m) /\
  get_types h' m = ["A"; "B"; "C"]%string.
Proof. eexists. eexists. split; reflexivity. Qed.

(** ** A closed counterexample for C112 *)
Theorem C112_three_refuted : exists h radius z d, d = IZR z /\ snd (dimer h radius (PyInt z)) = inr TypeError /\
  exists m, snd (dimer h radius (PyFloat d)) = inl m.
Proof.
  exists (mkheap [] []), (1 / 2), 3%Z, 3. split; [reflexivity|]. split; [exact (proj1 C112_integer_refuted _ _ _)|].
  destruct (C112_dimer_partial (mkheap [] []) (1 / 2) 3) as (h' & m & c1 & c2 & E & _). exists m. rewrite E. reflexivity.
Qed.
Print Assumptions C112_three_refuted.
