(** C184: equal molecules and their shapes; C185: the text of a Trimer. *)
From Coq Require Import String Ascii Reals ZArith QArith Qreals List Bool Lia Lra Decimal DecimalString DecimalZ.
From Verif Require Import Base XNum RVec MoleculeModel MoleculeSpec MoleculeProofs MoleculeProps ReprModel.
Import ListNotations.
Open Scope R_scope.
Open Scope string_scope.
Open Scope list_scope.

(** * C184 *)
(** The argument that gives the constructors this number. *)
Inductive arg_of : num -> pyval -> Prop :=
| arg_int z : arg_of (NInt z) (PyInt z)
| arg_float q : arg_of (NFloat (Fin q)) (PyFloat (Q2R q)).

Lemma arg_number n v : arg_of n v -> exists q, num_value n = Fin q /\ number v = Some (Q2R q).
Proof.
  intros []; cbn.
  - exists (inject_Z z). split; [reflexivity|]. unfold Q2R. cbn. f_equal. field.
  - eauto.
Qed.
Lemma arg_same n v n' v' : arg_of n v -> arg_of n' v' -> same_number (num_value n) (num_value n') -> number v = number v'.
Proof.
  intros A B. destruct (arg_number _ _ A) as (q & -> & ->). destruct (arg_number _ _ B) as (q' & -> & ->).
  cbn. intros H. f_equal. apply Qeq_eqR. exact H.
Qed.

(** Equal Trimers are made in the same way: the same particles, positions and radii; likewise equal
    Dimers. *)
Theorem C184_shape_partial : forall h,
  (forall r d a r' d' a' vr vd va vr' vd' va',
     arg_of r vr -> arg_of d vd -> arg_of a va -> arg_of r' vr' -> arg_of d' vd' -> arg_of a' va' ->
     py_eq (OTrimer (num_value r) (num_value d) (num_value a)) (OTrimer (num_value r') (num_value d') (num_value a')) = inl true ->
     trimer h vr vd va = trimer h vr' vd' va') /\
  (forall r d r' d', py_eq (ODimer (Fin r) (Fin d)) (ODimer (Fin r') (Fin d')) = inl true ->
     dimer h (Q2R r) (PyFloat (Q2R d)) = dimer h (Q2R r') (PyFloat (Q2R d'))).
Proof.
  intros h. destruct C86_parameters_partial as (P1 & P2 & _). split.
  - intros r d a r' d' a' vr vd va vr' vd' va' Ar Ad Aa Ar' Ad' Aa' E. apply P1 in E. destruct E as (E1 & E2 & E3).
    unfold trimer. rewrite (arg_same _ _ _ _ Ar Ar' E1), (arg_same _ _ _ _ Ad Ad' E2), (arg_same _ _ _ _ Aa Aa' E3). reflexivity.
  - intros r d r' d' E. apply P2 in E. destruct E as [E1 E2]. cbn in E1, E2. apply Qeq_eqR in E1, E2. rewrite E1, E2. reflexivity.
Qed.
Print Assumptions C184_shape_partial.

(** Any two plain Molecules are equal, whatever their shape; and Trimers of the same shape need not be. *)
Theorem C184_shape_refuted :
  (exists h p p' r h1 m1 h2 m2, molecule_init h 2 ["A"; "A"] p r true = (h1, inl m1) /\ molecule_init h 2 ["A"; "A"] p' r true = (h2, inl m2) /\
     a_rows (array_at h1 (mol_positions m1)) <> a_rows (array_at h2 (mol_positions m2)) /\ py_eq OMolecule OMolecule = inl true) /\
  (forall h r d, trimer h (PyFloat r) (PyFloat d) (PyInt 120) = trimer h (PyFloat r) (PyFloat d) (PyInt 840)) /\
  (forall r d, py_eq (OTrimer r d (Fin 120)) (OTrimer r d (Fin 840)) = inl false).
Proof.
  split; [|split].
  - exists (mkheap [mkarr true [mk3 (-1) 0 0; mk3 1 0 0]; mkarr true [mk3 (-2) 0 0; mk3 2 0 0]] [[("A"%string, 2)]]), 0%nat, 1%nat, 0%nat.
    eexists. eexists. eexists. eexists. split; [reflexivity|]. split; [reflexivity|]. split; [|reflexivity].
    cbn [array_at nth h_arrays update mol_positions a_rows map]. intros E. injection E as E _. unfold mean3, rmean, rsum in E. cbn in E. lra.
  - intros h r d. unfold trimer. cbn [number]. replace (trimer_positions d 840) with (trimer_positions d 120); [reflexivity|].
    unfold trimer_positions, deg2rad. replace (840 * PI / 180 / 2) with (120 * PI / 180 / 2 + 2 * PI) by field.
    rewrite sin_plus, cos_plus, sin_2PI, cos_2PI. rewrite !Rmult_0_r, !Rmult_1_r, Rplus_0_r, Rminus_0_r. reflexivity.
  - intros r d. cbn. rewrite andb_false_r. reflexivity.
Qed.
Print Assumptions C184_shape_refuted.

Example C184_ex : py_eq (OTrimer (num_value (NInt 1)) (num_value (NFloat (Fin (2 # 2)))) (num_value (NInt 120)))
    (OTrimer (num_value (NFloat (Fin 1))) (num_value (NInt 1)) (num_value (NFloat (Fin (240 # 2))))) = inl true
  /\ arg_of (NInt 1) (PyInt 1) /\ arg_of (NFloat (Fin (240 # 2))) (PyFloat (Q2R (240 # 2))).
Proof. split; [reflexivity|]. split; constructor. Qed.

(** * C185 *)
Fixpoint free_of (c : ascii) (s : string) : Prop :=
  match s with EmptyString => True | String c' s' => c' <> c /\ free_of c s' end.
(** An int and a float are never written alike. *)
Definition same_num (a b : num) : Prop :=
  match a, b with
  | NInt z, NInt z' => z = z'
  | NFloat x, NFloat y => same_number x y \/ x = NaN /\ y = NaN
  | _, _ => False
  end.
(** What is used of format() of an int or a float: no commas or brackets; different numbers are
    written differently. *)
Record writes (text : num -> string) : Prop := {
  w_comma : forall n, free_of "," (text n);
  w_bracket : forall n, free_of ")" (text n);
  w_same : forall a b, text a = text b -> same_num a b }.
Definition is_nan (n : num) : Prop := n = NFloat NaN.

Lemma cut (c : ascii) a b r r' : free_of c a -> free_of c b -> (a ++ String c r)%string = (b ++ String c r')%string -> a = b /\ r = r'.
Proof.
  revert b. induction a as [|x a IH]; intros [|y b]; cbn; intros Ha Hb E.
  - injection E as <-. auto.
  - injection E as E _. destruct Hb as [H _]. congruence.
  - injection E as E _. destruct Ha as [H _]. congruence.
  - injection E as -> E. destruct (IH b (proj2 Ha) (proj2 Hb) E) as [-> ->]. auto.
Qed.

(** Equal texts: the same class, and the same numbers in the same places. *)
Theorem C185_text_partial : forall text name name' o o', writes text -> free_of "(" name -> free_of "(" name' ->
  trimer_repr text name o = trimer_repr text name' o' ->
  name = name' /\ same_num (t_radius o) (t_radius o') /\ same_num (t_distance o) (t_distance o') /\
  same_num (t_angle o) (t_angle o') /\ same_num (t_scale o) (t_scale o') /\
  (~ is_nan (t_radius o) -> ~ is_nan (t_distance o) -> ~ is_nan (t_angle o) -> py_eq (compared o) (compared o') = inl true).
Proof.
  intros text name name' o o' W N N' E. unfold trimer_repr in E. cbn in E.
  apply (cut "("%char) in E; auto. destruct E as [E0 E]. injection E as E.
  assert (E1 := cut "," _ _ _ _ (w_comma _ W _) (w_comma _ W _) E). clear E. destruct E1 as [E1 E]. injection E as E.
  assert (E2 := cut "," _ _ _ _ (w_comma _ W _) (w_comma _ W _) E). clear E. destruct E2 as [E2 E]. injection E as E.
  assert (E3 := cut "," _ _ _ _ (w_comma _ W _) (w_comma _ W _) E). clear E. destruct E3 as [E3 E]. injection E as E.
  assert (E4 := cut ")" _ _ _ _ (w_bracket _ W _) (w_bracket _ W _) E). destruct E4 as [E4 _].
  apply (w_same _ W) in E1, E2, E3, E4. split; [exact E0|]. do 4 (split; [assumption|]).
  intros N1 N2 N3. destruct C86_parameters_partial as (P & _ & _). unfold compared. apply P.
  assert (X : forall a b, same_num a b -> ~ is_nan a -> same_number (num_value a) (num_value b)).
  { clear. unfold is_nan. intros [z|x] [z'|y]; cbn; try tauto; [intros -> _; reflexivity|]. intros [H|[-> ->]] H2; [exact H|congruence]. }
  split; [|split]; apply X; assumption.
Qed.
Print Assumptions C185_text_partial.

(** Such a text of numbers exists. *)
Fixpoint digits_free (c : ascii) (u : uint) : free_of "," (NilEmpty.string_of_uint u) /\ free_of ")" (NilEmpty.string_of_uint u) /\ free_of "/" (NilEmpty.string_of_uint u).
Proof. destruct u as [|u|u|u|u|u|u|u|u|u|u]; cbn; [auto|..]; destruct (digits_free c u) as (A & B & C); repeat split; auto; discriminate. Qed.
Definition show (z : Z) : string := NilEmpty.string_of_int (Z.to_int z).
Lemma show_free z : free_of "," (show z) /\ free_of ")" (show z) /\ free_of "/" (show z).
Proof. unfold show. destruct (Z.to_int z) as [u|u]; cbn; destruct (digits_free "," u) as (A & B & C); repeat split; auto; discriminate. Qed.
Lemma show_inj z z' : show z = show z' -> z = z'.
Proof.
  unfold show. intros E. assert (X := f_equal NilEmpty.int_of_string E). rewrite !NilEmpty.isi in X. injection X as X.
  apply (f_equal Z.of_int) in X. rewrite !DecimalZ.of_to in X. exact X.
Qed.
Definition sample_text (n : num) : string :=
  match n with
  | NInt z => show z
  | NFloat NaN => "/nan" | NFloat PInf => "/inf" | NFloat NInf => "/-inf"
  | NFloat (Fin q) => (String "/" (show (Qnum (Qred q)) ++ String "/" (show (Zpos (Qden (Qred q))))))%string
  end.
Lemma free_app c a b : free_of c a -> free_of c b -> free_of c (a ++ b)%string.
Proof. induction a; cbn; tauto. Qed.
Lemma free_slash a b : free_of "/" (a ++ String "/" b)%string -> False.
Proof. induction a; cbn; tauto. Qed.
Lemma sample_writes : writes sample_text.
Proof.
  constructor.
  - intros [z|[| | |q]]; cbn [sample_text free_of]; try (repeat split; auto; discriminate); [apply show_free|].
    split; [discriminate|]. apply free_app; [apply show_free|]. split; [discriminate|apply show_free].
  - intros [z|[| | |q]]; cbn [sample_text free_of]; try (repeat split; auto; discriminate); [apply show_free|].
    split; [discriminate|]. apply free_app; [apply show_free|]. split; [discriminate|apply show_free].
  - assert (K : forall z s, show z <> String "/" s).
    { intros z s E. assert (F := proj2 (proj2 (show_free z))). rewrite E in F. cbn in F. tauto. }
    assert (K2 : forall a b s, free_of "/" s -> s <> (show a ++ String "/" (show b))%string).
    { intros a b s F ->. destruct (free_slash _ _ F). }
    intros [z|[| | |q]] [z'|[| | |q']]; cbn [sample_text same_num]; intros E; auto;
      try (exfalso; (eapply K; exact E) || (eapply K; symmetry; exact E)); try discriminate E;
      try (exfalso; injection E as E; (eapply K2; [|exact E]) || (eapply K2; [|symmetry; exact E]); cbn; repeat split; auto; discriminate);
      try (left; exact I).
    + apply show_inj; exact E.
    + injection E as E. apply cut in E; try apply show_free. destruct E as [E1 E2]. apply show_inj in E1, E2. left. cbn.
      rewrite <- (Qred_correct q), <- (Qred_correct q'). destruct (Qred q), (Qred q'). cbn in *. injection E2 as ->. subst. reflexivity.
Qed.
(** Equal Trimers are written differently when their moments of inertia differ, or when a number is given
    once as an int and once as a float. *)
Theorem C185_text_refuted : forall text, writes text ->
  exists o o' o'', py_eq (compared o) (compared o') = inl true /\ py_eq (compared o) (compared o'') = inl true /\
    trimer_repr text "Trimer" o <> trimer_repr text "Trimer" o' /\ trimer_repr text "Trimer" o <> trimer_repr text "Trimer" o''.
Proof.
  intros text W.
  exists (mktrimer (NFloat (Fin 1)) (NFloat (Fin 1)) (NInt 120) (NInt 1)), (mktrimer (NFloat (Fin 1)) (NFloat (Fin 1)) (NInt 120) (NInt 2)),
    (mktrimer (NInt 1) (NFloat (Fin 1)) (NInt 120) (NInt 1)).
  split; [reflexivity|]. split; [reflexivity|].
  assert (F : free_of "(" "Trimer") by (cbn; repeat split; discriminate).
  split; intros E; apply C185_text_partial in E; auto; cbn in E; [|tauto]. destruct E as (_ & _ & _ & _ & E & _). discriminate.
Qed.
Print Assumptions C185_text_refuted.
Example C185_ex : writes sample_text /\
  trimer_repr sample_text "Trimer" (mktrimer (NFloat (Fin (1 # 2))) (NInt 1) (NInt 120) (NInt 1))
  = "Trimer(radius=/1/2, distance=1, angle=120, moment_inertia_scale=1)".
Proof. split; [exact sample_writes|reflexivity]. Qed.
