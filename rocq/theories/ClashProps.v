(** C183: the names of the relaxations and the columns of the table molecular_relaxations. *)
From Coq Require Import String ZArith QArith List Bool Lia.
From Verif Require Import Base DictFacts XNum FrameModel ParamsModel MolRelaxModel WriteCacheModel ProcessModel ProcessPathModel ProcessProps ClashModel.
Import ListNotations.
Open Scope Z_scope.
Open Scope string_scope.
Open Scope list_scope.

(** What the column [nm] of a key frame should hold; [s] is the summary of its relaxations. *)
Definition shown (t p : xnum) (s : dict string (list Z)) (nm : string) : option mcol :=
  if String.eqb nm "keyframe" then Some CKeyframe
  else if String.eqb nm "molecule" then Some CMolecule
  else if String.eqb nm "temperature" then Some (CConst t)
  else if String.eqb nm "pressure" then Some (CConst p)
  else option_map CStatus (dget String.eqb nm s).
Definition has_name (l : list (nat * dict string (list Z))) (nm : string) : Prop :=
  exists k s, In (k, s) l /\ In nm (dkeys s).

Lemma dget_status (s : dict string (list Z)) nm :
  dget String.eqb nm (map (fun c => (fst c, CStatus (snd c))) s) = option_map CStatus (dget String.eqb nm s).
Proof. induction s as [|[k v] s IH]; cbn; auto. destruct (String.eqb nm k); auto. Qed.

Lemma mol_columns_spec t p s :
  (In "molecule" (dkeys s) \/ In "keyframe" (dkeys s) -> mol_columns t p s = inr ValueError) /\
  (~ In "molecule" (dkeys s) -> ~ In "keyframe" (dkeys s) ->
   exists c, mol_columns t p s = inl c /\ forall nm, dget String.eqb nm c = shown t p s nm).
Proof.
  unfold mol_columns, reset_index, set_column, dmem.
  rewrite !(dget_dset String.eqb String.eqb_eq), !dget_status.
  change (String.eqb "molecule" "pressure") with false. change (String.eqb "molecule" "temperature") with false.
  change (String.eqb "keyframe" "pressure") with false. change (String.eqb "keyframe" "temperature") with false.
  assert (A := dget_In String.eqb String.eqb_eq "molecule" s). assert (B := dget_In String.eqb String.eqb_eq "keyframe" s).
  split.
  - intros H. destruct (dget String.eqb "molecule" s) eqn:E1; cbn; [reflexivity|].
    destruct (dget String.eqb "keyframe" s) eqn:E2; cbn; [reflexivity|]. rewrite <- A, <- B in H. tauto.
  - intros H1 H2. destruct (dget String.eqb "molecule" s) eqn:E1; [exfalso; apply H1, A; discriminate|].
    destruct (dget String.eqb "keyframe" s) eqn:E2; [exfalso; apply H2, B; discriminate|]. cbn [option_map orb].
    eexists; split; [reflexivity|]. intros nm. cbn [dget]. unfold shown.
    destruct (String.eqb nm "keyframe"); [reflexivity|]. destruct (String.eqb nm "molecule"); [reflexivity|].
    rewrite !(dget_dset String.eqb String.eqb_eq), dget_status.
    destruct (String.eqb nm "pressure") eqn:Ep; destruct (String.eqb nm "temperature") eqn:Et; try reflexivity.
    apply String.eqb_eq in Ep, Et. congruence.
Qed.

Lemma all_columns_spec t p l :
  (has_name l "molecule" \/ has_name l "keyframe" -> all_columns t p l = inr ValueError) /\
  (~ has_name l "molecule" -> ~ has_name l "keyframe" ->
   exists cols, all_columns t p l = inl cols /\
     Forall2 (fun ks kc => fst kc = fst ks /\ forall nm, dget String.eqb nm (snd kc) = shown t p (snd ks) nm) l cols).
Proof.
  assert (X : forall k s l nm, has_name ((k, s) :: l) nm <-> In nm (dkeys s) \/ has_name l nm).
  { intros k s l0 nm. split.
    - intros (k' & s' & [E|H] & H2); [injection E as <- <-; auto|right; exists k', s'; auto].
    - intros [H|(k' & s' & H & H2)]; [exists k, s|exists k', s']; cbn; auto. }
  induction l as [|[k s] l [IH1 IH2]]; cbn [all_columns].
  - split; [intros [(k & s & [] & _)|(k & s & [] & _)]|]. intros _ _. eexists; split; [reflexivity|constructor].
  - rewrite !X. destruct (mol_columns_spec t p s) as [M1 M2].
    destruct (in_dec string_dec "molecule" (dkeys s)) as [H|H1]; [split; [|tauto]; intros _; rewrite M1; auto|].
    destruct (in_dec string_dec "keyframe" (dkeys s)) as [H|H2]; [split; [|tauto]; intros _; rewrite M1; auto|].
    destruct (M2 H1 H2) as (c & -> & Hc). cbn [ebind]. split.
    + intros H. rewrite IH1; [reflexivity|tauto].
    + intros N1 N2. destruct IH2 as (cols & -> & Hf); [tauto|tauto|]. cbn [ebind].
      eexists; split; [reflexivity|]. constructor; [split; [reflexivity|exact Hc]|exact Hf].
Qed.

Section P.
  Context {D R F Row : Type}.
  Variable npos : F -> nat.
  Variable mk : F -> (D * R) + exn.
  Variable custom : option (R -> R * option exn).
  Variable compute : D -> F -> D * (Row + exn).
  Variable radd : R -> F -> R * option exn.
  Variable summary : R -> dict string (list Z).
  Variable pfloat : string -> option xnum.

  (** With [l] the relaxations of the key frames: a relaxation called keyframe or molecule makes the
      call fail after the table dynamics was written, and the old relaxations stay; one called
      temperature or pressure is not shown; all others are. *)
  Theorem C183_columns_partial : forall infile gsd lammps t0 r0 v t p l,
    let o := process_path npos mk custom compute radd summary pfloat infile true gsd lammps t0 None in
    out_result o = inl None -> out_relax o = Some l ->
    get_filename_vars infile = inl v -> column pfloat (v_temperature v) = inl t -> column pfloat (v_pressure v) = inl p ->
    let c := process_columns npos mk custom compute radd summary pfloat infile gsd lammps t0 r0 in
    (has_name l "molecule" \/ has_name l "keyframe" -> c = (Some ValueError, out_table o, r0)) /\
    (~ has_name l "molecule" -> ~ has_name l "keyframe" ->
     exists cols, c = (None, out_table o, Some cols) /\
       Forall2 (fun ks kc => fst kc = fst ks /\ forall nm, dget String.eqb nm (snd kc) = shown t p (snd ks) nm) l cols).
  Proof.
    intros infile gsd lammps t0 r0 v t p l o H1 H2 Hv Ht Hp c. subst c. unfold process_columns. fold o.
    rewrite H1, H2, Hv, Ht, Hp. cbn [ebind]. destruct (all_columns_spec t p l) as [A B]. split.
    - intros H. rewrite (A H). reflexivity.
    - intros N1 N2. destruct (B N1 N2) as (cols & -> & Hf). exists cols. split; auto.
  Qed.
End P.
Print Assumptions C183_columns_partial.

(** A frame with one molecule that has moved by two: its time and its relaxation. *)
Definition k_defs (nm : string) : list definition :=
  [ {| def_name := Some (YStr nm); def_threshold := Some (YNum (Fin 1)); def_last := None;
       def_cutoff := None; def_type := None |} ].
Definition k_run (nm : string) (l : list (list nat * y_frame)) :=
  process_columns (fun _ : y_frame => 1%nat)
    (c_mk (D := unit) (M := unit) (fun _ => None) (fun _ => "") (fun _ => 1%nat) fst
          (fun _ => inl tt) (fun _ => inl tt) y_defs)
    (Some (c_custom (fun _ => None) (fun _ => "") (k_defs nm)))
    (fun d f => (d, inl (fst f))) (c_radd fst y_madd) (fun x => MolRelaxModel.summary (snd x))
    (fun _ => Some (Fin 2)) "dump-Trimer-P13.50-T1.20.gsd" (l, None) ([], None) None (Some []).
Definition k_frames : list (list nat * y_frame) := [ ([0%nat], (100, Fin 0)); ([0%nat], (110, Fin 2)) ].
Definition k_rows : list (nat * labelled Z) :=
  [ (0%nat, {| lb_row := 100; lb_keyframe := 0; lb_temperature := Fin 2; lb_pressure := Fin 2 |});
    (0%nat, {| lb_row := 110; lb_keyframe := 0; lb_temperature := Fin 2; lb_pressure := Fin 2 |}) ].

(** The relaxation is reported under the name tau, but not under the name temperature, and the name
    molecule makes the call fail although the rows of dynamics have been written. *)
Theorem C183_columns_refuted : exists l,
  (forall col, k_run "tau" l = (None, Some k_rows, Some [(0%nat, col)]) -> dget String.eqb "tau" col = Some (CStatus [10])) /\
  k_run "tau" l = (None, Some k_rows, Some [(0%nat, [("keyframe", CKeyframe); ("molecule", CMolecule); ("tau", CStatus [10]);
     ("temperature", CConst (Fin 2)); ("pressure", CConst (Fin 2))])]) /\
  k_run "temperature" l = (None, Some k_rows, Some [(0%nat, [("keyframe", CKeyframe); ("molecule", CMolecule);
     ("temperature", CConst (Fin 2)); ("pressure", CConst (Fin 2))])]) /\
  k_run "molecule" l = (Some ValueError, Some k_rows, Some []) /\ k_run "keyframe" l = (Some ValueError, Some k_rows, Some []).
Proof.
  exists k_frames.
  assert (E : k_run "tau" k_frames = (None, Some k_rows, Some [(0%nat, [("keyframe", CKeyframe); ("molecule", CMolecule); ("tau", CStatus [10]);
     ("temperature", CConst (Fin 2)); ("pressure", CConst (Fin 2))])])) by (vm_compute; reflexivity).
  split; [intros col; rewrite E; intros [= <-]; reflexivity|]. split; [exact E|]. split; [vm_compute; reflexivity|].
  split; vm_compute; reflexivity.
Qed.
Print Assumptions C183_columns_refuted.
