(** Properties C57 and C104: process_file and the name of its input file. *)
From Coq Require Import String Ascii ZArith QArith List Bool Lia.
From Verif Require Import Base DictFacts XNum PyStr FrameModel ParamsModel FilenameProofs FilenameProps
  WriteCacheModel ProcessModel ProcessSpec ProcessProofs ProcessPathModel.
Import ListNotations.
Open Scope string_scope.

(** [r] is the number column made from [v]: NaN if the name does not say. *)
Definition parsed (pfloat : string -> option xnum) (v : option string) (x : xnum) : Prop :=
  match v with None => x = NaN | Some s => pfloat s = Some x end.
Definition unreadable (pfloat : string -> option xnum) (v : option string) : Prop :=
  exists s, v = Some s /\ pfloat s = None.

Section Any.
  Context {D R F Row Sum : Type}.
  Variable npos : F -> nat.
  Variable mk : F -> (D * R) + exn.
  Variable custom : option (R -> R * option exn).
  Variable compute : D -> F -> D * (Row + exn).
  Variable radd : R -> F -> R * option exn.
  Variable summary : R -> Sum.
  Variable pfloat : string -> option xnum.
  Notation process_path := (process_path npos mk custom compute radd summary pfloat).

  Lemma column_parsed v : match column pfloat v with
    | inl x => parsed pfloat v x
    | inr e => e = ValueError /\ unreadable pfloat v
    end.
  Proof.
    destruct v as [s|]; cbn; auto. destruct (pfloat s) eqn:E; cbn; auto. split; auto. exists s. auto.
  Qed.
  Lemma unreadable_column v : unreadable pfloat v -> column pfloat v = inr ValueError.
  Proof. intros (s & -> & E). cbn. rewrite E. reflexivity. Qed.

  (** Everything appended comes from [label]. *)
  Section Rows.
    Context {Out : Type}.
    Variable label : nat -> Row -> Out + exn.
    Variable Q : nat * Out -> Prop.
    Variable t0 : table (nat * Out).
    Hypothesis label_Q : forall k row o, label k row = inl o -> Q (k, o).
    Definition t_ok (t : table (nat * Out)) : Prop :=
      forall rows, t = Some rows -> forall x, In x rows -> Q x \/ exists old, t0 = Some old /\ In x old.
    Definition ok (s : pstate D R Out) : Prop := Forall Q (wc_cache (ps_cache s)) /\ t_ok (ps_table s).
    Lemma to_hdf_ok app rows t : Forall Q rows -> t_ok t -> t_ok (to_hdf app rows t).
    Proof.
      intros FR T. rewrite Forall_forall in FR. unfold to_hdf. destruct rows as [|r rows]; auto. intros l E x I.
      destruct app; injection E as <-; [|left; apply FR; auto].
      apply in_app_or in I. destruct I as [I|I]; [|left; apply FR; auto].
      destruct t as [old|]; [|destruct I]. apply (T old eq_refl x I).
    Qed.
    Lemma append_ok x w t w' t' : Q x -> Forall Q (wc_cache w) -> t_ok t -> append x None w t = inl (w', t') ->
      Forall Q (wc_cache w') /\ t_ok t'.
    Proof.
      intros QX FW T E. unfold append, flush in E.
      destruct (negb _ && _)%bool.
      - destruct (negb (wc_named w)); [discriminate|]. destruct (negb (wc_group w)); [discriminate|].
        injection E as <- <-. cbn. split; [repeat constructor; auto|]. apply to_hdf_ok; auto.
      - injection E as <- <-. cbn. split; auto. apply Forall_app. split; auto.
    Qed.
    Lemma solo_label k f x x' o e : solo mk custom compute radd label k f x = (x', Some o, e) ->
      exists row, label k row = inl o.
    Proof.
      unfold solo. destruct (mk f) as [new|]; [|discriminate].
      destruct (match x with Some y => y | None => new end) as [d r].
      destruct (match custom with Some g => g r | None => (r, None) end) as [r1 [e1|]]; [discriminate|].
      destruct (compute d f) as [d1 [row|e0]].
      - destruct (radd r1 f) as [r2 [e2|]].
        + destruct (skipped e2); discriminate.
        + destruct (label k row) eqn:L; [|discriminate]. intros E. injection E as _ <- _. eauto.
      - destruct (skipped e0); discriminate.
    Qed.
    Lemma visit_ok k f s s' e : ok s -> visit mk custom compute radd label k f s = (s', e) -> ok s'.
    Proof.
      intros (FW & T) E. rewrite visit_solo in E.
      destruct (solo mk custom compute radd label k f (dget Nat.eqb k (ps_keys s))) as [[x o] e'] eqn:S0. cbn in E.
      destruct e' as [e'|]; [injection E as <- _; split; auto|].
      destruct o as [o|]; [|injection E as <- _; split; auto].
      destruct (append (k, o) None (ps_cache s) (ps_table s)) as [[w t]|e'] eqn:A; [|injection E as <- _; split; auto].
      injection E as <- _. destruct (solo_label _ _ _ _ _ _ S0) as (row & L).
      apply (append_ok (k, o) (ps_cache s) (ps_table s)); auto. eapply label_Q; eauto.
    Qed.
    Lemma flat_ok l : forall s s' e, ok s -> flat mk custom compute radd label l s = (s', e) -> ok s'.
    Proof.
      induction l as [|[k f] l IH]; intros s s' e O E; cbn in E; [injection E as <- _; auto|].
      destruct (visit mk custom compute radd label k f s) as [s1 [e1|]] eqn:V.
      - injection E as <- _. eapply visit_ok; eauto.
      - eapply IH; [|exact E]. eapply visit_ok; eauto.
    Qed.
    Lemma frames_ok l fin s s' e : ok s -> frames npos mk custom compute radd label l fin s = (s', e) -> ok s'.
    Proof.
      intros O E. rewrite frames_flat in E. destruct (flat _ _ _ _ _ (vlist npos l) s) as [s1 e1] eqn:FL.
      apply (flat_ok _ _ _ _ O) in FL. destruct e1; injection E as <- _; auto.
    Qed.
    (** What process_file gives out consists of labelled rows and of what was there. *)
    Lemma process_rows outfile vars floats reader r0 :
      let x := process_file npos mk custom compute radd label summary outfile vars floats reader t0 r0 in
      (forall rows, out_result x = inl (Some rows) -> rows <> [] /\ Forall Q rows) /\ t_ok (out_table x).
    Proof.
      cbv zeta. assert (T0 : t_ok t0) by (intros rows E y I; right; eauto).
      unfold process_file. destruct vars as [e|]; [split; [discriminate|auto]|].
      destruct reader as [[l fin]|]; [|split; [discriminate|auto]].
      destruct (frames _ _ _ _ _ _ l fin _) as [s e] eqn:FR.
      apply frames_ok in FR; [|split; [constructor|exact T0]]. destruct FR as (FW & T).
      destruct e as [e|]; [split; [discriminate|auto]|]. destruct outfile.
      - unfold flush. destruct (negb (wc_named (ps_cache s))); [split; [discriminate|auto]|].
        destruct (negb (wc_group (ps_cache s))); [split; [discriminate|auto]|].
        assert (T1 : t_ok (to_hdf (wc_append (ps_cache s)) (wc_cache (ps_cache s)) (ps_table s))) by (apply to_hdf_ok; auto).
        destruct (ps_keys s); [split; [discriminate|auto]|]. destruct floats; split; try discriminate; auto.
      - unfold to_dataframe. destruct (wc_cache (ps_cache s)) as [|r rows]; [split; [discriminate|auto]|].
        split; auto. cbn. intros rows' E. injection E as <-. split; [discriminate|auto].
    Qed.
  End Rows.

  (** ** C57: a name with an unreadable number cannot be analysed at all. *)
  Theorem C57_unreadable_never_analysed infile v outfile gsd lammps t0 r0 :
    get_filename_vars infile = inl v ->
    unreadable pfloat (v_temperature v) \/ unreadable pfloat (v_pressure v) ->
    let x := process_path infile outfile gsd lammps t0 r0 in
    (exists e, out_result x = inr e) /\ out_table x = t0.
  Proof.
    cbv zeta. intros EV U. unfold ProcessPathModel.process_path. rewrite EV.
    set (reader := if String.eqb (path_suffix infile) ".gsd" then _ else _).
    assert (FE : exists e, float_exn pfloat v = Some e).
    { unfold float_exn. destruct U as [U|U]; rewrite (unreadable_column _ U); eauto.
      destruct (column pfloat (v_temperature v)); eauto. }
    assert (LB : forall k (row : Row) o, label_vars pfloat v k row = inl o -> False).
    { intros k row o. unfold label_vars. destruct U as [U|U]; rewrite (unreadable_column _ U); cbn; try discriminate.
      destruct (column pfloat (v_temperature v)); cbn; discriminate. }
    assert (NOTHING : forall l s s' e, wc_cache (ps_cache s) = [] ->
      flat mk custom compute radd (label_vars pfloat v) l s = (s', e) -> ps_cache s' = ps_cache s /\ ps_table s' = ps_table s).
    { induction l as [|[k f] l IH]; intros s s' e C E; cbn in E; [injection E as <- _; auto|].
      rewrite visit_solo in E.
      destruct (solo mk custom compute radd (label_vars pfloat v) k f (dget Nat.eqb k (ps_keys s))) as [[x o] e'] eqn:S0.
      cbn in E. destruct o as [o|]; [destruct (solo_label _ _ _ _ _ _ _ S0) as (row & L); destruct (LB _ _ _ L)|].
      destruct e' as [e'|]; [injection E as <- _; auto|]. apply IH in E; [|exact C]. exact E. }
    destruct FE as (ef & FE). unfold process_file. rewrite FE. destruct reader as [[l fin]|]; [|cbn; eauto].
    rewrite frames_flat.
    match goal with |- context [flat _ _ _ _ _ _ ?s] => set (s0 := s) end.
    destruct (flat mk custom compute radd (label_vars pfloat v) (vlist npos l) s0) as [s e] eqn:FL.
    apply NOTHING in FL; [|reflexivity]. destruct FL as (A & B).
    destruct e as [e|]; [cbn; rewrite B; eauto|]. destruct fin as [e|]; [cbn; rewrite B; eauto|].
    rewrite A, B. unfold s0. cbn. destruct outfile; cbn; eauto.
    destruct (ps_keys s); cbn; eauto.
  Qed.

  (** If the first frame can be analysed the exception is ValueError. *)
  Theorem C57_first_frame_ValueError infile v outfile l fin lammps t0 r0 k idx f new d row r r' :
    get_filename_vars infile = inl v -> path_suffix infile = ".gsd" ->
    unreadable pfloat (v_temperature v) \/ unreadable pfloat (v_pressure v) ->
    npos f <> 0%nat -> mk f = inl new ->
    match custom with Some g => g (snd new) | None => (snd new, None) end = (r, None) ->
    compute (fst new) f = (d, inl row) -> radd r f = (r', None) ->
    out_result (process_path infile outfile ((k :: idx, f) :: l, fin) lammps t0 r0) = inr ValueError.
  Proof.
    intros EV SX U NP M CU CO RA. unfold ProcessPathModel.process_path. rewrite EV, SX. cbn [String.eqb].
    assert (LB : label_vars pfloat v k row = inr ValueError).
    { unfold label_vars. destruct U as [U|U]; rewrite (unreadable_column _ U); cbn; auto.
      destruct (column pfloat (v_temperature v)) eqn:E; cbn; auto.
      pose proof (column_parsed (v_temperature v)) as X. rewrite E in X. destruct X as (-> & _). reflexivity. }
    unfold process_file. cbn. destruct (Nat.eqb_spec (npos f) 0); [contradiction|].
    unfold visit. rewrite M. cbn. destruct new as [d0 r00]. cbn in *. rewrite CU, CO, RA, LB. reflexivity.
  Qed.

  (** ** C104: the labels *)
  (** Every row returned or written has the temperature and the pressure that the file name
      says, or NaN. *)
  Theorem C104_rows_labelled infile outfile gsd lammps t0 r0 :
    let x := process_path infile outfile gsd lammps t0 r0 in
    let good_row (p : nat * labelled Row) := exists v, get_filename_vars infile = inl v /\
      parsed pfloat (v_temperature v) (lb_temperature (snd p)) /\
      parsed pfloat (v_pressure v) (lb_pressure (snd p)) /\ lb_keyframe (snd p) = fst p in
    (forall rows, out_result x = inl (Some rows) -> rows <> [] /\ Forall good_row rows) /\
    (forall rows, out_table x = Some rows -> forall p, In p rows ->
       good_row p \/ exists old, t0 = Some old /\ In p old).
  Proof.
    cbv zeta. unfold ProcessPathModel.process_path. destruct (get_filename_vars infile) as [v|e] eqn:EV.
    - apply process_rows. intros k row o L. exists v. split; auto. unfold label_vars in L.
      pose proof (column_parsed (v_temperature v)) as A. pose proof (column_parsed (v_pressure v)) as B.
      destruct (column pfloat (v_temperature v)); [|discriminate]. destruct (column pfloat (v_pressure v)); [|discriminate].
      cbn in L. injection L as <-. cbn. auto.
    - cbn. split; [discriminate|]. intros rows E p I. right. eauto.
  Qed.
  (** If both numbers can be read, or are not there, no row fails because of the file name. *)
  Theorem C57_readable_partial infile v : get_filename_vars infile = inl v ->
    ~ unreadable pfloat (v_temperature v) -> ~ unreadable pfloat (v_pressure v) ->
    float_exn pfloat v = None /\ forall k (row : Row), exists o, label_vars pfloat v k row = inl o.
  Proof.
    intros _ U1 U2. unfold float_exn, label_vars.
    pose proof (column_parsed (v_temperature v)) as A. pose proof (column_parsed (v_pressure v)) as B.
    destruct (column pfloat (v_temperature v)); [|destruct A; contradiction].
    destruct (column pfloat (v_pressure v)); [|destruct B; contradiction]. split; auto. intros. cbn. eauto.
  Qed.
End Any.

(** The file name of the README: float('rimer') fails, so it can never be analysed. *)
Definition readme : string := "trajectory-Trimer-13.50-1.20.gsd".
Theorem C57_readme_refuted : forall (D R F Row Sum : Type) npos mk custom compute radd summary pfloat,
  pfloat "rimer" = None ->
  forall outfile gsd lammps t0 r0,
  exists e, out_result (@process_path D R F Row Sum npos mk custom compute radd summary pfloat
                          readme outfile gsd lammps t0 r0) = inr e.
Proof.
  intros D R F Row Sum npos mk custom compute radd summary pfloat E outfile gsd lammps t0 r0.
  destruct (C57_unreadable_never_analysed npos mk custom compute radd summary pfloat readme
    {| v_temperature := Some "rimer"; v_pressure := None; v_crystal := Some "1.20"; v_iteration := None |}
    outfile gsd lammps t0 r0) as (H & _); auto. left. exists "rimer". auto.
Qed.
Print Assumptions C57_unreadable_never_analysed.
Print Assumptions C57_first_frame_ValueError.
Print Assumptions C57_readable_partial.
Print Assumptions C57_readme_refuted.
Print Assumptions C104_rows_labelled.

(** Two frames with one key frame each; the analysis counts. *)
Definition ex_pf (s : string) : option xnum :=
  if String.eqb s "1.20" then Some (Fin (6 # 5)) else if String.eqb s "13.50" then Some (Fin (27 # 2)) else None.
Definition ex_run (name : string) (outfile : bool) :=
  process_path (D := nat) (R := nat) (F := nat) (Row := nat) (Sum := nat)
    (fun _ => 1%nat) (fun f => inl (f, 0%nat)) None (fun d f => (d, inl (f - d)%nat)) (fun r f => (S r, None)) (fun r => r)
    ex_pf name outfile ([([0%nat], 3%nat); ([0%nat], 5%nat)], None) ([], None) None None.
(** The same frames under two names of the same kind: one can be analysed. *)
Theorem C57_name_refuted : exists infile infile' rows, path_suffix infile = path_suffix infile' /\
  (exists v, get_filename_vars infile = inl v) /\ rows <> [] /\
  out_result (ex_run infile' false) = inl (Some rows) /\
  out_result (ex_run infile false) = inr ValueError /\ out_result (ex_run infile true) = inr ValueError.
Proof.
  exists readme, "dump-Trimer-P13.50-T1.20.gsd". eexists. split; [reflexivity|]. split; [eexists; vm_compute; reflexivity|].
  split; [|split; [vm_compute; reflexivity|split; vm_compute; reflexivity]]. discriminate.
Qed.
Print Assumptions C57_name_refuted.
Example C57_ex : out_result (ex_run readme false) = inr ValueError /\ out_result (ex_run readme true) = inr ValueError.
Proof. split; vm_compute; reflexivity. Qed.
Example C104_ex : exists rows, out_result (ex_run "dump-Trimer-P13.50-T1.20.gsd" false) = inl (Some rows)
  /\ rows = [(0%nat, {| lb_row := 0%nat; lb_keyframe := 0%nat; lb_temperature := Fin (6 # 5); lb_pressure := Fin (27 # 2) |});
             (0%nat, {| lb_row := 2%nat; lb_keyframe := 0%nat; lb_temperature := Fin (6 # 5); lb_pressure := Fin (27 # 2) |})].
Proof. eexists. split; vm_compute; reflexivity. Qed.
Example C104_ex_file : exists rows, out_table (ex_run "dump-P1-T2.gsd" true) = Some rows /\ List.length rows = 2%nat
  /\ Forall (fun p => lb_temperature (snd p) = NaN) rows.
Proof. eexists. split; [vm_compute; reflexivity|]. split; [reflexivity|repeat constructor]. Qed.
