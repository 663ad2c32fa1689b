(** Properties C58-C62: simulation parameters and directories. *)
From Coq Require Import String Ascii ZArith QArith List Bool Lia.
From Verif Require Import Base DictFacts XNum PyStr FrameModel ParamsModel FilenameProps.
Import ListNotations.
Open Scope string_scope.

(** ** Attributes *)
Definition hidden (k : string) : Prop := k = "_infile" \/ k = "_outfile" \/ k = "_output".
Definition prop_name (k : string) : Prop := k = "infile" \/ k = "outfile" \/ k = "output".
Notation sget := (dget String.eqb).
Notation sset := (dset String.eqb).
Lemma sget_same {V} k (v : V) d : sget k (sset k v d) = Some v.
Proof. apply dget_dset_same, String.eqb_eq. Qed.
Lemma sget_other {V} k k' (v : V) d : k <> k' -> sget k (sset k' v d) = sget k d.
Proof. apply dget_dset_other, String.eqb_eq. Qed.
(** Where the value of an attribute is kept. *)
Definition slot (k : string) : string :=
  if String.eqb k "infile" then "_infile" else if String.eqb k "outfile" then "_outfile"
  else if String.eqb k "output" then "_output" else k.
Lemma getattr_slot cwd o k : getattr cwd o k =
  match sget (slot k) o with
  | None => inr AttributeError
  | Some v => inl (if String.eqb k "output" then match v with VNone => VPath cwd | _ => v end else v)
  end.
Proof.
  unfold getattr, slot, dget_attr. destruct (String.eqb_spec k "infile") as [->|]; [destruct (sget "_infile" o); reflexivity|].
  destruct (String.eqb_spec k "outfile") as [->|]; [destruct (sget "_outfile" o); reflexivity|].
  destruct (String.eqb_spec k "output") as [->|]; [destruct (sget "_output" o); reflexivity|].
  destruct (sget k o); reflexivity.
Qed.
Lemma setattr_slot o k v o' : setattr o k v = inl o' -> o' = o \/ exists v', o' = sset (slot k) v' o
  /\ (prop_name k -> exists p, v' = VPath p) /\ (~ prop_name k -> v' = v).
Proof.
  unfold setattr, slot.
  assert (P : forall (f : string) v o', ebind (Path v) (fun p => inl (sset f p o)) = inl o' ->
             exists p, o' = sset f (VPath p) o).
  { intros f w ob. destruct w; cbn; try discriminate; intros E; injection E as <-; eauto. }
  destruct (String.eqb_spec k "infile") as [->|].
  { intros E. apply P in E. destruct E as (p & ->). right. exists (VPath p). split; auto. split; eauto. intros N. exfalso. apply N. left. auto. }
  destruct (String.eqb_spec k "outfile") as [->|].
  { destruct v; try (intros E; apply P in E; destruct E as (q & ->); right; exists (VPath q); split; auto; split; eauto;
      intros N; exfalso; apply N; right; left; auto). intros E. injection E as <-. auto. }
  destruct (String.eqb_spec k "output") as [->|].
  { destruct v; try (intros E; apply P in E; destruct E as (q & ->); right; exists (VPath q); split; auto; split; eauto;
      intros N; exfalso; apply N; right; right; auto). intros E. injection E as <-. auto. }
  intros E. injection E as <-. right. exists v. split; auto. split; auto. intros [?|[?|?]]; contradiction.
Qed.
Lemma slot_public k : ~ prop_name k -> slot k = k.
Proof.
  intros N. unfold slot, prop_name in *. destruct (String.eqb_spec k "infile"); [intuition|].
  destruct (String.eqb_spec k "outfile"); [intuition|]. destruct (String.eqb_spec k "output"); [intuition|]. reflexivity.
Qed.
Lemma slot_neq k k' : ~ prop_name k' -> ~ hidden k' -> k <> k' -> slot k <> k'.
Proof.
  unfold slot, prop_name, hidden. intros N H NE. destruct (String.eqb_spec k "infile"); [intros <-; tauto|].
  destruct (String.eqb_spec k "outfile"); [intros <-; tauto|]. destruct (String.eqb_spec k "output"); [intros <-; tauto|]. auto.
Qed.
Lemma slot_inj k k' : ~ hidden k -> ~ hidden k' -> slot k = slot k' -> k = k'.
Proof.
  unfold slot, hidden. intros H H'.
  repeat match goal with |- context [String.eqb ?a ?b] => destruct (String.eqb_spec a b) end; intros E; subst; auto; try discriminate; exfalso; intuition.
Qed.
Lemma getattr_set_other cwd o k k' v : ~ prop_name k' -> ~ hidden k' -> k <> k' ->
  getattr cwd (sset k' v o) k = getattr cwd o k.
Proof. intros N H NE. rewrite !getattr_slot, sget_other; auto. apply slot_neq; auto. Qed.
Lemma getattr_set_same cwd o k v : ~ prop_name k -> getattr cwd (sset k v o) k = inl v.
Proof.
  intros N. rewrite getattr_slot, slot_public, sget_same by auto. destruct (String.eqb_spec k "output"); auto.
  exfalso. apply N. unfold prop_name. auto.
Qed.

(** ** C58 *)
Definition is_parsed (pfloat : string -> option xnum) (v : option string) (old new : pyval + exn) : Prop :=
  match v with None => new = old | Some s => exists x, pfloat s = Some x /\ new = inl (VNum x) end.
Definition bad_number (pfloat : string -> option xnum) (v : option string) : Prop :=
  exists s, v = Some s /\ pfloat s = None.
Theorem C58_set_filename_vars : forall pfloat cwd fname o v,
  get_filename_vars fname = inl v ->
  let '(o', e) := set_filename_vars pfloat fname o in
  (forall k, k <> "temperature" -> k <> "pressure" -> k <> "space_group" -> getattr cwd o' k = getattr cwd o k) /\
  match e with
  | None =>
      is_parsed pfloat (v_temperature v) (getattr cwd o "temperature") (getattr cwd o' "temperature") /\
      is_parsed pfloat (v_pressure v) (getattr cwd o "pressure") (getattr cwd o' "pressure") /\
      getattr cwd o' "space_group" = match v_crystal v with Some c => inl (VStr c) | None => getattr cwd o "space_group" end
  | Some e =>
      e = ValueError /\ getattr cwd o' "pressure" = getattr cwd o "pressure"
      /\ getattr cwd o' "space_group" = getattr cwd o "space_group"
      /\ ((bad_number pfloat (v_temperature v) /\ o' = o)
          \/ (bad_number pfloat (v_pressure v) /\
              is_parsed pfloat (v_temperature v) (getattr cwd o "temperature") (getattr cwd o' "temperature")))
  end.
Proof.
  intros pfloat cwd fname o v EV. unfold set_filename_vars. rewrite EV.
  assert (NT : ~ prop_name "temperature" /\ ~ hidden "temperature") by (unfold prop_name, hidden; split; intros [?|[?|?]]; discriminate).
  assert (NP : ~ prop_name "pressure" /\ ~ hidden "pressure") by (unfold prop_name, hidden; split; intros [?|[?|?]]; discriminate).
  assert (NS : ~ prop_name "space_group" /\ ~ hidden "space_group") by (unfold prop_name, hidden; split; intros [?|[?|?]]; discriminate).
  assert (SF : forall k w ob, ~ prop_name k -> ~ hidden k -> match set_float pfloat k w ob with
    | (ob', None) => (forall k', k' <> k -> getattr cwd ob' k' = getattr cwd ob k')
                     /\ is_parsed pfloat w (getattr cwd ob k) (getattr cwd ob' k)
    | (ob', Some e) => ob' = ob /\ e = ValueError /\ bad_number pfloat w
    end).
  { intros k w ob N H. unfold set_float. destruct w as [s|]; cbn; auto. destruct (pfloat s) as [x|] eqn:PF.
    - destruct (setattr ob k (VNum x)) as [ob'|e] eqn:SA.
      + assert (E : ob' = sset k (VNum x) ob).
        { unfold setattr in SA. unfold prop_name in N.
          repeat match type of SA with context [String.eqb ?a ?b] => destruct (String.eqb_spec a b); [exfalso; intuition|] end.
          congruence. }
        subst ob'. split; [intros; apply getattr_set_other; auto|]. exists x. split; auto. apply getattr_set_same; auto.
      + exfalso. unfold setattr in SA. unfold prop_name in N.
        repeat match type of SA with context [String.eqb ?a ?b] => destruct (String.eqb_spec a b); [exfalso; intuition|] end.
        discriminate.
    - split; auto. split; auto. exists s. auto. }
  pose proof (SF "temperature" (v_temperature v) o (proj1 NT) (proj2 NT)) as A.
  destruct (set_float pfloat "temperature" (v_temperature v) o) as [o1 [e|]].
  { destruct A as (-> & -> & B). split; auto. split; auto. }
  destruct A as (A1 & A2).
  pose proof (SF "pressure" (v_pressure v) o1 (proj1 NP) (proj2 NP)) as B.
  destruct (set_float pfloat "pressure" (v_pressure v) o1) as [o2 [e|]].
  { destruct B as (-> & -> & B). split; [intros; apply A1; auto|]. split; auto. split; [apply A1; discriminate|]. split; [apply A1; discriminate|]. right. auto. }
  destruct B as (B1 & B2). rewrite A1 in B2 by discriminate.
  destruct (v_crystal v) as [c|].
  - change (setattr o2 "space_group" (VStr c)) with (inl (sset "space_group" (VStr c) o2) : obj + exn). cbv iota beta.
    split.
    + intros k K1 K2 K3. rewrite getattr_set_other by (auto; tauto). rewrite B1, A1 by auto. reflexivity.
    + rewrite !(getattr_set_other cwd o2 _ "space_group") by (try discriminate; tauto).
      rewrite (B1 "temperature") by discriminate. split; auto. split; auto. apply getattr_set_same. tauto.
  - split.
    + intros k K1 K2 K3. rewrite B1, A1 by auto. reflexivity.
    + rewrite (B1 "temperature"), (B1 "space_group"), (A1 "space_group") by discriminate. auto.
Qed.
(** If the file name itself cannot be read nothing changes. *)
Theorem C58_unreadable_name : forall pfloat fname o e,
  get_filename_vars fname = inr e -> set_filename_vars pfloat fname o = (o, Some e).
Proof. intros pfloat fname o e E. unfold set_filename_vars. rewrite E. reflexivity. Qed.
(** It succeeds exactly if the numbers that are there can be read. *)
Theorem C58_succeeds : forall pfloat fname o v, get_filename_vars fname = inl v ->
  (snd (set_filename_vars pfloat fname o) = None <->
   ~ bad_number pfloat (v_temperature v) /\ ~ bad_number pfloat (v_pressure v)).
Proof.
  intros pfloat fname o v EV. pose proof (C58_set_filename_vars pfloat "/" fname o v EV) as H.
  destruct (set_filename_vars pfloat fname o) as [o' [e|]]; cbn in *.
  - destruct H as (_ & _ & _ & _ & [(B & _)|(B & _)]); split; try discriminate; tauto.
  - destruct H as (_ & H1 & H2 & _). split; auto. intros _.
    split; intros (s & E & P); [rewrite E in H1; destruct H1 as (x & X & _)|rewrite E in H2; destruct H2 as (x & X & _)]; congruence.
Qed.
Print Assumptions C58_set_filename_vars.
Print Assumptions C58_unreadable_name.
Print Assumptions C58_succeeds.
Definition ex_pf (s : string) : option xnum :=
  if String.eqb s "1.20" then Some (Fin (6 # 5)) else if String.eqb s "13.50" then Some (Fin (27 # 2)) else None.
Definition o0 : obj := sp0 1 2 VNone VNone VNone.
Example C58_ex : let '(o', e) := set_filename_vars ex_pf "dump-Trimer-P13.50-T1.20-p2.gsd" o0 in
  e = None /\ getattr "/" o' "temperature" = inl (VNum (Fin (6 # 5)))
  /\ getattr "/" o' "pressure" = inl (VNum (Fin (27 # 2))) /\ getattr "/" o' "space_group" = inl (VStr "p2").
Proof. vm_compute. auto. Qed.
(** The temperature is kept although the pressure fails. *)
Example C58_ex_half : let '(o', e) := set_filename_vars ex_pf "dump-Trimer-Px-T1.20-p2.gsd" o0 in
  e = Some ValueError /\ getattr "/" o' "temperature" = inl (VNum (Fin (6 # 5)))
  /\ getattr "/" o' "space_group" = inl VNone.
Proof. vm_compute. auto. Qed.

(** ** C59: temp_context *)
Definition wf (o : obj) : Prop := NoDup (dkeys o).
Lemma setattr_wf o k v o' : wf o -> setattr o k v = inl o' -> wf o'.
Proof.
  intros W E. apply setattr_slot in E. destruct E as [->|(v' & -> & _)]; auto. apply dset_NoDup; auto. apply String.eqb_eq.
Qed.
Lemma set_all_wf kw : forall o o' e, wf o -> set_all kw o = (o', e) -> wf o'.
Proof.
  induction kw as [|[k v] kw IH]; intros o o' e W E; cbn in E; [injection E as <- _; auto|].
  destruct (setattr o k v) as [o1|e1] eqn:SA; [|injection E as <- _; auto]. eapply IH; [|exact E]. eapply setattr_wf; eauto.
Qed.
Lemma update_wf old : forall o, wf o -> wf (update o old).
Proof.
  unfold update. induction old as [|[k v] old IH]; intros o W; cbn; auto. apply IH. apply dset_NoDup; auto. apply String.eqb_eq.
Qed.
Lemma exec_wf c : forall o o' e, wf o -> exec c o = (o', e) -> wf o'.
Proof.
  induction c; intros o o' e' W E; cbn in E.
  - injection E as <- _; auto.
  - destruct (setattr o k v) eqn:SA; injection E as <- _; auto. eapply setattr_wf; eauto.
  - unfold delattr in E. destruct (existsb _ _); [injection E as <- _; auto|]. destruct (dmem _ _ _); injection E as <- _; auto.
    apply ddel_NoDup; auto.
  - injection E as <- _; auto.
  - destruct (exec c1 o) as [o1 [e1|]] eqn:E1; [injection E as <- _; eauto|]. eauto.
  - destruct (exec c1 o) as [o1 [e1|]] eqn:E1; [eauto|injection E as <- _; eauto].
  - destruct (set_all kwargs o) as [o1 [e1|]] eqn:SA; [injection E as <- _; eapply set_all_wf; eauto|].
    destruct (exec c o1) as [o2 [e2|]] eqn:E2; injection E as <- _.
    + eapply IHc; [|eauto]. eapply set_all_wf; eauto.
    + apply update_wf. eapply IHc; [|eauto]. eapply set_all_wf; eauto.
Qed.
Lemma update_get old : forall o k, NoDup (dkeys old) ->
  sget k (update o old) = match sget k old with Some v => Some v | None => sget k o end.
Proof.
  unfold update. induction old as [|[k' v] old IH]; intros o k N; cbn; auto. inversion N; subst.
  rewrite IH by auto. destruct (String.eqb_spec k k') as [->|NE].
  - assert (H : sget k' old = None).
    { destruct (sget k' old) eqn:E; auto. exfalso. apply H1. apply (dget_In String.eqb String.eqb_eq). congruence. }
    rewrite H. apply sget_same.
  - destruct (sget k old); auto. apply sget_other; auto.
Qed.
Lemma filter_get (o : obj) k v : wf o -> sget k o = Some v -> not_property v = true ->
  sget k (filter (fun p => not_property (snd p)) o) = Some v.
Proof.
  unfold wf. induction o as [|[k' v'] o IH]; intros W E P; cbn in *; [discriminate|]. inversion W; subst.
  destruct (String.eqb_spec k k') as [->|NE].
  - injection E as ->. rewrite P. cbn. rewrite String.eqb_refl. reflexivity.
  - destruct (not_property v'); auto. cbn. destruct (String.eqb_spec k k'); [congruence|]. auto.
Qed.
Lemma filter_wf (o : obj) f : wf o -> wf (filter f o).
Proof.
  unfold wf. induction o as [|[k v] o IH]; intros W; cbn; auto. inversion W; subst. destruct (f (k, v)); auto. cbn. constructor; auto.
  intros I. apply H1. unfold dkeys in *. apply in_map_iff in I. destruct I as ([k1 v1] & E & I). apply filter_In in I.
  apply in_map_iff. exists (k1, v1). tauto.
Qed.

Theorem C59_temp_context_restores : forall cwd kw body o o',
  NoDup (dkeys o) -> exec (With kw body) o = (o', None) ->
  forall k v, getattr cwd o k = inl v -> v <> VProperty -> getattr cwd o' k = inl v.
Proof.
  intros cwd kw body o o' W E k v G NP. cbn in E. destruct (set_all kw o) as [o1 [e1|]]; [discriminate|].
  destruct (exec body o1) as [o2 [e2|]]; [discriminate|]. injection E as <-.
  rewrite getattr_slot in *. rewrite update_get by (apply filter_wf; auto).
  destruct (sget (slot k) o) as [v0|] eqn:S0; [|discriminate].
  rewrite (filter_get o (slot k) v0 W S0); auto.
  injection G as G. destruct v0; auto. exfalso. destruct (String.eqb k "output"); congruence.
Qed.
(** The side condition holds in every reachable state, so the theorem also applies to every
    context inside a program. *)
Theorem C59_reachable : forall c o o' e, NoDup (dkeys o) -> exec c o = (o', e) -> NoDup (dkeys o').
Proof. exact exec_wf. Qed.
Print Assumptions C59_temp_context_restores.
Print Assumptions C59_reachable.
Definition nested : cmd :=
  With [("temperature", VNum (Fin 9)); ("outfile", VStr "b.gsd")]
    (Seq (DelAttr "pressure")
         (With [("temperature", VNum (Fin 7))] (Try (Seq (SetAttr "space_group" (VStr "p2")) (RaiseExn ValueError)) (SetAttr "pressure" VNone)))).
Example C59_ex : NoDup (dkeys o0) /\ snd (exec nested o0) = None /\ fst (exec nested o0) <> o0
  /\ getattr "/" (fst (exec nested o0)) "temperature" = inl (VNum (Fin 2))
  /\ getattr "/" (fst (exec nested o0)) "pressure" = inl (VNum (Fin 1))
  /\ getattr "/" (fst (exec nested o0)) "outfile" = inl VNone.
Proof.
  refine (conj _ _).
  - vm_compute. repeat constructor; cbn; intuition discriminate.
  - refine (conj _ (conj _ _)); [vm_compute; reflexivity|vm_compute; discriminate|vm_compute; auto].
Qed.

(** ** C60: what temp_context does not do *)
Theorem C60_temp_context_refuted :
  (exists kw body o o' e, exec (With kw body) o = (o', Some e) /\ NoDup (dkeys o) /\
     getattr "/" o "temperature" <> getattr "/" o' "temperature" /\ body = RaiseExn ValueError) /\
  (exists kw o o' k v, exec (With kw Skip) o = (o', None) /\ NoDup (dkeys o) /\
     getattr "/" o k = inr AttributeError /\ getattr "/" o' k = inl v) /\
  (exists kw o o', exec (With kw Skip) o = (o', Some TypeError) /\ NoDup (dkeys o) /\
     getattr "/" o "temperature" <> getattr "/" o' "temperature").
Proof.
  assert (W : NoDup (dkeys o0)) by (vm_compute; repeat constructor; cbn; intuition discriminate).
  refine (conj _ (conj _ _)).
  - exists [("temperature", VNum (Fin 9))], (RaiseExn ValueError), o0. eexists. exists ValueError.
    refine (conj _ (conj W (conj _ eq_refl))); [vm_compute; reflexivity|vm_compute; discriminate].
  - exists [("comment", VStr "x")], o0. eexists. exists "comment", (VStr "x").
    refine (conj _ (conj W (conj _ _))); vm_compute; reflexivity.
  - exists [("temperature", VNum (Fin 9)); ("infile", VNone)], o0. eexists.
    refine (conj _ (conj W _)); [vm_compute; reflexivity|vm_compute; discriminate].
Qed.
(** What is left of the claim: a normal exit that leaves no new attribute behind restores
    the attributes exactly. *)
Theorem C60_exact_partial : forall cwd kw body o o',
  NoDup (dkeys o) -> (forall k, sget k o <> Some VProperty) ->
  exec (With kw body) o = (o', None) ->
  (forall k v, getattr cwd o' k = inl v -> exists v0, getattr cwd o k = inl v0) ->
  forall k, getattr cwd o' k = getattr cwd o k.
Proof.
  intros cwd kw body o o' W NP E NN k. destruct (getattr cwd o k) as [v|e] eqn:G.
  - apply (C59_temp_context_restores cwd kw body o o' W E k v G). intros ->. rewrite getattr_slot in G.
    destruct (sget (slot k) o) as [v0|] eqn:S0; [|discriminate]. injection G as G. apply (NP (slot k)).
    rewrite S0. f_equal. destruct (String.eqb k "output"); auto. destruct v0; congruence.
  - destruct (getattr cwd o' k) as [v|e'] eqn:G'.
    + destruct (NN k v G') as (v0 & X). congruence.
    + rewrite getattr_slot in G, G'. destruct (sget (slot k) o); [discriminate|]. destruct (sget (slot k) o'); [discriminate|]. congruence.
Qed.
Print Assumptions C60_temp_context_refuted.
Print Assumptions C60_exact_partial.
Example C60_ex : exec (With [("temperature", VNum (Fin 9))] (SetAttr "pressure" (VNum (Fin 5)))) o0 = (o0, None).
Proof. vm_compute. reflexivity. Qed.

(** ** C61: paths *)
(** Code that does not touch the underscore attributes. *)
Fixpoint public (c : cmd) : Prop :=
  match c with
  | Skip => True
  | SetAttr k v => ~ hidden k
  | DelAttr k => ~ hidden k
  | RaiseExn _ => True
  | Seq a b => public a /\ public b
  | Try a b => public a /\ public b
  | With kw b => Forall (fun p => ~ hidden (fst p)) kw /\ public b
  end.
Definition pathlike (v : pyval) : Prop := v = VNone \/ exists p, v = VPath p.
Definition paths_ok (o : obj) : Prop := forall k, hidden k -> exists v, sget k o = Some v /\ pathlike v.
Lemma slot_hidden k : hidden (slot k) -> hidden k \/ prop_name k.
Proof.
  unfold slot, prop_name. destruct (String.eqb_spec k "infile"); auto. destruct (String.eqb_spec k "outfile"); auto.
  destruct (String.eqb_spec k "output"); auto.
Qed.
Lemma setattr_paths o k v o' : ~ hidden k -> paths_ok o -> setattr o k v = inl o' -> paths_ok o'.
Proof.
  intros H P E. apply setattr_slot in E. destruct E as [->|(v' & -> & A & B)]; auto. intros k' H'.
  destruct (string_dec k' (slot k)) as [->|N].
  - rewrite sget_same. exists v'. split; auto. right. apply A. destruct (slot_hidden k H'); tauto.
  - rewrite sget_other by auto. apply P; auto.
Qed.
Lemma set_all_paths kw : forall o o' e, Forall (fun p => ~ hidden (fst p)) kw -> paths_ok o -> set_all kw o = (o', e) -> paths_ok o'.
Proof.
  induction kw as [|[k v] kw IH]; intros o o' e F P E; cbn in E; [injection E as <- _; auto|]. inversion F; subst.
  destruct (setattr o k v) as [o1|e1] eqn:SA; [|injection E as <- _; auto]. apply (IH o1 o' e H2); [apply (setattr_paths o k v); auto|auto].
Qed.
Lemma exec_paths c : forall o o' e, public c -> wf o -> paths_ok o -> exec c o = (o', e) -> paths_ok o'.
Proof.
  induction c; intros o o' e' PU W P E; cbn in E, PU.
  - injection E as <- _; auto.
  - destruct (setattr o k v) eqn:SA; injection E as <- _; auto. eapply setattr_paths; eauto.
  - unfold delattr in E. destruct (existsb _ _); [injection E as <- _; auto|]. destruct (dmem _ _ _); injection E as <- _; auto.
    intros k' H'. rewrite (dget_ddel_other String.eqb String.eqb_eq); [apply P; auto|]. intros ->. contradiction.
  - injection E as <- _; auto.
  - destruct PU. destruct (exec c1 o) as [o1 [e1|]] eqn:E1; [injection E as <- _; eauto|]. apply (IHc2 o1 o' e' H0); [eapply exec_wf; eauto|eapply IHc1; eauto|auto].
  - destruct PU. destruct (exec c1 o) as [o1 [e1|]] eqn:E1; [|injection E as <- _; eauto]. apply (IHc2 o1 o' e' H0); [eapply exec_wf; eauto|eapply IHc1; eauto|auto].
  - destruct PU as (F & PB). destruct (set_all kwargs o) as [o1 [e1|]] eqn:SA; [injection E as <- _; eapply set_all_paths; eauto|].
    assert (P1 : paths_ok o1) by (eapply set_all_paths; eauto). assert (W1 : wf o1) by (eapply set_all_wf; eauto).
    destruct (exec c o1) as [o2 [e2|]] eqn:E2; injection E as <- _; [eapply IHc; eauto|].
    assert (P2 : paths_ok o2) by (eapply IHc; eauto). intros k H.
    rewrite update_get by (apply filter_wf; auto). destruct (P k H) as (v & G & L).
    rewrite (filter_get o k v W G); eauto. destruct L as [->|(p & ->)]; reflexivity.
Qed.
Lemma new_params i f d rest o : NoDup (dkeys rest) -> (forall k, hidden k -> ~ In k (dkeys rest)) ->
  SimulationParams i f d rest = inl o -> wf o /\ paths_ok o.
Proof.
  intros N H E. unfold SimulationParams in E.
  assert (TP : forall v w, to_path v = inl w -> pathlike w).
  { intros v w. unfold to_path. destruct v; cbn; intros X; try discriminate; injection X as <-; [left|right|right]; eauto. }
  destruct (to_path i) as [i'|] eqn:E1; [|discriminate]. destruct (to_path f) as [f'|] eqn:E2; [|discriminate].
  destruct (to_path d) as [d'|] eqn:E3; [|discriminate]. cbn in E. injection E as <-.
  apply TP in E1, E2, E3.
  assert (GA : forall k l, ~ In k (dkeys rest) -> sget k (rest ++ l)%list = sget k l).
  { intros k l. clear. induction rest as [|[k' v] r IH]; cbn; auto. intros I. destruct (String.eqb_spec k k') as [->|]; [exfalso; auto|]. auto. }
  split.
  - unfold wf, dkeys in *. rewrite map_app. cbn. 
    assert (X : forall l, NoDup l -> (forall k, hidden k -> ~ In k l) -> NoDup (l ++ ["_infile"; "_outfile"; "_output"])).
    { clear. induction l as [|x l IH]; intros N H; cbn.
      - repeat constructor; cbn; intuition discriminate.
      - inversion N; subst. constructor; [|apply IH; auto; intros k K I; apply (H k K); right; auto].
        intros I. apply in_app_or in I. destruct I as [I|I]; auto. apply (H x); [|left; auto]. cbn in I. unfold hidden. intuition. }
    apply X; auto.
  - intros k K. rewrite GA by auto. destruct K as [->|[->| ->]]; cbn; eauto.
Qed.

Theorem C61_paths : forall cwd i f d rest o c o' e,
  NoDup (dkeys rest) -> (forall k, hidden k -> ~ In k (dkeys rest)) ->
  SimulationParams i f d rest = inl o -> public c -> exec c o = (o', e) ->
  (getattr cwd o' "infile" = inl VNone \/ exists p, getattr cwd o' "infile" = inl (VPath p)) /\
  (getattr cwd o' "outfile" = inl VNone \/ exists p, getattr cwd o' "outfile" = inl (VPath p)) /\
  (exists p, getattr cwd o' "output" = inl (VPath p)).
Proof.
  intros cwd i f d rest o c o' e N H E PU EX. destruct (new_params i f d rest o N H E) as (W & P).
  pose proof (exec_paths c o o' e PU W P EX) as P'. rewrite !getattr_slot. cbn [slot String.eqb Ascii.eqb Bool.eqb].
  refine (conj _ (conj _ _)).
  - destruct (P' "_infile") as (v & G & L); [left; auto|]. change (slot "infile") with "_infile". rewrite G.
    destruct L as [->|(p & ->)]; [left|right]; eauto.
  - destruct (P' "_outfile") as (v & G & L); [right; left; auto|]. change (slot "outfile") with "_outfile". rewrite G.
    destruct L as [->|(p & ->)]; [left|right]; eauto.
  - destruct (P' "_output") as (v & G & L); [right; right; auto|]. change (slot "output") with "_output". rewrite G.
    destruct L as [->|(p & ->)]; eauto.
Qed.
(** Assigning: a string or path is stored as a path, None to outfile or output changes
    nothing, None to infile raises TypeError; nothing else changes. *)
Theorem C61_assign : forall cwd o k, prop_name k ->
  (forall p v, v = VStr p \/ v = VPath p -> exists o', setattr o k v = inl o' /\ getattr cwd o' k = inl (VPath p)
     /\ forall k', ~ hidden k' -> k' <> k -> getattr cwd o' k' = getattr cwd o k') /\
  (k <> "infile" -> exists o', setattr o k VNone = inl o' /\ forall k', getattr cwd o' k' = getattr cwd o k') /\
  setattr o "infile" VNone = inr TypeError.
Proof.
  intros cwd o k K. assert (HK : ~ hidden k) by (unfold hidden; destruct K as [->|[->| ->]]; intuition discriminate).
  refine (conj _ (conj _ eq_refl)).
  - intros p v V.
    assert (E : setattr o k v = inl (sset (slot k) (VPath p) o)).
    { destruct V as [->| ->]; destruct K as [->|[->| ->]]; reflexivity. }
    eexists. split; [exact E|]. split.
    + rewrite getattr_slot, sget_same. destruct (String.eqb k "output"); reflexivity.
    + intros k' H' NE. rewrite !getattr_slot, sget_other; auto. intros X. apply NE. apply slot_inj; auto.
  - intros NI. exists o. split; auto. destruct K as [->|[->| ->]]; auto. congruence.
Qed.
Print Assumptions C61_paths.
Print Assumptions C61_assign.
Example C61_ex : exists o, SimulationParams (VStr "a.gsd") VNone VNone [("temperature", VNum (Fin 2)); ("pressure", VNum (Fin 1))] = inl o
  /\ public nested /\ getattr "/cwd" (fst (exec nested o)) "output" = inl (VPath "/cwd")
  /\ getattr "/cwd" (fst (exec nested o)) "infile" = inl (VPath "a.gsd").
Proof.
  eexists. split; [vm_compute; reflexivity|]. split.
  - cbn. unfold hidden. repeat split; repeat constructor; cbn; intuition discriminate.
  - split; vm_compute; reflexivity.
Qed.
Example C61_ex_rest : let rest := [("temperature", VNum (Fin 2)); ("pressure", VNum (Fin 1))] in
  NoDup (dkeys rest) /\ forall k, hidden k -> ~ In k (dkeys rest).
Proof.
  split; [repeat constructor; cbn; intuition discriminate|]. unfold hidden. cbn. intuition (subst; discriminate).
Qed.
(** A number is not accepted as a path. *)
Example C61_ex_type : setattr o0 "outfile" (VNum (Fin 1)) = inr TypeError /\ SimulationParams (VNum (Fin 1)) VNone VNone [] = inr TypeError.
Proof. split; reflexivity. Qed.
