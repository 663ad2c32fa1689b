(** Property C62: parse_directory. *)
From Coq Require Import String Ascii ZArith QArith List Bool Lia.
From Verif Require Import Base DictFacts XNum PyStr FrameModel ParamsModel.
Import ListNotations.
Open Scope string_scope.
Notation sget := (dget String.eqb).
Notation sset := (dset String.eqb).

(** ** Specification *)
(** What a file name says, as far as it is usable: pressure, temperature, crystal and
    iteration, with "None" for a missing crystal or iteration. *)
Definition key : Set := string * string * string * string.
Definition none_str (s : option string) (x : string) : Prop :=
  s = Some x \/ (s = None /\ x = "None").
Definition file_key (f : string) (k : key) : Prop :=
  let '(p, t, c, r) := k in
  exists v, get_filename_vars f = inl v /\ v_pressure v = Some p /\ p <> "" /\ v_temperature v = Some t /\ t <> ""
            /\ none_str (v_crystal v) c /\ none_str (v_iteration v) r.
(** The value of [all[p][t][c][r]]. *)
Definition lookup (all : level4) (k : key) : option leaf :=
  let '(p, t, c, r) := k in
  match sget p all with
  | Some l3 => match sget t l3 with
               | Some l2 => match sget c l2 with Some l1 => sget r l1 | None => None end
               | None => None
               end
  | None => None
  end.
Definition last_with (files : list string) (k : key) (r : option string) : Prop :=
  match r with
  | Some f => exists a b, files = (a ++ f :: b)%list /\ file_key f k /\ forall g, In g b -> ~ file_key g k
  | None => forall g, In g files -> ~ file_key g k
  end.
(** No dictionary in the table is empty. *)
Definition no_empty (all : level4) : Prop :=
  forall p l3, sget p all = Some l3 -> l3 <> [] /\
  forall t l2, sget t l3 = Some l2 -> l2 <> [] /\
  forall c l1, sget c l2 = Some l1 -> l1 <> [].

(** ** Proofs *)
Lemma sget_same {V} k (v : V) d : sget k (sset k v d) = Some v.
Proof. apply dget_dset_same, String.eqb_eq. Qed.
Lemma sget_other {V} k k' (v : V) d : k <> k' -> sget k (sset k' v d) = sget k d.
Proof. apply dget_dset_other, String.eqb_eq. Qed.
Lemma sset_sset {V} k (a b : V) d : sset k a (sset k b d) = sset k a d.
Proof.
  induction d as [|[k' v] d IH]; cbn; [rewrite String.eqb_refl; reflexivity|].
  destruct (String.eqb_spec k k') as [->|N]; cbn; [rewrite String.eqb_refl; reflexivity|].
  destruct (String.eqb_spec k k'); [congruence|]. rewrite IH. reflexivity.
Qed.
Lemma setdefault_set {V} k (v : V) d : setdefault k v d = match sget k d with Some _ => d | None => sset k v d end.
Proof.
  unfold setdefault, dmem. destruct (sget k d) eqn:E; auto. symmetry. apply (dset_keys_new String.eqb String.eqb_eq).
  intros I. apply (dget_In String.eqb String.eqb_eq) in I. congruence.
Qed.
Lemma sset_id {V} k (v : V) d : sget k d = Some v -> sset k v d = d.
Proof.
  induction d as [|[k' v'] d IH]; cbn; [discriminate|]. destruct (String.eqb k k'); [congruence|]. intros E. rewrite IH; auto.
Qed.
Definition get_or {V} (k : string) (d : dict string (list V)) : list V := match sget k d with Some x => x | None => [] end.
Lemma at_setdefault {V} k (f : list V -> list V) d : at_key k f (setdefault k [] d) = sset k (f (get_or k d)) d.
Proof.
  unfold at_key, get_or. rewrite setdefault_set. destruct (sget k d) eqn:E; [rewrite E; reflexivity|].
  rewrite sget_same, sset_sset. reflexivity.
Qed.
Lemma at_sset {V} k (f : V -> V) d v : at_key k f (sset k v d) = sset k (f v) d.
Proof. unfold at_key. rewrite sget_same, sset_sset. reflexivity. Qed.
Lemma sset_setdefault {V} k (v w : V) d : sset k v (setdefault k w d) = sset k v d.
Proof. rewrite setdefault_set. destruct (sget k d); auto. apply sset_sset. Qed.

Definition put (p t c r f : string) (all : level4) : level4 :=
  let l3 := get_or p all in let l2 := get_or t l3 in let l1 := get_or c l2 in
  sset p (sset t (sset c (sset r (LFile f) l1) l2) l3) all.
Lemma insert_put v f all p t : v_pressure v = Some p -> v_temperature v = Some t -> p <> "" -> t <> "" ->
  insert_file v f all = inl (put p t (str_opt (v_crystal v)) (str_opt (v_iteration v)) f all).
Proof.
  intros EP ET P T. unfold insert_file. rewrite EP, ET. destruct t as [|ct t]; [congruence|]. destruct p as [|cp p]; [congruence|].
  cbn [truthy negb str_opt]. cbv zeta. unfold level4, level3, level2, level1, dict in *. set (p' := String cp p). set (t' := String ct t). unfold put. f_equal.
  rewrite at_setdefault. rewrite !at_sset. rewrite at_setdefault, !at_sset. rewrite at_setdefault, !at_sset.
  rewrite sset_setdefault. reflexivity.
Qed.
Lemma insert_bad v f all : (truthy (v_temperature v) && truthy (v_pressure v))%bool = false -> insert_file v f all = inr AssertionError.
Proof.
  unfold insert_file. destruct (truthy (v_temperature v)); auto. destruct (truthy (v_pressure v)); auto. discriminate.
Qed.

Definition key_dec (a b : key) : {a = b} + {a <> b}.
Proof. repeat decide equality. Defined.
Lemma lookup_put p t c r f all k :
  lookup (put p t c r f all) k = if key_dec k (p, t, c, r) then Some (LFile f) else lookup all k.
Proof.
  destruct k as [[[p' t'] c'] r']. unfold lookup, put, get_or, level4, level3, level2, level1, dict in *.
  destruct (key_dec _ _) as [E|E].
  - injection E as -> -> -> ->. rewrite !sget_same. reflexivity.
  - destruct (string_dec p' p) as [->|N]; [|rewrite sget_other by auto; reflexivity]. rewrite sget_same.
    destruct (string_dec t' t) as [->|N].
    2:{ rewrite sget_other by auto. unfold get_or. destruct (sget p all); reflexivity. }
    rewrite sget_same.
    destruct (string_dec c' c) as [->|N].
    2:{ rewrite sget_other by auto. unfold get_or. destruct (sget p all) as [l3|]; [|reflexivity]. destruct (sget t l3); reflexivity. }
    rewrite sget_same. rewrite sget_other by congruence. unfold get_or.
    destruct (sget p all) as [l3|]; [|reflexivity]. destruct (sget t l3) as [l2|]; [|reflexivity]. destruct (sget c l2); reflexivity.
Qed.
Lemma sset_ne {V} k (v : V) d : sset k v d <> [].
Proof. destruct d as [|[k' v'] d]; cbn; [discriminate|]. destruct (String.eqb k k'); discriminate. Qed.
Lemma no_empty_put p t c r f all : no_empty all -> no_empty (put p t c r f all).
Proof.
  unfold no_empty, put, level4, level3, level2, level1, dict in *. intros H p' l3 E. destruct (string_dec p' p) as [->|N]; [|rewrite sget_other in E by auto; apply (H p' l3 E)].
  rewrite sget_same in E. injection E as <-. split; [apply sset_ne|]. intros t' l2 E.
  assert (H3 : forall t l2, sget t (get_or p all) = Some l2 -> l2 <> [] /\ forall c l1, sget c l2 = Some l1 -> l1 <> []).
  { unfold get_or. destruct (sget p all) eqn:G; [exact (proj2 (H p _ G))|discriminate]. }
  destruct (string_dec t' t) as [->|N]; [|rewrite sget_other in E by auto; apply (H3 t' l2 E)].
  rewrite sget_same in E. injection E as <-. split; [apply sset_ne|]. intros c' l1 E.
  assert (H2 : forall c l1, sget c (get_or t (get_or p all)) = Some l1 -> l1 <> []).
  { unfold get_or at 1. destruct (sget t (get_or p all)) eqn:G; [exact (proj2 (H3 t _ G))|discriminate]. }
  destruct (string_dec c' c) as [->|N]; [|rewrite sget_other in E by auto; apply (H2 c' l1 E)].
  rewrite sget_same in E. injection E as <-. apply sset_ne.
Qed.

Lemma str_opt_none s x : none_str s x <-> x = str_opt s.
Proof. unfold none_str. destruct s; cbn; intuition congruence. Qed.
Lemma file_key_iff f v p t k : get_filename_vars f = inl v -> v_pressure v = Some p -> p <> "" -> v_temperature v = Some t -> t <> "" ->
  file_key f k <-> k = (p, t, str_opt (v_crystal v), str_opt (v_iteration v)).
Proof.
  intros EV EP P ET T. destruct k as [[[p' t'] c'] r']. unfold file_key. split.
  - intros (v' & EV' & A & _ & B & _ & C & D). rewrite EV in EV'. injection EV' as <-. apply str_opt_none in C, D. congruence.
  - intros E. injection E as -> -> -> ->. exists v. rewrite !str_opt_none. auto 10.
Qed.
Lemma readable_file f : (exists k, file_key f k) <->
  exists v p t, get_filename_vars f = inl v /\ v_pressure v = Some p /\ p <> "" /\ v_temperature v = Some t /\ t <> "".
Proof.
  split.
  - intros ([[[p t] c] r] & v & A & B & C & D & E & _). exists v, p, t. auto.
  - intros (v & p & t & A & B & C & D & E). eexists. apply (file_key_iff f v p t); eauto.
Qed.
Lemma last_with_cons files k f r : last_with files k r -> (r = None -> ~ file_key f k) -> last_with (f :: files) k r.
Proof.
  destruct r as [g|]; cbn.
  - intros (a & b & -> & H) _. exists (f :: a), b. auto.
  - intros H N g [<-|I]; auto.
Qed.
Lemma parse_files_spec files : forall all, no_empty all ->
  (forall f, In f files -> exists k, file_key f k) ->
  exists all', parse_files files all = inl all' /\ no_empty all' /\
    forall k, exists r, last_with files k r /\
      lookup all' k = match r with Some f => Some (LFile f) | None => lookup all k end.
Proof.
  induction files as [|f files IH]; intros all NE RD; cbn [parse_files].
  - exists all. split; auto. split; auto. intros k. exists None. split; auto. intros g [].
  - destruct (proj1 (readable_file f) (RD f (or_introl eq_refl))) as (v & p & t & EV & EP & P & ET & T).
    rewrite EV. cbn [ebind]. rewrite (insert_put v f all p t) by auto. cbn [ebind].
    destruct (IH (put p t (str_opt (v_crystal v)) (str_opt (v_iteration v)) f all)) as (all' & E & NE' & L).
    { apply no_empty_put; auto. }
    { intros g I. apply RD. right. auto. }
    exists all'. split; auto. split; auto. intros k. destruct (L k) as (r & LW & LK). destruct r as [g|].
    + exists (Some g). split; auto. apply last_with_cons; auto. discriminate.
    + rewrite lookup_put in LK. destruct (key_dec k _) as [EK|NK].
      * exists (Some f). split; [|rewrite LK; reflexivity]. exists [], files. split; auto. split; [|exact LW].
        apply (file_key_iff f v p t); auto.
      * exists None. split; [|exact LK]. apply last_with_cons; auto. intros _ K. apply NK. apply (file_key_iff f v p t) in K; auto.
Qed.
Lemma parse_files_bad a f b : forall all, no_empty all -> (forall g, In g a -> exists k, file_key g k) -> (~ exists k, file_key f k) ->
  parse_files (a ++ f :: b) all = inr match get_filename_vars f with inr e => e | inl _ => AssertionError end.
Proof.
  induction a as [|g a IH]; intros all NE RD BAD.
  - cbn [app parse_files]. destruct (get_filename_vars f) as [v|e] eqn:EV; [|reflexivity]. cbn [ebind].
    rewrite insert_bad; [reflexivity|]. destruct (truthy (v_temperature v) && truthy (v_pressure v))%bool eqn:X; auto.
    exfalso. apply BAD. apply andb_prop in X. destruct X as [X1 X2]. apply readable_file.
    destruct (v_temperature v) as [[|ct t]|] eqn:ET; try discriminate. destruct (v_pressure v) as [[|cp p]|] eqn:EP; try discriminate.
    exists v, (String cp p), (String ct t). split; [exact EV|]. split; [exact EP|]. split; [discriminate|]. split; [exact ET|discriminate].
  - cbn [app parse_files]. destruct (proj1 (readable_file g) (RD g (or_introl eq_refl))) as (v & p & t & EV & EP & P & ET & T).
    rewrite EV. cbn [ebind]. rewrite (insert_put v g all p t) by auto. cbn [ebind]. apply IH; auto.
    + apply no_empty_put; auto.
    + intros h I. apply RD. right. auto.
Qed.

(** ** C62 *)
Theorem C62_parse_directory : forall files, (forall f, In f files -> exists k, file_key f k) ->
  exists all, parse_directory files = inl all /\ no_empty all /\
    forall k, exists r, last_with files k r /\ lookup all k = option_map LFile r.
Proof.
  intros files RD. destruct (parse_files_spec files [] (fun p l3 E => ltac:(discriminate E)) RD) as (all & E & NE & L).
  exists all. split; auto. split; auto. intros k. destruct (L k) as (r & LW & LK). exists r. split; auto.
  rewrite LK. destruct r; auto. destruct k as [[[p t] c] r]. reflexivity.
Qed.
(** Otherwise the first file that is not usable decides the exception. *)
Theorem C62_unusable_file : forall a f b, (forall g, In g a -> exists k, file_key g k) -> (~ exists k, file_key f k) ->
  (get_filename_vars f = inr IndexError /\ parse_directory (a ++ f :: b) = inr IndexError) \/
  ((exists v, get_filename_vars f = inl v) /\ parse_directory (a ++ f :: b) = inr AssertionError).
Proof.
  intros a f b RD BAD. unfold parse_directory. rewrite parse_files_bad; auto; [|intros p l3 E; discriminate].
  destruct (get_filename_vars f) as [v|e] eqn:EV; [right; eauto|]. left.
  assert (e = IndexError); [|subst; auto]. unfold get_filename_vars in EV. destruct (_ <? 3)%nat; [discriminate|].
  revert EV. generalize no_variables. induction (drop_prefix (split_char "-" (path_stem f))) as [|x l IH]; intros v E; cbn in E; [discriminate|].
  destruct (field v x) as [v'|e'] eqn:FE; cbn in E; [eapply IH; eauto|]. injection E as <-.
  unfold field in FE. destruct x as [|c x]; [congruence|]. destruct (Ascii.eqb c "P"); [discriminate|]. destruct (Ascii.eqb c "T"); [discriminate|].
  destruct x as [|d x]; [discriminate|]. destruct d as [[] [] [] [] [] [] [] []]; try discriminate. destruct (Ascii.eqb c "I"); discriminate.
Qed.
Print Assumptions C62_parse_directory.
Print Assumptions C62_unusable_file.

Definition fs : list string :=
  ["d/dump-Trimer-P13.50-T1.20-p2.gsd"; "d/dump-Trimer-P13.50-T1.30.gsd"; "e/dump-Trimer-P13.50-T1.20-p2.gsd";
   "d/Trimer-P1.00-T1.30-None.gsd"; "d/Trimer-P1.00-T1.30-ID4.gsd"].
Example C62_ex : exists all, parse_directory fs = inl all
  /\ lookup all ("13.50", "1.20", "p2", "None") = Some (LFile "e/dump-Trimer-P13.50-T1.20-p2.gsd")
  /\ lookup all ("13.50", "1.30", "None", "None") = Some (LFile "d/dump-Trimer-P13.50-T1.30.gsd")
  /\ lookup all ("1.00", "1.30", "None", "4") = Some (LFile "d/Trimer-P1.00-T1.30-ID4.gsd")
  /\ lookup all ("1.00", "1.20", "None", "4") = None.
Proof. eexists. split; [vm_compute; reflexivity|]. vm_compute. auto. Qed.
Example C62_ex_hyp : forall f, In f fs -> exists k, file_key f k.
Proof.
  intros f I. apply readable_file. cbn in I. destruct I as [<-|[<-|[<-|[<-|[<-|[]]]]]];
    (eexists; eexists; eexists; split; [vm_compute; reflexivity|]); cbn; repeat split; discriminate.
Qed.
Example C62_ex_bad : parse_directory ["d/dump-Trimer-P13.50-T1.20-p2.gsd"; "d/x.gsd"] = inr AssertionError
  /\ parse_directory ["d/a-b--c.gsd"] = inr IndexError.
Proof. split; vm_compute; reflexivity. Qed.
