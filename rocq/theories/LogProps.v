(** C165, C166, C167: the log of the command line tool. *)
From Coq Require Import String List Bool Arith ZArith Lia.
From Verif Require Import LogModel LogSpec.
Import ListNotations.
Open Scope string_scope.
Open Scope Z_scope.
Open Scope list_scope.

Lemma log_file_last l : log_file l = match rev (log_files l) with [] => None | f :: _ => Some f end.
Proof.
  induction l as [|[|f|] l IH]; cbn [log_file log_files]; auto. rewrite IH. cbn [rev].
  destruct (rev (log_files l)) as [|g r]; reflexivity.
Qed.
Lemma vs_count l : verbose_count l = vs l.
Proof. unfold verbose_count. induction l as [|[|f|] l IH]; cbn; auto. Qed.
Lemma ours_level n : ours n -> own_level on_import n = 0.
Proof.
  intros (r & ->). unfold own_level, on_import, set_level. cbn [levels find fst].
  destruct (list_eq_dec string_dec ["freud"] ("sdanalysis" :: r)) as [E|_]; [discriminate|].
  destruct (list_eq_dec string_dec ["gsd"] ("sdanalysis" :: r)) as [E|_]; [discriminate|]. reflexivity.
Qed.
Lemma effective_ours s n : (forall k, own_level s ("sdanalysis" :: k) = 0) -> ours n -> effective_rev s (rev n) = root_level s.
Proof.
  intros H (r & ->). induction r as [|x r IH] using rev_ind.
  - cbn [rev app effective_rev]. cbn [rev app]. rewrite (H []). reflexivity.
  - rewrite app_comm_cons, rev_app_distr. cbn [rev app effective_rev].
    change (rev (x :: rev r ++ ["sdanalysis"])) with (rev (x :: rev ("sdanalysis" :: r))). cbn [rev]. rewrite rev_app_distr, rev_involutive.
    cbn [rev app]. rewrite H. cbn [Z.eqb]. apply IH.
Qed.
Lemma levels_group line s : levels (after_group line s) = levels s.
Proof.
  unfold after_group, verbosity, file_logger, basic_config.
  destruct (file_first line), s as [l [|h hs] ls]; reflexivity.
Qed.
Lemma effective_group line n : ours n -> effective_rev (after_group line on_import) (rev n) = root_level (after_group line on_import).
Proof.
  intros O. apply effective_ours; auto. intros k. unfold own_level. rewrite levels_group.
  apply (ours_level ("sdanalysis" :: k)). exists k. reflexivity.
Qed.
Lemma main_level : own_level on_import ["sdanalysis"; "main"] = 0.
Proof. apply ours_level. exists ["main"]. reflexivity. Qed.
(** The two outcomes *)
Lemma group_file_first line : file_first line = true ->
  exists f, log_file line = Some f /\
  after_group line on_import = mklog 0 [if string_dec f "" then Stderr else LogFile f] (levels on_import).
Proof.
  intros F. assert (X : exists f, log_file line = Some f).
  { clear - F. induction line as [|[|f|] l IH]; try discriminate; cbn [log_file]; [destruct (log_file l); eauto|apply IH; exact F]. }
  destruct X as (f & E). exists f. split; auto. unfold after_group, file_logger, verbosity. rewrite F, E, main_level.
  unfold basic_config at 2. cbn [handlers on_import set_level]. reflexivity.
Qed.
Lemma group_verbose_first line : file_first line = false ->
  after_group line on_import = mklog (level_of (vs line)) [Stderr] (levels on_import).
Proof. intros F. unfold after_group, verbosity. rewrite F, vs_count. reflexivity. Qed.
Lemma wanted_level v m : wanted v m <-> level_of v <= m.
Proof.
  unfold wanted. destruct v as [|[|[|v]]]; cbn [level_of]; unfold WARNING, INFO, DEBUG; lia.
Qed.

(** * C165: --log-file *)
Theorem C165_file_partial : forall line f, last (log_files line) "" = f -> f <> "" ->
  forall before after g, line = before ++ LogTo g :: after -> vs before = 0%nat ->
  forall name m, ours name -> 1 <= m ->
    emitted (after_group line on_import) name m = [LogFile f].
Proof.
  intros line f EL NE before after g EQ V name m O M.
  assert (F : file_first line = true).
  { rewrite EQ. clear - V. induction before as [|[|h|] l IH]; cbn in *; auto; discriminate. }
  destruct (group_file_first line F) as (f' & E & G). unfold emitted. rewrite effective_group by auto. rewrite G. cbn [root_level handlers].
  assert (f' = f).
  { rewrite log_file_last in E. rewrite <- EL. destruct (rev (log_files line)) as [|x r] eqn:R; [discriminate|]. injection E as ->.
    rewrite <- (rev_involutive (log_files line)), R. cbn [rev]. rewrite last_last. reflexivity. }
  subst f'. destruct (string_dec f ""); [contradiction|]. destruct (Z.leb_spec 0 m); [reflexivity|lia].
Qed.
Print Assumptions C165_file_partial.
(** -v --log-file out.log: nothing is ever written to the file. *)
Theorem C165_file_refuted : exists line f, In f (log_files line) /\ f <> "" /\
  forall name m, ~ In (LogFile f) (emitted (after_group line on_import) name m).
Proof.
  exists [Verbose; LogTo "out.log"], "out.log". split; [left; reflexivity|]. split; [discriminate|].
  intros name m. unfold emitted. destruct (_ <=? m); cbn; [|tauto]. intros [H|[]]. discriminate.
Qed.
Print Assumptions C165_file_refuted.
Example C165_ex : emitted (after_group [OtherOpt; LogTo "a"; Verbose; LogTo "b"] on_import) ["sdanalysis"; "read"; "_gsd"] 10 = [LogFile "b"].
Proof. vm_compute. reflexivity. Qed.

(** * C166: -v *)
Theorem C166_level_partial : forall line,
  (log_files line = [] \/ exists before after, line = before ++ Verbose :: after /\ log_files before = []) ->
  forall name m, ours name ->
    (wanted (vs line) m -> emitted (after_group line on_import) name m = [Stderr]) /\
    (~ wanted (vs line) m -> emitted (after_group line on_import) name m = []).
Proof.
  intros line H name m O.
  assert (F : file_first line = false).
  { destruct H as [H|(b & a & -> & H)].
    - induction line as [|[|h|] l IH]; cbn in *; auto; discriminate.
    - induction b as [|[|h|] l IH]; cbn in *; auto; discriminate. }
  unfold emitted. rewrite effective_group by auto. rewrite (group_verbose_first line F). cbn [root_level handlers].
  rewrite wanted_level. destruct (Z.leb_spec (level_of (vs line)) m); split; intros; auto; lia.
Qed.
Print Assumptions C166_level_partial.
(** --log-file out.log without -v: debug messages are logged; with -v after it as well *)
Theorem C166_level_refuted : exists line line', vs line = 0%nat /\ vs line' = 1%nat /\
  ~ wanted 0 10 /\ ~ wanted 1 10 /\
  forall name, ours name ->
    emitted (after_group line on_import) name 10 <> [] /\ emitted (after_group line' on_import) name 10 <> [].
Proof.
  exists [LogTo "out.log"], [LogTo "out.log"; Verbose]. split; [reflexivity|]. split; [reflexivity|].
  rewrite !wanted_level. split; [cbn; unfold WARNING; lia|]. split; [cbn; unfold INFO; lia|].
  intros name O. unfold emitted. rewrite !effective_group by auto. split; vm_compute; discriminate.
Qed.
Print Assumptions C166_level_refuted.
Example C166_ex : emitted (after_group [Verbose; OtherOpt; LogTo "x"] on_import) ["sdanalysis"; "main"] 20 = [Stderr] /\
  emitted (after_group [Verbose; OtherOpt; LogTo "x"] on_import) ["sdanalysis"; "main"] 10 = [].
Proof. vm_compute. split; reflexivity. Qed.

(** * C167: figure -v, and the libraries *)
Lemma handlers_group line : handlers (after_group line on_import) <> [].
Proof.
  destruct (file_first line) eqn:F.
  - destruct (group_file_first line F) as (f & _ & ->). cbn. discriminate.
  - rewrite (group_verbose_first line F). cbn. discriminate.
Qed.
Lemma interactive_state line count : (0 < count)%nat ->
  interactive_verbosity count (after_group line on_import) = set_level interactive DEBUG (after_group line on_import).
Proof.
  intros C. destruct count; [lia|]. cbn [interactive_verbosity]. unfold basic_config. cbn [handlers set_level].
  destruct (handlers (after_group line on_import)) eqn:E; [destruct (handlers_group line E)|reflexivity].
Qed.
Lemma own_set s n l k : own_level (set_level n l s) k = if list_eq_dec string_dec n k then l else own_level s k.
Proof. unfold own_level, set_level. cbn [levels find fst]. destruct (list_eq_dec string_dec n k); reflexivity. Qed.
Theorem C167_interactive : forall line count name m,
  let s := after_group line on_import in
  handlers s <> [] /\
  ((0 < count)%nat -> below interactive name -> 10 <= m ->
     emitted (interactive_verbosity count s) name m = handlers s) /\
  (~ below interactive name -> emitted (interactive_verbosity count s) name m = emitted s name m) /\
  (count = 0%nat -> emitted (interactive_verbosity count s) name m = emitted s name m).
Proof.
  intros line count name m s. split; [apply handlers_group|]. split; [|split].
  - intros C (rest & ->) M. unfold s. rewrite interactive_state by exact C. fold s. unfold emitted. cbn [handlers set_level].
    assert (X : effective_rev (set_level interactive DEBUG s) (rev (interactive ++ rest)) = 10).
    { induction rest as [|x rest IH] using rev_ind.
      - rewrite app_nil_r. change (rev interactive) with ["interactive_config"; "figures"; "sdanalysis"].
        cbn [effective_rev]. change (rev ["interactive_config"; "figures"; "sdanalysis"]) with interactive.
        rewrite own_set. destruct (list_eq_dec string_dec interactive interactive); [reflexivity|congruence].
      - rewrite app_assoc, rev_app_distr. cbn [rev app effective_rev]. rewrite rev_involutive. rewrite own_set.
        destruct (list_eq_dec string_dec interactive ((interactive ++ rest) ++ [x])) as [E|_].
        { exfalso. apply (f_equal (@length _)) in E. rewrite !app_length in E. cbn in E. lia. }
        replace (own_level s ((interactive ++ rest) ++ [x])) with 0; [cbn [Z.eqb]; exact IH|].
        symmetry. unfold s, own_level. rewrite levels_group. apply (ours_level ((interactive ++ rest) ++ [x])).
        exists (["figures"; "interactive_config"] ++ rest ++ [x]). unfold interactive. cbn [app]. rewrite <- ?app_assoc. reflexivity. }
    rewrite X. destruct (Z.leb_spec 10 m); [reflexivity|lia].
  - intros NB. destruct count; [reflexivity|]. unfold s. rewrite interactive_state by lia. fold s. unfold emitted. cbn [handlers set_level].
    assert (X : effective_rev (set_level interactive DEBUG s) (rev name) = effective_rev s (rev name)).
    { clear -NB. induction name as [|x n IH] using rev_ind; [reflexivity|].
      rewrite rev_app_distr. cbn [rev app effective_rev]. rewrite rev_involutive, own_set.
      destruct (list_eq_dec string_dec interactive (n ++ [x])) as [E|_].
      - exfalso. apply NB. exists []. rewrite app_nil_r. auto.
      - rewrite IH; [reflexivity|]. intros (r & ->). apply NB. exists (r ++ [x])%list. rewrite app_assoc. reflexivity. }
    change (mklog (root_level s) (handlers s) ((interactive, DEBUG) :: levels s)) with (set_level interactive DEBUG s).
    rewrite X. reflexivity.
  - intros ->. reflexivity.
Qed.
Print Assumptions C167_interactive.
(** gsd and freud stay at warnings. *)
Theorem C167_libraries : forall line lib m, lib = "gsd" \/ lib = "freud" ->
  emitted (after_group line on_import) [lib] m = if 30 <=? m then handlers (after_group line on_import) else [].
Proof.
  intros line lib m H. unfold emitted. cbn [rev app effective_rev]. cbn [rev app].
  replace (own_level (after_group line on_import) [lib]) with 30; [reflexivity|].
  unfold own_level. rewrite levels_group. destruct H as [->| ->]; reflexivity.
Qed.
Print Assumptions C167_libraries.
Example C167_ex : emitted (interactive_verbosity 1 (after_group [] on_import)) interactive 10 = [Stderr] /\
  emitted (interactive_verbosity 1 (after_group [] on_import)) ["sdanalysis"; "read"] 10 = [] /\
  emitted (after_group [Verbose; Verbose] on_import) ["gsd"] 20 = [].
Proof. vm_compute. repeat split. Qed.
