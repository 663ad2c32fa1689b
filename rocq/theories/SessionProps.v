(** C212: the windows of one server. *)
From Coq Require Import String ZArith List Bool Lia.
From Verif Require Import Base DictFacts ParamsModel DirectoryProps FigureModel FigureSpec FigureProofs SessionModel SessionSpec.
Import ListNotations.
Open Scope string_scope.
Notation length := List.length.

(** ** Loading the same models once more *)
Lemma dict_ext {V} (d : dict string V) : forall d', NoDup (dkeys d) -> dkeys d = dkeys d' -> (forall k, sget k d = sget k d') -> d = d'.
Proof.
  induction d as [|[k v] d IH]; intros [|[k' v'] d'] N E G; cbn in E; try discriminate; auto.
  injection E as -> E. inversion N as [|? ? Nk Nd]; subst. pose proof (G k') as Gk. cbn in Gk. rewrite String.eqb_refl in Gk. injection Gk as ->.
  f_equal. apply IH; auto. intros x. destruct (string_dec x k') as [E1|E1].
  - rewrite E1. transitivity (@None V).
    + destruct (sget k' d) eqn:A; auto. exfalso. apply Nk. apply (dget_In String.eqb String.eqb_eq). congruence.
    + destruct (sget k' d') eqn:B; auto. exfalso. apply Nk. change (dkeys d = dkeys d') in E. change (In k' (dkeys d)). rewrite E. apply (dget_In String.eqb String.eqb_eq). congruence.
  - specialize (G x). cbn in G. apply String.eqb_neq in E1. rewrite E1 in G. exact G.
Qed.
Section Reload.
Context {O : Type} (create : string -> O + exn).
Lemma add_nodup models : forall d d' e, add_models create models d = (d', e) -> NoDup (dkeys d) -> NoDup (dkeys d').
Proof.
  induction models as [|m ms IH]; intros d d' e H N; cbn in H; [injection H as <- _; auto|].
  destruct (create m) as [o|x]; [|injection H as <- _; auto]. apply (IH _ _ _ H). apply dset_NoDup; auto. apply String.eqb_eq.
Qed.
Lemma add_keys models l : loads create models l -> forall d d' e, add_models create models d = (d', e) -> (forall m, In m l -> In (path_stem m) (dkeys d)) -> dkeys d' = dkeys d.
Proof.
  induction 1 as [|m ms l o C L IH|m ms x C]; intros d d' e H I; cbn in H; [injection H as <- _; auto| |rewrite C in H; injection H as <- _; auto].
  rewrite C in H. assert (K : dkeys (dset String.eqb (path_stem m) (Some o) d) = dkeys d) by (apply dset_keys_mem; [apply String.eqb_eq|apply I; left; auto]).
  rewrite (IH _ _ _ H); auto. intros z Z. rewrite K. apply I. right. auto.
Qed.
Lemma add_error models : forall d d1 d' d1' e e', add_models create models d = (d', e) -> add_models create models d1 = (d1', e') -> e = e'.
Proof.
  induction models as [|m ms IH]; intros d d1 d' d1' e e' H H'; cbn in H, H'; [congruence|].
  destruct (create m) as [o|x]; [eapply IH; eauto|congruence].
Qed.
Lemma add_again models d d' e : NoDup (dkeys d) -> add_models create models d = (d', e) -> add_models create models d' = (d', e).
Proof.
  intros N H. destruct (loads_total create models) as (l & L). destruct (add_models create models d') as [d'' e'] eqn:H'.
  rewrite (add_error _ _ _ _ _ _ _ H H'). f_equal. symmetry. pose proof (add_nodup _ _ _ _ H N) as N'.
  pose proof (add_under create _ _ L) as U.
  apply dict_ext; auto.
  - symmetry. apply (add_keys _ _ L _ _ _ H'). intros m I. apply (dget_In String.eqb String.eqb_eq).
    destruct (U _ _ _ (path_stem m) H) as [(a & x & b & o & _ & _ & _ & E & _)|[M _]]; [unfold dict in *; rewrite E; discriminate|]. exfalso. apply (M m); auto.
  - intros k. destruct (U _ _ _ k H') as [(a' & x' & b' & o' & E2 & S2 & C2 & G2 & M2)|[M2 G2]]; [|symmetry; exact G2].
    destruct (U _ _ _ k H) as [(a & x & b & o & E1 & S1 & C1 & G1 & M1)|[M1 G1]].
    2:{ exfalso. apply (M1 x'); auto. rewrite E2. apply in_or_app. right. left. auto. }
    rewrite G1, G2. assert (x = x'); [|congruence]. rewrite E1 in E2. clear - E2 S1 S2 M1 M2. revert a' E2. induction a as [|y a IH]; intros [|y' a'] E; cbn in E; injection E as EX E.
    + auto.
    + subst. exfalso. apply (M1 x'); auto. apply in_or_app. right. left. auto.
    + subst. exfalso. apply (M2 x); auto. apply in_or_app. right. left. auto.
    + eapply IH; eauto.
Qed.
End Reload.

(** ** The server *)
Section Server.
Context {F O D : Type}.
Context (timestep : F -> Z) (render : option O -> F -> D + exn) (open_file : string -> list (F + exn) + exn).
Context (create : string -> O + exn) (models files : list string).
Notation mkdoc := (make_document timestep render open_file create models files).
Notation hist := (history timestep render open_file).
Lemma document_again orders orders' r : NoDup (dkeys orders) -> mkdoc orders = (orders', r) -> mkdoc orders' = (orders', r).
Proof.
  intros N. unfold make_document. destruct (add_models create models orders) as [o1 e] eqn:E. pose proof (add_again _ _ _ _ _ N E) as A.
  destruct e as [e|]; intros H; injection H as <- <-; rewrite A; auto.
Qed.
Lemma set_same (s : fig F O D) o : f_orders s = o -> set_orders o s = s.
Proof. intros <-. destruct s. reflexivity. Qed.
Lemma replace_len {A} i (x : A) l : length (replace_at i x l) = length l.
Proof. revert i. induction l as [|y l IH]; intros [|i]; cbn; auto. Qed.
Lemma replace_nth {A} i (x : A) l j : (i < length l)%nat -> nth_error (replace_at i x l) j = if Nat.eqb j i then Some x else nth_error l j.
Proof.
  revert i j. induction l as [|y l IH]; intros [|i] [|j] L; cbn in *; try lia; auto. apply IH. lia.
Qed.
Lemma mine_app i h h' : mine i (h ++ h') = (mine i h ++ mine i h')%list.
Proof. induction h as [|[[|j a] x] h IH]; cbn; auto. destruct (Nat.eqb i j); cbn; rewrite IH; auto. Qed.
Lemma opened_app h h' : opened (h ++ h') = (opened h + opened h')%nat.
Proof. induction h as [|[[|j a] x] h IH]; cbn; auto. Qed.

Lemma server_invariant orders orders' r h sv : NoDup (dkeys orders) -> mkdoc orders = (orders', r) ->
  serving timestep render open_file create models files (mk_server orders []) h sv ->
  (sv_orders sv = match opened h with 0%nat => orders | S _ => orders' end) /\
  (forall x, In (EOpen, x) h -> x = match r with inl _ => None | inr e => Some e end) /\
  match r with
  | inl s0 => length (sv_windows sv) = opened h /\ (forall i, (opened h <= i)%nat -> mine i h = []) /\
              forall i w, nth_error (sv_windows sv) i = Some w -> hist s0 (mine i h) w
  | inr _ => sv_windows sv = []
  end.
Proof.
  intros N MK H. induction H as [|h sv e sv' x H (IO & IX & IW) PO SE].
  - split; [reflexivity|]. split; [intros x []|]. destruct r as [s0|]; auto. split; [reflexivity|]. split; [reflexivity|]. intros [|i] w E; discriminate.
  - destruct e as [|i a]; cbn [serve] in SE.
    + assert (M : mkdoc (sv_orders sv) = (orders', r)).
      { rewrite IO. destruct (opened h); auto. eapply document_again; eauto. }
      rewrite M in SE. assert (O1 : opened (h ++ [(EOpen, x)]) = S (opened h)) by (rewrite opened_app; cbn; lia). rewrite O1.
      assert (X : x = match r with inl _ => None | inr e => Some e end /\ sv_orders sv' = orders').
      { destruct r; injection SE as <- <-; auto. }
      destruct X as [-> X2]. split; [auto|]. split.
      { intros y I. apply in_app_or in I. destruct I as [I|[I|[]]]; [auto|]. injection I as <-. auto. }
      destruct r as [s0|e]; injection SE as <-; cbn [sv_windows]; auto. destruct IW as (W1 & W2 & W3).
      split; [rewrite app_length, W1; cbn; lia|]. split.
      * intros i L. rewrite mine_app. cbn. rewrite app_nil_r. apply W2. lia.
      * intros i w E. rewrite mine_app. cbn. rewrite app_nil_r. destruct (Nat.lt_ge_cases i (length (sv_windows sv))) as [L|L].
        -- rewrite nth_error_app1 in E by auto. auto.
        -- rewrite nth_error_app2 in E by auto. destruct (i - length (sv_windows sv))%nat as [|k]; [|destruct k; discriminate].
           cbn in E. injection E as <-. rewrite W2 by lia. constructor.
    + destruct PO as (s & E & OF). rewrite E in SE. assert (O1 : opened (h ++ [(EDo i a, x)]) = opened h) by (rewrite opened_app; cbn; lia). rewrite O1.
      destruct r as [s0|er]; [|rewrite IW in E; destruct i; discriminate]. destruct IW as (W1 & W2 & W3).
      assert (L : (i < length (sv_windows sv))%nat) by (apply nth_error_Some; congruence).
      pose proof (W3 _ _ E) as Hs. destruct (started_full _ _ _ _ _ _ _ _ _ MK) as (FU0 & PD & F0 & _). destruct (parsed _ _ PD) as [NE _].
      destruct (hist_full _ _ _ _ _ _ NE FU0 Hs) as (_ & _ & OO & _).
      assert (IO' : sv_orders sv = orders') by (rewrite IO; destruct (opened h); [lia|auto]).
      rewrite IO' in SE. rewrite set_same in SE by congruence. destruct (step timestep render open_file a s) as [s' x'] eqn:ST. injection SE as <- <-.
      cbn [sv_orders sv_windows]. split; [destruct (opened h); [lia|reflexivity]|]. split.
      { intros y I. apply in_app_or in I. destruct I as [I|[I|[]]]; [auto|]. discriminate. }
      split; [rewrite replace_len; auto|]. split.
      * intros j Lj. rewrite mine_app. cbn. rewrite W2 by auto. destruct (Nat.eqb_spec j i); [lia|auto].
      * intros j w Ej. rewrite replace_nth in Ej by auto. rewrite mine_app. cbn. destruct (Nat.eqb_spec j i) as [->|Nj].
        -- injection Ej as <-. econstructor; eauto.
        -- rewrite app_nil_r. auto.
Qed.
End Server.

(** ** C212: every window starts as the first one, and is in the state it would be in if it were the only one. *)
Theorem C212_windows : forall (F O D : Type) (timestep : F -> Z) (render : option O -> F -> D + exn) open_file
    create models files orders orders' r h sv,
  NoDup (dkeys orders) -> make_document timestep render open_file create models files orders = (orders', r) ->
  serving timestep render open_file create models files (mk_server orders []) h sv ->
  (forall x, In (EOpen, x) h -> x = match r with inl _ => None | inr e => Some e end) /\
  match r with
  | inl s0 => length (sv_windows sv) = opened h /\
              forall i w, nth_error (sv_windows sv) i = Some w -> history timestep render open_file s0 (mine i h) w
  | inr _ => sv_windows sv = []
  end.
Proof.
  intros F O D timestep render open_file create models files orders orders' r h sv N MK H.
  destruct (server_invariant _ _ _ _ _ _ _ _ _ _ _ N MK H) as (_ & A & B). split; auto. destruct r; auto. destruct B as (B1 & _ & B2). auto.
Qed.
Print Assumptions C212_windows.
(** ... and a history determines the state. *)
Theorem C212_determined : forall (F O D : Type) (timestep : F -> Z) (render : option O -> F -> D + exn) open_file (s0 : fig F O D) h h' s s',
  history timestep render open_file s0 h s -> history timestep render open_file s0 h' s' -> map fst h = map fst h' -> h = h' /\ s = s'.
Proof.
  intros F O D timestep render open_file s0 h h' s s' H. revert h' s'. induction H as [|h s a t e H IH OF ST]; intros h' s' H' E.
  - inversion H' as [|g u b v x G OG SG]; subst; auto. rewrite map_app in E. cbn in E. symmetry in E. apply app_eq_nil in E. destruct E. discriminate.
  - inversion H' as [|g u b v x G OG SG]; subst; rewrite ?map_app in E; cbn in E.
    + apply app_eq_nil in E. destruct E. discriminate.
    + apply app_inj_tail in E. destruct E as [E ->]. destruct (IH _ _ G E) as [<- <-]. rewrite ST in SG. injection SG as <- <-. auto.
Qed.
Print Assumptions C212_determined.

(** ** Example: two windows; a temperature is chosen in the first one. *)
Definition w_files : list string := ["d/dump-Trimer-P2.00-T1.30-p2.gsd"; "d/dump-Trimer-P2.00-T1.40-p2.gsd"].
Definition w_open (f : string) : list (nat + exn) + exn := inl [inl 0%nat].
Definition w_rd (o : option string) (f : nat) : nat + exn := inl f.
Definition w_mk (m : string) : string + exn := inl m.
Definition w_orders : dict string (option string) := [("None", None)].
Definition w_serve := serve Z.of_nat w_rd w_open w_mk ["a/knn.pkl"; "b/knn.pkl"] w_files.
Definition w_after : server nat string nat := fst (w_serve (EDo 0 (ATemperature "1.40")) (fst (w_serve EOpen (fst (w_serve EOpen (mk_server w_orders [])))))).
Example C212_example :
  serving Z.of_nat w_rd w_open w_mk ["a/knn.pkl"; "b/knn.pkl"] w_files (mk_server w_orders []) [(EOpen, None); (EOpen, None); (EDo 0 (ATemperature "1.40"), None)] w_after /\
  map (fun w => f_tval w) (sv_windows w_after) = ["1.40"; "1.30"] /\ map (fun w => f_labels w) (sv_windows w_after) = [["None"; "knn"]; ["None"; "knn"]] /\
  sv_orders w_after = [("None", None); ("knn", Some "b/knn.pkl")] /\ NoDup (dkeys w_orders).
Proof.
  split; [|split; [|split; [|split]]]; try (vm_compute; reflexivity).
  - apply (serving_more _ _ _ _ _ _ _ [(EOpen, None); (EOpen, None)] (fst (w_serve EOpen (fst (w_serve EOpen (mk_server w_orders []))))));
      [|eexists; split; [vm_compute; reflexivity|vm_compute; auto]|vm_compute; reflexivity].
    apply (serving_more _ _ _ _ _ _ _ [(EOpen, None)] (fst (w_serve EOpen (mk_server w_orders [])))); [|exact Logic.I|vm_compute; reflexivity].
    apply (serving_more _ _ _ _ _ _ _ [] (mk_server w_orders [])); [constructor|exact Logic.I|vm_compute; reflexivity].
  - vm_compute. constructor; [intros []|constructor].
Qed.
