(** What the columns of the table of relaxations are. *)
From Coq Require Import String ZArith QArith List Bool.
From Verif Require Import Base XNum RelaxationModel RelaxTableModel RelaxTableSpec RelaxTableProofs RelaxTableProps.
Import ListNotations.
Open Scope string_scope.
Open Scope list_scope.

(** [got] is [all] without the names in [out], in the same order. *)
Inductive without (out : list string) : list string -> list string -> Prop :=
| wo_nil : without out [] []
| wo_keep c all got : ~ In c out -> without out all got -> without out (c :: all) (c :: got)
| wo_drop c all got : In c out -> without out all got -> without out (c :: all) got.

Lemma filter_without out all :
  without out all (filter (fun c => negb (memb c out)) all).
Proof.
  induction all as [|c all IH]; cbn; [constructor|]. destruct (memb c out) eqn:E; cbn.
  - apply wo_drop; auto. apply memb_In; auto.
  - apply wo_keep; auto. intros I. apply memb_In in I. congruence.
Qed.
Lemma without_app a b all m got : without a all m -> without b m got -> without (a ++ b) all got.
Proof.
  intros H. revert got. induction H; intros g G.
  - inversion G; constructor.
  - inversion G; subst.
    + apply wo_keep; auto. rewrite in_app_iff. tauto.
    + apply wo_drop; auto. rewrite in_app_iff. tauto.
  - apply wo_drop; auto. rewrite in_app_iff. tauto.
Qed.
Lemma columns_of_names {M} (vo : list Q -> list xnum -> string -> M + exn) cols rows out :
  columns_of vo cols rows = inl out -> map fst out = cols.
Proof.
  revert out. induction cols as [|c cols IH]; cbn; intros out H.
  - injection H as <-. reflexivity.
  - destruct (series_relaxation_value vo c rows) as [v|e]; cbn in H; [|discriminate].
    destruct (columns_of vo cols rows) as [vs|e]; cbn in H; [|discriminate]. injection H as <-.
    cbn. f_equal. auto.
Qed.
Lemma rows_of_same {A} (keyof : A -> key) k k' rows g :
  same_key k k' -> rows_of keyof k' rows g -> rows_of keyof k rows g.
Proof.
  intros S H. induction H; [constructor| |].
  - apply ro_hit; auto. eapply same_key_trans; eauto.
  - apply ro_miss; auto. intros N. apply H. eapply same_key_trans; [apply same_key_sym; exact S|exact N].
Qed.

(** * C170 *)
Theorem C170_columns : forall M (value_of : list Q -> list xnum -> string -> M + exn) zero_ok dyn mol out,
  compute_relaxations value_of zero_ok (Some dyn) (Some mol) = inl out ->
  forall k st vs, In (k, st, Some vs) out ->
  without ["keyframe"; "temperature"; "pressure"; "mean_displacement"; "mean_rotation"; "mfd"; "overlap"]
    (d_columns dyn) (map fst vs)
  /\ exists rows, rows_of d_key k (d_rows dyn) rows /\
     forall c v, In (c, v) vs -> value_of (map d_label rows) (map (fun r => d_val r c) rows) c = inl v.
Proof.
  intros M vo zo dyn mol out H k st vs I. unfold compute_relaxations in H.
  destruct (dynamics_relaxations vo dyn) as [dout|e] eqn:D; cbn [ebind] in H; [|discriminate].
  destruct (compute_molecular_relaxations zo mol) as [mout|e]; cbn [ebind] in H; [|discriminate].
  injection H as <-. apply in_map_iff in I. destruct I as ([k0 st0] & E & I). cbn [fst snd] in E.
  destruct (filter (fun x => key_eqb k0 (fst x)) dout) as [|x l] eqn:F; [discriminate|].
  injection E as <- <- <-.
  assert (X : In x (filter (fun x => key_eqb k0 (fst x)) dout)) by (rewrite F; left; reflexivity).
  apply filter_In in X. destruct X as [X S]. apply key_eqb_iff in S. destruct x as [k1 vs].
  unfold dynamics_relaxations in D. destruct (forallb _ key_names); [|discriminate].
  destruct (all_groups_In _ _ _ _ _ _ D X) as (rows & G & C). split.
  - cbn [snd]. rewrite (columns_of_names _ _ _ _ C).
    apply (without_app ["keyframe"; "temperature"; "pressure"] ["mean_displacement"; "mean_rotation"; "mfd"; "overlap"]
      _ (value_columns (d_columns dyn))); apply filter_without.
  - exists rows. cbn [fst snd] in *. split.
    + apply rows_of_same with k1; auto. unfold groupby in G. apply in_map_iff in G.
      destruct G as (k2 & [= <- <-] & _). apply rows_of_filter.
    + intros c v V. apply (columns_of_In _ _ _ _ _ _ C V).
Qed.
Print Assumptions C170_columns.
(** An absent table or an absent key column of the dynamics is reported as KeyError. *)
Theorem C170_missing : forall M (value_of : list Q -> list xnum -> string -> M + exn) zero_ok dyn mol,
  dyn = None \/ mol = None \/
  (exists d c, dyn = Some d /\ In c ["keyframe"; "temperature"; "pressure"] /\ ~ In c (d_columns d)) ->
  compute_relaxations value_of zero_ok dyn mol = inr KeyError.
Proof.
  intros M vo zo dyn mol H. unfold compute_relaxations.
  destruct H as [-> | [-> | (d & c & -> & I & N)]]; [reflexivity|destruct dyn; reflexivity|].
  destruct mol as [mol|]; [|reflexivity]. unfold dynamics_relaxations.
  destruct (forallb _ key_names) eqn:F; [|reflexivity].
  rewrite forallb_forall in F. specialize (F c I). apply memb_In in F. contradiction.
Qed.
Print Assumptions C170_missing.
Example C170_ex :
  let k := (CNum 0, CNum (13#10), CNum 1) : key in
  let value (ts : list Q) (vs : list xnum) (c : string) : xnum + exn := inl (hd NaN vs) in
  let dyn := {| d_columns := ["struct"; "mfd"; "time"; "overlap"; "keyframe"; "temperature"; "pressure"];
                d_rows := [{| d_label := 4; d_key := k; d_val := fun c => if c =? "time" then Fin 8 else Fin 2 |}] |} in
  let mol := {| m_columns := ["tau"; "keyframe"; "temperature"; "pressure"]; m_rows := [{| m_key := k; m_val := fun _ => Some 7%Q |}] |} in
  (exists st, compute_relaxations value true (Some dyn) (Some mol) = inl [(k, st, Some [("struct", Fin 2); ("time", Fin 8)])])
  /\ compute_relaxations value true (Some {| d_columns := ["struct"; "temperature"; "pressure"]; d_rows := [] |}) (Some mol) = inr KeyError.
Proof. split; [eexists|]; vm_compute; reflexivity. Qed.
