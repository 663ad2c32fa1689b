(** Facts about the dictionaries of [Base]. *)
From Coq Require Import List Bool ZArith Lia.
From Verif Require Import Base.
Import ListNotations.

Section DictFacts.
  Context {K V : Type} (eqb : K -> K -> bool).
  Hypothesis eqb_eq : forall a b, eqb a b = true <-> a = b.

  Lemma deqb_refl a : eqb a a = true.
  Proof. apply eqb_eq; reflexivity. Qed.

  Lemma deqb_neq a b : a <> b -> eqb a b = false.
  Proof.
    intros H. destruct (eqb a b) eqn:E; [|reflexivity].
    apply eqb_eq in E; contradiction.
  Qed.

  Lemma deqb_false a b : eqb a b = false -> a <> b.
  Proof. intros H ->. rewrite deqb_refl in H. discriminate. Qed.

  Lemma dget_dset_same k (v : V) d : dget eqb k (dset eqb k v d) = Some v.
  Proof.
    induction d as [|[k' v'] d IH]; simpl.
    - now rewrite deqb_refl.
    - destruct (eqb k k') eqn:E; simpl; rewrite E; auto.
  Qed.

  Lemma dget_dset_other k k' (v : V) d :
    k <> k' -> dget eqb k (dset eqb k' v d) = dget eqb k d.
  Proof.
    intros H. induction d as [|[k1 v1] d IH]; simpl.
    - now rewrite (deqb_neq _ _ H).
    - destruct (eqb k' k1) eqn:E; simpl.
      + apply eqb_eq in E; subst. now rewrite (deqb_neq _ _ H).
      + destruct (eqb k k1); auto.
  Qed.

  Lemma dget_dset k k' (v : V) d :
    dget eqb k (dset eqb k' v d) = if eqb k k' then Some v else dget eqb k d.
  Proof.
    destruct (eqb k k') eqn:E.
    - apply eqb_eq in E; subst; apply dget_dset_same.
    - apply dget_dset_other, deqb_false, E.
  Qed.

  Lemma dget_In k (d : dict K V) : dget eqb k d <> None <-> In k (dkeys d).
  Proof.
    induction d as [|[k' v'] d IH]; simpl.
    - intuition congruence.
    - destruct (eqb k k') eqn:E.
      + apply eqb_eq in E; subst. intuition congruence.
      + rewrite IH. apply deqb_false in E. intuition congruence.
  Qed.

  Lemma dget_Some_In k (v : V) (d : dict K V) : dget eqb k d = Some v -> In (k, v) d.
  Proof.
    induction d as [|[k' v'] d IH]; simpl; [discriminate|].
    destruct (eqb k k') eqn:E.
    - apply eqb_eq in E; subst. intros [= ->]; auto.
    - auto.
  Qed.

  Lemma In_dget k (v : V) (d : dict K V) :
    NoDup (dkeys d) -> In (k, v) d -> dget eqb k d = Some v.
  Proof.
    induction d as [|[k' v'] d IH]; simpl; [contradiction|].
    intros Hnd [H|H].
    - injection H as -> ->. now rewrite deqb_refl.
    - inversion Hnd as [|? ? Hn Hnd']; subst.
      rewrite deqb_neq; auto.
      intros ->. apply Hn. apply in_map_iff. exists (k', v); auto.
  Qed.

  Lemma dset_keys_mem k (v : V) d :
    In k (dkeys d) -> dkeys (dset eqb k v d) = dkeys d.
  Proof.
    induction d as [|[k' v'] d IH]; simpl; [contradiction|].
    intros [->|H].
    - now rewrite deqb_refl.
    - destruct (eqb k k'); simpl; f_equal; auto.
  Qed.

  Lemma dset_keys_new k (v : V) d :
    ~ In k (dkeys d) -> dset eqb k v d = d ++ [(k, v)].
  Proof.
    induction d as [|[k' v'] d IH]; simpl; auto.
    intros H. rewrite deqb_neq by (intros ->; auto).
    f_equal. auto.
  Qed.

  Lemma dset_In_keys k k' (v : V) d :
    In k (dkeys (dset eqb k' v d)) <-> k = k' \/ In k (dkeys d).
  Proof.
    rewrite <- !dget_In, dget_dset.
    destruct (eqb k k') eqn:E.
    - apply eqb_eq in E. intuition congruence.
    - apply deqb_false in E. intuition congruence.
  Qed.

  Lemma dset_NoDup k (v : V) d :
    NoDup (dkeys d) -> NoDup (dkeys (dset eqb k v d)).
  Proof.
    induction d as [|[k' v'] d IH]; simpl; intros H.
    - constructor; [simpl; tauto|constructor].
    - inversion H as [|? ? Hn Hnd]; subst.
      destruct (eqb k k') eqn:E; simpl.
      + constructor; auto.
      + constructor; auto. apply deqb_false in E.
        intros Hin. apply dset_In_keys in Hin. intuition congruence.
  Qed.

  Lemma dget_ddel_other k k' (d : dict K V) :
    k <> k' -> dget eqb k (ddel eqb k' d) = dget eqb k d.
  Proof.
    intros H. induction d as [|[k1 v1] d IH]; simpl; auto.
    destruct (eqb k' k1) eqn:E; simpl.
    - apply eqb_eq in E; subst. now rewrite (deqb_neq _ _ H).
    - destruct (eqb k k1); auto.
  Qed.

  Lemma dget_ddel_same k (d : dict K V) :
    NoDup (dkeys d) -> dget eqb k (ddel eqb k d) = None.
  Proof.
    induction d as [|[k' v'] d IH]; simpl; auto.
    intros H. inversion H as [|? ? Hn Hnd]; subst.
    destruct (eqb k k') eqn:E; simpl.
    - apply eqb_eq in E; subst.
      destruct (dget eqb k' d) eqn:G; auto.
      exfalso. apply Hn. apply dget_In. congruence.
    - rewrite E. auto.
  Qed.

  Lemma ddel_keys_incl k k' (d : dict K V) :
    In k (dkeys (ddel eqb k' d)) -> In k (dkeys d).
  Proof.
    induction d as [|[k1 v1] d IH]; simpl; auto.
    destruct (eqb k' k1); simpl; intuition.
  Qed.

  Lemma ddel_NoDup k (d : dict K V) :
    NoDup (dkeys d) -> NoDup (dkeys (ddel eqb k d)).
  Proof.
    induction d as [|[k' v'] d IH]; simpl; auto.
    intros H. inversion H as [|? ? Hn Hnd]; subst.
    destruct (eqb k k'); simpl; auto.
    constructor; auto. intros Hin. apply Hn. eapply ddel_keys_incl; eauto.
  Qed.
End DictFacts.
