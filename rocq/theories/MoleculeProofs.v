(** Lemmas about molecules. *)
From Coq Require Import String Reals ZArith List Bool Lra Lia Sorted Permutation.
From Verif Require Import Base XNum RVec RVecFacts MoleculeModel MoleculeSpec.
Import ListNotations.
Open Scope R_scope.
Notation length := List.length.

Lemma update_length {A} n (x : A) l : length (update n x l) = length l.
Proof. revert n. induction l as [|y l IH]; intros [|n]; cbn; auto. Qed.
Lemma update_same {A} n (x d : A) l : (n < length l)%nat -> nth n (update n x l) d = x.
Proof. revert n. induction l as [|y l IH]; intros [|n] H; cbn in *; try lia; auto. apply IH. lia. Qed.
Lemma update_other {A} n k (x d : A) l : k <> n -> nth k (update n x l) d = nth k l d.
Proof. revert n k. induction l as [|y l IH]; intros [|n] [|k] H; cbn; try congruence; auto. Qed.

Lemma rsum_sub l c : rsum (map (fun x => x - c) l) = rsum l - INR (length l) * c.
Proof.
  induction l as [|x l IH]; [cbn; ring|]. cbn [map length]. unfold rsum in *. cbn [fold_right]. rewrite IH, S_INR. ring.
Qed.
Lemma rsum_centre l : l <> [] -> rsum (map (fun x => x - rmean l) l) = 0.
Proof.
  intros N. rewrite rsum_sub. unfold rmean. field. apply not_0_INR. destruct l; [congruence|cbn; lia].
Qed.
Lemma vsum_coords l : fold_right add3 zero3 l = mk3 (rsum (map x3 l)) (rsum (map y3 l)) (rsum (map z3 l)).
Proof. induction l as [|v l IH]; [reflexivity|]. cbn [fold_right map]. rewrite IH. reflexivity. Qed.
Definition centre (l : list v3) : list v3 := map (fun v => sub3 v (mean3 l)) l.
Lemma centre_centred l : l <> [] -> centred (centre l).
Proof.
  intros N. unfold centred. rewrite vsum_coords. unfold centre. rewrite !map_map. cbn [sub3 x3 y3 z3 mean3].
  assert (E : forall f : v3 -> R, rsum (map (fun v => f v - rmean (map f l)) l) = 0).
  { intros f. rewrite <- (map_map f (fun x => x - rmean (map f l))). apply rsum_centre. destruct l; cbn; congruence. }
  apply v3_eq; apply E.
Qed.
Lemma sub_sub a b c : sub3 (sub3 a c) (sub3 b c) = sub3 a b.
Proof. destruct a, b, c. unfold sub3. cbn. apply v3_eq; ring. Qed.
Lemma centre_shape l : same_shape l (centre l).
Proof.
  unfold same_shape, centre. rewrite map_length. split; auto. intros i j I J.
  rewrite !(nth_indep (map (fun v => sub3 v (mean3 l)) l) zero3 (sub3 zero3 (mean3 l))) by (rewrite map_length; auto).
  rewrite !(map_nth (fun v => sub3 v (mean3 l))). apply sub_sub.
Qed.
Lemma mean_zero l : l <> [] -> (mean3 l = zero3 <-> centred l).
Proof.
  intros N. assert (K : INR (length l) <> 0) by (apply not_0_INR; destruct l; [congruence|cbn; lia]).
  unfold centred, mean3, zero3, rmean. rewrite vsum_coords, !map_length.
  assert (Z : forall x, x / INR (length l) = 0 <-> x = 0).
  { intros x. split; intros H; [|rewrite H; field; auto]. apply (f_equal (Rmult (INR (length l)))) in H. field_simplify in H; auto. }
  split; intros E; injection E; intros E3 E2 E1; apply v3_eq; apply Z; auto.
Qed.
Lemma centre_same l : l <> [] -> (centre l = l <-> centred l).
Proof.
  intros N. split; intros H.
  - rewrite <- H. apply centre_centred. auto.
  - unfold centre. apply mean_zero in H; auto. rewrite H. rewrite <- (map_id l) at 2. apply map_ext. apply sub3_zero_r.
Qed.

(** The constructor *)
Lemma init_float h dim ps p r rigid : a_float (array_at h p) = true -> (p < length (h_arrays h))%nat ->
  exists h', molecule_init h dim ps p r rigid = (h', inl (mkmol dim ps p r rigid)) /\
    array_at h' p = mkarr true (centre (a_rows (array_at h p))) /\
    (forall k, k <> p -> array_at h' k = array_at h k) /\
    (forall k, k <> r -> dict_at h' k = dict_at h k) /\
    ((r < length (h_dicts h))%nat -> dict_at h' r = setdefault "A"%string 1 (dict_at h r)).
Proof.
  intros F L. unfold molecule_init. rewrite F. eexists. split; [reflexivity|]. unfold array_at, dict_at. cbn [h_arrays h_dicts].
  split; [apply update_same; auto|]. split; [intros; apply update_other; auto|]. split; [intros; apply update_other; auto|].
  intros; apply update_same; auto.
Qed.
Lemma init_int h dim ps p r rigid : a_float (array_at h p) = false -> snd (molecule_init h dim ps p r rigid) = inr TypeError.
Proof. intros F. unfold molecule_init. rewrite F. reflexivity. Qed.

Lemma fresh_array h a : array_at (fst (new_array h a)) (snd (new_array h a)) = a.
Proof. unfold array_at, new_array. cbn. rewrite app_nth2, Nat.sub_diag by lia. reflexivity. Qed.

(** Trimers and dimers *)
Lemma mean3_3 a b c : mean3 [a; b; c] = scale3 (/ 3) (add3 a (add3 b c)).
Proof. destruct a, b, c. unfold mean3, rmean, rsum, scale3, add3. cbn. apply v3_eq; field. Qed.

(** Sorting *)
Lemma leb_trans s t u : String.leb s t = true -> String.leb t u = true -> String.leb s u = true.
Proof.
  unfold String.leb. revert t u. induction s as [|a s IH]; intros [|b t] [|c u]; cbn; auto; try discriminate.
  unfold Ascii.compare. pose proof (N.compare_spec (Ascii.N_of_ascii a) (Ascii.N_of_ascii b)) as AB.
  pose proof (N.compare_spec (Ascii.N_of_ascii b) (Ascii.N_of_ascii c)) as BC.
  pose proof (N.compare_spec (Ascii.N_of_ascii a) (Ascii.N_of_ascii c)) as AC.
  destruct AB, BC, AC; try lia; try discriminate; auto. apply IH.
Qed.
Lemma leb_false s t : String.leb s t = false -> String.leb t s = true.
Proof. destruct (String.leb_total s t); congruence. Qed.
Lemma insert_perm s l : Permutation (insert_sorted s l) (s :: l).
Proof.
  induction l as [|t l IH]; cbn; auto. destruct (String.leb s t); auto. rewrite IH. constructor.
Qed.
Lemma insert_is_sorted s l : strings_sorted l -> strings_sorted (insert_sorted s l).
Proof.
  unfold strings_sorted. induction 1 as [|t l H IH F]; cbn.
  - repeat constructor.
  - destruct (String.leb s t) eqn:E.
    + constructor; [constructor; auto|]. constructor; auto. revert F. apply Forall_impl. intros u. apply leb_trans. auto.
    + constructor; auto. apply Forall_forall. intros u I. apply (Permutation_in _ (insert_perm s l)) in I. destruct I as [<-|I].
      * apply leb_false. auto.
      * rewrite Forall_forall in F. auto.
Qed.
Lemma sort_strings l : strings_sorted (fold_right insert_sorted [] l) /\ Permutation (fold_right insert_sorted [] l) l.
Proof.
  induction l as [|s l [IS IP]]; cbn.
  - split; constructor.
  - split; [apply insert_is_sorted; auto|]. rewrite insert_perm. auto.
Qed.

(** Radii *)
Lemma dget_dset k k' (v : R) d : dget String.eqb k (dset String.eqb k' v d) = if String.eqb k k' then Some v else dget String.eqb k d.
Proof.
  induction d as [|(a, b) d IH]; cbn.
  - reflexivity.
  - destruct (String.eqb_spec k' a) as [->|N]; cbn; destruct (String.eqb_spec k a) as [->|N']; auto.
    destruct (String.eqb_spec a k'); congruence.
Qed.
Lemma dget_keys k (d : dict string R) : dget String.eqb k d <> None <-> In k (dkeys d).
Proof.
  unfold dkeys. induction d as [|(a, b) d IH]; cbn.
  - intuition.
  - destruct (String.eqb_spec k a) as [->|N]; [split; [auto|discriminate]|]. rewrite IH. intuition congruence.
Qed.
Lemma setdefault_get k (d : dict string R) :
  dget String.eqb k (setdefault "A"%string 1 d) = match dget String.eqb k d with Some v => Some v | None => if String.eqb k "A"%string then Some 1 else None end.
Proof.
  unfold setdefault, dmem. destruct (dget String.eqb "A"%string d) eqn:E.
  - destruct (String.eqb_spec k "A"%string) as [->|N]; [rewrite E; auto|]. destruct (dget String.eqb k d); auto.
  - rewrite dget_dset. destruct (String.eqb_spec k "A"%string) as [->|N]; [rewrite E; auto|]. destruct (dget String.eqb k d); auto.
Qed.
Lemma setdefault_same (d : dict string R) : setdefault "A"%string 1 d = d <-> In "A"%string (dkeys d).
Proof.
  rewrite <- dget_keys. unfold setdefault, dmem. destruct (dget String.eqb "A"%string d) eqn:E.
  - intuition discriminate.
  - split; [|congruence]. intros H. rewrite <- H in E at 1. rewrite dget_dset, String.eqb_refl in E. discriminate.
Qed.
Lemma setdefault_keys k (d : dict string R) : In k (dkeys (setdefault "A"%string 1 d)) <-> k = "A"%string \/ In k (dkeys d).
Proof.
  rewrite <- !dget_keys, setdefault_get. destruct (dget String.eqb k d); [intuition discriminate|].
  destruct (String.eqb_spec k "A"%string); intuition (try congruence).
Qed.
Lemma get_all_ok d l : Forall (fun p => In p (dkeys d)) l -> exists rs, get_all d l = inl rs /\ Forall2 (fun p r => dget String.eqb p d = Some r) l rs.
Proof.
  induction 1 as [|p l H F (rs & E & G)]; cbn; [eauto|]. apply dget_keys in H. destruct (dget String.eqb p d) as [r|] eqn:D; [|congruence].
  rewrite E. eauto.
Qed.
Lemma get_all_missing d l : ~ Forall (fun p => In p (dkeys d)) l -> get_all d l = inr KeyError.
Proof.
  induction l as [|p l IH]; intros N; cbn.
  - destruct N. constructor.
  - destruct (dget String.eqb p d) as [r|] eqn:D; auto. rewrite IH; auto. intros F. apply N. constructor; auto. apply dget_keys. congruence.
Qed.

(** Equality *)
Lemma xeqb_comm a b : xeqb a b = xeqb b a.
Proof. unfold xeqb. apply andb_comm. Qed.
Lemma xeqb_refl a : a <> NaN -> xeqb a a = true.
Proof. destruct a as [| | |q]; intros H; try reflexivity; [congruence|]. unfold xeqb. cbn. rewrite (proj2 (QArith_base.Qle_bool_iff q q) (QArith_base.Qle_refl q)). reflexivity. Qed.
Lemma xle_trans a b c : xle a b = true -> xle b c = true -> xle a c = true.
Proof.
  destruct a as [| | |p], b as [| | |q], c as [| | |r]; cbn; try discriminate; auto.
  rewrite !QArith_base.Qle_bool_iff. apply QArith_base.Qle_trans.
Qed.
Lemma xeqb_trans a b c : xeqb a b = true -> xeqb b c = true -> xeqb a c = true.
Proof.
  unfold xeqb. rewrite !andb_true_iff. intros (H1 & H2) (H3 & H4). split; eapply xle_trans; eauto.
Qed.
Lemma xeqb_same a b : xeqb a b = true <-> same_number a b.
Proof.
  unfold xeqb. destruct a as [| | |p], b as [| | |q]; cbn; try intuition discriminate.
  rewrite andb_true_iff, !QArith_base.Qle_bool_iff. split.
  - intros []. apply QArith_base.Qle_antisym; auto.
  - intros E. rewrite E. split; apply QArith_base.Qle_refl.
Qed.
