(** Lemmas about plotted configurations. *)
From Coq Require Import String Reals ZArith List Bool Arith Lra Lia.
From Verif Require Import Base RVec RVecFacts MotionModel OrderProofs MoleculeModel UtilModel UtilProofs ConfigModel ConfigSpec.
Import ListNotations.
Open Scope R_scope.
Notation length := List.length.

Lemma truncate_ok x : truncated x (truncate x).
Proof.
  unfold truncated, truncate. destruct (Rlt_dec x 0) as [L|L].
  - destruct (base_Int_part (- x)). rewrite opp_IZR. split; intros; lra.
  - destruct (base_Int_part x). split; intros; lra.
Qed.
Lemma truncated_unique x k k' : truncated x k -> truncated x k' -> k = k'.
Proof.
  intros (A & B) (A' & B'). destruct (Rle_dec 0 x) as [L|L].
  - specialize (A L). specialize (A' L). assert (k < k' + 1)%Z by (apply lt_IZR; rewrite plus_IZR; lra).
    assert (k' < k + 1)%Z by (apply lt_IZR; rewrite plus_IZR; lra). lia.
  - assert (N : x < 0) by lra. specialize (B N). specialize (B' N). assert (k - 1 < k')%Z by (apply lt_IZR; rewrite minus_IZR; lra).
    assert (k' - 1 < k)%Z by (apply lt_IZR; rewrite minus_IZR; lra). lia.
Qed.
Lemma truncated_bound x k : -180 <= x <= 180 -> truncated x k -> (-180 <= k <= 180)%Z.
Proof.
  intros X (A & B). destruct (Rle_dec 0 x) as [L|L].
  - specialize (A L). assert (-1 < k)%Z by (apply lt_IZR; lra). assert (k <= 180)%Z by (apply le_IZR; lra). lia.
  - assert (N : x < 0) by lra. specialize (B N). assert (-180 <= k)%Z by (apply le_IZR; lra). assert (k < 1)%Z by (apply lt_IZR; lra). lia.
Qed.
Lemma degrees_bound a : - PI <= a <= PI -> -180 <= rad2deg a <= 180.
Proof.
  intros A. pose proof PI_RGT_0. unfold rad2deg. assert (E : a * 180 / PI * PI = a * 180) by (field; lra).
  split; apply (Rmult_le_reg_r PI); auto; rewrite E; lra.
Qed.
Lemma palette_mod light k : (-360 <= k < 360)%Z -> palette light k = inl (mkcolour light (k mod 360)).
Proof.
  intros K. unfold palette. destruct (Z_lt_ge_dec k 0) as [L|L].
  - replace ((-360 <=? k) && (k <? 0))%Z with true by (symmetry; apply andb_true_iff; split; [apply Z.leb_le|apply Z.ltb_lt]; lia).
    do 2 f_equal. rewrite <- (Z_mod_plus_full k 1 360). symmetry. rewrite Z.mod_small; lia.
  - replace (k <? 0)%Z with false by (symmetry; apply Z.ltb_ge; lia). rewrite andb_false_r.
    replace ((0 <=? k) && (k <? 360))%Z with true by (symmetry; apply andb_true_iff; split; [apply Z.leb_le|apply Z.ltb_lt]; lia).
    rewrite Z.mod_small by lia. reflexivity.
Qed.
Lemma palette_out light k : ~ (-360 <= k < 360)%Z -> palette light k = inr IndexError.
Proof.
  intros K. unfold palette. destruct (Z.leb_spec (-360) k), (Z.ltb_spec k 0), (Z.leb_spec 0 k), (Z.ltb_spec k 360); cbn; auto; lia.
Qed.

Lemma all_ok_map {A B} (f : A -> B + exn) (g : A -> B) l : Forall (fun x => f x = inl (g x)) l -> all_ok f l = inl (map g l).
Proof. induction 1 as [|x l H F IH]; cbn; auto. rewrite H, IH. reflexivity. Qed.
Definition hue (a : R) : Z := (truncate (rad2deg a) mod 360)%Z.
Lemma hue_ok a : hue_of a (hue a).
Proof. exists (truncate (rad2deg a)). split; [apply truncate_ok|reflexivity]. Qed.
Lemma colours_ok angles light : Forall (fun a => - PI <= a <= PI) angles ->
  colour_orientation angles light = inl (map (fun a => mkcolour light (hue a)) angles).
Proof.
  intros F. apply all_ok_map. revert F. apply Forall_impl. intros a A. apply palette_mod.
  pose proof (truncated_bound _ _ (degrees_bound a A) (truncate_ok _)). lia.
Qed.

Lemma mask_ok angles mask : length mask = length angles ->
  assign_mask mask (map (fun a => mkcolour false (hue a)) angles) (map (fun a => mkcolour true (hue a)) angles) =
  inl (zip (fun m a => mkcolour m (hue a)) mask angles).
Proof.
  intros L. unfold assign_mask. rewrite map_length, L, Nat.eqb_refl. f_equal. revert angles L.
  induction mask as [|b mask IH]; intros [|a angles] L; cbn in *; try discriminate; auto. rewrite IH by lia. destruct b; reflexivity.
Qed.

Lemma tile_length {A} (x : list A) k : length (tile x k) = (k * length x)%nat.
Proof. unfold tile. rewrite (concat_length_const (length x)), repeat_length; auto. apply Forall_repeat; auto. Qed.
Lemma tile_entry {A} (x : list A) k p m d : (p < k)%nat -> (m < length x)%nat -> entry (length x) (tile x k) p m d = nth m x d.
Proof.
  intros P M. unfold entry, tile. rewrite (nth_concat (length x)); auto; [|apply Forall_repeat; auto|rewrite repeat_length; auto].
  rewrite nth_repeat_lt by auto. reflexivity.
Qed.
Lemma repeat_len {A} (x : list A) n : length (np_repeat x n) = (length x * n)%nat.
Proof. unfold np_repeat. rewrite (concat_length_const n), map_length; auto. apply Forall_map, Forall_forall. intros. apply repeat_length. Qed.
Lemma repeat_entry {A} (x : list A) n p m d : (p < length x)%nat -> (m < n)%nat -> entry n (np_repeat x n) p m d = nth p x d.
Proof.
  intros P M. unfold entry, np_repeat. rewrite (nth_concat n); auto; [|apply Forall_map, Forall_forall; intros; apply repeat_length|rewrite map_length; auto].
  rewrite (nth_map_lt _ x p d) by auto. apply nth_repeat_lt. auto.
Qed.
