(** Properties C123, C124, C125: the fraction of ordered particles, and the orientational order. *)
From Coq Require Import Reals ZArith List Bool Arith Lia Lra.
From Verif Require Import Base RVec RVecFacts RelaxFitModel FrameModel MotionSpec MotionProofs OrderModel OrderSpec OrderProofs OrderProps RunModel RunSpec.
Import ListNotations.
Open Scope R_scope.

(** ** C123 *)
Section Loop.
Context (nr : R) (neigh : list R -> list (FrameModel.vec3 R) -> list (list nat) + exn).
Notation snap := (FrameModel.snapshot R).

(** True: if every frame can be read when iterating, the rows are those of the frames that can be read again. *)
Theorem C123_rows_partial : forall (l : list ((snap + exn) * (snap + exn))) rows before,
  (forall a b, In (a, b) l -> (exists x, a = inl x) /\ (b = inr RuntimeError \/ exists s, b = inl s)) ->
  Forall2 (fun s r => frame_row nr neigh s = inl r)
    (flat_map (fun p => match snd p with inl s => [s] | inr _ => [] end) l) rows ->
  order nr neigh (inl l) before = (Some rows, None).
Proof.
  intros l rows before H F. unfold order. assert (E : loop nr neigh l = (rows, None)); [|rewrite E; auto].
  revert rows F. induction l as [|[a b] l IH]; intros rows F; cbn [flat_map] in F.
  - inversion F. reflexivity.
  - destruct (H a b (or_introl eq_refl)) as [(x & ->) B].
    assert (H' : forall a b, In (a, b) l -> (exists x, a = inl x) /\ (b = inr RuntimeError \/ exists s, b = inl s)) by (intros; apply H; right; auto).
    destruct B as [->|(s & ->)]; cbn [snd app] in F.
    + cbn [loop]. auto.
    + inversion F as [|? r ? rows' FR F']; subst. cbn [loop]. rewrite FR, (IH H' _ F'). reflexivity.
Qed.
(** But a frame that cannot be read at all ends the program: nothing after it is written. *)
Theorem C123_stops_partial : forall (pre : list snap) rows e rest before, e <> IndexError ->
  Forall2 (fun s r => frame_row nr neigh s = inl r) pre rows ->
  order nr neigh (inl (always (map inl pre ++ inr e :: rest))) before = (Some rows, Some e).
Proof.
  intros pre rows e rest before N F. unfold order.
  assert (E : loop nr neigh (always (map inl pre ++ inr e :: rest)) = (rows, Some e)); [|rewrite E; auto].
  unfold always. induction F as [|s r pre rows FR F IH]; cbn [map app loop].
  - destruct e; congruence || reflexivity.
  - rewrite FR, IH. reflexivity.
Qed.
End Loop.

(** ** C125: the orientational order of a molecule, in the plane *)
Lemma slot_present n row f : row <> [] -> filter (fun j => (j <? n)%nat) row <> [] ->
  slot_mean n row f = 1 - INR (length (filter (fun j => (j <? n)%nat) row)) / INR (length row) * (1 - present_mean n row f).
Proof.
  intros N M. unfold slot_mean, present_mean. pose proof (INR_len_pos row N) as P. pose proof (INR_len_pos _ M) as Q.
  assert (E : fold_right (fun j s => (if (j <? n)%nat then f j else 1) + s) 0 row =
    fold_right (fun j s => f j + s) 0 (filter (fun j => (j <? n)%nat) row) + (INR (length row) - INR (length (filter (fun j => (j <? n)%nat) row)))).
  { clear. induction row as [|j row IH]; [cbn; ring|]. cbn [fold_right filter length]. rewrite IH. destruct (j <? n)%nat; cbn [length fold_right]; rewrite !S_INR; ring. }
  rewrite E. field. split; lra.
Qed.
Theorem C125_mean_partial : forall nr nl ori theta res i, (nr = 0 \/ nr = PI) -> length nl = length ori -> Forall2 turned ori theta ->
  orientational_order nr nl ori = inl res -> (i < length ori)%nat ->
  let row := nth i nl [] in let m := length (filter (fun j => (j <? length ori)%nat) row) in
  row <> [] ->
  (m = 0%nat -> nth i res 0 = 1) /\
  (m <> 0%nat -> nth i res 0 = 1 - INR m / INR (length row) * (1 - present_mean (length ori) row (fun j => cos (nth j theta 0 - nth i theta 0) ^ 2))).
Proof.
  intros nr nl ori theta res i NR L T E I row m RN. destruct (C82_planar nr nl ori theta NR L T) as (res' & E' & _ & V).
  rewrite E in E'. injection E' as <-. rewrite (V i I). fold row. split; intros M.
  - unfold slot_mean. unfold m in M. clear - M RN. pose proof (INR_len_pos row RN) as P.
    assert (X : fold_right (fun j s => (if (j <? length ori)%nat then cos (nth j theta 0 - nth i theta 0) ^ 2 else 1) + s) 0 row = INR (length row)).
    { clear RN P. induction row as [|j row IH]; auto. cbn [filter] in M. cbn [fold_right length]. rewrite S_INR.
      destruct (j <? length ori)%nat; [discriminate|]. rewrite IH by auto. ring. }
    rewrite X. field. lra.
  - apply slot_present; auto. unfold m in M. intros Z. rewrite Z in M. auto.
Qed.
(** False: the documented average over the neighbours.  Two molecules at a right angle: the average is 0, the
    answer 7/8; and a molecule without neighbours is perfectly ordered. *)
Theorem C125_mean_refuted : exists nl ori theta res, length nl = length ori /\ Forall2 turned ori theta /\
  neigh_ok (fun i j => if (i <? 2)%nat && (j <? 2)%nat then 1 else 10) 3 nl /\
  orientational_order PI nl ori = inl res /\
  present_mean 3 (nth 0 nl []) (fun j => cos (nth j theta 0 - nth 0 theta 0) ^ 2) = 0 /\ nth 0 res 0 = 7 / 8 /\
  filter (fun j => (j <? 3)%nat) (nth 2 nl []) = [] /\ nth 2 res 0 = 1.
Proof.
  set (nl := [[1; 9; 9; 9; 9; 9; 9; 9]; [0; 9; 9; 9; 9; 9; 9; 9]; [9; 9; 9; 9; 9; 9; 9; 9]]%nat).
  set (ori := [zquat 0; zquat (PI / 2); zquat 1]). set (theta := [0; PI / 2; 1]).
  assert (T : Forall2 turned ori theta) by (repeat constructor).
  destruct (C82_planar PI nl ori theta (or_intror eq_refl) eq_refl T) as (res & E & _ & V).
  exists nl, ori, theta, res. split; auto. split; auto. split.
  { split; [reflexivity|]. intros i I. assert (X : i = 0%nat \/ i = 1%nat \/ i = 2%nat) by lia.
    destruct X as [->|[->| ->]]; unfold within; cbn; repeat (destruct (Rlt_dec _ _); try lra); cbn;
      [exists [1%nat], 9%nat|exists [0%nat], 9%nat|exists [], 9%nat]; cbn; repeat split; auto; try lia;
      try (repeat constructor; cbn; tauto); try (intros x; cbn; tauto). }
  split; auto. pose proof (V 0%nat ltac:(cbn; lia)) as V0. pose proof (V 2%nat ltac:(cbn; lia)) as V2.
  split; [|split; [|split]].
  - unfold present_mean, nl, theta. cbn. rewrite Rminus_0_r, cos_PI2. field.
  - rewrite V0. unfold slot_mean, nl, theta. cbn. rewrite Rminus_0_r, cos_PI2. field.
  - reflexivity.
  - rewrite V2. unfold slot_mean, nl, theta. cbn. field.
Qed.

(** ** C124 *)
Lemma part_fraction l : l <> [] -> fraction l = inl (part (map (fun x => Rltb (9 / 10) x) l)).
Proof.
  intros N. unfold fraction, part. rewrite map_length. destruct l as [|x l]; [congruence|]. do 3 f_equal.
  generalize (x :: l). clear. induction l as [|y l IH]; auto. cbn [filter map count_occ]. destruct (Rltb (9 / 10) y); cbn [length]; [destruct (Bool.bool_dec true true)|destruct (Bool.bool_dec false true)]; congruence.
Qed.
(** True: if every particle is a molecule, the row of a frame is its timestep and the fraction of ordered molecules. *)
Theorem C124_fraction_partial : forall nr neigh (s : FrameModel.snapshot R) f p q row,
  HoomdFrame s = inl f -> s_box s = None -> s_position s = Some p -> s_orientation s = Some q ->
  h_num f = Z.of_nat (length p) -> h_num f = Z.of_nat (length q) ->
  frame_row nr neigh s = inl row ->
  exists l, ordered_molecules nr neigh s = inl l /\ row = (s_step s, part l).
Proof.
  intros nr neigh s f p q row HF BX P Q NP NQ FR. unfold ordered_molecules. rewrite HF. cbn [ebind].
  assert (S1 : h_frame f = s) by (unfold HoomdFrame in HF; destruct (get_num_bodies s); [|discriminate]; injection HF as <-; reflexivity).
  assert (SL : forall B (l : list B), h_num f = Z.of_nat (length l) -> slice_to (h_num f) l = l).
  { intros B l E. unfold slice_to. rewrite E. destruct (Z.ltb_spec (Z.of_nat (length l)) 0); [lia|]. rewrite Nat2Z.id. apply firstn_all. }
  unfold h_position, h_orientation, h_box. rewrite S1, P, Q, BX. cbn [ebind]. rewrite !SL by auto.
  unfold frame_row, snapshot_order in FR. rewrite P, Q in FR. destruct (neigh (s_cbox s) p) as [nl|]; [|discriminate]. cbn [ebind] in *.
  unfold orient_ordering. destruct (orientational_order nr nl (map to_quat q)) as [o|]; [|discriminate]. cbn [ebind] in *.
  destruct (fraction o) as [x|] eqn:FX; [|discriminate]. cbn [ebind] in FR. injection FR as <-.
  eexists. split; [reflexivity|]. f_equal. rewrite part_fraction in FX by (destruct o; [discriminate|congruence]). injection FX as <-. reflexivity.
Qed.

(** False: two molecules at a right angle, each with a further particle on the side away from the other: no molecule
    is ordered, yet a quarter of the particles is reported as ordered. *)
Definition on_x (x : R) : FrameModel.vec3 R := (x, 0, 0).
Definition about_z (t : R) : FrameModel.quat R := (cos (t / 2), 0, 0, sin (t / 2)).
Definition pair_of_dimers : FrameModel.snapshot R := {|
  s_N := 4; s_body := Some [0; 1; 0; 1]%Z; s_position := Some (map on_x [0; 3; -3; 6]);
  s_orientation := Some (map about_z [0; PI / 2; 0; 0]); s_image := None; s_step := 7; s_cbox := [100; 100; 1; 0; 0; 0];
  s_dimensions := 2; s_box := None |}.
Definition nl4 : list (list nat) :=
  [[1; 2; 9; 9; 9; 9; 9; 9]; [0; 3; 9; 9; 9; 9; 9; 9]; [0; 9; 9; 9; 9; 9; 9; 9]; [1; 9; 9; 9; 9; 9; 9; 9]]%nat.
Definition nl2 : list (list nat) := [[1; 9; 9; 9; 9; 9; 9; 9]; [0; 9; 9; 9; 9; 9; 9; 9]]%nat.
Definition neigh42 (box : list R) (p : list (FrameModel.vec3 R)) : list (list nat) + exn :=
  if (length p =? 4)%nat then inl nl4 else inl nl2.
Definition apart (xs : list R) (i j : nat) : R := Rabs (nth i xs 0 - nth j xs 0).
Lemma rlt_yes {A} a b (x y : A) : a < b -> (if Rlt_dec a b then x else y) = x.
Proof. intros H. destruct (Rlt_dec a b); tauto. Qed.
Lemma rlt_no {A} a b (x y : A) : ~ a < b -> (if Rlt_dec a b then x else y) = y.
Proof. intros H. destruct (Rlt_dec a b); tauto. Qed.
Ltac near := unfold Rabs; repeat destruct (Rcase_abs _); lra.
Ltac slots found := exists found, 9%nat; unfold within, apart; cbn [seq filter negb Nat.eqb andb nth];
  repeat (first [rewrite rlt_yes by near | rewrite rlt_no by near]); cbn;
  (split; [reflexivity|]); (split; [lia|]); (split; [repeat constructor; cbn; intuition discriminate|]); split; [intros x; cbn; tauto|reflexivity].
Lemma nl4_ok : neigh_ok (apart [0; 3; -3; 6]) 4 nl4.
Proof.
  split; [reflexivity|]. intros i I. destruct i as [|[|[|[|i]]]]; [| | | |lia].
  - slots [1; 2]%nat. - slots [0; 3]%nat. - slots [0]%nat. - slots [1]%nat.
Qed.
Lemma nl2_ok : neigh_ok (apart [0; 3]) 2 nl2.
Proof.
  split; [reflexivity|]. intros i I. destruct i as [|[|i]]; [| |lia].
  - slots [1]%nat. - slots [0]%nat.
Qed.
Lemma turned_z l : Forall2 turned (map to_quat (map about_z l)) l.
Proof. induction l; constructor; auto. left. reflexivity. Qed.
Lemma list4 (l : list R) : length l = 4%nat -> l = [nth 0 l 0; nth 1 l 0; nth 2 l 0; nth 3 l 0].
Proof. destruct l as [|a [|b [|c [|d [|]]]]]; cbn; intros; congruence || discriminate || reflexivity. Qed.
Lemma list2 (l : list R) : length l = 2%nat -> l = [nth 0 l 0; nth 1 l 0].
Proof. destruct l as [|a [|b [|]]]; cbn; intros; congruence || discriminate || reflexivity. Qed.
Ltac cosines := rewrite ?Rminus_0_r, ?Rminus_0_l, ?cos_neg, ?Rminus_eq_0, ?cos_PI2, ?cos_0; try field; try lra.
Lemma order4 nr : nr = 0 \/ nr = PI ->
  orientational_order nr nl4 (map to_quat (map about_z [0; PI / 2; 0; 0])) = inl [7 / 8; 6 / 8; 1; 7 / 8].
Proof.
  intros NR. destruct (C82_planar nr nl4 (map to_quat (map about_z [0; PI / 2; 0; 0])) _ NR eq_refl (turned_z [0; PI / 2; 0; 0])) as (res & E & L & V). rewrite E. f_equal.
  rewrite (list4 res L), !V by (cbn; lia). unfold slot_mean. cbn. cosines. repeat f_equal; cosines.
Qed.
Lemma order2 nr : nr = 0 \/ nr = PI ->
  orientational_order nr nl2 (map to_quat (map about_z [0; PI / 2])) = inl [7 / 8; 7 / 8].
Proof.
  intros NR. destruct (C82_planar nr nl2 (map to_quat (map about_z [0; PI / 2])) _ NR eq_refl (turned_z [0; PI / 2])) as (res & E & L & V). rewrite E. f_equal.
  rewrite (list2 res L), !V by (cbn; lia). unfold slot_mean. cbn. repeat f_equal; cosines.
Qed.
Lemma rltb_no a b : b <= a -> Rltb a b = false.
Proof. intros. unfold Rltb. destruct (Rlt_dec a b); auto. lra. Qed.
Lemma rltb_yes a b : a < b -> Rltb a b = true.
Proof. intros. unfold Rltb. destruct (Rlt_dec a b); tauto. Qed.
Lemma row4 nr : nr = 0 \/ nr = PI -> frame_row nr neigh42 pair_of_dimers = inl (7%Z, 1 / 4).
Proof.
  intros NR. unfold frame_row, snapshot_order. cbn [s_position s_orientation s_cbox s_step pair_of_dimers].
  change (neigh42 _ (map on_x _)) with (@inl _ exn nl4). cbn [ebind]. rewrite order4 by auto. cbn [ebind].
  unfold fraction. cbn [filter]. rewrite !(rltb_no (9 / 10)) by lra. rewrite (rltb_yes (9 / 10)) by lra. cbn. do 2 f_equal. field.
Qed.
Lemma none4 nr : nr = 0 \/ nr = PI -> ordered_molecules nr neigh42 pair_of_dimers = inl [false; false].
Proof.
  intros NR. unfold ordered_molecules. change (HoomdFrame pair_of_dimers) with (@inl _ exn {| h_frame := pair_of_dimers; h_num := 2 |}).
  cbn [ebind]. change (h_position _) with (@inl _ exn (map on_x [0; 3])). cbn [ebind].
  change (h_orientation _) with (@inl _ exn (map about_z [0; PI / 2])). cbn [ebind].
  change (neigh42 _ _) with (@inl _ exn nl2). cbn [ebind]. unfold orient_ordering. rewrite order2 by auto. cbn [ebind map].
  cbn [MotionModel.ebind map]. rewrite !rltb_no by lra. reflexivity.
Qed.
Theorem C124_fraction_refuted : exists nr neigh (s : FrameModel.snapshot R) l,
  neigh (s_cbox s) (map on_x [0; 3; -3; 6]) = inl nl4 /\ neigh_ok (apart [0; 3; -3; 6]) 4 nl4 /\
  neigh (s_cbox s) (map on_x [0; 3]) = inl nl2 /\ neigh_ok (apart [0; 3]) 2 nl2 /\
  s_position s = Some (map on_x [0; 3; -3; 6]) /\
  order nr neigh (inl (always [inl s])) None = (Some [(7%Z, 1 / 4)], None) /\
  ordered_molecules nr neigh s = inl l /\ part l = 0.
Proof.
  exists PI, neigh42, pair_of_dimers, [false; false]. split; [reflexivity|]. split; [apply nl4_ok|]. split; [reflexivity|].
  split; [apply nl2_ok|]. split; [reflexivity|]. split; [|split].
  - unfold order, always. cbn [map loop]. rewrite row4 by auto. reflexivity.
  - apply none4. auto.
  - unfold part. cbn. field.
Qed.

(** C123 is false: the frame after a corrupted one is missing from the output, and the program fails. *)
Theorem C123_skips_refuted : exists nr neigh (s : FrameModel.snapshot R) r, frame_row nr neigh s = inl r /\
  order nr neigh (inl (always [inl s; inr RuntimeError; inl s])) None = (Some [r], Some RuntimeError).
Proof.
  exists PI, neigh42, pair_of_dimers, (7%Z, 1 / 4). split; [apply row4; auto|].
  apply (C123_stops_partial PI neigh42 [pair_of_dimers] [(7%Z, 1 / 4)] RuntimeError [inl pair_of_dimers] None); [discriminate|].
  constructor; [apply row4; auto|constructor].
Qed.

Print Assumptions C123_rows_partial.
Print Assumptions C123_stops_partial.
Print Assumptions C123_skips_refuted.
Print Assumptions C124_fraction_partial.
Print Assumptions C124_fraction_refuted.
Print Assumptions C125_mean_partial.
Print Assumptions C125_mean_refuted.

(** ** Examples *)
(** C123: a frame that fails only when it is read again is left out *)
Example C123_ex : order PI neigh42 (inl [(inl pair_of_dimers, inl pair_of_dimers); (inl pair_of_dimers, inr RuntimeError);
    (inl pair_of_dimers, inl pair_of_dimers)]) (Some []) = (Some [(7%Z, 1 / 4); (7%Z, 1 / 4)], None).
Proof.
  apply C123_rows_partial.
  - intros a b [E|[E|[E|[]]]]; injection E as <- <-; split; eauto.
  - cbn. repeat constructor; apply row4; auto.
Qed.
(** C124: the same two molecules without their further particles *)
Definition two_discs : FrameModel.snapshot R := {|
  s_N := 2; s_body := None; s_position := Some (map on_x [0; 3]); s_orientation := Some (map about_z [0; PI / 2]);
  s_image := None; s_step := 7; s_cbox := [100; 100; 1; 0; 0; 0]; s_dimensions := 2; s_box := None |}.
Example C124_ex : HoomdFrame two_discs = inl {| h_frame := two_discs; h_num := 2 |} /\ frame_row PI neigh42 two_discs = inl (7%Z, 0).
Proof.
  split; [reflexivity|]. unfold frame_row, snapshot_order. cbn [s_position s_orientation s_cbox s_step two_discs].
  change (neigh42 _ (map on_x _)) with (@inl _ exn nl2). cbn [ebind]. rewrite order2 by auto. cbn [ebind].
  unfold fraction. cbn [filter]. rewrite !(rltb_no (9 / 10)) by lra. cbn. do 2 f_equal. field.
Qed.
