(** Properties of plotted configurations, C89, C90, C117, C118. *)
From Coq Require Import String Reals ZArith List Bool Arith Lra Lia.
From Verif Require Import Base RVec RVecFacts MotionModel OrderProofs MoleculeModel UtilModel UtilProofs ConfigModel ConfigSpec ConfigProofs.
Import ListNotations.
Open Scope R_scope.
Notation length := List.length.

(** * C90 *)
Theorem C90_palette angles light : Forall (fun a => - PI <= a <= PI) angles ->
  exists cs, colour_orientation angles light = inl cs /\ Forall2 (fun a c => c_light c = light /\ hue_of a (c_hue c)) angles cs /\
    Forall (fun c => (0 <= c_hue c < 360)%Z) cs.
Proof.
  intros F. rewrite (colours_ok angles light F). eexists. split; [reflexivity|]. split.
  - clear F. induction angles; constructor; auto. split; auto. apply hue_ok.
  - apply Forall_map, Forall_forall. intros a _. cbn. apply Z.mod_pos_bound. lia.
Qed.
Print Assumptions C90_palette.
(** Other angles *)
Theorem C90_exact a light k : truncated (a * 180 / PI) k ->
  colour_orientation [a] light = if ((-360 <=? k) && (k <? 360))%Z then inl [mkcolour light (k mod 360)] else inr IndexError.
Proof.
  intros T. cbn. change (a * 180 / PI) with (rad2deg a) in T. rewrite <- (truncated_unique _ _ _ T (truncate_ok _)).
  destruct (Z.leb_spec (-360) k), (Z.ltb_spec k 360); cbn; [rewrite palette_mod by lia; reflexivity|rewrite palette_out by lia; reflexivity..].
Qed.
Print Assumptions C90_exact.
Lemma degrees x : x * PI / 180 * 180 / PI = x.
Proof. field. apply PI_neq0. Qed.
(** -90.5 degrees have hue 270; 400 degrees are refused. *)
Example C90_example : colour_orientation [- (905 / 10) * PI / 180] true = inl [mkcolour true 270] /\ colour_orientation [400 * PI / 180] false = inr IndexError.
Proof.
  split.
  - rewrite (C90_exact _ _ (-90)%Z); [reflexivity|]. rewrite degrees. split; intros; lra.
  - rewrite (C90_exact _ _ 400%Z); [reflexivity|]. rewrite degrees. split; intros; lra.
Qed.

(** * C89 *)
(** Which molecules are drawn in the light shade *)
Definition liquid (order_function order_list : option ordering) (m : nat) : bool :=
  match order_list, order_function with
  | Some o, _ => negb (nth m (o_truth o) true)
  | None, Some o => match o_dtype o with
                    | Text => String.eqb (nth m (o_strings o) ""%string) "liq"
                    | _ => negb (nth m (o_truth o) true)
                    end
  | None, None => false
  end.
Definition acceptable (n : nat) (order_function order_list : option ordering) : Prop :=
  match order_function, order_list with
  | Some _, Some _ => False
  | Some o, None => o_dtype o <> Numeric /\ length (o_truth o) = n /\ length (o_strings o) = n
  | None, Some o => o_dtype o <> Text /\ length (o_truth o) = n
  | None, None => True
  end.
Lemma zip_entries n mask angles (f : nat -> bool) : length mask = n -> length angles = n -> (forall m, (m < n)%nat -> nth m mask true = f m) ->
  forall m, (m < n)%nat -> nth m (zip (fun b a => mkcolour b (hue a)) mask angles) (mkcolour false 0) = mkcolour (f m) (hue (nth m angles 0)).
Proof. intros Lm La F m M. rewrite (nth_zip' _ mask angles true 0) by lia. rewrite F; auto. Qed.
Lemma frame_colours_ok angles of_ ol n : length angles = n -> Forall (fun a => - PI <= a <= PI) angles -> acceptable n of_ ol ->
  exists cs, frame_colours angles (option_map inl of_) ol false = inl (Colours cs) /\ length cs = n /\
    forall m, (m < n)%nat -> nth m cs (mkcolour false 0) = mkcolour (liquid of_ ol m) (hue (nth m angles 0)).
Proof.
  intros L F A. unfold frame_colours. rewrite !(colours_ok angles) by auto. cbn [ebind].
  destruct of_ as [o|], ol as [o'|]; cbn [option_map acceptable liquid] in *; try contradiction.
  - destruct A as (D & Lt & Ls). destruct (o_dtype o); [|congruence|].
    + rewrite mask_ok by (rewrite map_length; lia). cbn [ebind]. eexists. split; [reflexivity|]. split; [rewrite UtilProofs.zip_length; rewrite map_length; lia|].
      apply zip_entries; auto; [rewrite map_length; auto|]. intros m M. rewrite (nth_map_lt _ _ m true) by lia. reflexivity.
    + rewrite mask_ok by (rewrite map_length; lia). cbn [ebind]. eexists. split; [reflexivity|]. split; [rewrite UtilProofs.zip_length; rewrite map_length; lia|].
      apply zip_entries; auto; [rewrite map_length; auto|]. intros m M. rewrite (nth_map_lt _ _ m ""%string) by lia. apply String.eqb_sym.
  - destruct A as (D & Lt). assert (G : exists cs, ebind (assign_mask (map negb (o_truth o')) (map (fun a => mkcolour false (hue a)) angles) (map (fun a => mkcolour true (hue a)) angles)) (fun c => inl (Colours c)) = inl (Colours cs) /\
      length cs = n /\ forall m, (m < n)%nat -> nth m cs (mkcolour false 0) = mkcolour (negb (nth m (o_truth o') true)) (hue (nth m angles 0))).
    { rewrite mask_ok by (rewrite map_length; lia). cbn [ebind]. eexists. split; [reflexivity|]. split; [rewrite UtilProofs.zip_length; rewrite map_length; lia|].
      apply zip_entries; auto; [rewrite map_length; auto|]. intros m M. rewrite (nth_map_lt _ _ m true) by lia. reflexivity. }
    destruct (o_dtype o'); [exact G|exact G|congruence].
  - eexists. split; [reflexivity|]. split; [rewrite map_length; auto|]. intros m M. rewrite (nth_map_lt _ _ m 0) by lia. reflexivity.
Qed.

Theorem C89_columns gimbal position orientation n of_ ol num offsets radii :
  (forall q, - PI <= x3 (gimbal q) <= PI) ->
  length position = n -> length orientation = n -> offsets <> [] -> num = length offsets -> length radii = num -> acceptable n of_ ol ->
  exists d cs, frame2data gimbal position orientation n (option_map inl of_) ol num offsets (inl radii) false = inl d /\ d_colour d = Colours cs /\
    length (d_x d) = (num * n)%nat /\ length (d_y d) = (num * n)%nat /\ length (d_orientation d) = (num * n)%nat /\ length (d_radius d) = (num * n)%nat /\ length cs = (num * n)%nat /\
    forall p m, (p < num)%nat -> (m < n)%nat ->
      let at_ := add3 (nth m position zero3) (rot (nth m orientation qone) (nth p offsets zero3)) in
      entry n (d_x d) p m 0 = x3 at_ /\ entry n (d_y d) p m 0 = y3 at_ /\
      entry n (d_orientation d) p m 0 = x3 (to_euler gimbal (nth m orientation qone)) /\
      entry n (d_radius d) p m 0 = nth p radii 0 * (98 / 100) /\
      c_light (entry n cs p m (mkcolour false 0)) = liquid of_ ol m /\
      hue_of (x3 (to_euler gimbal (nth m orientation qone))) (c_hue (entry n cs p m (mkcolour false 0))).
Proof.
  intros G Lp Lo N E Lr A. unfold frame2data.
  assert (M0 : forall (X : Type) (a b : X), (match option_map (@inl ordering exn) of_, ol with Some _, Some _ => a | _, _ => b end) = b).
  { intros. destruct of_, ol; cbn in *; auto. contradiction. }
  rewrite M0. set (angle := quaternion2z gimbal orientation).
  assert (La : length angle = n) by (unfold angle, quaternion2z; rewrite map_length; auto).
  assert (Fa : Forall (fun a => - PI <= a <= PI) angle).
  { apply Forall_map, Forall_forall. intros q _. unfold to_euler. destruct (Rle_dec _ _); [auto|cbn; apply atan2_bound]. }
  destruct (frame_colours_ok angle of_ ol n La Fa A) as (cs & Ec & Lc & Vc). rewrite Ec. cbn [ebind].
  destruct (positions_ok num offsets position orientation N E (eq_trans Lp (eq_sym Lo))) as (res & Er & Lres & V). rewrite Er. cbn [ebind].
  eexists. exists (tile cs num). split; [reflexivity|]. split; [reflexivity|]. cbn [d_x d_y d_orientation d_radius].
  rewrite !map_length, !tile_length, repeat_len, Lres, La, Lc, Lp, Lr. do 5 (split; [reflexivity|]).
  intros p m P M. rewrite Lp in V. specialize (V p m P M). set (at_ := add3 (nth m position zero3) (rot (nth m orientation qone) (nth p offsets zero3))) in *.
  assert (I : (p * n + m < length res)%nat) by (rewrite Lres, Lp; nia).
  split; [unfold entry; rewrite (nth_map_lt _ res _ zero3) by auto; rewrite V; reflexivity|].
  split; [unfold entry; rewrite (nth_map_lt _ res _ zero3) by auto; rewrite V; reflexivity|].
  assert (An : nth m angle 0 = x3 (to_euler gimbal (nth m orientation qone))) by (unfold angle, quaternion2z; rewrite (nth_map_lt _ orientation m qone) by lia; reflexivity).
  split; [rewrite <- La, tile_entry by lia; exact An|].
  split.
  { unfold entry. rewrite (nth_map_lt _ _ _ 0) by (rewrite repeat_len, Lr; nia). pose proof (repeat_entry radii n p m 0) as Re. unfold entry in Re. rewrite Re by lia. reflexivity. }
  rewrite <- Lc, tile_entry by lia. rewrite Vc by auto. cbn [c_light c_hue]. split; [reflexivity|]. rewrite An. apply hue_ok.
Qed.
Print Assumptions C89_columns.
Theorem C89_both gimbal position orientation n f ol num offsets radii cat :
  frame2data gimbal position orientation n (Some f) (Some ol) num offsets radii cat = inr ValueError.
Proof. reflexivity. Qed.
Print Assumptions C89_both.
(** By categories every particle has the class of its molecule; without a classification it is
    refused. *)
Theorem C89_categories gimbal position orientation n o num offsets radii :
  length position = n -> length orientation = n -> offsets <> [] -> num = length offsets -> length (o_strings o) = n ->
  (forall of_ ol, (of_ = Some (inl o) /\ ol = None) \/ (of_ = None /\ ol = Some o) ->
    exists d cs, frame2data gimbal position orientation n of_ ol num offsets (inl radii) true = inl d /\ d_colour d = Categories cs /\
      length cs = (num * n)%nat /\ forall p m, (p < num)%nat -> (m < n)%nat -> entry n cs p m ""%string = nth m (o_strings o) ""%string) /\
  frame2data gimbal position orientation n None None num offsets (inl radii) true = inr ValueError.
Proof.
  intros Lp Lo N E Ls. split; [|reflexivity]. intros of_ ol H.
  destruct (positions_ok num offsets position orientation N E (eq_trans Lp (eq_sym Lo))) as (res & Er & _).
  destruct H as [(-> & ->)|(-> & ->)]; unfold frame2data, frame_colours; cbn [ebind]; rewrite Er; cbn [ebind]; eexists; exists (tile (o_strings o) num);
    (split; [reflexivity|]; split; [reflexivity|]; split; [rewrite tile_length, Ls; reflexivity|]; intros p m P M; rewrite <- Ls; apply tile_entry; lia).
Qed.
Print Assumptions C89_categories.
Definition two_molecules : list v3 := [mk3 5 0 0; mk3 0 5 0].
Definition some_classes : ordering := mkord Text ["liq"; "p2"]%string [true; true].
Example C89_example : exists d cs, frame2data (fun _ => zero3) two_molecules [qone; qone] 2 (Some (inl some_classes)) None 2 [mk3 0 0 0; mk3 1 0 0] (inl [1; 2]) false = inl d /\
  d_colour d = Colours cs /\ nth 2 (d_x d) 0 = 6 /\ nth 3 (d_radius d) 0 = 2 * (98 / 100) /\ c_light (nth 2 cs (mkcolour false 0)) = true /\ c_light (nth 3 cs (mkcolour false 0)) = false.
Proof.
  destruct (C89_columns (fun _ => zero3) two_molecules [qone; qone] 2 (Some some_classes) None 2 [mk3 0 0 0; mk3 1 0 0] [1; 2]) as (d & cs & E & C & _ & _ & _ & _ & _ & V); try reflexivity; try discriminate.
  { intros. cbn. pose proof PI_RGT_0. lra. }
  { cbn. repeat split; discriminate. }
  exists d, cs. split; [exact E|]. split; auto.
  destruct (V 1%nat 0%nat ltac:(lia) ltac:(lia)) as (X & _ & _ & _ & Li & _). destruct (V 1%nat 1%nat ltac:(lia) ltac:(lia)) as (_ & _ & _ & Ra & Li' & _).
  unfold entry in *. cbn [Nat.mul Nat.add nth] in *. rewrite X, Ra, Li, Li'. split; [|auto]. rewrite rot_one. cbn. ring.
Qed.

(** * C118 *)
Theorem C118_alternative_partial gimbal position orientation n o num offsets radii cat : o_dtype o = Native \/ cat = true ->
  frame2data gimbal position orientation n (Some (inl o)) None num offsets radii cat = frame2data gimbal position orientation n None (Some o) num offsets radii cat.
Proof.
  intros H. unfold frame2data, frame_colours. destruct cat; [reflexivity|]. destruct H as [H|H]; [rewrite H|discriminate].
  destruct (colour_orientation (quaternion2z gimbal orientation) false); reflexivity.
Qed.
Print Assumptions C118_alternative_partial.
(** The light molecules that an order function asks for are drawn dark if it answers with, for
    example, float32 numbers; text is refused as order_list. *)
Theorem C118_alternative_refuted :
  (exists o d cs d' cs', o_truth o = [false; true] /\
     frame2data (fun _ => zero3) two_molecules [qone; qone] 2 (Some (inl o)) None 1 [zero3] (inl [1]) false = inl d /\ d_colour d = Colours cs /\ map c_light cs = [false; false] /\
     frame2data (fun _ => zero3) two_molecules [qone; qone] 2 None (Some o) 1 [zero3] (inl [1]) false = inl d' /\ d_colour d' = Colours cs' /\ map c_light cs' = [true; false]) /\
  (exists o, frame2data (fun _ => zero3) two_molecules [qone; qone] 2 None (Some o) 1 [zero3] (inl [1]) false = inr TypeError /\
     exists d, frame2data (fun _ => zero3) two_molecules [qone; qone] 2 (Some (inl o)) None 1 [zero3] (inl [1]) false = inl d).
Proof.
  assert (F : Forall (fun a => - PI <= a <= PI) (quaternion2z (fun _ => zero3) [qone; qone])).
  { apply Forall_map, Forall_forall. intros q _. unfold to_euler. destruct (Rle_dec _ _); [cbn; pose proof PI_RGT_0; lra|cbn; apply atan2_bound]. }
  split.
  - exists (mkord Numeric ["0.0"; "1.0"]%string [false; true]). unfold frame2data, frame_colours. rewrite !(colours_ok _ _ F).
    cbn [ebind o_dtype o_truth]. rewrite mask_ok by reflexivity. cbn [ebind]. unfold orientation2positions, bzip. cbn [repeat concat map app length Nat.eqb zip ebind].
    do 4 eexists. repeat split.
  - exists some_classes. unfold frame2data, frame_colours. rewrite !(colours_ok _ _ F). cbn [ebind o_dtype some_classes o_strings]. split; [reflexivity|].
    rewrite mask_ok by reflexivity. cbn [ebind]. unfold orientation2positions, bzip. cbn [repeat concat map app length Nat.eqb zip ebind]. eexists. reflexivity.
Qed.
Print Assumptions C118_alternative_refuted.
Example C118_example : frame2data (fun _ => zero3) two_molecules [qone; qone] 2 (Some (inl (mkord Native ["0"; "1"]%string [false; true]))) None 1 [zero3] (inl [1]) false =
  frame2data (fun _ => zero3) two_molecules [qone; qone] 2 None (Some (mkord Native ["0"; "1"]%string [false; true])) 1 [zero3] (inl [1]) false.
Proof. apply C118_alternative_partial. auto. Qed.

(** * C117 *)
(** The legend shows nearly the complementary hue: 180 degrees from that of the plot, give or
    take one. *)
Theorem C117_legend_partial x h : - PI <= x <= PI -> hue_of x h ->
  c_light (legend_colour x) = false /\ (179 <= (c_hue (legend_colour x) - h) mod 360 <= 181)%Z.
Proof.
  intros X (k & T & ->). split; [reflexivity|]. pose proof PI_RGT_0 as P. pose proof (degrees_bound x X) as B. unfold rad2deg in B.
  pose proof (truncated_bound _ _ B T) as K. unfold legend_colour. cbn [c_hue].
  replace ((x - - PI) * 360 / (PI - - PI)) with (x * 180 / PI + 180) by (field; lra). set (d := x * 180 / PI) in *.
  destruct (base_Int_part (d + 180)) as (L & U). set (g := Int_part (d + 180)) in *. destruct T as (T1 & T2).
  assert (G : (g = k + 180 \/ (k <= 0 /\ g = k + 179) )%Z /\ (g = 360 -> k = 180)%Z /\ (g <= 360)%Z).
  { destruct (Rle_dec 0 d) as [D|D].
    - specialize (T1 D). assert (g - 180 < k + 1)%Z by (apply lt_IZR; rewrite minus_IZR, plus_IZR; lra). assert (k < g - 180 + 1)%Z by (apply lt_IZR; rewrite plus_IZR, minus_IZR; lra). lia.
    - assert (D' : d < 0) by lra. specialize (T2 D'). assert (g - 180 <= k)%Z by (apply le_IZR; rewrite minus_IZR; lra).
      assert (k - 2 < g - 180)%Z by (apply lt_IZR; rewrite !minus_IZR; lra). assert (k < 1)%Z by (apply lt_IZR; lra). lia. }
  destruct G as (G & G1 & G2). rewrite Zminus_mod, Zmod_mod, <- Zminus_mod.
  assert (R : (179 <= Z.min g 359 - k <= 180)%Z) by lia. rewrite Z.mod_small; lia.
Qed.
Print Assumptions C117_legend_partial.
Theorem C117_legend_refuted : forall x, - PI <= x <= PI -> exists c, colour_orientation [x] false = inl [c] /\ c_hue (legend_colour x) <> c_hue c.
Proof.
  intros x X. destruct (C90_palette [x] false (Forall_cons _ X (Forall_nil _))) as (cs & E & F & _).
  inversion F as [|? c ? ? (_ & H) F' E1 E2]. inversion F'. subst. exists c. split; [exact E|]. destruct (C117_legend_partial x (c_hue c) X H) as (_ & R).
  intros Q. rewrite Q, Z.sub_diag in R. cbn in R. lia.
Qed.
Print Assumptions C117_legend_refuted.
Example C117_example : colour_orientation [0] false = inl [mkcolour false 0] /\ c_hue (legend_colour 0) = 180%Z.
Proof.
  pose proof PI_RGT_0. split.
  - rewrite (C90_exact _ _ 0%Z); [reflexivity|]. replace (0 * 180 / PI) with 0 by (field; lra). split; intros; lra.
  - unfold legend_colour. cbn [c_hue]. replace ((0 - - PI) * 360 / (PI - - PI)) with 180 by (field; lra).
    assert (I : Int_part 180 = 180%Z); [|rewrite I; reflexivity]. destruct (base_Int_part 180) as (L & U).
    assert (Int_part 180 < 181)%Z by (apply lt_IZR; lra). assert (179 < Int_part 180)%Z by (apply lt_IZR; lra). lia.
Qed.

(** ** A closed counterexample for C117 *)
Theorem C117_zero_refuted : exists x c, - PI <= x <= PI /\ colour_orientation [x] false = inl [c] /\ c_hue (legend_colour x) <> c_hue c.
Proof.
  pose proof PI_RGT_0. destruct C117_example as [A B]. exists 0, (mkcolour false 0). split; [lra|]. split; auto. rewrite B. discriminate.
Qed.
Print Assumptions C117_zero_refuted.
