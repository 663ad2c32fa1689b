(** C51-C53, C63, C101: frames. *)
From Coq Require Import String ZArith List Bool Lia.
From Verif Require Import Base FrameModel FrameSpec.
Import ListNotations.
Open Scope Z_scope.

Lemma fold_max l : forall x,
  let m := fold_left (fun m y => if m <? y then y else m) l x in
  (m = x \/ In m l) /\ x <= m /\ forall y, In y l -> y <= m.
Proof.
  induction l as [|a l IH]; intros x; cbn [fold_left].
  - simpl. intuition lia.
  - destruct (IH (if x <? a then a else x)) as (H1 & H2 & H3).
    cbv zeta. set (m := fold_left _ l _) in *.
    destruct (x <? a) eqn:E; [apply Z.ltb_lt in E|apply Z.ltb_ge in E].
    + split; [right; simpl; intuition congruence|]. split; [lia|]. intros y [->|I]; auto.
    + split; [simpl; intuition congruence|]. split; [lia|]. intros y [->|I]; [lia|auto].
Qed.
Lemma py_max_spec l m : py_max l = inl m -> largest m l.
Proof.
  destruct l as [|x l]; simpl; [discriminate|]. intros E. injection E as E.
  destruct (fold_max l x) as (H1 & H2 & H3). rewrite E in *. split.
  - simpl. intuition congruence.
  - intros y [->|I]; auto.
Qed.
Lemma slice_to_length {B} n (l : list B) :
  0 <= n <= Z.of_nat (List.length l) -> Z.of_nat (List.length (slice_to n l)) = n.
Proof.
  intros H. unfold slice_to. destruct (n <? 0) eqn:E; [apply Z.ltb_lt in E; lia|].
  rewrite firstn_length. lia.
Qed.
Lemma slice_to_nth {B} n (l : list B) i :
  0 <= n -> (Z.of_nat i < n) -> nth_error (slice_to n l) i = nth_error l i.
Proof.
  intros H L. unfold slice_to. destruct (n <? 0) eqn:E; [apply Z.ltb_lt in E; lia|].
  assert (K : (i < Z.to_nat n)%nat) by lia. clear - K. revert l i K.
  induction (Z.to_nat n); intros l i K; [lia|]. destruct l, i; simpl; auto. apply IHn0. lia.
Qed.

(** * C51 *)
Theorem C51_number_of_molecules {A} (s : snapshot A) p :
  0 <= s_N s -> s_position s = Some p ->
  (forall b, s_body s = Some b -> Forall (fun x => -1 <= x) b) ->
  exists n, molecules (s_N s) (s_body s) n /\
    (1 <= s_N s -> 1 <= n <= s_N s) /\
    (HoomdFrame s = inr ValueError <-> Z.of_nat (List.length p) < n) /\
    (n <= Z.of_nat (List.length p) ->
     exists f, HoomdFrame s = inl f /\ h_len f = inl n /\ h_num_mols f = n).
Proof.
  intros HN Hp Hb.
  assert (K : exists n, molecules (s_N s) (s_body s) n /\ (1 <= s_N s -> 1 <= n <= s_N s) /\ 0 <= n /\
     HoomdFrame s = if Z.of_nat (List.length p) <? n then inr ValueError else inl {| h_frame := s; h_num := n |}).
  { unfold HoomdFrame, get_num_bodies. rewrite Hp. destruct (s_body s) as [b|] eqn:E.
    - destruct (py_max b) as [m|e] eqn:M.
      + pose proof (py_max_spec _ _ M) as L. specialize (Hb b eq_refl).
        rewrite Forall_forall in Hb. assert (m >= -1) by (destruct L as [L _]; apply Hb in L; lia).
        destruct (s_N s <? m + 1) eqn:C; [apply Z.ltb_lt in C|apply Z.ltb_ge in C].
        * exists (s_N s). split; [apply mol_out with m; auto; lia|]. split; [lia|]. split; [lia|].
          rewrite Z.ltb_irrefl. destruct (_ <? _); reflexivity.
        * destruct (m + 1 =? 0) eqn:Z0; [apply Z.eqb_eq in Z0|apply Z.eqb_neq in Z0].
          -- exists (s_N s). split; [apply mol_out with m; auto; lia|]. split; [lia|]. split; [lia|].
             rewrite Z.ltb_irrefl. destruct (_ <? _); reflexivity.
          -- exists (m + 1). split; [apply mol_bodies; auto; lia|]. split; [lia|]. split; [lia|].
             rewrite (proj2 (Z.ltb_ge (s_N s) (m + 1))) by lia. destruct (_ <? m + 1); reflexivity.
      + destruct b as [|? ?]; [|discriminate]. exists (s_N s).
        split; [constructor|]. split; [lia|]. split; [lia|]. rewrite Z.ltb_irrefl.
        destruct (s_N s =? 0) eqn:Z0; rewrite ?Z.ltb_irrefl; destruct (_ <? _); reflexivity.
    - exists (s_N s). split; [constructor|]. split; [lia|]. split; [lia|]. rewrite Z.ltb_irrefl.
      destruct (s_N s =? 0) eqn:Z0; rewrite ?Z.ltb_irrefl; destruct (_ <? _); reflexivity. }
  destruct K as (n & K1 & K2 & K3 & K4). exists n. split; auto. split; auto. rewrite K4.
  destruct (Z.of_nat (List.length p) <? n) eqn:E; [apply Z.ltb_lt in E|apply Z.ltb_ge in E]; split.
  - tauto.
  - lia.
  - split; [discriminate|lia].
  - intros _. eexists. split; [reflexivity|]. unfold h_len, h_num_mols. simpl.
    destruct (n <? 0) eqn:C; [apply Z.ltb_lt in C; lia|auto].
Qed.
Print Assumptions C51_number_of_molecules.

(** Four molecules of two particles each; the ids of the second particles are the same. *)
Definition ex_snap (N : Z) (body : option (list Z)) (n : nat) : snapshot Z :=
  {| s_N := N; s_body := body;
     s_position := Some (map (fun i => (Z.of_nat i, 0, 0)) (seq 0 n));
     s_orientation := Some (repeat (1, 0, 0, 0) n);
     s_image := Some (repeat (0, 0, 0) n);
     s_step := 100; s_cbox := [20; 20; 1; 0; 0; 0]; s_dimensions := 2; s_box := None |}.
Example C51_ex1 :
  ebind (HoomdFrame (ex_snap 8 (Some [0; 1; 2; 3; 0; 1; 2; 3]) 8)) h_len = inl 4
  /\ ebind (HoomdFrame (ex_snap 8 (Some [-1; -1]) 8)) h_len = inl 8
  /\ ebind (HoomdFrame (ex_snap 8 (Some [4294967295]) 8)) h_len = inl 8
  /\ ebind (HoomdFrame (ex_snap 8 None 7)) h_len = inr ValueError.
Proof. vm_compute. auto. Qed.

(** * C101: with body ids below -1 (hoomd uses them for floppy bodies) a frame is
    created whose length is an error and whose arrays are cut at the wrong end. *)
Theorem C101_always_a_length_refuted :
  exists (s : snapshot Z) f p, HoomdFrame s = inl f /\ s_N s = 3
    /\ s_position s = Some p /\ List.length p = 3%nat
    /\ h_len f = inr ValueError /\ h_num_mols f = -2
    /\ exists q, h_position f = inl q /\ List.length q = 1%nat.
Proof.
  exists (ex_snap 3 (Some [-3; -3; -3]) 3).
  eexists. eexists. split; [reflexivity|]. split; [reflexivity|]. split; [reflexivity|].
  split; [reflexivity|]. split; [reflexivity|]. split; [reflexivity|].
  eexists. split; reflexivity.
Qed.
(** Exactly then: the length is an error iff there are bodies and all ids are below -1. *)
Theorem C101_always_a_length_partial {A} (s : snapshot A) f :
  HoomdFrame s = inl f -> 0 <= s_N s ->
  (h_len f = inr ValueError <-> exists b, s_body s = Some b /\ b <> [] /\ Forall (fun x => x < -1) b).
Proof.
  intros H HN. unfold h_len. enough (K : h_num f < 0 <-> exists b, s_body s = Some b /\ b <> [] /\ Forall (fun x => x < -1) b).
  { destruct (h_num f <? 0) eqn:E; [apply Z.ltb_lt in E|apply Z.ltb_ge in E].
    - tauto.
    - split; [discriminate|]. intros X. apply K in X. lia. }
  unfold HoomdFrame, get_num_bodies in H. destruct (s_position s) as [p|]; simpl in H.
  2:{ destruct (_ <? _) in H; discriminate. }
  destruct (s_body s) as [b|] eqn:E.
  - destruct (py_max b) as [m|e] eqn:M.
    + pose proof (py_max_spec _ _ M) as [L1 L2].
      assert (Q : h_num f < 0 <-> m < -1).
      { destruct (s_N s <? m + 1) eqn:C; [apply Z.ltb_lt in C|apply Z.ltb_ge in C].
        - rewrite Z.ltb_irrefl in H. destruct (_ <? s_N s) in H; [discriminate|]. injection H as <-. simpl. lia.
        - destruct (m + 1 =? 0) eqn:Z0; [apply Z.eqb_eq in Z0|apply Z.eqb_neq in Z0].
          + rewrite Z.ltb_irrefl in H. destruct (_ <? s_N s) in H; [discriminate|]. injection H as <-. simpl. lia.
          + destruct (s_N s <? m + 1) in H; [discriminate|]. destruct (_ <? m + 1) in H; [discriminate|].
            injection H as <-. simpl. lia. }
      rewrite Q. split.
      * intros Hm. exists b. split; auto. split; [intros ->; destruct L1|]. rewrite Forall_forall.
        intros x I. specialize (L2 x I). lia.
      * intros (b' & E' & _ & F). injection E' as <-. rewrite Forall_forall in F. auto.
    + destruct b; [|discriminate]. assert (h_num f = s_N s).
      { rewrite Z.ltb_irrefl in H. destruct (s_N s =? 0); rewrite Z.ltb_irrefl in H;
        destruct (_ <? s_N s) in H; try discriminate; injection H as <-; reflexivity. }
      split; [lia|]. intros (b' & E' & N' & _). congruence.
  - assert (h_num f = s_N s).
    { rewrite Z.ltb_irrefl in H. destruct (s_N s =? 0); rewrite Z.ltb_irrefl in H;
      destruct (_ <? s_N s) in H; try discriminate; injection H as <-; reflexivity. }
    split; [lia|]. intros (b' & E' & _). discriminate.
Qed.
Print Assumptions C101_always_a_length_partial.
Example C101_ex : exists f, HoomdFrame (ex_snap 3 (Some [-3; 1; -2]) 3) = inl f /\ h_len f = inl 2.
Proof. eexists. split; reflexivity. Qed.

(** * C52 *)
Theorem C52_hoomd_lengths {A} (s : snapshot A) f n o :
  HoomdFrame s = inl f -> h_len f = inl n ->
  s_orientation s = Some o -> s_N s <= Z.of_nat (List.length o) -> 0 <= s_N s ->
  exists q xs ys zs os, h_position f = inl q /\ h_x f = inl xs /\ h_y f = inl ys /\ h_z f = inl zs
    /\ h_orientation f = inl os
    /\ Z.of_nat (List.length q) = n /\ Z.of_nat (List.length xs) = n /\ Z.of_nat (List.length ys) = n
    /\ Z.of_nat (List.length zs) = n /\ Z.of_nat (List.length os) = n
    /\ (forall i v, nth_error q i = Some v ->
          nth_error xs i = Some (fst (fst v)) /\ nth_error ys i = Some (snd (fst v))
          /\ nth_error zs i = Some (snd v))
    /\ (* entry i is that of particle i of the snapshot *)
       (forall i, Z.of_nat i < n -> exists p, s_position s = Some p /\ nth_error q i = nth_error p i
          /\ nth_error os i = nth_error o i).
Proof.
  intros H L O HO HN.
  assert (Hn : 0 <= n /\ h_num f = n).
  { unfold h_len in L. destruct (h_num f <? 0) eqn:E; [discriminate|]. injection L as <-. apply Z.ltb_ge in E. lia. }
  destruct Hn as [Hn0 Hn].
  unfold HoomdFrame in H. destruct (get_num_bodies s) as [m|e] eqn:G; simpl in H; [|discriminate].
  injection H as <-. simpl in Hn. subst m.
  unfold get_num_bodies in G. destruct (s_position s) as [p|] eqn:P.
  2:{ destruct (_ <? _) in G; discriminate. }
  cbv zeta in G. match type of G with (if _ <? ?x then _ else _) = _ => remember x as k eqn:Ek in G; clear Ek end. destruct (s_N s <? k) eqn:E1; [discriminate|].
  destruct (Z.of_nat (List.length p) <? k) eqn:E2; [discriminate|]. injection G as G. subst k.
  apply Z.ltb_ge in E1, E2.
  unfold h_position, h_x, h_y, h_z, h_column, h_orientation. simpl. rewrite P, O.
  do 5 eexists. do 5 (split; [reflexivity|]).
  rewrite !map_length, !slice_to_length by lia. do 5 (split; [reflexivity|]). split.
  - intros i v V. rewrite !nth_error_map, V. auto.
  - intros i Hi. exists p. rewrite !slice_to_nth by lia. auto.
Qed.
Print Assumptions C52_hoomd_lengths.

(** The image is not cut to the molecules. *)
Theorem C52_image_refuted :
  exists (s : snapshot Z) f im, HoomdFrame s = inl f /\ h_image f = Some im
    /\ s_N s = 4 /\ h_len f = inl 2 /\ List.length im = 4%nat.
Proof.
  exists (ex_snap 4 (Some [0; 1; 0; 1]) 4). do 2 eexists. split; [reflexivity|].
  split; [reflexivity|]. split; [reflexivity|]. split; reflexivity.
Qed.

Lemma zip3_length {A} (x y z : list A) :
  List.length x = List.length y -> List.length y = List.length z ->
  List.length (zip3 x y z) = List.length x.
Proof.
  revert y z. induction x; destruct y, z; simpl; intros; try discriminate; auto.
Qed.
Lemma zip3_nth {A} (x y z : list A) i v :
  nth_error (zip3 x y z) i = Some v ->
  nth_error x i = Some (fst (fst v)) /\ nth_error y i = Some (snd (fst v)) /\ nth_error z i = Some (snd v).
Proof.
  revert y z i. induction x; destruct y, z, i; simpl; intros H; try discriminate.
  - injection H as <-. auto.
  - apply IHx; auto.
Qed.
Theorem C52_lammps_lengths {A} (zero one : A) (f32 : A -> A) (d : lframe A) x y z :
  lget "x" d = inl (LArr x) -> lget "y" d = inl (LArr y) -> lget "z" d = inl (LArr z) ->
  List.length x = List.length y -> List.length y = List.length z ->
  exists q xs ys zs os, l_position f32 d = inl q /\ l_x f32 d = inl xs /\ l_y f32 d = inl ys
    /\ l_z f32 d = inl zs /\ l_orientation zero one d = inl os /\ l_len d = inl (List.length x)
    /\ List.length q = List.length x /\ List.length xs = List.length x /\ List.length ys = List.length x
    /\ List.length zs = List.length x /\ List.length os = List.length x
    /\ (forall i v, nth_error q i = Some v ->
          nth_error xs i = Some (fst (fst v)) /\ nth_error ys i = Some (snd (fst v))
          /\ nth_error zs i = Some (snd v)).
Proof.
  intros X Y Z L1 L2. unfold l_position, l_x, l_y, l_z, l_column, l_orientation, l_len.
  rewrite X, Y, Z. cbn [ebind larr]. rewrite L1, <- L2, Nat.eqb_refl. cbn [andb].
  do 5 eexists. do 6 (split; [reflexivity|]).
  rewrite zip3_length, !map_length, repeat_length by (rewrite !map_length; congruence).
  do 5 (split; [congruence|]). intros i v. apply zip3_nth.
Qed.
Print Assumptions C52_lammps_lengths.
Example C52_ex :
  let d := [("x", LArr [1; 2]); ("y", LArr [3; 4]); ("z", LArr [5; 6])]%string in
  l_position (fun a => a) d = inl [(1, 3, 5); (2, 4, 6)]
  /\ exists f, HoomdFrame (ex_snap 4 (Some [0; 1; 0; 1]) 4) = inl f /\ h_len f = inl 2
     /\ h_x f = inl [0; 1].
Proof. split; [reflexivity|]. eexists. split; [reflexivity|]. split; reflexivity. Qed.

(** * C53 *)
Lemma box_loop_spec {A} (f32 : A -> A) values : forall index box,
  List.length box = 6%nat ->
  List.length (box_loop f32 index values box) = 6%nat /\
  (forall i, (i < index)%nat -> nth_error (box_loop f32 index values box) i = nth_error box i) /\
  (forall i, (index <= i < 6)%nat ->
     nth_error (box_loop f32 index values box) i =
     match nth_error values (i - index) with Some v => Some (f32 v) | None => nth_error box i end).
Proof.
  induction values as [|v vs IH]; intros index box L; cbn [box_loop].
  - split; auto. split; auto. intros i _. destruct (i - index)%nat; auto.
  - destruct (5 <? index)%nat eqn:E; [apply Nat.ltb_lt in E|apply Nat.ltb_ge in E].
    + split; auto. split; auto. intros; lia.
    + set (box' := firstn index box ++ f32 v :: skipn (S index) box).
      assert (L' : List.length box' = 6%nat).
      { unfold box'. rewrite app_length, firstn_length. cbn [List.length]. rewrite skipn_length. lia. }
      assert (N1 : forall i, (i < index)%nat -> nth_error box' i = nth_error box i).
      { intros i Hi. unfold box'. rewrite nth_error_app1 by (rewrite firstn_length; lia).
        clear - Hi. revert box i Hi. induction index; intros; [lia|]. destruct box, i; simpl; auto. apply IHindex. lia. }
      assert (N2 : nth_error box' index = Some (f32 v)).
      { unfold box'. rewrite nth_error_app2; rewrite firstn_length; [|lia].
        replace (index - Nat.min index (Datatypes.length box))%nat with 0%nat by lia. reflexivity. }
      assert (N3 : forall i, (index < i)%nat -> nth_error box' i = nth_error box i).
      { intros i Hi. unfold box'. rewrite nth_error_app2; rewrite firstn_length; [|lia].
        replace (Nat.min index (Datatypes.length box)) with index by lia.
        destruct (i - index)%nat as [|k] eqn:K; [lia|]. cbn [nth_error].
        transitivity (nth_error box (S index + k)); [|f_equal; lia].
        clear. revert box k. induction index; intros; destruct box; simpl; auto;
          try (destruct k; reflexivity). apply IHindex. }
      destruct (IH (S index) box' L') as (I1 & I2 & I3). split; auto. split.
      * intros i Hi. rewrite I2 by lia. auto.
      * intros i Hi. destruct (Nat.eq_dec i index) as [->|Ne].
        -- rewrite I2 by lia. rewrite Nat.sub_diag. simpl. auto.
        -- rewrite I3 by lia. rewrite N3 by lia. replace (i - index)%nat with (S (i - S index)) by lia. reflexivity.
Qed.
Theorem C53_lammps_box {A} (zero : A) (f32 : A -> A) (d : lframe A) vs :
  lget "box" d = inl (LArr vs) ->
  exists b, l_box zero f32 d = inl b /\ List.length b = 6%nat /\
    (forall i v, (i < 6)%nat -> nth_error vs i = Some v -> nth_error b i = Some (f32 v)) /\
    (forall i, (i < 6)%nat -> nth_error vs i = None -> nth_error b i = Some zero).
Proof.
  intros B. unfold l_box. rewrite B. cbn [ebind larr]. eexists. split; [reflexivity|].
  destruct (box_loop_spec f32 vs 0 (repeat zero 6) (repeat_length _ _)) as (H1 & _ & H3).
  split; auto. split; intros i; intros; rewrite H3 by lia; rewrite Nat.sub_0_r.
  - rewrite H0. auto.
  - rewrite H0. do 6 (destruct i as [|i]; [reflexivity|]). lia.
Qed.
Theorem C53_lammps_orientation {A} (zero one : A) (d : lframe A) x :
  lget "x" d = inl (LArr x) ->
  exists os, l_orientation zero one d = inl os /\ List.length os = List.length x
    /\ (forall o, In o os -> o = (one, zero, zero, zero)) /\ l_dimensions d = 2.
Proof.
  intros X. unfold l_orientation, l_len. rewrite X. cbn [ebind larr]. eexists. split; [reflexivity|].
  rewrite repeat_length. split; auto. split; auto. intros o. apply repeat_spec.
Qed.
Print Assumptions C53_lammps_box.
Print Assumptions C53_lammps_orientation.
Example C53_ex :
  l_box 0 (fun a => a) [("box", LArr [7; 8; 9])]%string = inl [7; 8; 9; 0; 0; 0]
  /\ l_box 0 (fun a => a) [("box", LArr [1; 2; 3; 4; 5; 6; 7])]%string = inl [1; 2; 3; 4; 5; 6].
Proof. split; reflexivity. Qed.

(** * C63 *)
Theorem C63_freud_box {A} (zero : A) (box : list A) (is_2D : bool) :
  (List.length box < 3)%nat /\ create_freud_box zero box is_2D = inr ValueError \/
  exists Lx Ly Lz rest, box = Lx :: Ly :: Lz :: rest /\
    exists xy xz yz,
      (rest = [xy; xz; yz] \/ List.length rest <> 3%nat /\ xy = zero /\ xz = zero /\ yz = zero) /\
      create_freud_box zero box is_2D =
        inl (if is_2D then Box2 Lx Ly xy else Box3 Lx Ly Lz xy xz yz).
Proof.
  destruct box as [|a [|b [|c rest]]]; try (left; simpl; split; [lia|reflexivity]).
  right. exists a, b, c, rest. split; auto.
  destruct rest as [|d [|e [|f [|g rest]]]];
    try (exists zero, zero, zero; split; [right; simpl; repeat split; lia|destruct is_2D; reflexivity]).
  exists d, e, f. split; [auto|destruct is_2D; reflexivity].
Qed.
Theorem C63_frame_boxes {A} (zero : A) (f32 : A -> A) (f : hoomd_frame A) b (d : lframe A) lx ly lz :
  (s_box (h_frame f) = Some b ->
   h_freud_box zero f = inl (if bdim b =? 2 then Box2 (bLx b) (bLy b) (bxy b)
                        else Box3 (bLx b) (bLy b) (bLz b) (bxy b) (bxz b) (byz b))) /\
  (lget "box" d = inl (LArr [lx; ly; lz]) ->
   l_freud_box zero f32 d = inl (Box2 (f32 lx) (f32 ly) zero)).
Proof.
  split; intros H.
  - unfold h_freud_box, h_box, h_dimensions. rewrite H. unfold create_freud_box.
    simpl. destruct (bdim b =? 2); reflexivity.
  - unfold l_freud_box, l_box. rewrite H. reflexivity.
Qed.
Print Assumptions C63_freud_box.
Print Assumptions C63_frame_boxes.
Example C63_ex :
  create_freud_box 0 [10; 11; 12; 1; 2; 3] true = inl (Box2 10 11 1)
  /\ create_freud_box 0 [10; 11; 12; 1; 2; 3] false = inl (Box3 10 11 12 1 2 3)
  /\ create_freud_box 0 [10; 11] false = inr ValueError.
Proof. repeat split; reflexivity. Qed.
