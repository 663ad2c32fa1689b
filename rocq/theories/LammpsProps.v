(** C64-C66, C102, C103: reading LAMMPS trajectories. *)
From Coq Require Import String Ascii ZArith List Bool Lia Permutation.
From Verif Require Import Base DictFacts PyStr PyStrFacts FrameModel LammpsModel LammpsSpec LammpsProofs.
Import ListNotations.
Open Scope string_scope.
Open Scope Z_scope.

(** Contract of Python's [float]: white space after the number is ignored. *)
Definition ignores_line_end {A} (pfloat : string -> option A) : Prop :=
  forall w v, pfloat w = Some v -> pfloat (w ++ NL) = Some v.

Lemma universal_app s t : free (fun c => Ascii.eqb c cr) s -> universal (s ++ t) = s ++ universal t.
Proof.
  induction s as [|c s IH]; simpl; auto. rewrite free_cons. intros [H1 H2]. rewrite H1, IH; auto.
Qed.
Lemma contains_iff a s : contains a s = true <-> exists x y, s = x ++ a ++ y.
Proof.
  split.
  - induction s as [|c s IH]; cbn [contains]; intros H; apply orb_true_iff in H; destruct H as [H|H]; try discriminate.
    + destruct a; [|discriminate]. exists "", "". reflexivity.
    + clear IH. revert H. generalize (String c s). clear. induction a as [|d a IH]; intros s H.
      * exists "", s. reflexivity.
      * destruct s as [|e s]; simpl in H; [discriminate|]. destruct (ascii_dec d e) as [->|]; [|discriminate].
        assert (exists y, s = a ++ y) as (y & ->).
        { clear IH. revert s H. induction a as [|f a IH]; intros s H; [exists s; reflexivity|].
          destruct s as [|g s]; simpl in H; [discriminate|]. destruct (ascii_dec f g) as [->|]; [|discriminate].
          destruct (IH s H) as (y & ->). exists y. reflexivity. }
        exists "", y. reflexivity.
    + destruct (IH H) as (x & y & ->). exists (String c x), y. reflexivity.
  - intros (x & y & ->). induction x as [|c x IH]; cbn [append].
    + apply contains_app.
    + cbn [contains]. rewrite IH. apply orb_true_r.
Qed.

(** * C64 *)
Theorem C64_parse_back {A} (pfloat : string -> option A) sub f32 junk ts :
  ignores_line_end pfloat -> Forall (well_formed pfloat) ts ->
  exists ds, parse_lammpstrj pfloat sub f32 junk (render_all ts) = {| items := ds; ending := Ok tt |}
    /\ Forall2 (describes pfloat sub f32) ts ds.
Proof.
  intros S F. destruct (parse_lines_frames pfloat sub f32 junk S ts [] F) as (ds & D1 & D2).
  exists ds. split; auto. unfold parse_lammpstrj.
  rewrite universal_id by (apply render_all_cr with pfloat; auto).
  rewrite <- (app_nil_s (render_all ts)), (render_all_lines pfloat) by auto. cbn [lines_of].
  unfold parse_lines in D2. rewrite D2. cbn. rewrite app_nil_r. reflexivity.
Qed.
(** Files with DOS line ends mean the same. *)
Theorem C64_dos_line_ends {A} (pfloat : string -> option A) sub f32 junk ts :
  Forall (well_formed pfloat) ts ->
  parse_lammpstrj pfloat sub f32 junk (crlf (render_all ts)) =
  parse_lammpstrj pfloat sub f32 junk (render_all ts).
Proof.
  intros F. unfold parse_lammpstrj. pose proof (render_all_cr pfloat ts F).
  rewrite universal_crlf, universal_id by auto. reflexivity.
Qed.
(** No entry of an array is left over: entry i is that of the atom with id i+1. *)
Lemma atom_id_unique t a k k' : NoDup (t_heads t) -> atom_id t a k -> atom_id t a k' -> k = k'.
Proof.
  intros N (c1 & Q1 & Q2) (c2 & Q3 & Q4). unfold column in *.
  assert (c1 = c2). { eapply NoDup_nth_error; eauto. { apply nth_error_Some. congruence. } congruence. }
  subst. rewrite Q2 in Q4. injection Q4 as Q4. pose proof (py_int_dec k) as Z1.
  rewrite Q4, py_int_dec in Z1. congruence.
Qed.
Lemma Forall2_len {X Y} (R : X -> Y -> Prop) l m : Forall2 R l m -> List.length l = List.length m.
Proof. induction 1; simpl; congruence. Qed.
Lemma choice_list {X Y} (R : X -> Y -> Prop) (l : list X) :
  (forall x, In x l -> exists y, R x y) -> exists m, Forall2 R l m.
Proof.
  induction l as [|x l IH]; intros H; [exists []; constructor|].
  destruct (H x (or_introl eq_refl)) as (y & Y1). destruct IH as (m & M); [intros z I; apply H; right; auto|].
  exists (y :: m). constructor; auto.
Qed.
Lemma Forall2_nth {X Y} (R : X -> Y -> Prop) l m : Forall2 R l m ->
  forall i y, nth_error m i = Some y -> exists x, nth_error l i = Some x /\ R x y.
Proof.
  induction 1; intros [|i] y' H1; try discriminate; simpl in *.
  - injection H1 as <-. eauto.
  - auto.
Qed.
Theorem C64_every_entry {A} (pfloat : string -> option A) t i :
  well_formed pfloat t -> (i < List.length (t_atoms t))%nat ->
  exists a, In a (t_atoms t) /\ atom_id t a (Z.of_nat i + 1).
Proof.
  intros (_ & _ & _ & _ & _ & ND & _ & _ & _ & HA & HU) Hi.
  destruct (choice_list (fun a k => atom_id t a k /\ 1 <= k <= num_atoms t) (t_atoms t)) as (ks & K).
  { intros a I. destruct (HA a I) as (_ & _ & _ & k & ?). eauto. }
  assert (L : List.length ks = List.length (t_atoms t)) by (symmetry; eapply Forall2_len; eauto).
  assert (N : NoDup ks).
  { apply NoDup_nth_error. intros x y Hx E. destruct (nth_error ks x) as [k|] eqn:Ex.
    2:{ apply nth_error_None in Ex. lia. }
    destruct (Forall2_nth _ _ _ K _ _ Ex) as (a & A1 & A2 & _).
    destruct (Forall2_nth _ _ _ K _ _ (eq_sym E)) as (b & B1 & B2 & _).
    apply (HU x y a b k); auto. }
  set (full := map (fun j => Z.of_nat j + 1) (seq 0 (List.length (t_atoms t)))).
  assert (I : incl full ks).
  { apply NoDup_length_incl; auto.
    - unfold full. rewrite map_length, seq_length. lia.
    - intros k Ik. apply In_nth_error in Ik. destruct Ik as (x & Ex).
      destruct (Forall2_nth _ _ _ K _ _ Ex) as (a & _ & _ & R). unfold full. apply in_map_iff.
      exists (Z.to_nat (k - 1)). unfold num_atoms in R. split; [lia|]. apply in_seq. lia. }
  assert (J : In (Z.of_nat i + 1) ks).
  { apply I. unfold full. apply in_map_iff. exists i. split; auto. apply in_seq. lia. }
  apply In_nth_error in J. destruct J as (x & Ex).
  destruct (Forall2_nth _ _ _ K _ _ Ex) as (a & A1 & A2 & _). exists a. split; auto. eapply nth_error_In; eauto.
Qed.
Lemma list_ext {A} (l l' : list A) :
  List.length l = List.length l' -> (forall i, (i < List.length l)%nat -> nth_error l i = nth_error l' i) -> l = l'.
Proof.
  revert l'. induction l as [|x l IH]; intros [|y l'] L H; try discriminate; auto.
  pose proof (H 0%nat ltac:(simpl; lia)) as H0. injection H0 as ->. f_equal.
  apply IH; [simpl in L; lia|]. intros i Hi. apply (H (S i)). simpl; lia.
Qed.
(** Reordering the atom lines changes no array. *)
Theorem C64_order_irrelevant {A} (pfloat : string -> option A) sub f32 t t' d d' c h :
  well_formed pfloat t -> well_formed pfloat t' -> t_heads t' = t_heads t ->
  Permutation (t_atoms t) (t_atoms t') -> column t c h ->
  describes pfloat sub f32 t d -> describes pfloat sub f32 t' d' ->
  dget String.eqb h d = dget String.eqb h d'.
Proof.
  intros W W' EH P C (_ & _ & D & _) (_ & _ & D' & _).
  destruct (D c h C) as (arr & A1 & A2 & A3).
  destruct (D' c h) as (arr' & B1 & B2 & B3). { unfold column in *. congruence. }
  rewrite A1, B1. do 2 f_equal. pose proof (Permutation_length P) as PL.
  apply list_ext; [congruence|]. intros i Hi. rewrite A2 in Hi.
  destruct (C64_every_entry pfloat t i W Hi) as (a & I & K).
  destruct (A3 a _ I K) as (w & v & X1 & X2 & X3).
  assert (K' : atom_id t' a (Z.of_nat i + 1)).
  { destruct K as (cc & K1 & K2). exists cc. split; auto. unfold column in *. congruence. }
  destruct (B3 a _ (Permutation_in _ P I) K') as (w' & v' & Y1 & Y2 & Y3).
  replace (Z.to_nat (Z.of_nat i + 1 - 1)) with i in * by lia. congruence.
Qed.
Print Assumptions C64_parse_back.
Print Assumptions C64_dos_line_ends.
Print Assumptions C64_every_entry.
Print Assumptions C64_order_irrelevant.

(** A [float] that only reads integers. *)
Definition ex_float (s : string) : option Z := match py_int s with inl n => Some n | _ => None end.
Definition ex_bound lo hi more := {| b_lo := lo; b_hi := hi; b_more := more |}.
Definition ex_t (step : Z) (atoms : list (list string)) (blank : bool) (more : string) : tframe :=
  {| t_step := step; t_flags := " pp pp pp"; t_x := ex_bound "-5" "5" more; t_y := ex_bound "0" "20" more;
     t_z := ex_bound "0" "1" more; t_heads := ["id"; "x"; "y"; "z"]; t_atoms := atoms; t_blank := blank |}.
Definition ex_atoms := [["2"; "10"; "11"; "12"]; ["1"; "7"; "8"; "19"]].
Definition ex_parse := parse_lammpstrj ex_float Z.sub (fun x => x) (fun _ => 77).
Example C64_ex1 :
  ex_parse (render_all [ex_t 0 ex_atoms true ""; ex_t 1000 ex_atoms false ""]) =
  {| items := [ [("id", LArr [1; 2]); ("x", LArr [7; 10]); ("y", LArr [8; 11]); ("z", LArr [19; 12]);
                 ("box", LArr [10; 20; 1]); ("timestep", LInt 0)];
                [("id", LArr [1; 2]); ("x", LArr [7; 10]); ("y", LArr [8; 11]); ("z", LArr [19; 12]);
                 ("box", LArr [10; 20; 1]); ("timestep", LInt 1000)] ]; ending := Ok tt |}.
Proof. vm_compute. reflexivity. Qed.
Lemma word_dec s : (match s with "" => false | _ => forallb (fun c => negb (ws c)) (chars s) end) = true -> word s.
Proof.
  destruct s as [|c s]; [discriminate|]. intros H. split; [discriminate|]. intros d I.
  rewrite forallb_forall in H. apply H in I. destruct (ws d); [discriminate|reflexivity].
Qed.
Lemma no_end_dec s :
  forallb (fun c => negb (Ascii.eqb c nl || Ascii.eqb c cr)) (chars s) = true -> no_line_end s.
Proof. intros H c I. rewrite forallb_forall in H. apply H in I. apply negb_true_iff in I. exact I. Qed.
(** The hypotheses of C64 are met by the frames of the example. *)
Example C64_ex2 step blank : well_formed ex_float (ex_t step ex_atoms blank " 3").
Proof.
  assert (B : forall lo hi, ok_bound ex_float (ex_bound lo hi " 3") <->
     word lo /\ word hi /\ ex_float lo <> None /\ ex_float hi <> None).
  { intros lo hi. unfold ok_bound. simpl. split; [intuition|]. intros (H1 & H2 & H3 & H4).
    refine (conj H1 (conj H2 (conj _ (conj _ (conj H3 H4))))).
    - apply no_end_dec. reflexivity.
    - right. eexists. reflexivity. }
  unfold well_formed. simpl.
  refine (conj _ (conj _ (conj _ (conj _ (conj _ (conj _ (conj _ (conj _ (conj _ (conj _ _)))))))))).
  - apply no_end_dec. reflexivity.
  - apply B. split; [apply word_dec; reflexivity|]. split; [apply word_dec; reflexivity|]. split; discriminate.
  - apply B. split; [apply word_dec; reflexivity|]. split; [apply word_dec; reflexivity|]. split; discriminate.
  - apply B. split; [apply word_dec; reflexivity|]. split; [apply word_dec; reflexivity|]. split; discriminate.
  - repeat (constructor; [apply word_dec; reflexivity|]). constructor.
  - repeat (constructor; [simpl; intuition discriminate|]). constructor.
  - auto.
  - intuition discriminate.
  - intuition discriminate.
  - intros a [<-|[<-|[]]].
    + split; [reflexivity|]. split; [repeat (constructor; [apply word_dec; reflexivity|]); constructor|].
      split; [intros w [<-|[<-|[<-|[<-|[]]]]]; discriminate|].
      exists 2. split; [|unfold num_atoms; simpl; lia]. exists 0%nat. split; reflexivity.
    + split; [reflexivity|]. split; [repeat (constructor; [apply word_dec; reflexivity|]); constructor|].
      split; [intros w [<-|[<-|[<-|[<-|[]]]]]; discriminate|].
      exists 1. split; [|unfold num_atoms; simpl; lia]. exists 0%nat. split; reflexivity.
  - assert (U : forall a k, nth_error a 0 = Some (dec k) <-> atom_id (ex_t step ex_atoms blank " 3") a k).
    { intros a k. split; [intros H; exists 0%nat; split; auto; reflexivity|].
      intros (c & C & K). destruct c as [|[|[|[|c]]]]; try discriminate; auto.
      unfold column in C. simpl in C. destruct c; discriminate. }
    intros i j a b k A1 B1 A2 B2. apply U in A2, B2.
    destruct i as [|[|i]], j as [|[|j]]; auto; try (destruct i; discriminate); try (destruct j; discriminate);
      injection A1 as <-; injection B1 as <-; simpl in A2, B2; congruence.
Qed.
Example C64_ex3 : ignores_line_end ex_float.
Proof.
  intros w v H. unfold ex_float in *. destruct (py_int w) as [n|] eqn:E; [|discriminate].
  injection H as ->. unfold py_int in *.
  assert (S : strip (w ++ NL) = strip w).
  { assert (R : forall s, rstrip (s ++ NL) = rstrip s).
    { induction s as [|c s IH]; [reflexivity|]. cbn [append]. rewrite !rstrip_cons, IH. reflexivity. }
    unfold strip. assert (L : lstrip (w ++ NL) = lstrip w ++ NL \/ lstrip (w ++ NL) = "" /\ lstrip w = "").
    { clear. induction w as [|c w IH]; [right; split; reflexivity|]. cbn [append lstrip].
      destruct (ws c); [exact IH|left; reflexivity]. }
    destruct L as [->|[-> ->]]; [apply R|reflexivity]. }
  rewrite S, E. reflexivity.
Qed.

(** * C65 *)
(** The line [bad] is not the header that is due after [k] lines of a frame. *)
Inductive wrong_header : nat -> string -> Prop :=
| wrong_timestep bad : bad <> "ITEM: TIMESTEP" -> wrong_header 0 bad
| wrong_number bad : bad <> "ITEM: NUMBER OF ATOMS" -> wrong_header 2 bad
| wrong_bounds bad : (~ exists x y, line bad = x ++ "ITEM: BOX BOUNDS" ++ y) -> wrong_header 4 bad
| wrong_atoms bad : (~ exists x y, line bad = x ++ "ITEM: ATOMS" ++ y) -> wrong_header 8 bad.

Lemma line_inj a b : a ++ NL = b ++ NL -> a = b.
Proof.
  revert b. induction a as [|c a IH]; intros [|d b] H; auto.
  - injection H as _ H. destruct b; discriminate.
  - injection H as _ H. destruct a; discriminate.
  - injection H as -> H. f_equal. auto.
Qed.
Theorem C65_wrong_header {A} (pfloat : string -> option A) sub f32 junk ts t k bad more :
  ignores_line_end pfloat -> Forall (well_formed pfloat) ts -> well_formed pfloat t ->
  no_line_end bad -> wrong_header k bad ->
  exists ds, Forall2 (describes pfloat sub f32) ts ds /\
    parse_lammpstrj pfloat sub f32 junk
      (render_all ts ++ String.concat "" (map line (firstn k (header_lines t))) ++ line bad ++ more)
    = {| items := ds; ending := Raise RuntimeError |}.
Proof.
  intros S F W NB WH.
  pose proof (well_formed_lines pfloat t W) as WL. apply Forall_app in WL. destruct WL as [WL _].
  assert (WK : Forall no_line_end (firstn k (header_lines t))).
  { rewrite <- (firstn_skipn k (header_lines t)) in WL. apply Forall_app in WL. tauto. }
  set (mid := String.concat "" (map line (firstn k (header_lines t)))).
  assert (CM : free (fun c => Ascii.eqb c cr) mid).
  { apply free_concat. apply Forall_forall. intros l. rewrite in_map_iff. intros (l0 & <- & I0).
    rewrite Forall_forall in WK. unfold line. apply free_app. split; [apply no_end_cr, WK, I0|].
    intros c [<-|[]]. reflexivity. }
  assert (CB : free (fun c => Ascii.eqb c cr) (line bad)).
  { unfold line. apply free_app. split; [apply no_end_cr; auto|]. intros c [<-|[]]. reflexivity. }
  set (ls := (map line (firstn k (header_lines t)) ++ line bad :: lines_of (universal more))%list).
  destruct (parse_lines_frames pfloat sub f32 junk S ts ls F) as (ds & D1 & D2).
  exists ds. split; auto. unfold parse_lammpstrj.
  rewrite universal_app by (apply render_all_cr with pfloat; auto).
  rewrite universal_app by auto. rewrite universal_app by auto.
  rewrite (render_all_lines pfloat) by auto. unfold mid.
  rewrite lines_of_concat.
  2:{ eapply Forall_impl; [|exact WK]. intros s. apply no_end_nl. }
  assert (LB : lines_of (line bad ++ universal more) = line bad :: lines_of (universal more)).
  { unfold line. rewrite app_assoc_s. apply lines_of_line, no_end_nl. auto. }
  rewrite LB. fold ls. unfold parse_lines in D2 at 1. rewrite D2.
  enough (E : parse_lines pfloat sub f32 junk ls = ended (Raise RuntimeError)) by (rewrite E; cbn; rewrite app_nil_r; reflexivity).
  unfold parse_lines. remember (List.length ls) as n. cbn [parse_loop].
  assert (NE : forall s, line s <> "") by (intros s; unfold line; destruct s; discriminate).
  unfold ls in *. clear D2 ls Heqn.
  destruct WH as [bad B|bad B|bad B|bad B]; cbn [firstn header_lines map app readline].
  - destruct (line bad) as [|c l] eqn:E; [destruct (NE _ E)|]. rewrite <- E. unfold parse_frame.
    destruct (String.eqb_spec (line bad) ("ITEM: TIMESTEP" ++ NL)) as [X|X]; [|reflexivity].
    apply line_inj in X. congruence.
  - destruct (line "ITEM: TIMESTEP") as [|c l] eqn:E; [destruct (NE _ E)|]. rewrite <- E. unfold parse_frame.
    unfold line at 1. rewrite String.eqb_refl. cbn [negb readline].
    unfold line at 1. rewrite (strip_word (dec (t_step t)) NL (dec_word _) eq_refl), py_int_dec. cbn [ebind readline].
    destruct (String.eqb_spec (line bad) ("ITEM: NUMBER OF ATOMS" ++ NL)) as [X|X]; [|reflexivity].
    apply line_inj in X. congruence.
  - destruct (line "ITEM: TIMESTEP") as [|c l] eqn:E; [destruct (NE _ E)|]. rewrite <- E. unfold parse_frame.
    unfold line at 1. rewrite String.eqb_refl. cbn [negb readline].
    unfold line at 1. rewrite (strip_word (dec (t_step t)) NL (dec_word _) eq_refl), py_int_dec. cbn [ebind readline].
    unfold line at 1. rewrite String.eqb_refl. cbn [negb readline].
    unfold line at 1. rewrite (strip_word (dec (num_atoms t)) NL (dec_word _) eq_refl), py_int_dec. cbn [ebind readline].
    destruct (contains "ITEM: BOX BOUNDS" (line bad)) eqn:C; [|reflexivity].
    apply contains_iff in C. contradiction.
  - destruct (line "ITEM: TIMESTEP") as [|c l] eqn:E; [destruct (NE _ E)|]. rewrite <- E. unfold parse_frame.
    unfold line at 1. rewrite String.eqb_refl. cbn [negb readline].
    unfold line at 1. rewrite (strip_word (dec (t_step t)) NL (dec_word _) eq_refl), py_int_dec. cbn [ebind readline].
    unfold line at 1. rewrite String.eqb_refl. cbn [negb readline].
    unfold line at 1. rewrite (strip_word (dec (num_atoms t)) NL (dec_word _) eq_refl), py_int_dec. cbn [ebind readline].
    unfold line at 1. rewrite app_assoc_s, contains_app. cbn [negb readline].
    destruct W as (_ & Bx & By & Bz & _).
    destruct (bounds_ok pfloat sub _ Bx) as (lx & Ex & _). destruct (bounds_ok pfloat sub _ By) as (ly & Ey & _).
    destruct (bounds_ok pfloat sub _ Bz) as (lz & Ez & _). rewrite Ex, Ey, Ez. cbn [ebind readline].
    destruct (contains "ITEM: ATOMS" (line bad)) eqn:C; [|reflexivity].
    apply contains_iff in C. contradiction.
Qed.
Print Assumptions C65_wrong_header.
Example C65_ex :
  ex_parse (render_all [ex_t 0 [["1"; "7"; "8"; "9"]] true ""] ++ line "ITEM: TIMESTEP" ++ line "5" ++ line "ITEM: UNITS" ++ "lj") =
  {| items := [[("id", LArr [1]); ("x", LArr [7]); ("y", LArr [8]); ("z", LArr [9]);
                 ("box", LArr [10; 20; 1]); ("timestep", LInt 0)]]; ending := Raise RuntimeError |}
  /\ wrong_header 2 "ITEM: UNITS".
Proof. split; [vm_compute; reflexivity|constructor; discriminate]. Qed.

(** * C66 *)
Lemma parse_timestep {A} (pfloat : string -> option A) sub f32 junk fuel : forall ls d,
  In d (items (parse_loop pfloat sub f32 junk fuel ls)) -> exists t, dget String.eqb "timestep" d = Some (LInt t).
Proof.
  induction fuel as [|fuel IH]; intros ls d; cbn [parse_loop]; [intros []|].
  destruct (readline ls) as [l ls']. destruct l as [|c l]; [intros []|].
  destruct (parse_frame pfloat sub f32 junk (String c l) ls') as [[d0 ls'']|e] eqn:E.
  - cbn [cons_item items]. intros [<-|I]; [|eapply IH; eauto]. clear IH.
    unfold parse_frame in E. destruct (negb _) in E; [discriminate|].
    destruct (readline ls') as [a1 b1]. destruct (py_int (strip a1)) as [ts|] in E; cbn [ebind] in E; [|discriminate].
    destruct (readline b1) as [a2 b2]. destruct (negb _) in E; [discriminate|].
    destruct (readline b2) as [a3 b3]. destruct (py_int (strip a3)) as [na|] in E; cbn [ebind] in E; [|discriminate].
    destruct (readline b3) as [a4 b4]. destruct (negb _) in E; [discriminate|].
    destruct (readline b4) as [a5 b5]. destruct (readline b5) as [a6 b6]. destruct (readline b6) as [a7 b7].
    destruct (bounds pfloat sub a5), (bounds pfloat sub a6), (bounds pfloat sub a7); cbn [ebind] in E; try discriminate.
    destruct (readline b7) as [h8 r8]. destruct (negb _) in E; [discriminate|].
    destruct (index_of _ _ _) in E; cbn [ebind] in E; [|discriminate]. destruct (na <? 0); [discriminate|].
    destruct (atoms _ _ _ _ _ _ _) as [[d1 b9]|] in E; cbn [ebind] in E; [|discriminate].
    injection E as <- _. exists ts. apply dget_dset_same, String.eqb_eq.
  - destruct e; intros [].
Qed.
Theorem C66_steps_max {A} (pfloat : string -> option A) sub f32 junk text m :
  let s := parse_lammpstrj pfloat sub f32 junk text in
  let r := read_lammps_trajectory pfloat sub f32 junk text (Some m) in
  exists k, items r = map (fun f => ([0%nat], f)) (firstn k (items s))
    /\ (forall f, In f (firstn k (items s)) ->
          exists t, dget String.eqb "timestep" f = Some (LInt t) /\ t <= m)
    /\ (* either everything was delivered, or the next frame is beyond steps_max *)
       (k = List.length (items s) /\ ending r = ending s \/
        exists f t, nth_error (items s) k = Some f /\ dget String.eqb "timestep" f = Some (LInt t)
          /\ m < t /\ ending r = Ok tt).
Proof.
  cbv zeta. unfold read_lammps_trajectory.
  set (s := parse_lammpstrj pfloat sub f32 junk text).
  assert (T : forall d, In d (items s) -> exists t, dget String.eqb "timestep" d = Some (LInt t)).
  { intros d. apply parse_timestep. }
  revert T. generalize (ending s). induction (items s) as [|f fs IH]; intros e T.
  - exists 0%nat. split; [reflexivity|]. split; [intros f []|]. left. auto.
  - destruct (T f (or_introl eq_refl)) as (t & Ht). cbn [take_steps]. unfold l_timestep, lget. rewrite Ht.
    destruct (m <? t) eqn:E; [apply Z.ltb_lt in E|apply Z.ltb_ge in E].
    + exists 0%nat. split; [reflexivity|]. split; [intros x []|]. right. exists f, t. auto.
    + destruct (IH e) as (k & K1 & K2 & K3); [intros d I; apply T; right; auto|].
      exists (S k). cbn [cons_item items ending firstn map]. split; [f_equal; exact K1|]. split.
      * intros x [<-|I]; eauto.
      * destruct K3 as [[-> K3]|(x & t' & X1 & X2)]; [left; auto|right; exists x, t'; auto].
Qed.
Theorem C66_no_limit {A} (pfloat : string -> option A) sub f32 junk text :
  let s := parse_lammpstrj pfloat sub f32 junk text in
  let r := read_lammps_trajectory pfloat sub f32 junk text None in
  items r = map (fun f => ([0%nat], f)) (items s) /\ ending r = ending s /\ ending s <> OutOfFuel.
Proof.
  cbv zeta. assert (K : forall fs e, items (take_steps (A:=A) None fs e) = map (fun f => ([0%nat], f)) fs
                        /\ ending (take_steps (A:=A) None fs e) = e).
  { induction fs as [|f fs IH]; intros e; [split; reflexivity|]. cbn. destruct (IH e) as [-> ->]. auto. }
  split; [|split]; try apply K.
  - unfold parse_lammpstrj. apply parse_loop_enough. lia.
Qed.
Print Assumptions C66_steps_max.
Print Assumptions C66_no_limit.
Example C66_ex :
  items (read_lammps_trajectory ex_float Z.sub (fun x => x) (fun _ => 77)
    (render_all (map (fun s => ex_t s [] true "") [0; 10; 20; 5])) (Some 10)) =
  map (fun s => ([0%nat], [("id", LArr []); ("x", LArr []); ("y", LArr []); ("z", LArr []);
                 ("box", LArr [10; 20; 1]); ("timestep", LInt s)])) [0; 10].
Proof. vm_compute. reflexivity. Qed.

(** * C102: a file that is cut off (still being written) *)
(** Cut inside the last line, a wrong number is delivered without any error. *)
Theorem C102_cut_refuted :
  exists t p q d, well_formed ex_float t /\ p ++ q = render t /\ q <> ""
    /\ ex_parse p = {| items := [d]; ending := Ok tt |}
    /\ ~ describes ex_float Z.sub (fun x => x) t d.
Proof.
  set (t := ex_t 0 ex_atoms false " 3").
  exists t, (String.substring 0 (String.length (render t) - 2) (render t)), ("9" ++ NL).
  eexists. split; [apply C64_ex2|]. split; [vm_compute; reflexivity|]. split; [discriminate|].
  split; [vm_compute; reflexivity|]. intros (_ & _ & D & _).
  destruct (D 3%nat "z" eq_refl) as (arr & G & _ & H). simpl in G. injection G as <-.
  destruct (H ["1"; "7"; "8"; "19"] 1) as (w & v & H1 & H2 & H3).
  - right. left. reflexivity.
  - exists 0%nat. split; reflexivity.
  - injection H1 as <-. injection H2 as <-. discriminate H3.
Qed.
(** Cut at the end of a line, all complete frames and no other are delivered, and the
    generator ends in an exception. *)
Theorem C102_cut_partial {A} (pfloat : string -> option A) sub f32 junk ts t p q :
  ignores_line_end pfloat -> Forall (well_formed pfloat) ts -> well_formed pfloat t ->
  line p ++ q = render t -> q <> "" ->
  exists ds e, Forall2 (describes pfloat sub f32) ts ds /\ parse_lammpstrj pfloat sub f32 junk (render_all ts ++ line p) = {| items := ds; ending := Raise e |}.
Proof.
  intros S F W E Q.
  assert (CR : free (fun c => Ascii.eqb c cr) (line p)).
  { assert (H : free (fun c => Ascii.eqb c cr) (render_all [t])) by (apply render_all_cr with pfloat; auto).
    unfold render_all in H. cbn [map] in H. rewrite concat_cons in H. cbn [String.concat] in H.
    rewrite app_nil_s, <- E in H. apply free_app in H. tauto. }
  assert (LL : frame_lines t = (lines_of (line p) ++ lines_of q)%list).
  { rewrite <- (app_nil_r (frame_lines t)). change (@nil string) with (lines_of "").
    rewrite <- (render_lines pfloat) by auto. rewrite app_nil_s, <- E. unfold line. apply lines_of_app. }
  set (ls := lines_of (line p)) in *.
  assert (NQ : lines_of q <> []).
  { destruct q as [|c q]; [congruence|]. cbn [lines_of]. destruct (Ascii.eqb c nl); [discriminate|].
    destruct (lines_of q); discriminate. }
  destruct (parse_lines_frames pfloat sub f32 junk S ts ls F) as (ds & D1 & D2).
  assert (K : exists e, parse_lines pfloat sub f32 junk ls = ended (Raise e)).
  { unfold parse_lines. remember (List.length ls) as n eqn:En. cbn [parse_loop].
    destruct ls as [|l ls'] eqn:El.
    { exfalso. revert El. unfold ls, line. clear. destruct p as [|c p]; simpl; [discriminate|].
      destruct (Ascii.eqb c nl); [discriminate|]. destruct (lines_of (p ++ NL)); discriminate. }
    cbn [readline]. unfold frame_lines, header_lines in LL. cbn [map app] in LL. injection LL as L0 LL.
    destruct l as [|c l].
    { exfalso. unfold line in L0. destruct p; discriminate. }
    destruct (parse_frame pfloat sub f32 junk (String c l) ls') as [[d rest]|e] eqn:P.
    - exfalso. apply parse_frame_consumes in P. destruct P as (used & nn & cnt & U1 & U2 & U3 & U4).
      rewrite U1, <- app_assoc in LL. assert (LN : nth_error (ls' ++ lines_of q) 2 = Some nn).
      { rewrite nth_error_app1; auto. apply nth_error_Some. congruence. }
      rewrite U1, <- app_assoc, <- LL in LN. cbn [nth_error] in LN. injection LN as <-.
      unfold line in U3. rewrite (strip_word (dec (num_atoms t)) NL (dec_word _) eq_refl), py_int_dec in U3.
      injection U3 as <-. apply (f_equal (@List.length _)) in LL.
      cbn [List.length] in LL. rewrite map_length, !app_length, U4 in LL. unfold atom_lines in LL.
      rewrite map_length in LL. unfold num_atoms in LL. rewrite Nat2Z.id in LL.
      destruct (lines_of q); [congruence|]. cbn [List.length] in LL. lia.
    - destruct e; eexists; reflexivity. }
  destruct K as (e & K). exists ds, e. split; auto. unfold parse_lammpstrj.
  rewrite universal_app by (apply render_all_cr with pfloat; auto).
  rewrite (universal_id (line p)) by auto. rewrite (render_all_lines pfloat) by auto. fold ls.
  unfold parse_lines in D2 at 1. rewrite D2, K. cbn. rewrite app_nil_r. reflexivity.
Qed.
Print Assumptions C102_cut_partial.
Example C102_ex :
  let t := ex_t 0 ex_atoms false "" in
  let p := String.concat "" (map line (firstn 10 (header_lines t ++ atom_lines t))) in
  ending (ex_parse p) = Raise ValueError /\ items (ex_parse p) = []
  /\ p ++ line "1 7 8 19" = render t.
Proof. vm_compute. auto. Qed.

(** * C103: cells with tilt *)
(** Expected: the third number on the line of the x bounds is the tilt xy of the box that the
    analysis uses.  The code drops it. *)
Theorem C103_tilt_refuted :
  exists t w xy d lx ly, well_formed ex_float t /\ b_more (t_x t) = " " ++ w /\ ex_float w = Some xy
    /\ ex_parse (render t) = {| items := [d]; ending := Ok tt |}
    /\ l_freud_box 0 (fun x => x) d = inl (Box2 lx ly 0) /\ xy <> 0.
Proof.
  exists (ex_t 0 ex_atoms true " 3"), "3", 3. do 3 eexists.
  split; [apply C64_ex2|]. split; [reflexivity|]. split; [reflexivity|].
  split; [vm_compute; reflexivity|]. split; [reflexivity|discriminate].
Qed.
(** What is used instead, whatever follows the bounds: the differences of the bounds in x
    and y and no tilt. *)
Theorem C103_tilt_partial {A} (pfloat : string -> option A) zero sub f32 t d :
  describes pfloat sub f32 t d ->
  exists lx ly, width pfloat sub (t_x t) lx /\ width pfloat sub (t_y t) ly
    /\ l_freud_box zero f32 d = inl (Box2 (f32 lx) (f32 ly) zero).
Proof.
  intros (_ & (lx & ly & lz & B & X & Y & _) & _). exists lx, ly. split; auto. split; auto.
  unfold l_freud_box, l_box, lget. rewrite B. reflexivity.
Qed.
Print Assumptions C103_tilt_partial.
Example C103_ex : exists d, describes ex_float Z.sub (fun x => x) (ex_t 7 ex_atoms true " 3") d.
Proof.
  destruct (C64_parse_back ex_float Z.sub (fun x => x) (fun _ => 0) [ex_t 7 ex_atoms true " 3"] C64_ex3) as (ds & _ & D).
  - constructor; [apply C64_ex2|constructor].
  - inversion D; subst. eauto.
Qed.
