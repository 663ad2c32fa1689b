(** C156, C157, C158: open_trajectory for every kind of file. *)
From Coq Require Import String Ascii ZArith List Bool Lia Arith.
From Verif Require Import Base DictFacts PyStr PyStrFacts FrameModel ParamsModel FilenameProofs ProcessPathModel
  OpenModel OpenSpec.
From Verif Require GsdModel GsdSpec GsdProofs GsdProps LammpsModel LammpsSpec LammpsProofs LammpsProps.
Import ListNotations.
Open Scope string_scope.
Open Scope Z_scope.

(** ** The suffix of a name *)
Lemma substring_after s t : String.substring (String.length s) (String.length t) (s ++ t) = t.
Proof.
  induction s as [|c s IH]; cbn [append String.length String.substring]; [|exact IH].
  rewrite <- (app_nil_s t) at 2. apply substring_app.
Qed.
Lemma suffix_of_name p n : names_file p n -> path_name p = n.
Proof. intros (N & N1 & N2 & F). apply path_name_names; auto. Qed.
Lemma suffix_extension p e : with_extension p e -> path_suffix p = String "." e.
Proof.
  intros (n & s & N & -> & S1 & E1 & F). unfold path_suffix. rewrite (suffix_of_name _ _ N).
  rewrite rfind_dot_ext by auto. rewrite length_app_s. cbn [plus String.length].
  destruct s as [|c s]; [congruence|]. destruct e as [|d e]; [congruence|].
  destruct (0 <? _)%nat eqn:Q1; [|apply Nat.ltb_ge in Q1; cbn in Q1; lia].
  destruct (S _ <? _)%nat eqn:Q2; [|apply Nat.ltb_ge in Q2; cbn in Q2; lia]. cbn [andb].
  replace (String.length (String c s) + S (String.length (String d e)) - String.length (String c s))%nat
    with (String.length (String "." (String d e))) by (cbn [String.length]; lia).
  apply substring_after.
Qed.
Lemma extension_suffix p n e : names_file p n -> path_suffix p = String "." e -> with_extension p e.
Proof.
  intros N. unfold path_suffix. rewrite (suffix_of_name _ _ N).
  pose proof (rfind_dot_spec n 0) as R. destruct (rfind_dot 0 n) as [j|]; [|discriminate].
  destruct R as (a & x & -> & FE & ->). cbn [plus]. rewrite length_app_s. cbn [String.length].
  destruct (0 <? String.length a)%nat eqn:Q1; [|discriminate].
  destruct (S (String.length a) <? _)%nat eqn:Q2; [|discriminate]. cbn [andb].
  apply Nat.ltb_lt in Q1, Q2.
  replace (String.length a + S (String.length x) - String.length a)%nat
    with (String.length (String "." x)) by (cbn [String.length]; lia).
  rewrite substring_after. intros E. injection E as ->.
  exists (a ++ String "." e), a. split; auto. split; auto.
  split; [intros ->; cbn in Q1; lia|]. split; auto. intros ->. cbn in Q2. lia.
Qed.

Section Any.
  Context {P A : Type}.
  Variable pfloat : string -> option A.
  Variable sub : A -> A -> A.
  Variable f32 : A -> A.
  Variable junk : nat -> A.
  Notation open := (open_trajectory (P:=P) pfloat sub f32 junk).

  Lemma open_gsd_name disk p f t pb k :
    with_extension p "gsd" -> disk p = Some f -> as_gsd f = Some t ->
    open disk p pb k = {| o_frames := map OfGsd (GsdModel.items (GsdModel.open_gsd pb k t));
                          o_end := GsdModel.ending (GsdModel.open_gsd pb k t) |}.
  Proof.
    intros X D G. unfold open_trajectory. rewrite (suffix_extension _ _ X), D, G. reflexivity.
  Qed.
  Lemma open_lammps_name disk p f pb k :
    with_extension p "lammpstrj" -> disk p = Some f ->
    open disk p pb k =
      {| o_frames := map OfLammps (LammpsModel.items (LammpsModel.parse_lammpstrj pfloat sub f32 junk (as_text f)));
         o_end := end_of (LammpsModel.ending (LammpsModel.parse_lammpstrj pfloat sub f32 junk (as_text f))) |}.
  Proof. intros X D. unfold open_trajectory. rewrite (suffix_extension _ _ X), D. reflexivity. Qed.

  (** ** C156 *)
  Theorem C156_gsd_partial : forall disk p f t pb k,
    with_extension p "gsd" -> disk p = Some f -> as_gsd f = Some t ->
    1 <= k -> pb <> GsdModel.PbOther -> (forall r, In r t -> ~ GsdSpec.fatal r) ->
    open disk p pb k =
    {| o_frames := map OfGsd (GsdSpec.readables (GsdSpec.every (Z.to_nat k) t)); o_end := None |}.
  Proof.
    intros disk p f t pb k X D G K Q F. rewrite (open_gsd_name _ _ _ _ _ _ X D G).
    destruct (GsdProps.C21_open_trajectory P pb k t K Q) as [-> _]; auto.
  Qed.
  (** A lammpstrj file is read whole, whatever the interval. *)
  Theorem C156_lammps_partial : forall disk p f ts pb k,
    with_extension p "lammpstrj" -> disk p = Some f -> as_text f = LammpsSpec.render_all ts ->
    LammpsProps.ignores_line_end pfloat -> Forall (LammpsSpec.well_formed pfloat) ts ->
    exists ds, open disk p pb k = {| o_frames := map OfLammps ds; o_end := None |} /\
      Forall2 (LammpsSpec.describes pfloat sub f32) ts ds.
  Proof.
    intros disk p f ts pb k X D T L W. rewrite (open_lammps_name _ _ _ _ _ X D), T.
    destruct (LammpsProps.C64_parse_back pfloat sub f32 junk ts L W) as (ds & -> & F). cbn.
    exists ds. auto.
  Qed.

  (** ** C157 *)
  Theorem C157_gsd_partial : forall disk p f t pb k,
    with_extension p "gsd" -> disk p = Some f -> as_gsd f = Some t ->
    (pb = GsdModel.PbOther \/ k = 0 ->
     open disk p pb k = {| o_frames := []; o_end := Some ValueError |}) /\
    (pb <> GsdModel.PbOther -> k < 0 -> open disk p pb k = {| o_frames := []; o_end := None |}).
  Proof.
    intros disk p f t pb k X D G. rewrite (open_gsd_name _ _ _ _ _ _ X D G).
    destruct (GsdProps.C21_bad_arguments P pb k t) as (B1 & B2 & B3). split.
    - intros [->| ->]; [rewrite B1; reflexivity|].
      destruct pb; [rewrite B2 by congruence|rewrite B2 by congruence|rewrite B2 by congruence|]; reflexivity.
    - intros Q K. rewrite (B3 Q K). reflexivity.
  Qed.
  (** For a lammpstrj file the two arguments mean nothing. *)
  Theorem C157_lammps_partial : forall disk p pb k pb' k',
    with_extension p "lammpstrj" -> open disk p pb k = open disk p pb' k'.
  Proof.
    intros disk p pb k pb' k' X. unfold open_trajectory. rewrite (suffix_extension _ _ X). reflexivity.
  Qed.

  (** ** C158 *)
  (** A missing file of one of the two kinds is reported. *)
  Theorem C158_missing_partial : forall disk p pb k,
    with_extension p "gsd" \/ with_extension p "lammpstrj" -> disk p = None ->
    exists e, open disk p pb k = {| o_frames := []; o_end := Some e |}.
  Proof.
    intros disk p pb k [X|X] D; unfold open_trajectory; rewrite (suffix_extension _ _ X), D; exists OtherError; reflexivity.
  Qed.
  (** All other names, of present files or missing ones, are an empty trajectory. *)
  Theorem C158_silent_partial : forall disk p pb k,
    of_no_kind p -> open disk p pb k = {| o_frames := []; o_end := None |}.
  Proof.
    intros disk p pb k ((n & N) & G & L). unfold open_trajectory.
    destruct (String.eqb_spec (path_suffix p) ".gsd") as [E|_].
    { exfalso. apply G. exact (extension_suffix _ _ _ N E). }
    destruct (String.eqb_spec (path_suffix p) ".lammpstrj") as [E|_]; [|reflexivity].
    exfalso. apply L. exact (extension_suffix _ _ _ N E).
  Qed.
End Any.
Print Assumptions C156_gsd_partial.
Print Assumptions C156_lammps_partial.
Print Assumptions C157_gsd_partial.
Print Assumptions C157_lammps_partial.
Print Assumptions C158_missing_partial.
Print Assumptions C158_silent_partial.

(** ** Concrete files *)
Definition x_disk (p : string) : option (file nat) :=
  if String.eqb p "runs/traj.gsd" then Some {| as_gsd := Some GsdProps.sample; as_text := "" |}
  else if String.eqb p "runs/traj.lammpstrj" then
    Some {| as_gsd := None;
            as_text := LammpsSpec.render_all [LammpsProps.ex_t 0 LammpsProps.ex_atoms true " 3";
                                              LammpsProps.ex_t 10 LammpsProps.ex_atoms true " 3"] |}
  else if String.eqb p "runs/traj.gsd.gz" then Some {| as_gsd := None; as_text := "" |}
  else None.
Definition x_open := open_trajectory (P:=nat) LammpsProps.ex_float Z.sub (fun x => x) (fun _ => 77) x_disk.

Lemma freedec (c : ascii) s : forallb (fun d => negb (Ascii.eqb d c)) (chars s) = true -> free (fun d => Ascii.eqb d c) s.
Proof. intros H d I. rewrite forallb_forall in H. apply H in I. apply negb_true_iff in I. exact I. Qed.
Lemma x_gsd : with_extension "runs/traj.gsd" "gsd".
Proof.
  exists "traj.gsd", "traj". split; [|split; [reflexivity|split; [discriminate|split; [discriminate|apply freedec; reflexivity]]]].
  split; [right; exists "runs"; reflexivity|]. split; [discriminate|]. split; [discriminate|apply freedec; reflexivity].
Qed.
Lemma x_lammps : with_extension "runs/traj.lammpstrj" "lammpstrj".
Proof.
  exists "traj.lammpstrj", "traj". split; [|split; [reflexivity|split; [discriminate|split; [discriminate|apply freedec; reflexivity]]]].
  split; [right; exists "runs"; reflexivity|]. split; [discriminate|]. split; [discriminate|apply freedec; reflexivity].
Qed.
Lemma x_other p n : names_file p n -> path_suffix p <> ".gsd" -> path_suffix p <> ".lammpstrj" -> of_no_kind p.
Proof.
  intros N G L. split; [exists n; exact N|].
  split; intros X; [apply G|apply L]; apply suffix_extension; exact X.
Qed.

Theorem C156_interval_refuted :
  exists (disk : string -> option (file nat)) p f ts pb k,
    with_extension p "lammpstrj" /\ disk p = Some f /\ as_text f = LammpsSpec.render_all ts /\
    LammpsProps.ignores_line_end LammpsProps.ex_float /\
    Forall (LammpsSpec.well_formed LammpsProps.ex_float) ts /\ 1 <= k /\ pb <> GsdModel.PbOther /\
    ~ exists ds, o_frames (open_trajectory LammpsProps.ex_float Z.sub (fun x => x) (fun _ => 77) disk p pb k)
                   = map OfLammps ds /\
        Forall2 (LammpsSpec.describes LammpsProps.ex_float Z.sub (fun x => x)) (GsdSpec.every (Z.to_nat k) ts) ds.
Proof.
  exists x_disk, "runs/traj.lammpstrj".
  eexists. exists [LammpsProps.ex_t 0 LammpsProps.ex_atoms true " 3"; LammpsProps.ex_t 10 LammpsProps.ex_atoms true " 3"].
  exists GsdModel.PbNone, 2.
  split; [exact x_lammps|]. split; [reflexivity|]. split; [reflexivity|]. split; [exact LammpsProps.C64_ex3|].
  split; [repeat (constructor; [apply LammpsProps.C64_ex2|]); constructor|].
  split; [lia|]. split; [discriminate|].
  intros (ds & E & F).
  assert (L : List.length (map (OfLammps (P:=nat)) ds) = 2%nat) by (rewrite <- E; vm_compute; reflexivity).
  rewrite map_length in L. apply LammpsProps.Forall2_len in F. rewrite L in F. vm_compute in F. discriminate.
Qed.
Print Assumptions C156_interval_refuted.

Theorem C157_reported_refuted :
  exists (disk : string -> option (file nat)) p,
    with_extension p "lammpstrj" /\
    (forall k, o_end (open_trajectory LammpsProps.ex_float Z.sub (fun x => x) (fun _ => 77) disk p GsdModel.PbOther k) = None) /\
    (forall pb, o_end (open_trajectory LammpsProps.ex_float Z.sub (fun x => x) (fun _ => 77) disk p pb 0) = None) /\
    o_frames (open_trajectory LammpsProps.ex_float Z.sub (fun x => x) (fun _ => 77) disk p GsdModel.PbOther 0) <> [].
Proof.
  exists x_disk, "runs/traj.lammpstrj". split; [exact x_lammps|].
  split; [intros k; vm_compute; reflexivity|]. split; [intros pb; vm_compute; reflexivity|]. vm_compute. discriminate.
Qed.
Print Assumptions C157_reported_refuted.

Theorem C158_unsupported_refuted :
  exists (disk : string -> option (file nat)) p pb k, of_no_kind p /\ pb <> GsdModel.PbOther /\ 1 <= k /\
    o_end (open_trajectory LammpsProps.ex_float Z.sub (fun x => x) (fun _ => 77) disk p pb k) = None.
Proof.
  exists x_disk, "runs/traj.GSD", GsdModel.PbNone, 1.
  split; [|split; [discriminate|split; [lia|vm_compute; reflexivity]]].
  apply (x_other _ "traj.GSD"); [|vm_compute; discriminate|vm_compute; discriminate].
  split; [right; exists "runs"; reflexivity|]. split; [discriminate|]. split; [discriminate|apply freedec; reflexivity].
Qed.
Print Assumptions C158_unsupported_refuted.

Example C156_ex :
  x_open "runs/traj.gsd" GsdModel.PbTrue 2 =
    {| o_frames := [OfGsd (0, 7%nat); OfGsd (5, 8%nat); OfGsd (10, 9%nat)]; o_end := None |} /\
  List.length (o_frames (x_open "runs/traj.lammpstrj" GsdModel.PbTrue 2)) = 2%nat /\
  x_open "runs/traj.lammpstrj" GsdModel.PbTrue 2 = x_open "runs/traj.lammpstrj" GsdModel.PbOther (-3).
Proof. split; [vm_compute; reflexivity|]. split; vm_compute; reflexivity. Qed.
Example C156_ex_gsd :
  with_extension "runs/traj.gsd" "gsd" /\ x_disk "runs/traj.gsd" = Some {| as_gsd := Some GsdProps.sample; as_text := "" |} /\
  (forall r, In r GsdProps.sample -> ~ GsdSpec.fatal r).
Proof. split; [exact x_gsd|]. split; [reflexivity|exact GsdProps.sample_not_fatal]. Qed.
Example C157_ex :
  x_open "runs/traj.gsd" GsdModel.PbOther 1 = {| o_frames := []; o_end := Some ValueError |} /\
  x_open "runs/traj.gsd" GsdModel.PbNone 0 = {| o_frames := []; o_end := Some ValueError |} /\
  x_open "runs/traj.gsd" GsdModel.PbNone (-1) = {| o_frames := []; o_end := None |}.
Proof. split; [vm_compute; reflexivity|]. split; vm_compute; reflexivity. Qed.
Example C158_ex :
  x_open "runs/none.gsd" GsdModel.PbNone 1 = {| o_frames := []; o_end := Some OtherError |} /\
  x_open "runs/none.lammpstrj" GsdModel.PbNone 1 = {| o_frames := []; o_end := Some OtherError |} /\
  x_open "runs/none.dump" GsdModel.PbNone 1 = {| o_frames := []; o_end := None |} /\
  x_open "runs/traj.gsd.gz" GsdModel.PbNone 1 = {| o_frames := []; o_end := None |} /\
  x_open "runs/.gsd" GsdModel.PbNone 1 = {| o_frames := []; o_end := None |} /\
  of_no_kind "runs/.gsd".
Proof.
  split; [vm_compute; reflexivity|]. split; [vm_compute; reflexivity|]. split; [vm_compute; reflexivity|].
  split; [vm_compute; reflexivity|]. split; [vm_compute; reflexivity|].
  apply (x_other _ ".gsd"); [|vm_compute; discriminate|vm_compute; discriminate].
  split; [right; exists "runs"; reflexivity|]. split; [discriminate|]. split; [discriminate|apply freedec; reflexivity].
Qed.
