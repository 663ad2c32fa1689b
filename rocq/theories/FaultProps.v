(** Faults and how they are reported: C38, C114, C121 (more of them), C187-C190. *)
From Coq Require Import String Ascii Reals ZArith QArith List Bool Arith Lia.
From Verif Require Import Base DictFacts XNum PyStr RVec FrameModel ParamsModel MolRelaxModel MolRelaxDefs MoleculeModel FigureModel StepSizeModel GsdModel EndModel EndLammpsModel
  LammpsModel LammpsSpec LammpsProofs LammpsProps EndLammpsSpec EndLammpsProps StepSizeExtra PyStrFacts.
Import ListNotations.
Open Scope string_scope.
Open Scope list_scope.
Notation length := List.length.

(** * C38: Relaxations.add *)
Definition distances (disp rot : list xnum) (r : molrel) : list xnum :=
  match mr_type r with rotation => rot | translation => disp end.
(** Relaxations.add raises exactly when the number of distances is not that of the molecules, for
    some of the relaxations. *)
Theorem C38_add : forall ts disp rot x e,
  (forall k r, In (k, r) (rx_relax x) -> exists n, sized n r) ->
  (snd (relaxations_add ts disp rot x) = Some e <->
   e = RuntimeError /\ exists k r, In (k, r) (rx_relax x) /\ length (distances disp rot r) <> length (mr_status r)).
Proof.
  intros ts disp rot [t0 d] e S. unfold relaxations_add. cbn [rx_relax rx_init_time] in *. generalize (ts - t0)%Z as t. intros t.
  assert (X : snd (relax_loop t disp rot d) = Some e <->
    e = RuntimeError /\ exists k r, In (k, r) d /\ length (distances disp rot r) <> length (mr_status r)).
  { induction d as [|[k r] d IH]; cbn [relax_loop].
    - split; [discriminate|]. intros (_ & k & r & [] & _).
    - fold (distances disp rot r). destruct (S k r (or_introl eq_refl)) as (n & Sn).
      destruct (Nat.eq_dec (length (distances disp rot r)) (length (mr_status r))) as [E|E].
      + destruct (mr_add_sized n t (distances disp rot r) r Sn) as (r' & -> & _ & _); [rewrite E; apply Sn|].
        destruct (relax_loop t disp rot d) as [d' e'] eqn:El. cbn [snd] in *. rewrite IH; [|intros k0 r0 I0; apply (S k0 r0); right; exact I0].
        split; intros (A & k1 & r1 & I & N); (split; [exact A|]); exists k1, r1; split; auto; [right; exact I|].
        destruct I as [[= <- <-]|I]; [contradiction|exact I].
      + assert (mr_add t (distances disp rot r) r = inr RuntimeError) as ->.
        { unfold mr_add. apply Nat.eqb_neq in E. rewrite E. reflexivity. }
        cbn [snd]. split.
        * intros [= <-]. split; auto. exists k, r. split; [left; reflexivity|exact E].
        * intros (-> & _). reflexivity. }
  destruct (relax_loop t disp rot d) as [d' e']. exact X.
Qed.
Print Assumptions C38_add.
Example C38_add_ex : snd (relaxations_add 7 [PInf] [PInf; PInf] {| rx_init_time := 0; rx_relax := [("a", first_init 1 (Fin 1) translation); ("b", first_init 1 (Fin 1) rotation)] |}) = Some RuntimeError.
Proof. reflexivity. Qed.

(** * C114: the types of the classes provided *)
Theorem C114_classes : forall h,
  (forall h' m, disc h = (h', inl m) -> get_types h' m = ["A"]) /\
  (forall h' m, sphere h = (h', inl m) -> get_types h' m = ["A"]) /\
  (forall r d a h' m, trimer h r d a = (h', inl m) -> get_types h' m = ["A"; "B"]) /\
  (forall r d h' m, dimer h r d = (h', inl m) -> get_types h' m = ["A"; "B"]).
Proof.
  intros [ar di].
  assert (L : forall (x : dict string R) l, nth (length l) (l ++ [x]) [] = x) by (intros x l; rewrite app_nth2, Nat.sub_diag; auto).
  assert (U : forall (x y : dict string R) l, nth (length l) (MoleculeModel.update (length l) y (l ++ [x])) [] = y).
  { intros x y l. induction l as [|z l IH]; cbn; auto. }
  assert (UL : forall (x y : dict string R) l, length (MoleculeModel.update (length l) y (l ++ [x])) = S (length l)).
  { intros x y l. induction l as [|z l IH]; cbn; auto. }
  assert (V : forall (x : array) l, nth (length l) (l ++ [x]) no_array = x) by (intros x l; rewrite app_nth2, Nat.sub_diag; auto).
  split; [|split; [|split]].
  - intros h' m. unfold disc, round_molecule, default_molecule, new_array, new_dict, molecule_init, array_at, dict_at. cbn [h_arrays h_dicts]. rewrite V. cbn [a_float].
    intros [= <- <-]. unfold get_types, dict_at. cbn [mol_radii h_dicts]. rewrite L. reflexivity.
  - intros h' m. unfold sphere, round_molecule, default_molecule, new_array, new_dict, molecule_init, array_at, dict_at. cbn [h_arrays h_dicts]. rewrite V. cbn [a_float].
    intros [= <- <-]. unfold get_types, dict_at. cbn [mol_radii h_dicts]. rewrite L. reflexivity.
  - intros r d a h' m. unfold trimer. destruct (MoleculeModel.number r), (MoleculeModel.number d), (MoleculeModel.number a); try discriminate.
    unfold new_array, new_dict, molecule_init, array_at, dict_at. cbn [h_arrays h_dicts]. rewrite V. cbn [a_float].
    intros [= <- <-]. unfold get_types, dict_at. cbn [mol_radii h_dicts]. rewrite U, L. reflexivity.
  - intros r d h' m. unfold dimer. destruct d as [z|d|]; unfold new_array, new_dict, molecule_init, array_at, dict_at; cbn [h_arrays h_dicts]; rewrite ?V; cbn [a_float]; try discriminate.
    intros [= <- <-]. unfold get_types, dict_at. cbn [mol_radii h_dicts]. rewrite U, L. reflexivity.
Qed.
Print Assumptions C114_classes.
Example C114_classes_ex : exists h' m, trimer (mkheap [] []) (PyFloat 1) (PyInt 1) (PyInt 120) = (h', inl m).
Proof. eexists. eexists. reflexivity. Qed.

(** * C121: a model that cannot be loaded *)
Lemma add_app : forall O (create : string -> O + exn) before m after (d : dict string (option O)) e,
  (forall x, In x before -> exists o, create x = inl o) -> create m = inr e ->
  add_models create (before ++ m :: after) d = (fst (add_models create before d), Some e) /\
  snd (add_models create before d) = None.
Proof.
  intros O create before m after d e B Em. revert d. induction before as [|x before IH]; intros d; cbn [add_models app].
  - rewrite Em. split; reflexivity.
  - destruct (B x (or_introl eq_refl)) as (o & ->). apply IH. intros y I. apply B. right. exact I.
Qed.
Lemma add_last : forall O (create : string -> O + exn) ms (d : dict string (option O)),
  (forall x, In x ms -> exists o, create x = inl o) ->
  (forall b1 x b2 o, ms = b1 ++ x :: b2 -> (forall y, In y b2 -> path_stem y <> path_stem x) -> create x = inl o ->
    dget String.eqb (path_stem x) (fst (add_models create ms d)) = Some (Some o)) /\
  (forall k, (forall x, In x ms -> path_stem x <> k) -> dget String.eqb k (fst (add_models create ms d)) = dget String.eqb k d).
Proof.
  intros O create ms. induction ms as [|z ms IH]; intros d C; cbn [add_models].
  - split; [|reflexivity]. intros [|? ?] x b2 o E; discriminate.
  - destruct (C z (or_introl eq_refl)) as (oz & Ez). rewrite Ez.
    destruct (IH (dset String.eqb (path_stem z) (Some oz) d) (fun x I => C x (or_intror I))) as (A & B). split.
    + intros [|b b1] x b2 o E N Ex.
      * injection E as -> ->. rewrite B by exact N. rewrite (dget_dset String.eqb String.eqb_eq), String.eqb_refl. congruence.
      * injection E as -> ->. apply (A b1 x b2 o); auto.
    + intros k N. rewrite B by (intros x I; apply N; right; exact I). rewrite (dget_dset String.eqb String.eqb_eq).
      destruct (String.eqb_spec k (path_stem z)) as [E|_]; [destruct (N z (or_introl eq_refl)); auto|reflexivity].
Qed.
(** The figure cannot be made; the models before the first that cannot be loaded are offered by all
    figures from then on (the last one of them with a given name), those after it are not loaded. *)
Theorem C121_fault : forall F O D (timestep : F -> Z) (render : option O -> F -> D + exn) open_file
    (create : string -> O + exn) before m after files (orders : dict string (option O)) e,
  (forall x, In x before -> exists o, create x = inl o) -> create m = inr e ->
  exists orders', make_document timestep render open_file create (before ++ m :: after) files orders = (orders', inr e) /\
    (forall b1 x b2 o, before = b1 ++ x :: b2 -> (forall y, In y b2 -> path_stem y <> path_stem x) -> create x = inl o ->
      dget String.eqb (path_stem x) orders' = Some (Some o)) /\
    (forall k, (forall x, In x before -> path_stem x <> k) -> dget String.eqb k orders' = dget String.eqb k orders).
Proof.
  intros F O D timestep render open_file create before m after files orders e B Em.
  destruct (add_app O create before m after orders e B Em) as (E & _). unfold make_document. rewrite E.
  eexists. split; [reflexivity|]. apply add_last, B.
Qed.
Print Assumptions C121_fault.
Definition load3 (s : string) : string + exn := if String.eqb s "bad.pkl" then inr KeyError else inl s.
Example C121_fault_ex : (forall x, In x ["a/knn.pkl"; "b/knn.pkl"] -> exists o, load3 x = inl o) /\ load3 "bad.pkl" = inr KeyError /\
  fst (add_models load3 (["a/knn.pkl"; "b/knn.pkl"] ++ "bad.pkl" :: ["c/svm.pkl"]) [("None", None)]) = [("None", None); ("knn", Some "b/knn.pkl")].
Proof. split; [|split; reflexivity]. intros x [<-|[<-|[]]]; eexists; reflexivity. Qed.

(** * C187: deleting an attribute *)
(** An attribute can be deleted if it is in the dictionary of the object and is not one of the
    three properties; otherwise the object is unchanged and AttributeError is raised. *)
Theorem C187_delete : forall cwd (o : list (string * ParamsModel.pyval)) k,
  NoDup (map fst o) ->
  (In k ["infile"; "outfile"; "output"] \/ ~ In k (map fst o) -> exec (DelAttr k) o = (o, Some AttributeError)) /\
  (~ In k ["infile"; "outfile"; "output"] -> In k (map fst o) -> exists o', exec (DelAttr k) o = (o', None) /\
     (forall k' v, In (k', v) o' <-> In (k', v) o /\ k' <> k) /\
     getattr cwd o' k = inr AttributeError /\
     (k = "_infile" -> getattr cwd o' "infile" = inr AttributeError) /\
     (k = "_outfile" -> getattr cwd o' "outfile" = inr AttributeError) /\
     (k = "_output" -> getattr cwd o' "output" = inr AttributeError)).
Proof.
  intros cwd o k ND. cbn [exec]. unfold delattr.
  assert (Ex : existsb (String.eqb k) ["infile"; "outfile"; "output"] = true <-> In k ["infile"; "outfile"; "output"]).
  { rewrite existsb_exists. split; [intros (x & I & E); apply String.eqb_eq in E; subst; auto|]. intros I. exists k. split; auto. apply String.eqb_refl. }
  assert (Dm : dmem String.eqb k o = true <-> In k (map fst o)) .
  { clear. unfold dmem. induction o as [|[k0 v0] o IH]; cbn; [split; [discriminate|tauto]|].
    destruct (String.eqb_spec k k0) as [->|N]; [split; auto|]. rewrite IH. split; auto. intros [E|I]; [congruence|exact I]. }
  split.
  - intros H. destruct (existsb (String.eqb k) ["infile"; "outfile"; "output"]) eqn:E; [reflexivity|].
    destruct (dmem String.eqb k o) eqn:E2; [|reflexivity]. destruct H as [H|H]; [apply Ex in H; discriminate|].
    destruct H. apply Dm. reflexivity.
  - intros N I. destruct (existsb (String.eqb k) ["infile"; "outfile"; "output"]) eqn:E; [destruct N; apply Ex; reflexivity|].
    apply Dm in I. rewrite I. exists (ddel String.eqb k o). split; [reflexivity|].
    assert (G : dget_attr k (ddel String.eqb k o) = inr AttributeError).
    { unfold dget_attr. rewrite (dget_ddel_same String.eqb String.eqb_eq); auto. }
    split; [|split].
    + clear -ND. induction o as [|[k0 v0] o IH]; intros k' v; cbn; [tauto|]. inversion ND as [|? ? N0 ND']; subst.
      destruct (String.eqb_spec k k0) as [->|Nk].
      * split; [|intros ([[= <- <-]|H] & N); auto; contradiction]. intros H. split; [auto|]. intros ->. apply N0. apply (in_map fst) in H. exact H.
      * cbn. rewrite IH by auto. split; [|tauto]. intros [[= <- <-]|[H N]]; auto.
    + unfold getattr. destruct (String.eqb_spec k "infile") as [->|_]; [destruct N; cbn; auto|].
      destruct (String.eqb_spec k "outfile") as [->|_]; [destruct N; cbn; auto|]. destruct (String.eqb_spec k "output") as [->|_]; [destruct N; cbn; auto|].
      exact G.
    + split; [|split]; intros ->; unfold getattr; cbn [String.eqb Ascii.eqb Bool.eqb]; rewrite G; reflexivity.
Qed.
Print Assumptions C187_delete.
Example C187_ex : fst (exec (DelAttr "_infile") [("a", ParamsModel.VNone); ("_infile", VPath "x.gsd")]) = [("a", VNone)] /\
  snd (exec (DelAttr "infile") [("a", ParamsModel.VNone); ("_infile", VPath "x.gsd")]) = Some AttributeError.
Proof. split; reflexivity. Qed.

(** * C188: reading a gsd file with a key frame interval of 0, or a negative number of steps *)
(** A frame which is skipped: reading it raises RuntimeError *)
Definition skipped {P} (r : raw P) : Prop := r = Corrupt \/ r = Broken RuntimeError \/ exists s, r = Good s (inr RuntimeError).
Lemma skip_all : forall P (pre : list (raw P)) post, Forall skipped pre -> iter_trajectory (pre ++ post) = iter_trajectory post.
Proof.
  intros P pre post F. induction F as [|r pre S F IH]; [reflexivity|]. cbn [app iter_trajectory].
  destruct S as [-> | [-> | (s & ->)]]; cbn; exact IH.
Qed.
Lemma last_step : forall P (q : list (raw P)) s c, get_num_steps (q ++ [Good s c]) = inl s.
Proof.
  intros P q s c. unfold get_num_steps. cbn [num_steps_loop]. unfold traj_step. rewrite app_length. cbn [List.length].
  set (n := List.length q). replace (- 1 <? 0)%Z with true by reflexivity.
  replace ((-1 + Z.of_nat (n + 1) <? 0)%Z) with false by (symmetry; apply Z.ltb_ge; lia).
  replace ((Z.of_nat (n + 1) <=? -1 + Z.of_nat (n + 1))%Z) with false by (symmetry; apply Z.leb_gt; lia).
  cbn [orb]. replace (Z.to_nat (-1 + Z.of_nat (n + 1))) with n by lia. unfold n. rewrite nth_error_app2, Nat.sub_diag by lia. reflexivity.
Qed.
Theorem C188_zero : forall P fuel k smax M pre s (p : P) post t,
  t = pre ++ Good s (inl p) :: post -> Forall skipped pre -> (1 <= fuel)%nat -> (1 <= k)%nat ->
  read_gsd_trajectory fuel k smax None 0 M t = Ok (GsdModel.ended (Some ZeroDivisionError)) /\
  (forall n m, (0 <= m)%Z -> smax = Some m \/ smax = None /\ (exists q c, t = q ++ [Good m c]) ->
     read_gsd_trajectory fuel k smax (Some n) 0 M t = Ok (GsdModel.ended (Some ZeroDivisionError))).
Proof.
  intros P fuel k smax M pre s p post t -> F Hf Hk. unfold read_gsd_trajectory, linear_trajectory, exponential_trajectory.
  rewrite (skip_all P pre _ F). cbn [iter_trajectory read_frame GsdModel.cons_item GsdModel.items GsdModel.ending linear_loop]. split; [reflexivity|].
  intros n m Hm Sm.
  assert (E : (match smax with Some m0 => inl m0 | None => get_num_steps (pre ++ Good s (inl p) :: post) end) = inl m).
  { destruct Sm as [-> | [-> (q & c & ->)]]; [reflexivity|]. apply last_step. }
  rewrite E. destruct (init_zero_interval fuel m n M Hm Hf) as (ser & -> & En).
  destruct k as [|k]; [lia|]. cbn [exp_loop_gsd]. rewrite En. reflexivity.
Qed.
(** The first frame that can be read is not before the start of the simulation. *)
Theorem C188_negative : forall P fuel k m M K pre s (p : P) post t,
  t = pre ++ Good s (inl p) :: post -> Forall skipped pre -> (1 <= fuel)%nat -> (1 <= k)%nat -> (m < 0 <= s)%Z ->
  (K <> 0%Z -> read_gsd_trajectory fuel k (Some m) None K M t = Ok (GsdModel.ended None)) /\
  (forall n, read_gsd_trajectory fuel k (Some m) (Some n) K M t = Ok (GsdModel.ended (Some KeyError))).
Proof.
  intros P fuel k m M K pre s p post t -> F Hf Hk Hm. unfold read_gsd_trajectory, linear_trajectory, exponential_trajectory.
  rewrite (skip_all P pre _ F). cbn [iter_trajectory read_frame GsdModel.cons_item GsdModel.items GsdModel.ending linear_loop]. split.
  - intros HK. apply Z.eqb_neq in HK. rewrite HK. unfold timestep. cbn [fst].
    replace (s >? m)%Z with true by (symmetry; apply Z.gtb_lt; lia). reflexivity.
  - intros n. destruct (init_negative fuel m n K M) as (ser & -> & En); [lia|exact Hf|].
    destruct k as [|k]; [lia|]. cbn [exp_loop_gsd]. rewrite En. reflexivity.
Qed.
Print Assumptions C188_zero. Print Assumptions C188_negative.
Example C188_ex :
  let t := [Corrupt; Good 0 (inl tt); Good 5 (inr RuntimeError); Good 10 (inl tt)] in
  read_gsd_trajectory 5 5 None None 0 7 t = Ok (GsdModel.ended (Some ZeroDivisionError)) /\
  read_gsd_trajectory 5 5 (Some (-3)%Z) None 2 7 t = Ok (GsdModel.ended None) /\
  read_gsd_trajectory 5 5 (Some (-3)%Z) (Some 4%Z) 2 7 t = Ok (GsdModel.ended (Some KeyError)).
Proof. cbv zeta. split; [|split]; vm_compute; reflexivity. Qed.

(** * C189: a lammpstrj file with frames without positions *)
Lemma no_position : forall (pfloat : string -> option R) sub f32 t d, describes pfloat sub f32 t d -> ~ has_positions t -> l_position f32 d = inr KeyError.
Proof.
  intros pfloat sub f32 t d (_ & _ & _ & D) N. unfold l_position, lget.
  assert (K : forall h, h <> "timestep" -> h <> "box" -> ~ In h (t_heads t) -> dget String.eqb h d = None).
  { intros h A B C. destruct (dget String.eqb h d) eqn:E; [|reflexivity]. destruct (D h) as [?|[?|?]]; congruence || contradiction. }
  destruct (in_dec string_dec "x" (t_heads t)) as [X|X]; [|rewrite (K "x"); [reflexivity|discriminate|discriminate|exact X]].
  destruct (in_dec string_dec "y" (t_heads t)) as [Y|Y].
  2: { rewrite (K "y"); [|discriminate|discriminate|exact Y]. destruct (dget String.eqb "x" d); reflexivity. }
  destruct (in_dec string_dec "z" (t_heads t)) as [Z|Z]; [destruct N; split; auto|].
  rewrite (K "z"); [|discriminate|discriminate|exact Z]. destruct (dget String.eqb "x" d), (dget String.eqb "y" d); reflexivity.
Qed.
Theorem C189_columns : forall pfloat sub f32 junk smax before t after text,
  ignores_line_end pfloat -> (forall x, f32 (f32 x) = f32 x) ->
  text = render_all (before ++ t :: after) \/ text = crlf (render_all (before ++ t :: after)) ->
  Forall (well_formed pfloat) (before ++ t :: after) -> Forall has_positions before -> ~ has_positions t ->
  (forall m x, smax = Some m -> In x (before ++ [t]) -> (t_step x <= m)%Z) ->
  exists fs, lammps_reader pfloat sub f32 junk text smax = Ok (map (fun f => ([0%nat], f)) fs, Some KeyError) /\
    Forall2 (written_as pfloat sub f32) before fs.
Proof.
  intros pfloat sub f32 junk smax before t after text Ig Id Et Wf Hp Np Hm.
  destruct (C64_parse_back pfloat sub f32 junk _ Ig Wf) as (ds & Ep & Ds).
  assert (Ep' : parse_lammpstrj pfloat sub f32 junk text = {| LammpsModel.items := ds; LammpsModel.ending := Ok tt |}).
  { destruct Et as [-> | ->]; auto. rewrite C64_dos_line_ends; auto. }
  unfold lammps_reader, read_lammps_trajectory. rewrite Ep'. cbn [LammpsModel.items LammpsModel.ending]. clear Ep Ep' Et text Wf junk Ig.
  assert (X : exists r, LammpsModel.ending (take_steps smax ds (Ok tt)) = Ok r).
  { clear -Ds. induction Ds as [|x d ts ds (D & _) F IH]; cbn; [eauto|]. destruct smax as [m|]; [|exact IH].
    unfold l_timestep, lget. rewrite D. destruct (m <? t_step x)%Z; [cbn; eauto|exact IH]. }
  destruct X as (r & ->).
  revert ds Ds Hp Hm. induction before as [|b before IH]; intros ds Ds Hp Hm; cbn [app] in *; inversion Ds as [|? d ? ds' D Ds']; subst.
  - exists []. split; [|constructor]. cbn [take_steps map].
    assert (Q : (match smax with Some m => (m <? t_step t)%Z | None => false end) = false).
    { destruct smax as [m|]; [|reflexivity]. apply Z.ltb_ge. apply (Hm m t); auto. left. reflexivity. }
    destruct smax as [m|].
    + assert (l_timestep d = inl (LInt (t_step t))) as -> by (unfold l_timestep, lget; destruct D as (-> & _); reflexivity). rewrite Q.
      cbn [LammpsModel.cons_item LammpsModel.items attributes]. rewrite (no_position _ _ _ _ _ D Np). reflexivity.
    + cbn [LammpsModel.cons_item LammpsModel.items attributes]. rewrite (no_position _ _ _ _ _ D Np). reflexivity.
  - inversion Hp as [|? ? Hb Hp']; subst. destruct (IH ds' Ds' Hp') as (fs & E & Fs); [intros m x Em I; apply (Hm m x Em); right; exact I|].
    destruct (one_frame pfloat sub f32 Id b d D Hb) as (p & Pp & Wp).
    exists (leframe f32 d p :: fs). split; [|constructor; auto]. injection E as E. cbn [take_steps map].
    assert (Q : (match smax with Some m => (m <? t_step b)%Z | None => false end) = false).
    { destruct smax as [m|]; [|reflexivity]. apply Z.ltb_ge. apply (Hm m b); auto. left. reflexivity. }
    destruct smax as [m|].
    + assert (l_timestep d = inl (LInt (t_step b))) as -> by (unfold l_timestep, lget; destruct D as (-> & _); reflexivity). rewrite Q.
      cbn [LammpsModel.cons_item LammpsModel.items attributes]. rewrite Pp, E. reflexivity.
    + cbn [LammpsModel.cons_item LammpsModel.items attributes]. rewrite Pp, E. reflexivity.
Qed.
Print Assumptions C189_columns.
(** The second frame has no column z. *)
Definition flat : tframe :=
  {| t_step := 1000; t_flags := " pp pp pp"; t_x := ex_bound "-5" "5" ""; t_y := ex_bound "-5" "5" ""; t_z := ex_bound "0" "1" "";
     t_heads := ["id"; "x"; "y"]; t_atoms := map (fun k => [dec k; "4"; "0"]) up; t_blank := false |}.
Example C189_ex :
  match lammps_reader lfloat Rminus (fun r => r) (fun _ => 0%R) (render_all [lt 0 "4" up; flat]) None with
  | Ok ([([0%nat], f)], Some KeyError) => length (e_pos f) = 10%nat
  | _ => False
  end.
Proof. vm_compute. reflexivity. Qed.

(** * C51: a snapshot without positions *)
Theorem C51_no_positions : forall A (s : snapshot A), s_position s = None -> HoomdFrame s = inr TypeError.
Proof.
  intros A s E. unfold HoomdFrame, get_num_bodies. rewrite E.
  set (n := match s_body s with Some b => match py_max b with inl m => (m + 1)%Z | inr _ => s_N s end | None => s_N s end).
  destruct (Z.ltb_spec (s_N s) n) as [L|L].
  - rewrite Z.ltb_irrefl. reflexivity.
  - destruct (Z.eqb_spec n 0).
    + rewrite Z.ltb_irrefl. reflexivity.
    + destruct (Z.ltb_spec (s_N s) n); [lia|reflexivity].
Qed.
Print Assumptions C51_no_positions.
Example C51_no_positions_ex : HoomdFrame {| s_N := 4; s_body := Some [0; 1; 0; 1]%Z; s_position := None; s_image := None; s_orientation := None;
  s_step := 0; s_cbox := [1; 1; 1; 0; 0; 0]%Z; s_dimensions := 2; s_box := None |} = inr TypeError :> hoomd_frame Z + exn.
Proof. reflexivity. Qed.
