(** Properties C93 and C122: the command line. *)
From Coq Require Import String ZArith QArith List Bool.
From Verif Require Import Base XNum PyStr WriteCacheModel ProcessModel MainModel MainSpec MainProofs.
Import ListNotations.
Open Scope string_scope.

(** ** C93 *)
(** False: with --molecule or --output nothing is computed, although the command line is right. *)
Theorem C93_options_refuted : exists to_float line c,
  ~ misuse to_float line /\ main to_float line c = Some (inr TypeError).
Proof.
  exists (fun _ => None), [("--molecule", "trimer")],
    {| c_mol_relaxations := None; c_linear_dynamics := false; c_scattering := false; c_infile := "a.gsd"; c_outfile := "b.h5" |}.
  match goal with |- ~ misuse ?t ?l /\ main _ _ ?c = _ => destruct (main_cases t l c) as [[M E]|[(M & _ & E)|(M & N & _)]] end.
  - vm_compute in E. discriminate.
  - auto.
  - destruct (N "--molecule" "trimer"); cbn; auto.
Qed.
(** True: what the usage message is shown for, when TypeError is raised, and otherwise process_file gets what was
    given. *)
Theorem C93_usage_partial : forall to_float line c, main to_float line c = None <-> misuse to_float line.
Proof.
  intros. destruct (main_cases to_float line c) as [[M E]|[(M & _ & E)|(M & _ & a & E & _)]]; rewrite E; split; tauto || discriminate.
Qed.
Theorem C93_error_partial : forall to_float line c e, ~ misuse to_float line ->
  (main to_float line c = Some (inr e) <-> e = TypeError /\ exists f v, In (f, v) line /\ In f ["--molecule"; "-o"; "--output"]).
Proof.
  intros to_float line c e NM. destruct (main_cases to_float line c) as [[M E]|[(_ & W & E)|(_ & N & a & E & _)]].
  - tauto.
  - rewrite E. split; [intros [= <-]; auto|intros [-> _]; auto].
  - rewrite E. split; [discriminate|]. intros [_ (f & v & I1 & I2)]. destruct (N f v I1 I2).
Qed.
Theorem C93_options_partial : forall to_float line c a,
  main to_float line c = Some (inl a) -> as_given to_float line c a.
Proof.
  intros to_float line c a H. destruct (main_cases to_float line c) as [[M E]|[(M & _ & E)|(M & _ & b & E & G)]]; congruence.
Qed.

(** ** C122 *)
Section Custom.
Context {D R F Row Out Sum : Type} (npos : F -> nat) (mk : F -> (D * R) + exn) (clear : R -> R) (printable : string -> bool)
  (path : string) (compute : D -> F -> D * (Row + exn)) (radd : R -> F -> R * option exn) (label : nat -> Row -> Out + exn)
  (summary : R -> Sum).
Let cu := custom_of clear printable (REvents path).
Lemma visit_fails k f s : exists s' e, visit mk cu compute radd label k f s = (s', Some e) /\
  ps_table s' = ps_table s /\ ps_cache s' = ps_cache s.
Proof.
  unfold visit, cu, custom_of. destruct (mk f) as [[d r]|e]; [|eauto]. cbn [set_key ps_keys].
  destruct (dget Nat.eqb k (ps_keys s)) as [[d' r']|]; do 2 eexists; split; cbn; eauto.
Qed.
Lemma frames_fail fin : forall l s, exists s' e, frames npos mk cu compute radd label l fin s = (s', e) /\
  ps_table s' = ps_table s /\ ps_cache s' = ps_cache s /\ (e = None -> s' = s) /\
  (forall idx f, In (idx, f) l -> npos f <> 0%nat -> idx <> [] -> e <> None).
Proof.
  induction l as [|[idx f] l IH]; intros s; cbn [frames].
  - exists s, fin. split; [reflexivity|]. split; [reflexivity|]. split; [reflexivity|]. split; [reflexivity|]. intros idx f [].
  - destruct (Nat.eqb (npos f) 0) eqn:E.
    + destruct (IH s) as (s' & e & A & B & C & N & K). exists s', e. split; [exact A|]. split; [exact B|]. split; [exact C|]. split; [exact N|].
      intros idx' f' [X|X]; [|eauto]. injection X as <- <-. apply Nat.eqb_eq in E. congruence.
    + destruct idx as [|k idx]; cbn [visits].
      * destruct (IH s) as (s' & e & A & B & C & N & K). exists s', e. split; [exact A|]. split; [exact B|]. split; [exact C|]. split; [exact N|].
        intros idx' f' [X|X]; [|eauto]. injection X as <- <-. congruence.
      * destruct (visit_fails k f s) as (s' & e & A & B & C). rewrite A. exists s', (Some e). split; [reflexivity|]. split; [exact B|]. split; [exact C|]. split; discriminate.
Qed.
End Custom.

(** False of the command line: whatever the file of relaxations and whatever the trajectory, however long, healthy
    or not, comp_dynamics with --mol-relaxations raises, and not a row reaches the output file. *)
Theorem C122_never_works : forall (D R F Row Out Sum : Type) npos mk (clear : R -> R) printable
    (compute : D -> F -> D * (Row + exn)) radd (label : nat -> Row -> Out + exn) (summary : R -> Sum)
    to_float line c path a vars floats reader t0 r0,
  c_mol_relaxations c = Some path -> main to_float line c = Some (inl a) ->
  let out := process_file npos mk (custom_of clear printable (a_mol_relaxations a)) compute radd label summary
               true vars floats reader t0 r0 in
  (exists e, out_result out = inr e) /\ out_table out = t0 /\ out_relax out = r0.
Proof.
  intros until r0. intros P M.
  assert (A : a_mol_relaxations a = REvents path).
  { destruct (C93_options_partial _ _ _ _ M) as (_ & _ & _ & _ & _ & _ & _ & _ & G). rewrite G, P. auto. }
  rewrite A. cbv zeta. unfold process_file. destruct vars; [cbn; eauto|]. destruct reader as [[l fin]|]; [|cbn; eauto].
  match goal with |- context [frames _ _ _ _ _ _ _ _ ?s0] =>
    destruct (frames_fail npos mk clear printable path compute radd label fin l s0) as (s' & e & E & T & CA & N & _) end.
  rewrite E. destruct e as [e|].
  - cbn in *. eauto.
  - rewrite (N eq_refl). cbn. eauto.
Qed.
(** So the relaxations asked for are not computed, although without them this trajectory is analysed. *)
Definition one (custom : relax_arg) : outcome unit unit :=
  process_file (fun _ : unit => 1%nat) (fun _ => inl (tt, tt)) (custom_of (fun _ => tt) (fun _ => true) custom)
    (fun d _ => (d, inl tt)) (fun r _ => (r, None)) (fun _ _ => inl tt) (fun _ => tt) true None None (Some ([([0%nat], tt)], None)) None None.
Theorem C122_custom_refuted : exists c a b,
  main (fun _ => None) [] c = Some (inl a) /\ c_mol_relaxations c = Some "relax.yaml" /\
  main (fun _ => None) [] {| c_mol_relaxations := None; c_linear_dynamics := c_linear_dynamics c; c_scattering := c_scattering c;
                             c_infile := c_infile c; c_outfile := c_outfile c |} = Some (inl b) /\
  out_result (one (a_mol_relaxations a)) = inr AttributeError /\ out_table (one (a_mol_relaxations a)) = None /\
  out_result (one (a_mol_relaxations b)) = inl None /\ out_table (one (a_mol_relaxations b)) = Some [(0%nat, tt)].
Proof.
  exists {| c_mol_relaxations := Some "relax.yaml"; c_linear_dynamics := false; c_scattering := false; c_infile := "a.gsd"; c_outfile := "b.h5" |}.
  do 2 eexists. split; [vm_compute; reflexivity|]. split; [reflexivity|]. split; [vm_compute; reflexivity|]. vm_compute. auto.
Qed.

Print Assumptions C93_options_refuted.
Print Assumptions C93_usage_partial.
Print Assumptions C93_error_partial.
Print Assumptions C93_options_partial.
Print Assumptions C122_never_works.
Print Assumptions C122_custom_refuted.

(** ** Examples *)
Definition float1 (s : string) : option xnum := if String.eqb s "1.5" then Some (Fin (3 # 2)) else None.
Definition given : list (string * string) :=
  [("--num-steps", "10"); ("--max-gen", "7"); ("-s", " 20 "); ("--wave-number", "1.5"); ("--linear-steps", "50")].
Definition comp (lin : bool) : comp_line :=
  {| c_mol_relaxations := None; c_linear_dynamics := lin; c_scattering := true; c_infile := "a.gsd"; c_outfile := "b.h5" |}.
(** C93: the last of two names of an option counts; defaults; --linear-dynamics overrides --linear-steps *)
Example C93_ex : exists a, main float1 given (comp true) = Some (inl a) /\ a_steps_max a = VInt 20 /\ a_keyframe_max a = VInt 7 /\
  a_keyframe_interval a = VInt 1000000 /\ a_linear_steps a = VNone /\ a_wave_number a = VFloat (Fin (3 # 2)) /\ a_scattering_function a = true.
Proof. eexists. split; [vm_compute; reflexivity|]. vm_compute. auto 10. Qed.
Example C93_ex_linear : exists a, main float1 given (comp false) = Some (inl a) /\ a_linear_steps a = VInt 50.
Proof. eexists. split; [vm_compute; reflexivity|]. reflexivity. Qed.
(** A wrong value is forgiven if the option is given again *)
Example C93_ex_usage : main float1 [("-s", "x")] (comp false) = None /\ main float1 [("--steps", "1")] (comp false) = None
  /\ main float1 [("-s", "x"); ("--steps-max", "3")] (comp false) <> None
  /\ main float1 [("-o", "d")] (comp false) = Some (inr TypeError).
Proof. vm_compute. repeat split; discriminate. Qed.
