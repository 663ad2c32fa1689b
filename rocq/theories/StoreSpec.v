(** Specification vocabulary for C216: what a call of process_file has to write. *)
From Coq Require Import ZArith List Bool.
From Verif Require Import Base WriteCacheModel ProcessModel ProcessSpec StoreModel.
Import ListNotations.

(** The analysis [j] reads its file to the end and has the rows [rows], at least one, and the
    molecular relaxations [mol].  Nothing about the output file. *)
Definition analyses {D R F Row Out Sum} (j : job D R F Row Out Sum) (rows : list (nat * Out)) (mol : list (nat * Sum)) : Prop :=
  rows <> [] /\ j_vars j = None /\ j_floats j = None /\
  exists l s, j_reader j = Some (l, None) /\
    frames (j_npos j) (j_mk j) (j_custom j) (j_compute j) (j_radd j) (j_label j) l None (start_state true) = (s, None) /\
    rows = all_rows s /\ mol = map (fun p => (fst p, j_summary j (snd (snd p)))) (ps_keys s).

(** The analyses among the commands, in order *)
Fixpoint jobs {D R F Row Out Sum} (cs : list (command D R F Row Out Sum)) : list (job D R F Row Out Sum) :=
  match cs with [] => [] | CDynamics j :: cs => j :: jobs cs | CRelaxations :: cs => jobs cs end.
