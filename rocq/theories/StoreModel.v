(** Model of an output file to which several commands write: process_file
    (src/sdanalysis/read/_read.py:82-195) and compute_relaxations
    (src/sdanalysis/relaxation.py:428-499). *)
From Coq Require Import ZArith List Bool.
From Verif Require Import Base WriteCacheModel ProcessModel.
Import ListNotations.

Section Store.
  Context {D R F Row Out Sum Rel : Type}.
  (** what compute_relaxations computes from the two tables it reads, relaxation.py:448-494;
      a missing table is its KeyError *)
  Variable relaxations : table (nat * Out) -> option (list (nat * Sum)) -> Rel + exn.

  (** One call of process_file: _read.py:82-92 its arguments, as far as ProcessModel has them *)
  Record job : Type := {
    j_npos : F -> nat;
    j_mk : F -> (D * R) + exn;
    j_custom : option (R -> R * option exn);
    j_compute : D -> F -> D * (Row + exn);
    j_radd : R -> F -> R * option exn;
    j_label : nat -> Row -> Out + exn;
    j_summary : R -> Sum;
    j_vars : option exn;
    j_floats : option exn;
    j_reader : option (list (list nat * F) * option exn)
  }.

  (** The three tables: _read.py:66 and 189, relaxation.py:499 *)
  Record store : Type := {
    st_dyn : table (nat * Out);                     (* "dynamics" *)
    st_mol : option (list (nat * Sum));             (* "molecular_relaxations" *)
    st_rel : option Rel                             (* "relaxations" *)
  }.

  (** main.py:117-165 (comp-dynamics) and main.py:168-182 (comp-relaxations) on the same file *)
  Inductive command : Type := CDynamics (j : job) | CRelaxations.

  (** _read.py:82-195 with outfile: the tables it does not write stay (to_hdf opens the file in mode "a") *)
  Definition comp_dynamics (j : job) (st : store) : store * option exn :=
    let o := process_file (j_npos j) (j_mk j) (j_custom j) (j_compute j) (j_radd j) (j_label j) (j_summary j)
               true (j_vars j) (j_floats j) (j_reader j) (st_dyn st) (st_mol st) in
    ({| st_dyn := out_table o; st_mol := out_relax o; st_rel := st_rel st |},
     match out_result o with inl _ => None | inr e => Some e end).

  (** relaxation.py:428-499: nothing is written if it raises *)
  Definition comp_relaxations (st : store) : store * option exn :=
    match relaxations (st_dyn st) (st_mol st) with
    | inl r => ({| st_dyn := st_dyn st; st_mol := st_mol st; st_rel := Some r |}, None)
    | inr e => (st, Some e)
    end.

  (** main.py:117-182 one command *)
  Definition step (c : command) (st : store) : store * option exn :=
    match c with CDynamics j => comp_dynamics j st | CRelaxations => comp_relaxations st end.

  (** main.py:117-182: commands one after the other, whether they failed or not *)
  Fixpoint run (cs : list command) (st : store) : store :=
    match cs with [] => st | c :: cs => run cs (fst (step c st)) end.
End Store.
Arguments job : clear implicits.
Arguments store : clear implicits.
Arguments command : clear implicits.
