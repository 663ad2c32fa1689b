(** What a command line asks for. *)
From Coq Require Import String ZArith QArith List Bool.
From Verif Require Import Base XNum MainModel MainSpec.
Import ListNotations.

(** An integer that may be absent *)
Definition some_int (o : option Z) : value := match o with Some z => VInt z | None => VNone end.

(** The command line is right, has no option that is refused later on, and no file of
    relaxations; it asks for the frames up to [smax], [lin] linear steps, a key frame every [G]
    steps, at most [M] of them, and the wave number [q]. *)
Definition asks (to_float : string -> option xnum) (line : list (string * string)) (c : comp_line)
           (smax lin : option Z) (G M : Z) (q : Q) : Prop :=
  ~ misuse to_float line /\ never (n_molecule ++ n_output) line /\ c_mol_relaxations c = None /\
  int_option n_steps VNone line (some_int smax) /\
  int_option n_interval (VInt 1000000) line (VInt G) /\
  int_option n_max (VInt 500) line (VInt M) /\
  float_option to_float n_wave (VFloat (Fin (3 # 10))) line (VFloat (Fin q)) /\
  (c_linear_dynamics c = true /\ lin = None \/
   c_linear_dynamics c = false /\ exists n, lin = Some n /\ int_option n_linear (VInt 100) line (VInt n)).
