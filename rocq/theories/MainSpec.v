(** What is claimed of the command line. *)
From Coq Require Import String ZArith QArith List Bool.
From Verif Require Import Base XNum PyStr MainModel.
Import ListNotations.
Open Scope string_scope.

(** The last value given under one of these names; no value given. *)
Definition last_given (names : list string) (line : list (string * string)) (text : string) : Prop :=
  exists a f b, line = (a ++ (f, text) :: b)%list /\ In f names /\ forall g v, In (g, v) b -> ~ In g names.
Definition never (names : list string) (line : list (string * string)) : Prop :=
  forall g v, In (g, v) line -> ~ In g names.

(** The names of the options in the help text *)
Definition n_steps : list string := ["-s"; "--num-steps"; "--steps-max"].
Definition n_interval : list string := ["--keyframe-interval"; "--gen-steps"].
Definition n_linear : list string := ["--linear-steps"].
Definition n_max : list string := ["--keyframe-max"; "--max-gen"].
Definition n_molecule : list string := ["--molecule"].
Definition n_wave : list string := ["--wave-number"].
Definition n_output : list string := ["-o"; "--output"].
Definition all_names : list string := (n_steps ++ n_interval ++ n_linear ++ n_max ++ n_molecule ++ n_wave ++ n_output)%list.

(** [v] is the integer given under these names, or the default. *)
Definition int_option (names : list string) (default : value) (line : list (string * string)) (v : value) : Prop :=
  (exists text z, last_given names line text /\ py_int text = inl z /\ v = VInt z) \/ (never names line /\ v = default).
Definition float_option (to_float : string -> option xnum) (names : list string) (default : value)
    (line : list (string * string)) (v : value) : Prop :=
  (exists text x, last_given names line text /\ to_float text = Some x /\ v = VFloat x) \/ (never names line /\ v = default).

(** The command line cannot be understood: a name that does not exist, an integer or a float that is none, a
    molecule that does not exist. *)
Definition misuse (to_float : string -> option xnum) (line : list (string * string)) : Prop :=
  (exists f v, In (f, v) line /\ ~ In f all_names) \/
  (exists names text e, In names [n_steps; n_interval; n_linear; n_max] /\ last_given names line text /\ py_int text = inr e) \/
  (exists text, last_given n_wave line text /\ to_float text = None) \/
  (exists text, last_given n_molecule line text /\ ~ In text ["trimer"; "disc"; "sphere"; "dimer"]).

(** process_file is called with what was given on the command line. *)
Definition as_given (to_float : string -> option xnum) (line : list (string * string)) (c : comp_line) (a : process_args) : Prop :=
  a_infile a = c_infile c /\ a_outfile a = c_outfile c /\ a_scattering_function a = c_scattering c /\
  int_option n_steps VNone line (a_steps_max a) /\
  int_option n_interval (VInt 1000000) line (a_keyframe_interval a) /\
  int_option n_max (VInt 500) line (a_keyframe_max a) /\
  float_option to_float n_wave (VFloat (Fin (3 # 10))) line (a_wave_number a) /\
  (if c_linear_dynamics c then a_linear_steps a = VNone else int_option n_linear (VInt 100) line (a_linear_steps a)) /\
  a_mol_relaxations a = match c_mol_relaxations c with Some path => REvents path | None => RNone end.
