(** Model of main.py: the options of the command line, and comp_dynamics.
    Click: an option that is given several times has its last value; a flag without a known name, or a value that
    cannot be converted, ends the program with a usage message.  Simplified: the command line is already
    split into options and their values; the checks of paths, the log and the version are left out; text of
    a float is converted by [to_float]. *)
From Coq Require Import String Ascii ZArith QArith List Bool.
From Verif Require Import Base XNum PyStr FrameModel.
Import ListNotations.
Open Scope string_scope.

(** The values that the options have in Python *)
(* main.py:114 the values of ctx.obj *)
Inductive value : Type := VInt (z : Z) | VFloat (x : xnum) | VText (s : string) | VNone.
(* main.py:68, 75, 81, 89, 95, 100, 107 the types of the options *)
Inductive opt_type : Type := TInt | TFloat | TChoice (l : list string) | TPath.

Section Main.
Context (to_float : string -> option xnum).

(** The conversion by click of the text of a value *)
(* main.py:68, 75, 81, 89, 95, 100, 107 the conversion by click *)
Definition convert (t : opt_type) (s : string) : option value :=
  match t with
  | TInt => match py_int s with inl z => Some (VInt z) | inr _ => None end
  | TFloat => option_map VFloat (to_float s)
  | TChoice l => if existsb (String.eqb s) l then Some (VText s) else None
  | TPath => Some (VText s)
  end.

(** main.py:29 [MOLECULE_OPTIONS] *)
Definition molecule_options : list string := ["trimer"; "disc"; "sphere"; "dimer"].
(** main.py:63-109: names on the command line, name of the argument, type, default *)
Record option_decl : Type := { o_flags : list string; o_name : string; o_type : opt_type; o_default : value }.
(* main.py:63-109 *)
Definition group_options : list option_decl :=
  [ {| o_flags := ["-s"; "--num-steps"; "--steps-max"]; o_name := "steps_max"; o_type := TInt; o_default := VNone |};
    {| o_flags := ["--keyframe-interval"; "--gen-steps"]; o_name := "keyframe_interval"; o_type := TInt; o_default := VInt 1000000 |};
    {| o_flags := ["--linear-steps"]; o_name := "linear_steps"; o_type := TInt; o_default := VInt 100 |};
    {| o_flags := ["--keyframe-max"; "--max-gen"]; o_name := "keyframe_max"; o_type := TInt; o_default := VInt 500 |};
    {| o_flags := ["--molecule"]; o_name := "molecule"; o_type := TChoice molecule_options; o_default := VNone |};
    {| o_flags := ["--wave-number"]; o_name := "wave_number"; o_type := TFloat; o_default := VFloat (Fin (3 # 10)) |};
    {| o_flags := ["-o"; "--output"]; o_name := "output"; o_type := TPath; o_default := VNone |} ].

(* main.py:63-109 the spellings of an option *)
Definition has_flag (d : option_decl) (f : string) : bool := existsb (String.eqb f) (o_flags d).
(** click: the last value given to the option *)
(* main.py:63-109 the last of several occurrences counts *)
Definition given_text (d : option_decl) (line : list (string * string)) : option string :=
  fold_left (fun acc fv => if has_flag d (fst fv) then Some (snd fv) else acc) line None.
(* main.py:63-109 the given or the default value *)
Definition option_value (d : option_decl) (line : list (string * string)) : option value :=
  match given_text d line with Some s => convert (o_type d) s | None => Some (o_default d) end.
(* main.py:111 the keyword arguments of the group *)
Fixpoint kwargs (ds : list option_decl) (line : list (string * string)) : option (dict string value) :=
  match ds with
  | [] => Some []
  | d :: ds' => match option_value d line, kwargs ds' line with
                | Some v, Some kw => Some ((o_name d, v) :: kw)
                | _, _ => None
                end
  end.
(* main.py:114 *)
Definition is_none (v : value) : bool := match v with VNone => true | _ => false end.
(** main.py:111-114 [sdanalysis]: ctx.obj; [None]: the usage message *)
Definition sdanalysis (line : list (string * string)) : option (dict string value) :=
  if forallb (fun fv => existsb (fun d => has_flag d (fst fv)) group_options) line
  then option_map (filter (fun kv => negb (is_none (snd kv)))) (kwargs group_options line)
  else None.

(** What is passed as mol_relaxations: nothing, or the generator of yaml.parse(path) *)
(* main.py:152-155 *)
Inductive relax_arg : Type := RNone | REvents (text : string).
(** The arguments with which process_file runs, read/_read.py:82-92 *)
Record process_args : Type := {
  a_infile : string; a_wave_number : value; a_steps_max : value; a_linear_steps : value; a_keyframe_interval : value;
  a_keyframe_max : value; a_mol_relaxations : relax_arg; a_outfile : string; a_scattering_function : bool }.
(** The options and arguments of comp_dynamics, main.py:119-142 *)
Record comp_line : Type := {
  c_mol_relaxations : option string; c_linear_dynamics : bool; c_scattering : bool; c_infile : string; c_outfile : string }.

(** Python: [process_file(infile=..., mol_relaxations=..., outfile=..., scattering_function=..., **obj)] with the
    parameters and defaults of read/_read.py:82-92 *)
Definition explicit : list string := ["infile"; "mol_relaxations"; "outfile"; "scattering_function"].
(* _read.py:84-88 the keyword arguments of process_file *)
Definition others : list string := ["wave_number"; "steps_max"; "linear_steps"; "keyframe_interval"; "keyframe_max"].
(* _read.py:85-88 the defaults of process_file *)
Definition or_default (d : dict string value) (k : string) (v : value) : value :=
  match dget String.eqb k d with Some x => x | None => v end.
(* main.py:159-165 *)
Definition call_process_file (c : comp_line) (r : relax_arg) (obj : dict string value) : process_args + exn :=
  if existsb (fun kv => existsb (String.eqb (fst kv)) explicit) obj then inr TypeError        (* given twice *)
  else if existsb (fun kv => negb (existsb (String.eqb (fst kv)) others)) obj then inr TypeError  (* unexpected *)
  else match dget String.eqb "wave_number" obj with
       | None => inr TypeError                                                                 (* missing *)
       | Some w => inl {| a_infile := c_infile c; a_wave_number := w; a_steps_max := or_default obj "steps_max" VNone;
                          a_linear_steps := or_default obj "linear_steps" VNone;
                          a_keyframe_interval := or_default obj "keyframe_interval" (VInt 1000000);
                          a_keyframe_max := or_default obj "keyframe_max" (VInt 500);
                          a_mol_relaxations := r; a_outfile := c_outfile c; a_scattering_function := c_scattering c |}
       end.
(** main.py:140-165 [comp_dynamics] *)
Definition comp_dynamics (c : comp_line) (obj : dict string value) : process_args + exn :=
  let obj := if c_linear_dynamics c then dset String.eqb "linear_steps" VNone obj else obj in
  let r := match c_mol_relaxations c with Some path => REvents path | None => RNone end in
  call_process_file c r obj.

(** The program up to the body of process_file: [None] is the usage message. *)
(* main.py:111-165 *)
Definition main (line : list (string * string)) (c : comp_line) : option (process_args + exn) :=
  option_map (comp_dynamics c) (sdanalysis line).
End Main.

(** The effect of [relax.set_mol_relax(mol_relaxations)], relaxations.py:109-112, on what main.py passes: the
    dictionary is emptied, and the first thing that the generator of yaml.parse gives is the event "start of
    stream", which has no [get]; if the text is not printable the generator raises a YAML error instead. *)
Definition custom_of {R : Type} (clear : R -> R) (printable : string -> bool) (a : relax_arg) : option (R -> R * option exn) :=
  match a with
  | RNone => None
  | REvents text => Some (fun r => (clear r, Some (if printable text then AttributeError else OtherError)))
  end.
