(** The whole program: the command line (MainModel), the reading of the trajectory
    (EndGsdModel, EndLammpsModel) and process_file (ProcessPathModel with EndModel).

    The value of a float given on the command line is a rational number; a wave number that is
    infinite or NaN is outside of the model. *)
From Coq Require Import String Reals ZArith QArith Qreals List Bool.
From Verif Require Import Base XNum RVec FrameModel RunModel LammpsModel MotionModel DynModel MolRelaxModel
  WriteCacheModel ProcessModel ProcessPathModel GsdModel StepSizeModel EndModel EndGsdModel EndLammpsModel MainModel.
Import ListNotations.
Open Scope R_scope.
Notation length := List.length.

(** What the program does: it shows how it is used, an exception ends it, or process_file
    ends in one way or the other.  [Unfinished]: more fuel is needed; [Outside]: see above *)
(* main.py:111-165 *)
Inductive ran : Type :=
  | Usage
  | Failed (e : exn)
  | Done (o : outcome (labelled (dict string dval)) (dict string (list Z)))
  | Unfinished
  | Outside.

(* main.py:98-103 the wave number as a number *)
Definition wave_arg (v : value) : option (option R) :=
  match v with
  | VNone => Some None
  | VFloat (Fin q) => Some (Some (Q2R q))
  | _ => None
  end.
(* main.py:63-84 an optional integer *)
Definition int_or_none (v : value) : option (option Z) :=
  match v with VNone => Some None | VInt z => Some (Some z) | _ => None end.
(* main.py:71-92 an integer *)
Definition int_arg (v : value) : option Z := match v with VInt z => Some z | _ => None end.

(** relaxations.py:109-112 set_mol_relax of what main.py passes: the relaxations are cleared
    first. *)
Definition cleared (x : robj) : robj :=
  mkrobj (r_motion x) (r_num x) {| rx_init_time := rx_init_time (r_relax x); rx_relax := [] |}.

Section Command.
  Variables (to_float : string -> option xnum) (printable : string -> bool).
  Variables (pfloat : string -> option R) (sub : R -> R -> R) (f32 : R -> R) (junk : nat -> R).
  Variables (wrap : MotionModel.fbox -> v3 -> v3) (gimbal : RVec.quat -> v3) (argsort : list R -> list nat)
            (fl : R -> xnum) (calculate : MotionModel.fbox -> list v3 -> R + exn) (parse : string -> option xnum)
            (show : yaml -> string) (mol : list v3).
  (** The files: what gsd reads from a file, and its text *)
  Variables (gsd_of : string -> list (snapshot R + exn)) (text_of : string -> string).

  (** [sdanalysis OPTIONS comp-dynamics OPTIONS INFILE OUTFILE]; [t0] and [r0] are the tables
      of OUTFILE before.  Simplified: if both the name of the file cannot be understood and the
      reader raises before its first frame, it is the exception of the latter that is shown. *)
  (* main.py:111-165, _read.py:82-195 *)
  Definition command (fuel steps : nat) (line : list (string * string)) (c : comp_line)
             (t0 : table (nat * labelled (dict string dval))) (r0 : option (list (nat * dict string (list Z)))) : ran :=
    match main to_float line c with
    | None => Usage
    | Some (inr e) => Failed e
    | Some (inl a) =>
        match wave_arg (a_wave_number a), int_or_none (a_steps_max a), int_or_none (a_linear_steps a),
              int_arg (a_keyframe_interval a), int_arg (a_keyframe_max a) with
        | Some wave, Some steps_max, Some linear_steps, Some interval, Some keyframe_max =>
            let go gsd lammps :=
              Done (process_path (fun f => length (e_pos f)) (make fl calculate parse show mol wave)
                      (custom_of cleared printable (a_mol_relaxations a))
                      (compute wrap gimbal argsort (a_scattering_function a)) (radd wrap gimbal fl)
                      (fun x => summary (r_relax x)) parse (a_infile a) true gsd lammps t0 r0) in
            if String.eqb (path_suffix (a_infile a)) ".gsd" then
              match gsd_reader fuel steps steps_max linear_steps interval keyframe_max (gsd_of (a_infile a)) with
              | Ok g => go g ([], None)
              | Raise e => Failed e
              | OutOfFuel => Unfinished
              end
            else if String.eqb (path_suffix (a_infile a)) ".lammpstrj" then
              match lammps_reader pfloat sub f32 junk (text_of (a_infile a)) steps_max with
              | Ok g => go ([], None) g
              | Raise e => Failed e
              | OutOfFuel => Unfinished
              end
            else go ([], None) ([], None)
        | _, _, _, _, _ => Outside
        end
    end.
End Command.
