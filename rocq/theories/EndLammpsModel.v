(** The analysis of a lammpstrj file: the parser (LammpsModel) and LammpsFrame (FrameModel) put
    before process_file (EndModel). *)
From Coq Require Import String Reals ZArith List Bool.
From Verif Require Import Base XNum RVec FrameModel LammpsModel RunModel MotionModel DynModel MolRelaxModel WriteCacheModel
  ProcessModel ProcessPathModel EndModel EndGsdModel.
Import ListNotations.
Open Scope R_scope.

Section Reader.
  Variables (pfloat : string -> option R) (sub : R -> R -> R) (f32 : R -> R) (junk : nat -> R).

  (** The attributes of a LammpsFrame that process_file uses, frame.py:79-83, 101-118; the
      parser always sets the timestep and the box (_lammps.py:91-92). *)
  Definition leframe (d : lframe R) (p : list (vec3 R)) : eframe :=
    mkframe (match l_timestep d with inl (LInt t) => t | _ => 0%Z end)
            (match l_box 0 f32 d with inl b => b | inr _ => [] end)
            (map to_v3 p)
            (match l_orientation 0 1 d with inl q => Some (map to_quat q) | inr _ => None end).

  (** _read.py:128-129: reading the position raises if a column is missing, which ends
      process_file. *)
  Fixpoint attributes (l : list (list nat * lframe R)) (fin : option exn) : list (list nat * eframe) * option exn :=
    match l with
    | [] => ([], fin)
    | (idx, d) :: l' =>
        match l_position f32 d with
        | inl p => let (out, e) := attributes l' fin in ((idx, leframe d p) :: out, e)
        | inr e => ([], Some e)
        end
    end.

  (** read_lammps_trajectory, _lammps.py:28-39, called at _read.py:126-127 *)
  Definition lammps_reader (text : string) (steps_max : option Z) : result (list (list nat * eframe) * option exn) :=
    let s := read_lammps_trajectory pfloat sub f32 junk text steps_max in
    match ending s with
    | Ok _ => Ok (attributes (items s) None)
    | Raise e => Ok (attributes (items s) (Some e))
    | OutOfFuel => OutOfFuel
    end.

  Variable wrap : MotionModel.fbox -> v3 -> v3.
  Variable gimbal : RVec.quat -> v3.
  Variable argsort : list R -> list nat.
  Variable fl : R -> xnum.
  Variable calculate : MotionModel.fbox -> list v3 -> R + exn.
  Variable parse : string -> option xnum.
  Variable show : yaml -> string.
  Variable mol : list v3.
  Variable wave : option R.
  Variable scattering : bool.
  Variable defs : option (list definition).

  (** process_file of a lammpstrj file, _read.py:82-195 *)
  Definition analyse_lammps (infile : string) (outfile : bool) (steps_max : option Z) (text : string)
             (t0 : table (nat * labelled (dict string dval))) (r0 : option (list (nat * dict string (list Z))))
    : result (outcome (labelled (dict string dval)) (dict string (list Z))) :=
    match lammps_reader text steps_max with
    | Ok g => Ok (analyse wrap gimbal argsort fl calculate parse show mol wave scattering defs infile outfile ([], None) g t0 r0)
    | Raise e => Raise e
    | OutOfFuel => OutOfFuel
    end.
End Reader.
