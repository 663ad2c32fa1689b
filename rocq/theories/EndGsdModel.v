(** The analysis of a gsd file: the readers of _gsd.py (GsdModel) and HoomdFrame (FrameModel)
    put before process_file (EndModel).

    Simplified: a snapshot without orientations would raise a TypeError in _read.py:138; gsd
    fills in missing orientations, so such a snapshot does not come from a file. *)
From Coq Require Import String Reals ZArith List Bool.
From Verif Require Import Base XNum RVec FrameModel RunModel MotionModel DynModel MolRelaxModel WriteCacheModel
  ProcessModel ProcessPathModel GsdModel StepSizeModel EndModel.
Import ListNotations.
Open Scope R_scope.

(** [trajectory[index]] and [HoomdFrame], _gsd.py:50, 75: [inl] a snapshot, [inr] the exception
    of reading it *)
Definition raw_of (x : snapshot R + exn) : raw (hoomd_frame R) :=
  match x with
  | inl s => Good (s_step s) (HoomdFrame s)
  | inr RuntimeError => Corrupt
  | inr e => Broken e
  end.

(** A row of positions, _read.py:149 *)
Definition to_v3 (v : vec3 R) : v3 := let '(x, y, z) := v in mk3 x y z.
(** The attributes of a HoomdFrame that process_file uses, _read.py:138-139, 147-153, frame.py:162-196 *)
Definition eframe_of (f : hoomd_frame R) : eframe :=
  mkframe (h_timestep f) (h_box f)
          (match h_position f with inl p => map to_v3 p | inr _ => [] end)
          (match h_orientation f with inl q => Some (map to_quat q) | inr _ => None end).

(** read_gsd_trajectory, _gsd.py:192-209, called at _read.py:119-125 *)
Definition gsd_reader (fuel steps : nat) (steps_max linear_steps : option Z) (interval keyframe_max : Z)
           (file : list (snapshot R + exn)) : result (list (list nat * eframe) * option exn) :=
  match read_gsd_trajectory fuel steps steps_max linear_steps interval keyframe_max (map raw_of file) with
  | Ok s => Ok (map (fun p => (fst p, eframe_of (snd (snd p)))) (items s), ending s)
  | Raise e => Raise e
  | OutOfFuel => OutOfFuel
  end.

Section Gsd.
  Variable wrap : MotionModel.fbox -> v3 -> v3.
  Variable gimbal : RVec.quat -> v3.
  Variable argsort : list R -> list nat.
  Variable fl : R -> xnum.
  Variable calculate : MotionModel.fbox -> list v3 -> R + exn.
  Variable parse : string -> option xnum.
  Variable show : yaml -> string.
  Variable mol : list v3.
  Variable wave : option R.
  Variable scattering : bool.
  Variable defs : option (list definition).

  (** process_file of a gsd file, _read.py:82-195 *)
  Definition analyse_gsd (fuel steps : nat) (infile : string) (outfile : bool)
             (steps_max linear_steps : option Z) (interval keyframe_max : Z) (file : list (snapshot R + exn))
             (t0 : table (nat * labelled (dict string dval))) (r0 : option (list (nat * dict string (list Z))))
    : result (outcome (labelled (dict string dval)) (dict string (list Z))) :=
    match gsd_reader fuel steps steps_max linear_steps interval keyframe_max file with
    | Ok g => Ok (analyse wrap gimbal argsort fl calculate parse show mol wave scattering defs infile outfile g ([], None) t0 r0)
    | Raise e => Raise e
    | OutOfFuel => OutOfFuel
    end.
End Gsd.
