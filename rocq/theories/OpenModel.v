(** Model of open_trajectory for every kind of file, _read.py:198-243: the choice by the
    suffix of the file name, over the gsd part (GsdModel.open_gsd) and the lammpstrj parser
    (LammpsModel.parse_lammpstrj).  It is a generator: nothing happens before the first
    frame is asked for, so that all its errors are in the ending of the stream. *)
From Coq Require Import String ZArith List Bool.
From Verif Require Import Base FrameModel ParamsModel ProcessPathModel.
From Verif Require GsdModel LammpsModel.
Import ListNotations.
Open Scope string_scope.

Section Open.
  Context {P A : Type}.
  Variable pfloat : string -> option A.
  Variable sub : A -> A -> A.
  Variable f32 : A -> A.
  Variable junk : nat -> A.

  (** A file on the disk: what gsd reads in it, [None] if it is not a gsd file, and the
      text in it. *)
  (* _read.py:218, 240; _lammps.py:44 the two ways of opening a file *)
  Record file : Type := { as_gsd : option (list (GsdModel.raw P)); as_text : string }.
  (** A frame of either kind *)
  (* _read.py:234, 242 *)
  Inductive anyframe : Type :=
  | OfGsd (f : GsdModel.frame P)
  | OfLammps (f : lframe A).
  (** What the consumer of the generator sees *)
  (* _read.py:233-242 the frames and how the generator ends *)
  Record opened : Type := { o_frames : list anyframe; o_end : option exn }.

  (** The ending of a parser: the fuel of parse_lammpstrj is always enough (C65) *)
  (* _read.py:241 end of the loop over the parser *)
  Definition end_of (r : result unit) : option exn :=
    match r with
    | Ok _ => None
    | Raise e => Some e
    | OutOfFuel => Some OtherError
    end.

  (** [disk] has the files by their names.  gsd.hoomd.open raises RuntimeError on a file
      which is not a gsd file; a missing file is an OSError (OtherError) for both. *)
  (* _read.py:216-242 *)
  Definition open_trajectory (disk : string -> option file) (filename : string)
             (progressbar : GsdModel.progress) (frame_interval : Z) : opened :=
    if String.eqb (path_suffix filename) ".gsd" then
      match disk filename with
      | None => {| o_frames := []; o_end := Some OtherError |}
      | Some f =>
          match as_gsd f with
          | None => {| o_frames := []; o_end := Some RuntimeError |}
          | Some t =>
              let s := GsdModel.open_gsd progressbar frame_interval t in
              {| o_frames := map OfGsd (GsdModel.items s); o_end := GsdModel.ending s |}
          end
      end
    else if String.eqb (path_suffix filename) ".lammpstrj" then
      match disk filename with
      | None => {| o_frames := []; o_end := Some OtherError |}
      | Some f =>
          let s := LammpsModel.parse_lammpstrj pfloat sub f32 junk (as_text f) in
          {| o_frames := map OfLammps (LammpsModel.items s);
             o_end := end_of (LammpsModel.ending s) |}
      end
    else {| o_frames := []; o_end := None |}.
End Open.
Arguments file : clear implicits.
Arguments anyframe : clear implicits.
Arguments opened : clear implicits.
