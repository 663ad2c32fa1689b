(** process_file as a function of the name of its input file, _read.py:108-195: the model
    of ProcessModel with the parts that depend on the file name filled in. *)
From Coq Require Import String Ascii ZArith QArith List Bool.
From Verif Require Import Base XNum PyStr FrameModel ParamsModel WriteCacheModel ProcessModel.
Import ListNotations.
Open Scope string_scope.

(** [Path.suffix]: the name from its last dot on, if that is neither first nor last *)
(* _read.py:118, 126, 217, 238 *)
Definition path_suffix (p : string) : string :=
  let name := path_name p in
  match rfind_dot 0 name with
  | Some i => if (0 <? i)%nat && (S i <? String.length name)%nat
              then String.substring i (String.length name - i) name else ""
  | None => ""
  end.

Section Path.
  Context {D R F Row Sum : Type}.
  Variable npos : F -> nat.
  Variable mk : F -> (D * R) + exn.
  Variable custom : option (R -> R * option exn).
  Variable compute : D -> F -> D * (Row + exn).
  Variable radd : R -> F -> R * option exn.
  Variable summary : R -> Sum.
  Variable pfloat : string -> option xnum.        (* float() of a string *)

  (** A row with the columns keyframe, temperature and pressure. *)
  (* _read.py:159-167 a row with its labels *)
  Record labelled : Type := {
    lb_row : Row; lb_keyframe : nat; lb_temperature : xnum; lb_pressure : xnum }.
  (** _read.py:160-163, 164-167, 180-183, 184-187 *)
  Definition column (v : option string) : xnum + exn :=
    match v with
    | None => inl NaN
    | Some s => match pfloat s with Some x => inl x | None => inr ValueError end
    end.
  (** _read.py:159-167 *)
  Definition label_vars (v : variables) (k : nat) (row : Row) : labelled + exn :=
    ebind (column (v_temperature v)) (fun t =>
    ebind (column (v_pressure v)) (fun p =>
    inl {| lb_row := row; lb_keyframe := k; lb_temperature := t; lb_pressure := p |})).
  (** _read.py:180-187: how the labelling of the summaries fails *)
  Definition float_exn (v : variables) : option exn :=
    match column (v_temperature v) with
    | inr e => Some e
    | inl _ => match column (v_pressure v) with inr e => Some e | inl _ => None end
    end.
  (** [gsd] and [lammps]: what the two readers make of the file *)
  (* _read.py:82-195 *)
  Definition process_path (infile : string) (outfile : bool)
             (gsd lammps : list (list nat * F) * option exn)
             (t0 : table (nat * labelled)) (r0 : option (list (nat * Sum))) : outcome labelled Sum :=
    let run vars v reader :=
      process_file npos mk custom compute radd (label_vars v) summary outfile vars (float_exn v)
                   reader t0 r0 in
    match get_filename_vars infile with
    | inr e => run (Some e) no_variables None
    | inl v =>
        run None v (if String.eqb (path_suffix infile) ".gsd" then Some gsd
                    else if String.eqb (path_suffix infile) ".lammpstrj" then Some lammps
                    else None)
    end.
End Path.
Arguments labelled : clear implicits.
