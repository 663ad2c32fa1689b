(** The table molecular_relaxations of process_file, _read.py:175-191: how the columns of the
    relaxations and the columns that label them are put together.  ProcessPathModel has the
    relaxations without these labels. *)
From Coq Require Import String ZArith List Bool.
From Verif Require Import Base XNum FrameModel ParamsModel WriteCacheModel ProcessModel ProcessPathModel.
Import ListNotations.
Open Scope string_scope.
Open Scope list_scope.

(* _read.py:177-191 a column of the rows of one key frame *)
Inductive mcol : Type :=
| CKeyframe                     (* the key of the key frame in every row *)
| CMolecule                     (* the rows counted from 0 *)
| CStatus (l : list Z)          (* what the relaxation reports, relaxations.py:181-184 *)
| CConst (x : xnum).            (* the same number in every row *)

(** [mol_relax[name] = x]: a column of that name is replaced, otherwise a new one is added. *)
(* _read.py:180-187 *)
Definition set_column (name : string) (x : xnum) (cols : dict string mcol) : dict string mcol :=
  dset String.eqb name (CConst x) cols.

(** [reset_index]: the two levels of the index become the first columns.  pandas raises
    ValueError "cannot insert ..., already exists" for a name that is taken. *)
(* _read.py:188-189 *)
Definition reset_index (cols : dict string mcol) : dict string mcol + exn :=
  if dmem String.eqb "molecule" cols || dmem String.eqb "keyframe" cols then inr ValueError
  else inl (("keyframe", CKeyframe) :: ("molecule", CMolecule) :: cols).

(* _read.py:177-189 the columns of one key frame *)
Definition mol_columns (t p : xnum) (s : dict string (list Z)) : dict string mcol + exn :=
  reset_index (set_column "pressure" p (set_column "temperature" t (map (fun c => (fst c, CStatus (snd c))) s))).

(* _read.py:177-189 of all key frames; every one has the same relaxations *)
Fixpoint all_columns (t p : xnum) (l : list (nat * dict string (list Z))) : list (nat * dict string mcol) + exn :=
  match l with
  | [] => inl []
  | (k, s) :: l' => ebind (mol_columns t p s) (fun c => ebind (all_columns t p l') (fun cs => inl ((k, c) :: cs)))
  end.

Section Clash.
  Context {D R F Row : Type}.
  Variable npos : F -> nat.
  Variable mk : F -> (D * R) + exn.
  Variable custom : option (R -> R * option exn).
  Variable compute : D -> F -> D * (Row + exn).
  Variable radd : R -> F -> R * option exn.
  Variable summary : R -> dict string (list Z).
  Variable pfloat : string -> option xnum.

  (** process_file with an output file, _read.py:82-191: the exception, if any, the table
      dynamics and the table molecular_relaxations. *)
  Definition process_columns (infile : string) (gsd lammps : list (list nat * F) * option exn)
             (t0 : table (nat * labelled Row)) (r0 : option (list (nat * dict string mcol)))
    : option exn * table (nat * labelled Row) * option (list (nat * dict string mcol)) :=
    let o := process_path npos mk custom compute radd summary pfloat infile true gsd lammps t0 None in
    match out_result o, out_relax o with
    | inr e, _ => (Some e, out_table o, r0)
    | inl _, None => (None, out_table o, r0)
    | inl _, Some l =>
        match get_filename_vars infile with
        | inr e => (Some e, out_table o, r0)
        | inl v =>
            match ebind (column pfloat (v_temperature v)) (fun t =>
                  ebind (column pfloat (v_pressure v)) (fun p => all_columns t p l)) with
            | inl cols => (None, out_table o, Some cols)
            | inr e => (Some e, out_table o, r0)
            end
        end
    end.
End Clash.
