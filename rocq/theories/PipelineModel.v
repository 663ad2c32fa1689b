(** comp-relaxations after comp-dynamics: the tables that process_file leaves in OUTFILE, as
    compute_relaxations (RelaxTableModel) reads them. *)
From Coq Require Import String Reals ZArith QArith List Bool.
From Verif Require Import Base XNum DynModel ParamsModel ProcessModel ProcessPathModel RelaxationModel RelaxFitModel RelaxFullModel RelaxTableModel.
Import ListNotations.
Open Scope string_scope.
Notation length := List.length.

(** A number in a key column; the infinities, which are equal to themselves only, are written as
    text. *)
(* _read.py:160-167, 180-187 the columns temperature and pressure *)
Definition cell_of (x : xnum) : cell :=
  match x with NaN => CNaN | Fin q => CNum q | PInf => CStr "inf" | NInf => CStr "-inf" end.
(* _read.py:159-167, 177-188 the three columns that are grouped by *)
Definition key_of (k : nat) (t p : xnum) : key := (CNum (inject_Z (Z.of_nat k)), cell_of t, cell_of p).

(** The summary of key frame [k], _read.py:177-190: the index becomes the columns keyframe and
    molecule. *)
Definition mol_rows (t p : xnum) (ks : nat * dict string (list Z)) : list mrow :=
  let (k, s) := ks in
  map (fun i => {| m_key := key_of k t p;
                   m_val := fun c => if c =? "molecule" then Some (inject_Z (Z.of_nat i))
                                     else match dget String.eqb c s with
                                          | Some col => option_map inject_Z (nth_error col i)
                                          | None => None
                                          end |})
      (seq 0 (match s with (_, col) :: _ => length col | [] => 0%nat end)).
(** The table molecular_relaxations, _read.py:177-191.  Simplified: all summaries have the columns
    of the first one. *)
Definition mol_table (t p : xnum) (relax : list (nat * dict string (list Z))) : mtable :=
  {| m_columns := "keyframe" :: "molecule" :: (match relax with (_, s) :: _ => map fst s | [] => [] end) ++ ["temperature"; "pressure"];
     m_rows := flat_map (mol_rows t p) relax |}.

(* _read.py:147-152 a quantity as a number of finite precision *)
Definition number_of (fl : R -> xnum) (v : option dval) : xnum :=
  match v with
  | Some (VInt z) => Fin (inject_Z z)
  | Some (VFl (FR x)) => fl x
  | Some (VFl FPInf) => PInf
  | Some (VFl FNInf) => NInf
  | Some (VFl FNaN) | None => NaN
  end.
(** The table dynamics, _read.py:57-66, 78-79, 159-168: the rows are written 8192 at a time, each
    time labelled from 0 on. *)
Definition dyn_row (fl : R -> xnum) (n : nat) (kr : nat * labelled (dict string dval)) : drow :=
  let r := snd kr in
  {| d_label := inject_Z (Z.of_nat n mod 8192); d_key := key_of (lb_keyframe r) (lb_temperature r) (lb_pressure r);
     d_val := fun c => number_of fl (dget String.eqb c (lb_row r)) |}.
(* _read.py:57-66, 78-79 *)
Fixpoint dyn_rows (fl : R -> xnum) (n : nat) (rows : list (nat * labelled (dict string dval))) : list drow :=
  match rows with
  | [] => []
  | r :: rows' => dyn_row fl n r :: dyn_rows fl (S n) rows'
  end.
(* _read.py:57-66, 78-79 *)
Definition dyn_table (fl : R -> xnum) (rows : list (nat * labelled (dict string dval))) : dtable :=
  {| d_columns := (match rows with (_, r) :: _ => map fst (lb_row r) | [] => [] end) ++ ["keyframe"; "temperature"; "pressure"];
     d_rows := dyn_rows fl 0 rows |}.

(** relaxation.py:424-425 *)
Definition mean_of (nan_raises : bool) curve_fit (time : list Q) (values : list xnum) (name : string) : fl + exn :=
  RelaxationModel.ebind (relaxation_value nan_raises curve_fit time values name) (fun r => inl (fst r)).

(** [sdanalysis comp-relaxations OUTFILE], main.py:168-182, after comp-dynamics of [infile] left
    the outcome [o]: the table relaxations *)
Definition comp_relaxations (nan_raises : bool) curve_fit (zero_ok : bool) (fl : R -> xnum) (parse : string -> option xnum)
           (infile : string) (o : outcome (labelled (dict string dval)) (dict string (list Z))) : list (rrow (M := RelaxFitModel.fl)) + exn :=
  let dyn := option_map (dyn_table fl) (out_table o) in
  match get_filename_vars infile with
  | inr e => inr e
  | inl v =>
      match column parse (v_temperature v), column parse (v_pressure v) with
      | inl t, inl p => compute_relaxations (mean_of nan_raises curve_fit) zero_ok dyn (option_map (mol_table t p) (out_relax o))
      | inr e, _ | _, inr e => inr e
      end
  end.
