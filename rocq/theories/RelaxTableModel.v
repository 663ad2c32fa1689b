(** Model of src/sdanalysis/relaxation.py:394-526: the tables of relaxations.

    A pandas table is a list of column names and a list of rows; a group-by on
    keyframe, temperature, pressure keeps the rows without a missing key.  pandas sorts the
    groups, here they are in order of first appearance: the order of output rows is not
    modelled.  Values of the molecular table are rationals or missing ([None]). *)
From Coq Require Import String ZArith QArith List Bool.
From Verif Require Import Base XNum RelaxationModel.
Import ListNotations.
Open Scope string_scope.

(** A cell of a key column. *)
(* relaxation.py:470, 516 a value of a key column *)
Inductive cell : Set := CNaN | CNum (q : Q) | CStr (s : string).
(* relaxation.py:470, 516 *)
Definition cell_eqb (a b : cell) : bool :=
  match a, b with
  | CNum x, CNum y => Qeq_bool x y
  | CStr s, CStr t => s =? t
  | _, _ => false                               (* NaN is not equal to itself *)
  end.
(** keyframe, temperature, pressure *)
(* relaxation.py:470, 516 *)
Definition key : Set := (cell * cell * cell)%type.
(* relaxation.py:470, 516 *)
Definition key_eqb (a b : key) : bool :=
  let '(a1, a2, a3) := a in let '(b1, b2, b3) := b in
  cell_eqb a1 b1 && cell_eqb a2 b2 && cell_eqb a3 b3.
(** No component is missing. *)
(* relaxation.py:470, 516 groupby drops keys with NaN *)
Definition key_ok (k : key) : bool := key_eqb k k.

(* relaxation.py:470, 487, 516, 522 *)
Definition key_names : list string := ["keyframe"; "temperature"; "pressure"].
(* relaxation.py:449, 467, 503-510 *)
Definition memb (s : string) (l : list string) : bool := existsb (String.eqb s) l.

(** pandas [groupby(["keyframe", "temperature", "pressure"])] *)
(* relaxation.py:470, 516, 522 *)
Fixpoint distinct (l : list key) : list key :=
  match l with
  | [] => []
  | k :: l' => k :: filter (fun k' => negb (key_eqb k k')) (distinct l')
  end.
(* relaxation.py:470, 516, 522 *)
Definition groupby {A} (keyof : A -> key) (rows : list A) : list (key * list A) :=
  map (fun k => (k, filter (fun r => key_eqb k (keyof r)) rows))
      (distinct (filter key_ok (map keyof rows))).

(** * The molecular relaxations, 502-526 *)
(* relaxation.py:502 a row of the table *)
Record mrow : Type := { m_key : key; m_val : string -> option Q }.
(* relaxation.py:502 the table of molecular relaxations *)
Record mtable : Type := { m_columns : list string; m_rows : list mrow }.

(* relaxation.py:513 *)
Definition max32 : Q := 4294967295.

(** relaxation.py:513: [df.replace(2 ** 32 - 1, np.nan)] *)
Definition repl_cell (c : cell) : cell :=
  match c with CNum q => if Qeq_bool q max32 then CNaN else c | _ => c end.
(* relaxation.py:513 *)
Definition repl_row (r : mrow) : mrow :=
  {| m_key := let '(a, b, c) := m_key r in (repl_cell a, repl_cell b, repl_cell c);
     m_val := fun col => match m_val r col with
                         | Some q => if Qeq_bool q max32 then None else Some q
                         | None => None
                         end |}.

(* relaxation.py:522 the columns which are aggregated *)
Definition value_columns (columns : list string) : list string :=
  filter (fun c => negb (memb c key_names)) columns.

(** relaxation.py:517: [x.isna().sum().sum() == 0] for a group *)
Definition complete_row (cols : list string) (r : mrow) : bool :=
  forallb (fun c => match m_val r c with Some _ => true | None => false end) cols.

(* relaxation.py:522 mean *)
Definition qsum (l : list Q) : Q := fold_right Qplus 0%Q l.
(* relaxation.py:522 mean *)
Definition qlen (l : list Q) : Q := inject_Z (Z.of_nat (List.length l)).
(** [mean] *)
(* relaxation.py:522 mean *)
Definition qmean (l : list Q) : Q := qsum l / qlen l.
(** [scipy.stats.hmean]: raises ValueError for a value that is negative or - in old versions
    ([zero_ok] = false) - zero; one zero makes the result zero. *)
(* relaxation.py:522 hmean *)
Definition hmean_ok (zero_ok : bool) (q : Q) : bool :=
  if zero_ok then Qle_bool 0 q else Qltb 0 q.
(* relaxation.py:522 hmean *)
Definition qhmean (l : list Q) : Q :=
  if existsb (fun q => Qeq_bool q 0) l then 0%Q else (qlen l / qsum (map Qinv l))%Q.

(* relaxation.py:522 a column of a group *)
Definition col_values (c : string) (rows : list mrow) : list Q :=
  flat_map (fun r => match m_val r c with Some q => [q] | None => [] end) rows.

(** relaxation.py:502-526 [compute_molecular_relaxations].  pandas 0.25 silently drops from the aggregate
    the columns for which hmean raises ValueError. *)
Definition compute_molecular_relaxations (zero_ok : bool) (df : mtable)
  : list (key * list (string * Q)) + exn :=
  if negb (memb "temperature" (m_columns df)) then inr ValueError
  else if negb (memb "pressure" (m_columns df)) then inr ValueError
  else if negb (memb "keyframe" (m_columns df)) then inr ValueError
  else
    let cols := value_columns (m_columns df) in
    let rows := map repl_row (m_rows df) in
    let good := filter (fun g => forallb (complete_row cols) (snd g)) (groupby m_key rows) in   (* 516-518 *)
    let kept := filter (fun c => forallb (fun g => forallb (hmean_ok zero_ok) (col_values c (snd g))) good) cols in
    inl (map (fun g =>                                                                       (* 522-525 *)
                (fst g, flat_map (fun c => [(c ++ "_mean", qmean (col_values c (snd g)));
                                            (c ++ "_hmean", qhmean (col_values c (snd g)))]) kept))
             good).

(** * The dynamic quantities, 394-499 *)
(** [d_label] is the row label of the table 'dynamics'. *)
(* relaxation.py:461 a row of the table *)
Record drow : Type := { d_label : Q; d_key : key; d_val : string -> xnum }.
(* relaxation.py:461 the table of dynamics *)
Record dtable : Type := { d_columns : list string; d_rows : list drow }.

Section Dynamics.
  (** compute_relaxation_value(...).mean, 424-425 *)
  Context {M : Type}.
  Variable value_of : list Q -> list xnum -> string -> M + exn.

  (** relaxation.py:415-425 [series_relaxation_value]: the labels of the series are the time axis.  The
      labels of the table written by process_file have no names, so 421-423 do nothing. *)
  Definition series_relaxation_value (name : string) (rows : list drow) : M + exn :=
    value_of (map d_label rows) (map (fun r => d_val r name) rows) name.

  (* relaxation.py:470-472 the aggregated columns of one group *)
  Fixpoint columns_of (cols : list string) (rows : list drow) : list (string * M) + exn :=
    match cols with
    | [] => inl []
    | c :: cols' => ebind (series_relaxation_value c rows) (fun v =>
                    ebind (columns_of cols' rows) (fun vs => inl ((c, v) :: vs)))
    end.
  (* relaxation.py:470-472 *)
  Fixpoint all_groups (cols : list string) (gs : list (key * list drow))
    : list (key * list (string * M)) + exn :=
    match gs with
    | [] => inl []
    | (k, rows) :: gs' => ebind (columns_of cols rows) (fun vs =>
                          ebind (all_groups cols gs') (fun l => inl ((k, vs) :: l)))
    end.

  (** relaxation.py:465 *)
  Definition extra_columns : list string := ["mean_displacement"; "mean_rotation"; "mfd"; "overlap"].

  (** relaxation.py:463-472: drop the extra columns, group, aggregate. *)
  Definition dynamics_relaxations (df : dtable) : list (key * list (string * M)) + exn :=
    if forallb (fun c => memb c (d_columns df)) key_names then
      all_groups (filter (fun c => negb (memb c extra_columns)) (value_columns (d_columns df)))
                 (groupby d_key (d_rows df))
    else inr KeyError.

  (** A row of the table 'relaxations': key, molecular columns, dynamic columns ([None]: all
      missing). *)
  (* relaxation.py:486-488 a row of the joined table *)
  Definition rrow : Type := (key * list (string * Q) * option (list (string * M)))%type.

  (** relaxation.py:428-499 [compute_relaxations], for a file that opens as HDF5; [None] is an absent table.
      488: left join of the molecular groups with the dynamic ones.  The result is the
      content of table 'relaxations'. *)
  Definition compute_relaxations (zero_ok : bool) (dyn : option dtable) (mol : option mtable)
    : list rrow + exn :=
    match dyn, mol with
    | Some dyn, Some mol =>
        ebind (dynamics_relaxations dyn) (fun relaxations =>
        ebind (compute_molecular_relaxations zero_ok mol) (fun df_mol =>
        inl (map (fun g => (fst g, snd g,
                            match filter (fun x => key_eqb (fst g) (fst x)) relaxations with
                            | x :: _ => Some (snd x)
                            | [] => None
                            end)) df_mol)))
    | _, _ => inr KeyError
    end.
End Dynamics.
