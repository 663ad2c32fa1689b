(** Model of src/sdanalysis/figures/thermodynamics.py: reading a table of thermodynamic
    quantities, and the callbacks of the dashboard.

    Values are reals or NaN ([None]); infinite values and rounding are not modelled.  The time
    of a row is exactly 5 ns for each step.  Assigning to an attribute of a bokeh model calls
    its callbacks at once, if the value changes.  What bokeh draws is not modelled. *)
From Coq Require Import String Reals ZArith List Bool.
From Verif Require Import Base RVec MotionModel.
Import ListNotations.
Open Scope string_scope.
Notation length := List.length.

(* thermodynamics.py:25 a value of a column *)
Definition cell : Set := option R.
(** A column as pandas.read_table types it *)
(* thermodynamics.py:25 *)
Inductive tcolumn : Set := Ints (l : list Z) | Floats (l : list cell) | Texts (l : list string).
(** The columns of a file, and of a dataframe, in order *)
(* thermodynamics.py:25 *)
Definition tfile : Type := dict string tcolumn.
(* thermodynamics.py:29-30 *)
Definition frame : Type := dict string (list cell).

(** The columns over which [mean] can be taken; the others are dropped. *)
(* thermodynamics.py:29 *)
Definition numbers (c : tcolumn) : option (list cell) :=
  match c with
  | Ints l => Some (map (fun n => Some (IZR n)) l)
  | Floats l => Some l
  | Texts _ => None
  end.

(** Nanoseconds *)
(* thermodynamics.py:26 to_timedelta(timestep * 0.005, unit="us") *)
Definition time_of (step : Z) : Z := (5 * step)%Z.

(** The rows that are not followed by one with the same time *)
(* thermodynamics.py:28 index.duplicated(keep="last") *)
Fixpoint kept (i : nat) (l : list Z) : list nat :=
  match l with
  | [] => []
  | t :: l' => if existsb (Z.eqb t) l' then kept (S i) l' else i :: kept (S i) l'
  end.

(** pandas sorts the rows by time before it resamples. *)
(* thermodynamics.py:29 *)
Fixpoint insert_row (time : nat -> Z) (i : nat) (l : list nat) : list nat :=
  match l with
  | [] => [i]
  | j :: l' => if (time i <=? time j)%Z then i :: l else j :: insert_row time i l'
  end.
(* thermodynamics.py:29 *)
Definition sort_rows (time : nat -> Z) (l : list nat) : list nat := fold_right (insert_row time) [] l.

(** One millisecond *)
(* thermodynamics.py:29 resample("1ms") *)
Definition bin : Z := 1000000.
(** [searchsorted(side="left")]: how many of the sorted times are before [e] *)
(* thermodynamics.py:29 *)
Definition before (time : nat -> Z) (l : list nat) (e : Z) : nat := length (filter (fun i => (time i <? e)%Z) l).
(** The rows of each bin; the bins begin at the first time, and the last one has the last
    time. *)
(* thermodynamics.py:29 *)
Definition groups (time : nat -> Z) (l : list nat) : list (list nat) :=
  match l with
  | [] => []
  | i0 :: _ =>
      let start := time i0 in
      let n := Z.to_nat ((time (last l i0) - start) / bin + 1) in
      map (fun k => let lo := before time l (start + Z.of_nat k * bin) in
                    let hi := before time l (start + (Z.of_nat k + 1) * bin) in
                    firstn (hi - lo) (skipn lo l)) (seq 0 n)
  end.

(** The mean of those that are not NaN *)
(* thermodynamics.py:29 mean() *)
Definition mean_cell (l : list cell) : cell :=
  let xs := flat_map (fun c => match c with Some x => [x] | None => [] end) l in
  match xs with
  | [] => None
  | _ => Some (fold_right Rplus 0 xs / INR (length xs))%R
  end.

(* thermodynamics.py:29 one column of the result *)
Definition resample (steps : list Z) (c : list cell) : list cell :=
  let time i := time_of (nth i steps 0%Z) in
  map (fun g => mean_cell (map (fun i => nth i c None) g)) (groups time (sort_rows time (kept 0 steps))).

(** thermodynamics.py:23-30 [read_file]; [data.timestep] raises AttributeError without such a
    column.  A column of the file that is called time is overwritten and becomes the index.  A
    column of steps that are not integers is outside of the model. *)
Definition read_file (f : tfile) : frame + exn :=
  match dget String.eqb "timestep" f with
  | None => inr AttributeError
  | Some (Texts _) => inr TypeError
  | Some (Floats _) => inr OtherError
  | Some (Ints steps) =>
      inl (flat_map (fun p => match numbers (snd p) with Some c => [(fst p, resample steps c)] | None => [] end)
                    (filter (fun p => negb (String.eqb (fst p) "time")) f))
  end.

(** The widgets and the data of the dashboard, thermodynamics.py:77-84 *)
Record view : Type := mkview {
  v_dir : string;                                 (* directory.value *)
  v_options : list string;                        (* fname.options *)
  v_file : string;                                (* fname.value *)
  v_data : frame;                                 (* dataframe *)
  v_factors : list string;                        (* factors.options *)
  v_factor : string;                              (* factors.value *)
  v_default : frame;                              (* default_columns.data *)
  v_columns : frame                               (* datacolumns.data *)
}.

Section Dashboard.
  (** The files of a directory that match [thermo*], and what reading one gives *)
  Variable ls : string -> list string.
  Variable content : string -> string -> tfile + exn.

  (* thermodynamics.py:65-69 an attribute of the dataframe *)
  Definition attribute (name : string) (d : frame) : list cell + exn :=
    match dget String.eqb name d with Some c => inl c | None => inr AttributeError end.

  (** thermodynamics.py:62-74 [update_datacolumns] *)
  Definition update_datacolumns (s : view) : view * option exn :=
    let d := v_data s in
    match ebind (attribute "timestep" d) (fun x =>
          ebind (attribute "temperature" d) (fun t =>
          ebind (attribute "pressure" d) (fun p =>
          ebind (attribute "potential_energy" d) (fun u =>
          ebind (attribute "kinetic_energy" d) (fun k =>
          inl (x, [("x", x); ("temperature", t); ("pressure", p); ("potential_energy", u); ("kinetic_energy", k)])))))) with
    | inr e => (s, Some e)
    | inl (x, def) =>
        let s := mkview (v_dir s) (v_options s) (v_file s) d (v_factors s) (v_factor s) def (v_columns s) in
        match dget String.eqb (v_factor s) d with
        | None => (s, Some KeyError)
        | Some y => (mkview (v_dir s) (v_options s) (v_file s) d (v_factors s) (v_factor s) def [("x", x); ("y", y)], None)
        end
    end.

  (** Assigning to factors.value, thermodynamics.py:59, 85 *)
  Definition set_factor (f : string) (s : view) : view * option exn :=
    if String.eqb f (v_factor s) then (s, None)
    else update_datacolumns (mkview (v_dir s) (v_options s) (v_file s) (v_data s) (v_factors s) f (v_default s) (v_columns s)).

  (** thermodynamics.py:56-59 [update_factors] *)
  Definition update_factors (s : view) : view * option exn :=
    let s := mkview (v_dir s) (v_options s) (v_file s) (v_data s) (dkeys (v_data s)) (v_factor s) (v_default s) (v_columns s) in
    match nth_error (v_factors s) 2 with
    | None => (s, Some IndexError)
    | Some f => set_factor f s
    end.

  (** thermodynamics.py:46-53 [update_file] *)
  Definition update_file (new : string) (s : view) : view * option exn :=
    match ebind (content (v_dir s) new) read_file with
    | inr e => (s, Some e)
    | inl d =>
        let s := mkview (v_dir s) (v_options s) (v_file s) d (v_factors s) (v_factor s) (v_default s) (v_columns s) in
        match update_factors s with
        | (s, Some e) => (s, Some e)
        | (s, None) => update_datacolumns s
        end
    end.

  (** Assigning to fname.value, thermodynamics.py:41, 83 *)
  Definition set_file (f : string) (s : view) : view * option exn :=
    if String.eqb f (v_file s) then (s, None)
    else update_file f (mkview (v_dir s) (v_options s) f (v_data s) (v_factors s) (v_factor s) (v_default s) (v_columns s)).

  (** thermodynamics.py:33-43 [update_file_list]: an IndexError of any of the callbacks is
      ignored as well. *)
  Definition update_file_list (new : string) (s : view) : view * option exn :=
    let old := v_file s in
    let s := mkview (v_dir s) (ls new) (v_file s) (v_data s) (v_factors s) (v_factor s) (v_default s) (v_columns s) in
    match v_options s with
    | [] => (s, None)
    | f0 :: _ =>
        match set_file (if existsb (String.eqb old) (v_options s) then old else f0) s with
        | (s, Some IndexError) => (s, None)
        | r => r
        end
    end.

  (** What a user can do *)
  (* thermodynamics.py:80-85 the callbacks *)
  Inductive action : Set := SetDirectory (d : string) | SelectFile (f : string) | SelectFactor (f : string).
  (** A widget offers the options that it has. *)
  (* thermodynamics.py:82-85 *)
  Definition offered (a : action) (s : view) : Prop :=
    match a with
    | SetDirectory _ => True
    | SelectFile f => In f (v_options s)
    | SelectFactor f => In f (v_factors s)
    end.
  (* thermodynamics.py:80-85 *)
  Definition act (a : action) (s : view) : view * option exn :=
    match a with
    | SetDirectory d =>
        if String.eqb d (v_dir s) then (s, None)
        else update_file_list d (mkview d (v_options s) (v_file s) (v_data s) (v_factors s) (v_factor s) (v_default s) (v_columns s))
    | SelectFile f => set_file f s
    | SelectFactor f => set_factor f s
    end.

  (** thermodynamics.py:77-85, before the first call of update_file_list *)
  Definition blank : view := mkview "." [] "" [] [] "" [] [].
  (** Importing the module, thermodynamics.py:77-86 *)
  Definition start : view * option exn := update_file_list "." blank.
  (** The columns that get a plot, fixed when the module is imported, thermodynamics.py:89-94, 104-107 *)
  Definition plots (s : view) : list string := filter (fun c => negb (String.eqb c "x")) (dkeys (v_default s)).
End Dashboard.
