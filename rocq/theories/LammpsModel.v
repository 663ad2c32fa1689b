(** Model of src/sdanalysis/read/_lammps.py.

    A file is its text.  [pfloat] is Python's [float] on strings ([None]: ValueError),
    [sub] the subtraction of doubles, [f32] the conversion to float32 that storing in a
    float32 array does, [junk i] whatever [np.empty] leaves in entry [i]. *)
From Coq Require Import String Ascii ZArith List Bool.
From Verif Require Import Base PyStr FrameModel.
Import ListNotations.
Open Scope string_scope.
Open Scope Z_scope.

(** What a consumer of a generator sees: the items, then how it ended. [Ok tt] is
    exhaustion. *)
(* _lammps.py:42-95 what a generator yields, and how it ends *)
Record stream (A : Type) : Type := { items : list A; ending : result unit }.
Arguments items {A}.
Arguments ending {A}.
(* _lammps.py:93 yield *)
Definition cons_item {A} (x : A) (s : stream A) : stream A :=
  {| items := x :: items s; ending := ending s |}.
(* _lammps.py:51, 94-95 the end of a generator *)
Definition ended {A} (e : result unit) : stream A := {| items := []; ending := e |}.

(** [l[i] = v] of an array: negative indexes count from the end. *)
(* _lammps.py:90 assignment to an array element *)
Definition py_set {A} (l : list A) (i : Z) (v : A) : list A + exn :=
  let n := Z.of_nat (List.length l) in
  let j := if i <? 0 then i + n else i in
  if (j <? 0) || (n <=? j) then inr IndexError
  else inl (firstn (Z.to_nat j) l ++ v :: skipn (S (Z.to_nat j)) l)%list.

(** [l.index("id")] *)
(* _lammps.py:80 list.index *)
Fixpoint index_of (k : string) (i : nat) (l : list string) : nat + exn :=
  match l with
  | [] => inr ValueError
  | x :: l' => if String.eqb k x then inl i else index_of k (S i) l'
  end.

Section Lammps.
  Context {A : Type} (pfloat : string -> option A) (sub : A -> A -> A) (f32 : A -> A)
          (junk : nat -> A).

  (* _lammps.py:68-70, 90 float(...) *)
  Definition py_float (s : string) : A + exn :=
    match pfloat s with Some v => inl v | None => inr ValueError end.
  (* _lammps.py:68-70, 88 indexing a list of words *)
  Definition get (l : list string) (i : nat) : string + exn :=
    match nth_error l i with Some x => inl x | None => inr IndexError end.

  (** _lammps.py:62-69: [float(b[1]) - float(b[0])] of one line *)
  Definition bounds (line : string) : A + exn :=
    let b := split_ws line in
    ebind (get b 1) (fun hi => ebind (py_float hi) (fun h =>
    ebind (get b 0) (fun lo => ebind (py_float lo) (fun l => inl (sub h l))))).

  (** _lammps.py:79-81: the dictionary comprehension; a repeated heading is one key *)
  Definition empty_arrays (headings : list string) (n : nat) : lframe A :=
    fold_left (fun d h => dset String.eqb h (LArr (map junk (seq 0 n))) d) headings [].

  (** _lammps.py:86-87: [for field, val in zip(headings, line)] *)
  Fixpoint store (headings line : list string) (mol_index : Z) (d : lframe A) : lframe A + exn :=
    match headings, line with
    | h :: hs, v :: vs =>
        ebind (py_float v) (fun x =>
        ebind (lget h d) (fun old =>
        ebind (larr TypeError old) (fun a =>
        ebind (py_set a mol_index (f32 x)) (fun a' =>
        store hs vs mol_index (dset String.eqb h (LArr a') d)))))
    | _, _ => inl d
    end.

  (** _lammps.py:83-87: one atom line each *)
  Fixpoint atoms (n : nat) (headings : list string) (id_col : nat) (d : lframe A)
           (ls : list string) : (lframe A * list string) + exn :=
    match n with
    | O => inl (d, ls)
    | S n' =>
        let '(line, ls') := readline ls in
        let toks := split_char " " line in
        ebind (get toks id_col) (fun w =>
        ebind (py_int w) (fun k =>
        ebind (store headings toks (k - 1) d) (fun d' =>
        atoms n' headings id_col d' ls')))
    end.

  (** _lammps.py:47-90: one turn of the loop after its first line.  [inr AssertionError]:
      an assertion of the parser failed. *)
  Definition parse_frame (line : string) (ls : list string)
    : (lframe A * list string) + exn :=
    if negb (String.eqb line ("ITEM: TIMESTEP" ++ NL)) then inr AssertionError else
    let '(line, ls) := readline ls in
    ebind (py_int (strip line)) (fun timestep =>
    let '(line, ls) := readline ls in
    if negb (String.eqb line ("ITEM: NUMBER OF ATOMS" ++ NL)) then inr AssertionError else
    let '(line, ls) := readline ls in
    ebind (py_int (strip line)) (fun num_atoms =>
    let '(line, ls) := readline ls in
    if negb (contains "ITEM: BOX BOUNDS" line) then inr AssertionError else
    let '(bx, ls) := readline ls in
    let '(by_, ls) := readline ls in
    let '(bz, ls) := readline ls in
    ebind (bounds bx) (fun lx => ebind (bounds by_) (fun ly => ebind (bounds bz) (fun lz =>
    let '(line, ls) := readline ls in
    if negb (contains "ITEM: ATOMS" line) then inr AssertionError else
    let headings := skipn 2 (split_char " " (strip line)) in
    ebind (index_of "id" 0 headings) (fun id_col =>
    if num_atoms <? 0 then inr ValueError else
    ebind (atoms (Z.to_nat num_atoms) headings id_col
             (empty_arrays headings (Z.to_nat num_atoms)) ls) (fun r =>
    let '(d, ls) := r in
    inl (dset String.eqb "timestep" (LInt timestep)
           (dset String.eqb "box" (LArr [lx; ly; lz]) d), ls)))))))).

  (** _lammps.py:42-92 [parse_lammpstrj]: the [while True] loop; each turn reads a line,
      so [S (length ls)] turns are enough (proved). *)
  Fixpoint parse_loop (fuel : nat) (ls : list string) : stream (lframe A) :=
    match fuel with
    | O => ended OutOfFuel
    | S fuel' =>
        match readline ls with
        | ("", _) => ended (Ok tt)
        | (line, ls') =>
            match parse_frame line ls' with
            | inl (d, ls'') => cons_item d (parse_loop fuel' ls'')
            | inr AssertionError => ended (Raise RuntimeError)
            | inr e => ended (Raise e)
            end
        end
    end.
  (* _lammps.py:42-95 *)
  Definition parse_lammpstrj (text : string) : stream (lframe A) :=
    let ls := lines_of (universal text) in
    parse_loop (S (List.length ls)) ls.

  (** _lammps.py:28-39 [read_lammps_trajectory].  The timestep of a parsed frame is an
      integer (last assignment of parse_frame); comparing an array would raise. *)
  Fixpoint take_steps (steps_max : option Z) (fs : list (lframe A)) (e : result unit)
    : stream (list nat * lframe A) :=
    match fs with
    | [] => ended e
    | f :: fs' =>
        match steps_max with
        | None => cons_item ([0%nat], f) (take_steps steps_max fs' e)
        | Some m =>
            match l_timestep f with
            | inl (LInt t) =>
                if m <? t then ended (Ok tt)
                else cons_item ([0%nat], f) (take_steps steps_max fs' e)
            | inl (LArr _) => ended (Raise ValueError)
            | inr x => ended (Raise x)
            end
        end
    end.
  (* _lammps.py:28-39 *)
  Definition read_lammps_trajectory (text : string) (steps_max : option Z)
    : stream (list nat * lframe A) :=
    let s := parse_lammpstrj text in
    take_steps steps_max (items s) (ending s).
End Lammps.
