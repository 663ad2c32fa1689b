(** What the dashboard of thermodynamic quantities should show. *)
From Coq Require Import String Reals ZArith List Bool.
From Verif Require Import Base ThermoModel.
Import ListNotations.
Open Scope string_scope.
Notation length := List.length.

(** ** The mean of those that are not NaN; NaN without any *)
Fixpoint total (l : list cell) : R :=
  match l with [] => 0%R | Some x :: l' => (x + total l')%R | None :: l' => total l' end.
Fixpoint many (l : list cell) : nat :=
  match l with [] => 0 | Some _ :: l' => S (many l') | None :: l' => many l' end.
Definition is_mean (l : list cell) (c : cell) : Prop :=
  match c with
  | None => forall x, ~ In (Some x) l
  | Some m => (exists x, In (Some x) l) /\ (m * INR (many l) = total l)%R
  end.

(** ** Windows of 200000 steps (at 0.005 us each, one millisecond) *)
Definition step_at (steps : list Z) (i : nat) : Z := nth i steps 0%Z.
(** The row [i] is the last with its step. *)
Definition latest (steps : list Z) (i : nat) : Prop :=
  i < length steps /\ forall j, i < j < length steps -> step_at steps j <> step_at steps i.
(** The windows from [s0] on, [n] of them, the first and the last of which are not empty *)
Definition windows (steps : list Z) (s0 : Z) (n : nat) : Prop :=
  In s0 steps /\ (forall s, In s steps -> (s0 <= s < s0 + 200000 * Z.of_nat n)%Z) /\
  exists s, In s steps /\ (s0 + 200000 * (Z.of_nat n - 1) <= s)%Z.
Definition in_window (steps : list Z) (s0 : Z) (k i : nat) : Prop :=
  (s0 + 200000 * Z.of_nat k <= step_at steps i < s0 + 200000 * (Z.of_nat k + 1))%Z.
(** [out] has the averages over the windows of the column [c]. *)
Definition averages (steps : list Z) (c out : list cell) : Prop :=
  exists s0, windows steps s0 (length out) /\
    forall k, k < length out ->
      exists rows, NoDup rows /\ (forall i, In i rows <-> latest steps i /\ in_window steps s0 k i) /\
                   is_mean (map (fun i => nth i c None) rows) (nth k out None).

(** ** Tables *)
Definition column_length (c : tcolumn) : nat :=
  match c with Ints l => length l | Floats l => length l | Texts l => length l end.
(** A table with integer steps and at least one row *)
Definition rectangular (f : tfile) : Prop :=
  NoDup (map fst f) /\
  exists steps, In ("timestep", Ints steps) f /\ steps <> [] /\
    forall name c, In (name, c) f -> column_length c = length steps.
(** A column that is a quantity: numbers that are not called time *)
Inductive quantity : string * tcolumn -> Prop :=
  | q_ints name l : name <> "time" -> quantity (name, Ints l)
  | q_floats name l : name <> "time" -> quantity (name, Floats l).
(** The names of the quantities, in order *)
Inductive quantities : tfile -> list string -> Prop :=
  | qs_nil : quantities [] []
  | qs_yes p f names : quantity p -> quantities f names -> quantities (p :: f) (fst p :: names)
  | qs_no p f names : ~ quantity p -> quantities f names -> quantities (p :: f) names.
Definition cells (c : tcolumn) : list cell :=
  match c with Ints l => map (fun n => Some (IZR n)) l | Floats l => l | Texts _ => [] end.
(** [d] has the averages of the quantities of [f]. *)
Definition table_of (f : tfile) (d : frame) : Prop :=
  quantities f (map fst d) /\
  exists steps, In ("timestep", Ints steps) f /\
    forall name c out, In (name, c) f -> In (name, out) d -> averages steps (cells c) out.

(** ** The dashboard *)
Definition four : list string := ["temperature"; "pressure"; "potential_energy"; "kinetic_energy"].
(** A file with everything that the dashboard needs *)
Definition good (f : tfile) : Prop :=
  rectangular f /\ exists names, quantities f names /\ In "timestep" names /\ incl four names.
(** [d] has the column [c] under the name [name]. *)
Definition column (d : frame) (name : string) (c : option (list cell)) : Prop :=
  dget String.eqb name d = c /\ c <> None.
(** The plots of [s] are those of the averages [d], and the factors are the columns of [d]. *)
Definition plotted (s : view) (d : frame) : Prop :=
  let get name := dget String.eqb name d in
  column (v_default s) "x" (get "timestep") /\
  (forall name, In name four -> column (v_default s) name (get name)) /\
  column (v_columns s) "x" (get "timestep") /\
  column (v_columns s) "y" (get (v_factor s)) /\
  map fst (v_default s) = "x" :: four /\ v_factors s = map fst d.
(** The dashboard shows the file [f]. *)
Definition displays (s : view) (f : tfile) : Prop := exists d, table_of f d /\ plotted s d.

Section Runs.
  Variable ls : string -> list string.
  Variable content : string -> string -> tfile + exn.

  (** What a user does, one thing after the other.  The exceptions of callbacks are logged, and
      the dashboard goes on. *)
  Inductive run : view -> list action -> list view -> Prop :=
    | run_nil s : run s [] [s]
    | run_cons s a s' e acts trace :
        offered a s -> act ls content a s = (s', e) -> run s' acts trace -> run s (a :: acts) (s :: trace).
  (** The last state of a run *)
  Definition final (trace : list view) (s : view) : Prop := exists before, trace = (before ++ [s])%list.
  (** Every file that is offered is good. *)
  Definition all_good : Prop := forall d n, In n (ls d) -> n <> "" /\ exists f, content d n = inl f /\ good f.
End Runs.
