(** What the table of relaxation times should hold. *)
From Coq Require Import String Reals ZArith QArith List.
From Verif Require Import Base XNum EndSpec RelaxTableModel RelaxTableSpec.
Import ListNotations.

(** A number that can label a row: it is no NaN, nor the mark for a missing relaxation *)
Definition labels (x : xnum) : Prop := exists q, x = Fin q /\ ~ (q == 4294967295)%Q.
Definition columns6 : list string := ["tau_D"; "tau_F"; "tau_L"; "tau_T2"; "tau_T3"; "tau_T4"]%string.
(** Every molecule has passed every threshold. *)
Definition all_relaxed (N : nat) (s : dict string (list Z)) : Prop :=
  forall name i v, In name columns6 -> (i < N)%nat -> entry s name i v -> v <> (2 ^ 32 - 1)%Z.
(** The row of key frame [j] at the temperature and the pressure of the file name *)
Definition row_of {A} (j : nat) (t p : Q) (x : key * list (string * Q) * option A) : Prop :=
  same_key (CNum (inject_Z (Z.of_nat j)), CNum t, CNum p) (fst (fst x)).
(** The means of the column [name] of the times [s] of the molecules are in the row. *)
Definition averaged (s : dict string (list Z)) (name : string) (stats : list (string * Q)) : Prop :=
  exists col m h, dget String.eqb name s = Some col /\
    In ((name ++ "_mean")%string, m) stats /\ is_mean (map inject_Z col) m /\
    In ((name ++ "_hmean")%string, h) stats /\ is_hmean (map inject_Z col) h.
(** The fit of a line ends, or fails with a TypeError. *)
Definition fit_ends (curve_fit : list (R * R) -> (R * R * R) + exn) : Prop :=
  forall pts e, curve_fit pts = inr e -> e = TypeError.
