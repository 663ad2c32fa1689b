(** What is known of floating point arithmetic, and the averages it approximates. *)
From Coq Require Import Reals ZArith List.
From Coq.Floats Require Import SpecFloat.
From Verif Require Import RVec.
Import ListNotations.
Open Scope R_scope.

(** Rounding preserves the order, and keeps the numbers of at most [p] bits, in a range of exponents
    which is smaller than that of single precision. *)
Definition rounding (p : Z) (rnd : R -> R) : Prop :=
  (forall x y, x <= y -> rnd x <= rnd y) /\
  (forall m e, (Z.abs m <= 2 ^ p)%Z -> (-60 <= e <= 60)%Z -> rnd (IZR m * powerRZ 2 e) = IZR m * powerRZ 2 e).
(** The relative error of an operation is at most [u]. *)
Definition relative (u : R) (rnd : R -> R) : Prop := 0 <= u < 1 /\ forall x, Rabs (rnd x - x) <= u * Rabs x.
(** A cosine is between -1 and 1, and that of 0 is 1. *)
Definition cosine (fcos : R -> R) : Prop := (forall x, -1 <= fcos x <= 1) /\ fcos 0 = 1.

(** The true averages *)
Definition total (l : list R) : R := fold_right Rplus 0 l.
Definition average (l : list R) : R := total l / INR (length l).
Definition len2 (v : v3) : R := x3 v * x3 v + y3 v * y3 v + z3 v * z3 v.
(** [y] is [x] up to [k] relative errors. *)
Definition within (u : R) (k : nat) (x y : R) : Prop := x * (1 - u) ^ k <= y /\ y * (1 - u) ^ k <= x.

(** The number a binary floating point number stands for *)
Definition value (x : spec_float) : R :=
  match x with
  | S754_finite s m e => (if s then -1 else 1) * IZR (Zpos m) * powerRZ 2 e
  | _ => 0
  end.
