(** Contracts of scipy's fitting routines, and what a fit of exact data is. *)
From Coq Require Import Reals ZArith List.
From Verif Require Import Base.
Import ListNotations.
Open Scope R_scope.

Definition sum {A} (f : A -> R) (l : list A) : R := fold_right (fun x s => f x + s) 0 l.

(** Sum of squared residuals of the points against the curve [g]. *)
Definition ssr (g : R -> R) (pts : list (R * R)) : R :=
  sum (fun p => (snd p - g (fst p)) * (snd p - g (fst p))) pts.

Definition two_times (pts : list (R * R)) : Prop :=
  exists t1 v1 t2 v2, In (t1, v1) pts /\ In (t2, v2) pts /\ t1 <> t2.

Definition mean (f : R * R -> R) (pts : list (R * R)) : R := sum f pts / INR (length pts).
(** Sum of squares of the times about their mean, and of the products. *)
Definition sxx (pts : list (R * R)) : R :=
  sum (fun p => (fst p - mean fst pts) * (fst p - mean fst pts)) pts.
Definition sxy (pts : list (R * R)) : R :=
  sum (fun p => (fst p - mean fst pts) * (snd p - mean snd pts)) pts.

(** scipy.optimize.curve_fit for a line through at least three points, not all at the same
    time: the least squares line, and as variance of the slope
    (residual sum of squares / (n - 2)) / sxx. *)
Definition fits_lines (curve_fit : list (R * R) -> (R * R * R) + exn) : Prop :=
  forall pts, (3 <= length pts)%nat -> two_times pts ->
  exists m b,
    curve_fit pts = inl (m, b, ssr (fun t => m * t + b) pts / INR (length pts - 2) / sxx pts)
    /\ forall m' b', ssr (fun t => m * t + b) pts <= ssr (fun t => m' * t + b') pts.

(** curve_fit for a decay, on data that lie on a decaying exponential: a curve through all
    the points, with vanishing variances. *)
Definition fits_decays
           (curve_fit : list (R * R) -> R * R -> option (list R) -> (R * R * (R * R)) + exn) : Prop :=
  forall pts p0 a0 b0, (3 <= length pts)%nat -> two_times pts -> 0 < a0 ->
  (forall t v, In (t, v) pts -> v = a0 * exp (- b0 * t)) ->
  exists a b,
    curve_fit pts p0 None = inl (a, b, (0, 0)) /\ ssr (fun t => a * exp (- b * t)) pts = 0.

(** scipy.optimize.newton finds the root of a shifted exponential if it is given its
    derivative (the tolerance of 1e-4 is not modelled). *)
Definition finds_roots (newton : (R -> R) -> (R -> R) -> R -> R + exn) : Prop :=
  forall f f' x0 a b, 0 < a -> b <> 0 -> (forall z, f z = a * exp (- b * z) - / exp 1) ->
  (forall z, derivable_pt_lim f z (f' z)) ->
  exists x, newton f f' x0 = inl x /\ f x = 0.

(** At least [k] samples have property [P]. *)
Definition at_least {A} (k : nat) (P : A -> Prop) (l : list A) : Prop :=
  exists idx, NoDup idx /\ length idx = k
              /\ forall i, In i idx -> exists v, nth_error l i = Some v /\ P v.

(** The points of the samples whose value is a real number with [P], in order. *)
Inductive points {V : Type} (real : V -> option R) (P : R -> Prop)
  : list R -> list V -> list (R * R) -> Prop :=
| pt_nil : points real P [] [] []
| pt_keep t v r time value pts : real v = Some r -> P r -> points real P time value pts ->
    points real P (t :: time) (v :: value) ((t, r) :: pts)
| pt_skip t v time value pts : (forall r, real v = Some r -> ~ P r) -> points real P time value pts ->
    points real P (t :: time) (v :: value) pts.
