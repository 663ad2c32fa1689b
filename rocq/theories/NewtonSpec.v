(** Specification of the starting point and the accuracy of exponential_relaxation. *)
From Coq Require Import Reals List Bool.
From Verif Require Import Base RelaxFitModel.
Import ListNotations.
Open Scope R_scope.

(** [t] is the time of the first of the finite values that are closest to 1/e. *)
Definition first_closest (time : list R) (value : list fl) (t : R) : Prop :=
  exists i v, nth_error time i = Some t /\ nth_error value i = Some (FR v) /\
    (forall j u, nth_error value j = Some (FR u) -> Rabs (v - / exp 1) <= Rabs (u - / exp 1)) /\
    (forall j u, (j < i)%nat -> nth_error value j = Some (FR u) -> Rabs (v - / exp 1) < Rabs (u - / exp 1)).
(** The two ways of deciding that a step is smaller than the tolerance 1e-4 *)
Definition tolerance : R := / 10 ^ 4.
Definition small_step (close : R -> bool) : Prop :=
  (forall s, s < tolerance -> close s = true) /\ (forall s, close s = true -> s <= tolerance).
(** Number and value of a sample *)
Definition number (v : fl) : option R := match v with FR r => Some r | _ => None end.
