(** Specification of the comparison-only summaries of relaxation.py. *)
From Coq Require Import QArith List.
From Verif Require Import XNum.
Import ListNotations.
Open Scope nat_scope.

(** A value that has passed the threshold, in the given direction. *)
Definition passed (decay : bool) (threshold v : xnum) : Prop :=
  if decay then xlt v threshold = true else xlt threshold v = true.

(** Sample [i] is the first with property [P]. *)
Definition first_at {A} (P : A -> Prop) (l : list A) (i : nat) : Prop :=
  (exists v, nth_error l i = Some v /\ P v)
  /\ forall j w, j < i -> nth_error l j = Some w -> ~ P w.

(** Sample [i] holds the largest value that is not NaN, and is the first to do so. *)
Definition first_max (l : list xnum) (i : nat) (v : xnum) : Prop :=
  nth_error l i = Some v /\ v <> NaN
  /\ (forall j w, nth_error l j = Some w -> xlt v w = false)
  /\ (forall j w, j < i -> nth_error l j = Some w -> w <> NaN -> xlt w v = true).

(** The error the documentation promises: the distance to the neighbouring samples,
    averaged if there are two ([g i j] is the distance from sample [i] to sample [j]). *)
Definition neighbour_gap {A} (g : A -> A -> Q) (l : list A) (i : nat) (e : Q) : Prop :=
  exists x, nth_error l i = Some x /\
  ((exists p n, 0 < i /\ nth_error l (i - 1)%nat = Some p /\ nth_error l (i + 1) = Some n
                /\ (e == (g p x + g x n) / 2)%Q)
   \/ (exists p, 0 < i /\ i + 1 = length l /\ nth_error l (i - 1)%nat = Some p /\ (e == g p x)%Q)
   \/ (exists n, i = 0 /\ nth_error l (i + 1) = Some n /\ (e == g x n)%Q)
   \/ (length l = 1 /\ (e == 0)%Q)).

Definition increasing (l : list Q) : Prop :=
  forall i j x y, i < j -> nth_error l i = Some x -> nth_error l j = Some y -> (x < y)%Q.

Definition all_finite (l : list xnum) : Prop :=
  forall i v, nth_error l i = Some v -> exists q, v = Fin q.
