(** The same configuration with other names, images and origin. *)
From Coq Require Import Reals ZArith List.
From Verif Require Import VoronoiModel VoronoiSpec.
Open Scope R_scope.

(** Particle [i] is particle [f i], moved by [t] and by some multiple of the vectors of the box. *)
Definition moved (b : sheet) (t : point) (f : nat -> nat) (pos pos' : list point) : Prop :=
  length pos' = length pos /\
  (forall i j, (i < length pos)%nat -> (j < length pos)%nat -> f i = f j -> i = j) /\
  (forall i p, nth_error pos i = Some p -> exists k l, nth_error pos' (f i) = Some (shift b k l (fst p + fst t, snd p + snd t))).
