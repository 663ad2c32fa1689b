(** Specification of the ordering by orientations, for molecules turned in the plane. *)
From Coq Require Import Reals List Bool Arith.
Import ListNotations.
Open Scope R_scope.

(** The squared cosines of the angles between molecule [i] and the molecules in [l], summed *)
Definition agreement (theta : list R) (i : nat) (l : list nat) : R :=
  fold_right (fun j s => cos (nth j theta 0 - nth i theta 0) ^ 2 + s) 0 l.
