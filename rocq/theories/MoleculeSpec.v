(** Specification of molecules. *)
From Coq Require Import String QArith_base Reals List Bool Sorted.
From Verif Require Import XNum RVec.
Import ListNotations.
Open Scope R_scope.
Notation length := List.length.

(** The centre of mass is the origin. *)
Definition centred (l : list v3) : Prop := fold_right add3 zero3 l = zero3.
(** The same arrangement of points, perhaps elsewhere *)
Definition same_shape (l l' : list v3) : Prop :=
  length l' = length l /\
  forall i j, (i < length l)%nat -> (j < length l)%nat ->
    sub3 (nth i l' zero3) (nth j l' zero3) = sub3 (nth i l zero3) (nth j l zero3).
(** [v] turned by the angle [t] (radians) about the z axis *)
Definition turn (t : R) (v : v3) : v3 := mk3 (cos t * x3 v - sin t * y3 v) (sin t * x3 v + cos t * y3 v) (z3 v).
(** The angle between two vectors, in degrees *)
Definition between (v w : v3) : R := acos (dot3 v w / (norm3 v * norm3 w)) * 180 / PI.

Definition strings_sorted (l : list string) : Prop := StronglySorted (fun s t => String.leb s t = true) l.

(** The same number; NaN is no number. *)
Definition same_number (x y : xnum) : Prop :=
  match x, y with Fin p, Fin q => Qeq p q | PInf, PInf => True | NInf, NInf => True | _, _ => False end.
