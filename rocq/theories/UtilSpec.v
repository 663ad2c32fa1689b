(** Specification of the quaternion helpers. *)
From Coq Require Import Reals List.
From Verif Require Import RVec.
Import ListNotations.
Open Scope R_scope.

(** The angle, from 0 to pi, of the rotation that leads from orientation [p] to [q]: a rotation
    by [t] has trace 1 + 2 cos t. *)
Definition trace (r : quat) : R := x3 (rot r (mk3 1 0 0)) + y3 (rot r (mk3 0 1 0)) + z3 (rot r (mk3 0 0 1)).
Definition rotation_angle (p q : quat) (t : R) : Prop := 0 <= t <= PI /\ 1 + 2 * cos t = trace (qmul q (qconj p)).
