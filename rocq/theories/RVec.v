(** Vectors and quaternions over the reals, as computed by numpy and rowan.

    Rounding is not modelled.  The functions of rowan (>=1.2,<1.3) are stated here as
    formulas; they are the contract assumed of that library. *)
From Coq Require Import Reals List Bool.
Import ListNotations.
Open Scope R_scope.

Record v3 : Set := mk3 { x3 : R; y3 : R; z3 : R }.
Definition zero3 : v3 := mk3 0 0 0.
Definition add3 (a b : v3) : v3 := mk3 (x3 a + x3 b) (y3 a + y3 b) (z3 a + z3 b).
Definition sub3 (a b : v3) : v3 := mk3 (x3 a - x3 b) (y3 a - y3 b) (z3 a - z3 b).
Definition scale3 (k : R) (a : v3) : v3 := mk3 (k * x3 a) (k * y3 a) (k * z3 a).
Definition dot3 (a b : v3) : R := x3 a * x3 b + y3 a * y3 b + z3 a * z3 b.
(** [np.square(v).sum()] and [np.linalg.norm(v)] *)
Definition norm2_3 (a : v3) : R := dot3 a a.
Definition norm3 (a : v3) : R := sqrt (norm2_3 a).

(** Quaternions (w, x, y, z). *)
Record quat : Set := mkq { qw : R; qx : R; qy : R; qz : R }.
Definition qone : quat := mkq 1 0 0 0.
Definition qmul (p q : quat) : quat :=
  mkq (qw p * qw q - qx p * qx q - qy p * qy q - qz p * qz q)
      (qw p * qx q + qx p * qw q + qy p * qz q - qz p * qy q)
      (qw p * qy q - qx p * qz q + qy p * qw q + qz p * qx q)
      (qw p * qz q + qx p * qy q - qy p * qx q + qz p * qw q).
Definition qconj (q : quat) : quat := mkq (qw q) (- qx q) (- qy q) (- qz q).
Definition qneg (q : quat) : quat := mkq (- qw q) (- qx q) (- qy q) (- qz q).
Definition qnorm2 (q : quat) : R := qw q * qw q + qx q * qx q + qy q * qy q + qz q * qz q.
Definition qdot (p q : quat) : R := qw p * qw q + qx p * qx q + qy p * qy q + qz p * qz q.
Definition unit (q : quat) : Prop := qnorm2 q = 1.
(** [rowan.inverse], [rowan.divide] *)
Definition qinv (q : quat) : quat :=
  let n := qnorm2 q in mkq (qw q / n) (- qx q / n) (- qy q / n) (- qz q / n).
Definition qdivide (p q : quat) : quat := qmul p (qinv q).
(** [rowan.rotate]: vector part of q v q* *)
Definition rot (q : quat) (v : v3) : v3 :=
  let r := qmul q (qmul (mkq 0 (x3 v) (y3 v) (z3 v)) (qconj q)) in mk3 (qx r) (qy r) (qz r).

(** The polar angle of a point, [np.arctan2(y, x)] in (-pi, pi]. *)
Definition atan2 (y x : R) : R :=
  let r := sqrt (x * x + y * y) in
  if Req_EM_T r 0 then 0
  else if Rlt_dec y 0 then - acos (x / r) else acos (x / r).

(** Entries of [rowan.to_matrix] used below *)
Definition m00 (q : quat) : R := 1 - 2 * (qy q * qy q + qz q * qz q).
Definition m10 (q : quat) : R := 2 * (qx q * qy q + qw q * qz q).
Definition m20 (q : quat) : R := 2 * (qx q * qz q - qw q * qy q).
Definition m21 (q : quat) : R := 2 * (qy q * qz q + qw q * qx q).
Definition m22 (q : quat) : R := 1 - 2 * (qx q * qx q + qy q * qy q).

(** [rowan.to_euler(q)], convention zyx, intrinsic, for a unit quaternion; the angles are
    (about z, about y, about x).  [gimbal] is what rowan answers when cos(beta) is within
    1e-3 of 0; nothing is assumed about it. *)
Definition to_euler (gimbal : quat -> v3) (q : quat) : v3 :=
  let beta := asin (- m20 q) in
  if Rle_dec (Rabs (cos beta)) (/ 1000) then gimbal q
  else mk3 (atan2 (m10 q) (m00 q)) beta (atan2 (m21 q) (m22 q)).

(** Rotations about the axes, and [rowan.from_euler(alpha, beta, gamma)], zyx intrinsic *)
Definition zquat (t : R) : quat := mkq (cos (t / 2)) 0 0 (sin (t / 2)).
Definition yquat (t : R) : quat := mkq (cos (t / 2)) 0 (sin (t / 2)) 0.
Definition xquat (t : R) : quat := mkq (cos (t / 2)) (sin (t / 2)) 0 0.
Definition from_euler (alpha beta gamma : R) : quat :=
  qmul (zquat alpha) (qmul (yquat beta) (xquat gamma)).

(** Sums and means, [np.sum], [np.mean] of a non-empty array *)
Definition rsum (l : list R) : R := fold_right Rplus 0 l.
Definition rmean (l : list R) : R := rsum l / INR (length l).
