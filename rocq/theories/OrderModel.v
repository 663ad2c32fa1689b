(** Model of src/sdanalysis/order.py, over the reals.

    freud's neighbour lists are inputs: for each molecule a row of [max_neighbours] indices,
    an index that is not below the number of molecules (2^32 - 1) marking a missing one.
    Rounding is not modelled, nor the warning of lines 47-52. *)
From Coq Require Import Reals List Bool Arith.
From Verif Require Import Base RVec RelaxFitModel MotionModel.
Import ListNotations.
Open Scope R_scope.

Section Order.
  (** What rowan.log gives as angle for a negative real quaternion *)
  Variable neg_real : R.

  (** [rowan.norm(rowan.log(r))] for a non-zero quaternion *)
  (* order.py:63-65 within rowan.geometry.intrinsic_distance *)
  Definition log_angle (r : quat) : R :=
    if Req_EM_T (qx r * qx r + qy r * qy r + qz r * qz r) 0
    then (if Rlt_dec (qw r) 0 then neg_real else 0)
    else acos (qw r / sqrt (qnorm2 r)).
  (* order.py:63-65 within rowan.geometry.intrinsic_distance *)
  Definition log_norm (r : quat) : R :=
    let l := ln (sqrt (qnorm2 r)) in let a := log_angle r in sqrt (l * l + a * a).
  (** [rowan.geometry.intrinsic_distance(p, q)] *)
  (* order.py:63-65 *)
  Definition intrinsic_distance (p q : quat) : R := log_norm (qmul (qconj p) q).

  (** order.py:28-65 [_neighbour_relative_angle].  [np.where] and the distance broadcast along the
      first axis. *)
  Definition present (n : nat) (row : list nat) (i : nat) : list nat :=
    map (fun j => if (j <? n)%nat then j else i) row.                           (* 58-59 *)
  (* order.py:28-65 *)
  Definition relative_angle (nl : list (list nat)) (ori : list quat) : list (list R) + exn :=
    let n := length ori in
    ebind (bzip (present n) nl (seq 0 n)) (fun nl' =>
    bzip (fun row q => map (fun j => 2 * intrinsic_distance (nth j ori qone) q) row) nl' ori).   (* 63-65 *)

  (** order.py:68-86 [_orientational_order]; 234-262 with the neighbour list given *)
  Definition orientational_order (nl : list (list nat)) (ori : list quat) : list R + exn :=
    ebind (relative_angle nl ori) (fun a =>
    inl (map (fun row => rmean (map (fun x => cos x * cos x) row)) a)).

  (** order.py:124-147 [create_orient_ordering] *)
  Definition orient_ordering (threshold : R) (nl : list (list nat)) (ori : list quat) : list bool + exn :=
    ebind (orientational_order nl ori) (fun o => inl (map (fun x => Rltb threshold x) o)).
End Order.

(** order.py:150-171 [create_neigh_ordering]; the numbers of Voronoi neighbours (312-315) are freud's *)
Definition neigh_ordering (neighbours : nat) (counts : list nat) : list bool := map (Nat.eqb neighbours) counts.

(** order.py:284-309 [relative_distances]; [r_sq_list] is freud's *)
Definition relative_distances (r_sq_list : list (list R)) : list (list R) :=
  map (map (fun x => sqrt (if Rlt_dec x 0 then 0 else x))) r_sq_list.

(** order.py:265-281 [num_neighbours]: [nn radius k i] are the neighbours freud finds for molecule [i]
    of [n], 174-183 [setup_neighbours] *)
Definition num_neighbours (nn : R -> nat -> nat -> list nat) (n : nat) (max_radius : R) : list nat :=
  map (fun i => length (nn max_radius 9%nat i)) (seq 0 n).
