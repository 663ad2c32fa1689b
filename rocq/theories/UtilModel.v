(** Model of the quaternion helpers of src/sdanalysis/util.py (138-175), over the reals.
    The conversion to float32 is not modelled. *)
From Coq Require Import Reals List Bool.
From Verif Require Import Base RVec MotionModel OrderModel.
Import ListNotations.
Open Scope R_scope.

(** util.py:138-139 [quaternion_rotation] for one pair; [nr] as in OrderModel *)
Definition quaternion_rotation (nr : R) (initial final : quat) : R := intrinsic_distance nr initial final.

(** util.py:150-157 [z2quaternion] *)
Definition z2quaternion (theta : list R) : list quat := map (fun t => from_euler t 0 0) theta.
(** util.py:160-167 [quaternion2z] *)
Definition quaternion2z (gimbal : quat -> v3) (q : list quat) : list R := map (fun r => x3 (to_euler gimbal r)) q.

(** util.py:170-175 [orientation2positions], for the number of particles and the positions of the
    molecule: [np.tile], then the rotated offsets one particle after the other.
    [np.concatenate] of nothing is a ValueError. *)
Definition orientation2positions (num_particles : nat) (offsets position : list v3) (orientation : list quat) : list v3 + exn :=
  match offsets with
  | [] => inr ValueError
  | _ => bzip add3 (concat (repeat position num_particles))
                   (concat (map (fun o => map (fun q => rot q o) orientation) offsets))
  end.
