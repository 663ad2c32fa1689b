(** Specification of the dynamic quantities. *)
From Coq Require Import String Reals ZArith List Bool Permutation.
From Verif Require Import Base RVec RelaxFitModel MotionModel MotionSpec DynModel.
Import ListNotations.
Open Scope R_scope.

(** The contract of [np.argsort]: some order of the indices in which the values do not
    decrease.  Ties may be broken in any way. *)
Definition argsort_ok (argsort : list R -> list nat) : Prop :=
  forall l, Permutation (argsort l) (seq 0 (length l)) /\
    forall i j, (i < j < length l)%nat ->
      nth (nth i (argsort l) 0%nat) l 0 <= nth (nth j (argsort l) 0%nat) l 0.

(** [T] is a set of [n] indices holding largest values of [l]. *)
Definition top_set (n : nat) (l : list R) (T : list nat) : Prop :=
  NoDup T /\ length T = n /\ (forall i, In i T -> (i < length l)%nat) /\
  forall i j, In i T -> (j < length l)%nat -> ~ In j T -> nth j l 0 <= nth i l 0.

(** The fraction of the values satisfying a test *)
Definition fraction {A} (P : A -> bool) (l : list A) : R := INR (length (filter P l)) / INR (length l).

(** Particle positions of molecules: each particle turned and moved with its own molecule.
    Listed particle by particle. *)
Definition own_particles (position : list v3) (orientation : list quat) (mol : list v3) : list v3 :=
  flat_map (fun v => zip (fun t q => add3 (rot q v) t) position orientation) mol.

(** Renumbering: entry [i] of the new array is entry [nth i idx] of the old one. *)
Definition reorder {A} (d : A) (idx : list nat) (l : list A) : list A := map (fun i => nth i l d) idx.

(** State of a well formed Dynamics after any frames *)
Definition dyn_ok (d : dynamics) : Prop :=
  (0 < d_num d)%nat /\ length (m_dt (d_motion d)) = d_num d /\ length (m_dr (d_motion d)) = d_num d /\ (0 < d_res d)%nat.
