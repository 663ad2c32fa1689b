(** What is claimed of run_analysis.order and of the orientational order. *)
From Coq Require Import Reals ZArith List Bool Arith.
From Verif Require Import Base RVec FrameModel OrderSpec.
Import ListNotations.
Open Scope R_scope.

(** The fraction of the entries that are true *)
Definition part (l : list bool) : R := INR (count_occ Bool.bool_dec l true) / INR (length l).
(** The mean over the neighbours that are present *)
Definition present_mean (n : nat) (row : list nat) (f : nat -> R) : R :=
  let js := filter (fun j => (j <? n)%nat) row in fold_right (fun j s => f j + s) 0 js / INR (length js).
(** freud's neighbour lists: eight places per molecule; at most eight of those within 3.5, all if no more; the other
    places hold a number that is no molecule. *)
Definition neigh_ok (dist : nat -> nat -> R) (n : nat) (rows : list (list nat)) : Prop :=
  length rows = n /\ forall i, (i < n)%nat -> exists found missing,
    nth i rows [] = (found ++ repeat missing (8 - length found))%list /\ (n <= missing)%nat /\
    NoDup found /\ incl found (within dist n (7 / 2) i) /\ length found = Nat.min 8 (length (within dist n (7 / 2) i)).
(** A frame that is read in the same way each time *)
Definition always {A} (l : list A) : list (A * A) := map (fun r => (r, r)) l.
