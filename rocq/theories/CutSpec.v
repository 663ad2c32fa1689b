(** A trajectory file that is cut off after a step. *)
From Coq Require Import Reals ZArith List.
From Verif Require Import Base FrameModel EndGsdSpec.
Import ListNotations.

(** What follows in the file is after step [m]: nothing but corrupted frames, or some of them
    and then a snapshot of a later step. *)
Inductive later (N : nat) (m : Z) : list (snapshot R + exn) -> Prop :=
| later_end : later N m []
| later_corrupt : forall b, later N m b -> later N m (inr RuntimeError :: b)
| later_snapshot : forall s b, gsd_snapshot N s -> (m < s_step s)%Z -> later N m (inl s :: b).
