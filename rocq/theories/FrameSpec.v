(** Specification vocabulary for frames; independent of the model's helpers. *)
From Coq Require Import ZArith List.
From Verif Require Import FrameModel.
Import ListNotations.
Open Scope Z_scope.

(** [m] is the largest element of [l]. *)
Definition largest (m : Z) (l : list Z) : Prop := In m l /\ forall x, In x l -> x <= m.

(** The number of molecules that a snapshot of [N] particles with these body ids has:
    one more than the largest id if that is a number in 1..N, otherwise one per particle. *)
Inductive molecules (N : Z) : option (list Z) -> Z -> Prop :=
| mol_absent : molecules N None N
| mol_empty : molecules N (Some []) N
| mol_bodies b m : largest m b -> 1 <= m + 1 <= N -> molecules N (Some b) (m + 1)
| mol_out b m : largest m b -> ~ 1 <= m + 1 <= N -> molecules N (Some b) N.
