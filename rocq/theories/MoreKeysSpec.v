(** Specification vocabulary for C214: the frames that belong to one key frame. *)
From Coq Require Import ZArith List Bool Arith.
Import ListNotations.

(** The frames of a labelled list whose labels mention key frame [j], in order. *)
Definition of_key {F} (j : nat) (l : list (list nat * F)) : list F :=
  map snd (filter (fun p => existsb (Nat.eqb j) (fst p)) l).

(** A file with frames at [times] fits a series of [steps]: it holds only steps, or every step
    up to its last frame. *)
Definition fits (steps times : list Z) : Prop :=
  (forall x, In x times -> In x steps) \/
  (forall x y, In x steps -> In y times -> (x <= y)%Z -> In x times).
