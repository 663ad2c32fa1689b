(** Specification vocabulary for C220: a system made of copies of a system. *)
From Coq Require Import String ZArith List Permutation.
Import ListNotations.

(** Each of the [n] molecules is taken [m] times, in any order. *)
Definition copies (n m : nat) (idx : list nat) : Prop := (0 < m)%nat /\ Permutation idx (concat (repeat (seq 0 n) m)).
(** The columns that say something about a single molecule or an average *)
Definition intensive (key : string) : Prop := key <> "overlap"%string /\ key <> "struct"%string.
