(** Specification of the ordering of local environments. *)
From Coq Require Import Reals List Bool Arith.
From Verif Require Import RVec.
Import ListNotations.
Open Scope R_scope.

(** Two orientations are aligned: the rotation from one to the other, made twice, is none.
    It is no rotation or a half turn. *)
Definition aligned (p q : quat) : Prop := forall v, rot (qmul p (qconj q)) (rot (qmul p (qconj q)) v) = v.

(** The mean of [f] over the neighbour slots, a missing neighbour counting 1 *)
Definition slot_mean (n : nat) (row : list nat) (f : nat -> R) : R :=
  fold_right (fun j s => (if (j <? n)%nat then f j else 1) + s) 0 row / INR (length row).

(** Separations of the neighbours of a molecule, [None] for a missing one, and how freud
    writes them in [r_sq_list] *)
Definition freud_r_sq (slot : option v3) : R := match slot with Some v => norm2_3 v | None => -1 end.

(** The number of other molecules closer than [r] to molecule [i] of [n] *)
Definition within (dist : nat -> nat -> R) (n : nat) (r : R) (i : nat) : list nat :=
  filter (fun j => negb (j =? i)%nat && (if Rlt_dec (dist i j) r then true else false)) (seq 0 n).
(** Contract of freud's NearestNeighbors with strict_cut: of the molecules within the radius
    at most [k], all of them if there are no more. *)
Definition nn_ok (dist : nat -> nat -> R) (n : nat) (nn : R -> nat -> nat -> list nat) : Prop :=
  forall r k i, (i < n)%nat -> NoDup (nn r k i) /\ incl (nn r k i) (within dist n r i) /\
    length (nn r k i) = Nat.min k (length (within dist n r i)).
