(** What it means to be the nearest neighbours in a periodic box. *)
From Coq Require Import Reals List Bool Arith.
From Verif Require Import RVec MotionModel MotionSpec.
Import ListNotations.
Open Scope R_scope.

Definition pos_of (x : list v3) (i : nat) : v3 := nth i x zero3.
(** Some periodic image of molecule [j] is closer than [rho] to molecule [i]. *)
Definition near (b : fbox) (x : list v3) (i j : nat) (rho : R) : Prop :=
  exists v, is_lattice b v /\ norm3 (add3 (sub3 (pos_of x j) (pos_of x i)) v) < rho.
(** Molecule [m] is not farther from [i] than [j] is. *)
Definition no_farther (b : fbox) (x : list v3) (i m j : nat) : Prop :=
  forall rho, near b x i j rho -> near b x i m rho.
(** The other molecules closer than [rho] *)
Definition other (b : fbox) (x : list v3) (i : nat) (rho : R) (j : nat) : Prop :=
  (j < length x)%nat /\ j <> i /\ near b x i j rho.
(** [l] lists the at most [k] nearest of the molecules within [r], the nearest first. *)
Definition nearest_list (b : fbox) (x : list v3) (r : R) (k i : nat) (l : list nat) : Prop :=
  NoDup l /\ (length l <= k)%nat /\ (forall j, In j l -> other b x i r j) /\
  (forall j, other b x i r j -> ~ In j l -> length l = k /\ forall m, In m l -> no_farther b x i m j) /\
  (forall s t, (s < t < length l)%nat -> no_farther b x i (nth s l 0%nat) (nth t l 0%nat)).
(** freud's contract for a configuration *)
Definition answers (nearest : fbox -> list v3 -> R -> nat -> nat -> list nat) b x r k : Prop :=
  forall i, (i < length x)%nat -> nearest_list b x r k i (nearest b x r k i).

(** No two molecules within [r] of [i] are equally far. *)
Definition no_ties (b : fbox) (x : list v3) (r : R) (i : nat) : Prop :=
  forall j m, other b x i r j -> other b x i r m ->
    no_farther b x i j m -> no_farther b x i m j -> j = m.
(** It is clear which are the [k] nearest: they are those within some smaller distance, or
    there are no more than [k] within [r]. *)
Definition clear_cut (b : fbox) (x : list v3) (r : R) (k i : nat) : Prop :=
  exists rho s, rho <= r /\ NoDup s /\ (forall j, In j s <-> other b x i rho j) /\
    (length s = k \/ (length s <= k)%nat /\ rho = r).

(** The same configuration with another origin and other images of the molecules *)
Definition moved (b : fbox) (x x' : list v3) : Prop :=
  exists t, Forall2 (fun p p' => is_lattice b (sub3 p' (add3 p t))) x x'.
(** The molecules in another order *)
Definition reordered {A : Type} (d : A) (sigma : list nat) (l : list A) : list A := map (fun i => nth i l d) sigma.

(** The box of a frame in the plane: sides and tilt *)
Definition flat_of (box : list R) (b : fbox) : Prop :=
  exists Lx Ly Lz, (box = [Lx; Ly; Lz] /\ b = mkbox Lx Ly 0 0 0 0 true) \/
    exists xy xz yz, box = [Lx; Ly; Lz; xy; xz; yz] /\ b = mkbox Lx Ly 0 xy 0 0 true.
(** Molecule [i] has the same neighbours within [r], in the same places relative to it up to
    rotations of the plane, and with the same orientations. *)
Definition same_surroundings (b : fbox) (x x' : list v3) (o o' : list quat) (r : R) (i : nat) : Prop :=
  length x = length x' /\
  (forall j rho, (j < length x)%nat -> rho <= r -> (near b x i j rho <-> near b x' i j rho)) /\
  (forall j, (j < length x)%nat -> j = i \/ near b x i j r -> nth j o qone = nth j o' qone).
(** Orientations written with quaternions of either sign *)
Definition same_turns (o o' : list quat) : Prop := Forall2 (fun q q' => q' = q \/ q' = qneg q) o o'.
(** The quaternions of molecules within [r] of each other are on the same side. *)
Definition same_side (b : fbox) (x : list v3) (o : list quat) (r : R) : Prop :=
  forall i j, (i < length x)%nat -> other b x i r j -> 0 <= qdot (nth j o qone) (nth i o qone).
