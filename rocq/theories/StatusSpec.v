(** What the relaxation times of molecules made of particles should be, and when an array belongs
    to the caller. *)
From Coq Require Import ZArith QArith List.
From Verif Require Import Base XNum MolRelaxModel MolRelaxSpec StatusModel.
Import ListNotations.

(** The place of particle [p] of molecule [i] among [N] molecules of [n] particles: particle after
    particle of a molecule, or molecule after molecule for each particle, as
    orientation2positions has them *)
Definition by_molecule (N n i p : nat) : nat := (i * n + p)%nat.
Definition by_particle (N n i p : nat) : nat := (p * N + i)%nat.

(** [vs] are the passage times of the particles of molecule [i]. *)
Definition passages (place : nat -> nat -> nat -> nat -> nat) (N n : nat) (thr : xnum) (h : history) (i : nat) (vs : list Z) : Prop :=
  length vs = n /\ forall p v, nth_error vs p = Some v -> earliest thr (seen (N * n) (place N n i p) h) v.
Definition mean_of (vs : list Z) (m : Q) : Prop :=
  (m * inject_Z (Z.of_nat (length vs)) == fold_right (fun z q => inject_Z z + q) 0 vs)%Q.

(** A caller that feeds a StructRelaxations, going on after an exception *)
Definition watch (s : struct_rel) (h : history) : struct_rel :=
  fold_left (fun s c => match struct_add (fst c) (snd c) s with inl s' => s' | inr _ => s end) h s.

(** The calls of add *)
Fixpoint adds (cs : list call) : history :=
  match cs with
  | [] => []
  | Add t d :: cs' => (t, d) :: adds cs'
  | Get :: cs' => adds cs'
  end.
