(** Specification vocabulary for C221: a film shown backwards. *)
From Coq Require Import Reals ZArith List Bool.
From Verif Require Import Base RVec MotionModel MotionSpec EndModel DynTrue EndSpec.
Import ListNotations.
Notation length := List.length.

(** The frame [f] shows the true state [s] of [N] molecules, in some periodic images and with
    some signs of the quaternions. *)
Definition seen (b : fbox) (N : nat) (f : eframe) (s : truth) : Prop :=
  plane_box f b /\ images b (e_pos f) (fst s) /\ length (e_pos f) = N /\ length (snd s) = N /\
  exists q, e_ori f = Some q /\ Forall2 turned q (snd s).
(** The frames in the opposite order, on a clock that runs backwards from [c] *)
Definition reclock (c : Z) (f : eframe) : eframe := mkframe (c - e_ts f) (e_box f) (e_pos f) (e_ori f).
Definition backwards (c : Z) (fs : list eframe) : list eframe := map (reclock c) (rev fs).
