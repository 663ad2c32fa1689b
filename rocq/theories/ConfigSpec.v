(** Specification of plotted configurations. *)
From Coq Require Import String Reals ZArith List Bool.
Import ListNotations.
Open Scope R_scope.

(** [k] is [x] without its decimals. *)
Definition truncated (x : R) (k : Z) : Prop :=
  (0 <= x -> IZR k <= x < IZR k + 1) /\ (x < 0 -> IZR k - 1 < x <= IZR k).
(** Hue of an orientation: whole degrees around the circle *)
Definition hue_of (angle : R) (h : Z) : Prop := exists k, truncated (angle * 180 / PI) k /\ h = (k mod 360)%Z.

(** Entry for particle [p] of molecule [m], of [n] molecules *)
Definition entry {A} (n : nat) (l : list A) (p m : nat) (d : A) : A := nth (p * n + m) l d.
