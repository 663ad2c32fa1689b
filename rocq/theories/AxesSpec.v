(** Another choice of the axes of the plane. *)
From Coq Require Import Reals ZArith List Bool.
From Verif Require Import Base RVec DynTrue EndModel.
Import ListNotations.
Open Scope R_scope.

(** The axes turned by [th], the plane mirrored if [m], and the origin moved by [a]: the
    new coordinates of a point and the new angle of a molecule *)
Definition new_point (th : R) (m : bool) (a p : v3) : v3 :=
  let y := if m then - y3 p else y3 p in
  mk3 (cos th * x3 p - sin th * y + x3 a) (sin th * x3 p + cos th * y + y3 a) (z3 p + z3 a).
Definition new_angle (th : R) (m : bool) (t : R) : R := (if m then - t else t) + th.

(** [f'] shows in the new axes what [f] shows, on a clock that is ahead by [s]. *)
Definition same_motion (th : R) (m : bool) (a : v3) (s : Z) (T T' : eframe -> truth) (f f' : eframe) : Prop :=
  e_ts f' = (e_ts f + s)%Z /\ fst (T' f') = map (new_point th m a) (fst (T f)) /\
  snd (T' f') = map (new_angle th m) (snd (T f)).
(** A whole number of degrees *)
Definition degrees (th : R) : Prop := exists n, th = 2 * PI * IZR n / 360.
