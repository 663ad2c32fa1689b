(** Specification vocabulary for C219: relaxation times that must be in order. *)
From Coq Require Import String Reals ZArith List Bool Sorting.
From Verif Require Import Base XNum RVec MotionModel MolRelaxModel EndModel.
Import ListNotations.

(** Rounding keeps the order of the numbers (and gives no NaN). *)
Definition keeps_order (fl : R -> xnum) : Prop := forall x y : R, (x <= y)%R -> xle (fl x) (fl y) = true.

(** The frames are offered to a Relaxations object one after the other, whatever it raises. *)
Definition offered_all wrap gimbal fl (r : robj) (fs : list eframe) : robj :=
  fold_left (fun r f => fst (radd wrap gimbal fl r f)) fs r.

(** Frames in order of time, from the step of [f0] on, for less than 2^32 steps *)
Definition in_time (f0 : eframe) (fs : list eframe) : Prop :=
  StronglySorted Z.le (map e_ts fs) /\ forall f, In f fs -> (e_ts f - e_ts f0 <= 2 ^ 32 - 1)%Z.
