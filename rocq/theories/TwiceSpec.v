(** Specification vocabulary for C222: a frame that occurs twice. *)
From Coq Require Import Reals ZArith List Bool.
From Verif Require Import Base RVec MotionModel MotionSpec EndModel.
Import ListNotations.
Open Scope R_scope.

(** The orientations of the frame, if it has any, are not zero. *)
Definition oriented (f : eframe) : Prop :=
  match e_ori f with Some q => Forall (fun x => qnorm2 x <> 0) q | None => True end.
(** The box of the frame has an area. *)
Definition has_area (f : eframe) : Prop := exists b, frame_box f = inl b /\ box_ok b.
