(** Trajectories that show the same motion: another origin of space and of time, other
    periodic images, other signs of the quaternions. *)
From Coq Require Import Reals ZArith List Bool.
From Verif Require Import Base RVec MotionModel MotionSpec EndModel.
Import ListNotations.
Open Scope R_scope.

(** [w] is a period of the cell of the frame [f], in the plane. *)
Definition period (f : eframe) (w : v3) : Prop :=
  exists Lx Ly Lz tilts i j, e_box f = Lx :: Ly :: Lz :: tilts /\ 0 < Lx /\ 0 < Ly /\
    let xy := match tilts with [xy; _; _] => xy | _ => 0 end in
    w = mk3 (IZR i * Lx + IZR j * (xy * Ly)) (IZR j * Ly) 0.
(** [p'] is [p] seen from another origin and possibly in another cell; the cells of all
    frames [fs] are to agree in that case. *)
Definition moved (fs : list eframe) (s p p' : v3) : Prop :=
  exists w, p' = add3 (add3 p s) w /\ (w = zero3 \/ forall f, In f fs -> period f w).
Definition either_sign (q q' : quat) : Prop := q' = q \/ q' = qneg q.
Definition same_picture (fs : list eframe) (s : v3) (c : Z) (f f' : eframe) : Prop :=
  e_ts f' = (e_ts f + c)%Z /\ e_box f' = e_box f /\ Forall2 (moved fs s) (e_pos f) (e_pos f') /\
  match e_ori f, e_ori f' with
  | None, None => True
  | Some q, Some q' => Forall2 either_sign q q'
  | _, _ => False
  end.
(** The same motion in the same key frames; [s] and [c] do not change with time. *)
Definition same_film (s : v3) (c : Z) (l l' : list (list nat * eframe)) : Prop :=
  Forall2 (fun x x' => fst x = fst x' /\ same_picture (map snd l) s c (snd x) (snd x')) l l'.

(** Contracts: [Box.wrap] does not tell the images of a vector apart; [to_euler] does not
    tell a quaternion from its negative; the wave number that is computed from the radial
    distribution function does not depend on origin and images. *)
Definition wrap_periodic (wrap : fbox -> v3 -> v3) : Prop :=
  forall b v w, box_ok b -> is_lattice b w -> wrap b (add3 v w) = wrap b v.
Definition even (gimbal : quat -> v3) : Prop := forall q, gimbal (qneg q) = gimbal q.
Definition calc_invariant (calculate : fbox -> list v3 -> R + exn) : Prop :=
  forall b s p p', Forall2 (fun x x' => is_lattice b (sub3 x' (add3 x s))) p p' -> calculate b p' = calculate b p.
