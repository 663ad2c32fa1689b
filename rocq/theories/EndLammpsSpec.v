(** What a frame written in a lammpstrj file shows. *)
From Coq Require Import String Reals ZArith List Bool.
From Verif Require Import Base RVec FrameModel LammpsSpec MotionModel EndModel.
Import ListNotations.
Open Scope R_scope.

Section Shown.
  Variables (pfloat : string -> option R) (sub : R -> R -> R) (f32 : R -> R).

  (** The number in the column [h] of the line [a], in single precision *)
  Definition number (t : tframe) (a : list string) (h : string) (x : R) : Prop :=
    exists c w v, column t c h /\ nth_error a c = Some w /\ pfloat w = Some v /\ x = f32 v.

  (** [f] is the frame written as [t]: atom [k] is at place [k - 1], whatever the order of the
      lines; no atom is turned, and the box is the rectangle of the bounds. *)
  Definition written_as (t : tframe) (f : eframe) : Prop :=
    e_ts f = t_step t /\
    (exists lx ly lz, width pfloat sub (t_x t) lx /\ width pfloat sub (t_y t) ly /\ width pfloat sub (t_z t) lz /\
       e_box f = [f32 lx; f32 ly; f32 lz; 0; 0; 0]) /\
    List.length (e_pos f) = List.length (t_atoms t) /\
    e_ori f = Some (repeat qone (List.length (t_atoms t))) /\
    forall a k, In a (t_atoms t) -> atom_id t a k ->
      exists p, nth_error (e_pos f) (Z.to_nat (k - 1)) = Some p /\
        number t a "x" (x3 p) /\ number t a "y" (y3 p) /\ number t a "z" (z3 p).

  (** It has the three columns. *)
  Definition has_positions (t : tframe) : Prop := In "x"%string (t_heads t) /\ In "y"%string (t_heads t) /\ In "z"%string (t_heads t).
End Shown.

(** The frames up to the first one after [smax] *)
Definition steps_until (smax : option Z) (ts pre : list tframe) : Prop :=
  exists post, ts = (pre ++ post)%list /\
    (forall m t, smax = Some m -> In t pre -> (t_step t <= m)%Z) /\
    (post = [] \/ exists m t r, smax = Some m /\ post = t :: r /\ (m < t_step t)%Z).
