(** Specification of tracked motion: periodic images, small steps, turns. *)
From Coq Require Import Reals ZArith List Bool.
From Verif Require Import RVec MotionModel.
Import ListNotations.
Open Scope R_scope.

Definition box_ok (b : fbox) : Prop := 0 < bx b /\ 0 < by_ b /\ (b2d b = false -> 0 < bz b).

(** The integer combination i a + j b + k c of the lattice vectors
    a = (Lx, 0, 0), b = (xy Ly, Ly, 0), c = (xz Lz, yz Lz, Lz) *)
Definition lattice (b : fbox) (i j k : Z) : v3 :=
  mk3 (IZR i * bx b + IZR j * (bxy b * by_ b) + IZR k * (bxz b * bz b))
      (IZR j * by_ b + IZR k * (byz b * bz b))
      (IZR k * bz b).
(** A lattice vector; two-dimensional boxes do not repeat along z. *)
Definition is_lattice (b : fbox) (v : v3) : Prop :=
  exists i j k, (b2d b = true -> k = 0%Z) /\ v = lattice b i j k.

(** Coordinates along the lattice vectors, in units of them *)
Definition coord_c (b : fbox) (v : v3) : R := z3 v / bz b.
Definition coord_b (b : fbox) (v : v3) : R := (y3 v - byz b * z3 v) / by_ b.
Definition coord_a (b : fbox) (v : v3) : R :=
  (x3 v - bxy b * (y3 v - byz b * z3 v) - bxz b * z3 v) / bx b.

(** Within half a box of the origin; planar in two dimensions *)
Definition half (b : fbox) (v : v3) : Prop :=
  Rabs (coord_a b v) <= 1 / 2 /\ Rabs (coord_b b v) <= 1 / 2 /\
  (b2d b = true -> z3 v = 0) /\ (b2d b = false -> Rabs (coord_c b v) <= 1 / 2).
Definition below_half (b : fbox) (v : v3) : Prop :=
  Rabs (coord_a b v) < 1 / 2 /\ Rabs (coord_b b v) < 1 / 2 /\
  (b2d b = true -> z3 v = 0) /\ (b2d b = false -> Rabs (coord_c b v) < 1 / 2).

(** The contract of [Box.wrap]: an image of the vector within half a box of the origin *)
Definition wrap_ok (wrap : fbox -> v3 -> v3) : Prop :=
  forall b v, box_ok b -> (b2d b = true -> z3 v = 0) ->
    is_lattice b (sub3 v (wrap b v)) /\ half b (wrap b v).

(** Stored positions [p] are images of the true ones [u]. *)
Definition image (b : fbox) (p u : v3) : Prop := is_lattice b (sub3 p u).
Definition images (b : fbox) (p u : list v3) : Prop := Forall2 (image b) p u.

(** No particle moves by half a box or more. *)
Definition small_step (b : fbox) (u u' : list v3) : Prop :=
  Forall2 (fun x x' => below_half b (sub3 x' x)) u u'.
Fixpoint chain {A} (R : A -> A -> Prop) (x : A) (l : list A) : Prop :=
  match l with [] => True | y :: l' => R x y /\ chain R y l' end.

(** A planar trajectory, needed only in two dimensions *)
Definition planar_step (b : fbox) (p p' : list v3) : Prop :=
  Forall2 (fun x x' => b2d b = true -> z3 x = z3 x') p p'.

(** [q] is a rotation by [t] about z, with either sign. *)
Definition turned (q : quat) (t : R) : Prop := q = zquat t \/ q = qneg (zquat t).
Definition turn_step (a a' : list R) : Prop := Forall2 (fun t t' => Rabs (t' - t) < PI) a a'.

(** The rotations counted in a sequence of frames: pairs of consecutive frames that both
    have orientations. *)
Fixpoint turns {A} (prev : option A) (l : list (option A)) : list (A * A) :=
  match l with
  | [] => []
  | o :: l' => match prev, o with
               | Some a, Some b => (a, b) :: turns o l'
               | _, _ => turns o l'
               end
  end.
