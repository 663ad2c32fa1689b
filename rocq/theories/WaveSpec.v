(** What is expected of wave vectors and wave numbers. *)
From Coq Require Import Reals ZArith List Bool Permutation.
From Verif Require Import Base RVec MotionModel WaveModel.
Import ListNotations.
Open Scope R_scope.
Notation length := List.length.

(** ** Wave vectors *)
(** [n] vectors of length [k] in evenly spaced directions *)
Definition star (k : R) (n : Z) (v : list (R * R)) : Prop :=
  Z.of_nat (length v) = n /\
  forall j, (j < length v)%nat -> nth_error v j =
    Some (k * cos (2 * PI * INR j / IZR n), k * sin (2 * PI * INR j / IZR n)).

(** Turning a vector about the origin *)
Definition turn (t : R) (w : R * R) : R * R :=
  (cos t * fst w - sin t * snd w, sin t * fst w + cos t * snd w).
(** The component of a wave vector along a direction *)
Definition along (dx dy : R) (w : R * R) : R := fst w * dx + snd w * dy.

(** The calls of a history *)
Definition calls (l : list event) : list (R * Z) :=
  flat_map (fun e => match e with Call k n => [(k, n)] | Store _ _ => [] end) l.

(** ** Wave numbers *)
(** The structure factor of an isotropic fluid from its radial distribution function, for the
    density [rho]: the integral 4 pi rho / q (g(r) - 1) r sin(q r) dr as a sum *)
Definition structure_factor (rho : R) (radii g : nat -> R) (n : nat) (q : R) : R :=
  1 + 4 * PI * rho / q *
    fold_left (fun s i => s + (g i - 1) * radii i * sin (q * radii i) * (radii 1%nat - radii 0%nat)) (seq 0 n) 0.

(** [k] is the first of the 200 wave numbers from 1/2 to 20 at which [f] is largest. *)
Definition grid (i : nat) : R := 1 / 2 + 195 / 1990 * INR i.
Definition first_maximum (f : R -> R) (k : R) : Prop :=
  exists i, (i < 200)%nat /\ k = grid i /\
    (forall j, (j < 200)%nat -> f (grid j) <= f k) /\ (forall j, (j < i)%nat -> f (grid j) < f k).

(** freud refuses to count neighbours beyond half of the distance between opposite faces
    (locality/LinkCell.cc), and otherwise returns as many values as radii, at least two. *)
Definition faces_x (b : fbox) : R := bx b / sqrt (1 + bxy b ^ 2 + (bxy b * byz b - bxz b) ^ 2).
Definition faces_y (b : fbox) : R := by_ b / sqrt (1 + byz b ^ 2).
Definition faces_z (b : fbox) : R := bz b.
Definition too_wide (b : fbox) (rmax : R) : Prop :=
  faces_x b / 2 < rmax \/ faces_y b / 2 < rmax \/ (b2d b = false /\ faces_z b / 2 < rmax).
Definition rdf_ok (rdf : fbox -> list v3 -> R -> R -> (list R * list R) + exn) : Prop :=
  forall b p rmax dr,
    (too_wide b rmax -> rdf b p rmax dr = inr RuntimeError) /\
    (~ too_wide b rmax -> exists radii g, rdf b p rmax dr = inl (radii, g) /\
       length radii = length g /\ (2 <= length radii)%nat).

(** The sides of a box, their product, and the range of the radial distribution function: the
    shortest side divided by 2.2 *)
Definition sides (b : fbox) : list R := if b2d b then [bx b; by_ b] else [bx b; by_ b; bz b].
Definition content (b : fbox) : R := fold_right Rmult 1 (sides b).
Definition cutoff (b : fbox) (r : R) : Prop :=
  (exists s, In s (sides b) /\ s = 2.2 * r) /\ forall s, In s (sides b) -> 2.2 * r <= s.
(** A box has sides. *)
Definition has_sides (b : fbox) : Prop := 0 < bx b /\ 0 < by_ b /\ (b2d b = false -> 0 < bz b).
(** The same configuration in a unit of length that is [c] times smaller *)
Definition zoom_box (c : R) (b : fbox) : fbox :=
  mkbox (c * bx b) (c * by_ b) (c * bz b) (bxy b) (bxz b) (byz b) (b2d b).
Definition zoom (c : R) : list v3 -> list v3 := map (scale3 c).
