(** Model of compute_voronoi_neighs, src/sdanalysis/order.py:312-315: the numbers of Voronoi
    neighbours that create_neigh_ordering (order.py:150-171) compares.

    freud's Voronoi(box, buff=5) adds the periodic images close to the box to the points and
    has qhull divide the plane; [expanded] lists for each of its points the number of the
    particle of which it is an image, and [ridges] the pairs of points that share an edge
    (VoronoiSpec.v has the contracts).  Points are pairs of reals. *)
From Coq Require Import Reals ZArith List Bool Arith.
Import ListNotations.
Open Scope R_scope.

(* order.py:313 the coordinates of a point in a flat box *)
Definition point : Set := (R * R)%type.

(** [nlist.neighbor_counts], order.py:314-315, of the ridges that end at particle [i] and
    that do not lead to one of its own images (exclude_ii) *)
Definition leads (ids : list nat) (i : nat) (r : nat * nat) : bool :=
  (fst r =? i)%nat && negb (nth (snd r) ids 0%nat =? i)%nat || (snd r =? i)%nat && negb (nth (fst r) ids 0%nat =? i)%nat.
(** order.py:312-315 *)
Definition compute_voronoi_neighs (position : list point) (expanded : list (nat * point)) (ridges : list (nat * nat)) : list nat :=
  map (fun i => length (filter (leads (map fst expanded) i) ridges)) (seq 0 (length position)).
(** order.py:150-152, [== neighbours] for each particle *)
Definition create_neigh_ordering (neighbours : Z) (position : list point) (expanded : list (nat * point)) (ridges : list (nat * nat)) : list bool :=
  map (fun n => (Z.of_nat n =? neighbours)%Z) (compute_voronoi_neighs position expanded ridges).
