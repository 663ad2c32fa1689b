(** Voronoi neighbours in the plane. *)
From Coq Require Import Reals ZArith List.
From Verif Require Import VoronoiModel.
Import ListNotations.
Open Scope R_scope.

(** A flat box with sides [Lx], [Ly] and tilt [xy] *)
Record sheet : Set := { Lx : R; Ly : R; tilt : R }.
Definition shift (b : sheet) (i j : Z) (p : point) : point :=
  (fst p + IZR i * Lx b + IZR j * (tilt b * Ly b), snd p + IZR j * Ly b).
(** All images of all particles *)
Definition periodic (b : sheet) (pos : list point) (q : point) : Prop :=
  exists p i j, In p pos /\ q = shift b i j p.

Definition distance (p q : point) : R := dist_euc (fst p) (snd p) (fst q) (snd q).
(** [p] is one of the closest points of [S] to [x]. *)
Definition closest (S : point -> Prop) (x p : point) : Prop := S p /\ forall q, S q -> distance x p <= distance x q.
(** The cells of [p] and [q] share more than a corner. *)
Definition edge (S : point -> Prop) (p q : point) : Prop :=
  p <> q /\ exists x y, x <> y /\ closest S x p /\ closest S x q /\ closest S y p /\ closest S y q.

(** The number of neighbours of particle [i], at [p], in the periodic configuration *)
Definition neighbour (b : sheet) (pos : list point) (i : nat) (p q : point) : Prop :=
  edge (periodic b pos) p q /\ exists j p' k l, nth_error pos j = Some p' /\ j <> i /\ q = shift b k l p'.
Definition has_neighbours (b : sheet) (pos : list point) (i n : nat) : Prop :=
  exists p l, nth_error pos i = Some p /\ NoDup l /\ length l = n /\ forall q, In q l <-> neighbour b pos i p q.

(** No two images are at the same place. *)
Definition separate (b : sheet) (pos : list point) : Prop :=
  forall i j p q k l k' l', nth_error pos i = Some p -> nth_error pos j = Some q ->
    shift b k l p = shift b k' l' q -> i = j /\ k = k' /\ l = l'.
(** No circle of radius [r] is free of particles. *)
Definition dense (b : sheet) (pos : list point) (r : R) : Prop :=
  forall x, exists q, periodic b pos q /\ distance x q <= r.

(** Contract of freud's buffer: first the points themselves, then images, no point twice, and
    all images that are closer than [reach] to one of the points. *)
Definition buffered (b : sheet) (pos : list point) (reach : R) (expanded : list (nat * point)) : Prop :=
  (forall i p, nth_error pos i = Some p -> nth_error expanded i = Some (i, p)) /\
  (forall k q, In (k, q) expanded -> exists p i j, nth_error pos k = Some p /\ q = shift b i j p) /\
  NoDup (map snd expanded) /\
  (forall p q, In p pos -> periodic b pos q -> distance p q < reach -> In q (map snd expanded)).
(** Contract of qhull: each pair of points that share an edge once *)
Definition divides (points : list point) (ridges : list (nat * nat)) : Prop :=
  NoDup ridges /\
  forall a c, In (a, c) ridges <->
    (a < c)%nat /\ exists p q, nth_error points a = Some p /\ nth_error points c = Some q /\ edge (fun x => In x points) p q.
