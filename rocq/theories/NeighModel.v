(** Model of the ordering functions of src/sdanalysis/order.py from the box and the
    positions on: OrderModel has them from freud's lists of neighbours on.

    [nearest b x r k i] are the neighbours that freud's NearestNeighbors finds for molecule
    [i], a contract of NeighSpec.v; [absent] is 2^32 - 1. *)
From Coq Require Import Reals List Bool Arith.
From Verif Require Import Base RVec RelaxFitModel FrameModel MotionModel EndModel OrderModel.
Import ListNotations.
Open Scope R_scope.

Section Neigh.
  Variable neg_real : R.
  Variable nearest : fbox -> list v3 -> R -> nat -> nat -> list nat.
  Variable absent : nat.

  (** What the functions use of a frame, order.py:117, 127, 152 *)
  Record config : Set := mkconfig { c_box : list R; c_pos : list v3; c_ori : list RVec.quat }.

  (** order.py:174-183 the box of [setup_neighbours]: is_2D is never given *)
  Definition flat_box (box : list R) : fbox + exn :=
    MotionModel.ebind (create_freud_box 0 box true) (fun b => inl (to_box b)).
  (** [getNeighborList]: the places that are left are filled up *)
  (* order.py:206 *)
  Definition filled (k : nat) (l : list nat) : list nat := l ++ repeat absent (k - length l).
  (** order.py:186-206 [compute_neighbours] *)
  Definition compute_neighbours (box : list R) (pos : list v3) (r : R) (k : nat) : list (list nat) + exn :=
    MotionModel.ebind (flat_box box) (fun b =>
    inl (map (fun i => filled k (nearest b pos r k i)) (seq 0 (length pos)))).
  (** order.py:209-231 [relative_orientations] *)
  Definition relative_orientations (c : config) (r : R) (k : nat) : list (list R) + exn :=
    MotionModel.ebind (compute_neighbours (c_box c) (c_pos c) r k) (fun nl =>
    relative_angle neg_real nl (c_ori c)).
  (** order.py:234-262 [orientational_order] *)
  Definition order_of (c : config) (r : R) (k : nat) : list R + exn :=
    MotionModel.ebind (compute_neighbours (c_box c) (c_pos c) r k) (fun nl =>
    orientational_order neg_real nl (c_ori c)).
  (** order.py:89-121 [create_ml_ordering]; [predict] is that of the loaded model *)
  Definition ml_ordering {L : Type} (predict : list (list R) -> list L + exn) (c : config) : list L + exn :=
    MotionModel.ebind (relative_orientations c (35 / 10) 8) predict.
  (** order.py:124-147 [create_orient_ordering] *)
  Definition orient_ordering_of (threshold : R) (c : config) : list bool + exn :=
    MotionModel.ebind (order_of c (35 / 10) 8) (fun o => inl (map (fun x => Rltb threshold x) o)).
End Neigh.
