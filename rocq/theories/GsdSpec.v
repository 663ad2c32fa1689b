(** Specification vocabulary for the gsd readers, independent of the model's loops. *)
From Coq Require Import ZArith List Bool.
From Verif Require Import Base GsdModel.
Import ListNotations.
Open Scope Z_scope.

Section Spec.
  Context {P : Type}.

  (** Reading the frame gives the frame [f] / the exception [e]. *)
  Inductive reads : raw P -> frame P -> Prop :=
  | reads_good : forall s p, reads (Good s (inl p)) (s, p).
  Inductive fails : raw P -> exn -> Prop :=
  | fails_corrupt : fails Corrupt RuntimeError
  | fails_broken : forall e, fails (Broken e) e
  | fails_frame : forall s e, fails (Good s (inr e)) e.

  (** The frame may be skipped / ends the iteration. *)
  Definition fatal (r : raw P) : Prop := exists e, fails r e /\ e <> RuntimeError.

  Definition readable (r : raw P) : list (frame P) :=
    match r with Good s (inl p) => [(s, p)] | _ => [] end.
  Definition readables (t : list (raw P)) : list (frame P) := flat_map readable t.

  (** [_get_num_steps] only needs the snapshot, not a valid frame. *)
  Definition no_snapshot (r : raw P) : Prop := r = Corrupt \/ r = Broken RuntimeError.

  (** Positions of a list that are multiples of [k]. *)
  Definition every {A} (k : nat) (l : list A) : list A :=
    map snd (filter (fun p => (fst p mod k =? 0)%nat) (combine (seq 0 (length l)) l)).

  (** Number of frames with a timestep that is a multiple of [K]. *)
  Definition multiples (K : Z) (fs : list (frame P)) : nat :=
    length (filter (fun f => timestep f mod K =? 0) fs).

  Definition within (smax : option Z) (f : frame P) : Prop :=
    match smax with Some m => timestep f <= m | None => True end.

  (** [l1] is [l2] with some elements left out. *)
  Inductive sublist {A} : list A -> list A -> Prop :=
  | sub_nil : forall l, sublist [] l
  | sub_take : forall x l1 l2, sublist l1 l2 -> sublist (x :: l1) (x :: l2)
  | sub_skip : forall x l1 l2, sublist l1 l2 -> sublist l1 (x :: l2).

  (** Timesteps strictly increase along the file. *)
  Fixpoint rising (fs : list (frame P)) : Prop :=
    match fs with
    | [] => True
    | f :: r => (forall g, In g r -> timestep f < timestep g) /\ rising r
    end.
End Spec.
