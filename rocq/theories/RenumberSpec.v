(** Trajectories in which the molecules are numbered in another way. *)
From Coq Require Import String Reals ZArith List Bool Permutation.
From Verif Require Import Base RVec MotionModel DynModel DynSpec ProcessPathModel ProcessModel WriteCacheModel EndModel.
Import ListNotations.
Open Scope R_scope.
Notation length := List.length.

(** [idx] lists the old numbers in the new order.  All frames have [n] molecules. *)
Definition renumber (idx : list nat) (f : eframe) : eframe :=
  mkframe (e_ts f) (e_box f) (reorder zero3 idx (e_pos f)) (option_map (reorder qone idx) (e_ori f)).
Definition of_size (n : nat) (f : eframe) : Prop :=
  length (e_pos f) = n /\ match e_ori f with Some q => length q = n | None => True end.
Definition renumber_film (idx : list nat) (l : list (list nat * eframe)) : list (list nat * eframe) :=
  map (fun x => (fst x, renumber idx (snd x))) l.

(** Rows that agree in everything but "overlap" and "struct" *)
Definition alike (p p' : nat * labelled (dict string dval)) : Prop :=
  fst p' = fst p /\ lb_keyframe (snd p') = lb_keyframe (snd p) /\ lb_temperature (snd p') = lb_temperature (snd p) /\
  lb_pressure (snd p') = lb_pressure (snd p) /\
  forall key, key <> "overlap"%string -> key <> "struct"%string ->
    dget String.eqb key (lb_row (snd p')) = dget String.eqb key (lb_row (snd p)).
(** The column [c'] has in row [i] what [c] has for the molecule with the old number of [i]. *)
Definition carried (idx : list nat) (c c' : list Z) : Prop :=
  length c' = length idx /\ forall i j, nth_error idx i = Some j -> nth_error c' i = nth_error c j.
Definition same_times (idx : list nat) (s s' : nat * dict string (list Z)) : Prop :=
  fst s' = fst s /\ Forall2 (fun x x' => fst x' = fst x /\ carried idx (snd x) (snd x')) (snd s) (snd s').
Definition both {A : Type} (P : A -> A -> Prop) (x y : option (list A)) : Prop :=
  match x, y with None, None => True | Some l, Some l' => Forall2 P l l' | _, _ => False end.
(** The same result, but for the numbers of the molecules *)
Definition same_outcome (idx : list nat) (o o' : outcome (labelled (dict string dval)) (dict string (list Z))) : Prop :=
  match out_result o, out_result o' with
  | inl x, inl x' => both alike x x'
  | inr e, inr e' => e = e'
  | _, _ => False
  end /\ both alike (out_table o) (out_table o') /\ both (same_times idx) (out_relax o) (out_relax o').

(** The wave number that is computed from the radial distribution function does not depend
    on the order of the molecules. *)
Definition calc_symmetric (calculate : fbox -> list v3 -> R + exn) : Prop :=
  forall b p p', Permutation p p' -> calculate b p' = calculate b p.
