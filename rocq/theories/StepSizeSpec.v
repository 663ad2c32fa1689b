(** Specification vocabulary for StepSize.py, independent of the model. *)
From Coq Require Import ZArith List Sorted.
Import ListNotations.
Open Scope Z_scope.

(** The points of the log-linear grid: [i] steps of size [sz0 * base^k]. *)
Definition grid (start n sz0 base s : Z) : Prop :=
  exists i k, 0 <= i <= n /\ 0 <= k /\ s = start + i * (sz0 * base ^ k).

(** Strictly increasing lists. *)
Definition increasing (l : list Z) : Prop := StronglySorted Z.lt l.

(** [l] is the list of grid points below [total] (base 10, initial step 1),
    then [total]. *)
Definition steps_of (total n start : Z) (l : list Z) : Prop :=
  increasing l /\
  forall s, In s l <-> s = total \/ (s < total /\ grid start n 1 10 s).

(** [s] is an element of [generate_steps(total, n, start)]. *)
Definition on_steps (total n start s : Z) : Prop :=
  s = total \/ (s < total /\ grid start n 1 10 s).

(** Where the key-frame generators start, given the steps returned by the iteration:
    at 0 and at the first [M - 1] positive multiples of [G]. *)
Definition keyframe_starts (G M : Z) (steps : list Z) : list Z :=
  0 :: firstn (Z.to_nat (M - 1))
         (filter (fun s => (0 <? s) && (s mod G =? 0))%bool steps).

(** What a complete iteration over a GenerateStepSeries must have returned: the list
    of pairs (step, get_index() after that step). *)
Record series_ok (total n G M : Z) (out : list (Z * list nat)) : Prop := {
  so_increasing : increasing (map fst out);
  so_first : exists r, map fst out = 0 :: r;
  so_last : exists r, map fst out = r ++ [total];
  so_index : forall c idx, In (c, idx) out ->
     NoDup idx /\ idx <> [] /\
     forall m, In m idx <->
       exists st, nth_error (keyframe_starts G M (map fst out)) m = Some st /\
                  on_steps total n st c;
  so_complete : forall st x,
     In st (keyframe_starts G M (map fst out)) -> on_steps total n st x ->
     In x (map fst out);
  (** a step is there because of a generator that was started before it *)
  so_founded : forall x, In x (map fst out) ->
     x = 0 \/ exists st, In st (keyframe_starts G M (map fst out)) /\ st < x /\ on_steps total n st x
}.
