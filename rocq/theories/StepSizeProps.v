(** Properties C01-C13: src/sdanalysis/StepSize.py. *)
From Coq Require Import ZArith List Sorted Bool Lia Arith.
From Verif Require Import Base StepSizeModel StepSizeSpec StepSizeProofs
  StepSeriesProofs StepSeriesRun StepSizeExtra.
Import ListNotations.
Open Scope Z_scope.

(** ** C01: exp_sequence visits exactly the grid, in increasing order.
    For every number [k] of values taken the values are increasing, start with [start],
    are grid points, and no grid point below the largest of them is left out; and
    every grid point appears if enough values are taken. *)
Theorem C01_exp_sequence_grid : forall start n sz0 base,
  1 <= n -> 1 <= sz0 -> 2 <= base ->
  exists fuel0, forall fuel, (fuel0 <= fuel)%nat -> forall k,
  exists l, exp_take fuel (S k) start n sz0 base EInit = Some (start :: l) /\
    length l = k /\
    increasing (start :: l) /\
    (forall s, In s l -> grid start n sz0 base s) /\
    (forall s m, grid start n sz0 base s -> In m (start :: l) -> s <= m -> In s (start :: l)).
Proof. exact exp_sequence_grid. Qed.
Print Assumptions C01_exp_sequence_grid.

Theorem C01_exp_sequence_complete : forall start n sz0 base s,
  1 <= n -> 1 <= sz0 -> 2 <= base -> grid start n sz0 base s ->
  exists fuel k l, exp_take fuel k start n sz0 base EInit = Some l /\ In s l.
Proof. exact exp_sequence_complete. Qed.
Print Assumptions C01_exp_sequence_complete.

Example C01_example :
  exp_take 50 14 5 3 2 4 EInit = Some [5; 7; 9; 11; 13; 21; 29; 37; 69; 101; 133; 261; 389; 517]
  /\ grid 5 3 2 4 101.
Proof. split; [reflexivity|]. exists 3, 2. lia. Qed.

(** ** C02 *)
Theorem C02_generate_steps : forall total n start, 1 <= n ->
  exists fuel0 k0 l,
    steps_of total n start l /\
    (exists l', l = l' ++ [total]) /\
    (total <= start -> l = [total]) /\
    forall fuel k, (fuel0 <= fuel)%nat -> (k0 <= k)%nat ->
      gen_list fuel k (generate_steps total n start) = Some l.
Proof. exact generate_steps_full. Qed.
Print Assumptions C02_generate_steps.

Example C02_example :
  gen_list 50 50 (generate_steps 100 10 0)
  = Some [0; 1; 2; 3; 4; 5; 6; 7; 8; 9; 10; 20; 30; 40; 50; 60; 70; 80; 90; 100]
  /\ gen_list 50 50 (generate_steps 3 10 7) = Some [3].
Proof. split; reflexivity. Qed.

(** ** C03: with [num_linear <= 0] there is no end, whatever time is allowed. *)
Theorem C03_generate_steps_hangs : forall total n start, n <= 0 -> start < total ->
  forall fuel k,
    gen_list fuel k (generate_steps total n start) = None /\
    exists g, gen_next fuel (generate_steps total n start) = Yield start g /\
              gen_next fuel g = NoFuel.
Proof. exact generate_steps_never_ends. Qed.
Print Assumptions C03_generate_steps_hangs.

Theorem C03_termination_refuted : exists total n start,
  forall fuel k, gen_list fuel k (generate_steps total n start) = None.
Proof. exact generate_steps_hang_witness. Qed.
Print Assumptions C03_termination_refuted.

(** The strongest true version: exact domain of termination. *)
Theorem C03_termination_partial : forall total n start,
  (exists fuel k l, gen_list fuel k (generate_steps total n start) = Some l)
  <-> (1 <= n \/ total <= start).
Proof. exact generate_steps_terminates_iff. Qed.
Print Assumptions C03_termination_partial.

Example C03_example : gen_next 1000 (generate_steps 10 0 0)
  = Yield 0 {| g_total := 10; g_lin := 0; g_start := 0; g_state := Some (ERun 1 0 0) |}.
Proof. reflexivity. Qed.

(** ** C04: for every (!) num_linear, also in the non-terminating case. *)
Theorem C04_shift : forall fuel k total n start c,
  gen_list fuel k (generate_steps (total + c) n (start + c)) =
  option_map (map (fun x => x + c)) (gen_list fuel k (generate_steps total n start)).
Proof. exact generate_steps_shift. Qed.
Print Assumptions C04_shift.

Example C04_example :
  gen_list 50 50 (generate_steps (25 + -7) 3 (2 + -7))
  = Some [-5; -4; -3; -2; 5; 15; 18].
Proof. reflexivity. Qed.

(** ** C05 *)
Theorem C05_gap_bound : forall total n start l,
  1 <= n -> (exists fuel k, gen_list fuel k (generate_steps total n start) = Some l) ->
  forall a x y b, l = a ++ x :: y :: b ->
  y - x = 1 \/ (y - x) * n <= 10 * (x - start).
Proof. exact generate_steps_gap. Qed.
Print Assumptions C05_gap_bound.

Example C05_example :
  gen_list 50 50 (generate_steps 57 4 0) = Some ([0; 1; 2; 3; 4; 10; 20] ++ 30 :: 40 :: [57]).
Proof. reflexivity. Qed.

(** ** C06 *)
Theorem C06_linear_prefix : forall total n start l,
  1 <= n -> start + n < total ->
  (exists fuel k, gen_list fuel k (generate_steps total n start) = Some l) ->
  firstn (Z.to_nat n + 1) l = map (fun i => start + Z.of_nat i) (seq 0 (Z.to_nat n + 1)).
Proof. exact generate_steps_linear. Qed.
Print Assumptions C06_linear_prefix.

Example C06_example : 3 + 4 < 57 /\
  match gen_list 50 50 (generate_steps 57 4 3) with
  | Some l => firstn 5 l = [3; 4; 5; 6; 7]
  | None => False
  end.
Proof. split; [lia|]. vm_compute. reflexivity. Qed.

(** ** C07, C08, C09: a complete iteration.  [series_ok] is defined in StepSizeSpec:
    increasing from 0 to total (C07), index sets exact, nonempty, duplicate free, and
    complete (C08), generators at 0 and at the first [max_gen - 1] positive multiples
    of [gen_steps] that were returned (C09).  Afterwards [next] keeps raising
    StopIteration. *)
Theorem C07_C08_C09_series : forall total n G M,
  0 <= total -> 1 <= n -> G <> 0 ->
  exists fuel0 k0, forall fuel k, (fuel0 <= fuel)%nat -> (k0 <= k)%nat ->
  exists s out sf,
    series_init fuel total n G M = Ok s /\
    series_run fuel k s = Ok (out, sf) /\
    series_next fuel sf = Ok None /\
    series_ok total n G M out.
Proof. exact series_correct. Qed.
Print Assumptions C07_C08_C09_series.

(** The number of generators is at most [max(1, max_gen)]. *)
Theorem C09_generator_count : forall G M steps,
  Z.of_nat (length (keyframe_starts G M steps)) <= Z.max 1 M.
Proof. exact keyframe_starts_count. Qed.
Print Assumptions C09_generator_count.

Example C07_example :
  match series_init 100 12 3 4 3 with
  | Ok s => match series_run 100 100 s with
            | Ok (out, _) => out = [(0, [0%nat]); (1, [0%nat]); (2, [0%nat]); (3, [0%nat]);
                                     (10, [0%nat]); (12, [0; 1]%nat)]
            | _ => False
            end
  | _ => False
  end.
Proof. vm_compute. reflexivity. Qed.

Example C08_example :
  match series_init 100 40 10 10 3 with
  | Ok s => match series_run 100 100 s with
            | Ok (out, _) => keyframe_starts 10 3 (map fst out) = [0; 10; 20] /\
                             nth_error out 20 = Some (20, [0; 1; 2]%nat) /\
                             nth_error out 24 = Some (24, [2]%nat) /\
                             nth_error out 30 = Some (30, [0; 1; 2]%nat)
            | _ => False
            end
  | _ => False
  end.
Proof. vm_compute. repeat split; reflexivity. Qed.

(** ** C10 *)
Theorem C10_even_keyframes : forall total n G M out,
  1 <= n -> 0 <= total -> 0 < G -> 1 <= M -> grid 0 n 1 10 G ->
  series_ok total n G M out ->
  keyframe_starts G M (map fst out) =
  map (fun m => Z.of_nat m * G) (seq 0 (Z.to_nat (Z.min M (total / G + 1)))).
Proof. exact even_starts. Qed.
Print Assumptions C10_even_keyframes.

(** The defaults of the project meet the hypothesis ... *)
Example C10_example : grid 0 100 1 10 200000 /\ grid 0 100 1 10 20000 /\ grid 0 100 1 10 1000000.
Proof. repeat split; [exists 20, 4|exists 20, 3|exists 10, 5]; lia. Qed.

(** ... and without it key frames can be skipped: the first multiple of 7 reached is 70. *)
Example C10_needs_grid :
  match series_init 100 150 3 7 5 with
  | Ok s => match series_run 100 100 s with
            | Ok (out, _) => keyframe_starts 7 5 (map fst out) = [0]
            | _ => False
            end
  | _ => False
  end.
Proof. vm_compute. reflexivity. Qed.

(** ** C11 *)
Theorem C11_single_generator : forall total n G M out l,
  1 <= n -> M <= 1 -> series_ok total n G M out ->
  (exists fuel k, gen_list fuel k (generate_steps total n 0) = Some l) ->
  map fst out = l /\ forall c idx, In (c, idx) out -> idx = [0%nat].
Proof. exact single_series_steps. Qed.
Print Assumptions C11_single_generator.

Example C11_example :
  match series_init 100 30 3 7 0 with
  | Ok s => match series_run 100 100 s with
            | Ok (out, _) => gen_list 100 100 (generate_steps 30 3 0) = Some (map fst out)
                             /\ map fst out = [0; 1; 2; 3; 10; 20; 30]
            | _ => False
            end
  | _ => False
  end.
Proof. vm_compute. split; reflexivity. Qed.

(** ** C12: every state reachable by at least one [next]. *)
Theorem C12_no_stale_state : forall total n G M,
  0 <= total -> 1 <= n -> G <> 0 ->
  exists fuel0, forall fuel, (fuel0 <= fuel)%nat ->
  exists s0, series_init fuel total n G M = Ok s0 /\
  forall k, (1 <= k)%nat ->
  exists s, after_calls fuel k s0 = Ok s /\
    NoDup (s_queue s) /\
    (forall v, In v (s_queue s) -> s_curr s < v <= total) /\
    (forall v, In v (dkeys (s_values s)) <-> v = s_curr s \/ In v (s_queue s)) /\
    NoDup (dkeys (s_values s)) /\
    (length (s_queue s) <= s_num s)%nat /\
    (1 <= s_num s)%nat /\ Z.of_nat (s_num s) <= Z.max 1 M.
Proof. exact series_tidy. Qed.
Print Assumptions C12_no_stale_state.

Example C12_example :
  match series_init 100 40 10 10 3 with
  | Ok s => match after_calls 100 13 s with
            | Ok s' => s_curr s' = 12 /\ s_queue s' = [20; 13] /\ s_num s' = 2%nat
            | _ => False
            end
  | _ => False
  end.
Proof. vm_compute. repeat split; reflexivity. Qed.

(** ** C13 *)
Theorem C13_accepts_all_refuted : exists total n G M, 1 <= n /\
  forall fuel, (1 <= fuel)%nat ->
  exists s, series_init fuel total n G M = Ok s /\ exists e, series_next fuel s = Raise e.
Proof. exact series_error_witness. Qed.
Print Assumptions C13_accepts_all_refuted.

(** The exact failing region (with C07: everything else works). *)
Theorem C13_errors_partial : forall total n G M,
  (total < 0 -> forall fuel, (1 <= fuel)%nat -> exists s,
     series_init fuel total n G M = Ok s /\ series_next fuel s = Raise KeyError) /\
  (0 <= total -> G = 0 -> forall fuel, (1 <= fuel)%nat -> exists s,
     series_init fuel total n G M = Ok s /\ series_next fuel s = Raise ZeroDivisionError).
Proof. exact series_errors. Qed.
Print Assumptions C13_errors_partial.

Example C13_example :
  match series_init 10 (-5) 3 7 2 with Ok s => series_next 10 s = Raise KeyError | _ => False end.
Proof. reflexivity. Qed.
