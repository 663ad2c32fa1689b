(** Model of src/sdanalysis/StepSize.py. *)
From Coq Require Import ZArith List Bool.
From Verif Require Import Base.
Import ListNotations.
Open Scope Z_scope.
Open Scope result_scope.

(** ** exp_sequence (StepSize.py:53-91)

    The suspended states of the generator.  [EInit] is the state before the first
    [next] (lines 79-80); [ERun sz cur i] is suspended in (or before) the [for] loop
    of line 84 with [step_size = sz], [curr_step = cur] and [i] the next element of
    [range(num_linear + 1)]. *)
Inductive exp_state : Set :=
| EInit
| ERun (sz cur i : Z).

(** StepSize.py:83-91: resume inside the [while True] loop.  One unit of fuel per
    element of the [for] loop and per round of the [while] loop; [None] is out of
    fuel. *)
Fixpoint exp_loop (fuel : nat) (start n base sz cur i : Z) : option (Z * exp_state) :=
  match fuel with
  | O => None
  | S fuel' =>
      if i <? n + 1 then                               (* line 84: i in range(n+1) *)
        let step := start + i * sz in
        if step >? cur then Some (step, ERun sz cur (i + 1))   (* lines 85-86 *)
        else exp_loop fuel' start n base sz cur (i + 1)
      else                                             (* lines 88-90 *)
        exp_loop fuel' start n base (sz * base) (start + n * sz) 0
  end.

(** StepSize.py:79-91: [next(it)] for [it = exp_sequence(start, n, sz0, base)]. *)
Definition exp_next (fuel : nat) (start n sz0 base : Z) (e : exp_state)
  : option (Z * exp_state) :=
  match e with
  | EInit => Some (start, ERun sz0 start 0)            (* lines 79-81 *)
  | ERun sz cur i => exp_loop fuel start n base sz cur i
  end.

(** ** generate_steps (StepSize.py:18-50)

    [GTake e]: inside [takewhile] with the inner generator in state [e];
    [GDone]: finished. *)
Record gen : Set := { g_total : Z; g_lin : Z; g_start : Z; g_state : option exp_state }.

(* StepSize.py:53-91 what next() of the generator answers *)
Inductive yielded : Set :=
| Yield (v : Z) (g : gen)
| Stop
| NoFuel.

(** StepSize.py:18-20. *)
Definition generate_steps (total n start : Z) : gen :=
  {| g_total := total; g_lin := n; g_start := start; g_state := Some EInit |}.

(** StepSize.py:46-50: [next(it)].  When [takewhile] sees a value that is not below
    [total_steps] it ends for good and [total_steps] is yielded. *)
Definition gen_next (fuel : nat) (g : gen) : yielded :=
  match g.(g_state) with
  | None => Stop
  | Some e =>
      match exp_next fuel g.(g_start) g.(g_lin) 1 10 e with
      | None => NoFuel
      | Some (v, e') =>
          if v <? g.(g_total)
          then Yield v {| g_total := g.(g_total); g_lin := g.(g_lin);
                          g_start := g.(g_start); g_state := Some e' |}
          else Yield g.(g_total) {| g_total := g.(g_total); g_lin := g.(g_lin);
                                    g_start := g.(g_start); g_state := None |}
      end
  end.

(** [list(it)], with at most [k] resumptions. *)
(* StepSize.py:46-50 the first values of the generator *)
Fixpoint gen_list (fuel k : nat) (g : gen) : option (list Z) :=
  match k with
  | O => None
  | S k' =>
      match gen_next fuel g with
      | Stop => Some []
      | NoFuel => None
      | Yield v g' => match gen_list fuel k' g' with
                      | Some l => Some (v :: l)
                      | None => None
                      end
      end
  end.

(** The first [k] values of [exp_sequence]. *)
(* StepSize.py:80-91 the first values of the generator *)
Fixpoint exp_take (fuel k : nat) (start n sz0 base : Z) (e : exp_state) : option (list Z) :=
  match k with
  | O => Some []
  | S k' =>
      match exp_next fuel start n sz0 base e with
      | None => None
      | Some (v, e') => match exp_take fuel k' start n sz0 base e' with
                        | Some l => Some (v :: l)
                        | None => None
                        end
      end
  end.

(** ** GenerateStepSeries (StepSize.py:94-171)

    Iterator objects are mutable: they live in [s_gens] (position = [iterindex.index],
    which is unique), and the lists in [s_values] hold indexes.  [s_queue] is the
    content of the PriorityQueue; [get] removes a smallest element. *)
Record series : Type := {
  s_total : Z; s_lin : Z; s_gen_steps : Z; s_max_gen : Z;
  s_curr : Z;
  s_num : nat;
  s_gens : list gen;
  s_values : dict Z (list nat);
  s_queue : list Z
}.

(* StepSize.py:117 next() advances one generator *)
Definition upd_nth {A} (i : nat) (x : A) (l : list A) : list A :=
  firstn i l ++ match skipn i l with [] => [] | _ :: t => x :: t end.

(* StepSize.py:117, 130 *)
Definition set_gens (s : series) (g : list gen) : series :=
  {| s_total := s_total s; s_lin := s_lin s; s_gen_steps := s_gen_steps s;
     s_max_gen := s_max_gen s; s_curr := s_curr s; s_num := s_num s; s_gens := g;
     s_values := s_values s; s_queue := s_queue s |}.
(* StepSize.py:124, 126, 148 *)
Definition set_values (s : series) (v : dict Z (list nat)) : series :=
  {| s_total := s_total s; s_lin := s_lin s; s_gen_steps := s_gen_steps s;
     s_max_gen := s_max_gen s; s_curr := s_curr s; s_num := s_num s; s_gens := s_gens s;
     s_values := v; s_queue := s_queue s |}.
(* StepSize.py:127, 142 *)
Definition set_queue (s : series) (q : list Z) : series :=
  {| s_total := s_total s; s_lin := s_lin s; s_gen_steps := s_gen_steps s;
     s_max_gen := s_max_gen s; s_curr := s_curr s; s_num := s_num s; s_gens := s_gens s;
     s_values := s_values s; s_queue := q |}.
(* StepSize.py:142 *)
Definition set_curr (s : series) (c : Z) : series :=
  {| s_total := s_total s; s_lin := s_lin s; s_gen_steps := s_gen_steps s;
     s_max_gen := s_max_gen s; s_curr := c; s_num := s_num s; s_gens := s_gens s;
     s_values := s_values s; s_queue := s_queue s |}.
(* StepSize.py:133 *)
Definition set_num (s : series) (k : nat) : series :=
  {| s_total := s_total s; s_lin := s_lin s; s_gen_steps := s_gen_steps s;
     s_max_gen := s_max_gen s; s_curr := s_curr s; s_num := k; s_gens := s_gens s;
     s_values := s_values s; s_queue := s_queue s |}.

(** StepSize.py:115-127 [_enqueue]; [i] identifies the iterator. *)
Definition enqueue (fuel : nat) (i : nat) (s : series) : result series :=
  match nth_error (s_gens s) i with
  | None => Raise OtherError        (* not reachable: every index has an iterator *)
  | Some g =>
      match gen_next fuel g with
      | NoFuel => OutOfFuel
      | Stop => Ok s                                           (* lines 118-119 *)
      | Yield step g' =>
          let s := set_gens s (upd_nth i g' (s_gens s)) in
          match dget Z.eqb step (s_values s) with
          | Some temp =>                                       (* lines 121-124 *)
              Ok (set_values s (dset Z.eqb step (temp ++ [i]) (s_values s)))
          | None =>                                            (* lines 125-127 *)
              Ok (set_queue (set_values s (dset Z.eqb step [i] (s_values s)))
                            (s_queue s ++ [step]))
          end
      end
  end.

(** StepSize.py:129-133 [_add_generator]. *)
Definition add_generator (fuel : nat) (s : series) : result series :=
  let s1 := set_gens s (s_gens s ++ [generate_steps (s_total s) (s_lin s) (s_curr s)]) in
  let! s2 := enqueue fuel (s_num s) s1 in
  Ok (set_num s2 (S (s_num s2))).

(** StepSize.py:97-113 [__init__]. *)
Definition series_init (fuel : nat) (total n gsteps maxg : Z) : result series :=
  add_generator fuel
    {| s_total := total; s_lin := n; s_gen_steps := gsteps; s_max_gen := maxg;
       s_curr := 0; s_num := 0; s_gens := []; s_values := []; s_queue := [] |}.

(** PriorityQueue.get(block=False): the smallest element and the others. *)
(* StepSize.py:142 PriorityQueue.get *)
Fixpoint pq_min (x : Z) (l : list Z) : Z :=
  match l with [] => x | y :: l' => Z.min x (pq_min y l') end.
(* StepSize.py:142 PriorityQueue.get *)
Fixpoint remove_one (x : Z) (l : list Z) : list Z :=
  match l with
  | [] => []
  | y :: l' => if x =? y then l' else y :: remove_one x l'
  end.
(* StepSize.py:142-144 *)
Definition pq_get (q : list Z) : option (Z * list Z) :=
  match q with
  | [] => None
  | x :: q' => let m := pq_min x q' in Some (m, remove_one m q)
  end.

(** StepSize.py:159-161: [for iindex in iterindexes: self._enqueue(iindex)].  The
    list iterated over is the one stored in [values[curr_step]], re-read at every
    position because [_enqueue] may append to it. *)
Fixpoint enqueue_all (fuel k : nat) (pos : nat) (s : series) : result series :=
  match k with
  | O => OutOfFuel
  | S k' =>
      match dget Z.eqb (s_curr s) (s_values s) with
      | None => Raise OtherError   (* not reachable: the key is never removed here *)
      | Some l =>
          match nth_error l pos with
          | None => Ok s
          | Some i => let! s := enqueue fuel i s in enqueue_all fuel k' (S pos) s
          end
      end
  end.

(** StepSize.py:138-163 [__next__].  [Ok None] is StopIteration. *)
Definition series_next (fuel : nat) (s : series) : result (option (Z * series)) :=
  let prev := s_curr s in
  match pq_get (s_queue s) with
  | None => Ok None                                            (* lines 143-144 *)
  | Some (c, q) =>
      let s := set_curr (set_queue s q) c in
      let! s := (if negb (c =? prev)                           (* lines 147-148 *)
                 then match dget Z.eqb prev (s_values s) with
                      | None => Raise KeyError
                      | Some _ => Ok (set_values s (ddel Z.eqb prev (s_values s)))
                      end
                 else Ok s) in
      let! s := (if s_gen_steps s =? 0 then Raise ZeroDivisionError   (* lines 152-154 *)
                 else if (c mod s_gen_steps s =? 0) && (c >? 0) then
                        if Z.of_nat (s_num s) <? s_max_gen s
                        then add_generator fuel s else Ok s
                      else Ok s) in
      match dget Z.eqb c (s_values s) with                     (* lines 156-158 *)
      | None => Raise AssertionError
      | Some _ =>
          let! s := enqueue_all fuel fuel 0 s in               (* lines 160-161 *)
          Ok (Some (c, s))
      end
  end.

(** StepSize.py:165-167 [get_index]. *)
Definition get_index (s : series) : list nat :=
  match dget Z.eqb (s_curr s) (s_values s) with Some l => l | None => [] end.

(** A client: [for step in series: record (step, series.get_index())], at most [k]
    calls of [next]; the result also carries the final object. *)
(* StepSize.py:135-163 with get_index 165-167 after each step *)
Fixpoint series_run (fuel k : nat) (s : series) : result (list (Z * list nat) * series) :=
  match k with
  | O => OutOfFuel
  | S k' =>
      let! r := series_next fuel s in
      match r with
      | None => Ok ([], s)
      | Some (c, s') =>
          let! (out, sf) := series_run fuel k' s' in
          Ok ((c, get_index s') :: out, sf)
      end
  end.
