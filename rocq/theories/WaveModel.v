(** Model of the wave numbers of src/sdanalysis/dynamics/_util.py: [create_wave_vector] with
    its cache (22-39), [_static_structure_factor] (57-63) and [calculate_wave_number] (66-86).

    Numbers are reals; rounding is not modelled, nor are wave numbers that are NaN.  Calls of
    the cached function pass both arguments by position.  freud's RDF is a parameter, of which
    WaveSpec.v states the contract. *)
From Coq Require Import Reals ZArith List Bool.
From Verif Require Import Base RVec MotionModel DynModel.
Import ListNotations.
Open Scope R_scope.
Notation length := List.length.

(** ** The cached function *)
(** The body, _util.py:35-39; np.linspace refuses a negative number of samples. *)
Definition compute_wave_vector (k : R) (n : Z) : list (R * R) + exn :=
  if (n <? 0)%Z then inr ValueError
  else inl (map (fun i => let t := INR i * (2 * PI) / INR (Z.to_nat n) in (cos t * k, sin t * k)) (seq 0 (Z.to_nat n))).

(** The arrays that exist, and the entries of the cache, the most recently used one first *)
(* _util.py:24 functools.lru_cache *)
Record world : Set := mkworld {
  w_heap : list (list (R * R));
  w_cache : list ((R * Z) * nat)
}.
(** Before the first call *)
(* _util.py:24 *)
Definition w_empty : world := mkworld [] [].
(** [maxsize] of [lru_cache()] *)
(* _util.py:24 *)
Definition maxsize : nat := 128.
(** Equality of the arguments *)
(* _util.py:24 the keys of the cache *)
Definition same_args (a b : R * Z) : bool :=
  (if Req_EM_T (fst a) (fst b) then true else false) && (snd a =? snd b)%Z.
(* _util.py:24 looking up a key *)
Fixpoint lookup (a : R * Z) (l : list ((R * Z) * nat)) : option nat :=
  match l with
  | [] => None
  | (b, r) :: l' => if same_args a b then Some r else lookup a l'
  end.
(* _util.py:24 taking an entry out, to put it in front *)
Definition without (a : R * Z) (l : list ((R * Z) * nat)) : list ((R * Z) * nat) :=
  filter (fun e => negb (same_args a (fst e))) l.

(** A call, _util.py:24-39.  The answer is (a reference to) an array; an exception is not
    remembered. *)
Definition create_wave_vector (a : R * Z) (w : world) : world * (nat + exn) :=
  match lookup a (w_cache w) with
  | Some r => (mkworld (w_heap w) ((a, r) :: without a (w_cache w)), inl r)
  | None =>
      match compute_wave_vector (fst a) (snd a) with
      | inr e => (w, inr e)
      | inl v => let r := length (w_heap w) in
                 (mkworld (w_heap w ++ [v]) (firstn maxsize ((a, r) :: w_cache w)), inl r)
      end
  end.

(** What a user can do: call the function, or store into an array that it got *)
(* _util.py:39 the array returned is the one in the cache *)
Inductive event : Set :=
| Call (k : R) (n : Z)
| Store (r : nat) (v : list (R * R)).
(* _util.py:39 an array whose contents are replaced *)
Fixpoint replace {A} (r : nat) (v : A) (l : list A) : list A :=
  match l, r with
  | [], _ => []
  | _ :: l', O => v :: l'
  | x :: l', S r' => x :: replace r' v l'
  end.
(** The answers are given with the contents of the array at the time of the call. *)
(* _util.py:24-39 one event after another *)
Fixpoint run (w : world) (l : list event) : world * list ((nat * list (R * R)) + exn) :=
  match l with
  | [] => (w, [])
  | Store r v :: l' => run (mkworld (replace r v (w_heap w)) (w_cache w)) l'
  | Call k n :: l' =>
      let (w1, o) := create_wave_vector (k, n) w in
      let (w2, os) := run w1 l' in
      (w2, (match o with inl r => inl (r, nth r (w_heap w1) []) | inr e => inr e end) :: os)
  end.

(** ** The wave number of a configuration *)
(** np.linspace(0.5, 20, 200), _util.py:82 *)
Definition trial (i : nat) : R := 1 / 2 + INR i * ((20 - 1 / 2) / 199).

(** box.volume *)
(* _util.py:62 *)
Definition volume (b : fbox) : R := if b2d b then bx b * by_ b else bx b * by_ b * bz b.

(** _util.py:57-63 [_static_structure_factor]; [radii] and [g] are rdf.R and rdf.RDF *)
Definition static_structure_factor (b : fbox) (radii g : list R) (k : R) (num : nat) : R + exn :=
  match radii with
  | r0 :: r1 :: _ =>
      let dr := r1 - r0 in
      let integral := dr * rsum (zip (fun gi ri => (gi - 1) * ri * sin (k * ri)) g radii) in
      if Req_EM_T (volume b) 0 then inr ZeroDivisionError
      else let density := INR num / volume b in
           inl (1 + 4 * PI * density / k * integral)
  | _ => inr IndexError
  end.

(** np.argmax of a non-empty array: the first of the largest *)
(* _util.py:86 *)
Fixpoint argmax_from (best : nat) (m : R) (i : nat) (l : list R) : nat :=
  match l with
  | [] => best
  | x :: l' => if Rlt_dec m x then argmax_from i x (S i) l' else argmax_from best m (S i) l'
  end.
(* _util.py:86 *)
Definition argmax (l : list R) : nat :=
  match l with [] => 0%nat | x :: l' => argmax_from 0 x 1 l' end.

(* _util.py:81-84 the loop that fills ssf *)
Fixpoint collect (f : R -> R + exn) (l : list R) : list R + exn :=
  match l with
  | [] => inl []
  | k :: l' => ebind (f k) (fun s => ebind (collect f l') (fun ss => inl (s :: ss)))
  end.

(** The range of the radial distribution function, _util.py:73-75 *)
Definition rdf_range (b : fbox) : R :=
  let rmax := Rmin (bx b / (22 / 10)) (by_ b / (22 / 10)) in
  if b2d b then rmax else Rmin rmax (bz b / (22 / 10)).

Section Calculate.
  (** freud.density.RDF(dr, rmax).compute(box, positions): R and RDF *)
  Variable rdf : fbox -> list v3 -> R -> R -> (list R * list R) + exn.

  (** _util.py:66-86 [calculate_wave_number] *)
  Definition calculate_wave_number (b : fbox) (positions : list v3) : R + exn :=
    let rmax := rdf_range b in
    ebind (rdf b positions rmax (rmax / 200)) (fun rg =>
    ebind (collect (fun k => static_structure_factor b (fst rg) (snd rg) k (length positions)) (map trial (seq 0 200)))
          (fun ssf => inl (trial (argmax ssf)))).
End Calculate.
