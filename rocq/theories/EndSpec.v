(** What the analysis of a whole trajectory should report: times of passage of the true
    motion. *)
From Coq Require Import String Reals ZArith QArith Qreals List Bool.
From Verif Require Import Base XNum RVec RelaxFitModel MotionModel MotionSpec DynModel DynTrue ParamsModel ProcessSpec
  ProcessPathModel ProcessPathProps EndModel.
Import ListNotations.
Open Scope R_scope.
Notation length := List.length.

(** ** Rounding *)
(** [n] is the number [x], up to the relative error [u]. *)
Definition approx (u x : R) (n : xnum) : Prop :=
  exists q, n = Fin q /\ Rabs (Q2R q - x) <= u * Rabs x.
Definition rounds (u : R) (fl : R -> xnum) : Prop := 0 <= u < 1 /\ forall x, approx u x (fl x).
(** [x] is beyond [thr] by more than the rounding; possibly beyond [thr]; not too close. *)
Definition surely (u thr x : R) : Prop := thr * (1 + u) < x * (1 - u).
Definition maybe (u thr x : R) : Prop := thr * (1 - u) < x * (1 + u).
Definition clear (u thr x : R) : Prop := surely u thr x \/ surely u x thr.

(** ** Times of passage; the list has the time and the distance of every frame. *)
(** The earliest time with a distance beyond [thr], 2^32 - 1 without one *)
Definition first_passage (thr : R) (l : list (Z * R)) (v : Z) : Prop :=
  ((v = 2 ^ 32 - 1)%Z \/ exists x, In (v, x) l /\ thr < x) /\ (v <= 2 ^ 32 - 1)%Z /\
  forall t x, In (t, x) l -> thr < x -> (v <= t)%Z.
(** The same up to rounding *)
Definition first_about (u thr : R) (l : list (Z * R)) (v : Z) : Prop :=
  ((v = 2 ^ 32 - 1)%Z \/ exists x, In (v, x) l /\ maybe u thr x) /\ (v <= 2 ^ 32 - 1)%Z /\
  forall t x, In (t, x) l -> surely u thr x -> (v <= t)%Z.
(** The time of the last exit through [thr] before the first time beyond [cut], 2^32 - 1
    if nothing is beyond [cut].  In the list up to the first distance beyond [cut], (v, d)
    is the first that is beyond [thr] since the last that is below [thr], and nothing after
    it is below [thr]. *)
Definition last_passage (thr cut : R) (l : list (Z * R)) (v : Z) : Prop :=
  ((forall c, In c l -> snd c <= cut) /\ v = (2 ^ 32 - 1)%Z) \/
  (exists a d b post before e,
     l = (a ++ (v, d) :: b) ++ post /\ a ++ (v, d) :: b = before ++ [e] /\
     cut < snd e /\ (forall c, In c before -> snd c <= cut) /\
     thr < d /\ (forall c, In c b -> thr <= snd c) /\
     exists a1 a2, a = a1 ++ a2 /\ (a1 = [] \/ exists a0 c, a1 = a0 ++ [c] /\ snd c < thr) /\
       (forall c, In c a2 -> snd c <= thr))%list.

Section Trajectory.
  (** The true state at every frame: positions in space and total angles *)
  Variable T : eframe -> truth.

  (** The box of a frame in the plane: sides and tilt *)
  Definition plane_box (f : eframe) (b : fbox) : Prop :=
    exists Lx Ly Lz, (e_box f = [Lx; Ly; Lz] /\ b = mkbox Lx Ly 0 0 0 0 true) \/
      exists xy xz yz, e_box f = [Lx; Ly; Lz; xy; xz; yz] /\ b = mkbox Lx Ly 0 xy 0 0 true.
  (** [f] shows the true state in some periodic images and with some signs. *)
  Definition shown_in (b : fbox) (N : nat) (f : eframe) : Prop :=
    images b (e_pos f) (fst (T f)) /\ length (e_pos f) = N /\ length (snd (T f)) = N /\
    exists q, e_ori f = Some q /\ Forall2 turned q (snd (T f)).
  (** The frames [f0 :: rest] of a key frame can be followed: the box is that of [f0], and
      between consecutive frames nothing moves by half a box or turns by pi. *)
  Definition followable (N : nat) (f0 : eframe) (rest : list eframe) : Prop :=
    exists b, plane_box f0 b /\ box_ok b /\ Forall (shown_in b N) (f0 :: rest) /\
      chain (slow b) (T f0) (map T rest) /\ forall f, In f rest -> exists b', plane_box f b'.

  (** How far molecule [i] has moved and turned since [f0], frame by frame *)
  Definition moves (f0 : eframe) (i : nat) : list eframe -> list (Z * R) :=
    map (fun f => ((e_ts f - e_ts f0)%Z, sqrt (moved2 (T f0) (T f) i))).
  Definition spins (f0 : eframe) (i : nat) : list eframe -> list (Z * R) :=
    map (fun f => ((e_ts f - e_ts f0)%Z, Rabs (angle (T f0) (T f) i))).

  (** The value of molecule [i] in the column [name] *)
  Definition entry (s : dict string (list Z)) (name : string) (i : nat) (v : Z) : Prop :=
    exists col, dget String.eqb name s = Some col /\ nth_error col i = Some v.

  Open Scope string_scope.
  (** The summary [s] of a key frame with the frames [fs], the first of which is [f0] *)
  Definition reports (u k : R) (N : nat) (f0 : eframe) (fs : list eframe) (s : dict string (list Z)) : Prop :=
    let D := PI / (2 * k) in
    map fst s = ["tau_D"; "tau_F"; "tau_L"; "tau_T2"; "tau_T3"; "tau_T4"] /\
    (forall name col, In (name, col) s -> length col = N) /\
    forall i, (i < N)%nat ->
      (exists v, entry s "tau_D" i v /\ first_about u (3 * D) (moves f0 i fs) v) /\
      (exists v, entry s "tau_F" i v /\ first_about u D (moves f0 i fs) v) /\
      (exists v, entry s "tau_L" i v /\
         ((forall t x, In (t, x) (moves f0 i fs) -> clear u D x /\ clear u (3 * D) x) ->
          last_passage D (3 * D) (moves f0 i fs) v)) /\
      (exists v, entry s "tau_T2" i v /\ first_about u (PI / 2) (spins f0 i fs) v) /\
      (exists v, entry s "tau_T3" i v /\ first_about u (PI / 3) (spins f0 i fs) v) /\
      (exists v, entry s "tau_T4" i v /\ first_about u (PI / 4) (spins f0 i fs) v).

  (** The row of frame [f] for the key frame [K] that starts with [f0]: labelled by [K] and by
      the numbers in the file name, and describing the true motion from [f0] to [f] *)
  Definition row_for (pfloat : string -> option xnum) (v : variables) (k : R) (N : nat) (scattering : bool)
             (K : nat) (f0 f : eframe) (p : nat * labelled (dict string dval)) : Prop :=
    fst p = K /\ lb_keyframe (snd p) = K /\
    parsed pfloat (v_temperature v) (lb_temperature (snd p)) /\
    parsed pfloat (v_pressure v) (lb_pressure (snd p)) /\
    describes (T f0) (T f) N k 360 (e_ts f - e_ts f0) scattering (lb_row (snd p)).

  Definition is_nan (o : option dval) : Prop := o = Some (VFl FNaN).
  (** What a row says when no wave number is given: the averages that need no length *)
  Definition describes_bare (s0 s : truth) (n : nat) (time : Z) (q : dict string dval) : Prop :=
    let get key := dget String.eqb key q in
    let real x := Some (VFl (FR x)) in
    get "time" = Some (VInt time) /\
    get "mean_displacement" = real (avg n (fun i => sqrt (moved2 s0 s i))) /\
    get "msd" = real (avg n (moved2 s0 s)) /\
    get "mfd" = real (avg n (fun i => moved2 s0 s i ^ 2)) /\
    get "mean_rotation" = real (avg n (fun i => Rabs (angle s0 s i))) /\
    get "msr" = real (avg n (fun i => angle s0 s i ^ 2)) /\
    get "rot1" = real (avg n (fun i => cos (angle s0 s i))) /\
    get "rot2" = real (avg n (fun i => cos (2 * angle s0 s i))) /\
    is_ratio (avg n (fun i => moved2 s0 s i ^ 2)) (2 * avg n (moved2 s0 s) ^ 2) (get "alpha") /\
    is_ratio (avg n (fun i => angle s0 s i ^ 4)) (3 * avg n (fun i => angle s0 s i ^ 2) ^ 2) (get "alpha_rot") /\
    is_ratio (avg n (fun i => moved2 s0 s i * angle s0 s i ^ 2)) (avg n (moved2 s0 s) * avg n (fun i => angle s0 s i ^ 2)) (get "gamma") /\
    is_nan (get "scattering_function") /\ is_nan (get "com_struct") /\ is_nan (get "struct").
  Definition row_without (pfloat : string -> option xnum) (v : variables) (N : nat)
             (K : nat) (f0 f : eframe) (p : nat * labelled (dict string dval)) : Prop :=
    fst p = K /\ lb_keyframe (snd p) = K /\
    parsed pfloat (v_temperature v) (lb_temperature (snd p)) /\
    parsed pfloat (v_pressure v) (lb_pressure (snd p)) /\
    describes_bare (T f0) (T f) N (e_ts f - e_ts f0) (lb_row (snd p)).
End Trajectory.
