(** The whole analysis of a trajectory: process_file (ProcessPathModel) with the Dynamics
    (DynModel), TrackedMotion (MotionModel) and Relaxations (MolRelaxModel) that it uses.

    Lengths and angles are reals until they reach the relaxation times, which compare
    numbers of a finite precision: [fl] rounds a real to such a number (contract [rounds] of
    EndSpec.v).  The wave number that Relaxations computes itself when none is given is the
    parameter [calculate]. *)
From Coq Require Import String Reals ZArith List Bool.
From Verif Require Import Base XNum RVec FrameModel MotionModel DynModel MolRelaxModel WriteCacheModel
  ProcessModel ProcessPathModel.
Import ListNotations.
Open Scope R_scope.
Notation length := List.length.

(** What process_file uses of a frame, _read.py:129, 138-139, 147-153 *)
Record eframe : Set := mkframe {
  e_ts : Z;                                       (* timestep *)
  e_box : list R;
  e_pos : list v3;
  e_ori : option (list RVec.quat)
}.

(** The freud Box that a call of the constructor gives; a flat one has Lz = 0. *)
(* util.py:187-193 the box handed on to freud *)
Definition to_box (b : FrameModel.fbox R) : fbox :=
  match b with
  | Box2 Lx Ly xy => mkbox Lx Ly 0 xy 0 0 true
  | Box3 Lx Ly Lz xy xz yz => mkbox Lx Ly Lz xy xz yz false
  end.
(** util.py:178-193, for the two-dimensional molecule Trimer: dynamics.py:97, 101,
    relaxations.py:54, 56 *)
Definition frame_box (f : eframe) : fbox + exn :=
  MotionModel.ebind (create_freud_box 0 (e_box f) true) (fun b => inl (to_box b)).

(** A Relaxations object, relaxations.py:38-62 *)
Record robj : Type := mkrobj {
  r_motion : motion;
  r_num : nat;                                    (* _num_elements *)
  r_relax : relaxations                           (* init_time and mol_relax *)
}.

Section End.
  Variable wrap : fbox -> v3 -> v3.               (* freud Box.wrap *)
  Variable gimbal : RVec.quat -> v3.              (* rowan.to_euler in gimbal lock *)
  Variable argsort : list R -> list nat.          (* np.argsort *)
  Variable fl : R -> xnum.                        (* rounding *)
  Variable calculate : fbox -> list v3 -> R + exn. (* _util.py:66-86 *)
  Variable parse : string -> option xnum.         (* float() of a string *)
  Variable show : yaml -> string.                 (* str() of a YAML value *)
  Variable mol : list v3.                         (* Trimer().positions *)
  Variable wave : option R.                       (* wave_number *)
  Variable scattering : bool.                     (* scattering_function *)
  Variable defs : option (list definition).       (* mol_relaxations *)

  (** dynamics.py:114-135 [from_frame] and 90-112; angular_resolution is 360 *)
  Definition make_dynamics (f : eframe) : dynamics + exn :=
    match e_pos f with
    | [] => inr RuntimeError
    | _ => MotionModel.ebind (frame_box f) (fun b =>
             dyn_init (e_ts f) b (e_pos f) (e_ori f) (Some mol) wave 360)
    end.

  (** relaxations.py:88-107 [from_frame] and 49-81; 84-86 [distance] *)
  Definition make_relaxations (f : eframe) : robj + exn :=
    MotionModel.ebind (frame_box f) (fun b =>
    MotionModel.ebind (motion_init b (e_pos f) (e_ori f)) (fun m =>
    MotionModel.ebind (match wave with Some k => inl k | None => calculate b (e_pos f) end) (fun k =>
    if Req_EM_T k 0 then inr ZeroDivisionError
    else
      let n := length (e_pos f) in
      match set_mol_relax parse show n
              (default_definitions (fl (PI / (2 * k))) (fl (PI / 2)) (fl (PI / 3)) (fl (PI / 4))) with
      | (_, Some e) => inr e
      | (r, None) => inl (mkrobj m n {| rx_init_time := e_ts f; rx_relax := r |})
      end))).

  (** _read.py:137-140 *)
  Definition make (f : eframe) : (dynamics * robj) + exn :=
    MotionModel.ebind (make_dynamics f) (fun d =>
    MotionModel.ebind (make_relaxations f) (fun r => inl (d, r))).

  (** _read.py:143-144, relaxations.py:109-130 *)
  Definition custom : option (robj -> robj * option exn) :=
    match defs with
    | None => None
    | Some ds => Some (fun x =>
        let (r, e) := set_mol_relax parse show (r_num x) ds in
        (mkrobj (r_motion x) (r_num x) {| rx_init_time := rx_init_time (r_relax x); rx_relax := r |}, e))
    end.

  (** _read.py:147-152 *)
  Definition compute (d : dynamics) (f : eframe) : dynamics * (dict string dval + exn) :=
    compute_all wrap gimbal argsort d (e_ts f) (e_pos f) (e_ori f) scattering.

  (** _read.py:153, relaxations.py:135-162 *)
  Definition radd (x : robj) (f : eframe) : robj * option exn :=
    match motion_add wrap gimbal (r_motion x) (e_pos f) (e_ori f) with
    | (m, Some e) => (mkrobj m (r_num x) (r_relax x), Some e)
    | (m, None) =>
        let (r, e) := relaxations_add (e_ts f) (map fl (displacement (m_dt m)))
                                      (map fl (displacement (m_dr m))) (r_relax x) in
        (mkrobj m (r_num x) r, e)
    end.

  (** process_file, _read.py:82-195 *)
  Definition analyse (infile : string) (outfile : bool)
             (gsd lammps : list (list nat * eframe) * option exn)
             (t0 : table (nat * labelled (dict string dval))) (r0 : option (list (nat * dict string (list Z))))
    : outcome (labelled (dict string dval)) (dict string (list Z)) :=
    process_path (fun f => length (e_pos f)) make custom compute radd (fun x => summary (r_relax x)) parse
                 infile outfile gsd lammps t0 r0.
End End.
