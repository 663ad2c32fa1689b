(** Model of Dynamics, src/sdanalysis/dynamics/dynamics.py, over the reals.

    Rounding, overflow and underflow are not modelled.  [argsort] is numpy's, of which
    DynSpec.v states the contract.  The freud box is given (create_freud_box is modelled in
    FrameModel.v).  [np.seterr(divide, invalid, over = "raise")], line 21, is in force. *)
From Coq Require Import String Reals ZArith List Bool.
From Verif Require Import Base RVec RelaxFitModel MotionModel.
Import ListNotations.
Open Scope R_scope.

(** ** Functions of the displacements and rotations *)

(** dynamics.py:179-185, 217-223 *)
Definition displacement (d : list v3) : list R := map norm3 d.
(* dynamics.py:183-185 *)
Definition displacement2 (d : list v3) : list R := map norm2_3 d.
(* dynamics.py:193, 205 np.square *)
Definition sq (x : R) : R := x * x.
(** dynamics.py:187-193 *)
Definition msd (d : list v3) : R := rmean (displacement2 d).
(* dynamics.py:191-193 *)
Definition mfd (d : list v3) : R := rmean (map sq (displacement2 d)).
(** [num / den - 1] with FloatingPointError for an invalid operation (0/0), caught, and
    recomputed with NaN (nan_to_num changes a copy); x/0 would raise again. *)
(* dynamics.py:204-211, 273-280, 296-303 the division with its FloatingPointError branch *)
Definition ratio (num den : R) : fl + exn :=
  if Req_EM_T den 0 then (if Req_EM_T num 0 then inl FNaN else inr FloatingPointError)
  else inl (FR (num / den - 1)).
(** dynamics.py:195-211 (k = 2), 261-280 (k = 3) *)
Definition alpha (k : R) (d : list v3) : fl + exn :=
  ratio (rmean (map sq (displacement2 d))) (k * sq (rmean (displacement2 d))).
(** dynamics.py:282-303 *)
Definition gamma (dt dr : list v3) : fl + exn :=
  ratio (rmean (zip Rmult (displacement2 dt) (displacement2 dr)))
        (rmean (displacement2 dt) * rmean (displacement2 dr)).
(** dynamics.py:225-231 *)
Definition mean_rotation (dr : list v3) : R := rmean (displacement dr).
(* dynamics.py:229-231 *)
Definition msr (dr : list v3) : R := rmean (displacement2 dr).
(** dynamics.py:237-259 *)
Definition rot1 (dr : list v3) : R := rmean (map cos (displacement dr)).
(* dynamics.py:249-259 *)
Definition rot2 (dr : list v3) : R := rmean (map (fun x => 2 * sq (cos x) - 1) (displacement dr)).
(** dynamics.py:104-112: [angular_resolution] directions; 233-235 *)
Definition wave_vectors (k : R) (res : nat) : list (R * R) :=
  map (fun i => let t := INR i * (2 * PI) / INR res in (cos t * k, sin t * k)) (seq 0 res).
(* dynamics.py:233-235 *)
Definition isf (k : R) (res : nat) (dt : list v3) : R :=
  rmean (flat_map (fun w => map (fun d => cos (fst w * x3 d + snd w * y3 d)) dt) (wave_vectors k res)).

(** dynamics.py:410-428 [structural_relax] *)
Definition structural_relax (disp : list R) (dist : R) : R :=
  rmean (map (fun x => if Rltb x dist then 1 else 0) disp).

(** dynamics.py:431-445 [mobile_overlap], fraction = 0.1: [int(len * 0.1)] is the integer quotient by 10
    ([0.1] is represented slightly above 1/10; arrays of 2^50 elements are not modelled). *)
Definition last_n {A} (n : nat) (l : list A) : list A :=        (* l[-n:]; [-0:] is everything *)
  if (n =? 0)%nat then l else skipn (length l - n) l.
(* dynamics.py:445 np.intersect1d *)
Definition intersect1d (a b : list nat) : list nat :=
  nodup Nat.eq_dec (filter (fun i => existsb (Nat.eqb i) b) a).
(* dynamics.py:431-445 *)
Definition mobile_overlap (argsort : list R -> list nat) (disp rotn : list R) : R + exn :=
  let num := (length disp / 10)%nat in
  let trans_order := last_n num (argsort disp) in
  let rot_order := last_n num (argsort (map Rabs rotn)) in
  if (num =? 0)%nat then inr ZeroDivisionError
  else inl (INR (length (intersect1d trans_order rot_order)) / INR num).

(** _util.py:42-54 [molecule2particles], given arrays *)
Definition near0 (x : R) : bool := if Rle_dec (Rabs x) (/ 100000000) then true else false.
(* _util.py:47 np.allclose(orientation, 0.0) *)
Definition near_zero (q : quat) : bool := near0 (qw q) && near0 (qx q) && near0 (qy q) && near0 (qz q).
(* _util.py:42-54 *)
Definition molecule2particles (position : list v3) (orientation : list quat) (mol : list v3) : list v3 + exn :=
  let orientation := if forallb near_zero orientation
                     then map (fun q => mkq 1 (qx q) (qy q) (qz q)) orientation else orientation in
  if negb (forallb unitb orientation) then inr ValueError                  (* rowan.rotate *)
  else match mol with
       | [] => inr ValueError                                              (* np.concatenate([]) *)
       | _ => bzip add3 (flat_map (fun v => map (fun q => rot q v) orientation) mol)
                        (flat_map (fun p => repeat p (length mol)) position)
       end.

(** dynamics.py:310-326 of [compute_struct_relax] *)
Definition struct_positions (dt dr mol : list v3) (num : nat) : (list v3 * list v3) + exn :=
  let quat_rot := map (fun r => from_euler (z3 r) (y3 r) (x3 r)) dr in
  ebind (molecule2particles dt quat_rot mol) (fun final =>
  ebind (molecule2particles (map (fun _ => zero3) dt) (repeat qone num) mol) (fun init =>
  inl (final, init))).
(* dynamics.py:305-326 *)
Definition struct_relax (dt dr mol : list v3) (num : nat) (dist : R) : R + exn :=
  ebind (struct_positions dt dr mol num) (fun fi =>
  ebind (bzip sub3 (fst fi) (snd fi)) (fun d => inl (structural_relax (map norm3 d) dist))).

(** ** The class *)
(* dynamics.py:90-112 the attributes of a Dynamics object *)
Record dynamics : Set := mkdyn {
  d_motion : motion;
  d_timestep : Z;
  d_num : nat;                           (* num_particles *)
  d_mol : option (list v3);              (* mol_vector *)
  d_wave : option R;                     (* wave_number *)
  d_res : nat                            (* angular_resolution *)
}.

(** dynamics.py:67-112 [__init__]; [b] is create_freud_box(box, is2d) *)
Definition dyn_init (timestep : Z) (b : fbox) (position : list v3) (orientation : option (list quat))
           (mol : option (list v3)) (wave : option R) (res : nat) : dynamics + exn :=
  match position with
  | [] => inr RuntimeError
  | _ => ebind (motion_init b position orientation) (fun m =>
           inl (mkdyn m timestep (length position) mol wave res))
  end.

(** dynamics.py:399-403 [distance].  The quotient of Python floats raises for a zero wave number. *)
Definition distance (d : dynamics) : option R + exn :=
  match d_wave d with
  | None => inl None
  | Some k => if Req_EM_T k 0 then inr ZeroDivisionError else inl (Some (PI / (2 * k)))
  end.

(** dynamics.py:305-326 [compute_struct_relax]; [None.astype] is an AttributeError *)
Definition compute_struct_relax (d : dynamics) : R + exn :=
  ebind (distance d) (fun dist =>
  match dist with
  | None => inr ValueError
  | Some x => match d_mol d with
              | None => inr AttributeError
              | Some mol => struct_relax (m_dt (d_motion d)) (m_dr (d_motion d)) mol (d_num d) x
              end
  end).

(** The values of the returned dictionary *)
(* dynamics.py:353-390 the values of the returned dictionary *)
Inductive dval : Set := VInt (n : Z) | VFl (x : fl).

(** dynamics.py:46-64 [_all_quantities] *)
Open Scope string_scope.
(* dynamics.py:49-65 *)
Definition all_quantities : list string :=
  ["time"; "mean_displacement"; "msd"; "mfd"; "alpha"; "scattering_function"; "com_struct";
   "mean_rotation"; "msr"; "rot1"; "rot2"; "alpha_rot"; "gamma"; "overlap"; "struct"].

Section Compute.
  Variable wrap : fbox -> v3 -> v3.
  Variable gimbal : quat -> v3.
  Variable argsort : list R -> list nat.

  (** dynamics.py:144-160 [add] *)
  Definition dyn_add (d : dynamics) (p : list v3) (o : option (list quat)) : dynamics * option exn :=
    let (m, e) := motion_add wrap gimbal (d_motion d) p o in
    (mkdyn m (d_timestep d) (d_num d) (d_mol d) (d_wave d) (d_res d), e).

  (* dynamics.py:356-390 assignment to a key *)
  Definition put (k : string) (v : dval) (d : dict string dval) : dict string dval := dset String.eqb k v d.
  (* dynamics.py:356-390 assignment of a float to a key *)
  Definition putr (k : string) (x : R) : dict string dval -> dict string dval := put k (VFl (FR x)).

  (** dynamics.py:349-394: the quantities, after [add] *)
  Definition quantities (d : dynamics) (timestep : Z) (scattering : bool) : dict string dval + exn :=
    let dt := m_dt (d_motion d) in
    let dr := m_dr (d_motion d) in
    let q := map (fun k => (k, VFl FNaN)) all_quantities in                            (* 351 *)
    let q := put "time" (VInt (timestep - d_timestep d)) q in
    let q := putr "mean_displacement" (rmean (displacement dt)) q in
    let q := putr "msd" (msd dt) q in
    let q := putr "mfd" (mfd dt) q in
    ebind (alpha 2 dt) (fun a =>
    let q := put "alpha" (VFl a) q in
    let q := match scattering, d_wave d with                                           (* 363-364 *)
             | true, Some k => putr "scattering_function" (isf k (d_res d) dt) q
             | _, _ => q
             end in
    ebind (distance d) (fun dist =>
    let q := match dist with                                                           (* 367-370 *)
             | Some x => putr "com_struct" (structural_relax (displacement dt) x) q
             | None => q
             end in
    let q := putr "mean_rotation" (mean_rotation dr) q in
    let q := putr "msr" (msr dr) q in
    let q := putr "rot1" (rot1 dr) q in
    let q := putr "rot2" (rot2 dr) q in
    ebind (alpha 3 dr) (fun ar =>
    let q := put "alpha_rot" (VFl ar) q in
    ebind (gamma dt dr) (fun g =>
    let q := put "gamma" (VFl g) q in
    ebind (mobile_overlap argsort (displacement dt) (displacement dr)) (fun ov =>
    let q := putr "overlap" ov q in
    match dist, d_mol d, m_pori (d_motion d) with                                      (* 383-388 *)
    | Some _, Some _, Some _ => ebind (compute_struct_relax d) (fun s => inl (putr "struct" s q))
    | _, _, _ => inl q
    end))))).

  (** dynamics.py:328-394 [compute_all] *)
  Definition compute_all (d : dynamics) (timestep : Z) (p : list v3) (o : option (list quat)) (scattering : bool)
    : dynamics * (dict string dval + exn) :=
    match dyn_add d p o with
    | (d', Some e) => (d', inr e)
    | (d', None) => (d', quantities d' timestep scattering)
    end.
End Compute.
