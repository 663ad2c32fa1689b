(** Model of run_analysis.py: the fraction of ordered particles in every frame of a trajectory.
    gsd: a trajectory is iterated by reading trajectory[0], trajectory[1], ... until IndexError.  Reading is
    described by what it gives; the two reads of a frame may differ.  [neigh] is compute_neighbours
    (order.py:186-208) with its defaults.  Simplified: real numbers; the text of the numbers is left out. *)
From Coq Require Import Reals ZArith List Bool.
From Verif Require Import Base RVec RelaxFitModel FrameModel OrderModel.
Import ListNotations.
Open Scope R_scope.

(* _read.py:150, 153 a row of orientation *)
Definition to_quat (q : FrameModel.quat R) : RVec.quat :=
  let '(w, x, y, z) := q in mkq w x y z.

Section Run.
Context (neg_real : R) (neigh : list R -> list (FrameModel.vec3 R) -> list (list nat) + exn).
Notation snap := (FrameModel.snapshot R).

(** order.py:234-262 [orientational_order] *)
Definition snapshot_order (box : list R) (pos : option (list (FrameModel.vec3 R))) (ori : option (list (FrameModel.quat R))) : list R + exn :=
  match pos, ori with
  | Some p, Some q => ebind (neigh box p) (fun nl => orientational_order neg_real nl (map to_quat q))
  | _, _ => inr TypeError
  end.
(** run_analysis.py:40 [np.sum(orient_order > 0.9) / len(orient_order)]; 0/0 raises, np.seterr in
    dynamics/dynamics.py:21 *)
Definition fraction (o : list R) : R + exn :=
  match o with
  | [] => inr FloatingPointError
  | _ => inl (INR (length (filter (fun x => Rltb (9 / 10) x) o)) / INR (length o))
  end.
(** run_analysis.py:32-42: what is printed for a frame *)
Definition frame_row (s : snap) : (Z * R) + exn :=
  ebind (snapshot_order (s_cbox s) (s_position s) (s_orientation s)) (fun o =>
  ebind (fraction o) (fun x => inl (s_step s, x))).
(** run_analysis.py:25-42: the loop; every element is what reading the frame gives, in the iteration (25) and in
    the body (27) *)
Fixpoint loop (l : list ((snap + exn) * (snap + exn))) : list (Z * R) * option exn :=
  match l with
  | [] => ([], None)
  | (inr IndexError, _) :: _ => ([], None)
  | (inr e, _) :: _ => ([], Some e)
  | (inl _, inr RuntimeError) :: l' => loop l'                                        (* 28-30 *)
  | (inl _, inr e) :: _ => ([], Some e)
  | (inl _, inl s) :: l' =>
      match frame_row s with
      | inr e => ([], Some e)
      | inl r => let '(rows, e) := loop l' in (r :: rows, e)
      end
  end.
(** run_analysis.py:20-42 [order]: the lines of the output file after the header "Timestep, OrientOrder"
    ([None]: the file does not exist), and the exception. *)
Definition order (infile : list ((snap + exn) * (snap + exn)) + exn) (before : option (list (Z * R))) : option (list (Z * R)) * option exn :=
  match infile with
  | inr e => (before, Some e)
  | inl l => let '(rows, e) := loop l in (Some rows, e)
  end.
(** What the library gives for the molecules: create_orient_ordering(0.9)(HoomdFrame(snapshot)), order.py:124-129 *)
Definition ordered_molecules (s : snap) : list bool + exn :=
  ebind (HoomdFrame s) (fun f => ebind (h_position f) (fun p => ebind (h_orientation f) (fun q =>
  ebind (neigh (h_box f) p) (fun nl => orient_ordering neg_real (9 / 10) nl (map to_quat q))))).
End Run.
