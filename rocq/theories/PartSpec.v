(** Specification vocabulary for C218: some of the molecules of a trajectory. *)
From Coq Require Import String Reals ZArith List Bool.
From Verif Require Import Base XNum RVec RelaxFitModel MotionModel DynModel DynSpec MolRelaxModel EndModel RenumberSpec.
Import ListNotations.
Open Scope R_scope.
Notation length := List.length.

(** Some of the [n] molecules, by their numbers, in any order: [renumber idx f] has these only. *)
Definition some_of (n : nat) (idx : list nat) : Prop := idx <> [] /\ forall i, In i idx -> (i < n)%nat.

Section Objects.
  Variable wrap : fbox -> v3 -> v3.
  Variable gimbal : RVec.quat -> v3.
  Variable fl : R -> xnum.
  Variable parse : string -> option xnum.
  Variable show : yaml -> string.

  (** A Relaxations object to which the frames are added one after the other; the first
      exception ends it. *)
  Fixpoint add_each (r : robj) (fs : list eframe) : robj + exn :=
    match fs with
    | [] => inl r
    | f :: fs => match radd wrap gimbal fl r f with (r, None) => add_each r fs | (_, Some e) => inr e end
    end.
  Definition relaxations_of (k : R) (defs : option (list definition)) (f0 : eframe) (fs : list eframe) : robj + exn :=
    match make_relaxations fl (fun _ _ => inr ValueError) parse show (Some k) f0 with
    | inr e => inr e
    | inl r => match custom parse show defs with
               | None => add_each r fs
               | Some set => match set r with (r, None) => add_each r fs | (_, Some e) => inr e end
               end
    end.

  (** A Dynamics object likewise *)
  Fixpoint dyn_each (d : dynamics) (fs : list eframe) : dynamics + exn :=
    match fs with
    | [] => inl d
    | f :: fs => match dyn_add wrap gimbal d (e_pos f) (e_ori f) with (d, None) => dyn_each d fs | (_, Some e) => inr e end
    end.
  Definition dynamics_of (mol : list v3) (wave : option R) (f0 : eframe) (fs : list eframe) : dynamics + exn :=
    match make_dynamics mol wave f0 with inr e => inr e | inl d => dyn_each d fs end.
End Objects.

(** The columns that are averages over the molecules *)
Definition averages : list string :=
  ["mean_displacement"; "msd"; "mfd"; "scattering_function"; "com_struct"; "mean_rotation"; "msr"; "rot1"; "rot2"]%string.

(** One value from those of two parts of [na] and [nb] molecules; NaN for all of them where
    the column is not computed *)
Definition weighted (na nb : nat) (v va vb : option dval) : Prop :=
  (v = Some (VFl FNaN) /\ va = Some (VFl FNaN) /\ vb = Some (VFl FNaN)) \/
  exists x xa xb, v = Some (VFl (FR x)) /\ va = Some (VFl (FR xa)) /\ vb = Some (VFl (FR xb)) /\
    INR (na + nb) * x = INR na * xa + INR nb * xb.
