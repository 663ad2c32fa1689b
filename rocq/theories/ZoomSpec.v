(** The same trajectory in another unit of length. *)
From Coq Require Import String Reals ZArith QArith Qreals List Bool.
From Verif Require Import Base XNum RVec RelaxFitModel MotionModel DynModel WaveSpec WriteCacheModel ProcessModel ProcessPathModel EndModel.
Import ListNotations.
Open Scope R_scope.

(** Every length of the frame is multiplied by [a]; tilt factors are ratios. *)
Definition zoom_frame (a : R) (f : eframe) : eframe :=
  mkframe (e_ts f)
          (match e_box f with Lx :: Ly :: Lz :: tilts => a * Lx :: a * Ly :: a * Lz :: tilts | l => l end)
          (zoom a (e_pos f)) (e_ori f).
Definition zoom_film (a : R) (l : list (list nat * eframe)) : list (list nat * eframe) :=
  map (fun x => (fst x, zoom_frame a (snd x))) l.

(** The power of the length in each column; all others are times, angles and ratios. *)
Open Scope string_scope.
Definition power (column : string) : nat :=
  if String.eqb column "mean_displacement" then 1
  else if String.eqb column "msd" then 2
  else if String.eqb column "mfd" then 4
  else 0.
Definition value_in_units (a : R) (n : nat) (v : dval) : dval :=
  match v with VFl (FR x) => VFl (FR (a ^ n * x)) | _ => v end.
Definition row_in_units (a : R) (row : dict string dval) : dict string dval :=
  map (fun p => (fst p, value_in_units a (power (fst p)) (snd p))) row.
Definition line_in_units (a : R) (p : nat * labelled (dict string dval)) : nat * labelled (dict string dval) :=
  let o := snd p in
  (fst p, {| lb_row := row_in_units a (lb_row o); lb_keyframe := lb_keyframe o;
             lb_temperature := lb_temperature o; lb_pressure := lb_pressure o |}).
Definition table_in_units (a : R) (t : table (nat * labelled (dict string dval))) : table (nat * labelled (dict string dval)) :=
  option_map (map (line_in_units a)) t.
(** Rows in the new unit, the same relaxation times, the same exceptions *)
Definition outcome_in_units (a : R) (o : outcome (labelled (dict string dval)) (dict string (list Z)))
  : outcome (labelled (dict string dval)) (dict string (list Z)) :=
  {| out_result := match out_result o with inl x => inl (table_in_units a x) | inr e => inr e end;
     out_table := table_in_units a (out_table o);
     out_relax := out_relax o |}.

(** Contracts: [Box.wrap] works in any unit; [np.argsort] compares only; the factor is a
    number with which rounding commutes, as a power of two does. *)
Definition wrap_scales (a : R) (wrap : fbox -> v3 -> v3) : Prop :=
  forall b v, wrap (zoom_box a b) (scale3 a v) = scale3 a (wrap b v).
Definition argsort_scales (a : R) (argsort : list R -> list nat) : Prop :=
  forall l, argsort (map (Rmult a) l) = argsort l.
Definition xequal (x y : xnum) : Prop :=
  match x, y with Fin p, Fin q => Qeq p q | _, _ => x = y end.
Definition xtimes (q : Q) (x : xnum) : xnum := match x with Fin p => Fin (q * p) | y => y end.
Definition rounding_scales (a : R) (fl : R -> xnum) : Prop :=
  exists q, (0 < q)%Q /\ Q2R q = a /\ forall x, xequal (fl (a * x)) (xtimes q (fl x)).
