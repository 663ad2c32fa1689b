(** compute_relaxation_value with diffusion_constant in place (relaxation.py:352-391). *)
From Coq Require Import String Reals QArith Qreals ZArith List.
From Verif Require Import Base XNum RelaxationModel RelaxFitModel.
Import ListNotations.

(** The embedding of exact numbers in the numbers of RelaxFitModel. *)
(* relaxation.py:424 a value of a column *)
Definition x2f (x : xnum) : fl :=
  match x with NaN => FNaN | PInf => FPInf | NInf => FNInf | Fin q => FR (Q2R q) end.

(** relaxation.py:383-386 call diffusion_constant with the dimension. *)
Definition relaxation_value (nan_raises : bool) (curve_fit : list (R * R) -> (R * R * R) + exn)
  : list Q -> list xnum -> string -> fres + exn :=
  compute_relaxation_value nan_raises
    (fun dim time value => diffusion_constant nan_raises curve_fit (map Q2R time) (map x2f value) dim)
    (fun r => (x2f (fst r), x2f (snd r))).
