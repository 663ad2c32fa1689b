(** Model of src/sdanalysis/relaxation.py: the summaries that only compare and subtract.

    Times are exact numbers ([Q]: every finite float or int is one), values exact extended
    numbers ([XNum.xnum]).  Rounding of the subtractions is not modelled. *)
From Coq Require Import String ZArith QArith List Bool.
From Verif Require Import Base XNum.
Import ListNotations.
Open Scope Z_scope.

(** relaxation.py:26-35 [Result]: mean and error. *)
Definition res : Set := (xnum * xnum)%type.
(* relaxation.py:155, 281, 315 *)
Definition nan_res : res := (NaN, NaN).

(* relaxation.py:278, 312 np.isnan within nanargmax *)
Definition xnan (x : xnum) : bool := match x with NaN => true | _ => false end.

(** numpy: [a - b], [a + b] of scalars under [np.seterr(invalid="raise")]
    (dynamics/dynamics.py:21), which sdanalysis sets on import. *)
Definition xsub (a b : xnum) : xnum + exn :=
  match a, b with
  | NaN, _ | _, NaN => inl NaN
  | PInf, PInf | NInf, NInf => inr FloatingPointError
  | PInf, _ | _, NInf => inl PInf
  | NInf, _ | _, PInf => inl NInf
  | Fin x, Fin y => inl (Fin (x - y)%Q)
  end.
(* relaxation.py:322-325 *)
Definition xadd (a b : xnum) : xnum + exn :=
  match a, b with
  | NaN, _ | _, NaN => inl NaN
  | PInf, NInf | NInf, PInf => inr FloatingPointError
  | PInf, _ | _, PInf => inl PInf
  | NInf, _ | _, NInf => inl NInf
  | Fin x, Fin y => inl (Fin (x + y)%Q)
  end.
(** [a / 2] *)
(* relaxation.py:288, 322-325 *)
Definition xhalf (a : xnum) : xnum := match a with Fin x => Fin (x / 2)%Q | y => y end.

(* relaxation.py:149-156 propagation of an exception *)
Definition ebind {A B} (x : A + exn) (f : A -> B + exn) : B + exn :=
  match x with inl a => f a | inr e => inr e end.

(** [l[i]]: negative indexes count from the end. *)
(* relaxation.py:156, 284-290, 318-327 indexing, also with -1 *)
Definition py_get {A} (l : list A) (i : Z) : A + exn :=
  let n := Z.of_nat (List.length l) in
  let j := if i <? 0 then i + n else i in
  if (j <? 0) || (n <=? j) then inr IndexError
  else match nth_error l (Z.to_nat j) with Some x => inl x | None => inr IndexError end.

(** [np.argmax] of a boolean array: the first True, 0 if there is none. *)
(* relaxation.py:151, 153 np.argmax of booleans *)
Fixpoint first_true (i : nat) (l : list bool) : option nat :=
  match l with
  | [] => None
  | true :: _ => Some i
  | false :: l' => first_true (S i) l'
  end.
(* relaxation.py:151, 153 np.argmax of booleans *)
Definition argmax_bool (l : list bool) : nat + exn :=
  match l with
  | [] => inr ValueError
  | _ => inl (match first_true 0 l with Some i => i | None => 0%nat end)
  end.

(** relaxation.py:132-156 [threshold_relaxation].  Whether comparing with NaN raises
    FloatingPointError under seterr depends on the numpy build: [nan_raises]. *)
Definition threshold_relaxation (nan_raises : bool) (time : list Q) (value : list xnum)
           (threshold : xnum) (decay : bool) : res + exn :=
  if nan_raises && existsb (fun v => xnan v || xnan threshold) value then inl nan_res
  else
    ebind (argmax_bool (map (fun v => if decay then xlt v threshold else xgt v threshold) value))
      (fun index =>
         ebind (py_get time (Z.of_nat index)) (fun t =>
         ebind (py_get time (Z.of_nat index - 1)) (fun p =>
         inl (Fin t, Fin (t - p)%Q)))).

(** numpy.nanargmax: NaN replaced by -inf, first maximum; ValueError if empty or all NaN. *)
(* relaxation.py:278, 312 np.nanargmax *)
Fixpoint argmax_from (best : xnum) (bi i : nat) (l : list xnum) : nat :=
  match l with
  | [] => bi
  | v :: l' => if xgt v best then argmax_from v i (S i) l' else argmax_from best bi (S i) l'
  end.
(* relaxation.py:278, 312 *)
Definition nanargmax (l : list xnum) : nat + exn :=
  match map (fun v => if xnan v then NInf else v) l with
  | [] => inr ValueError
  | v :: l' => if forallb xnan l then inr ValueError else inl (argmax_from v 0 1 l')
  end.

(** relaxation.py:259-290 [max_time_relaxation] *)
Definition max_time_relaxation (time : list Q) (value : list xnum) : res + exn :=
  if negb (List.length time =? List.length value)%nat then inr RuntimeError
  else match nanargmax value with
       | inr _ => inl nan_res                                   (* 279-281 *)
       | inl k =>
           let i := Z.of_nat k in
           ebind (py_get time i) (fun t =>
           ebind (if i =? Z.of_nat (List.length value) - 1 then
                    ebind (py_get time (i - 1)) (fun p => inl (t - p)%Q)
                  else if i =? 0 then
                    ebind (py_get time (i + 1)) (fun n => inl (n - t)%Q)
                  else
                    ebind (py_get time (i + 1)) (fun n =>
                    ebind (py_get time (i - 1)) (fun p => inl ((n - p) / 2)%Q)))
           (fun error => inl (Fin t, Fin error)))
       end.

(** relaxation.py:293-327 [max_value_relaxation] *)
Definition max_value_relaxation (time : list Q) (value : list xnum) : res + exn :=
  if negb (List.length time =? List.length value)%nat then inr RuntimeError
  else match nanargmax value with
       | inr _ => inl nan_res                                   (* 313-315 *)
       | inl k =>
           let i := Z.of_nat k in
           ebind (py_get value i) (fun v =>
           ebind (if i =? Z.of_nat (List.length value) - 1 then
                    ebind (py_get value (i - 1)) (fun p => xsub v p)
                  else if i =? 0 then
                    ebind (py_get value (i + 1)) (fun n => xsub v n)
                  else
                    ebind (py_get value (i - 1)) (fun p =>
                    ebind (xsub v p) (fun a =>
                    ebind (py_get value (i + 1)) (fun n =>
                    ebind (xsub v n) (fun b =>
                    ebind (xadd a b) (fun s => inl (xhalf s)))))))
           (fun error => inl (v, error)))
       end.

(** relaxation.py:330-349 [translate_relaxation] *)
Definition translate_relaxation (quantity : string) : string :=
  match dget String.eqb quantity
    [("alpha", "max_alpha_time"); ("gamma", "max_gamma_time"); ("com_struct", "tau_F");
     ("msd", "diffusion_constant"); ("rot1", "tau_R1"); ("rot2", "tau_R2");
     ("struct", "tau_S")]%string with
  | Some x => x
  | None => quantity
  end.

(** The float [1 / np.exp(1)], the default threshold (135), and the float [0.16] (388). *)
(* relaxation.py:135 *)
Definition inv_e : xnum := Fin (828390857088487 # 2251799813685248).
(* relaxation.py:388 *)
Definition f016 : xnum := Fin (5764607523034235 # 36028797018963968).

(** relaxation.py:352-391 [compute_relaxation_value]; [diffusion] is diffusion_constant as a
    function of the dimension and the two arrays (modelled in RelaxFitModel.v), and [inj]
    the embedding of the other results in its result type. *)
Definition compute_relaxation_value {R} (nan_raises : bool)
           (diffusion : Z -> list Q -> list xnum -> R + exn) (inj : res -> R)
           (timesteps : list Q) (values : list xnum) (relax_type : string) : R + exn :=
  if negb (List.length timesteps =? List.length values)%nat then inr RuntimeError
  else
    let wrap r := ebind r (fun x => inl (inj x)) in
    if (relax_type =? "msd")%string then diffusion 2 timesteps values
    else if (relax_type =? "msr")%string then diffusion 1 timesteps values
    else if (relax_type =? "struct_msd")%string then
      wrap (threshold_relaxation nan_raises timesteps values f016 false)
    else if (relax_type =? "alpha")%string || (relax_type =? "gamma")%string then
      wrap (max_time_relaxation timesteps values)
    else wrap (threshold_relaxation nan_raises timesteps values inv_e true).
