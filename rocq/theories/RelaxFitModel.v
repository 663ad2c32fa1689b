(** Model of src/sdanalysis/relaxation.py: the summaries that fit curves, over the reals.

    Rounding is not modelled.  scipy's [curve_fit] and [newton] are parameters; the
    theorems state the contract they need of them (RelaxFitSpec.v). *)
From Coq Require Import Reals ZArith List Bool.
From Verif Require Import Base.
Import ListNotations.
Open Scope R_scope.

(** A float: NaN, an infinity, or a real number. *)
(* relaxation.py:34-35 a float *)
Inductive fl : Type := FNaN | FPInf | FNInf | FR (r : R).

(* relaxation.py:190, 193 np.isfinite *)
Definition fnan (x : fl) : bool := match x with FNaN => true | _ => false end.
(* relaxation.py:190 np.isfinite *)
Definition finite (x : fl) : bool := match x with FR _ => true | _ => false end.
(* relaxation.py:115, 196 *)
Definition Rltb (a b : R) : bool := if Rlt_dec a b then true else false.
(** [c < x] and [x < c] for a real constant [c] *)
(* relaxation.py:115, 196 *)
Definition fgt (c : R) (x : fl) : bool :=
  match x with FR r => Rltb c r | FPInf => true | _ => false end.
(* relaxation.py:115, 196 *)
Definition flt (x : fl) (c : R) : bool :=
  match x with FR r => Rltb r c | FNInf => true | _ => false end.

(** relaxation.py:38-49 [_msd_function] *)
Definition msd_function (x m b : R) : R := m * x + b.
(** relaxation.py:52-59 [_exponential_decay] *)
Definition exponential_decay (x a b c : R) : R := a * exp (- b * x) + c.
(** relaxation.py:63-77 [_ddx_exponential_decay] *)
Definition ddx_exponential_decay (x a b c : R) : R := - b * a * exp (- b * x).
(** relaxation.py:80-94 [_d2dx2_exponential_decay] *)
Definition d2dx2_exponential_decay (x a b c : R) : R := b * b * a * exp (- b * x).

(* relaxation.py:26-35 *)
Definition fres : Type := (fl * fl)%type.
(* relaxation.py:117, 202 *)
Definition nan_fres : fres := (FNaN, FNaN).

(** The rows of two arrays kept by a boolean mask on the second, with the real values. *)
(* relaxation.py:122, 216 selection through a boolean mask *)
Fixpoint select (keep : fl -> bool) (time : list R) (value : list fl) {struct time} : list (R * R) :=
  match time, value with
  | t :: time', FR v :: value' =>
      if keep (FR v) then (t, v) :: select keep time' value' else select keep time' value'
  | _ :: time', _ :: value' => select keep time' value'
  | _, _ => []
  end.

(** relaxation.py:100-129 [diffusion_constant].  [curve_fit pts] gives popt = (m, b) and
    pcov[0, 0]; infinite covariances are not modelled.  [nan_raises] as in
    RelaxationModel.v. *)
Definition diffusion_constant (nan_raises : bool)
           (curve_fit : list (R * R) -> (R * R * R) + exn)
           (time : list R) (msd : list fl) (dimensions : Z) : fres + exn :=
  let linear_region x := fgt 2 x && flt x 50 in
  if nan_raises && existsb fnan msd then inl nan_fres                       (* 118-120 *)
  else if (List.length (filter linear_region msd) <=? 2)%nat then inl nan_fres   (* 116-117 *)
  else if negb (List.length time =? List.length msd)%nat then inr IndexError     (* time[linear_region] *)
  else match curve_fit (select linear_region time msd) with
       | inr TypeError => inl nan_fres                                      (* 123-126 *)
       | inr e => inr e
       | inl (m, _, v) =>
           inl (FR (m / IZR (2 * dimensions)), FR (2 * sqrt v / IZR (2 * dimensions)))
       end.

(** [time[np.argmin(np.abs(value - exp_value))]], the first minimum *)
(* relaxation.py:204 *)
Fixpoint closest (target : R) (bt bd : R) (l : list (R * R)) : R :=
  match l with
  | [] => bt
  | (t, v) :: l' =>
      if Rltb (Rabs (v - target)) bd then closest target t (Rabs (v - target)) l'
      else closest target bt bd l'
  end.

(* relaxation.py:189 *)
Definition exp_value : R := / exp 1.                                         (* 189 *)

(** relaxation.py:159-256 [exponential_relaxation].  [curve_fit pts p0 sigma] gives popt and
    the diagonal of pcov; [newton f f' x0] a root.  The default of [sigma] is [None], of
    [value_width] 0.3.  Non-finite fit parameters are not modelled. *)
Definition exponential_relaxation
           (curve_fit : list (R * R) -> R * R -> option (list R) -> (R * R * (R * R)) + exn)
           (newton : (R -> R) -> (R -> R) -> R -> R + exn)
           (time : list R) (value : list fl) (sigma : option (list R)) (value_width : R)
  : fres + exn :=
  if negb (List.length time =? List.length value)%nat then inr RuntimeError
  else
    let data := select finite time value in                                  (* 190-192 *)
    let in_region (p : R * R) :=
      Rltb (exp_value - value_width / 2) (snd p) && Rltb (snd p) (exp_value + value_width / 2) in
    let fit := filter in_region data in                                      (* 195-197 *)
    if (List.length fit <=? 3)%nat then inl nan_fres                              (* 201-202 *)
    else
      match data with
      | [] => inl nan_fres                                                   (* not reached *)
      | (t0, v0) :: rest =>
          let zero_est := closest exp_value t0 (Rabs (v0 - exp_value)) rest in   (* 204 *)
          let p0 := (1, if Req_EM_T zero_est 0 then 0 else 1 / zero_est) in      (* 205-209 *)
          let sigma' :=                                                          (* 211-212 *)
            match sigma with
            | None => inl None
            | Some s => if (List.length s =? List.length data)%nat
                        then inl (Some (map fst (filter (fun p => in_region (snd p)) (combine s data))))
                        else inr IndexError
            end in
          match sigma' with
          | inr e => inr e
          | inl s =>
              match curve_fit fit p0 s with                                      (* 214-220 *)
              | inr RuntimeError | inr FloatingPointError => inl nan_fres
              | inr e => inr e
              | inl (a, b, (va, vb)) =>
                  if Rltb va 0 || Rltb vb 0 then inl nan_fres                    (* 222-226 *)
                  else
                    let ea := 2 * sqrt va in
                    let eb := 2 * sqrt vb in
                    let find_root a b :=                                         (* 230-238 *)
                      newton (fun x => exponential_decay x a b (- exp_value))
                             (fun x => ddx_exponential_decay x a b (- exp_value)) zero_est in
                    match find_root a b with                                     (* 240-256 *)
                    | inr RuntimeError => inl nan_fres
                    | inr e => inr e
                    | inl val_mean =>
                        let bars :=
                          match find_root (a - ea) (b - eb) with
                          | inr e => inr e
                          | inl val_min =>
                              match find_root (a + ea) (b + eb) with
                              | inr e => inr e
                              | inl val_max => inl (val_min, val_max)
                              end
                          end in
                        let finish x := if Rltb 0 val_mean then inl (FR val_mean, FR x)
                                        else inl nan_fres in
                        match bars with
                        | inl (val_min, val_max) => finish (val_max - val_min)
                        | inr FloatingPointError => finish (val_mean - 0 - 0)
                        | inr RuntimeError => inl nan_fres
                        | inr e => inr e
                        end
                    end
              end
          end
      end.
