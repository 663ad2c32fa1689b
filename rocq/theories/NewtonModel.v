(** scipy.optimize.newton as relaxation.py:230-238 calls it: with a derivative, maxiter=20 and
    tol=1e-4, over the reals (rounding and overflow are not modelled).

    [close s] tells whether a step of size [s] is small enough: [s < tol] before scipy 1.2,
    [s <= tol] (np.isclose) since.  [flat p] is what happens where the derivative is 0: before
    scipy 1.2 [p] is returned, since then RuntimeError is raised. *)
From Coq Require Import Reals List Bool Arith.
From Verif Require Import Base RelaxFitModel.
Import ListNotations.
Open Scope R_scope.

Section Newton.
  Variable close : R -> bool.
  Variable flat : R -> R + exn.

  (** relaxation.py:230-238, the loop of scipy's newton; a value of 0 (checked first since scipy 1.2)
      makes a step of size 0 *)
  Fixpoint newton_loop (n : nat) (f f' : R -> R) (p0 : R) : R + exn :=
    match n with
    | O => inr RuntimeError                        (* failed to converge *)
    | S n' =>
        if Req_EM_T (f' p0) 0 then flat p0
        else let p := p0 - f p0 / f' p0 in
             if close (Rabs (p - p0)) then inl p else newton_loop n' f f' p
    end.
  (** relaxation.py:230-238 *)
  Definition scipy_newton (f f' : R -> R) (x0 : R) : R + exn := newton_loop 20 f f' x0.
End Newton.
