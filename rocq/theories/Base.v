(** Shared vocabulary: exceptions as values, Python dictionaries. *)
From Coq Require Import List Bool ZArith Lia.
Import ListNotations.

(** The Python exceptions that the modelled code can raise. *)
Inductive exn : Set :=
| ValueError | RuntimeError | KeyError | IndexError | TypeError | AssertionError
| ZeroDivisionError | AttributeError | FloatingPointError | UnboundLocalError
| OtherError.

(** Result of running a piece of Python code: a value, an exception, or -
    for loops that Python does not bound - no answer within the given fuel. *)
Inductive result (A : Type) : Type :=
| Ok (a : A)
| Raise (e : exn)
| OutOfFuel.
Arguments Ok {A} a.
Arguments Raise {A} e.
Arguments OutOfFuel {A}.

Definition bind {A B} (r : result A) (f : A -> result B) : result B :=
  match r with
  | Ok a => f a
  | Raise e => Raise e
  | OutOfFuel => OutOfFuel
  end.

Declare Scope result_scope.
Delimit Scope result_scope with result.
Notation "'let!' x ':=' r 'in' k" := (bind r (fun x => k))
  (at level 200, x pattern, r at level 100, k at level 200, right associativity) : result_scope.

(** Insertion ordered dictionaries (Python [dict]). *)
Section Dict.
  Context {K V : Type} (eqb : K -> K -> bool).

  Definition dict := list (K * V).

  Fixpoint dget (k : K) (d : dict) : option V :=
    match d with
    | [] => None
    | (k', v) :: d' => if eqb k k' then Some v else dget k d'
    end.

  (** [d[k] = v]: replaces in place, or appends. *)
  Fixpoint dset (k : K) (v : V) (d : dict) : dict :=
    match d with
    | [] => [(k, v)]
    | (k', v') :: d' => if eqb k k' then (k', v) :: d' else (k', v') :: dset k v d'
    end.

  (** [del d[k]] for a key that is present. *)
  Fixpoint ddel (k : K) (d : dict) : dict :=
    match d with
    | [] => []
    | (k', v) :: d' => if eqb k k' then d' else (k', v) :: ddel k d'
    end.

  Definition dmem (k : K) (d : dict) : bool :=
    match dget k d with Some _ => true | None => false end.

  Definition dkeys (d : dict) : list K := map fst d.
End Dict.
Arguments dict : clear implicits.
