(** Specification vocabulary for WriteCache: histories of operations. *)
From Coq Require Import ZArith List Bool.
From Verif Require Import Base WriteCacheModel.
Import ListNotations.
Open Scope Z_scope.

Section Histories.
  Context {A : Type}.

  (** Operations a client performs; [fault] is the exception pandas would raise, if the
      operation writes. *)
  Inductive op : Type :=
  | Add (x : A) (fault : option exn)
  | Flush (fault : option exn).

  Definition step (o : op) (w : wcache A) (t : table A) : (wcache A * table A) + exn :=
    match o with Add x e => append x e w t | Flush e => flush e w t end.

  (** A client that goes on after an exception.  The last component lists the rows whose
      [append] returned. *)
  Fixpoint client (ops : list op) (w : wcache A) (t : table A) : wcache A * table A * list A :=
    match ops with
    | [] => (w, t, [])
    | o :: ops' =>
        match step o w t with
        | inr _ => client ops' w t
        | inl (w', t') =>
            let '(w'', t'', rows) := client ops' w' t' in
            (w'', t'', match o with Add x _ => x :: rows | Flush _ => rows end)
        end
    end.

  Definition rows_of (t : table A) : list A := match t with Some l => l | None => [] end.

  (** No flush is called before the first row is added. *)
  Definition starts_with_row (ops : list op) : Prop :=
    match ops with Flush _ :: _ => False | _ => True end.

  (** Only [append] is called. *)
  Definition only_adds (ops : list op) : Prop :=
    forall o, In o ops -> match o with Add _ _ => True | Flush _ => False end.

  (** Rows written by explicit calls of [flush]. *)
  Fixpoint explicitly_flushed (ops : list op) (w : wcache A) (t : table A) : Z :=
    match ops with
    | [] => 0
    | o :: ops' =>
        match step o w t with
        | inr _ => explicitly_flushed ops' w t
        | inl (w', t') =>
            (match o with Flush _ => Z.of_nat (length (wc_cache w)) | Add _ _ => 0 end)
            + explicitly_flushed ops' w' t'
        end
    end.
End Histories.
Arguments op : clear implicits.
