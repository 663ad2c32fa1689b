(** Specification vocabulary for process_file. *)
From Coq Require Import ZArith List Bool.
From Verif Require Import Base WriteCacheModel ProcessModel.
Import ListNotations.
Open Scope Z_scope.

(** The frames whose index list contains [k], labelled by [k] only. *)
Definition restrict {F} (k : nat) (l : list (list nat * F)) : list (list nat * F) :=
  map (fun p => (filter (Nat.eqb k) (fst p), snd p))
      (filter (fun p => existsb (Nat.eqb k) (fst p)) l).

(** The frames used for key frame [k], in order. *)
Definition frames_of {F} (npos : F -> nat) (k : nat) (l : list (list nat * F)) : list F :=
  flat_map (fun p => if (npos (snd p) =? 0)%nat then []
                     else map (fun _ => snd p) (filter (Nat.eqb k) (fst p))) l.

(** The rows appended so far, on disk or not. *)
Definition all_rows {D R Out} (s : pstate D R Out) : list (nat * Out) :=
  (match ps_table s with Some l => l | None => [] end) ++ wc_cache (ps_cache s).

(** The state in which process_file starts: with a file or without. *)
Definition start_state {D R Out} (outfile : bool) : pstate D R Out :=
  {| ps_keys := []; ps_cache := wc_new outfile true 1 false; ps_table := None |}.

Definition key_rows {Out} (k : nat) (rows : list (nat * Out)) : list (nat * Out) :=
  filter (fun p => Nat.eqb k (fst p)) rows.

(** [l] is obtained from [m] by leaving out elements. *)
Inductive subseq {A} : list A -> list A -> Prop :=
| sub_nil : subseq [] []
| sub_take : forall x l m, subseq l m -> subseq (x :: l) (x :: m)
| sub_drop : forall x l m, subseq l m -> subseq l (x :: m).
