(** Specification of the logging options. *)
From Coq Require Import String List ZArith.
From Verif Require Import LogModel.
Import ListNotations.
Open Scope string_scope.
Open Scope Z_scope.

(** The loggers of the package *)
Definition ours (name : list string) : Prop := exists rest, name = "sdanalysis" :: rest.
(** The loggers below another one, and itself *)
Definition below (top name : list string) : Prop := exists rest, name = (top ++ rest)%list.
(** The names of the files of --log-file, as written *)
Fixpoint log_files (line : list group_opt) : list string :=
  match line with [] => [] | LogTo f :: l => f :: log_files l | _ :: l => log_files l end.
(** How many -v there are *)
Fixpoint vs (line : list group_opt) : nat :=
  match line with [] => 0 | Verbose :: l => S (vs l) | _ :: l => vs l end%nat.
(** The messages that -v, -vv ask for *)
Definition wanted (v : nat) (m : Z) : Prop :=
  (v = 0%nat /\ 30 <= m) \/ (v = 1%nat /\ 20 <= m) \/ ((2 <= v)%nat /\ 10 <= m).
