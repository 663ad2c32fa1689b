(** What windows of one server should have to do with each other: nothing. *)
From Coq Require Import String ZArith List Bool.
From Verif Require Import Base FigureModel SessionModel.
Import ListNotations.

Section Spec.
Context {F O D : Type}.
Context (timestep : F -> Z) (render : option O -> F -> D + exn) (open_file : string -> list (F + exn) + exn).
Context (create : string -> O + exn) (models files : list string).
(** Something can be done in windows that are open, with the controls they have. *)
Definition possible (sv : server F O D) (e : event) : Prop :=
  match e with EOpen => True | EDo i a => exists s, nth_error (sv_windows sv) i = Some s /\ offered s a end.
(** What happened, each with what it raised *)
Inductive serving (sv0 : server F O D) : list (event * option exn) -> server F O D -> Prop :=
| serving_none : serving sv0 [] sv0
| serving_more h sv e sv' x : serving sv0 h sv -> possible sv e -> serve timestep render open_file create models files e sv = (sv', x) ->
    serving sv0 (h ++ [(e, x)]) sv'.
End Spec.
(** What was done in window [i] *)
Fixpoint mine (i : nat) (h : list (event * option exn)) : list (action * option exn) :=
  match h with
  | [] => []
  | (EDo j a, x) :: h' => if Nat.eqb i j then (a, x) :: mine i h' else mine i h'
  | (EOpen, _) :: h' => mine i h'
  end.
(** How often a window was opened *)
Fixpoint opened (h : list (event * option exn)) : nat :=
  match h with [] => 0 | (EOpen, _) :: h' => S (opened h') | _ :: h' => opened h' end.
