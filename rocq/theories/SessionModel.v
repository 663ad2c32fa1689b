(** The server of the command [figure]: one process that makes a figure for every browser window. *)
From Coq Require Import String ZArith List Bool.
From Verif Require Import Base FigureModel.
Import ListNotations.

Section Server.
Context {F O D : Type}.
Context (timestep : F -> Z) (render : option O -> F -> D + exn) (open_file : string -> list (F + exn) + exn).
(** The options -m, in the order of the command line, and the files of the directory (main.py:224-229); the server keeps
    them. *)
Context (create : string -> O + exn) (models files : list string).

(** The dictionary of the class, which all figures share (interactive_config.py:61-65), and the figures of the windows
    that are open, in the order of their opening. *)
Record server : Type := mk_server { sv_orders : dict string (option O); sv_windows : list (fig F O D) }.
(** What happens at the server of main.py:231-233: a window is opened, or something is done in window [i]. *)
Inductive event : Set := EOpen | EDo (i : nat) (a : action).
(* main.py:231 the list of windows with window [i] changed *)
Fixpoint replace_at {A} (i : nat) (x : A) (l : list A) : list A :=
  match l, i with
  | [], _ => []
  | _ :: l', 0%nat => x :: l'
  | y :: l', S i' => y :: replace_at i' x l'
  end.
(** main.py:229-232, interactive_config.py:452-456: FunctionHandler calls make_document for every new window; if it
    raises there is no figure.  A callback reads the dictionary as it is at that time (interactive_config.py:354-357). *)
Definition serve (e : event) (sv : server) : server * option exn :=
  match e with
  | EOpen => match make_document timestep render open_file create models files (sv_orders sv) with
             | (orders', inl s) => (mk_server orders' (sv_windows sv ++ [s]), None)
             | (orders', inr x) => (mk_server orders' (sv_windows sv), Some x)
             end
  | EDo i a => match nth_error (sv_windows sv) i with
               | Some s => let (s', x) := step timestep render open_file a (set_orders (sv_orders sv) s) in
                           (mk_server (sv_orders sv) (replace_at i s' (sv_windows sv)), x)
               | None => (sv, None)
               end
  end.
End Server.
Arguments server : clear implicits.
