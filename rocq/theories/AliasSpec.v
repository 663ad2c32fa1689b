(** Sharing of arrays: what a caller has to keep to, and what it may expect. *)
From Coq Require Import Reals List.
From Verif Require Import Base RVec MotionModel AliasModel.
Import ListNotations.

(** A call with the values of its arguments *)
Inductive vcall : Set :=
| VMake (b : fbox) (position : list v3) (orientation : option (list quat))
| VAdd (i : nat) (position : list v3) (orientation : option (list quat)).

Section Spec.
  Variable wrap : fbox -> v3 -> v3.
  Variable gimbal : quat -> v3.

  (** The values that the arguments have when the calls are made; [None] for what is no call *)
  Definition call (w : world) (o : op) : option vcall :=
    match o with
    | Make b p ori => Some (VMake b (rdv (fst w) p) (option_map (rdq (fst w)) ori))
    | Add i p ori => Some (VAdd i (rdv (fst w) p) (option_map (rdq (fst w)) ori))
    | _ => None
    end.
  Fixpoint calls (w : world) (l : list op) : list (option vcall) :=
    match l with [] => [] | o :: l' => call w o :: calls (fst (step wrap gimbal w o)) l' end.

  (** Objects that hold values, and the exceptions *)
  Definition vstep (ms : list motion) (c : option vcall) : list motion * option exn :=
    match c with
    | None => (ms, None)
    | Some (VMake b p o) => match motion_init b p o with inl m => (ms ++ [m], None) | inr e => (ms, Some e) end
    | Some (VAdd i p o) => match nth_error ms i with
                           | Some m => let (m', e) := motion_add wrap gimbal m p o in
                                       (firstn i ms ++ [m'] ++ skipn (S i) ms, e)
                           | None => (ms, Some OtherError)
                           end
    end.
  Fixpoint values (ms : list motion) (l : list (option vcall)) : list motion * list (option exn) :=
    match l with
    | [] => (ms, [])
    | c :: l' => let (ms1, e) := vstep ms c in let (ms2, es) := values ms1 l' in (ms2, e :: es)
    end.

  (** The caller does not touch the arrays in use: the results of an object, and the frame it was
      given last.  It passes existing arrays, but no results. *)
  Definition results (ts : list tracked) : list nat := flat_map (fun t => [t_dt t; t_dr t]) ts.
  Definition fits (w : world) (p : nat) (o : option nat) : Prop :=
    (p < length (hv (fst w)))%nat /\ ~ In p (results (snd w)) /\ forall a, o = Some a -> (a < length (hq (fst w)))%nat.
  Definition careful_op (w : world) (o : op) : Prop :=
    match o with
    | NewV _ | NewQ _ => True
    | WriteV a _ => ~ In a (results (snd w)) /\ ~ In a (map t_ppos (snd w))
    | WriteQ a _ => ~ In (Some a) (map t_pori (snd w))
    | Make _ p ori | Add _ p ori => fits w p ori
    end.
  Fixpoint careful (w : world) (l : list op) : Prop :=
    match l with [] => True | o :: l' => careful_op w o /\ careful (fst (step wrap gimbal w o)) l' end.
End Spec.

(** What an object holds *)
Definition contents (h : heap) (t : tracked) : motion :=
  mkmotion (t_box t) (rdv h (t_dt t)) (rdv h (t_dr t)) (rdv h (t_ppos t)) (option_map (rdq h) (t_pori t)).

Definition nothing : world := (mkheap [] [], []).

(** A program that reads all frames into the same array *)
Definition one_buffer (b : fbox) (x : list v3) (xs : list (list v3)) : list op :=
  [NewV x; Make b 0 None] ++ flat_map (fun y => [WriteV 0 y; Add 0 0 None]) xs.

(** What process_file does with a frame (_read.py:128-156): every object gets the arrays of the frame. *)
Inductive use : Set := Start (b : fbox) | Compare (i : nat).
Definition use_op (p o : nat) (u : use) : op :=
  match u with Start b => Make b p (Some o) | Compare i => Add i p (Some o) end.
Definition started (us : list use) : nat := length (filter (fun u => match u with Start _ => true | Compare _ => false end) us).
(** [nv] and [nq] arrays exist; every start makes two more. *)
Fixpoint reading (nv nq : nat) (l : list (list v3 * list quat * list use)) : list op :=
  match l with
  | [] => []
  | (x, q, us) :: l' => NewV x :: NewQ q :: map (use_op nv nq) us ++ reading (nv + 1 + 2 * started us)%nat (nq + 1)%nat l'
  end.
