(** The arrays of a TrackedMotion, src/sdanalysis/dynamics/_util.py:89-156, as objects that are
    shared with the caller.

    MotionModel computes with values.  In Python the object stores references to the arrays it is
    given (_util.py:125, 129, 155-156), changes its own arrays in place (149, 151) and hands them
    out (dynamics.py:137-143).  Here an array has an address in a heap, and a caller may
    create arrays, change arrays, and call add. *)
From Coq Require Import Reals ZArith List Bool.
From Verif Require Import Base RVec MotionModel DynModel.
Import ListNotations.

(** The arrays of vectors and the arrays of quaternions; an address is a place in the list. *)
(* _util.py:98-106 np.ndarray *)
Record heap : Set := mkheap { hv : list (list v3); hq : list (list quat) }.
(* _util.py:149 reading an array of vectors *)
Definition rdv (h : heap) (a : nat) : list v3 := nth a (hv h) [].
(* _util.py:152 reading an array of quaternions *)
Definition rdq (h : heap) (a : nat) : list quat := nth a (hq h) [].
(** Replacing one element of a list *)
(* _util.py:149 the effect of an assignment to the elements of an array *)
Fixpoint put {A : Type} (a : nat) (x : A) (l : list A) : list A :=
  match l, a with
  | [], _ => []
  | _ :: l', O => x :: l'
  | y :: l', S a' => y :: put a' x l'
  end.
(* _util.py:149, 151 changing an array in place *)
Definition wrv (h : heap) (a : nat) (x : list v3) : heap := mkheap (put a x (hv h)) (hq h).
(* _util.py:48 changing an array in place *)
Definition wrq (h : heap) (a : nat) (x : list quat) : heap := mkheap (hv h) (put a x (hq h)).
(* _util.py:126-127 a new array, and its address *)
Definition newv (h : heap) (x : list v3) : heap * nat := (mkheap (hv h ++ [x]) (hq h), length (hv h)).
(* frame.py:173-184 a new array of the caller *)
Definition newq (h : heap) (x : list quat) : heap * nat := (mkheap (hv h) (hq h ++ [x]), length (hq h)).

(* _util.py:98-106 the attributes are references *)
Record tracked : Set := mktracked { t_box : fbox; t_dt : nat; t_dr : nat; t_ppos : nat; t_pori : option nat }.

(** _util.py:108-131 [__init__] *)
Definition t_init (h : heap) (b : fbox) (position : nat) (orientation : option nat) : (heap * tracked) + exn :=
  let zeros := map (fun _ => zero3) (rdv h position) in
  let (h1, dt) := newv h zeros in                                                   (* 126 *)
  let (h2, dr) := newv h1 zeros in                                                  (* 127 *)
  match orientation with
  | Some o => match rdq h2 o with
              | [] => inr RuntimeError
              | _ => inl (h2, mktracked b dt dr position orientation)
              end
  | None => inl (h2, mktracked b dt dr position None)
  end.

Section Add.
  Variable wrap : fbox -> v3 -> v3.
  Variable gimbal : quat -> v3.

  (** _util.py:133-156 [add] *)
  Definition t_add (h : heap) (t : tracked) (position : nat) (orientation : option nat) : heap * tracked * option exn :=
    match ebind (bzip sub3 (rdv h (t_ppos t)) (rdv h position))                     (* 149 *)
                (fun d => inplace sub3 (rdv h (t_dt t)) (map (wrap (t_box t)) d)) with
    | inr e => (h, t, Some e)
    | inl dt =>
        let h1 := wrv h (t_dt t) dt in
        let t' := mktracked (t_box t) (t_dt t) (t_dr t) position orientation in     (* 155-156 *)
        match t_pori t, orientation with
        | Some prev, Some ori =>                                                    (* 150-153 *)
            match ebind (bzip qdivide (rdq h1 ori) (rdq h1 prev))
                        (fun q => ebind (to_euler_all gimbal q) (inplace add3 (rdv h1 (t_dr t)))) with
            | inr e => (h1, t, Some e)
            | inl dr => (wrv h1 (t_dr t) dr, t', None)
            end
        | _, _ => (h1, t', None)
        end
    end.

  (** What a caller can do.  Objects are numbered in the order of their creation.  The caller goes
      on after an exception, as process_file does. *)
  (* _read.py:128-156, _util.py:108-156 calls of the methods; the other operations are the caller's *)
  Inductive op : Set :=
  | NewV (x : list v3) | NewQ (x : list quat)
  | WriteV (a : nat) (x : list v3) | WriteQ (a : nat) (x : list quat)
  | Make (b : fbox) (position : nat) (orientation : option nat)
  | Add (i : nat) (position : nat) (orientation : option nat).

  (* _read.py:128-156 the arrays and the objects using them *)
  Definition world : Set := (heap * list tracked)%type.
  (* _read.py:128-156 one operation *)
  Definition step (w : world) (o : op) : world * option exn :=
    let (h, ts) := w in
    match o with
    | NewV x => ((fst (newv h x), ts), None)
    | NewQ x => ((fst (newq h x), ts), None)
    | WriteV a x => ((wrv h a x, ts), None)
    | WriteQ a x => ((wrq h a x, ts), None)
    | Make b p o => match t_init h b p o with
                    | inl (h', t) => ((h', ts ++ [t]), None)
                    | inr e => (w, Some e)
                    end
    | Add i p o => match nth_error ts i with
                   | None => (w, Some OtherError)
                   | Some t => match t_add h t p o with (h', t', e) => ((h', put i t' ts), e) end
                   end
    end.
  (* _read.py:128-156 one operation after another *)
  Fixpoint run (w : world) (l : list op) : world * list (option exn) :=
    match l with
    | [] => (w, [])
    | o :: l' => let (w1, e) := step w o in let (w2, es) := run w1 l' in (w2, e :: es)
    end.
End Add.

(** dynamics.py:137-143 the properties return the arrays themselves, not copies *)
Definition delta_translation (t : tracked) : nat := t_dt t.
(** dynamics.py:141-143 *)
Definition delta_rotation (t : tracked) : nat := t_dr t.

(** _util.py:42-54 [molecule2particles] of an array of orientations; line 48 changes the array *)
Definition h_molecule2particles (h : heap) (position : nat) (orientation : nat) (mol : list v3) : heap * (list v3 + exn) :=
  let h1 := if forallb near_zero (rdq h orientation)
            then wrq h orientation (map (fun q => mkq 1 (qx q) (qy q) (qz q)) (rdq h orientation)) else h in
  (h1, molecule2particles (rdv h position) (rdq h1 orientation) mol).

(** Arrays of integers.  np.zeros_like (_util.py:126-127) keeps the type of the elements, and numpy
    refuses to store floats in an array of integers (UFuncTypeError, a TypeError), before the
    shapes are compared. *)
(* _util.py:126, 149 *)
Definition typed_add (wrap : fbox -> v3 -> v3) (gimbal : quat -> v3) (integers : bool)
           (m : motion) (position : list v3) (orientation : option (list quat)) : motion * option exn :=
  if integers then
    match bzip sub3 (m_ppos m) position with
    | inr e => (m, Some e)
    | inl _ => (m, Some TypeError)
    end
  else motion_add wrap gimbal m position orientation.
