(** Model of relaxations.py:187-221, 291-305: the arrays that get_status returns, and the class
    StructRelaxations. *)
From Coq Require Import ZArith QArith List Bool.
From Verif Require Import Base XNum MolRelaxModel.
Import ListNotations.
Open Scope nat_scope.

(** * StructRelaxations *)
(* relaxations.py:300-302 the attributes *)
Record struct_rel : Set := { sr_particles : nat; sr_rel : molrel }.
(** relaxations.py:300-302 [__init__]; [n] is molecule.num_particles. *)
Definition struct_init (N : nat) (thr : xnum) (n : nat) : struct_rel :=
  {| sr_particles := n; sr_rel := first_init (N * n) thr translation |}.
(** relaxations.py:209-218 [add], inherited *)
Definition struct_add (t : Z) (dist : list xnum) (s : struct_rel) : struct_rel + exn :=
  match mr_add t dist (sr_rel s) with
  | inl r => inl {| sr_particles := sr_particles s; sr_rel := r |}
  | inr e => inr e
  end.
(** [a.reshape((-1, n))], relaxations.py:305: ValueError if the size is no multiple of [n]. *)
Definition reshape (n : nat) (l : list Z) : list (list Z) + exn :=
  if n =? 0 then inr ValueError
  else if length l mod n =? 0 then inl (map (fun i => firstn n (skipn (i * n) l)) (seq 0 (length l / n)))
  else inr ValueError.
(** [row.mean()], relaxations.py:305; exact *)
Definition row_mean (row : list Z) : Q :=
  (inject_Z (fold_right Z.add 0%Z row) / inject_Z (Z.of_nat (length row)))%Q.
(** relaxations.py:304-305 [get_status] *)
Definition struct_status (s : struct_rel) : list Q + exn :=
  match reshape (sr_particles s) (get_status (sr_rel s)) with
  | inl rows => inl (map row_mean rows)
  | inr e => inr e
  end.

(** * Arrays as objects *)
(** The arrays by address; an address is a position in the list. *)
(* relaxations.py:199 numpy arrays *)
Definition heap := list (list Z).
(* relaxations.py:218 reading an array *)
Definition load (h : heap) (a : nat) : list Z := nth a h [].
(* relaxations.py:218 writing into an array *)
Definition store (h : heap) (a : nat) (v : list Z) : heap := firstn a h ++ v :: skipn (S a) h.
(** An object of class MolecularRelaxation or LastMolecularRelaxation: [_status] is an address. *)
(* relaxations.py:193-207, 227-236 *)
Record obj : Set := { ob_threshold : xnum; ob_status : nat; ob_type : rtype; ob_last : option (list nat * xnum) }.
(** The values of the attributes, relaxations.py:193-207 *)
Definition contents (h : heap) (o : obj) : molrel :=
  {| mr_threshold := ob_threshold o; mr_status := load h (ob_status o); mr_type := ob_type o; mr_last := ob_last o |}.
(** relaxations.py:193-207, 227-236 [__init__]: [_status] is a new array. *)
Definition new (h : heap) (r : molrel) : heap * obj :=
  (h ++ [mr_status r], {| ob_threshold := mr_threshold r; ob_status := length h; ob_type := mr_type r; ob_last := mr_last r |}).
(** relaxations.py:209-218, 238-289 [add]: the array is changed in place; the caller goes on after
    an exception. *)
Definition obj_add (t : Z) (dist : list xnum) (ho : heap * obj) : heap * obj :=
  let (h, o) := ho in
  match mr_add t dist (contents h o) with
  | inl r => (store h (ob_status o) (mr_status r),
              {| ob_threshold := ob_threshold o; ob_status := ob_status o; ob_type := ob_type o; ob_last := mr_last r |})
  | inr _ => (h, o)
  end.
(** relaxations.py:220-221 returns the array itself, 291-294 a copy. *)
Definition obj_get (ho : heap * obj) : (heap * obj) * nat :=
  let (h, o) := ho in
  match ob_last o with
  | None => (ho, ob_status o)
  | Some _ => ((h ++ [get_status (contents h o)], o), length h)
  end.
(** What a caller does *)
(* relaxations.py:209, 220, 238, 291 *)
Inductive call : Type := Add (t : Z) (dist : list xnum) | Get.
(* relaxations.py:209, 220, 238, 291 a sequence of calls *)
Definition do_call (ho : heap * obj) (c : call) : heap * obj :=
  match c with Add t dist => obj_add t dist ho | Get => fst (obj_get ho) end.
(* relaxations.py:209, 220, 238, 291 *)
Definition do_calls (cs : list call) (ho : heap * obj) : heap * obj := fold_left do_call cs ho.
