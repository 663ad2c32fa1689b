(** Specification of the tables of relaxations. *)
From Coq Require Import String ZArith QArith List.
From Verif Require Import XNum RelaxTableModel.
Import ListNotations.

(** Equality of cells as pandas sees it: numbers by value; missing equals nothing. *)
Inductive same_cell : cell -> cell -> Prop :=
| same_num q r : (q == r)%Q -> same_cell (CNum q) (CNum r)
| same_str s : same_cell (CStr s) (CStr s).
Definition same_key (k k' : key) : Prop :=
  let '(a, b, c) := k in let '(a', b', c') := k' in
  same_cell a a' /\ same_cell b b' /\ same_cell c c'.

(** A cell that is missing or holds 2^32 - 1, the code's "never relaxed". *)
Definition unrelaxed_cell (c : cell) : Prop := c = CNaN \/ exists q, c = CNum q /\ (q == 4294967295)%Q.
Definition relaxed_key (k : key) : Prop :=
  let '(a, b, c) := k in ~ unrelaxed_cell a /\ ~ unrelaxed_cell b /\ ~ unrelaxed_cell c.
Definition relaxed_value (v : option Q) : Prop := exists q, v = Some q /\ ~ (q == 4294967295)%Q.

(** Every entry of every row of key frame [k] is a relaxation time. *)
Definition relaxed_group (cols : list string) (rows : list mrow) (k : key) : Prop :=
  relaxed_key k /\
  forall r, In r rows -> same_key k (m_key r) ->
  forall c, In c cols -> ~ In c ["keyframe"; "temperature"; "pressure"]%string -> relaxed_value (m_val r c).

(** The values of column [c] in the rows of key [k], in order. *)
Inductive column_values (c : string) (k : key) : list mrow -> list Q -> Prop :=
| cv_nil : column_values c k [] []
| cv_hit r q rows vs : same_key k (m_key r) -> m_val r c = Some q ->
    column_values c k rows vs -> column_values c k (r :: rows) (q :: vs)
| cv_miss r rows vs : ~ same_key k (m_key r) ->
    column_values c k rows vs -> column_values c k (r :: rows) vs.

Definition total (l : list Q) : Q := fold_right Qplus 0%Q l.
Definition count (l : list Q) : Q := inject_Z (Z.of_nat (List.length l)).
Definition is_mean (l : list Q) (m : Q) : Prop := (m * count l == total l)%Q.
Definition is_hmean (l : list Q) (h : Q) : Prop := (h * total (map Qinv l) == count l)%Q.
Definition positive (l : list Q) : Prop := forall q, In q l -> (0 < q)%Q.

(** The rows of key [k], in order. *)
Inductive rows_of {A} (keyof : A -> key) (k : key) : list A -> list A -> Prop :=
| ro_nil : rows_of keyof k [] []
| ro_hit r rows g : same_key k (keyof r) -> rows_of keyof k rows g -> rows_of keyof k (r :: rows) (r :: g)
| ro_miss r rows g : ~ same_key k (keyof r) -> rows_of keyof k rows g -> rows_of keyof k (r :: rows) g.

(** No component of the key is missing. *)
Definition present (k : key) : Prop := let '(a, b, c) := k in a <> CNaN /\ b <> CNaN /\ c <> CNaN.

(** No two rows of an output have the same key. *)
Definition one_row_per_key {A} (keyof : A -> key) (out : list A) : Prop :=
  forall i j x y, nth_error out i = Some x -> nth_error out j = Some y -> same_key (keyof x) (keyof y) -> i = j.
