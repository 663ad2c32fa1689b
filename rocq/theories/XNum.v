(** Exact extended numbers: the values of IEEE floats as far as comparisons can tell. *)
From Coq Require Import QArith Bool Lia Lqa.
Open Scope Q_scope.

Inductive xnum : Set :=
| NaN
| PInf
| NInf
| Fin (q : Q).

Definition Qltb (a b : Q) : bool := negb (Qle_bool b a).

Lemma Qltb_lt a b : Qltb a b = true <-> a < b.
Proof.
  unfold Qltb. destruct (Qle_bool b a) eqn:E; simpl.
  - apply Qle_bool_iff in E. split; [discriminate|]. intros H. exfalso. lra.
  - split; auto. intros _. apply Qnot_le_lt. intros H. apply Qle_bool_iff in H. congruence.
Qed.
Lemma Qltb_ge a b : Qltb a b = false <-> b <= a.
Proof.
  destruct (Qltb a b) eqn:E; split; intros H; try discriminate; auto.
  - apply Qltb_lt in E. exfalso; lra.
  - apply Qnot_lt_le. intros G. apply Qltb_lt in G. congruence.
Qed.

(** [x < y] of IEEE numbers: false if one of them is NaN. *)
Definition xlt (x y : xnum) : bool :=
  match x, y with
  | NaN, _ | _, NaN => false
  | NInf, NInf => false
  | NInf, _ => true
  | _, NInf => false
  | PInf, _ => false
  | Fin _, PInf => true
  | Fin a, Fin b => Qltb a b
  end.
Definition xgt (x y : xnum) : bool := xlt y x.
(** [x <= y]. *)
Definition xle (x y : xnum) : bool :=
  match x, y with
  | NaN, _ | _, NaN => false
  | NInf, _ => true
  | _, PInf => true
  | Fin a, Fin b => Qle_bool a b
  | _, _ => false
  end.

(** [x * 3.0] (exact; rounding and overflow are not modelled). *)
Definition xtriple (x : xnum) : xnum :=
  match x with Fin q => Fin (3 * q) | y => y end.

Definition xzero : xnum := Fin 0.

Lemma xlt_trans x y z : xlt x y = true -> xlt y z = true -> xlt x z = true.
Proof.
  destruct x as [| | |a], y as [| | |b], z as [| | |c]; simpl; try discriminate; auto.
  rewrite !Qltb_lt. apply Qlt_trans.
Qed.
Lemma xle_lt_trans x y z : xle x y = true -> xlt y z = true -> xlt x z = true.
Proof.
  destruct x as [| | |a], y as [| | |b], z as [| | |c]; simpl; try discriminate; auto.
  rewrite Qle_bool_iff, !Qltb_lt. apply Qle_lt_trans.
Qed.
Lemma xlt_asym x y : xlt x y = true -> xlt y x = false.
Proof.
  destruct x as [| | |a], y as [| | |b]; simpl; try discriminate; auto.
  rewrite Qltb_lt, Qltb_ge. apply Qlt_le_weak.
Qed.
Lemma xlt_irrefl x : xlt x x = false.
Proof. destruct x as [| | |a]; simpl; auto. apply Qltb_ge. apply Qle_refl. Qed.
