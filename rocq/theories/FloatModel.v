(** The averages of dynamics.py and order.py in floating point arithmetic.

    The other models compute with real numbers.  Here every operation of numpy is followed by a
    rounding [rnd], a parameter; np.sum adds in an order and grouping that depends on the number of
    elements and the memory layout (pairwise summation), so all orders and groupings are allowed.
    Underflow, overflow and the exceptions raised for 0/0 are left to the models over the reals. *)
From Coq Require Import Reals ZArith List Permutation.
From Coq.Floats Require Import SpecFloat.
From Verif Require Import RVec.
Import ListNotations.
Open Scope R_scope.

Section Rounded.
  Variable rnd : R -> R.

  (** A result of adding the numbers of a list (numpy starts with 0, which changes nothing). *)
  (* dynamics.py:185, 189, 193 np.sum and the sum in mean *)
  Inductive fsum : list R -> R -> Prop :=
  | fsum_one x : fsum [x] x
  | fsum_add l l1 l2 s1 s2 : Permutation l (l1 ++ l2) -> fsum l1 s1 -> fsum l2 s2 -> fsum l (rnd (s1 + s2)).
  (* dynamics.py:189, 193, 227, 231, 235, 247, 259 mean *)
  Definition fmean (l : list R) (m : R) : Prop := exists s, fsum l s /\ m = rnd (s / INR (length l)).

  (* dynamics.py:185, 223: np.square(...).sum(axis=1) of one molecule *)
  Definition fsquare (v : v3) (s : R) : Prop := fsum [rnd (x3 v * x3 v); rnd (y3 v * y3 v); rnd (z3 v * z3 v)] s.
  (* dynamics.py:181, 219: np.linalg.norm(..., axis=1) of one molecule *)
  Definition fnorm (v : v3) (r : R) : Prop := exists s, fsquare v s /\ r = rnd (sqrt s).
  (** dynamics.py:187-189, 229-231 [compute_msd], [compute_msr] *)
  Definition fmsd (ds : list v3) (m : R) : Prop := exists qs, Forall2 fsquare ds qs /\ fmean qs m.
  (** dynamics.py:191-193 [compute_mfd] *)
  Definition fmfd (ds : list v3) (m : R) : Prop := exists qs, Forall2 fsquare ds qs /\ fmean (map (fun q => rnd (q * q)) qs) m.
  (** dynamics.py:225-227, 357-359: the mean displacement and rotation *)
  Definition fmean_norm (ds : list v3) (m : R) : Prop := exists rs, Forall2 fnorm ds rs /\ fmean rs m.
  (** dynamics.py:195-205, 261-274 [compute_alpha] ([k] = 2) and [compute_alpha_rot] ([k] = 3);
      0/0 raises FloatingPointError, see DynModel *)
  Definition falpha (k : R) (ds : list v3) (a : R) : Prop :=
    exists m2 m4, fmsd ds m2 /\ fmfd ds m4 /\ rnd (k * rnd (m2 * m2)) <> 0 /\ a = rnd (rnd (m4 / rnd (k * rnd (m2 * m2))) - 1).

  (** dynamics.py:282-297 [compute_gamma] *)
  Definition fgamma (ds rs : list v3) (g : R) : Prop :=
    exists qs ts m mq mt, Forall2 fsquare ds qs /\ Forall2 fsquare rs ts /\
      fmean (map (fun p => rnd (fst p * snd p)) (combine qs ts)) m /\ fmean qs mq /\ fmean ts mt /\ rnd (mq * mt) <> 0 /\
      g = rnd (rnd (m / rnd (mq * mt)) - 1).

  (** What the cosine of the C library returns *)
  Variable fcos : R -> R.
  (** dynamics.py:237-247 [compute_rotational_relax1]; the angles are as computed *)
  Definition frot1 (angles : list R) (m : R) : Prop := fmean (map fcos angles) m.
  (** dynamics.py:249-259 [compute_rotational_relax2] *)
  Definition frot2 (angles : list R) (m : R) : Prop := fmean (map (fun a => rnd (rnd (2 * rnd (fcos a * fcos a)) - 1)) angles) m.
  (** dynamics.py:233-235 [compute_isf]; the products of all wave vectors and displacements *)
  Definition fisf (phases : list R) (m : R) : Prop := fmean (map fcos phases) m.
  (** order.py:85-86: the order of one molecule, from the angles to its neighbours *)
  Definition forder (angles : list R) (m : R) : Prop := fmean (map (fun a => rnd (fcos a * fcos a)) angles) m.
  (** dynamics.py:410-428 [structural_relax], and the same expression in dynamics.py:324: the mean of
      an array of booleans *)
  Definition fstruct (dist : R) (disp : list R) (m : R) : Prop := fmean (map (fun d => if Rlt_dec d dist then 1 else 0) disp) m.

  (** _util.py:149: one component of delta_translation after the frames; [ws] are the wrapped
      differences *)
  Definition ftrack (ws : list R) : R := fold_left (fun d w => rnd (d - w)) ws 0.

  (** dynamics.py:440: int(len(displacement) * 0.1); the factor is the double next to 0.1 *)
  Definition fnum (n : nat) : Z := Int_part (rnd (INR n * (3602879701896397 / 36028797018963968))).
End Rounded.

(** ** Binary arithmetic as specified by IEEE 754 *)
(** Double and single precision, rounding to nearest even (Coq.Floats.SpecFloat). *)
(* dynamics.py:185-205 the operations of numpy on float64 *)
Definition add64 := SFadd 53 1024.
(* dynamics.py:185-205 *)
Definition mul64 := SFmul 53 1024.
(* dynamics.py:185-205 *)
Definition div64 := SFdiv 53 1024.
(* dynamics.py:205 *)
Definition sub64 := SFsub 53 1024.
(* _util.py:149 on float32 *)
Definition sub32 := SFsub 24 128.
(** The mean of fewer than eight numbers: numpy adds them from the first to the last. *)
(* dynamics.py:189 mean *)
Definition mean64 (l : list spec_float) (n : spec_float) : spec_float :=
  div64 (fold_left add64 l (S754_zero false)) n.
(* dynamics.py:195-205 alpha of the squared displacements *)
Definition alpha64 (d2 : list spec_float) (n two one : spec_float) : spec_float :=
  let m := mean64 d2 n in
  sub64 (div64 (mean64 (map (fun q => mul64 q q) d2) n) (mul64 two (mul64 m m))) one.
(* _util.py:149 *)
Definition track32 (d : spec_float) (ws : list spec_float) : spec_float := fold_left sub32 ws d.
