(** Model of TrackedMotion, src/sdanalysis/dynamics/_util.py:89-156, over the reals.

    Arrays of shape (N, 3) and (N, 4) are lists of vectors and quaternions.  Rounding (FloatModel) and the
    sharing of arrays (AliasModel) are modelled elsewhere.  freud's [Box.wrap] is a parameter, of
    which MotionSpec.v states the contract; [freud_wrap] below is one function meeting it.
    rowan's [divide] and [to_euler] are written out in RVec.v. *)
From Coq Require Import Reals ZArith List Bool.
From Verif Require Import Base RVec.
Import ListNotations.
Open Scope R_scope.

(** A freud box: lengths, tilt factors, dimensionality. *)
(* util.py:187-193 a freud box *)
Record fbox : Set := mkbox { bx : R; by_ : R; bz : R; bxy : R; bxz : R; byz : R; b2d : bool }.

(** The floor of a real number *)
(* _util.py:149 as used by freud's wrap *)
Definition Rfloor (r : R) : Z := Int_part r.
(* _util.py:149 as used by freud's wrap *)
Definition frac (r : R) : R := r - IZR (Rfloor r).

(** One [Box.wrap]: freud's makeFraction (coordinates along the lattice vectors, 0 to 1 in the
    cell centred on the origin; the third is 0 in two dimensions), reduced modulo 1, and
    makeCoordinates. *)
(* _util.py:149 as used by freud's wrap *)
Definition makeFraction (b : fbox) (v : v3) : v3 :=
  mk3 ((x3 v + bx b / 2 - ((bxz b - byz b * bxy b) * z3 v + bxy b * y3 v)) / bx b)
      ((y3 v + by_ b / 2 - byz b * z3 v) / by_ b)
      (if b2d b then 0 else (z3 v + bz b / 2) / bz b).
(* _util.py:149 as used by freud's wrap *)
Definition makeCoordinates (b : fbox) (f : v3) : v3 :=
  let x := - bx b / 2 + x3 f * bx b in
  let y := - by_ b / 2 + y3 f * by_ b in
  let z := if b2d b then 0 else - bz b / 2 + z3 f * bz b in
  mk3 (x + bxy b * y + bxz b * z) (y + byz b * z) z.
(* _util.py:149 box.wrap *)
Definition freud_wrap (b : fbox) (v : v3) : v3 :=
  let f := makeFraction b v in makeCoordinates b (mk3 (frac (x3 f)) (frac (y3 f)) (frac (z3 f))).

(** numpy broadcasting of a binary operation along the first axis *)
(* _util.py:149-153 row by row operations *)
Fixpoint zip {A B C : Type} (f : A -> B -> C) (a : list A) (b : list B) : list C :=
  match a, b with x :: a', y :: b' => f x y :: zip f a' b' | _, _ => [] end.
(* _util.py:149-153 row by row operations, with broadcasting of a single row *)
Definition bzip {A B C : Type} (f : A -> B -> C) (a : list A) (b : list B) : list C + exn :=
  if (length a =? length b)%nat then inl (zip f a b)
  else match a, b with
       | _, [y] => inl (map (fun x => f x y) a)
       | [x], _ => inl (map (f x) b)
       | _, _ => inr ValueError
       end.
(** [a op= r]: the result must have the shape of [a] *)
(* _util.py:149, 151 an in place addition *)
Definition inplace {A B : Type} (f : A -> B -> A) (a : list A) (r : list B) : list A + exn :=
  if (length a =? length r)%nat then inl (zip f a r)
  else match r with [y] => inl (map (fun x => f x y) a) | _ => inr ValueError end.

(* _util.py:98-106 *)
Record motion : Set := mkmotion {
  m_box : fbox;
  m_dt : list v3;                        (* delta_translation *)
  m_dr : list v3;                        (* delta_rotation *)
  m_ppos : list v3;                      (* previous_position *)
  m_pori : option (list quat)            (* previous_orientation *)
}.

(** _util.py:108-131 [__init__] *)
Definition motion_init (b : fbox) (position : list v3) (orientation : option (list quat)) : motion + exn :=
  match orientation with
  | Some [] => inr RuntimeError
  | _ => inl (mkmotion b (map (fun _ => zero3) position) (map (fun _ => zero3) position) position orientation)
  end.

Section Add.
  Variable wrap : fbox -> v3 -> v3.      (* freud.box.Box.wrap *)
  Variable gimbal : quat -> v3.          (* to_euler in gimbal lock *)

  (* _util.py:151-153 the check for unit quaternions in rowan.to_euler *)
  Definition unitb (q : quat) : bool := if Req_EM_T (qnorm2 q) 1 then true else false.
  (** [rowan.to_euler] of an array: ValueError unless all are unit quaternions *)
  (* _util.py:151-153 rowan.to_euler *)
  Definition to_euler_all (l : list quat) : list v3 + exn :=
    if forallb unitb l then inl (map (to_euler gimbal) l) else inr ValueError.
  (* _util.py:149-153 propagation of an exception *)
  Definition ebind {A B} (m : A + exn) (f : A -> B + exn) : B + exn :=
    match m with inl a => f a | inr e => inr e end.

  (** _util.py:133-156 [add].  The translation is stored before the rotation is computed. *)
  Definition motion_add (m : motion) (position : list v3) (orientation : option (list quat)) : motion * option exn :=
    match ebind (bzip sub3 (m_ppos m) position)                                 (* 149 *)
                (fun d => inplace sub3 (m_dt m) (map (wrap (m_box m)) d)) with
    | inr e => (m, Some e)
    | inl dt =>
        let m1 := mkmotion (m_box m) dt (m_dr m) (m_ppos m) (m_pori m) in
        match m_pori m, orientation with
        | Some prev, Some ori =>                                                (* 150-153 *)
            match ebind (bzip qdivide ori prev)
                        (fun q => ebind (to_euler_all q) (inplace add3 (m_dr m))) with
            | inr e => (m1, Some e)
            | inl dr => (mkmotion (m_box m) dt dr position orientation, None)   (* 155-156 *)
            end
        | _, _ => (mkmotion (m_box m) dt (m_dr m) position orientation, None)
        end
    end.

  (** A sequence of frames, up to the first exception *)
  (* _util.py:133 the arguments of add *)
  Definition frame : Set := (list v3 * option (list quat))%type.
  (* _util.py:133-156 one call after another *)
  Fixpoint adds (m : motion) (l : list frame) : motion * option exn :=
    match l with
    | [] => (m, None)
    | (p, o) :: l' => match motion_add m p o with
                      | (m', None) => adds m' l'
                      | r => r
                      end
    end.
End Add.
