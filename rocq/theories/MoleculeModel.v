(** Model of src/sdanalysis/molecules.py, over the reals.

    Arrays and dictionaries are kept in a heap, because the constructor changes those it is
    given.  Rounding is not modelled, nor arrays without rows. *)
From Coq Require Import String Reals ZArith List Bool.
From Verif Require Import Base XNum RVec.
Import ListNotations.
Open Scope R_scope.
Notation length := List.length.

(** Arguments as far as the code tells them apart *)
(* molecules.py:114-125 the arguments told apart by isinstance *)
Inductive pyval : Set := PyInt (z : Z) | PyFloat (r : R) | PyOther.
(* molecules.py:114-125 *)
Definition number (v : pyval) : option R :=
  match v with PyInt z => Some (IZR z) | PyFloat r => Some r | PyOther => None end.

(** An array of shape (N, 3), of floats or of integers *)
(* molecules.py:30-32 a numpy array, with its dtype *)
Record array : Type := mkarr { a_float : bool; a_rows : list v3 }.
(* molecules.py:30-33 the mutable objects a molecule refers to *)
Record heap : Type := mkheap { h_arrays : list array; h_dicts : list (dict string R) }.
(* molecules.py:30-32 (never read) *)
Definition no_array : array := mkarr true [].
(* molecules.py:39, 47 *)
Definition array_at (h : heap) (r : nat) : array := nth r (h_arrays h) no_array.
(* molecules.py:38, 51, 58 *)
Definition dict_at (h : heap) (r : nat) : dict string R := nth r (h_dicts h) [].
(* molecules.py:38-39 in place modification *)
Fixpoint update {A} (n : nat) (x : A) (l : list A) : list A :=
  match l, n with
  | [], _ => []
  | _ :: l', O => x :: l'
  | y :: l', S n' => y :: update n' x l'
  end.
(* molecules.py:134, 204 *)
Definition new_array (h : heap) (a : array) : heap * nat :=
  (mkheap (h_arrays h ++ [a])%list (h_dicts h), length (h_arrays h)).
(* molecules.py:133, 203 *)
Definition new_dict (h : heap) (d : dict string R) : heap * nat :=
  (mkheap (h_arrays h) (h_dicts h ++ [d])%list, length (h_dicts h)).

(* molecules.py:28-35 *)
Record molecule : Type := mkmol {
  mol_dimensions : Z;
  mol_particles : list string;
  mol_positions : nat;                     (* the array *)
  mol_radii : nat;                         (* the dictionary *)
  mol_rigid : bool
}.

(** molecules.py:46-47 [_compute_center_of_mass] *)
Definition mean3 (l : list v3) : v3 := mk3 (rmean (map x3 l)) (rmean (map y3 l)) (rmean (map z3 l)).

(** molecules.py:19-39: the generated [__init__] and [__attrs_post_init__].  [-=] of a float array from an
    integer one is a TypeError. *)
Definition setdefault (k : string) (v : R) (d : dict string R) : dict string R :=
  if dmem String.eqb k d then d else dset String.eqb k v d.
(* molecules.py:28-39 *)
Definition molecule_init (h : heap) (dimensions : Z) (particles : list string) (positions radii : nat) (rigid : bool)
  : heap * (molecule + exn) :=
  let h1 := mkheap (h_arrays h) (update radii (setdefault "A" 1 (dict_at h radii)) (h_dicts h)) in      (* 38 *)
  let a := array_at h positions in
  if a_float a
  then (mkheap (update positions (mkarr true (map (fun v => sub3 v (mean3 (a_rows a))) (a_rows a))) (h_arrays h1)) (h_dicts h1),   (* 39 *)
        inl (mkmol dimensions particles positions radii rigid))
  else (h1, inr TypeError).

(** Molecule() with the default arguments, 28-35 *)
(* molecules.py:28-39 with the defaults of 29-34 *)
Definition default_molecule (h : heap) (dimensions : Z) : heap * (molecule + exn) :=
  let (h1, p) := new_array h (mkarr true [zero3]) in
  let (h2, r) := new_dict h1 [] in
  molecule_init h2 dimensions ["A"%string] p r false.

(** molecules.py:64-79 [Disc], [Sphere]: [_radii] is replaced afterwards *)
Definition round_molecule (h : heap) (dimensions : Z) : heap * (molecule + exn) :=
  match default_molecule h dimensions with
  | (h1, inl m) => let (h2, r) := new_dict h1 [("A"%string, 1 / 2)] in
                   (h2, inl (mkmol (mol_dimensions m) (mol_particles m) (mol_positions m) r (mol_rigid m)))
  | e => e
  end.
(* molecules.py:67-70 *)
Definition disc (h : heap) : heap * (molecule + exn) := round_molecule h 2.
(* molecules.py:76-79 *)
Definition sphere (h : heap) : heap * (molecule + exn) := round_molecule h 3.

(** molecules.py:95-148 [Trimer]; the first call of [super().__init__] leaves nothing behind.
    [np.deg2rad] *)
Definition deg2rad (x : R) : R := x * PI / 180.
(* molecules.py:134-140 *)
Definition trimer_positions (d a : R) : list v3 :=
  let t := deg2rad a / 2 in [mk3 0 0 0; mk3 (- d * sin t) (d * cos t) 0; mk3 (d * sin t) (d * cos t) 0].
(* molecules.py:95-148 *)
Definition trimer (h : heap) (radius distance angle : pyval) : heap * (molecule + exn) :=
  match number radius, number distance, number angle with
  | Some r, Some d, Some a =>
      let (h1, p) := new_array h (mkarr true (trimer_positions d a)) in
      let (h2, rd) := new_dict h1 [("A", 1); ("B", r)]%string in
      molecule_init h2 2 ["A"; "B"; "B"]%string p rd true
  | _, _, _ => (h, inr ValueError)
  end.

(** molecules.py:183-212 [Dimer]: an integer distance makes an array of integers; other values that are not
    numbers are not modelled. *)
Definition dimer (h : heap) (radius : R) (distance : pyval) : heap * (molecule + exn) :=
  match distance with
  | PyOther => (h, inr OtherError)
  | PyInt z => let (h1, p) := new_array h (mkarr false [mk3 0 0 0; mk3 0 (IZR z) 0]) in
               let (h2, rd) := new_dict h1 [("A", 1); ("B", radius)]%string in
               molecule_init h2 2 ["A"; "B"]%string p rd true
  | PyFloat d => let (h1, p) := new_array h (mkarr true [mk3 0 0 0; mk3 0 d 0]) in
                 let (h2, rd) := new_dict h1 [("A", 1); ("B", radius)]%string in
                 molecule_init h2 2 ["A"; "B"]%string p rd true
  end.

(** molecules.py:41-58 *)
Definition num_particles (m : molecule) : nat := length (mol_particles m).
(* molecules.py:51 sorted *)
Fixpoint insert_sorted (s : string) (l : list string) : list string :=
  match l with [] => [s] | t :: l' => if String.leb s t then s :: l else t :: insert_sorted s l' end.
(* molecules.py:49-51 *)
Definition get_types (h : heap) (m : molecule) : list string :=
  fold_right insert_sorted [] (dkeys (dict_at h (mol_radii m))).
(* molecules.py:58 *)
Fixpoint get_all (d : dict string R) (l : list string) : list R + exn :=
  match l with
  | [] => inl []
  | p :: l' => match dget String.eqb p d with
               | None => inr KeyError
               | Some r => match get_all d l' with inl rs => inl (r :: rs) | inr e => inr e end
               end
  end.
(* molecules.py:56-58 *)
Definition get_radii (h : heap) (m : molecule) : list R + exn := get_all (dict_at h (mol_radii m)) (mol_particles m).

(** ** Equality: the class and the attributes compared, with NaN *)
(* molecules.py:20, 64, 73, 82, 171 an instance of one of the classes *)
Inductive obj : Set :=
| OMolecule | ODisc | OSphere
| OTrimer (radius distance angle : xnum)
| ODimer (radius distance : xnum).
(* molecules.py:20, 64, 73, 82, 171 *)
Inductive cls : Set := CMolecule | CDisc | CSphere | CTrimer | CDimer.
(* molecules.py:61 type(other) *)
Definition class_of (o : obj) : cls :=
  match o with OMolecule => CMolecule | ODisc => CDisc | OSphere => CSphere | OTrimer _ _ _ => CTrimer | ODimer _ _ => CDimer end.
(* molecules.py:61 isinstance *)
Definition cls_eqb (a b : cls) : bool :=
  match a, b with
  | CMolecule, CMolecule | CDisc, CDisc | CSphere, CSphere | CTrimer, CTrimer | CDimer, CDimer => true
  | _, _ => false
  end.
(* molecules.py:61 isinstance *)
Definition subclass (a b : cls) : bool := cls_eqb a b || cls_eqb b CMolecule.
(** molecules.py:60-61, 160-168, 214-218; [==] of floats *)
Definition xeqb (a b : xnum) : bool := xle a b && xle b a.
(* molecules.py:60-61, 160-168, 214-218 *)
Definition mol_eq (self other : obj) : bool + exn :=
  if subclass (class_of self) (class_of other)
  then match self, other with
       | OTrimer r d a, OTrimer r' d' a' => inl (xeqb r r' && xeqb d d' && xeqb a a')
       | OTrimer _ _ _, _ => inr AttributeError
       | ODimer r d, ODimer r' d' => inl (xeqb r r' && xeqb d d')
       | ODimer _ _, _ => inr AttributeError
       | _, _ => inl true
       end
  else inl false.
(** [a == b] in Python: the method of [b] is tried first if its class is a proper subclass of
    that of [a]. *)
(* molecules.py:60-61, 160-168, 214-218 as the operator == calls them *)
Definition py_eq (a b : obj) : bool + exn :=
  if negb (cls_eqb (class_of a) (class_of b)) && subclass (class_of b) (class_of a) then mol_eq b a else mol_eq a b.
