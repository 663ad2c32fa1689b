(** The text of a Trimer, src/sdanalysis/molecules.py:154-158. *)
From Coq Require Import String ZArith QArith List Bool.
From Verif Require Import Base XNum MoleculeModel.
Open Scope string_scope.

(* molecules.py:97-100 a number as it was given: an int or a float *)
Inductive num : Set := NInt (z : Z) | NFloat (x : xnum).
(* molecules.py:160-168 the value that == compares *)
Definition num_value (n : num) : xnum := match n with NInt z => Fin (inject_Z z) | NFloat x => x end.

(* molecules.py:127-130, 35 the attributes of a Trimer that its text names *)
Record trimer_obj : Set := mktrimer { t_radius : num; t_distance : num; t_angle : num; t_scale : num }.

(** molecules.py:160-168 sees this of it *)
Definition compared (o : trimer_obj) : obj :=
  OTrimer (num_value (t_radius o)) (num_value (t_distance o)) (num_value (t_angle o)).

(** molecules.py:154-158; [text] is format() of a number, [name] the name of the class, which is that of a
    subclass for its instances *)
Definition trimer_repr (text : num -> string) (name : string) (o : trimer_obj) : string :=
  name ++ "(radius=" ++ text (t_radius o) ++ ", distance=" ++ text (t_distance o) ++ ", "
       ++ "angle=" ++ text (t_angle o) ++ ", moment_inertia_scale=" ++ text (t_scale o) ++ ")".
