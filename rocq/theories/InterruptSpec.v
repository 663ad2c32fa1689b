(** A trajectory file that is not complete, and what is left of the rows of an analysis. *)
From Coq Require Import String Ascii ZArith List Bool.
From Verif Require Import Base PyStr PyStrFacts LammpsSpec LammpsProps LammpsBadSpec.
Import ListNotations.
Open Scope string_scope.

(** The first rows are saved in blocks of 8192; the last ones, at least one, are lost. *)
Definition last_block_lost {A} (before : option (list A)) (rows : list A) (after : option (list A)) : Prop :=
  exists saved lost, rows = (saved ++ lost)%list /\ lost <> [] /\ (Z.of_nat (List.length lost) <= 8192)%Z /\
    (8192 | Z.of_nat (List.length saved))%Z /\ after = match saved with [] => before | _ => Some saved end.

(** What may follow the complete frames of a lammpstrj file: a frame that is cut off at the end of
    a line, a line that is not the header that belongs there, an atom with a wrong line, columns without id. *)
Inductive broken {A} (pfloat : string -> option A) : string -> Prop :=
| cut_off t p q : well_formed pfloat t -> (line p ++ q = render t)%string -> q <> "" -> broken pfloat (line p)
| bad_header t k bad more : well_formed pfloat t -> no_line_end bad -> wrong_header k bad ->
    broken pfloat (String.concat "" (map line (firstn k (header_lines t))) ++ line bad ++ more)
| bad_line t j a e more : well_formed pfloat t -> (j < List.length (t_atoms t))%nat -> a <> [] -> Forall word a -> bad_atom pfloat t a e ->
    broken pfloat (start_of t j ++ line (join " " a ++ tail_text (t_blank t)) ++ more)
| no_ids t heads more : well_formed pfloat t -> heads <> [] -> Forall word heads -> ~ In "id" heads -> broken pfloat (other_heads t heads ++ more).
