(** What is asked of open_trajectory: the kinds of file by their names. *)
From Coq Require Import String Ascii List Bool.
From Verif Require Import Base PyStr PyStrFacts FilenameProofs.
Open Scope string_scope.

(** The last part of the path [p] is the file name [n]. *)
Definition names_file (p n : string) : Prop :=
  (p = n \/ exists d, p = d ++ String "/" n) /\ n <> "" /\ n <> "." /\
  free (fun c => Ascii.eqb c "/") n.
(** The path is that of a file with the extension [e]. *)
Definition with_extension (p e : string) : Prop :=
  exists n stem, names_file p n /\ n = stem ++ String "." e /\ stem <> "" /\ e <> "" /\
    free (fun c => Ascii.eqb c ".") e.
(** The path is that of a file of neither kind. *)
Definition of_no_kind (p : string) : Prop :=
  (exists n, names_file p n) /\ ~ with_extension p "gsd" /\ ~ with_extension p "lammpstrj".
