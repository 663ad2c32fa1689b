(** What is wrong with a definition of a relaxation, and the exception that says so. *)
From Coq Require Import String ZArith QArith List.
From Verif Require Import Base XNum MolRelaxModel MolRelaxSpec.
Import ListNotations.

Section Faults.
  Variable parse_float : string -> option xnum.
  Variable show : yaml -> string.

  Definition absent (v : option yaml) : Prop := v = None \/ v = Some YNone.
  (** [v] cannot be read as a number. *)
  Inductive no_number : yaml -> exn -> Prop :=
  | nn_none : no_number YNone TypeError
  | nn_other : no_number YOther TypeError
  | nn_text s : parse_float s = None -> no_number (YStr s) ValueError.
  Definition cutoff_of (d : definition) (thr cut : xnum) : Prop :=
    (def_cutoff d = None /\ cut = xtriple thr) \/ numeric parse_float (def_cutoff d) cut.
  Definition no_last (d : definition) : Prop :=
    match def_last d with Some v => falsy v | None => True end.
  Definition known_type (d : definition) : Prop :=
    match def_type d with
    | None => True
    | Some v => shown show v = "rotation"%string \/ shown show v = "translation"%string
    end.

  (** The first fault of a definition decides the exception. *)
  Inductive fault (d : definition) : exn -> Prop :=
  | f_name : absent (def_name d) -> fault d ValueError
  | f_threshold : ~ absent (def_name d) -> absent (def_threshold d) -> fault d ValueError
  | f_threshold_kind v e : ~ absent (def_name d) -> def_threshold d = Some v -> v <> YNone -> no_number v e -> fault d e
  | f_cutoff_kind thr v e : ~ absent (def_name d) -> numeric parse_float (def_threshold d) thr ->
      def_cutoff d = Some v -> no_number v e -> fault d e
  | f_negative thr cut : ~ absent (def_name d) -> numeric parse_float (def_threshold d) thr -> cutoff_of d thr cut ->
      xlt thr (Fin 0) = true -> fault d ValueError
  | f_negative_cutoff thr cut : ~ absent (def_name d) -> numeric parse_float (def_threshold d) thr ->
      cutoff_of d thr cut -> ~ no_last d -> xlt cut (Fin 0) = true -> fault d ValueError
  | f_type thr cut : ~ absent (def_name d) -> numeric parse_float (def_threshold d) thr -> cutoff_of d thr cut ->
      xlt thr (Fin 0) = false -> (no_last d \/ xlt cut (Fin 0) = false) -> ~ known_type d -> fault d KeyError.
End Faults.
