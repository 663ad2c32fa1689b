(** Atom lines that do not fit the frame they stand in. *)
From Coq Require Import String Ascii ZArith List Bool.
From Verif Require Import Base PyStr PyStrFacts FrameModel LammpsSpec.
Import ListNotations.
Open Scope string_scope.
Open Scope Z_scope.

(** Contract of Python's [float]: a line end after the text makes no difference. *)
Definition float_strips {A} (pfloat : string -> option A) : Prop := forall w, pfloat (w ++ NL) = pfloat w.

(** A character that no integer has. *)
Definition not_in_integers (c : ascii) : Prop := ~ In c (chars "0123456789_+-").

(** The fields [a] do not make an atom line of the frame [t]. *)
Inductive bad_atom {A} (pfloat : string -> option A) (t : tframe) (a : list string) : exn -> Prop :=
| bad_value k c w : atom_id t a k -> 1 <= k <= num_atoms t -> length a = length (t_heads t) ->
    nth_error a c = Some w -> pfloat w = None -> bad_atom pfloat t a ValueError
| bad_id c w ch : column t c "id" -> nth_error a c = Some w -> In ch (chars w) -> not_in_integers ch ->
    bad_atom pfloat t a ValueError
| bad_range k : atom_id t a k -> num_atoms t < k \/ k <= - num_atoms t -> length a = length (t_heads t) ->
    (forall w, In w a -> pfloat w <> None) -> bad_atom pfloat t a IndexError
| bad_short c : column t c "id" -> (length a + (if t_blank t then 1 else 0) <= c)%nat -> bad_atom pfloat t a IndexError.

(** A text that ends within [t]: its header and [j] of its atoms. *)
Definition start_of (t : tframe) (j : nat) : string :=
  String.concat "" (map line (header_lines t ++ firstn j (atom_lines t))).
(** The header of [t], with other column names. *)
Definition other_heads (t : tframe) (heads : list string) : string :=
  String.concat "" (map line (firstn 8 (header_lines t)
    ++ ["ITEM: ATOMS " ++ join " " heads ++ tail_text (t_blank t)])).
