(** The lammpstrj format, as a printer, and what reading it back means.  Independent of
    the parser's helpers. *)
From Coq Require Import String Ascii ZArith List Bool.
From Verif Require Import Base PyStr PyStrFacts FrameModel.
Import ListNotations.
Open Scope string_scope.
Open Scope Z_scope.

(** One line of box bounds: lower, upper, and whatever else is on the line. *)
Record bound : Set := { b_lo : string; b_hi : string; b_more : string }.
(** A frame of a lammpstrj file as it is written. *)
Record tframe : Set := {
  t_step : Z;
  t_flags : string;               (* after ITEM: BOX BOUNDS *)
  t_x : bound; t_y : bound; t_z : bound;
  t_heads : list string;          (* column names *)
  t_atoms : list (list string);   (* the fields of each atom line *)
  t_blank : bool }.               (* lines of the atom section end in a blank *)

Definition line (s : string) : string := s ++ NL.
Definition bound_text (b : bound) : string := b_lo b ++ " " ++ b_hi b ++ b_more b.
Definition tail_text (blank : bool) : string := if blank then " " else "".
Definition num_atoms (t : tframe) : Z := Z.of_nat (List.length (t_atoms t)).
Definition header_lines (t : tframe) : list string :=
  [ "ITEM: TIMESTEP"; dec (t_step t); "ITEM: NUMBER OF ATOMS"; dec (num_atoms t);
    "ITEM: BOX BOUNDS" ++ t_flags t; bound_text (t_x t); bound_text (t_y t); bound_text (t_z t);
    "ITEM: ATOMS " ++ join " " (t_heads t) ++ tail_text (t_blank t) ].
Definition atom_lines (t : tframe) : list string :=
  map (fun a => join " " a ++ tail_text (t_blank t)) (t_atoms t).
Definition render (t : tframe) : string :=
  String.concat "" (map line (header_lines t ++ atom_lines t)).
Definition render_all (ts : list tframe) : string := String.concat "" (map render ts).

Definition no_line_end (s : string) : Prop := free (fun c => Ascii.eqb c nl || Ascii.eqb c cr)%bool s.

Section Meaning.
  Context {A : Type} (pfloat : string -> option A) (sub : A -> A -> A) (f32 : A -> A).

  Definition ok_bound (b : bound) : Prop :=
    word (b_lo b) /\ word (b_hi b) /\ no_line_end (b_more b)
    /\ (b_more b = "" \/ exists m, b_more b = String " " m)
    /\ pfloat (b_lo b) <> None /\ pfloat (b_hi b) <> None.

  (** Column [c] of the frame is [h]; atom line [a] is that of atom [k]. *)
  Definition column (t : tframe) (c : nat) (h : string) : Prop := nth_error (t_heads t) c = Some h.
  Definition atom_id (t : tframe) (a : list string) (k : Z) : Prop :=
    exists c, column t c "id" /\ nth_error a c = Some (dec k).

  (** A well-formed frame: distinct column names including id, one field per column on
      every line, all of them numbers; the ids are distinct numbers in 1..n. *)
  Definition well_formed (t : tframe) : Prop :=
    no_line_end (t_flags t) /\ ok_bound (t_x t) /\ ok_bound (t_y t) /\ ok_bound (t_z t)
    /\ Forall word (t_heads t) /\ NoDup (t_heads t) /\ In "id" (t_heads t)
    /\ ~ In "box" (t_heads t) /\ ~ In "timestep" (t_heads t)
    /\ (forall a, In a (t_atoms t) -> List.length a = List.length (t_heads t)
          /\ Forall word a /\ (forall w, In w a -> pfloat w <> None)
          /\ exists k, atom_id t a k /\ 1 <= k <= num_atoms t)
    /\ (forall i j a b k, nth_error (t_atoms t) i = Some a -> nth_error (t_atoms t) j = Some b ->
          atom_id t a k -> atom_id t b k -> i = j).

  Definition width (b : bound) (x : A) : Prop :=
    exists l h, pfloat (b_lo b) = Some l /\ pfloat (b_hi b) = Some h /\ x = sub h l.

  (** [d] is the frame that [t] describes. *)
  Definition describes (t : tframe) (d : lframe A) : Prop :=
    dget String.eqb "timestep" d = Some (LInt (t_step t))
    /\ (exists lx ly lz, dget String.eqb "box" d = Some (LArr [lx; ly; lz])
          /\ width (t_x t) lx /\ width (t_y t) ly /\ width (t_z t) lz)
    /\ (forall c h, column t c h -> exists arr, dget String.eqb h d = Some (LArr arr)
          /\ List.length arr = List.length (t_atoms t)
          /\ (forall a k, In a (t_atoms t) -> atom_id t a k ->
                exists w v, nth_error a c = Some w /\ pfloat w = Some v
                  /\ nth_error arr (Z.to_nat (k - 1)) = Some (f32 v)))
    /\ (forall h, dget String.eqb h d <> None -> h = "timestep" \/ h = "box" \/ In h (t_heads t)).
End Meaning.
