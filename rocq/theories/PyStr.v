(** Python's string functions that the modelled code uses, for ASCII text.
    (Bytes above 127, which Python would decode as Unicode, are not interpreted.) *)
From Coq Require Import String Ascii List Bool ZArith.
From Verif Require Import Base.
Import ListNotations.
Open Scope string_scope.
Open Scope Z_scope.

Definition nl : ascii := "010"%char.
Definition NL : string := String nl "".
Definition cr : ascii := "013"%char.

(** [str.isspace] of one ASCII character: blank, tab to carriage return, 0x1c to 0x1f. *)
Definition ws (c : ascii) : bool :=
  let n := nat_of_ascii c in
  ((n =? 32) || ((9 <=? n) && (n <=? 13)) || ((28 <=? n) && (n <=? 31)))%nat.

(** Universal newlines of [open(filename)]: "\r\n" and a lone "\r" are read as "\n". *)
Fixpoint universal (s : string) {struct s} : string :=
  match s with
  | "" => ""
  | String c s' =>
      if Ascii.eqb c cr
      then match s' with
           | String d s'' => if Ascii.eqb d nl then String nl (universal s'')
                             else String nl (universal s')
           | "" => NL
           end
      else String c (universal s')
  end.

(** The lines that successive [readline()] calls return; all but possibly the last end
    in "\n". *)
Fixpoint lines_of (s : string) : list string :=
  match s with
  | "" => []
  | String c s' =>
      if Ascii.eqb c nl then NL :: lines_of s'
      else match lines_of s' with
           | [] => [String c ""]
           | l :: ls => String c l :: ls
           end
  end.
(** One [readline()]: the empty string at the end of the file. *)
Definition readline (ls : list string) : string * list string :=
  match ls with [] => ("", []) | l :: ls' => (l, ls') end.

(** [s.split(c)] for a separator of one character. *)
Fixpoint split_char (c : ascii) (s : string) : list string :=
  match s with
  | "" => [""]
  | String d s' =>
      if Ascii.eqb d c then "" :: split_char c s'
      else match split_char c s' with
           | [] => [String d ""]
           | x :: xs => String d x :: xs
           end
  end.

(** [s.split()] *)
Fixpoint split_ws (s : string) : list string :=
  match s with
  | "" => []
  | String c s' =>
      if ws c then split_ws s'
      else match s' with
           | "" => [String c ""]
           | String d _ =>
               if ws d then String c "" :: split_ws s'
               else match split_ws s' with
                    | [] => [String c ""]
                    | x :: xs => String c x :: xs
                    end
           end
  end.

(** [s.strip()] *)
Fixpoint lstrip (s : string) : string :=
  match s with
  | "" => ""
  | String c s' => if ws c then lstrip s' else s
  end.
Fixpoint rstrip (s : string) : string :=
  match s with
  | "" => ""
  | String c s' =>
      match rstrip s' with
      | "" => if ws c then "" else String c ""
      | r => String c r
      end
  end.
Definition strip (s : string) : string := rstrip (lstrip s).

(** [sub in s] *)
Fixpoint contains (sub s : string) : bool :=
  String.prefix sub s ||
  match s with "" => false | String _ s' => contains sub s' end.

(** [c.join(l)] for a separator of one character *)
Fixpoint join (c : ascii) (l : list string) : string :=
  match l with
  | [] => ""
  | [x] => x
  | x :: l' => x ++ String c (join c l')
  end.

(** [int(s)]: blanks around, a sign, decimal digits with single underscores between them. *)
Definition digit (c : ascii) : option Z :=
  let n := Z.of_nat (nat_of_ascii c) in
  if (48 <=? n) && (n <=? 57) then Some (n - 48) else None.
Fixpoint digits (acc : Z) (after_digit : bool) (s : string) : option Z :=
  match s with
  | "" => if after_digit then Some acc else None
  | String c s' =>
      match digit c with
      | Some d => digits (10 * acc + d) true s'
      | None => if Ascii.eqb c "_"%char && after_digit then digits acc false s' else None
      end
  end.
Definition py_int (s : string) : Z + exn :=
  let r := match strip s with
           | String c s' =>
               if Ascii.eqb c "-"%char then option_map Z.opp (digits 0 false s')
               else if Ascii.eqb c "+"%char then digits 0 false s'
               else digits 0 false (String c s')
           | "" => None
           end in
  match r with Some n => inl n | None => inr ValueError end.

(** [str(n)] of an integer, [f"{n}"]. *)
Definition digit_char (d : Z) : ascii := ascii_of_nat (Z.to_nat (48 + d)).
Fixpoint dec_go (fuel : nat) (n : Z) : string :=
  match fuel with
  | O => ""
  | S f => if n <? 10 then String (digit_char n) ""
           else dec_go f (n / 10) ++ String (digit_char (n mod 10)) ""
  end.
Definition dec_nonneg (n : Z) : string := dec_go (S (Z.to_nat (Z.log2 n))) n.
Definition dec (n : Z) : string :=
  if n <? 0 then String "-"%char (dec_nonneg (- n)) else dec_nonneg n.

(** Characters of a string. *)
Fixpoint chars (s : string) : list ascii :=
  match s with "" => [] | String c s' => c :: chars s' end.
