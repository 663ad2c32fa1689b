(** What the buttons of the interactive figure offer. *)
From Coq Require Import String Ascii ZArith List Sorted.
From Verif Require Import Base PyStr FrameModel ParamsModel DirectoryProps FigureModel.
Import ListNotations.
Open Scope string_scope.

(** A file of the directory has these four values in its name. *)
Definition occurs (files : list string) (k : key) : Prop := exists f, In f files /\ file_key f k.
(** The list has exactly the strings of [P], each once, in the order of the characters. *)
Definition offers (P : string -> Prop) (l : list string) : Prop :=
  StronglySorted (fun a b => String.compare a b = Lt) l /\ forall x, In x l <-> P x.
(** A number with two decimals: [h] hundredths *)
Definition hundredths (s : string) (h : Z) : Prop :=
  exists n d1 d2 : Z, (0 <= n /\ 0 <= d1 <= 9 /\ 0 <= d2 <= 9 /\ h = 100 * n + 10 * d1 + d2)%Z /\
    s = dec n ++ "." ++ String (digit_char d1) (String (digit_char d2) "").
(** From the smallest to the largest *)
Definition numerical (l : list string) : Prop :=
  forall i j a b h h', (i < j)%nat -> nth_error l i = Some a -> nth_error l j = Some b -> hundredths a h -> hundredths b h' -> (h < h')%Z.
(** Some button gives this function, in the state reached. *)
Definition can_choose {F O D} (s : fig F O D) (o : option O) : Prop :=
  exists i, (i < List.length (f_labels s))%nat /\ get_order_function (set_oact i s) = inl o.
