(** What is claimed of the interactive figure. *)
From Coq Require Import String Ascii ZArith List Bool.
From Verif Require Import Base FrameModel ParamsModel DirectoryProps FigureModel.
Import ListNotations.
Notation length := List.length.

Section Spec.
Context {F O D : Type}.
Context (timestep : F -> Z) (render : option O -> F -> D + exn) (open_file : string -> list (F + exn) + exn).
Notation fig := (fig F O D).

(** The selected file is one of [files], and its name says what the four buttons show. *)
Definition selects_one_of (files : list string) (s : fig) : Prop :=
  exists p c f, pressure s = inl p /\ crystal s = inl c /\ get_selected_file s = inl (LFile f) /\
    last_with files (p, temperature s, c, iter_index s) (Some f).

(** No action of the history raised. *)
Definition clean (h : list (action * option exn)) : Prop := forall a e, In (a, e) h -> e = None.

(** What is shown is the frame at [i] of file [f], classified by [o]. *)
Definition shows (s : fig) (f : string) (i : Z) (o : option O) : Prop :=
  exists frames frame d,
    open_file f = inl frames /\ (0 <= i < Z.of_nat (length frames))%Z /\
    nth_error frames (Z.to_nat i) = Some (inl frame) /\ render o frame = inl d /\
    f_data s = Some d /\ f_plot s = Some (timestep frame) /\ f_filename s = path_name f.

(** Every file can be opened and has frames; every frame can be read and drawn. *)
Definition healthy (files : list string) (orders : dict string (option O)) : Prop :=
  (forall f, In f files -> exists frames, open_file f = inl frames /\ frames <> [] /\
                           forall r, In r frames -> exists x, r = inl x) /\
  (forall k o, dget String.eqb k orders = Some o -> forall x, exists d, render o x = inl d).

(** The slider points at a frame of the selected file. *)
Definition points_at_frame (s : fig) : Prop :=
  exists f frames, get_selected_file s = inl (LFile f) /\ open_file f = inl frames /\
    (0 <= index s < Z.of_nat (length frames))%Z.

(** The action selects another file. *)
Definition selecting (a : action) : bool :=
  match a with APressure _ | ATemperature _ | ACrystal _ | AIteration _ => true | _ => false end.
End Spec.

(** ** The dictionary of the class *)
Section Orders.
Context {O : Type} (create : string -> O + exn).
(** The models that are loaded: those before the first that fails. *)
Inductive loads : list string -> list string -> Prop :=
| loads_all : loads [] []
| loads_one m ms l o : create m = inl o -> loads ms l -> loads (m :: ms) (m :: l)
| loads_stop m ms e : create m = inr e -> loads (m :: ms) [].
(** What is found under the name [k] after loading [l]: the last model of this name. *)
Definition under (l : list string) (k : string) (before after : option (option O)) : Prop :=
  (exists a m b o, l = (a ++ m :: b)%list /\ path_stem m = k /\ create m = inl o /\ after = Some (Some o) /\
     forall x, In x b -> path_stem x <> k)
  \/ ((forall x, In x l -> path_stem x <> k) /\ after = before).
(** The dictionary after more figures were created, with these models. *)
Inductive grown (d : dict string (option O)) : list string -> dict string (option O) -> Prop :=
| grown_none : grown d [] d
| grown_more l d1 models loaded d2 e : grown d l d1 -> loads models loaded -> add_models create models d1 = (d2, e) ->
    grown d (l ++ loaded)%list d2.
End Orders.
