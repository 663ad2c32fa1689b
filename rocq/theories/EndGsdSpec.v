(** What the analysis of a gsd file is about: the snapshots in it and the sequences of steps
    of its key frames. *)
From Coq Require Import String Reals ZArith List Bool.
From Verif Require Import Base RVec FrameModel FrameSpec MotionModel StepSizeSpec EndModel.
Import ListNotations.

(** ** Choosing from a list *)
(** [m] has the elements of [l] with [P], in order. *)
Inductive picks {A} (P : A -> Prop) : list A -> list A -> Prop :=
| picks_nil : picks P [] []
| picks_yes : forall x l m, P x -> picks P l m -> picks P (x :: l) (x :: m)
| picks_no : forall x l m, ~ P x -> picks P l m -> picks P (x :: l) m.

(** ** The file *)
(** The snapshots that can be read *)
Definition snapshots {A E} (file : list (A + E)) : list A :=
  flat_map (fun x => match x with inl s => [s] | inr _ => [] end) file.

(** A snapshot of a file: [N] molecules, and a position and orientation for every particle *)
Definition gsd_snapshot (N : nat) (s : snapshot R) : Prop :=
  s_box s = None /\ (0 <= s_N s)%Z /\ molecules (s_N s) (s_body s) (Z.of_nat N) /\
  (forall b, s_body s = Some b -> Forall (fun x => -1 <= x)%Z b) /\
  exists p o, s_position s = Some p /\ s_orientation s = Some o /\
    (s_N s <= Z.of_nat (List.length p))%Z /\ (s_N s <= Z.of_nat (List.length o))%Z.

Definition vec (v : vec3 R) : v3 := mk3 (fst (fst v)) (snd (fst v)) (snd v).
Definition turn (q : FrameModel.quat R) : RVec.quat := mkq (fst (fst (fst q))) (snd (fst (fst q))) (snd (fst q)) (snd q).
(** The molecules of a snapshot: they come before the other particles. *)
Definition molecules_of (N : nat) (s : snapshot R) : eframe :=
  mkframe (s_step s) (s_cbox s)
    (match s_position s with Some p => map vec (firstn N p) | None => [] end)
    (match s_orientation s with Some o => Some (map turn (firstn N o)) | None => None end).

(** ** The steps *)
Open Scope Z_scope.
(** Step [s] is used for key frame number [j], which starts at [j * G]. *)
Definition on_key (total n G M : Z) (j : nat) (s : Z) : Prop :=
  Z.of_nat j < M /\ Z.of_nat j * G <= total /\ on_steps total n (Z.of_nat j * G) s.

(** The number of steps: what the caller asks for, or the step of the last snapshot, which
    is followed by less than ten corrupted ones. *)
Definition number_of_steps (smax : option Z) (file : list (snapshot R + exn)) (total : Z) : Prop :=
  smax = Some total \/
  smax = None /\ exists a s b, file = a ++ inl s :: b /\ s_step s = total /\
    (List.length b < 10)%nat /\ forall x, In x b -> x = inr RuntimeError.

(** Every frame of the file is at a step that is asked for; or every step that is asked for
    is in the file, as far as it goes. *)
Definition steps_agree (total n G M : Z) (frames : list eframe) : Prop :=
  (forall f, In f frames -> exists j, on_key total n G M j (e_ts f)) \/
  (forall j x g, on_key total n G M j x -> In g frames -> x <= e_ts g -> exists f, In f frames /\ e_ts f = x).

(** ** Every frame of the file *)
(** The frames up to the first one after step [m] *)
Definition read_until (smax : option Z) (frames pre : list eframe) : Prop :=
  exists post, frames = pre ++ post /\
    (forall m f, smax = Some m -> In f pre -> e_ts f <= m) /\
    (post = [] \/ exists m f r, smax = Some m /\ post = f :: r /\ m < e_ts f).
(** [fs] are the frames from number [j] of those at a multiple of [G] on. *)
Definition from_multiple (G : Z) (j : nat) (frames fs : list eframe) : Prop :=
  exists a f b m, frames = a ++ f :: b /\ fs = f :: b /\ (G | e_ts f) /\
    picks (fun g => (G | e_ts g)) a m /\ List.length m = j.
