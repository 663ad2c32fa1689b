(** Model of src/sdanalysis/frame.py and of util.create_freud_box.

    The numbers of the arrays are an arbitrary type [A] ([f32]: conversion to float32);
    arrays are lists of rows. *)
From Coq Require Import String ZArith List Bool.
From Verif Require Import Base.
Import ListNotations.
Open Scope Z_scope.

(* frame.py:133-156 propagation of an exception *)
Definition ebind {A B} (x : A + exn) (f : A -> B + exn) : B + exn :=
  match x with inl a => f a | inr e => inr e end.

(** [l[:n]] for an integer [n] *)
(* frame.py:164, 172, 184 slicing up to the number of molecules *)
Definition slice_to {B} (n : Z) (l : list B) : list B :=
  if n <? 0 then firstn (Z.to_nat (Z.of_nat (List.length l) + n)) l
  else firstn (Z.to_nat n) l.

(** The builtin [max] of an array: ValueError if empty. *)
(* frame.py:140 the builtin max *)
Definition py_max (l : list Z) : Z + exn :=
  match l with
  | [] => inr ValueError
  | x :: l' => inl (fold_left (fun m y => if m <? y then y else m) l' x)
  end.

Section Frame.
  Context {A : Type}.

  (* frame.py:164 a row of position *)
  Definition vec3 : Type := (A * A * A)%type.
  (* frame.py:184 a row of orientation *)
  Definition quat : Type := (A * A * A * A)%type.
  (* frame.py:172 column 0 *)
  Definition vx (v : vec3) : A := fst (fst v).
  (* frame.py:176 column 1 *)
  Definition vy (v : vec3) : A := snd (fst v).
  (* frame.py:180 column 2 *)
  Definition vz (v : vec3) : A := snd v.

  (** The box of a snapshot taken from hoomd. *)
  (* frame.py:193-196 the box of a hoomd snapshot *)
  Record hbox : Type :=
    { bLx : A; bLy : A; bLz : A; bxy : A; bxz : A; byz : A; bdim : Z }.

  (** A gsd.hoomd.Snapshot (or one taken from hoomd, if [s_box] is there). [None]: the
      attribute is missing or is None. *)
  (* frame.py:130, 138-202 the fields of a snapshot which are read *)
  Record snapshot : Type := {
    s_N : Z;
    s_body : option (list Z);
    s_position : option (list vec3);
    s_orientation : option (list quat);
    s_image : option (list (Z * Z * Z));
    s_step : Z;
    s_cbox : list A;
    s_dimensions : Z;
    s_box : option hbox }.

  (** frame.py:137-156 [HoomdFrame._get_num_bodies].  The addition is one of machine
      integers wider than the body ids, so it does not overflow. *)
  Definition get_num_bodies (s : snapshot) : Z + exn :=
    let num_particles := s_N s in
    let num_mols :=
      match s_body s with
      | None => num_particles
      | Some b => match py_max b with inl m => m + 1 | inr _ => num_particles end
      end in
    let num_mols :=
      if num_particles <? num_mols then num_particles
      else if num_mols =? 0 then num_particles else num_mols in
    if num_particles <? num_mols then inr ValueError
    else match s_position s with
         | None => inr TypeError
         | Some p => if Z.of_nat (List.length p) <? num_mols then inr ValueError
                     else inl num_mols
         end.

  (** frame.py:129-135 [HoomdFrame], [__attrs_post_init__] *)
  Record hoomd_frame : Type := { h_frame : snapshot; h_num : Z }.
  (* frame.py:128-134 *)
  Definition HoomdFrame (s : snapshot) : hoomd_frame + exn :=
    ebind (get_num_bodies s) (fun n => inl {| h_frame := s; h_num := n |}).

  (** frame.py:158-160 *)
  Definition h_num_mols (f : hoomd_frame) : Z := h_num f.
  (** frame.py:162-164.  Slicing None is a TypeError. *)
  Definition h_position (f : hoomd_frame) : list vec3 + exn :=
    match s_position (h_frame f) with
    | Some p => inl (slice_to (h_num f) p) | None => inr TypeError end.
  (** frame.py:166-168 *)
  Definition h_image (f : hoomd_frame) : option (list (Z * Z * Z)) := s_image (h_frame f).
  (** frame.py:170-180: [position[: n, i]] *)
  Definition h_column (g : vec3 -> A) (f : hoomd_frame) : list A + exn :=
    match s_position (h_frame f) with
    | Some p => inl (map g (slice_to (h_num f) p)) | None => inr TypeError end.
  (* frame.py:170-172 *)
  Definition h_x := h_column vx.
  (* frame.py:174-176 *)
  Definition h_y := h_column vy.
  (* frame.py:178-180 *)
  Definition h_z := h_column vz.
  (** frame.py:182-184 *)
  Definition h_orientation (f : hoomd_frame) : list quat + exn :=
    match s_orientation (h_frame f) with
    | Some o => inl (slice_to (h_num f) o) | None => inr TypeError end.
  (** frame.py:186-188 *)
  Definition h_timestep (f : hoomd_frame) : Z := s_step (h_frame f).
  (** frame.py:190-196 *)
  Definition h_box (f : hoomd_frame) : list A :=
    match s_box (h_frame f) with
    | Some b => [bLx b; bLy b; bLz b; bxy b; bxz b; byz b]
    | None => s_cbox (h_frame f)
    end.
  (** frame.py:198-202 *)
  Definition h_dimensions (f : hoomd_frame) : Z :=
    match s_box (h_frame f) with Some b => bdim b | None => s_dimensions (h_frame f) end.
  (** frame.py:204-205; [len()] of a negative number is a ValueError *)
  Definition h_len (f : hoomd_frame) : Z + exn :=
    if h_num f <? 0 then inr ValueError else inl (h_num f).

  (** ** LammpsFrame, frame.py:75-125 *)
  Variables (zero one : A) (f32 : A -> A).

  (** The values of the dictionary: arrays of numbers, or the integer timestep. *)
  (* frame.py:77 a value of the dictionary of a lammps frame *)
  Inductive lval : Type := LArr (a : list A) | LInt (n : Z).
  (* frame.py:77 *)
  Definition lframe : Type := dict string lval.

  (* frame.py:82, 91, 109 indexing the dictionary *)
  Definition lget (k : string) (d : lframe) : lval + exn :=
    match dget String.eqb k d with Some v => inl v | None => inr KeyError end.
  (* frame.py:82, 91 an operation which needs an array *)
  Definition larr (e : exn) (v : lval) : list A + exn :=
    match v with LArr a => inl a | LInt _ => inr e end.

  (** [np.array([x, y, z]).T] : ValueError unless the lengths agree *)
  (* frame.py:81-83 np.array([x, y, z]).T *)
  Fixpoint zip3 (x y z : list A) : list vec3 :=
    match x, y, z with
    | a :: x', b :: y', c :: z' => (a, b, c) :: zip3 x' y' z'
    | _, _, _ => []
    end.
  (** frame.py:79-83 *)
  Definition l_position (d : lframe) : list vec3 + exn :=
    ebind (lget "x" d) (fun vx => ebind (lget "y" d) (fun vy => ebind (lget "z" d) (fun vz =>
    ebind (larr ValueError vx) (fun x => ebind (larr ValueError vy) (fun y =>
    ebind (larr ValueError vz) (fun z =>
    if (List.length x =? List.length y)%nat && (List.length y =? List.length z)%nat
    then inl (zip3 (map f32 x) (map f32 y) (map f32 z)) else inr ValueError)))))).
  (** frame.py:85-87 *)
  Definition l_image (d : lframe) : option (list (Z * Z * Z)) := None.
  (** frame.py:89-99 [self.frame["x"].astype(np.float32)] *)
  Definition l_column (k : string) (d : lframe) : list A + exn :=
    ebind (lget k d) (fun v => ebind (larr AttributeError v) (fun a => inl (map f32 a))).
  (* frame.py:89-91 *)
  Definition l_x := l_column "x".
  (* frame.py:93-95 *)
  Definition l_y := l_column "y".
  (* frame.py:97-99 *)
  Definition l_z := l_column "z".
  (** frame.py:124-125 *)
  Definition l_len (d : lframe) : nat + exn :=
    ebind (lget "x" d) (fun v => ebind (larr TypeError v) (fun a => inl (List.length a))).
  (** frame.py:101-105 *)
  Definition l_orientation (d : lframe) : list quat + exn :=
    ebind (l_len d) (fun n => inl (repeat (one, zero, zero, zero) n)).
  (** frame.py:107-109 *)
  Definition l_timestep (d : lframe) : lval + exn := lget "timestep" d.
  (** frame.py:111-118: [box] starts as six zeros, entries 0..5 are overwritten *)
  Fixpoint box_loop (index : nat) (values : list A) (box : list A) : list A :=
    match values with
    | [] => box
    | v :: vs =>
        if (5 <? index)%nat then box
        else box_loop (S index) vs
               (firstn index box ++ f32 v :: skipn (S index) box)
    end.
  (* frame.py:111-118 *)
  Definition l_box (d : lframe) : list A + exn :=
    ebind (lget "box" d) (fun v => ebind (larr TypeError v) (fun vs =>
    inl (box_loop 0 vs (repeat zero 6)))).
  (** frame.py:120-122 *)
  Definition l_dimensions (d : lframe) : Z := 2.

  (** ** The freud box *)
  (** The call of the freud Box constructor: [Box2 Lx Ly xy] for
      [Box(Lx, Ly, xy=xy, is2D=True)], [Box3 ...] for the one with six numbers. *)
  (* util.py:192-193 the box handed on to freud *)
  Inductive fbox : Type :=
  | Box2 (Lx Ly xy : A)
  | Box3 (Lx Ly Lz xy xz yz : A).
  (** util.py:178-193 [create_freud_box]; unpacking raises ValueError unless there are
      exactly as many values as names. *)
  Definition create_freud_box (box : list A) (is_2D : bool) : fbox + exn :=
    match firstn 3 box with
    | [Lx; Ly; Lz] =>
        let tilts :=
          if (List.length box =? 6)%nat then
            match firstn 3 (skipn 3 box) with
            | [xy; xz; yz] => inl (xy, xz, yz)
            | _ => inr ValueError
            end
          else inl (zero, zero, zero) in
        ebind tilts (fun t =>
          let '(xy, xz, yz) := t in
          if is_2D then inl (Box2 Lx Ly xy) else inl (Box3 Lx Ly Lz xy xz yz))
    | _ => inr ValueError
    end.
  (** frame.py:71-72 [Frame.freud_box] *)
  Definition h_freud_box (f : hoomd_frame) : fbox + exn :=
    create_freud_box (h_box f) (h_dimensions f =? 2).
  (* frame.py:71-72 of a LammpsFrame *)
  Definition l_freud_box (d : lframe) : fbox + exn :=
    ebind (l_box d) (fun b => create_freud_box b (l_dimensions d =? 2)).
End Frame.
Arguments vec3 : clear implicits.
Arguments quat : clear implicits.
Arguments snapshot : clear implicits.
Arguments hoomd_frame : clear implicits.
Arguments lframe : clear implicits.
Arguments lval : clear implicits.
Arguments fbox : clear implicits.
