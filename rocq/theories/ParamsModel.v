(** Model of src/sdanalysis/params.py and of the file name functions of util.py.

    A SimulationParams object is its [__dict__].  Numbers are exact extended numbers (the
    sign of a zero is not modelled); paths are POSIX path strings. *)
From Coq Require Import String Ascii ZArith QArith Qround List Bool.
From Verif Require Import Base XNum PyStr FrameModel.
Import ListNotations.
Open Scope string_scope.
Open Scope Z_scope.

(** ** pathlib *)
(** The components of a path: empty ones and "." are dropped. *)
(* util.py:57 Path(...) *)
Definition path_parts (p : string) : list string :=
  filter (fun s => negb (String.eqb s "" || String.eqb s ".")) (split_char "/" p).
(** [Path.name] *)
(* util.py:57-58 Path.name *)
Definition path_name (p : string) : string := last (path_parts p) "".
(** [name.rfind('.')] *)
(* util.py:58 Path.stem *)
Fixpoint rfind_dot (i : nat) (s : string) : option nat :=
  match s with
  | "" => None
  | String c s' =>
      match rfind_dot (S i) s' with
      | Some j => Some j
      | None => if Ascii.eqb c "." then Some i else None
      end
  end.
(** [Path.stem]: the name up to its last dot, if that is neither first nor last *)
(* util.py:58 Path.stem *)
Definition path_stem (p : string) : string :=
  let name := path_name p in
  match rfind_dot 0 name with
  | Some i => if (0 <? i)%nat && (S i <? String.length name)%nat
              then String.substring 0 i name else name
  | None => name
  end.
(** [a / b] of paths: an absolute [b] replaces [a] *)
(* params.py:117 the operator / of paths *)
Definition path_join (a b : string) : string :=
  match b with
  | String "/" _ => b
  | _ => a ++ "/" ++ b
  end.

(** ** util.py:33-83 [Variables] *)
Record variables : Set := {
  v_temperature : option string;
  v_pressure : option string;
  v_crystal : option string;
  v_iteration : option string }.
(* util.py:66, 68-71 *)
Definition no_variables : variables :=
  {| v_temperature := None; v_pressure := None; v_crystal := None; v_iteration := None |}.

(** util.py:73-81: one turn of the loop; [item[0]] of an empty field is an IndexError *)
Definition field (v : variables) (item : string) : variables + exn :=
  match item with
  | "" => inr IndexError
  | String c rest =>
      if Ascii.eqb c "P" then
        inl {| v_temperature := v_temperature v; v_pressure := Some rest;
               v_crystal := v_crystal v; v_iteration := v_iteration v |}
      else if Ascii.eqb c "T" then
        inl {| v_temperature := Some rest; v_pressure := v_pressure v;
               v_crystal := v_crystal v; v_iteration := v_iteration v |}
      else match rest with
           | String "D" rest' =>
               if Ascii.eqb c "I" then
                 inl {| v_temperature := v_temperature v; v_pressure := v_pressure v;
                        v_crystal := v_crystal v; v_iteration := Some rest' |}
               else inl {| v_temperature := v_temperature v; v_pressure := v_pressure v;
                           v_crystal := Some item; v_iteration := v_iteration v |}
           | _ => inl {| v_temperature := v_temperature v; v_pressure := v_pressure v;
                         v_crystal := Some item; v_iteration := v_iteration v |}
           end
  end.
(* util.py:73-81 *)
Fixpoint fields_loop (v : variables) (l : list string) : variables + exn :=
  match l with
  | [] => inl v
  | item :: l' => ebind (field v item) (fun v' => fields_loop v' l')
  end.
(** util.py:57-61 *)
Definition drop_prefix (l : list string) : list string :=
  match l with
  | x :: l' => if existsb (String.eqb x) ["dump"; "trajectory"; "thermo"] then l' else l
  | [] => []
  end.
(** util.py:39-83 [Variables.from_filename], util.py:86-104 [get_filename_vars] *)
Definition get_filename_vars (fname : string) : variables + exn :=
  let flist := drop_prefix (split_char "-" (path_stem fname)) in
  if (List.length flist <? 3)%nat then inl no_variables
  else fields_loop no_variables flist.

(** ** "{:.2f}".format of a float *)
(* params.py:90, 94, 96 rounding of the format .2f *)
Definition half_even (q : Q) : Z :=
  let n := Qfloor q in
  let r := (q - inject_Z n)%Q in
  if Qltb r (1 # 2) then n
  else if Qltb (1 # 2) r then n + 1
  else if Z.even n then n else n + 1.
(* params.py:90, 94, 96 the format .2f *)
Definition fmt2_nonneg (q : Q) : string :=
  let n := half_even (100 * q) in
  dec (n / 100) ++ "." ++ String (digit_char ((n / 10) mod 10)) (String (digit_char (n mod 10)) "").
(* params.py:90, 94, 96 the format .2f *)
Definition fmt2 (x : xnum) : string :=
  match x with
  | NaN => "nan"
  | PInf => "inf"
  | NInf => "-inf"
  | Fin q => if Qltb q 0 then "-" ++ fmt2_nonneg (- q) else fmt2_nonneg q
  end.

(** ** params.py *)
(** Attribute values.  [VMol c]: a molecule of class [c], printed as [c]
    (molecules.py:53-54); [VProperty]: a property object. *)
Inductive pyval : Set :=
| VNone
| VNum (x : xnum)
| VStr (s : string)
| VPath (p : string)
| VMol (cls : string)
| VProperty.
(* params.py:123 the __dict__ of a SimulationParams *)
Definition obj : Type := dict string pyval.

(** [Path(value)] *)
(* params.py:22-25, 64, 74, 86 *)
Definition Path (v : pyval) : pyval + exn :=
  match v with
  | VStr s => inl (VPath s)
  | VPath s => inl (VPath s)
  | _ => inr TypeError
  end.
(** params.py:22-25 [_to_path] *)
Definition to_path (v : pyval) : pyval + exn :=
  match v with VNone => inl VNone | _ => Path v end.

(** params.py:28-55: [SimulationParams(...)]; the arguments not listed have arbitrary values
    in [rest], whose keys are the other attributes. *)
Definition SimulationParams (infile outfile output : pyval) (rest : obj) : obj + exn :=
  ebind (to_path infile) (fun i => ebind (to_path outfile) (fun o =>
  ebind (to_path output) (fun d =>
  inl (rest ++ [("_infile", i); ("_outfile", o); ("_output", d)])%list))).

(* params.py:33-55 reading an attribute *)
Definition dget_attr (k : string) (o : obj) : pyval + exn :=
  match dget String.eqb k o with Some v => inl v | None => inr AttributeError end.
(** Reading an attribute; params.py:57-59, 66-68, 76-80 for the properties.  [cwd] is
    [Path.cwd()]. *)
Definition getattr (cwd : string) (o : obj) (k : string) : pyval + exn :=
  if String.eqb k "infile" then dget_attr "_infile" o
  else if String.eqb k "outfile" then dget_attr "_outfile" o
  else if String.eqb k "output" then
    ebind (dget_attr "_output" o) (fun v =>
    inl (match v with VNone => VPath cwd | _ => v end))
  else dget_attr k o.
(** Assigning an attribute; params.py:61-64, 70-74, 82-86 for the properties. *)
Definition setattr (o : obj) (k : string) (v : pyval) : obj + exn :=
  if String.eqb k "infile" then
    ebind (Path v) (fun p => inl (dset String.eqb "_infile" p o))
  else if String.eqb k "outfile" then
    match v with
    | VNone => inl o
    | _ => ebind (Path v) (fun p => inl (dset String.eqb "_outfile" p o))
    end
  else if String.eqb k "output" then
    match v with
    | VNone => inl o
    | _ => ebind (Path v) (fun p => inl (dset String.eqb "_output" p o))
    end
  else inl (dset String.eqb k v o).
(** [del o.k]; a property without deleter cannot be deleted *)
(* params.py:33-55 deleting an attribute *)
Definition delattr (o : obj) (k : string) : obj + exn :=
  if existsb (String.eqb k) ["infile"; "outfile"; "output"] then inr AttributeError
  else if dmem String.eqb k o then inl (ddel String.eqb k o) else inr AttributeError.

Section Format.
  (** [str] of a number *)
  Variable str_num : xnum -> string.
  (* params.py:108-116 str in format *)
  Definition py_str (v : pyval) : string :=
    match v with
    | VNone => "None"
    | VNum x => str_num x
    | VStr s => s
    | VPath p => p
    | VMol c => c
    | VProperty => "<property object>"
    end.
  (** "{:.2f}".format(v) *)
  (* params.py:108-116 the format .2f of a value *)
  Definition py_fmt2 (v : pyval) : string + exn :=
    match v with
    | VNum x => inl (fmt2 x)
    | VStr _ => inr ValueError
    | _ => inr TypeError
    end.
  (** The parts that are only there if the attribute is not None *)
  (* params.py:93-99 *)
  Definition opt_part (v : pyval) (f : pyval -> string + exn) : string + exn :=
    match v with VNone => inl "" | _ => f v end.
  (** params.py:88-117 [SimulationParams.filename] *)
  Definition filename (cwd : string) (o : obj) (prefix : option string) : string + exn :=
    ebind (getattr cwd o "moment_inertia_scale") (fun inertia =>
    ebind (getattr cwd o "harmonic_force") (fun force =>
    ebind (getattr cwd o "space_group") (fun group =>
    ebind (getattr cwd o "temperature") (fun temperature =>
    ebind (getattr cwd o "molecule") (fun mol =>
    ebind (getattr cwd o "pressure") (fun pressure =>
    ebind (py_fmt2 pressure) (fun p =>
    ebind (py_fmt2 temperature) (fun t =>
    ebind (opt_part inertia (fun v => ebind (py_fmt2 v) (fun s => inl ("-I" ++ s)))) (fun i =>
    ebind (opt_part force (fun v => ebind (py_fmt2 v) (fun s => inl ("-K" ++ s)))) (fun k =>
    ebind (opt_part group (fun v => inl ("-" ++ py_str v))) (fun g =>
    ebind (getattr cwd o "output") (fun out =>
    let pre := match prefix with Some x => x ++ "-" | None => "" end in
    let fname := pre ++ py_str mol ++ "-P" ++ p ++ "-T" ++ t ++ i ++ k ++ g ++ ".gsd" in
    match out with
    | VPath d => inl (path_join d fname)
    | _ => inr TypeError
    end)))))))))))).
End Format.

(** ** params.py:119-129 [temp_context] *)
(** Code that runs inside (and around) temporary contexts. *)
Inductive cmd : Set :=
| Skip
| SetAttr (k : string) (v : pyval)
| DelAttr (k : string)
| RaiseExn (e : exn)
| Seq (a b : cmd)
| Try (a b : cmd)                       (* try: a  except: b *)
| With (kwargs : list (string * pyval)) (body : cmd).

(** params.py:126-127: the state reached and the exception of a setter, if any *)
Fixpoint set_all (kw : list (string * pyval)) (o : obj) : obj * option exn :=
  match kw with
  | [] => (o, None)
  | (k, v) :: kw' => match setattr o k v with
                     | inl o' => set_all kw' o'
                     | inr e => (o, Some e)
                     end
  end.
(* params.py:124 *)
Definition not_property (v : pyval) : bool := match v with VProperty => false | _ => true end.
(** params.py:129: [self.__dict__.update(old_params)] *)
Definition update (o old : obj) : obj :=
  fold_left (fun d kv => dset String.eqb (fst kv) (snd kv) d) old o.
(** The [contextmanager] has no try: if the body raises, the exception is thrown in at the
    [yield] and leaves [temp_context] without the last line. *)
(* params.py:33-86, 119-129 statements of a user of the object *)
Fixpoint exec (c : cmd) (o : obj) : obj * option exn :=
  match c with
  | Skip => (o, None)
  | SetAttr k v => match setattr o k v with inl o' => (o', None) | inr e => (o, Some e) end
  | DelAttr k => match delattr o k with inl o' => (o', None) | inr e => (o, Some e) end
  | RaiseExn e => (o, Some e)
  | Seq a b => match exec a o with (o', None) => exec b o' | x => x end
  | Try a b => match exec a o with (o', Some _) => exec b o' | x => x end
  | With kw body =>
      let old := filter (fun p => not_property (snd p)) o in
      match set_all kw o with
      | (o1, Some e) => (o1, Some e)
      | (o1, None) =>
          match exec body o1 with
          | (o2, Some e) => (o2, Some e)
          | (o2, None) => (update o2 old, None)
          end
      end
  end.

(** ** util.py:107-116 [set_filename_vars]; [pfloat] is [float] on strings *)
Definition set_float (pfloat : string -> option xnum) (k : string) (v : option string)
           (o : obj) : obj * option exn :=
  match v with
  | None => (o, None)
  | Some s => match pfloat s with
              | None => (o, Some ValueError)
              | Some x => match setattr o k (VNum x) with
                          | inl o' => (o', None)
                          | inr e => (o, Some e)
                          end
              end
  end.
(* util.py:107-116 *)
Definition set_filename_vars (pfloat : string -> option xnum) (fname : string) (o : obj)
  : obj * option exn :=
  match get_filename_vars fname with
  | inr e => (o, Some e)
  | inl var =>
      match set_float pfloat "temperature" (v_temperature var) o with
      | (o1, Some e) => (o1, Some e)
      | (o1, None) =>
          match set_float pfloat "pressure" (v_pressure var) o1 with
          | (o2, Some e) => (o2, Some e)
          | (o2, None) =>
              match v_crystal var with
              | None => (o2, None)
              | Some c => match setattr o2 "space_group" (VStr c) with
                          | inl o3 => (o3, None)
                          | inr e => (o2, Some e)
                          end
              end
          end
      end
  end.

(** ** util.py:119-135 [parse_directory] *)
(** The innermost values: the empty dictionary of the last [setdefault], or a file. *)
Inductive leaf : Set := LEmpty | LFile (p : string).
Definition level1 : Type := dict string leaf.        (* util.py:121, 130-134: by iteration id *)
Definition level2 : Type := dict string level1.      (* util.py:121, 130-134: by crystal *)
Definition level3 : Type := dict string level2.      (* util.py:121, 130-134: by temperature *)
Definition level4 : Type := dict string level3.      (* util.py:121, 130-134: by pressure *)
(* util.py:130-133 *)
Definition setdefault {V} (k : string) (v : V) (d : dict string V) : dict string V :=
  if dmem String.eqb k d then d else (d ++ [(k, v)])%list.
(** [f] applied to [d[k]] *)
(* util.py:131-134 a change within a nested dictionary *)
Definition at_key {V} (k : string) (f : V -> V) (d : dict string V) : dict string V :=
  match dget String.eqb k d with Some v => dset String.eqb k (f v) d | None => d end.
(* util.py:128-129 *)
Definition str_opt (s : option string) : string := match s with Some x => x | None => "None" end.
(* util.py:126-127 *)
Definition truthy (s : option string) : bool :=
  match s with Some "" => false | Some _ => true | None => false end.
(* util.py:125-134 *)
Definition insert_file (v : variables) (fname : string) (all : level4) : level4 + exn :=
  if negb (truthy (v_temperature v)) then inr AssertionError
  else if negb (truthy (v_pressure v)) then inr AssertionError
  else
    let p := str_opt (v_pressure v) in
    let t := str_opt (v_temperature v) in
    let c := str_opt (v_crystal v) in
    let r := str_opt (v_iteration v) in
    let all := setdefault p [] all in
    let all := at_key p (setdefault t []) all in
    let all := at_key p (at_key t (setdefault c [])) all in
    let all := at_key p (at_key t (at_key c (setdefault r LEmpty))) all in
    inl (at_key p (at_key t (at_key c (dset String.eqb r (LFile fname)))) all).
(* util.py:124-134 *)
Fixpoint parse_files (files : list string) (all : level4) : level4 + exn :=
  match files with
  | [] => inl all
  | fname :: files' =>
      ebind (get_filename_vars fname) (fun v =>
      ebind (insert_file v fname all) (fun all' => parse_files files' all'))
  end.
(** [files]: what [directory.glob(glob)] returns, in its order *)
(* util.py:119-135 *)
Definition parse_directory (files : list string) : level4 + exn := parse_files files [].
