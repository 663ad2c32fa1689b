(** Model of the logging options of src/sdanalysis/main.py: where log messages go.

    The state is that of the logging module of Python's library: the level of the root logger,
    its handlers, the levels of other loggers.  Names of loggers are lists, a.b.c being
    [a; b; c].  Of click it is modelled in which order the callbacks of options run.  The text
    of messages and the log messages of the callbacks themselves are not modelled. *)
From Coq Require Import String List Bool Arith ZArith.
Import ListNotations.
Open Scope string_scope.
Open Scope Z_scope.

(** Handlers: a StreamHandler to stderr or a FileHandler, main.py:35, 41 *)
Inductive dest : Set := Stderr | LogFile (name : string).
(** The state of the logging module, main.py:22-27 *)
Record logging : Set := mklog { root_level : Z; handlers : list dest; levels : list (list string * Z) }.
(** logging.WARNING, INFO, DEBUG, NOTSET as in main.py:25-33 *)
Definition WARNING : Z := 30.
(* main.py:33 *)
Definition INFO : Z := 20.
(* main.py:33 *)
Definition DEBUG : Z := 10.
(** The level of a logger that none was set for, main.py:41 *)
Definition NOTSET : Z := 0.

(** A level set for a logger, main.py:25, 27, 188 *)
Definition own_level (s : logging) (n : list string) : Z :=
  match find (fun e => if list_eq_dec string_dec (fst e) n then true else false) (levels s) with
  | Some e => snd e | None => NOTSET end.
(** [setLevel], main.py:25, 27, 188 *)
Definition set_level (n : list string) (l : Z) (s : logging) : logging :=
  mklog (root_level s) (handlers s) ((n, l) :: levels s).
(** [logging.basicConfig(filename=, level=)]: nothing if there are handlers, main.py:35, 41, 189 *)
Definition basic_config (filename : option string) (level : Z) (s : logging) : logging :=
  match handlers s with
  | [] => mklog level [match filename with
                       | Some f => if string_dec f "" then Stderr else LogFile f
                       | None => Stderr end] (levels s)
  | _ => s end.
(** main.py:22-27 on import *)
Definition on_import : logging :=
  set_level ["freud"] WARNING (set_level ["gsd"] WARNING (mklog WARNING [] [])).

(** main.py:32-34 *)
Definition level_of (count : nat) : Z :=
  match count with 0%nat => WARNING | 1%nat => INFO | 2%nat => DEBUG | _ => DEBUG end.
(** main.py:32-36 [_verbosity] *)
Definition verbosity (count : nat) (s : logging) : logging := basic_config None (level_of count) s.
(** main.py:39-41 [_file_logger]; [logger] is that of line 22 *)
Definition file_logger (value : option string) (s : logging) : logging :=
  basic_config value (own_level s ["sdanalysis"; "main"]) s.

(** The options before the command, main.py:44-111: -v, --log-file F, and the others *)
Inductive group_opt : Set := Verbose | LogTo (f : string) | OtherOpt.
(** count=True, main.py:46-50 *)
Definition verbose_count (line : list group_opt) : nat :=
  length (filter (fun o => match o with Verbose => true | _ => false end) line).
(** The last --log-file counts, main.py:56-62 *)
Fixpoint log_file (line : list group_opt) : option string :=
  match line with
  | [] => None
  | LogTo f :: line' => match log_file line' with Some g => Some g | None => Some f end
  | _ :: line' => log_file line' end.
(** click runs the callbacks of eager options in the order in which they first occur on the line,
    those not on the line after these and in the order of the decorators, main.py:46-62 *)
Fixpoint file_first (line : list group_opt) : bool :=
  match line with
  | [] => false
  | Verbose :: _ => false
  | LogTo _ :: _ => true
  | OtherOpt :: line' => file_first line' end.
(** main.py:44-115 the logging once the options of the group are processed *)
Definition after_group (line : list group_opt) (s : logging) : logging :=
  if file_first line
  then verbosity (verbose_count line) (file_logger (log_file line) s)
  else file_logger (log_file line) (verbosity (verbose_count line) s).
(** The logger of figures/interactive_config.py:55, main.py:187 *)
Definition interactive : list string := ["sdanalysis"; "figures"; "interactive_config"].
(** main.py:185-190 [_interactive_verbosity] *)
Definition interactive_verbosity (count : nat) (s : logging) : logging :=
  match count with
  | 0%nat => s
  | _ => basic_config None DEBUG (set_level interactive DEBUG s) end.

(** [Logger.getEffectiveLevel]: the level of the logger or else of the nearest parent that has one;
    [rev] is the name backwards, main.py:24-27, 187-188 *)
Fixpoint effective_rev (s : logging) (rev_name : list string) : Z :=
  match rev_name with
  | [] => root_level s
  | _ :: parent => let l := own_level s (rev rev_name) in if l =? 0 then effective_rev s parent else l end.
(** Where a message of level [m] of a logger ends up, main.py:36, 116, 190 *)
Definition emitted (s : logging) (name : list string) (m : Z) : list dest :=
  if effective_rev s (rev name) <=? m then handlers s else [].
