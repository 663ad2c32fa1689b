(** Model of figures/interactive_config.py: the interactive figure of a trajectory.
    A figure is a state machine: the actions are what a user can do in the browser.
    Bokeh: assigning to a property of a widget calls the functions registered with [on_change]
    before the assignment returns, if the value changed; an exception raised by such a function
    propagates through the assignment; one raised by the outermost handler is logged by the server
    and the figure goes on.  Simplified: files do not change while the figure exists; layouts,
    styles and the log are left out; sliders hold integers (their step is 1). *)
From Coq Require Import String Ascii ZArith List Bool.
From Verif Require Import Base FrameModel ParamsModel MoleculeModel.
Import ListNotations.
Open Scope string_scope.
Notation length := List.length.

(** [sorted(list(d.keys()))] *)
(* interactive_config.py:113, 123, 133-135, 142-144 *)
Definition sorted_keys {V} (d : dict string V) : list string := fold_right insert_sorted [] (dkeys d).
(** [l[i]] for a list of strings and an index that is not negative *)
(* interactive_config.py:121, 157, 172 indexing a list of labels *)
Definition item (l : list string) (i : nat) : string + exn :=
  match nth_error l i with Some s => inl s | None => inr IndexError end.
(** [d[k]] *)
(* interactive_config.py:237-239 indexing a dictionary *)
Definition at_ {V} (d : dict string V) (k : string) : V + exn :=
  match dget String.eqb k d with Some v => inl v | None => inr KeyError end.
(* interactive_config.py:237-239 propagation of an exception *)
Definition andthen {A B} (r : A + exn) (f : A -> B + exn) : B + exn :=
  match r with inl a => f a | inr e => inr e end.

(** interactive_config.py:296-303: value, start and end of the trajectory slider *)
Record slider : Set := mk_slider { s_value : Z; s_start : Z; s_end : Z }.

Section Figure.
(** [F]: a frame as HoomdFrame gives it; [O]: a function that classifies; [D]: the columns that
    frame2data returns (ConfigModel) or what it raises; [open_file]: gsd.hoomd.open: the frames, each with
    what reading it raises. *)
Context {F O D : Type}.
Context (timestep : F -> Z) (render : option O -> F -> D + exn) (open_file : string -> list (F + exn) + exn).

(** interactive_config.py:60-107: the attributes of a TrimerFigure *)
Record fig : Type := mk_fig {
  f_vs : level4  (* variable_selection, :110 *);
  f_pressures : list string  (* _pressures, and the labels of _pressure_button, :113-119 *);
  f_pact : nat  (* _pressure_button.active *);
  f_temps : list string  (* _temperatures, :123 *);
  f_topts : list string  (* _temperature_button.options *);
  f_tval : string  (* _temperature_button.value *);
  f_crystals : list string  (* _crystals, :133 *);
  f_clabels : list string  (* _crystal_button.labels *);
  f_cact : nat  (* _crystal_button.active *);
  f_iters : list string  (* _iter_index, :142 *);
  f_iopts : list string  (* _iter_index_button.options *);
  f_ival : string  (* _iter_index_button.value *);
  f_orders : dict string (option O)  (* order_functions: attribute of the class, :61-65 *);
  f_labels : list string  (* _order_parameter.labels, :259 *);
  f_oact : nat  (* _order_parameter.active *);
  f_traj : list (F + exn)  (* _trajectory: what reading each frame gives *);
  f_slider : option slider  (* _trajectory_slider; None: not created yet *);
  f_incr : Z  (* _increment_size.value *);
  f_playing : bool  (* _playing *);
  f_callback : option nat  (* _callback *);
  f_doc : list nat  (* the periodic callbacks registered with the document *);
  f_fresh : nat  (* the next callback object *);
  f_frame : option F  (* _frame *);
  f_data : option D  (* _source.data; None: the empty columns of :83-85 *);
  f_plot : option Z  (* plot; Some t: it exists and its title says Timestep t *);
  f_filename : string  (* what _filename_div shows as current file *) }.
(* interactive_config.py:110 *)
Definition set_vs (x : level4) (s : fig) : fig :=
  mk_fig x (f_pressures s) (f_pact s) (f_temps s) (f_topts s) (f_tval s) (f_crystals s) (f_clabels s) (f_cact s) (f_iters s) (f_iopts s) (f_ival s) (f_orders s) (f_labels s) (f_oact s) (f_traj s) (f_slider s) (f_incr s) (f_playing s) (f_callback s) (f_doc s) (f_fresh s) (f_frame s) (f_data s) (f_plot s) (f_filename s).
(* interactive_config.py:113 *)
Definition set_pressures (x : list string) (s : fig) : fig :=
  mk_fig (f_vs s) x (f_pact s) (f_temps s) (f_topts s) (f_tval s) (f_crystals s) (f_clabels s) (f_cact s) (f_iters s) (f_iopts s) (f_ival s) (f_orders s) (f_labels s) (f_oact s) (f_traj s) (f_slider s) (f_incr s) (f_playing s) (f_callback s) (f_doc s) (f_fresh s) (f_frame s) (f_data s) (f_plot s) (f_filename s).
(* interactive_config.py:114-119 *)
Definition set_pact (x : nat) (s : fig) : fig :=
  mk_fig (f_vs s) (f_pressures s) x (f_temps s) (f_topts s) (f_tval s) (f_crystals s) (f_clabels s) (f_cact s) (f_iters s) (f_iopts s) (f_ival s) (f_orders s) (f_labels s) (f_oact s) (f_traj s) (f_slider s) (f_incr s) (f_playing s) (f_callback s) (f_doc s) (f_fresh s) (f_frame s) (f_data s) (f_plot s) (f_filename s).
(* interactive_config.py:123, 182 *)
Definition set_temps (x : list string) (s : fig) : fig :=
  mk_fig (f_vs s) (f_pressures s) (f_pact s) x (f_topts s) (f_tval s) (f_crystals s) (f_clabels s) (f_cact s) (f_iters s) (f_iopts s) (f_ival s) (f_orders s) (f_labels s) (f_oact s) (f_traj s) (f_slider s) (f_incr s) (f_playing s) (f_callback s) (f_doc s) (f_fresh s) (f_frame s) (f_data s) (f_plot s) (f_filename s).
(* interactive_config.py:126, 184 *)
Definition set_topts (x : list string) (s : fig) : fig :=
  mk_fig (f_vs s) (f_pressures s) (f_pact s) (f_temps s) x (f_tval s) (f_crystals s) (f_clabels s) (f_cact s) (f_iters s) (f_iopts s) (f_ival s) (f_orders s) (f_labels s) (f_oact s) (f_traj s) (f_slider s) (f_incr s) (f_playing s) (f_callback s) (f_doc s) (f_fresh s) (f_frame s) (f_data s) (f_plot s) (f_filename s).
(* interactive_config.py:127, 185 *)
Definition set_tval (x : string) (s : fig) : fig :=
  mk_fig (f_vs s) (f_pressures s) (f_pact s) (f_temps s) (f_topts s) x (f_crystals s) (f_clabels s) (f_cact s) (f_iters s) (f_iopts s) (f_ival s) (f_orders s) (f_labels s) (f_oact s) (f_traj s) (f_slider s) (f_incr s) (f_playing s) (f_callback s) (f_doc s) (f_fresh s) (f_frame s) (f_data s) (f_plot s) (f_filename s).
(* interactive_config.py:133-135, 189-191 *)
Definition set_crystals (x : list string) (s : fig) : fig :=
  mk_fig (f_vs s) (f_pressures s) (f_pact s) (f_temps s) (f_topts s) (f_tval s) x (f_clabels s) (f_cact s) (f_iters s) (f_iopts s) (f_ival s) (f_orders s) (f_labels s) (f_oact s) (f_traj s) (f_slider s) (f_incr s) (f_playing s) (f_callback s) (f_doc s) (f_fresh s) (f_frame s) (f_data s) (f_plot s) (f_filename s).
(* interactive_config.py:137, 193 *)
Definition set_clabels (x : list string) (s : fig) : fig :=
  mk_fig (f_vs s) (f_pressures s) (f_pact s) (f_temps s) (f_topts s) (f_tval s) (f_crystals s) x (f_cact s) (f_iters s) (f_iopts s) (f_ival s) (f_orders s) (f_labels s) (f_oact s) (f_traj s) (f_slider s) (f_incr s) (f_playing s) (f_callback s) (f_doc s) (f_fresh s) (f_frame s) (f_data s) (f_plot s) (f_filename s).
(* interactive_config.py:137, 194 *)
Definition set_cact (x : nat) (s : fig) : fig :=
  mk_fig (f_vs s) (f_pressures s) (f_pact s) (f_temps s) (f_topts s) (f_tval s) (f_crystals s) (f_clabels s) x (f_iters s) (f_iopts s) (f_ival s) (f_orders s) (f_labels s) (f_oact s) (f_traj s) (f_slider s) (f_incr s) (f_playing s) (f_callback s) (f_doc s) (f_fresh s) (f_frame s) (f_data s) (f_plot s) (f_filename s).
(* interactive_config.py:142-144, 198-204 *)
Definition set_iters (x : list string) (s : fig) : fig :=
  mk_fig (f_vs s) (f_pressures s) (f_pact s) (f_temps s) (f_topts s) (f_tval s) (f_crystals s) (f_clabels s) (f_cact s) x (f_iopts s) (f_ival s) (f_orders s) (f_labels s) (f_oact s) (f_traj s) (f_slider s) (f_incr s) (f_playing s) (f_callback s) (f_doc s) (f_fresh s) (f_frame s) (f_data s) (f_plot s) (f_filename s).
(* interactive_config.py:147, 205 *)
Definition set_iopts (x : list string) (s : fig) : fig :=
  mk_fig (f_vs s) (f_pressures s) (f_pact s) (f_temps s) (f_topts s) (f_tval s) (f_crystals s) (f_clabels s) (f_cact s) (f_iters s) x (f_ival s) (f_orders s) (f_labels s) (f_oact s) (f_traj s) (f_slider s) (f_incr s) (f_playing s) (f_callback s) (f_doc s) (f_fresh s) (f_frame s) (f_data s) (f_plot s) (f_filename s).
(* interactive_config.py:148, 206 *)
Definition set_ival (x : string) (s : fig) : fig :=
  mk_fig (f_vs s) (f_pressures s) (f_pact s) (f_temps s) (f_topts s) (f_tval s) (f_crystals s) (f_clabels s) (f_cact s) (f_iters s) (f_iopts s) x (f_orders s) (f_labels s) (f_oact s) (f_traj s) (f_slider s) (f_incr s) (f_playing s) (f_callback s) (f_doc s) (f_fresh s) (f_frame s) (f_data s) (f_plot s) (f_filename s).
(* interactive_config.py:61-65, 94 *)
Definition set_orders (x : dict string (option O)) (s : fig) : fig :=
  mk_fig (f_vs s) (f_pressures s) (f_pact s) (f_temps s) (f_topts s) (f_tval s) (f_crystals s) (f_clabels s) (f_cact s) (f_iters s) (f_iopts s) (f_ival s) x (f_labels s) (f_oact s) (f_traj s) (f_slider s) (f_incr s) (f_playing s) (f_callback s) (f_doc s) (f_fresh s) (f_frame s) (f_data s) (f_plot s) (f_filename s).
(* interactive_config.py:259 *)
Definition set_labels (x : list string) (s : fig) : fig :=
  mk_fig (f_vs s) (f_pressures s) (f_pact s) (f_temps s) (f_topts s) (f_tval s) (f_crystals s) (f_clabels s) (f_cact s) (f_iters s) (f_iopts s) (f_ival s) (f_orders s) x (f_oact s) (f_traj s) (f_slider s) (f_incr s) (f_playing s) (f_callback s) (f_doc s) (f_fresh s) (f_frame s) (f_data s) (f_plot s) (f_filename s).
(* interactive_config.py:260 *)
Definition set_oact (x : nat) (s : fig) : fig :=
  mk_fig (f_vs s) (f_pressures s) (f_pact s) (f_temps s) (f_topts s) (f_tval s) (f_crystals s) (f_clabels s) (f_cact s) (f_iters s) (f_iopts s) (f_ival s) (f_orders s) (f_labels s) x (f_traj s) (f_slider s) (f_incr s) (f_playing s) (f_callback s) (f_doc s) (f_fresh s) (f_frame s) (f_data s) (f_plot s) (f_filename s).
(* interactive_config.py:79, 276 *)
Definition set_traj (x : list (F + exn)) (s : fig) : fig :=
  mk_fig (f_vs s) (f_pressures s) (f_pact s) (f_temps s) (f_topts s) (f_tval s) (f_crystals s) (f_clabels s) (f_cact s) (f_iters s) (f_iopts s) (f_ival s) (f_orders s) (f_labels s) (f_oact s) x (f_slider s) (f_incr s) (f_playing s) (f_callback s) (f_doc s) (f_fresh s) (f_frame s) (f_data s) (f_plot s) (f_filename s).
(* interactive_config.py:280-282, 296-303 *)
Definition set_slider (x : option slider) (s : fig) : fig :=
  mk_fig (f_vs s) (f_pressures s) (f_pact s) (f_temps s) (f_topts s) (f_tval s) (f_crystals s) (f_clabels s) (f_cact s) (f_iters s) (f_iopts s) (f_ival s) (f_orders s) (f_labels s) (f_oact s) (f_traj s) x (f_incr s) (f_playing s) (f_callback s) (f_doc s) (f_fresh s) (f_frame s) (f_data s) (f_plot s) (f_filename s).
(* interactive_config.py:314-321 *)
Definition set_incr (x : Z) (s : fig) : fig :=
  mk_fig (f_vs s) (f_pressures s) (f_pact s) (f_temps s) (f_topts s) (f_tval s) (f_crystals s) (f_clabels s) (f_cact s) (f_iters s) (f_iopts s) (f_ival s) (f_orders s) (f_labels s) (f_oact s) (f_traj s) (f_slider s) x (f_playing s) (f_callback s) (f_doc s) (f_fresh s) (f_frame s) (f_data s) (f_plot s) (f_filename s).
(* interactive_config.py:102, 374, 377 *)
Definition set_playing (x : bool) (s : fig) : fig :=
  mk_fig (f_vs s) (f_pressures s) (f_pact s) (f_temps s) (f_topts s) (f_tval s) (f_crystals s) (f_clabels s) (f_cact s) (f_iters s) (f_iopts s) (f_ival s) (f_orders s) (f_labels s) (f_oact s) (f_traj s) (f_slider s) (f_incr s) x (f_callback s) (f_doc s) (f_fresh s) (f_frame s) (f_data s) (f_plot s) (f_filename s).
(* interactive_config.py:75, 376 *)
Definition set_callback (x : option nat) (s : fig) : fig :=
  mk_fig (f_vs s) (f_pressures s) (f_pact s) (f_temps s) (f_topts s) (f_tval s) (f_crystals s) (f_clabels s) (f_cact s) (f_iters s) (f_iopts s) (f_ival s) (f_orders s) (f_labels s) (f_oact s) (f_traj s) (f_slider s) (f_incr s) (f_playing s) x (f_doc s) (f_fresh s) (f_frame s) (f_data s) (f_plot s) (f_filename s).
(* interactive_config.py:373, 376 the periodic callbacks of the document *)
Definition set_doc (x : list nat) (s : fig) : fig :=
  mk_fig (f_vs s) (f_pressures s) (f_pact s) (f_temps s) (f_topts s) (f_tval s) (f_crystals s) (f_clabels s) (f_cact s) (f_iters s) (f_iopts s) (f_ival s) (f_orders s) (f_labels s) (f_oact s) (f_traj s) (f_slider s) (f_incr s) (f_playing s) (f_callback s) x (f_fresh s) (f_frame s) (f_data s) (f_plot s) (f_filename s).
(* interactive_config.py:376 a new callback object on each call *)
Definition set_fresh (x : nat) (s : fig) : fig :=
  mk_fig (f_vs s) (f_pressures s) (f_pact s) (f_temps s) (f_topts s) (f_tval s) (f_crystals s) (f_clabels s) (f_cact s) (f_iters s) (f_iopts s) (f_ival s) (f_orders s) (f_labels s) (f_oact s) (f_traj s) (f_slider s) (f_incr s) (f_playing s) (f_callback s) (f_doc s) x (f_frame s) (f_data s) (f_plot s) (f_filename s).
(* interactive_config.py:68, 242 *)
Definition set_frame (x : option F) (s : fig) : fig :=
  mk_fig (f_vs s) (f_pressures s) (f_pact s) (f_temps s) (f_topts s) (f_tval s) (f_crystals s) (f_clabels s) (f_cact s) (f_iters s) (f_iopts s) (f_ival s) (f_orders s) (f_labels s) (f_oact s) (f_traj s) (f_slider s) (f_incr s) (f_playing s) (f_callback s) (f_doc s) (f_fresh s) x (f_data s) (f_plot s) (f_filename s).
(* interactive_config.py:83-85, 352 *)
Definition set_data (x : option D) (s : fig) : fig :=
  mk_fig (f_vs s) (f_pressures s) (f_pact s) (f_temps s) (f_topts s) (f_tval s) (f_crystals s) (f_clabels s) (f_cact s) (f_iters s) (f_iopts s) (f_ival s) (f_orders s) (f_labels s) (f_oact s) (f_traj s) (f_slider s) (f_incr s) (f_playing s) (f_callback s) (f_doc s) (f_fresh s) (f_frame s) x (f_plot s) (f_filename s).
(* interactive_config.py:361, 421-429 *)
Definition set_plot (x : option Z) (s : fig) : fig :=
  mk_fig (f_vs s) (f_pressures s) (f_pact s) (f_temps s) (f_topts s) (f_tval s) (f_crystals s) (f_clabels s) (f_cact s) (f_iters s) (f_iopts s) (f_ival s) (f_orders s) (f_labels s) (f_oact s) (f_traj s) (f_slider s) (f_incr s) (f_playing s) (f_callback s) (f_doc s) (f_fresh s) (f_frame s) (f_data s) x (f_filename s).
(* interactive_config.py:98, 289-291 *)
Definition set_filename (x : string) (s : fig) : fig :=
  mk_fig (f_vs s) (f_pressures s) (f_pact s) (f_temps s) (f_topts s) (f_tval s) (f_crystals s) (f_clabels s) (f_cact s) (f_iters s) (f_iopts s) (f_ival s) (f_orders s) (f_labels s) (f_oact s) (f_traj s) (f_slider s) (f_incr s) (f_playing s) (f_callback s) (f_doc s) (f_fresh s) (f_frame s) (f_data s) (f_plot s) x.

(** A piece of code: the state it leaves and the exception it raises, if any. *)
(* interactive_config.py:181-207, 241-243 a method: it changes the figure and may raise *)
Definition cmd : Type := fig -> fig * option exn.
(* interactive_config.py:182, 242 an assignment to an attribute *)
Definition do (f : fig -> fig) : cmd := fun s => (f s, None).
(* interactive_config.py:182-186 one statement after another *)
Definition seq (a b : cmd) : cmd := fun s =>
  match a s with (s', None) => b s' | (s', Some e) => (s', Some e) end.
(* interactive_config.py:182, 242 an expression which may raise *)
Definition reading {A} (r : fig -> A + exn) (k : A -> cmd) : cmd := fun s =>
  match r s with inl a => k a s | inr e => (s, Some e) end.
(* interactive_config.py:284 pass *)
Definition skip : cmd := fun s => (s, None).
(** [try: c except AttributeError: pass] *)
(* interactive_config.py:279-284 except AttributeError *)
Definition try_attribute (c : cmd) : cmd := fun s =>
  match c s with (s', Some AttributeError) => (s', None) | r => r end.
Notation "a ;; b" := (seq a b) (at level 61, right associativity).

(** interactive_config.py:153-179 [pressure], [temperature], [crystal], [iter_index]; the lists are
    never None once the directory was read *)
Definition pressure (s : fig) : string + exn := item (f_pressures s) (f_pact s).
(* interactive_config.py:159-163 *)
Definition temperature (s : fig) : string := f_tval s.
(* interactive_config.py:165-172 *)
Definition crystal (s : fig) : string + exn := item (f_crystals s) (f_cact s).
(* interactive_config.py:174-179 *)
Definition iter_index (s : fig) : string := f_ival s.

(** interactive_config.py:232-239 [get_selected_file] *)
Definition get_selected_file (s : fig) : leaf + exn :=
  andthen (pressure s) (fun p =>
  andthen (at_ (f_vs s) p) (fun l3 =>
  andthen (at_ l3 (temperature s)) (fun l2 =>
  andthen (crystal s) (fun c =>
  andthen (at_ l2 c) (fun l1 => at_ l1 (iter_index s)))))).

(** interactive_config.py:354-357 [get_order_function] *)
Definition get_order_function (s : fig) : option O + exn :=
  andthen (item (dkeys (f_orders s)) (f_oact s)) (fun k => at_ (f_orders s) k).

(** interactive_config.py:359-366 [update_data] *)
Definition update_data : cmd := fun s =>
  match f_frame s with
  | None => (s, None)
  | Some f =>
      let s := match f_plot s with Some _ => set_plot (Some (timestep f)) s | None => s end in
      match andthen (get_order_function s) (fun o => render o f) with
      | inl d => (set_data (Some d) s, None)
      | inr e => (s, Some e)
      end
  end.

(** interactive_config.py:248-253 [index] *)
Definition index (s : fig) : Z := match f_slider s with Some sl => s_value sl | None => 0%Z end.
(** gsd: [trajectory[i]]; a negative index counts from the end *)
(* interactive_config.py:242 *)
Definition read_frame (l : list (F + exn)) (i : Z) : F + exn :=
  let n := Z.of_nat (length l) in
  let i := if (i <? 0)%Z then (i + n)%Z else i in
  if (i <? 0)%Z || (n <=? i)%Z then inr IndexError
  else match nth_error l (Z.to_nat i) with Some r => r | None => inr IndexError end.
(** interactive_config.py:241-246 [update_frame], [radio_update_frame] *)
Definition update_frame : cmd :=
  reading (fun s => read_frame (f_traj s) (index s)) (fun f => do (set_frame (Some f)) ;; update_data).

(** [self._trajectory_slider.value = v], with update_frame registered (:304) *)
(* interactive_config.py:281, 325, 332 with the callback registered at 304 *)
Definition set_value (v : Z) : cmd := fun s =>
  match f_slider s with
  | None => (s, Some AttributeError)
  | Some sl => if (v =? s_value sl)%Z then (s, None)
               else update_frame (set_slider (Some (mk_slider v (s_start sl) (s_end sl))) s)
  end.
(** [self._trajectory_slider.end = v] *)
(* interactive_config.py:282 *)
Definition set_end (v : Z) : cmd := fun s =>
  match f_slider s with
  | None => (s, Some AttributeError)
  | Some sl => (set_slider (Some (mk_slider (s_value sl) (s_start sl) v)) s, None)
  end.

(** [str(path)] and gsd.hoomd.open; the innermost dictionary of parse_directory is no file *)
(* interactive_config.py:276 *)
Definition open_leaf (l : leaf) : list (F + exn) + exn :=
  match l with LFile p => open_file p | LEmpty => inr OtherError end.
(* interactive_config.py:290 *)
Definition leaf_name (l : leaf) : string := match l with LFile p => path_name p | LEmpty => "" end.
(** interactive_config.py:273-293 [update_current_trajectory] *)
Definition update_current_trajectory : cmd :=
  reading get_selected_file (fun lf =>
  reading (fun _ => open_leaf lf) (fun l =>
  do (set_traj l) ;;
  try_attribute
    ((fun s => match f_slider s with
               | None => (s, Some AttributeError)
               | Some sl => if (Z.of_nat (length l) <? s_value sl)%Z then set_value (Z.of_nat (length l) - 1) s else (s, None)
               end) ;;
     (fun s => set_end (Z.of_nat (length (f_traj s)) - 1) s)) ;;
  update_frame ;;
  reading get_selected_file (fun lf' => do (set_filename (leaf_name lf'))))).

(** [self._iter_index_button.value = v], with update_current_trajectory registered (:151) *)
(* interactive_config.py:206 with the callback registered at 151 *)
Definition set_ival_ (v : string) : cmd := fun s =>
  if String.eqb v (f_ival s) then (s, None) else update_current_trajectory (set_ival v s).
(** interactive_config.py:197-207 [update_index_button] *)
Definition update_index_button : cmd :=
  reading (fun s => andthen (pressure s) (fun p => andthen (at_ (f_vs s) p) (fun l3 =>
                    andthen (at_ l3 (temperature s)) (fun l2 => andthen (crystal s) (fun c => at_ l2 c))))) (fun l1 =>
  do (set_iters (sorted_keys l1)) ;;
  do (fun s => set_iopts (f_iters s) s) ;;
  reading (fun s => item (f_iters s) 0) set_ival_ ;;
  update_current_trajectory).

(** [self._crystal_button.active = i], with update_index_button registered (:139) *)
(* interactive_config.py:194 with the callback registered at 139 *)
Definition set_cact_ (i : nat) : cmd := fun s =>
  if Nat.eqb i (f_cact s) then (s, None) else update_index_button (set_cact i s).
(** interactive_config.py:188-195 [update_crystal_button] *)
Definition update_crystal_button : cmd :=
  reading (fun s => andthen (pressure s) (fun p => andthen (at_ (f_vs s) p) (fun l3 => at_ l3 (temperature s)))) (fun l2 =>
  do (set_crystals (sorted_keys l2)) ;;
  do (fun s => set_clabels (f_crystals s) s) ;;
  set_cact_ 0 ;;
  update_index_button).

(** [self._temperature_button.value = v], with update_crystal_button registered (:130) *)
(* interactive_config.py:185 with the callback registered at 130 *)
Definition set_tval_ (v : string) : cmd := fun s =>
  if String.eqb v (f_tval s) then (s, None) else update_crystal_button (set_tval v s).
(** interactive_config.py:181-186 [update_temperature_button] *)
Definition update_temperature_button : cmd :=
  reading (fun s => andthen (pressure s) (fun p => at_ (f_vs s) p)) (fun l3 =>
  do (set_temps (sorted_keys l3)) ;;
  do (fun s => set_topts (f_temps s) s) ;;
  reading (fun s => item (f_temps s) 0) set_tval_ ;;
  update_crystal_button).
(** [self._pressure_button.active = i], with update_temperature_button registered (:120) *)
(* interactive_config.py:114-120 a click, with the callback registered at 120 *)
Definition set_pact_ (i : nat) : cmd := fun s =>
  if Nat.eqb i (f_pact s) then (s, None) else update_temperature_button (set_pact i s).
(** [self._order_parameter.active = i]; on_click (:263) calls radio_update_frame when it changed *)
(* interactive_config.py:257-263 a click, with the callback registered at 263 *)
Definition set_oact_ (i : nat) : cmd := fun s =>
  if Nat.eqb i (f_oact s) then (s, None) else update_frame (set_oact i s).

(** interactive_config.py:323-328 [_incr_index] *)
Definition incr_index : cmd := fun s =>
  match f_slider s with
  | None => (s, Some AttributeError)
  | Some sl => if (s_value sl <? s_end sl)%Z then set_value (Z.min (s_value sl + f_incr s) (s_end sl)) s else (s, None)
  end.
(** interactive_config.py:330-335 [_decr_index] *)
Definition decr_index : cmd := fun s =>
  match f_slider s with
  | None => (s, Some AttributeError)
  | Some sl => if (s_start sl <? s_value sl)%Z then set_value (Z.max (s_value sl - f_incr s) (s_start sl)) s else (s, None)
  end.
(** bokeh: Document.remove_periodic_callback: ValueError if it is not registered *)
(* interactive_config.py:373 remove_periodic_callback *)
Fixpoint remove_nat (k : nat) (l : list nat) : list nat :=
  match l with [] => [] | x :: l' => if Nat.eqb k x then l' else x :: remove_nat k l' end.
(** interactive_config.py:371-377 [_play_pause_toggle] *)
Definition play_pause_toggle : cmd := fun s =>
  if f_playing s
  then match f_callback s with
       | Some k => if existsb (Nat.eqb k) (f_doc s) then (set_playing false (set_doc (remove_nat k (f_doc s)) s), None)
                   else (s, Some ValueError)
       | None => (s, Some ValueError)
       end
  else (set_playing true (set_callback (Some (f_fresh s))
          (set_fresh (S (f_fresh s)) (set_doc (f_doc s ++ [f_fresh s])%list s))), None).

(** interactive_config.py:87-94: [models]; [create] is create_ml_ordering.  The dictionary is an
    attribute of the class: the assignments stay when the figure is gone or raises. *)
Fixpoint add_models (create : string -> O + exn) (models : list string) (d : dict string (option O)) :
    dict string (option O) * option exn :=
  match models with
  | [] => (d, None)
  | m :: ms => match create m with
               | inl o => add_models create ms (dset String.eqb (path_stem m) (Some o) d)
               | inr e => (d, Some e)
               end
  end.

(** interactive_config.py:109-151 [initialise_directory]: the twelve attributes, from what parse_directory
    returned *)
Definition initialise_directory (vs : level4) (blank : fig) : fig + exn :=
  let pressures := sorted_keys vs in
  andthen (item pressures 0) (fun p =>
  andthen (at_ vs p) (fun l3 =>
  let temps := sorted_keys l3 in
  andthen (item temps 0) (fun t =>
  andthen (at_ l3 t) (fun l2 =>
  let crystals := sorted_keys l2 in
  andthen (item crystals 0) (fun c =>
  andthen (at_ l2 c) (fun l1 =>
  let iters := sorted_keys l1 in
  andthen (item iters 0) (fun i =>
  inl (set_vs vs (set_pressures pressures (set_pact 0 (set_temps temps (set_topts temps (set_tval t
      (set_crystals crystals (set_clabels crystals (set_cact 0 (set_iters iters (set_iopts iters (set_ival i
      blank))))))))))))))))))).

(** The attributes before [initialise_directory]: [self._trajectory = [None]], :79; reading a frame of
    it fails; it is replaced before it is read. *)
(* interactive_config.py:68-85 the attributes before the first callback *)
Definition blank (orders : dict string (option O)) : fig :=
  mk_fig [] [] 0 [] [] "" [] [] 0 [] [] "" orders [] 0 [inr OtherError] None 10 false None [] 0 None None None "".

(** interactive_config.py:295-303, 314-321 [initialise_media_interface]: the two sliders *)
Definition initialise_media_interface : cmd := fun s =>
  (set_incr 10 (set_slider (Some (mk_slider 0 0 (Z.max (Z.of_nat (length (f_traj s))) 1))) s), None).
(** interactive_config.py:77-107 [__init__], after the models were added; [files]: what the glob of
    parse_directory gives.  initialise_trajectory_interface (:255-263): the labels; initialise_doc (:420-436):
    the plot, with title "Timestep 0". *)
Definition init (orders : dict string (option O)) (files : list string) : fig + exn :=
  andthen (parse_directory files) (fun vs =>
  andthen (initialise_directory vs (blank orders)) (fun s =>
  let s := set_oact 0 (set_labels (dkeys orders) (set_filename "" s)) in
  match (update_current_trajectory ;; do (set_playing false) ;; initialise_media_interface ;; do (set_plot (Some 0%Z))) s with
  | (s', None) => inl s'
  | (_, Some e) => inr e
  end)).
(** interactive_config.py:209-230, 438-449 [create_files_interface], [create_doc] *)
Definition create_doc : cmd :=
  update_data ;; reading get_selected_file (fun lf => do (set_filename (leaf_name lf))).
(** interactive_config.py:452-456 [make_document]: the dictionary of the class afterwards, and the figure *)
Definition make_document (create : string -> O + exn) (models files : list string) (orders : dict string (option O)) :
    dict string (option O) * (fig + exn) :=
  match add_models create models orders with
  | (orders', Some e) => (orders', inr e)
  | (orders', None) =>
      (orders', andthen (init orders' files) (fun s =>
                match create_doc s with (s', None) => inl s' | (_, Some e) => inr e end))
  end.

(** What a user (or the clock, [ATick]) does. *)
(* interactive_config.py:120, 130, 139, 151, 263, 304, 309-313 what the controls offer *)
Inductive action : Set :=
| APressure (i : nat) | ATemperature (t : string) | ACrystal (i : nat) | AIteration (r : string)
| AOrder (i : nat) | ADrag (v : Z) | AIncrement (v : Z) | ANext | APrevious | APlay | ATick.
(* interactive_config.py:120, 130, 139, 151, 263, 304, 309-313 the registered callbacks *)
Definition step (a : action) : cmd :=
  match a with
  | APressure i => set_pact_ i
  | ATemperature t => set_tval_ t
  | ACrystal i => set_cact_ i
  | AIteration r => set_ival_ r
  | AOrder i => set_oact_ i
  | ADrag v => set_value v
  | AIncrement v => do (set_incr v)
  | ANext => incr_index
  | APrevious => decr_index
  | APlay => play_pause_toggle
  | ATick => incr_index
  end.
(** What the widgets offer: the labels and options shown, the range of a slider. *)
(* interactive_config.py:114-150, 257-262, 296-321 the values a control can take *)
Definition offered (s : fig) (a : action) : Prop :=
  match a with
  | APressure i => (i < length (f_pressures s))%nat
  | ATemperature t => In t (f_topts s)
  | ACrystal i => (i < length (f_clabels s))%nat
  | AIteration r => In r (f_iopts s)
  | AOrder i => (i < length (f_labels s))%nat
  | ADrag v => exists sl, f_slider s = Some sl /\ (s_start sl <= v <= s_end sl)%Z
  | AIncrement v => (1 <= v <= 100)%Z
  | ATick => f_doc s <> []
  | ANext | APrevious | APlay => True
  end.
(** What happened: actions, each with what it raised. *)
(* interactive_config.py:77-107 with any callbacks after it *)
Inductive history (s0 : fig) : list (action * option exn) -> fig -> Prop :=
| h_start : history s0 [] s0
| h_step h s a s' e : history s0 h s -> offered s a -> step a s = (s', e) -> history s0 (h ++ [(a, e)]) s'.
End Figure.
Arguments fig : clear implicits.
