(** Model of src/sdanalysis/read/_gsd.py and of open_trajectory in read/_read.py.

    A gsd file is modelled by the outcomes of reading its frames, see [raw].  The
    content of a frame other than its timestep is an arbitrary payload. *)
From Coq Require Import ZArith List Bool.
From Verif Require Import Base StepSizeModel.
Import ListNotations.
Open Scope Z_scope.

Section Gsd.
  Context {P : Type}.

  (** Outcome of [trajectory[i]] (gsd.hoomd.HOOMDTrajectory.__getitem__) and of
      constructing [HoomdFrame] from it (frame.py:129-156).
      [Good step (inl p)]: a snapshot with [configuration.step = step] and content [p];
      [Good step (inr e)]: the snapshot can be read but HoomdFrame raises [e];
      [Corrupt]: reading raises RuntimeError;  [Broken e]: reading raises [e]. *)
  Inductive raw : Type :=
  | Good (step : Z) (content : P + exn)
  | Corrupt
  | Broken (e : exn).

  (** A HoomdFrame: its timestep (frame.py:186-188) and its content. *)
  Definition frame : Type := (Z * P)%type.
  (* frame.py:187-188 *)
  Definition timestep (f : frame) : Z := fst f.

  (** What a consumer of a generator sees: the items, then either normal exhaustion
      ([None]) or an exception. *)
  (* _gsd.py:31-52 what a generator yields, and how it ends *)
  Record stream (A : Type) : Type := { items : list A; ending : option exn }.
  Arguments items {A}.
  Arguments ending {A}.

  (* _gsd.py:50 yield *)
  Definition cons_item {A} (x : A) (s : stream A) : stream A :=
    {| items := x :: items s; ending := ending s |}.
  (* _gsd.py:52, 116 the end of a generator *)
  Definition ended {A} (e : option exn) : stream A := {| items := []; ending := e |}.

  (** [HoomdFrame(trajectory[index])]: lines 50 of _gsd.py, 234 of _read.py. *)
  Definition read_frame (r : raw) : frame + exn :=
    match r with
    | Good s (inl p) => inl (s, p)
    | Good _ (inr e) => inr e
    | Corrupt => inr RuntimeError
    | Broken e => inr e
    end.

  (* _gsd.py:51, 77 except RuntimeError *)
  Definition is_runtime (e : exn) : bool :=
    match e with RuntimeError => true | _ => false end.

  (** _gsd.py:31-52 [iter_trajectory]. *)
  Fixpoint iter_trajectory (t : list raw) : stream frame :=
    match t with
    | [] => ended None
    | r :: t' =>
        match read_frame r with
        | inl f => cons_item f (iter_trajectory t')
        | inr e => if is_runtime e then iter_trajectory t' else ended (Some e)
        end
    end.

  (** HOOMDTrajectory.__getitem__ for an integer key, negative from the end. *)
  (* _gsd.py:75 *)
  Definition traj_step (t : list raw) (i : Z) : Z + exn :=
    let n := Z.of_nat (length t) in
    let j := if i <? 0 then i + n else i in
    if (j <? 0) || (n <=? j) then inr IndexError
    else match nth_error t (Z.to_nat j) with
         | Some (Good s _) => inl s
         | Some Corrupt => inr RuntimeError
         | Some (Broken e) => inr e
         | None => inr IndexError
         end.

  (** _gsd.py:73-81: the retry loop; an exception other than RuntimeError (IndexError
      is re-raised explicitly) leaves the function. *)
  Fixpoint num_steps_loop (retries : nat) (i : Z) (t : list raw) : Z + exn :=
    match retries with
    | O => inr RuntimeError                                  (* line 88 *)
    | S r => match traj_step t i with
             | inl s => inl s
             | inr e => if is_runtime e then num_steps_loop r (i - 1) t else inr e
             end
    end.

  (** _gsd.py:55-88 [_get_num_steps]. *)
  Definition get_num_steps (t : list raw) : Z + exn := num_steps_loop 10 (-1) t.

  (** _gsd.py:101-116: loop of [_gsd_linear_trajectory].  The index list is one
      mutable list: the second component is its final content, which is what a
      consumer sees that looks at a yielded list only after the iteration. *)
  Fixpoint linear_loop (smax : option Z) (K M : Z) (fs : list frame) (fin : option exn)
           (idx : list nat) : stream (list nat * frame) * list nat :=
    match fs with
    | [] => (ended fin, idx)
    | f :: fs' =>
        if K =? 0 then (ended (Some ZeroDivisionError), idx)
        else
          let idx := if (timestep f mod K =? 0) && (Z.of_nat (length idx) <=? M)
                     then idx ++ [length idx] else idx in
          match smax with
          | Some m => if timestep f >? m then (ended None, idx)
                      else let (s, i) := linear_loop smax K M fs' fin idx in
                           (cons_item (idx, f) s, i)
          | None => let (s, i) := linear_loop smax K M fs' fin idx in
                    (cons_item (idx, f) s, i)
          end
    end.

  (** _gsd.py:91-116 [_gsd_linear_trajectory]. *)
  Definition linear_trajectory (smax : option Z) (K M : Z) (t : list raw)
    : stream (list nat * frame) * list nat :=
    let s := iter_trajectory t in linear_loop smax K M (items s) (ending s) [].

  (** _gsd.py:162-166: [while frame.timestep < curr_step: frame = next(traj_iter)].
      [None]: the trajectory ended. *)
  Fixpoint skip_frames (c : Z) (f : frame) (rest : list frame) : option (frame * list frame) :=
    if timestep f <? c
    then match rest with
         | [] => None
         | f' :: rest' => skip_frames c f' rest'
         end
    else Some (f, rest).

  (** _gsd.py:178-182: [while curr_step < frame.timestep: curr_step = next(step_iter)].
      [Ok None]: the step series ended. *)
  Fixpoint skip_steps (fuel k : nat) (c ts : Z) (s : series) : result (option (Z * series)) :=
    match k with
    | O => OutOfFuel
    | S k' =>
        if c <? ts
        then match series_next fuel s with
             | Ok (Some (c', s')) => skip_steps fuel k' c' ts s'
             | Ok None => Ok None
             | Raise e => Raise e
             | OutOfFuel => OutOfFuel
             end
        else Ok (Some (c, s))
    end.

  (** _gsd.py:142-189: the loop of [_gsd_exponential_trajectory].  [smax] is never None
      here (line 131).  The stopping condition of line 185 and the comparison of
      line 188 are evaluated on the values after catching up. *)
  Fixpoint exp_loop_gsd (fuel k : nat) (smax : Z) (s : series) (fs : list frame)
           (fin : option exn) : result (stream (list nat * frame)) :=
    match k with
    | O => OutOfFuel
    | S k' =>
        match fs with
        | [] => Ok (ended fin)
        | f :: rest =>
            match series_next fuel s with                            (* lines 144-148 *)
            | OutOfFuel => OutOfFuel
            | Raise e => Ok (ended (Some e))
            | Ok None => Ok (ended None)
            | Ok (Some (c, s)) =>
                let finish c s f rest :=
                  if c >? smax then Ok (ended None)                  (* lines 185-186 *)
                  else match exp_loop_gsd fuel k' smax s rest fin with
                       | Ok out => Ok (if c =? timestep f             (* lines 188-189 *)
                                       then cons_item (get_index s, f) out else out)
                       | Raise e => Raise e
                       | OutOfFuel => OutOfFuel
                       end in
                if c >? timestep f then                              (* lines 154-166 *)
                  match skip_frames c f rest with
                  | None => Ok (ended fin)
                  | Some (f', rest') => finish c s f' rest'
                  end
                else if c <? timestep f then                         (* lines 170-182 *)
                  match skip_steps fuel fuel c (timestep f) s with
                  | OutOfFuel => OutOfFuel
                  | Raise e => Ok (ended (Some e))
                  | Ok None => Ok (ended None)
                  | Ok (Some (c', s')) => finish c' s' f rest
                  end
                else finish c s f rest
            end
        end
    end.

  (** _gsd.py:119-189 [_gsd_exponential_trajectory]. *)
  Definition exponential_trajectory (fuel k : nat) (smax : option Z) (K M n : Z) (t : list raw)
    : result (stream (list nat * frame)) :=
    match (match smax with Some m => inl m | None => get_num_steps t end) with
    | inr e => Ok (ended (Some e))
    | inl m =>
        match series_init fuel m n K M with
        | OutOfFuel => OutOfFuel
        | Raise e => Ok (ended (Some e))
        | Ok s => let fs := iter_trajectory t in
                  exp_loop_gsd fuel k m s (items fs) (ending fs)
        end
    end.

  (** _gsd.py:192-209 [read_gsd_trajectory]. *)
  Definition read_gsd_trajectory (fuel k : nat) (smax lin : option Z) (K M : Z) (t : list raw)
    : result (stream (list nat * frame)) :=
    match lin with
    | None => Ok (fst (linear_trajectory smax K M t))
    | Some n => exponential_trajectory fuel k smax K M n t
    end.

  (** Values of the [progressbar] argument. *)
  (* _read.py:221-230 the values of progressbar which are told apart *)
  Inductive progress : Set := PbNone | PbTrue | PbNotebook | PbOther.

  (** [range(i, len, k)] for [k >= 1]. *)
  (* _read.py:222, 224, 226 range(0, len(trj), frame_interval) *)
  Fixpoint range_from (fuel : nat) (i len k : Z) : list Z :=
    match fuel with
    | O => []
    | S fuel' => if i <? len then i :: range_from fuel' (i + k) len k else []
    end.

  (* _read.py:232-237 *)
  Fixpoint read_indices (t : list raw) (idx : list Z) : stream frame :=
    match idx with
    | [] => ended None
    | i :: idx' =>
        match nth_error t (Z.to_nat i) with
        | None => ended (Some IndexError)
        | Some r => match read_frame r with
                    | inl f => cons_item f (read_indices t idx')
                    | inr e => if is_runtime e then read_indices t idx' else ended (Some e)
                    end
        end
    end.

  (** _read.py:198-237 [open_trajectory] on a gsd file.  [range] with step 0 raises
      ValueError; with a negative step it is empty.  tqdm wrappers iterate the same. *)
  Definition open_gsd (pb : progress) (k : Z) (t : list raw) : stream frame :=
    match pb with
    | PbOther => ended (Some ValueError)
    | _ =>
        if k =? 0 then ended (Some ValueError)
        else if k <? 0 then ended None
        else let n := Z.of_nat (length t) in
             read_indices t (range_from (length t) 0 n k)
    end.
End Gsd.
Arguments items {A}.
Arguments ending {A}.
Arguments raw : clear implicits.
Arguments frame : clear implicits.
