(** Model of process_file, src/sdanalysis/read/_read.py:82-195.

    The per-frame computations are parameters, so that everything proved here holds for
    any implementation of them:
    - [mk f]      the pair (Dynamics.from_frame(...), Relaxations.from_frame(...)), 138-139
    - [custom]    relax.set_mol_relax(mol_relaxations) if definitions were given, 142-144
    - [compute]   dyn.compute_all(...), 147-152, which changes [dyn] even when it raises
    - [radd]      relax.add(...), 153, likewise
    - [label]     the columns keyframe, temperature, pressure, 159-167; float() may raise
    Storage is the WriteCache model without write faults.  Logging is not modelled. *)
From Coq Require Import ZArith List Bool.
From Verif Require Import Base WriteCacheModel.
Import ListNotations.
Open Scope Z_scope.

(** _read.py:154 [except (ValueError, RuntimeError)] *)
Definition skipped (e : exn) : bool :=
  match e with ValueError | RuntimeError => true | _ => false end.

Section Process.
  Context {D R F Row Out Sum : Type}.
  Variable npos : F -> nat.                       (* frame.position.shape[0] *)
  Variable mk : F -> (D * R) + exn.
  Variable custom : option (R -> R * option exn).
  Variable compute : D -> F -> D * (Row + exn).
  Variable radd : R -> F -> R * option exn.
  Variable label : nat -> Row -> Out + exn.
  Variable summary : R -> Sum.                    (* Relaxations.summary *)

  (* _read.py:112-117 the variables of the loop *)
  Record pstate : Type := {
    ps_keys : dict nat (D * R);                   (* keyframes *)
    ps_cache : wcache (nat * Out);                (* dataframes *)
    ps_table : table (nat * Out)                  (* the file *)
  }.

  (* _read.py:135-153 the changed objects of a key frame *)
  Definition set_key (k : nat) (x : D * R) (s : pstate) : pstate :=
    {| ps_keys := dset Nat.eqb k x (ps_keys s); ps_cache := ps_cache s; ps_table := ps_table s |}.

  (** _read.py:135-168: one index of one frame.  [Some e] aborts process_file. *)
  Definition visit (k : nat) (f : F) (s : pstate) : pstate * option exn :=
    match mk f with                               (* evaluated even if the key exists *)
    | inr e => (s, Some e)
    | inl new =>
        let (d, r) := match dget Nat.eqb k (ps_keys s) with Some x => x | None => new end in
        let s := set_key k (d, r) s in
        let (r, e) := match custom with Some g => g r | None => (r, None) end in
        let s := set_key k (d, r) s in
        match e with
        | Some e => (s, Some e)
        | None =>
            let (d, res) := compute d f in
            let s := set_key k (d, r) s in
            match res with
            | inr e => if skipped e then (s, None) else (s, Some e)
            | inl row =>
                let (r, e) := radd r f in
                let s := set_key k (d, r) s in
                match e with
                | Some e => if skipped e then (s, None) else (s, Some e)
                | None =>
                    match label k row with
                    | inr e => (s, Some e)
                    | inl row =>
                        match append (k, row) None (ps_cache s) (ps_table s) with
                        | inr e => (s, Some e)
                        | inl (w, t) =>
                            ({| ps_keys := ps_keys s; ps_cache := w; ps_table := t |}, None)
                        end
                    end
                end
            end
        end
    end.

  (** _read.py:134 [for index in indexes] *)
  Fixpoint visits (idx : list nat) (f : F) (s : pstate) : pstate * option exn :=
    match idx with
    | [] => (s, None)
    | k :: idx' => match visit k f s with
                   | (s', None) => visits idx' f s'
                   | x => x
                   end
    end.

  (** _read.py:128-168: the loop over the file; [fin] is how the iterator ends. *)
  Fixpoint frames (l : list (list nat * F)) (fin : option exn) (s : pstate) : pstate * option exn :=
    match l with
    | [] => (s, fin)
    | (idx, f) :: l' =>
        if (npos f =? 0)%nat then frames l' fin s          (* 129-131 *)
        else match visits idx f s with
             | (s', None) => frames l' fin s'
             | x => x
             end
    end.

  (** What process_file returns and leaves on disk. *)
  (* _read.py:175-195 what a call leaves and returns *)
  Record outcome : Type := {
    out_result : option (list (nat * Out)) + exn;          (* returned DataFrame or None *)
    out_table : table (nat * Out);                         (* table "dynamics" *)
    out_relax : option (list (nat * Sum))                  (* table "molecular_relaxations" *)
  }.

  (** _read.py:108-195.  [reader = None] stands for an unknown file suffix (118-127: file_iterator is
      never assigned); [vars] is the exception of get_filename_vars, 111, if it raises;
      [floats] the exception of float(temperature) / float(pressure), 180-187. *)
  Definition process_file (outfile : bool) (vars floats : option exn)
             (reader : option (list (list nat * F) * option exn))
             (t0 : table (nat * Out)) (r0 : option (list (nat * Sum))) : outcome :=
    let fail e t := {| out_result := inr e; out_table := t; out_relax := r0 |} in
    match vars with
    | Some e => fail e t0
    | None =>
        match reader with
        | None => fail UnboundLocalError t0
        | Some (l, fin) =>
            let s0 := {| ps_keys := []; ps_cache := wc_new outfile true 1 false; ps_table := t0 |} in
            match frames l fin s0 with
            | (s, Some e) => fail e (ps_table s)
            | (s, None) =>
                if outfile then
                  match flush None (ps_cache s) (ps_table s) with     (* 176 *)
                  | inr e => fail e (ps_table s)
                  | inl (_, t) =>
                      match ps_keys s with
                      | [] => fail ValueError t                       (* pandas.concat of nothing *)
                      | ks => match floats with
                              | Some e => fail e t
                              | None => {| out_result := inl None; out_table := t;
                                           out_relax := Some (map (fun p => (fst p, summary (snd (snd p)))) ks) |}
                              end
                      end
                  end
                else match to_dataframe (ps_cache s) with
                     | [] => fail AssertionError (ps_table s)         (* 194 *)
                     | rows => {| out_result := inl (Some rows); out_table := ps_table s;
                                  out_relax := r0 |}
                     end
            end
        end
    end.
End Process.
Arguments pstate : clear implicits.
Arguments outcome : clear implicits.
