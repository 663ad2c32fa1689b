(** Model of src/sdanalysis/dynamics/relaxations.py.

    Distances are 1-dimensional arrays of exact extended numbers ([XNum.xnum]): the code
    only compares them.  Times are integers ([numpy int64] overflow is not modelled). *)
From Coq Require Import String ZArith QArith List Bool.
From Verif Require Import Base XNum.
Import ListNotations.
Open Scope Z_scope.

(** relaxations.py:35-37 *)
Inductive rtype : Set := rotation | translation.

(** relaxations.py:190, 198 [_max_value] *)
Definition max_value : Z := 2 ^ 32 - 1.

(** Objects of class MolecularRelaxation (187-221) and, with [mr_last = Some (state,
    irreversibility)], LastMolecularRelaxation (224-294). *)
(* relaxations.py:193-207, 227-236 *)
Record molrel : Set := {
  mr_threshold : xnum;
  mr_status : list Z;
  mr_type : rtype;
  mr_last : option (list nat * xnum)
}.

(** relaxations.py:193-207 [MolecularRelaxation.__init__] *)
Definition first_init (n : nat) (thr : xnum) (ty : rtype) : molrel :=
  {| mr_threshold := thr; mr_status := repeat max_value n; mr_type := ty; mr_last := None |}.

(** relaxations.py:227-236 [LastMolecularRelaxation.__init__] *)
Definition last_init (n : nat) (thr irr : xnum) (ty : rtype) : molrel :=
  {| mr_threshold := thr; mr_status := repeat max_value n; mr_type := ty;
     mr_last := Some (repeat 0%nat n, irr) |}.

(** numpy: elementwise binary operation, and [a[mask] = v]. *)
(* relaxations.py:216-218, 278 element by element operations *)
Fixpoint zip_with {A B C} (f : A -> B -> C) (l : list A) (m : list B) : list C :=
  match l, m with
  | x :: l', y :: m' => f x y :: zip_with f l' m'
  | _, _ => []
  end.
(* relaxations.py:218, 279-280 assignment through a boolean mask *)
Definition set_where {A} (mask : list bool) (v : A) (a : list A) : list A :=
  zip_with (fun b x => if b : bool then v else x) mask a.

(** relaxations.py:215-218 *)
Definition first_update (thr : xnum) (t : Z) (dist : list xnum) (status : list Z) : list Z :=
  let moved := map (fun d => xgt d thr) dist in
  let moveable := map (fun s => s >? t) status in
  set_where (zip_with andb moved moveable) t status.

(** relaxations.py:276-289 *)
Definition last_update (thr irr : xnum) (t : Z) (dist : list xnum) (status : list Z)
           (state : list nat) : list Z * list nat :=
  let passed := zip_with (fun d s => xgt d thr && (s =? 0)%nat) dist state in
  let state := set_where passed 1%nat state in
  let status := set_where passed t status in
  let below := zip_with (fun d s => xlt d thr && (s =? 1)%nat) dist state in
  let state := set_where below 0%nat state in
  let irreversible := zip_with (fun d s => xgt d irr && (s =? 1)%nat) dist state in
  let state := set_where irreversible 2%nat state in
  (status, state).

(** relaxations.py:209-218 and 238-289 [add] *)
Definition mr_add (t : Z) (dist : list xnum) (r : molrel) : molrel + exn :=
  if negb (length dist =? length (mr_status r))%nat then inr RuntimeError
  else match mr_last r with
       | None => inl {| mr_threshold := mr_threshold r;
                        mr_status := first_update (mr_threshold r) t dist (mr_status r);
                        mr_type := mr_type r; mr_last := None |}
       | Some (state, irr) =>
           let (status, state) := last_update (mr_threshold r) irr t dist (mr_status r) state in
           inl {| mr_threshold := mr_threshold r; mr_status := status;
                  mr_type := mr_type r; mr_last := Some (state, irr) |}
       end.

(** relaxations.py:220-221 and 291-294 [get_status] *)
Definition get_status (r : molrel) : list Z :=
  match mr_last r with
  | None => mr_status r
  | Some (state, _) =>
      set_where (map (fun s => negb (s =? 2)%nat) state) max_value (mr_status r)
  end.

(** relaxations.py:308-335 [create_mol_relaxations]; [ty] is the string passed as
    [relaxation_type]; [RelaxationType[ty]] raises KeyError for unknown names. *)
Definition type_of_name (s : string) : option rtype :=
  if String.eqb s "rotation" then Some rotation
  else if String.eqb s "translation" then Some translation else None.

(* relaxations.py:308-335 *)
Definition create_mol_relaxations (n : nat) (thr : xnum) (last : bool) (cut : option xnum)
           (ty : option string) : molrel + exn :=
  if xlt thr xzero then inr ValueError                                   (* 316-317 *)
  else
    let mk (f : rtype -> molrel) :=
      match ty with
      | None => inl (f translation)                                      (* 191, 201 *)
      | Some s => match type_of_name s with
                  | Some r => inl (f r)
                  | None => inr KeyError                                 (* 207 *)
                  end
      end in
    if last then
      match cut with
      | None => mk (last_init n thr (xtriple thr))                       (* 320-324 *)
      | Some c => if xlt c xzero then inr ValueError                     (* 325-329 *)
                  else mk (last_init n thr c)
      end
    else mk (first_init n thr).

(** YAML values as they appear in a relaxation definition. *)
(* relaxations.py:29 the values of a definition *)
Inductive yaml : Type :=
| YNone
| YBool (b : bool)
| YNum (x : xnum)
| YStr (s : string)
| YOther.                  (* lists, mappings, ... *)

(** The Python conversions; parsing and printing of numbers are parameters. *)
Section Conversions.
  Variable parse_float : string -> option xnum.
  Variable show : yaml -> string.

  (** [float(v)] *)
  (* relaxations.py:117, 119 *)
  Definition to_float (v : yaml) : xnum + exn :=
    match v with
    | YNum x => inl x
    | YBool b => inl (Fin (if b then 1 else 0))
    | YStr s => match parse_float s with Some x => inl x | None => inr ValueError end
    | YNone | YOther => inr TypeError
    end.
  (** [str(v)] *)
  (* relaxations.py:114, 122 *)
  Definition to_str (v : yaml) : string :=
    match v with YStr s => s | _ => show v end.
  (** [bool(v)] (empty containers are not distinguished) *)
  (* relaxations.py:118 *)
  Definition to_bool (v : yaml) : bool :=
    match v with
    | YNone => false
    | YBool b => b
    | YNum (Fin q) => negb (Qeq_bool q 0)
    | YNum _ => true
    | YStr s => negb (String.eqb s "")
    | YOther => true
    end.

  (** A definition: the value of each key, [None] if the key is missing. *)
  (* relaxations.py:109-122 the keys of a definition which are read *)
  Record definition : Type := {
    def_name : option yaml;
    def_threshold : option yaml;
    def_last : option yaml;
    def_cutoff : option yaml;
    def_type : option yaml
  }.

  (* relaxations.py:112, 115 item.get(...) is None *)
  Definition given (v : option yaml) : option yaml :=
    match v with Some YNone => None | x => x end.

  (** relaxations.py:112-130: one definition. *)
  Definition make_relax (n : nat) (d : definition) : (string * molrel) + exn :=
    match given (def_name d) with
    | None => inr ValueError
    | Some nm =>
        match given (def_threshold d) with
        | None => inr ValueError
        | Some th =>
            match to_float th with
            | inr e => inr e
            | inl thr =>
                let last := match def_last d with Some v => to_bool v | None => false end in
                match (match def_cutoff d with Some v => to_float v | None => inl (xtriple thr) end) with
                | inr e => inr e
                | inl cut =>
                    let ty := match def_type d with Some v => to_str v | None => "translation"%string end in
                    match create_mol_relaxations n thr last (Some cut) (Some ty) with
                    | inr e => inr e
                    | inl r => inl (to_str nm, r)
                    end
                end
            end
        end
    end.

  (** relaxations.py:109-130 [set_mol_relax]: the new [self.mol_relax] and the
      exception raised, if any. *)
  Fixpoint set_loop (n : nat) (defs : list definition) (acc : dict string molrel)
    : dict string molrel * option exn :=
    match defs with
    | [] => (acc, None)
    | d :: defs' =>
        match make_relax n d with
        | inr e => (acc, Some e)
        | inl (nm, r) => set_loop n defs' (dset String.eqb nm r acc)
        end
    end.
  (* relaxations.py:109-130 *)
  Definition set_mol_relax (n : nat) (defs : list definition) : dict string molrel * option exn :=
    set_loop n defs [].
End Conversions.

(** relaxations.py:66-81: the default definitions; [d] is [self.distance], and [p2],
    [p3], [p4] are the floats pi/2, pi/3, pi/4. *)
Definition default_definitions (d p2 p3 p4 : xnum) : list definition :=
  let str s := Some (YStr s) in
  let num x := Some (YNum x) in
  [ {| def_name := str "tau_D"%string; def_threshold := num (xtriple d); def_last := None;
       def_cutoff := None; def_type := None |};
    {| def_name := str "tau_F"%string; def_threshold := num d; def_last := None;
       def_cutoff := None; def_type := None |};
    {| def_name := str "tau_L"%string; def_threshold := num d; def_last := Some (YBool true);
       def_cutoff := num (xtriple d); def_type := None |};
    {| def_name := str "tau_T2"%string; def_threshold := num p2; def_last := None;
       def_cutoff := None; def_type := str "rotation"%string |};
    {| def_name := str "tau_T3"%string; def_threshold := num p3; def_last := None;
       def_cutoff := None; def_type := str "rotation"%string |};
    {| def_name := str "tau_T4"%string; def_threshold := num p4; def_last := None;
       def_cutoff := None; def_type := str "rotation"%string |} ].

(** The part of a Relaxations object that [add] uses after updating the motion. *)
(* relaxations.py:51-64, 110 the attributes of a Relaxations object *)
Record relaxations : Type := {
  rx_init_time : Z;
  rx_relax : dict string molrel
}.

(** relaxations.py:156-162: the loop of [add]; [disp] and [rot] are the magnitudes of the
    accumulated displacement and rotation (152-154).  An exception leaves the relaxations
    already visited updated. *)
Fixpoint relax_loop (t : Z) (disp rot : list xnum) (d : dict string molrel)
  : dict string molrel * option exn :=
  match d with
  | [] => ([], None)
  | (k, r) :: d' =>
      match mr_add t (match mr_type r with rotation => rot | translation => disp end) r with
      | inr e => ((k, r) :: d', Some e)
      | inl r' => let (d'', e) := relax_loop t disp rot d' in ((k, r') :: d'', e)
      end
  end.

(* relaxations.py:135-162 *)
Definition relaxations_add (ts : Z) (disp rot : list xnum) (x : relaxations)
  : relaxations * option exn :=
  let (d, e) := relax_loop (ts - rx_init_time x) disp rot (rx_relax x) in
  ({| rx_init_time := rx_init_time x; rx_relax := d |}, e).

(** relaxations.py:181-184 [summary]: one column per relaxation. *)
Definition summary (x : relaxations) : dict string (list Z) :=
  map (fun p => (fst p, get_status (snd p))) (rx_relax x).
