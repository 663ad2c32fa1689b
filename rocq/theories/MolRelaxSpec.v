(** Specification vocabulary for molecular relaxations. *)
From Coq Require Import String ZArith QArith List Bool.
From Verif Require Import Base XNum MolRelaxModel.
Import ListNotations.
Open Scope Z_scope.

(** A history of [add(timediff, distance)] calls. *)
Definition history := list (Z * list xnum).

(** A client that performs the calls, going on after an exception. *)
Definition observe (r : molrel) (h : history) : molrel :=
  fold_left (fun r c => match mr_add (fst c) (snd c) r with inl r' => r' | inr _ => r end) h r.

(** The (time, distance) pairs of molecule [i] among [n] in the accepted calls. *)
Definition seen (n i : nat) (h : history) : list (Z * xnum) :=
  flat_map (fun c => if (Datatypes.length (snd c) =? n)%nat then [(fst c, nth i (snd c) NaN)] else []) h.

(** [v] is the earliest time in [l] at which the distance exceeds [thr], at most 2^32-1. *)
Definition earliest (thr : xnum) (l : list (Z * xnum)) (v : Z) : Prop :=
  (v = 2 ^ 32 - 1 \/ exists d, In (v, d) l /\ xlt thr d = true) /\
  v <= 2 ^ 32 - 1 /\
  forall t d, In (t, d) l -> xlt thr d = true -> v <= t.

(** The call takes the molecule beyond threshold and cutoff.  (For cutoff >= threshold:
    beyond the cutoff.) *)
Definition escapes (thr cut : xnum) (c : Z * xnum) : Prop :=
  xlt cut (snd c) = true /\ xlt thr (snd c) = true.

(** [v] is the time of the last exit before the first escape:
    - without an escape it is 2^32-1;
    - otherwise the calls up to and including the first escape are [a ++ (v, d) :: b],
      where [(v, d)] is beyond the threshold, no later call of [b] is below the
      threshold, and no call of [a] after its last call below the threshold is beyond
      the threshold. *)
Definition last_exit (thr cut : xnum) (l : list (Z * xnum)) (v : Z) : Prop :=
  ((forall c, In c l -> ~ escapes thr cut c) /\ v = 2 ^ 32 - 1) \/
  (exists a d b post before e,
     l = (a ++ (v, d) :: b) ++ post /\
     a ++ (v, d) :: b = before ++ [e] /\ escapes thr cut e /\
     (forall c, In c before -> ~ escapes thr cut c) /\
     xlt thr d = true /\
     (forall c, In c b -> xlt (snd c) thr = false) /\
     exists a1 a2, a = a1 ++ a2 /\
       (a1 = [] \/ exists a0 c, a1 = a0 ++ [c] /\ xlt (snd c) thr = true) /\
       (forall c, In c a2 -> xlt thr (snd c) = false)).

(** The algorithm documented in relaxations.py:253-274 for one molecule: new status and
    state. *)
Definition documented (thr irr : xnum) (t : Z) (d : xnum) (status : Z) (state : nat) : Z * nat :=
  match state with
  | 0%nat => if xgt d thr then (t, 1%nat) else (status, 0%nat)
  | 1%nat => if xgt d irr then (status, 2%nat)
             else if xlt d thr then (status, 0%nat) else (status, 1%nat)
  | _ => (status, state)
  end.

Section Definitions.
  Variable parse_float : string -> option xnum.
  Variable show : yaml -> string.

  (** The requirements on a relaxation definition. *)
  Definition numeric (v : option yaml) (x : xnum) : Prop :=
    exists y, v = Some y /\
      match y with
      | YNum z => x = z
      | YBool b => x = Fin (if b then 1 else 0)%Q
      | YStr s => parse_float s = Some x
      | _ => False
      end.
  Definition shown (v : yaml) : string := match v with YStr s => s | _ => show v end.

  (** What Python takes for false. *)
  Inductive falsy : yaml -> Prop :=
  | falsy_none : falsy YNone
  | falsy_bool : falsy (YBool false)
  | falsy_zero q : (q == 0)%Q -> falsy (YNum (Fin q))
  | falsy_str : falsy (YStr ""%string).

  Record well_formed (d : definition) (name : string) (thr cut : xnum) (last : bool) (ty : rtype)
    : Prop := {
    wf_name : exists y, def_name d = Some y /\ y <> YNone /\ name = shown y;
    wf_threshold : numeric (def_threshold d) thr;
    wf_positive : xlt thr (Fin 0%Q) = false;
    wf_last : last = false <-> match def_last d with Some v => falsy v | None => True end;
    wf_cutoff : (def_cutoff d = None /\ cut = xtriple thr) \/ numeric (def_cutoff d) cut;
    wf_cutoff_positive : last = true -> xlt cut (Fin 0%Q) = false;
    wf_type : match def_type d with
              | None => ty = translation
              | Some v => (shown v = "rotation"%string /\ ty = rotation) \/
                          (shown v = "translation"%string /\ ty = translation)
              end
  }.

  (** A relaxation for [n] molecules without any recorded time. *)
  Definition fresh (n : nat) (thr cut : xnum) (last : bool) (ty : rtype) (r : molrel) : Prop :=
    mr_threshold r = thr /\ mr_type r = ty /\
    mr_status r = repeat (2 ^ 32 - 1) n /\
    mr_last r = (if last then Some (repeat 0%nat n, cut) else None) /\
    get_status r = repeat (2 ^ 32 - 1) n.
End Definitions.
