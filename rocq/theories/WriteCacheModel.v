(** Model of class WriteCache, src/sdanalysis/read/_read.py:31-79.

    The HDF5 file is the table stored under [group], [None] if there is none.  Contract
    assumed of [DataFrame.to_hdf(filename, group, format="table", append=a)]:
    - an empty DataFrame writes nothing (pandas/io/pytables.py returns before touching the
      node);
    - otherwise [a = False] replaces the table and [a = True] extends it;
    - or it raises, leaving the table as it was (the [fault] argument).
    Column dtypes and the row labels are not modelled. *)
From Coq Require Import ZArith List Bool.
From Verif Require Import Base.
Import ListNotations.
Open Scope Z_scope.

Section WriteCache.
  Context {A : Type}.

  (** _read.py:33-40.  [wc_named]: the file name is not None; [wc_group]: the group is not
      None (the check in [__attr_post_init__], 42-44, is never called: attrs looks for
      [__attrs_post_init__]). *)
  Record wcache : Type := {
    wc_named : bool;
    wc_group : bool;
    wc_mult : Z;
    wc_append : bool;
    wc_cache : list A;
    wc_emptied : Z
  }.
  (* _read.py:60 the table of the file *)
  Definition table := option (list A).

  (** _read.py:31-40, [WriteCache(filename, group, cache_multiplier, to_append)] *)
  Definition wc_new (named group : bool) (mult : Z) (to_append : bool) : wcache :=
    {| wc_named := named; wc_group := group; wc_mult := mult; wc_append := to_append;
       wc_cache := []; wc_emptied := 0 |}.

  (** _read.py:46-48; 8192 is [_cache_default], 39 *)
  Definition wc_size (w : wcache) : Z := wc_mult w * 8192.

  (** The contract of to_hdf above. *)
  (* _read.py:60 *)
  Definition to_hdf (app : bool) (rows : list A) (t : table) : table :=
    match rows with
    | [] => t
    | _ => if app then Some (match t with Some old => old | None => [] end ++ rows)
           else Some rows
    end.

  (** _read.py:57-66 [_flush_file] and [flush]; [fault] is the exception to_hdf raises if
      it is reached. *)
  Definition flush (fault : option exn) (w : wcache) (t : table) : (wcache * table) + exn :=
    if negb (wc_named w) then inr AssertionError
    else if negb (wc_group w) then inr AssertionError
    else match fault with
         | Some e => inr e
         | None => inl ({| wc_named := wc_named w; wc_group := wc_group w; wc_mult := wc_mult w;
                           wc_append := true; wc_cache := []; wc_emptied := wc_emptied w |},
                        to_hdf (wc_append w) (wc_cache w) t)
         end.

  (* _read.py:55 *)
  Definition push (x : A) (w : wcache) : wcache :=
    {| wc_named := wc_named w; wc_group := wc_group w; wc_mult := wc_mult w;
       wc_append := wc_append w; wc_cache := wc_cache w ++ [x]; wc_emptied := wc_emptied w |}.

  (** _read.py:50-55 [append] *)
  Definition append (x : A) (fault : option exn) (w : wcache) (t : table)
    : (wcache * table) + exn :=
    if negb (match wc_cache w with [] => true | _ => false end)
       && (Z.of_nat (length (wc_cache w)) =? wc_size w)
    then match flush fault w t with
         | inr e => inr e
         | inl (w', t') =>
             inl (push x {| wc_named := wc_named w'; wc_group := wc_group w';
                            wc_mult := wc_mult w'; wc_append := wc_append w';
                            wc_cache := wc_cache w'; wc_emptied := wc_emptied w' + 1 |}, t')
         end
    else inl (push x w, t).

  (** _read.py:74-76 [__len__] *)
  Definition wc_len (w : wcache) : Z :=
    wc_size w * wc_emptied w + Z.of_nat (length (wc_cache w)).

  (** _read.py:78-79 [to_dataframe] *)
  Definition to_dataframe (w : wcache) : list A := wc_cache w.
End WriteCache.
Arguments wcache : clear implicits.
Arguments table : clear implicits.
