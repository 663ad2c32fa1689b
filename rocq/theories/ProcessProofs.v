(** Proofs about process_file. *)
From Coq Require Import ZArith List Bool Lia Arith.
From Verif Require Import Base DictFacts WriteCacheModel WriteCacheSpec WriteCacheProofs WriteCacheProps
  ProcessModel ProcessSpec.
Import ListNotations.
Open Scope Z_scope.

Lemma dset_dset {V} (k : nat) (a b : V) d : dset Nat.eqb k a (dset Nat.eqb k b d) = dset Nat.eqb k a d.
Proof.
  induction d as [|[k' v] d IH]; simpl.
  - rewrite Nat.eqb_refl. reflexivity.
  - destruct (Nat.eqb_spec k k') as [->|H]; simpl.
    + rewrite Nat.eqb_refl. reflexivity.
    + destruct (Nat.eqb_spec k k'); [congruence|]. rewrite IH. reflexivity.
Qed.

(** *** the cache under appends only *)
Section Cache.
  Context {A : Type}.
  Definition adds (rows : list A) : list (op A) := map (fun x => Add x None) rows.

  Lemma append_named (x : A) w t : wc_named w = true -> wc_group w = true ->
    exists w' t', append x None w t = inl (w', t') /\ wc_named w' = true /\ wc_group w' = true.
  Proof.
    intros H1 H2. unfold append, flush. rewrite H1, H2. simpl.
    destruct (negb _ && _); do 2 eexists; split; try reflexivity; simpl; auto.
  Qed.

  Lemma client_named rows : forall (w : wcache A) t, wc_named w = true -> wc_group w = true ->
    exists w' t', client (adds rows) w t = (w', t', rows) /\ wc_named w' = true /\ wc_group w' = true.
  Proof.
    induction rows as [|x rows IH]; intros w t H1 H2; simpl.
    - eauto.
    - destruct (append_named x w t H1 H2) as (w1 & t1 & E & G1 & G2). rewrite E.
      destruct (IH w1 t1 G1 G2) as (w2 & t2 & E2 & G). rewrite E2. eauto.
  Qed.

  Lemma client_adds_app r1 r2 : forall (w : wcache A) t w1 t1 a1 w2 t2 a2,
    client (adds r1) w t = (w1, t1, a1) -> client (adds r2) w1 t1 = (w2, t2, a2) ->
    client (adds (r1 ++ r2)) w t = (w2, t2, a1 ++ a2).
  Proof.
    induction r1 as [|x r1 IH]; intros w t w1 t1 a1 w2 t2 a2; simpl.
    - intros [= <- <- <-] H. exact H.
    - destruct (append x None w t) as [[w' t']|e].
      + destruct (client (adds r1) w' t') as [[w'' t''] rows] eqn:E. intros [= <- <- <-] H.
        rewrite (IH _ _ _ _ _ _ _ _ E H). reflexivity.
      + apply IH.
  Qed.

  (** A failing append stays failing. *)
  Lemma client_accepts (rows : list A) : forall w t w' t' a,
    client (adds rows) w t = (w', t', a) -> (length a <= length rows)%nat.
  Proof.
    induction rows as [|x rows IH]; intros w t w' t' a; simpl.
    - intros [= _ _ <-]. auto.
    - destruct (append x None w t) as [[w1 t1]|e].
      + destruct (client (adds rows) w1 t1) as [[w2 t2] r2] eqn:E. intros [= _ _ <-].
        apply IH in E. simpl. lia.
      + intros H. apply IH in H. lia.
  Qed.
End Cache.

Section Proofs.
  Context {D R F Row Out Sum : Type}.
  Variable npos : F -> nat.
  Variable mk : F -> (D * R) + exn.
  Variable custom : option (R -> R * option exn).
  Variable compute : D -> F -> D * (Row + exn).
  Variable radd : R -> F -> R * option exn.
  Variable label : nat -> Row -> Out + exn.

  Notation pst := (pstate D R Out).
  Notation visit := (visit mk custom compute radd label).
  Notation visits := (visits mk custom compute radd label).
  Notation frames := (frames npos mk custom compute radd label).

  (** One key frame meets one frame: new objects, row, exception. *)
  Definition solo (k : nat) (f : F) (x : option (D * R))
    : option (D * R) * option Out * option exn :=
    match mk f with
    | inr e => (x, None, Some e)
    | inl new =>
        let (d, r) := match x with Some y => y | None => new end in
        let (r, e) := match custom with Some g => g r | None => (r, None) end in
        match e with
        | Some e => (Some (d, r), None, Some e)
        | None =>
            let (d, res) := compute d f in
            match res with
            | inr e => (Some (d, r), None, if skipped e then None else Some e)
            | inl row =>
                let (r, e) := radd r f in
                match e with
                | Some e => (Some (d, r), None, if skipped e then None else Some e)
                | None => match label k row with
                          | inr e => (Some (d, r), None, Some e)
                          | inl o => (Some (d, r), Some o, None)
                          end
                end
            end
        end
    end.

  Definition put (k : nat) (x : option (D * R)) (d : dict nat (D * R)) : dict nat (D * R) :=
    match x with Some y => dset Nat.eqb k y d | None => d end.

  Lemma put_id k d : put k (dget Nat.eqb k d) d = d.
  Proof.
    unfold put. induction d as [|[k' v] d IH]; simpl; auto.
    destruct (Nat.eqb_spec k k') as [->|H]; simpl; rewrite ?Nat.eqb_refl; auto.
    destruct (dget Nat.eqb k d); auto. simpl. destruct (Nat.eqb_spec k k'); [congruence|].
    rewrite IH. reflexivity.
  Qed.

  Lemma visit_solo k f (s : pst) : visit k f s =
    let '(x, o, e) := solo k f (dget Nat.eqb k (ps_keys s)) in
    let s' := {| ps_keys := put k x (ps_keys s); ps_cache := ps_cache s; ps_table := ps_table s |} in
    match e, o with
    | Some e, _ => (s', Some e)
    | None, None => (s', None)
    | None, Some o => match append (k, o) None (ps_cache s) (ps_table s) with
                      | inr e => (s', Some e)
                      | inl (w, t) => ({| ps_keys := ps_keys s'; ps_cache := w; ps_table := t |}, None)
                      end
    end.
  Proof.
    unfold ProcessModel.visit, solo. destruct (mk f) as [new|e].
    2:{ rewrite put_id. destruct s; reflexivity. }
    destruct (match dget Nat.eqb k (ps_keys s) with Some x => x | None => new end) as [d r].
    destruct (match custom with Some g => g r | None => (r, None) end) as [r1 [e1|]];
      unfold set_key; cbn [ps_keys ps_cache ps_table]; rewrite ?dset_dset; [reflexivity|].
    destruct (compute d f) as [d1 [row|e]]; cbn [ps_keys ps_cache ps_table]; rewrite ?dset_dset.
    - destruct (radd r1 f) as [r2 [e2|]]; cbn [ps_keys ps_cache ps_table]; rewrite ?dset_dset.
      + destruct (skipped e2); reflexivity.
      + destruct (label k row); [|reflexivity]. reflexivity.
    - destruct (skipped e); reflexivity.
  Qed.

  (** *** flattening *)
  Definition vlist (l : list (list nat * F)) : list (nat * F) :=
    flat_map (fun p => if (npos (snd p) =? 0)%nat then [] else map (fun k => (k, snd p)) (fst p)) l.

  Fixpoint flat (l : list (nat * F)) (s : pst) : pst * option exn :=
    match l with
    | [] => (s, None)
    | (k, f) :: l' => match visit k f s with (s', None) => flat l' s' | x => x end
    end.

  Lemma flat_app l1 l2 : forall s,
    flat (l1 ++ l2) s = match flat l1 s with (s', None) => flat l2 s' | x => x end.
  Proof.
    induction l1 as [|[k f] l1 IH]; intros s; simpl; auto.
    destruct (visit k f s) as [s' [e|]]; auto.
  Qed.

  Lemma visits_flat idx f : forall s, visits idx f s = flat (map (fun k => (k, f)) idx) s.
  Proof.
    induction idx as [|k idx IH]; intros s; simpl; auto.
    destruct (visit k f s) as [s' [e|]]; auto.
  Qed.

  Lemma frames_flat l fin : forall s,
    frames l fin s = match flat (vlist l) s with (s', None) => (s', fin) | x => x end.
  Proof.
    induction l as [|[idx f] l IH]; intros s; simpl; auto.
    destruct (npos f =? 0)%nat; simpl; auto.
    rewrite flat_app, visits_flat. destruct (flat (map (fun k => (k, f)) idx) s) as [s' [e|]]; auto.
  Qed.

  (** *** the run without the cache *)
  Fixpoint pure (l : list (nat * F)) (d : dict nat (D * R))
    : dict nat (D * R) * list (nat * Out) * option exn :=
    match l with
    | [] => (d, [], None)
    | (k, f) :: l' =>
        let '(x, o, e) := solo k f (dget Nat.eqb k d) in
        let d := put k x d in
        match e with
        | Some e => (d, [], Some e)
        | None => let '(d', rows, e) := pure l' d in
                  (d', match o with Some o => (k, o) :: rows | None => rows end, e)
        end
    end.

  Lemma flat_pure l : forall s d rows e w t,
    pure l (ps_keys s) = (d, rows, e) ->
    client (adds rows) (ps_cache s) (ps_table s) = (w, t, rows) ->
    flat l s = ({| ps_keys := d; ps_cache := w; ps_table := t |}, e).
  Proof.
    induction l as [|[k f] l IH]; intros s d rows e w t Hp Hc; simpl in Hp.
    - injection Hp as <- <- <-. simpl in Hc. injection Hc as <- <-. destruct s; reflexivity.
    - simpl. rewrite visit_solo. destruct (solo k f (dget Nat.eqb k (ps_keys s))) as [[x o] e0].
      destruct e0 as [e0|].
      + injection Hp as <- <- <-. simpl in Hc. injection Hc as <- <-. reflexivity.
      + destruct (pure l (put k x (ps_keys s))) as [[d1 rows1] e1] eqn:Ep.
        destruct o as [o|]; injection Hp as <- <- <-.
        * simpl in Hc.
          destruct (append (k, o) None (ps_cache s) (ps_table s)) as [[w1 t1]|e2] eqn:Ea.
          -- destruct (client (adds rows1) w1 t1) as [[w2 t2] r2] eqn:Ec.
             injection Hc as <- <- ->. eapply IH; cbn [ps_keys ps_cache ps_table]; eauto.
          -- exfalso. change (client (adds rows1) (ps_cache s) (ps_table s) = (w, t, (k, o) :: rows1)) in Hc.
             apply client_accepts in Hc. simpl in Hc. lia.
        * eapply IH; cbn [ps_keys ps_cache ps_table]; eauto.
  Qed.

  Lemma flat_named l s d rows e : wc_named (ps_cache s) = true -> wc_group (ps_cache s) = true ->
    pure l (ps_keys s) = (d, rows, e) ->
    exists w t, client (adds rows) (ps_cache s) (ps_table s) = (w, t, rows) /\
                wc_named w = true /\ wc_group w = true /\
                flat l s = ({| ps_keys := d; ps_cache := w; ps_table := t |}, e).
  Proof.
    intros H1 H2 Hp. destruct (client_named rows _ (ps_table s) H1 H2) as (w & t & E & G1 & G2).
    exists w, t. split; [exact E|]. split; auto. split; auto. eapply flat_pure; eauto.
  Qed.

  (** Without a file: AssertionError at the row that does not fit. *)
  Lemma flat_overflow l : forall s d rows e,
    wc_named (ps_cache s) = false -> wc_mult (ps_cache s) = 1 ->
    Z.of_nat (length (wc_cache (ps_cache s))) <= 8192 ->
    pure l (ps_keys s) = (d, rows, e) ->
    8192 < Z.of_nat (length (wc_cache (ps_cache s)) + length rows) ->
    snd (flat l s) = Some AssertionError.
  Proof.
    induction l as [|[k f] l IH]; intros s d rows e Hn Hm Hl Hp Hr; simpl in Hp.
    - injection Hp as <- <- <-. simpl in Hr. lia.
    - simpl. rewrite visit_solo. destruct (solo k f (dget Nat.eqb k (ps_keys s))) as [[x o] e0].
      destruct e0 as [e0|]; [injection Hp as <- <- <-; simpl in Hr; lia|].
      destruct (pure l (put k x (ps_keys s))) as [[d1 rows1] e1] eqn:Ep.
      destruct o as [o|]; injection Hp as <- <- <-.
      + destruct (Z.eq_dec (Z.of_nat (length (wc_cache (ps_cache s)))) 8192) as [E|E].
        * rewrite append_full; auto; [|unfold wc_size; rewrite Hm; exact E].
          intros E'. rewrite E' in E. discriminate.
        * rewrite append_room by (right; unfold wc_size; rewrite Hm; exact E).
          eapply IH; cbn [ps_keys ps_cache ps_table push wc_cache wc_named wc_mult]; eauto;
            rewrite app_length; cbn [length] in *; lia.
      + eapply IH; cbn [ps_keys ps_cache ps_table]; eauto.
  Qed.

  (** *** key frames are independent *)
  Lemma pure_key k l : forall d d', dget Nat.eqb k d = dget Nat.eqb k d' ->
    forall d1 rows, pure l d = (d1, rows, None) ->
    exists d1', pure (filter (fun p => Nat.eqb k (fst p)) l) d' = (d1', key_rows k rows, None) /\
                dget Nat.eqb k d1' = dget Nat.eqb k d1.
  Proof.
    assert (Hput : forall k' x d, dget Nat.eqb k (put k' x d) =
              if Nat.eqb k k' then (match x with Some y => Some y | None => dget Nat.eqb k d end)
              else dget Nat.eqb k d).
    { intros k' [y|] d; simpl; [|destruct (Nat.eqb k k'); auto].
      destruct (Nat.eqb_spec k k') as [->|H].
      - apply dget_dset_same. apply Nat.eqb_eq.
      - apply dget_dset_other; auto. apply Nat.eqb_eq. }
    induction l as [|[k' f] l IH]; intros d d' Hd d1 rows; simpl.
    - intros [= <- <-]. exists d'. auto.
    - destruct (solo k' f (dget Nat.eqb k' d)) as [[x o] e] eqn:Es.
      destruct e as [e|]; [discriminate|].
      destruct (pure l (put k' x d)) as [[d2 rows2] e2] eqn:Ep. intros [= <- <- ->].
      destruct (Nat.eqb_spec k k') as [<-|Hk]; simpl.
      + rewrite Hd in Es. rewrite Es.
        assert (Hp : dget Nat.eqb k (put k x d) = dget Nat.eqb k (put k x d')).
        { rewrite !Hput, Nat.eqb_refl, Hd. reflexivity. }
        destruct (IH _ _ Hp _ _ Ep) as (d1' & E1 & E2).
        exists d1'. rewrite E1. split; auto.
        destruct o as [o|]; simpl; rewrite ?Nat.eqb_refl; reflexivity.
      + assert (Hp : dget Nat.eqb k (put k' x d) = dget Nat.eqb k d').
        { rewrite Hput. destruct (Nat.eqb_spec k k'); [congruence|exact Hd]. }
        destruct (IH _ _ Hp _ _ Ep) as (d1' & E1 & E2).
        exists d1'. rewrite E1. split; auto.
        destruct o as [o|]; simpl; auto. destruct (Nat.eqb_spec k k'); [congruence|reflexivity].
  Qed.

  Lemma vlist_restrict k l : vlist (restrict k l) = filter (fun p => Nat.eqb k (fst p)) (vlist l).
  Proof.
    unfold restrict. induction l as [|[idx f] l IH]; simpl; auto.
    rewrite filter_app, <- IH.
    assert (Hf : filter (fun p : nat * F => Nat.eqb k (fst p)) (map (fun k' => (k', f)) idx) =
                 map (fun k' => (k', f)) (filter (Nat.eqb k) idx)).
    { clear. induction idx as [|a idx IHi]; simpl; auto. destruct (Nat.eqb k a); simpl; congruence. }
    destruct (existsb (Nat.eqb k) idx) eqn:Ex; simpl.
    - destruct (npos f =? 0)%nat; simpl; auto. rewrite Hf. reflexivity.
    - assert (Hn : filter (Nat.eqb k) idx = []).
      { clear - Ex. induction idx as [|a idx IHi]; simpl in *; auto.
        apply orb_false_elim in Ex as [E1 E2]. rewrite E1. auto. }
      destruct (npos f =? 0)%nat; simpl; auto. rewrite Hf, Hn. reflexivity.
  Qed.

  Lemma pure_none_flat l s : wc_named (ps_cache s) = true -> wc_group (ps_cache s) = true ->
    snd (flat l s) = snd (pure l (ps_keys s)).
  Proof.
    intros H1 H2. destruct (pure l (ps_keys s)) as [[d rows] e] eqn:E.
    destruct (flat_named l s d rows e H1 H2 E) as (w & t & _ & _ & _ & ->). reflexivity.
  Qed.

  (** *** rows and times *)
  Lemma pure_app l1 l2 : forall d, pure (l1 ++ l2) d =
    let '(d1, r1, e1) := pure l1 d in
    match e1 with
    | Some e => (d1, r1, Some e)
    | None => let '(d2, r2, e2) := pure l2 d1 in (d2, r1 ++ r2, e2)
    end.
  Proof.
    induction l1 as [|[k f] l1 IH]; intros d; simpl.
    - destruct (pure l2 d) as [[d2 r2] e2]. reflexivity.
    - destruct (solo k f (dget Nat.eqb k d)) as [[x o] [e|]]; auto.
      rewrite IH. destruct (pure l1 (put k x d)) as [[d1 r1] [e1|]]; auto.
      destruct (pure l2 d1) as [[d2 r2] e2]. destruct o; reflexivity.
  Qed.

  Section Times.
    Variable (start : D -> Z) (ts : F -> Z) (time : Out -> Z).
    Hypothesis Hmk : forall f d r, mk f = inl (d, r) -> start d = ts f.
    Hypothesis Hkeep : forall d f, start (fst (compute d f)) = start d.
    Hypothesis Htime : forall d f row k o,
      snd (compute d f) = inl row -> label k row = inl o -> time o = ts f - start d.

    Lemma solo_time k f x x' o e : solo k f x = (x', o, e) ->
      (forall o', o = Some o' -> exists d r, x' = Some (d, r) /\ time o' = ts f - start d) /\
      (forall d r, x = Some (d, r) -> exists d' r', x' = Some (d', r') /\ start d' = start d) /\
      (x = None -> x' = None \/ exists d' r', x' = Some (d', r') /\ start d' = ts f).
    Proof.
      unfold solo. destruct (mk f) as [[dn rn]|e0] eqn:Em.
      2:{ intros [= <- <- <-]. split; [discriminate|]. split; [intros d r ->; eauto|auto]. }
      assert (Hn := Hmk _ _ _ Em).
      assert (Hd : forall d r, (d, r) = match x with Some y => y | None => (dn, rn) end ->
                forall x1 o1 e1,
                (let (r, e) := match custom with Some g => g r | None => (r, None) end in
                 match e with
                 | Some e => (Some (d, r), None, Some e)
                 | None =>
                     let (d, res) := compute d f in
                     match res with
                     | inr e => (Some (d, r), None, if skipped e then None else Some e)
                     | inl row =>
                         let (r, e) := radd r f in
                         match e with
                         | Some e => (Some (d, r), None, if skipped e then None else Some e)
                         | None => match label k row with
                                   | inr e => (Some (d, r), None, Some e)
                                   | inl o => (Some (d, r), Some o, None)
                                   end
                         end
                     end
                 end) = (x1, o1, e1) ->
                exists d1 r1, x1 = Some (d1, r1) /\ start d1 = start d /\
                  forall o', o1 = Some o' -> time o' = ts f - start d1).
      { intros d r _ x1 o1 e1.
        destruct (match custom with Some g => g r | None => (r, None) end) as [r1 [ec|]].
        - intros [= <- <- <-]. do 2 eexists. split; [reflexivity|]. split; auto. discriminate.
        - assert (K := Hkeep d f). assert (T := Htime d f).
          destruct (compute d f) as [d1 [row|ec]]; simpl in K, T.
          + destruct (radd r1 f) as [r2 [er|]].
            * intros [= <- <- <-]. do 2 eexists. split; [reflexivity|]. split; auto. discriminate.
            * destruct (label k row) as [o0|el] eqn:El; intros [= <- <- <-];
                do 2 eexists; (split; [reflexivity|]); (split; [exact K|]); try discriminate.
              intros o' [= <-]. rewrite K. eapply T; eauto.
          + intros [= <- <- <-]. do 2 eexists. split; [reflexivity|]. split; auto. discriminate. }
      destruct x as [[d r]|].
      - intros H. destruct (Hd d r eq_refl _ _ _ H) as (d1 & r1 & -> & A & B).
        split; [intros o' Ho; exists d1, r1; auto|]. split.
        + intros d0 r0 [= <- <-]. eauto.
        + discriminate.
      - intros H. destruct (Hd dn rn eq_refl _ _ _ H) as (d1 & r1 & -> & A & B).
        split; [intros o' Ho; exists d1, r1; auto|]. split; [discriminate|].
        intros _. right. exists d1, r1. split; auto. congruence.
    Qed.

    Definition kframes k (l : list (nat * F)) : list F :=
      map snd (filter (fun p => Nat.eqb k (fst p)) l).

    (** [d0] knows the key already, or not. *)
    Lemma pure_times k l : forall d t0,
      (forall x r, dget Nat.eqb k d = Some (x, r) -> start x = t0) ->
      (dget Nat.eqb k d = None -> match kframes k l with f :: _ => ts f = t0 | [] => True end) ->
      let '(_, rows, _) := pure l d in
      exists fs, subseq fs (kframes k l) /\
        map (fun p => time (snd p)) (key_rows k rows) = map (fun f => ts f - t0) fs.
    Proof.
      induction l as [|[k' f] l IH]; intros d t0 Hs Hf; simpl.
      - exists []. split; [constructor|reflexivity].
      - destruct (solo k' f (dget Nat.eqb k' d)) as [[x o] e] eqn:Es.
        destruct (solo_time _ _ _ _ _ _ Es) as (S1 & S2 & S3).
        assert (Sub0 : forall (m : list F), subseq [] m).
        { induction m; constructor; auto. }
        destruct e as [e|].
        { exists []. split; [apply Sub0|reflexivity]. }
        assert (Hno : dget Nat.eqb k' d = None -> x = None -> False).
        { clear - Es. unfold solo in Es. intros H ->. rewrite H in Es. destruct (mk f) as [[dn rn]|]; [|discriminate].
          destruct (match custom with Some g => g rn | None => (rn, None) end) as [r1 [ec|]]; [discriminate|].
          destruct (compute dn f) as [d1 [row|ec]]; [|discriminate].
          destruct (radd r1 f) as [r2 [er|]]; [discriminate|].
          destruct (label k' row); discriminate. }
        assert (Hput : dget Nat.eqb k (put k' x d) =
                  if Nat.eqb k k' then (match x with Some y => Some y | None => dget Nat.eqb k d end)
                  else dget Nat.eqb k d).
        { destruct x as [y|]; simpl; [|destruct (Nat.eqb k k'); auto].
          destruct (Nat.eqb_spec k k') as [->|H].
          - apply dget_dset_same. apply Nat.eqb_eq.
          - apply dget_dset_other; auto. apply Nat.eqb_eq. }
        unfold kframes in *. simpl in Hf. simpl filter.
        destruct (Nat.eqb_spec k k') as [<-|Hk].
        + assert (Hx : exists d' r', x = Some (d', r') /\ start d' = t0).
          { destruct (dget Nat.eqb k d) as [[d0 r0]|] eqn:Eg.
            - destruct (S2 d0 r0 eq_refl) as (d' & r' & -> & A). exists d', r'. split; auto.
              rewrite A. eapply Hs; eauto.
            - destruct (S3 eq_refl) as [->|(d' & r' & -> & A)]; [exfalso; auto|].
              exists d', r'. split; auto. rewrite A. apply Hf. reflexivity. }
          destruct Hx as (d' & r' & -> & Hx).
          specialize (IH (put k (Some (d', r')) d) t0).
          destruct (pure l (put k (Some (d', r')) d)) as [[d2 rows2] e2].
          destruct IH as (fs & I1 & I2).
          { intros y r Hy. rewrite Hput in Hy. congruence. }
          { intros Hn. rewrite Hput in Hn. discriminate. }
          destruct o as [o|].
          * exists (f :: fs). simpl. rewrite Nat.eqb_refl. simpl. split; [constructor; auto|].
            f_equal; auto. destruct (S1 o eq_refl) as (d1 & r1 & [= <- <-] & T). congruence.
          * exists fs. simpl. split; [constructor; auto|auto].
        + specialize (IH (put k' x d) t0).
          destruct (pure l (put k' x d)) as [[d2 rows2] e2].
          destruct IH as (fs & I1 & I2).
          { intros y r Hy. rewrite Hput in Hy. eauto. }
          { rewrite Hput. exact Hf. }
          exists fs. split; auto. destruct o as [o|]; simpl; auto.
          destruct (Nat.eqb_spec k k'); [congruence|auto].
    Qed.
  End Times.

  Lemma kframes_of k l : kframes k (vlist l) = frames_of npos k l.
  Proof.
    unfold kframes, vlist, frames_of. induction l as [|[idx f] l IH]; simpl; auto.
    rewrite filter_app, map_app, IH. f_equal. destruct (npos f =? 0)%nat; auto.
    clear. induction idx as [|a idx IHi]; simpl; auto. destruct (Nat.eqb k a); simpl; congruence.
  Qed.

  Lemma vlist_filter l : vlist (filter (fun p => negb (npos (snd p) =? 0)%nat) l) = vlist l.
  Proof.
    induction l as [|[idx f] l IH]; simpl; auto. destruct (npos f =? 0)%nat eqn:E; simpl; auto.
    rewrite E, IH. reflexivity.
  Qed.

  Lemma pure_never l :
    (forall f e, mk f <> inr e) ->
    (forall g r, custom = Some g -> snd (g r) = None) ->
    (forall d f e, snd (compute d f) = inr e -> skipped e = true) ->
    (forall r f e, snd (radd r f) = Some e -> skipped e = true) ->
    (forall k row e, label k row <> inr e) ->
    forall d, snd (pure l d) = None.
  Proof.
    intros H1 H2 H3 H4 H5. induction l as [|[k f] l IH]; intros d; simpl; auto.
    assert (E : snd (solo k f (dget Nat.eqb k d)) = None).
    { unfold solo. destruct (mk f) as [new|e] eqn:Em; [|exfalso; eapply H1; eauto].
      destruct (match dget Nat.eqb k d with Some y => y | None => new end) as [d0 r0].
      assert (G : forall r, snd (match custom with Some g => g r | None => (r, None) end) = None).
      { intros r. destruct custom as [g|]; auto. }
      specialize (G r0).
      destruct (match custom with Some g => g r0 | None => (r0, None) end) as [r1 e1]. simpl in G. subst e1.
      assert (C := H3 d0 f). destruct (compute d0 f) as [d1 [row|e]]; simpl in C.
      - assert (C2 := H4 r1 f). destruct (radd r1 f) as [r2 [e|]]; simpl in C2.
        + rewrite (C2 e eq_refl). reflexivity.
        + destruct (label k row) as [o|e] eqn:El; [reflexivity|exfalso; eapply H5; eauto].
      - rewrite (C e eq_refl). reflexivity. }
    destruct (solo k f (dget Nat.eqb k d)) as [[x o] e]. simpl in E. subst e.
    specialize (IH (put k x d)). destruct (pure l (put k x d)) as [[d2 r2] e2]. exact IH.
  Qed.
End Proofs.
