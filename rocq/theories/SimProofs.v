(** Two runs of process_file that go through related states, frame by frame, give related
    outcomes. *)
From Coq Require Import ZArith List Bool Lia.
From Verif Require Import Base WriteCacheModel ProcessModel.
Import ListNotations.

Section Sim.
  Context {D D' R R' F F' Row Row' Out Out' Sum Sum' : Type}.
  Variables (npos : F -> nat) (npos' : F' -> nat).
  Variables (mk : F -> (D * R) + exn) (mk' : F' -> (D' * R') + exn).
  Variables (custom : option (R -> R * option exn)) (custom' : option (R' -> R' * option exn)).
  Variables (compute : D -> F -> D * (Row + exn)) (compute' : D' -> F' -> D' * (Row' + exn)).
  Variables (radd : R -> F -> R * option exn) (radd' : R' -> F' -> R' * option exn).
  Variables (label : nat -> Row -> Out + exn) (label' : nat -> Row' -> Out' + exn).
  Variables (summary : R -> Sum) (summary' : R' -> Sum').
  Variables (g : Row -> Row') (go : Out -> Out') (h : Sum -> Sum').
  Variables (RD : D -> D' -> Prop) (RR : R -> R' -> Prop) (RF : F -> F' -> Prop).

  Definition sum_rel {A B : Type} (P : A -> B -> Prop) (x : A + exn) (y : B + exn) : Prop :=
    match x, y with inl a, inl b => P a b | inr e, inr e' => e = e' | _, _ => False end.

  Hypothesis Hnpos : forall f f', RF f f' -> npos' f' = npos f.
  Hypothesis Hmk : forall f f', RF f f' ->
    sum_rel (fun x x' => RD (fst x) (fst x') /\ RR (snd x) (snd x')) (mk f) (mk' f').
  Hypothesis Hcustom : match custom, custom' with
    | None, None => True
    | Some c, Some c' => forall r r', RR r r' -> RR (fst (c r)) (fst (c' r')) /\ snd (c' r') = snd (c r)
    | _, _ => False
    end.
  Hypothesis Hcompute : forall d d' f f', RD d d' -> RF f f' ->
    RD (fst (compute d f)) (fst (compute' d' f')) /\
    sum_rel (fun row row' => row' = g row) (snd (compute d f)) (snd (compute' d' f')).
  Hypothesis Hradd : forall r r' f f', RR r r' -> RF f f' ->
    RR (fst (radd r f)) (fst (radd' r' f')) /\ snd (radd' r' f') = snd (radd r f).
  Hypothesis Hlabel : forall k row, sum_rel (fun o o' => o' = go o) (label k row) (label' k (g row)).
  Hypothesis Hsummary : forall r r', RR r r' -> summary' r' = h (summary r).

  Definition RK (a : nat * (D * R)) (b : nat * (D' * R')) : Prop :=
    fst a = fst b /\ RD (fst (snd a)) (fst (snd b)) /\ RR (snd (snd a)) (snd (snd b)).
  Definition line (p : nat * Out) : nat * Out' := (fst p, go (snd p)).
  Definition wmap {A B : Type} (f : A -> B) (w : wcache A) : wcache B :=
    {| wc_named := wc_named w; wc_group := wc_group w; wc_mult := wc_mult w; wc_append := wc_append w;
       wc_cache := map f (wc_cache w); wc_emptied := wc_emptied w |}.
  Definition tmap {A B : Type} (f : A -> B) (t : table A) : table B := option_map (map f) t.
  Definition RS (s : pstate D R Out) (s' : pstate D' R' Out') : Prop :=
    Forall2 RK (ps_keys s) (ps_keys s') /\ ps_cache s' = wmap line (ps_cache s) /\ ps_table s' = tmap line (ps_table s).

  Lemma to_hdf_map {A B : Type} (f : A -> B) app rows t : to_hdf app (map f rows) (tmap f t) = tmap f (to_hdf app rows t).
  Proof.
    destruct rows as [|x rows]; [reflexivity|]. cbn [map to_hdf]. destruct app; [|reflexivity].
    destruct t; cbn [tmap option_map]; [rewrite map_app|]; reflexivity.
  Qed.
  Lemma flush_map {A B : Type} (f : A -> B) fault (w : wcache A) t :
    flush fault (wmap f w) (tmap f t) = match flush fault w t with
                                        | inr e => inr e
                                        | inl (w', t') => inl (wmap f w', tmap f t') end.
  Proof.
    unfold flush. cbn [wmap wc_named wc_group wc_mult wc_append wc_cache wc_emptied].
    destruct (wc_named w), (wc_group w), fault; try reflexivity. cbn [negb]. rewrite to_hdf_map. reflexivity.
  Qed.
  Lemma push_map {A B : Type} (f : A -> B) x (w : wcache A) : push (f x) (wmap f w) = wmap f (push x w).
  Proof.
    unfold push, wmap. cbn [wc_named wc_group wc_mult wc_append wc_cache wc_emptied]. rewrite map_app. reflexivity.
  Qed.
  Lemma append_map {A B : Type} (f : A -> B) x fault (w : wcache A) t :
    append (f x) fault (wmap f w) (tmap f t) = match append x fault w t with
                                               | inr e => inr e
                                               | inl (w', t') => inl (wmap f w', tmap f t') end.
  Proof.
    unfold append. rewrite flush_map.
    replace (match wc_cache (wmap f w) with [] => true | _ => false end) with (match wc_cache w with [] => true | _ => false end)
      by (unfold wmap; cbn [wc_cache]; destruct (wc_cache w); reflexivity).
    replace (length (wc_cache (wmap f w))) with (length (wc_cache w)) by (unfold wmap; cbn [wc_cache]; rewrite map_length; reflexivity).
    replace (wc_size (wmap f w)) with (wc_size w) by reflexivity.
    match goal with |- (if ?c then _ else _) = _ => destruct c end; [|rewrite push_map; reflexivity].
    destruct (flush fault w t) as [[w' t']|e]; [|reflexivity]. rewrite <- push_map. reflexivity.
  Qed.

  Lemma dget_rel k l l' : Forall2 RK l l' ->
    match dget Nat.eqb k l, dget Nat.eqb k l' with
    | Some x, Some x' => RD (fst x) (fst x') /\ RR (snd x) (snd x')
    | None, None => True
    | _, _ => False
    end.
  Proof.
    induction 1 as [|[a x] [b x'] l l' (E & H1 & H2) _ IH]; cbn [dget]; [exact I|].
    cbn [fst snd] in *. subst b. destruct (Nat.eqb k a); auto.
  Qed.
  Lemma dset_rel k x x' l l' : Forall2 RK l l' -> RD (fst x) (fst x') -> RR (snd x) (snd x') ->
    Forall2 RK (dset Nat.eqb k x l) (dset Nat.eqb k x' l').
  Proof.
    intros Hl H1 H2. induction Hl as [|[a y] [b y'] l l' (E & G1 & G2) Hl IH]; cbn [dset].
    - repeat constructor; auto.
    - cbn [fst snd] in *. subst b. destruct (Nat.eqb k a); constructor; auto; repeat split; auto.
  Qed.
  Lemma set_key_rel k d d' r r' s s' : RS s s' -> RD d d' -> RR r r' -> RS (set_key k (d, r) s) (set_key k (d', r') s').
  Proof.
    intros (A & B & C) H1 H2. unfold set_key, RS. cbn [ps_keys ps_cache ps_table]. split; [|auto]. apply dset_rel; auto.
  Qed.
  Lemma visit_sim k f f' s s' : RF f f' -> RS s s' ->
    RS (fst (visit mk custom compute radd label k f s)) (fst (visit mk' custom' compute' radd' label' k f' s')) /\
    snd (visit mk' custom' compute' radd' label' k f' s') = snd (visit mk custom compute radd label k f s).
  Proof.
    intros Hf Hs. unfold visit. pose proof (Hmk _ _ Hf) as M. destruct (mk f) as [new|e], (mk' f') as [new'|e']; cbn [sum_rel] in M; try contradiction; [|subst; cbn; auto].
    assert (G : exists d r d' r',
       match dget Nat.eqb k (ps_keys s) with Some x => x | None => new end = (d, r) /\
       match dget Nat.eqb k (ps_keys s') with Some x => x | None => new' end = (d', r') /\ RD d d' /\ RR r r').
    { pose proof (dget_rel k _ _ (proj1 Hs)) as G.
      destruct (dget Nat.eqb k (ps_keys s)) as [[d r]|], (dget Nat.eqb k (ps_keys s')) as [[d' r']|]; try contradiction.
      - exists d, r, d', r'. cbn in G. tauto.
      - destruct new as [d r], new' as [d' r']. exists d, r, d', r'. cbn in M. tauto. }
    destruct G as (d & r & d' & r' & -> & -> & Hd & Hr).
    pose proof (set_key_rel k _ _ _ _ _ _ Hs Hd Hr) as S1.
    assert (G : exists r1 r1' e, match custom with Some c => c r | None => (r, None) end = (r1, e) /\
                match custom' with Some c => c r' | None => (r', None) end = (r1', e) /\ RR r1 r1').
    { revert Hcustom. destruct custom as [c|], custom' as [c'|]; try contradiction.
      - intros Hc. destruct (Hc _ _ Hr) as [G1 G2]. destruct (c r) as [r1 e], (c' r') as [r1' e']. cbn in G1, G2. subst e'. exists r1, r1', e. auto.
      - intros _. exists r, r', None. auto. }
    destruct G as (r1 & r1' & e & -> & -> & Hr1).
    pose proof (set_key_rel k _ _ _ _ _ _ S1 Hd Hr1) as S2.
    destruct e as [e|]; [cbn; auto|].
    destruct (Hcompute _ _ _ _ Hd Hf) as [C1 C2]. destruct (compute d f) as [d1 res], (compute' d' f') as [d1' res']. cbn [fst snd] in C1, C2.
    pose proof (set_key_rel k _ _ _ _ _ _ S2 C1 Hr1) as S3.
    destruct res as [row|e], res' as [row'|e']; cbn [sum_rel] in C2; try contradiction; [|subst e'; destruct (skipped e); cbn; auto].
    subst row'.
    destruct (Hradd _ _ _ _ Hr1 Hf) as [A1 A2]. destruct (radd r1 f) as [r2 e2], (radd' r1' f') as [r2' e2']. cbn [fst snd] in A1, A2. subst e2'.
    pose proof (set_key_rel k _ _ _ _ _ _ S3 C1 A1) as S4.
    destruct e2 as [e|]; [destruct (skipped e); cbn; auto|].
    pose proof (Hlabel k row) as L. destruct (label k row) as [o|e], (label' k (g row)) as [o'|e']; cbn [sum_rel] in L; try contradiction; [|subst; cbn; auto].
    subst o'. destruct S4 as (K4 & W4 & T4). change (k, go o) with (line (k, o)). rewrite W4, T4, append_map.
    destruct (append (k, o) None _ _) as [[w t]|e]; cbn [fst snd]; [|split; [split|]; auto].
    split; [|auto]. unfold RS. cbn [ps_keys ps_cache ps_table]. auto.
  Qed.
  Lemma visits_sim f f' : RF f f' -> forall idx s s', RS s s' ->
    RS (fst (visits mk custom compute radd label idx f s)) (fst (visits mk' custom' compute' radd' label' idx f' s')) /\
    snd (visits mk' custom' compute' radd' label' idx f' s') = snd (visits mk custom compute radd label idx f s).
  Proof.
    intros Hf. induction idx as [|k idx IH]; intros s s' Hs; cbn [visits]; [auto|].
    destruct (visit_sim k _ _ _ _ Hf Hs) as [A B].
    destruct (visit mk custom compute radd label k f s) as [s1 e], (visit mk' custom' compute' radd' label' k f' s') as [s1' e']. cbn [fst snd] in A, B. subst e'.
    destruct e; [cbn; auto|]. auto.
  Qed.
  Lemma frames_sim fin : forall l l', Forall2 (fun x x' => fst x = fst x' /\ RF (snd x) (snd x')) l l' -> forall s s', RS s s' ->
    RS (fst (frames npos mk custom compute radd label l fin s)) (fst (frames npos' mk' custom' compute' radd' label' l' fin s')) /\
    snd (frames npos' mk' custom' compute' radd' label' l' fin s') = snd (frames npos mk custom compute radd label l fin s).
  Proof.
    induction 1 as [|[idx f] [idx' f'] l l' [E Hf] _ IH]; intros s s' Hs; cbn [frames]; [auto|].
    cbn [fst snd] in E, Hf. subst idx'. rewrite (Hnpos _ _ Hf). destruct (npos f =? 0)%nat; [auto|].
    destruct (visits_sim _ _ Hf idx _ _ Hs) as [A B].
    destruct (visits mk custom compute radd label idx f s) as [s1 e], (visits mk' custom' compute' radd' label' idx f' s') as [s1' e']. cbn [fst snd] in A, B. subst e'.
    destruct e; [cbn; auto|]. auto.
  Qed.

  Definition omap (o : outcome Out Sum) : outcome Out' Sum' :=
    {| out_result := match out_result o with inl x => inl (option_map (map line) x) | inr e => inr e end;
       out_table := tmap line (out_table o);
       out_relax := option_map (map (fun p => (fst p, h (snd p)))) (out_relax o) |}.

  Theorem process_sim outfile vars floats rd rd' t0 r0 :
    match rd, rd' with
    | Some (l, fin), Some (l', fin') => fin = fin' /\ Forall2 (fun x x' => fst x = fst x' /\ RF (snd x) (snd x')) l l'
    | None, None => True
    | _, _ => False
    end ->
    process_file npos' mk' custom' compute' radd' label' summary' outfile vars floats rd' (tmap line t0)
                 (option_map (map (fun p => (fst p, h (snd p)))) r0)
    = omap (process_file npos mk custom compute radd label summary outfile vars floats rd t0 r0).
  Proof.
    intros Hrd. unfold process_file. destruct vars as [e|]; [reflexivity|].
    destruct rd as [[l fin]|], rd' as [[l' fin']|]; try contradiction; [|reflexivity]. destruct Hrd as [<- Hl].
    set (s0 := {| ps_keys := []; ps_cache := wc_new outfile true 1 false; ps_table := t0 |}).
    set (s0' := {| ps_keys := []; ps_cache := wc_new outfile true 1 false; ps_table := tmap line t0 |}).
    assert (S0 : RS s0 s0') by (split; [constructor|split; reflexivity]).
    destruct (frames_sim fin _ _ Hl _ _ S0) as [A B].
    destruct (frames npos mk custom compute radd label l fin s0) as [s e], (frames npos' mk' custom' compute' radd' label' l' fin s0') as [s' e']. cbn [fst snd] in A, B. subst e'.
    destruct A as (AK & AW & AT).
    destruct e as [e|]; [unfold omap; cbn [out_result out_table out_relax]; rewrite AT; reflexivity|].
    destruct outfile.
    - rewrite AW, AT, flush_map. destruct (flush None (ps_cache s) (ps_table s)) as [[w t]|e]; [|reflexivity].
      inversion AK as [E1 E2|x x' ks ks' Hx Hks E1 E2].
      + reflexivity.
      + rewrite E1, E2. destruct floats; [reflexivity|]. unfold omap. cbn [out_result out_table out_relax option_map]. f_equal. f_equal.
        rewrite map_map. assert (AK' : Forall2 RK (ps_keys s) (ps_keys s')) by (rewrite <- E1, <- E2; constructor; auto).
        clear - AK' Hsummary. induction AK' as [|[a y] [b y'] ? ? (E & _ & G) _ IH]; [reflexivity|]. cbn [map fst snd] in *. subst b. rewrite IH, (Hsummary _ _ G). reflexivity.
    - unfold to_dataframe. rewrite AW, AT. cbn [wmap wc_cache]. destruct (wc_cache (ps_cache s)); reflexivity.
  Qed.
End Sim.
