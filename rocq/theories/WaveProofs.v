(** Proofs about wave vectors and wave numbers. *)
From Coq Require Import Reals ZArith List Bool Permutation Lra Lia.
From Verif Require Import Base RVec MotionModel DynModel DynSpec DynProofs DynStruct DynProps DynPerm DynTrue WaveModel WaveSpec MotionProofs.
Import ListNotations.
Open Scope R_scope.
Notation length := List.length.

(** ** The cache *)
Local Opaque maxsize.
Lemma same_args_eq a b : same_args a b = true <-> a = b.
Proof.
  destruct a as [k n], b as [k' n']. unfold same_args. cbn. destruct (Req_EM_T k k') as [->|N].
  - rewrite Bool.andb_true_l, Z.eqb_eq. split; [intros ->; auto|congruence].
  - cbn. split; [discriminate|congruence].
Qed.
Lemma same_args_refl a : same_args a a = true.
Proof. apply same_args_eq. auto. Qed.
Lemma same_args_neq a b : same_args a b = false <-> a <> b.
Proof. rewrite <- Bool.not_true_iff_false, same_args_eq. tauto. Qed.

Lemma lookup_In a l r : lookup a l = Some r -> In (a, r) l.
Proof.
  induction l as [|[b s] l IH]; cbn; [discriminate|]. destruct (same_args a b) eqn:E.
  - apply same_args_eq in E. intros [= ->]. left. congruence.
  - auto.
Qed.
Lemma lookup_None a l : lookup a l = None <-> ~ In a (map fst l).
Proof.
  induction l as [|[b s] l IH]; cbn; [tauto|]. destruct (same_args a b) eqn:E.
  - apply same_args_eq in E. subst. split; [discriminate|intros H; exfalso; auto].
  - apply same_args_neq in E. rewrite IH. intuition.
Qed.
Lemma lookup_app a l1 l2 : ~ In a (map fst l1) -> lookup a (l1 ++ l2) = lookup a l2.
Proof.
  induction l1 as [|[b s] l IH]; cbn; auto. intros H. destruct (same_args a b) eqn:E; [apply same_args_eq in E; exfalso; apply H; auto|].
  apply IH. auto.
Qed.

Lemma run_app w l1 l2 : run w (l1 ++ l2) =
  (fst (run (fst (run w l1)) l2), snd (run w l1) ++ snd (run (fst (run w l1)) l2)).
Proof.
  revert w. induction l1 as [|e l IH]; intros w; cbn [app run fst snd].
  - destruct (run w l2); auto.
  - destruct e as [k n|r v]; [|apply IH]. destruct (create_wave_vector (k, n) w) as [w1 o]. rewrite IH.
    destruct (run w1 l) as [w2 os]. cbn [fst snd]. reflexivity.
Qed.
Lemma run_length w l : length (snd (run w l)) = length (calls l).
Proof.
  revert w. induction l as [|e l IH]; intros w; cbn; auto. destruct e as [k n|r v]; [|apply IH].
  destruct (create_wave_vector (k, n) w) as [w1 o]. specialize (IH w1). destruct (run w1 l). cbn in *. rewrite IH. auto.
Qed.
Lemma calls_app l1 l2 : calls (l1 ++ l2) = calls l1 ++ calls l2.
Proof. apply flat_map_app. Qed.

Lemma replace_length {A} r (v : A) l : length (replace r v l) = length l.
Proof. revert r. induction l; intros [|r]; cbn; auto. Qed.
Lemma replace_other {A} r (v : A) l i d : i <> r -> nth i (replace r v l) d = nth i l d.
Proof.
  revert r i. induction l as [|x l IH]; intros [|r] [|i] H; cbn; auto; congruence.
Qed.

(** The vectors computed are the star. *)
Lemma compute_star k n v : compute_wave_vector k n = inl v -> star k n v.
Proof.
  unfold compute_wave_vector. destruct (n <? 0)%Z eqn:E; [discriminate|]. apply Z.ltb_ge in E. intros [= <-]. unfold star.
  rewrite map_length, seq_length, Z2Nat.id by auto. split; auto. intros j J.
  rewrite nth_error_map. rewrite (nth_error_nth' (seq 0 (Z.to_nat n)) 0%nat) by (rewrite seq_length; auto).
  rewrite seq_nth by auto. cbn [option_map Nat.add]. rewrite INR_IZR_INZ with (n := Z.to_nat n), Z2Nat.id by auto.
  do 2 f_equal; rewrite Rmult_comm; do 2 f_equal; unfold Rdiv; ring.
Qed.
Lemma compute_exn k n e : compute_wave_vector k n = inr e -> (n < 0)%Z /\ e = ValueError.
Proof. unfold compute_wave_vector. destruct (n <? 0)%Z eqn:E; [|discriminate]. apply Z.ltb_lt in E. intros [= <-]. auto. Qed.

(** The stores of a history go into arrays got by calls whose arguments satisfy [Q]. *)
Definition only_into (Q : R * Z -> Prop) (l : list event) : Prop :=
  forall l1 r v l2, l = l1 ++ Store r v :: l2 ->
    exists i a c, nth_error (calls l1) i = Some a /\ nth_error (snd (run w_empty l1)) i = Some (inl (r, c)) /\ Q a.

(** The arguments for which each array was made *)
Definition owned (P : R * Z -> Prop) (own : list (R * Z)) (w : world) : Prop :=
  length own = length (w_heap w) /\
  (forall a r, In (a, r) (w_cache w) -> nth_error own r = Some a) /\
  (forall a r, nth_error own r = Some a -> (0 <= snd a)%Z /\ (P a -> star (fst a) (snd a) (nth r (w_heap w) []))) /\
  (length (w_cache w) <= maxsize)%nat.

Lemma firstn_In {A} n (x : A) l : In x (firstn n l) -> In x l.
Proof. revert l. induction n; intros [|y l]; cbn; try tauto. intros [->|H]; auto. Qed.
Lemma without_In a x l : In x (without a l) -> In x l.
Proof. unfold without. rewrite filter_In. tauto. Qed.
Lemma filter_length_le {A} (f : A -> bool) l : (length (filter f l) <= length l)%nat.
Proof. induction l as [|x l IH]; cbn; auto. destruct (f x); cbn; lia. Qed.
Lemma without_length a l r : In (a, r) l -> (length (without a l) < length l)%nat.
Proof.
  induction l as [|e l IH]; cbn; [tauto|]. intros [->|I].
  - cbn. rewrite same_args_refl. cbn. pose proof (filter_length_le (fun e : (R * Z) * nat => negb (same_args a (fst e))) l). unfold without. lia.
  - specialize (IH I). unfold without in IH. destruct (negb _); cbn; lia.
Qed.

Lemma create_owned P own w a w1 o : owned P own w -> create_wave_vector a w = (w1, o) ->
  exists own1, owned P (own ++ own1) w1 /\
    match o with
    | inl r => nth_error (own ++ own1) r = Some a
    | inr e => e = ValueError /\ (snd a < 0)%Z
    end.
Proof.
  intros (L & C & S0 & M) E. unfold create_wave_vector in E. destruct (lookup a (w_cache w)) as [r|] eqn:Lk.
  - apply lookup_In in Lk. injection E as <- <-. exists []. rewrite app_nil_r. split; [|apply C; auto].
    split; [auto|]. split; [|split; [auto|]]; cbn [w_cache w_heap].
    + intros b s [[= -> ->]|I]; [apply C; auto|]. apply C. eapply without_In; eauto.
    + cbn. pose proof (without_length a (w_cache w) r Lk). lia.
  - destruct (compute_wave_vector (fst a) (snd a)) as [v|e] eqn:Cv.
    + injection E as <- <-. exists [a]. split.
      * split; [cbn; rewrite !app_length, L; auto|]. split; [|split]; cbn [w_cache w_heap].
        -- intros b s I. apply firstn_In in I. destruct I as [[= <- <-]|I].
           ++ rewrite <- L, nth_error_app2, Nat.sub_diag; auto.
           ++ rewrite nth_error_app1; [apply C; auto|]. apply C in I. apply nth_error_Some. congruence.
        -- intros b s I. destruct (Nat.lt_ge_cases s (length own)) as [H|H].
           ++ rewrite nth_error_app1 in I by auto. destruct (S0 b s I) as [S1 S2]. split; auto. intros Pb. rewrite app_nth1 by lia. auto.
           ++ rewrite nth_error_app2 in I by auto. destruct (s - length own)%nat as [|q] eqn:Eq; [|destruct q; discriminate]. injection I as ->.
              assert (s = length (w_heap w)) as -> by lia. rewrite app_nth2, Nat.sub_diag by lia. cbn [nth].
              assert (St := compute_star _ _ _ Cv). split; auto. destruct St as [<- _]. lia.
        -- rewrite firstn_length. lia.
      * rewrite <- L, nth_error_app2, Nat.sub_diag; auto.
    + injection E as <- <-. exists []. rewrite app_nil_r. split; [split; auto|]. apply compute_exn in Cv. tauto.
Qed.

Lemma nth_error_app_some {A} (l : list A) l' i x : nth_error l i = Some x -> nth_error (l ++ l') i = Some x.
Proof. intros H. rewrite nth_error_app1; auto. apply nth_error_Some. congruence. Qed.

Lemma F2_impl {A B} (P Q : A -> B -> Prop) l m : (forall a b, P a b -> Q a b) -> Forall2 P l m -> Forall2 Q l m.
Proof. intros H F. induction F; constructor; auto. Qed.
Lemma F2_nth {A B} (P : A -> B -> Prop) l m : Forall2 P l m -> forall i a b, nth_error l i = Some a -> nth_error m i = Some b -> P a b.
Proof. intros F. induction F; intros [|i] a b; cbn; try discriminate; [congruence|apply IHF]. Qed.

(** What every answer is *)
Definition answer (P : R * Z -> Prop) (own : list (R * Z)) (a : R * Z) (o : (nat * list (R * R)) + exn) : Prop :=
  match o with
  | inl (r, c) => nth_error own r = Some a /\ (P a -> star (fst a) (snd a) c)
  | inr e => e = ValueError /\ (snd a < 0)%Z
  end.
Lemma run_owned P l : only_into (fun a => ~ P a) l ->
  exists own, owned P own (fst (run w_empty l)) /\ Forall2 (answer P own) (calls l) (snd (run w_empty l)).
Proof.
  induction l as [|e l IH] using rev_ind; intros O.
  - exists []. split; [|constructor]. split; auto. split; [intros a r []|]. split; [intros a [|r]; discriminate|cbn; lia].
  - destruct IH as (own & Ow & F).
    { intros l1 r v l2 E. apply (O l1 r v (l2 ++ [e])). rewrite E, <- app_assoc. auto. }
    rewrite run_app, calls_app. set (w := fst (run w_empty l)) in *. destruct e as [k n|r v].
    + cbn [run calls flat_map app fst snd]. destruct (create_wave_vector (k, n) w) as [w1 o] eqn:E.
      destruct (create_owned P own w (k, n) w1 o Ow E) as (own1 & Ow1 & A). exists (own ++ own1). cbn [fst snd]. split; auto.
      apply Forall2_app.
      * eapply F2_impl; [|exact F]. intros a [[s c]|x]; cbn; auto. intros [H1 H2]. split; auto. apply nth_error_app_some; auto.
      * constructor; [|constructor]. destruct o as [s|x]; cbn; auto. split; auto. destruct Ow1 as (_ & _ & S1 & _). apply (S1 _ _ A).
    + cbn [run calls flat_map app fst snd]. rewrite !app_nil_r. exists own. split; auto.
      destruct (O l r v []) as (i & a & c & I1 & I2 & Na); auto.
      assert (Hr : nth_error own r = Some a).
      { apply (F2_nth _ _ _ F i a (inl (r, c)) I1 I2). }
      destruct Ow as (L & C & S0 & M). split; [cbn; rewrite replace_length; auto|]. split; [exact C|]. split; [|exact M].
      intros b s I. destruct (S0 b s I) as [S1 S2]. split; auto. intros Pb. cbn [w_heap]. rewrite replace_other; auto.
      intros ->. rewrite Hr in I. injection I as <-. auto.
Qed.

(** ** Which calls get the same array *)
(** [a] is cached as [r], and everything used since then is in [D]. *)
Definition recent (D : list (R * Z)) (a : R * Z) (r : nat) (w : world) : Prop :=
  exists front rest, w_cache w = front ++ (a, r) :: rest /\ NoDup (map fst front) /\
    ~ In a (map fst front) /\ incl (map fst front) D.
Lemma map_fst_without b l : map fst (without b l) = filter (fun a => negb (same_args b a)) (map fst l).
Proof. unfold without. induction l as [|e l IH]; cbn; auto. destruct (negb _); cbn; congruence. Qed.
Lemma without_app b l1 l2 : without b (l1 ++ l2) = without b l1 ++ without b l2.
Proof. apply filter_app. Qed.

Lemma recent_lookup D a r w : recent D a r w -> lookup a (w_cache w) = Some r.
Proof. intros (f & t & -> & _ & N & _). rewrite lookup_app by auto. cbn. rewrite same_args_refl. auto. Qed.
Lemma recent_hit D a r w : recent D a r w -> forall w1 o, create_wave_vector a w = (w1, o) -> o = inl r /\ recent D a r w1.
Proof.
  intros H w1 o E. unfold create_wave_vector in E. rewrite (recent_lookup _ _ _ _ H) in E. injection E as <- <-. split; auto.
  exists [], (without a (w_cache w)). cbn. split; auto. split; [constructor|]. split; auto. intros x [].
Qed.
Lemma recent_step D a r w b w1 o : (length D < maxsize)%nat -> recent D a r w -> b = a \/ In b D ->
  create_wave_vector b w = (w1, o) -> recent D a r w1.
Proof.
  intros LD H [->|Ib] E; [eapply recent_hit; eauto|].
  destruct (same_args a b) eqn:Eab; [apply same_args_eq in Eab; subst b; eapply recent_hit; eauto|]. apply same_args_neq in Eab.
  destruct H as (f & t & C & N & Na & In_). unfold create_wave_vector in E.
  destruct (lookup b (w_cache w)) as [s|] eqn:Lk.
  - injection E as <- <-. exists ((b, s) :: without b f), (without b t). cbn [w_cache]. rewrite C, without_app.
    unfold without at 2. cbn [filter fst]. assert (Eba : same_args b a = false) by (apply same_args_neq; congruence). rewrite Eba. cbn [negb].
    split; [reflexivity|]. cbn [map fst]. rewrite map_fst_without. split; [|split].
    + constructor; [|apply NoDup_filter; auto]. rewrite filter_In, same_args_refl. intros [_ X]; discriminate.
    + intros [->|I]; [congruence|]. apply filter_In in I. tauto.
    + intros x [<-|I]; auto. apply filter_In in I. apply In_. tauto.
  - destruct (compute_wave_vector (fst b) (snd b)) as [v|e].
    + injection E as <- <-. apply lookup_None in Lk. rewrite C, map_app, in_app_iff in Lk.
      assert (Nb : NoDup (map fst ((b, length (w_heap w)) :: f))) by (cbn; constructor; auto).
      assert (Ib' : incl (map fst ((b, length (w_heap w)) :: f)) D) by (intros x [<-|I]; auto).
      assert (Ln := NoDup_incl_length Nb Ib'). rewrite map_length in Ln.
      exists ((b, length (w_heap w)) :: f), (firstn (maxsize - length ((b, length (w_heap w)) :: f) - 1) t). cbn [w_cache].
      split; [|split; [auto|split; [|auto]]].
      * rewrite C. change ((b, length (w_heap w)) :: f ++ (a, r) :: t) with (((b, length (w_heap w)) :: f) ++ (a, r) :: t).
        rewrite firstn_app, firstn_all2 by lia. f_equal. set (m := length ((b, length (w_heap w)) :: f)) in *.
        destruct (maxsize - m)%nat as [|q] eqn:Eq; [lia|]. cbn [firstn]. do 2 f_equal. lia.
      * cbn. intros [->|I]; auto.
    + injection E as <- <-. exists f, t. auto.
Qed.
Lemma recent_run D a r : (length D < maxsize)%nat -> forall l w, recent D a r w -> incl (calls l) (a :: D) -> recent D a r (fst (run w l)).
Proof.
  intros LD. induction l as [|e l IH]; intros w H I; cbn [run]; auto. destruct e as [k n|s v].
  - destruct (create_wave_vector (k, n) w) as [w1 o] eqn:E.
    assert (H1 : recent D a r w1).
    { apply (recent_step D a r w (k, n) w1 o); auto. destruct (I (k, n)) as [X|X]; cbn; auto. }
    specialize (IH w1 H1 ltac:(intros x X; apply I; right; auto)). destruct (run w1 l). exact IH.
  - apply IH; auto.
Qed.
Lemma recent_called D a w w1 r : create_wave_vector a w = (w1, inl r) -> (0 < maxsize)%nat -> recent D a r w1.
Proof.
  intros E M. unfold create_wave_vector in E. destruct (lookup a (w_cache w)).
  - injection E as <- <-. exists [], (without a (w_cache w)). cbn. split; auto. split; [constructor|]. split; [tauto|]. intros x [].
  - destruct (compute_wave_vector (fst a) (snd a)); [|discriminate]. injection E as <- <-.
    destruct maxsize as [|m]; [lia|]. exists [], (firstn m (w_cache w)). cbn. split; auto. split; [constructor|]. split; [tauto|]. intros x [].
Qed.

(** Calls with new arguments *)
Lemma new_calls h : forall w, (forall a, In a h -> (0 <= snd a)%Z /\ ~ In a (map fst (w_cache w))) -> NoDup h ->
  let w' := fst (run w (map (fun a => Call (fst a) (snd a)) h)) in
  map fst (w_cache w') = match h with [] => map fst (w_cache w) | _ => firstn maxsize (rev h ++ map fst (w_cache w)) end /\
  length (w_heap w') = (length (w_heap w) + length h)%nat.
Proof.
  induction h as [|a h IH] using rev_ind; intros w H N w'; [cbn; split; [auto|lia]|].
  unfold w'. rewrite map_app, run_app. cbn [map run fst snd].
  destruct (IH w) as [IH1 IH2]; [intros b I; apply H, in_or_app; auto|apply NoDup_remove_1 in N; rewrite app_nil_r in N; auto|].
  set (w1 := fst (run w (map (fun a => Call (fst a) (snd a)) h))) in *.
  assert (Na : ~ In a (map fst (w_cache w1))).
  { rewrite IH1. apply NoDup_remove_2 in N. rewrite app_nil_r in N. destruct (H a) as [_ Ha]; [apply in_or_app; right; left; auto|].
    destruct h; auto. intros I. apply firstn_In in I. apply in_app_or in I. rewrite <- in_rev in I. tauto. }
  destruct a as [k n]. cbn [fst snd] in *. unfold create_wave_vector. apply lookup_None in Na. rewrite Na. cbn [fst snd].
  destruct (H (k, n)) as [Pn _]; [apply in_or_app; right; left; auto|]. cbn in Pn. unfold compute_wave_vector.
  destruct (n <? 0)%Z eqn:En; [apply Z.ltb_lt in En; lia|]. cbn [run fst snd w_cache w_heap]. split.
  - destruct (h ++ [(k, n)]) eqn:X; [destruct h; discriminate|]. rewrite <- X, rev_app_distr. cbn [rev app].
    rewrite <- firstn_map. cbn [map fst]. rewrite IH1. destruct h as [|b h]; [reflexivity|].
    destruct maxsize as [|m]; [reflexivity|]. rewrite !firstn_cons. f_equal.
    rewrite firstn_firstn. f_equal. lia.
  - rewrite !app_length, IH2. cbn. lia.
Qed.

(** ** Symmetry of the star *)
Definition ray (k : R) (n j : nat) : R * R := (k * cos (2 * PI * INR j / INR n), k * sin (2 * PI * INR j / INR n)).
Lemma list_nth_error_eq {A} (l m : list A) : (forall i, nth_error l i = nth_error m i) -> l = m.
Proof.
  revert m. induction l as [|x l IH]; intros [|y m] H; auto; try (specialize (H 0%nat); discriminate).
  pose proof (H 0%nat) as H0. injection H0 as ->. f_equal. apply IH. intros i. apply (H (S i)).
Qed.
Lemma star_rays k n v : star k n v -> v = map (ray k (length v)) (seq 0 (length v)).
Proof.
  intros [L H]. apply list_nth_error_eq. intros i. destruct (Nat.lt_ge_cases i (length v)) as [I|I].
  - rewrite (H i I), nth_error_map. rewrite (nth_error_nth' (seq 0 (length v)) 0%nat) by (rewrite seq_length; auto).
    rewrite seq_nth by auto. cbn [option_map Nat.add]. unfold ray. rewrite <- L, <- INR_IZR_INZ. auto.
  - rewrite (proj2 (nth_error_None v i) I). symmetry. apply nth_error_None. rewrite map_length, seq_length. auto.
Qed.
Lemma rays_star k n : star k (Z.of_nat n) (map (ray k n) (seq 0 n)).
Proof.
  unfold star. rewrite map_length, seq_length. split; auto. intros j J. rewrite nth_error_map.
  rewrite (nth_error_nth' (seq 0 n) 0%nat) by (rewrite seq_length; auto). rewrite seq_nth by auto. cbn [option_map Nat.add]. unfold ray.
  rewrite <- INR_IZR_INZ. auto.
Qed.

Lemma cos_full x : cos (x + 2 * PI) = cos x.
Proof. replace (x + 2 * PI) with (x + 2 * INR 1 * PI) by (cbn; ring). apply cos_period. Qed.
Lemma sin_full x : sin (x + 2 * PI) = sin x.
Proof. replace (x + 2 * PI) with (x + 2 * INR 1 * PI) by (cbn; ring). apply sin_period. Qed.
Lemma INR_pos n : (0 < n)%nat -> 0 < INR n.
Proof. apply lt_0_INR. Qed.
Lemma theta_S n j : (0 < n)%nat -> 2 * PI * INR (S j) / INR n = 2 * PI * INR j / INR n + 2 * PI / INR n.
Proof. intros H. apply INR_pos in H. rewrite S_INR. field. lra. Qed.
Lemma theta_n n : (0 < n)%nat -> 2 * PI * INR n / INR n = 0 + 2 * PI.
Proof. intros H. apply INR_pos in H. field. lra. Qed.
Lemma theta_0 n : (0 < n)%nat -> 2 * PI * INR 0 / INR n = 0.
Proof. intros H. apply INR_pos in H. cbn. field. lra. Qed.

Lemma ray_turn k n j : (0 < n)%nat -> turn (2 * PI / INR n) (ray k n j) = ray k n (S j).
Proof. intros H. unfold turn, ray. cbn [fst snd]. rewrite theta_S, cos_plus, sin_plus by auto. f_equal; ring. Qed.
Lemma ray_full k n : (0 < n)%nat -> ray k n n = ray k n 0.
Proof. intros H. unfold ray. rewrite theta_n, theta_0, cos_full, sin_full by auto. auto. Qed.

(** A full period starting one step later *)
Lemma shift_perm {A} (f : nat -> A) n : f n = f 0%nat -> Permutation (map (fun j => f (S j)) (seq 0 n)) (map f (seq 0 n)).
Proof.
  intros E. destruct n as [|n]; [constructor|].
  rewrite <- (map_map S f), seq_shift. rewrite (seq_S n 1), map_app. cbn [map]. change (1 + n)%nat with (S n). rewrite E.
  change (seq 0 (S n)) with (0%nat :: seq 1 n). cbn [map].
  rewrite Permutation_app_comm. cbn. constructor. reflexivity.
Qed.
Lemma rsum_perm l m : Permutation l m -> rsum l = rsum m.
Proof. intros P. unfold rsum. induction P; cbn; lra. Qed.

Lemma turned_sums (c s : R) (f g : nat -> R) n : f n = f 0%nat -> g n = g 0%nat ->
  (forall j, f (S j) = c * f j - s * g j) -> (forall j, g (S j) = s * f j + c * g j) -> c <> 1 -> c * c + s * s = 1 ->
  rsum (map f (seq 0 n)) = 0 /\ rsum (map g (seq 0 n)) = 0.
Proof.
  intros E1 E2 F G C U.
  assert (A := rsum_perm _ _ (shift_perm f n E1)). assert (B := rsum_perm _ _ (shift_perm g n E2)).
  assert (Lin : forall a b l, rsum (map (fun j => a * f j + b * g j) l) = a * rsum (map f l) + b * rsum (map g l)).
  { intros a b l. unfold rsum. induction l; cbn; lra. }
  rewrite (map_ext _ (fun j => c * f j + (- s) * g j)) in A by (intros; rewrite F; ring).
  rewrite (map_ext _ (fun j => s * f j + c * g j)) in B by (intros; rewrite G; ring).
  rewrite Lin in A, B. set (X := rsum (map f (seq 0 n))) in *. set (Y := rsum (map g (seq 0 n))) in *.
  assert (P : (1 - c) * X = - s * Y) by lra. assert (Q : (1 - c) * Y = s * X) by lra.
  assert (D : 2 * (1 - c) <> 0) by lra.
  assert (Z1 : 2 * (1 - c) * X = 0).
  { replace (2 * (1 - c) * X) with ((1 - 2 * c + (c * c + s * s)) * X) by (rewrite U; ring).
    replace ((1 - 2 * c + (c * c + s * s)) * X) with ((1 - c) * ((1 - c) * X) + s * (s * X)) by ring. rewrite P, <- Q. ring. }
  assert (Z2 : 2 * (1 - c) * Y = 0).
  { replace (2 * (1 - c) * Y) with ((1 - 2 * c + (c * c + s * s)) * Y) by (rewrite U; ring).
    replace ((1 - 2 * c + (c * c + s * s)) * Y) with ((1 - c) * ((1 - c) * Y) + s * (s * Y)) by ring. rewrite Q.
    replace (s * (s * Y)) with (- s * (- s * Y)) by ring. rewrite <- P. ring. }
  split; [destruct (Rmult_integral _ _ Z1)|destruct (Rmult_integral _ _ Z2)]; tauto.
Qed.

Lemma cos_not_1 x : 0 < x < 2 * PI -> cos x <> 1.
Proof.
  intros H E. assert (S0 : 0 < sin (x / 2)) by (apply sin_gt_0; lra).
  assert (C := cos_2a_sin (x / 2)). replace (2 * (x / 2)) with x in C by field. rewrite E in C.
  assert (0 < sin (x / 2) * sin (x / 2)) by (apply Rmult_lt_0_compat; auto). lra.
Qed.

Lemma rays_sum k n : (2 <= n)%nat ->
  rsum (map fst (map (ray k n) (seq 0 n))) = 0 /\ rsum (map snd (map (ray k n) (seq 0 n))) = 0.
Proof.
  intros H. rewrite !map_map. assert (Hn : (0 < n)%nat) by lia.
  apply (turned_sums (cos (2 * PI / INR n)) (sin (2 * PI / INR n))).
  - rewrite ray_full; auto.
  - rewrite ray_full; auto.
  - intros j. rewrite <- ray_turn by auto. reflexivity.
  - intros j. rewrite <- ray_turn by auto. reflexivity.
  - apply cos_not_1. assert (2 <= INR n) by (apply (le_INR 2); auto). pose proof PI_RGT_0. split.
    + apply Rdiv_lt_0_compat; lra.
    + apply Rmult_lt_reg_r with (INR n); [lra|]. unfold Rdiv. rewrite Rmult_assoc, Rinv_l by lra. nra.
  - generalize (sin2_cos2 (2 * PI / INR n)). unfold Rsqr. lra.
Qed.

Lemma rays_square k n dx dy : (3 <= n)%nat ->
  rsum (map (fun w => along dx dy w ^ 2) (map (ray k n) (seq 0 n))) = INR n * k ^ 2 / 2 * (dx ^ 2 + dy ^ 2).
Proof.
  intros H. assert (Hn : (0 < n)%nat) by lia. rewrite map_map.
  set (f j := cos (2 * (2 * PI * INR j / INR n))). set (g j := sin (2 * (2 * PI * INR j / INR n))).
  assert (D : rsum (map f (seq 0 n)) = 0 /\ rsum (map g (seq 0 n)) = 0).
  { apply (turned_sums (cos (2 * (2 * PI / INR n))) (sin (2 * (2 * PI / INR n)))).
    - unfold f. rewrite theta_n, theta_0 by auto. rewrite !Rmult_plus_distr_l. replace (2 * (2 * PI)) with (2 * PI + 2 * PI) by ring.
      rewrite <- Rplus_assoc, !cos_full. auto.
    - unfold g. rewrite theta_n, theta_0 by auto. rewrite !Rmult_plus_distr_l. replace (2 * (2 * PI)) with (2 * PI + 2 * PI) by ring.
      rewrite <- Rplus_assoc, !sin_full. auto.
    - intros j. unfold f, g. rewrite theta_S by auto. rewrite Rmult_plus_distr_l, cos_plus. ring.
    - intros j. unfold f, g. rewrite theta_S by auto. rewrite Rmult_plus_distr_l, sin_plus. ring.
    - apply cos_not_1. assert (3 <= INR n) by (apply (le_INR 3) in H; cbn in H; lra). pose proof PI_RGT_0. split.
      + assert (0 < 2 * PI / INR n) by (apply Rdiv_lt_0_compat; lra). lra.
      + apply Rmult_lt_reg_r with (INR n); [lra|]. replace (2 * (2 * PI / INR n) * INR n) with (4 * PI) by (field; lra). nra.
    - generalize (sin2_cos2 (2 * (2 * PI / INR n))). unfold Rsqr. lra. }
  destruct D as [D1 D2].
  rewrite (map_ext _ (fun j => k ^ 2 / 2 * (dx ^ 2 + dy ^ 2) + k ^ 2 / 2 * (dx ^ 2 - dy ^ 2) * f j + k ^ 2 * dx * dy * g j)).
  - assert (Lin : forall a b c l, rsum (map (fun j => a + b * f j + c * g j) l) = INR (length l) * a + b * rsum (map f l) + c * rsum (map g l)).
    { intros a b c l. induction l as [|j l IH]; [unfold rsum; cbn; ring|]. cbn [map length]. rewrite S_INR. unfold rsum in *. cbn [fold_right]. rewrite IH. ring. }
    rewrite Lin, D1, D2, seq_length. field.
  - intros j. unfold f, g, along, ray. cbn [fst snd]. rewrite cos_2a, sin_2a.
    set (t := 2 * PI * INR j / INR n). generalize (sin2_cos2 t). unfold Rsqr. intros U.
    assert (C2 : cos t * cos t = 1 - sin t * sin t) by lra. ring_simplify.
    replace (cos t ^ 2) with (1 - sin t * sin t) by (rewrite <- C2; ring). field.
Qed.

Lemma rays_length k n w : In w (map (ray k n) (seq 0 n)) -> fst w ^ 2 + snd w ^ 2 = k ^ 2.
Proof.
  intros I. apply in_map_iff in I. destruct I as (j & <- & _). unfold ray. cbn [fst snd].
  set (t := 2 * PI * INR j / INR n). generalize (sin2_cos2 t). unfold Rsqr. intros U.
  replace ((k * cos t) ^ 2 + (k * sin t) ^ 2) with (k ^ 2 * (sin t * sin t + cos t * cos t)) by ring. rewrite U. ring.
Qed.

(** The scattering function of turned displacements *)
Definition turn3 (t : R) (d : v3) : v3 := mk3 (cos t * x3 d - sin t * y3 d) (sin t * x3 d + cos t * y3 d) (z3 d).
Lemma waves_rays k n : (0 < n)%nat -> wave_vectors k n = map (ray k n) (seq 0 n).
Proof.
  intros H. unfold wave_vectors, ray. apply map_ext. intros j. replace (INR j * (2 * PI) / INR n) with (2 * PI * INR j / INR n) by (unfold Rdiv; ring).
  f_equal; ring.
Qed.
Lemma isf_turn k n dt : (0 < n)%nat -> isf k n (map (turn3 (2 * PI / INR n)) dt) = isf k n dt.
Proof.
  intros H. unfold isf. rewrite !waves_rays by auto. unfold rmean.
  rewrite !(flat_map_len _ (length dt)) by (intros; rewrite !map_length; auto). f_equal. rewrite !rsum_flat, !map_map.
  set (F w := rsum (map (fun d => cos (fst w * x3 d + snd w * y3 d)) dt)).
  set (back w := turn (- (2 * PI / INR n)) w).
  rewrite (map_ext _ (fun j => F (back (ray k n j)))).
  - transitivity (rsum (map (fun j => F (back (ray k n (S j)))) (seq 0 n))).
    + symmetry. apply rsum_perm, (shift_perm (fun j => F (back (ray k n j)))). rewrite ray_full; auto.
    + f_equal. apply map_ext. intros j. transitivity (F (ray k n j)); [|reflexivity]. f_equal. rewrite <- ray_turn by auto. unfold back, turn. cbn [fst snd].
      rewrite cos_neg, sin_neg. set (t := 2 * PI / INR n). generalize (sin2_cos2 t). unfold Rsqr. intros U.
      destruct (ray k n j) as [a b]. cbn [fst snd]. f_equal.
      * replace (cos t * (cos t * a - sin t * b) - - sin t * (sin t * a + cos t * b)) with ((sin t * sin t + cos t * cos t) * a) by ring. rewrite U. ring.
      * replace (- sin t * (cos t * a - sin t * b) + cos t * (sin t * a + cos t * b)) with ((sin t * sin t + cos t * cos t) * b) by ring. rewrite U. ring.
  - intros j. unfold F. rewrite map_map. f_equal. apply map_ext. intros d. f_equal. unfold back, turn, turn3. cbn [fst snd x3 y3].
    rewrite cos_neg, sin_neg. ring.
Qed.

(** ** The wave number *)
Lemma argmax_from_spec l : forall pre best m, nth_error pre best = Some m ->
  (forall x, In x pre -> x <= m) -> (forall j x, (j < best)%nat -> nth_error pre j = Some x -> x < m) ->
  exists m', nth_error (pre ++ l) (argmax_from best m (length pre) l) = Some m' /\
    (forall x, In x (pre ++ l) -> x <= m') /\
    (forall j x, (j < argmax_from best m (length pre) l)%nat -> nth_error (pre ++ l) j = Some x -> x < m').
Proof.
  induction l as [|y l IH]; intros pre best m Nb Le Lt; cbn [argmax_from].
  - rewrite app_nil_r. eauto.
  - assert (Lb : (best < length pre)%nat) by (apply nth_error_Some; congruence).
    replace (pre ++ y :: l) with ((pre ++ [y]) ++ l) by (rewrite <- app_assoc; auto).
    replace (S (length pre)) with (length (pre ++ [y])) by (rewrite app_length; cbn; lia).
    destruct (Rlt_dec m y) as [H|H].
    + specialize (IH (pre ++ [y]) (length pre) y). apply IH.
      * rewrite nth_error_app2, Nat.sub_diag by auto. reflexivity.
      * intros x I. apply in_app_or in I. destruct I as [I|[->|[]]]; [|lra]. specialize (Le x I). lra.
      * intros j x Hj E. rewrite nth_error_app1 in E by auto. specialize (Le x (nth_error_In _ _ E)). lra.
    + specialize (IH (pre ++ [y]) best m). apply IH.
      * rewrite nth_error_app1; auto.
      * intros x I. apply in_app_or in I. destruct I as [I|[->|[]]]; [auto|lra].
      * intros j x Hj E. rewrite nth_error_app1 in E by lia. eauto.
Qed.
Lemma argmax_spec l : l <> [] -> exists m, nth_error l (argmax l) = Some m /\
  (forall j x, nth_error l j = Some x -> x <= m) /\ (forall j x, (j < argmax l)%nat -> nth_error l j = Some x -> x < m).
Proof.
  destruct l as [|x l]; [congruence|]. intros _. cbn [argmax].
  destruct (argmax_from_spec l [x] 0 x) as (m & A & B & C).
  - reflexivity.
  - intros y [->|[]]. lra.
  - intros j y Hj. lia.
  - exists m. cbn [app length] in *. split; auto. split; auto. intros j y E. apply B. eapply nth_error_In; eauto.
Qed.

Lemma collect_ok f l ss : collect f l = inl ss <-> Forall2 (fun k s => f k = inl s) l ss.
Proof.
  revert ss. induction l as [|k l IH]; intros ss; cbn [collect].
  - split; [intros [= <-]; constructor|intros F; inversion F; auto].
  - destruct (f k) as [s|e] eqn:E; cbn [ebind].
    + destruct (collect f l) as [ss'|e] eqn:E'; cbn [ebind].
      * split; [intros [= <-]; constructor; auto; apply IH; auto|]. intros F. inversion F as [|? s2 ? ss2 H1 H2]; subst.
        apply IH in H2. injection H2 as <-. rewrite E in H1. injection H1 as <-. auto.
      * split; [discriminate|]. intros F. inversion F as [|? s2 ? ss2 H1 H2]; subst. apply IH in H2. discriminate.
    + split; [discriminate|]. intros F. inversion F as [|? s2 ? ss2 H1 H2]; subst. congruence.
Qed.

Lemma trial_grid i : trial i = grid i.
Proof. unfold trial, grid. field. Qed.
Lemma grid_lt i j : (i < j)%nat -> grid i < grid j.
Proof. intros H. apply lt_INR in H. unfold grid. lra. Qed.
Lemma grid_range i : (i < 200)%nat -> 1 / 2 <= grid i <= 20.
Proof.
  intros H. unfold grid. assert (0 <= INR i) by apply pos_INR.
  assert (INR i <= 199) by (replace 199 with (INR 199) by (rewrite INR_IZR_INZ; reflexivity); apply le_INR; lia). lra.
Qed.

(** The two ways of writing the sum *)
Lemma zip_sum (f : R -> R -> R) : forall g r, length r = length g ->
  rsum (zip f g r) = rsum (map (fun i => f (nth i g 0) (nth i r 0)) (seq 0 (length r))).
Proof.
  induction g as [|x g IH]; intros [|y r] H; cbn in *; try discriminate; auto. injection H as H.
  rewrite <- seq_shift, map_map. unfold rsum in *. cbn [fold_right]. rewrite IH by auto. auto.
Qed.
Lemma factor_ok b radii g k num : length radii = length g -> (2 <= length radii)%nat -> volume b <> 0 -> k <> 0 ->
  static_structure_factor b radii g k num =
  inl (structure_factor (INR num / volume b) (fun i => nth i radii 0) (fun i => nth i g 0) (length radii) k).
Proof.
  intros L H V Hk. unfold static_structure_factor. destruct radii as [|r0 [|r1 rs]]; cbn in H; try lia.
  destruct (Req_EM_T (volume b) 0); [contradiction|]. f_equal. unfold structure_factor.
  rewrite fold_rsum, Rplus_0_l. rewrite (zip_sum (fun gi ri => (gi - 1) * ri * sin (k * ri)) g) by auto.
  set (l := r0 :: r1 :: rs) in *. change (nth 1 l 0) with r1. change (nth 0 l 0) with r0.
  f_equal. f_equal. rewrite Rmult_comm, <- rsum_scale, map_map. reflexivity.
Qed.

Lemma first_max_collect b radii g num ss : length radii = length g -> (2 <= length radii)%nat -> volume b <> 0 ->
  collect (fun k => static_structure_factor b radii g k num) (map trial (seq 0 200)) = inl ss ->
  first_maximum (structure_factor (INR num / volume b) (fun i => nth i radii 0) (fun i => nth i g 0) (length radii)) (trial (argmax ss)).
Proof.
  intros L H V C. apply collect_ok in C.
  set (S0 := structure_factor (INR num / volume b) (fun i => nth i radii 0) (fun i => nth i g 0) (length radii)).
  assert (Lss : length ss = 200%nat) by (rewrite <- (Forall2_len _ _ _ C), map_length, seq_length; auto).
  assert (V0 : forall j, (j < 200)%nat -> nth_error ss j = Some (S0 (grid j))).
  { intros j J. destruct (nth_error ss j) as [s|] eqn:E; [|apply nth_error_None in E; lia].
    assert (T : nth_error (map trial (seq 0 200)) j = Some (trial j)).
    { rewrite nth_error_map. rewrite (nth_error_nth' (seq 0 200) 0%nat) by (rewrite seq_length; auto). rewrite seq_nth by auto. auto. }
    assert (X := F2_nth _ _ _ C j _ _ T E). cbn beta in X. rewrite trial_grid in X. pose proof (grid_range j J).
    rewrite factor_ok in X by (auto; lra). injection X as <-. reflexivity. }
  destruct (argmax_spec ss) as (m & A & B & D); [intros ->; discriminate|].
  assert (I : (argmax ss < 200)%nat) by (rewrite <- Lss; apply nth_error_Some; congruence).
  exists (argmax ss). split; auto. split; [apply trial_grid|]. rewrite trial_grid.
  rewrite (V0 _ I) in A. injection A as <-. split.
  - intros j J. apply (B j). auto.
  - intros j J. apply (D j); auto. apply V0. lia.
Qed.
Lemma collect_total b radii g num : length radii = length g -> (2 <= length radii)%nat -> volume b <> 0 ->
  exists ss, collect (fun k => static_structure_factor b radii g k num) (map trial (seq 0 200)) = inl ss.
Proof.
  intros L H V.
  exists (map (structure_factor (INR num / volume b) (fun i => nth i radii 0) (fun i => nth i g 0) (length radii)) (map trial (seq 0 200))).
  apply collect_ok. assert (P : forall k, In k (map trial (seq 0 200)) -> k <> 0).
  { intros k I. apply in_map_iff in I. destruct I as (i & <- & I). apply in_seq in I. rewrite trial_grid. pose proof (grid_range i ltac:(lia)). lra. }
  revert P. generalize (map trial (seq 0 200)). induction l as [|k l IH]; intros P; constructor.
  - apply factor_ok; auto. apply P. left; auto.
  - apply IH. intros. apply P. right; auto.
Qed.
Lemma first_maximum_unique f k k' : first_maximum f k -> first_maximum f k' -> k = k'.
Proof.
  intros (i & I & -> & M & F) (j & J & -> & M' & F'). destruct (Nat.lt_trichotomy i j) as [H|[->|H]]; auto.
  - specialize (F' i H). specialize (M j J). lra.
  - specialize (F j H). specialize (M' i I). lra.
Qed.
Lemma volume_pos b : has_sides b -> 0 < volume b.
Proof.
  intros (X & Y & Z0). unfold volume. destruct (b2d b); [apply Rmult_lt_0_compat; auto|].
  apply Rmult_lt_0_compat; [apply Rmult_lt_0_compat; auto|auto].
Qed.
