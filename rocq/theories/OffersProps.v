(** C210: the values offered by the buttons of the interactive figure, and their order. *)
From Coq Require Import String Ascii ZArith List Bool Lia Sorted Permutation.
From Verif Require Import Base DictFacts PyStr PyStrFacts FrameModel ParamsModel MoleculeModel MoleculeProofs MoleculeSpec DirectoryProps FigureModel FigureSpec FigureProofs OffersSpec.
Import ListNotations.
Open Scope string_scope.
Notation length := List.length.

(** ** Every key stands once in its dictionary. *)
Definition once (all : level4) : Prop :=
  NoDup (dkeys all) /\ forall p l3, sget p all = Some l3 -> NoDup (dkeys l3) /\
  forall t l2, sget t l3 = Some l2 -> NoDup (dkeys l2) /\ forall c l1, sget c l2 = Some l1 -> NoDup (dkeys l1).
Lemma set_nodup {V} k (v : V) d : NoDup (dkeys d) -> NoDup (dkeys (sset k v d)).
Proof. apply dset_NoDup, String.eqb_eq. Qed.
Lemma get_or_P {V} (P : dict string V -> Prop) k (d : dict string (dict string V)) : P [] -> (forall l, sget k d = Some l -> P l) -> P (get_or k d).
Proof. intros E H. unfold get_or, dict in *. destruct (dget String.eqb k d) as [x|]; [apply (H x eq_refl)|exact E]. Qed.
Lemma once_put p t c r f all : once all -> once (put p t c r f all).
Proof.
  intros [N H]. unfold put.
  assert (G3 : NoDup (dkeys (get_or p all)) /\ forall t l2, sget t (get_or p all) = Some l2 -> NoDup (dkeys l2) /\ forall c l1, sget c l2 = Some l1 -> NoDup (dkeys l1)).
  { apply (get_or_P (fun l => NoDup (dkeys l) /\ forall t l2, sget t l = Some l2 -> NoDup (dkeys l2) /\ forall c l1, sget c l2 = Some l1 -> NoDup (dkeys l1))); [split; [constructor|discriminate]|apply H]. }
  destruct G3 as [N3 H3]. set (l3 := get_or p all) in *.
  assert (G2 : NoDup (dkeys (get_or t l3)) /\ forall c l1, sget c (get_or t l3) = Some l1 -> NoDup (dkeys l1)).
  { apply (get_or_P (fun l => NoDup (dkeys l) /\ forall c l1, sget c l = Some l1 -> NoDup (dkeys l1))); [split; [constructor|discriminate]|apply H3]. }
  destruct G2 as [N2 H2]. set (l2 := get_or t l3) in *.
  assert (N1 : NoDup (dkeys (get_or c l2))).
  { apply (get_or_P (fun l => NoDup (dkeys l))); [constructor|apply H2]. }
  set (l1 := get_or c l2) in *.
  split; [apply set_nodup; auto|]. intros p' l3' E. destruct (string_dec p' p) as [->|Ne]; [|rewrite sget_other in E by auto; apply (H _ _ E)].
  rewrite sget_same in E. injection E as <-. split; [apply set_nodup; auto|]. intros t' l2' E.
  destruct (string_dec t' t) as [->|Ne]; [|rewrite sget_other in E by auto; apply (H3 _ _ E)].
  rewrite sget_same in E. injection E as <-. split; [apply set_nodup; auto|]. intros c' l1' E.
  destruct (string_dec c' c) as [->|Ne]; [|rewrite sget_other in E by auto; apply (H2 _ _ E)].
  rewrite sget_same in E. injection E as <-. apply set_nodup; auto.
Qed.
Lemma once_parse files : forall all vs, once all -> (forall f, In f files -> exists k, file_key f k) -> parse_files files all = inl vs -> once vs.
Proof.
  induction files as [|f files IH]; intros all vs O RD E; cbn [parse_files] in E; [injection E as <-; auto|].
  destruct (proj1 (readable_file f) (RD f (or_introl eq_refl))) as (v & p & t & EV & EP & P & ET & T).
  rewrite EV in E. cbn [ebind] in E. rewrite (insert_put v f all p t) in E by auto. cbn [ebind] in E.
  eapply IH; [|intros g I; apply RD; right; exact I|exact E]. apply once_put; auto.
Qed.
Lemma parsed_once files vs : parse_directory files = inl vs -> once vs.
Proof.
  intros E. apply (once_parse files [] vs); auto.
  - split; [constructor|discriminate].
  - intros f I. eapply parsed_usable; eauto.
Qed.

(** ** The order of strings *)
Lemma leb_lt s t : String.leb s t = true -> s <> t -> String.compare s t = Lt.
Proof.
  unfold String.leb. intros H N. destruct (String.compare s t) eqn:E; auto; [|discriminate]. apply String.compare_eq_iff in E. congruence.
Qed.
Lemma sorted_once {V} (d : dict string V) : NoDup (dkeys d) -> StronglySorted (fun a b => String.compare a b = Lt) (sorted_keys d).
Proof.
  intros N. destruct (sort_strings (dkeys d)) as [S P]. unfold sorted_keys. apply (Permutation_NoDup (Permutation_sym P)) in N.
  revert S N. unfold strings_sorted. generalize (fold_right insert_sorted [] (dkeys d)). intros l S.
  induction S as [|a l S IH F]; intros N; constructor; inversion N as [|? ? Na Nl]; subst; auto.
  apply Forall_forall. intros x I. apply leb_lt; [apply (proj1 (Forall_forall _ _) F); auto|]. intros ->. auto.
Qed.
Lemma sorted_offers {V} (d : dict string V) P : NoDup (dkeys d) -> (forall x, P x <-> exists v, sget x d = Some v) -> offers P (sorted_keys d).
Proof. intros N H. split; [apply sorted_once; auto|]. intros x. rewrite H. apply sorted_keys_in. Qed.

(** ** Reading the number of hundredths: the digits, other characters left out *)
Fixpoint value (acc : Z) (s : string) : Z :=
  match s with
  | "" => acc
  | String c s' => match digit c with Some d => value (10 * acc + d) s' | None => value acc s' end
  end%Z.
Inductive shape : string -> string -> Prop :=
| shape_end : shape "" ""
| shape_digit c d a b : is_digit c = true -> is_digit d = true -> shape a b -> shape (String c a) (String d b)
| shape_same c a b : shape a b -> is_digit c = false -> shape (String c a) (String c b).
Lemma digit_bound c d : digit c = Some d -> (0 <= d <= 9)%Z.
Proof. unfold digit. destruct (_ && _) eqn:E; [|discriminate]. intros H. injection H as <-. apply andb_true_iff in E. lia. Qed.
Lemma value_step a b : shape a b -> forall x y, (x < y)%Z -> (value x a < value y b)%Z.
Proof.
  induction 1 as [|c d a b C D S IH|c a b S IH C]; intros x y L; cbn [value]; auto.
  - unfold is_digit in C, D. destruct (digit c) as [u|] eqn:U; [|discriminate]. destruct (digit d) as [v|] eqn:V; [|discriminate].
    apply IH. apply digit_bound in U, V. lia.
  - unfold is_digit in C. destruct (digit c); [discriminate|]. auto.
Qed.
Lemma value_order a b : shape a b -> forall x, String.compare a b = Lt -> (value x a < value x b)%Z.
Proof.
  induction 1 as [|c d a b C D S IH|c a b S IH C]; intros x; cbn [String.compare]; [discriminate| |].
  - unfold is_digit in C, D. destruct (digit c) as [u|] eqn:U; [|discriminate]. destruct (digit d) as [v|] eqn:V; [|discriminate].
    cbn [value]. rewrite U, V. destruct (Ascii.compare c d) eqn:E; intros H; try discriminate.
    + apply Ascii.compare_eq_iff in E. subst d. assert (u = v) by congruence. subst v. apply IH. auto.
    + apply value_step; auto. unfold digit in U, V. destruct (_ && _) in U; [|discriminate]. destruct (_ && _) in V; [|discriminate].
      injection U as <-. injection V as <-. unfold Ascii.compare in E. apply N.compare_lt_iff in E. unfold nat_of_ascii. rewrite !N_nat_Z. apply N2Z.inj_lt in E. revert E. generalize (Z.of_N (N_of_ascii c)), (Z.of_N (N_of_ascii d)). intros. lia.
  - unfold is_digit in C. cbn [value]. destruct (digit c); [discriminate|].
    unfold Ascii.compare. rewrite N.compare_refl. apply IH.
Qed.
Lemma value_app a : all_digits a -> forall x b, value x (a ++ b) = value (value x a) b.
Proof.
  induction a as [|c a IH]; intros D x b; cbn [append value]; auto.
  assert (Dc : is_digit c = true) by (apply D; left; auto). unfold is_digit in Dc. destruct (digit c); [|discriminate]. apply IH. intros d I. apply D. right. auto.
Qed.
Lemma value_digits a : all_digits a -> forall x u n, digits x u a = Some n -> value x a = n.
Proof.
  induction a as [|c a IH]; intros D x u n; cbn [digits value]; [destruct u; congruence|].
  assert (Dc : is_digit c = true) by (apply D; left; auto). unfold is_digit in Dc. destruct (digit c); [|discriminate]. apply IH. intros d I. apply D. right. auto.
Qed.
Lemma dec_digits n : (0 <= n)%Z -> all_digits (dec n) /\ value 0 (dec n) = n.
Proof.
  intros H. unfold dec. replace (n <? 0)%Z with false by (symmetry; apply Z.ltb_ge; lia). destruct (dec_nonneg_spec n H) as (A & _ & B).
  split; auto. apply (value_digits _ B 0%Z false); auto.
Qed.
Lemma hundredths_value s h : hundredths s h -> value 0 s = h.
Proof.
  intros (n & d1 & d2 & (N & D1 & D2 & ->) & ->). destruct (dec_digits n N) as [A B]. rewrite value_app by auto. rewrite B.
  cbn [append value]. change (digit ".") with (@None Z). cbn [value]. rewrite !digit_digit_char by lia. cbn [value]. lia.
Qed.
Lemma shape_digits a : forall b u v, all_digits a -> all_digits b -> String.length a = String.length b -> shape u v -> shape (a ++ u) (b ++ v).
Proof.
  induction a as [|c a IH]; intros [|d b] u v A B L S; cbn in L; try discriminate; cbn [append]; auto.
  apply shape_digit; [apply A; left; auto|apply B; left; auto|]. apply IH; auto; intros x I; [apply A|apply B]; right; auto.
Qed.
Lemma hundredths_shape a b h h' : hundredths a h -> hundredths b h' -> String.length a = String.length b -> shape a b.
Proof.
  intros (n & d1 & d2 & (N & D1 & D2 & _) & ->) (n' & d1' & d2' & (N' & D1' & D2' & _) & ->) L.
  assert (Q : forall x y, String.length (x ++ y) = (String.length x + String.length y)%nat) by (intros x y; induction x; cbn; auto).
  rewrite !Q in L. cbn in L. apply shape_digits; [apply dec_digits; auto|apply dec_digits; auto|lia|].
  assert (G : forall d, (0 <= d <= 9)%Z -> is_digit (digit_char d) = true) by (intros d Hd; unfold is_digit; rewrite digit_digit_char by lia; auto).
  apply shape_same; [|reflexivity]. repeat apply shape_digit; auto. constructor.
Qed.
Lemma sorted_numerical l n : StronglySorted (fun a b => String.compare a b = Lt) l -> (forall x, In x l -> String.length x = n) -> numerical l.
Proof.
  intros S W i j a b h h' L A B Ha Hb. revert i j L A B. induction S as [|c l S IH F]; intros [|i] [|j] L A B; try lia; try (cbn in *; discriminate).
  - cbn in A, B. injection A as ->. assert (Ib : In b l) by (eapply nth_error_In; eauto).
    rewrite <- (hundredths_value a h Ha), <- (hundredths_value b h' Hb). apply value_order.
    + apply (hundredths_shape a b h h'); auto. rewrite (W a), (W b); auto; [right; auto|left; auto].
    + apply (proj1 (Forall_forall _ _) F). auto.
  - apply (IH (fun x I => W x (or_intror I)) i j); auto. lia.
Qed.

(** ** C210 *)
Theorem C210_offers_partial : forall (F O D : Type) (timestep : F -> Z) (render : option O -> F -> D + exn) open_file
    create models files orders orders' s0 h s,
  make_document timestep render open_file create models files orders = (orders', inl s0) ->
  history timestep render open_file s0 h s ->
  exists p c, pressure s = inl p /\ crystal s = inl c /\
    offers (fun x => exists t c r, occurs files (x, t, c, r)) (f_pressures s) /\
    offers (fun x => exists c r, occurs files (p, x, c, r)) (f_topts s) /\
    offers (fun x => exists r, occurs files (p, temperature s, x, r)) (f_clabels s) /\
    offers (fun x => occurs files (p, temperature s, c, x)) (f_iopts s).
Proof.
  intros F O D timestep render open_file create models files orders orders' s0 h s H H0.
  destruct (started_full _ _ _ _ _ _ _ _ _ H) as (FU0 & PD & _). destruct (parsed _ _ PD) as [NE LK]. pose proof (parsed_once _ _ PD) as ON.
  destruct (hist_full _ _ _ _ _ _ NE FU0 H0) as (FU & V & _). rewrite <- V in LK, ON, NE. clear - FU LK ON NE.
  destruct FU as (p & l3 & l2 & c & l1 & lf & (P1 & P & P3) & (T1 & T2 & T) & (C1 & C2 & C & C3) & (I1 & I2 & J)).
  destruct ON as [N4 H4]. destruct (H4 _ _ P3) as [N3 H3]. destruct (H3 _ _ T) as [N2 H2]. pose proof (H2 _ _ C3) as N1.
  assert (OC : forall k, occurs files k <-> exists f, lookup (f_vs s) k = Some f).
  { intros k. destruct (LK k) as (r & LW & E). rewrite E. split.
    - intros (f & If & Kf). destruct r as [g|]; cbn; [eauto|]. exfalso. apply (LW f); auto.
    - intros (f & E'). destruct r as [g|]; [|discriminate]. destruct LW as (a & b & -> & K & _). exists g. split; auto. apply in_or_app. right. left. auto. }
  exists p, c. split; [auto|]. split; [auto|].
  assert (Some_key : forall (V : Type) (d : dict string V), d <> [] -> exists k v, sget k d = Some v) by (intros W d Nd; destruct (first_key d Nd) as (k & v & _ & E); eauto).
  rewrite P1, T2, T1, C2, C1, I2, I1. split; [|split; [|split]]; apply sorted_offers; auto; intros x.
  - split.
    + intros (t & cc & r & Q). apply OC in Q. destruct Q as (f & Q). cbn in Q. destruct (sget x (f_vs s)) as [m|]; [eauto|discriminate].
    + intros (m3 & M3). destruct (NE _ _ M3) as [A3 B3]. destruct (Some_key _ _ A3) as (t & m2 & M2). destruct (B3 _ _ M2) as [A2 B2].
      destruct (Some_key _ _ A2) as (cc & m1 & M1). destruct (Some_key _ _ (B2 _ _ M1)) as (r & f & M0).
      exists t, cc, r. apply OC. exists f. unfold lookup. rewrite M3, M2, M1. auto.
  - destruct (NE _ _ P3) as [_ B3]. split.
    + intros (cc & r & Q). apply OC in Q. destruct Q as (f & Q). cbn in Q. rewrite P3 in Q. destruct (sget x l3) as [m|]; [eauto|discriminate].
    + intros (m2 & M2). destruct (B3 _ _ M2) as [A2 B2]. destruct (Some_key _ _ A2) as (cc & m1 & M1). destruct (Some_key _ _ (B2 _ _ M1)) as (r & f & M0).
      exists cc, r. apply OC. exists f. unfold lookup. rewrite P3, M2, M1. auto.
  - destruct (NE _ _ P3) as [_ B3]. destruct (B3 _ _ T) as [_ B2]. unfold temperature. split.
    + intros (r & Q). apply OC in Q. destruct Q as (f & Q). cbn in Q. rewrite P3, T in Q. destruct (sget x l2) as [m|]; [eauto|discriminate].
    + intros (m1 & M1). destruct (Some_key _ _ (B2 _ _ M1)) as (r & f & M0). exists r. apply OC. exists f. unfold lookup. rewrite P3, T, M1. auto.
  - unfold temperature. rewrite OC. unfold lookup. rewrite P3, T, C3. tauto.
Qed.
Print Assumptions C210_offers_partial.
Theorem C210_numerical_partial : forall (F O D : Type) (timestep : F -> Z) (render : option O -> F -> D + exn) open_file
    create models files orders orders' s0 h s n,
  make_document timestep render open_file create models files orders = (orders', inl s0) ->
  history timestep render open_file s0 h s ->
  ((forall p t c r, occurs files (p, t, c, r) -> String.length p = n) -> numerical (f_pressures s)) /\
  ((forall p t c r, occurs files (p, t, c, r) -> String.length t = n) -> numerical (f_topts s)).
Proof.
  intros F O D timestep render open_file create models files orders orders' s0 h s n H H0.
  destruct (C210_offers_partial _ _ _ _ _ _ _ _ _ _ _ _ _ _ H H0) as (p & c & _ & _ & (S1 & W1) & (S2 & W2) & _).
  split; intros Q; eapply sorted_numerical; eauto.
  - intros x I. apply W1 in I. destruct I as (t & cc & r & K). eapply Q; eauto.
  - intros x I. apply W2 in I. destruct I as (cc & r & K). eapply Q; eauto.
Qed.
Print Assumptions C210_numerical_partial.

(** ** A directory with pressures 2.00 and 13.50 *)
Definition o_files : list string := ["d/dump-Trimer-P2.00-T1.30-p2.gsd"; "d/dump-Trimer-P13.50-T1.30-p2.gsd"; "d/dump-Trimer-P13.50-T0.40-p2.gsd"; "d/dump-Trimer-P13.50-T0.40-p2gg.gsd"].
Definition o_open (f : string) : list (nat + exn) + exn := inl [inl 0%nat].
Definition o_rd (o : option unit) (f : nat) : nat + exn := inl f.
Definition o_mk (m : string) : unit + exn := inl tt.
Definition o_doc := make_document Z.of_nat o_rd o_open o_mk [] o_files [("None", None)].
Theorem C210_numerical_refuted : exists s0, o_doc = ([("None", None)], inl s0) /\ f_pressures s0 = ["13.50"; "2.00"] /\ ~ numerical (f_pressures s0).
Proof.
  eexists. split; [vm_compute; reflexivity|]. split; [reflexivity|]. intros N.
  assert (1350 < 200)%Z; [|lia]. apply (N 0%nat 1%nat "13.50" "2.00"); auto.
  - exists 13%Z, 5%Z, 0%Z. split; [lia|reflexivity].
  - exists 2%Z, 0%Z, 0%Z. split; [lia|reflexivity].
Qed.
Print Assumptions C210_numerical_refuted.
(** The temperatures of the first pressure, and the crystals of the first of these *)
Example C210_example : exists s0, o_doc = ([("None", None)], inl s0) /\ f_topts s0 = ["0.40"; "1.30"] /\ f_clabels s0 = ["p2"; "p2gg"] /\
  exists s, history Z.of_nat o_rd o_open s0 [(APressure 1, None)] s /\ f_topts s = ["1.30"] /\ f_clabels s = ["p2"].
Proof.
  eexists. split; [vm_compute; reflexivity|]. split; [reflexivity|]. split; [reflexivity|]. eexists. split.
  - eapply (h_step _ _ _ _ [] _ (APressure 1)); [apply h_start|cbn; lia|vm_compute; reflexivity].
  - split; reflexivity.
Qed.

(** ** C211: choosing a model *)
Lemma loads_complete {O} (create : string -> O + exn) models : forall d d', add_models create models d = (d', None) -> loads create models models.
Proof.
  induction models as [|m ms IH]; intros d d' H; [constructor|]. cbn [add_models] in H. destruct (create m) as [o|e] eqn:E; [|discriminate].
  econstructor; eauto.
Qed.
Lemma choose_label {F O D} (s : fig F O D) label o : f_labels s = dkeys (f_orders s) -> dget String.eqb label (f_orders s) = Some o -> can_choose s o.
Proof.
  intros L G. assert (I : In label (dkeys (f_orders s))) by (apply (dget_In String.eqb String.eqb_eq); congruence).
  destruct (In_nth_error _ _ I) as (i & E). exists i. rewrite L. split; [apply nth_error_Some; congruence|].
  unfold get_order_function. change (f_orders (set_oact i s)) with (f_orders s). change (f_oact (set_oact i s)) with i.
  unfold item. rewrite E. cbn [andthen]. unfold at_. rewrite G. auto.
Qed.
Theorem C211_models_partial : forall (F O D : Type) (timestep : F -> Z) (render : option O -> F -> D + exn) open_file
    create models files orders orders' s0 h s,
  make_document timestep render open_file create models files orders = (orders', inl s0) ->
  history timestep render open_file s0 h s ->
  (forall before m after, models = (before ++ m :: after)%list -> (forall x, In x after -> path_stem x <> path_stem m) ->
     exists o, create m = inl o /\ can_choose s (Some o)) /\
  (forall label o, dget String.eqb label orders = Some o -> (forall x, In x models -> path_stem x <> label) -> can_choose s o).
Proof.
  intros F O D timestep render open_file create models files orders orders' s0 h s MK HI.
  destruct (started_full _ _ _ _ _ _ _ _ _ MK) as (FU0 & PD & O0 & L0). destruct (parsed _ _ PD) as [NE _].
  destruct (hist_full _ _ _ _ _ _ NE FU0 HI) as (_ & _ & OO & LL).
  assert (LB : f_labels s = dkeys (f_orders s)) by (rewrite LL, L0, OO, O0; auto).
  assert (AM : add_models create models orders = (orders', None)).
  { revert MK. unfold make_document. destruct (add_models create models orders) as [o1 [e|]]; [discriminate|]. intros H. injection H as <- _. auto. }
  pose proof (loads_complete _ _ _ _ AM) as LO. rewrite O0 in OO. split.
  - intros before m after -> N. destruct (add_under _ _ _ LO _ _ _ (path_stem m) AM) as [(x & y & z & o & E & S & C & G & M)|[M _]].
    + assert (y = m).
      { clear - E S M N. revert before E. induction x as [|a x IH]; intros [|b before] E; cbn in E; injection E as E1 E; subst.
        - auto.
        - exfalso. apply (M m); auto. apply in_or_app. right. left. auto.
        - exfalso. apply (N y); auto. apply in_or_app. right. left. auto.
        - eapply IH; eauto. }
      subst y. exists o. split; auto. eapply choose_label; eauto. rewrite OO. eauto.
    + exfalso. apply (M m); auto. apply in_or_app. right. left. auto.
  - intros label o G N. destruct (add_under _ _ _ LO _ _ _ label AM) as [(x & y & z & o' & E & S & _)|[_ E]].
    + exfalso. apply (N y); auto. rewrite E. apply in_or_app. right. left. auto.
    + eapply choose_label; eauto. rewrite OO, E. auto.
Qed.
Print Assumptions C211_models_partial.

Definition m_mk (m : string) : string + exn := inl m.
Definition m_rd (o : option string) (f : nat) : nat + exn := inl f.
Definition m_orders : dict string (option string) := [("None", None); ("Orient", Some "built in")].
(** Of two models of one name the first cannot be chosen; a model called as a built-in function replaces it. *)
Theorem C211_models_refuted : exists orders' s0,
  make_document Z.of_nat m_rd o_open m_mk ["a/knn.pkl"; "b/knn.pkl"; "c/Orient.pkl"] o_files m_orders = (orders', inl s0) /\
  ~ can_choose s0 (Some "a/knn.pkl") /\ ~ can_choose s0 (Some "built in") /\ f_labels s0 = ["None"; "Orient"; "knn"].
Proof.
  do 2 eexists. split; [vm_compute; reflexivity|].
  split; [|split; [|reflexivity]]; intros (i & L & G); cbn in L; destruct i as [|[|[|i]]]; try lia; vm_compute in G; discriminate.
Qed.
Print Assumptions C211_models_refuted.
Example C211_example : exists orders' s0,
  make_document Z.of_nat m_rd o_open m_mk ["a/knn.pkl"; "b/svm.pkl"] o_files m_orders = (orders', inl s0) /\
  can_choose s0 (Some "a/knn.pkl") /\ can_choose s0 (Some "b/svm.pkl") /\ can_choose s0 (Some "built in").
Proof.
  do 2 eexists. split; [vm_compute; reflexivity|]. split; [|split]; [exists 2%nat|exists 3%nat|exists 1%nat]; split; try (cbn; lia); vm_compute; reflexivity.
Qed.
