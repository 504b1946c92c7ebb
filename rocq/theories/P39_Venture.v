(** C63: a cgpm defined by a Venturescript program conditions its program on the data it was
    given, no more and no less. *)
From Verif Require Import VentureFacts.
From Coq Require Import Classical Reals Lra.
Local Open Scope Z_scope.
From Coq Require DecimalZ DecimalPos.

(* ------------------------------------------------------------------ *)
(** ** Specification: the data are the observations the program is conditioned on. *)
Section Spec.
Context {V : Type} (isnan : V -> bool).

(** The data of a cgpm. *)
Definition held (c : vs V) : list (cell V) := map snd (p_obs (vs_ripl c)).
(** There are data on row [r]; and on its output [q]. *)
Definition known (data : list (cell V)) (r : Z) : Prop := exists x, In x data /\ c_row x = r.
Definition filled (outs : list Z) (data : list (cell V)) (r q : Z) : Prop :=
  exists x, In x data /\ c_row x = r /\ nth_error outs (c_out x) = Some q.
(** [x] is the observation [qv] of row [r] under the inputs [xs]. *)
Definition describes (outs : list Z) (r : Z) (xs : list V) (qv : Z * V) (x : cell V) : Prop :=
  c_row x = r /\ nth_error outs (c_out x) = Some (fst qv) /\ c_in x = xs /\ c_val x = snd qv.
(** The dictionary gives just the named inputs, with the values [xs]. *)
Definition agrees (names : list Z) (inputs : dict V) (xs : list V) : Prop :=
  incl (dkeys inputs) names /\ Forall2 (fun i v => dget i inputs = Some v) names xs.
(** The inputs of the row: those given, which agree with the data on it, or when none are
    given those of the data on it. *)
Definition row_inputs (names : list Z) (data : list (cell V)) (r : Z) (inputs : dict V) (xs : list V) : Prop :=
  (forall i v, In (i, v) inputs -> isnan v = false) /\
  (agrees names inputs xs \/ inputs = [] /\ known data r) /\
  forall x, In x data -> c_row x = r -> c_in x = xs.
(** An observation may be added: of outputs not yet observed, numbers all. *)
Definition admissible (outs names : list Z) (data : list (cell V)) (r : Z) (observation inputs : dict V) (xs : list V) : Prop :=
  observation <> [] /\ (forall q v, In (q, v) observation -> In q outs /\ isnan v = false /\ ~ filled outs data r q) /\
  row_inputs names data r inputs xs.
(** A query may be asked: of outputs, under constraints on other outputs not observed. *)
Definition askable (outs names : list Z) (data : list (cell V)) (r : Z) (targets : list Z) (constraints inputs : dict V) (xs : list V) : Prop :=
  incl targets outs /\ (forall q v, In (q, v) constraints -> In q outs /\ isnan v = false /\ ~ filled outs data r q /\ ~ In q targets) /\
  row_inputs names data r inputs xs.
End Spec.

(** The labels the code generates: no two alike, none in use. *)
Definition fresh {V} (lab : nat -> Z) (c : vs V) : Prop :=
  (forall i j, lab i = lab j -> i = j) /\ forall i, ~ In (lab i) (p_labels (vs_ripl c)).

(* ------------------------------------------------------------------ *)
(** ** Invariant *)
Section Invariant.
Context {V : Type} (isnan : V -> bool) (veq : V -> V -> bool) (accepts : cell V -> bool)
  (draw : ripl V -> Z -> nat -> list V -> Z -> V).
Hypothesis veq_spec : forall a b, veq a b = true <-> a = b.
Hypothesis accepts_all : forall x, accepts x = true.
Notation incorporate := (vs_incorporate isnan veq accepts).
Notation simulate := (vs_simulate isnan veq accepts draw).

Record vs_ok (c : vs V) : Prop := VsOk {
  k_outs : NoDup (vs_out c);
  k_rows : NoDup (dkeys (vs_obs c));
  k_labels : NoDup (map fst (p_obs (vs_ripl c)));
  k_preds : p_pred (vs_ripl c) = [];
  k_row : forall r w, dget r (vs_obs c) = Some w -> NoDup (dkeys (r_labels w)) /\ r_labels w <> [] /\
    exists d xs, r_inputs w = Some d /\ NoDup (dkeys d) /\ incl (dkeys d) (vs_in c) /\ inputs_list (vs_in c) d = Ok xs /\
      (forall i v, In (i, v) d -> isnan v = false) /\
      forall q l, In (q, l) (r_labels w) -> In q (vs_out c) /\ exists v, In (l, Cell r (place (vs_out c) q) xs v) (p_obs (vs_ripl c));
  k_cell : forall l x, In (l, x) (p_obs (vs_ripl c)) -> isnan (c_val x) = false /\
    exists w q, dget (c_row x) (vs_obs c) = Some w /\ In (q, l) (r_labels w) /\ out_index q (vs_out c) = Some (c_out x) }.

Lemma nth_index outs : NoDup outs -> forall i q, nth_error outs i = Some q <-> out_index q outs = Some i.
Proof.
  induction outs as [|a outs IH]; intros Hd i q; [destruct i; split; discriminate|]. inversion Hd as [|? ? Hn Hd']; subst. cbn.
  destruct i as [|i]; cbn.
  - destruct (Z.eqb_spec q a) as [->|N]; [split; reflexivity|]. split; [intros [= ->]; congruence|]. destruct (out_index q outs); discriminate.
  - rewrite IH by exact Hd'. destruct (Z.eqb_spec q a) as [->|N].
    + split; [|discriminate]. intros H. exfalso. apply Hn. apply out_index_in. exists i. exact H.
    + destruct (out_index q outs) as [j|]; cbn; split; try discriminate; intros [= ->]; reflexivity.
Qed.
Lemma place_nth outs q : In q outs -> nth_error outs (place outs q) = Some q.
Proof.
  unfold place. induction outs as [|a outs IH]; [intros []|]. intros H. cbn. destruct (Z.eqb_spec q a) as [->|N]; [reflexivity|].
  destruct H as [H|H]; [congruence|]. apply IH in H. destruct (out_index q outs) as [j|] eqn:E; cbn; [exact H|].
  exfalso. assert (In q outs) as K by (destruct outs; [discriminate|cbn in H; injection H as <-; left; reflexivity]).
  apply out_index_in in K. destruct K as [i K]. congruence.
Qed.

Lemma row_vals c r w : vs_ok c -> dget r (vs_obs c) = Some w -> NoDup (dvals (r_labels w)).
Proof.
  intros H Hw. destruct (k_row c H r w Hw) as [Hk [_ [d [xs [_ [_ [_ [_ [_ Hl]]]]]]]]]. pose proof (k_labels c H) as Hlab.
  revert Hk Hl. generalize (r_labels w). intros L. induction L as [|[q l] L IH]; intros Hk Hl; cbn; [constructor|].
  cbn in Hk. inversion Hk as [|? ? Hn Hk']; subst. fold (dkeys L) in *. constructor.
  - intros K. apply in_map_iff in K. destruct K as [[q' l'] [E K]]. cbn in E. subst l'.
    destruct (Hl q l (or_introl eq_refl)) as [Ho [v Hv]]. destruct (Hl q' l (or_intror K)) as [Ho' [v' Hv']].
    pose proof (NoDup_fst_inj _ _ _ _ Hlab Hv Hv') as E. injection E as E _.
    assert (Eq : q = q').
    { unfold place in E. apply out_index_in in Ho, Ho'. destruct Ho as [i Ei], Ho' as [i' Ei']. rewrite Ei, Ei' in E. subst i'. apply (out_index_inj q q' _ i Ei Ei'). }
    subst q'. apply Hn. change q with (fst (q, l)). apply in_map, K.
  - apply IH; [exact Hk'|]. intros q' l' K. apply Hl. right; exact K.
Qed.
Lemma in_held (c : vs V) l x : In (l, x) (p_obs (vs_ripl c)) -> In x (held c).
Proof. intros H. exact (in_map snd _ _ H). Qed.
Lemma known_row c r : vs_ok c -> (known (held c) r <-> exists w, dget r (vs_obs c) = Some w).
Proof.
  intros H. split.
  - intros [x [Hx <-]]. unfold held in Hx. apply in_map_iff in Hx. destruct Hx as [[l x'] [<- Hx]]. destruct (k_cell c H l x' Hx) as [_ [w [q [Hw _]]]]. exists w. exact Hw.
  - intros [w Hw]. destruct (k_row c H r w Hw) as [_ [Hne [d [xs [_ [_ [_ [_ [_ Hl]]]]]]]]]. destruct (r_labels w) as [|[q l] L]; [congruence|].
    destruct (Hl q l (or_introl eq_refl)) as [_ [v Hv]]. exists (Cell r (place (vs_out c) q) xs v). split; [apply (in_held c l), Hv|reflexivity].
Qed.
Lemma filled_row c r w q : vs_ok c -> dget r (vs_obs c) = Some w -> (filled (vs_out c) (held c) r q <-> In q (dkeys (r_labels w))).
Proof.
  intros H Hw. destruct (k_row c H r w Hw) as [_ [_ [d [xs [_ [_ [_ [_ [_ Hl]]]]]]]]]. split.
  - intros [x [Hx [Hr Hn]]]. unfold held in Hx. apply in_map_iff in Hx. destruct Hx as [[l x'] [E Hx]]. cbn in E. subst x'.
    destruct (k_cell c H l x Hx) as [_ [w' [q' [Hw' [Hq' Ei]]]]]. rewrite Hr, Hw in Hw'. injection Hw' as <-.
    apply (nth_index _ (k_outs c H)) in Hn. pose proof (out_index_inj q q' _ _ Hn Ei) as ->. change q' with (fst (q', l)). apply in_map, Hq'.
  - intros Hq. apply in_map_iff in Hq. destruct Hq as [[q' l] [E Hq]]. cbn in E. subst q'. destruct (Hl q l Hq) as [Ho [v Hv]].
    exists (Cell r (place (vs_out c) q) xs v). split; [apply (in_held c l), Hv|]. split; [reflexivity|]. cbn. apply place_nth, Ho.
Qed.
Lemma filled_new c r q : vs_ok c -> dget r (vs_obs c) = None -> ~ filled (vs_out c) (held c) r q.
Proof. intros H Hw [x [Hx [Hr _]]]. destruct (proj1 (known_row c r H)) as [w K]; [exists x; auto|congruence]. Qed.
Lemma row_in c r w d xs : vs_ok c -> dget r (vs_obs c) = Some w -> r_inputs w = Some d -> inputs_list (vs_in c) d = Ok xs ->
  forall x, In x (held c) -> c_row x = r -> c_in x = xs.
Proof.
  intros H Hw Hd Hxs x Hx Hr. destruct (k_row c H r w Hw) as [_ [_ [d' [xs' [Hd' [_ [_ [Hxs' [_ Hl]]]]]]]]]. rewrite Hd in Hd'. injection Hd' as <-. rewrite Hxs in Hxs'. injection Hxs' as <-.
  unfold held in Hx. apply in_map_iff in Hx. destruct Hx as [[l x'] [E Hx]]. cbn in E. subst x'.
  destruct (k_cell c H l x Hx) as [_ [w' [q' [Hw' [Hq' _]]]]]. rewrite Hr, Hw in Hw'. injection Hw' as <-.
  destruct (Hl q' l Hq') as [_ [v Hv]]. rewrite (NoDup_fst_inj _ _ _ _ (k_labels c H) Hx Hv). reflexivity.
Qed.

Lemma unique_cell c x y : vs_ok c -> In x (held c) -> In y (held c) -> c_row x = c_row y -> c_out x = c_out y -> x = y.
Proof.
  intros H Hx Hy Hr Ho. unfold held in Hx, Hy. apply in_map_iff in Hx, Hy. destruct Hx as [[l x'] [E Hx]], Hy as [[l' y'] [E' Hy]]. cbn in E, E'. subst x' y'.
  destruct (k_cell c H l x Hx) as [_ [w [q [Hw [Hq Ei]]]]], (k_cell c H l' y Hy) as [_ [w' [q' [Hw' [Hq' Ei']]]]].
  rewrite Hr, Hw' in Hw. injection Hw as ->. rewrite Ho in Ei. pose proof (out_index_inj _ _ _ _ Ei Ei') as ->.
  destruct (k_row c H _ _ Hw') as [Hk _]. pose proof (NoDup_fst_inj _ _ _ _ Hk Hq Hq') as ->. apply (NoDup_fst_inj _ _ _ _ (k_labels c H) Hx Hy).
Qed.

Lemma deqb_spec a b : NoDup (dkeys a) -> NoDup (dkeys b) -> (deqb veq a b = true <-> forall k, dget k a = dget k b).
Proof.
  intros Ha Hb. unfold deqb. rewrite andb_true_iff, Nat.eqb_eq, forallb_forall. split.
  - intros [Hlen Hall] k.
    assert (Hsub : forall k v, dget k a = Some v -> dget k b = Some v).
    { intros k' v Hk. specialize (Hall (k', v) (dget_In _ _ _ Hk)). cbn in Hall. destruct (dget k' b) as [v'|]; [|discriminate]. apply veq_spec in Hall. congruence. }
    destruct (dget k a) as [v|] eqn:E; [symmetry; apply Hsub, E|]. destruct (dget k b) as [v|] eqn:E2; [|reflexivity]. exfalso.
    assert (Hi : incl (dkeys a) (dkeys b)). { intros q Hq. apply in_dkeys_Some in Hq. destruct Hq as [u Hu]. apply Hsub in Hu. apply dget_Some_in in Hu. exact Hu. }
    assert (Hl : (length (dkeys b) <= length (dkeys a))%nat) by (unfold dkeys; rewrite !map_length; lia).
    pose proof (NoDup_length_incl Ha Hl Hi) as Hi2. apply dget_None_notin in E. apply E, Hi2. apply dget_Some_in in E2. exact E2.
  - intros H. assert (P : Permutation a b) by (apply dict_ext_perm; assumption). split; [apply Permutation_length, P|].
    intros [k v] Hk. cbn. rewrite <- H, (dget_In_NoDup k v a Ha Hk). apply veq_spec. reflexivity.
Qed.
Lemma agrees_iff names d xs inputs : NoDup (dkeys inputs) -> NoDup (dkeys d) -> incl (dkeys d) names -> inputs_list names d = Ok xs ->
  (deqb veq inputs d = true <-> agrees names inputs xs).
Proof.
  intros Hi Hd Hn Hx. rewrite deqb_spec by assumption. apply inputs_list_get in Hx. unfold agrees. split.
  - intros H. split.
    + intros k Hk. apply Hn. apply in_dkeys_Some in Hk. destruct Hk as [v Hv]. rewrite H in Hv. apply dget_Some_in in Hv. exact Hv.
    + clear - Hx H. induction Hx; constructor; [rewrite H; assumption|assumption].
  - intros [H1 H2] k. destruct (in_dec Z.eq_dec k names) as [K|K].
    + clear - Hx H2 K. revert H2. induction Hx as [|i v names xs E Hx IH]; intros H2; [destruct K|]. inversion H2 as [|? ? ? ? E' H2']; subst.
      destruct K as [->|K]; [congruence|]. apply IH; assumption.
    + assert (A : dget k inputs = None) by (apply dget_None_notin; intros Q; apply K, H1, Q). assert (B : dget k d = None) by (apply dget_None_notin; intros Q; apply K, Hn, Q). congruence.
Qed.
Lemma agrees_set names (inputs : dict V) : same_set (dkeys inputs) names = true <-> exists xs, agrees names inputs xs.
Proof.
  rewrite same_set_spec. unfold agrees. split.
  - intros [H1 H2]. destruct (inputs_list_ok names inputs H2) as [xs Hx]. exists xs. split; [exact H1|]. apply inputs_list_get, Hx.
  - intros [xs [H1 H2]]. split; [exact H1|]. clear H1. intros i Hi. induction H2 as [|j v names xs E H2 IH]; [destruct Hi|].
    destruct Hi as [->|Hi]; [apply dget_Some_in in E; exact E|apply IH, Hi].
Qed.
Lemma anynan_spec (d : dict V) : anynan isnan d = false <-> forall i v, In (i, v) d -> isnan v = false.
Proof. unfold anynan. rewrite existsb_false. split; [intros H i v Hi; exact (H (i, v) Hi)|intros H [i v] Hi; exact (H i v Hi)]. Qed.
Lemma agrees_list names (inputs : dict V) xs : agrees names inputs xs -> inputs_list names inputs = Ok xs.
Proof. intros [_ H]. apply inputs_list_get, H. Qed.

Lemma in_tags lab items : forall k q l, In (q, l) (tags (V := V) lab k items) -> exists v, In (q, v) items /\ forall outs r xs, In (l, Cell r (place outs q) xs v) (adds outs r xs lab k items).
Proof.
  induction items as [|[q0 v0] items IH]; intros k q l; cbn; [intros []|]. intros [E|H].
  - injection E as -> <-. exists v0. split; [left; reflexivity|]. intros. left; reflexivity.
  - destruct (IH _ _ _ H) as [v [Hv Ha]]. exists v. split; [right; exact Hv|]. intros. right; apply Ha.
Qed.
Lemma in_adds outs r xs lab items : forall k l x, In (l, x) (adds (V := V) outs r xs lab k items) ->
  exists q v, In (q, v) items /\ In (q, l) (tags lab k items) /\ x = Cell r (place outs q) xs v.
Proof.
  induction items as [|[q0 v0] items IH]; intros k l x; cbn; [intros []|]. intros [E|H].
  - injection E as <- <-. exists q0, v0. auto.
  - destruct (IH _ _ _ H) as [q [v [H1 [H2 H3]]]]. exists q, v. auto.
Qed.
Lemma adds_describe outs r xs lab items : incl (dkeys items) outs -> forall k, Forall2 (describes (V := V) outs r xs) items (map snd (adds outs r xs lab k items)).
Proof.
  induction items as [|[q v] items IH]; intros H k; cbn; [constructor|]. constructor.
  - repeat split. cbn. apply place_nth, H. left; reflexivity.
  - apply IH. intros a Ha. apply H. right; exact Ha.
Qed.

(** The validation of incorporate. *)
Lemma validate_inc c r observation inputs : vs_ok c -> NoDup (dkeys inputs) ->
  (forall xs, admissible isnan (vs_out c) (vs_in c) (held c) r observation inputs xs -> exists d L,
    validate_incorporate isnan veq c r observation inputs = Ok (set_row c r (VRow (Some d) L), d) /\
    NoDup (dkeys d) /\ incl (dkeys d) (vs_in c) /\ inputs_list (vs_in c) d = Ok xs /\ (forall i v, In (i, v) d -> isnan v = false) /\
    match dget r (vs_obs c) with Some w => r_inputs w = Some d /\ r_labels w = L | None => L = [] end) /\
  ((forall xs, ~ admissible isnan (vs_out c) (vs_in c) (held c) r observation inputs xs) ->
    validate_incorporate isnan veq c r observation inputs = Err ValueError).
Proof.
  intros H Hin. unfold validate_incorporate.
  assert (Hdm : dmem r (vs_obs c) = match dget r (vs_obs c) with Some _ => true | None => false end) by reflexivity.
  rewrite Hdm. destruct (dget r (vs_obs c)) as [w|] eqn:Ew; cbn [negb andb].
  - destruct (k_row c H r w Ew) as [Hk [Hne [d [xs0 [Hd [Hdn [Hdi [Hx0 [Hnan Hl]]]]]]]]]. rewrite Hd. unfold contradicts. rewrite Hd.
    assert (Kn : known (held c) r) by (apply (known_row c r H); eauto).
    assert (Ex : existsb (fun q => dmem q (r_labels w)) (dkeys observation) = false <-> forall q v, In (q, v) observation -> ~ filled (vs_out c) (held c) r q).
    { rewrite existsb_false. split.
      - intros K q v Hq. rewrite (filled_row c r w q H Ew). apply dmem_false. apply K. change q with (fst (q, v)). apply in_map, Hq.
      - intros K q Hq. apply dmem_false. rewrite <- (filled_row c r w q H Ew). apply in_map_iff in Hq. destruct Hq as [[q' v] [E Hq]]. cbn in E. subst q'. apply (K q v Hq). }
    split.
    + intros xs [A1 [A2 [A3 [A4 A5]]]]. assert (xs = xs0) as ->.
      { destruct Kn as [x [Hx Hr]]. rewrite <- (A5 x Hx Hr). apply (row_in c r w d xs0 H Ew Hd Hx0 x Hx Hr). } clear A5.
      exists d, (r_labels w). destruct observation as [|o observation]; [congruence|]. cbn [given negb].
      rewrite (proj2 (zsubset_spec _ _)) by (intros q Hq; apply in_map_iff in Hq; destruct Hq as [[q' v] [E Hq]]; cbn in E; subst q'; apply (A2 q v Hq)). cbn [negb].
      rewrite (proj2 (anynan_spec inputs) A3). rewrite (proj2 (anynan_spec (o :: observation))) by (intros i v Hi; apply (A2 i v Hi)).
      rewrite (proj2 Ex) by (intros q v Hq; apply (A2 q v Hq)).
      assert (E : given inputs && negb (deqb veq inputs d) = false).
      { destruct A4 as [A4|[-> _]]; [|reflexivity]. rewrite (proj2 (agrees_iff (vs_in c) d xs0 inputs Hin Hdn Hdi Hx0) A4). apply andb_false_r. }
      rewrite E. repeat split; auto.
    + intros Hno. destruct observation as [|o observation]; [reflexivity|]. cbn [given negb].
      destruct (zsubset (dkeys (o :: observation)) (vs_out c)) eqn:E1; [|reflexivity]. cbn [negb].
      destruct (anynan isnan inputs) eqn:E2; [reflexivity|]. destruct (anynan isnan (o :: observation)) eqn:E3; [reflexivity|].
      destruct (existsb (fun q => dmem q (r_labels w)) (dkeys (o :: observation))) eqn:E4; [reflexivity|].
      destruct (given inputs && negb (deqb veq inputs d)) eqn:E5; [reflexivity|]. exfalso. apply (Hno xs0).
      apply zsubset_spec in E1. rewrite anynan_spec in E2, E3. pose proof (proj1 Ex eq_refl) as E4'. clear E4. rename E4' into E4.
      split; [discriminate|]. split; [intros q v Hq; split; [apply E1; change q with (fst (q, v)); apply in_map, Hq|split; [exact (E3 q v Hq)|exact (E4 q v Hq)]]|].
      split; [exact E2|]. split.
      * destruct inputs as [|i inputs]; [right; auto|]. left. cbn [given andb] in E5. apply negb_false_iff in E5. apply (agrees_iff _ d); assumption.
      * intros x Hx Hr. apply (row_in c r w d xs0 H Ew Hd Hx0 x Hx Hr).
  - split.
    + intros xs [A1 [A2 [A3 [A4 _]]]].
      assert (Ag : agrees (vs_in c) inputs xs).
      { destruct A4 as [A4|[_ K]]; [exact A4|]. apply (known_row c r H) in K. destruct K as [w K]. congruence. }
      exists inputs, []. destruct observation as [|o observation]; [congruence|]. cbn [given negb].
      rewrite (proj2 (agrees_set (vs_in c) inputs)) by (exists xs; exact Ag). cbn [negb].
      rewrite (proj2 (zsubset_spec _ _)) by (intros q Hq; apply in_map_iff in Hq; destruct Hq as [[q' v] [E Hq]]; cbn in E; subst q'; apply (A2 q v Hq)). cbn [negb].
      rewrite (proj2 (anynan_spec inputs) A3). rewrite (proj2 (anynan_spec (o :: observation))) by (intros i v Hi; apply (A2 i v Hi)).
      repeat split; auto; [apply Ag|apply agrees_list, Ag].
    + intros Hno. destruct observation as [|o observation]; [reflexivity|]. cbn [given negb].
      destruct (same_set (dkeys inputs) (vs_in c)) eqn:E0; [|reflexivity]. cbn [negb].
      destruct (zsubset (dkeys (o :: observation)) (vs_out c)) eqn:E1; [|reflexivity]. cbn [negb].
      destruct (anynan isnan inputs) eqn:E2; [reflexivity|]. destruct (anynan isnan (o :: observation)) eqn:E3; [reflexivity|]. exfalso.
      apply agrees_set in E0. destruct E0 as [xs Ag]. apply (Hno xs). apply zsubset_spec in E1. rewrite anynan_spec in E2, E3.
      split; [discriminate|]. split; [intros q v Hq; split; [apply E1; change q with (fst (q, v)); apply in_map, Hq|split; [exact (E3 q v Hq)|apply filled_new; assumption]]|].
      split; [exact E2|]. split; [left; exact Ag|]. intros x Hx Hr. exfalso. destruct (proj1 (known_row c r H)) as [w K]; [exists x; auto|congruence].
Qed.

(** The state after observations have been added to a row. *)
Lemma grown c r d xs L lab items : vs_ok c -> fresh lab c -> items <> [] -> NoDup (dkeys items) -> incl (dkeys items) (vs_out c) ->
  (forall q v, In (q, v) items -> isnan v = false) -> (forall q, In q (dkeys items) -> ~ In q (dkeys L)) ->
  NoDup (dkeys d) -> incl (dkeys d) (vs_in c) -> inputs_list (vs_in c) d = Ok xs -> (forall i v, In (i, v) d -> isnan v = false) ->
  match dget r (vs_obs c) with Some w => r_inputs w = Some d /\ r_labels w = L | None => L = [] end ->
  vs_ok (Vs (vs_out c) (vs_in c) (dset r (VRow (Some d) (L ++ tags lab 0 items)) (vs_obs c)) (more_obs (vs_ripl c) (adds (vs_out c) r xs lab 0 items))).
Proof.
  intros H [Hinj Hfr] Hne Hnd Hout Hnan HL Hdn Hdi Hx Hdnan Hm.
  assert (HLd : NoDup (dkeys L) /\ forall q l, In (q, l) L -> In q (vs_out c) /\ exists v, In (l, Cell r (place (vs_out c) q) xs v) (p_obs (vs_ripl c))).
  { destruct (dget r (vs_obs c)) as [w|] eqn:Ew; [|subst L; split; [constructor|intros q l []]]. destruct Hm as [Hd <-].
    destruct (k_row c H r w Ew) as [Hk [_ [d' [xs' [Hd' [_ [_ [Hx' [_ Hl]]]]]]]]]. rewrite Hd in Hd'. injection Hd' as <-. rewrite Hx in Hx'. injection Hx' as <-. split; assumption. }
  destruct HLd as [HLd HLl].
  constructor; cbn [vs_out vs_in vs_obs vs_ripl more_obs p_obs p_pred].
  - apply (k_outs c H).
  - apply NoDup_dset, (k_rows c H).
  - rewrite map_app. apply NoDup_app3. split; [apply (k_labels c H)|]. rewrite adds_labels. split.
    + clear - Hinj. generalize 0%nat as k. induction (length items) as [|n IH]; intros k; cbn; [constructor|]. constructor; [|apply IH].
      intros K. apply in_map_iff in K. destruct K as [j [E K]]. apply Hinj in E. subst j. apply in_seq in K. lia.
    + intros l Hl K. apply in_map_iff in K. destruct K as [j [<- _]]. apply (Hfr j). unfold p_labels. apply in_or_app; left; exact Hl.
  - apply (k_preds c H).
  - intros r' w' Hw'. rewrite dget_dset in Hw'. destruct (Z.eqb_spec r' r) as [->|N].
    + injection Hw' as <-. cbn [r_labels r_inputs]. split; [|split].
      * unfold dkeys. rewrite map_app. apply NoDup_app3. fold (dkeys L) (dkeys (tags lab 0 items)). rewrite tags_keys. split; [exact HLd|]. split; [exact Hnd|]. intros q Hq K. exact (HL q K Hq).
      * destruct items as [|[q v] items]; [congruence|]. cbn. intros E. apply app_eq_nil in E. destruct E; discriminate.
      * exists d, xs. do 5 (split; [auto|]). intros q l Hq. apply in_app_or in Hq. destruct Hq as [Hq|Hq].
        -- destruct (HLl q l Hq) as [Ho [v Hv]]. split; [exact Ho|]. exists v. apply in_or_app; left; exact Hv.
        -- destruct (in_tags lab items _ _ _ Hq) as [v [Hv Ha]]. split; [apply Hout; change q with (fst (q, v)); apply in_map, Hv|]. exists v. apply in_or_app; right; apply Ha.
    + destruct (k_row c H r' w' Hw') as [Hk [Hn [d' [xs' [Hd' [Hdn' [Hdi' [Hx' [Hna' Hl]]]]]]]]]. split; [exact Hk|]. split; [exact Hn|].
      exists d', xs'. do 5 (split; [assumption|]). intros q l Hq. destruct (Hl q l Hq) as [Ho [v Hv]]. split; [exact Ho|]. exists v. apply in_or_app; left; exact Hv.
  - intros l x Hlx. apply in_app_or in Hlx. destruct Hlx as [Hlx|Hlx].
    + destruct (k_cell c H l x Hlx) as [Hn [w [q [Hw [Hq Ei]]]]]. split; [exact Hn|]. rewrite dget_dset. destruct (Z.eqb_spec (c_row x) r) as [E|N].
      * rewrite E in Hw. rewrite Hw in Hm. destruct Hm as [_ <-]. eexists. exists q. split; [reflexivity|]. cbn [r_labels]. split; [apply in_or_app; left; exact Hq|exact Ei].
      * exists w, q. auto.
    + destruct (in_adds _ _ _ _ _ _ _ _ Hlx) as [q [v [Hq [Ht ->]]]]. cbn [c_val c_row c_out]. split; [apply (Hnan q v Hq)|]. rewrite dget_dset_same.
      eexists. exists q. split; [reflexivity|]. cbn [r_labels]. split; [apply in_or_app; right; exact Ht|]. unfold place.
      destruct (proj1 (out_index_in q (vs_out c))) as [i Ei]; [apply Hout; change q with (fst (q, v)); apply in_map, Hq|]. rewrite Ei. reflexivity.
Qed.

Lemma inc_ok c r observation inputs lab xs : vs_ok c -> fresh lab c -> NoDup (dkeys inputs) -> NoDup (dkeys observation) ->
  admissible isnan (vs_out c) (vs_in c) (held c) r observation inputs xs -> exists c' new, incorporate lab c r observation inputs = (c', Ok tt) /\
    vs_ok c' /\ held c' = held c ++ new /\ Forall2 (describes (vs_out c) r xs) observation new /\ vs_out c' = vs_out c /\ vs_in c' = vs_in c /\
    p_labels (vs_ripl c') = p_labels (vs_ripl c) ++ map lab (seq 0 (length observation)) /\
    exists w A, vs_obs c' = dset r w (vs_obs c) /\ vs_ripl c' = more_obs (vs_ripl c) A /\ forall l x, In (l, x) A -> c_row x = r.
Proof.
  intros H Hf Hin Hob Ha. destruct (validate_inc c r observation inputs H Hin) as [Hv _]. destruct (Hv xs Ha) as [d [L [E [Hdn [Hdi [Hx [Hdnan Hm]]]]]]].
  unfold vs_incorporate. rewrite E. set (c0 := set_row c r (VRow (Some d) L)). destruct Ha as [Hne [Hq _]].
  assert (Ero : row_of c0 r = VRow (Some d) L) by (unfold row_of, c0, set_row; cbn [vs_obs]; rewrite dget_dset_same; reflexivity).
  assert (HL : forall q, In q (dkeys observation) -> In q (vs_out c) /\ ~ In q (dkeys L)).
  { intros q Hqo. apply in_map_iff in Hqo. destruct Hqo as [[q' v] [Eq Hqo]]. cbn in Eq. subst q'. destruct (Hq q v Hqo) as [Ho [_ Hnf]]. split; [exact Ho|].
    destruct (dget r (vs_obs c)) as [w|] eqn:Ew; [destruct Hm as [_ <-]; rewrite <- (filled_row c r w q H Ew); exact Hnf|subst L; intros []]. }
  rewrite (observe_cells_ok accepts r d xs lab accepts_all (proj1 Hf) observation c0 0).
  - rewrite Ero. cbn [r_inputs r_labels]. eexists. exists (map snd (adds (vs_out c) r xs lab 0 observation)). split; [reflexivity|].
    assert (Eobs : match observation with [] => vs_obs c0 | _ => dset r (VRow (Some d) (L ++ tags lab 0 observation)) (vs_obs c0) end =
      dset r (VRow (Some d) (L ++ tags lab 0 observation)) (vs_obs c)).
    { destruct observation; [congruence|]. cbn [c0 set_row vs_obs]. apply dset_dset. }
    rewrite Eobs. cbn [c0 set_row vs_out vs_in vs_ripl]. split.
    + apply grown; auto; [intros q Hqo; apply (HL q Hqo)|intros q v Hqo; apply (Hq q v Hqo)|intros q Hqo; apply (HL q Hqo)].
    + unfold held. cbn [vs_ripl more_obs p_obs]. split; [apply map_app|]. split; [apply adds_describe; intros q Hqo; apply (HL q Hqo)|].
      split; [reflexivity|]. split; [reflexivity|]. split; [unfold p_labels; cbn [more_obs p_obs p_pred]; rewrite (k_preds c H), !app_nil_r, map_app, adds_labels; reflexivity|].
      eexists. eexists. split; [reflexivity|]. split; [reflexivity|]. intros l x Hlx. apply in_adds in Hlx. destruct Hlx as [q [v [_ [_ ->]]]]. reflexivity.
  - exact Hx.
  - exact Hob.
  - intros q Hqo. rewrite Ero. cbn [r_labels]. apply (HL q Hqo).
  - intros j _. apply (proj2 Hf).
Qed.

Lemma uninc_ok c r w : vs_ok c -> dget r (vs_obs c) = Some w -> vs_unincorporate c r =
  (Vs (vs_out c) (vs_in c) (ddel r (vs_obs c)) (minus_obs (vs_ripl c) (dvals (r_labels w))), Ok tt) /\
  filter (fun lx => negb (zmem (fst lx) (dvals (r_labels w)))) (p_obs (vs_ripl c)) = filter (fun lx => negb (c_row (snd lx) =? r)%Z) (p_obs (vs_ripl c)).
Proof.
  intros H Hw. destruct (k_row c H r w Hw) as [Hk [Hne [d [xs [Hd [Hdn [Hdi [Hx [Hna Hl]]]]]]]]]. unfold vs_unincorporate. unfold dmem. rewrite Hw. cbn [negb].
  rewrite (forget_cells_ok accepts r (vs_out c) c w Hw Hk (row_vals c r w H Hw)).
  - assert (E1 : filter (fun ql => negb (zmem (fst ql) (vs_out c))) (r_labels w) = []).
    { apply filter_none. intros [q l] Hq. cbn. apply negb_false_iff, zmem_in. apply (Hl q l Hq). }
    assert (E2 : filter (fun ql => zmem (fst ql) (vs_out c)) (r_labels w) = r_labels w).
    { apply filter_all. intros [q l] Hq. cbn. apply zmem_in. apply (Hl q l Hq). }
    rewrite E1, E2. unfold row_of at 1. cbn [vs_obs]. rewrite dget_dset_same. cbn [r_labels given vs_out vs_in vs_ripl].
    split.
    + f_equal. f_equal. clear. induction (vs_obs c) as [|[k v] o IH]; cbn; [rewrite Z.eqb_refl; reflexivity|]. destruct (Z.eqb_spec r k) as [->|N]; cbn; [rewrite Z.eqb_refl; reflexivity|].
      rewrite (proj2 (Z.eqb_neq r k) N). rewrite IH. reflexivity.
    + apply filter_ext_in. intros [l x] Hlx. cbn. f_equal. apply eq_true_iff_eq. rewrite zmem_in, Z.eqb_eq. split.
      * intros Hv. apply in_map_iff in Hv. destruct Hv as [[q l'] [E Hq]]. cbn in E. subst l'. destruct (Hl q l Hq) as [_ [v Hv]].
        rewrite (NoDup_fst_inj _ _ _ _ (k_labels c H) Hlx Hv). reflexivity.
      * intros E. destruct (k_cell c H l x Hlx) as [_ [w' [q [Hw' [Hq _]]]]]. rewrite E, Hw in Hw'. injection Hw' as <-. change l with (snd (q, l)). apply in_map, Hq.
  - intros l Hlv. rewrite (k_preds c H). split; [|intros []]. apply in_map_iff in Hlv. destruct Hlv as [[q l'] [E Hq]]. cbn in E. subst l'. destruct (Hl q l Hq) as [_ [v Hv]].
    change l with (fst (l, Cell r (place (vs_out c) q) xs v)). apply in_map, Hv.
Qed.
Lemma map_fst_filter {A} (f : Z * A -> bool) l : NoDup (map fst l) -> NoDup (map fst (filter f l)).
Proof.
  induction l as [|[k a] l IH]; intros H; [constructor|]. cbn in *. inversion H as [|? ? Hn Hd]; subst. destruct (f (k, a)); cbn; [|apply IH, Hd]. constructor; [|apply IH, Hd].
  intros K. apply Hn. apply in_map_iff in K. destruct K as [[k' a'] [E K]]. cbn in E. subst k'. apply filter_In in K. change k with (fst (k, a')). apply in_map, K.
Qed.
Lemma shrunk c r w : vs_ok c -> dget r (vs_obs c) = Some w ->
  vs_ok (Vs (vs_out c) (vs_in c) (ddel r (vs_obs c)) (minus_obs (vs_ripl c) (dvals (r_labels w)))).
Proof.
  intros H Hw. destruct (uninc_ok c r w H Hw) as [_ Ef]. constructor; cbn [vs_out vs_in vs_obs vs_ripl minus_obs p_obs p_pred]; rewrite ?Ef.
  - apply (k_outs c H).
  - apply NoDup_ddel, (k_rows c H).
  - apply map_fst_filter, (k_labels c H).
  - apply (k_preds c H).
  - intros r' w' Hw'. assert (N : r' <> r) by (intros ->; rewrite (dget_ddel_same r _ (k_rows c H)) in Hw'; discriminate).
    rewrite dget_ddel_other in Hw' by exact N. destruct (k_row c H r' w' Hw') as [Hk [Hn [d' [xs' [Hd' [Hdn' [Hdi' [Hx' [Hna' Hl]]]]]]]]].
    split; [exact Hk|]. split; [exact Hn|]. exists d', xs'. do 5 (split; [assumption|]). intros q l Hq. destruct (Hl q l Hq) as [Ho [v Hv]]. split; [exact Ho|]. exists v.
    apply filter_In. split; [exact Hv|]. cbn. apply negb_true_iff, Z.eqb_neq, N.
  - intros l x Hlx. apply filter_In in Hlx. destruct Hlx as [Hlx Hn]. cbn in Hn. apply negb_true_iff, Z.eqb_neq in Hn. destruct (k_cell c H l x Hlx) as [Hna [w' [q [Hw' [Hq Ei]]]]].
    split; [exact Hna|]. exists w', q. rewrite dget_ddel_other by exact Hn. auto.
Qed.

(** The validation of simulate. *)
Lemma validate_sim c r targets constraints inputs : vs_ok c -> NoDup (dkeys inputs) ->
  (forall xs, askable isnan (vs_out c) (vs_in c) (held c) r targets constraints inputs xs -> exists d,
    validate_simulate isnan veq c r targets constraints inputs = (c, Ok d) /\ inputs_list (vs_in c) d = Ok xs) /\
  ((forall xs, ~ askable isnan (vs_out c) (vs_in c) (held c) r targets constraints inputs xs) ->
    validate_simulate isnan veq c r targets constraints inputs = (c, Err ValueError)).
Proof.
  intros H Hin. unfold validate_simulate.
  assert (Hdm : dmem r (vs_obs c) = match dget r (vs_obs c) with Some _ => true | None => false end) by reflexivity. rewrite Hdm.
  assert (Het : existsb (fun q => zmem q (dkeys constraints)) targets = false <-> forall q v, In (q, v) constraints -> ~ In q targets).
  { rewrite existsb_false. split.
    - intros K q v Hq Ht. apply K in Ht. rewrite zmem_false in Ht. apply Ht. change q with (fst (q, v)). apply in_map, Hq.
    - intros K q Hq. apply zmem_false. intros Hc. apply in_map_iff in Hc. destruct Hc as [[q' v] [E Hc]]. cbn in E. subst q'. exact (K q v Hc Hq). }
  assert (Hkeys : incl (dkeys constraints) (vs_out c) <-> forall q v, In (q, v) constraints -> In q (vs_out c)).
  { split; [intros K q v Hq; apply K; change q with (fst (q, v)); apply in_map, Hq|]. intros K q Hq. apply in_map_iff in Hq. destruct Hq as [[q' v] [E Hc]]. cbn in E. subst q'. exact (K q v Hc). }
  destruct (dget r (vs_obs c)) as [w|] eqn:Ew; cbn [negb andb].
  - destruct (k_row c H r w Ew) as [Hk [Hne [d [xs0 [Hd [Hdn [Hdi [Hx0 [Hnan Hl]]]]]]]]]. unfold contradicts. rewrite Hd.
    assert (Kn : known (held c) r) by (apply (known_row c r H); eauto).
    assert (Ec : set_row c r (VRow (Some d) (r_labels w)) = c).
    { unfold set_row. rewrite dset_same; [destruct c; reflexivity|]. rewrite Ew. rewrite <- Hd. destruct w; reflexivity. }
    assert (Hdx : same_set (dkeys d) (vs_in c) = true) by (apply agrees_set; exists xs0; split; [exact Hdi|apply inputs_list_get, Hx0]).
    assert (Ex : existsb (fun q => dmem q (r_labels w)) (dkeys constraints) = false <-> forall q v, In (q, v) constraints -> ~ filled (vs_out c) (held c) r q).
    { rewrite existsb_false. split.
      - intros K q v Hq. rewrite (filled_row c r w q H Ew). apply dmem_false. apply K. change q with (fst (q, v)). apply in_map, Hq.
      - intros K q Hq. apply dmem_false. rewrite <- (filled_row c r w q H Ew). apply in_map_iff in Hq. destruct Hq as [[q' v] [E Hq]]. cbn in E. subst q'. apply (K q v Hq). }
    split.
    + intros xs [A1 [A2 [A3 [A4 A5]]]]. assert (xs = xs0) as ->.
      { destruct Kn as [x [Hx Hr]]. rewrite <- (A5 x Hx Hr). apply (row_in c r w d xs0 H Ew Hd Hx0 x Hx Hr). } clear A5.
      rewrite (proj2 (anynan_spec inputs) A3). rewrite (proj2 (anynan_spec constraints)) by (intros i v Hi; apply (A2 i v Hi)).
      assert (Ei : incl (dkeys inputs) (vs_in c)) by (destruct A4 as [[A4 _]|[-> _]]; [exact A4|intros x []]). rewrite (proj2 (zsubset_spec _ _) Ei).
      rewrite (proj2 (zsubset_spec _ _) (proj2 Hkeys (fun q v Hq => proj1 (A2 q v Hq)))), (proj2 (zsubset_spec _ _) A1). cbn [negb].
      rewrite (proj2 Het) by (intros q v Hq; apply (A2 q v Hq)). rewrite (proj2 Ex) by (intros q v Hq; apply (A2 q v Hq)).
      destruct inputs as [|i inputs]; cbn [given].
      * rewrite Ec, Hdx. exists d. split; [reflexivity|exact Hx0].
      * destruct A4 as [A4|[A4 _]]; [|discriminate]. rewrite (proj2 (agrees_iff (vs_in c) d xs0 _ Hin Hdn Hdi Hx0) A4). cbn [negb].
        rewrite (proj2 (agrees_set _ _) (ex_intro _ _ A4)). exists (i :: inputs). split; [reflexivity|apply agrees_list, A4].
    + intros Hno. destruct (anynan isnan inputs) eqn:E1; [reflexivity|]. destruct (anynan isnan constraints) eqn:E2; [reflexivity|].
      destruct (zsubset (dkeys inputs) (vs_in c)) eqn:E3; [|reflexivity]. cbn [negb].
      destruct (zsubset (dkeys constraints) (vs_out c)) eqn:E4; [|reflexivity]. cbn [negb].
      destruct (zsubset targets (vs_out c)) eqn:E5; [|reflexivity]. cbn [negb].
      destruct (existsb (fun q => zmem q (dkeys constraints)) targets) eqn:E6; [reflexivity|].
      destruct (existsb (fun q => dmem q (r_labels w)) (dkeys constraints)) eqn:E7; [reflexivity|].
      assert (Hxs : given inputs = false \/ deqb veq inputs d = false \/ agrees (vs_in c) inputs xs0).
      { destruct (given inputs); [|auto]. right. destruct (deqb veq inputs d) eqn:E; [right; apply (agrees_iff _ d); assumption|left; reflexivity]. }
      assert (Hall : (given inputs = false \/ agrees (vs_in c) inputs xs0) -> False).
      { intros Hxs'. apply (Hno xs0). rewrite anynan_spec in E1, E2. apply zsubset_spec in E4, E5.
        pose proof (proj1 Het eq_refl) as E6'. pose proof (proj1 Ex eq_refl) as E7'. pose proof (proj1 Hkeys E4) as E4'.
        split; [exact E5|]. split; [intros q v Hq; split; [exact (E4' q v Hq)|split; [exact (E2 q v Hq)|split; [exact (E7' q v Hq)|exact (E6' q v Hq)]]]|].
        split; [exact E1|]. split; [destruct Hxs' as [K|K]; [right; split; [destruct inputs; [reflexivity|discriminate]|exact Kn]|left; exact K]|].
        intros x Hx Hr. apply (row_in c r w d xs0 H Ew Hd Hx0 x Hx Hr). }
      destruct (given inputs); [|exfalso; apply Hall; auto]. destruct Hxs as [K|[K|K]]; [discriminate| |exfalso; apply Hall; auto]. rewrite K. reflexivity.
  - split.
    + intros xs [A1 [A2 [A3 [A4 _]]]].
      assert (Ag : agrees (vs_in c) inputs xs).
      { destruct A4 as [A4|[_ K]]; [exact A4|]. apply (known_row c r H) in K. destruct K as [w K]. congruence. }
      rewrite (proj2 (agrees_set _ _) (ex_intro _ _ Ag)). cbn [negb].
      rewrite (proj2 (anynan_spec inputs) A3). rewrite (proj2 (anynan_spec constraints)) by (intros i v Hi; apply (A2 i v Hi)).
      rewrite (proj2 (zsubset_spec _ _) (proj1 Ag)).
      rewrite (proj2 (zsubset_spec _ _) (proj2 Hkeys (fun q v Hq => proj1 (A2 q v Hq)))), (proj2 (zsubset_spec _ _) A1). cbn [negb].
      rewrite (proj2 Het) by (intros q v Hq; apply (A2 q v Hq)). exists inputs. split; [reflexivity|apply agrees_list, Ag].
    + intros Hno. destruct (same_set (dkeys inputs) (vs_in c)) eqn:E0; [|reflexivity]. cbn [negb].
      destruct (anynan isnan inputs) eqn:E1; [reflexivity|]. destruct (anynan isnan constraints) eqn:E2; [reflexivity|].
      destruct (zsubset (dkeys inputs) (vs_in c)) eqn:E3; [|reflexivity]. cbn [negb].
      destruct (zsubset (dkeys constraints) (vs_out c)) eqn:E4; [|reflexivity]. cbn [negb].
      destruct (zsubset targets (vs_out c)) eqn:E5; [|reflexivity]. cbn [negb].
      destruct (existsb (fun q => zmem q (dkeys constraints)) targets) eqn:E6; [reflexivity|]. exfalso.
      apply agrees_set in E0. destruct E0 as [xs Ag]. apply (Hno xs). rewrite anynan_spec in E1, E2. apply zsubset_spec in E4, E5.
      pose proof (proj1 Het eq_refl) as E6'. pose proof (proj1 Hkeys E4) as E4'.
      split; [exact E5|]. split; [intros q v Hq; split; [exact (E4' q v Hq)|split; [exact (E2 q v Hq)|split; [apply filled_new; assumption|exact (E6' q v Hq)]]]|].
      split; [exact E1|]. split; [left; exact Ag|]. intros x Hx Hr. exfalso. destruct (proj1 (known_row c r H)) as [w K]; [exists x; auto|congruence].
Qed.

(** The cgpm after commands have been run by its program. *)
Definition ran (c : vs V) (ks : list command) : vs V :=
  set_ripl c (Ripl (p_obs (vs_ripl c)) (p_pred (vs_ripl c)) (p_log (vs_ripl c) ++ ks) (p_simulators (vs_ripl c)) (p_inputs (vs_ripl c)) (p_observers (vs_ripl c))).
Lemma ran_ok c ks : vs_ok c -> vs_ok (ran c ks).
Proof. intros [H1 H2 H3 H4 H5 H6]. constructor; assumption. Qed.

Lemma in_predicted outs r xs lab targets : incl targets outs -> forall p k q v, In (q, v) (predicted draw outs p r xs lab k targets) ->
  exists i j, nth_error outs i = Some q /\ (k <= j < k + length targets)%nat /\
    v = draw (with_pred p (map lab (seq k (j - k)))) r i xs (lab j).
Proof.
  induction targets as [|t targets IH]; intros Ho p k q v; cbn; [intros []|]. intros [E|H].
  - injection E as <- <-. exists (place outs t), k. split; [apply place_nth, Ho; left; reflexivity|]. split; [lia|]. rewrite Nat.sub_diag. cbn.
    unfold with_pred. rewrite app_nil_r. destruct p; reflexivity.
  - apply IH in H; [|intros a Ha; apply Ho; right; exact Ha]. destruct H as [i [j [H1 [H2 ->]]]]. exists i, j. split; [exact H1|]. split; [lia|].
    replace (j - k)%nat with (S (j - S k)) by lia. cbn [seq map]. unfold with_pred. cbn. rewrite <- app_assoc. reflexivity.
Qed.

(** What one drawing sees. *)
Definition drawn (c : vs V) (r : Z) (xs : list V) (new : list (cell V)) (ks : list command) (q : Z) (v : V) : Prop :=
  exists p i l, v = draw p r i xs l /\ nth_error (vs_out c) i = Some q /\ map snd (p_obs p) = held c ++ new /\
    p_log p = p_log (vs_ripl c) ++ ks /\ ~ In l (p_labels p).

Lemma sim_ok c r targets constraints inputs N lab xs : vs_ok c -> fresh lab c -> NoDup (dkeys inputs) -> NoDup (dkeys constraints) -> NoDup targets ->
  askable isnan (vs_out c) (vs_in c) (held c) r targets constraints inputs xs ->
  let ks := match constraints with [] => [] | _ => [Infer r 15] end in
  exists new sample c', simulate lab c r targets constraints inputs N = (c', Ok sample) /\ Forall2 (describes (vs_out c) r xs) constraints new /\
    dkeys sample = targets /\ (forall q v, In (q, v) sample -> drawn c r xs new ks q v) /\
    (constraints = [] \/ known (held c) r -> c' = ran c ks) /\
    (constraints <> [] -> ~ known (held c) r -> c' = set_row (ran c ks) r (VRow None [])).
Proof.
  intros H Hf Hin Hcn Htn Ha ks. destruct (validate_sim c r targets constraints inputs H Hin) as [Hv _]. destruct (Hv xs Ha) as [d [E Hx]].
  destruct Ha as [Ht [Hc _]]. pose proof (proj1 Hf) as Hinj. pose proof (proj2 Hf) as Hfr.
  assert (HL : forall q, In q (dkeys constraints) -> In q (vs_out c) /\ ~ In q (dkeys (r_labels (row_of c r)))).
  { intros q Hqo. apply in_map_iff in Hqo. destruct Hqo as [[q' v] [Eq Hqo]]. cbn in Eq. subst q'. destruct (Hc q v Hqo) as [Ho [_ [Hnf _]]]. split; [exact Ho|].
    unfold row_of. destruct (dget r (vs_obs c)) as [w|] eqn:Ew; [rewrite <- (filled_row c r w q H Ew); exact Hnf|intros []]. }
  unfold vs_simulate. rewrite E. rewrite (observe_cells_ok accepts r d xs lab accepts_all Hinj constraints c 0 Hx Hcn HL (fun j _ => Hfr j)).
  set (w0 := row_of c r). set (A := adds (vs_out c) r xs lab 0 constraints).
  set (obs1 := match constraints with [] => vs_obs c | _ => dset r (VRow (r_inputs w0) (r_labels w0 ++ tags lab 0 constraints)) (vs_obs c) end).
  set (p2 := Ripl (p_obs (vs_ripl c) ++ A) [] (p_log (vs_ripl c) ++ ks) (p_simulators (vs_ripl c)) (p_inputs (vs_ripl c)) (p_observers (vs_ripl c))).
  assert (E2 : (let c1 := Vs (vs_out c) (vs_in c) obs1 (more_obs (vs_ripl c) A) in
    if given constraints then set_ripl c1 (rip_run (vs_ripl c1) (Infer r 15)) else c1) = Vs (vs_out c) (vs_in c) obs1 p2).
  { unfold p2, ks. destruct constraints as [|kv constraints]; cbn [given]; unfold more_obs, set_ripl, rip_run; cbn [vs_out vs_in vs_obs vs_ripl p_obs p_pred p_log p_simulators p_inputs p_observers];
      rewrite (k_preds c H), ?app_nil_r; reflexivity. }
  cbv zeta in E2. cbv zeta. rewrite E2. clear E2. set (n := length constraints).
  assert (HA : map fst A = map lab (seq 0 n)) by apply adds_labels.
  assert (Hfree : forall j, (n <= j)%nat -> ~ In (lab j) (map fst (p_obs (vs_ripl c) ++ A))).
  { intros j Hj K. rewrite map_app, HA in K. apply in_app_or in K. destruct K as [K|K]; [apply (Hfr j); unfold p_labels; apply in_or_app; left; exact K|].
    apply in_map_iff in K. destruct K as [i [Ei K]]. apply Hinj in Ei. subst i. apply in_seq in K. lia. }
  rewrite (predict_cells_ok draw r d xs lab Hinj targets (Vs (vs_out c) (vs_in c) obs1 p2) n []); cbn [vs_out vs_in vs_ripl app].
  2: exact Hx. 2: exact Ht. 2: exact Htn. 2: { intros j Hj. unfold p_labels. cbn [p2 p_obs p_pred]. rewrite app_nil_r. apply Hfree, Hj. }
  set (sample := predicted draw (vs_out c) p2 r xs lab n targets).
  rewrite (forget_labels_ok (map lab (seq n (length targets))) _ []).
  2: reflexivity.
  2: { clear - Hinj. generalize n as k. induction (length targets) as [|m IH]; intros k; cbn; [constructor|]. constructor; [|apply IH].
      intros K. apply in_map_iff in K. destruct K as [j [E K]]. apply Hinj in E. subst j. apply in_seq in K. lia. }
  2: { intros l Hl. split; [intros []|]. cbn [set_ripl vs_ripl with_pred p_obs p2]. apply in_map_iff in Hl. destruct Hl as [j [<- Hj]]. apply in_seq in Hj. apply Hfree. lia. }
  cbn [set_ripl vs_out vs_in vs_obs vs_ripl with_pred p_obs p_log p_simulators p_inputs p_observers].
  change (Ripl (p_obs p2) [] (p_log p2) (p_simulators p2) (p_inputs p2) (p_observers p2)) with p2.
  change (set_ripl (set_ripl (Vs (vs_out c) (vs_in c) obs1 p2) (with_pred p2 (map lab (seq n (length targets))))) p2) with (Vs (vs_out c) (vs_in c) obs1 p2).
  assert (Hsam : dkeys sample = targets /\ forall q v, In (q, v) sample -> drawn c r xs (map snd A) ks q v).
  { split; [apply predicted_keys|]. intros q v Hq. apply in_predicted in Hq; [|exact Ht]. destruct Hq as [i [j [Hi [Hj ->]]]].
    eexists. exists i. eexists. split; [reflexivity|]. split; [exact Hi|]. unfold with_pred. cbn [p_obs p_log p2]. split; [apply map_app|]. split; [reflexivity|].
    unfold p_labels. cbn [p_obs p_pred p2 app]. intros K. apply in_app_or in K. destruct K as [K|K]; [apply (Hfree j); [lia|exact K]|].
    apply in_map_iff in K. destruct K as [i' [Ei K]]. apply Hinj in Ei. subst i'. apply in_seq in K. lia. }
  destruct Hsam as [Hs1 Hs2]. exists (map snd A), sample.
  assert (HD : Forall2 (describes (vs_out c) r xs) constraints (map snd A)) by (apply adds_describe; intros q Hq; apply (HL q Hq)).
  destruct constraints as [|kv constraints].
  - cbn [dkeys map forget_cells]. eexists. split; [reflexivity|]. split; [exact HD|]. split; [exact Hs1|]. split; [exact Hs2|]. split; [|intros K; congruence].
    intros _. subst obs1 p2 A. cbn [adds]. unfold ran, set_ripl. rewrite ?app_nil_r, (k_preds c H). reflexivity.
  - set (K := kv :: constraints) in *.
    assert (Hw0 : NoDup (dkeys (r_labels w0)) /\ NoDup (dvals (r_labels w0)) /\ forall l, In l (dvals (r_labels w0)) -> In l (map fst (p_obs (vs_ripl c)))).
    { unfold w0, row_of. destruct (dget r (vs_obs c)) as [w|] eqn:Ew; [|split; [constructor|split; [constructor|intros l []]]].
      split; [apply (k_row c H r w Ew)|]. split; [apply (row_vals c r w H Ew)|]. intros l Hl. apply in_map_iff in Hl. destruct Hl as [[q l'] [El Hl]]. cbn in El. subst l'.
      destruct (k_row c H r w Ew) as [_ [_ [d' [xs' [_ [_ [_ [_ [_ Hll]]]]]]]]]. destruct (Hll q l Hl) as [_ [v Hv']]. exact (in_map fst _ _ Hv'). }
    destruct Hw0 as [Hw1 [Hw2 Hw3]].
    assert (HlabN : NoDup (map lab (seq 0 n))).
    { clear - Hinj. generalize 0%nat as k. induction n as [|m IH]; intros k; cbn; [constructor|]. constructor; [|apply IH].
      intros Q. apply in_map_iff in Q. destruct Q as [j [E Q]]. apply Hinj in E. subst j. apply in_seq in Q. lia. }
    rewrite (forget_cells_ok accepts r (dkeys K) (Vs (vs_out c) (vs_in c) obs1 p2) (VRow (r_inputs w0) (r_labels w0 ++ tags lab 0 K))); cbn [r_labels r_inputs vs_out vs_in vs_obs vs_ripl].
    + eexists. split; [reflexivity|]. split; [exact HD|]. split; [exact Hs1|]. split; [exact Hs2|].
      assert (E1 : filter (fun ql => negb (zmem (fst ql) (dkeys K))) (r_labels w0 ++ tags lab 0 K) = r_labels w0).
      { rewrite filter_app, (filter_all _ (r_labels w0)), filter_none, app_nil_r; [reflexivity| |].
        - intros [q l] Hq. cbn [fst]. apply negb_false_iff, zmem_in. rewrite <- (tags_keys lab K 0). exact (in_map fst _ _ Hq).
        - intros [q l] Hq. cbn [fst]. apply negb_true_iff, zmem_false. intros Q. apply (HL q Q). exact (in_map fst _ _ Hq). }
      assert (E3 : filter (fun ql => zmem (fst ql) (dkeys K)) (r_labels w0 ++ tags lab 0 K) = tags lab 0 K).
      { rewrite filter_app, (filter_none _ (r_labels w0)), filter_all; [reflexivity| |].
        - intros [q l] Hq. cbn [fst]. apply zmem_in. rewrite <- (tags_keys lab K 0). exact (in_map fst _ _ Hq).
        - intros [q l] Hq. cbn [fst]. apply zmem_false. intros Q. apply (HL q Q). exact (in_map fst _ _ Hq). }
      rewrite E1, E3. rewrite (tags_vals lab K 0). change (length K) with n.
      assert (E4 : minus_obs p2 (map lab (seq 0 n)) = vs_ripl (ran c ks)).
      { unfold minus_obs, ran, set_ripl. cbn [p2 p_obs p_pred p_log p_simulators p_inputs p_observers vs_ripl]. rewrite (k_preds c H). f_equal.
        rewrite filter_app, filter_all, filter_none, app_nil_r; [reflexivity| |].
        - intros [l x] Hq. cbn [fst]. apply negb_false_iff, zmem_in. rewrite <- HA. exact (in_map fst _ _ Hq).
        - intros [l x] Hq. cbn [fst]. apply negb_true_iff, zmem_false. intros Q. apply in_map_iff in Q. destruct Q as [j [Ej _]]. apply (Hfr j). rewrite Ej. unfold p_labels. apply in_or_app; left. exact (in_map fst _ _ Hq). }
      rewrite E4. unfold obs1. cbn [K]. rewrite dset_dset. split.
      * intros [Q|Q]; [discriminate|]. apply (known_row c r H) in Q. destruct Q as [w Ew]. unfold w0, row_of. rewrite Ew.
        rewrite dset_same; [reflexivity|]. rewrite Ew. destruct w; reflexivity.
      * intros _ Q. unfold w0, row_of. destruct (dget r (vs_obs c)) as [w|] eqn:Ew; [exfalso; apply Q, (known_row c r H); eauto|]. reflexivity.
    + unfold obs1. cbn [K]. apply dget_dset_same.
    + unfold dkeys. rewrite map_app. apply NoDup_app3. fold (dkeys (r_labels w0)) (dkeys (tags lab 0 K)). rewrite tags_keys. split; [exact Hw1|]. split; [exact Hcn|]. intros q Hq Q. exact (proj2 (HL q Q) Hq).
    + unfold dvals. rewrite map_app. apply NoDup_app3. fold (dvals (r_labels w0)) (dvals (tags lab 0 K)). rewrite tags_vals. split; [exact Hw2|]. split; [exact HlabN|].
      intros l Hl Q. apply in_map_iff in Q. destruct Q as [j [<- _]]. apply (Hfr j). unfold p_labels. apply in_or_app; left. apply Hw3, Hl.
    + intros l Hl. cbn [p2 p_obs p_pred]. split; [|intros []]. rewrite map_app, HA. unfold dvals in Hl. rewrite map_app in Hl. fold (dvals (r_labels w0)) (dvals (tags lab 0 K)) in Hl. rewrite tags_vals in Hl.
      apply in_app_or in Hl. apply in_or_app. destruct Hl as [Hl|Hl]; [left; apply Hw3, Hl|right; exact Hl].
Qed.

End Invariant.

(* ------------------------------------------------------------------ *)
(** ** Theorems *)

(** A cgpm is made when names are distinct and agree in number with the program. *)
Theorem C63_init : forall V (isnan : V -> bool) outs ins (p : ripl V),
  ((exists c, vs_new outs ins p = Ok c) <->
    NoDup outs /\ NoDup ins /\ (forall q, In q outs -> ~ In q ins) /\
    length outs = p_simulators p /\ length ins = p_inputs p /\ length outs = p_observers p) /\
  (forall c, vs_new outs ins p = Ok c -> vs_out c = outs /\ vs_in c = ins /\ vs_ripl c = p /\
    (p_obs p = [] -> p_pred p = [] -> vs_ok isnan c)) /\
  forall e, vs_new outs ins p = Err e -> e = ValueError.
Proof.
  intros V isnan outs ins p. unfold vs_new.
  assert (Hdis : forall a b, forallb (fun o => negb (zmem o b)) a = true <-> forall q, In q a -> ~ In q b).
  { intros a b. rewrite forallb_forall. split; intros K q Hq; [apply zmem_false, negb_true_iff, K, Hq|apply negb_true_iff, zmem_false, K, Hq]. }
  destruct (zunique outs) eqn:E1; cbn [negb].
  2: { split; [split; [intros [c K]; discriminate|intros [K _]; apply zunique_spec in K; congruence]|split; [discriminate|intros e [= <-]; reflexivity]]. }
  destruct (zunique ins) eqn:E2; cbn [negb].
  2: { split; [split; [intros [c K]; discriminate|intros [_ [K _]]; apply zunique_spec in K; congruence]|split; [discriminate|intros e [= <-]; reflexivity]]. }
  destruct (forallb (fun o => negb (zmem o ins)) outs) eqn:E3; cbn [negb].
  2: { split; [split; [intros [c K]; discriminate|intros [_ [_ [K _]]]; apply Hdis in K; congruence]|split; [discriminate|intros e [= <-]; reflexivity]]. }
  destruct (forallb (fun i => negb (zmem i outs)) ins) eqn:E4; cbn [negb].
  2: { split; [split; [intros [c K]; discriminate|intros [_ [_ [K _]]]]|split; [discriminate|intros e [= <-]; reflexivity]].
       exfalso. assert (Q : forallb (fun i => negb (zmem i outs)) ins = true) by (apply Hdis; intros q Hq Hq'; exact (K q Hq' Hq)). congruence. }
  destruct (Nat.eqb_spec (length outs) (p_simulators p)) as [E5|E5]; cbn [negb].
  2: { split; [split; [intros [c K]; discriminate|intros [_ [_ [_ [K _]]]]; congruence]|split; [discriminate|intros e [= <-]; reflexivity]]. }
  destruct (Nat.eqb_spec (length ins) (p_inputs p)) as [E6|E6]; cbn [negb].
  2: { split; [split; [intros [c K]; discriminate|intros [_ [_ [_ [_ [K _]]]]]; congruence]|split; [discriminate|intros e [= <-]; reflexivity]]. }
  destruct (Nat.eqb_spec (length outs) (p_observers p)) as [E7|E7]; cbn [negb].
  2: { split; [split; [intros [c K]; discriminate|intros [_ [_ [_ [_ [_ K]]]]]; congruence]|split; [discriminate|intros e [= <-]; reflexivity]]. }
  apply zunique_spec in E1, E2. split; [split; [intros _|intros _; eexists; reflexivity]|].
  - rewrite Hdis in E3. tauto.
  - split; [|discriminate]. intros c [= <-]. cbn. repeat (split; [reflexivity|]). intros Hp Hq.
    constructor; cbn; rewrite ?Hp, ?Hq; auto; try constructor; try discriminate; intros; contradiction.
Qed.
Print Assumptions C63_init.

(** An admissible observation adds its cells and nothing else; any other changes nothing. *)
Theorem C63_incorporate : forall V isnan veq accepts, (forall a b : V, veq a b = true <-> a = b) -> (forall x, accepts x = true) ->
  forall c r observation inputs lab, vs_ok isnan c -> fresh lab c -> NoDup (dkeys inputs) -> NoDup (dkeys observation) ->
  (forall xs, admissible isnan (vs_out c) (vs_in c) (held c) r observation inputs xs ->
    exists c' new, vs_incorporate isnan veq accepts lab c r observation inputs = (c', Ok tt) /\ vs_ok isnan c' /\
      held c' = held c ++ new /\ Forall2 (describes (vs_out c) r xs) observation new /\ vs_out c' = vs_out c /\ vs_in c' = vs_in c /\
      p_log (vs_ripl c') = p_log (vs_ripl c)) /\
  ((forall xs, ~ admissible isnan (vs_out c) (vs_in c) (held c) r observation inputs xs) ->
    vs_incorporate isnan veq accepts lab c r observation inputs = (c, Err ValueError)).
Proof.
  intros V isnan veq accepts Hveq Hacc c r observation inputs lab H Hf Hin Hob. split.
  - intros xs Ha. destruct (inc_ok isnan veq accepts Hveq Hacc c r observation inputs lab xs H Hf Hin Hob Ha) as [c' [new [E [H1 [H2 [H3 [H4 [H5 [_ [w [A [_ [H6 _]]]]]]]]]]]]].
    exists c', new. repeat (split; [assumption|]). rewrite H6. reflexivity.
  - intros Hno. unfold vs_incorporate. rewrite (proj2 (validate_inc isnan veq Hveq c r observation inputs H Hin) Hno). reflexivity.
Qed.
Print Assumptions C63_incorporate.

(** Unincorporating a row takes out its observations, in order, and nothing else. *)
Theorem C63_unincorporate : forall V isnan (c : vs V) r, vs_ok isnan c ->
  (known (held c) r -> exists c', vs_unincorporate c r = (c', Ok tt) /\ vs_ok isnan c' /\ vs_out c' = vs_out c /\ vs_in c' = vs_in c /\
    held c' = filter (fun x => negb (c_row x =? r)%Z) (held c) /\ p_log (vs_ripl c') = p_log (vs_ripl c)) /\
  (~ known (held c) r -> vs_unincorporate c r = (c, Err ValueError)).
Proof.
  intros V isnan c r H. split.
  - intros K. apply (known_row isnan c r H) in K. destruct K as [w Hw].
    destruct (uninc_ok isnan (fun _ => true) c r w H Hw) as [E Ef]. eexists. split; [exact E|]. split; [exact (shrunk isnan (fun _ => true) c r w H Hw)|].
    cbn. split; [reflexivity|]. split; [reflexivity|]. split; [|reflexivity]. unfold held. cbn. rewrite Ef. clear.
    induction (p_obs (vs_ripl c)) as [|[l x] o IH]; [reflexivity|]. cbn. destruct (c_row x =? r)%Z; cbn; [exact IH|f_equal; exact IH].
  - intros K. unfold vs_unincorporate. destruct (dmem r (vs_obs c)) eqn:E; [|reflexivity]. exfalso. apply K, (known_row isnan c r H). unfold dmem in E.
    destruct (dget r (vs_obs c)) as [w|]; [eauto|discriminate].
Qed.
Print Assumptions C63_unincorporate.

(** To unincorporate a new row is to undo its incorporation. *)
Theorem C63_undo : forall V isnan veq accepts, (forall a b : V, veq a b = true <-> a = b) -> (forall x, accepts x = true) ->
  forall c r observation inputs lab xs, vs_ok isnan c -> fresh lab c -> NoDup (dkeys inputs) -> NoDup (dkeys observation) ->
  ~ known (held c) r -> admissible isnan (vs_out c) (vs_in c) (held c) r observation inputs xs ->
  vs_unincorporate (fst (vs_incorporate isnan veq accepts lab c r observation inputs)) r = (c, Ok tt).
Proof.
  intros V isnan veq accepts Hveq Hacc c r observation inputs lab xs H Hf Hin Hob Hk Ha.
  destruct (inc_ok isnan veq accepts Hveq Hacc c r observation inputs lab xs H Hf Hin Hob Ha) as [c' [new [E [H1 [H2 [H3 [H4 [H5 [H6 [w [A [H7 [H8 H9]]]]]]]]]]]]].
  rewrite E. cbn [fst]. assert (Hw : dget r (vs_obs c') = Some w) by (rewrite H7; apply dget_dset_same).
  destruct (uninc_ok isnan accepts c' r w H1 Hw) as [-> Ef]. f_equal. unfold minus_obs. rewrite Ef, H4, H5, H7, H8. cbn [more_obs p_obs p_pred p_log p_simulators p_inputs p_observers].
  assert (Hn : dget r (vs_obs c) = None). { destruct (dget r (vs_obs c)) eqn:Q; [exfalso; apply Hk, (known_row isnan c r H); eauto|reflexivity]. }
  rewrite ddel_dset_fresh by (apply dget_None_notin, Hn). rewrite filter_app, filter_all, filter_none, app_nil_r.
  - destruct c as [? ? ? []]; reflexivity.
  - intros [l x] Hlx. cbn. apply negb_false_iff, Z.eqb_eq. exact (H9 l x Hlx).
  - intros [l x] Hlx. cbn. apply negb_true_iff, Z.eqb_neq. intros Er. apply Hk. exists x. split; [exact (in_held c l x Hlx)|exact Er].
Qed.
Print Assumptions C63_undo.

(** A query: each target is drawn once, with the data and the constraints observed and, when
    there are constraints, fifteen steps of inference on the row just before.  Afterwards
    the cgpm is as it was, but for the steps run: when there are no constraints or the row
    has data. *)
Theorem C63_simulate_partial : forall V isnan veq accepts draw, (forall a b : V, veq a b = true <-> a = b) -> (forall x, accepts x = true) ->
  forall c r targets constraints inputs N lab, vs_ok isnan c -> fresh lab c ->
  NoDup (dkeys inputs) -> NoDup (dkeys constraints) -> NoDup targets ->
  let ks := match constraints with [] => [] | _ => [Infer r 15] end in
  (forall xs, askable isnan (vs_out c) (vs_in c) (held c) r targets constraints inputs xs ->
    exists new sample c', vs_simulate isnan veq accepts draw lab c r targets constraints inputs N = (c', Ok sample) /\
      Forall2 (describes (vs_out c) r xs) constraints new /\ dkeys sample = targets /\
      (forall q v, In (q, v) sample -> drawn draw c r xs new ks q v) /\
      (constraints = [] \/ known (held c) r -> c' = ran c ks) /\
      (constraints <> [] -> ~ known (held c) r -> c' = set_row (ran c ks) r (VRow None []))) /\
  ((forall xs, ~ askable isnan (vs_out c) (vs_in c) (held c) r targets constraints inputs xs) ->
    vs_simulate isnan veq accepts draw lab c r targets constraints inputs N = (c, Err ValueError)).
Proof.
  intros V isnan veq accepts draw Hveq Hacc c r targets constraints inputs N lab H Hf Hin Hcn Htn ks. split.
  - intros xs Ha. exact (sim_ok isnan veq accepts draw Hveq Hacc c r targets constraints inputs N lab xs H Hf Hin Hcn Htn Ha).
  - intros Hno. unfold vs_simulate. rewrite (proj2 (validate_sim isnan veq Hveq c r targets constraints inputs H Hin) Hno). reflexivity.
Qed.
Print Assumptions C63_simulate_partial.

(** Where the program returns what it was made to observe, so does the cgpm. *)
Theorem C63_observed : forall V isnan veq accepts draw, (forall a b : V, veq a b = true <-> a = b) -> (forall x, accepts x = true) ->
  (forall p r i xs v l, (exists x, In x (map snd (p_obs p)) /\ c_row x = r /\ c_out x = i) ->
    (forall x, In x (map snd (p_obs p)) -> c_row x = r -> c_out x = i -> c_val x = v) -> draw p r i xs l = v) ->
  forall c r targets constraints inputs N lab xs, vs_ok isnan c -> fresh lab c ->
  NoDup (dkeys inputs) -> NoDup (dkeys constraints) -> NoDup targets ->
  askable isnan (vs_out c) (vs_in c) (held c) r targets constraints inputs xs ->
  exists sample, snd (vs_simulate isnan veq accepts draw lab c r targets constraints inputs N) = Ok sample /\
    forall x q, In x (held c) -> c_row x = r -> nth_error (vs_out c) (c_out x) = Some q -> In q targets -> dget q sample = Some (c_val x).
Proof.
  intros V isnan veq accepts draw Hveq Hacc Hdraw c r targets constraints inputs N lab xs H Hf Hin Hcn Htn Ha.
  destruct (sim_ok isnan veq accepts draw Hveq Hacc c r targets constraints inputs N lab xs H Hf Hin Hcn Htn Ha) as [new [sample [c' [E [Hnew [Hk [Hd _]]]]]]].
  exists sample. rewrite E. split; [reflexivity|]. intros x q Hx Hr Hq Ht. rewrite <- Hk in Ht. apply in_dkeys_Some in Ht. destruct Ht as [v Hv]. rewrite Hv. f_equal.
  destruct (Hd q v (dget_In _ _ _ Hv)) as [p [i [l [-> [Hi [Hp _]]]]]].
  assert (i = c_out x) as ->. { apply (nth_index (vs_out c) (k_outs isnan c H)) in Hi, Hq. congruence. }
  apply Hdraw; rewrite Hp; [exists x; split; [apply in_or_app; left; exact Hx|auto]|]. intros y Hy Hyr Hyo. apply in_app_or in Hy. destruct Hy as [Hy|Hy].
  - rewrite (unique_cell isnan c x y H Hx Hy); [reflexivity|congruence|congruence].
  - exfalso. destruct Ha as [_ [Ha _]]. assert (Hs : exists qv, In qv constraints /\ describes (vs_out c) r xs qv y).
    { clear - Hnew Hy. induction Hnew as [|qv z L L' Hd Hn IH]; [destruct Hy|]. destruct Hy as [->|Hy]; [exists qv; split; [left; reflexivity|exact Hd]|].
      destruct (IH Hy) as [kv [K1 K2]]. exists kv. split; [right; exact K1|exact K2]. }
    destruct Hs as [[q' u] [Hu [_ [Hn _]]]]. cbn in Hn. rewrite Hyo, Hq in Hn. injection Hn as <-. destruct (Ha q u Hu) as [_ [_ [Hnf _]]]. apply Hnf. exists x. auto.
Qed.
Print Assumptions C63_observed.

(** The row None-entry left by a query with constraints on a row without data: the row can
    then be unincorporated although nothing was incorporated, and an observation that was
    admissible is refused. *)
Theorem C63_spoiled : forall V isnan veq accepts draw, (forall a b : V, veq a b = true <-> a = b) -> (forall x, accepts x = true) ->
  forall c r targets constraints inputs N lab xs, vs_ok isnan c -> fresh lab c ->
  NoDup (dkeys inputs) -> NoDup (dkeys constraints) -> NoDup targets ->
  askable isnan (vs_out c) (vs_in c) (held c) r targets constraints inputs xs -> constraints <> [] -> ~ known (held c) r ->
  exists c', fst (vs_simulate isnan veq accepts draw lab c r targets constraints inputs N) = c' /\ held c' = held c /\
    vs_unincorporate c r = (c, Err ValueError) /\ (exists c'', vs_unincorporate c' r = (c'', Ok tt) /\ held c'' = held c) /\
    (vs_in c <> [] -> forall lab' observation inputs' xs', NoDup (dkeys inputs') -> NoDup (dkeys observation) ->
      admissible isnan (vs_out c) (vs_in c) (held c) r observation inputs' xs' ->
      snd (vs_incorporate isnan veq accepts lab' c' r observation inputs') = Err KeyError).
Proof.
  intros V isnan veq accepts draw Hveq Hacc c r targets constraints inputs N lab xs H Hf Hin Hcn Htn Ha Hne Hk.
  destruct (sim_ok isnan veq accepts draw Hveq Hacc c r targets constraints inputs N lab xs H Hf Hin Hcn Htn Ha) as [new [sample [c' [E [_ [_ [_ [_ Hc]]]]]]]].
  specialize (Hc Hne Hk). exists c'. rewrite E. split; [reflexivity|].
  assert (Hw : dget r (vs_obs c') = Some (VRow None [])) by (rewrite Hc; cbn; apply dget_dset_same).
  assert (Hh : held c' = held c) by (rewrite Hc; reflexivity). split; [exact Hh|].
  split; [apply (C63_unincorporate V isnan c r H), Hk|]. split.
  - unfold vs_unincorporate, dmem. rewrite Hw. cbn [negb].
    rewrite (forget_cells_ok accepts r (vs_out c') c' (VRow None []) Hw) by (first [exact (NoDup_nil _)|intros l []]). cbn [r_labels r_inputs filter dvals map].
    unfold row_of. cbn [vs_obs]. rewrite dget_dset_same. cbn [r_labels given]. eexists. split; [reflexivity|]. unfold held. cbn [vs_ripl minus_obs p_obs].
    rewrite filter_all by (intros; reflexivity). exact Hh.
  - intros Hi lab' observation inputs' xs' Hn' Hob [B1 [B2 [B3 [B4 _]]]]. unfold vs_incorporate, validate_incorporate, dmem. rewrite Hw. cbn [negb andb].
    assert (Eo : vs_out c' = vs_out c) by (rewrite Hc; reflexivity). assert (Ei : vs_in c' = vs_in c) by (rewrite Hc; reflexivity).
    destruct observation as [|[q v] observation]; [congruence|]. cbn [given negb]. rewrite Eo.
    rewrite (proj2 (zsubset_spec _ _)) by (intros a Hq; apply in_map_iff in Hq; destruct Hq as [[q' u] [Eq Hq]]; cbn in Eq; subst q'; apply (B2 a u Hq)). cbn [negb].
    rewrite (proj2 (anynan_spec isnan inputs') B3). rewrite (proj2 (anynan_spec isnan ((q, v) :: observation))) by (intros i u Hu; apply (B2 i u Hu)).
    cbn [r_labels r_inputs contradicts]. rewrite andb_false_r. rewrite (proj2 (existsb_false _ _)) by reflexivity. cbn [observe_cells]. unfold observe_cell. cbn [set_row vs_in]. rewrite Ei.
    destruct (vs_in c) as [|i ins]; [congruence|]. reflexivity.
Qed.
Print Assumptions C63_spoiled.

(* ------------------------------------------------------------------ *)
(** ** Histories *)
Inductive vop (V : Type) : Type :=
| VInc (r : Z) (observation inputs : dict V)
| VUninc (r : Z)
| VSim (r : Z) (targets : list Z) (constraints inputs : dict V) (N : option nat)
| VTrans (program N : option Z).
Arguments VInc {V}. Arguments VUninc {V}. Arguments VSim {V}. Arguments VTrans {V}.

Section History.
Context {V : Type} (isnan : V -> bool) (veq : V -> V -> bool) (accepts : cell V -> bool)
  (draw : ripl V -> Z -> nat -> list V -> Z -> V).
Definition fine {A} (e : res A) : bool := match e with Ok _ => true | Err _ => false end.
Definition vstep (lab : nat -> Z) (c : vs V) (o : vop V) : vs V * bool :=
  match o with
  | VInc r observation inputs => let '(c', e) := vs_incorporate isnan veq accepts lab c r observation inputs in (c', fine e)
  | VUninc r => let '(c', e) := vs_unincorporate c r in (c', fine e)
  | VSim r targets constraints inputs N => let '(c', e) := vs_simulate isnan veq accepts draw lab c r targets constraints inputs N in (c', fine e)
  | VTrans program N => (vs_transition c program N, true)
  end.
(** Operation number [n] generates the labels [lab n]. *)
Fixpoint vrun (lab : nat -> nat -> Z) (n : nat) (c : vs V) (ops : list (vop V)) : vs V * list bool :=
  match ops with
  | [] => (c, [])
  | o :: ops' => let '(c', b) := vstep (lab n) c o in let '(c'', bs) := vrun lab (S n) c' ops' in (c'', b :: bs)
  end.

(** What an operation does to the data, and whether it is accepted. *)
Definition spec_step (outs ins : list Z) (data : list (cell V)) (o : vop V) (data' : list (cell V)) (ok : bool) : Prop :=
  match o with
  | VInc r observation inputs =>
      (ok = true /\ exists xs new, admissible isnan outs ins data r observation inputs xs /\
        Forall2 (describes outs r xs) observation new /\ data' = data ++ new) \/
      (ok = false /\ (forall xs, ~ admissible isnan outs ins data r observation inputs xs) /\ data' = data)
  | VUninc r => (ok = true <-> known data r) /\ data' = filter (fun x => negb (c_row x =? r)%Z) data
  | VSim r targets constraints inputs _ =>
      (ok = true <-> exists xs, askable isnan outs ins data r targets constraints inputs xs) /\ data' = data
  | VTrans _ _ => ok = true /\ data' = data
  end.
Fixpoint spec_run (outs ins : list Z) (data : list (cell V)) (ops : list (vop V)) (data' : list (cell V)) (oks : list bool) : Prop :=
  match ops, oks with
  | [], [] => data' = data
  | o :: ops', b :: oks' => exists data1, spec_step outs ins data o data1 b /\ spec_run outs ins data1 ops' data' oks'
  | _, _ => False
  end.
(** The arguments are dictionaries, and targets distinct. *)
Definition dicts (o : vop V) : Prop :=
  match o with
  | VInc _ observation inputs => NoDup (dkeys observation) /\ NoDup (dkeys inputs)
  | VSim _ targets constraints inputs _ => NoDup targets /\ NoDup (dkeys constraints) /\ NoDup (dkeys inputs)
  | _ => True
  end.
(** No query with constraints is made of a row without data. *)
Fixpoint careful (lab : nat -> nat -> Z) (n : nat) (c : vs V) (ops : list (vop V)) : Prop :=
  match ops with
  | [] => True
  | o :: ops' =>
      match o with VSim r _ (_ :: _) _ _ => known (held c) r | _ => True end /\
      careful lab (S n) (fst (vstep (lab n) c o)) ops'
  end.
End History.

(** Over any history the data are what the accepted incorporations added and the
    unincorporations took out, whatever was asked or transitioned in between; and an
    operation is accepted just when the data allow it. *)
Theorem C63_history_partial : forall V isnan veq accepts draw, (forall a b : V, veq a b = true <-> a = b) -> (forall x, accepts x = true) ->
  forall lab, (forall a i b j, lab a i = lab b j -> a = b /\ i = j) -> forall ops c n,
  vs_ok isnan c -> (forall l, In l (p_labels (vs_ripl c)) -> exists a i, (a < n)%nat /\ l = lab a i) ->
  Forall dicts ops -> careful isnan veq accepts draw lab n c ops ->
  let '(c', oks) := vrun isnan veq accepts draw lab n c ops in
  vs_ok isnan c' /\ vs_out c' = vs_out c /\ vs_in c' = vs_in c /\ spec_run isnan (vs_out c) (vs_in c) (held c) ops (held c') oks.
Proof.
  intros V isnan veq accepts draw Hveq Hacc lab Hinj. induction ops as [|o ops IH]; intros c n H Hl Hd Hcar; [cbn; auto|].
  inversion Hd as [|? ? Ho Hd']; subst. destruct Hcar as [Hc Hcar]. cbn [vrun].
  assert (Hf : fresh (lab n) c).
  { split; [intros i j E; apply (Hinj n i n j E)|]. intros i K. destruct (Hl _ K) as [a [j [Ha E]]]. apply Hinj in E. lia. }
  assert (Hstep : let '(c1, b) := vstep isnan veq accepts draw (lab n) c o in
    vs_ok isnan c1 /\ vs_out c1 = vs_out c /\ vs_in c1 = vs_in c /\ spec_step isnan (vs_out c) (vs_in c) (held c) o (held c1) b /\
    forall l, In l (p_labels (vs_ripl c1)) -> exists a i, (a < S n)%nat /\ l = lab a i).
  { assert (Hl' : forall l, In l (p_labels (vs_ripl c)) -> exists a i, (a < S n)%nat /\ l = lab a i).
    { intros l K. destruct (Hl l K) as [a [i [K1 K2]]]. exists a, i. split; [lia|exact K2]. }
    destruct o as [r observation inputs|r|r targets constraints inputs N|program N]; cbn [vstep].
    - destruct Ho as [Ho1 Ho2]. destruct (classic (exists xs, admissible isnan (vs_out c) (vs_in c) (held c) r observation inputs xs)) as [[xs Ha]|Hno].
      + destruct (inc_ok isnan veq accepts Hveq Hacc c r observation inputs (lab n) xs H Hf Ho2 Ho1 Ha) as [c' [new [E [H1 [H2 [H3 [H4 [H5 [H6 _]]]]]]]]].
        rewrite E. cbn [fine]. split; [exact H1|]. split; [exact H4|]. split; [exact H5|]. split.
        * cbn. left. split; [reflexivity|]. exists xs, new. auto.
        * rewrite H6. intros l K. apply in_app_or in K. destruct K as [K|K]; [apply Hl', K|]. apply in_map_iff in K. destruct K as [i [<- _]]. exists n, i. split; [lia|reflexivity].
      + assert (Hno' : forall xs, ~ admissible isnan (vs_out c) (vs_in c) (held c) r observation inputs xs) by (intros xs K; apply Hno; exists xs; exact K).
        unfold vs_incorporate. rewrite (proj2 (validate_inc isnan veq Hveq c r observation inputs H Ho2) Hno'). cbn [fine]. do 3 (split; [auto|]). split; [|exact Hl']. cbn. right. auto.
    - destruct (classic (known (held c) r)) as [K|K].
      + pose proof (proj1 (known_row isnan c r H) K) as [w Hw]. destruct (uninc_ok isnan accepts c r w H Hw) as [E _].
        destruct (proj1 (C63_unincorporate V isnan c r H) K) as [c' [E' [H1 [H2 [H3 [H4 _]]]]]].
        rewrite E'. cbn [fine]. split; [exact H1|]. split; [exact H2|]. split; [exact H3|]. split; [cbn; split; [tauto|exact H4]|].
        rewrite E in E'. injection E' as <-. intros l Q. apply Hl'. unfold p_labels in *. cbn [vs_ripl minus_obs p_obs p_pred] in Q. apply in_app_or in Q. apply in_or_app. destruct Q as [Q|Q]; [left|right; exact Q].
        apply in_map_iff in Q. destruct Q as [[l' x] [El Q]]. cbn in El. subst l'. apply filter_In in Q. exact (in_map fst _ _ (proj1 Q)).
      + rewrite (proj2 (C63_unincorporate V isnan c r H) K). cbn [fine]. do 3 (split; [auto|]). split; [|exact Hl']. cbn. split; [split; [discriminate|tauto]|].
        symmetry. apply filter_all. intros x Hx. apply negb_true_iff, Z.eqb_neq. intros E. apply K. exists x. auto.
    - destruct Ho as [Ho1 [Ho2 Ho3]]. destruct (classic (exists xs, askable isnan (vs_out c) (vs_in c) (held c) r targets constraints inputs xs)) as [[xs Ha]|Hno].
      + destruct (sim_ok isnan veq accepts draw Hveq Hacc c r targets constraints inputs N (lab n) xs H Hf Ho3 Ho2 Ho1 Ha) as [new [sample [c' [E [_ [_ [_ [H1 _]]]]]]]].
        rewrite E. cbn [fine]. rewrite H1 by (destruct constraints; [left; reflexivity|right; exact Hc]). split; [apply ran_ok, H|]. split; [reflexivity|]. split; [reflexivity|].
        split; [|exact Hl']. cbn. split; [split; eauto|reflexivity].
      + assert (Hno' : forall xs, ~ askable isnan (vs_out c) (vs_in c) (held c) r targets constraints inputs xs) by (intros xs K; apply Hno; exists xs; exact K).
        unfold vs_simulate. rewrite (proj2 (validate_sim isnan veq Hveq c r targets constraints inputs H Ho3) Hno'). cbn [fine]. do 3 (split; [auto|]). split; [|exact Hl']. cbn. split; [split; [discriminate|tauto]|reflexivity].
    - split; [exact (ran_ok isnan c _ H)|]. split; [reflexivity|]. split; [reflexivity|]. split; [cbn; auto|exact Hl']. }
  destruct (vstep isnan veq accepts draw (lab n) c o) as [c1 b] eqn:Es. cbn [fst] in Hcar. destruct Hstep as [S1 [S2 [S3 [S4 S5]]]].
  specialize (IH c1 (S n) S1 S5 Hd' Hcar). destruct (vrun isnan veq accepts draw lab (S n) c1 ops) as [c' oks]. destruct IH as [I1 [I2 [I3 I4]]].
  split; [exact I1|]. split; [congruence|]. split; [congruence|]. cbn. exists (held c1). split; [exact S4|]. rewrite <- S2, <- S3. exact I4.
Qed.
Print Assumptions C63_history_partial.

(* ------------------------------------------------------------------ *)
(** ** Metadata *)
Lemma int_str z : int (str z) = Some z.
Proof.
  unfold int, str. rewrite DecimalString.NilZero.isi; cbn.
  - rewrite DecimalZ.of_to. reflexivity.
  - destruct z; cbn; try discriminate. intros [= K]. exact (DecimalPos.Unsigned.to_uint_nonnil _ K).
  - destruct z; cbn; try discriminate. intros [= K]. exact (DecimalPos.Unsigned.to_uint_nonnil _ K).
Qed.
Lemma str_inj a b : str a = str b -> a = b.
Proof. intros E. pose proof (int_str a) as H. rewrite E, int_str in H. congruence. Qed.
Definition strs {A} (d : dict A) : sdict A := map (fun kv => (str (fst kv), snd kv)) d.
Lemma sset_new {A} k (v : A) d : ~ In k (dkeys d) -> sset (str k) v (strs d) = strs (d ++ [(k, v)]).
Proof.
  induction d as [|[k' v'] d IH]; intros H; [reflexivity|]. cbn. destruct (String.eqb_spec (str k) (str k')) as [E|N].
  - exfalso. apply H. left. symmetry. apply str_inj, E.
  - f_equal. apply IH. intros K. apply H. right; exact K.
Qed.
Lemma keys_str_strs {A} (d : dict A) : NoDup (dkeys d) -> keys_str d = strs d.
Proof.
  unfold keys_str. change (@nil (String.string * A)) with (strs (@nil (Z * A))). change d with ([] ++ d) at 1 3. generalize (@nil (Z * A)) as e.
  set (step := fun (e : sdict A) (kv : Z * A) => sset (str (fst kv)) (snd kv) e).
  induction d as [|[k v] d IH]; intros e H; [cbn; rewrite app_nil_r; reflexivity|].
  cbn [fold_left]. assert (E : step (strs e) (k, v) = strs (e ++ [(k, v)])).
  { apply sset_new. unfold dkeys in H. rewrite map_app in H. apply NoDup_app3 in H. destruct H as [_ [_ H]]. intros K. apply (H k K). left; reflexivity. }
  rewrite E. specialize (IH (e ++ [(k, v)])). rewrite <- app_assoc in IH. apply IH. exact H.
Qed.
Lemma keys_int_strs {A} (d : dict A) : NoDup (dkeys d) -> keys_int (strs d) = Ok d.
Proof.
  unfold keys_int. set (step := fun (e : res (dict A)) (kv : String.string * A) => rbind e (fun e0 => match int (fst kv) with Some z => Ok (dset z (snd kv) e0) | None => Err ValueError end)).
  intros H. enough (K : forall e, NoDup (dkeys (e ++ d)) -> fold_left step (strs d) (Ok e) = Ok (e ++ d)) by (apply (K [] H)). clear H.
  induction d as [|[k v] d IH]; intros e H; [cbn; rewrite app_nil_r; reflexivity|].
  cbn [strs map fold_left fst snd]. assert (E : step (Ok e) (str k, v) = Ok (e ++ [(k, v)])).
  { unfold step. cbn [rbind fst snd]. rewrite int_str, dset_fresh; [reflexivity|]. unfold dkeys in H. rewrite map_app in H. apply NoDup_app3 in H. destruct H as [_ [_ H]]. intros K. apply (H k K). left; reflexivity. }
  rewrite E. fold (strs d). specialize (IH (e ++ [(k, v)])). rewrite <- app_assoc in IH. apply IH. exact H.
Qed.

(** The metadata give the cgpm back; but when the source of the program is among them, the
    program is run once more. *)
Theorem C63_metadata : forall V isnan (c : vs V) source, vs_ok isnan c ->
  vs_new (vs_out c) (vs_in c) (vs_ripl c) <> Err ValueError ->
  vs_from_metadata (vs_to_metadata source c) = Ok (ran c match source with Some s => [Program s] | None => [] end).
Proof.
  intros V isnan c source H Hnew. unfold vs_from_metadata, vs_to_metadata. cbn [m_source m_outputs m_inputs m_obs m_binary].
  assert (En : forall p : ripl V, p_simulators p = p_simulators (vs_ripl c) -> p_inputs p = p_inputs (vs_ripl c) -> p_observers p = p_observers (vs_ripl c) ->
    vs_new (vs_out c) (vs_in c) p = Ok (Vs (vs_out c) (vs_in c) [] p)).
  { intros p E1 E2 E3. unfold vs_new in *. rewrite E1, E2, E3.
    repeat match goal with |- context [if ?b then _ else _] => destruct b; [congruence|] end. reflexivity. }
  assert (Eo : obs_from_json (obs_to_json (vs_obs c)) = Ok (vs_obs c)).
  { unfold obs_from_json, obs_to_json. rewrite keys_str_strs by apply (k_rows isnan c H).
    set (enc := fun w : vrow V => (keys_str (match r_inputs w with Some d => d | None => [] end), keys_str (r_labels w))).
    assert (E : map (fun kw : String.string * vrow V => (fst kw, (keys_str (match r_inputs (snd kw) with Some d => d | None => [] end), keys_str (r_labels (snd kw))))) (strs (vs_obs c)) =
      strs (map (fun kw => (fst kw, enc (snd kw))) (vs_obs c))) by (unfold strs; rewrite !map_map; reflexivity).
    rewrite E, keys_int_strs by (unfold dkeys; rewrite map_map; apply (k_rows isnan c H)). cbn [rbind].
    assert (Hrow : forall r w, In (r, w) (vs_obs c) -> NoDup (dkeys (r_labels w)) /\ exists d, r_inputs w = Some d /\ NoDup (dkeys d)).
    { intros r w Hw. apply (dget_In_NoDup r w _ (k_rows isnan c H)) in Hw. destruct (k_row isnan c H r w Hw) as [K1 [_ [d [xs [K2 [K3 _]]]]]]. split; [exact K1|]. exists d. auto. }
    clear - Hrow. induction (vs_obs c) as [|[r w] o IH]; [reflexivity|]. cbn [map fst snd rows_int]. destruct (Hrow r w (or_introl eq_refl)) as [K1 [d [K2 K3]]].
    unfold enc at 1. rewrite K2. cbn [rows_int]. rewrite !keys_str_strs, !keys_int_strs by assumption. cbn [rbind]. rewrite IH by (intros r' w' Hw; exact (Hrow r' w' (or_intror Hw))). cbn [rbind].
    rewrite <- K2. destruct w; reflexivity. }
  rewrite Eo. destruct source as [s|]; rewrite En by reflexivity; cbn [rbind vs_out vs_in vs_ripl].
  - reflexivity.
  - unfold ran, set_ripl. rewrite app_nil_r. destruct c as [? ? ? []]; reflexivity.
Qed.
Print Assumptions C63_metadata.

(* ------------------------------------------------------------------ *)
(** ** Findings, and cases that meet the hypotheses *)
Definition ex_nan (v : Z) : bool := (v =? 99)%Z.
Definition ex_all (x : cell Z) : bool := true.
(** Observers that refuse the value 0. *)
Definition ex_some (x : cell Z) : bool := negb (c_val x =? 0)%Z.
(** A program that returns what is observed, or else the number of observations. *)
Definition ex_draw (p : ripl Z) (r : Z) (i : nat) (xs : list Z) (l : Z) : Z :=
  match find (fun x => (c_row x =? r)%Z && Nat.eqb (c_out x) i) (map snd (p_obs p)) with
  | Some x => c_val x
  | None => Z.of_nat (length (p_obs p))
  end.
Definition ex_lab (n : nat) (i : nat) : Z := (Z.of_nat (Nat.pow 2 n * (2 * i + 1)))%Z.
Definition ex_p : ripl Z := Ripl [] [] [] 2 1 2.
Definition ex_c : vs Z := Vs [1%Z; 2%Z] [3%Z] [] ex_p.
Definition ex_inc := vs_incorporate ex_nan Z.eqb ex_all.
Definition ex_sim := vs_simulate ex_nan Z.eqb ex_all ex_draw.
Definition ex_c1 : vs Z := fst (ex_inc (ex_lab 0) ex_c 7 [(2, 20)]%Z [(3, 5)]%Z).

Lemma ex_lab_inj a i b j : ex_lab a i = ex_lab b j -> a = b /\ i = j.
Proof.
  unfold ex_lab. intros E. apply Nat2Z.inj in E. revert b E. induction a as [|a IH]; intros [|b] E; cbn [Nat.pow] in E.
  - split; lia.
  - exfalso. assert (Q : (2 * i + 1 = 2 * (2 ^ b * (2 * j + 1)))%nat) by lia. lia.
  - exfalso. assert (Q : (2 * j + 1 = 2 * (2 ^ a * (2 * i + 1)))%nat) by lia. lia.
  - destruct (IH b) as [-> ->]; [nia|]. auto.
Qed.
Lemma ex_fresh n c : (forall l, In l (p_labels (vs_ripl c)) -> exists a i, (a < n)%nat /\ l = ex_lab a i) -> fresh (V := Z) (ex_lab n) c.
Proof.
  intros H. split; [intros i j E; apply (ex_lab_inj n i n j E)|]. intros i K. destruct (H _ K) as [a [j [Ha E]]]. apply ex_lab_inj in E. lia.
Qed.
Lemma ex_ok : vs_ok ex_nan ex_c.
Proof. apply (C63_init Z ex_nan [1%Z; 2%Z] [3%Z] ex_p); reflexivity. Qed.
Lemma ex_admissible : admissible ex_nan [1; 2]%Z [3]%Z [] 7 [(2, 20)]%Z [(3, 5)]%Z [5]%Z.
Proof.
  split; [discriminate|]. split.
  - intros q v [E|[]]. injection E as <- <-. split; [right; left; reflexivity|]. split; [reflexivity|]. intros [x [[] _]].
  - split; [intros i v [E|[]]; injection E as <- <-; reflexivity|]. split; [left|intros x []]. split; [intros x Hx; exact Hx|]. repeat constructor.
Qed.
Example ex_init : exists c, vs_new [1; 2]%Z [3]%Z ex_p = Ok c. Proof. eexists. reflexivity. Qed.
Example ex_incorporate : fresh (ex_lab 0) ex_c /\ NoDup (dkeys [(2, 20)]%Z) /\ NoDup (dkeys [(3, 5)]%Z) /\ ~ known (held ex_c) 7 /\
  held ex_c1 = [Cell 7 1 [5] 20]%Z /\ forall xs, ~ admissible ex_nan [1; 2]%Z [3]%Z [] 7 [(2, 20)]%Z [] xs.
Proof.
  split; [apply ex_fresh; intros l []|]. split; [repeat constructor; intros []|]. split; [repeat constructor; intros []|]. split; [intros [x [[] _]]|]. split; [reflexivity|].
  intros xs [_ [_ [_ [[[_ K]|[_ [x [[] _]]]] _]]]]. inversion K; subst. discriminate.
Qed.
Lemma ex_ok1 : vs_ok ex_nan ex_c1.
Proof.
  destruct ex_incorporate as [H1 [H2 [H3 _]]].
  destruct (proj1 (C63_incorporate Z ex_nan Z.eqb ex_all Z.eqb_eq (fun _ => eq_refl) ex_c 7 [(2, 20)]%Z [(3, 5)]%Z (ex_lab 0) ex_ok H1 H3 H2) [5]%Z ex_admissible) as [c' [new [E [H _]]]].
  unfold ex_c1, ex_inc. rewrite E. exact H.
Qed.
Example ex_unincorporate : known (held ex_c1) 7. Proof. eexists. split; [left; reflexivity|reflexivity]. Qed.
Lemma ex_askable : askable ex_nan [1; 2]%Z [3]%Z (held ex_c1) 7 [2]%Z [(1, 10)]%Z [] [5]%Z.
Proof.
  split; [intros q [<-|[]]; right; left; reflexivity|]. split.
  - intros q v [E|[]]. injection E as <- <-. split; [left; reflexivity|]. split; [reflexivity|]. split.
    + intros [x [[<-|[]] [_ K]]]. discriminate.
    + intros [K|[]]. discriminate.
  - split; [intros i v []|]. split; [right; split; [reflexivity|exact ex_unincorporate]|]. intros x [<-|[]] _. reflexivity.
Qed.
Example ex_simulate : fresh (ex_lab 1) ex_c1 /\ snd (ex_sim (ex_lab 1) ex_c1 7 [2]%Z [(1, 10)]%Z [] None) = Ok [(2, 20)]%Z.
Proof. split; [|reflexivity]. apply ex_fresh. intros l [<-|[]]. exists 0%nat, 0%nat. split; [lia|reflexivity]. Qed.
(** The premise of C63_observed holds of this program. *)
Example ex_respects : forall p r i xs v l, (exists x, In x (map snd (p_obs p)) /\ c_row x = r /\ c_out x = i) ->
  (forall x, In x (map snd (p_obs p)) -> c_row x = r -> c_out x = i -> c_val x = v) -> ex_draw p r i xs l = v.
Proof.
  intros p r i xs v l [x [Hx [Hr Ho]]] H. unfold ex_draw. destruct (find _ _) as [y|] eqn:E.
  - apply find_some in E. destruct E as [Hy E]. apply andb_true_iff in E. destruct E as [E1 E2]. apply Z.eqb_eq in E1. apply Nat.eqb_eq in E2. apply H; assumption.
  - pose proof (find_none _ _ E x Hx) as K. cbn in K. rewrite Hr, Ho, Z.eqb_refl, Nat.eqb_refl in K. discriminate.
Qed.
Definition ex_ops : list (vop Z) :=
  [VInc 7 [(2, 20)] [(3, 5)]; VInc 7 [(2, 21)] []; VSim 7 [2; 1] [] [] None; VTrans None (Some 4); VInc 8 [(1, 1)] [(3, 6)];
   VSim 7 [2] [(1, 10)] [] (Some 2%nat); VUninc 9; VUninc 7]%Z.
Example ex_history : Forall dicts ex_ops /\ careful ex_nan Z.eqb ex_all ex_draw ex_lab 0 ex_c ex_ops /\
  held (fst (vrun ex_nan Z.eqb ex_all ex_draw ex_lab 0 ex_c ex_ops)) = [Cell 8 0 [6] 1]%Z /\
  snd (vrun ex_nan Z.eqb ex_all ex_draw ex_lab 0 ex_c ex_ops) = [true; false; true; true; true; true; false; true].
Proof.
  split.
  - assert (N : forall a : Z, NoDup [a]) by (intros a; repeat constructor; intros []).
    repeat (first [exact I | apply N | apply NoDup_nil | split | constructor]); cbn; intros [K|[]]; discriminate.
  - split; [|split; reflexivity]. repeat split. eexists. split; [left; reflexivity|reflexivity].
Qed.
Example ex_metadata : vs_new (vs_out ex_c1) (vs_in ex_c1) (vs_ripl ex_c1) <> Err ValueError. Proof. discriminate. Qed.

(** "A query leaves the cgpm as it found it": after a query with a constraint on a row
    without data, the same observation is refused that was accepted before. *)
Theorem C63_simulate_refuted : exists (c : vs Z) r targets constraints inputs lab observation,
  vs_ok ex_nan c /\ fresh lab c /\ snd (ex_sim lab c r targets constraints inputs None) <> Err ValueError /\
  let c' := fst (ex_sim lab c r targets constraints inputs None) in
  snd (ex_inc (ex_lab 1) c r observation inputs) = Ok tt /\ snd (ex_inc (ex_lab 1) c' r observation inputs) = Err KeyError /\
  snd (vs_unincorporate c r) = Err ValueError /\ snd (vs_unincorporate c' r) = Ok tt /\
  snd (ex_sim (ex_lab 1) c r targets [] [] None) = Err ValueError /\ snd (ex_sim (ex_lab 1) c' r targets [] [] None) = Err AssertionError.
Proof.
  exists ex_c, 7%Z, [2]%Z, [(1, 10)]%Z, [(3, 5)]%Z, (ex_lab 0), [(2, 20)]%Z. split; [exact ex_ok|]. split; [apply ex_incorporate|]. split; [discriminate|]. vm_compute. auto 10.
Qed.
Print Assumptions C63_simulate_refuted.

(** "An operation that raises leaves the data as they were": an observer that refuses a value
    leaves behind the observations before it, of an incorporation as of the constraints of
    a query. *)
Theorem C63_half_refuted : exists (c : vs Z) r observation inputs lab,
  vs_ok ex_nan c /\ fresh lab c /\ admissible ex_nan (vs_out c) (vs_in c) (held c) r observation inputs [5%Z] /\
  let '(c', e) := vs_incorporate ex_nan Z.eqb ex_some lab c r observation inputs in e = Err RuntimeError /\ held c = [] /\ held c' = [Cell 7 1 [5] 20]%Z.
Proof.
  exists ex_c, 7%Z, [(2, 20); (1, 0)]%Z, [(3, 5)]%Z, (ex_lab 0). split; [exact ex_ok|]. split; [apply ex_incorporate|]. split; [|vm_compute; auto].
  destruct ex_admissible as [_ [_ K]]. split; [discriminate|]. split; [|exact K]. intros q v [E|[E|[]]]; injection E as <- <-; (split; [cbn; auto|]); (split; [reflexivity|]); intros [x [[] _]].
Qed.
Print Assumptions C63_half_refuted.
Theorem C63_leak_refuted : exists (c : vs Z) r targets constraints inputs lab,
  vs_ok ex_nan c /\ fresh lab c /\
  let '(c', e) := vs_simulate ex_nan Z.eqb ex_some ex_draw lab c r targets constraints inputs None in
  e = Err RuntimeError /\ held c = [] /\ held c' = [Cell 7 1 [5] 20]%Z /\ p_log (vs_ripl c') = [].
Proof.
  exists (Vs [1; 2; 4] [3] [] (Ripl [] [] [] 3 1 3))%Z, 7%Z, [4]%Z, [(2, 20); (1, 0)]%Z, [(3, 5)]%Z, (ex_lab 0).
  split; [apply (C63_init Z ex_nan [1; 2; 4]%Z [3]%Z (Ripl [] [] [] 3 1 3)); reflexivity|]. split; [apply ex_fresh; intros l []|]. vm_compute. auto.
Qed.
Print Assumptions C63_leak_refuted.

(** "A cgpm read from its metadata is the cgpm written": with the source of the program the
    program is run twice, and a row spoiled as above comes back as one with data. *)
Theorem C63_metadata_refuted : exists (c : vs Z) r targets constraints inputs lab,
  vs_ok ex_nan c /\ fresh lab c /\
  (exists c', vs_from_metadata (vs_to_metadata (Some 1%Z) c) = Ok c' /\ p_log (vs_ripl c) = [] /\ p_log (vs_ripl c') = [Program 1]) /\
  let c1 := fst (ex_sim lab c r targets constraints inputs None) in
  exists c2, vs_from_metadata (vs_to_metadata None c1) = Ok c2 /\
    snd (ex_sim (ex_lab 1) c1 r targets [] inputs None) <> Err ValueError /\ snd (ex_sim (ex_lab 1) c2 r targets [] inputs None) = Err ValueError.
Proof.
  exists ex_c, 7%Z, [2]%Z, [(1, 10)]%Z, [(3, 5)]%Z, (ex_lab 0). split; [exact ex_ok|]. split; [apply ex_incorporate|].
  split; eexists; (split; [vm_compute; reflexivity|]); split; try reflexivity; vm_compute; discriminate.
Qed.
Print Assumptions C63_metadata_refuted.

(** "logpdf is the log of a mass function": two values have mass one each. *)
Theorem C63_logpdf_refuted : exists (c : vs Z) r q v v' inputs, vs_ok ex_nan c /\ In q (vs_out c) /\ v <> v' /\
  (1 < exp (IZR (vs_logpdf c r [(q, v)] [] inputs)) + exp (IZR (vs_logpdf c r [(q, v')] [] inputs)))%R.
Proof.
  exists ex_c, 7%Z, 1%Z, 10%Z, 11%Z, [(3, 5)]%Z. split; [exact ex_ok|]. split; [left; reflexivity|]. split; [discriminate|]. unfold vs_logpdf. rewrite exp_0. lra.
Qed.
Print Assumptions C63_logpdf_refuted.
