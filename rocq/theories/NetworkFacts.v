(** Facts about the network helpers. *)
From Verif Require Export Network BaseFacts ListFacts.
Local Open Scope Z_scope.

(* ------------------------------------------------------------------ *)
(** topological_sort. *)

(** [m] comes before [n] in [l]. *)
Definition before (m n : Z) (l : list Z) : Prop := exists l1 l2, l = l1 ++ n :: l2 /\ In m l1.

(** Invariant of the sort: sorted nodes and remaining nodes are the graph, and
    the parents of every sorted node come before it. *)
Definition tinv (g0 g : dict (list Z)) (sorted : list Z) : Prop :=
  NoDup (dkeys g) /\
  (forall n e, dget n g = Some e -> dget n g0 = Some e) /\
  Permutation (sorted ++ dkeys g) (dkeys g0) /\
  (forall n e p, In n sorted -> dget n g0 = Some e -> In p e -> In p (dkeys g0) -> before p n sorted).

Lemma before_app m n l l' : before m n l -> before m n (l ++ l').
Proof.
  intros [l1 [l2 [-> H]]]. exists l1, (l2 ++ l'). split; [|exact H]. rewrite <- app_assoc. reflexivity.
Qed.

Lemma ddel_keys_perm {A} n (g : dict A) : NoDup (dkeys g) -> In n (dkeys g) ->
  Permutation (dkeys g) (n :: dkeys (ddel n g)).
Proof.
  intros Hnd Hin. apply in_dkeys_Some in Hin. destruct Hin as [v Hv].
  apply (Permutation_map fst) with (l' := (n, v) :: ddel n g). apply ddel_perm; assumption.
Qed.

Lemma topo_visit_inv g0 g sorted cyc n e g' sorted' cyc' :
  NoDup (dkeys g0) -> tinv g0 g sorted -> dget n g = Some e ->
  topo_visit (g, sorted, cyc) (n, e) = (g', sorted', cyc') ->
  (tinv g0 g' sorted' /\ g' = ddel n g /\ sorted' = sorted ++ [n] /\ cyc' = false /\
     (forall p, In p e -> ~ In p (dkeys g))) \/
  (g' = g /\ sorted' = sorted /\ cyc' = cyc /\ exists p, In p e /\ In p (dkeys g)).
Proof.
  intros Hnd0 [H1 [H2 [H3 H4]]] Hn. unfold topo_visit. cbn [fst snd].
  destruct (forallb (fun p => negb (dmem p g)) e) eqn:F; intros E; injection E as <- <- <-.
  - left. assert (Hf : forall p, In p e -> ~ In p (dkeys g)).
    { intros p Hp. rewrite forallb_forall in F. specialize (F p Hp). apply negb_true_iff in F.
      apply dmem_false. exact F. }
    split; [|auto]. split; [apply NoDup_ddel; exact H1|]. split.
    { intros m e' Hm. apply H2. rewrite dget_ddel in Hm by exact H1.
      destruct (Z.eqb_spec m n); [discriminate|exact Hm]. }
    assert (Hin : In n (dkeys g)) by (eapply dget_Some_in; eauto).
    split.
    { rewrite <- app_assoc. simpl. eapply perm_trans; [|exact H3]. apply Permutation_app_head.
      apply Permutation_sym, ddel_keys_perm; assumption. }
    intros m e' p Hm Hm' Hp Hp0. apply in_app_iff in Hm. destruct Hm as [Hm|[->|[]]].
    + apply before_app. eapply H4; eauto.
    + apply H2 in Hn. rewrite Hn in Hm'. injection Hm' as <-.
      exists sorted, []. split; [reflexivity|].
      apply (Permutation_in p (Permutation_sym H3)) in Hp0. apply in_app_iff in Hp0.
      destruct Hp0 as [Hp0|Hp0]; [exact Hp0|]. exfalso. apply (Hf p Hp Hp0).
  - right. repeat split. rewrite <- negb_true_iff in F.
    assert (exists p, In p e /\ dmem p g = true) as [p [Hp Hd]].
    { clear -F. induction e as [|x e IH]; [discriminate|]. simpl in F. destruct (dmem x g) eqn:E.
      - exists x. split; [left; reflexivity|exact E].
      - simpl in F. destruct (IH F) as [p [Hp Hd]]. exists p. split; [right; exact Hp|exact Hd]. }
    exists p. split; [exact Hp|]. apply dmem_in. exact Hd.
Qed.

(** One pass over the snapshot. *)
Lemma topo_pass_inv g0 : NoDup (dkeys g0) -> forall items g sorted cyc g' sorted' cyc',
  tinv g0 g sorted -> NoDup (dkeys items) ->
  (forall n e, In (n, e) items -> dget n g = Some e) ->
  fold_left topo_visit items (g, sorted, cyc) = (g', sorted', cyc') ->
  tinv g0 g' sorted' /\ (length g' <= length g)%nat /\
  ((cyc' = false /\ (cyc = false \/ (length g' < length g)%nat)) \/
   (cyc' = true /\ cyc = true /\ g' = g /\ sorted' = sorted /\
    forall n e, In (n, e) items -> exists p, In p e /\ In p (dkeys g))).
Proof.
  intros Hnd0. induction items as [|[n e] items IH]; intros g sorted cyc g' sorted' cyc' Hi Hnd Hit E.
  - simpl in E. injection E as <- <- <-. split; [exact Hi|]. split; [lia|].
    destruct cyc; [right; repeat split; intros n e []|left; auto].
  - cbn [fold_left] in E. destruct (topo_visit (g, sorted, cyc) (n, e)) as [[g1 s1] c1] eqn:V.
    simpl in Hnd. inversion Hnd as [|? ? Hnot Hnd']; subst.
    assert (Hn : dget n g = Some e) by (apply Hit; left; reflexivity).
    destruct (topo_visit_inv g0 g sorted cyc n e g1 s1 c1 Hnd0 Hi Hn V)
      as [[I1 [-> [-> [-> Hp]]]]|[-> [-> [-> Hp]]]].
    + assert (HL : S (length (ddel n g)) = length g) by (apply length_ddel; eapply dget_Some_in; eauto).
      destruct (IH (ddel n g) (sorted ++ [n]) false g' sorted' cyc' I1 Hnd') as [J1 [J2 J3]]; [|exact E|].
      * intros m e' Hm. destruct Hi as [Hg _]. rewrite dget_ddel by exact Hg.
        destruct (Z.eqb_spec m n) as [->|Hne].
        { exfalso. apply Hnot. apply in_map_iff. exists (n, e'). auto. }
        apply Hit. right; exact Hm.
      * split; [exact J1|]. split; [lia|]. destruct J3 as [[-> _]|[_ [F _]]]; [|discriminate].
        left. split; [reflexivity|]. right. lia.
    + destruct (IH g sorted cyc g' sorted' cyc' Hi Hnd') as [J1 [J2 J3]]; [|exact E|].
      * intros m e' Hm. apply Hit. right; exact Hm.
      * split; [exact J1|]. split; [exact J2|]. destruct J3 as [J3|[A [B [C [D F]]]]]; [left; exact J3|].
        right. repeat split; auto. intros m e' [Em|Hm]; [injection Em as <- <-; exact Hp|eapply F; eauto].
Qed.

(** The nodes left when the sort gives up all have a parent among them. *)
Definition stuck (g : dict (list Z)) : Prop :=
  g <> [] /\ forall n e, dget n g = Some e -> exists p, In p e /\ In p (dkeys g).

Lemma topo_loop_spec g0 : NoDup (dkeys g0) -> forall fuel g sorted, (length g <= fuel)%nat ->
  tinv g0 g sorted ->
  (exists order, topo_loop fuel g sorted = Ok order /\ tinv g0 [] order) \/
  (topo_loop fuel g sorted = Err ValueError /\ exists g' s', tinv g0 g' s' /\ stuck g').
Proof.
  intros Hnd0. induction fuel as [|fuel IH]; intros g sorted HL Hi.
  - destruct g; [|simpl in HL; lia]. left. exists sorted. auto.
  - destruct g as [|x g1]; [left; exists sorted; auto|]. set (g := x :: g1) in *.
    destruct (fold_left topo_visit g (g, sorted, true)) as [[g' s'] c'] eqn:E.
    destruct (topo_pass_inv g0 Hnd0 g g sorted true g' s' c' Hi) as [I1 [I2 I3]]; auto.
    { apply Hi. } { intros n e Hin. apply dget_In_NoDup; [apply Hi|exact Hin]. }
    assert (EL : topo_loop (S fuel) g sorted = if c' then Err ValueError else topo_loop fuel g' s').
    { unfold g at 1. change (topo_loop (S fuel) (x :: g1) sorted) with (let '(graph', sorted', cyclic) := fold_left topo_visit g (g, sorted, true) in if cyclic then Err ValueError else topo_loop fuel graph' sorted'). rewrite E. reflexivity. }
    rewrite EL.
    destruct I3 as [[-> [F|Hlt]]|[-> [_ [-> [-> Hst]]]]]; [discriminate| |].
    + apply IH; [lia|exact I1].
    + right. split; [reflexivity|]. exists g, sorted. split; [exact Hi|]. split; [discriminate|].
      intros n e Hn. eapply Hst. apply dget_In. exact Hn.
Qed.

Lemma tinv_init g0 : NoDup (dkeys g0) -> tinv g0 g0 [].
Proof.
  intros H. split; [exact H|]. split; [auto|]. split; [apply Permutation_refl|]. intros n e p [].
Qed.

(** A path of one or more parent steps inside the graph. *)
Inductive path (g : dict (list Z)) : Z -> Z -> Prop :=
| path_one n p e : dget n g = Some e -> In p e -> In p (dkeys g) -> path g n p
| path_cons n p q e : dget n g = Some e -> In p e -> path g p q -> path g n q.

Lemma path_trans g a b c : path g a b -> path g b c -> path g a c.
Proof. induction 1; intros; eapply path_cons; eauto. Qed.

Lemma before_irrefl n l : NoDup l -> ~ before n n l.
Proof.
  intros Hnd [l1 [l2 [-> H]]]. apply NoDup_remove_2 in Hnd. apply Hnd. apply in_app_iff. left; exact H.
Qed.
Lemma before_trans a b c l : NoDup l -> before a b l -> before b c l -> before a c l.
Proof.
  intros Hnd [l1 [l2 [E1 H1]]] [l3 [l4 [E2 H2]]]. exists l3, l4. split; [exact E2|].
  subst l. apply in_split in H2. destruct H2 as [l5 [l6 ->]].
  (* l1 ++ b :: l2 = (l5 ++ b :: l6) ++ c :: l4 *)
  rewrite <- app_assoc in E2. simpl in E2.
  assert (l1 = l5).
  { revert l5 E2. clear H1. induction l1 as [|x l1 IH]; intros [|y l5] E2; simpl in *; auto.
    - injection E2 as -> ->. inversion Hnd; subst. exfalso. apply H1.
      apply in_app_iff. right. left; reflexivity.
    - injection E2 as -> E2. inversion Hnd; subst. exfalso. apply H1. apply in_app_iff. right; left; reflexivity.
    - injection E2 as -> E2. inversion Hnd; subst. f_equal. apply IH; auto. }
  subst l5. apply in_app_iff. left; exact H1.
Qed.

Lemma path_head_key g n q : path g n q -> In n (dkeys g).
Proof. destruct 1; eapply dget_Some_in; eauto. Qed.

Lemma sorted_no_cycle g0 order : NoDup (dkeys g0) -> tinv g0 [] order -> forall n, ~ path g0 n n.
Proof.
  intros Hnd [_ [_ [HP HB]]] n Hc. simpl in HP. rewrite app_nil_r in HP.
  assert (Hno : NoDup order) by (eapply Permutation_NoDup; [apply Permutation_sym; exact HP|exact Hnd]).
  assert (Hall : forall a b, path g0 a b -> before b a order).
  { intros a b Hp. induction Hp as [a p e Ha Hpe Hpk|a p q e Ha Hpe Hp IH].
    - eapply HB; eauto. apply (Permutation_in a (Permutation_sym HP)). eapply dget_Some_in; eauto.
    - eapply before_trans; [exact Hno|exact IH|]. eapply HB; eauto.
      + apply (Permutation_in a (Permutation_sym HP)). eapply dget_Some_in; eauto.
      + eapply path_head_key; eauto. }
  apply (before_irrefl n order Hno). apply Hall. exact Hc.
Qed.

(** A stuck graph has a cycle: follow parents until a node repeats. *)
Lemma stuck_cycle g : NoDup (dkeys g) -> stuck g -> exists n, path g n n.
Proof.
  intros Hnd [Hne Hst].
  set (succ := fun n => match dget n g with
                        | Some e => match find (fun p => dmem p g) e with Some p => p | None => n end
                        | None => n end).
  assert (Hs : forall n, In n (dkeys g) -> path g n (succ n) /\ In (succ n) (dkeys g)).
  { intros n Hn. destruct (in_dkeys_Some n g Hn) as [e He]. destruct (Hst n e He) as [p [Hp Hpk]].
    unfold succ. rewrite He. destruct (find (fun p => dmem p g) e) as [q|] eqn:F.
    - apply find_some in F. destruct F as [F1 F2]. apply dmem_in in F2. split; [eapply path_one; eauto|exact F2].
    - exfalso. apply dmem_in in Hpk. rewrite (find_none _ _ F p Hp) in Hpk. discriminate. }
  destruct g as [|[n0 e0] g1]; [congruence|]. set (g := (n0, e0) :: g1) in *.
  set (it := fun k => Nat.iter k succ n0).
  assert (Hit : forall k, In (it k) (dkeys g)).
  { induction k; [left; reflexivity|]. simpl. apply Hs. exact IHk. }
  assert (Hpath : forall k j, (j < k)%nat -> path g (it j) (it k)).
  { induction k; intros j Hj; [lia|]. destruct (Nat.eq_dec j k) as [->|Hn].
    - apply Hs. apply Hit.
    - eapply path_trans; [apply IHk; lia|]. apply Hs. apply Hit. }
  assert (Hd : ~ NoDup (map it (seq 0 (S (length (dkeys g)))))).
  { intros Hd. assert (Hinc : incl (map it (seq 0 (S (length (dkeys g))))) (dkeys g)).
    { intros x Hx. apply in_map_iff in Hx. destruct Hx as [k [<- _]]. apply Hit. }
    pose proof (NoDup_incl_length Hd Hinc) as H. rewrite map_length, seq_length in H. lia. }
  assert (exists j k, (j < k)%nat /\ it j = it k) as [j [k [Hjk E]]].
  { clear -Hd. revert Hd. generalize (S (length (dkeys g))). generalize 0%nat. intros s n Hd.
    revert s Hd. induction n as [|n IH]; intros s Hd; [exfalso; apply Hd; constructor|]. simpl in Hd.
    destruct (in_dec Z.eq_dec (it s) (map it (seq (S s) n))) as [Hin|Hin].
    - apply in_map_iff in Hin. destruct Hin as [k [E Hk]]. apply in_seq in Hk. exists s, k. split; [lia|congruence].
    - apply (IH (S s)). intros Hn. apply Hd. constructor; assumption. }
  exists (it j). rewrite E at 2. apply Hpath. exact Hjk.
Qed.

Lemma path_mono g g' a b : (forall n e, dget n g = Some e -> dget n g' = Some e) -> path g a b -> path g' a b.
Proof.
  intros H. induction 1 as [n p e Hn Hp Hk|n p q e Hn Hp Hq IH].
  - eapply path_one; eauto. apply in_dkeys_Some in Hk. destruct Hk as [e' He'].
    apply H in He'. eapply dget_Some_in; eauto.
  - eapply path_cons; eauto.
Qed.

Theorem topological_sort_spec g : NoDup (dkeys g) ->
  (exists order, topological_sort g = Ok order /\ tinv g [] order /\ forall n, ~ path g n n) \/
  (topological_sort g = Err ValueError /\ exists n, path g n n).
Proof.
  intros Hnd. unfold topological_sort.
  destruct (topo_loop_spec g Hnd (length g) g [] (le_n _) (tinv_init g Hnd)) as [[order [E I]]|[E [g' [s' [I S]]]]].
  - left. exists order. split; [exact E|]. split; [exact I|]. apply (sorted_no_cycle g order Hnd I).
  - right. split; [exact E|]. destruct (stuck_cycle g' (proj1 I) S) as [n Hn]. exists n.
    eapply path_mono; [|exact Hn]. apply I.
Qed.

(* ------------------------------------------------------------------ *)
(** Networks. *)

(** [v] is an output of the cgpm number [i]. *)
Definition output_of (cgpms : list sig) (i v : Z) : Prop :=
  0 <= i < Z.of_nat (length cgpms) /\ In v (g_outputs (sig_at cgpms i)).

(** No variable has two producers. *)
Definition disjoint_outputs (cgpms : list sig) : Prop :=
  forall i j v, output_of cgpms i v -> output_of cgpms j v -> i = j.

Lemma pairwise_disjoint_spec l : pairwise_disjoint l = true <->
  forall i j x, (i < j < length l)%nat -> In x (nth i l []) -> In x (nth j l []) -> False.
Proof.
  induction l as [|a l IH]; simpl.
  - split; [intros _ i j x H; lia|reflexivity].
  - rewrite andb_true_iff, IH, forallb_forall. split.
    + intros [H1 H2] [|i] [|j] x Hij Hi Hj; try lia.
      * assert (Hb : In (nth j l []) l) by (apply nth_In; lia).
        specialize (H1 _ Hb). apply negb_true_iff in H1.
        assert (existsb (fun x => zmem x (nth j l [])) a = true); [|congruence].
        apply existsb_exists. exists x. split; [exact Hi|]. apply zmem_in. exact Hj.
      * apply (H2 i j x); [lia|exact Hi|exact Hj].
    + intros H. split.
      * intros b Hb. apply negb_true_iff. destruct (existsb (fun x => zmem x b) a) eqn:E; [|reflexivity].
        apply existsb_exists in E. destruct E as [x [Hx Hm]]. apply zmem_in in Hm.
        apply (In_nth _ _ []) in Hb. destruct Hb as [k [Hk Ek]]. exfalso.
        apply (H 0%nat (S k) x); [lia|exact Hx|]. rewrite Ek. exact Hm.
      * intros i j x Hij Hi Hj. apply (H (S i) (S j) x); [lia|exact Hi|exact Hj].
Qed.

Lemma validate_cgpms_ok cgpms : validate_cgpms cgpms = Ok tt <->
  (forall c, In c cgpms -> g_outputs c <> []) /\ disjoint_outputs cgpms.
Proof.
  unfold validate_cgpms.
  assert (A : forallb (fun c => negb (match g_outputs c with [] => true | _ => false end)) cgpms = true <->
              forall c, In c cgpms -> g_outputs c <> []).
  { rewrite forallb_forall. split; intros H c Hc; specialize (H c Hc); destruct (g_outputs c); simpl in *; congruence. }
  assert (B : pairwise_disjoint (map g_outputs cgpms) = true <-> disjoint_outputs cgpms).
  { rewrite pairwise_disjoint_spec, map_length.
    change (@nil Z) with (g_outputs (Sig [] [])).
    split.
    - intros H i j v [Hi Hvi] [Hj Hvj]. unfold sig_at in *.
      destruct (Z.lt_trichotomy i j) as [Hl|[He|Hl]]; [exfalso|exact He|exfalso].
      + apply (H (Z.to_nat i) (Z.to_nat j) v); [lia| |]; rewrite map_nth; assumption.
      + apply (H (Z.to_nat j) (Z.to_nat i) v); [lia| |]; rewrite map_nth; assumption.
    - intros H i j x Hij Hi Hj. rewrite map_nth in Hi, Hj.
      assert (Z.of_nat i = Z.of_nat j); [|lia]. apply (H _ _ x); split; try lia; unfold sig_at; rewrite Nat2Z.id; assumption. }
  destruct (forallb _ cgpms); cbn [negb].
  - destruct (pairwise_disjoint _); cbn [negb].
    + split; [intros _; split; [apply A|apply B]; reflexivity|reflexivity].
    + split; [discriminate|]. intros [_ H]. apply B in H. discriminate.
  - split; [discriminate|]. intros [H _]. apply A in H. discriminate.
Qed.

Lemma enumerate_in {A} (l : list A) d i x : In (i, x) (enumerate l) <->
  0 <= i < Z.of_nat (length l) /\ nth (Z.to_nat i) l d = x.
Proof.
  unfold enumerate. split.
  - intros H. apply (In_nth _ _ (Z.of_nat (length l), d)) in H. destruct H as [k [Hk E]].
    rewrite combine_length, map_length, seq_length, Nat.min_id in Hk.
    rewrite combine_nth in E by (rewrite map_length, seq_length; reflexivity). injection E as E1 E2.
    rewrite (nth_indep _ _ (Z.of_nat 0)) in E1 by (rewrite map_length, seq_length; exact Hk).
    rewrite map_nth, seq_nth in E1 by exact Hk. subst i. split; [lia|]. rewrite Nat2Z.id. simpl. exact E2.
  - intros [Hi E]. subst x.
    assert (Hk : (Z.to_nat i < length l)%nat) by lia.
    replace (i, nth (Z.to_nat i) l d) with (nth (Z.to_nat i) (combine (map Z.of_nat (seq 0 (length l))) l) (Z.of_nat 0, d)).
    + apply nth_In. rewrite combine_length, map_length, seq_length, Nat.min_id. exact Hk.
    + rewrite combine_nth by (rewrite map_length, seq_length; reflexivity).
      rewrite map_nth, seq_nth by exact Hk. f_equal. lia.
Qed.

Lemma dkeys_enumerate {A} (l : list A) : map fst (enumerate l) = map Z.of_nat (seq 0 (length l)).
Proof.
  unfold enumerate. assert (H : length (map Z.of_nat (seq 0 (length l))) = length l) by (rewrite map_length, seq_length; reflexivity).
  revert H. generalize (map Z.of_nat (seq 0 (length l))). intros k. revert l.
  induction k as [|x k IH]; intros [|y l] H; simpl in *; try discriminate; [reflexivity|]. f_equal. apply IH. lia.
Qed.

Lemma NoDup_indices n : NoDup (map Z.of_nat (seq 0 n)).
Proof. apply FinFun.Injective_map_NoDup; [intros a b; lia|apply seq_NoDup]. Qed.

Lemma in_indices n i : In i (map Z.of_nat (seq 0 n)) <-> 0 <= i < Z.of_nat n.
Proof.
  rewrite in_map_iff. split.
  - intros [k [<- Hk]]. apply in_seq in Hk. lia.
  - intros H. exists (Z.to_nat i). split; [lia|]. apply in_seq. lia.
Qed.

Definition set_all (i : Z) (vs : list Z) (d : dict Z) : dict Z := fold_left (fun d v => dset v i d) vs d.
Lemma set_all_get i vs : forall d v, dget v (set_all i vs d) = if zmem v vs then Some i else dget v d.
Proof.
  unfold set_all. induction vs as [|x vs IH]; intros d v; [reflexivity|]. cbn [fold_left]. rewrite IH.
  rewrite dget_dset. cbn [zmem existsb].
  destruct (zmem v vs) eqn:E; unfold zmem in *; simpl in *; rewrite E.
  - rewrite orb_true_r. reflexivity.
  - rewrite orb_false_r. reflexivity.
Qed.

(** The producer recorded for each variable. *)
Lemma variable_to_cgpm_get cgpms : disjoint_outputs cgpms -> forall v i,
  dget v (variable_to_cgpm cgpms) = Some i <-> output_of cgpms i v.
Proof.
  intros Hdis.
  assert (G : forall l d, (forall j c, In (j, c) l -> 0 <= j < Z.of_nat (length cgpms) /\ sig_at cgpms j = c) ->
     forall v i,
     dget v (fold_left (fun d ic => fold_left (fun d v => dset v (fst ic) d) (g_outputs (snd ic)) d) l d) = Some i <->
     (exists c, In (i, c) l /\ In v (g_outputs c)) \/ ((forall j c, In (j, c) l -> ~ In v (g_outputs c)) /\ dget v d = Some i)).
  { induction l as [|[j c] l IH]; intros d Hl v i.
    - simpl. split; [intros H; right; split; [intros ? ? []|exact H]|intros [[c [[] _]]|[_ H]]; exact H].
    - cbn [fold_left fst snd]. rewrite IH by (intros; apply Hl; right; assumption).
      fold (set_all j (g_outputs c) d). rewrite set_all_get.
      destruct (Hl j c (or_introl eq_refl)) as [Hj Ec]. split.
      + intros [[c' [Hc' Hv]]|[Hn Hd]].
        * left. exists c'. split; [right; exact Hc'|exact Hv].
        * destruct (zmem v (g_outputs c)) eqn:E.
          -- injection Hd as <-. left. exists c. split; [left; reflexivity|apply zmem_in; exact E].
          -- right. split; [|exact Hd]. intros j' c' [Ej|Hc'].
             ++ injection Ej as <- <-. apply zmem_false. exact E.
             ++ apply (Hn j' c' Hc').
      + intros [[c' [[Ej|Hc'] Hv]]|[Hn Hd]].
        * injection Ej as <- <-.
          assert (Hz : zmem v (g_outputs c) = true) by (apply zmem_in; exact Hv). rewrite Hz.
          destruct (existsb (fun jc => zmem v (g_outputs (snd jc))) l) eqn:X.
          -- apply existsb_exists in X. destruct X as [[j' c'] [Hc' Hv']]. apply zmem_in in Hv'. cbn [snd] in Hv'.
             assert (j' = j).
             { destruct (Hl j' c' (or_intror Hc')) as [Hj' Ec']. apply (Hdis j' j v); split; auto; congruence. }
             subst j'. left. exists c'. auto.
          -- right. split; [|reflexivity]. intros j' c' Hc' Hv'.
             assert (existsb (fun jc => zmem v (g_outputs (snd jc))) l = true); [|congruence].
             apply existsb_exists. exists (j', c'). split; [exact Hc'|apply zmem_in; exact Hv'].
        * left. exists c'. auto.
        * right. split; [intros j' c' Hc'; apply (Hn j' c'); right; exact Hc'|].
          assert (Hz : zmem v (g_outputs c) = false) by (apply zmem_false; apply (Hn j c); left; reflexivity).
          rewrite Hz. exact Hd. }
  intros v i. unfold variable_to_cgpm. rewrite G.
  - split.
    + intros [[c [Hc Hv]]|[_ F]]; [|discriminate]. apply (enumerate_in cgpms (Sig [] [])) in Hc.
      destruct Hc as [Hi E]. split; [exact Hi|]. unfold sig_at. rewrite E. exact Hv.
    + intros [Hi Hv]. left. exists (sig_at cgpms i). split; [|exact Hv].
      apply (enumerate_in cgpms (Sig [] [])). split; [exact Hi|reflexivity].
  - intros j c Hc. apply (enumerate_in cgpms (Sig [] [])) in Hc. exact Hc.
Qed.

Lemma filter_map_in (v_to_c : dict Z) (l : list Z) j :
  In j (fold_right (fun p acc => match dget p v_to_c with Some i => i :: acc | None => acc end) [] l) <->
  exists p, In p l /\ dget p v_to_c = Some j.
Proof.
  induction l as [|x l IH]; simpl.
  - split; [intros []|intros [p [[] _]]].
  - destruct (dget x v_to_c) as [i|] eqn:E; simpl; rewrite IH; split.
    + intros [->|[p [Hp Hj]]]; [exists x; auto|exists p; auto].
    + intros [p [[->|Hp] Hj]]; [left; congruence|right; exists p; auto].
    + intros [p [Hp Hj]]. exists p; auto.
    + intros [p [[->|Hp] Hj]]; [congruence|exists p; auto].
Qed.

Lemma dkeys_adjacency cgpms d : dkeys (adjacency_list cgpms d) = map Z.of_nat (seq 0 (length cgpms)).
Proof.
  unfold adjacency_list, dkeys. rewrite map_map. cbn [fst]. rewrite <- (dkeys_enumerate cgpms). reflexivity.
Qed.

Lemma adjacency_get cgpms j e : disjoint_outputs cgpms ->
  dget j (adjacency_list cgpms (variable_to_cgpm cgpms)) = Some e ->
  0 <= j < Z.of_nat (length cgpms) /\
  forall i, In i e <-> exists p, In p (g_inputs (sig_at cgpms j)) /\ output_of cgpms i p.
Proof.
  intros Hdis H. apply dget_In in H. unfold adjacency_list in H. apply in_map_iff in H.
  destruct H as [[k c] [E Hc]]. cbn [fst snd] in E. injection E as <- <-.
  apply (enumerate_in cgpms (Sig [] [])) in Hc. destruct Hc as [Hk Ec]. split; [exact Hk|].
  intros i. unfold zset. rewrite nodup_In, filter_map_in. unfold sig_at. rewrite Ec.
  split; intros [p [Hp Hi]]; exists p; (split; [exact Hp|]); apply variable_to_cgpm_get; assumption.
Qed.

(** What the topological order of a network guarantees. *)
Definition good_topo (cgpms : list sig) (topo : list Z) : Prop :=
  Permutation topo (map Z.of_nat (seq 0 (length cgpms))) /\
  forall i j p, In p (g_inputs (sig_at cgpms j)) -> 0 <= j < Z.of_nat (length cgpms) ->
    output_of cgpms i p -> before i j topo.

Lemma sort_good cgpms topo : disjoint_outputs cgpms ->
  topological_sort (adjacency_list cgpms (variable_to_cgpm cgpms)) = Ok topo -> good_topo cgpms topo.
Proof.
  intros Hdis E. set (g := adjacency_list cgpms (variable_to_cgpm cgpms)) in *.
  assert (Hnd : NoDup (dkeys g)) by (unfold g; rewrite dkeys_adjacency; apply NoDup_indices).
  destruct (topological_sort_spec g Hnd) as [[order [E' [[_ [_ [HP HB]]] _]]]|[E' _]]; [|congruence].
  rewrite E in E'. injection E' as <-. simpl in HP. rewrite app_nil_r in HP.
  unfold g in HP at 1. rewrite dkeys_adjacency in HP. split; [exact HP|].
  intros i j p Hp Hj Hi.
  assert (Hjk : In j (dkeys g)) by (unfold g; rewrite dkeys_adjacency; apply in_indices; exact Hj).
  destruct (in_dkeys_Some j g Hjk) as [e He]. destruct (adjacency_get cgpms j e Hdis He) as [_ Ha].
  apply (HB j e i).
  - apply (Permutation_in j (Permutation_sym HP)). apply in_indices. exact Hj.
  - exact He.
  - apply Ha. exists p. auto.
  - unfold g. rewrite dkeys_adjacency. apply in_indices. apply Hi.
Qed.

(** [p] is a parent of [v]: an input of the cgpm that outputs [v]. *)
Definition parent (cgpms : list sig) (v p : Z) : Prop :=
  exists c, In c cgpms /\ In v (g_outputs c) /\ In p (g_inputs c).
Definition reaches (cgpms : list sig) : Z -> Z -> Prop := Relation_Operators.clos_trans Z (parent cgpms).
Definition acyclic (cgpms : list sig) : Prop := forall v, ~ reaches cgpms v v.

Lemma sig_at_in cgpms i : 0 <= i < Z.of_nat (length cgpms) -> In (sig_at cgpms i) cgpms.
Proof. intros H. apply nth_In. lia. Qed.
Lemma in_sig_at cgpms c : In c cgpms -> exists i, 0 <= i < Z.of_nat (length cgpms) /\ sig_at cgpms i = c.
Proof.
  intros H. apply (In_nth _ _ (Sig [] [])) in H. destruct H as [k [Hk E]]. exists (Z.of_nat k).
  split; [lia|]. unfold sig_at. rewrite Nat2Z.id. exact E.
Qed.

Lemma parent_output cgpms v p : parent cgpms v p <->
  exists i, output_of cgpms i v /\ In p (g_inputs (sig_at cgpms i)).
Proof.
  split.
  - intros [c [Hc [Hv Hp]]]. destruct (in_sig_at cgpms c Hc) as [i [Hi <-]]. exists i. repeat split; auto; apply Hi.
  - intros [i [[Hi Hv] Hp]]. exists (sig_at cgpms i). split; [apply sig_at_in; exact Hi|auto].
Qed.

(** Cycles of the adjacency list are cycles of variables and conversely. *)
Lemma path_reaches cgpms i j : disjoint_outputs cgpms ->
  path (adjacency_list cgpms (variable_to_cgpm cgpms)) i j ->
  0 <= i < Z.of_nat (length cgpms) /\
  exists w, output_of cgpms j w /\ forall v, output_of cgpms i v -> reaches cgpms v w.
Proof.
  intros Hdis. induction 1 as [n p e Hn Hp _|n p q e Hn Hp Hq IH];
    destruct (adjacency_get cgpms n e Hdis Hn) as [Hr Ha]; apply Ha in Hp; destruct Hp as [x [Hx Ho]];
    (split; [exact Hr|]).
  - exists x. split; [exact Ho|]. intros v Hv. apply Relation_Operators.t_step. apply parent_output. exists n. auto.
  - destruct IH as [_ [w [Hw IH]]]. exists w. split; [exact Hw|]. intros v Hv.
    eapply Relation_Operators.t_trans; [|apply IH; exact Ho].
    apply Relation_Operators.t_step. apply parent_output. exists n. auto.
Qed.

Lemma reaches_path cgpms v w : disjoint_outputs cgpms -> reaches cgpms v w -> forall j, output_of cgpms j w ->
  exists i, output_of cgpms i v /\ path (adjacency_list cgpms (variable_to_cgpm cgpms)) i j.
Proof.
  intros Hdis H. set (g := adjacency_list cgpms (variable_to_cgpm cgpms)).
  induction H as [v p Hp|v p w H1 IH1 H2 IH2]; intros j Hj.
  - apply parent_output in Hp. destruct Hp as [i [Hi Hp]]. exists i. split; [exact Hi|].
    assert (Hk : In i (dkeys g)) by (unfold g; rewrite dkeys_adjacency; apply in_indices; apply Hi).
    destruct (in_dkeys_Some i g Hk) as [e He]. destruct (adjacency_get cgpms i e Hdis He) as [_ Ha].
    eapply path_one; [exact He| |].
    + apply Ha. exists p. auto.
    + unfold g. rewrite dkeys_adjacency. apply in_indices. apply Hj.
  - destruct (IH2 j Hj) as [k [Hk P2]]. destruct (IH1 k Hk) as [i [Hi P1]]. exists i. split; [exact Hi|].
    eapply path_trans; eauto.
Qed.

Lemma reaches_output cgpms v w : reaches cgpms v w -> exists j, output_of cgpms j v.
Proof.
  intros Hv. unfold reaches in Hv. apply Operators_Properties.clos_trans_t1n in Hv.
  destruct Hv as [p Hp|p q Hp _]; apply parent_output in Hp; destruct Hp as [i [Hi _]]; exists i; exact Hi.
Qed.

Lemma sort_acyclic cgpms : disjoint_outputs cgpms -> (forall c, In c cgpms -> g_outputs c <> []) ->
  (exists topo, topological_sort (adjacency_list cgpms (variable_to_cgpm cgpms)) = Ok topo) <-> acyclic cgpms.
Proof.
  intros Hdis Hne. set (g := adjacency_list cgpms (variable_to_cgpm cgpms)).
  assert (Hnd : NoDup (dkeys g)) by (unfold g; rewrite dkeys_adjacency; apply NoDup_indices).
  destruct (topological_sort_spec g Hnd) as [[order [E [_ Hc]]]|[E [n Hc]]]; rewrite E; split.
  - intros _ v Hv.
    destruct (reaches_output cgpms v v Hv) as [j Hj].
    destruct (reaches_path cgpms v v Hdis Hv j Hj) as [i [Hi P]]. rewrite (Hdis i j v Hi Hj) in P. apply (Hc j P).
  - intros _. exists order. reflexivity.
  - intros [t F]; discriminate.
  - intros Ha. exfalso. destruct (path_reaches cgpms n n Hdis Hc) as [Hr [w [Hw H]]].
    apply (Ha w). apply H. exact Hw.
Qed.

(* ------------------------------------------------------------------ *)
(** Ancestors and descendants. *)

Fixpoint posn (x : Z) (l : list Z) : nat :=
  match l with [] => 0%nat | y :: l' => if y =? x then 0%nat else S (posn x l') end.

Lemma before_posn m n l : NoDup l -> before m n l -> (posn m l < posn n l)%nat /\ (posn n l < length l)%nat.
Proof.
  intros Hnd [l1 [l2 [-> Hm]]]. induction l1 as [|y l1 IH]; [destruct Hm|].
  simpl in Hnd. inversion Hnd as [|? ? Hy Hnd']; subst. cbn [app posn length].
  assert (Hyn : y <> n) by (intros ->; apply Hy; apply in_app_iff; right; left; reflexivity).
  destruct (Z.eqb_spec y n); [contradiction|].
  destruct (Z.eqb_spec y m) as [E|Hne].
  - split; [lia|]. assert (H : (posn n (l1 ++ n :: l2) < length (l1 ++ n :: l2))%nat); [|lia].
    clear. induction l1; simpl; [rewrite Z.eqb_refl; lia|]. destruct (a =? n); lia.
  - destruct Hm as [Hm|Hm]; [congruence|]. destruct (IH Hnd' Hm). lia.
Qed.

Lemma inputs_of_parent cgpms v p : disjoint_outputs cgpms -> In p (inputs_of cgpms v) <-> parent cgpms v p.
Proof.
  intros Hdis. unfold inputs_of. rewrite parent_output. destruct (dget v (variable_to_cgpm cgpms)) as [i|] eqn:E.
  - pose proof (proj1 (variable_to_cgpm_get cgpms Hdis v i) E) as Hi.
    assert (En : nth_error cgpms (Z.to_nat i) = Some (sig_at cgpms i))
      by (apply nth_error_nth'; destruct Hi; lia).
    rewrite En. split; [intros H; exists i; auto|]. intros [j [Hj Hp]]. rewrite (Hdis i j v Hi Hj). exact Hp.
  - split; [intros []|]. intros [j [Hj _]]. apply (variable_to_cgpm_get cgpms Hdis) in Hj. congruence.
Qed.

Lemma children_of_parent cgpms v ch : In ch (children_of cgpms v) <-> parent cgpms ch v.
Proof.
  unfold children_of, parent. rewrite in_concat. split.
  - intros [l [Hl Hch]]. apply in_map_iff in Hl. destruct Hl as [c [<- Hc]]. apply filter_In in Hc.
    destruct Hc as [Hc Hv]. exists c. split; [exact Hc|]. split; [exact Hch|apply zmem_in; exact Hv].
  - intros [c [Hc [Hch Hv]]]. exists (g_outputs c). split; [|exact Hch]. apply in_map_iff. exists c.
    split; [reflexivity|]. apply filter_In. split; [exact Hc|apply zmem_in; exact Hv].
Qed.

Lemma rconcat_map (f : Z -> res (list Z)) l (P : Z -> Z -> Prop) :
  (forall x, In x l -> exists r, f x = Ok r /\ forall a, In a r <-> P x a) ->
  exists r, rconcat (map f l) = Ok r /\ forall a, In a r <-> exists x, In x l /\ P x a.
Proof.
  induction l as [|x l IH]; intros H; simpl.
  - exists []. split; [reflexivity|]. intros a. split; [intros []|intros [x [[] _]]].
  - destruct (H x (or_introl eq_refl)) as [r [E Hr]]. destruct IH as [r' [E' Hr']]; [intros; apply H; right; assumption|].
    rewrite E, E'. simpl. exists (r ++ r'). split; [reflexivity|]. intros a. rewrite in_app_iff, Hr, Hr'. split.
    + intros [Ha|[y [Hy Ha]]]; [exists x; auto|exists y; auto].
    + intros [y [[->|Hy] Ha]]; [left; exact Ha|right; exists y; auto].
Qed.

(** Depth-first collection along a relation whose steps decrease a rank. *)
Section Collect.
  Variables (next : Z -> list Z) (R : Z -> Z -> Prop) (rank : Z -> nat).
  Hypothesis Hnext : forall v p, In p (next v) <-> R v p.
  Hypothesis Hrank : forall v p, R v p -> (rank p < rank v)%nat.
  Variable collect : nat -> Z -> res (list Z).
  Hypothesis Hcollect : forall fuel v, collect (S fuel) v =
    rbind (rconcat (map (collect fuel) (next v))) (fun l => Ok (l ++ next v)).
  Lemma collect_spec : forall fuel v, (rank v < fuel)%nat ->
    exists l, collect fuel v = Ok l /\ forall a, In a l <-> Relation_Operators.clos_trans Z R v a.
  Proof.
    induction fuel as [|fuel IH]; intros v Hv; [lia|]. rewrite Hcollect.
    destruct (rconcat_map (collect fuel) (next v) (Relation_Operators.clos_trans Z R)) as [r [E Hr]].
    { intros p Hp. apply IH. apply Hnext, Hrank in Hp. lia. }
    rewrite E. simpl. exists (r ++ next v). split; [reflexivity|]. intros a. rewrite in_app_iff, Hr. split.
    - intros [[p [Hp Ha]]|Ha].
      + eapply Relation_Operators.t_trans; [apply Relation_Operators.t_step, Hnext; exact Hp|exact Ha].
      + apply Relation_Operators.t_step, Hnext. exact Ha.
    - intros Ha. apply Operators_Properties.clos_trans_t1n in Ha. destruct Ha as [a Ha|p a Hp Ha].
      + right. apply Hnext. exact Ha.
      + left. exists p. split; [apply Hnext; exact Hp|]. apply Operators_Properties.clos_t1n_trans. exact Ha.
  Qed.
End Collect.

(** Position of the producer of a variable in the topological order, from 1. *)
Definition vrank (cgpms : list sig) (topo : list Z) (v : Z) : nat :=
  match dget v (variable_to_cgpm cgpms) with Some i => S (posn i topo) | None => 0%nat end.

Lemma good_topo_NoDup cgpms topo : good_topo cgpms topo -> NoDup topo /\ length topo = length cgpms.
Proof.
  intros [HP _]. split.
  - eapply Permutation_NoDup; [apply Permutation_sym; exact HP|apply NoDup_indices].
  - rewrite (Permutation_length HP), map_length, seq_length. reflexivity.
Qed.

Lemma parent_rank cgpms topo v p : disjoint_outputs cgpms -> good_topo cgpms topo ->
  parent cgpms v p -> (vrank cgpms topo p < vrank cgpms topo v)%nat.
Proof.
  intros Hdis Hg Hp. apply parent_output in Hp. destruct Hp as [i [Hi Hp]]. unfold vrank.
  rewrite (proj2 (variable_to_cgpm_get cgpms Hdis v i) Hi).
  destruct (dget p (variable_to_cgpm cgpms)) as [j|] eqn:E; [|lia].
  apply (variable_to_cgpm_get cgpms Hdis) in E. destruct (good_topo_NoDup _ _ Hg) as [Hnd _].
  destruct (before_posn j i topo Hnd); [|lia]. eapply (proj2 Hg); eauto. apply Hi.
Qed.

Lemma posn_in x l : In x l -> (posn x l < length l)%nat.
Proof.
  induction l as [|y l IH]; simpl; [intros []|]. intros [->|H]; [rewrite Z.eqb_refl; lia|].
  destruct (y =? x); [lia|]. specialize (IH H). lia.
Qed.

Lemma vrank_le cgpms topo v : disjoint_outputs cgpms -> good_topo cgpms topo ->
  (vrank cgpms topo v <= length cgpms)%nat.
Proof.
  intros Hdis Hg. unfold vrank. destruct (dget v (variable_to_cgpm cgpms)) as [i|] eqn:E; [|lia].
  apply (variable_to_cgpm_get cgpms Hdis) in E. destruct (good_topo_NoDup _ _ Hg) as [_ <-].
  assert (In i topo); [|pose proof (posn_in i topo H); lia].
  apply (Permutation_in i (Permutation_sym (proj1 Hg))). apply in_indices. apply E.
Qed.

Lemma ancestors_spec cgpms topo v fuel : disjoint_outputs cgpms -> good_topo cgpms topo ->
  (length cgpms < fuel)%nat ->
  exists l, ancestors fuel cgpms v = Ok l /\ forall a, In a l <-> reaches cgpms v a.
Proof.
  intros Hdis Hg Hf.
  apply (collect_spec (inputs_of cgpms) (parent cgpms) (vrank cgpms topo))
    with (collect := fun fuel => ancestors fuel cgpms) (fuel := fuel) (v := v).
  - intros; apply inputs_of_parent; exact Hdis.
  - intros; eapply parent_rank; eauto.
  - reflexivity.
  - pose proof (vrank_le cgpms topo v Hdis Hg). lia.
Qed.

Lemma clos_trans_flip {A} (R : A -> A -> Prop) a b :
  Relation_Operators.clos_trans A (fun x y => R y x) a b <-> Relation_Operators.clos_trans A R b a.
Proof.
  split; induction 1; try (apply Relation_Operators.t_step; assumption); eapply Relation_Operators.t_trans; eauto.
Qed.

Lemma descendents_spec cgpms topo v fuel : disjoint_outputs cgpms -> good_topo cgpms topo ->
  (length cgpms < fuel)%nat ->
  exists l, descendents fuel cgpms v = Ok l /\ forall a, In a l <-> reaches cgpms a v.
Proof.
  intros Hdis Hg Hf.
  destruct (collect_spec (children_of cgpms) (fun x y => parent cgpms y x)
    (fun v => length cgpms - vrank cgpms topo v)%nat) with (collect := fun fuel => descendents fuel cgpms) (fuel := fuel) (v := v)
    as [l [E Hl]].
  - intros; apply children_of_parent.
  - intros a b Hp. pose proof (parent_rank cgpms topo b a Hdis Hg Hp). pose proof (vrank_le cgpms topo b Hdis Hg). lia.
  - reflexivity.
  - lia.
  - exists l. split; [exact E|]. intros a. rewrite Hl. apply clos_trans_flip.
Qed.

(* ------------------------------------------------------------------ *)
(** Required inputs. *)

Lemma set_update_in s l x : In x (set_update s l) <-> In x s \/ In x l.
Proof.
  unfold set_update. revert s. induction l as [|y l IH]; intros s; simpl; [tauto|]. rewrite IH.
  destruct (zmem y s) eqn:E.
  - apply zmem_in in E. split; [tauto|]. intros [H|[<-|H]]; auto.
  - rewrite in_app_iff. simpl. tauto.
Qed.

Lemma set_update_NoDup s l : NoDup s -> NoDup (set_update s l).
Proof.
  unfold set_update. revert s. induction l as [|y l IH]; intros s Hs; simpl; [exact Hs|]. apply IH.
  destruct (zmem y s) eqn:E; [exact Hs|]. apply NoDup_app_intro; [exact Hs|repeat constructor; intros []|].
  intros x Hx [<-|[]]. apply zmem_false in E. contradiction.
Qed.

(** The variables some active component needs: the targets, and the inputs of
    every component with a needed or constrained output. *)
Inductive needed (cgpms : list sig) (targets constraints : list Z) : Z -> Prop :=
| need_target t : In t targets -> needed cgpms targets constraints t
| need_input c o i : In c cgpms -> In o (g_outputs c) ->
    needed cgpms targets constraints o \/ In o constraints -> In i (g_inputs c) ->
    needed cgpms targets constraints i.

Section Required.
  Variables (cgpms : list sig) (topo targets constraints : list Z).
  Hypothesis Hdis : disjoint_outputs cgpms.
  Hypothesis Hg : good_topo cgpms topo.
  Let step := fun req l =>
      let c := sig_at cgpms l in
      if existsb (fun i => zmem i req || zmem i constraints) (g_outputs c)
      then set_update req (g_inputs c) else req.

  Definition active (l : Z) : Prop := exists o, In o (g_outputs (sig_at cgpms l)) /\
    (needed cgpms targets constraints o \/ In o constraints).

  (** Invariant after the components [done], a suffix of the order. *)
  Definition rinv (done req : list Z) : Prop :=
    NoDup req /\
    (forall x, In x targets -> In x req) /\
    (forall x, In x req -> needed cgpms targets constraints x) /\
    (forall l i, In l done -> active l -> In i (g_inputs (sig_at cgpms l)) -> In i req).

  Lemma required_step done l todo req : topo = todo ++ l :: done -> rinv done req -> rinv (l :: done) (step req l).
  Proof.
    intros Et [N [T [S C]]].
    assert (Hl : 0 <= l < Z.of_nat (length cgpms)).
    { apply in_indices. apply (Permutation_in l (proj1 Hg)). rewrite Et. apply in_app_iff. right; left; reflexivity. }
    assert (Hact : active l <-> existsb (fun i => zmem i req || zmem i constraints) (g_outputs (sig_at cgpms l)) = true).
    { rewrite existsb_exists. split.
      - intros [o [Ho Hn]]. exists o. split; [exact Ho|]. apply orb_true_iff. rewrite !zmem_in.
        destruct Hn as [Hn|Hn]; [left|right; exact Hn]. destruct Hn as [t Ht|c o' i Hc Ho' Hn Hi]; [apply T; exact Ht|].
        destruct (in_sig_at cgpms c Hc) as [j [Hj <-]].
        assert (Hb : before l j topo) by (eapply (proj2 Hg); [exact Hi|exact Hj|split; assumption]).
        apply (C j i); [|exists o'; auto|exact Hi].
        destruct Hb as [l1 [l2 [E Hin]]]. destruct (good_topo_NoDup _ _ Hg) as [Hnd _].
        assert (Hj' : In j topo) by (rewrite E; apply in_app_iff; right; left; reflexivity).
        rewrite Et in Hj'. apply in_app_iff in Hj'.
        destruct (before_posn l j topo Hnd) as [Hlt _]; [exists l1, l2; auto|]. rewrite Et in Hlt, Hnd.
        destruct Hj' as [Hj'|[->|Hj']]; [exfalso|exfalso; lia|exact Hj'].
        clear -Hj' Hlt Hnd. induction todo as [|y todo IH]; [destruct Hj'|]. cbn [app posn] in Hlt.
        simpl in Hnd. inversion Hnd; subst. destruct (Z.eqb_spec y j) as [->|Hn]; [lia|].
        destruct Hj' as [Hj'|Hj']; [congruence|]. destruct (Z.eqb_spec y l) as [->|Hn'].
        + apply H1. apply in_app_iff. right; left; reflexivity.
        + apply IH; [assumption|exact Hj'|lia].
      - intros [o [Ho Hn]]. exists o. split; [exact Ho|]. apply orb_true_iff in Hn. rewrite !zmem_in in Hn.
        destruct Hn as [Hn|Hn]; [left; apply S; exact Hn|right; exact Hn]. }
    unfold step. destruct (existsb _ _) eqn:E.
    - assert (A : active l) by (apply Hact; reflexivity). split; [apply set_update_NoDup; exact N|]. repeat split.
      + intros x Hx. apply set_update_in. left; apply T; exact Hx.
      + intros x Hx. apply set_update_in in Hx. destruct Hx as [Hx|Hx]; [apply S; exact Hx|].
        destruct A as [o [Ho Hn]]. eapply need_input; eauto. apply sig_at_in; exact Hl.
      + intros k i [<-|Hk] Ha Hi; apply set_update_in; [right; exact Hi|left; eapply C; eauto].
    - split; [exact N|]. repeat split; auto. intros k i [<-|Hk] Ha Hi; [|eapply C; eauto].
      apply Hact in Ha. discriminate.
  Qed.

  Lemma required_loop : forall todo done req, topo = rev todo ++ done -> rinv done req ->
    rinv topo (fold_left step todo req).
  Proof.
    induction todo as [|l todo IH]; intros done req Et Hi.
    - simpl in Et. subst done. exact Hi.
    - simpl in Et. rewrite <- app_assoc in Et. simpl in Et. cbn [fold_left]. apply (IH (l :: done)); [exact Et|].
      eapply required_step; eauto.
  Qed.

  Lemma required_spec extraneous :
    NoDup (required_inputs cgpms topo targets constraints extraneous) /\
    forall x, In x (required_inputs cgpms topo targets constraints extraneous) <->
    needed cgpms targets constraints x /\ ~ In x targets /\ ~ In x constraints /\ ~ In x extraneous.
  Proof.
    assert (I : rinv topo (fold_left step (rev topo) (set_update [] targets))).
    { apply (required_loop (rev topo) []); [rewrite rev_involutive, app_nil_r; reflexivity|].
      split; [apply set_update_NoDup; constructor|]. repeat split.
      - intros x Hx. apply set_update_in. auto.
      - intros x Hx. apply set_update_in in Hx. destruct Hx as [[]|Hx]. apply need_target. exact Hx.
      - intros l i []. }
    destruct I as [N [T [S C]]]. split; [apply NoDup_filter; exact N|]. intros x.
    unfold required_inputs. fold step. rewrite filter_In, !andb_true_iff, !negb_true_iff, !zmem_false. split.
    - intros [Hx H]. split; [apply S; exact Hx|tauto].
    - intros [Hn H]. split; [|tauto]. destruct Hn as [t Ht|c o i Hc Ho Hn Hi]; [apply T; exact Ht|].
      destruct (in_sig_at cgpms c Hc) as [j [Hj <-]]. apply (C j i); [|exists o; auto|exact Hi].
      apply (Permutation_in j (Permutation_sym (proj1 Hg))). apply in_indices. exact Hj.
  Qed.
End Required.
