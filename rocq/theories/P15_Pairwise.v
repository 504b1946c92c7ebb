(** C36 and C53: pairwise summaries of columns and rows. *)
From Verif Require Import BaseFacts ListFacts NetworkFacts ImportanceFacts LogSpaceFacts PrimFacts StateFacts P05_Network Compose ComposeFacts.
From Verif Require Import P12_ViewQuery P13_StateQuery P14_Compose GammaWitness.
From Coq Require Import Relations Permutation.
Local Open Scope R_scope.

(** ** Dependence *)

(** [x] and [y] are outputs of one component. *)
Definition together (cs : cstate) (x y : Z) : Prop :=
  exists g, In g (parts cs) /\ In x (g_outputs g) /\ In y (g_outputs g).
(** [a] is [x] or an ancestor of [x] in the network. *)
Definition origin (cs : cstate) (x a : Z) : Prop := a = x \/ clos_trans Z (parent (parts cs)) x a.
(** [x] and [y] come from one variable, or from two outputs of one component. *)
Definition dependent (cs : cstate) (x y : Z) : Prop :=
  exists a b, origin cs x a /\ origin cs y b /\ (a = b \/ together cs a b).
(** A column or an output of a composed component. *)
Definition variable (cs : cstate) (x : Z) : Prop :=
  In x (s_outs (cs_state cs)) \/ exists t f, In (t, f) (cs_hooked cs) /\ In x (g_outputs (f_sig f)).
(** [a] and [b] are columns of one view. *)
Definition same_view (s : state) (a b : Z) : Prop :=
  exists v w, dget v (s_views s) = Some w /\ In a (dkeys (v_dims w)) /\ In b (dkeys (v_dims w)).

Lemma overlap_true a b : overlap a b = true <-> exists x, In x a /\ In x b.
Proof.
  unfold overlap. rewrite existsb_exists. split; intros [x [H1 H2]]; exists x; (split; [exact H1|]);
    [rewrite zmem_in in H2|rewrite zmem_in]; exact H2.
Qed.
Lemma clos_trans_cons {A} (R : A -> A -> Prop) a b : clos_trans A R a b -> exists c, R a c.
Proof. induction 1 as [a b H|a b c _ [d H] _ _]; eauto. Qed.

Section Dependence.
  Context (n : nat) (cs : cstate).
  Let s := cs_state cs.
  Context (Hs : sinv n s) (Hw : wf cs).

  Lemma zv_view c v : dget c (s_zv s) = Some v -> exists w, dget v (s_views s) = Some w /\ In c (dkeys (v_dims w)).
  Proof.
    intros H. assert (Hk : In v (dkeys (s_views s))).
    { apply (si_views _ _ Hs). destruct (si_crp _ _ Hs) as [_ [Hc _]]. apply (CrpFacts.counts_of_keys _ _ _ Hc).
      apply dget_In in H. apply in_map_iff. exists (c, v). auto. }
    apply in_dkeys_Some in Hk. destruct Hk as [w Hk]. exists w. split; [exact Hk|].
    destruct (si_view _ _ Hs v w Hk) as [_ [_ [H1 _]]]. apply H1. exact H.
  Qed.
  Lemma same_view_zv a b : same_view s a b <-> exists v, dget a (s_zv s) = Some v /\ dget b (s_zv s) = Some v.
  Proof.
    split.
    - intros [v [w [H1 [H2 H3]]]]. destruct (si_view _ _ Hs v w H1) as [_ [_ [H _]]]. exists v. rewrite <- !H. auto.
    - intros [v [H1 H2]]. destruct (zv_view a v H1) as [w [H3 H4]]. exists v, w. split; [exact H3|]. split; [exact H4|].
      destruct (si_view _ _ Hs v w H3) as [_ [_ [H _]]]. apply H. exact H2.
  Qed.
  Lemma outs_zv c : In c (s_outs s) <-> exists v, dget c (s_zv s) = Some v.
  Proof.
    rewrite <- (si_zv _ _ Hs). split; [apply in_dkeys_Some|]. intros [v H]. eapply dget_Some_in; eauto.
  Qed.

  Lemma net : exists topo, network_init (parts cs) = Ok topo.
  Proof. exact (wf_net _ Hw). Qed.

  (** Outputs of views and of composed components. *)
  Lemma part_cases g : In g (parts cs) ->
    (exists v w, In (v, w) (s_views s) /\ g = view_sig w) \/ exists t f, In (t, f) (cs_hooked cs) /\ g = f_sig f.
  Proof.
    intros H. apply in_app_or in H. destruct H as [H|H]; apply in_map_iff in H; destruct H as [[a b] [<- H]]; [left|right]; eauto.
  Qed.
  Lemma part_view v w : In (v, w) (s_views s) -> In (view_sig w) (parts cs).
  Proof. intros H. apply in_or_app. left. apply in_map_iff. exists (v, w). auto. Qed.
  Lemma part_hook t f : In (t, f) (cs_hooked cs) -> In (f_sig f) (parts cs).
  Proof. intros H. apply in_or_app. right. apply in_map_iff. exists (t, f). auto. Qed.
  Lemma part_unique g g' x : In g (parts cs) -> In g' (parts cs) -> In x (g_outputs g) -> In x (g_outputs g') -> g = g'.
  Proof.
    intros Hg Hg' Hx Hx'. destruct net as [topo Ht].
    assert (Hd : disjoint_outputs (parts cs)) by (apply disjoint_FOP, network_accepted; eauto).
    destruct (In_nth _ _ (Sig [] []) Hg) as [i [Hi Ei]]. destruct (In_nth _ _ (Sig [] []) Hg') as [j [Hj Ej]].
    assert (E : Z.of_nat i = Z.of_nat j).
    { apply (Hd _ _ x); (split; [lia|]); unfold sig_at; rewrite Nat2Z.id; congruence. }
    apply Nat2Z.inj in E. congruence.
  Qed.
  Lemma column_part c : In c (s_outs s) -> exists v w, In (v, w) (s_views s) /\ In c (g_outputs (view_sig w)) /\ dget c (s_zv s) = Some v.
  Proof.
    intros H. apply outs_zv in H. destruct H as [v Hv]. destruct (zv_view c v Hv) as [w [H1 H2]]. exists v, w.
    split; [apply dget_In; exact H1|]. split; [right; exact H2|exact Hv].
  Qed.
  Lemma column_root c p : In c (s_outs s) -> ~ parent (parts cs) c p.
  Proof.
    intros Hc [g [Hg [H1 H2]]]. destruct (column_part c Hc) as [v [w [Hv [Hx _]]]].
    rewrite (part_unique g (view_sig w) c Hg (part_view v w Hv) H1 Hx) in H2. destruct H2.
  Qed.
  Lemma column_origin c a : In c (s_outs s) -> origin cs c a -> a = c.
  Proof.
    intros Hc [H|H]; [exact H|]. exfalso. apply clos_trans_cons in H. destruct H as [p Hp]. exact (column_root c p Hc Hp).
  Qed.
  Lemma same_view_together a b : same_view s a b -> together cs a b.
  Proof.
    intros [v [w [H1 [H2 H3]]]]. exists (view_sig w). split; [apply (part_view v); apply dget_In; exact H1|]. split; right; assumption.
  Qed.
  Lemma together_columns a b : In a (s_outs s) -> In b (s_outs s) -> together cs a b -> same_view s a b.
  Proof.
    intros Ha Hb [g [Hg [H1 H2]]]. destruct (column_part a Ha) as [v [w [Hv [Hx Ez]]]].
    rewrite (part_unique g (view_sig w) a Hg (part_view v w Hv) H1 Hx) in H2.
    destruct (column_part b Hb) as [v' [w' [Hv' [Hx' Ez']]]]. apply same_view_zv.
    assert (E : view_sig w = view_sig w') by (apply (part_unique _ _ b); try assumption; eapply part_view; eassumption).
    exists v. split; [exact Ez|]. destruct (view_in n s Hs v w Hv) as [_ [V1 _]]. destruct (view_in n s Hs v' w' Hv') as [_ [V1' _]].
    injection E as E _. rewrite V1, V1' in E. assert (v = v') by (clear - E; lia). congruence.
  Qed.
  Lemma variable_output x : variable cs x -> exists i, output_of (parts cs) i x.
  Proof.
    intros H. assert (G : exists g, In g (parts cs) /\ In x (g_outputs g)).
    { destruct H as [H|[t [f [H1 H2]]]].
      - destruct (column_part x H) as [v [w [Hv [Hx _]]]]. exists (view_sig w). split; [eapply part_view; eauto|exact Hx].
      - exists (f_sig f). split; [eapply part_hook; eauto|exact H2]. }
    destruct G as [g [Hg Hx]]. destruct (In_nth _ _ (Sig [] []) Hg) as [i [Hi Ei]]. exists (Z.of_nat i). split; [lia|].
    unfold sig_at. rewrite Nat2Z.id, Ei. exact Hx.
  Qed.

  (** The assignment passed on by line 541. *)
  Lemma zv_copy : exists Zv, rsequence (map (fun i => match dget i (s_zv s) with
      | Some z => Ok (i, z) | None => Err KeyError end) (s_outs s)) = Ok Zv /\
    NoDup (dkeys Zv) /\ (forall c, dget c Zv = dget c (s_zv s)).
  Proof.
    assert (G : forall l, (forall c, In c l -> In c (s_outs s)) -> exists Zv,
      rsequence (map (fun i => match dget i (s_zv s) with Some z => Ok (i, z) | None => Err KeyError end) l) = Ok Zv /\
      dkeys Zv = l /\ forall c z, In (c, z) Zv -> dget c (s_zv s) = Some z).
    { induction l as [|c l IH]; intros Hl; [exists []; cbn; repeat split; intros c z []|].
      destruct IH as [Zv [E [K G]]]; [intros d Hd; apply Hl; right; exact Hd|].
      destruct (proj1 (outs_zv c) (Hl c (or_introl eq_refl))) as [v Hv]. exists ((c, v) :: Zv). cbn. rewrite Hv, E. cbn.
      split; [reflexivity|]. split; [unfold dkeys in K; rewrite K; reflexivity|]. intros d z [Ed|Hd]; [injection Ed as <- <-; exact Hv|auto]. }
    destruct (G (s_outs s)) as [Zv [E [K G']]]; [auto|]. exists Zv. split; [exact E|].
    assert (N : NoDup (dkeys Zv)) by (rewrite K; apply Hs). split; [exact N|]. intros c. destruct (dget c (s_zv s)) as [v|] eqn:Ev.
    - assert (Hc : In c (dkeys Zv)) by (rewrite K; apply outs_zv; eauto). apply in_dkeys_Some in Hc. destruct Hc as [v' Hv'].
      rewrite Hv'. apply dget_In in Hv'. apply G' in Hv'. congruence.
    - destruct (dget c Zv) as [v|] eqn:E2; [|reflexivity]. apply dget_In, G' in E2. congruence.
  Qed.

  (** What the code compares. *)
  Definition visited (x a : Z) : Prop :=
    (In x (s_outs s) /\ same_view s x a) \/ (~ In x (s_outs s) /\ clos_trans Z (parent (parts cs)) x a).
  Definition raw (x y : Z) : Prop :=
    together cs x y \/ exists a b, visited x a /\ visited y b /\ (a = b \/ same_view s a b).

  Lemma related_spec fuel Zv : NoDup (dkeys Zv) -> (forall c, dget c Zv = dget c (s_zv s)) -> (length (parts cs) < fuel)%nat ->
    forall x, (exists i, output_of (parts cs) i x) -> exists l, related fuel (parts cs) Zv x = Ok l /\ forall a, In a l <-> visited x a.
  Proof.
    intros N E Hf x Hx. unfold related. rewrite E. destruct (dget x (s_zv s)) as [z|] eqn:Ez.
    - eexists. split; [reflexivity|]. intros a. assert (Ho : In x (s_outs s)) by (apply outs_zv; eauto). unfold visited.
      rewrite same_view_zv. rewrite in_map_iff. split.
      + intros [[c y] [<- H]]. apply filter_In in H. destruct H as [H1 H2]. cbn in H2. apply Z.eqb_eq in H2. subst y. cbn.
        apply (dget_In_NoDup _ _ _ N) in H1. rewrite E in H1. left. split; [exact Ho|]. exists z. auto.
      + intros [[_ [v [H1 H2]]]|[H _]]; [|contradiction]. assert (v = z) by congruence. subst v. rewrite <- E in H2. apply dget_In in H2.
        exists (a, z). split; [reflexivity|]. apply filter_In. split; [exact H2|cbn; apply Z.eqb_refl].
    - assert (Ho : ~ In x (s_outs s)) by (rewrite outs_zv; intros [v Hv]; congruence).
      destruct net as [topo Ht]. destruct (C18_ancestors _ _ Ht x fuel Hf) as [G _]. destruct Hx as [i Hi].
      destruct (G i Hi) as [l [El Hl]]. exists l. split; [exact El|]. intros a. rewrite Hl. unfold visited. tauto.
  Qed.
  Lemma views_of_spec Zv l z : In z (views_of Zv l) <-> exists i, In i l /\ dget i Zv = Some z.
  Proof.
    unfold views_of. rewrite in_concat. split.
    - intros [m [H1 H2]]. apply in_map_iff in H1. destruct H1 as [i [<- Hi]]. exists i. split; [exact Hi|].
      destruct (dget i Zv) as [z'|]; [|destruct H2]. destruct H2 as [->|[]]. reflexivity.
    - intros [i [Hi E]]. exists [z]. split; [apply in_map_iff; exists i; rewrite E; auto|left; reflexivity].
  Qed.

  Lemma dependence_raw fuel x y : (length (parts cs) < fuel)%nat ->
    (exists i, output_of (parts cs) i x) -> (exists i, output_of (parts cs) i y) ->
    (raw x y /\ dependence fuel cs x y = Ok 1) \/ (~ raw x y /\ dependence fuel cs x y = Ok 0).
  Proof.
    intros Hf Hx Hy. unfold dependence. fold s.
    destruct (zmem x (s_outs s) && zmem y (s_outs s)) eqn:E.
    - apply andb_true_iff in E. rewrite !zmem_in in E. destruct E as [E1 E2].
      destruct (proj1 (outs_zv x) E1) as [z0 Ez0]. destruct (proj1 (outs_zv y) E2) as [z1 Ez1]. rewrite Ez0, Ez1.
      destruct (Z.eqb_spec z0 z1) as [->|Hne]; [left|right]; (split; [|reflexivity]).
      + left. apply same_view_together, same_view_zv. eauto.
      + intros H. assert (G : same_view s x y).
        { destruct H as [H|[a [b [[[_ Ha]|[Ha _]] [[[_ Hb]|[Hb _]] Hab]]]]]; [apply together_columns; assumption| |contradiction..].
          apply same_view_zv in Ha, Hb. destruct Ha as [v [A1 A2]], Hb as [v' [B1 B2]]. apply same_view_zv.
          destruct Hab as [->|Hab]; [exists v; split; congruence|]. apply same_view_zv in Hab. destruct Hab as [u [C1 C2]].
          exists v. split; [exact A1|]. congruence. }
        apply same_view_zv in G. destruct G as [v [G1 G2]]. congruence.
    - destruct zv_copy as [Zv [EZ [N G]]]. rewrite EZ. cbn [rbind]. change (build_cgpms s (cs_hooked cs)) with (parts cs).
      unfold dependence_composite.
      assert (T : existsb (fun g => zmem x (g_outputs g) && zmem y (g_outputs g)) (parts cs) = true <-> together cs x y).
      { rewrite existsb_exists. unfold together. split; intros [g [H1 H2]]; exists g; (split; [exact H1|]);
          [rewrite andb_true_iff, !zmem_in in H2|rewrite andb_true_iff, !zmem_in]; exact H2. }
      destruct (existsb _ _) eqn:E1; [left; split; [left; apply T; reflexivity|reflexivity]|].
      assert (NT : ~ together cs x y) by (rewrite <- T; congruence).
      destruct (related_spec fuel Zv N G Hf x Hx) as [l0 [R0 L0]]. destruct (related_spec fuel Zv N G Hf y Hy) as [l1 [R1 L1]].
      rewrite R0, R1. cbn [rbind].
      destruct (overlap l0 l1) eqn:E2.
      { left. split; [|reflexivity]. apply overlap_true in E2. destruct E2 as [a [H0 H1]]. right. exists a, a.
        rewrite <- L0, <- L1. auto. }
      destruct (overlap (views_of Zv l0) (views_of Zv l1)) eqn:E3.
      { left. split; [|reflexivity]. apply overlap_true in E3. destruct E3 as [v [H0 H1]]. rewrite views_of_spec in H0, H1.
        destruct H0 as [a [Ha Ea]], H1 as [b [Hb Eb]]. right. exists a, b. rewrite <- L0, <- L1. split; [exact Ha|]. split; [exact Hb|].
        right. apply same_view_zv. rewrite G in Ea, Eb. eauto. }
      right. split; [|reflexivity]. intros [H|[a [b [Ha [Hb Hab]]]]]; [contradiction|]. rewrite <- L0 in Ha. rewrite <- L1 in Hb.
      destruct Hab as [<-|Hab].
      + assert (overlap l0 l1 = true) by (apply overlap_true; eauto). congruence.
      + apply same_view_zv in Hab. destruct Hab as [v [A B]]. rewrite <- G in A, B.
        assert (overlap (views_of Zv l0) (views_of Zv l1) = true); [|congruence].
        apply overlap_true. exists v. rewrite !views_of_spec. split; eauto.
  Qed.

  (** An unknown name raises ValueError. *)
  Lemma dependence_unknown fuel x y : (length (parts cs) < fuel)%nat ->
    (forall i, ~ output_of (parts cs) i x) \/ (forall i, ~ output_of (parts cs) i y) ->
    dependence fuel cs x y = Err ValueError.
  Proof.
    intros Hf H.
    assert (Unk : forall z, (forall i, ~ output_of (parts cs) i z) -> ~ In z (s_outs s) /\ (forall g, In g (parts cs) -> ~ In z (g_outputs g))).
    { intros z Hz. split; [intros Hi; destruct (variable_output z (or_introl Hi)) as [i Hi']; exact (Hz i Hi')|].
      intros g Hg Hx. destruct (In_nth _ _ (Sig [] []) Hg) as [i [Hi Ei]]. apply (Hz (Z.of_nat i)). split; [lia|].
      unfold sig_at. rewrite Nat2Z.id, Ei. exact Hx. }
    unfold dependence. fold s.
    replace (zmem x (s_outs s) && zmem y (s_outs s)) with false.
    2:{ symmetry. apply andb_false_iff. destruct H as [H|H]; [left|right]; apply zmem_false; apply (Unk _ H). }
    destruct zv_copy as [Zv [EZ [N G]]]. rewrite EZ. cbn [rbind]. change (build_cgpms s (cs_hooked cs)) with (parts cs).
    unfold dependence_composite.
    replace (existsb (fun g => zmem x (g_outputs g) && zmem y (g_outputs g)) (parts cs)) with false.
    2:{ symmetry. destruct (existsb _ _) eqn:E; [|reflexivity]. apply existsb_exists in E. destruct E as [g [Hg E]].
        rewrite andb_true_iff, !zmem_in in E. exfalso. destruct H as [H|H]; destruct (Unk _ H) as [_ U]; apply (U g Hg); tauto. }
    destruct net as [topo Ht].
    assert (R : forall z, (exists l, related fuel (parts cs) Zv z = Ok l) \/ related fuel (parts cs) Zv z = Err ValueError).
    { intros z. unfold related. destruct (dget z Zv); [left; eauto|]. destruct (C18_ancestors _ _ Ht z fuel Hf) as [G1 G2].
      destruct (dmem z (variable_to_cgpm (parts cs))) eqn:Em.
      - left. apply dmem_in, in_dkeys_Some in Em. destruct Em as [i Hi]. apply variable_to_cgpm_get in Hi; [|apply disjoint_FOP, network_accepted; eauto].
        destruct (G1 i Hi) as [l [El _]]. eauto.
      - right. unfold retrieve_ancestors. rewrite Em. reflexivity. }
    assert (RU : forall z, (forall i, ~ output_of (parts cs) i z) -> related fuel (parts cs) Zv z = Err ValueError).
    { intros z Hz. unfold related. rewrite G. destruct (dget z (s_zv s)) as [v|] eqn:Ev.
      - exfalso. apply (proj1 (Unk z Hz)). apply outs_zv. eauto.
      - apply (C18_ancestors _ _ Ht z fuel Hf). exact Hz. }
    destruct H as [H|H].
    - rewrite (RU x H). reflexivity.
    - rewrite (RU y H). destruct (R x) as [[l ->]| ->]; reflexivity.
  Qed.
End Dependence.

(** Two columns have dependence 1 when one view models both and 0 otherwise. *)
Theorem C36_dependence_columns : forall n cs fuel a b, sinv n (cs_state cs) ->
  In a (s_outs (cs_state cs)) -> In b (s_outs (cs_state cs)) ->
  (dependence fuel cs a b = Ok 1 /\ same_view (cs_state cs) a b) \/
  (dependence fuel cs a b = Ok 0 /\ ~ same_view (cs_state cs) a b).
Proof.
  intros n cs fuel a b Hs Ha Hb. unfold dependence. rewrite (proj2 (zmem_in a _) Ha), (proj2 (zmem_in b _) Hb). cbn [andb].
  destruct (proj1 (outs_zv n cs Hs a) Ha) as [u Eu]. destruct (proj1 (outs_zv n cs Hs b) Hb) as [v Ev]. rewrite Eu, Ev.
  destruct (Z.eqb_spec u v) as [->|Hne]; [left|right]; (split; [reflexivity|]); rewrite (same_view_zv n cs Hs).
  - eauto.
  - intros [z [H1 H2]]. congruence.
Qed.
Print Assumptions C36_dependence_columns.

(** The dependence does not depend on the order of the two names, errors included. *)
Theorem C36_dependence_symmetric : forall n cs fuel x y, sinv n (cs_state cs) -> wf cs -> (length (parts cs) < fuel)%nat ->
  dependence fuel cs x y = dependence fuel cs y x.
Proof.
  intros n cs fuel x y Hs Hw Hf.
  assert (D : forall z, (exists i, output_of (parts cs) i z) \/ forall i, ~ output_of (parts cs) i z).
  { intros z. destruct (dmem z (variable_to_cgpm (parts cs))) eqn:E.
    - left. apply dmem_in, in_dkeys_Some in E. destruct E as [i Hi]. exists i. apply variable_to_cgpm_get in Hi; [exact Hi|].
      apply disjoint_FOP, network_accepted. exact (wf_net _ Hw).
    - right. intros i Hi. apply variable_to_cgpm_get in Hi; [|apply disjoint_FOP, network_accepted; exact (wf_net _ Hw)].
      apply dget_Some_in, dmem_in in Hi. congruence. }
  assert (S1 : forall a b, same_view (cs_state cs) a b -> same_view (cs_state cs) b a).
  { intros a b [v [w [H1 [H2 H3]]]]. exists v, w. auto. }
  assert (S2 : forall a b, raw cs a b -> raw cs b a).
  { intros a b [[g [H1 [H2 H3]]]|[c [d [H1 [H2 H3]]]]]; [left; exists g; auto|right; exists d, c].
    split; [exact H2|]. split; [exact H1|]. destruct H3 as [->|H3]; auto. }
  destruct (D x) as [Hx|Hx]; [destruct (D y) as [Hy|Hy]|].
  - destruct (dependence_raw n cs Hs Hw fuel x y Hf Hx Hy) as [[A ->]|[A ->]];
    destruct (dependence_raw n cs Hs Hw fuel y x Hf Hy Hx) as [[B ->]|[B ->]]; try reflexivity.
    + destruct B. apply S2. exact A.
    + destruct A. apply S2. exact B.
  - rewrite !(dependence_unknown n cs Hs Hw fuel) by auto. reflexivity.
  - rewrite !(dependence_unknown n cs Hs Hw fuel) by auto. reflexivity.
Qed.
Print Assumptions C36_dependence_symmetric.

(** It is 0 or 1 for any two variables of the composite, 1 of a variable with itself, and
    ValueError for a name that nothing outputs. *)
Theorem C36_dependence_range : forall n cs fuel x y, sinv n (cs_state cs) -> wf cs -> (length (parts cs) < fuel)%nat ->
  (variable cs x -> variable cs y -> dependence fuel cs x y = Ok 0 \/ dependence fuel cs x y = Ok 1) /\
  (variable cs x -> dependence fuel cs x x = Ok 1) /\
  ((forall g, In g (parts cs) -> ~ In y (g_outputs g)) -> dependence fuel cs x y = Err ValueError).
Proof.
  intros n cs fuel x y Hs Hw Hf. split; [|split].
  - intros Hx Hy. apply (variable_output n cs Hs) in Hx, Hy.
    destruct (dependence_raw n cs Hs Hw fuel x y Hf Hx Hy) as [[_ ->]|[_ ->]]; auto.
  - intros Hx. apply (variable_output n cs Hs) in Hx. destruct (dependence_raw n cs Hs Hw fuel x x Hf Hx Hx) as [[_ ->]|[A _]]; [reflexivity|].
    destruct A. left. destruct Hx as [i [Hi Hx]]. exists (sig_at (parts cs) i). split; [apply sig_at_in; exact Hi|auto].
  - intros Hy. apply (dependence_unknown n cs Hs Hw fuel); [exact Hf|right]. intros i [Hi Hx]. exact (Hy _ (sig_at_in _ i Hi) Hx).
Qed.
Print Assumptions C36_dependence_range.

(** ** The matrices *)

Section Fill.
  Context {A : Type} (value : A -> A -> res ext) (V : A -> A -> ext) (idx : A -> nat).

  Definition hits (p : A * A) (a b : nat) : Prop :=
    (idx (fst p) = a /\ idx (snd p) = b) \/ (idx (fst p) = b /\ idx (snd p) = a).
  Definition tagged (ps : list (A * A)) := map (fun p => ((fst p, idx (fst p)), (snd p, idx (snd p)))) ps.

  Lemma fill_spec ps : forall D0, (forall p, In p ps -> value (fst p) (snd p) = Ok (V (fst p) (snd p))) ->
    exists D, fill value (tagged ps) D0 = Ok D /\
      forall a b, (exists p, In p ps /\ hits p a b /\ D a b = V (fst p) (snd p)) \/
        ((forall p, In p ps -> ~ hits p a b) /\ D a b = D0 a b).
  Proof.
    induction ps as [|[x y] ps IH]; intros D0 HV; cbn.
    - exists D0. split; [reflexivity|]. intros a b. right. split; [intros p []|reflexivity].
    - pose proof (HV (x, y) (or_introl eq_refl)) as E. cbn in E. rewrite E. cbn [rbind].
      destruct (IH (mset (mset D0 (idx y) (idx x) (V x y)) (idx x) (idx y) (V x y))) as [D [ED HD]];
        [intros p Hp; apply HV; right; exact Hp|].
      exists D. split; [exact ED|]. intros a b. destruct (HD a b) as [[p [H1 H2]]|[H1 H2]]; [left; exists p; auto|].
      unfold mset in H2.
      destruct (Nat.eqb a (idx x) && Nat.eqb b (idx y)) eqn:E1.
      { apply andb_true_iff in E1. rewrite !Nat.eqb_eq in E1. left. exists (x, y). split; [left; reflexivity|].
        split; [left; cbn; intuition congruence|exact H2]. }
      destruct (Nat.eqb a (idx y) && Nat.eqb b (idx x)) eqn:E2.
      { apply andb_true_iff in E2. rewrite !Nat.eqb_eq in E2. left. exists (x, y). split; [left; reflexivity|].
        split; [right; cbn; intuition congruence|exact H2]. }
      right. split; [|exact H2]. intros p [<-|Hp]; [|auto]. intros [[<- <-]|[<- <-]]; cbn in E1, E2;
        rewrite !Nat.eqb_refl in *; discriminate.
  Qed.

  Lemma combinations_in (l : list A) x y : In (x, y) (combinations l) -> exists l1 l2 l3, l = l1 ++ x :: l2 ++ y :: l3.
  Proof.
    induction l as [|z l IH]; cbn; [intros []|]. intros H. apply in_app_or in H. destruct H as [H|H].
    - apply in_map_iff in H. destruct H as [y' [E H]]. injection E as -> ->. apply in_split in H. destruct H as [l2 [l3 ->]].
      exists [], l2, l3. reflexivity.
    - destruct (IH H) as [l1 [l2 [l3 ->]]]. exists (z :: l1), l2, l3. reflexivity.
  Qed.
  Lemma combinations_nth (l : list A) i j d : (i < j < length l)%nat -> In (nth i l d, nth j l d) (combinations l).
  Proof.
    revert i j. induction l as [|z l IH]; intros [|i] [|j] H; cbn in *; try lia; apply in_or_app.
    - left. apply in_map_iff. exists (nth j l d). split; [reflexivity|]. apply nth_In. lia.
    - right. apply IH. lia.
  Qed.

  (** The matrix over the list [l] when item number [i] has index [i]. *)
  Lemma fill_matrix (l : list A) d : (forall i, (i < length l)%nat -> idx (nth i l d) = i) ->
    (forall i j, (i < length l)%nat -> (j < length l)%nat -> value (nth i l d) (nth j l d) = Ok (V (nth i l d) (nth j l d))) ->
    (forall i j, (i < length l)%nat -> (j < length l)%nat -> V (nth i l d) (nth j l d) = V (nth j l d) (nth i l d)) ->
    (forall i, (i < length l)%nat -> V (nth i l d) (nth i l d) = Fin 1) ->
    exists D, fill value (tagged (combinations l)) eye = Ok D /\
      forall i j, (i < length l)%nat -> (j < length l)%nat -> D i j = V (nth i l d) (nth j l d).
  Proof.
    intros Hi HV HS H1.
    assert (P : forall p, In p (combinations l) -> exists i j, (i < j < length l)%nat /\ p = (nth i l d, nth j l d)).
    { intros [x y] Hp. apply combinations_in in Hp. destruct Hp as [l1 [l2 [l3 E]]]. exists (length l1), (length l1 + S (length l2))%nat.
      rewrite E, !app_length. cbn [length]. rewrite app_length. cbn [length]. split; [lia|]. f_equal.
      - rewrite app_nth2, Nat.sub_diag; [reflexivity|lia].
      - rewrite app_nth2 by lia. replace (length l1 + S (length l2) - length l1)%nat with (S (length l2)) by lia. cbn [nth].
        rewrite app_nth2, Nat.sub_diag; [reflexivity|lia]. }
    destruct (fill_spec (combinations l) eye) as [D [ED HD]].
    { intros p Hp. destruct (P p Hp) as [i [j [Hij ->]]]. cbn. apply HV; lia. }
    exists D. split; [exact ED|]. intros a b Ha Hb. destruct (HD a b) as [[p [Hp [Hh E]]]|[Hn E]].
    - destruct (P p Hp) as [i [j [Hij ->]]]. unfold hits in Hh. cbn [fst snd] in *. rewrite !Hi in Hh by lia.
      destruct Hh as [[<- <-]|[<- <-]]; [exact E|]. rewrite E. apply HS; lia.
    - rewrite E. unfold eye. destruct (Nat.eqb_spec a b) as [->|Hne]; [symmetry; apply H1; exact Hb|].
      exfalso. destruct (Nat.lt_ge_cases a b) as [Hl|Hl].
      + apply (Hn (nth a l d, nth b l d)); [apply combinations_nth; lia|]. left. cbn. auto.
      + apply (Hn (nth b l d, nth a l d)); [apply combinations_nth; lia|]. right. cbn. auto.
  Qed.
End Fill.

Lemma position_nth l i : NoDup l -> (i < length l)%nat -> position l (nth i l 0%Z) = i.
Proof.
  intros Hn Hi. unfold position, reindex.
  assert (G : forall k m (d : dict nat), NoDup m -> (k < length m)%nat -> forall a, 
    dget (nth k m 0%Z) (fold_left (fun d kc => dset (snd kc) (fst kc) d) (combine (seq a (length m)) m) d) = Some (a + k)%nat).
  { assert (O : forall m d a c, ~ In c m -> dget c (fold_left (fun d kc => dset (snd kc) (fst kc) d) (combine (seq a (length m)) m) d) = dget c d).
    { induction m as [|y m IH]; intros d a c Hc; cbn; [reflexivity|]. rewrite IH by (intros H; apply Hc; right; exact H).
      rewrite dget_dset. destruct (Z.eqb_spec c y) as [->|]; [destruct Hc; left; reflexivity|reflexivity]. }
    intros k m. revert k. induction m as [|y m IH]; intros k d Hm Hk a; cbn in Hk; [lia|]. inversion Hm as [|? ? Hy Hm']; subst.
    destruct k as [|k]; cbn.
    - rewrite O by exact Hy. rewrite dget_dset, Z.eqb_refl. f_equal. lia.
    - rewrite IH by (auto; lia). f_equal. lia. }
  rewrite G; auto.
Qed.

(** The matrix of distinct variables holds the dependence of each pair. *)
Theorem C36_dependence_matrix : forall n cs fuel colnos, sinv n (cs_state cs) -> wf cs -> (length (parts cs) < fuel)%nat ->
  let cols := match colnos with None => s_outs (cs_state cs) | Some l => l end in
  NoDup cols -> (forall c, In c cols -> variable cs c) ->
  exists D, dependence_pairwise fuel cs colnos = Ok D /\
    forall i j, (i < length cols)%nat -> (j < length cols)%nat -> exists x,
      D i j = Fin x /\ dependence fuel cs (nth i cols 0%Z) (nth j cols 0%Z) = Ok x.
Proof.
  intros n cs fuel colnos Hs Hw Hf cols Hn Hc. unfold dependence_pairwise. fold cols.
  pose (V := fun a b => match dependence fuel cs a b with Ok x => Fin x | Err _ => NaN end).
  assert (HV : forall i j, (i < length cols)%nat -> (j < length cols)%nat -> exists x,
    dependence fuel cs (nth i cols 0%Z) (nth j cols 0%Z) = Ok x).
  { intros i j Hi Hj. destruct (C36_dependence_range n cs fuel (nth i cols 0%Z) (nth j cols 0%Z) Hs Hw Hf) as [H _].
    destruct H as [-> | ->]; eauto using nth_In. }
  destruct (fill_matrix (fun a b => rbind (dependence fuel cs a b) (fun x => Ok (Fin x))) V (position cols) cols 0%Z) as [D [E HD]].
  - intros i Hi. apply position_nth; assumption.
  - intros i j Hi Hj. destruct (HV i j Hi Hj) as [x Hx]. unfold V. rewrite Hx. reflexivity.
  - intros i j Hi Hj. unfold V. rewrite (C36_dependence_symmetric n cs fuel _ _ Hs Hw Hf). reflexivity.
  - intros i Hi. unfold V. destruct (C36_dependence_range n cs fuel (nth i cols 0%Z) 0%Z Hs Hw Hf) as [_ [H _]].
    rewrite H; [reflexivity|]. apply Hc, nth_In, Hi.
  - exists D. split; [exact E|]. intros i j Hi Hj. destruct (HV i j Hi Hj) as [x Hx]. exists x. split; [|exact Hx].
    rewrite HD by assumption. unfold V. rewrite Hx. reflexivity.
Qed.
Print Assumptions C36_dependence_matrix.

(** ** Rows *)

(** View [v] models column [c]; rows [r0] and [r1] are in one cluster of view [v]. *)
Definition models (s : state) (v c : Z) : Prop := exists w, dget v (s_views s) = Some w /\ In c (dkeys (v_dims w)).
Definition one_cluster (s : state) (v r0 r1 : Z) : Prop :=
  exists w k, dget v (s_views s) = Some w /\ dget r0 (v_rows w) = Some k /\ dget r1 (v_rows w) = Some k.

Section Rows.
  Context (n : nat) (s : state) (H : sinv n s) (r0 r1 : Z).
  Context (H0 : (0 <= r0 < Z.of_nat n)%Z) (H1 : (0 <= r1 < Z.of_nat n)%Z).
  Let cs := CState s [] first_token false.

  Definition agree (v : Z) : bool :=
    match dget v (s_views s) with
    | None => false
    | Some w => match dget r0 (v_rows w), dget r1 (v_rows w) with Some k0, Some k1 => (k0 =? k1)%Z | _, _ => false end
    end.
  Lemma agree_spec v : agree v = true <-> one_cluster s v r0 r1.
  Proof.
    unfold agree, one_cluster. split.
    - destruct (dget v (s_views s)) as [w|]; [|discriminate].
      destruct (dget r0 (v_rows w)) as [k0|] eqn:E0; [|discriminate]. destruct (dget r1 (v_rows w)) as [k1|] eqn:E1; [|discriminate].
      intros E. apply Z.eqb_eq in E. subst k1. eauto.
    - intros [w [k [-> [-> ->]]]]. apply Z.eqb_refl.
  Qed.
  Lemma Rsum_indicator l : Rsum (map (fun v => if agree v then 1 else 0) l) = INR (length (filter agree l)).
  Proof.
    induction l as [|v l IH]; [reflexivity|]. cbn [map filter]. change (Rsum (?a :: ?b)) with (a + Rsum b). rewrite IH.
    destruct (agree v); cbn [length]; [rewrite S_INR|]; lra.
  Qed.

  Lemma row_similarity_eq cols : (forall c, In c cols -> In c (s_outs s)) ->
    exists vs, NoDup vs /\ (forall v, In v vs <-> exists c, In c cols /\ models s v c) /\
      row_similarity s r0 r1 (Some cols) = Ok (if is_nil vs then NaN else Fin (INR (length (filter agree vs)) / INR (length vs))).
  Proof.
    intros Hc.
    assert (G : exists zs, rsequence (map (fun c => match dget c (s_zv s) with Some v => Ok v | None => Err KeyError end) cols) = Ok zs /\
      forall v, In v zs <-> exists c, In c cols /\ dget c (s_zv s) = Some v).
    { clear - H Hc. induction cols as [|c l IH].
      - exists []. split; [reflexivity|]. intros v. split; [intros []|intros [c [[] _]]].
      - destruct IH as [zs [E G]]; [intros d Hd; apply Hc; right; exact Hd|].
        destruct (proj1 (outs_zv n (CState s [] first_token false) H c) (Hc c (or_introl eq_refl))) as [v Hv]. cbn [cs_state] in Hv.
        exists (v :: zs). cbn. rewrite Hv, E. split; [reflexivity|]. intros u. split.
        + intros [<-|Hu]; [exists c; auto|]. apply G in Hu. destruct Hu as [d [Hd Eu]]. exists d. auto.
        + intros [d [[<-|Hd] Eu]]; [left; congruence|]. right. apply G. eauto. }
    destruct G as [zs [E G]]. exists (nodup Z.eq_dec zs). split; [apply NoDup_nodup|].
    assert (GM : forall v, In v (nodup Z.eq_dec zs) <-> exists c, In c cols /\ models s v c).
    { intros v. rewrite nodup_In, G. split; intros [c [A B]]; exists c; (split; [exact A|]).
      - exact (zv_view n cs H c v B).
      - destruct B as [w [B1 B2]]. destruct (si_view _ _ H v w B1) as [_ [_ [V _]]]. apply V. exact B2. }
    split; [exact GM|]. unfold row_similarity. rewrite E. cbn [rbind].
    assert (L : rsequence (map (fun v => match dget v (s_views s) with
        | None => Err KeyError
        | Some w => match dget r0 (v_rows w), dget r1 (v_rows w) with
                    | Some k0, Some k1 => Ok (if (k0 =? k1)%Z then 1 else 0)
                    | _, _ => Err KeyError
                    end
        end) (nodup Z.eq_dec zs)) = Ok (map (fun v => if agree v then 1 else 0) (nodup Z.eq_dec zs))).
    { apply rsequence_ok. rewrite map_map. apply map_ext_in. intros v Hv. apply GM in Hv. destruct Hv as [c [_ [w [Ew _]]]].
      unfold agree. rewrite Ew. destruct (si_view _ _ H v w Ew) as [_ [_ [_ V]]].
      destruct (in_dkeys_Some _ _ (proj2 (V r0) H0)) as [k0 ->]. destruct (in_dkeys_Some _ _ (proj2 (V r1) H1)) as [k1 ->]. reflexivity. }
    rewrite L. cbn [rbind]. rewrite Rsum_indicator, map_length. do 2 f_equal. destruct (nodup Z.eq_dec zs); reflexivity.
  Qed.
End Rows.

(** The similarity of two rows is the fraction of the views of the given columns in
    which the rows share a cluster, each view counted once. *)
Theorem C36_row_similarity : forall n s r0 r1 cols, sinv n s ->
  (0 <= r0 < Z.of_nat n)%Z -> (0 <= r1 < Z.of_nat n)%Z ->
  let cs := match cols with None => s_outs s | Some l => l end in
  cs <> [] -> (forall c, In c cs -> In c (s_outs s)) ->
  forall vs same, NoDup vs -> (forall v, In v vs <-> exists c, In c cs /\ models s v c) ->
    NoDup same -> (forall v, In v same <-> In v vs /\ one_cluster s v r0 r1) ->
  (0 < length vs)%nat /\ row_similarity s r0 r1 cols = Ok (Fin (INR (length same) / INR (length vs))).
Proof.
  intros n s r0 r1 cols H H0 H1 cs Hne Hc vs same N1 V1 N2 V2.
  assert (E0 : row_similarity s r0 r1 cols = row_similarity s r0 r1 (Some cs)) by (destruct cols; reflexivity).
  destruct (row_similarity_eq n s H r0 r1 H0 H1 cs Hc) as [ws [N3 [V3 E]]].
  assert (P : Permutation ws vs) by (apply NoDup_Permutation; auto; intros v; rewrite V1; apply V3).
  assert (P2 : Permutation (filter (agree s r0 r1) ws) same).
  { apply NoDup_Permutation; [apply NoDup_filter; exact N3|exact N2|]. intros v. rewrite filter_In, agree_spec, V2, V1, V3. tauto. }
  assert (L : (0 < length vs)%nat).
  { destruct cs as [|c cs'] eqn:Ecs; [congruence|]. assert (Hin : In c (s_outs s)) by (apply Hc; left; reflexivity).
    destruct (proj1 (outs_zv n (CState s [] first_token false) H c) Hin) as [v Hv].
    destruct (zv_view n (CState s [] first_token false) H c v Hv) as [w Hw].
    assert (In v vs) by (apply V1; exists c; split; [left; reflexivity|exists w; exact Hw]).
    destruct vs; [contradiction|cbn; lia]. }
  split; [exact L|]. rewrite E0, E. rewrite <- (Permutation_length P), <- (Permutation_length P2).
  destruct ws; [apply Permutation_length in P; cbn in P; lia|reflexivity].
Qed.
Print Assumptions C36_row_similarity.

(** It is symmetric, 1 of a row with itself and between 0 and 1. *)
Theorem C36_row_symmetric : forall s r0 r1 cols, row_similarity s r0 r1 cols = row_similarity s r1 r0 cols.
Proof.
  intros s r0 r1 cols. unfold row_similarity. destruct (rsequence _) as [vs|e]; [|reflexivity]. cbn [rbind]. f_equal. f_equal.
  apply map_ext. intros v. destruct (dget v (s_views s)) as [w|]; [|reflexivity].
  destruct (dget r0 (v_rows w)), (dget r1 (v_rows w)); try reflexivity. rewrite Z.eqb_sym. reflexivity.
Qed.
Print Assumptions C36_row_symmetric.
Theorem C36_row_range : forall n s r0 r1 cols, sinv n s ->
  (0 <= r0 < Z.of_nat n)%Z -> (0 <= r1 < Z.of_nat n)%Z ->
  let cs := match cols with None => s_outs s | Some l => l end in
  cs <> [] -> (forall c, In c cs -> In c (s_outs s)) ->
  (exists x, row_similarity s r0 r1 cols = Ok (Fin x) /\ 0 <= x <= 1) /\ row_similarity s r0 r0 cols = Ok (Fin 1).
Proof.
  intros n s r0 r1 cols H H0 H1 cs Hne Hc.
  assert (E0 : forall r, row_similarity s r0 r cols = row_similarity s r0 r (Some cs)) by (intros r; destruct cols; reflexivity).
  destruct (row_similarity_eq n s H r0 r1 H0 H1 cs Hc) as [vs [N [V E]]].
  destruct (C36_row_similarity n s r0 r1 cols H H0 H1 Hne Hc vs (filter (agree s r0 r1) vs) N V (NoDup_filter _ N)) as [L E1].
  { intros v. rewrite filter_In, agree_spec. tauto. }
  assert (Lp : 0 < INR (length vs)) by (apply lt_0_INR; exact L). split.
  - exists (INR (length (filter (agree s r0 r1) vs)) / INR (length vs)). split; [exact E1|].
    assert (F : (length (filter (agree s r0 r1) vs) <= length vs)%nat) by (clear; induction vs as [|v l IH]; cbn; [lia|destruct (agree s r0 r1 v); cbn; lia]).
    apply le_INR in F. split; [apply Rcomplements.Rdiv_le_0_compat; [apply pos_INR|exact Lp]|].
    apply Rcomplements.Rle_div_l; lra.
  - destruct (C36_row_similarity n s r0 r0 cols H H0 H0 Hne Hc vs vs N V N) as [_ ->].
    + intros v. split; [|tauto]. intros Hv. split; [exact Hv|]. apply V in Hv. destruct Hv as [c [_ [w [Ew _]]]].
      destruct (si_view _ _ H v w Ew) as [_ [_ [_ R]]]. destruct (in_dkeys_Some _ _ (proj2 (R r0) H0)) as [k Hk]. exists w, k. auto.
    + do 2 f_equal. field. lra.
Qed.
Print Assumptions C36_row_range.

(** With no columns the mean of no numbers is NaN. *)
Theorem C36_row_no_columns : forall s r0 r1, row_similarity s r0 r1 (Some []) = Ok NaN.
Proof. reflexivity. Qed.

(** The matrix of similarities holds the similarity of each pair of rows. *)
Theorem C36_row_matrix : forall n s cols, sinv n s ->
  let cs := match cols with None => s_outs s | Some l => l end in
  cs <> [] -> (forall c, In c cs -> In c (s_outs s)) ->
  exists D, row_similarity_pairwise s cols = Ok D /\
    forall i j, (i < n)%nat -> (j < n)%nat -> row_similarity s (Z.of_nat i) (Z.of_nat j) cols = Ok (D i j).
Proof.
  intros n s cols H cs Hne Hc. unfold row_similarity_pairwise. rewrite (sinv_n_rows n s H). cbn [rbind].
  pose (V := fun a b => match row_similarity s a b cols with Ok x => x | Err _ => NaN end).
  assert (L : length (range (Z.of_nat n)) = n) by (unfold range; rewrite map_length, seq_length, Nat2Z.id; reflexivity).
  assert (Nn : forall i, (i < n)%nat -> nth i (range (Z.of_nat n)) 0%Z = Z.of_nat i).
  { intros i Hi. unfold range. rewrite Nat2Z.id. change 0%Z with (Z.of_nat 0). rewrite map_nth, seq_nth by exact Hi. reflexivity. }
  assert (HV : forall i j, (i < n)%nat -> (j < n)%nat -> row_similarity s (Z.of_nat i) (Z.of_nat j) cols = Ok (V (Z.of_nat i) (Z.of_nat j))).
  { intros i j Hi Hj. destruct (C36_row_range n s (Z.of_nat i) (Z.of_nat j) cols H) as [[x [E _]] _]; try assumption; try lia.
    unfold V. rewrite E. reflexivity. }
  destruct (fill_matrix (fun a b => row_similarity s a b cols) V Z.to_nat (range (Z.of_nat n)) 0%Z) as [D [E HD]]; rewrite ?L in *.
  - intros i Hi. rewrite Nn by exact Hi. apply Nat2Z.id.
  - intros i j Hi Hj. rewrite !Nn by assumption. apply HV; assumption.
  - intros i j Hi Hj. unfold V. rewrite C36_row_symmetric. reflexivity.
  - intros i Hi. rewrite Nn by assumption. unfold V.
    destruct (C36_row_range n s (Z.of_nat i) (Z.of_nat i) cols H) as [_ ->]; try assumption; try lia. reflexivity.
  - exists D. split; [exact E|]. intros i j Hi Hj. rewrite HD, !Nn by assumption. apply HV; assumption.
Qed.
Print Assumptions C36_row_matrix.

(** ** C53: dependence follows the network *)

Section Network.
  Context (n : nat) (cs : cstate) (Hs : sinv n (cs_state cs)) (Hw : wf cs).

  Lemma raw_dependent x y : raw cs x y -> dependent cs x y.
  Proof.
    intros [H|[a [b [Ha [Hb Hab]]]]]; [exists x, y; unfold origin; auto|].
    assert (O : forall z c, visited cs z c -> exists o, origin cs z o /\ forall d, c = d \/ same_view (cs_state cs) c d ->
      o = d \/ together cs o d).
    { intros z c [[H1 H2]|[H1 H2]].
      - exists z. split; [left; reflexivity|]. intros d Hd. right. apply (same_view_together cs).
        destruct Hd as [<-|Hd]; [exact H2|]. rewrite (same_view_zv n cs Hs) in *.
        destruct H2 as [v [A1 A2]], Hd as [u [B1 B2]]. exists v. split; congruence.
      - exists c. split; [right; exact H2|]. intros d [<-|Hd]; [auto|]. right. apply (same_view_together cs). exact Hd. }
    destruct (O x a Ha) as [o [O1 O2]]. destruct (O y b Hb) as [q [Q1 Q2]]. exists o, q. split; [exact O1|]. split; [exact Q1|].
    pose proof (O2 b Hab) as F. destruct Hb as [[B1 B2]|[B1 B2]].
    - assert (q = y) by (apply (column_origin n cs Hs Hw); [exact B1|exact Q1]). subst q.
      assert (S1 : same_view (cs_state cs) b y) by (destruct B2 as [v [w [P1 [P2 P3]]]]; exists v, w; auto).
      apply O2. destruct Hab as [->|Hab]; [auto|]. right. rewrite (same_view_zv n cs Hs) in *.
      destruct Hab as [v [A1 A2]], S1 as [u [C1 C2]]. exists v. split; congruence.
    - destruct (Q2 b (or_introl eq_refl)) as [->|[g [G1 [G2 G3]]]]; [exact F|].
      destruct F as [->|[g' [F1 [F2 F3]]]]; right.
      + exists g. auto.
      + exists g. split; [exact G1|]. rewrite <- (part_unique cs Hw g' g b F1 G1 F3 G3). auto.
        split; [exact F2|]. rewrite (part_unique cs Hw g' g b F1 G1 F3 G3). exact G2.
  Qed.

  Context (Hroot : forall t f, In (t, f) (cs_hooked cs) -> g_inputs (f_sig f) <> []).
  Context (Hid : forall t f i v, In (t, f) (cs_hooked cs) -> In i (g_inputs (f_sig f)) ->
    In v (dkeys (s_views (cs_state cs))) -> i <> (crp_id_view + v)%Z).

  Lemma ancestor_input x a : clos_trans Z (parent (parts cs)) x a -> exists t f, In (t, f) (cs_hooked cs) /\ In a (g_inputs (f_sig f)).
  Proof.
    induction 1 as [x a [g [Hg [_ Ha]]]|x y z _ _ _ IH]; [|exact IH].
    destruct (part_cases cs g Hg) as [[v [w [_ ->]]]|[t [f [Hf ->]]]]; [destruct Ha|eauto].
  Qed.
  Lemma ancestor_column x a w v : clos_trans Z (parent (parts cs)) x a -> In (v, w) (s_views (cs_state cs)) ->
    In a (g_outputs (view_sig w)) -> dget a (s_zv (cs_state cs)) = Some v.
  Proof.
    intros Hx Hv Ha. apply (view_own n _ Hs v w a Hv) in Ha. destruct Ha as [Ha|Ha]; [|exact Ha].
    destruct (ancestor_input x a Hx) as [t [f [Hf Hi]]]. destruct (Hid t f a v Hf Hi); [|exact Ha].
    apply in_map_iff. exists (v, w). auto.
  Qed.
  Lemma foreign_parent x : variable cs x -> ~ In x (s_outs (cs_state cs)) -> exists g i, In g (parts cs) /\ In x (g_outputs g) /\ In i (g_inputs g).
  Proof.
    intros [H|[t [f [H1 H2]]]] Hn; [contradiction|]. exists (f_sig f). pose proof (Hroot t f H1) as Hr.
    destruct (g_inputs (f_sig f)) as [|i l] eqn:E; [contradiction|]. exists i. split; [eapply part_hook; eauto|]. split; [exact H2|].
    left. reflexivity.
  Qed.
  Lemma origin_parent x a i : origin cs x a -> parent (parts cs) a i -> clos_trans Z (parent (parts cs)) x i.
  Proof. intros [->|H] Hp; [apply t_step; exact Hp|eapply t_trans; [exact H|apply t_step; exact Hp]]. Qed.

  Lemma dependent_raw x y : variable cs x -> variable cs y -> dependent cs x y -> raw cs x y.
  Proof.
    intros Hx Hy [a [b [Ha [Hb Hab]]]].
    assert (SV : forall z, In z (s_outs (cs_state cs)) -> same_view (cs_state cs) z z).
    { intros z Hz. apply (same_view_zv n cs Hs). apply (outs_zv n cs Hs) in Hz. destruct Hz as [v Hv]. eauto. }
    assert (TV : forall z, variable cs z -> together cs z z).
    { intros z Hz. destruct (variable_output n cs Hs z Hz) as [i [Hi Ho]]. exists (sig_at (parts cs) i). split; [apply sig_at_in; exact Hi|auto]. }
    (* one of the two a column, the other not *)
    assert (M : forall c z e, In c (s_outs (cs_state cs)) -> ~ In z (s_outs (cs_state cs)) -> variable cs z ->
      origin cs z e -> c = e \/ together cs c e -> together cs c z \/ exists d, visited cs c d /\ visited cs z d).
    { intros c z e Hc Hz Vz Oz Hce. destruct Oz as [->|Oz].
      - destruct Hce as [->|Hce]; [contradiction|auto].
      - right. exists e. split; [|right; auto]. left. split; [exact Hc|]. destruct Hce as [<-|[g [Hg [H1 H2]]]]; [auto|].
        destruct (column_part n cs Hs c Hc) as [v [w [Hv [Hcw Ez]]]].
        rewrite (part_unique cs Hw g (view_sig w) c Hg (part_view cs v w Hv) H1 Hcw) in H2.
        apply (same_view_zv n cs Hs). exists v. split; [exact Ez|]. eapply ancestor_column; eauto. }
    destruct (in_dec Z.eq_dec x (s_outs (cs_state cs))) as [Cx|Cx]; destruct (in_dec Z.eq_dec y (s_outs (cs_state cs))) as [Cy|Cy].
    - apply (column_origin n cs Hs Hw) in Ha; [|exact Cx]. apply (column_origin n cs Hs Hw) in Hb; [|exact Cy]. subst a b.
      left. destruct Hab as [->|Hab]; auto.
    - apply (column_origin n cs Hs Hw) in Ha; [|exact Cx]. subst a.
      destruct (M x y b Cx Cy Hy Hb Hab) as [H|[d [H1 H2]]]; [left; exact H|]. right. exists d, d. auto.
    - apply (column_origin n cs Hs Hw) in Hb; [|exact Cy]. subst b.
      assert (Hba : y = a \/ together cs y a) by (destruct Hab as [->|[g [G1 [G2 G3]]]]; [auto|right; exists g; auto]).
      destruct (M y x a Cy Cx Hx Ha Hba) as [[g [G1 [G2 G3]]]|[d [H1 H2]]]; [left; exists g; auto|]. right. exists d, d. auto.
    - assert (Q : forall g i, In g (parts cs) -> In i (g_inputs g) -> In a (g_outputs g) -> In b (g_outputs g) -> raw cs x y).
      { intros g i Hg Hi H1 H2. right. exists i, i. split; [right; split; [exact Cx|eapply origin_parent; [exact Ha|exists g; auto]]|].
        split; [right; split; [exact Cy|eapply origin_parent; [exact Hb|exists g; auto]]|auto]. }
      assert (W : forall z e g, variable cs z -> ~ In z (s_outs (cs_state cs)) -> origin cs z e -> In g (parts cs) -> In e (g_outputs g) ->
        (exists i, In i (g_inputs g)) \/ clos_trans Z (parent (parts cs)) z e).
      { intros z e g Hz Cz [->|Oz] Hg He; [|auto]. left. destruct (foreign_parent z Hz Cz) as [g' [i [P1 [P2 P3]]]].
        rewrite (part_unique cs Hw g g' z Hg P1 He P2). eauto. }
      destruct Hab as [<-|[g [Hg [H1 H2]]]].
      + destruct Ha as [->|Ha].
        * destruct (foreign_parent x Hx Cx) as [g [i [P1 [P2 P3]]]]. exact (Q g i P1 P3 P2 P2).
        * destruct Hb as [->|Hb].
          -- destruct (foreign_parent y Hy Cy) as [g [i [P1 [P2 P3]]]]. exact (Q g i P1 P3 P2 P2).
          -- right. exists a, a. split; [right; auto|]. split; [right; auto|auto].
      + destruct (W x a g Hx Cx Ha Hg H1) as [[i Hi]|Sa]; [exact (Q g i Hg Hi H1 H2)|].
        destruct (W y b g Hy Cy Hb Hg H2) as [[i Hi]|Sb]; [exact (Q g i Hg Hi H1 H2)|].
        destruct (part_cases cs g Hg) as [[v [w [Hv ->]]]|[t [f [Hf ->]]]].
        * right. exists a, b. split; [right; auto|]. split; [right; auto|]. right. apply (same_view_zv n cs Hs).
          exists v. split; eapply ancestor_column; eauto.
        * pose proof (Hroot t f Hf) as Hr. destruct (g_inputs (f_sig f)) as [|i l] eqn:E; [contradiction|].
          apply (Q (f_sig f) i Hg); [rewrite E; left; reflexivity|exact H1|exact H2].
  Qed.
End Network.

(** A dependence of 1 is always explained by the network. *)
Theorem C53_sound : forall n cs fuel x y, sinv n (cs_state cs) -> wf cs -> (length (parts cs) < fuel)%nat ->
  variable cs x -> variable cs y -> dependence fuel cs x y = Ok 1 -> dependent cs x y.
Proof.
  intros n cs fuel x y Hs Hw Hf Hx Hy E. apply (variable_output n cs Hs) in Hx, Hy.
  destruct (dependence_raw n cs Hs Hw fuel x y Hf Hx Hy) as [[A _]|[_ A]]; [exact (raw_dependent n cs Hs Hw x y A)|].
  rewrite A in E. injection E as E. exfalso. lra.
Qed.
Print Assumptions C53_sound.

(** Partial: the dependence is exactly that of the network when every composed component
    has an input and none reads the cluster variable of a view.  Missing: components
    without inputs, for which it is false, see [C53_refuted]. *)
Theorem C53_dependence_partial : forall n cs fuel x y, sinv n (cs_state cs) -> wf cs -> (length (parts cs) < fuel)%nat ->
  (forall t f, In (t, f) (cs_hooked cs) -> g_inputs (f_sig f) <> []) ->
  (forall t f i v, In (t, f) (cs_hooked cs) -> In i (g_inputs (f_sig f)) ->
     In v (dkeys (s_views (cs_state cs))) -> i <> (crp_id_view + v)%Z) ->
  variable cs x -> variable cs y ->
  (dependent cs x y /\ dependence fuel cs x y = Ok 1) \/ (~ dependent cs x y /\ dependence fuel cs x y = Ok 0).
Proof.
  intros n cs fuel x y Hs Hw Hf H1 H2 Hx Hy. pose proof (variable_output n cs Hs x Hx) as Ox. pose proof (variable_output n cs Hs y Hy) as Oy.
  destruct (dependence_raw n cs Hs Hw fuel x y Hf Ox Oy) as [[A E]|[A E]]; [left|right]; (split; [|exact E]).
  - exact (raw_dependent n cs Hs Hw x y A).
  - intros D. apply A. exact (dependent_raw n cs Hs Hw H1 H2 x y Hx Hy D).
Qed.
Print Assumptions C53_dependence_partial.

(** ** Cases *)

(** 50 is a root, 51 its child; 52 and 53 read columns 0 and 1 of one view, 54 column 2. *)
Definition node (outs ins : list Z) : foreign := Foreign (Sig outs ins) (fun _ _ _ => Ok (Fin 0)) (fun _ _ _ _ _ => Ok []).
Section Cases.
  Context (lgam : R -> R).
  Definition rooted : cstate := CState (sx lgam) [(57481, node [50] []); (57482, node [51] [50])]%Z 57483 true.
  Definition linked : cstate :=
    CState (sx lgam) [(57481, node [52] [0]); (57482, node [53] [1]); (57483, node [54] [2])]%Z 57484 true.
  Lemma rooted_reach : creach rooted.
  Proof.
    apply (cr_compose (CState (sx lgam) [(57481%Z, node [50%Z] [])] 57482 true) (node [51%Z] [50%Z]) _ (Ok 57482%Z)); [|reflexivity].
    apply (cr_compose (plain lgam) (node [50%Z] []) _ (Ok 57481%Z)); [apply plain_reach|reflexivity].
  Qed.
  Lemma linked_reach : creach linked.
  Proof.
    apply (cr_compose (CState (sx lgam) [(57481, node [52] [0]); (57482, node [53] [1])]%Z 57483 true) (node [54%Z] [2%Z]) _ (Ok 57483%Z)); [|reflexivity].
    apply (cr_compose (CState (sx lgam) [(57481%Z, node [52%Z] [0%Z])] 57482 true) (node [53%Z] [1%Z]) _ (Ok 57482%Z)); [|reflexivity].
    apply (cr_compose (plain lgam) (node [52%Z] [0%Z]) _ (Ok 57481%Z)); [apply plain_reach|reflexivity].
  Qed.

  (** Hypotheses of the theorems on dependence and the answers. *)
  Example C36_dependence_ex : sinv 3 (cs_state linked) /\ wf linked /\ (length (parts linked) < 6)%nat /\
    variable linked 0 /\ variable linked 52 /\ variable linked 54 /\
    dependence 6 linked 0 1 = Ok 1 /\ dependence 6 linked 0 2 = Ok 0 /\ dependence 6 linked 52 53 = Ok 1 /\
    dependence 6 linked 52 54 = Ok 0 /\ dependence 6 linked 1 52 = Ok 1 /\ dependence 6 linked 54 1 = Ok 0 /\
    dependence 6 linked 0 77 = Err ValueError.
  Proof.
    split; [apply sx_inv|]. split; [apply C43_wellformed, linked_reach|]. split; [cbn; lia|].
    split; [left; cbn; tauto|]. split; [right; do 2 eexists; split; [left; reflexivity|left; reflexivity]|].
    split; [right; do 2 eexists; split; [right; right; left; reflexivity|left; reflexivity]|].
    repeat split; reflexivity.
  Qed.
  Example C36_matrix_ex : NoDup [52; 0; 54; 53]%Z /\ (forall c, In c [52; 0; 54; 53]%Z -> variable linked c).
  Proof.
    split; [repeat constructor; cbn; lia|]. intros c [<-|[<-|[<-|[<-|[]]]]].
    - right. do 2 eexists. split; [left; reflexivity|left; reflexivity].
    - left. cbn. tauto.
    - right. do 2 eexists. split; [right; right; left; reflexivity|left; reflexivity].
    - right. do 2 eexists. split; [right; left; reflexivity|left; reflexivity].
  Qed.
  (** Views 0 and 1; rows 0 and 1 share a cluster of view 0 only, rows 0 and 2 of neither or of view 1. *)
  Example C36_row_ex : sinv 3 (sx lgam) /\ [0; 1; 2]%Z <> [] /\ (forall c, In c [0; 1; 2]%Z -> In c (s_outs (sx lgam))) /\
    (forall v, In v [0; 1]%Z <-> exists c, In c [0; 1; 2]%Z /\ models (sx lgam) v c).
  Proof.
    split; [apply sx_inv|]. split; [discriminate|]. split; [intros c Hc; exact Hc|]. intros v. split.
    - intros [<-|[<-|[]]]; [exists 0%Z|exists 2%Z]; (split; [cbn; tauto|]); eexists; (split; [reflexivity|]); cbn; tauto.
    - intros [c [_ [w [Hw _]]]]. apply dget_Some_in in Hw. exact Hw.
  Qed.
  Example C53_partial_ex : (forall t f, In (t, f) (cs_hooked linked) -> g_inputs (f_sig f) <> []) /\
    (forall t f i v, In (t, f) (cs_hooked linked) -> In i (g_inputs (f_sig f)) ->
       In v (dkeys (s_views (cs_state linked))) -> i <> (crp_id_view + v)%Z) /\
    dependent linked 52 53.
  Proof.
    split; [|split].
    - intros t f H. cbn in H. destruct H as [E|[E|[E|[]]]]; injection E as <- <-; discriminate.
    - intros t f i v H Hi Hv. cbn in H, Hv. unfold crp_id_view.
      destruct H as [E|[E|[E|[]]]]; injection E as <- <-; cbn in Hi; lia.
    - exists 0%Z, 1%Z. split; [right; apply t_step; exists (f_sig (node [52%Z] [0%Z])); cbn; tauto|].
      split; [right; apply t_step; exists (f_sig (node [53%Z] [1%Z])); cbn; tauto|]. right.
      exists (view_sig (qx_v lgam)). split; [left; reflexivity|]. cbn. tauto.
  Qed.
  Lemma rooted_zero : dependence 5 rooted 50 51 = Ok 0.
  Proof. reflexivity. Qed.
End Cases.

(** C53 is false: the output of a component without inputs and the output of a component
    that reads it have dependence 0. *)
Theorem C53_refuted : exists n cs fuel x y, creach cs /\ sinv n (cs_state cs) /\ (length (parts cs) < fuel)%nat /\
  variable cs x /\ variable cs y /\ parent (parts cs) y x /\ dependent cs x y /\ dependence fuel cs x y = Ok 0.
Proof.
  exists 3%nat, (rooted lgam_w), 5%nat, 50%Z, 51%Z.
  assert (P : parent (parts (rooted lgam_w)) 51 50) by (exists (f_sig (node [51%Z] [50%Z])); cbn; tauto).
  split; [apply rooted_reach|]. split; [apply sx_inv|]. split; [cbn; lia|].
  split; [right; do 2 eexists; split; [left; reflexivity|left; reflexivity]|].
  split; [right; do 2 eexists; split; [right; left; reflexivity|left; reflexivity]|].
  split; [exact P|]. split; [|apply rooted_zero].
  exists 50%Z, 50%Z. split; [left; reflexivity|]. split; [right; apply t_step; exact P|auto].
Qed.
Print Assumptions C53_refuted.

(** With a repeated name the matrix is not that of the pairwise values: the first of the
    two positions stays zero. *)
Theorem C36_duplicates_refuted : exists n cs fuel cols D i j x, creach cs /\ sinv n (cs_state cs) /\
  (length (parts cs) < fuel)%nat /\ (forall c, In c cols -> variable cs c) /\
  dependence_pairwise fuel cs (Some cols) = Ok D /\ (i < length cols)%nat /\ (j < length cols)%nat /\
  dependence fuel cs (nth i cols 0%Z) (nth j cols 0%Z) = Ok x /\ D i j <> Fin x.
Proof.
  exists 3%nat, (plain lgam_w), 5%nat, [0; 0]%Z. eexists. exists 0%nat, 1%nat, 1.
  split; [apply plain_reach|]. split; [apply sx_inv|]. split; [cbn; lia|]. split; [intros c [<-|[<-|[]]]; left; cbn; tauto|].
  split; [reflexivity|]. split; [cbn; lia|]. split; [cbn; lia|]. split; [reflexivity|]. cbn.
  intros E. injection E as E. lra.
Qed.
Print Assumptions C36_duplicates_refuted.
