(** Facts about composed states: which networks are accepted. *)
From Verif Require Import BaseFacts ListFacts NetworkFacts ImportanceFacts StateFacts P05_Network.
From Verif Require Export Compose.
From Coq Require Import Relations Permutation.
Local Open Scope R_scope.

Definition apart (a b : sig) : Prop := forall x, In x (g_outputs a) -> ~ In x (g_outputs b).

Lemma FOP_nth {A} (R : A -> A -> Prop) (l : list A) d : ForallOrdPairs R l <->
  forall i j, (i < j < length l)%nat -> R (nth i l d) (nth j l d).
Proof.
  induction l as [|a l IH].
  - split; [intros _ i j H; cbn in H; lia|constructor].
  - split.
    + intros H. inversion H as [|? ? Ha Hl]; subst. intros [|i] [|j] Hij; cbn in *; try lia.
      * rewrite Forall_forall in Ha. apply Ha. apply nth_In. lia.
      * apply IH; [exact Hl|lia].
    + intros H. constructor.
      * apply Forall_forall. intros b Hb. destruct (In_nth _ _ d Hb) as [k [Hk <-]]. apply (H 0%nat (S k)). cbn. lia.
      * apply IH. intros i j Hij. apply (H (S i) (S j)). cbn. lia.
Qed.
Lemma disjoint_FOP cgpms : disjoint_outputs cgpms <-> ForallOrdPairs apart cgpms.
Proof.
  rewrite (FOP_nth apart cgpms (Sig [] [])). unfold disjoint_outputs, output_of, sig_at, apart. split.
  - intros H i j Hij x Hi Hj. assert (Z.of_nat i = Z.of_nat j); [|lia].
    apply (H _ _ x); (split; [lia|]); rewrite Nat2Z.id; assumption.
  - intros H i j v [Hi Hvi] [Hj Hvj]. destruct (Z.lt_trichotomy i j) as [Hl|[He|Hl]]; [exfalso|exact He|exfalso].
    + apply (H (Z.to_nat i) (Z.to_nat j)) with (x := v); [lia|assumption|assumption].
    + apply (H (Z.to_nat j) (Z.to_nat i)) with (x := v); [lia|assumption|assumption].
Qed.
Lemma network_accepted cgpms : (exists topo, network_init cgpms = Ok topo) <->
  (forall c, In c cgpms -> g_outputs c <> []) /\ ForallOrdPairs apart cgpms /\ acyclic cgpms.
Proof. rewrite <- disjoint_FOP. apply C17_network_accepted. Qed.

Lemma FOP_app {A} (R : A -> A -> Prop) l1 l2 : ForallOrdPairs R (l1 ++ l2) <->
  ForallOrdPairs R l1 /\ ForallOrdPairs R l2 /\ forall a b, In a l1 -> In b l2 -> R a b.
Proof.
  induction l1 as [|x l1 IH]; cbn.
  - split; [intros H; repeat split; [constructor|exact H|intros a b []]|tauto].
  - split.
    + intros H. inversion H as [|? ? Hx Hl]; subst. apply IH in Hl. destruct Hl as [H1 [H2 H3]].
      rewrite Forall_forall in Hx. split; [constructor; [apply Forall_forall; intros y Hy; apply Hx, in_or_app; auto|exact H1]|].
      split; [exact H2|]. intros a b [<-|Ha] Hb; [apply Hx, in_or_app; auto|auto].
    + intros [H1 [H2 H3]]. inversion H1 as [|? ? Hx Hl]; subst. constructor.
      * apply Forall_forall. intros y Hy. apply in_app_or in Hy. rewrite Forall_forall in Hx. destruct Hy; [auto|apply H3; auto].
      * apply IH. repeat split; auto.
Qed.

Lemma clos_trans_mono {A} (R S' : A -> A -> Prop) a b : (forall x y, R x y -> S' x y) -> clos_trans A R a b -> clos_trans A S' a b.
Proof. intros H Hc. induction Hc as [x y Hxy|x y z _ IH1 _ IH2]; [apply t_step; auto|eapply t_trans; eauto]. Qed.

(** Dropping components keeps a network acceptable. *)
Lemma accepted_drop l1 l2 l3 : (exists topo, network_init (l1 ++ l2 ++ l3) = Ok topo) -> exists topo, network_init (l1 ++ l3) = Ok topo.
Proof.
  rewrite !network_accepted. intros [H1 [H2 H3]]. split; [|split].
  - intros c Hc. apply H1. rewrite !in_app_iff. apply in_app_or in Hc. tauto.
  - rewrite FOP_app in H2 |- *. destruct H2 as [A [B C]]. rewrite FOP_app in B. destruct B as [_ [B _]]. repeat split; try assumption.
    intros a b Ha Hb. apply C; [exact Ha|apply in_or_app; auto].
  - intros v Hv. apply (H3 v). eapply clos_trans_mono; [|exact Hv]. intros x y [c [Hc Hxy]]. exists c. split; [|exact Hxy].
    rewrite !in_app_iff. apply in_app_or in Hc. tauto.
Qed.

Definition hooked_sigs (h : dict foreign) : list sig := map (fun tf => f_sig (snd tf)) h.

(** Views have no inputs, so only composed components can be in a cycle. *)
Lemma composite_parent s h v p : parent (build_cgpms s h) v p <-> parent (hooked_sigs h) v p.
Proof.
  unfold parent, build_cgpms. split.
  - intros [c [Hc [H1 H2]]]. apply in_app_or in Hc. destruct Hc as [Hc|Hc]; [|exists c; auto].
    apply in_map_iff in Hc. destruct Hc as [vw [<- _]]. destruct H2.
  - intros [c [Hc H]]. exists c. split; [apply in_or_app; auto|exact H].
Qed.

(** The variables of the views of a state. *)
Definition own (s : state) (x : Z) : Prop :=
  In x (s_outs s) \/ exists v, In v (dkeys (s_views s)) /\ x = (crp_id_view + v)%Z.

Section State.
  Context (n : nat) (s : state) (H : sinv n s).
  Context (Hout : forall v, In v (dkeys (s_views s)) -> ~ In (crp_id_view + v)%Z (s_outs s)).

  Lemma view_in v w : In (v, w) (s_views s) -> vok (tab (s_X s)) n (s_zv s) v w.
  Proof. intros Hw. apply (si_view _ _ H). apply dget_In_NoDup; [apply H|exact Hw]. Qed.
  Lemma view_own v w x : In (v, w) (s_views s) ->
    In x (g_outputs (view_sig w)) <-> x = (crp_id_view + v)%Z \/ dget x (s_zv s) = Some v.
  Proof. intros Hw. destruct (view_in v w Hw) as [_ [V1 [V2 _]]].
    change (In x (g_outputs (view_sig w))) with (v_out w = x \/ In x (dkeys (v_dims w))).
    rewrite V1. specialize (V2 x). split; (intros [E|E]; [left; congruence|right; apply V2; exact E]).
  Qed.

  Lemma views_apart : ForallOrdPairs apart (map (fun vw => view_sig (snd vw)) (s_views s)).
  Proof.
    assert (G : forall l, (forall x, In x l -> In x (s_views s)) -> NoDup (dkeys l) ->
      ForallOrdPairs apart (map (fun vw => view_sig (snd vw)) l)).
    { induction l as [|[v w] l IH]; intros HL HN; [constructor|]. inversion HN as [|? ? Hv HN']; subst. constructor.
      - apply Forall_forall. intros g Hg. apply in_map_iff in Hg. destruct Hg as [[v' w'] [<- Hw']].
        assert (Hne : v <> v') by (intros ->; apply Hv; apply in_map_iff; exists (v', w'); auto).
        assert (H1 : In (v, w) (s_views s)) by (apply HL; left; reflexivity).
        assert (H2 : In (v', w') (s_views s)) by (apply HL; right; exact Hw').
        intros x Hx Hx'. cbn [snd] in Hx, Hx'. apply (view_own v w x H1) in Hx. apply (view_own v' w' x H2) in Hx'.
        assert (Hz : forall u y, In u (dkeys (s_views s)) -> dget (crp_id_view + u)%Z (s_zv s) = Some y -> False).
        { intros u y Hu Hy. apply dget_Some_in in Hy. apply (si_zv _ _ H) in Hy. exact (Hout u Hu Hy). }
        assert (K1 : In v (dkeys (s_views s))) by (apply in_map_iff; exists (v, w); auto).
        assert (K2 : In v' (dkeys (s_views s))) by (apply in_map_iff; exists (v', w'); auto).
        destruct Hx as [->|Hx], Hx' as [Hx'|Hx'].
        + lia.
        + exact (Hz v _ K1 Hx').
        + subst x. exact (Hz v' _ K2 Hx).
        + congruence.
      - apply IH; [intros x Hx; apply HL; right; exact Hx|exact HN']. }
    apply G; [auto|apply H].
  Qed.

  Lemma views_own x : (exists g, In g (map (fun vw => view_sig (snd vw)) (s_views s)) /\ In x (g_outputs g)) <-> own s x.
  Proof.
    split.
    - intros [g [Hg Hx]]. apply in_map_iff in Hg. destruct Hg as [[v w] [<- Hw]]. cbn [snd] in Hx. apply (view_own v w x Hw) in Hx.
      destruct Hx as [->|Hx].
      + right. exists v. split; [apply in_map_iff; exists (v, w); auto|reflexivity].
      + left. apply (si_zv _ _ H). eapply dget_Some_in; eauto.
    - intros [Hx|[v [Hv ->]]].
      + apply (si_zv _ _ H) in Hx. apply in_dkeys_Some in Hx. destruct Hx as [v Hv].
        assert (Hk : In v (dkeys (s_views s))).
        { apply (si_views _ _ H). destruct (si_crp _ _ H) as [_ [Hc _]]. apply (CrpFacts.counts_of_keys _ _ _ Hc).
          apply dget_In in Hv. apply in_map_iff. exists (x, v). auto. }
        apply in_map_iff in Hk. destruct Hk as [[v' w] [E Hw]]. cbn in E. subst v'.
        exists (view_sig w). split; [apply in_map_iff; exists (v, w); auto|]. apply (view_own v w x Hw). auto.
      + apply in_map_iff in Hv. destruct Hv as [[v' w] [E Hw]]. cbn in E. subst v'.
        exists (view_sig w). split; [apply in_map_iff; exists (v, w); auto|]. apply (view_own v w _ Hw). auto.
  Qed.

  (** The network of a composite is accepted exactly when the composed components have
      outputs, none shared with one another or with the state, and no cycle. *)
  Lemma composite_accepted h : (exists topo, network_init (build_cgpms s h) = Ok topo) <->
    (forall g, In g (hooked_sigs h) -> g_outputs g <> [] /\ forall x, In x (g_outputs g) -> ~ own s x) /\
    ForallOrdPairs apart (hooked_sigs h) /\ acyclic (hooked_sigs h).
  Proof.
    rewrite network_accepted. unfold build_cgpms. fold (hooked_sigs h). rewrite FOP_app. split.
    - intros [H1 [[_ [H2 H3]] H4]]. split; [|split; [exact H2|]].
      + intros g Hg. split; [apply H1, in_or_app; auto|]. intros x Hx Ho. apply views_own in Ho. destruct Ho as [a [Ha Hxa]].
        exact (H3 a g Ha Hg x Hxa Hx).
      + intros v Hv. apply (H4 v). eapply clos_trans_mono; [|exact Hv]. intros x y Hxy. apply (composite_parent s h). exact Hxy.
    - intros [H1 [H2 H3]]. split; [|split; [split; [exact views_apart|split; [exact H2|]]|]].
      + intros c Hc. apply in_app_or in Hc. destruct Hc as [Hc|Hc]; [|apply H1; exact Hc].
        apply in_map_iff in Hc. destruct Hc as [vw [<- _]]. discriminate.
      + intros a b Ha Hb x Hxa Hxb. apply (proj2 (H1 b Hb) x Hxb). apply views_own. exists a. auto.
      + intros v Hv. apply (H3 v). eapply clos_trans_mono; [|exact Hv]. intros x y Hxy. apply (composite_parent s h). exact Hxy.
  Qed.
End State.

Lemma FOP_snoc (l : list sig) g : ForallOrdPairs apart (l ++ [g]) <-> ForallOrdPairs apart l /\ forall a, In a l -> apart a g.
Proof.
  rewrite FOP_app. split.
  - intros [A [_ B]]. split; [exact A|]. intros a Ha. apply B; [exact Ha|left; reflexivity].
  - intros [A B]. split; [exact A|]. split; [repeat constructor|]. intros a b Ha [<-|[]]. apply B. exact Ha.
Qed.
