(** C43 and C44: components composed onto a crosscat state. *)
From Verif Require Import BaseFacts ListFacts NetworkFacts ImportanceFacts StateFacts P05_Network Compose ComposeFacts.
From Coq Require Import Relations Permutation.
Local Open Scope R_scope.

(** ** C43 *)

(** The composites that occur: any list of compositions (rejected ones too), removals and
    operations on the state itself after which the network is still accepted.  A new state
    has no conditional column: the constructor sets the flag to False whatever the columns
    are (state.py:182), see [C41_composite_refuted]. *)
Inductive creach : cstate -> Prop :=
| cr_new s : (exists topo, network_init (build_cgpms s []) = Ok topo) -> conditional s = false ->
    creach (CState s [] first_token false)
| cr_compose cs f cs' r : creach cs -> compose cs f = (cs', r) -> creach cs'
| cr_decompose cs t cs' r : creach cs -> decompose cs t = (cs', r) -> creach cs'
| cr_state cs refresh (op : state -> state * res unit) cs' r : creach cs -> on_state refresh op cs = (cs', r) ->
    (exists topo, build_network cs' = Ok topo) ->
    (match r with Ok _ => refresh = true | Err _ => False end \/ conditional (cs_state cs') = conditional (cs_state cs)) ->
    creach cs'.

(** The components of a composite, as the network sees them. *)
Definition parts (cs : cstate) : list sig := build_cgpms (cs_state cs) (cs_hooked cs).

Record wf (cs : cstate) : Prop := {
  wf_net : exists topo, build_network cs = Ok topo;
  wf_keys : NoDup (dkeys (cs_hooked cs));
  wf_next : forall t, In t (dkeys (cs_hooked cs)) -> (t < cs_next cs)%Z;
  wf_flag : cs_composite cs = negb (is_nil (cs_hooked cs)) || conditional (cs_state cs)
}.

Lemma fresh_token cs : wf cs -> ~ In (cs_next cs) (dkeys (cs_hooked cs)).
Proof. intros H Hi. apply (wf_next _ H) in Hi. lia. Qed.
Lemma ddel_snoc {A} k (x : A) d : ~ In k (dkeys d) -> ddel k (d ++ [(k, x)]) = d.
Proof.
  induction d as [|[k' y] d IH]; cbn; intros Hn; [rewrite Z.eqb_refl; reflexivity|].
  destruct (Z.eqb_spec k k') as [->|_]; [destruct Hn; auto|]. rewrite IH; tauto.
Qed.
Lemma ddel_filter {A} k (d : dict A) : NoDup (dkeys d) -> ddel k d = filter (fun tx => negb (fst tx =? k)%Z) d.
Proof.
  induction d as [|[k' y] d IH]; cbn; intros Hn; [reflexivity|]. inversion Hn as [|? ? Hk Hd]; subst.
  destruct (Z.eqb_spec k k') as [->|Hne].
  - rewrite Z.eqb_refl. cbn. clear - Hk. induction d as [|[k2 z] d IH]; [reflexivity|]. cbn in *.
    destruct (Z.eqb_spec k2 k') as [->|]; [tauto|]. cbn. rewrite <- IH by tauto. reflexivity.
  - destruct (Z.eqb_spec k' k) as [->|_]; [congruence|]. cbn. rewrite IH by assumption. reflexivity.
Qed.
Lemma ddel_split {A} k (d : dict A) x : NoDup (dkeys d) -> dget k d = Some x ->
  exists l1 l2, d = l1 ++ (k, x) :: l2 /\ ddel k d = l1 ++ l2.
Proof.
  induction d as [|[k' y] d IH]; cbn; intros Hn; [discriminate|]. inversion Hn as [|? ? Hk Hd]; subst.
  destruct (Z.eqb_spec k k') as [->|Hne].
  - intros E. injection E as ->. exists [], d. auto.
  - intros E. destruct (IH Hd E) as [l1 [l2 [-> E2]]]. exists ((k', y) :: l1), l2. cbn. rewrite E2. auto.
Qed.
Lemma build_snoc s h t f : build_cgpms s (h ++ [(t, f)]) = build_cgpms s h ++ [f_sig f].
Proof. unfold build_cgpms. rewrite map_app, app_assoc. reflexivity. Qed.

Lemma compose_cases cs f : wf cs ->
  (exists topo, network_init (parts cs ++ [f_sig f]) = Ok topo /\
     compose cs f = (CState (cs_state cs) (cs_hooked cs ++ [(cs_next cs, f)]) (cs_next cs + 1)%Z true, Ok (cs_next cs))) \/
  (network_init (parts cs ++ [f_sig f]) = Err ValueError /\
     compose cs f = (CState (cs_state cs) (cs_hooked cs) (cs_next cs + 1)%Z (cs_composite cs), Err ValueError)).
Proof.
  intros H. unfold compose, build_network. cbn [cs_state cs_hooked cs_next cs_composite].
  rewrite (dset_fresh _ _ _ (fresh_token cs H)), build_snoc. fold (parts cs).
  destruct (network_init (parts cs ++ [f_sig f])) as [topo|e] eqn:E.
  - left. exists topo. split; [reflexivity|]. unfold update_is_composite. cbn [cs_state cs_hooked cs_next].
    repeat f_equal. destruct (cs_hooked cs); reflexivity.
  - right. apply C17_network_rejected in E. subst e. rewrite (ddel_snoc _ _ _ (fresh_token cs H)). auto.
Qed.

Lemma decompose_cases cs t : wf cs ->
  (In t (dkeys (cs_hooked cs)) /\ exists cs', decompose cs t = (cs', Ok tt) /\ wf cs' /\ cs_state cs' = cs_state cs /\
     cs_hooked cs' = filter (fun tx => negb (fst tx =? t)%Z) (cs_hooked cs) /\ cs_next cs' = cs_next cs) \/
  (~ In t (dkeys (cs_hooked cs)) /\ decompose cs t = (cs, Err KeyError)).
Proof.
  intros H. unfold decompose. destruct (dmem t (cs_hooked cs)) eqn:Em.
  - left. apply dmem_in in Em. split; [exact Em|]. apply in_dkeys_Some in Em. destruct Em as [f Ef].
    destruct (ddel_split t _ f (wf_keys _ H) Ef) as [l1 [l2 [E1 E2]]].
    assert (Hnet : exists topo, network_init (build_cgpms (cs_state cs) (ddel t (cs_hooked cs))) = Ok topo).
    { rewrite E2. unfold build_cgpms. rewrite map_app. pose proof (wf_net _ H) as Hn. unfold build_network, build_cgpms in Hn.
      rewrite E1, map_app in Hn. rewrite app_assoc. apply (accepted_drop _ [f_sig f]). cbn in Hn. rewrite <- app_assoc. exact Hn. }
    destruct Hnet as [topo Et]. eexists. unfold build_network. cbn [update_is_composite cs_state cs_hooked]. rewrite Et.
    split; [reflexivity|]. unfold update_is_composite. cbn [cs_state cs_hooked cs_next]. rewrite (ddel_filter t _ (wf_keys _ H)) in *.
    split; [|repeat split]. split; cbn [cs_state cs_hooked cs_next cs_composite].
    + exists topo. exact Et.
    + pose proof (wf_keys _ H) as Hk. clear - Hk. induction (cs_hooked cs) as [|[k x] d IH]; [constructor|]. cbn in *.
      inversion Hk as [|? ? Hn Hd]; subst. destruct (negb (k =? t)%Z); cbn; [|auto]. constructor; [|auto].
      intros Hi. apply Hn. apply in_map_iff in Hi. destruct Hi as [kx [<- Hi]]. apply filter_In in Hi. apply in_map. tauto.
    + intros k Hk. apply (wf_next _ H). apply in_map_iff in Hk. destruct Hk as [kx [<- Hk]]. apply filter_In in Hk. apply in_map. tauto.
    + reflexivity.
  - right. split; [|reflexivity]. rewrite <- dmem_in. congruence.
Qed.

(** Every composite that occurs has an accepted network and a correct flag. *)
Theorem C43_wellformed : forall cs, creach cs -> wf cs.
Proof.
  intros cs H. induction H as [s Hs Hd|cs f cs' r _ IH E|cs t cs' r _ IH E|cs refresh op cs' r _ IH E Hn Hf].
  - split; cbn; [exact Hs|constructor|intros t []|symmetry; exact Hd].
  - destruct (compose_cases cs f IH) as [[topo [Et Ec]]|[Et Ec]]; rewrite Ec in E; injection E as <- _.
    + split; cbn [cs_state cs_hooked cs_next cs_composite].
      * exists topo. unfold build_network. cbn [cs_state cs_hooked]. rewrite build_snoc. exact Et.
      * unfold dkeys. rewrite map_app. apply NoDup_app_intro; [apply IH|repeat constructor; intros []|].
        intros x Hx [<-|[]]. exact (fresh_token cs IH Hx).
      * intros t Ht. unfold dkeys in Ht. rewrite map_app in Ht. apply in_app_or in Ht. cbn in Ht.
        destruct Ht as [Ht|[<-|[]]]; [|lia]. apply (wf_next _ IH) in Ht. lia.
      * destruct (cs_hooked cs); reflexivity.
    + destruct IH as [I1 I2 I3 I4]. split; try assumption. intros t Ht. apply I3 in Ht. cbn. lia.
  - destruct (decompose_cases cs t IH) as [[_ [cs2 [Ec [Hw _]]]]|[_ Ec]]; rewrite Ec in E; injection E as <- _; assumption.
  - unfold on_state in E. destruct (op (cs_state cs)) as [s1 r1]. injection E as <- <-.
    destruct IH as [I1 I2 I3 I4].
    assert (F : conditional s1 = conditional (cs_state cs) -> (exists topo, network_init (build_cgpms s1 (cs_hooked cs)) = Ok topo) ->
      wf (CState s1 (cs_hooked cs) (cs_next cs) (cs_composite cs))).
    { intros Hc Ht. split; try assumption. cbn [cs_state cs_hooked cs_composite]. rewrite Hc. exact I4. }
    assert (F2 : (exists topo, network_init (build_cgpms s1 (cs_hooked cs)) = Ok topo) ->
      wf (update_is_composite (CState s1 (cs_hooked cs) (cs_next cs) (cs_composite cs)))).
    { intros Ht. split; try assumption. reflexivity. }
    destruct r1 as [u|e]; [destruct refresh|]; [apply F2; exact Hn|apply F; [|exact Hn]|apply F; [|exact Hn]];
      (destruct Hf as [Hf|Hf]; [try discriminate; destruct Hf|exact Hf]).
Qed.
Print Assumptions C43_wellformed.

(** A component is accepted exactly when it has outputs, shares none with a component
    already there, and no variable comes to depend on itself. *)
Theorem C43_accepted : forall cs f, wf cs ->
  (exists cs' t, compose cs f = (cs', Ok t)) <->
  g_outputs (f_sig f) <> [] /\
  (forall g x, In g (parts cs) -> In x (g_outputs g) -> ~ In x (g_outputs (f_sig f))) /\
  (forall x, ~ clos_trans Z (parent (parts cs ++ [f_sig f])) x x).
Proof.
  intros cs f H.
  assert (G : (exists cs' t, compose cs f = (cs', Ok t)) <-> exists topo, network_init (parts cs ++ [f_sig f]) = Ok topo).
  { destruct (compose_cases cs f H) as [[topo [Et Ec]]|[Et Ec]]; rewrite Et, Ec.
    - split; eauto.
    - split; intros [x Hx]; [destruct Hx|]; discriminate. }
  rewrite G, network_accepted, FOP_snoc. pose proof (wf_net _ H) as Hn. unfold build_network in Hn. fold (parts cs) in Hn.
  rewrite network_accepted in Hn. destruct Hn as [N1 [N2 _]]. split.
  - intros [A [[_ B] C]]. split; [apply A, in_or_app; right; left; reflexivity|]. split; [|exact C].
    intros g x Hg Hx. exact (B g Hg x Hx).
  - intros [A [B C]]. split; [|split; [split; [exact N2|]|exact C]].
    + intros c Hc. apply in_app_or in Hc. destruct Hc as [Hc|[<-|[]]]; auto.
    + intros a Ha x Hx. exact (B a x Ha Hx).
Qed.
Print Assumptions C43_accepted.

(** An accepted component is registered under a fresh token, last; nothing else changes. *)
Theorem C43_registered : forall cs f cs' t, wf cs -> compose cs f = (cs', Ok t) ->
  wf cs' /\ cs_state cs' = cs_state cs /\ cs_hooked cs' = cs_hooked cs ++ [(t, f)] /\
  ~ In t (dkeys (cs_hooked cs)) /\ cs_composite cs' = true.
Proof.
  intros cs f cs' t H E. pose proof (fresh_token cs H) as Hf.
  destruct (compose_cases cs f H) as [[topo [Et Ec]]|[Et Ec]]; rewrite Ec in E; [|discriminate]. injection E as <- <-.
  split; [|cbn; auto]. split; cbn [cs_state cs_hooked cs_next cs_composite].
  - exists topo. unfold build_network. cbn [cs_state cs_hooked]. rewrite build_snoc. exact Et.
  - unfold dkeys. rewrite map_app. apply NoDup_app_intro; [apply H|repeat constructor; intros []|].
    intros x Hx [<-|[]]. exact (Hf Hx).
  - intros t Ht. unfold dkeys in Ht. rewrite map_app in Ht. apply in_app_or in Ht. cbn in Ht.
    destruct Ht as [Ht|[<-|[]]]; [|lia]. apply (wf_next _ H) in Ht. lia.
  - destruct (cs_hooked cs); reflexivity.
Qed.
Print Assumptions C43_registered.

(** A rejected component leaves everything but the token counter as it was. *)
Theorem C43_rejected : forall cs f cs' e, wf cs -> compose cs f = (cs', Err e) ->
  e = ValueError /\ cs_state cs' = cs_state cs /\ cs_hooked cs' = cs_hooked cs /\ cs_composite cs' = cs_composite cs.
Proof.
  intros cs f cs' e H E. destruct (compose_cases cs f H) as [[topo [Et Ec]]|[Et Ec]]; rewrite Ec in E; [discriminate|].
  injection E as <- <-. auto.
Qed.
Print Assumptions C43_rejected.

(** Removal by token: exactly that component goes, the others keep their order; an unknown
    token raises KeyError and changes nothing. *)
Theorem C43_removed : forall cs t, wf cs ->
  (In t (dkeys (cs_hooked cs)) -> exists cs', decompose cs t = (cs', Ok tt) /\ wf cs' /\ cs_state cs' = cs_state cs /\
     cs_hooked cs' = filter (fun tx => negb (fst tx =? t)%Z) (cs_hooked cs)) /\
  (~ In t (dkeys (cs_hooked cs)) -> decompose cs t = (cs, Err KeyError)).
Proof.
  intros cs t H. destruct (decompose_cases cs t H) as [[Hi [cs' [E [W [S' [K _]]]]]]|[Hi E]]; split; intros Hi'; try contradiction.
  - exists cs'. auto.
  - exact E.
Qed.
Print Assumptions C43_removed.

(** Composing and then removing is the identity, except for the token counter. *)
Theorem C43_undo : forall cs f cs1 t, wf cs -> compose cs f = (cs1, Ok t) ->
  exists cs2, decompose cs1 t = (cs2, Ok tt) /\ cs_state cs2 = cs_state cs /\ cs_hooked cs2 = cs_hooked cs /\
    cs_composite cs2 = cs_composite cs.
Proof.
  intros cs f cs1 t H E. destruct (C43_registered cs f cs1 t H E) as [W1 [S1 [K1 [F1 _]]]].
  destruct (C43_removed cs1 t W1) as [D _]. destruct D as [cs2 [E2 [W2 [S2 K2]]]].
  { rewrite K1. unfold dkeys. rewrite map_app. apply in_or_app. right. left. reflexivity. }
  exists cs2. split; [exact E2|]. split; [congruence|].
  assert (K : cs_hooked cs2 = cs_hooked cs).
  { rewrite K2, K1, filter_app. cbn. rewrite Z.eqb_refl. cbn. rewrite app_nil_r. clear - F1.
    induction (cs_hooked cs) as [|[k x] d IH]; [reflexivity|]. cbn in *. destruct (Z.eqb_spec k t) as [->|]; [tauto|].
    cbn. rewrite IH by tauto. reflexivity. }
  split; [exact K|]. rewrite (wf_flag _ W2), (wf_flag _ H), K, S2, S1. reflexivity.
Qed.
Print Assumptions C43_undo.

(** Inference and row operations on the state cannot break the network: only the set of
    columns and the numbers of the views matter. *)
Theorem C43_state_change : forall n n' s s' h, sinv n s -> sinv n' s' ->
  (forall v, In v (dkeys (s_views s)) -> ~ In (crp_id_view + v)%Z (s_outs s)) ->
  (forall v, In v (dkeys (s_views s')) -> ~ In (crp_id_view + v)%Z (s_outs s')) ->
  (exists topo, network_init (build_cgpms s h) = Ok topo) ->
  (forall t f x, In (t, f) h -> In x (g_outputs (f_sig f)) ->
     (In x (s_outs s') -> In x (s_outs s)) /\ forall v, In v (dkeys (s_views s')) -> x <> (crp_id_view + v)%Z) ->
  exists topo, network_init (build_cgpms s' h) = Ok topo.
Proof.
  intros n n' s s' h H H' Ho Ho' Hn Hh. apply (composite_accepted n s H Ho) in Hn. apply (composite_accepted n' s' H' Ho').
  destruct Hn as [N1 [N2 N3]]. split; [|split; assumption]. intros g Hg. destruct (N1 g Hg) as [A B]. split; [exact A|].
  intros x Hx. apply in_map_iff in Hg. destruct Hg as [[t f] [<- Hf]]. cbn [snd] in Hx. destruct (Hh t f x Hf Hx) as [H1 H2].
  intros [Hi|[v [Hv E]]]; [|exact (H2 v Hv E)]. apply (B x Hx). left. apply H1. exact Hi.
Qed.
Print Assumptions C43_state_change.

(** A column added to the state is not compared with the outputs of the composed
    components: the call succeeds and leaves a network that is never accepted again. *)
Theorem C43_new_column : forall n s T col k v seed d hd ho s' h t f, sinv n s -> ainv (cs_col k) -> add_safe s k v ->
  In (t, f) h -> In col (g_outputs (f_sig f)) ->
  state_incorporate_dim s T col k v seed d hd ho = (s', Ok tt) ->
  network_init (build_cgpms s' h) = Err ValueError.
Proof.
  intros n s T col k v seed d hd ho s' h t f H Hk Hs Hf Hc E.
  destruct (state_add_ok n s T col k v seed d hd ho s' H Hk Hs E) as [H' [_ [_ [EO _]]]].
  destruct (network_init (build_cgpms s' h)) as [topo|e] eqn:En; [exfalso|apply C17_network_rejected in En; congruence].
  assert (Hn : exists topo, network_init (build_cgpms s' h) = Ok topo) by eauto.
  apply network_accepted in Hn. destruct Hn as [_ [Hn _]]. unfold build_cgpms in Hn. apply FOP_app in Hn. destruct Hn as [_ [_ Hn]].
  assert (Hi : In col (s_outs s')) by (rewrite EO; apply in_or_app; right; left; reflexivity).
  destruct (proj2 (views_own n s' H' col)) as [g [Hg Hx]]; [left; exact Hi|].
  exact (Hn g (f_sig f) Hg (in_map (fun tf => f_sig (snd tf)) h (t, f) Hf) col Hx Hc).
Qed.
Print Assumptions C43_new_column.

(** ** C44 *)

Lemma observed_get X r skip cols d : observed_cells X r skip cols = Ok d -> NoDup cols ->
  NoDup (dkeys d) /\ forall c v, dget c d = Some v <->
    In c cols /\ ~ In c skip /\ exists x, X c r = Ok (Some x) /\ v = VCell (Some x).
Proof.
  revert d. induction cols as [|c0 cols IH]; intros d; cbn [observed_cells].
  { intros E _. injection E as <-. split; [constructor|]. intros c v. split; [discriminate|]. intros [[] _]. }
  intros E HN. inversion HN as [|? ? Hc HN']; subst. destruct (zmem c0 skip) eqn:Ez.
  - apply zmem_in in Ez. destruct (IH d E HN') as [A B]. split; [exact A|]. intros c v. rewrite B.
    split; intros [H1 H2]; (split; [|exact H2]); [right; exact H1|]. destruct H1 as [->|H1]; [tauto|exact H1].
  - apply zmem_false in Ez. destruct (X c0 r) as [x|e] eqn:Ex; cbn [rbind] in E; [|discriminate].
    destruct (observed_cells X r skip cols) as [d'|e]; cbn [rbind] in E; [|discriminate]. injection E as <-.
    destruct (IH d' eq_refl HN') as [A B]. destruct x as [y|].
    + split.
      * cbn. constructor; [|exact A]. intros Hi. apply in_dkeys_Some in Hi. destruct Hi as [v Hv]. apply B in Hv. tauto.
      * intros c v. cbn [dget]. destruct (Z.eqb_spec c c0) as [->|Hne].
        -- split.
           ++ intros E. injection E as <-. split; [left; reflexivity|]. split; [exact Ez|]. eauto.
           ++ intros [_ [_ [z [Hz ->]]]]. congruence.
        -- rewrite B. split; intros [H1 H2]; (split; [|exact H2]); [right; exact H1|]. destruct H1 as [E|H1]; [congruence|exact H1].
    + split; [exact A|]. intros c v. rewrite B. split; intros [H1 H2]; (split; [|exact H2]); [right; exact H1|].
      destruct H1 as [->|H1]; [|exact H1]. destruct H2 as [_ [z [Hz _]]]. congruence.
Qed.
Lemma observed_total X r skip cols : (forall c, In c cols -> exists x, X c r = Ok x) -> exists d, observed_cells X r skip cols = Ok d.
Proof.
  induction cols as [|c cols IH]; intros H; cbn [observed_cells]; [eauto|].
  destruct IH as [d Hd]; [intros c' Hc; apply H; right; exact Hc|]. destruct (zmem c skip); [eauto|].
  destruct (H c (or_introl eq_refl)) as [x ->]. cbn [rbind]. rewrite Hd. cbn [rbind]. eauto.
Qed.
Lemma tab_total n s c r : sinv n s -> In c (s_outs s) -> (0 <= r < Z.of_nat n)%Z -> exists x, tab (s_X s) c r = Ok x.
Proof.
  intros H Hc Hr. apply (si_X _ _ H) in Hc. apply in_dkeys_Some in Hc. destruct Hc as [l Hl]. unfold tab. rewrite Hl.
  pose proof (si_len _ _ H c l Hl) as L. unfold py_nth. destruct (Z.ltb_spec r 0) as [?|_]; [lia|].
  destruct (Z.leb_spec 0 r) as [_|?]; [|lia]. destruct (nth_error l (Z.to_nat r)) as [x|] eqn:E; [eauto|].
  apply nth_error_None in E. lia.
Qed.

(** Full statement: with [s_outs s] for [tl (s_outs s)].  What is missing is the first
    column, see C44_refuted. *)
Theorem C44_observed_partial : forall n s r T C, sinv n s -> (0 <= r < Z.of_nat n)%Z -> NoDup (dkeys C) ->
  exists C', state_populate s r T C = Ok C' /\ NoDup (dkeys C') /\
    (forall c v, dget c C = Some v -> dget c C' = Some v) /\
    (forall c v, dget c C = None -> (dget c C' = Some v <->
       In c (tl (s_outs s)) /\ ~ In c T /\ exists x, tab (s_X s) c r = Ok (Some x) /\ v = VCell (Some x))).
Proof.
  intros n s r T C H Hr HC. unfold state_populate. rewrite (sinv_n_rows _ _ H). cbn [rbind].
  unfold hypothetical. destruct (Z.leb_spec 0 r) as [_|?]; [|lia]. destruct (Z.ltb_spec r (Z.of_nat n)) as [_|?]; [|lia]. cbn [andb negb].
  assert (HN : NoDup (tl (s_outs s))) by (pose proof (si_nodup _ _ H) as HN; destruct (s_outs s); [constructor|inversion HN; assumption]).
  assert (Hi : forall c, In c (tl (s_outs s)) -> In c (s_outs s)) by (destruct (s_outs s); cbn; auto).
  unfold populate_from. destruct (observed_total (tab (s_X s)) r (T ++ dkeys C) (tl (s_outs s))) as [d Ed].
  { intros c Hc. apply (tab_total n s c r H (Hi c Hc) Hr). }
  rewrite Ed. cbn [rbind]. destruct (observed_get _ _ _ _ _ Ed HN) as [A B]. eexists. split; [reflexivity|].
  unfold merged.
  assert (G : forall c, dget c (dupdate (dupdate [] C) d) = match dget c d with Some v => Some v | None => dget c C end).
  { intros c. rewrite dupdate_get by exact A. destruct (dget c d); [reflexivity|]. rewrite dupdate_get by exact HC.
    destruct (dget c C); reflexivity. }
  split; [apply dupdate_NoDup, dupdate_NoDup; constructor|]. split.
  - intros c v Hv. rewrite G. destruct (dget c d) as [u|] eqn:Eu; [|exact Hv]. apply B in Eu. destruct Eu as [_ [Eu _]].
    exfalso. apply Eu. apply in_or_app. right. eapply dget_Some_in; eauto.
  - intros c v Hv. rewrite G, Hv. split.
    + destruct (dget c d) as [u|] eqn:Eu; [|discriminate]. intros E. injection E as <-. apply B in Eu.
      destruct Eu as [E1 [E2 E3]]. split; [exact E1|]. split; [|exact E3]. intros Hc. apply E2. apply in_or_app. auto.
    + intros [E1 [E2 E3]]. assert (Eu : dget c d = Some v); [|rewrite Eu; reflexivity]. apply B. split; [exact E1|]. split; [|exact E3].
      intros Hc. apply in_app_or in Hc. destruct Hc as [Hc|Hc]; [exact (E2 Hc)|]. apply dget_None_notin in Hv. exact (Hv Hc).
Qed.
Print Assumptions C44_observed_partial.

(** A new row has no observed cells. *)
Theorem C44_new_row : forall n s r T C, sinv n s -> hypothetical (Z.of_nat n) r = true -> state_populate s r T C = Ok C.
Proof. intros n s r T C H Hr. unfold state_populate. rewrite (sinv_n_rows _ _ H). cbn [rbind]. rewrite Hr. reflexivity. Qed.
Print Assumptions C44_new_row.

(** ** C54: logpdf of composed variables on observed rows *)

(** A logpdf query on a row of the table with a target that is not a column raises, whatever
    the components. *)
Theorem C54_logpdf_raises : forall kd xd zd n cs acc r T C I, sinv n (cs_state cs) -> (0 <= r < Z.of_nat n)%Z ->
  (exists c, In c (dkeys T) /\ ~ In c (s_outs (cs_state cs))) ->
  exists e, composite_logpdf kd xd zd cs acc r T C I = Err e.
Proof.
  intros kd xd zd n cs acc r T C I H Hr [c [Hc Hn]]. unfold composite_logpdf, state_validate.
  rewrite (sinv_n_rows _ _ H). cbn [rbind andb].
  unfold hypothetical. destruct (Z.leb_spec 0 r) as [_|?]; [|lia]. destruct (Z.ltb_spec r (Z.of_nat n)) as [_|?]; [|lia]. cbn [andb negb].
  assert (G : forall l, In c l -> rany (fun q => rbind (is_nan_at (tab (s_X (cs_state cs))) q r) (fun b => Ok (negb b))) l = Ok true \/
    exists e, rany (fun q => rbind (is_nan_at (tab (s_X (cs_state cs))) q r) (fun b => Ok (negb b))) l = Err e).
  { induction l as [|q l IH]; [intros []|]. intros Hq. cbn [rany].
    destruct (rbind (is_nan_at _ q r) (fun b => Ok (negb b))) as [b|e] eqn:Eq; cbn [rbind]; [|eauto]. destruct b; [auto|].
    destruct Hq as [->|Hq]; [|auto]. exfalso. unfold is_nan_at, tab in Eq.
    destruct (dget c (s_X (cs_state cs))) as [l0|] eqn:El; [|discriminate]. apply Hn. apply (si_X _ _ H). eapply dget_Some_in; eauto. }
  destruct (G (dkeys T) Hc) as [->|[e ->]]; cbn [rbind]; eauto.
Qed.
Print Assumptions C54_logpdf_raises.

(** ** Cases *)

(** The two-view state of P13 with a component that outputs variable 50 and copies its
    input, column 0, into it. *)
From Verif Require Import P12_ViewQuery P13_StateQuery GammaWitness Classes LogSpaceFacts.
Definition copycat : foreign := Foreign (Sig [50%Z] [0%Z]) (fun _ _ _ => Ok (Fin 0))
  (fun _ _ _ _ inputs => match dget 0%Z inputs with Some v => Ok [(50%Z, v)] | None => Err KeyError end).

Section Case.
  Context (lgam : R -> R).
  Definition plain : cstate := CState (sx lgam) [] first_token false.
  Definition coupled : cstate := CState (sx lgam) [(57481%Z, copycat)] 57482 true.

  Lemma plain_reach : creach plain.
  Proof. apply (cr_new (sx lgam)); [exists [0; 1]%Z; reflexivity|reflexivity]. Qed.
  Lemma coupled_compose : compose plain copycat = (coupled, Ok 57481%Z).
  Proof. reflexivity. Qed.
  Lemma coupled_reach : creach coupled.
  Proof. exact (cr_compose _ _ _ _ plain_reach coupled_compose). Qed.

  (** A component with an output of the state, and one closing a cycle, are refused. *)
  Example C43_rejected_ex :
    snd (compose coupled (Foreign (Sig [2%Z] [50%Z]) (fun _ _ _ => Ok (Fin 0)) (fun _ _ _ _ _ => Ok []))) = Err ValueError /\
    snd (compose plain (Foreign (Sig [60%Z] [60%Z]) (fun _ _ _ => Ok (Fin 0)) (fun _ _ _ _ _ => Ok []))) = Err ValueError.
  Proof. split; reflexivity. Qed.
  Example C43_removed_ex : wf coupled /\ In 57481%Z (dkeys (cs_hooked coupled)) /\ ~ In 3%Z (dkeys (cs_hooked coupled)) /\
    decompose coupled 57481 = (CState (sx lgam) [] 57482 false, Ok tt).
  Proof.
    split; [apply C43_wellformed, coupled_reach|]. split; [left; reflexivity|]. split; [cbn; lia|]. reflexivity.
  Qed.
  (** Hypotheses of C43_state_change, from the state to itself. *)
  Example C43_state_change_ex : sinv 3 (sx lgam) /\
    (forall v, In v (dkeys (s_views (sx lgam))) -> ~ In (crp_id_view + v)%Z (s_outs (sx lgam))) /\
    (forall t f x, In (t, f) (cs_hooked coupled) -> In x (g_outputs (f_sig f)) ->
      forall v, In v (dkeys (s_views (sx lgam))) -> x <> (crp_id_view + v)%Z).
  Proof.
    split; [apply sx_inv|]. split.
    - intros v Hv. cbn in Hv. unfold sx. cbn [s_outs In]. unfold crp_id_view. lia.
    - intros t f x [E|[]] Hx v Hv. injection E as <- <-. cbn in Hx, Hv. unfold crp_id_view. lia.
  Qed.
  (** Hypotheses of C44_observed_partial and C54: row 0 with target 50. *)
  Example C44_ex : sinv 3 (sx lgam) /\ (0 <= 0 < Z.of_nat 3)%Z /\ tab (s_X (sx lgam)) 0%Z 0%Z = Ok (Some 3) /\
    (exists c, In c (dkeys [(50%Z, VCell (Some 3))]) /\ ~ In c (s_outs (cs_state coupled))).
  Proof.
    split; [apply sx_inv|]. split; [cbn; lia|]. split; [reflexivity|]. exists 50%Z. split; [left; reflexivity|]. cbn. lia.
  Qed.

  (** The network of view 0 and the whole network, with components known by their results. *)
  Lemma view_run lp sim w x (draw : nat -> list ext -> nat) :
    lp 0%nat 0%Z [(10000000%Z, VClus 0)] [] = Ok (Fin w) ->
    sim 0%nat 1%Z [0%Z] [] [(10000000%Z, VClus 0)] = Ok [(0%Z, VCell (Some x))] ->
    simulate_n [Sig [10000000%Z] []; Sig [0%Z] [10000000%Z]; Sig [1%Z] [10000000%Z]] [0; 1; 2]%Z lp sim draw 1
      [0%Z] [(10000000%Z, VClus 0)] [] 1 = Ok [[(0%Z, VCell (Some x))]].
  Proof. intros H1 H2. lazy -[Rplus]. rewrite H1. lazy -[Rplus]. rewrite H2. reflexivity. Qed.
  Lemma coupled_run lp sim x (draw : nat -> list ext -> nat) :
    sim 0%nat 0%Z [0%Z] [] [] = Ok [(0%Z, VCell (Some x))] ->
    sim 0%nat 2%Z [50%Z] [] [(0%Z, VCell (Some x))] = Ok [(50%Z, VCell (Some x))] ->
    simulate_n [Sig [10000000; 0; 1]%Z []; Sig [10000001; 2]%Z []; Sig [50%Z] [0%Z]] [0; 1; 2]%Z lp sim draw 1
      [50%Z] [] [] 1 = Ok [[(50%Z, VCell (Some x))]].
  Proof. intros H1 H2. lazy -[Rplus]. rewrite H1. lazy -[Rplus]. rewrite H2. reflexivity. Qed.

  (** Column 0 of row 0 was observed to be 3, yet variable 50 of that row is sampled as
      whatever number the generator gives column 0. *)
  Lemma coupled_sample kd zd draws x :
    composite_simulate kd (fun _ _ _ _ _ _ => Ok x) zd coupled draws 1 0 [50%Z] [] [] 1 = Ok [[(50%Z, VCell (Some x))]].
  Proof.
    unfold composite_simulate.
    change (state_validate (cs_state coupled) 0 true [50%Z] (to_cells [])) with (Ok tt : res unit). cbn [rbind].
    change (state_populate (cs_state coupled) 0 [50%Z] []) with (Ok [] : res (dict val)). cbn [rbind].
    change (build_network coupled) with (Ok [0; 1; 2]%Z). cbn [rbind].
    change (build_cgpms (cs_state coupled) (cs_hooked coupled)) with
      [Sig [10000000; 0; 1]%Z []; Sig [10000001; 2]%Z []; Sig [50%Z] [0%Z]].
    apply coupled_run; [|reflexivity]. unfold member_simulate.
    change (member_at coupled 0) with (InView (qx_v lgam)). cbv iota beta.
    unfold vquery_simulate_N, vquery_simulate.
    change (view_populate (tab (s_X (cs_state coupled))) (qx_v lgam) 0 true [0%Z] []) with
      (Ok [(10000000%Z, VClus 0)] : res (dict val)). cbn [rbind].
    change (v_hypothetical (qx_v lgam) 0) with false. cbv iota.
    change (dmem (v_out (qx_v lgam)) [(10000000%Z, VClus 0)]) with true. cbv iota.
    unfold net_simulate. change (network_init (view_sigs (qx_v lgam))) with (Ok [0; 1; 2]%Z). cbn [rbind].
    change (view_sigs (qx_v lgam)) with [Sig [10000000%Z] []; Sig [0%Z] [10000000%Z]; Sig [1%Z] [10000000%Z]].
    erewrite view_run with (x := x).
    - reflexivity.
    - unfold component_logpdf. cbn [Z.eqb]. change (crp_logpdf (v_crp (qx_v lgam)) norow 0) with
        (rbind (plog 2) (fun a => rbind (plog (3 + 1)) (fun b => Ok (Fin (a - b))))).
      unfold plog. rewrite !(proj2 (Rltb_true _ _)) by lra. reflexivity.
    - reflexivity.
  Qed.
End Case.

(** C44 is false: a composite, a row whose first column was observed and is the only input
    of the target, and two answers that differ although the observation fixes it. *)
Theorem C44_refuted : exists n cs r c x, creach cs /\ sinv n (cs_state cs) /\ (0 <= r < Z.of_nat n)%Z /\
  In c (s_outs (cs_state cs)) /\ tab (s_X (cs_state cs)) c r = Ok (Some x) /\
  (exists C', state_populate (cs_state cs) r [50%Z] [] = Ok C' /\ dget c C' = None) /\
  (forall y kd zd draws, composite_simulate kd (fun _ _ _ _ _ _ => Ok y) zd cs draws 1 r [50%Z] [] [] 1 =
     Ok [[(50%Z, VCell (Some y))]]).
Proof.
  exists 3%nat, (coupled lgam_w), 0%Z, 0%Z, 3. split; [apply coupled_reach|]. split; [apply sx_inv|]. split; [cbn; lia|].
  split; [left; reflexivity|]. split; [reflexivity|]. split; [exists []; split; reflexivity|].
  intros y kd zd draws. apply coupled_sample.
Qed.
Print Assumptions C44_refuted.

(** C54 is false: the query of the composed variable raises on row 0 and is answered on a
    new row. *)
Definition stub : foreign := Foreign (Sig [50%Z] []) (fun _ _ _ => Ok (Fin 0)) (fun _ _ _ _ _ => Ok [(50%Z, VCell (Some 0))]).
Definition stubbed : cstate := CState (sx lgam_w) [(57481%Z, stub)] 57482 true.
Lemma stub_run lp sim (x : val) : lp 0%nat 2%Z [(50%Z, x)] [] = Ok (Fin 0) ->
  exists l, network_logpdf [Sig [10000000; 0; 1]%Z []; Sig [10000001; 2]%Z []; Sig [50%Z] []] [0; 1; 2]%Z lp sim 1
    [(50%Z, x)] [] [] = Ok l.
Proof.
  intros H. unfold network_logpdf.
  replace (particles _ _ _ _ 0 1 [] (merged [(50%Z, x)] []) []) with (Ok [([(50%Z, x)], eadd (eadd (eadd (Fin 0) (Fin 0)) (Fin 0)) (Fin 0))]).
  2:{ symmetry. lazy -[eadd]. rewrite H. reflexivity. }
  cbn [rbind map snd]. rewrite logmeanexp_logw; [|discriminate|repeat constructor].
  cbn [rbind is_nil forallb eisinf andb]. rewrite logmeanexp_logw; [|discriminate|repeat constructor]. cbn [rbind]. eauto.
Qed.
Theorem C54_refuted : exists n cs T, creach cs /\ sinv n (cs_state cs) /\
  forall kd xd zd, (forall r, (0 <= r < Z.of_nat n)%Z -> exists e, composite_logpdf kd xd zd cs 1 r T [] [] = Err e) /\
    exists l, composite_logpdf kd xd zd cs 1 (Z.of_nat n) T [] [] = Ok l.
Proof.
  exists 3%nat, stubbed, [(50%Z, VCell (Some 3))]. split.
  { apply (cr_compose (plain lgam_w) stub _ (Ok 57481%Z)); [apply plain_reach|reflexivity]. }
  split; [apply sx_inv|]. intros kd xd zd. split.
  - intros r Hr. apply (C54_logpdf_raises kd xd zd 3); [apply sx_inv|exact Hr|]. exists 50%Z. split; [left; reflexivity|cbn; lia].
  - unfold composite_logpdf. change (state_validate (cs_state stubbed) (Z.of_nat 3) false (dkeys [(50%Z, VCell (Some 3))]) (to_cells []))
      with (Ok tt : res unit). cbn [rbind].
    change (state_populate (cs_state stubbed) (Z.of_nat 3) (dkeys [(50%Z, VCell (Some 3))]) []) with (Ok [] : res (dict val)).
    cbn [rbind]. change (build_network stubbed) with (Ok [0; 1; 2]%Z). cbn [rbind].
    change (build_cgpms (cs_state stubbed) (cs_hooked stubbed)) with
      [Sig [10000000; 0; 1]%Z []; Sig [10000001; 2]%Z []; Sig [50%Z] []].
    apply stub_run. reflexivity.
Qed.
Print Assumptions C54_refuted.
