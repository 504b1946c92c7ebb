(** Facts about the importance network. *)
From Verif Require Export Importance NetworkFacts LogSpaceFacts.
Local Open Scope Z_scope.

(* ------------------------------------------------------------------ *)
(** Dictionaries up to the order of their entries. *)

Definition deq {V} (a b : dict V) : Prop := forall k, dget k a = dget k b.

Lemma dupdate_get {V} (e : dict V) : forall d k, NoDup (dkeys e) ->
  dget k (dupdate d e) = match dget k e with Some v => Some v | None => dget k d end.
Proof.
  unfold dupdate. induction e as [|[x v] e IH]; intros d k Hnd; [reflexivity|].
  simpl in Hnd. inversion Hnd as [|? ? Hx Hnd']; subst. cbn [fold_left fst snd]. rewrite IH by exact Hnd'.
  simpl. destruct (Z.eqb_spec k x) as [E|Hn].
  - subst x. rewrite (proj2 (dget_None_notin k e) Hx). apply dget_dset_same.
  - destruct (dget k e); [reflexivity|]. apply dget_dset_other. exact Hn.
Qed.

Lemma dupdate_NoDup {V} (e : dict V) : forall d, NoDup (dkeys d) -> NoDup (dkeys (dupdate d e)).
Proof.
  unfold dupdate. induction e as [|[x v] e IH]; intros d Hd; [exact Hd|]. cbn [fold_left]. apply IH.
  apply NoDup_dset. exact Hd.
Qed.

(** Later entries win. *)
Lemma dupdate_app_get {V} (a b : dict V) d k : NoDup (dkeys a) -> NoDup (dkeys b) ->
  dget k (dupdate d (a ++ b)) =
  match dget k b with Some v => Some v | None => match dget k a with Some v => Some v | None => dget k d end end.
Proof.
  intros Ha Hb. unfold dupdate. rewrite fold_left_app. fold (dupdate d a). fold (dupdate (dupdate d a) b).
  rewrite dupdate_get by exact Hb. rewrite dupdate_get by exact Ha. reflexivity.
Qed.

Lemma dkeys_filter {V} (f : Z -> bool) (d : dict V) : dkeys (filter (fun ex => f (fst ex)) d) = filter f (dkeys d).
Proof. induction d as [|[k v] d IH]; simpl; [reflexivity|]. destruct (f k); simpl; rewrite IH; reflexivity. Qed.

Lemma dget_filter {V} (f : Z -> bool) (d : dict V) k :
  dget k (filter (fun ex => f (fst ex)) d) = if f k then dget k d else None.
Proof.
  induction d as [|[x v] d IH]; simpl; [destruct (f k); reflexivity|].
  destruct (f x) eqn:Ef; simpl.
  - destruct (Z.eqb_spec k x) as [->|Hn]; [rewrite Ef; reflexivity|exact IH].
  - rewrite IH. destruct (Z.eqb_spec k x) as [->|Hn]; [rewrite Ef; reflexivity|reflexivity].
Qed.

Lemma same_set_spec a b : same_set a b = true <-> forall x, In x a <-> In x b.
Proof.
  unfold same_set. rewrite andb_true_iff, !forallb_forall. split.
  - intros [H1 H2] x. split; intros H; [apply H1 in H|apply H2 in H]; apply zmem_in; exact H.
  - intros H. split; intros x Hx; apply zmem_in, H; exact Hx.
Qed.

Lemma is_nil_true {A} (l : list A) : is_nil l = true <-> l = [].
Proof. destruct l; simpl; split; congruence. Qed.

(* ------------------------------------------------------------------ *)
(** One weighted sample. *)

Section Sample.
  Context {V : Type}.
  Variables (cgpms : list sig) (topo : list Z).
  Hypothesis Hdis : disjoint_outputs cgpms.
  Hypothesis Hg : good_topo cgpms topo.
  Variables (targets : list Z) (constraints inputs : dict V).

  Notation produced v := (exists i, output_of cgpms i v).
  Notation need := (needed cgpms targets (dkeys constraints)).

  (** An admissible query: targets are outputs and are not constrained, and the
      needed variables that no component outputs are given. *)
  Record admissible : Prop := {
    ad_constraints : NoDup (dkeys constraints);
    ad_inputs : NoDup (dkeys inputs);
    ad_targets : forall t, In t targets -> produced t /\ ~ In t (dkeys constraints);
    ad_extraneous : forall x, need x -> ~ produced x -> In x (dkeys inputs) \/ In x (dkeys constraints)
  }.
  Hypothesis Had : admissible.

  Definition ta : list Z := targets_all cgpms topo targets (dkeys constraints).

  Lemma extraneous_in x : In x (extraneous_inputs cgpms (variable_to_cgpm cgpms)) ->
    ~ produced x.
  Proof.
    unfold extraneous_inputs. rewrite in_concat. intros [l [Hl Hx]]. apply in_map_iff in Hl.
    destruct Hl as [c [<- Hc]]. apply filter_In in Hx. destruct Hx as [_ Hx]. apply negb_true_iff in Hx.
    intros [i Hi]. apply (variable_to_cgpm_get cgpms Hdis) in Hi. apply dmem_false_None in Hx. congruence.
  Qed.
  Lemma extraneous_needed x : need x -> ~ In x targets ->
    ~ In x (extraneous_inputs cgpms (variable_to_cgpm cgpms)) -> produced x.
  Proof.
    intros Hn Ht Hx. destruct Hn as [t H|c o i Hc Ho Hn Hi]; [contradiction|].
    destruct (dget i (variable_to_cgpm cgpms)) as [j|] eqn:E; [exists j; apply variable_to_cgpm_get; assumption|].
    exfalso. apply Hx. unfold extraneous_inputs. apply in_concat. eexists. split; [apply in_map; exact Hc|].
    apply filter_In. split; [exact Hi|]. apply negb_true_iff, dmem_false. intros Hk.
    apply in_dkeys_Some in Hk. destruct Hk as [v Hv]. congruence.
  Qed.

  Lemma ta_spec x : In x ta <-> (need x /\ produced x /\ ~ In x (dkeys constraints)).
  Proof.
    unfold ta, targets_all. rewrite in_app_iff.
    destruct (required_spec cgpms topo targets (dkeys constraints) Hg (extraneous_inputs cgpms (variable_to_cgpm cgpms)))
      as [_ Hr]. rewrite Hr. split.
    - intros [H|[H1 [H2 [H3 H4]]]].
      + destruct (ad_targets Had x H). split; [apply need_target; exact H|auto].
      + split; [exact H1|]. split; [|exact H3]. apply extraneous_needed; assumption.
    - intros [H1 [H2 H3]]. destruct (in_dec Z.eq_dec x targets) as [Hin|Hnin]; [left; exact Hin|right].
      repeat split; auto. intros He. apply (extraneous_in x He H2).
  Qed.

  (** The state of the loop when the components [done] have been invoked. *)
  Definition winv (done : list Z) (sample : dict V) : Prop :=
    NoDup (dkeys sample) /\
    (forall k v, dget k constraints = Some v -> dget k sample = Some v) /\
    (forall k, In k (dkeys sample) <->
       In k (dkeys constraints) \/ (In k ta /\ exists i, In i done /\ output_of cgpms i k)).

  Lemma winv_init : winv [] constraints.
  Proof.
    split; [apply (ad_constraints Had)|]. split; [auto|]. intros k. split; [auto|].
    intros [H|[_ [i [[] _]]]]. exact H.
  Qed.

  Lemma ct_in l k : In k (cgpm_targets cgpms l ta) <-> In k ta /\ In k (g_outputs (sig_at cgpms l)).
  Proof. unfold cgpm_targets. rewrite filter_In, zmem_in. reflexivity. Qed.

  Section Step.
    Variables (done : list Z) (l : Z) (rest : list Z) (sample : dict V).
    Hypothesis Et : topo = done ++ l :: rest.
    Hypothesis Hw : winv done sample.

    Lemma l_range : 0 <= l < Z.of_nat (length cgpms).
    Proof.
      apply in_indices. apply (Permutation_in l (proj1 Hg)). rewrite Et. apply in_app_iff. right; left; reflexivity.
    Qed.
    Lemma l_fresh i k : In i done -> output_of cgpms i k -> ~ In k (g_outputs (sig_at cgpms l)).
    Proof.
      intros Hi Ho Hk. assert (i = l) by (apply (Hdis i l k Ho); split; [apply l_range|exact Hk]). subst i.
      destruct (good_topo_NoDup _ _ Hg) as [Hnd _]. rewrite Et in Hnd. apply NoDup_remove_2 in Hnd.
      apply Hnd. apply in_app_iff. left; exact Hi.
    Qed.
    Lemma before_done i : before i l topo -> In i done.
    Proof.
      intros [l1 [l2 [E Hi]]]. destruct (good_topo_NoDup _ _ Hg) as [Hnd _]. rewrite Et in E, Hnd.
      assert (done = l1); [|subst; exact Hi]. clear -E Hnd. revert l1 E. induction done as [|y d IH]; intros l1 E.
      - destruct l1 as [|z l1]; [reflexivity|]. simpl in E. injection E as -> E. simpl in Hnd. inversion Hnd; subst.
        exfalso. apply H1. apply in_app_iff. right; left; reflexivity.
      - destruct l1 as [|z l1]; simpl in E.
        + injection E as -> E. simpl in Hnd. inversion Hnd; subst. exfalso. apply H1.
          apply in_app_iff. right; left; reflexivity.
        + injection E as -> E. simpl in Hnd. inversion Hnd; subst. f_equal. apply IH; assumption.
    Qed.

    Lemma cc_get k : dget k (cgpm_constraints cgpms l sample) =
      if zmem k (g_outputs (sig_at cgpms l)) then dget k constraints else None.
    Proof.
      unfold cgpm_constraints. rewrite (dget_filter (fun k => zmem k (g_outputs (sig_at cgpms l)))).
      destruct (zmem k (g_outputs (sig_at cgpms l))) eqn:E; [|reflexivity]. apply zmem_in in E.
      destruct Hw as [_ [H2 H3]]. destruct (dget k constraints) as [v|] eqn:Ek; [apply H2; exact Ek|].
      destruct (dget k sample) as [v|] eqn:Es; [|reflexivity].
      exfalso. assert (Hin : In k (dkeys sample)) by (eapply dget_Some_in; eauto). apply H3 in Hin.
      destruct Hin as [Hc|[_ [i [Hi Ho]]]].
      - apply in_dkeys_Some in Hc. destruct Hc; congruence.
      - eapply l_fresh; eauto.
    Qed.
    Lemma cc_NoDup : NoDup (dkeys (cgpm_constraints cgpms l sample)).
    Proof.
      unfold cgpm_constraints. rewrite (dkeys_filter (fun k => zmem k (g_outputs (sig_at cgpms l)))).
      apply NoDup_filter. apply Hw.
    Qed.

    Lemma l_active : cgpm_constraints cgpms l sample <> [] \/ cgpm_targets cgpms l ta <> [] ->
      active cgpms targets (dkeys constraints) l.
    Proof.
      intros [H|H].
      - destruct (cgpm_constraints cgpms l sample) as [|[k v] d] eqn:E; [congruence|].
        assert (Hk : dget k (cgpm_constraints cgpms l sample) = Some v).
        { apply dget_In_NoDup; [apply cc_NoDup|]. rewrite E. left; reflexivity. }
        rewrite cc_get in Hk. destruct (zmem k (g_outputs (sig_at cgpms l))) eqn:Ez; [|discriminate].
        apply zmem_in in Ez. exists k. split; [exact Ez|]. right. eapply dget_Some_in; eauto.
      - destruct (cgpm_targets cgpms l ta) as [|k d] eqn:E; [congruence|].
        assert (Hk : In k (cgpm_targets cgpms l ta)) by (rewrite E; left; reflexivity).
        apply ct_in in Hk. destruct Hk as [Hk Ho]. exists k. split; [exact Ho|]. left. apply ta_spec in Hk. apply Hk.
    Qed.

    Lemma ci_get k : dget k (cgpm_inputs cgpms l inputs sample) =
      if zmem k (g_inputs (sig_at cgpms l))
      then match dget k sample with Some v => Some v | None => dget k inputs end else None.
    Proof.
      set (f := fun k => zmem k (g_inputs (sig_at cgpms l))).
      change (cgpm_inputs cgpms l inputs sample) with (dupdate [] (filter (fun ex => f (fst ex)) (inputs ++ sample))).
      rewrite filter_app, dupdate_app_get.
      - rewrite !(dget_filter f). fold (f k). simpl. destruct (f k); [|reflexivity].
        destruct (dget k sample); [reflexivity|]. destruct (dget k inputs); reflexivity.
      - rewrite (dkeys_filter f). apply NoDup_filter. apply (ad_inputs Had).
      - rewrite (dkeys_filter f). apply NoDup_filter. apply Hw.
    Qed.

    (** The inputs of an active component: a variable some component outputs is
        already in the sample, another one is given. *)
    Lemma input_ready i : active cgpms targets (dkeys constraints) l -> In i (g_inputs (sig_at cgpms l)) ->
      (produced i /\ In i (dkeys sample)) \/
      (~ produced i /\ (In i (dkeys inputs) \/ In i (dkeys constraints)) /\ dget i sample = dget i constraints).
    Proof.
      intros [o [Ho Hn]] Hi.
      assert (Hne : need i) by (eapply need_input; eauto; apply sig_at_in, l_range).
      destruct Hw as [H1 [H2 H3]].
      destruct (dget i (variable_to_cgpm cgpms)) as [j|] eqn:E.
      - apply (variable_to_cgpm_get cgpms Hdis) in E. left. split; [exists j; exact E|]. apply H3.
        destruct (in_dec Z.eq_dec i (dkeys constraints)) as [Hc|Hc]; [left; exact Hc|right].
        split; [apply ta_spec; split; [exact Hne|]; split; [exists j; exact E|exact Hc]|].
        exists j. split; [|exact E]. apply before_done. eapply (proj2 Hg); [exact Hi|apply l_range|exact E].
      - assert (Hp : ~ produced i).
        { intros [j Hj]. apply (variable_to_cgpm_get cgpms Hdis) in Hj. congruence. }
        right. split; [exact Hp|]. split; [apply (ad_extraneous Had); assumption|].
        destruct (dget i constraints) as [v|] eqn:Ec; [apply H2; exact Ec|].
        destruct (dget i sample) as [v|] eqn:Es; [|reflexivity]. exfalso.
        assert (Hin : In i (dkeys sample)) by (eapply dget_Some_in; eauto). apply H3 in Hin.
        destruct Hin as [Hc|[_ [j [_ Hj]]]]; [apply in_dkeys_Some in Hc; destruct Hc; congruence|].
        apply Hp. exists j. exact Hj.
    Qed.

    Lemma ci_complete : active cgpms targets (dkeys constraints) l ->
      forall i, In i (g_inputs (sig_at cgpms l)) -> In i (dkeys (cgpm_inputs cgpms l inputs sample)).
    Proof.
      intros Ha i Hi.
      assert (exists v, dget i (cgpm_inputs cgpms l inputs sample) = Some v) as [v Hv]; [|eapply dget_Some_in; eauto].
      rewrite ci_get, (proj2 (zmem_in _ _) Hi).
      destruct (input_ready i Ha Hi) as [[_ Hs]|[_ [Hs Eq]]].
      - apply in_dkeys_Some in Hs. destruct Hs as [v ->]. exists v; reflexivity.
      - rewrite Eq. destruct (dget i constraints) as [v|] eqn:Ec; [exists v; reflexivity|].
        destruct Hs as [Hs|Hs]; [apply in_dkeys_Some in Hs; exact Hs|].
        apply in_dkeys_Some in Hs. destruct Hs; congruence.
    Qed.

    Lemma check_passes :
      (negb (is_nil (cgpm_constraints cgpms l sample)) || negb (is_nil (cgpm_targets cgpms l ta))) &&
      negb (forallb (fun i => dmem i (cgpm_inputs cgpms l inputs sample)) (g_inputs (sig_at cgpms l))) = false.
    Proof.
      apply andb_false_iff.
      destruct (is_nil (cgpm_constraints cgpms l sample)) eqn:E1;
        destruct (is_nil (cgpm_targets cgpms l ta)) eqn:E2; [left; reflexivity|right|right|right];
        apply negb_false_iff, forallb_forall; intros i Hi; apply dmem_in, ci_complete; auto; apply l_active;
        try (right; intros C; rewrite C in E2; discriminate);
        try (left; intros C; rewrite C in E1; discriminate).
    Qed.

    Lemma winv_step s : NoDup (dkeys s) -> (forall k, In k (dkeys s) <-> In k (cgpm_targets cgpms l ta)) ->
      winv (done ++ [l]) (dupdate sample s) /\
      (forall k, ~ In k (g_outputs (sig_at cgpms l)) -> dget k (dupdate sample s) = dget k sample).
    Proof.
      intros Hs Hk. destruct Hw as [H1 [H2 H3]]. split.
      - split; [apply dupdate_NoDup; exact H1|]. split.
        + intros k v Hv. rewrite dupdate_get by exact Hs.
          destruct (dget k s) as [v'|] eqn:E; [|apply H2; exact Hv].
          exfalso. assert (Hin : In k (dkeys s)) by (eapply dget_Some_in; eauto).
          apply Hk, ct_in in Hin. destruct Hin as [Hin _]. apply ta_spec in Hin.
          apply (proj2 (proj2 Hin)). eapply dget_Some_in; eauto.
        + intros k. assert (Hd : In k (dkeys (dupdate sample s)) <-> In k (dkeys sample) \/ In k (dkeys s)).
          { split.
            - intros H. apply in_dkeys_Some in H. destruct H as [v Hv]. rewrite dupdate_get in Hv by exact Hs.
              destruct (dget k s) eqn:E; [right|left]; eapply dget_Some_in; eauto.
            - intros H. assert (exists v, dget k (dupdate sample s) = Some v) as [v Hv]; [|eapply dget_Some_in; eauto].
              rewrite dupdate_get by exact Hs. destruct (dget k s) as [v|] eqn:E; [exists v; reflexivity|].
              destruct H as [H|H]; [apply in_dkeys_Some in H; exact H|]. apply in_dkeys_Some in H. destruct H; congruence. }
          rewrite Hd, H3, Hk, ct_in. split.
          * intros [[H|[Ht [i [Hi Ho]]]]|[Ht Ho]]; [left; exact H| |].
            -- right. split; [exact Ht|]. exists i. split; [apply in_app_iff; left; exact Hi|exact Ho].
            -- right. split; [exact Ht|]. exists l. split; [apply in_app_iff; right; left; reflexivity|].
               split; [apply l_range|exact Ho].
          * intros [H|[Ht [i [Hi Ho]]]]; [left; left; exact H|]. apply in_app_iff in Hi. destruct Hi as [Hi|[<-|[]]].
            -- left; right. split; [exact Ht|]. exists i; auto.
            -- right. split; [exact Ht|apply Ho].
      - intros k Hn. rewrite dupdate_get by exact Hs. destruct (dget k s) as [v|] eqn:E; [|reflexivity].
        exfalso. assert (Hin : In k (dkeys s)) by (eapply dget_Some_in; eauto). apply Hk, ct_in in Hin. apply Hn, Hin.
    Qed.
  End Step.

  Lemma winv_final sample : winv topo sample ->
    same_set (dkeys sample) (dkeys constraints ++ ta) = true.
  Proof.
    intros [_ [_ H3]]. apply same_set_spec. intros x. rewrite H3, in_app_iff. split; [tauto|].
    intros [H|H]; [left; exact H|right]. split; [exact H|]. apply ta_spec in H. destruct H as [_ [[i Hi] _]].
    exists i. split; [|exact Hi]. apply (Permutation_in i (Permutation_sym (proj1 Hg))). apply in_indices. apply Hi.
  Qed.

  (** The weight a component contributes, in terms of the final sample. *)
  Definition term (lp : Z -> dict V -> dict V -> res ext) (final : dict V) (l : Z) (w : ext) : Prop :=
    exists cc ci,
      NoDup (dkeys cc) /\
      (forall k, dget k cc = if zmem k (g_outputs (sig_at cgpms l)) then dget k constraints else None) /\
      ((cc = [] /\ w = Fin 0) \/
       (cc <> [] /\ lp l cc ci = Ok w /\
        (forall k, dget k ci = if zmem k (g_inputs (sig_at cgpms l))
           then match dget k final with Some v => Some v | None => dget k inputs end else None) /\
        (forall i, In i (g_inputs (sig_at cgpms l)) -> In i (dkeys ci)))).

  Section Run.
    Variable lp : Z -> dict V -> dict V -> res ext.
    Variable sim : Z -> list Z -> dict V -> dict V -> res (dict V).

    (** A component called with all its inputs and with targets returns exactly
        the targets, if it returns. *)
    Hypothesis Hsim : forall l T c i s, sim l T c i = Ok s -> NoDup (dkeys s) /\ forall k, In k (dkeys s) <-> In k T.

    (** A call of component [l] in which every declared input is present. *)
    Definition raised (e : exn) : Prop := exists l cc ct ci,
      In l topo /\ (forall i, In i (g_inputs (sig_at cgpms l)) -> In i (dkeys ci)) /\
      (lp l cc ci = Err e \/ sim l ct cc ci = Err e).

    Lemma weighted_loop_spec : forall rest done sample w, topo = done ++ rest -> winv done sample ->
      (exists final ws, weighted_loop id_ret id_bind cgpms lp sim rest ta inputs sample w = Ok (final, fold_left eadd ws w) /\
         winv topo final /\ Forall2 (term lp final) rest ws /\
         (forall k, (forall i, In i rest -> ~ output_of cgpms i k) -> dget k final = dget k sample)) \/
      (exists e, weighted_loop id_ret id_bind cgpms lp sim rest ta inputs sample w = Err e /\ raised e).
    Proof.
      induction rest as [|l rest IH]; intros done sample w Et Hw.
      - left. exists sample, []. rewrite app_nil_r in Et. subst done. repeat split; auto; apply Hw.
      - cbn [weighted_loop]. unfold mbind, id_bind, id_ret, invoke_cgpm.
        rewrite (check_passes done l rest sample Et Hw).
        set (cc := cgpm_constraints cgpms l sample). set (ct := cgpm_targets cgpms l ta).
        set (ci := cgpm_inputs cgpms l inputs sample).
        assert (Hlt : In l topo) by (rewrite Et; apply in_app_iff; right; left; reflexivity).
        assert (Hcomp : cc <> [] \/ ct <> [] -> forall i, In i (g_inputs (sig_at cgpms l)) -> In i (dkeys ci)).
        { intros H. apply (ci_complete done l rest sample Et Hw). apply (l_active done l rest sample Et Hw H). }
        destruct (if is_nil cc then Ok (Fin 0) else lp l cc ci) as [wl|e] eqn:El.
        2:{ right. exists e. split; [reflexivity|]. destruct cc eqn:Ec; [discriminate|]. rewrite <- Ec in *. simpl in El.
            exists l, cc, [], ci. split; [exact Hlt|]. split; [apply Hcomp; left; congruence|].
            left. rewrite Ec in El |- *. exact El. }
        unfold mbind, id_bind.
        assert (Hs : forall s, (if is_nil ct then Ok [] else sim l ct cc ci) = Ok s ->
                     NoDup (dkeys s) /\ forall k, In k (dkeys s) <-> In k ct).
        { intros s Es. destruct ct eqn:Ect; simpl in Es.
          - injection Es as <-. split; [constructor|]. intros k; reflexivity.
          - eapply Hsim; eauto. }
        destruct (if is_nil ct then Ok [] else sim l ct cc ci) as [s|e] eqn:Es.
        2:{ right. exists e. split; [reflexivity|]. destruct ct eqn:Ec; [discriminate|]. rewrite <- Ec in *. simpl in Es.
            exists l, cc, ct, ci. split; [exact Hlt|]. split; [apply Hcomp; right; congruence|].
            right. rewrite Ec in Es |- *. exact Es. }
        cbn [fst snd]. destruct (Hs s eq_refl) as [Hnd Hk].
        destruct (winv_step done l rest sample Et Hw s Hnd Hk) as [Hw' Hout].
        destruct (IH (done ++ [l]) (dupdate sample s) (eadd w wl)) as [[final [ws [E [Hf [Hws Hag]]]]]|Herr];
          [rewrite <- app_assoc; exact Et|exact Hw'| |right; exact Herr].
        left. exists final, (wl :: ws). split; [exact E|]. split; [exact Hf|]. split.
        + constructor; [|exact Hws]. exists cc, ci. split; [apply (cc_NoDup done l sample Hw)|].
          split; [apply (cc_get done l rest sample Et Hw)|].
          destruct (is_nil cc) eqn:En.
          * left. apply is_nil_true in En. injection El as <-. auto.
          * right. assert (Hne : cc <> []) by (intros C; rewrite C in En; discriminate).
            split; [exact Hne|]. split; [exact El|]. split; [|apply Hcomp; left; exact Hne].
            intros k. unfold ci. rewrite (ci_get done l sample Hw).
            destruct (zmem k (g_inputs (sig_at cgpms l))) eqn:Ek; [|reflexivity]. apply zmem_in in Ek.
            assert (Hact : active cgpms targets (dkeys constraints) l)
              by (apply (l_active done l rest sample Et Hw); left; exact Hne).
            assert (Hkeep : dget k final = dget k sample).
            { rewrite Hag; [apply Hout|].
              - intros Ho. assert (Hb : before l l topo).
                { eapply (proj2 Hg); [exact Ek|apply (l_range done l rest Et)|split; [apply (l_range done l rest Et)|exact Ho]]. }
                revert Hb. apply before_irrefl. apply (good_topo_NoDup _ _ Hg).
              - intros i Hi Ho.
                assert (Hb : In i done).
                { apply (before_done done l rest sample Et Hw). eapply (proj2 Hg); [exact Ek|apply (l_range done l rest Et)|exact Ho]. }
                destruct (good_topo_NoDup _ _ Hg) as [Hn _]. rewrite Et in Hn.
                apply NoDup_app_elim in Hn. destruct Hn as [_ [_ Hn]]. apply (Hn i Hb). right; exact Hi. }
            rewrite Hkeep. reflexivity.
        + intros k Hk'. rewrite Hag by (intros i Hi; apply Hk'; right; exact Hi).
          apply Hout. intros Ho. apply (Hk' l (or_introl eq_refl)). split; [apply (l_range done l rest Et)|exact Ho].
    Qed.

    Theorem weighted_sample_spec :
      (exists final ws, weighted_sample id_ret id_bind cgpms topo lp sim targets constraints inputs = Ok (final, esum ws) /\
         winv topo final /\ Forall2 (term lp final) topo ws) \/
      (exists e, weighted_sample id_ret id_bind cgpms topo lp sim targets constraints inputs = Err e /\ raised e).
    Proof.
      unfold weighted_sample. fold ta. unfold mbind, id_bind at 1.
      destruct (weighted_loop_spec topo [] constraints (Fin 0) eq_refl winv_init)
        as [[final [ws [E [Hf [Hws _]]]]]|[e [E Hr]]].
      - left. exists final, ws. rewrite E. cbn [fst]. rewrite winv_final by exact Hf. auto.
      - right. exists e. rewrite E. auto.
    Qed.
  End Run.
End Sample.

Lemma network_init_ok cgpms topo : network_init cgpms = Ok topo ->
  disjoint_outputs cgpms /\ good_topo cgpms topo.
Proof.
  unfold network_init. destruct (validate_cgpms cgpms) as [[]|e] eqn:E; [|discriminate]. simpl.
  apply validate_cgpms_ok in E. destruct E as [_ Hd]. intros H. split; [exact Hd|]. apply sort_good; assumption.
Qed.

(* ------------------------------------------------------------------ *)
(** simulate and logpdf. *)

Lemma project_spec {V} (sample : dict V) targets : (forall t, In t targets -> In t (dkeys sample)) ->
  exists d, project targets sample = Ok d /\ NoDup (dkeys d) /\
    forall k, dget k d = if zmem k targets then dget k sample else None.
Proof.
  induction targets as [|q ts IH]; intros H; simpl.
  - exists []. repeat split; constructor.
  - destruct IH as [d [E [Hn Hd]]]; [intros t Ht; apply H; right; exact Ht|].
    destruct (in_dkeys_Some q sample (H q (or_introl eq_refl))) as [v Ev]. rewrite Ev, E. simpl.
    exists (dset q v d). split; [reflexivity|]. split; [apply NoDup_dset; exact Hn|]. intros k.
    rewrite dget_dset, Hd. cbn [zmem existsb]. unfold zmem. simpl.
    destruct (Z.eqb_spec k q) as [Ek|Hk]; [subst k; simpl; symmetry; exact Ev|reflexivity].
Qed.

Lemma rsequence_err {A} (l : list (res A)) e : rsequence l = Err e -> exists i, nth_error l i = Some (Err e).
Proof.
  induction l as [|r l IH]; simpl; [discriminate|]. destruct r as [a|e']; simpl.
  - destruct (rsequence l) as [o|e'] eqn:E; [discriminate|]. simpl. intros H.
    destruct IH as [i Hi]; [congruence|]. exists (S i). exact Hi.
  - intros H. exists 0%nat. simpl. congruence.
Qed.

Lemma rsequence_length {A} (l : list (res A)) o : rsequence l = Ok o -> length o = length l.
Proof. intros H. apply rsequence_ok in H. rewrite H, map_length. reflexivity. Qed.

Lemma eisinf_logw x : logw x -> eisinf x = true <-> x = NInf.
Proof. destruct x; simpl; intros H; try contradiction; split; congruence. Qed.

Lemma all_ninf_sum l : Forall logw l -> (forallb eisinf l = true <-> Rsum (map lexp l) = 0%R).
Proof.
  induction 1 as [|x l Hx Hl IH]; [simpl; split; reflexivity|]. cbn [forallb map]. rewrite andb_true_iff, IH.
  unfold Rsum. cbn [fold_right]. fold (Rsum (map lexp l)).
  pose proof (Rsum_lexp_nonneg l). destruct x as [a| | |]; simpl in *; try contradiction.
  - pose proof (exp_pos a). split; [intros [F _]; discriminate|intros; exfalso; lra].
  - split; [intros [_ ->]; lra|intros; split; [reflexivity|lra]].
Qed.
