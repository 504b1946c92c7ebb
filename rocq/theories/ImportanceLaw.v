(** The sampling distribution of weighted samples over discrete components. *)
From Verif Require Export ImportanceFacts Prob.
Local Open Scope R_scope.

(** The entries of [d] at the keys [ks]. *)
Definition restrict {V} (ks : list Z) (d : dict V) : dict V :=
  flat_map (fun k => match dget k d with Some v => [(k, v)] | None => [] end) (nodup Z.eq_dec ks).

Lemma restrict_deq {V} ks (a b : dict V) : (forall k, In k ks -> dget k a = dget k b) -> restrict ks a = restrict ks b.
Proof.
  intros H. unfold restrict.
  assert (G : forall l, incl l ks ->
    flat_map (fun k => match dget k a with Some v => [(k, v)] | None => [] end) l =
    flat_map (fun k => match dget k b with Some v => [(k, v)] | None => [] end) l).
  { induction l as [|k l IH]; intros Hl; [reflexivity|]. simpl. rewrite (H k) by (apply Hl; left; reflexivity).
    rewrite IH by (intros x Hx; apply Hl; right; exact Hx). reflexivity. }
  apply G. intros x Hx. apply nodup_In in Hx. exact Hx.
Qed.

Lemma restrict_in {V} ks (d : dict V) k : In k (dkeys (restrict ks d)) <-> In k ks /\ exists v, dget k d = Some v.
Proof.
  unfold restrict, dkeys. rewrite in_map_iff. split.
  - intros [[k' v] [E H]]. simpl in E. subst k'. apply in_flat_map in H. destruct H as [x [Hx H]].
    apply nodup_In in Hx. destruct (dget x d) as [v'|] eqn:E; [|destruct H].
    destruct H as [H|[]]. injection H as <- <-. split; [exact Hx|exists v'; exact E].
  - intros [Hk [v Hv]]. exists (k, v). split; [reflexivity|]. apply in_flat_map. exists k.
    split; [apply nodup_In; exact Hk|]. rewrite Hv. left; reflexivity.
Qed.
Lemma restrict_NoDup {V} ks (d : dict V) : NoDup (dkeys (restrict ks d)).
Proof.
  unfold restrict. pose proof (NoDup_nodup Z.eq_dec ks) as Hn. induction (nodup Z.eq_dec ks) as [|k l IH]; [constructor|].
  inversion Hn as [|? ? Hk Hl]; subst. simpl. unfold dkeys. rewrite map_app.
  destruct (dget k d) as [v|]; simpl; [|apply IH; exact Hl]. constructor; [|apply IH; exact Hl].
  intros Hc. apply Hk. apply in_map_iff in Hc. destruct Hc as [[k' v'] [E H]]. simpl in E. subst k'.
  apply in_flat_map in H. destruct H as [x [Hx H]]. destruct (dget x d); [|destruct H]. destruct H as [H|[]].
  injection H as <- _. exact Hx.
Qed.
Lemma restrict_get {V} ks (d : dict V) k : dget k (restrict ks d) = if zmem k ks then dget k d else None.
Proof.
  destruct (dget k (restrict ks d)) as [v|] eqn:E.
  - apply dget_In in E. unfold restrict in E. apply in_flat_map in E. destruct E as [x [Hx H]].
    destruct (dget x d) as [v'|] eqn:E; [|destruct H]. destruct H as [H|[]]. injection H as <- <-.
    apply nodup_In in Hx. rewrite (proj2 (zmem_in _ _) Hx). symmetry; exact E.
  - apply dget_None_notin in E. destruct (zmem k ks) eqn:Ez; [|reflexivity]. apply zmem_in in Ez.
    destruct (dget k d) as [v|] eqn:Ed; [|reflexivity]. exfalso. apply E. apply restrict_in. eauto.
Qed.

Section Law.
  Context {V : Type}.
  Variable veqb : V -> V -> bool.
  Hypothesis veqb_spec : forall a b, veqb a b = true <-> a = b.

  (** The outputs [x] of a component take the values that [c] prescribes. *)
  Definition consistent (x c : dict V) : bool :=
    forallb (fun kv => match dget (fst kv) x with Some v => veqb v (snd kv) | None => true end) c.

  (** Total probability of the outcomes consistent with [c]. *)
  Definition mass (table : list (dict V * R)) (c : dict V) : R :=
    Rsum (map (fun xp => if consistent (fst xp) c then snd xp else 0) table).

  Variable cgpms : list sig.
  Variable lp : Z -> dict V -> dict V -> res ext.
  Variable sim : Z -> list Z -> dict V -> dict V -> prog (res (dict V)).
  (** The joint distribution of the outputs of component [l] given its inputs. *)
  Variable outcomes : Z -> dict V -> list (dict V * R).

  Definition okval (g : dict V -> R) (r : res (dict V)) : R := match r with Ok s => g s | Err _ => 0 end.

  (** [logpdf] and [simulate] of component [l] are the marginal and the
      conditional of its distribution. *)
  Record component (l : Z) : Prop := {
    co_nonneg : forall inp x p, In (x, p) (outcomes l inp) -> 0 <= p;
    co_keys : forall inp x p, In (x, p) (outcomes l inp) ->
      NoDup (dkeys x) /\ forall k, In k (dkeys x) <-> In k (g_outputs (sig_at cgpms l));
    co_total : forall inp, Rsum (map snd (outcomes l inp)) = 1;
    co_logpdf : forall c inp inp', deq inp inp' ->
      (forall i, In i (g_inputs (sig_at cgpms l)) -> In i (dkeys inp)) ->
      c <> [] -> NoDup (dkeys c) -> (forall k, In k (dkeys c) -> In k (g_outputs (sig_at cgpms l))) ->
      exists w, lp l c inp = Ok w /\ logw w /\ lexp w = mass (outcomes l inp') c;
    co_simulate : forall T c inp inp', deq inp inp' ->
      (forall i, In i (g_inputs (sig_at cgpms l)) -> In i (dkeys inp)) ->
      T <> [] -> (forall k, In k T -> In k (g_outputs (sig_at cgpms l))) ->
      NoDup (dkeys c) -> (forall k, In k (dkeys c) -> In k (g_outputs (sig_at cgpms l))) ->
      (forall k, In k T -> ~ In k (dkeys c)) ->
      surely (sim l T c inp) (fun r => exists s, r = Ok s /\ NoDup (dkeys s) /\ forall k, In k (dkeys s) <-> In k T) /\
      forall g, (forall a b, NoDup (dkeys a) -> NoDup (dkeys b) -> deq a b -> g a = g b) ->
        mass (outcomes l inp') c * expect (sim l T c inp) (okval g) =
        Rsum (map (fun xp => if consistent (fst xp) c then snd xp * g (restrict T (fst xp)) else 0) (outcomes l inp'))
  }.

  (** Sum over all outcomes of the components [rest] that are consistent with
      the constraints of the product of their probabilities times [g] of the
      values; each component reads its inputs from the values so far. *)
  Fixpoint joint (constraints : dict V) (rest : list Z) (env : dict V) (g : dict V -> R) : R :=
    match rest with
    | [] => g env
    | l :: rest' =>
        Rsum (map (fun xp => if consistent (fst xp) constraints
                             then snd xp * joint constraints rest' (dupdate env (fst xp)) g else 0)
          (outcomes l (restrict (g_inputs (sig_at cgpms l)) env)))
    end.

  Variable topo : list Z.
  Hypothesis Hdis : disjoint_outputs cgpms.
  Hypothesis Hg : good_topo cgpms topo.
  Hypothesis Hco : forall l, In l topo -> component l.
  Variables (targets : list Z) (constraints inputs : dict V).
  Hypothesis Had : admissible cgpms targets constraints inputs.

  Notation tall := (ta cgpms topo targets constraints).
  Notation produced v := (exists i, output_of cgpms i v).

  Definition agree (env sample : dict V) : Prop :=
    (forall k, In k (dkeys sample) -> dget k env = dget k sample) /\
    (forall k, ~ produced k -> dget k env = match dget k sample with Some v => Some v | None => dget k inputs end).

  Variable g : dict V -> R.
  Hypothesis Hgdep : forall a b, (forall k, In k targets \/ In k (dkeys constraints) -> dget k a = dget k b) -> g a = g b.

  Lemma joint_deq : forall rest a b, deq a b -> (forall l, In l rest -> In l topo) ->
    joint constraints rest a g = joint constraints rest b g.
  Proof.
    induction rest as [|l rest IH]; intros a b Hab Hl; simpl; [apply Hgdep; intros k _; apply Hab|].
    rewrite (restrict_deq (g_inputs (sig_at cgpms l)) a b) by (intros k _; apply Hab).
    apply Rsum_ext. intros [x p] Hx. cbn [fst snd].
    destruct (consistent x constraints); [|reflexivity]. f_equal. apply IH; [|intros; apply Hl; right; assumption].
    intros k. destruct (co_keys l (Hco l (Hl l (or_introl eq_refl))) _ x p Hx) as [Hnd _].
    rewrite !dupdate_get by exact Hnd. rewrite Hab. reflexivity.
  Qed.

  Lemma consistent_cc l done rest sample x : topo = done ++ l :: rest ->
    winv cgpms topo targets constraints done sample ->
    (forall k, In k (dkeys x) <-> In k (g_outputs (sig_at cgpms l))) ->
    consistent x (cgpm_constraints cgpms l sample) = consistent x constraints.
  Proof.
    intros Et Hw Hx. apply eq_true_iff_eq. unfold consistent. rewrite !forallb_forall.
    pose proof (cc_get cgpms topo Hdis Hg targets constraints done l rest sample Et Hw) as Hcc.
    pose proof (cc_NoDup cgpms topo targets constraints done l sample Hw) as Hnd.
    split; intros H [k v] Hin; cbn [fst snd].
    - destruct (dget k x) as [u|] eqn:E; [|reflexivity].
      assert (Ho : In k (g_outputs (sig_at cgpms l))) by (apply Hx; eapply dget_Some_in; eauto).
      specialize (Hcc k). rewrite (proj2 (zmem_in _ _) Ho) in Hcc.
      rewrite (dget_In_NoDup k v constraints) in Hcc by (auto; apply (ad_constraints _ _ _ _ Had)).
      apply dget_In in Hcc. specialize (H (k, v) Hcc). cbn [fst snd] in H. rewrite E in H. exact H.
    - specialize (Hcc k). rewrite (dget_In_NoDup k v _ Hnd Hin) in Hcc.
      destruct (zmem k (g_outputs (sig_at cgpms l))); [|discriminate].
      symmetry in Hcc. apply dget_In in Hcc. apply (H (k, v) Hcc).
  Qed.

  Lemma agree_outcome l done rest env sample x s : topo = done ++ l :: rest ->
    winv cgpms topo targets constraints done sample -> agree env sample ->
    NoDup (dkeys x) -> (forall k, In k (dkeys x) <-> In k (g_outputs (sig_at cgpms l))) ->
    consistent x constraints = true ->
    NoDup (dkeys s) -> (forall k, dget k s = if zmem k (cgpm_targets cgpms l tall) then dget k x else None) ->
    agree (dupdate env x) (dupdate sample s).
  Proof.
    intros Et Hw [A1 A2] Hnx Hx Hc Hns Hs. split.
    - intros k Hk. rewrite !dupdate_get by assumption. rewrite Hs.
      apply in_dkeys_Some in Hk. destruct Hk as [v Hv]. rewrite dupdate_get, Hs in Hv by assumption.
      destruct (zmem k (cgpm_targets cgpms l tall)) eqn:Ez.
      + destruct (dget k x) as [u|] eqn:E; [reflexivity|]. apply A1. eapply dget_Some_in; eauto.
      + destruct (dget k x) as [u|] eqn:E.
        * assert (Ho : In k (g_outputs (sig_at cgpms l))) by (apply Hx; eapply dget_Some_in; eauto).
          assert (Hks : In k (dkeys sample)) by (eapply dget_Some_in; eauto).
          destruct Hw as [W1 [W2 W3]]. apply W3 in Hks. destruct Hks as [Hkc|[_ [i [Hi Hoi]]]].
          -- apply in_dkeys_Some in Hkc. destruct Hkc as [c Ec]. rewrite (W2 k c Ec).
             unfold consistent in Hc. rewrite forallb_forall in Hc. specialize (Hc (k, c) (dget_In _ _ _ Ec)).
             cbn [fst snd] in Hc. rewrite E in Hc. apply veqb_spec in Hc. congruence.
          -- exfalso. eapply (l_fresh cgpms topo Hdis Hg done l rest Et); eauto.
        * apply A1. eapply dget_Some_in; eauto.
    - intros k Hk. rewrite !dupdate_get by assumption.
      assert (Hlr : (0 <= l < Z.of_nat (length cgpms))%Z) by (apply (l_range cgpms topo Hg done l rest Et)).
      assert (Ex : dget k x = None).
      { apply dget_None_notin. intros Hin. apply Hk. exists l. split; [exact Hlr|apply Hx; exact Hin]. }
      rewrite Ex, Hs, Ex. destruct (zmem k _); apply A2; exact Hk.
  Qed.

  Lemma agree_sample env sample s : NoDup (dkeys s) -> agree env sample ->
    (forall k, In k (dkeys s) -> produced k) -> agree (dupdate env s) (dupdate sample s).
  Proof.
    intros Hns [A1 A2] Hp. split.
    - intros k Hk. apply in_dkeys_Some in Hk. destruct Hk as [v Hv].
      rewrite !dupdate_get in * by assumption. destruct (dget k s); [reflexivity|]. apply A1. eapply dget_Some_in; eauto.
    - intros k Hk. rewrite !dupdate_get by assumption.
      destruct (dget k s) eqn:E; [|apply A2; exact Hk]. exfalso. apply Hk, Hp. eapply dget_Some_in; eauto.
  Qed.

  (** What is averaged: the exponentiated weight times [g]. *)
  Definition value (r : res (dict V * ext)) : R :=
    match r with
    | Ok (s, w) => if same_set (dkeys s) (dkeys constraints ++ tall) then lexp w * g s else 0
    | Err _ => 0
    end.

  Notation loop := (weighted_loop (@Ret) (@pbind) cgpms lp sim).

  Lemma mass_nil table : mass table [] = Rsum (map snd table).
  Proof. unfold mass. simpl. reflexivity. Qed.

  Lemma mass_ext table c c' : (forall x p, In (x, p) table -> consistent x c = consistent x c') -> mass table c = mass table c'.
  Proof. intros H. unfold mass. apply Rsum_ext. intros [x p] Hx. cbn [fst snd]. rewrite (H x p Hx). reflexivity. Qed.

  Lemma loop_law : forall rest done env sample w, topo = done ++ rest ->
    winv cgpms topo targets constraints done sample -> agree env sample -> logw w ->
    expect (loop rest tall inputs sample w) value = lexp w * joint constraints rest env g.
  Proof.
    induction rest as [|l rest IH]; intros done env sample w Et Hw Ha Hlw.
    - rewrite app_nil_r in Et. subst done. simpl.
      rewrite (winv_final cgpms topo Hdis Hg targets constraints inputs Had sample Hw). f_equal. apply Hgdep.
      intros k Hk. symmetry. apply Ha. destruct Hw as [_ [_ W3]]. apply W3.
      destruct Hk as [Hk|Hk]; [right|left; exact Hk].
      assert (Ht : In k tall) by (unfold ta, targets_all; apply in_app_iff; left; exact Hk).
      split; [exact Ht|]. destruct (ad_targets _ _ _ _ Had k Hk) as [[i Hi] _]. exists i. split; [|exact Hi].
      apply (Permutation_in i (Permutation_sym (proj1 Hg))). apply in_indices. apply Hi.
    - assert (Hl : In l topo) by (rewrite Et; apply in_app_iff; right; left; reflexivity).
      assert (Hrest : forall i, In i rest -> In i topo) by (intros i Hi; rewrite Et; apply in_app_iff; right; right; exact Hi).
      pose proof (Hco l Hl) as C.
      cbn [weighted_loop joint]. unfold mbind at 1. rewrite expect_bind. unfold invoke_cgpm.
      rewrite (check_passes cgpms topo Hdis Hg targets constraints inputs Had done l rest sample Et Hw).
      set (cc := cgpm_constraints cgpms l sample). set (ct := cgpm_targets cgpms l tall).
      set (ci := cgpm_inputs cgpms l inputs sample). set (inp := restrict (g_inputs (sig_at cgpms l)) env).
      assert (Hccnd : NoDup (dkeys cc)) by (apply (cc_NoDup cgpms topo targets constraints done l sample Hw)).
      assert (Hcco : forall k, In k (dkeys cc) -> In k (g_outputs (sig_at cgpms l))).
      { intros k Hk. apply in_dkeys_Some in Hk. destruct Hk as [v Hv]. unfold cc in Hv.
        rewrite (cc_get cgpms topo Hdis Hg targets constraints done l rest sample Et Hw) in Hv.
        destruct (zmem k (g_outputs (sig_at cgpms l))) eqn:E; [apply zmem_in; exact E|discriminate]. }
      assert (Hact : cc <> [] \/ ct <> [] -> active cgpms targets (dkeys constraints) l)
        by (apply (l_active cgpms topo Hdis Hg targets constraints inputs Had done l rest sample Et Hw)).
      assert (Hcomp : cc <> [] \/ ct <> [] -> forall i, In i (g_inputs (sig_at cgpms l)) -> In i (dkeys ci)).
      { intros H. apply (ci_complete cgpms topo Hdis Hg targets constraints inputs Had done l rest sample Et Hw). apply Hact. exact H. }
      assert (Hdeq : cc <> [] \/ ct <> [] -> deq ci inp).
      { intros H k. unfold ci, inp. rewrite (ci_get cgpms topo targets constraints inputs Had done l sample Hw), restrict_get.
        destruct (zmem k (g_inputs (sig_at cgpms l))) eqn:Ek; [|reflexivity]. apply zmem_in in Ek.
        destruct (input_ready cgpms topo Hdis Hg targets constraints inputs Had done l rest sample Et Hw k (Hact H) Ek)
          as [[_ Hk]|[Hnp _]].
        - rewrite (proj1 Ha k Hk). apply in_dkeys_Some in Hk. destruct Hk as [v ->]. reflexivity.
        - rewrite (proj2 Ha k Hnp). reflexivity. }
      assert (Hcons : forall x p, In (x, p) (outcomes l inp) -> consistent x cc = consistent x constraints).
      { intros x p Hx. apply (consistent_cc l done rest sample x Et Hw). apply (co_keys l C inp x p Hx). }
      (* the weight *)
      assert (exists wl, (if is_nil cc then Ok (Fin 0) else lp l cc ci) = Ok wl /\ logw wl /\
                lexp wl = mass (outcomes l inp) cc) as [wl [El [Hlwl Ewl]]].
      { destruct cc as [|kv cc'] eqn:Ecc.
        - exists (Fin 0). split; [reflexivity|]. split; [exact I|]. rewrite mass_nil, (co_total l C). simpl. apply exp_0.
        - rewrite <- Ecc in *. assert (Hne : cc <> []) by (rewrite Ecc; discriminate).
          replace (is_nil cc) with false by (rewrite Ecc; reflexivity).
          apply (co_logpdf l C cc ci inp); auto. }
      rewrite El.
      (* the value of continuing with the simulated outputs [s] *)
      assert (Hval : forall s, NoDup (dkeys s) -> (forall k, In k (dkeys s) <-> In k ct) -> forall w', logw w' ->
                expect (loop rest tall inputs (dupdate sample s) w') value =
                lexp w' * joint constraints rest (dupdate env s) g).
      { intros s Hns Hks w' Hw'. apply (IH (done ++ [l])).
        - rewrite <- app_assoc. exact Et.
        - apply (winv_step cgpms topo Hdis Hg targets constraints inputs Had done l rest sample Et Hw s Hns Hks).
        - apply agree_sample; auto. intros k Hk. apply Hks, ct_in in Hk. exists l.
          split; [apply (l_range cgpms topo Hg done l rest Et)|apply Hk].
        - exact Hw'. }
      (* an outcome contributes as its restriction to the targets *)
      assert (Hjoint : forall x p, In (x, p) (outcomes l inp) -> consistent x constraints = true ->
                joint constraints rest (dupdate env x) g = joint constraints rest (dupdate env (restrict ct x)) g).
      { intros x p Hx Hc. destruct (co_keys l C inp x p Hx) as [Hnx Hkx].
        assert (Hks : forall k, In k (dkeys (restrict ct x)) <-> In k ct).
        { intros k. rewrite restrict_in. split; [intros [H _]; exact H|]. intros H. split; [exact H|].
          apply in_dkeys_Some. apply Hkx. apply ct_in in H. apply H. }
        pose proof (Hval (restrict ct x) (restrict_NoDup ct x) Hks (Fin 0) I) as H1.
        assert (H2 : expect (loop rest tall inputs (dupdate sample (restrict ct x)) (Fin 0)) value =
                     lexp (Fin 0) * joint constraints rest (dupdate env x) g).
        { apply (IH (done ++ [l])).
          - rewrite <- app_assoc. exact Et.
          - apply (winv_step cgpms topo Hdis Hg targets constraints inputs Had done l rest sample Et Hw _ (restrict_NoDup ct x) Hks).
          - apply (agree_outcome l done rest env sample x (restrict ct x)); auto; [apply restrict_NoDup|].
            intros k. apply restrict_get.
          - exact I. }
        rewrite H1 in H2. simpl in H2. rewrite exp_0 in H2. lra. }
      transitivity (lexp w * Rsum (map (fun xp => if consistent (fst xp) cc
          then snd xp * joint constraints rest (dupdate env (restrict ct (fst xp))) g else 0) (outcomes l inp))).
      2:{ f_equal. apply Rsum_ext. intros [x p] Hx. cbn [fst snd]. rewrite (Hcons x p Hx).
          destruct (consistent x constraints) eqn:Ec; [|reflexivity]. rewrite (Hjoint x p Hx Ec). reflexivity. }
      destruct (is_nil ct) eqn:Ect.
      + apply is_nil_true in Ect. unfold mbind. cbn [pbind expect fst snd].
        rewrite (Hval []); [|constructor|intros k; rewrite Ect; reflexivity|apply logw_eadd; assumption].
        rewrite lexp_eadd by assumption. rewrite Ewl. unfold mass. rewrite Rmult_assoc. f_equal.
        rewrite Rmult_comm, <- Rsum_scal. apply Rsum_ext. intros [x p] Hx. cbn [fst snd].
        destruct (consistent x cc); [|ring]. rewrite Ect. unfold restrict. simpl. ring.
      + assert (Hne : ct <> []) by (intros E; rewrite E in Ect; discriminate).
        destruct (co_simulate l C ct cc ci inp) as [Hsure Hexp]; auto.
        { intros k Hk. apply ct_in in Hk. apply Hk. }
        { intros k Hk Hkc. apply ct_in in Hk. destruct Hk as [Hk _].
          apply (ta_spec cgpms topo Hdis Hg targets constraints inputs Had) in Hk. apply Hk.
          apply in_dkeys_Some in Hkc. destruct Hkc as [v Hv]. unfold cc in Hv.
          rewrite (cc_get cgpms topo Hdis Hg targets constraints done l rest sample Et Hw) in Hv.
          destruct (zmem k _); [|discriminate]. eapply dget_Some_in; eauto. }
        unfold mbind. rewrite expect_bind.
        rewrite (expect_ext _ _ (fun r => lexp (eadd w wl) * okval (fun s => joint constraints rest (dupdate env s) g) r) _ Hsure).
        2:{ intros r [s [-> [Hns Hks]]]. cbn [pbind expect fst snd okval]. apply Hval; auto. apply logw_eadd; assumption. }
        rewrite expect_scal, lexp_eadd by assumption. rewrite Ewl, Rmult_assoc. f_equal. apply Hexp.
        intros a b Hna Hnb Hab. apply joint_deq; [|exact Hrest]. intros k. rewrite !dupdate_get by assumption.
        rewrite Hab. reflexivity.
  Qed.

  Theorem weighted_sample_law :
    expect (weighted_sample (@Ret) (@pbind) cgpms topo lp sim targets constraints inputs)
      (fun r => match r with Ok (s, w) => lexp w * g s | Err _ => 0 end) =
    joint constraints topo (dupdate inputs constraints) g.
  Proof.
    unfold weighted_sample. fold tall. unfold mbind at 1. rewrite expect_bind.
    transitivity (expect (loop topo tall inputs constraints (Fin 0)) value).
    - apply expect_ext_all. intros [[s w]|e]; [|reflexivity]. cbn [fst value]. destruct (same_set _ _); reflexivity.
    - rewrite (loop_law topo [] (dupdate inputs constraints)).
      + simpl. rewrite exp_0. ring.
      + reflexivity.
      + apply (winv_init cgpms topo targets constraints inputs Had).
      + split; intros k Hk; rewrite dupdate_get by apply (ad_constraints _ _ _ _ Had).
        * apply in_dkeys_Some in Hk. destruct Hk as [v ->]. reflexivity.
        * reflexivity.
      + exact I.
  Qed.
End Law.

(* ------------------------------------------------------------------ *)
(** Components given by a finite table satisfy [component]. *)

Lemma Rsum_filter {A} (f : A -> bool) (h : A -> R) l :
  Rsum (map (fun x => if f x then h x else 0) l) = Rsum (map h (filter f l)).
Proof.
  unfold Rsum. induction l as [|x l IH]; [reflexivity|]. simpl. rewrite IH. destruct (f x); simpl; lra.
Qed.
Lemma Rsum_seq_nth {A} (F : A -> R) (l : list A) d :
  Rsum (map (fun i => F (nth i l d)) (seq 0 (length l))) = Rsum (map F l).
Proof.
  unfold Rsum. induction l as [|x l IH]; [reflexivity|]. simpl. rewrite <- seq_shift, map_map. simpl.
  rewrite IH. reflexivity.
Qed.
Lemma Rsum_zero_each l : Forall (fun x => 0 <= x) l -> Rsum l = 0 -> forall x, In x l -> x = 0.
Proof.
  induction 1 as [|y l Hy Hl IH]; [intros _ x []|]. unfold Rsum. simpl. fold (Rsum l). intros E x Hx.
  assert (0 <= Rsum l) by (clear -Hl; unfold Rsum; induction Hl; simpl; lra).
  destruct Hx as [<-|Hx]; [lra|apply IH; [lra|exact Hx]].
Qed.

Section Table.
  Context {V : Type}.
  Variable veqb : V -> V -> bool.
  Variable cgpms : list sig.
  Variable table : Z -> dict V -> list (dict V * R).

  Definition tlp (l : Z) (c inp : dict V) : res ext := Ok (log_of (mass veqb (table l inp) c)).
  Definition tsim (l : Z) (T : list Z) (c inp : dict V) : prog (res (dict V)) :=
    let filt := filter (fun xp => consistent veqb (fst xp) c) (table l inp) in
    if Reqb (mass veqb (table l inp) c) 0
    then Ret (Ok (restrict T (fst (nth 0 (table l inp) ([], 0)))))
    else pmap (fun i => Ok (restrict T (fst (nth i filt ([], 0))))) (flip (map snd filt)).

  Lemma table_component l :
    (forall inp inp', deq inp inp' -> table l inp = table l inp') ->
    (forall inp x p, In (x, p) (table l inp) -> 0 <= p) ->
    (forall inp x p, In (x, p) (table l inp) ->
      NoDup (dkeys x) /\ forall k, In k (dkeys x) <-> In k (g_outputs (sig_at cgpms l))) ->
    (forall inp, Rsum (map snd (table l inp)) = 1) ->
    component veqb cgpms tlp tsim table l.
  Proof.
    intros Hext Hpos Hkeys Htot.
    assert (Hmass : forall inp c, 0 <= mass veqb (table l inp) c).
    { intros inp c. unfold mass. rewrite Rsum_filter.
      assert (H : Forall (fun x => 0 <= x) (map snd (filter (fun xp => consistent veqb (fst xp) c) (table l inp)))).
      { apply Forall_forall. intros x Hx. apply in_map_iff in Hx. destruct Hx as [[y p] [<- Hy]].
        apply filter_In in Hy. eapply Hpos. apply Hy. }
      clear -H. unfold Rsum. induction H; simpl; lra. }
    split; auto.
    - intros c inp inp' Hd _ _ _ _. rewrite <- (Hext inp inp' Hd). eexists. split; [reflexivity|].
      split; [apply log_of_logw|]. apply lexp_log_of. apply Hmass.
    - intros T c inp inp' Hd _ HT HTo Hc Hco HTc. rewrite <- (Hext inp inp' Hd). clear inp' Hd.
      assert (Hr : forall x p, In (x, p) (table l inp) -> NoDup (dkeys (restrict T x)) /\ forall k, In k (dkeys (restrict T x)) <-> In k T).
      { intros x p Hx. split; [apply restrict_NoDup|]. intros k. rewrite restrict_in. split; [tauto|].
        intros H. split; [exact H|]. apply in_dkeys_Some. apply (Hkeys inp x p Hx). apply HTo. exact H. }
      assert (Hne : table l inp <> []).
      { intros E. specialize (Htot inp). rewrite E in Htot. simpl in Htot. lra. }
      unfold tsim. set (filt := filter (fun xp => consistent veqb (fst xp) c) (table l inp)).
      assert (Em : mass veqb (table l inp) c = Rsum (map snd filt)) by (unfold mass; apply Rsum_filter).
      assert (Eg : forall g, Rsum (map (fun xp => if consistent veqb (fst xp) c then snd xp * g (restrict T (fst xp)) else 0) (table l inp))
                 = Rsum (map (fun xp => snd xp * g (restrict T (fst xp))) filt)) by (intros g; apply Rsum_filter).
      destruct (Reqb (mass veqb (table l inp) c) 0) eqn:E0.
      + split.
        * simpl. destruct (table l inp) as [|[x p] tl] eqn:Et; [congruence|]. cbn [nth fst].
          eexists. split; [reflexivity|]. apply (Hr x p). left; reflexivity.
        * intros g _. apply Reqb_true in E0. rewrite E0, Rmult_0_l, Eg. symmetry. apply Rsum_zero.
          intros [x p] Hx. cbn [fst snd]. rewrite Em in E0.
          assert (Hz : p = 0); [|rewrite Hz; ring].
          apply (Rsum_zero_each (map snd filt)); [|exact E0|change p with (snd (x, p)); apply in_map; exact Hx].
          apply Forall_forall. intros y Hy. apply in_map_iff in Hy. destruct Hy as [[z q] [<- Hz]].
          apply filter_In in Hz. eapply Hpos. apply Hz.
      + assert (Hm : mass veqb (table l inp) c <> 0).
        { intros H. apply Reqb_true in H. congruence. }
        split.
        * unfold pmap, flip. cbn [pbind surely]. intros i Hi. rewrite map_length in Hi. eexists. split; [reflexivity|].
          destruct (nth i filt ([], 0)) as [x p] eqn:En. cbn [fst]. apply (Hr x p).
          assert (Hin : In (x, p) filt) by (rewrite <- En; apply nth_In; exact Hi).
          apply filter_In in Hin. apply Hin.
        * intros g _. rewrite expect_map, Eg. unfold flip. cbn [expect]. rewrite <- Rsum_scal.
          rewrite <- (Rsum_seq_nth (fun xp => snd xp * g (restrict T (fst xp))) filt ([], 0)), map_length.
          apply Rsum_ext. intros i Hi. cbn [okval]. 
          rewrite (map_nth snd filt ([], 0) i : nth i (map snd filt) 0 = _).
          rewrite Em in *. field. exact Hm.
  Qed.
End Table.
