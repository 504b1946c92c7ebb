(** Laws of the component classes. *)
From Verif Require Export Classes PrimLift.
Local Open Scope R_scope.

Lemma beta_ok x : 0 < x < 1 -> exists v, p_check (Beta (fun x => x)) x = Ok v.
Proof.
  intros H. simpl.
  assert (E : unit_inb (beta_clip x) = true); [|rewrite E; eauto].
  apply unit_inb_true. unfold beta_clip. destruct (allclose 0 x); [lra|].
  destruct (allclose 1 x); [lra|exact H].
Qed.

Lemma known_laws M : known M -> mlaws M (reach M).
Proof.
  intros H. destruct H; eapply mlaws_reach; try (eapply of_prim_laws).
  - apply bern_laws.
  - intros x Hx. exists x. apply bern_sup; exact Hx.
  - apply cat_laws.
  - intros x Hx. exists x. apply cat_sup; exact Hx.
  - apply geom_laws.
  - intros x Hx. exists x. apply geom_sup; exact Hx.
  - apply expo_laws.
  - intros x Hx. exists x. apply expo_sup; exact Hx.
  - apply pois_laws.
  - intros x Hx. exists x. apply pois_sup; exact Hx.
  - apply normal_laws.
  - intros x Hx. exists x. reflexivity.
  - apply lognormal_laws.
  - intros x Hx. exists x. apply lognormal_sup; exact Hx.
  - apply vm_laws.
  - intros x Hx. exists x. simpl. apply vm_inb_true in Hx. rewrite Hx. reflexivity.
  - apply beta_laws.
  - apply beta_ok.
  - apply nt_laws.
  - intros x Hx. exists x. apply nt_sup; exact Hx.
  - apply regression_laws; assumption.
Qed.

(** Chain rule of a collapsed class with hyperparameters [h]. *)
Definition mchain (M : model) (h : mH M) : Prop :=
  (forall q, m_score M (m_new M h q) = Ok (Fin 0)) /\
  (forall s r x l s' p, reach M s -> m_hyp M s = h ->
     m_inc M s r x l = (s', Ok tt) -> m_logpdf M s r x l = Ok p ->
     exists a b, m_score M s = Ok (Fin a) /\ m_score M s' = Ok (Fin b) /\
                 p = Fin (b - a)).

(** The score and the predictive density are always defined. *)
Definition mtotal (M : model) (h : mH M) : Prop :=
  (forall s r x l s', reach M s -> m_hyp M s = h -> m_inc M s r x l = (s', Ok tt) ->
     exists p, m_logpdf M s r x l = Ok p) /\
  (forall s, reach M s -> m_hyp M s = h -> exists a, m_score M s = Ok (Fin a)).

Lemma chain_prim P n hset okv spec qok h : plaws P okv spec ->
  (forall x, okv x -> exists v, p_check P x = Ok v) -> pchain P okv qok spec ->
  p_hok P h = true -> (forall q, qok q) ->
  (forall x v, p_check P x = Ok v -> v = x /\ p_inb P x = true) ->
  (forall q, p_score P h q (p_init P) = Ok (Fin 0)) ->
  mchain (of_prim P n hset) h /\ mtotal (of_prim P n hset) h.
Proof.
  intros HL Hok HC Hh Hq Hx H0. split; [split; [exact H0|]|split].
  2:{ intros s r x l s' Hs Hsh E.
    assert (Hi : pinv P okv spec s)
      by (eapply reach_good; [apply (of_prim_laws P okv spec n hset HL Hok)|exact Hs]).
    simpl in *. destruct l as [|y l]; [|discriminate].
    unfold prim_incorporate in E. unfold prim_logpdf.
    destruct (dmem r (p_data s)); [discriminate|].
    destruct (p_check P x) as [v|] eqn:Ec; [|discriminate].
    destruct (Hx x v Ec) as [-> Hb]. rewrite Hb. destruct Hi as [_ [Hf Hst]].
    destruct (HC h (p_par s) (dvals (p_data s)) x Hh (Hq _) Hf (l_check _ _ _ HL _ _ Ec))
      as [a [b [_ [_ E3]]]].
    rewrite Hst, Hsh. eauto. }
  2:{ intros s Hs Hsh.
    assert (Hi : pinv P okv spec s)
      by (eapply reach_good; [apply (of_prim_laws P okv spec n hset HL Hok)|exact Hs]).
    simpl in *. unfold prim_logpdf_score. destruct Hi as [_ [Hf Hst]]. rewrite Hst, Hsh.
    destruct (dvals (p_data s)) as [|v l] eqn:El.
    - rewrite (l_nil _ _ _ HL). exists 0. apply H0.
    - inversion Hf; subst.
      destruct (HC _ (p_par s) (v :: l) v Hh (Hq _) Hf) as [a [_ [E1 _]]]; [assumption|eauto]. }
  intros s r x l s' p Hs Hsh E Ep.
  assert (Hi : pinv P okv spec s)
    by (eapply reach_good; [apply (of_prim_laws P okv spec n hset HL Hok)|exact Hs]).
  simpl in *. destruct l as [|y l]; [|discriminate].
  unfold prim_incorporate in E. unfold prim_logpdf in Ep.
  destruct (dmem r (p_data s)); [discriminate|].
  destruct (p_check P x) as [v|] eqn:Ec; [|discriminate]. injection E as <-.
  destruct (Hx x v Ec) as [-> Hb]. rewrite Hb in Ep.
  destruct Hi as [_ [Hf Hst]].
  destruct (HC h (p_par s) (dvals (p_data s)) x Hh (Hq _) Hf (l_check _ _ _ HL _ _ Ec))
    as [a [b [E1 [E2 E3]]]].
  unfold prim_logpdf_score; simpl. rewrite Hst, Hsh in *. exists a, b.
  split; [exact E1|]. split; [exact E2|]. congruence.
Qed.

Lemma bern_score0 lgam h : p_score (Bernoulli lgam) h tt (p_init (Bernoulli lgam)) = Ok (Fin 0).
Proof.
  simpl. unfold bern_marginal. do 2 f_equal.
  replace (0 + fst h) with (fst h) by lra. replace (0 - 0 + snd h) with (snd h) by lra. lra.
Qed.

Lemma Rsum_repeat (f : Z -> R) k : Rsum (map f (repeat 0%Z k)) = INR k * f 0%Z.
Proof. induction k as [|k IH]; [simpl; lra|]. rewrite S_INR. simpl. rewrite IH. lra. Qed.

Lemma cat_score0 lgam k h :
  p_score (Categorical lgam k) h tt (p_init (Categorical lgam k)) = Ok (Fin 0).
Proof.
  simpl. unfold cat_marginal. do 2 f_equal. rewrite Rsum_repeat, repeat_length. simpl.
  replace (INR k * h + 0) with (INR k * h) by lra. replace (0 + h) with h by lra. lra.
Qed.

Lemma normal_score0 lgam h : nhyp_ok h = true -> normal_marginal lgam 0 0 0 h = Ok 0.
Proof.
  unfold nhyp_ok. rewrite !andb_true_iff, !Rltb_true. intros [[H1 H2] H3].
  unfold normal_marginal, normal_posterior.
  assert (E : n_s h + 0 + n_r h * n_m h * n_m h
      - (n_r h + 0) * ((n_r h * n_m h + 0) / (n_r h + 0)) * ((n_r h * n_m h + 0) / (n_r h + 0))
      = n_s h) by (field; lra).
  rewrite E. replace (Reqb (n_s h) 0) with false by (symmetry; apply Reqb_false; lra).
  unfold normal_log_Z. rewrite !plog_pos by lra. simpl. f_equal.
  replace (n_r h + 0) with (n_r h) by lra. replace (n_nu h + 0) with (n_nu h) by lra. lra.
Qed.

Lemma vm_an0 h : 0 < v_a h -> vm_an 0 0 h = v_a h.
Proof.
  intros H. unfold vm_an.
  replace ((v_k h * 0 + v_a h * cos (v_b h)) * (v_k h * 0 + v_a h * cos (v_b h)) +
    (v_k h * 0 + v_a h * sin (v_b h)) * (v_k h * 0 + v_a h * sin (v_b h)))
    with (v_a h * v_a h * (Rsqr (sin (v_b h)) + Rsqr (cos (v_b h)))) by (unfold Rsqr; ring).
  rewrite sin2_cos2, Rmult_1_r. apply sqrt_square. lra.
Qed.

Lemma pair_hok (h : R * R) : 0 < fst h -> 0 < snd h -> Rltb 0 (fst h) && Rltb 0 (snd h) = true.
Proof. rewrite andb_true_iff, !Rltb_true. tauto. Qed.
Lemma nhyp_hok h : 0 < n_r h -> 0 < n_s h -> 0 < n_nu h -> nhyp_ok h = true.
Proof. unfold nhyp_ok. rewrite !andb_true_iff, !Rltb_true. tauto. Qed.

Lemma vm_mchain lbes h : 0 < v_a h -> 0 < v_b h <= 2 * PI -> 0 < v_k h ->
  mchain (M_vonmises lbes) h.
Proof.
  intros Ha Hb Hk.
  assert (Hok : p_hok (Vonmises lbes) h = true).
  { simpl. rewrite !andb_true_iff, !Rltb_true, !Rleb_true. lra. }
  assert (HG : forall N, (0 <= N)%Z -> vm_guard N h = true).
  { intros N HN. unfold vm_guard. rewrite !andb_true_iff, !Rltb_true, !Rleb_true.
    apply Z.leb_le in HN. repeat split; try assumption; lra. }
  split.
  - intros []. simpl. unfold prim_logpdf_score; simpl. unfold vm_marginal.
    rewrite HG by lia. rewrite vm_an0 by exact Ha. unfold vm_log_Z.
    apply Rltb_true in Ha. rewrite Ha. simpl. do 2 f_equal. lra.
  - intros s r x l s' p Hs Hsh E Ep.
    assert (Hi : pinv (Vonmises lbes) (fun v => 0 <= v <= 2 * PI) (sum2_spec sin cos) s)
      by (eapply reach_good; [apply (of_prim_laws (Vonmises lbes) _ _ 3 hset_vm (vm_laws lbes)); intros y Hy; exists y; simpl; apply vm_inb_true in Hy; rewrite Hy; reflexivity|exact Hs]).
    simpl in *. destruct l as [|y l]; [|discriminate].
    unfold prim_incorporate in E. unfold prim_logpdf in Ep.
    destruct (dmem r (p_data s)); [discriminate|].
    cbn [p_check p_inb Vonmises] in *.
    destruct (vm_inb x) eqn:Ex; [|discriminate]. injection E as <-.
    destruct Hi as [_ [Hf Hst]].
    assert (HA : 0 < vm_an (Rsum (map sin (dvals (p_data s)))) (Rsum (map cos (dvals (p_data s)))) h /\
       0 < vm_an (Rsum (map sin (dvals (p_data s))) + sin x) (Rsum (map cos (dvals (p_data s))) + cos x) h).
    { rewrite Hst, Hsh in Ep. unfold sum2_spec in Ep. cbn [p_pred Vonmises] in Ep.
      unfold vm_predictive in Ep. destruct (vm_guard _ _); [|discriminate].
      unfold vm_log_Z in Ep.
      destruct (Rltb 0 (vm_an (Rsum (map sin (dvals (p_data s)))) _ h)) eqn:E1; [|discriminate].
      simpl in Ep.
      destruct (Rltb 0 (vm_an (_ + sin x) _ h)) eqn:E2; [|discriminate].
      apply Rltb_true in E1, E2. auto. }
    destruct (vm_chain lbes h (dvals (p_data s)) x Hok Hk (proj1 HA) (proj2 HA))
      as [a [b [E1 [E2 E3]]]].
    unfold prim_logpdf_score; simpl p_hyp; simpl p_par; simpl p_stats.
    destruct (p_par s). rewrite Hst, Hsh in *. exists a, b.
    split; [exact E1|]. split; [exact E2|]. congruence.
Qed.

Lemma impl_both (A B C : Prop) : A /\ B -> A /\ (C -> B).
Proof. tauto. Qed.

Lemma collapsed_both M h : collapsed M h ->
  mchain M h /\ ((forall lbes, M <> M_vonmises lbes) -> mtotal M h).
Proof.
  intros H. destruct H as [lgam h Hg H1 H2|lgam k h Hg H1 H2|lgam h H1 H2|lgam h H1 H2|lgam h H1 H2
    |lgam h H1 H2 H3|lgam h H1 H2 H3|lbes h H1 H2 H3].
  - eapply impl_both, chain_prim; [apply bern_laws|intros x Hx; exists x; apply bern_sup; exact Hx|apply bern_chain; exact Hg|apply pair_hok; assumption|exact (fun _ => I)| |].
    + intros x v. simpl. destruct (bern_inb x); [|discriminate]. intros E. injection E as <-. auto.
    + intros []. apply bern_score0.
  - eapply impl_both, chain_prim; [apply cat_laws|intros x Hx; exists x; apply cat_sup; exact Hx|apply cat_chain; exact Hg| |exact (fun _ => I)| |].
    + simpl. apply Rltb_true; exact H1.
    + intros x v. simpl. destruct (cat_inb k x) eqn:E; [|discriminate]. intros E'. injection E' as <-.
      split; [|reflexivity]. unfold cat_inb in E. rewrite !andb_true_iff in E.
      destruct E as [[E _] _]. apply is_intb_true in E. destruct E as [z ->].
      rewrite Int_part_IZR. reflexivity.
    + intros []. apply cat_score0.
  - eapply impl_both, chain_prim; [apply geom_laws|intros x Hx; exists x; apply geom_sup; exact Hx|apply geom_chain|apply pair_hok; assumption|exact (fun _ => I)| |].
    + intros x v. simpl. destruct (nat_inb x); [|discriminate]. intros E. injection E as <-. auto.
    + intros []. simpl. unfold geom_marginal. do 2 f_equal.
      replace (fst h + 0) with (fst h) by lra. replace (snd h + 0) with (snd h) by lra. lra.
  - eapply impl_both, chain_prim; [apply expo_laws|intros x Hx; exists x; apply expo_sup; exact Hx|apply expo_chain|apply pair_hok; assumption|exact (fun _ => I)| |].
    + intros x v. simpl. destruct (Rltb x 0); [discriminate|]. intros E. injection E as <-. auto.
    + intros []. simpl. unfold expo_marginal, gam_log_Z. rewrite !plog_pos by lra. simpl. do 2 f_equal.
      replace (fst h + 0) with (fst h) by lra. replace (snd h + 0) with (snd h) by lra. lra.
  - eapply impl_both, chain_prim; [apply pois_laws|intros x Hx; exists x; apply pois_sup; exact Hx|apply pois_chain|apply pair_hok; assumption|exact (fun _ => I)| |].
    + intros x v. simpl. destruct (nat_inb x); [|discriminate]. intros E. injection E as <-. auto.
    + intros []. simpl. unfold pois_marginal, gam_log_Z. rewrite !plog_pos by lra. simpl. do 2 f_equal.
      replace (fst h + 0) with (fst h) by lra. replace (snd h + 0) with (snd h) by lra. lra.
  - eapply impl_both, chain_prim; [apply normal_laws|intros x Hx; exists x; reflexivity|apply normal_chain|apply nhyp_hok; assumption|exact (fun _ => I)| |].
    + intros x v. simpl. intros E. injection E as <-. auto.
    + intros []. simpl. rewrite normal_score0 by (apply nhyp_hok; assumption). reflexivity.
  - eapply impl_both, chain_prim; [apply lognormal_laws|intros x Hx; exists x; apply lognormal_sup; exact Hx|apply lognormal_chain|apply nhyp_hok; assumption|exact (fun _ => I)| |].
    + intros x v. simpl. destruct (Rleb x 0); [discriminate|]. intros E. injection E as <-. auto.
    + intros []. simpl. rewrite normal_score0 by (apply nhyp_hok; assumption). simpl. do 2 f_equal. lra.
  - split; [apply vm_mchain; assumption|]. intros H. destruct (H lbes eq_refl).
Qed.

Lemma collapsed_chain M h : collapsed M h -> mchain M h.
Proof. intros H. apply (collapsed_both M h H). Qed.
Lemma collapsed_total M h : collapsed M h -> (forall lbes, M <> M_vonmises lbes) -> mtotal M h.
Proof. intros H. apply (collapsed_both M h H). Qed.
