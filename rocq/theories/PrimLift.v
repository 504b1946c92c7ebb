(** From the class laws to the statements of PrimSpec. *)
From Verif Require Export PrimSpec PrimScore PrimSums.
Local Open Scope R_scope.

Lemma ledger_ext {P : prim} st (tr : list (pop P * res unit)) m1 m2 :
  (forall k, m1 k = m2 k) -> forall k, ledger st tr m1 k = ledger st tr m2 k.
Proof.
  revert m1 m2. induction tr as [|[o r] tr IH]; intros m1 m2 H k; simpl; [apply H|].
  destruct o, r; try (apply IH; exact H);
    apply IH; intros k'; destruct (k' =? rowid)%Z; auto.
Qed.

Lemma ledger_run (P : prim) st okv spec (HL : plaws P okv spec)
  (Hst : forall x v, p_check P x = Ok v -> v = st x) s ops s' tr :
  NoDup (dkeys (p_data s)) ->
  prim_run P s ops = (s', tr) ->
  forall k, dget k (p_data s') = ledger st tr (fun k => dget k (p_data s)) k.
Proof.
  revert s tr. induction ops as [|o ops IH]; intros s tr Hnd Hrun k.
  - simpl in Hrun. injection Hrun as <- <-. reflexivity.
  - simpl in Hrun. destruct (prim_step P s o) as [s1 r] eqn:Es.
    destruct (prim_run P s1 ops) as [s2 tr2] eqn:Er. injection Hrun as <- <-.
    destruct o as [rid x|rid|h|q]; simpl in Es.
    + unfold prim_incorporate in Es. destruct (dmem rid (p_data s)) eqn:Em.
      { injection Es as <- <-. simpl. apply IH; assumption. }
      destruct (p_check P x) as [v|e] eqn:Ec; injection Es as <- <-; simpl.
      * rewrite (fun H => IH _ _ H Er) by (apply NoDup_dset; exact Hnd). apply ledger_ext.
        intros k'. simpl. rewrite dget_dset, (Hst _ _ Ec). reflexivity.
      * apply IH; assumption.
    + unfold prim_unincorporate in Es. destruct (dget rid (p_data s)) as [v|] eqn:Eg;
        injection Es as <- <-; simpl.
      * rewrite (fun H => IH _ _ H Er) by (apply NoDup_ddel; exact Hnd). apply ledger_ext.
        intros k'. simpl. apply dget_ddel; exact Hnd.
      * apply IH; assumption.
    + unfold prim_set_hypers in Es. destruct (p_hok P h); injection Es as <- <-; simpl;
        (rewrite (fun H => IH _ _ H Er) by exact Hnd; reflexivity) || (apply IH; assumption).
    + unfold prim_set_params in Es. injection Es as <- <-; simpl.
      rewrite (fun H => IH _ _ H Er) by exact Hnd. reflexivity.
Qed.

Lemma tracks_from_laws (P : prim) st okv spec :
  plaws P okv spec -> (forall x v, p_check P x = Ok v -> v = st x) ->
  tracks_rows P st spec.
Proof.
  intros HL Hst h q ops s tr Hrun.
  pose proof (pinv_run P okv spec HL _ ops (pinv_new P okv spec HL h q)) as Hi.
  rewrite Hrun in Hi. simpl in Hi. destruct Hi as [Hnd [_ Hs]].
  split; [|split; assumption].
  intros r. eapply (ledger_run P st okv spec HL Hst (prim_new P h q)); [constructor|exact Hrun].
Qed.

Lemma undoes_from_laws (P : prim) okv spec : plaws P okv spec -> undoes P.
Proof. intros HL s r x s1 H. eapply prim_uninc_inc; eassumption. Qed.

Lemma exch_from_laws (P : prim) okv spec : plaws P okv spec -> exchangeable P.
Proof.
  intros HL h1 q1 ops1 s1 tr1 h2 q2 ops2 s2 tr2 R1 R2 Hd Hh Hq.
  pose proof (pinv_run P okv spec HL _ ops1 (pinv_new P okv spec HL h1 q1)) as I1.
  pose proof (pinv_run P okv spec HL _ ops2 (pinv_new P okv spec HL h2 q2)) as I2.
  rewrite R1 in I1. rewrite R2 in I2. simpl in I1, I2.
  pose proof (prim_exchangeable P okv spec HL s1 s2 I1 I2 Hd) as Hs.
  split; [exact Hs|]. unfold prim_logpdf_score, prim_logpdf, dmem.
  split; [rewrite Hh, Hq, Hs; reflexivity|].
  intros r x. rewrite Hd, Hh, Hq, Hs. reflexivity.
Qed.

Lemma ratio_from_chain (P : prim) okv (support : R -> Prop) qok spec :
  plaws P okv spec -> pchain P okv qok spec ->
  (forall x, support x -> p_check P x = Ok x /\ p_inb P x = true) ->
  predictive_is_ratio P support qok.
Proof.
  intros HL HC Hs h q ops s tr r x Hh Hrun Hq Hr Hx.
  destruct (Hs x Hx) as [Hc Hi].
  destruct (prim_chain_run P okv qok spec HL HC h q ops s tr r x Hh Hrun Hq Hr Hc Hi)
    as [a [b [s' [E1 [E2 [E3 E4]]]]]].
  exists a, b, s'. auto.
Qed.

Lemma rejects_from_chain (P : prim) okv (support : R -> Prop) qok spec exc :
  plaws P okv spec -> pchain P okv qok spec ->
  (forall x, support x -> p_check P x = Ok x /\ p_inb P x = true) ->
  (forall x, ~ support x -> p_check P x = Err exc /\ p_inb P x = false) ->
  rejects_iff_impossible P support qok exc.
Proof.
  intros HL HC Hs Hns h q ops s tr r x Hh Hrun Hq Hr. split; intros Hx.
  - destruct (ratio_from_chain P okv support qok spec HL HC Hs h q ops s tr r x Hh Hrun Hq Hr Hx)
      as [a [b [s' [E1 [E2 [E3 E4]]]]]].
    rewrite E1, E4. split; [reflexivity|eauto].
  - destruct (Hns x Hx) as [Hc Hi]. apply dmem_false_None in Hr.
    unfold prim_incorporate, prim_logpdf. rewrite Hr, Hc, Hi. auto.
Qed.

Lemma seq_logpdf_chain_sum (P : prim) s rows :
  seq_logpdf P s rows =
  match chain_sum P s rows with Ok p => Some (fst p, snd p) | Err _ => None end.
Proof.
  revert s. induction rows as [|[r x] rows IH]; intros s; simpl; [reflexivity|].
  destruct (prim_logpdf P s r x) as [[v| | |]|]; try reflexivity.
  destruct (prim_incorporate P s r x) as [s' [u|e]]; [|reflexivity].
  rewrite IH. destruct (chain_sum P s' rows) as [[t s'']|]; reflexivity.
Qed.

Lemma sequential_from_chain (P : prim) okv (support : R -> Prop) qok spec x0 :
  plaws P okv spec -> pchain P okv qok spec ->
  (forall x, support x -> p_check P x = Ok x /\ p_inb P x = true) ->
  support x0 ->
  score_is_sequential P support qok.
Proof.
  intros HL HC Hs Hx0 h q rows Hh Hq Hnd Hsup.
  destruct rows as [|rx rows].
  - assert (Ho : okv x0) by (apply (l_check _ _ _ HL x0); apply Hs; exact Hx0).
    destruct (HC h q [] x0 Hh Hq (Forall_nil _) Ho) as [a [b [E1 _]]].
    exists a, 0, (prim_new P h q). rewrite (l_nil _ _ _ HL) in E1.
    unfold prim_logpdf_score; simpl. rewrite E1.
    repeat split. do 2 f_equal. lra.
  - destruct (chain_sum_score P okv qok spec HL HC (prim_new P h q) (rx :: rows))
      as [a [b [s' [F1 [F2 [F3 F4]]]]]]; try assumption.
    + apply pinv_new; exact HL.
    + intros r x Hin. split; [reflexivity|]. apply Hs.
      rewrite Forall_forall in Hsup. apply (Hsup (r, x) Hin).
    + discriminate.
    + exists a, (b - a), s'. split; [exact F2|]. rewrite seq_logpdf_chain_sum, F1.
      split; [reflexivity|]. split; [exact F4|]. rewrite F3. do 2 f_equal. lra.
Qed.

(* ------------------------------------------------------------------ *)
(** Supports of the classes. *)

Lemma bern_sup lgam x : (x = 0 \/ x = 1) ->
  p_check (Bernoulli lgam) x = Ok x /\ p_inb (Bernoulli lgam) x = true.
Proof. intros H. apply bern_inb_true in H. simpl. rewrite H. auto. Qed.
Lemma bern_nsup lgam x : ~ (x = 0 \/ x = 1) ->
  p_check (Bernoulli lgam) x = Err ValueError /\ p_inb (Bernoulli lgam) x = false.
Proof.
  intros H. simpl. destruct (bern_inb x) eqn:E; [|auto].
  apply bern_inb_true in E. tauto.
Qed.

Lemma cat_sup lgam k x : (exists n, (n < k)%nat /\ x = INR n) ->
  p_check (Categorical lgam k) x = Ok x /\ p_inb (Categorical lgam k) x = true.
Proof.
  intros H. pose proof H as H'. apply cat_inb_true in H. simpl. rewrite H.
  destruct H' as [n [_ ->]]. split; [|reflexivity].
  rewrite INR_IZR_INZ, Int_part_IZR. reflexivity.
Qed.
Lemma cat_nsup lgam k x : ~ (exists n, (n < k)%nat /\ x = INR n) ->
  p_check (Categorical lgam k) x = Err ValueError /\ p_inb (Categorical lgam k) x = false.
Proof.
  intros H. simpl. destruct (cat_inb k x) eqn:E; [|auto].
  apply cat_inb_true in E. tauto.
Qed.

Lemma geom_sup lgam x : (exists n, x = INR n) ->
  p_check (Geometric lgam) x = Ok x /\ p_inb (Geometric lgam) x = true.
Proof. intros H. apply nat_inb_true in H. simpl. rewrite H. auto. Qed.
Lemma geom_nsup lgam x : ~ (exists n, x = INR n) ->
  p_check (Geometric lgam) x = Err TypeError /\ p_inb (Geometric lgam) x = false.
Proof.
  intros H. simpl. destruct (nat_inb x) eqn:E; [|auto]. apply nat_inb_true in E. tauto.
Qed.
Lemma pois_sup lgam x : (exists n, x = INR n) ->
  p_check (Poisson lgam) x = Ok x /\ p_inb (Poisson lgam) x = true.
Proof. intros H. apply nat_inb_true in H. simpl. rewrite H. auto. Qed.
Lemma pois_nsup lgam x : ~ (exists n, x = INR n) ->
  p_check (Poisson lgam) x = Err ValueError /\ p_inb (Poisson lgam) x = false.
Proof.
  intros H. simpl. destruct (nat_inb x) eqn:E; [|auto]. apply nat_inb_true in E. tauto.
Qed.

Lemma expo_sup lgam x : 0 <= x ->
  p_check (Exponential lgam) x = Ok x /\ p_inb (Exponential lgam) x = true.
Proof.
  intros H. simpl. assert (E : Rltb x 0 = false) by (apply Rltb_false; lra).
  rewrite E. auto.
Qed.
Lemma expo_nsup lgam x : ~ 0 <= x ->
  p_check (Exponential lgam) x = Err ValueError /\ p_inb (Exponential lgam) x = false.
Proof.
  intros H. simpl. assert (E : Rltb x 0 = true) by (apply Rltb_true; lra).
  rewrite E. auto.
Qed.

Lemma lognormal_sup lgam x : 0 < x ->
  p_check (Lognormal lgam) x = Ok x /\ p_inb (Lognormal lgam) x = true.
Proof.
  intros H. simpl. assert (E : Rleb x 0 = false) by (apply Rleb_false; lra).
  rewrite E. auto.
Qed.
Lemma lognormal_nsup lgam x : ~ 0 < x ->
  p_check (Lognormal lgam) x = Err ValueError /\ p_inb (Lognormal lgam) x = false.
Proof.
  intros H. simpl. assert (E : Rleb x 0 = true) by (apply Rleb_true; lra).
  rewrite E. auto.
Qed.

Lemma nt_sup lgam cdf lo hi x : lo <= x <= hi ->
  p_check (NormalTrunc lgam cdf lo hi) x = Ok x /\ p_inb (NormalTrunc lgam cdf lo hi) x = true.
Proof.
  intros H. simpl. assert (E : Rleb lo x && Rleb x hi = true)
    by (rewrite andb_true_iff, !Rleb_true; exact H).
  rewrite E. auto.
Qed.
Lemma nt_nsup lgam cdf lo hi x : ~ (lo <= x <= hi) ->
  p_check (NormalTrunc lgam cdf lo hi) x = Err ValueError /\
  p_inb (NormalTrunc lgam cdf lo hi) x = false.
Proof.
  intros H. simpl. destruct (Rleb lo x && Rleb x hi) eqn:E; [|auto].
  rewrite andb_true_iff, !Rleb_true in E. tauto.
Qed.

(** Values strictly inside (0,1) and not within numpy's closeness tolerance of
    the end points. *)
Lemma beta_sup lgam x : (0 < x < 1 /\ allclose 0 x = false /\ allclose 1 x = false) ->
  p_check (Beta lgam) x = Ok x /\ p_inb (Beta lgam) x = true.
Proof.
  intros [H [E1 E2]]. cbv [p_check p_inb Beta]. unfold beta_clip. rewrite E1, E2.
  apply unit_inb_true in H. rewrite H. auto.
Qed.

(** Which values [allclose] catches. *)
Lemma allclose_0 x : allclose 0 x = true <-> Rabs x * (1 - / 100000) <= / 100000000.
Proof.
  unfold allclose. rewrite Rleb_true. replace (0 - x) with (- x) by lra.
  rewrite Rabs_Ropp. lra.
Qed.

(** Vonmises: the resultant after incorporating is the vector sum. *)
Lemma vm_run_chain lbes h ops s tr r x :
  p_hok (Vonmises lbes) h = true ->
  prim_run (Vonmises lbes) (prim_new _ h tt) ops = (s, tr) ->
  0 < v_k (p_hyp s) ->
  dget r (p_data s) = None -> 0 <= x <= 2 * PI ->
  let vs := dvals (p_data s) in
  0 < vm_an (Rsum (map sin vs)) (Rsum (map cos vs)) (p_hyp s) ->
  0 < vm_an (Rsum (map sin vs) + sin x) (Rsum (map cos vs) + cos x) (p_hyp s) ->
  exists a b s',
    prim_incorporate _ s r x = (s', Ok tt) /\
    prim_logpdf_score _ s = Ok (Fin a) /\
    prim_logpdf_score _ s' = Ok (Fin b) /\
    prim_logpdf _ s r x = Ok (Fin (b - a)).
Proof.
  intros Hh Hrun Hk Hr Hx vs H1 H2.
  pose proof (pinv_run _ _ _ (vm_laws lbes) _ ops (pinv_new _ _ _ (vm_laws lbes) h tt)) as Hi.
  pose proof (hok_run _ (prim_new (Vonmises lbes) h tt) ops Hh) as Hh'.
  rewrite Hrun in Hi, Hh'. simpl in Hi, Hh'. destruct Hi as [_ [_ Hst]].
  destruct (vm_chain lbes (p_hyp s) vs x Hh' Hk H1 H2) as [a [b [E1 [E2 E3]]]].
  apply dmem_false_None in Hr. apply vm_inb_true in Hx.
  exists a, b. unfold prim_incorporate, prim_logpdf_score, prim_logpdf. rewrite Hr.
  cbn [p_check p_inb Vonmises]. rewrite Hx. eexists. split; [reflexivity|]. simpl.
  destruct (p_par s). fold vs in Hst. rewrite Hst.
  split; [exact E1|]. split; [exact E2|exact E3].
Qed.
