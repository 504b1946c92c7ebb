(** Properties C01-C06 and C52 of the primitive distributions. *)
From Verif Require Import PrimLift PoissonSum.
Local Open Scope R_scope.

(** Decide the boolean comparisons of closed real expressions. *)
Ltac rdec :=
  repeat match goal with
  | |- context [Reqb ?a ?b] =>
      (rewrite (proj2 (Reqb_true a b)) by lra) ||
      (rewrite (proj2 (Reqb_false a b)) by lra)
  | |- context [Rltb ?a ?b] =>
      (rewrite (proj2 (Rltb_true a b)) by lra) ||
      (rewrite (proj2 (Rltb_false a b)) by lra)
  | |- context [Rleb ?a ?b] =>
      (rewrite (proj2 (Rleb_true a b)) by lra) ||
      (rewrite (proj2 (Rleb_false a b)) by lra)
  end.

(* ------------------------------------------------------------------ *)
(** ** C01: statistics summarise exactly the rows held *)

Theorem C01_bernoulli : forall lgam,
  tracks_rows (Bernoulli lgam) (fun x => x)
    (fun l => (Z.of_nat (length l), Rsum l)).
Proof.
  intros lgam. eapply tracks_from_laws; [apply bern_laws|].
  simpl. intros x v. destruct (bern_inb x); congruence.
Qed.
Print Assumptions C01_bernoulli.

(** A history with an accepted row, a duplicate row id, an impossible value, an
    unknown row and a removal. *)
Example C01_bernoulli_ex : forall lgam,
  prim_run (Bernoulli lgam) (prim_new (Bernoulli lgam) (1, 1) tt)
    [OpInc 1 1; OpInc 1 0; OpInc 2 (1/2); OpUninc 7; OpInc 3 0; OpUninc 1]
  = (@PState (Bernoulli lgam) [(3%Z, 0)] (1%Z, 0 + 1 + 0 - 1) (1, 1) tt,
     [(OpInc 1 1, Ok tt); (OpInc 1 0, Err AssertionError);
      (OpInc 2 (1/2), Err ValueError); (OpUninc 7, Err KeyError);
      (OpInc 3 0, Ok tt); (OpUninc 1, Ok tt)]).
Proof.
  intros lgam. simpl. unfold prim_incorporate, dmem. simpl. unfold bern_inb.
  rdec. simpl. unfold prim_incorporate, dmem. simpl. unfold bern_inb. rdec. simpl.
  unfold prim_incorporate, dmem. simpl. unfold bern_inb. rdec. simpl. reflexivity.
Qed.

Theorem C01_categorical : forall lgam k,
  tracks_rows (Categorical lgam k) (fun x => x)
    (fun l => (Z.of_nat (length l),
       map (fun i => Z.of_nat (length (filter (fun v => Reqb v (INR i)) l))) (seq 0 k))).
Proof.
  intros lgam k. apply (tracks_from_laws _ _ _ _ (cat_laws lgam k)).
  simpl. intros x v. destruct (cat_inb k x) eqn:E; [|discriminate].
  intros H; injection H as <-. apply cat_inb_true in E. destruct E as [n [_ ->]].
  rewrite INR_IZR_INZ, Int_part_IZR. reflexivity.
Qed.
Print Assumptions C01_categorical.

(** Category 1 of 3 is accepted, category 3 of 3 is not. *)
Example C01_categorical_ex : forall lgam,
  p_check (Categorical lgam 3) (INR 1) = Ok (INR 1) /\
  p_check (Categorical lgam 3) (INR 3) = Err ValueError /\
  p_stats (fst (prim_run (Categorical lgam 3) (prim_new (Categorical lgam 3) 1 tt)
     [OpInc 5 (INR 1); OpInc 6 (INR 1)])) = (2%Z, [0; 2; 0]%Z).
Proof.
  intros lgam.
  assert (H1 : p_check (Categorical lgam 3) (INR 1) = Ok (INR 1)).
  { apply cat_sup. exists 1%nat. split; [lia|reflexivity]. }
  split; [exact H1|]. split.
  - apply cat_nsup. intros [n [Hn E]]. apply INR_eq in E. lia.
  - assert (B : cat_inb 3 (INR 1) = true).
    { apply cat_inb_true. exists 1%nat. split; [lia|reflexivity]. }
    assert (E : IZR (Int_part (INR 1)) = INR 1).
    { rewrite INR_IZR_INZ, Int_part_IZR. reflexivity. }
    pose proof (to_index_INR 1) as Hy. generalize dependent (INR 1). intros y _ B E Hy.
    repeat (unfold prim_incorporate, dmem; cbn -[Int_part cat_inb to_index];
            rewrite ?B, ?E, ?Hy).
    reflexivity.
Qed.

Theorem C01_geometric : forall lgam,
  tracks_rows (Geometric lgam) (fun x => x)
    (fun l => (Z.of_nat (length l), Rsum l)).
Proof.
  intros lgam. eapply tracks_from_laws; [apply geom_laws|].
  simpl. intros x v. destruct (nat_inb x); congruence.
Qed.
Print Assumptions C01_geometric.

Theorem C01_exponential : forall lgam,
  tracks_rows (Exponential lgam) (fun x => x)
    (fun l => (Z.of_nat (length l), Rsum l)).
Proof.
  intros lgam. eapply tracks_from_laws; [apply expo_laws|].
  simpl. intros x v. destruct (Rltb x 0); congruence.
Qed.
Print Assumptions C01_exponential.

(** The third statistic of the Poisson model is the sum of log-factorials, as
    given by the library's log-gamma. *)
Theorem C01_poisson : forall lgam,
  tracks_rows (Poisson lgam) (fun x => x)
    (fun l => (Z.of_nat (length l), Rsum (map (fun x => x) l),
               Rsum (map (fun x => lgam (x + 1)) l))).
Proof.
  intros lgam. apply (tracks_from_laws _ _ _ _ (pois_laws lgam)).
  simpl. intros x v. destruct (nat_inb x); congruence.
Qed.
Print Assumptions C01_poisson.

Theorem C01_normal : forall lgam,
  tracks_rows (Normal lgam) (fun x => x)
    (fun l => (Z.of_nat (length l), Rsum (map (fun x => x) l),
               Rsum (map (fun x => x * x) l))).
Proof.
  intros lgam. apply (tracks_from_laws _ _ _ _ (normal_laws lgam)).
  simpl. intros x v. congruence.
Qed.
Print Assumptions C01_normal.

(** Two rows in, one out: the statistics are those of the remaining row. *)
Example C01_normal_ex : forall lgam h,
  p_stats (fst (prim_run (Normal lgam) (prim_new (Normal lgam) h tt)
     [OpInc 1 2; OpInc 2 5; OpInc 2 7; OpUninc 1]))
  = (1%Z, 0 + 2 + 5 - 2, 0 + 2 * 2 + 5 * 5 - 2 * 2).
Proof. intros. reflexivity. Qed.

Theorem C01_lognormal : forall lgam,
  tracks_rows (Lognormal lgam) (fun x => x)
    (fun l => (Z.of_nat (length l), Rsum (map ln l),
               Rsum (map (fun x => ln x * ln x) l))).
Proof.
  intros lgam. apply (tracks_from_laws _ _ _ _ (lognormal_laws lgam)).
  simpl. intros x v. destruct (Rleb x 0); congruence.
Qed.
Print Assumptions C01_lognormal.

Theorem C01_vonmises : forall lbes,
  tracks_rows (Vonmises lbes) (fun x => x)
    (fun l => (Z.of_nat (length l), Rsum (map sin l), Rsum (map cos l))).
Proof.
  intros lbes. apply (tracks_from_laws _ _ _ _ (vm_laws lbes)).
  simpl. intros x v. destruct (vm_inb x); congruence.
Qed.
Print Assumptions C01_vonmises.

(** The stored value of a beta observation is clipped when it is within
    numpy's tolerance of an end point. *)
Theorem C01_beta : forall lgam,
  tracks_rows (Beta lgam)
    (fun x => if Rleb (Rabs (0 - x)) (/ 100000000 + / 100000 * Rabs x) then 1 / 1000
              else if Rleb (Rabs (1 - x)) (/ 100000000 + / 100000 * Rabs x) then 999 / 1000
              else x)
    (fun l => (Z.of_nat (length l), Rsum (map ln l),
               Rsum (map (fun x => ln (1 - x)) l))).
Proof.
  intros lgam. apply (tracks_from_laws _ _ _ _ (beta_laws lgam)).
  intros x v. cbv [p_check Beta]. destruct (unit_inb (beta_clip x)); [|discriminate].
  intros H; injection H as <-. reflexivity.
Qed.
Print Assumptions C01_beta.

Theorem C01_normal_trunc : forall lgam cdf lo hi,
  tracks_rows (NormalTrunc lgam cdf lo hi) (fun x => x)
    (fun l => (Z.of_nat (length l), Rsum (map (fun x => x) l),
               Rsum (map (fun x => x * x) l))).
Proof.
  intros lgam cdf lo hi. apply (tracks_from_laws _ _ _ _ (nt_laws lgam cdf lo hi)).
  simpl. intros x v. destruct (Rleb lo x && Rleb x hi); congruence.
Qed.
Print Assumptions C01_normal_trunc.

(* ------------------------------------------------------------------ *)
(** ** C02: unincorporate undoes incorporate *)

Theorem C02_undo : forall lgam lbes cdf k lo hi,
  undoes (Bernoulli lgam) /\ undoes (Categorical lgam k) /\
  undoes (Geometric lgam) /\ undoes (Exponential lgam) /\
  undoes (Poisson lgam) /\ undoes (Normal lgam) /\ undoes (Lognormal lgam) /\
  undoes (Vonmises lbes) /\ undoes (Beta lgam) /\
  undoes (NormalTrunc lgam cdf lo hi).
Proof.
  intros. repeat match goal with |- _ /\ _ => split end;
  eapply undoes_from_laws;
  first [apply bern_laws|apply cat_laws|apply geom_laws|apply expo_laws|apply pois_laws
        |apply normal_laws|apply lognormal_laws|apply vm_laws|apply beta_laws|apply nt_laws].
Qed.
Print Assumptions C02_undo.

(** Undoing an accepted incorporate on a non-empty object. *)
Example C02_undo_ex : forall lgam,
  exists s1, prim_incorporate (Exponential lgam)
    (@PState (Exponential lgam) [(4%Z, 2)] (1%Z, 2) (1, 1) tt) 9 3 = (s1, Ok tt) /\
  prim_unincorporate (Exponential lgam) s1 9
  = (@PState (Exponential lgam) [(4%Z, 2)] (1%Z, 2) (1, 1) tt, Ok tt).
Proof.
  intros lgam. unfold prim_incorporate. simpl. rdec. eexists. split; [reflexivity|].
  unfold prim_unincorporate. simpl. do 3 f_equal. lra.
Qed.

(* ------------------------------------------------------------------ *)
(** ** C03: exchangeability *)

Theorem C03_exchangeable : forall lgam lbes cdf k lo hi,
  exchangeable (Bernoulli lgam) /\ exchangeable (Categorical lgam k) /\
  exchangeable (Geometric lgam) /\ exchangeable (Exponential lgam) /\
  exchangeable (Poisson lgam) /\ exchangeable (Normal lgam) /\
  exchangeable (Lognormal lgam) /\ exchangeable (Vonmises lbes) /\
  exchangeable (Beta lgam) /\ exchangeable (NormalTrunc lgam cdf lo hi).
Proof.
  intros. repeat match goal with |- _ /\ _ => split end;
  eapply exch_from_laws;
  first [apply bern_laws|apply cat_laws|apply geom_laws|apply expo_laws|apply pois_laws
        |apply normal_laws|apply lognormal_laws|apply vm_laws|apply beta_laws|apply nt_laws].
Qed.
Print Assumptions C03_exchangeable.

(** Two orders of the same two rows, one with a detour. *)
Example C03_exchangeable_ex : forall lgam h,
  let s1 := fst (prim_run (Normal lgam) (prim_new (Normal lgam) h tt) [OpInc 1 2; OpInc 2 5]) in
  let s2 := fst (prim_run (Normal lgam) (prim_new (Normal lgam) h tt)
                   [OpInc 2 5; OpInc 3 8; OpInc 1 2; OpUninc 3]) in
  p_data s1 <> p_data s2 /\ (forall r, dget r (p_data s1) = dget r (p_data s2)).
Proof.
  intros lgam h. simpl. split; [discriminate|]. intros r.
  destruct (Z.eqb_spec r 1), (Z.eqb_spec r 2); subst; try reflexivity; discriminate.
Qed.

(* ------------------------------------------------------------------ *)
(** ** C04: predictive density is the ratio of marginal likelihoods *)

Theorem C04_bernoulli : forall lgam,
  (forall x, 0 < x -> lgam (x + 1) = ln x + lgam x) ->
  predictive_is_ratio (Bernoulli lgam) (fun x => x = 0 \/ x = 1) (fun _ => True) /\
  score_is_sequential (Bernoulli lgam) (fun x => x = 0 \/ x = 1) (fun _ => True).
Proof.
  intros lgam Hg. split.
  - eapply ratio_from_chain; [apply bern_laws|apply bern_chain; exact Hg|apply bern_sup].
  - eapply sequential_from_chain with (x0 := 0); [apply bern_laws|apply bern_chain; exact Hg|apply bern_sup|auto].
Qed.
Print Assumptions C04_bernoulli.

(** The log-gamma recurrence can be satisfied. *)
Example C04_lgam_ex :
  (forall x, 0 < x -> lgam_w (x + 1) = ln x + lgam_w x) /\ lgam_w 1 = 0.
Proof. split; [exact lgam_w_rec|exact lgam_w_1]. Qed.

(** Hypotheses met on a non-empty object. *)
Example C04_bernoulli_ex : forall lgam,
  p_hok (Bernoulli lgam) (2, 3) = true /\
  dget 7 (p_data (fst (prim_run (Bernoulli lgam) (prim_new (Bernoulli lgam) (2, 3) tt)
    [OpInc 1 1; OpInc 2 0]))) = None /\
  dvals (p_data (fst (prim_run (Bernoulli lgam) (prim_new (Bernoulli lgam) (2, 3) tt)
    [OpInc 1 1; OpInc 2 0]))) = [1; 0].
Proof.
  intros lgam. split; [simpl; rdec; reflexivity|].
  simpl. unfold prim_incorporate, dmem. simpl. unfold bern_inb. rdec. simpl.
  unfold prim_incorporate, dmem. simpl. unfold bern_inb. rdec. simpl. auto.
Qed.

Theorem C04_categorical : forall lgam k,
  (forall x, 0 < x -> lgam (x + 1) = ln x + lgam x) ->
  predictive_is_ratio (Categorical lgam (S k))
    (fun x => exists n, (n < S k)%nat /\ x = INR n) (fun _ => True) /\
  score_is_sequential (Categorical lgam (S k))
    (fun x => exists n, (n < S k)%nat /\ x = INR n) (fun _ => True).
Proof.
  intros lgam k Hg. split.
  - eapply ratio_from_chain; [apply cat_laws|apply cat_chain; exact Hg|apply cat_sup].
  - eapply sequential_from_chain with (x0 := INR 0); [apply cat_laws|apply cat_chain; exact Hg|apply cat_sup|].
    exists 0%nat. split; [lia|reflexivity].
Qed.
Print Assumptions C04_categorical.

Theorem C04_geometric : forall lgam,
  predictive_is_ratio (Geometric lgam) (fun x => exists n, x = INR n) (fun _ => True) /\
  score_is_sequential (Geometric lgam) (fun x => exists n, x = INR n) (fun _ => True).
Proof.
  intros lgam. split.
  - eapply ratio_from_chain; [apply geom_laws|apply geom_chain|apply geom_sup].
  - eapply sequential_from_chain with (x0 := INR 0); [apply geom_laws|apply geom_chain|apply geom_sup|eauto].
Qed.
Print Assumptions C04_geometric.

Theorem C04_exponential : forall lgam,
  predictive_is_ratio (Exponential lgam) (fun x => 0 <= x) (fun _ => True) /\
  score_is_sequential (Exponential lgam) (fun x => 0 <= x) (fun _ => True).
Proof.
  intros lgam. split.
  - eapply ratio_from_chain; [apply expo_laws|apply expo_chain|apply expo_sup].
  - eapply sequential_from_chain with (x0 := 0); [apply expo_laws|apply expo_chain|apply expo_sup|lra].
Qed.
Print Assumptions C04_exponential.

Theorem C04_poisson : forall lgam,
  predictive_is_ratio (Poisson lgam) (fun x => exists n, x = INR n) (fun _ => True) /\
  score_is_sequential (Poisson lgam) (fun x => exists n, x = INR n) (fun _ => True).
Proof.
  intros lgam. split.
  - eapply ratio_from_chain; [apply pois_laws|apply pois_chain|apply pois_sup].
  - eapply sequential_from_chain with (x0 := INR 0); [apply pois_laws|apply pois_chain|apply pois_sup|eauto].
Qed.
Print Assumptions C04_poisson.

Theorem C04_normal : forall lgam,
  predictive_is_ratio (Normal lgam) (fun _ => True) (fun _ => True) /\
  score_is_sequential (Normal lgam) (fun _ => True) (fun _ => True).
Proof.
  intros lgam. split.
  - eapply ratio_from_chain; [apply normal_laws|apply normal_chain|auto].
  - eapply sequential_from_chain with (x0 := 0); [apply normal_laws|apply normal_chain|auto|auto].
Qed.
Print Assumptions C04_normal.

Theorem C04_lognormal : forall lgam,
  predictive_is_ratio (Lognormal lgam) (fun x => 0 < x) (fun _ => True) /\
  score_is_sequential (Lognormal lgam) (fun x => 0 < x) (fun _ => True).
Proof.
  intros lgam. split.
  - eapply ratio_from_chain; [apply lognormal_laws|apply lognormal_chain|apply lognormal_sup].
  - eapply sequential_from_chain with (x0 := 1); [apply lognormal_laws|apply lognormal_chain|apply lognormal_sup|lra].
Qed.
Print Assumptions C04_lognormal.

(** Hypotheses met on non-empty objects of the classes above. *)
Example C04_hypers_ex : forall lgam,
  p_hok (Exponential lgam) (1, 2) = true /\ p_hok (Geometric lgam) (1, 2) = true /\
  p_hok (Poisson lgam) (1, 2) = true /\ p_hok (Categorical lgam 3) 1 = true /\
  p_hok (Normal lgam) (NHyp 0 1 2 3) = true /\ p_hok (Lognormal lgam) (NHyp 0 1 2 3) = true /\
  fst (prim_run (Normal lgam) (prim_new (Normal lgam) (NHyp 0 1 2 3) tt) [OpInc 1 2; OpInc 2 (-3)])
   = @PState (Normal lgam) [(1%Z, 2); (2%Z, -3)] (2%Z, 0 + 2 + -3, 0 + 2 * 2 + -3 * -3) (NHyp 0 1 2 3) tt.
Proof.
  intros. simpl. unfold nhyp_ok; simpl. rdec. repeat split.
Qed.

(** Von Mises.  The full statement for every hyperparameter accepted by the
    constructor and every angle is false of the model over exact reals
    ([C04_vonmises_refuted]): when the resultant vector vanishes, an assertion
    fires.  What is proved: it holds whenever neither resultant vanishes and
    the concentration [k] is positive. *)
Theorem C04_vonmises_partial : forall lbes h ops s tr r x,
  p_hok (Vonmises lbes) h = true ->
  prim_run (Vonmises lbes) (prim_new (Vonmises lbes) h tt) ops = (s, tr) ->
  0 < v_k (p_hyp s) ->
  dget r (p_data s) = None -> 0 <= x <= 2 * PI ->
  let vs := dvals (p_data s) in
  let C := v_k (p_hyp s) * Rsum (map cos vs) + v_a (p_hyp s) * cos (v_b (p_hyp s)) in
  let S := v_k (p_hyp s) * Rsum (map sin vs) + v_a (p_hyp s) * sin (v_b (p_hyp s)) in
  (C <> 0 \/ S <> 0) ->
  (C + v_k (p_hyp s) * cos x <> 0 \/ S + v_k (p_hyp s) * sin x <> 0) ->
  exists before after s',
    prim_incorporate _ s r x = (s', Ok tt) /\
    prim_logpdf_score _ s = Ok (Fin before) /\
    prim_logpdf_score _ s' = Ok (Fin after) /\
    prim_logpdf _ s r x = Ok (Fin (after - before)).
Proof.
  intros lbes h ops s tr r x Hh Hrun Hk Hr Hx vs C S H1 H2.
  assert (Hsq : forall a b, (a <> 0 \/ b <> 0) -> 0 < sqrt (a * a + b * b)).
  { intros a b [H|H]; apply sqrt_lt_R0; nra. }
  apply (vm_run_chain lbes h ops s tr r x Hh Hrun Hk Hr Hx); unfold vm_an.
  - apply Hsq. exact H1.
  - apply Hsq. fold vs.
    replace (v_k (p_hyp s) * (Rsum (map cos vs) + cos x) + v_a (p_hyp s) * cos (v_b (p_hyp s)))
      with (C + v_k (p_hyp s) * cos x) by (unfold C; ring).
    replace (v_k (p_hyp s) * (Rsum (map sin vs) + sin x) + v_a (p_hyp s) * sin (v_b (p_hyp s)))
      with (S + v_k (p_hyp s) * sin x) by (unfold S; ring).
    exact H2.
Qed.
Print Assumptions C04_vonmises_partial.

Example C04_vonmises_partial_ex : forall lbes,
  let h := VHyp 1 PI 2 in
  p_hok (Vonmises lbes) h = true /\
  v_k h * Rsum (map cos []) + v_a h * cos (v_b h) <> 0 /\
  v_k h * Rsum (map cos []) + v_a h * cos (v_b h) + v_k h * cos 0 <> 0.
Proof.
  intros lbes. simpl. pose proof PI_RGT_0. rewrite cos_PI, cos_0. rdec. simpl.
  repeat split; lra.
Qed.

Theorem C04_vonmises_refuted :
  exists h r x, p_hok (Vonmises (fun x => x)) h = true /\ 0 < v_k h /\ 0 <= x <= 2 * PI /\
    exists s', prim_incorporate (Vonmises (fun x => x)) (prim_new (Vonmises (fun x => x)) h tt) r x = (s', Ok tt) /\
      prim_logpdf _ (prim_new (Vonmises (fun x => x)) h tt) r x = Err AssertionError /\
      prim_logpdf_score _ s' = Err AssertionError.
Proof.
  exists (VHyp 1 PI 1), 0%Z, 0. pose proof PI_RGT_0 as HP.
  split; [simpl; rdec; reflexivity|]. split; [simpl; lra|]. split; [lra|].
  unfold prim_incorporate, prim_logpdf, prim_logpdf_score. simpl. unfold vm_inb. rdec. simpl.
  eexists. split; [reflexivity|]. simpl.
  unfold vm_predictive, vm_marginal, vm_guard, vm_log_Z, vm_an. simpl.
  rewrite cos_PI, sin_PI, sin_0, cos_0. rdec. simpl.
  replace ((1 * (0 + 1) + 1 * -1) * (1 * (0 + 1) + 1 * -1) +
           (1 * (0 + 0) + 1 * 0) * (1 * (0 + 0) + 1 * 0)) with 0 by ring.
  rewrite sqrt_0.
  rewrite (proj2 (Rltb_false 0 0)) by lra.
  assert (E : 0 < sqrt ((1 * 0 + 1 * -1) * (1 * 0 + 1 * -1) + (1 * 0 + 1 * 0) * (1 * 0 + 1 * 0))).
  { apply sqrt_lt_R0. lra. }
  apply Rltb_true in E. rewrite E. auto.
Qed.
Print Assumptions C04_vonmises_refuted.

(** set_hypers of the Von Mises class accepts a non-positive concentration,
    after which no density can be computed. *)
Theorem C04_vonmises_concentration_refuted :
  exists h h', let s := fst (prim_set_hypers (Vonmises (fun x => x)) (prim_new (Vonmises (fun x => x)) h tt) h') in
    p_hok (Vonmises (fun x => x)) h = true /\ 0 < v_k h /\
    snd (prim_set_hypers (Vonmises (fun x => x)) (prim_new (Vonmises (fun x => x)) h tt) h') = Ok tt /\
    forall r x, 0 <= x <= 2 * PI -> prim_logpdf _ s r x = Err AssertionError.
Proof.
  exists (VHyp 1 PI 1), (VHyp 1 PI (-1)). pose proof PI_RGT_0 as HP. simpl.
  unfold prim_set_hypers. simpl. rdec. simpl. repeat split; try lra.
  intros r x Hx. unfold prim_logpdf. simpl. apply vm_inb_true in Hx. rewrite Hx.
  unfold vm_predictive, vm_guard. simpl. rdec. reflexivity.
Qed.
Print Assumptions C04_vonmises_concentration_refuted.

(** Beta (uncollapsed: parameters held fixed).  The full statement for every
    value accepted by incorporate is false ([C04_beta_refuted]) because
    incorporate clips values close to 0 and 1 and logpdf does not.  Proved:
    values not within the clipping tolerance. *)
Theorem C04_beta_partial : forall lgam,
  predictive_is_ratio (Beta lgam)
    (fun x => 0 < x < 1 /\ ~ Rabs (0 - x) <= / 100000000 + / 100000 * Rabs x /\
              ~ Rabs (1 - x) <= / 100000000 + / 100000 * Rabs x)
    (fun q => 0 < fst q /\ 0 < snd q < 1).
Proof.
  intros lgam. eapply ratio_from_chain; [apply beta_laws|apply beta_chain|].
  intros x [Hx [H0 H1]]. apply beta_sup. split; [exact Hx|].
  unfold allclose. split; apply Rleb_false; assumption.
Qed.
Print Assumptions C04_beta_partial.

Example C04_beta_partial_ex :
  0 < 1/2 < 1 /\ ~ Rabs (0 - 1/2) <= / 100000000 + / 100000 * Rabs (1/2) /\
  ~ Rabs (1 - 1/2) <= / 100000000 + / 100000 * Rabs (1/2).
Proof.
  rewrite (Rabs_right (1/2)) by lra. rewrite (Rabs_right (1 - 1/2)) by lra.
  rewrite (Rabs_left (0 - 1/2)) by lra. lra.
Qed.

(** The value 0 is accepted by incorporate (stored as 0.001) but has density
    zero, although the score after incorporating it is finite. *)
Theorem C04_beta_refuted :
  exists s r x s' v, prim_incorporate (Beta (fun x => x)) s r x = (s', Ok tt) /\
    s = prim_new (Beta (fun x => x)) tt (1, 1/2) /\ r = 0%Z /\ x = 0 /\
    prim_logpdf_score _ s' = Ok (Fin v) /\
    prim_logpdf _ s r x = Ok NInf.
Proof.
  exists (prim_new (Beta (fun x => x)) tt (1, 1/2)), 0%Z, 0.
  unfold prim_incorporate, prim_logpdf, prim_logpdf_score. simpl.
  unfold beta_clip, allclose. rewrite Rminus_0_r, Rabs_R0.
  rewrite (proj2 (Rleb_true 0 (/ 100000000 + / 100000 * 0))) by lra.
  unfold unit_inb. rdec. simpl. eexists. eexists. split; [reflexivity|].
  repeat split. simpl. unfold beta_guard. simpl. rdec. simpl. reflexivity.
Qed.
Print Assumptions C04_beta_refuted.

(** Truncated normal (uncollapsed).  The full statement for all bounds is
    false ([C04_normal_trunc_refuted]: the prior of the mean uses scale
    [l + h]).  Proved: bounds with [0 <= l]. *)
Theorem C04_normal_trunc_partial : forall lgam cdf lo hi,
  (forall a b, a < b -> cdf a < cdf b) -> 0 <= lo -> lo < hi ->
  predictive_is_ratio (NormalTrunc lgam cdf lo hi) (fun x => lo <= x <= hi)
    (fun q => 0 < snd q /\ lo <= fst q <= hi) /\
  score_is_sequential (NormalTrunc lgam cdf lo hi) (fun x => lo <= x <= hi)
    (fun q => 0 < snd q /\ lo <= fst q <= hi).
Proof.
  intros lgam cdf lo hi Hc Hlo Hlh. split.
  - eapply ratio_from_chain; [apply nt_laws|apply nt_chain; assumption|apply nt_sup].
  - eapply sequential_from_chain with (x0 := lo);
      [apply nt_laws|apply nt_chain; assumption|apply nt_sup|lra].
Qed.
Print Assumptions C04_normal_trunc_partial.

Example C04_normal_trunc_partial_ex : forall lgam,
  (forall a b, a < b -> atan a < atan b) /\ 0 <= 1 /\ 1 < 5 /\
  p_hok (NormalTrunc lgam atan 1 5) tt = true /\ (0 < 2 /\ 1 <= 3 <= 5).
Proof. intros. split; [apply atan_increasing|]. simpl. repeat split; lra. Qed.

(** Valid bounds, a valid mean inside them, and the score is minus infinity;
    and with bounds symmetric about zero the score is NaN. *)
Theorem C04_normal_trunc_refuted :
  exists lo hi mu sigma, lo < hi /\ lo <= mu <= hi /\ 0 < sigma /\
    forall lgam, prim_logpdf_score (NormalTrunc lgam atan lo hi) (prim_new (NormalTrunc lgam atan lo hi) tt (mu, sigma))
      = Ok NInf.
Proof.
  exists (-1), 3, 2, 1. split; [lra|]. split; [lra|]. split; [lra|].
  intros lgam. unfold prim_logpdf_score. simpl. unfold nt_prior, nt_normalizer.
  assert (H : 0 < atan ((3 - 2) / 1) - atan ((-1 - 2) / 1)).
  { apply Rlt_Rminus. apply atan_increasing. lra. }
  apply Rltb_true in H. rewrite H. rdec. simpl. reflexivity.
Qed.
Print Assumptions C04_normal_trunc_refuted.

Theorem C04_normal_trunc_nan_refuted :
  exists lo hi mu sigma, lo < hi /\ lo <= mu <= hi /\ 0 < sigma /\
    forall lgam, prim_logpdf_score (NormalTrunc lgam atan lo hi) (prim_new (NormalTrunc lgam atan lo hi) tt (mu, sigma))
      = Ok NaN.
Proof.
  exists (-1), 1, (1/2), 1. split; [lra|]. split; [lra|]. split; [lra|].
  intros lgam. unfold prim_logpdf_score. simpl. unfold nt_prior, nt_normalizer.
  assert (H : 0 < atan ((1 - 1/2) / 1) - atan ((-1 - 1/2) / 1)).
  { apply Rlt_Rminus. apply atan_increasing. lra. }
  apply Rltb_true in H. rewrite H. rdec. simpl. reflexivity.
Qed.
Print Assumptions C04_normal_trunc_nan_refuted.

(* ------------------------------------------------------------------ *)
(** ** C05: rejection is atomic and matches zero density *)

Theorem C05_bernoulli : forall lgam,
  (forall x, 0 < x -> lgam (x + 1) = ln x + lgam x) ->
  rejects_iff_impossible (Bernoulli lgam) (fun x => x = 0 \/ x = 1) (fun _ => True) ValueError.
Proof.
  intros lgam Hg. eapply rejects_from_chain;
    [apply bern_laws|apply bern_chain; exact Hg|apply bern_sup|apply bern_nsup].
Qed.
Print Assumptions C05_bernoulli.

Theorem C05_categorical : forall lgam k,
  (forall x, 0 < x -> lgam (x + 1) = ln x + lgam x) ->
  rejects_iff_impossible (Categorical lgam k)
    (fun x => exists n, (n < k)%nat /\ x = INR n) (fun _ => True) ValueError.
Proof.
  intros lgam k Hg. eapply rejects_from_chain;
    [apply cat_laws|apply cat_chain; exact Hg|apply cat_sup|apply cat_nsup].
Qed.
Print Assumptions C05_categorical.

Theorem C05_poisson : forall lgam,
  rejects_iff_impossible (Poisson lgam) (fun x => exists n, x = INR n) (fun _ => True) ValueError.
Proof.
  intros lgam. eapply rejects_from_chain;
    [apply pois_laws|apply pois_chain|apply pois_sup|apply pois_nsup].
Qed.
Print Assumptions C05_poisson.

(** The geometric class rejects with TypeError instead of ValueError: its error
    branch formats the exception object instead of the message. *)
Theorem C05_geometric : forall lgam,
  rejects_iff_impossible (Geometric lgam) (fun x => exists n, x = INR n) (fun _ => True) TypeError.
Proof.
  intros lgam. eapply rejects_from_chain;
    [apply geom_laws|apply geom_chain|apply geom_sup|apply geom_nsup].
Qed.
Print Assumptions C05_geometric.

Theorem C05_exponential : forall lgam,
  rejects_iff_impossible (Exponential lgam) (fun x => 0 <= x) (fun _ => True) ValueError.
Proof.
  intros lgam. eapply rejects_from_chain;
    [apply expo_laws|apply expo_chain|apply expo_sup|apply expo_nsup].
Qed.
Print Assumptions C05_exponential.

Theorem C05_normal : forall lgam,
  rejects_iff_impossible (Normal lgam) (fun _ => True) (fun _ => True) ValueError.
Proof.
  intros lgam. eapply rejects_from_chain; [apply normal_laws|apply normal_chain|auto|tauto].
Qed.
Print Assumptions C05_normal.

Theorem C05_lognormal : forall lgam,
  rejects_iff_impossible (Lognormal lgam) (fun x => 0 < x) (fun _ => True) ValueError.
Proof.
  intros lgam. eapply rejects_from_chain;
    [apply lognormal_laws|apply lognormal_chain|apply lognormal_sup|apply lognormal_nsup].
Qed.
Print Assumptions C05_lognormal.

Theorem C05_normal_trunc_partial : forall lgam cdf lo hi,
  (forall a b, a < b -> cdf a < cdf b) -> 0 <= lo -> lo < hi ->
  rejects_iff_impossible (NormalTrunc lgam cdf lo hi) (fun x => lo <= x <= hi)
    (fun q => 0 < snd q /\ lo <= fst q <= hi) ValueError.
Proof.
  intros lgam cdf lo hi Hc Hlo Hlh. eapply rejects_from_chain;
    [apply nt_laws|apply nt_chain; assumption|apply nt_sup|apply nt_nsup].
Qed.
Print Assumptions C05_normal_trunc_partial.

(** A rejected and an accepted value of the same class. *)
Example C05_ex : forall lgam,
  snd (prim_incorporate (Exponential lgam) (prim_new (Exponential lgam) (1, 1) tt) 0 (-1)) = Err ValueError /\
  snd (prim_incorporate (Exponential lgam) (prim_new (Exponential lgam) (1, 1) tt) 0 1) = Ok tt.
Proof. intros. unfold prim_incorporate. simpl. rdec. auto. Qed.

(** Beta: the value 0 is accepted although its density is zero; a value just
    above 1 likewise. *)
Theorem C05_beta_refuted :
  exists x, ~ 0 < x < 1 /\
    forall lgam, snd (prim_incorporate (Beta lgam) (prim_new (Beta lgam) tt (1, 1/2)) 0 x) = Ok tt /\
      prim_logpdf (Beta lgam) (prim_new (Beta lgam) tt (1, 1/2)) 0 x = Ok NInf.
Proof.
  exists 0. split; [lra|]. intros lgam.
  unfold prim_incorporate, prim_logpdf. simpl.
  unfold beta_clip, allclose. rewrite Rminus_0_r, Rabs_R0.
  rewrite (proj2 (Rleb_true 0 (/ 100000000 + / 100000 * 0))) by lra.
  unfold unit_inb. rdec. simpl. auto.
Qed.
Print Assumptions C05_beta_refuted.

(** What does hold for beta: rejected values leave the object unchanged and
    have zero density. *)
Theorem C05_beta_partial : forall lgam s r x,
  snd (prim_incorporate (Beta lgam) s r x) = Err ValueError ->
  fst (prim_incorporate (Beta lgam) s r x) = s /\
  prim_logpdf (Beta lgam) s r x = Ok NInf.
Proof.
  intros lgam s r x. unfold prim_incorporate, prim_logpdf.
  destruct (dmem r (p_data s)); [discriminate|].
  cbv [p_check p_inb Beta]. destruct (unit_inb (beta_clip x)) eqn:E; [discriminate|].
  intros _. split; [reflexivity|].
  destruct (unit_inb x) eqn:E2; [|reflexivity]. exfalso.
  unfold beta_clip in E. destruct (allclose 0 x).
  - assert (unit_inb (1 / 1000) = true) by (apply unit_inb_true; lra). congruence.
  - destruct (allclose 1 x); [|congruence].
    assert (unit_inb (999 / 1000) = true) by (apply unit_inb_true; lra). congruence.
Qed.
Print Assumptions C05_beta_partial.

Example C05_beta_partial_ex : forall lgam,
  snd (prim_incorporate (Beta lgam) (prim_new (Beta lgam) tt (1, 1/2)) 0 2) = Err ValueError.
Proof.
  intros. unfold prim_incorporate. simpl. unfold beta_clip, allclose.
  rewrite (Rabs_left (0 - 2)) by lra. rewrite (Rabs_right 2) by lra.
  rewrite (Rabs_left (1 - 2)) by lra. rdec. unfold unit_inb. rdec. reflexivity.
Qed.

(** Von Mises: rejection is exact and atomic; an accepted angle has positive
    density except where the resultant vanishes (see C04). *)
Theorem C05_vonmises_partial : forall lbes s r x,
  dget r (p_data s) = None ->
  (0 <= x <= 2 * PI -> snd (prim_incorporate (Vonmises lbes) s r x) = Ok tt /\
     prim_logpdf (Vonmises lbes) s r x <> Ok NInf) /\
  (~ (0 <= x <= 2 * PI) ->
     prim_incorporate (Vonmises lbes) s r x = (s, Err ValueError) /\
     prim_logpdf (Vonmises lbes) s r x = Ok NInf).
Proof.
  intros lbes s r x Hr. apply dmem_false_None in Hr.
  unfold prim_incorporate, prim_logpdf. rewrite Hr. cbn [p_check p_inb Vonmises].
  split; intros Hx.
  - apply vm_inb_true in Hx. rewrite Hx. split; [reflexivity|].
    cbn [p_pred Vonmises]. destruct (p_stats s) as [[n a] b]. unfold vm_predictive.
    destruct (vm_guard n (p_hyp s)); [|discriminate].
    unfold vm_log_Z. destruct (Rltb 0 _); simpl; [|discriminate].
    destruct (Rltb 0 _); simpl; discriminate.
  - destruct (vm_inb x) eqn:E; [apply vm_inb_true in E; tauto|]. auto.
Qed.
Print Assumptions C05_vonmises_partial.

Example C05_vonmises_partial_ex : dget 3 (p_data (prim_new (Vonmises ln) (VHyp 1 PI 1) tt)) = None
  /\ 0 <= 1 <= 2 * PI /\ ~ 0 <= -1 <= 2 * PI.
Proof. pose proof PI_RGT_0. pose proof PI2_1. split; [reflexivity|]. lra. Qed.

(* ------------------------------------------------------------------ *)
(** ** C06: discrete predictive distributions sum to one *)

Theorem C06_bernoulli : forall lgam h ops s tr r,
  p_hok (Bernoulli lgam) h = true ->
  prim_run (Bernoulli lgam) (prim_new (Bernoulli lgam) h tt) ops = (s, tr) ->
  dget r (p_data s) = None ->
  prob (prim_logpdf _ s r 0) + prob (prim_logpdf _ s r 1) = 1.
Proof.
  intros lgam h ops s tr r Hh Hrun Hr.
  pose proof (pinv_run _ _ _ (bern_laws lgam) _ ops (pinv_new _ _ _ (bern_laws lgam) h tt)) as Hi.
  pose proof (hok_run _ (prim_new (Bernoulli lgam) h tt) ops Hh) as Hh'.
  rewrite Hrun in Hi, Hh'. cbn [fst] in Hi, Hh'. destruct Hi as [_ [Hok Hst]].
  apply dmem_false_None in Hr. unfold prim_logpdf. rewrite Hr.
  rewrite (proj2 (bern_sup lgam 0 ltac:(auto))), (proj2 (bern_sup lgam 1 ltac:(auto))), Hst.
  destruct (p_par s).
  apply (bern_total lgam _ _ Hh' Hok).
Qed.
Print Assumptions C06_bernoulli.

Theorem C06_categorical : forall lgam k h ops s tr r,
  (0 < k)%nat ->
  p_hok (Categorical lgam k) h = true ->
  prim_run (Categorical lgam k) (prim_new (Categorical lgam k) h tt) ops = (s, tr) ->
  dget r (p_data s) = None ->
  Rsum (map (fun i => prob (prim_logpdf _ s r (INR i))) (seq 0 k)) = 1.
Proof.
  intros lgam k h ops s tr r Hk Hh Hrun Hr.
  pose proof (pinv_run _ _ _ (cat_laws lgam k) _ ops (pinv_new _ _ _ (cat_laws lgam k) h tt)) as Hi.
  pose proof (hok_run _ (prim_new (Categorical lgam k) h tt) ops Hh) as Hh'.
  rewrite Hrun in Hi, Hh'. cbn [fst] in Hi, Hh'. destruct Hi as [_ [Hok Hst]].
  apply dmem_false_None in Hr. rewrite <- (cat_total lgam k (p_hyp s) _ Hk Hh' Hok).
  apply f_equal, map_ext_in. intros i Hin. apply in_seq in Hin.
  unfold prim_logpdf. rewrite Hr, (proj2 (cat_sup lgam k (INR i) ltac:(exists i; split; [lia|auto]))).
  rewrite Hst. destruct (p_par s). reflexivity.
Qed.
Print Assumptions C06_categorical.

(** The same objects as in [C04_bernoulli_ex] and [C04_hypers_ex] meet these
    hypotheses; here the categorical one explicitly. *)
Example C06_categorical_ex : forall lgam,
  p_hok (Categorical lgam 3) 1 = true /\ (0 < 3)%nat /\
  dget 2 (p_data (fst (prim_run (Categorical lgam 3) (prim_new (Categorical lgam 3) 1 tt) [OpInc 5 (INR 1)]))) = None.
Proof.
  intros. split; [simpl; rdec; reflexivity|]. split; [lia|].
  assert (B : cat_inb 3 (INR 1) = true).
  { apply cat_inb_true. exists 1%nat. split; [lia|reflexivity]. }
  generalize dependent (INR 1). intros y B. cbn -[Int_part cat_inb to_index].
  unfold prim_incorporate, dmem. cbn -[Int_part cat_inb to_index]. rewrite B. reflexivity.
Qed.

Theorem C06_geometric : forall lgam h ops s tr r,
  (forall x, 0 < x -> lgam (x + 1) = ln x + lgam x) ->
  p_hok (Geometric lgam) h = true ->
  prim_run (Geometric lgam) (prim_new (Geometric lgam) h tt) ops = (s, tr) ->
  dget r (p_data s) = None ->
  infinite_sum (fun n => prob (prim_logpdf _ s r (INR n))) 1.
Proof.
  intros lgam h ops s tr r Hg Hh Hrun Hr.
  pose proof (pinv_run _ _ _ (geom_laws lgam) _ ops (pinv_new _ _ _ (geom_laws lgam) h tt)) as Hi.
  pose proof (hok_run _ (prim_new (Geometric lgam) h tt) ops Hh) as Hh'.
  rewrite Hrun in Hi, Hh'. cbn [fst] in Hi, Hh'. destruct Hi as [_ [Hok Hst]].
  apply dmem_false_None in Hr.
  intros eps He. destruct (geom_total lgam (p_hyp s) _ Hg Hh' Hok eps He) as [n0 Hn0].
  exists n0. intros n Hn. rewrite <- Hst in Hn0.
  erewrite sum_eq; [apply (Hn0 n Hn)|]. intros i _. unfold prim_logpdf.
  rewrite Hr, (proj2 (geom_sup lgam (INR i) ltac:(eauto))). destruct (p_par s). reflexivity.
Qed.
Print Assumptions C06_geometric.

Theorem C06_poisson : forall lgam h ops s tr r,
  (forall x, 0 < x -> lgam (x + 1) = ln x + lgam x) -> lgam 1 = 0 ->
  p_hok (Poisson lgam) h = true ->
  prim_run (Poisson lgam) (prim_new (Poisson lgam) h tt) ops = (s, tr) ->
  dget r (p_data s) = None ->
  infinite_sum (fun n => prob (prim_logpdf _ s r (INR n))) 1.
Proof.
  intros lgam h ops s tr r Hg H1 Hh Hrun Hr.
  pose proof (pinv_run _ _ _ (pois_laws lgam) _ ops (pinv_new _ _ _ (pois_laws lgam) h tt)) as Hi.
  pose proof (hok_run _ (prim_new (Poisson lgam) h tt) ops Hh) as Hh'.
  rewrite Hrun in Hi, Hh'. cbn [fst] in Hi, Hh'. destruct Hi as [_ [Hok Hst]].
  apply dmem_false_None in Hr.
  intros eps He. destruct (pois_total lgam (p_hyp s) _ Hg H1 Hh' Hok eps He) as [n0 Hn0].
  exists n0. intros n Hn. rewrite <- Hst in Hn0.
  erewrite sum_eq; [apply (Hn0 n Hn)|]. intros i _. unfold prim_logpdf.
  rewrite Hr, (proj2 (pois_sup lgam (INR i) ltac:(eauto))). destruct (p_par s). reflexivity.
Qed.
Print Assumptions C06_poisson.

Example C06_poisson_ex : 
  (forall x, 0 < x -> lgam_w (x + 1) = ln x + lgam_w x) /\ lgam_w 1 = 0 /\
  p_hok (Poisson lgam_w) (1, 2) = true.
Proof.
  split; [exact lgam_w_rec|]. split; [exact lgam_w_1|]. simpl. rdec. reflexivity.
Qed.

(* ------------------------------------------------------------------ *)
(** ** C52: the posterior scale of the normal model is positive *)

(** For every history, the posterior scale computed from the running sums is at
    least the prior scale, and it equals the prior scale plus the within-data
    and the prior-to-data scatter: sum of (x - mn)^2 plus r (m - mn)^2. *)
Theorem C52_normal_scale : forall lgam h ops s tr,
  p_hok (Normal lgam) h = true ->
  prim_run (Normal lgam) (prim_new (Normal lgam) h tt) ops = (s, tr) ->
  let '(n, sx, sq) := p_stats s in
  let '(mn, rn, sn, nun) := normal_posterior (IZR n) sx sq (p_hyp s) in
  0 < n_s (p_hyp s) <= sn /\ 0 < rn /\ 0 < nun /\
  sn = n_s (p_hyp s) + Rsum (map (fun x => (x - mn) * (x - mn)) (dvals (p_data s)))
       + n_r (p_hyp s) * (n_m (p_hyp s) - mn) * (n_m (p_hyp s) - mn).
Proof.
  intros lgam h ops s tr Hh Hrun.
  pose proof (pinv_run _ _ _ (normal_laws lgam) _ ops (pinv_new _ _ _ (normal_laws lgam) h tt)) as Hi.
  pose proof (hok_run _ (prim_new (Normal lgam) h tt) ops Hh) as Hh'.
  rewrite Hrun in Hi, Hh'. cbn [fst] in Hi, Hh'. destruct Hi as [_ [_ Hst]].
  rewrite Hst. unfold sum2_spec.
  set (l := dvals (p_data s)) in *. cbn [p_hok Normal] in Hh'.
  destruct (normal_posterior_pos (p_hyp s) l (fun x => x) Hh')
    as [mn [sn [E [Hs [Hr [Esn Emn]]]]]].
  cbv beta in E, Esn, Emn. rewrite E.
  apply nhyp_ok_true in Hh'. destruct Hh' as [Hr0 [Hs0 Hnu]].
  pose proof (nobs_nonneg l) as Hn. apply IZR_le in Hn.
  split; [lra|]. split; [exact Hr|]. split; [lra|].
  rewrite Esn. rewrite IZR_nobs in *.
  assert (Sq : forall c k0, Rsum (map (fun x => (x - c) * (x - c)) k0) =
     Rsum (map (fun x => x * x) k0) - 2 * c * Rsum (map (fun x => x) k0) + INR (length k0) * (c * c)).
  { intros c. induction k0 as [|y k0 IH]; [simpl; lra|].
    change (length (y :: k0)) with (S (length k0)). rewrite S_INR. simpl. fold Rsum.
    rewrite IH. ring. }
  rewrite Sq.
  assert (Es : n_r (p_hyp s) * n_m (p_hyp s) + Rsum (map (fun x => x) l) =
               mn * (n_r (p_hyp s) + INR (length l))) by (rewrite Emn; field; lra).
  set (X := Rsum (map (fun x => x) l)) in *.
  assert (EX : X = mn * (n_r (p_hyp s) + INR (length l)) - n_r (p_hyp s) * n_m (p_hyp s)) by lra.
  rewrite EX. ring.
Qed.
Print Assumptions C52_normal_scale.

(** The lognormal class uses the same formula on log values. *)
Theorem C52_lognormal_scale : forall lgam h ops s tr,
  p_hok (Lognormal lgam) h = true ->
  prim_run (Lognormal lgam) (prim_new (Lognormal lgam) h tt) ops = (s, tr) ->
  let '(n, sx, sq) := p_stats s in
  let '(mn, rn, sn, nun) := normal_posterior (IZR n) sx sq (p_hyp s) in
  0 < n_s (p_hyp s) <= sn /\ 0 < rn /\ 0 < nun.
Proof.
  intros lgam h ops s tr Hh Hrun.
  pose proof (pinv_run _ _ _ (lognormal_laws lgam) _ ops (pinv_new _ _ _ (lognormal_laws lgam) h tt)) as Hi.
  pose proof (hok_run _ (prim_new (Lognormal lgam) h tt) ops Hh) as Hh'.
  rewrite Hrun in Hi, Hh'. cbn [fst] in Hi, Hh'. destruct Hi as [_ [_ Hst]].
  rewrite Hst. unfold sum2_spec.
  set (l := dvals (p_data s)) in *. cbn [p_hok Lognormal] in Hh'.
  destruct (normal_posterior_pos (p_hyp s) l ln Hh')
    as [mn [sn [E [Hs [Hr [Esn Emn]]]]]].
  cbv beta in E. rewrite E.
  apply nhyp_ok_true in Hh'. destruct Hh' as [Hr0 [Hs0 Hnu]].
  pose proof (nobs_nonneg l) as Hn. apply IZR_le in Hn. repeat split; lra.
Qed.
Print Assumptions C52_lognormal_scale.

Example C52_ex : forall lgam,
  p_hok (Normal lgam) (NHyp 3 1 2 3) = true /\
  p_stats (fst (prim_run (Normal lgam) (prim_new (Normal lgam) (NHyp 3 1 2 3) tt) [OpInc 1 7]))
   = (1%Z, 0 + 7, 0 + 7 * 7).
Proof. intros. simpl. unfold nhyp_ok; simpl. rdec. auto. Qed.
