(** * C74: what the continuous predictive densities integrate to *)
From Coquelicot Require Import Coquelicot.
From Verif Require Import GammaWitness PrimLift PrimSim CrpFacts LogSpaceFacts P01_Prim P03_Crp P25_Simulate.
From Coq Require Import Lia Lra.
Local Open Scope R_scope.

(** The exponential class after any calls.  With the shape [a] plus the number of
    values held and the rate [b] plus their sum, the probability of the interval
    from 0 to [t] is [1 - (B / (B + t)) ^ A], which tends to one; negative values
    have density zero. *)
Theorem C74_exponential : forall lgam h ops s tr r,
  (forall x, 0 < x -> lgam (x + 1) = ln x + lgam x) ->
  p_hok (Exponential lgam) h = true ->
  prim_run (Exponential lgam) (prim_new (Exponential lgam) h tt) ops = (s, tr) ->
  dget r (p_data s) = None ->
  let density x := prob (prim_logpdf _ s r x) in
  let A := fst (p_hyp s) + INR (length (dvals (p_data s))) in
  let B := snd (p_hyp s) + Rsum (dvals (p_data s)) in
  0 < A /\ 0 < B /\
  (forall x, x < 0 -> density x = 0) /\
  (forall t, 0 <= t -> is_RInt density 0 t (1 - Rpower (B / (B + t)) A)) /\
  is_lim (fun t => RInt density 0 t) p_infty 1.
Proof.
  intros lgam h ops s tr r Hg Hh Hrun Hr density A B.
  pose proof (pinv_run _ _ _ (expo_laws lgam) _ ops (pinv_new _ _ _ (expo_laws lgam) h tt)) as Hi.
  pose proof (hok_run _ (prim_new (Exponential lgam) h tt) ops Hh) as Hh'.
  rewrite Hrun in Hi, Hh'. cbn [fst] in Hi, Hh'. destruct Hi as [_ [Hok Hst]].
  unfold sum_spec in Hst. set (vs := dvals (p_data s)) in *.
  pose proof (Rsum_nonneg vs Hok) as HS.
  assert (EN : IZR (nobs vs) = INR (length vs)) by (unfold nobs; rewrite INR_IZR_INZ; reflexivity).
  pose proof (pos_INR (length vs)) as HN.
  assert (HAB : 0 < A /\ 0 < B /\ forall x, 0 <= x ->
    density x = exp (ln A + A * ln B - (A + 1) * ln (B + x))).
  { destruct (p_hyp s) as [a b] eqn:Ehyp. cbn in Hh'. apply andb_prop in Hh'. destruct Hh' as [Ha Hb].
    apply Rltb_true in Ha, Hb. unfold A, B. cbn [fst snd].
    split; [lra|]. split; [lra|]. intros x Hx. unfold density, prim_logpdf.
    pose proof (proj2 (dmem_false_None _ _) Hr) as Hm. rewrite Hm, (proj2 (expo_sup lgam x Hx)).
    cbn [p_pred Exponential]. rewrite Hst, Ehyp. cbn [fst snd]. unfold expo_predictive, gam_log_Z.
    rewrite plus_IZR, EN. rewrite !plog_pos by lra. cbn [rbind prob lexp]. f_equal.
    replace (a + (INR (length vs) + 1)) with (a + INR (length vs) + 1) by ring.
    rewrite Hg by lra.
    replace (b + (Rsum vs + x)) with (b + Rsum vs + x) by ring. ring. }
  destruct HAB as [HA [HB HD]].
  assert (HI : forall t, 0 <= t -> is_RInt density 0 t (1 - Rpower (B / (B + t)) A)).
  { intros t Ht.
    apply (is_RInt_ext (fun x => exp (ln A + A * ln B - (A + 1) * ln (B + x)))).
    { intros x. rewrite Rmin_left, Rmax_right by exact Ht. intros Hx. symmetry. apply HD. lra. }
    set (F := fun x => - exp (A * ln B - A * ln (B + x))).
    replace (1 - Rpower (B / (B + t)) A) with (minus (F t) (F 0)).
    - apply (is_RInt_derive F).
      + intros x. rewrite Rmin_left, Rmax_right by exact Ht. intros Hx. unfold F.
        auto_derive; [lra|].
        replace (ln A + A * ln B - (A + 1) * ln (B + x))
          with (ln A + (- ln (B + x) + (A * ln B - A * ln (B + x)))) by ring.
        rewrite (exp_plus (ln A)), (exp_plus (- ln (B + x))), (exp_Ropp (ln (B + x))), !exp_ln by lra.
        unfold Rminus.
        field; lra.
      + intros x. rewrite Rmin_left, Rmax_right by exact Ht. intros Hx.
        apply (ex_derive_continuous (V:=R_NormedModule)). auto_derive. lra.
    - unfold F, minus, plus, opp; simpl. rewrite Rplus_0_r.
      replace (A * ln B - A * ln B) with 0 by ring. rewrite exp_0.
      unfold Rpower. rewrite ln_div by lra.
      replace (A * (ln B - ln (B + t))) with (A * ln B - A * ln (B + t)) by ring. ring. }
  split; [exact HA|]. split; [exact HB|]. split; [|split; [exact HI|]].
  - intros x Hx. unfold density, prim_logpdf.
    pose proof (proj2 (dmem_false_None _ _) Hr) as Hm. rewrite Hm.
    cbn [p_inb Exponential]. rewrite (proj2 (Rltb_true x 0) Hx). reflexivity.
  - apply (is_lim_ext_loc (fun t => 1 - Rpower (B / (B + t)) A)).
    { exists 0. intros t Ht. symmetry. apply is_RInt_unique, HI. lra. }
    apply is_lim_spec. intros eps.
    exists (B * exp (- ln eps / A)). intros t Ht.
    pose proof (cond_pos eps) as He.
    assert (Hp : 0 < B * exp (- ln eps / A)) by (apply Rmult_lt_0_compat; [lra|apply exp_pos]).
    replace (1 - Rpower (B / (B + t)) A - 1) with (- Rpower (B / (B + t)) A) by ring.
    rewrite Rabs_Ropp, Rabs_right by (apply Rle_ge, Rlt_le, exp_pos).
    unfold Rpower. rewrite <- (exp_ln eps He) at 1. apply exp_increasing.
    rewrite ln_div by lra.
    assert (H : ln B - ln eps / A < ln (B + t)).
    { replace (ln B - ln eps / A) with (ln (B * exp (- ln eps / A))).
      - apply ln_increasing; lra.
      - rewrite ln_mult, ln_exp by (try apply exp_pos; lra). field. lra. }
    apply (Rmult_lt_compat_l A) in H; [|exact HA].
    replace (A * (ln B - ln eps / A)) with (A * ln B - ln eps) in H by (field; lra). lra.
Qed.
Print Assumptions C74_exponential.

(** Truncated normal: with [cdf] an antiderivative of the standard normal density,
    the probability of any interval inside the bounds is the normal probability of
    that interval divided by the normal probability of the whole range, so the whole
    range has probability one; values outside the bounds have density zero. *)
Theorem C74_normal_trunc : forall lgam cdf lo hi (s : pstate (NormalTrunc lgam cdf lo hi)) r mu sigma,
  (forall z, is_derive cdf z (normal_pdf 0 1 z)) ->
  p_par s = (mu, sigma) -> 0 < sigma -> lo < hi ->
  dget r (p_data s) = None ->
  let density x := prob (prim_logpdf _ s r x) in
  let Phi x := cdf ((x - mu) / sigma) in
  0 < Phi hi - Phi lo /\
  (forall x, x < lo \/ hi < x -> density x = 0) /\
  (forall u v, lo <= u <= v -> v <= hi -> is_RInt density u v ((Phi v - Phi u) / (Phi hi - Phi lo))) /\
  is_RInt density lo hi 1.
Proof.
  intros lgam cdf lo hi s r mu sg Hcdf Hq Hs Hlh Hr density Phi.
  pose proof PI_RGT_0 as HP.
  assert (Hpos : forall z, 0 < normal_pdf 0 1 z).
  { intros z. rewrite normal_pdf_exp by lra. apply exp_pos. }
  assert (HPhi : forall x, is_derive Phi x (normal_pdf 0 1 ((x - mu) / sg) / sg)).
  { intros x. unfold Phi. evar_last.
    - apply (is_derive_comp cdf (fun x => (x - mu) / sg)); [apply Hcdf|]. auto_derive; [exact I|reflexivity].
    - unfold scal; simpl. unfold mult; simpl. field. lra. }
  assert (Hd : 0 < Phi hi - Phi lo).
  { destruct (MVT_gen Phi lo hi (fun x => normal_pdf 0 1 ((x - mu) / sg) / sg)) as [c [_ E]].
    - intros x _. apply HPhi.
    - intros x _. apply continuity_pt_filterlim. apply (ex_derive_continuous (V:=R_NormedModule)).
      eexists. apply HPhi.
    - rewrite E. apply Rmult_lt_0_compat; [|lra]. apply Rdiv_lt_0_compat; [apply Hpos|exact Hs]. }
  assert (HD : forall x, lo <= x <= hi ->
    density x = normal_pdf 0 1 ((x - mu) / sg) / sg / (Phi hi - Phi lo)).
  { intros x Hx.
    destruct (proj2 (C55_normal_trunc lgam cdf lo hi s r mu sg Hq Hs Hd Hr) x Hx) as [l [El Hl]].
    unfold density. rewrite El. cbn [prob lexp]. rewrite <- Hl. unfold Phi, normal_pdf.
    assert (0 < sqrt (2 * PI)) by (apply sqrt_lt_R0; lra).
    replace (((x - mu) / sg - 0) / 1) with ((x - mu) / sg) by (field; lra).
    unfold Phi in Hd. field. repeat split; lra. }
  assert (HI : forall u v, lo <= u <= v -> v <= hi ->
    is_RInt density u v ((Phi v - Phi u) / (Phi hi - Phi lo))).
  { intros u v Huv Hv. set (D := Phi hi - Phi lo) in *.
    apply (is_RInt_ext (fun x => normal_pdf 0 1 ((x - mu) / sg) / sg / D)).
    { intros x. rewrite Rmin_left, Rmax_right by lra. intros Hx. symmetry. apply HD. lra. }
    replace ((Phi v - Phi u) / D) with (minus (Phi v / D) (Phi u / D))
      by (unfold minus, plus, opp; simpl; field; lra).
    apply (is_RInt_derive (fun x => Phi x / D)).
    - intros x _. unfold Rdiv. apply (is_derive_scal_l (V:=R_NormedModule)). apply HPhi.
    - intros x _. apply (ex_derive_continuous (V:=R_NormedModule)). unfold normal_pdf.
      auto_derive. assert (0 < sqrt (2 * PI)) by (apply sqrt_lt_R0; lra).
      repeat split; lra. }
  split; [exact Hd|]. split; [|split; [exact HI|]].
  - intros x Hx. unfold density, prim_logpdf.
    pose proof (proj2 (dmem_false_None _ _) Hr) as Hm. rewrite Hm. cbn [p_inb NormalTrunc].
    destruct Hx as [Hx|Hx]; [rewrite (proj2 (Rleb_false lo x)) by lra|
      rewrite (proj2 (Rleb_false x hi)), Bool.andb_false_r by lra]; reflexivity.
  - replace 1 with ((Phi hi - Phi lo) / (Phi hi - Phi lo)) by (field; lra). apply HI; lra.
Qed.
Print Assumptions C74_normal_trunc.

(** The premise on [cdf] is met by the integral of the normal density. *)
Example C74_normal_trunc_ex : exists cdf : R -> R,
  (forall z, is_derive cdf z (normal_pdf 0 1 z)) /\
  forall lgam, p_par (prim_new (NormalTrunc lgam cdf 0 3) tt (1, 2)) = (1, 2) /\ 0 < 2 /\ 0 < 3 /\
    dget 7 (p_data (prim_new (NormalTrunc lgam cdf 0 3) tt (1, 2))) = None.
Proof.
  exists (fun z => 1 / 2 + RInt (normal_pdf 0 1) 0 z). split.
  - intros z. evar_last.
    + apply (is_derive_plus (fun _ => 1 / 2) (fun z => RInt (normal_pdf 0 1) 0 z)).
      * apply (is_derive_const (K:=R_AbsRing) (V:=R_NormedModule)).
      * assert (C : forall y, continuous (normal_pdf 0 1) y).
        { intros y. apply (ex_derive_continuous (V:=R_NormedModule)). unfold normal_pdf.
          auto_derive. pose proof PI_RGT_0.
          assert (0 < sqrt (2 * PI)) by (apply sqrt_lt_R0; lra). lra. }
        apply (is_derive_RInt (normal_pdf 0 1) (fun z => RInt (normal_pdf 0 1) 0 z) 0 z).
        -- exists (mkposreal 1 Rlt_0_1). intros y _. apply (RInt_correct (V:=R_CompleteNormedModule)).
           apply (ex_RInt_continuous (V:=R_CompleteNormedModule)). intros; apply C.
        -- apply C.
    + apply (plus_zero_l (normal_pdf 0 1 z)).
  - intros lgam. repeat split; lra.
Qed.

(** The predictive density of the normal class as a function of the value: a power
    of a quadratic around the posterior mean (the shape of Student's t). *)
Lemma normal_shape lgam h (vs : list R) (f : R -> R) : nhyp_ok h = true ->
  exists C c q m, 0 < c /\ 0 < q /\
    C = (let e := (n_nu h + INR (length vs) + 1) / 2 in
         (ln q - ln PI) / 2 + (e - 1 / 2) * ln c + lgam e - lgam (e - 1 / 2)) /\
    m = (n_r h * n_m h + Rsum (map f vs)) / (n_r h + INR (length vs)) /\ forall y,
    normal_predictive lgam y (IZR (nobs vs)) (Rsum (map f vs)) (Rsum (map (fun x => f x * f x) vs)) h
    = Ok (C - (n_nu h + INR (length vs) + 1) / 2 * ln (c + q * (y - m) ^ 2)).
Proof.
  intros Hh. destruct (normal_posterior_pos h vs f Hh) as [mn [sn [E1 [Hsn [Hrn [Esn Emn]]]]]].
  pose proof Hh as Hh'. apply nhyp_ok_true in Hh'. destruct Hh' as [Hr [Hs Hnu]].
  rewrite IZR_nobs in *. pose proof (pos_INR (length vs)) as HN.
  set (N := INR (length vs)) in *. set (S1 := Rsum (map f vs)) in *.
  set (S2 := Rsum (map (fun x => f x * f x) vs)) in *.
  pose (q := (n_r h + N) / (n_r h + (N + 1))).
  assert (Hq : 0 < q) by (apply Rdiv_lt_0_compat; lra).
  eexists _, sn, q, mn. split; [lra|]. split; [exact Hq|]. split; [reflexivity|]. split; [exact Emn|]. intros y.
  assert (E2 : exists mm, normal_posterior (N + 1) (S1 + y) (S2 + y * y) h
     = (mm, n_r h + (N + 1), sn + q * (y - mn) ^ 2, n_nu h + (N + 1))).
  { unfold normal_posterior. eexists.
    set (m' := (n_r h * n_m h + (S1 + y)) / (n_r h + (N + 1))).
    set (s' := n_s h + (S2 + y * y) + n_r h * n_m h * n_m h - (n_r h + (N + 1)) * m' * m').
    assert (Es : s' = sn + q * (y - mn) ^ 2).
    { unfold s', m', q.
      assert (ES1 : S1 = mn * (n_r h + N) - n_r h * n_m h) by (rewrite Emn; field; lra).
      rewrite Esn, ES1. field. lra. }
    assert (G : 0 < s').
    { rewrite Es. assert (0 <= q * (y - mn) ^ 2) by (apply Rmult_le_pos; [lra|apply pow2_ge_0]). lra. }
    rewrite (proj2 (Reqb_false s' 0)) by lra. rewrite Es. reflexivity. }
  destruct E2 as [mm E2].
  assert (0 <= q * (y - mn) ^ 2) by (apply Rmult_le_pos; [lra|apply pow2_ge_0]).
  unfold normal_predictive. rewrite E1, E2.
  rewrite !normal_log_Z_pos by lra. cbn [rbind]. f_equal.
  set (L := ln (sn + q * (y - mn) ^ 2)).
  replace (n_nu h + (N + 1)) with (n_nu h + N + 1) by ring.
  replace ((n_nu h + N + 1) / 2 - 1 / 2) with ((n_nu h + N) / 2) by field.
  unfold q at 1. rewrite ln_div by lra. unfold LOG2PI. field.
Qed.

(** What Euler's integral says of [lgam], which stands for scipy's gammaln at
    normal.py:193-200: the integral of [(1 + t^2) ^ (- e)] over
    the real line is [sqrt pi * Gamma (e - 1/2) / Gamma e]. *)
Definition euler_at (lgam : R -> R) (e : R) : Prop :=
  is_lim (fun T => RInt (fun t => Rpower (1 + t ^ 2) (- e)) (- T) T) p_infty
    (sqrt PI * exp (lgam (e - 1 / 2) - lgam e)).

(** Euler's integral follows from the recurrence of log-gamma and its values at 1/2
    and 1 for every exponent that is a multiple of 1/2 and at least 1. *)
Lemma euler_derive e t :
  is_derive (fun t => t * Rpower (1 + t ^ 2) (- e)) t
    ((1 - 2 * e) * Rpower (1 + t ^ 2) (- e) + 2 * e * Rpower (1 + t ^ 2) (- (e + 1))).
Proof.
  pose proof (pow2_ge_0 t) as Ht. unfold Rpower. auto_derive; [simpl in *; lra|].
  replace (- (e + 1) * ln (1 + t ^ 2)) with (- e * ln (1 + t ^ 2) + - ln (1 + t ^ 2)) by ring.
  rewrite exp_plus, exp_Ropp, exp_ln by lra. simpl in *. field. lra.
Qed.

Lemma euler_parts e T : e <> 0 ->
  RInt (fun t => Rpower (1 + t ^ 2) (- (e + 1))) (- T) T
  = (2 * T * Rpower (1 + T ^ 2) (- e) + (2 * e - 1) * RInt (fun t => Rpower (1 + t ^ 2) (- e)) (- T) T) / (2 * e).
Proof.
  intros He.
  assert (HC : forall e x, continuous (fun t => Rpower (1 + t ^ 2) (- e)) x).
  { intros e' x. apply (ex_derive_continuous (V:=R_NormedModule)). unfold Rpower. auto_derive.
    pose proof (pow2_ge_0 x). simpl in *. lra. }
  assert (HX : forall e a b, ex_RInt (fun t => Rpower (1 + t ^ 2) (- e)) a b).
  { intros. apply (ex_RInt_continuous (V:=R_CompleteNormedModule)). intros; apply HC. }
  assert (H1 : is_RInt (fun t => (1 - 2 * e) * Rpower (1 + t ^ 2) (- e) + 2 * e * Rpower (1 + t ^ 2) (- (e + 1))) (- T) T
    (T * Rpower (1 + T ^ 2) (- e) - (- T) * Rpower (1 + (- T) ^ 2) (- e))).
  { apply (is_RInt_derive (fun t => t * Rpower (1 + t ^ 2) (- e))).
    - intros x _. apply euler_derive.
    - intros x _. apply (ex_derive_continuous (V:=R_NormedModule)). unfold Rpower. auto_derive.
      pose proof (pow2_ge_0 x). simpl in *. lra. }
  pose proof (is_RInt_plus (V:=R_NormedModule) _ _ _ _ _ _
    (is_RInt_scal (V:=R_NormedModule) _ _ _ (1 - 2 * e) _ (RInt_correct (V:=R_CompleteNormedModule) _ _ _ (HX e (- T) T)))
    (is_RInt_scal (V:=R_NormedModule) _ _ _ (2 * e) _ (RInt_correct (V:=R_CompleteNormedModule) _ _ _ (HX (e + 1) (- T) T)))) as H2.
  pose proof (is_RInt_unique (V:=R_CompleteNormedModule) _ _ _ _ H1) as U1.
  pose proof (is_RInt_unique (V:=R_CompleteNormedModule) _ _ _ _ H2) as U2.
  pose proof (eq_trans (eq_sym U1) U2) as E.
  unfold plus, scal in E; simpl in E. unfold mult in E; simpl in E.
  replace ((- T) ^ 2) with (T ^ 2) in E by ring. simpl in *.
  match goal with |- ?a = _ => set (Y := a) in * end.
  apply (Rmult_eq_reg_l (2 * e)); [|lra]. field_simplify; [|exact He].
  replace (- T * (- T * 1)) with (T * (T * 1)) in E by ring. lra.
Qed.

Lemma euler_step lgam e : (forall x, 0 < x -> lgam (x + 1) = ln x + lgam x) ->
  1 / 2 < e -> euler_at lgam e -> euler_at lgam (e + 1).
Proof.
  intros Hg He H. unfold euler_at in *.
  apply (is_lim_ext (fun T => (2 * T * Rpower (1 + T ^ 2) (- e)
    + (2 * e - 1) * RInt (fun t => Rpower (1 + t ^ 2) (- e)) (- T) T) / (2 * e))).
  { intros T. symmetry. apply euler_parts. lra. }
  replace (e + 1 - 1 / 2) with (e - 1 / 2 + 1) by ring. rewrite !Hg by lra.
  replace (ln (e - 1 / 2) + lgam (e - 1 / 2) - (ln e + lgam e))
    with (ln (e - 1 / 2) + (- ln e + (lgam (e - 1 / 2) - lgam e))) by ring.
  rewrite exp_plus, (exp_plus (- ln e)), exp_Ropp, !exp_ln by lra.
  set (G := exp (lgam (e - 1 / 2) - lgam e)) in *.
  replace (sqrt PI * ((e - 1 / 2) * (/ e * G))) with ((0 + (2 * e - 1) * (sqrt PI * G)) * / (2 * e)) by (field; lra).
  unfold Rdiv. apply (is_lim_scal_r _ (/ (2 * e)) p_infty (0 + (2 * e - 1) * (sqrt PI * G))).
  apply (is_lim_plus' _ _ p_infty 0 ((2 * e - 1) * (sqrt PI * G))).
  - apply is_lim_spec. intros eps. pose proof (cond_pos eps) as Hp.
    exists (exp (ln (eps / 2) / (1 - 2 * e))). intros T HT. pose proof (exp_pos (ln (eps / 2) / (1 - 2 * e))) as H0.
    assert (HT0 : 0 < T) by lra. rewrite Rminus_0_r.
    assert (Hle : Rpower (1 + T ^ 2) (- e) <= exp (- 2 * e * ln T)).
    { unfold Rpower. left. apply exp_increasing.
      assert (2 * ln T < ln (1 + T ^ 2)).
      { replace (2 * ln T) with (ln (T ^ 2)) by (simpl; rewrite Rmult_1_r, ln_mult by lra; ring).
        apply ln_increasing; [|lra]. apply pow_lt. exact HT0. }
      apply (Rmult_lt_compat_l e) in H1; [|lra]. lra. }
    assert (Hq : 0 < Rpower (1 + T ^ 2) (- e)) by apply exp_pos.
    rewrite Rabs_right by (apply Rle_ge; apply Rmult_le_pos; lra).
    apply Rle_lt_trans with (2 * T * exp (- 2 * e * ln T)); [apply Rmult_le_compat_l; lra|].
    rewrite <- (exp_ln T HT0) at 1. rewrite Rmult_assoc, <- exp_plus.
    replace (ln T + - 2 * e * ln T) with ((1 - 2 * e) * ln T) by ring.
    assert (HL : ln (eps / 2) / (1 - 2 * e) < ln T).
    { rewrite <- (ln_exp (ln (eps / 2) / (1 - 2 * e))). apply ln_increasing; lra. }
    apply (Rmult_lt_compat_l (2 * e - 1)) in HL; [|lra].
    replace ((2 * e - 1) * (ln (eps / 2) / (1 - 2 * e))) with (- ln (eps / 2)) in HL by (field; lra).
    assert (exp ((1 - 2 * e) * ln T) < eps / 2).
    { rewrite <- (exp_ln (eps / 2)) by lra. apply exp_increasing. lra. }
    lra.
  - apply (is_lim_scal_l _ (2 * e - 1) p_infty (sqrt PI * G)). exact H.
Qed.

Lemma euler_one lgam : lgam (1 / 2) = ln PI / 2 -> lgam 1 = 0 -> euler_at lgam 1.
Proof.
  intros Hh H1. pose proof PI_RGT_0 as HP. unfold euler_at.
  replace (1 - 1 / 2) with (1 / 2) by field.
  rewrite Hh, H1, Rminus_0_r, <- (sqrt_exp PI HP), sqrt_sqrt by lra.
  apply (is_lim_ext (fun T => 2 * atan T)).
  { intros T. symmetry. apply is_RInt_unique.
    replace (2 * atan T) with (minus (atan T) (atan (- T)))
      by (unfold minus, plus, opp; simpl; rewrite atan_opp; ring).
    apply (is_RInt_derive atan).
    - intros x _. pose proof (pow2_ge_0 x) as Hx. rewrite Rpower_Ropp, Rpower_1 by lra.
      evar_last; [apply is_derive_Reals, derivable_pt_lim_atan|].
      unfold Rsqr. simpl in *. field. lra.
    - intros x _. apply (ex_derive_continuous (V:=R_NormedModule)). unfold Rpower. auto_derive.
      pose proof (pow2_ge_0 x). simpl in *. lra. }
  replace PI with (2 * (PI / 2)) by field.
  apply (is_lim_scal_l atan 2 p_infty (PI / 2)).
  apply is_lim_spec. intros eps. pose proof (cond_pos eps) as He.
  set (d := Rmin (eps / 2) (PI / 4)).
  assert (Hd : 0 < d <= PI / 4 /\ d < eps).
  { unfold d. pose proof (Rmin_l (eps / 2) (PI / 4)). pose proof (Rmin_r (eps / 2) (PI / 4)).
    split; [split; [apply Rmin_pos; lra|lra]|lra]. }
  exists (tan (PI / 2 - d)). intros T HT. destruct (atan_bound T) as [_ B].
  apply atan_increasing in HT. rewrite atan_tan in HT by lra.
  rewrite Rabs_left by lra. lra.
Qed.

Lemma euler_three_halves lgam : (forall x, 0 < x -> lgam (x + 1) = ln x + lgam x) ->
  lgam (1 / 2) = ln PI / 2 -> lgam 1 = 0 -> euler_at lgam (1 / 2 + 1).
Proof.
  intros Hg Hh H1. pose proof PI_RGT_0 as HP. unfold euler_at.
  replace (1 / 2 + 1 - 1 / 2) with 1 by field.
  rewrite Hg, Hh, H1 by lra.
  replace (sqrt PI * exp (0 - (ln (1 / 2) + ln PI / 2))) with 2.
  2:{ rewrite (sqrt_exp PI HP), <- exp_plus.
      replace (ln PI / 2 + (0 - (ln (1 / 2) + ln PI / 2))) with (- ln (1 / 2)) by field.
      rewrite exp_Ropp, exp_ln by lra. field. }
  apply (is_lim_ext (fun T => 2 * T * Rpower (1 + T ^ 2) (- (1 / 2)))).
  { intros T. rewrite euler_parts by lra. field. }
  apply is_lim_spec. intros eps. pose proof (cond_pos eps) as He.
  exists (2 / eps). intros T HT. assert (0 < 2 / eps) by (apply Rdiv_lt_0_compat; lra).
  assert (HT0 : 0 < T) by lra. assert (HT2 : 0 < T ^ 2) by (apply pow_lt; exact HT0).
  rewrite Rpower_Ropp. replace (1 / 2) with (/ 2) by field. rewrite Rpower_sqrt by lra.
  assert (B1 : T < sqrt (1 + T ^ 2)).
  { rewrite <- (sqrt_pow2 T) at 1 by lra. apply sqrt_lt_1; lra. }
  assert (B2 : sqrt (1 + T ^ 2) < 1 + T).
  { rewrite <- (sqrt_pow2 (1 + T)) by lra. apply sqrt_lt_1; [lra|apply pow2_ge_0|]. simpl. lra. }
  set (S := sqrt (1 + T ^ 2)) in *.
  replace (2 * T * / S - 2) with (- (2 * (S - T) * / S)) by (field; lra).
  assert (0 < / S) by (apply Rinv_0_lt_compat; lra).
  rewrite Rabs_Ropp, Rabs_right by (apply Rle_ge, Rmult_le_pos; lra).
  apply Rlt_trans with (2 * / S); [apply Rmult_lt_compat_r; lra|].
  apply Rlt_trans with (2 * / T); [apply Rmult_lt_compat_l; [lra|apply Rinv_lt_contravar; [apply Rmult_lt_0_compat; lra|lra]]|].
  apply (Rmult_lt_reg_r T); [exact HT0|]. rewrite Rmult_assoc, Rinv_l, Rmult_1_r by lra.
  apply (Rmult_lt_compat_l eps) in HT; [|exact He].
  replace (eps * (2 / eps)) with 2 in HT by (field; lra). exact HT.
Qed.

Lemma euler_halves lgam n : (forall x, 0 < x -> lgam (x + 1) = ln x + lgam x) ->
  lgam (1 / 2) = ln PI / 2 -> lgam 1 = 0 -> euler_at lgam ((INR n + 1 + 1) / 2).
Proof.
  intros Hg Hh H1.
  assert (A : forall k, euler_at lgam ((INR (2 * k) + 1 + 1) / 2) /\ euler_at lgam ((INR (S (2 * k)) + 1 + 1) / 2)).
  { induction k as [|k [I1 I2]].
    - split.
      + replace ((INR (2 * 0) + 1 + 1) / 2) with 1 by (simpl; field). apply euler_one; assumption.
      + replace ((INR (S (2 * 0)) + 1 + 1) / 2) with (1 / 2 + 1) by (simpl; field).
        apply euler_three_halves; assumption.
    - replace (2 * S k)%nat with (S (S (2 * k))) by lia. rewrite !S_INR in *. set (x := INR (2 * k)) in *.
      assert (0 <= x) by apply pos_INR. split.
      + replace ((x + 1 + 1 + 1 + 1) / 2) with ((x + 1 + 1) / 2 + 1) by field. apply euler_step; [exact Hg|lra|exact I1].
      + replace ((x + 1 + 1 + 1 + 1 + 1) / 2) with ((x + 1 + 1 + 1) / 2 + 1) by field.
        apply euler_step; [exact Hg|lra|exact I2]. }
  destruct (Nat.Even_or_Odd n) as [[k ->]|[k ->]]; [exact (proj1 (A k))|].
  replace (2 * k + 1)%nat with (S (2 * k)) by lia. exact (proj2 (A k)).
Qed.

(** Normal class after any calls: the density of [x] is a constant times the power
    [- (nu + N + 1) / 2] of a positive quadratic in the distance of [x] from the
    posterior mean, hence symmetric around it and largest there.  Its integral over
    all values is one. *)
Theorem C74_normal : forall lgam h ops s tr r,
  p_hok (Normal lgam) h = true ->
  prim_run (Normal lgam) (prim_new (Normal lgam) h tt) ops = (s, tr) ->
  dget r (p_data s) = None ->
  let density x := prob (prim_logpdf _ s r x) in
  let N := INR (length (dvals (p_data s))) in
  let mean := (n_r (p_hyp s) * n_m (p_hyp s) + Rsum (dvals (p_data s))) / (n_r (p_hyp s) + N) in
  (exists K c q, 0 < K /\ 0 < c /\ 0 < q /\
     forall x, density x = K * Rpower (c + q * (x - mean) ^ 2) (- ((n_nu (p_hyp s) + N + 1) / 2))) /\
  (forall d, density (mean - d) = density (mean + d)) /\
  (forall d e, 0 <= d < e -> density (mean + e) < density (mean + d)) /\
  (forall u v, ex_RInt density u v) /\
  (euler_at lgam ((n_nu (p_hyp s) + N + 1) / 2) ->
   is_lim (fun T => RInt density (mean - T) (mean + T)) p_infty 1).
Proof.
  intros lgam h ops s tr r Hh Hrun Hr density N mean.
  pose proof (pinv_run _ _ _ (normal_laws lgam) _ ops (pinv_new _ _ _ (normal_laws lgam) h tt)) as Hi.
  pose proof (hok_run _ (prim_new (Normal lgam) h tt) ops Hh) as Hh'.
  rewrite Hrun in Hi, Hh'. cbn [fst] in Hi, Hh'. destruct Hi as [_ [Hok Hst]].
  unfold sum2_spec in Hst. set (vs := dvals (p_data s)) in *. cbn [p_hok Normal] in Hh'.
  destruct (normal_shape lgam (p_hyp s) vs (fun x => x) Hh') as [C [c [q [m [Hc [Hq [EC [Em HL]]]]]]]].
  cbv beta in HL. pose proof (pos_INR (length vs)) as HN. cbv zeta in EC. fold N in HN, HL, EC, Em.
  rewrite map_id in Em. fold mean in Em. subst m.
  apply nhyp_ok_true in Hh'. destruct Hh' as [_ [_ Hnu]].
  set (e := (n_nu (p_hyp s) + N + 1) / 2) in *. assert (He : 0 < e) by (unfold e; lra).
  assert (Hpos : forall x, 0 < c + q * (x - mean) ^ 2).
  { intros x. assert (0 <= q * (x - mean) ^ 2) by (apply Rmult_le_pos; [lra|apply pow2_ge_0]). lra. }
  assert (HD : forall x, density x = exp C * Rpower (c + q * (x - mean) ^ 2) (- e)).
  { intros x. unfold density, prim_logpdf. pose proof (proj2 (dmem_false_None _ _) Hr) as Hm. rewrite Hm.
    cbn [p_inb Normal p_pred]. rewrite Hst, HL. cbn [rfin rbind prob lexp].
    unfold Rpower. rewrite <- exp_plus. f_equal. ring. }
  assert (HX : forall u v, ex_RInt density u v).
  { intros u v. apply (ex_RInt_ext (fun x => exp C * Rpower (c + q * (x - mean) ^ 2) (- e))).
    { intros x _. symmetry. apply HD. }
    apply (ex_RInt_continuous (V:=R_CompleteNormedModule)). intros x _.
    apply (ex_derive_continuous (V:=R_NormedModule)). unfold Rpower. auto_derive. apply Hpos. }
  split; [|split; [|split; [|split; [exact HX|]]]].
  - exists (exp C), c, q. split; [apply exp_pos|]. auto.
  - intros d. rewrite !HD. f_equal. f_equal. ring.
  - intros d d' Hd. rewrite !HD. apply Rmult_lt_compat_l; [apply exp_pos|]. unfold Rpower.
    apply exp_increasing.
    assert (ln (c + q * (mean + d - mean) ^ 2) < ln (c + q * (mean + d' - mean) ^ 2)).
    { apply ln_increasing; [apply Hpos|]. apply Rplus_lt_compat_l, Rmult_lt_compat_l; [exact Hq|].
      replace (mean + d - mean) with d by ring. replace (mean + d' - mean) with d' by ring.
      simpl. rewrite !Rmult_1_r. apply Rmult_le_0_lt_compat; lra. }
    rewrite !Ropp_mult_distr_l_reverse. apply Ropp_lt_contravar, Rmult_lt_compat_l; assumption.
  - intros HE. unfold euler_at in HE. set (G := sqrt PI * exp (lgam (e - 1 / 2) - lgam e)) in *.
    pose proof PI_RGT_0 as HP.
    set (u := exp ((ln q - ln c) / 2)). assert (Hu : 0 < u) by apply exp_pos.
    assert (Eu : u ^ 2 = q / c).
    { simpl. rewrite Rmult_1_r. unfold u. rewrite <- exp_plus.
      replace ((ln q - ln c) / 2 + (ln q - ln c) / 2) with (ln q - ln c) by field.
      rewrite <- ln_div by lra. apply exp_ln, Rdiv_lt_0_compat; lra. }
    set (k := exp C * Rpower c (- e) / u).
    set (f := fun t => Rpower (1 + t ^ 2) (- e)) in *.
    assert (Hf : forall x, density x = scal k (scal u (f (u * x + - (u * mean))))).
    { intros x. rewrite HD. change (exp C * Rpower (c + q * (x - mean) ^ 2) (- e) = k * (u * f (u * x + - (u * mean)))).
      unfold k, f.
      replace (c + q * (x - mean) ^ 2) with (c * (1 + (u * x + - (u * mean)) ^ 2)).
      - rewrite <- Rpower_mult_distr; [field; lra|exact Hc|].
        pose proof (pow2_ge_0 (u * x + - (u * mean))). lra.
      - replace ((u * x + - (u * mean)) ^ 2) with (u ^ 2 * (x - mean) ^ 2) by ring. rewrite Eu. field. lra. }
    assert (Hk : k * G = 1).
    { unfold k, G, u. rewrite (sqrt_exp PI HP). unfold Rpower. unfold Rdiv at 1.
      rewrite <- exp_Ropp, <- !exp_plus. transitivity (exp 0); [|apply exp_0]. f_equal. rewrite EC. cbv zeta. field. }
    assert (Hc' : forall x, continuous f x).
    { intros x. apply (ex_derive_continuous (V:=R_NormedModule)). unfold f, Rpower. auto_derive.
      pose proof (pow2_ge_0 x). simpl in *. lra. }
    apply (is_lim_ext (fun T => k * RInt f (- (u * T)) (u * T))).
    { intros T. symmetry. apply is_RInt_unique.
      apply (is_RInt_ext (fun x => scal k (scal u (f (u * x + - (u * mean)))))).
      { intros x _. symmetry. apply Hf. }
      apply (is_RInt_scal (V:=R_NormedModule)). apply (is_RInt_comp_lin f u (- (u * mean))).
      replace (u * (mean - T) + - (u * mean)) with (- (u * T)) by ring.
      replace (u * (mean + T) + - (u * mean)) with (u * T) by ring.
      apply (RInt_correct (V:=R_CompleteNormedModule)).
      apply (ex_RInt_continuous (V:=R_CompleteNormedModule)). intros; apply Hc'. }
    rewrite <- Hk. apply (is_lim_scal_l (fun T => RInt f (- (u * T)) (u * T)) k p_infty G).
    apply (is_lim_comp (fun T => RInt f (- T) T) (fun T => u * T) p_infty G p_infty).
    + exact HE.
    + apply is_lim_spec. intros M. exists (M / u). intros T HT.
      apply (Rmult_lt_compat_l u) in HT; [|exact Hu]. replace (u * (M / u)) with M in HT by (field; lra). exact HT.
    + exists 0. intros T _. discriminate.
Qed.
Print Assumptions C74_normal.

(** For whole numbers nu (the default is 1) the recurrence of log-gamma and its values
    at 1/2 and 1 are enough. *)
Corollary C74_normal_whole : forall lgam h ops s tr r n,
  (forall x, 0 < x -> lgam (x + 1) = ln x + lgam x) -> lgam (1 / 2) = ln PI / 2 -> lgam 1 = 0 ->
  p_hok (Normal lgam) h = true ->
  prim_run (Normal lgam) (prim_new (Normal lgam) h tt) ops = (s, tr) ->
  dget r (p_data s) = None ->
  n_nu (p_hyp s) = INR (S n) ->
  exists mean, is_lim (fun T => RInt (fun x => prob (prim_logpdf _ s r x)) (mean - T) (mean + T)) p_infty 1.
Proof.
  intros lgam h ops s tr r n Hg Hh2 H1 Hh Hrun Hr Hn.
  destruct (C74_normal lgam h ops s tr r Hh Hrun Hr) as [_ [_ [_ [_ HT]]]].
  eexists. apply HT. rewrite Hn.
  replace (INR (S n) + INR (length (dvals (p_data s))) + 1) with (INR (n + length (dvals (p_data s))) + 1 + 1)
    by (rewrite S_INR, plus_INR; ring).
  apply euler_halves; assumption.
Qed.
Print Assumptions C74_normal_whole.

(** Lognormal class: an interval has the probability that the normal class gives to
    the logarithms, when the normal component holds the logarithms of the values and
    has the same hyperparameters; values that are not positive have density zero. *)
Theorem C74_lognormal : forall lgam h ops s tr r h' ops' s' tr' r',
  p_hok (Lognormal lgam) h = true ->
  prim_run (Lognormal lgam) (prim_new (Lognormal lgam) h tt) ops = (s, tr) ->
  dget r (p_data s) = None ->
  p_hok (Normal lgam) h' = true ->
  prim_run (Normal lgam) (prim_new (Normal lgam) h' tt) ops' = (s', tr') ->
  dget r' (p_data s') = None ->
  p_hyp s' = p_hyp s -> dvals (p_data s') = map ln (dvals (p_data s)) ->
  let lognormal x := prob (prim_logpdf _ s r x) in
  let normal y := prob (prim_logpdf _ s' r' y) in
  (forall x, x <= 0 -> lognormal x = 0) /\
  forall u v, 0 < u <= v -> is_RInt lognormal u v (RInt normal (ln u) (ln v)).
Proof.
  intros lgam h ops s tr r h' ops' s' tr' r' Hh Hrun Hr Gh Grun Gr Ehyp Edat lognormal normal.
  pose proof (pinv_run _ _ _ (lognormal_laws lgam) _ ops (pinv_new _ _ _ (lognormal_laws lgam) h tt)) as Hi.
  pose proof (hok_run _ (prim_new (Lognormal lgam) h tt) ops Hh) as Hh'.
  rewrite Hrun in Hi, Hh'. cbn [fst] in Hi, Hh'. destruct Hi as [_ [Hok Hst]].
  pose proof (pinv_run _ _ _ (normal_laws lgam) _ ops' (pinv_new _ _ _ (normal_laws lgam) h' tt)) as Gi.
  rewrite Grun in Gi. cbn [fst] in Gi. destruct Gi as [_ [_ Gst]].
  unfold sum2_spec in Hst, Gst. rewrite Edat in Gst. set (vs := dvals (p_data s)) in *.
  rewrite !map_map in Gst. unfold nobs in Gst. rewrite map_length in Gst. fold (nobs vs) in Gst.
  cbn [p_hok Lognormal] in Hh'.
  destruct (normal_shape lgam (p_hyp s) vs ln Hh') as [C [c [q [m [Hc [Hq [_ [_ HL]]]]]]]].
  set (e := (n_nu (p_hyp s) + INR (length vs) + 1) / 2) in *.
  assert (Hpos : forall x, 0 < c + q * (x - m) ^ 2).
  { intros x. assert (0 <= q * (x - m) ^ 2) by (apply Rmult_le_pos; [lra|apply pow2_ge_0]). lra. }
  pose proof (proj2 (dmem_false_None _ _) Hr) as Hm. pose proof (proj2 (dmem_false_None _ _) Gr) as Gm.
  assert (DN : forall y, normal y = exp (C - e * ln (c + q * (y - m) ^ 2))).
  { intros y. unfold normal, prim_logpdf. rewrite Gm. cbn [p_inb Normal p_pred].
    rewrite Gst, Ehyp, HL. reflexivity. }
  assert (DL : forall x, 0 < x -> lognormal x = / x * normal (ln x)).
  { intros x Hx. rewrite DN. unfold lognormal, prim_logpdf. rewrite Hm. cbn [p_inb Lognormal p_pred].
    rewrite (proj2 (Rleb_false x 0)) by lra. cbn [negb]. rewrite Hst, plog_pos by exact Hx. cbn [rbind].
    rewrite HL. cbn [rbind prob lexp]. rewrite exp_plus, exp_Ropp, exp_ln by exact Hx. reflexivity. }
  split.
  - intros x Hx. unfold lognormal, prim_logpdf. rewrite Hm. cbn [p_inb Lognormal].
    rewrite (proj2 (Rleb_true x 0) Hx). reflexivity.
  - intros u v Huv.
    apply (is_RInt_ext (fun x => scal (/ x) (normal (ln x)))).
    { intros x. rewrite Rmin_left, Rmax_right by lra. intros Hx. symmetry. apply DL. lra. }
    apply (is_RInt_comp normal ln Rinv).
    + intros x _.
      apply (continuous_ext (fun y => exp (C - e * ln (c + q * (y - m) ^ 2)))).
      { intros y. symmetry. apply DN. }
      apply (ex_derive_continuous (V:=R_NormedModule)). auto_derive. apply Hpos.
    + intros x. rewrite Rmin_left, Rmax_right by lra. intros Hx. split.
      * auto_derive; [lra|]. field. lra.
      * apply (ex_derive_continuous (V:=R_NormedModule)). auto_derive. lra.
Qed.
Print Assumptions C74_lognormal.

(** Hence the lognormal density integrates to one as well: over the intervals whose
    ends are the exponentials of points equally far from the posterior mean of the
    logarithms, and these intervals exhaust the positive values. *)
Corollary C74_lognormal_total : forall lgam h ops s tr r h' ops' s' tr' r',
  p_hok (Lognormal lgam) h = true ->
  prim_run (Lognormal lgam) (prim_new (Lognormal lgam) h tt) ops = (s, tr) ->
  dget r (p_data s) = None ->
  p_hok (Normal lgam) h' = true ->
  prim_run (Normal lgam) (prim_new (Normal lgam) h' tt) ops' = (s', tr') ->
  dget r' (p_data s') = None ->
  p_hyp s' = p_hyp s -> dvals (p_data s') = map ln (dvals (p_data s)) ->
  let N := INR (length (dvals (p_data s))) in
  let mean := (n_r (p_hyp s) * n_m (p_hyp s) + Rsum (map ln (dvals (p_data s)))) / (n_r (p_hyp s) + N) in
  euler_at lgam ((n_nu (p_hyp s) + N + 1) / 2) ->
  is_lim (fun T => RInt (fun x => prob (prim_logpdf _ s r x)) (exp (mean - T)) (exp (mean + T))) p_infty 1.
Proof.
  intros lgam h ops s tr r h' ops' s' tr' r' Hh Hrun Hr Gh Grun Gr Ehyp Edat N mean HE.
  destruct (C74_normal lgam h' ops' s' tr' r' Gh Grun Gr) as [_ [_ [_ [_ HT]]]].
  rewrite Ehyp, Edat, map_length in HT. specialize (HT HE). fold N in HT. fold mean in HT.
  revert HT. apply is_lim_ext_loc. exists 0. intros T HT. symmetry. apply is_RInt_unique.
  rewrite <- (ln_exp (mean - T)) at 2. rewrite <- (ln_exp (mean + T)) at 2.
  apply (proj2 (C74_lognormal lgam h ops s tr r h' ops' s' tr' r' Hh Hrun Hr Gh Grun Gr Ehyp Edat)).
  split; [apply exp_pos|]. left. apply exp_increasing. lra.
Qed.
Print Assumptions C74_lognormal_total.

(** [f] integrates to [I] over the values between 0 and 1, the ends left out. *)
Definition unit_integral (f : R -> R) (I : R) : Prop :=
  forall eps, 0 < eps -> exists d, 0 < d <= 1 / 2 /\ forall u v, 0 < u < d -> 0 < v < d ->
    ex_RInt f u (1 - v) /\ Rabs (RInt f u (1 - v) - I) < eps.

(** Beta class: with [lgam] such that Euler's integral of the first kind has its value
    at the parameters [strength * balance] and [strength * (1 - balance)], the density
    integrates to one; values outside the open unit interval have density zero. *)
Theorem C74_beta : forall lgam (s : pstate (Beta lgam)) r strength balance,
  p_par s = (strength, balance) -> 0 < strength -> 0 < balance < 1 ->
  dget r (p_data s) = None ->
  let density x := prob (prim_logpdf _ s r x) in
  let a := strength * balance in
  let b := strength * (1 - balance) in
  (forall x, x <= 0 \/ 1 <= x -> density x = 0) /\
  (unit_integral (fun x => Rpower x (a - 1) * Rpower (1 - x) (b - 1)) (exp (lgam a + lgam b - lgam (a + b))) ->
   unit_integral density 1).
Proof.
  intros lgam s r st ba Hq Hs Hb Hr density a b.
  pose proof (proj2 (dmem_false_None _ _) Hr) as Hm. split.
  - intros x Hx. unfold density, prim_logpdf. rewrite Hm. cbn [p_inb Beta]. unfold unit_inb.
    destruct Hx as [Hx|Hx]; [rewrite (proj2 (Rltb_false 0 x)) by lra|
      rewrite (proj2 (Rltb_false x 1)), Bool.andb_false_r by lra]; reflexivity.
  - set (G := lgam a + lgam b - lgam (a + b)). set (f := fun x => Rpower x (a - 1) * Rpower (1 - x) (b - 1)).
    assert (HD : forall x, 0 < x < 1 -> density x = exp (- G) * f x).
    { intros x Hx. unfold density, prim_logpdf. rewrite Hm. cbn [p_inb Beta p_pred].
      rewrite (proj2 (unit_inb_true x) Hx), Hq. unfold beta_guard. cbn [fst snd].
      rewrite (proj2 (Rltb_true 0 st)), (proj2 (Rltb_true 0 ba)), (proj2 (Rltb_true ba 1)) by lra.
      cbn [andb prob lexp]. unfold f, Rpower. rewrite <- !exp_plus. f_equal.
      unfold beta_logpdf, betaln, G. fold a b. ring. }
    intros H eps He. destruct (H (eps * exp G)) as [d [Hd HI]].
    { apply Rmult_lt_0_compat; [exact He|apply exp_pos]. }
    exists d. split; [exact Hd|]. intros u v Hu Hv. destruct (HI u v Hu Hv) as [HX HL].
    assert (HR : is_RInt density u (1 - v) (exp (- G) * RInt f u (1 - v))).
    { apply (is_RInt_ext (fun x => scal (exp (- G)) (f x))).
      - intros x. rewrite Rmin_left, Rmax_right by lra. intros Hx. symmetry. apply HD. lra.
      - apply (is_RInt_scal (V:=R_NormedModule)), (RInt_correct (V:=R_CompleteNormedModule)), HX. }
    split; [eexists; exact HR|]. rewrite (is_RInt_unique _ _ _ _ HR).
    assert (E : exp (- G) * exp G = 1) by (rewrite <- exp_plus, Rplus_opp_l; apply exp_0).
    replace (exp (- G) * RInt f u (1 - v) - 1) with (exp (- G) * (RInt f u (1 - v) - exp G))
      by (rewrite Rmult_minus_distr_l, E; reflexivity).
    rewrite Rabs_mult, (Rabs_right (exp (- G))) by (apply Rle_ge, Rlt_le, exp_pos).
    replace eps with (exp (- G) * (eps * exp G)) by (rewrite <- Rmult_assoc, (Rmult_comm (exp (- G))), Rmult_assoc, E; ring).
    apply Rmult_lt_compat_l; [apply exp_pos|exact HL].
Qed.
Print Assumptions C74_beta.

(** Met by a component with strength 2 and balance 1/2, whose parameters are both 1. *)
Example C74_beta_ex : exists lgam,
  p_par (prim_new (Beta lgam) tt (2, 1 / 2)) = (2, 1 / 2) /\ 0 < 2 /\ 0 < 1 / 2 < 1 /\
  unit_integral (fun x => Rpower x (2 * (1 / 2) - 1) * Rpower (1 - x) (2 * (1 - 1 / 2) - 1))
    (exp (lgam (2 * (1 / 2)) + lgam (2 * (1 - 1 / 2)) - lgam (2 * (1 / 2) + 2 * (1 - 1 / 2)))).
Proof.
  exists (fun _ => 0). split; [reflexivity|]. split; [lra|]. split; [lra|].
  replace (0 + 0 - 0) with 0 by ring. rewrite exp_0. intros eps He.
  exists (Rmin (eps / 4) (1 / 2)). pose proof (Rmin_l (eps / 4) (1 / 2)). pose proof (Rmin_r (eps / 4) (1 / 2)).
  split; [split; [apply Rmin_pos; lra|lra]|]. intros u v Hu Hv.
  assert (HR : is_RInt (fun x => Rpower x (2 * (1 / 2) - 1) * Rpower (1 - x) (2 * (1 - 1 / 2) - 1)) u (1 - v)
     (scal (1 - v - u) 1)).
  { apply (is_RInt_ext (fun _ => 1)); [|apply (is_RInt_const (V:=R_NormedModule))].
    intros x. rewrite Rmin_left, Rmax_right by lra. intros Hx.
    replace (2 * (1 / 2) - 1) with 0 by field. replace (2 * (1 - 1 / 2) - 1) with 0 by field.
    rewrite !Rpower_O by lra. symmetry. apply Rmult_1_l. }
  split; [eexists; exact HR|]. rewrite (is_RInt_unique _ _ _ _ HR). unfold scal; simpl. unfold mult; simpl.
  rewrite Rabs_left by lra. lra.
Qed.

(** The hypotheses are met: an exponential component that holds the value 2; a normal
    component with nu = 1 for which Euler's integral is that of the arctangent; a
    lognormal component that holds 3 beside a normal one that holds [ln 3]. *)
Example C74_exponential_ex :
  (forall x, 0 < x -> lgam_w (x + 1) = ln x + lgam_w x) /\
  p_hok (Exponential lgam_w) (1, 2) = true /\
  exists s tr, prim_run (Exponential lgam_w) (prim_new (Exponential lgam_w) (1, 2) tt) (cons (OpInc 3 2) nil) = (s, tr) /\
    dget 8 (p_data s) = None /\ dget 3 (p_data s) = Some 2.
Proof.
  split; [exact lgam_w_rec|]. split; [simpl; rdec; reflexivity|].
  cbn. unfold prim_incorporate, dmem. cbn. rdec. do 2 eexists. split; [reflexivity|]. split; reflexivity.
Qed.

Example C74_normal_ex : exists lgam,
  p_hok (Normal lgam) (NHyp 0 1 1 1) = true /\
  dget 8 (p_data (prim_new (Normal lgam) (NHyp 0 1 1 1) tt)) = None /\
  euler_at lgam ((1 + INR 0 + 1) / 2).
Proof.
  exists (fun x => if Req_EM_T x (1 / 2) then ln PI / 2 else 0).
  split; [simpl; unfold nhyp_ok; simpl; rdec; reflexivity|]. split; [reflexivity|].
  pose proof PI_RGT_0 as HP. unfold euler_at. simpl INR.
  replace ((1 + 0 + 1) / 2) with 1 by field.
  destruct (Req_EM_T (1 - 1 / 2) (1 / 2)) as [_|E]; [|exfalso; lra].
  destruct (Req_EM_T 1 (1 / 2)) as [E|_]; [exfalso; lra|].
  rewrite Rminus_0_r, <- (sqrt_exp PI HP), sqrt_sqrt by lra.
  apply (is_lim_ext (fun T => 2 * atan T)).
  { intros T. symmetry. apply is_RInt_unique.
    replace (2 * atan T) with (minus (atan T) (atan (- T)))
      by (unfold minus, plus, opp; simpl; rewrite atan_opp; ring).
    apply (is_RInt_derive atan).
    - intros x _. pose proof (pow2_ge_0 x) as Hx. rewrite Rpower_Ropp, Rpower_1 by lra.
      evar_last; [apply is_derive_Reals, derivable_pt_lim_atan|].
      unfold Rsqr. simpl in *. field. lra.
    - intros x _. apply (ex_derive_continuous (V:=R_NormedModule)). unfold Rpower. auto_derive.
      pose proof (pow2_ge_0 x). simpl in *. lra. }
  replace PI with (2 * (PI / 2)) by field.
  apply (is_lim_scal_l atan 2 p_infty (PI / 2)).
  apply is_lim_spec. intros eps. pose proof (cond_pos eps) as He.
  set (d := Rmin (eps / 2) (PI / 4)).
  assert (Hd : 0 < d <= PI / 4 /\ d < eps).
  { unfold d. pose proof (Rmin_l (eps / 2) (PI / 4)). pose proof (Rmin_r (eps / 2) (PI / 4)).
    split; [split; [apply Rmin_pos; lra|lra]|lra]. }
  exists (tan (PI / 2 - d)). intros T HT. destruct (atan_bound T) as [_ B].
  apply atan_increasing in HT. rewrite atan_tan in HT by lra.
  rewrite Rabs_left by lra. lra.
Qed.

(** A function with the recurrence of log-gamma and its values at 1/2 and 1. *)
Example C74_normal_whole_ex : exists lgam : R -> R,
  (forall x, 0 < x -> lgam (x + 1) = ln x + lgam x) /\ lgam (1 / 2) = ln PI / 2 /\ lgam 1 = 0 /\
  n_nu (p_hyp (prim_new (Normal lgam) (NHyp 0 1 1 1) tt)) = INR 1.
Proof.
  exists (fun x => lgam_w x + if Req_EM_T (IZR (Int_part (x + 1 / 2))) (x + 1 / 2)
                              then ln PI / 2 - lgam_w (1 / 2) else 0).
  split; [|split; [|split; [|reflexivity]]].
  - intros x Hx. rewrite lgam_w_rec by exact Hx.
    destruct (base_Int_part (x + 1 / 2)) as [H1 H2].
    assert (E : (Int_part (x + 1 / 2) + 1)%Z = Int_part (x + 1 + 1 / 2)).
    { apply Int_part_spec. rewrite plus_IZR. lra. }
    rewrite <- E, plus_IZR.
    destruct (Req_EM_T (IZR (Int_part (x + 1 / 2)) + 1) (x + 1 + 1 / 2)), (Req_EM_T (IZR (Int_part (x + 1 / 2))) (x + 1 / 2)); lra.
  - destruct (Req_EM_T (IZR (Int_part (1 / 2 + 1 / 2))) (1 / 2 + 1 / 2)) as [|E]; [lra|]. exfalso. apply E.
    rewrite <- (Int_part_spec (1 / 2 + 1 / 2) 1); lra.
  - rewrite lgam_w_1. destruct (Req_EM_T (IZR (Int_part (1 + 1 / 2))) (1 + 1 / 2)) as [E|]; [|lra]. exfalso.
    rewrite <- (Int_part_spec (1 + 1 / 2) 1) in E; lra.
Qed.

Example C74_lognormal_ex : forall lgam,
  let h := NHyp 0 1 1 1 in
  p_hok (Lognormal lgam) h = true /\ p_hok (Normal lgam) h = true /\
  exists s tr s' tr',
    prim_run (Lognormal lgam) (prim_new (Lognormal lgam) h tt) (cons (OpInc 4 3) nil) = (s, tr) /\
    prim_run (Normal lgam) (prim_new (Normal lgam) h tt) (cons (OpInc 4 (ln 3)) nil) = (s', tr') /\
    dget 8 (p_data s) = None /\ dget 8 (p_data s') = None /\
    p_hyp s' = p_hyp s /\ dvals (p_data s') = map ln (dvals (p_data s)) /\ dvals (p_data s) = cons 3 nil.
Proof.
  intros lgam h. unfold h. do 2 (split; [simpl; unfold nhyp_ok; simpl; rdec; reflexivity|]).
  cbn. unfold prim_incorporate, dmem. cbn. rdec. do 4 eexists.
  split; [reflexivity|]. split; [reflexivity|]. repeat split.
Qed.
