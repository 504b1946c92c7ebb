(** Discrete predictive distributions sum to one. *)
From Verif Require Export GammaWitness.
Local Open Scope R_scope.

Lemma lexp_ln x : 0 < x -> lexp (Fin (ln x)) = x.
Proof. intros H. simpl. apply exp_ln; exact H. Qed.

Lemma exp_ln_sub a b : 0 < a -> 0 < b -> exp (ln a - ln b) = a / b.
Proof.
  intros Ha Hb. unfold Rminus. rewrite exp_plus, exp_Ropp, !exp_ln by assumption.
  reflexivity.
Qed.

(** The value of a log-density call, as a density. *)
Definition dens (r : res ext) : R :=
  match r with Ok v => lexp v | Err _ => 0 end.

Lemma bern_total lgam h (l : list R) :
  p_hok (Bernoulli lgam) h = true -> Forall (fun v => v = 0 \/ v = 1) l ->
  dens (p_pred (Bernoulli lgam) h tt (bern_spec l) 0) +
  dens (p_pred (Bernoulli lgam) h tt (bern_spec l) 1) = 1.
Proof.
  destruct h as [al be]. intros Hh Hl. simpl in Hh. apply andb_R2 in Hh. destruct Hh as [Ha Hb].
  pose proof (bern_sum_bounds l Hl) as Hs. unfold bern_spec. simpl.
  unfold bern_predictive. rewrite IZR_nobs.
  assert (E : Reqb 0 1 = false) by (apply Reqb_false; lra). rewrite E, Reqb_refl.
  rewrite !plog_pos by lra. simpl. rewrite !exp_ln_sub by lra. field. lra.
Qed.

Lemma cat_total lgam k al (l : list R) : (0 < k)%nat ->
  p_hok (Categorical lgam k) al = true ->
  Forall (fun v => exists n, (n < k)%nat /\ v = INR n) l ->
  Rsum (map (fun i => dens (p_pred (Categorical lgam k) al tt (cat_spec k l) (INR i)))
          (seq 0 k)) = 1.
Proof.
  intros Hk Hh Hl. simpl in Hh. apply Rltb_true in Hh.
  assert (HN := pos_INR (length l)).
  assert (Hk' : 0 < INR k) by (apply lt_0_INR; exact Hk).
  assert (HA : 0 < al * INR k) by (apply Rmult_lt_0_compat; assumption).
  set (D := INR (length l) + al * INR k).
  assert (HD : 0 < D) by (unfold D; lra).
  transitivity (Rsum (map (fun i => / D * (al + IZR (cat_count i l))) (seq 0 k))).
  - apply f_equal. apply map_ext_in. intros i Hi. apply in_seq in Hi.
    unfold cat_spec. simpl. unfold cat_predictive.
    rewrite to_index_INR, nth_map_seq by lia. rewrite cat_counts_total by exact Hl.
    rewrite map_length, seq_length. fold D.
    pose proof (cat_count_nonneg i l). rewrite !plog_pos by lra. simpl.
    rewrite exp_ln_sub by lra. unfold Rdiv. lra.
  - rewrite Rsum_map_scal.
    rewrite (Rsum_map_plus (fun _ => al) (fun i => IZR (cat_count i l))).
    rewrite Rsum_map_const, seq_length.
    rewrite <- (map_map (fun i => cat_count i l) IZR), cat_counts_total by exact Hl.
    unfold D. field. unfold D in HD. lra.
Qed.

Lemma INR_unbdd T : exists n : nat, T < INR n.
Proof.
  exists (Z.to_nat (up T)). destruct (archimed T) as [H _].
  rewrite INR_IZR_INZ. destruct (Z_le_gt_dec 0 (up T)) as [Hz|Hz].
  - rewrite Z2Nat.id by exact Hz. lra.
  - assert (up T < 0)%Z by lia. apply IZR_lt in H0.
    pose proof (IZR_le 0 (Z.of_nat (Z.to_nat (up T))) ltac:(lia)). lra.
Qed.

(** Geometric: telescoping. *)
Section Geom.
  Context (lgam : R -> R) (Hg : gamma_rec lgam) (A B : R) (HA : 0 < A) (HB : 0 < B).

  Definition gt (n : nat) : R := exp (betaln lgam A (B + INR n) - betaln lgam A B).

  Lemma gt_pos n : 0 < gt n.
  Proof. apply exp_pos. Qed.

  Lemma gt_0 : gt 0 = 1.
  Proof. unfold gt. simpl INR. rewrite Rplus_0_r, Rminus_diag_eq by reflexivity. apply exp_0. Qed.

  Lemma gt_S n : gt (S n) * (A + B + INR n) = gt n * (B + INR n).
  Proof.
    unfold gt, betaln. rewrite S_INR. pose proof (pos_INR n).
    replace (B + (INR n + 1)) with (B + INR n + 1) by lra.
    replace (A + (B + INR n + 1)) with (A + (B + INR n) + 1) by lra.
    rewrite (Hg (B + INR n)), (Hg (A + (B + INR n))) by lra.
    set (u := lgam A + lgam (B + INR n) - lgam (A + (B + INR n)) -
              (lgam A + lgam B - lgam (A + B))).
    replace (lgam A + (ln (B + INR n) + lgam (B + INR n)) -
      (ln (A + (B + INR n)) + lgam (A + (B + INR n))) - (lgam A + lgam B - lgam (A + B)))
      with (u + (ln (B + INR n) - ln (A + (B + INR n)))) by (unfold u; lra).
    rewrite exp_plus, exp_ln_sub by lra. field. lra.
  Qed.

  Definition gp (n : nat) : R := exp (betaln lgam (A + 1) (B + INR n) - betaln lgam A B).

  Lemma gp_gt n : gp n = gt n - gt (S n).
  Proof.
    pose proof (pos_INR n) as Hn. pose proof (gt_S n) as HS.
    assert (E : gp n * (A + B + INR n) = gt n * A).
    { unfold gp, gt, betaln. rewrite (Hg A) by exact HA.
      replace (A + 1 + (B + INR n)) with (A + (B + INR n) + 1) by lra.
      rewrite (Hg (A + (B + INR n))) by lra.
      set (u := lgam A + lgam (B + INR n) - lgam (A + (B + INR n)) -
              (lgam A + lgam B - lgam (A + B))).
      replace (ln A + lgam A + lgam (B + INR n) -
        (ln (A + (B + INR n)) + lgam (A + (B + INR n))) - (lgam A + lgam B - lgam (A + B)))
        with (u + (ln A - ln (A + (B + INR n)))) by (unfold u; lra).
      rewrite exp_plus, exp_ln_sub by lra. field. lra. }
    apply (Rmult_eq_reg_r (A + B + INR n)); [|lra]. rewrite E.
    rewrite Rmult_minus_distr_r, HS. ring.
  Qed.

  Lemma gp_partial n : sum_f_R0 gp n = 1 - gt (S n).
  Proof.
    induction n as [|n IH].
    - simpl sum_f_R0. rewrite gp_gt, gt_0. reflexivity.
    - rewrite tech5, IH, gp_gt. lra.
  Qed.

  Lemma ln_le_sub x : 0 < x -> ln x <= x - 1.
  Proof.
    intros Hx. destruct (Req_dec x 1) as [->|Hne]; [rewrite ln_1; lra|].
    pose proof (exp_ineq1 (ln x)) as H. rewrite exp_ln in H by exact Hx.
    assert (ln x <> 0). { intros E. apply Hne. rewrite <- (exp_ln x Hx), E. apply exp_0. }
    specialize (H H0). lra.
  Qed.

  Lemma gt_bound n : 1 + A * (ln (B + INR n) - ln B) <= / gt n.
  Proof.
    induction n as [|n IH].
    - simpl INR. rewrite Rplus_0_r, gt_0. lra.
    - pose proof (pos_INR n) as Hn. pose proof (gt_pos n) as Hp. pose proof (gt_pos (S n)) as Hp'.
      pose proof (gt_S n) as HS.
      assert (E : / gt (S n) = / gt n * (1 + A / (B + INR n))).
      { assert (E2 : gt (S n) = gt n * (B + INR n) / (A + B + INR n)).
        { unfold Rdiv. rewrite <- HS. field. lra. }
        rewrite E2. field. repeat split; lra. }
      rewrite E.
      assert (Hle1 : 1 <= / gt n).
      { apply (Rle_trans _ _ _) with (2 := IH).
        assert (0 <= ln (B + INR n) - ln B).
        { destruct Hn as [Hn|Hn].
          - left. apply Rlt_Rminus. apply ln_increasing; lra.
          - rewrite <- Hn, Rplus_0_r. lra. }
        assert (0 <= A * (ln (B + INR n) - ln B)) by (apply Rmult_le_pos; lra).
        lra. }
      assert (Hq : 0 < A / (B + INR n)) by (apply Rdiv_lt_0_compat; lra).
      assert (Hln : ln (B + INR (S n)) - ln (B + INR n) <= 1 / (B + INR n)).
      { rewrite S_INR.
        pose proof (ln_le_sub ((B + (INR n + 1)) / (B + INR n))) as L.
        assert (Hpos : 0 < (B + (INR n + 1)) / (B + INR n)) by (apply Rdiv_lt_0_compat; lra).
        specialize (L Hpos). unfold Rdiv in L at 1.
        rewrite ln_mult, ln_Rinv in L; try lra.
        - replace ((B + (INR n + 1)) / (B + INR n) - 1) with (1 / (B + INR n)) in L by (field; lra).
          lra.
        - apply Rinv_0_lt_compat; lra. }
      assert (A * (ln (B + INR (S n)) - ln (B + INR n)) <= A / (B + INR n)).
      { unfold Rdiv in *. rewrite Rmult_1_l in Hln. apply Rmult_le_compat_l; lra. }
      nra.
  Qed.

  Lemma gt_lim eps : 0 < eps -> exists n0, forall n, (n >= n0)%nat -> gt n < eps.
  Proof.
    intros He.
    set (T := B * exp (/ (eps * A))).
    destruct (INR_unbdd T) as [n0 Hn0]. exists n0. intros n Hn.
    pose proof (gt_bound n) as Hb. pose proof (gt_pos n) as Hp.
    assert (HnT : T < B + INR n).
    { apply le_INR in Hn. lra. }
    assert (HT : 0 < T) by (unfold T; apply Rmult_lt_0_compat; [exact HB|apply exp_pos]).
    assert (L : ln T < ln (B + INR n)) by (apply ln_increasing; assumption).
    unfold T in L. rewrite ln_mult, ln_exp in L; [|exact HB|apply exp_pos].
    assert (/ eps < / gt n).
    { assert (A * / (eps * A) < A * (ln (B + INR n) - ln B)) by (apply Rmult_lt_compat_l; lra).
      replace (A * / (eps * A)) with (/ eps) in H by (field; lra). lra. }
    rewrite <- (Rinv_inv (gt n)), <- (Rinv_inv eps).
    apply Rinv_lt_contravar; [|exact H].
    apply Rmult_lt_0_compat; apply Rinv_0_lt_compat; assumption.
  Qed.

  Lemma gp_total : infinite_sum gp 1.
  Proof.
    intros eps He. destruct (gt_lim eps He) as [n0 Hn0]. exists n0. intros n Hn.
    rewrite gp_partial. unfold R_dist.
    replace (1 - gt (S n) - 1) with (- gt (S n)) by lra.
    rewrite Rabs_Ropp, Rabs_right by (left; apply gt_pos). apply Hn0. lia.
  Qed.
End Geom.

Lemma geom_total lgam h (l : list R) : gamma_rec lgam ->
  p_hok (Geometric lgam) h = true -> Forall (fun v => exists n : nat, v = INR n) l ->
  infinite_sum (fun n => dens (p_pred (Geometric lgam) h tt (sum_spec l) (INR n))) 1.
Proof.
  destruct h as [a b]. intros Hg Hh Hl. simpl in Hh. apply andb_R2 in Hh. destruct Hh as [Ha Hb].
  pose proof (nat_sum_nonneg l Hl) as Hs. pose proof (pos_INR (length l)) as HN.
  assert (E : forall n, dens (p_pred (Geometric lgam) (a, b) tt (sum_spec l) (INR n))
     = gp lgam (a + INR (length l)) (b + Rsum l) n).
  { intros n. simpl. unfold geom_predictive, gp, geom_log_Z. rewrite plus_IZR, IZR_nobs.
    f_equal. f_equal; f_equal; lra. }
  intros eps He.
  destruct (gp_total lgam Hg (a + INR (length l)) (b + Rsum l) ltac:(lra) ltac:(lra) eps He)
    as [n0 Hn0].
  exists n0. intros n Hn. rewrite (sum_eq _ (gp lgam (a + INR (length l)) (b + Rsum l))).
  - apply Hn0; exact Hn.
  - intros i _. apply E.
Qed.
