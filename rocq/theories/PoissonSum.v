(** The Poisson-gamma predictive distribution sums to one: the negative
    binomial series. *)
From Coquelicot Require Import Coquelicot.
From Verif Require Import PrimSums.
Local Open Scope R_scope.

Section NegBin.
  Context (A : R) (HA : 0 < A).

  Fixpoint nb (n : nat) : R :=
    match n with O => 1 | S m => nb m * (A + INR m) / INR (S m) end.

  Lemma nb_pos n : 0 < nb n.
  Proof.
    induction n as [|n IH]; cbn [nb]; [lra|].
    apply Rdiv_lt_0_compat; [|apply lt_0_INR; lia].
    apply Rmult_lt_0_compat; [exact IH|]. pose proof (pos_INR n). lra.
  Qed.

  Lemma nb_S n : INR (S n) * nb (S n) = (A + INR n) * nb n.
  Proof.
    cbn [nb]. assert (0 < INR (S n)) by (apply lt_0_INR; lia).
    set (w := INR (S n)) in *. field. lra.
  Qed.

  Lemma nb_radius : CV_radius nb = Finite 1.
  Proof.
    replace 1 with (/ 1) at 1 by field.
    apply CV_radius_finite_DAlembert.
    - intros n. pose proof (nb_pos n). lra.
    - lra.
    - apply is_lim_seq_ext with (u := fun n => 1 + (A - 1) * / INR (S n)).
      + intros n. assert (Hn : 0 < INR (S n)) by (apply lt_0_INR; lia).
        assert (E : nb (S n) / nb n = 1 + (A - 1) * / INR (S n)).
        { cbn [nb]. pose proof (nb_pos n).
          rewrite S_INR in *. field. split; lra. }
        rewrite E. rewrite Rabs_right; [reflexivity|].
        replace (1 + (A - 1) * / INR (S n)) with ((A + INR n) / INR (S n))
          by (rewrite S_INR in *; field; lra).
        apply Rle_ge, Rlt_le, Rdiv_lt_0_compat; [|exact Hn].
        pose proof (pos_INR n). lra.
      + replace (Finite 1) with (Rbar_plus (Finite 1) (Finite ((A - 1) * 0)))
          by (simpl; f_equal; ring).
        apply is_lim_seq_plus with (l1 := Finite 1) (l2 := Finite ((A - 1) * 0)).
        * apply is_lim_seq_const.
        * apply (is_lim_seq_scal_l (fun n => / INR (S n)) (A - 1) (Finite 0)).
          apply (is_lim_seq_incr_1 (fun n => / INR n) 0).
          replace (Finite 0) with (Rbar_inv p_infty) by reflexivity.
          apply is_lim_seq_inv; [apply is_lim_seq_INR|discriminate].
        * reflexivity.
  Qed.

  Lemma nb_inside x : Rabs x < 1 -> Rbar_lt (Rabs x) (CV_radius nb).
  Proof. intros H. rewrite nb_radius. exact H. Qed.

  Lemma nb_ode x : Rabs x < 1 ->
    (1 - x) * PSeries (PS_derive nb) x = A * PSeries nb x.
  Proof.
    intros Hx. pose proof (nb_inside x Hx) as Hi.
    assert (Hd : Rbar_lt (Rabs x) (CV_radius (PS_derive nb))) by (rewrite CV_radius_derive; exact Hi).
    assert (E : PSeries (PS_derive nb) x
      = PSeries (PS_plus (PS_scal A nb) (PS_incr_1 (PS_derive nb))) x).
    { apply PSeries_ext. intros n. unfold PS_derive, PS_plus, PS_scal.
      rewrite nb_S. destruct n as [|n].
      - change ((A + 0) * 1 = A * 1 + 0). lra.
      - change ((A + INR (S n)) * nb (S n) = A * nb (S n) + INR (S n) * nb (S n)). ring. }
    rewrite Rmult_minus_distr_r, Rmult_1_l. rewrite E at 1.
    rewrite PSeries_plus.
    - rewrite PSeries_scal, PSeries_incr_1. lra.
    - apply ex_pseries_scal; [apply Rmult_comm|]. apply CV_radius_inside; exact Hi.
    - apply ex_pseries_incr_1. apply CV_radius_inside; exact Hd.
  Qed.

  Definition nbg (x : R) : R := PSeries nb x * exp (A * ln (1 - x)).

  Lemma nbg_derive x : Rabs x < 1 -> is_derive nbg x 0.
  Proof.
    intros Hx. assert (Hx1 : x < 1) by (apply Rabs_def2 in Hx; lra).
    unfold nbg.
    assert (H1 : is_derive (PSeries nb) x (PSeries (PS_derive nb) x))
      by (apply is_derive_PSeries, nb_inside, Hx).
    assert (H2 : is_derive (fun x => exp (A * ln (1 - x))) x
                   (A * (- 1 / (1 - x)) * exp (A * ln (1 - x)))).
    { auto_derive; [lra|]. replace (1 + - x) with (1 - x) by lra. field. lra. }
    pose proof (is_derive_mult (PSeries nb) (fun x => exp (A * ln (1 - x))) x _ _ H1 H2) as H.
    match type of H with (forall (_ : ?c), _) => specialize (H Rmult_comm) end.
    unfold plus, mult in H; simpl in H. 
    match type of H with is_derive _ _ ?v => replace 0 with v; [exact H|] end.
    pose proof (nb_ode x Hx) as Ho.
    assert (E : PSeries (PS_derive nb) x = A * PSeries nb x / (1 - x)).
    { rewrite <- Ho. field. lra. }
    rewrite E. field. lra.
  Qed.

  Lemma nb_sum x : 0 < x < 1 -> PSeries nb x = exp (- (A * ln (1 - x))).
  Proof.
    intros Hx.
    assert (E : nbg 0 = nbg x).
    { apply (eq_is_derive nbg 0 x); [|lra].
      intros t Ht. apply nbg_derive. rewrite Rabs_right; lra. }
    unfold nbg in E. rewrite PSeries_0 in E. cbn [nb] in E.
    rewrite Rminus_0_r, ln_1, Rmult_0_r, exp_0 in E.
    rewrite exp_Ropp. pose proof (exp_pos (A * ln (1 - x))).
    apply (Rmult_eq_reg_r (exp (A * ln (1 - x)))); [|lra].
    rewrite <- E. field. lra.
  Qed.

  Lemma nb_is_series x : 0 < x < 1 ->
    infinite_sum (fun n => nb n * x ^ n * exp (A * ln (1 - x))) 1.
  Proof.
    intros Hx. apply is_series_Reals.
    assert (Hi : Rbar_lt (Rabs x) (CV_radius nb)).
    { apply nb_inside. rewrite Rabs_right; lra. }
    apply CV_radius_inside in Hi. apply PSeries_correct in Hi.
    rewrite nb_sum in Hi by exact Hx. unfold is_pseries in Hi.
    apply (is_series_scal_r (exp (A * ln (1 - x)))) in Hi.
    rewrite <- exp_plus, Rplus_opp_l, exp_0 in Hi.
    eapply is_series_ext; [|exact Hi]. intros n. simpl.
    rewrite pow_n_pow. change (x ^ n * nb n * exp (A * ln (1 - x)) = nb n * x ^ n * exp (A * ln (1 - x))).
    ring.
  Qed.
End NegBin.

Lemma pois_total lgam h (l : list R) : gamma_rec lgam -> lgam 1 = 0 ->
  p_hok (Poisson lgam) h = true -> Forall (fun v => exists n : nat, v = INR n) l ->
  infinite_sum (fun n => dens (p_pred (Poisson lgam) h tt
    (sum2_spec (fun x => x) (fun x => lgam (x + 1)) l) (INR n))) 1.
Proof.
  destruct h as [a b]. intros Hg H1 Hh Hl. simpl in Hh. apply andb_R2 in Hh. destruct Hh as [Ha Hb].
  pose proof (nat_sum_nonneg l Hl) as Hs. pose proof (pos_INR (length l)) as HN.
  set (A := a + Rsum l). set (b' := b + INR (length l)).
  assert (HA : 0 < A) by (unfold A; lra). assert (Hb' : 0 < b') by (unfold b'; lra).
  set (p := / (b' + 1)).
  assert (Hp : 0 < p < 1).
  { unfold p. split; [apply Rinv_0_lt_compat; lra|].
    rewrite <- Rinv_1. apply Rinv_lt_contravar; lra. }
  assert (E : forall n, dens (p_pred (Poisson lgam) (a, b) tt
      (sum2_spec (fun x => x) (fun x => lgam (x + 1)) l) (INR n))
     = nb A n * p ^ n * exp (A * ln (1 - p))).
  { intros n. unfold sum2_spec. rewrite map_id. cbn [p_pred Poisson].
    unfold pois_predictive. rewrite plus_IZR, IZR_nobs. simpl fst; simpl snd.
    fold A b'. replace (b + (INR (length l) + 1)) with (b' + 1) by (unfold b'; lra).
    rewrite !gam_log_Z_pos by lra. simpl rbind. cbn [dens lexp].
    replace (a + (Rsum l + INR n)) with (A + INR n) by (unfold A; lra).
    assert (Ep : 1 - p = b' / (b' + 1)) by (unfold p; field; lra).
    induction n as [|n IH].
    - simpl INR. rewrite Rplus_0_r, Rplus_0_l, H1. cbn [nb]; simpl pow.
      rewrite Rmult_1_l, Rmult_1_l. f_equal. rewrite Ep. unfold Rdiv.
      rewrite ln_mult, ln_Rinv by (try apply Rinv_0_lt_compat; lra). lra.
    - rewrite S_INR. pose proof (pos_INR n) as Hn.
      replace (A + (INR n + 1)) with (A + INR n + 1) by lra.
      rewrite (Hg (A + INR n)), (Hg (INR n + 1)) by lra.
      set (L := ln (b' + 1)) in *. 
      replace (ln (A + INR n) + lgam (A + INR n) - (A + INR n + 1) * L -
        (lgam A - A * ln b') - (ln (INR n + 1) + lgam (INR n + 1)))
      with ((lgam (A + INR n) - (A + INR n) * L - (lgam A - A * ln b') - lgam (INR n + 1))
            + ((ln (A + INR n) - ln (INR n + 1)) + - L)) by lra.
      rewrite exp_plus, IH. rewrite exp_plus, exp_ln_sub, exp_Ropp by lra.
      unfold L. rewrite exp_ln by lra. cbn [nb]. simpl pow. fold p.
      change (match n with 0%nat => 1 | S _ => INR n + 1 end) with (INR (S n)).
      rewrite S_INR. field. lra. }
  intros eps He. destruct (nb_is_series A HA p Hp eps He) as [n0 Hn0].
  exists n0. intros n Hn. erewrite sum_eq; [apply Hn0; exact Hn|].
  intros i _. apply E.
Qed.
