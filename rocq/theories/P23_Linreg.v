(** C49: the Bayesian linear regression. *)
From Coq Require Import Reals Lra.
From Verif Require Import Linreg MatrixFacts Holders Sampling PrimFacts LinregFacts.
From mathcomp Require Import all_ssreflect ssralg ssrnum zmodp matrix.
Import Order.Theory GRing.Theory Num.Theory.
Set Implicit Arguments.
Unset Strict Implicit.
Unset Printing Implicit Defensive.
Local Open Scope ring_scope.

(* ------------------------------------------------------------------ *)
(** ** Specification *)

(** Inner product of the covariates of a row with a vector of weights. *)
Definition linear p (y : seq R) (w : 'cV[R]_p) : R := \sum_(j < p) nth 0 y j * w j 0.
(** Log density at [x] of a normal with mean [m] and variance [s]. *)
Definition log_normal (x m s : R) : R := (- / 2 * ln (2 * PI * s) - (x - m) * (x - m) / (2 * s))%Re.
(** [v' A v]. *)
Definition quad p (A : 'M[R]_p) (v : 'cV[R]_p) : R := \sum_i \sum_j v i 0 * A i j * v j 0.
(** Log density at weights [w] and variance [s] of the normal-inverse-gamma distribution: [s]
    is inverse gamma with shape [a] and scale [b], and given [s] the weights are normal with
    mean [mu] and precision matrix [P / s]. *)
Definition log_nig (lgam : R -> R) p (a b : R) (mu : 'cV[R]_p) (P : 'M[R]_p) (w : 'cV[R]_p) (s : R) : R :=
  (a * ln b - lgam a - (a + 1) * ln s - b / s
   - INR p / 2 * ln (2 * PI * s) + / 2 * ln (\det P) - quad P (w - mu)%R / (2 * s))%Re.
(** Log density at [x] of Student's t with [nu] degrees of freedom, location [m] and squared
    scale [s2]. *)
Definition log_t (lgam : R -> R) (nu m s2 x : R) : R :=
  (lgam ((nu + 1) / 2) - lgam (nu / 2) - / 2 * ln (nu * PI * s2)
   - (nu + 1) / 2 * ln (1 + (x - m) * (x - m) / (nu * s2)))%Re.

(** Rows with the right number of covariates; hyperparameters with positive [b] and positive
    definite [V]. *)
Definition wide p (rows : seq (seq R * R)) : Prop := all (fun r => size r.1 == p) rows.
Definition regular p (h : hypers p) : Prop := Rlt 0 (h_b h) /\ posdef (h_V h).

(* ------------------------------------------------------------------ *)

Lemma linear_mx p (y : seq R) (w : 'cV[R]_p) : linear y w = (rowv p y *m w) 0 0.
Proof. by rewrite mxE; apply: eq_bigr => j _; rewrite mxE. Qed.
Lemma quad_dot p (A : 'M[R]_p) (v : 'cV[R]_p) : quad A v = dot v (A *m v).
Proof.
  rewrite /dot mxE. apply: eq_bigr => i _. rewrite !mxE big_distrr /=. by apply: eq_bigr => j _; rewrite mulrA.
Qed.
Lemma ln_sqrt_inv d : Rlt 0 d -> ln (sqrt (1 / d)%Re) = (- / 2 * ln d)%Re.
Proof.
  move=> hd. have hi : Rlt 0 (1 / d)%Re by apply: Rdiv_lt_0_compat; lra.
  have e : (ln (1 / d) = - ln d)%Re by rewrite /Rdiv Rmult_1_l ln_Rinv.
  have : (2 * ln (sqrt (1 / d)) = ln (1 / d))%Re.
    rewrite -{2}(sqrt_sqrt (1 / d)%Re); last lra. rewrite ln_mult; try exact: sqrt_lt_R0. lra.
  rewrite e. lra.
Qed.

Section Lin.
  Variable p : nat.
  Variable lgam : R -> R.

  Lemma log_Z_closed a b (P : 'M[R]_p) : Rlt 0 b -> Rlt 0 (\det P) ->
    calc_log_Z lgam a b P = Ok (Fin (lgam a - / 2 * ln (\det P) - a * ln b)%Re).
  Proof.
    move=> hb hd. rewrite /calc_log_Z /log_sqrt_inv.
    have -> : Rltb (\det P) 0 = false by apply: (proj2 (Rltb_false _ _)); lra.
    have -> : Reqb (\det P) 0 = false by apply: (proj2 (Reqb_false _ _)); lra.
    rewrite /= ln_sqrt_inv // /np_log.
    have -> : Rltb 0 b = true by apply: (proj2 (Rltb_true _ _)).
    rewrite /esub /eopp /fscale /=. congr (Ok (Fin _)). lra.
  Qed.

  Section Reg.
  Variable h : hypers p.
  Hypothesis H : regular h.

  Let PD : posdef (h_V h) := proj2 H.
  Let hb : Rlt 0 (h_b h) := proj1 H.
  Definition marg (rows : seq (seq R * R)) : R :=
    (- INR (size rows) / 2 * LOG2PI_lr + (lgam (pshape h rows) - / 2 * ln (\det (prec h rows)) - pshape h rows * ln (prate h rows))
     - (lgam (h_a h) - / 2 * ln (\det (invmx (h_V h))) - h_a h * ln (h_b h)))%Re.
  Lemma score_closed rows : wide p rows -> linreg_score lgam rows h = Ok (Fin (marg rows)).
  Proof.
    move=> sz. rewrite /linreg_score /calc_logpdf_marginal (posterior_closed PD sz) /= /np_inv (posdef_unit PD) /=.
    have di : Rlt 0 (\det (invmx (h_V h))) by apply/RltP; apply: posdef_det; apply: posdef_inv.
    have rp : Rlt 0 (prate h rows) by apply: Rlt_le_trans (rate_pos PD rows hb).
    have dp := det_prec_pos PD rows.
    by rewrite !log_Z_closed.
  Qed.
  Lemma pred_closed rows ys xs : wide p rows -> size ys = p ->
    linreg_logpdf lgam rows h ys xs = Ok (Fin (marg (rcons rows (ys, xs)) - marg rows)%Re).
  Proof.
    move=> sz sy. rewrite /linreg_logpdf /calc_predictive_logp (posterior_closed PD sz) /=.
    have sz' : wide p (rcons rows (ys, xs)) by rewrite /wide all_rcons /= sy eqxx.
    have -> : (map fst rows ++ [:: ys]) = map fst (rcons rows (ys, xs)) by rewrite map_rcons cats1.
    have -> : (map snd rows ++ [:: xs]) = map snd (rcons rows (ys, xs)) by rewrite map_rcons cats1.
    have -> : (size rows).+1 = size (rcons rows (ys, xs)) by rewrite size_rcons.
    have rp r : Rlt 0 (prate h r) by apply: Rlt_le_trans (rate_pos PD r hb).
    have dp r := det_prec_pos PD r.
    rewrite (posterior_closed PD sz') /= !log_Z_closed //=.
    congr (Ok (Fin _)). rewrite /marg size_rcons S_INR. set A := lgam _. set B := ln _. set C := ln (prate _ _). lra.
  Qed.
  Lemma marg_nil : marg [::] = 0.
  Proof.
    rewrite /marg prec_nil rate_nil //. have -> : pshape h [::] = h_a h by rewrite /pshape /=; lra.
    rewrite /=. toR. set D := ln (\det _). clearbody D. lra.
  Qed.

  (** Prior times likelihood, completed to a square. *)
  Lemma square rows w :
    quad (invmx (h_V h)) (w - h_mu h) + \sum_(r <- rows) (r.2 - linear r.1 w) ^+ 2 + (h_b h + h_b h) =
    quad (prec h rows) (w - wts h rows) + (prate h rows + prate h rows).
  Proof.
    have [sV _] := posdef_inv PD. have [sP _] := prec_pd PD rows.
    rewrite !quad_dot.
    have sq (A : 'M[R]_p) u v : A^T = A -> dot (u - v) (A *m (u - v)) = dot u (A *m u) - (dot u (A *m v) + dot u (A *m v)) + dot v (A *m v).
      move=> sA. rewrite mulmxBr dotDl !dotDr !dotN !dotNr [dot v (A *m u)]dot_sym // [dot (A *m v) u]dotC.
      toR. set X := dot u (A *m u). set Y := dot u (A *m v). set Z := dot v (A *m v). clearbody X Y Z. lra.
    rewrite !sq // wts_eq //.
    have e1 : \sum_(r <- rows) (r.2 - linear r.1 w) ^+ 2 = sumsq rows - (\sum_(r <- rows) r.2 * linear r.1 w + \sum_(r <- rows) r.2 * linear r.1 w)
              + \sum_(r <- rows) linear r.1 w ^+ 2.
      rewrite /sumsq. elim: rows {sP} => [|r rows IH]; first by rewrite !big_nil !addr0 subr0.
      rewrite !big_cons IH. toR. set X := bigop _ _ _. set Y := bigop _ _ _. set Z := bigop _ _ _. set l := linear _ _. clearbody X Y Z l. lra.
    have e2 : dot w (shift h rows) = dot w (invmx (h_V h) *m h_mu h) + \sum_(r <- rows) r.2 * linear r.1 w.
      rewrite /shift dotDr. congr (_ + _). rewrite dotC dot_suml. apply: eq_bigr => r _.
      by rewrite dotZl /dot trmxK linear_mx.
    have e3 : dot w (prec h rows *m w) = dot w (invmx (h_V h) *m w) + \sum_(r <- rows) linear r.1 w ^+ 2.
      rewrite /prec mulmxDl dotDr. congr (_ + _). rewrite mulmx_suml dotC dot_suml. apply: eq_bigr => r _.
      by rewrite linear_mx -mulmxA /dot trmx_mul trmxK -mulmxA sq_col big_ord1.
    rewrite e1 e2 e3 /prate [dot (wts h rows) _]dotC. toR.
    set X1 := dot w _. set X2 := dot w _. set X3 := dot (h_mu h) _. set X4 := dot _ (wts h rows). set S1 := sumsq rows.
    set S2 := bigop _ _ _. set S3 := bigop _ _ _. clearbody X1 X2 X3 X4 S1 S2 S3. lra.
  Qed.
  End Reg.
End Lin.

(* ------------------------------------------------------------------ *)
(** ** Theorems *)

(** Bayes' theorem: for all weights and every positive variance, prior density times
    likelihood of the stored rows is the density of the posterior returned by
    posterior_hypers times the exponential of the score.  (All in logarithms.) *)
Theorem C49_bayes : forall p (lgam : R -> R) (h : hypers p) (rows : seq (seq R * R)),
  regular h -> wide p rows ->
  exists bn mun P sc,
    posterior_hypers (size rows) (map fst rows) (map snd rows) h = Ok ((h_a h + INR (size rows) / 2)%Re, bn, mun, P) /\
    linreg_score lgam rows h = Ok (Fin sc) /\
    Rlt 0 bn /\ posdef P /\
    forall (w : 'cV[R]_p) (s : R), Rlt 0 s ->
      (log_nig lgam (h_a h) (h_b h) (h_mu h) (invmx (h_V h)) w s
       + foldr (fun r acc => log_normal r.2 (linear r.1 w) s + acc) 0 rows
       = sc + log_nig lgam (h_a h + INR (size rows) / 2) bn mun P w s)%Re.
Proof.
  move=> p lgam h rows H sz. exists (prate h rows), (wts h rows), (prec h rows), (marg lgam h rows).
  have [hb PD] := H. split; first exact: posterior_closed. split; first exact: score_closed.
  split; first by apply: Rlt_le_trans (rate_pos PD rows hb). split; first exact: prec_pd.
  move=> w s hs. have := square H rows w.
  have -> : foldr (fun r acc => (log_normal r.2 (linear r.1 w) s + acc)%Re) 0%Re rows =
            (- INR (size rows) / 2 * ln (2 * PI * s) - (\sum_(r <- rows) (r.2 - linear r.1 w) ^+ 2)%R / (2 * s))%Re.
    elim: rows {sz} => [|r rows IH].
      rewrite big_nil /=. toR. rewrite /Rdiv. lra.
    rewrite [foldr _ _ _]/= IH big_cons -[size (r :: rows)]/((size rows).+1) S_INR /log_normal. toR. set X := bigop _ _ _. set l := linear _ _. clearbody X l.
    field. lra.
  have pi := PI_RGT_0. rewrite /log_nig /marg /pshape /LOG2PI_lr ln_mult; [|lra|exact: hs].
  toR. set S := bigop _ _ _. set q0 := quad _ _. set q1 := quad _ _. set bn := prate _ _. set d0 := ln (\det _). set d1 := ln (\det _). set l2 := ln (2 * PI).
  clearbody S q0 q1 bn d0 d1 l2 => e.
  have e' : (S / (2 * s) = (q1 + 2 * bn - q0 - 2 * h_b h) / (2 * s))%Re by f_equal; lra.
  rewrite e'. set n := INR _. field. lra.
Qed.
Print Assumptions C49_bayes.

(** The score and the predictive density do not depend on the order of the rows, whatever
    the hyperparameters (also when the answer is an exception). *)
Lemma posterior_perm p (h : hypers p) rows rows' : perm_eq rows rows' ->
  posterior_hypers (size rows) (map fst rows) (map snd rows) h = posterior_hypers (size rows') (map fst rows') (map snd rows') h.
Proof.
  move=> pe. have sz := perm_size pe. rewrite /posterior_hypers !size_map !eqxx /= sz. case: eqP => // _.
  have -> : all (fun y : seq R => size y == p) (map fst rows) = all (fun y : seq R => size y == p) (map fst rows').
    by rewrite !all_map; apply: perm_all.
  case: (all _ _) => //=.
  have g (l : seq (seq R * R)) : (design p (size l) (map fst l))^T *m design p (size l) (map fst l) = \sum_(r <- l) (rowv p r.1)^T *m rowv p r.1.
    by rewrite -[size l](size_map fst) design_gram big_map.
  have eg : (design p (size rows) (map fst rows))^T *m design p (size rows) (map fst rows) =
            (design p (size rows') (map fst rows'))^T *m design p (size rows') (map fst rows').
    by rewrite !g; apply: perm_big.
  have ec : (design p (size rows) (map fst rows))^T *m column (size rows) (map snd rows) =
            (design p (size rows') (map fst rows'))^T *m column (size rows') (map snd rows').
    by rewrite !design_cross; apply: perm_big.
  have es : dot (column (size rows) (map snd rows)) (column (size rows) (map snd rows)) =
            dot (column (size rows') (map snd rows')) (column (size rows') (map snd rows')).
    by rewrite !column_sq; apply: perm_big.
  rewrite -sz in eg ec es *. by rewrite eg ec es.
Qed.
Theorem C49_exchangeable : forall p (lgam : R -> R) (h : hypers p) (rows rows' : seq (seq R * R)),
  perm_eq rows rows' ->
  linreg_score lgam rows h = linreg_score lgam rows' h /\
  forall ys xs, linreg_logpdf lgam rows h ys xs = linreg_logpdf lgam rows' h ys xs.
Proof.
  move=> p lgam h rows rows' pe. split.
    by rewrite /linreg_score /calc_logpdf_marginal (posterior_perm h pe) (perm_size pe).
  move=> ys xs. rewrite /linreg_logpdf /calc_predictive_logp (posterior_perm h pe).
  have e (l : seq (seq R * R)) : posterior_hypers (size l).+1 (map fst l ++ [:: ys]) (map snd l ++ [:: xs]) h =
           posterior_hypers (size (l ++ [:: (ys, xs)])) (map fst (l ++ [:: (ys, xs)])) (map snd (l ++ [:: (ys, xs)])) h.
    by rewrite !map_cat size_cat /= addn1.
  rewrite !e. by rewrite (posterior_perm h (_ : perm_eq (rows ++ [:: (ys, xs)]) (rows' ++ [:: (ys, xs)]))) // perm_cat2r.
Qed.
Print Assumptions C49_exchangeable.

(** The predictive density is the ratio of the scores with and without the row; the score
    without rows is 1; hence the score is the product of the predictive densities of the
    rows one after the other. *)
Theorem C49_ratio : forall p (lgam : R -> R) (h : hypers p) (rows : seq (seq R * R)) ys xs,
  regular h -> wide p rows -> size ys = p ->
  exists s0 s1 l,
    linreg_score lgam rows h = Ok (Fin s0) /\
    linreg_score lgam (rcons rows (ys, xs)) h = Ok (Fin s1) /\
    linreg_logpdf lgam rows h ys xs = Ok (Fin l) /\ (l = s1 - s0)%Re.
Proof.
  move=> p lgam h rows ys xs H sz sy. exists (marg lgam h rows), (marg lgam h (rcons rows (ys, xs))), (marg lgam h (rcons rows (ys, xs)) - marg lgam h rows)%Re.
  split; first exact: score_closed. split; last by split; first exact: pred_closed.
  by apply: score_closed => //; rewrite /wide all_rcons /= sy eqxx.
Qed.
Print Assumptions C49_ratio.
Theorem C49_chain : forall p (lgam : R -> R) (h : hypers p) (rows : seq (seq R * R)),
  regular h -> wide p rows ->
  exists ls : seq R, size ls = size rows /\
    (forall i, (i < size rows)%N ->
       linreg_logpdf lgam (take i rows) h (nth ([::], 0) rows i).1 (nth ([::], 0) rows i).2 = Ok (Fin (nth 0 ls i))) /\
    linreg_score lgam rows h = Ok (Fin (\sum_(l <- ls) l)).
Proof.
  move=> p lgam h rows H. elim/last_ind: rows => [|rows r IH] sz.
    exists [::]. split=> //. split=> //. by rewrite (score_closed lgam H sz) (marg_nil _ H) big_nil.
  have [sr sz'] : size r.1 = p /\ wide p rows by move: sz; rewrite /wide all_rcons => /andP[/eqP].
  have [ls [e1 [e2 e3]]] := IH sz'. have [s0 [s1 [l [a1 [a2 [a3 a4]]]]]] := C49_ratio lgam (ys := r.1) r.2 H sz' sr.
  exists (rcons ls l). split; first by rewrite !size_rcons e1. split.
    move=> i. rewrite size_rcons ltnS leq_eqVlt => /orP[/eqP ->|li].
      by rewrite nth_rcons ltnn eqxx nth_rcons e1 ltnn eqxx -cats1 take_size_cat.
    rewrite !nth_rcons e1 li -cats1 takel_cat; last exact: ltnW. exact: e2.
  rewrite -[rcons ls l]cats1 big_cat big_seq1 /=. move: a2; rewrite -surjective_pairing => ->. congr (Ok (Fin _)).
  move: a1; rewrite e3 => -[e]. rewrite a4 -e. toR. lra.
Qed.
Print Assumptions C49_chain.

(** The predictive density is that of Student's t with twice the posterior shape as degrees
    of freedom, centred at the prediction of the posterior mean weights. *)
Theorem C49_student : forall p (lgam : R -> R) (h : hypers p) (rows : seq (seq R * R)) ys xs,
  regular h -> wide p rows -> size ys = p -> Rlt 0 (h_a h) ->
  exists an bn mun P,
    posterior_hypers (size rows) (map fst rows) (map snd rows) h = Ok (an, bn, mun, P) /\
    linreg_logpdf lgam rows h ys xs =
    Ok (Fin (log_t lgam (2 * an) (linear ys mun) (bn / an * (1 + quad (invmx P) (\col_j nth 0%R ys j)))%Re xs)).
Proof.
  move=> p lgam h rows ys xs H sz sy ha. have [hb PD] := H.
  exists (pshape h rows), (prate h rows), (wts h rows), (prec h rows). split; first exact: posterior_closed.
  rewrite (pred_closed lgam H xs sz sy). congr (Ok (Fin _)).
  have -> : quad (invmx (prec h rows)) (\col_j nth 0 ys j) = plev h rows ys.
    have -> : \col_j nth 0 ys j = (rowv p ys)^T by apply/matrixP => i j; rewrite !mxE.
    by rewrite quad_dot /dot /plev trmxK mulmxA.
  rewrite linear_mx -/(pmean h rows ys). rewrite /marg size_rcons S_INR det_rcons // rate_rcons //= /log_t.
  have an0 : Rlt 0 (pshape h rows) by rewrite /pshape; have := pos_INR (size rows); lra.
  have -> : pshape h (rcons rows (ys, xs)) = (pshape h rows + / 2)%Re by rewrite /pshape size_rcons S_INR; lra.
  have q0 : Rle 0 (plev h rows ys) by apply/RleP; apply: plev_ge0.
  have b0 : Rlt 0 (prate h rows) by apply: Rlt_le_trans (rate_pos PD rows hb).
  have d0 : Rlt 0 (\det (prec h rows)) by exact: det_prec_pos.
  toR. set an := pshape _ _ in an0 *. set q := plev _ _ _ in q0 *. set b := prate _ _ in b0 *. set m := pmean _ _ _. set d := \det _ in d0 *.
  clearbody an q b m d. rewrite /LOG2PI_lr. have pi := PI_RGT_0.
  have q1 : (0 < 1 + q)%Re by lra. set z := ((xs - m) * (xs - m) / (1 + q))%Re.
  have z0 : (0 <= z)%Re by apply: Rmult_le_pos; [exact: Rle_0_sqr|apply: Rlt_le; exact: Rinv_0_lt_compat].
  have -> : (2 * an * PI * (b / an * (1 + q)) = (2 * PI) * (b * (1 + q)))%Re by field; lra.
  have -> : (1 + (xs - m) * (xs - m) / (2 * an * (b / an * (1 + q))) = (b + / 2 * z) / b)%Re by rewrite /z; field; lra.
  have -> : ((2 * an + 1) / 2 = an + / 2)%Re by lra. have -> : (2 * an / 2 = an)%Re by lra.
  have bz : (0 < b + / 2 * z)%Re by lra. have bq : (0 < b * (1 + q))%Re by apply: Rmult_lt_0_compat.
  have tp0 : (0 < 2 * PI)%Re by lra. set tp := (2 * PI)%Re in tp0 *. clearbody tp.
  rewrite !ln_mult //; try lra; try exact: Rinv_0_lt_compat. rewrite ln_Rinv //.
  set A := lgam _. set B := lgam _. clearbody z A B. lra.
Qed.
Print Assumptions C49_student.

(** The default hyperparameters, linreg.py:87-92, meet the hypotheses, and rows with two
    covariates and a bias are wide enough. *)
Definition default_hypers p : hypers p := Hypers 1 1 0 1%:M.
Example C49_default : forall p, regular (default_hypers p) /\ Rlt 0 (h_a (default_hypers p)).
Proof. by move=> p; split; [split; [exact: Rlt_0_1|exact: posdef1]|exact: Rlt_0_1]. Qed.
Definition ex_rows : seq (seq R * R) := [:: ([:: 1; 0; 3]%Re, 5%Re); ([:: 1; 1; 2]%Re, 7%Re)].
Example C49_rows : wide 3%N ex_rows /\ perm_eq ex_rows (rev ex_rows).
Proof. by split; rewrite // perm_sym perm_rev. Qed.
