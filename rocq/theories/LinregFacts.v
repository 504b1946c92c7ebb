(** The posterior of the linear regression in closed form, and its update by one row. *)
From Coq Require Import Reals Lra.
From Verif Require Import Linreg MatrixFacts Holders Sampling PrimFacts.
From mathcomp Require Import all_ssreflect ssralg ssrnum zmodp matrix.
Import Order.Theory GRing.Theory Num.Theory.
Set Implicit Arguments.
Unset Strict Implicit.
Unset Printing Implicit Defensive.
Local Open Scope ring_scope.

(** From the operations of mathcomp to those of the standard library. *)
Ltac toR := rewrite ?expr2 /GRing.zero /GRing.one /GRing.add /GRing.mul /GRing.opp /=.

Section Facts.
  Variable p : nat.
  Variable h : hypers p.

  Definition rowv (y : seq R) : 'rV[R]_p := \row_j nth 0 y j.
  Definition prec (rows : seq (seq R * R)) : 'M[R]_p := invmx (h_V h) + \sum_(r <- rows) (rowv r.1)^T *m rowv r.1.
  Definition shift (rows : seq (seq R * R)) : 'cV[R]_p := invmx (h_V h) *m h_mu h + \sum_(r <- rows) r.2 *: (rowv r.1)^T.
  Definition wts (rows : seq (seq R * R)) : 'cV[R]_p := invmx (prec rows) *m shift rows.
  Definition sumsq (rows : seq (seq R * R)) : R := \sum_(r <- rows) r.2 ^+ 2.
  Definition pshape (rows : seq (seq R * R)) : R := (h_a h + INR (size rows) / 2)%Re.
  Definition prate (rows : seq (seq R * R)) : R :=
    (h_b h + / 2 * (dot (h_mu h) (invmx (h_V h) *m h_mu h) + sumsq rows - dot (shift rows) (wts rows)))%Re.

  Lemma design_gram (Y : seq (seq R)) : (design p (size Y) Y)^T *m design p (size Y) Y = \sum_(y <- Y) (rowv y)^T *m rowv y.
  Proof.
    apply/matrixP => i j. rewrite mxE summxE (big_nth [::]) big_mkord. apply: eq_bigr => k _.
    by rewrite !mxE big_ord1 !mxE.
  Qed.
  Lemma design_cross (rows : seq (seq R * R)) :
    (design p (size rows) (map fst rows))^T *m column (size rows) (map snd rows) = \sum_(r <- rows) r.2 *: (rowv r.1)^T.
  Proof.
    apply/matrixP => i j. rewrite mxE summxE (big_nth ([::], 0)) big_mkord. apply: eq_bigr => k _.
    rewrite !mxE !(nth_map ([::], 0)) // mulrC. by [].
  Qed.
  Lemma column_sq (rows : seq (seq R * R)) :
    dot (column (size rows) (map snd rows)) (column (size rows) (map snd rows)) = sumsq rows.
  Proof.
    rewrite /dot /sumsq mxE (big_nth ([::], 0)) big_mkord. apply: eq_bigr => k _.
    by rewrite !mxE !(nth_map ([::], 0)) // expr2.
  Qed.

  Lemma dotC n (v w : 'cV[R]_n) : dot v w = dot w v.
  Proof. by rewrite /dot -[in LHS](trmxK (v^T *m w)) mxE trmx_mul trmxK. Qed.
  Lemma dotDl n (u v w : 'cV[R]_n) : dot (u + v) w = dot u w + dot v w.
  Proof. by rewrite /dot linearD /= mulmxDl mxE. Qed.
  Lemma dotDr n (u v w : 'cV[R]_n) : dot w (u + v) = dot w u + dot w v.
  Proof. by rewrite /dot mulmxDr mxE. Qed.
  Lemma dotZl n a (v w : 'cV[R]_n) : dot (a *: v) w = a * dot v w.
  Proof. by rewrite /dot linearZ /= -scalemxAl mxE. Qed.
  Lemma dotZr n a (v w : 'cV[R]_n) : dot w (a *: v) = a * dot w v.
  Proof. by rewrite /dot -scalemxAr mxE. Qed.
  Lemma dotN n (v w : 'cV[R]_n) : dot (- v) w = - dot v w.
  Proof. by rewrite /dot linearN /= mulNmx mxE. Qed.
  Lemma dotNr n (v w : 'cV[R]_n) : dot w (- v) = - dot w v.
  Proof. by rewrite /dot mulmxN mxE. Qed.
  Lemma dot_sym n (A : 'M[R]_n) (v w : 'cV[R]_n) : A^T = A -> dot v (A *m w) = dot (A *m v) w.
  Proof. by move=> sy; rewrite /dot trmx_mul sy mulmxA. Qed.
  Lemma dot_suml n (s : seq (seq R * R)) (f : _ -> 'cV[R]_n) (w : 'cV[R]_n) :
    dot (\sum_(r <- s) f r) w = \sum_(r <- s) dot (f r) w.
  Proof. by rewrite /dot linear_sum /= mulmx_suml summxE. Qed.

  Hypothesis PD : posdef (h_V h).

  Lemma gram_semi (rows : seq (seq R * R)) : possemi (\sum_(r <- rows) (rowv r.1)^T *m rowv r.1).
  Proof.
    elim: rows => [|r rows IH]; first by rewrite big_nil; apply: possemi0.
    by rewrite big_cons; apply: possemi_add => //; apply: possemi_gram.
  Qed.
  Lemma prec_pd rows : posdef (prec rows).
  Proof. by apply: posdef_add; [apply: posdef_inv|apply: gram_semi]. Qed.
  Lemma wts_eq rows : prec rows *m wts rows = shift rows.
  Proof. by rewrite mulKVmx //; apply: posdef_unit; apply: prec_pd. Qed.

  Lemma posterior_closed (rows : seq (seq R * R)) : all (fun r => size r.1 == p) rows ->
    posterior_hypers (size rows) (map fst rows) (map snd rows) h = Ok (pshape rows, prate rows, wts rows, prec rows).
  Proof.
    move=> sz. have uV := posdef_unit PD. rewrite /posterior_hypers !size_map !eqxx /=.
    have iv : np_inv (h_V h) = Ok (invmx (h_V h)) by rewrite /np_inv uV.
    case: (altP (size rows =P 0%N)) => [e|ne] /=.
      move/size0nil: e => ->. rewrite iv /= /pshape /prate /wts /shift /prec /sumsq !big_nil /= !addr0 invmxK.
      rewrite mulmxA mulmxV // mul1mx. congr (Ok (_, _, _, _)).
        by rewrite /Rdiv Rmult_0_l Rplus_0_r.
      rewrite [dot (_ *m _) _]dotC. toR. set D := dot _ _. clearbody D. lra.
    have -> : all (fun y : seq R => size y == p) (map fst rows) by rewrite all_map.
    have eg : (design p (size rows) (map fst rows))^T *m design p (size rows) (map fst rows) =
              \sum_(r <- rows) (rowv r.1)^T *m rowv r.1.
      by rewrite -[size rows](size_map fst) design_gram big_map.
    rewrite iv /= eg -/(prec rows). have un := posdef_unit (prec_pd rows).
    rewrite /np_inv un /= design_cross -/(shift rows) column_sq -/(wts rows) wts_eq.
    by rewrite [dot (wts rows) _]dotC.
  Qed.

  (** One row more. *)
  Lemma prec_rcons rows r : prec (rcons rows r) = prec rows + (rowv r.1)^T *m rowv r.1.
  Proof. by rewrite /prec -cats1 big_cat /= big_seq1 addrA. Qed.
  Lemma shift_rcons rows r : shift (rcons rows r) = shift rows + r.2 *: (rowv r.1)^T.
  Proof. by rewrite /shift -cats1 big_cat /= big_seq1 addrA. Qed.
  Lemma sumsq_rcons rows r : sumsq (rcons rows r) = sumsq rows + r.2 ^+ 2.
  Proof. by rewrite /sumsq -cats1 big_cat /= big_seq1. Qed.

  (** Mean and inflation of the prediction for the covariates [y]. *)
  Definition pmean rows (y : seq R) : R := (rowv y *m wts rows) 0 0.
  Definition plev rows (y : seq R) : R := (rowv y *m invmx (prec rows) *m (rowv y)^T) 0 0.
  Lemma plev_ge0 rows y : 0 <= plev rows y.
  Proof.
    have [sy pd] := posdef_inv (prec_pd rows). rewrite /plev.
    case: (altP ((rowv y)^T =P 0)) => [e|nz]; first by rewrite e mulmx0 mxE.
    by have := pd _ nz; rewrite trmxK => /ltW.
  Qed.
  Lemma det_rcons rows r : \det (prec (rcons rows r)) = \det (prec rows) * (1 + plev rows r.1).
  Proof. by rewrite prec_rcons det_add_row //; apply: posdef_unit; apply: prec_pd. Qed.

  Lemma wts_rcons rows r :
    wts (rcons rows r) = wts rows + ((r.2 - pmean rows r.1) / (1 + plev rows r.1)) *: (invmx (prec rows) *m (rowv r.1)^T).
  Proof.
    set y := rowv r.1. set t := _ / _. have u := posdef_unit (prec_pd rows). have u' := posdef_unit (prec_pd (rcons rows r)).
    have q1 : 1 + plev rows r.1 != 0 by rewrite gt_eqF // ltr_paddr ?plev_ge0 ?ltr01.
    apply: (can_inj (mulKmx u')). rewrite wts_eq shift_rcons prec_rcons -/y mulmxDl !mulmxDr wts_eq -!scalemxAr.
    rewrite mulmxA mulmxV // mul1mx.
    have -> : y^T *m y *m wts rows = pmean rows r.1 *: y^T.
      by rewrite -mulmxA [y *m _]mx11_scalar mul_mx_scalar.
    have -> : y^T *m y *m (invmx (prec rows) *m y^T) = plev rows r.1 *: y^T.
      by rewrite -mulmxA [y *m _]mulmxA [y *m _ *m _]mx11_scalar mul_mx_scalar.
    rewrite -addrA. congr (_ + _). rewrite scalerA -!scalerDl. congr (_ *: _).
    have e : t * (1 + plev rows r.1) = r.2 - pmean rows r.1 by rewrite /t divfK.
    by rewrite addrCA -{1}[t]mulr1 -mulrDr e addrC subrK.
  Qed.
  Lemma quad_rcons rows r :
    dot (shift (rcons rows r)) (wts (rcons rows r)) =
    dot (shift rows) (wts rows) + r.2 ^+ 2 - (r.2 - pmean rows r.1) ^+ 2 / (1 + plev rows r.1).
  Proof.
    have q1 : 1 + plev rows r.1 != 0 by rewrite gt_eqF // ltr_paddr ?plev_ge0 ?ltr01.
    rewrite wts_rcons shift_rcons. set y := rowv r.1. set t := (r.2 - pmean rows r.1) / (1 + plev rows r.1).
    have e : t * (1 + plev rows r.1) = r.2 - pmean rows r.1 by rewrite /t divfK.
    have -> : (r.2 - pmean rows r.1) ^+ 2 / (1 + plev rows r.1) = (r.2 - pmean rows r.1) * t by rewrite expr2 /t mulrA.
    have [sy _] := posdef_inv (prec_pd rows).
    rewrite dotDl !dotDr !dotZl !dotZr.
    have -> : dot (shift rows) (invmx (prec rows) *m y^T) = pmean rows r.1.
      by rewrite dot_sym // -/(wts rows) dotC /dot trmxK.
    have -> : dot y^T (wts rows) = pmean rows r.1 by rewrite /dot trmxK.
    have -> : dot y^T (invmx (prec rows) *m y^T) = plev rows r.1 by rewrite /dot trmxK mulmxA.
    move: e. toR. clearbody t. set m := pmean _ _. set q := plev _ _. set D := dot _ _. set x := r.2. clearbody m q D x.
    move=> e. have e' : (t * q = x - m - t)%Re by lra.
    replace (x * (t * q))%Re with (x * (x - m - t))%Re by (rewrite e'; reflexivity). lra.
  Qed.
  Lemma rate_rcons rows r :
    prate (rcons rows r) = (prate rows + / 2 * ((r.2 - pmean rows r.1) * (r.2 - pmean rows r.1) / (1 + plev rows r.1)))%Re.
  Proof.
    have q0 : (0 <= plev rows r.1)%Re by apply/RleP; apply: plev_ge0.
    rewrite /prate quad_rcons sumsq_rcons. rewrite RinvE; last first.
      toR. lra.
    toR. set D := dot (shift rows) _. set q := plev _ _ in q0 *. set m := pmean _ _. set E := dot _ _. set x := r.2.
    clearbody D q m E x. rewrite /Rdiv. lra.
  Qed.
  Lemma prec_nil : prec [::] = invmx (h_V h).
  Proof. by rewrite /prec big_nil addr0. Qed.
  Lemma rate_nil : prate [::] = h_b h.
  Proof.
    rewrite /prate /wts /shift /prec /sumsq !big_nil /= !addr0 invmxK mulmxA mulmxV ?(posdef_unit PD) // mul1mx.
    rewrite [dot (_ *m _) _]dotC. toR. set D := dot _ _. clearbody D. lra.
  Qed.
  Lemma rate_pos rows : (0 < h_b h)%Re -> (h_b h <= prate rows)%Re.
  Proof.
    move=> hb. elim/last_ind: rows => [|rows r IH].
      rewrite rate_nil. exact: Rle_refl.
    rewrite rate_rcons. have q0 : (0 <= plev rows r.1)%Re by apply/RleP; apply: plev_ge0.
    set q := plev _ _ in q0 *. set d := (r.2 - pmean rows r.1)%Re. clearbody q d.
    have : (0 <= d * d / (1 + q))%Re.
      apply: Rmult_le_pos; first exact: Rle_0_sqr. apply: Rlt_le. apply: Rinv_0_lt_compat. lra.
    lra.
  Qed.
  Lemma det_prec_pos rows : (0 < \det (prec rows))%Re.
  Proof. by apply/RltP; apply: posdef_det; apply: prec_pd. Qed.
End Facts.
