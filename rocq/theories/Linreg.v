(** Model of the arithmetic of /repo/src/regressions/linreg.py:112-118, 131-134, 278-326:
    the posterior of the Bayesian linear regression, its predictive density and its score.

    Simplifications: reals instead of floats; [lgam] is scipy's gammaln.  The covariates of
    a row are a list, as stored; numpy's arrays are mathcomp matrices over the reals.
    [np.linalg.inv] raises exactly for singular matrices. *)
From Coq Require Import Reals.
From Verif Require Export Base Ext RealField.
From Verif Require Import Sampling Holders.
From mathcomp Require Import all_ssreflect ssralg zmodp matrix.
Import GRing.Theory.
Set Implicit Arguments.
Unset Strict Implicit.
Unset Printing Implicit Defensive.
Local Open Scope ring_scope.
Delimit Scope R_scope with Re.

Section Linreg.
  Variable p : nat.
  Variable lgam : R -> R.

  (** [np.linalg.inv]. *)
  Definition np_inv (A : 'M[R]_p) : res 'M[R]_p :=
    if A \in unitmx then Ok (invmx A) else Err LinAlgError.
  (** [np.asarray(Y)] and [np.asarray(x)], linreg.py:304. *)
  Definition design (N : nat) (Y : seq (seq R)) : 'M[R]_(N, p) := \matrix_(i, j) nth 0 (nth [::] Y i) j.
  Definition column (N : nat) (x : seq R) : 'cV[R]_N := \col_i nth 0 x i.
  (** [np.dot(np.transpose(v), w)] of two vectors. *)
  Definition dot n (v w : 'cV[R]_n) : R := (v^T *m w) 0 0.

  Record hypers : Type := Hypers { h_a : R; h_b : R; h_mu : 'cV[R]_p; h_V : 'M[R]_p }.
  (** posterior_hypers, linreg.py:298-321; the last component is [Vn_inv]. *)
  Definition posterior_hypers (N : nat) (Y : seq (seq R)) (x : seq R) (h : hypers) : res (R * R * 'cV[R]_p * 'M[R]_p) :=
    if N == 0%N then
      if (size x == 0%N) && (size Y == 0%N) then rbind (np_inv (h_V h)) (fun Vi => Ok (h_a h, h_b h, h_mu h, Vi))
      else Err AssertionError
    else if negb ((size Y == N) && all (fun y => size y == p) Y) then Err AssertionError
    else if negb (size x == N) then Err AssertionError
    else
      let X := design N Y in let y := column N x in
      rbind (np_inv (h_V h)) (fun V_inv =>
      let XTX := X^T *m X in
      rbind (np_inv (V_inv + XTX)) (fun Vn =>
      let mun := Vn *m (V_inv *m h_mu h + X^T *m y) in
      let Vn_inv := V_inv + XTX in
      let an := (h_a h + INR N / 2)%Re in
      let bn := (h_b h + / 2 * (dot (h_mu h) (V_inv *m h_mu h) + dot y y - dot mun (Vn_inv *m mun)))%Re in
      Ok (an, bn, mun, Vn_inv))).

  (** calc_log_Z, linreg.py:323-326: the quotient is infinite for determinant 0, and math.sqrt
      raises for negative arguments. *)
  Definition log_sqrt_inv (d : R) : res ext :=
    if Rltb d 0 then Err ValueError else if Reqb d 0 then Ok PInf else Ok (Fin (ln (sqrt (1 / d)%Re))).
  Definition calc_log_Z (a b : R) (V_inv : 'M[R]_p) : res ext :=
    rbind (log_sqrt_inv (\det V_inv)) (fun l => Ok (esub (eadd (Fin (lgam a)) l) (fscale a (np_log b)))).

  Definition LOG2PI_lr : R := ln (2 * PI)%Re.
  (** calc_predictive_logp, linreg.py:278-287. *)
  Definition calc_predictive_logp (xs : R) (ys : seq R) (N : nat) (Y : seq (seq R)) (x : seq R) (h : hypers) : res ext :=
    rbind (posterior_hypers N Y x h) (fun '(an, bn, _, Vn_inv) =>
    rbind (posterior_hypers N.+1 (Y ++ [:: ys]) (x ++ [:: xs]) h) (fun '(am, bm, _, Vm_inv) =>
    rbind (calc_log_Z an bn Vn_inv) (fun ZN =>
    rbind (calc_log_Z am bm Vm_inv) (fun ZM =>
    Ok (esub (eadd (Fin (- (1) / 2 * LOG2PI_lr)%Re) ZM) ZN))))).
  (** calc_logpdf_marginal, linreg.py:289-296. *)
  Definition calc_logpdf_marginal (N : nat) (Y : seq (seq R)) (x : seq R) (h : hypers) : res ext :=
    rbind (posterior_hypers N Y x h) (fun '(an, bn, _, Vn_inv) =>
    rbind (np_inv (h_V h)) (fun V_inv =>
    rbind (calc_log_Z (h_a h) (h_b h) V_inv) (fun Z0 =>
    rbind (calc_log_Z an bn Vn_inv) (fun ZN =>
    Ok (esub (eadd (Fin (- INR N / 2 * LOG2PI_lr)%Re) ZN) Z0))))).

  (** logpdf and logpdf_score, linreg.py:112-118, 131-134, on the stored rows, given as pairs
      of covariates and target. *)
  Definition linreg_logpdf (rows : seq (seq R * R)) (h : hypers) (ys : seq R) (xs : R) : res ext :=
    calc_predictive_logp xs ys (size rows) (map fst rows) (map snd rows) h.
  Definition linreg_score (rows : seq (seq R * R)) (h : hypers) : res ext :=
    calc_logpdf_marginal (size rows) (map fst rows) (map snd rows) h.
End Linreg.
