(** Model of the arithmetic of /repo/src/factor/factor.py:164-184, 296-336: the joint normal
    of latent and observed variables and conditioning in it.

    Simplifications: reals instead of floats; the check of symmetry is exact instead of up
    to a tolerance; multivariate_normal.logpdf, which is that of mvnormal.py (factor.py:25), is
    the density of the normal with a nonsingular covariance matrix (Mvnormal.v models it, and
    C68_factor relates the two).  Positions are those given by reindex. *)
From Coq Require Import Reals.
From Verif Require Export Base Ext RealField.
From mathcomp Require Import all_ssreflect ssralg zmodp matrix.
Import GRing.Theory.
Set Implicit Arguments.
Unset Strict Implicit.
Unset Printing Implicit Defensive.
Local Open Scope ring_scope.
Delimit Scope R_scope with Re.

(** joint_parameters, factor.py:296-302: the latents come first. *)
Definition joint_mean L D (mux : 'cV[R]_D) : 'cV[R]_(L + D) := col_mx 0 mux.
Definition joint_cov L D (W : 'M[R]_(D, L)) (Psi : 'M[R]_D) : 'M[R]_(L + D) :=
  block_mx 1%:M W^T W (W *m W^T + Psi).

Section Mvn.
  Variable n : nat.
  (** [mu\[Q\]] and [cov\[Q\]\[:,E\]] with lists of positions. *)
  Definition pick_mean (mu : 'cV[R]_n) q (Q : q.-tuple 'I_n) : 'cV[R]_q := \col_i mu (tnth Q i) 0.
  Definition pick_cov (cov : 'M[R]_n) q (Q : q.-tuple 'I_n) e (E : e.-tuple 'I_n) : 'M[R]_(q, e) :=
    \matrix_(i, j) cov (tnth Q i) (tnth E j).

  (** mvn_condition with mvn_marginalize, factor.py:304-336; the evidence is given by its
      positions and its values. *)
  Definition mvn_condition (mu : 'cV[R]_n) (cov : 'M[R]_n) q (Q : q.-tuple 'I_n) e (E : e.-tuple 'I_n) (Ev : 'cV[R]_e)
    : res ('cV[R]_q * 'M[R]_q) :=
    if negb (q + e <= n)%N then Err AssertionError
    else
      let muQ := pick_mean mu Q in
      let muE := pick_mean mu E in
      let covQ := pick_cov cov Q Q in
      let covE := pick_cov cov E E in
      let covJ := pick_cov cov Q E in
      let covQE := block_mx covQ covJ covJ^T covE in
      if negb (covQE == covQE^T) then Err AssertionError
      else if covE \in unitmx then
        let P := covJ *m invmx covE in
        Ok (muQ + P *m (Ev - muE), covQ - P *m covJ^T)
      else Err LinAlgError.
End Mvn.

(** multivariate_normal.logpdf of factor.py:184, which is mvnormal.py:76-109, for a positive
    definite covariance. *)
Definition mvn_logpdf q (x mu : 'cV[R]_q) (cov : 'M[R]_q) : R :=
  (- / 2 * (INR q * ln (2 * PI) + ln (\det cov) + ((x - mu)^T *m invmx cov *m (x - mu))%R 0%R 0%R))%Re.

(** The end of logpdf, factor.py:179-184: targets and constraints are positions with values. *)
Definition fa_logpdf n (mu : 'cV[R]_n) (cov : 'M[R]_n) (targets constraints : seq ('I_n * R)) : res R :=
  let t := in_tuple targets in
  let c := in_tuple constraints in
  rbind (mvn_condition mu cov (map_tuple fst t) (map_tuple fst c) (\col_i (tnth c i).2)) (fun '(muG, covG) =>
  Ok (mvn_logpdf (\col_i (tnth t i).2) muG covG)).
