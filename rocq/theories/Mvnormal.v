(** Model of /repo/src/utils/mvnormal.py:29-286: the log density of the normal, its derivative
    and its conditionals, which FactorAnalysis (factor.py:25) and the populations use.

    Simplifications: reals instead of floats, all entries finite; the shapes asserted in the
    source are in the types.  The functions of scipy are arguments. *)
From Coq Require Import Reals.
From Verif Require Export FactorAnalysis.
From Verif Require Import LogSpace.
From mathcomp Require Import all_ssreflect ssralg zmodp matrix.
Import GRing.Theory.
Set Implicit Arguments.
Unset Strict Implicit.
Unset Printing Implicit Defensive.
Local Open Scope ring_scope.

(** scipy.linalg: cho_factor gives an upper factor, with anything below its diagonal, or raises
    LinAlgError; lstsq and pinv. *)
Record scipy : Type := Scipy {
  cho_factor : forall n, 'M[R]_n -> option 'M[R]_n;
  lstsq : forall n m, 'M[R]_n -> 'M[R]_(n, m) -> 'M[R]_(n, m);
  pinv : forall n, 'M[R]_n -> 'M[R]_n }.
(** cho_solve reads the upper triangle. *)
Definition upper n (U : 'M[R]_n) : 'M[R]_n := \matrix_(i, j) if (i <= j)%N then U i j else 0.
Definition cho_solve n m (U : 'M[R]_n) (Y : 'M[R]_(n, m)) : 'M[R]_(n, m) := invmx ((upper U)^T *m upper U) *m Y.

(** np.log of a float. *)
Definition nlog (x : R) : ext := if Rltb 0%Re x then Fin (ln x) else if Reqb x 0%Re then NInf else NaN.
Definition half (x : ext) : ext := match x with Fin a => Fin (a / 2)%Re | _ => x end.

(** Covariance_Cholesky, mvnormal.py:46-64, and Covariance_Loser, mvnormal.py:66-74, as chosen by
    _covariance_factor, mvnormal.py:29-44. *)
Inductive factored n : Type := Cholesky (U : 'M[R]_n) | Loser (Sigma : 'M[R]_n).
Definition covariance_factor (s : scipy) n (Sigma : 'M[R]_n) : factored n :=
  match cho_factor s Sigma with Some U => Cholesky U | None => Loser Sigma end.
Definition solve (s : scipy) n (f : factored n) m (Y : 'M[R]_(n, m)) : 'M[R]_(n, m) :=
  match f with Cholesky U => cho_solve U Y | Loser Sigma => lstsq s Sigma Y end.
Definition inverse (s : scipy) n (f : factored n) : 'M[R]_n :=
  match f with Cholesky U => cho_solve U 1%:M | Loser Sigma => pinv s Sigma end.
Definition logsqrtdet n (f : factored n) : ext :=
  match f with
  | Cholesky U => esum [seq nlog (U i i) | i <- enum 'I_n]
  | Loser Sigma => half (nlog (\det Sigma))
  end.

Definition inner n (u v : 'cV[R]_n) : R := (u^T *m v) 0 0.
(** logpdf, mvnormal.py:76-109. *)
Definition normal_logpdf (s : scipy) n (X Mu : 'cV[R]_n) (Sigma : 'M[R]_n) : ext :=
  let X_ := X - Mu in
  let covf := covariance_factor s Sigma in
  esub (esub (Fin (- inner X_ ((/ 2)%Re *: solve s covf X_))) (Fin (INR n / 2 * ln (2 * PI))%Re)) (logsqrtdet covf).
(** dlogpdf, mvnormal.py:220-245. *)
Definition normal_dlogpdf (s : scipy) n (X : 'cV[R]_n) (dX : seq 'cV[R]_n) (Mu : 'cV[R]_n) (dMu : seq 'cV[R]_n)
    (Sigma : 'M[R]_n) (dSigma : seq 'M[R]_n) : seq R * seq R * seq R :=
  let X_ := X - Mu in
  let covf := covariance_factor s Sigma in
  let alpha := solve s covf X_ in
  let Q := alpha *m alpha^T - inverse s covf in
  ([seq - inner alpha d | d <- dX], [seq inner alpha d | d <- dMu],
   map (fun D : 'M[R]_n => ((\sum_i \sum_j Q i j * D i j)%R / 2)%Re) dSigma).
(** conditional, mvnormal.py:247-286. *)
Definition normal_conditional (s : scipy) n1 n2 (X2 : 'cV[R]_n2) (Mu1 : 'cV[R]_n1) (Mu2 : 'cV[R]_n2)
    (Sigma11 : 'M[R]_n1) (Sigma12 : 'M[R]_(n1, n2)) (Sigma21 : 'M[R]_(n2, n1)) (Sigma22 : 'M[R]_n2) : 'cV[R]_n1 * 'M[R]_n1 :=
  let covf22 := covariance_factor s Sigma22 in
  (Mu1 + Sigma12 *m solve s covf22 (X2 - Mu2), Sigma11 - Sigma12 *m solve s covf22 Sigma21).
