(** C68: the log density of the multivariate normal, its derivative and its conditionals. *)
From Coq Require Import Reals Lra FunctionalExtensionality ClassicalEpsilon.
From Verif Require Import LogSpaceFacts Mvnormal MatrixFacts P24_Factor.
From mathcomp Require Import all_ssreflect fingroup perm ssralg ssrnum zmodp matrix.
Import Order.Theory GRing.Theory Num.Theory.
Set Implicit Arguments.
Unset Strict Implicit.
Unset Printing Implicit Defensive.
Local Open Scope ring_scope.

(* ------------------------------------------------------------------ *)
(** ** Specification *)
(** The log density of the normal. *)
Definition log_density n (x mu : 'cV[R]_n) (S : 'M[R]_n) : R :=
  (- (1 / 2) * (\sum_i \sum_j (x i 0 - mu i 0)%R * invmx S i j * (x j 0 - mu j 0)%R)%R - INR n / 2 * ln (2 * PI) - (1 / 2) * ln (\det S))%Re.
(** What scipy's functions do: the factor of a positive definite matrix, none for another
    symmetric matrix; solutions and inverses of nonsingular matrices. *)
Record correct (s : scipy) : Prop := Correct {
  c_factor : forall n (A : 'M[R]_n), posdef A -> exists U, cho_factor s A = Some U /\ (upper U)^T *m upper U = A /\ forall i, Rlt 0 (U i i);
  c_none : forall n (A : 'M[R]_n), A^T = A -> ~ posdef A -> cho_factor s A = None;
  c_lstsq : forall n m (A : 'M[R]_n) (Y : 'M[R]_(n, m)), A \in unitmx -> lstsq s A Y = invmx A *m Y;
  c_pinv : forall n (A : 'M[R]_n), A \in unitmx -> pinv s A = invmx A }.

(* ------------------------------------------------------------------ *)
(** ** The factor *)
Lemma upper_det n (U : 'M[R]_n) : \det (upper U) = \prod_i U i i.
Proof.
  rewrite -det_tr det_trig; first by apply: eq_bigr => i _; rewrite !mxE leqnn.
  apply/is_trig_mxP => i j lt. by rewrite !mxE leqNgt lt.
Qed.
Lemma ln_prod (T : Type) (r : seq T) (f : T -> R) : (forall i, Rlt 0 (f i)) ->
  Rlt 0 (\prod_(i <- r) f i) /\ ln (\prod_(i <- r) f i) = \sum_(i <- r) ln (f i).
Proof.
  move=> h. elim: r => [|a r [ih1 ih2]]; first by rewrite !big_nil ln_1; split=> //; apply: Rlt_0_1.
  rewrite !big_cons -ih2. split; first exact: Rmult_lt_0_compat. exact: ln_mult.
Qed.
Lemma Rsum_big (T : Type) (r : seq T) (f : T -> R) : Rsum (map f r) = \sum_(i <- r) f i.
Proof. elim: r => [|a r ih] /=; first by rewrite big_nil. by rewrite big_cons -ih. Qed.
Lemma nlog_pos x : Rlt 0 x -> nlog x = Fin (ln x).
Proof. by move=> h; rewrite /nlog (proj2 (Rltb_true _ _) h). Qed.
Section Factor.
  Variables (s : scipy) (H : correct s) (n : nat) (S : 'M[R]_n) (PD : posdef S).
  Lemma solve_pd m (Y : 'M[R]_(n, m)) : solve s (covariance_factor s S) Y = invmx S *m Y.
  Proof. by rewrite /covariance_factor; case: (c_factor H PD) => U [-> [e _]] /=; rewrite /cho_solve e. Qed.
  Lemma inverse_pd : inverse s (covariance_factor s S) = invmx S.
  Proof. by rewrite /covariance_factor; case: (c_factor H PD) => U [-> [e _]] /=; rewrite /cho_solve e mulmx1. Qed.
  Lemma logsqrtdet_pd : logsqrtdet (covariance_factor s S) = Fin (1 / 2 * ln (\det S))%Re.
  Proof.
    rewrite /covariance_factor; case: (c_factor H PD) => U [-> [e p]] /=.
    have -> : [seq nlog (U i i) | i <- enum 'I_n] = map Fin [seq ln (U i i) | i <- enum 'I_n] by rewrite -map_comp; apply: eq_map => i /=; rewrite nlog_pos.
    rewrite esum_fin Rsum_big. have [q1 q2] := ln_prod (index_enum (ordinal_finType n)) p.
    have -> : \det S = (\prod_i U i i) * (\prod_i U i i) by rewrite -e det_mulmx det_tr upper_det.
    rewrite ln_mult //. have -> : \sum_(i <- enum 'I_n) ln (U i i) = ln (\prod_i U i i) by rewrite q2 big_enum.
    congr Fin. lra.
  Qed.
End Factor.
Lemma quad_sum n (A : 'M[R]_n) (v : 'cV[R]_n) : inner v (A *m v) = \sum_i \sum_j v i 0 * A i j * v j 0.
Proof.
  rewrite /inner mxE. apply: eq_bigr => i _. rewrite !mxE big_distrr /=. by apply: eq_bigr => j _; rewrite mulrA.
Qed.
Lemma inner_scale n (u v : 'cV[R]_n) c : inner u (c *: v) = (c * inner u v)%Re.
Proof. by rewrite /inner -scalemxAr mxE. Qed.
(** The log density of a normal with a positive definite covariance. *)
Theorem C68_logpdf : forall s n (x mu : 'cV[R]_n) (S : 'M[R]_n), correct s -> posdef S -> normal_logpdf s x mu S = Fin (log_density x mu S).
Proof.
  move=> s n x mu S H PD. rewrite /normal_logpdf (logsqrtdet_pd H PD) (solve_pd H PD) inner_scale quad_sum /esub /eopp /eadd /log_density.
  congr Fin. have -> : \sum_i \sum_j (x - mu) i 0 * invmx S i j * (x - mu) j 0 = \sum_i \sum_j (x i 0 - mu i 0) * invmx S i j * (x j 0 - mu j 0) by apply: eq_bigr => i _; apply: eq_bigr => j _; rewrite !mxE.
  set q := \sum_i _. rewrite /GRing.opp /=. clearbody q. lra.
Qed.
Print Assumptions C68_logpdf.

(* ------------------------------------------------------------------ *)
(** ** Derivatives *)
Local Notation der := derivable_pt_lim.
Lemma der_eq f t l l' : der f t l -> l = l' -> der f t l'.
Proof. by move=> h <-. Qed.
Lemma der_const c t : der (fun _ => c) t 0.
Proof. exact: derivable_pt_lim_const. Qed.
Lemma der_add f g t l m : der f t l -> der g t m -> der (fun s => (f s + g s)%R) t (l + m)%R.
Proof. exact: derivable_pt_lim_plus. Qed.
Lemma der_mul f g t l m : der f t l -> der g t m -> der (fun s => (f s * g s)%R) t (l * g t + f t * m)%R.
Proof. exact: derivable_pt_lim_mult. Qed.
Lemma der_sum (T : Type) (r : seq T) (f : T -> R -> R) t (l : T -> R) : (forall i, der (f i) t (l i)) ->
  der (fun s => \sum_(i <- r) f i s) t (\sum_(i <- r) l i).
Proof.
  move=> h. elim: r => [|a r ih].
    rewrite big_nil. apply: derivable_pt_lim_ext (der_const 0 t) => z. by rewrite big_nil.
  rewrite big_cons. apply: derivable_pt_lim_ext (der_add (h a) ih) => z. by rewrite big_cons.
Qed.
Lemma der_prod (T : eqType) (r : seq T) (f : T -> R -> R) t (l : T -> R) : uniq r -> (forall i, der (f i) t (l i)) ->
  der (fun s => \prod_(i <- r) f i s) t (\sum_(i <- r) \prod_(k <- r) (if k == i then l k else f k t)).
Proof.
  move=> u h. elim: r u => [|a r ih] /=.
    move=> _. rewrite big_nil. apply: derivable_pt_lim_ext (der_const 1 t) => z. by rewrite big_nil.
  move=> /andP[na u]. apply: (derivable_pt_lim_ext (fun z => f a z * \prod_(i <- r) f i z)); first by move=> z; rewrite big_cons.
  apply: der_eq (der_mul (h a) (ih u)) _. rewrite big_cons big_cons eqxx. congr (_ + _).
    congr (_ * _). rewrite big_seq [in RHS]big_seq. apply: eq_bigr => k kr. by case: eqP => // e; rewrite e (negbTE na) in kr.
  rewrite big_distrr /= big_seq [in RHS]big_seq. apply: eq_bigr => i ir. rewrite big_cons. congr (_ * _).
  by case: eqP => // e; rewrite e ir in na.
Qed.
(** Jacobi's formula. *)
Lemma der_det n (M : R -> 'M[R]_n) t (D : 'M[R]_n) : (forall i j, der (fun s => M s i j) t (D i j)) ->
  der (fun s => \det (M s)) t (\sum_i \sum_j D i j * cofactor (M t) i j).
Proof.
  move=> h. rewrite /determinant. 
  have step : der (fun s => \sum_(p : 'S_n) (-1) ^+ p * \prod_i M s i (p i)) t (\sum_(p : 'S_n) (-1) ^+ p * (\sum_i \prod_k (if k == i then D k (p k) else M t k (p k)))).
    apply: der_sum => p. apply: der_eq (der_mul (der_const _ _) (der_prod (f := fun i s => M s i (p i)) (l := fun i => D i (p i)) (index_enum_uniq _) _)) _ => [i|]; first exact: h.
    by rewrite mul0r add0r.
  apply: der_eq step _. pose N i : 'M[R]_n := \matrix_(k, j) if k == i then D k j else M t k j.
  transitivity (\sum_i \det (N i)).
    rewrite /determinant exchange_big /=. apply: eq_bigr => p _. rewrite big_distrr /=. apply: eq_bigr => i _. congr (_ * _).
    by apply: eq_bigr => k _; rewrite !mxE.
  apply: eq_bigr => i _. rewrite (expand_det_row _ i). apply: eq_bigr => j _. rewrite mxE eqxx. congr (_ * _).
  rewrite /cofactor. congr (_ * \det _). apply/matrixP => a b. rewrite !mxE. by rewrite eq_sym (negbTE (neq_lift _ _)).
Qed.
Lemma der_cofactor n (M : R -> 'M[R]_n) t (D : 'M[R]_n) i j : (forall a b, der (fun s => M s a b) t (D a b)) ->
  exists l, der (fun s => cofactor (M s) i j) t l.
Proof.
  move=> h. have hd : forall a b, der (fun s => (row' i (col' j (M s))) a b) t ((row' i (col' j D)) a b).
    move=> a b. rewrite !mxE. apply: derivable_pt_lim_ext (h _ _) => z. by rewrite !mxE.
  eexists. apply: der_mul (der_const _ _) (der_det hd).
Qed.
Definition near t eps (P : R -> Prop) : Prop := forall z, Rlt (t - eps)%Re z /\ Rlt z (t + eps)%Re -> P z.
Lemma der_near f g t eps l : Rlt 0 eps -> near t eps (fun z => f z = g z) -> der f t l -> der g t l.
Proof. move=> e h. apply: (@derivable_pt_lim_locally_ext f g t (t - eps)%Re (t + eps)%Re l) => //. lra. Qed.
Lemma der_inverse n (M : R -> 'M[R]_n) t (D : 'M[R]_n) eps : Rlt 0 eps -> near t eps (fun z => M z \in unitmx) ->
  (forall i j, der (fun s => M s i j) t (D i j)) -> forall i j, der (fun s => invmx (M s) i j) t ((- (invmx (M t) *m D *m invmx (M t))) i j).
Proof.
  move=> e hu h. have ut : M t \in unitmx by apply: hu; lra.
  have ex : forall i j, exists l, der (fun s => invmx (M s) i j) t l.
    move=> i j. have [l hl] := der_cofactor j i h. have dt := der_det h. have nz : \det (M t) <> 0%Re by apply/eqP; move: ut; rewrite unitmxE unitfE.
    exists ((l * \det (M t) - (\sum_i0 \sum_j0 D i0 j0 * cofactor (M t) i0 j0)%R * cofactor (M t) j i) / Rsqr (\det (M t)))%Re.
    apply: (der_near e _ (derivable_pt_lim_div _ _ _ _ _ hl dt nz)) => z hz. have uz := hu z hz. have nz' : \det (M z) <> 0%Re by apply/eqP; move: uz; rewrite unitmxE unitfE.
    rewrite /invmx uz !mxE /div_fct RinvE //. exact: Rmult_comm.
  have [E hE] : exists E : 'M[R]_n, forall i j, der (fun s => invmx (M s) i j) t (E i j).
    exists (\matrix_(i, j) proj1_sig (constructive_indefinite_description _ (ex i j))) => i j. rewrite mxE. exact: (proj2_sig (constructive_indefinite_description _ (ex i j))).
  have eq0 : D *m invmx (M t) + M t *m E = 0.
    apply/matrixP => i j. rewrite !mxE -big_split /=.
    apply: (@uniqueness_limite (fun s => \sum_k M s i k * invmx (M s) k j) t); first by apply: der_sum => k; apply: der_mul.
    apply: (der_near e _ (der_const ((1%:M : 'M[R]_n) i j) t)) => z hz /=. rewrite -(mulmxV (hu z hz)) mxE. by [].
  have -> : - (invmx (M t) *m D *m invmx (M t)) = E; last exact: hE.
  have := congr1 (mulmx (invmx (M t))) eq0. rewrite mulmxDr mulmx0 mulKmx // mulmxA => /eqP. by rewrite addrC addr_eq0 => /eqP ->.
Qed.
Lemma Radd_eq (a b c d : R) : a = b -> c = d -> (a + c)%Re = (b + d)%Re.
Proof. by move=> -> ->. Qed.
Lemma sum_mx n (u v : 'cV[R]_n) (A : 'M[R]_n) : \sum_i \sum_j u i 0 * A i j * v j 0 = (u^T *m A *m v) 0 0.
Proof.
  rewrite -mulmxA mxE. apply: eq_bigr => i _. rewrite !mxE big_distrr /=. by apply: eq_bigr => j _; rewrite mulrA.
Qed.
(** Symmetric with a positive determinant. *)
Definition regular n (S : 'M[R]_n) : Prop := S^T = S /\ Rlt 0 (\det S).
Lemma regular_unit n (S : 'M[R]_n) : regular S -> S \in unitmx.
Proof. by move=> [_ d]; rewrite unitmxE unitfE; apply/eqP; apply: Rgt_not_eq. Qed.
Lemma posdef_regular n (S : 'M[R]_n) : posdef S -> regular S.
Proof. by move=> pd; split; [case: pd|apply/RltP; apply: posdef_det]. Qed.
Lemma solve_regular s n (S : 'M[R]_n) m (Y : 'M[R]_(n, m)) : correct s -> regular S -> solve s (covariance_factor s S) Y = invmx S *m Y.
Proof.
  move=> H rg. case: (classic (posdef S)) => [pd|np]; first exact: solve_pd. by rewrite /covariance_factor (c_none H) //=; [apply: (c_lstsq H); apply: regular_unit|case: rg].
Qed.
Lemma inverse_regular s n (S : 'M[R]_n) : correct s -> regular S -> inverse s (covariance_factor s S) = invmx S.
Proof.
  move=> H rg. case: (classic (posdef S)) => [pd|np]; first exact: inverse_pd. by rewrite /covariance_factor (c_none H) //=; [apply: (c_pinv H); apply: regular_unit|case: rg].
Qed.
(** The derivative of the log density along any curves of the point, the mean and the
    covariance. *)
Lemma der_log_density n (X Mu : R -> 'cV[R]_n) (S : R -> 'M[R]_n) t eps (dX dMu : 'cV[R]_n) (dS : 'M[R]_n) :
  Rlt 0 eps -> near t eps (fun z => regular (S z)) ->
  (forall i, der (fun z => X z i 0) t (dX i 0)) -> (forall i, der (fun z => Mu z i 0) t (dMu i 0)) -> (forall i j, der (fun z => S z i j) t (dS i j)) ->
  let alpha := invmx (S t) *m (X t - Mu t) in
  der (fun z => log_density (X z) (Mu z) (S z)) t
    (- inner alpha dX + inner alpha dMu + ((\sum_i \sum_j (alpha *m alpha^T - invmx (S t)) i j * dS i j)%R / 2))%Re.
Proof.
  move=> e pd hX hM hS alpha. have pt : regular (S t) by apply: pd; lra.
  have hu : near t eps (fun z => S z \in unitmx) by move=> z hz; apply: regular_unit; apply: pd.
  have hI := der_inverse e hu hS. set I := invmx (S t) in hI *. set E := - _ in hI.
  have sI : I^T = I by rewrite /I trmx_inv; case: pt => ->.
  set v := X t - Mu t. set w := dX - dMu.
  have hv i : der (fun z => X z i 0 - Mu z i 0)%R t (w i 0).
    rewrite !mxE. exact: derivable_pt_lim_minus.
  have hq : der (fun z => \sum_i \sum_j (X z i 0 - Mu z i 0)%R * invmx (S z) i j * (X z j 0 - Mu z j 0)%R) t
      (2 * inner alpha w - (alpha^T *m dS *m alpha)%R 0%R 0%R)%Re.
    apply: der_eq (der_sum _ (fun i => der_sum _ (fun j => der_mul (der_mul (hv i) (hI i j)) (hv j)))) _.
    transitivity (\sum_i \sum_j (w i 0 * I i j * v j 0 + v i 0 * E i j * v j 0 + v i 0 * I i j * w j 0)).
      apply: eq_bigr => i _; apply: eq_bigr => j _. rewrite /v ![(X t - Mu t) _ _]mxE ![(- Mu t) _ _]mxE. by rewrite mulrDl.
    have -> : \sum_i \sum_j (w i 0 * I i j * v j 0 + v i 0 * E i j * v j 0 + v i 0 * I i j * w j 0) =
      \sum_i \sum_j w i 0 * I i j * v j 0 + \sum_i \sum_j v i 0 * E i j * v j 0 + \sum_i \sum_j v i 0 * I i j * w j 0.
      rewrite -!big_split /=. apply: eq_bigr => i _. by rewrite !big_split.
    rewrite !sum_mx.
    have e1 : (w^T *m I *m v) 0 0 = inner alpha w.
      by rewrite /inner -mulmxA -/alpha -[w^T *m alpha]trmxK trmx_mul trmxK mxE.
    have e2 : (v^T *m I *m w) 0 0 = inner alpha w by rewrite /inner /alpha trmx_mul sI.
    have e3 : (v^T *m E *m v) 0 0 = - (alpha^T *m dS *m alpha) 0 0 by rewrite /E /alpha trmx_mul sI mulmxN mulNmx [LHS]mxE !mulmxA.
    rewrite e1 e2 e3. rewrite /GRing.add /GRing.opp /=. lra.
  have hd : der (fun z => ln (\det (S z))) t (\sum_i \sum_j I i j * dS i j).
    have dp : Rlt 0 (\det (S t)) by case: pt.
    apply: der_eq (derivable_pt_lim_comp _ _ _ _ _ (der_det hS) (derivable_pt_lim_ln _ dp)) _.
    rewrite RmulE big_distrr /=. apply: eq_bigr => i _. rewrite big_distrr /=. apply: eq_bigr => j _.
    have -> : I i j = (/ \det (S t) * cofactor (S t) i j)%Re.
      rewrite -[I]sI mxE /I /invmx (regular_unit pt) !mxE RinvE //. exact: Rgt_not_eq.
    rewrite -!RmulE. ring.
  have hq' := derivable_pt_lim_scal _ (- (1 / 2))%Re _ _ hq. have hd' := derivable_pt_lim_scal _ (1 / 2)%Re _ _ hd.
  have h := derivable_pt_lim_minus _ _ _ _ _ (derivable_pt_lim_minus _ _ _ _ _ hq' (der_const (INR n / 2 * ln (2 * PI))%Re t)) hd'.
  apply: der_eq (derivable_pt_lim_ext _ _ _ _ _ h) _ => [z //|].
  have -> : \sum_i \sum_j (alpha *m alpha^T - I) i j * dS i j = (alpha^T *m dS *m alpha) 0 0 - \sum_i \sum_j I i j * dS i j.
    rewrite -sum_mx -sumrB. apply: eq_bigr => i _. rewrite -sumrB. apply: eq_bigr => j _. rewrite [(alpha *m alpha^T - I) i j]mxE [(alpha *m alpha^T) i j]mxE big_ord1 [(- I) i j]mxE [alpha^T 0 j]mxE mulrBl. by rewrite mulrAC.
  have -> : inner alpha w = inner alpha dX - inner alpha dMu by rewrite /inner /w mulmxBr [LHS]mxE [(- (alpha^T *m dMu)) 0 0]mxE.
  set d := \sum_i _. set c := (alpha^T *m dS *m alpha) 0 0. set b := inner alpha dMu. set a := inner alpha dX. clearbody a b c d.
  rewrite /GRing.add /GRing.opp /GRing.zero /=. lra.
Qed.
(** The three gradients of dlogpdf: each entry is the derivative of logpdf along any curve with
    the given velocity, and together they give the derivative when all move. *)
Theorem C68_gradient : forall s n (X Mu : R -> 'cV[R]_n) (S : R -> 'M[R]_n) t eps (dX dMu : 'cV[R]_n) (dS : 'M[R]_n), correct s ->
  Rlt 0 eps -> near t eps (fun z => posdef (S z)) ->
  (forall i, der (fun z => X z i 0) t (dX i 0)) -> (forall i, der (fun z => Mu z i 0) t (dMu i 0)) -> (forall i j, der (fun z => S z i j) t (dS i j)) ->
  exists f a b c, near t eps (fun z => normal_logpdf s (X z) (Mu z) (S z) = Fin (f z)) /\
    normal_dlogpdf s (X t) [:: dX] (Mu t) [:: dMu] (S t) [:: dS] = ([:: a], [:: b], [:: c]) /\ der f t (a + b + c)%Re.
Proof.
  move=> s n X Mu S t eps dX dMu dS H e pd hX hM hS. have pt : posdef (S t) by apply: pd; lra.
  exists (fun z => log_density (X z) (Mu z) (S z)). rewrite /normal_dlogpdf (solve_pd H pt) (inverse_pd H pt) /=. do 3 eexists. split; first by move=> z hz; apply: C68_logpdf => //; apply: pd.
  split; first by reflexivity. exact: (der_log_density e (fun z hz => posdef_regular (pd z hz)) hX hM hS).
Qed.
Print Assumptions C68_gradient.
(** Each entry alone, also where the matrix is merely symmetric with a positive determinant and
    the least squares are used. *)
Theorem C68_gradients : forall s n (X Mu : 'cV[R]_n) (S : 'M[R]_n) dXs dMus dSs, correct s -> S^T = S -> Rlt 0 (\det S) ->
  exists A B C, normal_dlogpdf s X dXs Mu dMus S dSs = (A, B, C) /\ size A = size dXs /\ size B = size dMus /\ size C = size dSs /\
  (forall i, (i < size dXs)%N -> der (fun z => log_density (X + z *: nth 0 dXs i) Mu S) 0 (nth 0 A i)) /\
  (forall i, (i < size dMus)%N -> der (fun z => log_density X (Mu + z *: nth 0 dMus i) S) 0 (nth 0 B i)) /\
  (forall i eps, (i < size dSs)%N -> Rlt 0 eps -> near 0%Re eps (fun z => regular (S + z *: nth 0 dSs i)) -> der (fun z => log_density X Mu (S + z *: nth 0 dSs i)) 0 (nth 0 C i)).
Proof.
  move=> s n X Mu S dXs dMus dSs H sy dp. have pd : regular S by []. rewrite /normal_dlogpdf (solve_regular _ H pd) (inverse_regular H pd) /=. do 3 eexists. split; first by reflexivity.
  have line p q (A B : 'M[R]_(p, q)) i j : der (fun z => (A + z *: B) i j) 0%Re (B i j).
    apply: (derivable_pt_lim_ext (fun z => (A i j + z * B i j)%R)); first by move=> z; rewrite !mxE.
    apply: der_eq (der_add (der_const _ _) (der_mul (derivable_pt_lim_id 0%Re) (der_const (B i j) _))) _. by rewrite mulr0 addr0 add0r mul1r.
  have still p q (A : 'M[R]_(p, q)) i j : der (fun z => A i j) 0%Re ((0 : 'M[R]_(p, q)) i j) by rewrite mxE; apply: der_const.
  have i0 (u : 'cV[R]_n) : inner u 0 = 0 by rewrite /inner mulmx0 mxE.
  have s0 (Q : 'M[R]_n) : \sum_i \sum_j Q i j * (0 : 'M[R]_n) i j = 0 by rewrite big1 // => i _; rewrite big1 // => j _; rewrite mxE mulr0.
  have at0 p q (A B : 'M[R]_(p, q)) : A + 0%Re *: B = A by rewrite scale0r addr0.
  rewrite !size_map. do 3 (split; first by []). split; [|split].
  - move=> i li. have h := @der_log_density n (fun z => X + z *: nth 0 dXs i) (fun _ => Mu) (fun _ => S) 0%Re 1%Re (nth 0 dXs i) 0 0 Rlt_0_1 (fun z _ => pd) (fun k => line _ _ _ _ _ _) (fun k => still _ _ _ _ _) (fun k l => still _ _ _ _ _).
    apply: der_eq h _. rewrite /= i0 s0 at0 (nth_map 0) //. rewrite /GRing.zero /GRing.opp /=. lra.
  - move=> i li. have h := @der_log_density n (fun _ => X) (fun z => Mu + z *: nth 0 dMus i) (fun _ => S) 0%Re 1%Re 0 (nth 0 dMus i) 0 Rlt_0_1 (fun z _ => pd) (fun k => still _ _ _ _ _) (fun k => line _ _ _ _ _ _) (fun k l => still _ _ _ _ _).
    apply: der_eq h _. rewrite /= i0 s0 at0 (nth_map 0) //. rewrite /GRing.zero /=. lra.
  - move=> i eps li e pdz. have h := @der_log_density n (fun _ => X) (fun _ => Mu) (fun z => S + z *: nth 0 dSs i) 0%Re eps 0 0 (nth 0 dSs i) e pdz (fun k => still _ _ _ _ _) (fun k => still _ _ _ _ _) (fun k l => line _ _ _ _ _ _).
    apply: der_eq h _. rewrite /= i0 at0 (nth_map 0) //. set q := \sum_i _. clearbody q. rewrite /GRing.zero /=. lra.
Qed.
Print Assumptions C68_gradients.

(* ------------------------------------------------------------------ *)
(** ** Conditionals *)
Lemma log_density_mvn n (x mu : 'cV[R]_n) (S : 'M[R]_n) : log_density x mu S = mvn_logpdf x mu S.
Proof.
  rewrite /log_density /mvn_logpdf -[in RHS]mulmxA -/(inner (x - mu) (invmx S *m (x - mu))) quad_sum.
  have -> : \sum_i \sum_j (x - mu) i 0 * invmx S i j * (x - mu) j 0 = \sum_i \sum_j (x i 0 - mu i 0) * invmx S i j * (x j 0 - mu j 0) by apply: eq_bigr => i _; apply: eq_bigr => j _; rewrite !mxE.
  set q := \sum_i _. clearbody q. lra.
Qed.
(** conditional gives the parameters of the first block given the second: the density of the
    whole is that of the second times that of the first with these parameters. *)
Theorem C68_conditional : forall s n1 n2 (x2 : 'cV[R]_n2) (Mu1 : 'cV[R]_n1) (Mu2 : 'cV[R]_n2) (S11 : 'M[R]_n1) (S12 : 'M[R]_(n1, n2)) (S22 : 'M[R]_n2), correct s ->
  posdef (block_mx S11 S12 S12^T S22) ->
  exists M C, normal_conditional s x2 Mu1 Mu2 S11 S12 S12^T S22 = (M, C) /\ posdef C /\ posdef S22 /\
  forall x1, exists a b, normal_logpdf s x1 M C = Fin a /\ normal_logpdf s x2 Mu2 S22 = Fin b /\
    normal_logpdf s (col_mx x1 x2) (col_mx Mu1 Mu2) (block_mx S11 S12 S12^T S22) = Fin (a + b)%Re.
Proof.
  move=> s n1 n2 x2 Mu1 Mu2 S11 S12 S22 H pd.
  have [pC [p2 _]] := schur 0 Mu1 x2 Mu2 pd. rewrite /normal_conditional !(solve_pd H p2) !mulmxA.
  do 2 eexists. split; first by reflexivity. split=> //. split=> // x1. exists (log_density x1 (Mu1 + S12 *m invmx S22 *m (x2 - Mu2)) (S11 - S12 *m invmx S22 *m S12^T)), (log_density x2 Mu2 S22).
  do 2 (split; first exact: C68_logpdf). rewrite (C68_logpdf _ _ H pd) !log_density_mvn. have [_ [_ ->]] := schur x1 Mu1 x2 Mu2 pd. congr Fin. exact: Rplus_comm.
Qed.
Print Assumptions C68_conditional.

(* ------------------------------------------------------------------ *)
(** ** Matrices that are no covariances *)
Lemma loser s n (S : 'M[R]_n) : correct s -> S^T = S -> ~ posdef S -> covariance_factor s S = Loser S.
Proof. by move=> H sy np; rewrite /covariance_factor (c_none H). Qed.
(** A singular matrix: every point has infinite log density, whatever the mean. *)
Theorem C68_singular : forall s n (x mu : 'cV[R]_n) (S : 'M[R]_n), correct s -> S^T = S -> \det S = 0 -> normal_logpdf s x mu S = PInf.
Proof.
  move=> s n x mu S H sy d0. have np : ~ posdef S by move=> /posdef_det; rewrite d0 ltxx.
  rewrite /normal_logpdf (loser H) // /logsqrtdet d0 /nlog.
  have -> : Rltb 0%Re 0 = false by apply/negbTE/negP => /Rltb_true /Rlt_irrefl.
  by have -> : Reqb 0 0%Re = true by apply/Reqb_true.
Qed.
Print Assumptions C68_singular.
(** A negative determinant: every point has NaN. *)
Theorem C68_negative : forall s n (x mu : 'cV[R]_n) (S : 'M[R]_n), correct s -> S^T = S -> Rlt (\det S) 0 -> normal_logpdf s x mu S = NaN.
Proof.
  move=> s n x mu S H sy d0. have np : ~ posdef S by move=> /posdef_det /RltP; apply: Rlt_asym.
  rewrite /normal_logpdf (loser H) // /logsqrtdet /nlog.
  have -> : Rltb 0%Re (\det S) = false by apply/negbTE/negP => /Rltb_true; apply: Rlt_asym.
  by have -> : Reqb (\det S) 0%Re = false by apply/negbTE/negP => /Reqb_true e; move: d0; rewrite e; apply: Rlt_irrefl.
Qed.
Print Assumptions C68_negative.
(** A symmetric nonsingular matrix that is not positive definite has an inverse whose form is
    negative somewhere. *)
Lemma form_negative n (A : 'M[R]_n) : A^T = A -> A \in unitmx -> ~ posdef A -> exists y : 'cV[R]_n, Rlt (inner y (invmx A *m y)) 0.
Proof.
  move=> sy u np.
  have [v [nz le]] : exists v : 'cV[R]_n, v != 0 /\ (v^T *m A *m v) 0 0 <= 0.
    case: (classic (exists v : 'cV[R]_n, v != 0 /\ (v^T *m A *m v) 0 0 <= 0)) => // no. case: np. split=> // v nz. rewrite ltNge. apply/negP => le. by apply: no; exists v.
  have sI : (invmx A)^T = invmx A by rewrite trmx_inv sy.
  pose w := A *m v. have iw : invmx A *m w = v by rewrite /w mulKmx.
  have ew : inner w v = (v^T *m A *m v) 0 0 by rewrite /inner /w trmx_mul sy.
  pose N := inner v v. have Npos : Rlt 0 N by apply/RltP; apply: sq_col_gt0.
  pose c := inner v (invmx A *m v).
  have q (d : R) : inner (w - d *: v) (invmx A *m (w - d *: v)) = ((v^T *m A *m v)%R 0%R 0%R - 2 * d * N + d * d * c)%Re.
    have eT : (w - d *: v)^T = w^T - d *: v^T by apply/matrixP => i j; rewrite !mxE.
    rewrite /inner eT mulmxBr iw -scalemxAr mulmxBl !mulmxBr -!scalemxAl -!scalemxAr.
    have e1 : (w^T *m v) = (v^T *m A *m v) by rewrite /w trmx_mul sy.
    have e2 : w^T *m (invmx A *m v) = v^T *m v by rewrite mulmxA -[w^T *m invmx A]trmxK trmx_mul sI trmxK iw.
    rewrite e1 e2. set k := v^T *m A *m v. rewrite /c /N /inner. set l := v^T *m v. set m := v^T *m (invmx A *m v).
    clearbody k l m. rewrite !mxE. rewrite /GRing.add /GRing.opp /GRing.mul /=. set k' := k 0 0. set l' := l 0 0. set m' := m 0 0. clearbody k' l' m'. lra.
  have hk : Rle ((v^T *m A *m v) 0 0) 0 by apply/RleP.
  pose d := (N / (Rabs c + 1))%Re. exists (w - d *: v). rewrite q.
  have c1 : Rlt 0 (Rabs c + 1)%Re by have := Rabs_pos c; rewrite /GRing.zero /=; lra.
  have dp : Rlt 0 d by apply: Rdiv_lt_0_compat.
  have dc : Rlt (d * c)%Re N.
    have e : (d * (Rabs c + 1))%Re = N by rewrite /d /Rdiv Rmult_assoc Rinv_l ?Rmult_1_r //; apply: Rgt_not_eq.
    have := Rmult_le_compat_l d _ _ (Rlt_le _ _ dp) (Rle_abs c). move: e dp. rewrite /GRing.zero /=. lra.
  have := Rmult_lt_0_compat d (2 * N - d * c)%Re dp. move: hk Npos dc. rewrite /GRing.zero /=. set k := (_ *m _) 0 0. clearbody k N c d. move=> hk Npos dc h.
  have := h ltac:(lra). lra.
Qed.
(** An indefinite matrix with a positive determinant: every point has a finite value, and the
    values are not bounded, so that they are the logarithms of no density. *)
Theorem C68_indefinite : forall s n (mu : 'cV[R]_n) (S : 'M[R]_n), correct s -> S^T = S -> Rlt 0 (\det S) -> ~ posdef S ->
  (forall x, normal_logpdf s x mu S = Fin (log_density x mu S)) /\ forall M, exists x, Rlt M (log_density x mu S).
Proof.
  move=> s n mu S H sy d0 np. have u : S \in unitmx by rewrite unitmxE unitfE; apply/eqP; apply: Rgt_not_eq.
  split.
    move=> x. rewrite /normal_logpdf (loser H) //= (c_lstsq H) // nlog_pos //= inner_scale quad_sum /log_density. congr Fin.
    have -> : \sum_i \sum_j (x - mu) i 0 * invmx S i j * (x - mu) j 0 = \sum_i \sum_j (x i 0 - mu i 0) * invmx S i j * (x j 0 - mu j 0) by apply: eq_bigr => i _; apply: eq_bigr => j _; rewrite !mxE.
    set q := \sum_i _. rewrite /GRing.opp /=. clearbody q. lra.
  have [y neg] := form_negative sy u np. move=> M.
  pose q := inner y (invmx S *m y). pose K := (INR n / 2 * ln (2 * PI) + 1 / 2 * ln (\det S))%Re. pose r := (2 * (Rabs (M + K) + 1) / - q)%Re.
  have qn : Rlt q 0 by []. have ap := Rabs_pos (M + K)%Re. have al := Rle_abs (M + K)%Re.
  have rp : Rlt 0%Re r by apply: Rdiv_lt_0_compat; move: qn; rewrite /GRing.zero /=; lra.
  exists (mu + sqrt r *: y).
  have -> : log_density (mu + sqrt r *: y) mu S = (- (1 / 2) * (r * q) - K)%Re.
    rewrite /log_density /K. have -> : \sum_i \sum_j ((mu + sqrt r *: y) i 0 - mu i 0) * invmx S i j * ((mu + sqrt r *: y) j 0 - mu j 0) = (r * q)%Re.
      rewrite /q quad_sum RmulE [RHS]big_distrr /=. apply: eq_bigr => i _. rewrite [RHS]big_distrr /=. apply: eq_bigr => j _. rewrite !mxE !(addrC (mu _ _)) !addrK.
      rewrite /GRing.mul /=. rewrite -{3}(sqrt_sqrt r); [ring|lra].
    ring.
  have -> : (r * q)%Re = (- (2 * (Rabs (M + K) + 1)))%Re by rewrite /r; field; move: qn; rewrite /GRing.zero /=; lra.
  lra.
Qed.
Print Assumptions C68_indefinite.

(* ------------------------------------------------------------------ *)
(** ** Functions of scipy that are correct exist: every positive definite matrix has a factor *)
Lemma cholesky n (A : 'M[R]_n) : posdef A -> exists U, upper U = U /\ U^T *m U = A /\ forall i, Rlt 0 (U i i).
Proof.
  elim: n A => [|n IH] A; first by move=> _; exists 0; split; [|split]; try (by apply/matrixP; case); by case.
  rewrite -[n.+1]/(1 + n)%N in A * => H. have [sy pd] := H.
  rewrite -(submxK A) in sy pd *.
  set a := ulsubmx A in sy pd *. set u := ursubmx A in sy pd *. set w := dlsubmx A in sy pd *. set W := drsubmx A in sy pd *.
  have /eq_block_mx[_ ew _ eW] : block_mx a^T w^T u^T W^T = block_mx a u w W by rewrite -[RHS]sy tr_block_mx.
  have eu : w = u^T by rewrite -[w]trmxK ew.
  have a_gt0 : 0 < a 0 0.
    have nz : (col_mx 1%:M 0 : 'cV[R]_(1 + n)) != 0.
      apply/eqP => /matrixP /(_ (lshift n 0) 0). by rewrite col_mxEu !mxE /= => /eqP; rewrite oner_eq0.
    have := pd _ nz. by rewrite tr_col_mx mul_row_block trmx0 trmx1 !mul1mx !mul0mx !addr0 mul_row_col mulmx1 mulmx0 addr0.
  have ea : a = (a 0 0)%:M by rewrite [LHS]mx11_scalar.
  pose S := W - (a 0 0)^-1 *: (w *m u).
  have pS : posdef S.
    split.
      by rewrite /S linearB linearZ /= trmx_mul -eu eW ew.
    move=> v nz. pose t : 'cV[R]_(1 + n) := col_mx (- (a 0 0)^-1 *: (u *m v)) v.
    have nzt : t != 0.
      by apply: contraNneq nz => /matrixP e; apply/eqP/matrixP => i j; have := e (rshift 1 i) j; rewrite col_mxEd !mxE.
    have := pd _ nzt. rewrite /t -mulmxA. set z := u *m v.
    have -> : block_mx a u w W *m (col_mx (- (a 0 0)^-1 *: z) v) = col_mx 0 (S *m v).
      rewrite mul_block_col -/z. congr col_mx.
        by rewrite {1}ea mul_scalar_mx scalerA mulrN divff ?gt_eqF // scaleN1r addNr.
      rewrite /S mulmxBl addrC -scalemxAl -[w *m u *m v]mulmxA -/z -scalemxAr. by rewrite scaleNr.
    by rewrite tr_col_mx mul_row_col mulmx0 add0r mulmxA.
  have [V [uV [eV pV]]] := IH _ pS. pose r : R := sqrt (a 0 0).
  have a0 : Rlt 0 (a 0 0) by apply/RltP.
  have rp : Rlt 0 r by apply: sqrt_lt_R0.
  have rr : r * r = a 0 0 by apply: sqrt_sqrt; apply: Rlt_le.
  have rn : r != 0 by apply/eqP; apply: Rgt_not_eq.
  have eT : (r^-1 *: u)^T = r^-1 *: w by apply/matrixP => i j; rewrite eu !mxE.
  exists (block_mx r%:M (r^-1 *: u) 0 V). split; [|split].
  - apply/matrixP => i j. rewrite mxE. case: ifP => // /negbT. rewrite -ltnNge.
    rewrite -[i]splitK -[j]splitK. case: (split i) => i'; case: (split j) => j' /=.
    + by rewrite !ord1.
    + by rewrite ord1.
    + by rewrite block_mxEdl mxE.
    + rewrite block_mxEdr !add1n ltnS => lt. have /matrixP /(_ i' j') := uV. by rewrite mxE leqNgt lt.
  - rewrite tr_block_mx mulmx_block !trmx0 !mul0mx !mulmx0 !addr0 tr_scalar_mx. congr block_mx.
    + by rewrite -scalar_mxM rr -ea.
    + by rewrite mul_scalar_mx scalerA divff // scale1r.
    + by rewrite eT mul_mx_scalar scalerA divff // scale1r.
    + rewrite eV eT -scalemxAl -scalemxAr scalerA -invfM rr /S. by rewrite addrC subrK.
  - move=> i. rewrite -[i]splitK. case: (split i) => i' /=.
    + by rewrite block_mxEul ord1 mxE eqxx mulr1n.
    + by rewrite block_mxEdr.
Qed.
Definition exact_scipy : scipy :=
  Scipy (fun n (A : 'M[R]_n) => match excluded_middle_informative (posdef A) with
                    | left p => Some (proj1_sig (constructive_indefinite_description _ (cholesky p)))
                    | right _ => None end)
        (fun n m (A : 'M[R]_n) (Y : 'M[R]_(n, m)) => invmx A *m Y) (fun n (A : 'M[R]_n) => invmx A).
Example C68_correct : correct exact_scipy.
Proof.
  split=> //.
  - move=> n A pd. rewrite /=. case: excluded_middle_informative => // p. case: constructive_indefinite_description => U [uU [eU pU]] /=.
    exists U. by rewrite uU.
  - move=> n A sy np. rewrite /=. by case: excluded_middle_informative.
Qed.

(* ------------------------------------------------------------------ *)
(** ** The full statement for the matrices that logpdf takes *)
(** "logpdf gives the logarithm of a density or raises" is false: of minus the identity it gives
    values that grow without bound with the distance from the mean. *)
Theorem C68_indefinite_refuted : exists S : 'M[R]_2, S^T = S /\
  forall s, correct s -> forall mu M, exists x v, normal_logpdf s x mu S = Fin v /\ Rlt M v.
Proof.
  exists (- 1%:M). have sy : (- 1%:M : 'M[R]_2)^T = - 1%:M by rewrite linearN /= trmx1. split=> // s H mu M.
  have d : \det (- 1%:M : 'M[R]_2) = 1 by rewrite -scaleN1r detZ det1 mulr1 sqrrN expr1n.
  have np : ~ posdef (- 1%:M : 'M[R]_2).
    move=> [_ h]. have := h (const_mx 1). rewrite mulmxN mulmx1 mulNmx mxE oppr_gt0 ltNge sq_col_ge0 => /(_ _)/=.
    have nz : (const_mx 1 : 'cV[R]_2) != 0 by apply/eqP => /matrixP /(_ 0 0); rewrite !mxE => /eqP; rewrite oner_eq0. by move=> /(_ nz).
  have dp : Rlt 0 (\det (- 1%:M : 'M[R]_2)) by rewrite d; apply: Rlt_0_1.
  have [fin unb] := C68_indefinite mu H sy dp np. have [x lt] := unb M. by exists x, (log_density x mu (- 1%:M)).
Qed.
Print Assumptions C68_indefinite_refuted.
(** A singular and a negative matrix. *)
Example C68_other_ex : (\det (0 : 'M[R]_2) = 0 /\ normal_logpdf exact_scipy (0 : 'cV[R]_2) 0 0 = PInf) /\
  (Rlt (\det (- 1%:M : 'M[R]_1)) 0 /\ normal_logpdf exact_scipy (0 : 'cV[R]_1) 0 (- 1%:M) = NaN).
Proof.
  have d0 : \det (0 : 'M[R]_2) = 0 by rewrite det0.
  have d1 : Rlt (\det (- 1%:M : 'M[R]_1)) 0 by rewrite det_mx11 !mxE eqxx mulr1n; apply/RltP; rewrite oppr_lt0 ltr01.
  split; (split; first by []).
  - apply: C68_singular => //; [exact: C68_correct|exact: trmx0].
  - apply: C68_negative => //; [exact: C68_correct|by rewrite linearN /= trmx1].
Qed.
(** The standard normal in two dimensions: the value at the mean, the gradient in the point and
    in the mean, and the conditional of the first coordinate. *)
Example C68_ex : normal_logpdf exact_scipy (0 : 'cV[R]_2) 0 1%:M = Fin (- ln (2 * PI))%Re /\
  (exists C, normal_dlogpdf exact_scipy (const_mx 3%Re : 'cV[R]_1) [:: 1%:M] 0 [:: 1%:M] 1%:M [::] = ([:: (-3)%Re], [:: 3%Re], C)) /\
  (posdef (block_mx 1%:M 0 0^T 1%:M : 'M[R]_(1 + 1)) /\ normal_conditional exact_scipy (const_mx 3%Re : 'cV[R]_1) (0 : 'cV[R]_1) 0 1%:M 0 0^T 1%:M = (0, 1%:M)).
Proof.
  split; [|split].
  - rewrite (C68_logpdf _ _ C68_correct (posdef1 _ _)) /log_density. rewrite det1 ln_1. rewrite big1 => [|i _]; last by rewrite big1 // => j _; rewrite !mxE subr0 !mul0r.
    congr Fin. rewrite /GRing.zero /=. lra.
  - eexists. rewrite /normal_dlogpdf (solve_pd C68_correct (posdef1 _ _)) /= invmx1 mul1mx subr0 /inner !mulmx1 !mxE. reflexivity.
  - split; first by rewrite trmx0 -scalar_mx_block; exact: posdef1.
    by rewrite /normal_conditional !(solve_pd C68_correct (posdef1 _ _)) !mul0mx addr0 subr0.
Qed.
Lemma posdef_scale n (c : R) : Rlt 0 c -> posdef (c *: 1%:M : 'M[R]_n).
Proof.
  move=> /RltP c0. split; first by rewrite linearZ /= trmx1. move=> v nz. rewrite -scalemxAr mulmx1 -scalemxAl mxE. apply: mulr_gt0 => //. exact: sq_col_gt0.
Qed.
(** A covariance that moves: the derivative of the log density at 3 in the variance, at 1. *)
Example C68_gradient_ex : near 0%Re (1 / 2)%Re (fun z => posdef (1%:M + z *: 1%:M : 'M[R]_1)) /\
  (normal_dlogpdf exact_scipy (const_mx 3%Re : 'cV[R]_1) [::] 0 [::] 1%:M [:: 1%:M]).2 = [:: 4%Re] /\
  derivable_pt_lim (fun z => log_density (const_mx 3%Re : 'cV[R]_1) 0 (1%:M + z *: 1%:M)) 0%Re 4%Re.
Proof.
  have N : near 0%Re (1 / 2)%Re (fun z => posdef (1%:M + z *: 1%:M : 'M[R]_1)).
    move=> z hz. have -> : 1%:M + z *: 1%:M = (1 + z)%Re *: 1%:M :> 'M[R]_1 by apply/matrixP => i j; rewrite !mxE mulrDl mul1r.
    apply: posdef_scale. rewrite /GRing.zero /=. lra.
  have E : (normal_dlogpdf exact_scipy (const_mx 3%Re : 'cV[R]_1) [::] 0 [::] 1%:M [:: 1%:M]).2 = [:: 4%Re].
    rewrite /normal_dlogpdf (solve_pd C68_correct (posdef1 _ _)) (inverse_pd C68_correct (posdef1 _ _)) /= invmx1 mul1mx subr0 !big_ord1 !mxE big_ord1 !mxE eqxx.
    congr cons. rewrite /GRing.add /GRing.opp /GRing.mul /GRing.natmul /GRing.one /=. lra.
  split=> //. split=> //.
  have [sy dp] := posdef_regular (posdef1 _ 1).
  have [A [B [C [e [_ [_ [_ [_ [_ h]]]]]]]]] := C68_gradients (const_mx 3%Re : 'cV[R]_1) 0 [::] [::] [:: 1%:M] C68_correct sy dp.
  rewrite e /= in E. rewrite E in h. apply: (h 0%N (1 / 2)%Re) => //; first by rewrite /GRing.zero /=; lra.
  move=> z hz. apply: posdef_regular. exact: N.
Qed.

(* ------------------------------------------------------------------ *)
(** ** The density that FactorAnalysis.logpdf uses *)
(** The value of P24's theorems is that of mvnormal.logpdf whenever the covariance of the target
    given the constraints is positive definite. *)
Theorem C68_factor : forall s n (x mu : 'cV[R]_n) (S : 'M[R]_n), correct s -> posdef S -> normal_logpdf s x mu S = Fin (mvn_logpdf x mu S).
Proof. move=> s n x mu S H pd. by rewrite (C68_logpdf _ _ H pd) log_density_mvn. Qed.
Print Assumptions C68_factor.
Example C68_factor_ex : posdef (2%Re *: 1%:M : 'M[R]_2) /\ \det (2%Re *: 1%:M : 'M[R]_2) = 4%Re.
Proof.
  split; first by apply: posdef_scale; rewrite /GRing.zero /=; lra. rewrite detZ det1 mulr1 expr2. rewrite /GRing.mul /=. lra.
Qed.
