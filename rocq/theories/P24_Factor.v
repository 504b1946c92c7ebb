(** C48: conditioning in factor analysis. *)
From Coq Require Import Reals Lra.
From Verif Require Import FactorAnalysis MatrixFacts.
From mathcomp Require Import all_ssreflect fingroup perm ssralg ssrnum zmodp matrix.
Import Order.Theory GRing.Theory Num.Theory.
Set Implicit Arguments.
Unset Strict Implicit.
Unset Printing Implicit Defensive.
Local Open Scope ring_scope.

(* ------------------------------------------------------------------ *)
(** ** The joint normal *)

Lemma quad_block (F : realFieldType) L D (W : 'M[F]_(D, L)) (Psi : 'M[F]_D) (z : 'cV[F]_L) (x : 'cV[F]_D) :
  (col_mx z x)^T *m block_mx 1%:M W^T W (W *m W^T + Psi) *m col_mx z x =
  (z + W^T *m x)^T *m (z + W^T *m x) + x^T *m Psi *m x.
Proof.
  have -> : (z + W^T *m x)^T = z^T + x^T *m W by rewrite linearD /= trmx_mul trmxK.
  rewrite -mulmxA mul_block_col tr_col_mx mul_row_col mul1mx.
  by rewrite ![(_ + _) *m _]mulmxDl !mulmxDr !mulmxA !addrA.
Qed.

(** Whatever the loadings, positive noise makes the joint covariance positive definite. *)
Theorem C48_joint : forall L D (W : 'M[R]_(D, L)) (Psi : 'M[R]_D), posdef Psi -> posdef (joint_cov W Psi).
Proof.
  move=> L D W Psi [sy pd]. split.
    by rewrite /joint_cov tr_block_mx trmx1 trmxK linearD /= trmx_mul trmxK sy.
  move=> v. rewrite -[v]vsubmxK. set z := usubmx v. set x := dsubmx v => nz.
  rewrite /joint_cov quad_block mxE. case: (altP (x =P 0)) => [e|nx].
    rewrite e !mulmx0 addr0 [(0 : 'M_1) 0 0]mxE addr0. apply: sq_col_gt0. apply: contraNneq nz => ez. by rewrite ez e col_mx0.
  by apply: ltr_paddl; [apply: sq_col_ge0|apply: pd].
Qed.
Print Assumptions C48_joint.

(* ------------------------------------------------------------------ *)
(** ** Conditioning is the ratio of densities *)

Section Cond.
  Variables (n : nat) (mu : 'cV[R]_n) (cov : 'M[R]_n).
  Hypothesis PD : posdef cov.

  Definition sel q (Q : q.-tuple 'I_n) : 'M[R]_(q, n) := \matrix_(i, k) (tnth Q i == k)%:R.
  Lemma pick_covE q (Q : q.-tuple 'I_n) e (E : e.-tuple 'I_n) : pick_cov cov Q E = sel Q *m cov *m (sel E)^T.
  Proof.
    apply/matrixP => i j. rewrite !mxE (bigD1 (tnth E j)) //= big1 ?addr0; last first.
      by move=> k nk; rewrite !mxE [tnth E j == k]eq_sym (negbTE nk) mulr0.
    rewrite !mxE eqxx mulr1 (bigD1 (tnth Q i)) //= big1 ?addr0; first by rewrite mxE eqxx mul1r.
    by move=> k nk; rewrite mxE eq_sym (negbTE nk) mul0r.
  Qed.
  Lemma pick_meanE q (Q : q.-tuple 'I_n) : pick_mean mu Q = sel Q *m mu.
  Proof.
    apply/matrixP => i j. rewrite ord1 !mxE (bigD1 (tnth Q i)) //= big1 ?addr0; first by rewrite mxE eqxx mul1r.
    by move=> k nk; rewrite mxE eq_sym (negbTE nk) mul0r.
  Qed.
  Lemma sel_orth q (Q : q.-tuple 'I_n) : uniq Q -> sel Q *m (sel Q)^T = 1%:M.
  Proof.
    move=> u. apply/matrixP => i j. rewrite !mxE (bigD1 (tnth Q i)) //= big1 ?addr0; last first.
      by move=> k nk; rewrite mxE eq_sym (negbTE nk) mul0r.
    by rewrite !mxE eqxx mul1r (inj_eq (tuple_uniqP _ u)) eq_sym.
  Qed.
  Lemma posdef_conj (F : realFieldType) q m (B : 'M[F]_(q, m)) (A : 'M[F]_m) (C : 'M[F]_(m, q)) :
    posdef A -> B *m C = 1%:M -> posdef (B *m A *m B^T).
  Proof.
    move=> [sy pd] bc. split; first by rewrite !trmx_mul trmxK sy mulmxA.
    move=> v nz. have -> : v^T *m (B *m A *m B^T) *m v = (B^T *m v)^T *m A *m (B^T *m v) by rewrite trmx_mul trmxK !mulmxA.
    apply: pd. apply: contraNneq nz => e. have : C^T *m (B^T *m v) = 0 by rewrite e mulmx0.
    by rewrite mulmxA -trmx_mul bc trmx1 mul1mx => ->.
  Qed.
  Lemma pick_pd q (Q : q.-tuple 'I_n) : uniq Q -> posdef (pick_cov cov Q Q).
  Proof. by move=> u; rewrite pick_covE; apply: posdef_conj PD (sel_orth u). Qed.

  (** A block matrix and its Schur complement. *)
  Lemma schur q e (A : 'M[R]_q) (B : 'M[R]_(q, e)) (D : 'M[R]_e) (x mq : 'cV[R]_q) (y me : 'cV[R]_e) :
    posdef (block_mx A B B^T D) ->
    let P := B *m invmx D in
    posdef (A - P *m B^T) /\ posdef D /\
    mvn_logpdf (col_mx x y) (col_mx mq me) (block_mx A B B^T D) =
    (mvn_logpdf y me D + mvn_logpdf x (mq + P *m (y - me))%R (A - P *m B^T)%R)%Re.
  Proof.
    move=> pd P. have [sy _] := pd. move: sy; rewrite tr_block_mx trmxK => /eq_block_mx[sA _ _ sD].
    have pD : posdef D.
      have := posdef_conj (B := row_mx 0 1%:M) (C := col_mx 0 1%:M) pd.
      rewrite mul_row_col mulmx0 mul1mx add0r mul_row_block !mul0mx !mul1mx !add0r tr_row_mx mul_row_col trmx0 trmx1 mulmx0 mulmx1 add0r. by apply.
    have uD := posdef_unit pD.
    have sDi : (invmx D)^T = invmx D by rewrite trmx_inv sD.
    pose U : 'M[R]_(q + e) := block_mx 1%:M (- P) 0 1%:M.
    pose Ui : 'M[R]_(q + e) := block_mx 1%:M P 0 1%:M.
    have UUi : U *m Ui = 1%:M.
      by rewrite /U /Ui mulmx_block !mul1mx !mulmx1 !mul0mx !mulmx0 !addr0 !add0r addrN -scalar_mx_block.
    have UiU : Ui *m U = 1%:M by apply: mulmx1C.
    have PD' : P *m D = B by rewrite /P mulmxKV.
    have PT : P^T = invmx D *m B^T by rewrite /P trmx_mul sDi.
    have DP : D *m P^T = B^T by rewrite PT mulmxA mulmxV // mul1mx.
    pose G := A - P *m B^T.
    have diag : U *m block_mx A B B^T D *m U^T = block_mx G 0 0 D.
      rewrite /U mulmx_block !mul1mx !mul0mx !add0r !mulNmx PD' addrN tr_block_mx mulmx_block.
      rewrite !trmx1 !trmx0 !mulmx1 !mulmx0 !mul0mx !addr0 !add0r linearN /= mulmxN DP addrN. by [].
    have pdiag : posdef (block_mx G 0 0 D) by rewrite -diag; apply: posdef_conj pd UUi.
    have pG : posdef G.
      have := posdef_conj (B := row_mx 1%:M 0) (C := col_mx 1%:M 0) pdiag.
      rewrite mul_row_col mulmx0 mul1mx addr0 mul_row_block !mul0mx !mul1mx !addr0 tr_row_mx mul_row_col trmx0 trmx1 mulmx0 mulmx1 addr0. by apply.
    split=> //. split=> //. have uG := posdef_unit pG. have uA := posdef_unit pd.
    have dU : \det U = 1 by rewrite /U det_ublock !det1 mulr1.
    have edet : \det (block_mx A B B^T D) = \det G * \det D.
      have := congr1 determinant diag. by rewrite !det_mulmx det_tr dU mul1r mulr1 det_ublock.
    have einv : invmx (block_mx A B B^T D) = U^T *m block_mx (invmx G) 0 0 (invmx D) *m U.
      apply: (can_inj (mulKmx uA)). rewrite mulmxV //.
      have -> : block_mx A B B^T D = Ui *m block_mx G 0 0 D *m Ui^T.
        by rewrite -diag !mulmxA UiU mul1mx -mulmxA -trmx_mul UiU trmx1 mulmx1.
      rewrite -!mulmxA [Ui^T *m _]mulmxA -trmx_mul UUi trmx1 mul1mx [block_mx G 0 0 D *m _]mulmxA mulmx_block.
      by rewrite !mulmx0 !mul0mx !addr0 !add0r !mulmxV // -scalar_mx_block mul1mx UiU.
    rewrite /mvn_logpdf einv edet.
    have -> : col_mx x y - col_mx mq me = col_mx (x - mq) (y - me) by rewrite opp_col_mx add_col_mx.
    have -> : x - (mq + P *m (y - me)) = (x - mq) - P *m (y - me) by rewrite opprD addrA.
    set a := x - mq. set b := y - me.
    have equad : (col_mx a b)^T *m (U^T *m block_mx (invmx G) 0 0 (invmx D) *m U) *m col_mx a b =
                 b^T *m invmx D *m b + (a - P *m b)^T *m invmx G *m (a - P *m b).
      have -> : (col_mx a b)^T *m (U^T *m block_mx (invmx G) 0 0 (invmx D) *m U) *m col_mx a b =
                (U *m col_mx a b)^T *m block_mx (invmx G) 0 0 (invmx D) *m (U *m col_mx a b).
        by rewrite trmx_mul !mulmxA.
      rewrite /U mul_block_col !mul1mx mul0mx add0r mulNmx tr_col_mx mul_row_block !mulmx0 addr0 add0r mul_row_col. by rewrite addrC.
    rewrite equad mxE plus_INR.
    have dG : Rlt 0 (\det G) by apply/RltP; apply: posdef_det.
    have dD : Rlt 0 (\det D) by apply/RltP; apply: posdef_det.
    rewrite /GRing.mul /GRing.add /= -/G. rewrite [ln (\det G * \det D)%Re]ln_mult //.
    set l2 := ln (2 * PI)%Re. set lg := ln (\det G). set ld := ln (\det D). set X := (b^T *m invmx D *m b) 0 0. set Y := (_ *m _ *m _) 0 0.
    clearbody l2 lg ld X Y. lra.
  Qed.

  Definition ld q (t : q.-tuple ('I_n * R)) : R :=
    mvn_logpdf (\col_i (tnth t i).2) (pick_mean mu (map_tuple fst t)) (pick_cov cov (map_tuple fst t) (map_tuple fst t)).
  Lemma ld_cast q (t : q.-tuple ('I_n * R)) : ld t = ld (in_tuple (tval t)).
  Proof. case: t => s e /=. have e' := eqP e. subst q. by congr ld; apply: val_inj. Qed.

  Lemma tnth_catl T q e (a : q.-tuple T) (b : e.-tuple T) i : tnth (cat_tuple a b) (lshift e i) = tnth a i.
  Proof. have x0 := tnth a i. by rewrite !(tnth_nth x0) /= nth_cat size_tuple ltn_ord. Qed.
  Lemma tnth_catr T q e (a : q.-tuple T) (b : e.-tuple T) i : tnth (cat_tuple a b) (rshift q i) = tnth b i.
  Proof. have x0 := tnth b i. by rewrite !(tnth_nth x0) /= nth_cat size_tuple ltnNge leq_addr /= addKn. Qed.

  Lemma ld_cat q e (t : q.-tuple ('I_n * R)) (c : e.-tuple ('I_n * R)) :
    let Q := map_tuple fst t in let E := map_tuple fst c in
    ld (cat_tuple t c) =
    mvn_logpdf (col_mx (\col_i (tnth t i).2) (\col_i (tnth c i).2)) (col_mx (pick_mean mu Q) (pick_mean mu E))
      (block_mx (pick_cov cov Q Q) (pick_cov cov Q E) (pick_cov cov Q E)^T (pick_cov cov E E)).
  Proof.
    move=> Q E. rewrite /ld. have [sy _] := PD. have sy' i j : cov i j = cov j i by rewrite -[in LHS]sy mxE.
    congr mvn_logpdf.
    - apply/matrixP => i j. rewrite ord1 mxE. case: (split_ordP i) => k ->; by rewrite ?col_mxEu ?col_mxEd !mxE ?tnth_catl ?tnth_catr.
    - apply/matrixP => i j. rewrite ord1 mxE. case: (split_ordP i) => k ->; by rewrite ?col_mxEu ?col_mxEd !mxE !tnth_map ?tnth_catl ?tnth_catr.
    - apply/matrixP => i j. rewrite mxE.
      case: (split_ordP i) => k ->; case: (split_ordP j) => l ->;
        rewrite ?block_mxEul ?block_mxEur ?block_mxEdl ?block_mxEdr !mxE !tnth_map ?tnth_catl ?tnth_catr //.
  Qed.
  Lemma pd_cat q e (t : q.-tuple ('I_n * R)) (c : e.-tuple ('I_n * R)) :
    let Q := map_tuple fst t in let E := map_tuple fst c in
    uniq (map fst (t ++ c)) ->
    posdef (block_mx (pick_cov cov Q Q) (pick_cov cov Q E) (pick_cov cov Q E)^T (pick_cov cov E E)).
  Proof.
    move=> Q E u. have [sy _] := PD. have sy' i j : cov i j = cov j i by rewrite -[in LHS]sy mxE.
    have := pick_pd (Q := map_tuple fst (cat_tuple t c)) u. congr posdef.
    apply/matrixP => i j. rewrite mxE.
    case: (split_ordP i) => k ->; case: (split_ordP j) => l ->;
      rewrite ?block_mxEul ?block_mxEur ?block_mxEdl ?block_mxEdr !mxE !tnth_map ?tnth_catl ?tnth_catr //.
  Qed.

  Lemma fa_logpdf_ratio (T C : seq ('I_n * R)) : uniq (map fst (T ++ C)) ->
    fa_logpdf mu cov T C = Ok (ld (in_tuple (T ++ C)) - ld (in_tuple C))%Re.
  Proof.
    move=> u. set t := in_tuple T. set c := in_tuple C. rewrite /fa_logpdf -/t -/c /mvn_condition.
    have le : (size T + size C <= n)%N.
      by have := max_card (mem (map fst (T ++ C))); rewrite (card_uniqP u) card_ord size_map size_cat.
    rewrite le /=. have pd := pd_cat (t := t) (c := c) u. have [sb _] := pd. rewrite sb eqxx /=.
    have := schur (\col_i (tnth t i).2) (pick_mean mu (map_tuple fst t)) (\col_i (tnth c i).2) (pick_mean mu (map_tuple fst c)) pd.
    move=> /= [pG [pE e]]. rewrite (posdef_unit pE) /=. congr Ok.
    have -> : ld (in_tuple (T ++ C)) = ld (cat_tuple t c) by rewrite [RHS]ld_cast.
    rewrite ld_cat e /ld. set X := mvn_logpdf _ _ _. set Y := mvn_logpdf _ _ _. clearbody X Y. lra.
  Qed.

  Lemma ld_tperm q (t : q.-tuple ('I_n * R)) (p : 'S_q) : uniq (map fst t) -> ld [tuple tnth t (p i) | i < q] = ld t.
  Proof.
    move=> u'. rewrite /ld.
    pose P : 'M[R]_q := perm_mx p.
    have -> : \col_i (tnth [tuple tnth t (p i0) | i0 < q] i).2 = P *m (\col_i (tnth t i).2).
      by rewrite /P -row_permE; apply/matrixP => i j; rewrite !mxE tnth_mktuple.
    have -> : pick_mean mu (map_tuple fst [tuple tnth t (p i0) | i0 < q]) = P *m pick_mean mu (map_tuple fst t).
      by rewrite /P -row_permE; apply/matrixP => i j; rewrite !mxE !tnth_map tnth_ord_tuple.
    have -> : pick_cov cov (map_tuple fst [tuple tnth t (p i0) | i0 < q]) (map_tuple fst [tuple tnth t (p i0) | i0 < q]) =
              P *m pick_cov cov (map_tuple fst t) (map_tuple fst t) *m P^T.
      rewrite /P tr_perm_mx -row_permE -col_permE. by apply/matrixP => i j; rewrite !mxE !tnth_map !tnth_ord_tuple.
    set x := \col_i _. set m := pick_mean _ _. set C := pick_cov _ _ _.
    have PPT : P *m P^T = 1%:M by rewrite /P tr_perm_mx -perm_mxM mulgV perm_mx1.
    have PTP : P^T *m P = 1%:M by apply: mulmx1C.
    have dP : \det P * \det P^T = 1 by rewrite -det_mulmx PPT det1.
    rewrite /mvn_logpdf.
    have -> : \det (P *m C *m P^T) = \det C by rewrite !det_mulmx mulrAC dP mul1r.
    have -> : P *m x - P *m m = P *m (x - m) by rewrite mulmxBr.
    have uC : C \in unitmx by apply: posdef_unit; apply: pick_pd.
    have uP : P *m C *m P^T \in unitmx.
      by rewrite !unitmx_mul uC andbT unitmx_tr andbb unitmx_perm.
    have -> : invmx (P *m C *m P^T) = P *m invmx C *m P^T.
      apply: (can_inj (mulKmx uP)). rewrite mulmxV // -!mulmxA [P^T *m (P *m _)]mulmxA PTP mul1mx [C *m _]mulmxA mulmxV // mul1mx PPT. by [].
    by rewrite trmx_mul -!mulmxA [P^T *m (P *m _)]mulmxA PTP mul1mx [P^T *m (P *m _)]mulmxA PTP mul1mx.
  Qed.
  Lemma ld_perm (s s' : seq ('I_n * R)) : uniq (map fst s) -> perm_eq s s' -> ld (in_tuple s) = ld (in_tuple s').
  Proof.
    move=> u pe. have u' : uniq (map fst s') by rewrite -(perm_uniq (perm_map fst pe)).
    have /tuple_permP [p ep] : perm_eq s (in_tuple s') by [].
    by rewrite -(ld_tperm (t := in_tuple s') p u') [RHS]ld_cast -ep.
  Qed.
End Cond.

(** For distinct variables, densities are never exceptions and obey the chain rule: the
    density of targets [T] and [E] given [C] is that of [E] given [C] times that of [T]
    given [E] and [C]. *)
Theorem C48_chain : forall n (mu : 'cV[R]_n) (cov : 'M[R]_n) (T E C : seq ('I_n * R)),
  posdef cov -> uniq (map fst (T ++ E ++ C)) ->
  exists a b c,
    fa_logpdf mu cov (T ++ E) C = Ok a /\ fa_logpdf mu cov E C = Ok b /\ fa_logpdf mu cov T (E ++ C) = Ok c /\
    (a = b + c)%Re.
Proof.
  move=> n mu cov T E C pd u.
  have u2 : uniq (map fst (E ++ C)) by move: u; rewrite map_cat cat_uniq => /and3P[].
  have u1 : uniq (map fst ((T ++ E) ++ C)) by rewrite -catA.
  do 3 eexists. rewrite !(fa_logpdf_ratio mu pd) // -catA. do 3 (split; first by reflexivity).
  set X := ld _ _ _. set Y := ld _ _ _. set Z := ld _ _ _. clearbody X Y Z. lra.
Qed.
Print Assumptions C48_chain.

(** The order of targets and constraints does not matter. *)
Theorem C48_order : forall n (mu : 'cV[R]_n) (cov : 'M[R]_n) (T T' C C' : seq ('I_n * R)),
  posdef cov -> uniq (map fst (T ++ C)) -> perm_eq T T' -> perm_eq C C' ->
  fa_logpdf mu cov T C = fa_logpdf mu cov T' C'.
Proof.
  move=> n mu cov T T' C C' pd u pT pC.
  have pTC : perm_eq (T ++ C) (T' ++ C') by apply: perm_cat.
  have uC : uniq (map fst C) by move: u; rewrite map_cat cat_uniq => /and3P[].
  have u' : uniq (map fst (T' ++ C')) by rewrite -(perm_uniq (perm_map fst pTC)).
  by rewrite !(fa_logpdf_ratio mu pd) // (ld_perm mu pd u pTC) (ld_perm mu pd uC pC).
Qed.
Print Assumptions C48_order.

(** Given all observed variables [x], the latents of a factor analysis with invertible noise
    have the posterior mean [S W' Psi^-1 (x - mux)] and covariance [S], where
    [S = (1 + W' Psi^-1 W)^-1] (Bishop, PRML, 12.41-12.42); the code raises exactly when the
    marginal covariance of the observed variables is singular. *)
Definition latents L D : L.-tuple 'I_(L + D) := [tuple lshift D i | i < L].
Definition observables L D : D.-tuple 'I_(L + D) := [tuple rshift L i | i < D].
Theorem C48_latent : forall L D (W : 'M[R]_(D, L)) (Psi : 'M[R]_D) (mux x : 'cV[R]_D),
  Psi^T = Psi -> Psi \in unitmx ->
  let K := 1%:M + W^T *m invmx Psi *m W in
  let r := mvn_condition (joint_mean L mux) (joint_cov W Psi) (latents L D) (observables L D) x in
  (W *m W^T + Psi \in unitmx) = (K \in unitmx) /\
  r = if K \in unitmx then Ok (invmx K *m (W^T *m invmx Psi *m (x - mux)), invmx K) else Err LinAlgError.
Proof.
  move=> L D W Psi mux x sy uP K r.
  have e0 : W *m W^T + Psi = Psi *m (1%:M + (invmx Psi *m W) *m W^T) by rewrite mulmxDr mulmx1 !mulmxA mulmxV // mul1mx addrC.
  have eu : (W *m W^T + Psi \in unitmx) = (K \in unitmx).
    rewrite e0 unitmx_mul uP /= !unitmxE det_sylvester. by rewrite /K mulmxA.
  split=> //. rewrite /r /mvn_condition leqnn /=.
  have eQ : pick_cov (joint_cov W Psi) (latents L D) (latents L D) = 1%:M.
    by apply/matrixP => i j; rewrite [LHS]mxE !tnth_mktuple block_mxEul.
  have eE : pick_cov (joint_cov W Psi) (observables L D) (observables L D) = W *m W^T + Psi.
    by apply/matrixP => i j; rewrite [LHS]mxE !tnth_mktuple block_mxEdr.
  have eJ : pick_cov (joint_cov W Psi) (latents L D) (observables L D) = W^T.
    by apply/matrixP => i j; rewrite [LHS]mxE !tnth_mktuple block_mxEur.
  have eM : pick_mean (joint_mean L mux) (latents L D) = 0.
    by apply/matrixP => i j; rewrite [LHS]mxE tnth_mktuple col_mxEu !mxE.
  have eX : pick_mean (joint_mean L mux) (observables L D) = mux.
    by apply/matrixP => i j; rewrite [LHS]mxE tnth_mktuple col_mxEd ord1.
  rewrite eQ eE eJ eM eX trmxK.
  have -> : block_mx 1%:M W^T W (W *m W^T + Psi) == (block_mx 1%:M W^T W (W *m W^T + Psi))^T.
    by rewrite tr_block_mx trmx1 trmxK linearD /= trmx_mul trmxK sy.
  rewrite /= eu. case uK : (K \in unitmx) => //. have uC : W *m W^T + Psi \in unitmx by rewrite eu.
  have eg : W^T *m invmx (W *m W^T + Psi) = invmx K *m (W^T *m invmx Psi).
    apply: (can_inj (mulKmx uK)). rewrite mulmxA mulmxA mulmxA mulmxV // mul1mx.
    apply: (can_inj (mulmxK uC)). rewrite -[K *m W^T *m _ *m _]mulmxA mulVmx // mulmx1.
    by rewrite /K mulmxDl mul1mx mulmxDr !mulmxA -[W^T *m invmx Psi *m Psi]mulmxA mulVmx // mulmx1 addrC.
  rewrite eg add0r. congr (Ok (_, _)); first by rewrite !mulmxA.
  have -> : invmx K *m (W^T *m invmx Psi) *m W = invmx K *m (K - 1%:M) by rewrite /K [1%:M + _]addrC addrK !mulmxA.
  by rewrite mulmxBr mulVmx // mulmx1 opprB addrC subrK.
Qed.
Print Assumptions C48_latent.
(** Positive noise is enough for the conditions of [C48_latent]. *)
Theorem C48_latent_pd : forall L D (W : 'M[R]_(D, L)) (Psi : 'M[R]_D) (mux x : 'cV[R]_D), posdef Psi ->
  let K := 1%:M + W^T *m invmx Psi *m W in
  posdef (invmx K) /\
  mvn_condition (joint_mean L mux) (joint_cov W Psi) (latents L D) (observables L D) x =
  Ok (invmx K *m (W^T *m invmx Psi *m (x - mux)), invmx K).
Proof.
  move=> L D W Psi mux x pd K. have pK : posdef K.
    apply: posdef_add; first exact: posdef1. have [sy pp] := posdef_inv pd.
    split; first by rewrite !trmx_mul trmxK sy mulmxA.
    move=> v. have -> : v^T *m (W^T *m invmx Psi *m W) *m v = (W *m v)^T *m invmx Psi *m (W *m v) by rewrite trmx_mul !mulmxA.
    case: (altP (W *m v =P 0)) => [->|nz]; first by rewrite mulmx0 mxE. by apply: ltW; apply: pp.
  split; first exact: posdef_inv.
  have [_ ->] := C48_latent W mux x (proj1 pd) (posdef_unit pd). by rewrite (posdef_unit pK).
Qed.
Print Assumptions C48_latent_pd.

(** Invertible noise alone is not enough: with loading 1 and "noise" -1 the code raises. *)
Theorem C48_latent_refuted : exists (W Psi : 'M[R]_1), Psi^T = Psi /\ Psi \in unitmx /\
  forall mux x, mvn_condition (joint_mean 1 mux) (joint_cov W Psi) (latents 1 1) (observables 1 1) x = Err LinAlgError.
Proof.
  exists 1%:M, (- 1%:M). split; first by rewrite linearN /= trmx1. 
  have uP : - 1%:M \in @unitmx R_comUnitRingType 1 by rewrite unitmxE det_mx11 !mxE /= unitrN unitr1.
  have sP : (- 1%:M : 'M[R]_1)^T = - 1%:M by rewrite linearN /= trmx1.
  split=> // mux x. have [eu ->] := C48_latent (1%:M : 'M[R]_1) mux x sP uP.
  have e0 : ((1%:M : 'M[R]_1) *m 1%:M^T + - 1%:M \in unitmx) = false by rewrite trmx1 mulmx1 subrr unitmxE det0 unitr0.
  by rewrite -eu e0.
Qed.
Print Assumptions C48_latent_refuted.

(** The default parameters, factor.py:110-113, meet the hypotheses. *)
Example C48_default : forall L D, posdef (joint_cov (0 : 'M[R]_(D, L)) 1%:M).
Proof. by move=> L D; apply: C48_joint; apply: posdef1. Qed.
Example C48_targets_ex : uniq (map fst ([:: (0%R : 'I_3, 1%Re)] ++ [:: (1%R : 'I_3, 2%Re)] ++ [:: (2%R : 'I_3, 5%Re)])).
Proof. by []. Qed.
