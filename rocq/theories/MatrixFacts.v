(** Positive definite matrices over a real field: inverse, determinant, updates by a row.
    No model in this file. *)
From mathcomp Require Import all_ssreflect ssralg ssrnum zmodp matrix mxalgebra.
Import Order.Theory GRing.Theory Num.Theory.
Set Implicit Arguments.
Unset Strict Implicit.
Unset Printing Implicit Defensive.
Local Open Scope ring_scope.

Section PosDef.
  Variable F : realFieldType.

  (** Symmetric with positive quadratic form. *)
  Definition posdef n (A : 'M[F]_n) : Prop :=
    A^T = A /\ forall v : 'cV[F]_n, v != 0 -> 0 < (v^T *m A *m v) 0 0.
  Definition possemi n (A : 'M[F]_n) : Prop :=
    A^T = A /\ forall v : 'cV[F]_n, 0 <= (v^T *m A *m v) 0 0.

  Lemma sq_col n (v : 'cV[F]_n) : (v^T *m v) 0 0 = \sum_i v i 0 ^+ 2.
  Proof. by rewrite mxE; apply: eq_bigr => i _; rewrite !mxE expr2. Qed.
  Lemma sq_col_ge0 n (v : 'cV[F]_n) : 0 <= (v^T *m v) 0 0.
  Proof. by rewrite sq_col; apply: sumr_ge0 => i _; apply: sqr_ge0. Qed.
  Lemma sq_col_gt0 n (v : 'cV[F]_n) : v != 0 -> 0 < (v^T *m v) 0 0.
  Proof.
    move=> nz. rewrite lt_neqAle sq_col_ge0 andbT eq_sym. apply: contraNneq nz => e. apply/eqP.
    apply/matrixP => i j. rewrite ord1 mxE. move: e; rewrite sq_col => /eqP.
    rewrite psumr_eq0; last by move=> k _; apply: sqr_ge0.
    by move=> /allP /(_ i); rewrite mem_index_enum sqrf_eq0 => /(_ isT) /= /eqP.
  Qed.

  Lemma posdef_unit n (A : 'M[F]_n) : posdef A -> A \in unitmx.
  Proof.
    move=> [sy pd]. rewrite -row_free_unit -kermx_eq0. apply: contraT => nz.
    have [i hi] := rowV0Pn nz. case: hi => /sub_kermxP h nzi.
    have := pd i^T. rewrite trmxK h mul0mx mxE ltxx => /(_ _)/=. apply.
    by apply: contraNneq nzi => e; rewrite -[i]trmxK e trmx0.
  Qed.
  Lemma posdef_inv n (A : 'M[F]_n) : posdef A -> posdef (invmx A).
  Proof.
    move=> H; have u := posdef_unit H; case: H => sy pd. split; first by rewrite trmx_inv sy.
    move=> v nz. have -> : v^T *m invmx A *m v = (invmx A *m v)^T *m A *m (invmx A *m v).
      by rewrite trmx_mul trmx_inv sy !mulmxA mulmxKV.
    apply: pd. apply: contraNneq nz => e. by rewrite -[v](mulKVmx u) e mulmx0.
  Qed.
  Lemma posdef_add n (A B : 'M[F]_n) : posdef A -> possemi B -> posdef (A + B).
  Proof.
    move=> [sA pA] [sB pB]. split; first by rewrite linearD /= sA sB.
    move=> v nz. rewrite mulmxDr mulmxDl mxE. apply: ltr_paddr; [exact: pB|exact: pA].
  Qed.
  Lemma possemi_add n (A B : 'M[F]_n) : possemi A -> possemi B -> possemi (A + B).
  Proof.
    move=> [sA pA] [sB pB]. split; first by rewrite linearD /= sA sB.
    by move=> v; rewrite mulmxDr mulmxDl mxE; apply: addr_ge0.
  Qed.
  Lemma possemi_gram m n (X : 'M[F]_(m, n)) : possemi (X^T *m X).
  Proof.
    split; first by rewrite trmx_mul trmxK.
    move=> v. have -> : v^T *m (X^T *m X) *m v = (X *m v)^T *m (X *m v) by rewrite trmx_mul !mulmxA.
    exact: sq_col_ge0.
  Qed.
  Lemma possemi0 n : possemi (0 : 'M[F]_n).
  Proof. by split; [rewrite trmx0|move=> v; rewrite mulmx0 mul0mx mxE]. Qed.
  Lemma posdef1 n : posdef (1%:M : 'M[F]_n).
  Proof. by split; [rewrite trmx1|move=> v nz; rewrite mulmx1; apply: sq_col_gt0]. Qed.

  (** Sylvester's identity. *)
  Lemma det_sylvester n m (u : 'M[F]_(n, m)) (v : 'M[F]_(m, n)) : \det (1%:M + u *m v) = \det (1%:M + v *m u).
  Proof.
    pose M := block_mx (1%:M : 'M[F]_n) (- u) v (1%:M : 'M[F]_m).
    have e1 : \det (block_mx (1%:M : 'M[F]_n) 0 (- v) (1%:M : 'M[F]_m) *m M) = \det (1%:M + v *m u).
      rewrite /M mulmx_block !mul1mx !mul0mx !addr0 mulmx1 addNr det_ublock det1 mul1r mulNmx mulmxN opprK.
      by rewrite addrC.
    have e2 : \det (M *m block_mx (1%:M : 'M[F]_n) 0 (- v) (1%:M : 'M[F]_m)) = \det (1%:M + u *m v).
      rewrite /M mulmx_block !mul1mx !mulmx0 !mulmx1 !add0r subrr.
      by rewrite det_ublock det1 mulr1 mulNmx mulmxN opprK.
    by rewrite -e2 det_mulmx mulrC -det_mulmx e1.
  Qed.
  (** Determinant of a rank-one update. *)
  Lemma det_update n (u : 'cV[F]_n) (v : 'rV[F]_n) : \det (1%:M + u *m v) = 1 + (v *m u) 0 0.
  Proof.
    pose M := block_mx (1%:M : 'M[F]_n) (- u) v (1%:M : 'M[F]_1).
    have e1 : \det (block_mx (1%:M : 'M[F]_n) 0 (- v) (1%:M : 'M[F]_1) *m M) = 1 + (v *m u) 0 0.
      rewrite /M mulmx_block !mul1mx !mul0mx !addr0 mulmx1 addNr det_ublock det1 mul1r mulNmx mulmxN opprK.
      by rewrite det_mx11 !mxE /= addrC mulr1n.
    have e2 : \det (M *m block_mx (1%:M : 'M[F]_n) 0 (- v) (1%:M : 'M[F]_1)) = \det (1%:M + u *m v).
      rewrite /M mulmx_block !mul1mx !mulmx0 !mulmx1 !add0r subrr.
      by rewrite det_ublock det1 mulr1 mulNmx mulmxN opprK.
    by rewrite -e2 det_mulmx mulrC -det_mulmx e1.
  Qed.
  Lemma det_add_row n (A : 'M[F]_n) (y : 'rV[F]_n) : A \in unitmx ->
    \det (A + y^T *m y) = \det A * (1 + (y *m invmx A *m y^T) 0 0).
  Proof.
    move=> u. have -> : A + y^T *m y = A *m (1%:M + (invmx A *m y^T) *m y).
      by rewrite mulmxDr mulmx1 !mulmxA mulmxV // mul1mx.
    by rewrite det_mulmx det_update !mulmxA.
  Qed.

  (** Positive definite matrices have positive determinant. *)
  Lemma posdef_det n (A : 'M[F]_n) : posdef A -> 0 < \det A.
  Proof.
    elim: n A => [|n IH] A; first by rewrite det_mx00 ltr01.
    rewrite -[n.+1]/(1 + n)%N in A * => H. have [sy pd] := H.
    rewrite -(submxK A) in sy pd *.
    set a := ulsubmx A in sy pd *. set u := ursubmx A in sy pd *. set w := dlsubmx A in sy pd *. set W := drsubmx A in sy pd *.
    have /eq_block_mx[_ ew _ eW] : block_mx a^T w^T u^T W^T = block_mx a u w W by rewrite -[RHS]sy tr_block_mx.
    have eu : w = u^T by rewrite -[w]trmxK ew.
    have a_gt0 : 0 < a 0 0.
      have nz : (col_mx 1%:M 0 : 'cV[F]_(1 + n)) != 0.
        apply/eqP => /matrixP /(_ (lshift n 0) 0). by rewrite col_mxEu !mxE /= => /eqP; rewrite oner_eq0.
      have := pd _ nz. by rewrite tr_col_mx mul_row_block trmx0 trmx1 !mul1mx !mul0mx !addr0 mul_row_col mulmx1 mulmx0 addr0.
    have ea : a = (a 0 0)%:M by rewrite [LHS]mx11_scalar.
    pose S := W - (a 0 0)^-1 *: (w *m u).
    have pS : posdef S.
      split.
        by rewrite /S linearB linearZ /= trmx_mul -eu eW ew.
      move=> v nz. pose t : 'cV[F]_(1 + n) := col_mx (- (a 0 0)^-1 *: (u *m v)) v.
      have nzt : t != 0.
        by apply: contraNneq nz => /matrixP e; apply/eqP/matrixP => i j; have := e (rshift 1 i) j; rewrite col_mxEd !mxE.
      have := pd _ nzt. rewrite /t -mulmxA. set z := u *m v.
      have -> : block_mx a u w W *m (col_mx (- (a 0 0)^-1 *: z) v) = col_mx 0 (S *m v).
        rewrite mul_block_col -/z. congr col_mx.
          by rewrite {1}ea mul_scalar_mx scalerA mulrN divff ?gt_eqF // scaleN1r addNr.
        rewrite /S mulmxBl addrC -scalemxAl -[w *m u *m v]mulmxA -/z -scalemxAr. by rewrite scaleNr.
      by rewrite tr_col_mx mul_row_col mulmx0 add0r mulmxA.
    have -> : block_mx a u w W = block_mx a 0 w S *m block_mx 1%:M ((a 0 0)^-1 *: u) 0 1%:M.
      rewrite mulmx_block !mulmx1 !mulmx0 !addr0 ?add0r -!scalemxAr. congr block_mx.
        by rewrite {2}ea mul_scalar_mx scalerA mulVf ?gt_eqF // scale1r.
      by rewrite /S addrC subrK.
    rewrite det_mulmx det_lblock det_ublock !det1 !mulr1 det_mx11. by rewrite mulr_gt0 // IH.
  Qed.
End PosDef.
