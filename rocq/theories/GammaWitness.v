(** A concrete function satisfying the recurrence of log-gamma, showing that
    the hypotheses about [gammaln] used by the theorems can be met. *)
From Verif Require Export PrimScore.
Local Open Scope R_scope.

Definition gw_n (x : R) : nat := Z.to_nat (- Int_part (- x) - 1).
Definition lgam_w (x : R) : R :=
  Rsum (map (fun i => ln (x - 1 - INR i)) (seq 0 (gw_n x))).

Lemma Int_part_spec r z : r - 1 < IZR z <= r -> z = Int_part r.
Proof.
  intros [H1 H2]. unfold Int_part. rewrite <- (tech_up r (z + 1)).
  - lia.
  - rewrite plus_IZR. lra.
  - rewrite plus_IZR. lra.
Qed.

Lemma gw_n_succ x : 0 < x -> gw_n (x + 1) = S (gw_n x).
Proof.
  intros Hx. unfold gw_n.
  destruct (base_Int_part (- x)) as [H1 H2].
  assert (E : (Int_part (- x) - 1)%Z = Int_part (- (x + 1))).
  { apply Int_part_spec. rewrite minus_IZR. lra. }
  rewrite <- E. set (z := Int_part (- x)) in *.
  assert (Hz : (z <= -1)%Z).
  { assert (IZR z < 0) by lra. apply lt_IZR in H. lia. }
  rewrite <- Z2Nat.inj_succ by lia. f_equal. lia.
Qed.

Lemma lgam_w_rec : gamma_rec lgam_w.
Proof.
  intros x Hx. unfold lgam_w. rewrite gw_n_succ by exact Hx.
  simpl seq. simpl map. simpl Rsum. fold Rsum.
  rewrite <- seq_shift, map_map. f_equal.
  - f_equal. lra.
  - apply f_equal. apply map_ext. intros i. rewrite S_INR. f_equal. lra.
Qed.

Lemma lgam_w_1 : lgam_w 1 = 0.
Proof.
  unfold lgam_w, gw_n.
  assert (E : (-1)%Z = Int_part (- (1))).
  { apply Int_part_spec. lra. }
  rewrite <- E. reflexivity.
Qed.
