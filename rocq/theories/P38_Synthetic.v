(** C62: the hand written populations answer by the law they sample from. *)
From Verif Require StateFacts.
From Verif Require Import Prob Synthetic SyntheticLaw.

Local Open Scope R_scope.

(* ------------------------------------------------------------------ *)
(** ** Specification *)

Definition gaussian (mean sd x : R) : R := exp (- ((x - mean) / sd) ^ 2 / 2) / (sd * sqrt (2 * PI)).
Definition box (lo hi x : R) : R := if Rle_dec lo x then if Rle_dec x hi then 1 / (hi - lo) else 0 else 0.

(** ** Auxiliary facts *)

Lemma nlog_pos x : 0 < x -> nlog x = Fin (ln x).
Proof. intros H. unfold nlog. rewrite (proj2 (Rltb_true _ _) H). reflexivity. Qed.
Lemma lexp_nlog x : 0 <= x -> lexp (nlog x) = x.
Proof.
  intros [H|<-]; [rewrite nlog_pos by exact H; apply exp_ln, H|]. unfold nlog.
  rewrite (proj2 (Rltb_false _ _)) by lra. rewrite (proj2 (Reqb_true _ _)) by reflexivity. reflexivity.
Qed.
Lemma nlog_logw x : 0 <= x -> logw (nlog x).
Proof.
  intros [H|<-]; [rewrite nlog_pos by exact H; exact I|]. unfold nlog.
  rewrite (proj2 (Rltb_false _ _)) by lra. rewrite (proj2 (Reqb_true _ _)) by reflexivity. exact I.
Qed.
Lemma gaussian_exp m sd x : 0 < sd ->
  gaussian m sd x = exp (- ((x - m) / sd * ((x - m) / sd)) / 2 - ln (2 * PI) / 2 - ln sd).
Proof.
  intros H. pose proof PI_RGT_0 as HP. unfold gaussian.
  assert (E : sd * sqrt (2 * PI) = exp (ln sd + ln (2 * PI) / 2)).
  { rewrite exp_plus, exp_ln by exact H. f_equal. rewrite <- Rpower_sqrt by lra. unfold Rpower. f_equal. lra. }
  rewrite E. unfold Rdiv at 1. rewrite <- exp_Ropp, <- exp_plus. f_equal. lra.
Qed.
Lemma gaussian_pos m sd x : 0 < sd -> 0 < gaussian m sd x.
Proof. intros H. rewrite gaussian_exp by exact H. apply exp_pos. Qed.
Lemma sp_norm_fin x m sd : 0 < sd -> exists l, sp_norm x m sd = Fin l /\ exp l = gaussian m sd x.
Proof.
  intros H. unfold sp_norm. rewrite (proj2 (Rltb_true _ _) H). eexists. split; [reflexivity|].
  rewrite gaussian_exp by exact H. reflexivity.
Qed.
Lemma lexp_norm x m sd : 0 < sd -> lexp (sp_norm x m sd) = gaussian m sd x.
Proof. intros H. destruct (sp_norm_fin x m sd H) as [l [-> E]]. exact E. Qed.
Lemma logw_norm x m sd : 0 < sd -> logw (sp_norm x m sd).
Proof. intros H. destruct (sp_norm_fin x m sd H) as [l [-> E]]. exact I. Qed.
Lemma lexp_uniform loc scale x : 0 < scale -> lexp (sp_uniform loc scale x) = box loc (loc + scale) x.
Proof.
  intros H. unfold sp_uniform, box. rewrite (proj2 (Rltb_true _ _) H). unfold Rleb.
  destruct (Rle_dec loc x); cbn [andb]; [|reflexivity]. destruct (Rle_dec x (loc + scale)); [|reflexivity].
  cbn [lexp]. rewrite exp_Ropp, exp_ln by exact H. replace (loc + scale - loc) with scale by ring. field. lra.
Qed.
Lemma logw_uniform loc scale x : 0 < scale -> logw (sp_uniform loc scale x).
Proof.
  intros H. unfold sp_uniform. rewrite (proj2 (Rltb_true _ _) H). destruct (_ && _); exact I.
Qed.
Lemma lexp_half : forall v, logw v -> lexp (eadd (Fin (ln (5 / 10))) v) = lexp v / 2 /\ logw (eadd (Fin (ln (5 / 10))) v).
Proof.
  intros v H. split; [|apply logw_eadd; [exact I|exact H]]. rewrite lexp_eadd; [|exact I|exact H].
  cbn [lexp]. rewrite exp_ln by lra. lra.
Qed.

(** The law of one weighted draw. *)
Lemma pr_flip w i : (i < length w)%nat -> pr (flip w) (Nat.eqb i) = nth i w 0 / Rsum w.
Proof.
  intros Hi. unfold pr, flip. cbn [expect].
  assert (H : forall n s, (s <= i)%nat -> (i < s + n)%nat ->
    Rsum (map (fun j => nth j w 0 / Rsum w * (if Nat.eqb i j then 1 else 0)) (seq s n)) = nth i w 0 / Rsum w).
  { induction n as [|n IH]; intros s H1 H2; [lia|]. cbn [seq map].
    match goal with |- Rsum (?a :: ?b) = _ => change (Rsum (a :: b)) with (a + Rsum b) end.
    destruct (Nat.eqb_spec i s) as [->|E].
    - assert (Hz : forall m t, (s < t)%nat -> Rsum (map (fun j => nth j w 0 / Rsum w * (if Nat.eqb s j then 1 else 0)) (seq t m)) = 0).
      { induction m as [|m IHm]; intros t Ht; [reflexivity|]. cbn [seq map].
        match goal with |- Rsum (?a :: ?b) = _ => change (Rsum (a :: b)) with (a + Rsum b) end.
        rewrite IHm by lia. destruct (Nat.eqb_spec s t); [lia|]. ring. }
      rewrite Hz by lia. ring.
    - rewrite IH by lia. ring. }
  apply H; lia.
Qed.

(* ------------------------------------------------------------------ *)
(** ** Tables *)

(** The conditional probabilities of TwoWay. *)
Definition cpt (y x : Z) : R :=
  if Z.eq_dec y 0 then (if Z.eq_dec x 0 then 9 / 10 else if Z.eq_dec x 1 then 1 / 10 else 0)
  else (if Z.eq_dec x 0 then 3 / 10 else if Z.eq_dec x 1 then 7 / 10 else 0).

Lemma two_guard (y : Z) : y = 0%Z \/ y = 1%Z ->
  Reqb (IZR (pyint (PInt y))) (val (PInt y)) = true /\ Reqb (val (PInt y)) 0 || Reqb (val (PInt y)) 1 = true.
Proof.
  intros H. cbn [pyint val]. split; [apply Reqb_true; reflexivity|].
  destruct H as [->| ->]; [rewrite (proj2 (Reqb_true _ _)) by reflexivity; reflexivity|].
  rewrite (proj2 (Reqb_true 1 1)) by reflexivity. apply orb_true_r.
Qed.
Lemma int_01 x : Reqb (IZR x) 0 || Reqb (IZR x) 1 = true <-> x = 0%Z \/ x = 1%Z.
Proof.
  rewrite orb_true_iff, !Reqb_true. split; intros [H|H].
  - left. apply eq_IZR, H.
  - right. apply eq_IZR, H.
  - left. subst. reflexivity.
  - right. subst. reflexivity.
Qed.

(** TwoWay, for an integer input: the density is the table, it sums to one, and it is the
    probability with which the sampler returns the value. *)
Theorem C62_two : forall out i inputs y, okey inputs i = Ok (PInt y) -> y = 0%Z \/ y = 1%Z ->
  (forall targets x, dget out targets = Some (PInt x) ->
    exists l, two_logpdf out i targets inputs = Ok l /\ lexp l = cpt y x /\ (cpt y x = 0 -> l = NInf)) /\
  cpt y 0 + cpt y 1 = 1 /\
  exists law : prog nat,
    (forall x, (x < 2)%nat -> pr law (Nat.eqb x) = cpt y (Z.of_nat x)) /\
    forall draws n, (forall j, draw_ok (draws j)) ->
      two_simulate (draws n) out i inputs = Ok [(out, PInt (Z.of_nat (run draws n law)))].
Proof.
  intros out i inputs y Hy H01. destruct (two_guard y H01) as [G1 G2].
  set (row := if Z.eq_dec y 0 then [9 / 10; 1 / 10] else [3 / 10; 7 / 10]).
  assert (Er : item two_probs (PInt y) = Ok row) by (destruct H01 as [->| ->]; reflexivity).
  assert (Hn : forall x, (x = 0 \/ x = 1)%Z -> exists p, item row (PInt x) = Ok p /\ p = cpt y x /\ 0 < p).
  { intros x Hx. unfold row, cpt. destruct H01 as [->| ->], Hx as [->| ->]; cbn; eexists; (split; [reflexivity|]); split; try reflexivity; lra. }
  split; [|split].
  - intros targets x Hx. unfold two_logpdf. rewrite Hy. cbn [rbind]. rewrite G1, G2. cbn [negb].
    unfold key. rewrite Hx. cbn [rbind val]. destruct (Reqb (IZR x) 0 || Reqb (IZR x) 1) eqn:E.
    + apply int_01 in E. rewrite Er. cbn [rbind]. destruct (Hn x E) as [p [-> [<- Hp]]]. cbn [rbind]. eexists. split; [reflexivity|].
      split; [apply lexp_nlog; lra|lra].
    + exists NInf. split; [reflexivity|]. assert (Hc : cpt y x = 0); [|split; [symmetry; exact Hc|reflexivity]].
      assert (Hx2 : ~ (x = 0%Z \/ x = 1%Z)) by (rewrite <- int_01; congruence).
      unfold cpt. destruct (Z.eq_dec y 0), (Z.eq_dec x 0), (Z.eq_dec x 1); tauto.
  - destruct H01 as [->| ->]; unfold cpt; cbn; lra.
  - exists (flip row). split.
    + intros x Hx. rewrite pr_flip by (unfold row; destruct (Z.eq_dec y 0); exact Hx).
      destruct x as [|[|x]]; [| |lia]; unfold row, cpt; destruct (Z.eq_dec y 0); cbn; field.
    + intros draws n Hd. unfold two_simulate, two_row. rewrite Hy. cbn [rbind]. rewrite G1, G2. cbn [negb]. rewrite Er. cbn [rbind].
      rewrite (run_flip draws n row Hd); [reflexivity| |];
        unfold row; destruct (Z.eq_dec y 0); [repeat constructor; lra|repeat constructor; lra|cbn; lra|cbn; lra].
Qed.
Print Assumptions C62_two.

(** The assertions let the floats 0.0 and 1.0 pass, on which indexing then fails. *)
Theorem C62_two_float : forall out i inputs r, okey inputs i = Ok (PFlt r) -> r = 0 \/ r = 1 ->
  forall draw targets, two_simulate draw out i inputs = Err TypeError /\
    (forall x, dget out targets = Some (PInt x) -> x = 0%Z \/ x = 1%Z -> two_logpdf out i targets inputs = Err TypeError).
Proof.
  intros out i inputs r Hr H01 draw targets.
  assert (G1 : Reqb (IZR (pyint (PFlt r))) (val (PFlt r)) = true).
  { apply Reqb_true. cbn [pyint val]. rewrite (proj2 (Rleb_true 0 r)) by (destruct H01; lra).
    destruct H01 as [->| ->].
    - change (Int_part 0) with (Int_part (INR 0)). rewrite Int_part_INR. reflexivity.
    - change (Int_part 1) with (Int_part (INR 1)). rewrite Int_part_INR. reflexivity. }
  assert (G2 : Reqb (val (PFlt r)) 0 || Reqb (val (PFlt r)) 1 = true).
  { apply orb_true_iff. rewrite !Reqb_true. exact H01. }
  split; [|intros x Hx Hx2]; unfold two_simulate, two_logpdf, two_row; rewrite Hr; cbn [rbind]; rewrite G1, G2; cbn [negb]; [reflexivity|].
  unfold key. rewrite Hx. cbn [rbind val]. rewrite (proj2 (int_01 x) Hx2). reflexivity.
Qed.
Print Assumptions C62_two_float.

(** The quadrants: every point has one, a point off the axes the one of its signs, and the
    representative points of the four values are in the right ones. *)
Theorem C62_quadrant : forall y0 y1, exists q, quadrant y0 y1 = Ok q /\ (0 <= q <= 3)%Z /\
  (y0 <> 0 -> y1 <> 0 -> q = ((if Rlt_dec y0 0 then 1 else 0) + (if Rlt_dec y1 0 then 2 else 0))%Z) /\
  (forall x a b, four_center x = Ok (a, b) -> quadrant a b = Ok x) /\
  (forall x, (0 <= x <= 3)%Z -> exists a b, four_center x = Ok (a, b)).
Proof.
  intros y0 y1.
  assert (HL : forall x a b, four_center x = Ok (a, b) -> quadrant a b = Ok x).
  { intros x a b. unfold four_center.
    destruct (Z.eqb_spec x 0); [|destruct (Z.eqb_spec x 1); [|destruct (Z.eqb_spec x 2); [|destruct (Z.eqb_spec x 3); [|discriminate]]]];
      intros E; injection E as <- <-; subst x; unfold quadrant, Rleb;
      repeat match goal with |- context [Rle_dec ?a ?b] => destruct (Rle_dec a b); try lra end; reflexivity. }
  assert (HR : forall x, (0 <= x <= 3)%Z -> exists a b, four_center x = Ok (a, b)).
  { intros x Hx. assert (x = 0 \/ x = 1 \/ x = 2 \/ x = 3)%Z as [->|[->|[->| ->]]] by lia; eexists; eexists; reflexivity. }
  unfold quadrant at 1, Rleb.
  destruct (Rle_dec 0 y0) as [A|A], (Rle_dec 0 y1) as [B|B], (Rle_dec y0 0) as [C|C], (Rle_dec y1 0) as [D|D]; try lra; cbn [andb];
    eexists; (split; [reflexivity|]); (split; [lia|]); (split; [|split; [exact HL|exact HR]]); intros N0 N1;
    destruct (Rlt_dec y0 0), (Rlt_dec y1 0); try lra; reflexivity.
Qed.
Print Assumptions C62_quadrant.

(** FourWay: the density of a value is the entry of the table, the sampler draws in
    proportion to the entries. *)
Theorem C62_four : forall out i0 i1 inputs y0 y1 q, okey inputs i0 = Ok y0 -> okey inputs i1 = Ok y1 ->
  quadrant (val y0) (val y1) = Ok q ->
  exists w : list R, length w = 4%nat /\ Forall (fun p => 0 < p) w /\
    Rsum w = (if Z.eq_dec q 0 then 9 / 10 else if Z.eq_dec q 1 then 11 / 10 else 1) /\
    (forall targets x, dget out targets = Some (PInt x) ->
      exists l, four_logpdf out i0 i1 targets inputs = Ok l /\
        lexp l = if Z_le_dec 0 x then nth (Z.to_nat x) w 0 else 0) /\
    exists law : prog nat,
      (forall x, (x < 4)%nat -> pr law (Nat.eqb x) = nth x w 0 / Rsum w) /\
      forall draws n, (forall j, draw_ok (draws j)) ->
        four_simulate (draws n) out i0 i1 inputs = Ok [(out, PInt (Z.of_nat (run draws n law)))].
Proof.
  intros out i0 i1 inputs y0 y1 q H0 H1 Hq.
  assert (Hq4 : q = 0%Z \/ q = 1%Z \/ q = 2%Z \/ q = 3%Z).
  { destruct (C62_quadrant (val y0) (val y1)) as [q' [E [B _]]]. rewrite Hq in E. injection E as <-. lia. }
  set (w := nth (Z.to_nat q) four_probs []). exists w.
  assert (Hw : length w = 4%nat /\ Forall (fun p => 0 < p) w /\ item four_probs (PInt q) = Ok w /\
    Rsum w = (if Z.eq_dec q 0 then 9 / 10 else if Z.eq_dec q 1 then 11 / 10 else 1)).
  { unfold w, four_probs. destruct Hq4 as [->|[->|[->| ->]]]; cbn [Z.to_nat Pos.to_nat Pos.iter_op Nat.add nth];
      (split; [reflexivity|]); (split; [repeat (apply Forall_cons; [lra|]); apply Forall_nil|]);
      (split; [reflexivity|]); unfold Rsum; cbn [fold_right Z.eq_dec]; cbn [Z.eq_dec sumbool_rec sumbool_rect]; simpl; lra. }
  destruct Hw as [L [P [E S]]]. split; [exact L|]. split; [exact P|]. split; [exact S|].
  assert (Er : four_row i0 i1 inputs = Ok w).
  { unfold four_row. rewrite H0, H1. cbn [rbind]. rewrite Hq. cbn [rbind]. exact E. }
  assert (Hs : 0 < Rsum w) by (rewrite S; destruct (Z.eq_dec q 0), (Z.eq_dec q 1); lra).
  split.
  - intros targets x Hx. unfold four_logpdf, key. rewrite Hx. cbn [rbind val].
    destruct (Rleb 0 (IZR x) && Rleb (IZR x) 3) eqn:B; cbn [negb].
    + apply andb_true_iff in B. destruct B as [B1 B2]. apply Rleb_true in B1, B2. apply (le_IZR 0) in B1. apply (le_IZR x 3) in B2.
      rewrite Er. cbn [rbind]. unfold item. rewrite (proj2 (Z.ltb_ge x 0)) by lia. cbv zeta. rewrite (proj2 (Z.ltb_ge x 0)) by lia.
      destruct (nth_error w (Z.to_nat x)) as [p|] eqn:En; [|apply nth_error_None in En; lia].
      cbn [rbind]. eexists. split; [reflexivity|]. destruct (Z_le_dec 0 x); [|lia].
      rewrite (nth_error_nth _ _ 0 En). apply lexp_nlog. left. apply (proj1 (Forall_forall _ _) P). apply nth_error_In in En. exact En.
    + exists NInf. split; [reflexivity|]. destruct (Z_le_dec 0 x) as [H|H]; [|reflexivity].
      assert (Hx3 : (3 < x)%Z).
      { destruct (Z_lt_dec 3 x); [assumption|]. exfalso. assert (Hb : Rleb 0 (IZR x) && Rleb (IZR x) 3 = true); [|congruence].
        apply andb_true_iff. rewrite !Rleb_true. split; [apply (IZR_le 0), H|apply (IZR_le x 3); lia]. }
      rewrite nth_overflow by lia. reflexivity.
  - exists (flip w). split; [intros x Hx; apply pr_flip; lia|]. intros draws n Hd.
    unfold four_simulate. rewrite Er. cbn [rbind]. rewrite (run_flip draws n w Hd); [reflexivity| |exact Hs].
    eapply Forall_impl; [|exact P]. intros p Hp. cbn in Hp. lra.
Qed.
Print Assumptions C62_four.

(** Refuted: that the density is the law of the sampler.  In the first quadrant the masses
    of the four values sum to 9/10, in the second to 11/10. *)
Theorem C62_four_refuted : exists out i0 i1 inputs masses,
  Forall2 (fun x p => exists l, four_logpdf out i0 i1 [(out, PInt x)] inputs = Ok l /\ lexp l = p) [0; 1; 2; 3]%Z masses /\
  (forall x, ~ In x [0; 1; 2; 3]%Z -> four_logpdf out i0 i1 [(out, PInt x)] inputs = Ok NInf) /\
  Rsum masses = 9 / 10.
Proof.
  exists 5%Z, 1%Z, 2%Z, (Some [(1%Z, PFlt (1 / 2)); (2%Z, PInt 3)]), [70 / 100; 10 / 100; 5 / 100; 5 / 100].
  assert (Hq : quadrant (1 / 2) (IZR 3) = Ok 0%Z) by (unfold quadrant; rewrite !(proj2 (Rleb_true _ _)) by lra; reflexivity).
  assert (Hb : forall x, (0 <= x <= 3)%Z -> Rleb 0 (IZR x) && Rleb (IZR x) 3 = true).
  { intros x Hx. apply andb_true_iff. rewrite !Rleb_true. split; [apply (IZR_le 0)|apply (IZR_le x 3)]; lia. }
  split; [|split].
  - repeat constructor; unfold four_logpdf, four_row, key, okey, key; cbn [dget Z.eqb Pos.eqb rbind val];
      rewrite Hb by lia; cbn [negb]; rewrite Hq; cbn; eexists; (split; [reflexivity|]); apply lexp_nlog; lra.
  - intros x Hx. unfold four_logpdf, key. cbn [dget Z.eqb Pos.eqb rbind val].
    destruct (Rleb 0 (IZR x) && Rleb (IZR x) 3) eqn:B; [|reflexivity]. exfalso. apply Hx.
    apply andb_true_iff in B. destruct B as [B1 B2]. apply Rleb_true in B1, B2. apply (le_IZR 0) in B1. apply (le_IZR x 3) in B2.
    assert (x = 0 \/ x = 1 \/ x = 2 \/ x = 3)%Z as [->|[->|[->| ->]]] by lia; cbn; tauto.
  - unfold Rsum. cbn. lra.
Qed.
Print Assumptions C62_four_refuted.

(** It is where the second input is negative. *)
Theorem C62_four_partial : forall out i0 i1 inputs y0 y1, okey inputs i0 = Ok y0 -> okey inputs i1 = Ok y1 -> val y1 < 0 ->
  exists law : prog nat,
    (forall draws n, (forall j, draw_ok (draws j)) ->
      four_simulate (draws n) out i0 i1 inputs = Ok [(out, PInt (Z.of_nat (run draws n law)))]) /\
    forall targets x, dget out targets = Some (PInt (Z.of_nat x)) -> (x < 4)%nat ->
      exists l, four_logpdf out i0 i1 targets inputs = Ok l /\ lexp l = pr law (Nat.eqb x).
Proof.
  intros out i0 i1 inputs y0 y1 H0 H1 Hn. destruct (C62_quadrant (val y0) (val y1)) as [q [Hq [_ _]]].
  assert (Hq2 : q = 2%Z \/ q = 3%Z).
  { revert Hq. unfold quadrant, Rleb. destruct (Rle_dec 0 (val y0)), (Rle_dec 0 (val y1)), (Rle_dec (val y0) 0), (Rle_dec (val y1) 0);
      try lra; cbn [andb]; intros E; injection E as <-; auto. }
  destruct (C62_four out i0 i1 inputs y0 y1 q H0 H1 Hq) as [w [L [P [S [HL [law [Hlaw Hsim]]]]]]].
  exists law. split; [exact Hsim|]. intros targets x Hx Hx4. destruct (HL targets _ Hx) as [l [El Ev]]. exists l. split; [exact El|].
  rewrite Ev. destruct (Z_le_dec 0 (Z.of_nat x)); [|lia]. rewrite Nat2Z.id, (Hlaw x Hx4), S.
  destruct Hq2 as [->| ->]; cbn; field.
Qed.
Print Assumptions C62_four_partial.

Example C62_table_ex : okey (Some [(1%Z, PFlt (1 / 2)); (2%Z, PInt (-3))]) 2%Z = Ok (PInt (-3)) /\ val (PInt (-3)) < 0 /\
  quadrant (1 / 2) (-3) = Ok 2%Z.
Proof.
  split; [reflexivity|]. split; [cbn; lra|]. 
  unfold quadrant. rewrite (proj2 (Rleb_true 0 (1 / 2))) by lra. rewrite (proj2 (Rleb_false 0 (-3))) by lra.
  rewrite (proj2 (Rleb_false (1 / 2) 0)) by lra. rewrite (proj2 (Rleb_true (-3) 0)) by lra. reflexivity.
Qed.

(* ------------------------------------------------------------------ *)
(** ** TrollNormal *)

(** The density is that of the normal law whose parameters the sampler passes to the
    generator; its scale is at least one. *)
Theorem C62_troll : forall out i0 i1 targets inputs x a b,
  dget out targets = Some x -> dget i0 inputs = Some a -> dget i1 inputs = Some b ->
  exists l mu sd, troll_logpdf out i0 i1 targets (Some inputs) = Ok l /\ lexp l = gaussian mu sd x /\ 1 <= sd /\
    mu = a /\ sd = Rabs b + 1 /\
    forall normal, troll_simulate normal out i0 i1 (Some inputs) = Ok [(out, normal mu sd)].
Proof.
  intros out i0 i1 targets inputs x a b Hx Ha Hb. pose proof (Rabs_pos b) as Hp.
  unfold troll_logpdf, troll_simulate, okey, key. rewrite Hx, Ha, Hb. cbn [rbind].
  exists (troll_gauss x a (Rabs b + 1)), a, (Rabs b + 1). split; [reflexivity|]. split; [|split; [lra|auto]].
  unfold troll_gauss. rewrite nlog_pos by lra. cbn [eopp eadd lexp]. rewrite gaussian_exp by lra. f_equal. field. lra.
Qed.
Print Assumptions C62_troll.

(** Its rows: a row is taken once and removed only when present, and nothing else changes. *)
Theorem C62_troll_rows : forall rows r,
  (In r rows -> troll_incorporate r rows = Err AssertionError) /\
  (~ In r rows -> troll_unincorporate r rows = Err AssertionError) /\
  (~ In r rows -> exists rows', troll_incorporate r rows = Ok rows' /\ forall q, In q rows' <-> q = r \/ In q rows) /\
  (In r rows -> exists rows', troll_unincorporate r rows = Ok rows' /\ forall q, In q rows' <-> q <> r /\ In q rows).
Proof.
  intros rows r.
  assert (Hm : existsb (Z.eqb r) rows = true <-> In r rows).
  { rewrite existsb_exists. split; [intros [q [Hq E]]; apply Z.eqb_eq in E; subst; exact Hq|intros H; exists r; split; [exact H|apply Z.eqb_refl]]. }
  unfold troll_incorporate, troll_unincorporate. destruct (existsb (Z.eqb r) rows) eqn:E.
  - assert (Hi : In r rows) by (apply Hm; reflexivity). split; [reflexivity|]. split; [tauto|]. split; [tauto|].
    intros _. eexists. split; [reflexivity|]. intros q. rewrite filter_In, negb_true_iff, Z.eqb_neq. split; intros [? ?]; split; congruence || auto.
  - assert (Hi : ~ In r rows) by (rewrite <- Hm; discriminate). split; [tauto|]. split; [reflexivity|]. split; [|tauto].
    intros _. eexists. split; [reflexivity|]. intros q. cbn. split; intros [?|?]; auto.
Qed.
Print Assumptions C62_troll_rows.
Example C62_troll_ex : dget 0%Z [(0%Z, 3)] = Some 3 /\ dget 1%Z [(1%Z, 2); (2%Z, -4)] = Some 2 /\ dget 2%Z [(1%Z, 2); (2%Z, -4)] = Some (-4).
Proof. repeat split. Qed.

(* ------------------------------------------------------------------ *)
(** ** PieceWise *)

(** The model in the class comment: [z] is a coin, [x] is normal around [y + 2 z - 1]. *)
Definition coin_mass (m : piece) (z : R) : R := if Req_EM_T z 0 then pw_flip m else 1 - pw_flip m.
Definition true_density (m : piece) (x z y : R) : R := coin_mass m z * gaussian (y + (2 * z - 1)) (pw_sigma m) x.
Definition pok (m : piece) : Prop := pw_x m <> pw_z m /\ 0 < pw_sigma m /\ 0 < pw_flip m < 1.

Lemma keys_one {A} (k k' : Z) (v : A) : keys_are [(k, v)] [k'] = if Z.eq_dec k k' then true else false.
Proof. unfold keys_are. cbn [dkeys map fst]. destruct (list_eq_dec Z.eq_dec [k] [k']), (Z.eq_dec k k'); congruence. Qed.
Lemma keys_self {A} (k : Z) (v : A) : keys_are [(k, v)] [k] = true.
Proof. rewrite keys_one. destruct (Z.eq_dec k k); congruence. Qed.
Lemma keys_not {A} (k k' : Z) (v : A) : k <> k' -> keys_are [(k, v)] [k'] = false.
Proof. intros H. rewrite keys_one. destruct (Z.eq_dec k k'); congruence. Qed.

Section Piece.
  Variable m : piece.
  Hypothesis Hm : pok m.

  Lemma coin_mass_pos z : 0 < coin_mass m z.
  Proof using Hm. destruct Hm as [_ [_ H]]. unfold coin_mass. destruct (Req_EM_T z 0); lra. Qed.
  Lemma logp_z_ok z : logw (pw_logp_z m z) /\ lexp (pw_logp_z m z) = coin_mass m z.
  Proof using Hm.
    destruct Hm as [_ [_ H]]. unfold pw_logp_z, coin_mass, Reqb. destruct (Req_EM_T z 0); (split; [apply nlog_logw|apply lexp_nlog]); lra.
  Qed.
  Lemma pw_joint_ok targets y z : dget (pw_z m) targets = Some z ->
    exists l, pw_joint m targets y = Ok (Fin l) /\ exp l = coin_mass m z * gaussian (y + (2 * z - 1)) (pw_sigma m) z.
  Proof using Hm.
    intros Hz. destruct (logp_z_ok z) as [Lw Lv]. destruct Hm as [_ [Hs H]]. unfold pw_joint, key. rewrite Hz. cbn [rbind].
    unfold pw_normal, plog. rewrite (proj2 (Rltb_true _ _) Hs). cbn [rbind].
    assert (Hc := coin_mass_pos z). destruct (pw_logp_z m z) as [a| | |]; cbn in Lw, Lv; try contradiction; [|lra].
    cbn [eadd]. eexists. split; [reflexivity|]. rewrite exp_plus, Lv, Rmult_comm. f_equal.
    rewrite gaussian_exp by exact Hs. f_equal. field. lra.
  Qed.
  Lemma pw_free_xz targets y x z : dget (pw_x m) targets = Some x -> dget (pw_z m) targets = Some z ->
    exists l, pw_free m targets y = Ok (Fin l) /\ exp l = coin_mass m z * gaussian (y + (2 * z - 1)) (pw_sigma m) z.
  Proof using Hm.
    intros Hx Hz. unfold pw_free, dmem. rewrite Hx, Hz. apply pw_joint_ok, Hz.
  Qed.
  Lemma pw_free_z y z : exists l, pw_free m [(pw_z m, z)] y = Ok (Fin l) /\ exp l = coin_mass m z.
  Proof using Hm.
    destruct (logp_z_ok z) as [Lw Lv]. assert (Hc := coin_mass_pos z). destruct Hm as [Hn _]. unfold pw_free, dmem, key. cbn [dget].
    rewrite (proj2 (Z.eqb_neq _ _) Hn), Z.eqb_refl. cbn [andb rbind].
    destruct (pw_logp_z m z) as [a| | |]; cbn in Lw, Lv; try contradiction; [|lra]. exists a. auto.
  Qed.
  Lemma pw_free_x y x : exists l, pw_free m [(pw_x m, x)] y = Ok (Fin l) /\
    exp l = coin_mass m 0 * gaussian (y + (2 * 0 - 1)) (pw_sigma m) 0 + coin_mass m 1 * gaussian (y + (2 * 1 - 1)) (pw_sigma m) 1.
  Proof using Hm.
    assert (Hn := proj1 Hm). unfold pw_free, dmem, key. cbn [dget]. rewrite Z.eqb_refl, (proj2 (Z.eqb_neq (pw_z m) (pw_x m))) by auto. cbn [andb rbind].
    assert (Hz : forall z, dget (pw_z m) [(pw_x m, x); (pw_z m, z)] = Some z).
    { intros z. cbn [dget]. rewrite (proj2 (Z.eqb_neq (pw_z m) (pw_x m))), Z.eqb_refl by auto. reflexivity. }
    destruct (pw_joint_ok _ y 0 (Hz 0)) as [l0 [-> E0]]. destruct (pw_joint_ok _ y 1 (Hz 1)) as [l1 [-> E1]]. cbn [rbind].
    rewrite logsumexp_logw by (repeat constructor). unfold Rsum. cbn [map lexp fold_right].
    rewrite log_of_pos by (pose proof (exp_pos l0); pose proof (exp_pos l1); lra). eexists. split; [reflexivity|].
    rewrite exp_ln by (pose proof (exp_pos l0); pose proof (exp_pos l1); lra). lra.
  Qed.
  Lemma pw_ask targets y : targets <> [] -> pw_logpdf m targets [] (Some [(pw_y m, y)]) = pw_free m targets y.
  Proof using.
    intros H. unfold pw_logpdf. destruct targets as [|t targets]; [congruence|]. rewrite keys_self. cbn [negb].
    unfold key. cbn [dget]. rewrite Z.eqb_refl. reflexivity.
  Qed.
  Lemma pw_ask_xz x z y : pw_logpdf m [(pw_x m, x)] [(pw_z m, z)] (Some [(pw_y m, y)]) =
    rbind (pw_free m [(pw_x m, x); (pw_z m, z)] y) (fun lxz => rbind (pw_free m [(pw_z m, z)] y) (fun lz => Ok (esub lxz lz))).
  Proof using.
    unfold pw_logpdf. rewrite !keys_self. cbn [negb]. unfold key. cbn [dget]. rewrite !Z.eqb_refl. reflexivity.
  Qed.
  Lemma pw_ask_zx x z y : pw_logpdf m [(pw_z m, z)] [(pw_x m, x)] (Some [(pw_y m, y)]) =
    rbind (pw_free m [(pw_x m, x); (pw_z m, z)] y) (fun lxz => rbind (pw_free m [(pw_x m, x)] y) (fun lx => Ok (esub lxz lx))).
  Proof using Hm.
    unfold pw_logpdf. rewrite !keys_self. rewrite (keys_not (pw_x m) (pw_z m)) by apply Hm. cbn [negb]. unfold key. cbn [dget]. rewrite !Z.eqb_refl. reflexivity.
  Qed.
  Lemma dget_xz (x z : R) : dget (pw_x m) [(pw_x m, x); (pw_z m, z)] = Some x /\ dget (pw_z m) [(pw_x m, x); (pw_z m, z)] = Some z.
  Proof using Hm.
    cbn [dget]. rewrite !Z.eqb_refl, (proj2 (Z.eqb_neq (pw_z m) (pw_x m))) by (intros E; apply Hm; auto). auto.
  Qed.
End Piece.

(** What the densities of PieceWise are, for every value of [x] and [z]: the value of [x]
    plays no part, that of [z] is used in its place.  Joint, marginals and conditionals are
    consistent with each other. *)
Theorem C62_piece_partial : forall m x z y targets, pok m ->
  dget (pw_x m) targets = Some x -> dget (pw_z m) targets = Some z ->
  let inputs := Some [(pw_y m, y)] in
  exists joint pz px x_z z_x,
    pw_logpdf m targets [] inputs = Ok joint /\
    pw_logpdf m [(pw_z m, z)] [] inputs = Ok pz /\
    pw_logpdf m [(pw_x m, x)] [] inputs = Ok px /\
    pw_logpdf m [(pw_x m, x)] [(pw_z m, z)] inputs = Ok x_z /\
    pw_logpdf m [(pw_z m, z)] [(pw_x m, x)] inputs = Ok z_x /\
    lexp pz = coin_mass m z /\
    lexp joint = true_density m z z y /\
    lexp px = true_density m 0 0 y + true_density m 1 1 y /\
    lexp joint = lexp pz * lexp x_z /\
    lexp joint = lexp px * lexp z_x.
Proof.
  intros m x z y targets Hm Hx Hz inputs. unfold inputs. destruct (dget_xz m Hm x z) as [D1 D2].
  destruct (pw_free_xz m Hm targets y x z Hx Hz) as [l [El Vl]].
  destruct (pw_free_xz m Hm _ y x z D1 D2) as [l' [El' Vl']].
  destruct (pw_free_z m Hm y z) as [lz [Elz Vlz]]. destruct (pw_free_x m Hm y x) as [lx [Elx Vlx]].
  exists (Fin l), (Fin lz), (Fin lx), (Fin (l' + - lz)), (Fin (l' + - lx)).
  split; [rewrite pw_ask; [exact El|intros ->; discriminate Hx]|].
  split; [rewrite pw_ask by discriminate; exact Elz|]. split; [rewrite pw_ask by discriminate; exact Elx|].
  split; [rewrite pw_ask_xz, El', Elz; reflexivity|]. split; [rewrite (pw_ask_zx m Hm), El', Elx; reflexivity|].
  cbn [lexp]. split; [exact Vlz|]. split; [exact Vl|]. split; [exact Vlx|].
  pose proof (exp_pos lz). pose proof (exp_pos lx). rewrite !exp_plus, !exp_Ropp, Vl, <- Vl'. split; field; lra.
Qed.
Print Assumptions C62_piece_partial.

(** The two conditional masses sum to one, so that sampling [z] given [x] never fails; it
    follows those masses. *)
Theorem C62_piece_posterior : forall m x y, pok m ->
  let inputs := Some [(pw_y m, y)] in
  exists l0 l1, pw_logpdf m [(pw_z m, 0)] [(pw_x m, x)] inputs = Ok l0 /\ pw_logpdf m [(pw_z m, 1)] [(pw_x m, x)] inputs = Ok l1 /\
    lexp l0 + lexp l1 = 1 /\
    forall draw e, pw_simulate draw e m [pw_z m] [(pw_x m, x)] inputs =
      Ok [(pw_z m, INR (draw [Fin (lexp l0); Fin (lexp l1)]))].
Proof.
  intros m x y Hm inputs. unfold inputs. destruct (dget_xz m Hm x 0) as [D1 D2]. destruct (dget_xz m Hm x 1) as [D3 D4].
  destruct (pw_free_xz m Hm _ y x 0 D1 D2) as [a [Ea Va]]. destruct (pw_free_xz m Hm _ y x 1 D3 D4) as [b [Eb Vb]].
  destruct (pw_free_x m Hm y x) as [lx [Elx Vlx]].
  assert (Q0 : pw_logpdf m [(pw_z m, 0)] [(pw_x m, x)] (Some [(pw_y m, y)]) = Ok (Fin (a + - lx))) by (rewrite (pw_ask_zx m Hm), Ea, Elx; reflexivity).
  assert (Q1 : pw_logpdf m [(pw_z m, 1)] [(pw_x m, x)] (Some [(pw_y m, y)]) = Ok (Fin (b + - lx))) by (rewrite (pw_ask_zx m Hm), Eb, Elx; reflexivity).
  exists (Fin (a + - lx)), (Fin (b + - lx)). split; [exact Q0|]. split; [exact Q1|]. cbn [lexp].
  assert (Hs : exp (a + - lx) + exp (b + - lx) = 1).
  { pose proof (exp_pos lx). rewrite !exp_plus, exp_Ropp, Va, Vb, Vlx. field. rewrite <- Vlx. lra. }
  split; [exact Hs|]. intros draw e. unfold pw_simulate. rewrite keys_self. cbn [negb].
  unfold key at 1. cbn [dget]. rewrite Z.eqb_refl. cbn [rbind].
  rewrite (keys_not (pw_x m) (pw_z m)) by apply Hm. rewrite keys_self.
  destruct (list_eq_dec Z.eq_dec [pw_z m] [pw_z m]) as [_|N]; [|congruence]. cbn [negb]. rewrite Q0, Q1. cbn [rbind eexp coin].
  rewrite (proj2 (Rleb_true 0 (exp (a + - lx)))) by (left; apply exp_pos). rewrite (proj2 (Rleb_true 0 (exp (b + - lx)))) by (left; apply exp_pos).
  rewrite (proj2 (Reqb_true _ _) Hs). cbn [andb rbind]. cbn [dkeys map fst].
  destruct (list_eq_dec Z.eq_dec (zsort [pw_z m]) (zsort [pw_z m])); [reflexivity|congruence].
Qed.
Print Assumptions C62_piece_posterior.

(** Refuted: that the density is that of the model.  It does not depend on [x] at all. *)
Theorem C62_piece_blind_refuted : forall m, pok m ->
  (forall x x' z y, pw_logpdf m [(pw_x m, x); (pw_z m, z)] [] (Some [(pw_y m, y)]) =
     pw_logpdf m [(pw_x m, x'); (pw_z m, z)] [] (Some [(pw_y m, y)])) /\
  (forall x x' z y, pw_logpdf m [(pw_x m, x)] [(pw_z m, z)] (Some [(pw_y m, y)]) =
     pw_logpdf m [(pw_x m, x')] [(pw_z m, z)] (Some [(pw_y m, y)])) /\
  exists x z y l, pw_logpdf m [(pw_x m, x); (pw_z m, z)] [] (Some [(pw_y m, y)]) = Ok l /\ lexp l <> true_density m x z y.
Proof.
  intros m Hm.
  assert (H : forall x x' z y, pw_free m [(pw_x m, x); (pw_z m, z)] y = pw_free m [(pw_x m, x'); (pw_z m, z)] y).
  { intros x x' z y. unfold pw_free, pw_joint, dmem, key. destruct (dget_xz m Hm x z) as [-> ->]. destruct (dget_xz m Hm x' z) as [-> ->]. reflexivity. }
  split; [|split].
  - intros x x' z y. rewrite !pw_ask by discriminate. apply H.
  - intros x x' z y. rewrite !pw_ask_xz. rewrite (H x x'). reflexivity.
  - destruct (dget_xz m Hm 1 0) as [D1 D2]. destruct (pw_free_xz m Hm _ 1 1 0 D1 D2) as [l [El Vl]].
    exists 1, 0, 1, (Fin l). rewrite pw_ask by discriminate. split; [exact El|]. cbn [lexp]. rewrite Vl. unfold true_density.
    pose proof (coin_mass_pos m Hm 0) as Hc. intros E. apply Rmult_eq_reg_l in E; [|lra]. destruct Hm as [_ [Hs _]].
    rewrite !gaussian_exp in E by exact Hs. apply exp_inv in E.
    replace (1 + (2 * 0 - 1)) with 0 in E by ring. unfold Rdiv in E. rewrite !Rminus_0_r, !Rmult_0_l in E.
    assert (0 < (1 * / pw_sigma m) * (1 * / pw_sigma m)); [|lra]. apply Rmult_lt_0_compat; rewrite Rmult_1_l; apply Rinv_0_lt_compat, Hs.
Qed.
Print Assumptions C62_piece_blind_refuted.

(** Refuted: that the masses of [z] sum to at most one: the coin has a third side. *)
Theorem C62_piece_coin_refuted : forall m y, pok m -> exists l0 l1 l2,
  pw_logpdf m [(pw_z m, 0)] [] (Some [(pw_y m, y)]) = Ok l0 /\
  pw_logpdf m [(pw_z m, 1)] [] (Some [(pw_y m, y)]) = Ok l1 /\
  pw_logpdf m [(pw_z m, 2)] [] (Some [(pw_y m, y)]) = Ok l2 /\
  lexp l0 + lexp l1 = 1 /\ 1 < lexp l0 + lexp l1 + lexp l2.
Proof.
  intros m y Hm. destruct (pw_free_z m Hm y 0) as [a [Ea Va]], (pw_free_z m Hm y 1) as [b [Eb Vb]], (pw_free_z m Hm y 2) as [c [Ec Vc]].
  exists (Fin a), (Fin b), (Fin c). rewrite !pw_ask by discriminate. split; [exact Ea|]. split; [exact Eb|]. split; [exact Ec|].
  cbn [lexp]. rewrite Va, Vb, Vc. destruct Hm as [_ [_ H]]. unfold coin_mass.
  destruct (Req_EM_T 0 0), (Req_EM_T 1 0), (Req_EM_T 2 0); lra.
Qed.
Print Assumptions C62_piece_coin_refuted.

(** What PieceWise refuses, and how. *)
Lemma keys_are_spec {A} (d : dict A) l : keys_are d l = true <-> dkeys d = l.
Proof. unfold keys_are. destruct (list_eq_dec Z.eq_dec (dkeys d) l); split; auto; discriminate. Qed.
Lemma keys_are_no {A} (d : dict A) l : dkeys d <> l -> keys_are d l = false.
Proof. intros H. apply not_true_is_false. rewrite keys_are_spec. exact H. Qed.
Theorem C62_piece_refuses : forall m draw e targets names constraints ins, targets <> [] -> names <> [] ->
  (forall inputs, pw_logpdf m [] constraints inputs = Err AssertionError /\ pw_simulate draw e m [] constraints inputs = Err AssertionError) /\
  (pw_logpdf m targets constraints None = Err AttributeError /\ pw_simulate draw e m names constraints None = Err AttributeError) /\
  (dkeys ins <> [pw_y m] -> pw_logpdf m targets constraints (Some ins) = Err AssertionError /\ pw_simulate draw e m names constraints (Some ins) = Err AssertionError) /\
  (forall y, ins = [(pw_y m, y)] -> constraints <> [] -> dkeys constraints <> [pw_z m] -> dkeys constraints <> [pw_x m] ->
    pw_logpdf m targets constraints (Some ins) = Err ValueError /\ pw_simulate draw e m names constraints (Some ins) = Err ValueError) /\
  (forall y, ins = [(pw_y m, y)] -> ~ In (pw_x m) (dkeys targets) -> ~ In (pw_z m) (dkeys targets) ->
    pw_logpdf m targets [] (Some ins) = Err ValueError) /\
  (forall y, ins = [(pw_y m, y)] -> dkeys constraints = [pw_z m] -> (dkeys targets <> [pw_x m] -> pw_logpdf m targets constraints (Some ins) = Err AssertionError) /\
    (names <> [pw_x m] -> pw_simulate draw e m names constraints (Some ins) = Err AssertionError)) /\
  (forall y, ins = [(pw_y m, y)] -> pw_x m <> pw_z m -> dkeys constraints = [pw_x m] -> (dkeys targets <> [pw_z m] -> pw_logpdf m targets constraints (Some ins) = Err AssertionError) /\
    (names <> [pw_z m] -> pw_simulate draw e m names constraints (Some ins) = Err AssertionError)).
Proof.
  intros m draw e targets names constraints ins Ht Hn. destruct targets as [|t targets]; [congruence|]. destruct names as [|a names]; [congruence|].
  split; [intros; split; reflexivity|]. split; [split; reflexivity|].
  split; [intros H; unfold pw_logpdf, pw_simulate; rewrite (keys_are_no ins [pw_y m] H); split; reflexivity|].
  assert (Hk : forall y : R, key [(pw_y m, y)] (pw_y m) = Ok y) by (intros y; unfold key; cbn; rewrite Z.eqb_refl; reflexivity).
  split; [|split; [|split]].
  - intros y -> Hc H1 H2. unfold pw_logpdf, pw_simulate. rewrite keys_self, Hk. cbn [negb rbind]. destruct constraints as [|c constraints]; [congruence|].
    rewrite (keys_are_no _ _ H1), (keys_are_no _ _ H2). split; reflexivity.
  - intros y -> H1 H2. unfold pw_logpdf. rewrite keys_self, Hk. cbn [negb rbind]. unfold pw_free. apply dmem_false in H1, H2. rewrite H1, H2. reflexivity.
  - intros y -> Hc. unfold pw_logpdf, pw_simulate. rewrite keys_self, Hk. cbn [negb rbind]. destruct constraints as [|c constraints]; [discriminate|].
    rewrite (proj2 (keys_are_spec _ _) Hc). split; [intros H; rewrite (keys_are_no _ _ H); reflexivity|].
    intros H. destruct (list_eq_dec Z.eq_dec (a :: names) [pw_x m]) as [E|_]; [congruence|reflexivity].
  - intros y -> Hxz Hc. unfold pw_logpdf, pw_simulate. rewrite keys_self, Hk. cbn [negb rbind]. destruct constraints as [|c constraints]; [discriminate|].
    rewrite (proj2 (keys_are_spec _ _) Hc), (keys_are_no _ [pw_z m]) by congruence. split; [intros H; rewrite (keys_are_no _ _ H); reflexivity|].
    intros H. destruct (list_eq_dec Z.eq_dec (a :: names) [pw_z m]) as [E|_]; [congruence|reflexivity].
Qed.
Print Assumptions C62_piece_refuses.
Example C62_piece_refuses_ex : let m := Piece 0 1 2 1 (1 / 2) in
  [(0%Z, 7)] <> [] /\ dkeys [(5%Z, 1)] <> [pw_y m] /\ dkeys [(0%Z, 7); (1%Z, 1)] <> [pw_z m] /\ dkeys [(0%Z, 7); (1%Z, 1)] <> [pw_x m] /\
  dkeys [(1%Z, 0)] = [pw_z m] /\ dkeys [(1%Z, 1)] <> [pw_x m] /\ pw_x m <> pw_z m.
Proof. cbn. repeat split; discriminate. Qed.

(** The sampler follows the model: the coin has the two sides of the given probability and
    [x] is the noise around [y + 2 z - 1], with [z] drawn or given. *)
Theorem C62_piece_simulate : forall m draw e targets y, pok m -> NoDup targets -> targets <> [] ->
  (forall q, In q targets -> q = pw_x m \/ q = pw_z m) ->
  let z := INR (draw [Fin (pw_flip m); Fin (1 - pw_flip m)]) in
  (exists sample, pw_simulate draw e m targets [] (Some [(pw_y m, y)]) = Ok sample /\
    forall q, dget q sample = if in_dec Z.eq_dec q targets then Some (if Z.eq_dec q (pw_x m) then y + (2 * z - 1) + e else z) else None) /\
  forall z', pw_simulate draw e m [pw_x m] [(pw_z m, z')] (Some [(pw_y m, y)]) = Ok [(pw_x m, y + (2 * z' - 1) + e)].
Proof.
  intros m draw e targets y Hm Hd Ht Hq z. destruct Hm as [Hn [Hs Hf]].
  assert (Hin : forall k, existsb (Z.eqb k) targets = if in_dec Z.eq_dec k targets then true else false).
  { intros k. destruct (in_dec Z.eq_dec k targets) as [H|H].
    - apply existsb_exists. exists k. split; [exact H|apply Z.eqb_refl].
    - apply not_true_is_false. intros E. apply existsb_exists in E. destruct E as [q [H1 H2]]. apply Z.eqb_eq in H2. subst q. contradiction. }
  split.
  - unfold pw_simulate. destruct targets as [|t targets']; [congruence|]. set (targets := t :: targets') in *.
    rewrite keys_self. cbn [negb]. unfold key at 1. cbn [dget]. rewrite Z.eqb_refl. cbn [rbind].
    unfold coin at 1. rewrite (proj2 (Rleb_true 0 (pw_flip m))), (proj2 (Rleb_true 0 (1 - pw_flip m))) by lra.
    rewrite (proj2 (Reqb_true (pw_flip m + (1 - pw_flip m)) 1)) by ring. cbn [andb rbind]. fold z. rewrite !Hin.
    set (sample := (if (if in_dec Z.eq_dec (pw_x m) targets then true else false) then _ else _) ++ _).
    assert (Hk : forall q, In q (dkeys sample) <-> In q targets).
    { intros q. unfold sample, dkeys. rewrite map_app, in_app_iff.
      destruct (in_dec Z.eq_dec (pw_x m) targets) as [Ix|Ix], (in_dec Z.eq_dec (pw_z m) targets) as [Iz|Iz]; cbn; split;
        try (intros [[<-|[]]|[<-|[]]]; assumption); try (intros [[<-|[]]|[]]; assumption); try (intros [[]|[<-|[]]]; assumption); try tauto;
        intros H; destruct (Hq q H) as [->| ->]; auto. }
    assert (Nk : NoDup (dkeys sample)).
    { unfold sample, dkeys. rewrite map_app. destruct (in_dec Z.eq_dec (pw_x m) targets), (in_dec Z.eq_dec (pw_z m) targets); cbn;
        repeat constructor; cbn; intuition congruence. }
    assert (Es : zsort (dkeys sample) = zsort targets).
    { apply StateFacts.zsort_ext; [exact Nk|exact Hd|exact Hk]. }
    destruct (list_eq_dec Z.eq_dec (zsort (dkeys sample)) (zsort targets)) as [_|N]; [|congruence].
    exists sample. split; [reflexivity|]. intros q. destruct (in_dec Z.eq_dec q targets) as [I|I].
    + destruct (Hq q I) as [->| ->]; unfold sample.
      * destruct (in_dec Z.eq_dec (pw_x m) targets); [|contradiction]. destruct (Z.eq_dec (pw_x m) (pw_x m)); [|congruence]. cbn. rewrite Z.eqb_refl. reflexivity.
      * destruct (Z.eq_dec (pw_z m) (pw_x m)); [congruence|]. destruct (in_dec Z.eq_dec (pw_z m) targets); [|contradiction].
        destruct (in_dec Z.eq_dec (pw_x m) targets); cbn; rewrite ?(proj2 (Z.eqb_neq (pw_z m) (pw_x m))) by assumption; rewrite Z.eqb_refl; reflexivity.
    + destruct (dget q sample) as [v|] eqn:E; [|reflexivity]. exfalso. apply I. apply Hk. clear - E.
      induction sample as [|[k w] d IH]; [discriminate|]. cbn in E. destruct (Z.eqb_spec q k) as [->|]; [left; reflexivity|right; apply IH, E].
  - intros z'. unfold pw_simulate. rewrite !keys_self. cbn [negb]. unfold key at 1. cbn [dget]. rewrite Z.eqb_refl. cbn [rbind].
    destruct (list_eq_dec Z.eq_dec [pw_x m] [pw_x m]); [|congruence]. cbn [negb]. unfold key. cbn [dget]. rewrite Z.eqb_refl. cbn [rbind dkeys map fst].
    destruct (list_eq_dec Z.eq_dec (zsort [pw_x m]) (zsort [pw_x m])); [reflexivity|congruence].
Qed.
Print Assumptions C62_piece_simulate.

Example C62_piece_ex : pok (Piece 0 1 2 1 (1 / 2)) /\ dget 0%Z [(1%Z, 1); (0%Z, 7)] = Some 7 /\
  NoDup [1; 0]%Z /\ forall q, In q [1; 0]%Z -> q = 0%Z \/ q = 1%Z.
Proof.
  split; [unfold pok; cbn; split; [lia|lra]|]. split; [reflexivity|]. split; [repeat constructor; cbn; intuition lia|].
  cbn. intuition.
Qed.

(* ------------------------------------------------------------------ *)
(** ** Undirected populations *)

(** The density of two normal variables with mean zero, variance one and correlation [c]. *)
Definition bivariate (c x y : R) : R := gaussian 0 1 x * gaussian (c * x) (sqrt (1 - c * c)) y.

Lemma det_pos c : -1 < c < 1 -> 0 < 1 - c * c.
Proof. intros H. replace (1 - c * c) with ((1 - c) * (1 + c)) by ring. apply Rmult_lt_0_compat; lra. Qed.
Lemma mvn2_ok x y c : -1 < c < 1 -> exists l, mvn2 x y c = Fin l /\ exp l = bivariate c x y.
Proof.
  intros H. pose proof (det_pos c H) as Hd. unfold mvn2. rewrite (proj2 (Rltb_true (-1) c)), (proj2 (Rltb_true c 1)) by lra.
  cbn [andb]. cbv zeta. eexists. split; [reflexivity|]. unfold bivariate.
  assert (Hs : 0 < sqrt (1 - c * c)) by (apply sqrt_lt_R0, Hd).
  rewrite !gaussian_exp by lra. rewrite <- exp_plus. f_equal. rewrite ln_1.
  assert (E : (y - c * x) / sqrt (1 - c * c) * ((y - c * x) / sqrt (1 - c * c)) = (y - c * x) * (y - c * x) / (1 - c * c)).
  { rewrite <- (sqrt_sqrt (1 - c * c)) at 3 by lra. field. lra. }
  rewrite E. field. lra.
Qed.
Lemma mvn2_sym x y c : mvn2 x y c = mvn2 y x c.
Proof.
  unfold mvn2. destruct (Rltb (-1) c && Rltb c 1) eqn:E; [|reflexivity]. apply andb_true_iff in E. rewrite !Rltb_true in E.
  cbv zeta. f_equal. unfold Rdiv. ring.
Qed.
Lemma mvn2_flip x y c : mvn2 x y (- c) = mvn2 (- x) y c.
Proof.
  unfold mvn2. assert (E : Rltb (-1) (- c) && Rltb (- c) 1 = Rltb (-1) c && Rltb c 1).
  { apply eq_true_iff_eq. rewrite !andb_true_iff, !Rltb_true. lra. }
  rewrite E. destruct (Rltb (-1) c && Rltb c 1); [|reflexivity]. cbv zeta. f_equal.
  replace (1 - - c * - c) with (1 - c * c) by ring. unfold Rdiv. ring.
Qed.

(** Which density a query asks for, whatever the names of the two variables. *)
Theorem C62_undirected : forall p (a b : Z) x y,
  und_logpdf p [(a, x); (b, y)] [] [] = u_joint p x y /\
  und_logpdf p [(a, x)] [(b, y)] [] = u_conditional p x y /\
  (forall targets constraints i inputs, und_logpdf p targets constraints (i :: inputs) = Err AssertionError).
Proof. intros p a b x y. repeat split. Qed.
Print Assumptions C62_undirected.

(** Refuted: that the density of one variable is the marginal.  No such query is ever
    answered, although the marginals are defined. *)
Theorem C62_marginal_refuted : forall noise a z,
  und_logpdf (linear noise) [(a, z)] [] [] = Err AttributeError /\ (exists l, u_marginal (linear noise) z = Ok (Fin l)) /\
  und_logpdf (dots noise) [(a, z)] [] [] = Err AttributeError /\ (0 < noise -> exists l, u_marginal (dots noise) z = Ok l /\ 0 < lexp l).
Proof.
  intros noise a z. split; [reflexivity|]. split.
  { cbn. unfold lin_marginal. destruct (sp_norm_fin z 0 1 Rlt_0_1) as [l [-> _]]. exists l. reflexivity. }
  split; [reflexivity|]. intros Hn. cbn [u_marginal dots]. unfold dots_marginal. cbn [map].
  destruct (lexp_half (sp_norm z 1 noise) (logw_norm _ _ _ Hn)) as [V1 L1].
  destruct (lexp_half (sp_norm z (-1) noise) (logw_norm _ _ _ Hn)) as [V2 L2].
  rewrite logsumexp_logw by (repeat constructor; assumption). eexists. split; [reflexivity|].
  cbn [map Rsum fold_right]. unfold Rsum. cbn [fold_right]. rewrite V1, V2, !lexp_norm by exact Hn.
  pose proof (gaussian_pos 1 noise z Hn). pose proof (gaussian_pos (-1) noise z Hn). rewrite lexp_log_of; lra.
Qed.
Print Assumptions C62_marginal_refuted.

(** The order in which the dictionary lists the two variables does not matter. *)
Theorem C62_order : forall noise p a b x y, 0 < noise -> In p [linear noise; xcross noise; dots noise] ->
  und_logpdf p [(a, x); (b, y)] [] [] = und_logpdf p [(b, y); (a, x)] [] [].
Proof.
  intros noise p a b x y Hn [<-|[<-|[<-|[]]]];
    [change (lin_joint noise x y = lin_joint noise y x)|change (cross_joint noise x y = cross_joint noise y x)|change (dots_joint noise x y = dots_joint noise y x)].
  - unfold lin_joint. rewrite mvn2_sym. reflexivity.
  - unfold cross_joint. rewrite (mvn2_sym x y (1 - noise)), (mvn2_sym x y (-1 + noise)). reflexivity.
  - unfold dots_joint. cbn [map fst snd].
    assert (Hl : forall u v c d, logw (eadd (eadd (Fin (ln (25 / 100))) (sp_norm u c noise)) (sp_norm v d noise))).
    { intros u v c d. apply logw_eadd; [apply logw_eadd; [exact I|]|]; apply logw_norm, Hn. }
    assert (Hs : forall u v c d, lexp (eadd (eadd (Fin (ln (25 / 100))) (sp_norm u c noise)) (sp_norm v d noise)) =
      exp (ln (25 / 100)) * gaussian c noise u * gaussian d noise v).
    { intros u v c d. rewrite !lexp_eadd; try apply logw_norm, Hn; [|exact I|apply logw_eadd; [exact I|apply logw_norm, Hn]].
      rewrite !lexp_norm by exact Hn. reflexivity. }
    rewrite !logsumexp_logw by (repeat constructor; apply Hl). f_equal. f_equal. cbn [map]. rewrite !Hs. unfold Rsum. cbn [fold_right]. ring.
Qed.
Print Assumptions C62_order.

(** Linear: standard normal variables of correlation [1 - noise]; joint, marginal and
    conditional density are those of one law. *)
Theorem C62_linear : forall noise x y, 0 < noise < 2 ->
  exists joint px py y_x, lin_joint noise x y = Ok joint /\ lin_marginal x = Ok px /\ lin_marginal y = Ok py /\ lin_conditional noise y x = Ok y_x /\
    lexp joint = bivariate (1 - noise) x y /\ lexp px = gaussian 0 1 x /\
    lexp y_x = gaussian ((1 - noise) * x) (sqrt (noise * (2 - noise))) y /\
    lexp joint = lexp px * lexp y_x /\ 0 < lexp joint.
Proof.
  intros noise x y Hn. assert (Hc : -1 < 1 - noise < 1) by lra. pose proof (det_pos _ Hc) as Hd.
  destruct (mvn2_ok x y (1 - noise) Hc) as [l [El Vl]]. destruct (sp_norm_fin x 0 1 Rlt_0_1) as [a [Ea Va]]. destruct (sp_norm_fin y 0 1 Rlt_0_1) as [b [Eb Vb]].
  assert (E2 : 1 - (1 - noise) ^ 2 = noise * (2 - noise)) by ring. assert (E3 : 1 - (1 - noise) * (1 - noise) = noise * (2 - noise)) by ring.
  assert (Hs : 0 < sqrt (noise * (2 - noise))) by (rewrite <- E3; apply sqrt_lt_R0, Hd).
  destruct (sp_norm_fin y ((1 - noise) * x) _ Hs) as [c [Ec Vc]].
  exists (Fin l), (Fin a), (Fin b), (Fin c). unfold lin_joint, lin_marginal, lin_conditional. rewrite E2, El, Ea, Eb, Ec.
  repeat (split; [reflexivity|]). cbn [lexp]. rewrite Vl, Va, Vc. repeat (split; [reflexivity|]).
  unfold bivariate. rewrite E3. split; [reflexivity|]. apply Rmult_lt_0_compat; apply gaussian_pos; [lra|exact Hs].
Qed.
Print Assumptions C62_linear.

(** The mutual information it reports: the mean of [log p(x,y) - log p(x) - log p(y)] over
    any weighted points whose second moments are those of the law. *)
Theorem C62_linear_information : forall noise (f : R -> R -> R) (g : R -> R) pts, 0 < noise < 2 ->
  (forall x y, lin_joint noise x y = Ok (Fin (f x y))) -> (forall x, lin_marginal x = Ok (Fin (g x))) ->
  let mean (h : R -> R -> R) := Rsum (map (fun p => fst p * h (fst (snd p)) (snd (snd p))) pts) in
  mean (fun _ _ => 1) = 1 -> mean (fun x _ => x * x) = 1 -> mean (fun _ y => y * y) = 1 -> mean (fun x y => x * y) = 1 - noise ->
  lin_information noise = Fin (mean (fun x y => f x y - g x - g y)).
Proof.
  intros noise f g pts Hn Hf Hg mean M0 Mx My Mxy. assert (Hc : -1 < 1 - noise < 1) by lra. pose proof (det_pos _ Hc) as Hd.
  set (c := 1 - noise) in *. set (D := 1 - c * c) in *.
  assert (Ef : forall x y, f x y - g x - g y = - / 2 * ln D * 1 + (- (c * c) / (2 * D)) * (x * x) + (- (c * c) / (2 * D)) * (y * y) + (c / D) * (x * y)).
  { intros x y. specialize (Hf x y). pose proof (Hg x) as Hgx. pose proof (Hg y) as Hgy.
    unfold lin_joint, mvn2 in Hf. fold c in Hf. rewrite (proj2 (Rltb_true (-1) c)), (proj2 (Rltb_true c 1)) in Hf by lra. cbn [andb] in Hf. cbv zeta in Hf.
    unfold lin_marginal, sp_norm in Hgx, Hgy. rewrite (proj2 (Rltb_true 0 1)) in Hgx, Hgy by lra.
    injection Hf as <-. injection Hgx as <-. injection Hgy as <-. rewrite ln_1. fold D.
    assert (Es : ln (sqrt D) = ln D / 2).
    { assert (H2 : ln D = ln (sqrt D * sqrt D)) by (rewrite sqrt_sqrt by lra; reflexivity). rewrite H2 at 1.
      assert (0 < sqrt D) by (apply sqrt_lt_R0, Hd). rewrite ln_mult by assumption. lra. }
    rewrite Es. assert (Ex : forall v, (v - c * (x + y - v)) / D * 1 = (v - c * (x + y - v)) / D) by (intros; ring).
    assert (Hq : forall v, (v - 0) / 1 * ((v - 0) / 1) = v * v) by (intros v; field). rewrite !Hq.
    unfold D in *. field. lra. }
  unfold lin_information. replace (1 - (1 - noise) ^ 2) with D by (unfold D, c; ring). rewrite nlog_pos by exact Hd.
  f_equal. unfold mean in *. clear mean.
  rewrite (Rsum_ext _ (fun p => (- / 2 * ln D) * (fst p * 1) + ((- (c * c) / (2 * D)) * (fst p * (fst (snd p) * fst (snd p)))
     + ((- (c * c) / (2 * D)) * (fst p * (snd (snd p) * snd (snd p))) + (c / D) * (fst p * (fst (snd p) * snd (snd p))))))).
  - rewrite !Rsum_plus, !Rsum_scal. rewrite M0, Mx, My, Mxy. field. unfold D in *. lra.
  - intros [w [x y]] _. cbn [fst snd]. rewrite Ef. ring.
Qed.
Print Assumptions C62_linear_information.
Example C62_linear_ex : exists f g, (forall x y, lin_joint (1 / 2) x y = Ok (Fin (f x y))) /\ (forall x, lin_marginal x = Ok (Fin (g x))) /\
  let pts := [(3 / 8, (1, 1)); (3 / 8, (-1, -1)); (1 / 8, (1, -1)); (1 / 8, (-1, 1))] in
  let mean (h : R -> R -> R) := Rsum (map (fun p => fst p * h (fst (snd p)) (snd (snd p))) pts) in
  mean (fun _ _ => 1) = 1 /\ mean (fun x _ => x * x) = 1 /\ mean (fun _ y => y * y) = 1 /\ mean (fun x y => x * y) = 1 - 1 / 2.
Proof.
  exists (fun x y => match mvn2 x y (1 - 1 / 2) with Fin l => l | _ => 0 end), (fun x => match sp_norm x 0 1 with Fin l => l | _ => 0 end).
  split; [intros x y; unfold lin_joint; destruct (mvn2_ok x y (1 - 1 / 2)) as [l [-> _]]; [lra|reflexivity]|].
  split; [intros x; unfold lin_marginal; destruct (sp_norm_fin x 0 1 Rlt_0_1) as [l [-> _]]; reflexivity|].
  cbn [map fst snd]. unfold Rsum. cbn [fold_right]. repeat split; lra.
Qed.

(** XCross: the equal mixture of the law of Linear and of its mirror image. *)
Theorem C62_cross : forall noise x y, 0 < noise < 2 ->
  exists l, cross_joint noise x y = Ok l /\ lexp l = (bivariate (1 - noise) x y + bivariate (1 - noise) (- x) y) / 2.
Proof.
  intros noise x y Hn. assert (Hc : -1 < 1 - noise < 1) by lra. unfold cross_joint.
  replace (-1 + noise) with (- (1 - noise)) by ring. rewrite mvn2_flip.
  destruct (mvn2_ok x y _ Hc) as [a [-> Va]], (mvn2_ok (- x) y _ Hc) as [b [-> Vb]].
  destruct (lexp_half (Fin a) I) as [V1 L1], (lexp_half (Fin b) I) as [V2 L2].
  rewrite logsumexp_logw by (repeat constructor; assumption). eexists. split; [reflexivity|].
  cbn [map]. unfold Rsum. cbn [fold_right]. rewrite V1, V2. cbn [lexp]. pose proof (exp_pos a). pose proof (exp_pos b).
  rewrite lexp_log_of by lra. rewrite Va, Vb. lra.
Qed.
Print Assumptions C62_cross.

(** Dots: the two coordinates are independent, each an equal mixture around 1 and -1. *)
Definition twin (noise z : R) : R := (gaussian 1 noise z + gaussian (-1) noise z) / 2.
Theorem C62_dots : forall noise x y, 0 < noise ->
  (exists l, dots_joint noise x y = Ok l /\ lexp l = twin noise x * twin noise y) /\
  (exists l, dots_marginal noise x = Ok l /\ lexp l = twin noise x) /\
  (forall sx sy, (sx = 1 \/ sx = -1) -> (sy = 1 \/ sy = -1) ->
    exists n, (n < 4)%nat /\ (forall normal, dots_simulate n normal noise = Ok [normal false sx noise; normal true sy noise]) /\
      forall k, (k < 4)%nat -> (forall normal, dots_simulate k normal noise = Ok [normal false sx noise; normal true sy noise]) -> k = n).
Proof.
  intros noise x y Hn.
  assert (Hg : forall v c, 0 < gaussian c noise v) by (intros; apply gaussian_pos, Hn). split; [|split].
  - unfold dots_joint. cbn [map fst snd].
    assert (Hl : forall c d, logw (eadd (eadd (Fin (ln (25 / 100))) (sp_norm x c noise)) (sp_norm y d noise))).
    { intros c d. apply logw_eadd; [apply logw_eadd; [exact I|]|]; apply logw_norm, Hn. }
    assert (Hs : forall c d, lexp (eadd (eadd (Fin (ln (25 / 100))) (sp_norm x c noise)) (sp_norm y d noise)) =
      25 / 100 * gaussian c noise x * gaussian d noise y).
    { intros c d. rewrite !lexp_eadd; try apply logw_norm, Hn; [|exact I|apply logw_eadd; [exact I|apply logw_norm, Hn]].
      rewrite !lexp_norm by exact Hn. cbn [lexp]. rewrite exp_ln by lra. reflexivity. }
    rewrite logsumexp_logw by (repeat constructor; apply Hl). eexists. split; [reflexivity|]. cbn [map]. rewrite !Hs.
    unfold Rsum. cbn [fold_right]. rewrite lexp_log_of; [unfold twin; field|].
    assert (forall c d, 0 <= 25 / 100 * gaussian c noise x * gaussian d noise y).
    { intros c d. left. apply Rmult_lt_0_compat; [apply Rmult_lt_0_compat; [lra|]|]; apply Hg. }
    repeat apply Rplus_le_le_0_compat; auto; lra.
  - unfold dots_marginal. cbn [map].
    destruct (lexp_half (sp_norm x 1 noise) (logw_norm _ _ _ Hn)) as [V1 L1].
    destruct (lexp_half (sp_norm x (-1) noise) (logw_norm _ _ _ Hn)) as [V2 L2].
    rewrite logsumexp_logw by (repeat constructor; assumption). eexists. split; [reflexivity|]. cbn [map]. unfold Rsum. cbn [fold_right].
    rewrite V1, V2, !lexp_norm by exact Hn. pose proof (Hg x 1). pose proof (Hg x (-1)). rewrite lexp_log_of by lra. unfold twin. lra.
  - intros sx sy Hx Hy.
    assert (Hu : forall k, (k < 4)%nat -> k = 0%nat \/ k = 1%nat \/ k = 2%nat \/ k = 3%nat) by (intros; lia).
    assert (Hinj : forall a b : R, (forall normal : bool -> R -> R -> R, @Ok (list R) [normal false (fst (a, b)) noise; normal true (snd (a, b)) noise] =
      Ok [normal false sx noise; normal true sy noise]) -> a = sx /\ b = sy).
    { intros a b H. specialize (H (fun _ m _ => m)). cbn in H. injection H as -> ->. auto. }
    destruct Hx as [->| ->], Hy as [->| ->]; [exists 3%nat|exists 1%nat|exists 2%nat|exists 0%nat];
      (split; [lia|]); (split; [reflexivity|]); intros k Hk H;
      destruct (Hu k Hk) as [->|[->|[->| ->]]]; try reflexivity; exfalso; apply Hinj in H; lra.
Qed.
Print Assumptions C62_dots.

(** Refuted: that the conditional density of [w] given [z] is the joint by the marginal:
    the code answers with the density of [z]. *)
Theorem C62_dots_refuted : forall noise, 0 < noise -> exists w z c j p,
  dots_conditional noise w z = Ok c /\ dots_joint noise w z = Ok j /\ dots_marginal noise z = Ok p /\ 0 < lexp p /\
  lexp c <> lexp j / lexp p.
Proof.
  intros noise Hn. exists 1, 3. destruct (C62_dots noise 1 3 Hn) as [[j [Ej Vj]] _]. destruct (C62_dots noise 3 3 Hn) as [_ [[p [Ep Vp]] _]].
  exists p, j, p. split; [exact Ep|]. split; [exact Ej|]. split; [exact Ep|].
  assert (Hg : forall v c, 0 < gaussian c noise v) by (intros; apply gaussian_pos, Hn).
  assert (Ht : forall v, 0 < twin noise v) by (intros v; unfold twin; pose proof (Hg v 1); pose proof (Hg v (-1)); lra).
  rewrite Vp, Vj. split; [apply Ht|]. replace (twin noise 1 * twin noise 3 / twin noise 3) with (twin noise 1) by (field; apply Rgt_not_eq, Ht).
  apply Rlt_not_eq. unfold twin.
  assert (Hlt : forall a b u v, (u - a) * (u - a) < (v - b) * (v - b) -> gaussian b noise v < gaussian a noise u).
  { intros a b u v H. rewrite !gaussian_exp by exact Hn. apply exp_increasing.
    assert (E : forall d, d / noise * (d / noise) = d * d * (/ noise * / noise)) by (intros; field; lra). rewrite !E.
    assert (0 < / noise * / noise) by (apply Rmult_lt_0_compat; apply Rinv_0_lt_compat, Hn).
    apply Rmult_lt_compat_r with (r := / noise * / noise) in H; [|assumption]. lra. }
  pose proof (Hlt 1 1 1 3 ltac:(lra)). pose proof (Hlt (-1) (-1) 1 3 ltac:(lra)). lra.
Qed.
Print Assumptions C62_dots_refuted.

(** It is when [w] and [z] are equal up to the sign. *)
Theorem C62_dots_partial : forall noise w z, 0 < noise -> Rabs w = Rabs z -> exists c j p,
  dots_conditional noise w z = Ok c /\ dots_joint noise w z = Ok j /\ dots_marginal noise z = Ok p /\ lexp c = lexp j / lexp p.
Proof.
  intros noise w z Hn Hwz. destruct (C62_dots noise w z Hn) as [[j [Ej Vj]] _]. destruct (C62_dots noise z z Hn) as [_ [[p [Ep Vp]] _]].
  exists p, j, p. split; [exact Ep|]. split; [exact Ej|]. split; [exact Ep|].
  assert (Hg : forall v c, 0 < gaussian c noise v) by (intros; apply gaussian_pos, Hn).
  assert (Ht : 0 < twin noise z) by (unfold twin; pose proof (Hg z 1); pose proof (Hg z (-1)); lra).
  rewrite Vp, Vj. assert (E : twin noise w = twin noise z); [|rewrite E; field; lra].
  assert (Hs : w = z \/ w = - z) by (unfold Rabs in Hwz; destruct (Rcase_abs w), (Rcase_abs z); lra).
  destruct Hs as [->| ->]; [reflexivity|]. unfold twin, gaussian.
  replace ((- z - 1) / noise) with (- ((z - -1) / noise)) by (field; lra). replace ((- z - -1) / noise) with (- ((z - 1) / noise)) by (field; lra).
  assert (Eq : forall v, (- v) ^ 2 = v ^ 2) by (intros; ring). rewrite !Eq. lra.
Qed.
Print Assumptions C62_dots_partial.
Example C62_dots_ex : Rabs (-2) = Rabs 2.
Proof. rewrite Rabs_left, Rabs_right; lra. Qed.

(** Sampling: every target gets the coordinate of its position among the outputs. *)
Theorem C62_undirected_simulate : forall cond a b x y targets, a <> b -> (forall q, In q targets -> q = a \/ q = b) ->
  und_simulate (Ok [x; y]) cond [a; b] targets [] [] = Ok (map (fun q => (q, if Z.eq_dec q a then x else y)) targets) /\
  (forall q z, und_simulate (Ok [x; y]) cond [a; b] [q] [(if Z.eq_dec q a then b else a, z)] [] = rbind (cond z) (fun w => Ok [(q, w)])) /\
  forall q, q <> a -> q <> b -> und_simulate (Ok [x; y]) cond [a; b] (q :: targets) [] [] = Err ValueError.
Proof.
  intros cond a b x y targets Hab Hq. split; [|split].
  - unfold und_simulate. cbn [rbind]. induction targets as [|q targets IH]; [reflexivity|]. cbn [map rsequence].
    rewrite IH by (intros k Hk; apply Hq; right; exact Hk). cbn [position].
    destruct (Hq q (or_introl eq_refl)) as [->| ->].
    + rewrite Z.eqb_refl. cbn [nth_error rbind]. destruct (Z.eq_dec a a); [reflexivity|congruence].
    + rewrite (proj2 (Z.eqb_neq b a)), Z.eqb_refl by auto. cbn [option_map nth_error rbind]. destruct (Z.eq_dec b a); [congruence|reflexivity].
  - intros q z. reflexivity.
  - intros q H1 H2. unfold und_simulate. cbn [rbind map rsequence position]. rewrite (proj2 (Z.eqb_neq q a)), (proj2 (Z.eqb_neq q b)) by assumption. reflexivity.
Qed.
Print Assumptions C62_undirected_simulate.

(** Ring: the samples lie between the circles of radius [1 - noise] and 1. *)
Theorem C62_ring : forall noise angle d, 0 <= noise <= 1 -> 1 - noise <= d <= 1 ->
  exists x y, ring_simulate angle d = [x; y] /\ 1 - noise <= sqrt (x * x + y * y) <= 1 /\ x = d * cos angle /\ y = d * sin angle.
Proof.
  intros noise angle d Hn Hd. eexists. eexists. split; [reflexivity|].
  assert (E : cos angle * d * (cos angle * d) + sin angle * d * (sin angle * d) = d * d).
  { pose proof (sin2_cos2 angle) as H. unfold Rsqr in H. replace (_ + _) with ((sin angle * sin angle + cos angle * cos angle) * (d * d)) by ring. rewrite H. ring. }
  rewrite E. rewrite sqrt_square by lra. split; [lra|]. split; ring.
Qed.
Print Assumptions C62_ring.

(* ------------------------------------------------------------------ *)
(** ** Directed populations *)

(** The probability [v] that [f e] is at most [t], for [e] drawn uniformly between [lo]
    and [hi]. *)
Definition chance (lo hi : R) (f : R -> R) (t v : R) : Prop :=
  area (fun e => if Rle_dec (f e) t then 1 / (hi - lo) else 0) lo hi v.
(** The density [d] is the law of [f e]: nothing below [low], and for all [t] the area up to
    [t] is the probability of at most [t]. *)
Definition law_of (d : R -> R) (low lo hi : R) (f : R -> R) : Prop :=
  (forall y, y < low -> d y = 0) /\ forall t, low <= t -> exists v, area d low t v /\ chance lo hi f t v.

Lemma area_box_up lo hi m a t : lo < hi -> a <= t -> area (fun y => box lo hi (y - m)) a t (1 / (hi - lo) * overlap a t (lo + m) (hi + m)).
Proof.
  intros H Ha. apply area_step; [exact Ha|lra| |]; intros x _ Hx; unfold box; destruct (Rle_dec lo (x - m)), (Rle_dec (x - m) hi); try reflexivity; lra.
Qed.
Lemma area_box_down lo hi m a t : lo < hi -> a <= t -> area (fun y => box lo hi (m - y)) a t (1 / (hi - lo) * overlap a t (m - hi) (m - lo)).
Proof.
  intros H Ha. apply area_step; [exact Ha|lra| |]; intros x _ Hx; unfold box; destruct (Rle_dec lo (m - x)), (Rle_dec (m - x) hi); try reflexivity; lra.
Qed.
Ltac cases := unfold Rmax, Rmin; repeat match goal with |- context [Rle_dec ?a ?b] =>
  lazymatch a with context [Rle_dec _ _] => fail | _ => lazymatch b with context [Rle_dec _ _] => fail | _ => destruct (Rle_dec a b) end end end; try lra.
Lemma chance_up lo hi m t : lo < hi -> chance lo hi (fun e => m + e) t (1 / (hi - lo) * overlap (lo + m) (Rmax (lo + m) t) (lo + m) (hi + m)).
Proof.
  intros H. unfold chance. replace (overlap (lo + m) (Rmax (lo + m) t) (lo + m) (hi + m)) with (overlap lo hi (Rmin lo (t - m)) (t - m)) by (unfold overlap; cases).
  apply area_step; [lra|apply Rmin_r| |]; intros x Hx Hr; destruct (Rle_dec (m + x) t) as [L|L]; try reflexivity; exfalso.
  - lra.
  - revert Hr. cases.
Qed.
Lemma chance_down lo hi m t : lo < hi -> chance lo hi (fun e => m - e) t (1 / (hi - lo) * overlap (m - hi) (Rmax (m - hi) t) (m - hi) (m - lo)).
Proof.
  intros H. unfold chance. replace (overlap (m - hi) (Rmax (m - hi) t) (m - hi) (m - lo)) with (overlap lo hi (m - t) (Rmax hi (m - t))) by (unfold overlap; cases).
  apply area_step; [lra|apply Rmax_r| |]; intros x Hx Hr; destruct (Rle_dec (m - x) t) as [L|L]; try reflexivity; exfalso.
  - lra.
  - revert Hr. cases.
Qed.
Lemma chance_ext lo hi f g t v : (forall e, f e = g e) -> chance lo hi f t v -> chance lo hi g t v.
Proof. intros E. unfold chance. apply area_ext. intros x. rewrite E. reflexivity. Qed.

(** UniformX: the density of a uniform draw, and its refusals. *)
Theorem C62_uniform : forall low high out, low < high ->
  (exists d, (forall x, exists l, unx_logpdf low high out [(out, x)] [] [] = Ok l /\ lexp l = d x) /\
    (forall x, 0 < d x <-> low <= x <= high) /\ law_of d low low high (fun u => u) /\ area d low high 1) /\
  (forall q x, q <> out -> unx_logpdf low high out [(q, x)] [] [] = Err AssertionError) /\
  (forall targets c constraints inputs, unx_logpdf low high out targets (c :: constraints) inputs = Err AssertionError) /\
  (forall targets constraints i inputs, unx_logpdf low high out targets constraints (i :: inputs) = Err AssertionError).
Proof.
  intros low high out H. split; [|split; [|split]].
  - exists (box low high). split; [|split; [|split]].
    + intros x. unfold unx_logpdf. rewrite keys_self. unfold key, dget. rewrite Z.eqb_refl. cbn [rbind]. eexists. split; [reflexivity|].
      rewrite lexp_uniform by lra. f_equal. ring.
    + intros x. assert (0 < 1 / (high - low)) by (apply Rdiv_lt_0_compat; lra). unfold box. destruct (Rle_dec low x), (Rle_dec x high); split; intros; lra.
    + split; [intros y Hy; unfold box; destruct (Rle_dec low y); [lra|reflexivity]|]. intros t Ht.
      exists (1 / (high - low) * overlap low t low high). split.
      * apply (area_ext (fun y => box low high (y - 0))); [intros x; f_equal; ring|]. pose proof (area_box_up low high 0 low t H Ht) as A. rewrite !Rplus_0_r in A. exact A.
      * apply (chance_ext _ _ (fun e => 0 + e)); [intros; ring|]. pose proof (chance_up low high 0 t H) as A. rewrite !Rplus_0_r, (Rmax_right low t) in A by lra. exact A.
    + apply (area_ext (fun y => box low high (y - 0))); [intros x; f_equal; ring|]. pose proof (area_box_up low high 0 low high H ltac:(lra)) as A.
      rewrite !Rplus_0_r in A. replace 1 with (1 / (high - low) * overlap low high low high); [exact A|].
      replace (overlap low high low high) with (high - low) by (unfold overlap; cases). field. lra.
  - intros q x Hq. unfold unx_logpdf. rewrite keys_not by exact Hq. reflexivity.
  - reflexivity.
  - intros targets [|? ?] i inputs; reflexivity.
Qed.
Print Assumptions C62_uniform.

(** What SinY and ParabolaY answer: the density of their output given their input, and
    nothing else. *)
Theorem C62_given : forall f out inp x y, given f out inp [(out, y)] [] [(inp, x)] = f x y /\
  (forall targets inputs c constraints l, given f out inp targets (c :: constraints) inputs <> Ok l) /\
  (forall q l constraints inputs, q <> out -> given f out inp [(q, y)] constraints inputs <> Ok l) /\
  (forall q l constraints targets, q <> inp -> given f out inp targets constraints [(q, x)] <> Ok l) /\
  (forall targets l constraints, given f out inp targets constraints [] <> Ok l).
Proof.
  intros f out inp x y. unfold given. split; [|split; [|split; [|split]]].
  - rewrite !keys_self. unfold key, dget. rewrite !Z.eqb_refl. reflexivity.
  - intros targets inputs c constraints l. destruct (negb _); [discriminate|]. destruct (negb _); discriminate.
  - intros q l constraints inputs Hq. rewrite keys_not by exact Hq. discriminate.
  - intros q l constraints targets Hq. destruct (negb _); [discriminate|]. rewrite keys_not by exact Hq. discriminate.
  - intros targets l constraints. destruct (negb _); discriminate.
Qed.
Print Assumptions C62_given.

(** SinY: the density is that of the sampler. *)
Theorem C62_sin : forall noise x, 0 < noise -> exists d low high,
  (forall y, exists l, sin_density noise x y = Ok l /\ lexp l = d y) /\
  law_of d low 0 noise (fun e => sin_sample e x) /\ area d low high 1 /\ (forall y, 0 < d y <-> low <= y <= high) /\
  low <= cos x <= high /\ high - low = noise /\ (cos x < 0 -> low = cos x) /\ (0 <= cos x -> high = cos x).
Proof.
  intros noise x Hn. assert (Hp : 0 < 1 / noise) by (apply Rdiv_lt_0_compat; lra).
  destruct (Rlt_dec (cos x) 0) as [Hc|Hc].
  - exists (fun y => box 0 noise (y - cos x)), (cos x), (cos x + noise). unfold sin_density, sin_sample. rewrite (proj2 (Rltb_true _ _) Hc).
    split; [|split; [|split; [|split]]].
    + intros y. eexists. split; [reflexivity|]. rewrite lexp_uniform by exact Hn. rewrite Rplus_0_l. reflexivity.
    + split; [intros y Hy; unfold box; destruct (Rle_dec 0 (y - cos x)); [lra|reflexivity]|]. intros t Ht. eexists. split; [apply area_box_up; [exact Hn|exact Ht]|].
      pose proof (chance_up 0 noise (cos x) t Hn) as A. rewrite !Rplus_0_l, Rmax_right in A by exact Ht. rewrite Rplus_0_l. exact A.
    + pose proof (area_box_up 0 noise (cos x) (cos x) (cos x + noise) Hn ltac:(lra)) as A.
      replace 1 with (1 / (noise - 0) * overlap (cos x) (cos x + noise) (0 + cos x) (noise + cos x)); [exact A|].
      replace (overlap (cos x) (cos x + noise) (0 + cos x) (noise + cos x)) with noise by (unfold overlap; cases). field. lra.
    + intros y. unfold box. rewrite Rminus_0_r. destruct (Rle_dec 0 (y - cos x)), (Rle_dec (y - cos x) noise); split; intros; lra.
    + repeat split; lra.
  - exists (fun y => box 0 noise (cos x - y)), (cos x - noise), (cos x). unfold sin_density, sin_sample. rewrite (proj2 (Rltb_false (cos x) 0)) by lra.
    split; [|split; [|split; [|split]]].
    + intros y. eexists. split; [reflexivity|]. rewrite lexp_uniform by exact Hn. rewrite Rplus_0_l. reflexivity.
    + split; [intros y Hy; unfold box; destruct (Rle_dec 0 (cos x - y)); [|reflexivity]; destruct (Rle_dec (cos x - y) noise); [lra|reflexivity]|].
      intros t Ht. eexists. split; [apply area_box_down; [exact Hn|exact Ht]|].
      pose proof (chance_down 0 noise (cos x) t Hn) as A. rewrite Rmax_right in A by exact Ht. exact A.
    + pose proof (area_box_down 0 noise (cos x) (cos x - noise) (cos x) Hn ltac:(lra)) as A.
      replace 1 with (1 / (noise - 0) * overlap (cos x - noise) (cos x) (cos x - noise) (cos x - 0)); [exact A|].
      replace (overlap (cos x - noise) (cos x) (cos x - noise) (cos x - 0)) with noise by (unfold overlap; cases). field. lra.
    + intros y. unfold box. rewrite Rminus_0_r. destruct (Rle_dec 0 (cos x - y)), (Rle_dec (cos x - y) noise); split; intros; lra.
    + repeat split; lra.
Qed.
Print Assumptions C62_sin.

(** ParabolaY: an even coin for the sign, then a uniform draw around the parabola. *)
Theorem C62_parabola : forall noise x low, 0 < noise -> low <= - (x ^ 2) - noise -> exists d,
  (forall y, exists l, para_density noise x y = Ok l /\ lexp l = d y) /\
  (forall y, d y = d (- y)) /\ (forall y, y < low -> d y = 0) /\
  (forall t u1 u2, low <= t -> u1 < 1 / 2 <= u2 -> exists v1 v2, area d low t ((v1 + v2) / 2) /\
    chance (- noise) noise (fun e => para_sample u1 e x) t v1 /\ chance (- noise) noise (fun e => para_sample u2 e x) t v2) /\
  (forall t, x ^ 2 + noise <= t -> area d low t 1) /\
  (forall y, 0 < d y <-> Rabs (Rabs y - x ^ 2) <= noise \/ Rabs y + x ^ 2 <= noise).
Proof.
  intros noise x low Hn Hlow. assert (Hp : 0 < 1 / (noise - - noise)) by (apply Rdiv_lt_0_compat; lra).
  pose proof (pow2_ge_0 x) as Hx2. set (q := x ^ 2) in *. assert (Hlt : - noise < noise) by lra. assert (H2n : 0 < 2 * noise) by lra.
  assert (Hhalf : forall (f : R -> R) t v, area f low t v -> area (fun y => f y / 2) low t (v / 2)).
  { intros f t v H. apply area_half, H. }
  exists (fun y => box (- noise) noise (y - q) / 2 + box (- noise) noise (- q - y) / 2).
  assert (Hb : forall v, 0 <= box (- noise) noise v /\ (0 < box (- noise) noise v <-> - noise <= v <= noise)).
  { intros v. unfold box. destruct (Rle_dec (- noise) v), (Rle_dec v noise); lra. }
  split; [|split; [|split; [|split; [|split]]]].
  - intros y. unfold para_density. fold q.
    destruct (lexp_half (sp_uniform (- noise) (2 * noise) (y - q)) (logw_uniform _ _ _ H2n)) as [V1 L1].
    destruct (lexp_half (sp_uniform (- noise) (2 * noise) (- y - q)) (logw_uniform _ _ _ H2n)) as [V2 L2].
    rewrite logsumexp_logw by (repeat constructor; assumption). eexists. split; [reflexivity|]. cbn [map]. unfold Rsum. cbn [fold_right].
    rewrite V1, V2, !lexp_uniform by lra. replace (- noise + 2 * noise) with noise by ring. replace (- y - q) with (- q - y) by ring.
    pose proof (Hb (y - q)). pose proof (Hb (- q - y)). rewrite lexp_log_of by lra. lra.
  - intros y. replace (- q - - y) with (y - q) by ring. replace (- y - q) with (- q - y) by ring. lra.
  - intros y Hy. destruct (Hb (y - q)) as [A1 A2], (Hb (- q - y)) as [B1 B2].
    assert (box (- noise) noise (y - q) = 0) by (destruct A1 as [A1|A1]; [apply A2 in A1; lra|lra]).
    assert (box (- noise) noise (- q - y) = 0) by (destruct B1 as [B1|B1]; [apply B2 in B1; lra|lra]). lra.
  - intros t u1 u2 Ht Hu.
    exists (1 / (noise - - noise) * overlap low t (- noise + q) (noise + q)), (1 / (noise - - noise) * overlap low t (- q - noise) (- q - - noise)).
    split; [|split].
    + rewrite Rdiv_plus_distr. apply area_plus; apply Hhalf; [apply area_box_up|apply area_box_down]; assumption.
    + apply (chance_ext _ _ (fun e => q + e)); [intros e; unfold para_sample; rewrite (proj2 (Rltb_true u1 (5 / 10))) by lra; reflexivity|].
      pose proof (chance_up (- noise) noise q t Hlt) as A.
      replace (overlap low t (- noise + q) (noise + q)) with (overlap (- noise + q) (Rmax (- noise + q) t) (- noise + q) (noise + q)); [exact A|].
      unfold overlap. cases.
    + apply (chance_ext _ _ (fun e => - q - e)); [intros e; unfold para_sample; rewrite (proj2 (Rltb_false u2 (5 / 10))) by lra; fold q; ring|].
      pose proof (chance_down (- noise) noise (- q) t Hlt) as A.
      replace (overlap low t (- q - noise) (- q - - noise)) with (overlap (- q - noise) (Rmax (- q - noise) t) (- q - noise) (- q - - noise)); [exact A|].
      unfold overlap. cases.
  - intros t Ht. replace 1 with (1 / (noise - - noise) * overlap low t (- noise + q) (noise + q) / 2 + 1 / (noise - - noise) * overlap low t (- q - noise) (- q - - noise) / 2).
    + apply area_plus; apply Hhalf; [apply area_box_up|apply area_box_down]; lra.
    + replace (overlap low t (- noise + q) (noise + q)) with (2 * noise) by (unfold overlap; cases).
      replace (overlap low t (- q - noise) (- q - - noise)) with (2 * noise) by (unfold overlap; cases). field. lra.
  - intros y. destruct (Hb (y - q)) as [A1 A2], (Hb (- q - y)) as [B1 B2].
    split.
    + intros H. assert (H2 : 0 < box (- noise) noise (y - q) \/ 0 < box (- noise) noise (- q - y)) by lra. rewrite A2, B2 in H2.
      unfold Rabs. destruct (Rcase_abs y); match goal with |- context [Rcase_abs ?a] => destruct (Rcase_abs a) end; lra.
    + intros H. assert (H2 : 0 < box (- noise) noise (y - q) \/ 0 < box (- noise) noise (- q - y)).
      { rewrite A2, B2. revert H. unfold Rabs. destruct (Rcase_abs y); match goal with |- context [Rcase_abs ?a] => destruct (Rcase_abs a) end; lra. }
      lra.
Qed.
Print Assumptions C62_parabola.
Example C62_parabola_ex : 0 < 1 / 10 /\ -2 <= - (1 ^ 2) - 1 / 10 /\ 1 / 4 < 1 / 2 <= 3 / 4.
Proof. lra. Qed.

(** DiamondY: the sample is the point of the upper or of the lower edge, moved inside by the
    noise but not past the opposite edge; the sampler fails at the input zero and at the
    coin's midpoint, and only there. *)
Theorem C62_diamond : forall slope e x,
  ((exists y, diamond_sample slope e x = Ok y) <-> x <> 0 /\ slope <> 1 / 2) /\
  forall y, diamond_sample slope e x = Ok y -> Rabs x <= 1 -> 0 <= e ->
    Rabs x + Rabs y <= 1 /\ exists side, (side = 1 /\ (x < 0 <-> slope < 1 / 2) \/ side = -1 /\ (x < 0 <-> 1 / 2 < slope)) /\
    y = side * (1 - Rabs x - Rmin e (2 * (1 - Rabs x))).
Proof.
  intros slope e x. unfold diamond_sample.
  destruct (Rltb x 0) eqn:E1, (Rltb 0 x) eqn:E2, (Rltb slope (5 / 10)) eqn:E3, (Rltb (5 / 10) slope) eqn:E4; cbn [andb];
    rewrite ?Rltb_true, ?Rltb_false in *; try (exfalso; lra);
    (split; [split; [intros [y Hy]; try discriminate; split; intros Hz; lra|intros [H1 H2]; try (exfalso; lra); eexists; reflexivity]|]);
    intros y Hy Hx He; try discriminate; injection Hy as <-;
    (split; [revert Hx; unfold Rabs; cases; repeat match goal with |- context [Rcase_abs ?a] => destruct (Rcase_abs a) end; intros; lra|]).
  1: exists 1; split; [left|]. 3: exists (-1); split; [right|]. 5: exists (-1); split; [right|]. 7: exists 1; split; [left|].
  all: try (split; [reflexivity|split; intros; lra]).
  all: revert Hx; unfold Rabs; destruct (Rcase_abs x); cases.
Qed.
Print Assumptions C62_diamond.
Example C62_diamond_ex : diamond_sample (1 / 4) (1 / 10) (-1 / 2) = Ok (Rmax (- (-1 / 2) - 1) (-1 / 2 + 1 - 1 / 10)) /\ Rabs (-1 / 2) <= 1.
Proof.
  split; [|rewrite Rabs_left; lra]. unfold diamond_sample. rewrite (proj2 (Rltb_true (-1 / 2) 0)), (proj2 (Rltb_true (1 / 4) (5 / 10))) by lra. reflexivity.
Qed.

(** A directed population: its constraints never matter, so its answer differs from that of
    the network whenever they should; the number of samples arrives in the place of the
    inputs. *)
Theorem C62_directed : forall net sim targets names,
  (forall constraints constraints' inputs, dir_logpdf net targets constraints inputs = dir_logpdf net targets constraints' inputs) /\
  (forall constraints, dir_logpdf net targets constraints NoArg = net targets constraints NoArg <-> net targets constraints NoArg = net targets NoArg NoArg) /\
  (forall constraints constraints' inputs N, @dir_simulate (res (list (dict R))) sim names constraints inputs N = dir_simulate sim names constraints' inputs N) /\
  (forall constraints N, dir_simulate sim names constraints NoArg N = sim names NoArg N NoArg).
Proof.
  intros net sim targets names. split; [reflexivity|]. split; [|split; reflexivity].
  intros constraints. unfold dir_logpdf. split; intros H; symmetry; exact H.
Qed.
Print Assumptions C62_directed.
(** Refuted: that a directed population answers a query as its network does.  The network is
    a uniform variable at the root and the sine of it below; asked for the sine given its
    parent, the population does not pass the parent on. *)
Definition sine_net (noise : R) : dict R -> arg -> arg -> res ext := fun t c _ =>
  match c with DictArg d => given (sin_density noise) 1 0 t [] d | _ => given (sin_density noise) 1 0 t [] [] end.
Theorem C62_directed_refuted : forall noise, exists targets constraints,
  sine_net noise targets constraints NoArg = sin_density noise 0 1 /\
  dir_logpdf (sine_net noise) targets constraints NoArg <> sine_net noise targets constraints NoArg.
Proof.
  intros noise. exists [(1%Z, 1)], (DictArg [(0%Z, 0)]).
  destruct (C62_given (sin_density noise) 1 0 0 1) as [E [_ [_ [_ H]]]]. split; [exact E|].
  change (sine_net noise [(1%Z, 1)] (DictArg [(0%Z, 0)]) NoArg) with (given (sin_density noise) 1 0 [(1%Z, 1)] [] [(0%Z, 0)]).
  rewrite E. intros K. exact (H _ _ _ K).
Qed.
Print Assumptions C62_directed_refuted.
