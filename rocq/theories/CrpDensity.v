(** The sampling distribution of the CRP simulators. *)
From Verif Require Export Prob CrpDepFacts.
Local Open Scope R_scope.

(** The loop of simulate_crp (general.py:223-237) as a random program; see
    [simulate_crp_run] for the agreement with the model in CrpSim. *)
Definition next_counts (Nk : list Z) (a : nat) : list Z :=
  if (a =? length Nk)%nat then Nk ++ [1%Z] else incr_nth a Nk.
Fixpoint crp_rest_prog (alpha : R) (n i : nat) (Nk : list Z) : prog (list Z) :=
  match n with
  | O => Ret []
  | S n' =>
      Flip (map (fun w => w / (INR i - 1 + alpha)) (cnt_weights Nk ++ [alpha]))
        (fun a => pmap (cons (Z.of_nat a)) (crp_rest_prog alpha n' (S i) (next_counts Nk a)))
  end.
(** simulate_crp, general.py:213-246. *)
Definition simulate_crp_prog (N : Z) (alpha : R) : prog (list Z) :=
  pmap (cons 0%Z) (crp_rest_prog alpha (Z.to_nat N - 1) 1 [1%Z]).

Lemma run_map {A B} (f : A -> B) draws p : forall n, run draws n (pmap f p) = f (run draws n p).
Proof. induction p as [a|w k IH]; intros n; simpl; [reflexivity|]. apply IH. Qed.

Lemma next_counts_pos Nk a : Forall (fun c => (0 < c)%Z) Nk -> Forall (fun c => (0 < c)%Z) (next_counts Nk a).
Proof.
  intros H. unfold next_counts. destruct (a =? length Nk)%nat; [|apply pos_incr_nth; exact H].
  apply Forall_app. split; [exact H|]. constructor; [lia|constructor].
Qed.

Lemma crp_loop_run draws alpha : (forall i, draw_ok (draws i)) -> 0 < alpha ->
  forall n i Nk, (1 <= i)%nat -> Forall (fun c => (0 < c)%Z) Nk ->
  exists Nk', simulate_crp_loop draws alpha n i Nk = Ok (run draws i (crp_rest_prog alpha n i Nk), Nk').
Proof.
  intros Hd Ha. induction n as [|n IH]; intros i Nk Hi HN; [exists Nk; reflexivity|].
  cbn [simulate_crp_loop crp_rest_prog]. set (w := map (fun w => w / _) _).
  destruct (crp_step_weights alpha i Nk Ha Hi HN) as [[_ [Hw1 Hw2]] HL]. fold w in Hw1, Hw2, HL.
  rewrite (run_flip draws i w Hd Hw1 Hw2). cbn [rbind run flip].
  set (a := match w with [_] => 0%nat | _ => draws i (normalize (map Fin w)) end).
  assert (Hal : (a < S (length Nk))%nat).
  { pose proof (run_flip draws i w Hd Hw1 Hw2) as Hf.
    destruct (pflip_spec (draws i) (map Fin w) w (seq 0 (length w)) (Hd i)
      (conj eq_refl (conj Hw1 Hw2)) (seq_length _ _)) as [k [b [x [Ef [Ea _]]]]].
    rewrite Ef in Hf. injection Hf as Hf. cbn [run flip] in Hf. fold a in Hf. subst b.
    apply nth_error_In, in_seq in Ea. lia. }
  unfold next_counts. rewrite run_map.
  destruct (Nat.eqb_spec a (length Nk)) as [Ek|Ek].
  - cbn [rbind]. destruct (IH (S i) (Nk ++ [1%Z])) as [Nk' E]; [lia| |].
    { apply Forall_app. split; [exact HN|]. constructor; [lia|constructor]. }
    rewrite E. cbn [rbind]. exists Nk'. reflexivity.
  - destruct (Nat.ltb_spec a (length Nk)) as [Hlt|Hge]; [|lia]. cbn [rbind].
    destruct (IH (S i) (incr_nth a Nk)) as [Nk' E]; [lia|apply pos_incr_nth; exact HN|].
    rewrite E. cbn [rbind]. exists Nk'. reflexivity.
Qed.

Lemma simulate_crp_run draws N alpha : (forall i, draw_ok (draws i)) -> (0 < N)%Z -> 0 < alpha ->
  simulate_crp draws N alpha = Ok (run draws 1 (simulate_crp_prog N alpha)).
Proof.
  intros Hd HN Ha. destruct (simulate_crp_spec draws N alpha Hd HN Ha) as [rest [K' [E [L G]]]].
  rewrite E. unfold simulate_crp_prog. rewrite run_map.
  unfold simulate_crp in E. rewrite (proj2 (Z.ltb_lt 0 N) HN), (proj2 (Rltb_true 0 alpha) Ha) in E.
  cbn [andb] in E.
  destruct (crp_loop_run draws alpha Hd Ha (Z.to_nat N - 1) 1 [1%Z]) as [Nk' E']; [lia|repeat constructor; lia|].
  rewrite E' in E. cbn [rbind] in E. destruct (zmax_list _); [|discriminate].
  destruct (_ && _) in E; [|discriminate]. injection E as E. rewrite E. reflexivity.
Qed.

(* ------------------------------------------------------------------ *)

Definition crp_lp (lgam : R -> R) (alpha : R) (Nk : list Z) : R :=
  INR (length Nk) * ln alpha + Rsum (map (fun c => lgam (IZR c)) Nk) + lgam alpha
  - lgam (IZR (zsum Nk) + alpha).

Fixpoint replay (Nk : list Z) (rest : list Z) : list Z :=
  match rest with
  | [] => Nk
  | x :: rest' => replay (next_counts Nk (Z.to_nat x)) rest'
  end.

Definition is_list (l l' : list Z) : bool := if list_eq_dec Z.eq_dec l' l then true else false.

Lemma is_list_cons x y l l' : is_list (x :: l) (y :: l') = if (y =? x)%Z then is_list l l' else false.
Proof.
  unfold is_list. destruct (Z.eqb_spec y x) as [->|Hn].
  - destruct (list_eq_dec Z.eq_dec (x :: l') (x :: l)) as [E|E], (list_eq_dec Z.eq_dec l' l) as [F|F]; auto; congruence.
  - destruct (list_eq_dec Z.eq_dec (y :: l') (x :: l)) as [E|E]; congruence.
Qed.

Lemma Rsum_lgam_incr (lgam : R -> R) k Nk : gamma_rec lgam -> Forall (fun c => (0 < c)%Z) Nk -> (k < length Nk)%nat ->
  Rsum (map (fun c => lgam (IZR c)) (incr_nth k Nk)) =
  Rsum (map (fun c => lgam (IZR c)) Nk) + ln (nth k (cnt_weights Nk) 0).
Proof.
  intros Hg. revert k. induction Nk as [|c Nk IH]; intros k Hp Hk; [simpl in Hk; lia|].
  inversion Hp; subst. destruct k; unfold Rsum in *; simpl.
  - rewrite plus_IZR. rewrite (Hg (IZR c)) by (apply (IZR_lt 0); lia). ring.
  - rewrite IH by (auto; simpl in Hk; lia). ring.
Qed.

Lemma zsum_next Nk a : (a <= length Nk)%nat -> zsum (next_counts Nk a) = (zsum Nk + 1)%Z.
Proof.
  intros H. unfold next_counts. destruct (Nat.eqb_spec a (length Nk)) as [E|E].
  - rewrite zsum_app. unfold zsum at 2. simpl. lia.
  - apply zsum_incr_nth. lia.
Qed.

Lemma zsum_pos_nonneg Nk : Forall (fun c => (0 < c)%Z) Nk -> (0 <= zsum Nk)%Z.
Proof. unfold zsum. induction 1; simpl; lia. Qed.

(** One more customer multiplies the density by its seating probability. *)
Lemma crp_lp_next lgam alpha Nk a : gamma_rec lgam -> lgam 1 = 0 -> 0 < alpha ->
  Forall (fun c => (0 < c)%Z) Nk -> (a <= length Nk)%nat ->
  exp (crp_lp lgam alpha (next_counts Nk a)) =
  exp (crp_lp lgam alpha Nk) * (nth a (cnt_weights Nk ++ [alpha]) 0 / (IZR (zsum Nk) + alpha)).
Proof.
  intros Hg H1 Ha HN Hal.
  assert (HZ : 0 <= IZR (zsum Nk)) by (apply (IZR_le 0), zsum_pos_nonneg; exact HN).
  assert (Hw : 0 < nth a (cnt_weights Nk ++ [alpha]) 0).
  { unfold cnt_weights. destruct (Nat.eq_dec a (length Nk)) as [E|E].
    - rewrite app_nth2; rewrite map_length; [|lia]. rewrite E, Nat.sub_diag. exact Ha.
    - rewrite app_nth1 by (rewrite map_length; lia).
      change 0 with (IZR 0). rewrite map_nth. apply IZR_lt.
      rewrite Forall_forall in HN. apply HN. apply nth_In. lia. }
  rewrite <- (exp_ln (nth a _ 0 / _)) by (apply Rdiv_lt_0_compat; lra).
  rewrite <- exp_plus. f_equal. unfold Rdiv. rewrite ln_mult, ln_Rinv; try lra; [|apply Rinv_0_lt_compat; lra].
  unfold crp_lp. rewrite (zsum_next Nk a Hal), plus_IZR.
  replace (IZR (zsum Nk) + 1 + alpha) with (IZR (zsum Nk) + alpha + 1) by ring.
  rewrite (Hg (IZR (zsum Nk) + alpha)) by lra.
  unfold next_counts. destruct (Nat.eqb_spec a (length Nk)) as [E|E].
  - rewrite app_length, plus_INR, map_app, Rsum_app. unfold cnt_weights.
    rewrite app_nth2; rewrite map_length; [|lia]. rewrite E, Nat.sub_diag. simpl. rewrite H1. ring.
  - rewrite length_incr_nth, (Rsum_lgam_incr lgam a Nk Hg HN) by lia.
    unfold cnt_weights. rewrite app_nth1 by (rewrite map_length; lia). ring.
Qed.

Lemma weights_norm alpha i Nk a : 0 < alpha -> (1 <= i)%nat -> zsum Nk = Z.of_nat i ->
  let w := map (fun w => w / (INR i - 1 + alpha)) (cnt_weights Nk ++ [alpha]) in
  (a < length w)%nat ->
  nth a w 0 / Rsum w = nth a (cnt_weights Nk ++ [alpha]) 0 / (IZR (zsum Nk) + alpha).
Proof.
  intros Ha Hi Hz w Hal. unfold w in *. rewrite map_length in Hal.
  assert (HD : 0 < INR i - 1 + alpha) by (apply le_INR in Hi; simpl in Hi; lra).
  rewrite (Rsum_map_div (fun x => x)), map_id, Rsum_app. unfold cnt_weights at 2. rewrite Rsum_IZR.
  rewrite (nth_indep _ 0 (0 / (INR i - 1 + alpha))) by (rewrite map_length; exact Hal).
  rewrite (map_nth (fun w => w / (INR i - 1 + alpha))).
  assert (HZ : 0 <= IZR (zsum Nk)) by (rewrite Hz; apply (IZR_le 0); lia).
  unfold Rsum. simpl. field. lra.
Qed.

Lemma next_counts_len Nk a : (a <= length Nk)%nat ->
  length (next_counts Nk a) = if (a =? length Nk)%nat then S (length Nk) else length Nk.
Proof.
  intros H. unfold next_counts. destruct (a =? length Nk)%nat; [rewrite app_length; simpl; lia|apply length_incr_nth].
Qed.

Section Law.
  Variable lgam : R -> R.
  Variable alpha : R.
  Hypothesis Hg : gamma_rec lgam.
  Hypothesis H1 : lgam 1 = 0.
  Hypothesis Ha : 0 < alpha.

  Lemma crp_rest_step n i Nk x rest :
    expect (crp_rest_prog alpha (S n) i Nk) (fun l => if is_list (x :: rest) l then 1 else 0) =
    Rsum (map (fun a => nth a (map (fun w => w / (INR i - 1 + alpha)) (cnt_weights Nk ++ [alpha])) 0 /
                  Rsum (map (fun w => w / (INR i - 1 + alpha)) (cnt_weights Nk ++ [alpha])) *
            (if (Z.of_nat a =? x)%Z then
             expect (crp_rest_prog alpha n (S i) (next_counts Nk a)) (fun l => if is_list rest l then 1 else 0)
             else 0)) (seq 0 (S (length Nk)))).
  Proof.
    cbn [crp_rest_prog expect].
    assert (L : length (map (fun w => w / (INR i - 1 + alpha)) (cnt_weights Nk ++ [alpha])) = S (length Nk)).
    { rewrite map_length, app_length. unfold cnt_weights. rewrite map_length. simpl. lia. }
    rewrite L. apply Rsum_ext. intros a Hain. f_equal. rewrite expect_map.
    destruct (Z.eqb_spec (Z.of_nat a) x) as [E|E].
    - apply expect_ext_all. intros l. rewrite is_list_cons. rewrite (proj2 (Z.eqb_eq _ _) E). reflexivity.
    - rewrite (expect_ext_all _ _ (fun _ => 0 * 1)).
      + rewrite expect_scal. ring.
      + intros l. rewrite is_list_cons. rewrite (proj2 (Z.eqb_neq _ _) E). ring.
  Qed.

  Lemma crp_rest_law n : forall i Nk rest, (1 <= i)%nat -> Forall (fun c => (0 < c)%Z) Nk ->
    zsum Nk = Z.of_nat i ->
    ((exists K', grows (Z.of_nat (length Nk)) rest K') -> length rest = n ->
      exp (crp_lp lgam alpha Nk) *
      expect (crp_rest_prog alpha n i Nk) (fun l => if is_list rest l then 1 else 0) =
      exp (crp_lp lgam alpha (replay Nk rest))) /\
    (~ ((exists K', grows (Z.of_nat (length Nk)) rest K') /\ length rest = n) ->
      expect (crp_rest_prog alpha n i Nk) (fun l => if is_list rest l then 1 else 0) = 0).
  Proof.
    induction n as [|n IH]; intros i Nk rest Hi HN Hz.
    - split.
      + intros _ Hl. destruct rest; [|discriminate]. simpl. ring.
      + intros Hnot. destruct rest as [|x rest]; [|reflexivity].
        exfalso. apply Hnot. split; [|reflexivity]. exists (Z.of_nat (length Nk)). reflexivity.
    - destruct rest as [|x rest].
      { split; [intros _ Hl; discriminate|]. intros _. cbn [crp_rest_prog expect].
        apply Rsum_zero. intros a _. rewrite expect_map. rewrite (expect_ext_all _ _ (fun _ => 0 * 1)).
        - rewrite expect_scal. ring.
        - intros l. unfold is_list. destruct (list_eq_dec Z.eq_dec (Z.of_nat a :: l) []); [discriminate|ring]. }
      rewrite crp_rest_step.
      destruct (Z_le_dec 0 x) as [Hx0|Hx0]; [destruct (Z_le_dec x (Z.of_nat (length Nk))) as [Hx1|Hx1]|].
      + (* a possible table *)
        set (a := Z.to_nat x). assert (Hal : (a <= length Nk)%nat) by (unfold a; lia).
        rewrite (Rsum_single _ _ a).
        2: apply seq_NoDup.
        2: apply in_seq; lia.
        2:{ intros y Hy Hne. destruct (Z.eqb_spec (Z.of_nat y) x) as [E|E]; [|ring]. exfalso. apply Hne. unfold a. lia. }
        replace (Z.of_nat a =? x)%Z with true by (symmetry; apply Z.eqb_eq; unfold a; lia).
        rewrite weights_norm; auto.
        2:{ rewrite map_length, app_length. unfold cnt_weights. rewrite map_length. simpl. lia. }
        destruct (IH (S i) (next_counts Nk a) rest) as [I1 I2];
          [lia|apply next_counts_pos; exact HN|rewrite zsum_next by exact Hal; lia|].
        assert (Hgr : (exists K', grows (Z.of_nat (length Nk)) (x :: rest) K') <->
                      (exists K', grows (Z.of_nat (length (next_counts Nk a))) rest K')).
        { rewrite (next_counts_len Nk a Hal). simpl. destruct (Nat.eqb_spec a (length Nk)) as [E|E].
          - split; intros [K' G]; exists K'.
            + destruct G as [[G _]|[_ G]]; [unfold a in E; lia|].
              replace (Z.of_nat (S (length Nk))) with (Z.of_nat (length Nk) + 1)%Z by lia. exact G.
            + right. split; [unfold a in E; lia|].
              replace (Z.of_nat (length Nk) + 1)%Z with (Z.of_nat (S (length Nk))) by lia. exact G.
          - split; intros [K' G]; exists K'.
            + destruct G as [[_ G]|[G _]]; [exact G|unfold a in E; lia].
            + left. split; [unfold a in E; lia|exact G]. }
        split.
        * intros HG HL. cbn [replay]. fold a. rewrite <- I1; [|apply Hgr; exact HG|simpl in HL; lia].
          rewrite (crp_lp_next lgam alpha Nk a Hg H1 Ha HN Hal). ring.
        * intros Hnot. rewrite I2; [ring|]. intros [HG HL]. apply Hnot. split; [apply Hgr; exact HG|simpl; lia].
      + assert (E0 : forall f : nat -> R, Rsum (map (fun a => f a * (if (Z.of_nat a =? x)%Z then
             expect (crp_rest_prog alpha n (S i) (next_counts Nk a)) (fun l => if is_list rest l then 1 else 0)
             else 0)) (seq 0 (S (length Nk)))) = 0).
        { intros f. apply Rsum_zero. intros a Hain. apply in_seq in Hain.
          destruct (Z.eqb_spec (Z.of_nat a) x) as [E|E]; [lia|ring]. }
        rewrite E0. split; [|intros _; reflexivity].
        intros [K' [[G _]|[G _]]]; lia.
      + rewrite Rsum_zero.
        2:{ intros a Hain. destruct (Z.eqb_spec (Z.of_nat a) x) as [E|E]; [lia|ring]. }
        split; [|intros _; reflexivity]. intros [K' [[G _]|[G _]]]; lia.
  Qed.

  (** The replayed counts are the table counts of the partition. *)
  Lemma nth_incr k j Nk : nth j (incr_nth k Nk) 0%Z =
    (nth j Nk 0 + (if (j =? k)%nat && (k <? length Nk)%nat then 1 else 0))%Z.
  Proof.
    revert k j. induction Nk as [|c Nk IH]; intros k j.
    - simpl. destruct j, k; simpl; try reflexivity; rewrite ?andb_false_r; reflexivity.
    - destruct k, j; simpl; try lia. rewrite IH. reflexivity.
  Qed.

  Lemma nth_map_seq {A} (f : nat -> A) n j d : (j < n)%nat -> nth j (map f (seq 0 n)) d = f j.
  Proof.
    intros H. rewrite (nth_indep _ d (f 0%nat)) by (rewrite map_length, seq_length; exact H).
    rewrite map_nth, seq_nth by exact H. reflexivity.
  Qed.

  Lemma replay_counts rest : forall Nk pre K',
    Nk = map (fun k => occ (Z.of_nat k) pre) (seq 0 (length Nk)) ->
    Forall (fun z => (0 <= z < Z.of_nat (length Nk))%Z) pre ->
    grows (Z.of_nat (length Nk)) rest K' ->
    K' = Z.of_nat (length (replay Nk rest)) /\
    replay Nk rest = map (fun k => occ (Z.of_nat k) (pre ++ rest)) (seq 0 (length (replay Nk rest))) /\
    Forall (fun z => (0 <= z < K')%Z) (pre ++ rest).
  Proof.
    induction rest as [|x rest IH]; intros Nk pre K' HN Hp G.
    - simpl in *. rewrite app_nil_r. split; [congruence|]. split; [exact HN|]. subst K'. exact Hp.
    - cbn [replay]. set (a := Z.to_nat x).
      assert (Hx : (0 <= x <= Z.of_nat (length Nk))%Z) by (destruct G as [[G _]|[G _]]; lia).
      assert (Hal : (a <= length Nk)%nat) by (unfold a; lia).
      replace (pre ++ x :: rest) with ((pre ++ [x]) ++ rest) by (rewrite <- app_assoc; reflexivity).
      assert (Eo : forall k, occ (Z.of_nat k) (pre ++ [x]) =
                 (occ (Z.of_nat k) pre + (if (k =? a)%nat then 1 else 0))%Z).
      { intros k. rewrite occ_app, occ_cons. change (occ (Z.of_nat k) []) with 0%Z.
        destruct (Z.eqb_spec (Z.of_nat k) x) as [E|E]; destruct (Nat.eqb_spec k a); unfold a in *; lia. }
      apply IH.
      + rewrite (next_counts_len Nk a Hal). rewrite (map_ext _ _ Eo). unfold next_counts.
        destruct (Nat.eqb_spec a (length Nk)) as [E|E].
        * rewrite seq_S, map_app. f_equal.
          -- rewrite HN at 1. apply map_ext_in. intros k Hk. apply in_seq in Hk.
             destruct (Nat.eqb_spec k a); [lia|]. lia.
          -- simpl. rewrite E, Nat.eqb_refl. f_equal.
             rewrite (proj2 (occ_zero (Z.of_nat (length Nk)) pre)); [reflexivity|].
             intros Hin. rewrite Forall_forall in Hp. specialize (Hp _ Hin). lia.
        * apply (nth_ext _ _ 0%Z 0%Z).
          { rewrite length_incr_nth, map_length, seq_length. reflexivity. }
          intros j Hj. rewrite length_incr_nth in Hj. rewrite nth_incr.
          rewrite (nth_map_seq (fun k => occ (Z.of_nat k) pre + (if (k =? a)%nat then 1 else 0))%Z) by exact Hj.
          assert (En : nth j Nk 0%Z = occ (Z.of_nat j) pre).
          { rewrite HN at 1. apply (nth_map_seq (fun k => occ (Z.of_nat k) pre)). exact Hj. }
          rewrite En. destruct (Nat.ltb_spec a (length Nk)); [|lia]. rewrite andb_true_r. reflexivity.
      + rewrite (next_counts_len Nk a Hal). apply Forall_app. split.
        * eapply Forall_impl; [|exact Hp]. intros z Hz. destruct (Nat.eqb_spec a (length Nk)); simpl in *; lia.
        * constructor; [|constructor]. destruct (Nat.eqb_spec a (length Nk)); unfold a in *; lia.
      + rewrite (next_counts_len Nk a Hal). destruct (Nat.eqb_spec a (length Nk)) as [E|E].
        * destruct G as [[G _]|[_ G]]; [unfold a in E; lia|].
          replace (Z.of_nat (S (length Nk))) with (Z.of_nat (length Nk) + 1)%Z by lia. exact G.
        * destruct G as [[_ G]|[G _]]; [exact G|unfold a in E; lia].
  Qed.

  Lemma grows_in l : forall K K' t, grows K l K' -> (K <= t < K')%Z -> In t l.
  Proof.
    induction l as [|x l IH]; intros K K' t G Ht; [simpl in G; lia|].
    destruct G as [[_ G]|[-> G]]; [right; eapply IH; eauto|].
    destruct (Z.eq_dec t K) as [->|Hn]; [left; reflexivity|]. right. apply (IH (K + 1)%Z K'); [exact G|lia].
  Qed.
  Lemma grows_bound l : forall K K' t, grows K l K' -> (0 <= K)%Z -> In t l -> (0 <= t < K')%Z /\ (K <= K')%Z.
  Proof.
    assert (Hle : forall l K K', grows K l K' -> (K <= K')%Z).
    { clear. induction l as [|x l IH]; intros K K' G; [simpl in G; lia|].
      destruct G as [[_ G]|[_ G]]; apply IH in G; lia. }
    induction l as [|x l IH]; intros K K' t G HK Hin; [destruct Hin|].
    pose proof (Hle _ _ _ G) as HL.
    destruct Hin as [->|Hin]; destruct G as [[Hx G]|[-> G]].
    - apply Hle in G. lia.
    - apply Hle in G. lia.
    - apply (IH K K' t G HK Hin).
    - split; [|exact HL]. apply (IH (K + 1)%Z K' t G); [lia|exact Hin].
  Qed.

  Lemma counts_of_table p (K' : nat) : (forall t, In t p <-> (0 <= t < Z.of_nat K')%Z) ->
    counts_of (map (fun k => (Z.of_nat k, occ (Z.of_nat k) p)) (seq 0 K')) p.
  Proof.
    intros H. assert (Hnd : NoDup (dkeys (map (fun k => (Z.of_nat k, occ (Z.of_nat k) p)) (seq 0 K')))).
    { unfold dkeys. rewrite map_map. simpl. generalize 0%nat. clear. induction K'; intros s; [constructor|].
      simpl. constructor; [|apply IHK']. intros Hin. apply in_map_iff in Hin. destruct Hin as [k [E Hk]].
      apply in_seq in Hk. lia. }
    split; [exact Hnd|]. intros t. destruct (Z.eqb_spec (occ t p) 0) as [E|E].
    - apply dget_None_notin. unfold dkeys. rewrite map_map. simpl. intros Hin. apply in_map_iff in Hin.
      destruct Hin as [k [<- Hk]]. apply in_seq in Hk. apply occ_zero in E. apply E. apply H. lia.
    - apply dget_In_NoDup; [exact Hnd|]. apply in_map_iff. exists (Z.to_nat t).
      assert (Hin : In t p) by (apply occ_pos; pose proof (occ_nonneg t p); lia).
      apply H in Hin. split; [f_equal; [|f_equal]; lia|]. apply in_seq. lia.
  Qed.

  (** The probability of a partition is its CRP density. *)
  Lemma simulate_crp_law N p counts : (0 < N)%Z -> Z.of_nat (length p) = N ->
    (exists K', grows 0 p K') -> counts_of counts p ->
    exists l, logp_crp lgam N (dvals counts) alpha = Ok (Fin l) /\
      pr (simulate_crp_prog N alpha) (is_list p) = exp l.
  Proof.
    intros HN HL [K' G] Hc. destruct p as [|x rest]; [simpl in HL; lia|].
    assert (Hx : x = 0%Z) by (destruct G as [[G _]|[G _]]; lia). subst x.
    assert (G1 : grows 1 rest K') by (destruct G as [[G _]|[_ G]]; [lia|exact G]).
    unfold logp_crp, plog. rewrite (proj2 (Rltb_true 0 alpha) Ha). cbn [rbind].
    eexists. split; [reflexivity|].
    unfold pr, simulate_crp_prog. rewrite expect_map.
    rewrite (expect_ext_all _ _ (fun l => if is_list rest l then 1 else 0)) by (intros l; rewrite is_list_cons; reflexivity).
    destruct (crp_rest_law (Z.to_nat N - 1) 1 [1%Z] rest) as [L _];
      [lia|repeat constructor; lia|reflexivity|].
    specialize (L (ex_intro _ K' G1)). simpl length in HL.
    assert (E0 : exp (crp_lp lgam alpha [1%Z]) = 1).
    { unfold crp_lp, Rsum, zsum. simpl. rewrite H1. replace (1 + alpha) with (alpha + 1) by ring.
      rewrite (Hg alpha Ha). etransitivity; [|exact exp_0]. f_equal. ring. }
    rewrite E0, Rmult_1_l in L. rewrite L by lia. f_equal.
    destruct (replay_counts rest [1%Z] [0%Z] K') as [E1 [E2 E3]];
      [reflexivity|repeat constructor; simpl; lia|exact G1|].
    set (Nf := replay [1%Z] rest) in *. change ([0%Z] ++ rest) with (0%Z :: rest) in *.
    assert (Hperm : Permutation (dvals counts) Nf).
    { rewrite E2. replace (map (fun k => occ (Z.of_nat k) (0%Z :: rest)) (seq 0 (length Nf)))
        with (dvals (map (fun k => (Z.of_nat k, occ (Z.of_nat k) (0%Z :: rest))) (seq 0 (length Nf))))
        by (unfold dvals; rewrite map_map; reflexivity).
      unfold dvals. apply Permutation_map. apply (counts_of_unique _ _ _ Hc). apply counts_of_table.
      intros t. split.
      - intros Hin. rewrite Forall_forall in E3. specialize (E3 t Hin). lia.
      - intros Ht. apply (grows_in _ _ _ _ G). lia. }
    unfold crp_lp.
    rewrite (Permutation_length Hperm).
    assert (ES : Rsum (map (fun c => lgam (IZR c)) (dvals counts)) = Rsum (map (fun c => lgam (IZR c)) Nf)).
    { apply (Permutation_map (fun c => lgam (IZR c))) in Hperm. revert Hperm.
      generalize (map (fun c => lgam (IZR c)) (dvals counts)), (map (fun c => lgam (IZR c)) Nf).
      unfold Rsum. induction 1; simpl; lra. }
    rewrite ES. rewrite <- (zsum_perm _ _ Hperm), (counts_of_total _ _ Hc).
    simpl length. rewrite HL. reflexivity.
  Qed.

  (** Everything else has probability zero. *)
  Lemma simulate_crp_law_zero N p : (0 < N)%Z ->
    ~ (Z.of_nat (length p) = N /\ exists K', grows 0 p K') ->
    pr (simulate_crp_prog N alpha) (is_list p) = 0.
  Proof.
    intros HN Hnot. unfold pr, simulate_crp_prog. rewrite expect_map. destruct p as [|x rest].
    - rewrite (expect_ext_all _ _ (fun _ => 0 * 1)); [rewrite expect_scal; ring|].
      intros l. unfold is_list. destruct (list_eq_dec Z.eq_dec (0%Z :: l) []); [discriminate|ring].
    - destruct (Z.eq_dec x 0) as [->|Hx].
      + rewrite (expect_ext_all _ _ (fun l => if is_list rest l then 1 else 0)) by (intros l; rewrite is_list_cons; reflexivity).
        destruct (crp_rest_law (Z.to_nat N - 1) 1 [1%Z] rest) as [_ L];
          [lia|repeat constructor; lia|reflexivity|].
        apply L. intros [[K' G] HL]. apply Hnot. split; [simpl; lia|]. exists K'. right. split; [reflexivity|exact G].
      + rewrite (expect_ext_all _ _ (fun _ => 0 * 1)); [rewrite expect_scal; ring|].
        intros l. rewrite is_list_cons. destruct (Z.eqb_spec 0 x); [congruence|ring].
  Qed.
End Law.

Lemma surely_pmap {A B} (f : A -> B) p P : surely p (fun a => P (f a)) -> surely (pmap f p) P.
Proof.
  intros H. induction p as [a|w k IH]; simpl in *; [exact H|]. intros i Hi. apply IH. apply H. exact Hi.
Qed.
Lemma surely_mono {A} (p : prog A) (P Q : A -> Prop) : surely p P -> (forall a, P a -> Q a) -> surely p Q.
Proof.
  intros H HPQ. induction p as [a|w k IH]; simpl in *; [apply HPQ; exact H|]. intros i Hi. apply IH, H, Hi.
Qed.

Lemma crp_rest_surely alpha n : forall i Nk,
  surely (crp_rest_prog alpha n i Nk) (fun l => length l = n /\ exists K', grows (Z.of_nat (length Nk)) l K').
Proof.
  induction n as [|n IH]; intros i Nk.
  - simpl. split; [reflexivity|]. eexists; reflexivity.
  - cbn [crp_rest_prog surely]. intros a Hal. rewrite map_length, app_length in Hal.
    unfold cnt_weights in Hal. rewrite map_length in Hal. simpl in Hal.
    apply surely_pmap. eapply surely_mono; [apply IH|]. intros l [HL [K' G]]. split; [simpl; lia|].
    rewrite next_counts_len in G by lia. exists K'. simpl.
    destruct (Nat.eqb_spec a (length Nk)) as [E|E].
    + right. split; [lia|]. replace (Z.of_nat (length Nk) + 1)%Z with (Z.of_nat (S (length Nk))) by lia. exact G.
    + left. split; [lia|exact G].
Qed.

Lemma simulate_crp_surely N alpha : (0 < N)%Z ->
  surely (simulate_crp_prog N alpha) (fun l => Z.of_nat (length l) = N /\ exists K', grows 0 l K').
Proof.
  intros HN. unfold simulate_crp_prog. apply surely_pmap. eapply surely_mono; [apply crp_rest_surely|].
  intros l [HL [K' G]]. split; [simpl; lia|]. exists K'. right. split; [reflexivity|exact G].
Qed.
