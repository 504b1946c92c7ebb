(** Facts about the constraint checks and the CRP simulators. *)
From Verif Require Export CrpSim CrpFacts.
Local Open Scope R_scope.

(* ------------------------------------------------------------------ *)
(** validate_dependency_constraints. *)

Definition seen_is (counts : dict Z) (l : list Z) : Prop :=
  forall k, dget k counts = if zmem k l then Some 1%Z else None.

Lemma zmem_app k l1 l2 : zmem k (l1 ++ l2) = zmem k l1 || zmem k l2.
Proof. unfold zmem. apply existsb_app. Qed.

Definition block_ok (N : Z) (seen block : list Z) : Prop :=
  Forall (fun c => (c < N)%Z) block /\ NoDup block /\ (forall c, In c block -> ~ In c seen).

Lemma vd_block_spec N block : forall counts seen, seen_is counts seen ->
  (block_ok N seen block ->
     exists c', vd_block N block counts = Ok c' /\ seen_is c' (seen ++ block)) /\
  (~ block_ok N seen block -> vd_block N block counts = Err ValueError).
Proof.
  induction block as [|x block IH]; intros counts seen Hs.
  - split; intros H.
    + exists counts. split; [reflexivity|]. rewrite app_nil_r. exact Hs.
    + exfalso. apply H. repeat split; [constructor|constructor|intros c []].
  - cbn [vd_block].
    assert (Hg : forall c, dget x (if dmem x counts then counts else dset x 0%Z counts) = Some c ->
              c = if zmem x seen then 1%Z else 0%Z).
    { intros c. unfold dmem. pose proof (Hs x) as Hx. destruct (zmem x seen) eqn:E; rewrite Hx.
      - rewrite Hx. congruence.
      - rewrite dget_dset_same. congruence. }
    assert (Hg2 : exists c, dget x (if dmem x counts then counts else dset x 0%Z counts) = Some c).
    { unfold dmem. pose proof (Hs x) as Hx. destruct (zmem x seen) eqn:E; rewrite Hx.
      - exists 1%Z. exact Hx.
      - exists 0%Z. apply dget_dset_same. }
    destruct Hg2 as [c Hc]. rewrite Hc. pose proof (Hg c Hc) as Ec.
    destruct (Z.leb_spec N x) as [HN|HN].
    { split; intros H; [|reflexivity]. destruct H as [H _]. inversion H; subst. lia. }
    destruct (zmem x seen) eqn:Ex; subst c.
    { simpl. split; intros H; [|reflexivity]. destruct H as [_ [_ H]].
      exfalso. apply (H x); [left; reflexivity|]. apply zmem_in. exact Ex. }
    change (1 <? 0 + 1)%Z with false. cbv iota.
    assert (Hs' : seen_is (dset x (0 + 1)%Z (if dmem x counts then counts else dset x 0%Z counts))
                    (seen ++ [x])).
    { intros k. rewrite dget_dset, zmem_app. unfold zmem at 2. simpl.
      destruct (Z.eqb_spec k x) as [Ek|Hn].
      - subst k. rewrite orb_true_r. reflexivity.
      - rewrite !orb_false_r. rewrite <- Hs. destruct (dmem x counts); [reflexivity|].
        apply dget_dset_other. exact Hn. }
    destruct (IH _ _ Hs') as [I1 I2].
    assert (Heq : block_ok N seen (x :: block) <-> block_ok N (seen ++ [x]) block).
    { apply zmem_false in Ex. unfold block_ok. split.
      - intros [H1 [H2 H3]]. inversion H1; subst. inversion H2; subst. repeat split; auto.
        intros c Hin Hc'. apply in_app_iff in Hc'. destruct Hc' as [Hc'|[->|[]]]; [|contradiction].
        apply (H3 c); [right; exact Hin|exact Hc'].
      - intros [H1 [H2 H3]]. repeat split.
        + constructor; assumption.
        + constructor; [|assumption]. intros Hin. apply (H3 x Hin). apply in_app_iff. right. left. reflexivity.
        + intros c [->|Hin] Hc'; [contradiction|]. apply (H3 c Hin). apply in_app_iff. left. exact Hc'. }
    split; intros H.
    + destruct I1 as [c' [E1 E2]]; [apply Heq; exact H|]. exists c'. split; [exact E1|].
      rewrite <- app_assoc in E2. exact E2.
    + apply I2. intros Hb. apply H. apply Heq. exact Hb.
Qed.

Definition inside (block : list Z) (p : Z * Z) : Prop := In (fst p) block /\ In (snd p) block.

Lemma pair_inside_spec block p : pair_inside block p = true <-> inside block p.
Proof. unfold pair_inside, inside. rewrite andb_true_iff, !zmem_in. reflexivity. Qed.

Definition blocks_ok (N : Z) (seen : list Z) (Cd : list (list Z)) (Ci : list (Z * Z)) : Prop :=
  Forall (fun b => length b <> 1%nat) Cd /\
  Forall (fun c => (c < N)%Z) (concat Cd) /\
  NoDup (concat Cd) /\ (forall c, In c (concat Cd) -> ~ In c seen) /\
  (forall b p, In b Cd -> In p Ci -> ~ inside b p).

Lemma existsb_inside block Ci : existsb (pair_inside block) Ci = false <->
  forall p, In p Ci -> ~ inside block p.
Proof.
  split.
  - intros H p Hp Hi. apply pair_inside_spec in Hi.
    assert (existsb (pair_inside block) Ci = true) by (apply existsb_exists; eauto). congruence.
  - intros H. destruct (existsb (pair_inside block) Ci) eqn:E; [|reflexivity].
    apply existsb_exists in E. destruct E as [p [Hp Hi]]. exfalso.
    apply (H p Hp). apply pair_inside_spec. exact Hi.
Qed.

Lemma block_ok_dec N seen block : block_ok N seen block \/ ~ block_ok N seen block.
Proof.
  unfold block_ok.
  destruct (Forall_dec (fun c => (c < N)%Z) (fun c => Z_lt_dec c N) block) as [H1|H1]; [|right; tauto].
  destruct (ListDec.NoDup_dec Z.eq_dec block) as [H2|H2]; [|right; tauto].
  destruct (existsb (fun c => zmem c seen) block) eqn:E.
  - right. intros [_ [_ H3]]. apply existsb_exists in E. destruct E as [c [Hc Hm]].
    apply (H3 c Hc). apply zmem_in. exact Hm.
  - left. repeat split; auto. intros c Hc Hs.
    assert (existsb (fun c => zmem c seen) block = true)
      by (apply existsb_exists; exists c; split; [exact Hc|apply zmem_in; exact Hs]). congruence.
Qed.

Lemma vd_blocks_spec N Ci Cd : forall counts seen, seen_is counts seen ->
  (blocks_ok N seen Cd Ci -> vd_blocks N Cd Ci counts = Ok tt) /\
  (~ blocks_ok N seen Cd Ci -> vd_blocks N Cd Ci counts = Err ValueError).
Proof.
  induction Cd as [|b Cd IH]; intros counts seen Hs.
  - split; intros H; [reflexivity|]. exfalso. apply H. split; [constructor|split; [constructor|split; [constructor|split; [intros ? []|intros ? ? []]]]].
  - cbn [vd_blocks]. destruct (Nat.eqb_spec (length b) 1) as [E1|E1].
    { split; intros H; [|reflexivity]. destruct H as [H _]. inversion H; subst. contradiction. }
    destruct (vd_block_spec N b counts seen Hs) as [V1 V2].
    destruct (block_ok_dec N seen b) as [Hb|Hb].
    2:{ rewrite (V2 Hb). cbn [rbind]. split; intros H; [|reflexivity]. exfalso. apply Hb.
        destruct H as [_ [H1 [H2 [H3 _]]]]. simpl in *.
        apply Forall_app in H1. apply NoDup_app_elim in H2.
        repeat split; try tauto. intros c Hc. apply H3. apply in_app_iff. left; exact Hc. }
    destruct (V1 Hb) as [c' [Ec Hs']]. rewrite Ec. cbn [rbind].
    destruct (existsb (pair_inside b) Ci) eqn:Ei.
    { split; intros H; [|reflexivity]. destruct H as [_ [_ [_ [_ H]]]].
      apply existsb_exists in Ei. destruct Ei as [p [Hp Hi]]. apply pair_inside_spec in Hi.
      exfalso. apply (H b p); [left; reflexivity|exact Hp|exact Hi]. }
    assert (Ei' := proj1 (existsb_inside b Ci) Ei).
    destruct (IH c' _ Hs') as [I1 I2].
    assert (Heq : blocks_ok N seen (b :: Cd) Ci <-> blocks_ok N (seen ++ b) Cd Ci).
    { destruct Hb as [B1 [B2 B3]]. unfold blocks_ok. simpl. split.
      - intros [H0 [H1 [H2 [H3 H4]]]]. inversion H0; subst. apply Forall_app in H1.
        apply NoDup_app_elim in H2. destruct H2 as [_ [H2 H2']]. repeat split; try tauto.
        + intros c Hc Hc'. apply in_app_iff in Hc'. destruct Hc' as [Hc'|Hc'].
          * apply (H3 c); [apply in_app_iff; right; exact Hc|exact Hc'].
          * eapply H2'; eauto.
        + intros b' p Hb' Hp. apply (H4 b' p); auto.
      - intros [H0 [H1 [H2 [H3 H4]]]]. repeat split.
        + constructor; assumption.
        + apply Forall_app. tauto.
        + apply NoDup_app_intro; auto. intros c Hc Hc'. apply (H3 c Hc'). apply in_app_iff. right; exact Hc.
        + intros c Hc Hc'. apply in_app_iff in Hc. destruct Hc as [Hc|Hc]; [apply (B3 c Hc Hc')|].
          apply (H3 c Hc). apply in_app_iff. left; exact Hc'.
        + intros b' p [<-|Hb'] Hp; [apply Ei'; exact Hp|apply (H4 b' p Hb' Hp)]. }
    split; intros H; [apply I1; tauto|apply I2; tauto].
Qed.

Definition pairs_ok (N : Z) (Ci : list (Z * Z)) : Prop :=
  Forall (fun p => (fst p < N)%Z /\ (snd p < N)%Z /\ fst p <> snd p) Ci.

Lemma vd_pairs_spec N Ci : (pairs_ok N Ci -> vd_pairs N Ci = Ok tt) /\
  (~ pairs_ok N Ci -> vd_pairs N Ci = Err ValueError).
Proof.
  induction Ci as [|[a b] Ci [I1 I2]].
  - split; intros H; [reflexivity|]. exfalso. apply H. constructor.
  - cbn [vd_pairs].
    destruct (Z.leb_spec N a), (Z.leb_spec N b), (Z.eqb_spec a b); cbn [orb];
      (split; intros HP; [try (inversion HP; subst; simpl in *; lia)|try reflexivity]).
    + inversion HP; subst. apply I1. assumption.
    + apply I2. intros Hp. apply HP. constructor; [simpl; lia|exact Hp].
Qed.

Lemma blocks_ok_dec N seen Cd Ci : blocks_ok N seen Cd Ci \/ ~ blocks_ok N seen Cd Ci.
Proof. apply Classical_Prop.classic. Qed.

Definition vbound (N : option Z) : Z := match N with Some n => n | None => 10000000000%Z end.

Lemma validate_spec N Cd Ci :
  (validate_dependency_constraints N Cd Ci = Ok tt <->
     blocks_ok (vbound N) [] Cd Ci /\ pairs_ok (vbound N) Ci) /\
  (validate_dependency_constraints N Cd Ci = Ok tt \/
   validate_dependency_constraints N Cd Ci = Err ValueError).
Proof.
  unfold validate_dependency_constraints. fold (vbound N).
  assert (Hs : seen_is [] []) by (intros k; reflexivity).
  destruct (vd_blocks_spec (vbound N) Ci Cd [] [] Hs) as [B1 B2].
  destruct (vd_pairs_spec (vbound N) Ci) as [P1 P2].
  destruct (vd_blocks (vbound N) Cd Ci []) as [[]|e] eqn:E; cbn [rbind].
  - assert (Hb : blocks_ok (vbound N) [] Cd Ci).
    { destruct (blocks_ok_dec (vbound N) [] Cd Ci) as [H|H]; [exact H|]. specialize (B2 H). discriminate. }
    destruct (vd_pairs (vbound N) Ci) as [[]|e] eqn:F.
    + split; [|left; reflexivity]. split; [intros _|reflexivity]. split; [exact Hb|].
      destruct (Classical_Prop.classic (pairs_ok (vbound N) Ci)) as [H|H]; [exact H|].
      specialize (P2 H). discriminate.
    + assert (Hn : ~ pairs_ok (vbound N) Ci) by (intros H; specialize (P1 H); discriminate).
      split; [|right; rewrite <- (P2 Hn); reflexivity].
      split; [discriminate|]. tauto.
  - assert (Hb : ~ blocks_ok (vbound N) [] Cd Ci) by (intros H; specialize (B1 H); discriminate).
    split; [split; [discriminate|tauto]|]. right. rewrite <- (B2 Hb). reflexivity.
Qed.

(* ------------------------------------------------------------------ *)
(** simulate_crp. *)

Fixpoint grows (K : Z) (l : list Z) (K' : Z) : Prop :=
  match l with
  | [] => K = K'
  | x :: l' => (0 <= x < K)%Z /\ grows K l' K' \/ x = K /\ grows (K + 1)%Z l' K'
  end.

Lemma length_incr_nth k l : length (incr_nth k l) = length l.
Proof. revert k; induction l; intros [|k]; simpl; auto. Qed.
Lemma zsum_incr_nth k l : (k < length l)%nat -> zsum (incr_nth k l) = (zsum l + 1)%Z.
Proof.
  revert k; induction l as [|c l IH]; intros k Hk; [simpl in Hk; lia|].
  destruct k; unfold zsum in *; simpl in *; [lia|]. rewrite IH by lia. lia.
Qed.
Lemma pos_incr_nth k l : Forall (fun c => (0 < c)%Z) l -> Forall (fun c => (0 < c)%Z) (incr_nth k l).
Proof.
  revert k; induction l as [|c l IH]; intros k H; [destruct k; constructor|].
  inversion H; subst. destruct k; simpl; constructor; auto; lia.
Qed.

Lemma Rsum_app l1 l2 : Rsum (l1 ++ l2) = Rsum l1 + Rsum l2.
Proof. unfold Rsum. induction l1; simpl; lra. Qed.
Lemma Rsum_nonneg l : Forall (fun x => 0 <= x) l -> 0 <= Rsum l.
Proof. induction 1; simpl; [lra|]. fold (Rsum l). lra. Qed.

Lemma nonneg_cnt Nk : Forall (fun c => (0 < c)%Z) Nk -> Forall (fun x => 0 <= x) (cnt_weights Nk).
Proof.
  intros H. unfold cnt_weights. apply Forall_forall. intros x Hx. apply in_map_iff in Hx.
  destruct Hx as [c [<- Hc]]. rewrite Forall_forall in H. specialize (H c Hc). apply IZR_le. lia.
Qed.

Lemma nth_error_seq n i a : nth_error (seq 0 n) i = Some a -> a = i /\ (i < n)%nat.
Proof.
  intros H. assert (Hl : (i < n)%nat).
  { rewrite <- (seq_length n 0). apply nth_error_Some. rewrite H. discriminate. }
  split; [|exact Hl].
  apply (nth_error_nth _ _ 0%nat) in H. rewrite seq_nth in H by exact Hl. lia.
Qed.

Lemma crp_step_weights alpha i Nk : 0 < alpha -> (1 <= i)%nat -> Forall (fun c => (0 < c)%Z) Nk ->
  let w := map (fun w => w / (INR i - 1 + alpha)) (cnt_weights Nk ++ [alpha]) in
  weights (map Fin w) w /\ length w = S (length Nk).
Proof.
  intros Ha Hi HN w.
  assert (HD : 0 < INR i - 1 + alpha) by (apply le_INR in Hi; simpl in Hi; lra).
  assert (Hw0 : Forall (fun x => 0 <= x) (cnt_weights Nk ++ [alpha])).
  { apply Forall_app. split; [apply nonneg_cnt; exact HN|]. constructor; [lra|constructor]. }
  split.
  - split; [reflexivity|]. split.
    + unfold w. apply Forall_forall. intros x Hx. apply in_map_iff in Hx. destruct Hx as [y [<- Hy]].
      rewrite Forall_forall in Hw0. specialize (Hw0 y Hy). apply Rmult_le_pos; [exact Hw0|].
      left. apply Rinv_0_lt_compat. exact HD.
    + unfold w. rewrite (Rsum_map_div (fun x => x)), map_id, Rsum_app. apply Rdiv_lt_0_compat; [|exact HD].
      pose proof (Rsum_nonneg _ (nonneg_cnt Nk HN)). simpl. lra.
  - unfold w. rewrite map_length, app_length. unfold cnt_weights. rewrite map_length. simpl. lia.
Qed.

Lemma simulate_crp_loop_spec draws alpha : (forall i, draw_ok (draws i)) -> 0 < alpha ->
  forall n i Nk, (1 <= i)%nat -> Forall (fun c => (0 < c)%Z) Nk ->
  exists rest Nk', simulate_crp_loop draws alpha n i Nk = Ok (rest, Nk') /\
    length rest = n /\ grows (Z.of_nat (length Nk)) rest (Z.of_nat (length Nk')) /\
    zsum Nk' = (zsum Nk + Z.of_nat n)%Z.
Proof.
  intros Hd Ha. induction n as [|n IH]; intros i Nk Hi HN.
  - exists [], Nk. simpl. repeat split; lia.
  - cbn [simulate_crp_loop]. set (w := map (fun w => w / _) _).
    destruct (crp_step_weights alpha i Nk Ha Hi HN) as [Hw HL]. fold w in Hw, HL.
    destruct (pflip_spec (draws i) (map Fin w) w (seq 0 (length w)) (Hd i) Hw (seq_length _ _))
      as [k [a [x [Ef [Ea [_ _]]]]]].
    rewrite Ef. cbn [rbind]. apply nth_error_seq in Ea. destruct Ea as [-> Hk]. rewrite HL in Hk.
    destruct (Nat.eqb_spec k (length Nk)) as [Ek|Ek].
    + cbn [rbind]. destruct (IH (S i) (Nk ++ [1%Z])) as [rest [Nk' [E [L [G S]]]]]; [lia| |].
      { apply Forall_app. split; [exact HN|]. constructor; [lia|constructor]. }
      rewrite E. cbn [rbind]. exists (Z.of_nat k :: rest), Nk'. repeat split; [simpl; lia| |].
      * rewrite app_length in G. simpl in G. simpl. right. split; [lia|].
        replace (Z.of_nat (length Nk) + 1)%Z with (Z.of_nat (length Nk + 1)) by lia. exact G.
      * rewrite S, zsum_app. unfold zsum at 2. simpl. lia.
    + destruct (Nat.ltb_spec k (length Nk)) as [Hlt|Hge]; [|lia]. cbn [rbind].
      destruct (IH (S i) (incr_nth k Nk)) as [rest [Nk' [E [L [G S]]]]]; [lia|apply pos_incr_nth; exact HN|].
      rewrite E. cbn [rbind]. exists (Z.of_nat k :: rest), Nk'. repeat split; [simpl; lia| |].
      * rewrite length_incr_nth in G. simpl. left. split; [lia|exact G].
      * rewrite S, zsum_incr_nth by exact Hlt. lia.
Qed.

Lemma grows_max l : forall K K' m, grows K l K' -> zmax_list ((K - 1)%Z :: l) = Some m -> (m + 1 = K')%Z.
Proof.
  induction l as [|x l IH]; intros K K' m G H.
  - simpl in *. injection H as <-. lia.
  - apply zmax_list_spec in H. destruct H as [Hin Hub].
    destruct G as [[Hx G]|[Hx G]].
    + destruct (zmax_list ((K - 1)%Z :: l)) as [m'|] eqn:E; [|apply zmax_list_None in E; discriminate].
      rewrite <- (IH K K' m' G E). apply zmax_list_spec in E. destruct E as [E1 E2].
      assert (m' <= m)%Z by (apply Hub; destruct E1 as [<-|E1]; [left; reflexivity|right; right; exact E1]).
      assert (m <= m')%Z.
      { destruct Hin as [<-|[<-|Hin]]; [apply E2; left; reflexivity| |apply E2; right; exact Hin].
        specialize (E2 (K - 1)%Z (or_introl eq_refl)). lia. }
      lia.
    + subst x. destruct (zmax_list ((K + 1 - 1)%Z :: l)) as [m'|] eqn:E; [|apply zmax_list_None in E; discriminate].
      rewrite <- (IH (K + 1)%Z K' m' G E). apply zmax_list_spec in E. destruct E as [E1 E2].
      assert (m' <= m)%Z.
      { apply Hub. destruct E1 as [<-|E1]; [right; left; lia|right; right; exact E1]. }
      assert (m <= m')%Z.
      { specialize (E2 (K + 1 - 1)%Z (or_introl eq_refl)) as E3.
        destruct Hin as [<-|[<-|Hin]]; [lia|lia|apply E2; right; exact Hin]. }
      lia.
Qed.

(** Each entry is non-negative and exceeds no predecessor bound by more than
    one. *)
Lemma grows_nth l : forall K K' i x, grows K l K' -> (0 < K)%Z -> nth_error l i = Some x ->
  (0 <= x)%Z /\ ((x <= K)%Z \/ exists j y, (j < i)%nat /\ nth_error l j = Some y /\ (x <= y + 1)%Z).
Proof.
  induction l as [|z l IH]; intros K K' i x G HK Hi; [destruct i; discriminate|].
  destruct i as [|i].
  - simpl in Hi. injection Hi as ->. destruct G as [[Hx _]|[-> _]]; split; try lia; left; lia.
  - simpl in Hi. destruct G as [[Hx G]|[-> G]].
    + destruct (IH K K' i x G HK Hi) as [H0 [H|[j [y [Hj [Ey Hy]]]]]]; split; auto.
      right. exists (S j), y. repeat split; auto. lia.
    + destruct (IH (K + 1)%Z K' i x G) as [H0 [H|[j [y [Hj [Ey Hy]]]]]]; auto; [lia| |]; split; auto.
      * right. exists 0%nat, K. repeat split; [lia|]. exact H.
      * right. exists (S j), y. repeat split; auto. lia.
Qed.

Lemma simulate_crp_spec draws N alpha : (forall i, draw_ok (draws i)) -> (0 < N)%Z -> 0 < alpha ->
  exists rest K', simulate_crp draws N alpha = Ok (0%Z :: rest) /\
    length rest = (Z.to_nat N - 1)%nat /\ grows 1 rest K'.
Proof.
  intros Hd HN Ha. unfold simulate_crp.
  rewrite (proj2 (Z.ltb_lt 0 N) HN), (proj2 (Rltb_true 0 alpha) Ha). cbn [andb].
  destruct (simulate_crp_loop_spec draws alpha Hd Ha (Z.to_nat N - 1) 1 [1%Z]) as [rest [Nk [E [L [G S]]]]];
    [lia|repeat constructor; lia|].
  rewrite E. cbn [rbind]. change (Z.of_nat (length [1%Z])) with 1%Z in G.
  destruct (zmax_list (0%Z :: rest)) as [m|] eqn:Em; [|apply zmax_list_None in Em; discriminate].
  pose proof (grows_max rest 1 _ m G Em) as HM.
  rewrite (proj2 (Z.eqb_eq (m + 1) (Z.of_nat (length Nk))) HM).
  assert (HL : Z.of_nat (length (0%Z :: rest)) = N) by (simpl length; rewrite L; lia).
  rewrite HL, Z.eqb_refl. cbn [andb].
  change (fold_right Z.add 0 Nk)%Z with (zsum Nk). rewrite S. unfold zsum. simpl fold_right.
  replace (1 + Z.of_nat (Z.to_nat N - 1))%Z with N by lia. rewrite Z.eqb_refl.
  exists rest, (Z.of_nat (length Nk)). auto.
Qed.
