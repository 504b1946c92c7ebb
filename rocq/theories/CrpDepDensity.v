(** The sampling distribution of the CRP with dependence blocks. *)
From Verif Require Export CrpDensity.
Local Open Scope Z_scope.

(** The customers of a block take the block's label, the others the remaining
    labels in order, general.py:316-330. *)
Definition expand (N : Z) (Cd : list (list Z)) (labels : list Z) : res (list Z) :=
  rbind (assign_blocks Cd labels 0 (repeat (-1) (Z.to_nat N))) (fun p =>
  fill_rest p (skipn (length Cd) labels)).
(** simulate_crp_constrained_dependent (general.py:293-332) as a random
    program, for accepted inputs; see [simulate_dependent_run]. *)
Definition simulate_dependent_prog (N : Z) (alpha : R) (Cd : list (list Z)) : prog (res (list Z)) :=
  pmap (expand N Cd) (simulate_crp_prog (N - total_len Cd + Z.of_nat (length Cd)) alpha).

(** A list as a dictionary from positions. *)
Definition of_list (l : list Z) : dict Z := combine (map Z.of_nat (seq 0 (length l))) l.

Lemma dget_combine_seq (l : list Z) : forall s i,
  dget i (combine (map Z.of_nat (seq s (length l))) l) =
  if (Z.of_nat s <=? i) && (i <? Z.of_nat (s + length l)) then Some (nth (Z.to_nat i - s) l (-1)) else None.
Proof.
  induction l as [|x l IH]; intros s i; simpl.
  - destruct (Z.leb_spec (Z.of_nat s) i); destruct (Z.ltb_spec i (Z.of_nat (s + 0))); simpl; auto; lia.
  - rewrite IH. destruct (Z.eqb_spec i (Z.of_nat s)) as [E|E].
    + subst i. rewrite Z.leb_refl. destruct (Z.ltb_spec (Z.of_nat s) (Z.of_nat (s + S (length l)))); [|lia].
      simpl. rewrite Nat2Z.id, Nat.sub_diag. reflexivity.
    + destruct (Z.leb_spec (Z.of_nat (S s)) i); destruct (Z.leb_spec (Z.of_nat s) i);
        destruct (Z.ltb_spec i (Z.of_nat (S s + length l))); destruct (Z.ltb_spec i (Z.of_nat (s + S (length l))));
        cbn [andb]; try lia; auto.
      destruct (Z.to_nat i - s)%nat as [|k] eqn:Ek; [lia|]. f_equal. f_equal. lia.
Qed.
Lemma dget_of_list l i : inr l i -> dget i (of_list l) = Some (zat l i).
Proof.
  intros H. unfold of_list. rewrite dget_combine_seq. unfold inr in H. simpl.
  rewrite (proj2 (Z.leb_le _ _)) by lia. rewrite (proj2 (Z.ltb_lt _ _)) by lia. simpl.
  unfold zat. rewrite Nat.sub_0_r. reflexivity.
Qed.
Lemma dkeys_of_list l : dkeys (of_list l) = map Z.of_nat (seq 0 (length l)).
Proof.
  unfold of_list, dkeys. generalize 0%nat. induction l as [|x l IH]; intros s; simpl; [reflexivity|].
  f_equal. apply IH.
Qed.
Lemma length_of_list l : length (of_list l) = length l.
Proof. unfold of_list. rewrite combine_length, map_length, seq_length. apply Nat.min_id. Qed.
Lemma NoDup_of_list l : NoDup (dkeys (of_list l)).
Proof.
  rewrite dkeys_of_list. generalize 0%nat. generalize (length l). induction n; intros s; [constructor|].
  simpl. constructor; [|apply IHn]. intros H. apply in_map_iff in H. destruct H as [k [E Hk]].
  apply in_seq in Hk. lia.
Qed.

Lemma fill_rest_inv p : forall u r, fill_rest p u = Ok r -> count_occ Z.eq_dec p (-1) = length u ->
  length r = length p /\ u = map snd (filter (fun x => fst x =? -1) (combine p r)).
Proof.
  induction p as [|a p IH]; intros u r H Hc.
  - simpl in *. injection H as <-. destruct u; [auto|discriminate].
  - cbn [fill_rest] in H. simpl in Hc. destruct (Z.eqb_spec a (-1)) as [E|E].
    + subst a. destruct u as [|x u]; [discriminate|]. destruct (Z.eq_dec (-1) (-1)); [|congruence].
      destruct (fill_rest p u) as [r'|] eqn:F; [|discriminate]. injection H as <-.
      destruct (IH u r' F) as [L U]; [simpl in Hc; lia|]. simpl. split; [lia|]. f_equal. exact U.
    + destruct (Z.eq_dec a (-1)); [congruence|].
      destruct (fill_rest p u) as [r'|] eqn:F; [|discriminate]. injection H as <-.
      destruct (IH u r' F Hc) as [L U]. simpl. rewrite (proj2 (Z.eqb_neq _ _) E). split; [lia|exact U].
Qed.

Lemma rest_by_index cc (p : list Z) : forall (r : list Z) s, length r = length p ->
  (forall k, (k < length p)%nat -> (nth k p (-1) = -1 <-> ~ In (Z.of_nat (s + k)) cc)) ->
  map snd (filter (fun x => fst x =? -1) (combine p r)) =
  dvals (filter (fun ct => negb (zmem (fst ct) cc)) (combine (map Z.of_nat (seq s (length r))) r)).
Proof.
  induction p as [|a p IH]; intros r s HL H; destruct r as [|x r]; try discriminate; [reflexivity|].
  simpl in HL. simpl length. cbn [seq map combine filter fst snd].
  assert (H0 : a = -1 <-> ~ In (Z.of_nat s) cc).
  { specialize (H 0%nat). simpl in H. rewrite Nat.add_0_r in H. apply H. lia. }
  assert (HI : map snd (filter (fun x => fst x =? -1) (combine p r)) =
    dvals (filter (fun ct => negb (zmem (fst ct) cc)) (combine (map Z.of_nat (seq (S s) (length r))) r))).
  { apply IH; [lia|]. intros k Hk. specialize (H (S k)). simpl in H. rewrite (H ltac:(simpl; lia)).
    replace (s + S k)%nat with (S s + k)%nat by lia. reflexivity. }
  destruct (Z.eqb_spec a (-1)) as [E|E]; destruct (zmem (Z.of_nat s) cc) eqn:F;
    cbn [negb map snd dvals]; try exact HI.
  - apply zmem_in in F. tauto.
  - unfold dvals. cbn [map snd]. f_equal. exact HI.
  - apply zmem_false in F. tauto.
Qed.

Lemma rest_inj cc (l : list Z) : forall (l' : list Z) s, length l = length l' ->
  dvals (filter (fun ct => negb (zmem (fst ct) cc)) (combine (map Z.of_nat (seq s (length l))) l)) =
  dvals (filter (fun ct => negb (zmem (fst ct) cc)) (combine (map Z.of_nat (seq s (length l'))) l')) ->
  forall k, (k < length l)%nat -> ~ In (Z.of_nat (s + k)) cc -> nth k l (-1) = nth k l' (-1).
Proof.
  induction l as [|x l IH]; intros l' s HL HE k Hk Hn; destruct l' as [|x' l']; try discriminate; [simpl in Hk; lia|].
  simpl in HE. destruct k as [|k].
  - rewrite Nat.add_0_r in Hn. apply zmem_false in Hn. rewrite Hn in HE. simpl in HE. injection HE as E _. exact E.
  - simpl. apply (IH l' (S s)); [simpl in HL; lia| |simpl in Hk; lia|].
    + destruct (zmem (Z.of_nat s) cc); simpl in HE; [exact HE|]. injection HE as _ E. exact E.
    + replace (S s + k)%nat with (s + S k)%nat by lia. exact Hn.
Qed.

Section DepLaw.
  Variables (N : Z) (Cd : list (list Z)).
  Hypothesis HN : 0 < N.
  Hypothesis Hv : validate_dependency_constraints (Some N) Cd [] = Ok tt.
  Hypothesis Hnn : Forall (fun c => 0 <= c) (concat Cd).
  Hypothesis Hne : Forall (fun b => b <> []) Cd.
  Let ne := N - total_len Cd + Z.of_nat (length Cd).

  Definition uniform_on (l : list Z) : Prop :=
    forall b i j, In b Cd -> In i b -> In j b -> zat l i = zat l j.

  Lemma in_block_range l b c : Z.of_nat (length l) = N -> In b Cd -> In c b -> inr l c.
  Proof.
    intros HL Hb Hc. pose proof (dep_range N Cd Hv Hnn) as Hr. rewrite Forall_forall in Hr.
    assert (In c (concat Cd)) by (apply in_concat; exists b; auto). specialize (Hr c H). unfold inr. lia.
  Qed.

  Lemma expand_spec labels : Z.of_nat (length labels) = ne -> Forall (fun x => 0 <= x) labels ->
    exists l, expand N Cd labels = Ok l /\ Z.of_nat (length l) = N /\ uniform_on l /\
      effective_tables (of_list l) Cd = labels.
  Proof.
    intros HL Hp. pose proof (dep_total N Cd HN Hv Hnn) as HT. pose proof (total_len_ge Cd Hne) as HT2.
    unfold expand. set (l0 := repeat (-1) (Z.to_nat N)).
    assert (L0 : length l0 = Z.to_nat N) by apply repeat_length.
    assert (Hir : forall b c, In b Cd -> In c b -> inr l0 c).
    { intros b c Hb Hc. apply (in_block_range l0 b c); auto. lia. }
    destruct (assign_blocks_ok labels Cd 0 l0 Hir) as [l1 [E1 [L1 [G1 B1]]]];
      [unfold ne in *; lia|apply (dep_nodup N); exact Hv|].
    rewrite E1. cbn [rbind].
    assert (Hin1 : forall c, In c (concat Cd) -> exists k b, nth_error Cd k = Some b /\ In c b).
    { intros c Hc. apply in_concat in Hc. destruct Hc as [b [Hb Hc]]. apply In_nth_error in Hb.
      destruct Hb as [k Hk]. exists k, b. auto. }
    assert (Hlab : forall k b, nth_error Cd k = Some b -> (k < length labels)%nat).
    { intros k b Hk. assert ((k < length Cd)%nat) by (apply nth_error_Some; rewrite Hk; discriminate).
      unfold ne in *; lia. }
    rewrite Forall_forall in Hp.
    assert (Hz : forall j, inr l1 j -> (zat l1 j = -1 <-> ~ In j (concat Cd))).
    { intros j Hj. assert (Hj0 : inr l0 j) by (unfold inr in *; rewrite L1 in Hj; exact Hj). split.
      - intros Hz Hc. destruct (Hin1 j Hc) as [k [b [Hk Hb]]]. rewrite (B1 k b j Hk Hb) in Hz. cbn [Nat.add] in Hz.
        assert (0 <= nth k labels (-1)) by (apply Hp, nth_In; eapply Hlab; eauto). lia.
      - intros Hc. rewrite (G1 j Hj0 Hc). unfold zat, l0. apply nth_repeat_m1. }
    assert (Hcnt : count_occ Z.eq_dec l1 (-1) = length (skipn (length Cd) labels)).
    { pose proof (count_unassigned l1 (concat Cd) (dep_nodup N Cd Hv)) as Hc.
      rewrite skipn_length. rewrite <- total_len_concat in Hc.
      assert (Z.of_nat (count_occ Z.eq_dec l1 (-1)) = Z.of_nat (length l1) - total_len Cd).
      { apply Hc; [|exact Hz]. intros c Hcc. apply in_concat in Hcc. destruct Hcc as [b [Hb Hcb]].
        unfold inr. rewrite L1. apply (Hir b c Hb Hcb). }
      unfold ne in *. lia. }
    destruct (fill_rest_ok l1 (skipn (length Cd) labels) Hcnt) as [r [E2 [L2 [G2 _]]]].
    destruct (fill_rest_inv l1 _ r E2 Hcnt) as [_ U].
    exists r. split; [exact E2|]. split; [lia|].
    assert (Hbr : forall k b c, nth_error Cd k = Some b -> In c b -> zat r c = nth k labels (-1)).
    { intros k b c Hk Hc. assert (Hkl := Hlab k b Hk).
      assert (Hc1 : inr l1 c) by (unfold inr; rewrite L1; apply (Hir b c (nth_error_In _ _ Hk) Hc)).
      rewrite G2.
      - apply (B1 k b c Hk Hc).
      - exact Hc1.
      - intros Hm. apply (Hz c Hc1) in Hm. apply Hm. apply in_concat. exists b.
        split; [eapply nth_error_In; eauto|exact Hc]. }
    split.
    { intros b i j Hb Hi Hj. apply In_nth_error in Hb. destruct Hb as [k Hk].
      rewrite (Hbr k b i Hk Hi), (Hbr k b j Hk Hj). reflexivity. }
    unfold effective_tables. etransitivity; [|apply (firstn_skipn (length Cd) labels)]. f_equal.
    - apply (nth_ext _ _ (-1) (-1)).
      { rewrite map_length, firstn_length. unfold ne in *. lia. }
      intros k Hk. rewrite map_length in Hk.
      destruct (nth_error Cd k) as [b|] eqn:Eb; [|apply nth_error_None in Eb; lia].
      set (g := fun b : list Z => match dget (hd 0 b) (of_list r) with Some t => t | None => 0 end).
      rewrite (nth_error_nth (map g Cd) k (-1) (map_nth_error g k Cd Eb)).
      assert (Hb : b <> []) by (rewrite Forall_forall in Hne; apply Hne; eapply nth_error_In; eauto).
      assert (Hh : In (hd 0 b) b) by (destruct b; [congruence|left; reflexivity]).
      unfold g. rewrite dget_of_list.
      + rewrite (Hbr k b _ Eb Hh). rewrite <- (firstn_skipn (length Cd) labels) at 1.
        rewrite app_nth1; [reflexivity|]. rewrite firstn_length. unfold ne in *. lia.
      + apply (in_block_range r b); auto; [lia|eapply nth_error_In; eauto].
    - rewrite U. symmetry. apply rest_by_index; [lia|]. intros k Hk.
      specialize (Hz (Z.of_nat k)). unfold zat in Hz. rewrite Nat2Z.id in Hz. apply Hz. unfold inr. lia.
  Qed.

  Lemma contract_inj l l' : Z.of_nat (length l) = N -> Z.of_nat (length l') = N ->
    uniform_on l -> uniform_on l' ->
    effective_tables (of_list l) Cd = effective_tables (of_list l') Cd -> l = l'.
  Proof.
    intros L L' U U' E. unfold effective_tables in E.
    apply app_inj_len in E; [|rewrite !map_length; reflexivity]. destruct E as [E1 E2].
    apply (nth_ext _ _ (-1) (-1)); [lia|]. intros k Hk.
    destruct (in_dec Z.eq_dec (Z.of_nat k) (concat Cd)) as [Hc|Hc].
    - apply in_concat in Hc. destruct Hc as [b [Hb Hc]].
      assert (Hh : In (hd 0 b) b) by (destruct b; [destruct Hc|left; reflexivity]).
      pose proof (U b _ _ Hb Hc Hh) as Q. pose proof (U' b _ _ Hb Hc Hh) as Q'.
      unfold zat in Q at 1, Q' at 1. rewrite Nat2Z.id in Q, Q'. rewrite Q, Q'.
      assert (Eb : (fun b => match dget (hd 0 b) (of_list l) with Some t => t | None => 0 end) b =
                   (fun b => match dget (hd 0 b) (of_list l') with Some t => t | None => 0 end) b).
      { clear -E1 Hb. induction Cd as [|c C IH]; [destruct Hb|]. simpl in E1. injection E1 as Ea Er.
        destruct Hb as [->|Hb]; [exact Ea|apply IH; assumption]. }
      cbv beta in Eb. rewrite !dget_of_list in Eb by (eapply in_block_range; eauto). exact Eb.
    - apply (rest_inj (concat Cd) l l' 0); auto; lia.
  Qed.

  (** The run of the program under a generator is the model. *)
  Lemma simulate_dependent_run draws alpha : (forall i, draw_ok (draws i)) -> (0 < alpha)%R ->
    simulate_crp_constrained_dependent draws N alpha Cd = run draws 1 (simulate_dependent_prog N alpha Cd).
  Proof.
    intros Hd Ha. unfold simulate_crp_constrained_dependent. rewrite Hv. cbn [rbind].
    rewrite (proj2 (Z.ltb_lt 0 N) HN), (proj2 (Rltb_true 0 alpha) Ha). cbn [andb].
    rewrite (num_effective_spec N Cd Hne (dep_total N Cd HN Hv Hnn)). cbn [rbind]. fold ne.
    rewrite (simulate_crp_run draws ne alpha Hd (dep_eff_pos N Cd HN Hv Hnn Hne) Ha). cbn [rbind].
    unfold simulate_dependent_prog. rewrite run_map. reflexivity.
  Qed.

  Definition is_ok_list (l : list Z) (r : res (list Z)) : bool :=
    match r with Ok l' => is_list l l' | Err _ => false end.

  Lemma is_list_true l l' : is_list l l' = true <-> l' = l.
  Proof. unfold is_list. destruct (list_eq_dec Z.eq_dec l' l); split; congruence. Qed.

  Lemma dependent_pr alpha l : Z.of_nat (length l) = N -> uniform_on l ->
    pr (simulate_dependent_prog N alpha Cd) (is_ok_list l) =
    pr (simulate_crp_prog ne alpha) (is_list (effective_tables (of_list l) Cd)).
  Proof.
    intros HL HU. unfold pr, simulate_dependent_prog. rewrite expect_map. fold ne.
    apply (expect_ext _ _ _ _ (simulate_crp_surely ne alpha (dep_eff_pos N Cd HN Hv Hnn Hne))).
    intros labels [HLl [K' G]].
    assert (Hp : Forall (fun x => 0 <= x) labels).
    { apply Forall_forall. intros x Hx. apply (grows_bound labels 0 K' x G); [lia|exact Hx]. }
    destruct (expand_spec labels HLl Hp) as [l2 [E2 [L2 [U2 C2]]]]. rewrite E2. simpl.
    destruct (is_list l l2) eqn:F1; destruct (is_list (effective_tables (of_list l) Cd) labels) eqn:F2; try reflexivity.
    - apply is_list_true in F1. subst l2. rewrite <- C2 in F2.
      rewrite (proj2 (is_list_true _ _) eq_refl) in F2. discriminate.
    - apply is_list_true in F2. assert (l2 = l).
      { apply contract_inj; auto. congruence. }
      subst l2. rewrite (proj2 (is_list_true l l) eq_refl) in F1. discriminate.
  Qed.

  Lemma dependent_pr_zero alpha l : ~ uniform_on l -> pr (simulate_dependent_prog N alpha Cd) (is_ok_list l) = 0%R.
  Proof.
    intros HU. unfold pr, simulate_dependent_prog. rewrite expect_map. fold ne.
    rewrite (expect_ext _ _ (fun _ => 0 * 1)%R _ (simulate_crp_surely ne alpha (dep_eff_pos N Cd HN Hv Hnn Hne))).
    { rewrite expect_scal. ring. }
    intros labels [HLl [K' G]].
    assert (Hp : Forall (fun x => 0 <= x) labels).
    { apply Forall_forall. intros x Hx. apply (grows_bound labels 0 K' x G); [lia|exact Hx]. }
    destruct (expand_spec labels HLl Hp) as [l2 [E2 [L2 [U2 C2]]]]. rewrite E2. simpl.
    destruct (is_list l l2) eqn:F1; [|lra]. apply is_list_true in F1. subst l2. contradiction.
  Qed.
End DepLaw.
