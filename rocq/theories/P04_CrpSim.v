(** Properties C10-C13: CRP simulators and constraint validation. *)
From Verif Require Import CrpDepDensity GammaWitness P01_Prim P02_LogSpace.
Local Open Scope Z_scope.

(* ================================================================== *)
(** * C13: what validate_dependency_constraints accepts *)

(** A pair lies inside a block. *)
Definition lies_inside (p : Z * Z) (block : list Z) : Prop := In (fst p) block /\ In (snd p) block.

(** The intended meaning of a well formed set of constraints over columns
    0, ..., N-1. *)
Definition well_formed (N : Z) (Cd : list (list Z)) (Ci : list (Z * Z)) : Prop :=
  (forall b, In b Cd -> (2 <= length b)%nat) /\
  (forall b c, In b Cd -> In c b -> 0 <= c < N) /\
  NoDup (concat Cd) /\
  (forall p, In p Ci -> 0 <= fst p < N /\ 0 <= snd p < N /\ fst p <> snd p) /\
  (forall p b, In p Ci -> In b Cd -> ~ lies_inside p b).

(** What is accepted: as [well_formed], except that empty blocks and negative
    column numbers go through. *)
Definition accepted (N : Z) (Cd : list (list Z)) (Ci : list (Z * Z)) : Prop :=
  (forall b, In b Cd -> length b <> 1%nat) /\
  (forall b c, In b Cd -> In c b -> c < N) /\
  NoDup (concat Cd) /\
  (forall p, In p Ci -> fst p < N /\ snd p < N /\ fst p <> snd p) /\
  (forall p b, In p Ci -> In b Cd -> ~ lies_inside p b).

Lemma accepted_iff N Cd Ci : accepted N Cd Ci <-> blocks_ok N [] Cd Ci /\ pairs_ok N Ci.
Proof.
  unfold accepted, blocks_ok, pairs_ok, inside, lies_inside. rewrite !Forall_forall. split.
  - intros [H1 [H2 [H3 [H4 H5]]]]. repeat split; auto.
    + intros c Hc. apply in_concat in Hc. destruct Hc as [b [Hb Hc]]. eapply H2; eauto.
    + apply H4; assumption.
    + apply (H4 x H).
    + apply (H4 x H).
  - intros [[H1 [H2 [H3 [_ H5]]]] H4]. repeat split; auto.
    + intros b c Hb Hc. apply H2. apply in_concat. exists b; auto.
    + apply H4; assumption.
    + apply (H4 p H).
    + apply (H4 p H).
Qed.

(** Exactly the [accepted] inputs pass, and all others raise ValueError. *)
Theorem C13_accepts_exactly : forall N Cd Ci,
  (validate_dependency_constraints (Some N) Cd Ci = Ok tt <-> accepted N Cd Ci) /\
  (~ accepted N Cd Ci -> validate_dependency_constraints (Some N) Cd Ci = Err ValueError) /\
  (validate_dependency_constraints None Cd Ci = validate_dependency_constraints (Some (10 ^ 10)) Cd Ci).
Proof.
  intros N Cd Ci. destruct (validate_spec (Some N) Cd Ci) as [H1 H2]. rewrite accepted_iff.
  split; [exact H1|]. split; [|reflexivity].
  intros Hn. destruct H2 as [H2|H2]; [|exact H2]. apply H1 in H2. contradiction.
Qed.
Print Assumptions C13_accepts_exactly.

(** The full claim, for blocks that are not empty and columns that are not
    negative (which the function does not check). *)
Theorem C13_validation_partial : forall N Cd Ci,
  (forall b, In b Cd -> b <> []) -> (forall b c, In b Cd -> In c b -> 0 <= c) ->
  (forall p, In p Ci -> 0 <= fst p /\ 0 <= snd p) ->
  (validate_dependency_constraints (Some N) Cd Ci = Ok tt <-> well_formed N Cd Ci) /\
  (~ well_formed N Cd Ci -> validate_dependency_constraints (Some N) Cd Ci = Err ValueError).
Proof.
  intros N Cd Ci H1 H2 H3.
  assert (E : accepted N Cd Ci <-> well_formed N Cd Ci).
  { unfold accepted, well_formed. split; intros [A1 [A2 [A3 [A4 A5]]]]; repeat split; auto.
    - intros b Hb. specialize (A1 b Hb). specialize (H1 b Hb). destruct b as [|x [|y b]]; simpl in *; try lia; congruence.
    - eapply H2; eauto.
    - eapply A2; eauto.
    - apply H3; assumption.
    - apply A4; assumption.
    - apply (H3 p H).
    - apply (A4 p H).
    - apply (A4 p H).
    - intros b Hb. specialize (A1 b Hb). lia.
    - intros b c Hb Hc. apply (A2 b c Hb Hc).
    - apply (A4 p H).
    - apply (A4 p H).
    - apply (A4 p H). }
  destruct (C13_accepts_exactly N Cd Ci) as [C1 [C2 _]]. rewrite <- E. auto.
Qed.
Print Assumptions C13_validation_partial.

(** Every well formed input is accepted, with no side condition. *)
Theorem C13_well_formed_accepted : forall N Cd Ci, well_formed N Cd Ci ->
  validate_dependency_constraints (Some N) Cd Ci = Ok tt.
Proof.
  intros N Cd Ci H. apply (proj1 (C13_accepts_exactly N Cd Ci)).
  destruct H as [A1 [A2 [A3 [A4 A5]]]]. repeat split; auto.
  - intros b Hb. specialize (A1 b Hb). lia.
  - intros b c Hb Hc. apply (A2 b c Hb Hc).
  - apply (A4 p H).
  - apply (A4 p H).
  - apply (A4 p H).
Qed.
Print Assumptions C13_well_formed_accepted.

(** Without the side conditions the claim fails: an empty block and a negative
    column are accepted. *)
Theorem C13_validation_refuted :
  (exists N Cd Ci, validate_dependency_constraints (Some N) Cd Ci = Ok tt /\
     (exists b, In b Cd /\ (length b < 2)%nat)) /\
  (exists N Cd Ci, validate_dependency_constraints (Some N) Cd Ci = Ok tt /\
     (exists b c, In b Cd /\ In c b /\ ~ (0 <= c < N))).
Proof.
  split.
  - exists 3, [[]; [0; 1]], [(0, 2)]. split; [reflexivity|]. exists []. simpl. auto.
  - exists 3, [[-1; 0]], []. split; [reflexivity|]. exists [-1; 0], (-1). simpl. repeat split; auto. lia.
Qed.
Print Assumptions C13_validation_refuted.

Example C13_ex : well_formed 6 [[0; 2]; [1; 4; 5]] [(0, 1); (3, 2)] /\
  ~ accepted 6 [[0; 2]; [2; 4]] [] /\ ~ accepted 6 [[0; 2]] [(2, 0)] /\ ~ accepted 6 [[0; 6]] [].
Proof.
  split; [|split; [|split]].
  - split; [intros b [<-|[<-|[]]]; simpl; lia|]. split.
    { intros b c [<-|[<-|[]]]; simpl; intuition lia. } split.
    { simpl. repeat (constructor; [simpl; intuition lia|]). constructor. } split.
    { intros p [<-|[<-|[]]]; simpl; lia. }
    intros p b Hp Hb. unfold lies_inside.
    destruct Hp as [<-|[<-|[]]], Hb as [<-|[<-|[]]]; simpl; intuition lia.
  - intros [_ [_ [H _]]]. simpl in H. inversion H; subst. inversion H3; subst. apply H4. left; reflexivity.
  - intros [_ [_ [_ [_ H]]]]. apply (H (2, 0) [0; 2]); simpl; auto. unfold lies_inside. simpl. auto.
  - intros [_ [H _]]. specialize (H [0; 6] 6). simpl in H. intuition lia.
Qed.

(* ================================================================== *)
(** * C10: simulate_crp *)

(** Tables are numbered from 0 in order of appearance: every entry is 0 or at
    most one more than an earlier entry. *)
Definition restricted_growth (p : list Z) : Prop :=
  forall i x, nth_error p i = Some x ->
    0 <= x /\ (x = 0 \/ exists j y, (j < i)%nat /\ nth_error p j = Some y /\ x <= y + 1).

Lemma rg_grows l : forall K, 0 <= K ->
  (forall i x, nth_error l i = Some x ->
    0 <= x /\ (x <= K \/ exists j y, (j < i)%nat /\ nth_error l j = Some y /\ x <= y + 1)) ->
  exists K', grows K l K'.
Proof.
  induction l as [|x l IH]; intros K HK H; [exists K; reflexivity|].
  destruct (H 0%nat x eq_refl) as [H0 H1].
  assert (Hx : x <= K) by (destruct H1 as [H1|[j [y [Hj _]]]]; [exact H1|lia]).
  destruct (Z.eq_dec x K) as [->|Hn].
  - destruct (IH (K + 1)) as [K' G]; [lia| |exists K'; right; auto].
    intros i z Hi. destruct (H (S i) z Hi) as [Hz Hz']. split; [exact Hz|].
    destruct Hz' as [Hz'|[[|j] [y [Hj [Ey Hy]]]]].
    + left; lia.
    + simpl in Ey. injection Ey as <-. left. lia.
    + right. exists j, y. repeat split; auto. lia.
  - destruct (IH K HK) as [K' G]; [|exists K'; left; split; [lia|exact G]].
    intros i z Hi. destruct (H (S i) z Hi) as [Hz Hz']. split; [exact Hz|].
    destruct Hz' as [Hz'|[[|j] [y [Hj [Ey Hy]]]]].
    + left; lia.
    + simpl in Ey. injection Ey as <-. left. lia.
    + right. exists j, y. repeat split; auto. lia.
Qed.

Lemma rg_iff p : restricted_growth p <-> exists K', grows 0 p K'.
Proof.
  split.
  - intros H. apply rg_grows; [lia|]. intros i x Hi. destruct (H i x Hi) as [H0 [->|H1]]; split; auto; left; lia.
  - intros [K' G] i x Hi. destruct p as [|z p]; [destruct i; discriminate|].
    assert (Hz : z = 0) by (destruct G as [[G _]|[G _]]; lia). subst z.
    destruct G as [[G _]|[_ G]]; [lia|].
    destruct i as [|i]; simpl in Hi.
    + injection Hi as <-. split; [lia|left; reflexivity].
    + destruct (grows_nth p 1 K' i x G) as [H0 [H1|[j [y [Hj [Ey Hy]]]]]]; auto; [lia| |]; split; auto.
      * right. exists 0%nat, 0. repeat split; [lia|lia].
      * right. exists (S j), y. repeat split; auto. lia.
Qed.

(** Whatever the generator does, the simulator returns N tables in order of
    appearance; in particular none of its assertions fires. *)
Theorem C10_simulate_crp : forall draws N alpha, (forall i, draw_ok (draws i)) -> 0 < N -> (0 < alpha)%R ->
  exists p, simulate_crp draws N alpha = Ok p /\ Z.of_nat (length p) = N /\
    nth_error p 0 = Some 0 /\ restricted_growth p.
Proof.
  intros draws N alpha Hd HN Ha.
  destruct (simulate_crp_spec draws N alpha Hd HN Ha) as [rest [K' [E [L G]]]].
  exists (0 :: rest). split; [exact E|]. split; [simpl; lia|]. split; [reflexivity|].
  apply rg_iff. exists K'. right. auto.
Qed.
Print Assumptions C10_simulate_crp.

(** The arguments are checked. *)
Theorem C10_bad_arguments : forall draws N alpha, N <= 0 \/ (alpha <= 0)%R ->
  simulate_crp draws N alpha = Err AssertionError.
Proof.
  intros draws N alpha H. unfold simulate_crp. destruct H as [H|H].
  - rewrite (proj2 (Z.ltb_ge 0 N) H). reflexivity.
  - rewrite (proj2 (Rltb_false 0 alpha)) by lra. rewrite andb_false_r. reflexivity.
Qed.
Print Assumptions C10_bad_arguments.

(** The sampling distribution: the simulator is the random program
    [simulate_crp_prog] run under the generator, and that program returns each
    partition in order of appearance with exactly the probability logp_crp
    states, and nothing else. *)
Theorem C10_distribution : forall lgam N alpha, gamma_rec lgam -> lgam 1%R = 0%R -> 0 < N -> (0 < alpha)%R ->
  (forall draws, (forall i, draw_ok (draws i)) ->
     simulate_crp draws N alpha = Ok (run draws 1 (simulate_crp_prog N alpha))) /\
  (forall p counts, Z.of_nat (length p) = N -> restricted_growth p -> counts_of counts p ->
     exists l, logp_crp lgam N (dvals counts) alpha = Ok (Fin l) /\
       pr (simulate_crp_prog N alpha) (is_list p) = exp l) /\
  (forall p, ~ (Z.of_nat (length p) = N /\ restricted_growth p) ->
     pr (simulate_crp_prog N alpha) (is_list p) = 0%R).
Proof.
  intros lgam N alpha Hg H1 HN Ha. split; [|split].
  - intros draws Hd. apply simulate_crp_run; assumption.
  - intros p counts HL Hr Hc. apply simulate_crp_law; auto. apply rg_iff. exact Hr.
  - intros p Hn. apply (simulate_crp_law_zero lgam alpha Hg H1 Ha); auto.
    intros [HL HG]. apply Hn. split; [exact HL|]. apply rg_iff. exact HG.
Qed.
Print Assumptions C10_distribution.

(** Two customers share with probability 1/(1+alpha): a concrete instance. *)
Example C10_ex : restricted_growth [0; 1; 0; 2] /\ ~ restricted_growth [0; 2] /\
  counts_of [(0, 2); (1, 1); (2, 1)] [0; 1; 0; 2] /\
  gamma_rec lgam_w /\ lgam_w 1%R = 0%R /\
  (pr (simulate_crp_prog 2 3) (is_list [0%Z; 0%Z]) = / 4)%R.
Proof.
  split; [|split; [|split; [|split; [apply lgam_w_rec|split; [apply lgam_w_1|]]]]].
  - apply rg_iff. exists 3. simpl. right. split; [lia|]. right. split; [lia|]. left. split; [lia|].
    right. split; lia.
  - intros H. destruct (H 1%nat 2 eq_refl) as [_ [H1|[j [y [Hj [Ey Hy]]]]]]; [lia|].
    assert (j = 0%nat) by lia. subst j. simpl in Ey. injection Ey as <-. lia.
  - split; [simpl; repeat (constructor; [simpl; intuition lia|]); constructor|].
    intros t. rewrite !occ_cons. change (occ t []) with 0. cbn [dget].
    destruct (Z.eqb_spec t 0), (Z.eqb_spec t 1), (Z.eqb_spec t 2); try lia; reflexivity.
  - unfold pr, simulate_crp_prog. rewrite expect_map. simpl. unfold Rsum. simpl.
    unfold is_list. simpl. field.
Qed.

(* ================================================================== *)
(** * C11: simulate_crp_constrained *)

(** Entry of a list at a non-negative integer position. *)
Definition entry (l : list Z) (i t : Z) : Prop := 0 <= i /\ nth_error l (Z.to_nat i) = Some t.

Lemma entry_zat l i : inr l i -> entry l i (zat l i).
Proof.
  intros H. unfold inr in H. split; [lia|]. unfold zat. apply nth_error_nth'. lia.
Qed.
Lemma entry_inv l i t : entry l i t -> inr l i /\ zat l i = t.
Proof.
  intros [H0 H]. assert ((Z.to_nat i < length l)%nat) by (apply nth_error_Some; rewrite H; discriminate).
  split; [unfold inr; lia|]. unfold zat. apply nth_error_nth. exact H.
Qed.

(** The row constraints of two columns agree: each column's row blocks are
    acceptable together with the other's row pairs (and its own). *)
Definition rows_of {A} (k : Z) (d : dict (list A)) : list A :=
  match dget k d with Some l => l | None => [] end.
Definition rows_agree (Rd : dict (list (list Z))) (Ri : dict (list (Z * Z))) (i j : Z) : Prop :=
  forall c d, (c = i \/ c = j) -> (d = i \/ d = j) ->
    accepted (10 ^ 10) (rows_of c Rd) (rows_of d Ri).

Theorem C11_constrained : forall draws N alpha Cd Ci Rd Ri, (forall i, draw_ok (draws i)) ->
  0 < N -> (0 < alpha)%R ->
  (* the input checks pass, and no column number is negative *)
  validate_crp_constrained_input N Cd Ci Rd Ri = Ok tt ->
  (forall b c, In b Cd -> In c b -> 0 <= c) ->
  (forall p, In p Ci -> 0 <= fst p /\ 0 <= snd p) ->
  exists l, simulate_crp_constrained draws N alpha Cd Ci Rd Ri = Ok l /\
    Z.of_nat (length l) = N /\
    (forall t, In t l -> 0 <= t < N) /\
    (forall b i j, In b Cd -> In i b -> In j b -> exists t, entry l i t /\ entry l j t) /\
    (forall a b, In (a, b) Ci -> exists ta tb, entry l a ta /\ entry l b tb /\ ta <> tb) /\
    (forall i j t, i <> j -> entry l i t -> entry l j t ->
       (In i (dkeys Rd) \/ In i (dkeys Ri)) -> (In j (dkeys Rd) \/ In j (dkeys Ri)) ->
       rows_agree Rd Ri i j).
Proof.
  intros draws N alpha Cd Ci Rd Ri Hd HN Ha Hin Hnn HnnI.
  assert (Hnn' : Forall (fun c => 0 <= c) (concat Cd)).
  { apply Forall_forall. intros c Hc. apply in_concat in Hc. destruct Hc as [b [Hb Hc]]. eapply Hnn; eauto. }
  assert (HnnI' : Forall (fun p => 0 <= fst p /\ 0 <= snd p) Ci) by (apply Forall_forall; exact HnnI).
  destruct (simulate_constrained_ok N alpha Cd Ci Rd Ri HN Ha Hin Hnn' HnnI' draws Hd)
    as [l [E [HL [Hr [Hb Hc]]]]].
  exists l. split; [exact E|]. split; [exact HL|]. split.
  { intros t Ht. destruct (in_zat l t Ht) as [i [Hi <-]]. apply Hr; exact Hi. }
  split.
  { intros b i j B Hi Hj. exists (zat l i).
    split; [apply entry_zat; eapply (block_range N Cd Ci Rd Ri Hin Hnn'); eauto|].
    rewrite (Hb b i j B Hi Hj). apply entry_zat. eapply (block_range N Cd Ci Rd Ri Hin Hnn'); eauto. }
  assert (Hdiff : forall a b, In (a, b) Ci -> inr l a /\ inr l b /\ a <> b).
  { intros a b Hab. destruct (input_ok _ _ _ _ _ Hin) as [_ [HP _]]. unfold pairs_ok in HP.
    rewrite Forall_forall in HP. specialize (HP _ Hab). specialize (HnnI _ Hab). simpl in *. unfold inr. lia. }
  split.
  { intros a b Hab. destruct (Hdiff a b Hab) as [Ia [Ib Hne]].
    exists (zat l a), (zat l b). split; [apply entry_zat; exact Ia|]. split; [apply entry_zat; exact Ib|].
    intros He. pose proof (Hc a b Ia Ib Hne He) as Hx. unfold compat in Hx.
    rewrite (compat_pair Ci Ri Rd a b Hab) in Hx. discriminate. }
  intros i j t Hij Hi Hj Ki Kj. apply entry_inv in Hi, Hj. destruct Hi as [Ii Ei], Hj as [Ij Ej].
  assert (Hx : compat Ci Rd Ri i j) by (apply Hc; auto; congruence).
  unfold compat, check_compatible_customers in Hx.
  destruct (pmem i j Ci || pmem j i Ci); [discriminate|].
  assert (Mi : dmem i Rd || dmem i Ri = true)
    by (destruct Ki as [K|K]; apply dmem_in in K; rewrite K; [reflexivity|apply orb_true_r]).
  assert (Mj : dmem j Rd || dmem j Ri = true)
    by (destruct Kj as [K|K]; apply dmem_in in K; rewrite K; [reflexivity|apply orb_true_r]).
  rewrite Mi, Mj in Hx. cbn [andb] in Hx. unfold check_compatible_constraints in Hx.
  apply andb_true_iff in Hx. destruct Hx as [Hx H4]. apply andb_true_iff in Hx. destruct Hx as [Hx H3].
  apply andb_true_iff in Hx. destruct Hx as [H1 H2].
  assert (Hv : forall A B, is_ok (validate_dependency_constraints None A B) = true -> accepted (10 ^ 10) A B).
  { intros A B H. destruct (C13_accepts_exactly (10 ^ 10) A B) as [C1 [_ C3]]. apply C1. rewrite <- C3.
    destruct (validate_dependency_constraints None A B) as [[]|]; [reflexivity|discriminate]. }
  intros c d Hcc Hdd. unfold rows_of. unfold dget_nil in *.
  destruct Hcc as [->| ->], Hdd as [->| ->]; apply Hv; assumption.
Qed.
Print Assumptions C11_constrained.

(** The hypotheses can be met with blocks, pairs and row constraints. *)
Example C11_ex :
  validate_crp_constrained_input 6 [[0; 2]; [1; 4]] [(0, 1); (3, 2)]
    [(0, [[1; 2]]); (5, [[3; 4]])] [(5, [(1, 2)])] = Ok tt /\
  (forall i : nat, draw_ok first_pos).
Proof. split; [reflexivity|intros _; apply C16_draw_ex]. Qed.

(** With a negative column number the internal assertion can fire although the
    input was accepted. *)
Theorem C11_negative_refuted : exists draws N alpha Cd, (forall i, draw_ok (draws i)) /\
  0 < N /\ (0 < alpha)%R /\ validate_crp_constrained_input N Cd [] [] [] = Ok tt /\
  simulate_crp_constrained draws N alpha Cd [] [] [] = Err AssertionError.
Proof.
  exists (fun _ => first_pos), 3, 1%R, [[-1; 0]; [2; 1]].
  split; [intros _; apply C16_draw_ex|]. split; [lia|]. split; [lra|]. split; [reflexivity|].
  unfold simulate_crp_constrained.
  change (validate_crp_constrained_input 3 [[-1; 0]; [2; 1]] [] [] []) with (Ok tt).
  cbn [rbind]. rewrite (proj2 (Rltb_true 0 1)) by lra. reflexivity.
Qed.
Print Assumptions C11_negative_refuted.

(* ================================================================== *)
(** * C12: the CRP with dependence blocks *)

(** Each block shares a table, and no table number is skipped. *)
Theorem C12_simulate : forall draws N alpha Cd, (forall i, draw_ok (draws i)) ->
  0 < N -> (0 < alpha)%R ->
  validate_dependency_constraints (Some N) Cd [] = Ok tt ->
  (forall b, In b Cd -> b <> []) -> (forall b c, In b Cd -> In c b -> 0 <= c) ->
  exists l, simulate_crp_constrained_dependent draws N alpha Cd = Ok l /\
    Z.of_nat (length l) = N /\
    (forall b i j, In b Cd -> In i b -> In j b -> exists t, entry l i t /\ entry l j t) /\
    (forall t, In t l -> 0 <= t /\ forall t', 0 <= t' < t -> In t' l).
Proof.
  intros draws N alpha Cd Hd HN Ha Hv Hne Hnn.
  assert (Hnn' : Forall (fun c => 0 <= c) (concat Cd)).
  { apply Forall_forall. intros c Hc. apply in_concat in Hc. destruct Hc as [b [Hb Hc]]. eapply Hnn; eauto. }
  assert (Hne' : Forall (fun b => b <> []) Cd) by (apply Forall_forall; exact Hne).
  destruct (simulate_dependent_ok N Cd HN Hv Hnn' Hne' draws alpha Hd Ha)
    as [labels [K' [l [_ [G [E [HL [HB HI]]]]]]]].
  exists l. split; [exact E|]. split; [exact HL|]. split.
  - intros b i j Hb Hi Hj. apply In_nth_error in Hb. destruct Hb as [k Hk].
    pose proof (HB k b i Hk Hi) as Ei. pose proof (HB k b j Hk Hj) as Ej.
    exists (zat l i). split.
    + apply entry_zat. apply (in_block_range N Cd Hv Hnn' l b); auto. eapply nth_error_In; eauto.
    + replace (zat l i) with (zat l j) by congruence.
      apply entry_zat. apply (in_block_range N Cd Hv Hnn' l b); auto. eapply nth_error_In; eauto.
  - intros t Ht. apply HI in Ht. pose proof (grows_bound labels 0 K' t G ltac:(lia) Ht) as [B _].
    split; [lia|]. intros t' Ht'. apply HI. apply (grows_in labels 0 K' t' G). lia.
Qed.
Print Assumptions C12_simulate.

(** The number of effective customers: one per block and one per customer
    outside the blocks. *)
Definition effective_customers (n : Z) (Cd : list (list Z)) : Z :=
  n - Z.of_nat (length (concat Cd)) + Z.of_nat (length Cd).

(** How many effective customers sit at table [t]: blocks by their first
    customer, the others one by one. *)
Definition effective_at (Zm : dict Z) (Cd : list (list Z)) (t : Z) : Z :=
  Z.of_nat (length (filter (fun b => match b with
                                     | c :: _ => match dget c Zm with Some t' => t' =? t | None => false end
                                     | [] => false end) Cd)) +
  Z.of_nat (length (filter (fun ct => negb (zmem (fst ct) (concat Cd)) && (snd ct =? t)) Zm)).

Lemma effective_at_occ Zm Cd t : Forall (fun b => b <> []) Cd ->
  (forall c, In c (concat Cd) -> In c (dkeys Zm)) ->
  occ t (effective_tables Zm Cd) = effective_at Zm Cd t.
Proof.
  intros Hne Hk. unfold effective_tables, effective_at. rewrite occ_app. f_equal.
  - induction Hne as [|b Cd Hb Hne IH]; [reflexivity|]. destruct b as [|c b]; [congruence|].
    cbn [map hd filter]. rewrite occ_cons. rewrite IH.
    2:{ intros x Hx. apply Hk. simpl. right. apply in_app_iff. right; exact Hx. }
    destruct (in_dkeys_Some c Zm) as [t' Et]; [apply Hk; left; reflexivity|]. rewrite Et.
    destruct (Z.eqb_spec t t') as [F|F]; destruct (Z.eqb_spec t' t) as [F'|F']; try lia; simpl length; lia.
  - generalize (concat Cd) as cc. intros cc. clear. induction Zm as [|[c x] Zm IH]; [reflexivity|].
    cbn [filter fst snd]. destruct (zmem c cc); cbn [negb andb]; [exact IH|].
    unfold dvals. cbn [map]. fold (dvals (filter (fun ct : Z * Z => negb (zmem (fst ct) cc)) Zm)).
    rewrite occ_cons. cbn [snd]. rewrite IH.
    destruct (Z.eqb_spec t x) as [F|F]; destruct (Z.eqb_spec x t) as [F'|F']; try lia; simpl length; lia.
Qed.

(** An assignment of tables to customers 0, ..., N-1 in which some block is
    split. *)
Definition breaks_block (Zm : dict Z) (Cd : list (list Z)) : Prop :=
  exists b i j, In b Cd /\ In i b /\ In j b /\ dget i Zm <> dget j Zm.

Lemma forallb_false {A} (f : A -> bool) l : forallb f l = false -> exists x, In x l /\ f x = false.
Proof.
  induction l as [|x l IH]; simpl; [discriminate|]. destruct (f x) eqn:E; simpl.
  - intros H. destruct (IH H) as [y [Hy Fy]]. exists y. auto.
  - intros _. exists x. auto.
Qed.

Lemma dep_valid Zm Cd : (forall c, In c (concat Cd) -> In c (dkeys Zm)) ->
  exists v, validate_crp_constrained_partition (dindex Zm) Cd [] [] [] = Ok v /\
    (v = false <-> breaks_block Zm Cd).
Proof.
  intros Hk. set (f := fun c => match dget c Zm with Some t => t | None => 0 end).
  assert (Hg : forall c, In c (concat Cd) -> dget c Zm = Some (f c)).
  { intros c Hc. unfold f. destruct (in_dkeys_Some c Zm (Hk c Hc)) as [t ->]. reflexivity. }
  eexists. split.
  - apply (partition_spec (dindex Zm) f).
    + intros c Hc. unfold dindex. rewrite (Hg c Hc). reflexivity.
    + intros a b [].
  - rewrite andb_true_r. split.
    + intros H. apply forallb_false in H. destruct H as [b [Hb H]].
      apply andb_false_iff in H. destruct H as [H|H].
      * unfold uniform in H. apply forallb_false in H. destruct H as [c [Hc H]]. apply Z.eqb_neq in H.
        assert (Hh : In (hd 0 b) b) by (destruct b; [destruct Hc|left; reflexivity]).
        exists b, (hd 0 b), c. repeat split; auto.
        rewrite !Hg by (apply in_concat; exists b; auto). congruence.
      * apply forallb_false in H. destruct H as [ab [_ H]]. discriminate.
    + intros [b [i [j [Hb [Hi [Hj Hne]]]]]].
      destruct (forallb _ Cd) eqn:E; [|reflexivity]. exfalso. rewrite forallb_forall in E.
      specialize (E b Hb). apply andb_true_iff in E. destruct E as [E _]. unfold uniform in E.
      rewrite forallb_forall in E. pose proof (E i Hi) as Ei. pose proof (E j Hj) as Ej.
      apply Z.eqb_eq in Ei, Ej. apply Hne. rewrite !Hg by (apply in_concat; exists b; auto). congruence.
Qed.

(** Effective counts and density, for every assignment of the N customers. *)
Theorem C12_counts : forall Zm Cd, NoDup (dkeys Zm) ->
  (forall b, In b Cd -> b <> []) -> NoDup (concat Cd) ->
  (forall b c, In b Cd -> In c b -> In c (dkeys Zm)) ->
  exists ne counts, num_effective (Z.of_nat (length Zm)) Cd = Ok ne /\
    partition_counts Zm Cd = Ok counts /\
    ne = effective_customers (Z.of_nat (length Zm)) Cd /\
    (forall t, dget t counts = if effective_at Zm Cd t =? 0 then None else Some (effective_at Zm Cd t)) /\
    fold_right Z.add 0 (dvals counts) = ne.
Proof.
  intros Zm Cd Hnd Hne Hcd Hk.
  assert (Hne' : Forall (fun b => b <> []) Cd) by (apply Forall_forall; exact Hne).
  assert (Hk' : forall c, In c (concat Cd) -> In c (dkeys Zm)).
  { intros c Hc. apply in_concat in Hc. destruct Hc as [b [Hb Hc]]. eapply Hk; eauto. }
  destruct (partition_counts_ok Zm Cd Hne' Hk') as [counts [E C]].
  eexists _, counts. split; [apply num_effective_spec; [exact Hne'|apply total_le; assumption]|].
  split; [exact E|]. unfold effective_customers. rewrite total_len_concat. split; [reflexivity|]. split.
  - intros t. rewrite (proj2 C t), (effective_at_occ Zm Cd t Hne' Hk'). reflexivity.
  - fold (zsum (dvals counts)). rewrite (counts_of_total _ _ C).
    rewrite (effective_length Zm Cd Hnd Hcd Hk'), total_len_concat. reflexivity.
Qed.
Print Assumptions C12_counts.

(** The density is minus infinity exactly for assignments that split a block;
    otherwise it is the CRP density of the effective table counts. *)
Theorem C12_density : forall lgam Zm alpha Cd, (0 < alpha)%R -> NoDup (dkeys Zm) ->
  (forall b, In b Cd -> b <> []) -> NoDup (concat Cd) ->
  (forall b c, In b Cd -> In c b -> In c (dkeys Zm)) ->
  exists d, logp_crp_constrained_dependent lgam Zm alpha Cd = Ok d /\
    (d = NInf <-> breaks_block Zm Cd) /\
    (~ breaks_block Zm Cd -> exists counts l, partition_counts Zm Cd = Ok counts /\
       logp_crp lgam (effective_customers (Z.of_nat (length Zm)) Cd) (dvals counts) alpha = Ok (Fin l) /\
       d = Fin l).
Proof.
  intros lgam Zm alpha Cd Ha Hnd Hne Hcd Hk.
  assert (Hk' : forall c, In c (concat Cd) -> In c (dkeys Zm)).
  { intros c Hc. apply in_concat in Hc. destruct Hc as [b [Hb Hc]]. eapply Hk; eauto. }
  destruct (dep_valid Zm Cd Hk') as [v [Ev Hv]].
  destruct (C12_counts Zm Cd Hnd Hne Hcd Hk) as [ne [counts [E1 [E2 [E3 [_ E5]]]]]].
  unfold logp_crp_constrained_dependent. rewrite Ev. cbn [rbind]. destruct v; cbn [negb].
  - rewrite (proj2 (Rltb_true 0 alpha) Ha), E1. cbn [rbind]. rewrite E2. cbn [rbind].
    rewrite E5, Z.eqb_refl.
    assert (Hl : exists l, logp_crp lgam ne (dvals counts) alpha = Ok (Fin l)).
    { unfold logp_crp, plog. rewrite (proj2 (Rltb_true 0 alpha) Ha). cbn [rbind]. eexists; reflexivity. }
    destruct Hl as [l El]. exists (Fin l). split; [exact El|].
    assert (Hnb : ~ breaks_block Zm Cd) by (intros H; apply Hv in H; discriminate).
    split; [split; [discriminate|tauto]|].
    intros _. exists counts, l. split; [first [exact E2|reflexivity]|]. rewrite <- E3. auto.
  - exists NInf. split; [reflexivity|].
    assert (Hb : breaks_block Zm Cd) by (apply Hv; reflexivity). split; [tauto|]. tauto.
Qed.
Print Assumptions C12_density.

(** An assignment given as a list of tables. *)
Definition assignment (l : list Z) : dict Z := combine (map Z.of_nat (seq 0 (length l))) l.

(** The density is that of the simulator: an assignment whose effective labels
    appear in order is returned with probability exp(density), and one that
    splits a block never. *)
Theorem C12_distribution : forall lgam N alpha Cd, gamma_rec lgam -> lgam 1%R = 0%R ->
  0 < N -> (0 < alpha)%R -> validate_dependency_constraints (Some N) Cd [] = Ok tt ->
  (forall b, In b Cd -> b <> []) -> (forall b c, In b Cd -> In c b -> 0 <= c) ->
  (forall draws, (forall i, draw_ok (draws i)) ->
     simulate_crp_constrained_dependent draws N alpha Cd = run draws 1 (simulate_dependent_prog N alpha Cd)) /\
  (forall l, Z.of_nat (length l) = N -> ~ breaks_block (assignment l) Cd ->
     restricted_growth (effective_tables (assignment l) Cd) ->
     exists d, logp_crp_constrained_dependent lgam (assignment l) alpha Cd = Ok (Fin d) /\
       pr (simulate_dependent_prog N alpha Cd) (is_ok_list l) = exp d) /\
  (forall l, Z.of_nat (length l) = N -> breaks_block (assignment l) Cd ->
     logp_crp_constrained_dependent lgam (assignment l) alpha Cd = Ok NInf /\
     pr (simulate_dependent_prog N alpha Cd) (is_ok_list l) = 0%R).
Proof.
  intros lgam N alpha Cd Hg H1 HN Ha Hv Hne Hnn.
  assert (Hnn' : Forall (fun c => 0 <= c) (concat Cd)).
  { apply Forall_forall. intros c Hc. apply in_concat in Hc. destruct Hc as [b [Hb Hc]]. eapply Hnn; eauto. }
  assert (Hne' : Forall (fun b => b <> []) Cd) by (apply Forall_forall; exact Hne).
  assert (Hcd : NoDup (concat Cd)) by (apply (dep_nodup N); exact Hv).
  assert (Hir : forall l b c, Z.of_nat (length l) = N -> In b Cd -> In c b -> inr l c).
  { intros l b c HL Hb Hc. apply (in_block_range N Cd Hv Hnn' l b c); auto. }
  assert (Hkey : forall l b c, Z.of_nat (length l) = N -> In b Cd -> In c b -> In c (dkeys (assignment l))).
  { intros l b c HL Hb Hc. apply (dget_Some_in _ (zat l c)). apply dget_of_list. eapply Hir; eauto. }
  assert (Hub : forall l, Z.of_nat (length l) = N -> (breaks_block (assignment l) Cd <-> ~ uniform_on Cd l)).
  { intros l HL. split.
    - intros [b [i [j [Hb [Hi [Hj Hd]]]]]] HU. apply Hd.
      change (assignment l) with (of_list l). rewrite !dget_of_list by (eapply Hir; eauto).
      f_equal. apply (HU b); auto.
    - intros HU. apply Classical_Prop.NNPP. intros Hb. apply HU. intros b i j Bb Hi Hj.
      destruct (Z.eq_dec (zat l i) (zat l j)) as [E|E]; [exact E|]. exfalso. apply Hb.
      exists b, i, j. repeat split; auto. change (assignment l) with (of_list l).
      rewrite !dget_of_list by (eapply Hir; eauto). congruence. }
  split; [|split].
  - intros draws Hd. apply simulate_dependent_run; assumption.
  - intros l HL Hnb Hr.
    assert (HU : uniform_on Cd l).
    { apply Classical_Prop.NNPP. intros Hx. apply Hnb. apply Hub; assumption. }
    destruct (C12_density lgam (assignment l) alpha Cd Ha (NoDup_of_list l) Hne Hcd
                (fun b c => Hkey l b c HL)) as [d [Ed [_ Hd]]].
    destruct (Hd Hnb) as [counts [lp [Ec [El ->]]]]. exists lp. split; [exact Ed|].
    rewrite (dependent_pr N Cd HN Hv Hnn' Hne' alpha l HL HU).
    change (of_list l) with (assignment l).
    destruct (partition_counts_ok (assignment l) Cd Hne') as [counts' [Ec' Cc]].
    { intros c Hc. apply in_concat in Hc. destruct Hc as [b [Hb Hc]]. eapply Hkey; eauto. }
    rewrite Ec in Ec'. injection Ec' as <-.
    assert (HE : N - total_len Cd + Z.of_nat (length Cd) = effective_customers (Z.of_nat (length (assignment l))) Cd).
    { unfold effective_customers. change (assignment l) with (of_list l). rewrite length_of_list, total_len_concat. lia. }
    rewrite HE in *.
    destruct (simulate_crp_law lgam alpha Hg H1 Ha (effective_customers (Z.of_nat (length (assignment l))) Cd)
                (effective_tables (assignment l) Cd) counts) as [lp' [El' Ep]]; auto.
    + rewrite <- HE. apply dep_eff_pos; assumption.
    + rewrite effective_length.
      * unfold effective_customers. rewrite total_len_concat. reflexivity.
      * apply NoDup_of_list.
      * exact Hcd.
      * intros c Hc. apply in_concat in Hc. destruct Hc as [b [Hb Hc]]. eapply Hkey; eauto.
    + apply rg_iff. exact Hr.
    + rewrite El in El'. injection El' as <-. exact Ep.
  - intros l HL Hb.
    destruct (C12_density lgam (assignment l) alpha Cd Ha (NoDup_of_list l) Hne Hcd
                (fun b c => Hkey l b c HL)) as [d [Ed [Hd _]]].
    rewrite Ed. split; [f_equal; apply Hd; exact Hb|].
    apply dependent_pr_zero; auto. apply Hub; assumption.
Qed.
Print Assumptions C12_distribution.

Example C12_ex :
  validate_dependency_constraints (Some 5) [[0; 3]; [1; 4]] [] = Ok tt /\
  ~ breaks_block (assignment [0; 1; 0; 0; 1]) [[0; 3]; [1; 4]] /\
  breaks_block (assignment [0; 1; 0; 1; 1]) [[0; 3]; [1; 4]] /\
  effective_tables (assignment [0; 1; 0; 0; 1]) [[0; 3]; [1; 4]] = [0; 1; 0] /\
  effective_customers 5 [[0; 3]; [1; 4]] = 3.
Proof.
  split; [reflexivity|]. split.
  { intros [b [i [j [Hb [Hi [Hj Hd]]]]]]. apply Hd.
    destruct Hb as [<-|[<-|[]]]; destruct Hi as [<-|[<-|[]]]; destruct Hj as [<-|[<-|[]]]; reflexivity. }
  split.
  { exists [0; 3], 0, 3. simpl. repeat split; auto. discriminate. }
  split; reflexivity.
Qed.

(** An empty block is accepted by the validation but makes the density raise
    IndexError. *)
Theorem C12_empty_block_refuted : exists lgam Zm alpha Cd, (0 < alpha)%R /\ NoDup (dkeys Zm) /\
  validate_dependency_constraints (Some (Z.of_nat (length Zm))) Cd [] = Ok tt /\
  logp_crp_constrained_dependent lgam Zm alpha Cd = Err IndexError.
Proof.
  exists lgam_w, (assignment [0; 0]), 1%R, [[]]. split; [lra|].
  split; [simpl; repeat (constructor; [simpl; intuition lia|]); constructor|].
  split; [reflexivity|]. unfold logp_crp_constrained_dependent.
  change (validate_crp_constrained_partition (dindex (assignment [0; 0])) [[]] [] [] []) with (Ok true).
  cbn [rbind negb]. rewrite (proj2 (Rltb_true 0 1)) by lra. reflexivity.
Qed.
Print Assumptions C12_empty_block_refuted.
