(** Facts about the constrained CRP simulators. *)
From Verif Require Export CrpSimFacts.
Local Open Scope Z_scope.

(* ------------------------------------------------------------------ *)
(** Compatibility of customers. *)

Lemma compat_sym Ci Ri Rd a b :
  check_compatible_customers Ci Ri Rd a b = check_compatible_customers Ci Ri Rd b a.
Proof.
  unfold check_compatible_customers, check_compatible_constraints.
  rewrite (orb_comm (pmem a b Ci)). destruct (pmem b a Ci || pmem a b Ci); [reflexivity|].
  rewrite (andb_comm (dmem a Rd || dmem a Ri)).
  destruct ((dmem b Rd || dmem b Ri) && (dmem a Rd || dmem a Ri)); [|reflexivity].
  repeat match goal with |- context [is_ok ?x] => destruct (is_ok x) end; reflexivity.
Qed.

Lemma pmem_in a b Ci : pmem a b Ci = true <-> In (a, b) Ci.
Proof.
  unfold pmem. rewrite existsb_exists. split.
  - intros [[x y] [Hin H]]. simpl in H. apply andb_true_iff in H. destruct H as [H1 H2].
    apply Z.eqb_eq in H1, H2. subst. exact Hin.
  - intros H. exists (a, b). split; [exact H|]. simpl. rewrite !Z.eqb_refl. reflexivity.
Qed.

Lemma compat_pair Ci Ri Rd a b : In (a, b) Ci -> check_compatible_customers Ci Ri Rd a b = false.
Proof.
  intros H. apply pmem_in in H. unfold check_compatible_customers. rewrite H. reflexivity.
Qed.

Lemma combinations2_in {A} (a b : A) l : In a l -> In b l -> a <> b ->
  In (a, b) (combinations2 l) \/ In (b, a) (combinations2 l).
Proof.
  induction l as [|x l IH]; intros Ha Hb Hn; [destruct Ha|]. simpl.
  destruct Ha as [->|Ha], Hb as [->|Hb].
  - congruence.
  - left. apply in_app_iff. left. apply in_map. exact Hb.
  - right. apply in_app_iff. left. apply in_map. exact Ha.
  - destruct (IH Ha Hb Hn) as [H|H]; [left|right]; apply in_app_iff; right; exact H.
Qed.

Lemma combinations2_elim {A} (a b : A) l : In (a, b) (combinations2 l) -> In a l /\ In b l.
Proof.
  induction l as [|x l IH]; simpl; [tauto|]. rewrite in_app_iff, in_map_iff.
  intros [[y [E Hy]]|H].
  - injection E as <- <-. tauto.
  - apply IH in H. tauto.
Qed.

(** validate_crp_constrained_input. *)
Lemma fold_err {A B} (f : B -> A -> res A) (l : list B) e :
  fold_left (fun acc b => rbind acc (fun a => f b a)) l (Err e) = Err e.
Proof. induction l; simpl; auto. Qed.

Lemma input_ok N Cd Ci Rd Ri : validate_crp_constrained_input N Cd Ci Rd Ri = Ok tt ->
  blocks_ok N [] Cd Ci /\ pairs_ok N Ci /\
  (forall block a b, In block Cd -> In a block -> In b block -> a <> b ->
     check_compatible_customers Ci Ri Rd a b = true).
Proof.
  unfold validate_crp_constrained_input. intros H.
  destruct (validate_dependency_constraints (Some N) Cd Ci) as [[]|e] eqn:E; [|discriminate].
  apply (proj1 (validate_spec _ _ _)) in E. cbn [rbind] in H.
  destruct (fold_left _ Rd (Ok tt)) as [[]|e]; [|discriminate]. cbn [rbind] in H.
  destruct (forallb _ Cd) eqn:F; [|discriminate].
  destruct E as [E1 E2]. split; [exact E1|]. split; [exact E2|].
  intros block a b Hb Ha Hb' Hn. rewrite forallb_forall in F. specialize (F block Hb).
  rewrite forallb_forall in F. destruct (combinations2_in a b block Ha Hb' Hn) as [H1|H1].
  - apply (F _ H1).
  - rewrite compat_sym. apply (F _ H1).
Qed.

(** validate_crp_constrained_partition on total indexing. *)
Definition uniform (f : Z -> Z) (b : list Z) : bool := forallb (fun c => f (hd 0 b) =? f c) b.

Lemma all_same_spec get f x0 b : get x0 = Ok (f x0) -> (forall c, In c b -> get c = Ok (f c)) ->
  all_same get x0 b = Ok (forallb (fun c => f x0 =? f c) b).
Proof.
  intros H0. induction b as [|c b IH]; intros H; [reflexivity|]. simpl.
  rewrite H0. cbn [rbind]. rewrite (H c (or_introl eq_refl)). cbn [rbind].
  destruct (f x0 =? f c); [|reflexivity]. simpl. apply IH. intros c' Hc'. apply H. right; exact Hc'.
Qed.

Lemma uniform_spec get f b : (forall c, In c b -> get c = Ok (f c)) ->
  all_same get (hd 0 b) b = Ok (uniform f b).
Proof.
  intros H. destruct b as [|x b]; [reflexivity|]. unfold uniform.
  apply all_same_spec; [apply H; left; reflexivity|exact H].
Qed.

Lemma partition_spec get f Cd Ci Rd Ri :
  (forall c, In c (concat Cd) -> get c = Ok (f c)) ->
  (forall a b, In (a, b) Ci -> get a = Ok (f a) /\ get b = Ok (f b)) ->
  validate_crp_constrained_partition get Cd Ci Rd Ri =
    Ok (forallb (fun b => uniform f b && forallb (fun ab =>
         check_compatible_customers Ci Ri Rd (fst ab) (snd ab)) (combinations2 b)) Cd &&
        forallb (fun ab => negb (f (fst ab) =? f (snd ab))) Ci).
Proof.
  intros H1 H2. unfold validate_crp_constrained_partition.
  set (cc := fun b => forallb (fun ab => check_compatible_customers Ci Ri Rd (fst ab) (snd ab)) (combinations2 b)).
  assert (E : forall v, fold_left (fun acc block => rbind acc (fun valid =>
      rbind (andr valid (fun _ => all_same get (hd 0 block) block)) (fun valid1 =>
      Ok (valid1 && cc block)))) Cd (Ok v) = Ok (v && forallb (fun b => uniform f b && cc b) Cd)).
  { induction Cd as [|b Cd IH]; intros v; [simpl; rewrite andb_true_r; reflexivity|].
    cbn [fold_left rbind]. unfold andr at 2. destruct v.
    - rewrite (uniform_spec get f) by (intros c Hc; apply H1; simpl; apply in_app_iff; left; exact Hc).
      cbn [rbind]. rewrite IH by (intros c Hc; apply H1; simpl; apply in_app_iff; right; exact Hc).
      reflexivity.
    - cbn [rbind andb]. rewrite IH by (intros c Hc; apply H1; simpl; apply in_app_iff; right; exact Hc).
      reflexivity. }
  match goal with |- _ = Ok (?x && _) =>
    change x with (forallb (fun b => uniform f b && cc b) Cd) end.
  etransitivity; [apply (f_equal (fun r => rbind r _)); exact (E true)|].
  cbn [rbind andb]. generalize (forallb (fun b => uniform f b && cc b) Cd) as v.
  clear E H1 cc. induction Ci as [|[a b] Ci IH]; intros v; [simpl; rewrite andb_true_r; reflexivity|].
  cbn [fold_left rbind fst snd]. destruct (H2 a b (or_introl eq_refl)) as [Ea Eb].
  unfold andr at 2. destruct v.
  - rewrite Ea, Eb. cbn [rbind]. rewrite IH by (intros; apply H2; right; assumption). reflexivity.
  - rewrite IH by (intros; apply H2; right; assumption). reflexivity.
Qed.

(* ------------------------------------------------------------------ *)
(** Lists indexed by non-negative integers. *)

Definition zat (l : list Z) (i : Z) : Z := nth (Z.to_nat i) l (-1).
Definition inr (l : list Z) (i : Z) : Prop := 0 <= i < Z.of_nat (length l).

Lemma pyidx_ok n i : 0 <= i < Z.of_nat n -> pyidx n i = Some (Z.to_nat i).
Proof.
  intros [H1 H2]. unfold pyidx. rewrite (proj2 (Z.leb_le 0 i) H1), (proj2 (Z.ltb_lt _ _) H2). reflexivity.
Qed.
Lemma pyget_ok l i : inr l i -> pyget l i = Ok (zat l i).
Proof.
  intros H. unfold pyget. rewrite pyidx_ok by exact H. f_equal. unfold zat. apply nth_indep.
  unfold inr in H. lia.
Qed.
Lemma length_set_nth k v l : length (set_nth k v l) = length l.
Proof. revert k; induction l; intros [|k]; simpl; auto. Qed.
Lemma nth_set_nth k j v l d : (k < length l)%nat ->
  nth j (set_nth k v l) d = if Nat.eqb j k then v else nth j l d.
Proof.
  revert k j; induction l as [|x l IH]; intros k j Hk; [simpl in Hk; lia|].
  destruct k, j; simpl; auto. apply IH. simpl in Hk. lia.
Qed.
Lemma pyset_ok l i v : inr l i -> exists l', pyset l i v = Ok l' /\ length l' = length l /\
  forall j, inr l j -> zat l' j = if j =? i then v else zat l j.
Proof.
  intros H. unfold pyset. rewrite pyidx_ok by exact H. eexists. split; [reflexivity|].
  split; [apply length_set_nth|]. intros j Hj. unfold zat. unfold inr in *.
  rewrite nth_set_nth by lia.
  destruct (Z.eqb_spec j i); destruct (Nat.eqb_spec (Z.to_nat j) (Z.to_nat i)); try lia; reflexivity.
Qed.

Lemma assign_all_ok fs v : forall l, (forall f, In f fs -> inr l f) ->
  exists l', assign_all l fs v = Ok l' /\ length l' = length l /\
  forall j, inr l j -> zat l' j = if zmem j fs then v else zat l j.
Proof.
  induction fs as [|f fs IH]; intros l H.
  - exists l. repeat split; reflexivity.
  - cbn [assign_all]. destruct (pyset_ok l f v (H f (or_introl eq_refl))) as [l1 [E1 [L1 G1]]].
    rewrite E1. cbn [rbind]. destruct (IH l1) as [l2 [E2 [L2 G2]]].
    { intros g Hg. unfold inr. rewrite L1. apply H. right; exact Hg. }
    exists l2. split; [exact E2|]. split; [lia|]. intros j Hj.
    rewrite G2 by (unfold inr; rewrite L1; exact Hj). rewrite G1 by exact Hj.
    unfold zmem. simpl. fold (zmem j fs). destruct (zmem j fs); [rewrite orb_true_r; reflexivity|].
    rewrite orb_false_r. reflexivity.
Qed.

Lemma all_unassigned_ok l fs : (forall f, In f fs -> inr l f) ->
  (forall f, In f fs -> zat l f = -1) -> all_unassigned l fs = Ok true.
Proof.
  induction fs as [|f fs IH]; intros H1 H2; [reflexivity|]. simpl.
  rewrite pyget_ok by (apply H1; left; reflexivity). cbn [rbind].
  rewrite (H2 f (or_introl eq_refl)). simpl. apply IH; intros; [apply H1|apply H2]; right; assumption.
Qed.

Lemma in_combine_seq (l : list Z) : forall s i z,
  In (i, z) (combine (map Z.of_nat (seq s (length l))) l) <->
  exists k, nth_error l k = Some z /\ i = Z.of_nat (s + k).
Proof.
  induction l as [|x l IH]; intros s i z; simpl.
  - split; [tauto|]. intros [[|k] [H _]]; discriminate.
  - rewrite IH. split.
    + intros [E|[k [Hk E]]].
      * injection E as <- <-. exists 0%nat. split; [reflexivity|lia].
      * exists (S k). split; [exact Hk|lia].
    + intros [[|k] [Hk E]]; simpl in Hk.
      * left. injection Hk as <-. subst i. f_equal. lia.
      * right. exists k. split; [exact Hk|lia].
Qed.

Lemma custs_at_in l t i : In i (custs_at l t) <-> inr l i /\ zat l i = t.
Proof.
  unfold custs_at. rewrite in_map_iff. split.
  - intros [[j z] [<- H]]. apply filter_In in H. destruct H as [H E]. simpl in *.
    apply Z.eqb_eq in E. apply in_combine_seq in H. destruct H as [k [Hk ->]]. simpl.
    assert ((k < length l)%nat) by (apply nth_error_Some; rewrite Hk; discriminate).
    split; [unfold inr; lia|]. unfold zat. rewrite Nat2Z.id. subst t. apply nth_error_nth. exact Hk.
  - intros [H1 H2]. unfold inr in H1. exists (i, t). split; [reflexivity|]. apply filter_In.
    split; [|simpl; apply Z.eqb_refl]. apply in_combine_seq. exists (Z.to_nat i). split; [|lia].
    subst t. unfold zat. apply nth_error_nth'. lia.
Qed.

Lemma zat_in l i : inr l i -> In (zat l i) l.
Proof. intros H. unfold zat. apply nth_In. unfold inr in H. lia. Qed.
Lemma in_zat l z : In z l -> exists i, inr l i /\ zat l i = z.
Proof.
  intros H. destruct (In_nth l z (-1) H) as [k [Hk E]]. exists (Z.of_nat k).
  split; [unfold inr; lia|]. unfold zat. rewrite Nat2Z.id. exact E.
Qed.

(* ------------------------------------------------------------------ *)
(** Friends. *)

Lemma friends_spec Cd c : (forall b, In b Cd -> In c b -> NoDup (concat Cd) -> friends Cd c = b) /\
  (~ In c (concat Cd) -> friends Cd c = [c]).
Proof.
  unfold friends. split.
  - intros b Hb Hc Hnd. destruct (find (zmem c) (rev Cd)) as [b'|] eqn:E.
    + apply find_some in E. destruct E as [E1 E2]. apply in_rev in E1. apply zmem_in in E2.
      clear -Hb Hc Hnd E1 E2. induction Cd as [|x Cd IH]; [destruct Hb|]. simpl in Hnd.
      apply NoDup_app_elim in Hnd. destruct Hnd as [N1 [N2 N3]].
      destruct Hb as [->|Hb], E1 as [->|E1]; auto.
      * exfalso. apply (N3 c Hc). apply in_concat. exists b'. auto.
      * exfalso. apply (N3 c E2). apply in_concat. exists b. auto.
    + exfalso. apply zmem_in in Hc. rewrite (find_none _ _ E b) in Hc; [discriminate|].
      rewrite <- in_rev. exact Hb.
  - intros Hn. destruct (find (zmem c) (rev Cd)) as [b'|] eqn:E; [|reflexivity].
    apply find_some in E. destruct E as [E1 E2]. apply in_rev in E1. apply zmem_in in E2.
    exfalso. apply Hn. apply in_concat. exists b'. auto.
Qed.

Section Constrained.
  Variables (N : Z) (alpha : R) (Cd : list (list Z)) (Ci : list (Z * Z)) (Rd : rdeps) (Ri : rinds).
  Hypothesis HN : 0 < N.
  Hypothesis Ha : (0 < alpha)%R.
  Hypothesis Hin : validate_crp_constrained_input N Cd Ci Rd Ri = Ok tt.
  Hypothesis Hnn : Forall (fun c => 0 <= c) (concat Cd).
  Hypothesis HnnI : Forall (fun p => 0 <= fst p /\ 0 <= snd p) Ci.

  Definition compat a b := check_compatible_customers Ci Ri Rd a b = true.

  Definition cinv (c : nat) (l : list Z) : Prop :=
    Z.of_nat (length l) = N /\
    (forall i, inr l i -> -1 <= zat l i < Z.of_nat c) /\
    (forall i, 0 <= i < Z.of_nat c -> inr l i -> 0 <= zat l i) /\
    (forall b i j, In b Cd -> In i b -> In j b -> zat l i = zat l j) /\
    (forall i j, inr l i -> inr l j -> i <> j -> 0 <= zat l i -> zat l i = zat l j -> compat i j).

  Lemma block_range l b i : Z.of_nat (length l) = N -> In b Cd -> In i b -> inr l i.
  Proof.
    intros HL Hb Hi. destruct (input_ok _ _ _ _ _ Hin) as [[_ [H _]] _].
    assert (Hc : In i (concat Cd)) by (apply in_concat; exists b; auto).
    rewrite Forall_forall in H, Hnn. specialize (H i Hc). pose proof (Hnn i Hc).
    unfold inr. simpl in *. lia.
  Qed.

  Lemma friends_cases c : (exists b, In b Cd /\ In c b /\ friends Cd c = b) \/
    (~ In c (concat Cd) /\ friends Cd c = [c]).
  Proof.
    destruct (input_ok _ _ _ _ _ Hin) as [[_ [_ [Hnd _]]] _].
    destruct (in_dec Z.eq_dec c (concat Cd)) as [H|H].
    - left. apply in_concat in H. destruct H as [b [Hb Hc]]. exists b. repeat split; auto.
      apply (proj1 (friends_spec Cd c)); auto.
    - right. split; [exact H|]. apply (proj2 (friends_spec Cd c)); auto.
  Qed.

  Lemma block_disjoint b b' i : In b Cd -> In b' Cd -> In i b -> In i b' -> b = b'.
  Proof.
    intros Hb Hb' Hi Hi'. destruct (input_ok _ _ _ _ _ Hin) as [[_ [_ [Hnd _]]] _].
    rewrite <- (proj1 (friends_spec Cd i) b Hb Hi Hnd). apply (proj1 (friends_spec Cd i)); auto.
  Qed.

  Lemma prob_table_nonneg l fs t : 0 <= prob_table Cd Ci Rd Ri l fs t.
  Proof. unfold prob_table. destruct forallb; lia. Qed.

  Lemma prob_table_pos l fs t f i : 0 < prob_table Cd Ci Rd Ri l fs t ->
    In f fs -> inr l i -> zat l i = t -> compat f i.
  Proof.
    unfold prob_table. destruct forallb eqn:E; [|lia]. intros _ Hf Hi Ht.
    rewrite forallb_forall in E. assert (Hc : In i (custs_at l t)) by (apply custs_at_in; auto).
    specialize (E i Hc). rewrite forallb_forall in E. apply (E f Hf).
  Qed.

  Lemma constrained_step_ok draw c l : draw_ok draw -> (Z.of_nat c < N) -> cinv c l ->
    exists l', constrained_step draw alpha Cd Ci Rd Ri l (Z.of_nat c) = Ok l' /\ cinv (S c) l'.
  Proof.
    intros Hd Hc [HL [Hr [Hdone [Hb Hcp]]]].
    assert (Hci : inr l (Z.of_nat c)) by (unfold inr; lia).
    unfold constrained_step. rewrite pyget_ok by exact Hci. cbn [rbind].
    destruct (Z.ltb_spec (-1) (zat l (Z.of_nat c))) as [Hz|Hz].
    { exists l. split; [reflexivity|]. repeat split; auto.
      - apply Hr; assumption.
      - specialize (Hr i H). lia.
      - intros i Hi Hil. destruct (Z.eq_dec i (Z.of_nat c)) as [->|Hn]; [lia|].
        apply Hdone; [lia|exact Hil]. }
    assert (Hz1 : zat l (Z.of_nat c) = -1) by (specialize (Hr _ Hci); lia).
    set (fs := friends Cd (Z.of_nat c)).
    assert (Hfs : forall f, In f fs -> inr l f /\ zat l f = -1).
    { intros f Hf. unfold fs in Hf. destruct (friends_cases (Z.of_nat c)) as [[b [B1 [B2 B3]]]|[_ B3]];
        rewrite B3 in Hf.
      - split; [eapply block_range; eauto|]. rewrite <- Hz1. apply (Hb b); auto.
      - destruct Hf as [<-|[]]. auto. }
    assert (Hcf : In (Z.of_nat c) fs).
    { unfold fs. destruct (friends_cases (Z.of_nat c)) as [[b [B1 [B2 B3]]]|[_ B3]]; rewrite B3;
        [exact B2|left; reflexivity]. }
    assert (Hff : forall f g, In f fs -> In g fs -> f <> g -> compat f g).
    { intros f g Hf Hg Hn. unfold fs in Hf, Hg.
      destruct (friends_cases (Z.of_nat c)) as [[b [B1 [B2 B3]]]|[_ B3]]; rewrite B3 in Hf, Hg.
      - destruct (input_ok _ _ _ _ _ Hin) as [_ [_ H]]. apply (H b); auto.
      - destruct Hf as [<-|[]], Hg as [<-|[]]. congruence. }
    assert (Hfb : forall b i j, In b Cd -> In i b -> In j b -> In i fs -> In j fs).
    { intros b i j B Hi Hj Hf. unfold fs in *.
      destruct (friends_cases (Z.of_nat c)) as [[b' [B1 [B2 B3]]]|[B2 B3]]; rewrite B3 in *.
      - rewrite (block_disjoint b' b i B1 B Hf Hi). exact Hj.
      - destruct Hf as [<-|[]]. exfalso. apply B2. apply in_concat. exists b. auto. }
    rewrite all_unassigned_ok by (intros f Hf; apply (Hfs f Hf)). cbn [rbind negb].
    destruct (zmax_list l) as [mz|] eqn:Em.
    2:{ apply zmax_list_None in Em. subst l. simpl in HL. lia. }
    apply zmax_list_spec in Em. destruct Em as [Em1 Em2].
    assert (Hmz : -1 <= mz < Z.of_nat c).
    { destruct (in_zat l mz Em1) as [i [Hi <-]]. apply Hr; exact Hi. }
    set (w := map (fun t => IZR (prob_table Cd Ci Rd Ri l fs (Z.of_nat t))) (seq 0 (Z.to_nat (mz + 1)))
              ++ [alpha]).
    assert (Hw : weights (map Fin w) w).
    { assert (Hw0 : Forall (fun x => (0 <= x)%R)
               (map (fun t => IZR (prob_table Cd Ci Rd Ri l fs (Z.of_nat t))) (seq 0 (Z.to_nat (mz + 1))))).
      { apply Forall_forall. intros x Hx. apply in_map_iff in Hx. destruct Hx as [t [<- _]].
        apply IZR_le. apply prob_table_nonneg. }
      split; [reflexivity|]. split.
      - apply Forall_app. split; [exact Hw0|]. constructor; [lra|constructor].
      - unfold w. rewrite Rsum_app. pose proof (Rsum_nonneg _ Hw0). simpl. lra. }
    assert (Lw : length w = S (Z.to_nat (mz + 1))).
    { unfold w. rewrite app_length, map_length, seq_length. simpl. lia. }
    destruct (pflip_spec draw (map Fin w) w (seq 0 (length w)) Hd Hw (seq_length _ _))
      as [k [a [x [Ef [Ea [Ex Px]]]]]].
    rewrite Ef. cbn [rbind]. apply nth_error_seq in Ea. destruct Ea as [-> Hk]. rewrite Lw in Hk.
    assert (Hok : forall f i, In f fs -> inr l i -> zat l i = Z.of_nat k -> compat f i).
    { intros f i Hf Hi Hzi. assert (Hzk : Z.of_nat k <= mz) by (rewrite <- Hzi; apply Em2, zat_in, Hi).
      assert (Hk' : (k < Z.to_nat (mz + 1))%nat) by lia.
      unfold w in Ex. rewrite nth_error_app1 in Ex by (rewrite map_length, seq_length; exact Hk').
      assert (Eq : nth_error (seq 0 (Z.to_nat (mz + 1))) k = Some k).
      { rewrite (nth_error_nth' _ 0%nat) by (rewrite seq_length; exact Hk'). rewrite seq_nth by exact Hk'.
        reflexivity. }
      rewrite (map_nth_error _ _ _ Eq) in Ex. injection Ex as <-.
      apply (lt_IZR 0) in Px. eapply prob_table_pos; eauto. }
    destruct (assign_all_ok fs (Z.of_nat k) l (fun f Hf => proj1 (Hfs f Hf))) as [l' [E' [L' G']]].
    exists l'. split; [exact E'|].
    assert (Hrr : forall i, inr l' i <-> inr l i) by (intros i; unfold inr; rewrite L'; tauto).
    repeat split.
    - lia.
    - apply Hrr in H. rewrite (G' i H). destruct (zmem i fs); [lia|]. specialize (Hr i H). lia.
    - apply Hrr in H. rewrite (G' i H). destruct (zmem i fs); [lia|]. specialize (Hr i H). lia.
    - intros i Hi Hil. apply Hrr in Hil. rewrite (G' i Hil). destruct (zmem i fs) eqn:Ez; [lia|].
      apply Hdone; [|exact Hil]. destruct (Z.eq_dec i (Z.of_nat c)) as [->|Hn]; [|lia].
      exfalso. apply zmem_false in Ez. apply Ez. exact Hcf.
    - intros b i j B Hi Hj.
      rewrite !G' by (eapply block_range; eauto).
      destruct (zmem i fs) eqn:Ei, (zmem j fs) eqn:Ej; auto.
      + apply zmem_in in Ei. apply zmem_false in Ej. exfalso. apply Ej. eapply Hfb; [exact B|exact Hi|exact Hj|exact Ei].
      + apply zmem_in in Ej. apply zmem_false in Ei. exfalso. apply Ei. eapply Hfb; [exact B|exact Hj|exact Hi|exact Ej].
      + apply (Hb b); auto.
    - intros i j Hi Hj Hn. apply Hrr in Hi, Hj. rewrite (G' i Hi), (G' j Hj).
      destruct (zmem i fs) eqn:Ei, (zmem j fs) eqn:Ej; intros H0 H1.
      + apply zmem_in in Ei, Ej. apply Hff; auto.
      + apply zmem_in in Ei. apply Hok; auto.
      + apply zmem_in in Ej. unfold compat. rewrite compat_sym. apply Hok; auto.
      + apply Hcp; auto.
  Qed.

  Lemma constrained_loop_ok draws : (forall i, draw_ok (draws i)) -> forall n c l,
    Z.of_nat (c + n) = N -> cinv c l ->
    exists l', constrained_loop draws alpha Cd Ci Rd Ri (seq c n) l = Ok l' /\ cinv (c + n) l'.
  Proof.
    intros Hd. induction n as [|n IH]; intros c l Hcn Hi.
    - exists l. rewrite Nat.add_0_r. split; [reflexivity|exact Hi].
    - cbn [seq constrained_loop]. destruct (constrained_step_ok (draws c) c l (Hd c)) as [l1 [E1 I1]];
        [lia|exact Hi|]. rewrite E1. cbn [rbind]. destruct (IH (S c) l1) as [l2 [E2 I2]]; [lia|exact I1|].
      exists l2. split; [exact E2|]. replace (c + S n)%nat with (S c + n)%nat by lia. exact I2.
  Qed.

  Lemma nth_repeat_m1 k n : nth k (repeat (-1) n) (-1) = -1.
  Proof. revert k. induction n; intros [|k]; simpl; auto. Qed.

  Lemma cinv_init : cinv 0 (repeat (-1) (Z.to_nat N)).
  Proof.
    repeat split.
    - rewrite repeat_length. lia.
    - unfold zat. rewrite nth_repeat_m1. lia.
    - unfold zat. rewrite nth_repeat_m1. lia.
    - intros i Hi. lia.
    - intros b i j _ _ _. unfold zat. rewrite !nth_repeat_m1. reflexivity.
    - intros i j _ _ _. unfold zat. rewrite !nth_repeat_m1. lia.
  Qed.

  Lemma simulate_constrained_ok draws : (forall i, draw_ok (draws i)) ->
    exists l, simulate_crp_constrained draws N alpha Cd Ci Rd Ri = Ok l /\
      Z.of_nat (length l) = N /\
      (forall i, inr l i -> 0 <= zat l i < N) /\
      (forall b i j, In b Cd -> In i b -> In j b -> zat l i = zat l j) /\
      (forall i j, inr l i -> inr l j -> i <> j -> zat l i = zat l j -> compat i j).
  Proof.
    intros Hd. unfold simulate_crp_constrained. rewrite Hin. cbn [rbind].
    rewrite (proj2 (Z.ltb_lt 0 N) HN), (proj2 (Rltb_true 0 alpha) Ha). cbn [andb].
    destruct (constrained_loop_ok draws Hd (Z.to_nat N) 0 (repeat (-1) (Z.to_nat N))) as [l [E Hi]];
      [lia|apply cinv_init|]. rewrite E. cbn [rbind].
    destruct Hi as [HL [Hr [Hdone [Hb Hcp]]]]. simpl in Hr, Hdone. rewrite Z2Nat.id in Hr, Hdone by lia.
    assert (Hr2 : forall i, inr l i -> 0 <= zat l i < N).
    { intros i Hi. specialize (Hr i Hi). split; [|lia]. apply Hdone; [unfold inr in Hi; lia|exact Hi]. }
    assert (Hf : forallb (fun t => (0 <=? t) && (t <? N)) l = true).
    { apply forallb_forall. intros t Ht. destruct (in_zat l t Ht) as [i [Hi <-]]. specialize (Hr2 i Hi).
      apply andb_true_iff. split; [apply Z.leb_le|apply Z.ltb_lt]; lia. }
    rewrite Hf. destruct (input_ok _ _ _ _ _ Hin) as [[_ [HB _]] [HP HC]].
    rewrite (partition_spec (pyget l) (zat l)).
    - cbn [rbind].
      rewrite (proj2 (forallb_forall _ Cd)), (proj2 (forallb_forall _ Ci)).
      + cbn [andb]. exists l. split; [reflexivity|]. split; [exact HL|]. split; [exact Hr2|].
        split; [exact Hb|]. intros i j Hi Hj Hn He. apply Hcp; auto. apply Hr2; exact Hi.
      + intros [a b] Hab. simpl. apply negb_true_iff, Z.eqb_neq. intros He.
        unfold pairs_ok in HP. rewrite Forall_forall in HP, HnnI.
        specialize (HP _ Hab). pose proof (HnnI _ Hab) as Hq. simpl in HP, Hq.
        assert (HA : inr l a) by (unfold inr; lia). assert (HBb : inr l b) by (unfold inr; lia).
        assert (Hx : compat a b) by (apply Hcp; auto; [lia|apply Hr2; exact HA]).
        unfold compat in Hx. rewrite (compat_pair Ci Ri Rd a b Hab) in Hx. discriminate.
      + intros b Bb. apply andb_true_iff. split.
        * unfold uniform. apply forallb_forall. intros c Hc. apply Z.eqb_eq. apply (Hb b); auto.
          destruct b; [destruct Hc|left; reflexivity].
        * apply forallb_forall. intros [x y] Hxy. simpl.
          destruct (combinations2_elim x y b Hxy) as [Hx Hy].
          assert (Hne : x <> y).
          { intros ->. destruct (input_ok _ _ _ _ _ Hin) as [[_ [_ [Hnd _]]] _].
            assert (Hndb : NoDup b).
            { clear -Hnd Bb. induction Cd as [|b0 C0 IH]; [destruct Bb|]. simpl in Hnd.
              apply NoDup_app_elim in Hnd. destruct Bb as [->|Bb]; [tauto|apply IH; tauto]. }
            clear -Hxy Hndb. induction b as [|z b IH]; [destruct Hxy|]. simpl in Hxy.
            inversion Hndb; subst. apply in_app_iff in Hxy. destruct Hxy as [Hxy|Hxy]; [|auto].
            apply in_map_iff in Hxy. destruct Hxy as [q [Eq Hq]]. injection Eq as -> ->. contradiction. }
          apply (HC b x y Bb Hx Hy Hne).
    - intros c Hc. apply in_concat in Hc. destruct Hc as [b [Bb Hc]]. apply pyget_ok.
      eapply block_range; eauto.
    - intros a b Hab. unfold pairs_ok in HP. rewrite Forall_forall in HP, HnnI.
      specialize (HP _ Hab). pose proof (HnnI _ Hab) as Hq. simpl in HP, Hq.
      split; apply pyget_ok; unfold inr; lia.
  Qed.
End Constrained.
