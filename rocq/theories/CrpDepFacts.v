(** Facts about the CRP with dependence blocks. *)
From Verif Require Export CrpConFacts.
Local Open Scope Z_scope.

Definition total_len (Cd : list (list Z)) : Z := zsum (map (fun b => Z.of_nat (length b)) Cd).

Lemma total_len_concat Cd : total_len Cd = Z.of_nat (length (concat Cd)).
Proof.
  unfold total_len, zsum. induction Cd as [|b Cd IH]; [reflexivity|]. simpl. rewrite app_length, IH. lia.
Qed.

Lemma total_len_ge Cd : Forall (fun b => b <> []) Cd -> Z.of_nat (length Cd) <= total_len Cd.
Proof.
  unfold total_len, zsum. induction 1 as [|b Cd Hb H IH]; [simpl; lia|]. simpl length. simpl.
  destruct b; [congruence|]. simpl length. lia.
Qed.

(** Distinct non-negative integers below [N] are at most [N]. *)
Lemma NoDup_range (l : list Z) N : NoDup l -> Forall (fun c => 0 <= c < N) l -> 0 <= N -> Z.of_nat (length l) <= N.
Proof.
  intros Hnd Hr HN.
  assert (Hinc : incl (map Z.to_nat l) (seq 0 (Z.to_nat N))).
  { intros k Hk. apply in_map_iff in Hk. destruct Hk as [c [<- Hc]]. rewrite Forall_forall in Hr.
    specialize (Hr c Hc). apply in_seq. lia. }
  assert (Hnd' : NoDup (map Z.to_nat l)).
  { clear Hinc. induction l as [|x l IH]; [constructor|]. inversion Hnd; subst. inversion Hr; subst.
    simpl. constructor; [|apply IH; assumption]. intros Hin. apply in_map_iff in Hin.
    destruct Hin as [y [Ey Hy]]. rewrite Forall_forall in H4. specialize (H4 y Hy).
    apply H1. replace x with y by lia. exact Hy. }
  pose proof (NoDup_incl_length Hnd' Hinc) as H. rewrite map_length, seq_length in H. lia.
Qed.

Lemma num_effective_spec N Cd : Forall (fun b => b <> []) Cd -> total_len Cd <= N ->
  num_effective N Cd = Ok (N - total_len Cd + Z.of_nat (length Cd)).
Proof.
  intros H1 H2. unfold num_effective. fold (zsum (map (fun b => Z.of_nat (length b)) Cd)).
  fold (total_len Cd). rewrite (proj2 (Z.leb_le _ _) H2).
  pose proof (total_len_ge Cd H1). rewrite (proj2 (Z.leb_le _ _)) by lia. reflexivity.
Qed.

(* ------------------------------------------------------------------ *)
(** Assigning the blocks and the other customers. *)

Lemma assign_blocks_ok crp Cd : forall i l, (forall b c, In b Cd -> In c b -> inr l c) ->
  (i + length Cd <= length crp)%nat -> NoDup (concat Cd) ->
  exists l', assign_blocks Cd crp i l = Ok l' /\ length l' = length l /\
    (forall j, inr l j -> ~ In j (concat Cd) -> zat l' j = zat l j) /\
    (forall k b c, nth_error Cd k = Some b -> In c b -> zat l' c = nth (i + k) crp (-1)).
Proof.
  induction Cd as [|b Cd IH]; intros i l Hr HL Hnd.
  - exists l. repeat split; auto. intros [|k]; discriminate.
  - cbn [assign_blocks]. simpl in HL.
    destruct (nth_error crp i) as [a|] eqn:Ea; [|apply nth_error_None in Ea; lia].
    destruct (assign_all_ok b a l (fun c Hc => Hr b c (or_introl eq_refl) Hc)) as [l1 [E1 [L1 G1]]].
    rewrite E1. cbn [rbind]. simpl in Hnd. apply NoDup_app_elim in Hnd. destruct Hnd as [Hb [Hnd Hdj]].
    destruct (IH (S i) l1) as [l2 [E2 [L2 [G2 B2]]]]; [|lia|exact Hnd|].
    { intros b' c Hb' Hc. unfold inr. rewrite L1. apply (Hr b' c); [right; exact Hb'|exact Hc]. }
    assert (Hinr : forall j, inr l1 j <-> inr l j) by (intros; unfold inr; rewrite L1; tauto).
    exists l2. split; [exact E2|]. split; [lia|]. split.
    + intros j Hj Hn. simpl in Hn. rewrite in_app_iff in Hn.
      rewrite G2 by (try (apply Hinr; exact Hj); tauto). rewrite G1 by exact Hj.
      destruct (zmem j b) eqn:E; [|reflexivity]. apply zmem_in in E. tauto.
    + intros [|k] b' c Hk Hc; simpl in Hk.
      * injection Hk as <-. rewrite G2; [|apply Hinr, (Hr b c (or_introl eq_refl) Hc)|intros Hx; apply (Hdj c Hc Hx)].
        rewrite G1 by (apply (Hr b c (or_introl eq_refl) Hc)).
        rewrite (proj2 (zmem_in c b) Hc). rewrite Nat.add_0_r. symmetry. apply nth_error_nth. exact Ea.
      * rewrite (B2 k b' c Hk Hc). f_equal. lia.
Qed.

Lemma fill_rest_ok p : forall u, count_occ Z.eq_dec p (-1) = length u ->
  exists r, fill_rest p u = Ok r /\ length r = length p /\
    (forall i, inr p i -> zat p i <> -1 -> zat r i = zat p i) /\
    (forall x, In x r <-> (In x p /\ x <> -1) \/ In x u).
Proof.
  induction p as [|a p IH]; intros u Hu.
  - destruct u; [|discriminate]. exists []. repeat split; auto; simpl; tauto.
  - cbn [fill_rest]. simpl in Hu. destruct (Z.eqb_spec a (-1)) as [Ea|Ea].
    + subst a. destruct (Z.eq_dec (-1) (-1)); [|congruence]. destruct u as [|x u]; [discriminate|].
      destruct (IH u) as [r [E [L [G I]]]]; [simpl in Hu; lia|]. rewrite E. cbn [rbind].
      exists (x :: r). split; [reflexivity|]. split; [simpl; lia|]. split.
      * intros i Hi Hz. unfold zat, inr in *. destruct (Z.to_nat i) as [|k] eqn:Ek; [simpl in Hz; congruence|].
        simpl in Hz |- *. specialize (G (Z.of_nat k)). rewrite Nat2Z.id in G. apply G; [simpl in Hi; lia|exact Hz].
      * intros y. simpl. rewrite I. split; intros H; [|].
        -- destruct H as [->|[[H1 H2]|H]]; tauto.
        -- destruct H as [[[H|H] H2]|[H|H]]; [congruence|tauto|tauto|tauto].
    + destruct (Z.eq_dec a (-1)); [congruence|].
      destruct (IH u Hu) as [r [E [L [G I]]]]. rewrite E. cbn [rbind].
      exists (a :: r). split; [reflexivity|]. split; [simpl; lia|]. split.
      * intros i Hi Hz. unfold zat, inr in *. destruct (Z.to_nat i) as [|k] eqn:Ek; [reflexivity|].
        simpl in Hz |- *. specialize (G (Z.of_nat k)). rewrite Nat2Z.id in G. apply G; [simpl in Hi; lia|exact Hz].
      * intros y. simpl. rewrite I. split; intros H.
        -- destruct H as [->|[[H1 H2]|H]]; tauto.
        -- destruct H as [[[H|H] H2]|H]; tauto.
Qed.

(** How many entries of [l] are -1, when those outside [idx] are and those
    inside are not. *)
Lemma count_unassigned l idx : NoDup idx -> (forall c, In c idx -> inr l c) ->
  (forall j, inr l j -> (zat l j = -1 <-> ~ In j idx)) ->
  Z.of_nat (count_occ Z.eq_dec l (-1)) = Z.of_nat (length l) - Z.of_nat (length idx).
Proof.
  intros Hnd Hr Hz.
  set (all := map Z.of_nat (seq 0 (length l))).
  assert (Hall : forall j, In j all <-> inr l j).
  { intros j. unfold all, inr. rewrite in_map_iff. split.
    - intros [k [<- Hk]]. apply in_seq in Hk. lia.
    - intros H. exists (Z.to_nat j). split; [lia|]. apply in_seq. lia. }
  assert (Hnda : NoDup all).
  { unfold all. generalize 0%nat. generalize (length l). clear. induction n; intros s; [constructor|].
    simpl. constructor; [|apply IHn]. intros H. apply in_map_iff in H. destruct H as [k [E Hk]].
    apply in_seq in Hk. lia. }
  assert (E1 : count_occ Z.eq_dec l (-1) = length (filter (fun j => negb (zmem j idx)) all)).
  { assert (Em : l = map (zat l) all).
    { unfold all. rewrite map_map. unfold zat. rewrite (map_ext _ (fun k => nth k l (-1))) by
        (intros; rewrite Nat2Z.id; reflexivity). clear. induction l as [|x l IH]; [reflexivity|].
      simpl. f_equal. rewrite IH at 1. rewrite <- seq_shift, map_map. reflexivity. }
    rewrite Em at 1. clear Em. assert (Ha : forall j, In j all -> inr l j) by (intros; apply Hall; assumption).
    clear Hall Hnda. clearbody all. induction all as [|j all IH]; [reflexivity|]. simpl.
    rewrite IH by (intros; apply Ha; right; assumption).
    specialize (Hz j (Ha j (or_introl eq_refl))).
    destruct (Z.eq_dec (zat l j) (-1)) as [E|E]; destruct (zmem j idx) eqn:F; simpl; try reflexivity.
    - apply zmem_in in F. tauto.
    - apply zmem_false in F. tauto. }
  assert (E2 : length (filter (fun j => zmem j idx) all) = length idx).
  { apply Permutation_length. apply NoDup_Permutation; [apply NoDup_filter; exact Hnda|exact Hnd|].
    intros j. rewrite filter_In, Hall, zmem_in. split; [tauto|]. intros H. split; [apply Hr; exact H|exact H]. }
  assert (E3 : (length (filter (fun j => zmem j idx) all) +
                length (filter (fun j => negb (zmem j idx)) all) = length all)%nat).
  { clear. induction all; simpl; [reflexivity|]. destruct (zmem a idx); simpl; lia. }
  assert (E4 : length all = length l) by (unfold all; rewrite map_length, seq_length; reflexivity).
  lia.
Qed.

Section Dep.
  Variables (N : Z) (Cd : list (list Z)).
  Hypothesis HN : 0 < N.
  Hypothesis Hv : validate_dependency_constraints (Some N) Cd [] = Ok tt.
  Hypothesis Hnn : Forall (fun c => 0 <= c) (concat Cd).
  Hypothesis Hne : Forall (fun b => b <> []) Cd.

  Lemma dep_nodup : NoDup (concat Cd).
  Proof. apply (proj1 (validate_spec _ _ _)) in Hv. destruct Hv as [[_ [_ [H _]]] _]. exact H. Qed.
  Lemma dep_range : Forall (fun c => 0 <= c < N) (concat Cd).
  Proof.
    apply (proj1 (validate_spec _ _ _)) in Hv. destruct Hv as [[_ [H _]] _]. simpl in H.
    rewrite Forall_forall in *. intros c Hc. split; [apply Hnn|apply H]; exact Hc.
  Qed.
  Lemma dep_total : total_len Cd <= N.
  Proof. rewrite total_len_concat. apply NoDup_range; [apply dep_nodup|apply dep_range|lia]. Qed.
  Lemma dep_eff_pos : 0 < N - total_len Cd + Z.of_nat (length Cd).
  Proof.
    pose proof dep_total. destruct Cd as [|b C]; [simpl in *; unfold total_len, zsum in *; simpl in *; lia|].
    simpl length. lia.
  Qed.

  Lemma simulate_dependent_ok draws alpha : (forall i, draw_ok (draws i)) -> (0 < alpha)%R ->
    exists labels K' l, simulate_crp draws (N - total_len Cd + Z.of_nat (length Cd)) alpha = Ok labels /\
      grows 0 labels K' /\
      simulate_crp_constrained_dependent draws N alpha Cd = Ok l /\
      Z.of_nat (length l) = N /\
      (forall k b c, nth_error Cd k = Some b -> In c b -> nth_error labels k = Some (zat l c)) /\
      (forall x, In x l <-> In x labels).
  Proof.
    intros Hd Ha. unfold simulate_crp_constrained_dependent. rewrite Hv. cbn [rbind].
    rewrite (proj2 (Z.ltb_lt 0 N) HN), (proj2 (Rltb_true 0 alpha) Ha). cbn [andb].
    rewrite (num_effective_spec N Cd Hne dep_total). cbn [rbind].
    set (ne := N - total_len Cd + Z.of_nat (length Cd)).
    destruct (simulate_crp_spec draws ne alpha Hd dep_eff_pos Ha) as [rest [K' [E [L G]]]].
    rewrite E. cbn [rbind]. set (labels := 0 :: rest) in *.
    assert (Ll : length labels = Z.to_nat ne) by (unfold labels; simpl; pose proof dep_eff_pos; fold ne in H; lia).
    assert (Lp : forall x, In x labels -> 0 <= x).
    { intros x [<-|Hx]; [lia|]. apply In_nth_error in Hx. destruct Hx as [i Hi].
      apply (grows_nth rest 1 K' i x G); [lia|exact Hi]. }
    pose proof dep_total as HT. pose proof (total_len_ge Cd Hne) as HT2.
    set (l0 := repeat (-1) (Z.to_nat N)).
    assert (L0 : length l0 = Z.to_nat N) by apply repeat_length.
    assert (Hir : forall b c, In b Cd -> In c b -> inr l0 c).
    { intros b c Hb Hc. pose proof dep_range as Hr. rewrite Forall_forall in Hr.
      assert (In c (concat Cd)) by (apply in_concat; exists b; auto). specialize (Hr c H). unfold inr. lia. }
    destruct (assign_blocks_ok labels Cd 0 l0 Hir) as [l1 [E1 [L1 [G1 B1]]]]; [unfold ne in *; lia|apply dep_nodup|].
    rewrite E1. cbn [rbind].
    assert (Hin1 : forall c, In c (concat Cd) -> exists k b, nth_error Cd k = Some b /\ In c b).
    { intros c Hc. apply in_concat in Hc. destruct Hc as [b [Hb Hc]]. apply In_nth_error in Hb.
      destruct Hb as [k Hk]. exists k, b. auto. }
    assert (Hlab : forall k b, nth_error Cd k = Some b -> (k < length labels)%nat).
    { intros k b Hk. assert ((k < length Cd)%nat) by (apply nth_error_Some; rewrite Hk; discriminate).
      unfold ne in *; lia. }
    assert (Hz : forall j, inr l1 j -> (zat l1 j = -1 <-> ~ In j (concat Cd))).
    { intros j Hj. assert (Hj0 : inr l0 j) by (unfold inr in *; rewrite L1 in Hj; exact Hj). split.
      - intros Hz Hc. destruct (Hin1 j Hc) as [k [b [Hk Hb]]]. rewrite (B1 k b j Hk Hb) in Hz. cbn [Nat.add] in Hz.
        assert (0 <= nth k labels (-1)) by (apply Lp, nth_In; eapply Hlab; eauto). lia.
      - intros Hc. rewrite (G1 j Hj0 Hc). unfold zat, l0. apply nth_repeat_m1. }
    assert (Hcnt : count_occ Z.eq_dec l1 (-1) = length (skipn (length Cd) labels)).
    { pose proof (count_unassigned l1 (concat Cd) dep_nodup) as Hc.
      rewrite skipn_length, Ll. rewrite <- total_len_concat in Hc.
      assert (Z.of_nat (count_occ Z.eq_dec l1 (-1)) = Z.of_nat (length l1) - total_len Cd).
      { apply Hc; [|exact Hz]. intros c Hcc. apply in_concat in Hcc. destruct Hcc as [b [Hb Hcb]].
        unfold inr. rewrite L1. apply (Hir b c Hb Hcb). }
      unfold ne. lia. }
    destruct (fill_rest_ok l1 (skipn (length Cd) labels) Hcnt) as [r [E2 [L2 [G2 I2]]]].
    exists labels, K', r. split; [reflexivity|]. split.
    { unfold labels. simpl. right. split; [reflexivity|]. exact G. }
    split; [exact E2|]. split; [lia|].
    assert (Hbr : forall k b c, nth_error Cd k = Some b -> In c b -> nth_error labels k = Some (zat r c)).
    { intros k b c Hk Hc. assert (Hkl := Hlab k b Hk).
      assert (Hc1 : inr l1 c) by (unfold inr; rewrite L1; apply (Hir b c (nth_error_In _ _ Hk) Hc)).
      rewrite G2.
      - rewrite (B1 k b c Hk Hc). cbn [Nat.add]. apply nth_error_nth'. exact Hkl.
      - exact Hc1.
      - intros Hm. apply (Hz c Hc1) in Hm. apply Hm. apply in_concat. exists b. split; [eapply nth_error_In; eauto|exact Hc]. }
    split; [exact Hbr|].
    intros x. rewrite I2. split.
    - intros [[Hx Hm]|Hx].
      + apply in_zat in Hx. destruct Hx as [j [Hj Ej]].
        destruct (in_dec Z.eq_dec j (concat Cd)) as [Hc|Hc].
        * destruct (Hin1 j Hc) as [k [b [Hk Hb]]]. rewrite (B1 k b j Hk Hb) in Ej. cbn [Nat.add] in Ej.
          rewrite <- Ej. apply nth_In. eapply Hlab; eauto.
        * apply (Hz j Hj) in Hc. congruence.
      + rewrite <- (firstn_skipn (length Cd) labels). apply in_app_iff. right; exact Hx.
    - intros Hx. pose proof (Lp x Hx). rewrite <- (firstn_skipn (length Cd) labels) in Hx.
      apply in_app_iff in Hx. destruct Hx as [Hx|Hx]; [|right; exact Hx]. left.
      split; [|lia]. apply In_nth_error in Hx. destruct Hx as [k Hk].
      assert (Hkl : (k < length Cd)%nat).
      { assert ((k < length (firstn (length Cd) labels))%nat) by (apply nth_error_Some; rewrite Hk; discriminate).
        rewrite firstn_length in H0. lia. }
      destruct (nth_error Cd k) as [b|] eqn:Eb; [|apply nth_error_None in Eb; lia].
      assert (Hbn : b <> []) by (rewrite Forall_forall in Hne; apply Hne; eapply nth_error_In; eauto).
      destruct b as [|c b]; [congruence|].
      pose proof (Hlab k _ Eb) as Hkk.
      assert (Ek : nth k labels (-1) = x).
      { rewrite <- (firstn_skipn (length Cd) labels). rewrite app_nth1.
        - apply nth_error_nth. exact Hk.
        - apply nth_error_Some. rewrite Hk. discriminate. }
      pose proof (B1 k (c :: b) c Eb (or_introl eq_refl)) as Hb. cbn [Nat.add] in Hb. rewrite Ek in Hb.
      rewrite <- Hb. apply zat_in. unfold inr. rewrite L1.
      apply (Hir (c :: b) c (nth_error_In _ _ Eb) (or_introl eq_refl)).
  Qed.
End Dep.

(* ------------------------------------------------------------------ *)
(** Effective counts. *)

Lemma counts_of_incr c l x : counts_of c l -> counts_of (count_incr x c) (x :: l).
Proof.
  intros [Hnd Hc]. unfold count_incr. split; [apply NoDup_dset; exact Hnd|].
  intros t. rewrite dget_dset, occ_cons. pose proof (occ_nonneg t l).
  destruct (Z.eqb_spec t x) as [Et|Hn].
  - subst t. rewrite (Hc x). destruct (Z.eqb_spec (occ x l) 0) as [E0|E0].
    + rewrite E0. reflexivity.
    + destruct (Z.eqb_spec (1 + occ x l) 0); [lia|]. f_equal. lia.
  - rewrite Z.add_0_l. apply Hc.
Qed.

(** The tables of the effective customers: one per block, one per other
    customer. *)
Definition effective_tables (Zm : dict Z) (Cd : list (list Z)) : list Z :=
  map (fun b => match dget (hd 0 b) Zm with Some t => t | None => 0 end) Cd ++
  dvals (filter (fun ct => negb (zmem (fst ct) (concat Cd))) Zm).

Lemma counts_of_empty : counts_of [] [].
Proof. split; [constructor|]. intros t. reflexivity. Qed.

Lemma block_counts_ok Zm Cd : Forall (fun b => b <> []) Cd ->
  (forall c, In c (concat Cd) -> In c (dkeys Zm)) ->
  forall counts l, counts_of counts l ->
  exists c', block_counts Zm Cd counts = Ok c' /\
   counts_of c' (rev (map (fun b => match dget (hd 0 b) Zm with Some t => t | None => 0 end) Cd) ++ l).
Proof.
  intros Hne. induction Hne as [|b Cd Hb Hne IH]; intros Hk counts l Hc.
  - exists counts. auto.
  - destruct b as [|c b]; [congruence|]. cbn [block_counts].
    destruct (in_dkeys_Some c Zm) as [t Ht]; [apply Hk; left; reflexivity|]. rewrite Ht.
    destruct (IH (fun x Hx => Hk x (in_or_app (c :: b) _ x (or_intror Hx))) (count_incr t counts) (t :: l)) as [c' [E Hc']].
    { apply counts_of_incr. exact Hc. }
    exists c'. split; [exact E|]. simpl. rewrite Ht, <- app_assoc. exact Hc'.
Qed.

Lemma rest_counts_ok cc Zm : forall counts l, counts_of counts l ->
  counts_of (fold_left (fun acc ct => if zmem (fst ct) cc then acc else count_incr (snd ct) acc) Zm counts)
    (rev (dvals (filter (fun ct => negb (zmem (fst ct) cc)) Zm)) ++ l).
Proof.
  induction Zm as [|[c t] Zm IH]; intros counts l Hc; [exact Hc|]. simpl.
  destruct (zmem c cc); simpl.
  - apply IH; exact Hc.
  - rewrite <- app_assoc. apply (IH _ (t :: l)). apply counts_of_incr. exact Hc.
Qed.

Lemma partition_counts_ok Zm Cd : Forall (fun b => b <> []) Cd ->
  (forall c, In c (concat Cd) -> In c (dkeys Zm)) ->
  exists c, partition_counts Zm Cd = Ok c /\ counts_of c (effective_tables Zm Cd).
Proof.
  intros Hne Hk. unfold partition_counts.
  destruct (block_counts_ok Zm Cd Hne Hk [] [] counts_of_empty) as [c1 [E1 C1]]. rewrite E1. cbn [rbind].
  eexists. split; [reflexivity|]. eapply counts_of_perm; [|apply rest_counts_ok; exact C1].
  unfold effective_tables. rewrite app_nil_r.
  eapply perm_trans; [apply Permutation_app_comm|].
  apply Permutation_app; apply Permutation_sym, Permutation_rev.
Qed.

Lemma dkeys_filter_len (Zm : dict Z) cc : NoDup (dkeys Zm) -> NoDup cc -> (forall c, In c cc -> In c (dkeys Zm)) ->
  Z.of_nat (length (filter (fun ct : Z * Z => negb (zmem (fst ct) cc)) Zm)) = Z.of_nat (length Zm) - Z.of_nat (length cc).
Proof.
  intros Hk Hc Hi.
  assert (E : (length (filter (fun ct : Z * Z => zmem (fst ct) cc) Zm) +
               length (filter (fun ct : Z * Z => negb (zmem (fst ct) cc)) Zm) = length Zm)%nat).
  { clear. induction Zm as [|x Zm IH]; [reflexivity|]. simpl. destruct (zmem (fst x) cc); simpl; lia. }
  assert (E2 : length (filter (fun ct : Z * Z => zmem (fst ct) cc) Zm) = length cc).
  { rewrite <- (map_length fst). apply Permutation_length. apply NoDup_Permutation.
    - clear -Hk. induction Zm as [|[c t] Zm IH]; [constructor|]. simpl in *. inversion Hk; subst.
      destruct (zmem c cc); simpl; [|apply IH; assumption]. constructor; [|apply IH; assumption].
      intros H. apply H1. apply in_map_iff in H. destruct H as [x [<- Hx]]. apply filter_In in Hx.
      apply in_map. tauto.
    - exact Hc.
    - intros c. rewrite in_map_iff. split.
      + intros [x [<- Hx]]. apply filter_In in Hx. apply zmem_in. tauto.
      + intros H. pose proof (Hi c H) as Hd. apply in_map_iff in Hd. destruct Hd as [x [<- Hx]].
        exists x. split; [reflexivity|]. apply filter_In. split; [exact Hx|]. apply zmem_in. exact H. }
  lia.
Qed.

Lemma effective_length (Zm : dict Z) Cd : NoDup (dkeys Zm) -> NoDup (concat Cd) ->
  (forall c, In c (concat Cd) -> In c (dkeys Zm)) ->
  Z.of_nat (length (effective_tables Zm Cd)) =
  Z.of_nat (length Zm) - total_len Cd + Z.of_nat (length Cd).
Proof.
  intros H1 H2 H3. unfold effective_tables, dvals. rewrite app_length, !map_length.
  pose proof (dkeys_filter_len Zm (concat Cd) H1 H2 H3). rewrite total_len_concat. lia.
Qed.

Lemma total_le (Zm : dict Z) Cd : NoDup (dkeys Zm) -> NoDup (concat Cd) ->
  (forall c, In c (concat Cd) -> In c (dkeys Zm)) -> total_len Cd <= Z.of_nat (length Zm).
Proof.
  intros H1 H2 H3. rewrite total_len_concat. pose proof (dkeys_filter_len Zm (concat Cd) H1 H2 H3). lia.
Qed.
