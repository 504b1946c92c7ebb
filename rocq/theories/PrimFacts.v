(** Proofs about the primitive distributions. *)
From Verif Require Export BaseFacts Prim.
Local Open Scope R_scope.

(* ------------------------------------------------------------------ *)
(** ** Reals as booleans *)

Lemma Rltb_true a b : Rltb a b = true <-> a < b.
Proof. unfold Rltb. destruct (Rlt_dec a b); split; intros; (congruence || lra). Qed.
Lemma Rltb_false a b : Rltb a b = false <-> ~ a < b.
Proof. unfold Rltb. destruct (Rlt_dec a b); split; intros; (congruence || lra). Qed.
Lemma Rleb_true a b : Rleb a b = true <-> a <= b.
Proof. unfold Rleb. destruct (Rle_dec a b); split; intros; (congruence || lra). Qed.
Lemma Rleb_false a b : Rleb a b = false <-> ~ a <= b.
Proof. unfold Rleb. destruct (Rle_dec a b); split; intros; (congruence || lra). Qed.
Lemma Reqb_true a b : Reqb a b = true <-> a = b.
Proof. unfold Reqb. destruct (Req_EM_T a b); split; intros; congruence. Qed.
Lemma Reqb_false a b : Reqb a b = false <-> a <> b.
Proof. unfold Reqb. destruct (Req_EM_T a b); split; intros; congruence. Qed.
Lemma Reqb_refl a : Reqb a a = true.
Proof. apply Reqb_true; reflexivity. Qed.

Lemma plog_pos a : 0 < a -> plog a = Ok (ln a).
Proof. intros H. unfold plog. apply Rltb_true in H. rewrite H. reflexivity. Qed.

(** [x % 1 == 0] characterised. *)
Lemma is_intb_true x : is_intb x = true <-> exists z : Z, x = IZR z.
Proof.
  unfold is_intb. rewrite Reqb_true. split.
  - intros H. exists (Int_part x). unfold frac_part in H. lra.
  - intros [z ->]. unfold frac_part.
    replace (Int_part (IZR z)) with z; [lra|].
    unfold Int_part. rewrite <- (tech_up (IZR z) (z + 1)).
    + lia.
    + rewrite plus_IZR. lra.
    + rewrite plus_IZR. lra.
Qed.

Lemma Int_part_IZR z : Int_part (IZR z) = z.
Proof.
  unfold Int_part. rewrite <- (tech_up (IZR z) (z + 1)).
  - lia.
  - rewrite plus_IZR; lra.
  - rewrite plus_IZR; lra.
Qed.

Lemma to_index_INR n : to_index (INR n) = n.
Proof. unfold to_index. rewrite INR_IZR_INZ, Int_part_IZR. apply Nat2Z.id. Qed.

Lemma nat_inb_true x : nat_inb x = true <-> exists n : nat, x = INR n.
Proof.
  unfold nat_inb. rewrite andb_true_iff, is_intb_true, Rleb_true. split.
  - intros [[z ->] Hz]. apply le_IZR in Hz. exists (Z.to_nat z).
    rewrite INR_IZR_INZ, Z2Nat.id by exact Hz. reflexivity.
  - intros [n ->]. split; [exists (Z.of_nat n); apply INR_IZR_INZ|apply pos_INR].
Qed.

Lemma cat_inb_true k x : cat_inb k x = true <-> exists n : nat, (n < k)%nat /\ x = INR n.
Proof.
  unfold cat_inb. split.
  - intros H. apply andb_true_iff in H. destruct H as [H1 H2].
    fold (nat_inb x) in H1. apply nat_inb_true in H1. destruct H1 as [n ->].
    exists n. split; [|reflexivity]. apply Rltb_true in H2. apply INR_lt; exact H2.
  - intros [n [Hn ->]]. apply andb_true_iff. split.
    + apply (nat_inb_true (INR n)). exists n; reflexivity.
    + apply Rltb_true. apply lt_INR; exact Hn.
Qed.

(* ------------------------------------------------------------------ *)
(** ** Sums *)

Lemma Rsum_app l1 l2 : Rsum (l1 ++ l2) = Rsum l1 + Rsum l2.
Proof. induction l1 as [|x l1 IH]; simpl; [lra|rewrite IH; lra]. Qed.

Lemma Rsum_perm l1 l2 : Permutation l1 l2 -> Rsum l1 = Rsum l2.
Proof. induction 1; simpl; lra. Qed.

Lemma Rsum_nonneg l : Forall (fun x => 0 <= x) l -> 0 <= Rsum l.
Proof. induction 1; simpl; lra. Qed.

Lemma Rsum_map_const {A} (c : R) (l : list A) :
  Rsum (map (fun _ => c) l) = INR (length l) * c.
Proof.
  induction l as [|x l IH]; [simpl; lra|].
  change (length (x :: l)) with (S (length l)). rewrite S_INR.
  change (Rsum (map (fun _ : A => c) (x :: l))) with (c + Rsum (map (fun _ : A => c) l)).
  rewrite IH. lra.
Qed.

Lemma Rsum_map_plus {A} (f g : A -> R) (l : list A) :
  Rsum (map (fun x => f x + g x) l) = Rsum (map f l) + Rsum (map g l).
Proof. induction l as [|x l IH]; simpl; [lra|rewrite IH; lra]. Qed.

Lemma Rsum_map_scal {A} (c : R) (f : A -> R) (l : list A) :
  Rsum (map (fun x => c * f x) l) = c * Rsum (map f l).
Proof. induction l as [|x l IH]; simpl; [lra|rewrite IH; lra]. Qed.

Definition nobs (l : list R) : Z := Z.of_nat (length l).

Lemma nobs_cons v l : nobs (v :: l) = (nobs l + 1)%Z.
Proof. unfold nobs. simpl length. lia. Qed.
Lemma nobs_nonneg l : (0 <= nobs l)%Z.
Proof. unfold nobs. lia. Qed.
Lemma nobs_perm l l' : Permutation l l' -> nobs l = nobs l'.
Proof. intros H. unfold nobs. rewrite (Permutation_length H). reflexivity. Qed.
Lemma IZR_nobs l : IZR (nobs l) = INR (length l).
Proof. unfold nobs. symmetry. apply INR_IZR_INZ. Qed.

(* ------------------------------------------------------------------ *)
(** ** Generic bookkeeping *)

(** What the proofs need to know about one class. *)
Record plaws (P : prim) (okv : R -> Prop) (spec : list R -> pS P) : Prop := {
  l_check : forall x v, p_check P x = Ok v -> okv v;
  l_nil : spec [] = p_init P;
  l_cons : forall v l, okv v -> spec (v :: l) = p_add P v (spec l);
  l_perm : forall l l', Permutation l l' -> spec l = spec l';
  l_rem : forall v s, p_rem P v (p_add P v s) = s
}.

Section GenericFacts.
  Context (P : prim) (okv : R -> Prop) (spec : list R -> pS P).
  Context (HL : plaws P okv spec).

  Definition pinv (s : pstate P) : Prop :=
    NoDup (dkeys (p_data s)) /\ Forall okv (dvals (p_data s)) /\
    p_stats s = spec (dvals (p_data s)).

  Lemma pinv_new h q : pinv (prim_new P h q).
  Proof.
    unfold pinv, prim_new; simpl. split; [constructor|]. split; [constructor|].
    symmetry. apply (l_nil _ _ _ HL).
  Qed.

  Lemma pinv_inc s r x : pinv s -> pinv (fst (prim_incorporate P s r x)).
  Proof.
    intros [Hnd [Hok Hst]]. unfold prim_incorporate.
    destruct (dmem r (p_data s)) eqn:Em; [repeat split; assumption|].
    destruct (p_check P x) as [v|e] eqn:Ec; [|repeat split; assumption].
    apply dmem_false in Em. pose proof (l_check _ _ _ HL _ _ Ec) as Hv.
    unfold pinv; simpl. split; [apply NoDup_dset; exact Hnd|].
    rewrite dvals_dset_fresh by exact Em. split.
    - apply Forall_app. split; [exact Hok|]. constructor; [exact Hv|constructor].
    - rewrite (l_perm _ _ _ HL _ (v :: dvals (p_data s)))
        by (apply Permutation_sym, Permutation_cons_append).
      rewrite (l_cons _ _ _ HL) by exact Hv. rewrite Hst. reflexivity.
  Qed.

  Lemma pinv_uninc s r : pinv s -> pinv (fst (prim_unincorporate P s r)).
  Proof.
    intros [Hnd [Hok Hst]]. unfold prim_unincorporate.
    destruct (dget r (p_data s)) as [v|] eqn:Eg; [|repeat split; assumption].
    pose proof (dvals_ddel_perm _ _ _ Eg) as Hp.
    pose proof (Permutation_Forall Hp Hok) as Hok'.
    inversion Hok' as [|? ? Hv Hrest]; subst.
    unfold pinv; simpl. split; [apply NoDup_ddel; exact Hnd|]. split; [exact Hrest|].
    rewrite Hst, (l_perm _ _ _ HL _ _ Hp), (l_cons _ _ _ HL) by exact Hv.
    apply (l_rem _ _ _ HL).
  Qed.

  Lemma pinv_step s o : pinv s -> pinv (fst (prim_step P s o)).
  Proof.
    destruct o as [r x|r|h|q]; simpl.
    - apply pinv_inc.
    - apply pinv_uninc.
    - unfold prim_set_hypers. destruct (p_hok P h); intros H; exact H.
    - intros H; exact H.
  Qed.

  Lemma pinv_run s ops : pinv s -> pinv (fst (prim_run P s ops)).
  Proof.
    revert s. induction ops as [|o ops IH]; intros s Hs; simpl; [exact Hs|].
    pose proof (pinv_step s o Hs) as H1.
    destruct (prim_step P s o) as [s1 r]. simpl in H1.
    specialize (IH s1 H1). destruct (prim_run P s1 ops) as [s2 tr]. exact IH.
  Qed.

  Lemma hok_step s o : p_hok P (p_hyp s) = true ->
    p_hok P (p_hyp (fst (prim_step P s o))) = true.
  Proof.
    intros H. destruct o as [r x|r|h|q]; simpl.
    - unfold prim_incorporate. destruct (dmem r (p_data s)); [exact H|].
      destruct (p_check P x); exact H.
    - unfold prim_unincorporate. destruct (dget r (p_data s)); exact H.
    - unfold prim_set_hypers. destruct (p_hok P h) eqn:E; [exact E|exact H].
    - exact H.
  Qed.

  Lemma hok_run s ops : p_hok P (p_hyp s) = true ->
    p_hok P (p_hyp (fst (prim_run P s ops))) = true.
  Proof.
    revert s. induction ops as [|o ops IH]; intros s Hs; simpl; [exact Hs|].
    pose proof (hok_step s o Hs) as H1.
    destruct (prim_step P s o) as [s1 r]. simpl in H1.
    specialize (IH s1 H1). destruct (prim_run P s1 ops) as [s2 tr]. exact IH.
  Qed.

  Lemma prim_uninc_inc s r x s1 :
    prim_incorporate P s r x = (s1, Ok tt) ->
    prim_unincorporate P s1 r = (s, Ok tt).
  Proof.
    unfold prim_incorporate. destruct (dmem r (p_data s)) eqn:Em; [discriminate|].
    destruct (p_check P x) as [v|e] eqn:Ec; [|discriminate].
    intros H. injection H as <-. apply dmem_false in Em.
    unfold prim_unincorporate; simpl. rewrite dget_dset_same.
    rewrite ddel_dset_fresh by exact Em. rewrite (l_rem _ _ _ HL).
    destruct s; reflexivity.
  Qed.

  Lemma prim_exchangeable (s1 s2 : pstate P) :
    pinv s1 -> pinv s2 ->
    (forall r, dget r (p_data s1) = dget r (p_data s2)) ->
    p_stats s1 = p_stats s2.
  Proof.
    intros [Hn1 [_ E1]] [Hn2 [_ E2]] Hext. rewrite E1, E2.
    apply (l_perm _ _ _ HL). unfold dvals. apply Permutation_map.
    apply dict_ext_perm; assumption.
  Qed.
End GenericFacts.

(* ------------------------------------------------------------------ *)
(** ** Laws of each class *)

Definition bern_spec (l : list R) : Z * R := (nobs l, Rsum l).

Lemma bern_inb_true x : bern_inb x = true <-> x = 0 \/ x = 1.
Proof. unfold bern_inb. rewrite orb_true_iff, !Reqb_true. tauto. Qed.

Lemma bern_laws lgam : plaws (Bernoulli lgam) (fun v => v = 0 \/ v = 1) bern_spec.
Proof.
  constructor; simpl.
  - intros x v. destruct (bern_inb x) eqn:E; [|discriminate].
    intros H; injection H as <-. apply bern_inb_true; exact E.
  - reflexivity.
  - intros v l _. unfold bern_spec. rewrite nobs_cons. simpl. f_equal; lra.
  - intros l l' Hp. unfold bern_spec. rewrite (nobs_perm _ _ Hp), (Rsum_perm _ _ Hp). reflexivity.
  - intros v [n sx]; simpl. f_equal; [lia|lra].
Qed.

(** Number of observations of category [i]. *)
Definition cat_count (i : nat) (l : list R) : Z :=
  Z.of_nat (length (filter (fun v => Reqb v (INR i)) l)).
Definition cat_spec (k : nat) (l : list R) : Z * list Z :=
  (nobs l, map (fun i => cat_count i l) (seq 0 k)).

Lemma upd_nth_length i d l : length (upd_nth i d l) = length l.
Proof. revert i; induction l as [|c l IH]; intros [|i]; simpl; auto. Qed.

Lemma upd_nth_undo i l : upd_nth i (-1) (upd_nth i 1 l) = l.
Proof.
  revert i; induction l as [|c l IH]; intros [|i]; simpl; auto.
  - f_equal. lia.
  - f_equal. apply IH.
Qed.

Lemma nth_upd_nth i j d l : (i < length l)%nat ->
  nth j (upd_nth i d l) 0%Z = (nth j l 0 + (if Nat.eqb i j then d else 0))%Z.
Proof.
  revert i j; induction l as [|c l IH]; intros [|i] [|j] H; simpl in *; try lia.
  apply IH. lia.
Qed.

Lemma cat_count_cons i v l :
  cat_count i (v :: l) = (cat_count i l + (if Reqb v (INR i) then 1 else 0))%Z.
Proof. unfold cat_count. simpl. destruct (Reqb v (INR i)); simpl length; lia. Qed.

Lemma filter_perm {A} (f : A -> bool) l l' :
  Permutation l l' -> Permutation (filter f l) (filter f l').
Proof.
  induction 1; simpl.
  - constructor.
  - destruct (f x); [constructor|]; assumption.
  - destruct (f x), (f y); try constructor; apply Permutation_refl.
  - eapply perm_trans; eassumption.
Qed.

Lemma cat_count_perm i l l' : Permutation l l' -> cat_count i l = cat_count i l'.
Proof.
  intros H. unfold cat_count. f_equal. apply Permutation_length.
  apply filter_perm; exact H.
Qed.

Lemma Reqb_INR n i : Reqb (INR n) (INR i) = Nat.eqb n i.
Proof.
  destruct (Nat.eqb_spec n i) as [->|Hn].
  - apply Reqb_refl.
  - apply Reqb_false. intros H. apply INR_eq in H. congruence.
Qed.

Lemma cat_laws lgam k :
  plaws (Categorical lgam k) (fun v => exists n, (n < k)%nat /\ v = INR n) (cat_spec k).
Proof.
  constructor; simpl.
  - intros x v. destruct (cat_inb k x) eqn:E; [|discriminate].
    intros H; injection H as <-. apply cat_inb_true in E. destruct E as [n [Hn ->]].
    exists n. split; [exact Hn|]. rewrite INR_IZR_INZ, Int_part_IZR. reflexivity.
  - unfold cat_spec, nobs, cat_count. simpl. f_equal.
    generalize 0%nat as b. induction k as [|k IH]; intros b; simpl; [reflexivity|].
    f_equal. apply IH.
  - intros v l [n [Hn ->]]. unfold cat_spec. rewrite nobs_cons. simpl. f_equal.
    rewrite to_index_INR.
    apply (nth_ext _ _ 0%Z 0%Z).
    { rewrite upd_nth_length, !map_length. reflexivity. }
    intros j Hj. rewrite map_length, seq_length in Hj.
    rewrite nth_upd_nth by (rewrite map_length, seq_length; exact Hn).
    assert (Hnth : forall f : nat -> Z, nth j (map f (seq 0 k)) 0%Z = f j).
    { intros f. rewrite (nth_indep _ 0%Z (f 0%nat)) by (rewrite map_length, seq_length; exact Hj).
      rewrite map_nth, seq_nth by exact Hj. reflexivity. }
    rewrite !Hnth, cat_count_cons, Reqb_INR. reflexivity.
  - intros l l' Hp. unfold cat_spec. rewrite (nobs_perm _ _ Hp). f_equal.
    apply map_ext. intros i. apply cat_count_perm; exact Hp.
  - intros v [n c]; simpl. rewrite upd_nth_undo. f_equal. lia.
Qed.

Definition sum_spec (l : list R) : Z * R := (nobs l, Rsum l).

Lemma geom_laws lgam : plaws (Geometric lgam) (fun v => exists n : nat, v = INR n) sum_spec.
Proof.
  constructor; simpl.
  - intros x v. destruct (nat_inb x) eqn:E; [|discriminate].
    intros H; injection H as <-. apply nat_inb_true; exact E.
  - reflexivity.
  - intros v l _. unfold sum_spec. rewrite nobs_cons. simpl. f_equal; lra.
  - intros l l' Hp. unfold sum_spec. rewrite (nobs_perm _ _ Hp), (Rsum_perm _ _ Hp). reflexivity.
  - intros v [n sx]; simpl. f_equal; [lia|lra].
Qed.

Lemma expo_laws lgam : plaws (Exponential lgam) (fun v => 0 <= v) sum_spec.
Proof.
  constructor; simpl.
  - intros x v. destruct (Rltb x 0) eqn:E; [discriminate|].
    intros H; injection H as <-. apply Rltb_false in E. lra.
  - reflexivity.
  - intros v l _. unfold sum_spec. rewrite nobs_cons. simpl. f_equal; lra.
  - intros l l' Hp. unfold sum_spec. rewrite (nobs_perm _ _ Hp), (Rsum_perm _ _ Hp). reflexivity.
  - intros v [n sx]; simpl. f_equal; [lia|lra].
Qed.

(** Count and the sums of two functions of the values. *)
Definition sum2_spec (f g : R -> R) (l : list R) : Z * R * R :=
  (nobs l, Rsum (map f l), Rsum (map g l)).

Lemma sum2_cons f g v l :
  sum2_spec f g (v :: l) =
  (let '(n, a, b) := sum2_spec f g l in ((n + 1)%Z, a + f v, b + g v)).
Proof. unfold sum2_spec. rewrite nobs_cons. simpl. f_equal; [f_equal|]; lra. Qed.

Lemma sum2_perm f g l l' : Permutation l l' -> sum2_spec f g l = sum2_spec f g l'.
Proof.
  intros Hp. unfold sum2_spec. rewrite (nobs_perm _ _ Hp).
  rewrite (Rsum_perm _ _ (Permutation_map f Hp)), (Rsum_perm _ _ (Permutation_map g Hp)).
  reflexivity.
Qed.

Lemma pois_laws lgam :
  plaws (Poisson lgam) (fun v => exists n : nat, v = INR n)
    (sum2_spec (fun x => x) (fun x => lgam (x + 1))).
Proof.
  constructor; simpl.
  - intros x v. destruct (nat_inb x) eqn:E; [|discriminate].
    intros H; injection H as <-. apply nat_inb_true; exact E.
  - reflexivity.
  - intros v l _. rewrite sum2_cons. reflexivity.
  - apply sum2_perm.
  - intros v [[n a] b]. f_equal; [f_equal; [lia|lra]|lra].
Qed.

Lemma normal_laws lgam :
  plaws (Normal lgam) (fun _ => True) (sum2_spec (fun x => x) (fun x => x * x)).
Proof.
  constructor; simpl.
  - auto.
  - reflexivity.
  - intros v l _. rewrite sum2_cons. reflexivity.
  - apply sum2_perm.
  - intros v [[n a] b]. f_equal; [f_equal; [lia|lra]|lra].
Qed.

Lemma lognormal_laws lgam :
  plaws (Lognormal lgam) (fun v => 0 < v) (sum2_spec ln (fun x => ln x * ln x)).
Proof.
  constructor; simpl.
  - intros x v. destruct (Rleb x 0) eqn:E; [discriminate|].
    intros H; injection H as <-. apply Rleb_false in E. lra.
  - reflexivity.
  - intros v l _. rewrite sum2_cons. reflexivity.
  - apply sum2_perm.
  - intros v [[n a] b]. f_equal; [f_equal; [lia|lra]|lra].
Qed.

Lemma vm_inb_true x : vm_inb x = true <-> 0 <= x <= 2 * PI.
Proof. unfold vm_inb. rewrite andb_true_iff, !Rleb_true. tauto. Qed.

Lemma vm_laws lbes :
  plaws (Vonmises lbes) (fun v => 0 <= v <= 2 * PI) (sum2_spec sin cos).
Proof.
  constructor; simpl.
  - intros x v. destruct (vm_inb x) eqn:E; [|discriminate].
    intros H; injection H as <-. apply vm_inb_true; exact E.
  - reflexivity.
  - intros v l _. rewrite sum2_cons. reflexivity.
  - apply sum2_perm.
  - intros v [[n a] b]. f_equal; [f_equal; [lia|lra]|lra].
Qed.

Lemma unit_inb_true x : unit_inb x = true <-> 0 < x < 1.
Proof. unfold unit_inb. rewrite andb_true_iff, !Rltb_true. tauto. Qed.

Lemma beta_laws lgam :
  plaws (Beta lgam) (fun v => 0 < v < 1) (sum2_spec ln (fun x => ln (1 - x))).
Proof.
  constructor.
  - intros x v. cbv [p_check Beta]. destruct (unit_inb (beta_clip x)) eqn:E; [|discriminate].
    intros H; injection H as <-. apply unit_inb_true; exact E.
  - reflexivity.
  - intros v l _. rewrite sum2_cons. reflexivity.
  - apply sum2_perm.
  - intros v [[n a] b]. simpl. f_equal; [f_equal; [lia|lra]|lra].
Qed.

Lemma nt_laws lgam cdf lo hi :
  plaws (NormalTrunc lgam cdf lo hi) (fun v => lo <= v <= hi)
    (sum2_spec (fun x => x) (fun x => x * x)).
Proof.
  constructor; simpl.
  - intros x v. destruct (Rleb lo x && Rleb x hi) eqn:E; [|discriminate].
    intros H; injection H as <-. apply andb_true_iff in E.
    rewrite !Rleb_true in E. exact E.
  - reflexivity.
  - intros v l _. rewrite sum2_cons. reflexivity.
  - apply sum2_perm.
  - intros v [[n a] b]. f_equal; [f_equal; [lia|lra]|lra].
Qed.
