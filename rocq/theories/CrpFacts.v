(** Facts about the CRP model. *)
From Verif Require Export Crp LogSpaceFacts PrimScore BaseFacts ListFacts.
Local Open Scope R_scope.

(** Number of occurrences. *)
Definition occ (t : Z) (l : list Z) : Z := Z.of_nat (count_occ Z.eq_dec l t).

Lemma occ_cons t x l : occ t (x :: l) = ((if (t =? x)%Z then 1 else 0) + occ t l)%Z.
Proof.
  unfold occ. simpl. destruct (Z.eq_dec x t) as [->|Hn].
  - rewrite Z.eqb_refl. lia.
  - destruct (Z.eqb_spec t x); [congruence|]. lia.
Qed.
Lemma occ_app t l1 l2 : occ t (l1 ++ l2) = (occ t l1 + occ t l2)%Z.
Proof. unfold occ. rewrite count_occ_app. lia. Qed.
Lemma occ_nonneg t l : (0 <= occ t l)%Z.
Proof. unfold occ. lia. Qed.
Lemma occ_perm t l1 l2 : Permutation l1 l2 -> occ t l1 = occ t l2.
Proof. intros H. unfold occ. f_equal. apply Permutation_count_occ. exact H. Qed.
Lemma occ_pos t l : (0 < occ t l)%Z <-> In t l.
Proof. unfold occ. rewrite (count_occ_In Z.eq_dec). lia. Qed.
Lemma occ_zero t l : occ t l = 0%Z <-> ~ In t l.
Proof. rewrite <- occ_pos. pose proof (occ_nonneg t l). lia. Qed.

(** [c] is the table of occurrence counts of [l]. *)
Definition counts_of (c : dict Z) (l : list Z) : Prop :=
  NoDup (dkeys c) /\
  forall t, dget t c = if (occ t l =? 0)%Z then None else Some (occ t l).

Lemma dset_perm {A} k (v : A) d v0 : NoDup (dkeys d) -> dget k d = Some v0 ->
  Permutation (dset k v d) ((k, v) :: ddel k d).
Proof.
  induction d as [|[k' v'] d IH]; simpl; intros Hnd; [discriminate|].
  inversion Hnd; subst. destruct (Z.eqb_spec k k') as [->|Hn]; intros E.
  - apply Permutation_refl.
  - eapply perm_trans; [apply perm_skip, IH; auto|]. apply perm_swap.
Qed.

Lemma counts_of_add c l x : counts_of c l ->
  let c0 := if dmem x c then c else dset x 0%Z c in
  counts_of (dset x (match dget x c0 with Some n => n | None => 0 end + 1)%Z c0) (x :: l).
Proof.
  intros [Hnd Hc] c0.
  assert (Hnd0 : NoDup (dkeys c0)) by (unfold c0; destruct (dmem x c); [exact Hnd|apply NoDup_dset; exact Hnd]).
  assert (Hx : dget x c0 = Some (occ x l)).
  { unfold c0, dmem. specialize (Hc x). pose proof (occ_nonneg x l).
    destruct (Z.eqb_spec (occ x l) 0).
    - rewrite Hc. rewrite dget_dset_same. f_equal. lia.
    - rewrite Hc. exact Hc. }
  split; [apply NoDup_dset; exact Hnd0|]. intros t. rewrite Hx, dget_dset, occ_cons.
  pose proof (occ_nonneg t l) as Ht. destruct (Z.eqb_spec t x) as [->|Hn].
  - destruct (Z.eqb_spec (1 + occ x l) 0); [lia|]. f_equal. lia.
  - rewrite Z.add_0_l. rewrite <- Hc. unfold c0. destruct (dmem x c); [reflexivity|].
    apply dget_dset_other. exact Hn.
Qed.

Lemma counts_of_rem c l x : counts_of c (x :: l) ->
  exists n, dget x c = Some n /\ n = (1 + occ x l)%Z /\
  counts_of (if (n - 1 =? 0)%Z then ddel x (dset x (n - 1) c)%Z else dset x (n - 1)%Z c) l.
Proof.
  intros [Hnd Hc]. pose proof (Hc x) as Hx. rewrite occ_cons, Z.eqb_refl in Hx.
  pose proof (occ_nonneg x l) as Hp. destruct (Z.eqb_spec (1 + occ x l) 0); [lia|].
  exists (1 + occ x l)%Z. split; [exact Hx|]. split; [reflexivity|].
  replace (1 + occ x l - 1)%Z with (occ x l) by lia.
  assert (Hnd' : NoDup (dkeys (dset x (occ x l) c))) by (apply NoDup_dset; exact Hnd).
  destruct (Z.eqb_spec (occ x l) 0) as [E|E].
  - split; [apply NoDup_ddel; exact Hnd'|]. intros t. rewrite dget_ddel by exact Hnd'.
    rewrite dget_dset. specialize (Hc t). rewrite occ_cons in Hc.
    destruct (Z.eqb_spec t x) as [Et|Hn]; [subst t|].
    + rewrite E. reflexivity.
    + exact Hc.
  - split; [exact Hnd'|]. intros t. rewrite dget_dset. specialize (Hc t). rewrite occ_cons in Hc.
    destruct (Z.eqb_spec t x) as [Et|Hn]; [subst t|]; [|exact Hc].
    destruct (Z.eqb_spec (occ x l) 0); [contradiction|reflexivity].
Qed.

Lemma counts_of_perm c l1 l2 : Permutation l1 l2 -> counts_of c l1 -> counts_of c l2.
Proof.
  intros H [Hnd Hc]. split; [exact Hnd|]. intros t. rewrite <- (occ_perm t l1 l2 H). apply Hc.
Qed.

Lemma counts_of_unique c1 c2 l : counts_of c1 l -> counts_of c2 l -> Permutation c1 c2.
Proof.
  intros [H1 C1] [H2 C2]. apply dict_ext_perm; auto. intros t. rewrite C1, C2. reflexivity.
Qed.

Lemma counts_of_keys c l t : counts_of c l -> (In t (dkeys c) <-> In t l).
Proof.
  intros [_ Hc]. rewrite <- dmem_in. unfold dmem. rewrite Hc, <- occ_pos.
  pose proof (occ_nonneg t l). destruct (Z.eqb_spec (occ t l) 0); split; intros; try lia; auto; discriminate.
Qed.

Lemma counts_of_vals_pos c l : counts_of c l -> Forall (fun n => (0 < n)%Z) (dvals c).
Proof.
  intros [Hnd Hc]. apply Forall_forall. intros n Hn. unfold dvals in Hn. apply in_map_iff in Hn.
  destruct Hn as [[t n'] [E Hin]]. simpl in E. subst n'.
  apply dget_In_NoDup in Hin; [|exact Hnd]. rewrite Hc in Hin. pose proof (occ_nonneg t l).
  destruct (Z.eqb_spec (occ t l) 0); [discriminate|]. injection Hin as <-. lia.
Qed.

Definition zsum (l : list Z) : Z := fold_right Z.add 0%Z l.
Lemma zsum_perm l1 l2 : Permutation l1 l2 -> zsum l1 = zsum l2.
Proof. induction 1; simpl; lia. Qed.

Lemma zsum_app l1 l2 : zsum (l1 ++ l2) = (zsum l1 + zsum l2)%Z.
Proof. induction l1 as [|x l1 IH]; simpl; [lia|rewrite IH; lia]. Qed.

Lemma counts_of_nil c : counts_of c [] -> c = [].
Proof.
  intros [Hnd Hc]. destruct c as [|[k v] c]; [reflexivity|]. specialize (Hc k). simpl in Hc.
  rewrite Z.eqb_refl in Hc. discriminate.
Qed.

Lemma counts_of_total c l : counts_of c l -> zsum (dvals c) = Z.of_nat (length l).
Proof.
  revert c. induction l as [|x l IH]; intros c Hc.
  - apply counts_of_nil in Hc. subst c. reflexivity.
  - destruct (counts_of_rem c l x Hc) as [n [Hx [En Hc']]]. destruct Hc as [Hnd _].
    apply IH in Hc'. pose proof (dset_perm x (n - 1)%Z c n Hnd Hx) as P.
    pose proof (dvals_ddel_perm x n c Hx) as P2. apply zsum_perm in P2. simpl in P2.
    apply (Permutation_map snd) in P. fold (dvals (dset x (n-1)%Z c)) in P. simpl in P. fold (dvals (ddel x c)) in P.
    apply zsum_perm in P. simpl in P. fold (zsum (dvals (ddel x c))) in *.
    cbn [length]. rewrite Nat2Z.inj_succ. destruct (Z.eqb_spec (n - 1) 0) as [E|E].
    + assert (Ed : dget x (dset x (n-1)%Z c) = Some (n-1)%Z) by apply dget_dset_same.
      apply dvals_ddel_perm in Ed. apply zsum_perm in Ed. simpl in Ed.
      fold (zsum (dvals (ddel x (dset x (n-1)%Z c)))) in Ed. rewrite Hc' in Ed. lia.
    + lia.
Qed.

Lemma Rsum_IZR l : Rsum (map IZR l) = IZR (zsum l).
Proof. induction l as [|x l IH]; simpl; [reflexivity|]. rewrite plus_IZR, <- IH. reflexivity. Qed.

(* ------------------------------------------------------------------ *)

Definition crp_inv (s : crp) : Prop :=
  NoDup (dkeys (c_data s)) /\ counts_of (c_counts s) (dvals (c_data s)) /\
  c_N s = Z.of_nat (length (c_data s)).

Lemma crp_inv_new a : crp_inv (crp_new a).
Proof.
  split; [constructor|]. split; [|reflexivity]. split; [constructor|]. reflexivity.
Qed.

Lemma length_dvals {A} (d : dict A) : length (dvals d) = length d.
Proof. apply map_length. Qed.

Lemma crp_inv_inc s r x : crp_inv s -> crp_inv (fst (crp_incorporate s r x)).
Proof.
  intros [Hnd [Hc HN]]. unfold crp_incorporate. destruct (dmem r (c_data s)) eqn:E; [split; auto|].
  apply dmem_false in E. simpl. split; [apply NoDup_dset; exact Hnd|]. split.
  - eapply counts_of_perm; [|apply counts_of_add; exact Hc]. simpl.
    rewrite dvals_dset_fresh by exact E. apply Permutation_cons_append.
  - simpl. rewrite dset_fresh by exact E. rewrite app_length. simpl. lia.
Qed.

Lemma crp_inv_uninc s r : crp_inv s -> crp_inv (fst (crp_unincorporate s r)) /\
  (forall x, dget r (c_data s) = Some x -> snd (crp_unincorporate s r) = Ok tt).
Proof.
  intros [Hnd [Hc HN]]. unfold crp_unincorporate. destruct (dget r (c_data s)) as [x|] eqn:E.
  2:{ split; [split; auto|]. discriminate. }
  pose proof (dvals_ddel_perm r x _ E) as P. apply (counts_of_perm _ _ _ P) in Hc.
  destruct (counts_of_rem _ _ _ Hc) as [n [Hx [En Hc']]]. rewrite Hx. simpl.
  split; [|reflexivity]. split; [apply NoDup_ddel; exact Hnd|]. split; [exact Hc'|].
  simpl. assert (S (length (ddel r (c_data s))) = length (c_data s)).
  { apply length_ddel. eapply dget_Some_in; eauto. } lia.
Qed.

Lemma crp_inv_step s o : crp_inv s -> crp_inv (fst (crp_step s o)).
Proof.
  intros H. destruct o; simpl.
  - apply crp_inv_inc; exact H.
  - apply crp_inv_uninc; exact H.
  - unfold crp_set_hypers. destruct (Rltb 0 alpha); exact H.
Qed.

Lemma crp_inv_run ops s : crp_inv s -> crp_inv (fst (crp_run s ops)).
Proof.
  revert s. induction ops as [|o ops IH]; intros s H; simpl; [exact H|].
  pose proof (crp_inv_step s o H) as H1. destruct (crp_step s o) as [s1 r]. simpl in H1.
  specialize (IH s1 H1). destruct (crp_run s1 ops). exact IH.
Qed.

Lemma crp_alpha_run ops s : 0 < c_alpha s -> 0 < c_alpha (fst (crp_run s ops)).
Proof.
  revert s. induction ops as [|o ops IH]; intros s H; simpl; [exact H|].
  assert (H1 : 0 < c_alpha (fst (crp_step s o))).
  { destruct o; simpl.
    - unfold crp_incorporate. destruct (dmem rowid (c_data s)); exact H.
    - unfold crp_unincorporate. destruct (dget rowid (c_data s)) as [x|]; [|exact H].
      destruct (dget x (c_counts s)); exact H.
    - unfold crp_set_hypers. destruct (Rltb 0 alpha) eqn:E; [apply Rltb_true in E; exact E|exact H]. }
  destruct (crp_step s o) as [s1 r]. simpl in H1.
  specialize (IH s1 H1). destruct (crp_run s1 ops). exact IH.
Qed.

(** Incorporate then unincorporate. *)
Lemma ddel_dset_same {A} k (v : A) d v0 : dget k d = Some v0 -> ddel k (dset k v d) = ddel k d.
Proof.
  induction d as [|[k' v'] d IH]; simpl; [discriminate|].
  destruct (Z.eqb_spec k k') as [->|Hn]; simpl.
  - rewrite Z.eqb_refl. reflexivity.
  - intros E. destruct (Z.eqb_spec k k'); [congruence|]. rewrite IH by exact E. reflexivity.
Qed.
Lemma dset_dset {A} k (v w : A) d : dset k v (dset k w d) = dset k v d.
Proof.
  induction d as [|[k' v'] d IH]; simpl; [rewrite Z.eqb_refl; reflexivity|].
  destruct (Z.eqb_spec k k') as [->|Hn]; simpl.
  - rewrite Z.eqb_refl. reflexivity.
  - destruct (Z.eqb_spec k k'); [congruence|]. rewrite IH. reflexivity.
Qed.
Lemma dset_same {A} k (v : A) d : dget k d = Some v -> dset k v d = d.
Proof.
  induction d as [|[k' v'] d IH]; simpl; [discriminate|].
  destruct (Z.eqb_spec k k') as [->|Hn]; intros E.
  - congruence.
  - rewrite IH by exact E. reflexivity.
Qed.

Lemma crp_uninc_inc s r x s1 : crp_inv s ->
  crp_incorporate s r x = (s1, Ok tt) -> crp_unincorporate s1 r = (s, Ok tt).
Proof.
  intros [Hnd [Hc HN]]. unfold crp_incorporate. destruct (dmem r (c_data s)) eqn:E; [discriminate|].
  apply dmem_false in E. intros H. injection H as <-. unfold crp_unincorporate. simpl.
  rewrite dget_dset_same, dget_dset_same. rewrite ddel_dset_fresh by exact E.
  destruct s as [N data counts al]. simpl in *.
  replace (N + 1 - 1)%Z with N by lia. destruct Hc as [Hndc Hc]. unfold dmem.
  pose proof (Hc x) as Hx. pose proof (occ_nonneg x (dvals data)) as Hp.
  destruct (Z.eqb_spec (occ x (dvals data)) 0) as [E0|E0]; rewrite Hx.
  - rewrite dget_dset_same. simpl. rewrite dset_dset, dset_dset.
    rewrite ddel_dset_fresh by (apply dget_None_notin; exact Hx). reflexivity.
  - rewrite Hx. replace (occ x (dvals data) + 1 - 1)%Z with (occ x (dvals data)) by lia.
    destruct (Z.eqb_spec (occ x (dvals data)) 0); [contradiction|].
    rewrite dset_dset, dset_same by exact Hx. reflexivity.
Qed.

(* ------------------------------------------------------------------ *)
(** Score. *)

Lemma count_pos c l t n : counts_of c l -> dget t c = Some n -> (0 < n)%Z /\ n = occ t l.
Proof.
  intros [_ Hc] H. rewrite Hc in H. pose proof (occ_nonneg t l).
  destruct (Z.eqb_spec (occ t l) 0); [discriminate|]. injection H as <-. lia.
Qed.

Lemma crp_N_nonneg s : crp_inv s -> 0 <= IZR (c_N s).
Proof. intros [_ [_ H]]. rewrite H. apply IZR_le. lia. Qed.

Lemma crp_chain lgam s r x : gamma_rec lgam -> lgam 1 = 0 -> crp_inv s -> 0 < c_alpha s ->
  dget r (c_data s) = None ->
  exists a b s', crp_incorporate s r x = (s', Ok tt) /\
    crp_score lgam s = Ok (Fin a) /\ crp_score lgam s' = Ok (Fin b) /\
    crp_logpdf s r x = Ok (Fin (b - a)).
Proof.
  intros Hg H1 Hi Ha Hr. pose proof (crp_N_nonneg s Hi) as HN0. destruct Hi as [Hnd [Hc HN]].
  unfold crp_incorporate, dmem. rewrite Hr.
  assert (EN : IZR (c_N s + 1) + c_alpha s = IZR (c_N s) + c_alpha s + 1) by (rewrite plus_IZR; lra).
  destruct (dget x (c_counts s)) as [n|] eqn:Ex.
  - destruct (count_pos _ _ _ _ Hc Ex) as [Hn _]. apply IZR_lt in Hn.
    eexists. eexists. eexists. split; [reflexivity|].
    unfold crp_score, crp_marginal, crp_logpdf, crp_predictive. cbn [c_N c_counts c_alpha].
    rewrite Hr, Ex. rewrite (plog_pos (c_alpha s)) by exact Ha.
    rewrite (plog_pos (IZR (c_N s) + c_alpha s)) by lra. rewrite plog_pos by exact Hn. cbn [rbind].
    split; [reflexivity|]. split; [reflexivity|].
    rewrite EN, (Hg (IZR (c_N s) + c_alpha s)) by lra.
    destruct Hc as [Hndc _].
    pose proof (dset_perm x (n + 1)%Z _ n Hndc Ex) as P.
    pose proof (ddel_perm x n _ Ex) as P2.
    rewrite (Permutation_length P). rewrite (Permutation_length P2).
    apply (Permutation_map snd) in P. apply (Permutation_map snd) in P2.
    unfold dvals.
    rewrite (Rsum_perm _ _ (Permutation_map (fun c => lgam (IZR c)) P)).
    rewrite (Rsum_perm _ _ (Permutation_map (fun c => lgam (IZR c)) P2)).
    cbn [map length snd fst]. unfold Rsum. cbn [fold_right].
    rewrite plus_IZR. rewrite (Hg (IZR n)) by exact Hn.
    do 2 f_equal. lra.
  - eexists. eexists. eexists. split; [reflexivity|].
    unfold crp_score, crp_marginal, crp_logpdf, crp_predictive. cbn [c_N c_counts c_alpha].
    rewrite Hr, Ex, dget_dset_same. rewrite (plog_pos (c_alpha s)) by exact Ha.
    rewrite (plog_pos (IZR (c_N s) + c_alpha s)) by lra. cbn [rbind].
    split; [reflexivity|]. split; [reflexivity|].
    rewrite EN, (Hg (IZR (c_N s) + c_alpha s)) by lra.
    rewrite dset_dset. rewrite dset_fresh by (apply dget_None_notin; exact Ex).
    unfold dvals. rewrite map_app, map_app, Rsum_app, app_length. cbn [map length snd].
    change (0 + 1)%Z with 1%Z. rewrite plus_INR. simpl Rsum. rewrite H1.
    change (INR 1) with 1. do 2 f_equal. lra.
Qed.

Lemma crp_score_perm lgam s1 s2 : crp_inv s1 -> crp_inv s2 ->
  (forall r, dget r (c_data s1) = dget r (c_data s2)) -> c_alpha s1 = c_alpha s2 ->
  c_N s1 = c_N s2 /\ Permutation (c_counts s1) (c_counts s2) /\
  crp_score lgam s1 = crp_score lgam s2 /\
  forall r x, crp_logpdf s1 r x = crp_logpdf s2 r x.
Proof.
  intros [Hnd1 [Hc1 HN1]] [Hnd2 [Hc2 HN2]] Hd Ha.
  pose proof (dict_ext_perm _ _ Hnd1 Hnd2 Hd) as P.
  assert (EN : c_N s1 = c_N s2) by (rewrite HN1, HN2, (Permutation_length P); reflexivity).
  pose proof (Permutation_map snd P) as Pv. apply (counts_of_perm _ _ _ Pv) in Hc1.
  pose proof (counts_of_unique _ _ _ Hc1 Hc2) as Pc.
  split; [exact EN|]. split; [exact Pc|]. split.
  - unfold crp_score, crp_marginal. rewrite EN, Ha, (Permutation_length Pc). unfold dvals.
    rewrite (Rsum_perm _ _ (Permutation_map (fun c => lgam (IZR c)) (Permutation_map snd Pc))).
    reflexivity.
  - intros r x. unfold crp_logpdf. rewrite Hd. destruct (dget r (c_data s2)); [reflexivity|].
    unfold crp_predictive. rewrite EN, Ha. rewrite (perm_dget _ _ x (proj1 Hc1) Pc). reflexivity.
Qed.

(** Sequential seating. *)
Fixpoint crp_seq (s : crp) (rows : list (Z * Z)) : option (R * crp) :=
  match rows with
  | [] => Some (0, s)
  | (r, x) :: rows' =>
      match crp_logpdf s r x, crp_incorporate s r x with
      | Ok (Fin v), (s', Ok _) =>
          match crp_seq s' rows' with
          | Some (t, s'') => Some (v + t, s'')
          | None => None
          end
      | _, _ => None
      end
  end.

Lemma crp_inc_data s r x s' : dget r (c_data s) = None ->
  crp_incorporate s r x = (s', Ok tt) ->
  c_data s' = c_data s ++ [(r, x)] /\ c_alpha s' = c_alpha s.
Proof.
  intros Hr. unfold crp_incorporate, dmem. rewrite Hr. intros H. injection H as <-. simpl.
  rewrite dset_fresh by (apply dget_None_notin; exact Hr). auto.
Qed.

Lemma crp_seq_score lgam rows s : gamma_rec lgam -> lgam 1 = 0 -> crp_inv s -> 0 < c_alpha s ->
  NoDup (dkeys (c_data s) ++ map fst rows) ->
  exists a t s', crp_score lgam s = Ok (Fin a) /\ crp_seq s rows = Some (t, s') /\
    crp_inv s' /\ c_alpha s' = c_alpha s /\
    c_data s' = c_data s ++ rows /\ crp_score lgam s' = Ok (Fin (a + t)).
Proof.
  intros Hg H1. revert s. induction rows as [|[r x] rows IH]; intros s Hi Ha Hn.
  - unfold crp_score at 1, crp_marginal. rewrite plog_pos by exact Ha. cbn [rbind].
    eexists. exists 0, s. split; [reflexivity|]. split; [reflexivity|]. split; [exact Hi|].
    split; [reflexivity|]. split; [symmetry; apply app_nil_r|].
    unfold crp_score, crp_marginal. rewrite plog_pos by exact Ha. cbn [rbind]. do 2 f_equal. lra.
  - assert (Hr : dget r (c_data s) = None).
    { apply dget_None_notin. apply NoDup_remove_2 in Hn. intros F. apply Hn. apply in_or_app. auto. }
    destruct (crp_chain lgam s r x Hg H1 Hi Ha Hr) as [a [b [s1 [Einc [Ea [Eb Ep]]]]]].
    pose proof (crp_inv_inc s r x Hi) as Hi1. rewrite Einc in Hi1. simpl in Hi1.
    destruct (crp_inc_data s r x s1 Hr Einc) as [Ed Eal].
    destruct (IH s1 Hi1) as [a1 [t [s2 [E1 [E2 [Hi2 [E3 [E4 E5]]]]]]]].
    + rewrite Eal; exact Ha.
    + rewrite Ed. unfold dkeys. rewrite map_app. simpl. rewrite <- app_assoc. exact Hn.
    + rewrite Eb in E1. injection E1 as <-.
      exists a, (b - a + t), s2. split; [exact Ea|]. split.
      * cbn [crp_seq]. rewrite Ep, Einc, E2. reflexivity.
      * split; [exact Hi2|]. split; [congruence|]. split.
        -- rewrite E4, Ed, <- app_assoc. reflexivity.
        -- rewrite E5. do 2 f_equal. lra.
Qed.

(* ------------------------------------------------------------------ *)
(** Candidate tables and their total probability. *)

Lemma zmax_fresh l m : zmax_list l = Some m -> ~ In (m + 1)%Z l.
Proof. intros H F. apply zmax_list_spec in H. destruct H as [_ H]. specialize (H _ F). lia. Qed.

Lemma map_dget_keys {B} (f : option Z -> B) (d : dict Z) : NoDup (dkeys d) ->
  map (fun t => f (dget t d)) (dkeys d) = map (fun c => f (Some c)) (dvals d).
Proof.
  intros Hnd. unfold dkeys, dvals. rewrite !map_map. apply map_ext_in. intros [t c] Hin. simpl.
  rewrite (dget_In_NoDup t c d Hnd Hin). reflexivity.
Qed.

Lemma crp_pred_prob s r x : crp_inv s -> 0 < c_alpha s -> dget r (c_data s) = None ->
  exists v, crp_logpdf s r x = Ok (Fin v) /\
    exp v = match dget x (c_counts s) with Some c => IZR c | None => c_alpha s end / (IZR (c_N s) + c_alpha s).
Proof.
  intros Hi Ha Hr. pose proof (crp_N_nonneg s Hi) as HN. destruct Hi as [_ [Hc _]].
  unfold crp_logpdf, crp_predictive. rewrite Hr.
  set (n := match dget x (c_counts s) with Some c => IZR c | None => c_alpha s end).
  assert (0 < n).
  { unfold n. destruct (dget x (c_counts s)) eqn:E; [|exact Ha].
    destruct (count_pos _ _ _ _ Hc E) as [Hp _]. apply IZR_lt in Hp. exact Hp. }
  rewrite !plog_pos by lra. simpl. eexists. split; [reflexivity|].
  unfold Rminus. rewrite exp_plus, exp_Ropp, !exp_ln by lra. reflexivity.
Qed.

(** The Gibbs tables of a seated customer. *)
Section Gibbs.
  Context (s : crp) (r z : Z) (m : nat).
  Hypothesis Hi : crp_inv s.
  Hypothesis Ha : 0 < c_alpha s.
  Hypothesis Hz : dget r (c_data s) = Some z.
  Hypothesis Hm : (0 < m)%nat.

  Let s' := fst (crp_unincorporate s r).
  Let nz := occ z (dvals (c_data s)).

  Lemma gibbs_nz : dget z (c_counts s) = Some nz /\ (0 < nz)%Z.
  Proof.
    destruct Hi as [_ [[_ Hc] _]]. rewrite Hc. fold nz.
    assert (0 < nz)%Z.
    { apply occ_pos. apply dget_In in Hz. apply (in_map snd) in Hz. exact Hz. }
    destruct (Z.eqb_spec nz 0); [lia|]. auto.
  Qed.

  Lemma gibbs_sing : crp_singleton s r = Ok (nz =? 1)%Z.
  Proof. unfold crp_singleton. rewrite Hz, (proj1 gibbs_nz). reflexivity. Qed.

  Lemma gibbs_counts' t : dget t (c_counts s') =
    if (t =? z)%Z then (if (nz =? 1)%Z then None else Some (nz - 1)%Z) else dget t (c_counts s).
  Proof.
    unfold s', crp_unincorporate. rewrite Hz, (proj1 gibbs_nz). simpl.
    destruct Hi as [_ [[Hnd _] _]].
    replace (nz - 1 =? 0)%Z with (nz =? 1)%Z
      by (destruct (Z.eqb_spec nz 1), (Z.eqb_spec (nz - 1) 0); lia || reflexivity).
    destruct (nz =? 1)%Z.
    - rewrite dget_ddel by (apply NoDup_dset; exact Hnd). rewrite dget_dset. destruct (t =? z)%Z; reflexivity.
    - apply dget_dset.
  Qed.

  Lemma gibbs_data' : c_data s' = ddel r (c_data s) /\ c_N s' = (c_N s - 1)%Z /\ c_alpha s' = c_alpha s /\
    crp_inv s' /\ dget r (c_data s') = None /\ snd (crp_unincorporate s r) = Ok tt.
  Proof.
    destruct (crp_inv_uninc s r Hi) as [H1 H2]. fold s' in H1.
    assert (E : c_data s' = ddel r (c_data s) /\ c_N s' = (c_N s - 1)%Z /\ c_alpha s' = c_alpha s).
    { unfold s', crp_unincorporate. rewrite Hz, (proj1 gibbs_nz). simpl. auto. }
    destruct E as [E1 [E2 E3]]. repeat split; auto; try apply H1.
    - rewrite E1. apply dget_ddel_same. apply Hi.
    - eapply H2; eauto.
  Qed.

  Lemma gibbs_max : exists t, zmax_list (dkeys (c_counts s)) = Some t.
  Proof.
    destruct (zmax_list (dkeys (c_counts s))) eqn:E; [eauto|]. apply zmax_list_None in E.
    pose proof (dget_Some_in _ _ _ (proj1 gibbs_nz)) as H. rewrite E in H. destruct H.
  Qed.

  Let maux := if (nz =? 1)%Z then (m - 1)%nat else m.

  Lemma gibbs_tables_eq : exists t, zmax_list (dkeys (c_counts s)) = Some t /\
    crp_gibbs_tables s r m = Ok (zsort (dkeys (c_counts s)) ++ map (fun i => (t + 1 + Z.of_nat i)%Z) (seq 0 maux)).
  Proof.
    destruct gibbs_max as [t Et]. exists t. split; [exact Et|].
    unfold crp_gibbs_tables. pose proof Hm as Hm'. apply Nat.ltb_lt in Hm'. rewrite Hm', gibbs_sing. cbn [rbind].
    fold maux. rewrite Et. destruct maux; simpl; [rewrite app_nil_r|]; reflexivity.
  Qed.

  Definition gibbs_weight (t : Z) : R :=
    match dget t (c_counts s') with Some c => IZR c | None => c_alpha s / INR m end.

  Lemma INR_m : 0 < INR m.
  Proof. apply lt_0_INR. exact Hm. Qed.

  Lemma gibbs_weight_pos t : 0 < gibbs_weight t.
  Proof.
    unfold gibbs_weight. destruct (dget t (c_counts s')) eqn:E.
    - destruct gibbs_data' as [_ [_ [_ [[_ [Hc _]] _]]]].
      destruct (count_pos _ _ _ _ Hc E) as [Hp _]. apply IZR_lt in Hp. exact Hp.
    - apply Rdiv_lt_0_compat; [exact Ha|exact INR_m].
  Qed.

  Lemma gibbs_ptable t :
    (if (t =? z)%Z then (if (nz =? 1)%Z then c_alpha s / INR m else IZR (nz - 1))
     else match dget t (c_counts s) with None => c_alpha s / INR m | Some c => IZR c end)
    = gibbs_weight t.
  Proof.
    unfold gibbs_weight. rewrite gibbs_counts'. destruct (t =? z)%Z; [|destruct (dget t (c_counts s)); reflexivity].
    destruct (nz =? 1)%Z; reflexivity.
  Qed.

  Lemma gibbs_logps_eq tables : crp_gibbs_tables s r m = Ok tables ->
    crp_gibbs_logps s r m = Ok (map (fun t => ln (gibbs_weight t)) tables).
  Proof.
    intros E. unfold crp_gibbs_logps. rewrite Hz. pose proof Hm as Hm'. apply Nat.ltb_lt in Hm'.
    rewrite Hm', gibbs_sing. cbn [rbind]. rewrite (proj1 gibbs_nz).
    assert (G : forall p, p = (if (nz =? 1)%Z then c_alpha s / INR m else IZR (nz - 1)) ->
      rsequence (map (fun t => plog (if (t =? z)%Z then p else
         match dget t (c_counts s) with None => c_alpha s / INR m | Some c => IZR c end)) tables)
      = Ok (map (fun t => ln (gibbs_weight t)) tables)).
    { intros p ->. apply rsequence_ok. rewrite map_map. apply map_ext. intros t.
      rewrite gibbs_ptable. apply plog_pos, gibbs_weight_pos. }
    destruct (nz =? 1)%Z; cbn [rbind]; rewrite E; cbn [rbind]; apply G; reflexivity.
  Qed.

  Lemma gibbs_tables_spec : exists tables, crp_gibbs_tables s r m = Ok tables /\
    NoDup tables /\
    (forall t, In t (dkeys (c_counts s')) -> In t tables) /\
    length (filter (fun t => negb (dmem t (c_counts s'))) tables) = m.
  Proof.
    destruct gibbs_tables_eq as [mx [Emx Et]]. eexists. split; [exact Et|].
    destruct gibbs_nz as [Ez Hnz]. pose proof (dget_Some_in _ _ _ Ez) as Hzin.
    pose proof (zmax_list_spec _ _ Emx) as [_ Hub].
    destruct Hi as [_ [Hc _]]. pose proof (proj1 Hc) as Hnd.
    set (aux := map (fun i => (mx + 1 + Z.of_nat i)%Z) (seq 0 maux)).
    assert (Haux : forall t, In t aux -> (mx < t)%Z).
    { intros t Hin. apply in_map_iff in Hin. destruct Hin as [i [<- _]]. lia. }
    split; [|split].
    - apply NoDup_app_intro.
      + apply zsort_NoDup. exact Hnd.
      + unfold aux. apply FinFun.Injective_map_NoDup; [|apply seq_NoDup]. intros i j. lia.
      + intros t H1 H2. apply (proj1 (zsort_in _ _)) in H1. specialize (Hub t H1). specialize (Haux t H2). lia.
    - intros t Hin. apply in_or_app. left. apply (proj2 (zsort_in _ _)).
      apply in_dkeys_Some in Hin. destruct Hin as [v Hv]. rewrite gibbs_counts' in Hv.
      destruct (Z.eqb_spec t z) as [->|Hn]; [exact Hzin|]. eapply dget_Some_in; eauto.
    - rewrite filter_app, app_length.
      assert (F2 : filter (fun t => negb (dmem t (c_counts s'))) aux = aux).
      { apply filter_all. intros t Hin. apply negb_true_iff, dmem_false_None. rewrite gibbs_counts'.
        specialize (Haux t Hin). destruct (Z.eqb_spec t z) as [->|Hn].
        - specialize (Hub z Hzin). lia.
        - apply dget_None_notin. intros F. specialize (Hub t F). lia. }
      rewrite F2. unfold aux at 1. rewrite map_length, seq_length.
      assert (F1 : length (filter (fun t => negb (dmem t (c_counts s'))) (zsort (dkeys (c_counts s))))
                   = if (nz =? 1)%Z then 1%nat else 0%nat).
      { rewrite (Permutation_length (filter_perm _ _ _ (zsort_perm (dkeys (c_counts s))))).
        rewrite (filter_ext_in _ (fun t => (t =? z)%Z && (nz =? 1)%Z)).
        - destruct (nz =? 1)%Z.
          + rewrite (filter_ext _ (fun t => (t =? z)%Z)) by (intros t; apply andb_true_r).
            apply filter_eq_one; assumption.
          + rewrite (filter_ext _ (fun _ => false)) by (intros t; apply andb_false_r).
            rewrite filter_none; [reflexivity|reflexivity].
        - intros t Hin. unfold dmem. rewrite gibbs_counts'.
          destruct (Z.eqb_spec t z) as [->|Hn].
          + destruct (nz =? 1)%Z; reflexivity.
          + apply in_dkeys_Some in Hin. destruct Hin as [v ->]. reflexivity. }
      rewrite F1. unfold maux. destruct (nz =? 1)%Z; lia.
  Qed.
End Gibbs.
