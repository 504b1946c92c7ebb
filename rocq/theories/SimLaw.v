(** The distribution of the samples of a view: proofs about Query.v. *)
From Verif Require Import Query QueryFacts QueryNet SimFacts P12_ViewQuery LogSpaceFacts PrimSpec PrimFacts BaseFacts ViewFacts CrpFacts RowFacts RowGibbs Classes ClassFacts P07_View ListFacts ImportanceFacts Prob.
From Coq Require Import Lia.
Local Open Scope R_scope.

(** Probability of cluster [k] for a new row with the cells [C]. *)
Definition posterior (v : view) (C : dict cell) (k : Z) : R :=
  pweight v k / (INR (length (v_rows v)) + c_alpha (v_crp v)) * joint v (old_pdf k) C / mixture v C.
(** The generator is asked for indices of this list. *)
Definition cluster_probs (v : view) (C : dict cell) : list R := map (posterior v C) (all_clusters v).

Section Law.
  Context (X : table) (v : view) (H : ready X v) (C : dict cell) (HC : of_view v C) (Hp : 0 < mixture v C).
  Let K := all_clusters v.
  Let Hk := ready_clusters X v H.
  Let Hcrp := proj1 (rd_inv _ _ H).

  Lemma probs_sum : Rsum (cluster_probs v C) = 1.
  Proof.
    unfold cluster_probs, posterior. rewrite Rsum_map_div.
    rewrite (mixture_sum v Hcrp (rd_rows _ _ H) Hk C). field. lra.
  Qed.
  Lemma posterior_nonneg k : 0 <= posterior v C k.
  Proof.
    unfold posterior. apply Rmult_le_pos; [|apply Rlt_le, Rinv_0_lt_compat; exact Hp].
    apply Rmult_le_pos; [|apply joint_nonneg, old_pdf_nonneg]. apply Rlt_le. apply (prior_pos X v); apply H.
  Qed.
  Lemma two_clusters : (2 <= length K)%nat.
  Proof.
    unfold K, all_clusters. rewrite app_length, zsort_length. cbn [length].
    pose proof (counts_nonempty v Hcrp (rd_rows _ _ H)). destruct (dkeys (c_counts (v_crp v))); [contradiction|]. cbn. lia.
  Qed.

  Lemma picks_eq draws n :
    log_pflip_many draws (eadds (map (QueryFacts.lpc v) K) (map (QueryFacts.dens v C) K)) K n =
    rsequence (map (fun j => choice (draws j) K (map Fin (cluster_probs v C))) (seq 0 n)).
  Proof.
    rewrite eadds_map. set (l := map (fun k => eadd (QueryFacts.lpc v k) (QueryFacts.dens v C k)) K).
    pose proof (ready_query X v C H HC) as HQ.
    assert (L : Forall logw l).
    { apply Forall_forall. intros y Hy. apply in_map_iff in Hy. destruct Hy as [k [<- _]].
      apply logw_eadd; [exact I|apply (QueryFacts.dens_spec v C k HQ)]. }
    assert (El : map lexp l = map (fun k => pweight v k / (INR (length (v_rows v)) + c_alpha (v_crp v)) * joint v (old_pdf k) C) K).
    { unfold l. rewrite map_map. apply map_ext. intros k. rewrite lexp_eadd; [|exact I|apply (QueryFacts.dens_spec v C k HQ)].
      rewrite (QueryFacts.lexp_lpc v Hcrp (rd_rows _ _ H) (rd_alpha _ _ H)), (proj2 (proj2 (QueryFacts.dens_spec v C k HQ))). reflexivity. }
    assert (Es : Rsum (map lexp l) = mixture v C).
    { rewrite El. apply (mixture_sum v Hcrp (rd_rows _ _ H) Hk C). }
    destruct (log_pflip_weights l L) as [out [Eo Hw]]; [rewrite Es; exact Hp|].
    rewrite Es in Hw.
    assert (Ew : map (fun x => lexp x / mixture v C) l = cluster_probs v C).
    { unfold cluster_probs, posterior. rewrite <- (map_map lexp (fun x => x / mixture v C)), El, map_map. reflexivity. }
    rewrite Ew in Hw.
    assert (Hn : normalize (map eexp out) = map Fin (cluster_probs v C)).
    { rewrite (normalize_weights _ _ Hw), probs_sum. f_equal. rewrite <- (map_id (cluster_probs v C)) at 2.
      apply map_ext. intros x. field. }
    assert (HL : length (map eexp out) = length K).
    { destruct Hw as [-> _]. unfold cluster_probs. rewrite !map_length. reflexivity. }
    unfold log_pflip_many. rewrite Eo. cbn [rbind]. unfold pflip_many. rewrite Hn.
    assert (Hf : Nat.eqb (length K) (length (map eexp out)) && forallb ext_nonneg (map Fin (cluster_probs v C)) = true).
    { rewrite HL, Nat.eqb_refl. cbn [andb]. apply forallb_forall. intros y Hy. apply in_map_iff in Hy.
      destruct Hy as [x [<- Hx]]. unfold cluster_probs in Hx. apply in_map_iff in Hx. destruct Hx as [k [<- _]].
      cbn. apply Rleb_true. apply posterior_nonneg. }
    rewrite Hf. pose proof two_clusters. destruct (map eexp out) as [|p1 [|p2 p]]; cbn [length] in HL; [lia|lia|reflexivity].
  Qed.

  (** The generator's answers are indices of clusters. *)
  Definition in_range (draws : nat -> list ext -> nat) (n : nat) : Prop :=
    forall j, (j < n)%nat -> (draws j (map Fin (cluster_probs v C)) < length K)%nat.
  Definition picked (draws : nat -> list ext -> nat) (n : nat) : list Z :=
    map (fun j => nth (draws j (map Fin (cluster_probs v C))) K 0%Z) (seq 0 n).

  Lemma picks_ok draws n : in_range draws n ->
    log_pflip_many draws (eadds (map (QueryFacts.lpc v) K) (map (QueryFacts.dens v C) K)) K n = Ok (picked draws n).
  Proof.
    intros Hd. rewrite picks_eq. unfold picked, in_range in *. 
    assert (G : forall l, (forall j, In j l -> (j < n)%nat) ->
      rsequence (map (fun j => choice (draws j) K (map Fin (cluster_probs v C))) l) =
      Ok (map (fun j => nth (draws j (map Fin (cluster_probs v C))) K 0%Z) l)).
    { induction l as [|j l IH]; intros Hl; [reflexivity|]. cbn [map rsequence].
      unfold choice at 1.
      assert (Hf : Nat.eqb (length K) (length (map Fin (cluster_probs v C))) && forallb ext_nonneg (map Fin (cluster_probs v C)) = true).
      { unfold cluster_probs. rewrite !map_length, Nat.eqb_refl. cbn [andb]. apply forallb_forall. intros y Hy.
        apply in_map_iff in Hy. destruct Hy as [x [<- Hx]]. apply in_map_iff in Hx. destruct Hx as [k [<- _]].
        cbn. apply Rleb_true. apply posterior_nonneg. }
      rewrite Hf, (nth_error_nth' K 0%Z) by (apply Hd, Hl; left; reflexivity). cbn [rbind].
      rewrite IH by (intros j' Hj'; apply Hl; right; exact Hj'). reflexivity. }
    apply G. intros j Hj. apply in_seq in Hj. lia.
  Qed.

  Lemma draw_ok_range draws n : (forall j, draw_ok (draws j)) -> in_range draws n.
  Proof.
    intros Hd j _. destruct (Hd j (map Fin (cluster_probs v C))) as [x [Hx _]].
    - apply forallb_forall. intros y Hy. apply in_map_iff in Hy. destruct Hy as [x [<- Hx]].
      unfold cluster_probs in Hx. apply in_map_iff in Hx. destruct Hx as [k [<- _]]. cbn. apply Rleb_true, posterior_nonneg.
    - assert (G : exists p, In p (cluster_probs v C) /\ 0 < p).
      { pose proof probs_sum as Hs.
        assert (Hnn : forall p, In p (cluster_probs v C) -> 0 <= p).
        { intros p Hp'. unfold cluster_probs in Hp'. apply in_map_iff in Hp'. destruct Hp' as [k [<- _]]. apply posterior_nonneg. }
        clear - Hs Hnn. induction (cluster_probs v C) as [|p l IH]; [cbn in Hs; lra|].
        destruct (Rle_lt_or_eq_dec 0 p (Hnn p (or_introl eq_refl))) as [Hp|Hp]; [exists p; split; [left; reflexivity|exact Hp]|].
        destruct IH as [q [Hq1 Hq2]]; [unfold Rsum in *; cbn in Hs; lra|intros q Hq; apply Hnn; right; exact Hq|].
        exists q. split; [right; exact Hq1|exact Hq2]. }
      destruct G as [p [Hp1 Hp2]]. exists (Fin p). split; [apply in_map; exact Hp1|]. cbn. apply Rltb_true. exact Hp2.
    - replace (length K) with (length (map Fin (cluster_probs v C))) by (unfold cluster_probs; rewrite !map_length; reflexivity).
      apply nth_error_Some. rewrite Hx. discriminate.
  Qed.

  (** Clusters are numbered from zero. *)
  Context (Hz : forall k, In k (dvals (v_rows v)) -> (0 <= k)%Z).
  Lemma clusters_nonneg k : In k K -> (0 <= k)%Z.
  Proof.
    assert (G : forall k, In k (dkeys (c_counts (v_crp v))) -> (0 <= k)%Z).
    { intros k' Hk'. apply Hz. apply (counts_of_keys _ _ _ (proj1 (proj2 Hcrp))). exact Hk'. }
    unfold K, all_clusters. rewrite in_app_iff, zsort_in. intros [Hi|[<-|[]]]; [apply G; exact Hi|].
    destruct (new_max v Hcrp (rd_rows _ _ H)) as [m [E ->]]. apply zmax_list_spec in E. pose proof (G m (proj1 E)). lia.
  Qed.

  (** Sampling succeeds, and the samples are served by the clusters picked. *)
  Lemma view_simulate_ok draws src r T n : v_hypothetical v r = true -> T <> [] -> NoDup T ->
    (forall c, In c T -> In c (dkeys (v_dims v))) -> (forall c k i, In c T -> exists x, src c k i = Ok x) ->
    (0 < n)%nat -> in_range draws n ->
    exists l ks, view_simulate draws src v r T C n = Ok l /\ Forall2 (drawn src T) ks l /\
      Permutation ks (picked draws n) /\ StronglySorted Z.le ks.
  Proof.
    intros Hr Hne HT HTv Hsrc Hn Hd.
    assert (Hok : exists l, view_simulate draws src v r T C n = Ok l).
    { unfold view_simulate. rewrite Hr. cbn [negb].
      rewrite (proj2 (cluster_weights_eq v Hcrp (rd_rows _ _ H) (dense_norow v (rd_dense _ _ H)) (rd_alpha _ _ H) Hk C (ready_query X v C H HC)) Hp).
      cbn [rbind]. fold K. rewrite (picks_ok draws n Hd). cbn [rbind].
      assert (Hpk : forall k, In k (picked draws n) -> (0 <= k)%Z).
      { intros k Hk'. unfold picked in Hk'. apply in_map_iff in Hk'. destruct Hk' as [j [<- Hj]]. apply in_seq in Hj.
        apply clusters_nonneg. apply nth_In. apply Hd. lia. }
      unfold bincount.
      replace (existsb (fun k => (k <? 0)%Z) (picked draws n)) with false.
      2:{ symmetry. apply not_true_iff_false. intros F. apply existsb_exists in F. destruct F as [k [F1 F2]].
          apply Z.ltb_lt in F2. pose proof (Hpk k F1). lia. }
      replace (is_nil (picked draws n)) with false by (unfold picked; destruct n; [lia|reflexivity]).
      cbn [orb rbind].
      assert (Hrow : forall k m, exists l, simulate_row v src T k m = Ok l).
      { intros k m. unfold simulate_row.
        assert (G : exists ss, rsequence (map (fun c => if dmem c (v_dims v)
            then rsequence (map (fun i => rbind (src c k i) (fun x => Ok [(c, x)])) (seq 0 m)) else Err KeyError) T) = Ok ss).
        { clear - HTv Hsrc. induction T as [|c T IH]; [eexists; reflexivity|]. cbn [map rsequence].
          rewrite (proj2 (dmem_in c (v_dims v)) (HTv c (or_introl eq_refl))).
          assert (G : forall l, exists o, rsequence (map (fun i => rbind (src c k i) (fun x => Ok [(c, x)])) l) = Ok o).
          { induction l as [|i l IHl]; [eexists; reflexivity|]. cbn [map rsequence].
            destruct (Hsrc c k i (or_introl eq_refl)) as [x ->]. cbn [rbind]. destruct IHl as [o ->]. cbn. eauto. }
          destruct (G (seq 0 m)) as [o ->]. cbn [rbind].
          destruct IH as [ss ->]; [intros c' Hc'; apply HTv; right; exact Hc'|intros c' k' i' Hc'; apply Hsrc; right; exact Hc'|].
          cbn. eauto. }
        destruct G as [ss ->]. cbn. eauto. }
      assert (G : forall cs, exists ss, rsequence (map (fun kn => simulate_row v src T (fst kn) (snd kn)) cs) = Ok ss).
      { induction cs as [|[k m] cs IH]; [eexists; reflexivity|]. cbn [map rsequence]. destruct (Hrow k m) as [l El].
        cbn [fst snd]. rewrite El. cbn [rbind]. destruct IH as [ss ->]. cbn. eauto. }
      destruct (G (map (fun k => (k, count_in k (picked draws n))) (zsort (nodup Z.eq_dec (picked draws n))))) as [ss ->]. cbn [rbind]. eauto. }
    destruct Hok as [l El]. destruct (view_simulate_spec _ _ _ _ _ _ _ _ Hne HT El) as [ks [_ [K2 [K3 [_ K5]]]]].
    destruct (K5 Hr) as [K' [a [b [dk [W [P1 P2]]]]]].
    rewrite (proj2 (cluster_weights_eq v Hcrp (rd_rows _ _ H) (dense_norow v (rd_dense _ _ H)) (rd_alpha _ _ H) Hk C (ready_query X v C H HC)) Hp) in W.
    injection W as <- <- <-. fold K in P1. rewrite (picks_ok draws n Hd) in P1. injection P1 as <-.
    exists l, ks. auto.
  Qed.
End Law.

(** [n] independent draws of an index. *)
Fixpoint iid (w : list R) (n : nat) : prog (list nat) :=
  match n with
  | O => Ret []
  | S n' => Flip w (fun i => pmap (cons i) (iid w n'))
  end.

Lemma iid_range w n : surely (iid w n) (fun js => length js = n /\ forall j, In j js -> (j < length w)%nat).
Proof.
  induction n as [|n IH]; cbn; [split; [reflexivity|intros j []]|]. intros i Hi.
  assert (G : forall {A B} (p : prog A) (P : A -> Prop) (Q : B -> Prop) (f : A -> B), surely p P -> (forall a, P a -> Q (f a)) -> surely (pmap f p) Q).
  { clear. intros A B p P Q f. unfold pmap. induction p as [a|w k IH]; cbn; [auto|]. intros Hs Hf i Hi. apply IH; auto. }
  eapply G; [exact IH|]. intros js [H1 H2]. split; [cbn; congruence|]. intros j [<-|Hj]; auto.
Qed.
Lemma iid_proper w n : Forall (fun x => 0 <= x) w -> 0 < Rsum w -> proper (iid w n).
Proof.
  intros H1 H2. induction n as [|n IH]; cbn; [exact I|]. split; [exact H1|]. split; [exact H2|]. intros i _.
  clear - IH. unfold pmap. induction (iid w n) as [a|w' k IHp]; cbn; [exact I|]. destruct IH as [A [B C]].
  split; [exact A|]. split; [exact B|]. intros j Hj. apply IHp. apply C. exact Hj.
Qed.

(** The probability that none of [n] draws is [i0]. *)
Lemma iid_avoid w n i0 : Rsum w = 1 -> (i0 < length w)%nat ->
  pr (iid w n) (forallb (fun j => negb (Nat.eqb j i0))) = (1 - nth i0 w 0) ^ n.
Proof.
  intros Hs Hi. unfold pr. induction n as [|n IH]; [reflexivity|]. cbn [iid expect pow].
  rewrite (Rsum_ext _ (fun i => (if Nat.eqb i i0 then 0 else nth i w 0) * (1 - nth i0 w 0) ^ n)).
  - rewrite (Rsum_ext _ (fun i => (1 - nth i0 w 0) ^ n * (if Nat.eqb i i0 then 0 else nth i w 0))) by (intros; ring).
    rewrite Rsum_scal. rewrite Rmult_comm. f_equal.
    rewrite <- Hs. rewrite <- (Rsum_nth w) at 1.
    assert (E : Rsum (map (fun i => nth i w 0) (seq 0 (length w))) =
                Rsum (map (fun i => if Nat.eqb i i0 then 0 else nth i w 0) (seq 0 (length w))) +
                Rsum (map (fun i => if Nat.eqb i i0 then nth i w 0 else 0) (seq 0 (length w)))).
    { rewrite <- Rsum_plus. apply Rsum_ext. intros i _. destruct (Nat.eqb i i0); ring. }
    rewrite E, (Rsum_single (fun i => if Nat.eqb i i0 then nth i w 0 else 0) _ i0).
    + rewrite Nat.eqb_refl. ring.
    + apply seq_NoDup.
    + apply in_seq. lia.
    + intros y _ Hy. destruct (Nat.eqb_spec y i0); [contradiction|reflexivity].
  - intros i _. rewrite expect_map, Hs. unfold Rdiv. rewrite Rinv_1, Rmult_1_r.
    destruct (Nat.eqb i i0) eqn:E.
    + rewrite (expect_ext_all _ _ (fun _ => 0 * 1)) by (intros a; cbn; rewrite E; cbn; ring).
      rewrite expect_scal. ring.
    + rewrite <- IH. f_equal. apply expect_ext_all. intros a. cbn. rewrite E. reflexivity.
Qed.

(** The probability of an event and of its complement. *)
Lemma pr_not {A} (p : prog A) E : proper p -> pr p (fun a => negb (E a)) = 1 - pr p E.
Proof.
  intros Hp. unfold pr.
  assert (G : expect p (fun a => if E a then 1 else 0) + expect p (fun a => if negb (E a) then 1 else 0) = 1).
  { rewrite <- expect_plus. rewrite (expect_ext_all _ _ (fun _ => 1)) by (intros a; destruct (E a); cbn; ring).
    apply expect_const. exact Hp. }
  lra.
Qed.
