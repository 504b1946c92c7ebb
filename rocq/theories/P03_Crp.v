(** Properties C07-C09, and C01-C03, C06 for the Chinese restaurant process. *)
From Verif Require Import CrpFacts GammaWitness PrimSpec P01_Prim.
Local Open Scope R_scope.

(** The seating a history of calls leaves behind, read off the calls and their
    outcomes. *)
Fixpoint seating (tr : list (cop * res unit)) (m : Z -> option Z) : Z -> option Z :=
  match tr with
  | [] => m
  | (CInc r x, Ok _) :: tr' => seating tr' (fun k => if (k =? r)%Z then Some x else m k)
  | (CUninc r, Ok _) :: tr' => seating tr' (fun k => if (k =? r)%Z then None else m k)
  | _ :: tr' => seating tr' m
  end.

Lemma seating_ext tr m1 m2 : (forall k, m1 k = m2 k) -> forall k, seating tr m1 k = seating tr m2 k.
Proof.
  revert m1 m2. induction tr as [|[o r] tr IH]; intros m1 m2 H; simpl; [exact H|].
  destruct o, r; simpl; try (apply IH; exact H); apply IH; intros k; rewrite H; reflexivity.
Qed.

Lemma seating_run ops : forall s s' tr, crp_inv s -> crp_run s ops = (s', tr) ->
  forall r, dget r (c_data s') = seating tr (fun r => dget r (c_data s)) r.
Proof.
  induction ops as [|o ops IH]; intros s s' tr Hi Hrun; simpl in Hrun.
  - injection Hrun as <- <-. reflexivity.
  - pose proof (crp_inv_step s o Hi) as Hi1. destruct (crp_step s o) as [s1 r1] eqn:E1.
    destruct (crp_run s1 ops) as [s2 tr2] eqn:E2. injection Hrun as <- <-.
    simpl in Hi1. pose proof (IH s1 s2 tr2 Hi1 E2) as H. intros r. rewrite H. clear H IH E2.
    destruct o as [r0 x|r0|a]; simpl in E1.
    + unfold crp_incorporate in E1. destruct (dmem r0 (c_data s)); injection E1 as <- <-; simpl; [reflexivity|].
      apply seating_ext. intros k. apply dget_dset.
    + destruct (crp_inv_uninc s r0 Hi) as [_ Hok]. unfold crp_unincorporate in *.
      destruct (dget r0 (c_data s)) as [x|] eqn:Ed.
      * specialize (Hok x eq_refl). destruct (dget x (c_counts s)); [|simpl in Hok; discriminate].
        injection E1 as <- <-. simpl. apply seating_ext. intros k. apply dget_ddel. apply Hi.
      * injection E1 as <- <-. reflexivity.
    + unfold crp_set_hypers in E1. destruct (Rltb 0 a); injection E1 as <- <-; reflexivity.
Qed.

(** Number of rows seated at a table. *)
Definition customers_at (t : Z) (data : dict Z) : Z :=
  Z.of_nat (length (filter (fun rx => (snd rx =? t)%Z) data)).

Lemma customers_occ t data : customers_at t data = occ t (dvals data).
Proof.
  unfold customers_at, occ. f_equal. induction data as [|[r x] data IH]; simpl; [reflexivity|].
  destruct (Z.eq_dec x t) as [->|Hn].
  - rewrite Z.eqb_refl. simpl. congruence.
  - apply Z.eqb_neq in Hn. rewrite Hn. exact IH.
Qed.

(* ------------------------------------------------------------------ *)
(** ** C01 and C07 *)

(** After any history (accepted or rejected calls): the stored seating is the
    one read off the accepted calls, a table is listed iff someone sits there,
    with the number of its customers, and N is the number of customers. *)
Theorem C07_crp_counts : forall alpha ops s tr,
  crp_run (crp_new alpha) ops = (s, tr) ->
  (forall r, dget r (c_data s) = seating tr (fun _ => None) r) /\
  NoDup (dkeys (c_data s)) /\ NoDup (dkeys (c_counts s)) /\
  c_N s = Z.of_nat (length (c_data s)) /\
  forall t, dget t (c_counts s) =
    if (customers_at t (c_data s) =? 0)%Z then None else Some (customers_at t (c_data s)).
Proof.
  intros alpha ops s tr Hrun.
  pose proof (seating_run ops _ _ _ (crp_inv_new alpha) Hrun) as Hd.
  pose proof (crp_inv_run ops _ (crp_inv_new alpha)) as Hi. rewrite Hrun in Hi. simpl in Hi.
  destruct Hi as [H1 [[H2 H3] H4]]. split; [exact Hd|]. repeat split; auto.
  intros t. rewrite customers_occ. apply H3.
Qed.
Print Assumptions C07_crp_counts.

(** Unseating a seated customer always succeeds (the count lookup cannot
    fail), and no other call than an unknown row raises. *)
Theorem C07_crp_unseat : forall alpha ops s tr r,
  crp_run (crp_new alpha) ops = (s, tr) ->
  (snd (crp_unincorporate s r) = Ok tt <-> exists t, dget r (c_data s) = Some t).
Proof.
  intros alpha ops s tr r Hrun.
  pose proof (crp_inv_run ops _ (crp_inv_new alpha)) as Hi. rewrite Hrun in Hi. simpl in Hi.
  destruct (crp_inv_uninc s r Hi) as [_ H]. split.
  - unfold crp_unincorporate. destruct (dget r (c_data s)); [eauto|discriminate].
  - intros [t Ht]. eapply H; eauto.
Qed.
Print Assumptions C07_crp_unseat.

Theorem C01_crp : forall alpha ops s tr,
  crp_run (crp_new alpha) ops = (s, tr) ->
  (forall r, dget r (c_data s) = seating tr (fun _ => None) r) /\
  c_N s = Z.of_nat (length (c_data s)) /\
  Permutation (c_counts s)
    (map (fun t => (t, customers_at t (c_data s))) (nodup Z.eq_dec (dvals (c_data s)))).
Proof.
  intros alpha ops s tr Hrun. destruct (C07_crp_counts _ _ _ _ Hrun) as [Hd [Hnd [Hndc [HN Hc]]]].
  split; [exact Hd|]. split; [exact HN|].
  set (l := nodup Z.eq_dec (dvals (c_data s))).
  assert (Ek : dkeys (map (fun t => (t, customers_at t (c_data s))) l) = l).
  { unfold dkeys. rewrite map_map. apply map_id. }
  assert (Hl : NoDup (dkeys (map (fun t => (t, customers_at t (c_data s))) l))).
  { rewrite Ek. apply NoDup_nodup. }
  apply dict_ext_perm; auto. intros t. rewrite Hc.
  assert (Hin : In t l <-> (0 < customers_at t (c_data s))%Z).
  { unfold l. rewrite nodup_In, customers_occ. symmetry. apply occ_pos. }
  destruct (Z.eqb_spec (customers_at t (c_data s)) 0) as [E|E].
  - symmetry. apply dget_None_notin. rewrite Ek, Hin. lia.
  - symmetry. apply dget_In_NoDup; [exact Hl|]. apply in_map_iff. exists t. split; [reflexivity|].
    apply Hin. unfold customers_at in *. lia.
Qed.
Print Assumptions C01_crp.

Example C07_ex :
  crp_run (crp_new 1) [CInc 1 5; CInc 2 5; CInc 2 9; CInc 3 7; CUninc 4; CUninc 3]
  = (Crp 2 [(1, 5); (2, 5)]%Z [(5, 2)]%Z 1,
     [(CInc 1 5, Ok tt); (CInc 2 5, Ok tt); (CInc 2 9, Err AssertionError);
      (CInc 3 7, Ok tt); (CUninc 4, Err KeyError); (CUninc 3, Ok tt)]).
Proof. reflexivity. Qed.

(* ------------------------------------------------------------------ *)
(** ** C02, C03 *)

Theorem C02_crp : forall alpha ops s tr r x s1,
  crp_run (crp_new alpha) ops = (s, tr) ->
  crp_incorporate s r x = (s1, Ok tt) ->
  crp_unincorporate s1 r = (s, Ok tt).
Proof.
  intros alpha ops s tr r x s1 Hrun. apply crp_uninc_inc.
  pose proof (crp_inv_run ops _ (crp_inv_new alpha)) as Hi. rewrite Hrun in Hi. exact Hi.
Qed.
Print Assumptions C02_crp.

Theorem C03_crp : forall lgam a1 ops1 s1 tr1 a2 ops2 s2 tr2,
  crp_run (crp_new a1) ops1 = (s1, tr1) ->
  crp_run (crp_new a2) ops2 = (s2, tr2) ->
  (forall r, dget r (c_data s1) = dget r (c_data s2)) -> c_alpha s1 = c_alpha s2 ->
  c_N s1 = c_N s2 /\ (forall t, dget t (c_counts s1) = dget t (c_counts s2)) /\
  crp_score lgam s1 = crp_score lgam s2 /\
  forall r x, crp_logpdf s1 r x = crp_logpdf s2 r x.
Proof.
  intros lgam a1 ops1 s1 tr1 a2 ops2 s2 tr2 H1 H2 Hd Ha.
  pose proof (crp_inv_run ops1 _ (crp_inv_new a1)) as Hi1. rewrite H1 in Hi1.
  pose proof (crp_inv_run ops2 _ (crp_inv_new a2)) as Hi2. rewrite H2 in Hi2. simpl in *.
  destruct (crp_score_perm lgam s1 s2 Hi1 Hi2 Hd Ha) as [E1 [E2 [E3 E4]]].
  repeat split; auto. intros t. apply perm_dget; [apply Hi1|exact E2].
Qed.
Print Assumptions C03_crp.

Example C03_crp_ex :
  let s1 := fst (crp_run (crp_new 1) [CInc 1 5; CInc 2 7]) in
  let s2 := fst (crp_run (crp_new 1) [CInc 2 7; CInc 3 5; CInc 1 5; CUninc 3]) in
  c_counts s1 <> c_counts s2 /\ (forall r, dget r (c_data s1) = dget r (c_data s2)).
Proof.
  simpl. split; [discriminate|]. intros r.
  destruct (Z.eqb_spec r 1), (Z.eqb_spec r 2); subst; try reflexivity; discriminate.
Qed.

(* ------------------------------------------------------------------ *)
(** ** C06 and C04 for the crp *)

(** The candidate tables of simulate are the occupied tables, each once, plus
    one unoccupied table; their predictive probabilities sum to one. *)
Theorem C06_crp : forall alpha ops s tr r,
  0 < alpha -> crp_run (crp_new alpha) ops = (s, tr) -> dget r (c_data s) = None ->
  exists old new, crp_tables s = old ++ [new] /\ NoDup old /\
    (forall t, In t old <-> In t (dvals (c_data s))) /\ ~ In new (dvals (c_data s)) /\
    Rsum (map (fun t => prob (crp_logpdf s r t)) (old ++ [new])) = 1.
Proof.
  intros alpha ops s tr r Ha0 Hrun Hr.
  pose proof (crp_inv_run ops _ (crp_inv_new alpha)) as Hi.
  pose proof (crp_alpha_run ops (crp_new alpha) Ha0) as Ha.
  rewrite Hrun in Hi, Ha. simpl in Hi, Ha.
  pose proof (crp_N_nonneg s Hi) as HN.
  assert (Hp : forall t, prob (crp_logpdf s r t) =
     match dget t (c_counts s) with Some c => IZR c | None => c_alpha s end / (IZR (c_N s) + c_alpha s)).
  { intros t. destruct (crp_pred_prob s r t Hi Ha Hr) as [v [E1 E2]]. rewrite E1. simpl. exact E2. }
  pose proof Hi as [Hnd [Hc HNe]].
  exists (zsort (dkeys (c_counts s))).
  exists (match zmax_list (dkeys (c_counts s)) with Some m => (m + 1)%Z | None => 0%Z end).
  assert (Hnew : ~ In (match zmax_list (dkeys (c_counts s)) with Some m => (m + 1)%Z | None => 0%Z end)
                   (dkeys (c_counts s))).
  { destruct (zmax_list (dkeys (c_counts s))) eqn:E; [apply zmax_fresh; exact E|].
    apply zmax_list_None in E. rewrite E. auto. }
  split.
  { unfold crp_tables. destruct (zmax_list (dkeys (c_counts s))) eqn:E; [reflexivity|].
    apply zmax_list_None in E. rewrite E. reflexivity. }
  split; [apply zsort_NoDup; apply Hc|]. split.
  { intros t. rewrite zsort_in. apply counts_of_keys. exact Hc. }
  split.
  { intros F. apply Hnew. apply (counts_of_keys _ _ _ Hc). exact F. }
  rewrite map_app, Rsum_app. cbn [map]. rewrite Hp.
  rewrite (proj2 (dget_None_notin _ _) Hnew).
  rewrite (map_ext _ _ Hp). rewrite Rsum_map_div.
  rewrite (Rsum_perm _ _ (Permutation_map _ (zsort_perm (dkeys (c_counts s))))).
  rewrite (map_dget_keys (fun o => match o with Some c => IZR c | None => c_alpha s end)) by apply Hc.
  rewrite Rsum_IZR, (counts_of_total _ _ Hc), length_dvals, <- HNe. simpl. field. lra.
Qed.
Print Assumptions C06_crp.

(** A row that is seated is at its table with probability one. *)
Theorem C06_crp_seated : forall draw alpha ops s tr r t,
  crp_run (crp_new alpha) ops = (s, tr) -> dget r (c_data s) = Some t ->
  crp_simulate draw s r = Ok t /\
  forall x, exists l, crp_logpdf s r x = Ok l /\ logw l /\ lexp l = if (x =? t)%Z then 1 else 0.
Proof.
  intros draw alpha ops s tr r t _ Hr. split; [unfold crp_simulate; rewrite Hr; reflexivity|].
  intros x. unfold crp_logpdf. rewrite Hr, Z.eqb_sym. destruct (x =? t)%Z; eexists; (split; [reflexivity|]); (split; [exact I|]).
  - cbn. apply exp_0.
  - reflexivity.
Qed.
Print Assumptions C06_crp_seated.
Example C06_crp_seated_ex : exists s tr, crp_run (crp_new 1) [CInc 4 2; CInc 5 2] = (s, tr) /\ dget 4%Z (c_data s) = Some 2%Z.
Proof. eexists _, _. split; reflexivity. Qed.

(** Predictive probability is the ratio of scores. *)
Theorem C04_crp : forall lgam alpha ops s tr r x,
  (forall x, 0 < x -> lgam (x + 1) = ln x + lgam x) -> lgam 1 = 0 ->
  0 < alpha -> crp_run (crp_new alpha) ops = (s, tr) -> dget r (c_data s) = None ->
  exists before after s',
    crp_incorporate s r x = (s', Ok tt) /\
    crp_score lgam s = Ok (Fin before) /\
    crp_score lgam s' = Ok (Fin after) /\
    crp_logpdf s r x = Ok (Fin (after - before)).
Proof.
  intros lgam alpha ops s tr r x Hg H1 Ha0 Hrun Hr.
  pose proof (crp_inv_run ops _ (crp_inv_new alpha)) as Hi.
  pose proof (crp_alpha_run ops (crp_new alpha) Ha0) as Ha.
  rewrite Hrun in Hi, Ha. simpl in Hi, Ha. apply crp_chain; assumption.
Qed.
Print Assumptions C04_crp.

(** simulate never fails on a reachable crp, returns the stored table of a
    seated row, and otherwise an occupied table or the one new table; the
    weights it hands to the sampler are the predictive probabilities. *)
Theorem C06_crp_simulate : forall draw alpha ops s tr r,
  draw_ok draw -> 0 < alpha -> crp_run (crp_new alpha) ops = (s, tr) ->
  exists t, crp_simulate draw s r = Ok t /\
    match dget r (c_data s) with
    | Some z => t = z
    | None => In t (crp_tables s)
    end.
Proof.
  intros draw alpha ops s tr r Hd Ha0 Hrun. unfold crp_simulate.
  destruct (dget r (c_data s)) as [z|] eqn:Hr; [eauto|].
  destruct (C06_crp alpha ops s tr r Ha0 Hrun Hr) as [old [new [Et [_ [_ [_ Hs]]]]]].
  rewrite <- Et in Hs.
  pose proof (crp_inv_run ops _ (crp_inv_new alpha)) as Hi.
  pose proof (crp_alpha_run ops (crp_new alpha) Ha0) as Ha.
  rewrite Hrun in Hi, Ha. simpl in Hi, Ha.
  assert (G : forall K, exists ls, rsequence (map (fun x => crp_logpdf s r x) K) = Ok ls /\
     length ls = length K /\ Forall logw ls /\
     map lexp ls = map (fun t => prob (crp_logpdf s r t)) K).
  { induction K as [|t K [ls [E [EL [EF EM]]]]]; [exists []; repeat split; constructor|].
    destruct (crp_pred_prob s r t Hi Ha Hr) as [v [E1 _]].
    exists (Fin v :: ls). simpl. rewrite E1, E. simpl. rewrite EL, EM.
    split; [reflexivity|]. split; [reflexivity|]. split; [|reflexivity].
    constructor; [exact I|exact EF]. }
  destruct (G (crp_tables s)) as [ls [E [EL [EF EM]]]]. rewrite E. cbn [rbind].
  destruct (log_pflip_spec draw ls (crp_tables s) Hd EF) as [i [a [y [Ef [Ha' _]]]]].
  - rewrite EM, Hs. lra.
  - congruence.
  - exists a. split; [exact Ef|]. eapply nth_error_In; eauto.
Qed.
Print Assumptions C06_crp_simulate.

Example C06_crp_ex : 0 < 1 /\
  dget 9 (c_data (fst (crp_run (crp_new 1) [CInc 1 5; CInc 2 7]))) = None /\
  crp_tables (fst (crp_run (crp_new 1) [CInc 1 5; CInc 2 3])) = [3; 5; 6]%Z.
Proof. split; [lra|]. split; reflexivity. Qed.

(* ------------------------------------------------------------------ *)
(** ** C08 *)

(** Total log probability of seating [rows] one after the other. *)
Fixpoint seq_seat (s : crp) (rows : list (Z * Z)) : option (R * crp) :=
  match rows with
  | [] => Some (0, s)
  | (r, x) :: rows' =>
      match crp_logpdf s r x, crp_incorporate s r x with
      | Ok (Fin v), (s', Ok _) =>
          match seq_seat s' rows' with
          | Some (t, s'') => Some (v + t, s'')
          | None => None
          end
      | _, _ => None
      end
  end.

Lemma seq_seat_eq s rows : seq_seat s rows = crp_seq s rows.
Proof. reflexivity. Qed.

(** The score is the total of the sequential log probabilities, and has the
    closed form over the distinct tables. *)
Theorem C08_crp_score : forall lgam alpha rows,
  (forall x, 0 < x -> lgam (x + 1) = ln x + lgam x) -> lgam 1 = 0 ->
  0 < alpha -> NoDup (map fst rows) ->
  exists total s,
    seq_seat (crp_new alpha) rows = Some (total, s) /\ c_data s = rows /\
    crp_score lgam s = Ok (Fin total) /\
    logp_crp lgam (c_N s) (dvals (c_counts s)) alpha = Ok (Fin total) /\
    total = Rsum (map (fun t => ln alpha + lgam (IZR (customers_at t rows)))
                   (nodup Z.eq_dec (map snd rows)))
            + lgam alpha - lgam (INR (length rows) + alpha).
Proof.
  intros lgam alpha rows Hg H1 Ha Hnd.
  destruct (crp_seq_score lgam rows (crp_new alpha) Hg H1 (crp_inv_new alpha) Ha Hnd)
    as [a [t [s [E1 [E2 [Hi [E3 [E4 E5]]]]]]]].
  assert (a = 0).
  { unfold crp_score, crp_marginal in E1. simpl in E1. rewrite plog_pos in E1 by exact Ha. simpl in E1.
    injection E1 as <-. rewrite Rplus_0_l with (r := alpha). simpl. lra. }
  subst a. rewrite Rplus_0_l in E5. simpl in E3, E4.
  exists t, s. rewrite seq_seat_eq. split; [exact E2|]. split; [exact E4|]. split; [exact E5|].
  assert (E6 : logp_crp lgam (c_N s) (dvals (c_counts s)) alpha = Ok (Fin t)).
  { rewrite <- E5. unfold crp_score, crp_marginal, logp_crp. rewrite E3, length_dvals. reflexivity. }
  split; [exact E6|].
  unfold logp_crp in E6. rewrite plog_pos in E6 by exact Ha. cbn [rbind] in E6. injection E6 as <-.
  destruct Hi as [_ [Hc HN]]. rewrite HN, E4, INR_IZR_INZ.
  rewrite (Rsum_map_plus (fun _ => ln alpha)), Rsum_map_const.
  assert (P : Permutation (dvals (c_counts s))
     (map (fun t => customers_at t rows) (nodup Z.eq_dec (map snd rows)))).
  { destruct Hc as [Hndc Hc]. rewrite E4 in Hc.
    assert (P : Permutation (dkeys (c_counts s)) (nodup Z.eq_dec (map snd rows))).
    { apply NoDup_Permutation; [exact Hndc|apply NoDup_nodup|]. intros x. rewrite nodup_In.
      apply (counts_of_keys _ _ _ (conj Hndc Hc)). }
    apply (Permutation_map (fun t => customers_at t rows)) in P.
    eapply perm_trans; [|exact P].
    unfold dvals, dkeys. rewrite map_map.
    assert (Em : map snd (c_counts s) = map (fun x => customers_at (fst x) rows) (c_counts s)).
    { apply map_ext_in. intros [k v] Hin. simpl. apply dget_In_NoDup in Hin; [|exact Hndc].
      rewrite Hc in Hin. rewrite customers_occ. unfold dvals in *.
      destruct (occ k (map snd rows) =? 0)%Z; [discriminate|]. injection Hin as <-. reflexivity. }
    rewrite Em. apply Permutation_refl. }
  rewrite (Permutation_length P), map_length.
  rewrite (Rsum_perm _ _ (Permutation_map (fun c => lgam (IZR c)) P)), map_map.
  rewrite <- !INR_IZR_INZ. reflexivity.
Qed.
Print Assumptions C08_crp_score.

(** Hence the total does not depend on the order of seating. *)
Theorem C08_crp_order : forall lgam alpha rows1 rows2,
  (forall x, 0 < x -> lgam (x + 1) = ln x + lgam x) -> lgam 1 = 0 ->
  0 < alpha -> NoDup (map fst rows1) -> Permutation rows1 rows2 ->
  exists total s1 s2,
    seq_seat (crp_new alpha) rows1 = Some (total, s1) /\
    seq_seat (crp_new alpha) rows2 = Some (total, s2).
Proof.
  intros lgam alpha rows1 rows2 Hg H1 Ha Hnd P.
  assert (Hnd2 : NoDup (map fst rows2)) by (eapply Permutation_NoDup; [apply Permutation_map; exact P|exact Hnd]).
  destruct (crp_seq_score lgam rows1 (crp_new alpha) Hg H1 (crp_inv_new alpha) Ha Hnd)
    as [a [t [s [E1 [E2 [Hi [E3 [E4 E5]]]]]]]].
  destruct (crp_seq_score lgam rows2 (crp_new alpha) Hg H1 (crp_inv_new alpha) Ha Hnd2)
    as [a' [t' [s' [F1 [F2 [Fi [F3 [F4 F5]]]]]]]].
  simpl in E4, F4, E3, F3. rewrite E1 in F1. injection F1 as <-.
  exists t, s, s'. rewrite !seq_seat_eq. split; [exact E2|].
  destruct (crp_score_perm lgam s s' Hi Fi) as [_ [_ [Es _]]].
  - intros r. rewrite E4, F4. apply perm_dget; assumption.
  - congruence.
  - rewrite E5, F5 in Es. injection Es as Es. replace t with t' by lra. exact F2.
Qed.
Print Assumptions C08_crp_order.

Example C08_ex : NoDup (map fst [(1, 5); (2, 7); (3, 5)]%Z) /\
  Permutation [(1, 5); (2, 7); (3, 5)]%Z [(3, 5); (1, 5); (2, 7)]%Z /\ 0 < 2.
Proof.
  split; [|split; [|lra]].
  - simpl. repeat constructor; simpl; lia.
  - apply Permutation_sym. apply (Permutation_cons_append [(1,5);(2,7)]%Z (3,5)%Z).
Qed.

(* ------------------------------------------------------------------ *)
(** ** C09 *)

(** For a seated customer r: the proposal has one log weight per table; no
    table is listed twice; every table occupied by the others is listed, with
    weight its predictive probability after unseating r times the common
    factor N - 1 + alpha; exactly m further tables are listed, each with
    weight alpha / m, the predictive probability of a new table split evenly
    (same common factor). *)
Theorem C09_gibbs_proposal : forall alpha ops s tr r z m,
  0 < alpha -> crp_run (crp_new alpha) ops = (s, tr) ->
  dget r (c_data s) = Some z -> (0 < m)%nat ->
  exists tables logps s',
    crp_unincorporate s r = (s', Ok tt) /\
    crp_gibbs_tables s r m = Ok tables /\ crp_gibbs_logps s r m = Ok logps /\
    length tables = length logps /\ NoDup tables /\
    (forall t, In t (dvals (c_data s')) -> In t tables) /\
    length (filter (fun t => negb (zmem t (dvals (c_data s')))) tables) = m /\
    forall i t lp, nth_error tables i = Some t -> nth_error logps i = Some lp ->
      exp lp = (IZR (c_N s) - 1 + c_alpha s) *
               prob (crp_logpdf s' r t) / (if zmem t (dvals (c_data s')) then 1 else INR m).
Proof.
  intros alpha ops s tr r z m Ha0 Hrun Hz Hm.
  pose proof (crp_inv_run ops _ (crp_inv_new alpha)) as Hi.
  pose proof (crp_alpha_run ops (crp_new alpha) Ha0) as Ha.
  rewrite Hrun in Hi, Ha. simpl in Hi, Ha.
  destruct (gibbs_data' s r z m Hi Hz Hm) as [Ed [EN [Eal [Hi' [Hr' Hok]]]]].
  destruct (gibbs_tables_spec s r z m Hi Hz Hm) as [tables [Et [Hnd [Hocc Hlen]]]].
  pose proof (gibbs_logps_eq s r z m Hi Ha Hz Hm tables Et) as El.
  set (s' := fst (crp_unincorporate s r)) in *.
  exists tables, (map (fun t => ln (gibbs_weight s r m t)) tables), s'.
  split; [unfold s'; rewrite <- Hok; apply surjective_pairing|].
  split; [exact Et|]. split; [exact El|]. split; [symmetry; apply map_length|].
  split; [exact Hnd|].
  pose proof Hi' as [_ [Hc' _]].
  assert (Hmem : forall t, zmem t (dvals (c_data s')) = dmem t (c_counts s')).
  { intros t. apply eq_iff_eq_true. rewrite zmem_in, dmem_in. symmetry. apply counts_of_keys. exact Hc'. }
  split.
  { intros t Ht. apply Hocc. apply (counts_of_keys _ _ _ Hc'). exact Ht. }
  split.
  { rewrite <- Hlen. f_equal. apply filter_ext. intros t. rewrite Hmem. reflexivity. }
  intros i t lp Hi1 Hi2. rewrite (map_nth_error _ _ _ Hi1) in Hi2. injection Hi2 as <-.
  rewrite exp_ln by (apply (gibbs_weight_pos s r z m Hi Ha Hz Hm)).
  assert (Ha' : 0 < c_alpha s') by (rewrite Eal; exact Ha).
  destruct (crp_pred_prob s' r t Hi' Ha' Hr') as [v [Ev Ex]]. rewrite Ev. simpl prob. rewrite Ex.
  pose proof (crp_N_nonneg s' Hi') as HN'. rewrite Hmem. unfold gibbs_weight, dmem. fold s'.
  rewrite EN, minus_IZR in *. rewrite Eal.
  destruct (dget t (c_counts s')).
  - field. lra.
  - field. split; [lra|]. apply Rgt_not_eq, INR_m. exact Hm.
Qed.
Print Assumptions C09_gibbs_proposal.

(** The column-level variant used by the crosscat state (a free function over
    the count and assignment dictionaries) produces the same weights. *)
Theorem C09_gibbs_columns : forall alpha ops s tr r z m,
  0 < alpha -> crp_run (crp_new alpha) ops = (s, tr) ->
  dget r (c_data s) = Some z -> (0 < m)%nat ->
  logp_crp_gibbs (c_counts s) (c_data s) r (c_alpha s) m = crp_gibbs_logps s r m.
Proof.
  intros alpha ops s tr r z m Ha0 Hrun Hz Hm.
  pose proof (crp_inv_run ops _ (crp_inv_new alpha)) as Hi.
  pose proof (crp_alpha_run ops (crp_new alpha) Ha0) as Ha.
  rewrite Hrun in Hi, Ha. simpl in Hi, Ha.
  destruct (gibbs_tables_eq s r z m Hi Hz Hm) as [mx [Emx Et]].
  rewrite (gibbs_logps_eq s r z m Hi Ha Hz Hm _ Et).
  unfold logp_crp_gibbs. rewrite Hz, (proj1 (gibbs_nz s r z m Hi Hz Hm)).
  set (nz := occ z (dvals (c_data s))) in *.
  assert (Hm0 : (m =? 0)%nat = false) by (apply Nat.eqb_neq; lia). rewrite Hm0.
  assert (E1 : rsequence (map (fun t => plog (if (t =? z)%Z then
      if (nz =? 1)%Z then c_alpha s / INR m else IZR (nz - 1)
      else match dget t (c_counts s) with Some c' => IZR c' | None => 0 end))
      (zsort (dkeys (c_counts s)))) =
      Ok (map (fun t => ln (gibbs_weight s r m t)) (zsort (dkeys (c_counts s))))).
  { apply rsequence_ok. rewrite map_map. apply map_ext_in. intros t Hin.
    rewrite <- (plog_pos (gibbs_weight s r m t)) by (apply (gibbs_weight_pos s r z m Hi Ha Hz Hm)).
    rewrite <- (gibbs_ptable s r z m Hi Hz Hm). fold nz. f_equal.
    destruct (t =? z)%Z; [reflexivity|]. apply (proj1 (zsort_in _ _)) in Hin. apply in_dkeys_Some in Hin.
    destruct Hin as [v ->]. reflexivity. }
  rewrite E1. cbn [rbind].
  assert (Hpos : 0 < c_alpha s / INR m) by (apply Rdiv_lt_0_compat; [exact Ha|apply INR_m; exact Hm]).
  rewrite plog_pos by exact Hpos. cbn [rbind]. rewrite map_app.
  assert (E2 : forall k, map (fun t => ln (gibbs_weight s r m t))
     (map (fun i => (mx + 1 + Z.of_nat i)%Z) (seq 0 k)) = repeat (ln (c_alpha s / INR m)) k).
  { intros k. rewrite map_map. transitivity (map (fun _ => ln (c_alpha s / INR m)) (seq 0 k)).
    - apply map_ext. intros i. f_equal. unfold gibbs_weight.
      rewrite (gibbs_counts' s r z m Hi Hz Hm).
      pose proof (zmax_list_spec _ _ Emx) as [_ Hub].
      destruct (Z.eqb_spec (mx + 1 + Z.of_nat i) z) as [E|E].
      + pose proof (dget_Some_in _ _ _ (proj1 (gibbs_nz s r z m Hi Hz Hm))) as Hzin.
        specialize (Hub z Hzin). lia.
      + assert (N : dget (mx + 1 + Z.of_nat i)%Z (c_counts s) = None).
        { apply dget_None_notin. intros F. specialize (Hub _ F). lia. }
        rewrite N. reflexivity.
    - generalize 0%nat. induction k as [|k IH]; intros n; simpl; [reflexivity|]. rewrite IH. reflexivity. }
  rewrite E2. destruct (if (nz =? 1)%Z then (m - 1)%nat else m); [rewrite app_nil_r|]; reflexivity.
Qed.
Print Assumptions C09_gibbs_columns.

(** Both a shared and a singleton table. *)
Example C09_ex : let s := fst (crp_run (crp_new 1) [CInc 1 5; CInc 2 5; CInc 3 7]) in
  dget 1 (c_data s) = Some 5%Z /\ dget 3 (c_data s) = Some 7%Z /\
  crp_gibbs_tables s 1 2 = Ok [5; 7; 8; 9]%Z /\ crp_gibbs_tables s 3 2 = Ok [5; 7; 8]%Z.
Proof. repeat split. Qed.

(** With no customer at all the proposal for a new customer fails instead of
    offering the auxiliary tables. *)
Theorem C09_no_customers : forall alpha r m, (0 < m)%nat ->
  crp_gibbs_tables (crp_new alpha) r m = Err ValueError.
Proof.
  intros alpha r m Hm. unfold crp_gibbs_tables. pose proof Hm as H. apply Nat.ltb_lt in H. rewrite H.
  simpl. destruct m; [lia|reflexivity].
Qed.
Print Assumptions C09_no_customers.
