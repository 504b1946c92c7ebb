(** C30, C31 (one view) and C33: the predictive density of a new row in a view. *)
From Verif Require Import Query QueryFacts QueryNet LogSpaceFacts PrimSpec PrimFacts PrimSums PoissonSum PrimLift CrpFacts BaseFacts ViewFacts RowFacts RowGibbs Classes ClassFacts P07_View Prob ListFacts.
From Coq Require Import Lia.
From Coquelicot Require Import Series.
Local Open Scope R_scope.

(** The view holds at least one row, its columns are conjugate (every collapsed class
    but Vonmises) and take no inputs, and its concentration is positive. *)
Record ready (X : table) (v : view) : Prop := {
  rd_inv : vinv X v;
  rd_dense : dense v;
  rd_rows : v_rows v <> [];
  rd_alpha : 0 < c_alpha (v_crp v);
  rd_out : ~ In (v_out v) (dkeys (v_dims v));
  rd_cols : forall c a, dget c (v_dims v) = Some a -> atotal a /\ d_ins (a_d a) = []
}.

(** A set of cells of the view's columns. *)
Definition of_view (v : view) (D : dict cell) : Prop :=
  NoDup (dkeys D) /\ forall c, In c (dkeys D) -> In c (dkeys (v_dims v)).
Definition disjoint (A B : dict cell) : Prop := forall c, In c (dkeys A) -> ~ In c (dkeys B).

(** The same without the condition that the rows are numbered consecutively. *)
Record settled (X : table) (v : view) : Prop := {
  st_inv : vinv X v;
  st_nonneg : rows_nonneg v;
  st_rows : v_rows v <> [];
  st_alpha : 0 < c_alpha (v_crp v);
  st_out : ~ In (v_out v) (dkeys (v_dims v));
  st_cols : forall c a, dget c (v_dims v) = Some a -> atotal a /\ d_ins (a_d a) = []
}.
Lemma ready_settled X v : ready X v -> settled X v.
Proof. intros H. split; try apply H. apply dense_nonneg, H. Qed.

Lemma settled_clusters X v : settled X v -> forall c a, dget c (v_dims v) = Some a ->
  forall k, In k (akeys a) -> In k (dvals (v_rows v)).
Proof.
  intros H c a Ha k Hk. destruct (st_inv _ _ H) as [Hc [_ Hcol]]. destruct (Hcol c a Ha) as [_ [Hk' _]].
  apply Hk' in Hk. apply (counts_of_keys _ _ _ (proj1 (proj2 Hc))). exact Hk.
Qed.
Lemma ready_clusters X v : ready X v -> forall c a, dget c (v_dims v) = Some a ->
  forall k, In k (akeys a) -> In k (dvals (v_rows v)).
Proof. intros H. apply (settled_clusters X), ready_settled, H. Qed.

Lemma settled_query X v D : settled X v -> of_view v D -> query_ok v D.
Proof.
  intros H [_ HD] c x Hin. assert (Hc : In c (dkeys (v_dims v))) by (apply HD; apply (in_map fst) in Hin; exact Hin).
  apply in_dkeys_Some in Hc. destruct Hc as [a Ea]. exists a. split; [exact Ea|]. intros k.
  eapply col_ok; try apply H; try exact Ea. apply nonneg_norow, H.
Qed.
Lemma ready_query X v D : ready X v -> of_view v D -> query_ok v D.
Proof. intros H. apply (settled_query X), ready_settled, H. Qed.

Lemma of_view_app v A B : of_view v A -> of_view v B -> disjoint A B -> of_view v (A ++ B).
Proof.
  intros [A1 A2] [B1 B2] Hd. split.
  - unfold dkeys. rewrite map_app. apply NoDup_app_intro; assumption.
  - intros c. unfold dkeys at 1. rewrite map_app, in_app_iff. intros [H|H]; auto.
Qed.

(** ** C30 *)

(** sampling.py: the density of the targets given the constraints is the mixture over
    the clusters of targets and constraints, divided by that of the constraints;
    constraints of density zero raise ValueError. *)
Theorem C30_mixture : forall X v r T C, ready X v -> v_hypothetical v r = true ->
  of_view v T -> of_view v C ->
  0 <= mixture v C /\
  (mixture v C = 0 -> view_logpdf v r T C = Err ValueError) /\
  (0 < mixture v C -> exists l, view_logpdf v r T C = Ok l /\ logw l /\
     lexp l = mixture v (T ++ C) / mixture v C).
Proof.
  intros X v r T C H Hr HT HC.
  pose proof (ready_clusters X v H) as Hk. pose proof (proj1 (rd_inv _ _ H)) as Hc.
  pose proof (dense_norow v (rd_dense _ _ H)) as Hn.
  split; [apply mixture_nonneg; try assumption; apply H|].
  destruct (view_logpdf_eq v Hc (rd_rows _ _ H) Hn (rd_alpha _ _ H) Hk r T C Hr (ready_query X v T H HT) (ready_query X v C H HC))
    as [E0 E1].
  split; [exact E0|]. intros Hp. exists (log_of (mixture v (T ++ C) / mixture v C)). split; [apply E1; exact Hp|].
  assert (Hq : 0 <= mixture v (T ++ C) / mixture v C).
  { apply Rmult_le_pos; [apply mixture_nonneg; try assumption; apply H|]. apply Rlt_le, Rinv_0_lt_compat. exact Hp. }
  split; [apply logw_log_of|apply lexp_log_of; exact Hq].
Qed.
Print Assumptions C30_mixture.

(** Both ways of answering the query, for a row that the view does not hold. *)
Lemma settled_agree X v kd xd r T C : settled X v -> dget r (v_rows v) = None -> v_hypothetical v r = true ->
  of_view v T -> of_view v C -> disjoint T C ->
  vquery_logpdf kd xd X v r (cells T) (cells C) [] = view_logpdf v r T C.
Proof.
  intros H Hnr Hr HT HC Hdis.
  pose proof (settled_clusters X v H) as Hk. pose proof (proj1 (st_inv _ _ H)) as Hc.
  pose proof (nonneg_norow v (st_nonneg _ _ H)) as Hn.
  destruct (view_logpdf_eq v Hc (st_rows _ _ H) Hn (st_alpha _ _ H) Hk r T C Hr (settled_query X v T H HT) (settled_query X v C H HC))
    as [E0 E1].
  assert (Hpop : view_populate X v r false (dkeys (cells T)) (cells C) = Ok (cells C)).
  { unfold view_populate, view_validate. cbn [andb]. rewrite !cells_keys.
    assert (Ho : overlap (dkeys T) (dkeys C) = false).
    { unfold overlap. destruct (existsb _ _) eqn:E; [|reflexivity]. apply existsb_exists in E.
      destruct E as [c [Hc1 Hc2]]. apply zmem_in in Hc2. destruct (Hdis c Hc1 Hc2). }
    rewrite Ho, Hr. reflexivity. }
  unfold vquery_logpdf. rewrite Hpop. cbn [rbind]. rewrite Hr.
  assert (Hno : forall D, of_view v D -> dget (v_out v) (cells D) = None).
  { intros D HD. rewrite cells_get. destruct (dget (v_out v) D) eqn:E; [|reflexivity].
    destruct (st_out _ _ H). apply HD. eapply dget_Some_in. exact E. }
  unfold dmem. rewrite (Hno C HC), (Hno T HT).
  unfold view_marginal. rewrite (tables_eq v Hc (st_rows _ _ H) Hn). cbn [rbind].
  set (K := all_clusters v).
  assert (Hcalls : forall {B} (f : nat -> dict val -> res B) (h : Z -> B) (l : list Z) n,
     (forall j k, f j (with_cluster v C k) = Ok (h k)) ->
     rsequence (map (fun jc => f (fst jc) (snd jc)) (combine (seq n (length l)) (map (with_cluster v C) l))) = Ok (map h l)).
  { intros B f h l. induction l as [|k l IH]; intros n Hf; [reflexivity|]. cbn [length seq map combine rsequence fst snd].
    rewrite Hf. cbn [rbind]. rewrite IH by exact Hf. reflexivity. }
  assert (Hcl : forall l, calls (map (with_cluster v C) l) = combine (seq 0 (length l)) (map (with_cluster v C) l)).
  { intros l. unfold calls. rewrite map_length. reflexivity. }
  set (N := INR (length (v_rows v))). set (alpha := c_alpha (v_crp v)).
  assert (J : forall j k, net_logpdf kd xd v j r (with_cluster v C k) [] [] =
      Ok (log_of (pweight v k / (N + alpha) * joint v (old_pdf k) C))).
  { intros j k. erewrite (net_joint X v); try apply H; [|exact Hnr|apply evidence_with; [apply H|exact HC]].
    rewrite (gfactor_joint X) by (try apply HC; apply H). reflexivity. }
  change (map (fun k => merged (cells C) [(v_out v, VClus k)]) K) with (map (with_cluster v C) K).
  rewrite Hcl. rewrite (Hcalls _ (fun j c => net_logpdf kd xd v j r c [] []) _ K 0%nat J). cbn [rbind].
  set (lc := fun k => log_of (pweight v k / (N + alpha) * joint v (old_pdf k) C)).
  assert (Hpr : forall k, 0 < pweight v k / (N + alpha)).
  { intros k. apply (prior_pos X v); apply H. }
  assert (Lc : Forall logw (map lc K)).
  { apply Forall_forall. intros y Hy. apply in_map_iff in Hy. destruct Hy as [k [<- _]]. apply logw_log_of. }
  assert (Ec : forall k, lexp (lc k) = pweight v k / (N + alpha) * joint v (old_pdf k) C).
  { intros k. apply lexp_log_of. apply Rmult_le_pos; [apply Rlt_le, Hpr|apply joint_nonneg, old_pdf_nonneg]. }
  assert (Sc : Rsum (map lexp (map lc K)) = mixture v C).
  { rewrite <- (mixture_sum v Hc (st_rows _ _ H) Hk C), map_map. apply Rsum_ext. intros k _. apply Ec. }
  unfold log_normalize. rewrite (logsumexp_logw _ Lc), Sc. cbn [rbind].
  destruct (Req_dec (mixture v C) 0) as [Hz|Hnz].
  - rewrite (E0 Hz).
    assert (Hj : forall k, joint v (old_pdf k) C = 0).
    { assert (Hk0 : exists k, joint v (old_pdf k) C = 0).
      { rewrite <- (mixture_sum v Hc (st_rows _ _ H) Hk C) in Hz.
        exists (new_cluster v). assert (Hin : In (new_cluster v) K) by (unfold K, all_clusters; apply in_app_iff; right; left; reflexivity).
        pose proof (Rsum_zero_each0 (map (fun k => pweight v k / (N + alpha) * joint v (old_pdf k) C) K)) as Hze.
        assert (Hm : pweight v (new_cluster v) / (N + alpha) * joint v (old_pdf (new_cluster v)) C = 0).
        { apply Hze; [|exact Hz|apply in_map_iff; exists (new_cluster v); auto].
          apply Forall_forall. intros y Hy. apply in_map_iff in Hy. destruct Hy as [k [<- _]].
          apply Rmult_le_pos; [apply Rlt_le, Hpr|apply joint_nonneg, old_pdf_nonneg]. }
        apply Rmult_integral in Hm. destruct Hm as [Hm|Hm]; [pose proof (Hpr (new_cluster v)); lra|exact Hm]. }
      destruct Hk0 as [k0 Hk0]. intros k. eapply (joint_support X v); try apply H; [exact HC|exact Hk0]. }
    assert (Hlen : K <> []) by (unfold K, all_clusters; destruct (zsort _); discriminate).
    destruct K as [|k K']; [contradiction|]. cbn [length seq map combine rsequence fst snd].
    rewrite (proj1 (net_cond X v (st_inv _ _ H) (st_nonneg _ _ H) (st_rows _ _ H) (st_alpha _ _ H) (st_out _ _ H) (st_cols _ _ H)
       kd xd _ r T C k Hnr HT HC Hdis) (Hj k)).
    reflexivity.
  - assert (Hp : 0 < mixture v C).
    { pose proof (mixture_nonneg v Hc (st_rows _ _ H) (st_alpha _ _ H) Hk C). lra. }
    rewrite (E1 Hp).
    assert (Hj : forall k, joint v (old_pdf k) C <> 0).
    { intros k Hk0. apply Hnz. rewrite <- (mixture_sum v Hc (st_rows _ _ H) Hk C). apply Rsum_zero.
      intros k' _. rewrite (joint_support X v (st_inv _ _ H) (st_nonneg _ _ H) (st_cols _ _ H) k k' C HC Hk0). ring. }
    assert (Tk : forall j k, net_logpdf kd xd v (length K + j) r (cells T) (with_cluster v C k) [] =
        Ok (log_of (joint v (old_pdf k) T))).
    { intros j k. apply (proj2 (net_cond X v (st_inv _ _ H) (st_nonneg _ _ H) (st_rows _ _ H) (st_alpha _ _ H) (st_out _ _ H) (st_cols _ _ H)
       kd xd _ r T C k Hnr HT HC Hdis) (Hj k)). }
    rewrite (Hcalls _ (fun j c => net_logpdf kd xd v (length K + j) r (cells T) c []) _ K 0%nat Tk). cbn [rbind].
    rewrite (log_of_pos _ Hp), map_map, eadds_map.
    assert (L2 : forall k, logw (esub (lc k) (Fin (ln (mixture v C))))).
    { intros k. unfold esub. apply logw_eadd; [apply logw_log_of|exact I]. }
    rewrite logsumexp_logw.
    2:{ apply Forall_forall. intros y Hy. apply in_map_iff in Hy. destruct Hy as [k [<- _]].
        apply logw_eadd; [apply L2|apply logw_log_of]. }
    do 2 f_equal. rewrite <- (mixture_sum v Hc (st_rows _ _ H) Hk (T ++ C)), <- Rsum_map_div, map_map.
    apply Rsum_ext. intros k _. rewrite lexp_eadd; [|apply L2|apply logw_log_of].
    unfold esub. rewrite lexp_eadd; [|apply logw_log_of|exact I]. rewrite Ec, lexp_log_of by (apply joint_nonneg, old_pdf_nonneg).
    cbn [eopp lexp]. rewrite exp_Ropp, exp_ln by exact Hp. rewrite joint_app. unfold N, alpha.
    pose proof (N_pos v (st_rows _ _ H)). pose proof (st_alpha _ _ H). field. split; lra.
Qed.

(** The query through the importance network (view.py) gives the same result, or the
    same exception, for every draw of its components. *)
Theorem C30_agree : forall X v kdraw xdraw r T C, ready X v -> v_hypothetical v r = true ->
  of_view v T -> of_view v C -> disjoint T C ->
  vquery_logpdf kdraw xdraw X v r (cells T) (cells C) [] = view_logpdf v r T C.
Proof.
  intros X v kd xd r T C H Hr. apply settled_agree; [apply ready_settled; exact H| |exact Hr].
  apply dense_not_held; [apply H|exact Hr].
Qed.
Print Assumptions C30_agree.

(** With the cluster among the constraints the density is that of the cluster. *)
Theorem C30_given_cluster : forall X v kdraw xdraw r T C k, ready X v -> v_hypothetical v r = true ->
  of_view v T -> of_view v C -> disjoint T C ->
  let p := joint v (old_pdf k) in
  let answer := vquery_logpdf kdraw xdraw X v r (cells T) (merged (cells C) [(v_out v, VClus k)]) [] in
  (p C = 0 -> answer = Err ValueError) /\
  (p C <> 0 -> exists l, answer = Ok l /\ logw l /\ lexp l = p T).
Proof.
  intros X v kd xd r T C k H Hr HT HC Hdis p answer.
  pose proof (dense_not_held v r (rd_dense _ _ H) Hr) as Hnr.
  assert (Hget : forall c, dget c (with_cluster v C k) = if (c =? v_out v)%Z then Some (VClus k) else dget c (cells C)).
  { intros c. unfold with_cluster. rewrite merged_get; [|rewrite cells_keys; apply HC|repeat constructor; intros []].
    cbn [dget]. destruct (c =? v_out v)%Z; reflexivity. }
  assert (Hpop : view_populate X v r false (dkeys (cells T)) (with_cluster v C k) = Ok (with_cluster v C k)).
  { unfold view_populate, view_validate. cbn [andb]. rewrite cells_keys.
    assert (Ho : overlap (dkeys T) (dkeys (with_cluster v C k)) = false).
    { unfold overlap. destruct (existsb _ _) eqn:E; [|reflexivity]. apply existsb_exists in E.
      destruct E as [c [Hc1 Hc2]]. apply zmem_in in Hc2. apply in_dkeys_Some in Hc2. destruct Hc2 as [y Hy].
      rewrite Hget in Hy. destruct (Z.eqb_spec c (v_out v)) as [->|].
      - destruct (rd_out _ _ H). apply HT. exact Hc1.
      - destruct (Hdis c Hc1). rewrite <- cells_keys. eapply dget_Some_in. exact Hy. }
    rewrite Ho, Hr. reflexivity. }
  unfold answer. change (merged (cells C) [(v_out v, VClus k)]) with (with_cluster v C k).
  unfold vquery_logpdf. rewrite Hpop. cbn [rbind]. rewrite Hr.
  unfold dmem. rewrite Hget, Z.eqb_refl.
  destruct (net_cond X v (rd_inv _ _ H) (dense_nonneg _ (rd_dense _ _ H)) (rd_rows _ _ H) (rd_alpha _ _ H) (rd_out _ _ H) (rd_cols _ _ H)
       kd xd 0%nat r T C k Hnr HT HC Hdis) as [N0 N1].
  split; [exact N0|]. intros Hp. exists (log_of (p T)). split; [apply N1; exact Hp|].
  split; [apply logw_log_of|apply lexp_log_of]. apply joint_nonneg, old_pdf_nonneg.
Qed.
Print Assumptions C30_given_cluster.

(** The probability that a new row joins cluster [k]: the share of the rows that hold
    it, or that of the concentration for a cluster that no row holds. *)
Definition prior (v : view) (k : Z) : R :=
  (if in_dec Z.eq_dec k (dvals (v_rows v)) then size v k else c_alpha (v_crp v))
  / (INR (length (v_rows v)) + c_alpha (v_crp v)).

Lemma merged_disjoint {V} (a b : dict V) : NoDup (dkeys a) -> NoDup (dkeys b) ->
  (forall c, In c (dkeys a) -> ~ In c (dkeys b)) -> merged a b = a ++ b.
Proof.
  assert (H : forall (b a : dict V), NoDup (dkeys b) -> (forall c, In c (dkeys a) -> ~ In c (dkeys b)) -> dupdate a b = a ++ b).
  { clear a b. induction b as [|[c x] b IH]; intros a Hb Hd; [symmetry; apply app_nil_r|].
    unfold dupdate. cbn [fold_left fst snd]. rewrite dset_fresh; [|intros Hin; exact (Hd c Hin (or_introl eq_refl))].
    change (dupdate (a ++ [(c, x)]) b = a ++ (c, x) :: b). cbn in Hb. inversion Hb; subst.
    rewrite IH; [rewrite <- app_assoc; reflexivity|assumption|].
    intros c'. unfold dkeys at 1. rewrite map_app, in_app_iff. intros [Hc|[Hc|[]]].
    - intros Hin. exact (Hd c' Hc (or_intror Hin)).
    - cbn in Hc. subst c'. assumption. }
  intros Ha Hb Hd. unfold merged. rewrite (H a []); [|exact Ha|intros c []]. cbn [app]. apply H; assumption.
Qed.

(** With the cluster among the targets, wherever it stands: the probability of the
    cluster and of its cells, divided by the density of the constraints.  Constraints of
    density zero are not refused here: the result is NaN. *)
Theorem C30_cluster_target : forall X v kdraw xdraw r Q T C k, ready X v -> v_hypothetical v r = true ->
  of_view v T -> of_view v C -> disjoint T C ->
  NoDup (dkeys Q) -> dget (v_out v) Q = Some (VClus k) -> filter (fun cx => negb (fst cx =? v_out v)%Z) Q = cells T ->
  let answer := vquery_logpdf kdraw xdraw X v r Q (cells C) [] in
  (mixture v C = 0 -> answer = Ok NaN) /\
  (0 < mixture v C -> exists l, answer = Ok l /\ logw l /\
     lexp l = prior v k * joint v (old_pdf k) (T ++ C) / mixture v C).
Proof.
  intros X v kd xd r Q T C k H Hr HT HC Hdis HQ HQk HQT answer.
  pose proof (ready_clusters X v H) as Hk. pose proof (proj1 (rd_inv _ _ H)) as Hc.
  pose proof (dense_norow v (rd_dense _ _ H)) as Hn. pose proof (dense_not_held v r (rd_dense _ _ H) Hr) as Hnr.
  assert (Hkeys : forall c, In c (dkeys Q) -> c = v_out v \/ In c (dkeys T)).
  { intros c Hin. destruct (Z.eq_dec c (v_out v)) as [->|Hne]; [left; reflexivity|right].
    rewrite <- cells_keys, <- HQT. unfold dkeys in *. apply in_map_iff in Hin. destruct Hin as [[c' x] [E Hin]]. cbn in E. subst c'.
    apply in_map_iff. exists (c, x). split; [reflexivity|]. apply filter_In. split; [exact Hin|]. cbn.
    apply negb_true_iff, Z.eqb_neq. exact Hne. }
  assert (Hno : forall D, of_view v D -> dget (v_out v) (cells D) = None).
  { intros D HD. rewrite cells_get. destruct (dget (v_out v) D) eqn:E; [|reflexivity].
    destruct (rd_out _ _ H). apply HD. eapply dget_Some_in. exact E. }
  assert (Hpop : view_populate X v r false (dkeys Q) (cells C) = Ok (cells C)).
  { unfold view_populate, view_validate. cbn [andb]. rewrite !cells_keys.
    assert (Ho : overlap (dkeys Q) (dkeys C) = false).
    { unfold overlap. destruct (existsb _ _) eqn:E; [|reflexivity]. apply existsb_exists in E.
      destruct E as [c [Hc1 Hc2]]. apply zmem_in in Hc2. destruct (Hkeys c Hc1) as [->|Hc3].
      - destruct (rd_out _ _ H). apply HC. exact Hc2.
      - destruct (Hdis c Hc3 Hc2). }
    rewrite Ho, Hr. reflexivity. }
  assert (Hnil : of_view v []) by (split; [constructor|intros c []]).
  assert (M1 : mixture v [] = 1) by (apply mixture_nil; try assumption; apply H).
  assert (Hprior : prior v k = pweight v k / (INR (length (v_rows v)) + c_alpha (v_crp v))).
  { unfold prior. f_equal. destruct (in_dec Z.eq_dec k (dvals (v_rows v))) as [Hi|Hi].
    - symmetry. apply (pweight_old v Hc k Hi).
    - symmetry. apply (pweight_new v Hc k Hi). }
  pose proof (prior_pos X v (rd_inv _ _ H) (rd_rows _ _ H) (rd_alpha _ _ H) k) as Hpp. rewrite <- Hprior in Hpp.
  (* the cluster *)
  assert (L1 : net_logpdf kd xd v 0 r [(v_out v, VClus k)] [] [] = Ok (log_of (prior v k))).
  { pose proof (net_joint X v (rd_inv _ _ H) (dense_nonneg _ (rd_dense _ _ H)) (rd_rows _ _ H) (rd_alpha _ _ H) (rd_out _ _ H) (rd_cols _ _ H)
      kd xd 0%nat r (with_cluster v [] k) k _ Hnr (evidence_with v (rd_out _ _ H) [] k Hnil)) as E.
    change (with_cluster v [] k) with [(v_out v, VClus k)] in E. rewrite E. do 2 f_equal.
    rewrite (gfactor_joint X) by (try apply Hnil; apply H). unfold joint. cbn [map Rprod fold_right]. rewrite Hprior. ring. }
  assert (HTC : of_view v (T ++ C)) by (apply of_view_app; assumption).
  assert (Hm : merged (cells T) (cells C) = cells (T ++ C)).
  { rewrite merged_disjoint; [unfold cells; rewrite map_app; reflexivity| | |];
      rewrite ?cells_keys; try apply HT; try apply HC. exact Hdis. }
  assert (L2 : net_logpdf kd xd v 1 r (cells (T ++ C)) [(v_out v, VClus k)] [] = Ok (log_of (joint v (old_pdf k) (T ++ C)))).
  { change [(v_out v, VClus k)] with (with_cluster v [] k).
    apply (net_cond X v (rd_inv _ _ H) (dense_nonneg _ (rd_dense _ _ H)) (rd_rows _ _ H) (rd_alpha _ _ H) (rd_out _ _ H) (rd_cols _ _ H)
       kd xd 1%nat r (T ++ C) [] k Hnr HTC Hnil); [intros c _ []|]. unfold joint. cbn. lra. }
  assert (L2' : (if is_nil (cells (T ++ C)) then Ok (Fin 0) else net_logpdf kd xd v 1 r (cells (T ++ C)) [(v_out v, VClus k)] [])
    = Ok (log_of (joint v (old_pdf k) (T ++ C)))).
  { rewrite L2. destruct (T ++ C) as [|b D] eqn:ED; [|destruct b; reflexivity]. cbn [cells map is_nil]. unfold joint. cbn [map Rprod fold_right].
    rewrite log_of_pos by lra. rewrite ln_1. reflexivity. }
  (* the constraints *)
  assert (L3 : (if is_nil (cells C) then Ok (Fin 0) else rbind (view_validate X v r false (dkeys (cells C)) [])
     (fun _ => view_marginal kd xd v r (cells C) [] [])) = Ok (log_of (mixture v C))).
  { assert (HCnil : disjoint C []) by (intros c _ []).
    pose proof (C30_agree X v kd xd r C [] H Hr HC Hnil HCnil) as A. change (cells []) with (@nil (Z * val)) in A.
    unfold vquery_logpdf in A. unfold view_populate in A.
    assert (Hvv : view_validate X v r false (dkeys (cells C)) [] = Ok tt).
    { unfold view_validate. cbn [andb]. replace (overlap (dkeys (cells C)) (dkeys [])) with false; [rewrite Hr; reflexivity|].
      symmetry. unfold overlap. clear. induction (dkeys (cells C)); [reflexivity|exact IHl]. }
    rewrite Hvv in A |- *. cbn [rbind] in A |- *. rewrite Hr in A. cbn [rbind] in A.
    change (dmem (v_out v) (@nil (Z * val))) with false in A. rewrite (Hno C HC) in A. rewrite A.
    destruct (view_logpdf_eq v Hc (rd_rows _ _ H) Hn (rd_alpha _ _ H) Hk r C [] Hr (ready_query X v C H HC) (ready_query X v [] H Hnil))
      as [_ E1]. rewrite E1 by lra. rewrite app_nil_r, M1. replace (mixture v C / 1) with (mixture v C) by field.
    destruct C as [|b C']; [|destruct b; reflexivity]. cbn [cells map is_nil]. rewrite M1, log_of_pos by lra. rewrite ln_1. reflexivity. }
  assert (EA : answer = Ok (esub (eadd (log_of (prior v k)) (log_of (joint v (old_pdf k) (T ++ C)))) (log_of (mixture v C)))).
  { unfold answer, vquery_logpdf. rewrite Hpop. cbn [rbind]. rewrite Hr. unfold dmem. rewrite (Hno C HC), HQk.
    rewrite HQT, Hm, L1. cbn [rbind]. rewrite L2'. cbn [rbind]. rewrite L3. reflexivity. }
  assert (J0 : 0 <= joint v (old_pdf k) (T ++ C)) by (apply joint_nonneg, old_pdf_nonneg).
  split.
  - intros Hz. rewrite EA. f_equal.
    assert (Hj : joint v (old_pdf k) (T ++ C) = 0).
    { rewrite joint_app. apply Rmult_eq_0_compat. right. rewrite <- (mixture_sum v Hc (rd_rows _ _ H) Hk C) in Hz.
      assert (Hk0 : joint v (old_pdf (new_cluster v)) C = 0).
      { assert (Hin : In (new_cluster v) (all_clusters v)) by (unfold all_clusters; apply in_app_iff; right; left; reflexivity).
        assert (Hm0 : pweight v (new_cluster v) / (INR (length (v_rows v)) + c_alpha (v_crp v)) * joint v (old_pdf (new_cluster v)) C = 0).
        { eapply Rsum_zero_each0; [|exact Hz|apply in_map_iff; exists (new_cluster v); split; [reflexivity|exact Hin]].
          apply Forall_forall. intros y Hy. apply in_map_iff in Hy. destruct Hy as [k' [<- _]].
          apply Rmult_le_pos; [apply Rlt_le, (prior_pos X v); apply H|apply joint_nonneg, old_pdf_nonneg]. }
        apply Rmult_integral in Hm0. destruct Hm0 as [Hm0|Hm0]; [|exact Hm0].
        pose proof (prior_pos X v (rd_inv _ _ H) (rd_rows _ _ H) (rd_alpha _ _ H) (new_cluster v)). lra. }
      eapply (joint_support X v); try apply H; [apply dense_nonneg, H|exact HC|exact Hk0]. }
    rewrite Hj, Hz, (log_of_pos _ Hpp). unfold log_of. destruct (Rltb 0 0) eqn:E; [apply Rltb_true in E; lra|reflexivity].
  - intros Hp. exists (esub (eadd (log_of (prior v k)) (log_of (joint v (old_pdf k) (T ++ C)))) (log_of (mixture v C))).
    split; [exact EA|]. rewrite (log_of_pos _ Hp). unfold esub. cbn [eopp].
    assert (W : logw (eadd (log_of (prior v k)) (log_of (joint v (old_pdf k) (T ++ C))))) by (apply logw_eadd; apply logw_log_of).
    split; [apply logw_eadd; [exact W|exact I]|].
    rewrite lexp_eadd; [|exact W|exact I]. rewrite lexp_eadd by apply logw_log_of. rewrite !lexp_log_of by (try lra; exact J0).
    cbn [lexp]. rewrite exp_Ropp, exp_ln by exact Hp. reflexivity.
Qed.
Print Assumptions C30_cluster_target.

(** A row that the view holds is a draw from its own cluster, whatever the constraints. *)
Theorem C30_observed : forall X v r k T C, ready X v -> dget r (v_rows v) = Some k -> of_view v T ->
  exists l, view_logpdf v r T C = Ok l /\ logw l /\ lexp l = joint v (old_pdf k) T.
Proof.
  intros X v r k T C H Hr HT. unfold view_logpdf.
  assert (E : v_hypothetical v r = false).
  { apply (rd_dense _ _ H) in Hr. unfold v_hypothetical, hypothetical. rewrite negb_false_iff, andb_true_iff. lia. }
  rewrite E. cbn [negb]. rewrite Hr. destruct (dens_spec v T k (ready_query X v T H HT)) as [E1 [E2 E3]].
  eauto.
Qed.
Print Assumptions C30_observed.

(** A view without rows cannot be queried at all: the new cluster is numbered after
    the largest cluster in use, and there is none. *)
Theorem C30_no_rows : forall v r T C, crp_inv (v_crp v) -> v_rows v = [] -> v_hypothetical v r = true ->
  view_logpdf v r T C = Err ValueError.
Proof.
  intros v r T C Hc Hr Hh. unfold view_logpdf. rewrite Hh. cbn [negb]. unfold cluster_weights, crp_gibbs_tables, crp_singleton.
  unfold v_rows in Hr. rewrite Hr. cbn [Nat.ltb Nat.leb dget rbind].
  destruct Hc as [_ [Hc _]]. rewrite Hr in Hc. apply counts_of_nil in Hc. rewrite Hc. reflexivity.
Qed.
Print Assumptions C30_no_rows.

(** ** C31: the chain rule in one view *)

Theorem C31_view : forall X v r A B, ready X v -> v_hypothetical v r = true ->
  of_view v A -> of_view v B -> disjoint A B ->
  exists b, view_logpdf v r B [] = Ok b /\ logw b /\
    (b = NInf -> view_logpdf v r A B = Err ValueError) /\
    (b <> NInf -> exists a ab, view_logpdf v r A B = Ok a /\ logw a /\
       view_logpdf v r (A ++ B) [] = Ok ab /\ ab = eadd b a).
Proof.
  intros X v r A B H Hr HA HB Hdis.
  pose proof (ready_clusters X v H) as Hk. pose proof (proj1 (rd_inv _ _ H)) as Hc.
  pose proof (dense_norow v (rd_dense _ _ H)) as Hn.
  assert (Hnil : of_view v []) by (split; [constructor|intros c []]).
  assert (M1 : mixture v [] = 1) by (apply mixture_nil; try assumption; apply H).
  destruct (C30_mixture X v r B [] H Hr HB Hnil) as [_ [_ HB1]].
  destruct (HB1 ltac:(lra)) as [b [Eb [Lb Vb]]]. rewrite app_nil_r, M1 in Vb. replace (mixture v B / 1) with (mixture v B) in Vb by field.
  destruct (C30_mixture X v r (A ++ B) [] H Hr (of_view_app v A B HA HB Hdis) Hnil) as [_ [_ HAB]].
  destruct (HAB ltac:(lra)) as [ab [Eab [Lab Vab]]]. rewrite app_nil_r, M1 in Vab. replace (mixture v (A ++ B) / 1) with (mixture v (A ++ B)) in Vab by field.
  destruct (C30_mixture X v r A B H Hr HA HB) as [HB0 [HZ HP]].
  exists b. split; [exact Eb|]. split; [exact Lb|]. split.
  - intros ->. cbn in Vb. apply HZ. lra.
  - intros Hb. assert (Hpos : 0 < mixture v B).
    { rewrite <- Vb. destruct b; cbn in *; try contradiction. apply exp_pos. }
    destruct (HP Hpos) as [a [Ea [La Va]]]. exists a, ab. split; [exact Ea|]. split; [exact La|]. split; [exact Eab|].
    rewrite <- (log_of_lexp ab Lab), <- (log_of_lexp (eadd b a)) by (apply logw_eadd; assumption).
    f_equal. rewrite lexp_eadd by assumption. rewrite Va, Vb, Vab. field. lra.
Qed.
Print Assumptions C31_view.

(** ** C33 *)

(** The values of a discrete column. *)
Inductive support : Type := Finite (l : list R) | Naturals.
(** The values of [f] over a support add up to [t]. *)
Definition adds_up (U : support) (f : R -> R) (t : R) : Prop :=
  match U with
  | Finite l => Rsum (map f l) = t
  | Naturals => infinite_sum (fun n => f (INR n)) t
  end.
(** The values of [F] over all joint values of several columns add up to [t]. *)
Fixpoint joint_adds_up (L : list (Z * support)) (F : dict cell -> R) (t : R) : Prop :=
  match L with
  | [] => F [] = t
  | (c, U) :: L' => exists g, (forall x, joint_adds_up L' (fun D => F ((c, Some x) :: D)) (g x)) /\ adds_up U g t
  end.

(** The discrete classes and their values. *)
Inductive discrete : forall M : model, mH M -> support -> Prop :=
| di_bernoulli lgam h : 0 < fst h -> 0 < snd h -> discrete (M_bernoulli lgam) h (Finite [0; 1])
| di_categorical lgam k h : 0 < h -> (0 < k)%nat ->
    discrete (M_categorical lgam k) h (Finite (map INR (seq 0 k)))
| di_geometric lgam h : (forall x, 0 < x -> lgam (x + 1) = ln x + lgam x) -> 0 < fst h -> 0 < snd h ->
    discrete (M_geometric lgam) h Naturals
| di_poisson lgam h : (forall x, 0 < x -> lgam (x + 1) = ln x + lgam x) -> lgam 1 = 0 -> 0 < fst h -> 0 < snd h ->
    discrete (M_poisson lgam) h Naturals.
Definition discrete_column (a : adim) (U : support) : Prop :=
  discrete (a_M a) (m_hyp (a_M a) (d_aux (a_d a))) U /\
  forall k c, dget k (d_clusters (a_d a)) = Some c -> discrete (a_M a) (m_hyp (a_M a) c) U.

Lemma adds_up_ext U f g t : (forall x, f x = g x) -> adds_up U f t -> adds_up U g t.
Proof.
  intros E. destruct U; cbn.
  - intros <-. apply Rsum_ext. intros x _. symmetry. apply E.
  - intros H eps He. destruct (H eps He) as [n0 Hn]. exists n0. intros n Hge. erewrite sum_eq; [apply (Hn n Hge)|].
    intros i _. symmetry. apply E.
Qed.

Lemma adds_up_scal U f t w : adds_up U f t -> adds_up U (fun x => w * f x) (w * t).
Proof.
  destruct U; cbn.
  - intros <-. apply Rsum_scal.
  - intros H. apply is_series_Reals. apply is_series_Reals in H. exact (is_series_scal (K := Hierarchy.R_AbsRing) (V := Hierarchy.R_NormedModule) w _ _ H).
Qed.
Lemma adds_up_plus U f g t u : adds_up U f t -> adds_up U g u -> adds_up U (fun x => f x + g x) (t + u).
Proof.
  destruct U; cbn.
  - intros <- <-. apply Rsum_map_plus.
  - intros H1 H2. apply is_series_Reals. apply is_series_Reals in H1. apply is_series_Reals in H2.
    exact (is_series_plus (K := Hierarchy.R_AbsRing) (V := Hierarchy.R_NormedModule) _ _ _ _ H1 H2).
Qed.
Lemma adds_up_zero U : adds_up U (fun _ => 0) 0.
Proof.
  destruct U; cbn.
  - apply Rsum_zero. reflexivity.
  - intros eps He. exists 0%nat. intros n _. rewrite sum_eq_R0 by reflexivity. unfold R_dist. rewrite Rminus_0_r, Rabs_R0. exact He.
Qed.
Lemma adds_up_sum U (f : Z -> R -> R) (w : Z -> R) K : (forall k, adds_up U (f k) 1) ->
  adds_up U (fun x => Rsum (map (fun k => w k * f k x) K)) (Rsum (map w K)).
Proof.
  intros H. induction K as [|k K IH]; cbn [map]; [apply adds_up_zero|].
  pose proof (adds_up_scal U (f k) 1 (w k) (H k)) as Hk. rewrite Rmult_1_r in Hk.
  exact (adds_up_plus U _ _ _ _ Hk IH).
Qed.

(** One component. *)
Lemma prim_total P n hset okv spec U s r : plaws P okv spec ->
  (forall x, okv x -> exists v, p_check P x = Ok v) -> reach (of_prim P n hset) s ->
  dget r (m_rows (of_prim P n hset) s) = None ->
  (forall l q, Forall okv l -> adds_up U (fun x => if p_inb P x then prob (p_pred P (p_hyp s) q (spec l) x) else 0) 1) ->
  adds_up U (fun x => prob (m_logpdf (of_prim P n hset) s r x [])) 1.
Proof.
  intros HL Hok Hs Hr HT.
  assert (Hi : pinv P okv spec s)
    by (eapply reach_good; [apply (of_prim_laws P okv spec n hset HL Hok)|exact Hs]).
  assert (Hd : dmem r (p_data s) = false).
  { cbn in Hr. rewrite dget_dmap in Hr. unfold dmem. destruct (dget r (p_data s)); [discriminate|reflexivity]. }
  destruct Hi as [_ [Hf Hst]]. eapply adds_up_ext; [|exact (HT _ (p_par s) Hf)].
  intros x. cbn. unfold prim_logpdf. rewrite Hd, Hst. destruct (p_inb P x); reflexivity.
Qed.

Lemma component_total M U s r : discrete M (m_hyp M s) U -> reach M s ->
  dget r (m_rows M s) = None -> adds_up U (fun x => prob (m_logpdf M s r x [])) 1.
Proof.
  intros HD. remember (m_hyp M s) as h eqn:Eh.
  destruct HD as [lgam h H1 H2|lgam k h H1 Hk|lgam h Hg H1 H2|lgam h Hg Hg1 H1 H2]; intros Hs Hr; cbn in Eh.
  - eapply prim_total; [apply bern_laws|intros x Hx; exists x; apply bern_sup; exact Hx|exact Hs|exact Hr|].
    intros l q Hl. destruct q. cbn [adds_up map]. rewrite <- Eh.
    rewrite (proj2 (bern_sup lgam 0 ltac:(auto))), (proj2 (bern_sup lgam 1 ltac:(auto))).
    unfold Rsum. cbn [fold_right]. rewrite Rplus_0_r. apply (bern_total lgam); [apply pair_hok; assumption|exact Hl].
  - eapply prim_total; [apply cat_laws|intros x Hx; exists x; apply cat_sup; exact Hx|exact Hs|exact Hr|].
    intros l q Hl. destruct q. cbn [adds_up]. rewrite <- Eh, map_map.
    rewrite <- (cat_total lgam k h l Hk); [|cbn; apply Rltb_true; exact H1|exact Hl].
    apply Rsum_ext. intros i Hi. apply in_seq in Hi.
    rewrite (proj2 (cat_sup lgam k (INR i) ltac:(exists i; split; [lia|auto]))). reflexivity.
  - eapply prim_total; [apply geom_laws|intros x Hx; exists x; apply geom_sup; exact Hx|exact Hs|exact Hr|].
    intros l q Hl. destruct q. cbn [adds_up]. rewrite <- Eh.
    pose proof (geom_total lgam h l Hg ltac:(apply pair_hok; assumption) Hl) as HT.
    intros eps He. destruct (HT eps He) as [n0 Hn]. exists n0. intros n Hge. erewrite sum_eq; [apply (Hn n Hge)|].
    intros i _. cbv beta. rewrite (proj2 (geom_sup lgam (INR i) ltac:(eauto))). reflexivity.
  - eapply prim_total; [apply pois_laws|intros x Hx; exists x; apply pois_sup; exact Hx|exact Hs|exact Hr|].
    intros l q Hl. destruct q. cbn [adds_up]. rewrite <- Eh.
    pose proof (pois_total lgam h l Hg Hg1 ltac:(apply pair_hok; assumption) Hl) as HT.
    intros eps He. destruct (HT eps He) as [n0 Hn]. exists n0. intros n Hge. erewrite sum_eq; [apply (Hn n Hge)|].
    intros i _. cbv beta. rewrite (proj2 (pois_sup lgam (INR i) ltac:(eauto))). reflexivity.
Qed.

(** One cell in one cluster. *)
Lemma cell_total X v c a U k : ready X v -> dget c (v_dims v) = Some a -> discrete_column a U ->
  adds_up U (fun x => old_pdf k a (Some x)) 1.
Proof.
  intros H Ha [Hx Hk]. destruct (proj2 (proj2 (rd_inv _ _ H)) c a Ha) as [Hai [_ Hc]].
  destruct (rd_cols _ _ H c a Ha) as [[Hh _] _].
  eapply adds_up_ext; [intros x; unfold old_pdf, a_logpdf, dim_logpdf, valid_cell; cbn [all_some]; reflexivity|].
  apply component_total.
  - unfold cluster_of. destruct (dget k (d_clusters (a_d a))) as [s|] eqn:E; [apply (Hk k s E)|exact Hx].
  - apply (cluster_reach a k Hai Hh).
  - apply cluster_lacks; [exact Hai|]. intros e He. specialize (Hc norow).
    rewrite dense_norow in Hc by apply H. congruence.
Qed.

Lemma joint_adds_up_ext L : forall F G t, (forall D, F D = G D) -> joint_adds_up L F t -> joint_adds_up L G t.
Proof.
  induction L as [|[c U] L IH]; intros F G t E; cbn [joint_adds_up]; [rewrite E; auto|].
  intros [g [Hg Ht]]. exists g. split; [|exact Ht]. intros x. eapply IH; [|apply Hg]. intros D. apply E.
Qed.

Lemma mixture_total X v K L : ready X v ->
  (forall c U, In (c, U) L -> exists a, dget c (v_dims v) = Some a /\ discrete_column a U) ->
  forall w, joint_adds_up L (fun D => Rsum (map (fun k => w k * joint v (old_pdf k) D) K)) (Rsum (map w K)).
Proof.
  intros H. induction L as [|[c U] L IH]; intros HL w; cbn [joint_adds_up].
  - apply Rsum_ext. intros k _. unfold joint. cbn. ring.
  - destruct (HL c U (or_introl eq_refl)) as [a [Ha Hd]].
    exists (fun x => Rsum (map (fun k => w k * old_pdf k a (Some x)) K)). split.
    + intros x. eapply joint_adds_up_ext; [|apply (IH (fun c' U' Hin => HL c' U' (or_intror Hin)) (fun k => w k * old_pdf k a (Some x)))].
      intros D. cbv beta. apply Rsum_ext. intros k _. unfold joint. rewrite map_cons, Rprod_cons.
      replace (factor v (old_pdf k) (c, Some x)) with (old_pdf k a (Some x))
        by (unfold factor; cbn [fst snd]; rewrite Ha; reflexivity).
      apply Rmult_assoc.
    + apply adds_up_sum. intros k. eapply cell_total; eauto.
Qed.

(** The predictive probabilities of the joint values of discrete columns [L], given
    constraints of positive density, add up to one. *)
Theorem C33_normalised : forall X v r L C, ready X v -> v_hypothetical v r = true ->
  NoDup (map fst L) ->
  (forall c U, In (c, U) L -> ~ In c (dkeys C) /\ exists a, dget c (v_dims v) = Some a /\ discrete_column a U) ->
  of_view v C -> 0 < mixture v C ->
  joint_adds_up L (fun T => prob (view_logpdf v r T C)) 1.
Proof.
  intros X v r L C H Hr HN HL HC Hp.
  pose proof (ready_clusters X v H) as Hk. pose proof (proj1 (rd_inv _ _ H)) as Hc.
  pose proof (dense_norow v (rd_dense _ _ H)) as Hn.
  set (N := INR (length (v_rows v))). set (alpha := c_alpha (v_crp v)).
  set (w := fun k => pweight v k / (N + alpha) * joint v (old_pdf k) C / mixture v C).
  assert (Hw : Rsum (map w (all_clusters v)) = 1).
  { unfold w, N, alpha. rewrite Rsum_map_div. rewrite (mixture_sum v Hc (rd_rows _ _ H) Hk C). field. lra. }
  rewrite <- Hw.
  pose proof (mixture_total X v (all_clusters v) L H (fun c U Hi => proj2 (HL c U Hi)) w) as HT.
  (* the answer is the mixture for every assignment that occurs *)
  assert (G : forall L' F G t, (forall c U, In (c, U) L' -> exists a, dget c (v_dims v) = Some a) -> NoDup (map fst L') ->
     (forall D, map fst D = map fst L' -> F D = G D) -> joint_adds_up L' F t -> joint_adds_up L' G t).
  { clear. induction L' as [|[c U] L' IH]; intros F G t HL HN E; cbn [joint_adds_up]; [rewrite E; auto|].
    intros [g [Hg Ht]]. exists g. split; [|exact Ht]. intros x. cbn in HN. inversion HN; subst.
    eapply IH; [| |intros D HD|apply Hg].
    - intros c' U' Hi. apply (HL c' U'). right. exact Hi.
    - assumption.
    - cbv beta. apply E. cbn. rewrite HD. reflexivity. }
  eapply G; [|exact HN| |exact HT].
  { intros c U Hi. destruct (HL c U Hi) as [_ [a [Ha _]]]. eauto. }
  intros D HD.
  assert (HDv : of_view v D).
  { split; [unfold dkeys; rewrite HD; exact HN|]. intros c Hi. unfold dkeys in Hi. rewrite HD in Hi.
    apply in_map_iff in Hi. destruct Hi as [[c' U] [<- Hi]]. destruct (HL c' U Hi) as [_ [a [Ha _]]].
    eapply dget_Some_in. exact Ha. }
  destruct (C30_mixture X v r D C H Hr HDv HC) as [_ [_ Hm]]. destruct (Hm Hp) as [l [-> [_ El]]].
  cbn [prob]. rewrite El, <- (mixture_sum v Hc (rd_rows _ _ H) Hk (D ++ C)), <- Rsum_map_div.
  apply Rsum_ext. intros k _. rewrite joint_app. unfold w, N, alpha.
  pose proof (N_pos v (rd_rows _ _ H)). pose proof (rd_alpha _ _ H). field. split; lra.
Qed.
Print Assumptions C33_normalised.

(** ** A case *)

(** Column 0 is Normal with the values 3, 3 and 5 in rows 0, 1 and 2; column 1 is
    Bernoulli and was observed in no row.  Rows 0 and 1 are in cluster 0, row 2 in
    cluster 7. *)
Definition qx_data : dict (list cell) :=
  [(0%Z, [Some 3; Some 3; Some 5]); (1%Z, [None; None; None]); (2%Z, [None; None; None])].
Definition qx_X : table := tab qx_data.
Section Case.
  Context (lgam : R -> R) (Hg : forall x, 0 < x -> lgam (x + 1) = ln x + lgam x).
  Definition qx_normal : adim := ADim (M_normal lgam) (dim_new (M_normal lgam) (NHyp 0 1 1 1) true [] (fun _ => tt)).
  Definition qx_bernoulli : adim := ADim (M_bernoulli lgam) (dim_new (M_bernoulli lgam) (1, 1) true [] (fun _ => tt)).
  (* the states reached by the five steps *)
  Definition qx_nst (d : dict R) : pstate (Normal lgam) :=
    PState d (fold_left (fun st x => p_add (Normal lgam) x st) (dvals d) (p_init (Normal lgam))) (NHyp 0 1 1 1) tt.
  Definition qx_bst : pstate (Bernoulli lgam) := PState [] (p_init (Bernoulli lgam)) (1, 1) tt.
  Definition qx_d0 (cl : list (Z * dict R)) (zr : dict Z) (p : nat) : dim (M_normal lgam) :=
    Dim (dmap qx_nst cl : dict (mS (M_normal lgam))) zr [] (qx_nst [] : mS (M_normal lgam))
      (NHyp 0 1 1 1 : mH (M_normal lgam)) [] true [] (fun _ => tt) p.
  Definition qx_d1 (cl : list Z) (zi : dict Z) (p : nat) : dim (M_bernoulli lgam) :=
    Dim (map (fun k => (k, qx_bst)) cl : dict (mS (M_bernoulli lgam))) [] zi (qx_bst : mS (M_bernoulli lgam))
      ((1, 1) : mH (M_bernoulli lgam)) [] true [] (fun _ => tt) p.
  Definition qx_view (crp : crp) (d0 : dim (M_normal lgam)) (d1 : dim (M_bernoulli lgam)) : view :=
    View 10000000 crp [1] [(0%Z, ADim (M_normal lgam) d0); (1%Z, ADim (M_bernoulli lgam) d1)].
  Definition qx_v1 : view := View 10000000 (crp_new 1) [1] [(0%Z, ADim (M_normal lgam) (qx_d0 [] [] 2))].
  Definition qx_v2 : view := qx_view (crp_new 1) (qx_d0 [] [] 2) (qx_d1 [] [] 2).
  Definition qx_v3 : view := qx_view (Crp 1 [(0, 0)]%Z [(0, 1)]%Z 1) (qx_d0 [(0%Z, [(0%Z, 3)])] [(0, 0)]%Z 3) (qx_d1 [0] [(0, 0)] 3)%Z.
  Definition qx_v4 : view := qx_view (Crp 2 [(0, 0); (1, 0)]%Z [(0, 2)]%Z 1)
    (qx_d0 [(0%Z, [(0%Z, 3); (1%Z, 3)])] [(0, 0); (1, 0)]%Z 3) (qx_d1 [0] [(0, 0); (1, 0)] 3)%Z.
  Definition qx_v : view := qx_view (Crp 3 [(0, 0); (1, 0); (2, 7)]%Z [(0, 2); (7, 1)]%Z 1)
    (qx_d0 [(0%Z, [(0%Z, 3); (1%Z, 3)]); (7%Z, [(2%Z, 5)])] [(0, 0); (1, 0); (2, 7)]%Z 4)
    (qx_d1 [0; 7] [(0, 0); (1, 0); (2, 7)] 4)%Z.

  Lemma qx_reach : vreach qx_X qx_v.
  Proof.
    assert (R1 : vreach qx_X qx_v1).
    { refine (vr_new_dim _ (view_new 10000000 1 [1]) 0 (M_normal lgam) (NHyp 0 1 1 1) true [] (fun _ => tt) _ _ (vr_new _ _ _ _) (kn_normal _) _).
      reflexivity. }
    assert (R2 : vreach qx_X qx_v2).
    { refine (vr_new_dim _ qx_v1 1 (M_bernoulli lgam) (1, 1) true [] (fun _ => tt) _ _ R1 (kn_bernoulli _) _).
      reflexivity. }
    assert (Hrow : forall v r k v', vreach qx_X v -> (0 <= r <= 2)%Z ->
      dkeys (v_dims v) = [0; 1]%Z -> ex_row qx_X v r k = (v', Ok tt) -> vreach qx_X v').
    { intros v r k v' Hv Hr Hk He. eapply vr_incorporate; [exact Hv| |exact He].
      rewrite Hk. intros c a Ha. apply dget_Some_in in Ha. rewrite Hk in Ha.
      assert (r = 0 \/ r = 1 \/ r = 2)%Z as Hr' by lia.
      destruct Ha as [<-|[<-|[]]]; destruct Hr' as [-> | [-> | ->]]; simpl; eauto. }
    assert (R3 : vreach qx_X qx_v3) by (eapply (Hrow qx_v2 0 0)%Z; [exact R2|lia|reflexivity|reflexivity]).
    assert (R4 : vreach qx_X qx_v4) by (eapply (Hrow qx_v3 1 0)%Z; [exact R3|lia|reflexivity|reflexivity]).
    eapply (Hrow qx_v4 2 7)%Z; [exact R4|lia|reflexivity|reflexivity].
  Qed.

  Lemma qx_rows : v_rows qx_v = [(0, 0); (1, 0); (2, 7)]%Z.
  Proof. reflexivity. Qed.
  Lemma qx_dims : exists (d0 : dim (M_normal lgam)) (d1 : dim (M_bernoulli lgam)),
    v_dims qx_v = [(0%Z, ADim (M_normal lgam) d0); (1%Z, ADim (M_bernoulli lgam) d1)] /\
    (d_ins d0 = [] /\ p_hyp (d_aux d0) = NHyp 0 1 1 1 /\ map (fun kc => p_hyp (snd kc)) (d_clusters d0) = [NHyp 0 1 1 1; NHyp 0 1 1 1]) /\
    (d_ins d1 = [] /\ p_hyp (d_aux d1) = (1, 1) /\ map (fun kc => p_hyp (snd kc)) (d_clusters d1) = [(1, 1); (1, 1)]).
  Proof. do 2 eexists. split; [reflexivity|]. split; (split; [reflexivity|split; reflexivity]). Qed.

  Lemma hyp_of {M : model} (P : mH M -> Prop) (d : dim M) h : map (fun kc => m_hyp M (snd kc)) (d_clusters d) = [h; h] -> P h ->
    forall k c, dget k (d_clusters d) = Some c -> P (m_hyp M c).
  Proof.
    intros E HP k c Hk. apply dget_In in Hk. apply (in_map (fun kc => m_hyp M (snd kc))) in Hk. rewrite E in Hk.
    cbn in Hk. destruct Hk as [<-|[<-|[]]]; exact HP.
  Qed.

  Lemma qx_ready : ready qx_X qx_v.
  Proof.
    destruct qx_dims as [d0 [d1 [E [[I0 [A0 C0]] [I1 [A1 C1]]]]]].
    split.
    - exact (vreach_vinv _ _ qx_reach).
    - intros r k. rewrite qx_rows. intros H. apply dget_Some_in in H. cbn in H. cbn. lia.
    - rewrite qx_rows. discriminate.
    - replace (c_alpha (v_crp qx_v)) with 1 by reflexivity. lra.
    - rewrite E. replace (v_out qx_v) with 10000000%Z by reflexivity. cbn. lia.
    - intros c a. rewrite E. cbn [dget]. destruct (c =? 0)%Z; [|destruct (c =? 1)%Z; [|discriminate]];
        intros Ha; injection Ha as <-; (split; [|assumption]).
      + assert (G : collapsed (M_normal lgam) (NHyp 0 1 1 1)) by (constructor; cbn; lra).
        split; [split; cbn [a_M a_d]|].
        * cbn. cbn in A0. rewrite A0. exact G.
        * eapply hyp_of; [exact C0|exact G].
        * intros lbes F. cbn [a_M] in F. apply (f_equal m_nhyp) in F. cbn in F. discriminate.
      + assert (G : collapsed (M_bernoulli lgam) (1, 1)) by (constructor; cbn; [exact Hg|lra|lra]).
        split; [split; cbn [a_M a_d]|].
        * cbn. cbn in A1. rewrite A1. exact G.
        * eapply hyp_of; [exact C1|exact G].
        * intros lbes F. cbn [a_M] in F. apply (f_equal m_nhyp) in F. cbn in F. discriminate.
  Qed.

  (** Row 3 is new; the value 4 of column 0 has positive density. *)
  Lemma qx_positive : 0 < mixture qx_v [(0%Z, Some 4)].
  Proof.
    pose proof qx_ready as H.
    pose proof (ready_clusters _ _ H) as Hk. pose proof (proj1 (rd_inv _ _ H)) as Hc.
    pose proof (mixture_nonneg qx_v Hc (rd_rows _ _ H) (rd_alpha _ _ H) Hk [(0%Z, Some 4)]) as H0.
    destruct (Req_dec (mixture qx_v [(0%Z, Some 4)]) 0) as [Hz|]; [exfalso|lra].
    rewrite <- (mixture_sum qx_v Hc (rd_rows _ _ H) Hk) in Hz.
    assert (Hin : In (new_cluster qx_v) (all_clusters qx_v)) by (unfold all_clusters; apply in_app_iff; right; left; reflexivity).
    pose proof (fun F => Rsum_zero_each0 _ F Hz _ (in_map _ _ _ Hin)) as Hm. cbv beta in Hm.
    set (a := ADim (M_normal lgam) (qx_d0 [(0%Z, [(0%Z, 3); (1%Z, 3)]); (7%Z, [(2%Z, 5)])] [(0, 0); (1, 0); (2, 7)]%Z 4)).
    assert (Ha : dget 0%Z (v_dims qx_v) = Some a) by reflexivity.
    destruct (proj2 (proj2 (rd_inv _ _ H)) 0%Z a Ha) as [Hai [_ Hco]].
    destruct (atotal_cell a (new_cluster qx_v) (Some 4) Hai (proj1 (rd_cols _ _ H 0%Z a Ha))) as [l [El Hl]].
    { intros r e He. specialize (Hco r). destruct (dget r (v_rows qx_v)) as [k|] eqn:Er; [|congruence].
      apply (rd_dense _ _ H) in Er. lia. }
    assert (Hs : m_sup (M_normal lgam) 4) by (exists (NHyp 0 1 1 1), tt; eexists; reflexivity).
    destruct Hl as [[_ [y ->]]|[F _]]; [|exact (F Hs)].
    assert (Hp : 0 < joint qx_v (old_pdf (new_cluster qx_v)) [(0%Z, Some 4)]).
    { unfold joint, factor. cbn [map fst snd]. rewrite Ha. unfold old_pdf. rewrite El. cbn. pose proof (exp_pos y). lra. }
    pose proof (prior_pos qx_X qx_v (rd_inv _ _ H) (rd_rows _ _ H) (rd_alpha _ _ H) (new_cluster qx_v)) as Hq.
    assert (Hr : 0 < pweight qx_v (new_cluster qx_v) / (INR (length (v_rows qx_v)) + c_alpha (v_crp qx_v)) *
        joint qx_v (old_pdf (new_cluster qx_v)) [(0%Z, Some 4)]) by (apply Rmult_lt_0_compat; assumption).
    rewrite Hm in Hr; [lra|]. apply Forall_forall. intros z Hz'. apply in_map_iff in Hz'. destruct Hz' as [k [<- _]].
    apply Rmult_le_pos; [|apply joint_nonneg, old_pdf_nonneg].
    apply Rlt_le. apply (prior_pos qx_X qx_v); apply H.
  Qed.

  (** Hypotheses of C30 and C31: targets in column 1, constraints in column 0. *)
  Example C30_ex : ready qx_X qx_v /\ v_hypothetical qx_v 3 = true /\ of_view qx_v [(1%Z, Some 1)] /\
    of_view qx_v [(0%Z, Some 4)] /\ disjoint [(1%Z, Some 1)] [(0%Z, Some 4)] /\ 0 < mixture qx_v [(0%Z, Some 4)].
  Proof.
    split; [exact qx_ready|]. split; [reflexivity|]. split; [|split; [|split; [|exact qx_positive]]].
    - split; [repeat constructor; intros []|]. cbn. tauto.
    - split; [repeat constructor; intros []|]. cbn. tauto.
    - intros c. cbn. lia.
  Qed.
  (** Cluster 7 and a cell of column 1, given column 0. *)
  Example C30_cluster_target_ex : let Q := [(1%Z, VCell (Some 1)); (v_out qx_v, VClus 7)] in
    NoDup (dkeys Q) /\ dget (v_out qx_v) Q = Some (VClus 7) /\
    filter (fun cx => negb (fst cx =? v_out qx_v)%Z) Q = cells [(1%Z, Some 1)].
  Proof.
    cbv zeta. split; [|split; reflexivity]. repeat constructor; cbn; intuition discriminate.
  Qed.
  (** The view before any row was added. *)
  Example C30_no_rows_ex : crp_inv (v_crp qx_v2) /\ v_rows qx_v2 = [] /\ v_hypothetical qx_v2 3 = true.
  Proof. split; [apply crp_inv_new|]. split; reflexivity. Qed.
  (** Hypotheses of C33: column 1 given column 0. *)
  Example C33_ex : NoDup (map fst [(1%Z, Finite [0; 1])]) /\
    (forall c U, In (c, U) [(1%Z, Finite [0; 1])] -> ~ In c (dkeys [(0%Z, Some 4)]) /\
       exists a, dget c (v_dims qx_v) = Some a /\ discrete_column a U).
  Proof.
    split; [repeat constructor; intros []|]. intros c U [E|[]]. injection E as <- <-. split; [cbn; lia|].
    eexists. split; [reflexivity|]. split; cbn [a_M a_d].
    - change (m_hyp (M_bernoulli lgam) (d_aux (qx_d1 [0%Z; 7%Z] [(0%Z, 0%Z); (1%Z, 0%Z); (2%Z, 7%Z)] 4))) with ((1, 1) : mH (M_bernoulli lgam)).
      constructor; cbn; lra.
    - eapply (hyp_of (M := M_bernoulli lgam) (fun h => discrete (M_bernoulli lgam) h (Finite [0; 1]))); [reflexivity|].
      constructor; cbn; lra.
  Qed.
End Case.
