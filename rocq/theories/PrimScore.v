(** The predictive density of a primitive is the ratio of its scores. *)
From Verif Require Export PrimFacts.
Local Open Scope R_scope.

(** The only property of log-gamma that is used. *)
Definition gamma_rec (lgam : R -> R) : Prop :=
  forall x, 0 < x -> lgam (x + 1) = ln x + lgam x.

(** Chain rule at the level of the statistics of a list of values. *)
Definition pchain (P : prim) (okv : R -> Prop) (qok : pQ P -> Prop)
  (spec : list R -> pS P) : Prop :=
  forall h q l x, p_hok P h = true -> qok q -> Forall okv l -> okv x ->
  exists a b,
    p_score P h q (spec l) = Ok (Fin a) /\
    p_score P h q (p_add P x (spec l)) = Ok (Fin b) /\
    p_pred P h q (spec l) x = Ok (Fin (b - a)).

Lemma bern_sum_bounds l : Forall (fun v => v = 0 \/ v = 1) l ->
  0 <= Rsum l <= INR (length l).
Proof.
  induction 1 as [|v l Hv Hl IH]; [simpl; lra|].
  change (length (v :: l)) with (S (length l)). rewrite S_INR. simpl Rsum.
  destruct Hv as [-> | ->]; lra.
Qed.

Lemma andb_R2 a b c d : Rltb a b && Rltb c d = true -> a < b /\ c < d.
Proof. rewrite andb_true_iff, !Rltb_true. tauto. Qed.

Lemma bern_chain lgam (Hg : gamma_rec lgam) :
  pchain (Bernoulli lgam) (fun v => v = 0 \/ v = 1) (fun _ => True) bern_spec.
Proof.
  intros [al be] [] l x Hh _ Hl Hx. simpl in Hh. apply andb_R2 in Hh.
  destruct Hh as [Ha Hb]. pose proof (bern_sum_bounds l Hl) as Hs.
  unfold bern_spec. simpl. do 2 eexists. split; [reflexivity|].
  split; [reflexivity|].
  unfold bern_predictive, bern_marginal, betaln. rewrite plus_IZR, IZR_nobs.
  set (S := Rsum l) in *. set (n := INR (length l)) in *.
  rewrite plog_pos by lra. simpl rbind.
  assert (HD : lgam (n + al + be + 1) = ln (n + al + be) + lgam (n + al + be))
    by (apply Hg; lra).
  destruct Hx as [-> | ->].
  - assert (E : Reqb 0 1 = false) by (apply Reqb_false; lra). rewrite E.
    rewrite plog_pos by lra. simpl. do 2 f_equal.
    replace (S + 0 + al) with (S + al) by lra.
    replace (n + 1 - (S + 0) + be) with ((n - S + be) + 1) by lra.
    rewrite (Hg (n - S + be)) by lra.
    replace (S + al + (n - S + be + 1)) with (n + al + be + 1) by lra.
    replace (S + al + (n - S + be)) with (n + al + be) by lra.
    rewrite HD. lra.
  - rewrite Reqb_refl. rewrite plog_pos by lra. simpl. do 2 f_equal.
    replace (S + 1 + al) with (S + al + 1) by lra.
    replace (n + 1 - (S + 1) + be) with (n - S + be) by lra.
    rewrite (Hg (S + al)) by lra.
    replace (S + al + 1 + (n - S + be)) with (n + al + be + 1) by lra.
    replace (S + al + (n - S + be)) with (n + al + be) by lra.
    rewrite HD. lra.
Qed.

Lemma Rsum_upd_nth (f : Z -> R) i d l : (i < length l)%nat ->
  Rsum (map f (upd_nth i d l)) =
  Rsum (map f l) - f (nth i l 0%Z) + f (nth i l 0 + d)%Z.
Proof.
  revert i; induction l as [|c l IH]; intros [|i] H; simpl in *; try lia; [lra|].
  rewrite IH by lia. lra.
Qed.

Lemma cat_counts_total k l :
  Forall (fun v => exists n, (n < k)%nat /\ v = INR n) l ->
  Rsum (map IZR (map (fun i => cat_count i l) (seq 0 k))) = INR (length l).
Proof.
  induction 1 as [|v l Hv Hl IH].
  - simpl. unfold cat_count; simpl.
    rewrite map_map. rewrite (Rsum_map_const 0). lra.
  - pose proof (l_cons _ _ _ (cat_laws (fun x => x) k) v l Hv) as E.
    unfold cat_spec in E. injection E as E1 E2. rewrite E2.
    destruct Hv as [n [Hn ->]]. rewrite to_index_INR.
    rewrite Rsum_upd_nth by (rewrite map_length, seq_length; exact Hn).
    rewrite IH, plus_IZR.
    change (length (INR n :: l)) with (S (length l)). rewrite S_INR. lra.
Qed.

Lemma nth_map_seq (f : nat -> Z) k n : (n < k)%nat ->
  nth n (map f (seq 0 k)) 0%Z = f n.
Proof.
  intros Hn. rewrite (nth_indep _ 0%Z (f 0%nat)) by (rewrite map_length, seq_length; exact Hn).
  rewrite map_nth, seq_nth by exact Hn. reflexivity.
Qed.

Lemma cat_count_nonneg n l : 0 <= IZR (cat_count n l).
Proof. unfold cat_count. apply IZR_le. lia. Qed.

Lemma cat_chain lgam k (Hg : gamma_rec lgam) :
  pchain (Categorical lgam k) (fun v => exists n, (n < k)%nat /\ v = INR n)
    (fun _ => True) (cat_spec k).
Proof.
  intros al [] l x Hh _ Hl [n [Hn ->]]. simpl in Hh. apply Rltb_true in Hh.
  unfold cat_spec. simpl. do 2 eexists. split; [reflexivity|]. split; [reflexivity|].
  unfold cat_predictive, cat_marginal. rewrite to_index_INR, upd_nth_length.
  rewrite !map_length, !seq_length.
  rewrite (Rsum_upd_nth (fun c => lgam (IZR c + al))) by (rewrite map_length, seq_length; exact Hn).
  rewrite (nth_map_seq _ _ _ Hn), cat_counts_total by exact Hl.
  pose proof (cat_count_nonneg n l) as Hc.
  assert (Hk : 0 < INR k) by (apply lt_0_INR; lia).
  pose proof (pos_INR (length l)) as HN.
  assert (HA : 0 < INR k * al) by (apply Rmult_lt_0_compat; assumption).
  rewrite !plog_pos by (try rewrite (Rmult_comm al); lra). simpl. do 2 f_equal.
  rewrite !plus_IZR, IZR_nobs.
  replace (IZR (cat_count n l) + 1 + al) with (IZR (cat_count n l) + al + 1) by lra.
  rewrite (Hg (IZR (cat_count n l) + al)) by lra.
  replace (INR k * al + (INR (length l) + 1)) with (INR k * al + INR (length l) + 1) by lra.
  rewrite (Hg (INR k * al + INR (length l))) by lra.
  replace (al + IZR (cat_count n l)) with (IZR (cat_count n l) + al) by lra.
  replace (INR (length l) + al * INR k) with (INR k * al + INR (length l)) by lra.
  lra.
Qed.

Lemma geom_chain lgam :
  pchain (Geometric lgam) (fun v => exists n : nat, v = INR n) (fun _ => True) sum_spec.
Proof.
  intros [a b] [] l x Hh _ Hl Hx. unfold sum_spec. simpl.
  do 2 eexists. split; [reflexivity|]. split; [reflexivity|].
  do 2 f_equal. unfold geom_predictive, geom_marginal. lra.
Qed.

Lemma gam_log_Z_pos lgam a b : 0 < b -> gam_log_Z lgam a b = Ok (lgam a - a * ln b).
Proof. intros H. unfold gam_log_Z. rewrite plog_pos by exact H. reflexivity. Qed.

Lemma expo_chain lgam :
  pchain (Exponential lgam) (fun v => 0 <= v) (fun _ => True) sum_spec.
Proof.
  intros [a b] [] l x Hh _ Hl Hx. simpl in Hh. apply andb_R2 in Hh. destruct Hh as [Ha Hb].
  pose proof (Rsum_nonneg l Hl) as Hs.
  unfold sum_spec. simpl. unfold expo_marginal, expo_predictive.
  rewrite !gam_log_Z_pos by lra. simpl. do 2 eexists. split; [reflexivity|].
  split; [reflexivity|]. do 2 f_equal. lra.
Qed.

Lemma nat_sum_nonneg l : Forall (fun v => exists n : nat, v = INR n) l -> 0 <= Rsum l.
Proof.
  intros H. apply Rsum_nonneg. eapply Forall_impl; [|exact H].
  intros v [n ->]. apply pos_INR.
Qed.

Lemma pois_chain lgam :
  pchain (Poisson lgam) (fun v => exists n : nat, v = INR n) (fun _ => True)
    (sum2_spec (fun x => x) (fun x => lgam (x + 1))).
Proof.
  intros [a b] [] l x Hh _ Hl Hx. simpl in Hh. apply andb_R2 in Hh. destruct Hh as [Ha Hb].
  unfold sum2_spec. simpl. unfold pois_marginal, pois_predictive.
  pose proof (pos_INR (length l)) as HN.
  rewrite !gam_log_Z_pos by (rewrite ?plus_IZR, ?IZR_nobs; lra). simpl.
  do 2 eexists. split; [reflexivity|].
  split; [reflexivity|]. do 2 f_equal. lra.
Qed.

(** The posterior scale of the normal model stays positive: the core
    inequality, a weighted Cauchy-Schwarz. *)
Lemma normal_cs r m (l : list R) (f : R -> R) : 0 < r ->
  (r * m + Rsum (map f l)) * (r * m + Rsum (map f l))
  <= (r + INR (length l)) * (r * m * m + Rsum (map (fun x => f x * f x) l)).
Proof.
  intros Hr. induction l as [|x l IH].
  - simpl. apply Req_le. ring.
  - change (length (x :: l)) with (S (length l)). rewrite S_INR.
    simpl map. change (Rsum (?a :: ?t)) with (a + Rsum t) in *. simpl Rsum.
    fold (Rsum (map f l)). fold (Rsum (map (fun x => f x * f x) l)).
    set (S := Rsum (map f l)) in *. set (Q := Rsum (map (fun x => f x * f x) l)) in *.
    pose proof (pos_INR (length l)) as Hn. set (n := INR (length l)) in *.
    set (W := r + n) in *. assert (HW : 0 < W) by (unfold W; lra).
    set (A := r * m + S) in *. set (B := r * m * m + Q) in *.
    set (y := f x).
    replace (r * m + (y + S)) with (A + y) by (unfold A; lra).
    replace (r + (n + 1)) with (W + 1) by (unfold W; lra).
    replace (r * m * m + (y * y + Q)) with (B + y * y) by (unfold B; lra).
    clearbody A B W y.
    pose proof (Rle_0_sqr (W * y - A)) as H1. unfold Rsqr in H1.
    assert (H2 : 2 * A * y <= W * (y * y) + B).
    { apply (Rmult_le_reg_l W); [exact HW|]. nra. }
    nra.
Qed.

Lemma normal_sn_ge r m s (l : list R) (f : R -> R) : 0 < r ->
  s <= s + Rsum (map (fun x => f x * f x) l) + r * m * m -
       (r + INR (length l)) * ((r * m + Rsum (map f l)) / (r + INR (length l)))
       * ((r * m + Rsum (map f l)) / (r + INR (length l))).
Proof.
  intros Hr. pose proof (normal_cs r m l f Hr) as H.
  pose proof (pos_INR (length l)) as Hn.
  set (W := r + INR (length l)) in *. assert (HW : 0 < W) by (unfold W; lra).
  set (A := r * m + Rsum (map f l)) in *.
  replace (W * (A / W) * (A / W)) with (A * A / W) by (field; lra).
  assert (A * A / W <= r * m * m + Rsum (map (fun x => f x * f x) l)).
  { apply (Rmult_le_reg_r W); [exact HW|]. unfold Rdiv. rewrite Rmult_assoc.
    rewrite Rinv_l by lra. lra. }
  lra.
Qed.

Lemma nhyp_ok_true h : nhyp_ok h = true -> 0 < n_r h /\ 0 < n_s h /\ 0 < n_nu h.
Proof. unfold nhyp_ok. rewrite !andb_true_iff, !Rltb_true. tauto. Qed.

(** Posterior parameters for the statistics of a list of values. *)
Lemma normal_posterior_pos h (l : list R) (f : R -> R) :
  nhyp_ok h = true ->
  exists mn sn,
    normal_posterior (IZR (nobs l)) (Rsum (map f l)) (Rsum (map (fun x => f x * f x) l)) h
    = (mn, n_r h + IZR (nobs l), sn, n_nu h + IZR (nobs l)) /\
    n_s h <= sn /\ 0 < n_r h + IZR (nobs l) /\
    sn = n_s h + Rsum (map (fun x => f x * f x) l) + n_r h * n_m h * n_m h
         - (n_r h + IZR (nobs l)) * mn * mn /\
    mn = (n_r h * n_m h + Rsum (map f l)) / (n_r h + IZR (nobs l)).
Proof.
  intros Hh. apply nhyp_ok_true in Hh. destruct Hh as [Hr [Hs Hnu]].
  unfold normal_posterior. do 2 eexists. split; [reflexivity|].
  rewrite IZR_nobs.
  pose proof (normal_sn_ge (n_r h) (n_m h) (n_s h) l f Hr) as H.
  match goal with |- context [Reqb ?a 0] => set (sn := a) in * end.
  assert (E : Reqb sn 0 = false) by (apply Reqb_false; lra). rewrite E.
  pose proof (pos_INR (length l)). repeat split; [exact H|lra].
Qed.

Lemma normal_log_Z_pos lgam r s nu : 0 < r -> 0 < s ->
  normal_log_Z lgam r s nu =
  Ok (((nu + 1) / 2) * ln 2 + (1/2) * ln PI - (1/2) * ln r - (nu / 2) * ln s
      + lgam (nu / 2)).
Proof. intros H1 H2. unfold normal_log_Z. rewrite !plog_pos by assumption. reflexivity. Qed.

Lemma normal_chain_gen lgam h (l : list R) (f : R -> R) x :
  nhyp_ok h = true ->
  exists a b,
    normal_marginal lgam (IZR (nobs l)) (Rsum (map f l))
      (Rsum (map (fun x => f x * f x) l)) h = Ok a /\
    normal_marginal lgam (IZR (nobs l + 1)) (Rsum (map f l) + f x)
      (Rsum (map (fun x => f x * f x) l) + f x * f x) h = Ok b /\
    normal_predictive lgam (f x) (IZR (nobs l)) (Rsum (map f l))
      (Rsum (map (fun x => f x * f x) l)) h = Ok (b - a).
Proof.
  intros Hh.
  destruct (normal_posterior_pos h l f Hh) as [mn [sn [E1 [Hsn [Hrn _]]]]].
  destruct (normal_posterior_pos h (x :: l) f Hh) as [mm [sm [E2 [Hsm [Hrm _]]]]].
  rewrite nobs_cons in E2, Hrm. simpl map in E2.
  assert (Ef : Rsum (f x :: map f l) = Rsum (map f l) + f x) by (simpl; lra).
  assert (Eg : Rsum (f x * f x :: map (fun x => f x * f x) l)
               = Rsum (map (fun x => f x * f x) l) + f x * f x) by (simpl; lra).
  rewrite Ef, Eg in E2.
  apply nhyp_ok_true in Hh. destruct Hh as [Hr [Hs Hnu]].
  unfold normal_marginal, normal_predictive.
  rewrite E1, E2, !normal_log_Z_pos by lra.
  assert (E3 : normal_posterior (IZR (nobs l) + 1) (Rsum (map f l) + f x)
      (Rsum (map (fun x0 => f x0 * f x0) l) + f x * f x) h =
      (mm, n_r h + IZR (nobs l + 1), sm, n_nu h + IZR (nobs l + 1))).
  { rewrite <- E2. rewrite plus_IZR. reflexivity. }
  rewrite E3. rewrite !normal_log_Z_pos by lra. simpl.
  do 2 eexists. split; [reflexivity|]. split; [reflexivity|]. f_equal.
  rewrite plus_IZR. lra.
Qed.

Lemma normal_chain lgam :
  pchain (Normal lgam) (fun _ => True) (fun _ => True)
    (sum2_spec (fun x => x) (fun x => x * x)).
Proof.
  intros h [] l x Hh _ _ _. cbn [p_hok Normal] in Hh.
  destruct (normal_chain_gen lgam h l (fun x => x) x Hh) as [a [b [E1 [E2 E3]]]].
  unfold sum2_spec. cbn [p_score p_pred p_add Normal].
  exists a, b. cbv beta in E1, E2, E3. rewrite E1, E2, E3. auto.
Qed.

Lemma lognormal_chain lgam :
  pchain (Lognormal lgam) (fun v => 0 < v) (fun _ => True)
    (sum2_spec ln (fun x => ln x * ln x)).
Proof.
  intros h [] l x Hh _ _ Hx. cbn [p_hok Lognormal] in Hh.
  destruct (normal_chain_gen lgam h l ln x Hh) as [a [b [E1 [E2 E3]]]].
  unfold sum2_spec. cbn [p_score p_pred p_add Lognormal].
  rewrite E1, E2, plog_pos by exact Hx. simpl rbind. rewrite E3. simpl rbind.
  do 2 eexists. split; [reflexivity|]. split; [reflexivity|]. do 2 f_equal. lra.
Qed.

(** Von Mises: valid except where the resultant vanishes. *)
Lemma vm_chain lbes h (l : list R) x :
  p_hok (Vonmises lbes) h = true -> 0 < v_k h ->
  0 < vm_an (Rsum (map sin l)) (Rsum (map cos l)) h ->
  0 < vm_an (Rsum (map sin l) + sin x) (Rsum (map cos l) + cos x) h ->
  exists a b,
    p_score (Vonmises lbes) h tt (sum2_spec sin cos l) = Ok (Fin a) /\
    p_score (Vonmises lbes) h tt (p_add (Vonmises lbes) x (sum2_spec sin cos l)) = Ok (Fin b) /\
    p_pred (Vonmises lbes) h tt (sum2_spec sin cos l) x = Ok (Fin (b - a)).
Proof.
  intros Hh Hk H1 H2. cbn [p_hok Vonmises] in Hh.
  rewrite !andb_true_iff, !Rltb_true, !Rleb_true in Hh.
  destruct Hh as [[Ha Hb] [Hb1 Hb2]].
  unfold sum2_spec. cbn [p_score p_pred p_add Vonmises].
  assert (G : forall N, (0 <= N)%Z -> vm_guard N h = true).
  { intros N HN. unfold vm_guard. rewrite !andb_true_iff, !Rltb_true, !Rleb_true.
    apply Z.leb_le in HN. tauto. }
  pose proof (nobs_nonneg l) as HN.
  unfold vm_marginal, vm_predictive. rewrite !G by lia.
  unfold vm_log_Z. apply Rltb_true in H1, H2, Ha. rewrite H1, H2, Ha. simpl.
  do 2 eexists. split; [reflexivity|]. split; [reflexivity|]. do 2 f_equal.
  rewrite plus_IZR. lra.
Qed.

Lemma beta_guard_true q : beta_guard q = true <-> 0 < fst q /\ 0 < snd q < 1.
Proof. unfold beta_guard. rewrite !andb_true_iff, !Rltb_true. tauto. Qed.

Lemma beta_chain lgam :
  pchain (Beta lgam) (fun v => 0 < v < 1) (fun q => 0 < fst q /\ 0 < snd q < 1)
    (sum2_spec ln (fun x => ln (1 - x))).
Proof.
  intros [] q l x _ Hq _ Hx. unfold sum2_spec. cbn [p_score p_pred p_add Beta].
  apply beta_guard_true in Hq. rewrite Hq.
  do 2 eexists. split; [reflexivity|]. split; [reflexivity|]. do 2 f_equal.
  unfold beta_likelihood, beta_logpdf. rewrite plus_IZR. lra.
Qed.

(** Parameters of the truncated normal for which its prior is finite. *)
Definition nt_qok (l h : R) (q : R * R) : Prop :=
  0 < snd q /\ l <= fst q <= h.

Lemma nt_chain lgam cdf lo hi :
  (forall a b, a < b -> cdf a < cdf b) -> 0 <= lo -> lo < hi ->
  pchain (NormalTrunc lgam cdf lo hi) (fun v => lo <= v <= hi) (nt_qok lo hi)
    (sum2_spec (fun x => x) (fun x => x * x)).
Proof.
  intros Hcdf Hlo Hlh [] [mu sg] l x _ [Hsg Hmu] _ Hx. simpl in Hsg, Hmu.
  unfold sum2_spec. cbn [p_score p_pred p_add NormalTrunc].
  assert (Hd : 0 < cdf ((hi - mu) / sg) - cdf ((lo - mu) / sg)).
  { assert ((lo - mu) / sg < (hi - mu) / sg).
    { apply Rmult_lt_compat_r; [apply Rinv_0_lt_compat; exact Hsg|lra]. }
    apply Hcdf in H. lra. }
  unfold nt_normalizer, nt_prior. simpl fst; simpl snd.
  apply Rltb_true in Hd. rewrite Hd.
  assert (E1 : Rltb 0 (lo + hi) = true) by (apply Rltb_true; lra). rewrite E1.
  assert (E2 : Rleb lo mu && Rleb mu (lo + (lo + hi)) = true).
  { rewrite andb_true_iff, !Rleb_true. lra. }
  rewrite E2. simpl.
  do 2 eexists. split; [reflexivity|]. split; [reflexivity|]. do 2 f_equal.
  unfold norm_logpdf, nt_likelihood. rewrite plus_IZR.
  set (L := ln (cdf ((hi - mu) / sg) - cdf ((lo - mu) / sg))).
  set (n := IZR (nobs l)). set (S := Rsum (map (fun x => x) l)).
  set (Q := Rsum (map (fun x => x * x) l)).
  field. lra.
Qed.

(* ------------------------------------------------------------------ *)
(** ** Lifting to histories of calls *)

Section Lift.
  Context (P : prim) (okv : R -> Prop) (qok : pQ P -> Prop) (spec : list R -> pS P).
  Context (HL : plaws P okv spec) (HC : pchain P okv qok spec).

  Lemma prim_chain_run h q ops s tr r x :
    p_hok P h = true ->
    prim_run P (prim_new P h q) ops = (s, tr) ->
    qok (p_par s) ->
    dget r (p_data s) = None ->
    p_check P x = Ok x -> p_inb P x = true ->
    exists a b s',
      prim_incorporate P s r x = (s', Ok tt) /\
      prim_logpdf_score P s = Ok (Fin a) /\
      prim_logpdf_score P s' = Ok (Fin b) /\
      prim_logpdf P s r x = Ok (Fin (b - a)).
  Proof.
    intros Hh Hrun Hq Hr Hc Hin.
    pose proof (pinv_run P okv spec HL (prim_new P h q) ops (pinv_new P okv spec HL h q)) as Hi.
    pose proof (hok_run P (prim_new P h q) ops Hh) as Hh'.
    rewrite Hrun in Hi, Hh'. simpl in Hi, Hh'. destruct Hi as [Hnd [Hok Hst]].
    destruct (HC (p_hyp s) (p_par s) (dvals (p_data s)) x Hh' Hq Hok
      (l_check _ _ _ HL _ _ Hc)) as [a [b [E1 [E2 E3]]]].
    exists a, b. apply dmem_false_None in Hr.
    unfold prim_incorporate, prim_logpdf, prim_logpdf_score. rewrite Hr, Hc, Hin.
    eexists. split; [reflexivity|]. simpl. rewrite Hst. auto.
  Qed.

  (** Incorporating a sequence of rows and adding up the predictive log
      densities along the way. *)
  Fixpoint chain_sum (s : pstate P) (rows : list (Z * R)) : res (R * pstate P) :=
    match rows with
    | [] => Ok (0, s)
    | (r, x) :: rows' =>
        match prim_logpdf P s r x, prim_incorporate P s r x with
        | Ok (Fin v), (s', Ok _) =>
            rbind (chain_sum s' rows') (fun p => Ok (v + fst p, snd p))
        | _, _ => Err ValueError
        end
    end.

  Lemma chain_sum_score s rows :
    pinv P okv spec s -> p_hok P (p_hyp s) = true -> qok (p_par s) ->
    NoDup (map fst rows) ->
    (forall r x, In (r, x) rows -> dget r (p_data s) = None /\
       p_check P x = Ok x /\ p_inb P x = true) ->
    rows <> [] ->
    exists a b s',
      chain_sum s rows = Ok (b - a, s') /\
      prim_logpdf_score P s = Ok (Fin a) /\
      prim_logpdf_score P s' = Ok (Fin b) /\
      p_data s' = p_data s ++ rows.
  Proof.
    revert s. induction rows as [|[r x] rows IH]; intros s Hi Hh Hq Hnd Hrows Hne; [congruence|].
    destruct (Hrows r x (or_introl eq_refl)) as [Hr [Hc Hin]].
    destruct Hi as [Hn [Hok Hst]].
    destruct (HC (p_hyp s) (p_par s) (dvals (p_data s)) x Hh Hq Hok
      (l_check _ _ _ HL _ _ Hc)) as [a [b [E1 [E2 E3]]]].
    pose proof (proj2 (dmem_false_None r (p_data s)) Hr) as Hm.
    simpl. unfold prim_logpdf. rewrite Hm, Hin, Hst, E3.
    assert (Hi' : pinv P okv spec (fst (prim_incorporate P s r x)))
      by (apply pinv_inc; [exact HL|repeat split; assumption]).
    assert (Hinc : prim_incorporate P s r x =
      (PState (dset r x (p_data s)) (p_add P x (p_stats s)) (p_hyp s) (p_par s), Ok tt)).
    { unfold prim_incorporate. rewrite Hm, Hc. reflexivity. }
    rewrite Hinc in *. simpl in Hi'.
    set (s1 := PState (dset r x (p_data s)) (p_add P x (p_stats s)) (p_hyp s) (p_par s)) in *.
    assert (Es1 : prim_logpdf_score P s1 = Ok (Fin b)).
    { unfold prim_logpdf_score, s1; simpl. rewrite Hst. exact E2. }
    assert (Es : prim_logpdf_score P s = Ok (Fin a)).
    { unfold prim_logpdf_score. rewrite Hst. exact E1. }
    assert (Hd1 : p_data s1 = p_data s ++ [(r, x)]).
    { unfold s1; simpl. apply dset_fresh. apply dget_None_notin; exact Hr. }
    simpl in Hnd. inversion Hnd as [|? ? Hnot Hnd']; subst.
    destruct rows as [|[r2 x2] rows].
    - simpl. exists a, b, s1. split; [|auto]. do 2 f_equal. lra.
    - destruct (IH s1 Hi' Hh Hq Hnd') as [a' [b' [s' [F1 [F2 [F3 F4]]]]]].
      + intros r' x' Hin'. destruct (Hrows r' x' (or_intror Hin')) as [G1 [G2 G3]].
        split; [|auto]. unfold s1; simpl p_data. rewrite dget_dset_other; [exact G1|].
        intros ->. apply Hnot. change r with (fst (r, x')). apply in_map. exact Hin'.
      + discriminate.
      + rewrite Es1 in F2. injection F2 as <-. rewrite F1. simpl.
        exists a, b', s'. split; [do 2 f_equal; lra|]. split; [exact Es|].
        split; [exact F3|]. rewrite F4, Hd1, <- app_assoc. reflexivity.
  Qed.
End Lift.
