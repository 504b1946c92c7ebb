(** Property C55: simulate draws from the distribution that logpdf reports, and an
    observed row always yields its observed value. *)
From Verif Require Import PrimLift PrimSim CrpFacts LogSpaceFacts P01_Prim P03_Crp.
Local Open Scope R_scope.

(* ------------------------------------------------------------------ *)
(** ** Densities of numpy's generators *)

Definition gamma_pdf (lgam : R -> R) (shape scale x : R) : R :=
  Rpower x (shape - 1) * exp (- x / scale) / (exp (lgam shape) * Rpower scale shape).
Definition expon_pdf (scale x : R) : R := exp (- x / scale) / scale.
Definition beta_pdf (lgam : R -> R) (a b p : R) : R :=
  Rpower p (a - 1) * Rpower (1 - p) (b - 1) * exp (lgam (a + b) - lgam a - lgam b).
(** Number of trials up to and including the first success. *)
Definition geometric_pmf (p : R) (n : nat) : R := (1 - p) ^ (n - 1) * p.
(** Number of failures before the n-th success. *)
Definition negbin_pmf (lgam : R -> R) (n p : R) (k : nat) : R :=
  exp (lgam (INR k + n) - lgam (INR k + 1) - lgam n) * Rpower p n * (1 - p) ^ k.
Definition normal_pdf (mean sd x : R) : R :=
  exp (- ((x - mean) / sd) ^ 2 / 2) / (sd * sqrt (2 * PI)).
(** [lbes] is the logarithm of the Bessel function of order zero. *)
Definition vonmises_pdf (lbes : R -> R) (mean kappa x : R) : R :=
  exp (kappa * cos (x - mean)) / (2 * PI * exp (lbes kappa)).

(* ------------------------------------------------------------------ *)
(** ** Observed rows *)

Definition removes {P} (r : Z) (o : pop P) : bool :=
  match o with OpUninc r' => (r' =? r)%Z | _ => false end.

Lemma kept_step P (s : pstate P) o r v : dget r (p_data s) = Some v -> removes r o = false ->
  dget r (p_data (fst (prim_step P s o))) = Some v.
Proof.
  intros H Hr. destruct o as [r' x|r'|h|q]; simpl in *.
  - unfold prim_incorporate. destruct (dmem r' (p_data s)) eqn:E; [exact H|].
    destruct (p_check P x); [|exact H]. simpl. rewrite dget_dset.
    destruct (r =? r')%Z eqn:E2; [|exact H]. apply Z.eqb_eq in E2. subst r'.
    unfold dmem in E. rewrite H in E. discriminate.
  - unfold prim_unincorporate. destruct (dget r' (p_data s)); [|exact H]. simpl.
    rewrite dget_ddel_other; [exact H|]. apply Z.eqb_neq in Hr. congruence.
  - unfold prim_set_hypers. destruct (p_hok P h); exact H.
  - exact H.
Qed.

(** After a row has been observed, and until it is removed, every sample for that row
    is the value observed, whatever the generator draws and whatever else happens to
    the component. *)
Theorem C55_observed : forall P (s0 : pstate P) r x v s1 ops s tr samples,
  p_check P x = Ok v ->
  prim_incorporate P s0 r x = (s1, Ok tt) ->
  prim_run P s1 ops = (s, tr) -> existsb (removes r) ops = false ->
  prim_simulate s r None samples = Ok (Single v) /\
  forall n, prim_simulate s r (Some n) samples = Ok (Several (repeat v n)).
Proof.
  intros P s0 r x v s1 ops s tr samples Hc Hi Hrun Hn.
  assert (H1 : dget r (p_data s1) = Some v).
  { unfold prim_incorporate in Hi. destruct (dmem r (p_data s0)); [discriminate|].
    rewrite Hc in Hi. injection Hi as <-. simpl. apply dget_dset_same. }
  assert (H : dget r (p_data s) = Some v).
  { clear Hi Hc. revert s1 tr H1 Hrun Hn. induction ops as [|o ops IH]; intros s1 tr H1 Hrun Hn.
    - simpl in Hrun. injection Hrun as <- _. exact H1.
    - simpl in Hrun, Hn. apply orb_false_iff in Hn. destruct Hn as [Hn1 Hn2].
      pose proof (kept_step P s1 o r v H1 Hn1) as Hk.
      destruct (prim_step P s1 o) as [s2 r2]. destruct (prim_run P s2 ops) as [s3 tr3] eqn:E3.
      injection Hrun as <- _. exact (IH s2 tr3 Hk E3 Hn2). }
  assert (E : forall y, prim_simulate1 s r y = Ok v).
  { intros y. unfold prim_simulate1. rewrite H. reflexivity. }
  unfold prim_simulate. rewrite E. split; [reflexivity|]. intros n.
  assert (Es : forall k, rsequence (map (fun i => prim_simulate1 s r (samples i)) (seq k n)) = Ok (repeat v n)).
  { induction n as [|n IH]; intros k; [reflexivity|]. simpl. rewrite E. simpl. rewrite IH. reflexivity. }
  rewrite Es. reflexivity.
Qed.
Print Assumptions C55_observed.

Example C55_observed_ex : forall lgam, exists s1 s tr,
  p_check (Bernoulli lgam) 1 = Ok 1 /\
  prim_incorporate (Bernoulli lgam) (prim_new (Bernoulli lgam) (1, 1) tt) 4 1 = (s1, Ok tt) /\
  prim_run (Bernoulli lgam) s1 [@OpHypers (Bernoulli lgam) (2, 3); OpUninc 5] = (s, tr) /\
  existsb (@removes (Bernoulli lgam) 4) [@OpHypers (Bernoulli lgam) (2, 3); OpUninc 5] = false.
Proof.
  intros lgam. unfold prim_incorporate. simpl. unfold bern_inb. rdec. simpl.
  do 3 eexists. split; [reflexivity|]. split; [reflexivity|].
  split; [apply surjective_pairing|reflexivity].
Qed.

(** For a row that is not observed, N samples are N draws. *)
Theorem C55_unobserved : forall P (s : pstate P) r samples xs,
  dget r (p_data s) = None -> (forall i, (i < length xs)%nat -> samples i = Ok (nth i xs 0)) ->
  prim_simulate s r (Some (length xs)) samples = Ok (Several xs).
Proof.
  intros P s r samples xs Hr Hs. unfold prim_simulate.
  assert (E : forall l k, (forall i, (i < length l)%nat -> samples (k + i)%nat = Ok (nth i l 0)) ->
    rsequence (map (fun i => prim_simulate1 s r (samples i)) (seq k (length l))) = Ok l).
  { induction l as [|y l IH]; intros k Hl; [reflexivity|]. simpl.
    unfold prim_simulate1 at 1. rewrite Hr. rewrite <- (Nat.add_0_r k) at 1.
    rewrite (Hl 0%nat) by (simpl; lia). simpl. rewrite IH; [reflexivity|].
    intros i Hi. replace (S k + i)%nat with (k + S i)%nat by lia. apply (Hl (S i)). simpl. lia. }
  rewrite (E xs 0%nat); [reflexivity|]. exact Hs.
Qed.
Print Assumptions C55_unobserved.

Example C55_unobserved_ex : forall lgam,
  dget 3 (p_data (prim_new (Bernoulli lgam) (1, 1) tt)) = None /\
  forall i, (i < length [1; 0; 1])%nat -> (fun i => Ok (nth i [1; 0; 1] 0)) i = Ok (nth i [1; 0; 1] 0).
Proof. auto. Qed.

(* ------------------------------------------------------------------ *)
(** ** Bernoulli and categorical *)

(** log_pflip on log probabilities that sum to one, and pflip on positive weights. *)
Lemma pflip_exact {A} draw w (array : list A) : Forall (fun x => 0 <= x) w -> 0 < Rsum w ->
  pflip draw (map Fin w) array =
    match length w with
    | 1%nat => match array with a :: _ => Ok a | [] => Err IndexError end
    | _ => choice draw array (map (fun x => Fin (x / Rsum w)) w)
    end.
Proof.
  intros Hw Hp. unfold pflip.
  assert (W : weights (map Fin w) w) by (split; auto).
  rewrite (normalize_weights _ _ W), map_map.
  destruct w as [|x [|y w]]; reflexivity.
Qed.
Lemma log_pflip_weights {A} draw ls (array : list A) : Rsum (map exp ls) = 1 ->
  log_pflip draw (map Fin ls) array = pflip draw (map Fin (map exp ls)) array.
Proof.
  intros H. unfold log_pflip.
  assert (Hl : Forall logw (map Fin ls)) by (apply Forall_map, Forall_forall; intros; exact I).
  assert (El : map lexp (map Fin ls) = map exp ls) by (rewrite map_map; reflexivity).
  destruct (log_normalize_spec (map Fin ls) Hl) as [out [E [Ho Em]]]; [rewrite El, H; lra|].
  rewrite E. cbn [rbind]. f_equal.
  rewrite El, H in Em.
  assert (Em2 : map lexp out = map exp ls).
  { rewrite Em, <- El. apply map_ext. intros x. field. }
  rewrite <- Em2, map_map. clear - Ho. induction Ho as [|x out Hx _ IH]; [reflexivity|]. simpl.
  rewrite IH. destruct x; simpl in *; try contradiction; reflexivity.
Qed.
Lemma log_pflip_exact' {A} draw ls (array : list A) : Rsum (map exp ls) = 1 ->
  length ls = length array -> (2 <= length ls)%nat ->
  log_pflip draw (map Fin ls) array = choice draw array (map (fun l => Fin (exp l)) ls).
Proof.
  intros H _ H2. rewrite log_pflip_weights by exact H. rewrite pflip_exact.
  - rewrite map_length. destruct ls as [|x [|y l]]; [simpl in H2; lia|simpl in H2; lia|].
    cbn [length]. f_equal. rewrite map_map, H. apply map_ext. intros z. f_equal. field.
  - apply Forall_map, Forall_forall. intros x _. left. apply exp_pos.
  - rewrite H. lra.
Qed.
Lemma log_pflip_exact draw (ls array : list R) : Rsum (map exp ls) = 1 ->
  length ls = 2%nat ->
  log_pflip draw (map Fin ls) array = choice draw array (map (fun l => Fin (exp l)) ls).
Proof.
  intros H L. destruct ls as [|x [|y [|]]]; try discriminate.
  rewrite log_pflip_weights by exact H. rewrite pflip_exact.
  - cbn [length map]. f_equal. simpl in H. simpl. rewrite H. repeat (f_equal; try field).
  - apply Forall_map, Forall_forall. intros z _. left. apply exp_pos.
  - rewrite H. lra.
Qed.
Lemma log_pflip_single {A} draw l (a : A) : log_pflip draw (map Fin [l]) [a] = Ok a.
Proof.
  unfold log_pflip. assert (Hl : Forall logw (map Fin [l])) by (repeat constructor).
  destruct (log_normalize_spec (map Fin [l]) Hl) as [out [E [Ho Em]]].
  { simpl. pose proof (exp_pos l). lra. }
  rewrite E. simpl. apply (f_equal (@length R)) in Em. rewrite !map_length in Em. simpl in Em.
  destruct out as [|x [|]]; try discriminate. reflexivity.
Qed.

(** [choice draw array p]: numpy picks an entry of [array] with the probabilities [p].
    The generator is offered every possible value with the probability that logpdf
    reports for it. *)
Theorem C55_bernoulli : forall lgam h ops s tr r g,
  p_hok (Bernoulli lgam) h = true ->
  prim_run (Bernoulli lgam) (prim_new (Bernoulli lgam) h tt) ops = (s, tr) ->
  dget r (p_data s) = None ->
  exists l0 l1, prim_logpdf _ s r 0 = Ok (Fin l0) /\ prim_logpdf _ s r 1 = Ok (Fin l1) /\
    prim_simulate1 s r (bern_sample g s) = choice (g_choice g) [0; 1] [Fin (exp l0); Fin (exp l1)].
Proof.
  intros lgam h ops s tr r g Hh Hrun Hr.
  pose proof (C06_bernoulli lgam h ops s tr r Hh Hrun Hr) as Hsum.
  pose proof (pinv_run _ _ _ (bern_laws lgam) _ ops (pinv_new _ _ _ (bern_laws lgam) h tt)) as Hi.
  pose proof (hok_run _ (prim_new (Bernoulli lgam) h tt) ops Hh) as Hh'.
  rewrite Hrun in Hi, Hh'. cbn [fst] in Hi, Hh'. destruct Hi as [_ [Hok Hst]].
  assert (H : forall x, (x = 0 \/ x = 1) -> exists l,
    bern_predictive x (fst (p_stats s)) (snd (p_stats s)) (fst (p_hyp s)) (snd (p_hyp s)) = Ok (Fin l) /\
    prim_logpdf _ s r x = Ok (Fin l)).
  { intros x Hx. pose proof (proj2 (bern_sup lgam x Hx)) as Hb.
    assert (A : 0 <= Rsum (dvals (p_data s)) <= IZR (nobs (dvals (p_data s)))).
    { rewrite IZR_nobs. clear - Hok. induction Hok as [|y l Hy _ IH]; [simpl; lra|].
      change (length (y :: l)) with (S (length l)). rewrite S_INR. simpl. fold Rsum.
      destruct Hy as [-> | ->]; lra. }
    unfold prim_logpdf. apply dmem_false_None in Hr. rewrite Hr, Hb.
    cbn [p_hok Bernoulli] in Hh'. apply andb_prop in Hh'. destruct Hh' as [Ha Hb2].
    apply Rltb_true in Ha. apply Rltb_true in Hb2.
    cbn [p_pred Bernoulli]. rewrite Hst. unfold bern_spec. cbn [fst snd].
    unfold bern_predictive. rewrite plog_pos by lra. simpl.
    destruct (Reqb x 1); rewrite plog_pos by lra; simpl; eauto. }
  destruct (H 0 (or_introl eq_refl)) as [l0 [P0 L0]]. destruct (H 1 (or_intror eq_refl)) as [l1 [P1 L1]].
  exists l0, l1. split; [exact L0|]. split; [exact L1|].
  unfold prim_simulate1. rewrite Hr. unfold bern_sample.
  destruct (p_stats s) as [N xs]. destruct (p_hyp s) as [al be]. cbn [fst snd] in P0, P1.
  rewrite P0, P1. cbn [rbind]. rewrite L0, L1 in Hsum. simpl in Hsum.
  apply (log_pflip_exact (g_choice g) [l0; l1] [INR 0; INR 1]); [simpl; lra|reflexivity].
Qed.
Print Assumptions C55_bernoulli.

Example C55_bernoulli_ex : forall lgam, exists s tr,
  p_hok (Bernoulli lgam) (1, 1) = true /\
  prim_run (Bernoulli lgam) (prim_new (Bernoulli lgam) (1, 1) tt) [OpInc 1 1; OpInc 2 0] = (s, tr) /\
  dget 7 (p_data s) = None.
Proof.
  intros lgam. simpl. unfold prim_incorporate. simpl. unfold bern_inb. rdec. simpl.
  unfold prim_incorporate. simpl. unfold bern_inb. rdec. simpl.
  do 2 eexists. split; [reflexivity|]. split; reflexivity.
Qed.

Theorem C55_categorical : forall lgam k h ops s tr r g,
  (0 < k)%nat ->
  p_hok (Categorical lgam k) h = true ->
  prim_run (Categorical lgam k) (prim_new (Categorical lgam k) h tt) ops = (s, tr) ->
  dget r (p_data s) = None ->
  exists ls, length ls = k /\
    (forall i, (i < k)%nat -> prim_logpdf _ s r (INR i) = Ok (Fin (nth i ls 0))) /\
    prim_simulate1 s r (cat_sample g s) =
      match k with
      | 1%nat => Ok 0
      | _ => choice (g_choice g) (map INR (seq 0 k)) (map (fun l => Fin (exp l)) ls)
      end.
Proof.
  intros lgam k h ops s tr r g Hk Hh Hrun Hr.
  pose proof (pinv_run _ _ _ (cat_laws lgam k) _ ops (pinv_new _ _ _ (cat_laws lgam k) h tt)) as Hi.
  pose proof (hok_run _ (prim_new (Categorical lgam k) h tt) ops Hh) as Hh'.
  rewrite Hrun in Hi, Hh'. cbn [fst] in Hi, Hh'. destruct Hi as [_ [Hok Hst]].
  cbn [p_hok Categorical] in Hh'. apply Rltb_true in Hh'.
  set (al := p_hyp s : R) in *. change (0 < al) in Hh'.
  set (counts := map (fun i => cat_count i (dvals (p_data s))) (seq 0 k)).
  assert (Es : p_stats s = (nobs (dvals (p_data s)), counts)) by exact Hst.
  assert (Lc : length counts = k) by (unfold counts; rewrite map_length, seq_length; reflexivity).
  assert (Nc : forall i, (0 <= nth i counts 0)%Z).
  { intros i. destruct (nth_in_or_default i counts 0%Z) as [Hin | ->]; [|lia].
    unfold counts in Hin at 2. apply in_map_iff in Hin. destruct Hin as [j [<- _]]. unfold cat_count. lia. }
  set (D := Rsum (map IZR counts) + al * INR (length counts)).
  assert (HS : 0 <= Rsum (map IZR counts)).
  { apply Rsum_nonneg. apply Forall_forall. intros x Hx. apply in_map_iff in Hx.
    destruct Hx as [c [<- Hc]]. apply (In_nth _ _ 0%Z) in Hc. destruct Hc as [i [_ <-]].
    apply IZR_le, Nc. }
  assert (Hkp : 0 < INR k) by (apply lt_0_INR; exact Hk).
  assert (HD : 0 < D) by (unfold D; rewrite Lc; nra).
  set (w := map (fun c => IZR c + al) counts).
  assert (Lw : length w = k) by (unfold w; rewrite map_length; exact Lc).
  assert (Hw : forall i, (i < k)%nat -> nth i w 0 = al + IZR (nth i counts 0%Z) /\ 0 < nth i w 0).
  { intros i Hlt. unfold w. rewrite (nth_indep _ 0 (IZR 0 + al)) by (rewrite map_length; lia).
    rewrite (map_nth (fun c => IZR c + al)). pose proof (IZR_le _ _ (Nc i)). lra. }
  assert (Sw : Rsum w = D).
  { unfold D, w. clear. induction counts as [|c l IH]; [simpl; lra|].
    change (length (c :: l)) with (S (length l)). rewrite S_INR. simpl. fold Rsum. rewrite IH. lra. }
  exists (map (fun x => ln x - ln D) w). split; [rewrite map_length; exact Lw|]. split.
  - intros i Hlt. unfold prim_logpdf. apply dmem_false_None in Hr.
    rewrite Hr, (proj2 (cat_sup lgam k (INR i) ltac:(exists i; auto))), Es.
    cbn [p_pred Categorical snd]. unfold cat_predictive. rewrite to_index_INR. fold al D.
    destruct (Hw i Hlt) as [Hw1 Hw2]. rewrite <- Hw1, !plog_pos by assumption. cbn [rbind].
    do 2 f_equal. rewrite (nth_indep (map (fun x => ln x - ln D) w) 0 (ln 0 - ln D)) by (rewrite map_length; lia).
    rewrite (map_nth (fun x => ln x - ln D)). reflexivity.
  - unfold prim_simulate1. rewrite Hr. unfold cat_sample. rewrite Es.
    replace (map (fun c => Fin (IZR c + p_hyp s)) counts) with (map Fin w)
      by (unfold w; rewrite map_map; reflexivity).
    rewrite Lc.
    assert (Pw : Forall (fun x => 0 < x) w).
    { apply Forall_forall. intros x Hx. apply (In_nth _ _ 0) in Hx. destruct Hx as [i [Hi <-]].
      apply Hw. lia. }
    rewrite (pflip_exact (g_choice g) w (map INR (seq 0 k)));
      [|eapply Forall_impl; [|exact Pw]; intros; lra|lra].
    rewrite Lw. destruct k as [|[|k]]; [lia|reflexivity|].
    f_equal. rewrite map_map, Sw. apply map_ext_in. intros x Hx.
    rewrite Forall_forall in Pw. specialize (Pw x Hx). f_equal.
    unfold Rminus. rewrite exp_plus, exp_Ropp, !exp_ln by assumption. reflexivity.
Qed.
Print Assumptions C55_categorical.

Example C55_categorical_ex : forall lgam,
  (0 < 3)%nat /\ p_hok (Categorical lgam 3) 1 = true /\
  dget 2 (p_data (fst (prim_run (Categorical lgam 3) (prim_new (Categorical lgam 3) 1 tt) [OpInc 5 (INR 1)]))) = None.
Proof. intros. destruct (C06_categorical_ex lgam) as [A [B C]]. auto. Qed.

(** The Chinese restaurant process: with no table in use table 0 is taken, otherwise
    the generator is offered each table in use and one new table with the
    probability that logpdf reports. *)
Theorem C55_crp : forall draw alpha ops s tr r,
  0 < alpha -> crp_run (crp_new alpha) ops = (s, tr) -> dget r (c_data s) = None ->
  (c_data s = [] -> crp_simulate draw s r = Ok 0%Z) /\
  (c_data s <> [] -> exists old new, NoDup old /\
    (forall t, In t old <-> In t (dvals (c_data s))) /\ ~ In new (dvals (c_data s)) /\
    crp_simulate draw s r =
      choice draw (old ++ [new]) (map (fun t => Fin (prob (crp_logpdf s r t))) (old ++ [new]))).
Proof.
  intros draw alpha ops s tr r Ha Hrun Hr.
  destruct (C06_crp alpha ops s tr r Ha Hrun Hr) as [old [new [Et [Hnd [Hold [Hnew Hs]]]]]].
  pose proof (crp_inv_run ops _ (crp_inv_new alpha)) as Hi.
  pose proof (crp_alpha_run ops (crp_new alpha) Ha) as Ha'.
  rewrite Hrun in Hi, Ha'. simpl in Hi, Ha'.
  pose proof (crp_N_nonneg s Hi) as HN.
  assert (Hp : forall t, exists l, crp_logpdf s r t = Ok (Fin l)).
  { intros t. destruct (crp_pred_prob s r t Hi Ha' Hr) as [v [E1 _]]. eauto. }
  assert (Hsim : forall K, exists ls, rsequence (map (fun x => crp_logpdf s r x) K) = Ok (map Fin ls) /\
    map exp ls = map (fun t => prob (crp_logpdf s r t)) K).
  { induction K as [|t K IH]; [exists []; split; reflexivity|].
    destruct IH as [ls [E1 E2]]. destruct (Hp t) as [l El]. exists (l :: ls). simpl.
    rewrite El. simpl. rewrite E1. simpl. rewrite E2. split; reflexivity. }
  destruct (Hsim (crp_tables s)) as [ls [E1 E2]].
  assert (Hsum : Rsum (map exp ls) = 1) by (rewrite E2, Et; exact Hs).
  assert (Hlen : length ls = length (crp_tables s)).
  { apply (f_equal (@length R)) in E2. rewrite !map_length in E2. exact E2. }
  unfold crp_simulate. rewrite Hr, E1. cbn [rbind]. split.
  - intros He. assert (crp_tables s = [0%Z]).
    { unfold crp_tables. destruct (zmax_list (dkeys (c_counts s))) as [m|] eqn:Em; [|reflexivity].
      exfalso. assert (Hc : dkeys (c_counts s) <> []) by (intros F; rewrite F in Em; discriminate).
      destruct (dkeys (c_counts s)) as [|t K] eqn:Ek; [congruence|].
      destruct Hi as [_ [Hc' _]]. pose proof (proj1 (counts_of_keys _ _ t Hc')) as F.
      rewrite Ek, He in F. apply F. left. reflexivity. }
    rewrite H in Hlen |- *. destruct ls as [|l [|]]; try discriminate.
    apply (log_pflip_single draw l 0%Z).
  - intros He. exists old, new. repeat split; try assumption; try (apply Hold).
    rewrite <- Et. rewrite (log_pflip_exact' draw ls (crp_tables s) Hsum Hlen).
    + f_equal. rewrite <- (map_map (fun t => prob (crp_logpdf s r t)) Fin), <- E2, map_map. reflexivity.
    + rewrite Hlen, Et, app_length. simpl.
      destruct old as [|o old]; [exfalso|simpl; lia].
      destruct (c_data s) as [|[r' t] d]; [congruence|]. apply (Hold t). left. reflexivity.
Qed.
Print Assumptions C55_crp.

Example C55_crp_ex : exists s tr, crp_run (crp_new 1) [CInc 4 2; CInc 5 2] = (s, tr) /\
  dget 9%Z (c_data s) = None /\ c_data s <> [].
Proof. eexists _, _. split; [reflexivity|]. split; [reflexivity|discriminate]. Qed.

(* ------------------------------------------------------------------ *)
(** ** Classes that call one generator *)

Lemma exp_minus a b : exp (a - b) = exp a / exp b.
Proof. unfold Rminus, Rdiv. rewrite exp_plus, exp_Ropp. reflexivity. Qed.
Lemma pow_exp x k : 0 < x -> x ^ k = exp (INR k * ln x).
Proof. intros H. rewrite <- Rpower_pow by exact H. reflexivity. Qed.
Lemma ln_div' a b : 0 < a -> 0 < b -> ln (a / b) = ln a - ln b.
Proof. intros Ha Hb. unfold Rdiv. rewrite ln_mult, ln_Rinv; try assumption; [lra|]. apply Rinv_0_lt_compat, Hb. Qed.
Lemma div_exp x : / exp x = exp (- x).
Proof. symmetry. apply exp_Ropp. Qed.
Lemma inv_exp_ln x : 0 < x -> / x = exp (- ln x).
Proof. intros H. rewrite exp_Ropp, exp_ln by exact H. reflexivity. Qed.

(** numpy's negative binomial generator is called with parameters under which every
    count has the probability that logpdf reports. *)
Theorem C55_poisson : forall lgam h ops s tr r,
  p_hok (Poisson lgam) h = true ->
  prim_run (Poisson lgam) (prim_new (Poisson lgam) h tt) ops = (s, tr) ->
  dget r (p_data s) = None ->
  exists n p, 0 < n /\ 0 < p < 1 /\
    (forall g, prim_simulate1 s r (pois_sample g s) = Ok (g_negbin g n p)) /\
    forall k, exists l, prim_logpdf _ s r (INR k) = Ok (Fin l) /\ negbin_pmf lgam n p k = exp l.
Proof.
  intros lgam h ops s tr r Hh Hrun Hr.
  pose proof (pinv_run _ _ _ (pois_laws lgam) _ ops (pinv_new _ _ _ (pois_laws lgam) h tt)) as Hi.
  pose proof (hok_run _ (prim_new (Poisson lgam) h tt) ops Hh) as Hh'.
  rewrite Hrun in Hi, Hh'. cbn [fst] in Hi, Hh'. destruct Hi as [_ [Hok Hst]].
  unfold sum2_spec in Hst. set (vs := dvals (p_data s)) in *.
  pose proof (nat_sum_nonneg vs Hok) as HS. rewrite <- (map_id vs) in HS at 1.
  change (map (fun x => x) vs) with (map (fun x : R => x) vs) in HS.
  pose proof (nobs_nonneg vs) as HN. apply IZR_le in HN.
  assert (exists a b, p_hyp s = (a, b) /\ 0 < a /\ 0 < b) as [a [b [Ehyp [Ha Hb]]]].
  { destruct (p_hyp s) as [a b]. cbn in Hh'. apply andb_prop in Hh'. destruct Hh' as [A B].
    apply Rltb_true in A, B. exists a, b. auto. }
  set (Sx := Rsum (map (fun x => x) vs)) in *. set (N := nobs vs) in *.
  exists (a + Sx), ((b + IZR N) / (b + IZR N + 1)).
  assert (Hp : 0 < (b + IZR N) / (b + IZR N + 1) < 1).
  { split; [apply Rdiv_lt_0_compat; lra|]. apply (Rmult_lt_reg_r (b + IZR N + 1)); [lra|].
    unfold Rdiv. rewrite Rmult_assoc, Rinv_l by lra. lra. }
  split; [lra|]. split; [exact Hp|]. split.
  - intros g. unfold prim_simulate1. rewrite Hr. unfold pois_sample. rewrite Hst, Ehyp. reflexivity.
  - intros k. unfold prim_logpdf. apply dmem_false_None in Hr.
    rewrite Hr, (proj2 (pois_sup lgam (INR k) ltac:(eauto))).
    cbn [p_pred Poisson]. rewrite Hst, Ehyp. cbn [fst snd]. unfold pois_predictive, gam_log_Z.
    pose proof (pos_INR k) as Hk. rewrite plus_IZR.
    rewrite !plog_pos by lra. cbn [rbind]. eexists. split; [reflexivity|].
    unfold negbin_pmf, Rpower. replace (1 - (b + IZR N) / (b + IZR N + 1)) with (/ (b + IZR N + 1)) by (field; lra).
    rewrite pow_exp by (apply Rinv_0_lt_compat; lra).
    rewrite ln_Rinv, ln_div' by lra. rewrite <- !exp_plus. f_equal.
    replace (a + (Sx + INR k)) with (INR k + (a + Sx)) by ring.
    replace (b + (IZR N + 1)) with (b + IZR N + 1) by ring. ring.
Qed.
Print Assumptions C55_poisson.

(** Beta: the generator's density is the exponential of logpdf. *)
Theorem C55_beta : forall lgam (s : pstate (Beta lgam)) r strength balance,
  p_par s = (strength, balance) -> 0 < strength -> 0 < balance < 1 ->
  dget r (p_data s) = None ->
  exists a b, 0 < a /\ 0 < b /\
    (forall g, prim_simulate1 s r (beta_sample g s) = Ok (g_beta g a b)) /\
    forall x, 0 < x < 1 -> exists l, prim_logpdf _ s r x = Ok (Fin l) /\ beta_pdf lgam a b x = exp l.
Proof.
  intros lgam s r st ba Hq Hs Hb Hr. exists (st * ba), (st * (1 - ba)).
  split; [nra|]. split; [nra|]. split.
  - intros g. unfold prim_simulate1, beta_sample. rewrite Hr, Hq. reflexivity.
  - intros x Hx. unfold prim_logpdf. apply dmem_false_None in Hr. rewrite Hr.
    cbn [p_inb Beta p_pred]. rewrite (proj2 (unit_inb_true x) Hx), Hq. unfold beta_guard. cbn [fst snd].
    rewrite (proj2 (Rltb_true 0 st)), (proj2 (Rltb_true 0 ba)), (proj2 (Rltb_true ba 1)) by lra.
    eexists. split; [reflexivity|]. unfold beta_pdf, Rpower, beta_logpdf, betaln.
    rewrite <- !exp_plus. f_equal. ring.
Qed.
Print Assumptions C55_beta.

(** Truncated normal: the sample is the first of at most a thousand normal draws
    that lies between the bounds; its density is the normal density divided by the
    probability of the interval, which is the exponential of logpdf. *)
Theorem C55_normal_trunc : forall lgam cdf lo hi (s : pstate (NormalTrunc lgam cdf lo hi)) r mu sigma,
  p_par s = (mu, sigma) -> 0 < sigma ->
  0 < cdf ((hi - mu) / sigma) - cdf ((lo - mu) / sigma) ->
  dget r (p_data s) = None ->
  (forall g, let inside i := lo <= g_normal g i mu sigma <= hi in
     (exists i, (i < 1000)%nat /\ inside i /\ (forall j, (j < i)%nat -> ~ inside j) /\
        prim_simulate1 s r (nt_sample g s) = Ok (g_normal g i mu sigma)) \/
     ((forall i, (i < 1000)%nat -> ~ inside i) /\
        prim_simulate1 s r (nt_sample g s) = Err RuntimeError)) /\
  forall x, lo <= x <= hi -> exists l, prim_logpdf _ s r x = Ok (Fin l) /\
    normal_pdf mu sigma x / (cdf ((hi - mu) / sigma) - cdf ((lo - mu) / sigma)) = exp l.
Proof.
  intros lgam cdf lo hi s r mu sg Hq Hs Hc Hr. split.
  - intros g inside. unfold prim_simulate1, nt_sample. rewrite Hr, Hq.
    assert (H : forall n i, (exists j, (i <= j < i + n)%nat /\ inside j /\ (forall j', (i <= j' < j)%nat -> ~ inside j') /\
        nt_attempts g mu sg lo hi n i = Ok (g_normal g j mu sg)) \/
      ((forall j, (i <= j < i + n)%nat -> ~ inside j) /\ nt_attempts g mu sg lo hi n i = Err RuntimeError)).
    { induction n as [|n IH]; intros i; cbn [nt_attempts].
      - right. split; [intros; lia|reflexivity].
      - destruct (Rleb lo (g_normal g i mu sg) && Rleb (g_normal g i mu sg) hi) eqn:E.
        + left. exists i. apply andb_prop in E. destruct E as [E1 E2]. apply Rleb_true in E1, E2.
          split; [lia|]. split; [split; assumption|]. split; [intros; lia|reflexivity].
        + assert (Hn : ~ inside i).
          { intros [F1 F2]. apply Rleb_true in F1, F2. rewrite F1, F2 in E. discriminate. }
          destruct (IH (S i)) as [[j [Hj [Hin [Hb Ej]]]]|[Hb Ej]]; [left; exists j|right].
          * split; [lia|]. split; [exact Hin|]. split; [|exact Ej].
            intros j' Hj'. destruct (Nat.eq_dec j' i) as [->|]; [exact Hn|apply Hb; lia].
          * split; [|exact Ej]. intros j' Hj'. destruct (Nat.eq_dec j' i) as [->|]; [exact Hn|apply Hb; lia]. }
    destruct (H 1000%nat 0%nat) as [[j [Hj [Hin [Hb Ej]]]]|[Hb Ej]]; [left; exists j|right].
    + split; [apply Hj|]. split; [exact Hin|]. split; [intros; apply Hb; lia|exact Ej].
    + split; [|exact Ej]. intros i Hi. apply Hb. split; [apply Nat.le_0_l|exact Hi].
  - intros x [H1 H2]. unfold prim_logpdf. apply dmem_false_None in Hr. rewrite Hr.
    cbn [p_inb NormalTrunc p_pred]. rewrite (proj2 (Rleb_true lo x) H1), (proj2 (Rleb_true x hi) H2), Hq.
    cbn [fst snd andb]. unfold nt_normalizer.
    rewrite (proj2 (Rltb_true 0 _) Hc). cbn [esub eadd eopp]. eexists. split; [reflexivity|].
    unfold normal_pdf, norm_logpdf. pose proof PI_RGT_0 as HP.
    rewrite <- (exp_ln (cdf _ - cdf _)) at 1 by exact Hc.
    assert (E : sg * sqrt (2 * PI) = exp (ln sg + ln (2 * PI) / 2)).
    { rewrite exp_plus, exp_ln by exact Hs. f_equal.
      rewrite <- Rpower_sqrt by lra. unfold Rpower. f_equal. lra. }
    rewrite E. unfold Rdiv at 1 2. rewrite !div_exp, <- !exp_plus. f_equal. simpl. lra.
Qed.
Print Assumptions C55_normal_trunc.

(** The hypotheses are met: a Poisson component that holds a count, a beta and a
    truncated normal component with parameters inside the domain. *)
Example C55_single_ex : forall lgam,
  p_hok (Poisson lgam) (1, 2) = true /\
  (exists s tr, prim_run (Poisson lgam) (prim_new (Poisson lgam) (1, 2) tt) [OpInc 3 (INR 4)] = (s, tr) /\
     dget 8 (p_data s) = None /\ dget 3 (p_data s) = Some (INR 4)) /\
  p_par (prim_new (Beta lgam) tt (2, 1 / 2)) = (2, 1 / 2) /\ 0 < 1 / 2 < 1 /\
  p_par (prim_new (NormalTrunc lgam atan 0 3) tt (1, 1)) = (1, 1) /\
  0 < atan ((3 - 1) / 1) - atan ((0 - 1) / 1).
Proof.
  intros lgam. split; [simpl; rdec; reflexivity|]. split.
  { assert (B : nat_inb (INR 4) = true) by (apply nat_inb_true; eauto).
    generalize dependent (INR 4). intros y B. cbn -[nat_inb]. unfold prim_incorporate, dmem. cbn -[nat_inb].
    rewrite B. do 2 eexists. split; [reflexivity|]. split; reflexivity. }
  split; [reflexivity|]. split; [lra|]. split; [reflexivity|].
  assert (H : atan ((0 - 1) / 1) < atan ((3 - 1) / 1)) by (apply atan_increasing; lra). lra.
Qed.

(* ------------------------------------------------------------------ *)
(** ** Classes that first draw parameters *)

(** The identities below have the shape
      density of the parameters drawn * density of the value given the parameters
      = exp (logpdf of the value) * another density of the parameters.
    Since the last factor is a probability density, summing over all parameters
    shows that the value drawn has the density that logpdf reports. *)

Lemma gamma_pdf_exp lgam k th x : 0 < th ->
  gamma_pdf lgam k th x = exp ((k - 1) * ln x - x / th - lgam k - k * ln th).
Proof.
  intros H. unfold gamma_pdf, Rpower. unfold Rdiv at 2. rewrite <- exp_plus.
  unfold Rdiv. rewrite <- exp_plus, div_exp, <- exp_plus. f_equal. unfold Rdiv. ring.
Qed.
Lemma expon_pdf_exp sc x : 0 < sc -> expon_pdf sc x = exp (- x / sc - ln sc).
Proof. intros H. unfold expon_pdf. unfold Rdiv at 1. rewrite (inv_exp_ln sc H), <- exp_plus. f_equal. Qed.
Lemma sqrt_exp x : 0 < x -> sqrt x = exp (ln x / 2).
Proof. intros H. rewrite <- Rpower_sqrt by exact H. unfold Rpower. f_equal. lra. Qed.
Lemma normal_pdf_exp m sd x : 0 < sd ->
  normal_pdf m sd x = exp (- ((x - m) / sd) ^ 2 / 2 - ln sd - ln (2 * PI) / 2).
Proof.
  intros H. pose proof PI_RGT_0. unfold normal_pdf. unfold Rdiv at 1.
  rewrite sqrt_exp by lra. rewrite <- (exp_ln sd H) at 2. rewrite <- exp_plus, div_exp, <- exp_plus.
  f_equal. ring.
Qed.
Lemma vonmises_pdf_exp lbes m k x :
  vonmises_pdf lbes m k x = exp (k * cos (x - m) - ln (2 * PI) - lbes k).
Proof.
  pose proof PI_RGT_0. unfold vonmises_pdf. rewrite <- (exp_ln (2 * PI)) at 1 by lra.
  rewrite <- exp_plus. unfold Rdiv. rewrite div_exp, <- exp_plus. f_equal. ring.
Qed.

Theorem C55_exponential : forall lgam h ops s tr r,
  p_hok (Exponential lgam) h = true ->
  prim_run (Exponential lgam) (prim_new (Exponential lgam) h tt) ops = (s, tr) ->
  dget r (p_data s) = None ->
  exists shape scale, 0 < shape /\ 0 < scale /\
    (forall g, prim_simulate1 s r (expo_sample g s) = Ok (g_exponential g (1 / g_gamma g shape scale))) /\
    forall x, 0 <= x -> exists l shape' scale', prim_logpdf _ s r x = Ok (Fin l) /\
      0 < shape' /\ 0 < scale' /\
      forall mu, 0 < mu ->
        gamma_pdf lgam shape scale mu * expon_pdf (1 / mu) x = exp l * gamma_pdf lgam shape' scale' mu.
Proof.
  intros lgam h ops s tr r Hh Hrun Hr.
  pose proof (pinv_run _ _ _ (expo_laws lgam) _ ops (pinv_new _ _ _ (expo_laws lgam) h tt)) as Hi.
  pose proof (hok_run _ (prim_new (Exponential lgam) h tt) ops Hh) as Hh'.
  rewrite Hrun in Hi, Hh'. cbn [fst] in Hi, Hh'. destruct Hi as [_ [Hok Hst]].
  unfold sum_spec in Hst. set (vs := dvals (p_data s)) in *.
  pose proof (Rsum_nonneg vs Hok) as HS. pose proof (nobs_nonneg vs) as HN. apply IZR_le in HN.
  assert (exists a b, p_hyp s = (a, b) /\ 0 < a /\ 0 < b) as [a [b [Ehyp [Ha Hb]]]].
  { destruct (p_hyp s) as [a b]. cbn in Hh'. apply andb_prop in Hh'. destruct Hh' as [A B].
    apply Rltb_true in A, B. exists a, b. auto. }
  set (Sx := Rsum vs) in *. set (N := nobs vs) in *.
  exists (a + IZR N), (1 / (b + Sx)). split; [lra|].
  split; [apply Rdiv_lt_0_compat; lra|]. split.
  - intros g. unfold prim_simulate1. rewrite Hr. unfold expo_sample. rewrite Hst, Ehyp. reflexivity.
  - intros x Hx. unfold prim_logpdf. apply dmem_false_None in Hr.
    rewrite Hr, (proj2 (expo_sup lgam x Hx)).
    cbn [p_pred Exponential]. rewrite Hst, Ehyp. cbn [fst snd]. unfold expo_predictive, gam_log_Z.
    rewrite plus_IZR. rewrite !plog_pos by lra. cbn [rbind].
    eexists _, (a + IZR N + 1), (1 / (b + Sx + x)). split; [reflexivity|].
    split; [lra|]. split; [apply Rdiv_lt_0_compat; lra|].
    intros mu Hmu.
    rewrite !gamma_pdf_exp, expon_pdf_exp by (apply Rdiv_lt_0_compat; lra).
    rewrite !ln_div', ln_1 by lra. rewrite <- !exp_plus. f_equal.
    replace (a + (IZR N + 1)) with (a + IZR N + 1) by ring.
    replace (b + (Sx + x)) with (b + Sx + x) by ring. field. split; [lra|split; lra].
Qed.
Print Assumptions C55_exponential.

Theorem C55_geometric : forall lgam h ops s tr r,
  p_hok (Geometric lgam) h = true ->
  prim_run (Geometric lgam) (prim_new (Geometric lgam) h tt) ops = (s, tr) ->
  dget r (p_data s) = None ->
  exists a b, 0 < a /\ 0 < b /\
    (forall g, prim_simulate1 s r (geom_sample g s) = Ok (g_geometric g (g_beta g a b) - 1)) /\
    forall k, exists l a' b', prim_logpdf _ s r (INR (S k) - 1) = Ok (Fin l) /\ 0 < a' /\ 0 < b' /\
      forall p, 0 < p < 1 ->
        beta_pdf lgam a b p * geometric_pmf p (S k) = exp l * beta_pdf lgam a' b' p.
Proof.
  intros lgam h ops s tr r Hh Hrun Hr.
  pose proof (pinv_run _ _ _ (geom_laws lgam) _ ops (pinv_new _ _ _ (geom_laws lgam) h tt)) as Hi.
  pose proof (hok_run _ (prim_new (Geometric lgam) h tt) ops Hh) as Hh'.
  rewrite Hrun in Hi, Hh'. cbn [fst] in Hi, Hh'. destruct Hi as [_ [Hok Hst]].
  unfold sum_spec in Hst. set (vs := dvals (p_data s)) in *.
  pose proof (nat_sum_nonneg vs Hok) as HS. pose proof (nobs_nonneg vs) as HN. apply IZR_le in HN.
  assert (exists a b, p_hyp s = (a, b) /\ 0 < a /\ 0 < b) as [a [b [Ehyp [Ha Hb]]]].
  { destruct (p_hyp s) as [a b]. cbn in Hh'. apply andb_prop in Hh'. destruct Hh' as [A B].
    apply Rltb_true in A, B. exists a, b. auto. }
  set (Sx := Rsum vs) in *. set (N := nobs vs) in *.
  exists (a + IZR N), (b + Sx). split; [lra|]. split; [lra|]. split.
  - intros g. unfold prim_simulate1. rewrite Hr. unfold geom_sample. rewrite Hst, Ehyp. reflexivity.
  - intros k. replace (INR (S k) - 1) with (INR k) by (rewrite S_INR; ring).
    unfold prim_logpdf. apply dmem_false_None in Hr.
    rewrite Hr, (proj2 (geom_sup lgam (INR k) ltac:(eauto))).
    cbn [p_pred Geometric]. rewrite Hst, Ehyp. cbn [fst snd]. unfold geom_predictive, geom_log_Z, betaln.
    pose proof (pos_INR k) as Hk.
    eexists _, (a + IZR N + 1), (b + Sx + INR k). split; [reflexivity|]. split; [lra|]. split; [lra|].
    intros p Hp. unfold beta_pdf, geometric_pmf, Rpower.
    replace (S k - 1)%nat with k by lia. rewrite pow_exp by lra.
    rewrite <- (exp_ln p) at 4 by lra. rewrite <- !exp_plus. f_equal. rewrite plus_IZR.
    replace (a + (IZR N + 1)) with (a + IZR N + 1) by ring.
    replace (b + (Sx + INR k)) with (b + Sx + INR k) by ring. ring.
Qed.
Print Assumptions C55_geometric.

(** The normal class draws a precision [rho] and a mean [mu]. *)
Lemma normal_mix lgam m r s nu x m' s' rho mu : 0 < r -> 0 < s -> 0 < nu -> 0 < rho -> 0 < s' ->
  m' = (r * m + x) / (r + 1) -> s' = s + r * m * m + x * x - (r + 1) * m' * m' ->
  gamma_pdf lgam (nu / 2) (2 / s) rho * normal_pdf m (1 / sqrt (rho * r)) mu * normal_pdf mu (/ sqrt rho) x
  = exp (- (1/2) * LOG2PI
      + (((nu + 1 + 1) / 2) * ln 2 + (1/2) * ln PI - (1/2) * ln (r + 1) - ((nu + 1) / 2) * ln s' + lgam ((nu + 1) / 2))
      - (((nu + 1) / 2) * ln 2 + (1/2) * ln PI - (1/2) * ln r - (nu / 2) * ln s + lgam (nu / 2)))
    * (gamma_pdf lgam ((nu + 1) / 2) (2 / s') rho * normal_pdf m' (1 / sqrt (rho * (r + 1))) mu).
Proof.
  intros Hr Hs Hnu Hrho Hs' Em Es. pose proof PI_RGT_0 as HP.
  assert (Q : forall c d, 0 < c -> 0 < d -> 0 < 1 / sqrt (c * d)).
  { intros c d Hc Hd. apply Rdiv_lt_0_compat; [lra|]. apply sqrt_lt_R0. nra. }
  rewrite !gamma_pdf_exp by (apply Rdiv_lt_0_compat; lra).
  rewrite !normal_pdf_exp; [|apply Q; lra|apply Rinv_0_lt_compat, sqrt_lt_R0, Hrho|apply Q; lra].
  assert (L : forall y, 0 < y -> ln (sqrt y) = ln y / 2).
  { intros y Hy. rewrite sqrt_exp, ln_exp by exact Hy. reflexivity. }
  rewrite !ln_div', ln_1, ln_Rinv; try lra; try (apply sqrt_lt_R0; nra).
  rewrite !L by nra. rewrite !ln_mult by lra.
  assert (D : forall z y, 0 < y -> (z / (1 / sqrt y)) ^ 2 = z * z * y).
  { intros z y Hy. pose proof (sqrt_lt_R0 y Hy). pose proof (sqrt_sqrt y ltac:(lra)).
    replace (z / (1 / sqrt y)) with (z * sqrt y) by (field; lra). simpl. nra. }
  replace (/ sqrt rho) with (1 / sqrt rho) by (unfold Rdiv; ring).
  rewrite !D by nra. rewrite <- !exp_plus. f_equal. unfold LOG2PI.
  replace (rho / (2 / s)) with (rho * s / 2) by (field; lra).
  replace (rho / (2 / s')) with (rho * s' / 2) by (field; lra).
  assert (K : s' + (r + 1) * (mu - m') * (mu - m') = s + r * (mu - m) * (mu - m) + (x - mu) * (x - mu)).
  { rewrite Es, Em. field. lra. }
  assert (K2 : rho * s' / 2 = rho * (s + r * (mu - m) * (mu - m) + (x - mu) * (x - mu) - (r + 1) * (mu - m') * (mu - m')) / 2).
  { rewrite <- K. field. }
  rewrite K2. field.
Qed.

(** Both steps of the posterior, for values transformed by [f]. *)
Lemma normal_two lgam h (vs : list R) (f : R -> R) y : nhyp_ok h = true ->
  exists mn rn sn nun mm sm l,
    normal_posterior (IZR (nobs vs)) (Rsum (map f vs)) (Rsum (map (fun x => f x * f x) vs)) h = (mn, rn, sn, nun) /\
    normal_predictive lgam y (IZR (nobs vs)) (Rsum (map f vs)) (Rsum (map (fun x => f x * f x) vs)) h = Ok l /\
    0 < rn /\ 0 < sn /\ 0 < nun /\ 0 < sm /\
    forall rho mu, 0 < rho ->
      gamma_pdf lgam (nun / 2) (2 / sn) rho * normal_pdf mn (1 / sqrt (rho * rn)) mu * normal_pdf mu (/ sqrt rho) y
      = exp l * (gamma_pdf lgam ((nun + 1) / 2) (2 / sm) rho * normal_pdf mm (1 / sqrt (rho * (rn + 1))) mu).
Proof.
  intros Hh. destruct (normal_posterior_pos h vs f Hh) as [mn [sn [E1 [Hsn [Hrn [Esn Emn]]]]]].
  pose proof Hh as Hh'. apply nhyp_ok_true in Hh'. destruct Hh' as [Hr [Hs Hnu]].
  pose proof (nobs_nonneg vs) as HN. apply IZR_le in HN.
  set (N := IZR (nobs vs)) in *. set (S1 := Rsum (map f vs)) in *.
  set (S2 := Rsum (map (fun x => f x * f x) vs)) in *.
  assert (E2 : exists mm sm, normal_posterior (N + 1) (S1 + y) (S2 + y * y) h
     = (mm, n_r h + (N + 1), sm, n_nu h + (N + 1)) /\ n_s h <= sm /\
     sm = n_s h + (S2 + y * y) + n_r h * n_m h * n_m h - (n_r h + (N + 1)) * mm * mm /\
     mm = (n_r h * n_m h + (S1 + y)) / (n_r h + (N + 1))).
  { unfold normal_posterior. do 2 eexists. split; [reflexivity|].
    set (m' := (n_r h * n_m h + (S1 + y)) / (n_r h + (N + 1))).
    set (s' := n_s h + (S2 + y * y) + n_r h * n_m h * n_m h - (n_r h + (N + 1)) * m' * m').
    assert (G : n_s h <= s').
    { assert (Es : s' = sn + (n_r h + N) * (y - mn) * (y - mn) / (n_r h + (N + 1))).
      { unfold s', m'.
        assert (ES1 : S1 = mn * (n_r h + N) - n_r h * n_m h) by (rewrite Emn; field; lra).
        rewrite Esn, ES1. field. lra. }
      rewrite Es. assert (0 <= (n_r h + N) * (y - mn) * (y - mn) / (n_r h + (N + 1))).
      { apply Rmult_le_pos; [|left; apply Rinv_0_lt_compat; lra].
        rewrite Rmult_assoc. apply Rmult_le_pos; [lra|apply Rle_0_sqr]. }
      lra. }
    rewrite (proj2 (Reqb_false s' 0)) by lra. split; [exact G|]. split; reflexivity. }
  destruct E2 as [mm [sm [E2 [Hsm [Esm Emm]]]]].
  exists mn, (n_r h + N), sn, (n_nu h + N), mm, sm. eexists.
  split; [exact E1|]. unfold normal_predictive. rewrite E1, E2.
  rewrite !normal_log_Z_pos by lra. cbn [rbind]. split; [reflexivity|].
  split; [lra|]. split; [lra|]. split; [lra|]. split; [lra|].
  intros rho mu Hrho.
  assert (ES1 : S1 = mn * (n_r h + N) - n_r h * n_m h) by (rewrite Emn; field; lra).
  rewrite (normal_mix lgam mn (n_r h + N) sn (n_nu h + N) y mm sm rho mu); try lra.
  - f_equal. f_equal. replace (n_r h + (N + 1)) with (n_r h + N + 1) by ring.
    replace (n_nu h + (N + 1)) with (n_nu h + N + 1) by ring. ring.
  - rewrite Emm, ES1. field. lra.
Qed.

Theorem C55_normal : forall lgam h ops s tr r,
  p_hok (Normal lgam) h = true ->
  prim_run (Normal lgam) (prim_new (Normal lgam) h tt) ops = (s, tr) ->
  dget r (p_data s) = None ->
  exists m q shape scale, 0 < q /\ 0 < shape /\ 0 < scale /\
    (forall g, prim_simulate1 s r (normal_sample g s) =
       let rho := g_gamma g shape scale in
       let mu := g_normal g 0 m (1 / sqrt (rho * q)) in
       Ok (g_normal g 1 mu (/ sqrt rho))) /\
    forall x, exists l m' q' shape' scale', prim_logpdf _ s r x = Ok (Fin l) /\
      0 < q' /\ 0 < shape' /\ 0 < scale' /\
      forall rho mu, 0 < rho ->
        gamma_pdf lgam shape scale rho * normal_pdf m (1 / sqrt (rho * q)) mu * normal_pdf mu (/ sqrt rho) x
        = exp l * (gamma_pdf lgam shape' scale' rho * normal_pdf m' (1 / sqrt (rho * q')) mu).
Proof.
  intros lgam h ops s tr r Hh Hrun Hr.
  pose proof (pinv_run _ _ _ (normal_laws lgam) _ ops (pinv_new _ _ _ (normal_laws lgam) h tt)) as Hi.
  pose proof (hok_run _ (prim_new (Normal lgam) h tt) ops Hh) as Hh'.
  rewrite Hrun in Hi, Hh'. cbn [fst] in Hi, Hh'. destruct Hi as [_ [Hok Hst]].
  unfold sum2_spec in Hst. set (vs := dvals (p_data s)) in *. cbn [p_hok Normal] in Hh'.
  destruct (normal_two lgam (p_hyp s) vs (fun x => x) 0 Hh')
    as [mn [rn [sn [nun [_ [_ [_ [E1 [_ [Hrn [Hsn [Hnun _]]]]]]]]]]]].
  cbv beta in E1.
  exists mn, rn, (nun / 2), (2 / sn). split; [exact Hrn|]. split; [lra|].
  split; [apply Rdiv_lt_0_compat; lra|]. split.
  - intros g. unfold prim_simulate1. rewrite Hr. unfold normal_sample. rewrite Hst, E1. reflexivity.
  - intros x. destruct (normal_two lgam (p_hyp s) vs (fun x => x) x Hh')
      as [mn' [rn' [sn' [nun' [mm [sm [l [E2 [El [_ [_ [_ [Hsm H]]]]]]]]]]]]].
    cbv beta in E2, El. rewrite E1 in E2. injection E2 as <- <- <- <-.
    exists l, mm, (rn + 1), ((nun + 1) / 2), (2 / sm).
    unfold prim_logpdf. apply dmem_false_None in Hr. rewrite Hr.
    cbn [p_inb Normal p_pred]. rewrite Hst, El. split; [reflexivity|]. split; [lra|]. split; [lra|].
    split; [apply Rdiv_lt_0_compat; lra|]. exact H.
Qed.
Print Assumptions C55_normal.

(** The lognormal class draws the logarithm of the value; [normal_pdf _ _ (ln x) / x]
    is the density of the exponential of a normal variable. *)
Theorem C55_lognormal : forall lgam h ops s tr r,
  p_hok (Lognormal lgam) h = true ->
  prim_run (Lognormal lgam) (prim_new (Lognormal lgam) h tt) ops = (s, tr) ->
  dget r (p_data s) = None ->
  exists m q shape scale, 0 < q /\ 0 < shape /\ 0 < scale /\
    (forall g, prim_simulate1 s r (lognormal_sample g s) =
       let rho := g_gamma g shape scale in
       let mu := g_normal g 0 m (1 / sqrt (rho * q)) in
       Ok (exp (g_normal g 1 mu (/ sqrt rho)))) /\
    forall x, 0 < x -> exists l m' q' shape' scale', prim_logpdf _ s r x = Ok (Fin l) /\
      0 < q' /\ 0 < shape' /\ 0 < scale' /\
      forall rho mu, 0 < rho ->
        gamma_pdf lgam shape scale rho * normal_pdf m (1 / sqrt (rho * q)) mu
          * (normal_pdf mu (/ sqrt rho) (ln x) / x)
        = exp l * (gamma_pdf lgam shape' scale' rho * normal_pdf m' (1 / sqrt (rho * q')) mu).
Proof.
  intros lgam h ops s tr r Hh Hrun Hr.
  pose proof (pinv_run _ _ _ (lognormal_laws lgam) _ ops (pinv_new _ _ _ (lognormal_laws lgam) h tt)) as Hi.
  pose proof (hok_run _ (prim_new (Lognormal lgam) h tt) ops Hh) as Hh'.
  rewrite Hrun in Hi, Hh'. cbn [fst] in Hi, Hh'. destruct Hi as [_ [Hok Hst]].
  unfold sum2_spec in Hst. set (vs := dvals (p_data s)) in *. cbn [p_hok Lognormal] in Hh'.
  destruct (normal_two lgam (p_hyp s) vs ln 0 Hh')
    as [mn [rn [sn [nun [_ [_ [_ [E1 [_ [Hrn [Hsn [Hnun _]]]]]]]]]]]].
  cbv beta in E1.
  exists mn, rn, (nun / 2), (2 / sn). split; [exact Hrn|]. split; [lra|].
  split; [apply Rdiv_lt_0_compat; lra|]. split.
  - intros g. unfold prim_simulate1. rewrite Hr. unfold lognormal_sample. rewrite Hst, E1. reflexivity.
  - intros x Hx. destruct (normal_two lgam (p_hyp s) vs ln (ln x) Hh')
      as [mn' [rn' [sn' [nun' [mm [sm [l [E2 [El [_ [_ [_ [Hsm H]]]]]]]]]]]]].
    cbv beta in E2, El. rewrite E1 in E2. injection E2 as <- <- <- <-.
    exists (- ln x + l), mm, (rn + 1), ((nun + 1) / 2), (2 / sm).
    unfold prim_logpdf. apply dmem_false_None in Hr. rewrite Hr.
    cbn [p_inb Lognormal p_pred]. rewrite (proj2 (Rleb_false x 0)) by lra. cbn [negb].
    rewrite Hst, plog_pos by exact Hx. cbn [rbind]. rewrite El. cbn [rbind].
    split; [reflexivity|]. split; [lra|]. split; [lra|].
    split; [apply Rdiv_lt_0_compat; lra|]. intros rho mu Hrho.
    rewrite exp_plus, exp_Ropp, exp_ln by exact Hx. specialize (H rho mu Hrho).
    unfold Rdiv at 4. rewrite <- Rmult_assoc, H. ring.
Qed.
Print Assumptions C55_lognormal.

(** Von Mises: a mean direction is drawn, then an angle around it; both draws are
    made on (-pi, pi] and shifted by pi. *)
Lemma atan2_polar y x : x <> 0 \/ y <> 0 ->
  cos (atan2 y x) = x / sqrt (x * x + y * y) /\ sin (atan2 y x) = y / sqrt (x * x + y * y).
Proof.
  intros H. pose proof PI_RGT_0 as HP.
  assert (A : forall y x, 0 < x -> cos (atan (y / x)) = x / sqrt (x * x + y * y) /\
                                   sin (atan (y / x)) = y / sqrt (x * x + y * y)).
  { clear. intros y x Hx. assert (0 < x * x + y * y) by nra.
    assert (E : sqrt (1 + (y / x)²) = sqrt (x * x + y * y) / x).
    { replace (1 + (y / x)²) with ((x * x + y * y) / (x * x)) by (unfold Rsqr; field; lra).
      rewrite sqrt_div_alt by nra. f_equal. rewrite sqrt_square by lra. reflexivity. }
    pose proof (sqrt_lt_R0 _ H) as Hs.
    rewrite cos_atan, sin_atan, E. split; field; lra. }
  unfold atan2. destruct (Rltb 0 x) eqn:E1.
  - apply Rltb_true in E1. apply A. exact E1.
  - apply Rltb_false in E1. destruct (Rltb x 0) eqn:E2.
    + apply Rltb_true in E2. destruct (A (- y) (- x)) as [C S]; [lra|].
      replace (- y / - x) with (y / x) in C, S by (field; lra).
      replace (- x * - x + - y * - y) with (x * x + y * y) in C, S by ring.
      assert (0 < sqrt (x * x + y * y)) by (apply sqrt_lt_R0; nra).
      destruct (Rltb y 0).
      * rewrite cos_minus, sin_minus, cos_PI, sin_PI, C, S. split; field; lra.
      * rewrite cos_plus, sin_plus, cos_PI, sin_PI, C, S. split; field; lra.
    + apply Rltb_false in E2. assert (x = 0) by lra. subst x.
      replace (0 * 0 + y * y) with (y * y) by ring.
      destruct (Rltb 0 y) eqn:E3.
      * apply Rltb_true in E3. rewrite sqrt_square, cos_PI2, sin_PI2 by lra. split; field; lra.
      * apply Rltb_false in E3. assert (Hy : y < 0) by (destruct H; lra).
        rewrite (proj2 (Rltb_true y 0) Hy). replace (y * y) with (- y * - y) by ring.
        rewrite sqrt_square, cos_neg, sin_neg, cos_PI2, sin_PI2 by lra. split; field; lra.
Qed.

(** [an] and [bn] are the polar coordinates of the vector of weighted cosines and
    sines. *)
Lemma vm_polar ss sc h :
  let C := v_k h * sc + v_a h * cos (v_b h) in
  let S := v_k h * ss + v_a h * sin (v_b h) in
  (C <> 0 \/ S <> 0) ->
  forall t, vm_an ss sc h * cos (t - vm_bn ss sc h) = C * cos t + S * sin t.
Proof.
  intros C S H t. unfold vm_an, vm_bn. fold C S.
  destruct (atan2_polar C S) as [E1 E2]; [tauto|].
  replace (S * S + C * C) with (C * C + S * S) in E1, E2 by ring.
  assert (P : 0 < sqrt (C * C + S * S)) by (apply sqrt_lt_R0; destruct H; nra).
  replace (t - (- atan2 C S + PI / 2)) with (t + atan2 C S - PI / 2) by ring.
  rewrite cos_minus, cos_PI2, sin_PI2, Rmult_0_r, Rplus_0_l, Rmult_1_r.
  rewrite sin_plus, E1, E2. field. lra.
Qed.

Theorem C55_vonmises : forall lbes h ops s tr r,
  p_hok (Vonmises lbes) h = true ->
  prim_run (Vonmises lbes) (prim_new (Vonmises lbes) h tt) ops = (s, tr) ->
  0 < v_k (p_hyp s) ->
  dget r (p_data s) = None ->
  let vs := dvals (p_data s) in
  let k := v_k (p_hyp s) in
  let C := k * Rsum (map cos vs) + v_a (p_hyp s) * cos (v_b (p_hyp s)) in
  let S := k * Rsum (map sin vs) + v_a (p_hyp s) * sin (v_b (p_hyp s)) in
  (C <> 0 \/ S <> 0) ->
  exists mean kappa, 0 < kappa /\
    (forall g, (forall i m q, - PI <= g_vonmises g i m q <= PI) ->
       prim_simulate1 s r (vm_sample g s) =
         let mu := g_vonmises g 0 (mean - PI) kappa + PI in
         Ok (g_vonmises g 1 (mu - PI) k + PI)) /\
    forall x, 0 <= x <= 2 * PI -> (C + k * cos x <> 0 \/ S + k * sin x <> 0) ->
      exists l mean' kappa', prim_logpdf _ s r x = Ok (Fin l) /\ 0 < kappa' /\
        forall mu, vonmises_pdf lbes (mean - PI) kappa (mu - PI) * vonmises_pdf lbes (mu - PI) k (x - PI)
          = exp l * vonmises_pdf lbes mean' kappa' mu.
Proof.
  intros lbes h ops s tr r Hh Hrun Hk0 Hr vs k C S HCS.
  pose proof (pinv_run _ _ _ (vm_laws lbes) _ ops (pinv_new _ _ _ (vm_laws lbes) h tt)) as Hi.
  pose proof (hok_run _ (prim_new (Vonmises lbes) h tt) ops Hh) as Hh'.
  rewrite Hrun in Hi, Hh'. cbn [fst] in Hi, Hh'. destruct Hi as [_ [_ Hst]].
  unfold sum2_spec in Hst. fold vs in Hst.
  assert (Hg : vm_guard (nobs vs) (p_hyp s) = true).
  { cbn in Hh'. apply andb_prop in Hh'. destruct Hh' as [Hh1 Hh2]. apply andb_prop in Hh1.
    destruct Hh1 as [Hh1 _]. unfold vm_guard. rewrite Hh1, Hh2, (proj2 (Rltb_true 0 _) Hk0).
    rewrite (proj2 (Z.leb_le 0 (nobs vs)) (nobs_nonneg vs)). reflexivity. }
  assert (Hsq : forall a b, (a <> 0 \/ b <> 0) -> 0 < sqrt (a * a + b * b)).
  { intros a b [H|H]; apply sqrt_lt_R0; nra. }
  set (ss := Rsum (map sin vs)) in *. set (sc := Rsum (map cos vs)) in *.
  exists (vm_bn ss sc (p_hyp s)), (vm_an ss sc (p_hyp s)).
  assert (Han : 0 < vm_an ss sc (p_hyp s)) by (apply Hsq; exact HCS).
  split; [exact Han|]. split.
  - intros g Hrange. unfold prim_simulate1. rewrite Hr. unfold vm_sample. rewrite Hst.
    rewrite Hg. cbv zeta. fold k.
    set (x := g_vonmises g 1 _ k). assert (Hx : - PI <= x <= PI) by apply Hrange.
    rewrite (proj2 (Rleb_true 0 _)), (proj2 (Rleb_true _ (2 * PI))) by lra. reflexivity.
  - intros x Hx HCS'.
    assert (E' : C + k * cos x = k * (sc + cos x) + v_a (p_hyp s) * cos (v_b (p_hyp s))) by (unfold C; ring).
    assert (F' : S + k * sin x = k * (ss + sin x) + v_a (p_hyp s) * sin (v_b (p_hyp s))) by (unfold S; ring).
    rewrite E', F' in HCS'.
    assert (Ham : 0 < vm_an (ss + sin x) (sc + cos x) (p_hyp s)) by (apply Hsq; exact HCS').
    eexists _, (vm_bn (ss + sin x) (sc + cos x) (p_hyp s)), (vm_an (ss + sin x) (sc + cos x) (p_hyp s)).
    split; [|split; [exact Ham|]].
    + unfold prim_logpdf. apply dmem_false_None in Hr. rewrite Hr.
      cbn [p_inb Vonmises p_pred]. rewrite (proj2 (vm_inb_true x) Hx), Hst.
      unfold vm_predictive, vm_log_Z. rewrite Hg.
      rewrite (proj2 (Rltb_true 0 _) Han), (proj2 (Rltb_true 0 _) Ham). reflexivity.
    + intros mu. rewrite !vonmises_pdf_exp, <- !exp_plus. f_equal.
      replace (mu - PI - (vm_bn ss sc (p_hyp s) - PI)) with (mu - vm_bn ss sc (p_hyp s)) by ring.
      replace (x - PI - (mu - PI)) with (x - mu) by ring.
      rewrite (vm_polar ss sc (p_hyp s) HCS mu).
      rewrite (vm_polar (ss + sin x) (sc + cos x) (p_hyp s) HCS' mu).
      rewrite cos_minus. fold k. ring.
Qed.
Print Assumptions C55_vonmises.

(** The hypotheses of the theorems of this section are met by components with
    observations and valid hyperparameters. *)
Example C55_mixture_ex : forall lgam lbes,
  p_hok (Exponential lgam) (1, 2) = true /\ p_hok (Geometric lgam) (1, 2) = true /\
  p_hok (Normal lgam) (NHyp 0 1 2 3) = true /\ p_hok (Lognormal lgam) (NHyp 0 1 2 3) = true /\
  p_hok (Vonmises lbes) (VHyp 1 PI 2) = true /\
  (exists s tr, prim_run (Normal lgam) (prim_new (Normal lgam) (NHyp 0 1 2 3) tt) [@OpInc (Normal lgam) 1 2; @OpInc (Normal lgam) 2 (-3)] = (s, tr) /\
     dget 5 (p_data s) = None) /\
  (exists s tr, prim_run (Vonmises lbes) (prim_new (Vonmises lbes) (VHyp 1 PI 2) tt) [@OpHypers (Vonmises lbes) (VHyp 1 PI 2)] = (s, tr) /\
     0 < v_k (p_hyp s) /\
     v_k (p_hyp s) * Rsum (map cos (dvals (p_data s))) + v_a (p_hyp s) * cos (v_b (p_hyp s)) <> 0).
Proof.
  intros. pose proof PI_RGT_0 as HP. simpl. unfold nhyp_ok; simpl. rdec.
  split; [reflexivity|]. split; [reflexivity|]. split; [reflexivity|]. split; [reflexivity|].
  split; [reflexivity|]. split.
  - do 2 eexists. split; reflexivity.
  - unfold prim_set_hypers. simpl. rdec. simpl. do 2 eexists. split; [reflexivity|]. simpl.
    rewrite cos_PI. split; lra.
Qed.
