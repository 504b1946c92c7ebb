(** C50, continued: what the components outside of CrossCat answer on a new row, and which
    queries they refuse. *)
From Verif Require Import Holders ListFacts BaseFacts PrimFacts LogSpaceFacts Prob LogSpace P22_Holders.
From Coq Require Import List ZArith Reals Bool Lia Lra.
Import ListNotations.
Local Open Scope Z_scope.

(* ------------------------------------------------------------------ *)
(** ** Ordinary least squares *)

(** On a new row a least squares regression answers with its mean: one row if no number of
    rows is asked for (or zero), otherwise that many rows. *)
Theorem C50_ols_new : forall g mean s r inputs N y m, ~ In r (dkeys (w_x s)) ->
  ols_preprocess g None inputs = Ok (None, y) -> mean y = Ok m ->
  match ols_simulate g mean s r [g_out g] [] inputs N with
  | Ok (One_row d) => (N = None \/ N = Some 0) /\ d = [(g_out g, m)]
  | Ok (Rows_list l) => exists n, N = Some n /\ n <> 0 /\ length l = Z.to_nat n /\ Forall (fun d => d = [(g_out g, m)]) l
  | Err _ => False
  end.
Proof.
  intros g mean s r inputs N y m Hr Hy Hm. unfold ols_simulate. cbn [zlist_eqb]. rewrite Z.eqb_refl. cbn [andb negb].
  rewrite (proj2 (dget_None_notin r (w_x s)) Hr), Hy. cbn [rbind]. rewrite Hm. cbn [rbind].
  assert (F : forall n, Forall (fun d => d = [(g_out g, m)]) (repeat [(g_out g, m)] n)).
  { intros n. apply Forall_forall. intros d Hd. apply repeat_spec in Hd. exact Hd. }
  destruct N as [[|p|p]|]; [auto| | |auto].
  - exists (Z.pos p). split; [reflexivity|]. split; [discriminate|]. split; [apply repeat_length|apply F].
  - exists (Z.neg p). split; [reflexivity|]. split; [discriminate|]. split; [apply repeat_length|apply F].
Qed.
Print Assumptions C50_ols_new.
(** Concrete case: output 0, numerical input 1, a mean of twice the input. *)
Example C50_ols_new_ex : exists g, reg_init ols_count [0] [1] [Numeric] = Ok g /\
  ols_preprocess g None [(1, Fin 3)] = Ok (None, [Fin 3]) /\
  ols_simulate g (fun y => match y with [Fin v] => Ok (Fin (2 * v)) | _ => Err ValueError end) rows0 7 [0] [] [(1, Fin 3)] (Some 2)
    = Ok (Rows_list [[(0, Fin (2 * 3))]; [(0, Fin (2 * 3))]]).
Proof. eexists. split; [reflexivity|]. split; reflexivity. Qed.

(* ------------------------------------------------------------------ *)
(** ** Random forest *)

(** gu.logsumexp, the value it returns. *)
Definition lse (l : list ext) : ext := match logsumexp l with Ok v => v | Err _ => NaN end.
(** What a fitted regressor promises: each class is a category, and on every row its classes
    have log probabilities that sum to one; a probability may be zero. *)
Definition fitted (g : forest) (classes : list Z) (logp : list ext -> Z -> ext) : Prop :=
  NoDup classes /\ (forall c, In c classes -> 0 <= c < o_k g) /\
  forall y, (forall c, In c classes -> logw (logp y c)) /\ Rsum (map (fun c => lexp (logp y c)) classes) = 1%R.
Definition promises (g : forest) (rg : regressor) : Prop :=
  match rg with None => True | Some (classes, logp) => fitted g classes logp end.
(** The probability of category [c] on the row [y]: uniform before the first fit, afterwards
    a mixture of the uniform distribution and that of the regressor. *)
Definition forest_mass (g : forest) (rg : regressor) (alpha : R) (y : list ext) (c : Z) : R :=
  match rg with
  | None => / IZR (o_k g)
  | Some (classes, logp) => alpha / IZR (o_k g) + (1 - alpha) * (if zmem c classes then lexp (logp y c) else 0)
  end.

Lemma logw_eadd a b : logw a -> logw b -> logw (eadd a b).
Proof. destruct a, b; cbn; tauto. Qed.
Lemma np_log_lexp x : (0 <= x)%R -> logw (np_log x) /\ lexp (np_log x) = x.
Proof.
  intros H. unfold np_log. destruct (Rltb 0 x) eqn:E.
  - apply Rltb_true in E. split; [exact I|]. apply exp_ln. exact E.
  - apply Rltb_false in E. assert (x = 0)%R by lra. subst x. rewrite Reqb_refl. split; [exact I|reflexivity].
Qed.
Lemma uniform_lexp k : (0 < k)%R -> logw (eopp (np_log k)) /\ lexp (eopp (np_log k)) = (/ k)%R.
Proof.
  intros H. unfold np_log. replace (Rltb 0 k) with true by (symmetry; apply Rltb_true; exact H). split; [exact I|].
  cbn. rewrite exp_Ropp, exp_ln by exact H. reflexivity.
Qed.

Lemma forest_predictive_mass g rg alpha counts y c : 0 < o_k g -> length counts = Z.to_nat (o_k g) ->
  (0 <= alpha <= 1)%R -> promises g rg ->
  let p := forest_predictive lse c y rg counts alpha in logw p /\ lexp p = forest_mass g rg alpha y c.
Proof.
  intros Hk Hl Ha Hf p. unfold p, forest_predictive, forest_mass. rewrite Hl, Z2Nat.id by lia.
  assert (K : (0 < IZR (o_k g))%R) by (apply IZR_lt; exact Hk).
  destruct (uniform_lexp _ K) as [U1 U2]. destruct (np_log_lexp alpha) as [A1 A2]; [lra|].
  destruct (np_log_lexp (1 - alpha)) as [B1 B2]; [lra|].
  destruct rg as [[classes logp]|]; [|auto]. destruct Hf as (_ & _ & Hp). destruct (Hp y) as [Hw _].
  destruct (zmem c classes) eqn:E; cbn [negb].
  - apply zmem_in in E. specialize (Hw c E). unfold lse. rewrite logsumexp_logw.
    2:{ constructor; [apply logw_eadd; assumption|]. constructor; [apply logw_eadd; assumption|constructor]. }
    split; [apply log_of_logw|].
    rewrite lexp_log_of by apply Rsum_lexp_nonneg. cbn [map Rsum fold_right].
    rewrite !lexp_eadd, A2, B2, U2 by assumption. unfold Rdiv. ring.
  - split; [apply logw_eadd; assumption|]. rewrite lexp_eadd, A2, U2 by assumption. unfold Rdiv. ring.
Qed.

(** The inputs of a query: those of a row that would be accepted. *)
Definition good_inputs (g : forest) (inputs : dict ext) (y : list ext) : Prop :=
  ~ In (o_out g) (dkeys inputs) /\ (forall c, In c (o_in g) -> In c (dkeys inputs)) /\
  Forall2 (fun c v => dget c inputs = Some v /\ v <> NaN) (zsort (dkeys inputs)) y /\ o_p g = Z.of_nat (length y).

Lemma good_prep g inputs y x : good_inputs g inputs y -> x <> NaN ->
  forest_preprocess g [(o_out g, x)] inputs = match category (o_k g) x with Some c => Ok (c, y) | None => Err IndexError end.
Proof.
  intros (H1 & H2 & H3 & H4) Hx. unfold forest_preprocess. rewrite (proj2 (dmem_false _ _) H1). cbn [dget]. rewrite Z.eqb_refl.
  replace (eisnan x) with false by (destruct x; congruence || reflexivity).
  replace (forallb (fun c => dmem c inputs) (o_in g)) with true.
  2:{ symmetry. apply forallb_forall. intros c Hc. apply dmem_in. auto. }
  cbn [negb].
  assert (E : rsequence (map (fun c => dgetr c inputs) (zsort (dkeys inputs))) = Ok y).
  { clear - H3. induction H3 as [|c v l y [Hc _] _ IH]; [reflexivity|]. cbn [map rsequence]. unfold dgetr at 1. rewrite Hc. cbn [rbind].
    rewrite IH. reflexivity. }
  rewrite E. cbn [rbind].
  replace (existsb eisnan y) with false.
  2:{ symmetry. apply not_true_is_false. intros F. apply existsb_exists in F. destruct F as (v & Hv & F).
      clear - H3 Hv F. induction H3 as [|c w l y [_ Hw] _ IH]; [contradiction|]. destruct Hv as [->|Hv]; [destruct v; cbn in F; congruence|auto]. }
  rewrite H4, Z.eqb_refl. reflexivity.
Qed.

(** On a new row the density of each category is the mixture above ... *)
Theorem C50_forest_density : forall g rg alpha cs r inputs y c, 0 < o_k g -> (0 <= alpha <= 1)%R -> promises g rg ->
  ~ In r (map fst (ledger (forest_accepts g) cs)) -> good_inputs g inputs y -> 0 <= c < o_k g ->
  exists v, forest_logpdf lse g rg alpha (forest_run g cs) r [(o_out g, Fin (IZR c))] [] inputs = Ok v /\ logw v /\
    lexp v = forest_mass g rg alpha y c.
Proof.
  intros g rg alpha cs r inputs y c Hk Ha Hf Hr Hi Hc. unfold forest_logpdf. cbn [dkeys map fst zlist_eqb].
  rewrite Z.eqb_refl. cbn [andb negb].
  assert (D : dmem r (w_x (f_rows (forest_run g cs))) = false).
  { apply dmem_false. destruct (C50_forest g cs) as (Hx & _). intros X. apply Hr. clear - Hx X.
    induction Hx as [|e [k v] L d [E _] _ IH]; [contradiction|]. cbn [fst] in E. subst k. destruct X as [<-|X]; [left; reflexivity|right; auto]. }
  rewrite D, (good_prep g inputs y) by (assumption || discriminate).
  rewrite (proj2 (category_spec (o_k g) (Fin (IZR c)) c) (conj eq_refl Hc)).
  eexists. split; [reflexivity|]. apply forest_predictive_mass; try assumption. apply C50_forest_counts. lia.
Qed.
Print Assumptions C50_forest_density.

(** ... these densities sum to one ... *)
Theorem C50_forest_normalised : forall g rg alpha cs r inputs y, 0 < o_k g -> (0 <= alpha <= 1)%R -> promises g rg ->
  ~ In r (map fst (ledger (forest_accepts g) cs)) -> good_inputs g inputs y ->
  Rsum (map (fun c => match forest_logpdf lse g rg alpha (forest_run g cs) r [(o_out g, Fin (IZR (Z.of_nat c)))] [] inputs with
                      | Ok v => lexp v | Err _ => 0%R end) (seq 0 (Z.to_nat (o_k g)))) = 1%R.
Proof.
  intros g rg alpha cs r inputs y Hk Ha Hf Hr Hi.
  rewrite (Rsum_ext _ (fun c => forest_mass g rg alpha y (Z.of_nat c))).
  2:{ intros c Hc. apply in_seq in Hc.
      destruct (C50_forest_density g rg alpha cs r inputs y (Z.of_nat c) Hk Ha Hf Hr Hi) as (v & E & _ & Ev); [lia|]. rewrite E. exact Ev. }
  assert (K : (IZR (o_k g) = INR (Z.to_nat (o_k g)))%R) by (rewrite INR_IZR_INZ, Z2Nat.id by lia; reflexivity).
  assert (K0 : (0 < INR (Z.to_nat (o_k g)))%R) by (rewrite <- K; apply IZR_lt; exact Hk).
  assert (Cst : forall (x : R) n, Rsum (map (fun _ : nat => x) (seq 0 n)) = (INR n * x)%R).
  { intros x n. rewrite <- (seq_length n 0) at 2. induction (seq 0 n) as [|a l IH]; [cbn; ring|]. cbn [map length].
    rewrite S_INR. unfold Rsum in *. cbn [fold_right]. rewrite IH. ring. }
  unfold forest_mass. destruct rg as [[classes logp]|].
  - destruct Hf as (Hn & Hin & Hp). destruct (Hp y) as [_ Hs].
    rewrite (Rsum_plus (fun _ => alpha / IZR (o_k g))%R (fun c => (1 - alpha) * (if zmem (Z.of_nat c) classes then lexp (logp y (Z.of_nat c)) else 0))%R).
    rewrite Rsum_scal, Cst, K.
    assert (E : Rsum (map (fun c => if zmem (Z.of_nat c) classes then lexp (logp y (Z.of_nat c)) else 0%R) (seq 0 (Z.to_nat (o_k g)))) = 1%R).
    { rewrite <- Hs. clear - Hn Hin.
      set (f := fun c => lexp (logp y c)).
      change (Rsum (map (fun c => if zmem (Z.of_nat c) classes then f (Z.of_nat c) else 0%R) (seq 0 (Z.to_nat (o_k g)))) = Rsum (map f classes)).
      revert Hn Hin. induction classes as [|a l IH]; intros Hn Hin.
      - rewrite (Rsum_zero _ _); [reflexivity|]. intros x _. reflexivity.
      - inversion Hn as [|? ? Hna Hn']; subst.
        rewrite (Rsum_ext _ (fun c => (if Z.of_nat c =? a then f a else 0) + (if zmem (Z.of_nat c) l then f (Z.of_nat c) else 0))%R).
        + rewrite Rsum_plus, IH by (auto; intros c Hc; apply Hin; right; exact Hc).
          cbn [map]. unfold Rsum at 3. cbn [fold_right]. fold (Rsum (map f l)). f_equal.
          destruct (Hin a (or_introl eq_refl)) as [A0 A1].
          rewrite (Rsum_single _ _ (Z.to_nat a)).
          * rewrite Z2Nat.id, Z.eqb_refl by exact A0. reflexivity.
          * apply seq_NoDup.
          * apply in_seq. lia.
          * intros x _ Hx. destruct (Z.eqb_spec (Z.of_nat x) a) as [E|]; [|reflexivity]. exfalso. apply Hx. lia.
        + intros c _. destruct (Z.eqb_spec (Z.of_nat c) a) as [E|Ne].
          * rewrite E. replace (zmem a (a :: l)) with true by (symmetry; apply zmem_in; left; reflexivity).
            replace (zmem a l) with false by (symmetry; apply zmem_false; exact Hna). ring.
          * assert (Em : zmem (Z.of_nat c) (a :: l) = zmem (Z.of_nat c) l).
            { destruct (zmem (Z.of_nat c) l) eqn:Em; [apply zmem_in; apply zmem_in in Em; right; exact Em|].
              apply zmem_false. apply zmem_false in Em. intros [X|X]; [congruence|contradiction]. }
            rewrite Em. ring. }
    rewrite E. field. lra.
  - rewrite Cst, K. field. lra.
Qed.
Print Assumptions C50_forest_normalised.

(** ... and whatever is not a category is given no density. *)
Theorem C50_forest_outside : forall g rg alpha cs r inputs y x,
  ~ In r (map fst (ledger (forest_accepts g) cs)) -> good_inputs g inputs y -> x <> NaN ->
  (forall c, 0 <= c < o_k g -> x <> Fin (IZR c)) ->
  forest_logpdf lse g rg alpha (forest_run g cs) r [(o_out g, x)] [] inputs = Ok NInf.
Proof.
  intros g rg alpha cs r inputs y x Hr Hi Hx Hc. unfold forest_logpdf. cbn [dkeys map fst zlist_eqb].
  rewrite Z.eqb_refl. cbn [andb negb].
  assert (D : dmem r (w_x (f_rows (forest_run g cs))) = false).
  { apply dmem_false. destruct (C50_forest g cs) as (Hd & _). intros X. apply Hr. clear - Hd X.
    induction Hd as [|e [k v] L d [E _] _ IH]; [contradiction|]. cbn [fst] in E. subst k. destruct X as [<-|X]; [left; reflexivity|right; auto]. }
  rewrite D, (good_prep g inputs y) by assumption.
  destruct (category (o_k g) x) as [c|] eqn:E; [|reflexivity]. apply category_spec in E. destruct E as [E C]. contradiction (Hc c C E).
Qed.
Print Assumptions C50_forest_outside.

(** Concrete case: the forest with two categories above, after its history; the regressor
    has seen category 0 only. *)
Definition ex_fit : regressor := Some ([0], fun _ _ => Fin 0).
Example C50_forest_density_ex : 0 < o_k ex_forest /\ promises ex_forest ex_fit /\
  ~ In 9 (map fst (ledger (forest_accepts ex_forest) ex_forest_calls)) /\ good_inputs ex_forest [(8, Fin 4)] [Fin 4] /\
  forest_mass ex_forest ex_fit (1/10) [Fin 4] 0 = (95/100)%R /\ forest_mass ex_forest ex_fit (1/10) [Fin 4] 1 = (5/100)%R.
Proof.
  split; [cbn; lia|]. split; [|split; [|split; [|split]]].
  - split; [repeat constructor; intros []|]. split; [intros c [<-|[]]; cbn; lia|]. intros y. split; [intros; exact I|].
    cbn. rewrite exp_0. ring.
  - destruct C50_forest_ex as (_ & -> & _). cbn. lia.
  - split; [cbn; lia|]. split; [intros c [<-|[]]; left; reflexivity|]. split; [|reflexivity].
    constructor; [|constructor]. split; [reflexivity|discriminate].
  - unfold forest_mass, ex_fit. cbn [zmem existsb Z.eqb orb lexp o_k ex_forest]. cbn. rewrite exp_0. lra.
  - unfold forest_mass, ex_fit. cbn. lra.
Qed.

(* ------------------------------------------------------------------ *)
(** ** Factor analysis *)

(** The exceptions of a query on a new row, and what is handed to the back end: the
    positions (latents first, see C48_reindex) of the targets, of the constraints, and the
    values of the constraints. *)
Theorem C50_fa_query : forall {A} (backend : list Z -> list Z -> list ext -> res A) g cs r targets constraints inputs,
  NoDup (t_out g) -> ~ In r (map fst (ledger (table_accepts g) cs)) ->
  let ask := fa_query g (table_run g cs) backend r targets constraints inputs in
  (inputs <> [] \/ targets = [] \/ (exists q, In q targets /\ ~ In q (t_out g)) \/ (exists q, In q targets /\ In q (dkeys constraints)) ->
     ask = Err ValueError) /\
  (inputs = [] -> targets <> [] -> (forall q, In q targets -> In q (t_out g)) -> (forall q, In q targets -> ~ In q (dkeys constraints)) ->
     ((exists q, In q (dkeys constraints) /\ ~ In q (t_out g)) -> ask = Err KeyError) /\
     ((forall q, In q (dkeys constraints) -> In q (t_out g)) ->
        exists t c, ask = backend t c (map snd constraints) /\
          map (fun p => nth (Z.to_nat p) (t_latent g ++ t_obs g) 0) t = targets /\
          map (fun p => nth (Z.to_nat p) (t_latent g ++ t_obs g) 0) c = dkeys constraints /\
          Forall (fun p => 0 <= p < Z.of_nat (length (t_out g))) (t ++ c))).
Proof.
  intros A backend g cs r targets constraints inputs Hg Hr ask. unfold ask, fa_query. clear ask.
  rewrite (populate_new g cs r) by assumption. cbn [rbind].
  assert (U : forall qs, unknown g qs = true <-> exists q, In q qs /\ ~ In q (t_out g)).
  { intros qs. unfold unknown. rewrite existsb_exists. split; intros (q & Hq & E); exists q; (split; [exact Hq|]).
    - apply negb_true_iff in E. apply zmem_false in E. exact E.
    - apply negb_true_iff. apply zmem_false. exact E. }
  assert (O : overlapping targets constraints = true <-> exists q, In q targets /\ In q (dkeys constraints)).
  { unfold overlapping. rewrite existsb_exists. split; intros (q & Hq & E); exists q; (split; [exact Hq|]); apply dmem_in; exact E. }
  split.
  - intros H. destruct inputs; [|reflexivity]. destruct targets as [|q0 ts]; [reflexivity|].
    destruct (unknown g (q0 :: ts)) eqn:Eu; [reflexivity|].
    destruct (overlapping (q0 :: ts) constraints) eqn:Eo; [reflexivity|]. exfalso.
    destruct H as [H|[H|[H|H]]]; [congruence|discriminate| |]; [apply U in H|apply O in H]; congruence.
  - intros -> Ht Hk Hd. destruct targets as [|q0 ts]; [congruence|].
    destruct (unknown g (q0 :: ts)) eqn:Eu. { apply U in Eu. destruct Eu as (q & Q1 & Q2). contradiction (Q2 (Hk q Q1)). }
    destruct (overlapping (q0 :: ts) constraints) eqn:Eo. { destruct (proj1 O eq_refl) as (q & Q1 & Q2). contradiction (Hd q Q1 Q2). }
    pose proof (C48_reindex g (q0 :: ts) Hg) as R1. pose proof (C48_reindex g (dkeys constraints) Hg) as R2.
    destruct (reindex g (q0 :: ts)) as [t|e]; [|destruct R1 as (_ & q & Q1 & Q2); contradiction (Q2 (Hk q Q1))].
    cbn [rbind]. destruct (reindex g (dkeys constraints)) as [c|e]; cbn [rbind].
    + split; [intros (q & Q1 & Q2); contradiction (Q2 (proj1 R2 q Q1))|]. intros _. exists t, c. split; [reflexivity|].
      split; [apply R1|]. split; [apply R2|]. apply Forall_app. split; [apply R1|apply R2].
    + destruct R2 as (-> & q & Q1 & Q2). split; [reflexivity|]. intros H. contradiction (Q2 (H q Q1)).
Qed.
Print Assumptions C50_fa_query.
(** Concrete case: observed 1 and 2, latent 3, target 3 given column 2. *)
Example C50_fa_query_ex : NoDup (t_out ex_shape) /\ ~ In 9 (map fst (ledger (table_accepts ex_shape) ex_table_calls)) /\
  fa_query ex_shape (table_run ex_shape ex_table_calls) (fun t c v => Ok (t, c, v)) 9 [3] [(2, Fin 4)] [] = Ok ([0], [2], [Fin 4]).
Proof. split; [repeat constructor; cbn; lia|]. split; [cbn; lia|reflexivity]. Qed.

(* ------------------------------------------------------------------ *)
(** ** Nearest neighbours *)

(** The queries that are accepted. *)
Definition knn_fine (g : shape) (K : Z) (s : table) (targets : list Z) (values : list ext) (constraints : dict ext) (N : option Z) : Prop :=
  (forall n, N = Some n -> 0 < n) /\ K <= t_N s /\ targets <> [] /\
  (forall q, In q targets \/ In q (dkeys constraints) -> In q (t_out g)) /\
  (forall q, In q targets -> ~ In q (dkeys constraints)) /\
  ~ In NaN (map snd constraints) /\ ~ In NaN values.

Theorem C50_knn_accepts : forall g K s targets values constraints N,
  (knn_validate g K s targets values constraints N = Ok tt <-> knn_fine g K s targets values constraints N) /\
  (~ knn_fine g K s targets values constraints N -> knn_validate g K s targets values constraints N = Err ValueError).
Proof.
  intros g K s targets values constraints N.
  assert (U : forall qs, unknown g qs = false <-> forall q, In q qs -> In q (t_out g)).
  { intros qs. unfold unknown. split.
    - intros E q Hq. apply zmem_in. apply not_false_is_true. intros F. apply not_true_iff_false in E. apply E.
      apply existsb_exists. exists q. rewrite F. auto.
    - intros H. apply not_true_iff_false. intros E. apply existsb_exists in E. destruct E as (q & Hq & E).
      apply negb_true_iff in E. apply zmem_false in E. auto. }
  assert (V : forall l, existsb eisnan l = false <-> ~ In NaN l).
  { intros l. split.
    - intros E H. apply not_true_iff_false in E. apply E. apply existsb_exists. exists NaN. auto.
    - intros H. apply not_true_iff_false. intros E. apply existsb_exists in E. destruct E as (v & Hv & E).
      destruct v; try discriminate. contradiction. }
  assert (O : overlapping targets constraints = false <-> forall q, In q targets -> ~ In q (dkeys constraints)).
  { unfold overlapping. split.
    - intros E q Hq Hc. apply not_true_iff_false in E. apply E. apply existsb_exists. exists q. split; [exact Hq|]. apply dmem_in. exact Hc.
    - intros H. apply not_true_iff_false. intros E. apply existsb_exists in E. destruct E as (q & Hq & E). apply dmem_in in E. exact (H q Hq E). }
  assert (D : knn_validate g K s targets values constraints N = Ok tt /\ knn_fine g K s targets values constraints N \/
              knn_validate g K s targets values constraints N = Err ValueError /\ ~ knn_fine g K s targets values constraints N).
  { unfold knn_validate, knn_fine.
    destruct (match N with Some n => n <=? 0 | None => false end) eqn:En.
    { right. split; [reflexivity|]. intros (H & _). destruct N as [n|]; [|discriminate]. specialize (H n eq_refl). apply Z.leb_le in En. lia. }
    destruct (Z.ltb_spec (t_N s) K). { right. split; [reflexivity|]. intros (_ & X & _). lia. }
    destruct targets as [|q0 ts]. { right. split; [reflexivity|]. intros (_ & _ & X & _). congruence. }
    destruct (unknown g (q0 :: ts)) eqn:E1.
    { right. split; [reflexivity|]. intros (_ & _ & _ & X & _). assert (unknown g (q0 :: ts) = false) by (apply U; auto). congruence. }
    destruct (unknown g (dkeys constraints)) eqn:E2.
    { right. split; [reflexivity|]. intros (_ & _ & _ & X & _). assert (unknown g (dkeys constraints) = false) by (apply U; auto). congruence. }
    destruct (overlapping (q0 :: ts) constraints) eqn:E3.
    { right. split; [reflexivity|]. intros (_ & _ & _ & _ & X & _). apply O in X. congruence. }
    destruct (existsb eisnan (map snd constraints)) eqn:E4.
    { right. split; [reflexivity|]. intros (_ & _ & _ & _ & _ & X & _). apply V in X. congruence. }
    destruct (existsb eisnan values) eqn:E5.
    { right. split; [reflexivity|]. intros (_ & _ & _ & _ & _ & _ & X). apply V in X. congruence. }
    left. split; [reflexivity|]. split. { intros n ->. apply Z.leb_gt in En. exact En. }
    split; [lia|]. split; [discriminate|]. split. { intros q [Hq|Hq]; [exact (proj1 (U _) E1 q Hq)|exact (proj1 (U _) E2 q Hq)]. }
    split; [apply O; reflexivity|]. split; [apply V; exact E4|apply V; exact E5]. }
  destruct D as [[-> D]|[-> D]]; (split; [split|]); intros; try tauto; try congruence.
Qed.
Print Assumptions C50_knn_accepts.
(** Concrete case: two rows are stored, so that two neighbours may be asked for, not three. *)
Example C50_knn_accepts_ex : knn_fine ex_shape 2 (table_run ex_shape ex_table_calls) [1] [Fin 0] [(2, Fin 9)] (Some 1) /\
  ~ knn_fine ex_shape 3 (table_run ex_shape ex_table_calls) [1] [Fin 0] [(2, Fin 9)] (Some 1).
Proof.
  split.
  - split; [intros n E; injection E as <-; lia|]. split; [cbn; lia|]. split; [discriminate|]. split; [cbn; intuition|].
    split; [cbn; lia|]. split; cbn; intuition discriminate.
  - intros (_ & H & _). cbn in H. lia.
Qed.

(** The density of a new row has to be given constraints; then the complete rows of targets
    and constraints decide. *)
Theorem C50_knn_density : forall g K density cs r targets constraints inputs, NoDup (t_out g) ->
  ~ In r (map fst (ledger (table_accepts g) cs)) ->
  let ask := knn_logpdf g K density (table_run g cs) r targets constraints inputs in
  (inputs <> [] \/ constraints = [] \/ ~ knn_fine g K (table_run g cs) (dkeys targets) (map snd targets) constraints None ->
     ask = Err ValueError) /\
  (inputs = [] -> constraints <> [] -> knn_fine g K (table_run g cs) (dkeys targets) (map snd targets) constraints None ->
     forall members, dataset g (table_run g cs) (dkeys targets ++ dkeys constraints) = Ok members ->
     ask = density members targets constraints).
Proof.
  intros g K density cs r targets constraints inputs Hg Hr ask. unfold ask, knn_logpdf.
  rewrite (populate_new g cs r) by assumption. cbn [rbind].
  destruct (C50_knn_accepts g K (table_run g cs) (dkeys targets) (map snd targets) constraints None) as [V1 V2]. split.
  - intros H. destruct inputs; [|reflexivity]. destruct constraints as [|c0 cs']; [reflexivity|].
    destruct H as [H|[H|H]]; [congruence|discriminate|]. rewrite (V2 H). reflexivity.
  - intros -> Hc Hf members Hm. destruct constraints as [|c0 cs']; [congruence|].
    rewrite (proj2 V1 Hf). cbn [rbind]. rewrite Hm. reflexivity.
Qed.
Print Assumptions C50_knn_density.
Example C50_knn_density_ex : dataset ex_shape (table_run ex_shape ex_table_calls) [1; 2] = Ok [[Fin 0; Fin 9]] /\
  knn_fine ex_shape 2 (table_run ex_shape ex_table_calls) (dkeys [(1, Fin 0)]) (map snd [(1, Fin 0)]) [(2, Fin 9)] None.
Proof.
  split; [reflexivity|]. split; [discriminate|]. split; [cbn; lia|]. split; [discriminate|]. split; [cbn; intuition|].
  split; [cbn; lia|]. split; cbn; intuition discriminate.
Qed.

(** Whatever the generator and the local models do, a list of samples drawn without
    constraints has as many rows as were asked for, and a single row is returned only if no
    number was given. *)
Theorem C50_knn_count : forall g K pick sample cs r targets inputs N a, NoDup (t_out g) ->
  ~ In r (map fst (ledger (table_accepts g) cs)) ->
  knn_simulate g K pick sample (table_run g cs) r targets [] inputs N = Ok a ->
  match a with One_row _ => N = None | Rows_list l => N = Some (Z.of_nat (length l)) /\ l <> [] end.
Proof.
  intros g K pick sample cs r targets inputs N a Hg Hr. unfold knn_simulate. destruct inputs; [|discriminate].
  rewrite (populate_new g cs r) by assumption. cbn [rbind].
  destruct (knn_validate g K (table_run g cs) targets [] [] _) as [[]|] eqn:Ev; cbn [rbind]; [|discriminate].
  apply C50_knn_accepts in Ev. destruct Ev as (Hn & _).
  destruct (knn_fallback g K pick sample (table_run g cs) r targets _) as [l|]; cbn [rbind]; [|discriminate].
  destruct (Z.eqb_spec (Z.of_nat (length l)) match N with None => 1 | Some n => n end) as [E|]; cbn [rbind]; [|discriminate].
  specialize (Hn _ eq_refl). destruct N as [n|].
  - intros X. injection X as <-. split; [congruence|]. intros ->. cbn in E. lia.
  - destruct l; [discriminate|]. intros X. injection X as <-. reflexivity.
Qed.
Print Assumptions C50_knn_count.

(** If the local models answer the targets they are asked for, every sample without
    constraints answers every target, also when all outputs are targets. *)
Theorem C50_knn_targets : forall g K pick sample cs r targets inputs N a, NoDup (t_out g) -> NoDup targets ->
  ~ In r (map fst (ledger (table_accepts g) cs)) ->
  (forall m k j, In j (pick m k) -> (j < m)%nat) ->
  (forall i members ts C l, sample i members ts C 1 = Ok l -> forall d, In d l -> dkeys d = ts) ->
  knn_simulate g K pick sample (table_run g cs) r targets [] inputs N = Ok a ->
  forall d, In d (match a with One_row d => [d] | Rows_list l => l end) -> forall q, In q (dkeys d) <-> In q targets.
Proof.
  intros g K pick sample cs r targets inputs N a Hg Ht Hr Hp Hs. unfold knn_simulate. destruct inputs; [|discriminate].
  rewrite (populate_new g cs r) by assumption. cbn [rbind].
  destruct (knn_validate g K (table_run g cs) targets [] [] _) as [[]|] eqn:Ev; cbn [rbind]; [|discriminate].
  set (n := match N with None => 1 | Some n => n end).
  destruct (knn_fallback g K pick sample (table_run g cs) r targets n) as [l|] eqn:El; cbn [rbind]; [|discriminate].
  assert (G : forall d, In d l -> forall q, In q (dkeys d) <-> In q targets).
  { revert El. unfold knn_fallback. cbv zeta.
    set (all := Nat.eqb (length targets) (length (t_out g))). set (rest := filter (fun o => negb (zmem o targets)) (t_out g)).
    assert (Hd : forall dummy targets', (if all then match rest, targets with [], t :: ts => Ok ([t], ts) | [], [] => Err IndexError | _, _ => Err AssertionError end
                  else Ok (rest, targets)) = Ok (dummy, targets') ->
               (all = true /\ exists t, targets = t :: targets' /\ dummy = [t]) \/ (all = false /\ targets' = targets)).
    { intros dummy targets' E. destruct all.
      - left. split; [reflexivity|]. destruct rest; [|discriminate]. destruct targets as [|t ts]; [discriminate|]. injection E as <- <-. eauto.
      - right. injection E as _ <-. auto. }
    destruct (if all then _ else _) as [[dummy targets']|]; cbn [rbind]; [|discriminate]. specialize (Hd _ _ eq_refl).
    destruct (dataset g (table_run g cs) dummy) as [data|] eqn:Ed; cbn [rbind]; [|discriminate].
    destruct data as [|d0 data]; [discriminate|]. set (chosen := pick (length (d0 :: data)) n).
    match goal with |- rbind (rsequence (map ?F _)) _ = _ -> _ => set (f := F) end.
    destruct (rsequence (map f (combine (seq 0 (length chosen)) chosen))) as [l'|] eqn:Es; cbn [rbind]; [|discriminate].
    intros E. injection E as ->. apply rsequence_ok in Es. intros d Hdl q.
    assert (X : In (Ok d) (map Ok l)) by (apply in_map; exact Hdl). rewrite <- Es in X. apply in_map_iff in X.
    destruct X as ([i j] & Ef & Hij). apply in_combine_r in Hij. apply Hp in Hij. unfold f in Ef.
    set (e := combine dummy (nth j (d0 :: data) [])) in Ef.
    destruct (populate_constraints g (table_run g cs) r targets' e) as [C|]; cbn [rbind] in Ef; [|discriminate].
    destruct (knn_validate g K (table_run g cs) targets' [] C (Some 1)) as [[]|]; cbn [rbind] in Ef; [|discriminate].
    unfold knn_given in Ef. destruct (dataset g (table_run g cs) (targets' ++ dkeys C)) as [mem|]; cbn [rbind] in Ef; [|discriminate].
    destruct (sample (S i) mem targets' C 1) as [ans|] eqn:Ea; cbn [rbind] in Ef; [|discriminate].
    destruct ans as [|a0 ans]; [discriminate|]. pose proof (Hs _ _ _ _ _ Ea a0 (or_introl eq_refl)) as Ka.
    destruct Hd as [(Eall & t & -> & ->)|(Eall & ->)]; rewrite Eall in Ef.
    - injection Ef as <-.
      assert (Ke : dkeys e = [t]).
      { apply keys_combine. apply dataset_width in Ed. rewrite Forall_forall in Ed. symmetry. apply Ed. apply nth_In. exact Hij. }
      apply NoDup_cons_iff in Ht. destruct Ht as [Hnt Ht'].
      rewrite merged_apart.
      + unfold dkeys in *. rewrite map_app, Ka, Ke, in_app_iff. cbn. tauto.
      + rewrite Ka. exact Ht'.
      + rewrite Ke. repeat constructor. intros [].
      + intros c Hc. rewrite Ka in Hc. rewrite Ke. intros [->|[]]. contradiction.
    - injection Ef as <-. rewrite Ka. tauto. }
  destruct (Z.of_nat (length l) =? n); cbn [rbind]; [|discriminate].
  destruct N as [n'|].
  - intros X. injection X as <-. exact G.
  - destruct l as [|d l]; [discriminate|]. intros X. injection X as <-. intros d' [<-|[]]. apply G. left. reflexivity.
Qed.
Print Assumptions C50_knn_targets.

(** Concrete case: both outputs are targets; column 1 is resampled, column 2 drawn. *)
Definition ex_sample (i : nat) (members : list (list ext)) (ts : list Z) (C : dict ext) (n : Z) : res (list (dict ext)) :=
  Ok (repeat (map (fun t => (t, Fin 9)) ts) (Z.to_nat n)).
Definition ex_knn : shape := Shape [1; 2] [].
Definition ex_knn_calls : list call := [Inc 5 [(1, Fin 3); (2, Fin 4)] []; Inc 7 [(1, Fin 0); (2, Fin 9)] []].
Example C50_knn_targets_ex : NoDup (t_out ex_knn) /\ NoDup [1; 2] /\
  (forall m k j, In j (if Nat.eqb m 0 then [] else repeat 0%nat (Z.to_nat k)) -> (j < m)%nat) /\
  (forall i members ts C l, ex_sample i members ts C 1 = Ok l -> forall d, In d l -> dkeys d = ts) /\
  knn_simulate ex_knn 2 (fun m k => if Nat.eqb m 0 then [] else repeat 0%nat (Z.to_nat k)) ex_sample (table_run ex_knn ex_knn_calls) 9 [1; 2] [] [] (Some 2)
    = Ok (Rows_list [[(2, Fin 9); (1, Fin 3)]; [(2, Fin 9); (1, Fin 3)]]).
Proof.
  split; [repeat constructor; cbn; lia|]. split; [repeat constructor; cbn; lia|]. split; [|split; [|reflexivity]].
  - intros m k j. destruct (Nat.eqb_spec m 0); [intros []|]. intros H. apply repeat_spec in H. lia.
  - intros i members ts C l E d Hd. unfold ex_sample in E. cbn in E. injection E as <-. destruct Hd as [<-|[]].
    unfold dkeys. rewrite map_map. apply map_id.
Qed.
