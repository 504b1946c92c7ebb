(** Facts about the queries of Query.v. *)
From Verif Require Import Query LogSpaceFacts PrimSpec PrimFacts PrimLift PrimScore CrpFacts BaseFacts ViewFacts RowFacts RowGibbs Classes ClassFacts Prob ListFacts.
From Coq Require Import Lia.
Local Open Scope R_scope.

(* ------------------------------------------------------------------ *)
(** ** Densities of one cell *)

(** The values that a component accepts. *)
Definition m_sup (M : model) (x : R) : Prop :=
  exists h q s', m_inc M (m_new M h q) 0%Z x [] = (s', Ok tt).

(** Within the accepted values the log density is a number, outside minus infinity. *)
Definition mdens (M : model) (h : mH M) : Prop :=
  forall s r x, reach M s -> m_hyp M s = h -> dget r (m_rows M s) = None ->
    exists l, m_logpdf M s r x [] = Ok l /\
      ((m_sup M x /\ exists y, l = Fin y) \/ (~ m_sup M x /\ l = NInf)).

Lemma dens_prim P n hset okv spec qok h : plaws P okv spec ->
  (forall x, okv x -> exists v, p_check P x = Ok v) -> pchain P okv qok spec ->
  p_hok P h = true -> (forall q, qok q) ->
  (forall x v, p_check P x = Ok v -> v = x /\ p_inb P x = true) ->
  (forall x e, p_check P x = Err e -> p_inb P x = false) ->
  mdens (of_prim P n hset) h.
Proof.
  intros HL Hok HC Hh Hq Hx Hn s r x Hs Hsh Hr.
  assert (Hi : pinv P okv spec s)
    by (eapply reach_good; [apply (of_prim_laws P okv spec n hset HL Hok)|exact Hs]).
  assert (Hsup : m_sup (of_prim P n hset) x <-> exists v, p_check P x = Ok v).
  { unfold m_sup. cbn. unfold prim_incorporate. cbn. split.
    - intros [h' [q' [s' E]]]. destruct (p_check P x); [eauto|discriminate].
    - intros [v E]. exists h, (p_par s). rewrite E. eauto. }
  assert (Hd : dmem r (p_data s) = false).
  { cbn in Hr. rewrite dget_dmap in Hr. unfold dmem. destruct (dget r (p_data s)); [discriminate|reflexivity]. }
  cbn. unfold prim_logpdf. rewrite Hd. destruct (p_check P x) as [v|e] eqn:Ec.
  - destruct (Hx x v Ec) as [-> Hb]. rewrite Hb. destruct Hi as [_ [Hf Hst]].
    destruct (HC h (p_par s) (dvals (p_data s)) x Hh (Hq _) Hf (l_check _ _ _ HL _ _ Ec))
      as [a [b [_ [_ E3]]]].
    rewrite Hst. cbn in Hsh. rewrite Hsh. exists (Fin (b - a)). split; [exact E3|]. left.
    split; [apply Hsup; eauto|eauto].
  - rewrite (Hn x e Ec). exists NInf. split; [reflexivity|]. right. split; [|reflexivity].
    intros H. apply Hsup in H. destruct H as [v H]. discriminate.
Qed.

Lemma collapsed_dens M h : collapsed M h -> (forall lbes, M <> M_vonmises lbes) -> mdens M h.
Proof.
  intros H. destruct H as [lgam h Hg H1 H2|lgam k h Hg H1 H2|lgam h H1 H2|lgam h H1 H2|lgam h H1 H2
    |lgam h H1 H2 H3|lgam h H1 H2 H3|lbes h H1 H2 H3]; intros Hv.
  - eapply dens_prim; [apply bern_laws|intros x Hx; exists x; apply bern_sup; exact Hx|apply bern_chain; exact Hg|apply pair_hok; assumption|exact (fun _ => I)| |].
    + intros x v. simpl. destruct (bern_inb x); [|discriminate]. intros E. injection E as <-. auto.
    + intros x e. simpl. destruct (bern_inb x); [discriminate|auto].
  - eapply dens_prim; [apply cat_laws|intros x Hx; exists x; apply cat_sup; exact Hx|apply cat_chain; exact Hg| |exact (fun _ => I)| |].
    + simpl. apply Rltb_true; exact H1.
    + intros x v. simpl. destruct (cat_inb k x) eqn:E; [|discriminate]. intros E'. injection E' as <-.
      split; [|reflexivity]. unfold cat_inb in E. rewrite !andb_true_iff in E.
      destruct E as [[E _] _]. apply is_intb_true in E. destruct E as [z ->].
      rewrite Int_part_IZR. reflexivity.
    + intros x e. simpl. destruct (cat_inb k x); [discriminate|auto].
  - eapply dens_prim; [apply geom_laws|intros x Hx; exists x; apply geom_sup; exact Hx|apply geom_chain|apply pair_hok; assumption|exact (fun _ => I)| |].
    + intros x v. simpl. destruct (nat_inb x); [|discriminate]. intros E. injection E as <-. auto.
    + intros x e. simpl. destruct (nat_inb x); [discriminate|auto].
  - eapply dens_prim; [apply expo_laws|intros x Hx; exists x; apply expo_sup; exact Hx|apply expo_chain|apply pair_hok; assumption|exact (fun _ => I)| |].
    + intros x v. simpl. destruct (Rltb x 0); [discriminate|]. intros E. injection E as <-. auto.
    + intros x e. simpl. destruct (Rltb x 0); [auto|discriminate].
  - eapply dens_prim; [apply pois_laws|intros x Hx; exists x; apply pois_sup; exact Hx|apply pois_chain|apply pair_hok; assumption|exact (fun _ => I)| |].
    + intros x v. simpl. destruct (nat_inb x); [|discriminate]. intros E. injection E as <-. auto.
    + intros x e. simpl. destruct (nat_inb x); [discriminate|auto].
  - eapply dens_prim; [apply normal_laws|intros x Hx; exists x; reflexivity|apply normal_chain|apply nhyp_hok; assumption|exact (fun _ => I)| |].
    + intros x v. simpl. intros E. injection E as <-. auto.
    + discriminate.
  - eapply dens_prim; [apply lognormal_laws|intros x Hx; exists x; apply lognormal_sup; exact Hx|apply lognormal_chain|apply nhyp_hok; assumption|exact (fun _ => I)| |].
    + intros x v. simpl. destruct (Rleb x 0); [discriminate|]. intros E. injection E as <-. auto.
    + intros x e. simpl. destruct (Rleb x 0); [auto|discriminate].
  - destruct (Hv lbes eq_refl).
Qed.

Lemma Rsum_zero_each0 l : Forall (fun x => 0 <= x) l -> Rsum l = 0 -> forall x, In x l -> x = 0.
Proof.
  induction 1 as [|y l Hy Hl IH]; cbn; [intros _ x []|]. fold (Rsum l). intros H x [<-|Hx].
  - pose proof (Rsum_nonneg l Hl). lra.
  - apply IH; [|exact Hx]. pose proof (Rsum_nonneg l Hl). lra.
Qed.

(** The density of a cell in a column, in cluster [k] of the view or in a new one. *)
Definition cell_ok (a : adim) (k : Z) (x : cell) : Prop :=
  exists l, a_logpdf a norow k x [] = Ok l /\ logw l.

Lemma atotal_cell a k x : ainv a -> atotal a -> (forall r e, acontent a r = Some e -> (0 <= r)%Z) ->
  exists l, a_logpdf a norow k x [] = Ok l /\
    ((match x with None => True | Some y => m_sup (a_M a) y end /\ exists y, l = Fin y) \/
     (match x with None => False | Some y => ~ m_sup (a_M a) y end /\ l = NInf)).
Proof.
  intros Ha [Hh Hv] Hr. unfold a_logpdf, dim_logpdf, valid_cell. destruct x as [x|]; cbn [all_some].
  - destruct (cluster_reach a k Ha Hh) as [R1 R2].
    destruct (collapsed_dens _ _ R2 Hv _ norow x R1 eq_refl) as [l [E Hl]]; [|eauto].
    apply cluster_lacks; [exact Ha|]. intros e He. apply Hr in He. unfold norow in He. lia.
  - exists (Fin 0). split; [reflexivity|]. left. split; [exact I|eauto].
Qed.

(* ------------------------------------------------------------------ *)
(** ** The mixture *)

Definition Rprod (l : list R) : R := fold_right Rmult 1 l.

(** The factor of a variable: [p a x] is the density of the cell [x] in column [a]. *)
Definition factor (v : view) (p : adim -> cell -> R) (cx : Z * cell) : R :=
  match dget (fst cx) (v_dims v) with Some a => p a (snd cx) | None => 0 end.
Definition joint (v : view) (p : adim -> cell -> R) (D : dict cell) : R := Rprod (map (factor v p) D).

Definition old_pdf (k : Z) (a : adim) (x : cell) : R := prob (a_logpdf a norow k x []).
Definition new_pdf (a : adim) (x : cell) : R :=
  match x with None => 1 | Some y => prob (m_logpdf (a_M a) (d_aux (a_d a)) norow y []) end.

Definition clusters (v : view) : list Z := nodup Z.eq_dec (dvals (v_rows v)).
Definition size (v : view) (k : Z) : R := IZR (occ k (dvals (v_rows v))).

Definition mixture (v : view) (D : dict cell) : R :=
  (Rsum (map (fun k => size v k * joint v (old_pdf k) D) (clusters v))
   + c_alpha (v_crp v) * joint v new_pdf D) / (INR (length (v_rows v)) + c_alpha (v_crp v)).

(** Every density that the query needs is defined. *)
Definition query_ok (v : view) (D : dict cell) : Prop :=
  forall c x, In (c, x) D -> exists a, dget c (v_dims v) = Some a /\ forall k, cell_ok a k x.

Lemma query_ok_app v D E : query_ok v (D ++ E) <-> query_ok v D /\ query_ok v E.
Proof.
  unfold query_ok. split.
  - intros H. split; intros c x Hin; apply H, in_app_iff; auto.
  - intros [H1 H2] c x Hin. apply in_app_iff in Hin. destruct Hin; eauto.
Qed.

Lemma joint_app v p D E : joint v p (D ++ E) = joint v p D * joint v p E.
Proof.
  unfold joint. rewrite map_app. generalize (map (factor v p) E). intros m.
  induction (map (factor v p) D) as [|x l IH]; cbn [app Rprod fold_right]; [unfold Rprod; ring|].
  fold (Rprod (l ++ m)). fold (Rprod l). rewrite IH. ring.
Qed.

Lemma joint_nonneg v p D : (forall a x, 0 <= p a x) -> 0 <= joint v p D.
Proof.
  intros Hp. unfold joint. induction D as [|[c x] D IH]; cbn; [lra|]. apply Rmult_le_pos; [|exact IH].
  unfold factor. cbn. destruct (dget c (v_dims v)); [apply Hp|lra].
Qed.
Lemma prob_nonneg r : 0 <= prob r.
Proof. destruct r; cbn; [apply lexp_nonneg|lra]. Qed.
Lemma old_pdf_nonneg k a x : 0 <= old_pdf k a x.
Proof. apply prob_nonneg. Qed.
Lemma new_pdf_nonneg a x : 0 <= new_pdf a x.
Proof. destruct x; cbn; [apply prob_nonneg|lra]. Qed.

(** The log density of the columns in one cluster. *)
Definition dens (v : view) (D : dict cell) (k : Z) : ext :=
  match row_density v D k with Ok l => l | Err _ => NaN end.

Lemma rsum_ext_logw (l : list (res ext)) : (forall r, In r l -> exists e, r = Ok e /\ logw e) ->
  exists e, rsum_ext l = Ok e /\ logw e /\ lexp e = Rprod (map prob l).
Proof.
  intros H.
  assert (E : exists es, rsequence l = Ok es /\ Forall logw es /\ map lexp es = map prob l).
  { induction l as [|r l IH]; [exists []; repeat split; constructor|].
    destruct (H r (or_introl eq_refl)) as [e [-> He]].
    destruct IH as [es [E1 [E2 E3]]]; [intros r' Hr; apply H; right; exact Hr|].
    exists (e :: es). cbn. rewrite E1. cbn. rewrite E3. repeat split. constructor; assumption. }
  destruct E as [es [E1 [E2 E3]]]. unfold rsum_ext. rewrite E1. cbn [rbind]. exists (esum es).
  split; [reflexivity|]. rewrite <- E3. clear E1 E3 H. unfold esum.
  assert (G : forall acc, logw acc -> logw (fold_left eadd es acc) /\
    lexp (fold_left eadd es acc) = lexp acc * Rprod (map lexp es)).
  { induction E2 as [|e es He Hes IH]; intros acc Ha; cbn; [split; [exact Ha|lra]|].
    destruct (IH (eadd acc e) (logw_eadd _ _ Ha He)) as [I1 I2]. split; [exact I1|].
    rewrite I2, lexp_eadd by assumption. fold (Rprod (map lexp es)). lra. }
  destruct (G (Fin 0) I) as [G1 G2]. split; [exact G1|]. rewrite G2. cbn. rewrite exp_0. lra.
Qed.

Lemma dens_spec v D k : query_ok v D -> row_density v D k = Ok (dens v D k) /\ logw (dens v D k) /\
  lexp (dens v D k) = joint v (old_pdf k) D.
Proof.
  intros H. unfold dens, row_density.
  destruct (rsum_ext_logw (map (fun cx => match dget (fst cx) (v_dims v) with
     | None => Err KeyError | Some a => a_logpdf a norow k (snd cx) [] end) D)) as [e [E1 [E2 E3]]].
  { intros r Hr. apply in_map_iff in Hr. destruct Hr as [[c x] [<- Hin]]. cbn [fst snd].
    destruct (H c x Hin) as [a [-> Hk]]. destruct (Hk k) as [l Hl]. exists l. exact Hl. }
  rewrite E1. split; [reflexivity|]. split; [exact E2|]. rewrite E3. unfold joint. f_equal.
  rewrite map_map. apply map_ext. intros [c x]. unfold factor. cbn [fst snd].
  destruct (dget c (v_dims v)); reflexivity.
Qed.

(** The weight that the code gives to cluster [k]. *)
Definition pweight (v : view) (k : Z) : R :=
  match dget k (c_counts (v_crp v)) with Some c => IZR c | None => c_alpha (v_crp v) end.

Definition new_cluster (v : view) : Z :=
  match zmax_list (dkeys (c_counts (v_crp v))) with Some m => m + 1 | None => 0 end%Z.
Definition all_clusters (v : view) : list Z := zsort (dkeys (c_counts (v_crp v))) ++ [new_cluster v].

Section Mixture.
  Context (v : view).
  Context (Hcrp : crp_inv (v_crp v)).
  Context (Hne : v_rows v <> []).
  Context (Hnr : dget norow (v_rows v) = None).
  Context (Ha : 0 < c_alpha (v_crp v)).
  Context (Hcl : forall c a, dget c (v_dims v) = Some a ->
                   forall k, In k (akeys a) -> In k (dvals (v_rows v))).
  Local Notation N := (INR (length (v_rows v))).
  Local Notation alpha := (c_alpha (v_crp v)).

  Lemma counts_nonempty : dkeys (c_counts (v_crp v)) <> [].
  Proof.
    destruct Hcrp as [_ [Hc _]]. unfold v_rows in Hne. destruct (c_data (v_crp v)) as [|[r z] d] eqn:E; [contradiction|].
    intros H. assert (Hin : In z (dkeys (c_counts (v_crp v)))).
    { apply (counts_of_keys _ _ _ Hc). left. reflexivity. }
    rewrite H in Hin. exact Hin.
  Qed.
  Lemma new_max : exists m, zmax_list (dkeys (c_counts (v_crp v))) = Some m /\ new_cluster v = (m + 1)%Z.
  Proof.
    unfold new_cluster. destruct (zmax_list _) as [m|] eqn:E; [eauto|].
    apply zmax_list_None in E. destruct (counts_nonempty E).
  Qed.
  Lemma new_fresh : ~ In (new_cluster v) (dvals (v_rows v)).
  Proof.
    destruct new_max as [m [E ->]]. apply zmax_fresh in E. destruct Hcrp as [_ [Hc _]].
    intros H. apply E. apply (counts_of_keys _ _ _ Hc). exact H.
  Qed.

  Lemma tables_eq : crp_gibbs_tables (v_crp v) norow 1 = Ok (all_clusters v).
  Proof.
    unfold crp_gibbs_tables, crp_singleton. unfold v_rows in Hnr. rewrite Hnr. cbn [Nat.ltb Nat.leb rbind].
    unfold all_clusters. destruct new_max as [m [E ->]]. rewrite E. cbn. rewrite Z.add_0_r. reflexivity.
  Qed.

  Lemma N_pos : 0 < N.
  Proof. clear - Hne. destruct (v_rows v); [contradiction|]. cbn [length]. rewrite S_INR. pose proof (pos_INR (length l)). lra. Qed.

  Lemma pweight_old k : In k (dvals (v_rows v)) -> pweight v k = size v k /\ 0 < pweight v k.
  Proof.
    intros Hk. unfold pweight, size. destruct Hcrp as [_ [Hc _]]. rewrite (proj2 Hc).
    pose proof (proj2 (occ_pos k (dvals (v_rows v))) Hk) as Hp. clear - Hp. unfold v_rows in *.
    destruct (Z.eqb_spec (occ k (dvals (c_data (v_crp v)))) 0); [lia|]. split; [reflexivity|]. apply IZR_lt. lia.
  Qed.
  Lemma pweight_new k : ~ In k (dvals (v_rows v)) -> pweight v k = alpha.
  Proof.
    intros Hk. unfold pweight. destruct Hcrp as [_ [Hc _]]. rewrite (proj2 Hc). unfold v_rows in Hk.
    destruct (Z.eqb_spec (occ k (dvals (c_data (v_crp v)))) 0) as [E|E]; [reflexivity|].
    destruct Hk. apply occ_pos. pose proof (occ_nonneg k (dvals (c_data (v_crp v)))). lia.
  Qed.
  Lemma pweight_pos k : 0 < pweight v k.
  Proof.
    destruct (in_dec Z.eq_dec k (dvals (v_rows v))) as [H|H]; [apply pweight_old; exact H|].
    rewrite (pweight_new k H). exact Ha.
  Qed.

  Lemma predictive_eq k : crp_predictive k (Z.of_nat (length (v_rows v))) (c_counts (v_crp v)) alpha
    = Ok (Fin (ln (pweight v k) - ln (N + alpha))).
  Proof.
    unfold crp_predictive. fold (pweight v k). rewrite plog_pos by apply pweight_pos. cbn [rbind].
    rewrite <- INR_IZR_INZ. rewrite plog_pos by (pose proof N_pos; lra). reflexivity.
  Qed.

  Definition lpc (k : Z) : ext := Fin (ln (pweight v k) - ln (N + alpha)).
  Lemma lexp_lpc k : lexp (lpc k) = pweight v k / (N + alpha).
  Proof.
    unfold lpc. cbn. unfold Rminus. rewrite exp_plus, exp_Ropp, !exp_ln; [reflexivity| |apply pweight_pos].
    pose proof N_pos. lra.
  Qed.

  (** Sums over the clusters of the code are sums over the clusters of the rows and a
      new one. *)
  Lemma sum_clusters (f : Z -> R) : Rsum (map f (all_clusters v)) =
    Rsum (map f (clusters v)) + f (new_cluster v).
  Proof.
    unfold all_clusters. rewrite map_app, Rsum_app. cbn. rewrite Rplus_0_r. f_equal.
    apply Rsum_perm, Permutation_map, NoDup_Permutation.
    - apply zsort_NoDup. apply Hcrp.
    - apply NoDup_nodup.
    - intros k. rewrite zsort_in. unfold clusters. rewrite nodup_In.
      destruct Hcrp as [_ [Hc _]]. apply (counts_of_keys _ _ _ Hc).
  Qed.

  Lemma joint_new k D : ~ In k (dvals (v_rows v)) -> joint v (old_pdf k) D = joint v new_pdf D.
  Proof.
    intros Hk. unfold joint. f_equal. apply map_ext. intros [c x]. unfold factor. cbn [fst snd].
    destruct (dget c (v_dims v)) as [a|] eqn:Ea; [|reflexivity].
    unfold old_pdf, new_pdf, a_logpdf, dim_logpdf, valid_cell. destruct x as [x|]; cbn [all_some].
    - unfold cluster_of. destruct (dget k (d_clusters (a_d a))) as [s|] eqn:Es; [|reflexivity].
      destruct Hk. apply (Hcl c a Ea). unfold akeys. eapply dget_Some_in. exact Es.
    - cbn. apply exp_0.
  Qed.

  Lemma mixture_sum D : Rsum (map (fun k => pweight v k / (N + alpha) * joint v (old_pdf k) D) (all_clusters v))
    = mixture v D.
  Proof.
    rewrite sum_clusters, (pweight_new _ new_fresh), (joint_new _ D new_fresh). unfold mixture.
    rewrite Rdiv_plus_distr. f_equal; [|unfold Rdiv; ring].
    rewrite <- Rsum_map_div. apply Rsum_ext. intros k Hk. apply nodup_In in Hk.
    rewrite (proj1 (pweight_old k Hk)). unfold Rdiv. ring.
  Qed.

  Lemma mixture_nil : mixture v [] = 1.
  Proof.
    rewrite <- mixture_sum. unfold joint. cbn [map Rprod fold_right].
    rewrite (Rsum_ext _ (fun k => pweight v k / (N + alpha))) by (intros; ring).
    rewrite Rsum_map_div, sum_clusters, (pweight_new _ new_fresh).
    rewrite (Rsum_ext _ (size v)) by (intros k Hk; apply nodup_In in Hk; apply (proj1 (pweight_old k Hk))).
    assert (E : Rsum (map (size v) (clusters v)) = N).
    { destruct Hcrp as [_ [Hc _]]. pose proof (counts_of_total _ _ Hc) as Ht.
      rewrite INR_IZR_INZ. unfold v_rows. rewrite <- length_dvals, <- Ht, <- Rsum_IZR.
      transitivity (Rsum (map (size v) (dkeys (c_counts (v_crp v))))).
      - apply Rsum_perm, Permutation_map, NoDup_Permutation; [apply NoDup_nodup|apply Hc|].
        intros k. unfold clusters. rewrite nodup_In. symmetry. apply (counts_of_keys _ _ _ Hc).
      - unfold dkeys, dvals. rewrite !map_map. apply Rsum_ext. intros [k c] Hin. cbn.
        apply dget_In_NoDup in Hin; [|apply Hc]. rewrite (proj2 Hc) in Hin. unfold size, v_rows, dvals.
        destruct (_ =? 0)%Z; [discriminate|]. injection Hin as <-. reflexivity. }
    rewrite E. field. pose proof N_pos. lra.
  Qed.

  Lemma mixture_nonneg D : 0 <= mixture v D.
  Proof.
    rewrite <- mixture_sum. apply Rsum_nonneg. apply Forall_forall. intros y Hy. apply in_map_iff in Hy.
    destruct Hy as [k [<- _]]. apply Rmult_le_pos.
    - apply Rlt_le, Rdiv_lt_0_compat; [apply pweight_pos|pose proof N_pos; lra].
    - apply joint_nonneg. apply old_pdf_nonneg.
  Qed.

  Lemma rsequence_map {A B} (f : A -> res B) (g : A -> B) l : (forall x, f x = Ok (g x)) ->
    rsequence (map f l) = Ok (map g l).
  Proof. intros H. induction l as [|x l IH]; [reflexivity|]. cbn. rewrite H. cbn. rewrite IH. reflexivity. Qed.

  Lemma cluster_weights_eq C : query_ok v C ->
    (mixture v C = 0 -> cluster_weights v C = Err ValueError) /\
    (0 < mixture v C ->
      cluster_weights v C = Ok (all_clusters v, map lpc (all_clusters v), map (dens v C) (all_clusters v))).
  Proof.
    intros HC. unfold cluster_weights. rewrite tables_eq. cbn [rbind].
    rewrite (rsequence_map _ lpc) by (intros k; apply predictive_eq). cbn [rbind].
    rewrite (rsequence_map _ (dens v C)) by (intros k; apply (dens_spec v C k HC)). cbn [rbind].
    assert (E : forallb eisinf (map (dens v C) (all_clusters v)) = true <-> mixture v C = 0).
    { rewrite <- mixture_sum. rewrite forallb_forall. split.
      - intros H. apply Rsum_zero. intros k Hk. rewrite <- (proj2 (proj2 (dens_spec v C k HC))).
        specialize (H (dens v C k) (in_map _ _ _ Hk)). destruct (dens_spec v C k HC) as [_ [Hw _]].
        destruct (dens v C k); cbn in *; try discriminate; try contradiction. lra.
      - intros H y Hy. apply in_map_iff in Hy. destruct Hy as [k [<- Hk]].
        destruct (dens_spec v C k HC) as [_ [Hw Hl]].
        assert (Hz : pweight v k / (N + alpha) * joint v (old_pdf k) C = 0).
        { eapply Rsum_zero_each0; [|exact H|apply in_map_iff; exists k; split; [reflexivity|exact Hk]].
          apply Forall_forall. intros y Hy. apply in_map_iff in Hy. destruct Hy as [j [<- _]].
          apply Rmult_le_pos; [|apply joint_nonneg, old_pdf_nonneg].
          apply Rlt_le, Rdiv_lt_0_compat; [apply pweight_pos|pose proof N_pos; lra]. }
        apply Rmult_integral in Hz. destruct Hz as [Hz|Hz].
        + assert (0 < pweight v k / (N + alpha)) by (apply Rdiv_lt_0_compat; [apply pweight_pos|pose proof N_pos; lra]). lra.
        + rewrite <- Hl in Hz. destruct (dens v C k); cbn in *; try contradiction; [|reflexivity].
          pose proof (exp_pos r). lra. }
    split; intros H.
    - rewrite (proj2 E H). reflexivity.
    - destruct (forallb eisinf _); [|reflexivity]. pose proof (proj1 E eq_refl). lra.
  Qed.

  Lemma eadds_map (f g : Z -> ext) l : eadds (map f l) (map g l) = map (fun k => eadd (f k) (g k)) l.
  Proof. unfold eadds. induction l as [|x l IH]; [reflexivity|]. cbn. rewrite IH. reflexivity. Qed.

  Lemma view_logpdf_eq r T C : v_hypothetical v r = true -> query_ok v T -> query_ok v C ->
    (mixture v C = 0 -> view_logpdf v r T C = Err ValueError) /\
    (0 < mixture v C -> view_logpdf v r T C = Ok (log_of (mixture v (T ++ C) / mixture v C))).
  Proof.
    intros Hr HT HC. destruct (cluster_weights_eq C HC) as [W0 W1]. unfold view_logpdf. rewrite Hr. cbn [negb].
    split; intros H.
    { rewrite (W0 H). reflexivity. }
    rewrite (W1 H). cbn [rbind]. rewrite eadds_map.
    assert (L : forall k, logw (eadd (lpc k) (dens v C k))).
    { intros k. apply logw_eadd; [exact I|apply (dens_spec v C k HC)]. }
    assert (S1 : Rsum (map lexp (map (fun k => eadd (lpc k) (dens v C k)) (all_clusters v))) = mixture v C).
    { rewrite <- mixture_sum, map_map. apply Rsum_ext. intros k _.
      rewrite lexp_eadd; [|exact I|apply (dens_spec v C k HC)].
      rewrite lexp_lpc. rewrite (proj2 (proj2 (dens_spec v C k HC))). reflexivity. }
    unfold log_normalize. rewrite logsumexp_logw.
    2:{ apply Forall_forall. intros y Hy. apply in_map_iff in Hy. destruct Hy as [k [<- _]]. apply L. }
    cbn [rbind]. rewrite S1, (log_of_pos _ H), map_map.
    rewrite (rsequence_map _ (dens v T)) by (intros k; apply (dens_spec v T k HT)). cbn [rbind].
    rewrite eadds_map.
    assert (L2 : forall k, logw (eadd (esub (eadd (lpc k) (dens v C k)) (Fin (ln (mixture v C)))) (dens v T k))).
    { intros k. apply logw_eadd; [|apply (dens_spec v T k HT)]. unfold esub.
      apply logw_eadd; [apply L|exact I]. }
    rewrite logsumexp_logw.
    2:{ apply Forall_forall. intros y Hy. apply in_map_iff in Hy. destruct Hy as [k [<- _]]. apply L2. }
    do 2 f_equal. rewrite <- (mixture_sum (T ++ C)), <- Rsum_map_div, map_map. apply Rsum_ext. intros k _.
    rewrite lexp_eadd; [|unfold esub; apply logw_eadd; [apply L|exact I]|apply (dens_spec v T k HT)].
    unfold esub. rewrite lexp_eadd; [|apply L|exact I]. rewrite lexp_eadd; [|exact I|apply (dens_spec v C k HC)].
    rewrite lexp_lpc, (proj2 (proj2 (dens_spec v C k HC))), (proj2 (proj2 (dens_spec v T k HT))), joint_app.
    cbn [eopp lexp]. rewrite exp_Ropp, exp_ln by exact H. pose proof N_pos. field. split; lra.
  Qed.
End Mixture.
