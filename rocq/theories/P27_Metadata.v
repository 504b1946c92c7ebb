(** C41: writing a view or a state down and building it again. *)
From Verif Require Import MetadataFacts Metadata Query Compose StateFacts ViewFacts RowGibbs CrpFacts PrimFacts BaseFacts LogSpaceFacts ClassFacts P06_Dim P07_View P09_State SettledFacts.
From Coq Require Import Lia Permutation FunctionalExtensionality.
Local Open Scope R_scope.

(* ------------------------------------------------------------------ *)
(** ** Alike views answer alike *)

Section AlikeViews.
  Variables w w' : view.
  Hypothesis A : vlike w w'.
  Hypothesis I : crp_inv (v_crp w).
  Hypothesis I' : crp_inv (v_crp w').

  Lemma alike_density T k : row_density w' T k = row_density w T k.
  Proof.
    unfold row_density. f_equal. apply map_ext. intros [c x]. cbn [fst snd].
    pose proof (al_cols _ _ A c) as H. destruct (dget c (v_dims w)), (dget c (v_dims w')); try contradiction; [|reflexivity].
    destruct H as [[_ [_ [_ H]]] _]. apply H.
  Qed.

  Lemma alike_keys c : In c (dkeys (v_dims w')) <-> In c (dkeys (v_dims w)).
  Proof.
    pose proof (al_cols _ _ A c) as H. destruct (dget c (v_dims w)) eqn:E, (dget c (v_dims w')) eqn:E'; try contradiction.
    - apply dget_Some_in in E. apply dget_Some_in in E'. tauto.
    - apply dget_None_notin in E. apply dget_None_notin in E'. tauto.
  Qed.
  Lemma alike_mem c : dmem c (v_dims w') = dmem c (v_dims w).
  Proof. destruct (dmem c (v_dims w)) eqn:E; [apply dmem_in, alike_keys, dmem_in; exact E|].
    apply dmem_false. rewrite alike_keys. apply dmem_false. exact E. Qed.

  Lemma alike_count_keys k : In k (dkeys (c_counts (v_crp w'))) <-> In k (dkeys (c_counts (v_crp w))).
  Proof.
    pose proof (al_counts _ _ A k) as H. split; intros Hi; apply in_dkeys_Some in Hi; destruct Hi as [x Hx].
    - rewrite H in Hx. eapply dget_Some_in; exact Hx.
    - rewrite <- H in Hx. eapply dget_Some_in; exact Hx.
  Qed.
  Lemma alike_counts_perm : Permutation (c_counts (v_crp w')) (c_counts (v_crp w)).
  Proof. apply rows_perm; [apply I'|apply I|apply (al_counts _ _ A)]. Qed.

  Lemma zmax_ext (l m : list Z) : (forall x, In x l <-> In x m) -> zmax_list l = zmax_list m.
  Proof.
    intros H. destruct (zmax_list l) as [x|] eqn:E; destruct (zmax_list m) as [y|] eqn:E'.
    - apply zmax_list_spec in E. apply zmax_list_spec in E'. destruct E as [E1 E2]. destruct E' as [E1' E2'].
      f_equal. apply Z.le_antisymm; [apply E2', H, E1|apply E2, H, E1'].
    - apply zmax_list_None in E'. subst m. apply zmax_list_spec in E. destruct E as [E _]. apply H in E. destruct E.
    - apply zmax_list_None in E. subst l. apply zmax_list_spec in E'. destruct E' as [E' _]. apply H in E'. destruct E'.
    - reflexivity.
  Qed.

  Lemma alike_sorted : zsort (dkeys (c_counts (v_crp w'))) = zsort (dkeys (c_counts (v_crp w))).
  Proof. apply zsort_ext; [apply I'|apply I|apply alike_count_keys]. Qed.

  Lemma alike_tables r m : crp_gibbs_tables (v_crp w') r m = crp_gibbs_tables (v_crp w) r m.
  Proof.
    unfold crp_gibbs_tables. rewrite alike_sorted, (zmax_ext _ _ alike_count_keys).
    assert (S : crp_singleton (v_crp w') r = crp_singleton (v_crp w) r).
    { unfold crp_singleton. pose proof (al_rows _ _ A r) as E. unfold v_rows in E. rewrite E.
      destruct (dget r (c_data (v_crp w))); [|reflexivity]. rewrite (al_counts _ _ A). reflexivity. }
    rewrite S. reflexivity.
  Qed.

  Lemma alike_predictive k n : crp_predictive k n (c_counts (v_crp w')) (c_alpha (v_crp w')) =
    crp_predictive k n (c_counts (v_crp w)) (c_alpha (v_crp w)).
  Proof. unfold crp_predictive. rewrite (al_counts _ _ A), (al_alpha _ _ A). reflexivity. Qed.

  Lemma alike_weights C : cluster_weights w' C = cluster_weights w C.
  Proof.
    unfold cluster_weights. rewrite alike_tables. destruct (crp_gibbs_tables _ _ _) as [K|]; [|reflexivity]. cbn [rbind].
    rewrite (al_n _ _ A).
    rewrite (map_ext _ _ (fun k => alike_predictive k (Z.of_nat (length (v_rows w))))).
    rewrite (map_ext _ _ (alike_density C)). reflexivity.
  Qed.

  Lemma alike_logpdf r T C : view_logpdf w' r T C = view_logpdf w r T C.
  Proof.
    unfold view_logpdf, v_hypothetical. rewrite (al_n _ _ A), (al_rows _ _ A).
    destruct (negb _).
    - destruct (dget r (v_rows w)); [apply alike_density|reflexivity].
    - rewrite alike_weights. destruct (cluster_weights w C) as [[[K l1] l2]|]; [|reflexivity]. cbn [rbind].
      rewrite (map_ext _ _ (alike_density T)). reflexivity.
  Qed.

  Lemma alike_simulate_row src T k n : simulate_row w' src T k n = simulate_row w src T k n.
  Proof. unfold simulate_row. erewrite map_ext; [reflexivity|]. intros c. rewrite alike_mem. reflexivity. Qed.

  Lemma alike_simulate draws src r T C n : view_simulate draws src w' r T C n = view_simulate draws src w r T C n.
  Proof.
    unfold view_simulate, v_hypothetical. rewrite (al_n _ _ A), (al_rows _ _ A).
    destruct (negb _).
    - destruct (dget r (v_rows w)); [apply alike_simulate_row|reflexivity].
    - rewrite alike_weights. destruct (cluster_weights w C) as [[[K l1] l2]|]; [|reflexivity]. cbn [rbind].
      destruct (log_pflip_many _ _ _ _) as [ks|]; [|reflexivity]. cbn [rbind].
      destruct (bincount ks) as [cs|]; [|reflexivity]. cbn [rbind].
      erewrite map_ext; [reflexivity|]. intros kn. apply alike_simulate_row.
  Qed.

  Lemma alike_crp_score lgam : crp_score lgam (v_crp w') = crp_score lgam (v_crp w).
  Proof.
    unfold crp_score, crp_marginal. rewrite (al_alpha _ _ A).
    assert (N : c_N (v_crp w') = c_N (v_crp w)).
    { destruct I as [_ [_ ->]]. destruct I' as [_ [_ ->]]. f_equal. apply (al_n _ _ A). }
    rewrite N, (Permutation_length alike_counts_perm).
    unfold dvals. rewrite (Rsum_perm _ _ (Permutation_map (fun c => lgam (IZR c)) (Permutation_map snd alike_counts_perm))).
    reflexivity.
  Qed.

  Lemma alike_score lgam e : NoDup (dkeys (v_dims w)) -> NoDup (dkeys (v_dims w')) ->
    view_score lgam w = Ok e -> view_score lgam w' = Ok e.
  Proof.
    intros N N'. unfold view_score. rewrite alike_crp_score. destruct (crp_score lgam (v_crp w)) as [p|]; [|discriminate].
    cbn [rbind]. destruct (view_likelihood w) as [l|] eqn:El; [|discriminate]. cbn [rbind]. intros E.
    assert (L : view_likelihood w' = Ok l); [|rewrite L; exact E].
    unfold view_likelihood in *.
    assert (E1 : forall d : dict adim, NoDup (dkeys d) -> map a_score (dvals d) =
      map (fun k => match dget k d with Some c => a_score c | None => Err KeyError end) (dkeys d)).
    { intros d Hn. unfold dvals, dkeys. rewrite !map_map. apply map_ext_in. intros [k c] Hin. cbn [fst snd].
      rewrite (dget_In_NoDup _ _ _ Hn Hin). reflexivity. }
    rewrite E1 in El |- * by assumption.
    assert (P : Permutation (dkeys (v_dims w)) (dkeys (v_dims w'))).
    { apply NoDup_Permutation; auto. intros c. symmetry. apply alike_keys. }
    eapply rsum_perm; [|exact El]. eapply Permutation_trans; [apply Permutation_map; exact P|].
    erewrite map_ext_in; [apply Permutation_refl|]. intros c Hc. cbn beta.
    pose proof (al_cols _ _ A c) as H.
    assert (Hin : In c (dkeys (v_dims w))) by (apply alike_keys; exact Hc).
    apply in_dkeys_Some in Hin. destruct Hin as [a Ea]. rewrite Ea in *.
    destruct (dget c (v_dims w')) as [b|]; [|contradiction]. destruct H as [_ H].
    assert (Ok' : exists x, a_score a = Ok x).
    { unfold rsum_ext in El. destruct (rsequence _) as [xs|] eqn:Es; [|discriminate].
      eapply rsequence_in; [exact Es|]. apply in_map_iff. exists c. rewrite Ea. split; [reflexivity|].
      eapply dget_Some_in; exact Ea. }
    destruct Ok' as [x Ex]. rewrite Ex. symmetry. apply H. exact Ex.
  Qed.

  (** ** Queries of views through the network, when the columns are in the same order *)
  Hypothesis O : dkeys (v_dims w') = dkeys (v_dims w).
  Hypothesis N : NoDup (dkeys (v_dims w)).

  Lemma alike_nth i : match nth_error (v_dims w) i, nth_error (v_dims w') i with
    | Some (c, a), Some (c', b) => c' = c /\ like_column a b
    | None, None => True
    | _, _ => False
    end.
  Proof.
    assert (K : nth_error (dkeys (v_dims w')) i = nth_error (dkeys (v_dims w)) i) by (rewrite O; reflexivity).
    unfold dkeys in K. rewrite !nth_error_map in K.
    destruct (nth_error (v_dims w) i) as [[c a]|] eqn:E, (nth_error (v_dims w') i) as [[c' b]|] eqn:E';
      cbn in K; try discriminate; [|exact Logic.I].
    injection K as ->. split; [reflexivity|].
    apply nth_error_In in E. apply nth_error_In in E'.
    pose proof (al_cols _ _ A c) as H. rewrite (dget_In_NoDup _ _ _ N E) in H.
    assert (N' : NoDup (dkeys (v_dims w'))) by (rewrite O; exact N).
    rewrite (dget_In_NoDup _ _ _ N' E') in H. apply H.
  Qed.

  Lemma alike_sigs : view_sigs w' = view_sigs w.
  Proof.
    unfold view_sigs. rewrite (al_out _ _ A). f_equal.
    assert (G : forall l l', map fst l' = map fst l ->
      (forall c a, In (c, a) l -> dget c (v_dims w) = Some a) -> (forall c a, In (c, a) l' -> dget c (v_dims w') = Some a) ->
      map (fun ca => Sig [fst ca] (v_out w :: d_ins (a_d (snd ca)))) l' =
      map (fun ca : Z * adim => Sig [fst ca] (v_out w :: d_ins (a_d (snd ca)))) l).
    { induction l as [|[c a] l IH]; intros [|[c' b] l'] K H H'; cbn in K; try discriminate; [reflexivity|].
      injection K as -> K. cbn [map fst snd]. f_equal.
      - pose proof (al_cols _ _ A c) as S. rewrite (H c a (or_introl eq_refl)), (H' c b (or_introl eq_refl)) in S.
        destruct S as [[[d [-> [_ Hi]]] _] _]. cbn [a_d]. f_equal. f_equal. exact Hi.
      - apply IH; [exact K| |]; intros c0 a0 Hin; [apply H|apply H']; right; exact Hin. }
    apply G; [exact O| |]; intros c a Hin; apply dget_In_NoDup; try exact Hin; [exact N|rewrite O; exact N].
  Qed.

  Lemma alike_crp_logpdf r k : crp_logpdf (v_crp w') r k = crp_logpdf (v_crp w) r k.
  Proof.
    unfold crp_logpdf. pose proof (al_rows _ _ A r) as E. unfold v_rows in E. rewrite E.
    destruct (dget r (c_data (v_crp w))); [reflexivity|].
    assert (Nn : c_N (v_crp w') = c_N (v_crp w)).
    { destruct I as [_ [_ ->]]. destruct I' as [_ [_ ->]]. f_equal. apply (al_n _ _ A). }
    rewrite Nn. apply alike_predictive.
  Qed.
  Lemma alike_crp_simulate d r : crp_simulate d (v_crp w') r = crp_simulate d (v_crp w) r.
  Proof.
    unfold crp_simulate. pose proof (al_rows _ _ A r) as E. unfold v_rows in E. rewrite E.
    destruct (dget r (c_data (v_crp w))); [reflexivity|]. unfold crp_tables.
    rewrite alike_sorted, (zmax_ext _ _ alike_count_keys), (map_ext _ _ (alike_crp_logpdf r)). reflexivity.
  Qed.

  Lemma alike_component r : component_logpdf w' r = component_logpdf w r.
  Proof.
    apply functional_extensionality. intros l. apply functional_extensionality. intros T.
    apply functional_extensionality. intros i. unfold component_logpdf. destruct (l =? 0)%Z.
    - destruct T as [|[? [?|k]] [|]]; try reflexivity. apply alike_crp_logpdf.
    - pose proof (alike_nth (Z.to_nat l - 1)) as H.
      destruct (nth_error (v_dims w) _) as [[c a]|], (nth_error (v_dims w') _) as [[c' b]|]; try contradiction; [|reflexivity].
      destruct H as [-> [[d [-> [_ Hi]]] [_ [_ H]]]]. rewrite (al_out _ _ A).
      destruct (input_cluster (v_out w) i); [|reflexivity]. cbn [rbind a_d a_M] in *. rewrite Hi.
      destruct (input_cells _ _); [|reflexivity]. cbn [rbind].
      destruct (dget c T) as [[x|]|]; try reflexivity. apply H.
  Qed.
  Lemma alike_component_sim kd xd r : component_simulate w' kd xd r = component_simulate w kd xd r.
  Proof.
    apply functional_extensionality. intros l. apply functional_extensionality. intros T.
    apply functional_extensionality. intros C. apply functional_extensionality. intros i.
    unfold component_simulate. rewrite (al_out _ _ A). destruct (l =? 0)%Z.
    - rewrite alike_crp_simulate. reflexivity.
    - pose proof (alike_nth (Z.to_nat l - 1)) as H.
      destruct (nth_error (v_dims w) _) as [[c a]|], (nth_error (v_dims w') _) as [[c' b]|]; try contradiction; [|reflexivity].
      destruct H as [-> [[d [-> [_ Hi]]] _]]. cbn [a_d a_M]. rewrite Hi. reflexivity.
  Qed.

  Lemma alike_net kd xd call r T C i : net_logpdf kd xd w' call r T C i = net_logpdf kd xd w call r T C i.
  Proof.
    unfold net_logpdf. rewrite alike_sigs, alike_component. destruct (network_init _); [|reflexivity]. cbn [rbind].
    f_equal. apply functional_extensionality. intros j. apply alike_component_sim.
  Qed.
  Lemma alike_net_sim kd xd call r T C i n : net_simulate kd xd w' call r T C i n = net_simulate kd xd w call r T C i n.
  Proof.
    unfold net_simulate. rewrite alike_sigs, alike_component. destruct (network_init _); [|reflexivity]. cbn [rbind].
    f_equal. apply functional_extensionality. intros j. apply alike_component_sim.
  Qed.
  Lemma alike_hyp r : v_hypothetical w' r = v_hypothetical w r.
  Proof. unfold v_hypothetical. rewrite (al_n _ _ A). reflexivity. Qed.
  Lemma alike_validate X r b T C : view_validate X w' r b T C = view_validate X w r b T C.
  Proof. unfold view_validate. rewrite alike_hyp, (al_out _ _ A), O. reflexivity. Qed.
  Lemma alike_populate X r b T C : view_populate X w' r b T C = view_populate X w r b T C.
  Proof.
    unfold view_populate. rewrite alike_validate, alike_hyp, O, (al_rows _ _ A), (al_out _ _ A). reflexivity.
  Qed.
  Lemma alike_marginal kd xd r T C i : view_marginal kd xd w' r T C i = view_marginal kd xd w r T C i.
  Proof.
    unfold view_marginal. rewrite alike_tables, (al_out _ _ A). destruct (crp_gibbs_tables _ _ _) as [K|]; [|reflexivity].
    cbn [rbind]. erewrite map_ext; [|intros jc; apply alike_net].
    destruct (rsequence _); [|reflexivity]. cbn [rbind]. destruct (log_normalize _); [|reflexivity]. cbn [rbind].
    erewrite map_ext; [reflexivity|intros jc; apply alike_net].
  Qed.
  Lemma alike_vquery kd xd X r T C i : vquery_logpdf kd xd X w' r T C i = vquery_logpdf kd xd X w r T C i.
  Proof.
    unfold vquery_logpdf. rewrite alike_populate, alike_hyp, (al_out _ _ A).
    destruct (view_populate _ _ _ _ _ _) as [C'|]; [|reflexivity]. cbn [rbind].
    destruct (dmem _ _); [apply alike_net|]. destruct (dget _ T) as [k|]; [|apply alike_marginal].
    rewrite alike_net. destruct (net_logpdf _ _ _ 0 _ _ _ _); [|reflexivity]. cbn [rbind].
    rewrite alike_net, alike_validate, alike_marginal. reflexivity.
  Qed.
  Lemma alike_vsimulate kd xd X draws r T C i n :
    vquery_simulate kd xd X w' draws r T C i n = vquery_simulate kd xd X w draws r T C i n.
  Proof.
    unfold vquery_simulate. rewrite alike_populate, alike_hyp, (al_out _ _ A).
    destruct (view_populate _ _ _ _ _ _) as [C'|]; [|reflexivity]. cbn [rbind].
    destruct (dmem _ _); [apply alike_net_sim|]. rewrite alike_tables.
    destruct (crp_gibbs_tables _ _ _) as [K|]; [|reflexivity].
    cbn [rbind]. erewrite map_ext; [|intros jc; apply alike_net].
    destruct (rsequence _); [|reflexivity]. cbn [rbind]. destruct (log_pflip_many _ _ _ _); [|reflexivity]. cbn [rbind].
    destruct (bincount _); [|reflexivity]. cbn [rbind].
    erewrite map_ext; [reflexivity|]. intros jkn. cbn beta zeta. rewrite alike_net_sim. reflexivity.
  Qed.
End AlikeViews.

(* ------------------------------------------------------------------ *)
(** ** C41: views *)

(** A view whose rows are numbered from 0 without gaps comes back with its cluster
    variable, concentration, row partition and columns, and answers every query as
    before, whatever the constructor draws. *)
Theorem C41_view_partial : forall X w f n, X <> [] -> vinv (tab X) w ->
  (forall r, In r (dkeys (v_rows w)) <-> (0 <= r < Z.of_nat n)%Z) ->
  (forall c a, dget c (v_dims w) = Some a -> written a) ->
  exists m w', view_to_metadata X w = Ok m /\ view_from_metadata f m = Ok w' /\ vlike w w' /\
    dkeys (v_dims w') = dkeys (v_dims w) /\
    (forall r T C, view_logpdf w' r T C = view_logpdf w r T C) /\
    (forall draws src r T C N, view_simulate draws src w' r T C N = view_simulate draws src w r T C N) /\
    (forall kd xd T r D C i, vquery_logpdf kd xd T w' r D C i = vquery_logpdf kd xd T w r D C i) /\
    (forall kd xd T draws r Q C i N, vquery_simulate_N kd xd T w' draws r Q C i N =
       vquery_simulate_N kd xd T w draws r Q C i N) /\
    (forall lgam e, view_score lgam w = Ok e -> view_score lgam w' = Ok e).
Proof.
  intros X w f n HX Hv Hd Hw.
  destruct (row_list_spec w n (proj1 Hv) Hd) as [z [Ez _]].
  assert (Nd : NoDup (dkeys (v_dims w))) by apply Hv.
  set (cols := map (fun cm => (fst cm, column_spec f (fst cm) (snd cm)))
                 (map (fun ca => (fst ca, column_meta (snd ca))) (v_dims w))).
  assert (Ek : dkeys cols = dkeys (v_dims w)).
  { unfold cols, dkeys. rewrite !map_map. reflexivity. }
  destruct (view_again X w f n (VSeed (c_alpha (v_crp w)) (rd_vgrid f 0) (rd_draw f)) z cols HX Hv Hd Hw eq_refl Ez)
    as [w0 [w' [E0 [E1 [A [V [_ K]]]]]]].
  { rewrite Ek. exact Nd. } { intros c. rewrite Ek. tauto. }
  { intros c k Hin. unfold cols in Hin. rewrite map_map in Hin. apply in_map_iff in Hin.
    destruct Hin as [[c' a] [E Hin]]. injection E as <- <-. exists a. split; [|reflexivity].
    apply dget_In_NoDup; assumption. }
  rewrite Ek in K. assert (Nd' : NoDup (dkeys (v_dims w'))) by (rewrite K; exact Nd).
  exists (VMeta X (v_out w) z (c_alpha (v_crp w)) (map (fun ca => (fst ca, column_meta (snd ca))) (v_dims w))), w'.
  split; [unfold view_to_metadata; rewrite Ez; reflexivity|].
  split; [unfold view_from_metadata; cbn [vm_X vm_out vm_zr vm_alpha vm_cols]; rewrite E0; cbn [rbind]; exact E1|].
  split; [exact A|]. split; [exact K|].
  pose proof (proj1 Hv) as I. pose proof (proj1 V) as I'.
  split; [intros; apply alike_logpdf; assumption|]. split; [intros; apply alike_simulate; assumption|].
  split; [intros; apply alike_vquery; assumption|].
  split; [intros; unfold vquery_simulate_N; rewrite (alike_vsimulate w w') by assumption; reflexivity|].
  intros lgam e. apply alike_score; assumption.
Qed.
Print Assumptions C41_view_partial.

(* ------------------------------------------------------------------ *)
(** ** C41: states *)

Section SameStates.
  Variables (n : nat) (s s' : state).
  Hypothesis H : sinv n s.
  Hypothesis H' : sinv n s'.
  Hypothesis S : same_state s s'.

  Lemma same_views {A} v (F : view -> A) (d : A) : (forall w w', vlike w w' -> crp_inv (v_crp w) -> crp_inv (v_crp w') -> F w' = F w) ->
    match dget v (s_views s') with Some w => F w | None => d end = match dget v (s_views s) with Some w => F w | None => d end.
  Proof.
    intros HF. pose proof (ss_views _ _ S v) as A0. destruct (dget v (s_views s)) as [w|] eqn:E, (dget v (s_views s')) as [w'|] eqn:E';
      try contradiction; [|reflexivity].
    apply HF; [exact A0|apply (si_view _ _ H v w E)|apply (si_view _ _ H' v w' E')].
  Qed.

  Lemma same_validate r b T C : state_validate s' r b T C = state_validate s r b T C.
  Proof. unfold state_validate, n_rows. rewrite (ss_outs _ _ S), (ss_X _ _ S). reflexivity. Qed.

  Lemma same_logpdf r T C : query_logpdf s' r T C = query_logpdf s r T C.
  Proof.
    unfold query_logpdf. rewrite same_validate. destruct (state_validate _ _ _ _ _); [|reflexivity]. cbn [rbind].
    unfold state_logpdf. rewrite (ss_zv _ _ S). destruct (partition_dict _ C) as [cl|]; [|reflexivity]. cbn [rbind].
    destruct (partition_dict _ T) as [tl|]; [|reflexivity]. cbn [rbind]. f_equal. apply map_ext. intros vt.
    apply (same_views (fst vt) (fun w => view_logpdf w r (snd vt) _)). intros w w' A I I'. apply alike_logpdf; assumption.
  Qed.

  Lemma same_simulate draws src r T C N : query_simulate draws src s' r T C N = query_simulate draws src s r T C N.
  Proof.
    unfold query_simulate. rewrite same_validate. destruct (state_validate _ _ _ _ _); [|reflexivity]. cbn [rbind].
    unfold state_simulate. f_equal. unfold state_samples. rewrite (ss_zv _ _ S).
    destruct (partition_dict _ C) as [cl|]; [|reflexivity]. cbn [rbind].
    destruct (partition_list _ T) as [tl|]; [|reflexivity]. cbn [rbind]. f_equal. f_equal. apply map_ext. intros vt.
    apply (same_views (fst vt) (fun w => view_simulate _ _ w r (snd vt) _ _)). intros w w' A I I'. apply alike_simulate; assumption.
  Qed.

  Lemma same_similarity r0 r1 cols : row_similarity s' r0 r1 cols = row_similarity s r0 r1 cols.
  Proof.
    unfold row_similarity. rewrite (ss_outs _ _ S), (ss_zv _ _ S). destruct (rsequence _) as [vs|]; [|reflexivity].
    cbn [rbind]. f_equal. f_equal. apply map_ext. intros v.
    apply (same_views v (fun w => match dget r0 (v_rows w), dget r1 (v_rows w) with
      | Some k0, Some k1 => Ok (if (k0 =? k1)%Z then 1 else 0) | _, _ => Err KeyError end)).
    intros w w' A _ _. rewrite !(al_rows _ _ A). reflexivity.
  Qed.

  Lemma same_crp_score lgam : crp_score lgam (s_crp s') = crp_score lgam (s_crp s).
  Proof.
    assert (P : Permutation (c_counts (s_crp s')) (c_counts (s_crp s))).
    { apply rows_perm; [apply (si_crp _ _ H')|apply (si_crp _ _ H)|apply (ss_counts _ _ S)]. }
    assert (N : c_N (s_crp s') = c_N (s_crp s)).
    { destruct (si_crp _ _ H) as [_ [_ ->]]. destruct (si_crp _ _ H') as [_ [_ ->]].
      pose proof (ss_zv _ _ S) as E. unfold s_zv in E. rewrite E. reflexivity. }
    unfold crp_score, crp_marginal. rewrite (ss_alpha _ _ S), N, (Permutation_length P).
    unfold dvals. rewrite (Rsum_perm _ _ (Permutation_map (fun c => lgam (IZR c)) (Permutation_map snd P))). reflexivity.
  Qed.

  Lemma same_state_score lgam e : state_score lgam s = Ok e -> state_score lgam s' = Ok e.
  Proof.
    assert (E0 : state_score_crp lgam s' = state_score_crp lgam s).
    { unfold state_score_crp. rewrite (ss_Ci _ _ S), (ss_Cd _ _ S), (ss_zv _ _ S), (ss_alpha _ _ S), same_crp_score. reflexivity. }
    unfold state_score. rewrite E0. destruct (state_score_crp lgam s) as [p|]; [|discriminate]. cbn [rbind].
    destruct (rsum_ext (map (view_score lgam) (dvals (s_views s)))) as [l|] eqn:El; [|discriminate]. cbn [rbind]. intros E.
    assert (L : rsum_ext (map (view_score lgam) (dvals (s_views s'))) = Ok l); [|rewrite L; exact E].
    assert (E1 : forall d : dict view, NoDup (dkeys d) -> map (view_score lgam) (dvals d) =
      map (fun k => match dget k d with Some c => view_score lgam c | None => Err KeyError end) (dkeys d)).
    { intros d Hn. unfold dvals, dkeys. rewrite !map_map. apply map_ext_in. intros [k c] Hin. cbn [fst snd].
      rewrite (dget_In_NoDup _ _ _ Hn Hin). reflexivity. }
    pose proof (si_nv _ _ H) as N. pose proof (si_nv _ _ H') as N'.
    rewrite E1 in El |- * by assumption.
    assert (K : forall v, In v (dkeys (s_views s')) <-> In v (dkeys (s_views s))).
    { intros v. pose proof (ss_views _ _ S v) as A. destruct (dget v (s_views s)) eqn:E2, (dget v (s_views s')) eqn:E3; try contradiction.
      - apply dget_Some_in in E2. apply dget_Some_in in E3. tauto.
      - apply dget_None_notin in E2. apply dget_None_notin in E3. tauto. }
    eapply rsum_perm; [|exact El].
    eapply Permutation_trans; [apply Permutation_map; apply NoDup_Permutation; [exact N|exact N'|intros v; symmetry; apply K]|].
    erewrite map_ext_in; [apply Permutation_refl|]. intros v Hv. cbn beta.
    assert (Hin : In v (dkeys (s_views s))) by (apply K; exact Hv).
    pose proof (ss_views _ _ S v) as A.
    apply in_dkeys_Some in Hin. destruct Hin as [w Ew]. apply in_dkeys_Some in Hv. destruct Hv as [w' Ew'].
    rewrite Ew, Ew' in *.
    assert (Ok' : exists x, view_score lgam w = Ok x).
    { unfold rsum_ext in El. destruct (rsequence _) as [xs|] eqn:Es; [|discriminate].
      eapply rsequence_in; [exact Es|]. apply in_map_iff. exists v. rewrite Ew. split; [reflexivity|].
      eapply dget_Some_in; exact Ew. }
    destruct Ok' as [x Ex]. rewrite Ex. symmetry.
    destruct (si_view _ _ H v w Ew) as [V _]. destruct (si_view _ _ H' v w' Ew') as [V' _].
    apply (alike_score w w' A); [apply V|apply V'|apply V|apply V'|exact Ex].
  Qed.
End SameStates.

(** C45 for states: in every state that occurs, the hyperparameters of a column are set,
    and its clusters and its empty component use exactly them. *)
Theorem C45_state_agreement : forall ok s v w c a, sreach ok s ->
  dget v (s_views s) = Some w -> dget c (v_dims w) = Some a ->
  d_set (a_d a) = true /\ m_hyp (a_M a) (d_aux (a_d a)) = d_hyp (a_d a) /\
  forall k x, dget k (d_clusters (a_d a)) = Some x -> m_hyp (a_M a) x = d_hyp (a_d a).
Proof.
  intros ok s v w c a Hs Hw Ha.
  pose proof (all_set_get _ _ _ (views_set_get _ _ _ (sreach_set ok s Hs) Hw) Ha) as Hc.
  split; [apply Hc|]. exact (settled_agree a Hc).
Qed.
Print Assumptions C45_state_agreement.

(** A state all of whose columns are collapsed can be written down. *)
Lemma collapsed_written n s v w c a : sinv n s -> views_set (s_views s) ->
  dget v (s_views s) = Some w -> dget c (v_dims w) = Some a ->
  no_params (a_M a) -> (exists e, a_score a = Ok e) -> written a.
Proof.
  intros H Hs Hw Ha Hp He. pose proof (all_set_get _ _ _ (views_set_get _ _ _ Hs Hw) Ha) as Hc.
  split; [exact Hp|exact (settled_agree a Hc)|apply Hc|exact He].
Qed.

(** The full claim of C41 asks this of every state.  Here: for a state that operations
    with at least one row have led to, whose outputs are not negative, and whose columns
    have no parameters beside their hyperparameters and a defined score.  The state that
    is built again has the same outputs, cells, column partition, concentrations, row
    partitions, constraints, and the same columns with the same contents; it answers every
    query of the density, of samples, of the similarity of rows and of the score as
    before, whatever the constructor draws. *)
Theorem C41_state_partial : forall s f n, sreach safe s -> n_rows s = Ok n -> (0 < n)%Z ->
  (forall c, In c (s_outs s) -> (0 <= c)%Z) ->
  (forall v w c a, dget v (s_views s) = Some w -> dget c (v_dims w) = Some a ->
     no_params (a_M a) /\ exists e, a_score a = Ok e) ->
  NoDup (rd_order f) -> (forall v, In v (rd_order f) <-> In v (dkeys (s_views s))) ->
  exists m s', state_to_metadata s = Ok m /\ state_from_metadata f m = Ok s' /\
    same_state s s' /\ consistent (Z.to_nat n) s' /\
    (forall r T C, query_logpdf s' r T C = query_logpdf s r T C) /\
    (forall draws src r T C N, query_simulate draws src s' r T C N = query_simulate draws src s r T C N) /\
    (forall r0 r1 cols, row_similarity s' r0 r1 cols = row_similarity s r0 r1 cols) /\
    (forall lgam e, state_score lgam s = Ok e -> state_score lgam s' = Ok e).
Proof.
  intros s f n Hs Hn Hp Ho Hc Nd Hf.
  destruct (sreach_sinv s Hs) as [n0 H].
  assert (n = Z.of_nat n0) as ->.
  { unfold n_rows in Hn. destruct (s_outs s) as [|c l] eqn:E; [discriminate|].
    destruct (dget c (s_X s)) as [cs|] eqn:Ec; [|discriminate].
    rewrite (si_len _ _ H c cs Ec) in Hn. congruence. }
  destruct (state_again s n0 f H) as [m [s' [E1 [E2 [S [H' _]]]]]]; try assumption.
  - lia.
  - exact (sreach_aligned s Hs).
  - intros v w Hw c a Ha. destruct (Hc v w c a Hw Ha) as [P1 P2].
    exact (collapsed_written n0 s v w c a H (sreach_set safe s Hs) Hw Ha P1 P2).
  - exists m, s'. rewrite Nat2Z.id. split; [exact E1|]. split; [exact E2|]. split; [exact S|].
    split; [exact (sinv_consistent _ _ H')|].
    split; [intros; eapply same_logpdf; eassumption|]. split; [intros; eapply same_simulate; eassumption|].
    split; [intros; eapply same_similarity; eassumption|]. intros lgam e. eapply same_state_score; eassumption.
Qed.
Print Assumptions C41_state_partial.
