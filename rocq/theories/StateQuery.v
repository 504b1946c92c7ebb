(** Queries on whole states: proofs about Query.v. *)
From Verif Require Import Query QueryFacts QueryNet PartitionFacts StateFacts P12_ViewQuery LogSpaceFacts PrimSpec PrimFacts BaseFacts ViewFacts CrpFacts RowFacts RowGibbs Classes ClassFacts P07_View ListFacts ImportanceFacts.
From Coq Require Import Lia.
Local Open Scope R_scope.

(** A consistent state with rows, conjugate columns without inputs, positive
    concentrations, and columns numbered below the exposed cluster variables. *)
Record sready (n : nat) (s : state) : Prop := {
  sr_inv : sinv n s;
  sr_rows : (0 < n)%nat;
  sr_alpha : forall v w, dget v (s_views s) = Some w -> 0 < c_alpha (v_crp w);
  sr_out : forall v, In v (dkeys (s_views s)) -> ~ In (crp_id_view + v)%Z (s_outs s);
  sr_cols : forall v w c a, dget v (s_views s) = Some w -> dget c (v_dims w) = Some a ->
    atotal a /\ d_ins (a_d a) = []
}.
(** Cells of the columns of a state. *)
Definition of_state (s : state) (D : dict cell) : Prop :=
  NoDup (dkeys D) /\ forall c, In c (dkeys D) -> In c (s_outs s).
(** The part of a query that concerns view [v]. *)
Definition in_view (s : state) (v : Z) (D : dict cell) : dict cell := share (s_zv s) v D.

Lemma vok_length X n zv v w : vok X n zv v w -> length (v_rows w) = n.
Proof.
  intros [[[Hn _] _] [_ [_ Hr]]].
  assert (HP : Permutation (dkeys (v_rows w)) (map Z.of_nat (seq 0 n))).
  { apply NoDup_Permutation; [exact Hn| |].
    - apply FinFun.Injective_map_NoDup; [intros a b; apply Nat2Z.inj|apply seq_NoDup].
    - intros r. rewrite Hr, in_map_iff. split.
      + intros H. exists (Z.to_nat r). rewrite in_seq. lia.
      + intros [i [<- Hi]]. apply in_seq in Hi. lia. }
  apply Permutation_length in HP. unfold dkeys in HP. rewrite !map_length, seq_length in HP. exact HP.
Qed.

Section Ready.
  Context (n : nat) (s : state) (H : sready n s).

  Lemma sready_ready v w : dget v (s_views s) = Some w -> ready (tab (s_X s)) w.
  Proof.
    intros Hw. pose proof (si_view _ _ (sr_inv _ _ H) v w Hw) as Hv. pose proof (vok_length _ _ _ _ _ Hv) as HL.
    destruct Hv as [V1 [V2 [V3 V4]]]. split.
    - exact V1.
    - intros r k Hk. apply dget_Some_in in Hk. apply V4 in Hk. rewrite HL. exact Hk.
    - intros E. rewrite E in HL. pose proof (sr_rows _ _ H). cbn in HL. lia.
    - eapply (sr_alpha _ _ H); exact Hw.
    - rewrite V2. intros Hi. apply V3 in Hi. apply dget_Some_in in Hi. apply (si_zv _ _ (sr_inv _ _ H)) in Hi.
      apply (sr_out _ _ H v); [eapply dget_Some_in; exact Hw|exact Hi].
    - intros c a Ha. eapply (sr_cols _ _ H); eauto.
  Qed.

  Lemma in_view_of v w D : dget v (s_views s) = Some w -> of_state s D -> of_view w (in_view s v D).
  Proof.
    intros Hw [D1 D2]. split; [apply share_NoDup; exact D1|]. intros c Hc. apply share_keys in Hc.
    destruct (si_view _ _ (sr_inv _ _ H) v w Hw) as [_ [_ [V3 _]]]. apply V3. apply Hc.
  Qed.

  (** A column is in one of the views. *)
  Lemma column_view c : In c (s_outs s) -> exists v w, dget c (s_zv s) = Some v /\ dget v (s_views s) = Some w.
  Proof.
    intros Hc. apply (si_zv _ _ (sr_inv _ _ H)) in Hc. destruct (in_dkeys_Some _ _ Hc) as [v Ev]. exists v.
    assert (Hv : In v (dkeys (s_views s))).
    { apply (si_views _ _ (sr_inv _ _ H)). destruct (si_crp _ _ (sr_inv _ _ H)) as [_ [Hcn _]].
      apply (counts_of_keys _ _ _ Hcn). unfold s_zv in Ev. apply dget_In in Ev. unfold dvals.
      change v with (snd (c, v)). apply in_map. exact Ev. }
    destruct (in_dkeys_Some _ _ Hv) as [w Ew]. eauto.
  Qed.

  Lemma v_hyp v w r : dget v (s_views s) = Some w -> v_hypothetical w r = hypothetical (Z.of_nat n) r.
  Proof.
    intros Hw. unfold v_hypothetical. rewrite (vok_length _ _ _ _ _ (si_view _ _ (sr_inv _ _ H) v w Hw)). reflexivity.
  Qed.

  (** The views that the targets touch. *)
  Lemma touched T out v : of_state s T -> partition_dict (s_zv s) T = Ok out ->
    In v (dkeys out) <-> In v (dkeys (s_views s)) /\ in_view s v T <> [].
  Proof.
    intros HT E. destruct (partition_dict_spec _ _ _ (proj1 HT) E) as [N [I S]]. split.
    - intros Hv. destruct (in_dkeys_Some _ _ Hv) as [l El]. rewrite S in El.
      assert (Hne : in_view s v T <> []) by (unfold in_view; intros F; rewrite F in El; discriminate).
      split; [|exact Hne]. unfold in_view in Hne. destruct (share (s_zv s) v T) as [|[c x] L] eqn:Es; [contradiction|].
      assert (Hc : In c (dkeys (share (s_zv s) v T))) by (rewrite Es; left; reflexivity).
      apply share_keys in Hc. destruct Hc as [Hc1 Hc2]. apply (proj2 HT) in Hc1.
      destruct (column_view c Hc1) as [v' [w [E1 E2]]]. rewrite E1 in Hc2. injection Hc2 as <-. eapply dget_Some_in. exact E2.
    - intros [Hv Hne]. destruct (dget v out) eqn:El; [eapply dget_Some_in; exact El|]. rewrite S in El.
      unfold in_view in Hne. destruct (share (s_zv s) v T); [contradiction|discriminate].
  Qed.

  (** The factor that view [v] contributes. *)
  Definition vfactor (r : Z) (T C : dict cell) (vw : Z * view) : res ext :=
    view_logpdf (snd vw) r (in_view s (fst vw) T) (in_view s (fst vw) C).

  Lemma state_logpdf_split r T C out : of_state s T -> of_state s C -> partition_dict (s_zv s) T = Ok out ->
    state_logpdf s r T C =
    rsum_ext (map (fun v => match dget v (s_views s) with None => Err KeyError | Some w => vfactor r T C (v, w) end) (dkeys out)).
  Proof.
    intros HT HC E. unfold state_logpdf.
    destruct (partition_dict_total (s_zv s) C) as [cl Ec].
    { intros c Hc. apply (si_zv _ _ (sr_inv _ _ H)). apply HC. exact Hc. }
    rewrite Ec. cbn [rbind]. rewrite E. cbn [rbind]. f_equal. unfold dkeys. rewrite map_map. apply map_ext_in.
    intros [v l] Hi. cbn [fst snd]. destruct (partition_dict_spec _ _ _ (proj1 HT) E) as [N [_ S]].
    destruct (partition_dict_spec _ _ _ (proj1 HC) Ec) as [_ [_ Sc]].
    pose proof (dget_In_NoDup v l out N Hi) as El. rewrite S in El.
    destruct (dget v (s_views s)) as [w|]; [|reflexivity]. unfold vfactor, in_view. cbn [fst snd]. rewrite Sc.
    destruct (share (s_zv s) v T) as [|p L]; [discriminate|]. injection El as <-.
    destruct (share (s_zv s) v C); reflexivity.
  Qed.

  (** All touched views answer. *)
  Lemma state_logpdf_ok r T C : of_state s T -> of_state s C ->
    (forall v w, dget v (s_views s) = Some w -> in_view s v T <> [] -> exists e, vfactor r T C (v, w) = Ok e /\ logw e) ->
    exists l, state_logpdf s r T C = Ok l /\ logw l /\
      lexp l = Rprod (map (fun vw => if is_nil (in_view s (fst vw) T) then 1 else prob (vfactor r T C vw)) (s_views s)).
  Proof.
    intros HT HC Hf. destruct (partition_dict_total (s_zv s) T) as [out E].
    { intros c Hc. apply (si_zv _ _ (sr_inv _ _ H)). apply HT. exact Hc. }
    rewrite (state_logpdf_split r T C out HT HC E).
    destruct (partition_dict_spec _ _ _ (proj1 HT) E) as [N [_ _]].
    destruct (rsum_ext_logw (map (fun v => match dget v (s_views s) with None => Err KeyError | Some w => vfactor r T C (v, w) end) (dkeys out)))
      as [l [El [Ll Vl]]].
    { intros x Hx. apply in_map_iff in Hx. destruct Hx as [v [<- Hv]]. apply (touched T out v HT E) in Hv.
      destruct Hv as [Hv Hne]. destruct (in_dkeys_Some _ _ Hv) as [w Ew]. rewrite Ew. apply Hf; assumption. }
    exists l. split; [exact El|]. split; [exact Ll|]. rewrite Vl, map_map.
    set (g := fun v => match dget v (s_views s) with
                       | None => 1 | Some w => if is_nil (in_view s v T) then 1 else prob (vfactor r T C (v, w)) end).
    assert (G1 : map (fun v => prob (match dget v (s_views s) with None => Err KeyError | Some w => vfactor r T C (v, w) end)) (dkeys out)
                 = map g (dkeys out)).
    { apply map_ext_in. intros v Hv. apply (touched T out v HT E) in Hv. destruct Hv as [Hv Hne].
      destruct (in_dkeys_Some _ _ Hv) as [w Ew]. unfold g. rewrite Ew. destruct (in_view s v T); [contradiction|reflexivity]. }
    rewrite G1.
    assert (G2 : map (fun vw => if is_nil (in_view s (fst vw) T) then 1 else prob (vfactor r T C vw)) (s_views s)
                 = map g (dkeys (s_views s))).
    { unfold dkeys. rewrite map_map. apply map_ext_in. intros [v w] Hi. unfold g. cbn [fst].
      rewrite (dget_In_NoDup v w (s_views s) (si_nv _ _ (sr_inv _ _ H)) Hi). reflexivity. }
    rewrite G2.
    (* the views that are not touched contribute one *)
    assert (HP : Permutation (dkeys (s_views s)) (dkeys out ++ filter (fun v => negb (zmem v (dkeys out))) (dkeys (s_views s)))).
    { apply NoDup_Permutation; [apply (si_nv _ _ (sr_inv _ _ H))| |].
      - apply NoDup_app_intro; [exact N|apply NoDup_filter, (si_nv _ _ (sr_inv _ _ H))|].
        intros v Hv Hf'. apply filter_In in Hf'. destruct Hf' as [_ Hf']. apply negb_true_iff in Hf'. apply zmem_false in Hf'. auto.
      - intros v. rewrite in_app_iff, filter_In, negb_true_iff, zmem_false. rewrite (touched T out v HT E).
        destruct (in_dec Z.eq_dec v (dkeys out)) as [Hd|Hd]; rewrite (touched T out v HT E) in Hd; tauto. }
    rewrite (Rprod_perm _ _ (Permutation_map g HP)), map_app, Rprod_app.
    assert (One : forall L, (forall v, In v L -> g v = 1) -> Rprod (map g L) = 1).
    { clear. induction L as [|v L IH]; intros HL; [reflexivity|]. cbn [map]. rewrite Rprod_cons, IH, HL; [ring|left; reflexivity|].
      intros v' Hv'. apply HL. right. exact Hv'. }
    rewrite (One (filter _ _)); [ring|]. intros v Hv. apply filter_In in Hv. destruct Hv as [Hv1 Hv2].
    apply negb_true_iff, zmem_false in Hv2. rewrite (touched T out v HT E) in Hv2. unfold g.
    destruct (dget v (s_views s)); [|reflexivity]. destruct (in_view s v T); [reflexivity|]. exfalso. apply Hv2. split; [exact Hv1|discriminate].
  Qed.

  (** A touched view raises. *)
  Lemma state_logpdf_err r T C e : of_state s T -> of_state s C ->
    (forall v w, dget v (s_views s) = Some w -> in_view s v T <> [] -> 
       vfactor r T C (v, w) = Err e \/ exists x, vfactor r T C (v, w) = Ok x) ->
    (exists v w, dget v (s_views s) = Some w /\ in_view s v T <> [] /\ vfactor r T C (v, w) = Err e) ->
    state_logpdf s r T C = Err e.
  Proof.
    intros HT HC Hall [v [w [Ew [Hne Ee]]]]. destruct (partition_dict_total (s_zv s) T) as [out E].
    { intros c Hc. apply (si_zv _ _ (sr_inv _ _ H)). apply HT. exact Hc. }
    rewrite (state_logpdf_split r T C out HT HC E).
    assert (Hv : In v (dkeys out)).
    { apply (touched T out v HT E). split; [eapply dget_Some_in; exact Ew|exact Hne]. }
    assert (Hall' : forall v', In v' (dkeys out) -> exists w', dget v' (s_views s) = Some w' /\
       (vfactor r T C (v', w') = Err e \/ exists x, vfactor r T C (v', w') = Ok x)).
    { intros v' Hv'. apply (touched T out v' HT E) in Hv'. destruct Hv' as [Hv1 Hv2].
      destruct (in_dkeys_Some _ _ Hv1) as [w' Ew']. eauto. }
    unfold rsum_ext. assert (G : rsequence (map (fun v => match dget v (s_views s) with None => Err KeyError | Some w => vfactor r T C (v, w) end) (dkeys out)) = Err e); [|rewrite G; reflexivity].
    clear E. induction (dkeys out) as [|v' L IH]; [destruct Hv|]. cbn [map rsequence].
    destruct (Hall' v' (or_introl eq_refl)) as [w' [Ew' [Ex|[x Ex]]]]; rewrite Ew', Ex; [reflexivity|]. cbn [rbind].
    destruct Hv as [->|Hv]; [rewrite Ew in Ew'; injection Ew' as <-; congruence|].
    rewrite IH; [reflexivity|exact Hv|]. intros v'' Hv''. apply Hall'. right. exact Hv''.
  Qed.

  (** Validation lets queries of new rows with disjoint targets and constraints pass. *)
  Lemma query_new r T C : hypothetical (Z.of_nat n) r = true -> disjoint T C -> query_logpdf s r T C = state_logpdf s r T C.
  Proof.
    intros Hr Hd. unfold query_logpdf, state_validate. rewrite (sinv_n_rows _ _ (sr_inv _ _ H)). cbn [rbind andb]. rewrite Hr.
    cbn [negb andb rbind]. destruct (is_nil C); [reflexivity|].
    assert (Ho : overlap (dkeys T) (dkeys C) = false).
    { unfold overlap. destruct (existsb _ _) eqn:E; [|reflexivity]. apply existsb_exists in E.
      destruct E as [c [Hc1 Hc2]]. apply zmem_in in Hc2. destruct (Hd c Hc1 Hc2). }
    rewrite Ho. reflexivity.
  Qed.

  Lemma in_view_disjoint v T C : disjoint T C -> disjoint (in_view s v T) (in_view s v C).
  Proof. intros Hd c Hc Hc'. apply share_keys in Hc. apply share_keys in Hc'. apply (Hd c); tauto. Qed.

  Lemma of_state_app A B : of_state s A -> of_state s B -> disjoint A B -> of_state s (A ++ B).
  Proof.
    intros [A1 A2] [B1 B2] Hd. split.
    - unfold dkeys. rewrite map_app. apply NoDup_app_intro; assumption.
    - intros c. unfold dkeys at 1. rewrite map_app, in_app_iff. intros [Hc|Hc]; auto.
  Qed.
End Ready.
