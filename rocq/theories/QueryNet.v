(** The network of a view (view.py:384-388) evaluated on evidence that names the
    cluster. *)
From Verif Require Import Query QueryFacts LogSpaceFacts NetworkFacts ImportanceFacts P05_Network PrimSpec PrimFacts CrpFacts BaseFacts ViewFacts RowFacts RowGibbs Classes ClassFacts Prob ListFacts.
From Coq Require Import Lia.
Local Open Scope R_scope.

Lemma Rprod_perm l l' : Permutation l l' -> Rprod l = Rprod l'.
Proof. induction 1; cbn; try reflexivity; try congruence. - fold (Rprod l) (Rprod l'). rewrite IHPermutation. reflexivity. - ring. Qed.
Lemma Rprod_cons x l : Rprod (x :: l) = x * Rprod l.
Proof. reflexivity. Qed.
Lemma Rprod_app l m : Rprod (l ++ m) = Rprod l * Rprod m.
Proof. induction l as [|x l IH]; cbn [app]; [cbn [Rprod fold_right]; unfold Rprod; cbn; ring|]. rewrite !Rprod_cons, IH. ring. Qed.

(** The rows are numbered from 0. *)
Definition dense (v : view) : Prop :=
  forall r k, dget r (v_rows v) = Some k -> (0 <= r < Z.of_nat (length (v_rows v)))%Z.

Lemma dense_not_held v r : dense v -> v_hypothetical v r = true -> dget r (v_rows v) = None.
Proof.
  intros Hd H. destruct (dget r (v_rows v)) as [k|] eqn:E; [|reflexivity]. apply Hd in E.
  unfold v_hypothetical, hypothetical in H. rewrite negb_true_iff, andb_false_iff in H. lia.
Qed.
Lemma dense_norow v : dense v -> dget norow (v_rows v) = None.
Proof.
  intros Hd. destruct (dget norow (v_rows v)) as [k|] eqn:E; [|reflexivity]. apply Hd in E. unfold norow in E. lia.
Qed.

(** No row number is negative. *)
Definition rows_nonneg (v : view) : Prop := forall r k, dget r (v_rows v) = Some k -> (0 <= r)%Z.
Lemma dense_nonneg v : dense v -> rows_nonneg v.
Proof. intros H r k E. apply H in E. lia. Qed.
Lemma nonneg_norow v : rows_nonneg v -> dget norow (v_rows v) = None.
Proof.
  intros Hd. destruct (dget norow (v_rows v)) as [k|] eqn:E; [|reflexivity]. apply Hd in E. unfold norow in E. lia.
Qed.

(** The log density does not depend on the number of a row that is not held. *)
Lemma collapsed_row M h s r r' x : collapsed M h -> dget r (m_rows M s) = None -> dget r' (m_rows M s) = None ->
  m_logpdf M s r x [] = m_logpdf M s r' x [].
Proof.
  assert (G : forall P (s : pstate P), dget r (dmap (fun v => (v, @nil R)) (p_data s)) = None ->
     dget r' (dmap (fun v => (v, @nil R)) (p_data s)) = None -> prim_logpdf P s r x = prim_logpdf P s r' x).
  { intros P s'. rewrite !dget_dmap. unfold prim_logpdf, dmem.
    destruct (dget r (p_data s')); [discriminate|]. destruct (dget r' (p_data s')); [discriminate|]. reflexivity. }
  intros H. destruct H; cbn; apply G.
Qed.

Lemma filter_one {V} (c : Z) (E : dict V) : NoDup (dkeys E) ->
  filter (fun ex => zmem (fst ex) [c]) E = match dget c E with Some x => [(c, x)] | None => [] end.
Proof.
  induction E as [|[k x] E IH]; intros Hn; [reflexivity|]. cbn in Hn. inversion Hn as [|? ? Hk Hn']; subst.
  cbn [filter fst dget]. unfold zmem at 1. cbn [existsb]. rewrite orb_false_r.
  rewrite IH by exact Hn'. destruct (Z.eqb_spec k c) as [->|Hne].
  - rewrite Z.eqb_refl. rewrite (proj2 (dget_None_notin _ _) Hk). reflexivity.
  - destruct (Z.eqb_spec c k); [congruence|]. reflexivity.
Qed.

Section Net.
  Context (X : table) (v : view).
  Context (Hv : vinv X v).
  Context (Hd : rows_nonneg v).
  Context (Hne : v_rows v <> []).
  Context (Ha : 0 < c_alpha (v_crp v)).
  Context (Hout : ~ In (v_out v) (dkeys (v_dims v))).
  Context (Hcol : forall c a, dget c (v_dims v) = Some a -> atotal a /\ d_ins (a_d a) = []).
  Local Notation N := (INR (length (v_rows v))).
  Local Notation alpha := (c_alpha (v_crp v)).
  Local Notation sigs := (view_sigs v).

  Lemma sig_0 : sig_at sigs 0 = Sig [v_out v] [].
  Proof. reflexivity. Qed.
  Lemma sig_S i c a : nth_error (v_dims v) i = Some (c, a) -> sig_at sigs (Z.of_nat (S i)) = Sig [c] [v_out v].
  Proof.
    intros E. unfold sig_at, view_sigs. rewrite Nat2Z.id. cbn [nth].
    erewrite nth_error_nth; [|rewrite nth_error_map, E; reflexivity]. cbn [fst snd].
    assert (Hg : dget c (v_dims v) = Some a).
    { apply dget_In_NoDup; [apply Hv|]. eapply nth_error_In. exact E. }
    rewrite (proj2 (Hcol c a Hg)). reflexivity.
  Qed.
  Lemma sigs_length : length sigs = S (length (v_dims v)).
  Proof. unfold view_sigs. cbn. rewrite map_length. reflexivity. Qed.

  Lemma sig_cases l : (0 <= l < Z.of_nat (length sigs))%Z ->
    l = 0%Z \/ exists i c a, l = Z.of_nat (S i) /\ nth_error (v_dims v) i = Some (c, a).
  Proof.
    intros H. rewrite sigs_length in H. destruct (Z.eq_dec l 0); [left; assumption|right].
    exists (Z.to_nat l - 1)%nat.
    destruct (nth_error (v_dims v) (Z.to_nat l - 1)) as [[c a]|] eqn:E.
    - exists c, a. split; [lia|reflexivity].
    - apply nth_error_None in E. lia.
  Qed.

  (** The network is accepted. *)
  Lemma net_init : exists topo, network_init sigs = Ok topo /\ good_topo sigs topo.
  Proof.
    destruct (proj2 (C17_network_accepted sigs)) as [topo E].
    - assert (Ho : forall i w, output_of sigs i w -> (i = 0%Z /\ w = v_out v) \/
         exists j c a, i = Z.of_nat (S j) /\ nth_error (v_dims v) j = Some (c, a) /\ w = c).
      { intros i w [Hi Hw]. destruct (sig_cases i Hi) as [->|[j [c [a [-> Ej]]]]].
        - rewrite sig_0 in Hw. cbn in Hw. destruct Hw as [<-|[]]. auto.
        - rewrite (sig_S j c a Ej) in Hw. cbn in Hw. destruct Hw as [<-|[]]. right. eauto 10. }
      assert (Hin : forall j c a, nth_error (v_dims v) j = Some (c, a) -> In c (dkeys (v_dims v))).
      { intros j c a Ej. apply nth_error_In in Ej. apply (in_map fst) in Ej. exact Ej. }
      split; [|split].
      + intros g Hg. apply in_sig_at in Hg. destruct Hg as [i [Hi <-]].
        destruct (sig_cases i Hi) as [->|[j [c [a [-> Ej]]]]]; [rewrite sig_0|rewrite (sig_S j c a Ej)]; discriminate.
      + intros i j w Hi Hj. apply Ho in Hi. apply Ho in Hj.
        destruct Hi as [[-> ->]|[i' [c [a [-> [Ei ->]]]]]]; destruct Hj as [[-> Ew]|[j' [c' [a' [-> [Ej Ew]]]]]].
        * reflexivity.
        * subst. destruct Hout. eapply Hin. exact Ej.
        * subst. destruct Hout. eapply Hin. exact Ei.
        * subst c'. do 2 f_equal. pose proof (proj1 (proj2 Hv)) as Hn. unfold dkeys in Hn.
          rewrite NoDup_nth_error in Hn. apply Hn.
          -- rewrite map_length. apply nth_error_Some. rewrite Ei. discriminate.
          -- rewrite !nth_error_map, Ei, Ej. reflexivity.
      + (* a parent is the cluster, which has none *)
        assert (Hp : forall w p, parent sigs w p -> p = v_out v /\ w <> v_out v).
        { intros w p [g [Hg [Hw Hpg]]]. apply in_sig_at in Hg. destruct Hg as [i [Hi <-]].
          destruct (sig_cases i Hi) as [->|[j [c [a [-> Ej]]]]].
          - rewrite sig_0 in Hpg. destruct Hpg.
          - rewrite (sig_S j c a Ej) in Hw, Hpg. cbn in Hw, Hpg. destruct Hw as [<-|[]]. destruct Hpg as [<-|[]].
            split; [reflexivity|]. intros ->. apply Hout. eapply Hin. exact Ej. }
        assert (G : forall a b, Relation_Operators.clos_trans Z (parent sigs) a b -> b = v_out v /\ a <> v_out v).
        { intros a b H. induction H as [a b H|a b c H1 I1 H2 I2]; [apply Hp; exact H|]. destruct I1, I2. auto. }
        intros w Hw. apply G in Hw. destruct Hw. congruence.
    - exists topo. split; [exact E|]. apply (network_init_ok _ _ E).
  Qed.

  (** Evidence that names the cluster [k] and the cells [g] of columns. *)
  Definition evidence (E : dict val) (k : Z) (g : Z -> option cell) : Prop :=
    NoDup (dkeys E) /\ dget (v_out v) E = Some (VClus k) /\
    forall c, In c (dkeys (v_dims v)) -> dget c E = option_map VCell (g c).

  Definition gfactor (r k : Z) (g : Z -> option cell) (ca : Z * adim) : R :=
    match g (fst ca) with Some x => prob (a_logpdf (snd ca) r k x []) | None => 1 end.
  Definition lfactor (r k : Z) (g : Z -> option cell) (l : Z) : R :=
    if (l =? 0)%Z then prob (crp_logpdf (v_crp v) r k)
    else match nth_error (v_dims v) (Z.to_nat l - 1) with Some ca => gfactor r k g ca | None => 1 end.

  Lemma col_ok r c a k x : dget c (v_dims v) = Some a -> dget r (v_rows v) = None ->
    a_logpdf a r k x [] = a_logpdf a norow k x [] /\ exists l, a_logpdf a r k x [] = Ok l /\ logw l.
  Proof.
    intros Hg Hr. destruct (proj2 (proj2 Hv) c a Hg) as [Hai [_ Hc]]. destruct (Hcol c a Hg) as [Ht _].
    assert (E : a_logpdf a r k x [] = a_logpdf a norow k x []).
    { unfold a_logpdf, dim_logpdf, valid_cell. destruct x as [x|]; cbn [all_some]; [|reflexivity].
      eapply collapsed_row.
      - apply (cluster_reach a k Hai (proj1 Ht)).
      - apply cluster_lacks; [exact Hai|]. intros e He. specialize (Hc r). rewrite Hr in Hc. congruence.
      - apply cluster_lacks; [exact Hai|]. intros e He. specialize (Hc norow). rewrite nonneg_norow in Hc by exact Hd. congruence. }
    split; [exact E|]. rewrite E.
    destruct (atotal_cell a k x Hai Ht) as [l [El Hl]].
    { intros r' e He. specialize (Hc r'). destruct (dget r' (v_rows v)) as [k'|] eqn:Er; [|congruence].
      apply Hd in Er. lia. }
    exists l. split; [exact El|]. destruct Hl as [[_ [y ->]]|[_ ->]]; exact I.
  Qed.

  Lemma crp_ok r k : dget r (v_rows v) = None ->
    crp_logpdf (v_crp v) r k = Ok (lpc v k).
  Proof.
    intros Hr. unfold crp_logpdf. unfold v_rows in Hr. rewrite Hr.
    destruct Hv as [[_ [_ HN]] _]. rewrite HN.
    apply (predictive_eq v (proj1 Hv) Hne Ha).
  Qed.

  Lemma net_loop r k g E sim : dget r (v_rows v) = None -> evidence E k g ->
    forall rest acc, (forall l, In l rest -> (0 <= l < Z.of_nat (length sigs))%Z) -> logw acc ->
    exists w, weighted_loop id_ret id_bind sigs (component_logpdf v r) sim rest [] [] E acc = Ok (E, w) /\
      logw w /\ lexp w = lexp acc * Rprod (map (lfactor r k g) rest).
  Proof.
    intros Hr [HE1 [HE2 HE3]]. induction rest as [|l rest IH]; intros acc Hl Hacc.
    { exists acc. cbn. split; [reflexivity|]. split; [exact Hacc|ring]. }
    assert (Hw : exists w, (if is_nil (cgpm_constraints sigs l E) then Ok (Fin 0)
        else component_logpdf v r l (cgpm_constraints sigs l E) (cgpm_inputs sigs l [] E)) = Ok w /\ logw w /\
        lexp w = lfactor r k g l /\
        forallb (fun i => dmem i (cgpm_inputs sigs l [] E)) (g_inputs (sig_at sigs l)) = true).
    { unfold cgpm_constraints, cgpm_inputs. cbn [app].
      destruct (sig_cases l (Hl l (or_introl eq_refl))) as [->|[i [c [a [-> Ei]]]]].
      - rewrite sig_0. cbn [g_outputs g_inputs]. rewrite filter_one by exact HE1. rewrite HE2. cbn [is_nil].
        unfold component_logpdf. cbn [Z.eqb]. rewrite (crp_ok r k Hr). exists (lpc v k).
        split; [reflexivity|]. split; [exact I|]. split; [|reflexivity].
        unfold lfactor. cbn [Z.eqb]. rewrite (crp_ok r k Hr). reflexivity.
      - rewrite (sig_S i c a Ei). cbn [g_outputs g_inputs]. rewrite !filter_one by exact HE1. rewrite HE2.
        assert (Hc : In c (dkeys (v_dims v))) by (apply nth_error_In in Ei; apply (in_map fst) in Ei; exact Ei).
        assert (Hg : dget c (v_dims v) = Some a).
        { apply dget_In_NoDup; [apply Hv|]. eapply nth_error_In. exact Ei. }
        assert (Hlf : lfactor r k g (Z.of_nat (S i)) = gfactor r k g (c, a)).
        { unfold lfactor. destruct (Z.eqb_spec (Z.of_nat (S i)) 0); [lia|].
          replace (Z.to_nat (Z.of_nat (S i)) - 1)%nat with i by lia. rewrite Ei. reflexivity. }
        rewrite Hlf. unfold gfactor. cbn [fst snd]. rewrite (HE3 c Hc).
        assert (Hin : forallb (fun j => dmem j (dupdate [] [(v_out v, VClus k)])) [v_out v] = true).
        { unfold dupdate, dmem. cbn [fold_left dset fst snd forallb dget]. rewrite Z.eqb_refl. reflexivity. }
        destruct (g c) as [x|]; cbn [option_map is_nil].
        + unfold component_logpdf. destruct (Z.eqb_spec (Z.of_nat (S i)) 0); [lia|].
          replace (Z.to_nat (Z.of_nat (S i)) - 1)%nat with i by lia. rewrite Ei.
          unfold input_cluster, dupdate. cbn [fold_left fst snd dset dget]. rewrite Z.eqb_refl. cbn [rbind].
          rewrite (proj2 (Hcol c a Hg)). cbn [input_cells map rsequence rbind]. rewrite Z.eqb_refl.
          destruct (col_ok r c a k x Hg Hr) as [_ [w [-> Hw]]]. exists w. split; [reflexivity|].
          split; [exact Hw|]. split; [reflexivity|]. exact Hin.
        + exists (Fin 0). split; [reflexivity|]. split; [exact I|]. split; [cbn; apply exp_0|]. exact Hin. }
    destruct Hw as [w [E1 [E2 [E3 E4]]]].
    destruct (IH (eadd acc w)) as [w' [F1 [F2 F3]]]; [intros l' Hl'; apply Hl; right; exact Hl'|apply logw_eadd; assumption|].
    exists w'. split; [|split; [exact F2|]].
    - cbn [weighted_loop]. unfold mbind, invoke_cgpm, id_bind, id_ret.
      unfold cgpm_targets. cbn [filter is_nil negb orb]. rewrite E4. cbn [negb]. rewrite andb_false_r, E1.
      cbn [fst snd]. unfold dupdate at 1. cbn [fold_left]. exact F1.
    - rewrite F3, (lexp_eadd _ _ Hacc E2), E3. cbn [map]. rewrite Rprod_cons. ring.
  Qed.

  Lemma required_none topo E k g : good_topo sigs topo -> evidence E k g ->
    required_inputs sigs topo [] (dkeys E) (extraneous_inputs sigs (variable_to_cgpm sigs)) = [].
  Proof.
    intros [HP _] [HE1 [HE2 _]]. unfold required_inputs.
    assert (G : forall rest req, (forall l, In l rest -> (0 <= l < Z.of_nat (length sigs))%Z) ->
       (forall x, In x req -> x = v_out v) ->
       forall x, In x (fold_left (fun req l =>
         let c := sig_at sigs l in
         if existsb (fun i => zmem i req || zmem i (dkeys E)) (g_outputs c)
         then set_update req (g_inputs c) else req) rest req) -> x = v_out v).
    { induction rest as [|l rest IH]; intros req Hl Hreq x Hx; [apply Hreq; exact Hx|]. cbn [fold_left] in Hx.
      eapply IH; [intros l' Hl'; apply Hl; right; exact Hl'| |exact Hx]. intros y Hy. cbv zeta in Hy.
      destruct (existsb _ _); [|apply Hreq; exact Hy]. apply set_update_in in Hy. destruct Hy as [Hy|Hy]; [apply Hreq; exact Hy|].
      destruct (sig_cases l (Hl l (or_introl eq_refl))) as [->|[i [c [a [-> Ei]]]]].
      - rewrite sig_0 in Hy. destruct Hy.
      - rewrite (sig_S i c a Ei) in Hy. destruct Hy as [<-|[]]. reflexivity. }
    match goal with |- filter ?f ?l = [] => destruct (filter f l) as [|x m] eqn:Ef; [reflexivity|] end.
    exfalso. assert (Hx : In x (x :: m)) by (left; reflexivity). rewrite <- Ef in Hx.
    apply filter_In in Hx. destruct Hx as [Hx Hf]. apply G in Hx.
    - subst x. rewrite !andb_true_iff, !negb_true_iff in Hf. destruct Hf as [[_ Hf] _].
      apply zmem_false in Hf. apply Hf. eapply dget_Some_in. exact HE2.
    - intros l Hl. apply in_rev in Hl. apply (Permutation_in _ HP) in Hl. apply in_indices in Hl. exact Hl.
    - intros y [].
  Qed.

  Lemma weight_eq topo r k g E sim : good_topo sigs topo -> dget r (v_rows v) = None -> evidence E k g ->
    exists w, weighted_sample id_ret id_bind sigs topo (component_logpdf v r) sim [] E [] = Ok (E, w) /\
      logw w /\ lexp w = pweight v k / (N + alpha) * Rprod (map (gfactor norow k g) (v_dims v)).
  Proof.
    intros Hg Hr HE.
    assert (Hl : forall l, In l topo -> (0 <= l < Z.of_nat (length sigs))%Z).
    { intros l Hl. apply (Permutation_in _ (proj1 Hg)) in Hl. apply in_indices in Hl. exact Hl. }
    destruct (net_loop r k g E sim Hr HE topo (Fin 0) Hl I) as [w [F1 [F2 F3]]].
    exists w. split; [|split; [exact F2|]].
    - unfold weighted_sample, targets_all. rewrite (required_none topo E k g Hg HE). cbn [app].
      unfold mbind, id_bind, id_ret in *. rewrite F1. cbn [fst snd]. rewrite app_nil_r.
      rewrite (proj2 (same_set_spec _ _)); [reflexivity|tauto].
    - rewrite F3. cbn [lexp]. rewrite exp_0, Rmult_1_l.
      rewrite (Rprod_perm _ (map (lfactor r k g) (map Z.of_nat (seq 0 (length sigs)))))
        by (apply Permutation_map, Hg).
      rewrite sigs_length. cbn [seq map]. rewrite Rprod_cons. f_equal.
      + unfold lfactor. cbn [Z.of_nat Z.eqb]. rewrite (crp_ok r k Hr). cbn [prob].
        apply lexp_lpc; [apply Hv|exact Hne|exact Ha].
      + f_equal. rewrite map_map.
        assert (G : forall l, map (fun x => match nth_error l (x - 1) with Some ca => gfactor r k g ca | None => 1 end)
            (seq 1 (length l)) = map (gfactor r k g) l).
        { induction l as [|y l IH] using rev_ind; [reflexivity|].
          rewrite app_length. cbn [length]. rewrite Nat.add_1_r, seq_S, !map_app. cbn [map]. f_equal.
          - rewrite <- IH. apply map_ext_in. intros x Hx. apply in_seq in Hx.
            rewrite nth_error_app1 by lia. reflexivity.
          - replace (1 + length l - 1)%nat with (length l) by lia.
            rewrite nth_error_app2, Nat.sub_diag by lia. reflexivity. }
        transitivity (map (gfactor r k g) (v_dims v)).
        * rewrite <- G. apply map_ext_in. intros x Hx. apply in_seq in Hx. unfold lfactor.
          destruct (Z.eqb_spec (Z.of_nat x) 0); [lia|]. rewrite Nat2Z.id. reflexivity.
        * apply map_ext_in. intros [c a] Hin. unfold gfactor. cbn [fst snd]. destruct (g c) as [x|]; [|reflexivity].
          assert (Hga : dget c (v_dims v) = Some a) by (apply dget_In_NoDup; [apply Hv|exact Hin]).
          rewrite (proj1 (col_ok r c a k x Hga Hr)). reflexivity.
  Qed.

  (** The product over the columns is the product over the evidence. *)
  Lemma gfactor_joint k (D : dict cell) : NoDup (dkeys D) -> (forall c, In c (dkeys D) -> In c (dkeys (v_dims v))) ->
    Rprod (map (gfactor norow k (fun c => dget c D)) (v_dims v)) = joint v (old_pdf k) D.
  Proof.
    pose proof (proj1 (proj2 Hv)) as Hn. intros HD Hin. unfold joint.
    induction D as [|[c x] D IH].
    { cbn [map]. assert (G : forall (l : dict adim), Rprod (map (gfactor norow k (fun _ : Z => None)) l) = 1).
      { induction l as [|y l IH]; cbn; [reflexivity|]. fold (Rprod (map (gfactor norow k (fun _ : Z => None)) l)). rewrite IH. unfold gfactor. ring. }
      apply G. }
    cbn in HD. inversion HD as [|? ? Hc HD']; subst.
    rewrite map_cons, Rprod_cons, <- IH; [|exact HD'|intros c' Hc'; apply Hin; right; exact Hc'].
    assert (Hcd : In c (dkeys (v_dims v))) by (apply Hin; left; reflexivity).
    apply in_dkeys_Some in Hcd. destruct Hcd as [a Hga].
    unfold factor. cbn [fst snd]. rewrite Hga.
    pose proof (dget_In _ _ _ Hga) as HI. apply in_split in HI. destruct HI as [l1 [l2 El]].
    rewrite El in Hn. unfold dkeys in Hn. rewrite map_app in Hn. cbn [map fst] in Hn.
    pose proof (NoDup_remove_2 _ _ _ Hn) as Hcn. rewrite in_app_iff in Hcn.
    rewrite El, !map_app, !map_cons, !Rprod_app, !Rprod_cons.
    assert (Ge : forall (l : dict adim), ~ In c (map fst l) ->
       map (gfactor norow k (fun c' => dget c' ((c, x) :: D))) l = map (gfactor norow k (fun c' => dget c' D)) l).
    { intros l Hl. apply map_ext_in. intros [c' a'] Hi. unfold gfactor. cbn [fst snd dget].
      destruct (Z.eqb_spec c' c) as [->|Hne']; [|reflexivity]. destruct Hl. apply (in_map fst) in Hi. exact Hi. }
    rewrite !Ge by tauto.
    assert (G1 : gfactor norow k (fun c' => dget c' ((c, x) :: D)) (c, a) = old_pdf k a x).
    { unfold gfactor. cbn [fst snd dget]. rewrite Z.eqb_refl. reflexivity. }
    assert (G2 : gfactor norow k (fun c' => dget c' D) (c, a) = 1).
    { unfold gfactor. cbn [fst snd]. rewrite (proj2 (dget_None_notin _ _) Hc). reflexivity. }
    rewrite G1, G2. ring.
  Qed.

  (** The two uses of the network, as probabilities. *)
  Definition cells (D : dict cell) : dict val := map (fun cx => (fst cx, VCell (snd cx))) D.
  Lemma cells_get D c : dget c (cells D) = option_map VCell (dget c D).
  Proof. induction D as [|[k x] D IH]; [reflexivity|]. cbn. destruct (c =? k)%Z; [reflexivity|exact IH]. Qed.
  Lemma cells_keys D : dkeys (cells D) = dkeys D.
  Proof. unfold cells, dkeys. rewrite map_map. reflexivity. Qed.

  Definition queried (D : dict cell) : Prop :=
    NoDup (dkeys D) /\ forall c, In c (dkeys D) -> In c (dkeys (v_dims v)).

  Lemma merged_get {V} (a b : dict V) c : NoDup (dkeys a) -> NoDup (dkeys b) ->
    dget c (merged a b) = match dget c b with Some x => Some x | None => dget c a end.
  Proof.
    intros Hna Hnb. unfold merged. rewrite dupdate_get by exact Hnb. rewrite dupdate_get by exact Hna.
    destruct (dget c b); [reflexivity|]. destruct (dget c a); reflexivity.
  Qed.
  Lemma merged_NoDup {V} (a b : dict V) : NoDup (dkeys (merged a b)).
  Proof. apply dupdate_NoDup, dupdate_NoDup. constructor. Qed.

  Definition with_cluster (D : dict cell) (k : Z) : dict val := merged (cells D) [(v_out v, VClus k)].

  Lemma evidence_with D k : queried D -> evidence (with_cluster D k) k (fun c => dget c D).
  Proof.
    intros [HD1 HD2]. split; [apply merged_NoDup|].
    assert (H1 : NoDup (dkeys (cells D))) by (rewrite cells_keys; exact HD1).
    assert (H2 : NoDup (dkeys [(v_out v, VClus k)])) by (repeat constructor; intros []).
    split.
    - unfold with_cluster. rewrite merged_get by assumption. cbn [dget]. rewrite Z.eqb_refl. reflexivity.
    - intros c Hc. unfold with_cluster. rewrite merged_get by assumption. cbn [dget].
      destruct (Z.eqb_spec c (v_out v)) as [->|Hne']; [contradiction|]. apply cells_get.
  Qed.

  Lemma evidence_merged T C k : queried T -> queried C -> (forall c, In c (dkeys T) -> ~ In c (dkeys C)) ->
    evidence (merged (cells T) (with_cluster C k)) k (fun c => dget c (T ++ C)) /\ queried (T ++ C).
  Proof.
    intros [T1 T2] [C1 C2] Hdis. destruct (evidence_with C k (conj C1 C2)) as [E1 [E2 E3]].
    assert (H1 : NoDup (dkeys (cells T))) by (rewrite cells_keys; exact T1).
    assert (Happ : forall c, dget c (T ++ C) = match dget c T with Some x => Some x | None => dget c C end).
    { intros c. clear. induction T as [|[k x] T IH]; [reflexivity|]. cbn. destruct (c =? k)%Z; [reflexivity|exact IH]. }
    split; [split; [apply merged_NoDup|split]|].
    - rewrite merged_get by assumption. rewrite E2. reflexivity.
    - intros c Hc. rewrite merged_get by assumption. rewrite (E3 c Hc), cells_get, Happ.
      destruct (dget c C) as [y|] eqn:EC; cbn [option_map].
      + destruct (dget c T) as [x|] eqn:ET; [|reflexivity]. exfalso. apply (Hdis c); eapply dget_Some_in; eauto.
      + destruct (dget c T); reflexivity.
    - split.
      + unfold dkeys. rewrite map_app. apply NoDup_app_intro; [exact T1|exact C1|exact Hdis].
      + intros c. unfold dkeys at 1. rewrite map_app, in_app_iff. intros [H|H]; [apply T2|apply C2]; exact H.
  Qed.

  Lemma average_one w : average [w] = lexp w.
  Proof. unfold average. cbn. field. Qed.

  Lemma log_of_lexp w : logw w -> log_of (lexp w) = w.
  Proof.
    destruct w; cbn; try contradiction; intros _.
    - rewrite log_of_pos by apply exp_pos. rewrite ln_exp. reflexivity.
    - unfold log_of. destruct (Rltb 0 0) eqn:E; [apply Rltb_true in E; lra|reflexivity].
  Qed.

  Lemma logw_log_of t : logw (log_of t).
  Proof. unfold log_of. destruct (Rltb 0 t); exact I. Qed.

  Lemma result_log_of pj pe o : 0 <= pj -> 0 < pe ->
    ((0 < pj) /\ o = Fin (ln pj - ln pe) \/ pj = 0 /\ o = NInf) -> o = log_of (pj / pe).
  Proof.
    intros H0 H1 [[H ->]|[-> ->]].
    - rewrite log_of_pos by (apply Rdiv_lt_0_compat; assumption). unfold Rdiv. rewrite ln_mult, ln_Rinv by (try apply Rinv_0_lt_compat; assumption). reflexivity.
    - unfold Rdiv. rewrite Rmult_0_l. unfold log_of. destruct (Rltb 0 0) eqn:E; [apply Rltb_true in E; lra|reflexivity].
  Qed.

  Lemma prior_pos k : 0 < pweight v k / (N + alpha).
  Proof. apply Rdiv_lt_0_compat; [apply pweight_pos; [apply Hv|exact Ha]|]. pose proof (N_pos v Hne). lra. Qed.

  (** All evidence is a target: the joint weight. *)
  Lemma net_joint kd xd call r E k g : dget r (v_rows v) = None -> evidence E k g ->
    net_logpdf kd xd v call r E [] [] =
      Ok (log_of (pweight v k / (N + alpha) * Rprod (map (gfactor norow k g) (v_dims v)))).
  Proof.
    intros Hr HE. unfold net_logpdf. destruct net_init as [topo [-> Hg]]. cbn [rbind].
    assert (HE' : evidence (merged E []) k g).
    { destruct HE as [E1 [E2 E3]]. split; [apply merged_NoDup|].
      assert (H : forall c, dget c (merged E []) = dget c E) by (intros c; rewrite merged_get; [reflexivity|exact E1|constructor]).
      split; [rewrite H; exact E2|intros c Hc; rewrite H; apply E3; exact Hc]. }
    destruct (weight_eq topo r k g _ (component_simulate v (kd call 0%nat) (xd call 0%nat) r) Hg Hr HE') as [w [W1 [W2 W3]]].
    unfold network_logpdf, particles. cbn [Nat.eqb seq map]. unfold particle. rewrite W1. cbn [rsequence rbind map snd].
    assert (Hm : forall w, logw w -> logmeanexp [w] = Ok w).
    { intros w' Hw'. rewrite logmeanexp_logw; [|discriminate|constructor; [exact Hw'|constructor]].
      f_equal. cbn [map length INR]. replace (Rsum [lexp w'] / 1) with (lexp w') by (unfold Rsum; cbn; field).
      apply log_of_lexp. exact Hw'. }
    rewrite (Hm w W2). cbn [rbind is_nil forallb eisinf]. cbn [andb].
    rewrite (Hm (Fin 0) I). cbn [rbind]. rewrite <- W3, log_of_lexp by exact W2. f_equal.
    destruct w; cbn in *; try contradiction; try reflexivity. f_equal. ring.
  Qed.

  Lemma net_cond kd xd call r T C k : dget r (v_rows v) = None -> queried T -> queried C ->
    (forall c, In c (dkeys T) -> ~ In c (dkeys C)) ->
    (joint v (old_pdf k) C = 0 -> net_logpdf kd xd v call r (cells T) (with_cluster C k) [] = Err ValueError) /\
    (joint v (old_pdf k) C <> 0 -> net_logpdf kd xd v call r (cells T) (with_cluster C k) [] =
       Ok (log_of (joint v (old_pdf k) T))).
  Proof.
    intros Hr HT HC Hdis. unfold net_logpdf. destruct net_init as [topo [-> Hg]]. cbn [rbind].
    destruct (evidence_merged T C k HT HC Hdis) as [EJ HQ].
    pose proof (evidence_with C k HC) as EC.
    destruct (weight_eq topo r k _ _ (component_simulate v (kd call 0%nat) (xd call 0%nat) r) Hg Hr EJ) as [wj [J1 [J2 J3]]].
    destruct (weight_eq topo r k _ _ (component_simulate v (kd call 1%nat) (xd call 1%nat) r) Hg Hr EC) as [wc [W1 [W2 W3]]].
    rewrite gfactor_joint in J3 by apply HQ. rewrite gfactor_joint in W3 by apply HC.
    destruct (C21_logpdf val sigs topo (fun _ => component_logpdf v r)
      (fun i => component_simulate v (kd call i) (xd call i) r) (cells T) (with_cluster C k) [] 1
      [(merged (cells T) (with_cluster C k), wj)] [(with_cluster C k, wc)]) as [Q0 Q1].
    { lia. } { cbn [seq map]. rewrite J1. reflexivity. } { cbn [seq map]. rewrite W1. reflexivity. }
    { repeat constructor; assumption. } { repeat constructor; assumption. }
    assert (En : is_nil (with_cluster C k) = false).
    { destruct EC as [_ [EC _]]. destruct (with_cluster C k); [discriminate|reflexivity]. }
    rewrite En in Q0, Q1. cbn [map snd] in Q0, Q1. rewrite !average_one in Q0, Q1.
    pose proof (prior_pos k) as Hp. split; intros H.
    - apply Q0. rewrite W3, H. ring.
    - destruct Q1 as [Hpos [o [Eo Ho]]].
      { rewrite W3. intros F. apply Rmult_integral in F. destruct F; [lra|contradiction]. }
      rewrite average_one in Ho. rewrite Eo. f_equal. apply result_log_of in Ho; [|apply lexp_nonneg|exact Hpos].
      rewrite Ho, J3, W3, joint_app. f_equal.
      pose proof (N_pos v Hne). pose proof (pweight_pos v (proj1 Hv) Ha k).
      field. repeat split; try exact H; lra.
  Qed.

  (** Whether a row has positive density does not depend on the cluster. *)
  Lemma joint_support k k' D : queried D -> joint v (old_pdf k) D = 0 -> joint v (old_pdf k') D = 0.
  Proof.
    intros [_ HD]. unfold joint. induction D as [|[c x] D IH]; [cbn; auto|].
    rewrite !map_cons, !Rprod_cons. intros H. apply Rmult_integral in H. destruct H as [H|H].
    - apply Rmult_eq_0_compat. left. revert H. unfold factor. cbn [fst snd].
      destruct (dget c (v_dims v)) as [a|] eqn:Ea; [|auto].
      destruct (proj2 (proj2 Hv) c a Ea) as [Hai [_ Hc]]. destruct (Hcol c a Ea) as [Ht _].
      assert (Hr0 : forall r' e, acontent a r' = Some e -> (0 <= r')%Z).
      { intros r' e He. specialize (Hc r'). destruct (dget r' (v_rows v)) as [k0|] eqn:Er; [|congruence].
        apply Hd in Er. lia. }
      destruct (atotal_cell a k x Hai Ht Hr0) as [l [E1 L1]].
      destruct (atotal_cell a k' x Hai Ht Hr0) as [l' [E2 L2]].
      unfold old_pdf. rewrite E1, E2. cbn [prob]. destruct L1 as [[S1 [y ->]]|[S1 ->]].
      + cbn. intros F. pose proof (exp_pos y). lra.
      + intros _. destruct L2 as [[S2 _]|[_ ->]]; [|reflexivity]. destruct x; tauto.
    - apply Rmult_eq_0_compat. right. apply IH; [|exact H]. intros c' Hc'. apply HD. right. exact Hc'.
  Qed.
End Net.
