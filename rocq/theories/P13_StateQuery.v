(** C31 (states), C32, C34 and C35: queries and samples of whole states. *)
From Verif Require Import Query QueryFacts QueryNet PartitionFacts StateFacts StateQuery SimFacts P12_ViewQuery LogSpaceFacts PrimSpec PrimFacts BaseFacts ViewFacts CrpFacts RowFacts RowGibbs Classes ClassFacts P07_View ListFacts ImportanceFacts Prob SimLaw GammaWitness P02_LogSpace.
From Coq Require Import Lia.
Local Open Scope R_scope.

(** ** C32: splitting a query *)

(** Splitting a dictionary or a list by blocks keeps every entry, in its block and in
    its order, and drops or duplicates none; an entry without a block raises KeyError. *)
Theorem C32_split_dict : forall A (Zd : dict Z) (L : dict A), NoDup (dkeys L) ->
  ((exists c, In c (dkeys L) /\ dget c Zd = None) -> partition_dict Zd L = Err KeyError) /\
  ((forall c, In c (dkeys L) -> exists k, dget c Zd = Some k) ->
   exists out, partition_dict Zd L = Ok out /\ NoDup (dkeys out) /\ Permutation (concat (dvals out)) L /\
     forall k, dget k out =
       match filter (fun cx => match dget (fst cx) Zd with Some z => (z =? k)%Z | None => false end) L with
       | [] => None | l => Some l end).
Proof.
  intros A Zd L HL. split.
  - intros [c [Hc Ec]]. unfold partition_dict. rewrite (group_dict_missing Zd L c); [reflexivity|exact Hc|].
    apply dget_None_notin. exact Ec.
  - intros HA. destruct (partition_dict_total Zd L) as [out E].
    { intros c Hc. destruct (HA c Hc) as [k Hk]. eapply dget_Some_in. exact Hk. }
    exists out. split; [exact E|]. destruct (partition_dict_spec Zd L out HL E) as [N [_ S]].
    split; [exact N|]. split; [eapply partition_dict_perm; eassumption|exact S].
Qed.
Print Assumptions C32_split_dict.

Theorem C32_split_list : forall (Zd : dict Z) (L : list Z),
  ((exists c, In c L /\ dget c Zd = None) -> partition_list Zd L = Err KeyError) /\
  ((forall c, In c L -> exists k, dget c Zd = Some k) ->
   exists out, partition_list Zd L = Ok out /\ NoDup (dkeys out) /\ Permutation (concat (dvals out)) L /\
     forall k, dget k out =
       match filter (fun c => match dget c Zd with Some z => (z =? k)%Z | None => false end) L with
       | [] => None | l => Some l end).
Proof.
  intros Zd L. split.
  - intros [c [Hc Ec]]. unfold partition_list. apply (group_list_missing Zd L c); [exact Hc|].
    apply dget_None_notin. exact Ec.
  - intros HA. destruct (group_list_total Zd L []) as [out E].
    { intros c Hc. destruct (HA c Hc) as [k Hk]. eapply dget_Some_in. exact Hk. }
    change (partition_list Zd L = Ok out) in E. exists out. split; [exact E|].
    destruct (partition_list_spec Zd L out E) as [N [_ S]].
    split; [exact N|]. split; [eapply partition_list_perm; eassumption|exact S].
Qed.
Print Assumptions C32_split_list.

(** ** C32: the views are independent *)

(** Density of cells under the state: the product of the densities of the views. *)
Definition density (s : state) (D : dict cell) : R :=
  Rprod (map (fun vw => mixture (snd vw) (in_view s (fst vw) D)) (s_views s)).

(** The general query: each view with targets contributes its own conditional density;
    the constraints in other views are ignored; impossible constraints in a view with
    targets raise ValueError. *)
Theorem C32_independent : forall n s r T C, sready n s -> hypothetical (Z.of_nat n) r = true ->
  of_state s T -> of_state s C -> disjoint T C ->
  ((exists v w, dget v (s_views s) = Some w /\ in_view s v T <> [] /\ mixture w (in_view s v C) = 0) ->
   query_logpdf s r T C = Err ValueError) /\
  ((forall v w, dget v (s_views s) = Some w -> in_view s v T <> [] -> 0 < mixture w (in_view s v C)) ->
   exists l, query_logpdf s r T C = Ok l /\ logw l /\
     lexp l = Rprod (map (fun vw => let '(v, w) := vw in
       if is_nil (in_view s v T) then 1
       else mixture w (in_view s v T ++ in_view s v C) / mixture w (in_view s v C)) (s_views s))).
Proof.
  intros n s r T C H Hr HT HC Hd. rewrite (query_new n s H r T C Hr Hd).
  assert (HV : forall v w, dget v (s_views s) = Some w ->
     (mixture w (in_view s v C) = 0 -> vfactor s r T C (v, w) = Err ValueError) /\
     (0 < mixture w (in_view s v C) -> exists e, vfactor s r T C (v, w) = Ok e /\ logw e /\
        lexp e = mixture w (in_view s v T ++ in_view s v C) / mixture w (in_view s v C)) /\
     0 <= mixture w (in_view s v C)).
  { intros v w Hw. destruct (C30_mixture (tab (s_X s)) w r (in_view s v T) (in_view s v C)) as [P0 [P1 P2]].
    - eapply sready_ready; eassumption.
    - rewrite (v_hyp n s H v w r Hw). exact Hr.
    - eapply in_view_of; eassumption.
    - eapply in_view_of; eassumption.
    - split; [exact P1|]. split; [exact P2|exact P0]. }
  split.
  - intros [v [w [Hw [Hne Hz]]]]. apply (state_logpdf_err n s H r T C ValueError HT HC).
    + intros v' w' Hw' _. destruct (HV v' w' Hw') as [P1 [P2 P0]].
      destruct (Req_dec (mixture w' (in_view s v' C)) 0) as [E|E]; [left; apply P1; exact E|].
      destruct P2 as [e [E1 _]]; [lra|]. right. eauto.
    + exists v, w. split; [exact Hw|]. split; [exact Hne|]. apply (HV v w Hw). exact Hz.
  - intros Hp. destruct (state_logpdf_ok n s H r T C HT HC) as [l [E [L V]]].
    { intros v w Hw Hne. destruct (HV v w Hw) as [_ [P2 _]]. destruct (P2 (Hp v w Hw Hne)) as [e [E1 [E2 _]]]. eauto. }
    exists l. split; [exact E|]. split; [exact L|]. rewrite V. f_equal. apply map_ext_in. intros [v w] Hi. cbn [fst].
    destruct (in_view s v T) as [|t T'] eqn:Et; [reflexivity|]. cbn [is_nil].
    pose proof (dget_In_NoDup v w _ (si_nv _ _ (sr_inv _ _ H)) Hi) as Hw.
    destruct (HV v w Hw) as [_ [P2 _]]. destruct P2 as [e [E1 [_ E3]]]; [apply Hp; [exact Hw|rewrite Et; discriminate]|].
    rewrite E1. cbn [prob]. rewrite E3, Et. reflexivity.
Qed.
Print Assumptions C32_independent.

Lemma ready_nil n s v w : sready n s -> dget v (s_views s) = Some w -> mixture w [] = 1.
Proof.
  intros H Hw. pose proof (sready_ready n s H v w Hw) as Hy.
  apply mixture_nil; try apply Hy. eapply ready_clusters. exact Hy.
Qed.

(** Without constraints: the product over the views. *)
Theorem C32_joint : forall n s r T, sready n s -> hypothetical (Z.of_nat n) r = true -> of_state s T ->
  exists l, query_logpdf s r T [] = Ok l /\ logw l /\ lexp l = density s T.
Proof.
  intros n s r T H Hr HT.
  assert (HN : of_state s []) by (split; [constructor|intros c []]).
  destruct (C32_independent n s r T [] H Hr HT HN) as [_ P]; [intros c _ []|].
  destruct P as [l [E [L V]]].
  { intros v w Hw _. cbn. rewrite (ready_nil n s v w H Hw). lra. }
  exists l. split; [exact E|]. split; [exact L|]. rewrite V. unfold density. f_equal. apply map_ext_in.
  intros [v w] Hi. cbn [fst snd]. pose proof (dget_In_NoDup v w _ (si_nv _ _ (sr_inv _ _ H)) Hi) as Hw.
  change (in_view s v []) with (@nil (Z * cell)). rewrite (ready_nil n s v w H Hw), app_nil_r.
  destruct (in_view s v T) eqn:E1; cbn [is_nil]; [rewrite (ready_nil n s v w H Hw); reflexivity|field].
Qed.
Print Assumptions C32_joint.

(** ** C31: the chain rule *)

Theorem C31_chain : forall n s r A B, sready n s -> hypothetical (Z.of_nat n) r = true ->
  of_state s A -> of_state s B -> disjoint A B ->
  exists b ab, query_logpdf s r B [] = Ok b /\ logw b /\ query_logpdf s r (A ++ B) [] = Ok ab /\ logw ab /\
    (b <> NInf -> exists a, query_logpdf s r A B = Ok a /\ logw a /\ ab = eadd b a).
Proof.
  intros n s r A B H Hr HA HB Hd.
  destruct (C32_joint n s r B H Hr HB) as [b [Eb [Lb Vb]]].
  destruct (C32_joint n s r (A ++ B) H Hr (of_state_app s A B HA HB Hd)) as [ab [Eab [Lab Vab]]].
  exists b, ab. split; [exact Eb|]. split; [exact Lb|]. split; [exact Eab|]. split; [exact Lab|]. intros Hb.
  assert (Hpos : 0 < density s B) by (rewrite <- Vb; destruct b; cbn in *; try contradiction; apply exp_pos).
  assert (Hnn : forall v w D, dget v (s_views s) = Some w -> 0 <= mixture w (in_view s v D)).
  { intros v w D Hw. pose proof (sready_ready n s H v w Hw) as Hy. apply mixture_nonneg; try apply Hy.
    eapply ready_clusters. exact Hy. }
  assert (Hall : forall v w, In (v, w) (s_views s) -> 0 < mixture w (in_view s v B)).
  { intros v w Hi. pose proof (dget_In_NoDup v w _ (si_nv _ _ (sr_inv _ _ H)) Hi) as Hw. pose proof (Hnn v w B Hw).
    destruct (Req_dec (mixture w (in_view s v B)) 0) as [E|E]; [exfalso|lra].
    unfold density in Hpos. clear - Hpos Hi E. induction (s_views s) as [|[v' w'] l IH]; [destruct Hi|].
    cbn [map fst snd] in Hpos. rewrite Rprod_cons in Hpos. destruct Hi as [Hi|Hi].
    - injection Hi as -> ->. rewrite E in Hpos. lra.
    - destruct (Rle_dec (Rprod (map (fun vw => mixture (snd vw) (in_view s (fst vw) B)) l)) 0) as [Hle|Hgt].
      + assert (G : Rprod (map (fun vw => mixture (snd vw) (in_view s (fst vw) B)) l) = 0).
        { clear - Hi E. induction l as [|[v1 w1] l IH]; [destruct Hi|]. cbn [map fst snd]. rewrite Rprod_cons.
          destruct Hi as [Hi|Hi]; [injection Hi as -> ->; rewrite E; ring|rewrite IH by exact Hi; ring]. }
        rewrite G in Hpos. lra.
      + apply IH; [|exact Hi]. lra. }
  destruct (C32_independent n s r A B H Hr HA HB Hd) as [_ P].
  destruct P as [a [Ea [La Va]]].
  { intros v w Hw _. apply Hall. apply dget_In. exact Hw. }
  exists a. split; [exact Ea|]. split; [exact La|].
  rewrite <- (log_of_lexp ab Lab), <- (log_of_lexp (eadd b a)) by (apply logw_eadd; assumption).
  f_equal. rewrite lexp_eadd by assumption. rewrite Vab, Vb, Va. unfold density.
  clear - Hall. induction (s_views s) as [|[v w] l IH]; [cbn; ring|].
  cbn [map fst snd]. rewrite !Rprod_cons. rewrite IH by (intros v' w' Hi; apply Hall; right; exact Hi).
  specialize (Hall v w (or_introl eq_refl)). unfold in_view. rewrite share_app.
  destruct (share (s_zv s) v A) as [|x A'] eqn:EA; cbn [is_nil].
  - cbn [app]. ring.
  - cbv zeta. unfold in_view in Hall. field. lra.
Qed.
Print Assumptions C31_chain.

(** ** C34: the shape of the samples *)

(** Whenever a query with targets returns, it returns as many samples as asked for,
    each with exactly the targets. *)
Theorem C34_samples_partial : forall draws src s r T C N answer, T <> [] ->
  query_simulate draws src s r T C N = Ok answer ->
  match N with
  | Some n => exists l, answer = Many l /\ length l = n /\ Forall (complete T) l
  | None => exists d, answer = One d /\ complete T d
  end.
Proof.
  intros draws src s r T C N ans Hne. unfold query_simulate.
  destruct (state_validate s r true T C) as [u|e] eqn:Ev; cbn [rbind]; [|discriminate].
  assert (HT : NoDup T).
  { apply has_dup_NoDup. unfold state_validate in Ev. destruct (n_rows s); cbn [rbind andb] in Ev; [|discriminate].
    destruct (has_dup T); [discriminate|reflexivity]. }
  unfold state_simulate. destruct (state_samples _ _ _ _ _ _ _) as [l|e] eqn:El; cbn [rbind]; [|discriminate].
  destruct (state_samples_shape _ _ _ _ _ _ _ _ Hne HT El) as [L1 L2]. destruct N as [n|].
  - intros H. injection H as <-. exists l. auto.
  - destruct l as [|d l]; [discriminate|]. intros H. injection H as <-. exists d. inversion L2; subst. auto.
Qed.
Print Assumptions C34_samples_partial.

(** The number of draws does not depend on the generator. *)
Lemma pflip_many_length {A} draws lp (K : list A) n ks : log_pflip_many draws lp K n = Ok ks -> length ks = n.
Proof.
  unfold log_pflip_many. destruct (log_normalize lp) as [q|e]; cbn [rbind]; [|discriminate]. unfold pflip_many.
  assert (G : forall p : list ext, (if Nat.eqb (length K) (length p) && forallb ext_nonneg (normalize p)
      then rsequence (map (fun j => choice (draws j) K (normalize p)) (seq 0 n)) else Err ValueError) = Ok ks -> length ks = n).
  { intros p. destruct (_ && _); [|discriminate]. intros E. rewrite (rsequence_length _ _ E), map_length, seq_length. reflexivity. }
  destruct (map eexp q) as [|p1 [|p2 p]]; [apply G| |apply G].
  destruct K as [|k K]; [discriminate|]. intros E. injection E as <-. apply repeat_length.
Qed.

Lemma project_complete {V} (sample : dict V) T d : project T sample = Ok d -> complete T d.
Proof.
  revert d. induction T as [|q T IH]; intros d; cbn [project].
  - intros H. injection H as <-. split; [constructor|reflexivity].
  - destruct (dget q sample) as [x|]; [|discriminate]. destruct (project T sample) as [d'|]; cbn [rbind]; [|discriminate].
    intros H. injection H as <-. destruct (IH d' eq_refl) as [I1 I2]. split; [apply NoDup_dset; exact I1|].
    intros c. rewrite in_dkeys_dset, I2. cbn. intuition.
Qed.
Lemma net_simulate_shape kd xd v call r T C I n l : net_simulate kd xd v call r T C I n = Ok l ->
  length l = n /\ Forall (complete T) l.
Proof.
  unfold net_simulate. destruct (network_init _) as [topo|]; cbn [rbind]; [|discriminate]. unfold simulate_n. intros H.
  split; [rewrite (rsequence_length _ _ H), map_length, seq_length; reflexivity|].
  apply rsequence_ok in H. apply Forall_forall. intros d Hd. apply (in_map Ok) in Hd. rewrite <- H in Hd.
  apply in_map_iff in Hd. destruct Hd as [i [E _]]. unfold simulate_one in E.
  destruct (particles _ _ _ _ _ _ _ _ _) as [ps|] in E; cbn [rbind] in E; [|discriminate].
  destruct (forallb _ ps); [discriminate|]. cbn [rbind Nat.eqb] in E.
  destruct (nth_error ps 0) as [sw|]; [|discriminate]. eapply project_complete. exact E.
Qed.

(** The same for the query of a view, for every list of targets. *)
Theorem C34_view : forall kdraw xdraw X v draws r T C I n l,
  vquery_simulate kdraw xdraw X v draws r T C I n = Ok l -> length l = n /\ Forall (complete T) l.
Proof.
  intros kd xd X v draws r T C I n l. unfold vquery_simulate.
  destruct (view_populate X v r true T C) as [C'|e]; cbn [rbind]; [|discriminate].
  destruct (dmem (v_out v) C'); [apply net_simulate_shape|].
  destruct (crp_gibbs_tables _ _ _) as [K|]; cbn [rbind]; [|discriminate].
  destruct (rsequence _) as [lps|]; cbn [rbind]; [|discriminate].
  destruct (log_pflip_many draws lps K n) as [ks|] eqn:Ek; cbn [rbind]; [|discriminate].
  destruct (bincount ks) as [counts|] eqn:Eb; cbn [rbind]; [|discriminate].
  destruct (rsequence _) as [ss|] eqn:Es; cbn [rbind]; [|discriminate]. intros H. injection H as <-.
  destruct (bincount_spec _ _ Eb) as [_ [_ [B1 _]]]. apply pflip_many_length in Ek.
  apply rsequence_ok in Es.
  set (r' := if v_hypothetical v r then r else norow) in Es.
  assert (G : forall cs j (ss : list (list (dict val))),
    map (fun jkn => rbind (net_simulate kd xd v (length K + fst jkn) r' (filter (fun q => negb (q =? v_out v)%Z) T)
       (merged C' [(v_out v, VClus (fst (snd jkn)))]) I (snd (snd jkn)))
       (fun s => Ok (if zmem (v_out v) T then map (fun l => merged l [(v_out v, VClus (fst (snd jkn)))]) s else s)))
       (combine (seq j (length cs)) cs) = map Ok ss ->
    length (concat ss) = length (expand cs) /\ Forall (complete T) (concat ss)).
  { clear. induction cs as [|[k m] cs IH]; intros j ss E; destruct ss as [|s ss]; cbn in E; try discriminate.
    - split; [reflexivity|constructor].
    - injection E as E1 E2. destruct (IH (S j) ss E2) as [I1 I2].
      destruct (net_simulate _ _ _ _ _ _ _ _ _) as [s0|] eqn:En; cbn [rbind] in E1; [|discriminate].
      apply net_simulate_shape in En. destruct En as [N1 N2]. injection E1 as <-.
      unfold expand in *. cbn [map concat fst snd]. rewrite !app_length, repeat_length, I1. split.
      + f_equal. destruct (zmem (v_out v) T); [rewrite map_length|]; exact N1.
      + apply Forall_app. split; [|exact I2].
        destruct (zmem (v_out v) T) eqn:Ez.
        * rewrite Forall_map. eapply Forall_impl; [|exact N2]. intros d [D1 D2].
          split; [apply NoDup_dset, dupdate_NoDup; constructor|]. intros c. rewrite in_dkeys_dset, dupdate_keys, D2, filter_In. cbn.
          apply zmem_in in Ez. rewrite negb_true_iff, Z.eqb_neq.
          destruct (Z.eq_dec c (v_out v)) as [->|Hc]; [tauto|]. intuition congruence.
        * eapply Forall_impl; [|exact N2]. intros d [D1 D2]. split; [exact D1|]. intros c. rewrite D2, filter_In.
          apply zmem_false in Ez. rewrite negb_true_iff, Z.eqb_neq. split; [tauto|]. intros Hc. split; [exact Hc|].
          intros ->. contradiction. }
  destruct (G counts 0%nat ss Es) as [G1 G2]. split; [|exact G2].
  rewrite G1, (Permutation_length B1). exact Ek.
Qed.
Print Assumptions C34_view.

(** What is missing of C34: a query of a state without targets returns no samples if a
    number is given, and else raises IndexError. *)
Theorem C34_no_targets : forall draws src n s r C N, sinv n s ->
  (C = [] \/ hypothetical (Z.of_nat n) r = true) -> (forall c, In c (dkeys C) -> In c (s_outs s)) ->
  query_simulate draws src s r [] C N = match N with Some _ => Ok (Many []) | None => Err IndexError end.
Proof.
  intros draws src n s r C N H HC HO. unfold query_simulate.
  assert (Ev : state_validate s r true [] C = Ok tt).
  { unfold state_validate. rewrite (sinv_n_rows _ _ H). cbn [rbind andb has_dup nodup length Nat.eqb negb].
    rewrite andb_false_r. cbn [rbind]. destruct HC as [->|Hr]; [reflexivity|]. rewrite Hr. cbn [rbind].
    destruct (is_nil C); reflexivity. }
  rewrite Ev. cbn [rbind]. unfold state_simulate, state_samples.
  destruct (partition_dict_total (s_zv s) C) as [cl ->].
  { intros c Hc. apply (si_zv _ _ H). apply HO. exact Hc. }
  cbn. destruct N; reflexivity.
Qed.
Print Assumptions C34_no_targets.

(** Queries of new rows with targets return: constraints of positive density, columns
    that can be sampled, clusters numbered from zero, at least one sample. *)
Theorem C34_returns_partial : forall n s r T C N draws src, sready n s -> hypothetical (Z.of_nat n) r = true ->
  T <> [] -> NoDup T -> (forall c, In c T -> In c (s_outs s)) ->
  of_state s C -> (forall c, In c T -> ~ In c (dkeys C)) ->
  (forall v w, dget v (s_views s) = Some w -> (exists c, In c T /\ dget c (s_zv s) = Some v) ->
     0 < mixture w (in_view s v C)) ->
  (forall v w k, dget v (s_views s) = Some w -> In k (dvals (v_rows w)) -> (0 <= k)%Z) ->
  (forall v j, draw_ok (draws v j)) -> (forall v c k i, exists x, src v c k i = Ok x) ->
  N <> Some 0%nat ->
  exists answer, query_simulate draws src s r T C N = Ok answer.
Proof.
  intros n s r T C N draws src H Hr Hne HT HTo HC Hdis Hpos Hz Hd Hsrc HN. unfold query_simulate.
  assert (Ev : state_validate s r true T C = Ok tt).
  { unfold state_validate. rewrite (sinv_n_rows _ _ (sr_inv _ _ H)). cbn [rbind andb].
    replace (has_dup T) with false.
    2:{ symmetry. unfold has_dup. rewrite nodup_fixed_point by exact HT. rewrite Nat.eqb_refl. reflexivity. }
    rewrite Hr. cbn [negb andb rbind]. destruct (is_nil C); [reflexivity|].
    assert (Ho : overlap T (dkeys C) = false).
    { unfold overlap. destruct (existsb _ _) eqn:E; [|reflexivity]. apply existsb_exists in E.
      destruct E as [c [Hc1 Hc2]]. apply zmem_in in Hc2. destruct (Hdis c Hc1 Hc2). }
    rewrite Ho. reflexivity. }
  rewrite Ev. cbn [rbind]. unfold state_simulate.
  set (m := match N with Some n0 => n0 | None => 1%nat end).
  assert (Hm : (0 < m)%nat) by (unfold m; destruct N as [[|]|]; [congruence|lia|lia]).
  assert (G : exists l, state_samples draws src s r T C m = Ok l).
  { unfold state_samples. destruct (partition_dict_total (s_zv s) C) as [cl Ec].
    { intros c Hc. apply (si_zv _ _ (sr_inv _ _ H)). apply HC. exact Hc. }
    rewrite Ec. cbn [rbind]. destruct (group_list_total (s_zv s) T []) as [tl Et].
    { intros c Hc. apply (si_zv _ _ (sr_inv _ _ H)). apply HTo. exact Hc. }
    change (partition_list (s_zv s) T = Ok tl) in Et. rewrite Et. cbn [rbind].
    destruct (partition_list_spec _ _ _ Et) as [Nt [_ St]].
    destruct (partition_dict_spec _ _ _ (proj1 HC) Ec) as [_ [_ Sc]].
    assert (G : forall L, (forall v T', In (v, T') L -> In (v, T') tl) -> exists ss, rsequence (map (fun vt =>
      match dget (fst vt) (s_views s) with
      | None => Err KeyError
      | Some w => view_simulate (draws (fst vt)) (src (fst vt)) w r (snd vt)
                    (match dget (fst vt) cl with Some c => c | None => [] end) m
      end) L) = Ok ss).
    { induction L as [|[v T'] L IH]; intros HL; [eexists; reflexivity|]. cbn [map rsequence fst snd].
      pose proof (dget_In_NoDup v T' tl Nt (HL v T' (or_introl eq_refl))) as Ev'. rewrite St in Ev'.
      destruct (filter (in_block (s_zv s) v) T) as [|c0 L0] eqn:Ef; [discriminate|]. injection Ev' as <-.
      assert (Hc : forall c, In c (c0 :: L0) -> In c T /\ dget c (s_zv s) = Some v).
      { intros c Hc. rewrite <- Ef in Hc. apply filter_In in Hc. rewrite in_block_true in Hc. exact Hc. }
      destruct (Hc c0 (or_introl eq_refl)) as [H1 H2].
      destruct (column_view n s H c0 (HTo c0 H1)) as [v' [w [E1 E2]]]. rewrite E1 in H2. injection H2 as ->. rewrite E2.
      rewrite Sc. replace (match match share (s_zv s) v C with [] => None | l => Some l end with Some c => c | None => [] end)
        with (in_view s v C) by (unfold in_view; destruct (share (s_zv s) v C); reflexivity).
      pose proof (sready_ready n s H v w E2) as Hy.
      assert (Hvc : of_view w (in_view s v C)) by (eapply in_view_of; eassumption).
      assert (Hvp : 0 < mixture w (in_view s v C)).
      { apply (Hpos v w E2). exists c0. split; assumption. }
      destruct (view_simulate_ok (tab (s_X s)) w Hy (in_view s v C) Hvc Hvp (fun k => Hz v w k E2) (draws v) (src v) r (c0 :: L0) m) as [l [_ [El _]]].
      - rewrite (v_hyp n s H v w r E2). exact Hr.
      - discriminate.
      - rewrite <- Ef. apply NoDup_filter. exact HT.
      - intros c Hi. destruct (si_view _ _ (sr_inv _ _ H) v w E2) as [_ [_ [V3 _]]]. apply V3. apply Hc. exact Hi.
      - intros c k i _. apply Hsrc.
      - exact Hm.
      - apply (draw_ok_range (tab (s_X s))); try assumption. apply Hd.
      - rewrite El. cbn [rbind]. destruct IH as [ss ->]; [intros v' T'' Hi; apply HL; right; exact Hi|]. cbn. eauto. }
    destruct (G tl) as [ss ->]; [auto|]. cbn. eauto. }
  destruct G as [l El]. rewrite El. cbn [rbind].
  destruct (state_samples_shape _ _ _ _ _ _ _ _ Hne HT El) as [L1 _].
  destruct N as [n0|]; [eauto|]. destruct l as [|d l]; [cbn in L1; lia|]. eauto.
Qed.
Print Assumptions C34_returns_partial.

(** ** C35: the order of the samples *)

(** The samples of a view come sorted by the cluster that serves them; apart from their
    order these are the clusters that were drawn. *)
Theorem C35_sorted_partial : forall X v draws src r T C n, ready X v -> v_hypothetical v r = true ->
  of_view v C -> 0 < mixture v C -> T <> [] -> NoDup T -> (forall c, In c T -> In c (dkeys (v_dims v))) ->
  (forall k, In k (dvals (v_rows v)) -> (0 <= k)%Z) ->
  (forall j, draw_ok (draws j)) -> (forall c k i, In c T -> exists x, src c k i = Ok x) -> (0 < n)%nat ->
  exists samples served, view_simulate draws src v r T C n = Ok samples /\
    Forall2 (drawn src T) served samples /\
    Permutation served (map (fun j => nth (draws j (map Fin (cluster_probs v C))) (all_clusters v) 0%Z) (seq 0 n)) /\
    StronglySorted Z.le served.
Proof.
  intros X v draws src r T C n H Hr HC Hp Hne HT HTv Hz Hd Hsrc Hn.
  exact (view_simulate_ok X v H C HC Hp Hz draws src r T n Hr Hne HT HTv Hsrc Hn (draw_ok_range X v H C Hp draws n Hd)).
Qed.
Print Assumptions C35_sorted_partial.

(** The generator that answers with the given indices, columns whose values tell the
    clusters apart, and the event that the first sample comes from cluster [k]. *)
Definition scripted (js : list nat) (j : nat) (p : list ext) : nat := nth j js 0%nat.
Definition marks (c k : Z) (i : nat) : res R := Ok (IZR k).
Definition first_from (c k : Z) (r : res (list (dict R))) : bool :=
  match r with
  | Ok (d :: _) => match dget c d with Some x => if Req_EM_T x (IZR k) then true else false | None => false end
  | _ => false
  end.

Lemma clusters_NoDup X v : ready X v -> NoDup (all_clusters v).
Proof.
  intros H. unfold all_clusters. apply NoDup_app_intro.
  - apply zsort_NoDup. apply (rd_inv _ _ H).
  - repeat constructor. intros [].
  - intros k Hk [<-|[]]. rewrite zsort_in in Hk. pose proof (proj1 (rd_inv _ _ H)) as Hc.
    apply (new_fresh v Hc (rd_rows _ _ H)). apply (counts_of_keys _ _ _ (proj1 (proj2 Hc))). exact Hk.
Qed.

(** With [n] samples the first comes from the lowest-numbered cluster with probability
    1 - (1 - p)^n, where p is the probability of that cluster. *)
Theorem C35_first : forall X v r c C n k0, ready X v -> v_hypothetical v r = true ->
  of_view v C -> 0 < mixture v C -> In c (dkeys (v_dims v)) ->
  (forall k, In k (dvals (v_rows v)) -> (0 <= k)%Z) ->
  In k0 (all_clusters v) -> (forall k, In k (all_clusters v) -> (k0 <= k)%Z) -> (0 < n)%nat ->
  pr (iid (cluster_probs v C) n)
     (fun js => first_from c k0 (view_simulate (scripted js) marks v r [c] C n))
  = 1 - (1 - posterior v C k0) ^ n.
Proof.
  intros X v r c C n k0 H Hr HC Hp Hc Hz Hk0 Hmin Hn. set (K := all_clusters v) in *.
  destruct (In_nth K k0 0%Z Hk0) as [i0 [Hi0 Ei0]].
  assert (HL : length (cluster_probs v C) = length K) by (unfold cluster_probs; rewrite map_length; reflexivity).
  assert (Ew : nth i0 (cluster_probs v C) 0 = posterior v C k0).
  { rewrite <- Ei0. unfold cluster_probs. fold K. rewrite (nth_indep _ 0 (posterior v C 0%Z)) by (rewrite map_length; exact Hi0).
    apply map_nth. }
  assert (Hsum : Rsum (cluster_probs v C) = 1) by (apply (probs_sum X v H C Hp)).
  rewrite <- Ew, <- (iid_avoid (cluster_probs v C) n i0 Hsum) by lia.
  rewrite <- (pr_not (iid (cluster_probs v C) n)).
  2:{ apply iid_proper; [|lra]. apply Forall_forall. intros x Hx. unfold cluster_probs in Hx. apply in_map_iff in Hx.
      destruct Hx as [k [<- _]]. apply (posterior_nonneg X v H C Hp). }
  unfold pr. apply (expect_ext _ _ _ _ (iid_range (cluster_probs v C) n)). intros js [Hlen Hjs].
  assert (Hrange : in_range v C (scripted js) n).
  { intros j Hj. unfold scripted. fold K. rewrite <- HL. apply Hjs. apply nth_In. lia. }
  destruct (view_simulate_ok X v H C HC Hp Hz (scripted js) marks r [c] n Hr) as [l [ks [El [K1 [K2 K3]]]]].
  - discriminate.
  - repeat constructor. intros [].
  - intros c' [<-|[]]. exact Hc.
  - intros c' k i _. exists (IZR k). reflexivity.
  - exact Hn.
  - exact Hrange.
  - rewrite El.
    assert (Epk : picked v C (scripted js) n = map (fun i => nth i K 0%Z) js).
    { unfold picked, scripted. fold K. rewrite <- Hlen. clear. 
      rewrite <- (map_map (fun j => nth j js 0%nat) (fun i => nth i K 0%Z)). f_equal.
      induction js as [|x js IH]; [reflexivity|]. cbn [length seq map]. rewrite <- seq_shift, map_map. cbn. rewrite IH. reflexivity. }
    rewrite Epk in K2.
    assert (Hin : In k0 ks <-> exists j, In j js /\ j = i0).
    { split.
      - intros Hi. apply (Permutation_in _ K2) in Hi. apply in_map_iff in Hi. destruct Hi as [j [Ej Hj]]. exists j. split; [exact Hj|].
        apply (proj1 (NoDup_nth K 0%Z) (clusters_NoDup X v H)); [rewrite <- HL; apply Hjs; exact Hj|exact Hi0|congruence].
      - intros [j [Hj ->]]. apply (Permutation_in _ (Permutation_sym K2)). apply in_map_iff. exists i0. auto. }
    clear Ew Ei0. destruct ks as [|k1 ks].
    { apply Permutation_length in K2. rewrite map_length in K2. cbn in K2. lia. }
    inversion K1 as [|? d ? l' [_ [i Hd]] K1' E1 E2]; subst. cbn [first_from].
    destruct (Hd c (or_introl eq_refl)) as [x [Ex Edx]]. rewrite Edx. unfold marks in Ex. injection Ex as <-.
    assert (Hall : forall k, In k (k1 :: ks) -> (k0 <= k)%Z).
    { intros k Hk. apply (Permutation_in _ K2) in Hk. apply in_map_iff in Hk. destruct Hk as [j [<- Hj]].
      apply Hmin. apply nth_In. fold K. rewrite <- HL. apply Hjs. exact Hj. }
    destruct (Req_EM_T (IZR k1) (IZR k0)) as [E|E].
    + apply eq_IZR in E. subst k1.
      destruct (proj1 Hin (or_introl eq_refl)) as [j [Hj ->]].
      replace (forallb (fun j => negb (Nat.eqb j i0)) js) with false; [reflexivity|].
      symmetry. apply not_true_iff_false. rewrite forallb_forall. intros F. specialize (F i0 Hj). rewrite Nat.eqb_refl in F. discriminate.
    + replace (forallb (fun j => negb (Nat.eqb j i0)) js) with true; [reflexivity|].
      symmetry. apply forallb_forall. intros j Hj. apply negb_true_iff, Nat.eqb_neq. intros ->.
      assert (Hi : In k0 (k1 :: ks)) by (apply Hin; eauto).
      destruct Hi as [->|Hi]; [contradiction|]. inversion K3 as [|? ? _ K4]; subst. rewrite Forall_forall in K4. specialize (K4 _ Hi).
      pose proof (Hall k1 (or_introl eq_refl)). apply E. f_equal. lia.
Qed.
Print Assumptions C35_first.

(** ** Concrete cases *)

(** Two views: columns 0 and 1 in view 0, column 2 in view 1; three rows. *)
Section Case.
  Context (lgam : R -> R) (Hg : forall x, 0 < x -> lgam (x + 1) = ln x + lgam x).
  Definition sx_view (crp : crp) (d : dim (M_bernoulli lgam)) : view := View 10000001 crp [1] [(2%Z, ADim (M_bernoulli lgam) d)].
  Definition sx_w1 : view := sx_view (crp_new 1) (qx_d1 lgam [] [] 2).
  Definition sx_w2 : view := sx_view (Crp 1 [(0, 0)]%Z [(0, 1)]%Z 1) (qx_d1 lgam [0] [(0, 0)] 3)%Z.
  Definition sx_w3 : view := sx_view (Crp 2 [(0, 0); (1, 0)]%Z [(0, 2)]%Z 1) (qx_d1 lgam [0] [(0, 0); (1, 0)] 3)%Z.
  Definition sx_w : view := sx_view (Crp 3 [(0, 0); (1, 0); (2, 0)]%Z [(0, 3)]%Z 1) (qx_d1 lgam [0] [(0, 0); (1, 0); (2, 0)] 3)%Z.
  Definition sx : state :=
    State [0; 1; 2]%Z qx_data (Crp 3 [(0, 0); (1, 0); (2, 1)]%Z [(0, 2); (1, 1)]%Z 1) [] [(0%Z, qx_v lgam); (1%Z, sx_w)] [] [].

  Lemma sx_reach : vreach (tab qx_data) sx_w.
  Proof.
    assert (R1 : vreach (tab qx_data) sx_w1).
    { refine (vr_new_dim _ (view_new 10000001 1 [1]) 2 (M_bernoulli lgam) (1, 1) true [] (fun _ => tt) _ _ (vr_new _ _ _ _) (kn_bernoulli _) _).
      reflexivity. }
    assert (Hrow : forall v r k v', vreach (tab qx_data) v -> (0 <= r <= 2)%Z ->
      dkeys (v_dims v) = [2]%Z -> ex_row (tab qx_data) v r k = (v', Ok tt) -> vreach (tab qx_data) v').
    { intros v r k v' Hv Hr Hk He. eapply vr_incorporate; [exact Hv| |exact He].
      rewrite Hk. intros c a Ha. apply dget_Some_in in Ha. rewrite Hk in Ha.
      assert (r = 0 \/ r = 1 \/ r = 2)%Z as Hr' by lia.
      destruct Ha as [<-|[]]; destruct Hr' as [-> | [-> | ->]]; simpl; eauto. }
    assert (R2 : vreach (tab qx_data) sx_w2) by (eapply (Hrow sx_w1 0 0)%Z; [exact R1|lia|reflexivity|reflexivity]).
    assert (R3 : vreach (tab qx_data) sx_w3) by (eapply (Hrow sx_w2 1 0)%Z; [exact R2|lia|reflexivity|reflexivity]).
    eapply (Hrow sx_w3 2 0)%Z; [exact R3|lia|reflexivity|reflexivity].
  Qed.

  Lemma sx_views v w : dget v (s_views sx) = Some w -> (v = 0%Z /\ w = qx_v lgam) \/ (v = 1%Z /\ w = sx_w).
  Proof.
    unfold sx. cbn [s_views dget]. destruct (Z.eqb_spec v 0) as [->|]; [intros E; injection E as <-; auto|].
    destruct (Z.eqb_spec v 1) as [->|]; [intros E; injection E as <-; auto|discriminate].
  Qed.
  Lemma sx_inv : sinv 3 sx.
  Proof.
    split.
    - unfold sx. cbn. repeat constructor; cbn; lia.
    - discriminate.
    - intros c. cbn. tauto.
    - cbn. repeat constructor; cbn; lia.
    - intros c l Hl. cbn in Hl. repeat (destruct (_ =? _)%Z in Hl; [injection Hl as <-; reflexivity|]). discriminate.
    - split; [cbn; repeat constructor; cbn; lia|]. split; [|reflexivity].
      split; [cbn; repeat constructor; cbn; lia|]. intros t. cbn.
      destruct (Z.eqb_spec t 0) as [->|]; [reflexivity|]. destruct (Z.eqb_spec t 1) as [->|]; [reflexivity|].
      rewrite (proj2 (Z.eqb_eq (occ t _) 0)); [reflexivity|]. apply occ_zero. cbn. lia.
    - intros c. cbn. tauto.
    - cbn. repeat constructor; cbn; lia.
    - intros v. cbn. tauto.
    - intros v w Hw. destruct (sx_views v w Hw) as [[-> ->]|[-> ->]].
      + split; [exact (vreach_vinv _ _ (qx_reach lgam))|]. split; [reflexivity|]. split.
        * intros c. replace (dkeys (v_dims (qx_v lgam))) with [0; 1]%Z by reflexivity.
          replace (s_zv sx) with [(0, 0); (1, 0); (2, 1)]%Z by reflexivity. cbn [dget In].
          destruct (Z.eqb_spec c 0), (Z.eqb_spec c 1), (Z.eqb_spec c 2); (split; [intros Hc|intros Hc]);
            try reflexivity; try discriminate; lia.
        * intros r. rewrite qx_rows. cbn. lia.
      + split; [exact (vreach_vinv _ _ sx_reach)|]. split; [reflexivity|]. split.
        * intros c. replace (dkeys (v_dims sx_w)) with [2]%Z by reflexivity.
          replace (s_zv sx) with [(0, 0); (1, 0); (2, 1)]%Z by reflexivity. cbn [dget In].
          destruct (Z.eqb_spec c 0), (Z.eqb_spec c 1), (Z.eqb_spec c 2); (split; [intros Hc|intros Hc]);
            try reflexivity; try discriminate; lia.
        * intros r. replace (dkeys (v_rows sx_w)) with [0; 1; 2]%Z by reflexivity. cbn. lia.
  Qed.
  Lemma sx_ready : sready 3 sx.
  Proof.
    split.
    - exact sx_inv.
    - lia.
    - intros v w Hw. destruct (sx_views v w Hw) as [[-> ->]|[-> ->]];
        [replace (c_alpha (v_crp (qx_v lgam))) with 1 by reflexivity|replace (c_alpha (v_crp sx_w)) with 1 by reflexivity]; lra.
    - intros v Hv. cbn in Hv. unfold sx. cbn [s_outs In]. unfold crp_id_view. lia.
    - intros v w c a Hw Ha. destruct (sx_views v w Hw) as [[-> ->]|[-> ->]].
      + exact (rd_cols _ _ (qx_ready lgam Hg) c a Ha).
      + unfold sx_w, sx_view in Ha. cbn [v_dims dget] in Ha. destruct (c =? 2)%Z; [|discriminate]. injection Ha as <-. split; [|reflexivity].
        assert (G : collapsed (M_bernoulli lgam) (1, 1)) by (constructor; cbn; [exact Hg|lra|lra]).
        split; [split; cbn [a_M a_d]|].
        * exact G.
        * intros k x Hk. cbn in Hk. destruct (k =? 0)%Z; [|discriminate]. injection Hk as <-. exact G.
        * intros lbes F. cbn [a_M] in F. apply (f_equal m_nhyp) in F. cbn in F. discriminate.
  Qed.
  Lemma sx_clusters v w k : dget v (s_views sx) = Some w -> In k (dvals (v_rows w)) -> (0 <= k)%Z.
  Proof.
    intros Hw. destruct (sx_views v w Hw) as [[-> ->]|[-> ->]].
    - rewrite qx_rows. cbn. lia.
    - replace (dvals (v_rows sx_w)) with [0; 0; 0]%Z by reflexivity. cbn. lia.
  Qed.

  Lemma sx_of D : NoDup (dkeys D) -> (forall c, In c (dkeys D) -> (0 <= c <= 2)%Z) -> of_state sx D.
  Proof. intros H1 H2. split; [exact H1|]. intros c Hc. apply H2 in Hc. cbn. lia. Qed.

  (** Hypotheses of C31 and C32: cells 1 and 2 given cell 0, across both views. *)
  Example C31_chain_ex : sready 3 sx /\ hypothetical 3 3 = true /\ of_state sx [(1%Z, Some 1); (2%Z, Some 0)] /\
    of_state sx [(0%Z, Some 4)] /\ disjoint [(1%Z, Some 1); (2%Z, Some 0)] [(0%Z, Some 4)].
  Proof.
    split; [exact sx_ready|]. split; [reflexivity|]. split; [|split].
    - apply sx_of; cbn; [repeat constructor; cbn; lia|lia].
    - apply sx_of; cbn; [repeat constructor; cbn; lia|lia].
    - intros c. cbn. lia.
  Qed.
  Lemma sx_positive v w : dget v (s_views sx) = Some w -> 0 < mixture w (in_view sx v [(0%Z, Some 4)]).
  Proof.
    intros Hw. destruct (sx_views v w Hw) as [[-> ->]|[-> ->]].
    - replace (in_view sx 0 [(0%Z, Some 4)]) with [(0%Z, Some 4)] by reflexivity. apply qx_positive. exact Hg.
    - replace (in_view sx 1 [(0%Z, Some 4)]) with ([] : dict cell) by reflexivity.
      rewrite (ready_nil 3 sx 1 sx_w sx_ready Hw). lra.
  Qed.
  (** The second case of C32: no view has constraints of density 0. *)
  Example C32_independent_ex : forall v w, dget v (s_views sx) = Some w -> in_view sx v [(1%Z, Some 1); (2%Z, Some 0)] <> [] ->
    0 < mixture w (in_view sx v [(0%Z, Some 4)]).
  Proof. intros v w Hw _. apply sx_positive. exact Hw. Qed.

  (** Five samples of columns 1 and 2 given column 0. *)
  Example C34_returns_ex : exists answer,
    query_simulate (fun _ _ => first_pos) (fun _ _ _ _ => Ok 1) sx 3 [1; 2]%Z [(0%Z, Some 4)] (Some 5%nat) = Ok answer.
  Proof.
    apply (C34_returns_partial 3).
    - exact sx_ready.
    - reflexivity.
    - discriminate.
    - repeat constructor; cbn; lia.
    - intros c. cbn. lia.
    - apply sx_of; cbn; [repeat constructor; cbn; lia|lia].
    - intros c. cbn. lia.
    - intros v w Hw _. apply sx_positive. exact Hw.
    - exact sx_clusters.
    - intros v j. exact C16_draw_ex.
    - intros v c k i. exists 1. reflexivity.
    - discriminate.
  Qed.

  (** A single sample of no targets raises. *)
  Lemma sx_no_targets : query_simulate (fun _ _ => first_pos) (fun _ _ _ _ => Ok 1) sx 3 [] [] None = Err IndexError /\
    query_simulate (fun _ _ => first_pos) (fun _ _ _ _ => Ok 1) sx 3 [] [] (Some 2%nat) = Ok (Many []).
  Proof.
    pose proof (fun N => C34_no_targets (fun _ _ => first_pos) (fun _ _ _ _ => Ok 1) 3 sx 3 [] N sx_inv (or_introl eq_refl)) as H.
    split; rewrite H; try reflexivity; intros c [].
  Qed.

  Lemma qx_half : posterior (qx_v lgam) [] 0 = 1 / 2.
  Proof.
    pose proof (qx_ready lgam Hg) as H. pose proof (ready_nil 3 sx 0 (qx_v lgam) sx_ready eq_refl) as Hm.
    unfold posterior. rewrite Hm. unfold joint. cbn [map].
    replace (length (v_rows (qx_v lgam))) with 3%nat by reflexivity.
    replace (c_alpha (v_crp (qx_v lgam))) with 1 by reflexivity.
    replace (pweight (qx_v lgam) 0) with (IZR 2) by reflexivity.
    cbn [INR]. unfold Rprod. cbn. field.
  Qed.

  (** The first of two samples is from cluster 0, of probability 1/2, three times in four. *)
  Lemma qx_first : pr (iid (cluster_probs (qx_v lgam) []) 2)
      (fun js => first_from 0 0 (view_simulate (scripted js) marks (qx_v lgam) 3 [0%Z] [] 2)) = 3 / 4 /\
    pr (iid (cluster_probs (qx_v lgam) []) 1)
      (fun js => first_from 0 0 (view_simulate (scripted js) marks (qx_v lgam) 3 [0%Z] [] 1)) = 1 / 2.
  Proof.
    assert (Ek : all_clusters (qx_v lgam) = [0; 7; 8]%Z) by reflexivity.
    assert (G : forall n, (0 < n)%nat -> pr (iid (cluster_probs (qx_v lgam) []) n)
      (fun js => first_from 0 0 (view_simulate (scripted js) marks (qx_v lgam) 3 [0%Z] [] n)) = 1 - (1 - 1 / 2) ^ n).
    { intros n Hn. rewrite <- qx_half. apply (C35_first qx_X).
      - apply qx_ready. exact Hg.
      - reflexivity.
      - split; [constructor|intros c []].
      - rewrite (ready_nil 3 sx 0 (qx_v lgam) sx_ready eq_refl). lra.
      - left. reflexivity.
      - exact (fun k => sx_clusters 0 (qx_v lgam) k eq_refl).
      - rewrite Ek. left. reflexivity.
      - rewrite Ek. cbn. lia.
      - exact Hn. }
    split; rewrite G by lia; cbn; field.
  Qed.
  (** Hypotheses of C35_sorted_partial: two samples of column 1 given column 0. *)
  Example C35_sorted_ex : exists samples served,
    view_simulate (fun _ => first_pos) (fun _ _ _ => Ok 1) (qx_v lgam) 3 [1%Z] [(0%Z, Some 4)] 2 = Ok samples /\
    Forall2 (drawn (fun _ _ _ => Ok 1) [1%Z]) served samples.
  Proof.
    destruct (C35_sorted_partial qx_X (qx_v lgam) (fun _ => first_pos) (fun _ _ _ => Ok 1) 3 [1%Z] [(0%Z, Some 4)] 2) as [l [ks [E [F _]]]].
    - apply qx_ready. exact Hg.
    - reflexivity.
    - split; [repeat constructor; intros []|]. cbn. tauto.
    - apply qx_positive. exact Hg.
    - discriminate.
    - repeat constructor. intros [].
    - intros c [<-|[]]. right. left. reflexivity.
    - exact (fun k => sx_clusters 0 (qx_v lgam) k eq_refl).
    - intros _. exact C16_draw_ex.
    - intros c k i _. exists 1. reflexivity.
    - lia.
    - eauto.
  Qed.
End Case.

(** C34 for zero targets: a consistent state, and a query for which no sample at all, or
    an exception, comes back. *)
Theorem C34_no_targets_refuted : exists n s, sready n s /\ exists draws src r,
  (forall v j, draw_ok (draws v j)) /\
  query_simulate draws src s r [] [] None = Err IndexError /\
  query_simulate draws src s r [] [] (Some 2%nat) = Ok (Many []).
Proof.
  exists 3%nat, (sx lgam_w). split; [exact (sx_ready lgam_w lgam_w_rec)|].
  exists (fun _ _ => first_pos), (fun _ _ _ _ => Ok 1), 3%Z. split; [intros v j; exact C16_draw_ex|]. apply sx_no_targets.
Qed.
Print Assumptions C34_no_targets_refuted.

(** C35: the first of two samples is not distributed like a single one. *)
Theorem C35_refuted : exists X v r c k, ready X v /\ v_hypothetical v r = true /\ In c (dkeys (v_dims v)) /\
  pr (iid (cluster_probs v []) 2) (fun js => first_from c k (view_simulate (scripted js) marks v r [c] [] 2)) <>
  pr (iid (cluster_probs v []) 1) (fun js => first_from c k (view_simulate (scripted js) marks v r [c] [] 1)).
Proof.
  exists qx_X, (qx_v lgam_w), 3%Z, 0%Z, 0%Z. split; [exact (qx_ready lgam_w lgam_w_rec)|]. split; [reflexivity|].
  split; [left; reflexivity|]. destruct (qx_first lgam_w lgam_w_rec) as [-> ->]. lra.
Qed.
Print Assumptions C35_refuted.
