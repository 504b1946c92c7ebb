(** C38: the score that the diagnostics record; C31: which queries are accepted. *)
From Verif Require Import Classes Schedule Query QueryFacts StateFacts P03_Crp P04_CrpSim CrpFacts BaseFacts PrimFacts PrimSpec ListFacts ViewFacts P09_State P10_Columns P16_Schedule P12_ViewQuery LogSpaceFacts GammaWitness.
From Coq Require Import Lia Lra Permutation.
Local Open Scope R_scope.

(* ------------------------------------------------------------------ *)
(** ** The score of a state *)

Lemma rsum_fin {A} (f : A -> res ext) (g : A -> R) (l : list A) : (forall x, In x l -> f x = Ok (Fin (g x))) ->
  rsum_ext (map f l) = Ok (Fin (Rsum (map g l))).
Proof.
  intros H. unfold rsum_ext.
  assert (E : rsequence (map f l) = Ok (map Fin (map g l))).
  { induction l as [|x l IH]; [reflexivity|]. cbn [map rsequence]. rewrite (H x (or_introl eq_refl)). cbn [rbind].
    rewrite IH by (intros y Hy; apply H; right; exact Hy). reflexivity. }
  rewrite E. cbn [rbind]. rewrite LogSpaceFacts.esum_fin. reflexivity.
Qed.

(** The seating of the members of a partition one after the other. *)
Definition seated (alpha : R) (Zd : dict Z) (p : R) : Prop :=
  exists c, seq_seat (crp_new alpha) Zd = Some (p, c).

Lemma crp_seated lgam c : gamma_rec lgam -> lgam 1 = 0 -> crp_inv c -> 0 < c_alpha c ->
  exists p, seated (c_alpha c) (c_data c) p /\ crp_score lgam c = Ok (Fin p).
Proof.
  intros Hg H1 Hi Ha. destruct (C08_crp_score lgam (c_alpha c) (c_data c) Hg H1 Ha (proj1 Hi)) as [p [s [E1 [E2 [E3 _]]]]].
  exists p. split; [exists s; exact E1|]. rewrite <- E3.
  assert (Hs : crp_inv s /\ c_alpha s = c_alpha c).
  { destruct (crp_seq_score lgam (c_data c) (crp_new (c_alpha c)) Hg H1 (crp_inv_new _) Ha (proj1 Hi)) as [a [t [s' [_ [F [I1 [I2 _]]]]]]].
    rewrite seq_seat_eq, F in E1. injection E1 as _ <-. split; [exact I1|exact I2]. }
  destruct Hs as [Hs1 Hs2].
  apply (crp_score_perm lgam c s (conj (proj1 Hi) (proj2 Hi)) Hs1); [intros r; rewrite E2; reflexivity|symmetry; exact Hs2].
Qed.

(** Every column is in exactly one view. *)
Lemma columns_once n s : sinv n s ->
  Permutation (concat (map (fun vw => dkeys (v_dims (snd vw))) (s_views s))) (s_outs s).
Proof.
  intros H. apply NoDup_Permutation; [|apply (si_nodup _ _ H)|].
  - assert (G : forall l : dict view, NoDup (dkeys l) -> (forall v w, In (v, w) l -> dget v (s_views s) = Some w) ->
      NoDup (concat (map (fun vw => dkeys (v_dims (snd vw))) l))).
    { induction l as [|[v w] l IH]; intros Hn Hin; [constructor|]. cbn [map concat snd].
      change (dkeys ((v, w) :: l)) with (v :: dkeys l) in Hn. inversion Hn; subst.
      apply NoDup_app_intro.
      - apply (si_view _ _ H v w (Hin v w (or_introl eq_refl))).
      - apply IH; [assumption|]. intros v' w' Hi. apply Hin. right. exact Hi.
      - intros c Hc Hc'. apply in_concat in Hc'. destruct Hc' as [cs [Hcs Hc']]. apply in_map_iff in Hcs.
        destruct Hcs as [[v' w'] [<- Hi]]. cbn [snd] in Hc'.
        apply (si_view _ _ H v w (Hin v w (or_introl eq_refl))) in Hc.
        apply (si_view _ _ H v' w' (Hin v' w' (or_intror Hi))) in Hc'.
        assert (v' = v) by congruence. subst v'. apply (in_map fst) in Hi. contradiction. }
    apply G; [apply (si_nv _ _ H)|]. intros v w Hi. apply dget_In_NoDup; [apply (si_nv _ _ H)|exact Hi].
  - intros c. rewrite <- (si_zv _ _ H c), in_concat. split.
    + intros [cs [Hcs Hc]]. apply in_map_iff in Hcs. destruct Hcs as [[v w] [<- Hi]].
      apply dget_In_NoDup in Hi; [|apply (si_nv _ _ H)]. apply (si_view _ _ H v w Hi) in Hc.
      eapply dget_Some_in. exact Hc.
    + intros Hc. apply in_dkeys_Some in Hc. destruct Hc as [v Hv].
      assert (Hvw : In v (dkeys (s_views s))).
      { apply (si_views _ _ H). apply (counts_of_keys _ _ _ (proj1 (proj2 (si_crp _ _ H)))).
        unfold dvals. apply dget_In in Hv. apply (in_map snd) in Hv. exact Hv. }
      apply in_dkeys_Some in Hvw. destruct Hvw as [w Hw].
      exists (dkeys (v_dims w)). split; [|apply (si_view _ _ H v w Hw); exact Hv].
      apply in_map_iff. exists (v, w). split; [reflexivity|apply dget_In; exact Hw].
Qed.

Lemma views_score lgam n s f : gamma_rec lgam -> lgam 1 = 0 -> sinv n s ->
  (forall v w, dget v (s_views s) = Some w -> 0 < c_alpha (v_crp w)) ->
  (forall v w c a, dget v (s_views s) = Some w -> dget c (v_dims w) = Some a -> a_score a = Ok (Fin (f c))) ->
  exists q, (forall v w, dget v (s_views s) = Some w -> seated (c_alpha (v_crp w)) (v_rows w) (q v)) /\
    rsum_ext (map (view_score lgam) (dvals (s_views s))) =
      Ok (Fin (Rsum (map q (dkeys (s_views s))) + Rsum (map f (s_outs s)))).
Proof.
  intros Hg H1 H Ha Hf.
  set (q := fun v => match dget v (s_views s) with
                     | Some w => match crp_score lgam (v_crp w) with Ok (Fin p) => p | _ => 0 end
                     | None => 0 end).
  assert (Hq : forall v w, dget v (s_views s) = Some w ->
    seated (c_alpha (v_crp w)) (v_rows w) (q v) /\ crp_score lgam (v_crp w) = Ok (Fin (q v))).
  { intros v w Hw. destruct (si_view _ _ H v w Hw) as [Vi _].
    destruct (crp_seated lgam (v_crp w) Hg H1 (proj1 Vi) (Ha v w Hw)) as [p [P1 P2]].
    unfold q. rewrite Hw, P2. split; [exact P1|reflexivity]. }
  exists q. split; [intros v w Hw; apply Hq, Hw|].
  assert (Ev : forall vw, In vw (s_views s) -> view_score lgam (snd vw) = Ok (Fin (q (fst vw) + Rsum (map f (dkeys (v_dims (snd vw))))))).
  { intros [v w] Hi. apply dget_In_NoDup in Hi; [|apply (si_nv _ _ H)]. cbn [fst snd].
    unfold view_score. rewrite (proj2 (Hq v w Hi)). cbn [rbind]. unfold view_likelihood, dvals. rewrite map_map.
    assert (El : rsum_ext (map (fun x => a_score (snd x)) (v_dims w)) = Ok (Fin (Rsum (map (fun x => f (fst x)) (v_dims w))))).
    { apply rsum_fin. intros [c a] Hca. cbn [fst snd]. apply (Hf v w c a Hi). apply dget_In_NoDup; [apply (si_view _ _ H v w Hi)|exact Hca]. }
    rewrite El. cbn [rbind]. unfold dkeys. rewrite map_map. reflexivity. }
  unfold dvals. rewrite map_map, (rsum_fin _ (fun vw => q (fst vw) + Rsum (map f (dkeys (v_dims (snd vw)))))) by exact Ev.
  do 2 f_equal. rewrite Rsum_map_plus. f_equal.
  - unfold dkeys. rewrite map_map. reflexivity.
  - rewrite <- (Rsum_perm _ _ (Permutation_map f (columns_once n s H))). clear.
    induction (s_views s) as [|vw l IH]; [reflexivity|]. cbn [map concat]. rewrite map_app, Rsum_app, <- IH. reflexivity.
Qed.

(** Without constraints the recorded score is the log probability of seating the
    columns and, view by view, the rows, plus the score of every column. *)
Theorem C38_logscore : forall lgam n s f, gamma_rec lgam -> lgam 1 = 0 -> sinv n s ->
  s_Cd s = [] -> s_Ci s = [] -> 0 < c_alpha (s_crp s) ->
  (forall v w, dget v (s_views s) = Some w -> 0 < c_alpha (v_crp w)) ->
  (forall v w c a, dget v (s_views s) = Some w -> dget c (v_dims w) = Some a -> a_score a = Ok (Fin (f c))) ->
  exists p q, seated (c_alpha (s_crp s)) (s_zv s) p /\
    (forall v w, dget v (s_views s) = Some w -> seated (c_alpha (v_crp w)) (v_rows w) (q v)) /\
    state_score lgam s = Ok (Fin (p + Rsum (map q (dkeys (s_views s))) + Rsum (map f (s_outs s)))).
Proof.
  intros lgam n s f Hg H1 H Hd Hi Ha Hv Hf. destruct (views_score lgam n s f Hg H1 H Hv Hf) as [q [Q1 Q2]].
  destruct (crp_seated lgam (s_crp s) Hg H1 (si_crp _ _ H) Ha) as [p [P1 P2]].
  exists p, q. split; [exact P1|]. split; [exact Q1|]. unfold state_score, state_score_crp. rewrite Hi, Hd, P2. cbn [rbind].
  rewrite Q2. cbn [rbind eadd]. do 2 f_equal. ring.
Qed.
Print Assumptions C38_logscore.

(** With dependence constraints the columns are scored by their blocks: minus infinity
    if a block is split over views. *)
Theorem C38_logscore_dependent : forall lgam n s f, gamma_rec lgam -> lgam 1 = 0 -> sinv n s ->
  s_Cd s <> [] -> s_Ci s = [] -> 0 < c_alpha (s_crp s) ->
  (forall b, In b (s_Cd s) -> b <> []) -> NoDup (concat (s_Cd s)) ->
  (forall b c, In b (s_Cd s) -> In c b -> In c (s_outs s)) ->
  (forall v w, dget v (s_views s) = Some w -> 0 < c_alpha (v_crp w)) ->
  (forall v w c a, dget v (s_views s) = Some w -> dget c (v_dims w) = Some a -> a_score a = Ok (Fin (f c))) ->
  exists counts p q,
    (forall t, dget t counts = (if effective_at (s_zv s) (s_Cd s) t =? 0 then None else Some (effective_at (s_zv s) (s_Cd s) t))%Z) /\
    logp_crp lgam (effective_customers (Z.of_nat (length (s_zv s))) (s_Cd s)) (dvals counts) (c_alpha (s_crp s)) = Ok (Fin p) /\
    (forall v w, dget v (s_views s) = Some w -> seated (c_alpha (v_crp w)) (v_rows w) (q v)) /\
    (breaks_block (s_zv s) (s_Cd s) -> state_score lgam s = Ok NInf) /\
    (~ breaks_block (s_zv s) (s_Cd s) ->
      state_score lgam s = Ok (Fin (p + Rsum (map q (dkeys (s_views s))) + Rsum (map f (s_outs s))))).
Proof.
  intros lgam n s f Hg H1 H Hd Hi Ha Hb1 Hb2 Hb3 Hv Hf. destruct (views_score lgam n s f Hg H1 H Hv Hf) as [q [Q1 Q2]].
  assert (Hz : forall b c, In b (s_Cd s) -> In c b -> In c (dkeys (s_zv s))).
  { intros b c Hb Hc. apply (si_zv _ _ H). eauto. }
  destruct (C12_counts (s_zv s) (s_Cd s) (proj1 (si_crp _ _ H)) Hb1 Hb2 Hz) as [ne [counts [E1 [E2 [E3 [E4 E5]]]]]].
  destruct (C12_density lgam (s_zv s) (c_alpha (s_crp s)) (s_Cd s) Ha (proj1 (si_crp _ _ H)) Hb1 Hb2 Hz) as [d [D1 [D2 D3]]].
  assert (Hp : exists p, logp_crp lgam (effective_customers (Z.of_nat (length (s_zv s))) (s_Cd s)) (dvals counts) (c_alpha (s_crp s)) = Ok (Fin p)).
  { unfold logp_crp, plog. rewrite (proj2 (Rltb_true 0 _) Ha). cbn [rbind]. eexists; reflexivity. }
  destruct Hp as [p Hp]. exists counts, p, q. split; [exact E4|]. split; [exact Hp|]. split; [exact Q1|].
  assert (Es : state_score lgam s = Ok (eadd d (Fin (Rsum (map q (dkeys (s_views s))) + Rsum (map f (s_outs s)))))).
  { unfold state_score, state_score_crp. rewrite Hi. destruct (s_Cd s) as [|b Cd]; [contradiction|]. rewrite D1. cbn [rbind].
    rewrite Q2. reflexivity. }
  split.
  - intros Hbr. rewrite Es, (proj2 D2 Hbr). reflexivity.
  - intros Hbr. destruct (D3 Hbr) as [counts' [l [F1 [F2 ->]]]]. rewrite Es.
    assert (counts' = counts) by congruence. subst counts'. assert (l = p) by congruence. subst l. cbn [eadd].
    do 2 f_equal. ring.
Qed.
Print Assumptions C38_logscore_dependent.

(** With independence constraints no score is defined. *)
Theorem C38_logscore_independent : forall lgam s, s_Ci s <> [] -> state_score lgam s = Err ValueError.
Proof.
  intros lgam s H. unfold state_score, state_score_crp. destruct (s_Ci s); [contradiction|]. reflexivity.
Qed.
Print Assumptions C38_logscore_independent.

(** Hence a run with checkpoints stops at its first checkpoint. *)
Theorem C38_checkpoint_independent : forall lgam w, s_Ci (t_state w) <> [] ->
  record_diagnostics lgam w = (w, Err ValueError).
Proof. intros lgam w H. unfold record_diagnostics. rewrite (C38_logscore_independent lgam _ H). reflexivity. Qed.
Print Assumptions C38_checkpoint_independent.

(* ------------------------------------------------------------------ *)
(** ** Which queries are accepted *)

Lemma rany_existsb {A} (f : A -> res bool) (g : A -> bool) l : (forall x, In x l -> f x = Ok (g x)) ->
  rany f l = Ok (existsb g l).
Proof.
  induction l as [|x l IH]; intros H; [reflexivity|]. cbn [rany existsb]. rewrite (H x (or_introl eq_refl)). cbn [rbind].
  destruct (g x); [reflexivity|]. apply IH. intros y Hy. apply H. right. exact Hy.
Qed.
Lemma has_dup_false l : has_dup l = false <-> NoDup l.
Proof.
  unfold has_dup. rewrite negb_false_iff, Nat.eqb_eq. split.
  - intros H. pose proof (NoDup_nodup Z.eq_dec l) as N.
    apply (NoDup_incl_NoDup N); [lia|]. intros x. apply nodup_In.
  - intros H. rewrite nodup_fixed_point by exact H. reflexivity.
Qed.
Lemma overlap_false a b : overlap a b = false <-> (forall c, In c a -> ~ In c b).
Proof.
  unfold overlap. split.
  - intros H c Ha Hb. assert (E : existsb (fun x => zmem x b) a = true); [|congruence].
    apply existsb_exists. exists c. split; [exact Ha|apply zmem_in; exact Hb].
  - intros H. destruct (existsb _ a) eqn:E; [|reflexivity]. apply existsb_exists in E. destruct E as [c [Ha Hb]].
    apply zmem_in in Hb. destruct (H c Ha Hb).
Qed.

(** Two numbers agree up to the tolerances of numpy. *)
Definition close (observed given : R) : Prop :=
  Rabs (observed - given) <= / 100000000 + / 100000 * Rabs given.

(** A constraint on a row of the table agrees with the cell, if there is one. *)
Definition agrees (X : table) (outs : list Z) (r c : Z) (x : cell) : Prop :=
  In c outs -> forall a, X c r = Ok (Some a) -> exists b, x = Some b /\ close a b.

Lemma bad_spec X outs r cx : (In (fst cx) outs -> exists y, X (fst cx) r = Ok y) ->
  exists b, bad_constraint X outs r cx = Ok b /\ (b = false <-> agrees X outs r (fst cx) (snd cx)).
Proof.
  destruct cx as [c x]. cbn [fst snd]. intros H. unfold bad_constraint. cbn [fst snd].
  destruct (zmem c outs) eqn:E; cbn [negb].
  - apply zmem_in in E. destruct (H E) as [y Hy]. rewrite Hy. cbn [rbind]. destruct y as [a|].
    + eexists. split; [reflexivity|]. unfold agrees. rewrite Hy. split.
      * intros F _ a' E'. injection E' as <-. destruct x as [b|]; [|discriminate]. exists b. split; [reflexivity|].
        rewrite negb_false_iff in F. unfold allclose in F. apply Rleb_true in F. exact F.
      * intros F. destruct (F E a eq_refl) as [b [-> Hb]]. rewrite negb_false_iff. apply Rleb_true. exact Hb.
    + exists false. split; [reflexivity|]. split; [|reflexivity]. intros _ _ a'. rewrite Hy. discriminate.
  - exists false. split; [reflexivity|]. split; [|reflexivity]. intros _ F. apply zmem_in in F. congruence.
Qed.
Lemma rany_spec {A} (f : A -> res bool) (Q : A -> Prop) l :
  (forall x, In x l -> exists b, f x = Ok b /\ (b = false <-> Q x)) ->
  exists b, rany f l = Ok b /\ (b = false <-> forall x, In x l -> Q x).
Proof.
  induction l as [|x l IH]; intros H.
  - exists false. split; [reflexivity|]. split; [|reflexivity]. intros _ x [].
  - destruct (H x (or_introl eq_refl)) as [b [E Hb]]. cbn [rany]. rewrite E. cbn [rbind]. destruct b.
    + exists true. split; [reflexivity|]. split; [discriminate|]. intros F. apply Hb. apply F. left. reflexivity.
    + destruct IH as [b' [E' Hb']]; [intros y Hy; apply H; right; exact Hy|]. exists b'. split; [exact E'|].
      rewrite Hb'. split.
      * intros F y [<-|Hy]; [apply Hb; reflexivity|apply F, Hy].
      * intros F y Hy. apply F. right. exact Hy.
Qed.

(** A query of a state is accepted just in case its targets are distinct, no target is
    constrained, and on a row of the table the targets of logpdf are missing cells and the
    constraints agree with the cells; everything else is a ValueError. *)
Theorem C31_validation : forall n s r simulate T C, sinv n s ->
  (forall c, In c T -> In c (s_outs s)) ->
  let X := tab (s_X s) in
  let accepted :=
    (simulate = true -> NoDup T) /\
    (forall c, In c T -> ~ In c (dkeys C)) /\
    ((0 <= r < Z.of_nat n)%Z ->
       (simulate = false -> forall c, In c T -> X c r = Ok None) /\
       (forall c x, In (c, x) C -> agrees X (s_outs s) r c x)) in
  (accepted -> state_validate s r simulate T C = Ok tt) /\
  (~ accepted -> state_validate s r simulate T C = Err ValueError).
Proof.
  intros n s r sim T C H HT X accepted.
  assert (Htab : (0 <= r < Z.of_nat n)%Z -> forall c, In c (s_outs s) -> exists y, X c r = Ok y).
  { intros Hr c Hc. apply (si_X _ _ H) in Hc. destruct (tab_in _ _ r Hc) as [l [El Et]]. unfold X. rewrite Et.
    pose proof (si_len _ _ H c l El) as Hl. unfold py_nth. rewrite Hl.
    replace (r <? 0)%Z with false by (symmetry; apply Z.ltb_ge; lia). replace (0 <=? r)%Z with true by (symmetry; apply Z.leb_le; lia).
    destruct (nth_error l (Z.to_nat r)) as [y|] eqn:E; [eauto|]. apply nth_error_None in E. lia. }
  assert (Hh : hypothetical (Z.of_nat n) r = false <-> (0 <= r < Z.of_nat n)%Z).
  { unfold hypothetical. rewrite negb_false_iff, andb_true_iff, Z.leb_le, Z.ltb_lt. tauto. }
  unfold state_validate. rewrite (sinv_n_rows _ _ H). cbn [rbind]. fold X.
  destruct (sim && has_dup T) eqn:E1.
  { split; [|reflexivity]. intros [A _]. apply andb_true_iff in E1. destruct E1 as [-> E1].
    specialize (A eq_refl). apply has_dup_false in A. congruence. }
  assert (A1 : sim = true -> NoDup T).
  { intros ->. cbn in E1. apply has_dup_false. exact E1. }
  assert (E2 : exists b, (if negb (hypothetical (Z.of_nat n) r) && negb sim
      then rany (fun q => rbind (is_nan_at X q r) (fun b => Ok (negb b))) T else Ok false) = Ok b /\
      (b = false <-> ((0 <= r < Z.of_nat n)%Z -> sim = false -> forall c, In c T -> X c r = Ok None))).
  { destruct (hypothetical (Z.of_nat n) r) eqn:Eh; cbn [negb andb].
    - exists false. split; [reflexivity|]. split; [|reflexivity]. intros _ Hr. apply Hh in Hr. congruence.
    - destruct sim; cbn [negb].
      + exists false. split; [reflexivity|]. split; [|reflexivity]. intros _ _. discriminate.
      + assert (Hr : (0 <= r < Z.of_nat n)%Z) by (apply Hh; reflexivity).
        destruct (rany_spec (fun q => rbind (is_nan_at X q r) (fun b => Ok (negb b))) (fun c => X c r = Ok None) T) as [b [Eb Hb]].
        { intros c Hc. destruct (Htab Hr c (HT c Hc)) as [y Hy]. unfold is_nan_at. rewrite Hy. cbn [rbind].
          eexists. split; [reflexivity|]. destruct y; cbn [negb]; split; try reflexivity; discriminate. }
        exists b. split; [exact Eb|]. rewrite Hb. split; auto. }
  destruct E2 as [b1 [-> Hb1]]. cbn [rbind]. destruct b1.
  { split; [|reflexivity]. intros [_ [_ A]]. assert (F : true = false); [|discriminate]. apply Hb1. intros Hr. apply A. exact Hr. }
  destruct C as [|e C0].
  { cbn [is_nil]. split; [reflexivity|]. intros F. destruct F. split; [exact A1|]. split; [intros c _ []|].
    intros Hr. split; [apply Hb1; auto|intros c x []]. }
  cbn [is_nil]. remember (e :: C0) as C eqn:EC. clear EC e C0.
  destruct (overlap T (dkeys C)) eqn:E3.
  { split; [|reflexivity]. intros [_ [A _]]. apply overlap_false in A. congruence. }
  assert (A2 := proj1 (overlap_false _ _) E3).
  destruct (hypothetical (Z.of_nat n) r) eqn:Eh; cbn [rbind].
  { split; [reflexivity|]. intros F. destruct F. split; [exact A1|]. split; [exact A2|].
    intros Hr. apply Hh in Hr. congruence. }
  assert (Hr : (0 <= r < Z.of_nat n)%Z) by (apply Hh; reflexivity).
  destruct (rany_spec (bad_constraint X (s_outs s) r) (fun cx => agrees X (s_outs s) r (fst cx) (snd cx)) C) as [b2 [-> Hb2]].
  { intros cx _. apply bad_spec. intros Hc. apply Htab; assumption. }
  cbn [rbind]. destruct b2.
  - split; [|reflexivity]. intros [_ [_ A]]. assert (F : true = false); [|discriminate]. apply Hb2.
    intros [c x] Hi. apply A; assumption.
  - split; [reflexivity|]. intros F. destruct F. split; [exact A1|]. split; [exact A2|]. intros _. split; [apply Hb1; [reflexivity|exact Hr]|].
    intros c x Hi. exact (proj1 Hb2 eq_refl (c, x) Hi).
Qed.
Print Assumptions C31_validation.

(** A view accepts queries on observed cells, but not on the cluster of a row that it
    holds. *)
Theorem C31_view_validation : forall X v r simulate T (C : dict cell),
  (v_hypothetical v r = false -> forall c, In c (v_out v :: dkeys (v_dims v)) -> c <> v_out v -> exists y, X c r = Ok y) ->
  let accepted :=
    (simulate = true -> NoDup T) /\
    (forall c, In c T -> ~ In c (dkeys C)) /\
    (v_hypothetical v r = false ->
       ~ In (v_out v) T /\ ~ In (v_out v) (dkeys C) /\
       (forall c x, In (c, x) C -> agrees X (dkeys (v_dims v)) r c x)) in
  let D := map (fun cx => (fst cx, VCell (snd cx))) C in
  (accepted -> view_validate X v r simulate T D = Ok tt) /\
  (~ accepted -> view_validate X v r simulate T D = Err ValueError).
Proof.
  intros X v r sim T C HX accepted D. unfold view_validate.
  assert (HD : dkeys D = dkeys C) by (unfold D, dkeys; rewrite map_map; reflexivity).
  destruct (sim && has_dup T) eqn:E1.
  { split; [|reflexivity]. intros [A _]. apply andb_true_iff in E1. destruct E1 as [-> E1].
    specialize (A eq_refl). apply has_dup_false in A. congruence. }
  assert (A1 : sim = true -> NoDup T).
  { intros ->. cbn in E1. apply has_dup_false. exact E1. }
  rewrite HD. destruct (overlap T (dkeys C)) eqn:E3.
  { split; [|reflexivity]. intros [_ [A _]]. apply overlap_false in A. congruence. }
  assert (A2 := proj1 (overlap_false _ _) E3).
  destruct (v_hypothetical v r) eqn:Eh.
  { split; [reflexivity|]. intros F. destruct F. split; [exact A1|]. split; [exact A2|]. discriminate. }
  destruct (zmem (v_out v) T) eqn:E4; cbn [orb].
  { split; [|reflexivity]. intros [_ [_ A]]. destruct (A eq_refl) as [F _]. apply zmem_in in E4. contradiction. }
  destruct (dmem (v_out v) D) eqn:E5.
  { split; [|reflexivity]. intros [_ [_ A]]. destruct (A eq_refl) as [_ [F _]]. apply dmem_in in E5. rewrite HD in E5. contradiction. }
  assert (A4 : ~ In (v_out v) T) by (intros F; apply zmem_in in F; congruence).
  assert (A5 : ~ In (v_out v) (dkeys C)) by (intros F; rewrite <- HD in F; apply dmem_in in F; congruence).
  match goal with |- context [rany ?f D] => destruct (rany_spec f
    (fun ec => match snd ec with VCell x => agrees X (dkeys (v_dims v)) r (fst ec) x | VClus _ => False end) D) as [b2 [-> Hb2]] end.
  { intros ec Hi. unfold D in Hi. apply in_map_iff in Hi. destruct Hi as [[c x] [<- Hi]]. cbn [fst snd].
    assert (Hne : c <> v_out v) by (intros ->; apply (in_map fst) in Hi; contradiction).
    destruct (bad_spec X (v_out v :: dkeys (v_dims v)) r (c, x)) as [b [Eb Hb]]; [intros Hc; apply HX; auto|].
    exists b. split; [exact Eb|]. rewrite Hb. unfold agrees. cbn [fst snd In]. split.
    - intros F Hc. apply F. right. exact Hc.
    - intros F [Hc|Hc]; [congruence|]. apply F. exact Hc. }
  cbn [rbind]. destruct b2.
  - split; [|reflexivity]. intros [_ [_ A]]. assert (F : true = false); [|discriminate]. apply Hb2.
    intros ec Hi. unfold D in Hi. apply in_map_iff in Hi. destruct Hi as [[c x] [<- Hi]]. cbn [fst snd]. apply (A eq_refl). exact Hi.
  - split; [reflexivity|]. intros F. destruct F. split; [exact A1|]. split; [exact A2|]. intros _. split; [exact A4|]. split; [exact A5|].
    intros c x Hi. apply (proj1 Hb2 eq_refl (c, VCell x)). unfold D. apply in_map_iff. exists (c, x). auto.
Qed.
Print Assumptions C31_view_validation.

(* ------------------------------------------------------------------ *)
(** ** Examples *)

Definition score_s Cd Ci : state := good_s (Bernoulli lgam_w) 2 hset_pair (1, 1) tt Cd Ci.

Example C38_logscore_ex : forall Cd Ci, gamma_rec lgam_w /\ lgam_w 1 = 0 /\ (exists n, sinv n (score_s Cd Ci)) /\
  0 < c_alpha (s_crp (score_s Cd Ci)) /\
  (forall v w, dget v (s_views (score_s Cd Ci)) = Some w -> 0 < c_alpha (v_crp w)) /\
  (forall v w c a, dget v (s_views (score_s Cd Ci)) = Some w -> dget c (v_dims w) = Some a -> a_score a = Ok (Fin 0)).
Proof.
  intros Cd Ci. split; [exact lgam_w_rec|]. split; [exact lgam_w_1|].
  split; [apply sreach_sinv; exact (good_reach _ _ _ _ _ _ (bern_score lgam_w) _ _ _ (kn_bernoulli _))|].
  split; [cbn; lra|].
  assert (V : forall v w, dget v (s_views (score_s Cd Ci)) = Some w ->
    w = bug_v1 (Bernoulli lgam_w) 2 hset_pair (1, 1) tt \/ w = bug_v8 (Bernoulli lgam_w) 2 hset_pair (1, 1) tt).
  { intros v w. unfold score_s, good_s. cbn [s_views dget]. destruct (v =? 1)%Z; [intros E; injection E as <-; auto|].
    destruct (v =? 8)%Z; [intros E; injection E as <-; auto|discriminate]. }
  split.
  - intros v w Hw. destruct (V v w Hw) as [-> | ->]; cbn; lra.
  - intros v w c a Hw. destruct (V v w Hw) as [-> | ->]; unfold bug_v1, bug_v8, set_dims; cbn [v_dims dget];
      [destruct (c =? 1)%Z|destruct (c =? 0)%Z]; try discriminate; intros E; injection E as <-;
      rewrite (bug_score _ _ _ _ _ _ (bern_score lgam_w)); cbn [map]; unfold esum; cbn [fold_left eadd]; do 2 f_equal; ring.
Qed.

(** A block of constraints that holds and one that is split. *)
Example C38_logscore_dependent_ex :
  let ok Cd := (forall b, In b Cd -> b <> []) /\ NoDup (concat Cd) /\
    (forall b c, In b Cd -> In c b -> In c (s_outs (score_s Cd []))) in
  ok [[0%Z]] /\ ~ breaks_block (s_zv (score_s [[0%Z]] [])) [[0%Z]] /\
  ok [[0; 1]%Z] /\ breaks_block (s_zv (score_s [[0; 1]%Z] [])) [[0; 1]%Z].
Proof.
  cbv zeta. split; [split; [|split]|split; [|split; [split; [|split]|]]].
  - intros b [<-|[]]. discriminate.
  - repeat constructor; intros [].
  - intros b c [<-|[]] [<-|[]]. cbn. auto.
  - intros [b [i [j [[<-|[]] [[<-|[]] [[<-|[]] F]]]]]]. apply F. reflexivity.
  - intros b [<-|[]]. discriminate.
  - repeat constructor; cbn; intuition lia.
  - intros b c [<-|[]]. cbn. intuition.
  - exists [0; 1]%Z, 0%Z, 1%Z. cbn. repeat split; auto. discriminate.
Qed.

(** Two rounds with a record after each, on a state whose columns 0 and 1 must be in
    different views: the first record raises, although without checkpoints all is well. *)
Definition par_c (j : nat) : state := let s := par_s j in
  State (s_outs s) (s_X s) (s_crp s) (s_grid s) (s_views s) [] [[0; 1]%Z].
Lemma par_c_call t j it l : (j < 3)%nat ->
  call_kernel ex_lgam ex_rand None None None t 2 (TState (par_c j) it l) = (TState (par_c (S j)) (increment 2 it) l, Ok tt).
Proof. intros H. assert (j = 0 \/ j = 1 \/ j = 2)%nat as [->|[->| ->]] by lia; reflexivity. Qed.

Theorem C38_checkpoint_refuted : exists s w' w2, sreach safe s /\
  transition ex_lgam ex_rand None None None (Some 2%Z) None (fun _ => 0) (Some [2%Z]) (Some 1%Z) 3 (TState s [] [])
    = Some (w', Err ValueError) /\ t_diag w' = [] /\
  transition ex_lgam ex_rand None None None (Some 2%Z) None (fun _ => 0) (Some [2%Z]) None 3 (TState s [] [])
    = Some (w2, Ok 2%Z).
Proof.
  exists (par_c 0), (TState (par_c 1) [(2, 1)%Z] []), (TState (par_c 2) [(2, 2)%Z] []).
  split; [exact (ex_state_reach [] [[0; 1]%Z])|]. 
  assert (T : forall c, transition ex_lgam ex_rand None None None (Some 2%Z) None (fun _ => 0) (Some [2%Z]) c 3 (TState (par_c 0) [] [])
      = transition_generic (call_kernel ex_lgam ex_rand None None None) (record_diagnostics ex_lgam) [2%Z] (Some (Z.of_nat 2)) None
              (fun _ => 0) c 3 (TState (par_c 0) [] [])) by reflexivity.
  rewrite !T. rewrite !C38_schedule by (try discriminate; lia).
  assert (E1 : script (Some 1%Z) [2%Z] 2 = [Run 2%Z; Record; Run 2%Z; Record]).
  { unfold script, round. cbn [seq map concat app].
    destruct (Znumtheory.Zdivide_dec 1 (Z.of_nat 1)) as [_|N]; [|contradiction N; exists 1%Z; reflexivity].
    destruct (Znumtheory.Zdivide_dec 1 (Z.of_nat 2)) as [_|N]; [|contradiction N; exists 2%Z; reflexivity]. reflexivity. }
  rewrite E1. cbn [perform]. rewrite par_c_call by lia. rewrite C38_checkpoint_independent by discriminate.
  split; [reflexivity|]. split; [reflexivity|].
  change (script None [2%Z] 2) with [Run 2%Z; Run 2%Z]. cbn [perform]. rewrite par_c_call by lia. rewrite par_c_call by lia.
  reflexivity.
Qed.
Print Assumptions C38_checkpoint_refuted.

(** A logpdf of the missing cell of column 0 in row 1 is accepted, with a constraint on
    column 1, a missing cell too; a second constraint on the target is not. *)
Example C31_validation_ex : exists s, sinv 2 s /\ (forall c, In c [0%Z] -> In c (s_outs s)) /\
  state_validate s 1 false [0%Z] [(1%Z, Some 1)] = Ok tt /\
  state_validate s 1 false [0%Z] [(0%Z, Some 1)] = Err ValueError.
Proof.
  exists (score_s [] []). split; [|split; [|split]].
  - destruct (sreach_sinv (score_s [] [])) as [n H]; [exact (good_reach _ _ _ _ _ _ (bern_score lgam_w) _ _ _ (kn_bernoulli _))|].
    assert (n = 2)%nat as <-; [|exact H]. symmetry. apply (si_len _ _ H 0%Z [None; None]). reflexivity.
  - intros c [<-|[]]. cbn. auto.
  - reflexivity.
  - reflexivity.
Qed.

(** Row 0 of the view of C30_ex holds the value 3 in column 0. *)
Example C31_view_validation_ex : forall lgam, let v := qx_v lgam in
  v_hypothetical v 0 = false /\
  (forall c, In c (v_out v :: dkeys (v_dims v)) -> c <> v_out v -> exists y, qx_X c 0%Z = Ok y) /\
  agrees qx_X (dkeys (v_dims v)) 0%Z 0%Z (Some 3) /\ ~ agrees qx_X (dkeys (v_dims v)) 0%Z 0%Z (Some 4).
Proof.
  intros lgam v. split; [reflexivity|]. split; [|split].
  - intros c [<-|[<-|[<-|[]]]] Hne; [contradiction|eexists; reflexivity|eexists; reflexivity].
  - intros _ a E. injection E as <-. exists 3. split; [reflexivity|]. unfold close. rewrite Rminus_eq_0, Rabs_R0.
    pose proof (Rabs_pos 3). lra.
  - intros F. destruct (F (or_introl eq_refl) 3 eq_refl) as [b [E H]]. injection E as <-. unfold close in H.
    rewrite Rabs_left in H by lra. rewrite Rabs_right in H by lra. lra.
Qed.
