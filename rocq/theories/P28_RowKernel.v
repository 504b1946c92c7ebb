(** C28: the row step as a Markov kernel. *)
From Verif Require Import RelevanceState P07_View P12_ViewQuery P26_Relevance GammaWitness LogSpaceFacts.
From Coq Require Import Lia Classical.
Local Open Scope R_scope.

(* ------------------------------------------------------------------ *)
(** ** The step cannot fail *)

(** One row, in any view whose columns are collapsed: the weights are computed, a
    cluster is drawn, and the row arrives there. *)
Theorem C28_step_total X draw v r z : draw_ok draw -> vreach X v ->
  (forall c a, dget c (v_dims v) = Some a ->
     collapsed_column a /\ forall lbes, a_M a <> M_vonmises lbes) ->
  0 < c_alpha (v_crp v) -> dget r (v_rows v) = Some z ->
  exists v', transition_row X draw v r = (v', Ok tt).
Proof.
  intros Hd HR Ht Ha Hr. apply vreach_vinv in HR. exact (transition_total X draw v r z Hd HR Ht Ha Hr).
Qed.
Print Assumptions C28_step_total.

(** A pass over any list of rows of the view, in any order, with repetitions. *)
Theorem C28_pass_total X draws v rows : (forall i, draw_ok (draws i)) -> settled X v -> all_solid v ->
  (forall r, In r rows -> exists z, dget r (v_rows v) = Some z) ->
  exists v', transition_rows X draws v rows = (v', Ok tt) /\
    forall r, (exists z, dget r (v_rows v') = Some z) <-> exists z, dget r (v_rows v) = Some z.
Proof.
  intros Hd Hst Hs Hin.
  assert (G : forall w r, (exists z, dget r (v_rows w) = Some z) <-> In r (dkeys (v_rows w))).
  { intros w r. split; [intros [z Hz]; eapply dget_Some_in; exact Hz|apply in_dkeys_Some]. }
  destruct (pass_total X draws v rows Hd Hs (st_alpha _ _ Hst) v (cfg_refl X v (st_inv _ _ Hst) Hs)) as [v' [E [_ H]]].
  { intros r Hr. apply G, Hin, Hr. }
  exists v'. split; [exact E|]. intros r. rewrite !G. apply H.
Qed.
Print Assumptions C28_pass_total.

(* ------------------------------------------------------------------ *)
(** ** Detailed balance *)

(** Moving row [r] of [v] to cluster [k] groups the rows as in [v']. *)
Definition groups (v : view) (r k : Z) (v' : view) : Prop :=
  let lab a := if (a =? r)%Z then Some k else dget a (v_rows v) in
  forall a b, lab a = lab b <-> dget a (v_rows v') = dget b (v_rows v').

(** Probability of the [i]-th choice for log weights [w]. *)
Definition chance (w : list ext) (i : nat) : R :=
  match nth_error w i with Some x => lexp x / Rsum (map lexp w) | None => 0 end.

(** Some other row than [r] is in [k]. *)
Definition taken (v : view) (r k : Z) : Prop := exists r', r' <> r /\ dget r' (v_rows v) = Some k.

Lemma pdf_fresh X v k k' obs : vinv X v ->
  (forall r, dget r (v_rows v) <> Some k) -> (forall r, dget r (v_rows v) <> Some k') ->
  pweight v k * joint v (old_pdf k) obs = pweight v k' * joint v (old_pdf k') obs.
Proof.
  intros Hv Hk Hk'.
  assert (P : forall q, (forall r, dget r (v_rows v) <> Some q) -> pweight v q = c_alpha (v_crp v)).
  { intros q Hq. unfold pweight. destruct (dget q (c_counts (v_crp v))) as [c|] eqn:E; [|reflexivity].
    destruct (crp_counts_rows (v_crp v) q (proj1 Hv)) as [r Hr]; [eapply dget_Some_in; exact E|].
    destruct (Hq r Hr). }
  rewrite (P k Hk), (P k' Hk'). f_equal. unfold joint. f_equal. apply map_ext. intros [c x]. unfold factor. cbn [fst snd].
  destruct (dget c (v_dims v)) as [a|] eqn:Ea; [|reflexivity].
  assert (N : forall q, (forall r, dget r (v_rows v) <> Some q) -> dget q (d_clusters (a_d a)) = None).
  { intros q Hq. apply dget_None_notin. intros H. change (In q (akeys a)) in H.
    rewrite (keys_rows X v c a q Hv Ea) in H. destruct H as [r Hr]. exact (Hq r Hr). }
  unfold old_pdf, a_logpdf, dim_logpdf. destruct (valid_cell x []) as [[y l]|]; [|reflexivity].
  unfold cluster_of. rewrite (N k Hk), (N k' Hk'). reflexivity.
Qed.

Section Balance.
  Context (lgam : R -> R) (X : table) (v : view) (r : Z).
  Context (Hg : gamma_rec lgam) (Hg1 : lgam 1 = 0) (Hst : settled X v) (Hso : all_solid v).
  Context (z : Z) (Hz : dget r (v_rows v) = Some z).

  (** The score with the row in cluster [k]. *)
  Lemma seat_scores : exists sg : Z -> R,
    (forall u k, cfg X v u -> (forall a, dget a (v_rows u) = if (a =? r)%Z then Some k else dget a (v_rows v)) ->
       score lgam u = sg k) /\
    (forall k k', ~ taken v r k -> ~ taken v r k' -> exp (sg k) = exp (sg k')).
  Proof.
    pose proof (st_inv _ _ Hst) as Hv. pose proof (cfg_refl X v Hv Hso) as C0.
    assert (Nd : NoDup (dkeys (v_rows v))) by apply Hv.
    destruct (cfg_uninc X v v r z C0 Hz) as [v0 [E0 [C1 R1]]].
    destruct (table_row_ok X v r z Hv Hz) as [obs Ho].
    assert (Hr0 : dget r (v_rows v0) = None) by (rewrite R1, dget_ddel, Z.eqb_refl by exact Nd; reflexivity).
    assert (Hno : dget norow (v_rows v0) = None).
    { rewrite R1, dget_ddel by exact Nd. destruct (norow =? r)%Z; [reflexivity|]. apply nonneg_norow, Hst. }
    exists (fun k => score lgam (fst (view_insert X v0 r k obs))).
    assert (Hseat : forall k, exists u, view_insert X v0 r k obs = (u, Ok tt) /\ cfg X v u /\
      (forall a, dget a (v_rows u) = if (a =? r)%Z then Some k else dget a (v_rows v))).
    { intros k. destruct (cfg_insert X v v0 r z k obs Hv C1 Hz Hr0 Ho) as [u [Ei [Cu Ru]]]. exists u.
      split; [exact Ei|]. split; [exact Cu|]. intros a. rewrite Ru, dget_dset, R1, dget_ddel by exact Nd.
      destruct (a =? r)%Z; reflexivity. }
    split.
    - intros u k Cu Ru. destruct (Hseat k) as [u' [-> [Cu' Ru']]]. cbn [fst].
      apply (score_same X lgam v); auto. intros a. rewrite Ru, Ru'. reflexivity.
    - intros k k' Hk Hk'.
      assert (Hf : forall q, ~ taken v r q -> forall a, dget a (v_rows v0) <> Some q).
      { intros q Hq a Ha. rewrite R1, dget_ddel in Ha by exact Nd. destruct (Z.eqb_spec a r); [discriminate|].
        apply Hq. exists a. auto. }
      assert (G : forall q, exp (score lgam (fst (view_insert X v0 r q obs))) =
        exp (score lgam v0) * (pweight v0 q / (INR (length (v_rows v0)) + c_alpha (v_crp v0)) * joint v0 (old_pdf q) obs)).
      { intros q. destruct (Hseat q) as [u [Eu [Cu _]]]. rewrite Eu. cbn [fst].
        rewrite <- (insert_ratio X lgam v v0 r z q obs u Hg Hg1 Hv Hso (st_alpha _ _ Hst) Hz C1 Hr0 Hno Ho Eu Cu).
        rewrite <- exp_plus. f_equal. lra. }
      rewrite !G. f_equal. pose proof (pdf_fresh X v0 k k' obs (proj1 C1) (Hf k Hk) (Hf k' Hk')) as H.
      unfold Rdiv. rewrite (Rmult_comm (pweight v0 k)), (Rmult_comm (pweight v0 k')), !Rmult_assoc, H. reflexivity.
  Qed.

  (** The weights of the step are these scores up to a constant. *)
  Lemma step_weights (sg : Z -> R) v' z' v1 K w :
    (forall u k, cfg X v u -> (forall a, dget a (v_rows u) = if (a =? r)%Z then Some k else dget a (v_rows v)) ->
       score lgam u = sg k) ->
    cfg X v v' -> (forall a, a <> r -> dget a (v_rows v') = dget a (v_rows v)) -> dget r (v_rows v') = Some z' ->
    row_weights X v' r = (v1, Ok (K, w)) ->
    choices v' r K /\ exists C, w = map (fun k => Fin (sg k - C)) K.
  Proof.
    intros Hsg C' Ho Hz' Ew. pose proof C' as [Hv' [_ [_ [A' _]]]].
    pose proof (cfg_solid X v v' Hso C') as Hs'.
    assert (Ha' : 0 < c_alpha (v_crp v')) by (rewrite A'; apply Hst).
    split.
    { eapply tables_choices; [apply Hv'|exact Hz'|]. eapply row_weights_ok; eassumption. }
    destruct (row_weights_exact X lgam v' r z' v1 K w (score lgam v') Hg Hg1 Hv') as [C F]; auto.
    { intros c a E. apply (solid_all v' c a Hs' E). }
    { apply score_eq with (X := X); assumption. }
    exists C.
    assert (Q : forall k u, placed X v' r z' k u -> forall s, view_score lgam u = Ok (Fin s) -> s = sg k).
    { intros k u Hp s Hs.
      assert (Cu : cfg X v u /\ forall a, dget a (v_rows u) = if (a =? r)%Z then Some k else dget a (v_rows v)).
      { destruct Hp as [[-> ->]|[Hne Em]].
        - split; [exact C'|]. intros a. destruct (Z.eqb_spec a r) as [->|Hn]; [exact Hz'|apply Ho; exact Hn].
        - destruct (cfg_migrate X v v' r k u C' Em) as [Cu Ru]. split; [exact Cu|].
          intros a. rewrite Ru, dget_dset, dget_ddel by apply Hv'. destruct (Z.eqb_spec a r); [reflexivity|].
          apply Ho. assumption. }
      destruct Cu as [Cu Ru]. rewrite (score_eq X lgam u) in Hs.
      - injection Hs as <-. apply Hsg; assumption.
      - apply Cu.
      - apply (cfg_solid X v); assumption.
      - destruct Cu as [_ [_ [_ [-> _]]]]. apply Hst. }
    clear - F Q. induction F as [|k wk K w [u [s [Hp [Hs ->]]]] _ IH]; [reflexivity|]. simpl.
    rewrite (Q k u Hp s Hs), IH. reflexivity.
  Qed.
End Balance.

Lemma taken_same v v' r k : (forall a, a <> r -> dget a (v_rows v') = dget a (v_rows v)) ->
  taken v r k <-> taken v' r k.
Proof.
  intros H. split; intros [a [Ha E]]; exists a; (split; [exact Ha|]); [rewrite H|rewrite <- H]; assumption.
Qed.

(** The choices of two views that differ in row [r] only have the same total. *)
Lemma choices_total (f : Z -> R) v v' r K K' :
  (forall a, a <> r -> dget a (v_rows v') = dget a (v_rows v)) ->
  (forall k k', ~ taken v r k -> ~ taken v r k' -> f k = f k') ->
  choices v r K -> choices v' r K' -> Rsum (map f K) = Rsum (map f K').
Proof.
  intros Ho Hf [N [T [k0 [I0 U]]]] [N' [T' [k0' [I0' U']]]].
  pose proof (fun k => taken_same v v' r k Ho) as Ts.
  change (forall k, taken v r k -> In k K) in T. change (forall k, taken v' r k -> In k K') in T'.
  change (forall k, In k K -> (k = k0 <-> ~ taken v r k)) in U.
  change (forall k, In k K' -> (k = k0' <-> ~ taken v' r k)) in U'.
  set (g := fun k => if (k =? k0)%Z then k0' else k).
  assert (N0 : ~ taken v r k0) by (apply U; auto).
  assert (N0' : ~ taken v r k0') by (rewrite Ts; apply U'; auto).
  assert (Kt : forall k, In k K -> k <> k0 -> taken v r k).
  { intros k Hk Hn. apply NNPP. intros H. apply Hn, U; assumption. }
  assert (Kt' : forall k, In k K' -> k <> k0' -> taken v r k).
  { intros k Hk Hn. apply NNPP. intros H. apply Hn, U'; [exact Hk|]. rewrite <- Ts. exact H. }
  assert (E : map f K = map f (map g K)).
  { rewrite map_map. apply map_ext. intros k. unfold g. destruct (Z.eqb_spec k k0) as [->|]; [|reflexivity]. auto. }
  rewrite E. apply sum_same; [| exact N'|].
  - clear - N U I0 N0' Kt. assert (H : forall l, incl l K -> NoDup l -> NoDup (map g l)).
    { induction l as [|k l IH]; intros Hi Hn; [constructor|]. inversion Hn as [|? ? H1 H2]; subst. simpl. constructor.
      - rewrite in_map_iff. intros [k1 [E1 H3]]. unfold g in E1.
        assert (Ik : In k K) by (apply Hi; left; reflexivity). assert (Ik1 : In k1 K) by (apply Hi; right; exact H3).
        destruct (Z.eqb_spec k1 k0) as [A|A]; destruct (Z.eqb_spec k k0) as [B|B].
        + apply H1. congruence.
        + apply N0'. rewrite E1. apply Kt; assumption.
        + apply N0'. rewrite <- E1. apply Kt; assumption.
        + apply H1. congruence.
      - apply IH; [|exact H2]. intros x Hx. apply Hi. right; exact Hx. }
    apply H; [intros x Hx; exact Hx|exact N].
  - intros k. rewrite in_map_iff. split.
    + intros [k1 [<- H1]]. unfold g. destruct (Z.eqb_spec k1 k0) as [->|Hn]; [exact I0'|]. apply T', Ts, Kt; assumption.
    + intros Hk. destruct (Z.eq_dec k k0') as [->|Hn].
      * exists k0. unfold g. rewrite Z.eqb_refl. auto.
      * pose proof (Kt' k Hk Hn) as Ht. exists k. unfold g. destruct (Z.eqb_spec k k0) as [->|]; [contradiction|]. auto.
Qed.

(** A choice of [v] that groups the rows as in [v'], where the other rows have the
    same labels, is the label of [r] in [v'], or both are clusters of [r] alone. *)
Lemma groups_label v v' r k z' : (forall a, a <> r -> dget a (v_rows v') = dget a (v_rows v)) ->
  dget r (v_rows v') = Some z' -> groups v r k v' -> k = z' \/ (~ taken v r k /\ ~ taken v r z').
Proof.
  intros Ho Hz' G. unfold groups in G. destruct (Z.eq_dec k z') as [->|Hn]; [left; reflexivity|right]. split.
  - intros [a [Ha E]]. specialize (G a r). rewrite Z.eqb_refl, Ho, E, Hz' in G by exact Ha.
    destruct (Z.eqb_spec a r); [contradiction|]. destruct G as [G _]. specialize (G eq_refl). congruence.
  - intros [a [Ha E]]. specialize (G a r). rewrite Z.eqb_refl, Ho, E, Hz' in G by exact Ha.
    destruct (Z.eqb_spec a r); [contradiction|]. destruct G as [_ G]. specialize (G eq_refl). congruence.
Qed.

Lemma chance_eq (sg : Z -> R) C K i k : nth_error K i = Some k ->
  chance (map (fun k => Fin (sg k - C)) K) i = exp (sg k) / Rsum (map (fun k => exp (sg k)) K).
Proof.
  intros Hi. unfold chance. rewrite nth_error_map, Hi. cbn [option_map lexp]. rewrite map_map. cbn [lexp].
  assert (E : forall l : list Z, Rsum (map (fun k => exp (sg k - C)) l) = exp (- C) * Rsum (map (fun k => exp (sg k)) l)).
  { induction l as [|y l IH]; simpl; [lra|]. rewrite IH. unfold Rminus. rewrite exp_plus. lra. }
  rewrite E. unfold Rminus. rewrite exp_plus. pose proof (exp_pos (- C)).
  destruct (Req_dec (Rsum (map (fun k => exp (sg k)) K)) 0) as [->|Hn].
  - rewrite Rmult_0_r. unfold Rdiv. rewrite Rinv_0. lra.
  - field. split; lra.
Qed.

(** Two states [v] and [v'] of a view that differ in the cluster of row [r] only.  The
    step for [r] goes from [v] to the grouping of [v'] and back with probabilities in
    proportion to the joint densities of the data and the two groupings: it keeps the
    posterior. *)
Theorem C28_detailed_balance lgam X v v' r z z' v1 v1' K K' w w' i j k k' s s' :
  gamma_rec lgam -> lgam 1 = 0 -> settled X v -> all_solid v ->
  cfg X v v' -> (forall a, a <> r -> dget a (v_rows v') = dget a (v_rows v)) ->
  dget r (v_rows v) = Some z -> dget r (v_rows v') = Some z' ->
  view_score lgam v = Ok (Fin s) -> view_score lgam v' = Ok (Fin s') ->
  row_weights X v r = (v1, Ok (K, w)) -> nth_error K i = Some k -> groups v r k v' ->
  row_weights X v' r = (v1', Ok (K', w')) -> nth_error K' j = Some k' -> groups v' r k' v ->
  exp s * chance w i = exp s' * chance w' j.
Proof.
  intros Hg Hg1 Hst Hso C' Ho Hz Hz' Hs Hs' Ew Hi Gi Ew' Hj Gj.
  pose proof (st_inv _ _ Hst) as Hv. pose proof (cfg_refl X v Hv Hso) as C0.
  destruct (seat_scores lgam X v r Hg Hg1 Hst Hso z Hz) as [sg [Hsg Hfr]].
  destruct (step_weights lgam X v r Hg Hg1 Hst Hso sg v z v1 K w Hsg C0 (fun _ _ => eq_refl) Hz Ew) as [Hc [C ->]].
  destruct (step_weights lgam X v r Hg Hg1 Hst Hso sg v' z' v1' K' w' Hsg C' Ho Hz' Ew') as [Hc' [D ->]].
  rewrite (chance_eq sg C K i k Hi), (chance_eq sg D K' j k' Hj).
  rewrite (choices_total (fun k => exp (sg k)) v v' r K K' Ho Hfr Hc Hc').
  assert (Es : exp s = exp (sg z)).
  { rewrite (score_eq X lgam v Hv Hso (st_alpha _ _ Hst)) in Hs. injection Hs as <-. f_equal. apply Hsg; [exact C0|].
    intros a. destruct (Z.eqb_spec a r) as [->|]; [exact Hz|reflexivity]. }
  assert (Es' : exp s' = exp (sg z')).
  { rewrite (score_eq X lgam v') in Hs'.
    - injection Hs' as <-. f_equal. apply Hsg; [exact C'|].
      intros a. destruct (Z.eqb_spec a r) as [->|Hn]; [exact Hz'|apply Ho; exact Hn].
    - apply C'.
    - apply (cfg_solid X v); assumption.
    - destruct C' as [_ [_ [_ [-> _]]]]. apply Hst. }
  assert (Ei : exp (sg k) = exp (sg z')).
  { destruct (groups_label v v' r k z' Ho Hz' Gi) as [->|[H1 H2]]; [reflexivity|auto]. }
  assert (Ej : exp (sg k') = exp (sg z)).
  { destruct (groups_label v' v r k' z (fun a Ha => eq_sym (Ho a Ha)) Hz Gj) as [->|[H1 H2]]; [reflexivity|].
    apply Hfr; intros Ht; [apply H1|apply H2]; apply (taken_same v v' r _ Ho); exact Ht. }
  rewrite Es, Es', Ei, Ej. unfold Rdiv. lra.
Qed.
Print Assumptions C28_detailed_balance.

(** Every such [v'] is among the choices. *)
Theorem C28_reaches X v v' r z z' v1 K w : settled X v -> all_solid v -> cfg X v v' ->
  (forall a, a <> r -> dget a (v_rows v') = dget a (v_rows v)) ->
  dget r (v_rows v) = Some z -> dget r (v_rows v') = Some z' ->
  row_weights X v r = (v1, Ok (K, w)) ->
  exists i k, nth_error K i = Some k /\ groups v r k v'.
Proof.
  intros Hst Hso C' Ho Hz Hz' Ew. pose proof (st_inv _ _ Hst) as Hv.
  assert (Hc : choices v r K).
  { eapply tables_choices; [apply Hv|exact Hz|]. eapply row_weights_ok; eassumption. }
  destruct Hc as [N [T [k0 [I0 U]]]].
  assert (G : exists k, In k K /\ (k = z' \/ (~ taken v r k /\ ~ taken v r z'))).
  { destruct (classic (taken v r z')) as [Ht|Hn]; [exists z'; split; [apply T; exact Ht|left; reflexivity]|].
    exists k0. split; [exact I0|right]. split; [apply U; auto|exact Hn]. }
  destruct G as [k [Hk Hor]]. destruct (In_nth_error K k Hk) as [i Hi]. exists i, k. split; [exact Hi|].
  assert (L : forall a, a <> r -> (Some k = dget a (v_rows v) <-> Some z' = dget a (v_rows v'))).
  { intros a Ha. rewrite (Ho a Ha). destruct Hor as [->|[H1 H2]]; [reflexivity|]. split; intros E; exfalso.
    - apply H1. exists a. auto.
    - apply H2. exists a. auto. }
  unfold groups. intros a b. destruct (Z.eqb_spec a r) as [->|Ha], (Z.eqb_spec b r) as [->|Hb].
  - tauto.
  - rewrite Hz'. apply L. exact Hb.
  - rewrite Hz'. specialize (L a Ha). split; intros E; symmetry; apply L; symmetry; exact E.
  - rewrite !Ho by assumption. reflexivity.
Qed.
Print Assumptions C28_reaches.

(* ------------------------------------------------------------------ *)
(** ** A concrete case: row 1 moves from the cluster of row 0 to the cluster of row 2. *)
Example C28_detailed_balance_ex : let v := qx_v lgam_w in
  exists v' v1 v1' K K' w w' i j k k' s s',
    settled qx_X v /\ all_solid v /\ cfg qx_X v v' /\ (forall a, a <> 1%Z -> dget a (v_rows v') = dget a (v_rows v)) /\
    dget 1%Z (v_rows v) = Some 0%Z /\ dget 1%Z (v_rows v') = Some 7%Z /\
    view_score lgam_w v = Ok (Fin s) /\ view_score lgam_w v' = Ok (Fin s') /\
    (row_weights qx_X v 1 = (v1, Ok (K, w)) /\ nth_error K i = Some k /\ groups v 1 k v') /\
    (row_weights qx_X v' 1 = (v1', Ok (K', w')) /\ nth_error K' j = Some k' /\ groups v' 1 k' v).
Proof.
  cbv zeta. pose proof (qx_settled lgam_w lgam_w_rec) as Hst. pose proof (qx_solid lgam_w lgam_w_rec) as Hso.
  pose proof (st_inv _ _ Hst) as Hv. pose proof (cfg_refl _ _ Hv Hso) as C0.
  assert (Hz : dget 1%Z (v_rows (qx_v lgam_w)) = Some 0%Z) by reflexivity.
  destruct (migrate_total qx_X _ 1%Z 0%Z 7%Z Hv Hz) as [v' Em].
  destruct (cfg_migrate _ _ _ _ _ _ C0 Em) as [C' R'].
  assert (Hr : forall a, dget a (v_rows v') = if (a =? 1)%Z then Some 7%Z else dget a (v_rows (qx_v lgam_w))).
  { intros a. rewrite R', dget_dset, dget_ddel by apply Hv. destruct (a =? 1)%Z; reflexivity. }
  assert (Hz' : dget 1%Z (v_rows v') = Some 7%Z) by (rewrite Hr; reflexivity).
  assert (Ho : forall a, a <> 1%Z -> dget a (v_rows v') = dget a (v_rows (qx_v lgam_w))).
  { intros a Ha. rewrite Hr. destruct (Z.eqb_spec a 1); [contradiction|reflexivity]. }
  pose proof (cfg_solid _ _ _ Hso C') as Hso'.
  assert (Ha' : 0 < c_alpha (v_crp v')) by (destruct C' as [_ [_ [_ [-> _]]]]; apply Hst).
  destruct (row_weights_total qx_X _ 1%Z 0%Z Hv (st_alpha _ _ Hst) Hz) as [v1 [K [w [Ew _]]]].
  { intros c a E. apply (solid_all _ c a Hso E). }
  destruct (row_weights_total qx_X v' 1%Z 7%Z (proj1 C') Ha' Hz') as [v1' [K' [w' [Ew' _]]]].
  { intros c a E. apply (solid_all _ c a Hso' E). }
  destruct (C28_reaches _ _ _ _ _ _ _ _ _ Hst Hso C' Ho Hz Hz' Ew) as [i [k [Hi Gi]]].
  assert (Hst' : settled qx_X v').
  { split; try apply C'; auto.
    - intros a b Hab. rewrite Hr in Hab. destruct (Z.eqb_spec a 1); [lia|]. exact (st_nonneg _ _ Hst a b Hab).
    - intros E. rewrite E in Hz'. discriminate.
    - rewrite (cfg_keys _ _ _ C'). destruct C' as [_ [-> _]]. apply Hst.
    - intros c a E. destruct (solid_all _ c a Hso' E) as [H1 [H2 _]]. auto. }
  assert (Cb : cfg qx_X v' (qx_v lgam_w)).
  { split; [exact Hv|]. pose proof C' as [_ [O [G [A F]]]]. do 3 (split; [congruence|]).
    clear - F Hso. unfold all_solid in Hso. revert Hso.
    induction F as [|p q l l' [E S0] _ IH]; intros Hs; [constructor|]. inversion Hs; subst. constructor; auto.
    split; [congruence|]. destruct S0 as [d' [E1 [E2 [E3 [E4 [E5 E6]]]]]]. destruct p as [c [M d]]. cbn [snd a_M a_d] in *.
    unfold asim. rewrite E1. cbn [a_M a_d]. exists d. split; [reflexivity|]. do 4 (split; [congruence|]).
    destruct H1 as [_ [_ H1]]. exact H1. }
  destruct (C28_reaches _ _ _ _ _ _ _ _ _ Hst' Hso' Cb (fun a Ha => eq_sym (Ho a Ha)) Hz' Hz Ew') as [j [k' [Hj Gj]]].
  exists v', v1, v1', K, K', w, w', i, j, k, k', (score lgam_w (qx_v lgam_w)), (score lgam_w v').
  split; [exact Hst|]. split; [exact Hso|]. split; [exact C'|]. split; [exact Ho|]. split; [exact Hz|]. split; [exact Hz'|].
  split; [apply (score_eq qx_X); [exact Hv|exact Hso|apply Hst]|].
  split; [apply (score_eq qx_X); [apply C'|exact Hso'|exact Ha']|]. auto.
Qed.

(** Steps of the same view. *)
Example C28_step_total_ex : forall draw, draw_ok draw -> exists v', transition_row qx_X draw (qx_v lgam_w) 1 = (v', Ok tt).
Proof.
  intros draw Hd. apply (C28_step_total qx_X draw _ 1%Z 0%Z Hd (qx_reach lgam_w)).
  - intros c a E. exact (proj1 (rd_cols _ _ (qx_ready lgam_w lgam_w_rec) c a E)).
  - apply (st_alpha _ _ (qx_settled lgam_w lgam_w_rec)).
  - reflexivity.
Qed.
Example C28_pass_total_ex : forall draws, (forall i, draw_ok (draws i)) ->
  exists v', transition_rows qx_X draws (qx_v lgam_w) [2; 0; 1; 2]%Z = (v', Ok tt).
Proof.
  intros draws Hd.
  destruct (C28_pass_total qx_X draws _ [2; 0; 1; 2]%Z Hd (qx_settled lgam_w lgam_w_rec) (qx_solid lgam_w lgam_w_rec)) as [v' [E _]].
  - rewrite qx_rows. intros r [<-|[<-|[<-|[<-|[]]]]]; cbn; eauto.
  - eauto.
Qed.
