(** C37: relevance queries. *)
From Verif Require Import Relevance RelevanceFacts RelevanceState StateFacts GammaWitness P12_ViewQuery P13_StateQuery.
From Coq Require Import Lia.
Local Open Scope R_scope.

(* ------------------------------------------------------------------ *)
(** ** Specification *)

(** View [w] has the columns and hyperparameters of [v] and holds the same rows of the
    table in the same clusters, except that the target [t] is in cluster [kt] and the
    query rows [Q] are in cluster [kq]. *)
Definition rearranged (X : table) (v : view) (t : Z) (Q : list Z) (kt kq : Z) (w : view) : Prop :=
  cfg X v w /\ forall r, dget r (v_rows w) =
    if (r =? t)%Z then Some kt else if zmem r Q then Some kq else dget r (v_rows v).

(** The clusters of the rows that are neither target nor query rows. *)
Definition others (v : view) (t : Z) (Q : list Z) (L : list Z) : Prop :=
  NoDup L /\ forall k, In k L <-> exists r, r <> t /\ ~ In r Q /\ dget r (v_rows v) = Some k.

(** What a query is asked about: the rows are known and none is named twice. *)
Record question (v : view) (t : Z) (Q : list Z) : Prop := {
  qu_ne : Q <> [];
  qu_nodup : NoDup Q;
  qu_target : ~ In t Q;
  qu_known : forall r, In r (t :: Q) -> exists k, dget r (v_rows v) = Some k
}.

(** Same columns, same rows in the same clusters, same contents, same hyperparameters. *)
Record same_view (X : table) (v v' : view) : Prop := {
  sm_out : v_out v' = v_out v;
  sm_grid : v_grid v' = v_grid v;
  sm_alpha : c_alpha (v_crp v') = c_alpha (v_crp v);
  sm_rows : forall r, dget r (v_rows v') = dget r (v_rows v);
  sm_counts : forall k, dget k (c_counts (v_crp v')) = dget k (c_counts (v_crp v));
  sm_cols : dkeys (v_dims v') = dkeys (v_dims v);
  sm_col : forall c a, dget c (v_dims v) = Some a -> exists a', dget c (v_dims v') = Some a' /\
    asim a a' /\ (forall r, acontent a' r = acontent a r) /\ (forall k, In k (akeys a') <-> In k (akeys a));
  sm_score : forall lgam, view_score lgam v' = view_score lgam v;
  sm_query : forall r T C, of_view v T -> of_view v C -> v_hypothetical v r = true ->
    view_logpdf v' r T C = view_logpdf v r T C
}.

Lemma others_eq v t Q L : NoDup (dkeys (v_rows v)) -> others v t Q L ->
  forall k, In k L <-> In k (other_clusters v t Q).
Proof.
  intros Hn [_ H] k. rewrite H, other_clusters_spec by exact Hn. simpl.
  split; intros [r Hr]; exists r; intuition.
Qed.

Lemma cfg_same_view X v v' : settled X v -> all_solid v -> cfg X v v' ->
  (forall r, dget r (v_rows v') = dget r (v_rows v)) -> same_view X v v'.
Proof.
  intros Hst Hso C R. pose proof (st_inv _ _ Hst) as Hv. pose proof (cfg_refl X v Hv Hso) as C0.
  pose proof C as [Hv' [O [G [A F]]]].
  assert (Rs : forall r, dget r (v_rows v) = dget r (v_rows v')) by (intros; symmetry; apply R).
  split; auto.
  - intros k. destruct Hv as [Hc _]. destruct Hv' as [Hc' _].
    pose proof (rows_perm _ _ _ (proj1 Hc) (proj1 Hc') Rs) as Pm.
    apply (Permutation_map snd) in Pm. destruct Hc as [N1 [K1 _]]. destruct Hc' as [N2 [K2 _]].
    pose proof (counts_of_perm _ _ _ Pm K1) as K1'. pose proof (counts_of_unique _ _ _ K2 K1') as Pc.
    assert (Nd : NoDup (dkeys (c_counts (v_crp v)))) by apply K1.
    assert (Nd' : NoDup (dkeys (c_counts (v_crp v')))) by apply K2.
    destruct (dget k (c_counts (v_crp v'))) as [x|] eqn:E.
    + apply dget_In in E. symmetry. apply dget_In_NoDup; [exact Nd|]. eapply Permutation_in; eassumption.
    + symmetry. apply dget_None_notin. apply dget_None_notin in E. intros H. apply E.
      unfold dkeys in *. eapply Permutation_in; [|exact H]. apply Permutation_map, Permutation_sym. exact Pc.
  - exact (cfg_keys X v v' C).
  - intros c a Ha.
    assert (H : exists a', dget c (v_dims v') = Some a' /\ asim a a').
    { assert (Nd : NoDup (dkeys (v_dims v'))) by apply Hv'. apply dget_In in Ha.
      clear - F Ha Nd. revert Ha. induction F as [|p q l l' [E S0] _ IH]; [contradiction|]. simpl in Nd.
      inversion Nd as [|? ? H1 H2]; subst. intros [->|Hin].
      - exists (snd q). destruct q as [c' b]. simpl in *. subst c'. rewrite Z.eqb_refl. auto.
      - destruct (IH H2 Hin) as [a' [E1 S1]]. exists a'. split; [|exact S1]. destruct q as [c' b]. simpl in *.
        destruct (Z.eqb_spec c c') as [->|]; [|exact E1]. destruct H1. eapply dget_Some_in; exact E1. }
    destruct H as [a' [Ha' Sa]]. exists a'. split; [exact Ha'|]. split; [exact Sa|]. split.
    + intros r. destruct Hv as [_ [_ Hd]]. destruct Hv' as [_ [_ Hd']].
      destruct (Hd c a Ha) as [_ [_ H1]]. destruct (Hd' c a' Ha') as [_ [_ H2]].
      specialize (H1 r). specialize (H2 r). rewrite R in H2.
      destruct (dget r (v_rows v)) as [k|]; [|congruence].
      destruct H1 as [e [E1 E2]]. destruct H2 as [e' [E1' E2']].
      rewrite (asim_expected X c a a' r Sa) in E1'. congruence.
    + intros k. rewrite (keys_rows X v c a k), (keys_rows X v' c a' k) by assumption.
      split; intros [r Hr]; exists r; congruence.
  - intros lgam. rewrite (score_eq X lgam v), (score_eq X lgam v'); auto.
    + do 2 f_equal. apply (score_same X lgam v v' v); auto.
    + apply (cfg_solid X v); auto.
    + rewrite A. apply Hst.
    + apply Hst.
  - intros r T K HT HK Hh. apply (alike_logpdf X v v v'); auto.
Qed.

(* ------------------------------------------------------------------ *)
(** ** The query of one view *)

Lemma rearrange X v t Q : settled X v -> all_solid v -> question v t Q ->
  exists St : Z -> Z -> view, forall kt kq, rearranged X v t Q kt kq (St kt kq).
Proof.
  intros Hst Hso Hq. pose proof (st_inv _ _ Hst) as Hv.
  exists (fun kt kq =>
      let w0 := fst (remove_rows v (t :: Q)) in
      match table_row X v t, rsequence (map (table_row X v) Q) with
      | Ok obs, Ok obss => fst (place_rows X w0 (((t, obs), kt) :: at_table (combine Q obss) kq))
      | _, _ => v
      end).
  intros kt kq. destruct Hq as [HQ HQn Ht Hheld].
  assert (Hrow : forall r, In r (t :: Q) -> exists o, table_row X v r = Ok o).
  { intros r Hr. destruct (Hheld r Hr) as [k Hk]. eapply table_row_ok; eassumption. }
  destruct (remove_ok X v (t :: Q) v (cfg_refl X v Hv Hso) (NoDup_cons _ Ht HQn) Hheld) as [w0 [-> [C0 R0]]].
  destruct (Hrow t (or_introl eq_refl)) as [obs Hobs]. rewrite Hobs.
  destruct (rsequence_forall2 (fun r o => table_row X v r = Ok o) (table_row X v) Q) as [obss [-> Fo]].
  { intros r Hr. destruct (Hrow r (or_intror Hr)) as [o Ho]. eauto. }
  destruct (Forall2_combine_in _ _ _ Fo) as [Fq Fi]. cbv zeta. cbn [fst].
  assert (Hids : map (fun x => fst (fst x)) (at_table (combine Q obss) kq) = Q).
  { unfold at_table. rewrite map_map. exact Fq. }
  destruct (place_ok X v (((t, obs), kt) :: at_table (combine Q obss) kq) Hv w0 C0) as [w [E [C R]]].
  { simpl. rewrite Hids. constructor; assumption. }
  { intros r o k Hin.
    assert (Hr : In r (t :: Q)).
    { destruct Hin as [E|Hin]; [injection E as <- <- <-; left; reflexivity|]. right. rewrite <- Hids.
      apply in_map_iff. exists (r, o, k). auto. }
    split.
    - destruct Hin as [E|Hin]; [injection E as <- <- <-; exact Hobs|].
      apply in_map_iff in Hin. destruct Hin as [[r' o'] [E Hin]]. injection E as -> -> ->. apply Fi. exact Hin.
    - split; [|apply Hheld; exact Hr]. rewrite R0. apply zmem_in in Hr. rewrite Hr. reflexivity. }
  rewrite E. cbn [fst].
  split; [exact C|]. intros r. rewrite R. unfold assigned. simpl. destruct (r =? t)%Z eqn:Er; [reflexivity|].
  assert (Ea : dget r (map (fun x => (fst (fst x), snd x)) (at_table (combine Q obss) kq)) =
               if zmem r Q then Some kq else None).
  { unfold at_table. rewrite map_map. simpl. rewrite <- Fq at 2. clear.
    induction (combine Q obss) as [|[q o] l IH]; [reflexivity|]. simpl. unfold zmem in *. simpl.
    destruct (r =? q)%Z; [reflexivity|exact IH]. }
  rewrite Ea. destruct (zmem r Q) eqn:Eq; [reflexivity|]. rewrite R0. unfold zmem in *. simpl.
  rewrite Er, Eq. reflexivity.
Qed.

(** Target and query rows can be put anywhere, and the score is then defined. *)
Theorem C37_rearranged lgam X v t Q kt kq : settled X v -> all_solid v -> question v t Q ->
  exists w s, rearranged X v t Q kt kq w /\ view_score lgam w = Ok (Fin s).
Proof.
  intros Hst Hso Hq. destruct (rearrange X v t Q Hst Hso Hq) as [St HSt].
  exists (St kt kq), (score lgam (St kt kq)). split; [apply HSt|]. destruct (HSt kt kq) as [C _].
  apply (score_eq X); [apply C|apply (cfg_solid X v); auto|].
  destruct C as [_ [_ [_ [-> _]]]]. apply Hst.
Qed.
Print Assumptions C37_rearranged.

Lemma sum_lt (f g : Z -> R) l : l <> [] -> (forall x, In x l -> f x < g x) -> Rsum (map f l) < Rsum (map g l).
Proof.
  intros Hl H. destruct l as [|x l]; [contradiction|]. clear Hl. revert x H.
  induction l as [|y l IH]; intros x H; simpl; [pose proof (H x (or_introl eq_refl)); lra|].
  specialize (IH y (fun z Hz => H z (or_intror Hz))). simpl in IH. pose proof (H x (or_introl eq_refl)). lra.
Qed.

Lemma sum_two (f : Z -> R) l k j : NoDup l -> In k l -> In j l -> k <> j -> (forall x, 0 < f x) ->
  f k < Rsum (map f l).
Proof.
  intros Hn Hk Hj Hne Hf.
  assert (P1 : forall l x, In x l -> f x <= Rsum (map f l)).
  { clear - Hf. induction l as [|y l IH]; intros x; simpl; [contradiction|].
    assert (0 <= Rsum (map f l)).
    { clear IH. induction l as [|z l IH]; simpl; [lra|]. pose proof (Hf z). lra. }
    intros [->|H']; [lra|]. specialize (IH x H'). pose proof (Hf y). lra. }
  induction l as [|y l IH]; [contradiction|]. inversion Hn as [|? ? Hy Hn']; subst. simpl.
  destruct Hk as [->|Hk].
  - destruct Hj as [->|Hj]; [contradiction|]. pose proof (P1 l j Hj). pose proof (Hf j). lra.
  - pose proof (P1 l k Hk). pose proof (Hf y). lra.
Qed.

(** Let [sg kt kq] be the score of the view with the target in cluster [kt] and the
    query rows in [kq].  The result is the probability that the target is in the
    cluster of the query rows, given that these share a cluster, and that the other
    rows are where they are: the clusters are the ones of the other rows and a new
    one, and the target may also be alone when the query rows are in the new one. *)
Theorem C37_posterior lgam kdraw xdraw X v t Q L m (sg : Z -> Z -> R) :
  gamma_rec lgam -> lgam 1 = 0 -> settled X v -> all_solid v -> question v t Q ->
  others v t Q L -> In m L -> (forall k, In k L -> (k <= m)%Z) ->
  (forall kt kq, exists w, rearranged X v t Q kt kq w /\ view_score lgam w = Ok (Fin (sg kt kq))) ->
  let K := L ++ [(m + 1)%Z] in
  let J k := if (k =? m + 1)%Z then K ++ [(m + 2)%Z] else K in
  let p := Rsum (map (fun k => exp (sg k k)) K) /
           Rsum (map (fun k => Rsum (map (fun j => exp (sg j k)) (J k))) K) in
  snd (relevance_probability lgam kdraw xdraw X v t Q) = Ok (Fin p) /\ 0 < p < 1.
Proof.
  intros Hg Hg1 Hst Hso Hq HL Hm1 Hm2 HS K J p.
  pose proof (st_inv _ _ Hst) as Hv.
  assert (Nd : NoDup (dkeys (v_rows v))) by apply Hv.
  pose proof (others_eq v t Q L Nd HL) as EL.
  destruct (rearrange X v t Q Hst Hso Hq) as [St HSt].
  assert (Hsg : forall kt kq, score lgam (St kt kq) = sg kt kq).
  { intros kt kq. destruct (HS kt kq) as [w [[Cw Rw] Ew]]. destruct (HSt kt kq) as [Cs Rs].
    rewrite (score_eq X) in Ew.
    - injection Ew as <-. apply (score_same X lgam v); auto. intros r. rewrite Rs, Rw. reflexivity.
    - apply Cw.
    - apply (cfg_solid X v); auto.
    - destruct Cw as [_ [_ [_ [-> _]]]]. apply Hst. }
  destruct Hq as [HQ HQn Ht Hheld].
  destruct (relevance_ok lgam kdraw xdraw X v t Q m St Hg Hg1 Hst Hso HQ HQn Ht Hheld) as [v' [E _]].
  { apply EL. exact Hm1. }
  { intros k Hk. apply Hm2, EL. exact Hk. }
  { exact HSt. }
  assert (NdK : NoDup K).
  { apply NoDup_snoc; [apply HL|]. intros H. apply Hm2 in H. lia. }
  assert (NdJ : forall k, NoDup (J k)).
  { intros k. unfold J. destruct (k =? m + 1)%Z; [|exact NdK]. apply NoDup_snoc; [exact NdK|].
    unfold K. rewrite in_app_iff. simpl. intros [H|[H|[]]]; [apply Hm2 in H; lia|lia]. }
  set (K0 := other_clusters v t Q ++ [(m + 1)%Z]) in *.
  assert (EK : forall k, In k K0 <-> In k K).
  { intros k. unfold K0, K. rewrite !in_app_iff, EL. reflexivity. }
  assert (NdK0 : NoDup K0).
  { apply NoDup_snoc; [apply NoDup_nodup|]. intros H. apply EL, Hm2 in H. lia. }
  assert (SK : forall f : Z -> R, Rsum (map f K0) = Rsum (map f K)) by (intros f; apply sum_same; auto).
  assert (Es : same_mass (fun kt kq => score lgam (St kt kq)) K0 = Rsum (map (fun k => exp (sg k k)) K)).
  { unfold same_mass. rewrite SK. apply Rsum_ext. intros k _. rewrite Hsg. reflexivity. }
  assert (Ea : all_mass (fun kt kq => score lgam (St kt kq)) K0
                 (fun k => K0 ++ (if (k =? m + 1)%Z then [(m + 2)%Z] else [])) =
               Rsum (map (fun k => Rsum (map (fun j => exp (sg j k)) (J k))) K)).
  { unfold all_mass. rewrite SK. apply Rsum_ext. intros k _.
    rewrite (Rsum_ext _ (fun j => exp (sg j k))) by (intros j _; rewrite Hsg; reflexivity).
    unfold J. destruct (k =? m + 1)%Z; [|rewrite app_nil_r; apply SK].
    rewrite !map_app, !Rsum_app, SK. reflexivity. }
  split.
  - rewrite E, Es, Ea. reflexivity.
  - assert (Hne : K <> []) by (unfold K; destruct L; discriminate).
    assert (P1 : 0 < Rsum (map (fun k => exp (sg k k)) K)).
    { apply Rsum_pos; [exact Hne|]. intros; apply exp_pos. }
    assert (P2 : Rsum (map (fun k => exp (sg k k)) K) <
                 Rsum (map (fun k => Rsum (map (fun j => exp (sg j k)) (J k))) K)).
    { apply sum_lt; [exact Hne|]. intros k Hk.
      assert (Ho : exists j, In j K /\ j <> k).
      { destruct (Z.eq_dec k m) as [->|Hkm].
        - exists (m + 1)%Z. unfold K. rewrite in_app_iff. simpl. split; [auto|lia].
        - exists m. unfold K. rewrite in_app_iff. auto. }
      destruct Ho as [j [Hj Hjk]].
      apply (sum_two (fun j => exp (sg j k)) (J k) k j); auto; try (intros; apply exp_pos).
      - unfold J. destruct (k =? m + 1)%Z; [apply in_app_iff; left|]; exact Hk.
      - unfold J. destruct (k =? m + 1)%Z; [apply in_app_iff; left|]; exact Hj. }
    unfold p. split.
    + apply Rdiv_lt_0_compat; lra.
    + apply (Rmult_lt_reg_r (Rsum (map (fun k => Rsum (map (fun j => exp (sg j k)) (J k))) K))); [lra|].
      unfold Rdiv. rewrite Rmult_assoc, Rinv_l by lra. lra.
Qed.
Print Assumptions C37_posterior.

(** The view afterwards. *)
Theorem C37_read_only lgam kdraw xdraw X v t Q L :
  gamma_rec lgam -> lgam 1 = 0 -> settled X v -> all_solid v -> question v t Q ->
  others v t Q L -> L <> [] ->
  same_view X v (fst (relevance_probability lgam kdraw xdraw X v t Q)).
Proof.
  intros Hg Hg1 Hst Hso Hq HL Hne.
  pose proof (st_inv _ _ Hst) as Hv.
  assert (Nd : NoDup (dkeys (v_rows v))) by apply Hv.
  pose proof (others_eq v t Q L Nd HL) as EL.
  destruct (zmax_list L) as [m|] eqn:Em; [|apply zmax_list_None in Em; contradiction].
  apply zmax_list_spec in Em. destruct Em as [Hm1 Hm2].
  destruct (rearrange X v t Q Hst Hso Hq) as [St HSt].
  destruct Hq as [HQ HQn Ht Hheld].
  destruct (relevance_ok lgam kdraw xdraw X v t Q m St Hg Hg1 Hst Hso HQ HQn Ht Hheld) as [v' [E [C R]]].
  { apply EL. exact Hm1. }
  { intros k Hk. apply Hm2, EL. exact Hk. }
  { exact HSt. }
  rewrite E. apply cfg_same_view; assumption.
Qed.
Print Assumptions C37_read_only.

(** The target is relevant to itself, and asking about no rows is an error; neither
    touches the view. *)
Theorem C37_self lgam kdraw xdraw X v t Q : In t Q ->
  relevance_probability lgam kdraw xdraw X v t Q = (v, Ok (Fin 1)).
Proof.
  intros H. unfold relevance_probability. apply zmem_in in H. rewrite H.
  destruct Q; [discriminate|reflexivity].
Qed.
Print Assumptions C37_self.

Theorem C37_no_query lgam kdraw xdraw X v t :
  relevance_probability lgam kdraw xdraw X v t [] = (v, Err ValueError).
Proof. reflexivity. Qed.
Print Assumptions C37_no_query.

(** A row that is unknown is an error, and the view is not touched either. *)
Theorem C37_unknown lgam kdraw xdraw X v t Q : Q <> [] -> ~ In t Q ->
  (exists r, In r (t :: Q) /\ dget r (v_rows v) = None) ->
  exists e, relevance_probability lgam kdraw xdraw X v t Q = (v, Err e).
Proof.
  intros HQ Ht [r [Hr Hn]]. unfold relevance_probability.
  assert (En : is_nil Q = false) by (destruct Q; [contradiction|reflexivity]).
  assert (Ei : zmem t Q = false) by (apply zmem_false; exact Ht).
  rewrite En, Ei. destruct (dget t (v_rows v)) as [z|] eqn:Ez; [|eauto].
  destruct (table_row X v t) as [obs|]; [|eauto].
  destruct (rsequence (map (table_row X v) Q)) as [obss|]; [|eauto].
  destruct (rsequence _) as [zs|] eqn:Es; [|eauto]. exfalso.
  destruct Hr as [->|Hr]; [congruence|]. apply rsequence_inv in Es.
  assert (Hin : In (Err KeyError) (map (@Ok Z) zs)).
  { rewrite Es. apply in_map_iff. exists r. rewrite Hn. auto. }
  apply in_map_iff in Hin. destruct Hin as [x [E _]]. discriminate.
Qed.
Print Assumptions C37_unknown.

(** When no other row is left, the rows are removed and stay removed. *)
Theorem C37_alone lgam kdraw xdraw X v t Q : settled X v -> all_solid v -> question v t Q ->
  others v t Q [] ->
  exists v', relevance_probability lgam kdraw xdraw X v t Q = (v', Err ValueError) /\ v_rows v' = [].
Proof.
  intros Hst Hso [HQ HQn Ht Hheld] [_ HL]. pose proof (st_inv _ _ Hst) as Hv.
  assert (Hrow : forall r, In r (t :: Q) -> exists o, table_row X v r = Ok o).
  { intros r Hr. destruct (Hheld r Hr) as [k Hk]. eapply table_row_ok; eassumption. }
  unfold relevance_probability.
  assert (En : is_nil Q = false) by (destruct Q; [contradiction|reflexivity]).
  assert (Ei : zmem t Q = false) by (apply zmem_false; exact Ht). rewrite En, Ei.
  destruct (Hheld t (or_introl eq_refl)) as [z ->]. destruct (Hrow t (or_introl eq_refl)) as [obs ->].
  destruct (rsequence_forall2 (fun r o => True) (table_row X v) Q) as [obss [-> _]].
  { intros r Hr. destruct (Hrow r (or_intror Hr)) as [o Ho]. eauto. }
  destruct (rsequence_forall2 (fun r (k : Z) => True)
    (fun r => match dget r (v_rows v) with Some k => Ok k | None => Err KeyError end) Q) as [zs [-> _]].
  { intros r Hr. destruct (Hheld r (or_intror Hr)) as [k Hk]. exists k. rewrite Hk. auto. }
  destruct (remove_ok X v (t :: Q) v (cfg_refl X v Hv Hso) (NoDup_cons _ Ht HQn) Hheld) as [w0 [-> [C0 R0]]].
  cbv zeta iota.
  assert (Er : v_rows w0 = []).
  { destruct (v_rows w0) as [|[r k] l] eqn:E; [reflexivity|exfalso].
    specialize (R0 r). cbn [dget] in R0. rewrite Z.eqb_refl in R0.
    destruct (zmem r (t :: Q)) eqn:Em; [discriminate|]. apply zmem_false in Em. simpl in Em.
    apply (HL k). exists r. split; [intros ->; apply Em; auto|]. split; [intros H; apply Em; auto|auto]. }
  destruct (dkeys (c_counts (v_crp w0))) as [|k ks] eqn:Ek.
  - exists w0. split; [reflexivity|exact Er].
  - exfalso. destruct (crp_counts_rows (v_crp w0) k (proj1 (proj1 C0))) as [r Hr].
    { rewrite Ek. left; reflexivity. }
    change (dget r (v_rows w0) = Some k) in Hr. rewrite Er in Hr. discriminate.
Qed.
Print Assumptions C37_alone.

Lemma remove_repeated X v0 Q : forall v, cfg X v0 v -> ~ NoDup Q ->
  exists v' e, remove_rows v Q = (v', Err e) /\ cfg X v0 v' /\
    (forall r, dget r (v_rows v) = None -> dget r (v_rows v') = None).
Proof.
  induction Q as [|q Q IH]; intros v C Hn; [destruct Hn; constructor|]. simpl.
  destruct (dget q (v_rows v)) as [k|] eqn:Eq.
  2:{ destruct (view_uninc_none X v q (proj1 C) Eq) as [e E]. rewrite E. exists v, e. auto. }
  destruct (cfg_uninc X v0 v q k C Eq) as [v1 [-> [C1 R1]]].
  assert (Nd : NoDup (dkeys (v_rows v))) by apply C.
  assert (Hd : forall r, dget r (v_rows v) = None -> dget r (v_rows v1) = None).
  { intros r Hr. rewrite R1, dget_ddel by exact Nd. destruct (r =? q)%Z; auto. }
  destruct (in_dec Z.eq_dec q Q) as [Hin|Hin].
  - assert (Hq : dget q (v_rows v1) = None).
    { rewrite R1, dget_ddel, Z.eqb_refl by exact Nd. reflexivity. }
    assert (G : forall Q v, cfg X v0 v -> In q Q -> dget q (v_rows v) = None ->
      exists v' e, remove_rows v Q = (v', Err e) /\ cfg X v0 v' /\
        (forall r, dget r (v_rows v) = None -> dget r (v_rows v') = None)).
    { clear. induction Q as [|q' Q IH]; intros v C Hin Hq; [contradiction|]. simpl.
      destruct (dget q' (v_rows v)) as [k|] eqn:Eq.
      2:{ destruct (view_uninc_none X v q' (proj1 C) Eq) as [e E]. rewrite E. exists v, e. auto. }
      destruct (cfg_uninc X v0 v q' k C Eq) as [v1 [-> [C1 R1]]].
      assert (Nd : NoDup (dkeys (v_rows v))) by apply C.
      assert (Hd : forall r, dget r (v_rows v) = None -> dget r (v_rows v1) = None).
      { intros r Hr. rewrite R1, dget_ddel by exact Nd. destruct (r =? q')%Z; auto. }
      destruct Hin as [->|Hin]; [congruence|].
      destruct (IH v1 C1 Hin (Hd q Hq)) as [v' [e [E [C' H']]]]. exists v', e. auto. }
    destruct (G Q v1 C1 Hin Hq) as [v' [e [E [C' H']]]]. exists v', e. auto.
  - destruct (IH v1 C1) as [v' [e [E [C' H']]]].
    { intros H. apply Hn. constructor; assumption. }
    exists v', e. auto.
Qed.

(** A query row named twice: the query fails with the target taken out of the view. *)
Theorem C37_repeated lgam kdraw xdraw X v t Q : settled X v -> all_solid v ->
  ~ In t Q -> ~ NoDup Q -> (forall r, In r (t :: Q) -> exists k, dget r (v_rows v) = Some k) ->
  exists v' e, relevance_probability lgam kdraw xdraw X v t Q = (v', Err e) /\ dget t (v_rows v') = None.
Proof.
  intros Hst Hso Ht Hn Hheld. pose proof (st_inv _ _ Hst) as Hv.
  assert (Hrow : forall r, In r (t :: Q) -> exists o, table_row X v r = Ok o).
  { intros r Hr. destruct (Hheld r Hr) as [k Hk]. eapply table_row_ok; eassumption. }
  unfold relevance_probability.
  assert (En : is_nil Q = false) by (destruct Q; [destruct Hn; constructor|reflexivity]).
  assert (Ei : zmem t Q = false) by (apply zmem_false; exact Ht). rewrite En, Ei.
  destruct (Hheld t (or_introl eq_refl)) as [z Hz]. rewrite Hz. destruct (Hrow t (or_introl eq_refl)) as [obs ->].
  destruct (rsequence_forall2 (fun r o => True) (table_row X v) Q) as [obss [-> _]].
  { intros r Hr. destruct (Hrow r (or_intror Hr)) as [o Ho]. eauto. }
  destruct (rsequence_forall2 (fun r (k : Z) => True)
    (fun r => match dget r (v_rows v) with Some k => Ok k | None => Err KeyError end) Q) as [zs [-> _]].
  { intros r Hr. destruct (Hheld r (or_intror Hr)) as [k Hk]. exists k. rewrite Hk. auto. }
  cbv zeta. simpl remove_rows.
  destruct (cfg_uninc X v v t z (cfg_refl X v Hv Hso) Hz) as [v1 [-> [C1 R1]]].
  destruct (remove_repeated X v Q v1 C1 Hn) as [v' [e [-> [C' H']]]].
  exists v', e. split; [reflexivity|]. apply H'. rewrite R1, dget_ddel, Z.eqb_refl; [reflexivity|apply Hv].
Qed.
Print Assumptions C37_repeated.

(* ------------------------------------------------------------------ *)
(** ** The query of a state *)

(** Without hypothetical rows, or when they say nothing about the columns of the
    view: the state is untouched, and the answer is 1 exactly if there are query rows
    and all are in the cluster of the target. *)
Theorem C37_state_rows n s draws t Q col hyps vid v : sinv n s ->
  dget col (s_zv s) = Some vid -> dget vid (s_views s) = Some v ->
  Forall (fun h : dict cell => forall c, In c (dkeys (v_dims v)) -> match dget c h with Some (Some _) => False | _ => True end) hyps ->
  (forall r, In r (t :: Q) -> exists k, dget r (v_rows v) = Some k) ->
  exists b, state_relevance draws s t Q col hyps = (s, Ok b) /\ (b = 0 \/ b = 1)%Z /\
    (b = 1%Z <-> Q <> [] /\ forall q, In q Q -> dget q (v_rows v) = dget t (v_rows v)).
Proof.
  intros Hi Hc Hv Hh Hheld. unfold state_relevance.
  assert (Ho : zmem col (s_outs s) = true).
  { apply zmem_in. apply (si_zv _ _ Hi). eapply dget_Some_in; exact Hc. }
  rewrite Ho, Hc, Hv, (sinv_n_rows n s Hi). cbn [negb].
  assert (Hf : filter (fun d => negb (all_missing d)) (map (view_part v) hyps) = []).
  { induction Hh as [|h hyps H _ IH]; [reflexivity|]. simpl.
    assert (E : all_missing (view_part v h) = true).
    { unfold all_missing, view_part, dvals. apply forallb_forall. intros x Hx. apply in_map_iff in Hx.
      destruct Hx as [[c y] [<- Hx]]. apply in_map_iff in Hx. destruct Hx as [c' [E Hc']]. injection E as -> <-.
      specialize (H c Hc'). simpl. destruct (dget c h) as [[x|]|]; [contradiction|reflexivity|reflexivity]. }
    rewrite E. exact IH. }
  rewrite Hf. cbn [length seq map add_hypotheticals rev drop_hypotheticals rbind].
  assert (Ek : set_views (set_X s (s_X s)) (dset vid v (s_views s)) = s).
  { rewrite (dset_same vid v (s_views s) Hv). destruct s; reflexivity. }
  rewrite app_nil_r, Ek.
  assert (Ha : exists b, all_same v t Q = Ok b /\ (b = true <-> forall q, In q Q -> dget q (v_rows v) = dget t (v_rows v))).
  { destruct (Hheld t (or_introl eq_refl)) as [z Hz].
    assert (Hheld' : forall r, In r Q -> exists k, dget r (v_rows v) = Some k) by (intros; apply Hheld; right; assumption).
    clear Hheld Ek. induction Q as [|q Q IH]; simpl.
    { exists true. split; [reflexivity|]. split; [contradiction|reflexivity]. }
    destruct (Hheld' q (or_introl eq_refl)) as [k Hk]. rewrite Hz, Hk.
    destruct IH as [b [E Hb]]; [intros; apply Hheld'; right; assumption|].
    destruct (Z.eqb_spec z k) as [->|Hne].
    - exists b. split; [exact E|]. rewrite Hb. rewrite Hz. split.
      + intros H q' [<-|Hq]; [congruence|]. apply H in Hq. exact Hq.
      + intros H q' Hq. apply H. right; exact Hq.
    - exists false. split; [reflexivity|]. split; [discriminate|]. intros H.
      specialize (H q (or_introl eq_refl)). congruence. }
  destruct Ha as [b [Ea Hb]].
  destruct Q as [|q Q']; cbn [is_nil].
  - exists 0%Z. split; [reflexivity|]. split; [auto|]. split; [discriminate|]. intros [H _]. contradiction.
  - rewrite Ea. exists (if b then 1 else 0)%Z. split; [reflexivity|]. split; [destruct b; auto|].
    destruct b.
    + split; [|reflexivity]. intros _. split; [discriminate|]. apply Hb. reflexivity.
    + split; [discriminate|]. intros [_ H]. apply Hb in H. discriminate.
Qed.
Print Assumptions C37_state_rows.

(** The hypothetical rows that have a value in some column of the view. *)
Definition says_something (v : view) (h : dict cell) : bool :=
  existsb (fun c => match dget c h with Some (Some _) => true | _ => false end) (dkeys (v_dims v)).

Lemma says_rows v hyps :
  length (filter (fun d => negb (all_missing d)) (map (view_part v) hyps)) = length (filter (says_something v) hyps).
Proof.
  induction hyps as [|h hyps IH]; [reflexivity|]. simpl.
  assert (E : negb (all_missing (view_part v h)) = says_something v h).
  { unfold all_missing, view_part, says_something, dvals. rewrite map_map. cbn [snd].
    clear IH. induction (dkeys (v_dims v)) as [|c l IH]; [reflexivity|]. simpl. rewrite negb_andb, IH.
    destruct (dget c h) as [[x|]|]; reflexivity. }
  rewrite E. destruct (says_something v h); simpl; congruence.
Qed.

Lemma all_same_spec v t l b : all_same v t l = Ok b ->
  (b = true <-> forall q, In q l -> dget q (v_rows v) = dget t (v_rows v) /\ dget t (v_rows v) <> None).
Proof.
  revert b. induction l as [|r l IH]; intros b; simpl.
  { intros E. injection E as <-. split; [contradiction|reflexivity]. }
  destruct (dget t (v_rows v)) as [k|] eqn:Et; [|discriminate].
  destruct (dget r (v_rows v)) as [k'|] eqn:Ek; [|discriminate].
  destruct (Z.eqb_spec k k') as [->|Hne].
  - intros E. rewrite (IH b E). split.
    + intros H q [<-|Hq]; [split; [exact Ek|discriminate]|]. apply H. exact Hq.
    + intros H q Hq. apply H. right; exact Hq.
  - intros E. injection E as <-. split; [discriminate|]. intros H. exfalso.
    destruct (H r (or_introl eq_refl)) as [H1 _]. congruence.
Qed.

(** With hypothetical rows, whose clusters are drawn: if a value is returned, the table
    is exactly what it was, all other views are untouched, and the view of the column
    answers as before.  The value tells whether all query rows and hypothetical rows
    were in the cluster of the target. *)
Theorem C37_state_read_only n s draws t Q col hyps vid v s' b : sinv n s ->
  dget col (s_zv s) = Some vid -> dget vid (s_views s) = Some v ->
  settled (tab (s_X s)) v -> all_solid v ->
  state_relevance draws s t Q col hyps = (s', Ok b) ->
  (exists v', s' = set_views s (dset vid v' (s_views s)) /\ same_view (tab (s_X s)) v v') /\
  let m := length (filter (says_something v) hyps) in
  exists z : Z -> option Z,
    (forall r, (r < Z.of_nat n)%Z -> z r = dget r (v_rows v)) /\
    (forall r, (Z.of_nat n <= r)%Z -> z r <> None <-> (r < Z.of_nat n + Z.of_nat m)%Z) /\
    (b = 0 \/ b = 1)%Z /\
    (b = 1%Z <-> (Q <> [] \/ m <> 0%nat) /\
       forall q, In q Q \/ (Z.of_nat n <= q < Z.of_nat n + Z.of_nat m)%Z -> z q = z t /\ z t <> None).
Proof.
  intros Hi Hc Hv Hst Hso. unfold state_relevance. rewrite <- says_rows.
  assert (Ho : zmem col (s_outs s) = true).
  { apply zmem_in. apply (si_zv _ _ Hi). eapply dget_Some_in; exact Hc. }
  rewrite Ho, Hc, Hv, (sinv_n_rows n s Hi). cbn [negb].
  set (rows := filter _ _).
  assert (Hrows : forall row, In row rows -> dkeys row = dkeys (v_dims v)).
  { intros row Hr. apply filter_In in Hr. destruct Hr as [Hr _]. apply in_map_iff in Hr.
    destruct Hr as [h [<- _]]. unfold view_part, dkeys. rewrite map_map. simpl. apply map_id. }
  destruct (add_hypotheticals draws (s_X s) v (Z.of_nat n) rows) as [[X1 v1] [[]|e]] eqn:Ea; [|discriminate].
  destruct (si_view _ _ Hi vid v Hv) as [Hvi [_ [Hcols Hheld]]].
  pose proof (cfg_refl _ v Hvi Hso) as C0.
  destruct (add_ok draws v rows Hso (s_X s) v (Z.of_nat n) C0 (si_XN _ _ Hi)) with (X' := X1) (v' := v1)
    as [C1 [R1 [R2 D1]]]; auto.
  { intros c Hin. apply Hcols in Hin.
    assert (Hx : In c (dkeys (s_X s))).
    { apply (si_X _ _ Hi), (si_zv _ _ Hi). eapply dget_Some_in; exact Hin. }
    apply in_dkeys_Some in Hx. destruct Hx as [l Hl]. exists l. split; [exact Hl|].
    rewrite (si_len _ _ Hi c l Hl). reflexivity. }
  { lia. }
  { intros r Hr. apply Hheld. exact Hr. }
  set (ids := map (fun i => (Z.of_nat n + Z.of_nat i)%Z) (seq 0 (length rows))) in *.
  assert (Hids : forall q, In q ids <-> (Z.of_nat n <= q < Z.of_nat n + Z.of_nat (length rows))%Z).
  { intros q. unfold ids. rewrite in_map_iff. split.
    - intros [i [<- Hin]]. apply in_seq in Hin. lia.
    - intros H. exists (Z.to_nat (q - Z.of_nat n)). rewrite in_seq. split; lia. }
  destruct (D1 v1 C1 (fun _ => eq_refl)) as [w' [Ed [Cw Rw]]].
  destruct (if is_nil (Q ++ ids) then Ok false else all_same v1 t (Q ++ ids)) as [rel|e] eqn:Er; [|discriminate].
  rewrite Ed. cbn [rbind]. intros E. injection E as <- <-. split.
  { exists w'. split; [destruct s; reflexivity|]. apply cfg_same_view; auto. }
  cbv zeta. exists (fun r => dget r (v_rows v1)). split; [exact R1|]. split; [|split; [destruct rel; auto|]].
  - intros r Hr.
    assert (Hk : dget r (v_rows v1) <> None <-> In r (dkeys (v_rows v1))).
    { split.
      - intros H. destruct (dget r (v_rows v1)) eqn:E; [|congruence]. eapply dget_Some_in; exact E.
      - intros H E. apply dget_None_notin in E. contradiction. }
    rewrite Hk, R2, Hids. split.
    + intros [H|H]; [lia|]. apply Hheld in H. lia.
    + intros H. left. lia.
  - assert (Hnil : Q ++ ids <> [] <-> Q <> [] \/ length rows <> 0%nat).
    { destruct Q as [|q Q'].
      - simpl. unfold ids. destruct (length rows); simpl; split; try congruence; auto. intros [H|H]; congruence.
      - simpl. split; [intros _; left; discriminate|discriminate]. }
    destruct (is_nil (Q ++ ids)) eqn:En.
    + injection Er as <-. split; [discriminate|]. intros [H _]. apply Hnil in H.
      destruct (Q ++ ids); [contradiction|discriminate].
    + assert (Hne : Q ++ ids <> []) by (destruct (Q ++ ids); [discriminate|discriminate]).
      pose proof (all_same_spec _ _ _ _ Er) as Hs.
      assert (Hb : (if rel then 1 else 0)%Z = 1%Z <-> rel = true) by (destruct rel; split; congruence).
      rewrite Hb, Hs. split.
      * intros H. split; [apply Hnil; exact Hne|]. intros q Hq. apply H. apply in_app_iff.
        rewrite Hids. exact Hq.
      * intros [_ H] q Hq. apply H. apply in_app_iff in Hq. rewrite Hids in Hq. exact Hq.
Qed.
Print Assumptions C37_state_read_only.

(** It does return a value when all rows are known and the columns accept the
    hypothetical values. *)
Theorem C37_state_answers n s draws t Q col hyps vid v : sinv n s ->
  dget col (s_zv s) = Some vid -> dget vid (s_views s) = Some v ->
  settled (tab (s_X s)) v -> all_solid v -> (forall r i, draw_ok (draws r i)) ->
  (forall r, In r (t :: Q) -> exists k, dget r (v_rows v) = Some k) ->
  (forall (h : dict cell) c a x, In h hyps -> dget c (v_dims v) = Some a -> dget c h = Some (Some x) ->
     m_sup (a_M a) x) ->
  exists s' b, state_relevance draws s t Q col hyps = (s', Ok b).
Proof.
  intros Hi Hc Hv Hst Hso Hd Hkn Hacc. unfold state_relevance.
  assert (Ho : zmem col (s_outs s) = true).
  { apply zmem_in. apply (si_zv _ _ Hi). eapply dget_Some_in; exact Hc. }
  rewrite Ho, Hc, Hv, (sinv_n_rows n s Hi). cbn [negb].
  set (rows := filter _ _).
  destruct (si_view _ _ Hi vid v Hv) as [Hvi [_ [Hcols Hheld]]].
  assert (Hrows : forall row, In row rows -> dkeys row = dkeys (v_dims v) /\
    forall c a x, dget c (v_dims v) = Some a -> dget c row = Some x -> accepted a x).
  { intros row Hr. apply filter_In in Hr. destruct Hr as [Hr _]. apply in_map_iff in Hr.
    destruct Hr as [h [<- Hh]]. split; [unfold view_part, dkeys; rewrite map_map; simpl; apply map_id|].
    intros c a x Ha Hx. apply dget_In in Hx. unfold view_part in Hx. apply in_map_iff in Hx.
    destruct Hx as [c' [E _]]. injection E as -> <-.
    destruct (dget c h) as [[y|]|] eqn:Ey; cbn [accepted]; auto. eapply Hacc; eassumption. }
  pose proof (cfg_refl _ v Hvi Hso) as C0.
  assert (Hlen : forall c, In c (dkeys (v_dims v)) -> exists l, dget c (s_X s) = Some l /\ Z.of_nat (length l) = Z.of_nat n).
  { intros c Hin. apply Hcols in Hin.
    assert (Hx : In c (dkeys (s_X s))).
    { apply (si_X _ _ Hi), (si_zv _ _ Hi). eapply dget_Some_in; exact Hin. }
    apply in_dkeys_Some in Hx. destruct Hx as [l Hl]. exists l. split; [exact Hl|].
    rewrite (si_len _ _ Hi c l Hl). reflexivity. }
  assert (Hin0 : forall r, In r (dkeys (v_rows v)) -> (0 <= r < Z.of_nat n)%Z) by (intros r Hr; apply Hheld; exact Hr).
  destruct (add_total draws v rows Hd Hso (st_alpha _ _ Hst) (s_X s) v (Z.of_nat n) C0 (si_XN _ _ Hi) Hlen
    (Zle_0_nat n) Hin0 Hrows) as [X1 [v1 Ea]]. rewrite Ea.
  destruct (add_ok draws v rows Hso (s_X s) v (Z.of_nat n) C0 (si_XN _ _ Hi) Hlen (Zle_0_nat n) Hin0
    (fun row Hr => proj1 (Hrows row Hr)) X1 v1 Ea) as [C1 [R1 [R2 D1]]].
  set (ids := map (fun i => (Z.of_nat n + Z.of_nat i)%Z) (seq 0 (length rows))) in *.
  destruct (D1 v1 C1 (fun _ => eq_refl)) as [w' [Ed _]].
  assert (Ht : forall r, In r (t :: Q ++ ids) -> exists k, dget r (v_rows v1) = Some k).
  { intros r Hr. apply in_dkeys_Some, R2. rewrite app_comm_cons in Hr. apply in_app_iff in Hr.
    destruct Hr as [Hr|Hr]; [right|left; exact Hr]. destruct (Hkn r Hr) as [k Hk]. eapply dget_Some_in; exact Hk. }
  assert (Hs : exists b, (if is_nil (Q ++ ids) then Ok false else all_same v1 t (Q ++ ids)) = Ok b).
  { destruct (is_nil (Q ++ ids)); [eauto|]. destruct (Ht t (or_introl eq_refl)) as [kt Ekt].
    assert (Hq : forall r, In r (Q ++ ids) -> exists k, dget r (v_rows v1) = Some k) by (intros r Hr; apply Ht; right; exact Hr).
    clear - Hq Ekt. induction (Q ++ ids) as [|r l IH]; [exists true; reflexivity|]. cbn [all_same]. rewrite Ekt.
    destruct (Hq r (or_introl eq_refl)) as [k ->]. destruct (kt =? k)%Z; [|eauto]. apply IH.
    intros r' Hr'. apply Hq. right; exact Hr'. }
  destruct Hs as [b ->]. rewrite Ed. cbn [rbind]. eauto.
Qed.
Print Assumptions C37_state_answers.

(** A target that is unknown is noticed only after the hypothetical rows have been
    inserted, and then they stay. *)
Theorem C37_state_unknown n s draws t Q col hyps vid v : sinv n s ->
  dget col (s_zv s) = Some vid -> dget vid (s_views s) = Some v ->
  settled (tab (s_X s)) v -> all_solid v -> (forall r i, draw_ok (draws r i)) ->
  (forall (h : dict cell) c a x, In h hyps -> dget c (v_dims v) = Some a -> dget c h = Some (Some x) ->
     m_sup (a_M a) x) ->
  (exists h, In h hyps /\ says_something v h = true) -> (t < 0)%Z ->
  exists s' v', state_relevance draws s t Q col hyps = (s', Err KeyError) /\
    dget vid (s_views s') = Some v' /\ In (Z.of_nat n) (dkeys (v_rows v')) /\
    ~ In (Z.of_nat n) (dkeys (v_rows v)).
Proof.
  intros Hi Hc Hv Hst Hso Hd Hacc Hsay Ht. unfold state_relevance.
  assert (Ho : zmem col (s_outs s) = true).
  { apply zmem_in. apply (si_zv _ _ Hi). eapply dget_Some_in; exact Hc. }
  rewrite Ho, Hc, Hv, (sinv_n_rows n s Hi). cbn [negb].
  pose proof (says_rows v hyps) as Hlr. set (rows := filter _ _) in *.
  destruct (si_view _ _ Hi vid v Hv) as [Hvi [_ [Hcols Hheld]]].
  assert (Hrows : forall row, In row rows -> dkeys row = dkeys (v_dims v) /\
    forall c a x, dget c (v_dims v) = Some a -> dget c row = Some x -> accepted a x).
  { intros row Hr. apply filter_In in Hr. destruct Hr as [Hr _]. apply in_map_iff in Hr.
    destruct Hr as [h [<- Hh]]. split; [unfold view_part, dkeys; rewrite map_map; simpl; apply map_id|].
    intros c a x Ha Hx. apply dget_In in Hx. unfold view_part in Hx. apply in_map_iff in Hx.
    destruct Hx as [c' [E _]]. injection E as -> <-.
    destruct (dget c h) as [[y|]|] eqn:Ey; cbn [accepted]; auto. eapply Hacc; eassumption. }
  pose proof (cfg_refl _ v Hvi Hso) as C0.
  assert (Hlen : forall c, In c (dkeys (v_dims v)) -> exists l, dget c (s_X s) = Some l /\ Z.of_nat (length l) = Z.of_nat n).
  { intros c Hin. apply Hcols in Hin.
    assert (Hx : In c (dkeys (s_X s))).
    { apply (si_X _ _ Hi), (si_zv _ _ Hi). eapply dget_Some_in; exact Hin. }
    apply in_dkeys_Some in Hx. destruct Hx as [l Hl]. exists l. split; [exact Hl|].
    rewrite (si_len _ _ Hi c l Hl). reflexivity. }
  assert (Hin0 : forall r, In r (dkeys (v_rows v)) -> (0 <= r < Z.of_nat n)%Z) by (intros r Hr; apply Hheld; exact Hr).
  destruct (add_total draws v rows Hd Hso (st_alpha _ _ Hst) (s_X s) v (Z.of_nat n) C0 (si_XN _ _ Hi) Hlen
    (Zle_0_nat n) Hin0 Hrows) as [X1 [v1 Ea]]. rewrite Ea.
  destruct (add_ok draws v rows Hso (s_X s) v (Z.of_nat n) C0 (si_XN _ _ Hi) Hlen (Zle_0_nat n) Hin0
    (fun row Hr => proj1 (Hrows row Hr)) X1 v1 Ea) as [_ [_ [R2 _]]].
  set (ids := map (fun i => (Z.of_nat n + Z.of_nat i)%Z) (seq 0 (length rows))) in *.
  assert (Hids : In (Z.of_nat n) ids).
  { unfold ids. apply in_map_iff. exists 0%nat. split; [lia|]. apply in_seq. rewrite Hlr.
    destruct Hsay as [h [H1 H2]].
    assert (H3 : In h (filter (says_something v) hyps)) by (apply filter_In; auto).
    destruct (filter (says_something v) hyps); [contradiction|simpl; lia]. }
  assert (Et : dget t (v_rows v1) = None).
  { apply dget_None_notin. intros H. apply R2 in H. destruct H as [H|H]; [|apply Hin0 in H; lia].
    unfold ids in H. apply in_map_iff in H. destruct H as [i [<- _]]. lia. }
  assert (Hne : exists q l, Q ++ ids = q :: l).
  { destruct Q as [|q Q']; [|simpl; eauto]. simpl. destruct ids; [contradiction|eauto]. }
  destruct Hne as [q [l ->]]. cbn [is_nil all_same]. rewrite Et.
  eexists _, v1. split; [reflexivity|]. unfold set_views, set_X. cbn [s_views]. rewrite dget_dset_same.
  split; [reflexivity|]. split; [apply R2; left; exact Hids|]. intros H. apply Hin0 in H. lia.
Qed.
Print Assumptions C37_state_unknown.

(* ------------------------------------------------------------------ *)
(** ** Concrete cases *)

Section Case.
  Context (lgam : R -> R) (Hg : gamma_rec lgam) (Hg1 : lgam 1 = 0).

  Lemma qx_solid : all_solid (qx_v lgam).
  Proof.
    pose proof (qx_ready lgam Hg) as H. unfold all_solid.
    constructor; [|constructor; [|constructor]]; cbn [snd].
    - split; [exact (proj1 (rd_cols _ _ H 0%Z _ eq_refl))|]. split; [reflexivity|]. split; [reflexivity|].
      intros k c Hk. apply dget_In in Hk. destruct Hk as [E|[E|[]]]; injection E as <- <-; reflexivity.
    - split; [exact (proj1 (rd_cols _ _ H 1%Z _ eq_refl))|]. split; [reflexivity|]. split; [reflexivity|].
      intros k c Hk. apply dget_In in Hk. destruct Hk as [E|[E|[]]]; injection E as <- <-; reflexivity.
  Qed.
  Lemma qx_settled : settled qx_X (qx_v lgam).
  Proof. exact (ready_settled _ _ (qx_ready lgam Hg)). Qed.

  (** Is row 1 relevant to row 0, in the view where row 2 is alone in cluster 7? *)
  Lemma qx_question : question (qx_v lgam) 1 [0]%Z.
  Proof.
    split; try discriminate.
    - repeat constructor; intros [].
    - cbn. lia.
    - rewrite qx_rows. intros r [<-|[<-|[]]]; cbn; eauto.
  Qed.
  Lemma qx_others : others (qx_v lgam) 1 [0]%Z [7]%Z.
  Proof.
    split; [repeat constructor; intros []|]. rewrite qx_rows. intros k. split.
    - intros [<-|[]]. exists 2%Z. cbn. split; [lia|]. split; [lia|reflexivity].
    - intros [r [H1 [H2 H3]]]. cbn [dget] in H3. cbn [In] in H2. destruct (Z.eqb_spec r 0); [lia|].
      destruct (Z.eqb_spec r 1); [lia|]. destruct (r =? 2)%Z; [|discriminate]. injection H3 as <-. left; reflexivity.
  Qed.

  Example C37_posterior_ex : exists sg,
    (forall kt kq, exists w, rearranged qx_X (qx_v lgam) 1 [0]%Z kt kq w /\ view_score lgam w = Ok (Fin (sg kt kq))).
  Proof.
    destruct (rearrange qx_X (qx_v lgam) 1 [0]%Z qx_settled qx_solid qx_question) as [St HSt].
    exists (fun kt kq => score lgam (St kt kq)). intros kt kq. exists (St kt kq). split; [apply HSt|].
    destruct (HSt kt kq) as [C _]. apply score_eq with (X := qx_X).
    - apply C.
    - apply (cfg_solid qx_X (qx_v lgam)); [exact qx_solid|exact C].
    - destruct C as [_ [_ [_ [-> _]]]]. apply qx_settled.
  Qed.
  Example C37_read_only_ex kdraw xdraw :
    same_view qx_X (qx_v lgam) (fst (relevance_probability lgam kdraw xdraw qx_X (qx_v lgam) 1 [0]%Z)).
  Proof.
    exact (C37_read_only lgam kdraw xdraw qx_X _ _ _ _ Hg Hg1 qx_settled qx_solid qx_question qx_others ltac:(discriminate)).
  Qed.
  Example C37_value_ex kdraw xdraw : exists p, 0 < p < 1 /\
    snd (relevance_probability lgam kdraw xdraw qx_X (qx_v lgam) 1 [0]%Z) = Ok (Fin p).
  Proof.
    destruct C37_posterior_ex as [sg Hsg].
    destruct (C37_posterior lgam kdraw xdraw qx_X _ _ _ _ 7%Z sg Hg Hg1 qx_settled qx_solid qx_question qx_others) as [E H].
    - left; reflexivity.
    - intros k [<-|[]]. lia.
    - exact Hsg.
    - eexists. split; [exact H|exact E].
  Qed.
  (** Rows that are not there. *)
  Example C37_unknown_ex : ~ In 0%Z [1; 5]%Z /\ dget 5%Z (v_rows (qx_v lgam)) = None.
  Proof. split; [cbn; lia|reflexivity]. Qed.

  Lemma qx_question_all : question (qx_v lgam) 0 [1; 2]%Z /\ others (qx_v lgam) 0 [1; 2]%Z [].
  Proof.
    split; [split; try discriminate|split; [constructor|]].
    - repeat constructor; cbn; lia.
    - cbn. lia.
    - rewrite qx_rows. intros r [<-|[<-|[<-|[]]]]; cbn; eauto.
    - rewrite qx_rows. intros k. split; [intros []|]. intros [r [H1 [H2 H3]]]. cbn [In] in H2. cbn [dget] in H3.
      destruct (Z.eqb_spec r 0); [lia|]. destruct (Z.eqb_spec r 1); [lia|]. destruct (Z.eqb_spec r 2); [lia|discriminate].
  Qed.

  (** A state: is row 0 relevant to a hypothetical row with the value 4? *)
  Example C37_state_ex draws : (forall r i, draw_ok (draws r i)) ->
    exists s' b, state_relevance draws (sx lgam) 0 [1]%Z 0 [[(0%Z, Some 4)]] = (s', Ok b).
  Proof.
    intros Hd. apply (C37_state_answers 3 (sx lgam) draws 0%Z [1]%Z 0%Z _ 0%Z (qx_v lgam)).
    - exact (sx_inv lgam).
    - reflexivity.
    - reflexivity.
    - exact qx_settled.
    - exact qx_solid.
    - exact Hd.
    - rewrite qx_rows. intros r [<-|[<-|[]]]; cbn; eauto.
    - intros h c a x [<-|[]] Ha Hx. cbn [dget] in Hx. destruct (Z.eqb_spec c 0) as [->|]; [|discriminate].
      injection Hx as <-. cbn in Ha. injection Ha as <-.
      exists (NHyp 0 1 1 1), tt. eexists. reflexivity.
  Qed.
  Example C37_state_rows_ex draws :
    state_relevance draws (sx lgam) 0 [1]%Z 0 [] = (sx lgam, Ok 1%Z) /\
    state_relevance draws (sx lgam) 0 [2]%Z 0 [] = (sx lgam, Ok 0%Z).
  Proof. split; reflexivity. Qed.
End Case.

(** The property as stated asks for every list of query rows and every target.  It
    fails when the rows asked about are all there are, when a query row is named twice,
    and in a state when the target is unknown. *)
Theorem C37_alone_refuted : exists lgam X v t Q, gamma_rec lgam /\ lgam 1 = 0 /\ settled X v /\ all_solid v /\
  question v t Q /\ v_rows v <> [] /\
  forall kdraw xdraw, exists v', relevance_probability lgam kdraw xdraw X v t Q = (v', Err ValueError) /\ v_rows v' = [].
Proof.
  exists lgam_w, qx_X, (qx_v lgam_w), 0%Z, [1; 2]%Z.
  split; [exact lgam_w_rec|]. split; [exact lgam_w_1|]. split; [exact (qx_settled _ lgam_w_rec)|].
  split; [exact (qx_solid _ lgam_w_rec)|]. destruct (qx_question_all lgam_w) as [Hq Ho]. split; [exact Hq|].
  split; [discriminate|]. intros kdraw xdraw.
  exact (C37_alone lgam_w kdraw xdraw qx_X _ _ _ (qx_settled _ lgam_w_rec) (qx_solid _ lgam_w_rec) Hq Ho).
Qed.
Print Assumptions C37_alone_refuted.

Theorem C37_repeated_refuted : exists lgam X v t Q, gamma_rec lgam /\ lgam 1 = 0 /\ settled X v /\ all_solid v /\
  Q <> [] /\ ~ In t Q /\ (forall r, In r (t :: Q) -> exists k, dget r (v_rows v) = Some k) /\
  forall kdraw xdraw, exists v' e, relevance_probability lgam kdraw xdraw X v t Q = (v', Err e) /\ dget t (v_rows v') = None.
Proof.
  exists lgam_w, qx_X, (qx_v lgam_w), 0%Z, [1; 1]%Z.
  split; [exact lgam_w_rec|]. split; [exact lgam_w_1|]. split; [exact (qx_settled _ lgam_w_rec)|].
  split; [exact (qx_solid _ lgam_w_rec)|]. split; [discriminate|].
  assert (Ht : ~ In 0%Z [1; 1]%Z) by (cbn; lia). split; [exact Ht|].
  assert (Hk : forall r, In r [0; 1; 1]%Z -> exists k, dget r (v_rows (qx_v lgam_w)) = Some k).
  { rewrite qx_rows. intros r [<-|[<-|[<-|[]]]]; cbn; eauto. }
  split; [exact Hk|]. intros kdraw xdraw.
  apply (C37_repeated lgam_w kdraw xdraw qx_X _ _ _ (qx_settled _ lgam_w_rec) (qx_solid _ lgam_w_rec)); auto.
  intros H. inversion H as [|? ? H1 _]. apply H1. left; reflexivity.
Qed.
Print Assumptions C37_repeated_refuted.

Theorem C37_state_unknown_refuted : exists s vid v t col hyps, sinv 3 s /\ dget vid (s_views s) = Some v /\
  forall draws, (forall r i, draw_ok (draws r i)) ->
  exists s' v', state_relevance draws s t [] col hyps = (s', Err KeyError) /\
    dget vid (s_views s') = Some v' /\ In 3%Z (dkeys (v_rows v')) /\ ~ In 3%Z (dkeys (v_rows v)).
Proof.
  exists (sx lgam_w), 0%Z, (qx_v lgam_w), (-1)%Z, 0%Z, [[(0%Z, Some 4)]].
  split; [exact (sx_inv lgam_w)|]. split; [reflexivity|]. intros draws Hd.
  apply (C37_state_unknown 3 (sx lgam_w) draws (-1)%Z [] 0%Z [[(0%Z, Some 4)]] 0%Z (qx_v lgam_w)).
  - exact (sx_inv lgam_w).
  - reflexivity.
  - reflexivity.
  - exact (qx_settled _ lgam_w_rec).
  - exact (qx_solid _ lgam_w_rec).
  - exact Hd.
  - intros h c a x [<-|[]] Ha Hx. cbn [dget] in Hx. destruct (Z.eqb_spec c 0) as [->|]; [|discriminate].
    injection Hx as <-. cbn in Ha. injection Ha as <-. exists (NHyp 0 1 1 1), tt. eexists. reflexivity.
  - exists [(0%Z, Some 4)]. split; [left; reflexivity|reflexivity].
  - lia.
Qed.
Print Assumptions C37_state_unknown_refuted.
