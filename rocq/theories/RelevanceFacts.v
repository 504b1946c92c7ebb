(** Facts about views whose rows are removed and inserted again. *)
From Verif Require Export Relevance RowGibbs QueryFacts QueryNet P06_Dim P12_ViewQuery Prob.
Local Open Scope R_scope.

(** Column [b] has the class, inputs, grids and hyperparameters of column [a], and
    every component of [b] uses these hyperparameters. *)
Definition asim (a b : adim) : Prop :=
  exists d', b = ADim (a_M a) d' /\ d_ins d' = d_ins (a_d a) /\ d_hyp d' = d_hyp (a_d a) /\
    d_grids d' = d_grids (a_d a) /\ d_set d' = d_set (a_d a) /\ agree d'.

(** View [v] holds rows of the table, in columns like those of [v0]. *)
Definition cfg (X : table) (v0 v : view) : Prop :=
  vinv X v /\ v_out v = v_out v0 /\ v_grid v = v_grid v0 /\
  c_alpha (v_crp v) = c_alpha (v_crp v0) /\
  Forall2 (fun p q => fst p = fst q /\ asim (snd p) (snd q)) (v_dims v0) (v_dims v).

Lemma dim_inc_kept M d r k x ins d' res : dim_incorporate M d r k x ins = (d', res) ->
  d_ins d' = d_ins d /\ d_grids d' = d_grids d /\ d_set d' = d_set d.
Proof.
  unfold dim_incorporate.
  destruct (dmem r (d_zr d) || dmem r (d_zi d)); [intros E; injection E as <- _; auto|].
  destruct k as [k|]; [|intros E; injection E as <- _; auto].
  assert (O : d_ins (open_cluster M d k) = d_ins d /\ d_grids (open_cluster M d k) = d_grids d /\
    d_set (open_cluster M d k) = d_set d).
  { unfold open_cluster. destruct (dmem k (d_clusters d)); auto. }
  destruct (valid_cell x ins) as [[v l]|].
  - destruct (dget k (d_clusters (open_cluster M d k))); [|intros E; injection E as <- _; exact O].
    destruct (m_inc M m r v l) as [c' [u|e]]; intros E; injection E as <- _; exact O.
  - intros E; injection E as <- _; exact O.
Qed.

Lemma dim_uninc_kept M d r d' res : dim_unincorporate M d r = (d', res) ->
  d_ins d' = d_ins d /\ d_grids d' = d_grids d /\ d_set d' = d_set d.
Proof.
  unfold dim_unincorporate.
  destruct (dmem r (d_zi d)); [intros E; injection E as <- _; auto|].
  destruct (dget r (d_zr d)) as [k|]; [|intros E; injection E as <- _; auto].
  destruct (dget k (d_clusters d)); [|intros E; injection E as <- _; auto].
  destruct (m_uninc M m r) as [c' [u|e]]; intros E; injection E as <- _; auto.
Qed.

Lemma asim_inc a0 a r k x ins a' : ainv a -> asim a0 a ->
  a_incorporate a r k x ins = (a', Ok tt) -> asim a0 a'.
Proof.
  intros [HL Hi] [d [-> [A1 [A2 [A3 [A4 A5]]]]]]. simpl in *. unfold a_incorporate. simpl.
  destruct (dim_incorporate (a_M a0) d r (Some k) x ins) as [d' res] eqn:E. intros E'. injection E' as <- _.
  destruct (agree_inc _ _ _ _ _ _ _ _ HL Hi A5 E) as [B1 B2].
  destruct (dim_inc_kept _ _ _ _ _ _ _ _ E) as [C1 [C2 C3]].
  exists d'. repeat split; try congruence; apply B1.
Qed.

Lemma asim_uninc a0 a r a' : ainv a -> asim a0 a -> a_unincorporate a r = (a', Ok tt) -> asim a0 a'.
Proof.
  intros [HL Hi] [d [-> [A1 [A2 [A3 [A4 A5]]]]]]. simpl in *. unfold a_unincorporate. simpl.
  destruct (dim_unincorporate (a_M a0) d r) as [d' res] eqn:E. intros E'. injection E' as <- _.
  destruct (agree_uninc _ _ _ _ _ HL Hi A5 E) as [B1 B2].
  destruct (dim_uninc_kept _ _ _ _ _ E) as [C1 [C2 C3]].
  exists d'. repeat split; try congruence; apply B1.
Qed.

Lemma asim_drop a0 a k : ainv a -> asim a0 a -> asim a0 (a_drop k a).
Proof.
  intros [HL Hi] [d [-> [A1 [A2 [A3 [A4 A5]]]]]]. unfold a_drop. simpl in *.
  eexists. split; [reflexivity|]. do 4 (split; [assumption|]). destruct A5 as [A5 A6].
  split; [exact A5|]. simpl. intros k' c. rewrite dget_ddel by apply (di_nc _ _ _ Hi).
  destruct (k' =? k)%Z; [discriminate|]. apply A6.
Qed.

Lemma asim_akin a0 a : asim a0 a -> akin a0 a.
Proof. intros [d [-> [A1 _]]]. exists d. auto. Qed.

Lemma cfg_keys X v0 v : cfg X v0 v -> dkeys (v_dims v) = dkeys (v_dims v0).
Proof.
  intros [_ [_ [_ [_ F]]]]. unfold dkeys. induction F as [|p q t t0 [E _] _ IH]; [reflexivity|].
  simpl. congruence.
Qed.

Lemma cfg_table_row X v0 v r : cfg X v0 v -> table_row X v r = table_row X v0 r.
Proof.
  intros [_ [_ [_ [_ F]]]]. unfold table_row.
  induction F as [|p q t t0 [E _] _ IH]; [reflexivity|]. simpl. rewrite E, IH. reflexivity.
Qed.

Lemma view_uninc_shape v r v' : view_unincorporate v r = (v', Ok tt) ->
  exists ds0, uninc_rel r (v_dims v) ds0 /\
    (v_dims v' = ds0 \/ exists k, Forall2 (fun q q2 => fst q = fst q2 /\ snd q2 = a_drop k (snd q)) ds0 (v_dims v')).
Proof.
  unfold view_unincorporate. destruct (dims_unincorporate r (v_dims v)) as [ds0 [[]|e]] eqn:Ed; [|discriminate].
  destruct (dget r (v_rows v)) as [k|]; [|discriminate].
  destruct (crp_unincorporate (v_crp v) r) as [c [[]|e]]; [|discriminate].
  intros E. exists ds0. split; [apply uninc_rel_of; exact Ed|].
  destruct (dmem k (c_counts c)); [injection E as <-; left; reflexivity|].
  destruct (dims_drop_cluster k ds0) as [ds2 r2] eqn:Edr. injection E as <- ->. simpl.
  right. exists k. clear - Edr. revert ds2 Edr. induction ds0 as [|[c a] ds0 IH]; intros ds2; simpl.
  - intros E. injection E as <-. constructor.
  - destruct (dmem k (d_clusters (a_d a))); [|discriminate].
    destruct (dims_drop_cluster k ds0) as [ds3 r3]. intros E. injection E as <- ->.
    constructor; [split; reflexivity|]. apply IH; reflexivity.
Qed.

Lemma vinv_all X v : vinv X v -> Forall (fun p => ainv (snd p)) (v_dims v).
Proof.
  intros [_ [Hn Hd]]. apply Forall_forall. intros [c a] Hin.
  apply (dget_In_NoDup _ _ _ Hn) in Hin. apply (Hd c a Hin).
Qed.

Lemma cfg_uninc X v0 v r k : cfg X v0 v -> dget r (v_rows v) = Some k ->
  exists v', view_unincorporate v r = (v', Ok tt) /\ cfg X v0 v' /\ v_rows v' = ddel r (v_rows v).
Proof.
  intros [Hv [O [G [A F]]]] Hr.
  destruct (view_uninc_ok X v r k Hv Hr) as [v' [E [V' [R' [_ [O' [G' [A' _]]]]]]]].
  exists v'. split; [exact E|]. split; [|exact R'].
  split; [exact V'|]. do 3 (split; [congruence|]).
  destruct (view_uninc_shape v r v' E) as [ds0 [U S]].
  pose proof (vinv_all X v Hv) as Hi.
  assert (F0 : Forall2 (fun p q => fst p = fst q /\ asim (snd p) (snd q) /\ ainv (snd q)) (v_dims v0) ds0).
  { clear - F U Hi. revert ds0 U. induction F as [|p q t t0 [E S] _ IH]; intros ds0 U;
      inversion U as [|? q2 ? t2 [E2 U2] T2]; subst; constructor.
    - inversion Hi; subst. split; [congruence|]. split; [eapply asim_uninc; eauto|].
      eapply (a_uninc_inv (snd q)); eauto.
    - apply IH; auto. inversion Hi; auto. }
  destruct S as [->|[k' S]].
  - eapply Forall2_impl'; [|exact F0]. simpl. intros a b [H1 [H2 _]]. auto.
  - clear - F0 S. revert S. generalize (v_dims v'). induction F0 as [|p q t t0 [E [S I]] _ IH]; intros ds2 S2;
      inversion S2 as [|? q2 ? t2 [E2 D2] T2]; subst; constructor; auto.
    split; [congruence|]. rewrite D2. apply asim_drop; assumption.
Qed.

Lemma dims_inc_shape X r k obs ds ds' : dims_incorporate X r k obs ds = (ds', Ok tt) ->
  Forall2 (fun p q => fst p = fst q /\ exists x ins, dget (fst p) obs = Some x /\
    input_values X r (snd p) = Ok ins /\ a_incorporate (snd p) r k x ins = (snd q, Ok tt)) ds ds'.
Proof.
  revert ds'. induction ds as [|[c a] ds IH]; intros ds'; simpl.
  { intros E. injection E as <-. constructor. }
  destruct (dget c obs) as [x|] eqn:Ex; [|discriminate].
  destruct (input_values X r a) as [ins|] eqn:Ei; [|discriminate].
  destruct (a_incorporate a r k x ins) as [a1 [[]|e]] eqn:Ea; [|discriminate].
  destruct (dims_incorporate X r k obs ds) as [ds3 r3]. intros E. injection E as <- ->.
  constructor; [simpl; eauto 8|]. apply IH; reflexivity.
Qed.

Lemma cfg_insert X v0 v r z k obs : vinv X v0 -> cfg X v0 v -> dget r (v_rows v0) = Some z ->
  dget r (v_rows v) = None -> table_row X v0 r = Ok obs ->
  exists v', view_insert X v r k obs = (v', Ok tt) /\ cfg X v0 v' /\ v_rows v' = dset r k (v_rows v).
Proof.
  intros Hv0 Hc Hz Hr Ho. pose proof Hc as [Hv [O [G [A F]]]].
  pose proof (colgood_all X v0 r z Hv0 Hz) as Cg.
  assert (Mv : Forall2 (moved r) (v_dims v0) (v_dims v)).
  { assert (Hall : forall q, In q (v_dims v) -> ainv (snd q) /\ acontent (snd q) r = None).
    { intros [c a] Hin. destruct Hv as [_ [Hn Hd]]. apply (dget_In_NoDup _ _ _ Hn) in Hin.
      destruct (Hd c a Hin) as [Hi [_ H]]. specialize (H r). rewrite Hr in H. auto. }
    clear - F Hall. induction F as [|p q t t0 [E S] _ IH]; constructor.
    - destruct (Hall q) as [B C]; [left; reflexivity|]. split; [exact E|].
      split; [apply asim_akin; exact S|auto].
    - apply IH. intros q' Hq. apply Hall. right; exact Hq. }
  destruct (dims_inc_progress X r z k obs _ _ Cg Mv (dget_obs X v0 r obs _ Ho eq_refl)) as [ds2 E2].
  destruct (crp_incorporate (v_crp v) r k) as [c1 r1] eqn:Ec.
  assert (r1 = Ok tt) as ->.
  { unfold crp_incorporate in Ec. unfold v_rows in Hr.
    unfold dmem in Ec. rewrite Hr in Ec. injection Ec as _ <-; reflexivity. }
  assert (Ei : view_insert X v r k obs = (View (v_out v) c1 (v_grid v) ds2, Ok tt)).
  { unfold view_insert. rewrite Ec, E2. reflexivity. }
  eexists. split; [exact Ei|].
  rewrite <- (cfg_table_row X v0 v r Hc) in Ho.
  destruct (view_insert_ok X X v r k obs _ Hv (fun _ _ _ => eq_refl)
    (table_row_spec X v r obs Ho) Ei) as [V' [_ [R' [_ [O' [G' [A' _]]]]]]].
  split; [|exact R'].
  split; [exact V'|]. do 3 (split; [congruence|]). simpl.
  pose proof (dims_inc_shape _ _ _ _ _ _ E2) as S. pose proof (vinv_all X v Hv) as Hi.
  clear - F S Hi. revert ds2 S. induction F as [|p q t t0 [E Sm] _ IH]; intros ds2 S;
    inversion S as [|? q2 ? t2 [E3 [x [ins [_ [_ Ea]]]]] T2]; subst; constructor; inversion Hi; subst.
  - split; [congruence|]. eapply asim_inc; eauto.
  - apply IH; auto.
Qed.

(* ------------------------------------------------------------------ *)
(** ** Scores *)

Definition real (r : res ext) : R := match r with Ok (Fin x) => x | _ => 0 end.

(** The score of the component of cluster [k] in column [a], 0 if there is none. *)
Definition kscore (a : adim) (k : Z) : R :=
  match dget k (d_clusters (a_d a)) with Some c => real (m_score (a_M a) c) | None => 0 end.

Lemma cluster_fin a k c : ainv a -> atotal a -> dget k (d_clusters (a_d a)) = Some c ->
  m_score (a_M a) c = Ok (Fin (kscore a k)).
Proof.
  intros [HL Hi] [[_ Hh] Hv] E. unfold kscore. rewrite E.
  destruct (collapsed_total _ _ (Hh k c E) Hv) as [_ T].
  destruct (T c) as [s ->]; [apply (di_good _ _ _ Hi k c E)|reflexivity|reflexivity].
Qed.

Lemma a_score_sum a : ainv a -> atotal a -> a_score a = Ok (Fin (Rsum (map (kscore a) (akeys a)))).
Proof.
  intros Hi Ht. unfold a_score, dim_score.
  assert (H : forall k c, In (k, c) (d_clusters (a_d a)) -> m_score (a_M a) c = Ok (Fin (kscore a k))).
  { intros k c Hin. apply cluster_fin; auto. apply dget_In_NoDup; [apply Hi|exact Hin]. }
  unfold akeys. clear - H. unfold dvals, dkeys. revert H. generalize (kscore a) as f. intros f H.
  induction (d_clusters (a_d a)) as [|[k c] l IH]; simpl; [reflexivity|].
  apply rsum_ext_cons. exists (f k), (Rsum (map f (map fst l))).
  split; [apply H; left; reflexivity|]. split; [apply IH; intros; apply H; right; assumption|reflexivity].
Qed.

Lemma Rsum_incl (f : Z -> R) l l' : NoDup l -> NoDup l' -> incl l l' ->
  (forall x, In x l' -> ~ In x l -> f x = 0) -> Rsum (map f l') = Rsum (map f l).
Proof.
  revert l'. induction l as [|x l IH]; intros l' H H' I Z0.
  { simpl. apply Prob.Rsum_zero. intros x Hx. apply Z0; auto. }
  inversion H as [|? ? Hx Hl]; subst.
  assert (Hin : In x l') by (apply I; left; reflexivity).
  apply in_split in Hin. destruct Hin as [l1 [l2 ->]].
  rewrite (Rsum_perm _ (map f (x :: l1 ++ l2))).
  2:{ apply Permutation_map. symmetry. apply Permutation_middle. }
  change (f x + Rsum (map f (l1 ++ l2)) = f x + Rsum (map f l)). f_equal.
  apply NoDup_remove in H'. destruct H' as [H1 H2]. apply IH; auto.
  - intros y Hy. assert (Hyx : y <> x) by congruence.
    specialize (I y (or_intror Hy)). apply in_app_or in I. apply in_or_app.
    destruct I as [|[|]]; auto. congruence.
  - intros y Hy Hn. apply Z0.
    + apply in_app_or in Hy. apply in_or_app. destruct Hy; simpl; auto.
    + intros [<-|Hy']; [contradiction|contradiction].
Qed.

(** Two columns whose components differ in cluster [k] only. *)
Lemma kscore_diff (f g : Z -> R) l l' k : NoDup l -> NoDup l' ->
  (forall j, ~ In j l -> f j = 0) -> (forall j, ~ In j l' -> g j = 0) ->
  (forall j, j <> k -> f j = g j) -> Rsum (map g l') - Rsum (map f l) = g k - f k.
Proof.
  intros Hl Hl' Hf Hg He. set (u := nodup Z.eq_dec (k :: l ++ l')).
  assert (Hu : NoDup u) by apply NoDup_nodup.
  rewrite <- (Rsum_incl f l u), <- (Rsum_incl g l' u); auto.
  2,3: intros y Hy; unfold u; apply nodup_In; right; apply in_or_app; auto.
  assert (Hk : In k u) by (apply nodup_In; left; reflexivity).
  apply in_split in Hk. destruct Hk as [l1 [l2 Eu]]. rewrite Eu in *.
  assert (P : forall h : Z -> R, Rsum (map h (l1 ++ k :: l2)) = h k + Rsum (map h (l1 ++ l2))).
  { intros h. rewrite (Rsum_perm _ (map h (k :: l1 ++ l2))); [reflexivity|].
    apply Permutation_map. symmetry. apply Permutation_middle. }
  rewrite !P. apply NoDup_remove_2 in Hu.
  rewrite (Prob.Rsum_ext f g (l1 ++ l2)); [lra|].
  intros x Hx. apply He. congruence.
Qed.

Lemma collapsed_params M h : collapsed M h -> forall q q' : mQ M, q = q'.
Proof. intros H. destruct H; intros [] []; reflexivity. Qed.

Lemma content_rows a k c r w : ainv a -> dget k (d_clusters (a_d a)) = Some c ->
  dget r (m_rows (a_M a) c) = Some w <-> acontent a r = Some (k, Some w).
Proof.
  intros [HL Hi] E. unfold acontent, content. split.
  - intros Hw. pose proof (di_only _ _ _ Hi r k c w E Hw) as Hz.
    rewrite (di_disj _ _ _ Hi r k Hz), Hz, E, Hw. reflexivity.
  - destruct (dget r (d_zi (a_d a))) as [k0|]; [discriminate|].
    destruct (dget r (d_zr (a_d a))) as [k0|]; [|discriminate].
    destruct (dget k0 (d_clusters (a_d a))) as [c0|] eqn:E0; [|discriminate].
    intros H. injection H as -> H. rewrite E in E0. injection E0 as <-. exact H.
Qed.

(** The component of a cluster is determined by the rows of the cluster. *)
Lemma component_same a0 a b k c c' : ainv a -> ainv b -> asim a0 a -> asim a0 b ->
  collapsed (a_M a0) (d_hyp (a_d a0)) ->
  (forall r w, acontent a r = Some (k, Some w) <-> acontent b r = Some (k, Some w)) ->
  forall (Ea : dget k (d_clusters (a_d a)) = Some c) (Eb : dget k (d_clusters (a_d b)) = Some c'),
  m_score (a_M a) c = m_score (a_M b) c' /\
  forall r x l, m_logpdf (a_M a) c r x l = m_logpdf (a_M b) c' r x l.
Proof.
  intros Ha Hb [d [-> [_ [A2 [_ [_ A5]]]]]] [d' [-> [_ [B2 [_ [_ B5]]]]]] Hc Hr Ea Eb. simpl in *.
  destruct Ha as [HL Hi]. destruct Hb as [HL' Hi']. simpl in *.
  apply (ml_ext _ _ HL).
  - apply (di_good _ _ _ Hi k c Ea).
  - apply (di_good _ _ _ Hi' k c' Eb).
  - intros r. pose proof (content_rows (ADim _ d) k c r) as C. pose proof (content_rows (ADim _ d') k c' r) as C'.
    simpl in *. destruct (dget r (m_rows (a_M a0) c)) as [w|] eqn:E.
    + symmetry. apply C'; [split; auto|exact Eb|]. apply Hr. apply C; [split; auto|exact Ea|reflexivity].
    + destruct (dget r (m_rows (a_M a0) c')) as [w|] eqn:E'; [|reflexivity].
      apply C; [split; auto|exact Ea|]. apply Hr. apply C'; [split; auto|exact Eb|reflexivity].
  - destruct A5 as [_ A5]. destruct B5 as [_ B5]. rewrite (A5 k c Ea), (B5 k c' Eb). congruence.
  - apply (collapsed_params _ _ Hc).
Qed.

(** The spare components agree, too. *)
Lemma spare_same a0 a b : ainv a -> ainv b -> asim a0 a -> asim a0 b ->
  collapsed (a_M a0) (d_hyp (a_d a0)) ->
  forall r x l, m_logpdf (a_M a) (d_aux (a_d a)) r x l = m_logpdf (a_M b) (d_aux (a_d b)) r x l.
Proof.
  intros Ha Hb [d [-> [_ [A2 [_ [_ A5]]]]]] [d' [-> [_ [B2 [_ [_ B5]]]]]] Hc. simpl in *.
  destruct Ha as [HL Hi]. destruct Hb as [HL' Hi']. simpl in *.
  destruct (di_aux _ _ _ Hi) as [G1 G2]. destruct (di_aux _ _ _ Hi') as [G1' G2'].
  apply (ml_ext _ _ HL); auto.
  - intros r. rewrite G2, G2'. reflexivity.
  - destruct A5 as [A5 _]. destruct B5 as [B5 _]. rewrite A5, B5. congruence.
  - apply (collapsed_params _ _ Hc).
Qed.

Lemma kscore_same a0 a b k : ainv a -> ainv b -> asim a0 a -> asim a0 b ->
  collapsed (a_M a0) (d_hyp (a_d a0)) ->
  (In k (akeys a) <-> In k (akeys b)) ->
  (forall r w, acontent a r = Some (k, Some w) <-> acontent b r = Some (k, Some w)) ->
  kscore a k = kscore b k.
Proof.
  intros Ha Hb Sa Sb Hc Hk Hr. unfold kscore, akeys in *.
  destruct (dget k (d_clusters (a_d a))) as [c|] eqn:Ea.
  - assert (Hin : In k (dkeys (d_clusters (a_d b)))) by (apply Hk; eapply dget_Some_in; exact Ea).
    apply in_dkeys_Some in Hin. destruct Hin as [c' Eb]. rewrite Eb.
    destruct (component_same a0 a b k c c' Ha Hb Sa Sb Hc Hr Ea Eb) as [-> _]. reflexivity.
  - destruct (dget k (d_clusters (a_d b))) as [c'|] eqn:Eb; [|reflexivity]. exfalso.
    apply dget_None_notin in Ea. apply Ea, Hk. eapply dget_Some_in; exact Eb.
Qed.

(** What is asked of the columns of the view at the start. *)
Definition solid (a : adim) : Prop :=
  atotal a /\ d_ins (a_d a) = [] /\ agree (a_d a).

Lemma solid_hyp a : solid a -> collapsed (a_M a) (d_hyp (a_d a)) /\ forall lbes, a_M a <> M_vonmises lbes.
Proof. intros [[[H _] Hv] [_ [A _]]]. rewrite <- A. auto. Qed.

Lemma asim_solid a b : solid a -> asim a b -> solid b.
Proof.
  intros Hs. pose proof (solid_hyp a Hs) as [Hc Hv]. destruct Hs as [_ [Hi _]].
  intros [d' [-> [A1 [A2 [_ [_ [A5 A6]]]]]]]. split; [|split; [simpl; congruence|split; auto]].
  split; [|exact Hv]. split; simpl.
  - rewrite A5, A2. exact Hc.
  - intros k c E. rewrite (A6 k c E), A2. exact Hc.
Qed.

Lemma asim_refl a : solid a -> asim a a.
Proof. intros [_ [_ A]]. destruct a as [M d]. exists d. auto 10. Qed.

Definition all_solid (v : view) : Prop := Forall (fun p => solid (snd p)) (v_dims v).

Lemma cfg_refl X v : vinv X v -> all_solid v -> cfg X v v.
Proof.
  intros Hv Hs. split; [exact Hv|]. do 3 (split; [reflexivity|]).
  unfold all_solid in Hs. induction Hs as [|p l H _ IH]; constructor; auto.
  split; [reflexivity|apply asim_refl; exact H].
Qed.

Lemma cfg_solid X v0 v : all_solid v0 -> cfg X v0 v -> all_solid v.
Proof.
  intros H [_ [_ [_ [_ F]]]]. unfold all_solid in *.
  induction F as [|p q t t0 [_ S] _ IH]; [constructor|]. inversion H; subst.
  constructor; [eapply asim_solid; eassumption|auto].
Qed.

Lemma solid_all v c a : all_solid v -> dget c (v_dims v) = Some a -> solid a.
Proof.
  intros H E. unfold all_solid in H. rewrite Forall_forall in H. apply (H (c, a)).
  apply dget_In. exact E.
Qed.

(** The score of a view is a number. *)
Definition crp_part (lgam : R -> R) (v : view) : R := real (crp_score lgam (v_crp v)).
Definition data_part (v : view) : R :=
  Rsum (map (fun p => Rsum (map (kscore (snd p)) (akeys (snd p)))) (v_dims v)).

Lemma data_part_eq X v : vinv X v -> all_solid v -> dsum a_score (v_dims v) = Ok (Fin (data_part v)).
Proof.
  intros Hv Hs. pose proof (vinv_all X v Hv) as Hi. unfold data_part, all_solid in *. clear Hv.
  induction (v_dims v) as [|[c a] ds IH]; [reflexivity|].
  inversion Hs as [|? ? S1 S2]; inversion Hi as [|? ? I1 I2]; subst. simpl in *.
  apply dsum_cons. eexists _, _. split; [apply a_score_sum; [exact I1|apply S1]|].
  split; [apply IH; assumption|reflexivity].
Qed.

Lemma cluster_score_eq X v k : vinv X v -> all_solid v ->
  cluster_score v k = Ok (Fin (Rsum (map (fun p => kscore (snd p) k) (v_dims v)))).
Proof.
  intros Hv Hs. pose proof Hv as [_ [Hn Hd]]. unfold cluster_score, dmem.
  assert (Hk : forall p, In p (v_dims v) -> ainv (snd p) /\ solid (snd p) /\
     (In k (akeys (snd p)) <-> In k (dkeys (c_counts (v_crp v))))).
  { intros [c a] Hin. unfold all_solid in Hs. rewrite Forall_forall in Hs.
    split; [|split; [apply (Hs _ Hin)|]]; apply (dget_In_NoDup _ _ _ Hn) in Hin;
    destruct (Hd c a Hin) as [A [B _]]; auto. }
  destruct (dget k (c_counts (v_crp v))) as [n|] eqn:Ek.
  - apply dget_Some_in in Ek. clear - Hk Ek. unfold dvals.
    induction (v_dims v) as [|[c a] ds IH]; [reflexivity|]. simpl.
    apply rsum_ext_cons. eexists _, _. split.
    + destruct (Hk (c, a)) as [A [B C]]; [left; reflexivity|]. simpl in *.
      apply C in Ek. apply in_dkeys_Some in Ek. destruct Ek as [cc Ecc]. rewrite Ecc.
      apply cluster_fin; [exact A|apply B|exact Ecc].
    + split; [apply IH; intros; apply Hk; right; assumption|reflexivity].
  - apply dget_None_notin in Ek. rewrite Prob.Rsum_zero; [reflexivity|].
    intros p Hp. destruct (Hk p Hp) as [_ [_ C]]. unfold kscore.
    destruct (dget k (d_clusters (a_d (snd p)))) eqn:E; [|reflexivity]. exfalso. apply Ek, C.
    eapply dget_Some_in; exact E.
Qed.

Lemma crp_part_eq lgam v : crp_inv (v_crp v) -> 0 < c_alpha (v_crp v) ->
  crp_score lgam (v_crp v) = Ok (Fin (crp_part lgam v)).
Proof.
  intros Hc Ha. unfold crp_part, crp_score, crp_marginal. rewrite plog_pos by exact Ha. reflexivity.
Qed.

Definition score (lgam : R -> R) (v : view) : R := crp_part lgam v + data_part v.

Lemma score_eq X lgam v : vinv X v -> all_solid v -> 0 < c_alpha (v_crp v) ->
  view_score lgam v = Ok (Fin (score lgam v)).
Proof.
  intros Hv Hs Ha. apply view_score_fin. eexists _, _.
  split; [apply crp_part_eq; [apply Hv|exact Ha]|].
  split; [eapply data_part_eq; eassumption|reflexivity].
Qed.

Definition table_part (v : view) (k : Z) : R := Rsum (map (fun p => kscore (snd p) k) (v_dims v)).

Lemma tables_score_eq X lgam v k : vinv X v -> all_solid v -> 0 < c_alpha (v_crp v) ->
  tables_score lgam v k k = Ok (Fin (crp_part lgam v + table_part v k)).
Proof.
  intros Hv Hs Ha. unfold tables_score.
  rewrite crp_part_eq by (try apply Hv; exact Ha). rewrite (cluster_score_eq X v k Hv Hs). cbn [rbind].
  rewrite Z.eqb_refl. reflexivity.
Qed.

(** Two such views whose rows differ in cluster [k] only. *)
Definition elsewhere (v v' : view) (k : Z) : Prop :=
  forall r j, j <> k -> dget r (v_rows v) = Some j <-> dget r (v_rows v') = Some j.

Lemma keys_rows X v c a k : vinv X v -> dget c (v_dims v) = Some a ->
  In k (akeys a) <-> exists r, dget r (v_rows v) = Some k.
Proof.
  intros [Hc [_ Hd]] E. destruct (Hd c a E) as [_ [HK _]]. rewrite HK. split.
  - apply crp_counts_rows. exact Hc.
  - intros [r Hr]. eapply crp_rows_counts; eassumption.
Qed.

Lemma content_where X v c a r k w : vinv X v -> dget c (v_dims v) = Some a ->
  acontent a r = Some (k, w) <->
  (dget r (v_rows v) = Some k /\ expected X c a r = Some w).
Proof.
  intros [Hc [_ Hd]] E. destruct (Hd c a E) as [_ [_ H]]. specialize (H r).
  destruct (dget r (v_rows v)) as [k'|].
  - destruct H as [e [H1 H2]]. rewrite H1, H2. split.
    + intros H. injection H as -> ->. auto.
    + intros [H3 H4]. congruence.
  - rewrite H. split; [discriminate|]. intros [H1 _]. discriminate.
Qed.

(** Matching columns of two views. *)
Lemma cfg_pairs X v0 v v' : all_solid v0 -> cfg X v0 v -> cfg X v0 v' ->
  Forall2 (fun p q => fst p = fst q /\ dget (fst p) (v_dims v) = Some (snd p) /\
    dget (fst p) (v_dims v') = Some (snd q) /\
    exists a0, solid a0 /\ asim a0 (snd p) /\ asim a0 (snd q)) (v_dims v) (v_dims v').
Proof.
  intros Hs [Hv [_ [_ [_ F]]]] [Hv' [_ [_ [_ F']]]].
  assert (G : forall ds ds', Forall2 (fun p q : Z * adim => fst p = fst q /\ asim (snd p) (snd q)) (v_dims v0) ds ->
      Forall2 (fun p q : Z * adim => fst p = fst q /\ asim (snd p) (snd q)) (v_dims v0) ds' ->
      (forall p, In p ds -> dget (fst p) (v_dims v) = Some (snd p)) ->
      (forall p, In p ds' -> dget (fst p) (v_dims v') = Some (snd p)) ->
      Forall2 (fun p q => fst p = fst q /\ dget (fst p) (v_dims v) = Some (snd p) /\
        dget (fst p) (v_dims v') = Some (snd q) /\
        exists a0, solid a0 /\ asim a0 (snd p) /\ asim a0 (snd q)) ds ds').
  { clear F F'. unfold all_solid in Hs. induction Hs as [|p0 t0 S0 _ IH]; intros ds ds' F F' D D';
      inversion F as [|? p ? t [E1 A1] T1]; inversion F' as [|? q ? t' [E2 A2] T2]; subst; constructor.
    - split; [congruence|]. split; [apply D; left; reflexivity|].
      split; [replace (fst p) with (fst q) by congruence; apply D'; left; reflexivity|].
      exists (snd p0). auto.
    - apply IH; auto; intros; [apply D|apply D']; right; assumption. }
  apply G; auto.
  - intros [c a] Hin. apply dget_In_NoDup; [apply Hv|exact Hin].
  - intros [c a] Hin. apply dget_In_NoDup; [apply Hv'|exact Hin].
Qed.

Lemma asim_expected X c a0 a r : asim a0 a -> expected X c a r = expected X c a0 r.
Proof. intros H. symmetry. symmetry. apply akin_expected, asim_akin, H. Qed.

Lemma data_diff X v0 v v' k : all_solid v0 -> cfg X v0 v -> cfg X v0 v' -> elsewhere v v' k ->
  data_part v' - data_part v = table_part v' k - table_part v k.
Proof.
  intros Hs C C' El. pose proof (cfg_pairs X v0 v v' Hs C C') as P.
  pose proof C as [Hv _]. pose proof C' as [Hv' _].
  unfold data_part, table_part.
  assert (G : forall ds ds', Forall2 (fun p q => fst p = fst q /\ dget (fst p) (v_dims v) = Some (snd p) /\
    dget (fst p) (v_dims v') = Some (snd q) /\
    exists a0, solid a0 /\ asim a0 (snd p) /\ asim a0 (snd q)) ds ds' ->
    Rsum (map (fun p => Rsum (map (kscore (snd p)) (akeys (snd p)))) ds') -
    Rsum (map (fun p => Rsum (map (kscore (snd p)) (akeys (snd p)))) ds) =
    Rsum (map (fun p => kscore (snd p) k) ds') - Rsum (map (fun p => kscore (snd p) k) ds)).
  { clear P. intros ds ds' F. induction F as [|[c a] [c' b] ds ds' [E [D [D' [a0 [S0 [Sa Sb]]]]]] _ IH];
      [reflexivity|]. simpl in *. subst c'.
    assert (Ia : ainv a) by (destruct Hv as [_ [_ Hd]]; apply (Hd c a D)).
    assert (Ib : ainv b) by (destruct Hv' as [_ [_ Hd]]; apply (Hd c b D')).
    assert (K : Rsum (map (kscore b) (akeys b)) - Rsum (map (kscore a) (akeys a)) = kscore b k - kscore a k).
    { apply kscore_diff.
      - apply (di_nc _ _ _ (proj2 Ia)).
      - apply (di_nc _ _ _ (proj2 Ib)).
      - intros j Hj. unfold kscore. unfold akeys in Hj; rewrite <- dget_None_notin in Hj; rewrite Hj. reflexivity.
      - intros j Hj. unfold kscore. unfold akeys in Hj; rewrite <- dget_None_notin in Hj; rewrite Hj. reflexivity.
      - intros j Hj. apply (kscore_same a0); auto.
        + apply solid_hyp; exact S0.
        + rewrite (keys_rows X v c a j), (keys_rows X v' c b j) by assumption.
          split; intros [r Hr]; exists r; apply (El r j Hj); exact Hr.
        + intros r w. rewrite (content_where X v c a), (content_where X v' c b) by assumption.
          rewrite (asim_expected X c a0 a), (asim_expected X c a0 b) by assumption.
          rewrite (El r j Hj). reflexivity. }
    unfold Rsum in *. simpl. lra. }
  apply G. exact P.
Qed.

(** Views with the same rows in the same clusters have the same score. *)
Lemma score_same X lgam v0 v v' : all_solid v0 -> cfg X v0 v -> cfg X v0 v' ->
  (forall r, dget r (v_rows v) = dget r (v_rows v')) -> score lgam v = score lgam v'.
Proof.
  intros Hs C C' Hr. unfold score, crp_part.
  destruct (crp_score_perm lgam (v_crp v) (v_crp v')) as [_ [_ [-> _]]]; auto.
  1,2: apply C || apply C'. 
  { destruct C as [_ [_ [_ [A _]]]]. destruct C' as [_ [_ [_ [A' _]]]]. congruence. }
  f_equal.
  assert (El : forall k, elsewhere v v' k) by (intros k r j _; rewrite Hr; reflexivity).
  (* a cluster that nobody uses *)
  pose (k := match zmax_list (dkeys (c_counts (v_crp v))) with Some m => (m + 1)%Z | None => 0%Z end).
  pose proof (data_diff X v0 v v' k Hs C C' (El k)) as D.
  assert (K : forall j, table_part v' j = table_part v j).
  { intros j. unfold table_part. pose proof (cfg_pairs X v0 v v' Hs C C') as P.
    pose proof C as [Hv _]. pose proof C' as [Hv' _].
    assert (G : forall ds ds', Forall2 (fun p q => fst p = fst q /\ dget (fst p) (v_dims v) = Some (snd p) /\
      dget (fst p) (v_dims v') = Some (snd q) /\
      exists a0, solid a0 /\ asim a0 (snd p) /\ asim a0 (snd q)) ds ds' ->
      map (fun p => kscore (snd p) j) ds' = map (fun p => kscore (snd p) j) ds).
    { clear P. intros ds ds' F. induction F as [|[c a] [c' b] ds ds' [E [Dp [Dq [a0 [S0 [Sa Sb]]]]]] _ IH];
        [reflexivity|]. simpl in *. subst c'. rewrite IH. f_equal. symmetry.
      apply (kscore_same a0); auto.
      - destruct Hv as [_ [_ Hd]]. apply (Hd c a Dp).
      - destruct Hv' as [_ [_ Hd]]. apply (Hd c b Dq).
      - apply solid_hyp; exact S0.
      - rewrite (keys_rows X v c a j), (keys_rows X v' c b j) by assumption.
        split; intros [r Hr']; exists r; [rewrite <- Hr|rewrite Hr]; exact Hr'.
      - intros r w. rewrite (content_where X v c a), (content_where X v' c b) by assumption.
        rewrite (asim_expected X c a0 a), (asim_expected X c a0 b) by assumption.
        rewrite Hr. reflexivity. }
    rewrite (G _ _ P). reflexivity. }
  rewrite K in D. lra.
Qed.

(** Restricted scores differ by as much as the scores. *)
Lemma tables_diff X lgam v0 v v' k : all_solid v0 -> cfg X v0 v -> cfg X v0 v' -> elsewhere v v' k ->
  crp_part lgam v' + table_part v' k - (crp_part lgam v + table_part v k) = score lgam v' - score lgam v.
Proof. intros Hs C C' El. pose proof (data_diff X v0 v v' k Hs C C' El). unfold score. lra. Qed.

(* ------------------------------------------------------------------ *)
(** ** One more row *)

Lemma row_free M h s r r' x l : collapsed M h -> dget r (m_rows M s) = None ->
  dget r' (m_rows M s) = None -> m_logpdf M s r x l = m_logpdf M s r' x l.
Proof.
  intros H. destruct H; simpl; rewrite !dget_dmap; unfold prim_logpdf, dmem;
    destruct (dget r (p_data s)), (dget r' (p_data s)); simpl; try discriminate; reflexivity.
Qed.

Lemma a_row_free a r r' k x ins : ainv a -> atotal a -> acontent a r = None -> acontent a r' = None ->
  a_logpdf a r k x ins = a_logpdf a r' k x ins.
Proof.
  intros Hi [Hh _] N N'. unfold a_logpdf, dim_logpdf.
  destruct (valid_cell x ins) as [[v l]|]; [|reflexivity].
  destruct (cluster_reach a k Hi Hh) as [_ Hc]. eapply row_free; [exact Hc| |];
    apply cluster_lacks; auto; intros e; congruence.
Qed.

Lemma table_row_cells X v r obs : table_row X v r = Ok obs ->
  Forall2 (fun (q : Z * adim) (o : Z * cell) => fst q = fst o /\ X (fst q) r = Ok (snd o)) (v_dims v) obs.
Proof.
  unfold table_row. revert obs. induction (v_dims v) as [|[c a] ds IH]; intros obs; simpl.
  { intros E. injection E as <-. constructor. }
  destruct (X c r) as [x|] eqn:E; simpl; [|discriminate].
  destruct (rsequence _) as [l|] eqn:El; simpl; [|discriminate].
  intros E'. injection E' as <-. constructor; [auto|]. apply IH. reflexivity.
Qed.

Lemma table_row_keys X v r obs : table_row X v r = Ok obs -> dkeys obs = dkeys (v_dims v).
Proof.
  intros E. apply table_row_cells in E. unfold dkeys.
  induction E as [|p q l l' [E _] _ IH]; [reflexivity|]. simpl. congruence.
Qed.

Lemma insert_ratio X lgam v0 v r z k obs v' : gamma_rec lgam -> lgam 1 = 0 ->
  vinv X v0 -> all_solid v0 -> 0 < c_alpha (v_crp v0) -> dget r (v_rows v0) = Some z ->
  cfg X v0 v -> dget r (v_rows v) = None -> dget norow (v_rows v) = None ->
  table_row X v0 r = Ok obs -> view_insert X v r k obs = (v', Ok tt) -> cfg X v0 v' ->
  exp (score lgam v' - score lgam v) =
  pweight v k / (INR (length (v_rows v)) + c_alpha (v_crp v)) * joint v (old_pdf k) obs.
Proof.
  intros Hg H1 Hv0 Hs0 Ha Hz C Hr Hno Ho Ei C'.
  pose proof C as [Hv [_ [_ [A F]]]]. pose proof C' as [Hv' [_ [_ [A' _]]]].
  pose proof (cfg_solid X v0 v Hs0 C) as Hs. pose proof (cfg_solid X v0 v' Hs0 C') as Hs'.
  pose proof (colgood_all X v0 r z Hv0 Hz) as Cg.
  assert (Hall : forall c a, dget c (v_dims v) = Some a -> ainv a /\ acontent a r = None /\ acontent a norow = None).
  { intros c a E. destruct Hv as [_ [_ Hd]]. destruct (Hd c a E) as [Hi [_ H]].
    pose proof (H r) as H2. pose proof (H norow) as H3. rewrite Hr in H2. rewrite Hno in H3. auto. }
  pose proof Ho as Ho'. rewrite <- (cfg_table_row X v0 v r C) in Ho'.
  pose proof (table_row_cells X v r obs Ho') as Oc.
  (* the densities of the cells *)
  assert (L : exists l, lps_rel X r k (v_dims v) l /\
    forall p, esum l = Fin p -> exp p = Rprod (map (factor v (old_pdf k)) obs)).
  { assert (Hd : forall q, In q (v_dims v) -> dget (fst q) (v_dims v) = Some (snd q)).
    { intros [c a] Hin. apply dget_In_NoDup; [apply Hv|exact Hin]. }
    assert (G : forall ds0 ds obs,
      Forall2 (fun p q : Z * adim => fst p = fst q /\ asim (snd p) (snd q)) ds0 ds ->
      Forall (colgood X r z) ds0 -> Forall (fun p => solid (snd p)) ds ->
      (forall q, In q ds -> dget (fst q) (v_dims v) = Some (snd q)) ->
      Forall2 (fun (q : Z * adim) (o : Z * cell) => fst q = fst o /\ X (fst q) r = Ok (snd o)) ds obs ->
      exists l, lps_rel X r k ds l /\
        forall p, esum l = Fin p -> exp p = Rprod (map (factor v (old_pdf k)) obs));
      [|exact (G _ _ _ F Cg Hs Hd Oc)].
    clear - Hall. intros ds0 ds obs F. revert obs.
    induction F as [|p q t t0 [E Sm] _ IH]; intros obs Cg Hs Hd Oc; inversion Oc as [|? o ? ot [Eo Xo] To]; subst.
    { exists []. split; [constructor|]. intros p Ep. injection Ep as <-. simpl. apply exp_0. }
    inversion Cg as [|? ? [Gi [e [Ge Gc]]] Gt]; subst. inversion Hs as [|? ? S1 S2]; subst.
    destruct (IH ot Gt S2) as [l [Ll Pl]]; [intros; apply Hd; right; assumption|exact To|].
    pose proof (Hd q (or_introl eq_refl)) as Dq. destruct (Hall _ _ Dq) as [Iq [Nr Nn]].
    assert (In0 : input_values X r (snd q) = Ok []).
    { unfold input_values. destruct S1 as [_ [-> _]]. reflexivity. }
    assert (Ex : e = option_map (keep (a_M (snd p))) (valid_cell (snd o) [])).
    { unfold expected in Ge. rewrite E, Xo in Ge.
      rewrite <- (akin_input X r (snd p) (snd q)) in Ge by (apply asim_akin; exact Sm).
      rewrite In0 in Ge. injection Ge as <-. reflexivity. }
    destruct (logpdf_progress (snd p) (snd q) r z e k (snd o) [] Gi Iq) as [lp El]; auto.
    { apply asim_akin; exact Sm. } { apply S1. } { intros e'. rewrite Nr. discriminate. }
    exists (lp :: l). split.
    - constructor; [|exact Ll]. exists (snd o), []. rewrite In0. auto.
    - intros s Es. apply esum_cons in Es. destruct Es as [x [y [-> [Ey ->]]]].
      rewrite exp_plus, (Pl y Ey). simpl map. change (Rprod (factor v (old_pdf k) o :: map (factor v (old_pdf k)) ot))
        with (factor v (old_pdf k) o * Rprod (map (factor v (old_pdf k)) ot)).
      f_equal. unfold factor. rewrite <- Eo, Dq. unfold old_pdf.
      rewrite <- (a_row_free (snd q) r norow k (snd o) []); auto; [|apply S1]. rewrite El. reflexivity. }
  destruct L as [l [Ll Pl]].
  unfold view_insert in Ei.
  destruct (crp_incorporate (v_crp v) r k) as [c1 [[]|e]] eqn:Ec; [|discriminate].
  destruct (dims_incorporate X r k obs (v_dims v)) as [ds2 [[]|e]] eqn:Ed; [|discriminate].
  injection Ei as <-.
  assert (Mv : Forall2 (moved r) (v_dims v0) (v_dims v)).
  { assert (Hq : forall q, In q (v_dims v) -> ainv (snd q) /\ acontent (snd q) r = None).
    { intros [c a] Hin. destruct (Hall c a) as [B1 [B2 _]]; [|auto].
      apply dget_In_NoDup; [apply Hv|exact Hin]. }
    clear - F Hq. induction F as [|p q t t0 [E S] _ IH]; constructor.
    - destruct (Hq q) as [B C]; [left; reflexivity|]. split; [exact E|].
      split; [apply asim_akin; exact S|auto].
    - apply IH. intros q' Hq'. apply Hq. right; exact Hq'. }
  destruct (dims_move X r k obs (v_dims v0) (v_dims v) ds2 l (data_part v) Mv) as [p [P1 P2]]; auto.
  { eapply Forall_impl; [|exact Hs]. intros q [[Q _] _]. exact Q. }
  { apply (dget_obs X v0 r obs (v_dims v0) Ho eq_refl). }
  { eapply data_part_eq; eassumption. }
  pose proof (data_part_eq X _ Hv' Hs') as P3. cbn [v_dims] in P3. rewrite P2 in P3. injection P3 as P3.
  unfold score. rewrite <- P3.
  destruct (crp_chain lgam (v_crp v) r k Hg H1) as [a [b [s' [E1 [E2 [E3 E4]]]]]]; auto.
  { apply Hv. } { rewrite A. exact Ha. }
  rewrite Ec in E1. injection E1 as <-.
  destruct (crp_pred_prob (v_crp v) r k) as [w [W1 W2]]; auto.
  { apply Hv. } { rewrite A. exact Ha. }
  rewrite E4 in W1. injection W1 as <-.
  unfold crp_part. cbn [v_crp]. rewrite E2, E3. cbn [real].
  replace (b + (data_part v + p) - (a + data_part v)) with ((b - a) + p) by lra.
  rewrite exp_plus, W2, (Pl p P1). unfold joint, pweight. f_equal. f_equal.
  destruct Hv as [[_ [_ ->]] _]. rewrite <- INR_IZR_INZ. reflexivity.
Qed.

(* ------------------------------------------------------------------ *)
(** ** Several rows *)

(** The cluster that a list of insertions gives to row [r]. *)
Definition assigned (rows : list (Z * dict cell * Z)) (r : Z) : option Z :=
  dget r (map (fun x => (fst (fst x), snd x)) rows).

Lemma place_ok X v0 rows : vinv X v0 -> forall v, cfg X v0 v ->
  NoDup (map (fun x => fst (fst x)) rows) ->
  (forall r obs k, In (r, obs, k) rows -> table_row X v0 r = Ok obs /\ dget r (v_rows v) = None /\
     exists z, dget r (v_rows v0) = Some z) ->
  exists v', place_rows X v rows = (v', Ok tt) /\ cfg X v0 v' /\
    forall r, dget r (v_rows v') = match assigned rows r with Some k => Some k | None => dget r (v_rows v) end.
Proof.
  intros Hv0. induction rows as [|[[r obs] k] rows IH]; intros v C Hn H; simpl.
  { exists v. auto. }
  inversion Hn as [|? ? Hr Hn']; subst. simpl in Hr.
  destruct (H r obs k (or_introl eq_refl)) as [H1 [H2 [z H3]]].
  destruct (cfg_insert X v0 v r z k obs Hv0 C H3 H2 H1) as [v1 [E1 [C1 R1]]]. rewrite E1.
  destruct (IH v1 C1 Hn') as [v2 [E2 [C2 R2]]].
  { intros r' obs' k' Hin. destruct (H r' obs' k' (or_intror Hin)) as [A [B D]].
    split; [exact A|]. split; [|exact D]. rewrite R1, dget_dset.
    destruct (Z.eqb_spec r' r) as [->|]; [|exact B]. destruct Hr.
    apply in_map_iff. exists (r, obs', k'). auto. }
  exists v2. split; [exact E2|]. split; [exact C2|]. intros r'. rewrite R2, R1, dget_dset.
  unfold assigned. simpl. destruct (Z.eqb_spec r' r) as [->|]; [|reflexivity].
  destruct (dget r (map (fun x => (fst (fst x), snd x)) rows)) eqn:E; [|reflexivity]. destruct Hr.
  apply dget_Some_in in E. unfold dkeys in E. rewrite map_map in E. exact E.
Qed.

Lemma remove_ok X v0 rows : forall v, cfg X v0 v -> NoDup rows ->
  (forall r, In r rows -> exists k, dget r (v_rows v) = Some k) ->
  exists v', remove_rows v rows = (v', Ok tt) /\ cfg X v0 v' /\
    forall r, dget r (v_rows v') = if zmem r rows then None else dget r (v_rows v).
Proof.
  induction rows as [|r rows IH]; intros v C Hn H; simpl.
  { exists v. auto. }
  inversion Hn as [|? ? Hr Hn']; subst.
  destruct (H r (or_introl eq_refl)) as [k Hk].
  destruct (cfg_uninc X v0 v r k C Hk) as [v1 [E1 [C1 R1]]]. rewrite E1.
  assert (Nd : NoDup (dkeys (v_rows v))) by apply C.
  destruct (IH v1 C1 Hn') as [v2 [E2 [C2 R2]]].
  { intros r' Hin. destruct (H r' (or_intror Hin)) as [k' Hk']. exists k'. rewrite R1, dget_ddel by exact Nd.
    destruct (Z.eqb_spec r' r) as [->|]; [contradiction|exact Hk']. }
  exists v2. split; [exact E2|]. split; [exact C2|]. intros r'. rewrite R2, R1, dget_ddel by exact Nd.
  unfold zmem. simpl. destruct (Z.eqb_spec r' r) as [->|]; simpl; [|reflexivity].
  destruct (existsb (Z.eqb r) rows); reflexivity.
Qed.

Lemma for_tables_ok (P : view -> Prop) f (g : Z -> ext) ks :
  (forall v k, P v -> In k ks -> exists v', f v k = (v', Ok (g k)) /\ P v') ->
  forall v, P v -> exists v', for_tables f v ks = (v', Ok (map g ks)) /\ P v'.
Proof.
  induction ks as [|k ks IH]; intros H v Hv; simpl; [eauto|].
  destruct (H v k Hv (or_introl eq_refl)) as [v1 [-> P1]].
  destruct (IH (fun v k Hv Hk => H v k Hv (or_intror Hk)) v1 P1) as [v2 [-> P2]]. simpl. eauto.
Qed.

Lemma with_rows_ok X v0 placed removed f v x : vinv X v0 -> cfg X v0 v ->
  NoDup (map (fun x => fst (fst x)) placed) -> NoDup removed ->
  (forall r, In r removed <-> In r (map (fun x => fst (fst x)) placed)) ->
  (forall r obs k, In (r, obs, k) placed -> table_row X v0 r = Ok obs /\ dget r (v_rows v) = None /\
     exists z, dget r (v_rows v0) = Some z) ->
  (forall v1, cfg X v0 v1 -> (forall r, dget r (v_rows v1) =
      match assigned placed r with Some k => Some k | None => dget r (v_rows v) end) -> f v1 = Ok x) ->
  exists v', with_rows X placed removed f v = (v', Ok x) /\ cfg X v0 v' /\
    forall r, dget r (v_rows v') = dget r (v_rows v).
Proof.
  intros Hv0 C Np Nr Hs H Hf. unfold with_rows.
  destruct (place_ok X v0 placed Hv0 v C Np H) as [v1 [-> [C1 R1]]].
  rewrite (Hf v1 C1 R1).
  destruct (remove_ok X v0 removed v1 C1 Nr) as [v2 [-> [C2 R2]]].
  { intros r Hr. rewrite R1. apply Hs in Hr. unfold assigned.
    assert (Hin : In r (dkeys (map (fun x : Z * dict cell * Z => (fst (fst x), snd x)) placed))).
    { unfold dkeys. rewrite map_map. exact Hr. }
    apply in_dkeys_Some in Hin. destruct Hin as [k ->]. eauto. }
  exists v2. split; [reflexivity|]. split; [exact C2|]. intros r. rewrite R2.
  destruct (zmem r removed) eqn:E.
  - apply zmem_in, Hs in E. apply in_map_iff in E. destruct E as [[[r' obs] k] [<- Hin]].
    simpl; destruct (H _ _ _ Hin) as [_ [-> _]]. reflexivity.
  - rewrite R1. unfold assigned. apply zmem_false in E.
    destruct (dget r (map _ placed)) eqn:Ed; [|reflexivity]. destruct E. apply Hs.
    apply dget_Some_in in Ed. unfold dkeys in Ed. rewrite map_map in Ed. exact Ed.
Qed.

(* ------------------------------------------------------------------ *)
(** ** The query *)

Lemma sum_same (f : Z -> R) l l' : NoDup l -> NoDup l' -> (forall x, In x l <-> In x l') ->
  Rsum (map f l) = Rsum (map f l').
Proof.
  intros H H' E. apply Rsum_perm, Permutation_map, NoDup_Permutation; auto.
Qed.

Lemma NoDup_snoc (l : list Z) x : NoDup l -> ~ In x l -> NoDup (l ++ [x]).
Proof.
  intros H Hx. apply (Permutation_NoDup (l := x :: l)); [|constructor; auto].
  apply Permutation_cons_append.
Qed.

Lemma log_of_pos t : 0 < t -> log_of t = Fin (ln t).
Proof. intros H. unfold log_of. apply Rltb_true in H. rewrite H. reflexivity. Qed.

Lemma Rsum_pos (f : Z -> R) l : l <> [] -> (forall x, 0 < f x) -> 0 < Rsum (map f l).
Proof.
  intros Hl Hf. destruct l as [|x l]; [contradiction|]. clear Hl. revert x.
  induction l as [|y l IH]; intros x; simpl; [pose proof (Hf x); lra|].
  specialize (IH y). simpl in IH. pose proof (Hf x). lra.
Qed.

Lemma logsumexp_fin (f : Z -> R) l : l <> [] ->
  logsumexp (map (fun k => Fin (f k)) l) = Ok (Fin (ln (Rsum (map (fun k => exp (f k)) l)))).
Proof.
  intros Hl. rewrite logsumexp_logw.
  - rewrite map_map. simpl. rewrite log_of_pos; [reflexivity|]. apply Rsum_pos; [exact Hl|].
    intros x. apply exp_pos.
  - apply Forall_forall. intros x Hx. apply in_map_iff in Hx. destruct Hx as [k [<- _]]. exact I.
Qed.

Lemma esubs_map (f g : Z -> R) l :
  esubs (map (fun k => Fin (f k)) l) (map (fun k => Fin (g k)) l) = map (fun k => Fin (f k - g k)) l.
Proof. unfold esubs. induction l as [|k l IH]; [reflexivity|]. simpl. rewrite IH. reflexivity. Qed.

(** The rows of [v] with the target [t] in cluster [kt] and the query rows [Q] in cluster [kq]. *)
Definition placement (v : view) (t : Z) (Q : list Z) (kt kq : Z) (r : Z) : option Z :=
  if (r =? t)%Z then Some kt else if zmem r Q then Some kq else dget r (v_rows v).

(** The clusters of the rows other than target and query rows. *)
Definition other_clusters (v : view) (t : Z) (Q : list Z) : list Z :=
  nodup Z.eq_dec (map snd (filter (fun p => negb (zmem (fst p) (t :: Q))) (v_rows v))).

Lemma other_clusters_spec v t Q k : NoDup (dkeys (v_rows v)) ->
  In k (other_clusters v t Q) <-> exists r, ~ In r (t :: Q) /\ dget r (v_rows v) = Some k.
Proof.
  intros Hn. unfold other_clusters. rewrite nodup_In, in_map_iff. split.
  - intros [[r k'] [<- Hin]]. apply filter_In in Hin. destruct Hin as [H1 H2]. exists r.
    split; [|apply dget_In_NoDup; assumption]. apply zmem_false. destruct (zmem _ _); [discriminate|reflexivity].
  - intros [r [H1 H2]]. exists (r, k). split; [reflexivity|]. apply filter_In.
    split; [apply dget_In; exact H2|]. simpl fst. apply zmem_false in H1. rewrite H1. reflexivity.
Qed.

Lemma Forall2_combine_in {A B} (P : A -> B -> Prop) l l' : Forall2 P l l' ->
  map fst (combine l l') = l /\ forall a b, In (a, b) (combine l l') -> P a b.
Proof.
  intros F. induction F as [|a b l l' H _ [IH1 IH2]]; simpl; [split; [reflexivity|contradiction]|].
  split; [congruence|].
  intros a' b' [E|Hin]; [injection E as <- <-; exact H|auto].
Qed.

Section Query.
  Variable lgam : R -> R.
  Variable kdraw : nat -> nat -> list ext -> nat.
  Variable xdraw : nat -> nat -> Z -> Z -> res R.
  Variable X : table.
  Variable v : view.
  Variables (t : Z) (Q : list Z) (m : Z).
  Variable S : Z -> Z -> view.

  Hypothesis Hg : gamma_rec lgam.
  Hypothesis Hg1 : lgam 1 = 0.
  Hypothesis Hst : settled X v.
  Hypothesis Hso : all_solid v.
  Hypothesis HQ : Q <> [].
  Hypothesis HQn : NoDup Q.
  Hypothesis Ht : ~ In t Q.
  Hypothesis Hheld : forall r, In r (t :: Q) -> exists k, dget r (v_rows v) = Some k.
  Hypothesis Hm : In m (other_clusters v t Q) /\ forall k, In k (other_clusters v t Q) -> (k <= m)%Z.
  Hypothesis HS : forall kt kq, cfg X v (S kt kq) /\
    forall r, dget r (v_rows (S kt kq)) = placement v t Q kt kq r.

  Local Notation sigma kt kq := (score lgam (S kt kq)).
  Let K := other_clusters v t Q ++ [(m + 1)%Z].
  Let J (k : Z) := K ++ (if (k =? m + 1)%Z then [(m + 2)%Z] else []).

  (** The view without target and query rows. *)
  Let P (w : view) : Prop := cfg X v w /\
    forall r, dget r (v_rows w) = if zmem r (t :: Q) then None else dget r (v_rows v).

  Local Lemma nodup_rows : NoDup (dkeys (v_rows v)).
  Proof. apply (st_inv _ _ Hst). Qed.

  Local Lemma alpha_pos w : cfg X v w -> 0 < c_alpha (v_crp w).
  Proof. intros [_ [_ [_ [-> _]]]]. apply Hst. Qed.

  Local Lemma cfg_settled w : cfg X v w -> v_rows w <> [] ->
    (forall r k, dget r (v_rows w) = Some k -> (0 <= r)%Z) -> settled X w.
  Proof.
    intros C Hne Hnn. pose proof C as [Hv [O [_ [A _]]]]. split; auto.
    - apply alpha_pos; exact C.
    - rewrite (cfg_keys X v w C), O. apply Hst.
    - intros c a E. pose proof (solid_all w c a (cfg_solid X v w Hso C) E) as [H1 [H2 _]]. auto.
  Qed.

  Local Lemma row_nonneg r : (exists k, dget r (v_rows v) = Some k) -> (0 <= r)%Z.
  Proof. intros [k Hk]. exact (st_nonneg _ _ Hst r k Hk). Qed.

  Local Lemma K_nodup : NoDup K.
  Proof.
    apply NoDup_snoc; [apply NoDup_nodup|]. intros H. apply Hm in H. lia.
  Qed.

  Local Lemma base_keys w : P w -> forall k, In k (dkeys (c_counts (v_crp w))) <-> In k (other_clusters v t Q).
  Proof.
    intros [C R] k. rewrite other_clusters_spec by apply nodup_rows. split.
    - intros Hk. destruct (crp_counts_rows (v_crp w) k (proj1 (proj1 C)) Hk) as [r Hr].
      exists r. change (dget r (v_rows w) = Some k) in Hr. rewrite R in Hr.
      destruct (zmem r (t :: Q)) eqn:E; [discriminate|]. apply zmem_false in E. auto.
    - intros [r [H1 H2]]. apply (crp_rows_counts (v_crp w) r k (proj1 (proj1 C))).
      change (dget r (v_rows w) = Some k). rewrite R. apply zmem_false in H1. rewrite H1. exact H2.
  Qed.

  (** The tables of the code. *)
  Local Lemma tables_max w : P w -> zmax_list (zsort (dkeys (c_counts (v_crp w)))) = Some m.
  Proof.
    intros Hp. pose proof (base_keys w Hp) as B.
    destruct (zmax_list _) as [m'|] eqn:E.
    - apply zmax_list_spec in E. destruct E as [E1 E2]. f_equal.
      rewrite zsort_in in E1. apply B in E1. apply Hm in E1.
      assert (m <= m')%Z by (apply E2, zsort_in, B, Hm). lia.
    - apply zmax_list_None in E. exfalso. assert (In m []) as []. rewrite <- E. apply zsort_in, B, Hm.
  Qed.

  Local Lemma tables_sum w f : P w -> 
    Rsum (map f (zsort (dkeys (c_counts (v_crp w))) ++ [(m + 1)%Z])) = Rsum (map f K).
  Proof.
    intros Hp. apply sum_same; [|apply K_nodup|].
    - apply NoDup_snoc.
      + apply zsort_NoDup. apply (proj1 (proj2 (proj1 (proj1 (proj1 Hp))))).
      + rewrite zsort_in, (base_keys w Hp). intros H. apply Hm in H. lia.
    - intros x. unfold K. rewrite !in_app_iff, zsort_in, (base_keys w Hp). reflexivity.
  Qed.

  Variable obs : dict cell.
  Variable obss : list (dict cell).
  Hypothesis Hobs : table_row X v t = Ok obs.
  Hypothesis Hobss : Forall2 (fun r o => table_row X v r = Ok o) Q obss.

  Local Lemma query_fst : map fst (combine Q obss) = Q.
  Proof. apply (Forall2_combine_in _ _ _ Hobss). Qed.

  Local Lemma at_table_ids k : map (fun x => fst (fst x)) (at_table (combine Q obss) k) = Q.
  Proof. unfold at_table. rewrite map_map. simpl. apply query_fst. Qed.

  Local Lemma at_table_assigned k r : assigned (at_table (combine Q obss) k) r = if zmem r Q then Some k else None.
  Proof.
    unfold assigned, at_table. rewrite map_map. simpl. rewrite <- query_fst at 2.
    induction (combine Q obss) as [|[q o] l IH]; [reflexivity|]. simpl. unfold zmem in *. simpl.
    destruct (r =? q)%Z; [reflexivity|exact IH].
  Qed.

  Local Lemma at_table_rows w k r o k' : P w -> In (r, o, k') (at_table (combine Q obss) k) ->
    table_row X v r = Ok o /\ dget r (v_rows w) = None /\ exists z, dget r (v_rows v) = Some z.
  Proof.
    intros [_ R] Hin. apply in_map_iff in Hin. destruct Hin as [[r' o'] [E Hin]]. injection E as -> -> ->.
    split; [apply (Forall2_combine_in _ _ _ Hobss); exact Hin|].
    assert (Hr : In r Q). { rewrite <- query_fst. apply in_map_iff. exists (r, o). auto. }
    split; [|apply Hheld; right; exact Hr]. rewrite R.
    assert (E : zmem r (t :: Q) = true) by (apply zmem_in; right; exact Hr). rewrite E. reflexivity.
  Qed.

  Variable w0 : view.
  Hypothesis HP0 : P w0.
  Local Notation cl k := (crp_part lgam w0 + table_part w0 k).

  (** Target and query rows in cluster [k]. *)
  Local Lemma same_ok w k : P w -> exists w',
    same_logp lgam X (t, obs) (combine Q obss) w k = (w', Ok (Fin (sigma k k - score lgam w0 + cl k))) /\ P w'.
  Proof.
    intros Hp. unfold same_logp. rewrite query_fst.
    destruct (with_rows_ok X v (((t, obs), k) :: at_table (combine Q obss) k) (t :: Q)
      (fun v1 => tables_score lgam v1 k k) w (Fin (sigma k k - score lgam w0 + cl k)))
      as [w' [E [C' R']]].
    - apply Hst.
    - apply Hp.
    - simpl. rewrite at_table_ids. constructor; auto.
    - constructor; auto.
    - intros r. simpl. rewrite at_table_ids. reflexivity.
    - intros r o k' [E|Hin]; [|eapply at_table_rows; eassumption]. injection E as <- <- <-.
      split; [exact Hobs|]. split; [|apply Hheld; left; reflexivity].
      rewrite (proj2 Hp). unfold zmem. simpl. rewrite Z.eqb_refl. reflexivity.
    - intros v1 C1 R1.
      assert (Es : score lgam v1 = sigma k k).
      { destruct (HS k k) as [Cs Rs]. apply (score_same X lgam v v1); auto. intros r. rewrite Rs, R1.
        unfold placement. unfold assigned. simpl. destruct (r =? t)%Z eqn:Er; [reflexivity|].
        fold (assigned (at_table (combine Q obss) k) r). rewrite at_table_assigned.
        destruct (zmem r Q) eqn:Eq; [reflexivity|]. rewrite (proj2 Hp). unfold zmem in *. simpl.
        rewrite Er, Eq. reflexivity. }
      rewrite (tables_score_eq X lgam v1 k) by (try apply C1; try apply (cfg_solid X v v1); try apply alpha_pos; auto).
      do 2 f_equal. rewrite <- Es.
      rewrite <- (tables_diff X lgam v w0 v1 k Hso (proj1 HP0) C1); [lra|].
      intros r j Hj. rewrite R1, (proj2 HP0). unfold assigned. simpl.
      unfold zmem. simpl. destruct (r =? t)%Z eqn:Er; simpl; [split; congruence|].
      fold (zmem r Q). fold (assigned (at_table (combine Q obss) k) r). rewrite at_table_assigned.
      destruct (zmem r Q) eqn:Eq; [split; congruence|]. rewrite (proj2 Hp). unfold zmem in *. simpl.
      rewrite Er, Eq. reflexivity.
    - exists w'. split; [exact E|]. split; [exact C'|]. intros r. rewrite R'. apply Hp.
  Qed.

  Local Lemma w0_rows : exists r, ~ In r (t :: Q) /\ dget r (v_rows v) = Some m.
  Proof. apply other_clusters_spec; [apply nodup_rows|apply Hm]. Qed.

  (** The view with the query rows in cluster [k] and without the target. *)
  Local Notation seated w k := (cfg X v w /\ forall r, dget r (v_rows w) =
    if zmem r Q then Some k else if (r =? t)%Z then None else dget r (v_rows v)).

  Local Lemma seated_settled w k : seated w k -> settled X w.
  Proof.
    intros [C R]. apply cfg_settled; [exact C| |].
    - destruct w0_rows as [r [H1 H2]]. intros E. specialize (R r). rewrite E in R. simpl in R.
      destruct (zmem r Q) eqn:Eq; [discriminate|].
      destruct (Z.eqb_spec r t) as [->|]; [destruct H1; left; reflexivity|]. congruence.
    - intros r k' Hk. rewrite R in Hk. destruct (zmem r Q) eqn:Eq.
      { apply row_nonneg, Hheld. right. apply zmem_in. exact Eq. }
      destruct (r =? t)%Z; [discriminate|]. apply row_nonneg. eauto.
  Qed.

  Local Lemma seated_clusters w k j : seated w k -> In j (dkeys (c_counts (v_crp w))) <->
    j = k \/ In j (other_clusters v t Q).
  Proof.
    intros [C R]. rewrite other_clusters_spec by apply nodup_rows. split.
    - intros Hk. destruct (crp_counts_rows (v_crp w) j (proj1 (proj1 C)) Hk) as [r Hr].
      change (dget r (v_rows w) = Some j) in Hr. rewrite R in Hr. destruct (zmem r Q) eqn:Eq.
      { left. congruence. }
      destruct (Z.eqb_spec r t); [discriminate|]. right. exists r. split; [|exact Hr].
      apply zmem_false in Eq. simpl. intros [?|?]; auto.
    - intros H. destruct H as [->|[r [H1 H2]]].
      + destruct Q as [|q Q'] eqn:EQ; [contradiction|].
        apply (crp_rows_counts (v_crp w) q k (proj1 (proj1 C))).
        change (dget q (v_rows w) = Some k). rewrite R. unfold zmem. simpl. rewrite Z.eqb_refl. reflexivity.
      + apply (crp_rows_counts (v_crp w) r j (proj1 (proj1 C))).
        change (dget r (v_rows w) = Some j). rewrite R.
        destruct (zmem r Q) eqn:Eq; [destruct H1; right; apply zmem_in; exact Eq|].
        destruct (Z.eqb_spec r t) as [->|]; [destruct H1; left; reflexivity|exact H2].
  Qed.

  Local Lemma seated_sum w k f : seated w k -> In k K ->
    Rsum (map f (all_clusters w)) = Rsum (map f (J k)).
  Proof.
    intros Hw Hk. pose proof (seated_settled w k Hw) as Hs. pose proof (fun j => seated_clusters w k j Hw) as B.
    destruct (new_max w (proj1 (st_inv _ _ Hs)) (st_rows _ _ Hs)) as [m' [E1 E2]].
    apply zmax_list_spec in E1. destruct E1 as [E1 E3].
    assert (Em : m' = if (k =? m + 1)%Z then (m + 1)%Z else m).
    { apply B in E1. assert (A1 : (k <= m')%Z) by (apply E3, B; left; reflexivity).
      assert (A2 : (m <= m')%Z) by (apply E3, B; right; apply Hm).
      unfold K in Hk. rewrite in_app_iff in Hk. simpl in Hk.
      destruct (Z.eqb_spec k (m + 1)) as [->|Hne].
      - destruct E1 as [->|E1]; [reflexivity|]. apply Hm in E1. lia.
      - assert (Hk' : In k (other_clusters v t Q)) by (destruct Hk as [?|[?|[]]]; [assumption|lia]).
        apply Hm in Hk'. destruct E1 as [->|E1]; [lia|]. apply Hm in E1. lia. }
    apply sum_same.
    - apply NoDup_snoc.
      + apply zsort_NoDup. apply (proj1 (proj2 (proj1 (proj1 (proj1 Hw))))).
      + rewrite zsort_in, E2. intros H. apply E3 in H. lia.
    - unfold J. destruct (Z.eqb_spec k (m + 1)) as [Ek|_]; [|rewrite app_nil_r; apply K_nodup].
      apply NoDup_snoc; [apply K_nodup|]. unfold K. rewrite in_app_iff. simpl.
      intros [H|[H|[]]]; [apply Hm in H; lia|lia].
    - intros x. unfold all_clusters, J. rewrite !in_app_iff, zsort_in, B, E2, Em. unfold K. rewrite in_app_iff.
      unfold K in Hk. rewrite in_app_iff in Hk. simpl in *.
      destruct (Z.eqb_spec k (m + 1)) as [->|Hne]; simpl.
      + replace (m + 1 + 1)%Z with (m + 2)%Z by lia. intuition.
      + assert (Hk' : In k (other_clusters v t Q)) by (destruct Hk as [?|[?|[]]]; [assumption|lia]).
        intuition. subst. auto.
  Qed.

  (** Query rows in cluster [k] and the target anywhere. *)
  Local Lemma predictive_ok w k : seated w k -> In k K ->
    vquery_logpdf kdraw xdraw X w norow (map (fun cx => (fst cx, VCell (snd cx))) obs) [] [] =
    Ok (Fin (ln (Rsum (map (fun j => exp (sigma j k)) (J k))) - score lgam w)).
  Proof.
    intros Hw Hk. pose proof (seated_settled w k Hw) as Hs. pose proof Hw as [C R].
    pose proof (nonneg_norow w (st_nonneg _ _ Hs)) as Hno.
    assert (Hov : of_view w obs).
    { unfold of_view. rewrite (cfg_keys X v w C), (table_row_keys X v t obs Hobs).
      split; [|auto]. apply (st_inv _ _ Hst). }
    assert (Hh : v_hypothetical w norow = true) by reflexivity.
    change (vquery_logpdf kdraw xdraw X w norow (map (fun cx => (fst cx, VCell (snd cx))) obs) [] [])
      with (vquery_logpdf kdraw xdraw X w norow (cells obs) (cells []) []).
    rewrite (settled_agree X w kdraw xdraw norow obs [] Hs Hno Hh Hov);
      [|split; [constructor|contradiction]|intros c _ []].
    assert (Hq : query_ok w obs) by (eapply settled_query; eassumption).
    assert (Hq0 : query_ok w []) by (intros c x []).
    pose proof (proj1 (st_inv _ _ Hs)) as Hc.
    destruct (view_logpdf_eq w Hc (st_rows _ _ Hs) Hno (st_alpha _ _ Hs) (settled_clusters X w Hs) norow obs [] Hh Hq Hq0)
      as [_ E].
    rewrite (mixture_nil w Hc (st_rows _ _ Hs) (st_alpha _ _ Hs) (settled_clusters X w Hs)) in E.
    rewrite E by lra. clear E. rewrite app_nil_r.
    rewrite <- (mixture_sum w Hc (st_rows _ _ Hs) (settled_clusters X w Hs)).
    assert (Et : Rsum (map (fun j => pweight w j / (INR (length (v_rows w)) + c_alpha (v_crp w)) *
                    joint w (old_pdf j) obs) (all_clusters w)) =
                 Rsum (map (fun j => exp (sigma j k)) (J k)) * exp (- score lgam w)).
    { rewrite (seated_sum w k _ Hw Hk).
      rewrite (Rsum_ext _ (fun j => exp (sigma j k) * exp (- score lgam w))).
      { clear. induction (J k) as [|j l IH]; simpl; [ring|]. rewrite IH. ring. }
      intros j _. rewrite <- exp_plus.
      assert (Htn : dget t (v_rows w) = None).
      { rewrite R, Z.eqb_refl. destruct (zmem t Q) eqn:Eq; [|reflexivity]. apply zmem_in in Eq. contradiction. }
      destruct (Hheld t (or_introl eq_refl)) as [z Hz].
      destruct (cfg_insert X v w t z j obs (st_inv _ _ Hst) C Hz Htn Hobs) as [w' [Ei [C' R']]].
      rewrite <- (insert_ratio X lgam v w t z j obs w' Hg Hg1 (st_inv _ _ Hst) Hso (st_alpha _ _ Hst) Hz C Htn Hno Hobs Ei C').
      f_equal. unfold Rminus. f_equal. destruct (HS j k) as [Cs Rs].
      apply (score_same X lgam v w'); auto. intros r. rewrite Rs, R', dget_dset, R. unfold placement.
      destruct (r =? t)%Z; [reflexivity|]. reflexivity. }
    rewrite Et. unfold Rdiv at 1. rewrite Rinv_1, Rmult_1_r. rewrite log_of_pos.
    - do 2 f_equal. rewrite ln_mult, ln_exp; [reflexivity| |apply exp_pos].
      apply Rsum_pos; [|intros; apply exp_pos]. unfold J, K. destruct (other_clusters v t Q); discriminate.
    - apply Rmult_lt_0_compat; [|apply exp_pos].
      apply Rsum_pos; [|intros; apply exp_pos]. unfold J, K. destruct (other_clusters v t Q); discriminate.
  Qed.

  Local Lemma condition_ok w k : P w -> In k K -> exists w',
    condition_logp lgam kdraw xdraw X (combine Q obss) obs w k =
      (w', Ok (Fin (ln (Rsum (map (fun j => exp (sigma j k)) (J k))) - score lgam w0 + cl k))) /\ P w'.
  Proof.
    intros Hp Hk. unfold condition_logp. rewrite query_fst.
    match goal with |- exists w', with_rows X _ _ ?f _ = (_, Ok ?x) /\ _ =>
      destruct (with_rows_ok X v (at_table (combine Q obss) k) Q f w x) as [w' [E [C' R']]] end.
    - apply Hst.
    - apply Hp.
    - rewrite at_table_ids. exact HQn.
    - exact HQn.
    - intros r. rewrite at_table_ids. reflexivity.
    - intros r o k' Hin. eapply at_table_rows; eassumption.
    - intros v1 C1 R1.
      assert (R1' : forall r, dget r (v_rows v1) =
        if zmem r Q then Some k else if (r =? t)%Z then None else dget r (v_rows v)).
      { intros r. rewrite R1, at_table_assigned. destruct (zmem r Q) eqn:Eq; [reflexivity|].
        rewrite (proj2 Hp). unfold zmem in *. simpl. rewrite Eq, orb_false_r. reflexivity. }
      rewrite (tables_score_eq X lgam v1 k) by (try apply C1; try apply (cfg_solid X v v1); try apply alpha_pos; auto).
      cbn [rbind]. rewrite (predictive_ok v1 k (conj C1 R1') Hk). cbn [rbind eadd]. do 2 f_equal.
      pose proof (tables_diff X lgam v w0 v1 k Hso (proj1 HP0) C1) as D.
      assert (El : elsewhere w0 v1 k).
      { intros r j Hj. rewrite R1', (proj2 HP0). unfold zmem. simpl. fold (zmem r Q).
        destruct (zmem r Q) eqn:Eq; [rewrite orb_true_r; split; congruence|]. rewrite orb_false_r. reflexivity. }
      specialize (D El). lra.
    - exists w'. split; [exact E|]. split; [exact C'|]. intros r. rewrite R'. apply Hp.
  Qed.
End Query.

Lemma rsequence_forall2 {A B} (P : A -> B -> Prop) (f : A -> res B) l :
  (forall x, In x l -> exists y, f x = Ok y /\ P x y) ->
  exists ys, rsequence (map f l) = Ok ys /\ Forall2 P l ys.
Proof.
  induction l as [|x l IH]; intros H; [exists []; auto|].
  destruct (H x (or_introl eq_refl)) as [y [E Hy]]. destruct IH as [ys [E' Hs]].
  { intros x' Hx. apply H. right. exact Hx. }
  exists (y :: ys). simpl. rewrite E. simpl. rewrite E'. auto.
Qed.

Lemma Rsum_scale (f : Z -> R) c l : Rsum (map (fun k => f k * c) l) = Rsum (map f l) * c.
Proof. induction l as [|k l IH]; simpl; [ring|]. rewrite IH. ring. Qed.

(** The probability that the target is in the cluster of the query rows, which are
    all in one cluster. *)
Definition same_mass (sigma : Z -> Z -> R) (K : list Z) : R := Rsum (map (fun k => exp (sigma k k)) K).
Definition all_mass (sigma : Z -> Z -> R) (K : list Z) (J : Z -> list Z) : R :=
  Rsum (map (fun k => Rsum (map (fun j => exp (sigma j k)) (J k))) K).

Theorem relevance_ok lgam kdraw xdraw X v t Q m St :
  gamma_rec lgam -> lgam 1 = 0 -> settled X v -> all_solid v ->
  Q <> [] -> NoDup Q -> ~ In t Q ->
  (forall r, In r (t :: Q) -> exists k, dget r (v_rows v) = Some k) ->
  In m (other_clusters v t Q) -> (forall k, In k (other_clusters v t Q) -> (k <= m)%Z) ->
  (forall kt kq, cfg X v (St kt kq) /\
     forall r, dget r (v_rows (St kt kq)) = placement v t Q kt kq r) ->
  let K := other_clusters v t Q ++ [(m + 1)%Z] in
  let J (k : Z) := K ++ (if (k =? m + 1)%Z then [(m + 2)%Z] else []) in
  let sigma kt kq := score lgam (St kt kq) in
  exists v', relevance_probability lgam kdraw xdraw X v t Q =
      (v', Ok (Fin (same_mass sigma K / all_mass sigma K J))) /\
    cfg X v v' /\ forall r, dget r (v_rows v') = dget r (v_rows v).
Proof.
  intros Hg Hg1 Hst Hso HQ HQn Ht Hheld Hm1 Hm2 HS K J sigma.
  pose proof (conj Hm1 Hm2) as Hm. pose proof (st_inv _ _ Hst) as Hv.
  assert (Hrow : forall r, In r (t :: Q) -> exists o, table_row X v r = Ok o).
  { intros r Hr. destruct (Hheld r Hr) as [k Hk]. eapply table_row_ok; eassumption. }
  destruct (Hheld t (or_introl eq_refl)) as [z Hz].
  destruct (Hrow t (or_introl eq_refl)) as [obs Hobs].
  destruct (rsequence_forall2 (fun r o => table_row X v r = Ok o) (table_row X v) Q) as [obss [Eo Fo]].
  { intros r Hr. destruct (Hrow r (or_intror Hr)) as [o Ho]. eauto. }
  destruct (rsequence_forall2 (fun r k => dget r (v_rows v) = Some k)
    (fun r => match dget r (v_rows v) with Some k => Ok k | None => Err KeyError end) Q) as [zs [Ez Fz]].
  { intros r Hr. destruct (Hheld r (or_intror Hr)) as [k Hk]. exists k. rewrite Hk. auto. }
  unfold relevance_probability.
  assert (En : is_nil Q = false) by (destruct Q; [contradiction|reflexivity]).
  assert (Ei : zmem t Q = false) by (apply zmem_false; exact Ht).
  rewrite En, Ei, Hz, Hobs, Eo, Ez. cbv zeta.
  assert (C0 : cfg X v v) by (apply cfg_refl; assumption).
  destruct (remove_ok X v (t :: Q) v C0 (NoDup_cons _ Ht HQn) Hheld) as [w0 [-> [C1 R1]]].
  pose proof (conj C1 R1) as HP0. cbv beta iota.
  rewrite (tables_max X v t Q m Hst Hm w0 HP0).
  set (T := zsort (dkeys (c_counts (v_crp w0))) ++ [(m + 1)%Z]).
  assert (HT : forall k, In k T <-> In k K).
  { intros k. unfold T, K. rewrite !in_app_iff, zsort_in, (base_keys X v t Q Hst w0 HP0). reflexivity. }
  assert (TK : forall f : Z -> R, Rsum (map f T) = Rsum (map f K)) by (intros f; apply (tables_sum X v t Q m Hst Hm w0 f HP0)).
  assert (Tne : T <> []) by (unfold T; destruct (zsort _); discriminate).
  clearbody T.
  pose (c k := crp_part lgam w0 + table_part w0 k).
  assert (Et : rsequence (map (fun k => tables_score lgam w0 k k) T) = Ok (map (fun k => Fin (c k)) T)).
  { apply rsequence_map. intros k. apply (tables_score_eq X); [apply C1|apply (cfg_solid X v); auto|].
    destruct C1 as [_ [_ [_ [-> _]]]]. apply Hst. }
  rewrite Et.
  pose (s := score lgam w0).
  destruct (for_tables_ok (fun w => cfg X v w /\ forall r, dget r (v_rows w) =
      if zmem r (t :: Q) then None else dget r (v_rows v))
    (condition_logp lgam kdraw xdraw X (combine Q obss) obs)
    (fun k => Fin (ln (Rsum (map (fun j => exp (sigma j k)) (J k))) - s + c k)) T) with (v := w0) as [w1 [-> HP1]].
  { intros w k Hp Hk. apply HT in Hk.
    apply (condition_ok lgam kdraw xdraw X v t Q m St Hg Hg1 Hst Hso HQ HQn Ht Hheld Hm HS obs obss Hobs Fo w0 HP0 w k Hp Hk). }
  { exact HP0. }
  cbn [rbind]. rewrite esubs_map, logsumexp_fin by exact Tne.
  destruct (for_tables_ok (fun w => cfg X v w /\ forall r, dget r (v_rows w) =
      if zmem r (t :: Q) then None else dget r (v_rows v))
    (same_logp lgam X (t, obs) (combine Q obss)) (fun k => Fin (sigma k k - s + c k)) T) with (v := w1) as [w2 [-> HP2]].
  { intros w k Hp Hk. apply HT in Hk.
    apply (same_ok lgam X v t Q St Hst Hso HQn Ht Hheld HS obs obss Hobs Fo w0 HP0 w k Hp). }
  { exact HP1. }
  cbn [rbind]. rewrite esubs_map, logsumexp_fin by exact Tne.
  (* the rows go back *)
  assert (Fq : map fst (combine Q obss) = Q) by apply (Forall2_combine_in _ _ _ Fo).
  assert (Hq : forall r k, In r Q -> dget r (map (fun x : Z * dict cell * Z => (fst (fst x), snd x)) (combine (combine Q obss) zs)) = Some k <->
                 dget r (v_rows v) = Some k).
  { clear - Fo Fz. intros r k. revert obss zs Fo Fz. induction Q as [|q Q' IH]; intros obss zs Fo Fz Hr; [contradiction|].
    inversion Fo; subst. inversion Fz; subst. simpl. destruct (Z.eqb_spec r q) as [->|Hne].
    - match goal with H : dget q (v_rows v) = Some _ |- _ => rewrite H end. reflexivity.
    - apply IH; auto. destruct Hr; congruence. }
  assert (Hids : map (fun x : Z * dict cell * Z => fst (fst x)) (combine (combine Q obss) zs) = Q).
  { clear - Fo Fz. revert obss zs Fo Fz. induction Q as [|q Q' IH]; intros obss zs Fo Fz; [reflexivity|].
    inversion Fo; subst. inversion Fz; subst. simpl. f_equal. apply IH; auto. }
  destruct (place_ok X v (((t, obs), z) :: combine (combine Q obss) zs) Hv w2 (proj1 HP2)) as [w3 [-> [C3 R3]]].
  { simpl. rewrite Hids. constructor; assumption. }
  { intros r o k Hin.
    assert (Hr : In r (t :: Q)).
    { destruct Hin as [E|Hin]; [injection E as <- <- <-; left; reflexivity|]. right. rewrite <- Hids.
      apply in_map_iff. exists (r, o, k). auto. }
    split.
    - destruct Hin as [E|Hin]; [injection E as <- <- <-; exact Hobs|].
      apply in_combine_l in Hin. apply (Forall2_combine_in _ _ _ Fo). exact Hin.
    - split; [|apply Hheld; exact Hr]. rewrite (proj2 HP2). apply zmem_in in Hr. rewrite Hr. reflexivity. }
  cbn [rbind]. exists w3. split; [|split; [exact C3|]].
  - f_equal. cbn [esub eadd eopp eexp]. do 2 f_equal.
    set (A := Rsum (map (fun k => exp (sigma k k - s + c k - c k)) T)).
    set (B := Rsum (map (fun k => exp (ln (Rsum (map (fun j => exp (sigma j k)) (J k))) - s + c k - c k)) T)).
    assert (Jpos : forall k, 0 < Rsum (map (fun j => exp (sigma j k)) (J k))).
    { intros k. apply Rsum_pos; [|intros; apply exp_pos]. unfold J, K. destruct (other_clusters v t Q); discriminate. }
    assert (EA : A = same_mass sigma K * exp (- s)).
    { unfold A. rewrite TK. unfold same_mass. rewrite <- Rsum_scale. apply Rsum_ext. intros k _.
      rewrite <- exp_plus. f_equal. lra. }
    assert (EB : B = all_mass sigma K J * exp (- s)).
    { unfold B. rewrite TK. unfold all_mass. rewrite <- Rsum_scale. apply Rsum_ext. intros k _.
      match goal with |- exp ?a = _ => replace a with (ln (Rsum (map (fun j => exp (sigma j k)) (J k))) + - s) by lra end.
      rewrite exp_plus, exp_ln by apply Jpos. reflexivity. }
    assert (PA : 0 < same_mass sigma K).
    { apply Rsum_pos; [unfold K; destruct (other_clusters v t Q); discriminate|]. intros; apply exp_pos. }
    assert (PB : 0 < all_mass sigma K J).
    { apply Rsum_pos; [unfold K; destruct (other_clusters v t Q); discriminate|]. exact Jpos. }
    pose proof (exp_pos (- s)) as Pe.
    rewrite EA, EB, !ln_mult by assumption.
    match goal with |- exp ?a = _ => replace a with (ln (same_mass sigma K) + - ln (all_mass sigma K J)) by lra end.
    rewrite exp_plus, exp_Ropp, !exp_ln by assumption. reflexivity.
  - intros r. rewrite R3. unfold assigned. simpl. destruct (Z.eqb_spec r t) as [->|Hne]; [congruence|].
    destruct (zmem r Q) eqn:Eq.
    + apply zmem_in in Eq. destruct (Hheld r (or_intror Eq)) as [k Hk]. rewrite Hk.
      rewrite (proj2 (Hq r k Eq) Hk). reflexivity.
    + destruct (dget r (map _ (combine (combine Q obss) zs))) eqn:Ed.
      * exfalso. apply zmem_false in Eq. apply Eq. rewrite <- Hids. apply dget_Some_in in Ed.
        unfold dkeys in Ed. rewrite map_map in Ed. exact Ed.
      * rewrite (proj2 HP2). unfold zmem in *. simpl. rewrite Eq.
        destruct (Z.eqb_spec r t); [contradiction|reflexivity].
Qed.

(* ------------------------------------------------------------------ *)
(** ** Views with the same rows answer alike *)

Lemma rows_perm (A : Type) (d d' : dict A) : NoDup (dkeys d) -> NoDup (dkeys d') ->
  (forall r, dget r d = dget r d') -> Permutation d d'.
Proof.
  intros H H' E. apply NoDup_Permutation.
  - exact (NoDup_map_inv _ _ H).
  - exact (NoDup_map_inv _ _ H').
  - intros [r x]. split; intros Hin.
    + apply dget_In. rewrite <- E. apply dget_In_NoDup; assumption.
    + apply dget_In. rewrite E. apply dget_In_NoDup; assumption.
Qed.

Section Alike.
  Variables (X : table) (v0 v v' : view).
  Hypothesis Hs : all_solid v0.
  Hypothesis C : cfg X v0 v.
  Hypothesis C' : cfg X v0 v'.
  Hypothesis Hr : forall r, dget r (v_rows v) = dget r (v_rows v').

  Lemma alike_perm : Permutation (v_rows v) (v_rows v').
  Proof. apply rows_perm; [apply C|apply C'|exact Hr]. Qed.

  Lemma alike_dims c : match dget c (v_dims v), dget c (v_dims v') with
    | Some a, Some b => forall r k x, a_logpdf a r k x [] = a_logpdf b r k x [] /\
        new_pdf a x = new_pdf b x
    | None, None => True
    | _, _ => False
    end.
  Proof.
    destruct (dget c (v_dims v)) as [a|] eqn:Ea.
    2:{ destruct (dget c (v_dims v')) as [b|] eqn:Eb; [|exact I].
        apply dget_Some_in in Eb. rewrite (cfg_keys X v0 v' C'), <- (cfg_keys X v0 v C) in Eb.
        apply dget_None_notin in Ea. contradiction. }
    assert (G : exists b a0, dget c (v_dims v') = Some b /\ solid a0 /\ asim a0 a /\ asim a0 b).
    { pose proof (cfg_pairs X v0 v v' Hs C C') as P. apply dget_In in Ea.
      clear - P Ea. revert Ea. generalize P. clear P.
      generalize (v_dims v') at 2. generalize (v_dims v) at 2 3. intros ds ds' F.
      induction F as [|p q l l' [E [_ [D [a0 [S0 [Sa Sb]]]]]] _ IH]; [contradiction|].
      intros [->|Hin]; [|auto]. exists (snd q), a0. simpl in *. auto. }
    destruct G as [b [a0 [Eb [S0 [Sa Sb]]]]]. rewrite Eb. intros r k x.
    pose proof C as [Hv _]. pose proof C' as [Hv' _].
    assert (Ia : ainv a) by (destruct Hv as [_ [_ Hd]]; apply (Hd c a Ea)).
    assert (Ib : ainv b) by (destruct Hv' as [_ [_ Hd]]; apply (Hd c b Eb)).
    pose proof (proj1 (solid_hyp _ S0)) as Hc0.
    split.
    - unfold a_logpdf, dim_logpdf. destruct (valid_cell x []) as [[w l]|]; [|reflexivity].
      unfold cluster_of.
      assert (Hk : In k (akeys a) <-> In k (akeys b)).
      { rewrite (keys_rows X v c a k), (keys_rows X v' c b k) by assumption.
        split; intros [r' Hr']; exists r'; congruence. }
      unfold akeys in Hk. destruct (dget k (d_clusters (a_d a))) as [ca|] eqn:Eca.
      + assert (Hin : In k (dkeys (d_clusters (a_d b)))) by (apply Hk; eapply dget_Some_in; exact Eca).
        apply in_dkeys_Some in Hin. destruct Hin as [cb Ecb]. rewrite Ecb.
        refine (proj2 (component_same a0 a b k ca cb Ia Ib Sa Sb Hc0 _ Eca Ecb) r w l).
        intros r' w'. rewrite (content_where X v c a), (content_where X v' c b) by assumption.
        rewrite (asim_expected X c a0 a), (asim_expected X c a0 b) by assumption.
        rewrite Hr. reflexivity.
      + destruct (dget k (d_clusters (a_d b))) as [cb|] eqn:Ecb.
        * apply dget_Some_in in Ecb. apply Hk in Ecb. apply dget_None_notin in Eca. contradiction.
        * apply (spare_same a0 a b Ia Ib Sa Sb Hc0).
    - unfold new_pdf. destruct x as [y|]; [|reflexivity].
      rewrite (spare_same a0 a b Ia Ib Sa Sb Hc0). reflexivity.
  Qed.

  Lemma alike_mixture D : mixture v D = mixture v' D.
  Proof.
    unfold mixture. rewrite (Permutation_length alike_perm).
    assert (Ea : c_alpha (v_crp v) = c_alpha (v_crp v')).
    { destruct C as [_ [_ [_ [A _]]]]. destruct C' as [_ [_ [_ [A' _]]]]. congruence. }
    rewrite Ea.
    assert (J : forall k, joint v (old_pdf k) D = joint v' (old_pdf k) D).
    { intros k. unfold joint. f_equal. apply map_ext. intros [c x]. unfold factor. cbn [fst snd].
      pose proof (alike_dims c) as H. destruct (dget c (v_dims v)), (dget c (v_dims v')); try contradiction; [|reflexivity].
      unfold old_pdf. rewrite (proj1 (H norow k x)). reflexivity. }
    assert (J' : joint v new_pdf D = joint v' new_pdf D).
    { unfold joint. f_equal. apply map_ext. intros [c x]. unfold factor. cbn [fst snd].
      pose proof (alike_dims c) as H. destruct (dget c (v_dims v)), (dget c (v_dims v')); try contradiction; [|reflexivity].
      apply (H norow 0%Z x). }
    rewrite J'. do 2 f_equal.
    assert (Pv : Permutation (dvals (v_rows v)) (dvals (v_rows v'))) by (apply Permutation_map, alike_perm).
    rewrite (sum_same _ (clusters v) (clusters v')).
    - apply Rsum_ext. intros k _. rewrite J. unfold size. rewrite (occ_perm k _ _ Pv). reflexivity.
    - apply NoDup_nodup.
    - apply NoDup_nodup.
    - intros k. unfold clusters. rewrite !nodup_In. split; intros H.
      + eapply Permutation_in; [exact Pv|exact H].
      + eapply Permutation_in; [apply Permutation_sym; exact Pv|exact H].
  Qed.

  Lemma alike_settled : settled X v -> settled X v'.
  Proof.
    intros H. destruct C as [_ [O [_ [A _]]]]. pose proof C' as [Hv' [O' [_ [A' _]]]]. split.
    - exact Hv'.
    - intros r k Hk. rewrite <- Hr in Hk. exact (st_nonneg _ _ H r k Hk).
    - intros E. apply (st_rows _ _ H). apply Permutation_nil. rewrite <- E. apply Permutation_sym, alike_perm.
    - rewrite A', <- A. apply H.
    - rewrite O', <- O, (cfg_keys X v0 v' C'), <- (cfg_keys X v0 v C). apply H.
    - intros c a E. pose proof (solid_all v' c a (cfg_solid X v0 v' Hs C') E) as [H1 [H2 _]]. auto.
  Qed.

  (** Every query for a new row has the same answer. *)
  Lemma alike_logpdf r T K : settled X v -> of_view v T -> of_view v K -> v_hypothetical v r = true ->
    view_logpdf v' r T K = view_logpdf v r T K.
  Proof.
    intros H HT HK Hh. pose proof (alike_settled H) as H'.
    assert (HT' : of_view v' T).
    { unfold of_view. rewrite (cfg_keys X v0 v' C'), <- (cfg_keys X v0 v C). exact HT. }
    assert (HK' : of_view v' K).
    { unfold of_view. rewrite (cfg_keys X v0 v' C'), <- (cfg_keys X v0 v C). exact HK. }
    assert (Hh' : v_hypothetical v' r = true).
    { unfold v_hypothetical. rewrite <- (Permutation_length alike_perm). exact Hh. }
    destruct (view_logpdf_eq v (proj1 (st_inv _ _ H)) (st_rows _ _ H) (nonneg_norow v (st_nonneg _ _ H)) (st_alpha _ _ H)
      (settled_clusters X v H) r T K Hh (settled_query X v T H HT) (settled_query X v K H HK)) as [E0 E1].
    destruct (view_logpdf_eq v' (proj1 (st_inv _ _ H')) (st_rows _ _ H') (nonneg_norow v' (st_nonneg _ _ H')) (st_alpha _ _ H')
      (settled_clusters X v' H') r T K Hh' (settled_query X v' T H' HT') (settled_query X v' K H' HK')) as [E0' E1'].
    rewrite <- !alike_mixture in *.
    pose proof (mixture_nonneg v (proj1 (st_inv _ _ H)) (st_rows _ _ H) (st_alpha _ _ H) (settled_clusters X v H) K) as Hn.
    destruct (Req_dec (mixture v K) 0) as [Hz|Hz].
    - rewrite E0, E0' by exact Hz. reflexivity.
    - rewrite E1, E1' by lra. reflexivity.
  Qed.
End Alike.
