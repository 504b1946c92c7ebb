(** Inserting a row with an explicit cluster and removing it again. *)
From Verif Require Export RowFacts.
Local Open Scope R_scope.

(** The column is as before, but for the spare component and its parameter
    stream. *)
Definition unchanged (a a' : adim) : Prop :=
  exists d', a' = ADim (a_M a) d' /\ d_clusters d' = d_clusters (a_d a) /\
    d_zr d' = d_zr (a_d a) /\ d_zi d' = d_zi (a_d a) /\ d_hyp d' = d_hyp (a_d a) /\
    d_grids d' = d_grids (a_d a) /\ d_set d' = d_set (a_d a) /\ d_ins d' = d_ins (a_d a) /\
    d_tape d' = d_tape (a_d a).

Lemma unchanged_score a a' : unchanged a a' -> a_score a' = a_score a.
Proof. intros [d' [-> [E _]]]. unfold a_score, dim_score. simpl. rewrite E. reflexivity. Qed.

Lemma a_inc_undo a r k x ins a1 : ainv a -> a_incorporate a r k x ins = (a1, Ok tt) ->
  exists a2, a_unincorporate a1 r = (a2, Ok tt) /\
    (In k (akeys a) -> unchanged a a2) /\ (~ In k (akeys a) -> In k (akeys a2) /\ unchanged a (a_drop k a2)).
Proof.
  intros Ha Ei. destruct (a_inc_ok _ _ _ _ _ _ Ha Ei) as [_ [_ [Hn _]]].
  destruct (inc_shape _ _ _ _ _ _ Ha Ei) as [I1 I2].
  destruct Ha as [HL Hi]. destruct a as [M d]. unfold acontent in Hn. simpl in *.
  apply (content_none _ _ _ _ Hi) in Hn. destruct Hn as [N1 N2].
  assert (Hop : forall w, dset k w (d_clusters (open_cluster M d k)) =
                  dset k w (d_clusters d)).
  { intros w. unfold open_cluster. destruct (dmem k (d_clusters d)); [reflexivity|]. simpl.
    apply dset_dset. }
  assert (Hrest : d_zr (open_cluster M d k) = d_zr d /\ d_zi (open_cluster M d k) = d_zi d /\
     d_hyp (open_cluster M d k) = d_hyp d /\ d_grids (open_cluster M d k) = d_grids d /\
     d_set (open_cluster M d k) = d_set d /\ d_ins (open_cluster M d k) = d_ins d /\
     d_tape (open_cluster M d k) = d_tape d).
  { unfold open_cluster. destruct (dmem k (d_clusters d)); auto 10. }
  destruct Hrest as [R1 [R2 [R3 [R4 [R5 [R6 R7]]]]]].
  set (c := cluster_of M d k) in *.
  assert (Hcl : (In k (dkeys (d_clusters d)) -> dset k c (d_clusters d) = d_clusters d) /\
                (~ In k (dkeys (d_clusters d)) -> ddel k (dset k c (d_clusters d)) = d_clusters d)).
  { split; [|intros H; apply ddel_dset_fresh; exact H].
    intros H. apply in_dkeys_Some in H. destruct H as [c' Hc']. unfold c, cluster_of.
    rewrite Hc'. apply dset_same. exact Hc'. }
  assert (Hopc : d_clusters (open_cluster M d k) = dset k c (d_clusters d)).
  { rewrite <- Hop. symmetry. apply dset_same. exact I1. }
  destruct Hcl as [Hcl1 Hcl2].
  assert (Hin : In k (dkeys (dset k c (d_clusters d)))) by (apply in_dkeys_dset; auto).
  destruct (valid_cell x ins) as [[v l]|].
  - destruct I2 as [c' [Em ->]]. unfold a_unincorporate, dim_unincorporate. simpl.
    unfold dmem. rewrite R2, N2. rewrite dget_dset_same, dget_dset_same.
    rewrite (ml_undo _ _ HL _ _ _ _ _ Em).
    eexists. split; [reflexivity|].
    rewrite ddel_dset_fresh by (apply dget_None_notin; exact N1).
    rewrite dset_dset, !Hop.
    split; intros Hk.
    + eexists. split; [reflexivity|]. simpl. rewrite Hcl1 by exact Hk. auto 10.
    + split; [exact Hin|]. eexists. split; [reflexivity|]. simpl. rewrite Hcl2 by exact Hk. auto 10.
  - subst a1. unfold a_unincorporate, dim_unincorporate. simpl.
    unfold dmem. rewrite dget_dset_same.
    eexists. split; [reflexivity|].
    rewrite ddel_dset_fresh by (apply dget_None_notin; exact N2).
    split; intros Hk.
    + eexists. split; [reflexivity|]. simpl. rewrite Hopc, Hcl1 by exact Hk. auto 10.
    + unfold akeys. simpl. rewrite Hopc. split; [exact Hin|]. eexists. split; [reflexivity|].
      simpl. rewrite Hopc, Hcl2 by exact Hk. auto 10.
Qed.

Lemma dims_inc_undo X r k obs ds ds1 : dims_incorporate X r k obs ds = (ds1, Ok tt) ->
  Forall (fun p => ainv (snd p)) ds ->
  exists ds2, dims_unincorporate r ds1 = (ds2, Ok tt) /\
    Forall2 (fun p q => fst p = fst q /\ (In k (akeys (snd p)) -> unchanged (snd p) (snd q)) /\
      (~ In k (akeys (snd p)) -> In k (akeys (snd q)) /\ unchanged (snd p) (a_drop k (snd q)))) ds ds2.
Proof.
  revert ds1. induction ds as [|[c a] ds IH]; intros ds1; simpl.
  { intros E _. injection E as <-. exists []. split; [reflexivity|constructor]. }
  destruct (dget c obs) as [x|]; [|discriminate].
  destruct (input_values X r a) as [ins|]; [|discriminate].
  destruct (a_incorporate a r k x ins) as [a1 [[]|e]] eqn:Ei; [|discriminate].
  destruct (dims_incorporate X r k obs ds) as [ds3 r3] eqn:Ed. intros E Ha. injection E as <- ->.
  inversion Ha; subst. simpl in *.
  destruct (a_inc_undo _ _ _ _ _ _ ltac:(eassumption) Ei) as [a2 [E2 [U1 U2]]].
  destruct (IH ds3 eq_refl ltac:(assumption)) as [ds2 [Eu F]].
  simpl. rewrite E2, Eu. eexists. split; [reflexivity|]. constructor; [|exact F].
  simpl. auto.
Qed.

(** The view is as before. *)
Definition view_restored (v v' : view) : Prop :=
  v_crp v' = v_crp v /\ v_out v' = v_out v /\ v_grid v' = v_grid v /\
  Forall2 (fun p q => fst p = fst q /\ unchanged (snd p) (snd q)) (v_dims v) (v_dims v').

Lemma view_inc_undo X0 X draws v r k obs v1 : vinv X0 v ->
  view_incorporate X draws v r (Some k) obs = (v1, Ok tt) ->
  exists v2, view_unincorporate v1 r = (v2, Ok tt) /\ view_restored v v2.
Proof.
  intros [Hc [Hn Hd]] E. unfold view_incorporate, view_insert in E.
  destruct (crp_incorporate (v_crp v) r k) as [c1 [[]|e]] eqn:Ec; [|discriminate].
  destruct (dims_incorporate X r k obs (v_dims v)) as [ds1 [[]|e]] eqn:Ed; [|discriminate].
  injection E as <-.
  assert (Hall : Forall (fun p => ainv (snd p) /\
      (In k (akeys (snd p)) <-> In k (dkeys (c_counts (v_crp v))))) (v_dims v)).
  { apply Forall_forall. intros [c a] Hin. apply (dget_In_NoDup _ _ _ Hn) in Hin.
    destruct (Hd c a Hin) as [A [B _]]. auto. }
  destruct (dims_inc_undo _ _ _ _ _ _ Ed) as [ds2 [Eu F]].
  { eapply Forall_impl; [|exact Hall]. intros p [H _]. exact H. }
  unfold view_unincorporate. simpl. rewrite Eu. unfold v_rows. simpl.
  destruct (crp_inc_spec _ _ _ _ Hc Ec) as [_ [_ [Dt _]]]. rewrite Dt, dget_dset_same.
  rewrite (crp_uninc_inc _ _ _ _ Hc Ec).
  destruct (dmem k (c_counts (v_crp v))) eqn:Em.
  - eexists. split; [reflexivity|]. do 3 (split; [reflexivity|]). simpl.
    apply dmem_in in Em. clear - F Hall Em.
    induction F as [|p q t t2 [E [U1 _]] _ IH]; constructor; inversion Hall as [|? ? [_ HK]]; subst.
    + split; [exact E|]. apply U1. apply HK. exact Em.
    + apply IH; assumption.
  - apply dmem_false in Em.
    assert (G : exists ds3, dims_drop_cluster k ds2 = (ds3, Ok tt) /\
      Forall2 (fun p q => fst p = fst q /\ unchanged (snd p) (snd q)) (v_dims v) ds3).
    { clear - F Hall Em. induction F as [|[c a] [c' b] t t2 [E [_ U2]] _ IH]; simpl.
      - exists []. split; [reflexivity|constructor].
      - inversion Hall as [|? ? [_ HK]]; subst. simpl in *. subst c'.
        destruct U2 as [U2 U3]; [rewrite HK; exact Em|].
        apply dmem_in in U2. rewrite U2. destruct IH as [ds3 [-> F3]]; [assumption|].
        eexists. split; [reflexivity|]. constructor; [split; [reflexivity|exact U3]|exact F3]. }
    destruct G as [ds3 [-> F3]]. eexists. split; [reflexivity|].
    do 3 (split; [reflexivity|]). exact F3.
Qed.

Lemma restored_score lgam v v' : view_restored v v' -> view_score lgam v' = view_score lgam v.
Proof.
  intros [E1 [_ [_ F]]]. unfold view_score, view_likelihood. rewrite E1. do 3 f_equal. 
  assert (G : map a_score (dvals (v_dims v')) = map a_score (dvals (v_dims v)));
    [|rewrite G; reflexivity].
  unfold dvals. induction F as [|p q t t2 [_ U] _ IH]; [reflexivity|]. simpl.
  rewrite (unchanged_score _ _ U), IH. reflexivity.
Qed.
