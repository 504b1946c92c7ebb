(** Lemmas about writing down and rebuilding views and states. *)
From Verif Require Import ListFacts P06_Dim P07_View LogSpaceFacts.
From Verif Require Export Metadata RowGibbs StateFacts RelevanceFacts.
From Coq Require Import Lia Permutation Sorted.
Local Open Scope R_scope.

(* ------------------------------------------------------------------ *)
(** ** Dictionaries and lists *)

Lemma dset_new {A} k (x : A) d : ~ In k (dkeys d) -> dset k x d = d ++ [(k, x)].
Proof.
  induction d as [|[k' y] d IH]; simpl; [reflexivity|]. intros H.
  destruct (Z.eqb_spec k k') as [->|Hn]; [exfalso; auto|]. rewrite IH by tauto. reflexivity.
Qed.

Lemma dict_of_id {A} (l : list (Z * A)) : NoDup (dkeys l) -> dict_of l = l.
Proof.
  unfold dict_of.
  assert (G : forall d, NoDup (dkeys (d ++ l)) -> fold_left (fun d kv => dset (fst kv) (snd kv) d) l d = d ++ l).
  { induction l as [|[k x] l IH]; intros d H; simpl; [rewrite app_nil_r; reflexivity|].
    assert (E : d ++ (k, x) :: l = (d ++ [(k, x)]) ++ l) by (rewrite <- app_assoc; reflexivity).
    rewrite dset_new.
    - rewrite IH; [rewrite <- E; reflexivity|rewrite <- E; exact H].
    - unfold dkeys in *. rewrite map_app in H. simpl in H. apply NoDup_remove_2 in H.
      intros Hi. apply H. apply in_or_app. auto. }
  intros H. apply (G []). exact H.
Qed.

Lemma dget_app {A} k (d e : dict A) : dget k (d ++ e) = match dget k d with Some x => Some x | None => dget k e end.
Proof. induction d as [|[k' x] d IH]; simpl; [reflexivity|]. destruct (k =? k')%Z; [reflexivity|exact IH]. Qed.

Lemma range_sorted n : StronglySorted Z.le (range n).
Proof.
  unfold range. generalize 0%nat. induction (Z.to_nat n) as [|m IH]; intros i; simpl; constructor; [apply IH|].
  apply Forall_forall. intros x Hx. apply in_map_iff in Hx. destruct Hx as [j [<- Hj]]. apply in_seq in Hj. lia.
Qed.
Lemma range_NoDup n : NoDup (range n).
Proof. unfold range. apply FinFun.Injective_map_NoDup; [intros i j E; lia|apply seq_NoDup]. Qed.

Lemma sort_dense l n : NoDup l -> (forall x, In x l <-> (0 <= x < n)%Z) -> zsort l = range n.
Proof.
  intros H E. transitivity (zsort (range n)).
  - apply zsort_ext; [exact H|apply range_NoDup|]. intros x. rewrite E, in_range. tauto.
  - apply sorted_unique; [apply zsort_sorted|apply range_sorted|apply zsort_perm].
Qed.

(** The results of a function tabulated along a list of keys. *)
Lemma dget_tabulated {A} (g : Z -> option A) (e : exn) l z :
  rsequence (map (fun i => match g i with Some k => Ok k | None => Err e end) l) = Ok z ->
  length z = length l /\ forall r, dget r (combine l z) = if zmem r l then g r else None.
Proof.
  revert z. induction l as [|i l IH]; intros z; simpl.
  { intros E. injection E as <-. auto. }
  destruct (g i) as [k|] eqn:Eg; [|discriminate]. cbn [rbind].
  destruct (rsequence _) as [z0|]; [|discriminate]. cbn [rbind]. intros E. injection E as <-.
  destruct (IH z0 eq_refl) as [L D]. split; [simpl; congruence|]. intros r. simpl. rewrite D.
  destruct (Z.eqb_spec r i) as [->|Hn]; [rewrite Eg; reflexivity|]. reflexivity.
Qed.

Lemma tabulate_total {A} (g : Z -> option A) (e : exn) l : (forall i, In i l -> g i <> None) ->
  exists z, rsequence (map (fun i => match g i with Some k => Ok k | None => Err e end) l) = Ok z.
Proof.
  induction l as [|i l IH]; intros H; simpl; [eauto|].
  destruct (g i) eqn:Eg; [|exfalso; apply (H i); [left; reflexivity|exact Eg]].
  destruct IH as [z ->]; [intros j Hj; apply H; right; exact Hj|]. simpl. eauto.
Qed.

(* ------------------------------------------------------------------ *)
(** ** The row partition *)

Definition dense (v : view) (n : nat) : Prop :=
  forall r, In r (dkeys (v_rows v)) <-> (0 <= r < Z.of_nat n)%Z.

Lemma row_list_spec v n : crp_inv (v_crp v) -> dense v n ->
  exists z, row_list v = Ok z /\ length z = n /\
    forall r, dget r (combine (range (Z.of_nat n)) z) = dget r (v_rows v).
Proof.
  intros Hc Hd. unfold row_list.
  rewrite (sort_dense _ (Z.of_nat n)) by (try exact Hd; apply Hc).
  destruct (tabulate_total (fun i => dget i (v_rows v)) KeyError (range (Z.of_nat n))) as [z E].
  { intros i Hi. apply in_range, Hd, in_dkeys_Some in Hi. destruct Hi as [x ->]. discriminate. }
  exists z. split; [exact E|]. destruct (dget_tabulated _ _ _ _ E) as [L D].
  split; [rewrite L, length_range; lia|]. intros r. rewrite D.
  destruct (zmem r (range (Z.of_nat n))) eqn:Em; [reflexivity|].
  symmetry. apply dget_None_notin. intros Hi. apply Hd, in_range in Hi. apply zmem_false in Em. contradiction.
Qed.

Lemma seat_given_total l : forall c, crp_inv c -> NoDup (map fst l) ->
  (forall i, In i (map fst l) -> ~ In i (dkeys (c_data c))) ->
  exists c', seat_given l c = Ok c' /\ crp_inv c' /\ c_alpha c' = c_alpha c /\ c_data c' = c_data c ++ l.
Proof.
  induction l as [|[i k] l IH]; intros c Hc Hn Hd; cbn [seat_given].
  { exists c. rewrite app_nil_r. auto. }
  cbn [map fst] in Hn, Hd. apply NoDup_cons_iff in Hn. destruct Hn as [Hni Hn].
  destruct (crp_incorporate c i k) as [c1 r] eqn:E1.
  assert (r = Ok tt).
  { unfold crp_incorporate in E1. rewrite (proj2 (dmem_false i (c_data c))) in E1; [injection E1 as _ <-; reflexivity|].
    apply Hd. left. reflexivity. }
  subst r. destruct (crp_inc_spec _ _ _ _ Hc E1) as [A [B [C [_ D]]]].
  cbn [rbind]. rewrite dset_new in C by (apply Hd; left; reflexivity).
  destruct (IH c1 A Hn) as [c' [E [I [L G]]]].
  { intros j Hj. rewrite C. unfold dkeys. rewrite map_app, in_app_iff. intros [H|[<-|[]]]; [|contradiction].
    eapply Hd; [right; exact Hj|exact H]. }
  exists c'. split; [exact E|]. split; [exact I|]. split; [congruence|].
  rewrite G, C, <- app_assoc. reflexivity.
Qed.

Lemma view_make_again X o seed z n : X <> [] -> length z = n ->
  exists w, view_make X o seed (Some z) = Ok w /\ crp_inv (v_crp w) /\ v_out w = o /\ v_dims w = [] /\
    v_rows w = combine (range (Z.of_nat n)) z /\ c_alpha (v_crp w) = vs_alpha seed /\ v_grid w = vs_grid seed.
Proof.
  intros HX Hz. unfold view_make. destruct X as [|[c l] X]; [contradiction|]. rewrite Hz.
  destruct (seat_given_total (combine (range (Z.of_nat n)) z) (crp_new (vs_alpha seed))) as [k [-> [I [A D]]]].
  - apply crp_inv_new.
  - rewrite map_fst_combine by (rewrite length_range; lia). apply range_NoDup.
  - simpl. auto.
  - cbn [rbind]. eexists. split; [reflexivity|]. cbn. auto 10.
Qed.

(* ------------------------------------------------------------------ *)
(** ** Columns *)

(** [b] has the class, inputs and hyperparameters of [a], and its components use them. *)
Definition twin (a b : adim) : Prop :=
  exists d', b = ADim (a_M a) d' /\ d_ins d' = d_ins (a_d a) /\ d_hyp d' = d_hyp (a_d a) /\ agree d'.

Lemma twin_akin a b : twin a b -> akin a b.
Proof. intros [d' [-> [H _]]]. exists d'. auto. Qed.

(** Components of the class have no parameters beside the hyperparameters. *)
Definition no_params (M : model) : Prop := forall q q' : mQ M, q = q'.

Lemma zdict_rows a rows : ainv a -> NoDup (dkeys rows) ->
  (forall r, match dget r rows with
             | Some k => exists e, acontent a r = Some (k, e) | None => acontent a r = None end) ->
  zdict_eq (d_zr (a_d a) ++ d_zi (a_d a)) rows = true.
Proof.
  intros [HL Hi] Hn H. set (z := d_zr (a_d a) ++ d_zi (a_d a)).
  assert (Hz : NoDup (dkeys z)).
  { unfold z, dkeys. rewrite map_app. apply NoDup_app_intro; [apply (di_nr _ _ _ Hi)|apply (di_ni _ _ _ Hi)|].
    intros r H1 H2. apply in_dkeys_Some in H1. destruct H1 as [k H1].
    pose proof (di_disj _ _ _ Hi r k H1) as H3. apply dget_None_notin in H3. contradiction. }
  assert (E : forall r, dget r z = dget r rows).
  { intros r. unfold z. rewrite dget_app. specialize (H r). unfold acontent in H.
    destruct (dget r rows) as [k|].
    - destruct H as [e H]. unfold content in H. destruct (dget r (d_zr (a_d a))) as [k1|] eqn:E1.
      + rewrite (di_disj _ _ _ Hi r k1 E1) in H. destruct (dget k1 _); [|discriminate].
        destruct (dget r _); [|discriminate]. injection H as -> _. reflexivity.
      + destruct (dget r (d_zi (a_d a))) as [k1|]; [injection H as -> _; reflexivity|discriminate].
    - apply (content_none _ _ _ _ Hi) in H. destruct H as [-> ->]. reflexivity. }
  unfold zdict_eq. apply andb_true_intro. split.
  - apply Nat.eqb_eq. apply Permutation_length, rows_perm; assumption.
  - apply forallb_forall. intros [r k] Hin. cbn [fst snd]. rewrite <- E, (dget_In_NoDup _ _ _ Hz Hin).
    apply Z.eqb_refl.
Qed.

Lemma bulk_rows_progress T w c a : vinv T w -> dget c (v_dims w) = Some a ->
  forall rows b, ainv b -> akin a b -> NoDup (dkeys rows) ->
  (forall r, In r (dkeys rows) -> In r (dkeys (v_rows w)) /\ acontent b r = None) ->
  exists b', bulk_rows T c rows b = (b', Ok tt).
Proof.
  intros Hv Ea. induction rows as [|[r k] rows IH]; intros b Hb Hk Hn Hr; cbn [bulk_rows]; [eauto|].
  cbn [dkeys map fst] in Hn, Hr. apply NoDup_cons_iff in Hn. destruct Hn as [Hnr Hn].
  destruct (Hr r (or_introl eq_refl)) as [Hin Hno]. apply in_dkeys_Some in Hin. destruct Hin as [z Hz].
  destruct Hv as [_ [_ Hd]]. destruct (Hd c a Ea) as [Ia [_ Hc]]. specialize (Hc r). rewrite Hz in Hc.
  destruct Hc as [e [He Hc]]. unfold expected in He.
  destruct (T c r) as [x|]; [|discriminate]. rewrite (akin_input T r a b Hk).
  destruct (input_values T r a) as [ins|]; [|discriminate]. injection He as <-.
  destruct (a_inc_progress a b r z _ k x ins Ia Hb Hk Hc Hno eq_refl) as [b1 E1]. rewrite E1.
  destruct (a_inc_ok _ _ _ _ _ _ Hb E1) as [K1 [I1 [_ [C1 _]]]].
  apply IH; [exact I1|eapply akin_trans; eassumption|exact Hn|].
  intros r' Hr'. split; [apply Hr; right; exact Hr'|].
  rewrite C1. destruct (Z.eqb_spec r' r) as [->|Hne]; [contradiction|]. apply Hr. right. exact Hr'.
Qed.

Lemma bulk_progress T w w0 c a b : vinv T w -> dget c (v_dims w) = Some a -> crp_inv (v_crp w0) ->
  (forall r, In r (dkeys (v_rows w0)) -> In r (dkeys (v_rows w))) ->
  ainv b -> akin a b -> exists b', bulk_incorporate T w0 c b = (b', Ok tt).
Proof.
  intros Hv Ea Hc Hr Hb Hk. destruct (a_reset_ok b Hb) as [R1 [R2 [R3 _]]].
  assert (Hn : NoDup (dkeys (v_rows w0))) by apply Hc.
  destruct (bulk_rows_progress T w c a Hv Ea (v_rows w0) (a_reset b)) as [b1 E1]; auto.
  { eapply akin_trans; eassumption. }
  unfold bulk_incorporate. rewrite E1.
  destruct (bulk_rows_spec _ _ _ _ _ R2 Hn E1) as [_ [I1 [C1 _]]].
  rewrite zdict_rows; [eauto|exact I1|exact Hn|]. intros r. specialize (C1 r).
  destruct (dget r (v_rows w0)); [|rewrite C1; apply R3]. destruct C1 as [_ [e [_ C1]]]. eauto.
Qed.

(** Columns of the same class and hyperparameters over the same rows give the same
    answers. *)
Definition like_column (a b : adim) : Prop :=
  (exists d', b = ADim (a_M a) d' /\ d_hyp d' = d_hyp (a_d a) /\ d_ins d' = d_ins (a_d a)) /\
  (forall r, acontent b r = acontent a r) /\
  (forall k, In k (akeys b) <-> In k (akeys a)) /\
  (forall r k x ins, a_logpdf b r k x ins = a_logpdf a r k x ins).

Lemma twin_component a b k ca cb : ainv a -> ainv b -> twin a b -> agree (a_d a) -> no_params (a_M a) ->
  (forall r, acontent b r = acontent a r) ->
  forall (Ea : dget k (d_clusters (a_d a)) = Some ca) (Eb : dget k (d_clusters (a_d b)) = Some cb),
  m_score (a_M b) cb = m_score (a_M a) ca /\
  forall r x l, m_logpdf (a_M b) cb r x l = m_logpdf (a_M a) ca r x l.
Proof.
  intros Ha Hb [d [-> [_ [B2 B3]]]] Hg Hq Hr Ea Eb. simpl in *.
  pose proof (content_rows a k ca) as C. pose proof (content_rows (ADim (a_M a) d) k cb) as C'.
  apply (ml_ext _ _ (proj1 Ha)).
  - apply (di_good _ _ _ (proj2 Hb) k cb Eb).
  - apply (di_good _ _ _ (proj2 Ha) k ca Ea).
  - intros r. specialize (C r). specialize (C' r). simpl in *.
    destruct (dget r (m_rows (a_M a) cb)) as [w|] eqn:E.
    + symmetry. apply C; [exact Ha|exact Ea|]. rewrite <- Hr. apply C'; auto.
    + destruct (dget r (m_rows (a_M a) ca)) as [w|] eqn:E'; [|reflexivity].
      apply C'; [exact Hb|exact Eb|]. rewrite Hr. apply C; auto.
  - destruct Hg as [_ Hg]. destruct B3 as [_ B3]. rewrite (Hg k ca Ea), (B3 k cb Eb). exact B2.
  - apply Hq.
Qed.

Lemma twin_spare a b : ainv a -> ainv b -> twin a b -> agree (a_d a) -> no_params (a_M a) ->
  forall r x l, m_logpdf (a_M b) (d_aux (a_d b)) r x l = m_logpdf (a_M a) (d_aux (a_d a)) r x l.
Proof.
  intros Ha Hb [d [-> [_ [B2 B3]]]] Hg Hq. simpl in *.
  destruct (di_aux _ _ _ (proj2 Ha)) as [G1 G2]. destruct (di_aux _ _ _ (proj2 Hb)) as [G1' G2']. simpl in *.
  apply (ml_ext _ _ (proj1 Ha)); auto.
  - intros r. rewrite G2, G2'. reflexivity.
  - destruct Hg as [Hg _]. destruct B3 as [B3 _]. rewrite Hg, B3. exact B2.
Qed.

Lemma twin_same T v v' c a b : column_ok T v c a -> column_ok T v' c b -> crp_inv (v_crp v) -> crp_inv (v_crp v') ->
  (forall r, dget r (v_rows v') = dget r (v_rows v)) ->
  twin a b -> agree (a_d a) -> no_params (a_M a) -> like_column a b.
Proof.
  intros [Ia [Ka Ca]] [Ib [Kb Cb]] Iv Iv' Hr Ht Hg Hq.
  assert (HC : forall r, acontent b r = acontent a r).
  { intros r. specialize (Ca r). specialize (Cb r). rewrite Hr in Cb.
    destruct (dget r (v_rows v)) as [k|]; [|congruence].
    destruct Ca as [e [E1 ->]]. destruct Cb as [e' [E2 ->]].
    rewrite (akin_expected T c a b r (twin_akin _ _ Ht)) in E2. congruence. }
  assert (HK : forall k, In k (akeys b) <-> In k (akeys a)).
  { intros k. rewrite Ka, Kb.
    assert (G : forall w w' : view, crp_inv (v_crp w) -> crp_inv (v_crp w') ->
      (forall r, dget r (v_rows w') = dget r (v_rows w)) ->
      In k (dkeys (c_counts (v_crp w'))) -> In k (dkeys (c_counts (v_crp w)))).
    { intros w w' I1 I2 E H. apply (crp_counts_rows _ _ I2) in H. destruct H as [r H].
      apply (crp_rows_counts _ r _ I1). rewrite <- H. symmetry. apply E. }
    split; eapply G; eauto. }
  split; [|split; [exact HC|split; [exact HK|]]].
  - destruct Ht as [d [-> [H1 [H2 _]]]]. exists d. auto.
  - intros r k x ins. unfold a_logpdf, dim_logpdf. destruct (valid_cell x ins) as [[y l]|]; [|reflexivity].
    unfold cluster_of. specialize (HK k). unfold akeys in HK.
    destruct (dget k (d_clusters (a_d b))) as [cb|] eqn:Eb.
    + assert (Hin : In k (dkeys (d_clusters (a_d a)))) by (apply HK; eapply dget_Some_in; exact Eb).
      apply in_dkeys_Some in Hin. destruct Hin as [ca Eca]. rewrite Eca.
      apply (twin_component a b k ca cb); assumption.
    + destruct (dget k (d_clusters (a_d a))) as [ca|] eqn:Eca.
      * apply dget_Some_in in Eca. apply HK in Eca. apply dget_None_notin in Eb. contradiction.
      * apply twin_spare; assumption.
Qed.

(* ------------------------------------------------------------------ *)
(** ** Scores: sums in another order *)

Lemma eadd_comm x y : eadd x y = eadd y x.
Proof. destruct x, y; simpl; try reflexivity. f_equal. lra. Qed.
Lemma eadd_assoc x y z : eadd x (eadd y z) = eadd (eadd x y) z.
Proof. destruct x, y, z; simpl; try reflexivity. f_equal. lra. Qed.

Lemma esum_acc_swap l : forall x y, fold_left eadd l (eadd x y) = eadd x (fold_left eadd l y).
Proof.
  induction l as [|z l IH]; intros x y; simpl; [reflexivity|]. rewrite <- eadd_assoc. apply IH.
Qed.
Lemma esum_perm l m : Permutation l m -> esum l = esum m.
Proof.
  unfold esum. generalize (Fin 0). intros e P. revert e.
  induction P as [|x l m _ IH|x y l|l m k _ IH1 _ IH2]; intros e; simpl; auto.
  - rewrite <- !eadd_assoc, (eadd_comm y x). reflexivity.
  - rewrite IH1. apply IH2.
Qed.

Lemma rsum_perm l m e : Permutation l m -> rsum_ext l = Ok e -> rsum_ext m = Ok e.
Proof.
  intros P. unfold rsum_ext. destruct (rsequence l) as [x|] eqn:E; [|discriminate]. cbn [rbind].
  intros H. apply rsequence_ok in E. subst l. apply Permutation_sym, Permutation_map_inv in P.
  destruct P as [y [-> P]]. rewrite rsequence_map_ok. cbn [rbind]. rewrite <- H. f_equal.
  apply esum_perm. apply Permutation_sym; exact P.
Qed.

Lemma same_score a b e : ainv a -> ainv b -> twin a b -> agree (a_d a) -> no_params (a_M a) ->
  like_column a b -> a_score a = Ok e -> a_score b = Ok e.
Proof.
  intros Ia Ib Ht Hg Hq [_ [HC [HK _]]]. unfold a_score, dim_score.
  set (f := fun k => match dget k (d_clusters (a_d a)) with Some c => m_score (a_M a) c | None => Err KeyError end).
  set (g := fun k => match dget k (d_clusters (a_d b)) with Some c => m_score (a_M b) c | None => Err KeyError end).
  assert (E1 : forall M (h : mS M -> res ext) (d : dict (mS M)), NoDup (dkeys d) -> map h (dvals d) =
    map (fun k => match dget k d with Some c => h c | None => Err KeyError end) (dkeys d)).
  { intros M h d Hn. unfold dvals, dkeys. rewrite !map_map. apply map_ext_in. intros [k c] Hin. cbn [fst snd].
    rewrite (dget_In_NoDup _ _ _ Hn Hin). reflexivity. }
  pose proof (di_nc _ _ _ (proj2 Ia)) as Na. pose proof (di_nc _ _ _ (proj2 Ib)) as Nb.
  rewrite (E1 _ _ _ Na), (E1 _ _ _ Nb). fold f g.
  assert (P : Permutation (dkeys (d_clusters (a_d a))) (dkeys (d_clusters (a_d b)))).
  { apply NoDup_Permutation; auto. intros k. symmetry. apply HK. }
  apply rsum_perm. eapply Permutation_trans; [apply Permutation_map; exact P|].
  erewrite map_ext_in; [apply Permutation_refl|].
  intros k Hk. unfold f, g. pose proof Hk as Hk'. apply (HK k) in Hk'.
  apply in_dkeys_Some in Hk. destruct Hk as [cb Eb]. apply in_dkeys_Some in Hk'. destruct Hk' as [ca Ea].
  rewrite Ea, Eb. symmetry. apply (twin_component a b k ca cb); assumption.
Qed.

(* ------------------------------------------------------------------ *)
(** ** Rebuilding a view *)

(** What a column uses is what is written down: its class has no parameters beside the
    hyperparameters, its components use the hyperparameters of the column, and these
    are set; the score of the column is defined. *)
Record written (a : adim) : Prop := {
  wr_par : no_params (a_M a);
  wr_agree : agree (a_d a);
  wr_set : d_set (a_d a) = true;
  wr_score : exists e, a_score a = Ok e
}.

Lemma dim_new_inv M h set ins tape : mlaws M (reach M) -> ainv (ADim M (dim_new M h set ins tape)).
Proof.
  intros HL. split; [exact HL|]. simpl. destruct (ml_new _ _ HL h (tape 0%nat)) as [G1 [G2 _]].
  constructor; simpl; try (constructor; fail); try discriminate; auto.
Qed.

(** Class, inputs and hyperparameters at once. *)
Definition ihkin (a b : adim) : Prop :=
  exists d', b = ADim (a_M a) d' /\ d_ins d' = d_ins (a_d a) /\ d_hyp d' = d_hyp (a_d a).
Lemma ihkin_trans a b c : ihkin a b -> twin b c -> twin a c.
Proof.
  intros [d [-> [H1 H2]]] [d' [-> [H1' [H2' H3]]]]. exists d'. simpl in *.
  split; [reflexivity|]. split; [congruence|]. split; [congruence|exact H3].
Qed.

Lemma column_again f c a : ainv a -> d_set (a_d a) = true ->
  exists b, col_make (column_spec f c (column_meta a)) = (b, Ok tt) /\ ainv b /\ akin a b /\ ihkin a b.
Proof.
  intros Ia Hs. unfold col_make, column_spec. cbn [cs_col cs_grids cs_picks].
  pose proof (dim_new_inv (a_M a) (d_hyp (a_d a)) (d_set (a_d a)) (d_ins (a_d a)) (rd_tape f c (a_M a) (d_tape (a_d a))) (proj1 Ia)) as I0.
  cbn [column_meta cm_M cm_hyp cm_set cm_ins cm_tape].
  destruct (a_call _ _) as [b r] eqn:E. destruct (a_call_same _ _ _ _ I0 E) as [_ [Ib _]].
  unfold a_call, dim_transition_grids, dim_new in E. cbn in E. rewrite Hs in E. injection E as <- <-.
  eexists. split; [reflexivity|]. split; [exact Ib|]. split; eexists; repeat (split; try reflexivity).
Qed.

Lemma bulk_rows_twin X c rows : forall a a', ainv a -> agree (a_d a) -> bulk_rows X c rows a = (a', Ok tt) ->
  twin a a' /\ ainv a'.
Proof.
  induction rows as [|[r k] rows IH]; intros a a' Ha Hg; simpl.
  { intros E. injection E as <-. split; [|exact Ha]. exists (a_d a). destruct a. auto. }
  destruct (X c r) as [x|]; [|discriminate]. destruct (input_values X r a) as [ins|]; [|discriminate].
  destruct (a_incorporate a r k x ins) as [a1 [[]|]] eqn:Ea; [|discriminate]. intros E.
  destruct (a_inc_ok _ _ _ _ _ _ Ha Ea) as [_ [Ia1 _]].
  unfold a_incorporate in Ea. destruct (dim_incorporate (a_M a) (a_d a) r (Some k) x ins) as [d1 r1] eqn:Ed.
  injection Ea as <- ->.
  destruct (agree_inc _ _ _ _ _ _ _ _ (proj1 Ha) (proj2 Ha) Hg Ed) as [G1 G2].
  destruct (dim_inc_kept _ _ _ _ _ _ _ _ Ed) as [G3 _].
  destruct (IH _ _ Ia1 G1 E) as [[d2 [-> [K1 [K2 K3]]]] I2]. simpl in *. split; [|exact I2].
  exists d2. split; [reflexivity|]. split; [congruence|]. split; [congruence|exact K3].
Qed.

Lemma bulk_twin X v c a a' : ainv a -> bulk_incorporate X v c a = (a', Ok tt) -> twin a a'.
Proof.
  intros Ha. unfold bulk_incorporate.
  destruct (bulk_rows X c (v_rows v) (a_reset a)) as [a1 [[]|e]] eqn:Eb; [|discriminate].
  destruct (zdict_eq _ _); [|discriminate]. intros E. injection E as <-.
  destruct (a_reset_ok a Ha) as [_ [Ir _]].
  assert (Hr : agree (a_d (a_reset a))).
  { split; simpl; [|discriminate]. apply (ml_new _ _ (proj1 Ha)). }
  destruct (bulk_rows_twin _ _ _ _ _ Ir Hr Eb) as [[d1 [-> [K1 [K2 K3]]]] I1].
  destruct (agree_params _ _ (proj1 I1) K3) as [G1 G2]. simpl in *.
  eexists. split; [reflexivity|]. split; [|split; [|exact G1]].
  - rewrite <- K1. reflexivity.
  - etransitivity; [exact G2|]. exact K2.
Qed.

Lemma columns_again T w f : vinv T w -> (forall c a, dget c (v_dims w) = Some a -> written a) ->
  forall cols w0, vinv T w0 -> (forall r, dget r (v_rows w0) = dget r (v_rows w)) ->
  NoDup (dkeys cols) ->
  (forall c k, In (c, k) cols -> exists a, dget c (v_dims w) = Some a /\ k = column_spec f c (column_meta a)) ->
  exists w', view_columns T w0 cols = Ok w' /\ v_out w' = v_out w0 /\ v_crp w' = v_crp w0 /\
    v_grid w' = v_grid w0 /\ vinv T w' /\
    ((forall c, In c (dkeys cols) -> ~ In c (dkeys (v_dims w0))) -> dkeys (v_dims w') = dkeys (v_dims w0) ++ dkeys cols) /\
    forall c, if zmem c (dkeys cols)
              then exists a b, dget c (v_dims w) = Some a /\ dget c (v_dims w') = Some b /\
                     like_column a b /\ twin a b /\ ainv b /\ (forall e, a_score a = Ok e -> a_score b = Ok e)
              else dget c (v_dims w') = dget c (v_dims w0).
Proof.
  intros Hv Hw. induction cols as [|[c k] cols IH]; intros w0 Hv0 Hr Hn Hc; cbn [view_columns].
  { exists w0. repeat (split; [first [reflexivity|exact Hv0]|]). split; [|reflexivity].
    intros _. simpl. rewrite app_nil_r. reflexivity. }
  cbn [dkeys map fst] in Hn. apply NoDup_cons_iff in Hn. destruct Hn as [Hnc Hn].
  destruct (Hc c k (or_introl eq_refl)) as [a [Ea ->]].
  pose proof (Hw c a Ea) as Ha.
  assert (Ca : column_ok T w c a) by (apply Hv; exact Ea).
  destruct (column_again f c a (proj1 Ca) (wr_set _ Ha)) as [b0 [-> [Ib0 [K0 H0]]]]. cbn [rbind].
  destruct (bulk_progress T w w0 c a b0 Hv Ea (proj1 Hv0)) as [b Eb]; auto.
  { intros r Hin. apply in_dkeys_Some in Hin. destruct Hin as [z Hz]. rewrite Hr in Hz. eapply dget_Some_in; exact Hz. }
  destruct (bulk_ok _ _ _ _ _ (proj1 Hv0) Ib0 Eb) as [K1 C1].
  assert (Ht : twin a b) by (apply (ihkin_trans _ _ _ H0), (bulk_twin _ _ _ _ _ Ib0 Eb)).
  assert (Hs : like_column a b).
  { apply (twin_same T w w0 c); try assumption; [apply Hv|apply Hv0|apply Ha|apply Ha]. }
  assert (Hsc : forall e, a_score a = Ok e -> a_score b = Ok e).
  { intros e. apply same_score; try assumption; [apply Ca|apply C1|apply Ha|apply Ha]. }
  assert (Ei : view_incorporate_dim T w0 c b0 true = (set_dims w0 (dset c b (v_dims w0)), b, Ok tt)).
  { unfold view_incorporate_dim. rewrite Eb. reflexivity. }
  destruct (incorporate_dim_ok _ _ _ _ true _ _ Hv0 Ib0 Ei) as [V1 _].
  rewrite Ei. cbn [rbind]. cbn [v_dims set_dims]. rewrite dget_dset_same.
  destruct (wr_score _ Ha) as [e He]. rewrite (Hsc e He). cbn [rbind].
  destruct (IH (set_dims w0 (dset c b (v_dims w0))) V1) as [w' [E [O [P [Gr [V [Kd D]]]]]]]; auto.
  { intros c' k' Hin. apply Hc. right. exact Hin. }
  exists w'. split; [exact E|]. split; [exact O|]. split; [exact P|]. split; [exact Gr|]. split; [exact V|]. split.
  { intros Hdis. cbn [v_dims set_dims] in Kd. rewrite dset_new in Kd by (apply Hdis; left; reflexivity).
    rewrite Kd.
    - unfold dkeys. rewrite map_app, <- app_assoc. reflexivity.
    - intros c' Hc'. unfold dkeys. rewrite map_app, in_app_iff. intros [H|[<-|[]]]; [|contradiction].
      eapply Hdis; [right; exact Hc'|exact H]. }
  intros c'. specialize (D c'). cbn [dkeys map fst zmem existsb]. unfold zmem in D.
  destruct (Z.eqb_spec c' c) as [->|Hne]; cbn [orb].
  - assert (Em : existsb (Z.eqb c) (dkeys cols) = false) by (apply zmem_false; exact Hnc).
    rewrite Em in D. cbn [v_dims set_dims] in D. rewrite dget_dset_same in D.
    exists a, b. pose proof (proj1 C1) as Ib. auto 10.
  - cbn [v_dims set_dims] in D. rewrite (dget_dset_other c' c) in D by auto. exact D.
Qed.

(** Two views with the same cluster variable, concentration, rows and columns. *)
Record vlike (w w' : view) : Prop := {
  al_out : v_out w' = v_out w;
  al_alpha : c_alpha (v_crp w') = c_alpha (v_crp w);
  al_rows : forall r, dget r (v_rows w') = dget r (v_rows w);
  al_n : length (v_rows w') = length (v_rows w);
  al_counts : forall k, dget k (c_counts (v_crp w')) = dget k (c_counts (v_crp w));
  al_cols : forall c, match dget c (v_dims w), dget c (v_dims w') with
                      | Some a, Some b => like_column a b /\ (forall e, a_score a = Ok e -> a_score b = Ok e)
                      | None, None => True
                      | _, _ => False
                      end
}.

Lemma alike_crp w w' : crp_inv (v_crp w) -> crp_inv (v_crp w') ->
  (forall r, dget r (v_rows w') = dget r (v_rows w)) ->
  length (v_rows w') = length (v_rows w) /\
  forall k, dget k (c_counts (v_crp w')) = dget k (c_counts (v_crp w)).
Proof.
  intros I I' E.
  assert (P : Permutation (v_rows w') (v_rows w)) by (apply rows_perm; [apply I'|apply I|exact E]).
  split; [apply Permutation_length; exact P|]. intros k.
  destruct I as [_ [[_ C] _]]. destruct I' as [_ [[_ C'] _]]. rewrite C, C'.
  assert (O : occ k (dvals (c_data (v_crp w'))) = occ k (dvals (c_data (v_crp w)))) by (apply occ_perm, Permutation_map; exact P). rewrite O. reflexivity.
Qed.

(** A view built from the rows and the columns of another is like it. *)
Lemma view_again X w f n seed z cols : X <> [] -> vinv (tab X) w -> dense w n ->
  (forall c a, dget c (v_dims w) = Some a -> written a) ->
  vs_alpha seed = c_alpha (v_crp w) -> row_list w = Ok z ->
  NoDup (dkeys cols) -> (forall c, In c (dkeys cols) <-> In c (dkeys (v_dims w))) ->
  (forall c k, In (c, k) cols -> exists a, dget c (v_dims w) = Some a /\ k = column_spec f c (column_meta a)) ->
  exists w0 w', view_make X (v_out w) seed (Some z) = Ok w0 /\
    view_columns (tab X) w0 cols = Ok w' /\ vlike w w' /\ vinv (tab X) w' /\
    v_grid w' = vs_grid seed /\ dkeys (v_dims w') = dkeys cols.
Proof.
  intros HX Hv Hd Hw Ha Ez Hn Hc Hs.
  destruct (row_list_spec w n (proj1 Hv) Hd) as [z' [Ez' [Lz Dz]]].
  assert (z' = z) by congruence. subst z'.
  destruct (view_make_again X (v_out w) seed z n HX Lz) as [w0 [E0 [I0 [O0 [D0 [R0 [A0 G0]]]]]]].
  assert (V0 : vinv (tab X) w0).
  { split; [exact I0|]. rewrite D0. split; [constructor|]. discriminate. }
  assert (Er : forall r, dget r (v_rows w0) = dget r (v_rows w)) by (intros r; rewrite R0; apply Dz).
  destruct (columns_again (tab X) w f Hv Hw cols w0 V0 Er Hn Hs) as [w' [E1 [O1 [P1 [G1 [V1 [K1 D1]]]]]]].
  exists w0, w'. split; [exact E0|]. split; [exact E1|].
  rewrite D0 in K1. split; [|split; [exact V1|split; [congruence|apply K1; simpl; auto]]].
  assert (Er' : forall r, dget r (v_rows w') = dget r (v_rows w)).
  { intros r. unfold v_rows. rewrite P1. apply Er. }
  destruct (alike_crp w w' (proj1 Hv) (proj1 V1) Er') as [L C].
  constructor; auto; try congruence.
  intros c. specialize (D1 c). destruct (zmem c (dkeys cols)) eqn:Em.
  - destruct D1 as [a [b [-> [-> [S [_ [_ Sc]]]]]]]. auto.
  - rewrite D0 in D1. cbn [dget] in D1. rewrite D1. apply zmem_false in Em.
    rewrite Hc in Em. rewrite <- dget_None_notin in Em. rewrite Em. exact I.
Qed.

(* ------------------------------------------------------------------ *)
(** ** The table by rows and by columns *)

Lemma py_nth_at {A} (l : list A) j x : nth_error l j = Some x -> py_nth l (Z.of_nat j) = Ok x.
Proof.
  intros E. unfold py_nth. destruct (Z.ltb_spec (Z.of_nat j) 0); [lia|].
  destruct (Z.leb_spec 0 (Z.of_nat j)); [|lia]. rewrite Nat2Z.id, E. reflexivity.
Qed.

Lemma rsequence_tab {A} (f : Z -> res A) (g : nat -> A) n : (forall i, (i < n)%nat -> f (Z.of_nat i) = Ok (g i)) ->
  rsequence (map f (range (Z.of_nat n))) = Ok (map g (seq 0 n)).
Proof.
  intros H. apply rsequence_ok. unfold range. rewrite Nat2Z.id, !map_map. apply map_ext_in.
  intros i Hi. apply in_seq in Hi. apply H. lia.
Qed.

Lemma map_nth_seq {A} (l : list A) d : map (fun i => nth i l d) (seq 0 (length l)) = l.
Proof.
  induction l as [|x l IH]; [reflexivity|]. cbn [length seq map nth]. f_equal.
  rewrite <- seq_shift, map_map. exact IH.
Qed.

Definition cellat (i : nat) (l : list cell) : cell := nth i l None.

Lemma data_rows_spec X n : X <> [] -> (forall c l, In (c, l) X -> length l = n) ->
  data_rows X = Ok (map (fun i => map (fun cl => cellat i (snd cl)) X) (seq 0 n)).
Proof.
  intros HX Hl. unfold data_rows. destruct X as [|[c0 l0] X0] eqn:EX; [contradiction|]. rewrite <- EX in *.
  assert (L0 : length l0 = n) by (apply (Hl c0); rewrite EX; left; reflexivity).
  rewrite L0. replace (forallb _ X) with true.
  2:{ symmetry. apply forallb_forall. intros [c l] Hin. apply Nat.eqb_eq. apply (Hl c). exact Hin. }
  apply rsequence_tab. intros i Hi. apply rsequence_ok. rewrite map_map. apply map_ext_in.
  intros [c l] Hin. cbn [snd]. apply py_nth_at. apply nth_error_nth'.
  rewrite (Hl c l Hin). exact Hi.
Qed.

Lemma column_back (X : dict (list cell)) n j c l : (forall c l, In (c, l) X -> length l = n) -> nth_error X j = Some (c, l) ->
  column_of (map (fun i => map (fun cl => cellat i (snd cl)) X) (seq 0 n)) (Z.of_nat j) = Ok l.
Proof.
  intros Hl Hj. unfold column_of.
  assert (Ll : length l = n) by (apply (Hl c); eapply nth_error_In; exact Hj).
  transitivity (Ok (A := list cell) (map (fun i => cellat i l) (seq 0 n))).
  - apply rsequence_ok. rewrite !map_map. apply map_ext. intros i. apply py_nth_at.
    rewrite nth_error_map, Hj. reflexivity.
  - rewrite <- Ll. f_equal. apply map_nth_seq.
Qed.

Lemma table_back X n : X <> [] -> (forall c l, In (c, l) X -> length l = n) ->
  exists rows, data_rows X = Ok rows /\ table_of rows (dkeys X) = Ok X /\ length rows = n /\
    forall row, In row rows -> length row = length X.
Proof.
  intros HX Hl. eexists. split; [apply data_rows_spec; eassumption|].
  set (rows := map (fun i => map (fun cl => cellat i (snd cl)) X) (seq 0 n)).
  split; [|split; [unfold rows; rewrite map_length, seq_length; reflexivity|]].
  - unfold table_of, range. rewrite Nat2Z.id. apply rsequence_ok.
    assert (G : forall S P, X = P ++ S ->
      map (fun ic => rbind (column_of rows (fst ic)) (fun l => Ok (snd ic, l)))
        (combine (map Z.of_nat (seq (length P) (length (dkeys S)))) (dkeys S)) = map Ok S).
    { induction S as [|[c l] S IH]; intros P E; [reflexivity|]. cbn [dkeys map fst length seq combine].
      f_equal.
      - cbn [fst snd]. unfold rows. rewrite (column_back X n (length P) c l Hl); [reflexivity|].
        rewrite E, nth_error_app2, Nat.sub_diag by lia. reflexivity.
      - specialize (IH (P ++ [(c, l)])). rewrite app_length in IH. cbn [length] in IH. rewrite Nat.add_1_r in IH.
        apply IH. rewrite <- app_assoc. exact E. }
    apply (G X []). reflexivity.
  - intros row Hin. unfold rows in Hin. apply in_map_iff in Hin. destruct Hin as [i [<- _]]. apply map_length.
Qed.

(* ------------------------------------------------------------------ *)
(** ** Rebuilding a state *)

Lemma view_outputs_total zv v outs : (forall c, In c outs -> In c (dkeys zv)) ->
  exists l, view_outputs zv v outs = Ok l /\ (NoDup outs -> NoDup l).
Proof.
  induction outs as [|c outs IH]; intros H; cbn [view_outputs].
  { exists []. split; [reflexivity|constructor]. }
  assert (Hc : In c (dkeys zv)) by (apply H; left; reflexivity). apply in_dkeys_Some in Hc. destruct Hc as [v' ->].
  destruct IH as [l [E N]]; [intros c' Hc'; apply H; right; exact Hc'|]. rewrite E. cbn [rbind].
  eexists. split; [reflexivity|]. intros Hn. apply NoDup_cons_iff in Hn. destruct Hn as [Hn1 Hn2].
  destruct (v' =? v)%Z; [|auto]. constructor; [|auto]. intros Hin.
  apply (proj2 (view_outputs_spec _ _ _ _ E)) in Hin. tauto.
Qed.

Lemma views_again s n f vspecs cspecs zrv : sinv n s ->
  (forall v w, dget v (s_views s) = Some w -> forall c a, dget c (v_dims w) = Some a -> written a) ->
  (forall v w, dget v (s_views s) = Some w -> exists z, row_list w = Ok z /\ dget v zrv = Some z) ->
  (forall v w, dget v (s_views s) = Some w ->
     vs_alpha (vp_seed (vspecs v)) = c_alpha (v_crp w) /\ vp_zr (vspecs v) = dget v zrv) ->
  (forall v w c a, dget v (s_views s) = Some w -> dget c (v_dims w) = Some a ->
     cspecs c = column_spec f c (column_meta a)) ->
  forall order, NoDup order -> (forall v, In v order -> In v (dkeys (s_views s))) ->
  exists ws, make_views (s_X s) (s_outs s) (s_zv s) vspecs cspecs order = Ok ws /\ dkeys ws = order /\
    forall v w', In (v, w') ws -> exists w, dget v (s_views s) = Some w /\ vlike w w' /\ vinv (tab (s_X s)) w'.
Proof.
  intros H Hw Hz Hvs Hcs. induction order as [|v order IH]; intros Hn Ho; cbn [make_views].
  { exists []. split; [reflexivity|]. split; [reflexivity|]. intros v w' []. }
  apply NoDup_cons_iff in Hn. destruct Hn as [Hnv Hn].
  assert (Hv : In v (dkeys (s_views s))) by (apply Ho; left; reflexivity).
  apply in_dkeys_Some in Hv. destruct Hv as [w Ew].
  destruct (si_view _ _ H v w Ew) as [Vw [Ow [Cw Rw]]].
  destruct (view_outputs_total (s_zv s) v (s_outs s)) as [mine [Em Nm]].
  { intros c Hc. apply (si_zv _ _ H). exact Hc. }
  rewrite Em. cbn [rbind]. destruct (view_outputs_spec _ _ _ _ Em) as [_ Hm].
  destruct (Hz v w Ew) as [z [Ez Dz]]. destruct (Hvs v w Ew) as [Ha Hr].
  assert (HX : s_X s <> []).
  { intros E. pose proof (si_ne _ _ H) as Hne. destruct (s_outs s) as [|c o] eqn:Eo; [contradiction|].
    assert (Hc : In c (dkeys (s_X s))) by (apply (si_X _ _ H); rewrite Eo; left; reflexivity).
    rewrite E in Hc. destruct Hc. }
  assert (Ekeys : dkeys (map (fun c => (c, cspecs c)) mine) = mine).
  { unfold dkeys. rewrite map_map. apply map_id. }
  destruct (view_again (s_X s) w f n (vp_seed (vspecs v)) z (map (fun c => (c, cspecs c)) mine) HX Vw Rw (Hw v w Ew) Ha Ez)
    as [w0 [w' [E0 [E1 [A [V _]]]]]].
  { rewrite Ekeys. exact (Nm (si_nodup _ _ H)). }
  { intros c. rewrite Ekeys, Hm, Cw. split; [tauto|]. intros Hd. split; [|exact Hd].
    apply (si_zv _ _ H). eapply dget_Some_in; exact Hd. }
  { intros c k Hin. apply in_map_iff in Hin. destruct Hin as [c' [E Hin]]. injection E as <- <-.
    apply Hm in Hin. destruct Hin as [_ Hin]. apply Cw in Hin. apply in_dkeys_Some in Hin. destruct Hin as [a Ea].
    exists a. split; [exact Ea|]. eapply Hcs; eassumption. }
  rewrite Hr, Dz, <- Ow, E0. cbn [rbind]. rewrite E1. cbn [rbind].
  destruct IH as [ws [-> [K W]]]; [exact Hn|intros v' Hv'; apply Ho; right; exact Hv'|].
  cbn [rbind]. eexists. split; [reflexivity|]. split; [cbn [dkeys map fst]; f_equal; exact K|].
  intros v' w'' [E|Hin]; [|apply W; exact Hin]. injection E as <- <-. exists w. auto.
Qed.

Lemma at_output_spec {A} (outs : list Z) (g : Z -> res A) l : NoDup outs -> rsequence (map g outs) = Ok l ->
  length l = length outs /\ forall c, In c outs -> exists x, g c = Ok x /\ at_output outs l c = Some x.
Proof.
  revert l. induction outs as [|c outs IH]; intros l Hn; cbn [map rsequence].
  { intros E. injection E as <-. split; [reflexivity|]. intros c []. }
  apply NoDup_cons_iff in Hn. destruct Hn as [Hnc Hn].
  destruct (g c) as [x|] eqn:Ec; [|discriminate]. cbn [rbind].
  destruct (rsequence (map g outs)) as [l0|]; [|discriminate]. cbn [rbind]. intros E. injection E as <-.
  destruct (IH l0 Hn eq_refl) as [L D]. split; [cbn; congruence|]. unfold at_output in *. cbn [combine dget].
  intros c' [<-|Hin].
  - exists x. rewrite Z.eqb_refl. auto.
  - destruct (Z.eqb_spec c' c) as [->|_]; [contradiction|]. apply D. exact Hin.
Qed.

Lemma at_output_map {A B} (h : A -> B) outs l c : at_output outs (map h l) c = option_map h (at_output outs l c).
Proof.
  unfold at_output. revert l. induction outs as [|o outs IH]; intros [|x l]; cbn; auto.
  destruct (c =? o)%Z; auto.
Qed.

Lemma rsequence_total {A B} (g : A -> res B) l : (forall x, In x l -> exists y, g x = Ok y) ->
  exists ys, rsequence (map g l) = Ok ys.
Proof.
  induction l as [|x l IH]; intros H; cbn; [eauto|].
  destruct (H x (or_introl eq_refl)) as [y ->]. destruct IH as [ys ->]; [intros x' Hx; apply H; right; exact Hx|].
  cbn. eauto.
Qed.

(** Both states hold the same data, partitions and constraints and vlike views. *)
Record same_state (s s' : state) : Prop := {
  ss_outs : s_outs s' = s_outs s;
  ss_X : s_X s' = s_X s;
  ss_alpha : c_alpha (s_crp s') = c_alpha (s_crp s);
  ss_zv : s_zv s' = s_zv s;
  ss_counts : forall v, dget v (c_counts (s_crp s')) = dget v (c_counts (s_crp s));
  ss_Cd : s_Cd s' = s_Cd s;
  ss_Ci : s_Ci s' = s_Ci s;
  ss_views : forall v, match dget v (s_views s), dget v (s_views s') with
                       | Some w, Some w' => vlike w w'
                       | None, None => True
                       | _, _ => False
                       end
}.

Lemma state_again s n f : sinv n s -> (0 < n)%nat -> s_outs s = dkeys (s_X s) ->
  (forall c, In c (s_outs s) -> (0 <= c)%Z) ->
  (forall v w, dget v (s_views s) = Some w -> forall c a, dget c (v_dims w) = Some a -> written a) ->
  NoDup (rd_order f) -> (forall v, In v (rd_order f) <-> In v (dkeys (s_views s))) ->
  exists m s', state_to_metadata s = Ok m /\ state_from_metadata f m = Ok s' /\ same_state s s' /\ sinv n s' /\
    dkeys (s_views s') = rd_order f.
Proof.
  intros H Hn Ho Hpos Hw Nf Hf.
  assert (HX : s_X s <> []).
  { intros E. pose proof (si_ne _ _ H) as Hne. rewrite Ho, E in Hne. apply Hne. reflexivity. }
  assert (Hl : forall c l, In (c, l) (s_X s) -> length l = n).
  { intros c l Hin. apply (si_len _ _ H c). apply dget_In_NoDup; [apply (si_XN _ _ H)|exact Hin]. }
  destruct (table_back (s_X s) n HX Hl) as [rows [Er [Et [Lr Wr]]]]. rewrite <- Ho in Et.
  assert (Hdim : forall c, In c (s_outs s) -> exists v w a, dget c (s_zv s) = Some v /\
            dget v (s_views s) = Some w /\ dget c (v_dims w) = Some a /\ dim_for s c = Ok a).
  { intros c Hc. apply (si_zv _ _ H), in_dkeys_Some in Hc. destruct Hc as [v Ev].
    assert (Hv : In v (dkeys (s_views s))) by (apply (si_views _ _ H); eapply crp_rows_counts; [apply H|exact Ev]).
    apply in_dkeys_Some in Hv. destruct Hv as [w Ew]. destruct (si_view _ _ H v w Ew) as [_ [_ [Cw _]]].
    assert (Ha : In c (dkeys (v_dims w))) by (apply Cw; exact Ev). apply in_dkeys_Some in Ha. destruct Ha as [a Ea].
    exists v, w, a. unfold dim_for. rewrite Ev, Ew, Ea. auto. }
  destruct (rsequence_total (dim_for s) (s_outs s)) as [dims Ed].
  { intros c Hc. destruct (Hdim c Hc) as [v [w [a [_ [_ [_ E]]]]]]. eauto. }
  destruct (at_output_spec _ _ _ (si_nodup _ _ H) Ed) as [Ld Ad].
  set (g := fun vw : Z * view => rbind (row_list (snd vw)) (fun z => Ok (fst vw, z))).
  assert (Hrl : forall v w, dget v (s_views s) = Some w -> exists z, row_list w = Ok z).
  { intros v w Ew. destruct (si_view _ _ H v w Ew) as [Vw [_ [_ Rw]]].
    destruct (row_list_spec w n (proj1 Vw) Rw) as [z [Ez _]]. eauto. }
  assert (Hzr : forall ws, (forall v w, In (v, w) ws -> exists z, row_list w = Ok z) ->
            exists zrv, rsequence (map g ws) = Ok zrv /\ dkeys zrv = dkeys ws /\
              forall v w, dget v ws = Some w -> exists z, row_list w = Ok z /\ dget v zrv = Some z).
  { induction ws as [|[v w] ws IH]; intros Hz.
    - exists []. split; [reflexivity|]. split; [reflexivity|]. discriminate.
    - destruct IH as [zrv [E [K D]]]; [intros v' w' Hin; eapply Hz; right; exact Hin|].
      destruct (Hz v w (or_introl eq_refl)) as [z Ez].
      exists ((v, z) :: zrv). split; [cbn [map rsequence]; unfold g at 1; cbn [fst snd]; rewrite Ez; cbn [rbind]; rewrite E; reflexivity|].
      split; [cbn; f_equal; exact K|]. intros v' w'. cbn [dget]. destruct (v' =? v)%Z; [|apply D].
      intros E'. injection E' as <-. eauto. }
  destruct (Hzr (s_views s)) as [zrv [Ez [Kz Dz]]].
  { intros v w Hin. apply (Hrl v). apply dget_In_NoDup; [apply (si_nv _ _ H)|exact Hin]. }
  assert (Em : state_to_metadata s = Ok (SMeta rows (s_outs s) (c_alpha (s_crp s)) (s_zv s) (map column_meta dims)
            (s_Cd s) (s_Ci s) zrv (map (fun vw => (fst vw, c_alpha (v_crp (snd vw)))) (s_views s)))).
  { unfold state_to_metadata. rewrite Er. cbn [rbind]. rewrite Ed. cbn [rbind]. fold g. rewrite Ez. reflexivity. }
  eexists. rewrite Em. clear Em.
  set (alphas := map (fun vw : Z * view => (fst vw, c_alpha (v_crp (snd vw)))) (s_views s)).
  assert (Na : NoDup (dkeys alphas)).
  { unfold alphas, dkeys. rewrite map_map. apply (si_nv _ _ H). }
  assert (Da : forall v w, dget v (s_views s) = Some w -> dget v alphas = Some (c_alpha (v_crp w))).
  { intros v w Ew. apply dget_In_NoDup; [exact Na|]. apply dget_In in Ew. unfold alphas. apply in_map_iff.
    exists (v, w). auto. }
  assert (Nzv : NoDup (dkeys (s_zv s))) by apply (si_crp _ _ H).
  assert (Nz : NoDup (dkeys zrv)) by (rewrite Kz; apply (si_nv _ _ H)).
  destruct (seat_given_total (s_zv s) (crp_new (c_alpha (s_crp s)))) as [k [Ek [Ik [Ak Dk]]]].
  { apply crp_inv_new. } { exact Nzv. } { simpl. auto. }
  cbn [crp_new c_data app] in Dk.
  destruct dims as [|d0 dims0] eqn:Edims.
  { exfalso. apply (si_ne _ _ H). destruct (s_outs s); [reflexivity|discriminate]. }
  rewrite <- Edims in *. clear Ed.
  set (vspecs := fun v => VSpec (VSeed (match dget v alphas with Some a => a | None => 0 end)
                               (rd_vgrid f v) (rd_draw f)) (dget v zrv)).
  set (cspecs := fun c => column_spec f c (match at_output (s_outs s) (map column_meta dims) c with
                                           | Some k => k | None => column_meta d0 end)).
  destruct (views_again s n f vspecs cspecs zrv H Hw Dz) with (order := rd_order f) as [ws [Ews [Kws Dws]]].
  { intros v w Ew. split; [|reflexivity]. cbn. rewrite (Da v w Ew). reflexivity. }
  { intros v w c a Ew Ea. unfold cspecs. rewrite at_output_map.
    destruct (si_view _ _ H v w Ew) as [_ [_ [Cw _]]].
    assert (Ev : dget c (s_zv s) = Some v) by (apply Cw; eapply dget_Some_in; exact Ea).
    assert (Hc : In c (s_outs s)) by (apply (si_zv _ _ H); eapply dget_Some_in; exact Ev).
    destruct (Ad c Hc) as [x [E1 ->]]. unfold dim_for in E1. rewrite Ev, Ew, Ea in E1. injection E1 as ->. reflexivity. }
  { exact Nf. }
  { intros v Hv. apply Hf. exact Hv. }
  assert (Einit : state_init (s_X s) (s_zv s) (c_alpha (s_crp s)) (rd_grid f) (s_Cd s) (s_Ci s) vspecs cspecs (rd_order f)
           = Ok (State (dkeys (s_X s)) (s_X s) k (rd_grid f) ws (s_Cd s) (s_Ci s))).
  { unfold state_init. rewrite Ek. cbn [rbind]. rewrite Dk, <- Ho.
    replace (length (s_zv s) =? length (s_outs s))%nat with true.
    - rewrite Ews. reflexivity.
    - symmetry. apply Nat.eqb_eq. rewrite <- (map_length fst (s_zv s)). apply Permutation_length.
      apply NoDup_Permutation; [exact Nzv|apply (si_nodup _ _ H)|]. intros c. apply (si_zv _ _ H). }
  exists (State (dkeys (s_X s)) (s_X s) k (rd_grid f) ws (s_Cd s) (s_Ci s)).
  split; [reflexivity|]. split; [|split; [|split]].
  - unfold state_from_metadata.
    cbn [mt_rows mt_outs mt_alpha mt_Zv mt_cols mt_Cd mt_Ci mt_Zrv mt_alphas]. fold alphas.
    destruct rows as [|row rows0] eqn:Erows; [cbn in Lr; lia|].
    assert (Ecols : map column_meta dims = column_meta d0 :: map column_meta dims0) by (rewrite Edims; reflexivity).
    rewrite Ecols. rewrite <- Ecols.
    assert (W : length (s_outs s) = length row).
    { rewrite Ho. unfold dkeys. rewrite map_length. symmetry. apply Wr. left. reflexivity. }
    rewrite W, Nat.eqb_refl. cbn [negb].
    replace (forallb (fun o => (0 <=? o)%Z) (s_outs s)) with true.
    2:{ symmetry. apply forallb_forall. intros c Hc. apply Z.leb_le. apply Hpos. exact Hc. }
    cbn [negb]. rewrite map_length, Ld, W, Nat.eqb_refl. cbn [negb].
    rewrite Et. cbn [rbind].
    rewrite (dict_of_id (s_zv s) Nzv), (dict_of_id zrv Nz), (dict_of_id alphas Na).
    replace (set_eqb (dkeys zrv) (dvals (s_zv s))) with true.
    + cbn [negb]. exact Einit.
    + symmetry. unfold set_eqb. rewrite Kz. apply andb_true_intro. split; apply forallb_forall; intros v Hv; apply zmem_in.
      * apply (used_views n s v H) in Hv. destruct Hv as [c Hc]. apply dget_In in Hc.
        unfold dvals. apply in_map_iff. exists (c, v). auto.
      * apply (used_views n s v H). unfold dvals in Hv. apply in_map_iff in Hv. destruct Hv as [[c v'] [<- Hin]].
        exists c. apply dget_In_NoDup; assumption.
  - constructor; cbn [s_outs s_X s_crp s_views s_Cd s_Ci s_zv]; auto.
    + intros v. destruct (si_crp _ _ H) as [_ [[_ C] _]]. destruct Ik as [_ [[_ C'] _]].
      rewrite C, C', Dk. reflexivity.
    + intros v. destruct (dget v ws) as [w'|] eqn:Ew'.
      * apply dget_In in Ew'. destruct (Dws v w' Ew') as [w [-> [A _]]]. exact A.
      * destruct (dget v (s_views s)) as [w|] eqn:Ew; [|exact I].
        apply dget_Some_in in Ew. apply Hf in Ew. rewrite <- Kws in Ew. apply dget_None_notin in Ew'. contradiction.
  - assert (Zv : forall v, In v (rd_order f) <-> In v (map snd (s_zv s))).
    { intros v. rewrite Hf, (used_views n s v H), in_map_iff. split.
      - intros [c Hc]. exists (c, v). split; [reflexivity|]. apply dget_In. exact Hc.
      - intros [[c v'] [<- Hin]]. exists c. apply dget_In_NoDup; assumption. }
    refine (proj1 (state_init_ok _ _ _ _ _ _ _ _ _ n _ (si_XN _ _ H) HX (si_len _ _ H) Nf Zv _ _ Einit)).
    + intros v. cbn [vspecs vp_zr]. destruct (dget v zrv) as [z|] eqn:Ev; [|exact I].
      assert (Hv : In v (dkeys (s_views s))) by (rewrite <- Kz; eapply dget_Some_in; exact Ev).
      apply in_dkeys_Some in Hv. destruct Hv as [w Ew]. destruct (Dz v w Ew) as [z' [Ez' E']].
      assert (z' = z) by congruence. subst z'. destruct (si_view _ _ H v w Ew) as [Vw [_ [_ Rw]]].
      destruct (row_list_spec w n (proj1 Vw) Rw) as [z' [E2 [L _]]]. congruence.
    + intros c Hc. rewrite <- Ho in Hc. unfold cspecs. rewrite at_output_map.
      destruct (Ad c Hc) as [a [E1 ->]]. cbn [option_map column_spec cs_col]. apply dim_new_inv.
      destruct (Hdim c Hc) as [v [w [a' [_ [Ew [Ea E2]]]]]]. assert (a' = a) by congruence. subst a'.
      destruct (si_view _ _ H v w Ew) as [[_ [_ Vw]] _]. apply (Vw c a Ea).
  - exact Kws.
Qed.
