(** The weights of the row kernel are the exact conditional weights. *)
From Verif Require Export RowFacts.
Local Open Scope R_scope.

Lemma Forall2_impl' {A B} (P Q : A -> B -> Prop) l l' :
  (forall a b, P a b -> Q a b) -> Forall2 P l l' -> Forall2 Q l l'.
Proof. intros H F. induction F; constructor; auto. Qed.

Lemma esum_cons x l t : esum (x :: l) = Fin t <->
  exists a b, x = Fin a /\ esum l = Fin b /\ t = a + b.
Proof.
  rewrite esum_fin. split.
  - intros [ys [E ->]]. destruct ys as [|y ys]; [discriminate|]. simpl in E. injection E as -> ->.
    exists y, (Rsum ys). split; [reflexivity|]. split; [|reflexivity]. apply esum_fin. eauto.
  - intros [a [b [-> [E ->]]]]. apply esum_fin in E. destruct E as [ys [-> ->]].
    exists (a :: ys). auto.
Qed.

(** Columns before and after the removal of row [r]. *)
Definition uninc_rel (r : Z) : dict adim -> dict adim -> Prop :=
  Forall2 (fun p q => fst p = fst q /\ a_unincorporate (snd p) r = (snd q, Ok tt)).

Lemma uninc_rel_of r ds ds0 : dims_unincorporate r ds = (ds0, Ok tt) -> uninc_rel r ds ds0.
Proof.
  revert ds0. induction ds as [|[c a] ds IH]; intros ds0; simpl.
  { intros E. injection E as <-. constructor. }
  destruct (a_unincorporate a r) as [a1 [[]|e]] eqn:Ea; [|discriminate].
  destruct (dims_unincorporate r ds) as [ds2 r2]. intros E. injection E as <- ->.
  constructor; [split; [reflexivity|exact Ea]|]. apply IH; reflexivity.
Qed.

Definition lps_rel (X : table) (r k : Z) : dict adim -> list ext -> Prop :=
  Forall2 (fun q lp => exists x ins, X (fst q) r = Ok x /\ input_values X r (snd q) = Ok ins /\
                         a_logpdf (snd q) r k x ins = Ok lp).

(** A column that holds row [r], in cluster [z], as the table says. *)
Definition colgood (X : table) (r z : Z) (p : Z * adim) : Prop :=
  ainv (snd p) /\ exists e, expected X (fst p) (snd p) r = Some e /\ acontent (snd p) r = Some (z, e).

Lemma aeq_akin a a' : aeq a a' -> akin a a'.
Proof. intros [d' [E [H _]]]. exists d'. auto. Qed.

Lemma cell_gibbs_lps X r z k c a a' lp a0 : colgood X r z (c, a) ->
  cell_gibbs X r z k c a = (a', Ok lp) -> a_unincorporate a r = (a0, Ok tt) ->
  aeq a a' /\ colgood X r z (c, a') /\
  exists x ins, X c r = Ok x /\ input_values X r a0 = Ok ins /\ a_logpdf a0 r k x ins = Ok lp.
Proof.
  intros [Hi [e [He Hc]]] E Eu. simpl in *.
  destruct (cell_gibbs_spec X r z k c a a' lp e Hi Hc He E) as [Q [a1 [x [ins [E1 [E2 [E3 E4]]]]]]].
  rewrite Eu in E1. injection E1 as <-.
  split; [exact Q|].
  destruct (a_uninc_inv _ _ _ Hi Eu) as [K0 [_ [_ [_ _]]]].
  assert (S : asame a a').
  { eapply cell_gibbs_same; [exact Hi|exists e; split; [exact He|exact Hc]| |exact E].
    clear - Hi Hc. destruct Hi as [HL Hd]. unfold acontent, content in Hc.
    destruct (dget r (d_zi (a_d a))) as [k0|] eqn:Ez.
    - injection Hc as -> _. eapply (di_zi _ _ _ Hd); exact Ez.
    - destruct (dget r (d_zr (a_d a))) as [k0|]; [|discriminate].
      destruct (dget k0 (d_clusters (a_d a))) as [cc|] eqn:Ec; [|discriminate].
      injection Hc as -> _. eapply dget_Some_in; exact Ec. }
  destruct S as [S1 [S2 [S3 S4]]].
  split; [split; [exact S2|]|].
  - exists e. simpl. rewrite (akin_expected X c a a' r S1), S3. auto.
  - exists x, ins. rewrite (akin_input X r a a0 K0). auto.
Qed.

Lemma row_gibbs_dims_lps X r z k ds ds' l ds0 : Forall (colgood X r z) ds ->
  row_gibbs_dims X r z k ds = (ds', Ok l) -> uninc_rel r ds ds0 ->
  lps_rel X r k ds0 l /\ Forall (colgood X r z) ds' /\
  Forall2 (fun p p' => fst p = fst p' /\ aeq (snd p) (snd p')) ds ds'.
Proof.
  revert ds' l ds0. induction ds as [|[c a] ds IH]; intros ds' l ds0 Hg; simpl.
  { intros E U. injection E as <- <-. inversion U; subst. repeat constructor. }
  destruct (cell_gibbs X r z k c a) as [a' [lp|e]] eqn:Ec; [|discriminate].
  destruct (row_gibbs_dims X r z k ds) as [ds2 [l2|e]] eqn:Ed; simpl; [|discriminate].
  intros E U. injection E as <- <-. inversion U as [|p [c0 a0] t t0 [Ef Eu] Ut]; subst.
  simpl in *. subst c0. inversion Hg; subst.
  destruct (cell_gibbs_lps X r z k c a a' lp a0) as [Q [G L]]; auto.
  destruct (IH ds2 l2 t0) as [A [B C]]; auto.
  split; [constructor; [exact L|exact A]|]. split; constructor; auto.
Qed.

Lemma aeq_lps X r k z ds ds' ds0 ds0' l : Forall (colgood X r z) ds -> Forall (colgood X r z) ds' ->
  Forall2 (fun p p' => fst p = fst p' /\ aeq (snd p) (snd p')) ds ds' ->
  uninc_rel r ds ds0 -> uninc_rel r ds' ds0' -> lps_rel X r k ds0' l -> lps_rel X r k ds0 l.
Proof.
  intros G G' Q. revert ds0 ds0' l. induction Q as [|[c a] [c' a'] ds ds' [E Q] _ IH];
    intros ds0 ds0' l U U' L; simpl in *.
  { inversion U; subst. inversion U'; subst. exact L. }
  subst c'. inversion U as [|p [c0 a0] t t0 [Ef Eu] Ut]; subst.
  inversion U' as [|p' [c1 a1] t' t0' [Ef' Eu'] Ut']; subst. simpl in *. subst c0 c1.
  inversion L as [|q lp q' l' [x [ins [L1 [L2 L3]]]] Lt]; subst. simpl in *.
  inversion G as [|? ? [Ga [e [Ge Gc]]] Gt]; subst. inversion G' as [|? ? [Ga' _] Gt']; subst.
  simpl in *. constructor; [|eapply IH; eassumption].
  exists x, ins. simpl. split; [exact L1|].
  destruct (aeq_uninc a a' r z e Ga Ga' Q Gc) as [b [b' [E1 [E2 Qb]]]].
  rewrite Eu in E1. injection E1 as <-. rewrite Eu' in E2. injection E2 as <-.
  split.
  - rewrite <- L2. symmetry. apply akin_input. apply aeq_akin; exact Qb.
  - rewrite <- L3. symmetry. apply aeq_logpdf; [|exact Qb].
    apply (a_uninc_inv _ _ _ Ga Eu).
Qed.

Lemma uninc_rel_ex X r z ds : Forall (colgood X r z) ds -> exists ds0, uninc_rel r ds ds0.
Proof.
  induction 1 as [|[c a] ds [Ha [e [He Hc]]] _ [ds0 IH]]; [exists []; constructor|].
  destruct (a_uninc_ok _ _ _ Ha Hc) as [a0 [E _]]. exists ((c, a0) :: ds0).
  constructor; [split; [reflexivity|exact E]|exact IH].
Qed.

Lemma row_gibbs_lps X r z K ds1 ds2 ls ds ds0 :
  Forall (colgood X r z) ds -> Forall (colgood X r z) ds1 ->
  Forall2 (fun p p' => fst p = fst p' /\ aeq (snd p) (snd p')) ds ds1 ->
  uninc_rel r ds ds0 -> row_gibbs X r z K ds1 = (ds2, Ok ls) ->
  Forall2 (fun k s => exists l, s = esum l /\ lps_rel X r k ds0 l) K ls.
Proof.
  revert ds1 ls. induction K as [|k K IH]; intros ds1 ls G G1 Q U; simpl.
  { intros E. injection E as _ <-. constructor. }
  destruct (row_gibbs_dims X r z k ds1) as [ds3 [l|e]] eqn:E1; [|discriminate].
  destruct (row_gibbs X r z K ds3) as [ds4 [ls2|e]] eqn:E2; simpl; [|discriminate].
  intros E. injection E as <- <-.
  destruct (uninc_rel_ex X r z ds1 G1) as [ds10 U1].
  destruct (row_gibbs_dims_lps X r z k ds1 ds3 l ds10 G1 E1 U1) as [L [G3 Q3]].
  constructor.
  - exists l. split; [reflexivity|]. eapply (aeq_lps X r k z ds ds1); eassumption.
  - apply (IH ds3 ls2); auto.
    clear - Q Q3. revert ds3 Q3. induction Q as [|p p' t t' [E H] _ IH]; intros ds3 Q3;
      inversion Q3 as [|? p3 ? t3 [E3 H3] T3]; subst; constructor; auto.
    split; [congruence|]. eapply aeq_trans; eassumption.
Qed.

(* ------------------------------------------------------------------ *)
(** ** Scores *)

Lemma dims_stay X r z ds ds0 l t : Forall (colgood X r z) ds ->
  Forall (fun p => ahyp (snd p)) ds -> uninc_rel r ds ds0 -> lps_rel X r z ds0 l ->
  dsum a_score ds = Ok (Fin t) ->
  exists p, esum l = Fin p /\ dsum a_score ds0 = Ok (Fin (t - p)).
Proof.
  intros G H U. revert l t. induction U as [|[c a] [c0 a0] ds ds0 [Ef Eu] _ IH]; intros l t L Es.
  { inversion L; subst. unfold dsum in *. simpl in *. rewrite rsum_ext_nil in *.
    injection Es as <-. exists 0. split; [reflexivity|]. do 2 f_equal. lra. }
  simpl in *. subst c0. inversion G as [|? ? [Ga [e [Ge Gc]]] Gt]; subst.
  inversion H; subst. inversion L as [|q lp q' l' [x [ins [L1 [L2 L3]]]] Lt]; subst. simpl in *.
  apply dsum_cons in Es. destruct Es as [s1 [s2 [E1 [E2 ->]]]].
  destruct (IH Gt ltac:(assumption) l' s2 Lt E2) as [p [P1 P2]].
  assert (He : e = option_map (keep (a_M a)) (valid_cell x ins)).
  { unfold expected in Ge. rewrite L1 in Ge.
    rewrite <- (akin_input X r a a0) in Ge by apply (a_uninc_inv _ _ _ Ga Eu).
    rewrite L2 in Ge. injection Ge as <-. reflexivity. }
  destruct (col_stay a r z e a0 x ins lp s1) as [p1 [-> P3]]; auto.
  exists (p1 + p). split; [apply esum_cons; eauto|].
  apply dsum_cons. exists (s1 - p1), (s2 - p). repeat split; auto. lra.
Qed.

(** [q] is column [p] after some steps, now without row [r]. *)
Definition moved (r : Z) (p q : Z * adim) : Prop :=
  fst p = fst q /\ akin (snd p) (snd q) /\ ainv (snd q) /\ acontent (snd q) r = None.

Lemma a_inc_progress a b r z e k x ins : ainv a -> ainv b -> akin a b ->
  acontent a r = Some (z, e) -> acontent b r = None ->
  e = option_map (keep (a_M a)) (valid_cell x ins) ->
  exists b', a_incorporate b r k x ins = (b', Ok tt).
Proof.
  intros Ha [HLb Hb] [d' [-> _]] Hc Hn He. pose proof Ha as [HL Hi].
  unfold a_incorporate, dim_incorporate. simpl in *.
  unfold acontent in Hn. simpl in Hn.
  apply (content_none _ _ _ _ Hb) in Hn. destruct Hn as [N1 N2].
  unfold dmem. rewrite N1, N2. simpl.
  destruct (valid_cell x ins) as [[v l]|] eqn:Ev; [|eauto].
  simpl in He. subst e.
  pose proof (uninc_shape a r z _ Ha Hc) as S. simpl in S.
  destruct S as [c [c0 [_ [_ [_ [Sv [_ [Rc _]]]]]]]].
  set (d1 := open_cluster (a_M a) d' k).
  assert (Hk : exists ck, dget k (d_clusters d1) = Some ck).
  { unfold d1, open_cluster, dmem. destruct (dget k (d_clusters d')) eqn:E; [eauto|]. simpl.
    rewrite dget_dset_same. eauto. }
  destruct Hk as [ck Ek]. rewrite Ek.
  assert (Hd1 : dinv (a_M a) (reach (a_M a)) d1 /\ content (a_M a) d1 r = None).
  { destruct (dinv_open _ _ HL d' k Hb) as [A _]. split; [exact A|].
    unfold content, d1. destruct (open_same (a_M a) d' k) as [-> [-> _]]. rewrite N1, N2. reflexivity. }
  assert (Hno : dget r (m_rows (a_M a) ck) = None).
  { destruct Hd1 as [Hd1 Hc1]. destruct (dget r (m_rows (a_M a) ck)) as [w|] eqn:Ew; [|reflexivity].
    pose proof (di_only _ _ _ Hd1 r k ck w Ek Ew) as Hzr.
    apply (content_none _ _ _ _ Hd1) in Hc1. destruct Hc1 as [N _]. congruence. }
  destruct (ml_again _ _ HL c r v l Rc Sv ck r Hno) as [s2' E]. rewrite E. eauto.
Qed.

Lemma dims_inc_progress X r z k obs ds ds1 : Forall (colgood X r z) ds -> Forall2 (moved r) ds ds1 ->
  (forall c x, In c (dkeys ds) -> X c r = Ok x -> dget c obs = Some x) ->
  exists ds2, dims_incorporate X r k obs ds1 = (ds2, Ok tt).
Proof.
  intros G Mv. induction Mv as [|[c a] [c' b] ds ds1 [E [Kn [Hb Hn]]] _ IH]; intros Ho; simpl in *.
  { eauto. }
  subst c'. inversion G as [|? ? [Ga [e [Ge Gc]]] Gt]; subst. simpl in *.
  pose proof Ge as Ge'. unfold expected in Ge'.
  destruct (X c r) as [x|] eqn:EX; [|discriminate].
  destruct (input_values X r a) as [ins|] eqn:EI; [|discriminate]. injection Ge' as <-.
  rewrite (Ho c x) by auto. rewrite (akin_input X r a b Kn), EI.
  destruct (a_inc_progress a b r z _ k x ins Ga Hb Kn Gc Hn eq_refl) as [b' ->].
  destruct IH as [ds2 ->]; eauto.
Qed.

Lemma dims_move X r k obs ds ds1 ds2 l t : Forall2 (moved r) ds ds1 ->
  Forall (fun p => ahyp (snd p)) ds1 ->
  (forall c x, In c (dkeys ds) -> X c r = Ok x -> dget c obs = Some x) ->
  lps_rel X r k ds1 l -> dims_incorporate X r k obs ds1 = (ds2, Ok tt) ->
  dsum a_score ds1 = Ok (Fin t) ->
  exists p, esum l = Fin p /\ dsum a_score ds2 = Ok (Fin (t + p)).
Proof.
  intros Mv. revert ds2 l t. induction Mv as [|[c a] [c' b] ds ds1 [E [Kn [Hb Hn]]] _ IH];
    intros ds2 l t H Ho L Ed Es; simpl in *.
  { inversion L; subst. injection Ed as <-. unfold dsum in *. simpl in *. rewrite rsum_ext_nil in *.
    injection Es as <-. exists 0. split; [reflexivity|]. do 2 f_equal. lra. }
  subst c'. inversion H; subst. inversion L as [|q lp q' l' [x [ins [L1 [L2 L3]]]] Lt]; subst.
  simpl in *. rewrite (Ho c x) in Ed by auto. rewrite L2 in Ed.
  destruct (a_incorporate b r k x ins) as [b' [[]|e]] eqn:Ei; [|discriminate].
  destruct (dims_incorporate X r k obs ds1) as [ds3 r3] eqn:E3. injection Ed as <- ->.
  apply dsum_cons in Es. destruct Es as [s1 [s2 [E1 [E2 ->]]]].
  destruct (IH ds3 l' s2) as [p [P1 P2]]; auto.
  destruct (col_move b r k x ins b' lp s1) as [p1 [-> P3]]; auto.
  exists (p1 + p). split; [apply esum_cons; eauto|].
  apply dsum_cons. exists (s1 + p1), (s2 + p). repeat split; auto. lra.
Qed.

(** The view without row [r]. *)
Lemma uninc_view X v r z : vinv X v -> dget r (v_rows v) = Some z ->
  (forall c a, dget c (v_dims v) = Some a -> ahyp a) ->
  exists ds0 v0, uninc_rel r (v_dims v) ds0 /\ view_unincorporate v r = (v0, Ok tt) /\
    vinv X v0 /\ v_crp v0 = fst (crp_unincorporate (v_crp v) r) /\
    Forall2 (moved r) (v_dims v) (v_dims v0) /\
    Forall (fun p => ahyp (snd p)) (v_dims v0) /\
    (forall t, dsum a_score ds0 = Ok (Fin t) -> dsum a_score (v_dims v0) = Ok (Fin t)) /\
    (forall k l, k <> z -> lps_rel X r k ds0 l -> lps_rel X r k (v_dims v0) l).
Proof.
  intros Hv Hr Hh. pose proof Hv as [Hc [Hn Hd]].
  destruct (view_uninc_ok X v r z Hv Hr) as [v0 [E0 [H0 [R0 [K0 _]]]]].
  destruct (dims_uninc_progress r (v_dims v) Hn) as [ds0 Ed0].
  { intros c a Ha. destruct (Hd c a Ha) as [Hi [_ H]]. split; [exact Hi|].
    specialize (H r). rewrite Hr in H. destruct H as [e [_ H]]. eauto. }
  pose proof (uninc_rel_of _ _ _ Ed0) as U.
  exists ds0, v0. split; [exact U|]. split; [exact E0|]. split; [exact H0|].
  (* every column, in step *)
  assert (S0 : Forall2 (fun p q => ainv (snd p) /\ ahyp (snd p) /\ In z (akeys (snd p)) /\
      (exists e, acontent (snd p) r = Some (z, e)) /\
      (forall r' k' e', acontent (snd p) r' = Some (k', e') -> dget r' (v_rows v) = Some k') /\
      fst p = fst q /\ a_unincorporate (snd p) r = (snd q, Ok tt)) (v_dims v) ds0).
  { assert (Hall : forall c a, In (c, a) (v_dims v) -> ainv a /\ ahyp a /\ In z (akeys a) /\
        (exists e, acontent a r = Some (z, e)) /\
        (forall r' k' e', acontent a r' = Some (k', e') -> dget r' (v_rows v) = Some k')).
    { intros c a Hin. apply (dget_In_NoDup _ _ _ Hn) in Hin. destruct (Hd c a Hin) as [Hi [HK H]].
      split; [exact Hi|]. split; [exact (Hh c a Hin)|].
      split; [apply HK; eapply crp_rows_counts; eassumption|]. split.
      - specialize (H r). rewrite Hr in H. destruct H as [e [_ H]]. eauto.
      - intros r' k' e' Hc'. specialize (H r'). destruct (dget r' (v_rows v)) as [k2|].
        + destruct H as [e2 [_ H]]. congruence.
        + congruence. }
    clear - U Hall. induction U as [|p q t t0 [E Eu] _ IH]; constructor.
    - destruct p as [c a]. destruct (Hall c a) as [A [B [C [D F]]]]; [left; reflexivity|].
      simpl. auto 10.
    - apply IH. intros c a Hin. apply (Hall c). right; exact Hin. }
  pose proof E0 as E. unfold view_unincorporate in E. rewrite Ed0, Hr in E.
  destruct (crp_unincorporate (v_crp v) r) as [c0 [[]|e0]] eqn:Ecrp; [|discriminate].
  assert (Hdata : c_data c0 = ddel r (v_rows v) /\ crp_inv c0).
  { destruct (crp_uninc_spec _ _ _ Hc Hr) as [s' [Es [I [D _]]]]. rewrite Ecrp in Es.
    injection Es as <-. auto. }
  assert (Hv0 : forall q, In q (v_dims v0) -> acontent (snd q) r = None /\ ainv (snd q)).
  { intros [c b] Hin. destruct H0 as [_ [Hn0 Hd0]].
    apply (dget_In_NoDup _ _ _ Hn0) in Hin. destruct (Hd0 c b Hin) as [Hi [_ H]].
    specialize (H r). rewrite R0, dget_ddel_same in H by apply Hc. auto. }
  destruct (dmem z (c_counts c0)) eqn:Em.
  - injection E as <-. simpl in *. split; [reflexivity|].
    split; [|split; [|split; [auto|auto]]].
    + clear - S0 Hv0. induction S0 as [|p q t t0 [A [B [C [D [F [G Eu]]]]]] _ IH]; constructor.
      * split; [exact G|]. split; [apply (a_uninc_inv _ _ _ A Eu)|].
        destruct (Hv0 q) as [H1 H2]; [left; reflexivity|]. auto.
      * apply IH. intros q' Hq. apply Hv0. right; exact Hq.
    + clear - S0. induction S0 as [|p q t t0 [A [B [C [D [F [G Eu]]]]]] _ IH]; constructor; auto.
      exact (ahyp_uninc _ _ _ A B Eu).
  - destruct (dims_drop_cluster z ds0) as [ds2 r2] eqn:Edr. injection E as <- ->. simpl in *.
    split; [reflexivity|].
    assert (Hnoz : forall r', r' <> r -> dget r' (v_rows v) <> Some z).
    { intros r' Hne Hr'. destruct Hdata as [D I]. apply dmem_false in Em. apply Em.
      apply (crp_rows_counts c0 r' z I). rewrite D, dget_ddel_other by exact Hne. exact Hr'. }
    assert (S1 : Forall2 (fun q q2 => fst q = fst q2 /\ snd q2 = a_drop z (snd q)) ds0 ds2).
    { clear - Edr. revert ds2 Edr. induction ds0 as [|[c a] ds0 IH]; intros ds2; simpl.
      - intros E. injection E as <-. constructor.
      - destruct (dmem z (d_clusters (a_d a))); [|discriminate].
        destruct (dims_drop_cluster z ds0) as [ds3 r3]. intros E. injection E as <- ->.
        constructor; [split; reflexivity|]. apply IH; reflexivity. }
    assert (S2 : Forall2 (fun q q2 => fst q = fst q2 /\ snd q2 = a_drop z (snd q) /\
        ainv (snd q) /\ ahyp (snd q) /\ In z (akeys (snd q)) /\
        (forall r' e, acontent (snd q) r' <> Some (z, e))) ds0 ds2).
    { clear - S0 S1 Hnoz. revert ds2 S1.
      induction S0 as [|p q t t0 [A [B [C [D [F [G Eu]]]]]] _ IH]; intros ds2 S1;
        inversion S1 as [|? q2 ? t2 [G2 D2] T2]; subst; constructor; auto.
      destruct (a_uninc_inv _ _ _ A Eu) as [_ [I [_ [Cn Ke]]]].
      split; [exact G2|]. split; [exact D2|]. split; [exact I|].
      split; [exact (ahyp_uninc _ _ _ A B Eu)|]. split; [rewrite Ke; exact C|].
      intros r' e. rewrite Cn. destruct (Z.eqb_spec r' r) as [->|Hne]; [discriminate|].
      intros Hc. apply F in Hc. apply (Hnoz r' Hne Hc). }
    split; [|split; [|split]].
    + clear - S0 S2 Hv0. revert ds2 S2 Hv0.
      induction S0 as [|p q t t0 [A [B [C [D [F [G Eu]]]]]] _ IH]; intros ds2 S2 Hv0;
        inversion S2 as [|? q2 ? t2 [G2 [D2 [I2 _]]] T2]; subst; constructor.
      * destruct (Hv0 q2) as [H1 H2]; [left; reflexivity|].
        split; [congruence|]. split; [|auto].
        eapply akin_trans; [apply (a_uninc_inv _ _ _ A Eu)|]. rewrite D2. eexists.
        split; reflexivity.
      * apply IH; auto. intros q' Hq. apply Hv0. right; exact Hq.
    + clear - S2. induction S2 as [|q q2 t t2 [G2 [D2 [I2 [H2 _]]]] _ IH]; constructor; auto.
      rewrite D2. apply ahyp_drop; assumption.
    + clear - S2. induction S2 as [|[c q] [c' q2] t t2 [G2 [D2 [I2 [H2 [K2 N2]]]]] _ IH]; intros s Es; auto.
      simpl in *. subst c' q2. apply dsum_cons in Es. destruct Es as [x [y [Ex [Ey ->]]]].
      apply dsum_cons. exists x, y. split; [|split; [apply IH; exact Ey|reflexivity]].
      apply drop_score; assumption.
    + intros k l Hk. clear - S2 Hk. revert l.
      induction S2 as [|[c q] [c' q2] t t2 [G2 [D2 [I2 _]]] _ IH]; intros l L;
        inversion L as [|? lp ? l' [x [ins [L1 [L2 L3]]]] Lt]; subst; constructor; [|apply IH; exact Lt].
      simpl in *. subst c' q2. exists x, ins. split; [exact L1|]. split; [exact L2|].
      rewrite drop_logpdf; assumption.
Qed.

(* ------------------------------------------------------------------ *)
(** ** The prior *)

Lemma crp_weight lgam s r z k : gamma_rec lgam -> lgam 1 = 0 -> crp_inv s -> 0 < c_alpha s ->
  dget r (c_data s) = Some z ->
  let s0 := fst (crp_unincorporate s r) in
  exists a b s', crp_incorporate s0 r k = (s', Ok tt) /\ crp_score lgam s0 = Ok (Fin a) /\
    crp_score lgam s' = Ok (Fin b) /\
    ln (gibbs_weight s r 1 k) = b - a + ln (IZR (c_N s0) + c_alpha s) /\
    (k = z -> crp_score lgam s = crp_score lgam s').
Proof.
  intros Hg H1 Hi Ha Hz s0.
  destruct (gibbs_data' s r z 1 Hi Hz Nat.lt_0_1) as [D [N [A [I [F _]]]]]. fold s0 in D, N, A, I, F.
  destruct (crp_chain lgam s0 r k Hg H1 I) as [a [b [s' [E1 [E2 [E3 E4]]]]]];
    [rewrite A; exact Ha|exact F|].
  exists a, b, s'. do 3 (split; [assumption|]). split.
  - unfold crp_logpdf in E4. rewrite F in E4. unfold crp_predictive in E4.
    pose proof (gibbs_weight_pos s r z 1 Hi Ha Hz Nat.lt_0_1 k) as Hw.
    unfold gibbs_weight in *. fold s0 in Hw |- *. rewrite A in E4.
    change (INR 1) with 1 in *.
    replace (c_alpha s / 1) with (c_alpha s) in * by lra.
    rewrite plog_pos in E4 by (destruct (dget k (c_counts s0)); exact Hw).
    rewrite plog_pos in E4 by (pose proof (crp_N_nonneg s0 I); lra).
    simpl in E4. injection E4 as E4. lra.
  - intros ->. pose proof (crp_inv_inc s0 r z I) as I'. rewrite E1 in I'.
    apply crp_score_perm; auto.
    + intros r'. destruct (crp_inc_spec _ _ _ _ I E1) as [_ [_ [D' _]]].
      rewrite D', dget_dset, D, dget_ddel by apply Hi.
      destruct (Z.eqb_spec r' r) as [->|]; [exact Hz|reflexivity].
    + destruct (crp_inc_spec _ _ _ _ I E1) as [_ [_ [_ [_ A']]]]. congruence.
Qed.

(* ------------------------------------------------------------------ *)
(** ** The row kernel *)

Lemma Forall2_combine {A B} (f : ext -> A -> B) (P : Z -> ext -> Prop) (g : Z -> A)
  (Q : Z -> B -> Prop) K ls : Forall2 P K ls -> (forall k s, P k s -> In k K -> Q k (f s (g k))) ->
  Forall2 Q K (map (fun ab => f (fst ab) (snd ab)) (combine ls (map g K))).
Proof.
  intros H. induction H as [|k s K ls H _ IH]; intros HQ; simpl; constructor.
  - apply HQ; [exact H|left; reflexivity].
  - apply IH. intros k' s' H' Hin. apply HQ; [exact H'|right; exact Hin].
Qed.

(** [placed X v r z k v']: view [v'] is view [v] with row [r], now in cluster [z],
    placed in cluster [k]. *)
Definition placed (X : table) (v : view) (r z k : Z) (v' : view) : Prop :=
  (k = z /\ v' = v) \/ (k <> z /\ view_migrate X v r k = (v', Ok tt)).

Lemma view_score_fin lgam v S : view_score lgam v = Ok (Fin S) <->
  exists a b, crp_score lgam (v_crp v) = Ok (Fin a) /\ dsum a_score (v_dims v) = Ok (Fin b) /\
    S = a + b.
Proof.
  unfold view_score. fold (dsum a_score (v_dims v)). unfold view_likelihood, dsum.
  destruct (crp_score lgam (v_crp v)) as [p|]; simpl.
  2:{ split; [discriminate|]. intros [a [b [E _]]]. discriminate. }
  destruct (rsum_ext (map a_score (dvals (v_dims v)))) as [q|]; simpl.
  2:{ split; [discriminate|]. intros [a [b [_ [E _]]]]. discriminate. }
  split.
  - intros E. injection E as E. destruct (eadd_fin _ _ _ E) as [a [b [-> [-> ->]]]]. eauto 6.
  - intros [a [b [E1 [E2 ->]]]]. injection E1 as ->. injection E2 as ->. reflexivity.
Qed.

Lemma colgood_all X v r z : vinv X v -> dget r (v_rows v) = Some z ->
  Forall (colgood X r z) (v_dims v).
Proof.
  intros [Hc [Hn Hd]] Hr. apply Forall_forall. intros [c a] Hin.
  apply (dget_In_NoDup _ _ _ Hn) in Hin. destruct (Hd c a Hin) as [Hi [_ H]].
  specialize (H r). rewrite Hr in H. destruct H as [e [He Hce]]. split; [exact Hi|]. simpl. eauto.
Qed.

Lemma dget_obs X v r obs (ds : dict adim) : table_row X v r = Ok obs -> dkeys (v_dims v) = dkeys ds ->
  forall c x, In c (dkeys ds) -> X c r = Ok x -> dget c obs = Some x.
Proof.
  intros E Ek c x Hin Hx. rewrite <- Ek in Hin. apply in_dkeys_Some in Hin. destruct Hin as [a Ha].
  destruct (table_row_spec X v r obs E c a Ha) as [y [Ey Hy]]. congruence.
Qed.

Lemma table_row_ex X v r ds : Forall (fun p : Z * adim => exists x, X (fst p) r = Ok x) ds ->
  dkeys (v_dims v) = dkeys ds -> exists obs, table_row X v r = Ok obs.
Proof.
  unfold table_row. intros H. revert v. 
  assert (G : forall ds', dkeys ds' = dkeys ds -> exists obs,
    rsequence (map (fun ca : Z * adim => rbind (X (fst ca) r) (fun x => Ok (fst ca, x))) ds') = Ok obs).
  { induction H as [|[c a] ds [x Hx] _ IH]; intros [|[c' a'] ds'] E; try discriminate; simpl; [eauto|].
    simpl in E. injection E as -> E. simpl in Hx. rewrite Hx. simpl.
    destruct (IH ds' E) as [obs ->]. simpl. eauto. }
  intros v E. apply G. exact E.
Qed.

Lemma migrate_score X lgam v r z k ds0 v0 l t a b s' :
  vinv X v -> dget r (v_rows v) = Some z -> Forall2 (moved r) (v_dims v) (v_dims v0) ->
  view_unincorporate v r = (v0, Ok tt) ->
  Forall (fun p => ahyp (snd p)) (v_dims v0) ->
  (k <> z -> lps_rel X r k ds0 l -> lps_rel X r k (v_dims v0) l) ->
  lps_rel X r k ds0 l -> k <> z -> dsum a_score (v_dims v0) = Ok (Fin t) ->
  crp_score lgam (v_crp v0) = Ok (Fin a) ->
  crp_incorporate (v_crp v0) r k = (s', Ok tt) -> crp_score lgam s' = Ok (Fin b) ->
  exists v' p, view_migrate X v r k = (v', Ok tt) /\ esum l = Fin p /\
    view_score lgam v' = Ok (Fin (b + (t + p))).
Proof.
  intros Hv Hr Mv E0 Hh Hl L Hk Es Ea Ei Eb. unfold view_migrate. rewrite E0.
  pose proof (colgood_all X v r z Hv Hr) as G.
  assert (Ek : dkeys (v_dims v0) = dkeys (v_dims v)).
  { clear - Mv. unfold dkeys. induction Mv as [|p q t t0 [E _] _ IH]; [reflexivity|]. simpl. congruence. }
  destruct (table_row_ex X v0 r (v_dims v)) as [obs Eo].
  { apply Forall_forall. intros [c x] Hin. rewrite Forall_forall in G.
    destruct (G _ Hin) as [_ [e [He _]]]. simpl in *. unfold expected in He.
    destruct (X c r); [eauto|discriminate]. }
  { exact Ek. }
  rewrite Eo. pose proof (dget_obs X v0 r obs (v_dims v) Eo Ek) as Ho.
  unfold view_insert. rewrite Ei.
  destruct (dims_inc_progress X r z k obs _ _ G Mv Ho) as [ds2 E2]. rewrite E2.
  destruct (dims_move X r k obs (v_dims v) (v_dims v0) ds2 l t Mv Hh Ho (Hl Hk L) E2 Es) as [p [P1 P2]].
  eexists _, p. split; [reflexivity|]. split; [exact P1|].
  apply view_score_fin. exists b, (t + p). auto.
Qed.

Theorem row_weights_exact X lgam v r z v1 K w S :
  gamma_rec lgam -> lgam 1 = 0 -> vinv X v ->
  (forall c a, dget c (v_dims v) = Some a -> ahyp a) ->
  0 < c_alpha (v_crp v) -> dget r (v_rows v) = Some z ->
  view_score lgam v = Ok (Fin S) -> row_weights X v r = (v1, Ok (K, w)) ->
  exists C, Forall2 (fun k wk => exists v' S', placed X v r z k v' /\
    view_score lgam v' = Ok (Fin S') /\ wk = Fin (S' - C)) K w.
Proof.
  intros Hg H1 Hv Hh Ha Hr HS. pose proof Hv as [Hc [Hn Hd]]. unfold row_weights.
  destruct (gibbs_tables_spec (v_crp v) r z 1 Hc Hr Nat.lt_0_1) as [K0 [EK _]].
  rewrite EK, (gibbs_logps_eq (v_crp v) r z 1 Hc Ha Hr Nat.lt_0_1 K0 EK), Hr.
  destruct (row_gibbs X r z K0 (v_dims v)) as [ds [ls|e]] eqn:Eg; simpl; [|discriminate].
  destruct (_ =? _)%nat; [|discriminate]. intros E. injection E as _ <- <-.
  destruct (uninc_view X v r z Hv Hr Hh) as [ds0 [v0 [U [E0 [V0 [C0 [Mv [Hh0 [Hs0 Hl0]]]]]]]]].
  pose proof (colgood_all X v r z Hv Hr) as G.
  assert (Q : Forall2 (fun p p' : Z * adim => fst p = fst p' /\ aeq (snd p) (snd p')) (v_dims v) (v_dims v)).
  { clear - G. induction G as [|p t [Gi _] _ IH]; constructor; auto. split; [reflexivity|].
    apply aeq_refl; exact Gi. }
  pose proof (row_gibbs_lps X r z K0 _ _ _ _ ds0 G G Q U Eg) as W.
  apply view_score_fin in HS. destruct HS as [sc [sd [Esc [Esd ->]]]].
  assert (Hhf : Forall (fun p => ahyp (snd p)) (v_dims v)).
  { apply Forall_forall. intros [c a] Hin. apply (Hh c a). apply dget_In_NoDup; assumption. }
  (* the score without the row: z is one of the candidates *)
  destruct (gibbs_tables_eq (v_crp v) r z 1 Hc Hr Nat.lt_0_1) as [mx [_ EK']].
  rewrite EK in EK'. injection EK' as EK'.
  assert (Hz : In z K0).
  { rewrite EK'. apply in_or_app. left. apply zsort_in. eapply crp_rows_counts; eassumption. }
  assert (Wz : exists l, lps_rel X r z ds0 l).
  { clear - W Hz. induction W as [|k s K ls [l [_ L]] _ IH]; [contradiction|].
    destruct Hz as [->|Hz]; [eauto|auto]. }
  destruct Wz as [lz Lz].
  destruct (dims_stay X r z _ _ lz sd G Hhf U Lz Esd) as [pz [Pz1 Pz2]].
  specialize (Hs0 _ Pz2).
  destruct (crp_weight lgam (v_crp v) r z z Hg H1 Hc Ha Hr) as [a [b [s' [_ [Ea [_ [_ _]]]]]]].
  exists (a + (sd - pz) - ln (IZR (c_N (v_crp v0)) + c_alpha (v_crp v))).
  apply (Forall2_combine (fun x y => eadd x (Fin y))
    (fun k s => exists l, s = esum l /\ lps_rel X r k ds0 l)
    (fun t => ln (gibbs_weight (v_crp v) r 1 t))); [exact W|].
  intros k s [l [-> L]] _.
  destruct (crp_weight lgam (v_crp v) r z k Hg H1 Hc Ha Hr) as [a' [b' [sk [I1 [I2 [I3 [I4 I5]]]]]]].
  rewrite Ea in I2. injection I2 as <-. rewrite <- C0 in *. rewrite I4.
  destruct (Z.eq_dec k z) as [->|Hk].
  - destruct (dims_stay X r z _ _ l sd G Hhf U L Esd) as [p [P1 P2]].
    exists v, (sc + sd). split; [left; auto|]. split; [apply view_score_fin; eauto 6|].
    rewrite P1. simpl. f_equal. rewrite (I5 eq_refl), I3 in Esc. injection Esc as <-.
    rewrite Pz2 in P2. injection P2 as P2. lra.
  - destruct (migrate_score X lgam v r z k ds0 v0 l (sd - pz) a b' sk) as [v' [p [P0 [P1 P2]]]];
      auto.
    exists v', (b' + (sd - pz + p)). split; [right; auto|]. split; [exact P2|].
    rewrite P1. simpl. f_equal. lra.
Qed.

(* ------------------------------------------------------------------ *)
(** ** The weights exist *)

(** A column of a collapsed class other than Vonmises. *)
Definition atotal (a : adim) : Prop := ahyp a /\ forall lbes, a_M a <> M_vonmises lbes.

Lemma cluster_reach a k : ainv a -> ahyp a ->
  reach (a_M a) (cluster_of (a_M a) (a_d a) k) /\
  collapsed (a_M a) (m_hyp (a_M a) (cluster_of (a_M a) (a_d a) k)).
Proof.
  intros [HL Hi] [Hx Hh]. unfold cluster_of. destruct (dget k (d_clusters (a_d a))) as [c|] eqn:E.
  - split; [apply (di_good _ _ _ Hi k c E)|apply (Hh k c E)].
  - split; [apply (di_aux _ _ _ Hi)|exact Hx].
Qed.

Lemma cluster_lacks a r k : ainv a -> (forall e, acontent a r <> Some (k, e)) ->
  dget r (m_rows (a_M a) (cluster_of (a_M a) (a_d a) k)) = None.
Proof.
  intros [HL Hi] Hc. unfold cluster_of. destruct (dget k (d_clusters (a_d a))) as [c|] eqn:E.
  - destruct (dget r (m_rows (a_M a) c)) as [w|] eqn:Ew; [|reflexivity]. exfalso.
    pose proof (di_only _ _ _ Hi r k c w E Ew) as Hzr. apply (Hc (Some w)).
    unfold acontent, content. rewrite (di_disj _ _ _ Hi r k Hzr), Hzr, E, Ew. reflexivity.
  - destruct (di_aux _ _ _ Hi) as [_ ->]. reflexivity.
Qed.

Lemma logpdf_progress a b r z e k x ins : ainv a -> ainv b -> akin a b -> atotal b ->
  acontent a r = Some (z, e) -> (forall e', acontent b r <> Some (k, e')) ->
  e = option_map (keep (a_M a)) (valid_cell x ins) ->
  exists lp, a_logpdf b r k x ins = Ok lp.
Proof.
  intros Ha Hb [d' [-> _]] [Hh Hv] Hc Hn He. unfold a_logpdf, dim_logpdf.
  destruct (valid_cell x ins) as [[v l]|] eqn:Ev; [|eauto].
  simpl in He. subst e. pose proof (uninc_shape a r z _ Ha Hc) as S. simpl in S.
  destruct S as [c [c0 [_ [_ [_ [Sv [_ [Rc _]]]]]]]].
  pose proof (cluster_lacks _ r k Hb Hn) as Hno.
  destruct (cluster_reach _ k Hb Hh) as [Hr Hcol].
  destruct (ml_again _ _ (proj1 Ha) c r v l Rc Sv _ r Hno) as [s2 E2].
  destruct (collapsed_total _ _ Hcol Hv) as [T _]. eapply T; [exact Hr|reflexivity|exact E2].
Qed.

Lemma atotal_uninc a r a0 : ainv a -> atotal a -> a_unincorporate a r = (a0, Ok tt) -> atotal a0.
Proof.
  intros Hi [Hh Hv] E. split; [eapply ahyp_uninc; eassumption|].
  destruct (a_uninc_inv _ _ _ Hi E) as [[d' [-> _]] _]. exact Hv.
Qed.

Lemma cell_gibbs_total X r z k c a : colgood X r z (c, a) -> atotal a ->
  exists a' lp, cell_gibbs X r z k c a = (a', Ok lp).
Proof.
  intros [Hi [e [He Hc]]] Ht. simpl in *. unfold cell_gibbs. unfold expected in He.
  destruct (X c r) as [x|]; [|discriminate].
  destruct (input_values X r a) as [ins|]; [|discriminate]. injection He as He.
  destruct (Z.eqb_spec z k) as [<-|Hk].
  - destruct (a_uninc_ok _ _ _ Hi Hc) as [a1 [E1 [K1 [I1 [C1 _]]]]]. rewrite E1.
    specialize (C1 r). rewrite Z.eqb_refl in C1.
    destruct (logpdf_progress a a1 r z e z x ins Hi I1 K1) as [lp El]; auto.
    { exact (atotal_uninc _ _ _ Hi Ht E1). }
    { intros e'. rewrite C1. discriminate. }
    rewrite El. destruct (a_inc_progress a a1 r z e z x ins Hi I1 K1) as [a2 ->]; auto.
    simpl. eauto.
  - destruct (logpdf_progress a a r z e k x ins Hi Hi (akin_refl a)) as [lp ->]; eauto.
    intros e'. rewrite Hc. congruence.
Qed.

Lemma aeq_atotal a a' : ainv a -> aeq a a' -> atotal a -> atotal a'.
Proof.
  intros [HL Hi] [d' [-> [_ [A2 [_ [A4 [A5 _]]]]]]] [[H1 H2] Hv]. split; [|exact Hv].
  split; simpl; [rewrite A2; exact H1|].
  intros k c' Hc'. assert (Hin : In k (dkeys (d_clusters (a_d a)))).
  { rewrite <- A4. eapply dget_Some_in; exact Hc'. }
  apply in_dkeys_Some in Hin. destruct Hin as [c Hc].
  destruct (A5 k c Hc) as [c2 [E [_ [_ [_ [M4 _]]]]]]. rewrite Hc' in E. injection E as <-.
  rewrite <- M4. apply (H2 k c Hc).
Qed.

Lemma row_gibbs_dims_total X r z k ds : Forall (colgood X r z) ds ->
  Forall (fun p => atotal (snd p)) ds ->
  exists ds' l, row_gibbs_dims X r z k ds = (ds', Ok l) /\ Forall (colgood X r z) ds' /\
    Forall (fun p => atotal (snd p)) ds'.
Proof.
  intros G T. destruct (uninc_rel_ex X r z ds G) as [ds0 U].
  assert (E : exists ds' l, row_gibbs_dims X r z k ds = (ds', Ok l)).
  { clear U. induction G as [|[c a] ds Gp _ IH]; simpl; [eauto|]. inversion T; subst. simpl in *.
    destruct (cell_gibbs_total X r z k c a Gp ltac:(assumption)) as [a' [lp ->]].
    destruct IH as [ds' [l ->]]; [assumption|]. simpl. eauto. }
  destruct E as [ds' [l E]]. exists ds', l. split; [exact E|].
  destruct (row_gibbs_dims_lps X r z k ds ds' l ds0 G E U) as [_ [G' Q]].
  split; [exact G'|].
  clear - G T Q. induction Q as [|p p' t t' [_ Q] _ IH]; constructor;
    inversion G as [|? ? [Gi _] Gt]; inversion T; subst.
  - eapply aeq_atotal; eassumption.
  - apply IH; assumption.
Qed.

Lemma row_gibbs_total X r z K ds : Forall (colgood X r z) ds -> Forall (fun p => atotal (snd p)) ds ->
  exists ds' ls, row_gibbs X r z K ds = (ds', Ok ls) /\ length ls = length K.
Proof.
  revert ds. induction K as [|k K IH]; intros ds G T; simpl; [eauto|].
  destruct (row_gibbs_dims_total X r z k ds G T) as [ds1 [l [-> [G1 T1]]]].
  destruct (IH ds1 G1 T1) as [ds2 [ls [-> El]]]. simpl. eexists _, _. split; [reflexivity|].
  simpl. congruence.
Qed.

Lemma row_weights_total X v r z : vinv X v -> 0 < c_alpha (v_crp v) ->
  dget r (v_rows v) = Some z -> (forall c a, dget c (v_dims v) = Some a -> atotal a) ->
  exists v1 K w, row_weights X v r = (v1, Ok (K, w)) /\ crp_gibbs_tables (v_crp v) r 1 = Ok K.
Proof.
  intros Hv Ha Hr Ht. pose proof Hv as [Hc [Hn Hd]]. unfold row_weights.
  destruct (gibbs_tables_spec (v_crp v) r z 1 Hc Hr Nat.lt_0_1) as [K0 [EK _]].
  rewrite EK, (gibbs_logps_eq (v_crp v) r z 1 Hc Ha Hr Nat.lt_0_1 K0 EK), Hr.
  destruct (row_gibbs_total X r z K0 (v_dims v)) as [ds [ls [-> El]]].
  - apply colgood_all; assumption.
  - apply Forall_forall. intros [c a] Hin. apply (Ht c a). apply dget_In_NoDup; assumption.
  - simpl. rewrite map_length, El, Nat.eqb_refl. eauto 6.
Qed.

Lemma a_score_total a : ainv a -> atotal a -> exists s, a_score a = Ok (Fin s).
Proof.
  intros [HL Hi] [[_ Hh] Hv]. unfold a_score, dim_score.
  assert (H : forall c, In c (dvals (d_clusters (a_d a))) -> exists s, m_score (a_M a) c = Ok (Fin s)).
  { intros c Hin. unfold dvals in Hin. apply in_map_iff in Hin. destruct Hin as [[k c'] [E Hin]].
    simpl in E. subst c'. apply (dget_In_NoDup _ _ _ (di_nc _ _ _ Hi)) in Hin.
    destruct (collapsed_total _ _ (Hh k c Hin) Hv) as [_ T].
    apply T; [apply (di_good _ _ _ Hi k c Hin)|reflexivity]. }
  clear - H. induction (dvals (d_clusters (a_d a))) as [|c l IH]; simpl; [exists 0; reflexivity|].
  destruct IH as [b Eb]; [intros c' Hin; apply H; right; exact Hin|].
  destruct (H c) as [s Es]; [left; reflexivity|]. exists (s + b). apply rsum_ext_cons. eauto.
Qed.

Lemma view_score_total X lgam v : vinv X v -> 0 < c_alpha (v_crp v) ->
  (forall c a, dget c (v_dims v) = Some a -> atotal a) ->
  exists S, view_score lgam v = Ok (Fin S).
Proof.
  intros [Hc [Hn Hd]] Ha Ht.
  assert (E1 : exists a, crp_score lgam (v_crp v) = Ok (Fin a)).
  { unfold crp_score, crp_marginal. rewrite plog_pos by exact Ha. simpl. eauto. }
  assert (E2 : exists b, dsum a_score (v_dims v) = Ok (Fin b)).
  { assert (H : forall c a, In (c, a) (v_dims v) -> exists s, a_score a = Ok (Fin s)).
    { intros c a Hin. apply (dget_In_NoDup _ _ _ Hn) in Hin. apply a_score_total;
        [apply (Hd c a Hin)|apply (Ht c a Hin)]. }
    clear - H. induction (v_dims v) as [|[c a] ds IH]; [exists 0; reflexivity|].
    destruct IH as [b Eb]; [intros c' a' Hin; apply (H c'); right; exact Hin|].
    destruct (H c a) as [s Es]; [left; reflexivity|]. exists (s + b). apply dsum_cons. eauto. }
  destruct E1 as [a Ea]. destruct E2 as [b Eb]. exists (a + b). apply view_score_fin. eauto.
Qed.
