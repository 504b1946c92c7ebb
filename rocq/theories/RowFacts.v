(** Scores of views, removal and reinsertion of a row, and the weights of the
    row kernel. *)
From Verif Require Export ViewFacts ClassFacts.
Local Open Scope R_scope.

(* ------------------------------------------------------------------ *)
(** ** Finite sums *)

Lemma eadd_fin x y t : eadd x y = Fin t -> exists a b, x = Fin a /\ y = Fin b /\ t = a + b.
Proof. destruct x, y; simpl; intros H; try discriminate. injection H as <-. eauto. Qed.

Lemma fold_eadd_fin es x t : fold_left eadd es x = Fin t <->
  exists a ys, x = Fin a /\ es = map Fin ys /\ t = a + Rsum ys.
Proof.
  revert x. induction es as [|e es IH]; intros x; simpl.
  - split.
    + intros ->. exists t, []. repeat split; simpl; try lra.
    + intros [a [ys [-> [E ->]]]]. destruct ys; [|discriminate]. simpl. f_equal. lra.
  - rewrite IH. split.
    + intros [a [ys [E [-> ->]]]]. destruct (eadd_fin _ _ _ E) as [b [c [-> [-> ->]]]].
      exists b, (c :: ys). repeat split; simpl; lra.
    + intros [a [ys [-> [E ->]]]]. destruct ys as [|y ys]; [discriminate|].
      simpl in E. injection E as -> ->. exists (a + y), ys. repeat split; simpl; lra.
Qed.

Lemma esum_fin es t : esum es = Fin t <-> exists ys, es = map Fin ys /\ t = Rsum ys.
Proof.
  unfold esum. rewrite fold_eadd_fin. split.
  - intros [a [ys [E [-> ->]]]]. injection E as <-. exists ys. split; [reflexivity|lra].
  - intros [ys [-> ->]]. exists 0, ys. repeat split. lra.
Qed.

Definition dsum {A} (f : A -> res ext) (d : dict A) : res ext := rsum_ext (map f (dvals d)).

Lemma rsum_ext_cons x l t : rsum_ext (x :: l) = Ok (Fin t) <->
  exists a b, x = Ok (Fin a) /\ rsum_ext l = Ok (Fin b) /\ t = a + b.
Proof.
  unfold rsum_ext. simpl. destruct x as [x|]; simpl.
  2:{ split; [discriminate|]. intros [a [b [E _]]]. discriminate. }
  destruct (rsequence l) as [es|]; simpl.
  2:{ split; [discriminate|]. intros [a [b [_ [E _]]]]. discriminate. }
  split.
  - intros E. injection E as E. apply esum_fin in E. destruct E as [ys [E ->]].
    destruct ys as [|y ys]; [discriminate|]. simpl in E. injection E as -> ->.
    exists y, (Rsum ys). split; [reflexivity|]. split; [|reflexivity].
    f_equal. apply esum_fin. eauto.
  - intros [a [b [E1 [E2 ->]]]]. injection E1 as ->. injection E2 as E2.
    apply esum_fin in E2. destruct E2 as [ys [-> ->]]. f_equal. apply esum_fin.
    exists (a :: ys). auto.
Qed.

Lemma rsum_ext_nil : rsum_ext [] = Ok (Fin 0).
Proof. reflexivity. Qed.

Section Dsum.
  Context {A : Type} (f : A -> res ext).

  Lemma dsum_cons k a d t : dsum f ((k, a) :: d) = Ok (Fin t) <->
    exists x y, f a = Ok (Fin x) /\ dsum f d = Ok (Fin y) /\ t = x + y.
  Proof. unfold dsum, dvals. simpl. apply rsum_ext_cons. Qed.

  Lemma dsum_get k a d t : dget k d = Some a -> dsum f d = Ok (Fin t) ->
    exists x, f a = Ok (Fin x).
  Proof.
    revert t. induction d as [|[k' a'] d IH]; intros t; simpl; [discriminate|].
    rewrite dsum_cons. destruct (k =? k')%Z.
    - intros E [x [y [E1 _]]]. injection E as ->. eauto.
    - intros E [x [y [_ [E2 _]]]]. eapply IH; eassumption.
  Qed.

  Lemma dsum_dset k a a' d t x x' : dget k d = Some a -> dsum f d = Ok (Fin t) ->
    f a = Ok (Fin x) -> f a' = Ok (Fin x') -> dsum f (dset k a' d) = Ok (Fin (t - x + x')).
  Proof.
    revert t. induction d as [|[k' b] d IH]; intros t; simpl; [discriminate|].
    intros E Hs Hx Hx'. apply dsum_cons in Hs. destruct Hs as [u [w [E1 [E2 ->]]]].
    destruct (k =? k')%Z.
    - injection E as ->. apply dsum_cons. exists x', w. rewrite Hx in E1.
      injection E1 as ->. repeat split; auto. lra.
    - apply dsum_cons. exists u, (w - x + x'). repeat split; [exact E1|apply IH; assumption|lra].
  Qed.

  Lemma dsum_dset_new k a d t x : dget k d = None -> dsum f d = Ok (Fin t) ->
    f a = Ok (Fin x) -> dsum f (dset k a d) = Ok (Fin (t + x)).
  Proof.
    revert t. induction d as [|[k' b] d IH]; intros t; simpl.
    - intros _ Hs Hx. injection Hs as <-. apply dsum_cons. exists x, 0.
      repeat split; auto. lra.
    - destruct (k =? k')%Z; [discriminate|]. intros E Hs Hx.
      apply dsum_cons in Hs. destruct Hs as [u [w [E1 [E2 ->]]]].
      apply dsum_cons. exists u, (w + x). repeat split; [exact E1|apply IH; assumption|lra].
  Qed.

  Lemma dsum_ddel k a d t x : dget k d = Some a -> dsum f d = Ok (Fin t) ->
    f a = Ok (Fin x) -> dsum f (ddel k d) = Ok (Fin (t - x)).
  Proof.
    revert t. induction d as [|[k' b] d IH]; intros t; simpl; [discriminate|].
    intros E Hs Hx. apply dsum_cons in Hs. destruct Hs as [u [w [E1 [E2 ->]]]].
    destruct (k =? k')%Z.
    - injection E as ->. rewrite Hx in E1. injection E1 as ->. rewrite E2. do 2 f_equal. lra.
    - apply dsum_cons. exists u, (w - x). repeat split; [exact E1|apply IH; assumption|lra].
  Qed.

  Lemma dsum_ext (d d' : dict A) : dkeys d' = dkeys d -> NoDup (dkeys d) ->
    (forall k a a', dget k d = Some a -> dget k d' = Some a' -> f a' = f a) ->
    dsum f d' = dsum f d.
  Proof.
    intros Hk Hn H. unfold dsum. f_equal.
    revert d' Hk Hn H. induction d as [|[k a] d IH]; intros [|[k' a'] d'] Hk Hn H;
      try discriminate; [reflexivity|].
    simpl in Hk. injection Hk as -> Hk. inversion Hn; subst. unfold dvals. simpl. f_equal.
    - apply (H k); simpl; rewrite Z.eqb_refl; reflexivity.
    - apply IH; [exact Hk|assumption|]. intros k1 b b' Hb Hb'. apply (H k1); simpl;
      destruct (k1 =? k)%Z eqn:E; auto; apply Z.eqb_eq in E; subst k1;
      apply dget_Some_in in Hb; contradiction.
  Qed.
End Dsum.

(* ------------------------------------------------------------------ *)
(** ** One column: shapes of removal and insertion *)

Lemma uninc_shape a r z e : ainv a -> acontent a r = Some (z, e) ->
  match e with
  | None => dget r (d_zi (a_d a)) = Some z /\
      a_unincorporate a r = (ADim (a_M a) (set_zi (a_d a) (ddel r (d_zi (a_d a)))), Ok tt)
  | Some v => exists c c0, dget r (d_zi (a_d a)) = None /\ dget r (d_zr (a_d a)) = Some z /\
      dget z (d_clusters (a_d a)) = Some c /\ dget r (m_rows (a_M a) c) = Some v /\
      m_uninc (a_M a) c r = (c0, Ok tt) /\ reach (a_M a) c /\ reach (a_M a) c0 /\
      m_rows (a_M a) c0 = ddel r (m_rows (a_M a) c) /\
      m_hyp (a_M a) c0 = m_hyp (a_M a) c /\ m_par (a_M a) c0 = m_par (a_M a) c /\
      a_unincorporate a r =
        (ADim (a_M a) (set_zr (set_clusters (a_d a) (dset z c0 (d_clusters (a_d a))))
                         (ddel r (d_zr (a_d a)))), Ok tt)
  end.
Proof.
  intros [HL Hi]. unfold acontent, content. destruct a as [M d]. simpl in *.
  unfold a_unincorporate, dim_unincorporate. simpl.
  destruct (dget r (d_zi d)) as [k|] eqn:Ei.
  { intros E. injection E as -> <-.
    replace (dmem r (d_zi d)) with true by (unfold dmem; rewrite Ei; reflexivity). auto. }
  replace (dmem r (d_zi d)) with false by (unfold dmem; rewrite Ei; reflexivity).
  destruct (dget r (d_zr d)) as [k|] eqn:Er; [|discriminate].
  destruct (dget k (d_clusters d)) as [c|] eqn:Ec; [|discriminate].
  intros E. injection E as -> <-.
  destruct (di_in _ _ _ Hi r z Er) as [c1 [v [Hc1 Hv]]]. rewrite Ec in Hc1. injection Hc1 as <-.
  rewrite Hv. pose proof (di_good _ _ _ Hi z c Ec) as Hg.
  destruct (ml_uninc _ _ HL c r v Hg Hv) as [c0 [E0 [G0 [R0 [H0 P0]]]]].
  rewrite E0. exists c, c0. auto 12.
Qed.

Lemma inc_shape a r k x ins a' : ainv a -> a_incorporate a r k x ins = (a', Ok tt) ->
  let d1 := open_cluster (a_M a) (a_d a) k in
  dget k (d_clusters d1) = Some (cluster_of (a_M a) (a_d a) k) /\
  match valid_cell x ins with
  | None => a' = ADim (a_M a) (set_zi d1 (dset r k (d_zi (a_d a))))
  | Some (v, l) => exists c', m_inc (a_M a) (cluster_of (a_M a) (a_d a) k) r v l = (c', Ok tt) /\
      a' = ADim (a_M a) (set_zr (set_clusters d1 (dset k c' (d_clusters d1)))
                           (dset r k (d_zr (a_d a))))
  end.
Proof.
  intros [HL Hi]. destruct a as [M d]. simpl in *. unfold a_incorporate, dim_incorporate. simpl.
  destruct (dmem r (d_zr d) || dmem r (d_zi d)); [discriminate|].
  assert (Hk : dget k (d_clusters (open_cluster M d k)) = Some (cluster_of M d k)).
  { unfold open_cluster, cluster_of, dmem. destruct (dget k (d_clusters d)) eqn:E; [exact E|].
    simpl. apply dget_dset_same. }
  assert (Hz : d_zr (open_cluster M d k) = d_zr d /\ d_zi (open_cluster M d k) = d_zi d).
  { unfold open_cluster. destruct (dmem k (d_clusters d)); auto. }
  intros E. split; [exact Hk|]. destruct Hz as [Hz1 Hz2].
  destruct (valid_cell x ins) as [[v l]|].
  - rewrite Hk in E. destruct (m_inc M (cluster_of M d k) r v l) as [c' [[]|e]] eqn:Em; [|discriminate].
    injection E as <-. exists c'. simpl. rewrite Hz1. auto.
  - injection E as <-. rewrite Hz2. reflexivity.
Qed.

(** Two objects that cannot be told apart by score and density. *)
Definition meq (M : model) (s s' : mS M) : Prop :=
  reach M s /\ reach M s' /\ (forall r, dget r (m_rows M s) = dget r (m_rows M s')) /\
  m_hyp M s = m_hyp M s' /\ m_par M s = m_par M s'.

Lemma meq_refl M s : reach M s -> meq M s s.
Proof. intros H. repeat split; auto. Qed.
Lemma meq_trans M s1 s2 s3 : meq M s1 s2 -> meq M s2 s3 -> meq M s1 s3.
Proof.
  intros [A1 [A2 [A3 [A4 A5]]]] [B1 [B2 [B3 [B4 B5]]]].
  split; [exact A1|]. split; [exact B2|]. split; [intros r; rewrite A3; apply B3|].
  split; congruence.
Qed.

Definition aeq (a a' : adim) : Prop :=
  exists d', a' = ADim (a_M a) d' /\ d_ins d' = d_ins (a_d a) /\ d_aux d' = d_aux (a_d a) /\
    d_hyp d' = d_hyp (a_d a) /\
    dkeys (d_clusters d') = dkeys (d_clusters (a_d a)) /\
    (forall k c, dget k (d_clusters (a_d a)) = Some c ->
       exists c', dget k (d_clusters d') = Some c' /\ meq (a_M a) c c') /\
    (forall r, dget r (d_zr d') = dget r (d_zr (a_d a))) /\
    (forall r, dget r (d_zi d') = dget r (d_zi (a_d a))).

Lemma aeq_refl a : ainv a -> aeq a a.
Proof.
  intros [HL Hi]. exists (a_d a). split; [destruct a; reflexivity|]. do 4 (split; [reflexivity|]).
  split; [|split; reflexivity]. intros k c Hc. exists c. split; [exact Hc|].
  apply meq_refl. apply (di_good _ _ _ Hi k c Hc).
Qed.

Lemma aeq_trans a b c : aeq a b -> aeq b c -> aeq a c.
Proof.
  intros [d [-> [A1 [A2 [A3 [A4 [A5 [A6 A7]]]]]]]] [d' [-> [B1 [B2 [B3 [B4 [B5 [B6 B7]]]]]]]].
  simpl in *. exists d'. split; [reflexivity|]. do 4 (split; [congruence|]).
  split; [|split; intros r; [rewrite B6; apply A6|rewrite B7; apply A7]].
  intros k x Hx. destruct (A5 k x Hx) as [y [Hy E1]]. destruct (B5 k y Hy) as [w [Hw E2]].
  exists w. split; [exact Hw|]. eapply meq_trans; eassumption.
Qed.

Lemma aeq_logpdf a a' r k x ins : ainv a -> aeq a a' ->
  a_logpdf a' r k x ins = a_logpdf a r k x ins.
Proof.
  intros [HL Hi] [d' [-> [_ [A2 [_ [A4 [A5 _]]]]]]]. unfold a_logpdf, dim_logpdf. simpl.
  destruct (valid_cell x ins) as [[v l]|]; [|reflexivity].
  unfold cluster_of. destruct (dget k (d_clusters (a_d a))) as [c|] eqn:Ec.
  - destruct (A5 k c Ec) as [c' [-> [M1 [M2 [M3 [M4 M5]]]]]]. symmetry.
    apply (ml_ext _ _ HL); assumption.
  - assert (E : dget k (d_clusters d') = None).
    { apply dget_None_notin. rewrite A4. apply dget_None_notin; exact Ec. }
    rewrite E, A2. reflexivity.
Qed.

Lemma aeq_score a a' : ainv a -> aeq a a' -> a_score a' = a_score a.
Proof.
  intros [HL Hi] [d' [-> [_ [_ [_ [A4 [A5 _]]]]]]]. unfold a_score, dim_score. simpl.
  apply dsum_ext; [exact A4|apply (di_nc _ _ _ Hi)|].
  intros k c c' Hc Hc'. destruct (A5 k c Hc) as [c2 [Hc2 [M1 [M2 [M3 [M4 M5]]]]]].
  rewrite Hc' in Hc2. injection Hc2 as <-. symmetry. apply (ml_ext _ _ HL); assumption.
Qed.

Lemma aeq_uninc a a' r z e : ainv a -> ainv a' -> aeq a a' -> acontent a r = Some (z, e) ->
  exists a0 a0', a_unincorporate a r = (a0, Ok tt) /\ a_unincorporate a' r = (a0', Ok tt) /\
    aeq a0 a0'.
Proof.
  intros Ha Ha' Hq Hc.
  assert (Hc' : acontent a' r = Some (z, e)).
  { destruct Hq as [d' [-> [_ [_ [_ [_ [A5 [A6 A7]]]]]]]]. revert Hc.
    unfold acontent, content. simpl. rewrite A6, A7.
    destruct (dget r (d_zi (a_d a))); [auto|]. destruct (dget r (d_zr (a_d a))) as [k|]; [|auto].
    destruct (dget k (d_clusters (a_d a))) as [c|] eqn:E; [|discriminate].
    destruct (A5 k c E) as [c' [-> [_ [_ [M3 _]]]]]. rewrite M3. auto. }
  pose proof (uninc_shape a r z e Ha Hc) as S.
  pose proof (uninc_shape a' r z e Ha' Hc') as S'.
  destruct Ha as [HL Hi]. destruct Ha' as [HL' Hi'].
  assert (Nr := di_nr _ _ _ Hi). assert (Ni := di_ni _ _ _ Hi).
  assert (Nr' := di_nr _ _ _ Hi'). assert (Ni' := di_ni _ _ _ Hi').
  destruct Hq as [d' [-> [A1 [A2 [A3 [A4 [A5 [A6 A7]]]]]]]]. simpl in *.
  destruct e as [v|].
  - destruct S as [c [c0 [_ [_ [Sc [_ [_ [Rc [Rc0 [Ro [Ho [Po SE]]]]]]]]]]]].
    destruct S' as [b [b0 [_ [_ [Sb [_ [_ [Rb [Rb0 [Rob [Hob [Pob SE']]]]]]]]]]]].
    eexists _, _. split; [exact SE|]. split; [exact SE'|]. eexists. split; [reflexivity|].
    simpl. do 3 (split; [assumption|]).
    split; [rewrite !dkeys_dset_in by (eapply dget_Some_in; eassumption); exact A4|].
    split; [|split; [|exact A7]].
    + intros k y. rewrite !dget_dset. destruct (k =? z)%Z.
      * intros E. injection E as <-. exists b0. split; [reflexivity|].
        destruct (A5 z c Sc) as [b1 [Hb1 [M1 [M2 [M3 [M4 M5]]]]]].
        rewrite Sb in Hb1. injection Hb1 as <-.
        split; [exact Rc0|]. split; [exact Rb0|].
        split; [|split; congruence].
        intros r'. rewrite Ro, Rob, !dget_ddel by (eapply (ml_nodup _ _ HL); eassumption).
        rewrite M3. reflexivity.
      * apply A5.
    + intros r'. rewrite !dget_ddel by assumption. rewrite A6. reflexivity.
  - destruct S as [_ SE]. destruct S' as [_ SE'].
    eexists _, _. split; [exact SE|]. split; [exact SE'|]. eexists. split; [reflexivity|].
    simpl. do 4 (split; [assumption|]). split; [exact A5|]. split; [exact A6|].
    intros r'. rewrite !dget_ddel by assumption. rewrite A7. reflexivity.
Qed.

Lemma uninc_cluster a r z e a0 k : ainv a -> acontent a r = Some (z, e) ->
  a_unincorporate a r = (a0, Ok tt) -> k <> z ->
  forall x ins, a_logpdf a0 r k x ins = a_logpdf a r k x ins.
Proof.
  intros Ha Hc E Hk x ins. pose proof (uninc_shape a r z e Ha Hc) as S. destruct e as [v|].
  - destruct S as [c [c0 [_ [_ [_ [_ [_ [_ [_ [_ [_ [_ SE]]]]]]]]]]]]. rewrite E in SE.
    injection SE as ->. unfold a_logpdf, dim_logpdf, cluster_of. simpl.
    rewrite dget_dset_other by exact Hk. reflexivity.
  - destruct S as [_ SE]. rewrite E in SE. injection SE as ->. reflexivity.
Qed.

Lemma drop_logpdf a r z k x ins : ainv a -> k <> z ->
  a_logpdf (a_drop z a) r k x ins = a_logpdf a r k x ins.
Proof.
  intros [HL Hi] Hk. unfold a_logpdf, dim_logpdf, cluster_of, a_drop. simpl.
  rewrite dget_ddel_other by exact Hk. reflexivity.
Qed.

Lemma cell_gibbs_spec X r z k c a a' lp e : ainv a -> acontent a r = Some (z, e) ->
  expected X c a r = Some e -> cell_gibbs X r z k c a = (a', Ok lp) ->
  aeq a a' /\ exists a0 x ins, a_unincorporate a r = (a0, Ok tt) /\ X c r = Ok x /\
    input_values X r a = Ok ins /\ a_logpdf a0 r k x ins = Ok lp.
Proof.
  intros Ha Hc He. unfold expected in He. unfold cell_gibbs.
  destruct (X c r) as [x|]; [|discriminate].
  destruct (input_values X r a) as [ins|]; [|discriminate]. injection He as He.
  destruct (Z.eqb_spec z k) as [<-|Hk].
  - destruct (a_unincorporate a r) as [a1 [[]|er]] eqn:Eu; [|discriminate].
    destruct (a_logpdf a1 r z x ins) as [lp'|] eqn:El; [|discriminate].
    destruct (a_incorporate a1 r z x ins) as [a2 [[]|er]] eqn:Ei; simpl; [|discriminate].
    intros E. injection E as <- <-. split; [|exists a1, x, ins; auto].
    destruct (a_uninc_inv _ _ _ Ha Eu) as [_ [A2 _]].
    pose proof (uninc_shape a r z e Ha Hc) as S.
    destruct (inc_shape a1 r z x ins a2 A2 Ei) as [I1 I2].
    destruct Ha as [HL Hi].
    destruct e as [v|].
    + destruct S as [cc [c0 [Z1 [Z2 [Sc [Sv [Su [Rc [Rc0 [Ro [Ho [Po SE]]]]]]]]]]]].
      rewrite Eu in SE. injection SE as ->. simpl in *.
      destruct (valid_cell x ins) as [[y l]|]; [|discriminate].
      simpl in He. injection He as <-.
      destruct I2 as [c' [Em ->]].
      assert (Eo : cluster_of (a_M a) (set_zr (set_clusters (a_d a) (dset z c0 (d_clusters (a_d a))))
                      (ddel r (d_zr (a_d a)))) z = c0).
      { unfold cluster_of. simpl. rewrite dget_dset_same. reflexivity. }
      unfold open_cluster in *. simpl in *.
      replace (dmem z (dset z c0 (d_clusters (a_d a)))) with true in *
        by (unfold dmem; rewrite dget_dset_same; reflexivity).
      rewrite Eo in Em. destruct (ml_inc _ _ HL _ _ _ _ _ Rc0 Em) as [G1 [G2 [G3 [G4 G5]]]].
      eexists. split; [reflexivity|]. simpl. do 3 (split; [reflexivity|]).
      split; [|split; [|split; [|reflexivity]]].
      * rewrite dset_dset. apply dkeys_dset_in. eapply dget_Some_in; exact Sc.
      * intros k d Hd. rewrite dset_dset, dget_dset. destruct (Z.eqb_spec k z) as [->|Hne].
        -- exists c'. split; [reflexivity|]. rewrite Sc in Hd. injection Hd as <-.
           split; [exact Rc|]. split; [exact G1|]. split; [|split; congruence].
           intros r'. rewrite G3, Ro, dget_dset, dget_ddel by (eapply (ml_nodup _ _ HL); exact Rc).
           destruct (Z.eqb_spec r' r) as [->|]; [exact Sv|reflexivity].
        -- exists d. split; [exact Hd|]. apply meq_refl. apply (di_good _ _ _ Hi k d Hd).
      * intros r'. rewrite dget_dset, dget_ddel by apply (di_nr _ _ _ Hi).
        destruct (Z.eqb_spec r' r) as [->|]; [symmetry; exact Z2|reflexivity].
    + destruct S as [Sz SE]. rewrite Eu in SE. injection SE as ->. simpl in *.
      destruct (valid_cell x ins) as [[y l]|]; [discriminate|]. rewrite I2.
      unfold open_cluster. simpl.
      assert (Hz : In z (dkeys (d_clusters (a_d a)))) by (eapply (di_zi _ _ _ Hi); exact Sz).
      apply dmem_in in Hz. rewrite Hz.
      eexists. split; [reflexivity|]. simpl. do 4 (split; [reflexivity|]).
      split; [|split; [reflexivity|]].
      * intros k d Hd. exists d. split; [exact Hd|]. apply meq_refl. apply (di_good _ _ _ Hi k d Hd).
      * intros r'. rewrite dget_dset, dget_ddel by apply (di_ni _ _ _ Hi).
        destruct (Z.eqb_spec r' r) as [->|]; [symmetry; exact Sz|reflexivity].
  - intros E. injection E as <- El. split; [apply aeq_refl; exact Ha|].
    destruct (a_uninc_ok a r _ Ha Hc) as [a0 [Eu _]]. exists a0, x, ins.
    do 3 (split; [assumption || reflexivity|]).
    rewrite (uninc_cluster a r z e a0 k Ha Hc Eu); [exact El|congruence].
Qed.

(* ------------------------------------------------------------------ *)
(** ** Scores of collapsed columns *)

(** All objects of the column are of a collapsed class with valid
    hyperparameters. *)
Definition ahyp (a : adim) : Prop :=
  collapsed (a_M a) (m_hyp (a_M a) (d_aux (a_d a))) /\
  forall k c, dget k (d_clusters (a_d a)) = Some c -> collapsed (a_M a) (m_hyp (a_M a) c).

Lemma empty_score M s : mlaws M (reach M) -> reach M s -> m_rows M s = [] ->
  collapsed M (m_hyp M s) -> m_score M s = Ok (Fin 0).
Proof.
  intros HL Hs Hr Hc. destruct (collapsed_chain _ _ Hc) as [H0 _].
  rewrite <- (H0 (m_par M s)).
  pose proof (ml_new _ _ HL (m_hyp M s) (m_par M s)) as [A [B [C D]]].
  apply (ml_ext _ _ HL); auto. rewrite Hr, B. reflexivity.
Qed.

Lemma ahyp_uninc a r a0 : ainv a -> ahyp a -> a_unincorporate a r = (a0, Ok tt) -> ahyp a0.
Proof.
  intros Ha [H1 H2] E. destruct (a_uninc_inv _ _ _ Ha E) as [_ [_ [[[z e] Hc] _]]].
  pose proof (uninc_shape a r z e Ha Hc) as S. destruct e as [v|].
  - destruct S as [c [c0 [_ [_ [Sc [_ [_ [_ [_ [_ [Ho [_ SE]]]]]]]]]]]]. rewrite E in SE.
    injection SE as ->. split; [exact H1|]. simpl. intros k b. rewrite dget_dset.
    destruct (k =? z)%Z; [|apply H2]. intros Eb. injection Eb as <-. rewrite Ho. eapply H2; exact Sc.
  - destruct S as [_ SE]. rewrite E in SE. injection SE as ->. split; assumption.
Qed.

Lemma col_stay a r z e a0 x ins lp s : ainv a -> ahyp a -> acontent a r = Some (z, e) ->
  e = option_map (keep (a_M a)) (valid_cell x ins) ->
  a_unincorporate a r = (a0, Ok tt) -> a_logpdf a0 r z x ins = Ok lp ->
  a_score a = Ok (Fin s) -> exists p, lp = Fin p /\ a_score a0 = Ok (Fin (s - p)).
Proof.
  intros Ha Hh Hc He Eu El Es. pose proof (uninc_shape a r z e Ha Hc) as S.
  destruct (valid_cell x ins) as [[y l]|] eqn:Ev; simpl in He; subst e.
  - destruct S as [c [c0 [Z1 [Z2 [Sc [Sv [Su [Rc [Rc0 [Ro [Ho [Po SE]]]]]]]]]]]].
    rewrite Eu in SE. injection SE as ->. destruct Ha as [HL Hi]. destruct Hh as [_ Hh].
    unfold a_logpdf, dim_logpdf, cluster_of in El. simpl in El.
    rewrite Ev, dget_dset_same in El.
    assert (Hn : dget r (m_rows (a_M a) c0) = None).
    { rewrite Ro. apply dget_ddel_same. eapply (ml_nodup _ _ HL); exact Rc. }
    destruct (ml_again _ _ HL c r y l Rc Sv c0 r Hn) as [c1 E1].
    assert (Hcol : collapsed (a_M a) (m_hyp (a_M a) c0)) by (rewrite Ho; eapply Hh; exact Sc).
    destruct (collapsed_chain _ _ Hcol) as [_ Hch].
    destruct (Hch c0 r y l c1 lp Rc0 eq_refl E1 El) as [u [w [F1 [F2 ->]]]].
    exists (w - u). split; [reflexivity|].
    destruct (ml_inc _ _ HL _ _ _ _ _ Rc0 E1) as [G1 [_ [G3 [G4 G5]]]].
    assert (Ecs : m_score (a_M a) c = Ok (Fin w)).
    { rewrite <- F2. apply (ml_ext _ _ HL); auto; try congruence.
      intros r'. rewrite G3, Ro, dget_dset, dget_ddel by (eapply (ml_nodup _ _ HL); exact Rc).
      destruct (Z.eqb_spec r' r) as [->|]; [exact Sv|reflexivity]. }
    unfold a_score, dim_score in *. simpl.
    replace (s - (w - u)) with (s - w + u) by lra.
    eapply (dsum_dset (m_score (a_M a))); eassumption.
  - destruct S as [Sz SE]. rewrite Eu in SE. injection SE as ->.
    unfold a_logpdf, dim_logpdf in El. rewrite Ev in El. injection El as <-.
    exists 0. split; [reflexivity|]. unfold a_score, dim_score in *. simpl.
    rewrite Es. do 2 f_equal. lra.
Qed.

Lemma col_move b r k x ins b' lp t : ainv b -> ahyp b ->
  a_incorporate b r k x ins = (b', Ok tt) -> a_logpdf b r k x ins = Ok lp ->
  a_score b = Ok (Fin t) -> exists p, lp = Fin p /\ a_score b' = Ok (Fin (t + p)).
Proof.
  intros Ha Hh Ei El Es. destruct (inc_shape _ _ _ _ _ _ Ha Ei) as [I1 I2].
  destruct Ha as [HL Hi]. destruct Hh as [Hx Hh].
  destruct b as [M d]. simpl in *.
  assert (Hopen : dsum (m_score M) (d_clusters (open_cluster M d k)) = Ok (Fin t)).
  { unfold open_cluster. destruct (dmem k (d_clusters d)) eqn:E; [exact Es|]. simpl.
    replace t with (t + 0) by lra. apply dsum_dset_new; [apply dmem_false_None; exact E|exact Es|].
    apply empty_score; [exact HL|apply (di_aux _ _ _ Hi)|apply (di_aux _ _ _ Hi)|exact Hx]. }
  unfold a_logpdf, dim_logpdf in El. simpl in El.
  destruct (valid_cell x ins) as [[v l]|].
  - destruct I2 as [c' [Em ->]].
    assert (Hr : reach M (cluster_of M d k) /\ collapsed M (m_hyp M (cluster_of M d k))).
    { unfold cluster_of. destruct (dget k (d_clusters d)) as [c|] eqn:E.
      - split; [apply (di_good _ _ _ Hi k c E)|apply (Hh k c E)].
      - split; [apply (di_aux _ _ _ Hi)|exact Hx]. }
    destruct Hr as [Hr Hcol]. destruct (collapsed_chain _ _ Hcol) as [_ Hch].
    destruct (Hch _ _ _ _ _ _ Hr eq_refl Em El) as [u [w [F1 [F2 ->]]]].
    exists (w - u). split; [reflexivity|]. unfold a_score, dim_score. simpl.
    replace (t + (w - u)) with (t - u + w) by lra.
    eapply (dsum_dset (m_score M)); eassumption.
  - injection El as <-. exists 0. split; [reflexivity|]. subst b'.
    unfold a_score, dim_score. simpl. rewrite Rplus_0_r. exact Hopen.
Qed.

Lemma drop_score z a s : ainv a -> ahyp a -> In z (akeys a) ->
  (forall r v, acontent a r <> Some (z, v)) -> a_score a = Ok (Fin s) ->
  a_score (a_drop z a) = Ok (Fin s).
Proof.
  intros [HL Hi] [_ Hh] Hz Hno Es. unfold akeys in Hz. apply in_dkeys_Some in Hz.
  destruct Hz as [c Hc].
  assert (Hr : m_rows (a_M a) c = []).
  { destruct (m_rows (a_M a) c) as [|[r v] l] eqn:E; [reflexivity|]. exfalso.
    assert (Hv : dget r (m_rows (a_M a) c) = Some v) by (rewrite E; simpl; rewrite Z.eqb_refl; reflexivity).
    pose proof (di_only _ _ _ Hi r z c v Hc Hv) as Hzr.
    apply (Hno r (Some v)). unfold acontent, content. rewrite (di_disj _ _ _ Hi r z Hzr), Hzr, Hc, Hv.
    reflexivity. }
  unfold a_score, dim_score, a_drop in *. simpl.
  replace s with (s - 0) by lra. apply (dsum_ddel (m_score (a_M a)) z c); [exact Hc|exact Es|].
  apply empty_score; [exact HL|apply (di_good _ _ _ Hi z c Hc)|exact Hr|apply (Hh z c Hc)].
Qed.

Lemma ahyp_drop z a : ainv a -> ahyp a -> ahyp (a_drop z a).
Proof.
  intros [HL Hi] [H1 H2]. split; [exact H1|]. simpl. intros k c.
  rewrite dget_ddel by apply (di_nc _ _ _ Hi). destruct (k =? z)%Z; [discriminate|apply H2].
Qed.
