(** Facts about the model of Dim. *)
From Verif Require Export Dim BaseFacts PrimFacts.
Local Open Scope R_scope.

(** What Dim relies on about the class of its components.  [good] are the
    reachable objects. *)
Record mlaws (M : model) (good : mS M -> Prop) : Prop := {
  ml_new : forall h q, good (m_new M h q) /\ m_rows M (m_new M h q) = [] /\
             m_hyp M (m_new M h q) = h /\ m_par M (m_new M h q) = q;
  ml_nodup : forall s, good s -> NoDup (dkeys (m_rows M s));
  ml_inc : forall s r x l s', good s -> m_inc M s r x l = (s', Ok tt) ->
             good s' /\ dget r (m_rows M s) = None /\
             m_rows M s' = dset r (m_keep M x, l) (m_rows M s) /\
             m_hyp M s' = m_hyp M s /\ m_par M s' = m_par M s;
  ml_inc_err : forall s r x l s' e, m_inc M s r x l = (s', Err e) -> s' = s;
  ml_inc_any : forall s r x l s', m_inc M s r x l = (s', Ok tt) ->
             forall s2 r2, dget r2 (m_rows M s2) = None ->
             exists s2', m_inc M s2 r2 x l = (s2', Ok tt);
  ml_again : forall s r x l, good s -> dget r (m_rows M s) = Some (m_keep M x, l) ->
             forall s2 r2, dget r2 (m_rows M s2) = None ->
             exists s2', m_inc M s2 r2 x l = (s2', Ok tt);
  ml_uninc : forall s r v, good s -> dget r (m_rows M s) = Some v ->
             exists s', m_uninc M s r = (s', Ok tt) /\ good s' /\
               m_rows M s' = ddel r (m_rows M s) /\
               m_hyp M s' = m_hyp M s /\ m_par M s' = m_par M s;
  ml_uninc_none : forall s r, dget r (m_rows M s) = None ->
             exists e, m_uninc M s r = (s, Err e);
  ml_undo : forall s r x l s1, m_inc M s r x l = (s1, Ok tt) ->
             m_uninc M s1 r = (s, Ok tt);
  ml_set : forall s h s', m_set_hypers M s h = (s', Ok tt) ->
             (good s -> good s') /\ m_rows M s' = m_rows M s /\
             m_hyp M s' = h /\ m_par M s' = m_par M s;
  ml_set_err : forall s h s' e, m_set_hypers M s h = (s', Err e) -> s' = s;
  ml_par_set : forall s q,
             (good s -> good (m_set_params M s q)) /\
             m_rows M (m_set_params M s q) = m_rows M s /\
             m_hyp M (m_set_params M s q) = m_hyp M s;
  ml_ext : forall s s', good s -> good s' ->
             (forall r, dget r (m_rows M s) = dget r (m_rows M s')) ->
             m_hyp M s = m_hyp M s' -> m_par M s = m_par M s' ->
             m_score M s = m_score M s' /\
             forall r x l, m_logpdf M s r x l = m_logpdf M s' r x l
}.

(* ------------------------------------------------------------------ *)
(** ** Instances *)

Lemma dmap_dset {A B} (f : A -> B) k v (d : dict A) :
  dmap f (dset k v d) = dset k (f v) (dmap f d).
Proof.
  induction d as [|[k' v'] d IH]; simpl; [reflexivity|].
  destruct (k =? k')%Z; simpl; [reflexivity|]. f_equal. exact IH.
Qed.
Lemma dmap_ddel {A B} (f : A -> B) k (d : dict A) :
  dmap f (ddel k d) = ddel k (dmap f d).
Proof.
  induction d as [|[k' v'] d IH]; simpl; [reflexivity|].
  destruct (k =? k')%Z; simpl; [reflexivity|]. f_equal. exact IH.
Qed.

Lemma of_prim_laws P okv spec n hset :
  plaws P okv spec -> (forall x, okv x -> exists v, p_check P x = Ok v) ->
  mlaws (of_prim P n hset) (pinv P okv spec).
Proof.
  intros HL Hok.
  assert (Hg : forall (s : pstate P) r,
    dget r (dmap (fun x => (x, @nil R)) (p_data s)) = None <-> dget r (p_data s) = None).
  { intros s r. rewrite dget_dmap. destruct (dget r (p_data s)); split; simpl; congruence. }
  split; simpl.
  - intros h q. split; [apply pinv_new; exact HL|]. auto.
  - intros s [H _]. rewrite dkeys_dmap. exact H.
  - intros s r x l s' Hi E. destruct l; [|discriminate].
    pose proof (pinv_inc P okv spec HL s r x Hi) as Hi'. rewrite E in Hi'.
    unfold prim_incorporate in E. destruct (dmem r (p_data s)) eqn:Em; [discriminate|].
    destruct (p_check P x) as [v|] eqn:Ec; [|discriminate]. injection E as <-.
    split; [exact Hi'|]. split; [apply Hg, dmem_false_None; exact Em|]. simpl.
    rewrite dmap_dset. auto.
  - intros s r x l s' e E. destruct l; [|congruence].
    unfold prim_incorporate in E. destruct (dmem r (p_data s)); [congruence|].
    destruct (p_check P x); congruence.
  - intros s r x l s' E s2 r2 H2. destruct l; [|discriminate].
    unfold prim_incorporate in *. apply Hg, dmem_false_None in H2. rewrite H2.
    destruct (dmem r (p_data s)); [discriminate|].
    destruct (p_check P x); [eauto|discriminate].
  - intros s r x l [_ [Hf _]] E s2 r2 H2. rewrite dget_dmap in E.
    destruct (dget r (p_data s)) as [v|] eqn:Er; [|discriminate]. injection E as Ev <-.
    unfold prim_incorporate. apply Hg, dmem_false_None in H2. rewrite H2.
    destruct (p_check P x) as [w|] eqn:Ec; [eauto|]. subst v.
    apply dget_In, (in_map snd) in Er. simpl in Er. rewrite Forall_forall in Hf.
    destruct (Hok x (Hf x Er)) as [w Ew]. congruence.
  - intros s r v Hi E. pose proof (pinv_uninc P okv spec HL s r Hi) as Hi'.
    rewrite dget_dmap in E. unfold prim_unincorporate in *.
    destruct (dget r (p_data s)) eqn:Ed; [|discriminate].
    eexists. split; [reflexivity|]. split; [exact Hi'|]. simpl.
    rewrite dmap_ddel. auto.
  - intros s r E. apply Hg in E. unfold prim_unincorporate. rewrite E. eauto.
  - intros s r x l s1 E. destruct l; [|discriminate].
    eapply prim_uninc_inc; eassumption.
  - intros s h s' E. unfold prim_set_hypers in E. destruct (p_hok P h); [|discriminate].
    injection E as <-. auto.
  - intros s h s' e E. unfold prim_set_hypers in E. destruct (p_hok P h); congruence.
  - intros s q. auto.
  - intros s s' H1 H2 Hd Hh Hq.
    assert (Hd' : forall r, dget r (p_data s) = dget r (p_data s')).
    { intros r. specialize (Hd r). rewrite !dget_dmap in Hd.
      destruct (dget r (p_data s)), (dget r (p_data s')); simpl in Hd; congruence. }
    pose proof (prim_exchangeable P okv spec HL s s' H1 H2 Hd') as Hs.
    unfold prim_logpdf_score, prim_logpdf, dmem. rewrite Hh, Hq, Hs.
    split; [reflexivity|]. intros r x l. rewrite Hd'. reflexivity.
Qed.

Lemma regression_laws H code pred score n hset coll :
  (forall h l l', Permutation l l' -> score h l = score h l') ->
  (forall h l l' x i, Permutation l l' -> pred h l x i = pred h l' x i) ->
  mlaws (regression H code pred score n hset coll)
    (fun s => NoDup (dkeys (r_data s)) /\
       forall r x l, dget r (r_data s) = Some (x, l) -> exists y, code l = Ok y).
Proof.
  intros Hs Hp. split; simpl.
  - intros h q. repeat split; [constructor|discriminate|]. destruct q; reflexivity.
  - intros s Hi. apply Hi.
  - intros s r x l s' [Hi Hcd] E. destruct (dmem r (r_data s)) eqn:Em; [discriminate|].
    destruct (code l) eqn:Ec; [|discriminate]. injection E as <-. simpl.
    split; [split; [apply NoDup_dset; exact Hi|]|].
    { intros r' x' l'. rewrite dget_dset. destruct (r' =? r)%Z; [|apply Hcd].
      intros E. injection E as <- <-. eauto. }
    split; [apply dmem_false_None; exact Em|]. auto.
  - intros s r x l s' e E. destruct (dmem r (r_data s)); [congruence|].
    destruct (code l); congruence.
  - intros s r x l s' E s2 r2 H2. apply dmem_false_None in H2. rewrite H2.
    destruct (dmem r (r_data s)); [discriminate|]. destruct (code l); [eauto|discriminate].
  - intros s r x l [_ Hcd] E s2 r2 H2. apply dmem_false_None in H2. rewrite H2.
    destruct (Hcd r x l E) as [y ->]. eauto.
  - intros s r v [Hi Hcd] E. unfold dmem. rewrite E. eexists. split; [reflexivity|]. simpl.
    split; [split; [apply NoDup_ddel; exact Hi|]|].
    { intros r' x' l'. rewrite dget_ddel by exact Hi. destruct (r' =? r)%Z; [discriminate|].
      apply Hcd. }
    auto.
  - intros s r E. unfold dmem. rewrite E. eauto.
  - intros s r x l s1 E. destruct (dmem r (r_data s)) eqn:Em; [discriminate|].
    destruct (code l); [|discriminate]. injection E as <-. simpl.
    unfold dmem. rewrite dget_dset_same. apply dmem_false_None in Em.
    rewrite ddel_dset_fresh by (apply dget_None_notin; exact Em).
    destruct s; reflexivity.
  - intros s h s' E. injection E as <-. auto.
  - intros; congruence.
  - auto.
  - intros s s' [H1 _] [H2 _] Hd Hh _.
    assert (HP : Permutation (r_data s) (r_data s')) by (apply dict_ext_perm; assumption).
    assert (HP' : Permutation (dvals (r_data s)) (dvals (r_data s')))
      by (apply Permutation_map; exact HP).
    rewrite Hh. split; [apply Hs; exact HP'|].
    intros r x l. unfold dmem. rewrite Hd. destruct (dget r (r_data s')); [reflexivity|].
    destruct (code l); [|reflexivity]. apply Hp; exact HP'.
Qed.

(** Objects obtained from the constructor by successful calls. *)
Inductive reach (M : model) : mS M -> Prop :=
| rc_new h q : reach M (m_new M h q)
| rc_inc s r x l s' : reach M s -> m_inc M s r x l = (s', Ok tt) -> reach M s'
| rc_uninc s r s' : reach M s -> m_uninc M s r = (s', Ok tt) -> reach M s'
| rc_set s h s' : reach M s -> m_set_hypers M s h = (s', Ok tt) -> reach M s'
| rc_par s q : reach M s -> reach M (m_set_params M s q).

Lemma reach_good M good s : mlaws M good -> reach M s -> good s.
Proof.
  intros HL. induction 1 as [h q|s r x l s' _ IH E|s r s' _ IH E|s h s' _ IH E|s q _ IH].
  - apply (ml_new _ _ HL).
  - eapply (ml_inc _ _ HL); eassumption.
  - destruct (dget r (m_rows M s)) as [v|] eqn:Er.
    + destruct (ml_uninc _ _ HL s r v IH Er) as [s2 [E2 [G _]]]. congruence.
    + destruct (ml_uninc_none _ _ HL s r Er) as [e E2]. congruence.
  - eapply (ml_set _ _ HL); eassumption.
  - apply (ml_par_set _ _ HL); exact IH.
Qed.

Lemma mlaws_reach M good : mlaws M good -> mlaws M (reach M).
Proof.
  intros HL. split.
  - intros h q. split; [constructor|]. apply (ml_new _ _ HL).
  - intros s Hs. apply (ml_nodup _ _ HL). eapply reach_good; eassumption.
  - intros s r x l s' Hs E. split; [eapply rc_inc; eassumption|].
    eapply (ml_inc _ _ HL); [eapply reach_good; eassumption|exact E].
  - apply (ml_inc_err _ _ HL).
  - apply (ml_inc_any _ _ HL).
  - intros s r x l Hs. apply (ml_again _ _ HL). eapply reach_good; eassumption.
  - intros s r v Hs E. destruct (ml_uninc _ _ HL s r v) as [s' [E' [_ H]]]; [|exact E|].
    + eapply reach_good; eassumption.
    + exists s'. split; [exact E'|]. split; [eapply rc_uninc; eassumption|exact H].
  - apply (ml_uninc_none _ _ HL).
  - apply (ml_undo _ _ HL).
  - intros s h s' E. split; [intros Hs; eapply rc_set; eassumption|].
    eapply (ml_set _ _ HL); exact E.
  - apply (ml_set_err _ _ HL).
  - intros s q. split; [apply rc_par|]. apply (ml_par_set _ _ HL).
  - intros s s' H1 H2. apply (ml_ext _ _ HL); eapply reach_good; eassumption.
Qed.

(* ------------------------------------------------------------------ *)
(** ** The invariant of a column *)

Section DimInv.
  Context (M : model) (good : mS M -> Prop).
  Context (HL : mlaws M good).
  Notation dim := (dim M).
  Implicit Types d : dim.

  Record dinv d : Prop := {
    di_good : forall k c, dget k (d_clusters d) = Some c -> good c;
    di_aux : good (d_aux d) /\ m_rows M (d_aux d) = [];
    di_nc : NoDup (dkeys (d_clusters d));
    di_nr : NoDup (dkeys (d_zr d));
    di_ni : NoDup (dkeys (d_zi d));
    di_disj : forall r k, dget r (d_zr d) = Some k -> dget r (d_zi d) = None;
    di_in : forall r k, dget r (d_zr d) = Some k ->
              exists c v, dget k (d_clusters d) = Some c /\ dget r (m_rows M c) = Some v;
    di_only : forall r k c v, dget k (d_clusters d) = Some c ->
              dget r (m_rows M c) = Some v -> dget r (d_zr d) = Some k;
    di_zi : forall r k, dget r (d_zi d) = Some k -> In k (dkeys (d_clusters d))
  }.

  (** What the column holds for row [r]: its cluster and the stored value and
      inputs, [None] if missing. *)
  Definition content d (r : Z) : option (Z * option (R * list R)) :=
    match dget r (d_zi d) with
    | Some k => Some (k, None)
    | None =>
        match dget r (d_zr d) with
        | Some k =>
            match dget k (d_clusters d) with
            | Some c => Some (k, dget r (m_rows M c))
            | None => None
            end
        | None => None
        end
    end.

  Definition keep (v : R * list R) : R * list R := (m_keep M (fst v), snd v).

  Lemma dinv_new h set ins tape : dinv (dim_new M h set ins tape).
  Proof.
    split; simpl; try discriminate; try constructor;
      apply (ml_new _ _ HL).
  Qed.

  Lemma dinv_fresh_aux d : dinv d -> dinv (fresh_aux M d).
  Proof.
    intros [H1 H2 H3 H4 H5 H6 H7 H8 H9]. split; simpl; auto.
    pose proof (ml_new _ _ HL (d_hyp d) (d_tape d (d_pos d))) as [A [B _]]. auto.
  Qed.

  Lemma dinv_open d k : dinv d -> dinv (open_cluster M d k) /\
    (forall r, content (open_cluster M d k) r = content d r) /\
    In k (dkeys (d_clusters (open_cluster M d k))).
  Proof.
    intros H. unfold open_cluster. destruct (dmem k (d_clusters d)) eqn:Em.
    { apply dmem_in in Em. auto. }
    apply dmem_false in Em. pose proof H as [H1 [H2 H2'] H3 H4 H5 H6 H7 H8 H9].
    split; [|split].
    - apply dinv_fresh_aux. split; simpl; auto.
      + intros k' c. rewrite dget_dset. destruct (k' =? k)%Z eqn:E.
        * intros Hc. injection Hc as <-. exact H2.
        * apply H1.
      + apply NoDup_dset; exact H3.
      + intros r k' Hr. destruct (H7 r k' Hr) as [c [v [Hc Hv]]].
        exists c, v. split; [|exact Hv].
        rewrite dget_dset_other; [exact Hc|]. intros ->. apply Em.
        eapply dget_Some_in; exact Hc.
      + intros r k' c v. rewrite dget_dset. destruct (k' =? k)%Z eqn:E.
        * intros Hc. injection Hc as <-. rewrite H2'. discriminate.
        * apply H8.
      + intros r k' Hr. apply in_dkeys_dset. right. eapply H9; exact Hr.
    - intros r. unfold content; simpl. destruct (dget r (d_zi d)); [reflexivity|].
      destruct (dget r (d_zr d)) as [k'|] eqn:Er; [|reflexivity].
      destruct (H7 r k' Er) as [c [v [Hc Hv]]].
      rewrite dget_dset_other; [reflexivity|]. intros ->. apply Em.
      eapply dget_Some_in; exact Hc.
    - simpl. apply in_dkeys_dset. auto.
  Qed.

  Lemma open_same d k :
    d_zr (open_cluster M d k) = d_zr d /\ d_zi (open_cluster M d k) = d_zi d /\
    d_hyp (open_cluster M d k) = d_hyp d /\ d_ins (open_cluster M d k) = d_ins d.
  Proof. unfold open_cluster. destruct (dmem k (d_clusters d)); auto. Qed.

  Lemma content_none d r : dinv d ->
    (content d r = None <-> dget r (d_zr d) = None /\ dget r (d_zi d) = None).
  Proof.
    intros H. unfold content. destruct (dget r (d_zi d)) as [k|] eqn:Ei.
    { split; [discriminate|intros [_ ?]; discriminate]. }
    destruct (dget r (d_zr d)) as [k|] eqn:Er; [|tauto].
    destruct (di_in _ H r k Er) as [c [v [-> Hv]]]. split; [discriminate|].
    intros [? _]; discriminate.
  Qed.

  Lemma in_neither d r : dmem r (d_zr d) || dmem r (d_zi d) = false <->
    dget r (d_zr d) = None /\ dget r (d_zi d) = None.
  Proof. rewrite orb_false_iff, !dmem_false_None. tauto. Qed.

  (** Replacing cluster [k], on the way of an insertion or a removal of row
      [r]. *)
  Lemma dget_dset_case {A} k k2 (v : A) dd : dget k (dset k2 v dd) =
    if (k =? k2)%Z then Some v else dget k dd.
  Proof. apply dget_dset. Qed.

  Definition dim_step_content d d' r (c : option (Z * option (R * list R))) : Prop :=
    forall r', content d' r' = if (r' =? r)%Z then c else content d r'.

  Lemma dim_inc_ok d r k x ins d' : dinv d ->
    dim_incorporate M d r k x ins = (d', Ok tt) ->
    dinv d' /\ content d r = None /\
    (exists k0, k = Some k0 /\ In k0 (dkeys (d_clusters d')) /\
      dim_step_content d d' r (Some (k0, option_map keep (valid_cell x ins)))) /\
    d_hyp d' = d_hyp d /\ d_ins d' = d_ins d.
  Proof.
    intros H. unfold dim_incorporate.
    destruct (dmem r (d_zr d) || dmem r (d_zi d)) eqn:Em; [discriminate|].
    apply in_neither in Em. destruct Em as [Er Ei].
    destruct k as [k|]; [|discriminate].
    destruct (dinv_open d k H) as [H1 [Hc1 Hk]].
    destruct (open_same d k) as [Zr1 [Zi1 [Hh1 Hin1]]].
    set (d1 := open_cluster M d k) in *.
    assert (Hnone : content d r = None) by (apply content_none; auto).
    assert (Er1 : dget r (d_zr d1) = None) by (rewrite Zr1; exact Er).
    assert (Ei1 : dget r (d_zi d1) = None) by (rewrite Zi1; exact Ei).
    destruct (valid_cell x ins) as [[v l]|] eqn:Ev.
    - destruct (dget k (d_clusters d1)) as [c|] eqn:Ec; [|discriminate].
      destruct (m_inc M c r v l) as [c' [[]|e]] eqn:Ei'; [|discriminate].
      intros E. injection E as <-.
      destruct (ml_inc _ _ HL c r v l c' (di_good _ H1 _ _ Ec) Ei')
        as [G1 [G2 [G3 [G4 G5]]]].
      pose proof H1 as [I1 I2 I3 I4 I5 I6 I7 I8 I9].
      split; [|split; [exact Hnone|split]].
      + split; simpl; auto.
        * intros k' c0. rewrite dget_dset. destruct (k' =? k)%Z eqn:E.
          -- intros Hc. injection Hc as <-. exact G1.
          -- apply I1.
        * apply NoDup_dset; exact I3.
        * apply NoDup_dset; exact I4.
        * intros r' k'. rewrite dget_dset. destruct (r' =? r)%Z eqn:E.
          -- apply Z.eqb_eq in E; subst r'. intros _. exact Ei1.
          -- apply I6.
        * intros r' k'. rewrite dget_dset. destruct (r' =? r)%Z eqn:E.
          -- apply Z.eqb_eq in E; subst r'. intros Hk'. injection Hk' as <-.
             rewrite dget_dset_same. exists c'. eexists. split; [reflexivity|].
             rewrite G3. apply dget_dset_same.
          -- intros Hr'. destruct (I7 r' k' Hr') as [c0 [v0 [Hc0 Hv0]]].
             rewrite dget_dset. destruct (k' =? k)%Z eqn:E'.
             ++ apply Z.eqb_eq in E'; subst k'. rewrite Ec in Hc0. injection Hc0 as <-.
                exists c', v0. split; [reflexivity|]. rewrite G3, dget_dset, E. exact Hv0.
             ++ eauto.
        * intros r' k' c0 v0. rewrite dget_dset. destruct (k' =? k)%Z eqn:E'.
          -- apply Z.eqb_eq in E'; subst k'. intros Hc0. injection Hc0 as <-.
             rewrite G3, dget_dset, dget_dset. destruct (r' =? r)%Z eqn:E; [reflexivity|].
             intros Hv0. eapply I8; eassumption.
          -- intros Hc0 Hv0. pose proof (I8 r' k' c0 v0 Hc0 Hv0) as Hz.
             rewrite dget_dset_other; [exact Hz|]. intros ->. congruence.
        * intros r' k' Hr'. apply in_dkeys_dset. right. eapply I9; exact Hr'.
      + exists k. split; [reflexivity|].
        split; [simpl; apply in_dkeys_dset; auto|].
        intros r'. destruct (r' =? r)%Z eqn:E; [|rewrite <- Hc1];
          unfold content; simpl; rewrite dget_dset, E.
        * apply Z.eqb_eq in E; subst r'. rewrite Ei1, dget_dset_same, G3, dget_dset_same.
          reflexivity.
        * destruct (dget r' (d_zi d1)); [reflexivity|].
          destruct (dget r' (d_zr d1)) as [k'|] eqn:Ek'; [|reflexivity].
          rewrite dget_dset. destruct (k' =? k)%Z eqn:E'; [|reflexivity].
          apply Z.eqb_eq in E'; subst k'. rewrite Ec, G3, dget_dset, E. reflexivity.
      + simpl. auto.
    - intros E. injection E as <-. pose proof H1 as [I1 I2 I3 I4 I5 I6 I7 I8 I9].
      split; [|split; [exact Hnone|split]].
      + split; simpl; auto.
        * apply NoDup_dset; exact I5.
        * intros r' k' Hr'. rewrite dget_dset_other; [eapply I6; exact Hr'|].
          intros ->. congruence.
        * intros r' k'. rewrite dget_dset. destruct (r' =? r)%Z.
          -- intros Hx. injection Hx as <-. exact Hk.
          -- apply I9.
      + exists k. split; [reflexivity|]. split; [exact Hk|].
        intros r'. destruct (r' =? r)%Z eqn:E; [|rewrite <- Hc1];
          unfold content; simpl; rewrite dget_dset, E; reflexivity.
      + simpl. auto.
  Qed.

  (** A rejected insertion leaves the rows, at most an empty cluster is added. *)
  Lemma dim_inc_err d r k x ins d' e : dinv d ->
    dim_incorporate M d r k x ins = (d', Err e) ->
    dinv d' /\ (forall r', content d' r' = content d r') /\
    (d' = d \/ exists k0, k = Some k0 /\ d' = open_cluster M d k0).
  Proof.
    intros H. unfold dim_incorporate.
    destruct (dmem r (d_zr d) || dmem r (d_zi d)) eqn:Em.
    { intros E. injection E as <- _. auto. }
    destruct k as [k|].
    2:{ intros E. injection E as <- _. auto. }
    destruct (dinv_open d k H) as [H1 [Hc1 Hk]].
    set (d1 := open_cluster M d k) in *.
    destruct (valid_cell x ins) as [[v l]|] eqn:Ev; [|discriminate].
    destruct (dget k (d_clusters d1)) as [c|] eqn:Ec.
    2:{ intros E. injection E as <- _. eauto 6. }
    destruct (m_inc M c r v l) as [c' [[]|e']] eqn:Ei'; [discriminate|].
    intros E. injection E as <- _.
    apply (ml_inc_err _ _ HL) in Ei'. subst c'.
    assert (Hsame : set_clusters d1 (dset k c (d_clusters d1)) = d1).
    { assert (Hd : dset k c (d_clusters d1) = d_clusters d1).
      { clear -Ec. revert Ec. generalize (d_clusters d1) as l.
        induction l as [|[k' c'] l IH]; simpl; [discriminate|].
        destruct (k =? k')%Z eqn:E.
        - intros Hc. injection Hc as ->. apply Z.eqb_eq in E. subst. reflexivity.
        - intros Hc. rewrite IH by exact Hc. reflexivity. }
      unfold set_clusters. rewrite Hd. destruct d1; reflexivity. }
    rewrite Hsame. eauto 6.
  Qed.

  Lemma dim_uninc_ok d r k v : dinv d -> content d r = Some (k, v) ->
    exists d', dim_unincorporate M d r = (d', Ok tt) /\ dinv d' /\
      dim_step_content d d' r None /\
      d_hyp d' = d_hyp d /\ d_ins d' = d_ins d /\ d_aux d' = d_aux d /\
      dkeys (d_clusters d') = dkeys (d_clusters d).
  Proof.
    intros H. pose proof H as [I1 I2 I3 I4 I5 I6 I7 I8 I9].
    unfold content, dim_unincorporate, dmem.
    destruct (dget r (d_zi d)) as [ki|] eqn:Ei.
    - intros _. eexists. split; [reflexivity|].
      assert (Er : dget r (d_zr d) = None).
      { destruct (dget r (d_zr d)) as [k'|] eqn:E; [|reflexivity].
        rewrite (I6 _ _ E) in Ei. discriminate. }
      split; [|split; [|simpl; auto]].
      + split; simpl; auto.
        * apply NoDup_ddel; exact I5.
        * intros r' k' Hr'. rewrite dget_ddel by exact I5. rewrite (I6 _ _ Hr').
          destruct (r' =? r)%Z; reflexivity.
        * intros r' k'. rewrite dget_ddel by exact I5.
          destruct (r' =? r)%Z; [discriminate|apply I9].
      + intros r'. unfold content; simpl. rewrite dget_ddel by exact I5.
        destruct (r' =? r)%Z eqn:E; [|reflexivity].
        apply Z.eqb_eq in E; subst r'. rewrite Er. reflexivity.
    - destruct (dget r (d_zr d)) as [kr|] eqn:Er; [|discriminate].
      destruct (I7 r kr Er) as [c [v0 [Ec Ev]]]. rewrite Ec. intros _.
      destruct (ml_uninc _ _ HL c r v0 (I1 _ _ Ec) Ev) as [c' [Eu [G1 [G2 [G3 G4]]]]].
      rewrite Eu. eexists. split; [reflexivity|].
      pose proof (ml_nodup _ _ HL c (I1 _ _ Ec)) as Hnd.
      split; [|split; [|split; [reflexivity|split; [reflexivity|split; [reflexivity|]]]]].
      + split; simpl; auto.
        * intros k' c0. rewrite dget_dset. destruct (k' =? kr)%Z eqn:E.
          -- intros Hc. injection Hc as <-. exact G1.
          -- apply I1.
        * apply NoDup_dset; exact I3.
        * apply NoDup_ddel; exact I4.
        * intros r' k'. rewrite dget_ddel by exact I4.
          destruct (r' =? r)%Z; [discriminate|apply I6].
        * intros r' k'. rewrite dget_ddel by exact I4.
          destruct (r' =? r)%Z eqn:E; [discriminate|]. intros Hr'.
          destruct (I7 r' k' Hr') as [c0 [v1 [Hc0 Hv1]]].
          rewrite dget_dset. destruct (k' =? kr)%Z eqn:E'.
          -- apply Z.eqb_eq in E'; subst k'. rewrite Ec in Hc0. injection Hc0 as <-.
             exists c', v1. split; [reflexivity|]. rewrite G2, dget_ddel, E; assumption.
          -- eauto.
        * intros r' k' c0 v1. rewrite dget_dset. destruct (k' =? kr)%Z eqn:E'.
          -- apply Z.eqb_eq in E'; subst k'. intros Hc0. injection Hc0 as <-.
             rewrite G2, !dget_ddel by assumption. destruct (r' =? r)%Z; [discriminate|].
             intros Hv. eapply I8; eassumption.
          -- intros Hc0 Hv1. pose proof (I8 r' k' c0 v1 Hc0 Hv1) as Hz.
             rewrite dget_ddel by exact I4. destruct (r' =? r)%Z eqn:E; [|exact Hz].
             apply Z.eqb_eq in E; subst r'. rewrite Er in Hz. injection Hz as ->.
             rewrite Z.eqb_refl in E'. discriminate.
        * intros r' k' Hr'. apply in_dkeys_dset. right. eapply I9; exact Hr'.
      + intros r'. unfold content; simpl.
        destruct (r' =? r)%Z eqn:E.
        * apply Z.eqb_eq in E; subst r'. rewrite Ei, dget_ddel_same by exact I4. reflexivity.
        * rewrite dget_ddel, E by exact I4. destruct (dget r' (d_zi d)); [reflexivity|].
          destruct (dget r' (d_zr d)) as [k'|]; [|reflexivity].
          rewrite dget_dset. destruct (k' =? kr)%Z eqn:E'; [|reflexivity].
          apply Z.eqb_eq in E'; subst k'. rewrite Ec, G2, dget_ddel, E by exact Hnd.
          reflexivity.
      + simpl. apply dkeys_dset_in. eapply dget_Some_in; exact Ec.
  Qed.

  Lemma dim_uninc_none d r : dinv d -> content d r = None ->
    dim_unincorporate M d r = (d, Err ValueError).
  Proof.
    intros H Hc. apply content_none in Hc; [|exact H]. destruct Hc as [Er Ei].
    unfold dim_unincorporate. apply dmem_false_None in Ei. rewrite Ei, Er. reflexivity.
  Qed.

  Lemma open_keys d k k' :
    In k' (dkeys (d_clusters (open_cluster M d k))) <-> k' = k \/ In k' (dkeys (d_clusters d)).
  Proof.
    unfold open_cluster. destruct (dmem k (d_clusters d)) eqn:Em.
    - apply dmem_in in Em. split; [auto|]. intros [->|H]; assumption.
    - simpl. apply in_dkeys_dset.
  Qed.

  Lemma dim_inc_keys d r k x ins d' k' :
    dim_incorporate M d r (Some k) x ins = (d', Ok tt) ->
    In k' (dkeys (d_clusters d')) <-> k' = k \/ In k' (dkeys (d_clusters d)).
  Proof.
    unfold dim_incorporate. destruct (dmem r (d_zr d) || dmem r (d_zi d)); [discriminate|].
    destruct (valid_cell x ins) as [[v l]|].
    - destruct (dget k (d_clusters (open_cluster M d k))) as [c|] eqn:Ec; [|discriminate].
      destruct (m_inc M c r v l) as [c' [[]|e]]; [|discriminate].
      intros E. injection E as <-. simpl. rewrite in_dkeys_dset, open_keys. tauto.
    - intros E. injection E as <-. simpl. apply open_keys.
  Qed.

  (** Dropping a cluster without rows. *)
  Lemma dinv_drop d k : dinv d -> (forall r v, content d r <> Some (k, v)) ->
    dinv (set_clusters d (ddel k (d_clusters d))) /\
    forall r, content (set_clusters d (ddel k (d_clusters d))) r = content d r.
  Proof.
    intros H Hk. pose proof H as [I1 I2 I3 I4 I5 I6 I7 I8 I9].
    assert (Hkr : forall r, dget r (d_zr d) <> Some k).
    { intros r Er. destruct (I7 r k Er) as [c [v [Hc Hv]]].
      apply (Hk r (Some v)). unfold content. rewrite (I6 _ _ Er), Er, Hc, Hv. reflexivity. }
    assert (Hki : forall r, dget r (d_zi d) <> Some k).
    { intros r Er. apply (Hk r None). unfold content. rewrite Er. reflexivity. }
    split.
    - split; simpl; auto.
      + intros k' c. rewrite dget_ddel by exact I3. destruct (k' =? k)%Z; [discriminate|apply I1].
      + apply NoDup_ddel; exact I3.
      + intros r k' Hr. rewrite dget_ddel by exact I3. destruct (k' =? k)%Z eqn:E.
        * apply Z.eqb_eq in E; subst k'. destruct (Hkr r Hr).
        * apply I7; exact Hr.
      + intros r k' c v. rewrite dget_ddel by exact I3.
        destruct (k' =? k)%Z; [discriminate|apply I8].
      + intros r k' Hr. apply in_dkeys_ddel; [exact I3|]. split.
        * intros ->. destruct (Hki r Hr).
        * eapply I9; exact Hr.
    - intros r. unfold content; simpl. destruct (dget r (d_zi d)); [reflexivity|].
      destruct (dget r (d_zr d)) as [k'|] eqn:Er; [|reflexivity].
      rewrite dget_ddel by exact I3. destruct (k' =? k)%Z eqn:E; [|reflexivity].
      apply Z.eqb_eq in E; subst k'. destruct (Hkr r Er).
  Qed.

  (** Changing hyperparameters or parameters moves no row. *)
  Definition same_rows d d' : Prop :=
    dkeys (d_clusters d') = dkeys (d_clusters d) /\
    (forall k c, dget k (d_clusters d) = Some c ->
       exists c', dget k (d_clusters d') = Some c' /\ m_rows M c' = m_rows M c /\
                  (good c -> good c')) /\
    d_zr d' = d_zr d /\ d_zi d' = d_zi d /\
    (good (d_aux d) /\ m_rows M (d_aux d) = [] ->
     good (d_aux d') /\ m_rows M (d_aux d') = []).

  Lemma same_rows_refl d : same_rows d d.
  Proof. repeat split; eauto; tauto. Qed.
  Lemma same_rows_trans a b c : same_rows a b -> same_rows b c -> same_rows a c.
  Proof.
    intros [A1 [A2 [A3 [A4 A5]]]] [B1 [B2 [B3 [B4 B5]]]].
    split; [congruence|]. split; [|split; [congruence|split; [congruence|auto]]].
    intros k x Hx. destruct (A2 k x Hx) as [y [Hy [Ry Gy]]].
    destruct (B2 k y Hy) as [z [Hz [Rz Gz]]]. exists z. split; [exact Hz|].
    split; [congruence|auto].
  Qed.

  Lemma same_rows_dinv d d' : dinv d -> same_rows d d' ->
    dinv d' /\ forall r, content d' r = content d r.
  Proof.
    intros [I1 I2 I3 I4 I5 I6 I7 I8 I9] [S1 [S2 [S3 [S4 S5]]]].
    assert (Hback : forall k c', dget k (d_clusters d') = Some c' ->
      exists c, dget k (d_clusters d) = Some c /\ m_rows M c' = m_rows M c /\
                (good c -> good c')).
    { intros k c' Hc'. assert (Hin : In k (dkeys (d_clusters d)))
        by (rewrite <- S1; eapply dget_Some_in; exact Hc').
      apply in_dkeys_Some in Hin. destruct Hin as [c Hc].
      destruct (S2 k c Hc) as [c2 [Hc2 [Hr Hg]]]. exists c.
      rewrite Hc' in Hc2. injection Hc2 as <-. auto. }
    split.
    - split.
      + intros k c' Hc'. destruct (Hback k c' Hc') as [c [Hc [_ Hg]]].
        apply Hg. eapply I1; exact Hc.
      + apply S5. exact I2.
      + rewrite S1. exact I3.
      + rewrite S3. exact I4.
      + rewrite S4. exact I5.
      + rewrite S3, S4. exact I6.
      + rewrite S3. intros r k Hr. destruct (I7 r k Hr) as [c [v [Hc Hv]]].
        destruct (S2 k c Hc) as [c2 [Hc2 [Hr2 _]]]. exists c2, v.
        split; [exact Hc2|]. rewrite Hr2. exact Hv.
      + rewrite S3. intros r k c' v Hc' Hv. destruct (Hback k c' Hc') as [c [Hc [Hr _]]].
        rewrite Hr in Hv. eapply I8; eassumption.
      + rewrite S4, S1. exact I9.
    - intros r. unfold content. rewrite S3, S4. destruct (dget r (d_zi d)); [reflexivity|].
      destruct (dget r (d_zr d)) as [k|] eqn:Er; [|reflexivity].
      destruct (I7 r k Er) as [c [v [Hc Hv]]]. destruct (S2 k c Hc) as [c2 [Hc2 [Hr2 _]]].
      rewrite Hc, Hc2, Hr2. reflexivity.
  Qed.

  Lemma clusters_set_spec cs h cs' r : clusters_set_hypers M cs h = (cs', r) ->
    dkeys cs' = dkeys cs /\
    (forall k c, dget k cs = Some c ->
       exists c', dget k cs' = Some c' /\ m_rows M c' = m_rows M c /\
                  (good c -> good c') /\ m_par M c' = m_par M c /\
                  (r = Ok tt -> m_hyp M c' = h)).
  Proof.
    revert cs' r. induction cs as [|[k0 c0] cs IH]; intros cs' r; simpl.
    { intros E. injection E as <- <-. split; [reflexivity|discriminate]. }
    destruct (m_set_hypers M c0 h) as [c1 [[]|e]] eqn:Es.
    - destruct (clusters_set_hypers M cs h) as [cs2 r2]. destruct (IH cs2 r2 eq_refl) as [K1 K2].
      intros E. injection E as <- <-. simpl. split; [f_equal; exact K1|].
      intros k c. destruct (k =? k0)%Z; [|apply K2].
      intros Hc. injection Hc as <-.
      destruct (ml_set _ _ HL _ _ _ Es) as [G1 [G2 [G3 G4]]]. exists c1. auto 6.
    - intros E. injection E as <- <-. apply (ml_set_err _ _ HL) in Es. subst c1.
      split; [reflexivity|]. simpl. intros k c. destruct (k =? k0)%Z; intros Hc.
      + injection Hc as <-. exists c0. repeat split; auto; discriminate.
      + exists c. repeat split; auto; discriminate.
  Qed.

  Lemma set_hypers_same d h d' r : dim_set_hypers M d h = (d', r) ->
    same_rows d d' /\ d_hyp d' = h /\ d_ins d' = d_ins d /\ d_aux d' = d_aux d /\
    d_grids d' = d_grids d /\
    (r = Ok tt -> forall k c, dget k (d_clusters d') = Some c -> m_hyp M c = h).
  Proof.
    unfold dim_set_hypers. simpl.
    destruct (clusters_set_hypers M (d_clusters d) h) as [cs r0] eqn:Ec.
    intros E. injection E as <- <-. destruct (clusters_set_spec _ _ _ _ Ec) as [K1 K2].
    split; [|repeat split; try reflexivity].
    - split; [exact K1|]. split; [|simpl; auto].
      intros k c Hc. destruct (K2 k c Hc) as [c' [A [B [C _]]]]. simpl. eauto.
    - intros Hr k c Hc. simpl in Hc.
      assert (Hin : In k (dkeys (d_clusters d))) by (rewrite <- K1; eapply dget_Some_in; exact Hc).
      apply in_dkeys_Some in Hin. destruct Hin as [c0 Hc0].
      destruct (K2 k c0 Hc0) as [c' [A [_ [_ [_ B]]]]]. rewrite Hc in A.
      injection A as <-. auto.
  Qed.

  Lemma grid_scores_same d h vs d' r : grid_scores M d h vs = (d', r) ->
    same_rows d d' /\ d_ins d' = d_ins d /\ d_grids d' = d_grids d /\ d_aux d' = d_aux d.
  Proof.
    revert d d' r. induction vs as [|v vs IH]; intros d d' r; simpl.
    { intros E. injection E as <- <-. split; [apply same_rows_refl|auto]. }
    unfold grid_score.
    destruct (dim_set_hypers M d (m_hset M h v (d_hyp d))) as [d1 r1] eqn:E1.
    destruct (set_hypers_same _ _ _ _ E1) as [S1 [_ [S2 [S3 [S4 _]]]]].
    destruct r1 as [[]|e].
    - destruct (dim_score M d1) as [s|e].
      + destruct (grid_scores M d1 h vs) as [d2 r2] eqn:E2.
        destruct (IH _ _ _ E2) as [T1 [T2 [T3 T4]]].
        intros E. injection E as <- <-. split; [eapply same_rows_trans; eassumption|].
        repeat split; congruence.
      + intros E. injection E as <- <-. auto.
    - intros E. injection E as <- <-. auto.
  Qed.

  Lemma trans_hyper_same draw d h d' r : transition_hyper M draw d h = (d', r) ->
    same_rows d d' /\ d_ins d' = d_ins d /\ d_grids d' = d_grids d /\ d_aux d' = d_aux d.
  Proof.
    unfold transition_hyper. destruct (nth_error (d_grids d) h) as [g|].
    2:{ intros E. injection E as <- <-. split; [apply same_rows_refl|auto]. }
    destruct (grid_scores M d h g) as [d1 r1] eqn:Eg.
    destruct (grid_scores_same _ _ _ _ _ Eg) as [S1 [S2 [S3 S4]]].
    destruct (rbind r1 _); intros E; injection E as <- <-; auto.
  Qed.

  Lemma trans_each_same draws d order d' r : transition_each M draws d order = (d', r) ->
    same_rows d d' /\ d_ins d' = d_ins d /\ d_grids d' = d_grids d /\ d_aux d' = d_aux d.
  Proof.
    revert d d' r. induction order as [|h order IH]; intros d d' r; simpl.
    { intros E. injection E as <- <-. split; [apply same_rows_refl|auto]. }
    destruct (transition_hyper M (draws (length order)) d h) as [d1 r1] eqn:E1.
    destruct (trans_hyper_same _ _ _ _ _ E1) as [S1 [S2 [S3 S4]]].
    destruct r1 as [[]|e].
    - intros E. destruct (IH _ _ _ E) as [T1 [T2 [T3 T4]]].
      split; [eapply same_rows_trans; eassumption|]. repeat split; congruence.
    - intros E. injection E as <- <-. auto.
  Qed.

  Lemma fresh_aux_same d : same_rows d (fresh_aux M d).
  Proof.
    split; [reflexivity|]. split; [simpl; eauto|]. split; [reflexivity|].
    split; [reflexivity|]. intros _. simpl.
    pose proof (ml_new _ _ HL (d_hyp d) (d_tape d (d_pos d))) as [A [B _]]. auto.
  Qed.

  Lemma trans_hypers_same draws order d d' r :
    dim_transition_hypers M draws order d = (d', r) ->
    same_rows d d' /\ d_ins d' = d_ins d /\ d_grids d' = d_grids d /\
    (r = Ok tt ->
       m_hyp M (d_aux d') = d_hyp d' /\
       forall k c, dget k (d_clusters d') = Some c -> m_hyp M c = d_hyp d').
  Proof.
    unfold dim_transition_hypers.
    destruct (transition_each M draws d order) as [d1 r1] eqn:E1.
    destruct (trans_each_same _ _ _ _ _ E1) as [S1 [S2 [S3 S4]]].
    destruct r1 as [[]|e].
    2:{ intros E. injection E as <- <-. split; [exact S1|]. split; [exact S2|]. split; [exact S3|]. discriminate. }
    destruct (dim_set_hypers M d1 (d_hyp d1)) as [d2 r2] eqn:E2.
    destruct (set_hypers_same _ _ _ _ E2) as [T1 [T2 [T3 [T4 [T5 T6]]]]].
    assert (ST : same_rows d d2) by (eapply same_rows_trans; eassumption).
    destruct r2 as [[]|e].
    2:{ intros E. injection E as <- <-. split; [exact ST|]. split; [congruence|]. split; [congruence|]. discriminate. }
    intros E. injection E as <- <-.
    split; [eapply same_rows_trans; [exact ST|apply fresh_aux_same]|].
    split; [simpl; congruence|]. split; [simpl; congruence|].
    intros _. split.
    - simpl. apply (ml_new _ _ HL).
    - simpl. intros k c Hc. rewrite (T6 eq_refl k c Hc). symmetry; exact T2.
  Qed.

  Lemma trans_grids_same d grids picks d' r :
    dim_transition_grids M d grids picks = (d', r) ->
    same_rows d d' /\ d_ins d' = d_ins d.
  Proof.
    unfold dim_transition_grids. destruct (d_set d).
    { intros E. injection E as <- <-. split; [|reflexivity].
      eapply same_rows_trans; [|apply fresh_aux_same]. repeat split; simpl; eauto; tauto. }
    destruct (rsequence _).
    - intros E. injection E as <- <-. split; [|reflexivity].
      eapply same_rows_trans; [|apply fresh_aux_same]. repeat split; simpl; eauto; tauto.
    - intros E. injection E as <- <-. split; [|reflexivity].
      repeat split; simpl; eauto; tauto.
  Qed.

  Lemma set_params_spec tape pos cs :
    dkeys (clusters_set_params M tape pos cs) = dkeys cs /\
    forall k c, dget k cs = Some c ->
      exists q, dget k (clusters_set_params M tape pos cs) = Some (m_set_params M c q).
  Proof.
    revert pos. induction cs as [|[k0 c0] cs IH]; intros pos; simpl.
    { split; [reflexivity|discriminate]. }
    destruct (IH (S pos)) as [A B]. split; [f_equal; exact A|].
    intros k c. destruct (k =? k0)%Z; [|apply B]. intros E. injection E as <-. eauto.
  Qed.

  Lemma trans_params_same d : same_rows d (dim_transition_params M d).
  Proof.
    destruct (set_params_spec (d_tape d) (d_pos d) (d_clusters d)) as [A B].
    split; [exact A|]. split; [|simpl; auto].
    intros k c Hc. destruct (B k c Hc) as [q Hq]. simpl. exists (m_set_params M c q).
    destruct (ml_par_set _ _ HL c q) as [C [D _]]. auto.
  Qed.

  Lemma dim_step_inv d o d' r : dinv d -> dim_step M d o = (d', r) -> dinv d'.
  Proof.
    intros H. destruct o as [rid k x ins|rid|h|draws order|g p|]; simpl; intros E.
    - destruct r as [[]|e].
      + eapply dim_inc_ok; eassumption.
      + eapply dim_inc_err; eassumption.
    - destruct (content d rid) as [[k v]|] eqn:Ec.
      + destruct (dim_uninc_ok d rid k v H Ec) as [d2 [E2 [H2 _]]].
        rewrite E in E2. injection E2 as -> _. exact H2.
      + rewrite (dim_uninc_none d rid H Ec) in E. injection E as <- _. exact H.
    - apply (same_rows_dinv d); [exact H|]. eapply set_hypers_same; exact E.
    - apply (same_rows_dinv d); [exact H|]. eapply trans_hypers_same; exact E.
    - apply (same_rows_dinv d); [exact H|]. eapply trans_grids_same; exact E.
    - injection E as <- _. apply (same_rows_dinv d); [exact H|]. apply trans_params_same.
  Qed.
End DimInv.
