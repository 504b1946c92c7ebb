(** Facts about relevance queries to a whole state. *)
From Verif Require Export RelevanceFacts StateFacts GammaWitness LogSpaceFacts.
From Coq Require Import Lia.
Local Open Scope R_scope.

(* ------------------------------------------------------------------ *)
(** ** Moves of a view *)

Lemma cfg_table X X' v0 v : cfg X v0 v ->
  (forall c r, In r (dkeys (v_rows v)) -> X' c r = X c r) -> cfg X' v0 v.
Proof. intros [Hv H] E. split; [eapply vinv_table; eassumption|exact H]. Qed.

Lemma cfg_insert_any X v0 v r k obs v' : cfg X v0 v ->
  (forall c a, dget c (v_dims v) = Some a -> exists x, dget c obs = Some x /\ X c r = Ok x) ->
  view_insert X v r k obs = (v', Ok tt) ->
  cfg X v0 v' /\ v_rows v' = dset r k (v_rows v).
Proof.
  intros [Hv [O [G [A F]]]] Ho Ei.
  destruct (view_insert_ok X X v r k obs v' Hv (fun _ _ _ => eq_refl) Ho Ei) as [V' [_ [R' [_ [O' [G' [A' _]]]]]]].
  split; [|exact R']. split; [exact V'|]. do 3 (split; [congruence|]).
  unfold view_insert in Ei. destruct (crp_incorporate (v_crp v) r k) as [c1 [[]|e]]; [|discriminate].
  destruct (dims_incorporate X r k obs (v_dims v)) as [ds2 r2] eqn:E2. injection Ei as <- ->. simpl.
  pose proof (dims_inc_shape _ _ _ _ _ _ E2) as Sh. pose proof (vinv_all X v Hv) as Hi.
  clear - F Sh Hi. revert ds2 Sh. induction F as [|p q t t0 [E Sm] _ IH]; intros ds2 Sh;
    inversion Sh as [|? q2 ? t2 [E3 [x [ins [_ [_ Ea]]]]] T2]; subst; constructor; inversion Hi; subst.
  - split; [congruence|]. eapply asim_inc; eauto.
  - apply IH; auto.
Qed.

Lemma cfg_migrate X v0 v r k v' : cfg X v0 v -> view_migrate X v r k = (v', Ok tt) ->
  cfg X v0 v' /\ v_rows v' = dset r k (ddel r (v_rows v)).
Proof.
  intros C. pose proof C as [Hv _]. unfold view_migrate. destruct (dget r (v_rows v)) as [z|] eqn:Hr.
  2:{ destruct (view_uninc_none X v r Hv Hr) as [e E]. rewrite E. discriminate. }
  destruct (cfg_uninc X v0 v r z C Hr) as [v1 [-> [C1 R1]]].
  destruct (table_row X v1 r) as [obs|e] eqn:Et; [|discriminate]. intros Ei.
  destruct (cfg_insert_any X v0 v1 r k obs v' C1 (table_row_spec X v1 r obs Et) Ei) as [C2 R2].
  split; [exact C2|congruence].
Qed.

Lemma cell_gibbs_asim X r z k c a0 a a' lp : ainv a -> asim a0 a ->
  cell_gibbs X r z k c a = (a', Ok lp) -> ainv a' /\ asim a0 a'.
Proof.
  intros Hi Sa. unfold cell_gibbs. destruct (X c r) as [x|]; [|discriminate].
  destruct (input_values X r a) as [ins|]; [|discriminate].
  destruct (z =? k)%Z; [|intros E; injection E as <- _; auto].
  destruct (a_unincorporate a r) as [a1 [[]|e]] eqn:E1; [|discriminate].
  destruct (a_logpdf a1 r k x ins) as [l|]; [|discriminate].
  destruct (a_incorporate a1 r k x ins) as [a2 [[]|e]] eqn:E2; [|discriminate].
  intros E. injection E as <- _.
  assert (I1 : ainv a1) by apply (a_uninc_inv a r a1 Hi E1).
  split; [apply (a_inc_ok a1 r k x ins a2 I1 E2)|].
  eapply asim_inc; [exact I1| |exact E2]. exact (asim_uninc a0 a r a1 Hi Sa E1).
Qed.

Local Notation alike ds0 ds := (Forall2 (fun p q : Z * adim => fst p = fst q /\ asim (snd p) (snd q)) ds0 ds).

Lemma row_gibbs_dims_asim X r z k ds0 ds : alike ds0 ds -> forall ds' l,
  Forall (fun p => ainv (snd p)) ds -> row_gibbs_dims X r z k ds = (ds', Ok l) ->
  Forall (fun p => ainv (snd p)) ds' /\ alike ds0 ds'.
Proof.
  intros F. induction F as [|[c0 a0] [c a] ds0 ds [E Sa] _ IH]; intros ds' l Hi; simpl.
  { intros E. injection E as <- _. auto. }
  destruct (cell_gibbs X r z k c a) as [a' [lp|e]] eqn:Ec; [|discriminate].
  destruct (row_gibbs_dims X r z k ds) as [ds2 [l2|e]] eqn:Ed; simpl; [|discriminate].
  intros E'. injection E' as <- _. inversion Hi; subst. simpl in *.
  destruct (cell_gibbs_asim _ _ _ _ _ a0 _ _ _ H1 Sa Ec) as [I' S'].
  destruct (IH ds2 l2 H2 eq_refl) as [I2 S2]. split; constructor; auto.
Qed.

Lemma row_gibbs_asim X r z K ds0 : forall ds ds' l, alike ds0 ds ->
  Forall (fun p => ainv (snd p)) ds -> row_gibbs X r z K ds = (ds', Ok l) -> alike ds0 ds'.
Proof.
  induction K as [|k K IH]; intros ds ds' l F Hi; simpl.
  { intros E. injection E as <- _. exact F. }
  destruct (row_gibbs_dims X r z k ds) as [ds1 [l1|e]] eqn:E1; [|discriminate].
  destruct (row_gibbs X r z K ds1) as [ds2 [l2|e]] eqn:E2; simpl; [|discriminate].
  intros E. injection E as <- _.
  destruct (row_gibbs_dims_asim X r z k ds0 ds F ds1 l1 Hi E1) as [I1 F1].
  eapply IH; eassumption.
Qed.

Lemma cfg_transition X draw v0 v r v' : cfg X v0 v -> transition_row X draw v r = (v', Ok tt) ->
  cfg X v0 v' /\ (forall r', In r' (dkeys (v_rows v')) <-> In r' (dkeys (v_rows v))) /\
  (forall r', r' <> r -> dget r' (v_rows v') = dget r' (v_rows v)).
Proof.
  intros C E. pose proof C as [Hv [O [G [A F]]]].
  destruct (transition_row_ok X draw v r v' Hv E) as [_ [_ [_ [_ [R1 R2]]]]].
  split; [|split; assumption]. clear R1 R2.
  unfold transition_row in E.
  destruct (row_weights X v r) as [v1 [[K w]|e]] eqn:Ew; [|discriminate].
  assert (C1 : cfg X v0 v1).
  { destruct (row_weights_ok _ _ _ _ _ _ Hv Ew) as [H1 [H2 [_ [H4 [H5 _]]]]].
    split; [exact H1|]. do 2 (split; [congruence|]). split; [rewrite H2; exact A|].
    unfold row_weights in Ew. destruct (crp_gibbs_tables (v_crp v) r 1) as [K0|]; [|discriminate].
    destruct (crp_gibbs_logps (v_crp v) r 1) as [lc|]; [|discriminate].
    destruct (dget r (v_rows v)) as [z|]; [|discriminate].
    destruct (row_gibbs X r z K0 (v_dims v)) as [ds [ld|e]] eqn:Eg; simpl in Ew; [|discriminate].
    destruct (length ld =? length lc)%nat; [|discriminate]. injection Ew as <- _ _. simpl.
    eapply row_gibbs_asim; [exact F|apply (vinv_all X); exact Hv|exact Eg]. }
  destruct (log_pflip draw w K) as [zb|]; [|discriminate].
  destruct (dget r (v_rows v1)) as [z|]; [|discriminate].
  destruct (z =? zb)%Z; [injection E as <-; exact C1|].
  apply (cfg_migrate X v0 v1 r zb v' C1 E).
Qed.

(** incorporate of a row whose cluster is drawn. *)
Lemma cfg_incorporate X draws v0 v r obs v' : cfg X v0 v ->
  (forall c a, dget c (v_dims v) = Some a -> exists x, dget c obs = Some x /\ X c r = Ok x) ->
  view_incorporate X draws v r None obs = (v', Ok tt) ->
  cfg X v0 v' /\ (forall r', In r' (dkeys (v_rows v')) <-> r' = r \/ In r' (dkeys (v_rows v))) /\
  (forall r', r' <> r -> dget r' (v_rows v') = dget r' (v_rows v)).
Proof.
  intros C Ho. unfold view_incorporate.
  destruct (view_insert X v r 0 obs) as [v1 [[]|e]] eqn:Ei; [|discriminate].
  destruct (cfg_insert_any X v0 v r 0%Z obs v1 C Ho Ei) as [C1 R1]. simpl.
  destruct (transition_row X (draws 0%nat) v1 r) as [v2 [[]|e]] eqn:Et; [|discriminate].
  intros E. injection E as <-. destruct (cfg_transition X _ v0 v1 r v2 C1 Et) as [C2 [R2 R3]].
  split; [exact C2|]. split.
  - intros r'. rewrite R2, R1, in_dkeys_dset. reflexivity.
  - intros r' Hne. rewrite R3, R1, dget_dset_other by congruence. reflexivity.
Qed.

(* ------------------------------------------------------------------ *)
(** ** The table *)

Lemma dict_eq {A} (d d' : dict A) : NoDup (dkeys d) -> dkeys d = dkeys d' ->
  (forall k, dget k d = dget k d') -> d = d'.
Proof.
  revert d'. induction d as [|[k x] d IH]; intros [|[k' x'] d'] Hn E H; try discriminate; [reflexivity|].
  simpl in E. injection E as <- E. inversion Hn as [|? ? Hk Hn']; subst.
  pose proof (H k) as H0. simpl in H0. rewrite Z.eqb_refl in H0. injection H0 as <-. f_equal.
  apply IH; auto. intros j. specialize (H j). simpl in H. destruct (Z.eqb_spec j k) as [Hj|Hj]; [|exact H].
  rewrite Hj.
  assert (~ In k (dkeys d')) by (rewrite <- E; exact Hk).
  rewrite (proj2 (dget_None_notin k d)), (proj2 (dget_None_notin k d')) by assumption. reflexivity.
Qed.

Lemma dkeys_dset_in {A} k (x : A) d : In k (dkeys d) -> dkeys (dset k x d) = dkeys d.
Proof.
  induction d as [|[k' y] d IH]; simpl; [contradiction|]. intros H.
  destruct (Z.eqb_spec k k') as [->|]; [reflexivity|]. simpl. f_equal. apply IH. destruct H; congruence.
Qed.

Lemma append_cells_spec row : NoDup (dkeys row) -> forall X,
  dkeys (append_cells X row) = dkeys X /\
  forall c, dget c (append_cells X row) = match dget c row with
    | Some x => option_map (fun l => l ++ [x]) (dget c X) | None => dget c X end.
Proof.
  unfold append_cells. induction row as [|[c x] row IH]; intros Hn X; simpl; [auto|].
  inversion Hn as [|? ? Hc Hn']; subst.
  destruct (dget c X) as [l|] eqn:E; simpl.
  - destruct (IH Hn' (dset c (l ++ [x]) X)) as [H1 H2]. split.
    + rewrite H1. apply dkeys_dset_in. eapply dget_Some_in; exact E.
    + intros c'. rewrite H2, dget_dset. destruct (Z.eqb_spec c' c) as [->|]; [|reflexivity].
      rewrite (proj2 (dget_None_notin c row) Hc), E. reflexivity.
  - destruct (IH Hn' X) as [H1 H2]. split; [exact H1|]. intros c'. rewrite H2.
    destruct (Z.eqb_spec c' c) as [->|]; [|reflexivity].
    rewrite (proj2 (dget_None_notin c row) Hc), E. reflexivity.
Qed.

Lemma pop_cells_spec cols : NoDup cols -> forall X,
  dkeys (pop_cells X cols) = dkeys X /\
  forall c, dget c (pop_cells X cols) = if zmem c cols then option_map (@removelast cell) (dget c X) else dget c X.
Proof.
  unfold pop_cells. induction cols as [|c cols IH]; intros Hn X; simpl; [auto|].
  inversion Hn as [|? ? Hc Hn']; subst. apply zmem_false in Hc.
  destruct (dget c X) as [l|] eqn:E; simpl.
  - destruct (IH Hn' (dset c (removelast l) X)) as [H1 H2]. split.
    + rewrite H1. apply dkeys_dset_in. eapply dget_Some_in; exact E.
    + intros c'. rewrite H2, dget_dset. unfold zmem in *. simpl.
      destruct (Z.eqb_spec c' c) as [->|]; [|reflexivity]. rewrite Hc, E. reflexivity.
  - destruct (IH Hn' X) as [H1 H2]. split; [exact H1|]. intros c'. rewrite H2. unfold zmem in *. simpl.
    destruct (Z.eqb_spec c' c) as [->|]; [|reflexivity]. rewrite Hc, E. reflexivity.
Qed.

Lemma pop_append X row : NoDup (dkeys X) -> NoDup (dkeys row) ->
  pop_cells (append_cells X row) (dkeys row) = X.
Proof.
  intros HX Hn. destruct (append_cells_spec row Hn X) as [A1 A2].
  destruct (pop_cells_spec (dkeys row) Hn (append_cells X row)) as [P1 P2].
  symmetry. apply dict_eq; [exact HX|congruence|]. intros c. rewrite P2, A2.
  destruct (zmem c (dkeys row)) eqn:Em.
  - apply zmem_in, in_dkeys_Some in Em. destruct Em as [x ->].
    destruct (dget c X) as [l|]; [|reflexivity]. simpl. rewrite removelast_last. reflexivity.
  - apply zmem_false, dget_None_notin in Em. rewrite Em. reflexivity.
Qed.

Lemma drop_app l1 : forall X v l2, drop_hypotheticals X v (l1 ++ l2) =
  let '(X1, v1, r1) := drop_hypotheticals X v l1 in
  match r1 with Ok _ => drop_hypotheticals X1 v1 l2 | Err e => (X1, v1, Err e) end.
Proof.
  induction l1 as [|r l1 IH]; intros X v l2; simpl; [reflexivity|].
  destruct (view_unincorporate v r) as [v1 [u|e]]; [apply IH|reflexivity].
Qed.

Lemma add_ok draws v0 rows : all_solid v0 -> forall X v n, cfg (tab X) v0 v -> NoDup (dkeys X) ->
  (forall c, In c (dkeys (v_dims v0)) -> exists l, dget c X = Some l /\ Z.of_nat (length l) = n) ->
  (0 <= n)%Z -> (forall r, In r (dkeys (v_rows v)) -> (0 <= r < n)%Z) ->
  (forall row, In row rows -> dkeys row = dkeys (v_dims v0)) ->
  forall X' v', add_hypotheticals draws X v n rows = (X', v', Ok tt) ->
  let ids := map (fun i => (n + Z.of_nat i)%Z) (seq 0 (length rows)) in
  cfg (tab X') v0 v' /\
  (forall r, (r < n)%Z -> dget r (v_rows v') = dget r (v_rows v)) /\
  (forall r, In r (dkeys (v_rows v')) <-> In r ids \/ In r (dkeys (v_rows v))) /\
  forall w, cfg (tab X') v0 w -> (forall r, dget r (v_rows w) = dget r (v_rows v')) ->
    exists w', drop_hypotheticals X' w (rev ids) = (X, w', Ok tt) /\ cfg (tab X) v0 w' /\
      forall r, dget r (v_rows w') = dget r (v_rows v).
Proof.
  intros Hs. induction rows as [|row rows IH]; intros X v n C HX Hl Hn0 Hr Hk X' v'; simpl.
  { intros E. injection E as <- <-. split; [exact C|]. split; [reflexivity|]. split; [tauto|].
    intros w Cw Rw. exists w. auto. }
  assert (Hrow : dkeys row = dkeys (v_dims v0)) by (apply Hk; left; reflexivity).
  assert (Nd : NoDup (dkeys row)).
  { rewrite Hrow, <- (cfg_keys _ _ _ C). apply C. }
  destruct (append_cells_spec row Nd X) as [A1 A2]. set (X1 := append_cells X row) in *.
  assert (Hin : forall c, In c (dkeys (v_dims v0)) -> exists x l, dget c row = Some x /\ dget c X = Some l /\
    dget c X1 = Some (l ++ [x]) /\ Z.of_nat (length l) = n).
  { intros c Hc. destruct (Hl c Hc) as [l [E1 E2]]. rewrite <- Hrow in Hc. apply in_dkeys_Some in Hc.
    destruct Hc as [x Ex]. exists x, l. rewrite A2, Ex, E1. auto. }
  assert (C1 : cfg (tab X1) v0 v).
  { destruct C as [Hv C']. split; [|exact C']. apply (vinv_table_ins (tab X)); [exact Hv|].
    intros c a r i Ha Hir Hi. apply Hr in Hir.
    assert (Hc : In c (dkeys (v_dims v0))).
    { rewrite <- (cfg_keys (tab X) v0 v (conj Hv C')). eapply dget_Some_in; exact Ha. }
    pose proof (cfg_solid (tab X) v0 v Hs (conj Hv C')) as Hsv.
    destruct (solid_all v c a Hsv Ha) as [_ [Hins _]]. rewrite Hins in Hi. destruct Hi as [->|[]].
    destruct (Hin c Hc) as [x [l [_ [E1 [E2 E3]]]]]. unfold tab. rewrite E1, E2. apply py_nth_app. lia. }
  destruct (view_incorporate (tab X1) (draws n) v n None row) as [v1 [[]|e]] eqn:Ei; [|discriminate].
  intros E.
  destruct (cfg_incorporate (tab X1) (draws n) v0 v n row v1 C1) as [C2 [R1 R2]].
  { intros c a Ha.
    assert (Hc : In c (dkeys (v_dims v0))) by (rewrite <- (cfg_keys _ _ _ C1); eapply dget_Some_in; exact Ha).
    destruct (Hin c Hc) as [x [l [Ex [_ [E2 E3]]]]]. exists x. split; [exact Ex|]. unfold tab. rewrite E2, <- E3.
    apply py_nth_last. }
  { exact Ei. }
  assert (Hn1 : (0 <= n + 1)%Z) by lia.
  destruct (IH X1 v1 (n + 1)%Z C2) with (X' := X') (v' := v') as [D1 [D2 [D3 D4]]]; auto.
  { rewrite A1. exact HX. }
  { intros c Hc. destruct (Hin c Hc) as [x [l [_ [_ [E2 E3]]]]]. exists (l ++ [x]). split; [exact E2|].
    rewrite app_length. simpl. lia. }
  { intros r Hir. apply R1 in Hir. destruct Hir as [->|Hir].
    - lia.
    - apply Hr in Hir. lia. }
  { intros row0 H0. apply Hk. right; exact H0. }
  assert (Eids : map (fun i => (n + 1 + Z.of_nat i)%Z) (seq 0 (length rows)) =
                 map (fun i => (n + Z.of_nat i)%Z) (seq 1 (length rows))).
  { rewrite <- seq_shift, map_map. apply map_ext. intros i. lia. }
  rewrite Eids in *.
  split; [exact D1|]. split.
  { intros r Hlt. rewrite D2, R2 by lia. reflexivity. }
  split.
  { intros r. rewrite D3, R1. replace (n + 0)%Z with n by lia. intuition. }
  intros w Cw Rw0. destruct (D4 w Cw Rw0) as [w1 [E1 [Cw1 Rw1]]].
  replace (n + 0)%Z with n by lia. simpl. rewrite drop_app, E1. simpl.
  assert (Hno : ~ In n (dkeys (v_rows v))) by (intros H; apply Hr in H; lia).
  assert (Hn : exists k, dget n (v_rows w1) = Some k).
  { rewrite Rw1. apply in_dkeys_Some, R1. left; reflexivity. }
  destruct Hn as [k Hk1].
  destruct (cfg_uninc (tab X1) v0 w1 n k Cw1 Hk1) as [w2 [E2 [Cw2 Rw2]]]. rewrite E2.
  rewrite (cfg_keys _ _ _ Cw1), <- Hrow. unfold X1 at 1. rewrite pop_append by assumption.
  assert (Rw : forall r, dget r (v_rows w2) = dget r (v_rows v)).
  { intros r. rewrite Rw2, dget_ddel by apply (proj1 (proj1 (proj1 Cw1))). destruct (Z.eqb_spec r n) as [->|Hne].
    - symmetry. apply dget_None_notin. exact Hno.
    - rewrite Rw1. apply R2. exact Hne. }
  exists w2. split; [reflexivity|]. split; [|exact Rw].
  (* back to the shorter table *)
  destruct Cw2 as [Hv2 C2']. split; [|exact C2']. apply (vinv_table_ins (tab X1)); [exact Hv2|].
  intros c a r i Ha Hir Hi.
  assert (Hlt : (0 <= r < n)%Z).
  { apply Hr. apply in_dkeys_Some in Hir. destruct Hir as [k' Hk']. rewrite Rw in Hk'. eapply dget_Some_in; exact Hk'. }
  assert (Hc : In c (dkeys (v_dims v0))).
  { rewrite <- (cfg_keys (tab X1) v0 w2 (conj Hv2 C2')). eapply dget_Some_in; exact Ha. }
  pose proof (cfg_solid (tab X1) v0 w2 Hs (conj Hv2 C2')) as Hsv.
  destruct (solid_all w2 c a Hsv Ha) as [_ [Hins _]]. rewrite Hins in Hi. destruct Hi as [->|[]].
  destruct (Hin c Hc) as [x [l [_ [F1 [F2 F3]]]]]. unfold tab. rewrite F1, F2. symmetry. apply py_nth_app. lia.
Qed.

(* ------------------------------------------------------------------ *)
(** ** Steps that cannot fail *)

Lemma Forall2_dget {A} (P : Z -> A -> A -> Prop) (ds0 : dict A) : forall ds, dkeys ds0 = dkeys ds -> NoDup (dkeys ds) ->
  (forall c a', dget c ds0 = Some a' -> exists a, dget c ds = Some a /\ P c a a') ->
  Forall2 (fun p q => fst p = fst q /\ P (fst p) (snd p) (snd q)) ds ds0.
Proof.
  induction ds0 as [|[c a'] ds0 IH]; intros [|[c1 a] ds] E Hn H; try discriminate; [constructor|].
  simpl in E. injection E as <- E. inversion Hn as [|? ? Hc Hn']; subst. constructor.
  - simpl. split; [reflexivity|]. destruct (H c a') as [b [Eb Pb]]; [simpl; rewrite Z.eqb_refl; reflexivity|].
    simpl in Eb. rewrite Z.eqb_refl in Eb. injection Eb as <-. exact Pb.
  - apply IH; auto. intros c2 a2 E2.
    assert (Hne : c2 <> c). { intros ->. apply Hc. rewrite <- E. eapply dget_Some_in; exact E2. }
    destruct (H c2 a2) as [b [Eb Pb]].
    { simpl. destruct (Z.eqb_spec c2 c); [contradiction|exact E2]. }
    simpl in Eb. destruct (Z.eqb_spec c2 c); [contradiction|]. eauto.
Qed.

Lemma migrate_total X v r z k : vinv X v -> dget r (v_rows v) = Some z ->
  exists v', view_migrate X v r k = (v', Ok tt).
Proof.
  intros Hv Hr. unfold view_migrate.
  destruct (view_uninc_ok X v r z Hv Hr) as [v0 [-> [Hv0 [R0 [K0 [_ [_ [_ Hk]]]]]]]].
  assert (Nd : NoDup (dkeys (v_dims v))) by apply Hv.
  assert (Hr0 : dget r (v_rows v0) = None).
  { rewrite R0, dget_ddel, Z.eqb_refl; [reflexivity|apply Hv]. }
  assert (Mv : Forall2 (moved r) (v_dims v) (v_dims v0)).
  { eapply Forall2_impl'; [|apply (Forall2_dget (fun c a a' => akin a a' /\ ainv a' /\ acontent a' r = None) _ _ K0 Nd)].
    - intros p q [E H]. split; [exact E|exact H].
    - intros c a' Ha'. destruct (Hk c a' Ha') as [a [Ha Ka]]. exists a. split; [exact Ha|]. split; [exact Ka|].
      destruct Hv0 as [_ [_ Hd]]. destruct (Hd c a' Ha') as [Hi [_ H]]. specialize (H r). rewrite Hr0 in H. auto. }
  destruct (table_row_ok X v r z Hv Hr) as [obs Ho].
  assert (Et : table_row X v0 r = Ok obs).
  { rewrite <- Ho. unfold table_row. f_equal.
    clear - Mv. induction Mv as [|p q l l' [E _] _ IH]; [reflexivity|]. simpl. rewrite E, IH. reflexivity. }
  rewrite Et.
  destruct (dims_inc_progress X r z k obs _ _ (colgood_all X v r z Hv Hr) Mv (dget_obs X v r obs _ Ho eq_refl)) as [ds2 E2].
  unfold view_insert, crp_incorporate. unfold v_rows in Hr0. unfold dmem. rewrite Hr0, E2. eauto.
Qed.

Lemma transition_total X draw v r z : draw_ok draw -> vinv X v ->
  (forall c a, dget c (v_dims v) = Some a -> atotal a) -> 0 < c_alpha (v_crp v) ->
  dget r (v_rows v) = Some z -> exists v', transition_row X draw v r = (v', Ok tt).
Proof.
  intros Hd Hv Ht Ha Hr. unfold transition_row.
  destruct (row_weights_total X v r z Hv Ha Hr Ht) as [v1 [K [w [Ew _]]]]. rewrite Ew.
  destruct (view_score_total X lgam_w v Hv Ha Ht) as [s Hs].
  destruct (row_weights_exact X lgam_w v r z v1 K w s lgam_w_rec lgam_w_1 Hv (fun c a E => proj1 (Ht c a E)) Ha Hr Hs Ew)
    as [C F].
  destruct (row_weights_ok _ _ _ _ _ _ Hv Ew) as [V1 [C1 [_ [_ [_ EK]]]]].
  assert (Hw : Forall logw w).
  { clear - F. induction F as [|k wk K w [v' [S' [_ [_ ->]]]] _ IH]; constructor; [exact I|exact IH]. }
  assert (Hne : K <> []).
  { intros ->. destruct (gibbs_tables_spec (v_crp v) r z 1 (proj1 Hv) Hr Nat.lt_0_1) as [K0 [E0 [_ [_ Hl]]]].
    rewrite EK in E0. injection E0 as <-. simpl in Hl. discriminate. }
  assert (Hp : 0 < Rsum (map lexp w)).
  { clear - F Hne. destruct F as [|k wk K w [v' [S' [_ [_ ->]]]] F]; [contradiction|]. simpl.
    assert (0 <= Rsum (map lexp w)).
    { clear. induction w as [|x w IH]; simpl; [lra|]. pose proof (lexp_nonneg x). lra. }
    pose proof (exp_pos (S' - C)). lra. }
  assert (Hl : length K = length w) by (clear - F; induction F; simpl; congruence).
  destruct (log_pflip_spec draw w K Hd Hw Hp Hl) as [i [k [y [-> _]]]].
  assert (R1 : dget r (v_rows v1) = Some z) by (unfold v_rows; rewrite C1; exact Hr).
  rewrite R1. destruct (z =? k)%Z; [eauto|]. exact (migrate_total X v1 r z k V1 R1).
Qed.

(** A whole pass over rows. *)
Lemma pass_total X draws v0 rows : (forall i, draw_ok (draws i)) -> all_solid v0 -> 0 < c_alpha (v_crp v0) ->
  forall v, cfg X v0 v -> (forall r, In r rows -> In r (dkeys (v_rows v))) ->
  exists v', transition_rows X draws v rows = (v', Ok tt) /\ cfg X v0 v' /\
    forall r, In r (dkeys (v_rows v')) <-> In r (dkeys (v_rows v)).
Proof.
  intros Hd Hs Ha. induction rows as [|r rows IH]; intros v C Hin; simpl.
  { exists v. split; [reflexivity|]. split; [exact C|tauto]. }
  destruct (in_dkeys_Some r (v_rows v) (Hin r (or_introl eq_refl))) as [z Hz].
  destruct (transition_total X (draws (length rows)) v r z (Hd _) (proj1 C)) as [v1 E1].
  { intros c a Hc. apply (solid_all v c a); [apply (cfg_solid X v0); assumption|exact Hc]. }
  { destruct C as [_ [_ [_ [-> _]]]]. exact Ha. }
  { exact Hz. }
  rewrite E1. destruct (cfg_transition X _ v0 v r v1 C E1) as [C1 [R1 _]].
  destruct (IH v1 C1) as [v2 [E2 [C2 R2]]].
  { intros r' Hr'. apply R1, Hin. right; exact Hr'. }
  exists v2. split; [exact E2|]. split; [exact C2|]. intros r'. rewrite R2. apply R1.
Qed.

(** Cells that a column accepts. *)
Definition accepted (a : adim) (x : cell) : Prop :=
  match x with None => True | Some y => m_sup (a_M a) y end.

Lemma a_inc_fresh b r k x : ainv b -> acontent b r = None -> accepted b x ->
  exists b', a_incorporate b r k x [] = (b', Ok tt).
Proof.
  intros [HLb Hb] Hn Hx. unfold a_incorporate, dim_incorporate.
  unfold acontent in Hn. pose proof Hn as Hn'. apply (content_none _ _ _ _ Hb) in Hn. destruct Hn as [N1 N2].
  unfold dmem. rewrite N1, N2. simpl. destruct x as [y|]; simpl; [|eauto].
  set (d1 := open_cluster (a_M b) (a_d b) k).
  assert (Hk : exists ck, dget k (d_clusters d1) = Some ck).
  { unfold d1, open_cluster, dmem. destruct (dget k (d_clusters (a_d b))) eqn:E; [eauto|]. simpl.
    rewrite dget_dset_same. eauto. }
  destruct Hk as [ck Ek]. rewrite Ek.
  assert (Hd1 : dinv (a_M b) (reach (a_M b)) d1 /\ content (a_M b) d1 r = None).
  { destruct (dinv_open _ _ HLb (a_d b) k Hb) as [A _]. split; [exact A|].
    unfold content, d1. destruct (open_same (a_M b) (a_d b) k) as [-> [-> _]]. rewrite N1, N2. reflexivity. }
  assert (Hno : dget r (m_rows (a_M b) ck) = None).
  { destruct Hd1 as [Hd1 Hc1]. destruct (dget r (m_rows (a_M b) ck)) as [w|] eqn:Ew; [|reflexivity].
    pose proof (di_only _ _ _ Hd1 r k ck w Ek Ew) as Hzr.
    apply (content_none _ _ _ _ Hd1) in Hc1. destruct Hc1 as [N _]. congruence. }
  destruct Hx as [h [q [s0 Hx]]].
  destruct (ml_inc_any _ _ HLb _ _ _ _ _ Hx ck r Hno) as [s2 E]. rewrite E. eauto.
Qed.

Lemma dims_fresh X r k obs ds :
  Forall (fun p => ainv (snd p) /\ acontent (snd p) r = None /\ d_ins (a_d (snd p)) = [] /\
    exists x, dget (fst p) obs = Some x /\ accepted (snd p) x) ds ->
  exists ds', dims_incorporate X r k obs ds = (ds', Ok tt).
Proof.
  induction 1 as [|[c a] ds [Hi [Hn [Hins [x [Ex Hx]]]]] _ IH]; simpl; [eauto|]. simpl in *.
  rewrite Ex. unfold input_values. rewrite Hins. cbn [map rsequence].
  destruct (a_inc_fresh a r k x Hi Hn Hx) as [a' E]. rewrite E. destruct IH as [ds' ->]. eauto.
Qed.

Lemma incorporate_total X draws v0 v r obs : (forall i, draw_ok (draws i)) -> all_solid v0 ->
  0 < c_alpha (v_crp v0) -> cfg X v0 v -> ~ In r (dkeys (v_rows v)) ->
  (forall c a, dget c (v_dims v0) = Some a -> exists x, dget c obs = Some x /\ X c r = Ok x /\ accepted a x) ->
  exists v', view_incorporate X draws v r None obs = (v', Ok tt).
Proof.
  intros Hd Hs Ha C Hr Ho. pose proof C as [Hv [O [G [A F]]]]. pose proof (cfg_solid X v0 v Hs C) as Hsv.
  assert (Hno : dget r (v_rows v) = None) by (apply dget_None_notin; exact Hr).
  assert (Ho' : forall c a, dget c (v_dims v) = Some a ->
    exists x, dget c obs = Some x /\ X c r = Ok x /\ accepted a x).
  { intros c a Hca. apply dget_In in Hca.
    assert (Nd : NoDup (dkeys (v_dims v0))) by (rewrite <- (cfg_keys X v0 v C); apply Hv).
    assert (H : exists a0, In (c, a0) (v_dims v0) /\ asim a0 a).
    { clear - F Hca. induction F as [|[c1 a1] [c2 a2] l l' [E Si] _ IH]; [contradiction|]. simpl in E, Si. subst c2.
      destruct Hca as [E|Hin]; [injection E as -> ->; exists a1; split; [left; reflexivity|exact Si]|].
      destruct (IH Hin) as [a0 [H1 H2]]. exists a0. split; [right; exact H1|exact H2]. }
    destruct H as [a0 [H1 [d' [-> _]]]]. apply (dget_In_NoDup _ _ _ Nd) in H1.
    destruct (Ho c a0 H1) as [x [E1 [E2 E3]]]. exists x. auto. }
  unfold view_incorporate.
  assert (Hi : exists v1, view_insert X v r 0 obs = (v1, Ok tt)).
  { unfold view_insert, crp_incorporate. unfold v_rows in Hno. unfold dmem. rewrite Hno.
    destruct (dims_fresh X r 0%Z obs (v_dims v)) as [ds' ->]; [|eauto].
    apply Forall_forall. intros [c a] Hin. simpl. destruct Hv as [_ [Nd Hdd]].
    apply (dget_In_NoDup _ _ _ Nd) in Hin. destruct (Hdd c a Hin) as [Hai [_ Hco]]. split; [exact Hai|].
    specialize (Hco r). unfold v_rows in Hco. rewrite Hno in Hco. split; [exact Hco|].
    destruct (solid_all v c a Hsv Hin) as [_ [Hins _]]. split; [exact Hins|].
    destruct (Ho' c a Hin) as [x [E1 [_ E3]]]. eauto. }
  destruct Hi as [v1 Ei]. rewrite Ei.
  destruct (cfg_insert_any X v0 v r 0%Z obs v1 C) with (2 := Ei) as [C1 R1].
  { intros c a Hca. destruct (Ho' c a Hca) as [x [E1 [E2 _]]]. eauto. }
  destruct (pass_total X draws v0 [r] Hd Hs Ha v1 C1) as [v2 [E2 _]].
  { intros r' [<-|[]]. rewrite R1, in_dkeys_dset. left; reflexivity. }
  eauto.
Qed.

Lemma add_total draws v0 rows : (forall r i, draw_ok (draws r i)) -> all_solid v0 -> 0 < c_alpha (v_crp v0) ->
  forall X v n, cfg (tab X) v0 v -> NoDup (dkeys X) ->
  (forall c, In c (dkeys (v_dims v0)) -> exists l, dget c X = Some l /\ Z.of_nat (length l) = n) ->
  (0 <= n)%Z -> (forall r, In r (dkeys (v_rows v)) -> (0 <= r < n)%Z) ->
  (forall row, In row rows -> dkeys row = dkeys (v_dims v0) /\
     forall c a x, dget c (v_dims v0) = Some a -> dget c row = Some x -> accepted a x) ->
  exists X' v', add_hypotheticals draws X v n rows = (X', v', Ok tt).
Proof.
  intros Hd Hs Ha. induction rows as [|row rows IH]; intros X v n C HX Hl Hn0 Hr Hk; simpl; [eauto|].
  destruct (Hk row (or_introl eq_refl)) as [Hrow Hacc].
  assert (Nd : NoDup (dkeys row)).
  { rewrite Hrow, <- (cfg_keys _ _ _ C). apply C. }
  destruct (append_cells_spec row Nd X) as [A1 A2]. set (X1 := append_cells X row) in *.
  assert (Hin : forall c, In c (dkeys (v_dims v0)) -> exists x l, dget c row = Some x /\ dget c X = Some l /\
    dget c X1 = Some (l ++ [x]) /\ Z.of_nat (length l) = n).
  { intros c Hc. destruct (Hl c Hc) as [l [E1 E2]]. rewrite <- Hrow in Hc. apply in_dkeys_Some in Hc.
    destruct Hc as [x Ex]. exists x, l. rewrite A2, Ex, E1. auto. }
  assert (C1 : cfg (tab X1) v0 v).
  { destruct C as [Hv C']. split; [|exact C']. apply (vinv_table_ins (tab X)); [exact Hv|].
    intros c a r i Hca Hir Hi. apply Hr in Hir.
    assert (Hc : In c (dkeys (v_dims v0))).
    { rewrite <- (cfg_keys (tab X) v0 v (conj Hv C')). eapply dget_Some_in; exact Hca. }
    pose proof (cfg_solid (tab X) v0 v Hs (conj Hv C')) as Hsv.
    destruct (solid_all v c a Hsv Hca) as [_ [Hins _]]. rewrite Hins in Hi. destruct Hi as [->|[]].
    destruct (Hin c Hc) as [x [l [_ [E1 [E2 E3]]]]]. unfold tab. rewrite E1, E2. apply py_nth_app. lia. }
  destruct (incorporate_total (tab X1) (draws n) v0 v n row (Hd n) Hs Ha C1) as [v1 Ei].
  { intros H. apply Hr in H. lia. }
  { intros c a Hca. assert (Hc : In c (dkeys (v_dims v0))) by (eapply dget_Some_in; exact Hca).
    destruct (Hin c Hc) as [x [l [Ex [_ [E2 E3]]]]]. exists x. split; [exact Ex|]. split.
    - unfold tab. rewrite E2, <- E3. apply py_nth_last.
    - eapply Hacc; eassumption. }
  rewrite Ei.
  destruct (cfg_incorporate (tab X1) (draws n) v0 v n row v1 C1) as [C2 [R1 R2]].
  { intros c a Hca.
    assert (Hc : In c (dkeys (v_dims v0))) by (rewrite <- (cfg_keys _ _ _ C1); eapply dget_Some_in; exact Hca).
    destruct (Hin c Hc) as [x [l [Ex [_ [E2 E3]]]]]. exists x. split; [exact Ex|]. unfold tab. rewrite E2, <- E3.
    apply py_nth_last. }
  { exact Ei. }
  apply IH; auto.
  - rewrite A1. exact HX.
  - intros c Hc. destruct (Hin c Hc) as [x [l [_ [_ [E2 E3]]]]]. exists (l ++ [x]). split; [exact E2|].
    rewrite app_length. simpl. lia.
  - lia.
  - intros r Hir. apply R1 in Hir. destruct Hir as [->|Hir]; [lia|]. apply Hr in Hir. lia.
  - intros row0 H0. apply Hk. right; exact H0.
Qed.
