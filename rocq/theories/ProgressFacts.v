(** Facts about inference that cannot fail. *)
From Verif Require Import LogSpaceFacts P06_Dim P07_View.
From Verif Require Export RelevanceState MetadataFacts ColumnFacts.
From Verif Require P34_Grids.
From Coq Require Import Lia.
Local Open Scope R_scope.

Definition positive (g : list R) : Prop := g <> [] /\ forall x, In x g -> 0 < x.

(** One non-empty list of values per hyperparameter; setting a hyperparameter to one of
    its values keeps the hyperparameters valid. *)
Definition good_grids (M : model) (gs : list (list R)) : Prop :=
  length gs = m_nhyp M /\
  forall i g, nth_error gs i = Some g -> g <> [] /\
    forall h x, collapsed M h -> In x g -> collapsed M (m_hset M i x h).

Definition eager (a : adim) : Prop :=
  solid a /\ d_set (a_d a) = true /\ good_grids (a_M a) (d_grids (a_d a)).

Definition eager_view (w : view) : Prop :=
  0 < c_alpha (v_crp w) /\ positive (v_grid w) /\
  forall c a, dget c (v_dims w) = Some a -> eager a.

(** Either there are no independence constraints, or they hold and the views are in the
    order of their numbers. *)
Definition apart (s : state) : Prop :=
  s_Ci s = [] \/ (ascending (dkeys (s_views s)) /\ ci_kept s /\
    forall p c, In p (s_Ci s) -> In c p -> In c (s_outs s)).

Record able (s : state) : Prop := {
  ab_alpha : 0 < c_alpha (s_crp s);
  ab_grid : positive (s_grid s);
  ab_view : forall v w, dget v (s_views s) = Some w -> eager_view w;
  ab_apart : apart s
}.

Lemma collapsed_known M h : collapsed M h -> known M.
Proof. intros H. destruct H; constructor. Qed.
Lemma collapsed_coll M h : collapsed M h -> m_coll M = true /\ m_cond M = false.
Proof. intros H. destruct H; split; reflexivity. Qed.

Lemma eager_asim a b : eager a -> asim a b -> eager b.
Proof.
  intros [H1 [H2 H3]] H. split; [eapply asim_solid; eassumption|].
  destruct H as [d [-> [_ [_ [A3 [A4 _]]]]]]. simpl. rewrite A3, A4. auto.
Qed.
Lemma eager_coll a : eager a -> m_coll (a_M a) = true /\ m_cond (a_M a) = false.
Proof. intros [H _]. apply solid_hyp in H. eapply collapsed_coll, H. Qed.

(* ------------------------------------------------------------------ *)
(** ** One column *)

Lemma set_score_set M d h d' r : dim_set_hypers M d h = (d', r) -> d_set d' = d_set d.
Proof.
  unfold dim_set_hypers. simpl. destruct (clusters_set_hypers M (d_clusters d) h). intros E. injection E as <- _. reflexivity.
Qed.
Lemma grid_scores_set M i vs : forall d d' r, grid_scores M d i vs = (d', r) -> d_set d' = d_set d.
Proof.
  induction vs as [|v vs IH]; intros d d' r; simpl; [intros E; injection E as <- _; reflexivity|].
  unfold grid_score. destruct (dim_set_hypers M d (m_hset M i v (d_hyp d))) as [d1 r1] eqn:E1.
  pose proof (set_score_set _ _ _ _ _ E1) as S1.
  destruct r1 as [u|e]; cbn [rbind]; [|intros E; injection E as <- _; exact S1].
  destruct (dim_score M d1) as [x|e]; [|intros E; injection E as <- _; exact S1].
  destruct (grid_scores M d1 i vs) as [d2 r2] eqn:E2. intros E. injection E as <- _. rewrite (IH _ _ _ E2). exact S1.
Qed.
Lemma each_set M draws order : forall d d' r, transition_each M draws d order = (d', r) -> d_set d' = d_set d.
Proof.
  induction order as [|i order IH]; intros d d' r; simpl; [intros E; injection E as <- _; reflexivity|].
  destruct (transition_hyper M (draws (length order)) d i) as [d1 r1] eqn:E1.
  assert (S1 : d_set d1 = d_set d).
  { revert E1. unfold transition_hyper. destruct (nth_error (d_grids d) i) as [g|]; [|intros E; injection E as <- _; reflexivity].
    destruct (grid_scores M d i g) as [d2 r2] eqn:E2. pose proof (grid_scores_set _ _ _ _ _ _ E2) as S2.
    destruct (rbind r2 _); intros E; injection E as <- _; exact S2. }
  destruct r1; [|intros E; injection E as <- _; exact S1]. intros E. rewrite (IH _ _ _ E). exact S1.
Qed.
Lemma trans_hypers_set M draws order d d' r : dim_transition_hypers M draws order d = (d', r) -> d_set d' = d_set d.
Proof.
  unfold dim_transition_hypers. destruct (transition_each M draws d order) as [d1 r1] eqn:E1.
  pose proof (each_set _ _ _ _ _ _ E1) as S1. destruct r1; [|intros E; injection E as <- _; exact S1].
  destruct (dim_set_hypers M d1 (d_hyp d1)) as [d2 r2] eqn:E2. pose proof (set_score_set _ _ _ _ _ E2) as S2.
  destruct r2; intros E; injection E as <- _; simpl; congruence.
Qed.

(** What a call may be given. *)
Definition call_ok (a : adim) (o : dcall) : Prop :=
  match o with
  | CallHypers draws order => (forall j, draw_ok (draws j)) /\ forall i, In i order -> (i < m_nhyp (a_M a))%nat
  | CallGrids gs _ => good_grids (a_M a) gs
  | CallParams => True
  end.

Lemma call_total a o : ainv a -> eager a -> call_ok a o -> exists a', a_call a o = (a', Ok tt) /\ eager a' /\ a_M a' = a_M a.
Proof.
  intros Ha He Ho. pose proof He as [Hs [Hset Hg]]. pose proof (solid_hyp a Hs) as [Hc Hv].
  pose proof (collapsed_known _ _ Hc) as HM. pose proof (proj1 Ha) as HL.
  destruct o as [draws order|gs p|]; simpl in *.
  - destruct Ho as [Hd Ho].
    destruct (each_total (a_M a) (collapsed (a_M a)) HM (fun h H => H) Hv draws Hd order (a_d a) (proj2 Ha) Hc) as [d1 [E1 [I1 V1]]].
    { intros i Hi. specialize (Ho i Hi). destruct Hg as [L G].
      destruct (nth_error (d_grids (a_d a)) i) as [g|] eqn:Eg; [|apply nth_error_None in Eg; lia].
      exists g. split; [reflexivity|]. apply G. exact Eg. }
    assert (E : exists d2, dim_transition_hypers (a_M a) draws order (a_d a) = (d2, Ok tt) /\ d_hyp d2 = d_hyp d1).
    { unfold dim_transition_hypers. rewrite E1.
      destruct (set_score_total (a_M a) (collapsed (a_M a)) HM (fun h H => H) Hv d1 (d_hyp d1) I1 V1) as [d2 [x [E2 [_ [_ [E3 _]]]]]].
      rewrite E2. eexists. split; [reflexivity|]. simpl. exact E3. }
    destruct E as [d2 [E2 Eh]]. rewrite E2. eexists. split; [reflexivity|]. split; [|reflexivity].
    destruct (trans_hypers_same _ _ HL _ _ _ _ _ E2) as [S [A1 [A2 A3]]]. specialize (A3 eq_refl).
    split; [|split].
    + split; [|split; [simpl; rewrite A1; apply Hs|exact A3]].
      split; [|exact Hv]. destruct A3 as [B1 B2]. split; simpl; [rewrite B1, Eh; exact V1|].
      intros k c Ek. rewrite (B2 k c Ek), Eh. exact V1.
    + simpl. rewrite (trans_hypers_set _ _ _ _ _ _ E2). exact Hset.
    + simpl. rewrite A2. exact Hg.
  - unfold dim_transition_grids. rewrite Hset. eexists. split; [reflexivity|]. split; [|reflexivity].
    split; [|split; [first [reflexivity|exact Hset]|exact Ho]].
    destruct Hs as [[[H1 H2] _] [H3 [H4 H5]]]. split; [|split; [exact H3|]].
    + split; [|exact Hv]. split; [simpl; rewrite (proj1 (proj2 (proj2 (ml_new _ _ HL _ _)))); exact Hc|exact H2].
    + split; [simpl; apply (ml_new _ _ HL)|exact H5].
  - eexists. split; [reflexivity|]. split; [|reflexivity].
    eapply eager_asim; [exact He|]. destruct (agree_params _ _ HL (proj2 (proj2 Hs))) as [G1 G2].
    eexists. split; [reflexivity|]. do 4 (split; [reflexivity|]). exact G1.
Qed.

(* ------------------------------------------------------------------ *)
(** ** Loops *)

Lemma views_loop_total (P : Z -> view -> Prop) f vs :
  (forall i v w, In v vs -> P v w -> exists w', f i v w = (w', Ok tt) /\ P v w') ->
  forall ws, (forall v, In v vs -> In v (dkeys ws)) -> (forall v w, dget v ws = Some w -> P v w) ->
  exists ws', views_loop f vs ws = (ws', Ok tt) /\ dkeys ws' = dkeys ws /\ forall v w, dget v ws' = Some w -> P v w.
Proof.
  induction vs as [|v vs IH]; intros Hf ws Hin HP; simpl; [exists ws; auto|].
  destruct (in_dkeys_Some v ws (Hin v (or_introl eq_refl))) as [w Ew]. rewrite Ew.
  destruct (Hf (length vs) v w (or_introl eq_refl) (HP v w Ew)) as [w' [-> Hw']].
  destruct (IH (fun i v0 w0 H => Hf i v0 w0 (or_intror H)) (dset v w' ws)) as [ws' [E [K S]]].
  - intros v0 H0. rewrite dkeys_dset_in by (eapply dget_Some_in; exact Ew). apply Hin. right. exact H0.
  - intros v0 w0. rewrite dget_dset. destruct (Z.eqb_spec v0 v) as [->|]; [|apply HP]. intros E. injection E as <-. exact Hw'.
  - exists ws'. split; [exact E|]. split; [|exact S]. rewrite K. apply dkeys_dset_in. eapply dget_Some_in; exact Ew.
Qed.

Lemma able_views s ws : able s -> dkeys ws = dkeys (s_views s) -> (forall v w, dget v ws = Some w -> eager_view w) ->
  able (set_views s ws).
Proof.
  intros [A B C D] K H. split; simpl; auto. destruct D as [D|[D1 [D2 D3]]]; [left; exact D|].
  right. split; [simpl; rewrite K; exact D1|]. auto.
Qed.

Lemma dim_for_ex n s c : sinv n s -> In c (s_outs s) -> exists v w a, dget c (s_zv s) = Some v /\
  dget v (s_views s) = Some w /\ dget c (v_dims w) = Some a /\ dim_for s c = Ok a.
Proof.
  intros H Hc. apply (si_zv _ _ H) in Hc. apply in_dkeys_Some in Hc. destruct Hc as [v Ev].
  assert (Hv : In v (dkeys (s_views s))) by (apply (used_views _ _ _ H); eauto).
  apply in_dkeys_Some in Hv. destruct Hv as [w Ew].
  assert (Hd : In c (dkeys (v_dims w))) by (apply (si_view _ _ H v w Ew); exact Ev).
  apply in_dkeys_Some in Hd. destruct Hd as [a Ea]. exists v, w, a. unfold dim_for. rewrite Ev, Ew, Ea. auto.
Qed.

(** The class of a column. *)
Definition class_kept (s s' : state) : Prop :=
  forall c a, dim_for s c = Ok a -> exists a', dim_for s' c = Ok a' /\ a_M a' = a_M a.
Lemma class_kept_refl s : class_kept s s.
Proof. intros c a E. eauto. Qed.
Lemma class_kept_trans s1 s2 s3 : class_kept s1 s2 -> class_kept s2 s3 -> class_kept s1 s3.
Proof. intros H1 H2 c a E. destruct (H1 c a E) as [b [Eb Hb]]. destruct (H2 c b Eb) as [d [Ed Hd]]. exists d. split; congruence. Qed.

Lemma dim_call_total n s c o : sinv n s -> able s -> In c (s_outs s) ->
  (forall a, dim_for s c = Ok a -> call_ok a o) ->
  exists s', dim_call s c o = (s', Ok tt) /\ able s' /\ class_kept s s'.
Proof.
  intros H A Hc Ho. destruct (dim_for_ex n s c H Hc) as [v [w [a [Ev [Ew [Ea Ed]]]]]].
  unfold dim_call. rewrite Ev, Ew. unfold view_call. rewrite Ea.
  destruct (si_view _ _ H v w Ew) as [[Vc [Vn Vd]] _]. destruct (ab_view _ A v w Ew) as [Wa [Wg Wd]].
  destruct (call_total a o (proj1 (Vd c a Ea)) (Wd c a Ea) (Ho a Ed)) as [a' [E [He HM]]]. rewrite E.
  eexists. split; [reflexivity|].
  assert (K : dkeys (dset v (set_dims w (dset c a' (v_dims w))) (s_views s)) = dkeys (s_views s))
    by (apply dkeys_dset_in; eapply dget_Some_in; exact Ew).
  split.
  - apply able_views; [exact A|exact K|]. intros v0 w0. rewrite dget_dset.
    destruct (Z.eqb_spec v0 v) as [->|]; [|apply (ab_view _ A)]. intros E0. injection E0 as <-.
    split; [exact Wa|]. split; [exact Wg|]. intros c0 a0. simpl. rewrite dget_dset.
    destruct (c0 =? c)%Z; [intros E0; injection E0 as <-; exact He|apply Wd].
  - intros c0 a0. unfold dim_for. change (s_zv (set_views s _)) with (s_zv s).
    destruct (dget c0 (s_zv s)) as [v0|]; [|discriminate]. cbn [s_views set_views]. rewrite dget_dset.
    destruct (Z.eqb_spec v0 v) as [->|]; [|destruct (dget v0 (s_views s)) as [w0|]; [|discriminate]; destruct (dget c0 (v_dims w0)); [|discriminate]; intros E0; injection E0 as <-; eauto].
    rewrite Ew. simpl. rewrite dget_dset. destruct (Z.eqb_spec c0 c) as [->|].
    + rewrite Ea. intros E0. injection E0 as <-. eauto.
    + destruct (dget c0 (v_dims w)); [|discriminate]. intros E0; injection E0 as <-; eauto.
Qed.

Lemma call_ok_class a a' o : a_M a' = a_M a -> call_ok a o -> call_ok a' o.
Proof. intros E. destruct o as [draws order|gs p|]; simpl; rewrite ?E; auto. Qed.

(** [c] is the column of [cols] that is followed by [i] others. *)
Definition at_pos (cols : list Z) (i : nat) (c : Z) : Prop := exists pre post, cols = pre ++ c :: post /\ length post = i.
Lemma at_pos_in cols i c : at_pos cols i c -> In c cols.
Proof. intros [pre [post [-> _]]]. apply in_elt. Qed.
Lemma at_pos_skip x cols i c : at_pos cols i c -> at_pos (x :: cols) i c.
Proof. intros [pre [post [-> H]]]. exists (x :: pre), post. auto. Qed.

Lemma dims_call_total n o cols : forall s, sinv n s -> able s -> (forall c, In c cols -> In c (s_outs s)) ->
  (forall i c a, at_pos cols i c -> dim_for s c = Ok a -> call_ok a (o i c)) ->
  exists s', dims_call s cols o = (s', Ok tt) /\ able s' /\ class_kept s s'.
Proof.
  induction cols as [|c cols IH]; intros s H A Hin Ho; simpl; [exists s; split; [reflexivity|]; split; [exact A|apply class_kept_refl]|].
  destruct (dim_call_total n s c (o (length cols) c) H A (Hin c (or_introl eq_refl))) as [s1 [E1 [A1 K1]]].
  { intros a Ea. apply Ho; [exists [], cols; auto|exact Ea]. }
  rewrite E1. pose proof (dim_call_ok _ _ _ _ _ _ H E1) as H1.
  destruct (dim_call_frame _ _ _ _ _ E1) as [[F1 _] _].
  destruct (IH s1 H1 A1) as [s2 [E2 [A2 K2]]].
  - intros c' Hc'. rewrite F1. apply Hin. right. exact Hc'.
  - intros i c' a' Hc' Ea'. destruct (dim_for_ex n s c' H (Hin c' (or_intror (at_pos_in _ _ _ Hc')))) as [_ [_ [a0 [_ [_ [_ Ea0]]]]]].
    destruct (K1 c' a0 Ea0) as [a1 [Ea1 HM]]. rewrite Ea' in Ea1. injection Ea1 as <-.
    eapply call_ok_class; [exact HM|]. apply Ho; [apply at_pos_skip; exact Hc'|exact Ea0].
  - exists s2. split; [exact E2|]. split; [exact A2|]. eapply class_kept_trans; eassumption.
Qed.

(* ------------------------------------------------------------------ *)
(** ** Concentrations and rows *)

Lemma alpha_kept lgam draw g c : draw_ok draw -> positive g ->
  exists c', crp_transition_alpha lgam draw g c = (c', Ok tt) /\ 0 < c_alpha c'.
Proof.
  intros Hd [Hn Hp]. destruct (P34_Grids.alpha_total lgam draw g c Hd Hn Hp) as [c' [E Hi]]. exists c'. auto.
Qed.

Lemma view_alpha_total lgam draws w : (forall j, draw_ok (draws j)) -> eager_view w ->
  exists w', view_transition_alpha lgam draws w = (w', Ok tt) /\ eager_view w'.
Proof.
  intros Hd [Ha [Hg Hc]]. unfold view_transition_alpha.
  destruct (alpha_kept lgam (draws 0%nat) (v_grid w) (v_crp w) (Hd _) Hg) as [c1 [-> H1]].
  destruct (alpha_kept lgam (draws 1%nat) (v_grid w) c1 (Hd _) Hg) as [c2 [-> H2]].
  eexists. split; [reflexivity|]. split; [exact H2|]. split; [exact Hg|exact Hc].
Qed.

Lemma eager_all_solid w : (forall c a, dget c (v_dims w) = Some a -> eager a) -> NoDup (dkeys (v_dims w)) -> all_solid w.
Proof.
  intros H Hn. apply Forall_forall. intros [c a] Hin. simpl. apply (H c a). apply dget_In_NoDup; assumption.
Qed.

Definition dims_kept (w w' : view) : Prop :=
  forall c a, dget c (v_dims w) = Some a -> exists a', dget c (v_dims w') = Some a' /\ a_M a' = a_M a.

Lemma rows_total X draws w rows : (forall i, draw_ok (draws i)) -> vinv X w -> eager_view w ->
  (forall r, In r rows -> In r (dkeys (v_rows w))) ->
  exists w', transition_rows X draws w rows = (w', Ok tt) /\ vinv X w' /\ eager_view w' /\
    (forall r, In r (dkeys (v_rows w')) <-> In r (dkeys (v_rows w))) /\ dims_kept w w'.
Proof.
  intros Hd Hv [Ha [Hg Hc]] Hin. assert (Hs : all_solid w) by (apply eager_all_solid; [exact Hc|apply Hv]).
  destruct (pass_total X draws w rows Hd Hs Ha w (cfg_refl X w Hv Hs) Hin) as [w' [E [C R]]].
  exists w'. split; [exact E|]. destruct C as [V [_ [G [Al F]]]]. split; [exact V|]. split; [|split; [exact R|]].
  2:{ intros c a Hca. clear - F Hca. induction F as [|[k x] [k' y] l m [Ek Hxy] F IH]; [discriminate|]. simpl in *. subst k'.
    destruct (c =? k)%Z; [injection Hca as ->; exists y; split; [reflexivity|destruct Hxy as [d1 [-> _]]; reflexivity]|apply IH; exact Hca]. }
  split; [rewrite Al; exact Ha|]. split; [rewrite G; exact Hg|].
  intros c a Hca. assert (Hk : exists a0, dget c (v_dims w) = Some a0 /\ asim a0 a).
  { clear - F Hca. induction F as [|[k x] [k' y] l m [Ek Hxy] F IH]; [discriminate|]. simpl in *. subst k'.
    destruct (c =? k)%Z; [injection Hca as <-; eauto|apply IH; exact Hca]. }
  destruct Hk as [a0 [E0 S0]]. eapply eager_asim; [apply (Hc c a0 E0)|exact S0].
Qed.

(* ------------------------------------------------------------------ *)
(** ** New views *)

Lemma simulate_total draw c r : draw_ok draw -> crp_inv c -> 0 < c_alpha c -> dget r (c_data c) = None ->
  exists t, crp_simulate draw c r = Ok t.
Proof.
  intros Hd Hi Ha Hr. unfold crp_simulate. rewrite Hr.
  assert (G : forall K, exists ls, rsequence (map (fun x => crp_logpdf c r x) K) = Ok (map Fin ls) /\ length ls = length K).
  { induction K as [|t K [ls [E L]]]; [exists []; split; reflexivity|].
    destruct (crp_pred_prob c r t Hi Ha Hr) as [v [E1 _]]. exists (v :: ls). simpl. rewrite E1, E. simpl. rewrite L. auto. }
  destruct (G (crp_tables c)) as [ls [E L]]. rewrite E. cbn [rbind].
  destruct (log_pflip_spec draw (map Fin ls) (crp_tables c) Hd) as [i [x [y [Ef _]]]].
  - apply Forall_map, Forall_forall. intros; exact I.
  - rewrite map_map. assert (Hn : ls <> []).
    { intros ->. unfold crp_tables in L. destruct (zmax_list _); [rewrite app_length in L|]; simpl in L; lia. }
    destruct ls as [|w ws]; [congruence|]. simpl.
    pose proof (exp_pos w). assert (0 <= Rsum (map (fun x => lexp (Fin x)) ws)).
    { clear. induction ws as [|x ws IH]; simpl in *; [lra|]. pose proof (exp_pos x). lra. }
    simpl in *. lra.
  - rewrite map_length. auto.
  - eauto.
Qed.

Lemma seat_total draw l : (forall i, draw_ok (draw i)) -> forall c, crp_inv c -> 0 < c_alpha c -> NoDup l ->
  (forall r, In r l -> dget r (c_data c) = None) ->
  exists c', seat_rows draw l c = Ok c' /\ c_alpha c' = c_alpha c.
Proof.
  intros Hd. induction l as [|r l IH]; intros c Hi Ha Hn Hr; simpl; [eauto|].
  inversion Hn as [|? ? Hn1 Hn2]; subst.
  destruct (simulate_total (draw (length l)) c r (Hd _) Hi Ha (Hr r (or_introl eq_refl))) as [k ->]. cbn [rbind].
  destruct (crp_incorporate c r k) as [c1 r1] eqn:E1.
  assert (r1 = Ok tt) as ->.
  { unfold crp_incorporate in E1. unfold dmem in E1 at 1. rewrite (Hr r (or_introl eq_refl)) in E1. congruence. }
  destruct (crp_inc_spec _ _ _ _ Hi E1) as [I1 [_ [D1 [_ A1]]]]. cbn [rbind].
  destruct (IH c1 I1) as [c2 [E2 A2]]; [rewrite A1; exact Ha|exact Hn2| |exists c2; split; congruence].
  intros r' Hr'. rewrite D1, dget_dset. destruct (Z.eqb_spec r' r) as [->|]; [contradiction|]. apply Hr. right. exact Hr'.
Qed.

Definition seed_ok (x : vseed) : Prop :=
  0 < vs_alpha x /\ positive (vs_grid x) /\ forall i, draw_ok (vs_draw x i).

Lemma make_total X o x : X <> [] -> seed_ok x -> exists w, view_make X o x None = Ok w /\ eager_view w.
Proof.
  intros HX [Ha [Hg Hd]]. unfold view_make. destruct X as [|[c l] X]; [congruence|].
  destruct (seat_total (vs_draw x) (range (Z.of_nat (length l))) Hd (crp_new (vs_alpha x)) (crp_inv_new _) Ha) as [k [E A]].
  { unfold range. apply FinFun.Injective_map_NoDup; [intros i j; apply Nat2Z.inj|apply seq_NoDup]. }
  { reflexivity. }
  rewrite E. cbn [rbind]. eexists. split; [reflexivity|]. split; [simpl; rewrite A; exact Ha|]. split; [exact Hg|]. discriminate.
Qed.

Lemma aux_total X seeds ts : X <> [] -> (forall i, seed_ok (seeds i)) ->
  exists ws, aux_views X seeds ts = Ok ws /\ Forall (fun vw => eager_view (snd vw)) ws /\ length ws = length ts.
Proof.
  intros HX Hs. induction ts as [|t ts [ws [E [F L]]]]; cbn [aux_views]; [exists []; auto|].
  destruct (make_total X (crp_id_view + t) (seeds (length ts)) HX (Hs _)) as [w [-> Hw]]. cbn [rbind]. rewrite E. cbn [rbind].
  eexists. split; [reflexivity|]. split; [constructor; assumption|]. simpl. rewrite L. reflexivity.
Qed.

(* ------------------------------------------------------------------ *)
(** ** Proposals for a column *)

Lemma asim_trans a b c : asim a b -> asim b c -> asim a c.
Proof.
  intros [d [-> [A1 [A2 [A3 [A4 _]]]]]] [d' [-> [B1 [B2 [B3 [B4 B5]]]]]]. simpl in *.
  exists d'. repeat split; try congruence; apply B5.
Qed.

Lemma asim_bulk_rows X c rows : forall a0 a a', ainv a -> asim a0 a -> bulk_rows X c rows a = (a', Ok tt) -> asim a0 a' /\ ainv a'.
Proof.
  induction rows as [|[r k] rows IH]; intros a0 a a' Ha Hs; simpl; [intros E; injection E as <-; auto|].
  destruct (X c r) as [x|]; [|discriminate]. destruct (input_values X r a) as [ins|]; [|discriminate].
  destruct (a_incorporate a r k x ins) as [a1 [[]|]] eqn:Ea; [|discriminate]. intros E.
  destruct (a_inc_ok _ _ _ _ _ _ Ha Ea) as [_ [Ia1 _]]. eapply IH; [exact Ia1|exact (asim_inc _ _ _ _ _ _ _ Ha Hs Ea)|exact E].
Qed.

Lemma asim_bulk X w c a0 a a' : ainv a -> asim a0 a -> bulk_incorporate X w c a = (a', Ok tt) -> asim a0 a'.
Proof.
  intros Ha Hs. unfold bulk_incorporate. destruct (bulk_rows X c (v_rows w) (a_reset a)) as [a1 [[]|e]] eqn:Eb; [|discriminate].
  destruct (zdict_eq _ _); [|discriminate]. intros E. injection E as <-.
  destruct (a_reset_ok a Ha) as [_ [Ir _]].
  assert (Hr : asim a0 (a_reset a)).
  { destruct Hs as [d [-> [A1 [A2 [A3 [A4 A5]]]]]]. eexists. split; [reflexivity|]. do 4 (split; [assumption|]).
    split; simpl; [apply (ml_new _ _ (proj1 Ha))|discriminate]. }
  destruct (asim_bulk_rows _ _ _ _ _ _ Ir Hr Eb) as [S1 I1].
  destruct S1 as [d [-> [A1 [A2 [A3 [A4 A5]]]]]]. eexists. split; [reflexivity|]. do 4 (split; [assumption|]).
  apply agree_params; [apply I1|exact A5].
Qed.

Section Column.
  Context (X : table) (c : Z) (w0 : view) (a : adim).
  Hypothesis Hw0 : vinv X w0.
  Hypothesis Ea : dget c (v_dims w0) = Some a.
  Hypothesis He : eager a.

  Lemma incorporate_total w b : crp_inv (v_crp w) -> (forall r, In r (dkeys (v_rows w)) -> In r (dkeys (v_rows w0))) ->
    ainv b -> asim a b ->
    exists b1 lp, view_incorporate_dim X w c b true = (set_dims w (dset c b1 (v_dims w)), b1, Ok tt) /\
      a_score b1 = Ok (Fin lp) /\ ainv b1 /\ asim a b1.
  Proof.
    intros Hc Hr Hb Hs. destruct (bulk_progress X w0 w c a b Hw0 Ea Hc Hr Hb (asim_akin _ _ Hs)) as [b1 E].
    assert (I1 : ainv b1) by (destruct (bulk_ok _ _ _ _ _ Hc Hb E) as [_ I1]; apply I1).
    pose proof (asim_bulk _ _ _ _ _ _ Hb Hs E) as S1.
    destruct (a_score_total b1 I1) as [lp Es]; [apply (eager_asim a b1 He S1)|].
    exists b1, lp. unfold view_incorporate_dim. rewrite E. auto.
  Qed.

  Definition fits (w : view) : Prop := vinv X w /\ forall r, In r (dkeys (v_rows w)) -> In r (dkeys (v_rows w0)).

  Lemma data_logp_total w b : fits w -> ainv b -> asim a b ->
    exists w1 b1 lp, data_logp X w c b = (w1, b1, Ok (Fin lp)) /\ ainv b1 /\ asim a b1.
  Proof.
    intros [Hw Hr] Hb Hs. unfold data_logp.
    assert (Hm : m_coll (a_M b) = true) by (apply (eager_coll b), (eager_asim a b He Hs)). rewrite Hm. cbn [orb].
    destruct (incorporate_total w b (proj1 Hw) Hr Hb Hs) as [b1 [lp [-> [Es [I1 S1]]]]]. rewrite Es.
    unfold view_unincorporate_dim. cbn [v_dims set_dims].
    assert (Hd : dmem c (dset c b1 (v_dims w)) = true) by (apply dmem_in, in_dkeys_dset; auto). rewrite Hd. cbn [rbind].
    eauto 6.
  Qed.

  Lemma data_logps_total a1 : m_coll (a_M a1) = true -> forall ws sh, Forall (fun vw => fits (snd vw)) ws -> ainv sh -> asim a sh ->
    exists ws' sh' ls, data_logps X c a1 sh ws = (ws', sh', Ok (map (fun x => (None, Fin x)) ls)) /\
      length ls = length ws /\ ainv sh' /\ asim a sh'.
  Proof.
    intros Hm. induction ws as [|[v w] ws IH]; intros sh HF Hi Hs; simpl; [exists [], sh, []; auto|].
    rewrite Hm. cbn [orb]. inversion HF as [|? ? F1 F2]; subst. simpl in F1.
    destruct (data_logp_total w sh F1 Hi Hs) as [w1 [b1 [lp [-> [I1 S1]]]]].
    destruct (IH b1 F2 I1 S1) as [ws' [sh' [ls [-> [L [I2 S2]]]]]]. cbn [rbind].
    exists ((v, w1) :: ws'), sh', (lp :: ls). simpl. rewrite L. auto.
  Qed.
End Column.

Lemma sans_eager c w w' : eager_view w -> sans c w w' -> eager_view w'.
Proof.
  intros [A [B C]] [E1 [_ [E3 [_ E5]]]]. split; [rewrite E1; exact A|]. split; [rewrite E3; exact B|].
  intros c' a. rewrite E5. destruct (c' =? c)%Z; [discriminate|]. apply C.
Qed.

Lemma mask_total s keys l : (forall x, In x l -> exists v, dget x (s_zv s) = Some v /\ In v keys) ->
  forall w, exists w', mask s keys l w = Ok w'.
Proof.
  induction l as [|x l IH]; intros H w; simpl; [eauto|].
  destruct (H x (or_introl eq_refl)) as [v [-> Hv]]. destruct (index_of_in v keys Hv) as [i ->]. cbn [rbind].
  apply IH. intros y Hy. apply H. right. exact Hy.
Qed.

Lemma last_none {A} (l : list (option A)) : (forall x, In x l -> x = None) -> last l None = None.
Proof.
  intros H. destruct (last l None) as [y|] eqn:E; [|reflexivity]. destruct (last_in _ _ _ E) as [E'|Hi]; [discriminate|].
  apply H in Hi. discriminate.
Qed.

(** The plan of a column step: every candidate has a finite weight or is struck out, the
    column's own view is not struck out, and the column object itself is proposed to all. *)
Lemma plan_total n seeds s c m a : sinv n s -> able s -> dim_for s c = Ok a -> (0 < m)%nat -> (forall i, seed_ok (seeds i)) ->
  exists s1 p, column_plan seeds s c m a = (s1, Ok p) /\
    Forall logw (cp_weights p) /\ 0 < Rsum (map lexp (cp_weights p)) /\
    length (cp_tables p) = length (cp_weights p) /\ length (cp_props p) = length (cp_tables p) /\
    (forall q, In q (cp_props p) -> q = None) /\
    ainv (cp_shared p) /\ asim a (cp_shared p) /\
    Forall (fun vw => eager_view (snd vw)) (cp_aux p).
Proof.
  intros H A Hd Hm Hs. destruct (dim_for_spec _ _ _ _ H Hd) as [v0 [w0 [Ev0 [Ew0 [Ea0 Hcol]]]]].
  pose proof (ab_view _ A v0 w0 Ew0) as [_ [_ W]]. pose proof (W c a Ea0) as He.
  destruct (si_view _ _ H v0 w0 Ew0) as [V0 [_ [_ R0]]].
  assert (Hm' : m_coll (a_M a) = true) by apply (eager_coll a He).
  destruct (data_logps_total (tab (s_X s)) c w0 a V0 Ea0 He a Hm' (s_views s) a) as [ws [sh [ls [E1 [L1 [I1 S1]]]]]].
  { apply (Forall_dict (fun _ w => fits (tab (s_X s)) w0 w)); [apply (si_nv _ _ H)|].
    intros v w Hw. destruct (si_view _ _ H v w Hw) as [V [_ [_ Rr]]]. split; [exact V|]. intros r Hr. apply R0, Rr, Hr. }
  { apply Hcol. }
  { apply asim_refl. apply He. }
  pose proof (proj1 Hcol) as Hai.
  assert (HX : s_X s <> []).
  { intros E. pose proof (si_ne _ _ H) as Hne. destruct (s_outs s) as [|o os] eqn:Eo; [congruence|].
    assert (Ho : In o (dkeys (s_X s))) by (apply (si_X _ _ H); rewrite Eo; left; reflexivity). rewrite E in Ho. destruct Ho. }
  destruct (data_logps_ok (tab (s_X s)) c a Hai (s_views s) a ws sh _
    ltac:(apply (Forall_dict (fun _ w => vinv (tab (s_X s)) w)); [apply (si_nv _ _ H)|intros v w Hw; apply (si_view _ _ H v w Hw)])
    Hai (akin_refl a) (hkin_refl a) ltac:(intros; congruence) E1) as [F1 _].
  assert (Lw : length ws = length (s_views s)) by (symmetry; eapply Forall2_len; exact F1).
  assert (Kw : dkeys ws = dkeys (s_views s)) by (apply (dget_forall2 (sans c) _ _ F1)).
  destruct (gibbs_tables_eq (s_crp s) c v0 m (si_crp _ _ H) Ev0 Hm) as [mx [_ Et]].
  set (tables := zsort _ ++ _) in Et.
  destruct (firstn_skipn_tables _ _ _ _ _ H Et) as [Nt [Tf Ts]].
  assert (Lt : (length (s_views s) <= length tables)%nat).
  { assert (Lf : length (firstn (length (s_views s)) tables) = length (s_views s)).
    { rewrite Tf, zsort_length. unfold dkeys. apply map_length. }
    rewrite firstn_length in Lf. lia. }
  destruct (aux_total (s_X s) seeds (skipn (length ws) tables) HX Hs) as [auxs [Eax [Fax Lax]]].
  destruct (aux_views_ok _ (tab (s_X s)) n _ _ (si_len _ _ H) _ Eax) as [Ka Fa].
  destruct (data_logps_total (tab (s_X s)) c w0 a V0 Ea0 He sh) with (ws := auxs) (sh := sh) as [auxs1 [sh2 [ls2 [E2 [L2 [I2 S2]]]]]].
  { apply (eager_coll sh), (eager_asim a sh He S1). }
  { eapply Forall_impl; [|exact Fa]. intros vw [B1 [_ [_ B4]]]. split; [exact B1|]. intros r Hr. apply R0, B4, Hr. }
  { exact I1. }
  { exact S1. }
  destruct (data_logps_ok (tab (s_X s)) c sh I1 auxs sh auxs1 sh2 _
    ltac:(eapply Forall_impl; [|exact Fa]; intros vw Hvw; apply Hvw)
    I1 (akin_refl sh) (hkin_refl sh)
    ltac:(intros Hf; rewrite (proj1 (eager_coll sh (eager_asim a sh He S1))) in Hf; discriminate) E2) as [G1 _].
  set (crp := map (fun t => ln (gibbs_weight (s_crp s) c m t)) tables).
  pose proof (gibbs_logps_eq _ _ _ _ (si_crp _ _ H) (ab_alpha _ A) Ev0 Hm _ Et) as El. fold crp in El.
  set (props := map (fun x => (@None adim, Fin x)) ls ++ map (fun x => (None, Fin x)) ls2).
  assert (Lp : length props = length tables).
  { unfold props. rewrite app_length, !map_length, L1, L2, Lax, skipn_length. lia. }
  assert (Lc : length crp = length tables) by apply map_length.
  set (wts := map (fun pl => eadd (snd (fst pl)) (Fin (snd pl))) (combine props crp)).
  assert (Lwt : length wts = length tables) by (unfold wts; rewrite map_length, combine_length; lia).
  assert (Hfin : forall i x, nth_error wts i = Some x -> exists y, x = Fin y).
  { intros i x Hx. apply nth_error_In in Hx. unfold wts in Hx. apply in_map_iff in Hx. destruct Hx as [[[q lp] y] [<- Hin]].
    apply in_combine_l in Hin. unfold props in Hin. apply in_app_or in Hin.
    destruct Hin as [Hin|Hin]; apply in_map_iff in Hin; destruct Hin as [z [Ez _]]; injection Ez as <- <-; simpl; eauto. }
  assert (Hav : forall x, In x (avoid (s_Ci s) c) -> exists v, dget x (s_zv s) = Some v /\ In v (dkeys ws) /\ v <> v0).
  { intros x Hx. apply avoid_spec in Hx. destruct Hx as [Hn [p [Hp [Hcp Hxp]]]].
    destruct (ab_apart _ A) as [E|[_ [Hk Ho]]]; [rewrite E in Hp; destruct Hp|].
    assert (Hz : In x (dkeys (s_zv s))) by (apply (si_zv _ _ H), (Ho p x Hp Hxp)).
    apply in_dkeys_Some in Hz. destruct Hz as [v Hv]. exists v. split; [exact Hv|]. split.
    - rewrite Kw. apply (used_views _ _ _ H). eauto.
    - intros ->. apply (Hk p c x v0 Hp Hcp Hxp); [congruence|exact Ev0|exact Hv]. }
  destruct (mask_total s (dkeys ws) (avoid (s_Ci s) c)) with (w := wts) as [wts' Em].
  { intros x Hx. destruct (Hav x Hx) as [v [Hv1 [Hv2 _]]]. eauto. }
  assert (Nw : NoDup (dkeys ws)) by (rewrite Kw; apply (si_nv _ _ H)).
  destruct (mask_spec _ _ _ Nw _ _ Em) as [Lm Sm].
  unfold column_plan. rewrite E1.
  exists (set_views s ws), (CPlan tables wts' (map fst props) sh2 auxs1). cbn [cp_weights cp_tables cp_props cp_shared cp_aux].
  split.
  { f_equal. rewrite Et. cbn [rbind]. rewrite Eax. cbn [rbind].
    rewrite last_none. 2:{ intros q Hq. rewrite map_map in Hq. apply in_map_iff in Hq. destruct Hq as [y [<- _]]. reflexivity. }
    rewrite E2. cbn [rbind]. rewrite El. cbn [rbind]. fold props.
    rewrite (proj2 (Nat.eqb_eq _ _) (eq_trans Lp (eq_sym Lc))). fold wts. rewrite Em. cbn [rbind].
    rewrite (proj2 (Nat.eqb_eq (length tables) (length wts'))) by lia. reflexivity. }
  split.
  { apply Forall_forall. intros x Hx. apply In_nth_error in Hx. destruct Hx as [i Hi].
    assert (Hil : (i < length wts)%nat) by (rewrite <- Lm; apply nth_error_Some; congruence).
    rewrite (Sm i Hil) in Hi. destruct (struck _ _ _ i); [injection Hi as <-; exact I|].
    destruct (Hfin i x Hi) as [y ->]. exact I. }
  split.
  { assert (Hk : In v0 (dkeys ws)) by (rewrite Kw; eapply dget_Some_in; exact Ew0).
    destruct (In_nth_error _ _ Hk) as [i Hi].
    assert (Hil : (i < length wts)%nat).
    { rewrite Lwt. apply Nat.lt_le_trans with (length (s_views s)); [|exact Lt]. rewrite <- Lw.
      rewrite <- (map_length fst ws). apply nth_error_Some. unfold dkeys in Hi. rewrite Hi. discriminate. }
    assert (Hst : struck s (dkeys ws) (avoid (s_Ci s) c) i = false).
    { destruct (struck s (dkeys ws) (avoid (s_Ci s) c) i) eqn:Es; [|reflexivity]. apply struck_true in Es.
      destruct Es as [x [v [Hx [Hv Hi']]]]. destruct (Hav x Hx) as [v' [Hv' [_ Hn]]]. congruence. }
    specialize (Sm i Hil). rewrite Hst in Sm.
    destruct (nth_error wts i) as [x|] eqn:Ex; [|apply nth_error_None in Ex; lia].
    destruct (Hfin i x Ex) as [y ->]. eapply Rsum_lexp_pos. eapply nth_error_In; exact Sm. }
  split; [lia|]. split; [rewrite map_length; exact Lp|]. split.
  { intros q Hq. apply in_map_iff in Hq. destruct Hq as [pl [<- Hin]]. unfold props in Hin. apply in_app_or in Hin.
    destruct Hin as [Hin|Hin]; apply in_map_iff in Hin; destruct Hin as [y [<- _]]; reflexivity. }
  split; [exact I2|]. split; [exact S2|].
  clear - G1 Fax. induction G1 as [|vw vw' l l' [_ G] _ IH]; [constructor|]. inversion Fax; subst. constructor; [|auto].
  eapply sans_eager; eassumption.
Qed.

(** ** The column step *)

Lemma migrate_total s c va vb b wa wb b1 lp : crp_inv (s_crp s) -> dget c (s_zv s) = Some va ->
  dget va (s_views s) = Some wa -> dmem c (v_dims wa) = false -> dget vb (s_views s) = Some wb -> va <> vb ->
  m_coll (a_M b) = true ->
  view_incorporate_dim (tab (s_X s)) wb c b true = (set_dims wb (dset c b1 (v_dims wb)), b1, Ok tt) ->
  a_score b1 = Ok (Fin lp) -> NoDup (dkeys (s_views s)) ->
  exists s', migrate_dim s c va vb b = (s', Ok tt) /\ s_grid s' = s_grid s /\ c_alpha (s_crp s') = c_alpha (s_crp s) /\
    dget c (s_zv s') = Some vb /\ (forall c', c' <> c -> dget c' (s_zv s') = dget c' (s_zv s)) /\
    dget vb (s_views s') = Some (set_dims wb (dset c b1 (v_dims wb))) /\
    (forall v w, v <> vb -> dget v (s_views s') = Some w -> dget v (s_views s) = Some w) /\
    (forall v w, v <> vb -> dget v (s_views s) = Some w -> dget v (s_views s') = Some w \/
       (forall c', dget c' (s_zv s') <> Some v)).
Proof.
  intros Hi Hva Ewa Hnc Ewb Hne Hm Ei Es Hnd. unfold migrate_dim, migrate_to.
  assert (Hcn : In va (dkeys (c_counts (s_crp s)))) by (eapply crp_rows_counts; [exact Hi|exact Hva]).
  apply in_dkeys_Some in Hcn. destruct Hcn as [nva En]. rewrite En, Ewa, Hnc. cbn [s_views set_views s_X s_crp].
  rewrite dget_dset_other by congruence. rewrite Ewb, Hm, Ei. cbn [rbind]. rewrite Es.
  destruct (crp_uninc_spec _ _ _ Hi Hva) as [k1 [Eu [I1 [D1 [A1 _]]]]]. rewrite Eu.
  destruct (crp_incorporate k1 c vb) as [k2 r2] eqn:Ec.
  assert (Hno : dget c (c_data k1) = None) by (rewrite D1; apply dget_ddel_same, Hi).
  assert (r2 = Ok tt) as ->.
  { unfold crp_incorporate in Ec. unfold dmem in Ec at 1. rewrite Hno in Ec. congruence. }
  destruct (crp_inc_spec _ _ _ _ I1 Ec) as [I2 [_ [D2 [_ A2]]]].
  assert (Z1 : dget c (c_data k2) = Some vb) by (rewrite D2; apply dget_dset_same).
  assert (Z2 : forall c', c' <> c -> dget c' (c_data k2) = dget c' (s_zv s)).
  { intros c' Hc'. rewrite D2, dget_dset_other, D1 by exact Hc'. apply dget_ddel_other. exact Hc'. }
  set (ws := dset vb (set_dims wb (dset c b1 (v_dims wb))) (dset va wa (s_views s))).
  assert (Gv : forall v, v <> vb -> dget v ws = dget v (s_views s)).
  { intros v Hv. unfold ws. rewrite dget_dset_other by exact Hv. rewrite dget_dset.
    destruct (Z.eqb_spec v va) as [->|]; [symmetry; exact Ewa|reflexivity]. }
  assert (Gb : dget vb ws = Some (set_dims wb (dset c b1 (v_dims wb)))) by (unfold ws; apply dget_dset_same).
  assert (Nws : NoDup (dkeys ws)) by (unfold ws; apply NoDup_dset, NoDup_dset; exact Hnd).
  pose proof (only_member _ _ _ _ Hi Hva En) as Hone.
  destruct (nva =? 1)%Z.
  - assert (Hall : forall c', dget c' (s_zv s) = Some va -> c' = c) by (apply Hone; reflexivity).
    assert (Hgone : forall c', dget c' (c_data k2) <> Some va).
    { intros c' Hc'. destruct (Z.eq_dec c' c) as [->|Hn]; [congruence|]. rewrite (Z2 c' Hn) in Hc'. apply Hn, Hall, Hc'. }
    assert (Hdm : dmem va (c_counts k2) = false).
    { destruct (dmem va (c_counts k2)) eqn:Ed; [|reflexivity]. apply dmem_in in Ed. apply crp_counts_rows in Ed; [|exact I2].
      destruct Ed as [c' Hc']. destruct (Hgone c' Hc'). }
    rewrite Hdm. eexists. split; [reflexivity|]. cbn [s_grid set_views set_scrp s_crp s_views].
    split; [reflexivity|]. split; [congruence|]. split; [exact Z1|]. split; [exact Z2|].
    fold ws. rewrite dget_ddel by exact Nws. rewrite (proj2 (Z.eqb_neq vb va)) by congruence. split; [exact Gb|].
    split; intros v w Hv; rewrite dget_ddel by exact Nws.
    + destruct (v =? va)%Z; [discriminate|]. rewrite Gv by exact Hv. auto.
    + intros Ew. destruct (Z.eqb_spec v va) as [->|]; [right; exact Hgone|]. left. rewrite Gv by exact Hv. exact Ew.
  - eexists. split; [reflexivity|]. cbn [s_grid set_views set_scrp s_crp s_views].
    split; [reflexivity|]. split; [congruence|]. split; [exact Z1|]. split; [exact Z2|].
    fold ws. split; [exact Gb|].
    split; intros v w Hv; rewrite (Gv v Hv); auto.
Qed.

Definition cdraws_ok (d : cdraws) : Prop := draw_ok (cd_draw d) /\ forall i, seed_ok (cd_seeds d i).

Lemma eager_set_dims w c b : eager_view w -> eager b -> eager_view (set_dims w (dset c b (v_dims w))).
Proof.
  intros [A [B C]] Hb. split; [exact A|]. split; [exact B|]. intros c' a. simpl. rewrite dget_dset.
  destruct (c' =? c)%Z; [intros E; injection E as <-; exact Hb|apply C].
Qed.

Lemma all_dims_total n s : sinv n s -> able s -> exists ds, all_dims s = Ok ds /\ existsb (fun a => m_cond (a_M a)) ds = false.
Proof.
  intros H A. unfold all_dims.
  assert (G : forall l, (forall c, In c l -> In c (s_outs s)) -> exists ds, rsequence (map (dim_for s) l) = Ok ds /\ existsb (fun a => m_cond (a_M a)) ds = false).
  { induction l as [|c l IH]; intros Hl; simpl; [exists []; auto|].
    destruct (dim_for_ex n s c H (Hl c (or_introl eq_refl))) as [v [w [a [_ [Ew [Ea ->]]]]]].
    destruct IH as [ds [-> Hds]]; [intros c' Hc'; apply Hl; right; exact Hc'|]. exists (a :: ds). split; [reflexivity|].
    simpl. rewrite Hds. destruct (ab_view _ A v w Ew) as [_ [_ W]]. rewrite (proj2 (eager_coll a (W c a Ea))). reflexivity. }
  apply G. auto.
Qed.

Lemma step_total n d s c m : sinv n s -> able s -> In c (s_outs s) -> s_Cd s = [] -> (0 < m)%nat -> cdraws_ok d ->
  exists s', transition_dim d s c m = (s', Ok tt) /\ able s' /\ sinv n s' /\ same_data s s' /\ class_kept s s'.
Proof.
  intros H A Hc HCd Hm [Hd Hs].
  destruct (dim_for_ex n s c H Hc) as [va [wa0 [a [Eva [Ewa0 [Ea0 Edim]]]]]].
  pose proof (ab_view _ A va wa0 Ewa0) as [_ [_ W]]. pose proof (W c a Ea0) as He.
  destruct (si_view _ _ H va wa0 Ewa0) as [V0 [_ [_ R0]]].
  destruct (plan_total n (cd_seeds d) s c m a H A Edim Hm Hs) as [s1 [p [Ep [P1 [P2 [P3 [P4 [P5 [P6 [P7 P8]]]]]]]]]].
  destruct (column_plan_ok n _ _ _ _ _ _ _ H Edim Ep)
    as [ws [ex [ax [auxs [lcrp [Es1 [HF [Et [Ka [Fa [Fx _]]]]]]]]]]].
  destruct (dget_forall2 (sans c) _ _ HF) as [K G].
  destruct (dget_forall2 (sans c) _ _ Fx) as [Kx Gx].
  destruct (firstn_skipn_tables _ _ _ _ _ H Et) as [Nt [Tf Ts]].
  destruct (log_pflip_spec (cd_draw d) (cp_weights p) (combine (cp_tables p) (cp_props p)) Hd P1 P2) as [i [[vb prop] [y [El [Hi _]]]]].
  { rewrite combine_length. lia. }
  assert (Hin : In (vb, prop) (combine (cp_tables p) (cp_props p))) by (eapply nth_error_In; exact Hi).
  assert (Htab : In vb (cp_tables p)) by (eapply in_combine_l; exact Hin).
  assert (prop = None) as -> by (apply P5; eapply in_combine_r; exact Hin).
  pose proof (eager_asim _ _ He P7) as Heb. pose proof (proj1 (eager_coll _ Heb)) as Hmb.
  (* views before, without the column *)
  assert (Hold : forall v w, dget v ws = Some w -> exists w0, dget v (s_views s) = Some w0 /\ sans c w0 w /\
     crp_inv (v_crp w) /\ (forall r, In r (dkeys (v_rows w)) -> In r (dkeys (v_rows wa0))) /\ eager_view w).
  { intros v w Ew. specialize (G v). rewrite Ew in G. destruct (dget v (s_views s)) as [w0|] eqn:E0; [|destruct G].
    exists w0. split; [reflexivity|]. split; [exact G|]. destruct (si_view _ _ H v w0 E0) as [V1 [_ [_ R1]]].
    split; [destruct G as [-> _]; apply V1|]. split; [|eapply sans_eager; [apply (ab_view _ A v w0 E0)|exact G]].
    intros r Hr. apply R0, R1. unfold v_rows in *. destruct G as [<- _]. exact Hr. }
  assert (Hdims : forall v w, dget v (s_views s) = Some w -> exists w', dget v ws = Some w' /\ sans c w w').
  { intros v w Ew. specialize (G v). rewrite Ew in G. destruct (dget v ws) as [w'|]; [eauto|destruct G]. }
  assert (Hdim1 : forall c' a', c' <> c -> dim_for s c' = Ok a' -> exists v w, dget c' (s_zv s) = Some v /\ dget v ws = Some w /\ dget c' (v_dims w) = Some a').
  { intros c' a' Hn E. destruct (dim_for_spec _ _ _ _ H E) as [v [w [Ez [Ew [Ea' _]]]]]. destruct (Hdims v w Ew) as [w' [Ew' S]].
    exists v, w'. split; [exact Ez|]. split; [exact Ew'|]. destruct S as [_ [_ [_ [_ S5]]]]. rewrite S5, (proj2 (Z.eqb_neq c' c) Hn). exact Ea'. }
  destruct (Hdims va wa0 Ewa0) as [wa [Ewa Sa]].
  assert (Enc : dmem c (v_dims wa) = false).
  { unfold dmem. destruct Sa as [_ [_ [_ [_ ->]]]]. rewrite Z.eqb_refl. reflexivity. }
  assert (Main : exists s', transition_dim d s c m = (s', Ok tt) /\ s_grid s' = s_grid s /\ c_alpha (s_crp s') = c_alpha (s_crp s) /\
     (forall v w, dget v (s_views s') = Some w -> eager_view w) /\ class_kept s s').
  { unfold transition_dim. destruct (all_dims_total n s H A) as [ds [-> Hds]]. rewrite Hds, HCd, Edim, Ep, El.
    subst s1. change (s_zv (set_views s ws)) with (s_zv s). rewrite Eva.
    destruct (Z.eqb_spec va vb) as [<-|Hne].
    - cbn [s_views set_views s_X]. rewrite Ewa, Hmb. destruct (Hold va wa Ewa) as [w1 [_ [_ [O1 [O2 O3]]]]].
      destruct (incorporate_total (tab (s_X s)) c wa0 a V0 Ea0 He wa (cp_shared p) O1 O2 P6 P7) as [b1 [lp [Ei [Esc [Ib1 Sb1]]]]].
      rewrite Ei. cbn [rbind]. rewrite Esc. cbn [rbind]. eexists. split; [reflexivity|]. split; [reflexivity|]. split; [reflexivity|]. split.
      + intros v w. cbn [s_views set_views]. rewrite dget_dset. destruct (v =? va)%Z; [|intros Ew; destruct (Hold v w Ew) as [? [_ [_ [_ [_ Q]]]]]; exact Q].
        intros E. injection E as <-. apply eager_set_dims; [exact O3|exact (eager_asim _ _ He Sb1)].
      + intros c' a' E. unfold dim_for. change (s_zv (set_views _ _)) with (s_zv s). cbn [s_views set_views].
        destruct (Z.eq_dec c' c) as [->|Hn].
        * rewrite Eva, dget_dset_same. simpl. rewrite dget_dset_same. exists b1. split; [reflexivity|].
          assert (a' = a) by congruence. subst a'. destruct Sb1 as [d1 [-> _]]. reflexivity.
        * destruct (Hdim1 c' a' Hn E) as [v [w [-> [Ew Ed']]]]. rewrite dget_dset. destruct (Z.eqb_spec v va) as [->|].
          -- simpl. rewrite dget_dset_other by exact Hn. assert (w = wa) by congruence. subst w. rewrite Ed'. eauto.
          -- rewrite Ew, Ed'. eauto.
    - assert (Nws : NoDup (dkeys ws)) by (rewrite K; apply (si_nv _ _ H)).
      assert (Go : forall V wb, (forall v w, dget v ws = Some w -> v <> vb -> dget v V = Some w) ->
         (forall v w, dget v V = Some w -> v <> vb -> dget v ws = Some w) -> NoDup (dkeys V) ->
         dget vb V = Some wb -> crp_inv (v_crp wb) -> (forall r, In r (dkeys (v_rows wb)) -> In r (dkeys (v_rows wa0))) -> eager_view wb ->
         (forall c' a', c' <> c -> dget c' (s_zv s) = Some vb -> dim_for s c' = Ok a' -> dget c' (v_dims wb) = Some a') ->
         exists s', migrate_dim (set_views s V) c va vb (cp_shared p) = (s', Ok tt) /\ s_grid s' = s_grid s /\
           c_alpha (s_crp s') = c_alpha (s_crp s) /\ (forall v w, dget v (s_views s') = Some w -> eager_view w) /\ class_kept s s').
      { intros V wb V1 V2 NV Ewb O1 O2 O3 O4.
        destruct (incorporate_total (tab (s_X s)) c wa0 a V0 Ea0 He wb (cp_shared p) O1 O2 P6 P7) as [b1 [lp [Ei [Esc [Ib1 Sb1]]]]].
        destruct (migrate_total (set_views s V) c va vb (cp_shared p) wa wb b1 lp (si_crp _ _ H) Eva (V1 va wa Ewa Hne) Enc Ewb Hne Hmb Ei Esc NV)
          as [s' [Em [M1 [M2 [M3 [M4 [M5 [M6 M7]]]]]]]].
        exists s'. split; [exact Em|]. split; [exact M1|]. split; [exact M2|]. split.
        - intros v w Ew. destruct (Z.eq_dec v vb) as [->|Hv].
          + rewrite M5 in Ew. injection Ew as <-. apply eager_set_dims; [exact O3|exact (eager_asim _ _ He Sb1)].
          + apply (M6 v w Hv) in Ew. apply V2 in Ew; [|exact Hv]. destruct (Hold v w Ew) as [? [_ [_ [_ [_ Q]]]]]. exact Q.
        - intros c' a' E. unfold dim_for. destruct (Z.eq_dec c' c) as [->|Hn].
          + rewrite M3, M5. simpl. rewrite dget_dset_same. exists b1. split; [reflexivity|].
            assert (a' = a) by congruence. subst a'. destruct Sb1 as [d1 [-> _]]. reflexivity.
          + rewrite (M4 c' Hn). change (s_zv (set_views s V)) with (s_zv s). destruct (Hdim1 c' a' Hn E) as [v [w [Ez [Ew Ed']]]]. rewrite Ez.
            destruct (Z.eq_dec v vb) as [->|Hv].
            * rewrite M5. simpl. rewrite dget_dset_other by exact Hn. rewrite (O4 c' a' Hn Ez E). eauto.
            * destruct (M7 v w Hv (V1 v w Ew Hv)) as [->|Hg]; [rewrite Ed'; eauto|].
              destruct (Hg c'). rewrite (M4 c' Hn). exact Ez. }
      destruct (zmax_list (dkeys (s_views (set_views s ws)))) as [mx|] eqn:Emx.
      2:{ apply zmax_list_None in Emx. cbn [s_views set_views] in Emx. apply dget_Some_in in Ewa. rewrite Emx in Ewa. destruct Ewa. }
      cbn [s_views set_views] in Emx |- *. rewrite K in Emx. apply zmax_list_spec in Emx. destruct Emx as [Imx Emx].
      assert (Hcases : In vb (dkeys (s_views s)) \/ In vb (dkeys auxs)).
      { rewrite <- (firstn_skipn (length (s_views s)) (cp_tables p)) in Htab. apply in_app_or in Htab.
        rewrite Tf, <- Ka in Htab. destruct Htab as [Ht|Ht]; [left; apply zsort_in; exact Ht|right; exact Ht]. }
      destruct (Z.ltb_spec mx vb) as [Hlt|Hle].
      + destruct Hcases as [Hv|Hv]; [specialize (Emx vb Hv); lia|].
        assert (Hvx : In vb (dkeys (cp_aux p))) by (rewrite Kx; exact Hv).
        apply in_dkeys_Some in Hvx. destruct Hvx as [w Ew]. rewrite Ew.
        specialize (Gx vb). rewrite Ew in Gx. destruct (dget vb auxs) as [w1|] eqn:E1; [|destruct Gx].
        rewrite Forall_forall in Fa. destruct (Fa (vb, w1) (dget_In _ _ _ E1)) as [B1 [_ [_ B4]]]. cbn [fst snd] in B1, B4.
        apply (Go (dset vb w ws) w).
        * intros v w' Ew' Hv'. rewrite dget_dset_other by exact Hv'. exact Ew'.
        * intros v w' Ew' Hv'. rewrite dget_dset_other in Ew' by exact Hv'. exact Ew'.
        * apply NoDup_dset. exact Nws.
        * apply dget_dset_same.
        * destruct Gx as [-> _]. apply B1.
        * intros r Hr. apply R0, B4. unfold v_rows in *. destruct Gx as [<- _]. exact Hr.
        * rewrite Forall_forall in P8. apply (P8 (vb, w)), dget_In. exact Ew.
        * intros c' a' _ Ez _. exfalso. assert (Hu : In vb (dkeys (s_views s))) by (apply (used_views _ _ _ H); eauto).
          specialize (Emx vb Hu). lia.
      + destruct Hcases as [Hv|Hv]; [|rewrite Ka in Hv; specialize (Ts vb Hv mx Imx); lia].
        apply in_dkeys_Some in Hv. destruct Hv as [wb0 Ewb0]. destruct (Hdims vb wb0 Ewb0) as [wb [Ewb Sb]].
        destruct (Hold vb wb Ewb) as [w1 [_ [_ [O1 [O2 O3]]]]].
        apply (Go ws wb); auto.
        intros c' a' Hn Ez E. destruct (Hdim1 c' a' Hn E) as [v [w [Ez' [Ew' Ed']]]]. congruence. }
  destruct Main as [s' [E [M1 [M2 [M3 M4]]]]].
  assert (Hcs : col_safe s c) by (intros a' Ea'; left; assert (a' = a) by congruence; subst a'; apply (eager_coll a He)).
  destruct (transition_dim_ok n d s c m s' H Hcs E) as [H' [HD _]].
  exists s'. split; [exact E|]. split; [|auto].
  split; [rewrite M2; apply A|rewrite M1; apply A|exact M3|].
  destruct (transition_dim_drawn n d s c m s' H E) as [_ [_ [_ [_ [_ [_ [_ [_ [_ [_ [EC [_ Hasc]]]]]]]]]]]].
  destruct HD as [Do _]. destruct (ab_apart _ A) as [Hci|[Has [Hk Ho]]]; [left; congruence|]. right.
  split; [apply Hasc, Has|]. split; [exact (transition_dim_ci n d s c m s' H Has (ab_alpha _ A) Hd Hk E)|].
  intros q x. rewrite EC, Do. apply Ho.
Qed.

Lemma steps_total n m cols : (0 < m)%nat -> forall d s, (forall i, cdraws_ok (d i)) -> sinv n s -> able s -> s_Cd s = [] ->
  (forall c, In c cols -> In c (s_outs s)) ->
  exists s', transition_dims d m s cols = (s', Ok tt) /\ able s' /\ sinv n s' /\ same_data s s' /\ class_kept s s'.
Proof.
  intros Hm. induction cols as [|c cols IH]; intros d s Hd H A HC Hin; simpl.
  - exists s. split; [reflexivity|]. split; [exact A|]. split; [exact H|]. split; [apply same_data_refl|apply class_kept_refl].
  - destruct (step_total n (d (length cols)) s c m H A (Hin c (or_introl eq_refl)) HC Hm (Hd _)) as [s1 [-> [A1 [H1 [D1 K1]]]]].
    pose proof D1 as [Do [Dx [Dc Di]]].
    destruct (IH d s1 Hd H1 A1) as [s2 [-> [A2 [H2 [D2 K2]]]]]; [congruence|intros c' Hc'; rewrite Do; apply Hin; right; exact Hc'|].
    exists s2. split; [reflexivity|]. split; [exact A2|]. split; [exact H2|]. split; [|eapply class_kept_trans; eassumption].
    destruct D2 as [Eo [Ex [Ec Ei]]]. repeat split; congruence.
Qed.

(** ** Any kernel *)

(** What a kernel may be given: random choices, and views, columns, rows and
    hyperparameters that exist.  Columns are reassigned only without dependence
    constraints. *)
Definition kernel_can (s : state) (k : kernel) : Prop :=
  match k with
  | KAlpha _ draw => draw_ok draw
  | KViewAlphas _ draws vs => (forall i j, draw_ok (draws i j)) /\ forall v, In v vs -> In v (dkeys (s_views s))
  | KParams cols => forall c, In c cols -> In c (s_outs s)
  | KHypers cols draws order => (forall c, In c cols -> In c (s_outs s)) /\ (forall i j, draw_ok (draws i j)) /\
      forall i c a, at_pos cols i c -> dim_for s c = Ok a -> forall j, In j (order i) -> (j < m_nhyp (a_M a))%nat
  | KGrids cols grids _ => (forall c, In c cols -> In c (s_outs s)) /\
      forall c a, In c cols -> dim_for s c = Ok a -> good_grids (a_M a) (grids c)
  | KRows draws vs rows => (forall i j, draw_ok (draws i j)) /\ (forall v, In v vs -> In v (dkeys (s_views s))) /\
      forall v r, In v vs -> In r (rows v) -> exists n, n_rows s = Ok n /\ (0 <= r < n)%Z
  | KColumns d m cols => (forall i, cdraws_ok (d i)) /\ (0 < m)%nat /\ s_Cd s = [] /\
      forall c, In c cols -> In c (s_outs s)
  end.

Lemma class_kept_views s ws : dkeys ws = dkeys (s_views s) ->
  (forall v w w', dget v (s_views s) = Some w -> dget v ws = Some w' -> forall c a, dget c (v_dims w) = Some a ->
     exists a', dget c (v_dims w') = Some a' /\ a_M a' = a_M a) -> class_kept s (set_views s ws).
Proof.
  intros K H c a. unfold dim_for. change (s_zv (set_views s ws)) with (s_zv s). cbn [s_views set_views].
  destruct (dget c (s_zv s)) as [v|]; [|discriminate]. destruct (dget v (s_views s)) as [w|] eqn:Ew; [|discriminate].
  destruct (dget c (v_dims w)) as [a0|] eqn:Ea; [|discriminate]. intros E. injection E as ->.
  assert (Hk : In v (dkeys ws)) by (rewrite K; eapply dget_Some_in; exact Ew).
  apply in_dkeys_Some in Hk. destruct Hk as [w' Ew']. rewrite Ew'.
  destruct (H v w w' Ew Ew' c a Ea) as [a' [-> HM]]. eauto.
Qed.

Lemma kernel_total n s k : sinv n s -> able s -> kernel_can s k ->
  exists s', run_kernel s k = (s', Ok tt) /\ able s' /\ sinv n s' /\ same_data s s' /\ class_kept s s'.
Proof.
  intros H A Hk.
  assert (Fin : forall s', rows_kernel k -> run_kernel s k = (s', Ok tt) -> able s' -> class_kept s s' ->
    exists s', run_kernel s k = (s', Ok tt) /\ able s' /\ sinv n s' /\ same_data s s' /\ class_kept s s').
  { intros s' Hr E A' K'. destruct (kernel_ok n s k s' H Hr E) as [H' [D' _]]. exists s'. auto. }
  destruct k as [lgam draw|lgam draws vs|cols|cols draws order|cols grids picks|draws vs rows|d m cols]; cbn [kernel_can] in Hk.
  - destruct (alpha_kept lgam draw (s_grid s) (s_crp s) Hk (ab_grid _ A)) as [c [E Hc]].
    apply (Fin (set_scrp s c)); [exact I|cbn [run_kernel]; rewrite E; reflexivity| |].
    + destruct A as [A1 A2 A3 A4]. destruct (crp_transition_alpha_same _ _ _ _ _ _ E) as [Ez _]. split; simpl; auto.
      destruct A4 as [A4|[B1 [B2 B3]]]; [left; exact A4|right]. split; [exact B1|]. split; [|exact B3].
      intros p Hp. specialize (B2 p Hp). unfold s_zv in *. simpl. rewrite Ez. exact B2.
    + intros c0 a0 E0. exists a0. split; [|reflexivity]. unfold dim_for in *. unfold s_zv in *. simpl in *.
      destruct (crp_transition_alpha_same _ _ _ _ _ _ E) as [Ez _]. rewrite Ez. exact E0.
  - destruct Hk as [Hd Hv].
    destruct (views_loop_total (fun v w => eager_view w /\ forall w0, dget v (s_views s) = Some w0 -> dims_kept w0 w)
       (fun i _ w => view_transition_alpha lgam (draws i) w) vs) with (ws := s_views s) as [ws [E [K S]]].
    + intros i v w _ [Hw Hw0]. destruct (view_alpha_total lgam (draws i) w (Hd i) Hw) as [w' [E' Hw']]. exists w'.
      split; [exact E'|]. split; [exact Hw'|]. intros w0 Ew0. specialize (Hw0 w0 Ew0).
      unfold view_transition_alpha in E'. destruct (crp_transition_alpha lgam (draws i 0%nat) (v_grid w) (v_crp w)) as [c1 [u1|e1]]; [|discriminate].
      destruct (crp_transition_alpha lgam (draws i 1%nat) (v_grid w) c1) as [c2 r2]. injection E' as <- _. exact Hw0.
    + exact Hv.
    + intros v w Ew. split; [apply (ab_view _ A v w Ew)|]. intros w0 Ew0. rewrite Ew in Ew0. injection Ew0 as <-.
      intros c a Ea. eauto.
    + apply (Fin (set_views s ws)); [exact I|cbn [run_kernel]; rewrite E; reflexivity| |].
      * apply able_views; [exact A|exact K|]. intros v w Ew. apply (S v w Ew).
      * apply class_kept_views; [exact K|]. intros v w w' Ew Ew'. apply (proj2 (S v w' Ew') w Ew).
  - destruct (dims_call_total n (fun _ _ => CallParams) cols s H A Hk) as [s' [E [A' K']]]; [intros; exact I|].
    apply (Fin s'); [exact I|exact E|exact A'|exact K'].
  - destruct Hk as [Hin [Hd Ho]].
    destruct (dims_call_total n (fun i _ => CallHypers (draws i) (order i)) cols s H A Hin) as [s' [E [A' K']]].
    { intros i c a Hp Ea. split; [apply Hd|]. intros j. apply (Ho i c a Hp Ea). }
    apply (Fin s'); [exact I|exact E|exact A'|exact K'].
  - destruct Hk as [Hin Hg].
    destruct (dims_call_total n (fun _ c => CallGrids (grids c) (picks c)) cols s H A Hin) as [s' [E [A' K']]].
    { intros i c a Hp Ea. apply (Hg c a); [eapply at_pos_in; exact Hp|exact Ea]. }
    apply (Fin s'); [exact I|exact E|exact A'|exact K'].
  - destruct Hk as [Hd [Hv Hr]].
    destruct (Z.of_nat n =? 1)%Z eqn:E1.
    { apply (Fin s); [exact I| |exact A|apply class_kept_refl]. cbn [run_kernel]. rewrite (sinv_n_rows n s H), E1. reflexivity. }
    destruct (views_loop_total (fun v w => vinv (tab (s_X s)) w /\ (forall r, In r (dkeys (v_rows w)) <-> (0 <= r < Z.of_nat n)%Z) /\
         eager_view w /\ forall w0, dget v (s_views s) = Some w0 -> dims_kept w0 w)
       (fun i v w => transition_rows (tab (s_X s)) (draws i) w (rows v)) vs) with (ws := s_views s) as [ws [E [K S]]].
    + intros i v w Hiv [Vw [Rw [Ew Kw]]].
      destruct (rows_total (tab (s_X s)) (draws i) w (rows v) (Hd i) Vw Ew) as [w' [E' [V' [Ew' [R' K']]]]].
      { intros r Hrr. apply Rw. destruct (Hr v r Hiv Hrr) as [n' [En' B]]. rewrite (sinv_n_rows n s H) in En'. injection En' as <-. exact B. }
      exists w'. split; [exact E'|]. split; [exact V'|]. split; [intros r; rewrite R'; apply Rw|]. split; [exact Ew'|].
      intros w0 Ew0 c a Ea. destruct (Kw w0 Ew0 c a Ea) as [a1 [Ea1 M1]]. destruct (K' c a1 Ea1) as [a2 [Ea2 M2]]. exists a2. split; congruence.
    + exact Hv.
    + intros v w Ew. destruct (si_view _ _ H v w Ew) as [Vw [_ [_ Rw]]]. split; [exact Vw|]. split; [exact Rw|].
      split; [apply (ab_view _ A v w Ew)|]. intros w0 Ew0. rewrite Ew in Ew0. injection Ew0 as <-. intros c a Ea. eauto.
    + apply (Fin (set_views s ws)); [exact I|cbn [run_kernel]; rewrite (sinv_n_rows n s H), E1, E; reflexivity| |].
      * apply able_views; [exact A|exact K|]. intros v w Ew. apply (S v w Ew).
      * apply class_kept_views; [exact K|]. intros v w w' Ew Ew'. destruct (S v w' Ew') as [_ [_ [_ Q]]]. apply (Q w Ew).
  - destruct Hk as [Hd [Hm [HC Hin]]]. cbn [run_kernel]. apply steps_total; assumption.
Qed.
