(** Facts about operations with valid arguments: they return. *)
From Verif Require Import LogSpaceFacts P06_Dim P07_View P09_State RelevanceState.
From Verif Require Export ProgressHistory.
From Coq Require Import Lia.
Local Open Scope R_scope.

(** The column [c] of the state takes the cell. *)
Definition column_takes (s : state) (c : Z) (x : cell) : Prop :=
  exists a, dim_for s c = Ok a /\ accepted a x.

Lemma loop_once_total f vs : NoDup vs -> forall ws,
  (forall v, In v vs -> exists w, dget v ws = Some w /\ forall i, exists w', f i v w = (w', Ok tt)) ->
  exists ws', views_loop f vs ws = (ws', Ok tt).
Proof.
  induction vs as [|v vs IH]; intros Hn ws H; simpl; [eauto|]. apply NoDup_cons_iff in Hn. destruct Hn as [Hv Hn].
  destruct (H v (or_introl eq_refl)) as [w [Ew Hf]]. rewrite Ew. destruct (Hf (length vs)) as [w' ->].
  apply IH; [exact Hn|]. intros v' Hv'. destruct (H v' (or_intror Hv')) as [w0 [E0 F0]]. exists w0. split; [|exact F0].
  rewrite dget_dset. destruct (Z.eqb_spec v' v) as [->|]; [contradiction|exact E0].
Qed.

Lemma able_no_inputs n s : sinv n s -> able s -> forall v w c a, dget v (s_views s) = Some w -> dget c (v_dims w) = Some a ->
  d_ins (a_d a) = [].
Proof. intros H A v w c a Ew Ea. apply (proj1 (proj2 (proj1 (proj2 (proj2 (ab_view _ A v w Ew)) c a Ea)))). Qed.

Lemma dim_of n s v w c a : sinv n s -> dget v (s_views s) = Some w -> dget c (v_dims w) = Some a -> dim_for s c = Ok a /\ In c (s_outs s).
Proof.
  intros H Ew Ea. destruct (si_view _ _ H v w Ew) as [_ [_ [D _]]].
  assert (Ez : dget c (s_zv s) = Some v) by (apply D; eapply dget_Some_in; exact Ea). split.
  - unfold dim_for. rewrite Ez, Ew, Ea. reflexivity.
  - apply (si_zv _ _ H). eapply dget_Some_in; exact Ez.
Qed.

(* ------------------------------------------------------------------ *)
(** ** Rows *)

Lemma table_row_total X w r : (forall c, In c (dkeys (v_dims w)) -> exists x, X c r = Ok x) ->
  exists q, table_row X w r = Ok q.
Proof.
  unfold table_row. induction (v_dims w) as [|[c a] ds IH]; intros H; simpl; [eauto|].
  destruct (H c (or_introl eq_refl)) as [x ->]. destruct IH as [q ->]; [intros c' Hc'; apply H; right; exact Hc'|]. simpl. eauto.
Qed.

Lemma insert_total X w r k obs : vinv X w -> eager_view w -> ~ In r (dkeys (v_rows w)) ->
  (forall c a, dget c (v_dims w) = Some a -> exists x, dget c obs = Some x /\ accepted a x) ->
  exists w', view_insert X w r k obs = (w', Ok tt).
Proof.
  intros Hv He Hr Ho. apply dget_None_notin in Hr. unfold view_insert, crp_incorporate, v_rows in *. unfold dmem. rewrite Hr.
  destruct (dims_fresh X r k obs (v_dims w)) as [ds' ->]; [|eauto].
  apply Forall_forall. intros [c a] Hin. simpl. destruct Hv as [_ [Nd Hdd]].
  apply (dget_In_NoDup _ _ _ Nd) in Hin. destruct (Hdd c a Hin) as [Hai [_ Hco]]. split; [exact Hai|].
  specialize (Hco r). unfold v_rows in Hco. rewrite Hr in Hco. split; [exact Hco|].
  destruct He as [_ [_ W]]. split; [apply (proj1 (proj2 (proj1 (W c a Hin))))|]. apply Ho. exact Hin.
Qed.

Lemma inc_total n draws s (obs : dict cell) clus : sinv n s -> able s -> (forall i j, draw_ok (draws i j)) ->
  (forall c, In c (dkeys obs) -> In c (s_outs s)) -> (forall x, In x (dvals obs) -> x <> None) ->
  (forall c x, dget c obs = Some x -> column_takes s c x) ->
  exists s', state_incorporate draws s (Z.of_nat n) obs clus = (s', Ok tt).
Proof.
  intros H A Hd Hk Hx Ht. unfold state_incorporate. rewrite (sinv_n_rows _ _ H), Z.eqb_refl. cbn [negb].
  assert (E1 : forallb (fun c => zmem c (s_outs s)) (dkeys obs) = true).
  { apply forallb_forall. intros c Hc. apply zmem_in, Hk, Hc. }
  rewrite E1. cbn [negb].
  assert (E2 : existsb (fun x : cell => match x with None => true | _ => false end) (dvals obs) = false).
  { apply not_true_is_false. intros E. apply existsb_exists in E. destruct E as [x [Hi E]]. apply (Hx x Hi).
    destruct x; [discriminate|reflexivity]. }
  rewrite E2. clear E1 E2.
  destruct (append_row (s_outs s) obs (s_X s)) as [X r] eqn:Ea.
  destruct (append_row_spec _ _ _ _ _ (si_nodup _ _ H) Ea) as [-> [KX SX]].
  { intros c Hc. apply (si_X _ _ H). exact Hc. }
  destruct (tab_append n _ obs _ X (si_X _ _ H) (si_len _ _ H) SX) as [T1 T2].
  assert (En1 : n_rows (set_X s X) = Ok (Z.of_nat (S n))).
  { unfold n_rows. simpl. pose proof (si_ne _ _ H). destruct (s_outs s) as [|c o] eqn:E; [contradiction|].
    rewrite SX. replace (zmem c (c :: o)) with true by (symmetry; apply zmem_in; left; reflexivity).
    assert (Hc : In c (dkeys (s_X s))) by (apply (si_X _ _ H); rewrite E; left; reflexivity).
    apply in_dkeys_Some in Hc. destruct Hc as [l Hl]. rewrite Hl. simpl.
    rewrite app_length, (si_len _ _ H c l Hl). simpl. do 2 f_equal. lia. }
  rewrite En1. unfold hypothetical.
  replace (0 <=? Z.of_nat n)%Z with true by (symmetry; apply Z.leb_le; lia).
  replace (Z.of_nat n <? Z.of_nat (S n))%Z with true by (symmetry; apply Z.ltb_lt; lia).
  cbn [andb negb].
  match goal with |- context [views_loop ?ff _ _] => destruct (loop_once_total ff (dkeys (s_views s)) (si_nv _ _ H) (s_views s)) as [ws E] end.
  2:{ rewrite E. eexists. reflexivity. }
  intros v Hv. apply in_dkeys_Some in Hv. destruct Hv as [w Hw]. exists w. split; [exact Hw|]. intros i.
  destruct (si_view _ _ H v w Hw) as [V [O [D Rr]]]. pose proof (ab_view _ A v w Hw) as He.
  assert (Hcol : forall c a, dget c (v_dims w) = Some a -> tab X c (Z.of_nat n) = Ok (row_cell obs c) /\ accepted a (row_cell obs c)).
  { intros c a Hca. destruct (dim_of _ _ _ _ _ _ H Hw Hca) as [Ed Hc]. split; [apply T2; exact Hc|].
    unfold row_cell. destruct (dget c obs) as [x|] eqn:Ex; [|exact I]. destruct (Ht c x Ex) as [a' [E' Hx']]. congruence. }
  destruct (table_row_total (tab X) w (Z.of_nat n)) as [q Eq].
  { intros c Hc. apply in_dkeys_Some in Hc. destruct Hc as [a Hc]. exists (row_cell obs c). apply (Hcol c a Hc). }
  rewrite Eq.
  assert (Hnr : ~ In (Z.of_nat n) (dkeys (v_rows w))) by (rewrite Rr; lia).
  assert (V1 : vinv (tab X) w).
  { apply (vinv_table_ins (tab (s_X s))); [exact V|]. intros c a r j Hca Hr Hj. apply Rr in Hr. apply T1. exact Hr. }
  assert (Hq : forall c a, dget c (v_dims w) = Some a -> exists x, dget c q = Some x /\ tab X c (Z.of_nat n) = Ok x /\ accepted a x).
  { intros c a Hca. destruct (Hcol c a Hca) as [E1 E2]. exists (row_cell obs c). split; [|split; assumption].
    destruct (table_row_spec _ _ _ _ Eq c a) as [x [E3 E4]]; [exact Hca|]. congruence. }
  assert (Hs : all_solid w) by (apply eager_all_solid; [apply He|apply V1]).
  destruct (dget (v_out w) clus) as [k|] eqn:Ek.
  - unfold view_incorporate. destruct (insert_total (tab X) w (Z.of_nat n) k q V1 He Hnr) as [w' ->]; [|eauto].
    intros c a Hca. destruct (Hq c a Hca) as [x [E1 [_ E2]]]. eauto.
  - apply (RelevanceState.incorporate_total (tab X) (draws i) w w (Z.of_nat n) q (Hd i) Hs (proj1 He) (cfg_refl _ w V1 Hs) Hnr Hq).
Qed.

Lemma uninc_total n s m : sinv n s -> n = S (S m) ->
  exists s', state_unincorporate s (Z.of_nat (S m)) = (s', Ok tt).
Proof.
  intros H ->. unfold state_unincorporate. rewrite (sinv_n_rows _ _ H).
  replace (Z.of_nat (S m) =? Z.of_nat (S (S m)) - 1)%Z with true by (symmetry; apply Z.eqb_eq; lia). cbn [negb].
  replace (Z.of_nat (S (S m)) =? 1)%Z with false by (symmetry; apply Z.eqb_neq; lia).
  destruct (pop_row (s_outs s) (s_X s)) as [X r] eqn:Ea.
  destruct (pop_row_spec _ _ _ _ (si_nodup _ _ H) Ea) as [-> _].
  { intros c Hc. apply (si_X _ _ H) in Hc. apply in_dkeys_Some in Hc. destruct Hc as [l Hl]. exists l. split; [exact Hl|].
    intros ->. pose proof (si_len _ _ H c [] Hl). discriminate. }
  match goal with |- context [views_loop ?ff _ _] => destruct (loop_once_total ff (dkeys (s_views s)) (si_nv _ _ H) (s_views s)) as [ws E] end.
  2:{ rewrite E. eexists. reflexivity. }
  intros v Hv. apply in_dkeys_Some in Hv. destruct Hv as [w Hw]. exists w. split; [exact Hw|]. intros i.
  destruct (si_view _ _ H v w Hw) as [V [O [D Rr]]].
  assert (Hr : In (Z.of_nat (S m)) (dkeys (v_rows w))) by (apply Rr; lia). apply in_dkeys_Some in Hr. destruct Hr as [k Hr].
  destruct (view_uninc_ok _ _ _ _ V Hr) as [w' [E _]]. eauto.
Qed.

Lemma force_cells_total X r k obs : NoDup (dkeys obs) -> forall ds,
  (forall c x, dget c obs = Some x -> exists a kv, dget c ds = Some a /\ ainv a /\ acontent a r = Some kv /\
     d_ins (a_d a) = [] /\ accepted a x) ->
  exists ds', force_cells X r k obs ds = (ds', Ok tt).
Proof.
  induction obs as [|[c x] obs IH]; intros Hn ds H; simpl; [eauto|]. cbn [dkeys map fst] in Hn. apply NoDup_cons_iff in Hn.
  destruct Hn as [Hc Hn]. destruct (H c x) as [a [kv [Ea [Ia [Ec [Hins Hx]]]]]]; [simpl; rewrite Z.eqb_refl; reflexivity|].
  rewrite Ea. destruct (a_uninc_ok a r kv Ia Ec) as [a1 [E1 [[d1 [-> Hd1]] [I1 [C1 _]]]]]. rewrite E1.
  assert (Hi : input_values X r (ADim (a_M a) d1) = Ok []).
  { unfold input_values. cbn [a_M a_d]. rewrite Hd1, Hins. reflexivity. }
  rewrite Hi.
  destruct (a_inc_fresh (ADim (a_M a) d1) r k x I1) as [a2 ->]; [rewrite C1, Z.eqb_refl; reflexivity|exact Hx|].
  apply IH; [exact Hn|]. intros c' x' E'. destruct (Z.eqb_spec c' c) as [->|Hne].
  - exfalso. apply Hc. eapply dget_Some_in; exact E'.
  - destruct (H c' x') as [b [kv' [Eb Hb]]]; [simpl; apply Z.eqb_neq in Hne; rewrite Hne; exact E'|].
    exists b, kv'. split; [|exact Hb]. rewrite dget_dset. apply Z.eqb_neq in Hne. rewrite Hne. exact Eb.
Qed.

Lemma group_list_total Zd L : (forall c, In c L -> In c (dkeys Zd)) -> forall q, exists out, group_list Zd L q = Ok out.
Proof.
  induction L as [|c L IH]; intros H q; simpl; [eauto|]. destruct (in_dkeys_Some c Zd (H c (or_introl eq_refl))) as [k ->].
  apply IH. intros c' Hc'. apply H. right. exact Hc'.
Qed.

Lemma column_takes_in n s c x : sinv n s -> column_takes s c x -> In c (s_outs s).
Proof.
  intros H [a [E _]]. destruct (dim_for_spec _ _ _ _ H E) as [v [w [Ez _]]]. apply (si_zv _ _ H). eapply dget_Some_in; exact Ez.
Qed.

Lemma force_total n s r (obs : dict cell) : sinv n s -> able s -> NoDup (dkeys obs) -> (0 <= r < Z.of_nat n)%Z ->
  (forall c x, dget c obs = Some x -> tab (s_X s) c r = Ok None /\ column_takes s c x) ->
  exists s', state_force_cell s r obs = (s', Ok tt).
Proof.
  intros H A Hn Hr Ho. unfold state_force_cell. rewrite (sinv_n_rows _ _ H). unfold hypothetical.
  replace (0 <=? r)%Z with true by (symmetry; apply Z.leb_le; lia).
  replace (r <? Z.of_nat n)%Z with true by (symmetry; apply Z.ltb_lt; lia). cbn [andb negb].
  assert (En : all_nan (tab (s_X s)) r (dkeys obs) = Ok true).
  { assert (G : forall l, (forall c, In c l -> tab (s_X s) c r = Ok None) -> all_nan (tab (s_X s)) r l = Ok true).
    { induction l as [|c l IH]; intros G; simpl; [reflexivity|]. rewrite (G c (or_introl eq_refl)). cbn [rbind].
      apply IH. intros c' Hc'. apply G. right. exact Hc'. }
    apply G. intros c Hc. apply in_dkeys_Some in Hc. destruct Hc as [x Hc]. apply (Ho c x Hc). }
  rewrite En.
  destruct (group_list_total (s_zv s) (dkeys obs)) with (q := @nil (Z * list Z)) as [q Eq].
  { intros c Hc. apply in_dkeys_Some in Hc. destruct Hc as [x Hc]. apply (si_zv _ _ H).
    eapply column_takes_in; [exact H|apply (Ho c x Hc)]. }
  fold (partition_list (s_zv s) (dkeys obs)) in Eq. rewrite Eq. destruct (partition_list_spec _ _ _ Eq) as [Qn [_ Qs]].
  match goal with |- context [views_loop ?ff _ _] => destruct (loop_once_total ff (dkeys q) Qn (s_views s)) as [ws E] end.
  2:{ rewrite E. eexists. reflexivity. }
  intros v Hv. pose proof Hv as Hq. apply in_dkeys_Some in Hq. destruct Hq as [l El]. rewrite El. rewrite Qs in El.
  assert (Hl : forall c, In c l -> In c (dkeys obs) /\ dget c (s_zv s) = Some v).
  { intros c Hc. destruct (filter (in_block (s_zv s) v) (dkeys obs)) as [|y t] eqn:Ef; [discriminate|]. injection El as <-.
    rewrite <- Ef in Hc. apply filter_In in Hc. rewrite in_block_true in Hc. exact Hc. }
  assert (Hw : exists w, dget v (s_views s) = Some w).
  { destruct l as [|c l]; [destruct (filter (in_block (s_zv s) v) (dkeys obs)); discriminate|].
    apply in_dkeys_Some. apply (used_views _ _ _ H). exists c. apply (Hl c). left. reflexivity. }
  destruct Hw as [w Hw]. exists w. split; [exact Hw|]. intros _. destruct (si_view _ _ H v w Hw) as [V [O [D Rr]]].
  unfold view_force_cell. assert (Hi : In r (dkeys (v_rows w))) by (apply Rr; exact Hr). apply in_dkeys_Some in Hi.
  destruct Hi as [k Ek]. rewrite Ek.
  match goal with |- context [force_cells ?X _ _ ?o _] => destruct (force_cells_total X r k o (sub_obs_nodup _ _) (v_dims w)) as [ds ->] end;
    [|eexists; reflexivity].
  intros c x. rewrite dget_sub_obs. destruct (zmem c l) eqn:Ez; [|discriminate]. apply zmem_in in Ez. intros Ex.
  destruct (Ho c x Ex) as [_ [a [Ea Hx]]]. destruct (dim_for_spec _ _ _ _ H Ea) as [v' [w' [Ez' [Ew' [Eca _]]]]].
  assert (v' = v) by (pose proof (proj2 (Hl c Ez)); congruence). subst v'. assert (w' = w) by congruence. subst w'.
  destruct (proj2 (proj2 V) c a Eca) as [Ia [_ Hc]]. specialize (Hc r). rewrite Ek in Hc. destruct Hc as [e [_ Hc]].
  exists a, (k, e). split; [exact Eca|]. split; [exact Ia|]. split; [exact Hc|]. split; [|exact Hx].
  eapply able_no_inputs; eassumption.
Qed.

(* ------------------------------------------------------------------ *)
(** ** Columns *)

(** The numbers that pick the initial hyperparameters are positions in the grids. *)
Definition picks_in (gs : list (list R)) (picks : nat -> nat) : Prop :=
  forall i g, nth_error gs i = Some g -> (picks i < length g)%nat.

Lemma picks_total gs picks : picks_in gs picks ->
  exists ps, rsequence (map (fun i => match nth_error gs i with
              | Some g => match nth_error g (picks i) with Some v => Ok (i, v) | None => Err ValueError end
              | None => Err KeyError end) (seq 0 (length gs))) = Ok ps.
Proof.
  intros Hp. assert (G : forall l, (forall i, In i l -> (i < length gs)%nat) ->
    exists ps, rsequence (map (fun i => match nth_error gs i with
              | Some g => match nth_error g (picks i) with Some v => Ok (i, v) | None => Err ValueError end
              | None => Err KeyError end) l) = Ok ps).
  { induction l as [|i l IH]; intros Hl; simpl; [eauto|]. destruct (nth_error gs i) as [g|] eqn:Eg.
    - destruct (nth_error g (picks i)) as [x|] eqn:Ex; [|apply nth_error_None in Ex; specialize (Hp i g Eg); lia].
      destruct IH as [ps ->]; [intros j Hj; apply Hl; right; exact Hj|]. simpl. eauto.
    - apply nth_error_None in Eg. specialize (Hl i (or_introl eq_refl)). lia. }
  apply G. intros i Hi. apply in_seq in Hi. lia.
Qed.

Lemma grids_total a gs picks : picks_in gs picks -> exists a', a_call a (CallGrids gs picks) = (a', Ok tt).
Proof.
  intros Hp. cbn [a_call]. unfold dim_transition_grids. destruct (d_set (a_d a)); [eexists; reflexivity|].
  destruct (picks_total gs picks Hp) as [ps ->]. eexists. reflexivity.
Qed.

Lemma bulk_fresh X w c b : crp_inv (v_crp w) -> ainv b -> d_ins (a_d b) = [] ->
  (forall r, In r (dkeys (v_rows w)) -> exists x, X c r = Ok x /\ accepted b x) ->
  exists b', bulk_incorporate X w c b = (b', Ok tt).
Proof.
  intros Hc Hb Hins Hx. destruct (a_reset_ok b Hb) as [R1 [R2 [R3 _]]].
  assert (Hn : NoDup (dkeys (v_rows w))) by apply Hc.
  assert (G : forall rows a, ainv a -> akin b a -> NoDup (dkeys rows) ->
    (forall r, In r (dkeys rows) -> In r (dkeys (v_rows w)) /\ acontent a r = None) -> exists b', bulk_rows X c rows a = (b', Ok tt)).
  { induction rows as [|[r k] rows IH]; intros a Ia Ka Nr Hr; cbn [bulk_rows]; [eauto|].
    cbn [dkeys map fst] in Nr, Hr. apply NoDup_cons_iff in Nr. destruct Nr as [Hnr Nr].
    destruct (Hr r (or_introl eq_refl)) as [Hin Hno]. destruct (Hx r Hin) as [x [-> Hacc]].
    pose proof Ka as [d1 [Ea Hd1]].
    assert (Hi : input_values X r a = Ok []) by (unfold input_values; rewrite Ea; cbn [a_M a_d]; rewrite Hd1, Hins; reflexivity).
    rewrite Hi. destruct (a_inc_fresh a r k x Ia Hno) as [a1 E1]; [rewrite Ea; exact Hacc|]. rewrite E1.
    destruct (a_inc_ok _ _ _ _ _ _ Ia E1) as [K1 [I1 [_ [C1 _]]]]. apply IH; [exact I1| |exact Nr|].
    - eapply akin_trans; eassumption.
    - intros r' Hr'. split; [apply Hr; right; exact Hr'|].
      rewrite C1. destruct (Z.eqb_spec r' r) as [->|Hne]; [contradiction|]. apply Hr. right. exact Hr'. }
  destruct (G (v_rows w) (a_reset b) R2 R1 Hn) as [b1 E1]; [intros r Hr; split; [exact Hr|apply R3]|].
  unfold bulk_incorporate. rewrite E1. destruct (bulk_rows_spec _ _ _ _ _ R2 Hn E1) as [_ [I1 [C1 _]]].
  rewrite zdict_rows; [eexists; reflexivity|exact I1|exact Hn|]. intros r. specialize (C1 r).
  destruct (dget r (v_rows w)); [|rewrite C1; apply R3]. destruct C1 as [_ [e [_ C1]]]. eauto.
Qed.

(** The column is made and joins the view. *)
Lemma join_total X n w col k T : eager_view w -> vinv (tab X) w ->
  (forall r, In r (dkeys (v_rows w)) <-> (0 <= r < Z.of_nat n)%Z) ->
  dget col X = Some T -> length T = n -> spec_ok k -> picks_in (cs_grids k) (cs_picks k) ->
  (forall x, In x T -> accepted (cs_col k) x) ->
  exists a w1 a1 lp, col_make k = (a, Ok tt) /\ view_incorporate_dim (tab X) w col a true = (w1, a1, Ok tt) /\
    a_score a1 = Ok (Fin lp) /\ eager_view w1 /\ eager a1 /\ dget col (v_dims w1) = Some a1.
Proof.
  intros Hw V Hr ET HT Hk Hp Hx. destruct (grids_total (cs_col k) (cs_grids k) (cs_picks k) Hp) as [a Ea].
  fold (col_make k) in Ea. destruct (make_eager _ _ Hk Ea) as [He Ia].
  destruct (col_make_ok _ _ (fresh_ainv _ (blank_fresh _ (proj1 Hk))) Ea) as [_ [d2 [Eq _]]].
  destruct (bulk_fresh (tab X) w col a (proj1 V) Ia) as [a1 E1].
  { apply He. }
  { intros r Hin. apply Hr in Hin. destruct (py_nth_lt T r) as [x Ex]; [lia|]. exists x. unfold tab. rewrite ET. split; [exact Ex|].
    rewrite Eq. cbn [accepted a_M]. apply (Hx x). rewrite py_nth_nonneg in Ex by lia.
    destruct (nth_error T (Z.to_nat r)) eqn:En; [|discriminate]. injection Ex as <-. eapply nth_error_In; exact En. }
  assert (Ei : view_incorporate_dim (tab X) w col a true = (set_dims w (dset col a1 (v_dims w)), a1, Ok tt)).
  { unfold view_incorporate_dim. rewrite E1. reflexivity. }
  destruct (inc_dim_eager _ _ _ _ _ _ Hw Ia He Ei) as [Hw1 He1].
  assert (I1 : ainv a1) by (destruct (bulk_ok _ _ _ _ _ (proj1 V) Ia E1) as [_ I1]; apply I1).
  destruct (a_score_total a1 I1) as [lp Es]; [apply He1|].
  exists a, (set_dims w (dset col a1 (v_dims w))), a1, lp. split; [exact Ea|]. split; [exact Ei|]. split; [exact Es|].
  split; [exact Hw1|]. split; [exact He1|]. cbn [v_dims set_dims]. apply dget_dset_same.
Qed.

Lemma add_col_total n s T col k v seed d hd ho : sinv n s -> able s -> careful s (OAdd T col k v seed d hd ho) ->
  length T = n -> ~ In col (s_outs s) -> picks_in (cs_grids k) (cs_picks k) ->
  (forall x, In x T -> accepted (cs_col k) x) -> (v = None -> s_Cd s = []) ->
  exists s', state_incorporate_dim s T col k v seed d hd ho = (s', Ok tt).
Proof.
  intros H A [Hk [Hs [Hd [Hhd [Hho Hci]]]]] HT Ez Hp Hx HC. unfold state_incorporate_dim. rewrite (sinv_n_rows _ _ H), HT, Z.eqb_refl.
  cbn [negb]. destruct (zmem col (s_outs s)) eqn:Em; [apply zmem_in in Em; contradiction|]. clear Em.
  set (X := dset col T (s_X s)). set (va := match v with Some v => v | None => 0%Z end) in *.
  cbn [s_views set_outs set_X set_views].
  assert (HnX : ~ In col (dkeys (s_X s))) by (rewrite (si_X _ _ H); exact Ez).
  assert (HlenX : forall c l, dget c X = Some l -> length l = n).
  { intros c l. unfold X. rewrite dget_dset. destruct (c =? col)%Z; [intros E; injection E as <-; exact HT|].
    apply (si_len _ _ H). }
  assert (Hw : exists w, match dget va (s_views s) with Some w => Ok w | None => view_make X (crp_id_view + va) seed None end = Ok w /\
     vinv (tab X) w /\ v_out w = (crp_id_view + va)%Z /\
     (forall c, In c (dkeys (v_dims w)) <-> dget c (s_zv s) = Some va) /\
     (forall r, In r (dkeys (v_rows w)) <-> (0 <= r < Z.of_nat n)%Z) /\ eager_view w).
  { destruct (dget va (s_views s)) as [w|] eqn:E0.
    - exists w. split; [reflexivity|]. destruct (si_view _ _ H va w E0) as [V0 [O0 [D0 R0]]].
      split; [apply vinv_add_column; assumption|]. split; [exact O0|]. split; [exact D0|]. split; [exact R0|].
      apply (ab_view _ A va w E0).
    - destruct (make_total X (crp_id_view + va) seed) as [w [Ew He]]; [|exact Hs|].
      { unfold X. destruct (s_X s) as [|[c0 l0] X0]; simpl; [discriminate|]. destruct (col =? c0)%Z; discriminate. }
      exists w. split; [exact Ew|]. destruct (view_make_ok X (tab X) n _ _ None w HlenX I Ew) as [B1 [B2 [B3 B4]]].
      split; [exact B1|]. split; [exact B2|]. split; [|split; [exact B4|exact He]].
      intros c. rewrite B3. split; [intros []|]. intros E. apply dget_None_notin in E0. exfalso. apply E0. apply (used_views _ _ _ H). eauto. }
  destruct Hw as [w [Ew [Vw [Ow [Dw [Rw Hew]]]]]]. rewrite Ew.
  destruct (join_total X n w col k T Hew Vw Rw) as [a [w1 [a1 [lp [Ec [Ei [Es [Hew1 [Hea1 Ed1]]]]]]]]];
    [apply dget_dset_same|exact HT|exact Hk|exact Hp|exact Hx|].
  rewrite Ec, Ei. cbn [rbind]. rewrite Es. destruct (make_eager _ _ Hk Ec) as [Hea Ia].
  destruct (incorporate_dim_ok (tab X) w col a true w1 a1 Vw Ia Ei) as [V1 [K1 [C1 [R1 [P1 D1]]]]].
  destruct (incorporate_dim_out _ _ _ _ _ _ _ _ Ei) as [O1 _].
  cbn [s_crp set_views set_outs set_X].
  assert (Ek : exists k1, crp_incorporate (s_crp s) col va = (k1, Ok tt)).
  { unfold crp_incorporate. destruct (dmem col (c_data (s_crp s))) eqn:Em; [|eexists; reflexivity].
    exfalso. apply Ez. apply (si_zv _ _ H). unfold dmem in Em. destruct (dget col (c_data (s_crp s))) eqn:E; [|discriminate].
    eapply dget_Some_in; exact E. }
  destruct Ek as [k1 Ek]. rewrite Ek.
  pose proof (joined_sinv n s T col va w w1 a1 k1 H HT Ez Ow Dw Rw V1 O1 D1 P1 Ek) as S4.
  destruct (zv_seat _ _ _ _ _ H Ez Ek) as [I1 Z1].
  destruct (crp_inc_spec _ _ _ _ (si_crp _ _ H) Ek) as [_ [_ [_ [_ Al]]]].
  match type of S4 with sinv n ?t => set (s4 := t) in * end.
  match goal with |- context [transition_dims _ _ ?t _] => change t with s4 end.
  assert (A4 : able s4).
  { split; cbn [s_crp s_grid s_views s4].
    - rewrite Al. apply A.
    - apply A.
    - intros v0 w0. rewrite !dget_dset. destruct (v0 =? va)%Z; [intros E; injection E as <-; exact Hew1|apply (ab_view _ A)].
    - destruct (ab_apart _ A) as [D|[D1' [D2 D3]]]; [left; exact D|]. destruct Hci as [D|Hin]; [left; exact D|]. right.
      split; [|split].
      + cbn [s_views s4]. rewrite !dkeys_dset_in; [exact D1'|exact Hin|rewrite dkeys_dset_in; exact Hin].
      + intros p x y v0 Hq Hx' Hy Hne. change (s_zv s4) with (c_data k1). rewrite !Z1.
        pose proof (D3 p x Hq Hx'). pose proof (D3 p y Hq Hy).
        destruct (Z.eqb_spec x col) as [->|]; [contradiction|]. destruct (Z.eqb_spec y col) as [->|]; [contradiction|].
        apply (D2 p x y v0 Hq Hx' Hy Hne).
      + intros p c Hq Hc. change (In c (s_outs s ++ [col])). apply in_or_app. left. exact (D3 p c Hq Hc). }
  assert (Hdf : dim_for s4 col = Ok a1).
  { unfold dim_for. change (s_zv s4) with (c_data k1). rewrite Z1, Z.eqb_refl. cbn [s_views s4]. rewrite dget_dset_same, Ed1. reflexivity. }
  assert (Ho4 : In col (s_outs s4)) by (apply in_or_app; right; left; reflexivity).
  assert (S5 : exists s5, match v with None => transition_dims (fun _ => d) 1 s4 [col] | Some _ => (s4, Ok tt) end = (s5, Ok tt) /\
    sinv n s5 /\ able s5 /\ s_outs s5 = s_outs s4 /\ class_kept s4 s5).
  { destruct v as [v0|]; [exists s4; split; [reflexivity|]; split; [exact S4|]; split; [exact A4|]; split; [reflexivity|apply class_kept_refl]|].
    destruct (steps_total n 1 [col] (Nat.lt_0_succ 0) (fun _ => d) s4 (fun _ => Hd) S4 A4 (HC eq_refl)) as [s6 [E7 [A6 [S6 [[Do _] Ck]]]]].
    { intros c [<-|[]]. exact Ho4. }
    exists s6. auto. }
  destruct S5 as [s5 [E5 [S5 [A5 [O5 Ck]]]]].
  match goal with |- context [let '(_, _) := ?t in _] => change t with
    (match v with None => transition_dims (fun _ => d) 1 s4 [col] | Some _ => (s4, Ok tt) end) end.
  rewrite E5.
  destruct (dim_call_total n s5 col (CallHypers hd ho) S5 A5) as [s7 [E7 _]].
  { rewrite O5. exact Ho4. }
  { intros b Eb. destruct (Ck col a1 Hdf) as [b' [Eb' Hb']]. rewrite Eb in Eb'. injection Eb' as <-.
    split; [exact Hhd|]. rewrite Hb'. destruct K1 as [d1 [-> _]]. cbn [a_M].
    destruct (col_make_ok _ _ (fresh_ainv _ (blank_fresh _ (proj1 Hk))) Ec) as [_ [d2 [-> _]]]. exact Hho. }
  eauto.
Qed.

Lemma remove_total n s col : sinv n s -> In col (s_outs s) -> length (s_outs s) <> 1%nat ->
  exists s', state_unincorporate_dim s col = (s', Ok tt).
Proof.
  intros H Hc Hl. unfold state_unincorporate_dim. apply Nat.eqb_neq in Hl. rewrite Hl.
  replace (zmem col (s_outs s)) with true by (symmetry; apply zmem_in; exact Hc). cbn [negb].
  destruct (dim_for_ex n s col H Hc) as [v [w [a [Ev [Ew [Ea _]]]]]]. rewrite Ev, Ew.
  assert (Hv : In v (dkeys (c_counts (s_crp s)))) by (apply (si_views _ _ H); eapply dget_Some_in; exact Ew).
  apply in_dkeys_Some in Hv. destruct Hv as [nv Env]. rewrite Env.
  unfold view_unincorporate_dim. unfold dmem at 1. rewrite Ea. cbn [s_crp set_views].
  destruct (crp_uninc_spec _ _ _ (si_crp _ _ H) Ev) as [k [Ek [_ [Ki [_ Kr]]]]]. rewrite Ek.
  assert (Hone : (nv =? 1)%Z && dmem v (c_counts k) = false).
  { destruct (nv =? 1)%Z eqn:E1; [|reflexivity]. cbn [andb]. pose proof (proj1 (only_member _ _ _ _ (si_crp _ _ H) Ev Env) E1) as Honly.
    unfold dmem. destruct (dget v (c_counts k)) as [m|] eqn:Em; [|reflexivity]. exfalso.
    destruct (crp_uninc_spec _ _ _ (si_crp _ _ H) Ev) as [k' [Ek' [I' _]]]. rewrite Ek in Ek'. injection Ek' as <-.
    destruct (crp_counts_rows k v I') as [c Hc']; [eapply dget_Some_in; exact Em|].
    rewrite Ki, dget_ddel in Hc' by apply (si_crp _ _ H). destruct (c =? col)%Z eqn:Ecc; [discriminate|]. apply Z.eqb_neq in Ecc. apply Ecc, Honly, Hc'. }
  rewrite Hone.
  match goal with |- context [dmem col (s_X ?t)] => assert (EX : s_X t = s_X s) by (destruct (nv =? 1)%Z; reflexivity); rewrite !EX end.
  apply (si_X _ _ H) in Hc. apply in_dkeys_Some in Hc. destruct Hc as [l El]. unfold dmem. rewrite El. eexists. reflexivity.
Qed.

Lemma hypers_total a draws order : ainv a -> collapsed (a_M a) (d_hyp (a_d a)) ->
  (forall lbes, a_M a <> M_vonmises lbes) -> good_grids (a_M a) (d_grids (a_d a)) -> (forall j, draw_ok (draws j)) ->
  (forall i, In i order -> (i < m_nhyp (a_M a))%nat) ->
  exists a', a_call a (CallHypers draws order) = (a', Ok tt).
Proof.
  intros Ha Hc Hv Hg Hd Ho. pose proof (collapsed_known _ _ Hc) as HM. cbn [a_call].
  destruct (each_total (a_M a) (collapsed (a_M a)) HM (fun h H => H) Hv draws Hd order (a_d a) (proj2 Ha) Hc) as [d1 [E1 [I1 V1]]].
  { intros i Hi. specialize (Ho i Hi). destruct Hg as [L G].
    destruct (nth_error (d_grids (a_d a)) i) as [g|] eqn:Eg; [|apply nth_error_None in Eg; lia].
    exists g. split; [reflexivity|]. apply G. exact Eg. }
  unfold dim_transition_hypers. rewrite E1.
  destruct (set_score_total (a_M a) (collapsed (a_M a)) HM (fun h H => H) Hv d1 (d_hyp d1) I1 V1) as [d2 [x [E2 _]]].
  rewrite E2. eexists. reflexivity.
Qed.

Lemma cctype_total n s col a g p hd ho : sinv n s -> able s -> careful s (OCctype col a g p hd ho) ->
  In col (s_outs s) -> picks_in g p ->
  (forall l x, dget col (s_X s) = Some l -> In x l -> accepted a x) ->
  exists s', state_update_cctype s col a g p hd ho = (s', Ok tt).
Proof.
  intros H A [Hb [Hg [Hhd Hho]]] Hc Hp Hx. pose proof (fresh_ainv _ (blank_fresh _ Hb)) as Ia.
  unfold state_update_cctype. replace (zmem col (s_outs s)) with true by (symmetry; apply zmem_in; exact Hc). cbn [negb].
  destruct (dim_for_ex n s col H Hc) as [v [w [a0 [Ev [Ew [Ea0 _]]]]]]. rewrite Ev, Ew.
  destruct (si_view _ _ H v w Ew) as [V [O [D Rr]]].
  unfold view_update_cctype. destruct (view_unincorporate_dim w col) as [w0 r0] eqn:Eu.
  assert (Eu' : r0 = Ok tt /\ v_crp w0 = v_crp w).
  { unfold view_unincorporate_dim, dmem in Eu. rewrite Ea0 in Eu. injection Eu as <- <-. auto. }
  destruct Eu' as [-> Ecr]. destruct (unincorporate_dim_ok _ _ _ _ V Eu) as [V0 _].
  assert (Hsolid : solid a).
  { destruct Hb as [M [h [set [tape [Hc' [Hv ->]]]]]]. pose proof (known_laws M (collapsed_known _ _ Hc')) as HL.
    destruct (ml_new _ _ HL h (tape 0%nat)) as [_ [_ [Eh _]]].
    split; [split; [split|exact Hv]|split; [reflexivity|split]]; cbn; try discriminate; [rewrite Eh; exact Hc'|exact Eh]. }
  destruct (bulk_fresh (tab (s_X s)) w0 col a (proj1 V0) Ia) as [a1 Eb].
  { apply Hsolid. }
  { intros r Hin. unfold v_rows in Hin. rewrite Ecr in Hin. apply Rr in Hin.
    pose proof (proj2 (si_X _ _ H col) Hc) as HX. apply in_dkeys_Some in HX. destruct HX as [l El].
    destruct (py_nth_lt l r) as [x Ex]; [rewrite (si_len _ _ H col l El); lia|]. exists x. unfold tab. rewrite El. split; [exact Ex|].
    apply (Hx l x El). rewrite py_nth_nonneg in Ex by lia.
    destruct (nth_error l (Z.to_nat r)) eqn:En; [|discriminate]. injection Ex as <-. eapply nth_error_In; exact En. }
  unfold view_incorporate_dim. rewrite Eb.
  destruct (bulk_ok _ _ _ _ _ (proj1 V0) Ia Eb) as [_ Ia1]. assert (I1 : ainv a1) by apply Ia1. clear Ia1.
  assert (Hsim : exists d1, a1 = ADim (a_M a) d1 /\ collapsed (a_M a) (d_hyp d1) /\ (forall lbes, a_M a <> M_vonmises lbes)).
  { destruct (solid_hyp _ Hsolid) as [Hc' Hv]. destruct (asim_bulk _ _ _ _ _ _ Ia (asim_refl a Hsolid) Eb) as [d1 [-> [A1 [A2 _]]]].
    exists d1. split; [reflexivity|]. rewrite A2. split; [exact Hc'|exact Hv]. }
  destruct Hsim as [d1 [-> [Hc1 Hv1]]].
  set (s1 := set_views s (dset v (set_dims w0 (dset col (ADim (a_M a) d1) (v_dims w0))) (s_views s))).
  assert (Step : forall s0 w2 b o b', s_zv s0 = s_zv s -> dget v (s_views s0) = Some w2 -> dget col (v_dims w2) = Some b ->
     a_call b o = (b', Ok tt) -> dim_call s0 col o = (set_views s0 (dset v (set_dims w2 (dset col b' (v_dims w2))) (s_views s0)), Ok tt)).
  { intros s0 w2 b o b' E0 E1 E2 E3. unfold dim_call. rewrite E0, Ev, E1. unfold view_call. rewrite E2, E3. reflexivity. }
  destruct (grids_total (ADim (a_M a) d1) g p Hp) as [b2 C2].
  set (w1 := set_dims w0 (dset col (ADim (a_M a) d1) (v_dims w0))) in *.
  rewrite (Step s1 w1 (ADim (a_M a) d1) (CallGrids g p) b2); [|reflexivity|exact (dget_dset_same _ _ _)|exact (dget_dset_same _ _ _)|exact C2].
  match goal with |- context [dim_call ?t col CallParams] => set (s2 := t) end.
  set (w2 := set_dims w1 (dset col b2 (v_dims w1))) in *.
  assert (C3 : exists b3, a_call b2 CallParams = (b3, Ok tt)) by (eexists; reflexivity). destruct C3 as [b3 C3].
  rewrite (Step s2 w2 b2 CallParams b3); [|reflexivity|exact (dget_dset_same _ _ _)|exact (dget_dset_same _ _ _)|exact C3].
  match goal with |- context [dim_call ?t col (CallHypers _ _)] => set (s3 := t) end.
  set (w3 := set_dims w2 (dset col b3 (v_dims w2))) in *.
  destruct (a_call_same _ _ _ _ I1 C2) as [_ [I2 _]]. destruct (a_call_same _ _ _ _ I2 C3) as [_ [I3 _]].
  assert (H2 : a_M b2 = a_M a /\ collapsed (a_M b2) (d_hyp (a_d b2)) /\ d_grids (a_d b2) = g).
  { cbn [a_call a_M a_d] in C2. destruct (dim_transition_grids (a_M a) d1 g p) as [d2 r2] eqn:Ed. injection C2 as <- ->. cbn [a_M a_d].
    split; [reflexivity|]. revert Ed. unfold dim_transition_grids. destruct (d_set d1) eqn:Eset.
    - intros Ed. injection Ed as <-. cbn. auto.
    - destruct (rsequence _) as [ps|] eqn:Ep; [|discriminate]. intros Ed. injection Ed as <-. cbn.
      split; [eapply picked_ok; eassumption|]. auto. }
  destruct H2 as [M2 [Hc2 Hg2]].
  assert (H3 : a_M b3 = a_M a /\ collapsed (a_M b3) (d_hyp (a_d b3)) /\ d_grids (a_d b3) = g).
  { cbn [a_call] in C3. injection C3 as <-. cbn. auto. }
  destruct H3 as [M3 [Hc3 Hg3]].
  destruct (hypers_total b3 hd ho I3 Hc3) as [b4 C4]; [rewrite M3; exact Hv1|rewrite Hg3, M3; exact Hg|exact Hhd|rewrite M3; exact Hho|].
  rewrite (Step s3 w3 b3 (CallHypers hd ho) b4); [eauto|reflexivity|exact (dget_dset_same _ _ _)|exact (dget_dset_same _ _ _)|exact C4].
Qed.

(* ------------------------------------------------------------------ *)
(** ** Construction *)

Lemma seat_given_total l : forall c, crp_inv c -> NoDup (map fst l) -> (forall r, In r (map fst l) -> ~ In r (dkeys (c_data c))) ->
  exists c', seat_given l c = Ok c'.
Proof.
  induction l as [|[i k] l IH]; intros c Hc Hn Hf; simpl; [eauto|]. cbn [map fst] in Hn, Hf. apply NoDup_cons_iff in Hn. destruct Hn as [Hi Hn].
  assert (E : exists c1, crp_incorporate c i k = (c1, Ok tt)).
  { unfold crp_incorporate, dmem. pose proof (Hf i (or_introl eq_refl)) as Hd. apply dget_None_notin in Hd. rewrite Hd. eexists. reflexivity. }
  destruct E as [c1 E]. rewrite E. cbn [rbind]. destruct (crp_inc_spec _ _ _ _ Hc E) as [I1 [_ [Hd _]]].
  apply IH; [exact I1|exact Hn|]. intros r Hr. rewrite Hd, in_dkeys_dset. intros [->|Hin]; [contradiction|].
  apply (Hf r (or_intror Hr) Hin).
Qed.

(** The row partition of a view is given, with one cluster per row, or drawn. *)
Definition vspec_ok (n : nat) (k : vspec) : Prop :=
  0 < vs_alpha (vp_seed k) /\ positive (vs_grid (vp_seed k)) /\
  match vp_zr k with Some z => length z = n | None => forall i, draw_ok (vs_draw (vp_seed k) i) end.

Lemma range_NoDup m : NoDup (range m).
Proof. unfold range. apply FinFun.Injective_map_NoDup; [intros i j; apply Nat2Z.inj|apply seq_NoDup]. Qed.

Lemma made_total X n o k : X <> [] -> vspec_ok n k ->
  exists w, view_make X o (vp_seed k) (vp_zr k) = Ok w /\ eager_view w.
Proof.
  intros HX [Ha [Hg Hz]]. assert (E : exists w, view_make X o (vp_seed k) (vp_zr k) = Ok w).
  { destruct (vp_zr k) as [z|].
    - unfold view_make. destruct X as [|[c l] X]; [congruence|].
      destruct (seat_given_total (combine (range (Z.of_nat (length z))) z) (crp_new (vs_alpha (vp_seed k))) (crp_inv_new _)) as [c' ->].
      + assert (G : forall (a b : list Z), NoDup a -> NoDup (map fst (combine a b))).
        { induction a as [|x a IH]; intros b Hn; simpl; [constructor|]. destruct b as [|y b]; simpl; [constructor|].
          apply NoDup_cons_iff in Hn. destruct Hn as [Hx Hn]. constructor; [|apply IH; exact Hn].
          intros Hi. apply Hx. apply in_map_iff in Hi. destruct Hi as [[u v] [<- Hi]]. eapply in_combine_l; exact Hi. }
        apply G, range_NoDup.
      + intros r _ [].
      + eexists. reflexivity.
    - destruct (make_total X o (vp_seed k) HX) as [w [E _]]; [split; [exact Ha|split; [exact Hg|exact Hz]]|eauto]. }
  destruct E as [w E]. exists w. split; [exact E|]. destruct (made_alpha _ _ _ _ _ E) as [M1 [M2 M3]].
  split; [rewrite M1; exact Ha|]. split; [rewrite M2; exact Hg|]. rewrite M3. discriminate.
Qed.

(** What a new column may be given over the cells of the table. *)
Definition column_spec_ok (X : dict (list cell)) (c : Z) (k : cspec) : Prop :=
  spec_ok k /\ picks_in (cs_grids k) (cs_picks k) /\
  forall l x, dget c X = Some l -> In x l -> accepted (cs_col k) x.

Lemma columns_total X n cols : (forall c l, dget c X = Some l -> length l = n) ->
  Forall (fun ck => In (fst ck) (dkeys X) /\ column_spec_ok X (fst ck) (snd ck)) cols ->
  forall w, eager_view w -> vinv (tab X) w -> (forall r, In r (dkeys (v_rows w)) <-> (0 <= r < Z.of_nat n)%Z) ->
  exists w', view_columns (tab X) w cols = Ok w'.
Proof.
  intros Hl. induction cols as [|[c k] cols IH]; intros Hk w He V Hr; cbn [view_columns]; [eauto|].
  inversion Hk as [|? ? [Hc [Hs [Hp Hx]]] Hk2]; subst. cbn [fst snd] in *.
  apply in_dkeys_Some in Hc. destruct Hc as [T ET].
  destruct (join_total X n w c k T He V Hr ET (Hl c T ET) Hs Hp (fun x => Hx T x ET)) as [a [w1 [a1 [lp [Ec [Ei [Es [He1 [_ Ed]]]]]]]]].
  rewrite Ec. cbn [rbind]. rewrite Ei. cbn [rbind]. rewrite Ed, Es. cbn [rbind]. destruct (make_eager _ _ Hs Ec) as [_ Ia].
  destruct (incorporate_dim_ok (tab X) w c a true w1 a1 V Ia Ei) as [V1 [_ [_ [R1 [P1 _]]]]].
  apply IH; [exact Hk2|exact He1|exact V1|]. unfold v_rows. rewrite P1. exact Hr.
Qed.

Lemma outputs_total (zv : dict Z) v outs : (forall c, In c outs -> In c (dkeys zv)) ->
  exists l, view_outputs zv v outs = Ok l /\ forall c, In c l -> In c outs.
Proof.
  induction outs as [|c outs IH]; intros H; simpl; [exists []; auto|].
  destruct (in_dkeys_Some c zv (H c (or_introl eq_refl))) as [v' ->].
  destruct IH as [l [-> Hl]]; [intros c' Hc'; apply H; right; exact Hc'|]. cbn [rbind]. eexists. split; [reflexivity|].
  intros c'. destruct (v' =? v)%Z; [intros [->|Hc']; [left; reflexivity|right; apply Hl; exact Hc']|intros Hc'; right; apply Hl; exact Hc'].
Qed.

Lemma views_total X n outs zv vspecs cspecs order : X <> [] -> (forall c l, dget c X = Some l -> length l = n) ->
  (forall c, In c outs -> In c (dkeys X)) -> (forall c, In c outs -> In c (dkeys zv)) ->
  (forall v, vspec_ok n (vspecs v)) -> (forall c, In c outs -> column_spec_ok X c (cspecs c)) ->
  exists ws, make_views X outs zv vspecs cspecs order = Ok ws.
Proof.
  intros HX Hl Ho Hz Hv Hc. induction order as [|v order [ws IH]]; cbn [make_views]; [eauto|].
  destruct (outputs_total zv v outs Hz) as [mine [-> Hm]]. cbn [rbind].
  destruct (made_total X n (crp_id_view + v) (vspecs v) HX (Hv v)) as [w [Ew He]]. rewrite Ew. cbn [rbind].
  assert (Hzr : match vp_zr (vspecs v) with Some z => length z = n | None => True end).
  { destruct (Hv v) as [_ [_ Hz0]]. destruct (vp_zr (vspecs v)); [exact Hz0|exact I]. }
  destruct (view_make_ok X (tab X) n _ _ _ w Hl Hzr Ew) as [V [_ [_ R]]].
  destruct (columns_total X n (map (fun c => (c, cspecs c)) mine) Hl) with (w := w) as [w' ->]; [|exact He|exact V|exact R|].
  - apply Forall_map, Forall_forall. intros c Hi. simpl. split; [apply Ho, Hm, Hi|apply Hc, Hm, Hi].
  - cbn [rbind]. rewrite IH. eexists. reflexivity.
Qed.

Lemma init_total X zv alpha grid Cd Ci vspecs cspecs order n : X <> [] -> NoDup (dkeys X) ->
  (forall c l, dget c X = Some l -> length l = n) -> NoDup (map fst zv) -> (forall c, In c (map fst zv) <-> In c (dkeys X)) ->
  (forall v, vspec_ok n (vspecs v)) -> (forall c, In c (dkeys X) -> column_spec_ok X c (cspecs c)) ->
  exists s, state_init X zv alpha grid Cd Ci vspecs cspecs order = Ok s.
Proof.
  intros HX HN Hl Hn Hz Hv Hc. unfold state_init.
  destruct (seat_given_total zv (crp_new alpha) (crp_inv_new _) Hn) as [c E]; [intros r _ []|]. rewrite E. cbn [rbind].
  destruct (seat_given_spec _ _ _ (crp_inv_new _) E) as [I [_ K]].
  assert (HK : forall r, In r (dkeys (c_data c)) <-> In r (dkeys X)).
  { intros r. rewrite K, Hz. simpl. tauto. }
  assert (El : length (c_data c) = length (dkeys X)).
  { transitivity (length (dkeys (c_data c))); [unfold dkeys; rewrite map_length; reflexivity|]. apply Permutation_length.
    apply NoDup_Permutation; [apply I|exact HN|exact HK]. }
  rewrite El, Nat.eqb_refl.
  destruct (views_total X n (dkeys X) (c_data c) vspecs cspecs order HX Hl) as [ws ->]; auto; [intros c' Hc'; apply HK; exact Hc'|].
  cbn [rbind]. eauto.
Qed.

Lemma bulk_class X w c a b : ainv a -> crp_inv (v_crp w) -> bulk_incorporate X w c a = (b, Ok tt) -> a_M b = a_M a.
Proof. intros Ia Hc E. destruct (bulk_ok _ _ _ _ _ Hc Ia E) as [[d [-> _]] _]. reflexivity. Qed.

Lemma columns_class X (cspecs : Z -> cspec) mine : (forall c, In c mine -> spec_ok (cspecs c)) -> forall w w', vinv X w ->
  (forall c a, dget c (v_dims w) = Some a -> a_M a = a_M (cs_col (cspecs c))) ->
  view_columns X w (map (fun c => (c, cspecs c)) mine) = Ok w' ->
  forall c a, dget c (v_dims w') = Some a -> a_M a = a_M (cs_col (cspecs c)).
Proof.
  induction mine as [|c mine IH]; intros Hs w w' V H; cbn [map view_columns]; [intros E; injection E as <-; exact H|].
  pose proof (Hs c (or_introl eq_refl)) as Hk. destruct (col_make (cspecs c)) as [b [[]|]] eqn:Eb; [|discriminate]. cbn [rbind].
  destruct (col_make_ok _ _ (fresh_ainv _ (blank_fresh _ (proj1 Hk))) Eb) as [Ib [d2 [Eq _]]].
  destruct (view_incorporate_dim X w c b true) as [[w1 b1] [[]|]] eqn:Ei; [|discriminate]. cbn [rbind].
  destruct (match dget c (v_dims w1) with Some a' => a_score a' | None => Err KeyError end); [|discriminate]. cbn [rbind].
  destruct (incorporate_dim_ok X w c b true w1 b1 V Ib Ei) as [V1 [[d1 [E1 _]] [_ [_ [_ D1]]]]].
  intros E. apply (IH (fun c' Hc' => Hs c' (or_intror Hc')) w1 w' V1); [|exact E]. intros c' a'. rewrite D1, dget_dset. clear E.
  destruct (Z.eqb_spec c' c) as [->|]; [intros E; injection E as <-; rewrite E1; cbn [a_M]; rewrite Eq; reflexivity|apply H].
Qed.

Lemma init_class X zv alpha grid Cd Ci vspecs cspecs order n s : (forall c l, dget c X = Some l -> length l = n) ->
  (forall v, vspec_ok n (vspecs v)) -> (forall c, In c (dkeys X) -> spec_ok (cspecs c)) ->
  state_init X zv alpha grid Cd Ci vspecs cspecs order = Ok s ->
  forall v w c a, dget v (s_views s) = Some w -> dget c (v_dims w) = Some a -> a_M a = a_M (cs_col (cspecs c)).
Proof.
  intros Hl Hv Hc. unfold state_init. destruct (seat_given zv (crp_new alpha)) as [k|] eqn:Es; [|discriminate]. cbn [rbind].
  destruct (length (c_data k) =? length (dkeys X))%nat; [|discriminate].
  destruct (make_views X (dkeys X) (c_data k) vspecs cspecs order) as [ws|] eqn:Ew; [|discriminate]. cbn [rbind].
  intros E. injection E as <-. cbn [s_views]. revert ws Ew. induction order as [|v0 order IH]; intros ws; cbn [make_views]; [intros E; injection E as <-; discriminate|].
  destruct (view_outputs (c_data k) v0 (dkeys X)) as [mine|] eqn:Eo; [|discriminate]. cbn [rbind].
  destruct (view_make X (crp_id_view + v0) (vp_seed (vspecs v0)) (vp_zr (vspecs v0))) as [w0|] eqn:Em; [|discriminate]. cbn [rbind].
  destruct (view_columns (tab X) w0 (map (fun c => (c, cspecs c)) mine)) as [w1|] eqn:Ec; [|discriminate]. cbn [rbind].
  destruct (make_views X (dkeys X) (c_data k) vspecs cspecs order) as [ws'|] eqn:Ew; [|discriminate]. cbn [rbind]. intros E. injection E as <-.
  intros v w c a. simpl. destruct (v =? v0)%Z; [|apply (IH ws' eq_refl)]. intros E. injection E as <-.
  assert (Hzr : match vp_zr (vspecs v0) with Some z => length z = n | None => True end).
  { destruct (Hv v0) as [_ [_ Hz0]]. destruct (vp_zr (vspecs v0)); [exact Hz0|exact I]. }
  destruct (view_make_ok X (tab X) n _ _ _ w0 Hl Hzr Em) as [V [_ [D _]]].
  apply (columns_class (tab X) cspecs mine) with (w := w0); [|exact V|rewrite D; discriminate|exact Ec].
  intros x Hx. apply Hc. clear - Eo Hx. revert mine Eo Hx. induction (dkeys X) as [|y outs IH]; intros mine; simpl; [intros E; injection E as <-; auto|].
  destruct (dget y (c_data k)) as [v'|]; [|discriminate]. destruct (view_outputs (c_data k) v0 outs) as [l|]; [|discriminate]. cbn [rbind].
  intros E. injection E as <-. destruct (v' =? v0)%Z; [|intros Hi; right; eapply IH; [reflexivity|exact Hi]].
  intros [<-|Hi]; [left; reflexivity|right; eapply IH; [reflexivity|exact Hi]].
Qed.

(* ------------------------------------------------------------------ *)
(** ** Operations *)

(** The arguments that an operation takes. *)
Definition valid_op (s : state) (o : sop) : Prop :=
  match o with
  | OIncorporate draws rowid obs _ => (forall i j, draw_ok (draws i j)) /\ n_rows s = Ok rowid /\
      (forall x, In x (dvals obs) -> x <> None) /\ (forall c x, dget c obs = Some x -> column_takes s c x)
  | OUnincorporate rowid => n_rows s = Ok (rowid + 1)%Z /\ (0 < rowid)%Z
  | OForce rowid obs => NoDup (dkeys obs) /\ (exists n, n_rows s = Ok n /\ (0 <= rowid < n)%Z) /\
      forall c x, dget c obs = Some x -> tab (s_X s) c rowid = Ok None /\ column_takes s c x
  | OAdd T col k v seed d hd ho => n_rows s = Ok (Z.of_nat (length T)) /\ ~ In col (s_outs s) /\
      spec_ok k /\ picks_in (cs_grids k) (cs_picks k) /\ (forall x, In x T -> accepted (cs_col k) x) /\
      (v = None -> s_Cd s = []) /\ seed_ok seed /\ cdraws_ok d /\ (forall j, draw_ok (hd j)) /\
      (forall i, In i ho -> (i < m_nhyp (a_M (cs_col k)))%nat) /\
      (s_Ci s = [] \/ In (match v with Some v => v | None => 0%Z end) (dkeys (s_views s)))
  | ORemove col => In col (s_outs s) /\ length (s_outs s) <> 1%nat /\ forall p, In p (s_Ci s) -> ~ In col p
  | OCctype col a grids picks hd ho => In col (s_outs s) /\ blank a /\ good_grids (a_M a) grids /\ picks_in grids picks /\
      (forall l x, dget col (s_X s) = Some l -> In x l -> accepted a x) /\ (forall j, draw_ok (hd j)) /\
      (forall i, In i ho -> (i < m_nhyp (a_M a))%nat)
  | OKernel k => kernel_can s k
  end.

Lemma valid_careful s o : valid_op s o -> careful s o /\ wf_op o.
Proof.
  destruct o; simpl; try tauto.
  - intros [_ [_ [Hk H]]]. split; [tauto|apply blank_fresh, Hk].
  - intros [_ [Hb H]]. split; [tauto|apply blank_fresh, Hb].
Qed.

Lemma op_total n s o : sinv n s -> able s -> valid_op s o -> exists s', run_op s o = (s', Ok tt).
Proof.
  intros H A Hv. pose proof (sinv_n_rows n s H) as En.
  destruct o as [draws rowid obs clus|rowid|rowid obs|T col k v seed d hd ho|col|col a g p hd ho|k]; cbn [run_op valid_op] in *.
  - destruct Hv as [Hd [Er [Hx Ht]]]. rewrite En in Er. injection Er as <-.
    apply (inc_total n draws s obs clus H A Hd); [|exact Hx|exact Ht].
    intros c Hc. apply in_dkeys_Some in Hc. destruct Hc as [x Hc]. eapply column_takes_in; [exact H|apply (Ht c x Hc)].
  - destruct Hv as [Er Hr]. rewrite En in Er. injection Er as Er.
    destruct n as [|[|m]]; [lia|lia|]. replace rowid with (Z.of_nat (S m)) by lia. eapply uninc_total; [exact H|reflexivity].
  - destruct Hv as [Hn [[m [Er Hr]] Ho]]. rewrite En in Er. injection Er as <-. apply (force_total n); assumption.
  - pose proof Hv as [Er [Hc [Hk [Hp [Hx [HC _]]]]]]. rewrite En in Er. injection Er as Er.
    apply (add_col_total n); auto; [|lia]. apply (valid_careful s (OAdd T col k v seed d hd ho) Hv).
  - destruct Hv as [Hc [Hl _]]. apply (remove_total n); assumption.
  - pose proof Hv as [Hc [_ [_ [Hp [Hx _]]]]]. apply (cctype_total n); auto. apply (valid_careful s (OCctype col a g p hd ho) Hv).
  - destruct (kernel_total n s k H A Hv) as [s' [E _]]. eauto.
Qed.
