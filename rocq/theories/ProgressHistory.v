(** Facts about histories of states on which inference cannot fail. *)
From Verif Require Import LogSpaceFacts P06_Dim P07_View P09_State.
From Verif Require Export ProgressFacts.
From Coq Require Import Lia.
Local Open Scope R_scope.

(** A column without rows, of one of the collapsed classes other than the circular one,
    with valid hyperparameters and no inputs. *)
Definition blank (a : adim) : Prop :=
  exists M h set tape, collapsed M h /\ (forall lbes, M <> M_vonmises lbes) /\
    a = ADim M (dim_new M h set [] tape).

(** What a new column may be given. *)
Definition spec_ok (k : cspec) : Prop := blank (cs_col k) /\ good_grids (a_M (cs_col k)) (cs_grids k).

Lemma blank_fresh a : blank a -> fresh a.
Proof. intros [M [h [set [tape [H1 [H2 ->]]]]]]. exists M, h, set, [], tape. split; [eapply collapsed_known; exact H1|reflexivity]. Qed.

Lemma picked_ok M gs picks ps h : good_grids M gs -> collapsed M h ->
  rsequence (map (fun i => match nth_error gs i with
              | Some g => match nth_error g (picks i) with Some v => Ok (i, v) | None => Err ValueError end
              | None => Err KeyError end) (seq 0 (length gs))) = Ok ps ->
  collapsed M (fold_left (fun h iv => m_hset M (fst iv) (snd iv) h) ps h).
Proof.
  intros Hg Hh E. apply rsequence_ok in E.
  assert (Hps : forall i v, In (i, v) ps -> exists g, nth_error gs i = Some g /\ In v g).
  { intros i v Hi. assert (H : In (Ok (i, v)) (map (@Ok (nat * R)) ps)) by (apply in_map; exact Hi).
    rewrite <- E in H. apply in_map_iff in H. destruct H as [j [Hj _]].
    destruct (nth_error gs j) as [g|] eqn:Eg; [|discriminate].
    destruct (nth_error g (picks j)) as [x|] eqn:Ex; [|discriminate]. injection Hj as -> ->.
    exists g. split; [exact Eg|]. eapply nth_error_In; exact Ex. }
  clear E. revert h Hh. induction ps as [|[i v] ps IH]; intros h Hh; simpl; [exact Hh|].
  apply IH; [intros i' v' H'; apply Hps; right; exact H'|].
  destruct (Hps i v (or_introl eq_refl)) as [g [Eg Hv]]. apply (proj2 (proj2 Hg i g Eg)); assumption.
Qed.

Lemma make_eager k a : spec_ok k -> col_make k = (a, Ok tt) -> eager a /\ ainv a.
Proof.
  intros [Hb Hg] E. pose proof (col_make_ok _ _ (fresh_ainv _ (blank_fresh _ Hb)) E) as [Ia _]. split; [|exact Ia].
  revert E. unfold col_make. destruct Hb as [M [h [set [tape [Hc [Hv Ek]]]]]]. rewrite Ek in *. cbn [a_M a_d a_call] in *.
  pose proof (known_laws M (collapsed_known _ _ Hc)) as HL.
  assert (Go : forall h', collapsed M h' -> forall gs, good_grids M gs ->
    eager (ADim M (fresh_aux M (Dim [] [] [] (m_new M h (tape 0%nat)) h' gs true [] tape 1)))).
  { intros h' Hh' gs Hgs. destruct (ml_new _ _ HL h' (tape 1%nat)) as [_ [_ [Eh _]]].
    split; [|split; [reflexivity|exact Hgs]].
    split; [split; [split|exact Hv]|split; [reflexivity|split]]; cbn.
    - rewrite Eh. exact Hh'.
    - discriminate.
    - exact Eh.
    - discriminate. }
  unfold dim_transition_grids, dim_new. cbn [d_set d_hyp d_clusters d_zr d_zi d_aux d_ins d_tape d_pos]. destruct set.
  - intros E. injection E as <-. apply Go; assumption.
  - destruct (rsequence _) as [ps|] eqn:Ep; [|discriminate]. intros E. injection E as <-.
    apply Go; [|exact Hg]. eapply picked_ok; eassumption.
Qed.

(* ------------------------------------------------------------------ *)
(** ** Views *)


Lemma dget_pairs (R : adim -> adim -> Prop) l m : Forall2 (fun p q : Z * adim => fst p = fst q /\ R (snd p) (snd q)) l m ->
  forall c a', dget c m = Some a' -> exists a, dget c l = Some a /\ R a a'.
Proof.
  induction 1 as [|[k x] [k' y] l m [Ek Hxy] F IH]; [discriminate|]. cbn [fst snd] in *. subst k'. intros c a'. simpl.
  destruct (c =? k)%Z; [intros E; injection E as <-; eauto|apply IH].
Qed.

Lemma cfg_eager X w w' : eager_view w -> cfg X w w' -> eager_view w'.
Proof.
  intros [A [B C]] [_ [_ [G [Al F]]]]. split; [rewrite Al; exact A|]. split; [rewrite G; exact B|].
  intros c a' E. destruct (dget_pairs asim _ _ F c a' E) as [a [Ea S]]. eapply eager_asim; [apply (C c a Ea)|exact S].
Qed.

Lemma uninc_eager X w r w' : vinv X w -> eager_view w -> view_unincorporate w r = (w', Ok tt) -> eager_view w'.
Proof.
  intros V He E. assert (Hs : all_solid w) by (apply eager_all_solid; [apply He|apply V]).
  assert (Hr : exists k, dget r (v_rows w) = Some k).
  { revert E. unfold view_unincorporate. destruct (dims_unincorporate r (v_dims w)) as [ds [u|]]; [|discriminate].
    destruct (dget r (v_rows w)) as [k|]; [eauto|discriminate]. }
  destruct Hr as [k Hk]. destruct (cfg_uninc X w w r k (cfg_refl X w V Hs) Hk) as [w1 [E1 [C1 _]]].
  rewrite E in E1. injection E1 as <-. eapply cfg_eager; eassumption.
Qed.

Lemma insert_eager X0 X w r k obs w' : vinv X0 w -> eager_view w -> view_insert X w r k obs = (w', Ok tt) -> eager_view w'.
Proof.
  intros V He. unfold view_insert. destruct (crp_incorporate (v_crp w) r k) as [c1 [[]|]] eqn:Ec; [|discriminate].
  destruct (dims_incorporate X r k obs (v_dims w)) as [ds r2] eqn:Ed. intros E. injection E as <- ->.
  destruct (crp_inc_spec _ _ _ _ (proj1 V) Ec) as [_ [_ [_ [_ Al]]]]. destruct He as [A [B C]].
  split; [simpl; rewrite Al; exact A|]. split; [exact B|]. simpl. intros c a' Ea'.
  pose proof (dims_inc_shape _ _ _ _ _ _ Ed) as F.
  assert (F' : Forall2 (fun p q : Z * adim => fst p = fst q /\ (fun a a' => exists x ins, a_incorporate a r k x ins = (a', Ok tt)) (snd p) (snd q)) (v_dims w) ds).
  { clear - F. induction F as [|p q l m [E1 [x [ins [_ [_ E2]]]]] F IH]; constructor; eauto. }
  destruct (dget_pairs _ _ _ F' c a' Ea') as [a [Ea [x [ins Ei]]]]. destruct (C c a Ea) as [Hs Hr].
  eapply eager_asim; [split; eassumption|]. eapply asim_inc; [apply (proj2 (proj2 V) c a Ea)|apply asim_refl; exact Hs|exact Ei].
Qed.

Lemma inc_eager X0 X draws w r k obs w' : (forall j, draw_ok (draws j)) -> vinv X0 w -> eager_view w ->
  (forall c r', r' <> r -> X c r' = X0 c r') ->
  (forall c a, dget c (v_dims w) = Some a -> exists x, dget c obs = Some x /\ X c r = Ok x) ->
  view_incorporate X draws w r k obs = (w', Ok tt) -> eager_view w'.
Proof.
  intros Hd V He Hx Ho. unfold view_incorporate.
  destruct (view_insert X w r (match k with Some k0 => k0 | None => 0%Z end) obs) as [w1 [[]|]] eqn:E1; [|discriminate].
  pose proof (insert_eager _ _ _ _ _ _ _ V He E1) as He1.
  destruct (view_insert_ok _ _ _ _ _ _ _ V Hx Ho E1) as [V1 [_ [R1 _]]].
  destruct k as [k|]; [intros E; injection E as <-; exact He1|]. intros E.
  destruct (rows_total X draws w1 [r] Hd V1 He1) as [w2 [E2 [_ [He2 _]]]].
  - intros r' [<-|[]]. rewrite R1. apply in_dkeys_dset. left. reflexivity.
  - rewrite E in E2. injection E2 as <-. exact He2.
Qed.

Lemma force_eager X0 X w r obs w' : vinv X0 w -> eager_view w -> NoDup (dkeys obs) ->
  view_force_cell X w r obs = (w', Ok tt) -> eager_view w'.
Proof.
  intros V [A [B C]] Hn. unfold view_force_cell. destruct (dget r (v_rows w)) as [k|]; [|discriminate].
  destruct (force_cells X r k obs (v_dims w)) as [ds r2] eqn:Ef. intros E. injection E as <- ->.
  split; [exact A|]. split; [exact B|]. simpl. destruct (force_cells_spec _ _ _ _ _ _ Hn Ef) as [_ [S1 S2]].
  intros c a' Ea'. destruct (dget c obs) as [x|] eqn:Ex.
  - destruct (S2 c x Ex) as [a [a1 [ins [a2 [Ea [Eu [_ [Ei Ea2]]]]]]]]. assert (a2 = a') by congruence. subst a2.
    pose proof (proj1 (proj2 (proj2 V) c a Ea)) as Ia. destruct (C c a Ea) as [Hs Hr].
    eapply eager_asim; [split; eassumption|].
    eapply asim_inc; [|eapply asim_uninc; [exact Ia|apply asim_refl; exact Hs|exact Eu]|exact Ei].
    apply (a_uninc_inv _ _ _ Ia Eu).
  - rewrite S1 in Ea' by (apply dget_None_notin; exact Ex). apply (C c a' Ea').
Qed.

Lemma inc_dim_eager X w c a w' a' : eager_view w -> ainv a -> eager a ->
  view_incorporate_dim X w c a true = (w', a', Ok tt) -> eager_view w' /\ eager a'.
Proof.
  intros Hw Ia Ha. unfold view_incorporate_dim. destruct (bulk_incorporate X w c a) as [a1 [[]|]] eqn:Eb; [|discriminate].
  intros E. injection E as <- <-. assert (He : eager a1) by (eapply eager_asim; [exact Ha|]; eapply asim_bulk; [exact Ia|apply asim_refl, Ha|exact Eb]).
  split; [|exact He]. apply eager_set_dims; assumption.
Qed.

Lemma columns_eager_views X cols : forall w w', eager_view w -> Forall (fun ck => spec_ok (snd ck)) cols ->
  view_columns X w cols = Ok w' -> eager_view w'.
Proof.
  induction cols as [|[c k] cols IH]; intros w w' Hw Hk; cbn [view_columns]; [intros E; injection E as <-; exact Hw|].
  inversion Hk as [|? ? Hk1 Hk2]; subst. cbn [snd] in Hk1.
  destruct (col_make k) as [a [[]|]] eqn:Ea; [|discriminate]. cbn [rbind]. destruct (make_eager _ _ Hk1 Ea) as [He Ia].
  destruct (view_incorporate_dim X w c a true) as [[w1 a1] [[]|]] eqn:Ei; [|discriminate]. cbn [rbind].
  destruct (inc_dim_eager _ _ _ _ _ _ Hw Ia He Ei) as [Hw1 _].
  destruct (match dget c (v_dims w1) with Some a' => a_score a' | None => Err KeyError end); [|discriminate]. cbn [rbind].
  apply IH; assumption.
Qed.

(* ------------------------------------------------------------------ *)
(** ** States *)

(** What an operation may be given so that inference can still not fail. *)
Definition careful (s : state) (o : sop) : Prop :=
  match o with
  | OIncorporate draws _ _ _ => forall i j, draw_ok (draws i j)
  | OUnincorporate _ | OForce _ _ => True
  | OAdd _ _ k v seed d hd ho =>
      spec_ok k /\ seed_ok seed /\ cdraws_ok d /\ (forall j, draw_ok (hd j)) /\
      (forall i, In i ho -> (i < m_nhyp (a_M (cs_col k)))%nat) /\
      (s_Ci s = [] \/ In (match v with Some v => v | None => 0%Z end) (dkeys (s_views s)))
  | ORemove col => forall p, In p (s_Ci s) -> ~ In col p
  | OCctype _ a grids _ hd ho =>
      blank a /\ good_grids (a_M a) grids /\ (forall j, draw_ok (hd j)) /\
      (forall i, In i ho -> (i < m_nhyp (a_M a))%nat)
  | OKernel k => kernel_can s k
  end.

Lemma apart_frame s s' : s_outs s' = s_outs s -> s_crp s' = s_crp s -> s_Ci s' = s_Ci s ->
  dkeys (s_views s') = dkeys (s_views s) -> apart s -> apart s'.
Proof.
  intros E1 E2 E3 E4 [H|[H1 [H2 H3]]]; [left; congruence|right]. rewrite E4. split; [exact H1|]. split.
  - unfold ci_kept, s_zv in *. rewrite E3, E2. exact H2.
  - intros p c. rewrite E3, E1. apply H3.
Qed.

Lemma able_inc n draws s rowid obs clus s' : sinv n s -> able s -> (forall i j, draw_ok (draws i j)) ->
  state_incorporate draws s rowid obs clus = (s', Ok tt) -> able s'.
Proof.
  intros H A Hd E. destruct (state_inc_ok _ _ _ _ _ _ _ H E) as [-> [_ [Fo [Fc [_ [Fi [Fk [T1 [T2 _]]]]]]]]].
  assert (G : s_grid s' = s_grid s /\ forall v w', dget v (s_views s') = Some w' -> eager_view w').
  2:{ split; [rewrite Fc; apply A|rewrite (proj1 G); apply A|apply G|]. apply (apart_frame s); auto. apply A. }
  revert E T1 T2. unfold state_incorporate. rewrite (sinv_n_rows _ _ H), Z.eqb_refl. cbn [negb].
  destruct (forallb _ _); [|discriminate]. cbn [negb]. destruct (existsb _ _); [discriminate|].
  destruct (append_row (s_outs s) obs (s_X s)) as [X r] eqn:Ea.
  destruct (append_row_spec _ _ _ _ _ (si_nodup _ _ H) Ea) as [-> [KX SX]].
  { intros c Hc. apply (si_X _ _ H). exact Hc. }
  assert (En1 : n_rows (set_X s X) = Ok (Z.of_nat (S n))).
  { unfold n_rows. simpl. pose proof (si_ne _ _ H). destruct (s_outs s) as [|c o] eqn:E; [contradiction|].
    rewrite SX. replace (zmem c (c :: o)) with true by (symmetry; apply zmem_in; left; reflexivity).
    assert (Hc : In c (dkeys (s_X s))) by (apply (si_X _ _ H); rewrite E; left; reflexivity).
    apply in_dkeys_Some in Hc. destruct Hc as [l Hl]. rewrite Hl. simpl.
    rewrite app_length, (si_len _ _ H c l Hl). simpl. do 2 f_equal. lia. }
  rewrite En1. unfold hypothetical.
  replace (0 <=? Z.of_nat n)%Z with true by (symmetry; apply Z.leb_le; lia).
  replace (Z.of_nat n <? Z.of_nat (S n))%Z with true by (symmetry; apply Z.ltb_lt; lia).
  cbn [andb negb].
  match goal with |- context [views_loop ?ff _ _] => set (f := ff) end.
  destruct (views_loop f (dkeys (s_views s)) (s_views s)) as [ws r2] eqn:El. intros E. injection E as <- ->.
  cbn [s_X set_views set_X s_grid s_views]. intros T1 T2. split; [reflexivity|].
  destruct (views_loop_once _ _ _ _ (si_nv _ _ H) El) as [K [_ S]].
  intros v w' Hw'. destruct (S v w' Hw') as [w [Hw [Hi _]]]. destruct Hi as [i Ef]; [eapply dget_Some_in; exact Hw|].
  unfold f in Ef. destruct (table_row (tab X) w (Z.of_nat n)) as [q|] eqn:Eq; [|discriminate].
  destruct (si_view _ _ H v w Hw) as [V [O [D Rr]]].
  assert (Hnr : ~ In (Z.of_nat n) (dkeys (v_rows w))) by (rewrite Rr; lia).
  destruct (vinv_grow (tab (s_X s)) (tab X) w (Z.of_nat n) V Hnr) as [X1 [V1 HX1]].
  { intros c r' Hr'. apply T1. apply Rr. exact Hr'. }
  exact (inc_eager X1 (tab X) _ w _ _ q w' (Hd i) V1 (ab_view _ A v w Hw) HX1 (table_row_spec _ _ _ _ Eq) Ef).
Qed.

Lemma able_uninc n s rowid s' : sinv n s -> able s -> state_unincorporate s rowid = (s', Ok tt) -> able s'.
Proof.
  intros H A E. destruct (state_uninc_ok _ _ _ _ H E) as [m [_ [_ [_ [_ [Fo [Fc [_ [Fi [Fk _]]]]]]]]]].
  assert (G : s_grid s' = s_grid s /\ forall v w', dget v (s_views s') = Some w' -> eager_view w').
  2:{ split; [rewrite Fc; apply A|rewrite (proj1 G); apply A|apply G|]. apply (apart_frame s); auto. apply A. }
  revert E. unfold state_unincorporate. rewrite (sinv_n_rows _ _ H).
  destruct (rowid =? Z.of_nat n - 1)%Z; [|discriminate]. cbn [negb]. destruct (Z.of_nat n =? 1)%Z; [discriminate|].
  destruct (pop_row (s_outs s) (s_X s)) as [X [u|]]; [|discriminate].
  destruct (views_loop _ (dkeys (s_views s)) (s_views s)) as [ws r2] eqn:El. intros E. injection E as <- ->.
  split; [reflexivity|]. cbn [s_views set_views]. destruct (views_loop_once _ _ _ _ (si_nv _ _ H) El) as [_ [_ S]].
  intros v w' Hw'. destruct (S v w' Hw') as [w [Hw [Hi _]]]. destruct Hi as [i Ef]; [eapply dget_Some_in; exact Hw|].
  exact (uninc_eager _ _ _ _ (proj1 (si_view _ _ H v w Hw)) (ab_view _ A v w Hw) Ef).
Qed.

Lemma sub_obs_nodup (obs : dict cell) l : NoDup (dkeys (sub_obs obs l)).
Proof. unfold sub_obs. apply NoDup_dict_of. Qed.

Lemma able_force n s r obs s' : sinv n s -> able s -> NoDup (dkeys obs) -> state_inputs_forced s obs ->
  state_force_cell s r obs = (s', Ok tt) -> able s'.
Proof.
  intros H A Hn Hf E. destruct (state_force_ok _ _ _ _ _ H Hn Hf E) as [_ [_ [Fo [Fc [_ [Fi [Fk _]]]]]]].
  assert (G : s_grid s' = s_grid s /\ forall v w', dget v (s_views s') = Some w' -> eager_view w').
  2:{ split; [rewrite Fc; apply A|rewrite (proj1 G); apply A|apply G|]. apply (apart_frame s); auto. apply A. }
  revert E. unfold state_force_cell. rewrite (sinv_n_rows _ _ H). destruct (hypothetical _ _); [discriminate|].
  destruct (all_nan _ _ _) as [[]|]; try discriminate.
  destruct (partition_list (s_zv s) (dkeys obs)) as [q|] eqn:Eq; [|discriminate].
  destruct (partition_list_spec _ _ _ Eq) as [Qn _].
  destruct (views_loop _ (dkeys q) (s_views s)) as [ws r2] eqn:El. intros E. injection E as <- ->.
  split; [reflexivity|]. cbn [s_views set_views]. destruct (views_loop_once _ _ _ _ Qn El) as [_ [_ S]].
  intros v w' Hw'. destruct (S v w' Hw') as [w [Hw [Hi Ho]]]. destruct (in_dec Z.eq_dec v (dkeys q)) as [Hv|Hv].
  - destruct (Hi Hv) as [i Ef].
    exact (force_eager _ _ _ _ _ _ (proj1 (si_view _ _ H v w Hw)) (ab_view _ A v w Hw) (sub_obs_nodup _ _) Ef).
  - rewrite (Ho Hv). apply (ab_view _ A v w Hw).
Qed.

Lemma able_remove n s col s' : sinv n s -> able s -> not_input s col -> (forall p, In p (s_Ci s) -> ~ In col p) ->
  state_unincorporate_dim s col = (s', Ok tt) -> able s'.
Proof.
  intros H A Hni Hp E. destruct (state_remove_ok _ _ _ _ H Hni E) as [_ [_ [Fo [_ [_ [Fi Fz]]]]]].
  revert E. unfold state_unincorporate_dim.
  destruct (length (s_outs s) =? 1)%nat; [discriminate|].
  destruct (zmem col (s_outs s)); [|discriminate]. cbn [negb].
  destruct (dget col (s_zv s)) as [v|] eqn:Ev; [|discriminate].
  destruct (dget v (s_views s)) as [w|] eqn:Ew; [|discriminate].
  destruct (dget v (c_counts (s_crp s))) as [nv|]; [|discriminate].
  destruct (view_unincorporate_dim w col) as [w1 [[]|]] eqn:Eu; [|discriminate].
  assert (He1 : eager_view w1).
  { revert Eu. unfold view_unincorporate_dim. destruct (dmem col (v_dims w)); [|discriminate]. intros E. injection E as <-.
    destruct (ab_view _ A v w Ew) as [W1 [W2 W3]]. split; [exact W1|]. split; [exact W2|]. simpl. intros c a.
    rewrite dget_ddel by apply (si_view _ _ H v w Ew). destruct (c =? col)%Z; [discriminate|apply W3]. }
  cbn [s_crp set_views]. destruct (crp_uninc_spec _ _ _ (si_crp _ _ H) Ev) as [k [Ek [_ [_ [Al _]]]]]. rewrite Ek.
  destruct ((nv =? 1)%Z && dmem v (c_counts k)); [discriminate|].
  match goal with |- context [dmem col (s_X ?t)] => set (s3 := t) end.
  destruct (dmem col (s_X s3)); [|discriminate]. intros E. injection E as <-.
  assert (Nw : NoDup (dkeys (dset v w1 (s_views s)))) by (apply NoDup_dset, (si_nv _ _ H)).
  assert (Kw : dkeys (dset v w1 (s_views s)) = dkeys (s_views s)) by (apply dkeys_dset_in; eapply dget_Some_in; exact Ew).
  assert (E3 : s_crp s3 = k /\ s_grid s3 = s_grid s /\ s_Ci s3 = s_Ci s /\
     (s_views s3 = ddel v (dset v w1 (s_views s)) \/ s_views s3 = dset v w1 (s_views s))).
  { unfold s3. destruct (nv =? 1)%Z; cbn; auto. }
  destruct E3 as [E3 [E4 [E5 E6]]]. split; cbn [s_crp s_grid s_views set_outs set_X].
  - rewrite E3, Al. apply A.
  - rewrite E4. apply A.
  - assert (Hall : forall v0 w0, dget v0 (dset v w1 (s_views s)) = Some w0 -> eager_view w0).
    { intros v0 w0. rewrite dget_dset. destruct (v0 =? v)%Z; [intros E; injection E as <-; exact He1|apply (ab_view _ A)]. }
    intros v0 w0. destruct E6 as [-> | ->]; [|apply Hall]. rewrite dget_ddel by exact Nw.
    destruct (v0 =? v)%Z; [discriminate|apply Hall].
  - destruct (ab_apart _ A) as [D|[D1 [D2 D3]]]; [left; simpl; congruence|right]. split; [|split].
    + cbn [s_views set_outs set_X]. destruct E6 as [-> | ->]; [apply ascending_ddel; rewrite Kw; exact D1|rewrite Kw; exact D1].
    + intros p x y v0 Hq Hx Hy Hne. rewrite Fi in Hq. rewrite Fz, !dget_ddel by apply (si_crp _ _ H).
      destruct (x =? col)%Z; [discriminate|]. intros Ex. destruct (y =? col)%Z; [discriminate|]. exact (D2 p x y v0 Hq Hx Hy Hne Ex).
    + intros p c Hq Hc. rewrite Fi in Hq. rewrite Fo. apply filter_In. split; [apply (D3 p c Hq Hc)|].
      apply negb_true_iff, Z.eqb_neq. intros ->. exact (Hp p Hq Hc).
Qed.

(** A new column has joined a view. *)
Lemma joined_sinv n s T col va w w1 a1 k1 : sinv n s -> length T = n -> ~ In col (s_outs s) ->
  let X := dset col T (s_X s) in
  v_out w = (crp_id_view + va)%Z -> (forall c, In c (dkeys (v_dims w)) <-> dget c (s_zv s) = Some va) ->
  (forall r, In r (dkeys (v_rows w)) <-> (0 <= r < Z.of_nat n)%Z) ->
  vinv (tab X) w1 -> v_out w1 = v_out w -> v_dims w1 = dset col a1 (v_dims w) -> v_crp w1 = v_crp w ->
  crp_incorporate (s_crp s) col va = (k1, Ok tt) ->
  sinv n (State (s_outs s ++ [col]) X k1 (s_grid s) (dset va w1 (dset va w (s_views s))) (s_Cd s) (s_Ci s)).
Proof.
  intros H HT Ez X Ow Dw Rw V1 O1 D1 P1 Ek. destruct (zv_seat _ _ _ _ _ H Ez Ek) as [I1 Z1].
  assert (HnX : ~ In col (dkeys (s_X s))) by (rewrite (si_X _ _ H); exact Ez).
  assert (HlenX : forall c l, dget c X = Some l -> length l = n).
  { intros c l. unfold X. rewrite dget_dset. destruct (c =? col)%Z; [intros E; injection E as <-; exact HT|].
    apply (si_len _ _ H). }
  match goal with |- sinv n ?t => set (s4 := t) end.
  assert (Hz4 : forall c, dget c (s_zv s4) = if (c =? col)%Z then Some va else dget c (s_zv s)) by exact Z1.
  assert (Hv4 : forall v0, In v0 (dkeys (s_views s4)) <-> v0 = va \/ In v0 (dkeys (s_views s))).
  { intros v0. unfold s4. cbn [s_views]. rewrite !in_dkeys_dset. tauto. }
  split.
    - change (NoDup (s_outs s ++ [col])). apply NoDup_app_intro; [apply (si_nodup _ _ H)|repeat constructor; intros []|].
      intros x Hx [<-|[]]. contradiction.
    - change (s_outs s ++ [col] <> []). destruct (s_outs s); discriminate.
    - intros c. change (In c (dkeys X) <-> In c (s_outs s ++ [col])). unfold X. rewrite in_dkeys_dset, in_app_iff, (si_X _ _ H).
      simpl. intuition congruence.
    - change (NoDup (dkeys X)). apply NoDup_dset. apply (si_XN _ _ H).
    - exact HlenX.
    - exact I1.
    - intros c. change (s_outs s4) with (s_outs s ++ [col]). rewrite in_app_iff, <- (si_zv _ _ H). split.
      + intros Hi. apply in_dkeys_Some in Hi. destruct Hi as [x Hx]. rewrite Hz4 in Hx.
        destruct (Z.eqb_spec c col) as [E|]; [right; left; auto|left; eapply dget_Some_in; exact Hx].
      + intros Hi. destruct (Z.eqb_spec c col) as [E|Hn].
        * eapply dget_Some_in. rewrite Hz4. subst c. rewrite Z.eqb_refl. reflexivity.
        * destruct Hi as [Hi|[E|[]]]; [|congruence]. apply in_dkeys_Some in Hi. destruct Hi as [x Hx].
          eapply dget_Some_in. rewrite Hz4. apply Z.eqb_neq in Hn. rewrite Hn. exact Hx.
    - unfold s4. cbn [s_views]. do 2 apply NoDup_dset. apply (si_nv _ _ H).
    - intros v0. rewrite Hv4. split.
      + intros Hi. assert (Hx : exists c, dget c (c_data k1) = Some v0).
        { destruct Hi as [->|Hi]; [exists col; rewrite Z1, Z.eqb_refl; reflexivity|].
          apply (used_views _ _ _ H) in Hi. destruct Hi as [c Hc]. exists c. rewrite Z1.
          destruct (Z.eqb_spec c col) as [->|]; [|exact Hc]. exfalso. apply Ez. apply (si_zv _ _ H).
          eapply dget_Some_in; exact Hc. }
        destruct Hx as [c Hc]. eapply crp_rows_counts; [exact I1|exact Hc].
      + intros Hi. apply crp_counts_rows in Hi; [|exact I1]. destruct Hi as [c Hc].
        change (c_data (s_crp s4)) with (c_data k1) in Hc. rewrite Z1 in Hc.
        destruct (c =? col)%Z; [left; congruence|]. right. apply (used_views _ _ _ H). eauto.
    - intros v0 w0 Hw0. change (tab (s_X s4)) with (tab X).
      unfold s4 in Hw0. cbn [s_views] in Hw0. rewrite dget_dset in Hw0.
      destruct (Z.eqb_spec v0 va) as [->|Hnv].
      + injection Hw0 as <-. split; [exact V1|]. split; [congruence|]. split.
        * intros c. rewrite D1, in_dkeys_dset, Dw, Hz4. destruct (Z.eqb_spec c col) as [->|Hn]; [tauto|].
          split; [intros [E|Hi]; [contradiction|exact Hi]|tauto].
        * unfold v_rows in *. rewrite P1. exact Rw.
      + rewrite dget_dset_other in Hw0 by exact Hnv. destruct (si_view _ _ H v0 w0 Hw0) as [A [B [C D]]].
        split; [apply vinv_add_column; assumption|]. split; [exact B|]. split; [|exact D].
        intros c. rewrite C, Hz4. destruct (Z.eqb_spec c col) as [->|]; [|tauto].
        split; [|intros E; injection E; congruence]. intros E. exfalso. apply Ez. apply (si_zv _ _ H).
        eapply dget_Some_in; exact E.
Qed.

(** The part of adding a column before inference. *)
Lemma able_add n s T col k v seed d hd ho s' : sinv n s -> able s ->
  careful s (OAdd T col k v seed d hd ho) ->
  state_incorporate_dim s T col k v seed d hd ho = (s', Ok tt) -> able s'.
Proof.
  intros H A [Hk [Hs [Hd [Hhd [Hho Hci]]]]]. unfold state_incorporate_dim. rewrite (sinv_n_rows _ _ H).
  destruct (Z.of_nat (length T) =? Z.of_nat n)%Z eqn:EL; [|discriminate]. apply Z.eqb_eq in EL.
  assert (HT : length T = n) by lia. clear EL. cbn [negb].
  destruct (zmem col (s_outs s)) eqn:Ez; [discriminate|]. apply zmem_false in Ez.
  set (X := dset col T (s_X s)). set (va := match v with Some v => v | None => 0%Z end) in *.
  cbn [s_views set_outs set_X set_views].
  assert (HnX : ~ In col (dkeys (s_X s))) by (rewrite (si_X _ _ H); exact Ez).
  assert (HlenX : forall c l, dget c X = Some l -> length l = n).
  { intros c l. unfold X. rewrite dget_dset. destruct (c =? col)%Z; [intros E; injection E as <-; exact HT|].
    apply (si_len _ _ H). }
  match goal with |- context [match ?t with Ok w => _ | Err e => _ end] => destruct t as [w|] eqn:Ew end; [|discriminate].
  assert (Hw : vinv (tab X) w /\ v_out w = (crp_id_view + va)%Z /\
     (forall c, In c (dkeys (v_dims w)) <-> dget c (s_zv s) = Some va) /\
     (forall r, In r (dkeys (v_rows w)) <-> (0 <= r < Z.of_nat n)%Z) /\ eager_view w).
  { destruct (dget va (s_views s)) as [w0|] eqn:E0.
    - injection Ew as ->. destruct (si_view _ _ H va w E0) as [V0 [O0 [D0 R0]]].
      split; [apply vinv_add_column; assumption|]. split; [exact O0|]. split; [exact D0|]. split; [exact R0|].
      apply (ab_view _ A va w E0).
    - destruct (view_make_ok X (tab X) n _ _ None w HlenX I Ew) as [B1 [B2 [B3 B4]]].
      split; [exact B1|]. split; [exact B2|]. split; [|split; [exact B4|]].
      + intros c. rewrite B3. split; [intros []|]. intros E. apply dget_None_notin in E0. apply E0. apply (used_views _ _ _ H). eauto.
      + destruct (make_total X (crp_id_view + va) seed) as [w2 [E2 He2]]; [|exact Hs|rewrite Ew in E2; injection E2 as <-; exact He2].
        unfold X. destruct (s_X s) as [|[c0 l0] X0]; simpl; [discriminate|]. destruct (col =? c0)%Z; discriminate. }
  destruct Hw as [Vw [Ow [Dw [Rw Hew]]]].
  destruct (col_make k) as [a r] eqn:Ec. destruct r as [[]|]; [|discriminate].
  destruct (make_eager _ _ Hk Ec) as [Hea Ia].
  destruct (view_incorporate_dim (tab X) w col a true) as [[w1 a1] r1] eqn:Ei.
  destruct r1 as [[]|]; cbn [rbind]; [|discriminate].
  destruct (a_score a1) as [sc|]; [|discriminate].
  destruct (inc_dim_eager _ _ _ _ _ _ Hew Ia Hea Ei) as [Hew1 Hea1].
  destruct (incorporate_dim_ok (tab X) w col a true w1 a1 Vw Ia Ei) as [V1 [K1 [C1 [R1 [P1 D1]]]]].
  destruct (incorporate_dim_out _ _ _ _ _ _ _ _ Ei) as [O1 _].
  cbn [s_crp set_views set_outs set_X].
  destruct (crp_incorporate (s_crp s) col va) as [k1 [[]|]] eqn:Ek; [|discriminate].
  pose proof (joined_sinv n s T col va w w1 a1 k1 H HT Ez Ow Dw Rw V1 O1 D1 P1 Ek) as S4.
  destruct (zv_seat _ _ _ _ _ H Ez Ek) as [I1 Z1].
  destruct (crp_inc_spec _ _ _ _ (si_crp _ _ H) Ek) as [_ [_ [_ [_ Al]]]].
  match type of S4 with sinv n ?t => set (s4 := t) in * end.
  match goal with |- context [transition_dims _ _ ?t _] => change t with s4 end.
  assert (A4 : able s4).
  { split; cbn [s_crp s_grid s_views s4].
    - rewrite Al. apply A.
    - apply A.
    - intros v0 w0. rewrite !dget_dset. destruct (v0 =? va)%Z; [intros E; injection E as <-; exact Hew1|apply (ab_view _ A)].
    - destruct (ab_apart _ A) as [D|[D1' [D2 D3]]]; [left; exact D|]. destruct Hci as [D|Hin]; [left; exact D|]. right.
      split; [|split].
      + cbn [s_views s4]. rewrite !dkeys_dset_in; [exact D1'|exact Hin|rewrite dkeys_dset_in; exact Hin].
      + intros p x y v0 Hp Hx Hy Hne. change (s_zv s4) with (c_data k1). rewrite !Z1.
        pose proof (D3 p x Hp Hx). pose proof (D3 p y Hp Hy).
        destruct (Z.eqb_spec x col) as [->|]; [contradiction|]. destruct (Z.eqb_spec y col) as [->|]; [contradiction|].
        apply (D2 p x y v0 Hp Hx Hy Hne).
      + intros p c Hp Hc. change (In c (s_outs s ++ [col])). apply in_or_app. left. exact (D3 p c Hp Hc). }
  assert (Hdf : dim_for s4 col = Ok a1).
  { unfold dim_for. change (s_zv s4) with (c_data k1). rewrite Z1, Z.eqb_refl. cbn [s_views s4]. rewrite dget_dset_same.
    rewrite D1, dget_dset_same. reflexivity. }
  assert (Ho4 : In col (s_outs s4)) by (apply in_or_app; right; left; reflexivity).
  match goal with |- context [let '(_, _) := ?t in _] => destruct t as [s5 r5] eqn:E5 end.
  destruct r5 as [[]|]; [|discriminate]. intros E6.
  assert (S5 : sinv n s5 /\ able s5 /\ s_outs s5 = s_outs s4 /\ class_kept s4 s5).
  { destruct v as [v0|]; [injection E5 as <-; split; [exact S4|]; split; [exact A4|]; split; [reflexivity|apply class_kept_refl]|].
    assert (HCd : s_Cd s4 = []).
    { cbn [transition_dims length] in E5. unfold transition_dim in E5. destruct (all_dims s4) as [ds|]; [|discriminate].
      destruct (existsb _ ds); [discriminate|]. destruct (s_Cd s4); [reflexivity|discriminate]. }
    destruct (steps_total n 1 [col] (Nat.lt_0_succ 0) (fun _ => d) s4 (fun _ => Hd) S4 A4 HCd) as [s6 [E7 [A6 [S6 [[Do _] Ck]]]]].
    { intros c [<-|[]]. exact Ho4. }
    rewrite E5 in E7. injection E7 as <-. auto. }
  destruct S5 as [S5 [A5 [O5 Ck]]].
  destruct (dim_call_total n s5 col (CallHypers hd ho) S5 A5) as [s7 [E7 [A7 _]]].
  { rewrite O5. exact Ho4. }
  { intros b Eb. destruct (Ck col a1 Hdf) as [b' [Eb' Hb']]. rewrite Eb in Eb'. injection Eb' as <-.
    split; [exact Hhd|]. rewrite Hb'. destruct K1 as [d1 [-> _]]. cbn [a_M].
    destruct (col_make_ok _ _ (fresh_ainv _ (blank_fresh _ (proj1 Hk))) Ec) as [_ [d2 [-> _]]]. exact Hho. }
  rewrite E6 in E7. injection E7 as <-. exact A7.
Qed.

(** The hyperparameters are sampled, whatever those of the clusters were. *)
Lemma hypers_eager a draws order a' : ainv a -> collapsed (a_M a) (d_hyp (a_d a)) ->
  (forall lbes, a_M a <> M_vonmises lbes) -> d_ins (a_d a) = [] -> d_set (a_d a) = true ->
  good_grids (a_M a) (d_grids (a_d a)) -> (forall j, draw_ok (draws j)) ->
  (forall i, In i order -> (i < m_nhyp (a_M a))%nat) ->
  a_call a (CallHypers draws order) = (a', Ok tt) -> eager a'.
Proof.
  intros Ha Hc Hv Hins Hset Hg Hd Ho. pose proof (collapsed_known _ _ Hc) as HM. pose proof (proj1 Ha) as HL. cbn [a_call].
  destruct (each_total (a_M a) (collapsed (a_M a)) HM (fun h H => H) Hv draws Hd order (a_d a) (proj2 Ha) Hc) as [d1 [E1 [I1 V1]]].
  { intros i Hi. specialize (Ho i Hi). destruct Hg as [L G].
    destruct (nth_error (d_grids (a_d a)) i) as [g|] eqn:Eg; [|apply nth_error_None in Eg; lia].
    exists g. split; [reflexivity|]. apply G. exact Eg. }
  assert (E : exists d2, dim_transition_hypers (a_M a) draws order (a_d a) = (d2, Ok tt) /\ d_hyp d2 = d_hyp d1).
  { unfold dim_transition_hypers. rewrite E1.
    destruct (set_score_total (a_M a) (collapsed (a_M a)) HM (fun h H => H) Hv d1 (d_hyp d1) I1 V1) as [d2 [x [E2 [_ [_ [E3 _]]]]]].
    rewrite E2. eexists. split; [reflexivity|]. simpl. exact E3. }
  destruct E as [d2 [E2 Eh]]. rewrite E2. intros E. injection E as <-.
  destruct (trans_hypers_same _ _ HL _ _ _ _ _ E2) as [S [A1 [A2 A3]]]. specialize (A3 eq_refl).
  split; [|split].
  - split; [|split; [simpl; rewrite A1; exact Hins|exact A3]].
    split; [|exact Hv]. destruct A3 as [B1 B2]. split; simpl; [rewrite B1, Eh; exact V1|].
    intros k c Ek. rewrite (B2 k c Ek), Eh. exact V1.
  - simpl. rewrite (trans_hypers_set _ _ _ _ _ _ E2). exact Hset.
  - simpl. rewrite A2. exact Hg.
Qed.

Lemma able_cctype n s col a g p hd ho s' : sinv n s -> able s -> careful s (OCctype col a g p hd ho) ->
  state_update_cctype s col a g p hd ho = (s', Ok tt) -> able s'.
Proof.
  intros H A [Hb [Hg [Hhd Hho]]] E. pose proof (fresh_ainv _ (blank_fresh _ Hb)) as Ia.
  destruct (state_cctype_ok _ _ _ _ _ _ _ _ _ H Ia E) as [_ [[Fo [_ [_ Fi]]] Fc]].
  revert E. unfold state_update_cctype. destruct (zmem col (s_outs s)); [|discriminate]. cbn [negb].
  destruct (dget col (s_zv s)) as [v|] eqn:Ev; [|discriminate].
  destruct (dget v (s_views s)) as [w|] eqn:Ew; [|discriminate].
  unfold view_update_cctype. destruct (view_unincorporate_dim w col) as [w0 [[]|]] eqn:Eu; [|discriminate].
  destruct (si_view _ _ H v w Ew) as [V [O [D Rr]]]. destruct (unincorporate_dim_ok _ _ _ _ V Eu) as [V0 _].
  assert (Hw0 : c_alpha (v_crp w0) = c_alpha (v_crp w) /\ v_grid w0 = v_grid w /\
     forall c a0, dget c (v_dims w0) = Some a0 -> eager a0).
  { revert Eu. unfold view_unincorporate_dim. destruct (dmem col (v_dims w)); [|discriminate]. intros E. injection E as <-.
    split; [reflexivity|]. split; [reflexivity|]. simpl. intros c a0.
    rewrite dget_ddel by apply V. destruct (c =? col)%Z; [discriminate|]. apply (ab_view _ A v w Ew). }
  unfold view_incorporate_dim. destruct (bulk_incorporate (tab (s_X s)) w0 col a) as [a1 [[]|]] eqn:Eb; [|discriminate].
  destruct (bulk_ok _ _ _ _ _ (proj1 V0) Ia Eb) as [_ Ia1].
  assert (I1 : ainv a1) by apply Ia1. clear Ia1.
  assert (Hsim : exists d1, a1 = ADim (a_M a) d1 /\ collapsed (a_M a) (d_hyp d1) /\ (forall lbes, a_M a <> M_vonmises lbes) /\ d_ins d1 = []).
  { assert (Hsolid : solid a).
    { destruct Hb as [M [h [set [tape [Hc [Hv ->]]]]]]. pose proof (known_laws M (collapsed_known _ _ Hc)) as HL.
      destruct (ml_new _ _ HL h (tape 0%nat)) as [_ [_ [Eh _]]].
      split; [split; [split|exact Hv]|split; [reflexivity|split]]; cbn; try discriminate; [rewrite Eh; exact Hc|exact Eh]. }
    destruct (solid_hyp _ Hsolid) as [Hc Hv]. destruct (asim_bulk _ _ _ _ _ _ Ia (asim_refl a Hsolid) Eb) as [d1 [-> [A1 [A2 _]]]].
    exists d1. split; [reflexivity|]. rewrite A2, A1. split; [exact Hc|]. split; [exact Hv|apply Hsolid]. }
  destruct Hsim as [d1 [-> [Hc1 [Hv1 Hi1]]]].
  set (s1 := set_views s (dset v (set_dims w0 (dset col (ADim (a_M a) d1) (v_dims w0))) (s_views s))).
  assert (Step : forall s0 b o s2, s_zv s0 = s_zv s -> dget v (s_views s0) = Some (set_dims w0 (dset col b (v_dims w0))) ->
     dim_call s0 col o = (s2, Ok tt) -> exists b', a_call b o = (b', Ok tt) /\
     s2 = set_views s0 (dset v (set_dims w0 (dset col b' (dset col b (v_dims w0)))) (s_views s0))).
  { intros s0 b o s2 E0 E1. unfold dim_call. rewrite E0, Ev, E1. unfold view_call. cbn [v_dims set_dims]. rewrite dget_dset_same.
    destruct (a_call b o) as [b' r'] eqn:Ec. intros E. injection E as <- ->. exists b'. auto. }
  assert (Hdd : forall b b', dset col b' (dset col b (v_dims w0)) = dset col b' (v_dims w0)) by (intros; apply dset_dset).
  destruct (dim_call s1 col (CallGrids g p)) as [s2 [u2|]] eqn:E2; [|discriminate]. destruct u2.
  destruct (dim_call s2 col CallParams) as [s3 [u3|]] eqn:E3; [|discriminate]. destruct u3. intros E4.
  destruct (Step s1 (ADim (a_M a) d1) (CallGrids g p) s2) as [b2 [C2 Es2]]; [reflexivity|exact (dget_dset_same _ _ _)|exact E2|]. rewrite Hdd in Es2.
  destruct (Step s2 b2 CallParams s3) as [b3 [C3 Es3]]; [subst s2; reflexivity|subst s2; exact (dget_dset_same _ _ _)|exact E3|]. rewrite Hdd in Es3.
  destruct (Step s3 b3 (CallHypers hd ho) s') as [b4 [C4 Es4]]; [subst s3 s2; reflexivity|subst s3; exact (dget_dset_same _ _ _)|exact E4|]. rewrite Hdd in Es4.
  destruct (a_call_same _ _ _ _ I1 C2) as [_ [I2 _]]. destruct (a_call_same _ _ _ _ I2 C3) as [_ [I3 _]].
  assert (H2 : a_M b2 = a_M a /\ collapsed (a_M b2) (d_hyp (a_d b2)) /\ d_ins (a_d b2) = [] /\ d_set (a_d b2) = true /\ d_grids (a_d b2) = g).
  { cbn [a_call a_M a_d] in C2. destruct (dim_transition_grids (a_M a) d1 g p) as [d2 r2] eqn:Ed. injection C2 as <- ->. cbn [a_M a_d].
    split; [reflexivity|]. revert Ed. unfold dim_transition_grids. destruct (d_set d1) eqn:Eset.
    - intros Ed. injection Ed as <-. cbn. auto.
    - destruct (rsequence _) as [ps|] eqn:Ep; [|discriminate]. intros Ed. injection Ed as <-. cbn.
      split; [eapply picked_ok; eassumption|]. auto. }
  destruct H2 as [M2 [Hc2 [Hi2 [Hs2 Hg2]]]].
  assert (H3 : a_M b3 = a_M a /\ collapsed (a_M b3) (d_hyp (a_d b3)) /\ d_ins (a_d b3) = [] /\ d_set (a_d b3) = true /\ d_grids (a_d b3) = g).
  { cbn [a_call] in C3. injection C3 as <-. cbn. auto. }
  destruct H3 as [M3 [Hc3 [Hi3 [Hs3 Hg3]]]].
  assert (He : eager b4).
  { apply (hypers_eager b3 hd ho b4); auto; try (rewrite M3; assumption). rewrite Hg3, M3. exact Hg. }
  assert (Hkeys : dkeys (s_views s') = dkeys (s_views s)).
  { subst s' s3 s2. cbn [s_views set_views s1].
    assert (Hk : In v (dkeys (s_views s))) by (eapply dget_Some_in; exact Ew).
    rewrite !dset_dset. apply dkeys_dset_in. exact Hk. }
  split.
  - rewrite Fc. apply A.
  - subst s' s3 s2. apply A.
  - subst s' s3 s2. cbn [s_views set_views s1]. rewrite !dset_dset. intros v0 w2. rewrite dget_dset.
    destruct (v0 =? v)%Z; [|apply (ab_view _ A)]. intros E. injection E as <-.
    destruct (ab_view _ A v w Ew) as [W1 [W2 _]]. destruct Hw0 as [G1 [G2 G3]].
    apply eager_set_dims; [|exact He]. split; [rewrite G1; exact W1|]. split; [rewrite G2; exact W2|exact G3].
  - apply (apart_frame s); auto. apply A.
Qed.

Lemma able_op n s o s' : sinv n s -> able s -> wf_op o -> safe s o -> careful s o -> run_op s o = (s', Ok tt) -> able s'.
Proof.
  intros H A Hw Hs Hc. destruct o as [draws rowid obs clus|rowid|rowid obs|T col k v seed d hd ho|col|col a g p hd ho|k];
    cbn [run_op]; intros E.
  - exact (able_inc _ _ _ _ _ _ _ H A Hc E).
  - exact (able_uninc _ _ _ _ H A E).
  - exact (able_force _ _ _ _ _ H A Hw Hs E).
  - exact (able_add _ _ _ _ _ _ _ _ _ _ _ H A Hc E).
  - exact (able_remove _ _ _ _ H A Hs Hc E).
  - exact (able_cctype _ _ _ _ _ _ _ _ _ H A Hc E).
  - destruct (kernel_total n s k H A Hc) as [s1 [E1 [A1 _]]]. rewrite E in E1. injection E1 as <-. exact A1.
Qed.

(* ------------------------------------------------------------------ *)
(** ** The initial state *)

Lemma made_alpha X o x z w : view_make X o x z = Ok w -> c_alpha (v_crp w) = vs_alpha x /\ v_grid w = vs_grid x /\ v_dims w = [].
Proof.
  unfold view_make. destruct X as [|[c l] X]; [discriminate|].
  match goal with |- context [rbind ?t _] => destruct t as [k|] eqn:E end; [|discriminate]. intros F. injection F as <-. simpl.
  split; [|auto]. destruct z as [z|].
  - apply (seat_given_spec _ (crp_new (vs_alpha x)) k (crp_inv_new _) E).
  - assert (G : forall l0 c0 k0, seat_rows (vs_draw x) l0 c0 = Ok k0 -> c_alpha k0 = c_alpha c0).
    { induction l0 as [|r l0 IH]; intros c0 k0; simpl; [intros F; injection F as <-; reflexivity|].
      destruct (crp_simulate _ c0 r) as [t|]; [|discriminate]. cbn [rbind].
      destruct (crp_incorporate c0 r t) as [c1 [u|]] eqn:Ei; [|discriminate]. cbn [rbind]. intros F. rewrite (IH _ _ F).
      unfold crp_incorporate in Ei. destruct (dmem r (c_data c0)); [discriminate|]. injection Ei as <-. reflexivity. }
    exact (G _ _ _ E).
Qed.

Lemma views_made X outs zv vspecs cspecs order : forall ws,
  (forall v, 0 < vs_alpha (vp_seed (vspecs v)) /\ positive (vs_grid (vp_seed (vspecs v)))) ->
  (forall c, In c outs -> spec_ok (cspecs c)) ->
  make_views X outs zv vspecs cspecs order = Ok ws -> forall v w, dget v ws = Some w -> eager_view w.
Proof.
  induction order as [|v order IH]; intros ws Hv Hc; cbn [make_views]; [intros E; injection E as <-; discriminate|].
  destruct (view_outputs zv v outs) as [mine|] eqn:Eo; [|discriminate]. cbn [rbind].
  destruct (view_make X (crp_id_view + v) (vp_seed (vspecs v)) (vp_zr (vspecs v))) as [w0|] eqn:Em; [|discriminate]. cbn [rbind].
  destruct (view_columns (tab X) w0 (map (fun c => (c, cspecs c)) mine)) as [w1|] eqn:Ec; [|discriminate]. cbn [rbind].
  destruct (make_views X outs zv vspecs cspecs order) as [ws'|] eqn:Ew; [|discriminate]. cbn [rbind]. intros E. injection E as <-.
  intros v0 w. simpl. destruct (v0 =? v)%Z; [|apply (IH ws' Hv Hc eq_refl)]. intros E. injection E as <-.
  destruct (made_alpha _ _ _ _ _ Em) as [M1 [M2 M3]]. destruct (Hv v) as [P1 P2].
  apply (columns_eager_views (tab X) (map (fun c => (c, cspecs c)) mine) w0); [|apply Forall_map, Forall_forall|exact Ec].
  - split; [rewrite M1; exact P1|]. split; [rewrite M2; exact P2|]. rewrite M3. discriminate.
  - intros c Hi. simpl. apply Hc. clear - Eo Hi. revert mine Eo Hi. induction outs as [|x outs IH]; intros mine; simpl; [intros E; injection E as <-; auto|].
    destruct (dget x zv) as [v'|]; [|discriminate]. destruct (view_outputs zv v outs) as [l|]; [|discriminate]. cbn [rbind].
    intros E. injection E as <-. destruct (v' =? v)%Z; [|intros Hi; right; eapply IH; [reflexivity|exact Hi]].
    intros [<-|Hi]; [left; reflexivity|right; eapply IH; [reflexivity|exact Hi]].
Qed.

Lemma able_init X zv alpha grid Cd Ci vspecs cspecs order s : 0 < alpha -> positive grid ->
  (forall v, 0 < vs_alpha (vp_seed (vspecs v)) /\ positive (vs_grid (vp_seed (vspecs v)))) ->
  (forall c, In c (dkeys X) -> spec_ok (cspecs c)) ->
  state_init X zv alpha grid Cd Ci vspecs cspecs order = Ok s -> apart s -> able s.
Proof.
  intros Ha Hg Hv Hc. unfold state_init.
  destruct (seat_given zv (crp_new alpha)) as [c|] eqn:Es; [|discriminate]. cbn [rbind].
  destruct (length (c_data c) =? length (dkeys X))%nat; [|discriminate].
  destruct (make_views X (dkeys X) (c_data c) vspecs cspecs order) as [ws|] eqn:Ew; [|discriminate]. cbn [rbind].
  intros E Hap. injection E as <-. destruct (seat_given_spec _ _ _ (crp_inv_new _) Es) as [_ [Al _]].
  split; [simpl; rewrite Al; exact Ha|exact Hg| |exact Hap].
  simpl. eapply views_made; [exact Hv|exact Hc|exact Ew].
Qed.
