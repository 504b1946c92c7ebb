(** Properties C42 and C51 at the level of a crosscat state. *)
From Verif Require Import Classes ClassFacts P01_Prim P02_LogSpace P06_Dim P07_View P08_ViewErrors ColumnFacts P09_State P10_Columns.
Local Open Scope R_scope.

(* ------------------------------------------------------------------ *)
(** ** C51: forcing cells *)

(** Cells of the table, column partition, row partitions, and what the columns hold for
    the other rows do not change; columns that are not forced do not change at all; the
    state stays consistent, so a forced column holds the new value in the cluster of the
    row.  Full claim: the same without [state_inputs_forced]; that is false, see
    [C51_inputs_refuted]. *)
Theorem C51_state_partial s r obs s' : sreach safe s -> NoDup (dkeys obs) -> state_inputs_forced s obs ->
  state_force_cell s r obs = (s', Ok tt) ->
  exists n, consistent n s /\ consistent n s' /\ (0 <= r < Z.of_nat n)%Z /\
  (forall c, In c (dkeys obs) -> In c (s_outs s) /\ tab (s_X s) c r = Ok None) /\
  (forall c x, dget c obs = Some x -> tab (s_X s') c r = Ok x) /\
  (forall c r', (0 <= r')%Z -> (~ In c (dkeys obs) \/ r' <> r) -> tab (s_X s') c r' = tab (s_X s) c r') /\
  s_outs s' = s_outs s /\ s_crp s' = s_crp s /\ dkeys (s_views s') = dkeys (s_views s) /\
  forall v w w', dget v (s_views s) = Some w -> dget v (s_views s') = Some w' -> v_crp w' = v_crp w /\
    forall c a', dget c (v_dims w') = Some a' -> exists a, dget c (v_dims w) = Some a /\
      (~ In c (dkeys obs) -> a' = a) /\ akin a a' /\ (forall r', r' <> r -> acontent a' r' = acontent a r').
Proof.
  intros HR Hn Hi E. destruct (sreach_sinv s HR) as [n H]. exists n.
  destruct (state_force_ok _ _ _ _ _ H Hn Hi E) as [A [B [C [D [_ [_ [F [G [T V]]]]]]]]].
  split; [apply sinv_consistent; exact H|]. split; [apply sinv_consistent; exact B|].
  split; [exact A|]. split; [exact G|]. split.
  { intros c x Hx. rewrite T by lia. rewrite Hx, Z.eqb_refl. reflexivity. }
  split.
  { intros c r' Hr' Hor. rewrite T by exact Hr'. destruct (dget c obs) as [x|] eqn:Ex; [|reflexivity].
    destruct (Z.eqb_spec r' r); [|reflexivity]. destruct Hor as [Hor|]; [|contradiction].
    destruct Hor. eapply dget_Some_in; exact Ex. }
  do 3 (split; [assumption|]). intros v w w' Hw Hw'. destruct (V v w w' Hw Hw') as [V1 V2]. split; [exact V1|].
  intros c a' Ha. destruct (V2 c a' Ha) as [a [P [Q [R S]]]]. exists a. auto.
Qed.
Print Assumptions C51_state_partial.

(** Forcing an observed cell is rejected and nothing changes, in every state. *)
Theorem C51_observed_rejected s r obs c x : In c (dkeys obs) -> tab (s_X s) c r = Ok (Some x) ->
  exists e, state_force_cell s r obs = (s, Err e).
Proof.
  intros Hc Hx. unfold state_force_cell.
  destruct (n_rows s) as [n|]; [|eauto]. destruct (hypothetical n r); [eauto|].
  destruct (all_nan (tab (s_X s)) r (dkeys obs)) as [[]|] eqn:En; [exfalso|eauto|eauto].
  pose proof (proj1 (all_nan_spec _ _ _) En c Hc). congruence.
Qed.
Print Assumptions C51_observed_rejected.

(* ------------------------------------------------------------------ *)
(** ** C42: rejected rows *)

(** Before anything has changed: a row id that is not the next one, a column that does
    not exist, a missing value given as an observation. *)
Definition refused (s : state) (rowid : Z) (obs : dict cell) : Prop :=
  n_rows s <> Ok rowid \/ (exists c, In c (dkeys obs) /\ ~ In c (s_outs s)) \/ (exists c, In (c, None) obs).

Lemma refused_unchanged draws s rowid obs clus : refused s rowid obs ->
  exists e, state_incorporate draws s rowid obs clus = (s, Err e).
Proof.
  intros H. unfold state_incorporate. destruct (n_rows s) as [n|] eqn:En; [|eauto].
  destruct (Z.eqb_spec rowid n) as [->|]; [|cbn [negb]; eauto]. cbn [negb].
  destruct (forallb _ _) eqn:Ef; [|cbn [negb]; eauto]. cbn [negb].
  destruct (existsb _ _) eqn:Ex; [eauto|]. exfalso.
  destruct H as [H|[[c [H1 H2]]|[c H1]]]; [congruence| |].
  - rewrite forallb_forall in Ef. apply Ef in H1. apply zmem_in in H1. contradiction.
  - assert (Hb : existsb (fun x : cell => match x with None => true | _ => false end) (dvals obs) = true).
    { apply existsb_exists. exists None. split; [|reflexivity]. unfold dvals. change (@None R) with (snd (c, @None R)).
      apply in_map. exact H1. }
    congruence.
Qed.

Lemma others_kept_refl w r : others_kept w w r.
Proof. split; [reflexivity|]. split; [reflexivity|]. congruence. Qed.

Lemma views_loop_any (K : view -> view -> Prop) f ws0 vs : (forall w, K w w) ->
  (forall i v w w' rr, In v vs -> dget v ws0 = Some w -> f i v w = (w', rr) -> K w w') -> NoDup vs ->
  forall ws ws' rr, (forall v, In v vs -> dget v ws = dget v ws0) -> dkeys ws = dkeys ws0 ->
  (forall v w w', dget v ws0 = Some w -> dget v ws = Some w' -> K w w') ->
  views_loop f vs ws = (ws', rr) ->
  dkeys ws' = dkeys ws0 /\ forall v w w', dget v ws0 = Some w -> dget v ws' = Some w' -> K w w'.
Proof.
  intros Kr. induction vs as [|v0 vs IH]; intros Hf Hn ws ws' rr Ha Hk HK; cbn [views_loop].
  { intros E. injection E as <- _. auto. }
  inversion Hn as [|? ? N1 N2]; subst.
  destruct (dget v0 ws) as [w0|] eqn:E0; [|intros E; injection E as <- _; auto].
  destruct (f (length vs) v0 w0) as [w1 r1] eqn:Ef.
  assert (E00 : dget v0 ws0 = Some w0) by (rewrite <- Ha; [exact E0|left; reflexivity]).
  assert (K1 : dkeys (dset v0 w1 ws) = dkeys ws0).
  { rewrite <- Hk. apply dkeys_dset_in. eapply dget_Some_in; exact E0. }
  assert (HK1 : forall v w w', dget v ws0 = Some w -> dget v (dset v0 w1 ws) = Some w' -> K w w').
  { intros v w w' Hw. destruct (Z.eq_dec v v0) as [->|Hv].
    - rewrite dget_dset_same. intros E. injection E as <-.
      assert (w = w0) by congruence. subst w. eapply Hf; [left; reflexivity|exact E00|exact Ef].
    - rewrite dget_dset_other by exact Hv. apply HK. exact Hw. }
  destruct r1 as [[]|e1]; [|intros E; injection E as <- _; auto].
  apply IH; auto; [intros i v w w' rr0 Hv; apply Hf; right; exact Hv|].
  intros v Hv. rewrite dget_dset_other; [apply Ha; right; exact Hv|]. intros ->. contradiction.
Qed.

(** Rows are either refused without any change, or the rejection comes from a column
    of some view: then the cells of the earlier rows, the column partition, and in every
    view the clusters of the earlier rows and what the columns hold for them have not
    changed.  Full claim: nothing at all has changed; that is false, see
    [C42_state_refuted].  The clusters are given, so that the step that draws a cluster is
    not involved. *)
Theorem C42_state_partial draws s rowid obs clus s' e : sreach safe s ->
  (forall v w, dget v (s_views s) = Some w -> exists k, dget (v_out w) clus = Some k) ->
  state_incorporate draws s rowid obs clus = (s', Err e) ->
  (refused s rowid obs -> s' = s) /\
  (forall c r, (0 <= r < rowid)%Z -> tab (s_X s') c r = tab (s_X s) c r) /\
  s_outs s' = s_outs s /\ s_crp s' = s_crp s /\ dkeys (s_views s') = dkeys (s_views s) /\
  forall v w w', dget v (s_views s) = Some w -> dget v (s_views s') = Some w' -> others_kept w w' rowid.
Proof.
  intros HR Hcl E. destruct (sreach_sinv s HR) as [n H].
  split. { intros Hr. destruct (refused_unchanged draws s rowid obs clus Hr) as [e' E']. congruence. }
  assert (Same : forall c r, (0 <= r < rowid)%Z -> tab (s_X s) c r = tab (s_X s) c r) by reflexivity.
  assert (Kept : forall v w w', dget v (s_views s) = Some w -> dget v (s_views s) = Some w' -> others_kept w w' rowid).
  { intros v w w' H1 H2. rewrite H1 in H2. injection H2 as <-. apply others_kept_refl. }
  revert E. unfold state_incorporate. rewrite (sinv_n_rows _ _ H).
  destruct (Z.eqb_spec rowid (Z.of_nat n)) as [->|]; [|intros E; injection E as <- _; auto 10]. cbn [negb].
  destruct (forallb _ _) eqn:Ef; [|intros E; injection E as <- _; auto 10]. cbn [negb].
  destruct (existsb _ _); [intros E; injection E as <- _; auto 10|].
  destruct (append_row (s_outs s) obs (s_X s)) as [X r] eqn:Ea.
  destruct (append_row_spec _ _ _ _ _ (si_nodup _ _ H) Ea) as [-> [KX SX]].
  { intros c Hc. apply (si_X _ _ H). exact Hc. }
  destruct (tab_append n _ obs _ X (si_X _ _ H) (si_len _ _ H) SX) as [T1 T2].
  assert (En1 : n_rows (set_X s X) = Ok (Z.of_nat (S n))).
  { unfold n_rows. cbn [s_outs s_X set_X]. pose proof (si_ne _ _ H). destruct (s_outs s) as [|c o] eqn:E; [contradiction|].
    rewrite SX. replace (zmem c (c :: o)) with true by (symmetry; apply zmem_in; left; reflexivity).
    assert (Hc : In c (dkeys (s_X s))) by (apply (si_X _ _ H); rewrite E; left; reflexivity).
    apply in_dkeys_Some in Hc. destruct Hc as [l Hl]. rewrite Hl. cbn [option_map].
    rewrite app_length, (si_len _ _ H c l Hl). cbn [length]. do 2 f_equal. lia. }
  rewrite En1. unfold hypothetical.
  replace (0 <=? Z.of_nat n)%Z with true by (symmetry; apply Z.leb_le; lia).
  replace (Z.of_nat n <? Z.of_nat (S n))%Z with true by (symmetry; apply Z.ltb_lt; lia).
  cbn [andb negb].
  match goal with |- context [views_loop ?ff _ _] => set (f := ff) end.
  destruct (views_loop f (dkeys (s_views s)) (s_views s)) as [ws r2] eqn:El.
  intros E. injection E as <- ->.
  assert (Hf : forall i v w w' rr, In v (dkeys (s_views s)) -> dget v (s_views s) = Some w -> f i v w = (w', rr) ->
    others_kept w w' (Z.of_nat n)).
  { intros i v w w' rr _ Hw Ef'. unfold f in Ef'.
    destruct (table_row (tab X) w (Z.of_nat n)) as [q|]; [|injection Ef' as <- _; apply others_kept_refl].
    destruct (Hcl v w Hw) as [k Hk]. rewrite Hk in Ef'. unfold view_incorporate in Ef'.
    destruct (view_insert (tab X) w (Z.of_nat n) k q) as [v1 r1] eqn:E1.
    destruct (si_view _ _ H v w Hw) as [V _].
    destruct r1; injection Ef' as <- _; eapply insert_kept; eassumption. }
  destruct (views_loop_any (fun w w' => others_kept w w' (Z.of_nat n)) f (s_views s) (dkeys (s_views s))
    (fun w => others_kept_refl w _) Hf (si_nv _ _ H) (s_views s) ws (Err e)
    (fun v _ => eq_refl) eq_refl Kept El) as [A B].
  cbn [s_X s_outs s_crp s_views set_X set_views]. split; [|auto].
  intros c r Hr. apply T1. lia.
Qed.
Print Assumptions C42_state_partial.

(** A column of one class whose values are checked; the states of [good_s]. *)
Section Rejected.
  Context (P : prim) (n : nat) (hs : nat -> R -> pH P -> pH P) (h : pH P) (q : pQ P) (x : R) (e : exn).
  Hypothesis Hx : p_check P x = Err e.
  Local Notation col := (bug_col P n hs h q).
  Local Notation s := (good_s P n hs h q [] []).
  Local Notation clus := [((crp_id_view + 1)%Z, 0%Z); ((crp_id_view + 8)%Z, 0%Z)].
  Definition rej_table : dict (list cell) := [(0%Z, [None; None; Some x]); (1%Z, [None; None; None])].
  Definition rej_state : state :=
    State [0; 1]%Z rej_table (Crp 2 [(0, 8); (1, 1)]%Z [(8, 1); (1, 1)]%Z 1) [1]
      [(1%Z, View (crp_id_view + 1) (Crp 3 [(0, 0); (1, 1); (2, 0)]%Z [(0, 2); (1, 1)]%Z 1) [1]
                [(1%Z, col [(0, 0); (1, 1); (2, 0)]%Z [0; 1]%Z 7)]);
       (8%Z, View (crp_id_view + 8) (Crp 3 [(0, 0); (1, 0); (2, 0)]%Z [(0, 3)]%Z 1) [1]
                [(0%Z, col [(0, 0); (1, 0)]%Z [0]%Z 5)])] [] [].

  Lemma col_reject r : dmem r [(0, 0); (1, 0)]%Z = false ->
    a_incorporate (col [(0, 0); (1, 0)]%Z [0]%Z 5) r 0 (Some x) [] = (col [(0, 0); (1, 0)]%Z [0]%Z 5, Err e).
  Proof.
    intros Hr. unfold a_incorporate, dim_incorporate. cbn [a_M a_d bug_col d_zr d_zi].
    change (dmem r []) with false. rewrite Hr. cbn [orb]. unfold bug_col.
    cbn. unfold prim_incorporate. cbn. rewrite Hx. reflexivity.
  Qed.

  Lemma row_rejected draws : state_incorporate draws s 2 [(0%Z, Some x)] clus = (rej_state, Err e).
  Proof.
    unfold state_incorporate. change (n_rows s) with (Ok 2%Z). cbv iota.
    change (negb (2 =? 2)%Z) with false. cbv iota.
    change (negb _) with false. cbv iota. change (existsb _ _) with false. cbv iota.
    change (append_row _ _ _) with (rej_table, @Ok unit tt). cbv iota beta.
    change (n_rows (set_X s rej_table)) with (Ok 3%Z). cbv iota zeta.
    change (hypothetical 3 2) with false. cbv iota.
    change (dkeys (s_views s)) with [1%Z; 8%Z]. 
    change (s_views s) with [(1%Z, bug_v1 P n hs h q); (8%Z, bug_v8 P n hs h q)].
    cbn [views_loop length].
    change (dget 1%Z _) with (Some (bug_v1 P n hs h q)). cbv iota.
    change (table_row (tab rej_table) (bug_v1 P n hs h q) 2) with (Ok [(1%Z, @None R)]). cbv iota.
    change (dget (v_out (bug_v1 P n hs h q)) clus) with (Some 0%Z).
    change (view_incorporate (tab rej_table) (draws 1%nat) (bug_v1 P n hs h q) 2 (Some 0%Z) [(1%Z, @None R)])
      with (View (crp_id_view + 1) (Crp 3 [(0, 0); (1, 1); (2, 0)]%Z [(0, 2); (1, 1)]%Z 1) [1]
                [(1%Z, col [(0, 0); (1, 1); (2, 0)]%Z [0; 1]%Z 7)], @Ok unit tt). cbv iota beta.
    change (dget 8%Z _) with (Some (bug_v8 P n hs h q)). cbv iota.
    change (table_row (tab rej_table) (bug_v8 P n hs h q) 2) with (Ok [(0%Z, Some x)]). cbv iota.
    change (dget (v_out (bug_v8 P n hs h q)) clus) with (Some 0%Z).
    assert (E8 : view_incorporate (tab rej_table) (draws 0%nat) (bug_v8 P n hs h q) 2 (Some 0%Z) [(0%Z, Some x)]
      = (View (crp_id_view + 8) (Crp 3 [(0, 0); (1, 0); (2, 0)]%Z [(0, 3)]%Z 1) [1]
                [(0%Z, col [(0, 0); (1, 0)]%Z [0]%Z 5)], Err e)).
    { unfold view_incorporate, view_insert.
      change (crp_incorporate (v_crp (bug_v8 P n hs h q)) 2 0)
        with (Crp 3 [(0, 0); (1, 0); (2, 0)]%Z [(0, 3)]%Z 1, @Ok unit tt). cbv iota beta.
      change (v_dims (bug_v8 P n hs h q)) with [(0%Z, col [(0, 0); (1, 0)]%Z [0]%Z 5)].
      cbn [dims_incorporate]. change (dget 0%Z [(0%Z, Some x)]) with (Some (Some x)). cbv iota.
      change (input_values (tab rej_table) 2 (col [(0, 0); (1, 0)]%Z [0]%Z 5)) with (Ok (@nil cell)). cbv iota.
      rewrite col_reject by reflexivity. reflexivity. }
    rewrite E8. reflexivity.
  Qed.

  (** Forcing a cell with a value its column rejects. *)
  Definition rej_forced : state :=
    State [0; 1]%Z [(0%Z, [Some x; None]); (1%Z, [None; None])] (Crp 2 [(0, 8); (1, 1)]%Z [(8, 1); (1, 1)]%Z 1) [1]
      [(1%Z, bug_v1 P n hs h q);
       (8%Z, set_dims bug_w8 [(0%Z, col [(1, 0)]%Z [0]%Z 5)])] [] [].
  Lemma cell_rejected : state_force_cell s 0 [(0%Z, Some x)] = (rej_forced, Err e).
  Proof.
    unfold state_force_cell. change (n_rows s) with (Ok 2%Z). cbv iota.
    change (hypothetical 2 0) with false. cbv iota.
    change (all_nan _ _ _) with (Ok true). cbv iota zeta.
    change (set_cells _ _ _) with [(0%Z, [Some x; @None R]); (1%Z, [None; None])].
    change (partition_list _ _) with (Ok [(8, [0])]%Z). cbv iota.
    change (dkeys [(8, [0])]%Z) with [8%Z]. 
    change (s_views s) with [(1%Z, bug_v1 P n hs h q); (8%Z, bug_v8 P n hs h q)].
    cbn [views_loop length].
    change (dget 8%Z [(1%Z, bug_v1 P n hs h q); (8%Z, bug_v8 P n hs h q)]) with (Some (bug_v8 P n hs h q)). cbv iota.
    change (sub_obs _ _) with [(0%Z, Some x)].
    assert (E8 : view_force_cell (tab [(0%Z, [Some x; @None R]); (1%Z, [None; None])]) (bug_v8 P n hs h q) 0 [(0%Z, Some x)]
      = (set_dims bug_w8 [(0%Z, col [(1, 0)]%Z [0]%Z 5)], Err e)).
    { unfold view_force_cell. change (dget 0%Z (v_rows (bug_v8 P n hs h q))) with (Some 0%Z). cbv iota.
      change (v_dims (bug_v8 P n hs h q)) with [(0%Z, col [(0, 0); (1, 0)]%Z [0]%Z 5)].
      cbn [force_cells]. change (dget 0%Z [(0%Z, col [(0, 0); (1, 0)]%Z [0]%Z 5)]) with (Some (col [(0, 0); (1, 0)]%Z [0]%Z 5)).
      cbv iota. change (a_unincorporate (col [(0, 0); (1, 0)]%Z [0]%Z 5) 0) with (col [(1, 0)]%Z [0]%Z 5, @Ok unit tt). cbv iota beta.
      change (input_values _ 0 _) with (Ok (@nil cell)). cbv iota.
      assert (EI : a_incorporate (col [(1, 0)]%Z [0]%Z 5) 0 0 (Some x) [] = (col [(1, 0)]%Z [0]%Z 5, Err e)).
      { unfold a_incorporate, dim_incorporate. cbn. unfold prim_incorporate. cbn. rewrite Hx. reflexivity. }
      rewrite EI. reflexivity. }
    rewrite E8. reflexivity.
  Qed.
End Rejected.

(** Finding: a rejected row has been appended to the table, sits in the row partition of
    every view reached and cannot be removed again; a rejected cell is in the table and
    the row is no longer in the column. *)
Theorem C42_state_refuted : exists s obs clus r0,
  sreach safe s /\ n_rows s = Ok 2%Z /\
  (exists s' e, (forall draws, state_incorporate draws s 2 obs clus = (s', Err e)) /\
     n_rows s' = Ok 3%Z /\
     (forall v w', dget v (s_views s') = Some w' -> dget 2%Z (v_rows w') = Some 0%Z) /\
     is_ok (snd (state_unincorporate s' 2)) = false) /\
  (exists s' e x, state_force_cell s r0 obs = (s', Err e) /\ tab (s_X s) 0%Z r0 = Ok None /\
     tab (s_X s') 0%Z r0 = Ok (Some x) /\
     exists w a, dget 8%Z (s_views s') = Some w /\ dget 0%Z (v_dims w) = Some a /\
       In r0 (dkeys (v_rows w)) /\ ~ In r0 (dkeys (d_zr (a_d a))) /\ ~ In r0 (dkeys (d_zi (a_d a)))).
Proof.
  assert (HQ : p_check (Bernoulli ex_lgam) 2 = Err ValueError).
  { cbn. unfold bern_inb, Reqb. destruct (Req_EM_T 2 0); [lra|]. destruct (Req_EM_T 2 1); [lra|]. reflexivity. }
  exists (ex_state [] []), [(0%Z, Some 2)], [((crp_id_view + 1)%Z, 0%Z); ((crp_id_view + 8)%Z, 0%Z)], 0%Z.
  split; [apply ex_state_reach|]. split; [reflexivity|]. split.
  - exists (rej_state (Bernoulli ex_lgam) 2 hset_pair (1, 1) tt 2), ValueError.
    split; [intros draws; apply row_rejected; exact HQ|]. split; [reflexivity|]. split; [|reflexivity].
    intros v w'. unfold rej_state. cbn [s_views dget].
    destruct (v =? 1)%Z; [intros E; injection E as <-; reflexivity|].
    destruct (v =? 8)%Z; [intros E; injection E as <-; reflexivity|discriminate].
  - exists (rej_forced (Bernoulli ex_lgam) 2 hset_pair (1, 1) tt 2), ValueError, 2.
    split; [apply cell_rejected; exact HQ|]. split; [reflexivity|]. split; [reflexivity|].
    eexists _, _. split; [reflexivity|]. split; [reflexivity|].
    split; [left; reflexivity|]. split; [intros []|]. intros [H|[]]. discriminate.
Qed.
Print Assumptions C42_state_refuted.

(** The hypotheses of C42_state_partial and of C51 on the example state. *)
Example C42_state_ex : exists s s' obs clus e, sreach safe s /\
  (forall v w, dget v (s_views s) = Some w -> exists k, dget (v_out w) clus = Some k) /\
  state_incorporate (fun _ _ _ => 0%nat) s 2 obs clus = (s', Err e) /\ ~ refused s 2 obs.
Proof.
  assert (HQ : p_check (Bernoulli ex_lgam) 2 = Err ValueError).
  { cbn. unfold bern_inb, Reqb. destruct (Req_EM_T 2 0); [lra|]. destruct (Req_EM_T 2 1); [lra|]. reflexivity. }
  exists (ex_state [] []), (rej_state (Bernoulli ex_lgam) 2 hset_pair (1, 1) tt 2), [(0%Z, Some 2)],
    [((crp_id_view + 1)%Z, 0%Z); ((crp_id_view + 8)%Z, 0%Z)], ValueError.
  split; [apply ex_state_reach|]. split; [|split; [apply row_rejected; exact HQ|]].
  - intros v w. change (s_views (ex_state [] [])) with
      [(1%Z, bug_v1 (Bernoulli ex_lgam) 2 hset_pair (1, 1) tt); (8%Z, bug_v8 (Bernoulli ex_lgam) 2 hset_pair (1, 1) tt)].
    cbn [dget]. destruct (v =? 1)%Z; [intros E; injection E as <-; exists 0%Z; reflexivity|].
    destruct (v =? 8)%Z; [intros E; injection E as <-; exists 0%Z; reflexivity|discriminate].
  - intros [H|[[c [[<-|[]] Hc]]|[c [H|[]]]]]; [apply H; reflexivity|apply Hc; left; reflexivity|discriminate].
Qed.


Section Accepted.
  Context (P : prim) (n : nat) (hs : nat -> R -> pH P -> pH P) (h : pH P) (q : pQ P) (x : R).
  Hypothesis Hx : p_check P x = Ok x.
  Local Notation col := (bug_col P n hs h q).
  Local Notation s := (good_s P n hs h q [] []).
  Definition forced_col : adim :=
    ADim (of_prim P n hs) (@Dim (of_prim P n hs) [(0%Z, PState [(0%Z, x)] (p_add P x (p_init P)) h q)] [(0, 0)]%Z [(1, 0)]%Z
      (prim_new P h q) h [] true [] (fun _ => q) 5).
  Definition forced_state : state :=
    State [0; 1]%Z [(0%Z, [Some x; None]); (1%Z, [None; None])] (Crp 2 [(0, 8); (1, 1)]%Z [(8, 1); (1, 1)]%Z 1) [1]
      [(1%Z, bug_v1 P n hs h q); (8%Z, set_dims bug_w8 [(0%Z, forced_col)])] [] [].
  Lemma cell_forced : state_force_cell s 0 [(0%Z, Some x)] = (forced_state, Ok tt).
  Proof.
    unfold state_force_cell. change (n_rows s) with (Ok 2%Z). cbv iota.
    change (hypothetical 2 0) with false. cbv iota.
    change (all_nan _ _ _) with (Ok true). cbv iota zeta.
    change (set_cells _ _ _) with [(0%Z, [Some x; @None R]); (1%Z, [None; None])].
    change (partition_list _ _) with (Ok [(8, [0])]%Z). cbv iota.
    change (dkeys [(8, [0])]%Z) with [8%Z].
    change (s_views s) with [(1%Z, bug_v1 P n hs h q); (8%Z, bug_v8 P n hs h q)].
    cbn [views_loop length].
    change (dget 8%Z [(1%Z, bug_v1 P n hs h q); (8%Z, bug_v8 P n hs h q)]) with (Some (bug_v8 P n hs h q)). cbv iota.
    change (sub_obs _ _) with [(0%Z, Some x)].
    assert (E8 : view_force_cell (tab [(0%Z, [Some x; @None R]); (1%Z, [None; None])]) (bug_v8 P n hs h q) 0 [(0%Z, Some x)]
      = (set_dims bug_w8 [(0%Z, forced_col)], Ok tt)).
    { unfold view_force_cell. change (dget 0%Z (v_rows (bug_v8 P n hs h q))) with (Some 0%Z). cbv iota.
      change (v_dims (bug_v8 P n hs h q)) with [(0%Z, col [(0, 0); (1, 0)]%Z [0]%Z 5)].
      cbn [force_cells]. change (dget 0%Z [(0%Z, col [(0, 0); (1, 0)]%Z [0]%Z 5)]) with (Some (col [(0, 0); (1, 0)]%Z [0]%Z 5)).
      cbv iota. change (a_unincorporate (col [(0, 0); (1, 0)]%Z [0]%Z 5) 0) with (col [(1, 0)]%Z [0]%Z 5, @Ok unit tt). cbv iota beta.
      change (input_values _ 0 _) with (Ok (@nil cell)). cbv iota.
      assert (EI : a_incorporate (col [(1, 0)]%Z [0]%Z 5) 0 0 (Some x) [] = (forced_col, Ok tt)).
      { unfold a_incorporate, dim_incorporate. cbn. unfold prim_incorporate. cbn. rewrite Hx. reflexivity. }
      rewrite EI. reflexivity. }
    rewrite E8. reflexivity.
  Qed.
End Accepted.

Example C51_state_ex : exists s s', sreach safe s /\ state_inputs_forced s [(0%Z, Some 1)] /\
  state_force_cell s 0 [(0%Z, Some 1)] = (s', Ok tt) /\ tab (s_X s) 0%Z 0%Z = Ok None /\
  tab (s_X s') 0%Z 0%Z = Ok (Some 1).
Proof.
  exists (ex_state [] []), (forced_state (Bernoulli ex_lgam) 2 hset_pair (1, 1) tt 1).
  split; [apply ex_state_reach|]. split.
  { intros v w. change (s_views (ex_state [] [])) with
      [(1%Z, bug_v1 (Bernoulli ex_lgam) 2 hset_pair (1, 1) tt); (8%Z, bug_v8 (Bernoulli ex_lgam) 2 hset_pair (1, 1) tt)].
    cbn [dget]. destruct (v =? 1)%Z; [|destruct (v =? 8)%Z; [|discriminate]];
      intros E; injection E as <-; intros c a i Ha Hi; cbn [v_dims bug_v1 bug_v8 set_dims dget] in Ha;
      [destruct (c =? 1)%Z|destruct (c =? 0)%Z]; try discriminate; injection Ha as <-; destruct Hi. }
  split; [|split; reflexivity]. apply cell_forced.
  cbn. unfold bern_inb, Reqb. destruct (Req_EM_T 1 1); [|lra]. destruct (Req_EM_T 1 0); reflexivity.
Qed.
