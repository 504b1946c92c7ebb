(** Properties C27 and C29: the reassignment of columns to views. *)
From Verif Require Import Classes ClassFacts LogSpaceFacts P01_Prim P02_LogSpace P06_Dim P07_View ColumnFacts P09_State.
Local Open Scope R_scope.

(* ------------------------------------------------------------------ *)
(** ** What the kernels leave alone *)

Ltac frame := intros E; injection E as <- _; repeat split.

Lemma migrate_grid s c va vb b s' r : migrate_dim s c va vb b = (s', r) -> s_grid s' = s_grid s.
Proof.
  unfold migrate_dim, migrate_to.
  destruct (dget va (c_counts (s_crp s))) as [nva|]; [|frame].
  destruct (dget va (s_views s)) as [wa|]; [|frame].
  destruct (if dmem c (v_dims wa) then _ else _) as [wa1 [[]|e]]; [|frame].
  destruct (dget vb _) as [wb|]; [|frame].
  destruct (view_incorporate_dim _ wb c b _) as [[wb1 b1] r2].
  destruct (rbind r2 _); [|frame].
  destruct (crp_unincorporate _ c) as [k1 [[]|e]]; [|frame].
  destruct (crp_incorporate k1 c vb) as [k2 [[]|e]]; [|frame].
  destruct (nva =? 1)%Z; [|frame]. destruct (dmem va (c_counts k2)); frame.
Qed.

Lemma transition_dim_grid d s c m s' r : transition_dim d s c m = (s', r) -> s_grid s' = s_grid s.
Proof.
  unfold transition_dim.
  destruct (all_dims s) as [ds|]; [|frame]. destruct (existsb _ ds); [frame|]. destruct (s_Cd s); [|frame].
  destruct (dim_for s c) as [a|]; [|frame].
  destruct (column_plan (cd_seeds d) s c m a) as [s1 r0] eqn:Ep.
  assert (G : s_grid s1 = s_grid s).
  { revert Ep. unfold column_plan. destruct (data_logps _ c a a (s_views s)) as [[ws sh] [ex|e]]; frame. }
  rewrite <- G. clear Ep G. destruct r0 as [p|e]; [|frame].
  destruct (log_pflip _ _ _) as [[vb prop]|]; [|frame].
  destruct (dget c (s_zv s1)) as [va|]; [|frame].
  destruct (va =? vb)%Z.
  - destruct (dget va (s_views s1)) as [wa|]; [|frame]. destruct (view_incorporate_dim _ wa c _ _) as [[wa1 b1] r1]. frame.
  - destruct (zmax_list (dkeys (s_views s1))) as [mx|]; [|frame].
    destruct (mx <? vb)%Z; [|apply migrate_grid].
    destruct (dget vb (cp_aux p)) as [w|]; [|frame]. intros E. apply migrate_grid in E. exact E.
Qed.

Lemma dims_call_grid cols o : forall s s' r, dims_call s cols o = (s', r) -> s_grid s' = s_grid s.
Proof.
  induction cols as [|c cols IH]; intros s s' r; cbn [dims_call]; [frame|].
  destruct (dim_call s c (o (length cols) c)) as [s1 r1] eqn:E1.
  destruct (dim_call_frame _ _ _ _ _ E1) as [_ [_ [G _]]]. rewrite <- G. destruct r1; [apply IH|frame].
Qed.

(** A kernel other than the reassignment of columns leaves the column partition alone;
    a positive concentration stays positive. *)
Lemma kernel_frame s k s' r : rows_kernel k -> run_kernel s k = (s', r) ->
  s_zv s' = s_zv s /\ s_grid s' = s_grid s /\
  (r = Ok tt -> Forall (Rlt 0) (s_grid s) -> 0 < c_alpha (s_crp s) -> 0 < c_alpha (s_crp s')).
Proof.
  intros Hk. destruct k as [lgam draw|lgam draws vs|cols|cols draws order|cols grids picks|draws vs rows|d m cols];
    cbn [run_kernel]; [| | | | | |destruct Hk].
  - destruct (crp_transition_alpha lgam draw (s_grid s) (s_crp s)) as [c r0] eqn:E0.
    destruct (crp_transition_alpha_same _ _ _ _ _ _ E0) as [A [_ [_ D]]].
    intros E. injection E as <- <-. split; [exact A|]. split; [reflexivity|].
    intros -> HF _. rewrite Forall_forall in HF. apply HF, D. reflexivity.
  - destruct (views_loop _ _ _). intros E. injection E as <- _. auto.
  - intros E. pose proof (dims_call_grid _ _ _ _ _ E). destruct (dims_call_frame _ _ _ _ _ E) as [_ G].
    unfold s_zv. rewrite G. auto.
  - intros E. pose proof (dims_call_grid _ _ _ _ _ E). destruct (dims_call_frame _ _ _ _ _ E) as [_ G].
    unfold s_zv. rewrite G. auto.
  - intros E. pose proof (dims_call_grid _ _ _ _ _ E). destruct (dims_call_frame _ _ _ _ _ E) as [_ G].
    unfold s_zv. rewrite G. auto.
  - destruct (n_rows s) as [n|]; [|intros E; injection E as <- _; auto].
    destruct (n =? 1)%Z; [intros E; injection E as <- _; auto|].
    destruct (views_loop _ _ _). intros E. injection E as <- _. auto.
Qed.

(* ------------------------------------------------------------------ *)
(** ** C27: constraints on the column partition *)

(** Columns that must be together: [v] is the one view they are all in. *)
Definition together (s : state) (b : list Z) : Prop :=
  exists v, forall c, In c b -> dget c (s_zv s) = Some v.
(** Columns that must be apart: no two of them are in one view. *)
Definition apart (s : state) (b : list Z) : Prop :=
  forall x y v, In x b -> In y b -> x <> y -> dget x (s_zv s) = Some v -> dget y (s_zv s) <> Some v.

Lemma transition_dims_blocked d m cols s s' r : s_Cd s <> [] -> transition_dims d m s cols = (s', r) -> s' = s.
Proof.
  intros H. destruct cols as [|c cols]; cbn [transition_dims]; [intros E; injection E as <- _; reflexivity|].
  unfold transition_dim. destruct (all_dims s) as [ds|]; [|intros E; injection E as <- _; reflexivity].
  destruct (existsb _ ds); [intros E; injection E as <- _; reflexivity|].
  destruct (s_Cd s); [contradiction|]. intros E; injection E as <- _; reflexivity.
Qed.

(** If there are blocks of columns that must be together, no kernel, with whatever
    draws and result, changes the column partition: in particular no block is split. *)
Theorem C27_blocks_kept s ks s' r : run_kernels s ks = (s', r) -> s_Cd s <> [] ->
  s_Cd s' = s_Cd s /\ s_zv s' = s_zv s /\ forall b, In b (s_Cd s') -> together s b -> together s' b.
Proof.
  intros E Hne.
  assert (Z : s_zv s' = s_zv s).
  { revert s E Hne. induction ks as [|k ks IH]; intros s; cbn [run_kernels].
    { intros E _. injection E as <- _. reflexivity. }
    destruct (run_kernel s k) as [s1 r1] eqn:E1. intros E Hne.
    assert (Z1 : s_zv s1 = s_zv s).
    { assert (Hk : rows_kernel k \/ exists d m cols, k = KColumns d m cols) by (destruct k; simpl; eauto 6).
      destruct Hk as [Hk|[d [m [cols ->]]]]; [apply (kernel_frame _ _ _ _ Hk E1)|].
      cbn [run_kernel] in E1. rewrite (transition_dims_blocked _ _ _ _ _ _ Hne E1). reflexivity. }
    destruct r1; [|injection E as <- _; exact Z1].
    rewrite <- Z1. apply IH; [exact E|]. destruct (kernel_data _ _ _ _ E1) as [_ [_ [C _]]]. rewrite C. exact Hne. }
  split; [apply (C26_data_unchanged _ _ _ _ E)|]. split; [exact Z|].
  intros b _ [v H]. exists v. rewrite Z. exact H.
Qed.
Print Assumptions C27_blocks_kept.

Definition draws_ok (k : kernel) : Prop :=
  match k with KColumns d _ _ => forall i, draw_ok (cd_draw (d i)) | _ => True end.

Lemma sorted_ascending s : ascending (dkeys (s_views s)) -> sorted_views s.
Proof. intros H. unfold sorted_views. apply ascending_zsort. exact H. Qed.

Lemma transition_dims_ci n d m cols : forall s s', sinv n s -> ascending (dkeys (s_views s)) ->
  0 < c_alpha (s_crp s) -> (forall i, draw_ok (cd_draw (d i))) -> ci_kept s ->
  transition_dims d m s cols = (s', Ok tt) ->
  sinv n s' /\ ascending (dkeys (s_views s')) /\ 0 < c_alpha (s_crp s') /\ ci_kept s' /\ s_grid s' = s_grid s.
Proof.
  induction cols as [|c cols IH]; intros s s' H Hs Ha Hd Hc; cbn [transition_dims].
  { intros E. injection E as <-. auto. }
  destruct (transition_dim (d (length cols)) s c m) as [s1 [[]|e]] eqn:E1; [|discriminate].
  intros E. rewrite <- (transition_dim_grid _ _ _ _ _ _ E1).
  assert (H1 : sinv n s1).
  { apply (transition_dim_ok n (d (length cols)) s c m s1 H); [|exact E1].
    intros a _. right. apply sorted_ascending. exact Hs. }
  pose proof (transition_dim_ci _ _ _ _ _ _ H Hs Ha (Hd _) Hc E1) as C1.
  destruct (transition_dim_drawn _ _ _ _ _ _ H E1) as [a [s2 [p [vb [pr [_ [_ [_ [_ [_ [_ [A1 S1]]]]]]]]]]]].
  apply IH; auto. rewrite A1. exact Ha.
Qed.

(** Full claim: the same for every state built through the public operations.  That is
    false of the code, see [C27_refuted]; proved here for the states whose views, in the
    order in which they were made, have ascending numbers. *)
Theorem C27_pairs_kept_partial s ks s' : sreach safe s -> ascending (dkeys (s_views s)) ->
  0 < c_alpha (s_crp s) -> Forall (Rlt 0) (s_grid s) -> Forall draws_ok ks ->
  (forall b, In b (s_Ci s) -> apart s b) -> run_kernels s ks = (s', Ok tt) ->
  s_Ci s' = s_Ci s /\ forall b, In b (s_Ci s') -> apart s' b.
Proof.
  intros HR Hs Ha Hg Hd Hc E. destruct (sreach_sinv s HR) as [n H].
  split; [apply (C26_data_unchanged _ _ _ _ E)|].
  assert (K : ci_kept s) by (intros b x y v Hb; apply (Hc b Hb)).
  cut (ci_kept s'). { intros K' b Hb x y v. apply (K' b x y v Hb). }
  clear HR Hc. revert s H Hs Ha Hg K E. induction Hd as [|k ks Hk Hks IH]; intros s H Hs Ha Hg K; cbn [run_kernels].
  { intros E. injection E as <-. exact K. }
  destruct (run_kernel s k) as [s1 [[]|e]] eqn:E1; [|discriminate].
  assert (Hkk : rows_kernel k \/ exists d m cols, k = KColumns d m cols) by (destruct k; simpl; eauto 6).
  destruct Hkk as [Hkk|[d [m [cols ->]]]].
  - destruct (kernel_frame _ _ _ _ Hkk E1) as [Z [G A]].
    destruct (kernel_ok n s k s1 H Hkk E1) as [H1 [[_ [_ [_ C]]] [_ V]]].
    apply IH; auto; [rewrite V; exact Hs|rewrite G; exact Hg|].
    intros b x y v. rewrite C, Z. apply K.
  - cbn [run_kernel] in E1.
    destruct (transition_dims_ci n d m cols s s1 H Hs Ha Hk K E1) as [H1 [S1 [A1 [C1 G1]]]].
    apply IH; auto. rewrite G1. exact Hg.
Qed.
Print Assumptions C27_pairs_kept_partial.

(* ------------------------------------------------------------------ *)
(** ** C29: the weights of a column step *)

(** The prior weight of view [v] for column [c]: the number of the other columns in it,
    or a share of the concentration if there is none. *)
Definition prior_of (s : state) (c : Z) (m : nat) (v : Z) : R :=
  let others := filter (fun p => negb (fst p =? c)%Z && (snd p =? v)%Z) (s_zv s) in
  match others with [] => c_alpha (s_crp s) / INR m | _ => INR (length others) end.
Lemma prior_of_eq s c m v : prior s c m v = prior_of s c m v.
Proof. unfold prior, prior_of, others. destruct (filter _ (s_zv s)); reflexivity. Qed.

(** Column [b] is column [a] arranged by the rows of view [w]: same class, inputs and
    hyperparameters, and its clusters hold what the rows of [w] say. *)
Definition arranged (s : state) (c : Z) (w : view) (a b : adim) : Prop :=
  akin a b /\ hkin a b /\ column_follows (tab (s_X s)) w c b /\
  (m_coll (a_M a) = true -> forall k x, dget k (d_clusters (a_d b)) = Some x -> m_hyp (a_M b) x = d_hyp (a_d b)).

Lemma plan_weights seeds s c m a s1 p : sreach safe s -> ascending (dkeys (s_views s)) ->
  0 < c_alpha (s_crp s) -> dim_for s c = Ok a -> column_plan seeds s c m a = (s1, Ok p) ->
  length (cp_weights p) = length (cp_tables p) /\ NoDup (cp_tables p) /\
  forall v w, dget v (s_views s) = Some w ->
    exists i b lp, nth_error (cp_tables p) i = Some v /\ arranged s c w a b /\ a_score b = Ok lp /\
      nth_error (cp_weights p) i = Some (if existsb (fun c' => match dget c' (s_zv s) with
                                                           | Some v' => (v' =? v)%Z | None => false end) (avoid (s_Ci s) c)
                               then NInf else eadd lp (Fin (ln (prior_of s c m v)))).
Proof.
  intros HR Hs Ha Hd E. destruct (sreach_sinv s HR) as [n H].
  split; [|split].
  - destruct (column_plan_ok _ _ _ _ _ _ _ _ H Hd E)
      as [ws [ex [ax [auxs [lc [_ [_ [Et [_ [_ [_ [Fx [_ [_ [_ [_ [_ [El [Len [Em EL]]]]]]]]]]]]]]]]]]]].
    symmetry. exact EL.
  - destruct (column_plan_ok _ _ _ _ _ _ _ _ H Hd E) as [ws [ex [ax [auxs [lc [_ [_ [Et _]]]]]]]].
    apply (firstn_skipn_tables _ _ _ _ _ H Et).
  - intros v w Hw. assert (Hin := dget_In _ _ _ Hw). destruct (In_nth_error _ _ Hin) as [i Hi].
    destruct (column_weights _ _ _ _ _ _ _ _ H Ha Hd E i v w Hi)
      as [t [b [lp [T1 [T2 [K1 [K2 [K3 [K4 [K5 W]]]]]]]]]].
    assert (Kv : nth_error (dkeys (s_views s)) i = Some v) by (unfold dkeys; rewrite nth_error_map, Hi; reflexivity).
    assert (t = v).
    { rewrite <- (sorted_ascending _ Hs) in T1. congruence. }
    subst t. exists i, b, lp. split; [exact T2|]. split.
    + split; [exact K1|]. split; [exact K2|]. split.
      * apply column_ok_follows; [|exact K4]. apply (si_view _ _ H v w Hw).
      * intros Hm k x Hk. exact (proj2 (K3 Hm) k x Hk).
    + split; [exact K5|]. rewrite W. f_equal. rewrite prior_of_eq.
      replace (struck s (dkeys (s_views s)) (avoid (s_Ci s) c) i) with
        (existsb (fun c' => match dget c' (s_zv s) with Some v' => (v' =? v)%Z | None => false end) (avoid (s_Ci s) c));
        [reflexivity|].
      clear W. unfold struck. rewrite Kv. induction (avoid (s_Ci s) c) as [|x l IH]; [reflexivity|]. cbn [existsb]. rewrite IH.
      f_equal. destruct (dget x (s_zv s)); [apply Z.eqb_sym|reflexivity].
Qed.

(** Full claim: the same without the assumption that the numbers of the views ascend.
    That is false of the code, see [C29_refuted].  A successful step draws the new view
    among [tables] with log weights [weights]; the weight of every view of the state is
    minus infinity if a column to be avoided is in it and else the log prior of that view
    plus the score of the column arranged by the rows of that view. *)
Theorem C29_weights_partial d s c m s' : sreach safe s -> ascending (dkeys (s_views s)) ->
  0 < c_alpha (s_crp s) -> transition_dim d s c m = (s', Ok tt) ->
  exists a tables weights (props : list (option adim)) vb prop,
    dim_for s c = Ok a /\ NoDup tables /\ length weights = length tables /\
    (forall v w, dget v (s_views s) = Some w ->
      exists i b lp, nth_error tables i = Some v /\ arranged s c w a b /\ a_score b = Ok lp /\
        ((exists q y, In q (s_Ci s) /\ In c q /\ In y q /\ y <> c /\ dget y (s_zv s) = Some v) ->
           nth_error weights i = Some NInf) /\
        ((forall q y, In q (s_Ci s) -> In c q -> In y q -> y <> c -> dget y (s_zv s) <> Some v) ->
           nth_error weights i = Some (eadd lp (Fin (ln (prior_of s c m v)))))) /\
    log_pflip (cd_draw d) weights (combine tables props) = Ok (vb, prop) /\
    dget c (s_zv s') = Some vb /\ forall c', c' <> c -> dget c' (s_zv s') = dget c' (s_zv s).
Proof.
  intros HR Hs Ha E. destruct (sreach_sinv s HR) as [n H].
  destruct (transition_dim_drawn _ _ _ _ _ _ H E) as [a [s1 [p [vb [prop [Ed [Ep [El [Zc [Zo _]]]]]]]]]].
  destruct (plan_weights _ _ _ _ _ _ _ HR Hs Ha Ed Ep) as [L [N W]].
  exists a, (cp_tables p), (cp_weights p), (cp_props p), vb, prop.
  do 3 (split; [assumption|]). split; [|auto].
  intros v w Hw. destruct (W v w Hw) as [i [b [lp [T [A [S Hx]]]]]].
  exists i, b, lp. do 3 (split; [assumption|]). rewrite Hx. split.
  - intros [q [y [Hq [Hc [Hy [Hne Hv]]]]]].
    replace (existsb _ _) with true; [reflexivity|]. symmetry. apply existsb_exists.
    exists y. split; [apply avoid_spec; eauto|]. rewrite Hv. apply Z.eqb_refl.
  - intros Hno. destruct (existsb _ _) eqn:Ex; [exfalso|reflexivity].
    apply existsb_exists in Ex. destruct Ex as [y [Hy Hv]]. apply avoid_spec in Hy.
    destruct Hy as [Hne [q [Hq [Hc Hy]]]]. destruct (dget y (s_zv s)) as [v'|] eqn:Ev; [|discriminate].
    apply Z.eqb_eq in Hv. subst v'. exact (Hno q y Hq Hc Hy Hne Ev).
Qed.
Print Assumptions C29_weights_partial.

(* ------------------------------------------------------------------ *)
(** ** What happens if the numbers of the views do not ascend *)

(** Two columns of the same class over two rows without observed cells, in the views 8
    and 1, made in that order (the order in which CPython 2.7 iterates over the set
    {8, 1}, state.py:141).  In view 8 the rows are together, in view 1 apart. *)
Section Bug.
  Context (P : prim) (n : nat) (hs : nat -> R -> pH P -> pH P) (h : pH P) (q : pQ P) (e0 : R).
  Hypothesis Hsc : p_score P h q (p_init P) = Ok (Fin e0).
  Definition bug_col (zi : dict Z) (ks : list Z) (pos : nat) : adim :=
    ADim (of_prim P n hs) (@Dim (of_prim P n hs) (map (fun k => (k, prim_new P h q)) ks) [] zi (prim_new P h q) h [] true [] (fun _ => q) pos).
  Definition bug_vspec (v : Z) : vspec :=
    VSpec (VSeed 1 [1] (fun _ _ => 0%nat)) (Some (if (v =? 8)%Z then [0; 0] else [0; 1])%Z).
  Definition bug_cspec (c : Z) : cspec := 
      CSpec (ADim (of_prim P n hs) (dim_new (of_prim P n hs) h true [] (fun _ => q))) [] (fun _ => 0%nat).
  Definition bug_X : dict (list cell) := [(0, [None; None]); (1, [None; None])]%Z.
  Definition bug_w8 := View (crp_id_view + 8) (Crp 2 [(0, 0); (1, 0)]%Z [(0, 2)]%Z 1) [1] [].
  Definition bug_w1 := View (crp_id_view + 1) (Crp 2 [(0, 0); (1, 1)]%Z [(0, 1); (1, 1)]%Z 1) [1] [].
  Definition bug_v8 := set_dims bug_w8 [(0%Z, bug_col [(0, 0); (1, 0)]%Z [0%Z] 5)].
  Definition bug_v1 := set_dims bug_w1 [(1%Z, bug_col [(0, 0); (1, 1)]%Z [0; 1]%Z 7)].
  Definition bug_s Ci := State [0; 1]%Z bug_X (Crp 2 [(0, 8); (1, 1)]%Z [(8, 1); (1, 1)]%Z 1) [1]
     [(8%Z, bug_v8); (1%Z, bug_v1)] [] Ci.
  Lemma bug_score zi ks pos : a_score (bug_col zi ks pos) = Ok (esum (map (fun _ => Fin e0) ks)).
  Proof.
    unfold a_score, dim_score, bug_col. cbn [a_M a_d d_clusters m_score of_prim]. unfold rsum_ext, dvals.
    rewrite !map_map. unfold prim_logpdf_score. cbn [snd].
    change (rbind (rsequence (map (fun _ : Z => p_score P h q (p_init P)) ks)) (fun v => Ok (esum v)) = Ok (esum (map (fun _ : Z => Fin e0) ks))).
    assert (A : rsequence (map (fun _ : Z => p_score P h q (p_init P)) ks) = Ok (map (fun _ : Z => Fin e0) ks)).
    { rewrite Hsc. induction ks as [|k ks IH]; [reflexivity|]. cbn [map rsequence rbind]. rewrite IH. reflexivity. }
    exact (f_equal (fun r => rbind r (fun v => Ok (esum v))) A).
  Qed.
  Lemma bug_made : view_make bug_X (crp_id_view + 8) (vp_seed (bug_vspec 8)) (vp_zr (bug_vspec 8)) = Ok bug_w8 /\
    view_make bug_X (crp_id_view + 1) (vp_seed (bug_vspec 1)) (vp_zr (bug_vspec 1)) = Ok bug_w1 /\
    view_columns (tab bug_X) bug_w8 [(0%Z, bug_cspec 0)] = Ok bug_v8 /\
    view_columns (tab bug_X) bug_w1 [(1%Z, bug_cspec 1)] = Ok bug_v1.
  Proof.
    assert (B8 : view_make bug_X (crp_id_view + 8) (vp_seed (bug_vspec 8)) (vp_zr (bug_vspec 8)) = Ok bug_w8) by reflexivity.
    assert (B1 : view_make bug_X (crp_id_view + 1) (vp_seed (bug_vspec 1)) (vp_zr (bug_vspec 1)) = Ok bug_w1) by reflexivity.
    assert (C8 : view_columns (tab bug_X) bug_w8 [(0%Z, bug_cspec 0)] = Ok bug_v8).
    { unfold view_columns. change (col_make (bug_cspec 0)) with (bug_col [] [] 2, Ok tt). cbn [rbind].
      change (view_incorporate_dim (tab bug_X) bug_w8 0 (bug_col [] [] 2) true)
        with (bug_v8, bug_col [(0, 0); (1, 0)]%Z [0%Z] 5, Ok tt).
      cbn [rbind]. change (dget 0 (v_dims bug_v8)) with (Some (bug_col [(0, 0); (1, 0)]%Z [0%Z] 5)).
      cbv iota. rewrite bug_score. reflexivity. }
    assert (C1 : view_columns (tab bug_X) bug_w1 [(1%Z, bug_cspec 1)] = Ok bug_v1).
    { unfold view_columns. change (col_make (bug_cspec 1)) with (bug_col [] [] 2, Ok tt). cbn [rbind].
      change (view_incorporate_dim (tab bug_X) bug_w1 1 (bug_col [] [] 2) true)
        with (bug_v1, bug_col [(0, 0); (1, 1)]%Z [0; 1]%Z 7, Ok tt).
      cbn [rbind]. change (dget 1 (v_dims bug_v1)) with (Some (bug_col [(0, 0); (1, 1)]%Z [0; 1]%Z 7)).
      cbv iota. rewrite bug_score. reflexivity. }
    auto.
  Qed.
  Lemma bug_s_ok Ci :
    state_init bug_X [(0, 8); (1, 1)]%Z 1 [1] [] Ci bug_vspec bug_cspec [8; 1]%Z = Ok (bug_s Ci).
  Proof.
    unfold state_init.
    assert (A : seat_given [(0, 8); (1, 1)]%Z (crp_new 1) = Ok (Crp 2 [(0, 8); (1, 1)]%Z [(8, 1); (1, 1)]%Z 1)) by reflexivity.
    rewrite A. cbn [rbind c_data]. change (dkeys bug_X) with [0%Z; 1%Z]. cbn [length Nat.eqb].
    destruct bug_made as [B8 [B1 [C8 C1]]].
    change (make_views bug_X [0%Z; 1%Z] [(0%Z, 8%Z); (1%Z, 1%Z)] bug_vspec bug_cspec [8%Z; 1%Z]) with
      (rbind (view_make bug_X (crp_id_view + 8) (vp_seed (bug_vspec 8)) (vp_zr (bug_vspec 8))) (fun w =>
       rbind (view_columns (tab bug_X) w [(0%Z, bug_cspec 0)]) (fun w' =>
       rbind (rbind (view_make bug_X (crp_id_view + 1) (vp_seed (bug_vspec 1)) (vp_zr (bug_vspec 1))) (fun w =>
       rbind (view_columns (tab bug_X) w [(1%Z, bug_cspec 1)]) (fun w' => rbind (Ok []) (fun ws => Ok ((1%Z, w') :: ws))))) (fun ws => Ok ((8%Z, w') :: ws))))).
    rewrite B8. cbn [rbind]. rewrite C8. cbn [rbind]. rewrite B1. cbn [rbind]. rewrite C1. reflexivity.
  Qed.

  Local Notation col8 := (bug_col [(0, 0); (1, 0)]%Z [0%Z] 5).

  Lemma bug_reach ok Ci : known (of_prim P n hs) -> sreach ok (bug_s Ci).
  Proof.
    intros HM. apply (sr_init ok bug_X [(0, 8); (1, 1)]%Z 1 [1] [] Ci bug_vspec bug_cspec [8; 1]%Z 2).
    - repeat constructor; cbn; intuition discriminate.
    - discriminate.
    - intros c l E. unfold bug_X, dget in E. destruct (c =? 0)%Z; [injection E as <-; reflexivity|].
      destruct (c =? 1)%Z; [injection E as <-; reflexivity|discriminate].
    - repeat constructor; cbn; intuition discriminate.
    - intros v. cbn. reflexivity.
    - intros v. cbn. destruct (v =? 8)%Z; reflexivity.
    - intros c _. exists (of_prim P n hs), h, true, [], (fun _ => q). split; [exact HM|reflexivity].
    - apply bug_s_ok.
  Qed.

  Local Notation bug_ci := [[0; 1]]%Z.
  Lemma bug_logps Ci : known (of_prim P n hs) ->
    crp_gibbs_tables (s_crp (bug_s Ci)) 0 1 = Ok [1; 8]%Z /\
    crp_gibbs_logps (s_crp (bug_s Ci)) 0 1 = Ok [ln (prior (bug_s Ci) 0 1 1); ln (prior (bug_s Ci) 0 1 8)].
  Proof.
    intros HM. destruct (sreach_sinv _ (bug_reach safe Ci HM)) as [N HS].
    assert (Et : crp_gibbs_tables (s_crp (bug_s Ci)) 0 1 = Ok [1; 8]%Z) by reflexivity.
    assert (Ha : 0 < c_alpha (s_crp (bug_s Ci))) by (cbn; lra).
    assert (Hz : dget 0%Z (c_data (s_crp (bug_s Ci))) = Some 8%Z) by reflexivity.
    split; [exact Et|].
    pose proof (gibbs_logps_eq (s_crp (bug_s Ci)) 0 8 1 (si_crp _ _ HS) Ha Hz ltac:(lia) _ Et) as Eg.
    cbn [map] in Eg. rewrite !(prior_weight (bug_s Ci) 0 8 1 _ (si_crp _ _ HS) Hz) in Eg by lia. exact Eg.
  Qed.

  Lemma bug_step sh p1 e8 e1 d : known (of_prim P n hs) -> draw_ok (cd_draw d) ->
    data_logps (tab bug_X) 0 col8 col8 [(8%Z, bug_v8); (1%Z, bug_v1)]
      = ([(8%Z, bug_w8); (1%Z, bug_v1)], sh, Ok [(None, Fin e8); (p1, Fin e1)]) ->
    transition_dim d (bug_s bug_ci) 0 1
      = migrate_dim (set_views (bug_s bug_ci) [(8%Z, bug_w8); (1%Z, bug_v1)]) 0 8 1 sh.
  Proof.
    intros HM Hd Hl.
    assert (Ec : dim_for (bug_s bug_ci) 0 = Ok col8) by reflexivity.
    destruct (bug_logps bug_ci HM) as [Et Eg].
    set (g1 := ln (prior (bug_s bug_ci) 0 1 1)) in Eg. set (g8 := ln (prior (bug_s bug_ci) 0 1 8)) in Eg.
    assert (Ep : column_plan (cd_seeds d) (bug_s bug_ci) 0 1 col8
      = (set_views (bug_s bug_ci) [(8%Z, bug_w8); (1%Z, bug_v1)],
         Ok (CPlan [1; 8]%Z [Fin (e8 + g1); NInf] [None; p1] sh []))).
    { unfold column_plan. change (s_X (bug_s bug_ci)) with bug_X.
      change (s_views (bug_s bug_ci)) with [(8%Z, bug_v8); (1%Z, bug_v1)]. rewrite Hl.
      rewrite Et. cbn [rbind]. change (skipn _ [1%Z; 8%Z]) with (@nil Z). cbn [aux_views rbind data_logps].
      rewrite Eg. reflexivity. }
    unfold transition_dim. change (all_dims (bug_s bug_ci)) with (Ok [col8; bug_col [(0, 0); (1, 1)]%Z [0; 1]%Z 7]).
    cbv iota. change (existsb (fun a => m_cond (a_M a)) [col8; bug_col [(0, 0); (1, 1)]%Z [0; 1]%Z 7]) with false. cbv iota. change (s_Cd (bug_s bug_ci)) with (@nil (list Z)). cbv iota.
    rewrite Ec, Ep. cbn [cp_weights cp_tables cp_props cp_shared combine].
    destruct (log_pflip_spec (cd_draw d) [Fin (e8 + g1); NInf] [(1%Z, None); (8%Z, p1)] Hd) as [i [x [y [E1 [Hx [Hy Py]]]]]].
    - repeat constructor.
    - cbn. pose proof (exp_pos (e8 + g1)). lra.
    - reflexivity.
    - rewrite E1. destruct i as [|[|i]]; cbn in Hx, Hy.
      + injection Hx as <-. reflexivity.
      + injection Hy as <-. cbn in Py. lra.
      + destruct i; discriminate Hx.
  Qed.

  (** A collapsed column: the step puts it beside the column it must avoid. *)
  Lemma bug_collapsed d : known (of_prim P n hs) -> p_coll P = true -> draw_ok (cd_draw d) ->
    exists s', transition_dim d (bug_s bug_ci) 0 1 = (s', Ok tt) /\
      dget 0%Z (s_zv s') = Some 1%Z /\ dget 1%Z (s_zv s') = Some 1%Z.
  Proof.
    intros HM Hp Hd.
    assert (Hm : m_coll (of_prim P n hs) = true) by exact Hp.
    assert (L8 : data_logp (tab bug_X) bug_v8 0 col8
      = (bug_w8, bug_col [(0, 0); (1, 0)]%Z [0%Z] 8, Ok (Fin (0 + e0)))).
    { unfold data_logp. cbn [a_M bug_col]. rewrite Hm. cbn [orb].
      change (view_incorporate_dim (tab bug_X) bug_v8 0 col8 true) with
        (set_dims bug_w8 [(0%Z, bug_col [(0, 0); (1, 0)]%Z [0%Z] 8)], bug_col [(0, 0); (1, 0)]%Z [0%Z] 8, Ok tt).
      cbv iota. rewrite bug_score. reflexivity. }
    assert (L1 : data_logp (tab bug_X) bug_v1 0 (bug_col [(0, 0); (1, 0)]%Z [0%Z] 8)
      = (bug_v1, bug_col [(0, 0); (1, 1)]%Z [0; 1]%Z 13, Ok (Fin (0 + e0 + e0)))).
    { unfold data_logp. cbn [a_M bug_col]. rewrite Hm. cbn [orb].
      change (view_incorporate_dim (tab bug_X) bug_v1 0 (bug_col [(0, 0); (1, 0)]%Z [0%Z] 8) true) with
        (set_dims bug_w1 [(1%Z, bug_col [(0, 0); (1, 1)]%Z [0; 1]%Z 7);
                          (0%Z, bug_col [(0, 0); (1, 1)]%Z [0; 1]%Z 13)],
         bug_col [(0, 0); (1, 1)]%Z [0; 1]%Z 13, Ok tt).
      cbv iota. rewrite bug_score. reflexivity. }
    rewrite (bug_step (bug_col [(0, 0); (1, 1)]%Z [0; 1]%Z 13) None (0 + e0) (0 + e0 + e0) d HM Hd).
    - unfold migrate_dim, migrate_to.
      change (dget 8%Z (c_counts _)) with (Some 1%Z).
      change (dget 8%Z (s_views _)) with (Some bug_w8). cbv iota.
      change (dmem 0%Z (v_dims bug_w8)) with false. cbv iota.
      change (dget 1%Z (s_views _)) with (Some bug_v1). cbv iota.
      cbn [a_M bug_col]. rewrite Hm. change (s_X _) with bug_X.
      change (view_incorporate_dim (tab bug_X) bug_v1 0 (bug_col [(0, 0); (1, 1)]%Z [0; 1]%Z 13) true) with
        (set_dims bug_w1 [(1%Z, bug_col [(0, 0); (1, 1)]%Z [0; 1]%Z 7);
                          (0%Z, bug_col [(0, 0); (1, 1)]%Z [0; 1]%Z 18)],
         bug_col [(0, 0); (1, 1)]%Z [0; 1]%Z 18, Ok tt).
      cbn [rbind]. rewrite bug_score. cbv iota.
      eexists. split; [reflexivity|]. split; reflexivity.
    - cbn [data_logps]. cbn [a_M bug_col]. rewrite Hm. cbn [orb]. rewrite L8. cbv iota. rewrite L1. reflexivity.
  Qed.

  Lemma bug_data : p_coll P = false ->
    data_logps (tab bug_X) 0 col8 col8 [(8%Z, bug_v8); (1%Z, bug_v1)]
      = ([(8%Z, bug_w8); (1%Z, bug_v1)], col8,
         Ok [(None, Fin (0 + e0)); (Some (bug_col [(0, 0); (1, 1)]%Z [0; 1]%Z 10), Fin (0 + e0 + e0))]).
  Proof.
    intros Hp.
    assert (Hm : m_coll (of_prim P n hs) = false) by exact Hp.
    assert (L8 : data_logp (tab bug_X) bug_v8 0 col8 = (bug_w8, col8, Ok (Fin (0 + e0)))).
    { unfold data_logp. cbn [a_M bug_col]. rewrite Hm. change (false || negb (dmem 0%Z (v_dims bug_v8))) with false.
      change (view_incorporate_dim (tab bug_X) bug_v8 0 col8 false) with
        (bug_v8, col8, Ok tt).
      cbv iota. rewrite bug_score. reflexivity. }
    assert (L1 : data_logp (tab bug_X) bug_v1 0 col8
      = (bug_v1, bug_col [(0, 0); (1, 1)]%Z [0; 1]%Z 10, Ok (Fin (0 + e0 + e0)))).
    { unfold data_logp. cbn [a_M bug_col]. rewrite Hm. change (false || negb (dmem 0%Z (v_dims bug_v1))) with true.
      change (view_incorporate_dim (tab bug_X) bug_v1 0 col8 true) with
        (set_dims bug_w1 [(1%Z, bug_col [(0, 0); (1, 1)]%Z [0; 1]%Z 7);
                          (0%Z, bug_col [(0, 0); (1, 1)]%Z [0; 1]%Z 10)],
         bug_col [(0, 0); (1, 1)]%Z [0; 1]%Z 10, Ok tt).
      cbv iota. rewrite bug_score. reflexivity. }
    cbn [data_logps]. cbn [a_M bug_col]. rewrite Hm.
    change (false || dmem 0%Z (v_dims bug_v8)) with true. change (false || dmem 0%Z (v_dims bug_v1)) with false.
    cbv iota. rewrite L8. cbv iota. rewrite L1. reflexivity.
  Qed.

  (** A column that is not collapsed: the step installs in view 1 the column object
      arranged by the clusters of view 8. *)
  Lemma bug_uncollapsed d : known (of_prim P n hs) -> p_coll P = false -> draw_ok (cd_draw d) ->
    exists s' w a, transition_dim d (bug_s bug_ci) 0 1 = (s', Ok tt) /\
      dget 1%Z (s_views s') = Some w /\ dget 0%Z (v_dims w) = Some a /\
      v_rows w = [(0, 0); (1, 1)]%Z /\ dkeys (d_clusters (a_d a)) = [0%Z].
  Proof.
    intros HM Hp Hd.
    rewrite (bug_step col8 (Some (bug_col [(0, 0); (1, 1)]%Z [0; 1]%Z 10)) (0 + e0) (0 + e0 + e0) d HM Hd).
    - assert (Hm : m_coll (of_prim P n hs) = false) by exact Hp.
      match goal with |- exists s' w a, ?M = _ /\ _ => assert (EM : exists s', M = (s', Ok tt) /\ exists w a,
        dget 1%Z (s_views s') = Some w /\ dget 0%Z (v_dims w) = Some a /\
        v_rows w = [(0, 0); (1, 1)]%Z /\ dkeys (d_clusters (a_d a)) = [0%Z]) end;
        [|destruct EM as [s' [E1 [w [a E2]]]]; exists s', w, a; split; assumption].
      unfold migrate_dim, migrate_to.
      change (dget 8%Z (c_counts _)) with (Some 1%Z).
      change (dget 8%Z (s_views _)) with (Some bug_w8). cbv iota.
      change (dmem 0%Z (v_dims bug_w8)) with false. cbv iota.
      change (dget 1%Z (s_views (set_views _ _))) with (Some bug_v1). cbv iota.
      cbn [a_M bug_col]. rewrite Hm. change (s_X _) with bug_X.
      change (view_incorporate_dim (tab bug_X) bug_v1 0 col8 false) with
        (set_dims bug_w1 [(1%Z, bug_col [(0, 0); (1, 1)]%Z [0; 1]%Z 7); (0%Z, col8)], col8, Ok tt).
      cbn [rbind]. rewrite bug_score. cbv iota.
      eexists. split; [reflexivity|]. eexists _, _. split; [reflexivity|]. split; [reflexivity|]. split; reflexivity.
    - exact (bug_data Hp).
  Qed.

  (** Without a pair of columns to avoid: view 1 is weighed with the score of the column
      arranged by view 8, one cluster, instead of the one arranged by view 1, two. *)
  Lemma bug_weights seeds : known (of_prim P n hs) -> p_coll P = false ->
    exists p s1 b W w', column_plan seeds (bug_s []) 0 1 col8 = (s1, Ok p) /\
      nth_error (cp_tables p) 0 = Some 1%Z /\ dget 1%Z (s_views (bug_s [])) = Some bug_v1 /\
      view_incorporate_dim (tab bug_X) bug_v1 0 col8 true = (w', b, Ok tt) /\
      a_score b = Ok (Fin (0 + e0 + e0)) /\ nth_error (cp_weights p) 0 = Some (Fin W) /\
      W = 0 + e0 + ln (prior (bug_s []) 0 1 1).
  Proof.
    intros HM Hp. destruct (bug_logps [] HM) as [Et Eg].
    set (g1 := ln (prior (bug_s []) 0 1 1)) in *. set (g8 := ln (prior (bug_s []) 0 1 8)) in *.
    exists (CPlan [1; 8]%Z [Fin (0 + e0 + g1); Fin (0 + e0 + e0 + g8)]
              [None; Some (bug_col [(0, 0); (1, 1)]%Z [0; 1]%Z 10)] col8 []),
      (set_views (bug_s []) [(8%Z, bug_w8); (1%Z, bug_v1)]),
      (bug_col [(0, 0); (1, 1)]%Z [0; 1]%Z 10), (0 + e0 + g1),
      (set_dims bug_w1 [(1%Z, bug_col [(0, 0); (1, 1)]%Z [0; 1]%Z 7);
                          (0%Z, bug_col [(0, 0); (1, 1)]%Z [0; 1]%Z 10)]).
    split.
    - unfold column_plan. change (s_X (bug_s [])) with bug_X.
      change (s_views (bug_s [])) with [(8%Z, bug_v8); (1%Z, bug_v1)]. rewrite (bug_data Hp).
      rewrite Et. cbn [rbind]. change (skipn _ [1%Z; 8%Z]) with (@nil Z). cbn [aux_views rbind data_logps].
      rewrite Eg. reflexivity.
    - split; [reflexivity|]. split; [reflexivity|]. split; [reflexivity|].
      split; [rewrite bug_score; reflexivity|]. split; reflexivity.
  Qed.
End Bug.

Lemma beta_score lgam : p_score (Beta lgam) tt (1, 1 / 2) (p_init (Beta lgam))
  = Ok (Fin (- (1) / 5 - ln 5 - (lgam 1 + lgam 1 - lgam 2))).
Proof.
  cbn. unfold beta_guard. cbn [fst snd]. rdec. cbn [andb]. f_equal. f_equal.
  unfold beta_likelihood, beta_prior, beta_logpdf, betaln. cbn [fst snd].
  replace (1 + 1) with 2 by ring. ring.
Qed.

Lemma bern_score lgam : p_score (Bernoulli lgam) (1, 1) tt (p_init (Bernoulli lgam)) = Ok (Fin 0).
Proof. cbn. unfold bern_marginal. do 2 f_equal. rewrite !Rplus_0_l. replace (0 - 0 + 1) with 1 by ring. ring. Qed.

(** The column 0 must avoid the column 1 and does so at first; every possible step of
    column 0 succeeds and puts it beside column 1.  The state is within the hypotheses of
    C25 and the columns are collapsed. *)
Theorem C27_refuted : exists s b, sreach safe s /\ In b (s_Ci s) /\ apart s b /\
  0 < c_alpha (s_crp s) /\
  forall d, draw_ok (cd_draw d) -> exists s',
    run_kernels s [KColumns (fun _ => d) 1 [0%Z]] = (s', Ok tt) /\ sreach safe s' /\ ~ apart s' b.
Proof.
  pose (lgam := fun _ : R => 0).
  exists (bug_s (Bernoulli lgam) 2 hset_pair (1, 1) tt [[0; 1]]%Z), [0; 1]%Z.
  assert (HM : known (of_prim (Bernoulli lgam) 2 hset_pair)) by apply kn_bernoulli.
  assert (HR : sreach safe (bug_s (Bernoulli lgam) 2 hset_pair (1, 1) tt [[0; 1]]%Z))
    by exact (bug_reach _ _ _ _ _ _ (bern_score lgam) _ _ HM).
  split; [exact HR|]. split; [left; reflexivity|]. split.
  { intros x y v Hx Hy Hne. cbn in Hx, Hy.
    destruct Hx as [<-|[<-|[]]], Hy as [<-|[<-|[]]]; cbn; congruence. }
  split; [cbn; lra|]. intros d Hd.
  destruct (bug_collapsed _ _ _ _ _ _ (bern_score lgam) d HM eq_refl Hd) as [s' [E [Z0 Z1]]].
  assert (E' : run_kernel (bug_s (Bernoulli lgam) 2 hset_pair (1, 1) tt [[0; 1]]%Z) (KColumns (fun _ => d) 1 [0%Z]) = (s', Ok tt)).
  { cbn [run_kernel transition_dims]. rewrite E. reflexivity. }
  exists s'. split; [|split].
  - cbn [run_kernels]. rewrite E'. reflexivity.
  - apply (sr_step safe _ (OKernel (KColumns (fun _ => d) 1 [0%Z])) _ HR I); [|exact E'].
    cbn [safe columns_safe]. split; [|auto]. intros a Ha. left.
    change (Ok (bug_col (Bernoulli lgam) 2 hset_pair (1, 1) tt [(0, 0); (1, 0)]%Z [0%Z] 5) = Ok a) in Ha.
    injection Ha as <-. reflexivity.
  - intros Ha. apply (Ha 0%Z 1%Z 1%Z); [left; reflexivity|right; left; reflexivity|discriminate|exact Z0|exact Z1].
Qed.
Print Assumptions C27_refuted.

(** A history of successful operations that ends in an inconsistent state: column 0 is
    in view 1 but its clusters are those of view 8. *)
Theorem C25_refuted : exists s, sreach (fun _ _ => True) s /\ forall n, ~ consistent n s.
Proof.
  pose (lgam := fun _ : R => 0).
  assert (HM : known (of_prim (Beta lgam) 0 hset_none)) by apply kn_beta.
  destruct (bug_uncollapsed _ _ _ _ _ _ (beta_score lgam) (CDraws first_pos (fun _ => VSeed 1 [] (fun _ _ => 0%nat)))
     HM eq_refl C16_draw_ex) as [s' [w [a [E [Ew [Ea [Er Ek]]]]]]].
  exists s'. split.
  - refine (sr_step _ _ (OKernel (KColumns (fun _ => CDraws first_pos (fun _ => VSeed 1 [] (fun _ _ => 0%nat))) 1 [0%Z])) _
      (bug_reach _ _ _ _ _ _ (beta_score lgam) _ [[0; 1]]%Z HM) I I _).
    cbn [run_op run_kernel transition_dims]. rewrite E. reflexivity.
  - intros n H. destruct (co_cells _ _ H 1%Z w 0%Z a Ew Ea) as [_ [_ [Hk _]]].
    assert (Hin : In 1%Z (dkeys (d_clusters (a_d a)))) by (apply Hk; exists 1%Z; rewrite Er; reflexivity).
    rewrite Ek in Hin. destruct Hin as [Hin|[]]. discriminate.
Qed.
Print Assumptions C25_refuted.

(** View [t] of a state of C25 is weighed with a number that is not its prior plus the
    score of the column arranged by it. *)
Theorem C29_refuted : forall lgam, lgam 1 = 0 -> lgam 2 = 0 ->
  exists s c a t w, sreach safe s /\ 0 < c_alpha (s_crp s) /\ dim_for s c = Ok a /\ s_Ci s = [] /\
  dget t (s_views s) = Some w /\ a_M a = M_beta lgam /\
  forall seeds, exists s1 p i w' b lp W, column_plan seeds s c 1 a = (s1, Ok p) /\
    nth_error (cp_tables p) i = Some t /\ nth_error (cp_weights p) i = Some (Fin W) /\
    view_incorporate_dim (tab (s_X s)) w c a true = (w', b, Ok tt) /\ a_score b = Ok (Fin lp) /\
    W <> lp + ln (prior_of s c 1 t).
Proof.
  intros lgam L1 L2.
  assert (HM : known (of_prim (Beta lgam) 0 hset_none)) by apply kn_beta.
  exists (bug_s (Beta lgam) 0 hset_none tt (1, 1 / 2) []), 0%Z,
    (bug_col (Beta lgam) 0 hset_none tt (1, 1 / 2) [(0, 0); (1, 0)]%Z [0%Z] 5), 1%Z,
    (bug_v1 (Beta lgam) 0 hset_none tt (1, 1 / 2)).
  split; [exact (bug_reach _ _ _ _ _ _ (beta_score lgam) _ _ HM)|].
  split; [cbn; lra|]. split; [reflexivity|]. split; [reflexivity|]. split; [reflexivity|].
  split; [reflexivity|].
  intros seeds. destruct (bug_weights _ _ _ _ _ _ (beta_score lgam) seeds HM eq_refl)
    as [p [s1 [b [W [w' [E [Ht [Hw [Hv [Hb [HW EW]]]]]]]]]]].
  exists s1, p, 0%nat, w', b. do 2 eexists. split; [exact E|]. split; [exact Ht|]. split; [exact HW|].
  split; [exact Hv|]. split; [exact Hb|]. rewrite EW, prior_of_eq, L1, L2.
  assert (0 < ln 5) by (rewrite <- ln_1; apply ln_increasing; lra). lra.
Qed.
Print Assumptions C29_refuted.

(* ------------------------------------------------------------------ *)
(** ** Examples *)

(** The same two columns with the views made in ascending order. *)
Section Good.
  Context (P : prim) (n : nat) (hs : nat -> R -> pH P -> pH P) (h : pH P) (q : pQ P) (e0 : R).
  Hypothesis Hsc : p_score P h q (p_init P) = Ok (Fin e0).
  Local Notation col8 := (bug_col P n hs h q [(0, 0); (1, 0)]%Z [0%Z] 5).
  Local Notation v8 := (bug_v8 P n hs h q).
  Local Notation v1 := (bug_v1 P n hs h q).
  Definition good_s Cd Ci := State [0; 1]%Z bug_X (Crp 2 [(0, 8); (1, 1)]%Z [(8, 1); (1, 1)]%Z 1) [1]
     [(1%Z, v1); (8%Z, v8)] Cd Ci.
  Lemma good_s_ok Cd Ci :
    state_init bug_X [(0, 8); (1, 1)]%Z 1 [1] Cd Ci bug_vspec (bug_cspec P n hs h q) [1; 8]%Z = Ok (good_s Cd Ci).
  Proof.
    unfold state_init.
    assert (A : seat_given [(0, 8); (1, 1)]%Z (crp_new 1) = Ok (Crp 2 [(0, 8); (1, 1)]%Z [(8, 1); (1, 1)]%Z 1)) by reflexivity.
    rewrite A. cbn [rbind c_data]. change (dkeys bug_X) with [0%Z; 1%Z]. cbn [length Nat.eqb].
    destruct (bug_made P n hs h q e0 Hsc) as [B8 [B1 [C8 C1]]].
    change (make_views bug_X [0%Z; 1%Z] [(0%Z, 8%Z); (1%Z, 1%Z)] bug_vspec (bug_cspec P n hs h q) [1%Z; 8%Z]) with
        (rbind (view_make bug_X (crp_id_view + 1) (vp_seed (bug_vspec 1)) (vp_zr (bug_vspec 1))) (fun w =>
         rbind (view_columns (tab bug_X) w [(1%Z, bug_cspec P n hs h q 1)]) (fun w' =>
         rbind (rbind (view_make bug_X (crp_id_view + 8) (vp_seed (bug_vspec 8)) (vp_zr (bug_vspec 8))) (fun w =>
         rbind (view_columns (tab bug_X) w [(0%Z, bug_cspec P n hs h q 0)]) (fun w' => rbind (Ok []) (fun ws => Ok ((8%Z, w') :: ws))))) (fun ws => Ok ((1%Z, w') :: ws))))).
    rewrite B1. cbn [rbind]. rewrite C1. cbn [rbind]. rewrite B8. cbn [rbind]. rewrite C8. reflexivity.
  Qed.

  Lemma good_reach ok Cd Ci : known (of_prim P n hs) -> sreach ok (good_s Cd Ci).
  Proof.
    intros HM. apply (sr_init ok bug_X [(0, 8); (1, 1)]%Z 1 [1] Cd Ci bug_vspec (bug_cspec P n hs h q) [1; 8]%Z 2).
    - repeat constructor; cbn; intuition discriminate.
    - discriminate.
    - intros c l E. unfold bug_X, dget in E. destruct (c =? 0)%Z; [injection E as <-; reflexivity|].
      destruct (c =? 1)%Z; [injection E as <-; reflexivity|discriminate].
    - repeat constructor; cbn; intuition discriminate.
    - intros v. cbn. tauto.
    - intros v. cbn. destruct (v =? 8)%Z; reflexivity.
    - intros c _. exists (of_prim P n hs), h, true, [], (fun _ => q). split; [exact HM|reflexivity].
    - apply good_s_ok.
  Qed.

  Lemma good_step d : known (of_prim P n hs) -> p_coll P = true -> draw_ok (cd_draw d) ->
    exists s', transition_dim d (good_s [] [[0; 1]]%Z) 0 1 = (s', Ok tt).
  Proof.
    intros HM Hp Hd. set (s := good_s [] [[0; 1]]%Z).
    assert (Hm : m_coll (of_prim P n hs) = true) by exact Hp.
    assert (L1 : data_logp (tab bug_X) v1 0 col8
      = (v1, bug_col P n hs h q [(0, 0); (1, 1)]%Z [0; 1]%Z 10, Ok (Fin (0 + e0 + e0)))).
    { unfold data_logp. cbn [a_M bug_col]. rewrite Hm. cbn [orb].
      change (view_incorporate_dim (tab bug_X) v1 0 col8 true) with
        (set_dims bug_w1 [(1%Z, bug_col P n hs h q [(0, 0); (1, 1)]%Z [0; 1]%Z 7);
                          (0%Z, bug_col P n hs h q [(0, 0); (1, 1)]%Z [0; 1]%Z 10)],
         bug_col P n hs h q [(0, 0); (1, 1)]%Z [0; 1]%Z 10, Ok tt).
      cbv iota. rewrite (bug_score _ _ _ _ _ _ Hsc). reflexivity. }
    assert (L8 : data_logp (tab bug_X) v8 0 (bug_col P n hs h q [(0, 0); (1, 1)]%Z [0; 1]%Z 10)
      = (bug_w8, bug_col P n hs h q [(0, 0); (1, 0)]%Z [0%Z] 13, Ok (Fin (0 + e0)))).
    { unfold data_logp. cbn [a_M bug_col]. rewrite Hm. cbn [orb].
      change (view_incorporate_dim (tab bug_X) v8 0 (bug_col P n hs h q [(0, 0); (1, 1)]%Z [0; 1]%Z 10) true) with
        (set_dims bug_w8 [(0%Z, bug_col P n hs h q [(0, 0); (1, 0)]%Z [0%Z] 13)],
         bug_col P n hs h q [(0, 0); (1, 0)]%Z [0%Z] 13, Ok tt).
      cbv iota. rewrite (bug_score _ _ _ _ _ _ Hsc). reflexivity. }
    destruct (sreach_sinv _ (good_reach safe [] [[0; 1]]%Z HM)) as [N HS].
    assert (Ec : dim_for s 0 = Ok col8) by reflexivity.
    assert (Et : crp_gibbs_tables (s_crp s) 0 1 = Ok [1; 8]%Z) by reflexivity.
    assert (Ha : 0 < c_alpha (s_crp s)) by (cbn; lra).
    assert (Hz : dget 0%Z (c_data (s_crp s)) = Some 8%Z) by reflexivity.
    pose proof (gibbs_logps_eq (s_crp s) 0 8 1 (si_crp _ _ HS) Ha Hz ltac:(lia) _ Et) as Eg.
    cbn [map] in Eg. set (g1 := ln (gibbs_weight (s_crp s) 0 1 1)) in Eg. set (g8 := ln (gibbs_weight (s_crp s) 0 1 8)) in Eg.
    assert (Ep : column_plan (cd_seeds d) s 0 1 col8
      = (set_views s [(1%Z, v1); (8%Z, bug_w8)],
         Ok (CPlan [1; 8]%Z [NInf; Fin (0 + e0 + g8)] [None; None] (bug_col P n hs h q [(0, 0); (1, 0)]%Z [0%Z] 13) []))).
    { unfold column_plan. change (s_X s) with bug_X. change (s_views s) with [(1%Z, v1); (8%Z, v8)].
      cbn [data_logps]. cbn [a_M bug_col]. rewrite Hm. cbn [orb]. rewrite L1. cbv iota. rewrite L8. cbn [rbind].
      rewrite Et. cbn [rbind]. change (skipn _ [1%Z; 8%Z]) with (@nil Z). cbn [aux_views rbind data_logps].
      rewrite Eg. reflexivity. }
    unfold transition_dim. change (all_dims s) with (Ok [col8; bug_col P n hs h q [(0, 0); (1, 1)]%Z [0; 1]%Z 7]).
    cbv iota. change (existsb (fun a => m_cond (a_M a)) [col8; bug_col P n hs h q [(0, 0); (1, 1)]%Z [0; 1]%Z 7]) with false.
    cbv iota. change (s_Cd s) with (@nil (list Z)). cbv iota.
    rewrite Ec, Ep. cbn [cp_weights cp_tables cp_props cp_shared combine].
    destruct (log_pflip_spec (cd_draw d) [NInf; Fin (0 + e0 + g8)] [(1%Z, @None adim); (8%Z, None)] Hd) as [i [x [y [E1 [Hx [Hy Py]]]]]].
    - repeat constructor.
    - cbn. pose proof (exp_pos (0 + e0 + g8)). lra.
    - reflexivity.
    - rewrite E1. destruct i as [|[|i]]; cbn in Hx, Hy.
      + injection Hy as <-. cbn in Py. lra.
      + injection Hx as <-. cbv iota.
        change (dget 0%Z (s_zv _)) with (Some 8%Z). cbv iota. change (8 =? 8)%Z with true. cbv iota.
        change (dget 8%Z (s_views _)) with (Some bug_w8). cbv iota.
        cbn [a_M bug_col]. rewrite Hm.
        change (view_incorporate_dim _ bug_w8 0 (bug_col P n hs h q [(0, 0); (1, 0)]%Z [0%Z] 13) true) with
          (set_dims bug_w8 [(0%Z, bug_col P n hs h q [(0, 0); (1, 0)]%Z [0%Z] 16)],
           bug_col P n hs h q [(0, 0); (1, 0)]%Z [0%Z] 16, @Ok unit tt).
        cbn [rbind]. rewrite (bug_score _ _ _ _ _ _ Hsc). eexists. reflexivity.
      + destruct i; discriminate Hx.
  Qed.
End Good.

Definition ex_lgam : R -> R := fun _ => 0.
Definition ex_state (Cd Ci : list (list Z)) : state := good_s (Bernoulli ex_lgam) 2 hset_pair (1, 1) tt Cd Ci.
Definition ex_draws : nat -> cdraws := fun _ => CDraws first_pos (fun _ => VSeed 1 [] (fun _ _ => 0%nat)).

Lemma ex_state_reach Cd Ci : sreach safe (ex_state Cd Ci).
Proof. exact (good_reach _ _ _ _ _ _ (bern_score ex_lgam) _ _ _ (kn_bernoulli _)). Qed.

Lemma ex_state_asc Cd Ci : ascending (dkeys (s_views (ex_state Cd Ci))).
Proof. repeat constructor; lia. Qed.

(** C25, C26, C27 (pairs) and C29: a state of the theorems, with a pair of columns to
    keep apart, and a step of column 0 from it. *)
Example C29_ex : let s := ex_state [] [[0; 1]]%Z in
  sreach safe s /\ ascending (dkeys (s_views s)) /\ 0 < c_alpha (s_crp s) /\
  exists s', transition_dim (ex_draws 0%nat) s 0 1 = (s', Ok tt).
Proof.
  cbv zeta. split; [apply ex_state_reach|]. split; [apply ex_state_asc|]. split; [cbn; lra|].
  apply (good_step _ _ _ _ _ _ (bern_score ex_lgam)); [apply kn_bernoulli|reflexivity|exact C16_draw_ex].
Qed.

Example C27_pairs_ex : let s := ex_state [] [[0; 1]]%Z in let ks := [KColumns ex_draws 1 [0%Z]] in
  sreach safe s /\ ascending (dkeys (s_views s)) /\ 0 < c_alpha (s_crp s) /\ Forall (Rlt 0) (s_grid s) /\
  Forall draws_ok ks /\ s_Ci s <> [] /\ (forall b, In b (s_Ci s) -> apart s b) /\ kernels_safe s ks /\
  exists s', run_kernels s ks = (s', Ok tt).
Proof.
  cbv zeta. split; [apply ex_state_reach|]. split; [apply ex_state_asc|]. split; [cbn; lra|].
  split; [repeat constructor; lra|]. split; [constructor; [intros i; exact C16_draw_ex|constructor]|].
  split; [discriminate|]. split.
  { intros b [<-|[]] x y v Hx Hy Hne. cbn in Hx, Hy.
    destruct Hx as [<-|[<-|[]]], Hy as [<-|[<-|[]]]; cbn; congruence. }
  split.
  - cbn [kernels_safe]. split; [|auto]. cbn [safe columns_safe]. split; [|auto]. intros a Ha. right.
    apply sorted_ascending, ex_state_asc.
  - cbn [run_kernels run_kernel transition_dims]. change (ex_draws (length (@nil Z))) with (ex_draws 0%nat).
    destruct C29_ex as [_ [_ [_ [s' E]]]]. rewrite E. eauto.
Qed.

(** C27 (blocks): with a block, the reassignment of columns is refused. *)
Example C27_blocks_ex : let s := ex_state [[0]]%Z [] in
  s_Cd s <> [] /\ (forall b, In b (s_Cd s) -> together s b) /\
  run_kernels s [KColumns ex_draws 1 [0%Z]] = (s, Err ValueError).
Proof.
  cbv zeta. split; [discriminate|]. split; [|reflexivity].
  intros b [<-|[]]. exists 8%Z. intros c [<-|[]]. reflexivity.
Qed.
