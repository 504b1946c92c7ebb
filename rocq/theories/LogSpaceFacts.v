(** Facts about [LogSpace]. *)
From Verif Require Export LogSpace PrimFacts.
Local Open Scope R_scope.

(** Log weights: finite numbers and minus infinities. *)
Definition logw (x : ext) : Prop := match x with Fin _ | NInf => True | _ => False end.
Definition logwb (x : ext) : bool := match x with Fin _ | NInf => true | _ => false end.
Lemma logwb_true x : logwb x = true <-> logw x.
Proof. destruct x; simpl; split; auto; discriminate. Qed.

Lemma lexp_nonneg x : 0 <= lexp x.
Proof. destruct x; simpl; try lra. left. apply exp_pos. Qed.

(** Sum of extended values that are all finite. *)
Lemma esum_fin_acc l c : fold_left eadd (map Fin l) (Fin c) = Fin (c + Rsum l).
Proof.
  revert c. induction l as [|x l IH]; intros c; simpl; [f_equal; lra|].
  rewrite IH. f_equal. fold (Rsum l). lra.
Qed.
Lemma esum_fin l : esum (map Fin l) = Fin (Rsum l).
Proof. unfold esum. rewrite esum_fin_acc. f_equal. lra. Qed.

Lemma esum_nan_acc l : fold_left eadd l NaN = NaN.
Proof. induction l; simpl; auto. Qed.
Lemma esum_nan l : In NaN l -> esum l = NaN.
Proof.
  unfold esum. generalize (Fin 0). induction l as [|x l IH]; intros c H; [destruct H|].
  simpl. destruct H as [->|H]; [|apply IH; exact H].
  replace (eadd c NaN) with NaN by (destruct c; reflexivity). apply esum_nan_acc.
Qed.

(** The running maximum. *)
Lemma pymax_in a l : In (pymax a l) (a :: l).
Proof.
  unfold pymax. revert a. induction l as [|x l IH]; intros a; simpl; [auto|].
  destruct (eltb a x).
  - destruct (IH x) as [H|H]; [right; left; exact H|right; right; exact H].
  - destruct (IH a) as [H|H]; [left; exact H|right; right; exact H].
Qed.
Lemma pymin_in a l : In (pymin a l) (a :: l).
Proof.
  unfold pymin. revert a. induction l as [|x l IH]; intros a; simpl; [auto|].
  destruct (eltb x a).
  - destruct (IH x) as [H|H]; [right; left; exact H|right; right; exact H].
  - destruct (IH a) as [H|H]; [left; exact H|right; right; exact H].
Qed.

Lemma eltb_trans a b c : eltb a b = true -> eltb b c = true -> eltb a c = true.
Proof.
  destruct a, b, c; simpl; try discriminate; auto.
  rewrite !Rltb_true. lra.
Qed.
Lemma eltb_total a b : eisnan a = false -> eisnan b = false ->
  eltb a b = false -> eltb b a = false -> a = b.
Proof.
  destruct a, b; simpl; try discriminate; auto.
  rewrite !Rltb_false. intros. f_equal. lra.
Qed.

(** Order [a <= b] of non-NaN values. *)
Definition eleb (a b : ext) : bool := negb (eltb b a).

Lemma pymax_ub a l : forallb (fun x => negb (eisnan x)) (a :: l) = true ->
  forall x, In x (a :: l) -> eltb (pymax a l) x = false.
Proof.
  unfold pymax. revert a. induction l as [|y l IH]; intros a Hn x Hx.
  - destruct Hx as [<-|[]]. simpl. destruct a; simpl; auto. apply Rltb_false. lra.
  - cbn [forallb] in Hn. apply andb_true_iff in Hn. destruct Hn as [Ha Hn].
    apply andb_true_iff in Hn. destruct Hn as [Hy Hn].
    simpl. destruct (eltb a y) eqn:E.
    + assert (G : forall z, In z (y :: l) ->
        eltb (fold_left (fun m x => if eltb m x then x else m) l y) z = false).
      { apply IH. simpl. rewrite Hy. exact Hn. }
      destruct Hx as [<-|Hx]; [|apply G; exact Hx].
      destruct (eltb (fold_left _ l y) a) eqn:F; [|reflexivity].
      pose proof (eltb_trans _ _ _ F E) as F2. rewrite (G y (or_introl eq_refl)) in F2. discriminate.
    + assert (G : forall z, In z (a :: l) ->
        eltb (fold_left (fun m x => if eltb m x then x else m) l a) z = false).
      { apply IH. simpl. rewrite Ha. exact Hn. }
      destruct Hx as [<-|[<-|Hx]]; [apply G; left; reflexivity| |apply G; right; exact Hx].
      destruct (eltb (fold_left _ l a) y) eqn:F; [|reflexivity].
      pose proof (G a (or_introl eq_refl)) as Ga.
      destruct (fold_left _ l a) as [m| | |] eqn:Em; destruct a as [r| | |], y as [s| | |];
        simpl in *; try discriminate; auto.
      rewrite Rltb_true in F. rewrite Rltb_false in Ga, E. lra.
Qed.

Lemma pymin_lb a l : forallb (fun x => negb (eisnan x)) (a :: l) = true ->
  forall x, In x (a :: l) -> eltb x (pymin a l) = false.
Proof.
  unfold pymin. revert a. induction l as [|y l IH]; intros a Hn x Hx.
  - destruct Hx as [<-|[]]. simpl. destruct a; simpl; auto. apply Rltb_false. lra.
  - cbn [forallb] in Hn. apply andb_true_iff in Hn. destruct Hn as [Ha Hn].
    apply andb_true_iff in Hn. destruct Hn as [Hy Hn].
    simpl. destruct (eltb y a) eqn:E.
    + assert (G : forall z, In z (y :: l) ->
        eltb z (fold_left (fun m x => if eltb x m then x else m) l y) = false).
      { apply IH. simpl. rewrite Hy. exact Hn. }
      destruct Hx as [<-|Hx]; [|apply G; exact Hx].
      destruct (eltb a (fold_left _ l y)) eqn:F; [|reflexivity].
      pose proof (eltb_trans _ _ _ E F) as F2. rewrite (G y (or_introl eq_refl)) in F2. discriminate.
    + assert (G : forall z, In z (a :: l) ->
        eltb z (fold_left (fun m x => if eltb x m then x else m) l a) = false).
      { apply IH. simpl. rewrite Ha. exact Hn. }
      destruct Hx as [<-|[<-|Hx]]; [apply G; left; reflexivity| |apply G; right; exact Hx].
      destruct (eltb y (fold_left _ l a)) eqn:F; [|reflexivity].
      pose proof (G a (or_introl eq_refl)) as Ga.
      destruct (fold_left _ l a) as [m| | |] eqn:Em; destruct a as [r| | |], y as [s| | |];
        simpl in *; try discriminate; auto.
      rewrite Rltb_true in F. rewrite Rltb_false in Ga, E. lra.
Qed.

(** Value of a total in log space. *)
Definition log_of (t : R) : ext := if Rltb 0 t then Fin (ln t) else NInf.

Lemma Rsum_lexp_nonneg l : 0 <= Rsum (map lexp l).
Proof.
  induction l as [|x l IH]; simpl; [lra|]. pose proof (lexp_nonneg x). fold (Rsum (map lexp l)). lra.
Qed.
Lemma Rsum_lexp_pos l r : In (Fin r) l -> 0 < Rsum (map lexp l).
Proof.
  induction l as [|x l IH]; intros H; [destruct H|].
  simpl. fold (Rsum (map lexp l)). destruct H as [->|H].
  - pose proof (exp_pos r). pose proof (Rsum_lexp_nonneg l). simpl. lra.
  - pose proof (lexp_nonneg x). specialize (IH H). lra.
Qed.

Lemma logw_nonan l : Forall logw l -> forallb (fun x => negb (eisnan x)) l = true.
Proof.
  intros H. apply forallb_forall. intros x Hx. rewrite Forall_forall in H.
  specialize (H x Hx). destruct x; simpl in *; auto.
Qed.

Lemma shift_sum m l : Forall logw l ->
  map (fun x => eexp (esub x (Fin m))) l = map Fin (map (fun x => lexp x / exp m) l).
Proof.
  intros H. rewrite map_map. apply map_ext_in. intros x Hx. rewrite Forall_forall in H.
  specialize (H x Hx). destruct x as [a| | |]; simpl in *; try contradiction.
  - f_equal. rewrite exp_plus, exp_Ropp. reflexivity.
  - f_equal. unfold Rdiv. lra.
Qed.

Lemma Rsum_map_div {A} (f : A -> R) c l : Rsum (map (fun x => f x / c) l) = Rsum (map f l) / c.
Proof.
  induction l as [|x l IH]; simpl; [unfold Rdiv; lra|]. fold (Rsum (map (fun x => f x / c) l)).
  fold (Rsum (map f l)). rewrite IH. unfold Rdiv. lra.
Qed.

Theorem logsumexp_logw l : Forall logw l -> logsumexp l = Ok (log_of (Rsum (map lexp l))).
Proof.
  intros H. destruct l as [|a l].
  - simpl. unfold log_of. rewrite (proj2 (Rltb_false _ _)); [reflexivity|simpl; lra].
  - unfold logsumexp. pose proof (logw_nonan _ H) as Hn. rewrite Hn, andb_true_r.
    pose proof (pymax_in a l) as Hin. pose proof (pymax_ub a l Hn) as Hub.
    set (m := pymax a l) in *.
    assert (Hm : logw m) by (rewrite Forall_forall in H; apply H; exact Hin).
    destruct m as [r| | |] eqn:Em; try contradiction.
    + simpl eisinf. rewrite andb_false_l. rewrite shift_sum by exact H. rewrite esum_fin.
      rewrite Rsum_map_div. pose proof (Rsum_lexp_pos (a :: l) r Hin) as Hp.
      set (S := Rsum (map lexp (a :: l))) in *. simpl.
      assert (0 < S / exp r) by (apply Rdiv_lt_0_compat; [exact Hp|apply exp_pos]).
      rewrite (proj2 (Rltb_true _ _)) by assumption. simpl.
      unfold log_of. rewrite (proj2 (Rltb_true _ _)) by exact Hp. do 2 f_equal.
      unfold Rdiv. rewrite ln_mult, ln_Rinv, ln_exp; [lra|apply exp_pos|exact Hp|].
      apply Rinv_0_lt_compat, exp_pos.
    + assert (All : forall x, In x (a :: l) -> x = NInf).
      { intros x Hx. specialize (Hub x Hx). rewrite Forall_forall in H. specialize (H x Hx).
        destruct x; simpl in *; try discriminate; try contradiction; auto. }
      assert (Emin : pymin a l = NInf) by (apply All, pymin_in).
      rewrite Emin. cbn [eisinf eeqb eopp negb andb]. unfold log_of. rewrite (proj2 (Rltb_false _ _)); [reflexivity|].
      assert (E : map lexp (a :: l) = map (fun _ => 0) (a :: l)).
      { apply map_ext_in. intros x Hx. rewrite (All x Hx). reflexivity. }
      rewrite E, Rsum_map_const. lra.
Qed.

Theorem logsumexp_nan l : In NaN l -> logsumexp l = Ok NaN.
Proof.
  intros H. destruct l as [|a l]; [destruct H|]. unfold logsumexp.
  assert (E : forallb (fun x => negb (eisnan x)) (a :: l) = false).
  { apply not_true_iff_false. intros F. rewrite forallb_forall in F. specialize (F _ H). discriminate. }
  rewrite E, andb_false_r. rewrite esum_nan; [|].
  - simpl. destruct (pymax a l); reflexivity.
  - apply in_map_iff. exists NaN. split; [reflexivity|exact H].
Qed.

Lemma pymax_pinf a l : forallb (fun x => negb (eisnan x)) (a :: l) = true ->
  In PInf (a :: l) -> pymax a l = PInf.
Proof.
  intros Hn H. pose proof (pymax_ub a l Hn PInf H) as Hu. pose proof (pymax_in a l) as Hi.
  rewrite forallb_forall in Hn. specialize (Hn _ Hi).
  destruct (pymax a l); simpl in *; try discriminate; auto.
Qed.
Lemma pymin_ninf a l : forallb (fun x => negb (eisnan x)) (a :: l) = true ->
  In NInf (a :: l) -> pymin a l = NInf.
Proof.
  intros Hn H. pose proof (pymin_lb a l Hn NInf H) as Hu. pose proof (pymin_in a l) as Hi.
  rewrite forallb_forall in Hn. specialize (Hn _ Hi).
  destruct (pymin a l); simpl in *; try discriminate; auto.
Qed.

Theorem logsumexp_pinf l : ~ In NaN l -> In PInf l ->
  logsumexp l = Ok (if existsb (fun x => eeqb x NInf) l then NaN else PInf).
Proof.
  intros Hnan H. destruct l as [|a l]; [destruct H|].
  assert (Hn : forallb (fun x => negb (eisnan x)) (a :: l) = true).
  { apply forallb_forall. intros x Hx. destruct x; auto. }
  unfold logsumexp. rewrite (pymax_pinf a l Hn H), Hn, andb_true_r.
  destruct (existsb (fun x => eeqb x NInf) (a :: l)) eqn:E.
  - apply existsb_exists in E. destruct E as [x [Hx Ex]].
    assert (x = NInf) by (destruct x; simpl in Ex; try discriminate; auto). subst x.
    rewrite (pymin_ninf a l Hn Hx). simpl eisinf. simpl negb. cbv iota beta. simpl andb. cbv iota.
    rewrite esum_nan; [reflexivity|]. apply in_map_iff. exists PInf. split; [reflexivity|exact H].
  - assert (Em : eeqb (pymin a l) NInf = false).
    { apply not_true_iff_false. intros F. pose proof (pymin_in a l) as Hi.
      assert (existsb (fun x => eeqb x NInf) (a :: l) = true)
        by (apply existsb_exists; exists (pymin a l); auto). congruence. }
    simpl eopp. rewrite Em. reflexivity.
Qed.

(* ------------------------------------------------------------------ *)

Lemma log_of_pos t : 0 < t -> log_of t = Fin (ln t).
Proof. intros H. unfold log_of. rewrite (proj2 (Rltb_true _ _)) by exact H. reflexivity. Qed.
Lemma log_of_0 : log_of 0 = NInf.
Proof. unfold log_of. rewrite (proj2 (Rltb_false _ _)) by lra. reflexivity. Qed.
Lemma lexp_log_of t : 0 <= t -> lexp (log_of t) = t.
Proof.
  intros H. unfold log_of. destruct (Rltb 0 t) eqn:E.
  - apply Rltb_true in E. simpl. apply exp_ln. exact E.
  - apply Rltb_false in E. simpl. lra.
Qed.
Lemma log_of_logw t : logw (log_of t).
Proof. unfold log_of. destruct (Rltb 0 t); simpl; auto. Qed.

Lemma log_normalize_spec l : Forall logw l -> 0 < Rsum (map lexp l) ->
  exists out, log_normalize l = Ok out /\ Forall logw out /\
    map lexp out = map (fun x => lexp x / Rsum (map lexp l)) l.
Proof.
  intros Hl Hp. unfold log_normalize. rewrite logsumexp_logw by exact Hl.
  rewrite log_of_pos by exact Hp. set (S := Rsum (map lexp l)) in *. simpl.
  eexists. split; [reflexivity|]. split.
  - rewrite Forall_map. eapply Forall_impl; [|exact Hl]. intros x Hx.
    destruct x; simpl in *; auto.
  - rewrite map_map. apply map_ext_in. intros x Hx. rewrite Forall_forall in Hl.
    specialize (Hl x Hx). destruct x as [a| | |]; simpl in *; try contradiction.
    + rewrite exp_plus, exp_Ropp, exp_ln by exact Hp. reflexivity.
    + unfold Rdiv. lra.
Qed.

Lemma Rsum_normalized l (S := Rsum (map lexp l)) : 0 < S ->
  Rsum (map (fun x => lexp x / S) l) = 1.
Proof. intros H. rewrite Rsum_map_div. unfold S in *. field. lra. Qed.

Lemma Rsum_lexp_filter l : Rsum (map lexp (filter (fun a => negb (eeqb a NInf)) l)) = Rsum (map lexp l).
Proof.
  induction l as [|x l IH]; [reflexivity|]. simpl.
  destruct x as [a| | |]; simpl; fold (Rsum (map lexp l));
  fold (Rsum (map lexp (filter (fun a => negb (eeqb a NInf)) l))); rewrite IH; lra.
Qed.

Lemma logmeanexp_logw l : l <> [] -> Forall logw l ->
  logmeanexp l = Ok (log_of (Rsum (map lexp l) / INR (length l))).
Proof.
  intros Hne H. destruct l as [|a l]; [contradiction|]. unfold logmeanexp.
  rewrite logsumexp_logw.
  2:{ apply Forall_forall. intros x Hx. apply filter_In in Hx. rewrite Forall_forall in H. apply H. tauto. }
  rewrite Rsum_lexp_filter.
  assert (HN : 0 < INR (length (a :: l))) by (apply lt_0_INR; simpl; lia).
  rewrite plog_pos by exact HN.
  set (N := INR (length (a :: l))) in *. set (S := Rsum (map lexp (a :: l))) in *.
  assert (HS : 0 <= S) by (unfold S; apply Rsum_lexp_nonneg).
  simpl. f_equal. unfold log_of. destruct (Rltb 0 S) eqn:E.
  - apply Rltb_true in E.
    rewrite (proj2 (Rltb_true 0 (S / N))) by (apply Rdiv_lt_0_compat; assumption).
    simpl. f_equal. unfold Rdiv. rewrite ln_mult, ln_Rinv; auto. apply Rinv_0_lt_compat; exact HN.
  - apply Rltb_false in E. assert (S = 0) by lra.
    rewrite (proj2 (Rltb_false 0 (S / N))); [reflexivity|]. rewrite H0. unfold Rdiv. lra.
Qed.

Lemma lexp_eadd x y : logw x -> logw y -> lexp (eadd x y) = lexp x * lexp y.
Proof.
  destruct x, y; simpl; intros; try contradiction; try lra. apply exp_plus.
Qed.
Lemma logw_eadd x y : logw x -> logw y -> logw (eadd x y).
Proof. destruct x, y; simpl; auto. Qed.

Lemma logmeanexp_weighted_spec la lw : length lw = length la ->
  Forall logw la -> Forall logw lw -> 0 < Rsum (map lexp lw) ->
  logmeanexp_weighted la lw =
    Ok (log_of (Rsum (map (fun p => lexp (fst p) * lexp (snd p)) (combine lw la)) / Rsum (map lexp lw))).
Proof.
  intros HL HA HW HP. unfold logmeanexp_weighted. rewrite HL, Nat.eqb_refl.
  assert (Hc : Forall (fun p : ext * ext => logw (fst p) /\ logw (snd p)) (combine lw la)).
  { apply Forall_forall. intros [w a] Hin. simpl. rewrite Forall_forall in HA, HW. split.
    - apply HW. eapply in_combine_l; eauto.
    - apply HA. eapply in_combine_r; eauto. }
  rewrite logsumexp_logw.
  2:{ rewrite Forall_map. eapply Forall_impl; [|exact Hc]. intros [w a] [H1 H2]. apply logw_eadd; assumption. }
  rewrite logsumexp_logw by exact HW. rewrite map_map.
  assert (E : map (fun x : ext * ext => lexp (eadd (fst x) (snd x))) (combine lw la) =
              map (fun p => lexp (fst p) * lexp (snd p)) (combine lw la)).
  { apply map_ext_in. intros p Hp. rewrite Forall_forall in Hc. destruct (Hc p Hp). apply lexp_eadd; assumption. }
  rewrite E. clear E. rewrite (log_of_pos (Rsum (map lexp lw))) by exact HP.
  set (W := Rsum (map lexp lw)) in *.
  set (T := Rsum (map (fun p => lexp (fst p) * lexp (snd p)) (combine lw la))).
  assert (HT : 0 <= T).
  { unfold T. apply Rsum_nonneg. apply Forall_forall. intros x Hx. apply in_map_iff in Hx.
    destruct Hx as [p [<- _]]. apply Rmult_le_pos; apply lexp_nonneg. }
  simpl. f_equal. unfold log_of. destruct (Rltb 0 T) eqn:E.
  - apply Rltb_true in E.
    rewrite (proj2 (Rltb_true 0 (T / W))) by (apply Rdiv_lt_0_compat; assumption).
    simpl. f_equal. unfold Rdiv. rewrite ln_mult, ln_Rinv; auto. apply Rinv_0_lt_compat; exact HP.
  - apply Rltb_false in E. assert (T = 0) by lra.
    rewrite (proj2 (Rltb_false 0 (T / W))); [reflexivity|]. rewrite H. unfold Rdiv. lra.
Qed.

(* ------------------------------------------------------------------ *)
(** pflip. *)

(** Finite non-negative weights with positive total. *)
Definition weights (p : list ext) (w : list R) : Prop :=
  p = map Fin w /\ Forall (fun x => 0 <= x) w /\ 0 < Rsum w.

Lemma normalize_weights p w : weights p w -> normalize p = map Fin (map (fun x => x / Rsum w) w).
Proof.
  intros [-> [Hw Hp]]. unfold normalize. rewrite esum_fin, !map_map. apply map_ext.
  intros x. simpl. rewrite (proj2 (Reqb_false _ _)) by lra. reflexivity.
Qed.

Lemma Rsum_pos_ex w : Forall (fun x => 0 <= x) w -> 0 < Rsum w -> exists i x, nth_error w i = Some x /\ 0 < x.
Proof.
  induction w as [|y w IH]; intros Hw Hp; [simpl in Hp; lra|].
  inversion Hw; subst. destruct (Rlt_dec 0 y) as [Hy|Hy].
  - exists 0%nat, y. auto.
  - simpl in Hp. fold (Rsum w) in Hp. destruct IH as [i [x [Hi Hx]]]; [assumption|lra|].
    exists (S i), x. auto.
Qed.

Lemma choice_spec {A} draw (array : list A) w : draw_ok draw ->
  length array = length w -> Forall (fun x => 0 <= x) w -> 0 < Rsum w ->
  exists i a x, choice draw array (map Fin (map (fun x => x / Rsum w) w)) = Ok a /\
    nth_error array i = Some a /\ nth_error w i = Some x /\ 0 < x.
Proof.
  intros Hd HL Hw Hp. set (q := map Fin (map (fun x => x / Rsum w) w)).
  assert (Hq : forallb ext_nonneg q = true).
  { apply forallb_forall. intros y Hy. unfold q in Hy. rewrite map_map in Hy.
    apply in_map_iff in Hy. destruct Hy as [x [<- Hx]]. simpl. apply Rleb_true.
    rewrite Forall_forall in Hw. specialize (Hw x Hx).
    apply Rmult_le_pos; [exact Hw|]. left. apply Rinv_0_lt_compat; exact Hp. }
  assert (Hn : forall i x, nth_error w i = Some x -> nth_error q i = Some (Fin (x / Rsum w))).
  { intros i x Hi. unfold q. rewrite map_map. rewrite (map_nth_error _ _ _ Hi). reflexivity. }
  destruct (Rsum_pos_ex w Hw Hp) as [i [x [Hi Hx]]].
  destruct (Hd q Hq) as [y [Hy Py]].
  { exists (Fin (x / Rsum w)). split; [eapply nth_error_In, Hn, Hi|].
    simpl. apply Rltb_true. apply Rdiv_lt_0_compat; assumption. }
  unfold choice. rewrite Hq, andb_true_r.
  assert (EL : length array = length q) by (unfold q; rewrite !map_length; exact HL).
  rewrite EL, Nat.eqb_refl.
  assert (HD : (draw q < length q)%nat) by (apply nth_error_Some; rewrite Hy; discriminate).
  destruct (nth_error array (draw q)) as [a|] eqn:Ea.
  2:{ apply nth_error_None in Ea. lia. }
  destruct (nth_error w (draw q)) as [z|] eqn:Ez.
  2:{ apply nth_error_None in Ez. unfold q in HD at 2. rewrite !map_length in HD. lia. }
  exists (draw q), a, z. repeat split; auto.
  rewrite (Hn _ _ Ez) in Hy. injection Hy as <-. simpl in Py. apply Rltb_true in Py.
  apply (Rmult_lt_compat_r (Rsum w)) in Py; [|exact Hp].
  unfold Rdiv in Py. rewrite Rmult_assoc, Rinv_l in Py; lra.
Qed.

Lemma pflip_spec {A} draw p w (array : list A) : draw_ok draw -> weights p w ->
  length array = length w ->
  exists i a x, pflip draw p array = Ok a /\
    nth_error array i = Some a /\ nth_error w i = Some x /\ 0 < x.
Proof.
  intros Hd Hw HL. pose proof (normalize_weights p w Hw) as Hnz. pose proof Hw as Hw'.
  destruct Hw as [Ep [Hw Hp]].
  destruct w as [|x w]; [simpl in Hp; lra|]. destruct w as [|y w].
  - subst p. destruct array as [|a array]; [discriminate|]. simpl in Hp.
    exists 0%nat, a, x. simpl. repeat split; auto. lra.
  - unfold pflip. rewrite Hnz. subst p. simpl map at 1 2. cbv iota beta.
    apply choice_spec; assumption.
Qed.

Lemma rsequence_ok {A} (l : list (res A)) out : rsequence l = Ok out <-> l = map Ok out.
Proof.
  revert out. induction l as [|r l IH]; intros out; simpl.
  - split; [intros H; injection H as <-; reflexivity|]. destruct out; [reflexivity|discriminate].
  - destruct r as [a|e]; simpl.
    + destruct (rsequence l) as [o|e] eqn:E; simpl.
      * rewrite (proj1 (IH o) eq_refl). split; [intros H; injection H as <-; reflexivity|].
        destruct out as [|b out]; [discriminate|]. simpl. intros H. injection H as -> H.
        assert (Ok o = Ok out) by (apply IH; rewrite <- H; apply IH; reflexivity). congruence.
      * split; [discriminate|]. destruct out as [|b out]; [discriminate|]. simpl. intros H. injection H as -> H.
        apply IH in H. discriminate.
    + split; [discriminate|]. destruct out; discriminate.
Qed.

Lemma pflip_many_spec {A} draws p w (array : list A) n :
  (forall j, draw_ok (draws j)) -> weights p w -> length array = length w ->
  exists out, pflip_many draws p array n = Ok out /\ length out = n /\
    Forall (fun a => exists i x, nth_error array i = Some a /\ nth_error w i = Some x /\ 0 < x) out.
Proof.
  intros Hd Hw HL. pose proof (normalize_weights p w Hw) as Hnz.
  destruct Hw as [Ep [Hw Hp]].
  destruct w as [|x w]; [simpl in Hp; lra|]. destruct w as [|y w].
  - subst p. destruct array as [|a array]; [discriminate|]. simpl in Hp.
    exists (repeat a n). simpl. split; [reflexivity|]. split; [apply repeat_length|].
    apply Forall_forall. intros b Hb. apply repeat_spec in Hb. subst b.
    exists 0%nat, x. repeat split; auto. lra.
  - unfold pflip_many. rewrite Hnz. subst p. simpl map at 1. cbv iota beta.
    set (v := x :: y :: w) in *.
    assert (Hq : forallb ext_nonneg (map Fin (map (fun x => x / Rsum v) v)) = true).
    { apply forallb_forall. intros z Hz. rewrite map_map in Hz.
      apply in_map_iff in Hz. destruct Hz as [u [<- Hu]]. simpl. apply Rleb_true.
      rewrite Forall_forall in Hw. specialize (Hw u Hu).
      apply Rmult_le_pos; [exact Hw|]. left. apply Rinv_0_lt_compat; exact Hp. }
    rewrite Hq, andb_true_r, map_length, HL, Nat.eqb_refl.
    assert (G : forall js, exists out,
      rsequence (map (fun j => choice (draws j) array (map Fin (map (fun x => x / Rsum v) v))) js) = Ok out
      /\ length out = length js /\
      Forall (fun a => exists i x, nth_error array i = Some a /\ nth_error v i = Some x /\ 0 < x) out).
    { induction js as [|j js IH].
      - exists []. repeat split; constructor.
      - destruct IH as [out [E [EL EF]]].
        destruct (choice_spec (draws j) array v (Hd j) HL Hw Hp) as [i [a [z [Ec [Ha [Hz Pz]]]]]].
        exists (a :: out). cbn [map rsequence length]. rewrite Ec, E. cbn [rbind].
        split; [reflexivity|]. split; [lia|]. constructor; [|exact EF]. exists i, z. auto. }
    destruct (G (seq 0 n)) as [out [E [EL EF]]]. exists out. rewrite seq_length in EL. auto.
Qed.

Lemma log_pflip_weights l : Forall logw l -> 0 < Rsum (map lexp l) ->
  exists out, log_normalize l = Ok out /\
    weights (map eexp out) (map (fun x => lexp x / Rsum (map lexp l)) l).
Proof.
  intros Hl Hp. destruct (log_normalize_spec l Hl Hp) as [out [E [Ho Em]]].
  exists out. split; [exact E|]. rewrite <- Em. split.
  - rewrite map_map. apply map_ext_in. intros x Hx. rewrite Forall_forall in Ho.
    specialize (Ho x Hx). destruct x; simpl in *; try contradiction; auto.
  - split.
    + rewrite Forall_map. apply Forall_forall. intros x _. apply lexp_nonneg.
    + rewrite Em, Rsum_normalized by exact Hp. lra.
Qed.

Lemma log_pflip_pos l i x y : 0 < Rsum (map lexp l) ->
  nth_error (map (fun x => lexp x / Rsum (map lexp l)) l) i = Some x -> 0 < x ->
  nth_error l i = Some y -> 0 < lexp y.
Proof.
  intros Hp Hi Hx Hy. rewrite (map_nth_error _ _ _ Hy) in Hi. injection Hi as <-.
  apply (Rmult_lt_compat_r (Rsum (map lexp l))) in Hx; [|exact Hp].
  unfold Rdiv in Hx. rewrite Rmult_assoc, Rinv_l in Hx; lra.
Qed.

Lemma log_pflip_spec {A} draw l (array : list A) : draw_ok draw ->
  Forall logw l -> 0 < Rsum (map lexp l) -> length array = length l ->
  exists i a y, log_pflip draw l array = Ok a /\
    nth_error array i = Some a /\ nth_error l i = Some y /\ 0 < lexp y.
Proof.
  intros Hd Hl Hp HL. destruct (log_pflip_weights l Hl Hp) as [out [E Hw]].
  destruct (pflip_spec draw _ _ array Hd Hw) as [i [a [x [Ef [Ha [Hx Px]]]]]].
  { rewrite map_length. exact HL. }
  assert (Hi : (i < length l)%nat).
  { rewrite <- (map_length (fun x => lexp x / Rsum (map lexp l)) l). apply nth_error_Some. rewrite Hx. discriminate. }
  destruct (nth_error l i) as [y|] eqn:Ey; [|apply nth_error_None in Ey; lia].
  exists i, a, y. unfold log_pflip. rewrite E. simpl. repeat split; auto.
  eapply log_pflip_pos; eauto.
Qed.

Lemma log_pflip_many_spec {A} draws l (array : list A) n : (forall j, draw_ok (draws j)) ->
  Forall logw l -> 0 < Rsum (map lexp l) -> length array = length l ->
  exists out, log_pflip_many draws l array n = Ok out /\ length out = n /\
    Forall (fun a => exists i y, nth_error array i = Some a /\ nth_error l i = Some y /\ 0 < lexp y) out.
Proof.
  intros Hd Hl Hp HL. destruct (log_pflip_weights l Hl Hp) as [o [E Hw]].
  destruct (pflip_many_spec draws _ _ array n Hd Hw) as [out [Ef [En Ho]]].
  { rewrite map_length. exact HL. }
  exists out. unfold log_pflip_many. rewrite E. simpl. repeat split; auto.
  eapply Forall_impl; [|exact Ho]. intros a [i [x [Ha [Hx Px]]]].
  assert (Hi : (i < length l)%nat).
  { rewrite <- (map_length (fun x => lexp x / Rsum (map lexp l)) l). apply nth_error_Some. rewrite Hx. discriminate. }
  destruct (nth_error l i) as [y|] eqn:Ey; [|apply nth_error_None in Ey; lia].
  exists i, y. repeat split; auto. eapply log_pflip_pos; eauto.
Qed.
