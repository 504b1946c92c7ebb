(** Facts about the model of State. *)
From Verif Require Import P06_Dim.
From Verif Require Export State ViewFacts.
Local Open Scope R_scope.

(* ------------------------------------------------------------------ *)
(** ** Rows of the table *)

Lemma py_nth_nonneg {A} (l : list A) r : (0 <= r)%Z ->
  py_nth l r = match nth_error l (Z.to_nat r) with Some x => Ok x | None => Err IndexError end.
Proof.
  intros H. unfold py_nth. replace (r <? 0)%Z with false by (symmetry; apply Z.ltb_ge; lia).
  replace (0 <=? r)%Z with true by (symmetry; apply Z.leb_le; lia). reflexivity.
Qed.

Lemma py_nth_app {A} (l : list A) x r : (0 <= r < Z.of_nat (length l))%Z ->
  py_nth (l ++ [x]) r = py_nth l r.
Proof.
  intros H. rewrite !py_nth_nonneg by lia. rewrite nth_error_app1 by lia. reflexivity.
Qed.

Lemma py_nth_last {A} (l : list A) x : py_nth (l ++ [x]) (Z.of_nat (length l)) = Ok x.
Proof.
  rewrite py_nth_nonneg by lia. rewrite Nat2Z.id, nth_error_app2, Nat.sub_diag by lia. reflexivity.
Qed.

Lemma removelast_app_last {A} (l : list A) : l <> [] -> exists x, l = removelast l ++ [x].
Proof. intros H. destruct (exists_last H) as [l' [x ->]]. exists x. rewrite removelast_last. reflexivity. Qed.

Lemma py_nth_removelast {A} (l : list A) r : (0 <= r < Z.of_nat (length l) - 1)%Z ->
  py_nth (removelast l) r = py_nth l r.
Proof.
  intros H. destruct (removelast_app_last l) as [x E]; [destruct l; [simpl in H; lia|discriminate]|].
  rewrite E at 2. symmetry. apply py_nth_app.
  assert (L : length l = S (length (removelast l))) by (rewrite E at 1; rewrite app_length; simpl; lia).
  lia.
Qed.

Lemma length_removelast {A} (l : list A) : l <> [] -> length (removelast l) = (length l - 1)%nat.
Proof.
  intros H. destruct (removelast_app_last l H) as [x E]. rewrite E at 2. rewrite app_length. simpl. lia.
Qed.

Lemma py_set_length {A} (l : list A) i x : length (py_set l i x) = length l.
Proof.
  unfold py_set. set (k := Z.to_nat i). rewrite app_length.
  assert (H : (length (firstn k l) + length (skipn k l) = length l)%nat)
    by (rewrite <- app_length, firstn_skipn; reflexivity).
  destruct (skipn k l); simpl in *; lia.
Qed.

Lemma py_set_nth {A} (l : list A) i x r : (0 <= i < Z.of_nat (length l))%Z -> (0 <= r)%Z ->
  py_nth (py_set l i x) r = if (r =? i)%Z then Ok x else py_nth l r.
Proof.
  intros Hi Hr. rewrite !py_nth_nonneg by lia. unfold py_set.
  set (k := Z.to_nat i). assert (Hk : (k < length l)%nat) by lia.
  assert (Hf : length (firstn k l) = k) by (apply firstn_length_le; lia).
  destruct (skipn k l) as [|y t] eqn:Es.
  { assert (length (skipn k l) = 0%nat) by (rewrite Es; reflexivity). rewrite skipn_length in H. lia. }
  assert (El : l = firstn k l ++ y :: t) by (rewrite <- Es; symmetry; apply firstn_skipn).
  destruct (Z.eqb_spec r i) as [->|Hne].
  - fold k. rewrite nth_error_app2 by lia. rewrite Hf, Nat.sub_diag. reflexivity.
  - assert (Hne' : Z.to_nat r <> k) by lia. rewrite El at 2.
    destruct (Nat.lt_ge_cases (Z.to_nat r) k) as [H|H].
    + rewrite !nth_error_app1 by lia. reflexivity.
    + rewrite !nth_error_app2 by lia. rewrite Hf.
      destruct (Z.to_nat r - k)%nat as [|j] eqn:Ej; [lia|]. reflexivity.
Qed.

Definition row_cell (obs : dict cell) (c : Z) : cell :=
  match dget c obs with Some x => x | None => None end.

Lemma append_row_spec outs obs X X' r : NoDup outs -> append_row outs obs X = (X', r) ->
  (forall c, In c outs -> In c (dkeys X)) ->
  r = Ok tt /\ dkeys X' = dkeys X /\
  forall c, dget c X' = if zmem c outs then option_map (fun l => l ++ [row_cell obs c]) (dget c X)
                        else dget c X.
Proof.
  revert X. induction outs as [|c0 outs IH]; intros X Hn; simpl.
  { intros E _. injection E as <- <-. auto. }
  intros E Hin. inversion Hn as [|? ? Hn1 Hn2]; subst.
  destruct (dget c0 X) as [l|] eqn:E0.
  2:{ exfalso. specialize (Hin c0 (or_introl eq_refl)). apply in_dkeys_Some in Hin.
      destruct Hin as [? H]. congruence. }
  assert (Hk : dkeys (dset c0 (l ++ [match dget c0 obs with Some x => x | None => None end]) X) = dkeys X).
  { apply dkeys_dset_in. eapply dget_Some_in; exact E0. }
  destruct (IH _ Hn2 E) as [-> [K S]]; [intros c Hc; rewrite Hk; apply Hin; right; exact Hc|].
  split; [reflexivity|]. split; [rewrite K; exact Hk|]. intros c. rewrite S.
  destruct (Z.eqb_spec c c0) as [->|Hne].
  - simpl. rewrite dget_dset_same.
    replace (zmem c0 outs) with false. rewrite E0. reflexivity.
    symmetry. destruct (zmem c0 outs) eqn:Ez; [|reflexivity]. apply zmem_in in Ez. contradiction.
  - simpl. rewrite dget_dset_other by exact Hne. reflexivity.
Qed.

Lemma pop_row_spec outs X X' r : NoDup outs -> pop_row outs X = (X', r) ->
  (forall c, In c outs -> exists l, dget c X = Some l /\ l <> []) ->
  r = Ok tt /\ dkeys X' = dkeys X /\
  forall c, dget c X' = if zmem c outs then option_map (@removelast cell) (dget c X) else dget c X.
Proof.
  revert X. induction outs as [|c0 outs IH]; intros X Hn; simpl.
  { intros E _. injection E as <- <-. auto. }
  intros E Hin. inversion Hn as [|? ? Hn1 Hn2]; subst.
  destruct (Hin c0 (or_introl eq_refl)) as [l [E0 Hl]]. rewrite E0 in E.
  destruct l as [|x0 l0]; [contradiction|]. set (l := x0 :: l0) in *.
  assert (Hk : dkeys (dset c0 (removelast l) X) = dkeys X).
  { apply dkeys_dset_in. eapply dget_Some_in; exact E0. }
  destruct (IH _ Hn2 E) as [-> [K S]].
  { intros c Hc. rewrite dget_dset_other by (intros ->; contradiction). apply Hin. right. exact Hc. }
  split; [reflexivity|]. split; [rewrite K; exact Hk|]. intros c. rewrite S.
  destruct (Z.eqb_spec c c0) as [->|Hne].
  - simpl. rewrite dget_dset_same.
    replace (zmem c0 outs) with false. rewrite E0. reflexivity.
    symmetry. destruct (zmem c0 outs) eqn:Ez; [|reflexivity]. apply zmem_in in Ez. contradiction.
  - simpl. rewrite dget_dset_other by exact Hne. reflexivity.
Qed.

Lemma set_cells_spec r obs X : NoDup (dkeys obs) ->
  dkeys (set_cells r obs X) = dkeys X /\
  forall c, dget c (set_cells r obs X) =
    match dget c obs, dget c X with
    | Some x, Some l => Some (py_set l r x)
    | _, o => o
    end.
Proof.
  revert X. induction obs as [|[c0 x0] obs IH]; intros X Hn; simpl.
  { split; [reflexivity|]. intros c. destruct (dget c X); reflexivity. }
  inversion Hn as [|? ? Hn1 Hn2]; subst.
  set (X1 := match dget c0 X with Some l => dset c0 (py_set l r x0) X | None => X end).
  assert (K1 : dkeys X1 = dkeys X).
  { unfold X1. destruct (dget c0 X) as [l|] eqn:E0; [|reflexivity]. apply dkeys_dset_in.
    eapply dget_Some_in; exact E0. }
  destruct (IH X1 Hn2) as [K S]. split; [rewrite K; exact K1|]. intros c. rewrite S.
  destruct (Z.eqb_spec c c0) as [->|Hne].
  - replace (dget c0 obs) with (@None cell).
    2:{ destruct (dget c0 obs) eqn:E; [|reflexivity]. apply dget_Some_in in E. contradiction. }
    unfold X1. destruct (dget c0 X) as [l|] eqn:E0; [apply dget_dset_same|exact E0].
  - replace (dget c X1) with (dget c X); [reflexivity|].
    unfold X1. destruct (dget c0 X) as [l|]; [symmetry; apply dget_dset_other; exact Hne|reflexivity].
Qed.

(* ------------------------------------------------------------------ *)
(** ** Loops over the views *)

Lemma views_loop_keep (P : Z -> view -> Prop) f vs ws ws' :
  (forall i v w w', P v w -> f i v w = (w', Ok tt) -> P v w') ->
  (forall v w, dget v ws = Some w -> P v w) ->
  views_loop f vs ws = (ws', Ok tt) ->
  dkeys ws' = dkeys ws /\ forall v w, dget v ws' = Some w -> P v w.
Proof.
  intros Hf. revert ws. induction vs as [|v0 vs IH]; intros ws Hw; simpl.
  { intros E. injection E as <-. auto. }
  destruct (dget v0 ws) as [w|] eqn:E0; [|discriminate].
  destruct (f (length vs) v0 w) as [w1 [[]|e]] eqn:Ef; [|discriminate].
  intros E. destruct (IH (dset v0 w1 ws)) as [K S].
  - intros v w2. rewrite dget_dset. destruct (Z.eqb_spec v v0) as [->|]; [|apply Hw].
    intros H. injection H as <-. eapply Hf; [apply Hw; exact E0|exact Ef].
  - exact E.
  - split; [|exact S]. rewrite K. apply dkeys_dset_in. eapply dget_Some_in; exact E0.
Qed.

Lemma views_loop_once f vs ws ws' : NoDup vs -> views_loop f vs ws = (ws', Ok tt) ->
  dkeys ws' = dkeys ws /\ (forall v, In v vs -> In v (dkeys ws)) /\
  forall v w', dget v ws' = Some w' -> exists w, dget v ws = Some w /\
    (In v vs -> exists i, f i v w = (w', Ok tt)) /\ (~ In v vs -> w' = w).
Proof.
  revert ws. induction vs as [|v0 vs IH]; intros ws Hn; simpl.
  { intros E. injection E as <-. split; [reflexivity|]. split; [tauto|]. intros v w' H. exists w'. tauto. }
  inversion Hn as [|? ? Hn1 Hn2]; subst.
  destruct (dget v0 ws) as [w|] eqn:E0; [|discriminate].
  destruct (f (length vs) v0 w) as [w1 [[]|e]] eqn:Ef; [|discriminate].
  intros E. assert (Hk : dkeys (dset v0 w1 ws) = dkeys ws).
  { apply dkeys_dset_in. eapply dget_Some_in; exact E0. }
  destruct (IH _ Hn2 E) as [K [I S]]. rewrite Hk in *. split; [exact K|]. split.
  { intros v [<-|Hv]; [eapply dget_Some_in; exact E0|apply I; exact Hv]. }
  intros v w' Hw. destruct (S v w' Hw) as [w2 [H1 [H2 H3]]].
  rewrite dget_dset in H1. destruct (Z.eqb_spec v v0) as [->|Hne].
  - injection H1 as <-. exists w. split; [exact E0|].
    rewrite (H3 Hn1) in *. split; [|tauto]. intros _. eauto.
  - exists w2. split; [exact H1|]. split.
    + intros [->|Hv]; [contradiction|apply H2; exact Hv].
    + intros H. apply H3. tauto.
Qed.

(* ------------------------------------------------------------------ *)
(** ** The invariant *)

(** View [w], number [v], over a table with [n] rows. *)
Definition vok (X : table) (n : nat) (zv : dict Z) (v : Z) (w : view) : Prop :=
  vinv X w /\ v_out w = (crp_id_view + v)%Z /\
  (forall c, In c (dkeys (v_dims w)) <-> dget c zv = Some v) /\
  (forall r, In r (dkeys (v_rows w)) <-> (0 <= r < Z.of_nat n)%Z).

Record sinv (n : nat) (s : state) : Prop := {
  si_nodup : NoDup (s_outs s);
  si_ne : s_outs s <> [];
  si_X : forall c, In c (dkeys (s_X s)) <-> In c (s_outs s);
  si_XN : NoDup (dkeys (s_X s));
  si_len : forall c l, dget c (s_X s) = Some l -> length l = n;
  si_crp : crp_inv (s_crp s);
  si_zv : forall c, In c (dkeys (s_zv s)) <-> In c (s_outs s);
  si_nv : NoDup (dkeys (s_views s));
  si_views : forall v, In v (dkeys (s_views s)) <-> In v (dkeys (c_counts (s_crp s)));
  si_view : forall v w, dget v (s_views s) = Some w -> vok (tab (s_X s)) n (s_zv s) v w
}.

Lemma sinv_n_rows n s : sinv n s -> n_rows s = Ok (Z.of_nat n).
Proof.
  intros H. unfold n_rows. pose proof (si_ne _ _ H). destruct (s_outs s) as [|c o] eqn:E; [contradiction|].
  assert (Hc : In c (dkeys (s_X s))) by (apply (si_X _ _ H); rewrite E; left; reflexivity).
  apply in_dkeys_Some in Hc. destruct Hc as [l Hl]. rewrite Hl, (si_len _ _ H c l Hl). reflexivity.
Qed.

(** Replacing the views by ones over the same partition. *)
Lemma sinv_views n s ws : sinv n s -> dkeys ws = dkeys (s_views s) ->
  (forall v w, dget v ws = Some w -> vok (tab (s_X s)) n (s_zv s) v w) ->
  sinv n (set_views s ws).
Proof.
  intros H K S. destruct H. split; simpl; auto.
  - rewrite K. auto.
  - intros v. rewrite K. apply si_views0.
Qed.

Lemma vok_dset_call n s v w c o w' r : sinv n s -> dget v (s_views s) = Some w ->
  view_call w c o = (w', r) -> sinv n (set_views s (dset v w' (s_views s))).
Proof.
  intros H Hw E. destruct (si_view _ _ H v w Hw) as [V [O [D Rr]]].
  destruct (view_call_ok _ _ _ _ _ _ V E) as [V' [C' [K' _]]].
  assert (Oo : v_out w' = v_out w).
  { unfold view_call in E. destruct (dget c (v_dims w)); [|injection E as <- _; reflexivity].
    destruct (a_call a o). injection E as <- _. reflexivity. }
  apply sinv_views; [exact H|apply dkeys_dset_in; eapply dget_Some_in; exact Hw|].
  intros v2 w2. rewrite dget_dset. destruct (Z.eqb_spec v2 v) as [->|]; [|apply (si_view _ _ H)].
  intros E2. injection E2 as <-. split; [exact V'|]. split; [congruence|]. rewrite K'. split; [exact D|].
  unfold v_rows in *. rewrite C'. exact Rr.
Qed.

(** What the inference kernels never touch. *)
Definition same_data (s s' : state) : Prop :=
  s_outs s' = s_outs s /\ s_X s' = s_X s /\ s_Cd s' = s_Cd s /\ s_Ci s' = s_Ci s.

Lemma same_data_refl s : same_data s s.
Proof. repeat split. Qed.
Lemma same_data_trans s1 s2 s3 : same_data s1 s2 -> same_data s2 s3 -> same_data s1 s3.
Proof. intros [A [B [C D]]] [A' [B' [C' D']]]. repeat split; congruence. Qed.

Lemma dim_call_ok n s c o s' r : sinv n s -> dim_call s c o = (s', r) -> sinv n s'.
Proof.
  intros H. unfold dim_call. destruct (dget c (s_zv s)) as [v|]; [|intros E; injection E as <- _; exact H].
  destruct (dget v (s_views s)) as [w|] eqn:Ew; [|intros E; injection E as <- _; exact H].
  destruct (view_call w c o) as [w' r'] eqn:Ec. intros E. injection E as <- _.
  eapply vok_dset_call; eassumption.
Qed.
Lemma dims_call_ok n cols o : forall s s' r, sinv n s -> dims_call s cols o = (s', r) -> sinv n s'.
Proof.
  induction cols as [|c cols IH]; intros s s' r H; simpl; [intros E; injection E as <- _; exact H|].
  destruct (dim_call s c (o (length cols) c)) as [s1 r1] eqn:E1.
  pose proof (dim_call_ok _ _ _ _ _ _ H E1). destruct r1; [apply IH; assumption|].
  intros E; injection E as <- _; assumption.
Qed.

(* ------------------------------------------------------------------ *)
(** ** Rows *)

Lemma tab_in X c r : In c (dkeys X) -> exists l, dget c X = Some l /\ tab X c r = py_nth l r.
Proof. intros H. apply in_dkeys_Some in H. destruct H as [l H]. exists l. unfold tab. rewrite H. auto. Qed.

Lemma tab_append n outs obs X X' : (forall c, In c (dkeys X) <-> In c outs) ->
  (forall c l, dget c X = Some l -> length l = n) ->
  (forall c, dget c X' = if zmem c outs then option_map (fun l => l ++ [row_cell obs c]) (dget c X)
                         else dget c X) ->
  (forall c r, (0 <= r < Z.of_nat n)%Z -> tab X' c r = tab X c r) /\
  (forall c, In c outs -> tab X' c (Z.of_nat n) = Ok (row_cell obs c)).
Proof.
  intros HX Hl S. split.
  - intros c r Hr. unfold tab. rewrite S. destruct (zmem c outs); [|reflexivity].
    destruct (dget c X) as [l|] eqn:E; [|reflexivity]. simpl. apply py_nth_app. rewrite (Hl c l E). lia.
  - intros c Hc. unfold tab. rewrite S. replace (zmem c outs) with true by (symmetry; apply zmem_in; exact Hc).
    apply HX in Hc. apply in_dkeys_Some in Hc. destruct Hc as [l E]. rewrite E. simpl.
    rewrite <- (Hl c l E). apply py_nth_last.
Qed.

Lemma vinv_grow X X' w r : vinv X w -> ~ In r (dkeys (v_rows w)) ->
  (forall c r', In r' (dkeys (v_rows w)) -> X' c r' = X c r') ->
  exists X1, vinv X1 w /\ forall c r', r' <> r -> X' c r' = X1 c r'.
Proof.
  intros H Hr HX. exists (fun c r' => if (r' =? r)%Z then X c r' else X' c r'). split.
  - eapply vinv_table; [exact H|]. intros c r' Hr'. destruct (r' =? r)%Z; [reflexivity|]. apply HX. exact Hr'.
  - intros c r' Hne. destruct (Z.eqb_spec r' r); [contradiction|reflexivity].
Qed.

Lemma state_inc_ok n draws s rowid obs clus s' : sinv n s ->
  state_incorporate draws s rowid obs clus = (s', Ok tt) ->
  rowid = Z.of_nat n /\ sinv (S n) s' /\ s_outs s' = s_outs s /\ s_crp s' = s_crp s /\
  s_Cd s' = s_Cd s /\ s_Ci s' = s_Ci s /\ dkeys (s_views s') = dkeys (s_views s) /\
  (forall c r, (0 <= r < Z.of_nat n)%Z -> tab (s_X s') c r = tab (s_X s) c r) /\
  (forall c, In c (s_outs s) -> tab (s_X s') c rowid = Ok (row_cell obs c)) /\
  (forall v w w', dget v (s_views s) = Some w -> dget v (s_views s') = Some w' ->
     (forall r, r <> rowid -> dget r (v_rows w') = dget r (v_rows w)) /\
     forall k, dget (v_out w) clus = Some k -> dget rowid (v_rows w') = Some k).
Proof.
  intros H. unfold state_incorporate. rewrite (sinv_n_rows _ _ H).
  destruct (Z.eqb_spec rowid (Z.of_nat n)) as [->|]; [|discriminate]. simpl negb. cbv iota.
  destruct (forallb _ _); [|discriminate]. simpl negb. cbv iota.
  destruct (existsb _ _); [discriminate|].
  destruct (append_row (s_outs s) obs (s_X s)) as [X r] eqn:Ea.
  destruct (append_row_spec _ _ _ _ _ (si_nodup _ _ H) Ea) as [-> [KX SX]].
  { intros c Hc. apply (si_X _ _ H). exact Hc. }
  destruct (tab_append n _ obs _ X (si_X _ _ H) (si_len _ _ H) SX) as [T1 T2].
  set (s1 := set_X s X).
  assert (En1 : n_rows s1 = Ok (Z.of_nat (S n))).
  { unfold n_rows, s1. simpl. pose proof (si_ne _ _ H). destruct (s_outs s) as [|c o] eqn:E; [contradiction|].
    rewrite SX. replace (zmem c (c :: o)) with true by (symmetry; apply zmem_in; left; reflexivity).
    assert (Hc : In c (dkeys (s_X s))) by (apply (si_X _ _ H); rewrite E; left; reflexivity).
    apply in_dkeys_Some in Hc. destruct Hc as [l Hl]. rewrite Hl. simpl.
    rewrite app_length, (si_len _ _ H c l Hl). simpl. do 2 f_equal. lia. }
  rewrite En1. unfold hypothetical.
  replace (0 <=? Z.of_nat n)%Z with true by (symmetry; apply Z.leb_le; lia).
  replace (Z.of_nat n <? Z.of_nat (S n))%Z with true by (symmetry; apply Z.ltb_lt; lia).
  simpl andb. simpl negb. cbv iota.
  match goal with |- context [views_loop ?ff _ _] => set (f := ff) end.
  destruct (views_loop f (dkeys (s_views s)) (s_views s)) as [ws r2] eqn:El.
  intros E. injection E as <- ->.
  destruct (views_loop_once _ _ _ _ (si_nv _ _ H) El) as [K [_ S]].
  assert (Hf : forall i v w w', dget v (s_views s) = Some w -> f i v w = (w', Ok tt) ->
     vok (tab X) (Datatypes.S n) (s_zv s) v w' /\
     (forall r, r <> Z.of_nat n -> dget r (v_rows w') = dget r (v_rows w)) /\
     forall k, dget (v_out w) clus = Some k -> dget (Z.of_nat n) (v_rows w') = Some k).
  { intros i v w w' Hw Ef. unfold f in Ef.
    destruct (table_row (tab X) w (Z.of_nat n)) as [q|] eqn:Eq; [|discriminate].
    destruct (si_view _ _ H v w Hw) as [V [O [D Rr]]].
    assert (Hnr : ~ In (Z.of_nat n) (dkeys (v_rows w))) by (rewrite Rr; lia).
    destruct (vinv_grow (tab (s_X s)) (tab X) w (Z.of_nat n) V Hnr) as [X1 [V1 HX1]].
    { intros c r' Hr'. apply T1. apply Rr. exact Hr'. }
    destruct (view_inc_ok X1 (tab X) _ w _ _ q w' V1 HX1 (table_row_spec _ _ _ _ Eq) Ef)
      as [V' [_ [K' [O' [_ [[k' [Hk' Hk0]] Hr']]]]]].
    split; [|split; [exact Hr'|]].
    - split; [exact V'|]. split; [congruence|]. rewrite K'. split; [exact D|].
      intros r. destruct (Z.eq_dec r (Z.of_nat n)) as [->|Hne].
      + split; [lia|]. intros _. eapply dget_Some_in; exact Hk'.
      + assert (Hi : In r (dkeys (v_rows w')) <-> In r (dkeys (v_rows w))).
        { specialize (Hr' r Hne). split; intros Hi; apply in_dkeys_Some in Hi; destruct Hi as [k Hi];
            eapply dget_Some_in; [rewrite <- Hr'|rewrite Hr']; exact Hi. }
        rewrite Hi, Rr. lia.
    - intros k Hk. rewrite Hk'. f_equal. apply Hk0. exact Hk. }
  split; [reflexivity|]. split.
  { split; simpl; try apply H.
    - intros c. rewrite KX. apply (si_X _ _ H).
    - rewrite KX. apply (si_XN _ _ H).
    - intros c l. rewrite SX. destruct (zmem c (s_outs s)) eqn:Ez.
      + destruct (dget c (s_X s)) as [l0|] eqn:E0; [|discriminate]. intros E. injection E as <-.
        rewrite app_length, (si_len _ _ H c l0 E0). simpl. lia.
      + intros E. exfalso. assert (Hc : In c (s_outs s)) by (apply (si_X _ _ H); eapply dget_Some_in; exact E).
        apply zmem_in in Hc. congruence.
    - rewrite K. apply (si_nv _ _ H).
    - intros v. rewrite K. apply (si_views _ _ H).
    - intros v w' Hw'. destruct (S v w' Hw') as [w [Hw [Hi _]]].
      destruct Hi as [i Hi]; [eapply dget_Some_in; exact Hw|]. apply (Hf i v w w' Hw Hi). }
  do 4 (split; [reflexivity|]). split; [exact K|]. split; [exact T1|]. split; [exact T2|].
  intros v w w' Hw Hw'. destruct (S v w' Hw') as [w0 [Hw0 [Hi _]]]. rewrite Hw in Hw0. injection Hw0 as <-.
  destruct Hi as [i Hi]; [eapply dget_Some_in; exact Hw|]. apply (Hf i v w w' Hw Hi).
Qed.

Lemma state_uninc_ok n s rowid s' : sinv n s -> state_unincorporate s rowid = (s', Ok tt) ->
  exists m, n = S m /\ (0 < m)%nat /\ rowid = Z.of_nat m /\ sinv m s' /\ s_outs s' = s_outs s /\
  s_crp s' = s_crp s /\ s_Cd s' = s_Cd s /\ s_Ci s' = s_Ci s /\ dkeys (s_views s') = dkeys (s_views s) /\
  (forall c r, (0 <= r < Z.of_nat m)%Z -> tab (s_X s') c r = tab (s_X s) c r) /\
  (forall v w w', dget v (s_views s) = Some w -> dget v (s_views s') = Some w' ->
     v_rows w' = ddel rowid (v_rows w)).
Proof.
  intros H. unfold state_unincorporate. rewrite (sinv_n_rows _ _ H).
  destruct (Z.eqb_spec rowid (Z.of_nat n - 1)) as [->|]; [|discriminate]. simpl negb. cbv iota.
  destruct (Z.eqb_spec (Z.of_nat n) 1); [discriminate|].
  destruct (pop_row (s_outs s) (s_X s)) as [X r] eqn:Ea.
  destruct (Nat.eq_dec n 0) as [->|Hn0].
  { intros E. exfalso. destruct r as [[]|]; [|discriminate E].
    assert (Hne := si_ne _ _ H). destruct (s_outs s) as [|c o] eqn:Eo; [contradiction|]. simpl in Ea.
    assert (Hc : In c (dkeys (s_X s))) by (apply (si_X _ _ H); rewrite Eo; left; reflexivity).
    apply in_dkeys_Some in Hc. destruct Hc as [l Hl]. rewrite Hl in Ea.
    pose proof (si_len _ _ H c l Hl). destruct l; [discriminate|simpl in *; lia]. }
  destruct n as [|m]; [lia|]. assert (Hm : (0 < m)%nat) by lia. clear Hn0.
  destruct (pop_row_spec _ _ _ _ (si_nodup _ _ H) Ea) as [-> [KX SX]].
  { intros c Hc. apply (si_X _ _ H) in Hc. apply in_dkeys_Some in Hc. destruct Hc as [l Hl].
    exists l. split; [exact Hl|]. intros ->. pose proof (si_len _ _ H c _ Hl). discriminate. }
  replace (Z.of_nat (S m) - 1)%Z with (Z.of_nat m) by lia.
  match goal with |- context [views_loop ?ff _ _] => set (f := ff) end.
  destruct (views_loop f (dkeys (s_views s)) (s_views s)) as [ws r2] eqn:El.
  intros E. injection E as <- ->.
  destruct (views_loop_once _ _ _ _ (si_nv _ _ H) El) as [K [_ Sv]].
  assert (T1 : forall c r, (0 <= r < Z.of_nat m)%Z -> tab X c r = tab (s_X s) c r).
  { intros c r Hr. unfold tab. rewrite SX. destruct (zmem c (s_outs s)); [|reflexivity].
    destruct (dget c (s_X s)) as [l|] eqn:E0; [|reflexivity]. simpl. apply py_nth_removelast.
    rewrite (si_len _ _ H c l E0). lia. }
  assert (Hf : forall i v w w', dget v (s_views s) = Some w -> f i v w = (w', Ok tt) ->
     vok (tab X) m (s_zv s) v w' /\ v_rows w' = ddel (Z.of_nat m) (v_rows w)).
  { intros i v w w' Hw Ef. unfold f in Ef. destruct (si_view _ _ H v w Hw) as [V [O [D Rr]]].
    assert (Hin : In (Z.of_nat m) (dkeys (v_rows w))) by (apply Rr; lia).
    apply in_dkeys_Some in Hin. destruct Hin as [k Hk].
    destruct (view_uninc_ok _ _ _ _ V Hk) as [w2 [E2 [V2 [R2 [K2 [O2 _]]]]]].
    rewrite Ef in E2. injection E2 as <-. split; [|exact R2].
    assert (Hr : forall r, In r (dkeys (v_rows w')) <-> (0 <= r < Z.of_nat m)%Z).
    { intros r. rewrite R2, in_dkeys_ddel by apply V. rewrite Rr. lia. }
    split; [|split; [congruence|split; [rewrite K2; exact D|exact Hr]]].
    eapply vinv_table; [exact V2|]. intros c r Hr'. apply T1. apply Hr. exact Hr'. }
  exists m. do 3 (split; [auto|]). split.
  { split; simpl; try apply H.
    - intros c. rewrite KX. apply (si_X _ _ H).
    - rewrite KX. apply (si_XN _ _ H).
    - intros c l. rewrite SX. destruct (zmem c (s_outs s)) eqn:Ez.
      + destruct (dget c (s_X s)) as [l0|] eqn:E0; [|discriminate]. intros E. injection E as <-.
        pose proof (si_len _ _ H c l0 E0). rewrite length_removelast by (intros ->; discriminate). lia.
      + intros E. exfalso. assert (Hc : In c (s_outs s)) by (apply (si_X _ _ H); eapply dget_Some_in; exact E).
        apply zmem_in in Hc. congruence.
    - rewrite K. apply (si_nv _ _ H).
    - intros v. rewrite K. apply (si_views _ _ H).
    - intros v w' Hw'. destruct (Sv v w' Hw') as [w [Hw [Hi _]]].
      destruct Hi as [i Hi]; [eapply dget_Some_in; exact Hw|]. apply (Hf i v w w' Hw Hi). }
  do 4 (split; [reflexivity|]). split; [exact K|]. split; [exact T1|].
  intros v w w' Hw Hw'. destruct (Sv v w' Hw') as [w0 [Hw0 [Hi _]]]. rewrite Hw in Hw0. injection Hw0 as <-.
  destruct Hi as [i Hi]; [eapply dget_Some_in; exact Hw|]. apply (Hf i v w w' Hw Hi).
Qed.

(* ------------------------------------------------------------------ *)
(** ** Cells forced *)

Lemma dget_dict_of_gen {A} (l : list (Z * A)) d k :
  dget k (fold_left (fun d kv => dset (fst kv) (snd kv) d) l d) =
  match dget k (rev l) with Some x => Some x | None => dget k d end.
Proof.
  revert d. induction l as [|[k0 x0] l IH] using rev_ind; intros d; simpl; [reflexivity|].
  rewrite fold_left_app, rev_app_distr. simpl. rewrite dget_dset. rewrite IH.
  destruct (k =? k0)%Z; reflexivity.
Qed.

Lemma NoDup_dict_of_gen {A} (l : list (Z * A)) d : NoDup (dkeys d) ->
  NoDup (dkeys (fold_left (fun d kv => dset (fst kv) (snd kv) d) l d)).
Proof. revert d. induction l as [|[k0 x0] l IH]; intros d H; simpl; [exact H|]. apply IH, NoDup_dset, H. Qed.

Lemma NoDup_dict_of {A} (l : list (Z * A)) : NoDup (dkeys (dict_of l)).
Proof. apply NoDup_dict_of_gen. constructor. Qed.

Lemma dget_sub_obs {A} (obs : dict A) cols c :
  dget c (sub_obs obs cols) = if zmem c cols then dget c obs else None.
Proof.
  unfold sub_obs, dict_of. rewrite dget_dict_of_gen. simpl.
  set (l := flat_map _ cols).
  assert (H : forall k x, In (k, x) (rev l) <-> In k cols /\ dget k obs = Some x).
  { intros k x. rewrite <- in_rev. unfold l. rewrite in_flat_map. split.
    - intros [k0 [Hk H]]. destruct (dget k0 obs) eqn:E; [|destruct H]. destruct H as [H|[]].
      injection H as -> ->. auto.
    - intros [Hk E]. exists k. split; [exact Hk|]. rewrite E. left. reflexivity. }
  destruct (dget c (rev l)) as [x|] eqn:E.
  - apply dget_In in E. apply H in E. destruct E as [E1 E2].
    replace (zmem c cols) with true by (symmetry; apply zmem_in; exact E1). congruence.
  - destruct (zmem c cols) eqn:Ez; [|reflexivity]. destruct (dget c obs) as [x|] eqn:Eo; [|reflexivity].
    exfalso. apply zmem_in in Ez. assert (Hi : In (c, x) (rev l)) by (apply H; auto).
    apply dget_None_notin in E. apply E. unfold dkeys. change c with (fst (c, x)). apply in_map. exact Hi.
Qed.

(** [partition_list] groups the listed variables by their block. *)
Lemma add_group_spec {A} k (x : A) d k' : 
  dget k' (add_group k x d) =
  if (k' =? k)%Z then Some (match dget k d with Some l => l ++ [x] | None => [x] end) else dget k' d.
Proof.
  unfold add_group. destruct (dget k d); rewrite dget_dset; destruct (k' =? k)%Z; reflexivity.
Qed.
Lemma NoDup_add_group {A} k (x : A) d : NoDup (dkeys d) -> NoDup (dkeys (add_group k x d)).
Proof. intros H. unfold add_group. destruct (dget k d); apply NoDup_dset; exact H. Qed.

Definition in_block (Zd : dict Z) (k c : Z) : bool :=
  match dget c Zd with Some v => (v =? k)%Z | None => false end.

Lemma group_list_spec Zd L : forall d out, NoDup (dkeys d) -> (forall k, dget k d <> Some []) ->
  group_list Zd L d = Ok out ->
  NoDup (dkeys out) /\ (forall c, In c L -> In c (dkeys Zd)) /\
  (forall k, dget k out =
    match match dget k d with Some l => l | None => [] end ++ filter (in_block Zd k) L with
    | [] => None | l => Some l end).
Proof.
  induction L as [|c L IH]; intros d out Hn Hne; simpl.
  { intros E. injection E as <-. split; [exact Hn|]. split; [tauto|]. intros k. rewrite app_nil_r.
    destruct (dget k d) as [[|]|] eqn:E; auto. exfalso. eapply Hne; exact E. }
  destruct (dget c Zd) as [v|] eqn:Ev; [|discriminate]. intros E.
  destruct (IH (add_group v c d) out (NoDup_add_group _ _ _ Hn)) as [N [I S]]; [|exact E|].
  { intros k. rewrite add_group_spec. destruct (k =? v)%Z; [|apply Hne].
    destruct (dget v d) as [[|]|]; discriminate. }
  split; [exact N|]. split.
  { intros c' [<-|H]; [eapply dget_Some_in; exact Ev|apply I; exact H]. }
  intros k. rewrite S, add_group_spec. unfold in_block at 2. rewrite Ev.
  destruct (Z.eqb_spec k v) as [->|Hk].
  - rewrite Z.eqb_refl. destruct (dget v d) as [l|]; [rewrite <- app_assoc|]; reflexivity.
  - replace (v =? k)%Z with false by (symmetry; apply Z.eqb_neq; congruence). reflexivity.
Qed.

Lemma partition_list_spec Zd L out : partition_list Zd L = Ok out ->
  NoDup (dkeys out) /\ (forall c, In c L -> In c (dkeys Zd)) /\
  (forall k, dget k out = match filter (in_block Zd k) L with [] => None | l => Some l end).
Proof.
  intros E. destruct (group_list_spec Zd L [] out) as [A [B C]]; [constructor|discriminate|exact E|].
  split; [exact A|]. split; [exact B|]. exact C.
Qed.

(** Columns whose input was forced must have been forced too. *)
Definition state_inputs_forced (s : state) (obs : dict cell) : Prop :=
  forall v w, dget v (s_views s) = Some w -> inputs_forced w obs.

Lemma py_nth_lt {A} (l : list A) r : (0 <= r < Z.of_nat (length l))%Z -> exists x, py_nth l r = Ok x.
Proof.
  intros H. rewrite py_nth_nonneg by lia. destruct (nth_error l (Z.to_nat r)) eqn:E; [eauto|].
  apply nth_error_None in E. lia.
Qed.

Lemma all_nan_spec X r cols : all_nan X r cols = Ok true <-> forall c, In c cols -> X c r = Ok None.
Proof.
  induction cols as [|c cols IH]; simpl; [split; auto; intros _ c []|].
  destruct (X c r) as [[y|]|e] eqn:E; simpl.
  - split; [discriminate|]. intros H. specialize (H c (or_introl eq_refl)). congruence.
  - rewrite IH. split; [intros H c' [<-|Hc]; auto|intros H c' Hc; apply H; auto].
  - split; [discriminate|]. intros H. specialize (H c (or_introl eq_refl)). congruence.
Qed.

Lemma in_block_true Zd k c : in_block Zd k c = true <-> dget c Zd = Some k.
Proof.
  unfold in_block. destruct (dget c Zd) as [v|]; [|split; discriminate].
  rewrite Z.eqb_eq. split; [intros ->; reflexivity|intros E; injection E; auto].
Qed.

Lemma state_force_ok n s r obs s' : sinv n s -> NoDup (dkeys obs) -> state_inputs_forced s obs ->
  state_force_cell s r obs = (s', Ok tt) ->
  (0 <= r < Z.of_nat n)%Z /\ sinv n s' /\ s_outs s' = s_outs s /\ s_crp s' = s_crp s /\
  s_Cd s' = s_Cd s /\ s_Ci s' = s_Ci s /\ dkeys (s_views s') = dkeys (s_views s) /\
  (forall c, In c (dkeys obs) -> In c (s_outs s) /\ tab (s_X s) c r = Ok None) /\
  (forall c r', (0 <= r')%Z -> tab (s_X s') c r' =
     match dget c obs with
     | Some x => if (r' =? r)%Z then Ok x else tab (s_X s) c r'
     | None => tab (s_X s) c r'
     end) /\
  (forall v w w', dget v (s_views s) = Some w -> dget v (s_views s') = Some w' ->
     v_crp w' = v_crp w /\
  forall c a', dget c (v_dims w') = Some a' -> exists a,
       dget c (v_dims w) = Some a /\ akin a a' /\
  (forall r', r' <> r -> acontent a' r' = acontent a r') /\
  (~ In c (dkeys obs) -> a' = a)).
Proof.
  intros H Hno Hif. unfold state_force_cell. rewrite (sinv_n_rows _ _ H).
  unfold hypothetical. destruct (0 <=? r)%Z eqn:Er0; [|discriminate]. apply Z.leb_le in Er0.
  destruct (r <? Z.of_nat n)%Z eqn:Er1; [|discriminate]. apply Z.ltb_lt in Er1. simpl.
  destruct (all_nan _ _ _) as [[]|] eqn:En; try discriminate.
  destruct (partition_list (s_zv s) (dkeys obs)) as [q|] eqn:Eq; [|discriminate].
  destruct (partition_list_spec _ _ _ Eq) as [Qn [Qi Qs]].
  destruct (set_cells_spec r obs (s_X s) Hno) as [KX SX].
  set (X := set_cells r obs (s_X s)) in *.
  match goal with |- context [views_loop ?ff _ _] => set (f := ff) end.
  destruct (views_loop f (dkeys q) (s_views s)) as [ws r2] eqn:El.
  intros E. injection E as <- ->.
  destruct (views_loop_once _ _ _ _ Qn El) as [K [_ Sv]].
  assert (Hobs : forall c, In c (dkeys obs) -> In c (s_outs s)).
  { intros c Hc. apply (si_zv _ _ H). apply Qi. exact Hc. }
  assert (T : forall c r', (0 <= r')%Z -> tab X c r' =
     match dget c obs with
     | Some x => if (r' =? r)%Z then Ok x else tab (s_X s) c r'
     | None => tab (s_X s) c r'
     end).
  { intros c r' Hr'. unfold tab. rewrite SX. destruct (dget c obs) as [x|] eqn:Eo; [|reflexivity].
    assert (Hc : In c (dkeys (s_X s))) by (apply (si_X _ _ H), Hobs; eapply dget_Some_in; exact Eo).
    apply in_dkeys_Some in Hc. destruct Hc as [l Hl]. rewrite Hl.
    rewrite py_set_nth; [reflexivity| |exact Hr']. rewrite (si_len _ _ H c l Hl). lia. }
  (* negative indices are not rows of any view *)
  set (X1 := fun c r' => if (r' <? 0)%Z then tab X c r' else tab (s_X s) c r').
  assert (Hf : forall v w w', dget v (s_views s) = Some w ->
     (In v (dkeys q) -> exists i, f i v w = (w', Ok tt)) -> (~ In v (dkeys q) -> w' = w) ->
     vok (tab X) n (s_zv s) v w' /\ v_crp w' = v_crp w /\
     forall c a', dget c (v_dims w') = Some a' -> exists a,
       dget c (v_dims w) = Some a /\ akin a a' /\
       (forall r', r' <> r -> acontent a' r' = acontent a r') /\
       (~ In c (dkeys obs) -> a' = a)).
  { intros v w w' Hw Hin Hout. destruct (si_view _ _ H v w Hw) as [V [O [D Rr]]].
    assert (V1 : vinv X1 w).
    { eapply vinv_table; [exact V|]. intros c r' Hr'. apply Rr in Hr'. unfold X1.
      replace (r' <? 0)%Z with false by (symmetry; apply Z.ltb_ge; lia). reflexivity. }
    pose proof (Hif v w Hw) as Hf.
    destruct (in_dec Z.eq_dec v (dkeys q)) as [Hq|Hq].
    - destruct (Hin Hq) as [i Ef]. unfold f in Ef.
      apply in_dkeys_Some in Hq. destruct Hq as [l Hl]. rewrite Hl in Ef.
      rewrite Qs in Hl.
      assert (Hl' : filter (in_block (s_zv s) v) (dkeys obs) = l)
        by (destruct (filter (in_block (s_zv s) v) (dkeys obs)); [discriminate|injection Hl; auto]).
      assert (Hsub : forall c, dget c (sub_obs obs l) =
                if in_block (s_zv s) v c then dget c obs else None).
      { intros c. rewrite dget_sub_obs. destruct (zmem c l) eqn:Ez.
        - apply zmem_in in Ez. rewrite <- Hl' in Ez. apply filter_In in Ez. destruct Ez as [_ ->]. reflexivity.
        - destruct (in_block (s_zv s) v c) eqn:Eb; [|reflexivity].
          destruct (dget c obs) eqn:Eo; [|reflexivity]. exfalso.
          apply zmem_false in Ez. apply Ez. rewrite <- Hl'. apply filter_In. split; [|exact Eb].
          eapply dget_Some_in; exact Eo. }
      assert (Hkeys : forall c, In c (dkeys (v_dims w)) -> In c (dkeys obs) -> In c (dkeys (sub_obs obs l))).
      { intros c Hc Ho. apply D in Hc. apply in_dkeys_Some in Ho. destruct Ho as [x Ho].
        eapply dget_Some_in. rewrite Hsub. apply in_block_true in Hc. rewrite Hc. exact Ho. }
      assert (Hkeys2 : forall c, In c (dkeys (sub_obs obs l)) -> In c (dkeys obs)).
      { intros c Hc. apply in_dkeys_Some in Hc. destruct Hc as [x Hx]. rewrite Hsub in Hx.
        destruct (in_block (s_zv s) v c); [eapply dget_Some_in; exact Hx|discriminate]. }
      destruct (force_ok_gen X1 (tab X) w r (sub_obs obs l) w' V1) as [V' [C' [K' [S1 S2]]]].
      + apply NoDup_dict_of.
      + intros c r' Hne. unfold X1. destruct (r' <? 0)%Z eqn:E0; [reflexivity|]. apply Z.ltb_ge in E0.
        rewrite T by exact E0. apply Z.eqb_neq in Hne. rewrite Hne. destruct (dget c obs); reflexivity.
      + intros c a i0 Ha Hc Hi. unfold X1. replace (r <? 0)%Z with false by (symmetry; apply Z.ltb_ge; lia).
        rewrite T by lia. replace (dget i0 obs) with (@None cell); [reflexivity|]. symmetry.
        destruct (dget i0 obs) eqn:E0; [|reflexivity]. exfalso. apply Hc.
        apply Hkeys; [eapply dget_Some_in; exact Ha|]. apply dget_Some_in in E0.
        destruct Hi as [->|Hi]; [exact E0|]. eapply Hf; eassumption.
      + intros c x Hx. rewrite Hsub in Hx. destruct (in_block (s_zv s) v c); [|discriminate].
        rewrite T by lia. rewrite Hx, Z.eqb_refl. reflexivity.
      + exact Ef.
      + assert (O' : v_out w' = v_out w).
        { unfold view_force_cell in Ef. destruct (dget r (v_rows w)); [|discriminate].
          destruct (force_cells _ _ _ _ _). injection Ef as <- _. reflexivity. }
        split; [|split; [exact C'|]].
        * split; [exact V'|]. split; [congruence|]. rewrite K'. split; [exact D|].
          unfold v_rows in *. rewrite C'. exact Rr.
        * intros c a' Ha'. destruct (S2 c a' Ha') as [a [A1 [A2 A3]]]. exists a.
          split; [exact A1|]. split; [exact A2|]. split; [exact A3|]. intros Hn.
          rewrite S1 in Ha' by (intros Hi; apply Hn, Hkeys2, Hi). congruence.
    - rewrite (Hout Hq). split; [|split; [reflexivity|]].
      + split; [|auto]. eapply vinv_table_ins; [exact V|].
        intros c a r' i0 Ha Hr' Hi. apply Rr in Hr'. rewrite T by lia.
        destruct (dget i0 obs) eqn:E0; [|reflexivity]. exfalso. apply dget_Some_in in E0.
        assert (Hc : In c (dkeys obs)).
        { destruct Hi as [->|Hi]; [exact E0|]. eapply Hf; eassumption. }
        apply Hq. assert (Hb : dget c (s_zv s) = Some v) by (apply D; eapply dget_Some_in; exact Ha).
        apply in_block_true in Hb.
        assert (Hfil : In c (filter (in_block (s_zv s) v) (dkeys obs))) by (apply filter_In; auto).
        specialize (Qs v). destruct (filter (in_block (s_zv s) v) (dkeys obs)); [destruct Hfil|].
        eapply dget_Some_in; exact Qs.
      + intros c a' Ha'. exists a'. split; [exact Ha'|]. split; [apply akin_refl|]. auto. }
  split; [lia|]. split.
  { split; simpl; try apply H.
    - intros c. rewrite KX. apply (si_X _ _ H).
    - rewrite KX. apply (si_XN _ _ H).
    - intros c l. rewrite SX. destruct (dget c obs); [|apply (si_len _ _ H)].
      destruct (dget c (s_X s)) as [l0|] eqn:E0; [|discriminate]. intros E. injection E as <-.
      rewrite py_set_length. apply (si_len _ _ H c l0 E0).
    - rewrite K. apply (si_nv _ _ H).
    - intros v. rewrite K. apply (si_views _ _ H).
    - intros v w' Hw'. destruct (Sv v w' Hw') as [w [Hw [H1 H2]]]. apply (Hf v w w' Hw H1 H2). }
  do 4 (split; [reflexivity|]). split; [exact K|]. split.
  { intros c Hc. split; [apply Hobs; exact Hc|]. apply (proj1 (all_nan_spec _ _ _) En). exact Hc. }
  split; [exact T|].
  intros v w w' Hw Hw'. destruct (Sv v w' Hw') as [w0 [Hw0 [H1 H2]]]. rewrite Hw in Hw0. injection Hw0 as <-.
  apply (Hf v w w' Hw H1 H2).
Qed.

(* ------------------------------------------------------------------ *)
(** ** New views *)

Lemma seat_given_spec l : forall c c', crp_inv c -> seat_given l c = Ok c' ->
  crp_inv c' /\ c_alpha c' = c_alpha c /\
  (forall r, In r (dkeys (c_data c')) <-> In r (map fst l) \/ In r (dkeys (c_data c))).
Proof.
  induction l as [|[i k] l IH]; intros c c' Hc; simpl.
  { intros E. injection E as <-. split; [exact Hc|]. split; [reflexivity|]. intros r. tauto. }
  destruct (crp_incorporate c i k) as [c1 [[]|e]] eqn:E1; simpl; [|discriminate]. intros E.
  destruct (crp_inc_spec _ _ _ _ Hc E1) as [A [B [C [D F]]]].
  destruct (IH c1 c' A E) as [G [G' I]]. split; [exact G|]. split; [congruence|].
  intros r. rewrite I, C, in_dkeys_dset. intuition congruence.
Qed.

Lemma seat_rows_spec draw l : forall c c', crp_inv c -> seat_rows draw l c = Ok c' ->
  crp_inv c' /\ c_alpha c' = c_alpha c /\
  (forall r, In r (dkeys (c_data c')) <-> In r l \/ In r (dkeys (c_data c))).
Proof.
  induction l as [|i l IH]; intros c c' Hc; simpl.
  { intros E. injection E as <-. split; [exact Hc|]. split; [reflexivity|]. intros r. tauto. }
  destruct (crp_simulate (draw (length l)) c i) as [k|]; simpl; [|discriminate].
  destruct (crp_incorporate c i k) as [c1 [[]|e]] eqn:E1; simpl; [|discriminate]. intros E.
  destruct (crp_inc_spec _ _ _ _ Hc E1) as [A [B [C [D F]]]].
  destruct (IH c1 c' A E) as [G [G' I]]. split; [exact G|]. split; [congruence|].
  intros r. rewrite I, C, in_dkeys_dset. intuition congruence.
Qed.

Lemma in_range r n : In r (range n) <-> (0 <= r < n)%Z.
Proof.
  unfold range. rewrite in_map_iff. split.
  - intros [i [<- Hi]]. apply in_seq in Hi. lia.
  - intros H. exists (Z.to_nat r). split; [lia|]. apply in_seq. lia.
Qed.

Lemma map_fst_combine {A B} (l : list A) (m : list B) : length l = length m -> map fst (combine l m) = l.
Proof.
  revert m. induction l as [|x l IH]; intros [|y m] H; simpl; try discriminate; [reflexivity|].
  injection H as H. rewrite IH by exact H. reflexivity.
Qed.

Lemma length_range n : length (range n) = Z.to_nat n.
Proof. unfold range. rewrite map_length, seq_length. reflexivity. Qed.

Lemma view_make_ok X T n o seed zr w : (forall c l, dget c X = Some l -> length l = n) ->
  match zr with Some z => length z = n | None => True end ->
  view_make X o seed zr = Ok w ->
  vinv T w /\ v_out w = o /\ v_dims w = [] /\ forall r, In r (dkeys (v_rows w)) <-> (0 <= r < Z.of_nat n)%Z.
Proof.
  intros Hl Hz. unfold view_make. destruct X as [|[c l] X]; [discriminate|].
  assert (L : length l = n) by (apply (Hl c); simpl; rewrite Z.eqb_refl; reflexivity).
  rewrite L. intros E.
  match type of E with rbind ?t _ = _ => destruct t as [k|] eqn:Ek end; [|discriminate].
  simpl in E. injection E as <-.
  assert (S : crp_inv k /\ forall r, In r (dkeys (c_data k)) <-> (0 <= r < Z.of_nat n)%Z).
  { destruct zr as [z|].
    - destruct (seat_given_spec _ _ _ (crp_inv_new _) Ek) as [A [_ B]]. split; [exact A|].
      intros r. rewrite B. simpl. rewrite map_fst_combine by (rewrite length_range; lia).
      rewrite in_range, Hz. tauto.
    - destruct (seat_rows_spec _ _ _ _ (crp_inv_new _) Ek) as [A [_ B]]. split; [exact A|].
      intros r. rewrite B. simpl. rewrite in_range. tauto. }
  destruct S as [S1 S2]. split; [|split; [reflexivity|split; [reflexivity|exact S2]]].
  split; [exact S1|]. split; [constructor|]. intros c' a'. discriminate.
Qed.

(** An auxiliary view over [n] rows. *)
Definition aux_ok (T : table) (n : nat) (v : Z) (w : view) : Prop :=
  vinv T w /\ v_out w = (crp_id_view + v)%Z /\ v_dims w = [] /\
  forall r, In r (dkeys (v_rows w)) <-> (0 <= r < Z.of_nat n)%Z.

Lemma aux_views_ok X T n seeds ts : (forall c l, dget c X = Some l -> length l = n) ->
  forall ws, aux_views X seeds ts = Ok ws ->
  dkeys ws = ts /\ Forall (fun vw => aux_ok T n (fst vw) (snd vw)) ws.
Proof.
  intros Hl. induction ts as [|t ts IH]; intros ws; cbn [aux_views].
  { intros E. injection E as <-. auto. }
  destruct (view_make X (crp_id_view + t) (seeds (length ts)) None) as [w|] eqn:Ew; cbn [rbind]; [|discriminate].
  destruct (aux_views X seeds ts) as [ws0|] eqn:E0; cbn [rbind]; [|discriminate].
  intros E. injection E as <-. destruct (IH ws0 eq_refl) as [A B]. split; [cbn; f_equal; exact A|].
  constructor; [|exact B]. exact (view_make_ok X T n _ _ None w Hl I Ew).
Qed.

(* ------------------------------------------------------------------ *)
(** ** Proposals for a column *)

Lemma column_ok_crp X w w' c a : v_crp w' = v_crp w -> column_ok X w c a -> column_ok X w' c a.
Proof. intros E [A [B C]]. split; [exact A|]. unfold v_rows in *. rewrite E. auto. Qed.

(** The view without the column [c]. *)
Definition sans (c : Z) (w w' : view) : Prop :=
  v_crp w' = v_crp w /\ v_out w' = v_out w /\ v_grid w' = v_grid w /\
  NoDup (dkeys (v_dims w')) /\
  forall c', dget c' (v_dims w') = if (c' =? c)%Z then None else dget c' (v_dims w).

Lemma sans_vinv X c w w' : vinv X w -> sans c w w' -> vinv X w'.
Proof.
  intros [A [B C]] [E1 [_ [_ [E4 E5]]]]. split; [rewrite E1; exact A|]. split; [exact E4|].
  intros c' a Ha. rewrite E5 in Ha. destruct (c' =? c)%Z; [discriminate|].
  eapply column_ok_crp; [exact E1|]. apply C. exact Ha.
Qed.

Lemma m_coll_akin a b : akin a b -> m_coll (a_M b) = m_coll (a_M a).
Proof. intros [d [-> _]]. reflexivity. Qed.

Lemma incorporate_dim_out X w c a b w' a' r : view_incorporate_dim X w c a b = (w', a', r) ->
  v_out w' = v_out w /\ v_grid w' = v_grid w.
Proof.
  unfold view_incorporate_dim. destruct (if b then bulk_incorporate X w c a else (a, Ok tt)) as [a1 [u|e]];
    intros E; injection E as <- _ _; auto.
Qed.

(** The column [b] has the class and the hyperparameters of [a]. *)
Definition hkin (a b : adim) : Prop := exists d', b = ADim (a_M a) d' /\ d_hyp d' = d_hyp (a_d a).
Lemma hkin_refl a : hkin a a.
Proof. exists (a_d a). destruct a; auto. Qed.
Lemma hkin_trans a b c : hkin a b -> hkin b c -> hkin a c.
Proof. intros [d [-> H]] [d' [-> H']]. exists d'. simpl in *. split; [reflexivity|congruence]. Qed.
Lemma hkin_sym a b : hkin a b -> hkin b a.
Proof. intros [d [-> H]]. destruct a as [M d0]. simpl in *. exists d0. simpl. auto. Qed.

Lemma bulk_rows_hyp X c rows : forall a a', ainv a -> agree (a_d a) -> bulk_rows X c rows a = (a', Ok tt) ->
  hkin a a' /\ agree (a_d a') /\ ainv a'.
Proof.
  induction rows as [|[r k] rows IH]; intros a a' Ha Hg; simpl.
  { intros E. injection E as <-. split; [apply hkin_refl|]. auto. }
  destruct (X c r) as [x|]; [|discriminate]. destruct (input_values X r a) as [ins|]; [|discriminate].
  destruct (a_incorporate a r k x ins) as [a1 [[]|]] eqn:Ea; [|discriminate]. intros E.
  destruct (a_inc_ok _ _ _ _ _ _ Ha Ea) as [_ [Ia1 _]].
  assert (H1 : hkin a a1 /\ agree (a_d a1)).
  { unfold a_incorporate in Ea. destruct (dim_incorporate (a_M a) (a_d a) r (Some k) x ins) as [d1 r1] eqn:Ed.
    injection Ea as <- ->.
    destruct (agree_inc _ _ _ _ _ _ _ _ (proj1 Ha) (proj2 Ha) Hg Ed) as [G1 G2].
    split; [exists d1; auto|exact G1]. }
  destruct H1 as [H1 H2]. destruct (IH _ _ Ia1 H2 E) as [K1 [K2 K3]].
  split; [eapply hkin_trans; eassumption|]. auto.
Qed.

Lemma bulk_hyp X v c a a' : ainv a -> bulk_incorporate X v c a = (a', Ok tt) ->
  hkin a a' /\ agree (a_d a').
Proof.
  intros Ha. unfold bulk_incorporate.
  destruct (bulk_rows X c (v_rows v) (a_reset a)) as [a1 [[]|e]] eqn:Eb; [|discriminate].
  destruct (zdict_eq _ _); [|discriminate]. intros E. injection E as <-.
  destruct (a_reset_ok a Ha) as [_ [Ir _]].
  assert (Hr : hkin a (a_reset a) /\ agree (a_d (a_reset a))).
  { split; [eexists; split; reflexivity|]. split; simpl; [|discriminate]. apply (ml_new _ _ (proj1 Ha)). }
  destruct (bulk_rows_hyp _ _ _ _ _ Ir (proj2 Hr) Eb) as [K1 [K2 K3]].
  destruct (agree_params _ _ (proj1 K3) K2) as [G1 G2].
  split; [|exact G1]. eapply hkin_trans; [exact (proj1 Hr)|]. eapply hkin_trans; [exact K1|].
  eexists. split; [reflexivity|exact G2].
Qed.

Lemma data_logp_ok X w c a w' a' lp : vinv X w -> ainv a ->
  (m_coll (a_M a) = false -> In c (dkeys (v_dims w)) -> column_ok X w c a) ->
  data_logp X w c a = (w', a', Ok lp) ->
  sans c w w' /\ akin a a' /\ column_ok X w c a' /\ a_score a' = Ok lp /\
  (m_coll (a_M a) = false -> In c (dkeys (v_dims w)) -> a' = a) /\
  hkin a a' /\ (m_coll (a_M a) = true -> agree (a_d a')).
Proof.
  intros Hv Ha Hcol. unfold data_logp.
  set (re := m_coll (a_M a) || negb (dmem c (v_dims w))).
  destruct (view_incorporate_dim X w c a re) as [[w1 a1] [u|e]] eqn:E1; [|discriminate].
  destruct (a_score a1) as [lp1|e] eqn:Es; [|discriminate].
  destruct (view_unincorporate_dim w1 c) as [w2 [u2|e2]] eqn:E2; simpl; [|discriminate].
  intros E. injection E as <- <- <-.
  assert (Hre : re = false -> m_coll (a_M a) = false /\ In c (dkeys (v_dims w))).
  { unfold re. destruct (m_coll (a_M a)); [discriminate|]. simpl. intros H. apply negb_false_iff in H.
    apply dmem_in in H. auto. }
  destruct u, u2. destruct (incorporate_dim_ok X w c a re w1 a1 Hv) as [V1 [K1 [C1 [R1 [P1 D1]]]]];
    [|exact E1|].
  { destruct re eqn:Ere; [exact Ha|]. destruct (Hre eq_refl). auto. }
  destruct (unincorporate_dim_ok X w1 c w2 V1 E2) as [V2 [R2 [P2 [D2 _]]]].
  destruct (incorporate_dim_out _ _ _ _ _ _ _ _ E1) as [O1 G1].
  assert (O2 : v_out w2 = v_out w1 /\ v_grid w2 = v_grid w1).
  { unfold view_unincorporate_dim in E2. destruct (dmem c (v_dims w1)); [|discriminate].
    injection E2 as <-. auto. }
  destruct O2 as [O2 G2].
  split; [|split; [exact K1|split; [exact C1|split; [exact Es|]]]].
  - split; [congruence|]. split; [congruence|]. split; [congruence|]. split; [apply V2|].
    intros c'. rewrite D2, D1. rewrite dget_ddel by (apply NoDup_dset, Hv).
    destruct (Z.eqb_spec c' c) as [->|Hne]; [reflexivity|]. apply dget_dset_other. exact Hne.
  - split.
    + intros Hm Hin. assert (Ere : re = false).
      { unfold re. rewrite Hm. simpl. apply negb_false_iff, dmem_in. exact Hin. }
      rewrite Ere in E1. unfold view_incorporate_dim in E1. injection E1 as _ <-. reflexivity.
    + unfold view_incorporate_dim in E1. destruct re eqn:Ere.
      * destruct (bulk_incorporate X w c a) as [a2 [[]|]] eqn:Eb; [|discriminate]. injection E1 as _ <-.
        destruct (bulk_hyp _ _ _ _ _ Ha Eb) as [B1 B2]. auto.
      * injection E1 as _ <-. split; [apply hkin_refl|]. intros Hm. destruct (Hre eq_refl). congruence.
Qed.

(** What one proposal records. *)
Definition prop_ok (X : table) (c : Z) (a : adim) (vw : Z * view) (pl : option adim * ext) : Prop :=
  exists b, akin a b /\ column_ok X (snd vw) c b /\ a_score b = Ok (snd pl) /\
    (fst pl = None \/ fst pl = Some b) /\
    (fst pl = None <-> m_coll (a_M a) = true \/ In c (dkeys (v_dims (snd vw)))) /\
    (m_coll (a_M a) = true -> fst pl = None) /\
    hkin a b /\ (m_coll (a_M a) = true -> agree (a_d b)).

Lemma data_logps_ok X c a : ainv a -> forall ws shared ws' sh' l,
  Forall (fun vw => vinv X (snd vw)) ws -> ainv shared -> akin a shared -> hkin a shared ->
  (m_coll (a_M a) = false ->
     Forall (fun vw => In c (dkeys (v_dims (snd vw))) -> column_ok X (snd vw) c shared) ws) ->
  data_logps X c a shared ws = (ws', sh', Ok l) ->
  Forall2 (fun vw vw' => fst vw' = fst vw /\ sans c (snd vw) (snd vw')) ws ws' /\
  Forall2 (prop_ok X c a) ws l /\ ainv sh' /\ akin a sh' /\
  (m_coll (a_M a) = false -> sh' = shared) /\ hkin a sh'.
Proof.
  intros Ha. induction ws as [|[v w] ws IH]; intros shared ws' sh' l Hv Hs Hk Hh Hc; simpl.
  { intros E. injection E as <- <- <-. split; [constructor|]; split; [constructor|]; auto. }
  inversion Hv as [|? ? Hv1 Hv2]; subst. simpl in Hv1.
  set (alias := m_coll (a_M a) || dmem c (v_dims w)).
  destruct (data_logp X w c (if alias then shared else a)) as [[w1 a1] [lp|e]] eqn:E1; [|discriminate].
  destruct (data_logps X c a (if alias then a1 else shared) ws) as [[ws2 sh2] r2] eqn:E2.
  destruct r2 as [l2|e2]; simpl; [|discriminate].
  intros E. injection E as <- <- <-.
  assert (Hal : akin a (if alias then shared else a)) by (destruct alias; [exact Hk|apply akin_refl]).
  destruct (data_logp_ok X w c (if alias then shared else a) w1 a1 lp Hv1) as [S1 [K1 [C1 [L1 [U1 [HK1 HA1]]]]]];
    [destruct alias; assumption| |exact E1|].
  { rewrite (m_coll_akin _ _ Hal). intros Hm Hin. unfold alias. apply dmem_in in Hin. rewrite Hin, orb_true_r.
    specialize (Hc Hm). inversion Hc; subst. simpl in *. apply dmem_in in Hin. auto. }
  assert (Ka1 : akin a a1) by (eapply akin_trans; [exact Hal|exact K1]).
  assert (Hha : hkin a (if alias then shared else a)) by (destruct alias; [exact Hh|apply hkin_refl]).
  assert (Hh1 : hkin a a1) by (eapply hkin_trans; [exact Hha|exact HK1]).
  assert (Hsh : m_coll (a_M a) = false -> (if alias then a1 else shared) = shared).
  { intros Hm. unfold alias in *. rewrite Hm in *. simpl in *. destruct (dmem c (v_dims w)) eqn:Ed; [|reflexivity].
    apply U1; [rewrite (m_coll_akin _ _ Hk); exact Hm|apply dmem_in; exact Ed]. }
  destruct (IH (if alias then a1 else shared) ws2 sh2 l2 Hv2) as [F1 [F2 [I [K [U HU]]]]].
  - destruct alias; [apply C1|exact Hs].
  - destruct alias; [exact Ka1|exact Hk].
  - destruct alias; [exact Hh1|exact Hh].
  - intros Hm. rewrite (Hsh Hm). specialize (Hc Hm). inversion Hc; subst. assumption.
  - exact E2.
  - split; [constructor; [split; [reflexivity|exact S1]|exact F1]|].
    split; [|split; [exact I|split; [exact K|split; [intros Hm; rewrite (U Hm); apply Hsh; exact Hm|exact HU]]]].
    constructor; [|exact F2]. exists a1. simpl.
    split; [exact Ka1|]. split; [exact C1|]. split; [exact L1|].
    assert (Hd : alias = true <-> m_coll (a_M a) = true \/ In c (dkeys (v_dims w))).
    { unfold alias. rewrite orb_true_iff, dmem_in. reflexivity. }
    destruct alias; simpl.
    + split; [left; reflexivity|]. split; [split; [intros _; apply Hd; reflexivity|reflexivity]|].
      split; [reflexivity|]. split; [exact Hh1|]. intros Hm. apply HA1. rewrite (m_coll_akin _ _ Hk). exact Hm.
    + split; [right; reflexivity|]. split; [split; [discriminate|intros H; apply Hd in H; discriminate]|].
      split; [|split; [exact Hh1|exact HA1]].
      intros Hm. assert (false = true) by (apply Hd; left; exact Hm). discriminate.
Qed.

(* ------------------------------------------------------------------ *)
(** ** Moving a column *)

Lemma akin_sym a b : akin a b -> akin b a.
Proof. intros [d [-> H]]. destruct a as [M d0]. simpl in *. exists d0. simpl. auto. Qed.

Lemma dget_forall2 {A B} (R : A -> B -> Prop) (d : dict A) (d' : dict B) :
  Forall2 (fun x y => fst y = fst x /\ R (snd x) (snd y)) d d' ->
  dkeys d' = dkeys d /\
  forall k, match dget k d, dget k d' with
            | Some x, Some y => R x y | None, None => True | _, _ => False end.
Proof.
  induction 1 as [|[k x] [k' y] d d' [E H] HF [IH1 IH2]]; [split; auto; intros k; reflexivity|].
  simpl in *. subst k'. split; [f_equal; exact IH1|]. intros k0.
  destruct (k0 =? k)%Z; [exact H|apply IH2].
Qed.

Lemma dim_for_spec n s c a : sinv n s -> dim_for s c = Ok a ->
  exists v w, dget c (s_zv s) = Some v /\ dget v (s_views s) = Some w /\ dget c (v_dims w) = Some a /\
    column_ok (tab (s_X s)) w c a.
Proof.
  intros H. unfold dim_for. destruct (dget c (s_zv s)) as [v|] eqn:Ev; [|discriminate].
  destruct (dget v (s_views s)) as [w|] eqn:Ew; [|discriminate].
  destruct (dget c (v_dims w)) as [a'|] eqn:Ea; [|discriminate]. intros E. injection E as <-.
  exists v, w. do 3 (split; [first [reflexivity|assumption]|]).
  destruct (si_view _ _ H v w Ew) as [V _]. apply V. exact Ea.
Qed.

Lemma sinv_move n s s' c vb : sinv n s -> s_outs s' = s_outs s -> s_X s' = s_X s ->
  In c (s_outs s) -> crp_inv (s_crp s') ->
  (forall c', dget c' (s_zv s') = if (c' =? c)%Z then Some vb else dget c' (s_zv s)) ->
  NoDup (dkeys (s_views s')) ->
  (forall v, In v (dkeys (s_views s')) <-> exists c', dget c' (s_zv s') = Some v) ->
  (forall v w', dget v (s_views s') = Some w' -> exists w,
     (dget v (s_views s) = Some w \/ (aux_ok (tab (s_X s)) n v w /\ ~ In v (dkeys (s_views s)))) /\
     v_crp w' = v_crp w /\ v_out w' = v_out w /\ vinv (tab (s_X s)) w' /\
     forall c', In c' (dkeys (v_dims w')) <-> (if (c' =? c)%Z then v = vb else In c' (dkeys (v_dims w)))) ->
  sinv n s'.
Proof.
  intros H Ho HX Hc Hcrp Hz Hnv Hv Hw. split.
  - rewrite Ho. apply H.
  - rewrite Ho. apply H.
  - rewrite Ho, HX. apply H.
  - rewrite HX. apply H.
  - rewrite HX. apply H.
  - exact Hcrp.
  - intros c'. rewrite Ho. rewrite <- (si_zv _ _ H).
    assert (Hc' : In c (dkeys (s_zv s))) by (apply (si_zv _ _ H); exact Hc).
    split; intros Hi.
    + apply in_dkeys_Some in Hi. destruct Hi as [v Hi]. rewrite Hz in Hi.
      destruct (Z.eqb_spec c' c) as [->|]; [exact Hc'|eapply dget_Some_in; exact Hi].
    + apply in_dkeys_Some in Hi. destruct Hi as [v Hi].
      destruct (Z.eqb_spec c' c) as [E|E].
      * eapply dget_Some_in. rewrite Hz. subst c'. rewrite Z.eqb_refl. reflexivity.
      * apply Z.eqb_neq in E. eapply dget_Some_in. rewrite Hz, E. exact Hi.
  - exact Hnv.
  - intros v. rewrite Hv. split.
    + intros [c' Hc']. eapply crp_rows_counts; [exact Hcrp|exact Hc'].
    + intros Hi. apply crp_counts_rows in Hi; [|exact Hcrp]. exact Hi.
  - intros v w' Hw'. destruct (Hw v w' Hw') as [w [Hold [E1 [E2 [V D]]]]]. rewrite HX.
    split; [exact V|].
    assert (G : v_out w = (crp_id_view + v)%Z /\
      (forall c', c' <> c -> (In c' (dkeys (v_dims w)) <-> dget c' (s_zv s) = Some v)) /\
      (forall r, In r (dkeys (v_rows w)) <-> (0 <= r < Z.of_nat n)%Z)).
    { destruct Hold as [Hold|[[_ [A [B C]]] Hnin]].
      - destruct (si_view _ _ H v w Hold) as [_ [A [B C]]]. auto.
      - split; [exact A|]. split; [|exact C]. intros c' _. rewrite B. simpl. split; [tauto|].
        intros E. apply Hnin. apply (si_views _ _ H). eapply crp_rows_counts; [apply (si_crp _ _ H)|exact E]. }
    destruct G as [G1 [G2 G3]]. split; [congruence|]. split.
    + intros c'. rewrite D, Hz. destruct (Z.eqb_spec c' c) as [->|Hne]; [|apply G2; exact Hne].
      split; [intros ->; reflexivity|intros E; injection E; auto].
    + unfold v_rows in *. rewrite E1. exact G3.
Qed.

Lemma last_in {A} (l : list A) x d : last l d = x -> x = d \/ In x l.
Proof.
  destruct l as [|y l]; [auto|]. intros E. right. subst x.
  revert y. induction l as [|z l IH]; intros y; [left; reflexivity|].
  change (last (y :: z :: l) d) with (last (z :: l) d). right. apply IH.
Qed.

Definition sorted_views (s : state) : Prop := dkeys (s_views s) = zsort (dkeys (s_views s)).

Lemma prop_ok_akin X c a b vw pl : akin a b -> hkin a b -> prop_ok X c b vw pl -> prop_ok X c a vw pl.
Proof.
  intros K HK [x [H1 [H2 [H3 [H4 [H5 [H6 [H7 H8]]]]]]]]. rewrite (m_coll_akin _ _ K) in *.
  exists x. split; [eapply akin_trans; eassumption|]. do 5 (split; [assumption|]).
  split; [eapply hkin_trans; eassumption|exact H8].
Qed.

Lemma Forall_dict {A} (P : Z -> A -> Prop) (d : dict A) : NoDup (dkeys d) ->
  (forall k x, dget k d = Some x -> P k x) -> Forall (fun kx => P (fst kx) (snd kx)) d.
Proof.
  intros Hn H. apply Forall_forall. intros [k x] Hin. apply H. apply dget_In_NoDup; assumption.
Qed.

Lemma Forall2_imp {A B} (P Q : A -> B -> Prop) l m : (forall x y, P x y -> Q x y) ->
  Forall2 P l m -> Forall2 Q l m.
Proof. intros H. induction 1; constructor; auto. Qed.

Lemma Forall2_len {A B} (P : A -> B -> Prop) l m : Forall2 P l m -> length l = length m.
Proof. induction 1; simpl; congruence. Qed.

Definition key_sans (c : Z) (vw vw' : Z * view) : Prop := fst vw' = fst vw /\ sans c (snd vw) (snd vw').

Lemma column_plan_ok n seeds s c m a s1 p : sinv n s -> dim_for s c = Ok a ->
  column_plan seeds s c m a = (s1, Ok p) ->
  exists ws ex ax auxs logp_crp, s1 = set_views s ws /\ Forall2 (key_sans c) (s_views s) ws /\
    crp_gibbs_tables (s_crp s) c m = Ok (cp_tables p) /\
    dkeys auxs = skipn (length (s_views s)) (cp_tables p) /\
    Forall (fun vw => aux_ok (tab (s_X s)) n (fst vw) (snd vw)) auxs /\
    Forall2 (key_sans c) auxs (cp_aux p) /\
    Forall2 (prop_ok (tab (s_X s)) c a) (s_views s) ex /\
    Forall2 (prop_ok (tab (s_X s)) c a) auxs ax /\
    cp_props p = map fst (ex ++ ax) /\
    ainv (cp_shared p) /\ akin a (cp_shared p) /\
    (m_coll (a_M a) = false -> cp_shared p = a) /\
    crp_gibbs_logps (s_crp s) c m = Ok logp_crp /\ length (ex ++ ax) = length logp_crp /\
    mask s (dkeys (s_views s)) (avoid (s_Ci s) c)
      (map (fun pl => eadd (snd (fst pl)) (Fin (snd pl))) (combine (ex ++ ax) logp_crp))
      = Ok (cp_weights p) /\
    length (cp_tables p) = length (cp_weights p).
Proof.
  intros H Hd. unfold column_plan.
  destruct (dim_for_spec _ _ _ _ H Hd) as [v0 [w0 [Ev0 [Ew0 [Ea0 Hcol]]]]].
  destruct (data_logps (tab (s_X s)) c a a (s_views s)) as [[ws sh] [ex|e]] eqn:E1; [|discriminate].
  pose proof (proj1 Hcol) as Hai.
  destruct (data_logps_ok (tab (s_X s)) c a Hai (s_views s) a ws sh ex) as [F1 [F2 [I1 [K1 [U1 HK1]]]]].
  { apply (Forall_dict (fun _ w => vinv (tab (s_X s)) w)); [apply (si_nv _ _ H)|].
    intros v w Hw. apply (si_view _ _ H v w Hw). }
  { exact Hai. }
  { apply akin_refl. }
  { apply hkin_refl. }
  { intros _. apply (Forall_dict (fun _ w => In c (dkeys (v_dims w)) -> column_ok (tab (s_X s)) w c a));
      [apply (si_nv _ _ H)|].
    intros v w Hw Hin. destruct (si_view _ _ H v w Hw) as [_ [_ [D _]]]. apply D in Hin.
    assert (v = v0) by congruence. subst v. rewrite Hw in Ew0. injection Ew0 as ->. exact Hcol. }
  { exact E1. }
  intros E. injection E as <- E.
  assert (Hlen : length ws = length (s_views s)) by (symmetry; eapply Forall2_len; exact F1).
  assert (Hkeys : dkeys ws = dkeys (s_views s)).
  { apply (dget_forall2 (sans c) (s_views s) ws). exact F1. }
  destruct (crp_gibbs_tables (s_crp s) c m) as [tables|] eqn:Et; cbn [rbind] in E; [|discriminate].
  destruct (aux_views (s_X s) seeds (skipn (length ws) tables)) as [auxs|] eqn:Eax; cbn [rbind] in E; [|discriminate].
  destruct (aux_views_ok _ (tab (s_X s)) n _ _ (si_len _ _ H) _ Eax) as [Ka Fa].
  set (src := match last (map fst ex) None with Some b => b | None => sh end) in *.
  assert (Hsrc : ainv src /\ akin a src /\ hkin a src).
  { unfold src. destruct (last (map fst ex) None) as [b|] eqn:El; [|auto].
    destruct (last_in _ _ _ El) as [Hl|Hl]; [discriminate|].
    apply in_map_iff in Hl. destruct Hl as [[pp lp] [Ep Hin]]. simpl in Ep. subst pp.
    clear - F2 Hin. induction F2 as [|vw pl l1 l2 HP HF IH]; [destruct Hin|].
    destruct Hin as [->|Hin]; [|apply IH; exact Hin].
    destruct HP as [b' [A [B [_ [[C|C] [_ [_ [D _]]]]]]]]; simpl in C; [discriminate|]. injection C as ->.
    split; [apply B|]. split; [exact A|exact D]. }
  destruct Hsrc as [Isrc [Ksrc Hsh]].
  destruct (data_logps (tab (s_X s)) c src sh auxs) as [[auxs1 sh2] r2] eqn:E2.
  destruct r2 as [ax|e]; cbn [rbind] in E; [|discriminate].
  assert (Hnd : forall vw, In vw auxs -> v_dims (snd vw) = []).
  { intros vw Hin. rewrite Forall_forall in Fa. apply (Fa vw Hin). }
  destruct (data_logps_ok (tab (s_X s)) c src Isrc auxs sh auxs1 sh2 ax) as [G1 [G2 [I2 [K2 [U2 HK2]]]]].
  { eapply Forall_impl; [|exact Fa]. intros vw Hvw. apply Hvw. }
  { exact I1. }
  { eapply akin_trans; [apply akin_sym; exact Ksrc|exact K1]. }
  { eapply hkin_trans; [apply hkin_sym; exact Hsh|exact HK1]. }
  { intros _. apply Forall_forall. intros vw Hin Hc. rewrite (Hnd vw Hin) in Hc. destruct Hc. }
  { exact E2. }
  destruct (crp_gibbs_logps (s_crp s) c m) as [logp_crp|] eqn:El; cbn [rbind] in E; [|discriminate].
  destruct (length (ex ++ ax) =? length logp_crp)%nat eqn:En; [|discriminate]. apply Nat.eqb_eq in En.
  destruct (mask s (dkeys ws) (avoid (s_Ci s) c) _) as [w|] eqn:Em; cbn [rbind] in E; [|discriminate].
  destruct (length tables =? length w)%nat eqn:En2; [|discriminate]. apply Nat.eqb_eq in En2.
  injection E as <-. cbn [cp_tables cp_weights cp_props cp_shared cp_aux].
  exists ws, ex, ax, auxs, logp_crp. split; [reflexivity|]. split; [exact F1|]. split; [reflexivity|].
  split; [rewrite Ka, Hlen; reflexivity|]. split; [exact Fa|]. split; [exact G1|]. split; [exact F2|].
  split; [eapply Forall2_imp; [|exact G2]; intros x y; apply prop_ok_akin; assumption|].
  split; [reflexivity|]. split; [exact I2|].
  split; [eapply akin_trans; eassumption|].
  split; [intros Hm; rewrite U2 by (rewrite (m_coll_akin _ _ Ksrc); exact Hm); apply U1; exact Hm|].
  split; [reflexivity|]. split; [exact En|]. split; [rewrite <- Hkeys; exact Em|exact En2].
Qed.

Lemma sorted_unique (l m : list Z) : StronglySorted Z.le l -> StronglySorted Z.le m ->
  Permutation l m -> l = m.
Proof.
  revert m. induction l as [|x l IH]; intros m Hl Hm P.
  { apply Permutation_nil in P. congruence. }
  destruct m as [|y m]; [apply Permutation_sym, Permutation_nil in P; discriminate|].
  inversion Hl as [|? ? Hl1 Hl2]; inversion Hm as [|? ? Hm1 Hm2]; subst.
  assert (x = y).
  { rewrite Forall_forall in Hl2, Hm2.
    assert (Hx : In x (y :: m)) by (eapply Permutation_in; [exact P|left; reflexivity]).
    assert (Hy : In y (x :: l)) by (eapply Permutation_in; [apply Permutation_sym; exact P|left; reflexivity]).
    destruct Hx as [->|Hx]; [reflexivity|]. destruct Hy as [->|Hy]; [reflexivity|].
    specialize (Hl2 _ Hy). specialize (Hm2 _ Hx). lia. }
  subst y. f_equal. apply IH; try assumption. eapply Permutation_cons_inv; exact P.
Qed.

Lemma zsort_ext l m : NoDup l -> NoDup m -> (forall x, In x l <-> In x m) -> zsort l = zsort m.
Proof.
  intros Hl Hm H. apply sorted_unique; try apply zsort_sorted.
  transitivity l; [apply zsort_perm|]. transitivity m; [|apply Permutation_sym, zsort_perm].
  apply NoDup_Permutation; assumption.
Qed.

Lemma tables_shape k c m tables : crp_gibbs_tables k c m = Ok tables ->
  exists aux, tables = zsort (dkeys (c_counts k)) ++ aux /\ NoDup aux /\
    (forall t t', In t aux -> In t' (dkeys (c_counts k)) -> (t' < t)%Z).
Proof.
  unfold crp_gibbs_tables. destruct (0 <? m)%nat; [|discriminate].
  destruct (crp_singleton k c) as [sing|]; cbn [rbind]; [|discriminate].
  destruct (if sing then (m - 1)%nat else m) as [|q].
  { intros E. injection E as <-. exists []. rewrite app_nil_r. split; [reflexivity|]. split; [constructor|]. intros t t' []. }
  destruct (zmax_list (dkeys (c_counts k))) as [mx|] eqn:Em; [|discriminate].
  intros E. assert (E' : zsort (dkeys (c_counts k)) ++ map (fun i => (mx + 1 + Z.of_nat i)%Z) (seq 0 (S q)) = tables)
    by congruence. subst tables. clear E. exists (map (fun i => (mx + 1 + Z.of_nat i)%Z) (seq 0 (S q))).
  split; [reflexivity|]. split.
  - apply FinFun.Injective_map_NoDup; [intros i j Hij; lia|apply seq_NoDup].
  - intros t t' Ht Ht'. apply zmax_list_spec in Em. destruct Em as [_ Em]. specialize (Em t' Ht').
    apply in_map_iff in Ht. destruct Ht as [i [<- _]]. lia.
Qed.

Lemma in_combine_forall2 {A B} (P : Z * A -> option B * ext -> Prop) (W : dict A) L v q :
  Forall2 P W L -> In (v, q) (combine (dkeys W) (map fst L)) ->
  exists w lp, In (v, w) W /\ P (v, w) (q, lp).
Proof.
  induction 1 as [|[v1 w1] [q1 lp1] W L HP HF IH]; simpl; [tauto|].
  intros [E|Hin]; [injection E as -> ->; exists w1, lp1; auto|].
  destruct (IH Hin) as [w [lp [A1 A2]]]. exists w, lp. auto.
Qed.

Lemma in_dkeys_In {A} (d : dict A) k x : In (k, x) d -> In k (dkeys d).
Proof. intros H. unfold dkeys. change k with (fst (k, x)). apply in_map. exact H. Qed.

Lemma set_views_twice s a b : set_views (set_views s a) b = set_views s b.
Proof. reflexivity. Qed.

(** The column put back or moved, after the proposals. *)
Lemma migrate_ok n s ws c va vb b auxo s' : sinv n s -> dget c (s_zv s) = Some va ->
  Forall2 (key_sans c) (s_views s) ws -> va <> vb ->
  (* the view that receives the column *)
  (forall w, dget vb (s_views s) = Some w -> auxo = None) ->
  (forall w, auxo = Some w -> aux_ok (tab (s_X s)) n vb w) ->
  ainv b ->
  (m_coll (a_M b) = false -> forall w,
     (dget vb (s_views s) = Some w \/ auxo = Some w) -> column_ok (tab (s_X s)) w c b) ->
  migrate_dim (set_views s (match auxo with Some w => dset vb w ws | None => ws end)) c va vb b
    = (s', Ok tt) ->
  sinv n s' /\ same_data s s' /\
  (forall c', dget c' (s_zv s') = if (c' =? c)%Z then Some vb else dget c' (s_zv s)).
Proof.
  intros H Hva HF Hne Hex Haux Hb Hbc.
  destruct (dget_forall2 (sans c) _ _ HF) as [K G].
  set (ws1 := match auxo with Some w => dset vb w ws | None => ws end).
  assert (Hnv : NoDup (dkeys ws)) by (rewrite K; apply (si_nv _ _ H)).
  assert (Hc : In c (s_outs s)) by (apply (si_zv _ _ H); eapply dget_Some_in; exact Hva).
  assert (Hva1 : dget va ws1 = dget va ws).
  { unfold ws1. destruct auxo; [apply dget_dset_other; exact Hne|reflexivity]. }
  unfold migrate_dim, migrate_to. cbn [s_crp s_views s_X set_views].
  destruct (dget va (c_counts (s_crp s))) as [nva|] eqn:En; [|discriminate].
  rewrite Hva1. destruct (dget va ws) as [wa|] eqn:Ewa; [|discriminate].
  assert (Sa : exists wa0, dget va (s_views s) = Some wa0 /\ sans c wa0 wa).
  { specialize (G va). rewrite Ewa in G. destruct (dget va (s_views s)) as [x|]; [|destruct G]. eauto. }
  destruct Sa as [wa0 [Ewa0 Sa]].
  assert (Hnc : dmem c (v_dims wa) = false).
  { unfold dmem. destruct Sa as [_ [_ [_ [_ ->]]]]. rewrite Z.eqb_refl. reflexivity. }
  rewrite Hnc.
  assert (Hvb : dget vb (dset va wa ws1) = dget vb ws1) by (apply dget_dset_other; congruence).
  rewrite Hvb. destruct (dget vb ws1) as [wb|] eqn:Ewb; [|discriminate].
  (* the receiving view *)
  assert (Sb : exists wb0, (dget vb (s_views s) = Some wb0 \/ (aux_ok (tab (s_X s)) n vb wb0 /\ ~ In vb (dkeys (s_views s)))) /\
     (dget vb (s_views s) = Some wb0 \/ auxo = Some wb0) /\
     vinv (tab (s_X s)) wb /\ v_crp wb = v_crp wb0 /\ v_out wb = v_out wb0 /\
     forall c', c' <> c -> (In c' (dkeys (v_dims wb)) <-> In c' (dkeys (v_dims wb0)))).
  { unfold ws1 in Ewb. destruct auxo as [w|].
    - rewrite dget_dset_same in Ewb. injection Ewb as <-. exists w.
      pose proof (Haux w eq_refl) as A. split; [right; split; [exact A|]|].
      + intros Hi. apply in_dkeys_Some in Hi. destruct Hi as [x Hx]. specialize (Hex x Hx). discriminate.
      + split; [right; reflexivity|]. split; [apply A|]. split; [reflexivity|]. split; [reflexivity|tauto].
    - specialize (G vb). rewrite Ewb in G. destruct (dget vb (s_views s)) as [wb0|] eqn:E0; [|destruct G].
      exists wb0. split; [left; reflexivity|]. split; [left; reflexivity|].
      split; [eapply sans_vinv; [apply (si_view _ _ H vb wb0 E0)|exact G]|].
      destruct G as [G1 [G2 [_ [_ G5]]]]. split; [exact G1|]. split; [exact G2|].
      intros c' Hc'. apply Z.eqb_neq in Hc'. split; intros Hi; apply in_dkeys_Some in Hi; destruct Hi as [x Hx];
        eapply dget_Some_in; [rewrite G5, Hc' in Hx|rewrite G5, Hc']; exact Hx. }
  destruct Sb as [wb0 [B1 [B2 [B3 [B4 [B5 B6]]]]]].
  destruct (view_incorporate_dim (tab (s_X s)) wb c b (m_coll (a_M b))) as [[wb1 b1] r2] eqn:Ei.
  destruct r2 as [[]|e]; cbn [rbind]; [|discriminate].
  destruct (a_score b1) as [lp|]; [|discriminate].
  destruct (incorporate_dim_ok (tab (s_X s)) wb c b (m_coll (a_M b)) wb1 b1 B3) as [V1 [K1 [C1 [R1 [P1 D1]]]]];
    [|exact Ei|].
  { destruct (m_coll (a_M b)) eqn:Em; [exact Hb|].
    eapply column_ok_crp; [exact B4|]. apply Hbc; [reflexivity|exact B2]. }
  destruct (incorporate_dim_out _ _ _ _ _ _ _ _ Ei) as [O1 _].
  destruct (crp_uninc_spec _ _ _ (si_crp _ _ H) Hva) as [k1 [Eu [I1 [D2 [A2 T2]]]]]. rewrite Eu.
  destruct (crp_incorporate k1 c vb) as [k2 [[]|e]] eqn:Ec; [|discriminate].
  destruct (crp_inc_spec _ _ _ _ I1 Ec) as [I2 [_ [D3 [T3 A3]]]].
  assert (Hz : forall c', dget c' (c_data k2) = if (c' =? c)%Z then Some vb else dget c' (s_zv s)).
  { intros c'. rewrite D3, dget_dset, D2. destruct (Z.eqb_spec c' c) as [->|Hn]; [reflexivity|].
    apply dget_ddel_other. exact Hn. }
  set (ws2 := dset vb wb1 (dset va wa ws1)).
  assert (Hk1 : forall v, In v (dkeys ws1) <-> In v (dkeys (s_views s)) \/ (v = vb)).
  { intros v. unfold ws1. destruct auxo as [w|].
    - rewrite in_dkeys_dset, K. tauto.
    - rewrite K. split; [tauto|]. intros [Hi | ->]; [exact Hi|].
      rewrite <- K. eapply dget_Some_in. unfold ws1 in Ewb. exact Ewb. }
  assert (Hk2 : forall v, In v (dkeys ws2) <-> In v (dkeys (s_views s)) \/ v = vb).
  { intros v. unfold ws2. rewrite !in_dkeys_dset, Hk1. split; [|tauto].
    intros [-> | [-> | Hi]]; [auto| |exact Hi]. left. eapply dget_Some_in; exact Ewa0. }
  assert (N2 : NoDup (dkeys ws2)).
  { unfold ws2. do 2 apply NoDup_dset. unfold ws1. destruct auxo; [apply NoDup_dset|]; exact Hnv. }
  assert (Hw2 : forall v w', dget v ws2 = Some w' -> exists w,
     (dget v (s_views s) = Some w \/ (aux_ok (tab (s_X s)) n v w /\ ~ In v (dkeys (s_views s)))) /\
     v_crp w' = v_crp w /\ v_out w' = v_out w /\ vinv (tab (s_X s)) w' /\
     forall c', In c' (dkeys (v_dims w')) <-> (if (c' =? c)%Z then v = vb else In c' (dkeys (v_dims w)))).
  { intros v w'. unfold ws2. rewrite dget_dset. destruct (Z.eqb_spec v vb) as [->|Hnb].
    - intros E. injection E as <-. exists wb0. split; [exact B1|]. split; [congruence|]. split; [congruence|].
      split; [exact V1|]. intros c'. rewrite D1, in_dkeys_dset.
      destruct (Z.eqb_spec c' c) as [->|Hnc']; [tauto|]. rewrite <- B6 by exact Hnc'. tauto.
    - assert (E0 : dget v (dset va wa ws1) = dget v ws).
      { rewrite dget_dset. destruct (Z.eqb_spec v va) as [->|]; [congruence|].
        unfold ws1. destruct auxo; [apply dget_dset_other; exact Hnb|reflexivity]. }
      rewrite E0. intros Ew. specialize (G v). rewrite Ew in G.
      destruct (dget v (s_views s)) as [w|] eqn:E1; [|destruct G]. exists w.
      split; [left; reflexivity|].
      split; [apply G|]. split; [apply G|].
      split; [eapply sans_vinv; [apply (si_view _ _ H v w E1)|exact G]|].
      destruct G as [_ [_ [_ [_ G5]]]]. intros c'.
      destruct (Z.eqb_spec c' c) as [->|Hnc'].
      + split; [|intros ->; contradiction]. intros Hi. apply in_dkeys_Some in Hi. destruct Hi as [x Hx].
        rewrite G5, Z.eqb_refl in Hx. discriminate.
      + apply Z.eqb_neq in Hnc'. split; intros Hi; apply in_dkeys_Some in Hi; destruct Hi as [x Hx];
          eapply dget_Some_in; [rewrite G5, Hnc' in Hx|rewrite G5, Hnc']; exact Hx. }
  (* a view is used iff a column is assigned to it *)
  assert (Hused : forall v, In v (dkeys (s_views s)) <-> exists c', dget c' (s_zv s) = Some v).
  { intros v. rewrite (si_views _ _ H). split.
    - apply crp_counts_rows. apply (si_crp _ _ H).
    - intros [c' Hc']. eapply crp_rows_counts; [apply (si_crp _ _ H)|exact Hc']. }
  assert (Hnva : (nva =? 1)%Z = true <-> forall c', dget c' (s_zv s) = Some va -> c' = c).
  { rewrite Z.eqb_eq. destruct (si_crp _ _ H) as [Nd [[_ Hct] _]]. rewrite Hct in En.
    destruct (occ va (dvals (c_data (s_crp s))) =? 0)%Z eqn:E0; [discriminate|]. injection En as En.
    rewrite <- En. clear - Nd Hva. unfold s_zv in *. 
    pose proof (dvals_ddel_perm c va _ Hva) as P. rewrite (occ_perm _ _ _ P), occ_cons.
    rewrite Z.eqb_refl. split.
    - intros H1 c' Hc'. destruct (Z.eq_dec c' c) as [|Hne]; [assumption|]. exfalso.
      assert (Hi : In va (dvals (ddel c (c_data (s_crp s))))).
      { rewrite <- (dget_ddel_other c' c) in Hc' by exact Hne. apply dget_In in Hc'. unfold dvals.
        change va with (snd (c', va)). apply in_map. exact Hc'. }
      apply occ_pos in Hi. lia.
    - intros Hall. assert (Hno : ~ In va (dvals (ddel c (c_data (s_crp s))))).
      { intros Hi. unfold dvals in Hi. apply in_map_iff in Hi. destruct Hi as [[c' v'] [E Hi]]. simpl in E. subst v'.
        apply dget_In_NoDup in Hi; [|apply NoDup_ddel; exact Nd].
        rewrite dget_ddel in Hi by exact Nd. destruct (Z.eqb_spec c' c); [discriminate|].
        specialize (Hall c' Hi). contradiction. }
      pose proof (occ_nonneg va (dvals (ddel c (c_data (s_crp s))))). rewrite <- occ_pos in Hno. lia. }
  destruct (nva =? 1)%Z eqn:E1.
  - destruct (dmem va (c_counts k2)); [discriminate|]. intros E. injection E as <-.
    assert (Hall : forall c', dget c' (s_zv s) = Some va -> c' = c) by (apply Hnva; reflexivity).
    split; [|split; [repeat split|exact Hz]].
    apply (sinv_move n s _ c vb); try assumption; try reflexivity.
    + exact (NoDup_ddel va ws2 N2).
    + intros v. change (In v (dkeys (ddel va ws2)) <-> exists c', dget c' (c_data k2) = Some v).
      rewrite in_dkeys_ddel by exact N2. rewrite Hk2, Hused. split.
      * intros [Hv [[c' Hc']| ->]].
        -- exists c'. rewrite Hz. destruct (Z.eqb_spec c' c) as [->|]; [congruence|exact Hc'].
        -- exists c. rewrite Hz, Z.eqb_refl. reflexivity.
      * intros [c' Hc']. rewrite Hz in Hc'. destruct (Z.eqb_spec c' c) as [Eq0|Hn].
        -- assert (v = vb) by congruence. subst v. split; [congruence|auto].
        -- split; [|left; eauto]. intros ->. apply Hn. apply Hall. exact Hc'.
    + intros v w'. change (dget v (ddel va ws2) = Some w' -> exists w,
        (dget v (s_views s) = Some w \/ (aux_ok (tab (s_X s)) n v w /\ ~ In v (dkeys (s_views s)))) /\
        v_crp w' = v_crp w /\ v_out w' = v_out w /\ vinv (tab (s_X s)) w' /\
        forall c', In c' (dkeys (v_dims w')) <-> (if (c' =? c)%Z then v = vb else In c' (dkeys (v_dims w)))).
      rewrite dget_ddel by exact N2. destruct (v =? va)%Z; [discriminate|]. apply Hw2.
  - intros E. injection E as <-.
    assert (Hother : exists c', dget c' (s_zv s) = Some va /\ c' <> c).
    { destruct (existsb (fun kv => (snd kv =? va)%Z && negb (fst kv =? c)%Z) (s_zv s)) eqn:Eo.
      - apply existsb_exists in Eo. destruct Eo as [[c' v'] [Hi Ho]]. simpl in Ho.
        apply andb_true_iff in Ho. destruct Ho as [Ho1 Ho2]. apply Z.eqb_eq in Ho1. subst v'.
        apply negb_true_iff, Z.eqb_neq in Ho2. exists c'. split; [|exact Ho2].
        apply dget_In_NoDup; [apply (si_crp _ _ H)|exact Hi].
      - exfalso. assert (Hf : false = true); [|discriminate]. apply Hnva. intros c' Hc'.
        destruct (Z.eq_dec c' c) as [|Hn]; [assumption|]. exfalso.
        assert (Ht : existsb (fun kv => (snd kv =? va)%Z && negb (fst kv =? c)%Z) (s_zv s) = true).
        { apply existsb_exists. exists (c', va). split; [apply dget_In; exact Hc'|]. simpl.
          rewrite Z.eqb_refl. apply Z.eqb_neq in Hn. rewrite Hn. reflexivity. }
        congruence. }
    split; [|split; [repeat split|exact Hz]].
    apply (sinv_move n s _ c vb); try assumption; try reflexivity.
    intros v. change (In v (dkeys ws2) <-> exists c', dget c' (c_data k2) = Some v).
    rewrite Hk2, Hused. split.
    + intros [[c' Hc']| ->].
      * destruct (Z.eq_dec v va) as [->|Hnv'].
        -- destruct Hother as [c2 [Hc2 Hn2]]. exists c2. rewrite Hz. apply Z.eqb_neq in Hn2. rewrite Hn2. exact Hc2.
        -- exists c'. rewrite Hz. destruct (Z.eqb_spec c' c) as [->|]; [congruence|exact Hc'].
      * exists c. rewrite Hz, Z.eqb_refl. reflexivity.
    + intros [c' Hc']. rewrite Hz in Hc'. destruct (Z.eqb_spec c' c) as [Eq0|Hn]; [right; congruence|].
      left. eauto.
Qed.

Lemma NoDup_app_r {A} (l m : list A) : NoDup (l ++ m) -> NoDup m.
Proof. induction l as [|x l IH]; [auto|]. intros H. inversion H; subst. auto. Qed.

Definition col_safe (s : state) (c : Z) : Prop :=
  forall a, dim_for s c = Ok a -> m_coll (a_M a) = true \/ sorted_views s.

Lemma firstn_skipn_tables n s c m tables : sinv n s -> crp_gibbs_tables (s_crp s) c m = Ok tables ->
  NoDup tables /\ firstn (length (s_views s)) tables = zsort (dkeys (s_views s)) /\
  forall t, In t (skipn (length (s_views s)) tables) -> forall v, In v (dkeys (s_views s)) -> (v < t)%Z.
Proof.
  intros H E. destruct (tables_shape _ _ _ _ E) as [aux [-> [Na Hlt]]].
  assert (Nc : NoDup (dkeys (c_counts (s_crp s)))) by (apply (si_crp _ _ H)).
  assert (Ez : zsort (dkeys (c_counts (s_crp s))) = zsort (dkeys (s_views s))).
  { apply zsort_ext; [exact Nc|apply (si_nv _ _ H)|]. intros x. symmetry. apply (si_views _ _ H). }
  assert (L : length (s_views s) = length (zsort (dkeys (s_views s)))).
  { rewrite zsort_length. unfold dkeys. rewrite map_length. reflexivity. }
  rewrite Ez in *. split; [|split].
  - apply NoDup_app_intro; [apply zsort_NoDup, (si_nv _ _ H)|exact Na|].
    intros x Hx Hx'. apply (proj1 (zsort_in _ _)) in Hx. apply (si_views _ _ H) in Hx. specialize (Hlt x x Hx' Hx). lia.
  - rewrite L, firstn_app, Nat.sub_diag, firstn_O, app_nil_r. apply firstn_all.
  - rewrite L, skipn_app, Nat.sub_diag, skipn_O, skipn_all. simpl. intros t Ht v Hv. apply Hlt; [exact Ht|].
    apply (si_views _ _ H). exact Hv.
Qed.

Lemma in_combine_nth {A B} (l : list A) (m : list B) x y : In (x, y) (combine l m) ->
  exists i, nth_error l i = Some x /\ nth_error m i = Some y.
Proof.
  revert m. induction l as [|a l IH]; intros [|b m]; simpl; try tauto.
  intros [E|Hin]; [injection E as -> ->; exists O; auto|].
  destruct (IH m Hin) as [i Hi]. exists (S i). exact Hi.
Qed.

Lemma transition_dim_ok n d s c m s' : sinv n s -> col_safe s c ->
  transition_dim d s c m = (s', Ok tt) ->
  sinv n s' /\ same_data s s' /\
  (forall c', c' <> c -> dget c' (s_zv s') = dget c' (s_zv s)).
Proof.
  intros H Hsafe. unfold transition_dim.
  destruct (all_dims s) as [ds|]; [|discriminate].
  destruct (existsb _ ds); [discriminate|].
  destruct (s_Cd s) eqn:ECd; [|discriminate].
  destruct (dim_for s c) as [a|] eqn:Ea; [|discriminate].
  destruct (column_plan (cd_seeds d) s c m a) as [s1 [p|e]] eqn:Ep; [|discriminate].
  destruct (column_plan_ok n _ _ _ _ _ _ _ H Ea Ep)
    as [ws [ex [ax [auxs [lcrp [-> [HF [Et [Ka [Fa [Fx [Pe [Pa [Epr [Is [Ks [Us _]]]]]]]]]]]]]]]]].
  destruct (log_pflip _ _ _) as [[vb prop]|] eqn:El; [|discriminate]. apply log_pflip_in in El.
  set (b := match prop with Some b => b | None => cp_shared p end).
  change (s_zv (set_views s ws)) with (s_zv s).
  destruct (dim_for_spec _ _ _ _ H Ea) as [va [wa0 [Eva [Ewa0 [Eca Hcol]]]]]. rewrite Eva.
  destruct (dget_forall2 (sans c) _ _ HF) as [K G].
  destruct (firstn_skipn_tables _ _ _ _ _ H Et) as [Nt [Tf Ts]].
  (* what the chosen proposal satisfies *)
  assert (Hb : ainv b /\ akin a b).
  { unfold b. destruct prop as [b0|]; [|auto].
    apply in_combine_r in El. rewrite Epr in El. apply in_map_iff in El. destruct El as [[q lp] [Eq Hin]].
    simpl in Eq. subst q. apply in_app_or in Hin.
    assert (Hgen : forall W L, Forall2 (prop_ok (tab (s_X s)) c a) W L -> In (Some b0, lp) L -> ainv b0 /\ akin a b0).
    { intros W L HW. clear - HW. induction HW as [|vw pl W L HP HW IH]; [intros []|].
      intros [->|Hin]; [|apply IH; exact Hin].
      destruct HP as [b' [A [B [_ [[C|C] _]]]]]; simpl in C; [discriminate|]. injection C as ->.
      split; [apply B|exact A]. }
    destruct Hin as [Hin|Hin]; [exact (Hgen _ _ Pe Hin)|exact (Hgen _ _ Pa Hin)]. }
  destruct Hb as [Ib Kb]. pose proof (m_coll_akin _ _ Kb) as Mb.
  assert (Hchoice : m_coll (a_M a) = false -> exists w, column_ok (tab (s_X s)) w c b /\
            (dget vb (s_views s) = Some w \/ (In (vb, w) auxs /\ ~ In vb (dkeys (s_views s))))).
  { intros Hm. destruct (Hsafe a Ea) as [Hc|Hsort]; [congruence|].
    assert (Etab : cp_tables p = dkeys (s_views s ++ auxs)).
    { unfold dkeys. rewrite map_app. change (map fst (s_views s)) with (dkeys (s_views s)).
      change (map fst auxs) with (dkeys auxs). rewrite Ka, Hsort, <- Tf. symmetry. apply firstn_skipn. }
    rewrite Etab, Epr in El.
    destruct (in_combine_forall2 _ _ _ _ _ (Forall2_app Pe Pa) El) as [w [lp [Hin HP]]].
    destruct HP as [b' [A1 [A2 [A3 [A4 [A5 _]]]]]]. simpl in A2, A3, A4, A5.
    assert (Hdg : dget vb (s_views s) = Some w \/ (In (vb, w) auxs /\ ~ In vb (dkeys (s_views s)))).
    { apply in_app_or in Hin. destruct Hin as [Hin|Hin].
      - left. apply dget_In_NoDup; [apply (si_nv _ _ H)|exact Hin].
      - right. split; [exact Hin|]. intros Hi. apply in_dkeys_In in Hin. rewrite Ka in Hin.
        specialize (Ts vb Hin vb Hi). lia. }
    exists w. split; [|exact Hdg].
    destruct A4 as [A4|A4].
    - (* the column object itself: the view it sits in *)
      unfold b. rewrite A4. rewrite (Us Hm).
      destruct A5 as [A5 _]. specialize (A5 A4). destruct A5 as [A5|A5]; [congruence|].
      destruct Hdg as [Hdg|[Hdg _]].
      + destruct (si_view _ _ H vb w Hdg) as [_ [_ [D _]]]. apply D in A5.
        assert (vb = va) by congruence. subst vb. rewrite Hdg in Ewa0. injection Ewa0 as ->. exact Hcol.
      + rewrite Forall_forall in Fa. destruct (Fa _ Hdg) as [_ [_ [E _]]]. cbn [snd] in E. rewrite E in A5. destruct A5.
    - unfold b. rewrite A4. exact A2. }
  destruct (Z.eqb_spec va vb) as [<-|Hne].
  - (* the column stays *)
    cbn [s_views set_views s_X]. destruct (dget va ws) as [wa|] eqn:Ewa; [|discriminate].
    assert (Sa : sans c wa0 wa) by (specialize (G va); rewrite Ewa, Ewa0 in G; exact G).
    destruct (view_incorporate_dim (tab (s_X s)) wa c b (m_coll (a_M b))) as [[wa1 b1] r1] eqn:Ei.
    intros E.
    assert (Er : r1 = Ok tt).
    { destruct r1 as [[]|]; [reflexivity|]. simpl in E. congruence. }
    subst r1. assert (Es' : set_views s (dset va wa1 ws) = s') by (injection E as E _; exact E). clear E. subst s'.
    pose proof (si_view _ _ H va wa0 Ewa0) as [V0 [O0 [D0 R0]]].
    destruct (incorporate_dim_ok (tab (s_X s)) wa c b (m_coll (a_M b)) wa1 b1) as [V1 [K1 [C1 [R1 [P1 D1]]]]];
      [eapply sans_vinv; eassumption| |exact Ei|].
    { destruct (m_coll (a_M b)) eqn:Em; [exact Ib|].
      destruct Hchoice as [w [Hw [Hdg|[_ Hdg]]]]; [congruence| |].
      - rewrite Ewa0 in Hdg. injection Hdg as <-. eapply column_ok_crp; [apply Sa|exact Hw].
      - exfalso. apply Hdg. eapply dget_Some_in; exact Ewa0. }
    destruct (incorporate_dim_out _ _ _ _ _ _ _ _ Ei) as [O1 _].
    split; [|split; [repeat split|reflexivity]].
    apply (sinv_move n s _ c va); try reflexivity; try assumption.
    + apply (si_zv _ _ H). eapply dget_Some_in; exact Eva.
    + apply (si_crp _ _ H).
    + intros c'. change (dget c' (s_zv s) = if (c' =? c)%Z then Some va else dget c' (s_zv s)).
      destruct (Z.eqb_spec c' c) as [E|]; [subst; exact Eva|reflexivity].
    + cbn [s_views set_views]. apply NoDup_dset. rewrite K. apply (si_nv _ _ H).
    + intros v. change (In v (dkeys (dset va wa1 ws)) <-> exists c', dget c' (s_zv s) = Some v).
      rewrite in_dkeys_dset, K. split.
      * intros Hi. assert (Hi' : In v (dkeys (s_views s))) by (destruct Hi as [->|Hi]; [eapply dget_Some_in; exact Ewa0|exact Hi]).
        apply (si_views _ _ H) in Hi'. apply crp_counts_rows in Hi'; [exact Hi'|apply (si_crp _ _ H)].
      * intros [c' Hc']. right. apply (si_views _ _ H). eapply crp_rows_counts; [apply (si_crp _ _ H)|exact Hc'].
    + intros v w'. cbn [s_views set_views]. rewrite dget_dset. destruct (Z.eqb_spec v va) as [->|Hnv].
      * intros E. assert (wa1 = w') by congruence. subst w'. exists wa0. split; [left; exact Ewa0|].
        split; [destruct Sa as [S1 _]; congruence|]. split; [destruct Sa as [_ [S2 _]]; congruence|].
        split; [exact V1|]. destruct Sa as [_ [_ [_ [_ S5]]]]. intros c'. rewrite D1, in_dkeys_dset.
        destruct (Z.eqb_spec c' c) as [E0|Hc']; [subst; tauto|]. apply Z.eqb_neq in Hc' as Hc2.
        split.
        -- intros [E0|Hi]; [contradiction|]. apply in_dkeys_Some in Hi. destruct Hi as [x Hx].
           rewrite S5, Hc2 in Hx. eapply dget_Some_in; exact Hx.
        -- intros Hi. right. apply in_dkeys_Some in Hi. destruct Hi as [x Hx].
           eapply dget_Some_in. rewrite S5, Hc2. exact Hx.
      * intros Ew. specialize (G v). rewrite Ew in G. destruct (dget v (s_views s)) as [w|] eqn:E1; [|destruct G].
        exists w. split; [left; reflexivity|]. split; [apply G|]. split; [apply G|].
        split; [eapply sans_vinv; [apply (si_view _ _ H v w E1)|exact G]|].
        destruct G as [_ [_ [_ [_ G5]]]]. intros c'. destruct (Z.eqb_spec c' c) as [E0|Hc'].
        -- subst c'. split; [|congruence]. intros Hi. apply in_dkeys_Some in Hi. destruct Hi as [x Hx].
           rewrite G5, Z.eqb_refl in Hx. discriminate.
        -- apply Z.eqb_neq in Hc'. split; intros Hi; apply in_dkeys_Some in Hi; destruct Hi as [x Hx];
             eapply dget_Some_in; [rewrite G5, Hc' in Hx|rewrite G5, Hc']; exact Hx.
  - (* the column moves *)
    destruct (zmax_list (dkeys (s_views (set_views s ws)))) as [mx|] eqn:Emx; [|discriminate].
    cbn [s_views set_views] in Emx. rewrite K in Emx. apply zmax_list_spec in Emx. destruct Emx as [_ Emx].
    assert (Hfin : forall auxo, 
      (forall w, dget vb (s_views s) = Some w -> auxo = None) ->
      (forall w, auxo = Some w -> exists w0, In (vb, w0) auxs /\ sans c w0 w) ->
      migrate_dim (set_views s (match auxo with Some w => dset vb w ws | None => ws end)) c va vb b = (s', Ok tt) ->
      sinv n s' /\ same_data s s' /\
      (forall c', c' <> c -> dget c' (s_zv s') = dget c' (s_zv s))).
    { intros auxo Hex Haux Em.
      destruct (migrate_ok n s ws c va vb b auxo s' H Eva HF Hne Hex) as [A [B C]].
      - intros w Hw. destruct (Haux w Hw) as [w0 [Hin HS]]. rewrite Forall_forall in Fa.
        destruct (Fa _ Hin) as [X1 [X2 [X3 X4]]]. cbn [fst snd] in X1, X2, X3, X4.
        split; [eapply sans_vinv; eassumption|]. destruct HS as [S1 [S2 [_ [S4 S5]]]].
        split; [congruence|]. split.
        + destruct (v_dims w) as [|[c1 a1] dd] eqn:Ed; [reflexivity|]. exfalso.
          specialize (S5 c1). rewrite X3 in S5. simpl in S5. rewrite Z.eqb_refl in S5.
          destruct (c1 =? c)%Z; discriminate.
        + unfold v_rows in *. rewrite S1. exact X4.
      - exact Ib.
      - intros Hmb w Hw. rewrite Mb in Hmb. destruct (Hchoice Hmb) as [w1 [Hw1 Hd1]].
        destruct Hw as [Hw|Hw].
        + destruct Hd1 as [Hd1|[_ Hd1]]; [rewrite Hw in Hd1; injection Hd1 as ->; exact Hw1|].
          exfalso. apply Hd1. eapply dget_Some_in; exact Hw.
        + destruct (Haux w Hw) as [w0 [Hin HS]]. destruct Hd1 as [Hd1|[Hd1 _]].
          * specialize (Hex w1 Hd1). congruence.
          * assert (Hnd : NoDup (dkeys auxs)).
            { rewrite Ka. rewrite <- (firstn_skipn (length (s_views s)) (cp_tables p)) in Nt.
              apply NoDup_app_r in Nt. exact Nt. }
            apply (dget_In_NoDup _ _ _ Hnd) in Hin. apply (dget_In_NoDup _ _ _ Hnd) in Hd1.
            rewrite Hin in Hd1. injection Hd1 as ->. eapply column_ok_crp; [apply HS|exact Hw1].
      - exact Em.
      - split; [exact A|]. split; [exact B|]. intros c' Hc'. rewrite C. apply Z.eqb_neq in Hc'. rewrite Hc'. reflexivity. }
    destruct (mx <? vb)%Z eqn:Elt.
    + destruct (dget vb (cp_aux p)) as [w|] eqn:Eaux; [|discriminate]. intros Em.
      apply (Hfin (Some w)); [| |exact Em].
      * intros w2 Hw2. exfalso. apply dget_Some_in in Hw2. specialize (Emx vb Hw2). apply Z.ltb_lt in Elt. lia.
      * intros w2 E2. injection E2 as <-. destruct (dget_forall2 (sans c) _ _ Fx) as [_ Gx].
        specialize (Gx vb). rewrite Eaux in Gx. destruct (dget vb auxs) as [w0|] eqn:E0; [|destruct Gx].
        exists w0. split; [apply dget_In; exact E0|exact Gx].
    + intros Em. apply (Hfin None); [reflexivity|discriminate|exact Em].
Qed.

(* ------------------------------------------------------------------ *)
(** ** Columns added and removed *)

Lemma rsequence_in {A} (l : list (res A)) ys x : rsequence l = Ok ys -> In x l -> exists y, x = Ok y.
Proof. intros E Hin. apply rsequence_inv in E. subst l. apply in_map_iff in Hin. destruct Hin as [y [<- _]]. eauto. Qed.

Lemma vinv_cells X w c a r i : vinv X w -> dget c (v_dims w) = Some a -> In r (dkeys (v_rows w)) ->
  i = c \/ In i (d_ins (a_d a)) -> exists x, X i r = Ok x.
Proof.
  intros [_ [_ V]] Ha Hr Hi. destruct (V c a Ha) as [_ [_ Hc]]. specialize (Hc r).
  apply in_dkeys_Some in Hr. destruct Hr as [k Hr]. rewrite Hr in Hc. destruct Hc as [e [He _]].
  unfold expected in He. destruct (X c r) as [x|] eqn:Ex; [|discriminate].
  destruct (input_values X r a) as [ins|] eqn:Ei; [|discriminate].
  destruct Hi as [->|Hi]; [eauto|]. unfold input_values in Ei.
  eapply rsequence_in in Ei; [exact Ei|]. apply in_map_iff. exists i. auto.
Qed.

Lemma vinv_add_column X col T w : ~ In col (dkeys X) -> vinv (tab X) w -> vinv (tab (dset col T X)) w.
Proof.
  intros Hn V. eapply vinv_table_ins; [exact V|]. intros c a r i Ha Hr Hi.
  destruct (vinv_cells _ _ _ _ _ _ V Ha Hr Hi) as [x Hx]. unfold tab in *.
  rewrite dget_dset_other; [reflexivity|]. intros ->. destruct (dget col X) eqn:E; [|discriminate].
  apply Hn. eapply dget_Some_in; exact E.
Qed.

Lemma dim_call_frame s c o s' r : dim_call s c o = (s', r) ->
  same_data s s' /\ s_crp s' = s_crp s /\ s_grid s' = s_grid s /\ dkeys (s_views s') = dkeys (s_views s).
Proof.
  unfold dim_call. destruct (dget c (s_zv s)) as [v|]; [|intros E; injection E as <- _; repeat split].
  destruct (dget v (s_views s)) as [w|] eqn:Ew; [|intros E; injection E as <- _; repeat split].
  destruct (view_call w c o) as [w' r']. intros E. injection E as <- _. split; [repeat split|].
  split; [reflexivity|]. split; [reflexivity|]. simpl. apply dkeys_dset_in. eapply dget_Some_in; exact Ew.
Qed.

Lemma used_views n s v : sinv n s -> In v (dkeys (s_views s)) <-> exists c', dget c' (s_zv s) = Some v.
Proof.
  intros H. rewrite (si_views _ _ H). split.
  - apply crp_counts_rows. apply (si_crp _ _ H).
  - intros [c' Hc']. eapply crp_rows_counts; [apply (si_crp _ _ H)|exact Hc'].
Qed.

Lemma col_make_ok k a : ainv (cs_col k) -> col_make k = (a, Ok tt) -> ainv a /\ akin (cs_col k) a.
Proof.
  intros H E. destruct (a_call_same _ _ _ _ H E) as [A [B _]]. auto.
Qed.

Lemma zv_seat n s col v k : sinv n s -> ~ In col (s_outs s) -> crp_incorporate (s_crp s) col v = (k, Ok tt) ->
  crp_inv k /\ forall c, dget c (c_data k) = if (c =? col)%Z then Some v else dget c (s_zv s).
Proof.
  intros H Hn E. destruct (crp_inc_spec _ _ _ _ (si_crp _ _ H) E) as [A [_ [B _]]].
  split; [exact A|]. intros c. rewrite B. apply dget_dset.
Qed.

Definition add_safe (s : state) (k : cspec) (v : option Z) : Prop :=
  v = None -> m_coll (a_M (cs_col k)) = true \/ (sorted_views s /\ In 0%Z (dkeys (s_views s))).

Lemma state_add_ok n s T col k v seed d hd ho s' : sinv n s -> ainv (cs_col k) -> add_safe s k v ->
  state_incorporate_dim s T col k v seed d hd ho = (s', Ok tt) ->
  sinv n s' /\ ~ In col (s_outs s) /\ length T = n /\ s_outs s' = s_outs s ++ [col] /\
  s_X s' = dset col T (s_X s) /\ s_Cd s' = s_Cd s /\ s_Ci s' = s_Ci s /\
  (forall c, c <> col -> dget c (s_zv s') = dget c (s_zv s)) /\
  (forall v0, v = Some v0 -> dget col (s_zv s') = Some v0).
Proof.
  intros H Hk Hsafe. unfold state_incorporate_dim. rewrite (sinv_n_rows _ _ H).
  destruct (Z.of_nat (length T) =? Z.of_nat n)%Z eqn:EL; [|discriminate]. apply Z.eqb_eq in EL.
  assert (HT : length T = n) by lia. clear EL. cbn [negb].
  destruct (zmem col (s_outs s)) eqn:Ez; [discriminate|]. apply zmem_false in Ez.
  set (X := dset col T (s_X s)). set (va := match v with Some v => v | None => 0%Z end).
  cbn [s_views set_outs set_X set_views].
  assert (HnX : ~ In col (dkeys (s_X s))) by (rewrite (si_X _ _ H); exact Ez).
  assert (HlenX : forall c l, dget c X = Some l -> length l = n).
  { intros c l. unfold X. rewrite dget_dset. destruct (c =? col)%Z; [intros E; injection E as <-; exact HT|].
    apply (si_len _ _ H). }
  match goal with |- context [match ?t with Ok w => _ | Err e => _ end] => destruct t as [w|] eqn:Ew end; [|discriminate].
  assert (Hw : exists w0, w0 = w /\ (dget va (s_views s) = Some w \/ (aux_ok (tab X) n va w /\ ~ In va (dkeys (s_views s)))) /\
             vinv (tab X) w).
  { exists w. split; [reflexivity|]. destruct (dget va (s_views s)) as [w0|] eqn:E0.
    - injection Ew as ->. split; [left; reflexivity|]. apply vinv_add_column; [exact HnX|].
      apply (si_view _ _ H va w E0).
    - destruct (view_make_ok X (tab X) n _ _ None w HlenX I Ew) as [A [B [C D]]].
      split; [right; split; [split; auto|apply dget_None_notin; exact E0]|exact A]. }
  destruct Hw as [_ [_ [Hw Vw]]].
  destruct (col_make k) as [a r] eqn:Ec. destruct r as [[]|]; [|discriminate].
  destruct (col_make_ok _ _ Hk Ec) as [Ia Ka].
  destruct (view_incorporate_dim (tab X) w col a true) as [[w1 a1] r1] eqn:Ei.
  destruct r1 as [[]|]; cbn [rbind]; [|discriminate].
  destruct (a_score a1) as [sc|]; [|discriminate].
  destruct (incorporate_dim_ok (tab X) w col a true w1 a1 Vw Ia Ei) as [V1 [K1 [C1 [R1 [P1 D1]]]]].
  destruct (incorporate_dim_out _ _ _ _ _ _ _ _ Ei) as [O1 _].
  cbn [s_crp set_views set_outs set_X].
  destruct (crp_incorporate (s_crp s) col va) as [k1 [[]|]] eqn:Ek; [|discriminate].
  destruct (zv_seat _ _ _ _ _ H Ez Ek) as [I1 Z1].
  match goal with |- context [transition_dims _ _ ?t _] => set (s4 := t) end.
  assert (Hdims : forall w0, (dget va (s_views s) = Some w0 \/ (aux_ok (tab X) n va w0 /\ ~ In va (dkeys (s_views s)))) ->
     v_out w0 = (crp_id_view + va)%Z /\
     (forall c, In c (dkeys (v_dims w0)) <-> dget c (s_zv s) = Some va) /\
     (forall r, In r (dkeys (v_rows w0)) <-> (0 <= r < Z.of_nat n)%Z)).
  { intros w0 [Hd|[[_ [A [B C]]] Hd]].
    - apply (si_view _ _ H va w0 Hd).
    - split; [exact A|]. split; [|exact C]. intros c. rewrite B. simpl. split; [tauto|].
      intros E. apply Hd. apply (used_views _ _ _ H). eauto. }
  destruct (Hdims w Hw) as [Ow [Dw Rw]].
  assert (Hz4 : forall c, dget c (s_zv s4) = if (c =? col)%Z then Some va else dget c (s_zv s)) by exact Z1.
  assert (Hv4 : forall v0, In v0 (dkeys (s_views s4)) <-> v0 = va \/ In v0 (dkeys (s_views s))).
  { intros v0. unfold s4. cbn [s_views set_scrp set_views]. rewrite !in_dkeys_dset. tauto. }
  assert (S4 : sinv n s4).
  { split.
    - change (NoDup (s_outs s ++ [col])). apply NoDup_app_intro; [apply (si_nodup _ _ H)|repeat constructor; intros []|].
      intros x Hx [<-|[]]. contradiction.
    - change (s_outs s ++ [col] <> []). destruct (s_outs s); discriminate.
    - intros c. change (In c (dkeys X) <-> In c (s_outs s ++ [col])). unfold X. rewrite in_dkeys_dset, in_app_iff, (si_X _ _ H).
      simpl. intuition congruence.
    - change (NoDup (dkeys X)). apply NoDup_dset. apply (si_XN _ _ H).
    - exact HlenX.
    - exact I1.
    - intros c. change (s_outs s4) with (s_outs s ++ [col]). rewrite in_app_iff, <- (si_zv _ _ H). split.
      + intros Hi. apply in_dkeys_Some in Hi. destruct Hi as [x Hx]. rewrite Hz4 in Hx.
        destruct (Z.eqb_spec c col) as [E|]; [right; left; auto|left; eapply dget_Some_in; exact Hx].
      + intros Hi. destruct (Z.eqb_spec c col) as [E|Hn].
        * eapply dget_Some_in. rewrite Hz4. subst c. rewrite Z.eqb_refl. reflexivity.
        * destruct Hi as [Hi|[E|[]]]; [|congruence]. apply in_dkeys_Some in Hi. destruct Hi as [x Hx].
          eapply dget_Some_in. rewrite Hz4. apply Z.eqb_neq in Hn. rewrite Hn. exact Hx.
    - unfold s4. cbn [s_views set_scrp set_views]. do 2 apply NoDup_dset. apply (si_nv _ _ H).
    - intros v0. rewrite Hv4. split.
      + intros Hi. assert (Hx : exists c, dget c (c_data k1) = Some v0).
        { destruct Hi as [->|Hi]; [exists col; rewrite Z1, Z.eqb_refl; reflexivity|].
          apply (used_views _ _ _ H) in Hi. destruct Hi as [c Hc]. exists c. rewrite Z1.
          destruct (Z.eqb_spec c col) as [->|]; [|exact Hc]. exfalso. apply Ez. apply (si_zv _ _ H).
          eapply dget_Some_in; exact Hc. }
        destruct Hx as [c Hc]. eapply crp_rows_counts; [exact I1|exact Hc].
      + intros Hi. apply crp_counts_rows in Hi; [|exact I1]. destruct Hi as [c Hc].
        change (c_data (s_crp s4)) with (c_data k1) in Hc. rewrite Z1 in Hc.
        destruct (c =? col)%Z; [left; congruence|]. right. apply (used_views _ _ _ H). eauto.
    - intros v0 w0 Hw0. change (tab (s_X s4)) with (tab X).
      unfold s4 in Hw0. cbn [s_views set_scrp set_views] in Hw0. rewrite dget_dset in Hw0.
      destruct (Z.eqb_spec v0 va) as [->|Hnv].
      + injection Hw0 as <-. split; [exact V1|]. split; [congruence|]. split.
        * intros c. rewrite D1, in_dkeys_dset, Dw, Hz4. destruct (Z.eqb_spec c col) as [->|Hn]; [tauto|].
          split; [intros [E|Hi]; [contradiction|exact Hi]|tauto].
        * unfold v_rows in *. rewrite P1. exact Rw.
      + rewrite dget_dset_other in Hw0 by exact Hnv. destruct (si_view _ _ H v0 w0 Hw0) as [A [B [C D]]].
        split; [apply vinv_add_column; assumption|]. split; [exact B|]. split; [|exact D].
        intros c. rewrite C, Hz4. destruct (Z.eqb_spec c col) as [->|]; [|tauto].
        split; [|intros E; injection E; congruence]. intros E. exfalso. apply Ez. apply (si_zv _ _ H).
        eapply dget_Some_in; exact E. }
  assert (Hdf : dim_for s4 col = Ok a1).
  { unfold dim_for. rewrite Hz4, Z.eqb_refl. unfold s4. cbn [s_views set_scrp set_views]. rewrite dget_dset_same.
    rewrite D1, dget_dset_same. reflexivity. }
  match goal with |- context [let '(_, _) := ?t in _] => destruct t as [s5 r5] eqn:E5 end.
  destruct r5 as [[]|]; [|discriminate]. intros E6.
  assert (S5 : sinv n s5 /\ same_data s4 s5 /\ (forall c, c <> col -> dget c (s_zv s5) = dget c (s_zv s4)) /\
           (forall v0, v = Some v0 -> s_zv s5 = s_zv s4)).
  { destruct v as [v0|].
    - injection E5 as <-. split; [exact S4|]. split; [apply same_data_refl|]. auto.
    - cbn [transition_dims length] in E5. destruct (transition_dim d s4 col 1) as [s6 [[]|]] eqn:Et; [|discriminate].
      injection E5 as <-. destruct (transition_dim_ok n d s4 col 1 s6 S4) as [A [B C]]; [|exact Et|].
      + intros a0 Ha0. rewrite Hdf in Ha0. injection Ha0 as <-.
        rewrite (m_coll_akin _ _ K1), (m_coll_akin _ _ Ka).
        destruct (Hsafe eq_refl) as [Hm|[Hs H0]]; [left; exact Hm|right].
        unfold sorted_views, s4. cbn [s_views set_scrp set_views].
        change va with 0%Z. rewrite !dkeys_dset_in; [exact Hs|exact H0|rewrite dkeys_dset_in; exact H0].
      + split; [exact A|]. split; [exact B|]. split; [exact C|discriminate]. }
  destruct S5 as [S5 [[F1 [F2 [F3 F4]]] [F5 F6]]].
  pose proof (dim_call_ok _ _ _ _ _ _ S5 E6) as S6.
  destruct (dim_call_frame _ _ _ _ _ E6) as [[G1 [G2 [G3 G4]]] [G5 _]].
  split; [exact S6|]. split; [exact Ez|]. split; [exact HT|].
  split; [rewrite G1, F1; reflexivity|]. split; [rewrite G2, F2; reflexivity|].
  split; [rewrite G3, F3; reflexivity|]. split; [rewrite G4, F4; reflexivity|]. split.
  - intros c Hc. unfold s_zv at 1. rewrite G5. fold (s_zv s5). rewrite F5 by exact Hc. rewrite Hz4.
    apply Z.eqb_neq in Hc. rewrite Hc. reflexivity.
  - intros v0 ->. unfold s_zv. rewrite G5. fold (s_zv s5). rewrite (F6 v0 eq_refl), Hz4, Z.eqb_refl. reflexivity.
Qed.

Lemma only_member k c v m : crp_inv k -> dget c (c_data k) = Some v -> dget v (c_counts k) = Some m ->
  ((m =? 1)%Z = true <-> forall c', dget c' (c_data k) = Some v -> c' = c).
Proof.
  intros [Nd [[_ Hct] _]] Hva En. rewrite Z.eqb_eq. rewrite Hct in En.
  destruct (occ v (dvals (c_data k)) =? 0)%Z eqn:E0; [discriminate|]. injection En as En.
  rewrite <- En. clear - Nd Hva.
  pose proof (dvals_ddel_perm c v _ Hva) as P. rewrite (occ_perm _ _ _ P), occ_cons.
  rewrite Z.eqb_refl. split.
  - intros H1 c' Hc'. destruct (Z.eq_dec c' c) as [|Hne]; [assumption|]. exfalso.
    assert (Hi : In v (dvals (ddel c (c_data k)))).
    { rewrite <- (dget_ddel_other c' c) in Hc' by exact Hne. apply dget_In in Hc'. unfold dvals.
      change v with (snd (c', v)). apply in_map. exact Hc'. }
    apply occ_pos in Hi. lia.
  - intros Hall. assert (Hno : ~ In v (dvals (ddel c (c_data k)))).
    { intros Hi. unfold dvals in Hi. apply in_map_iff in Hi. destruct Hi as [[c' v'] [E Hi]]. simpl in E. subst v'.
      apply dget_In_NoDup in Hi; [|apply NoDup_ddel; exact Nd].
      rewrite dget_ddel in Hi by exact Nd. destruct (Z.eqb_spec c' c); [discriminate|].
      specialize (Hall c' Hi). contradiction. }
    pose proof (occ_nonneg v (dvals (ddel c (c_data k)))). rewrite <- occ_pos in Hno. lia.
Qed.

(** No other column reads [col]. *)
Definition not_input (s : state) (col : Z) : Prop :=
  forall v w c a, dget v (s_views s) = Some w -> dget c (v_dims w) = Some a -> c <> col ->
    ~ In col (d_ins (a_d a)).

Lemma state_remove_ok n s col s' : sinv n s -> not_input s col ->
  state_unincorporate_dim s col = (s', Ok tt) ->
  sinv n s' /\ In col (s_outs s) /\ s_outs s' = filter (fun i => negb (i =? col)%Z) (s_outs s) /\
  s_X s' = ddel col (s_X s) /\ s_Cd s' = s_Cd s /\ s_Ci s' = s_Ci s /\
  s_zv s' = ddel col (s_zv s).
Proof.
  intros H Hni. unfold state_unincorporate_dim.
  destruct (length (s_outs s) =? 1)%nat eqn:El; [discriminate|]. apply Nat.eqb_neq in El.
  destruct (zmem col (s_outs s)) eqn:Ez; [|discriminate]. apply zmem_in in Ez. cbn [negb].
  destruct (dget col (s_zv s)) as [v|] eqn:Ev; [|discriminate].
  destruct (dget v (s_views s)) as [w|] eqn:Ew; [|discriminate].
  destruct (dget v (c_counts (s_crp s))) as [nv|] eqn:En; [|discriminate].
  destruct (view_unincorporate_dim w col) as [w1 [[]|]] eqn:Eu; [|discriminate].
  destruct (si_view _ _ H v w Ew) as [V [O [D Rr]]].
  destruct (unincorporate_dim_ok _ _ _ _ V Eu) as [V1 [R1 [P1 [D1 _]]]].
  assert (O1 : v_out w1 = v_out w).
  { unfold view_unincorporate_dim in Eu. destruct (dmem col (v_dims w)); [|discriminate]. injection Eu as <-. reflexivity. }
  cbn [s_crp set_views].
  destruct (crp_uninc_spec _ _ _ (si_crp _ _ H) Ev) as [k [Ek [I [Dk [_ Tk]]]]]. rewrite Ek.
  pose proof (only_member _ _ _ _ (si_crp _ _ H) Ev En) as Hone.
  destruct ((nv =? 1)%Z && dmem v (c_counts k)) eqn:Ea; [discriminate|].
  match goal with |- context [dmem col (s_X ?t)] => set (s3 := t) end.
  destruct (dmem col (s_X s3)); [|discriminate]. intros E. injection E as <-.
  set (ws := if (nv =? 1)%Z then ddel v (dset v w1 (s_views s)) else dset v w1 (s_views s)).
  assert (Es3 : s_outs s3 = s_outs s /\ s_X s3 = s_X s /\ s_crp s3 = k /\ s_views s3 = ws /\ s_Cd s3 = s_Cd s /\ s_Ci s3 = s_Ci s).
  { unfold s3, ws. destruct (nv =? 1)%Z; repeat split. }
  destruct Es3 as [E1 [E2 [E3 [E4 [E5 E6]]]]]. clearbody s3.
  set (X := ddel col (s_X s)).
  assert (Nw : NoDup (dkeys (dset v w1 (s_views s)))) by (apply NoDup_dset, (si_nv _ _ H)).
  assert (Hz : forall c, dget c (c_data k) = if (c =? col)%Z then None else dget c (s_zv s)).
  { intros c. rewrite Dk. apply dget_ddel. apply (si_crp _ _ H). }
  assert (HX : forall c r, c <> col -> tab X c r = tab (s_X s) c r).
  { intros c r Hc. unfold tab, X. rewrite dget_ddel_other by exact Hc. reflexivity. }
  assert (Hvt : forall v0 w0, dget v0 (s_views s) = Some w0 -> forall w2, vinv (tab (s_X s)) w2 -> v_crp w2 = v_crp w0 ->
            (forall c a, dget c (v_dims w2) = Some a -> c <> col /\ dget c (v_dims w0) = Some a) -> vinv (tab X) w2).
  { intros v0 w0 H0 w2 V2 P2 S2. eapply vinv_table_ins; [exact V2|]. intros c a r i Hca Hr Hi.
    apply HX. destruct (S2 c a Hca) as [Hc Ha]. destruct Hi as [->|Hi]; [exact Hc|]. intros ->.
    eapply Hni; eassumption. }
  assert (Hws : forall v0 w0, dget v0 ws = Some w0 -> vok (tab X) n (c_data k) v0 w0).
  { intros v0 w0 Hw0. assert (Hw1 : dget v0 (dset v w1 (s_views s)) = Some w0).
    { unfold ws in Hw0. destruct (nv =? 1)%Z; [|exact Hw0]. rewrite dget_ddel in Hw0 by exact Nw.
      destruct (v0 =? v)%Z; [discriminate|exact Hw0]. }
    rewrite dget_dset in Hw1. destruct (Z.eqb_spec v0 v) as [->|Hnv].
    - injection Hw1 as <-. split; [|split; [congruence|split]].
      + apply (Hvt v w Ew w1 V1 P1). intros c a Hca. rewrite D1 in Hca. rewrite dget_ddel in Hca by apply V.
        destruct (Z.eqb_spec c col); [discriminate|auto].
      + intros c. rewrite D1, in_dkeys_ddel by apply V. rewrite D, Hz.
        destruct (Z.eqb_spec c col) as [->|Hn]; [split; [intros [? _]; contradiction|discriminate]|tauto].
      + rewrite R1. exact Rr.
    - destruct (si_view _ _ H v0 w0 Hw1) as [V0 [O0 [D0 R0]]].
      assert (Hnc : ~ In col (dkeys (v_dims w0))) by (rewrite D0; congruence).
      split; [|split; [exact O0|split; [|exact R0]]].
      + apply (Hvt v0 w0 Hw1 w0 V0 eq_refl). intros c a Hca. split; [|exact Hca]. intros ->. apply Hnc.
        eapply dget_Some_in; exact Hca.
      + intros c. rewrite D0, Hz. destruct (Z.eqb_spec c col) as [->|]; [|tauto].
        rewrite <- D0. split; [contradiction|discriminate]. }
  split.
  { split; cbn [s_outs s_X s_crp s_views set_outs set_X].
    - rewrite E1. apply NoDup_filter. apply (si_nodup _ _ H).
    - rewrite E1. pose proof (si_nodup _ _ H) as Nd. destruct (s_outs s) as [|x [|y o]] eqn:Eo; [destruct Ez|simpl in El; lia|].
      intros Hf. assert (Hx : x = col).
      { destruct (Z.eq_dec x col) as [|Hn]; [assumption|]. exfalso. simpl in Hf.
        apply Z.eqb_neq in Hn. rewrite Hn in Hf. discriminate. }
      assert (Hy : y = col).
      { destruct (Z.eq_dec y col) as [|Hn]; [assumption|]. exfalso. simpl in Hf.
        destruct (x =? col)%Z; simpl in Hf; [|discriminate].
        apply Z.eqb_neq in Hn. rewrite Hn in Hf. discriminate. }
      subst. inversion Nd as [|? ? Hq _]. apply Hq. left. reflexivity.
    - intros c. rewrite E1, E2. rewrite in_dkeys_ddel by apply (si_XN _ _ H). rewrite filter_In, (si_X _ _ H).
      rewrite negb_true_iff, Z.eqb_neq. tauto.
    - rewrite E2. apply NoDup_ddel, (si_XN _ _ H).
    - rewrite E2. intros c l Hc. rewrite dget_ddel in Hc by apply (si_XN _ _ H).
      destruct (c =? col)%Z; [discriminate|]. eapply (si_len _ _ H); exact Hc.
    - rewrite E3. exact I.
    - intros c. unfold s_zv. cbn [s_crp set_outs set_X]. rewrite E1, E3, Dk, in_dkeys_ddel by apply (si_crp _ _ H).
      change (c_data (s_crp s)) with (s_zv s). rewrite filter_In, (si_zv _ _ H), negb_true_iff, Z.eqb_neq. tauto.
    - rewrite E4. unfold ws. destruct (nv =? 1)%Z; [apply NoDup_ddel|]; exact Nw.
    - intros v0. rewrite E3, E4.
      transitivity (exists c, dget c (c_data k) = Some v0).
      2:{ split; [intros [c Hc]; eapply crp_rows_counts; eassumption|apply crp_counts_rows; exact I]. }
      assert (Hk : In v0 (dkeys (dset v w1 (s_views s))) <-> exists c, dget c (s_zv s) = Some v0).
      { rewrite <- (used_views n) by exact H. rewrite in_dkeys_dset. split; [|tauto].
        intros [->|Hi]; [eapply dget_Some_in; exact Ew|exact Hi]. }
      unfold ws. destruct (nv =? 1)%Z eqn:E0.
      + rewrite in_dkeys_ddel by exact Nw. rewrite Hk. split.
        * intros [Hv0 [c Hc]]. exists c. rewrite Hz. destruct (Z.eqb_spec c col) as [->|]; [congruence|exact Hc].
        * intros [c Hc]. rewrite Hz in Hc. destruct (Z.eqb_spec c col) as [E|Hn]; [discriminate|].
          split; [|eauto]. intros ->. apply Hn. apply (proj1 Hone); [reflexivity|exact Hc].
      + rewrite Hk. split.
        * intros [c Hc]. destruct (Z.eqb_spec c col) as [E|Hn].
          -- subst c. assert (v0 = v) by congruence. subst v0.
             destruct (existsb (fun kv => (snd kv =? v)%Z && negb (fst kv =? col)%Z) (s_zv s)) eqn:Eo.
             ++ apply existsb_exists in Eo. destruct Eo as [[c' v'] [Hi Ho]]. simpl in Ho.
                apply andb_true_iff in Ho. destruct Ho as [Ho1 Ho2]. apply Z.eqb_eq in Ho1. subst v'.
                apply negb_true_iff in Ho2. exists c'. rewrite Hz, Ho2.
                apply dget_In_NoDup; [apply (si_crp _ _ H)|exact Hi].
             ++ exfalso. assert (Hf : false = true); [|discriminate]. apply Hone. intros c' Hc'.
                destruct (Z.eq_dec c' col) as [|Hn]; [assumption|]. exfalso.
                assert (Ht : existsb (fun kv => (snd kv =? v)%Z && negb (fst kv =? col)%Z) (s_zv s) = true).
                { apply existsb_exists. exists (c', v). split; [apply dget_In; exact Hc'|]. simpl.
                  rewrite Z.eqb_refl. apply Z.eqb_neq in Hn. rewrite Hn. reflexivity. }
                congruence.
          -- exists c. rewrite Hz. apply Z.eqb_neq in Hn. rewrite Hn. exact Hc.
        * intros [c Hc]. rewrite Hz in Hc. destruct (c =? col)%Z; [discriminate|]. eauto.
    - intros v0 w0 Hw0. rewrite E4 in Hw0. rewrite E2. unfold s_zv. cbn [s_crp set_outs set_X]. rewrite E3.
      apply Hws. exact Hw0. }
  split; [exact Ez|]. cbn [s_outs s_X s_Cd s_Ci set_outs set_X]. rewrite E1, E2, E5, E6.
  do 4 (split; [reflexivity|]). unfold s_zv. cbn [s_crp set_outs set_X]. rewrite E3. exact Dk.
Qed.

Lemma state_cctype_ok n s col a g p hd ho s' : sinv n s -> ainv a ->
  state_update_cctype s col a g p hd ho = (s', Ok tt) ->
  sinv n s' /\ same_data s s' /\ s_crp s' = s_crp s.
Proof.
  intros H Ha. unfold state_update_cctype.
  destruct (zmem col (s_outs s)); [|discriminate]. cbn [negb].
  destruct (dget col (s_zv s)) as [v|]; [|discriminate].
  destruct (dget v (s_views s)) as [w|] eqn:Ew; [|discriminate].
  destruct (view_update_cctype (tab (s_X s)) w col a) as [w1 [[]|]] eqn:Eu; [|discriminate].
  destruct (si_view _ _ H v w Ew) as [V [O [D Rr]]].
  destruct (update_cctype_ok _ _ _ _ _ V Ha Eu) as [V1 [R1 [P1 [K1 _]]]].
  assert (O1 : v_out w1 = v_out w).
  { unfold view_update_cctype in Eu. destruct (view_unincorporate_dim w col) as [w2 [u|]] eqn:E2; [|discriminate].
    destruct (view_incorporate_dim (tab (s_X s)) w2 col a true) as [[w3 a3] r3] eqn:E3.
    injection Eu as -> _. destruct (incorporate_dim_out _ _ _ _ _ _ _ _ E3) as [-> _].
    unfold view_unincorporate_dim in E2. destruct (dmem col (v_dims w)); [|discriminate]. injection E2 as <- _. reflexivity. }
  set (s1 := set_views s (dset v w1 (s_views s))).
  assert (S1 : sinv n s1).
  { apply sinv_views; [exact H|apply dkeys_dset_in; eapply dget_Some_in; exact Ew|].
    intros v0 w0. rewrite dget_dset. destruct (Z.eqb_spec v0 v) as [->|]; [|apply (si_view _ _ H)].
    intros E. injection E as <-. split; [exact V1|]. split; [congruence|]. split.
    - intros c. rewrite K1. apply D.
    - rewrite R1. exact Rr. }
  destruct (dim_call s1 col (CallGrids g p)) as [s2 [u2|]] eqn:E2; [|discriminate].
  destruct (dim_call s2 col CallParams) as [s3 [u3|]] eqn:E3; [|discriminate]. intros E4.
  pose proof (dim_call_ok _ _ _ _ _ _ S1 E2) as S2.
  pose proof (dim_call_ok _ _ _ _ _ _ S2 E3) as S3.
  pose proof (dim_call_ok _ _ _ _ _ _ S3 E4) as S4.
  destruct (dim_call_frame _ _ _ _ _ E2) as [F2 [G2 _]].
  destruct (dim_call_frame _ _ _ _ _ E3) as [F3 [G3 _]].
  destruct (dim_call_frame _ _ _ _ _ E4) as [F4 [G4 _]].
  split; [exact S4|]. split; [|rewrite G4, G3, G2; reflexivity].
  apply (same_data_trans s s1); [repeat split|].
  eapply same_data_trans; [exact F2|]. eapply same_data_trans; eassumption.
Qed.

(* ------------------------------------------------------------------ *)
(** ** Kernels *)

Lemma dims_call_frame cols o : forall s s' r, dims_call s cols o = (s', r) ->
  same_data s s' /\ s_crp s' = s_crp s.
Proof.
  induction cols as [|c cols IH]; intros s s' r; simpl; [intros E; injection E as <- _; split; [apply same_data_refl|reflexivity]|].
  destruct (dim_call s c (o (length cols) c)) as [s1 r1] eqn:E1.
  destruct (dim_call_frame _ _ _ _ _ E1) as [F [G _]]. destruct r1.
  - intros E. destruct (IH _ _ _ E) as [F' G']. split; [eapply same_data_trans; eassumption|congruence].
  - intros E; injection E as <- _. auto.
Qed.

Lemma sinv_scrp n s k : sinv n s -> c_data k = c_data (s_crp s) -> c_counts k = c_counts (s_crp s) ->
  c_N k = c_N (s_crp s) -> sinv n (set_scrp s k).
Proof.
  intros H Ed Ec En. destruct H. split; auto.
  - cbn [s_crp set_scrp]. unfold crp_inv. rewrite Ed, Ec, En. exact si_crp0.
  - intros c. unfold s_zv. cbn [s_crp set_scrp s_outs]. rewrite Ed. apply si_zv0.
  - intros v. cbn [s_crp set_scrp s_views]. rewrite Ec. apply si_views0.
  - intros v w Hw. unfold s_zv. cbn [s_crp set_scrp s_X]. rewrite Ed. apply si_view0. exact Hw.
Qed.

(** Every kernel but the one for columns. *)
Definition rows_kernel (k : kernel) : Prop := match k with KColumns _ _ _ => False | _ => True end.

Lemma kernel_ok n s k s' : sinv n s -> rows_kernel k -> run_kernel s k = (s', Ok tt) ->
  sinv n s' /\ same_data s s' /\ s_zv s' = s_zv s /\ dkeys (s_views s') = dkeys (s_views s).
Proof.
  intros H Hk. destruct k as [lgam draw|lgam draws vs|cols|cols draws order|cols grids picks|draws vs rows|d m cols];
    cbn [run_kernel]; [| | | | | |destruct Hk].
  - destruct (crp_transition_alpha lgam draw (s_grid s) (s_crp s)) as [c r] eqn:E.
    destruct (crp_transition_alpha_same _ _ _ _ _ _ E) as [A [B [C _]]].
    intros E1. injection E1 as <- _. split; [apply sinv_scrp; assumption|]. split; [repeat split|].
    split; [exact A|reflexivity].
  - destruct (views_loop _ vs (s_views s)) as [ws r] eqn:E. intros E1. injection E1 as <- ->.
    destruct (views_loop_keep (vok (tab (s_X s)) n (s_zv s)) _ _ _ _ (fun i v w w' Hv Ef =>
      match view_alpha_ok _ _ _ _ _ _ (proj1 Hv) Ef with
      | conj A (conj B (conj C (conj _ (conj D _)))) =>
         conj A (conj (eq_trans D (proj1 (proj2 Hv)))
           (conj (eq_ind_r (fun x => forall c, In c (dkeys x) <-> dget c (s_zv s) = Some v) (proj1 (proj2 (proj2 Hv))) C)
                 (eq_ind_r (fun x => forall r, In r (dkeys x) <-> (0 <= r < Z.of_nat n)%Z) (proj2 (proj2 (proj2 Hv))) B)))
      end) (si_view _ _ H) E) as [K S].
    split; [apply sinv_views; assumption|]. split; [repeat split|]. split; [reflexivity|exact K].
  - intros E. destruct (dims_call_frame _ _ _ _ _ E) as [F G]. pose proof (dims_call_ok _ _ _ _ _ _ H E) as S.
    split; [exact S|]. split; [exact F|]. unfold s_zv. split; [congruence|].
    clear - E. revert s s' E. induction cols as [|c cols IH]; intros s s'; simpl; [intros E; injection E as <-; reflexivity|].
    destruct (dim_call s c CallParams) as [s1 [u|]] eqn:E1; [|discriminate]. intros E.
    destruct (dim_call_frame _ _ _ _ _ E1) as [_ [_ [_ K]]]. rewrite <- K. apply IH. exact E.
  - intros E. destruct (dims_call_frame _ _ _ _ _ E) as [F G]. pose proof (dims_call_ok _ _ _ _ _ _ H E) as S.
    split; [exact S|]. split; [exact F|]. unfold s_zv. split; [congruence|].
    clear - E. revert s s' E. induction cols as [|c cols IH]; intros s s'; simpl; [intros E; injection E as <-; reflexivity|].
    destruct (dim_call s c _) as [s1 [u|]] eqn:E1; [|discriminate]. intros E.
    destruct (dim_call_frame _ _ _ _ _ E1) as [_ [_ [_ K]]]. rewrite <- K. apply IH. exact E.
  - intros E. destruct (dims_call_frame _ _ _ _ _ E) as [F G]. pose proof (dims_call_ok _ _ _ _ _ _ H E) as S.
    split; [exact S|]. split; [exact F|]. unfold s_zv. split; [congruence|].
    clear - E. revert s s' E. induction cols as [|c cols IH]; intros s s'; simpl; [intros E; injection E as <-; reflexivity|].
    destruct (dim_call s c _) as [s1 [u|]] eqn:E1; [|discriminate]. intros E.
    destruct (dim_call_frame _ _ _ _ _ E1) as [_ [_ [_ K]]]. rewrite <- K. apply IH. exact E.
  - rewrite (sinv_n_rows _ _ H). destruct (Z.of_nat n =? 1)%Z.
    { intros E. injection E as <-. split; [exact H|]. split; [apply same_data_refl|]. auto. }
    destruct (views_loop _ vs (s_views s)) as [ws r] eqn:E. intros E1. injection E1 as <- ->.
    destruct (views_loop_keep (vok (tab (s_X s)) n (s_zv s)) _ _ _ _ (fun i v w w' Hv Ef =>
      match transition_rows_ok _ _ _ _ _ (proj1 Hv) Ef with
      | conj A (conj B (conj C (conj _ (conj D _)))) =>
         conj A (conj (eq_trans C (proj1 (proj2 Hv)))
           (conj (eq_ind_r (fun x => forall c, In c x <-> dget c (s_zv s) = Some v) (proj1 (proj2 (proj2 Hv))) B)
                 (fun r => iff_trans (D r) (proj2 (proj2 (proj2 Hv)) r))))
      end) (si_view _ _ H) E) as [K S].
    split; [apply sinv_views; assumption|]. split; [repeat split|]. split; [reflexivity|exact K].
Qed.

(* ------------------------------------------------------------------ *)
(** ** Construction *)

Lemma view_outputs_spec zv v outs l : view_outputs zv v outs = Ok l ->
  (forall c, In c outs -> exists v', dget c zv = Some v') /\
  forall c, In c l <-> In c outs /\ dget c zv = Some v.
Proof.
  revert l. induction outs as [|c outs IH]; intros l; simpl.
  { intros E. injection E as <-. split; [intros c []|]. intros c. simpl. tauto. }
  destruct (dget c zv) as [v'|] eqn:Ev; [|discriminate].
  destruct (view_outputs zv v outs) as [l0|]; [|discriminate]. cbn [rbind]. intros E. injection E as <-.
  destruct (IH l0 eq_refl) as [A B]. split.
  - intros c0 [<-|H]; [eauto|apply A; exact H].
  - intros c0. destruct (Z.eqb_spec v' v) as [->|Hn]; simpl; rewrite B.
    + split; [intros [<-|H]; tauto|]. intros [[<-|H] H2]; tauto.
    + split; [tauto|]. intros [[<-|H] H2]; [congruence|tauto].
Qed.

Lemma view_columns_ok X cols : forall w w', vinv X w -> Forall (fun ck => ainv (cs_col (snd ck))) cols ->
  view_columns X w cols = Ok w' ->
  vinv X w' /\ v_out w' = v_out w /\ v_crp w' = v_crp w /\
  (forall c, In c (dkeys (v_dims w')) <-> In c (map fst cols) \/ In c (dkeys (v_dims w))).
Proof.
  induction cols as [|[c k] cols IH]; intros w w' Hw Hk; cbn [view_columns].
  { intros E. injection E as <-. simpl. split; [exact Hw|]. split; [reflexivity|]. split; [reflexivity|]. tauto. }
  inversion Hk as [|? ? Hk1 Hk2]; subst. cbn [snd] in Hk1.
  destruct (col_make k) as [a [[]|]] eqn:Ea; [|discriminate]. cbn [rbind].
  destruct (col_make_ok _ _ Hk1 Ea) as [Ia _].
  destruct (view_incorporate_dim X w c a true) as [[w1 a1] [[]|]] eqn:E1; [|discriminate]. cbn [rbind].
  destruct (dget c (v_dims w1)) as [a'|] eqn:E2; [|discriminate].
  destruct (a_score a'); [|discriminate]. cbn [rbind]. intros E.
  destruct (incorporate_dim_ok _ _ _ _ true _ _ Hw Ia E1) as [V1 [_ [_ [_ [P1 D1]]]]].
  destruct (incorporate_dim_out _ _ _ _ _ _ _ _ E1) as [O1 _].
  destruct (IH _ _ V1 Hk2 E) as [V2 [O2 [P2 D2]]].
  split; [exact V2|]. split; [congruence|]. split; [congruence|].
  intros c0. rewrite D2, D1, in_dkeys_dset. cbn [map fst In]. split; [intros [?|[->|?]]|intros [[<-|?]|?]]; tauto.
Qed.

Lemma make_views_ok X outs zv vspecs cspecs n : (forall c l, dget c X = Some l -> length l = n) ->
  (forall c, In c (dkeys zv) -> In c outs) ->
  (forall v, match vp_zr (vspecs v) with Some z => length z = n | None => True end) ->
  (forall c, In c outs -> ainv (cs_col (cspecs c))) ->
  forall order ws, make_views X outs zv vspecs cspecs order = Ok ws ->
  dkeys ws = order /\ (order <> [] -> forall c, In c outs -> In c (dkeys zv)) /\
  forall v w, In (v, w) ws -> vok (tab X) n zv v w.
Proof.
  intros Hl Hz Hzr Hc. induction order as [|v order IH]; intros ws; cbn [make_views].
  { intros E. injection E as <-. split; [reflexivity|]. split; [intros []; reflexivity|]. intros v w []. }
  destruct (view_outputs zv v outs) as [mine|] eqn:Em; [|discriminate]. cbn [rbind].
  destruct (view_make _ _ _ _) as [w|] eqn:Ew; [|discriminate]. cbn [rbind].
  destruct (view_columns _ _ _) as [w'|] eqn:Ec; [|discriminate]. cbn [rbind].
  destruct (make_views X outs zv vspecs cspecs order) as [ws0|] eqn:E0; [|discriminate]. cbn [rbind].
  intros E. injection E as <-. destruct (IH _ eq_refl) as [K [_ V]].
  destruct (view_outputs_spec _ _ _ _ Em) as [M1 M2].
  destruct (view_make_ok _ (tab X) n _ _ _ _ Hl (Hzr v) Ew) as [V0 [O0 [D0 R0]]].
  assert (Hcs : Forall (fun ck => ainv (cs_col (snd ck))) (map (fun c => (c, cspecs c)) mine)).
  { apply Forall_forall. intros ck Hi. apply in_map_iff in Hi. destruct Hi as [c' [<- Hi]]. cbn [snd].
    apply Hc, M2, Hi. }
  destruct (view_columns_ok _ _ _ _ V0 Hcs Ec) as [V1 [O1 [P1 D1]]].
  split; [cbn [dkeys map fst] in *; unfold dkeys in K; rewrite K; reflexivity|]. split.
  { intros _ c Hi. destruct (M1 c Hi) as [v' Hd]. eapply dget_Some_in; exact Hd. }
  intros v0 w0 [E|Hi]; [|apply V; exact Hi]. injection E as <- <-.
  split; [exact V1|]. split; [congruence|]. split.
  - intros c. rewrite D1, D0, map_map, map_id. rewrite M2. split; [intros [[_ ?]|[]]; assumption|].
    intros Hd. left. split; [|exact Hd]. apply Hz. eapply dget_Some_in; exact Hd.
  - intros r. unfold v_rows. rewrite P1. apply R0.
Qed.

Lemma state_init_ok X zv alpha grid Cd Ci vspecs cspecs order n s :
  NoDup (dkeys X) -> X <> [] -> (forall c l, dget c X = Some l -> length l = n) ->
  NoDup order -> (forall v, In v order <-> In v (map snd zv)) ->
  (forall v, match vp_zr (vspecs v) with Some z => length z = n | None => True end) ->
  (forall c, In c (dkeys X) -> ainv (cs_col (cspecs c))) ->
  state_init X zv alpha grid Cd Ci vspecs cspecs order = Ok s ->
  sinv n s /\ s_X s = X /\ s_outs s = dkeys X /\ s_Cd s = Cd /\ s_Ci s = Ci /\ dkeys (s_views s) = order /\
  (forall c v, dget c (s_zv s) = Some v <-> In (c, v) zv).
Proof.
  intros HN HX Hl HO Hv Hzr Hc. unfold state_init.
  destruct (seat_given zv (crp_new alpha)) as [c|] eqn:Es; [|discriminate]. cbn [rbind].
  destruct (length (c_data c) =? length (dkeys X))%nat eqn:El; [|discriminate]. apply Nat.eqb_eq in El.
  destruct (make_views _ _ _ _ _ _) as [ws|] eqn:Em; [|discriminate]. cbn [rbind]. intros E. injection E as <-.
  destruct (seat_given_spec _ _ _ (crp_inv_new _) Es) as [I [_ K]].
  assert (G : forall l c0 c1, crp_inv c0 -> seat_given l c0 = Ok c1 ->
             forall r v, dget r (c_data c1) = Some v <-> In (r, v) l \/ dget r (c_data c0) = Some v).
  { clear. induction l as [|[i k] l IH]; intros c0 c1 I0; cbn [seat_given].
    - intros E. injection E as <-. simpl. tauto.
    - destruct (crp_incorporate c0 i k) as [c2 [[]|]] eqn:E2; [|discriminate]. cbn [rbind]. intros E r v.
      destruct (crp_inc_spec _ _ _ _ I0 E2) as [A [B [C _]]]. rewrite (IH _ _ A E), C, dget_dset. cbn [In].
      destruct (Z.eqb_spec r i) as [->|Hn].
      + split; [intros [?|E']; [tauto|injection E' as ->; tauto]|].
        intros [[E'|?]|?]; [injection E' as ->; tauto|tauto|congruence].
      + split; [tauto|]. intros [[E'|?]|?]; [congruence|tauto|tauto]. }
  specialize (G _ _ _ (crp_inv_new alpha) Es). cbn [crp_new c_data dget] in G.
  assert (Hvals : forall v, In v order <-> exists c0, dget c0 (c_data c) = Some v).
  { intros v. rewrite Hv. split.
    - intros Hi. apply in_map_iff in Hi. destruct Hi as [[c0 v0] [<- Hi]]. exists c0. apply G. left. exact Hi.
    - intros [c0 Hd]. apply G in Hd. destruct Hd as [Hd|Hd]; [|discriminate]. apply in_map_iff. exists (c0, v). auto. }
  assert (Hone : order <> []).
  { destruct (c_data c) as [|[c0 v0] d] eqn:Ed.
    - destruct X; [contradiction|]. simpl in El. lia.
    - intros ->. apply (proj2 (Hvals v0)). exists c0. simpl. rewrite Z.eqb_refl. reflexivity. }
  assert (Hin : forall c0, In c0 (dkeys X) -> In c0 (dkeys (c_data c))).
  { destruct order as [|v order]; [contradiction|]. cbn [make_views] in Em.
    destruct (view_outputs (c_data c) v (dkeys X)) eqn:E0; [|discriminate].
    intros c0 H0. destruct (proj1 (view_outputs_spec _ _ _ _ E0) c0 H0) as [v' Hd]. eapply dget_Some_in; exact Hd. }
  assert (Heq : forall c0, In c0 (dkeys (c_data c)) -> In c0 (dkeys X)).
  { intros c0. apply (NoDup_length_incl HN); [|exact Hin]. unfold dkeys at 1. rewrite map_length. lia. }
  destruct (make_views_ok _ _ _ _ _ _ Hl Heq Hzr Hc _ _ Em) as [Kw [_ Vw]].
  split.
  { split; cbn [s_outs s_X s_crp s_views]; try assumption.
    - destruct X; [contradiction|discriminate].
    - intros c0. tauto.
    - intros c0. unfold s_zv. cbn [s_crp]. split; auto.
    - rewrite Kw. exact HO.
    - intros v. rewrite Kw, Hvals.
      split; [intros [c0 H0]; eapply crp_rows_counts; eassumption|apply crp_counts_rows; exact I].
    - intros v w Hw. unfold s_zv. cbn [s_crp]. apply Vw. apply dget_In. exact Hw. }
  cbn [s_X s_outs s_Cd s_Ci s_views]. do 4 (split; [reflexivity|]). split; [exact Kw|].
  intros c0 v. unfold s_zv. cbn [s_crp]. rewrite G. split; [intros [?|?]; [assumption|discriminate]|auto].
Qed.
