(** Property C38, continued: inference touches only what it is asked to touch. *)
From Verif Require Import P07_View Schedule Classes P02_LogSpace P09_State P10_Columns P16_Schedule StateFacts ColumnFacts
  ViewFacts CrpFacts LogSpaceFacts BaseFacts PrimFacts RowGibbs QueryFacts P12_ViewQuery StateQuery P13_StateQuery
  RelevanceFacts RelevanceState GammaWitness.
From Coq Require Import Lia Lra Reals List ZArith.
Import ListNotations.
Local Open Scope R_scope.

(* ------------------------------------------------------------------ *)
(** ** A relation that every call keeps is kept by the schedule *)

Section Keep.
  Context {W K : Type} (call : nat -> K -> W -> W * res unit) (record : W -> W * res unit).
  (** [A] says that calls that fail keep the relation as well. *)
  Variables (A : Prop) (ks : list K) (P : W -> Prop) (Rl : W -> W -> Prop).
  Hypothesis Rl_refl : forall w, Rl w w.
  Hypothesis Rl_trans : forall a b c, Rl a b -> Rl b c -> Rl a c.
  Hypothesis call_keeps : forall t k w w' r, In k ks -> P w -> call t k w = (w', r) ->
    (A \/ r = Ok tt -> Rl w w') /\ (r = Ok tt -> P w').
  Hypothesis record_keeps : forall w w' r, P w -> record w = (w', r) -> Rl w w' /\ (r = Ok tt -> P w').

  Lemma one_pass_keeps N Sec clock i : forall l t w w' t' r, incl l ks -> P w ->
    one_pass call N Sec clock i l t w = (w', t', r) -> (A \/ is_ok r = true -> Rl w w') /\ (is_ok r = true -> P w').
  Proof.
    induction l as [|k l IH]; intros t w w' t' r Hl HP; cbn [one_pass].
    { intros E. injection E as <- _ _. auto. }
    destruct (proportion_done N Sec i (clock t)) as [p|e].
    2:{ intros E. injection E as <- _ <-. split; [intros _; apply Rl_refl|discriminate]. }
    destruct (Rleb 1 p). { intros E. injection E as <- _ _. auto. }
    destruct (call t k w) as [w1 r1] eqn:E1.
    destruct (call_keeps _ _ _ _ _ (Hl k (or_introl eq_refl)) HP E1) as [C B]. destruct r1 as [[]|e].
    - intros E. destruct (IH _ _ _ _ _ (fun x Hx => Hl x (or_intror Hx)) (B eq_refl) E) as [D F]. split; [|exact F].
      intros H. eapply Rl_trans; [apply C; right; reflexivity|apply D; exact H].
    - intros E. injection E as <- _ <-. split; [|discriminate]. intros [H|H]; [auto|discriminate].
  Qed.

  Lemma passes_keeps N Sec clock c : forall fuel i t w w' r, P w ->
    passes call record N Sec clock c fuel ks i t w = Some (w', r) -> A \/ is_ok r = true -> Rl w w'.
  Proof.
    induction fuel as [|fuel IH]; intros i t w w' r HP; cbn [passes]; [discriminate|].
    destruct (one_pass call N Sec clock i ks t w) as [[w1 t1] r1] eqn:E1.
    destruct (one_pass_keeps _ _ _ _ _ _ _ _ _ _ (incl_refl ks) HP E1) as [C B].
    destruct r1 as [[|]|e]; try (intros E; injection E as <- <-; auto).
    specialize (B eq_refl). specialize (C (or_intror eq_refl)).
    cbv zeta. destruct (due c (i + 1)).
    - destruct (record w1) as [w2 r2] eqn:E2. destruct (record_keeps _ _ _ B E2) as [D F]. destruct r2 as [[]|e].
      + intros E H. apply IH in E; [eauto|auto|auto].
      + intros E. injection E as <- _. eauto.
    - intros E H. apply IH in E; [eauto|auto|auto].
  Qed.
End Keep.

(** *** The same for [transition], whatever bounds it and however it ends *)
Section Kept.
  Variables (lgam : R -> R) (rand : nat -> choices) (rowids cols views : option (list Z)).
  Notation tr := (transition lgam rand rowids cols views).
  Notation at_ := (kernel_at lgam rowids cols views).

  (** The kernels to be run. *)
  Definition to_run (kernels : option (list Z)) : list Z := match kernels with None => [0; 1; 2; 3; 4; 5]%Z | Some l => l end.

  Lemma transition_keeps_if (A : Prop) (P : state -> Prop) (Rl : state -> state -> Prop) :
    (forall s, Rl s s) -> (forall a b c, Rl a b -> Rl b c -> Rl a c) ->
    forall kernels,
    (forall t k s q s' r, In k (to_run kernels) -> In k all_kernels -> P s -> at_ (rand t) k s = Ok q ->
       run_kernel s q = (s', r) -> (A \/ r = Ok tt -> Rl s s') /\ (r = Ok tt -> P s')) ->
    forall N Sec clock c fuel w w' r, P (t_state w) ->
    tr N Sec clock kernels c fuel w = Some (w', r) -> A \/ is_ok r = true -> Rl (t_state w) (t_state w').
  Proof.
    intros R0 RT kernels HK N Sec clock c fuel w w' r HP. unfold transition.
    destruct (match cols with None => false | Some l => existsb (fun c => negb (zmem c (s_outs (t_state w)))) l end);
      [intros E _; injection E as <- _; apply R0|].
    cbv zeta. change (match kernels with Some l => l | None => all_kernels end) with (to_run kernels).
    destruct (existsb _ (to_run kernels)) eqn:Ex; [intros E _; injection E as <- _; apply R0|].
    assert (Hall : forall k, In k (to_run kernels) -> In k all_kernels).
    { intros k Hk. destruct (in_dec Z.eq_dec k all_kernels) as [Hi|Hi]; [exact Hi|]. exfalso.
      assert (F : existsb (fun k => negb (zmem k all_kernels)) (to_run kernels) = true).
      { apply existsb_exists. exists k. split; [exact Hk|]. rewrite (proj2 (zmem_false k all_kernels) Hi). reflexivity. }
      rewrite F in Ex. discriminate. }
    destruct (is_nil (to_run kernels)); [intros E _; injection E as <- _; apply R0|]. unfold transition_generic. cbv zeta.
    destruct (to_run kernels) as [|k0 ks0] eqn:Ek; [intros E _; injection E as <- _; apply R0|].
    apply (passes_keeps _ _ A _ (fun w => P (t_state w)) (fun a b => Rl (t_state a) (t_state b))).
    - intros; apply R0.
    - intros a b d; apply RT.
    - intros t k w1 w2 r1 Hk HP1. unfold call_kernel.
      destruct (if (k =? 4)%Z then _ else Ok false) as [[|]|e];
        [intros E; injection E as <- <-; auto| |intros E; injection E as <- <-; split; [intros _; apply R0|discriminate]].
      destruct (kernel_at _ _ _ _ (rand t) k (t_state w1)) as [q|e] eqn:Eq;
        [|intros E; injection E as <- <-; split; [intros _; apply R0|discriminate]].
      destruct (run_kernel (t_state w1) q) as [s2 r2] eqn:E2.
      destruct (HK t k _ _ _ _ Hk (Hall k Hk) HP1 Eq E2) as [C B].
      destruct r2 as [[]|e]; intros E; injection E as <- <-; cbn [t_state]; [auto|].
      split; [|discriminate]. intros [H|H]; [auto|discriminate].
    - intros w1 w2 r1 HP1. unfold record_diagnostics.
      destruct (state_score lgam (t_state w1)); intros E; injection E as <- <-; cbn [t_state]; auto.
    - exact HP.
  Qed.

  Lemma transition_keeps (P : state -> Prop) (Rl : state -> state -> Prop) :
    (forall s, Rl s s) -> (forall a b c, Rl a b -> Rl b c -> Rl a c) ->
    forall kernels,
    (forall t k s q s' r, In k (to_run kernels) -> P s -> at_ (rand t) k s = Ok q -> run_kernel s q = (s', r) ->
       Rl s s' /\ (r = Ok tt -> P s')) ->
    forall N Sec clock c fuel w w' r, P (t_state w) ->
    tr N Sec clock kernels c fuel w = Some (w', r) -> Rl (t_state w) (t_state w').
  Proof.
    intros R0 RT kernels HK N Sec clock c fuel w w' r HP E.
    apply (transition_keeps_if True P Rl R0 RT kernels) with (1 := fun t k s q s' r Hi _ HP Eq Er =>
      match HK t k s q s' r Hi HP Eq Er with conj a b => conj (fun _ => a) b end) in E; auto.
  Qed.

  (* ---------------------------------------------------------------- *)
  (** *** Views *)

  Lemma views_loop_others f vs : forall ws ws' r v, views_loop f vs ws = (ws', r) -> ~ In v vs -> dget v ws' = dget v ws.
  Proof.
    induction vs as [|v0 vs IH]; intros ws ws' r v; cbn [views_loop].
    { intros E _. injection E as <- _. reflexivity. }
    intros E Hv. assert (Hn : v <> v0) by (intros ->; apply Hv; left; reflexivity).
    assert (Hi : ~ In v vs) by (intros H; apply Hv; right; exact H). revert E.
    destruct (dget v0 ws) as [w|]; [|intros E; injection E as <- _; reflexivity].
    destruct (f (length vs) v0 w) as [w1 [[]|e]].
    - intros E. rewrite (IH _ _ _ _ E Hi). apply dget_dset_other. exact Hn.
    - intros E. injection E as <- _. apply dget_dset_other. exact Hn.
  Qed.

  (** Whether a view is asked for: it is in the list of views if there is one, otherwise it
      is the view of one of the columns asked for, if there are any. *)
  Definition asked_view (s : state) (v : Z) : Prop :=
    match views, cols with
    | Some l, _ => In v l
    | None, Some (c0 :: l) => exists c, In c (c0 :: l) /\ dget c (s_zv s) = Some v
    | None, _ => True
    end.

  Lemma chosen_asked s vs v : chosen_views cols views s = Ok vs -> In v (dkeys (s_views s)) -> In v vs -> asked_view s v.
  Proof.
    unfold chosen_views, asked_view. destruct views as [l|]; [intros E _; injection E as <-; auto|].
    destruct cols as [[|c0 l]|]; [auto| |auto].
    destruct (rsequence _) as [ws|] eqn:Es; [|discriminate]. cbn [rbind]. intros E _ Hv. injection E as <-.
    apply nodup_In in Hv. apply rsequence_inv in Es.
    apply (in_map (@Ok Z)) in Hv. rewrite Es in Hv. apply in_map_iff in Hv. destruct Hv as [c [Ec Hc]].
    exists c. split; [exact Hc|]. destruct (dget c (s_zv s)); congruence.
  Qed.

  (** C38: the kernels of the concentrations and of the rows change no view that was not asked
      for, and no assignment of a column to a view. *)
  Theorem C38_only_chosen_views N Sec clock kernels c fuel w w' r :
    (forall k, In k (to_run kernels) -> k = 0%Z \/ k = 1%Z \/ k = 4%Z) ->
    tr N Sec clock kernels c fuel w = Some (w', r) ->
    s_zv (t_state w') = s_zv (t_state w) /\
    forall v, ~ asked_view (t_state w) v -> dget v (s_views (t_state w')) = dget v (s_views (t_state w)).
  Proof.
    intros Hk E.
    enough (G : s_zv (t_state w') = s_zv (t_state w) /\ forall v, ~ asked_view (t_state w) v ->
      (In v (dkeys (s_views (t_state w'))) -> In v (dkeys (s_views (t_state w)))) /\
      dget v (s_views (t_state w')) = dget v (s_views (t_state w))).
    { destruct G as [G1 G2]. split; [exact G1|]. intros v Hv. apply G2. exact Hv. }
    revert E. apply (transition_keeps (fun _ => True)
      (fun s s' => s_zv s' = s_zv s /\ forall v, ~ asked_view s v ->
         (In v (dkeys (s_views s')) -> In v (dkeys (s_views s))) /\ dget v (s_views s') = dget v (s_views s))).
    - auto.
    - intros a b d [A1 A2] [B1 B2]. split; [congruence|]. intros v Hv.
      assert (Hb : ~ asked_view b v). { revert Hv. unfold asked_view. rewrite A1. auto. }
      destruct (A2 v Hv) as [A3 A4]. destruct (B2 v Hb) as [B3 B4]. split; [auto|congruence].
    - intros t k s q s' r0 Hin _ Eq Er. split; [|auto]. 
      assert (G : forall vs f, chosen_views cols views s = Ok vs ->
        let '(ws, r1) := views_loop f vs (s_views s) in
        forall v, ~ asked_view s v -> (In v (dkeys ws) -> In v (dkeys (s_views s))) /\ dget v ws = dget v (s_views s)).
      { intros vs f Ec. destruct (views_loop f vs (s_views s)) as [ws r1] eqn:El. intros v Hv.
        destruct (in_dec Z.eq_dec v (dkeys (s_views s))) as [Hi|Hi].
        - split; [auto|]. eapply views_loop_others; [exact El|]. intros F. apply Hv. eapply chosen_asked; eassumption.
        - assert (Gk : dget v ws = dget v (s_views s)).
          { clear - El Hi. revert El Hi. generalize (s_views s). induction vs as [|v0 vs IH]; intros d0; cbn [views_loop].
            { intros E _. injection E as <- _. reflexivity. }
            destruct (dget v0 d0) as [w0|] eqn:E0; [|intros E _; injection E as <- _; reflexivity].
            assert (Hk : forall w1, dkeys (dset v0 w1 d0) = dkeys d0).
            { intros w1. apply dkeys_dset_in. eapply dget_Some_in; exact E0. }
            destruct (f (length vs) v0 w0) as [w1 [[]|e]]; intros E Hi.
            - rewrite (IH _ E) by (rewrite Hk; exact Hi). apply dget_dset_other.
              intros ->. apply Hi. eapply dget_Some_in; exact E0.
            - injection E as <- _. apply dget_dset_other. intros ->. apply Hi. eapply dget_Some_in; exact E0. }
          split; [|exact Gk]. intros F. destruct (in_dkeys_Some _ _ F) as [x Ex]. rewrite Gk in Ex.
          eapply dget_Some_in; exact Ex. }
      destruct (Hk k Hin) as [->|[->| ->]].
      + cbn in Eq. injection Eq as <-. revert Er. cbn [run_kernel].
        destruct (crp_transition_alpha lgam (ch_draw (rand t)) (s_grid s) (s_crp s)) as [c1 r1] eqn:Ea.
        destruct (crp_transition_alpha_same _ _ _ _ _ _ Ea) as [A _].
        intros E. injection E as <- _. split; [exact A|]. intros v _. split; [auto|reflexivity].
      + unfold kernel_at in Eq. cbn [Z.eqb Pos.eqb] in Eq.
        destruct (chosen_views cols views s) as [vs|] eqn:Ec; [|discriminate]. cbn [rbind] in Eq. injection Eq as <-.
        revert Er. cbn [run_kernel]. match goal with |- context [views_loop ?f vs _] => specialize (G vs f eq_refl) end.
        destruct (views_loop _ vs (s_views s)) as [ws r1]. intros E. injection E as <- _. split; [reflexivity|exact G].
      + unfold kernel_at in Eq. cbn [Z.eqb Pos.eqb] in Eq.
        destruct (chosen_views cols views s) as [vs|] eqn:Ec; [|discriminate]. cbn [rbind] in Eq. injection Eq as <-.
        revert Er. cbn [run_kernel]. destruct (n_rows s) as [n|]; [|intros E; injection E as <- _; auto].
        destruct (n =? 1)%Z; [intros E; injection E as <- _; auto|].
        match goal with |- context [views_loop ?f vs _] => specialize (G vs f eq_refl) end.
        destruct (views_loop _ vs (s_views s)) as [ws r1]. intros E. injection E as <- _. split; [reflexivity|exact G].
    - exact I.
  Qed.

  (* ---------------------------------------------------------------- *)
  (** *** Columns *)

  (** Apart from the columns [l], the view is the same. *)
  Definition alike (l : list Z) (a b : option view) : Prop :=
    match a, b with
    | Some x, Some y => v_out x = v_out y /\ v_crp x = v_crp y /\ v_grid x = v_grid y /\
        dkeys (v_dims x) = dkeys (v_dims y) /\ forall c, ~ In c l -> dget c (v_dims x) = dget c (v_dims y)
    | None, None => True
    | _, _ => False
    end.
  Lemma alike_refl l a : alike l a a.
  Proof. destruct a; cbn; auto 8. Qed.
  Lemma alike_trans l a b d : alike l a b -> alike l b d -> alike l a d.
  Proof.
    destruct a, b, d; cbn; try tauto. intros [A1 [A2 [A3 [A4 A5]]]] [B1 [B2 [B3 [B4 B5]]]].
    do 4 (split; [congruence|]). intros c Hc. rewrite (A5 c Hc). auto.
  Qed.

  Lemma dims_call_others l o : forall cs s s' r, incl cs l -> dims_call s cs o = (s', r) ->
    s_crp s' = s_crp s /\ forall v, alike l (dget v (s_views s')) (dget v (s_views s)).
  Proof.
    induction cs as [|c cs IH]; intros s s' r Hl; cbn [dims_call].
    { intros E. injection E as <- _. split; [reflexivity|]. intros v. apply alike_refl. }
    destruct (dim_call s c (o (length cs) c)) as [s1 r1] eqn:E1.
    assert (G : s_crp s1 = s_crp s /\ forall v, alike l (dget v (s_views s1)) (dget v (s_views s))).
    { revert E1. unfold dim_call. destruct (dget c (s_zv s)) as [v0|]; [|intros E; injection E as <- _; split; [reflexivity|intros; apply alike_refl]].
      destruct (dget v0 (s_views s)) as [w|] eqn:E0; [|intros E; injection E as <- _; split; [reflexivity|intros; apply alike_refl]].
      unfold view_call. destruct (dget c (v_dims w)) as [a|] eqn:Ea.
      - destruct (a_call a _) as [a' ra]. intros E. injection E as <- _. split; [reflexivity|]. intros v.
        cbn [s_views set_views]. rewrite dget_dset. destruct (Z.eqb_spec v v0) as [->|]; [|apply alike_refl]. rewrite E0.
        cbn. do 3 (split; [reflexivity|]). split; [apply dkeys_dset_in; eapply dget_Some_in; exact Ea|].
        intros c' Hc'. apply dget_dset_other. intros ->. apply Hc', Hl. left. reflexivity.
      - intros E. injection E as <- _. split; [reflexivity|]. intros v. cbn [s_views set_views].
        rewrite dget_dset. destruct (Z.eqb_spec v v0) as [->|]; [rewrite E0|]; apply alike_refl. }
    destruct G as [G1 G2]. destruct r1 as [[]|e].
    - intros E. destruct (IH _ _ _ (fun x Hx => Hl x (or_intror Hx)) E) as [A B]. split; [congruence|].
      intros v. eapply alike_trans; [apply B|apply G2].
    - intros E. injection E as <- _. auto.
  Qed.

  (** C38: the kernels of the parameters and the hyperparameters of the columns change
      neither the partitions nor the columns that were not asked for. *)
  Theorem C38_only_chosen_columns l N Sec clock kernels c fuel w w' r : cols = Some l ->
    (forall k, In k (to_run kernels) -> k = 0%Z \/ k = 2%Z \/ k = 3%Z) ->
    tr N Sec clock kernels c fuel w = Some (w', r) ->
    s_zv (t_state w') = s_zv (t_state w) /\
    forall v, alike l (dget v (s_views (t_state w'))) (dget v (s_views (t_state w))).
  Proof.
    intros El Hk. apply (transition_keeps (fun _ => True)
      (fun s s' => s_zv s' = s_zv s /\ forall v, alike l (dget v (s_views s')) (dget v (s_views s)))).
    - intros s. split; [reflexivity|]. intros v. apply alike_refl.
    - intros a b d [A1 A2] [B1 B2]. split; [congruence|]. intros v. eapply alike_trans; [apply B2|apply A2].
    - intros t k s q s' r0 Hin _ Eq Er. split; [|auto]. destruct (Hk k Hin) as [->|[->| ->]].
      + cbn in Eq. injection Eq as <-. revert Er. cbn [run_kernel].
        destruct (crp_transition_alpha lgam (ch_draw (rand t)) (s_grid s) (s_crp s)) as [c1 r1] eqn:Ea.
        destruct (crp_transition_alpha_same _ _ _ _ _ _ Ea) as [A _].
        intros E. injection E as <- _. split; [exact A|]. intros v. apply alike_refl.
      + cbn in Eq. injection Eq as <-. unfold chosen_cols in Er. rewrite El in Er. cbn [run_kernel] in Er.
        destruct (dims_call_others l _ _ _ _ _ (incl_refl l) Er) as [A B]. split; [unfold s_zv; rewrite A; reflexivity|exact B].
      + cbn in Eq. injection Eq as <-. unfold chosen_cols in Er. rewrite El in Er. cbn [run_kernel] in Er.
        destruct (dims_call_others l _ _ _ _ _ (incl_refl l) Er) as [A B]. split; [unfold s_zv; rewrite A; reflexivity|exact B].
    - exact I.
  Qed.

  Lemma migrate_other s c va vb b s' r c' : c' <> c -> migrate_dim s c va vb b = (s', r) ->
    dget c' (s_zv s') = dget c' (s_zv s).
  Proof.
    intros Hc. unfold migrate_dim, migrate_to.
    destruct (dget va (c_counts (s_crp s))) as [nva|]; [|intros E; injection E as <- _; reflexivity].
    destruct (dget va (s_views s)) as [wa|]; [|intros E; injection E as <- _; reflexivity].
    destruct (if dmem c (v_dims wa) then _ else _) as [wa1 [[]|e]]; [|intros E; injection E as <- _; reflexivity].
    destruct (dget vb _) as [wb|]; [|intros E; injection E as <- _; reflexivity].
    destruct (view_incorporate_dim _ wb c b _) as [[wb1 b1] r2].
    destruct (rbind r2 _); [|intros E; injection E as <- _; reflexivity].
    match goal with |- context [crp_unincorporate ?k c] => change k with (s_crp s) end.
    assert (U : forall k1 r3, crp_unincorporate (s_crp s) c = (k1, r3) -> dget c' (c_data k1) = dget c' (s_zv s)).
    { intros k1 r3. unfold crp_unincorporate. change (c_data (s_crp s)) with (s_zv s).
      destruct (dget c (s_zv s)) as [x|]; [|intros E; injection E as <- _; reflexivity].
      destruct (dget x (c_counts (s_crp s))); intros E; injection E as <- _; cbn [c_data]; apply dget_ddel_other; exact Hc. }
    destruct (crp_unincorporate (s_crp s) c) as [k1 [[]|e]]; specialize (U _ _ eq_refl);
      [|intros E; injection E as <- _; exact U].
    assert (I2 : forall k2 r4, crp_incorporate k1 c vb = (k2, r4) -> dget c' (c_data k2) = dget c' (s_zv s)).
    { intros k2 r4. unfold crp_incorporate. destruct (dmem c (c_data k1)); intros E; injection E as <- _; [exact U|].
      cbn [c_data]. rewrite dget_dset_other by exact Hc. exact U. }
    destruct (crp_incorporate k1 c vb) as [k2 [[]|e]]; specialize (I2 _ _ eq_refl);
      [|intros E; injection E as <- _; exact I2].
    destruct (nva =? 1)%Z; [|intros E; injection E as <- _; exact I2].
    destruct (dmem va (c_counts k2)); intros E; injection E as <- _; exact I2.
  Qed.

  Lemma transition_dim_other d s c m s' r c' : c' <> c -> transition_dim d s c m = (s', r) ->
    dget c' (s_zv s') = dget c' (s_zv s).
  Proof.
    intros Hc. unfold transition_dim.
    destruct (all_dims s) as [ds|]; [|intros E; injection E as <- _; reflexivity].
    destruct (existsb _ ds); [intros E; injection E as <- _; reflexivity|].
    destruct (s_Cd s); [|intros E; injection E as <- _; reflexivity].
    destruct (dim_for s c) as [a|]; [|intros E; injection E as <- _; reflexivity].
    destruct (column_plan (cd_seeds d) s c m a) as [s1 r0] eqn:Ep.
    assert (G : s_zv s1 = s_zv s).
    { revert Ep. unfold column_plan. destruct (data_logps _ c a a (s_views s)) as [[ws sh] [ex|e]];
        intros E; injection E as <- _; reflexivity. }
    rewrite <- G. clear Ep G. destruct r0 as [p|e]; [|intros E; injection E as <- _; reflexivity].
    destruct (log_pflip _ _ _) as [[vb prop]|]; [|intros E; injection E as <- _; reflexivity].
    destruct (dget c (s_zv s1)) as [va|]; [|intros E; injection E as <- _; reflexivity].
    destruct (va =? vb)%Z.
    - destruct (dget va (s_views s1)) as [wa|]; [|intros E; injection E as <- _; reflexivity].
      destruct (view_incorporate_dim _ wa c _ _) as [[wa1 b1] r1]. intros E; injection E as <- _; reflexivity.
    - destruct (zmax_list (dkeys (s_views s1))) as [mx|]; [|intros E; injection E as <- _; reflexivity].
      destruct (mx <? vb)%Z; [|apply migrate_other; exact Hc].
      destruct (dget vb (cp_aux p)) as [w|]; [|intros E; injection E as <- _; reflexivity].
      intros E. rewrite (migrate_other _ _ _ _ _ _ _ _ Hc E). reflexivity.
  Qed.

  Lemma transition_dims_other d m l : forall cs s s' r c', incl cs l -> ~ In c' l -> transition_dims d m s cs = (s', r) ->
    dget c' (s_zv s') = dget c' (s_zv s).
  Proof.
    induction cs as [|c cs IH]; intros s s' r c' Hl Hc; cbn [transition_dims].
    { intros E. injection E as <- _. reflexivity. }
    assert (Hn : c' <> c) by (intros ->; apply Hc, Hl; left; reflexivity).
    destruct (transition_dim (d (length cs)) s c m) as [s1 r1] eqn:E1. apply transition_dim_other with (c' := c') in E1; [|exact Hn].
    destruct r1; [|intros E; injection E as <- _; exact E1].
    intros E. rewrite (IH _ _ _ _ (fun x Hx => Hl x (or_intror Hx)) Hc E). exact E1.
  Qed.

  (** C38: whatever the kernels, a column that was not asked for stays in its view. *)
  Theorem C38_only_chosen_moves l N Sec clock kernels c fuel w w' r : cols = Some l ->
    (forall t x y, In y (ch_cols (rand t) x) -> In y x) ->
    tr N Sec clock kernels c fuel w = Some (w', r) ->
    forall c', ~ In c' l -> dget c' (s_zv (t_state w')) = dget c' (s_zv (t_state w)).
  Proof.
    intros El Hp. apply (transition_keeps (fun _ => True)
      (fun s s' => forall c', ~ In c' l -> dget c' (s_zv s') = dget c' (s_zv s))).
    - reflexivity.
    - intros a b d A B c' Hc. rewrite (B c' Hc). auto.
    - intros t k s q s' r0 Hin _ Eq Er. split; [|auto]. intros c' Hc.
      assert (D : rows_kernel q \/ q = KColumns (ch_col (rand t)) 1 (ch_cols (rand t) l)).
      { revert Eq. unfold kernel_at, chosen_cols. rewrite El.
        repeat match goal with |- context [(k =? ?n)%Z] => destruct (k =? n)%Z end;
          try (intros E; injection E as <-; solve [left; exact I|right; reflexivity]);
          (destruct (chosen_views _ views s); [|discriminate]; cbn [rbind]; intros E; injection E as <-; left; exact I). }
      destruct D as [D|D].
      + destruct (kernel_frame _ _ _ _ D Er) as [A _]. rewrite A. reflexivity.
      + subst q. cbn [run_kernel] in Er. eapply transition_dims_other; [|exact Hc|exact Er]. intros x. apply Hp.
    - exact I.
  Qed.

  (* ---------------------------------------------------------------- *)
  (** *** Rows *)

  Lemma views_loop_rel (P : Z -> view -> Prop) (Q : Z -> view -> view -> Prop) f :
    (forall v w, Q v w w) -> (forall v a b d, Q v a b -> Q v b d -> Q v a d) ->
    (forall i v w w', P v w -> f i v w = (w', Ok tt) -> P v w' /\ Q v w w') ->
    forall vs ws ws', (forall v w, dget v ws = Some w -> P v w) -> views_loop f vs ws = (ws', Ok tt) ->
    forall v w, dget v ws = Some w -> exists w', dget v ws' = Some w' /\ Q v w w'.
  Proof.
    intros Q0 QT Hf. induction vs as [|v0 vs IH]; intros ws ws' HP; cbn [views_loop].
    { intros E v w Hv. injection E as <-. eauto. }
    destruct (dget v0 ws) as [w0|] eqn:E0; [|discriminate].
    destruct (f (length vs) v0 w0) as [w1 [[]|e]] eqn:Ef; [|discriminate].
    destruct (Hf _ _ _ _ (HP _ _ E0) Ef) as [P1 Q1]. intros E v w Hv.
    assert (HP1 : forall v w, dget v (dset v0 w1 ws) = Some w -> P v w).
    { intros u x. rewrite dget_dset. destruct (Z.eqb_spec u v0) as [->|]; [|apply HP]. intros F. injection F as <-. exact P1. }
    destruct (Z.eq_dec v v0) as [->|Hn].
    - destruct (IH _ _ HP1 E v0 w1) as [w' [A B]]; [apply dget_dset_same|]. exists w'. split; [exact A|].
      rewrite E0 in Hv. injection Hv as <-. eauto.
    - apply (IH _ _ HP1 E). rewrite dget_dset_other by exact Hn. exact Hv.
  Qed.

  (** C38: a transition that succeeds leaves the rows that were not asked for in their
      clusters, in every view. *)
  Theorem C38_only_chosen_rows l N Sec clock kernels c fuel w w' i : rowids = Some l ->
    (forall t v x y, In y (ch_perm (rand t) v x) -> In y x) ->
    ~ In 5%Z (to_run kernels) -> (exists n, sinv n (t_state w)) ->
    tr N Sec clock kernels c fuel w = Some (w', Ok i) ->
    forall v x, dget v (s_views (t_state w)) = Some x -> exists x', dget v (s_views (t_state w')) = Some x' /\
      forall j, ~ In j l -> dget j (v_rows x') = dget j (v_rows x).
  Proof.
    intros El Hp H5 Hw E.
    refine (transition_keeps_if False (fun s => exists n, sinv n s)
      (fun s s' => forall v x, dget v (s_views s) = Some x -> exists x', dget v (s_views s') = Some x' /\
        forall j, ~ In j l -> dget j (v_rows x') = dget j (v_rows x)) _ _ kernels _ N Sec clock c fuel w w' (Ok i) _ E _).
    - intros s v x Hv. exists x. auto.
    - intros a b d A B v x Hv. destruct (A v x Hv) as [y [Hy Ay]]. destruct (B v y Hy) as [z [Hz Bz]].
      exists z. split; [exact Hz|]. intros j Hj. rewrite (Bz j Hj). auto.
    - intros t k s q s' r Hin Hall [n Hn] Eq Er.
      assert (D : match q with KRows _ _ rows => forall v y, In y (rows v) -> In y l | KColumns _ _ _ => False | _ => True end).
      { revert Eq. unfold kernel_at. destruct (Z.eq_dec k 5) as [->|Hk5]; [contradiction|].
        repeat match goal with |- context [(k =? ?n)%Z] => destruct (Z.eqb_spec k n) end;
          try (intros E1; injection E1 as <-; exact I).
        - destruct (chosen_views _ views s); [|discriminate]; cbn [rbind]; intros E1; injection E1 as <-; exact I.
        - destruct (chosen_views _ views s); [|discriminate]; cbn [rbind]; intros E1; injection E1 as <-.
          unfold chosen_rows. rewrite El. intros v y Hy. eapply Hp; exact Hy.
        - exfalso. unfold all_kernels in Hall. cbn in Hall. lia. }
      assert (D' : rows_kernel q) by (destruct q; [exact I..|exact D]).
      assert (G : r = Ok tt -> forall v x, dget v (s_views s) = Some x -> exists x', dget v (s_views s') = Some x' /\
        forall j, ~ In j l -> dget j (v_rows x') = dget j (v_rows x)).
      { intros ->. assert (Gd : forall cs o, dims_call s cs o = (s', Ok tt) -> forall v x, dget v (s_views s) = Some x ->
          exists x', dget v (s_views s') = Some x' /\ forall j, ~ In j l -> dget j (v_rows x') = dget j (v_rows x)).
        { intros cs o Ed v x Hv. destruct (dims_call_others cs o cs _ _ _ (incl_refl cs) Ed) as [_ B]. specialize (B v).
          rewrite Hv in B. unfold alike in B. destruct (dget v (s_views s')) as [x'|]; [|destruct B].
          exists x'. split; [reflexivity|]. destruct B as [_ [B _]]. unfold v_rows. rewrite B. reflexivity. }
        destruct q as [lg dr|lg drs vs|cs|cs drs order|cs grids picks|drs vs rows|d m cs]; cbn [run_kernel] in Er; eauto.
        - destruct (crp_transition_alpha lg dr (s_grid s) (s_crp s)) as [c1 r1]. injection Er as <- _. eauto.
        - destruct (views_loop _ vs (s_views s)) as [ws r1] eqn:Ev. injection Er as <- ->.
          apply (views_loop_rel (fun _ _ => True) (fun _ x x' => forall j, ~ In j l -> dget j (v_rows x') = dget j (v_rows x))) with (5 := Ev).
          + reflexivity.
          + intros _ a b d0 A B j Hj. rewrite (B j Hj). auto.
          + intros i0 _ x x' _. unfold view_transition_alpha.
            destruct (crp_transition_alpha lg (drs i0 0%nat) (v_grid x) (v_crp x)) as [c1 [[]|e]] eqn:Ea; [|discriminate].
            destruct (crp_transition_alpha_same _ _ _ _ _ _ Ea) as [A _].
            destruct (crp_transition_alpha lg (drs i0 1%nat) (v_grid x) c1) as [c2 r2] eqn:Eb.
            destruct (crp_transition_alpha_same _ _ _ _ _ _ Eb) as [B _]. intros E1. injection E1 as <- _.
            split; [exact I|]. intros j _. unfold v_rows. cbn [v_crp set_crp]. rewrite B, A. reflexivity.
          + auto.
        - destruct (n_rows s) as [n0|]; [|discriminate]. destruct (n0 =? 1)%Z; [injection Er as <-; eauto|].
          destruct (views_loop _ vs (s_views s)) as [ws r1] eqn:Ev. injection Er as <- ->.
          apply (views_loop_rel (fun _ x => vinv (tab (s_X s)) x)
                   (fun _ x x' => forall j, ~ In j l -> dget j (v_rows x') = dget j (v_rows x))) with (5 := Ev).
          + reflexivity.
          + intros _ a b d0 A B j Hj. rewrite (B j Hj). auto.
          + intros i0 v x x' Hx Ef. destruct (transition_rows_ok _ _ _ _ _ Hx Ef) as [A [_ [_ [_ [_ B]]]]].
            split; [exact A|]. intros j Hj. apply B. intros F. apply Hj. exact (D v j F).
          + intros v x Hv. apply (si_view _ _ Hn v x Hv).
        - destruct D. }
      split; [intros [[]|H]; auto|]. intros ->. exists n. apply (kernel_ok _ _ _ _ Hn D' Er).
    - exact Hw.
    - right. reflexivity.
  Qed.
  (* ---------------------------------------------------------------- *)
  (** *** The candidates of a column *)

  Lemma log_pflip_at {A} draw l (array : list A) a : log_pflip draw l array = Ok a ->
    length l = 1%nat /\ nth_error array 0 = Some a \/ exists p, length p = length l /\ nth_error array (draw p) = Some a.
  Proof.
    unfold log_pflip, log_normalize. destruct (logsumexp l) as [z|] eqn:El; [|discriminate]. cbn [rbind].
    set (p := map eexp (map (fun x => esub x z) l)). assert (Hl : length p = length l) by (unfold p; rewrite !map_length; reflexivity).
    assert (G : choice draw array (normalize p) = Ok a ->
      exists p, length p = length l /\ nth_error array (draw p) = Some a).
    { unfold choice. destruct (Nat.eqb (length array) _ && forallb ext_nonneg (normalize p)); [|discriminate].
      destruct (nth_error array (draw (normalize p))) eqn:E; [|discriminate]. intros F. injection F as ->.
      exists (normalize p). split; [|exact E]. unfold normalize. rewrite map_length. exact Hl. }
    clearbody p. unfold pflip. destruct p as [|x [|y p]]; [intros E; right; auto| |intros E; right; auto].
    intros E. left. split; [rewrite <- Hl; reflexivity|]. destruct array; [discriminate|]. injection E as ->. reflexivity.
  Qed.

  Lemma combine_nth {A B} (a : list A) (b : list B) : forall i x y, nth_error (combine a b) i = Some (x, y) -> nth_error a i = Some x.
  Proof.
    revert b. induction a as [|x0 a IH]; intros [|y0 b] [|i] x y; cbn; try discriminate; [congruence|apply IH].
  Qed.

  (** C38: the kernel of the columns, asked for the column [c] alone, draws its view from the
      views of the other columns and exactly one more. *)
  Theorem C38_one_new_view col clock c fuel w w' i : cols = Some [col] -> (1 < fuel)%nat ->
    ch_cols (rand 0%nat) [col] = [col] -> sreach safe (t_state w) ->
    tr (Some 1%Z) None clock (Some [5%Z]) c fuel w = Some (w', Ok i) ->
    let other v := exists c', c' <> col /\ dget c' (s_zv (t_state w)) = Some v in
    exists candidates,
      NoDup candidates /\ (forall v, other v -> In v candidates) /\
      (exists fresh, In fresh candidates /\ ~ other fresh /\ forall v, In v candidates -> ~ other v -> v = fresh) /\
      exists k, nth_error candidates k = dget col (s_zv (t_state w')) /\ (k < length candidates)%nat /\
        (length candidates = 1%nat \/
         exists p, length p = length candidates /\ k = cd_draw (ch_col (rand 0%nat) 0%nat) p).
  Proof.
    intros Ec Hf Hp Hw E. change (Some 1%Z) with (Some (Z.of_nat 1)) in E.
    destruct (transition_perform _ _ _ _ _ _ _ _ _ _ _ _ _ (conj (Nat.lt_0_succ 0) Hf) E) as [_ [_ P]].
    cbv zeta in P. unfold script in P. cbn [seq map concat] in P. rewrite app_nil_r in P. unfold round in P. cbn [map] in P.
    rewrite perform_app in P. cbn [perform] in P.
    destruct (call_kernel lgam rand rowids cols views 0 5 w) as [w1 r1] eqn:E1. destruct r1 as [[]|e]; [|discriminate].
    assert (Es : t_state w' = t_state w1).
    { revert P. destruct c as [c|]; [destruct (Znumtheory.Zdivide_dec c (Z.of_nat 1))|]; cbn [perform];
        try (intros F; injection F as <-; reflexivity).
      unfold record_diagnostics. destruct (state_score lgam (t_state w1)); [|discriminate].
      intros F. injection F as <-. reflexivity. }
    rewrite Es. clear P Es E. revert E1. unfold call_kernel. cbn [Z.eqb Pos.eqb]. unfold kernel_at. cbn [Z.eqb Pos.eqb].
    unfold chosen_cols. rewrite Ec, Hp. cbn [run_kernel transition_dims length].
    destruct (transition_dim (ch_col (rand 0%nat) 0%nat) (t_state w) col 1) as [s1 [[]|e]] eqn:E1; [|discriminate].
    intros E. injection E as <-. cbn [t_state].
    destruct (sreach_sinv _ Hw) as [n Hn].
    destruct (transition_dim_drawn _ _ _ _ _ _ Hn E1) as [a [s2 [p [vb [prop [Ea [Epl [El [Ev _]]]]]]]]].
    destruct (dim_for_spec _ _ _ _ Hn Ea) as [va [wa [Eva _]]].
    destruct (gibbs_tables_spec (s_crp (t_state w)) col va 1 (si_crp _ _ Hn) Eva Nat.lt_0_1) as [tables [Et [Tn [Ti Tf]]]].
    destruct (gibbs_data' (s_crp (t_state w)) col va 1 (si_crp _ _ Hn) Eva Nat.lt_0_1) as [Kd [_ [_ [Ki [Kc _]]]]].
    set (k1 := fst (crp_unincorporate (s_crp (t_state w)) col)) in *.
    cbv zeta. set (other := fun v => exists c', c' <> col /\ dget c' (s_zv (t_state w)) = Some v).
    assert (Ho : forall v, dmem v (c_counts k1) = true <-> other v).
    { intros v. destruct Ki as [Kn [[_ Ko] _]]. unfold dmem. rewrite Ko.
      assert (G : In v (dvals (c_data k1)) <-> other v).
      { split.
        - intros H. apply in_map_iff in H. destruct H as [[c' v'] [Hv Hin]]. cbn in Hv. subst v'.
          assert (Hg : dget c' (c_data k1) = Some v) by (apply dget_In_NoDup; assumption).
          exists c'. assert (Hne : c' <> col) by (intros ->; congruence). split; [exact Hne|].
          rewrite Kd, dget_ddel_other in Hg by exact Hne. exact Hg.
        - intros [c' [Hne Hg]]. assert (Hg' : dget c' (c_data k1) = Some v) by (rewrite Kd, dget_ddel_other; assumption).
          apply dget_In in Hg'. apply (in_map snd) in Hg'. exact Hg'. }
      rewrite <- G, <- occ_pos. pose proof (occ_nonneg v (dvals (c_data k1))).
      destruct (Z.eqb_spec (occ v (dvals (c_data k1))) 0); [split; [discriminate|lia]|split; [lia|reflexivity]]. }
    exists tables. split; [exact Tn|]. split.
    { intros v Hv. apply Ti. apply Ho in Hv. unfold dmem in Hv. destruct (dget v (c_counts k1)) eqn:Ed; [|discriminate].
      eapply dget_Some_in; exact Ed. }
    split.
    { destruct (filter (fun t => negb (dmem t (c_counts k1))) tables) as [|fresh [|y fl]] eqn:Efl; try discriminate.
      assert (Hx : forall v, In v tables /\ ~ other v <-> v = fresh).
      { intros v. assert (H : In v (filter (fun t => negb (dmem t (c_counts k1))) tables) <-> v = fresh).
        { rewrite Efl. cbn. split; [intros [<-|[]]; reflexivity|auto]. }
        rewrite <- H, filter_In, <- Ho. destruct (dmem v (c_counts k1)); cbn; intuition discriminate. }
      exists fresh. destruct (proj2 (Hx fresh) eq_refl) as [A B]. split; [exact A|]. split; [exact B|].
      intros v H1 H2. apply Hx. auto. }
    assert (Ep : cp_tables p = tables /\ length (cp_weights p) = length tables).
    { revert Epl. unfold column_plan. destruct (data_logps _ col a a _) as [[ws sh] [ex|e]]; [|discriminate].
      rewrite Et. cbn [rbind]. destruct (aux_views _ _ _) as [auxs|]; [|discriminate]. cbn [rbind].
      destruct (data_logps _ col _ sh auxs) as [[auxs1 sh2] [ax|e]]; [|discriminate]. cbn [rbind].
      destruct (crp_gibbs_logps _ col 1) as [lc|]; [|discriminate]. cbn [rbind].
      destruct (Nat.eqb (length (ex ++ ax)) (length lc)); [|discriminate].
      destruct (mask _ _ _ _) as [wt|]; [|discriminate]. cbn [rbind].
      destruct (Nat.eqb_spec (length tables) (length wt)) as [Hlen|]; [|discriminate].
      intros F. injection F as _ <-. cbn [cp_tables cp_weights]. auto. }
    destruct Ep as [Ep1 Ep2]. rewrite Ep1 in El. rewrite Ev.
    destruct (log_pflip_at _ _ _ _ El) as [[L1 L2]|[q [Q1 Q2]]].
    - exists 0%nat. split; [eapply combine_nth; exact L2|]. split; [lia|]. left. lia.
    - exists (cd_draw (ch_col (rand 0%nat) 0%nat) q). pose proof (combine_nth _ _ _ _ _ Q2) as Q3. split; [exact Q3|].
      split; [apply nth_error_Some; congruence|]. right. exists q. split; [congruence|reflexivity].
  Qed.
End Kept.
Print Assumptions C38_only_chosen_views.
Print Assumptions C38_only_chosen_columns.
Print Assumptions C38_only_chosen_moves.
Print Assumptions C38_only_chosen_rows.
Print Assumptions C38_one_new_view.

(** The states that histories of operations lead to satisfy the premise on the state. *)
Lemma reached_sinv s : sreach safe s -> exists n, sinv n s.
Proof. apply sreach_sinv. Qed.

(** A kernel on a view that does not exist is refused. *)
Theorem C38_unknown_view lgam rand rowids cols l v clock c fuel w k : (1 < fuel)%nat ->
  match cols with None => True | Some cs => forall x, In x cs -> In x (s_outs (t_state w)) end ->
  k = 1%Z \/ k = 4%Z /\ (forall n, n_rows (t_state w) = Ok n -> n <> 1%Z) -> s_outs (t_state w) <> [] ->
  dget v (s_views (t_state w)) = None ->
  exists w' e, transition lgam rand rowids cols (Some (v :: l)) (Some 1%Z) None clock (Some [k]) c fuel w = Some (w', Err e) /\
    t_state w' = t_state w.
Proof.
  intros Hf Hc Hk Ho Hv. unfold transition.
  replace (match cols with None => false | Some l0 => existsb (fun c0 => negb (zmem c0 (s_outs (t_state w)))) l0 end) with false.
  2:{ destruct cols as [cs|]; [|reflexivity]. symmetry. apply not_true_iff_false. intros F. apply existsb_exists in F.
      destruct F as [x [Hx F]]. apply negb_true_iff in F. apply zmem_false in F. apply F, Hc, Hx. }
  assert (Hk' : k = 1%Z \/ k = 4%Z) by tauto.
  replace (existsb (fun k0 => negb (zmem k0 all_kernels)) [k]) with false by (destruct Hk' as [->| ->]; reflexivity).
  cbn [is_nil]. change (Some 1%Z) with (Some (Z.of_nat 1)). rewrite C38_schedule by (discriminate || lia).
  cbn [script round seq map concat app perform].
  assert (G : exists e, call_kernel lgam rand rowids cols (Some (v :: l)) 0 k w = (w, Err e)
              \/ exists w1, call_kernel lgam rand rowids cols (Some (v :: l)) 0 k w = (w1, Err e) /\ t_state w1 = t_state w).
  { unfold call_kernel, kernel_at, chosen_views. destruct Hk as [->|[-> Hn]]; cbn [Z.eqb Pos.eqb rbind].
    - cbn [run_kernel views_loop]. rewrite Hv. eexists. right. eexists. split; [reflexivity|]. destruct (t_state w); reflexivity.
    - destruct (n_rows (t_state w)) as [n|e] eqn:En; cbn [rbind]; [|eexists; left; reflexivity].
      destruct (Z.eqb_spec n 1) as [->|]; [contradiction (Hn 1%Z eq_refl); reflexivity|].
      cbn [run_kernel]. rewrite En. destruct (Z.eqb_spec n 1) as [->|]; [contradiction|]. cbn [views_loop]. rewrite Hv.
      eexists. right. eexists. split; [reflexivity|]. destruct (t_state w); reflexivity. }
  destruct G as [e [G|[w1 [G G']]]]; unfold script, round; cbn [seq map concat app perform]; rewrite G; eauto.
Qed.
Print Assumptions C38_unknown_view.

(* ------------------------------------------------------------------ *)
(** ** Everything that was asked for is visited *)

Section Every.
  Variables (lgam : R -> R) (rand : nat -> choices) (rowids cols views : option (list Z)).
  Notation tr := (transition lgam rand rowids cols views).

  Lemma one_kernel k clock c fuel w w' i : tr (Some 1%Z) None clock (Some [k]) c fuel w = Some (w', Ok i) -> (1 < fuel)%nat ->
    c = None \/ c = Some 0%Z ->
    call_kernel lgam rand rowids cols views 0 k w = (w', Ok tt).
  Proof.
    unfold transition.
    destruct (match cols with None => false | Some l => existsb (fun c => negb (zmem c (s_outs (t_state w)))) l end); [discriminate|].
    destruct (existsb _ [k]); [discriminate|]. cbn [is_nil].
    intros E Hf Hc. change (Some 1%Z) with (Some (Z.of_nat 1)) in E. rewrite C38_schedule in E by (discriminate || lia).
    assert (Es : script c [k] 1 = [Run k]).
    { unfold script, round. cbn. destruct Hc as [->| ->]; reflexivity. }
    rewrite Es in E. cbn [perform] in E.
    destruct (call_kernel lgam rand rowids cols views 0 k w) as [w1 [[]|e]]; [|discriminate]. injection E as <- _. reflexivity.
  Qed.

  Lemma views_loop_each f : forall vs ws ws', NoDup vs -> views_loop f vs ws = (ws', Ok tt) ->
    forall v, In v vs -> exists i x x', dget v ws = Some x /\ f i v x = (x', Ok tt) /\ dget v ws' = Some x'.
  Proof.
    induction vs as [|v0 vs IH]; intros ws ws' Hn E v Hv; [contradiction|]. cbn [views_loop] in E.
    inversion Hn as [|? ? Hni Hn']; subst.
    destruct (dget v0 ws) as [x|] eqn:E0; [|discriminate].
    destruct (f (length vs) v0 x) as [x1 [[]|e]] eqn:Ef; [|discriminate].
    destruct (Z.eq_dec v v0) as [->|Nv].
    - exists (length vs), x, x1. split; [exact E0|]. split; [exact Ef|].
      rewrite (views_loop_others _ _ _ _ _ _ E Hni). apply dget_dset_same.
    - destruct Hv as [->|Hv]; [contradiction|]. destruct (IH _ _ Hn' E v Hv) as (j & y & y' & Y & F & Y').
      rewrite dget_dset_other in Y by exact Nv. eauto 8.
  Qed.

  (** The rows of a view that were asked for. *)
  Definition asked_rows (x : view) : list Z := match rowids with Some l => l | None => dkeys (v_rows x) end.

  (** C38: one call of the rows kernel resamples, in every view that was asked for, every
      row that was asked for, once and in some order. *)
  Theorem C38_every_row vs clock c fuel w w' i : views = Some vs -> NoDup vs -> (1 < fuel)%nat ->
    c = None \/ c = Some 0%Z -> n_rows (t_state w) <> Ok 1%Z ->
    (forall v l, Permutation.Permutation (ch_perm (rand 0%nat) v l) l) ->
    tr (Some 1%Z) None clock (Some [4%Z]) c fuel w = Some (w', Ok i) ->
    forall v, In v vs -> exists draws rows x x', dget v (s_views (t_state w)) = Some x /\
      Permutation.Permutation rows (asked_rows x) /\
      transition_rows (tab (s_X (t_state w))) draws x rows = (x', Ok tt) /\
      dget v (s_views (t_state w')) = Some x'.
  Proof.
    intros Ev Hn Hf Hc Hr Hp E v Hv. apply one_kernel in E; [|exact Hf|exact Hc]. revert E.
    unfold call_kernel, kernel_at, chosen_views. rewrite Ev. cbn [Z.eqb Pos.eqb rbind].
    destruct (n_rows (t_state w)) as [n|e] eqn:En; cbn [rbind]; [|discriminate].
    destruct (Z.eqb_spec n 1) as [->|Nn]; [contradiction Hr; reflexivity|]. cbn [run_kernel]. rewrite En.
    destruct (Z.eqb_spec n 1) as [->|_]; [contradiction|].
    destruct (views_loop _ vs (s_views (t_state w))) as [ws r] eqn:El. destruct r as [[]|e]; [|discriminate].
    intros E. injection E as <-. cbn [t_state s_views set_views].
    destruct (views_loop_each _ _ _ _ Hn El v Hv) as (j & x & x' & X & F & X').
    exists (ch_draws (rand 0%nat) j), (ch_perm (rand 0%nat) v (chosen_rows rowids (t_state w) v)), x, x'.
    split; [exact X|]. split; [|split; [exact F|exact X']].
    eapply Permutation.perm_trans; [apply Hp|]. unfold chosen_rows, asked_rows. rewrite X. destruct rowids; apply Permutation.Permutation_refl.
  Qed.

  (** C38: one call of the kernel of the views' concentrations resamples that of every view
      that was asked for. *)
  Theorem C38_every_view vs clock c fuel w w' i : views = Some vs -> NoDup vs -> (1 < fuel)%nat -> c = None \/ c = Some 0%Z ->
    tr (Some 1%Z) None clock (Some [1%Z]) c fuel w = Some (w', Ok i) ->
    forall v, In v vs -> exists draw x x', dget v (s_views (t_state w)) = Some x /\
      view_transition_alpha lgam draw x = (x', Ok tt) /\ dget v (s_views (t_state w')) = Some x'.
  Proof.
    intros Ev Hn Hf Hc E v Hv. apply one_kernel in E; [|exact Hf|exact Hc]. revert E.
    unfold call_kernel, kernel_at, chosen_views. rewrite Ev. cbn [Z.eqb Pos.eqb rbind run_kernel].
    destruct (views_loop _ vs (s_views (t_state w))) as [ws r] eqn:El. destruct r as [[]|e]; [|discriminate].
    intros E. injection E as <-. cbn [t_state s_views set_views].
    destruct (views_loop_each _ _ _ _ Hn El v Hv) as (j & x & x' & X & F & X'). eauto 8.
  Qed.

  (** The column [c] of a state. *)
  Definition column_of (s : state) (c : Z) : option adim :=
    match dget c (s_zv s) with
    | None => None
    | Some v => match dget v (s_views s) with None => None | Some x => dget c (v_dims x) end
    end.

  Lemma dim_call_column s c o s' c' : dim_call s c o = (s', Ok tt) ->
    s_zv s' = s_zv s /\
    (exists a a', column_of s c = Some a /\ a_call a o = (a', Ok tt) /\ column_of s' c = Some a') /\
    (c' <> c -> column_of s' c' = column_of s c').
  Proof.
    unfold dim_call. destruct (dget c (s_zv s)) as [v|] eqn:Ev; [|discriminate].
    destruct (dget v (s_views s)) as [x|] eqn:Ex; [|discriminate]. unfold view_call.
    destruct (dget c (v_dims x)) as [a|] eqn:Ea; [|discriminate].
    destruct (a_call a o) as [a' r] eqn:Ec. intros E. injection E as <- ->.
    split; [reflexivity|]. split.
    - exists a, a'. split; [unfold column_of; rewrite Ev, Ex; exact Ea|]. split; [exact Ec|]. unfold column_of.
      change (s_zv (set_views s (dset v (set_dims x (dset c a' (v_dims x))) (s_views s)))) with (s_zv s).
      rewrite Ev. cbn [s_views set_views]. rewrite dget_dset_same. cbn [v_dims set_dims]. apply dget_dset_same.
    - intros Hn. unfold column_of. change (s_zv (set_views s (dset v (set_dims x (dset c a' (v_dims x))) (s_views s)))) with (s_zv s).
      destruct (dget c' (s_zv s)) as [v'|]; [|reflexivity]. cbn [s_views set_views]. rewrite dget_dset.
      destruct (Z.eqb_spec v' v) as [->|]; [|reflexivity]. rewrite Ex. cbn [v_dims set_dims]. apply dget_dset_other. exact Hn.
  Qed.
  Lemma dims_call_column o c' : forall cs s s', ~ In c' cs -> dims_call s cs o = (s', Ok tt) -> column_of s' c' = column_of s c'.
  Proof.
    induction cs as [|c cs IH]; intros s s' Hc E; cbn [dims_call] in E; [injection E as <-; reflexivity|].
    destruct (dim_call s c (o (length cs) c)) as [s1 [[]|e]] eqn:E1; [|discriminate].
    apply (dim_call_column _ _ _ _ c') in E1. destruct E1 as (_ & _ & E1).
    rewrite (IH _ _ (fun H => Hc (or_intror H)) E). apply E1. intros ->. apply Hc. left. reflexivity.
  Qed.
  Lemma dims_call_each o : forall cs s s', NoDup cs -> dims_call s cs o = (s', Ok tt) -> forall c, In c cs ->
    exists j a a', column_of s c = Some a /\ a_call a (o j c) = (a', Ok tt) /\ column_of s' c = Some a'.
  Proof.
    induction cs as [|c0 cs IH]; intros s s' Hn E c Hc; [contradiction|]. cbn [dims_call] in E. inversion Hn as [|? ? Hni Hn']; subst.
    destruct (dim_call s c0 (o (length cs) c0)) as [s1 [[]|e]] eqn:E1; [|discriminate].
    apply (dim_call_column _ _ _ _ c) in E1. destruct E1 as (_ & (a & a' & A1 & A2 & A3) & E1).
    destruct (Z.eq_dec c c0) as [->|Nc].
    - exists (length cs), a, a'. rewrite (dims_call_column _ _ _ _ _ Hni E). auto.
    - destruct Hc as [->|Hc]; [contradiction|]. destruct (IH _ _ Hn' E c Hc) as (j & b & b' & B1 & B2 & B3).
      rewrite (E1 Nc) in B1. eauto 8.
  Qed.

  (** C38: one call of the kernel of the parameters, or of the hyperparameters, visits every
      column that was asked for once; without a list these are all columns. *)
  Theorem C38_every_column k clock c fuel w w' i : k = 2%Z \/ k = 3%Z -> (1 < fuel)%nat -> c = None \/ c = Some 0%Z ->
    let l := match cols with Some l => l | None => s_outs (t_state w) end in NoDup l ->
    tr (Some 1%Z) None clock (Some [k]) c fuel w = Some (w', Ok i) ->
    forall q, In q l -> exists a a', column_of (t_state w) q = Some a /\ column_of (t_state w') q = Some a' /\
      (k = 2%Z -> a' = ADim (a_M a) (dim_transition_params (a_M a) (a_d a))) /\
      (k = 3%Z -> exists draws order d', dim_transition_hypers (a_M a) draws order (a_d a) = (d', Ok tt) /\ a' = ADim (a_M a) d').
  Proof.
    intros Hk Hf Hc l Hn E q Hq. apply one_kernel in E; [|exact Hf|exact Hc]. revert E.
    unfold call_kernel, kernel_at, chosen_cols. fold l. destruct Hk as [->| ->]; cbn [Z.eqb Pos.eqb run_kernel].
    - destruct (dims_call (t_state w) l _) as [s [[]|e]] eqn:El; [|discriminate]. intros E. injection E as <-. cbn [t_state].
      destruct (dims_call_each _ _ _ _ Hn El q Hq) as (j & a & a' & A1 & A2 & A3). exists a, a'.
      split; [exact A1|]. split; [exact A3|]. split; [|discriminate]. intros _. cbn [a_call] in A2. injection A2 as <-. reflexivity.
    - destruct (dims_call (t_state w) l _) as [s [[]|e]] eqn:El; [|discriminate]. intros E. injection E as <-. cbn [t_state].
      destruct (dims_call_each _ _ _ _ Hn El q Hq) as (j & a & a' & A1 & A2 & A3). exists a, a'.
      split; [exact A1|]. split; [exact A3|]. split; [discriminate|]. intros _. cbn [a_call] in A2.
      destruct (dim_transition_hypers (a_M a) _ _ (a_d a)) as [d' r] eqn:Ed. injection A2 as <- ->. eauto 8.
  Qed.
End Every.
Print Assumptions C38_every_row.
Print Assumptions C38_every_view.
Print Assumptions C38_every_column.

(* ------------------------------------------------------------------ *)
(** ** Concrete cases *)

(** Views and rows: of the state with two views, only row 1 of view 1 is resampled. *)
Section Case.
  Let lgam := lgam_w.
  Lemma sx_settled : settled (tab qx_data) (sx_w lgam) /\ all_solid (sx_w lgam).
  Proof.
    pose proof (sx_ready lgam lgam_w_rec) as H.
    assert (Ha : atotal (ADim (M_bernoulli lgam) (qx_d1 lgam [0] [(0, 0); (1, 0); (2, 0)] 3)%Z)).
    { exact (proj1 (sr_cols _ _ H 1%Z (sx_w lgam) 2%Z _ eq_refl eq_refl)). }
    split.
    - split.
      + exact (vreach_vinv _ _ (sx_reach lgam)).
      + intros r k Hk. unfold v_rows, sx_w, sx_view in Hk. cbn [v_crp c_data dget] in Hk.
        repeat match type of Hk with context [(r =? ?n)%Z] => destruct (Z.eqb_spec r n); [lia|] end. discriminate.
      + discriminate.
      + exact (sr_alpha _ _ H 1%Z (sx_w lgam) eq_refl).
      + cbn. lia.
      + intros c a Hc. exact (sr_cols _ _ H 1%Z (sx_w lgam) c a eq_refl Hc).
    - constructor; [|constructor]. cbn [snd]. split; [exact Ha|]. split; [reflexivity|]. split; [reflexivity|].
      intros k c Hk. apply dget_In in Hk. destruct Hk as [E|[]]; injection E as <- <-; reflexivity.
  Qed.

  Example C38_only_chosen_rows_ex : exists w',
    transition lgam ex_rand (Some [1%Z]) None (Some [1%Z]) (Some 1%Z) None (fun _ => 0) (Some [4%Z]) None 2 (TState (sx lgam) [] [])
      = Some (w', Ok 1%Z) /\
    sinv 3 (sx lgam) /\ ~ asked_view None (Some [1%Z]) (sx lgam) 0 /\
    dget 0%Z (s_views (t_state w')) = dget 0%Z (s_views (sx lgam)) /\
    exists x', dget 1%Z (s_views (t_state w')) = Some x' /\ forall j, j <> 1%Z -> dget j (v_rows x') = dget j (v_rows (sx_w lgam)).
  Proof.
    destruct sx_settled as [Hs Ha].
    destruct (pass_total (tab qx_data) (fun _ => first_pos) (sx_w lgam) [1%Z] (fun _ => C16_draw_ex) Ha (st_alpha _ _ Hs)
                (sx_w lgam) (cfg_refl _ _ (st_inv _ _ Hs) Ha)) as [v' [E _]].
    { intros r [<-|[]]. unfold v_rows, sx_w, sx_view. cbn. auto. }
    assert (Et : transition lgam ex_rand (Some [1%Z]) None (Some [1%Z]) (Some 1%Z) None (fun _ => 0) (Some [4%Z]) None 2
        (TState (sx lgam) [] []) = Some (TState (set_views (sx lgam) [(0%Z, qx_v lgam); (1%Z, v')]) [(4, 1)]%Z [], Ok 1%Z)).
    { change (transition lgam ex_rand (Some [1%Z]) None (Some [1%Z]) (Some 1%Z) None (fun _ => 0) (Some [4%Z]) None 2 (TState (sx lgam) [] []))
      with (transition_generic (call_kernel lgam ex_rand (Some [1%Z]) None (Some [1%Z])) (record_diagnostics lgam) [4%Z] (Some (Z.of_nat 1)) None
            (fun _ => 0) None 2 (TState (sx lgam) [] [])).
      rewrite C38_schedule; [|discriminate|lia]. unfold script, round. cbn [seq map concat app perform].
      assert (Ec : call_kernel lgam ex_rand (Some [1%Z]) None (Some [1%Z]) 0 4 (TState (sx lgam) [] [])
        = (TState (set_views (sx lgam) [(0%Z, qx_v lgam); (1%Z, v')]) [(4, 1)]%Z [], Ok tt)).
      { unfold call_kernel. cbn [Z.eqb Pos.eqb t_state]. change (n_rows (sx lgam)) with (@Ok Z 3%Z). cbn [rbind Z.eqb Pos.eqb].
        unfold kernel_at, chosen_views, chosen_rows. cbn [Z.eqb Pos.eqb rbind run_kernel ex_rand ch_perm ch_draws].
        change (n_rows (sx lgam)) with (@Ok Z 3%Z). cbn [Z.eqb Pos.eqb views_loop].
        change (dget 1%Z (s_views (sx lgam))) with (Some (sx_w lgam)). cbn [length].
        change (tab (s_X (sx lgam))) with (tab qx_data). rewrite E. reflexivity. }
      rewrite Ec. reflexivity. }
    assert (H5 : ~ In 5%Z (to_run (Some [4%Z]))) by (cbn; lia).
    assert (H3 : exists n, sinv n (t_state (TState (sx lgam) [] []))) by (exists 3%nat; exact (sx_inv lgam)).
    eexists. split; [exact Et|]. split; [exact (sx_inv lgam)|]. split; [cbn; lia|]. split; [reflexivity|].
    destruct (C38_only_chosen_rows lgam ex_rand (Some [1%Z]) None (Some [1%Z]) [1%Z] _ _ _ _ _ _ _ _ _ eq_refl (fun _ _ _ _ H => H)
       H5 H3 Et 1%Z (sx_w lgam) eq_refl)
      as [x' [Hx Hj]].
    exists x'. split; [exact Hx|]. intros j Hn. apply Hj. cbn. intuition.
  Qed.
End Case.

(** Columns: the parameters of column 1 are redrawn, those of column 0 are not. *)
Definition part_s : state :=
  State [0; 1]%Z bug_X (Crp 2 [(0, 8); (1, 1)]%Z [(8, 1); (1, 1)]%Z 1) [1]
    [(1%Z, set_dims bug_w1 [(1%Z, bug_col (Bernoulli ex_lgam) 2 hset_pair (1, 1) tt [(0, 0); (1, 1)]%Z [0; 1]%Z 9)]);
     (8%Z, set_dims bug_w8 [(0%Z, bug_col (Bernoulli ex_lgam) 2 hset_pair (1, 1) tt [(0, 0); (1, 0)]%Z [0%Z] 5)])] [] [].
Example C38_only_chosen_columns_ex :
  transition ex_lgam ex_rand None (Some [1%Z]) None (Some 1%Z) None (fun _ => 0) (Some [2%Z]) None 2 (TState (ex_state [] []) [] [])
    = Some (TState part_s [(2, 1)]%Z [], Ok 1%Z) /\ sreach safe (ex_state [] []) /\
  dget 1%Z (s_views part_s) <> dget 1%Z (s_views (ex_state [] [])).
Proof.
  split; [|split; [apply ex_state_reach|]].
  - change (transition ex_lgam ex_rand None (Some [1%Z]) None (Some 1%Z) None (fun _ => 0) (Some [2%Z]) None 2 (TState (ex_state [] []) [] []))
      with (transition_generic (call_kernel ex_lgam ex_rand None (Some [1%Z]) None) (record_diagnostics ex_lgam) [2%Z] (Some (Z.of_nat 1)) None
              (fun _ => 0) None 2 (TState (par_s 0) [] [])).
    rewrite C38_schedule; [|discriminate|lia]. reflexivity.
  - intros F. apply (f_equal (fun o => match o with Some w => match dget 1%Z (v_dims w) with
      Some a => d_pos (a_d a) | None => 0%nat end | None => 0%nat end)) in F. cbn in F. discriminate.
Qed.

(** One column: column 0 is offered view 1, its own view 8, and no other. *)
Example C38_one_new_view_ex : exists w',
  transition ex_lgam ex_rand None (Some [0%Z]) None (Some 1%Z) None (fun _ => 0) (Some [5%Z]) None 2 (TState (ex_state [] [[0; 1]]%Z) [] [])
    = Some (w', Ok 1%Z) /\ sreach safe (ex_state [] [[0; 1]]%Z).
Proof.
  destruct C29_ex as [R [_ [_ [s' E]]]]. eexists. split; [|exact R].
  change (transition ex_lgam ex_rand None (Some [0%Z]) None (Some 1%Z) None (fun _ => 0) (Some [5%Z]) None 2 (TState (ex_state [] [[0; 1]]%Z) [] []))
      with (transition_generic (call_kernel ex_lgam ex_rand None (Some [0%Z]) None) (record_diagnostics ex_lgam) [5%Z] (Some (Z.of_nat 1)) None
              (fun _ => 0) None 2 (TState (ex_state [] [[0; 1]]%Z) [] [])).
  rewrite C38_schedule; [|discriminate|lia]. unfold script, round. cbn [seq map concat app perform].
  unfold call_kernel, kernel_at. cbn [Z.eqb Pos.eqb chosen_cols ex_rand ch_cols ch_col run_kernel transition_dims length t_state].
  rewrite E. reflexivity.
Qed.

(** View 5 does not exist. *)
Example C38_unknown_view_ex : s_outs (t_state (TState (ex_state [] []) [] [])) <> [] /\
  dget 5%Z (s_views (ex_state [] [])) = None /\
  exists w' e, transition ex_lgam ex_rand None (Some [1%Z]) (Some [5%Z]) (Some 1%Z) None (fun _ => 0) (Some [1%Z]) None 2
    (TState (ex_state [] []) [] []) = Some (w', Err e) /\ t_state w' = ex_state [] [].
Proof.
  split; [discriminate|]. split; [reflexivity|].
  apply (C38_unknown_view ex_lgam ex_rand None (Some [1%Z]) [] 5 (fun _ => 0) None 2 (TState (ex_state [] []) [] []) 1).
  - lia.
  - intros x [<-|[]]. right. left. reflexivity.
  - left. reflexivity.
  - discriminate.
  - reflexivity.
Qed.

(** The premises of the theorems above on the same runs: the generator keeps the order of
    the rows, one view and one column are named once, and nothing is recorded. *)
Example C38_every_ex : (forall v l, Permutation.Permutation (ch_perm (ex_rand 0%nat) v l) l) /\
  n_rows (t_state (TState (sx lgam_w) [] [])) <> Ok 1%Z /\ NoDup [1%Z] /\
  exists a a', column_of (ex_state [] []) 1 = Some a /\ column_of part_s 1 = Some a' /\
    a' = ADim (a_M a) (dim_transition_params (a_M a) (a_d a)).
Proof.
  split; [intros v l; apply Permutation.Permutation_refl|]. split; [discriminate|].
  assert (Hn : NoDup [1%Z]) by (constructor; [intros []|constructor]). split; [exact Hn|].
  destruct C38_only_chosen_columns_ex as [E _].
  destruct (C38_every_column ex_lgam ex_rand None (Some [1%Z]) None 2 _ _ _ _ _ _ (or_introl eq_refl) (le_n 2) (or_introl eq_refl) Hn E
     1%Z (or_introl eq_refl)) as (a & a' & A1 & A2 & A3 & _). eauto 8.
Qed.
