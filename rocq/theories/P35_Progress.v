(** C59: inference on a state of collapsed columns never raises an exception. *)
From Verif Require Import LogSpaceFacts P02_LogSpace P06_Dim P07_View P09_State RelevanceState ProgressEdits.
From Verif Require Import Schedule P16_Schedule.
From Verif Require Import Grids P34_Grids.
From Coq Require Import Lia Classical.
Local Open Scope R_scope.

(* ------------------------------------------------------------------ *)
(** ** Kernels *)

Lemma columns_eager n m cols : (0 < m)%nat -> forall d s, (forall i, cdraws_ok (d i)) -> sinv n s -> able s -> s_Cd s = [] ->
  (forall c, In c cols -> In c (s_outs s)) -> columns_safe d m s cols.
Proof.
  intros Hm. induction cols as [|c cols IH]; intros d s Hd H A HC Hin; [exact I|]. split.
  - intros a Ea. left. destruct (dim_for_spec _ _ _ _ H Ea) as [v [w [_ [Ew [Eca _]]]]].
    destruct (ab_view _ A v w Ew) as [_ [_ W]]. apply (eager_coll a (W c a Eca)).
  - intros s1 E. destruct (step_total n (d (length cols)) s c m H A (Hin c (or_introl eq_refl)) HC Hm (Hd _)) as [s1' [E' [A1 [H1 [D1 _]]]]].
    rewrite E in E'. injection E' as <-. destruct D1 as [Do [_ [Dc _]]]. apply IH; auto; [congruence|].
    intros c' Hc'. rewrite Do. apply Hin. right. exact Hc'.
Qed.

Lemma kernel_safe n s k : sinv n s -> able s -> kernel_can s k -> safe s (OKernel k).
Proof.
  intros H A Hk. destruct k; try exact I. destruct Hk as [Hd [Hm [HC Hin]]]. eapply columns_eager; eassumption.
Qed.

(** Every kernel returns, and in the state that it leaves the kernels return again.  The
    columns keep their classes, the table is unchanged. *)
Theorem C59_kernel s k : sreach safe s -> able s -> kernel_can s k ->
  exists s', run_kernel s k = (s', Ok tt) /\ sreach safe s' /\ able s' /\ same_data s s' /\ class_kept s s'.
Proof.
  intros R A Hk. destruct (sreach_sinv s R) as [n H]. destruct (kernel_total n s k H A Hk) as [s' [E [A' [H' [D K]]]]].
  exists s'. split; [exact E|]. split; [|auto]. apply (sr_step safe s (OKernel k) s'); [exact R|exact I|eapply kernel_safe; eassumption|exact E].
Qed.
Print Assumptions C59_kernel.

(* ------------------------------------------------------------------ *)
(** ** transition *)

(** What the random choices of a kernel call are: draws, a shuffle of the numbers of the
    hyperparameters for each column, shuffles of rows and of columns. *)
Record lawful (cols : option (list Z)) (s : state) (h : choices) : Prop := {
  lw_draw : draw_ok (ch_draw h);
  lw_draws : forall i j, draw_ok (ch_draws h i j);
  lw_order : forall i c a, at_pos (chosen_cols cols s) i c -> dim_for s c = Ok a ->
    forall j, In j (ch_order h i) -> (j < m_nhyp (a_M a))%nat;
  lw_perm : forall v l r, In r (ch_perm h v l) -> In r l;
  lw_cols : forall l c, In c (ch_cols h l) -> In c l;
  lw_col : forall i, cdraws_ok (ch_col h i)
}.

Section Transition.
  Variables (lgam : R -> R) (rand : nat -> choices) (rowids cols : option (list Z)).
  Notation call := (call_kernel lgam rand rowids cols None).
  Notation rec := (record_diagnostics lgam).
  Variable s0 : state.
  Context (Hs0 : sreach safe s0).
  Context (Hrand : forall t, lawful cols s0 (rand t)).
  Context (Hcols : match cols with Some l => forall c, In c l -> In c (s_outs s0) | None => True end).
  Context (Hrows : match rowids with
                   | Some l => forall r, In r l -> exists n, n_rows s0 = Ok n /\ (0 <= r < n)%Z
                   | None => True end).

  Definition fine (w : tstate) : Prop :=
    sreach safe (t_state w) /\ able (t_state w) /\ same_data s0 (t_state w) /\ class_kept s0 (t_state w).

  Lemma chosen_same s : same_data s0 s -> chosen_cols cols s = chosen_cols cols s0.
  Proof. intros [Ho _]. unfold chosen_cols. destruct cols; [reflexivity|exact Ho]. Qed.

  Lemma chosen_outs s : same_data s0 s -> forall c, In c (chosen_cols cols s) -> In c (s_outs s).
  Proof. intros [Ho _] c. unfold chosen_cols. destruct cols as [l|]; [rewrite Ho; apply Hcols|auto]. Qed.

  Lemma chosen_views_ok n s : sinv n s -> same_data s0 s ->
    exists vs, chosen_views cols None s = Ok vs /\ forall v, In v vs -> In v (dkeys (s_views s)).
  Proof.
    intros H HD. unfold chosen_views. destruct cols as [[|c l]|] eqn:Ec; [exists (dkeys (s_views s)); auto| |exists (dkeys (s_views s)); auto].
    assert (G : forall q, (forall x, In x q -> In x (s_outs s)) ->
      exists vs, rsequence (map (fun c => match dget c (s_zv s) with Some v => Ok v | None => Err KeyError end) q) = Ok vs /\
        forall v, In v vs -> In v (dkeys (s_views s))).
    { induction q as [|x q IH]; intros Hq; [exists []; split; [reflexivity|intros v []]|].
      destruct (dim_for_ex n s x H (Hq x (or_introl eq_refl))) as [v [w [a [Ev [Ew _]]]]].
      destruct IH as [vs [E Hv]]; [intros y Hy; apply Hq; right; exact Hy|]. exists (v :: vs). cbn [map rsequence]. rewrite Ev, E.
      split; [reflexivity|]. intros v' [<-|Hv']; [eapply dget_Some_in; exact Ew|apply Hv; exact Hv']. }
    destruct (G (c :: l)) as [vs [E Hv]].
    { intros x Hx. destruct HD as [Ho _]. rewrite Ho. apply Hcols. exact Hx. }
    rewrite E. cbn [rbind]. exists (nodup Z.eq_dec vs). split; [reflexivity|]. intros v Hi. apply Hv. eapply nodup_In; exact Hi.
  Qed.

  Lemma kernel_at_ok t k s : sreach safe s -> able s -> same_data s0 s -> class_kept s0 s ->
    In k all_kernels -> (k = 5%Z -> s_Cd s0 = []) -> exists q, kernel_at lgam rowids cols None (rand t) k s = Ok q /\ kernel_can s q.
  Proof.
    intros R A HD HK Hin HC. destruct (sreach_sinv s R) as [n H]. pose proof (Hrand t) as L. pose proof HD as [Ho [Hx [Hcd _]]].
    assert (En : n_rows s = n_rows s0) by (apply same_data_rows; exact HD).
    unfold kernel_at.
    destruct (Z.eqb_spec k 0); [eexists; split; [reflexivity|apply L]|].
    destruct (Z.eqb_spec k 1).
    { destruct (chosen_views_ok n s H HD) as [vs [-> Hv]]. eexists. split; [reflexivity|]. split; [apply L|exact Hv]. }
    destruct (Z.eqb_spec k 2); [eexists; split; [reflexivity|exact (chosen_outs s HD)]|].
    destruct (Z.eqb_spec k 3).
    { eexists. split; [reflexivity|]. split; [exact (chosen_outs s HD)|]. split; [apply L|].
      intros i c a Hp Ea j Hj. pose proof Hp as Hp'. rewrite (chosen_same s HD) in Hp'.
      assert (Hc : In c (s_outs s)) by (apply (chosen_outs s HD); eapply at_pos_in; exact Hp). 
      destruct (dim_for s0 c) as [a0|] eqn:E0.
      - destruct (HK c a0 E0) as [a' [E' M']]. rewrite Ea in E'. injection E' as <-. rewrite M'.
        apply (lw_order _ _ _ L i c a0 Hp' E0 j Hj).
      - exfalso. rewrite Ho in Hc. destruct (sreach_sinv s0 Hs0) as [m0 H0]. destruct (dim_for_ex m0 s0 c H0 Hc) as [_ [_ [a0 [_ [_ [_ E0']]]]]]. congruence. }
    destruct (Z.eqb_spec k 4).
    { destruct (chosen_views_ok n s H HD) as [vs [-> Hv]]. eexists. split; [reflexivity|]. split; [apply L|]. split; [exact Hv|].
      intros v r Hvv Hr. apply (lw_perm _ _ _ L) in Hr. rewrite En. unfold chosen_rows in Hr. destruct rowids as [l|]; [apply Hrows; exact Hr|].
      rewrite <- En, (sinv_n_rows n s H). exists (Z.of_nat n). split; [reflexivity|].
      destruct (dget v (s_views s)) as [w|] eqn:Ew; [|destruct Hr]. apply (si_view _ _ H v w Ew). exact Hr. }
    assert (k = 5%Z) as -> by (unfold all_kernels in Hin; cbn in Hin; lia).
    eexists. split; [reflexivity|]. split; [apply L|]. split; [lia|]. split; [rewrite Hcd; apply HC; reflexivity|].
    intros c Hc. apply (chosen_outs s HD). apply (lw_cols _ _ _ L) in Hc. exact Hc.
  Qed.

  Lemma call_fine t k w : fine w -> In k all_kernels -> (k = 5%Z -> s_Cd s0 = []) -> exists w', call t k w = (w', Ok tt) /\ fine w'.
  Proof.
    intros [R [A [D K]]] Hk HC. destruct (sreach_sinv _ R) as [n H]. unfold call_kernel.
    assert (Eb : exists b, (if (k =? 4)%Z then rbind (n_rows (t_state w)) (fun n => Ok (n =? 1)%Z) else Ok false) = Ok b).
    { destruct (k =? 4)%Z; [rewrite (sinv_n_rows n _ H); eexists; reflexivity|eauto]. }
    destruct Eb as [b ->]. destruct b; [exists w; split; [reflexivity|split; auto]|].
    destruct (kernel_at_ok t k (t_state w) R A D K Hk HC) as [q [-> Hq]].
    destruct (C59_kernel (t_state w) q R A Hq) as [s' [-> [R' [A' [D' K']]]]]. eexists. split; [reflexivity|].
    split; [exact R'|]. split; [exact A'|]. cbn [t_state]. split; [eapply same_data_trans; eassumption|eapply class_kept_trans; eassumption].
  Qed.

  Lemma score_able n s : sinv n s -> able s -> s_Cd s = [] -> s_Ci s = [] -> exists x, state_score lgam s = Ok (Fin x).
  Proof.
    intros H A HC HI. unfold state_score, state_score_crp. rewrite HC, HI.
    unfold crp_score, crp_marginal. rewrite plog_pos by apply A. cbn [rbind].
    destruct (fin_sum (map (view_score lgam) (dvals (s_views s)))) as [y ->].
    { apply Forall_forall. intros x Hx. apply in_map_iff in Hx. destruct Hx as [w [<- Hw]].
      unfold dvals in Hw. apply in_map_iff in Hw. destruct Hw as [[v w0] [Ew Hin]]. cbn in Ew. subst w0.
      apply dget_In_NoDup in Hin; [|apply (si_nv _ _ H)]. destruct (ab_view _ A v w Hin) as [Wa [_ W]].
      destruct (si_view _ _ H v w Hin) as [V _]. eexists. apply (score_eq (tab (s_X s))); [exact V| |exact Wa].
      apply eager_all_solid; [exact W|apply V]. }
    cbn [rbind eadd]. eexists. reflexivity.
  Qed.

  (** What the checkpoints need: without one, nothing. *)
  Definition scored (c : option Z) : Prop := c = None \/ c = Some 0%Z \/ (s_Cd s0 = [] /\ s_Ci s0 = []).

  Lemma record_fine w : fine w -> s_Cd s0 = [] -> s_Ci s0 = [] -> exists w', rec w = (w', Ok tt) /\ fine w'.
  Proof.
    intros [R [A [D K]]] HC HI. destruct (sreach_sinv _ R) as [n H]. pose proof D as [_ [_ [Dc Di]]].
    destruct (score_able n (t_state w) H A) as [x E]; [congruence|congruence|]. unfold record_diagnostics. rewrite E.
    eexists. split; [reflexivity|]. split; [exact R|]. auto.
  Qed.

  Lemma pass_fine N Sec clock i ks : (forall k, In k ks -> In k all_kernels) -> (In 5%Z ks -> s_Cd s0 = []) ->
    (forall j x, exists p, proportion_done N Sec j x = Ok p) -> forall t w, fine w ->
    exists w' t' b, one_pass call N Sec clock i ks t w = (w', t', Ok b) /\ fine w'.
  Proof.
    intros Hks HC HP. induction ks as [|k ks IH]; intros t w F; cbn [one_pass]; [eauto 6|].
    destruct (HP i (clock t)) as [p ->]. destruct (Rleb 1 p); [eauto 6|].
    destruct (call_fine t k w F (Hks k (or_introl eq_refl))) as [w1 [-> F1]]; [intros ->; apply HC; left; reflexivity|].
    apply IH; [intros k' Hk'; apply Hks; right; exact Hk'|intros Hk'; apply HC; right; exact Hk'|exact F1].
  Qed.

  Lemma passes_fine N Sec clock c ks : (forall k, In k ks -> In k all_kernels) -> (In 5%Z ks -> s_Cd s0 = []) ->
    (forall j x, exists p, proportion_done N Sec j x = Ok p) -> scored c -> forall fuel i t w, fine w ->
    forall w' r, passes call rec N Sec clock c fuel ks i t w = Some (w', r) -> (exists j, r = Ok j) /\ fine w'.
  Proof.
    intros Hks HC HP Hs. induction fuel as [|fuel IH]; intros i t w F w' r; cbn [passes]; [discriminate|].
    destruct (pass_fine N Sec clock i ks Hks HC HP t w F) as [w1 [t1 [b [-> F1]]]]. destruct b.
    - intros E. injection E as <- <-. split; [eauto|exact F1].
    - destruct (due c (i + 1)) eqn:Ed; [|apply IH; exact F1]. destruct Hs as [->|[->|[H1 H2]]]; [discriminate|discriminate|].
      destruct (record_fine w1 F1 H1 H2) as [w2 [-> F2]]. apply IH. exact F2.
  Qed.
End Transition.

(** A run of any of the kernels over any of the columns and rows, with a limit on the
    iterations, the seconds or both, ends without an exception if it ends; a limit of N
    iterations alone ends it after N.  A checkpoint needs a state without constraints,
    the reassignment of columns one without dependence constraints. *)
Theorem C59_transition lgam rand rowids cols N Sec clock kernels c fuel w :
  let s := t_state w in let ks := match kernels with None => all_kernels | Some l => l end in
  sreach safe s -> able s -> (forall t, lawful cols s (rand t)) ->
  match cols with Some l => forall x, In x l -> In x (s_outs s) | None => True end ->
  match rowids with Some l => forall r, In r l -> exists n, n_rows s = Ok n /\ (0 <= r < n)%Z | None => True end ->
  ks <> [] -> (forall k, In k ks -> In k all_kernels) -> (In 5%Z ks -> s_Cd s = []) -> scored s c ->
  N <> Some 0%Z -> Sec <> Some 0 ->
  (forall w' r, transition lgam rand rowids cols None N Sec clock kernels c fuel w = Some (w', r) ->
     (exists i, r = Ok i) /\ sreach safe (t_state w') /\ able (t_state w') /\ same_data s (t_state w') /\ class_kept s (t_state w')) /\
  (forall n, N = Some (Z.of_nat n) -> Sec = None -> (0 < n < fuel)%nat ->
     exists w', transition lgam rand rowids cols None N Sec clock kernels c fuel w = Some (w', Ok (Z.of_nat n))).
Proof.
  intros s ks R A L Hc Hr Hne Hks H5 Hs HN HS.
  assert (E0 : forall fuel, transition lgam rand rowids cols None N Sec clock kernels c fuel w =
     transition_generic (call_kernel lgam rand rowids cols None) (record_diagnostics lgam) ks N Sec clock c fuel w).
  { intros f. unfold transition. fold s ks.
    assert (Ec : match cols with None => false | Some l => existsb (fun x => negb (zmem x (s_outs s))) l end = false).
    { destruct cols as [l|]; [|reflexivity]. apply not_true_is_false. intros E. apply existsb_exists in E. destruct E as [x [Hx E]].
      apply negb_true_iff in E. apply zmem_false in E. apply E, Hc, Hx. }
    rewrite Ec. assert (Ek : existsb (fun k => negb (zmem k all_kernels)) ks = false).
    { apply not_true_is_false. intros E. apply existsb_exists in E. destruct E as [x [Hx E]]. apply negb_true_iff in E.
      apply zmem_false in E. apply E, Hks, Hx. }
    rewrite Ek. destruct ks; [contradiction|reflexivity]. }
  assert (F : fine s w) by (split; [exact R|]; split; [exact A|]; split; [apply same_data_refl|apply class_kept_refl]).
  assert (G : forall w' r, transition lgam rand rowids cols None N Sec clock kernels c fuel w = Some (w', r) ->
     (exists i, r = Ok i) /\ fine s w').
  { intros w' r. rewrite E0. unfold transition_generic. destruct ks as [|k0 ks0] eqn:Ek; [contradiction|]. rewrite <- Ek in *.
    set (N1 := match N, Sec with None, None => Some 1%Z | _, _ => N end).
    apply (passes_fine lgam rand rowids cols s R L Hc Hr N1 Sec clock c ks Hks H5); [|exact Hs|exact F].
    intros j x. unfold proportion_done.
    assert (H1 : exists p, match Sec with None => Ok 0 | Some q => if Reqb q 0 then Err ZeroDivisionError else Ok (x / q) end = Ok p).
    { destruct Sec as [q|]; [|eauto]. destruct (Reqb q 0) eqn:Eq; [apply Reqb_true in Eq; congruence|eauto]. }
    destruct H1 as [p1 ->]. cbn [rbind].
    assert (H2 : exists p, match N1 with None => Ok 0 | Some n => if (n =? 0)%Z then Err ZeroDivisionError else Ok (IZR j / IZR n) end = Ok p).
    { unfold N1. destruct N as [n|]; [|destruct Sec; cbn; eauto]. destruct (Z.eqb_spec n 0); [congruence|destruct Sec; eauto]. }
    destruct H2 as [p2 ->]. cbn [rbind]. eauto. }
  split; [exact G|]. intros n -> -> Hn.
  assert (E1 : exists w1 r1, transition lgam rand rowids cols None (Some (Z.of_nat n)) None clock kernels c fuel w = Some (w1, r1) /\
    (r1 = Ok (Z.of_nat n) \/ exists e, r1 = Err e)).
  { rewrite E0, (C38_schedule _ _ _ _ _ _ _ _ Hne Hn). destruct (perform _ _ 0 (script c ks n) w) as [w1 [u|e]]; eexists _, _;
    split; eauto. }
  destruct E1 as [w1 [r1 [E1 [->|[e ->]]]]]; [eauto|]. destruct (G _ _ E1) as [[i Hi] _]. discriminate.
Qed.
Print Assumptions C59_transition.

(* ------------------------------------------------------------------ *)
(** ** Operations *)

Lemma valid_safe n s o : sinv n s -> able s -> valid_op s o -> safe s o.
Proof.
  intros H A Hv. destruct o as [draws rowid obs clus|rowid|rowid obs|T col k v seed d hd ho|col|col a g p hd ho|k]; try exact I.
  - intros v w Ew c a i Ea Hi. rewrite (able_no_inputs n s H A v w c a Ew Ea) in Hi. destruct Hi.
  - intros _. left. destruct Hv as [_ [_ [[[M [h [set [tape [Hc [_ Ek]]]]]] _] _]]]. rewrite Ek. apply (collapsed_coll M h Hc).
  - intros v w c a Ew Ea _ Hi. rewrite (able_no_inputs n s H A v w c a Ew Ea) in Hi. destruct Hi.
  - eapply kernel_safe; eassumption.
Qed.

(** Every operation on rows, cells, columns and kernels returns when its arguments are
    valid, and the state that it leaves is again one on which nothing fails. *)
Theorem C59_operation s o : sreach safe s -> able s -> valid_op s o ->
  exists s', run_op s o = (s', Ok tt) /\ sreach safe s' /\ able s'.
Proof.
  intros R A Hv. destruct (sreach_sinv s R) as [n H]. destruct (op_total n s o H A Hv) as [s' E]. exists s'.
  destruct (valid_careful s o Hv) as [Hc Hw]. pose proof (valid_safe n s o H A Hv) as Hs. split; [exact E|]. split.
  - apply (sr_step safe s o s' R Hw Hs E).
  - apply (able_op n s o s' H A Hw Hs Hc E).
Qed.
Print Assumptions C59_operation.

(** The independence constraints hold of the given column partition, whose views are in
    the order of their numbers. *)
Definition keeps_apart (zv : list (Z * Z)) (Ci : list (list Z)) (order : list Z) : Prop :=
  Ci = [] \/ (ColumnFacts.ascending order /\
    (forall p x y v, In p Ci -> In x p -> In y p -> x <> y -> In (x, v) zv -> ~ In (y, v) zv) /\
    (forall p c, In p Ci -> In c p -> In c (map fst zv))).

(** A state is built from any table whose cells the classes of its columns take, any
    partition of the columns and any row partitions, given or drawn. *)
Theorem C59_init X zv alpha grid Cd Ci vspecs cspecs order n :
  X <> [] -> NoDup (dkeys X) -> (forall c l, dget c X = Some l -> length l = n) ->
  NoDup (map fst zv) -> (forall c, In c (map fst zv) <-> In c (dkeys X)) ->
  NoDup order -> (forall v, In v order <-> In v (map snd zv)) -> keeps_apart zv Ci order ->
  0 < alpha -> ProgressFacts.positive grid -> (forall v, vspec_ok n (vspecs v)) ->
  (forall c, In c (dkeys X) -> column_spec_ok X c (cspecs c)) ->
  exists s, state_init X zv alpha grid Cd Ci vspecs cspecs order = Ok s /\ sreach safe s /\ able s /\
    s_X s = X /\ s_outs s = dkeys X /\ s_Cd s = Cd /\ s_Ci s = Ci /\ dkeys (s_views s) = order /\
    (forall c v, dget c (s_zv s) = Some v <-> In (c, v) zv) /\
    (forall c, In c (dkeys X) -> exists a, dim_for s c = Ok a /\ a_M a = a_M (cs_col (cspecs c))).
Proof.
  intros HX HN Hl Hz1 Hz2 HO Ho Hap Ha Hg Hv Hc.
  destruct (init_total X zv alpha grid Cd Ci vspecs cspecs order n HX HN Hl Hz1 Hz2 Hv Hc) as [s E]. exists s. split; [exact E|].
  assert (Hzr : forall v, match vp_zr (vspecs v) with Some z => length z = n | None => True end).
  { intros v. destruct (Hv v) as [_ [_ H]]. destruct (vp_zr (vspecs v)); [exact H|exact I]. }
  assert (Hf : forall c, In c (dkeys X) -> fresh (cs_col (cspecs c))) by (intros c H; apply blank_fresh, (Hc c H)).
  destruct (state_init_ok X zv alpha grid Cd Ci vspecs cspecs order n s HN HX Hl HO Ho Hzr) as [HS [EX [Eo [ECd [ECi [Eor Ez]]]]]].
  { intros c H. apply fresh_ainv, Hf, H. }
  { exact E. }
  split; [apply (sr_init safe X zv alpha grid Cd Ci vspecs cspecs order n s HN HX Hl HO Ho Hzr Hf E)|]. split.
  - apply (able_init X zv alpha grid Cd Ci vspecs cspecs order s Ha Hg); [| |exact E|].
    + intros v. destruct (Hv v) as [H1 [H2 _]]. auto.
    + intros c H. apply (Hc c H).
    + destruct Hap as [D|[D1 [D2 D3]]]; [left; congruence|right]. rewrite Eor. split; [exact D1|]. split.
      * intros p x y v Hp Hx Hy Hne E1 E2. rewrite ECi in Hp. apply Ez in E1. apply Ez in E2. exact (D2 p x y v Hp Hx Hy Hne E1 E2).
      * intros p c Hp Hi. rewrite ECi in Hp. rewrite Eo. apply Hz2. exact (D3 p c Hp Hi).
  - do 6 (split; [assumption|]). intros c Hi. rewrite <- Eo in Hi.
    destruct (dim_for_ex n s c HS Hi) as [v [w [a [_ [Ew [Ea Ed]]]]]]. exists a. split; [exact Ed|].
    apply (init_class X zv alpha grid Cd Ci vspecs cspecs order n s Hl Hv (fun c' H' => proj1 (Hc c' H')) E v w c a Ew Ea).
Qed.
Print Assumptions C59_init.

(** A run of operations. *)
Fixpoint run_ops (s : state) (os : list sop) : state * res unit :=
  match os with
  | [] => (s, Ok tt)
  | o :: os' => let '(s1, r) := run_op s o in match r with Err e => (s1, Err e) | Ok _ => run_ops s1 os' end
  end.
(** The arguments of every operation are valid in the state in which it is called. *)
Fixpoint valid_ops (s : state) (os : list sop) : Prop :=
  match os with
  | [] => True
  | o :: os' => valid_op s o /\ valid_ops (fst (run_op s o)) os'
  end.

Theorem C59_history os : forall s, sreach safe s -> able s -> valid_ops s os ->
  exists s', run_ops s os = (s', Ok tt) /\ sreach safe s' /\ able s'.
Proof.
  induction os as [|o os IH]; intros s R A; cbn [run_ops valid_ops]; [intros _; exists s; auto|].
  intros [Ho Hos]. destruct (C59_operation s o R A Ho) as [s1 [E [R1 A1]]]. rewrite E in *. cbn [fst] in Hos. exact (IH s1 R1 A1 Hos).
Qed.
Print Assumptions C59_history.

(* ------------------------------------------------------------------ *)
(** ** Cells and grids *)

(** The values that the columns of each class hold. *)
Inductive holds : model -> (R -> Prop) -> Prop :=
| h_bernoulli lgam : holds (M_bernoulli lgam) (fun x => x = 0 \/ x = 1)
| h_categorical lgam k : holds (M_categorical lgam k) (fun x => exists i, (i < k)%nat /\ x = INR i)
| h_geometric lgam : holds (M_geometric lgam) (fun x => exists i, x = INR i)
| h_exponential lgam : holds (M_exponential lgam) (fun x => 0 <= x)
| h_poisson lgam : holds (M_poisson lgam) (fun x => exists i, x = INR i)
| h_normal lgam : holds (M_normal lgam) (fun _ => True)
| h_lognormal lgam : holds (M_lognormal lgam) (fun x => 0 < x).

Lemma sup_check P n hset x : inhabited (pH P) -> inhabited (pQ P) ->
  m_sup (of_prim P n hset) x <-> exists v, p_check P x = Ok v.
Proof.
  intros [h] [q]. unfold m_sup. cbn. unfold prim_incorporate. cbn. split.
  - intros [h' [q' [s' E]]]. destruct (p_check P x); [eauto|discriminate].
  - intros [v E]. exists h, q. rewrite E. eauto.
Qed.

(** A column of a class accepts a missing value and the values of the class. *)
Theorem C59_cells M S d c : holds M S ->
  (accepted (ADim M d) c <-> match c with None => True | Some x => S x end).
Proof.
  intros H. destruct c as [x|]; [|simpl; tauto]. change (m_sup M x <-> S x). clear d.
  assert (Z : forall P n hset (W : Prop), inhabited (pH P) -> inhabited (pQ P) ->
    (W -> exists v, p_check P x = Ok v) -> (~ W -> exists e, p_check P x = Err e) -> (m_sup (of_prim P n hset) x <-> W)).
  { intros P n hset W ih iq Hs Hn. rewrite (sup_check P n hset x ih iq). split; [|exact Hs].
    intros [v E]. apply NNPP. intros N. destruct (Hn N) as [e E']. congruence. }
  destruct H; unfold M_bernoulli, M_categorical, M_geometric, M_exponential, M_poisson, M_normal, M_lognormal; apply Z; try (repeat constructor; exact 0); try exact (inhabits (Nhyp 0 0 0 0)).
  - intros H. eexists. apply (bern_sup lgam x H).
  - intros H. eexists. apply (bern_nsup lgam x H).
  - intros H. eexists. apply (cat_sup lgam k x H).
  - intros H. eexists. apply (cat_nsup lgam k x H).
  - intros H. eexists. apply (geom_sup lgam x H).
  - intros H. eexists. apply (geom_nsup lgam x H).
  - intros H. eexists. apply (expo_sup lgam x H).
  - intros H. eexists. apply (expo_nsup lgam x H).
  - intros H. eexists. apply (pois_sup lgam x H).
  - intros H. eexists. apply (pois_nsup lgam x H).
  - intros H. eexists. reflexivity.
  - intros H. destruct (H I).
  - intros H. eexists. apply (lognormal_sup lgam x H).
  - intros H. eexists. apply (lognormal_nsup lgam x H).
Qed.
Print Assumptions C59_cells.

Lemma collapsed_sets M h : collapsed M h -> forall s, exists s', m_set_hypers M s h = (s', Ok tt).
Proof.
  intros H s. destruct H; cbn; unfold prim_set_hypers; cbn; unfold nhyp_ok.
  all: try (rewrite (proj2 (Rltb_true _ _) H), (proj2 (Rltb_true _ _) H0); eexists; reflexivity).
  all: try (rewrite (proj2 (Rltb_true _ _) H0), (proj2 (Rltb_true _ _) H1); eexists; reflexivity).
  all: try (rewrite (proj2 (Rltb_true _ _) H0); eexists; reflexivity).
  all: try (rewrite (proj2 (Rltb_true _ _) H), (proj2 (Rltb_true _ _) H0), (proj2 (Rltb_true _ _) H1); eexists; reflexivity).
  rewrite (proj2 (Rltb_true _ _) H), (proj2 (Rltb_true _ _) (proj1 H0)), (proj2 (Rleb_true _ _) (proj2 H0)), (proj2 (Rleb_true 0 (v_b h))) by lra. eexists; reflexivity.
Qed.
Ltac split_hok E :=
  repeat match type of E with
  | context [Rltb ?a ?b] => let F := fresh "F" in destruct (Rltb a b) eqn:F; cbn in E; try discriminate E; apply Rltb_true in F
  end.
Lemma sets_collapsed M h h' s s' : collapsed M h -> (forall lbes, M <> M_vonmises lbes) ->
  m_set_hypers M s h' = (s', Ok tt) -> collapsed M h'.
Proof.
  intros H. destruct H; intros N E; try (destruct (N _ eq_refl)); cbn in E; unfold prim_set_hypers in E; cbn in E; unfold nhyp_ok in E;
    split_hok E; constructor; assumption.
Qed.
Lemma sets_learns M G V h s s' : learns M G V -> (forall lbes, M <> M_vonmises lbes) ->
  m_set_hypers M s h = (s', Ok tt) -> V h.
Proof.
  intros H. destruct H; intros N E; try (destruct (N _ eq_refl)); cbn in E; unfold prim_set_hypers in E; cbn in E; unfold nhyp_ok in E;
    split_hok E; auto.
Qed.

Lemma not_vm M G X : grids_of M G -> (forall lbes, M <> M_vonmises lbes) -> estimated G X.
Proof.
  intros H N i0 i1 E. exfalso. apply (f_equal (fun f => f [] 1%nat)) in E.
  change (vm_grids i0 i1 [] 1) with (@Err (list (list ext)) ZeroDivisionError) in E.
  destruct H; try (destruct (N _ eq_refl)); try discriminate E.
  all: unfold bern_grids, cat_grids, geom_grids, expo_grids, pois_grids, both, log_linspace, plog in E.
  all: repeat match type of E with context [Rltb ?a ?b] => destruct (Rltb a b); cbn [rbind] in E; try discriminate E end.
Qed.

(** The grids that a class builds from a column with an observed value are grids with
    which inference works. *)
Theorem C59_grids M G X n : grids_of M G -> (forall lbes, M <> M_vonmises lbes) -> X <> [] ->
  (forall x, In x X -> takes M x) -> (0 < n)%nat ->
  exists gs, G X n = Ok (map (map Fin) gs) /\ good_grids M gs.
Proof.
  intros HG N HX HT Hn. destruct (grids_learn M G HG) as [V HV].
  destruct (grids_fine M G V X n HV HX HT Hn (not_vm M G X HG N)) as [gs [E [L [Hne [Hset _]]]]].
  exists gs. split; [exact E|]. split; [exact L|]. intros i g Hg. split; [apply Hne; eapply nth_error_In; exact Hg|].
  intros h x Hc Hx. assert (Hs : exists s : mS M, True).
  { destruct X as [|x0 X0]; [congruence|]. destruct (HT x0 (or_introl eq_refl)) as [s _]. exists s. exact I. }
  destruct Hs as [s _]. destruct (collapsed_sets M h Hc s) as [s1 E1].
  pose proof (Hset i g h x Hg Hx (sets_learns M G V h s s1 HV N E1)) as HV'.
  destruct (fine_set M G V _ s HV HV') as [s2 E2]. exact (sets_collapsed M h _ s s2 Hc N E2).
Qed.
Print Assumptions C59_grids.

(** The column kernel refuses every state with dependence constraints (state.py:1056-1059):
    that hypothesis cannot be dropped. *)
Theorem C59_dependent s d m c cols : sreach safe s -> able s -> s_Cd s <> [] ->
  run_kernel s (KColumns d m (c :: cols)) = (s, Err ValueError).
Proof.
  intros R A HC. destruct (sreach_sinv s R) as [n H]. cbn [run_kernel transition_dims]. unfold transition_dim.
  destruct (all_dims_total n s H A) as [ds [Ed Hd]].
  rewrite Ed, Hd. destruct (s_Cd s); [congruence|reflexivity].
Qed.
Print Assumptions C59_dependent.

(* ------------------------------------------------------------------ *)
(** ** Examples *)

Definition ex_M := M_bernoulli lgam_w.
Definition ex_spec : cspec := CSpec (ADim ex_M (dim_new ex_M (1, 1) true [] (fun _ => tt))) [[1; 2]; [3]] (fun _ => 0%nat).
Definition ex_seed : vseed := VSeed 1 [1; 2] (fun _ => first_pos).
Definition ex_X : dict (list cell) := [(5%Z, [Some 0; Some 1]); (7%Z, [None; Some 1])].

Example C59_spec_ex : column_spec_ok ex_X 5 ex_spec /\ column_spec_ok ex_X 7 ex_spec.
Proof.
  assert (B : blank (cs_col ex_spec)).
  { exists ex_M, (1, 1), true, (fun _ => tt). split; [apply col_bernoulli; [apply lgam_w_rec|cbn; lra|cbn; lra]|]. split; [|reflexivity].
    intros lbes E. assert (K : m_nhyp ex_M = m_nhyp (M_vonmises lbes)) by (rewrite E; reflexivity). discriminate K. }
  assert (G : good_grids ex_M (cs_grids ex_spec)).
  { split; [reflexivity|]. intros i g Hg.
    assert (Hx : forall x, In x g -> 0 < x).
    { destruct i as [|[|i]]; cbn in Hg; [injection Hg as <-|injection Hg as <-|destruct i; discriminate]; intros x Hi; cbn in Hi;
        repeat destruct Hi as [<-|Hi]; try lra; contradiction. }
    split; [destruct i as [|[|i]]; cbn in Hg; [injection Hg as <-|injection Hg as <-|destruct i; discriminate]; discriminate|].
    intros h x Hc Hi. destruct (collapsed_sets ex_M h Hc (m_new ex_M h tt)) as [s1 E1].
    pose proof (sets_learns ex_M bern_grids _ h (m_new ex_M h tt) s1 (l_bernoulli lgam_w)) as HV. cbv beta in HV.
    assert (V : 0 < fst h /\ 0 < snd h).
    { apply HV; [|exact E1]. intros lbes E. assert (K : m_nhyp ex_M = m_nhyp (M_vonmises lbes)) by (rewrite E; reflexivity). discriminate K. }
    specialize (Hx x Hi). apply col_bernoulli; [apply lgam_w_rec| |]; destruct i as [|[|i]]; cbn; try lra; apply V. }
  assert (P : picks_in (cs_grids ex_spec) (cs_picks ex_spec)).
  { intros i g Hg. destruct i as [|[|i]]; cbn in Hg; [injection Hg as <-; cbn; lia|injection Hg as <-; cbn; lia|destruct i; discriminate]. }
  assert (C : forall x : cell, x = None \/ x = Some 0 \/ x = Some 1 -> accepted (cs_col ex_spec) x).
  { intros x Hx. unfold ex_spec. cbn [cs_col]. apply (C59_cells ex_M _ _ x (h_bernoulli lgam_w)).
    destruct Hx as [E|[E|E]]; subst x; auto. }
  split; (split; [split; assumption|]; split; [exact P|]); intros l x E Hi; apply C; cbn in E; injection E as <-; cbn in Hi; intuition.
Qed.

Example C59_init_ex : exists s, state_init ex_X [(5, 0); (7, 1)]%Z 1 [1; 2] [] [[5; 7]]%Z
    (fun _ => VSpec ex_seed None) (fun _ => ex_spec) [0; 1]%Z = Ok s /\ sreach safe s /\ able s /\
  s_X s = ex_X /\ s_outs s = [5; 7]%Z /\ s_Cd s = [] /\ dkeys (s_views s) = [0; 1]%Z /\
  forall c, In c [5; 7]%Z -> exists a, dim_for s c = Ok a /\ a_M a = ex_M.
Proof.
  destruct (C59_init ex_X [(5, 0); (7, 1)]%Z 1 [1; 2] [] [[5; 7]]%Z (fun _ => VSpec ex_seed None) (fun _ => ex_spec) [0; 1]%Z 2)
    as [s [E [R [A [EX [Eo [Ec [_ [Ev [_ Hm]]]]]]]]]].
  - discriminate.
  - repeat constructor; cbn; intuition discriminate.
  - intros c l. unfold ex_X. cbn. repeat match goal with |- context [(c =? ?k)%Z] => destruct (c =? k)%Z end; intros H; try injection H as <-; try discriminate; reflexivity.
  - repeat constructor; cbn; intuition discriminate.
  - intros c. reflexivity.
  - repeat constructor; cbn; intuition discriminate.
  - intros v. reflexivity.
  - right. split; [repeat constructor; cbn; lia|]. split.
    + intros p x y v [<-|[]] Hx Hy Hne H1 H2. cbn in H1, H2. 
      destruct H1 as [H1|[H1|[]]]; destruct H2 as [H2|[H2|[]]]; congruence.
    + intros p c [<-|[]] Hc. exact Hc.
  - lra.
  - split; [discriminate|]. intros x [<-|[<-|[]]]; lra.
  - intros v. split; [cbn; lra|]. split; [split; [discriminate|intros x [<-|[<-|[]]]; lra]|]. intros i. apply C16_draw_ex.
  - intros c [<-|[<-|[]]]; apply C59_spec_ex.
  - exists s. do 6 (split; [assumption|]). split; [exact Ev|]. intros c Hc. exact (Hm c Hc).
Qed.

(** The constrained state goes through the row kernel and the column kernel and takes a new row. *)
Example C59_history_ex : exists s s', sreach safe s /\ able s /\
  run_ops s [OKernel (KRows (fun _ _ => first_pos) [0; 1]%Z (fun _ => [1; 0]%Z));
             OKernel (KColumns (fun _ => CDraws first_pos (fun _ => ex_seed)) 1 [7; 5]%Z);
             OIncorporate (fun _ _ => first_pos) 2 [(7%Z, Some 0)] []] = (s', Ok tt) /\ able s'.
Proof.
  destruct C59_init_ex as [s [_ [R [A [EX [Eo [Ec [Ev Hm]]]]]]]]. exists s.
  set (k1 := KRows _ _ _). set (k2 := KColumns _ _ _).
  assert (N : n_rows s = Ok 2%Z) by (unfold n_rows; rewrite Eo, EX; reflexivity).
  destruct (C59_kernel s k1 R A) as [s1 [E1 [R1 [A1 [D1 K1]]]]].
  { split; [intros i j; apply C16_draw_ex|]. split; [rewrite Ev; auto|]. intros v r _ Hr. exists 2%Z. split; [exact N|]. cbn in Hr. lia. }
  pose proof D1 as [Do1 [Dx1 [Dc1 _]]].
  destruct (C59_kernel s1 k2 R1 A1) as [s2 [E2 [R2 [A2 [D2 K2]]]]].
  { split; [intros i; split; [apply C16_draw_ex|]|].
    - intros j. split; [cbn; lra|]. split; [split; [discriminate|intros x [<-|[<-|[]]]; lra]|]. intros i'. apply C16_draw_ex.
    - split; [lia|]. split; [congruence|]. intros c Hc. rewrite Do1, Eo. cbn in Hc |- *. tauto. }
  destruct (C59_history [OKernel k1; OKernel k2; OIncorporate (fun _ _ => first_pos) 2 [(7%Z, Some 0)] []] s R A) as [s' [E' [_ A']]].
  { cbn [valid_ops run_op]. split.
    - split; [intros i j; apply C16_draw_ex|]. split; [rewrite Ev; auto|]. intros v r _ Hr. exists 2%Z. split; [exact N|]. cbn in Hr. lia.
    - rewrite E1. cbn [fst]. split.
      + split; [intros i; split; [apply C16_draw_ex|]|].
        * intros j. split; [cbn; lra|]. split; [split; [discriminate|intros x [<-|[<-|[]]]; lra]|]. intros i'. apply C16_draw_ex.
        * split; [lia|]. split; [congruence|]. intros c Hc. rewrite Do1, Eo. cbn in Hc |- *. tauto.
      + rewrite E2. cbn [fst]. split; [|exact I]. split; [intros i j; apply C16_draw_ex|]. split.
        * rewrite (same_data_rows _ _ D2), (same_data_rows _ _ D1). exact N.
        * split; [intros x [<-|[]]; discriminate|]. intros c x Hc. cbn in Hc. destruct (c =? 7)%Z eqn:E7; [|discriminate].
          injection Hc as <-. apply Z.eqb_eq in E7. subst c. destruct (Hm 7%Z) as [a [Ea Ma]]; [right; left; reflexivity|].
          destruct (K1 7%Z a Ea) as [a1 [Ea1 Ma1]]. destruct (K2 7%Z a1 Ea1) as [a2 [Ea2 Ma2]]. exists a2. split; [exact Ea2|].
          destruct a2 as [M2 d2]. cbn [a_M] in Ma2. assert (EM : M2 = ex_M) by congruence. clear - EM. subst M2.
          apply (C59_cells ex_M _ d2 (Some 0) (h_bernoulli lgam_w)). left. reflexivity. }
  exists s'. auto.
Qed.

Definition ex_choices : choices :=
  Choices first_pos (fun _ _ => first_pos) (fun _ => [1; 0]%nat) (fun _ l => rev l) (fun l => rev l) (fun _ => CDraws first_pos (fun _ => ex_seed)).

(** Ten passes of all the kernels over the constrained state. *)
Example C59_transition_ex : exists s w', s_Ci s = [[5; 7]]%Z /\
  transition lgam_w (fun _ => ex_choices) None None None (Some 10%Z) None (fun _ => 0) None None 11 (TState s [] []) = Some (w', Ok 10%Z) /\
  able (t_state w').
Proof.
  destruct (C59_init ex_X [(5, 0); (7, 1)]%Z 1 [1; 2] [] [[5; 7]]%Z (fun _ => VSpec ex_seed None) (fun _ => ex_spec) [0; 1]%Z 2)
    as [s [E [R [A [EX [Eo [Ec [Ei [Ev [_ Hm]]]]]]]]]].
  - discriminate.
  - repeat constructor; cbn; intuition discriminate.
  - intros c l. unfold ex_X. cbn. repeat match goal with |- context [(c =? ?k)%Z] => destruct (c =? k)%Z end; intros H; try injection H as <-; try discriminate; reflexivity.
  - repeat constructor; cbn; intuition discriminate.
  - intros c. reflexivity.
  - repeat constructor; cbn; intuition discriminate.
  - intros v. reflexivity.
  - right. split; [repeat constructor; cbn; lia|]. split.
    + intros p x y v [<-|[]] Hx Hy Hne H1 H2. cbn in H1, H2. 
      destruct H1 as [H1|[H1|[]]]; destruct H2 as [H2|[H2|[]]]; congruence.
    + intros p c [<-|[]] Hc. exact Hc.
  - lra.
  - split; [discriminate|]. intros x [<-|[<-|[]]]; lra.
  - intros v. split; [cbn; lra|]. split; [split; [discriminate|intros x [<-|[<-|[]]]; lra]|]. intros i. apply C16_draw_ex.
  - intros c [<-|[<-|[]]]; apply C59_spec_ex.
  - assert (L : forall t : nat, lawful None s ex_choices).
    { intros t. constructor.
      - apply C16_draw_ex.
      - intros i j. apply C16_draw_ex.
      - intros i c a Hp Ea j Hj. apply at_pos_in in Hp. cbn [chosen_cols] in Hp. rewrite Eo in Hp.
        destruct (Hm c Hp) as [a' [Ea' Ma]]. rewrite Ea in Ea'. injection Ea' as <-. rewrite Ma. cbn in Hj |- *. lia.
      - intros v l r. apply in_rev.
      - intros l c. apply in_rev.
      - intros i. split; [apply C16_draw_ex|]. intros j. split; [cbn; lra|].
        split; [split; [discriminate|intros x [<-|[<-|[]]]; lra]|]. intros i'. apply C16_draw_ex. }
    destruct (C59_transition lgam_w (fun _ => ex_choices) None None (Some 10%Z) None (fun _ => 0) None None 11 (TState s [] [])) as [H1 H2];
      [exact R|exact A|exact L|exact I|exact I|discriminate|auto|intros _; exact Ec|left; reflexivity|discriminate|discriminate|].
    destruct (H2 10%nat eq_refl eq_refl) as [w' Hw]; [lia|]. exists s, w'. split; [exact Ei|]. split; [exact Hw|].
    apply (H1 w' _ Hw).
Qed.

Example C59_grids_ex : exists gs, pois_grids [3; 0; 7] 30 = Ok (map (map Fin) gs) /\ good_grids (M_poisson lgam_w) gs.
Proof.
  apply (C59_grids (M_poisson lgam_w) pois_grids [3; 0; 7] 30); [constructor| |discriminate| |lia].
  - intros lbes E. assert (K : m_nhyp (M_poisson lgam_w) = m_nhyp (M_vonmises lbes)) by (rewrite E; reflexivity). discriminate K.
  - intros x Hx. exists (m_new (M_poisson lgam_w) (1, 1) tt), 0%Z.
    assert (Hs : p_check (Poisson lgam_w) x = Ok x).
    { apply pois_sup. cbn in Hx. destruct Hx as [<-|[<-|[<-|[]]]]; [exists 3%nat|exists 0%nat|exists 7%nat]; cbn; lra. }
    eexists. cbn [m_inc M_poisson of_prim]. unfold prim_incorporate. cbn [m_new p_data]. rewrite Hs. reflexivity.
Qed.

(** With a dependence constraint the column kernel is refused. *)
Example C59_dependent_ex : exists s, sreach safe s /\ able s /\ s_Cd s <> [].
Proof.
  destruct (C59_init ex_X [(5, 0); (7, 0)]%Z 1 [1; 2] [[5; 7]]%Z [] (fun _ => VSpec ex_seed None) (fun _ => ex_spec) [0]%Z 2)
    as [s [E [R [A [EX [Eo [Ec _]]]]]]].
  - discriminate.
  - repeat constructor; cbn; intuition discriminate.
  - intros c l. unfold ex_X. cbn. repeat match goal with |- context [(c =? ?k)%Z] => destruct (c =? k)%Z end; intros H; try injection H as <-; try discriminate; reflexivity.
  - repeat constructor; cbn; intuition discriminate.
  - intros c. reflexivity.
  - repeat constructor; cbn; intuition discriminate.
  - intros v. cbn. intuition.
  - left. reflexivity.
  - lra.
  - split; [discriminate|]. intros x [<-|[<-|[]]]; lra.
  - intros v. split; [cbn; lra|]. split; [split; [discriminate|intros x [<-|[<-|[]]]; lra]|]. intros i. apply C16_draw_ex.
  - intros c [<-|[<-|[]]]; apply C59_spec_ex.
  - exists s. split; [exact R|]. split; [exact A|]. rewrite Ec. discriminate.
Qed.
