(** C73: the calls that do many things at once. *)
From Verif Require Import LogSpaceFacts P02_LogSpace P06_Dim P07_View P09_State P11_StateErrors RelevanceState ProgressEdits P35_Progress Bulk.
From Verif Require P13_StateQuery P31_Rebuild.
From Coq Require Import Lia.
Local Open Scope R_scope.

(** What a row says about a column. *)
Definition says (obs : dict cell) (c : Z) : cell := match dget c obs with Some x => x | None => None end.

(** The observations before the m-th are rows n, n+1, … of the table, the cells of the
    earlier rows are those of before. *)
Definition rows_added (s s' : state) (n m : nat) (observations : list (dict cell * dict Z)) : Prop :=
  s_outs s' = s_outs s /\
  (forall c r, (0 <= r < Z.of_nat n)%Z -> tab (s_X s') c r = tab (s_X s) c r) /\
  (forall i obs clus c, (i < m)%nat -> nth_error observations i = Some (obs, clus) -> In c (s_outs s) ->
     tab (s_X s') c (Z.of_nat (n + i)) = Ok (says obs c)).

Lemma with_ok draws s r obs clus inputs s' : incorporate_with draws s r obs clus inputs = (s', Ok tt) ->
  inputs = [] /\ state_incorporate draws s r obs clus = (s', Ok tt).
Proof.
  unfold incorporate_with. intros E. destruct (n_rows s); [|discriminate]. destruct (negb _); [discriminate|].
  destruct inputs; [|discriminate]. split; [reflexivity|exact E].
Qed.

Lemma bulk_rows_ok observations : forall draws s rowids inputs s' n, sinv n s ->
  incorporate_bulk draws s rowids observations inputs = (s', Ok tt) ->
  let m := Nat.min (length rowids) (length observations) in
  sinv (n + m) s' /\ rows_added s s' n m observations /\
  (forall i, (i < m)%nat -> nth_error rowids i = Some (Z.of_nat (n + i))) /\ (m = 0%nat \/ inputs = []).
Proof.
  induction observations as [|[obs clus] observations IH]; intros draws s rowids inputs s' n H E.
  { assert (s' = s) by (destruct rowids; injection E as <-; reflexivity). subst s'. cbv zeta.
    rewrite Nat.min_0_r, Nat.add_0_r. split; [exact H|]. split; [|split; [lia|auto]]. split; [reflexivity|]. split; [reflexivity|lia]. }
  destruct rowids as [|r rowids].
  { injection E as <-. cbn [length Nat.min]. cbv zeta. rewrite Nat.add_0_r. split; [exact H|]. split; [|split; [lia|auto]].
    split; [reflexivity|]. split; [reflexivity|lia]. }
  cbn [incorporate_bulk] in E. destruct (incorporate_with _ s r obs clus inputs) as [s1 [[]|e]] eqn:E1; [|discriminate].
  apply with_ok in E1. destruct E1 as [Ei E1].
  destruct (state_inc_ok _ _ _ _ _ _ _ H E1) as [Er [H1 [Fo [_ [_ [_ [_ [T1 [T2 _]]]]]]]]].
  destruct (IH _ _ _ _ _ _ H1 E) as [H2 [[Fo2 [T3 T4]] [Hr _]]]. cbv zeta. cbn [length Nat.min].
  set (m := Nat.min (length rowids) (length observations)) in *.
  split; [replace (n + S m)%nat with (S n + m)%nat by lia; exact H2|]. split; [|split; [|right; exact Ei]].
  - split; [congruence|]. split.
    + intros c r' Hr'. rewrite T3 by lia. apply T1. exact Hr'.
    + intros [|i] obs' clus' c Hi Hn Hc; cbn [nth_error] in Hn.
      * injection Hn as <- <-. rewrite Nat.add_0_r. rewrite T3 by lia. rewrite <- Er. apply T2. exact Hc.
      * replace (n + S i)%nat with (S n + i)%nat by lia. apply (T4 i obs' clus' c); [lia|exact Hn|congruence].
  - intros [|i] Hi; cbn [nth_error]; [rewrite Nat.add_0_r; congruence|].
    replace (n + S i)%nat with (S n + i)%nat by lia. apply Hr. lia.
Qed.

(** A bulk call that returns has added one row per pair of a row id and an observation,
    in their order; the row ids were the next ones; there were no inputs. *)
Theorem C73_rows : forall draws s rowids observations inputs s', sreach safe s ->
  incorporate_bulk draws s rowids observations inputs = (s', Ok tt) ->
  exists n, let m := Nat.min (length rowids) (length observations) in
  consistent n s /\ consistent (n + m) s' /\ rows_added s s' n m observations /\
  (forall i, (i < m)%nat -> nth_error rowids i = Some (Z.of_nat (n + i))) /\ (m = 0%nat \/ inputs = []).
Proof.
  intros draws s rowids observations inputs s' R E. destruct (sreach_sinv s R) as [n H]. exists n.
  destruct (bulk_rows_ok _ _ _ _ _ _ _ H E) as [H1 H2]. cbv zeta. split; [apply sinv_consistent; exact H|].
  split; [apply sinv_consistent; exact H1|exact H2].
Qed.
Print Assumptions C73_rows.

(** A call of incorporate that fails keeps the cells of the earlier rows. *)
Lemma inc_keeps n draws s r obs clus s' e : sinv n s -> state_incorporate draws s r obs clus = (s', Err e) ->
  s_outs s' = s_outs s /\ forall c r', (0 <= r' < Z.of_nat n)%Z -> tab (s_X s') c r' = tab (s_X s) c r'.
Proof.
  intros H. unfold state_incorporate. rewrite (sinv_n_rows _ _ H).
  destruct (negb _); [intros E; injection E as <- _; auto|].
  destruct (negb _); [intros E; injection E as <- _; auto|].
  destruct (existsb _ _); [intros E; injection E as <- _; auto|].
  destruct (append_row (s_outs s) obs (s_X s)) as [X rr] eqn:Ea.
  destruct (append_row_spec _ _ _ _ _ (si_nodup _ _ H) Ea) as [-> [KX SX]].
  { intros c Hc. apply (si_X _ _ H). exact Hc. }
  destruct (tab_append n _ obs _ X (si_X _ _ H) (si_len _ _ H) SX) as [T1 T2].
  destruct (n_rows (set_X s X)) as [n1|]; [|intros E; injection E as <- _; split; [reflexivity|exact T1]].
  destruct (views_loop _ _ _) as [ws r2]. intros E. injection E as <- _. split; [reflexivity|exact T1].
Qed.

(** A bulk call that fails has failed at one of the pairs: the observations before it are
    rows of the table and stay there, the others are not looked at.  If the row is
    refused for its row id, a column that does not exist, a missing value or inputs, the
    state is the one after the earlier rows. *)
Theorem C73_stops : forall draws s rowids observations inputs s' e, sreach safe s ->
  incorporate_bulk draws s rowids observations inputs = (s', Err e) ->
  exists n i r obs clus s1, consistent n s /\
    nth_error rowids i = Some r /\ nth_error observations i = Some (obs, clus) /\
    incorporate_bulk draws s (firstn i rowids) (firstn i observations) inputs = (s1, Ok tt) /\
    consistent (n + i) s1 /\ rows_added s s' n i observations /\
    (inputs = [] -> state_incorporate (draws i) s1 r obs clus = (s', Err e)) /\
    (refused s1 r obs \/ inputs <> [] -> s' = s1).
Proof.
  intros draws s rowids observations inputs s' e R E. destruct (sreach_sinv s R) as [n H]. exists n. clear R.
  enough (G : exists i r obs clus s1, nth_error rowids i = Some r /\ nth_error observations i = Some (obs, clus) /\
    incorporate_bulk draws s (firstn i rowids) (firstn i observations) inputs = (s1, Ok tt) /\
    sinv (n + i) s1 /\ rows_added s s' n i observations /\
    (inputs = [] -> state_incorporate (draws i) s1 r obs clus = (s', Err e)) /\
    (refused s1 r obs \/ inputs <> [] -> s' = s1)).
  { destruct G as [i [r [obs [clus [s1 [A [B [C [D F]]]]]]]]]. exists i, r, obs, clus, s1. split; [apply sinv_consistent; exact H|].
    do 3 (split; [assumption|]). split; [apply sinv_consistent; exact D|exact F]. }
  revert draws s n rowids H E. induction observations as [|[obs clus] observations IH]; intros draws s n [|r rowids] H E;
    try discriminate.
  cbn [incorporate_bulk] in E. destruct (incorporate_with _ s r obs clus inputs) as [s1 [[]|e1]] eqn:E1.
  - apply with_ok in E1. destruct E1 as [Ei E1].
    destruct (state_inc_ok _ _ _ _ _ _ _ H E1) as [Er [H1 [Fo [_ [_ [_ [_ [T1 [T2 _]]]]]]]]].
    destruct (IH _ _ _ _ H1 E) as [i [r' [obs' [clus' [s2 [A [B [C [D [[Fo2 [T3 T4]] F]]]]]]]]]].
    exists (S i), r', obs', clus', s2. cbn [nth_error firstn incorporate_bulk]. split; [exact A|]. split; [exact B|].
    split.
    { unfold incorporate_with. rewrite (sinv_n_rows _ _ H), Er, Z.eqb_refl, Ei. cbn [negb is_nil]. rewrite <- Er, E1, <- Ei. exact C. }
    split; [replace (n + S i)%nat with (S n + i)%nat by lia; exact D|]. split; [|exact F].
    split; [congruence|]. split.
    + intros c q Hq. rewrite T3 by lia. apply T1. exact Hq.
    + intros [|j] obs2 clus2 c Hj Hn Hc; cbn [nth_error] in Hn.
      * injection Hn as <- <-. rewrite Nat.add_0_r. rewrite T3 by lia. rewrite <- Er. apply T2. exact Hc.
      * replace (n + S j)%nat with (S n + j)%nat by lia. apply (T4 j obs2 clus2 c); [lia|exact Hn|congruence].
  - injection E as <- <-. exists 0%nat, r, obs, clus, s. cbn [nth_error firstn incorporate_bulk]. split; [reflexivity|]. split; [reflexivity|].
    split; [reflexivity|]. rewrite Nat.add_0_r. split; [exact H|].
    assert (K : s1 = s \/ state_incorporate (draws 0%nat) s r obs clus = (s1, Err e1)).
    { revert E1. unfold incorporate_with. destruct (n_rows s); [|intros E; injection E as <- _; auto].
      destruct (negb _); [intros E; injection E as <- _; auto|]. destruct (negb _); [intros E; injection E as <- _; auto|]. auto. }
    split.
    { destruct K as [->|K]; [split; [reflexivity|split; [reflexivity|lia]]|]. destruct (inc_keeps _ _ _ _ _ _ _ _ H K) as [K1 K2].
      split; [exact K1|]. split; [exact K2|lia]. }
    split.
    + intros Ei. revert E1. unfold incorporate_with. rewrite Ei, (sinv_n_rows _ _ H). cbn [is_nil negb].
      destruct (negb (r =? Z.of_nat n)%Z) eqn:Er; [|auto]. intros E. injection E as <- <-.
      unfold state_incorporate. rewrite (sinv_n_rows _ _ H), Er. reflexivity.
    + intros [Hr|Hi].
      * destruct K as [->|K]; [reflexivity|]. destruct (refused_unchanged (draws 0%nat) s r obs clus Hr) as [e2 E2]. congruence.
      * revert E1. unfold incorporate_with. rewrite (sinv_n_rows _ _ H). destruct (negb _); [intros E; injection E as <- _; reflexivity|].
        destruct inputs; [contradiction|]. cbn [is_nil negb]. intros E. injection E as <- _. reflexivity.
Qed.
Print Assumptions C73_stops.

(** A row id that is not the next one, at any place where there is an observation too, makes
    the call fail. *)
Theorem C73_order : forall draws s rowids observations inputs n i r, sreach safe s -> n_rows s = Ok (Z.of_nat n) ->
  nth_error rowids i = Some r -> (i < length observations)%nat -> r <> Z.of_nat (n + i) ->
  exists s' e, incorporate_bulk draws s rowids observations inputs = (s', Err e).
Proof.
  intros draws s rowids observations inputs n i r R Hn Hr Hi Hne.
  destruct (incorporate_bulk draws s rowids observations inputs) as [s' [[]|e]] eqn:E; [exfalso|eauto].
  destruct (sreach_sinv s R) as [n1 H]. rewrite (sinv_n_rows _ _ H) in Hn.
  assert (E0 : n1 = n) by (injection Hn as Hn; lia). rewrite E0 in H.
  destruct (bulk_rows_ok _ _ _ _ _ _ _ H E) as [_ [_ [K _]]].
  rewrite K in Hr; [congruence|]. assert (L : (i < length rowids)%nat) by (apply nth_error_Some; congruence).
  lia.
Qed.
Print Assumptions C73_order.

(* ------------------------------------------------------------------ *)
(** ** Forcing cells *)

(** The calls are [safe] in the states in which they are made. *)
Fixpoint forces_safe (s : state) (rowids : list Z) (queries : list (dict cell)) : Prop :=
  match rowids, queries with
  | r :: rowids', q :: queries' => NoDup (dkeys q) /\ state_inputs_forced s q /\
      forall s1, state_force_cell s r q = (s1, Ok tt) -> forces_safe s1 rowids' queries'
  | _, _ => True
  end.

(** A bulk call that returns has put every value into its cell, which was missing before,
    and changed no other cell.  Full claim: the same without [forces_safe]; that is false
    already of single calls, see [C51_inputs_refuted]. *)
Theorem C73_forced_partial : forall s rowids queries s', sreach safe s -> forces_safe s rowids queries ->
  force_cell_bulk s rowids queries = (s', Ok tt) ->
  exists n, consistent n s /\ consistent n s' /\ s_outs s' = s_outs s /\
  (forall i r q c x, nth_error rowids i = Some r -> nth_error queries i = Some q -> dget c q = Some (Some x) ->
     (0 <= r < Z.of_nat n)%Z /\ In c (s_outs s) /\ tab (s_X s) c r = Ok None /\ tab (s_X s') c r = Ok (Some x)) /\
  (forall c r, (0 <= r)%Z -> (forall i q, nth_error rowids i = Some r -> nth_error queries i = Some q -> ~ In c (dkeys q)) ->
     tab (s_X s') c r = tab (s_X s) c r) /\
  (forall c r x, (0 <= r)%Z -> tab (s_X s) c r = Ok (Some x) -> tab (s_X s') c r = Ok (Some x)).
Proof.
  intros s rowids queries s' R. destruct (sreach_sinv s R) as [n H]. clear R. intros Hs E. exists n.
  split; [apply sinv_consistent; exact H|].
  enough (G : sinv n s' /\ s_outs s' = s_outs s /\
  (forall i r q c x, nth_error rowids i = Some r -> nth_error queries i = Some q -> dget c q = Some (Some x) ->
     (0 <= r < Z.of_nat n)%Z /\ In c (s_outs s) /\ tab (s_X s) c r = Ok None /\ tab (s_X s') c r = Ok (Some x)) /\
  (forall c r, (0 <= r)%Z -> (forall i q, nth_error rowids i = Some r -> nth_error queries i = Some q -> ~ In c (dkeys q)) ->
     tab (s_X s') c r = tab (s_X s) c r) /\
  (forall c r x, (0 <= r)%Z -> tab (s_X s) c r = Ok (Some x) -> tab (s_X s') c r = Ok (Some x))).
  { destruct G as [G1 G2]. split; [apply sinv_consistent; exact G1|exact G2]. }
  revert s rowids H Hs E. induction queries as [|q queries IH]; intros s rowids H Hs E.
  { assert (s' = s) by (destruct rowids; injection E as <-; reflexivity). subst s'. split; [exact H|]. split; [reflexivity|].
    split; [|auto]. intros [|i]; discriminate. }
  destruct rowids as [|r rowids].
  { injection E as <-. split; [exact H|]. split; [reflexivity|]. split; [|auto]. intros [|i]; discriminate. }
  cbn [force_cell_bulk] in E. destruct Hs as [Hq [Hi Hs]].
  destruct (state_force_cell s r q) as [s1 [[]|e]] eqn:E1; [|discriminate].
  destruct (state_force_ok _ _ _ _ _ H Hq Hi E1) as [Hr [H1 [Fo [_ [_ [_ [_ [Hm [T _]]]]]]]]].
  destruct (IH s1 rowids H1 (Hs s1 eq_refl) E) as [H2 [Fo2 [A [B C]]]].
  assert (K : forall c r' x, (0 <= r')%Z -> tab (s_X s) c r' = Ok (Some x) -> tab (s_X s1) c r' = Ok (Some x)).
  { intros c r' x Hr' Ex. rewrite T by exact Hr'. destruct (dget c q) as [y|] eqn:Ec; [|exact Ex].
    destruct (Z.eqb_spec r' r) as [->|]; [|exact Ex]. destruct (Hm c) as [_ Hn]; [eapply dget_Some_in; exact Ec|]. congruence. }
  split; [exact H2|]. split; [congruence|]. split; [|split].
  - intros [|i] r' q' c x Er Eq Ex; cbn [nth_error] in Er, Eq.
    + injection Er as <-. injection Eq as <-. destruct (Hm c) as [Hc Hn]; [eapply dget_Some_in; exact Ex|].
      do 3 (split; [assumption|]). apply C; [lia|]. rewrite T by lia. rewrite Ex, Z.eqb_refl. reflexivity.
    + destruct (A i r' q' c x Er Eq Ex) as [A1 [A2 [A3 A4]]]. split; [exact A1|]. split; [congruence|]. split; [|exact A4].
      rewrite T in A3 by lia. destruct (dget c q) as [y|] eqn:Ec; [|exact A3]. destruct (Z.eqb_spec r' r) as [->|]; [|exact A3].
      apply (Hm c). eapply dget_Some_in; exact Ec.
  - intros c r' Hr' Hno. rewrite B; [|exact Hr'|intros i q' Er Eq; exact (Hno (S i) q' Er Eq)].
    rewrite T by exact Hr'. destruct (dget c q) as [y|] eqn:Ec; [|reflexivity]. destruct (Z.eqb_spec r' r) as [->|]; [|reflexivity].
    exfalso. apply (Hno 0%nat q eq_refl eq_refl). eapply dget_Some_in; exact Ec.
  - intros c r' x Hr' Ex. apply C; [exact Hr'|]. apply K; assumption.
Qed.
Print Assumptions C73_forced_partial.

(** A call of force_cell that fails keeps the cells that are observed. *)
Lemma force_keeps n s r obs s' e : sinv n s -> NoDup (dkeys obs) -> state_force_cell s r obs = (s', Err e) ->
  s_outs s' = s_outs s /\ forall c r' x, (0 <= r')%Z -> tab (s_X s) c r' = Ok (Some x) -> tab (s_X s') c r' = Ok (Some x).
Proof.
  intros H Hno. unfold state_force_cell. rewrite (sinv_n_rows _ _ H).
  unfold hypothetical. destruct (0 <=? r)%Z eqn:Er0; [|intros E; injection E as <- _; auto]. apply Z.leb_le in Er0.
  destruct (r <? Z.of_nat n)%Z eqn:Er1; [|intros E; injection E as <- _; auto]. apply Z.ltb_lt in Er1. cbn [andb negb].
  destruct (all_nan _ _ _) as [[]|] eqn:En; [|intros E; injection E as <- _; auto|intros E; injection E as <- _; auto].
  destruct (set_cells_spec r obs (s_X s) Hno) as [KX SX].
  assert (G : forall c r' x, (0 <= r')%Z -> tab (s_X s) c r' = Ok (Some x) -> tab (set_cells r obs (s_X s)) c r' = Ok (Some x)).
  { intros c r' x Hr' Ex. unfold tab in *. rewrite SX. destruct (dget c obs) as [y|] eqn:Ec; [|exact Ex].
    destruct (dget c (s_X s)) as [l|] eqn:El; [|exact Ex].
    rewrite py_set_nth by (try exact Hr'; pose proof (si_len _ _ H c l El); lia).
    destruct (Z.eqb_spec r' r) as [->|]; [|exact Ex]. exfalso.
    assert (Hn : tab (s_X s) c r = Ok None) by (apply (proj1 (all_nan_spec _ _ _) En); eapply dget_Some_in; exact Ec).
    unfold tab in Hn. rewrite El in Hn. congruence. }
  destruct (partition_list _ _) as [q|]; [|intros E; injection E as <- _; split; [reflexivity|exact G]].
  destruct (views_loop _ _ _) as [ws r2]. intros E. injection E as <- _. split; [reflexivity|exact G].
Qed.

(** A bulk call that fails has failed at one of the pairs; what was forced by the earlier
    ones stays forced, as does everything that was observed before. *)
Theorem C73_force_stops : forall s rowids queries s' e, sreach safe s -> forces_safe s rowids queries ->
  force_cell_bulk s rowids queries = (s', Err e) ->
  exists i r q s1, nth_error rowids i = Some r /\ nth_error queries i = Some q /\
    force_cell_bulk s (firstn i rowids) (firstn i queries) = (s1, Ok tt) /\ state_force_cell s1 r q = (s', Err e) /\
    (forall j r' q' c x, (j < i)%nat -> nth_error rowids j = Some r' -> nth_error queries j = Some q' ->
       dget c q' = Some (Some x) -> tab (s_X s') c r' = Ok (Some x)) /\
    (forall c r' x, (0 <= r')%Z -> tab (s_X s) c r' = Ok (Some x) -> tab (s_X s') c r' = Ok (Some x)).
Proof.
  intros s rowids queries s' e R. destruct (sreach_sinv s R) as [n H]. clear R. revert s rowids H.
  induction queries as [|q queries IH]; intros s [|r rowids] H Hs E; try discriminate.
  cbn [force_cell_bulk] in E. destruct Hs as [Hq [Hi Hs]].
  destruct (state_force_cell s r q) as [s1 [[]|e1]] eqn:E1.
  - destruct (state_force_ok _ _ _ _ _ H Hq Hi E1) as [Hr [H1 [Fo [_ [_ [_ [_ [Hm [T _]]]]]]]]].
    destruct (IH s1 rowids H1 (Hs s1 eq_refl) E) as [i [r2 [q2 [s2 [A [B [C [D [F G]]]]]]]]].
    exists (S i), r2, q2, s2. cbn [nth_error firstn force_cell_bulk]. rewrite E1. do 4 (split; [assumption|]). split.
    + intros [|j] r' q' c x Hj Hr' Hq' Hx; cbn [nth_error] in Hr', Hq'.
      * injection Hr' as <-. injection Hq' as <-. apply G; [lia|]. rewrite T by lia. rewrite Hx, Z.eqb_refl. reflexivity.
      * apply (F j r' q' c x); [lia|assumption..].
    + intros c r' x Hr' Ex. apply G; [exact Hr'|]. rewrite T by exact Hr'. destruct (dget c q) as [y|] eqn:Ec; [|exact Ex].
      destruct (Z.eqb_spec r' r) as [->|]; [|exact Ex]. destruct (Hm c) as [_ Hn]; [eapply dget_Some_in; exact Ec|]. congruence.
  - injection E as <- <-. exists 0%nat, r, q, s. cbn [nth_error firstn force_cell_bulk]. do 4 (split; [auto|]).
    split; [lia|]. apply (force_keeps _ _ _ _ _ _ H Hq E1).
Qed.
Print Assumptions C73_force_stops.

(** A cell is not given two values by one call. *)
Theorem C73_twice : forall s rowids queries i j r q q' c x, sreach safe s -> forces_safe s rowids queries -> (i < j)%nat ->
  nth_error rowids i = Some r -> nth_error queries i = Some q -> dget c q = Some (Some x) ->
  nth_error rowids j = Some r -> nth_error queries j = Some q' -> In c (dkeys q') ->
  exists s' e, force_cell_bulk s rowids queries = (s', Err e).
Proof.
  intros s rowids queries i j r q q' c x R Hs Hij Er Eq Ex Er' Eq' Hc. destruct (sreach_sinv s R) as [n H]. clear R.
  destruct (force_cell_bulk s rowids queries) as [s' [[]|e]] eqn:E; [exfalso|eauto].
  assert (G : forall queries s rowids j, sinv n s -> forces_safe s rowids queries -> (0 <= r)%Z -> tab (s_X s) c r = Ok (Some x) ->
    nth_error rowids j = Some r -> nth_error queries j = Some q' -> force_cell_bulk s rowids queries <> (s', Ok tt)).
  { clear - Hc. induction queries as [|q0 queries IH]; intros s [|r0 rowids] [|j] H Hs Hr Ex Er Eq; try discriminate;
      cbn [nth_error] in Er, Eq; cbn [force_cell_bulk].
    - injection Er as ->. injection Eq as ->. destruct (C51_observed_rejected s r q' c x Hc Ex) as [e ->]. discriminate.
    - destruct Hs as [Hq [Hi Hs]]. destruct (state_force_cell s r0 q0) as [s1 [[]|e]] eqn:E1; [|discriminate].
      destruct (state_force_ok _ _ _ _ _ H Hq Hi E1) as [Hr0 [H1 [Fo [_ [_ [_ [_ [Hm [T _]]]]]]]]].
      apply (IH s1 rowids j H1 (Hs s1 eq_refl) Hr); [|exact Er|exact Eq]. rewrite T by exact Hr.
      destruct (dget c q0) as [y|] eqn:Ec; [|exact Ex]. destruct (Z.eqb_spec r r0) as [->|]; [|exact Ex].
      destruct (Hm c) as [_ Hn]; [eapply dget_Some_in; exact Ec|]. congruence. }
  revert s rowids i j Hij H Hs Er Eq Er' Eq' E. induction queries as [|q0 queries IH]; intros s [|r0 rowids] [|i] [|j] Hij H Hs Er Eq Er' Eq' E;
    try discriminate; try lia; cbn [nth_error] in *; cbn [force_cell_bulk] in E; destruct Hs as [Hq [Hi Hs]];
    destruct (state_force_cell s r0 q0) as [s1 [[]|e]] eqn:E1; try discriminate;
    destruct (state_force_ok _ _ _ _ _ H Hq Hi E1) as [Hr0 [H1 [Fo [_ [_ [_ [_ [Hm [T _]]]]]]]]].
  - injection Er as ->. injection Eq as ->. apply (G queries s1 rowids j H1 (Hs s1 eq_refl)) in E; auto; [lia|].
    rewrite T by lia. rewrite Ex, Z.eqb_refl. reflexivity.
  - assert (Hij' : (i < j)%nat) by lia. exact (IH s1 rowids i j Hij' H1 (Hs s1 eq_refl) Er Eq Er' Eq' E).
Qed.
Print Assumptions C73_twice.

(* ------------------------------------------------------------------ *)
(** ** Calls that return *)

Lemma inc_class n draws s rowid obs clus s' : sinv n s -> able s -> (forall i j, draw_ok (draws i j)) ->
  state_incorporate draws s rowid obs clus = (s', Ok tt) -> class_kept s s'.
Proof.
  intros H A Hd E. destruct (state_inc_ok _ _ _ _ _ _ _ H E) as [-> [_ [Fo [Fc [_ [Fi [Fk [T1 [T2 _]]]]]]]]].
  assert (G : forall v w, dget v (s_views s) = Some w -> exists w', dget v (s_views s') = Some w' /\ dims_kept w w').
  2:{ intros c a Ec. destruct (dim_for_spec _ _ _ _ H Ec) as [v [w [Ez [Ew [Ea _]]]]].
      destruct (G v w Ew) as [w' [Ew' K]]. destruct (K c a Ea) as [a' [Ea' Em]]. exists a'. split; [|exact Em].
      unfold dim_for, s_zv in *. rewrite Fc, Ez, Ew', Ea'. reflexivity. }
  revert E T1 T2 Fk. unfold state_incorporate. rewrite (sinv_n_rows _ _ H), Z.eqb_refl. cbn [negb].
  destruct (forallb _ _); [|discriminate]. cbn [negb]. destruct (existsb _ _); [discriminate|].
  destruct (append_row (s_outs s) obs (s_X s)) as [X r] eqn:Ea.
  destruct (append_row_spec _ _ _ _ _ (si_nodup _ _ H) Ea) as [-> [KX SX]].
  { intros c Hc. apply (si_X _ _ H). exact Hc. }
  assert (En1 : n_rows (set_X s X) = Ok (Z.of_nat (S n))).
  { unfold n_rows. simpl. pose proof (si_ne _ _ H). destruct (s_outs s) as [|c o] eqn:E; [contradiction|].
    rewrite SX. replace (zmem c (c :: o)) with true by (symmetry; apply zmem_in; left; reflexivity).
    assert (Hc : In c (dkeys (s_X s))) by (apply (si_X _ _ H); rewrite E; left; reflexivity).
    apply in_dkeys_Some in Hc. destruct Hc as [l Hl]. rewrite Hl. simpl.
    rewrite app_length, (si_len _ _ H c l Hl). simpl. do 2 f_equal. lia. }
  rewrite En1. unfold hypothetical.
  replace (0 <=? Z.of_nat n)%Z with true by (symmetry; apply Z.leb_le; lia).
  replace (Z.of_nat n <? Z.of_nat (S n))%Z with true by (symmetry; apply Z.ltb_lt; lia).
  cbn [andb negb].
  match goal with |- context [views_loop ?ff _ _] => set (f := ff) end.
  destruct (views_loop f (dkeys (s_views s)) (s_views s)) as [ws r2] eqn:El. intros E. injection E as <- ->.
  cbn [s_X set_views set_X s_grid s_views]. intros T1 T2 Fk.
  destruct (views_loop_once _ _ _ _ (si_nv _ _ H) El) as [K [_ S]].
  intros v w Hw. assert (Hin : In v (dkeys ws)) by (rewrite K; eapply dget_Some_in; exact Hw).
  apply in_dkeys_Some in Hin. destruct Hin as [w' Hw']. exists w'. split; [exact Hw'|].
  destruct (S v w' Hw') as [w0 [Hw0 [Hi _]]]. assert (w0 = w) by congruence. subst w0.
  destruct Hi as [i Ef]; [eapply dget_Some_in; exact Hw|].
  unfold f in Ef. destruct (table_row (tab X) w (Z.of_nat n)) as [q|] eqn:Eq; [|discriminate].
  destruct (si_view _ _ H v w Hw) as [V [O [D Rr]]].
  assert (Hnr : ~ In (Z.of_nat n) (dkeys (v_rows w))) by (rewrite Rr; lia).
  destruct (vinv_grow (tab (s_X s)) (tab X) w (Z.of_nat n) V Hnr) as [X1 [V1 HX1]].
  { intros c r' Hr'. apply T1. apply Rr. exact Hr'. }
  revert Ef. unfold view_incorporate. match goal with |- context [view_insert ?a ?b ?c ?d ?e] => destruct (view_insert a b c d e) as [w1 [[]|]] eqn:E1 end; [|discriminate].
  pose proof (insert_eager _ _ _ _ _ _ _ V1 (ab_view _ A v w Hw) E1) as He1.
  destruct (view_insert_ok _ _ _ _ _ _ _ V1 HX1 (table_row_spec _ _ _ _ Eq) E1) as [V2 [_ [R1 [K1 [_ [_ [_ Ak]]]]]]].
  assert (D1 : dims_kept w w1).
  { intros c a Hc. assert (Hin : In c (dkeys (v_dims w1))) by (rewrite K1; eapply dget_Some_in; exact Hc).
    apply in_dkeys_Some in Hin. destruct Hin as [a' Ha']. exists a'. split; [exact Ha'|].
    destruct (Ak c a' Ha') as [a0 [E0 [d' [-> _]]]]. assert (a0 = a) by congruence. subst a0. reflexivity. }
  destruct (dget (v_out w) clus) as [k|]; [intros E; injection E as <-; exact D1|]. intros E.
  destruct (rows_total (tab X) (draws i) w1 [Z.of_nat n] (Hd i) V2 He1) as [w2 [E2 [_ [_ [_ D2]]]]].
  - intros r' [<-|[]]. rewrite R1. apply in_dkeys_dset. left. reflexivity.
  - rewrite E in E2. injection E2 as <-. intros c a Hc. destruct (D1 c a Hc) as [a1 [Ea1 M1]]. destruct (D2 c a1 Ea1) as [a2 [Ea2 M2]].
    exists a2. split; [exact Ea2|congruence].
Qed.

Lemma takes_kept s s' c x : class_kept s s' -> column_takes s c x -> column_takes s' c x.
Proof.
  intros K [a [Ea Ha]]. destruct (K c a Ea) as [a' [Ea' M]]. exists a'. split; [exact Ea'|].
  unfold RelevanceState.accepted in *. destruct x; [|exact I]. rewrite M. exact Ha.
Qed.

(** Rows with the next row ids, whose cells are not missing and are values that their
    columns take, are all added: the call returns, in the states of C59. *)
Theorem C73_returns : forall draws s n observations, sreach safe s -> able s -> n_rows s = Ok (Z.of_nat n) ->
  (forall k i j, draw_ok (draws k i j)) ->
  (forall obs clus, In (obs, clus) observations -> (forall x, In x (dvals obs) -> x <> None) /\
     forall c x, dget c obs = Some x -> column_takes s c x) ->
  exists s', incorporate_bulk draws s (map Z.of_nat (seq n (length observations))) observations [] = (s', Ok tt) /\
    sreach safe s' /\ able s'.
Proof.
  intros draws s n observations. revert draws s n. induction observations as [|[obs clus] observations IH]; intros draws s n R A N Hd Ho.
  { exists s. split; [reflexivity|]. auto. }
  destruct (sreach_sinv s R) as [n1 H]. assert (n1 = n) by (pose proof (sinv_n_rows _ _ H) as Hn; rewrite N in Hn; injection Hn as Hn; lia). subst n1.
  destruct (Ho obs clus (or_introl eq_refl)) as [O1 O2].
  destruct (C59_operation s (OIncorporate (draws 0%nat) (Z.of_nat n) obs clus) R A) as [s1 [E1 [R1 A1]]].
  { split; [apply Hd|]. split; [exact N|]. split; [exact O1|exact O2]. }
  cbn [run_op] in E1. destruct (state_inc_ok _ _ _ _ _ _ _ H E1) as [_ [H1 _]].
  destruct (IH (fun i => draws (S i)) s1 (S n) R1 A1 (sinv_n_rows _ _ H1)) as [s' [E' [R' A']]].
  - intros k i j. apply Hd.
  - intros obs' clus' Hin. destruct (Ho obs' clus' (or_intror Hin)) as [P1 P2]. split; [exact P1|].
    intros c x Hc. eapply takes_kept; [|apply P2; exact Hc]. eapply inc_class; [exact H|exact A|apply Hd|exact E1].
  - exists s'. split; [|auto]. cbn [length seq map incorporate_bulk]. unfold incorporate_with.
    rewrite N, Z.eqb_refl. cbn [negb is_nil]. rewrite E1. exact E'.
Qed.
Print Assumptions C73_returns.

Lemma force_class n s r obs s' : sinv n s -> NoDup (dkeys obs) -> state_inputs_forced s obs ->
  state_force_cell s r obs = (s', Ok tt) -> class_kept s s'.
Proof.
  intros H Hn Hi E. destruct (state_force_ok _ _ _ _ _ H Hn Hi E) as [_ [H1 [_ [Fc [_ [_ [Fk [_ [_ V]]]]]]]]].
  intros c a Ec. destruct (dim_for_spec _ _ _ _ H Ec) as [v [w [Ez [Ew [Ea _]]]]].
  assert (Hv : In v (dkeys (s_views s'))) by (rewrite Fk; eapply dget_Some_in; exact Ew).
  apply in_dkeys_Some in Hv. destruct Hv as [w' Ew']. destruct (V v w w' Ew Ew') as [_ K].
  assert (Hc : In c (dkeys (v_dims w'))).
  { assert (Ez' : dget c (s_zv s') = Some v) by (unfold s_zv in *; rewrite Fc; exact Ez).
    destruct (si_view _ _ H1 v w' Ew') as [_ [_ [D _]]]. apply D. exact Ez'. }
  apply in_dkeys_Some in Hc. destruct Hc as [a' Ea']. exists a'. destruct (K c a' Ea') as [a0 [Ea0 [[d' [-> _]] _]]].
  assert (a0 = a) by congruence. subst a0. split; [|reflexivity]. unfold dim_for, s_zv in *. rewrite Fc, Ez, Ew', Ea'. reflexivity.
Qed.

(** Values that their columns take, for distinct missing cells of the table, are all
    forced: the call returns, in the states of C59. *)
Theorem C73_force_returns : forall s n rowids queries, sreach safe s -> able s -> n_rows s = Ok (Z.of_nat n) ->
  (forall i r q, nth_error rowids i = Some r -> nth_error queries i = Some q -> NoDup (dkeys q) /\ (0 <= r < Z.of_nat n)%Z /\
     forall c x, dget c q = Some x -> tab (s_X s) c r = Ok None /\ column_takes s c x) ->
  (forall i j r q q' c, (i < j)%nat -> nth_error rowids i = Some r -> nth_error rowids j = Some r ->
     nth_error queries i = Some q -> nth_error queries j = Some q' -> In c (dkeys q) -> ~ In c (dkeys q')) ->
  exists s', force_cell_bulk s rowids queries = (s', Ok tt) /\ sreach safe s' /\ able s'.
Proof.
  intros s n rowids queries. revert s rowids. induction queries as [|q queries IH]; intros s rowids R A N Hq Hd.
  { exists s. split; [destruct rowids; reflexivity|]. auto. }
  destruct rowids as [|r rowids]; [exists s; auto|].
  destruct (sreach_sinv s R) as [n1 H]. assert (n1 = n) by (pose proof (sinv_n_rows _ _ H) as Hn; rewrite N in Hn; injection Hn as Hn; lia). subst n1.
  destruct (Hq 0%nat r q eq_refl eq_refl) as [Q1 [Q2 Q3]].
  assert (Hv : valid_op s (OForce r q)) by (split; [exact Q1|]; split; [exists (Z.of_nat n); auto|exact Q3]).
  destruct (C59_operation s (OForce r q) R A Hv) as [s1 [E1 [R1 A1]]].
  pose proof (valid_safe n s _ H A Hv) as Hs. cbn [run_op safe] in E1, Hs.
  destruct (state_force_ok _ _ _ _ _ H Q1 Hs E1) as [_ [H1 [_ [_ [_ [_ [_ [_ [T _]]]]]]]]].
  destruct (IH s1 rowids R1 A1 (sinv_n_rows _ _ H1)) as [s' [E' [R' A']]].
  - intros i r' q' Er Eq. destruct (Hq (S i) r' q' Er Eq) as [P1 [P2 P3]]. split; [exact P1|]. split; [exact P2|].
    intros c x Hc. destruct (P3 c x Hc) as [P4 P5]. split.
    + rewrite T by lia. destruct (dget c q) as [y|] eqn:Ec; [|exact P4]. destruct (Z.eqb_spec r' r) as [->|]; [|exact P4].
      exfalso. refine (Hd 0%nat (S i) r q q' c _ eq_refl Er eq_refl Eq _ _); [lia| |]; eapply dget_Some_in; eassumption.
    + exact (takes_kept s s1 c x (force_class n s r q s1 H Q1 Hs E1) P5).
  - intros i j r' q1 q2 c Hij E1' E2' E3 E4. apply (Hd (S i) (S j) r' q1 q2 c); [lia|assumption..].
  - exists s'. split; [|auto]. cbn [force_cell_bulk]. rewrite E1. exact E'.
Qed.
Print Assumptions C73_force_returns.

(* ------------------------------------------------------------------ *)
(** ** Queries *)

(** The i-th of the arguments that may be left out. *)
Definition given {A} (l : option (list A)) (x : A) (i : nat) : option A :=
  match l with None => Some x | Some l => nth_error l i end.
Definition as_long {A} (l : option (list A)) (n : nat) : Prop := forall l', l = Some l' -> length l' = n.

Lemma otherwise_nth {A} (l : option (list A)) x n i : (i < n)%nat -> nth_error (otherwise l x n) i = given l x i.
Proof.
  destruct l; cbn; [reflexivity|]. revert i. induction n as [|n IH]; intros [|i] H; cbn; try lia; [reflexivity|]. apply IH. lia.
Qed.
Lemma otherwise_length {A} (l : option (list A)) x n : length (otherwise l x n) = n <-> as_long l n.
Proof.
  destruct l; cbn; [|rewrite repeat_length]; split; intros H; [intros l' E; injection E as <-; exact H|apply H; reflexivity|discriminate|reflexivity].
Qed.

Lemma nth_combine {A B} (a : list A) : forall (b : list B) i,
  nth_error (combine a b) i = match nth_error a i, nth_error b i with Some x, Some y => Some (x, y) | _, _ => None end.
Proof.
  induction a as [|x a IH]; intros [|y b] [|i]; cbn; try reflexivity; [destruct (nth_error a i); reflexivity|apply IH].
Qed.

Lemma map_ok_nth {A B} (f : A -> res B) : forall L l, map f L = map Ok l <->
  length l = length L /\ forall i q x, nth_error L i = Some q -> nth_error l i = Some x -> f q = Ok x.
Proof.
  induction L as [|q L IH]; intros [|x l]; cbn; (split; [intros E|intros [E1 E2]]); try discriminate; try reflexivity.
  - split; [reflexivity|]. intros [|i]; discriminate.
  - injection E as Eq E. apply IH in E. destruct E as [E1 E2]. split; [congruence|].
    intros [|i] q' x' Hq Hx; cbn in Hq, Hx; [injection Hq as <-; injection Hx as <-; exact Eq|exact (E2 i q' x' Hq Hx)].
  - f_equal; [apply (E2 0%nat); reflexivity|]. apply IH. split; [lia|]. intros i q' x' Hq Hx. exact (E2 (S i) q' x' Hq Hx).
Qed.

(** The answers of a bulk query are, in order, those of the queries one by one: without
    constraints where none are given, and without inputs, which are refused.  The lists
    must be of the same length. *)
Theorem C73_logpdf : forall s rowids targets constraints inputs l,
  logpdf_bulk s rowids targets constraints inputs = Ok l <->
  length targets = length rowids /\ as_long constraints (length rowids) /\ as_long inputs (length rowids) /\
  length l = length rowids /\
  forall i r t c k x, nth_error rowids i = Some r -> nth_error targets i = Some t ->
    given constraints [] i = Some c -> given inputs [] i = Some k -> nth_error l i = Some x ->
    k = [] /\ query_logpdf s r t c = Ok x.
Proof.
  intros s rowids targets constraints inputs l. unfold logpdf_bulk. cbv zeta.
  set (n := length rowids).
  rewrite <- (otherwise_length constraints ([] : dict cell) n), <- (otherwise_length inputs ([] : dict cell) n).
  destruct (Nat.eqb_spec n (length targets)) as [E1|E1]; cbn [negb]; [|split; [discriminate|intros [H _]; congruence]].
  destruct (Nat.eqb_spec n (length (otherwise constraints [] n))) as [E2|E2]; cbn [negb]; [|split; [discriminate|intros [_ [H _]]; congruence]].
  destruct (Nat.eqb_spec n (length (otherwise inputs [] n))) as [E3|E3]; cbn [negb]; [|split; [discriminate|intros [_ [_ [H _]]]; congruence]].
  rewrite rsequence_ok, map_ok_nth. rewrite !combine_length, <- E2, <- E3, <- E1. fold n. rewrite !Nat.min_id.
  assert (G : forall r t (c k : dict cell) x, logpdf_with s r t c k = Ok x <-> k = [] /\ query_logpdf s r t c = Ok x).
  { intros r t c k x. unfold logpdf_with, query_logpdf. destruct (state_validate _ _ _ _ _); cbn [rbind]; [|split; [discriminate|intros [_ H]; discriminate]].
    destruct k; cbn [is_nil]; split; [auto|intros [_ H]; exact H|discriminate|intros [H _]; discriminate]. }
  split.
  - intros [L H]. do 4 (split; [auto|]). intros i r t c k x Er Et Ec Ek Ex. apply G.
    assert (Hi : (i < n)%nat) by (apply nth_error_Some; congruence).
    apply (H i (r, t, c, k) x); [|exact Ex]. rewrite !nth_combine, Er, Et, !otherwise_nth by exact Hi. rewrite Ec, Ek. reflexivity.
  - intros [_ [_ [_ [L H]]]]. split; [exact L|]. intros i [[[r t] c] k] x Hq Ex.
    assert (Hi : (i < n)%nat) by (rewrite <- L; apply nth_error_Some; congruence).
    rewrite !nth_combine, !otherwise_nth in Hq by exact Hi.
    destruct (nth_error rowids i) eqn:Er; [|discriminate]. destruct (nth_error targets i) eqn:Et; [|discriminate].
    destruct (given constraints [] i) eqn:Ec; [|discriminate]. destruct (given inputs [] i) eqn:Ek; [|discriminate].
    injection Hq as -> -> -> ->. apply G. eapply H; eassumption.
Qed.
Print Assumptions C73_logpdf.

(** The same for samples; where it is not said how many, each answer is a list of one. *)
Theorem C73_simulate : forall draws src s rowids targets constraints inputs Ns l,
  simulate_bulk draws src s rowids targets constraints inputs Ns = Ok l <->
  length targets = length rowids /\ as_long constraints (length rowids) /\ as_long inputs (length rowids) /\
  as_long Ns (length rowids) /\ length l = length rowids /\
  forall i r t c k N x, nth_error rowids i = Some r -> nth_error targets i = Some t ->
    given constraints [] i = Some c -> given inputs [] i = Some k -> given Ns (Some 1%nat) i = Some N -> nth_error l i = Some x ->
    k = [] /\ query_simulate (draws i) (src i) s r t c N = Ok x.
Proof.
  intros draws src s rowids targets constraints inputs Ns l. unfold simulate_bulk. cbv zeta.
  set (n := length rowids).
  rewrite <- (otherwise_length constraints ([] : dict cell) n), <- (otherwise_length inputs ([] : dict cell) n), <- (otherwise_length Ns (Some 1%nat) n).
  destruct (Nat.eqb_spec n (length targets)) as [E1|E1]; cbn [negb]; [|split; [discriminate|intros [H _]; congruence]].
  destruct (Nat.eqb_spec n (length (otherwise constraints [] n))) as [E2|E2]; cbn [negb]; [|split; [discriminate|intros [_ [H _]]; congruence]].
  destruct (Nat.eqb_spec n (length (otherwise inputs [] n))) as [E3|E3]; cbn [negb]; [|split; [discriminate|intros [_ [_ [H _]]]; congruence]].
  destruct (Nat.eqb_spec n (length (otherwise Ns (Some 1%nat) n))) as [E4|E4]; cbn [negb]; [|split; [discriminate|intros [_ [_ [_ [H _]]]]; congruence]].
  rewrite rsequence_ok, map_ok_nth. rewrite !combine_length, seq_length, <- E4, <- E2, <- E3, <- E1. fold n. rewrite !Nat.min_id.
  assert (G : forall j r t (c k : dict cell) N x, simulate_with (draws j) (src j) s r t c k N = Ok x <->
    k = [] /\ query_simulate (draws j) (src j) s r t c N = Ok x).
  { intros j r t c k N x. unfold simulate_with, query_simulate. destruct (state_validate _ _ _ _ _); cbn [rbind]; [|split; [discriminate|intros [_ H]; discriminate]].
    destruct k; cbn [is_nil]; split; [auto|intros [_ H]; exact H|discriminate|intros [H _]; discriminate]. }
  assert (Hseq : forall i, (i < n)%nat -> nth_error (seq 0 n) i = Some i).
  { intros i Hi. rewrite (nth_error_nth' _ 0%nat) by (rewrite seq_length; exact Hi). rewrite seq_nth by exact Hi. reflexivity. }
  split.
  - intros [L H]. do 5 (split; [auto|]). intros i r t c k N x Er Et Ec Ek EN Ex. apply G.
    assert (Hi : (i < n)%nat) by (apply nth_error_Some; congruence).
    apply (H i (i, (r, t, c, k, N)) x); [|exact Ex].
    rewrite nth_combine, (Hseq i Hi), !nth_combine, Er, Et, !otherwise_nth by exact Hi. rewrite Ec, Ek, EN. reflexivity.
  - intros [_ [_ [_ [_ [L H]]]]]. split; [exact L|]. intros i [j [[[[r t] c] k] N]] x Hq Ex.
    assert (Hi : (i < n)%nat) by (rewrite <- L; apply nth_error_Some; congruence).
    rewrite nth_combine, (Hseq i Hi), !nth_combine, !otherwise_nth in Hq by exact Hi.
    destruct (nth_error rowids i) eqn:Er; [|discriminate]. destruct (nth_error targets i) eqn:Et; [|discriminate].
    destruct (given constraints [] i) eqn:Ec; [|discriminate]. destruct (given inputs [] i) eqn:Ek; [|discriminate].
    destruct (given Ns (Some 1%nat) i) eqn:EN; [|discriminate].
    injection Hq as -> -> -> -> -> ->. apply G. eapply H; eassumption.
Qed.
Print Assumptions C73_simulate.

(** Lists of different lengths are refused, whatever the state. *)
Theorem C73_lengths : forall draws src s rowids (targets : list (dict cell)) (names : list (list Z)) constraints inputs Ns,
  ((length targets <> length rowids \/ ~ as_long constraints (length rowids) \/ ~ as_long inputs (length rowids)) ->
   logpdf_bulk s rowids targets constraints inputs = Err AssertionError) /\
  ((length names <> length rowids \/ ~ as_long constraints (length rowids) \/ ~ as_long inputs (length rowids) \/
    ~ as_long Ns (length rowids)) ->
   simulate_bulk draws src s rowids names constraints inputs Ns = Err AssertionError).
Proof.
  intros draws src s rowids targets names constraints inputs Ns. unfold logpdf_bulk, simulate_bulk. cbv zeta.
  set (n := length rowids).
  rewrite <- (otherwise_length constraints ([] : dict cell) n), <- (otherwise_length inputs ([] : dict cell) n), <- (otherwise_length Ns (Some 1%nat) n).
  split; intros H.
  - destruct (Nat.eqb_spec n (length targets)) as [E1|E1]; cbn [negb]; [|reflexivity].
    destruct (Nat.eqb_spec n (length (otherwise constraints [] n))) as [E2|E2]; cbn [negb]; [|reflexivity].
    destruct (Nat.eqb_spec n (length (otherwise inputs [] n))) as [E3|E3]; cbn [negb]; [|reflexivity]. exfalso. intuition congruence.
  - destruct (Nat.eqb_spec n (length names)) as [E1|E1]; cbn [negb]; [|reflexivity].
    destruct (Nat.eqb_spec n (length (otherwise constraints [] n))) as [E2|E2]; cbn [negb]; [|reflexivity].
    destruct (Nat.eqb_spec n (length (otherwise inputs [] n))) as [E3|E3]; cbn [negb]; [|reflexivity].
    destruct (Nat.eqb_spec n (length (otherwise Ns (Some 1%nat) n))) as [E4|E4]; cbn [negb]; [|reflexivity]. exfalso. intuition congruence.
Qed.
Print Assumptions C73_lengths.

(* ------------------------------------------------------------------ *)
(** ** Examples *)

Definition ex_bulk_draws : nat -> nat -> nat -> list ext -> nat := fun _ _ _ => first_pos.
Lemma ex_bulk : exists s s1 s2, sreach safe s /\ able s /\ s_outs s = [5; 7]%Z /\ n_rows s = Ok 2%Z /\ s_X s = ex_X /\
  column_takes s 7 (Some 1) /\
  state_incorporate (fun _ _ => first_pos) s 2 [(7%Z, Some 0)] [] = (s1, Ok tt) /\
  state_incorporate (fun _ _ => first_pos) s1 3 [] [] = (s2, Ok tt) /\ n_rows s1 = Ok 3%Z.
Proof.
  destruct C59_init_ex as [s [_ [R [A [EX [Eo [Ec [Ev Hm]]]]]]]]. exists s.
  assert (N : n_rows s = Ok 2%Z) by (unfold n_rows; rewrite Eo, EX; reflexivity).
  assert (T : forall x, x = 0 \/ x = 1 -> column_takes s 7 (Some x)).
  { intros x Hx. destruct (Hm 7%Z) as [a [Ea Ma]]; [right; left; reflexivity|]. exists a. split; [exact Ea|].
    destruct a as [M d]. cbn [a_M] in Ma. clear - Ma Hx. subst M. apply (C59_cells ex_M _ d (Some x) (h_bernoulli lgam_w)). exact Hx. }
  destruct (sreach_sinv s R) as [n H]. pose proof (sinv_n_rows _ _ H) as Hn. rewrite N in Hn.
  assert (n = 2%nat) by (injection Hn as Hn; lia). subst n.
  assert (D : forall i j : nat, draw_ok first_pos) by (intros i j; apply C16_draw_ex).
  destruct (inc_total 2 (fun _ _ => first_pos) s [(7%Z, Some 0)] [] H A D) as [s1 E1].
  { intros c [<-|[]]. rewrite Eo. right. left. reflexivity. }
  { intros x [<-|[]]. discriminate. }
  { intros c x Hc. cbn in Hc. destruct (Z.eqb_spec c 7) as [->|]; [|discriminate]. injection Hc as <-. apply T. left. reflexivity. }
  destruct (state_inc_ok _ _ _ _ _ _ _ H E1) as [_ [H1 _]].
  pose proof (able_inc _ _ _ _ _ _ _ H A D E1) as A1.
  destruct (inc_total 3 (fun _ _ => first_pos) s1 [] [] H1 A1 D) as [s2 E2]; [intros c []|intros x []|discriminate|].
  exists s1, s2. do 5 (split; [assumption|]). split; [apply T; right; reflexivity|]. split; [exact E1|]. split; [exact E2|].
  rewrite (sinv_n_rows _ _ H1). reflexivity.
Qed.

(** Two rows at once, the second one empty. *)
Example C73_rows_ex : exists s s', sreach safe s /\ n_rows s = Ok 2%Z /\
  incorporate_bulk ex_bulk_draws s [2; 3]%Z [([(7%Z, Some 0)], []); ([], [])] [] = (s', Ok tt).
Proof.
  destruct ex_bulk as [s [s1 [s2 [R [A [Eo [N [_ [_ [E1 [E2 N1]]]]]]]]]]]. exists s, s2. split; [exact R|]. split; [exact N|].
  cbn [incorporate_bulk]. unfold incorporate_with. rewrite N. cbn [Z.eqb Pos.eqb negb is_nil]. unfold ex_bulk_draws. rewrite E1.
  rewrite N1. cbn [Z.eqb Pos.eqb negb is_nil].
  match goal with |- match ?x with _ => _ end = _ => replace x with (s2, @Ok unit tt) by (symmetry; exact E2) end. reflexivity.
Qed.

(** The second row is not the next one: the first stays. *)
Example C73_stops_ex : exists s s', sreach safe s /\ n_rows s = Ok 2%Z /\ n_rows s' = Ok 3%Z /\
  incorporate_bulk ex_bulk_draws s [2; 2]%Z [([(7%Z, Some 0)], []); ([], [])] [] = (s', Err ValueError).
Proof.
  destruct ex_bulk as [s [s1 [s2 [R [A [Eo [N [_ [_ [E1 [E2 N1]]]]]]]]]]]. exists s, s1. do 3 (split; [assumption|]).
  cbn [incorporate_bulk]. unfold incorporate_with. rewrite N. cbn [Z.eqb Pos.eqb negb is_nil]. unfold ex_bulk_draws. rewrite E1.
  rewrite N1. reflexivity.
Qed.

(** Full claim: a call that returns has added every observation.  False: without a row id
    for it an observation is dropped, and nothing is said.  The queries check the lengths
    (C73_lengths). *)
Theorem C73_lost_refuted : exists s s' observations, sreach safe s /\ able s /\ length observations = 2%nat /\
  incorporate_bulk ex_bulk_draws s [2]%Z observations [] = (s', Ok tt) /\
  n_rows s = Ok 2%Z /\ n_rows s' = Ok 3%Z.
Proof.
  destruct ex_bulk as [s [s1 [s2 [R [A [Eo [N [_ [_ [E1 [E2 N1]]]]]]]]]]]. exists s, s1, [([(7%Z, Some 0)], []); ([], [])].
  do 2 (split; [assumption|]). split; [reflexivity|]. split; [|auto].
  cbn [incorporate_bulk]. unfold incorporate_with. rewrite N. cbn [Z.eqb Pos.eqb negb is_nil]. unfold ex_bulk_draws. rewrite E1. reflexivity.
Qed.
Print Assumptions C73_lost_refuted.

(** The missing cell of the table is forced. *)
Example C73_forced_ex : exists s s', sreach safe s /\ forces_safe s [0]%Z [[(7%Z, Some 1)]] /\
  force_cell_bulk s [0]%Z [[(7%Z, Some 1)]] = (s', Ok tt).
Proof.
  destruct ex_bulk as [s [s1 [s2 [R [A [Eo [N [EX [T _]]]]]]]]]. exists s. destruct (sreach_sinv s R) as [n H].
  pose proof (sinv_n_rows _ _ H) as Hn. rewrite N in Hn. assert (n = 2%nat) by (injection Hn as Hn; lia). subst n.
  assert (Hd : NoDup (dkeys [(7%Z, Some 1)])) by (repeat constructor; intros []).
  destruct (force_total 2 s 0 [(7%Z, Some 1)] H A Hd) as [s' E]; [cbn; lia| |].
  { intros c x Hc. cbn in Hc. destruct (Z.eqb_spec c 7) as [->|]; [|discriminate]. injection Hc as <-.
    split; [rewrite EX; reflexivity|exact T]. }
  exists s'. split; [exact R|]. split.
  - split; [exact Hd|]. split; [|intros; exact I]. intros v w Ew c a i Ea Hi. rewrite (able_no_inputs 2 s H A v w c a Ew Ea) in Hi. destruct Hi.
  - cbn [force_cell_bulk]. rewrite E. reflexivity.
Qed.

(** Two values for the missing cell (C73_twice, C73_force_stops). *)
Lemma one_key (x : R) : NoDup (dkeys [(7%Z, Some x)]).
Proof. repeat constructor; intros []. Qed.
Example C73_twice_ex : exists s s' e, sreach safe s /\ forces_safe s [0; 0]%Z [[(7%Z, Some 1)]; [(7%Z, Some 0)]] /\
  force_cell_bulk s [0; 0]%Z [[(7%Z, Some 1)]; [(7%Z, Some 0)]] = (s', Err e).
Proof.
  destruct ex_bulk as [s [s1 [s2 [R [A [Eo [N [EX [T _]]]]]]]]]. exists s. destruct (sreach_sinv s R) as [n H].
  pose proof one_key as Hd.
  assert (F : forces_safe s [0; 0]%Z [[(7%Z, Some 1)]; [(7%Z, Some 0)]]).
  { assert (I1 : forall s, sinv n s -> able s -> forall q, state_inputs_forced s q).
    { intros s0 H0 A0 q v w Ew c a i Ea Hi. rewrite (able_no_inputs n s0 H0 A0 v w c a Ew Ea) in Hi. destruct Hi. }
    split; [apply Hd|]. split; [apply I1; assumption|]. intros s3 E3.
    destruct (state_force_ok _ _ _ _ _ H (Hd 1) (I1 s H A _) E3) as [_ [H3 _]].
    pose proof (able_force _ _ _ _ _ H A (Hd 1) (I1 s H A _) E3) as A3.
    split; [apply Hd|]. split; [apply I1; assumption|]. intros; exact I. }
  destruct (C73_twice s [0; 0]%Z [[(7%Z, Some 1)]; [(7%Z, Some 0)]] 0 1 0 [(7%Z, Some 1)] [(7%Z, Some 0)] 7 1 R F) as [s' [e E]];
    try reflexivity; [lia|left; reflexivity|]. exists s', e. auto.
Qed.

(** Two densities of one state. *)
Example C73_logpdf_ex : exists s t, sreach safe s /\
  logpdf_bulk s [0; 0]%Z [t; t] (Some [[]; []]) None = Ok [Fin 0; Fin 0].
Proof.
  destruct P31_Rebuild.C41_parameters_refuted as [lgam [s [f [m [s' [_ [Hs [_ [_ [_ [_ [_ [Hq _]]]]]]]]]]]]].
  exists s, (P31_Rebuild.at0 (1 / 2)). split; [exact Hs|]. apply C73_logpdf. split; [reflexivity|].
  split; [intros l E; injection E as <-; reflexivity|]. split; [discriminate|]. split; [reflexivity|].
  intros i r t c k x. destruct i as [|[|i]]; cbn; intros Er Et Ec Ek Ex; try (destruct i; discriminate);
    injection Er as <-; injection Et as <-; injection Ec as <-; injection Ek as <-; injection Ex as <-; (split; [reflexivity|exact Hq]).
Qed.

(** Five samples of two columns given a third, and two of none. *)
Example C73_simulate_ex : exists s a, simulate_bulk (fun _ _ _ => first_pos) (fun _ _ _ _ _ => Ok 1) s
    [3; 3]%Z [[1; 2]%Z; []] (Some [[(0%Z, Some 4)]; []]) None (Some [Some 5; Some 2]%nat) = Ok [a; Many []].
Proof.
  destruct (P13_StateQuery.C34_returns_ex lgam_w lgam_w_rec) as [a Ha].
  pose proof (P13_StateQuery.sx_no_targets lgam_w) as Hb.
  exists (P13_StateQuery.sx lgam_w), a. apply C73_simulate. split; [reflexivity|].
  split; [intros l E; injection E as <-; reflexivity|]. split; [discriminate|].
  split; [intros l E; injection E as <-; reflexivity|]. split; [reflexivity|].
  intros i r t c k N x. destruct i as [|[|i]]; cbn; intros Er Et Ec Ek EN Ex; try (destruct i; discriminate);
    injection Er as <-; injection Et as <-; injection Ec as <-; injection Ek as <-; injection EN as <-; injection Ex as <-; (split; [reflexivity|]).
  - exact Ha.
  - apply Hb.
Qed.

(** Two rows and one list of constraints. *)
Example C73_lengths_ex : ~ as_long (Some [[(0%Z, Some 4)]]) (length [3; 3]%Z).
Proof. intros H. discriminate (H _ eq_refl). Qed.

(** C73_returns: two rows with values in both columns; C73_force_returns: the missing cell. *)
Example C73_returns_ex : exists s s' s2, sreach safe s /\ able s /\
  incorporate_bulk ex_bulk_draws s [2; 3]%Z [([(7%Z, Some 1)], []); ([(7%Z, Some 1)], [])] [] = (s', Ok tt) /\
  force_cell_bulk s [0; 1]%Z [[(7%Z, Some 1)]; []] = (s2, Ok tt).
Proof.
  destruct ex_bulk as [s [s1 [s2 [HR [A [Eo [N [EX [T _]]]]]]]]]. exists s.
  destruct (C73_returns ex_bulk_draws s 2 [([(7%Z, Some 1)], []); ([(7%Z, Some 1)], [])] HR A N) as [s' [E' _]].
  { intros k i j. apply C16_draw_ex. }
  { intros obs clus Hin. assert (obs = [(7%Z, Some 1)]) by (destruct Hin as [E|[E|[]]]; injection E as <- _; reflexivity). subst obs. split.
    - intros x [<-|[]]. discriminate.
    - intros c x Hc. cbn in Hc. destruct (Z.eqb_spec c 7) as [->|]; [|discriminate]. injection Hc as <-. exact T. }
  destruct (C73_force_returns s 2 [0; 1]%Z [[(7%Z, Some 1)]; []] HR A N) as [s3 [E3 _]].
  { intros [|[|i]] r q Er Eq; cbn in Er, Eq; [| |destruct i; discriminate]; injection Er as <-; injection Eq as <-.
    - split; [apply one_key|]. split; [cbn; lia|]. intros c x Hc. cbn in Hc. destruct (Z.eqb_spec c 7) as [->|]; [|discriminate].
      injection Hc as <-. split; [rewrite EX; reflexivity|exact T].
    - split; [constructor|]. split; [cbn; lia|]. discriminate. }
  { intros [|[|i]] [|[|j]] r q q' c Hij E1 E2 E5 E6; cbn in E1, E2, E5, E6; try lia; try congruence; try (destruct j; discriminate). }
  exists s', s3. auto.
Qed.
