(** C72: an engine written down and built again. *)
From Verif Require Import MetadataFacts Metadata Query Compose StateFacts ViewFacts RowGibbs CrpFacts PrimFacts BaseFacts LogSpaceFacts ClassFacts P06_Dim P07_View P09_State SettledFacts.
From Verif Require Import P10_Columns P27_Metadata P16_Schedule P31_Rebuild P19_Engine EngineSaved.
From Coq Require Import Lia List.
Import ListNotations.
Local Open Scope R_scope.

(* ------------------------------------------------------------------ *)
(** ** What is claimed *)

(** The states hold the same data under the same names. *)
Definition same_table (s s' : state) : Prop := s_outs s = s_outs s' /\ s_X s = s_X s'.
Definition one_table (l : list state) : Prop := forall s s', In s l -> In s' l -> same_table s s'.

(** A state that C41 is about. *)
Definition savable (f : redrawn) (s : state) : Prop :=
  sreach safe s /\ (exists n, n_rows s = Ok n /\ (0 < n)%Z) /\ (forall c, In c (s_outs s) -> (0 <= c)%Z) /\
  (forall v w c a, dget v (s_views s) = Some w -> dget c (v_dims w) = Some a ->
     no_params (a_M a) /\ exists e, a_score a = Ok e) /\
  NoDup (rd_order f) /\ (forall v, In v (rd_order f) <-> In v (dkeys (s_views s))).

(** The same contents and the same answers to every query. *)
Definition answers_as (s s' : state) : Prop :=
  same_state s s' /\
  (forall r T C, query_logpdf s' r T C = query_logpdf s r T C) /\
  (forall draws src r T C N, query_simulate draws src s' r T C N = query_simulate draws src s r T C N) /\
  (forall r0 r1 cols, row_similarity s' r0 r1 cols = row_similarity s r0 r1 cols) /\
  (forall lgam e, state_score lgam s = Ok e -> state_score lgam s' = Ok e).

Lemma to_metadata_rows s m : state_to_metadata s = Ok m -> data_rows (s_X s) = Ok (mt_rows m).
Proof.
  unfold state_to_metadata. destruct (data_rows (s_X s)) as [rows|]; [|discriminate]. cbn [rbind].
  destruct (rsequence (map (dim_for s) (s_outs s))); [|discriminate]. cbn [rbind].
  destruct (rsequence _); [|discriminate]. cbn [rbind]. intros E. injection E as <-. reflexivity.
Qed.
Lemma with_rows_back rows m : mt_rows m = rows -> with_rows rows (with_rows [] m) = m.
Proof. destruct m. cbn. intros ->. reflexivity. Qed.

(** An engine whose states hold the same data is built again with as many states, in the
    same order, each with the contents and the answers of the one it was written from;
    with [map] as with parallel_map, whatever the seeds. *)
Theorem C72_saved : forall (m : mapper) fs l, l <> [] -> Forall2 savable fs l -> one_table l ->
  exists em l', engine_to_metadata l = Ok em /\ snd (engine_from_metadata m fs em) = Ok l' /\ Forall2 answers_as l l'.
Proof.
  intros m fs l Hne H T. destruct l as [|s0 l0] eqn:El; [contradiction|]. rewrite <- El in *.
  assert (B : exists ms l', map state_to_metadata l = map Ok ms /\
    map (fun fm => state_from_metadata (fst fm) (snd fm)) (combine fs ms) = map Ok l' /\ Forall2 answers_as l l').
  { clear El Hne T. induction H as [|f s fs l1 [S1 [[n [S2 S3]] [S4 [S5 [S6 S7]]]]] H IH].
    - exists [], []. split; [reflexivity|]. split; [reflexivity|constructor].
    - destruct IH as [ms [l' [I1 [I2 I3]]]].
      destruct (C41_state_partial s f n S1 S2 S3 S4 S5 S6 S7) as [m1 [s' [E1 [E2 [E3 [_ [E4 [E5 [E6 E7]]]]]]]]].
      exists (m1 :: ms), (s' :: l'). cbn [map combine fst snd]. rewrite E1, E2, I1, I2. split; [reflexivity|]. split; [reflexivity|].
      constructor; [|exact I3]. unfold answers_as. tauto. }
  destruct B as [ms [l' [B1 [B2 B3]]]].
  assert (R : forall m1, In m1 ms -> data_rows (s_X s0) = Ok (mt_rows m1)).
  { intros m1 Hm. assert (I : In (Ok m1) (map state_to_metadata l)) by (rewrite B1; apply in_map; exact Hm).
    apply in_map_iff in I. destruct I as [s [E I]]. rewrite <- (to_metadata_rows s m1 E). f_equal.
    apply (T s0 s); [rewrite El; left; reflexivity|exact I]. }
  destruct ms as [|m0 ms0] eqn:Em; [rewrite El in B1; discriminate|]. rewrite <- Em in *.
  assert (R0 : data_rows (s_X s0) = Ok (mt_rows m0)) by (apply R; rewrite Em; left; reflexivity).
  exists (EMeta (mt_rows m0) (map (fun m => (None, with_rows [] m)) ms)), l'.
  split; [|split; [|exact B3]].
  - unfold engine_to_metadata. rewrite El. rewrite R0. cbn [rbind]. rewrite <- El, B1.
    replace (rsequence (map Ok ms)) with (Ok ms) by (symmetry; apply rsequence_ok; reflexivity). reflexivity.
  - unfold engine_from_metadata, make_states. cbn [snd repopulate em_X em_states]. rewrite map_map. cbn [fst snd].
    replace (map (fun fx => retrieve (fst fx) (snd fx)) (combine fs (map (fun m => (Some (mt_rows m0), with_rows [] m)) ms)))
      with (map (fun fm => state_from_metadata (fst fm) (snd fm)) (combine fs ms)).
    + rewrite B2. replace (rsequence (map Ok l')) with (Ok l') by (symmetry; apply rsequence_ok; reflexivity). reflexivity.
    + assert (R1 : forall m1, In m1 ms -> mt_rows m1 = mt_rows m0) by (intros m1 Hm; apply R in Hm; congruence).
      clear - R1. revert fs. induction ms as [|m1 ms IH]; intros [|f fs]; try reflexivity. cbn [map combine fst snd].
      rewrite <- IH by (intros m2 Hm; apply R1; right; exact Hm). f_equal. unfold retrieve. cbn [fst snd].
      rewrite with_rows_back; [reflexivity|apply R1; left; reflexivity].
Qed.
Print Assumptions C72_saved.

(** What is written: the rows of the first state, and for every state, in order, its own
    metadata in everything but the rows. *)
Theorem C72_written : forall l em, engine_to_metadata l = Ok em ->
  (exists s0, nth_error l 0 = Some s0 /\ data_rows (s_X s0) = Ok (em_X em)) /\
  Forall2 (fun s xm => fst xm = None /\ exists m, state_to_metadata s = Ok m /\
    mt_outs (snd xm) = mt_outs m /\ mt_alpha (snd xm) = mt_alpha m /\ mt_Zv (snd xm) = mt_Zv m /\ mt_cols (snd xm) = mt_cols m /\
    mt_Cd (snd xm) = mt_Cd m /\ mt_Ci (snd xm) = mt_Ci m /\ mt_Zrv (snd xm) = mt_Zrv m /\ mt_alphas (snd xm) = mt_alphas m) l (em_states em).
Proof.
  intros l em E. unfold engine_to_metadata in E. destruct l as [|s0 l0] eqn:El; [discriminate|]. rewrite <- El in *.
  destruct (data_rows (s_X s0)) as [X|] eqn:R; [|discriminate]. cbn [rbind] in E.
  destruct (rsequence (map state_to_metadata l)) as [ms|] eqn:Em; [|discriminate]. cbn [rbind] in E. injection E as <-.
  split; [exists s0; split; [rewrite El; reflexivity|exact R]|]. cbn [em_states]. apply rsequence_ok in Em. clear El R. revert ms Em.
  induction l as [|s l IH]; intros [|m ms] Em; try discriminate; cbn [map] in *; constructor.
  - injection Em as E1 _. cbn [fst snd]. split; [reflexivity|]. exists m. split; [exact E1|]. repeat split; reflexivity.
  - apply IH. injection Em as _ E2. exact E2.
Qed.
Print Assumptions C72_written.

(** Reading puts the data into the metadata it is given; a second reading, also with
    another mapper and other seeds, is none the worse for it. *)
Theorem C72_again : forall m fs m' fs' em,
  engine_from_metadata m' fs' (fst (engine_from_metadata m fs em)) = engine_from_metadata m' fs' em.
Proof.
  intros m fs m' fs' em. unfold engine_from_metadata. cbn [fst].
  assert (E : repopulate (repopulate em) = repopulate em).
  { unfold repopulate. cbn [em_X em_states]. rewrite map_map. reflexivity. }
  rewrite E. reflexivity.
Qed.
Print Assumptions C72_again.

(** An engine without states cannot be written.  What cannot be read is a RuntimeError in
    parallel, whatever the exception was. *)
Theorem C72_refused : engine_to_metadata [] = Err IndexError /\
  (forall l s x, In s l -> state_to_metadata s = Err x -> exists y, engine_to_metadata l = Err y) /\
  (forall asg fs em f xm x, In (f, xm) (combine fs (em_states em)) ->
     state_from_metadata f (with_rows (em_X em) (snd xm)) = Err x ->
     snd (engine_from_metadata (Parallel asg) fs em) = Err RuntimeError).
Proof.
  assert (Q : forall A (l : list (res A)) x, In (Err x) l -> exists y, rsequence l = Err y).
  { intros A l x H. destruct (rsequence l) as [out|y] eqn:E; [|eauto]. apply rsequence_ok in E. subst l. apply in_map_iff in H. destruct H as [? [H _]]. discriminate. }
  split; [reflexivity|]. split.
  - intros l s x H E. unfold engine_to_metadata. destruct l as [|s0 l]; [contradiction|].
    destruct (data_rows (s_X s0)) as [X|]; [|cbn; eauto]. cbn [rbind].
    destruct (Q _ (map state_to_metadata (s0 :: l)) x) as [y ->]; [|cbn; eauto]. apply in_map_iff. exists s. split; assumption.
  - intros asg fs em f xm x H E. unfold engine_from_metadata, make_states. cbn [snd].
    destruct (Q _ (map (fun fx => retrieve (fst fx) (snd fx)) (combine fs (em_states (repopulate em)))) x) as [y ->]; [|reflexivity].
    apply in_map_iff. exists (f, (Some (em_X em), snd xm)). split; [exact E|].
    cbn [repopulate em_states em_X]. revert fs H. generalize (em_states em). induction l as [|y l IH]; intros [|g fs] H; cbn in H |- *; try contradiction.
    destruct H as [H|H]; [left; congruence|right; apply IH; exact H].
Qed.
Print Assumptions C72_refused.

(* ------------------------------------------------------------------ *)
(** ** The data of every state are those of the first *)

Lemma init_table X zv alpha grid Cd Ci vspecs cspecs order s :
  state_init X zv alpha grid Cd Ci vspecs cspecs order = Ok s -> s_X s = X.
Proof.
  unfold state_init. destruct (seat_given zv (crp_new alpha)) as [c|]; [|discriminate]. cbn [rbind].
  destruct (length (c_data c) =? length (dkeys X))%nat; [|discriminate].
  destruct (make_views _ _ _ _ _ _) as [ws|]; [|discriminate]. cbn [rbind]. intros E. injection E as <-. reflexivity.
Qed.
Lemma from_metadata_table f m s : state_from_metadata f m = Ok s -> table_of (mt_rows m) (mt_outs m) = Ok (s_X s).
Proof.
  unfold state_from_metadata. destruct (mt_rows m) as [|row rows]; [discriminate|]. destruct (mt_cols m) as [|k0 ks]; [discriminate|].
  destruct (negb _); [discriminate|]. destruct (negb _); [discriminate|]. destruct (negb _); [discriminate|].
  destruct (table_of (row :: rows) (mt_outs m)) as [X|]; [|discriminate]. cbn [rbind]. destruct (negb _); [discriminate|].
  intros E. apply init_table in E. rewrite E. reflexivity.
Qed.
Lemma to_metadata_outs s m : state_to_metadata s = Ok m -> mt_outs m = s_outs s.
Proof.
  unfold state_to_metadata. destruct (data_rows (s_X s)) as [rows|]; [|discriminate]. cbn [rbind].
  destruct (rsequence (map (dim_for s) (s_outs s))); [|discriminate]. cbn [rbind].
  destruct (rsequence _); [|discriminate]. cbn [rbind]. intros E. injection E as <-. reflexivity.
Qed.
(** Whatever data the other states had: each comes back, if at all, with the rows of the
    first state under its own names. *)
Theorem C72_first : forall m fs l em l' s0 rows, length fs = length l -> engine_to_metadata l = Ok em ->
  snd (engine_from_metadata m fs em) = Ok l' -> nth_error l 0 = Some s0 -> data_rows (s_X s0) = Ok rows ->
  length l' = length l /\
  forall i s s', nth_error l i = Some s -> nth_error l' i = Some s' -> table_of rows (s_outs s) = Ok (s_X s').
Proof.
  intros m fs l em l' s0 rows L E F H0 R. destruct l as [|s1 l0] eqn:El; [discriminate|]. cbn in H0. injection H0 as ->.
  unfold engine_to_metadata in E. rewrite R in E. cbn [rbind] in E. rewrite <- El in *.
  destruct (rsequence (map state_to_metadata l)) as [ms|] eqn:Em; [|discriminate]. cbn [rbind] in E. injection E as <-.
  apply rsequence_ok in Em. unfold engine_from_metadata, make_states in F. cbn [snd repopulate em_X em_states] in F.
  rewrite map_map in F. cbn [fst snd] in F.
  destruct (rsequence _) as [l2|] eqn:Es in F; [|discriminate]. injection F as ->. apply rsequence_ok in Es.
  clear El R. revert fs ms l' L Em Es. induction l as [|s l IH]; intros [|f fs] [|m1 ms] l' L Em Es; try discriminate.
  - destruct l'; [|discriminate]. split; [reflexivity|]. intros [|i] ? ? E; discriminate E.
  - cbn [map combine fst snd] in Em, Es. injection Em as Em1 Em2. destruct l' as [|s' l']; [discriminate|]. cbn [map] in Es. injection Es as Es1 Es2.
    destruct (IH fs ms l' (eq_add_S _ _ L) Em2 Es2) as [I1 I2]. split; [cbn; rewrite I1; reflexivity|].
    intros [|i] a b Ea Eb; [|exact (I2 i a b Ea Eb)]. cbn in Ea, Eb. injection Ea as <-. injection Eb as <-.
    unfold retrieve in Es1. cbn [fst snd] in Es1. apply from_metadata_table in Es1. cbn [with_rows mt_rows mt_outs] in Es1.
    rewrite (to_metadata_outs s m1 Em1) in Es1. exact Es1.
Qed.
Print Assumptions C72_first.

(* ------------------------------------------------------------------ *)
(** ** Histories that keep one table *)

(** The same call, up to what is drawn at random and the class of a new column. *)
Definition same_call (o o' : sop) : Prop :=
  match o, o' with
  | OIncorporate _ r obs _, OIncorporate _ r' obs' _ => r = r' /\ obs = obs'
  | OUnincorporate r, OUnincorporate r' => r = r'
  | OForce r obs, OForce r' obs' => r = r' /\ obs = obs'
  | OAdd T c _ _ _ _ _ _, OAdd T' c' _ _ _ _ _ _ => T = T' /\ c = c'
  | ORemove c, ORemove c' => c = c'
  | OCctype _ _ _ _ _ _, OCctype _ _ _ _ _ _ => True
  | OKernel _, OKernel _ => True
  | _, _ => False
  end.
Definition data_after (o : sop) (d : list Z * dict (list cell)) : list Z * dict (list cell) :=
  match o with
  | OIncorporate _ _ obs _ => (fst d, fst (append_row (fst d) obs (snd d)))
  | OUnincorporate _ => (fst d, fst (pop_row (fst d) (snd d)))
  | OForce r obs => (fst d, set_cells r obs (snd d))
  | OAdd T c _ _ _ _ _ _ => (fst d ++ [c], dset c T (snd d))
  | ORemove c => (filter (fun i => negb (i =? c)%Z) (fst d), ddel c (snd d))
  | _ => d
  end.
Lemma op_data s o s' : run_op s o = (s', Ok tt) -> (s_outs s', s_X s') = data_after o (s_outs s, s_X s).
Proof.
  destruct o; cbn [run_op data_after fst snd].
  - unfold state_incorporate. destruct (n_rows s) as [n|]; [|discriminate]. destruct (negb _); [discriminate|].
    destruct (negb _); [discriminate|]. destruct (existsb _ _); [discriminate|].
    destruct (append_row _ _ _) as [X r] eqn:Ea. destruct r; [|discriminate]. destruct (n_rows _) as [n1|]; [|discriminate].
    destruct (views_loop _ _ _) as [ws r2]. intros E. injection E as <- _. reflexivity.
  - unfold state_unincorporate. destruct (n_rows s) as [n|]; [|discriminate]. destruct (negb _); [discriminate|].
    destruct (n =? 1)%Z; [discriminate|]. destruct (pop_row _ _) as [X r] eqn:Ea. destruct r; [|discriminate].
    destruct (views_loop _ _ _) as [ws r2]. intros E. injection E as <- _. reflexivity.
  - unfold state_force_cell. destruct (n_rows s) as [n|]; [|discriminate]. destruct (hypothetical _ _); [discriminate|].
    destruct (all_nan _ _ _) as [[]|]; try discriminate. destruct (partition_list _ _) as [q|]; [|discriminate].
    destruct (views_loop _ _ _) as [ws r2]. intros E. injection E as <- _. reflexivity.
  - unfold state_incorporate_dim. destruct (n_rows s) as [n|]; [|discriminate].
    destruct (negb _); [discriminate|]. destruct (zmem col (s_outs s)) eqn:Ez; [discriminate|].
    set (s1 := set_outs _ _).
    assert (H1 : (s_outs s1, s_X s1) = (s_outs s ++ [col], dset col T (s_X s))) by reflexivity.
    destruct (match dget _ (s_views s1) with Some w => Ok w | None => _ end) as [w|]; [|discriminate].
    destruct (col_make k) as [a r]. destruct r as [[]|]; [|discriminate].
    destruct (view_incorporate_dim _ w col a true) as [[w1 a1] r1].
    destruct (rbind r1 _); [|discriminate]. destruct (crp_incorporate _ col _) as [c r2]. destruct r2; [|discriminate].
    set (s4 := set_scrp _ c). assert (H4 : (s_outs s4, s_X s4) = (s_outs s ++ [col], dset col T (s_X s))) by exact H1.
    destruct v as [v|].
    + intros E. apply dim_call_fixes in E. destruct E as [-> ->]. exact H4.
    + destruct (transition_dims _ 1 s4 [col]) as [s5 r3] eqn:E5. apply columns_fixes in E5. destruct r3 as [[]|]; [|discriminate].
      intros E. apply dim_call_fixes in E. destruct E as [-> ->]. destruct E5 as [-> ->]. exact H4.
  - unfold state_unincorporate_dim. destruct (_ =? _)%nat; [discriminate|]. destruct (negb _); [discriminate|].
    destruct (dget col (s_zv s)) as [v|]; [|discriminate]. destruct (dget v (s_views s)) as [w|]; [|discriminate].
    destruct (dget v (c_counts (s_crp s))) as [nv|]; [|discriminate].
    destruct (view_unincorporate_dim w col) as [w1 r1].
    destruct r1; [|discriminate]. destruct (crp_unincorporate _ col) as [c r2]. destruct r2; [|discriminate].
    destruct (_ && _); [discriminate|].
    destruct (nv =? 1)%Z; (destruct (dmem col _); [|discriminate]); intros E; injection E as <-; reflexivity.
  - unfold state_update_cctype. destruct (negb _); [discriminate|]. destruct (dget col (s_zv s)) as [v|]; [|discriminate].
    destruct (dget v (s_views s)) as [w|]; [|discriminate]. destruct (view_update_cctype _ w col a) as [w1 r]. destruct r; [|discriminate].
    set (s1 := set_views _ _).
    destruct (dim_call s1 col _) as [s2 r2] eqn:E2. apply dim_call_fixes in E2. destruct r2; [|discriminate].
    destruct (dim_call s2 col CallParams) as [s3 r3] eqn:E3. apply dim_call_fixes in E3. destruct r3; [|discriminate].
    intros E. apply dim_call_fixes in E. destruct E as [-> ->]. destruct E3 as [-> ->]. destruct E2 as [-> ->]. reflexivity.
  - intros E. apply kernel_fixes in E. destruct E as [-> ->]. reflexivity.
Qed.
Lemma same_call_data o o' d : same_call o o' -> data_after o d = data_after o' d.
Proof. destruct o, o'; cbn [same_call]; try contradiction; try reflexivity; try (intros [-> ->]; reflexivity); intros ->; reflexivity. Qed.

(** The engine's operations on the data: the same call on every state, each succeeding. *)
Theorem C72_table_all : forall m (ops : nat -> sop) e l, shows e l -> one_table l ->
  (forall p q, same_call (ops p) (ops q)) ->
  (forall p s, nth_error l p = Some s -> snd (run_op s (ops p)) = Ok tt) ->
  exists e' l', modify_all m (fun p s => run_op s (ops p)) None e = (e', Ok tt) /\ shows e' l' /\ length l' = length l /\ one_table l'.
Proof.
  intros m ops e l Sh T C Hok. destruct (C40_all m (fun p s => run_op s (ops p)) None e l Sh I) as [e' [l' [E [S' [L R]]]]].
  { intros p s Ep. exists tt. exact (Hok p s Ep). }
  exists e', l'. split; [exact E|]. split; [exact S'|]. split; [exact L|].
  assert (G : forall s', In s' l' -> exists p s, nth_error l p = Some s /\ (s_outs s', s_X s') = data_after (ops 0%nat) (s_outs s, s_X s)).
  { intros s' Hs. apply In_nth_error in Hs. destruct Hs as [p Hp].
    assert (Hl : (p < length l)%nat) by (rewrite <- L; apply nth_error_Some; congruence).
    destruct (nth_error l p) as [s|] eqn:Es; [|apply nth_error_None in Es; lia]. exists p, s. split; [exact Es|].
    rewrite (R p s Es) in Hp. injection Hp as <-. rewrite (same_call_data (ops 0%nat) (ops p) _ (C _ _)). apply op_data.
    rewrite (surjective_pairing (run_op s (ops p))), (Hok p s Es). reflexivity. }
  intros a b Ha Hb. destruct (G a Ha) as [p [s [Es Ea]]]. destruct (G b Hb) as [q [t [Et Eb]]].
  destruct (T s t (nth_error_In _ _ Es) (nth_error_In _ _ Et)) as [T1 T2]. rewrite T1, T2, <- Eb in Ea. injection Ea as E1 E2. split; assumption.
Qed.
Print Assumptions C72_table_all.
(** Inference on any selection of states. *)
Theorem C72_table_inference : forall m (ks : nat -> kernel) e l statenos ps, shows e l -> one_table l ->
  selects (length l) statenos ps -> NoDup ps ->
  (forall p s, In p ps -> nth_error l p = Some s -> snd (run_kernel s (ks p)) = Ok tt) ->
  exists e' l', modify_selected m (fun p s => run_kernel s (ks p)) statenos e = (e', Ok tt) /\ shows e' l' /\
    length l' = length l /\ one_table l'.
Proof.
  intros m ks e l statenos ps Sh T Se N Hok.
  destruct (C40_selected m (fun p s => run_kernel s (ks p)) e l statenos ps Sh Se N) as [e' [l' [E [S' [L R]]]]].
  { intros p s Hp Ep. exists tt. exact (Hok p s Hp Ep). }
  exists e', l'. split; [exact E|]. split; [exact S'|]. split; [exact L|].
  assert (G : forall s', In s' l' -> exists s, In s l /\ same_table s s').
  { intros s' Hs. apply In_nth_error in Hs. destruct Hs as [p Hp].
    assert (Hl : (p < length l)%nat) by (rewrite <- L; apply nth_error_Some; congruence).
    destruct (nth_error l p) as [s|] eqn:Es; [|apply nth_error_None in Es; lia]. exists s. split; [exact (nth_error_In _ _ Es)|].
    rewrite (R p s Es) in Hp. injection Hp as <-. destruct (in_dec Nat.eq_dec p ps); [|split; reflexivity].
    destruct (run_kernel s (ks p)) as [t r] eqn:Ek. apply kernel_fixes in Ek. destruct Ek as [E1 E2]. cbn [fst]. split; congruence. }
  intros a b Ha Hb. destruct (G a Ha) as [s [Hs [E1 E2]]]. destruct (G b Hb) as [t [Ht [E3 E4]]].
  destruct (T s t Hs Ht) as [T1 T2]. split; congruence.
Qed.
Print Assumptions C72_table_inference.

(* ------------------------------------------------------------------ *)
(** ** After a column that was refused *)

(** A state that lists a column without a view cannot be written. *)
Lemma unplaced_unwritten s c : In c (s_outs s) -> dget c (s_zv s) = None -> exists y, state_to_metadata s = Err y.
Proof.
  intros H E. unfold state_to_metadata. destruct (data_rows (s_X s)) as [rows|]; [|cbn; eauto]. cbn [rbind].
  destruct (rsequence (map (dim_for s) (s_outs s))) as [ds|] eqn:Ed; [|cbn; eauto]. exfalso. apply rsequence_ok in Ed.
  assert (I : In (dim_for s c) (map Ok ds)) by (rewrite <- Ed; apply in_map; exact H). apply in_map_iff in I. destruct I as [a [I _]].
  unfold dim_for in I. rewrite E in I. discriminate.
Qed.
(** incorporate_dim lists the column (state.py:208-209) before the steps that can fail. *)
Theorem C72_listed : forall s T col k v seed d hd ho s' x,
  state_incorporate_dim s T col k v seed d hd ho = (s', Err x) ->
  s' = s \/ (In col (s_outs s') /\ s_X s' = dset col T (s_X s)).
Proof.
  intros s T col k v seed d hd ho s' x. unfold state_incorporate_dim.
  destruct (n_rows s) as [n|]; [|intros E; injection E as <- _; left; reflexivity].
  destruct (negb _); [intros E; injection E as <- _; left; reflexivity|].
  destruct (zmem col (s_outs s)); [intros E; injection E as <- _; left; reflexivity|].
  set (s1 := set_outs _ _). assert (H1 : In col (s_outs s1) /\ s_X s1 = dset col T (s_X s)).
  { split; [unfold s1; cbn [s_outs set_outs]; apply in_or_app; right; left; reflexivity|reflexivity]. }
  destruct (match dget _ (s_views s1) with Some w => Ok w | None => _ end) as [w|]; [|intros E; injection E as <- _; right; exact H1].
  destruct (col_make k) as [a r]. destruct r as [[]|]; [|intros E; injection E as <- _; right; exact H1].
  destruct (view_incorporate_dim _ w col a true) as [[w1 a1] r1].
  destruct (rbind r1 _); [|intros E; injection E as <- _; right; exact H1].
  destruct (crp_incorporate _ col _) as [c r2]. destruct r2; [|intros E; injection E as <- _; right; exact H1].
  set (s4 := set_scrp _ c). assert (H4 : In col (s_outs s4) /\ s_X s4 = dset col T (s_X s)) by exact H1.
  destruct v as [v|].
  - intros E. apply dim_call_fixes in E. destruct E as [-> ->]. right. exact H4.
  - destruct (transition_dims _ 1 s4 [col]) as [s5 r3] eqn:E5. apply columns_fixes in E5. destruct E5 as [O5 X5].
    destruct r3 as [[]|].
    + intros E. apply dim_call_fixes in E. destruct E as [-> ->]. right. rewrite O5, X5. exact H4.
    + intros E. injection E as <- _. right. rewrite O5, X5. exact H4.
Qed.
Print Assumptions C72_listed.

(** A new column whose cells its class refuses. *)
Definition bad_M : model := ex_reg (fun _ => Err ValueError).
Definition bad_op : sop :=
  OAdd [Some 1] 7 (CSpec (ADim bad_M (dim_new bad_M tt true [] (fun _ => tt))) [] (fun _ => 0%nat)) (Some 0%Z)
    (VSeed 1 [1] (fun _ _ => 0%nat)) (ex_draws 0) (fun _ _ => 0%nat) [].
Definition two_e : engine state := Engine [one_s; one_s] [0; 1]%nat.

Lemma one_savable : savable one_again one_s.
Proof.
  split; [exact one_reach|]. split; [exists 1%Z; split; [reflexivity|lia]|]. split; [exact one_outs|]. split; [exact one_written|].
  exact one_order.
Qed.
Lemma two_shows : shows two_e [one_s; one_s].
Proof. split; [repeat constructor; cbn; intuition discriminate|repeat constructor]. Qed.
Lemma bad_refused : snd (run_op one_s bad_op) = Err ValueError.
Proof. reflexivity. Qed.

(** Before the call the engine can be written and built again.  With [map] the call raises,
    and then it cannot be written; with parallel_map the call raises and nothing has
    changed. *)
Theorem C72_unsaved_refuted : exists e l o em e' l', shows e l /\ Forall (savable one_again) l /\ one_table l /\
  engine_to_metadata l = Ok em /\
  modify_all Map (fun _ s => run_op s o) None e = (e', Err ValueError) /\ shows e' l' /\
  (exists y, engine_to_metadata l' = Err y) /\
  forall asg, modify_all (Parallel asg) (fun _ s => run_op s o) None e = (e, Err RuntimeError).
Proof.
  assert (T : one_table [one_s; one_s]) by (intros s s' [<-|[<-|[]]] [<-|[<-|[]]]; split; reflexivity).
  destruct (C72_saved Map [one_again; one_again] [one_s; one_s]) as [em [_ [E _]]].
  { discriminate. }
  { constructor; [exact one_savable|constructor; [exact one_savable|constructor]]. }
  { exact T. }
  pose (bad := fst (run_op one_s bad_op)).
  assert (Sel : forall n, selects n [] (seq 0 n)) by (intros n; left; split; reflexivity).
  destruct (C40_raises_map (fun _ s => run_op s bad_op) two_e [one_s; one_s] [] [0; 1]%nat [] 0%nat [1%nat] one_s ValueError
    two_shows (Sel 2%nat)) as [e' [l' [E' [Sh [L R]]]]].
  { repeat constructor; cbn; intuition discriminate. }
  { reflexivity. }
  { intros q s []. }
  { reflexivity. }
  { exact bad_refused. }
  exists two_e, [one_s; one_s], bad_op, em, e', l'. split; [exact two_shows|]. split; [constructor; [exact one_savable|constructor; [exact one_savable|constructor]]|]. split; [exact T|].
  split; [exact E|]. split.
  { rewrite (modify_all_selected Map _ None two_e [one_s; one_s] two_shows I). exact E'. }
  split; [exact Sh|]. split.
  - pose proof (R 0%nat one_s eq_refl) as R0. cbn [app] in R0. destruct (in_dec Nat.eq_dec 0%nat [0%nat]) as [_|N]; [|exfalso; apply N; left; reflexivity].
    destruct (unplaced_unwritten bad 7%Z) as [y Hy]; [right; left; reflexivity|reflexivity|].
    apply (proj1 (proj2 C72_refused) l' bad y); [exact (nth_error_In _ _ R0)|exact Hy].
  - intros asg. rewrite (modify_all_selected (Parallel asg) _ None two_e [one_s; one_s] two_shows I).
    apply (C40_raises_parallel asg (fun _ s => run_op s bad_op) two_e [one_s; one_s] [] [0; 1]%nat 0%nat one_s ValueError two_shows (Sel 2%nat)).
    + repeat constructor; cbn; intuition discriminate.
    + left. reflexivity.
    + reflexivity.
    + exact bad_refused.
Qed.
Print Assumptions C72_unsaved_refuted.

(* ------------------------------------------------------------------ *)
(** ** Examples *)

(** Two states of a binary and a conditional column meet the premises. *)
Example C72_saved_ex : [cond_s; cond_s] <> [] /\ Forall2 savable [one_again; one_again] [cond_s; cond_s] /\ one_table [cond_s; cond_s].
Proof.
  assert (H : savable one_again cond_s).
  { destruct C41_state_ex as [H1 [H2 [H3 [H4 [H5 [H6 H7]]]]]]. unfold savable. split; [exact H1|]. split; [exists 1%Z; split; assumption|]. tauto. }
  split; [discriminate|]. split; [constructor; [exact H|constructor; [exact H|constructor]]|]. intros s s' [<-|[<-|[]]] [<-|[<-|[]]]; split; reflexivity.
Qed.
Example C72_refused_ex : state_to_metadata (fst (run_op one_s bad_op)) = Err KeyError.
Proof. reflexivity. Qed.
Example C72_first_ex : exists em, engine_to_metadata [one_s; cond_s] = Ok em /\ length (em_states em) = 2%nat /\
  em_X em <> [] /\ data_rows (s_X one_s) = Ok (em_X em) /\ data_rows (s_X cond_s) <> Ok (em_X em).
Proof. eexists. split; [reflexivity|]. split; [reflexivity|]. split; [discriminate|]. split; [reflexivity|discriminate]. Qed.
(** Both states are given the column of [cond_op]. *)
Example C72_table_all_ex : shows two_e [one_s; one_s] /\ one_table [one_s; one_s] /\ same_call cond_op cond_op /\
  snd (run_op one_s cond_op) = Ok tt.
Proof.
  split; [exact two_shows|]. split; [intros s s' [<-|[<-|[]]] [<-|[<-|[]]]; split; reflexivity|]. split; [split; reflexivity|].
  rewrite cond_step. reflexivity.
Qed.
Example C72_table_inference_ex : selects 2 [1%Z] [1%nat] /\ snd (run_kernel one_s (KGrids [0%Z] (fun _ => []) (fun _ _ => 0%nat))) = Ok tt.
Proof. split; [right; split; [discriminate|]; repeat constructor|reflexivity]. Qed.
Example C72_listed_ex : exists s', run_op one_s bad_op = (s', Err ValueError) /\ s_outs s' = [0; 7]%Z.
Proof. eexists. split; reflexivity. Qed.
