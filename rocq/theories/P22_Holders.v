(** C50: the components outside of CrossCat hold the rows they were given, and queries on
    a stored row use its observed cells; and (C48) the positions FactorAnalysis uses. *)
From Verif Require Import Holders ListFacts BaseFacts PrimFacts LogSpaceFacts.
From Coq Require Import List ZArith Reals Bool Lia Lra.
Import ListNotations.
Local Open Scope Z_scope.

(* ------------------------------------------------------------------ *)
(** ** Specification: the ledger of rows *)

(** The calls of a history, and the rows a component must hold after it: what was accepted
    and not removed since, in the order of arrival. *)
Inductive call : Type := Inc (rowid : Z) (obs inputs : dict ext) | Uninc (rowid : Z).
Definition entry : Type := (Z * (dict ext * dict ext))%type.
Definition has_row (L : list entry) (r : Z) : bool := existsb (fun e => fst e =? r) L.
Definition ledger_step (accepts : dict ext -> dict ext -> bool) (L : list entry) (c : call) : list entry :=
  match c with
  | Inc r o i => if has_row L r then L else if accepts o i then L ++ [(r, (o, i))] else L
  | Uninc r => filter (fun e => negb (fst e =? r)) L
  end.
Definition ledger accepts (cs : list call) : list entry := fold_left (ledger_step accepts) cs [].

Lemma has_row_in L r : has_row L r = true <-> In r (map fst L).
Proof.
  unfold has_row. rewrite existsb_exists, in_map_iff. split.
  - intros (e & He & E). apply Z.eqb_eq in E. exists e. auto.
  - intros (e & E & He). exists e. split; [exact He|]. apply Z.eqb_eq. exact E.
Qed.
Lemma ledger_NoDup accepts cs : NoDup (map fst (ledger accepts cs)).
Proof.
  assert (H : forall L, NoDup (map fst L) -> NoDup (map fst (fold_left (ledger_step accepts) cs L))).
  { induction cs as [|c cs IH]; intros L HL; [exact HL|]. cbn [fold_left]. apply IH.
    destruct c as [r o i|r]; cbn [ledger_step].
    - destruct (has_row L r) eqn:E; [exact HL|]. destruct (accepts o i); [|exact HL].
      rewrite map_app. apply NoDup_Add with (a := r) (l := map fst L).
      + cbn [map fst]. rewrite <- (app_nil_r (map fst L)) at 1. apply Add_app.
      + split; [exact HL|]. rewrite <- has_row_in, E. discriminate.
    - clear IH. induction L as [|e L IH]; [constructor|]. cbn [map] in HL. inversion HL as [|? ? Hn HL']; subst.
      cbn [filter]. destruct (negb _); [|auto]. cbn [map]. constructor; [|auto].
      intros Hi. apply Hn. apply in_map_iff in Hi. destruct Hi as (e' & E & Hi). apply filter_In in Hi.
      apply in_map_iff. exists e'. tauto. }
  apply H. constructor.
Qed.

(** Deleting a key of a dictionary without duplicates. *)
Lemma ddel_filter {A} k (d : dict A) : NoDup (dkeys d) -> ddel k d = filter (fun e => negb (fst e =? k)) d.
Proof.
  induction d as [|[k' v] d IH]; intros H; [reflexivity|]. cbn in H. inversion H as [|? ? Hn H']; subst.
  cbn [ddel filter fst]. rewrite Z.eqb_sym. destruct (Z.eqb_spec k' k) as [->|Ne]; cbn [negb].
  - clear - Hn. symmetry. induction d as [|[j w] d IH]; [reflexivity|]. cbn [filter fst].
    destruct (Z.eqb_spec j k) as [->|Nj]; [exfalso; apply Hn; left; reflexivity|]. cbn [negb].
    rewrite IH; [reflexivity|]. intros Hi. apply Hn. right. exact Hi.
  - rewrite IH by exact H'. reflexivity.
Qed.
Lemma filter_map_key {A B} (p : Z -> bool) (f : A -> B) (d : dict A) :
  filter (fun e => p (fst e)) (map (fun e => (fst e, f (snd e))) d) =
  map (fun e => (fst e, f (snd e))) (filter (fun e => p (fst e)) d).
Proof. induction d as [|[k v] d IH]; [reflexivity|]. cbn [map filter fst snd]. destruct (p k); cbn [map fst snd]; rewrite IH; reflexivity. Qed.
Lemma dget_map {A B} (f : A -> B) (d : dict A) k : dget k (map (fun e => (fst e, f (snd e))) d) = option_map f (dget k d).
Proof. exact (dget_dmap f k d). Qed.
Lemma keys_map {A B} (f : A -> B) (d : dict A) : dkeys (map (fun e => (fst e, f (snd e))) d) = dkeys d.
Proof. exact (dkeys_dmap f d). Qed.
Lemma has_row_dmem L r : has_row L r = dmem r L.
Proof.
  destruct (has_row L r) eqn:E.
  - symmetry. apply dmem_in. apply has_row_in in E. exact E.
  - symmetry. apply dmem_false. unfold dkeys. rewrite <- has_row_in, E. discriminate.
Qed.

(* ------------------------------------------------------------------ *)
(** ** Regressions *)

(** What the rows must be: for each entry of the ledger, the value of the target and the
    code of the inputs, as [enc] gives them. *)
Definition holds {T} (enc : dict ext -> dict ext -> res (T * list ext)) (L : list entry) (s : rows T) : Prop :=
  Forall2 (fun (e : entry) xe => fst xe = fst e /\ exists y, enc (fst (snd e)) (snd (snd e)) = Ok (snd xe, y)) L (w_x s) /\
  Forall2 (fun (e : entry) ye => fst ye = fst e /\ exists x, enc (fst (snd e)) (snd (snd e)) = Ok (x, snd ye)) L (w_Y s) /\
  w_N s = Z.of_nat (length L).

(** The common shape of the three incorporate methods. *)
Definition gen_incorporate {T} (enc : dict ext -> dict ext -> res (T * list ext)) (s : rows T) rowid obs inputs : rows T * res unit :=
  if dmem rowid (w_x s) then (s, Err AssertionError)
  else if dmem rowid (w_Y s) then (s, Err AssertionError)
  else match enc obs inputs with
       | Err e => (s, Err e)
       | Ok (x, y) => (Rows (dset rowid x (w_x s)) (dset rowid y (w_Y s)) (w_N s + 1), Ok tt)
       end.
Definition gen_step {T} (enc : dict ext -> dict ext -> res (T * list ext)) (s : rows T) (c : call) : rows T * res unit :=
  match c with
  | Inc r o i => gen_incorporate enc s r o i
  | Uninc r => rows_unincorporate s r
  end.

Lemma Forall2_keys {A} (P : entry -> A -> Prop) L (d : dict A) :
  Forall2 (fun (e : entry) xe => fst xe = fst e /\ P e (snd xe)) L d -> dkeys d = map fst L.
Proof. induction 1 as [|e [k v] L d [E _] _ IH]; [reflexivity|]. cbn [dkeys map fst] in *. unfold dkeys in *. cbn [map fst]. rewrite E, IH. reflexivity. Qed.
Lemma Forall2_filter_keys {A} (P : entry -> A -> Prop) (p : Z -> bool) L (d : dict A) :
  Forall2 (fun (e : entry) xe => fst xe = fst e /\ P e (snd xe)) L d ->
  Forall2 (fun (e : entry) xe => fst xe = fst e /\ P e (snd xe)) (filter (fun e => p (fst e)) L) (filter (fun e => p (fst e)) d).
Proof.
  induction 1 as [|e [k v] L d [E H] _ IH]; [constructor|]. cbn in E. subst k. cbn [filter fst].
  destruct (p (fst e)); [constructor; auto|exact IH].
Qed.

Lemma filter_absent r (L : list entry) : has_row L r = false -> filter (fun e => negb (fst e =? r)) L = L.
Proof.
  induction L as [|e L IH]; [reflexivity|]. unfold has_row. cbn [existsb filter]. intros H.
  apply orb_false_iff in H. destruct H as [H1 H2]. rewrite H1. cbn [negb]. rewrite IH; [reflexivity|exact H2].
Qed.
Lemma filter_present_length r (L : list entry) : NoDup (map fst L) -> has_row L r = true ->
  Z.of_nat (length (filter (fun e => negb (fst e =? r)) L)) = Z.of_nat (length L) - 1.
Proof.
  induction L as [|e L IH]; [discriminate|]. unfold has_row. cbn [existsb filter map length]. intros Hn H.
  inversion Hn as [|? ? Hi Hn']; subst. destruct (Z.eqb_spec (fst e) r) as [E|Ne]; cbn [negb orb] in *.
  - rewrite filter_absent; [rewrite Nat2Z.inj_succ; unfold entry; lia|]. destruct (has_row L r) eqn:X; [|reflexivity]. apply has_row_in in X. congruence.
  - cbn [length]. rewrite !Nat2Z.inj_succ, IH; auto. lia.
Qed.

Lemma gen_step_spec {T} (enc : dict ext -> dict ext -> res (T * list ext)) (s : rows T) L c :
  NoDup (map fst L) -> holds enc L s ->
  let '(s', r) := gen_step enc s c in
  holds enc (ledger_step (fun o i => is_ok (enc o i)) L c) s' /\
  match c with
  | Inc k o i => (r = Ok tt <-> has_row L k = false /\ is_ok (enc o i) = true) /\ (r <> Ok tt -> s' = s)
  | Uninc k => (r = Ok tt <-> has_row L k = true) /\ (has_row L k = false -> r = Err ValueError /\ s' = s)
  end.
Proof.
  intros Hn (Hx & Hy & HN).
  pose proof (Forall2_keys (fun e v => exists y, enc (fst (snd e)) (snd (snd e)) = Ok (v, y)) _ _ Hx) as Kx.
  pose proof (Forall2_keys (fun e v => exists x, enc (fst (snd e)) (snd (snd e)) = Ok (x, v)) _ _ Hy) as Ky.
  assert (Mx : forall k, dmem k (w_x s) = has_row L k).
  { intros k. destruct (has_row L k) eqn:E; [apply dmem_in|apply dmem_false]; rewrite Kx, <- has_row_in, E; congruence. }
  assert (My : forall k, dmem k (w_Y s) = has_row L k).
  { intros k. destruct (has_row L k) eqn:E; [apply dmem_in|apply dmem_false]; rewrite Ky, <- has_row_in, E; congruence. }
  destruct c as [k o i|k]; cbn [gen_step ledger_step].
  - unfold gen_incorporate. rewrite Mx, My. destruct (has_row L k) eqn:E.
    + split; [repeat split; assumption|]. split; [|auto]. split; [discriminate|intros [X _]; discriminate].
    + destruct (enc o i) as [[x y]|e] eqn:En; cbn [is_ok].
      * split; [|split; [tauto|congruence]].
        assert (Nk : ~ In k (map fst L)) by (rewrite <- has_row_in, E; discriminate).
        split; [|split]; cbn [w_x w_Y w_N].
        -- rewrite dset_fresh by (rewrite Kx; exact Nk). apply Forall2_app; [exact Hx|].
           constructor; [|constructor]. cbn. eauto.
        -- rewrite dset_fresh by (rewrite Ky; exact Nk). apply Forall2_app; [exact Hy|].
           constructor; [|constructor]. cbn. eauto.
        -- rewrite app_length. cbn [length]. lia.
      * split; [repeat split; assumption|]. split; [|auto]. split; [discriminate|intros [_ X]; discriminate].
  - unfold rows_unincorporate. rewrite Mx, My. destruct (has_row L k) eqn:E; cbn [negb].
    + split; [|split; [tauto|discriminate]].
      split; [|split]; cbn [w_x w_Y w_N].
      * rewrite ddel_filter by (rewrite Kx; exact Hn).
        exact (Forall2_filter_keys (fun e v => exists y, enc (fst (snd e)) (snd (snd e)) = Ok (v, y)) (fun j => negb (j =? k)) _ _ Hx).
      * rewrite ddel_filter by (rewrite Ky; exact Hn).
        exact (Forall2_filter_keys (fun e v => exists x, enc (fst (snd e)) (snd (snd e)) = Ok (x, v)) (fun j => negb (j =? k)) _ _ Hy).
      * rewrite filter_present_length by assumption. lia.
    + rewrite filter_absent by exact E. split; [repeat split; assumption|]. split; [|auto].
      split; discriminate.
Qed.

Definition gen_run {T} (enc : dict ext -> dict ext -> res (T * list ext)) (cs : list call) : rows T :=
  fold_left (fun s c => fst (gen_step enc s c)) cs rows0.
Lemma ledger_snoc accepts cs c : ledger accepts (cs ++ [c]) = ledger_step accepts (ledger accepts cs) c.
Proof. unfold ledger. rewrite fold_left_app. reflexivity. Qed.
Lemma gen_run_holds {T} (enc : dict ext -> dict ext -> res (T * list ext)) cs :
  holds enc (ledger (fun o i => is_ok (enc o i)) cs) (gen_run enc cs).
Proof.
  induction cs as [|c cs IH] using rev_ind; [repeat split; constructor|].
  rewrite ledger_snoc. unfold gen_run. rewrite fold_left_app. cbn [fold_left].
  pose proof (gen_step_spec enc _ _ c (ledger_NoDup _ cs) IH) as H.
  fold (gen_run enc cs). destruct (gen_step enc (gen_run enc cs) c) as [s' r]. exact (proj1 H).
Qed.

(** The two linear regressions. *)
Definition reg_step prep out (s : rows ext) (c : call) : rows ext * res unit :=
  match c with
  | Inc r o i => reg_incorporate prep out s r o i
  | Uninc r => rows_unincorporate s r
  end.
Definition reg_run prep out (cs : list call) : rows ext := fold_left (fun s c => fst (reg_step prep out s c)) cs rows0.
(** The rows a regression accepts: the observation has the target and preprocessing (of
    which C47_linreg and C47_ols say exactly what it accepts) succeeds. *)
Definition reg_accepts (prep : option (dict ext) -> dict ext -> res (option ext * list ext)) out (o i : dict ext) : bool :=
  dmem out o && is_ok (prep (Some o) i).
(** The target found by preprocessing is the one of the observation. *)
Definition takes_target (prep : option (dict ext) -> dict ext -> res (option ext * list ext)) out : Prop :=
  forall o i x y, dmem out o = true -> prep (Some o) i = Ok (x, y) -> x = dget out o.

Lemma target_of_some out o v : dmem out o = true -> target_of out (Some o) = Ok v -> v = dget out o.
Proof.
  intros M H. unfold target_of in H. destruct o as [|p o]; [discriminate|].
  destruct (dget out (p :: o)) as [w|]; [|discriminate]. destruct (eisnan w); [discriminate|]. injection H as <-. reflexivity.
Qed.
Lemma linreg_takes g : takes_target (linreg_preprocess g) (g_out g).
Proof.
  intros o i x y M H. unfold linreg_preprocess in H. destruct (dmem _ i); [discriminate|].
  destruct (target_of (g_out g) (Some o)) as [v|] eqn:T; cbn [rbind] in H; [|discriminate].
  apply (target_of_some _ _ _ M) in T. destruct (negb _); [discriminate|].
  destruct (rsequence _); cbn [rbind] in H; [|discriminate].
  destruct (dummy_code _ _); cbn [rbind] in H; [|discriminate]. destruct (negb _); [discriminate|]. congruence.
Qed.
Lemma ols_takes g : takes_target (ols_preprocess g) (g_out g).
Proof.
  intros o i x y M H. unfold ols_preprocess in H. destruct (dmem _ i); [discriminate|].
  destruct (target_of (g_out g) (Some o)) as [v|] eqn:T; cbn [rbind] in H; [|discriminate].
  apply (target_of_some _ _ _ M) in T. destruct (negb _); [discriminate|].
  destruct (rsequence _); cbn [rbind] in H; [|discriminate]. destruct (existsb _ _); [discriminate|].
  destruct (dummy_code _ _); cbn [rbind] in H; [|discriminate]. destruct (negb _); [discriminate|]. congruence.
Qed.

Definition reg_enc (prep : option (dict ext) -> dict ext -> res (option ext * list ext)) out (o i : dict ext) : res (ext * list ext) :=
  if negb (dmem out o) then Err ValueError
  else match prep (Some o) i with
       | Err e => Err e
       | Ok (None, _) => Err TypeError
       | Ok (Some x, y) => Ok (x, y)
       end.
Lemma reg_step_gen prep out s c : reg_step prep out s c = gen_step (reg_enc prep out) s c.
Proof.
  destruct c as [r o i|r]; [|reflexivity]. cbn [reg_step gen_step]. unfold reg_incorporate, gen_incorporate, reg_enc.
  destruct (dmem r (w_x s)), (dmem r (w_Y s)), (dmem out o); cbn [negb]; try reflexivity.
  destruct (prep (Some o) i) as [[[x|] y]|]; reflexivity.
Qed.
Lemma reg_enc_ok prep out o i : takes_target prep out -> is_ok (reg_enc prep out o i) = reg_accepts prep out o i.
Proof.
  intros H. unfold reg_enc, reg_accepts. destruct (dmem out o) eqn:M; cbn [negb andb]; [|reflexivity].
  destruct (prep (Some o) i) as [[[x|] y]|] eqn:P; try reflexivity.
  specialize (H o i None y M P). apply dmem_in in M. apply in_dkeys_Some in M. destruct M as [v M]. congruence.
Qed.
Lemma ledger_ext a b cs : (forall o i, a o i = b o i) -> ledger a cs = ledger b cs.
Proof.
  intros H. unfold ledger. generalize (@nil entry). induction cs as [|c cs IH]; intros L; [reflexivity|].
  cbn [fold_left]. rewrite IH. f_equal. destruct c; cbn [ledger_step]; [rewrite H|]; reflexivity.
Qed.

(** After every history the rows of a linear regression are those of the ledger: for each,
    in order of arrival, its id with the observed target, and its id with the code of its
    inputs; the count is their number.  A rejected call leaves everything as it is. *)
Definition reg_reports prep out (run : list call -> rows ext) (step : rows ext -> call -> rows ext * res unit) : Prop :=
  forall cs, let L := ledger (reg_accepts prep out) cs in let s := run cs in
    w_x s = map (fun e : entry => (fst e, match dget out (fst (snd e)) with Some v => v | None => NaN end)) L /\
    Forall (fun e : entry => exists v, dget out (fst (snd e)) = Some v) L /\
    Forall2 (fun (e : entry) ye => fst ye = fst e /\ exists x, prep (Some (fst (snd e))) (snd (snd e)) = Ok (x, snd ye)) L (w_Y s) /\
    w_N s = Z.of_nat (length L) /\ NoDup (map fst L) /\
    (forall r o i, let '(s', a) := step s (Inc r o i) in
       (a = Ok tt <-> ~ In r (map fst L) /\ reg_accepts prep out o i = true) /\ (a <> Ok tt -> s' = s)) /\
    (forall r, let '(s', a) := step s (Uninc r) in
       (a = Ok tt <-> In r (map fst L)) /\ (~ In r (map fst L) -> a = Err ValueError /\ s' = s)).

Lemma not_has_row L r : has_row L r = false <-> ~ In r (map fst L).
Proof. rewrite <- has_row_in. destruct (has_row L r); split; congruence. Qed.

Lemma reg_reports_all prep out : takes_target prep out ->
  reg_reports prep out (reg_run prep out) (reg_step prep out).
Proof.
  intros Ht cs L s.
  assert (R : s = gen_run (reg_enc prep out) cs).
  { unfold s, reg_run, gen_run. generalize (@rows0 ext). induction cs as [|c cs IH]; intros s0; [reflexivity|].
    cbn [fold_left]. rewrite reg_step_gen. apply IH. }
  assert (EL : L = ledger (fun o i => is_ok (reg_enc prep out o i)) cs).
  { apply ledger_ext. intros o i. symmetry. apply reg_enc_ok, Ht. }
  assert (HL : NoDup (map fst L)) by apply ledger_NoDup.
  pose proof (gen_run_holds (reg_enc prep out) cs) as H. rewrite <- EL, <- R in H.
  destruct H as (Hx & Hy & HN).
  assert (Enc : forall o i x y, reg_enc prep out o i = Ok (x, y) -> dget out o = Some x /\ prep (Some o) i = Ok (Some x, y)).
  { intros o i x y E. unfold reg_enc in E. destruct (dmem out o) eqn:M; cbn [negb] in E; [|discriminate].
    destruct (prep (Some o) i) as [[[x'|] y']|] eqn:P; try discriminate. injection E as -> ->.
    split; [symmetry; exact (Ht o i _ _ M P)|reflexivity]. }
  split; [|split; [|split; [|split; [exact HN|split; [exact HL|split]]]]].
  - clear - Hx Enc. induction Hx as [|e [k v] L d [E [y Ey]] _ IH]; [reflexivity|]. cbn in E. subst k. cbn [map].
    rewrite IH. f_equal. cbn in Ey. apply Enc in Ey. destruct Ey as [-> _]. reflexivity.
  - clear - Hx Enc. induction Hx as [|e [k v] L d [E [y Ey]] _ IH]; constructor; [|exact IH].
    cbn in Ey. apply Enc in Ey. destruct Ey as [Ey _]. eauto.
  - clear - Hy Enc. induction Hy as [|e [k v] L d [E [y Ey]] _ IH]; constructor; [|exact IH].
    split; [exact E|]. cbn in *. apply Enc in Ey. destruct Ey as [_ Ey]. eauto.
  - intros r o i. rewrite reg_step_gen.
    pose proof (gen_step_spec (reg_enc prep out) s L (Inc r o i) HL (conj Hx (conj Hy HN))) as G.
    destruct (gen_step _ s (Inc r o i)) as [s' a]. destruct G as [_ G].
    rewrite reg_enc_ok, not_has_row in G by exact Ht. exact G.
  - intros r. rewrite reg_step_gen.
    pose proof (gen_step_spec (reg_enc prep out) s L (Uninc r) HL (conj Hx (conj Hy HN))) as G.
    destruct (gen_step _ s (Uninc r)) as [s' a]. destruct G as [_ G].
    rewrite not_has_row, has_row_in in G. exact G.
Qed.

Theorem C50_linreg : forall g, reg_reports (linreg_preprocess g) (g_out g)
  (reg_run (linreg_preprocess g) (g_out g)) (reg_step (linreg_preprocess g) (g_out g)).
Proof. intros g. apply reg_reports_all, linreg_takes. Qed.
Print Assumptions C50_linreg.
Theorem C50_ols : forall g, reg_reports (ols_preprocess g) (g_out g)
  (reg_run (ols_preprocess g) (g_out g)) (reg_step (ols_preprocess g) (g_out g)).
Proof. intros g. apply reg_reports_all, ols_takes. Qed.
Print Assumptions C50_ols.

(** Concrete case: output 7 regressed on input 8; a row is stored, one is refused because
    its target is missing, one is removed again. *)
Definition ex_reg : reg := Reg 7 [8] 2 [].
Definition ex_calls : list call :=
  [Inc 0 [(7, Fin 5)] [(8, Fin 1)]; Inc 1 [(9, Fin 5)] [(8, Fin 1)]; Inc 2 [(7, Fin 6)] [(8, Fin 2)]; Uninc 0; Uninc 4].
Example C50_linreg_ex :
  ledger (reg_accepts (linreg_preprocess ex_reg) 7) ex_calls = [(2, ([(7, Fin 6)], [(8, Fin 2)]))] /\
  reg_run (linreg_preprocess ex_reg) 7 ex_calls = Rows [(2, Fin 6)] [(2, [Fin 1; Fin 2])] 1.
Proof. split; reflexivity. Qed.
Example C50_ols_ex :
  ledger (reg_accepts (ols_preprocess ex_reg) 7) ex_calls = [(2, ([(7, Fin 6)], [(8, Fin 2)]))] /\
  reg_run (ols_preprocess ex_reg) 7 ex_calls = Rows [(2, Fin 6)] [(2, [Fin 2])] 1.
Proof. split; reflexivity. Qed.

(** Queries of the regressions on a stored row: simulate returns its target (as often as
    asked for, in the case of LinearRegression), logpdf raises AssertionError. *)
Lemma zlist_eqb_eq a b : zlist_eqb a b = true <-> a = b.
Proof.
  revert b. induction a as [|x a IH]; intros [|y b]; cbn; split; intros H; try discriminate; auto.
  - apply andb_true_iff in H. destruct H as [H1 H2]. apply Z.eqb_eq in H1. apply IH in H2. congruence.
  - injection H as -> ->. rewrite Z.eqb_refl. apply IH. reflexivity.
Qed.
Lemma simulate_many_const (r : dict ext) N :
  simulate_many (fun _ => Ok r) N = Ok (match N with None => One_row r | Some n => Rows_list (repeat r (Z.to_nat n)) end).
Proof.
  destruct N as [n|]; [|reflexivity]. unfold simulate_many.
  assert (H : forall m k, rsequence (map (fun _ : nat => Ok r) (seq k m)) = Ok (repeat r m)).
  { induction m as [|m IH]; intros k; [reflexivity|]. cbn [seq map rsequence rbind repeat]. rewrite IH. reflexivity. }
  rewrite H. reflexivity.
Qed.

Definition with_target (out : Z) (v : ext) : dict ext := [(out, v)].
Lemma reg_stored prep out cs r o i : takes_target prep out ->
  In (r, (o, i)) (ledger (reg_accepts prep out) cs) ->
  exists v, dget out o = Some v /\ dget r (w_x (reg_run prep out cs)) = Some v.
Proof.
  intros Ht Hi. destruct (reg_reports_all prep out Ht cs) as (Hx & Hv & _ & _ & Hn & _).
  rewrite Forall_forall in Hv. destruct (Hv _ Hi) as [v E]. exists v. split; [exact E|].
  apply dget_In_NoDup.
  - rewrite Hx. unfold dkeys. rewrite map_map. exact Hn.
  - rewrite Hx. apply in_map_iff. exists (r, (o, i)). cbn [fst snd] in *. rewrite E. auto.
Qed.

Theorem C50_linreg_stored : forall g cs r o i sample density inputs targets cons N,
  In (r, (o, i)) (ledger (reg_accepts (linreg_preprocess g) (g_out g)) cs) ->
  let s := reg_run (linreg_preprocess g) (g_out g) cs in
  exists v, dget (g_out g) o = Some v /\
    linreg_simulate g sample s r [g_out g] [] inputs N =
      Ok (match N with None => One_row (with_target (g_out g) v)
                     | Some n => Rows_list (repeat (with_target (g_out g) v) (Z.to_nat n)) end) /\
    reg_logpdf (linreg_preprocess g) density s r targets cons inputs = Err AssertionError.
Proof.
  intros g cs r o i sample density inputs targets cons N Hi s.
  destruct (reg_stored _ _ _ _ _ _ (linreg_takes g) Hi) as (v & E & D). exists v. split; [exact E|]. split.
  - unfold linreg_simulate. rewrite (proj2 (zlist_eqb_eq [g_out g] [g_out g]) eq_refl). cbn [negb]. fold s in D. rewrite D.
    apply (simulate_many_const (with_target (g_out g) v)).
  - unfold reg_logpdf. replace (dmem r (w_x s)) with true; [reflexivity|].
    symmetry. apply dmem_in. eapply dget_Some_in. exact D.
Qed.
Print Assumptions C50_linreg_stored.

(** The density of a new row is computed from exactly the rows of the ledger. *)
Theorem C50_linreg_logpdf : forall g cs r density targets inputs,
  let L := ledger (reg_accepts (linreg_preprocess g) (g_out g)) cs in
  let s := reg_run (linreg_preprocess g) (g_out g) cs in
  ~ In r (map fst L) ->
  exists Ys, Forall2 (fun (e : entry) y => exists x, linreg_preprocess g (Some (fst (snd e))) (snd (snd e)) = Ok (x, y)) L Ys /\
  reg_logpdf (linreg_preprocess g) density s r targets [] inputs =
    match linreg_preprocess g (Some targets) inputs with
    | Err e => Err e
    | Ok (x, y) => density x y (Z.of_nat (length L)) Ys
                     (map (fun e : entry => match dget (g_out g) (fst (snd e)) with Some v => v | None => NaN end) L)
    end.
Proof.
  intros g cs r density targets inputs L s Hr.
  destruct (C50_linreg g cs) as (Hx & Hv & Hy & HN & Hn & _). fold L in Hx, Hv, Hy, HN, Hn. fold s in Hx, Hy, HN.
  exists (map snd (w_Y s)). split.
  - clear - Hy. induction Hy as [|e [k y] L d [_ H] _ IH]; constructor; [exact H|exact IH].
  - unfold reg_logpdf. replace (dmem r (w_x s)) with false.
    + destruct (linreg_preprocess g (Some targets) inputs) as [[x y]|]; [|reflexivity]. cbn [rbind].
      rewrite HN, Hx, map_map. cbn [snd]. reflexivity.
    + symmetry. apply dmem_false. rewrite Hx. unfold dkeys. rewrite map_map. exact Hr.
Qed.
Print Assumptions C50_linreg_logpdf.

Theorem C50_ols_stored : forall g cs r o i mean density inputs targets cons N,
  In (r, (o, i)) (ledger (reg_accepts (ols_preprocess g) (g_out g)) cs) ->
  let s := reg_run (ols_preprocess g) (g_out g) cs in
  exists v, dget (g_out g) o = Some v /\
    ols_simulate g mean s r [g_out g] [] inputs N = Ok (One_row (with_target (g_out g) v)) /\
    reg_logpdf (ols_preprocess g) density s r targets cons inputs = Err AssertionError.
Proof.
  intros g cs r o i mean density inputs targets cons N Hi s.
  destruct (reg_stored _ _ _ _ _ _ (ols_takes g) Hi) as (v & E & D). exists v. split; [exact E|]. fold s in D. split.
  - unfold ols_simulate. rewrite (proj2 (zlist_eqb_eq [g_out g] [g_out g]) eq_refl). cbn [negb]. rewrite D. reflexivity.
  - unfold reg_logpdf. replace (dmem r (w_x s)) with true; [reflexivity|].
    symmetry. apply dmem_in. eapply dget_Some_in. exact D.
Qed.
Print Assumptions C50_ols_stored.
Example C50_stored_ex : In (2, ([(7, Fin 6)], [(8, Fin 2)])) (ledger (reg_accepts (linreg_preprocess ex_reg) (g_out ex_reg)) ex_calls) /\
  In (2, ([(7, Fin 6)], [(8, Fin 2)])) (ledger (reg_accepts (ols_preprocess ex_reg) (g_out ex_reg)) ex_calls) /\
  ~ In 0 (map fst (ledger (reg_accepts (linreg_preprocess ex_reg) (g_out ex_reg)) ex_calls)).
Proof.
  split; [left; reflexivity|]. split; [left; reflexivity|].
  replace (ledger _ _) with [(2, ([(7, Fin 6)], [(8, Fin 2)]))] by reflexivity. cbn. lia.
Qed.

(** So OrdinaryLeastSquares does not return [N] rows for a stored row when asked to. *)
Theorem C50_ols_refuted : exists g cs r o i mean n x,
  In (r, (o, i)) (ledger (reg_accepts (ols_preprocess g) (g_out g)) cs) /\ 1 < n /\
  ols_simulate g mean (reg_run (ols_preprocess g) (g_out g) cs) r [g_out g] [] [] (Some n) = Ok (One_row x).
Proof.
  exists ex_reg, ex_calls, 2, [(7, Fin 6)], [(8, Fin 2)], (fun _ => Ok NaN), 3, [(7, Fin 6)].
  split; [left; reflexivity|]. split; [lia|reflexivity].
Qed.
Print Assumptions C50_ols_refuted.

(* ------------------------------------------------------------------ *)
(** ** Random forest *)

Definition forest_step (g : forest) (s : fstate) (c : call) : fstate * res unit :=
  match c with
  | Inc r o i => forest_incorporate g s r o i
  | Uninc r => forest_unincorporate s r
  end.
Definition forest_run (g : forest) (cs : list call) : fstate := fold_left (fun s c => fst (forest_step g s c)) cs (forest0 g).
Definition forest_accepts (g : forest) (o i : dict ext) : bool := is_ok (forest_preprocess g o i).
(** Every row accepted in the course of a history, removed or not. *)
Fixpoint ever (accepts : dict ext -> dict ext -> bool) (L : list entry) (cs : list call) : list entry :=
  match cs with
  | [] => []
  | c :: cs' => match c with
                | Inc r o i => if negb (has_row L r) && accepts o i then [(r, (o, i))] else []
                | Uninc _ => []
                end ++ ever accepts (ledger_step accepts L c) cs'
  end.
(** The category of an entry. *)
Definition entry_is (g : forest) (c : Z) (e : entry) : bool :=
  match dget (o_out g) (fst (snd e)) with Some x => match x with Fin v => Reqb v (IZR c) | _ => false end | None => false end.

Lemma forest_rows g s c : f_rows (fst (forest_step g s c)) = fst (gen_step (forest_preprocess g) (f_rows s) c) /\
  snd (forest_step g s c) = snd (gen_step (forest_preprocess g) (f_rows s) c).
Proof.
  destruct c as [r o i|r]; cbn [forest_step gen_step].
  - unfold forest_incorporate, gen_incorporate. destruct (dmem r (w_x (f_rows s))); [auto|].
    destruct (dmem r (w_Y (f_rows s))); [auto|]. destruct (forest_preprocess g o i) as [[x y]|]; auto.
  - unfold forest_unincorporate. destruct (rows_unincorporate (f_rows s) r) as [w a]. auto.
Qed.
Lemma forest_run_rows g cs : f_rows (forest_run g cs) = gen_run (forest_preprocess g) cs.
Proof.
  induction cs as [|c cs IH] using rev_ind; [reflexivity|]. unfold forest_run, gen_run in *.
  rewrite !fold_left_app. cbn [fold_left]. rewrite <- IH. apply forest_rows.
Qed.
Lemma category_spec k x c : category k x = Some c <-> x = Fin (IZR c) /\ 0 <= c < k.
Proof.
  unfold category. destruct x as [v| | |]; try (split; [discriminate|intros [X _]; discriminate]).
  split.
  - destruct (Reqb v (IZR (Int_part v))) eqn:E; cbn [andb]; [|discriminate].
    destruct (Rleb 0 v) eqn:E0; cbn [andb]; [|discriminate]. destruct (Rltb v (IZR k)) eqn:E1; [|discriminate].
    intros X. injection X as X. apply Reqb_true in E. apply Rleb_true in E0. apply Rltb_true in E1. rewrite X in E.
    split; [rewrite E; reflexivity|]. rewrite E in *. apply le_IZR in E0. apply lt_IZR in E1. lia.
  - intros [X [H0 H1]]. injection X as ->.
    assert (I : Int_part (IZR c) = c).
    { unfold Int_part. pose proof (tech_up (IZR c) (c + 1)) as T. rewrite <- T; [lia| |]; rewrite plus_IZR; lra. }
    rewrite I, Reqb_refl. replace (Rleb 0 (IZR c)) with true by (symmetry; apply Rleb_true; apply IZR_le; lia).
    replace (Rltb (IZR c) (IZR k)) with true by (symmetry; apply Rltb_true; apply IZR_lt; lia). reflexivity.
Qed.
Lemma forest_prep_cat g o i x y : forest_preprocess g o i = Ok (x, y) -> dget (o_out g) o = Some (Fin (IZR x)) /\ 0 <= x < o_k g.
Proof.
  unfold forest_preprocess. destruct (dmem _ i); [discriminate|]. destruct (dget (o_out g) o) as [v|]; [|discriminate].
  destruct (eisnan v); [discriminate|]. destruct (negb _); [discriminate|].
  destruct (rsequence _) as [ys|]; cbn [rbind]; [|discriminate]. destruct (existsb _ _); [discriminate|].
  destruct (negb _); [discriminate|]. destruct (category (o_k g) v) as [c|] eqn:C; [|discriminate].
  intros H. injection H as -> ->. apply category_spec in C. destruct C as [-> C]. auto.
Qed.

(** The rows of a random forest agree with the ledger, as for the other regressions. *)
Theorem C50_forest : forall g cs, let L := ledger (forest_accepts g) cs in let s := f_rows (forest_run g cs) in
  Forall2 (fun (e : entry) xe => fst xe = fst e /\ dget (o_out g) (fst (snd e)) = Some (Fin (IZR (snd xe)))) L (w_x s) /\
  Forall2 (fun (e : entry) ye => fst ye = fst e /\ exists x, forest_preprocess g (fst (snd e)) (snd (snd e)) = Ok (x, snd ye)) L (w_Y s) /\
  w_N s = Z.of_nat (length L) /\ NoDup (map fst L) /\
  (forall r o i, let '(s', a) := forest_step g (forest_run g cs) (Inc r o i) in
     (a = Ok tt <-> ~ In r (map fst L) /\ forest_accepts g o i = true) /\ (a <> Ok tt -> s' = forest_run g cs)) /\
  (forall r, let '(s', a) := forest_step g (forest_run g cs) (Uninc r) in
     (a = Ok tt <-> In r (map fst L)) /\ (~ In r (map fst L) -> a = Err ValueError /\ s' = forest_run g cs)).
Proof.
  intros g cs L s. assert (Hn : NoDup (map fst L)) by apply ledger_NoDup.
  pose proof (gen_run_holds (forest_preprocess g) cs) as H. fold (forest_accepts g) in H.
  rewrite <- (forest_run_rows g cs) in H. change (holds (forest_preprocess g) L s) in H.
  pose proof H as (Hx & Hy & HN).
  split; [|split; [exact Hy|split; [exact HN|split; [exact Hn|split]]]].
  - clear - Hx. induction Hx as [|e [k v] L d [E [y Ey]] _ IH]; constructor; [|exact IH].
    split; [exact E|]. apply forest_prep_cat in Ey. apply Ey.
  - intros r o i. pose proof (gen_step_spec (forest_preprocess g) s L (Inc r o i) Hn H) as G.
    destruct (forest_rows g (forest_run g cs) (Inc r o i)) as [R1 R2]. fold s in R1, R2.
    destruct (gen_step _ s _) as [s' a]. destruct G as [_ G]. rewrite not_has_row in G.
    destruct (forest_step g (forest_run g cs) (Inc r o i)) as [f' b] eqn:Ef. cbn [fst snd] in *. subst b.
    split; [exact (proj1 G)|]. intros Ha. cbn [forest_step] in Ef. unfold forest_incorporate in Ef.
    destruct (dmem r (w_x _)); [congruence|]. destruct (dmem r (w_Y _)); [congruence|].
    destruct (forest_preprocess g o i) as [[x y]|]; [|congruence]. injection Ef as _ <-. congruence.
  - intros r. pose proof (gen_step_spec (forest_preprocess g) s L (Uninc r) Hn H) as G.
    destruct (forest_rows g (forest_run g cs) (Uninc r)) as [R1 R2]. fold s in R1, R2.
    destruct (gen_step _ s _) as [s' a]. destruct G as [_ G]. rewrite not_has_row, has_row_in in G.
    destruct (forest_step g (forest_run g cs) (Uninc r)) as [f' b] eqn:Ef. cbn [fst snd] in *. subst b.
    split; [exact (proj1 G)|]. intros Ha. destruct (proj2 G Ha) as [Ea Es]. split; [exact Ea|].
    cbn [forest_step] in Ef. unfold forest_unincorporate in Ef. fold s in Ef.
    destruct (rows_unincorporate s r) as [w b]. injection Ef as <- _. cbn [f_rows] in R1. subst w.
    unfold s in *. rewrite Es. destruct (forest_run g cs). reflexivity.
Qed.
Print Assumptions C50_forest.

(** The inputs of an accepted row: exactly the declared ones, by increasing variable. *)
Theorem C50_forest_inputs : forall g o i x y, NoDup (o_in g) -> o_p g = Z.of_nat (length (o_in g)) -> NoDup (dkeys i) ->
  forest_preprocess g o i = Ok (x, y) ->
  Forall2 (fun c v => dget c i = Some v /\ v <> NaN) (zsort (o_in g)) y.
Proof.
  intros g o i x y Hg Hp Hk H. unfold forest_preprocess in H. destruct (dmem _ i); [discriminate|].
  destruct (dget (o_out g) o) as [v|]; [|discriminate]. destruct (eisnan v); [discriminate|].
  destruct (forallb (fun c => dmem c i) (o_in g)) eqn:Fa; cbn [negb] in H; [|discriminate].
  destruct (rsequence _) as [ys|] eqn:Rs; cbn [rbind] in H; [|discriminate].
  destruct (existsb eisnan ys) eqn:Nn; [discriminate|].
  destruct (Z.of_nat (length ys) =? o_p g) eqn:Lp; cbn [negb] in H; [|discriminate]. apply Z.eqb_eq in Lp.
  destruct (category (o_k g) v) as [c|]; [|discriminate]. injection H as -> ->.
  apply rsequence_ok in Rs.
  assert (Ll : length y = length (zsort (dkeys i))) by (apply (f_equal (@length _)) in Rs; rewrite !map_length in Rs; auto).
  assert (In1 : incl (o_in g) (dkeys i)).
  { intros c' Hc. rewrite forallb_forall in Fa. apply dmem_in. auto. }
  assert (Ls : (length (dkeys i) <= length (o_in g))%nat) by (rewrite zsort_length in Ll; lia).
  assert (In2 : incl (dkeys i) (o_in g)) by (apply NoDup_length_incl; assumption).
  assert (Es : zsort (dkeys i) = zsort (o_in g)).
  { assert (P : forall a b, StronglySorted Z.le a -> StronglySorted Z.le b -> NoDup a -> NoDup b -> (forall z, In z a <-> In z b) -> a = b).
    { induction a as [|p a IH]; intros b Sa Sb Na Nb E.
      - destruct b as [|q b]; [reflexivity|]. exfalso. apply (E q). left; reflexivity.
      - destruct b as [|q b]; [exfalso; apply (E p); left; reflexivity|].
        apply StronglySorted_inv in Sa. apply StronglySorted_inv in Sb. destruct Sa as [Sa Fa'], Sb as [Sb Fb].
        rewrite Forall_forall in Fa', Fb. inversion Na as [|? ? Np Na']; inversion Nb as [|? ? Nq Nb']; subst.
        assert (p = q).
        { destruct (proj1 (E p) (or_introl eq_refl)) as [X|X]; [congruence|].
          destruct (proj2 (E q) (or_introl eq_refl)) as [Y|Y]; [congruence|].
          specialize (Fa' _ Y). specialize (Fb _ X). lia. }
        subst q. f_equal. apply IH; auto. intros z. split; intros Hz.
        + destruct (proj1 (E z) (or_intror Hz)) as [X|X]; [congruence|exact X].
        + destruct (proj2 (E z) (or_intror Hz)) as [X|X]; [congruence|exact X]. }
    apply P; try apply zsort_sorted; try (apply zsort_NoDup; assumption).
    intros z. rewrite !zsort_in. split; auto. }
  rewrite Es in Rs. clear - Rs Nn. revert y Rs Nn. induction (zsort (o_in g)) as [|c l IH]; intros [|v y] Rs Nn; try discriminate; [constructor|].
  cbn [map] in Rs. injection Rs as R1 R2. cbn [existsb] in Nn. apply orb_false_iff in Nn. destruct Nn as [N1 N2].
  constructor; [|auto]. unfold dgetr in R1. destruct (dget c i); [|discriminate]. injection R1 as ->.
  split; [reflexivity|]. intros ->. discriminate.
Qed.
Print Assumptions C50_forest_inputs.

(** [counts] holds one count per category: not of the rows stored, but of those ever
    accepted. *)
Lemma nth_set_at {A} (l : list A) i j v d : nth j (set_at l i v) d = if (Nat.eqb i j && Nat.ltb j (length l))%bool then v else nth j l d.
Proof.
  revert i j. induction l as [|x l IH]; intros i j.
  - cbn. destruct i, j; cbn; try reflexivity; destruct (Nat.eqb _ _); reflexivity.
  - destruct i as [|i], j as [|j]; cbn [set_at nth Nat.eqb andb length Nat.ltb Nat.leb]; try reflexivity.
    rewrite IH. reflexivity.
Qed.
Lemma set_at_len {A} (l : list A) i v : length (set_at l i v) = length l.
Proof. revert i. induction l as [|x l IH]; intros [|i]; cbn; auto. Qed.
Definition count_of (g : forest) (c : Z) (L : list entry) : Z := Z.of_nat (length (filter (entry_is g c) L)).
Lemma count_of_app g c L M : count_of g c (L ++ M) = count_of g c L + count_of g c M.
Proof. unfold count_of. rewrite filter_app, app_length. lia. Qed.

Theorem C50_forest_counts : forall g cs, 0 <= o_k g ->
  length (f_counts (forest_run g cs)) = Z.to_nat (o_k g) /\
  forall c, 0 <= c < o_k g ->
    nth (Z.to_nat c) (f_counts (forest_run g cs)) 0 = count_of g c (ever (forest_accepts g) [] cs).
Proof.
  intros g cs Hk.
  assert (H : forall cs L s, NoDup (map fst L) -> holds (forest_preprocess g) L (f_rows s) -> length (f_counts s) = Z.to_nat (o_k g) ->
    let s' := fold_left (fun s c => fst (forest_step g s c)) cs s in
    length (f_counts s') = Z.to_nat (o_k g) /\
    forall c, 0 <= c < o_k g -> nth (Z.to_nat c) (f_counts s') 0 = nth (Z.to_nat c) (f_counts s) 0 + count_of g c (ever (forest_accepts g) L cs)).
  { clear cs. induction cs as [|c cs IH]; intros L s Hn H Hl s'.
    - split; [exact Hl|]. intros c Hc. cbn [ever]. unfold count_of. cbn. lia.
    - unfold s'. cbn [fold_left].
      pose proof (gen_step_spec (forest_preprocess g) (f_rows s) L c Hn H) as G.
      destruct (forest_rows g s c) as [R1 R2].
      destruct (gen_step (forest_preprocess g) (f_rows s) c) as [w a]. destruct G as [G1 G2]. cbn [fst snd] in R1, R2.
      rewrite <- R1 in G1. fold (forest_accepts g) in G1.
      assert (Hn' : NoDup (map fst (ledger_step (forest_accepts g) L c))).
      { destruct c as [r o i|r]; cbn [ledger_step].
        - destruct (has_row L r) eqn:E; [exact Hn|]. destruct (forest_accepts g o i); [|exact Hn].
          rewrite map_app. apply NoDup_Add with (a := r) (l := map fst L).
          + cbn [map fst]. rewrite <- (app_nil_r (map fst L)) at 1. apply Add_app.
          + split; [exact Hn|]. rewrite <- has_row_in, E. discriminate.
        - clear - Hn. induction L as [|e L IH]; [constructor|]. cbn [map] in Hn. inversion Hn as [|? ? Hi HL']; subst.
          cbn [filter]. destruct (negb _); [|auto]. cbn [map]. constructor; [|auto].
          intros X. apply Hi. apply in_map_iff in X. destruct X as (e' & E & X). apply filter_In in X.
          apply in_map_iff. exists e'. tauto. }
      assert (Cn : length (f_counts (fst (forest_step g s c))) = Z.to_nat (o_k g) /\
        forall k, 0 <= k < o_k g -> nth (Z.to_nat k) (f_counts (fst (forest_step g s c))) 0 =
          nth (Z.to_nat k) (f_counts s) 0 + count_of g k (match c with Inc r o i => if negb (has_row L r) && forest_accepts g o i then [(r, (o, i))] else [] | Uninc _ => [] end)).
      { destruct c as [r o i|r]; cbn [forest_step].
        - cbn [forest_step] in R2. unfold forest_incorporate in *. unfold forest_accepts.
          destruct (dmem r (w_x (f_rows s))).
          { cbn [fst snd] in *. replace (negb (has_row L r) && is_ok (forest_preprocess g o i)) with false.
            - split; [exact Hl|]. intros. unfold count_of. cbn. lia.
            - symmetry. apply not_true_is_false. intros X. apply andb_true_iff in X. destruct X as [X1 X2]. apply negb_true_iff in X1.
              assert (a = Ok tt) by (apply (proj2 (proj1 G2)); auto). congruence. }
          destruct (dmem r (w_Y (f_rows s))).
          { cbn [fst snd] in *. replace (negb (has_row L r) && is_ok (forest_preprocess g o i)) with false.
            - split; [exact Hl|]. intros. unfold count_of. cbn. lia.
            - symmetry. apply not_true_is_false. intros X. apply andb_true_iff in X. destruct X as [X1 X2]. apply negb_true_iff in X1.
              assert (a = Ok tt) by (apply (proj2 (proj1 G2)); auto). congruence. }
          destruct (forest_preprocess g o i) as [[x y]|] eqn:P; cbn [fst snd is_ok] in *.
          + apply forest_prep_cat in P. destruct P as [P Px].
            destruct (proj1 (proj1 G2)) as [Hr _]; [congruence|]. rewrite Hr. cbn [negb andb f_counts]. rewrite set_at_len. split; [exact Hl|].
            intros k Hk'. rewrite nth_set_at. unfold count_of. cbn [filter]. unfold entry_is. cbn [fst snd]. rewrite P.
            destruct (Nat.eqb_spec (Z.to_nat x) (Z.to_nat k)) as [E|Ne].
            * assert (x = k) by lia. subst k. rewrite Reqb_refl. cbn [length andb].
              replace (Nat.ltb (Z.to_nat x) (length (f_counts s))) with true by (symmetry; apply Nat.ltb_lt; lia). lia.
            * assert (Nx : x <> k) by congruence. cbn [andb].
              replace (Reqb (IZR x) (IZR k)) with false by (symmetry; apply Reqb_false; intros X; apply eq_IZR in X; auto).
              cbn [length]. lia.
          + rewrite andb_false_r. split; [exact Hl|]. intros. unfold count_of. cbn. lia.
        - unfold forest_unincorporate. destruct (rows_unincorporate (f_rows s) r). cbn [fst f_counts]. split; [exact Hl|].
          intros. unfold count_of. cbn. lia. }
      destruct Cn as [Cl Cn].
      destruct (IH (ledger_step (forest_accepts g) L c) (fst (forest_step g s c)) Hn' G1 Cl) as [I1 I2].
      split; [exact I1|]. intros k Hk'. rewrite I2, Cn by exact Hk'. cbn [ever]. rewrite count_of_app. rewrite <- Z.add_assoc. reflexivity. }
  destruct (H cs [] (forest0 g)) as [H1 H2].
  - constructor.
  - repeat split; constructor.
  - unfold forest0. cbn [f_counts]. apply repeat_length.
  - split; [exact H1|]. intros c Hc. unfold forest_run. rewrite H2 by exact Hc.
    unfold forest0. cbn [f_counts]. rewrite nth_repeat. apply Z.add_0_l.
Qed.
Print Assumptions C50_forest_counts.

(** Hence [counts] disagrees with the rows as soon as one has been removed ... *)
Definition ex_forest : forest := Forest 7 [8] 2 1.
Definition ex_forest_calls : list call :=
  [Inc 0 [(7, Fin 1)] [(8, Fin 4)]; Inc 1 [(7, Fin 2)] [(8, Fin 4)]; Inc 2 [(7, Fin 0)] [(8, Fin 3)]; Uninc 0].
Lemma ex_prep1 : forest_preprocess ex_forest [(7, Fin 1)] [(8, Fin 4)] = Ok (1, [Fin 4]).
Proof.
  unfold forest_preprocess. cbn -[category]. rewrite (proj2 (category_spec 2 (Fin 1) 1)); [reflexivity|]. split; [reflexivity|lia].
Qed.
Lemma ex_prep0 : forest_preprocess ex_forest [(7, Fin 0)] [(8, Fin 3)] = Ok (0, [Fin 3]).
Proof.
  unfold forest_preprocess. cbn -[category]. rewrite (proj2 (category_spec 2 (Fin 0) 0)); [reflexivity|]. split; [reflexivity|lia].
Qed.
Lemma ex_prep2 : forest_preprocess ex_forest [(7, Fin 2)] [(8, Fin 4)] = Err IndexError.
Proof.
  unfold forest_preprocess. cbn -[category]. destruct (category 2 (Fin 2)) as [c|] eqn:E; [|reflexivity].
  apply category_spec in E. destruct E as [E Hc]. injection E as E. apply eq_IZR in E. lia.
Qed.
Example C50_forest_ex :
  forest_run ex_forest ex_forest_calls = FState (Rows [(2, 0)] [(2, [Fin 3])] 1) [1; 1] /\
  ledger (forest_accepts ex_forest) ex_forest_calls = [(2, ([(7, Fin 0)], [(8, Fin 3)]))] /\
  0 <= o_k ex_forest /\ NoDup (o_in ex_forest) /\ o_p ex_forest = Z.of_nat (length (o_in ex_forest)).
Proof.
  split; [|split; [|split; [cbn; lia|split; [repeat constructor; intros []|reflexivity]]]].
  - unfold forest_run, ex_forest_calls. cbn [fold_left forest_step]. unfold forest_incorporate.
    cbn [forest0 f_rows rows0 w_x w_Y dmem dget]. rewrite ex_prep1.
    cbn [fst f_rows w_x w_Y w_N f_counts dset dmem dget Z.eqb Pos.eqb]. rewrite ex_prep2.
    cbn [fst f_rows w_x w_Y w_N f_counts dset dmem dget Z.eqb Pos.eqb]. rewrite ex_prep0.
    reflexivity.
  - unfold ledger, ex_forest_calls. cbn [fold_left ledger_step has_row existsb]. unfold forest_accepts.
    rewrite ex_prep1, ex_prep2, ex_prep0. reflexivity.
Qed.
Theorem C50_forest_counts_refuted : exists g cs c, 0 <= c < o_k g /\
  nth (Z.to_nat c) (f_counts (forest_run g cs)) 0 <> count_of g c (ledger (forest_accepts g) cs).
Proof.
  exists ex_forest, ex_forest_calls, 1. destruct C50_forest_ex as (E & L & _). rewrite E, L. split; [cbn; lia|].
  unfold count_of, entry_is. cbn [filter fst snd dget o_out ex_forest Z.eqb Pos.eqb].
  replace (Reqb 0 1) with false by (symmetry; apply Reqb_false; lra). cbn. discriminate.
Qed.
Print Assumptions C50_forest_counts_refuted.

(** ... but no answer depends on more than how many categories there are. *)
Theorem C50_forest_counts_unused : forall lse pick g rg alpha s counts' r targets tl cons inputs N,
  length counts' = length (f_counts s) ->
  let s' := FState (f_rows s) counts' in
  forest_logpdf lse g rg alpha s' r targets cons inputs = forest_logpdf lse g rg alpha s r targets cons inputs /\
  forest_simulate lse pick g rg alpha s' r tl cons inputs N = forest_simulate lse pick g rg alpha s r tl cons inputs N.
Proof.
  intros lse pick g rg alpha s counts' r targets tl cons inputs N Hl s'.
  assert (H : forall targets cons, forest_logpdf lse g rg alpha s' r targets cons inputs = forest_logpdf lse g rg alpha s r targets cons inputs).
  { clear targets cons. intros targets cons. unfold forest_logpdf, s'. cbn [f_rows f_counts].
    destruct cons; [|reflexivity]. destruct (negb _); [reflexivity|]. destruct (dmem r _); [reflexivity|].
    destruct (forest_preprocess g targets inputs) as [[x y]|]; [|reflexivity]. unfold forest_predictive. rewrite Hl. reflexivity. }
  split; [apply H|]. unfold forest_simulate. cbn [s' f_rows].
  assert (B : forall i : nat,
     (if negb (zlist_eqb tl [o_out g]) then Err AssertionError
      else match cons with _ :: _ => Err AssertionError | [] =>
      match dget r (w_x (f_rows s)) with
      | Some x => Ok [(o_out g, Fin (IZR x))]
      | None => rbind (rsequence (map (fun x => forest_logpdf lse g rg alpha s' r [(o_out g, Fin (IZR (Z.of_nat x)))] [] inputs) (seq 0 (Z.to_nat (o_k g)))))
                  (fun logps => Ok [(o_out g, Fin (IZR (pick i logps)))])
      end end) =
     (if negb (zlist_eqb tl [o_out g]) then Err AssertionError
      else match cons with _ :: _ => Err AssertionError | [] =>
      match dget r (w_x (f_rows s)) with
      | Some x => Ok [(o_out g, Fin (IZR x))]
      | None => rbind (rsequence (map (fun x => forest_logpdf lse g rg alpha s r [(o_out g, Fin (IZR (Z.of_nat x)))] [] inputs) (seq 0 (Z.to_nat (o_k g)))))
                  (fun logps => Ok [(o_out g, Fin (IZR (pick i logps)))])
      end end)).
  { intros i. rewrite (map_ext _ _ (fun x => H _ _)). reflexivity. }
  unfold simulate_many. destruct N as [n|]; [|rewrite <- B; reflexivity].
  f_equal. f_equal. apply map_ext. intros i. apply B.
Qed.
Print Assumptions C50_forest_counts_unused.

(** simulate on a stored row returns its category, logpdf raises. *)
Theorem C50_forest_stored : forall lse pick g rg alpha cs r o i targets cons inputs N,
  In (r, (o, i)) (ledger (forest_accepts g) cs) ->
  let s := forest_run g cs in
  exists v, dget (o_out g) o = Some v /\
    forest_simulate lse pick g rg alpha s r [o_out g] [] inputs N =
      Ok (match N with None => One_row (with_target (o_out g) v)
                     | Some n => Rows_list (repeat (with_target (o_out g) v) (Z.to_nat n)) end) /\
    forest_logpdf lse g rg alpha s r targets cons inputs = Err AssertionError.
Proof.
  intros lse pick g rg alpha cs r o i targets cons inputs N Hi s.
  destruct (C50_forest g cs) as (Hx & _ & _ & Hn & _).
  assert (D : exists c, dget (o_out g) o = Some (Fin (IZR c)) /\ dget r (w_x (f_rows s)) = Some c).
  { fold s in Hx. clear - Hx Hi Hn. revert Hi Hn. generalize dependent (w_x (f_rows s)). intros d Hx. induction Hx as [|e [k c] L d [E H] _ IH]; intros Hi Hn; [contradiction|].
    cbn [fst snd] in *. subst k. cbn [map] in Hn. inversion Hn as [|? ? Hni Hn']; subst. cbn [dget]. destruct Hi as [->|Hi].
    - cbn [fst snd] in *. rewrite Z.eqb_refl. eauto.
    - destruct (Z.eqb_spec r (fst e)) as [->|Ne]; [|auto]. exfalso. apply Hni.
      change (fst e) with (fst (fst e, (o, i))). apply in_map. exact Hi. }
  destruct D as (c & E & D). exists (Fin (IZR c)). split; [exact E|]. split.
  - unfold forest_simulate. rewrite (proj2 (zlist_eqb_eq [o_out g] [o_out g]) eq_refl). cbn [negb]. rewrite D.
    apply (simulate_many_const (with_target (o_out g) (Fin (IZR c)))).
  - unfold forest_logpdf. replace (dmem r (w_x (f_rows s))) with true by (symmetry; apply dmem_in; eapply dget_Some_in; exact D).
    destruct cons; [|reflexivity]. destruct (negb _); reflexivity.
Qed.
Print Assumptions C50_forest_stored.

(* ------------------------------------------------------------------ *)
(** ** Factor analysis, kernel densities and nearest neighbours *)

Definition table_step (g : shape) (s : table) (c : call) : table * res unit :=
  match c with
  | Inc r o i => table_incorporate g s r o i
  | Uninc r => table_unincorporate s r
  end.
Definition table_run (g : shape) (cs : list call) : table := fold_left (fun s c => fst (table_step g s c)) cs table0.
(** Accepted are the observations that are not empty and mention observable outputs only,
    without inputs. *)
Definition table_accepts (g : shape) (o i : dict ext) : bool :=
  match i with [] => true | _ => false end && match o with [] => false | _ => true end &&
  forallb (fun q => zmem q (t_obs g)) (dkeys o).
(** The cell of an observation, NaN if there is none. *)
Definition cell_of (o : dict ext) (q : Z) : ext := match dget q o with Some v => v | None => NaN end.

Lemma table_accepts_spec g s r o i : NoDup (t_out g) ->
  table_incorporate g s r o i =
    if negb (dmem r (t_data s)) && table_accepts g o i
    then (Table (dset r (map (cell_of o) (t_obs g)) (t_data s)) (t_N s + 1), Ok tt)
    else (s, Err ValueError).
Proof.
  intros Hg. unfold table_incorporate, table_accepts. destruct (dmem r (t_data s)); [reflexivity|]. cbn [negb andb].
  destruct i as [|]; [|reflexivity]. destruct o as [|p o]; [reflexivity|]. cbn [andb].
  set (l := dkeys (p :: o)).
  assert (E : forallb (fun q => zmem q (t_obs g)) l =
              negb (existsb (fun q => negb (zmem q (t_out g))) l) && negb (existsb (fun q => zmem q (t_latent g)) l)).
  { induction l as [|q l IH]; [reflexivity|]. cbn [forallb existsb]. rewrite IH.
    assert (Eq : zmem q (t_obs g) = zmem q (t_out g) && negb (zmem q (t_latent g))).
    { destruct (zmem q (t_obs g)) eqn:A; symmetry.
      - apply zmem_in in A. apply andb_true_iff. split; [apply zmem_in; unfold t_out; apply in_app_iff; auto|].
        apply negb_true_iff. apply zmem_false. intros B. unfold t_out in Hg.
        clear - Hg A B. induction (t_obs g) as [|x a IHa]; [contradiction|]. cbn in Hg. inversion Hg as [|? ? Hn Hg']; subst.
        destruct A as [->|A]; [apply Hn, in_app_iff; auto|auto].
      - apply zmem_false in A. apply not_true_is_false. intros X. apply andb_true_iff in X. destruct X as [X Y].
        apply zmem_in in X. apply negb_true_iff in Y. apply zmem_false in Y. unfold t_out in X. apply in_app_iff in X. tauto. }
    rewrite Eq. destruct (zmem q (t_out g)), (zmem q (t_latent g)); cbn [negb orb andb]; try reflexivity; try (rewrite andb_false_r; reflexivity). }
  rewrite E. destruct (existsb (fun q => negb (zmem q (t_out g))) l); [reflexivity|]. cbn [negb andb].
  destruct (existsb (fun q => zmem q (t_latent g)) l); reflexivity.
Qed.

(** After every history the rows of such a component are those of the ledger, each with its
    observed cells in the order of the outputs and NaN for the others; the count is their
    number, and a rejected call changes nothing. *)
Theorem C50_table : forall g cs, NoDup (t_out g) -> let L := ledger (table_accepts g) cs in let s := table_run g cs in
  t_data s = map (fun e : entry => (fst e, map (cell_of (fst (snd e))) (t_obs g))) L /\
  t_N s = Z.of_nat (length L) /\ NoDup (map fst L) /\
  (forall r o i, In r (map fst L) \/ table_accepts g o i = false -> table_step g s (Inc r o i) = (s, Err ValueError)) /\
  (forall r o i, snd (table_step g s (Inc r o i)) = Ok tt <-> ~ In r (map fst L) /\ table_accepts g o i = true) /\
  (forall r, ~ In r (map fst L) -> table_step g s (Uninc r) = (s, Err ValueError)) /\
  (forall r, snd (table_step g s (Uninc r)) = Ok tt <-> In r (map fst L)).
Proof.
  intros g cs Hg L s. assert (Hn : NoDup (map fst L)) by apply ledger_NoDup.
  set (row := fun x : dict ext * dict ext => map (cell_of (fst x)) (t_obs g)).
  assert (H : t_data s = map (fun e : entry => (fst e, row (snd e))) L /\ t_N s = Z.of_nat (length L)).
  { unfold s, L. clear Hn s L. induction cs as [|c cs IH] using rev_ind; [auto|].
    rewrite ledger_snoc. unfold table_run in *. rewrite fold_left_app. cbn [fold_left].
    set (s := fold_left _ cs table0) in *. set (L := ledger (table_accepts g) cs) in *.
    assert (Hn : NoDup (map fst L)) by apply ledger_NoDup. destruct IH as [H1 H2].
    assert (K : dkeys (t_data s) = map fst L) by (rewrite H1; exact (keys_map row L)).
    assert (M : forall r, dmem r (t_data s) = has_row L r).
    { intros r. destruct (has_row L r) eqn:E; [apply dmem_in|apply dmem_false]; rewrite K, <- has_row_in, E; congruence. }
    destruct c as [r o i|r]; cbn [table_step ledger_step].
    - rewrite table_accepts_spec by exact Hg. rewrite M. destruct (has_row L r) eqn:E; [auto|]. cbn [negb andb].
      destruct (table_accepts g o i); [|auto]. cbn [fst t_data t_N].
      rewrite dset_fresh by (rewrite K, <- has_row_in, E; discriminate). rewrite H1, map_app, app_length. cbn [map length fst snd].
      split; [reflexivity|lia].
    - unfold table_unincorporate. rewrite M. destruct (has_row L r) eqn:E; cbn [fst t_data t_N].
      + rewrite ddel_filter by (rewrite K; exact Hn). rewrite H1. split.
        * exact (filter_map_key (fun k => negb (k =? r)) row L).
        * rewrite filter_present_length by assumption. lia.
      + rewrite filter_absent by exact E. auto. }
  destruct H as [H1 H2].
  assert (K : dkeys (t_data s) = map fst L) by (rewrite H1; exact (keys_map row L)).
  assert (M : forall r, dmem r (t_data s) = has_row L r).
  { intros r. destruct (has_row L r) eqn:E; [apply dmem_in|apply dmem_false]; rewrite K, <- has_row_in, E; congruence. }
  split; [exact H1|]. split; [exact H2|]. split; [exact Hn|].
  assert (A : forall r o i, table_step g s (Inc r o i) =
     if negb (has_row L r) && table_accepts g o i
     then (Table (dset r (map (cell_of o) (t_obs g)) (t_data s)) (t_N s + 1), Ok tt) else (s, Err ValueError)).
  { intros r o i. cbn [table_step]. rewrite table_accepts_spec by exact Hg. rewrite M. reflexivity. }
  split; [|split; [|split]].
  - intros r o i X. rewrite A. rewrite <- has_row_in in X. destruct X as [->| ->]; [|rewrite andb_false_r]; reflexivity.
  - intros r o i. rewrite A, <- not_has_row. destruct (has_row L r), (table_accepts g o i); cbn; split; intros X; try discriminate; try (destruct X; discriminate); auto.
  - intros r Hr. cbn [table_step]. unfold table_unincorporate. rewrite M. apply not_has_row in Hr. rewrite Hr. reflexivity.
  - intros r. cbn [table_step]. unfold table_unincorporate. rewrite M, <- has_row_in. destruct (has_row L r); cbn; split; congruence.
Qed.
Print Assumptions C50_table.

(** Concrete case: outputs 1 and 2, and 3 latent. *)
Definition ex_shape : shape := Shape [1; 2] [3].
Definition ex_table_calls : list call :=
  [Inc 5 [(2, Fin 4)] []; Inc 6 [(3, Fin 4)] []; Inc 7 [(1, Fin 0); (2, Fin 9)] []; Inc 7 [(1, Fin 1)] []; Inc 8 [(1, Fin 1)] []; Uninc 8].
Example C50_table_ex : NoDup (t_out ex_shape) /\
  ledger (table_accepts ex_shape) ex_table_calls = [(5, ([(2, Fin 4)], [])); (7, ([(1, Fin 0); (2, Fin 9)], []))] /\
  table_run ex_shape ex_table_calls = Table [(5, [NaN; Fin 4]); (7, [Fin 0; Fin 9])] 2.
Proof. split; [|split; reflexivity]. repeat constructor; cbn; lia. Qed.

(** What a query on a stored row is conditioned on: the constraints given, then, in the
    order of the outputs, those observed cells of the row that are neither target nor
    constraint. *)
Definition remaining (obs : list Z) (o : dict ext) (targets : list Z) (constraints : dict ext) : dict ext :=
  flat_map (fun q => match dget q o with
                     | Some v => if eisnan v || zmem q targets || dmem q constraints then [] else [(q, v)]
                     | None => []
                     end) obs.

Lemma combine_map {A B} (f : A -> B) l : combine l (map f l) = map (fun q => (q, f q)) l.
Proof. induction l as [|x l IH]; [reflexivity|]. cbn. rewrite IH. reflexivity. Qed.
Lemma remaining_filter obs o targets constraints :
  filter (fun '(output, value) => negb (eisnan value) && negb (zmem output targets) && negb (dmem output constraints))
         (combine obs (map (cell_of o) obs)) = remaining obs o targets constraints.
Proof.
  rewrite combine_map. induction obs as [|q l IH]; [reflexivity|]. cbn [map filter remaining flat_map].
  fold (remaining l o targets constraints). rewrite IH. unfold cell_of. destruct (dget q o) as [v|]; [|reflexivity].
  destruct (eisnan v), (zmem q targets), (dmem q constraints); reflexivity.
Qed.
Lemma remaining_in obs o targets constraints q v : In (q, v) (remaining obs o targets constraints) <->
  In q obs /\ dget q o = Some v /\ v <> NaN /\ ~ In q targets /\ ~ In q (dkeys constraints).
Proof.
  unfold remaining. rewrite in_flat_map. split.
  - intros (q' & Hq & H). destruct (dget q' o) as [w|] eqn:D; [|contradiction].
    destruct (eisnan w) eqn:E1; [contradiction|]. destruct (zmem q' targets) eqn:E2; [contradiction|].
    destruct (dmem q' constraints) eqn:E3; [contradiction|]. destruct H as [H|[]]. injection H as -> ->.
    apply zmem_false in E2. apply dmem_false in E3. repeat split; auto. intros ->. discriminate.
  - intros (Hq & D & Hv & Ht & Hc). exists q. split; [exact Hq|]. rewrite D.
    apply zmem_false in Ht. apply dmem_false in Hc. rewrite Ht, Hc. destruct v; cbn; try congruence; left; reflexivity.
Qed.
Lemma remaining_NoDup obs o targets constraints : NoDup obs -> NoDup (dkeys (remaining obs o targets constraints)).
Proof.
  induction obs as [|q l IH]; intros H; [constructor|]. inversion H as [|? ? Hn H']; subst. cbn [remaining flat_map].
  unfold dkeys. rewrite map_app. fold (remaining l o targets constraints).
  assert (Nq : ~ In q (map fst (remaining l o targets constraints))).
  { intros X. apply in_map_iff in X. destruct X as ([q' v] & E & X). cbn in E. subst q'. apply remaining_in in X. tauto. }
  destruct (dget q o) as [v|]; [|exact (IH H')]. destruct (_ || _); [exact (IH H')|]. cbn [map app]. constructor; [exact Nq|exact (IH H')].
Qed.
Lemma merged_apart {V} (a b : dict V) : NoDup (dkeys a) -> NoDup (dkeys b) ->
  (forall c, In c (dkeys a) -> ~ In c (dkeys b)) -> merged a b = a ++ b.
Proof.
  assert (H : forall (b a : dict V), NoDup (dkeys b) -> (forall c, In c (dkeys a) -> ~ In c (dkeys b)) -> dupdate a b = a ++ b).
  { clear a b. induction b as [|[c x] b IH]; intros a Hb Hd; [symmetry; apply app_nil_r|].
    unfold dupdate. cbn [fold_left fst snd]. rewrite dset_fresh; [|intros Hin; exact (Hd c Hin (or_introl eq_refl))].
    change (dupdate (a ++ [(c, x)]) b = a ++ (c, x) :: b). cbn in Hb. inversion Hb; subst.
    rewrite IH; [rewrite <- app_assoc; reflexivity|assumption|].
    intros k Hk. unfold dkeys in Hk. rewrite map_app in Hk. apply in_app_iff in Hk. destruct Hk as [Hk|[<-|[]]]; [|assumption].
    intros X. apply (Hd k Hk). right. exact X. }
  intros Ha Hb Hd. unfold merged. rewrite (H a []); [|exact Ha|intros c []]. cbn [app]. apply H; assumption.
Qed.

Lemma NoDup_app_l {A} (a b : list A) : NoDup (a ++ b) -> NoDup a.
Proof. induction a as [|x a IH]; intros H; [constructor|]. cbn in H. inversion H; subst. constructor; [|auto]. intros X. apply H2, in_app_iff. auto. Qed.

(** populate_constraints on a stored and on a new row. *)
Lemma populate_stored : forall g cs r o i targets constraints, NoDup (t_out g) -> NoDup (dkeys constraints) ->
  In (r, (o, i)) (ledger (table_accepts g) cs) ->
  populate_constraints g (table_run g cs) r targets constraints = Ok (constraints ++ remaining (t_obs g) o targets constraints).
Proof.
  intros g cs r o i targets constraints Hg Hc Hi. destruct (C50_table g cs Hg) as (Hd & _ & Hn & _).
  unfold populate_constraints.
  assert (D : dget r (t_data (table_run g cs)) = Some (map (cell_of o) (t_obs g))).
  { apply dget_In_NoDup.
    - rewrite Hd. unfold dkeys. rewrite map_map. exact Hn.
    - rewrite Hd. apply in_map_iff. exists (r, (o, i)). auto. }
  rewrite D, map_length, Nat.eqb_refl. cbn [negb]. rewrite remaining_filter. f_equal. apply merged_apart.
  - exact Hc.
  - apply remaining_NoDup. exact (NoDup_app_l _ _ Hg).
  - intros c H1 H2. unfold dkeys in H2. apply in_map_iff in H2. destruct H2 as ([q v] & E & H2). cbn in E. subst q.
    apply remaining_in in H2. tauto.
Qed.
Lemma populate_new : forall g cs r targets constraints, NoDup (t_out g) ->
  ~ In r (map fst (ledger (table_accepts g) cs)) ->
  populate_constraints g (table_run g cs) r targets constraints = Ok constraints.
Proof.
  intros g cs r targets constraints Hg Hr. destruct (C50_table g cs Hg) as (Hd & _).
  unfold populate_constraints. replace (dget r (t_data (table_run g cs))) with (@None (list ext)); [reflexivity|].
  symmetry. apply dget_None_notin. rewrite Hd. unfold dkeys. rewrite map_map. exact Hr.
Qed.

(** A query of a factor analysis, kernel density or nearest neighbour component on a stored
    row gives what the same query gives on a new row [n] with the remaining observed cells
    of the row as further constraints; this for every back end, hence for logpdf and
    simulate alike, and including the exceptions. *)
Section Stored.
  Context (g : shape) (cs : list call) (r n : Z) (o i : dict ext) (constraints inputs : dict ext).
  Context (Hg : NoDup (t_out g)) (Hc : NoDup (dkeys constraints)).
  Context (Hi : In (r, (o, i)) (ledger (table_accepts g) cs)).
  Context (Hn : ~ In n (map fst (ledger (table_accepts g) cs))).
  Let s := table_run g cs.

  Lemma overlapping_app targets e : overlapping targets (constraints ++ remaining (t_obs g) e targets constraints) = overlapping targets constraints.
  Proof.
    unfold overlapping. assert (H : forall q, In q targets -> dmem q (constraints ++ remaining (t_obs g) e targets constraints) = dmem q constraints).
    { intros q Hq. destruct (dmem q constraints) eqn:E.
      - apply dmem_in. apply dmem_in in E. unfold dkeys in *. rewrite map_app. apply in_app_iff. auto.
      - apply dmem_false. apply dmem_false in E. unfold dkeys in *. rewrite map_app, in_app_iff. intros [X|X]; [auto|].
        apply in_map_iff in X. destruct X as ([q' v] & Eq & X). cbn in Eq. subst q'. apply remaining_in in X. tauto. }
    clear - H. revert H. set (c' := constraints ++ _). clearbody c'. induction targets as [|q l IH]; intros H; [reflexivity|]. cbn [existsb].
    rewrite H by (left; reflexivity). f_equal. apply IH. intros q' Hq'. apply H. right. exact Hq'.
  Qed.
End Stored.

Theorem C50_fa_stored : forall {A} (backend : list Z -> list Z -> list ext -> res A) g cs r n o i targets constraints inputs,
  NoDup (t_out g) -> NoDup (dkeys constraints) ->
  In (r, (o, i)) (ledger (table_accepts g) cs) -> ~ In n (map fst (ledger (table_accepts g) cs)) ->
  fa_query g (table_run g cs) backend r targets constraints inputs =
  fa_query g (table_run g cs) backend n targets (constraints ++ remaining (t_obs g) o targets constraints) inputs.
Proof.
  intros A backend g cs r n o i targets constraints inputs Hg Hc Hi Hn. unfold fa_query.
  rewrite (populate_stored g cs r o i targets constraints Hg Hc Hi), (populate_new g cs n) by assumption. reflexivity.
Qed.
Print Assumptions C50_fa_stored.
Theorem C50_kde_stored : forall {A} density (sample : list (list ext) -> list Z -> dict ext -> res A) g cs r n o i targets tl constraints inputs,
  NoDup (t_out g) -> NoDup (dkeys constraints) ->
  In (r, (o, i)) (ledger (table_accepts g) cs) -> ~ In n (map fst (ledger (table_accepts g) cs)) ->
  kde_logpdf g density (table_run g cs) r targets constraints inputs =
  kde_logpdf g density (table_run g cs) n targets (constraints ++ remaining (t_obs g) o (dkeys targets) constraints) inputs /\
  kde_simulate g sample (table_run g cs) r tl constraints inputs =
  kde_simulate g sample (table_run g cs) n tl (constraints ++ remaining (t_obs g) o tl constraints) inputs.
Proof.
  intros A density sample g cs r n o i targets tl constraints inputs Hg Hc Hi Hn. split.
  - unfold kde_logpdf. rewrite (populate_stored g cs r o i (dkeys targets) constraints Hg Hc Hi), (populate_new g cs n) by assumption. reflexivity.
  - unfold kde_simulate. rewrite (populate_stored g cs r o i tl constraints Hg Hc Hi), (populate_new g cs n) by assumption.
    rewrite overlapping_app. reflexivity.
Qed.
Print Assumptions C50_kde_stored.

Theorem C50_knn_stored : forall K density g cs r n o i targets constraints inputs,
  NoDup (t_out g) -> NoDup (dkeys constraints) ->
  In (r, (o, i)) (ledger (table_accepts g) cs) -> ~ In n (map fst (ledger (table_accepts g) cs)) ->
  knn_logpdf g K density (table_run g cs) r targets constraints inputs =
  knn_logpdf g K density (table_run g cs) n targets (constraints ++ remaining (t_obs g) o (dkeys targets) constraints) inputs.
Proof.
  intros K density g cs r n o i targets constraints inputs Hg Hc Hi Hn. unfold knn_logpdf.
  rewrite (populate_stored g cs r o i (dkeys targets) constraints Hg Hc Hi), (populate_new g cs n) by assumption. reflexivity.
Qed.
Print Assumptions C50_knn_stored.

Lemma rbind_ext {A B} (x : res A) (f h : A -> res B) : (forall a, x = Ok a -> f a = h a) -> rbind x f = rbind x h.
Proof. intros H. destruct x; [apply H; reflexivity|reflexivity]. Qed.
Lemma filter_NoDup {A} (p : A -> bool) l : NoDup l -> NoDup (filter p l).
Proof.
  induction l as [|x l IH]; intros H; [constructor|]. inversion H; subst. cbn. destruct (p x); [|auto].
  constructor; [|auto]. intros X. apply filter_In in X. tauto.
Qed.
Lemma keys_combine {B} (l : list Z) (m : list B) : length l = length m -> dkeys (combine l m) = l.
Proof.
  revert m. induction l as [|x l IH]; intros [|y m] H; cbn in *; try discriminate; [reflexivity|].
  f_equal. apply IH. lia.
Qed.
Lemma dataset_width g s qs data : dataset g s qs = Ok data -> Forall (fun row => length row = length qs) data.
Proof.
  unfold dataset. destruct (rsequence _) as [idx|] eqn:R; cbn [rbind]; [|discriminate]. intros H. injection H as <-.
  apply rsequence_ok in R. apply Forall_forall. intros row Hr. apply filter_In in Hr. destruct Hr as [Hr _].
  apply in_map_iff in Hr. destruct Hr as (x & <- & _). rewrite map_length.
  apply (f_equal (@length _)) in R. rewrite !map_length in R. auto.
Qed.

(** Also when nothing is left to condition on and a part of the targets is resampled
    first. *)
Theorem C50_knn_simulate_stored : forall K pick sample g cs r n o i targets constraints inputs N,
  NoDup (t_out g) -> NoDup (dkeys constraints) ->
  (forall m k j, In j (pick m k) -> (j < m)%nat) ->
  In (r, (o, i)) (ledger (table_accepts g) cs) -> ~ In n (map fst (ledger (table_accepts g) cs)) ->
  knn_simulate g K pick sample (table_run g cs) r targets constraints inputs N =
  knn_simulate g K pick sample (table_run g cs) n targets (constraints ++ remaining (t_obs g) o targets constraints) inputs N.
Proof.
  intros K pick sample g cs r n o i targets constraints inputs N Hg Hc Hp Hi Hn. unfold knn_simulate.
  rewrite (populate_stored g cs r o i targets constraints Hg Hc Hi), (populate_new g cs n) by assumption.
  destruct inputs; [|reflexivity]. cbn [rbind].
  set (C := constraints ++ remaining (t_obs g) o targets constraints).
  apply rbind_ext. intros [] _. f_equal. destruct C as [|c C'] eqn:EC; [|reflexivity].
  f_equal. unfold knn_fallback. cbv zeta.
  apply rbind_ext. intros [dummy targets'] Hd. apply rbind_ext. intros data Hdata. destruct data as [|d0 data]; [reflexivity|].
  f_equal. f_equal. apply map_ext_in. intros [k j] Hk. apply in_combine_r in Hk. apply Hp in Hk.
  set (e := combine dummy (nth j (d0 :: data) [])).
  assert (Ke : dkeys e = dummy).
  { apply keys_combine. apply dataset_width in Hdata. rewrite Forall_forall in Hdata. symmetry. apply Hdata. apply nth_In. exact Hk. }
  assert (Nd : NoDup dummy).
  { destruct (Nat.eqb _ _).
    - destruct (filter _ (t_out g)); [|discriminate]. destruct targets; [discriminate|]. injection Hd as <- <-. repeat constructor. intros [].
    - injection Hd as <- <-. apply filter_NoDup. exact Hg. }
  rewrite (populate_stored g cs r o i targets' e), (populate_new g cs n) by (try assumption; rewrite Ke; exact Nd).
  assert (R : remaining (t_obs g) o targets' e = []).
  { destruct (remaining (t_obs g) o targets' e) as [|[q v] l] eqn:R; [reflexivity|]. exfalso.
    assert (X : In (q, v) (remaining (t_obs g) o targets' e)) by (rewrite R; left; reflexivity).
    apply remaining_in in X. destruct X as (X1 & X2 & X3 & X4 & X5). rewrite Ke in X5.
    assert (Y : ~ In q targets).
    { destruct (Nat.eqb _ _).
      - destruct (filter _ (t_out g)) eqn:Fl; [|discriminate]. destruct targets as [|t ts]; [discriminate|]. injection Hd as <- <-.
        cbn in X5. cbn. tauto.
      - injection Hd as _ <-. exact X4. }
    assert (Z : In (q, v) (remaining (t_obs g) o targets constraints)).
    { apply remaining_in. repeat split; auto. intros W. apply in_map_iff in W. destruct W as (w & _ & W).
      assert (In w (constraints ++ remaining (t_obs g) o targets constraints)) by (apply in_app_iff; auto). fold C in H. rewrite EC in H. exact H. }
    assert (In (q, v) C) by (unfold C; apply in_app_iff; auto). rewrite EC in H. exact H. }
  rewrite R, app_nil_r. reflexivity.
Qed.
Print Assumptions C50_knn_simulate_stored.

(** Concrete case: row 5 of the example above has a 4 in column 2 and nothing in column 1. *)
Example C50_table_stored_ex : In (5, ([(2, Fin 4)], [])) (ledger (table_accepts ex_shape) ex_table_calls) /\
  ~ In 8 (map fst (ledger (table_accepts ex_shape) ex_table_calls)) /\
  remaining (t_obs ex_shape) [(2, Fin 4)] [1] [(3, Fin 0)] = [(2, Fin 4)] /\
  remaining (t_obs ex_shape) [(2, Fin 4)] [2] [] = [] /\
  kde_logpdf ex_shape (fun members t c => match members, c with [_], [(2, _)] => Ok (Fin 1) | _, _ => Err KeyError end)
    (table_run ex_shape ex_table_calls) 5 [(1, Fin 3)] [] [] = Ok (Fin 1).
Proof. repeat split; try reflexivity; [left; reflexivity|]. cbn. intuition lia. Qed.

(** The rows kernel density and nearest neighbours work on: those stored with an observed
    value in each of the columns asked, in the order they were stored. *)
Definition complete (qs : list Z) (o : dict ext) : bool :=
  forallb (fun q => match dget q o with Some v => negb (eisnan v) | None => false end) qs.
Definition members_of (L : list entry) (qs : list Z) : list (list ext) :=
  map (fun e => map (cell_of (fst (snd e))) qs) (filter (fun e => complete qs (fst (snd e))) L).

Lemma index_of_spec q l : match index_of q l with
  | Ok k => 0 <= k < Z.of_nat (length l) /\ In q l /\ nth (Z.to_nat k) l 0 = q
  | Err e => e = KeyError /\ ~ In q l
  end.
Proof.
  induction l as [|o l IH]; [cbn; auto|]. cbn [index_of]. destruct (Z.eqb_spec q o) as [->|Ne].
  - cbn [length nth Z.to_nat]. split; [lia|]. split; [left|]; reflexivity.
  - destruct (index_of q l) as [k|e]; cbn [rbind].
    + destruct IH as (I1 & I2 & I3). cbn [length]. replace (Z.to_nat (k + 1)) with (S (Z.to_nat k)) by lia.
      split; [lia|]. split; [right; exact I2|exact I3].
    + destruct IH as [-> I]. split; [reflexivity|]. intros [X|X]; [congruence|exact (I X)].
Qed.
Lemma index_of_nth l j : NoDup l -> (j < length l)%nat -> index_of (nth j l 0) l = Ok (Z.of_nat j).
Proof.
  revert j. induction l as [|o l IH]; intros j Hn Hj; [cbn in Hj; lia|]. inversion Hn; subst. cbn [index_of].
  destruct j as [|j]; cbn [nth].
  - rewrite Z.eqb_refl. reflexivity.
  - cbn in Hj. destruct (Z.eqb_spec (nth j l 0) o) as [E|_].
    + exfalso. apply H1. rewrite <- E. apply nth_In. lia.
    + rewrite IH by (auto; lia). cbn [rbind]. f_equal. lia.
Qed.
Lemma nth_map_in {A B} (f : A -> B) l j d d' : (j < length l)%nat -> nth j (map f l) d = f (nth j l d').
Proof. revert j. induction l as [|x l IH]; intros [|j] H; cbn in *; try lia; [reflexivity|]. apply IH. lia. Qed.

Lemma dataset_rows g s qs L : t_data s = map (fun e => (fst e, map (cell_of (fst (snd e))) (t_obs g))) L ->
  dataset g s qs = if forallb (fun q => zmem q (t_obs g)) qs then Ok (members_of L qs) else Err ValueError.
Proof.
  intros Hd. unfold dataset. rewrite Hd.
  destruct (forallb (fun q => zmem q (t_obs g)) qs) eqn:F.
  - assert (X : exists idx, rsequence (map (fun q => index_of q (t_obs g)) qs) = Ok idx /\
        forall o, map (fun k => nth (Z.to_nat k) (map (cell_of o) (t_obs g)) NaN) idx = map (cell_of o) qs).
    { clear - F. induction qs as [|q qs IH]; [exists []; split; [reflexivity|intros; reflexivity]|].
      cbn [forallb] in F. apply andb_true_iff in F. destruct F as [F1 F2]. destruct (IH F2) as (idx & E & Hidx).
      pose proof (index_of_spec q (t_obs g)) as Sp. apply zmem_in in F1.
      destruct (index_of q (t_obs g)) as [k|] eqn:Ek; [|tauto]. destruct Sp as (K1 & _ & K3).
      exists (k :: idx). split; [cbn [map rsequence]; rewrite Ek, E; reflexivity|].
      intros o. cbn [map]. rewrite Hidx. f_equal. rewrite (nth_map_in _ _ _ _ 0) by lia. rewrite K3. reflexivity. }
    destruct X as (idx & -> & Hidx). cbn [rbind]. f_equal. unfold members_of. clear Hd F.
    induction L as [|e L IH]; [reflexivity|]. cbn [map filter snd]. rewrite Hidx.
    replace (complete qs (fst (snd e))) with (negb (existsb eisnan (map (cell_of (fst (snd e))) qs))).
    2:{ unfold complete. clear. induction qs as [|q qs IH]; [reflexivity|]. cbn [map existsb forallb]. rewrite negb_orb, IH.
        f_equal. unfold cell_of. destruct (dget q (fst (snd e))); reflexivity. }
    destruct (negb _); cbn [map]; rewrite IH; reflexivity.
  - destruct (rsequence (map (fun q => index_of q (t_obs g)) qs)) as [idx|] eqn:E; [|reflexivity]. exfalso.
    apply rsequence_ok in E. assert (C : forallb (fun q => zmem q (t_obs g)) qs = true); [|congruence].
    apply forallb_forall. intros q Hq. apply zmem_in. pose proof (index_of_spec q (t_obs g)) as Sp.
    assert (I : In (index_of q (t_obs g)) (map Ok idx)) by (rewrite <- E; apply in_map_iff; exists q; auto).
    apply in_map_iff in I. destruct I as (k & Ek & _). rewrite <- Ek in Sp. tauto.
Qed.
Theorem C50_dataset : forall g cs qs, NoDup (t_out g) ->
  dataset g (table_run g cs) qs =
  if forallb (fun q => zmem q (t_obs g)) qs then Ok (members_of (ledger (table_accepts g) cs) qs) else Err ValueError.
Proof. intros g cs qs Hg. apply dataset_rows. apply (proj1 (C50_table g cs Hg)). Qed.
Print Assumptions C50_dataset.
Example C50_dataset_ex :
  members_of (ledger (table_accepts ex_shape) ex_table_calls) [2] = [[Fin 4]; [Fin 9]] /\
  members_of (ledger (table_accepts ex_shape) ex_table_calls) [2; 1] = [[Fin 9; Fin 0]] /\
  dataset ex_shape (table_run ex_shape ex_table_calls) [3] = Err ValueError.
Proof. repeat split; reflexivity. Qed.

(** The score of a kernel density component: over the rows stored, the sum of the log
    densities of the row's observed cells among the rows complete in the same columns, the
    row itself included -- but it raises once a row has been accepted without any observed
    cell. *)
Definition observed (obs : list Z) (o : dict ext) : dict ext := remaining obs o [] [].
Theorem C50_kde_score : forall density g cs, NoDup (t_out g) ->
  let L := ledger (table_accepts g) cs in
  kde_score g density (table_run g cs) =
  rbind (rsequence (map (fun e => match observed (t_obs g) (fst (snd e)) with
                                  | [] => Err ValueError
                                  | targets => density (members_of L (dkeys targets)) targets []
                                  end) L)) (fun l => Ok (esum l)).
Proof.
  intros density g cs Hg L. destruct (C50_table g cs Hg) as (Hd & HN & _). fold L in Hd, HN. unfold kde_score. f_equal.
  rewrite Hd at 1. rewrite map_map. f_equal. apply map_ext_in. intros [r [o i]] He. cbn [fst snd].
  replace (filter (fun c => negb (eisnan (snd c))) (combine (t_obs g) (map (cell_of o) (t_obs g)))) with (observed (t_obs g) o).
  2:{ unfold observed. rewrite <- remaining_filter. apply filter_ext. intros [q v]. cbn. rewrite !andb_true_r. reflexivity. }
  unfold kde_logpdf. rewrite HN. destruct (Z.eqb_spec (Z.of_nat (length L)) 0) as [E|_].
  { destruct L; [contradiction|cbn in E; lia]. }
  rewrite (populate_stored g cs r o i _ [] Hg (NoDup_nil _) He). cbn [app rbind].
  replace (remaining (t_obs g) o (dkeys (observed (t_obs g) o)) []) with (@nil (Z * ext)).
  2:{ symmetry. destruct (remaining (t_obs g) o (dkeys (observed (t_obs g) o)) []) as [|[q v] l] eqn:R; [reflexivity|]. exfalso.
      assert (X : In (q, v) (remaining (t_obs g) o (dkeys (observed (t_obs g) o)) [])) by (rewrite R; left; reflexivity).
      apply remaining_in in X. destruct X as (X1 & X2 & X3 & X4 & _). apply X4. apply in_map_iff. exists (q, v). split; [reflexivity|].
      apply remaining_in. repeat split; auto; intros []. }
  assert (O : forall q v, In (q, v) (observed (t_obs g) o) -> In q (t_obs g) /\ v <> NaN).
  { intros q v X. apply remaining_in in X. tauto. }
  destruct (observed (t_obs g) o) as [|c0 T] eqn:ET; [reflexivity|]. rewrite <- ET in *. clear c0 T ET.
  replace (existsb eisnan (map snd (observed (t_obs g) o))) with false.
  2:{ symmetry. apply not_true_is_false. intros X. apply existsb_exists in X. destruct X as (v & X & E). apply in_map_iff in X.
      destruct X as ([q w] & E' & X). cbn in E'. subst w. apply O in X. destruct v; try discriminate. tauto. }
  replace (unknown g (dkeys (observed (t_obs g) o))) with false.
  2:{ symmetry. apply not_true_is_false. intros X. apply existsb_exists in X. destruct X as (q & X & E). apply in_map_iff in X.
      destruct X as ([q' w] & E' & X). cbn in E'. subst q'. apply O in X. apply negb_true_iff, zmem_false in E. apply E.
      unfold t_out. apply in_app_iff. tauto. }
  replace (overlapping (dkeys (observed (t_obs g) o)) []) with false.
  2:{ symmetry. apply not_true_is_false. intros X. apply existsb_exists in X. destruct X as (q & _ & E). discriminate. }
  rewrite app_nil_r, (dataset_rows g _ _ L Hd).
  replace (forallb (fun q => zmem q (t_obs g)) (dkeys (observed (t_obs g) o))) with true.
  2:{ symmetry. apply forallb_forall. intros q X. apply in_map_iff in X. destruct X as ([q' w] & E' & X). cbn in E'. subst q'.
      apply zmem_in. apply O in X. tauto. }
  reflexivity.
Qed.
Print Assumptions C50_kde_score.
Example C50_kde_score_ex :
  kde_score ex_shape (fun members t c => Ok (Fin (INR (length members)))) (table_run ex_shape ex_table_calls) = Ok (Fin (0 + 2 + 1)%R).
Proof. rewrite C50_kde_score by (repeat constructor; cbn; lia). cbn. unfold esum. cbn. do 2 f_equal. Qed.
Theorem C50_kde_score_refuted : exists g cs, NoDup (t_out g) /\ length (ledger (table_accepts g) cs) = 1%nat /\
  forall density, kde_score g density (table_run g cs) = Err ValueError.
Proof.
  exists ex_shape, [Inc 0 [(1, NaN)] []]. split; [repeat constructor; cbn; lia|]. split; [reflexivity|]. intros density. reflexivity.
Qed.
Print Assumptions C50_kde_score_refuted.
(** The score of a factor analysis raises once a row has been stored. *)
Theorem C50_fa_score_refuted : forall g cs, NoDup (t_out g) -> ledger (table_accepts g) cs <> [] ->
  fa_score (table_run g cs) = Err TypeError.
Proof.
  intros g cs Hg H. destruct (C50_table g cs Hg) as (Hd & _). unfold fa_score. rewrite Hd.
  destruct (ledger (table_accepts g) cs); [congruence|reflexivity].
Qed.
Print Assumptions C50_fa_score_refuted.
Example C50_fa_score_ex : ledger (table_accepts ex_shape) ex_table_calls <> [].
Proof. discriminate. Qed.

(** Positions in the joint normal of a factor analysis: the latents come first, then the
    observed columns, each in the order of the outputs. *)
Theorem C48_reindex : forall g qs, NoDup (t_out g) ->
  match reindex g qs with
  | Ok ps => (forall q, In q qs -> In q (t_out g)) /\ map (fun p => nth (Z.to_nat p) (t_latent g ++ t_obs g) 0) ps = qs /\
             Forall (fun p => 0 <= p < Z.of_nat (length (t_out g))) ps
  | Err e => e = KeyError /\ exists q, In q qs /\ ~ In q (t_out g)
  end.
Proof.
  intros g qs Hg. assert (One : forall q, match reindex1 g q with
    | Ok p => In q (t_out g) /\ nth (Z.to_nat p) (t_latent g ++ t_obs g) 0 = q /\ 0 <= p < Z.of_nat (length (t_out g))
    | Err e => e = KeyError /\ ~ In q (t_out g) end).
  { intros q. unfold reindex1. pose proof (index_of_spec q (t_out g)) as Sp. destruct (index_of q (t_out g)) as [k|e]; cbn [rbind]; [|exact Sp].
    destruct Sp as (K1 & K2 & K3). split; [exact K2|]. unfold t_out in *. rewrite app_length in *.
    assert (B : zmem q (t_latent g) = true <-> (length (t_obs g) <= Z.to_nat k)%nat).
    { rewrite zmem_in. split; intros X.
      - destruct (le_lt_dec (length (t_obs g)) (Z.to_nat k)) as [|Lt]; [assumption|]. exfalso. rewrite app_nth1 in K3 by exact Lt.
        assert (In q (t_obs g)) by (rewrite <- K3; apply nth_In; exact Lt).
        apply NoDup_app_elim in Hg. destruct Hg as (_ & _ & D). exact (D q H X).
      - rewrite app_nth2 in K3 by exact X. rewrite <- K3. apply nth_In. lia. }
    destruct (zmem q (t_latent g)).
    - destruct B as [B _]. specialize (B eq_refl). rewrite app_nth2 in K3 by exact B. split; [|lia].
      rewrite app_nth1 by lia. rewrite <- K3. f_equal. lia.
    - assert ((Z.to_nat k < length (t_obs g))%nat).
      { destruct (le_lt_dec (length (t_obs g)) (Z.to_nat k)) as [X|]; [|assumption]. apply B in X. discriminate. }
      rewrite app_nth1 in K3 by assumption. split; [|lia]. rewrite app_nth2 by lia. rewrite <- K3. f_equal. lia. }
  unfold reindex. induction qs as [|q qs IH]; [cbn; repeat split; auto; intros q []|]. cbn [map rsequence]. specialize (One q).
  destruct (reindex1 g q) as [p|e]; cbn [rbind].
  - destruct (rsequence (map (reindex1 g) qs)) as [ps|e]; cbn [rbind].
    + destruct IH as (I1 & I2 & I3). destruct One as (O1 & O2 & O3). repeat split.
      * intros q' [<-|X]; auto.
      * cbn [map]. rewrite O2, I2. reflexivity.
      * constructor; assumption.
    + destruct IH as [-> (q' & X & Y)]. split; [reflexivity|]. exists q'. split; [right; exact X|exact Y].
  - destruct One as [-> O]. split; [reflexivity|]. exists q. split; [left; reflexivity|exact O].
Qed.
Print Assumptions C48_reindex.
(** The comment in factor.py, D = 4 and L = 3. *)
Example C48_reindex_ex : reindex (Shape [12; 14; -7; 5] [11; 4; 3]) [12; 14; -7; 5; 11; 4; 3] = Ok [3; 4; 5; 6; 0; 1; 2].
Proof. reflexivity. Qed.
