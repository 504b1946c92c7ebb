(** Property C38: schedules of inference. *)
From Verif Require Import Schedule Classes P02_LogSpace P09_State P10_Columns P14_Compose StateFacts BaseFacts PrimFacts.
From Coq Require Import Lia Lra Reals List ZArith.
Import ListNotations.
Local Open Scope R_scope.

(* ------------------------------------------------------------------ *)
(** ** Specification *)

(** What happens: a kernel is run, or the diagnostics are recorded. *)
Inductive event (K : Type) : Type := Run (k : K) | Record.
Arguments Run {K}. Arguments Record {K}.

(** [n] rounds over the kernels, with a record at the end of every [c]-th round. *)
Definition round {K} (c : option Z) (ks : list K) (i : nat) : list (event K) :=
  map Run ks ++ match c with
                | None => []
                | Some c => if Znumtheory.Zdivide_dec c (Z.of_nat i) then [Record] else []
                end.
Definition script {K} (c : option Z) (ks : list K) (n : nat) : list (event K) :=
  concat (map (round c ks) (seq 1 n)).

(** The events one after the other; [t] kernels have been run before. *)
Fixpoint perform {W K} (call : nat -> K -> W -> W * res unit) (record : W -> W * res unit)
  (t : nat) (es : list (event K)) (w : W) : W * res unit :=
  match es with
  | [] => (w, Ok tt)
  | Run k :: es' =>
      let '(w1, r) := call t k w in
      match r with Err e => (w1, Err e) | Ok _ => perform call record (S t) es' w1 end
  | Record :: es' =>
      let '(w1, r) := record w in
      match r with Err e => (w1, Err e) | Ok _ => perform call record t es' w1 end
  end.

Definition runs {K} (es : list (event K)) : nat :=
  length (filter (fun e => match e with Run _ => true | Record => false end) es).

Lemma runs_app {K} (a b : list (event K)) : runs (a ++ b) = (runs a + runs b)%nat.
Proof. unfold runs. rewrite filter_app, app_length. reflexivity. Qed.
Lemma runs_map {K} (l : list K) : runs (map Run l) = length l.
Proof. unfold runs. induction l as [|k l IH]; cbn; [reflexivity|]. f_equal. exact IH. Qed.
Lemma runs_round {K} c (ks : list K) i : runs (round c ks i) = length ks.
Proof.
  unfold round. rewrite runs_app, runs_map. destruct c as [c|]; [|cbn; lia].
  destruct (Znumtheory.Zdivide_dec c (Z.of_nat i)); cbn; lia.
Qed.
Lemma script_S {K} c (ks : list K) n : script c ks (S n) = script c ks n ++ round c ks (S n).
Proof. unfold script. rewrite seq_S, map_app, concat_app. cbn. rewrite app_nil_r. reflexivity. Qed.
Lemma runs_script {K} c (ks : list K) n : runs (script c ks n) = (n * length ks)%nat.
Proof. induction n as [|n IH]; [reflexivity|]. rewrite script_S, runs_app, runs_round, IH. lia. Qed.

Section Perform.
  Context {W K : Type} (call : nat -> K -> W -> W * res unit) (record : W -> W * res unit).

  Lemma perform_app a b t w :
    perform call record t (a ++ b) w = match perform call record t a w with
                           | (w1, Ok _) => perform call record (t + runs a) b w1
                           | (w1, Err e) => (w1, Err e)
                           end.
  Proof.
    revert t w. induction a as [|[k|] a IH]; intros t w; cbn [app perform].
    - rewrite Nat.add_0_r. reflexivity.
    - destruct (call t k w) as [w1 [u|e]]; [|reflexivity]. rewrite IH.
      change (runs (Run k :: a)) with (S (runs a)).
      destruct (perform call record (S t) a w1) as [w2 [u2|e2]]; [|reflexivity].
      replace (t + S (runs a))%nat with (S t + runs a)%nat by lia. reflexivity.
    - destruct (record w) as [w1 [u|e]]; [|reflexivity]. rewrite IH. reflexivity.
  Qed.

  Variables (N : option Z) (Sec : option R) (clock : nat -> R) (ck : option Z).
  Notation one_pass := (one_pass call N Sec clock).
  Notation passes := (passes call record N Sec clock ck).

  (** A pass in which the test never asks to stop. *)
  Lemma pass_full iters ks : forall t w,
    (forall j, (t <= j < t + length ks)%nat -> exists p, proportion_done N Sec iters (clock j) = Ok p /\ p < 1) ->
    one_pass iters ks t w = match perform call record t (map Run ks) w with
                            | (w1, Ok _) => (w1, (t + length ks)%nat, Ok false)
                            | (w1, Err e) => let '(w2, t2, _) := one_pass iters ks t w in (w2, t2, Err e)
                            end /\
    fst (fst (one_pass iters ks t w)) = fst (perform call record t (map Run ks) w).
  Proof.
    induction ks as [|k ks IH]; intros t w H; cbn [map Schedule.one_pass perform].
    { split; [|reflexivity]. cbn. rewrite Nat.add_0_r. reflexivity. }
    destruct (H t) as [p [E Hp]]; [cbn; lia|]. rewrite E.
    assert (Hl : Rleb 1 p = false) by (apply Rleb_false; lra). rewrite Hl.
    destruct (call t k w) as [w1 [u|e]]; [|split; reflexivity].
    destruct (IH (S t) w1) as [I1 I2].
    { intros j Hj. apply H. cbn. lia. }
    destruct (perform call record (S t) (map Run ks) w1) as [w2 [u2|e2]].
    - split; [|exact I2]. rewrite I1. cbn [length]. do 2 f_equal. lia.
    - split; [|exact I2]. destruct (one_pass iters ks (S t) w1) as [[w3 t3] r3]. exact I1.
  Qed.

  Lemma due_spec i : (0 < i)%nat ->
    due ck (Z.of_nat i) = match ck with None => false
                          | Some c => if Znumtheory.Zdivide_dec c (Z.of_nat i) then true else false end.
  Proof.
    intros Hi. unfold due. destruct ck as [c|]; [|reflexivity]. destruct (c =? 0)%Z eqn:E0.
    - apply Z.eqb_eq in E0. subst c. destruct (Znumtheory.Zdivide_dec 0 (Z.of_nat i)) as [D|_]; [|reflexivity].
      destruct D as [q Hq]. lia.
    - apply Z.eqb_neq in E0. cbn [negb andb].
      destruct (Znumtheory.Zdivide_dec c (Z.of_nat i)) as [D|D].
      + apply Z.eqb_eq. apply Z.mod_divide; assumption.
      + apply Z.eqb_neq. intros F. apply D. apply Z.mod_divide; assumption.
  Qed.

  (** A round that the test never interrupts. *)
  Lemma passes_round fuel ks i t w :
    (forall j, (t <= j < t + length ks)%nat ->
       exists p, proportion_done N Sec (Z.of_nat i) (clock j) = Ok p /\ p < 1) ->
    passes (S fuel) ks (Z.of_nat i) t w =
      match perform call record t (round ck ks (S i)) w with
      | (w1, Ok _) => passes fuel ks (Z.of_nat (S i)) (t + length ks) w1
      | (w1, Err e) => Some (w1, Err e)
      end.
  Proof.
    intros H. cbn [Schedule.passes]. destruct (pass_full (Z.of_nat i) ks t w H) as [P1 P2].
    unfold round. rewrite perform_app. destruct (one_pass (Z.of_nat i) ks t w) as [[w1 t1] r1].
    cbn [fst] in P2.
    destruct (perform call record t (map Run ks) w) as [w1' [u|e]]; cbn [fst] in P2; subst w1'.
    - injection P1 as -> ->. rewrite runs_map.
      replace (Z.of_nat i + 1)%Z with (Z.of_nat (S i)) by lia.
      rewrite due_spec by lia. destruct ck as [c|]; [|reflexivity].
      destruct (Znumtheory.Zdivide_dec c (Z.of_nat (S i))); [|reflexivity].
      cbn [perform]. destruct (record w1) as [w2 [u2|e2]]; reflexivity.
    - injection P1 as ->. reflexivity.
  Qed.
End Perform.

Lemma done_iters n i x : (0 < n)%Z -> proportion_done (Some n) None i x = Ok (Rmax (IZR i / IZR n) 0).
Proof. intros H. unfold proportion_done. cbn [rbind]. destruct (n =? 0)%Z eqn:E; [apply Z.eqb_eq in E; lia|]. reflexivity. Qed.

(* ------------------------------------------------------------------ *)
(** ** C38: every kernel is run N times *)

(** For every number of iterations, every list of kernels and every checkpoint interval:
    what happens is [n] rounds over the kernels in the given order, with a record exactly
    at the end of the rounds whose number is a multiple of the interval.  If one of the
    events raises, so does the transition, at that point. *)
Theorem C38_schedule {W K} (call : nat -> K -> W -> W * res unit) record (ks : list K) n clock c fuel w :
  ks <> [] -> (0 < n < fuel)%nat ->
  transition_generic call record ks (Some (Z.of_nat n)) None clock c fuel w =
    Some (match perform call record 0 (script c ks n) w with
          | (w', Ok _) => (w', Ok (Z.of_nat n))
          | (w', Err e) => (w', Err e)
          end).
Proof.
  intros Hks Hn. unfold transition_generic. destruct ks as [|k0 ks0] eqn:Ek; [contradiction|]. rewrite <- Ek in *. clear Ek.
  assert (Hnz : (0 < Z.of_nat n)%Z) by lia. assert (Hnr : 0 < IZR (Z.of_nat n)) by (apply IZR_lt; exact Hnz).
  (* after [i] rounds *)
  assert (G : forall m i fuel w0 w1, (i + m = n)%nat -> (m < fuel)%nat ->
    perform call record 0 (script c ks i) w0 = (w1, Ok tt) ->
    passes call record (Some (Z.of_nat n)) None clock c fuel ks (Z.of_nat i) (i * length ks) w1 =
    Some (match perform call record 0 (script c ks n) w0 with
          | (w', Ok _) => (w', Ok (Z.of_nat n)) | (w', Err e) => (w', Err e) end)).
  { clear fuel w Hn. induction m as [|m IH]; intros i fuel w0 w1 Hi Hf E.
    - assert (i = n) by lia. subst i. rewrite E. destruct fuel as [|fuel]; [lia|]. cbn [passes].
      destruct ks as [|k ks']; [contradiction|]. cbn [one_pass]. rewrite done_iters by exact Hnz.
      replace (IZR (Z.of_nat n) / IZR (Z.of_nat n)) with 1 by (field; lra).
      assert (HM : Rleb 1 (Rmax 1 0) = true) by (apply Rleb_true, Rmax_l). rewrite HM. reflexivity.
    - destruct fuel as [|fuel]; [lia|]. rewrite passes_round.
      + destruct (perform call record (i * length ks) (round c ks (S i)) w1) as [w2 [u|e]] eqn:E2.
        * replace (i * length ks + length ks)%nat with (S i * length ks)%nat by (cbn; lia).
          apply (IH (S i) fuel w0 w2); [lia|lia|]. rewrite script_S, perform_app, E, runs_script, Nat.add_0_l, E2.
          destruct u. reflexivity.
        * assert (A : forall k, perform call record 0 (script c ks (S i + k)) w0 = (w2, Err e)).
          { intros k. induction k as [|k IHk].
            - rewrite Nat.add_0_r, script_S, perform_app, E, runs_script, Nat.add_0_l, E2. reflexivity.
            - rewrite Nat.add_succ_r, script_S, perform_app, IHk. reflexivity. }
          replace n with (S i + m)%nat by lia. rewrite A. reflexivity.
      + intros j _. exists (Rmax (IZR (Z.of_nat i) / IZR (Z.of_nat n)) 0).
        rewrite done_iters by exact Hnz. split; [reflexivity|]. apply Rmax_lub_lt; [|lra].
        apply (Rmult_lt_reg_r (IZR (Z.of_nat n))); [exact Hnr|]. unfold Rdiv. rewrite Rmult_assoc, Rinv_l, Rmult_1_r, Rmult_1_l by lra.
        apply IZR_lt. lia. }
  apply (G n 0%nat fuel w w); [lia|lia|reflexivity].
Qed.
Print Assumptions C38_schedule.

(** Without a number of iterations and without a time limit there is one round. *)
Theorem C38_default {W K} (call : nat -> K -> W -> W * res unit) record (ks : list K) clock c fuel w :
  ks <> [] -> (1 < fuel)%nat ->
  transition_generic call record ks None None clock c fuel w =
    Some (match perform call record 0 (round c ks 1) w with
          | (w', Ok _) => (w', Ok 1%Z)
          | (w', Err e) => (w', Err e)
          end).
Proof.
  intros Hks Hf. pose proof (C38_schedule call record ks 1 clock c fuel w Hks (conj Nat.lt_0_1 Hf)) as H.
  unfold script in H. cbn [seq map concat] in H. rewrite app_nil_r in H. exact H.
Qed.
Print Assumptions C38_default.

(* ------------------------------------------------------------------ *)
(** ** C38: time limits *)

Lemma pass_cases {W K} (call : nat -> K -> W -> W * res unit) N Sec clock iters (ks : list K) record :
  forall t w w1 t1 b, one_pass call N Sec clock iters ks t w = (w1, t1, Ok b) ->
  exists m, (m <= length ks)%nat /\ t1 = (t + m)%nat /\
    perform call record t (map Run (firstn m ks)) w = (w1, Ok tt) /\
    (forall j, (t <= j < t + m)%nat -> exists p, proportion_done N Sec iters (clock j) = Ok p /\ p < 1) /\
    (if b then (m < length ks)%nat /\ exists p, proportion_done N Sec iters (clock (t + m)%nat) = Ok p /\ 1 <= p
     else m = length ks).
Proof.
  induction ks as [|k ks IH]; intros t w w1 t1 b; cbn [one_pass].
  - intros E. injection E as <- <- <-. exists 0%nat. cbn [length firstn map perform]. rewrite Nat.add_0_r. repeat split; try lia.
  - destruct (proportion_done N Sec iters (clock t)) as [p|e] eqn:Ep; [|discriminate].
    destruct (Rleb 1 p) eqn:El.
    + apply Rleb_true in El. intros E. injection E as <- <- <-. exists 0%nat. cbn [firstn map perform length].
      rewrite Nat.add_0_r. split; [lia|]. split; [reflexivity|]. split; [reflexivity|]. split; [intros; lia|].
      split; [lia|]. eauto.
    + apply Rleb_false in El. destruct (call t k w) as [w2 [u|e]] eqn:Ec; [|discriminate]. intros E.
      destruct (IH _ _ _ _ _ E) as [m [H1 [H2 [H3 [H4 H5]]]]]. exists (S m). cbn [length firstn map perform].
      rewrite Ec. split; [lia|]. split; [lia|]. split; [exact H3|]. split.
      * intros j Hj. destruct (Nat.eq_dec j t) as [->|Hne]; [exists p; split; [exact Ep|lra]|]. apply H4. lia.
      * replace (t + S m)%nat with (S t + m)%nat by lia. destruct b; [|lia]. split; [lia|]. apply H5.
Qed.

Lemma done_time N s i x p : 0 < s -> (match N with Some n => (0 < n)%Z | None => True end) ->
  proportion_done N (Some s) i x = Ok p ->
  p = Rmax (match N with Some n => IZR i / IZR n | None => 0 end) (x / s).
Proof.
  intros Hs Hn. unfold proportion_done. assert (E : Reqb s 0 = false) by (apply Reqb_false; lra). rewrite E. cbn [rbind].
  destruct N as [n|]; cbn [rbind].
  - destruct (n =? 0)%Z; [discriminate|]. intros E2. injection E2 as <-. reflexivity.
  - intros E2. injection E2 as <-. reflexivity.
Qed.

(** With a time limit of [s] seconds, the kernels that are run are the beginning of the
    same schedule, in the same order, never beyond the given number of rounds; the run
    ends at the first test that finds the time used up or the rounds completed. *)
Theorem C38_time_limit {W K} (call : nat -> K -> W -> W * res unit) record (ks : list K) N s clock c fuel w w' i :
  0 < s -> (match N with Some n => (0 < n)%Z | None => True end) -> ks <> [] ->
  transition_generic call record ks N (Some s) clock c fuel w = Some (w', Ok i) ->
  exists n m : nat,
    i = Z.of_nat n /\ (m < length ks)%nat /\
    perform call record 0 (script c ks n ++ map Run (firstn m ks)) w = (w', Ok tt) /\
    (match N with Some n0 => (i <= n0)%Z | None => True end) /\
    (forall j, (j < n * length ks + m)%nat -> clock j < s) /\
    (s <= clock (n * length ks + m)%nat \/ N = Some i /\ m = 0%nat).
Proof.
  intros Hs HN Hks. unfold transition_generic. destruct ks as [|k0 ks0] eqn:Ek; [contradiction|]. rewrite <- Ek in *. clear Ek.
  replace (match N with Some _ => N | None => N end) with N by (destruct N; reflexivity).
  assert (HL : (0 < length ks)%nat) by (destruct ks; [contradiction|cbn; lia]). clear Hks k0 ks0.
  assert (T1 : forall k x p, proportion_done N (Some s) (Z.of_nat k) x = Ok p -> p < 1 ->
               x < s /\ match N with Some n => (Z.of_nat k < n)%Z | None => True end).
  { intros k x p Ep Hp. apply (done_time N s _ _ _ Hs HN) in Ep. subst p.
    assert (A := Rle_lt_trans _ _ _ (Rmax_r _ _) Hp). assert (B := Rle_lt_trans _ _ _ (Rmax_l _ _) Hp). split.
    - apply (Rmult_lt_reg_r (/ s)); [apply Rinv_0_lt_compat; lra|]. rewrite Rinv_r by lra. exact A.
    - destruct N as [n|]; [|exact I]. apply lt_IZR. assert (0 < IZR n) by (apply IZR_lt; lia).
      apply (Rmult_lt_reg_r (/ IZR n)); [apply Rinv_0_lt_compat; lra|]. rewrite Rinv_r by lra. exact B. }
  assert (T2 : forall k x p, proportion_done N (Some s) (Z.of_nat k) x = Ok p -> 1 <= p ->
               s <= x \/ match N with Some n => (n <= Z.of_nat k)%Z | None => False end).
  { intros k x p Ep Hp. apply (done_time N s _ _ _ Hs HN) in Ep. subst p.
    destruct (Rle_dec s x) as [|Hx]; [left; assumption|right].
    assert (A : x / s < 1).
    { apply (Rmult_lt_reg_r s); [lra|]. unfold Rdiv. rewrite Rmult_assoc, Rinv_l by lra. lra. }
    destruct N as [n|].
    - apply le_IZR. assert (0 < IZR n) by (apply IZR_lt; lia). destruct (Rmax_Rle (IZR (Z.of_nat k) / IZR n) (x / s) 1) as [M _].
      destruct (M Hp) as [B|B]; [|lra]. apply (Rmult_le_reg_r (/ IZR n)); [apply Rinv_0_lt_compat; lra|].
      rewrite Rinv_r by lra. exact B.
    - destruct (Rmax_Rle 0 (x / s) 1) as [M _]. destruct (M Hp); lra. }
  assert (G : forall fuel k w1, perform call record 0 (script c ks k) w = (w1, Ok tt) ->
    (forall j, (j < k * length ks)%nat -> clock j < s) ->
    (match N with Some n => (Z.of_nat k <= n)%Z | None => True end) ->
    passes call record N (Some s) clock c fuel ks (Z.of_nat k) (k * length ks) w1 = Some (w', Ok i) ->
    exists n m : nat,
      i = Z.of_nat n /\ (m < length ks)%nat /\
      perform call record 0 (script c ks n ++ map Run (firstn m ks)) w = (w', Ok tt) /\
      (match N with Some n0 => (i <= n0)%Z | None => True end) /\
      (forall j, (j < n * length ks + m)%nat -> clock j < s) /\
      (s <= clock (n * length ks + m)%nat \/ N = Some i /\ m = 0%nat)).
  { clear fuel. induction fuel as [|fuel IH]; intros k w1 E Hc Hk; cbn [passes]; [discriminate|].
    destruct (one_pass call N (Some s) clock (Z.of_nat k) ks (k * length ks) w1) as [[w2 t2] r2] eqn:Ep.
    destruct r2 as [[|]|e]; [| |discriminate].
    - intros E2. injection E2 as <- <-. destruct (pass_cases _ _ _ _ _ _ record _ _ _ _ _ Ep) as [m [H1 [H2 [H3 [H4 [H5 [p [H6 H7]]]]]]]].
      exists k, m. split; [reflexivity|]. split; [exact H5|]. split.
      { rewrite perform_app, E, runs_script, Nat.add_0_l. exact H3. }
      split; [exact Hk|]. split.
      { intros j Hj. destruct (Nat.lt_ge_cases j (k * length ks)) as [Hl|Hl]; [apply Hc; exact Hl|].
        destruct (H4 j (conj Hl Hj)) as [q [Q1 Q2]]. apply (T1 _ _ _ Q1 Q2). }
      destruct (T2 _ _ _ H6 H7) as [A|A]; [left; exact A|right]. destruct N as [n|]; [|contradiction].
      split; [f_equal; lia|]. destruct m as [|m]; [reflexivity|exfalso].
      destruct (H4 (k * length ks)%nat) as [q [Q1 Q2]]; [lia|]. pose proof (proj2 (T1 _ _ _ Q1 Q2)). cbn in H. lia.
    - destruct (pass_cases _ _ _ _ _ _ record _ _ _ _ _ Ep) as [m [H1 [H2 [H3 [H4 H5]]]]]. subst m.
      rewrite firstn_all in H3.
      assert (HR : forall w3, perform call record (k * length ks) (round c ks (S k)) w1 = (w3, Ok tt) ->
        passes call record N (Some s) clock c fuel ks (Z.of_nat (S k)) (S k * length ks) w3 = Some (w', Ok i) ->
        exists n m : nat,
          i = Z.of_nat n /\ (m < length ks)%nat /\
          perform call record 0 (script c ks n ++ map Run (firstn m ks)) w = (w', Ok tt) /\
          (match N with Some n0 => (i <= n0)%Z | None => True end) /\
          (forall j, (j < n * length ks + m)%nat -> clock j < s) /\
          (s <= clock (n * length ks + m)%nat \/ N = Some i /\ m = 0%nat)).
      { intros w3 E3. apply IH.
        - rewrite script_S, perform_app, E, runs_script, Nat.add_0_l. exact E3.
        - intros j Hj. destruct (Nat.lt_ge_cases j (k * length ks)) as [Hl|Hl]; [apply Hc; exact Hl|].
          destruct (H4 j) as [q [Q1 Q2]]; [cbn in Hj; lia|]. apply (T1 _ _ _ Q1 Q2).
        - destruct N as [n|]; [|exact I]. destruct (H4 (k * length ks)%nat) as [q [Q1 Q2]]; [lia|].
          pose proof (proj2 (T1 _ _ _ Q1 Q2)). cbn in H. lia. }
      replace (Z.of_nat k + 1)%Z with (Z.of_nat (S k)) by lia. rewrite due_spec by lia.
      rewrite H2. replace (k * length ks + length ks)%nat with (S k * length ks)%nat by (cbn; lia).
      assert (HP : perform call record (k * length ks) (round c ks (S k)) w1 =
        perform call record (k * length ks + length ks)
          (match c with None => [] | Some c0 => if Znumtheory.Zdivide_dec c0 (Z.of_nat (S k)) then [Record] else [] end) w2).
      { unfold round. rewrite perform_app, H3, runs_map. reflexivity. }
      destruct c as [c|]; [|apply HR; rewrite HP; reflexivity].
      destruct (Znumtheory.Zdivide_dec c (Z.of_nat (S k))); [|apply HR; rewrite HP; reflexivity].
      destruct (record w2) as [w3 [[]|e]] eqn:Er; [|discriminate]. apply HR. rewrite HP. cbn [perform].
      rewrite Er. reflexivity. }
  intros E. apply (G fuel 0%nat w); [reflexivity| | |exact E].
  - intros j Hj. lia.
  - destruct N; [lia|exact I].
Qed.
Print Assumptions C38_time_limit.

(** Zero iterations are not zero rounds: the first test divides by the number of
    iterations. *)
Theorem C38_zero_refuted : exists (ks : list Z) (call : nat -> Z -> nat -> nat * res unit) record clock c w,
  ks <> [] /\ perform call record 0 (script c ks 0) w = (w, Ok tt) /\
  forall fuel, (0 < fuel)%nat ->
    transition_generic call record ks (Some 0%Z) None clock c fuel w = Some (w, Err ZeroDivisionError).
Proof.
  exists [0%Z], (fun _ _ w => (S w, Ok tt)), (fun w => (w, Ok tt)), (fun _ => 0), None, 0%nat.
  split; [discriminate|]. split; [reflexivity|]. intros [|fuel] H; [lia|]. reflexivity.
Qed.
Print Assumptions C38_zero_refuted.

(** A negative number of iterations, without a time limit, never ends. *)
Theorem C38_negative {W K} (call : nat -> K -> W -> W * res unit) record (ks : list K) n clock c fuel w :
  (n < 0)%Z -> ks <> [] -> (forall t k w, snd (call t k w) = Ok tt) -> (forall w, snd (record w) = Ok tt) ->
  transition_generic call record ks (Some n) None clock c fuel w = None.
Proof.
  intros Hn Hks Hc Hr. unfold transition_generic. destruct ks as [|k0 ks0] eqn:Ek; [contradiction|]. rewrite <- Ek. clear Hks Ek.
  assert (P : forall es t w, exists w1, perform call record t es w = (w1, Ok tt)).
  { induction es as [|[k|] es IH]; intros t v; cbn [perform]; [eauto| |].
    - pose proof (Hc t k v) as E. destruct (call t k v) as [w1 r]. cbn in E. subst r. apply IH.
    - pose proof (Hr v) as E. destruct (record v) as [w1 r]. cbn in E. subst r. apply IH. }
  change 0%Z with (Z.of_nat 0). generalize 0%nat at 1. generalize 0%nat. revert w.
  induction fuel as [|fuel IH]; intros w t i; [reflexivity|].
  rewrite passes_round.
  - destruct (P (round c ks (S i)) t w) as [w1 E]. rewrite E. apply IH.
  - intros j _. unfold proportion_done. cbn [rbind]. destruct (n =? 0)%Z eqn:E; [apply Z.eqb_eq in E; lia|]. cbn [rbind].
    eexists. split; [reflexivity|]. apply Rmax_lub_lt; [|lra]. assert (IZR n < 0) by (apply IZR_lt; lia).
    assert (0 <= IZR (Z.of_nat i)) by (apply IZR_le; lia). unfold Rdiv.
    assert (/ IZR n < 0) by (apply Rinv_lt_0_compat; lra). nra.
Qed.
Print Assumptions C38_negative.

(* ------------------------------------------------------------------ *)
(** ** C38: counters *)

Definition counter (w : tstate) (k : Z) : Z := match dget k (t_iters w) with Some p => p | None => 0%Z end.
Definition occurrences {K} (dec : forall x y : K, {x = y} + {x <> y}) (k : K) (l : list K) : Z :=
  Z.of_nat (count_occ dec l k).

Section Counters.
  Variables (lgam : R -> R) (rand : nat -> choices) (rowids cols views : option (list Z)).
  Notation call := (call_kernel lgam rand rowids cols views).
  Notation rec := (record_diagnostics lgam).

  (** Whether a call of [k] is counted. *)
  Definition counted (k : Z) (s : state) : Prop := k <> 4%Z \/ n_rows s <> Ok 1%Z.

  Lemma call_facts t k w w' : call t k w = (w', Ok tt) ->
    same_data (t_state w) (t_state w') /\ t_diag w' = t_diag w /\
    (forall k2, k2 <> k -> counter w' k2 = counter w k2) /\
    (counted k (t_state w) -> counter w' k = counter w k + 1)%Z /\
    (~ counted k (t_state w) -> w' = w).
  Proof.
    unfold call_kernel. intros E.
    destruct (if (k =? 4)%Z then rbind (n_rows (t_state w)) (fun n => Ok (n =? 1)%Z) else Ok false) as [[|]|e] eqn:Eb;
      [| |discriminate].
    - injection E as <-. destruct (k =? 4)%Z eqn:E4; [|discriminate]. apply Z.eqb_eq in E4. subst k.
      destruct (n_rows (t_state w)) as [n|] eqn:En; [|discriminate]. cbn in Eb. injection Eb as Eb. apply Z.eqb_eq in Eb. subst n.
      split; [repeat split|]. split; [reflexivity|]. split; [reflexivity|]. split; [|reflexivity].
      intros [H|H]; [contradiction H; reflexivity|]. rewrite En in H. contradiction H. reflexivity.
    - destruct (kernel_at lgam rowids cols views (rand t) k (t_state w)) as [q|e]; [|discriminate].
      destruct (run_kernel (t_state w) q) as [s [u|e]] eqn:Er; [|discriminate]. injection E as <-.
      apply kernel_data in Er. cbn [t_state t_diag]. split; [exact Er|]. split; [reflexivity|].
      unfold counter, increment. cbn [t_iters]. split.
      { intros k2 Hk. rewrite dget_dset_other by exact Hk. reflexivity. }
      split; [intros _; rewrite dget_dset_same; reflexivity|].
      intros H. exfalso. apply H. unfold counted. destruct (k =? 4)%Z eqn:E4; [|left; apply Z.eqb_neq; exact E4].
      right. intros En. rewrite En in Eb. discriminate.
  Qed.

  Lemma same_data_rows s s' : same_data s s' -> n_rows s' = n_rows s.
  Proof. intros [A [B _]]. unfold n_rows. rewrite A, B. reflexivity. Qed.

  Lemma same_data_counted s s' k : same_data s s' -> counted k s -> counted k s'.
  Proof. intros H [A|A]; [left; exact A|right]. rewrite (same_data_rows _ _ H). exact A. Qed.

  Lemma same_data_not s s' k : same_data s s' -> ~ counted k s -> ~ counted k s'.
  Proof.
    intros H A [B|B]; apply A; [left; exact B|right]. rewrite <- (same_data_rows _ _ H). exact B.
  Qed.

  Lemma record_facts w w' : rec w = (w', Ok tt) ->
    t_state w' = t_state w /\ t_iters w' = t_iters w /\
    exists l, state_score lgam (t_state w) = Ok l /\
      t_diag w' = t_diag w ++ [(l, c_alpha (s_crp (t_state w)), s_zv (t_state w))].
  Proof.
    unfold record_diagnostics. destruct (state_score lgam (t_state w)) as [l|e] eqn:E; [|discriminate].
    intros E2. injection E2 as <-. cbn. eauto.
  Qed.

  Definition calls_of (k : Z) (es : list (event Z)) : nat :=
    length (filter (fun e => match e with Run k2 => (k2 =? k)%Z | Record => false end) es).

  Lemma perform_facts es : forall t w w', perform call rec t es w = (w', Ok tt) ->
    same_data (t_state w) (t_state w') /\
    (forall k, counted k (t_state w) -> counter w' k = counter w k + Z.of_nat (calls_of k es))%Z /\
    (forall k, ~ counted k (t_state w) -> counter w' k = counter w k).
  Proof.
    induction es as [|[k|] es IH]; intros t w w'; cbn [perform].
    - intros E. injection E as <-. split; [repeat split|]. split; intros; [cbn; lia|reflexivity].
    - destruct (call t k w) as [w1 [[]|e]] eqn:Ec; [|discriminate]. intros E.
      destruct (call_facts _ _ _ _ Ec) as [D [_ [A [B C]]]]. destruct (IH _ _ _ E) as [D2 [A2 B2]].
      split; [eapply same_data_trans; eassumption|]. split; intros k2 H2.
      + rewrite A2 by (eapply same_data_counted; eassumption). unfold calls_of. cbn [filter].
        destruct (k =? k2)%Z eqn:Ek.
        * apply Z.eqb_eq in Ek. subst k2. rewrite (B H2). cbn [length]. lia.
        * apply Z.eqb_neq in Ek. rewrite (A k2) by congruence. reflexivity.
      + rewrite B2 by (eapply same_data_not; eassumption). destruct (Z.eq_dec k2 k) as [->|Hn]; [|apply A; exact Hn].
        rewrite (C H2). reflexivity.
    - destruct (rec w) as [w1 [[]|e]] eqn:Ec; [|discriminate]. intros E.
      destruct (record_facts _ _ Ec) as [D [A _]]. destruct (IH _ _ _ E) as [D2 [A2 B2]]. rewrite D in *.
      unfold counter in *. rewrite A in *. split; [exact D2|]. split; [|exact B2]. intros k Hk. rewrite A2 by exact Hk. reflexivity.
  Qed.

  Lemma calls_app k a b : calls_of k (a ++ b) = (calls_of k a + calls_of k b)%nat.
  Proof. unfold calls_of. rewrite filter_app, app_length. reflexivity. Qed.

  Lemma calls_map k ks : calls_of k (map Run ks) = count_occ Z.eq_dec ks k.
  Proof.
    unfold calls_of. induction ks as [|k2 ks IH]; [reflexivity|]. cbn [map filter count_occ].
    destruct (Z.eq_dec k2 k) as [->|Hn].
    - rewrite Z.eqb_refl. cbn [length]. rewrite IH. reflexivity.
    - apply Z.eqb_neq in Hn. rewrite Hn. exact IH.
  Qed.

  Lemma calls_script c k ks n : calls_of k (script c ks n) = (n * count_occ Z.eq_dec ks k)%nat.
  Proof.
    induction n as [|n IH]; [reflexivity|]. rewrite script_S, calls_app, IH. unfold round.
    rewrite calls_app, calls_map. assert (E : calls_of k (match c with
      | Some c0 => if Znumtheory.Zdivide_dec c0 (Z.of_nat (S n)) then [@Record Z] else [] | None => [] end) = 0%nat).
    { destruct c as [c|]; [|reflexivity]. destruct (Znumtheory.Zdivide_dec c (Z.of_nat (S n))); reflexivity. }
    rewrite E. cbn. lia.
  Qed.

  Lemma transition_perform n clock kernels c fuel w w' i :
    (0 < n < fuel)%nat ->
    transition lgam rand rowids cols views (Some (Z.of_nat n)) None clock kernels c fuel w = Some (w', Ok i) ->
    let ks := match kernels with None => all_kernels | Some l => l end in
    i = Z.of_nat n /\ ks <> [] /\ perform call rec 0 (script c ks n) w = (w', Ok tt).
  Proof.
    intros Hn. unfold transition.
    destruct (match cols with None => false | Some l => existsb (fun c => negb (zmem c (s_outs (t_state w)))) l end); [discriminate|].
    cbv zeta. set (ks := match kernels with None => all_kernels | Some l => l end).
    destruct (existsb (fun k => negb (zmem k all_kernels)) ks); [discriminate|].
    destruct (is_nil ks) eqn:En; [discriminate|]. assert (Hks : ks <> []) by (intros F; rewrite F in En; discriminate).
    rewrite (C38_schedule _ _ _ _ _ _ _ _ Hks Hn).
    destruct (perform call rec 0 (script c ks n) w) as [w1 [[]|e]]; [|discriminate].
    intros E. injection E as <- <-. auto.
  Qed.

  (** Every kernel's counter grows by [n] for each of its occurrences in the list;
      only the rows kernel is not counted, if the table has a single row.  Data and
      columns are unchanged. *)
  Theorem C38_counters n clock kernels c fuel w w' i : (0 < n < fuel)%nat ->
    transition lgam rand rowids cols views (Some (Z.of_nat n)) None clock kernels c fuel w = Some (w', Ok i) ->
    let ks := match kernels with None => all_kernels | Some l => l end in
    i = Z.of_nat n /\ s_X (t_state w') = s_X (t_state w) /\ s_outs (t_state w') = s_outs (t_state w) /\
    (forall k, counted k (t_state w) -> counter w' k = counter w k + Z.of_nat n * occurrences Z.eq_dec k ks)%Z /\
    (forall k, ~ counted k (t_state w) -> counter w' k = counter w k).
  Proof.
    intros Hn E. destruct (transition_perform _ _ _ _ _ _ _ _ Hn E) as [Hi [_ P]]. cbv zeta.
    destruct (perform_facts _ _ _ _ P) as [D [A B]]. split; [exact Hi|]. split; [apply D|]. split; [apply D|].
    split; [|exact B]. intros k Hk. rewrite (A k Hk), calls_script. unfold occurrences. lia.
  Qed.

  (* ---------------------------------------------------------------- *)
  (** *** Records *)

  Lemma perform_runs_diag ks : forall t w w', perform call rec t (map Run ks) w = (w', Ok tt) -> t_diag w' = t_diag w.
  Proof.
    induction ks as [|k ks IH]; intros t w w'; cbn [map perform].
    - intros E. injection E as <-. reflexivity.
    - destruct (call t k w) as [w1 [[]|e]] eqn:Ec; [|discriminate]. intros E. rewrite (IH _ _ _ E).
      apply (call_facts _ _ _ _ Ec).
  Qed.

  Lemma prefix_ok c ks n m w w' : perform call rec 0 (script c ks (n + m)) w = (w', Ok tt) ->
    exists w1, perform call rec 0 (script c ks n) w = (w1, Ok tt).
  Proof.
    revert w'. induction m as [|m IH]; intros w'; [rewrite Nat.add_0_r; eauto|].
    rewrite Nat.add_succ_r, script_S, perform_app.
    destruct (perform call rec 0 (script c ks (n + m)) w) as [w1 [[]|e]]; [|discriminate]. intros _. eapply IH. reflexivity.
  Qed.

  (** With a checkpoint interval [c > 0], [n / c] records are added, the last one after
      all the kernels of its round: each holds the score, the concentration and the column
      partition that the state has after exactly [c], [2c], ... rounds. *)
  Theorem C38_records n clock kernels c fuel w w' i : (0 < n < fuel)%nat -> (0 < c)%nat ->
    transition lgam rand rowids cols views (Some (Z.of_nat n)) None clock kernels (Some (Z.of_nat c)) fuel w = Some (w', Ok i) ->
    let ks := match kernels with None => all_kernels | Some l => l end in
    exists new, t_diag w' = t_diag w ++ new /\ length new = (n / c)%nat /\
      forall j, (j < n / c)%nat -> exists wj l,
        perform call rec 0 (script (Some (Z.of_nat c)) ks (c * S j)) w = (wj, Ok tt) /\
        state_score lgam (t_state wj) = Ok l /\
        nth_error new j = Some (l, c_alpha (s_crp (t_state wj)), s_zv (t_state wj)).
  Proof.
    intros Hn Hc E. destruct (transition_perform _ _ _ _ _ _ _ _ Hn E) as [_ [_ P]]. cbv zeta.
    set (ks := match kernels with None => all_kernels | Some l => l end) in *. clearbody ks. clear E Hn.
    revert w' P. induction n as [|n IH]; intros w' P.
    - cbn in P. injection P as <-. exists []. rewrite app_nil_r. rewrite Nat.div_0_l by lia. repeat split; intros; lia.
    - rewrite script_S, perform_app in P.
      destruct (perform call rec 0 (script (Some (Z.of_nat c)) ks n) w) as [w1 [[]|e]] eqn:E1; [|discriminate].
      destruct (IH _ eq_refl) as [new [N1 [N2 N3]]]. unfold round in P. rewrite perform_app in P.
      destruct (perform call rec (0 + runs (script (Some (Z.of_nat c)) ks n)) (map Run ks) w1) as [w2 [[]|e]] eqn:E2; [|discriminate].
      pose proof (perform_runs_diag _ _ _ _ E2) as D2.
      destruct (Znumtheory.Zdivide_dec (Z.of_nat c) (Z.of_nat (S n))) as [Hd|Hd].
      + cbn [perform] in P. destruct (rec w2) as [w3 [[]|e]] eqn:E3; [|discriminate]. injection P as <-.
        destruct (record_facts _ _ E3) as [S3 [_ [l [L3 D3]]]].
        assert (Hq : exists q, (S n = c * S q)%nat).
        { destruct Hd as [z Hz]. exists (Z.to_nat (z - 1)). assert (0 < z)%Z by nia. nia. }
        destruct Hq as [q Hq].
        assert (Q1 : (S n / c = S q)%nat) by (rewrite Hq, Nat.mul_comm; apply Nat.div_mul; lia).
        assert (Q2 : (n / c = q)%nat).
        { symmetry. apply (Nat.div_unique n c q (c - 1)); lia. }
        exists (new ++ [(l, c_alpha (s_crp (t_state w2)), s_zv (t_state w2))]). split; [rewrite D3, D2, N1, app_assoc; reflexivity|].
        split; [rewrite app_length, N2, Q1, Q2; cbn; lia|].
        intros j Hj. rewrite Q1 in Hj. destruct (Nat.eq_dec j q) as [->|Hne].
        * exists w3, l. rewrite S3. split.
          { rewrite <- Hq, script_S, perform_app, E1. unfold round. rewrite perform_app, E2.
            destruct (Znumtheory.Zdivide_dec (Z.of_nat c) (Z.of_nat (S n))) as [_|F]; [|contradiction].
            cbn [perform]. rewrite E3. reflexivity. }
          split; [exact L3|]. rewrite nth_error_app2 by lia. rewrite N2, Q2, Nat.sub_diag. reflexivity.
        * destruct (N3 j) as [wj [lj [A [B C]]]]; [lia|]. exists wj, lj. split; [exact A|]. split; [exact B|].
          rewrite nth_error_app1; [exact C|]. rewrite N2, Q2. lia.
      + cbn [perform] in P. injection P as <-. exists new. rewrite D2.
        assert (Q : (S n / c = n / c)%nat).
        { symmetry. apply (Nat.div_unique (S n) c (n / c) (S (n mod c))).
          - destruct (Nat.eq_dec (S (n mod c)) c) as [F|F].
            + exfalso. apply Hd. exists (Z.of_nat (n / c + 1)). pose proof (Nat.div_mod n c ltac:(lia)). nia.
            + pose proof (Nat.mod_upper_bound n c ltac:(lia)). lia.
          - pose proof (Nat.div_mod n c ltac:(lia)). lia. }
        rewrite Q. split; [exact N1|]. split; [exact N2|exact N3].
  Qed.

  (** Without a checkpoint interval nothing is recorded. *)
  Theorem C38_no_records n clock kernels c fuel w w' i : (0 < n < fuel)%nat -> c = None \/ c = Some 0%Z ->
    transition lgam rand rowids cols views (Some (Z.of_nat n)) None clock kernels c fuel w = Some (w', Ok i) ->
    t_diag w' = t_diag w.
  Proof.
    intros Hn Hc E. destruct (transition_perform _ _ _ _ _ _ _ _ Hn E) as [_ [_ P]].
    set (ks := match kernels with None => all_kernels | Some l => l end) in *. clearbody ks. clear E Hn.
    revert w' P. induction n as [|n IH]; intros w' P.
    - cbn in P. injection P as <-. reflexivity.
    - rewrite script_S, perform_app in P.
      destruct (perform call rec 0 (script c ks n) w) as [w1 [[]|e]] eqn:E1; [|discriminate].
      rewrite <- (IH _ eq_refl). unfold round in P. rewrite perform_app in P.
      destruct (perform call rec (0 + runs (script c ks n)) (map Run ks) w1) as [w2 [[]|e]] eqn:E2; [|discriminate].
      rewrite <- (perform_runs_diag _ _ _ _ E2). destruct Hc as [->| ->]; [cbn in P; congruence|].
      destruct (Znumtheory.Zdivide_dec 0 (Z.of_nat (S n))) as [[q Hq]|_]; [lia|]. cbn in P. congruence.
  Qed.

  (** Requests that are refused before any kernel is run: a column that the state does
      not have, an unknown kernel, or no kernel at all.  Other requests are not. *)
  Theorem C38_refused N Sec clock kernels c fuel w :
    let ks := match kernels with None => all_kernels | Some l => l end in
    ((exists l x, cols = Some l /\ In x l /\ ~ In x (s_outs (t_state w))) ->
       transition lgam rand rowids cols views N Sec clock kernels c fuel w = Some (w, Err ValueError)) /\
    ((forall l x, cols = Some l -> In x l -> In x (s_outs (t_state w))) ->
      ((exists k, In k ks /\ ~ (0 <= k <= 5)%Z) ->
         transition lgam rand rowids cols views N Sec clock kernels c fuel w = Some (w, Err KeyError)) /\
      (kernels = Some [] ->
         transition lgam rand rowids cols views N Sec clock kernels c fuel w = Some (w, Err AssertionError)) /\
      ((forall k, In k ks -> (0 <= k <= 5)%Z) -> kernels <> Some [] ->
         transition lgam rand rowids cols views N Sec clock kernels c fuel w =
         transition_generic call rec ks N Sec clock c fuel w)).
  Proof.
    cbv zeta. set (ks := match kernels with None => all_kernels | Some l => l end). unfold transition.
    assert (KD : forall k, zmem k all_kernels = true <-> (0 <= k <= 5)%Z).
    { intros k. rewrite zmem_in. unfold all_kernels. cbn. split; [intros [?|[?|[?|[?|[?|[?|[]]]]]]]; lia|]. intros H.
      assert (k = 0 \/ k = 1 \/ k = 2 \/ k = 3 \/ k = 4 \/ k = 5)%Z by lia. firstorder. }
    split.
    - intros [l [x [-> [Hx Hn]]]]. assert (E : existsb (fun c => negb (zmem c (s_outs (t_state w)))) l = true).
      { apply existsb_exists. exists x. split; [exact Hx|]. apply zmem_false in Hn. rewrite Hn. reflexivity. }
      rewrite E. reflexivity.
    - intros Hcols.
      assert (E : match cols with None => false | Some l => existsb (fun c => negb (zmem c (s_outs (t_state w)))) l end = false).
      { destruct cols as [l|]; [|reflexivity]. destruct (existsb _ l) eqn:E; [|reflexivity]. apply existsb_exists in E.
        destruct E as [x [Hx E]]. specialize (Hcols l x eq_refl Hx). apply zmem_in in Hcols. rewrite Hcols in E. discriminate. }
      rewrite E. fold ks. split; [|split].
      + intros [k [Hk Hb]]. assert (Ek : existsb (fun k => negb (zmem k all_kernels)) ks = true).
        { apply existsb_exists. exists k. split; [exact Hk|]. destruct (zmem k all_kernels) eqn:Ez; [|reflexivity].
          apply KD in Ez. contradiction. }
        cbv zeta. fold ks. rewrite Ek. reflexivity.
      + intros ->. reflexivity.
      + intros Hk Hne. cbv zeta. fold ks. assert (Ek : existsb (fun k => negb (zmem k all_kernels)) ks = false).
        { destruct (existsb _ ks) eqn:Ek; [|reflexivity]. apply existsb_exists in Ek. destruct Ek as [k [Hin Ek]].
          apply Hk, KD in Hin. rewrite Hin in Ek. discriminate. }
        rewrite Ek. destruct ks as [|k l] eqn:Eks; [|reflexivity]. exfalso. unfold ks in Eks.
        destruct kernels as [[|]|]; [contradiction Hne; reflexivity|discriminate|discriminate].
  Qed.
End Counters.
Print Assumptions C38_counters.
Print Assumptions C38_records.
Print Assumptions C38_no_records.
Print Assumptions C38_refused.

(* ------------------------------------------------------------------ *)
(** ** C38: composed components *)

Definition fcounter (w : fstate) (k : Z) : Z := match dget k (f_iters w) with Some p => p | None => 0%Z end.

(** The transitions of one component at the given calls. *)
Fixpoint steps (step : nat -> foreign -> res foreign) (ts : list nat) (f : foreign) : res foreign :=
  match ts with
  | [] => Ok f
  | t :: ts' => match step t f with Ok f' => steps step ts' f' | Err e => Err e end
  end.

Lemma steps_app step a : forall b f, steps step (a ++ b) f =
  match steps step a f with Ok f' => steps step b f' | Err e => Err e end.
Proof. induction a as [|t a IH]; intros b f; cbn [app steps]; [reflexivity|]. destruct (step t f); [apply IH|reflexivity]. Qed.

Section Foreign.
  Variable step : nat -> foreign -> res foreign.
  Notation call := (call_foreign step).
  Notation rec := (fun w : fstate => (w, Ok tt)).

  (** The same, except for the hooked components and the counters. *)
  Definition same_rest (w w' : fstate) : Prop :=
    cs_state (f_cs w') = cs_state (f_cs w) /\ cs_next (f_cs w') = cs_next (f_cs w) /\
    cs_composite (f_cs w') = cs_composite (f_cs w) /\ dkeys (cs_hooked (f_cs w')) = dkeys (cs_hooked (f_cs w)).
  Definition component (w : fstate) (k : Z) : option foreign := dget k (cs_hooked (f_cs w)).

  Lemma foreign_call t k w w' : call t k w = (w', Ok tt) ->
    same_rest w w' /\
    (exists f f', component w k = Some f /\ step t f = Ok f' /\ component w' k = Some f') /\
    fcounter w' k = (fcounter w k + 1)%Z /\
    forall k2, k2 <> k -> component w' k2 = component w k2 /\ fcounter w' k2 = fcounter w k2.
  Proof.
    unfold call_foreign. destruct (dget k (cs_hooked (f_cs w))) as [f|] eqn:Ef; [|discriminate].
    destruct (step t f) as [f'|e] eqn:Es; [|discriminate]. intros E. injection E as <-.
    unfold same_rest, component, fcounter, increment. cbn [f_cs f_iters cs_state cs_next cs_composite cs_hooked].
    split; [|split; [|split]].
    - repeat split. apply dkeys_dset_in. eapply dget_Some_in. exact Ef.
    - exists f, f'. rewrite dget_dset_same. auto.
    - rewrite dget_dset_same. reflexivity.
    - intros k2 Hn. rewrite !dget_dset_other by exact Hn. auto.
  Qed.

  Lemma foreign_round ks : NoDup ks -> forall t w w', perform call rec t (map Run ks) w = (w', Ok tt) ->
    same_rest w w' /\
    (forall p k, nth_error ks p = Some k -> exists f f', component w k = Some f /\
       step (t + p)%nat f = Ok f' /\ component w' k = Some f' /\ fcounter w' k = (fcounter w k + 1)%Z) /\
    (forall k, ~ In k ks -> component w' k = component w k /\ fcounter w' k = fcounter w k).
  Proof.
    induction 1 as [|k ks Hk Hnd IH]; intros t w w'; cbn [map perform].
    - intros E. injection E as <-. split; [repeat split|]. split; [intros [|p] k H; discriminate|auto].
    - destruct (call t k w) as [w1 [[]|e]] eqn:Ec; [|discriminate]. intros E.
      destruct (foreign_call _ _ _ _ Ec) as [A1 [[f [f' [B1 [B2 B3]]]] [C1 D1]]].
      destruct (IH _ _ _ E) as [A2 [B4 D2]]. split; [|split].
      + unfold same_rest in *. destruct A1 as [? [? [? ?]]], A2 as [? [? [? ?]]]. repeat split; congruence.
      + intros [|p] k2 Hp; cbn in Hp.
        * injection Hp as <-. exists f, f'. rewrite Nat.add_0_r. destruct (D2 k Hk) as [X Y].
          split; [exact B1|]. split; [exact B2|]. split; [rewrite X; exact B3|]. rewrite Y. exact C1.
        * destruct (B4 p k2 Hp) as [g [g' [G1 [G2 [G3 G4]]]]]. assert (Hn : k2 <> k).
          { intros ->. apply Hk. eapply nth_error_In. exact Hp. }
          destruct (D1 k2 Hn) as [X Y]. exists g, g'. rewrite <- X, <- Y.
          replace (t + S p)%nat with (S t + p)%nat by lia. auto.
      + intros k2 Hn. destruct (D2 k2) as [X Y]; [intros F; apply Hn; right; exact F|].
        destruct (D1 k2) as [X2 Y2]; [intros ->; apply Hn; left; reflexivity|]. split; congruence.
  Qed.

  (** The transitions of the composed components: those are run that have an output among
      the given columns (any output, if no columns are given), in the order of their
      composition, each exactly [n] times; a given column of the state itself is refused.
      Nothing else changes. *)
  Theorem C38_foreign cols n clock fuel w w' i :
    (0 < n < fuel)%nat -> NoDup (dkeys (cs_hooked (f_cs w))) ->
    transition_foreign step cols (Some (Z.of_nat n)) None clock fuel w = Some (w', Ok i) ->
    exists ks,
      (exists keep, ks = filter keep (dkeys (cs_hooked (f_cs w)))) /\
      (forall k, In k ks <-> exists f c, component w k = Some f /\ In c (g_outputs (f_sig f)) /\
         match cols with Some l => In c l | None => True end) /\
      (forall l c, cols = Some l -> In c l -> ~ In c (s_outs (cs_state (f_cs w)))) /\
      same_rest w w' /\
      (forall k, ~ In k ks -> component w' k = component w k /\ fcounter w' k = fcounter w k) /\
      (forall p k, nth_error ks p = Some k ->
         fcounter w' k = (fcounter w k + Z.of_nat n)%Z /\
         exists f f', component w k = Some f /\ component w' k = Some f' /\
           steps step (map (fun r => r * length ks + p)%nat (seq 0 n)) f = Ok f').
  Proof.
    intros Hn Hnd. unfold transition_foreign, foreign_kernels.
    set (cs := match cols with Some l => l
               | None => concat (map (fun tf => g_outputs (f_sig (snd tf))) (cs_hooked (f_cs w))) end).
    destruct (existsb (fun c => zmem c (s_outs (cs_state (f_cs w)))) cs) eqn:Eb; [discriminate|].
    set (keep := fun tf : Z * foreign => existsb (fun i => zmem i (g_outputs (f_sig (snd tf)))) cs).
    set (ks := map fst (filter keep (cs_hooked (f_cs w)))). intros E. exists ks.
    assert (Hks : forall k, In k ks <-> exists f, component w k = Some f /\ keep (k, f) = true).
    { intros k. unfold ks. rewrite in_map_iff. split.
      - intros [[k2 f] [<- H]]. apply filter_In in H. destruct H as [H1 H2]. exists f. split; [|exact H2].
        apply dget_In_NoDup; assumption.
      - intros [f [H1 H2]]. exists (k, f). split; [reflexivity|]. apply filter_In. split; [|exact H2]. apply dget_In. exact H1. }
    assert (Hsub : forall d : dict foreign, NoDup (dkeys d) -> NoDup (map fst (filter keep d))).
    { clear. induction d as [|[k f] d IH]; cbn; [constructor|]. intros H. inversion H; subst. destruct (keep (k, f)); [|apply IH; assumption].
      cbn. constructor; [|apply IH; assumption]. intros F. apply in_map_iff in F. destruct F as [[k2 f2] [Ek F]].
      apply filter_In in F. cbn in Ek. subst k2. apply H2. apply in_map_iff. exists (k, f2). split; [reflexivity|apply F]. }
    split.
    { exists (fun k => match dget k (cs_hooked (f_cs w)) with Some f => keep (k, f) | None => false end).
      unfold ks. revert Hnd. generalize (cs_hooked (f_cs w)) as d. clearbody keep. clear.
      induction d as [|[k f] d IH]; [reflexivity|]. intros H. cbn in H. inversion H; subst. unfold dkeys. cbn [map fst filter].
      cbn [dget]. rewrite Z.eqb_refl. assert (EE : filter (fun k0 => match (if (k0 =? k)%Z then Some f else dget k0 d) with Some f0 => keep (k0, f0) | None => false end) (map fst d)
        = filter (fun k0 => match dget k0 d with Some f0 => keep (k0, f0) | None => false end) (map fst d)).
      { apply filter_ext_in. intros k0 Hk0. destruct (k0 =? k)%Z eqn:E0; [|reflexivity]. apply Z.eqb_eq in E0. subst k0. contradiction. }
      rewrite EE. change (map fst d) with (dkeys d). rewrite <- (IH H3). destruct (keep (k, f)); reflexivity. }
    split.
    { intros k. rewrite Hks. split.
      - intros [f [H1 H2]]. unfold keep in H2. apply existsb_exists in H2. destruct H2 as [c [H2 H3]]. cbn in H3. apply zmem_in in H3.
        exists f, c. split; [exact H1|]. split; [exact H3|]. unfold cs in H2. destruct cols; [exact H2|exact I].
      - intros [f [c [H1 [H2 H3]]]]. exists f. split; [exact H1|]. unfold keep. apply existsb_exists. exists c. cbn.
        split; [|apply zmem_in; exact H2]. unfold cs. destruct cols; [exact H3|]. apply in_concat. exists (g_outputs (f_sig f)).
        split; [|exact H2]. apply in_map_iff. exists (k, f). split; [reflexivity|]. apply dget_In. exact H1. }
    split.
    { intros l c -> Hc F. assert (X : existsb (fun c => zmem c (s_outs (cs_state (f_cs w)))) cs = true).
      { apply existsb_exists. exists c. split; [exact Hc|]. apply zmem_in. exact F. }
      rewrite X in Eb. discriminate. }
    assert (HN : NoDup ks) by (apply Hsub; exact Hnd).
    assert (Hks2 : forall k, In k ks -> exists f, component w k = Some f) by (intros k Hk; apply Hks in Hk; destruct Hk as [f [Hk _]]; eauto).
    clearbody ks. clear Hks keep cs Eb Hsub.
    destruct (list_eq_dec Z.eq_dec ks []) as [->|Hne].
    { cbn in E. injection E as <- <-. split; [repeat split|]. split; [auto|]. intros [|p] k H; discriminate. }
    rewrite (C38_schedule _ _ _ _ _ _ _ _ Hne Hn) in E.
    destruct (perform call rec 0 (script None ks n) w) as [w1 [[]|e]] eqn:P; [|discriminate]. injection E as <- <-.
    clear Hn. revert w1 P. induction n as [|n IH]; intros w1 P.
    - cbn in P. injection P as <-. split; [repeat split|]. split; [auto|]. intros p k Hp. cbn. split; [lia|].
      destruct (Hks2 k (nth_error_In _ _ Hp)) as [f F]. eauto.
    - rewrite script_S, perform_app in P. destruct (perform call rec 0 (script None ks n) w) as [w2 [[]|e]] eqn:P2; [|discriminate].
      destruct (IH _ eq_refl) as [A1 [B1 D1]]. unfold round in P. rewrite app_nil_r, runs_script, Nat.add_0_l in P.
      destruct (foreign_round ks HN _ _ _ P) as [A2 [B2 D2]]. split; [|split].
      + unfold same_rest in *. destruct A1 as [? [? [? ?]]], A2 as [? [? [? ?]]]. repeat split; congruence.
      + intros k Hk. destruct (B1 k Hk), (D2 k Hk). split; congruence.
      + intros p k Hp. destruct (D1 p k Hp) as [X1 [f [f1 [F1 [F2 F3]]]]]. destruct (B2 p k Hp) as [g [g' [G1 [G2 [G3 G4]]]]].
        split; [lia|]. exists f, g'. split; [exact F1|]. split; [exact G3|].
        rewrite seq_S, map_app, steps_app, F3. cbn. rewrite F2 in G1. injection G1 as ->. rewrite G2. reflexivity.
  Qed.
End Foreign.
Print Assumptions C38_foreign.

(* ------------------------------------------------------------------ *)
(** ** Cases *)

(** A table of one row. *)
Definition one_X : dict (list cell) := [(0%Z, [None])].
Definition one_vspec (v : Z) : vspec := VSpec (VSeed 1 [1] (fun _ _ => 0%nat)) (Some [0%Z]).
Definition one_cspec : Z -> cspec := bug_cspec (Bernoulli ex_lgam) 2 hset_pair (1, 1) tt.
Definition one_col := bug_col (Bernoulli ex_lgam) 2 hset_pair (1, 1) tt.
Definition one_w : view := View (crp_id_view + 0) (Crp 1 [(0, 0)]%Z [(0, 1)]%Z 1) [1] [].
Definition one_v : view := set_dims one_w [(0%Z, one_col [(0, 0)]%Z [0%Z] 5)].
Definition one_s : state := State [0%Z] one_X (Crp 1 [(0, 0)]%Z [(0, 1)]%Z 1) [1] [(0%Z, one_v)] [] [].

Lemma one_reach : sreach safe one_s.
Proof.
  apply (sr_init safe one_X [(0, 0)]%Z 1 [1] [] [] one_vspec one_cspec [0%Z] 1).
  - repeat constructor; cbn; intuition discriminate.
  - discriminate.
  - intros c l E. unfold one_X, dget in E. destruct (c =? 0)%Z; [injection E as <-; reflexivity|discriminate].
  - repeat constructor; cbn; intuition discriminate.
  - intros v. cbn. tauto.
  - intros v. reflexivity.
  - intros c _. exists (of_prim (Bernoulli ex_lgam) 2 hset_pair), (1, 1), true, [], (fun _ => tt).
    split; [apply kn_bernoulli|reflexivity].
  - unfold state_init.
    assert (A : seat_given [(0, 0)]%Z (crp_new 1) = Ok (Crp 1 [(0, 0)]%Z [(0, 1)]%Z 1)) by reflexivity.
    rewrite A. cbn [rbind c_data]. change (dkeys one_X) with [0%Z]. cbn [length Nat.eqb].
    assert (B : view_make one_X (crp_id_view + 0) (vp_seed (one_vspec 0)) (vp_zr (one_vspec 0)) = Ok one_w) by reflexivity.
    assert (C : view_columns (tab one_X) one_w [(0%Z, one_cspec 0)] = Ok one_v).
    { unfold view_columns. change (col_make (one_cspec 0)) with (one_col [] [] 2, @Ok unit tt). cbn [rbind].
      change (view_incorporate_dim (tab one_X) one_w 0 (one_col [] [] 2) true)
        with (one_v, one_col [(0, 0)]%Z [0%Z] 5, @Ok unit tt).
      cbn [rbind]. change (dget 0%Z (v_dims one_v)) with (Some (one_col [(0, 0)]%Z [0%Z] 5)).
      cbv iota. unfold one_col. rewrite (bug_score _ _ _ _ _ _ (bern_score ex_lgam)). reflexivity. }
    change (make_views one_X [0%Z] [(0%Z, 0%Z)] one_vspec one_cspec [0%Z]) with
      (rbind (view_make one_X (crp_id_view + 0) (vp_seed (one_vspec 0)) (vp_zr (one_vspec 0))) (fun w =>
       rbind (view_columns (tab one_X) w [(0%Z, one_cspec 0)]) (fun w' => rbind (Ok []) (fun ws => Ok ((0%Z, w') :: ws))))).
    rewrite B. cbn [rbind]. rewrite C. reflexivity.
Qed.

Definition ex_rand (t : nat) : choices :=
  Choices first_pos (fun _ _ => first_pos) (fun _ => []) (fun _ l => l) (fun l => l) ex_draws.

(** The counters do not add up for a table of one row: three iterations of the rows
    kernel leave no trace. *)
Theorem C38_counters_refuted : exists w w',
  sreach safe (t_state w) /\ counter w 4 = 0%Z /\
  transition ex_lgam ex_rand None None None (Some 3%Z) None (fun _ => 0) (Some [4%Z]) None 4 w = Some (w', Ok 3%Z) /\
  counter w' 4 = 0%Z.
Proof.
  exists (TState one_s [] []), (TState one_s [] []). split; [exact one_reach|]. split; [reflexivity|]. split; [|reflexivity].
  change (transition ex_lgam ex_rand None None None (Some 3%Z) None (fun _ => 0) (Some [4%Z]) None 4 (TState one_s [] []))
    with (transition_generic (call_kernel ex_lgam ex_rand None None None) (record_diagnostics ex_lgam) [4%Z] (Some (Z.of_nat 3)) None
            (fun _ => 0) None 4 (TState one_s [] [])).
  rewrite C38_schedule; [|discriminate|lia]. reflexivity.
Qed.
Print Assumptions C38_counters_refuted.

(** C38: three rounds of the parameter kernel over two columns, a record every second round. *)
Definition par_s (j : nat) : state :=
  State [0; 1]%Z bug_X (Crp 2 [(0, 8); (1, 1)]%Z [(8, 1); (1, 1)]%Z 1) [1]
    [(1%Z, set_dims bug_w1 [(1%Z, bug_col (Bernoulli ex_lgam) 2 hset_pair (1, 1) tt [(0, 0); (1, 1)]%Z [0; 1]%Z (7 + 2 * j))]);
     (8%Z, set_dims bug_w8 [(0%Z, bug_col (Bernoulli ex_lgam) 2 hset_pair (1, 1) tt [(0, 0); (1, 0)]%Z [0%Z] (5 + j))])] [] [].

Lemma par_call t j it l : (j < 3)%nat ->
  call_kernel ex_lgam ex_rand None None None t 2 (TState (par_s j) it l) = (TState (par_s (S j)) (increment 2 it) l, Ok tt).
Proof. intros H. assert (j = 0 \/ j = 1 \/ j = 2)%nat as [->|[->| ->]] by lia; reflexivity. Qed.

Lemma par_score j : exists l, state_score ex_lgam (par_s j) = Ok l.
Proof.
  assert (Hp : plog 1 = Ok (ln 1)).
  { unfold plog. assert (E : Rltb 0 1 = true) by (apply Rltb_true; lra). rewrite E. reflexivity. }
  assert (A : forall k c g z ks pos, exists l, view_score ex_lgam
    (View k (Crp 2 [(0, 0); (1, c)]%Z g 1) [1] [(0%Z, bug_col (Bernoulli ex_lgam) 2 hset_pair (1, 1) tt z ks pos)]) = Ok l /\
    view_score ex_lgam (View k (Crp 2 [(0, 0); (1, c)]%Z g 1) [1] [(1%Z, bug_col (Bernoulli ex_lgam) 2 hset_pair (1, 1) tt z ks pos)]) = Ok l).
  { intros k c g z ks pos. unfold view_score, view_likelihood. cbn [v_dims v_crp dvals map snd].
    rewrite !(bug_score _ _ _ _ _ _ (bern_score ex_lgam)). unfold rsum_ext. cbn [rsequence rbind].
    unfold crp_score, crp_marginal. cbn [c_alpha]. rewrite Hp. cbn [rbind]. eexists. split; reflexivity. }
  unfold state_score. unfold par_s at 2. cbn [s_views dvals map snd]. 
  destruct (A (crp_id_view + 1)%Z 1%Z [(0, 1); (1, 1)]%Z [(0, 0); (1, 1)]%Z [0; 1]%Z (7 + 2 * j)%nat) as [l1 [_ E1]].
  destruct (A (crp_id_view + 8)%Z 0%Z [(0, 2)]%Z [(0, 0); (1, 0)]%Z [0%Z] (5 + j)%nat) as [l2 [E2 _]].
  unfold bug_w1, bug_w8, set_dims. cbn [v_out v_crp v_grid]. unfold rsum_ext. cbn [rsequence]. rewrite E1, E2. cbn [rbind].
  unfold state_score_crp, crp_score, crp_marginal. cbn [s_Ci s_Cd s_crp par_s c_alpha]. rewrite Hp. eexists. reflexivity.
Qed.

Example C38_ex : exists w' l,
  transition ex_lgam ex_rand None None None (Some 3%Z) None (fun _ => 0) (Some [2%Z]) (Some 2%Z) 4 (TState (par_s 0) [] [])
    = Some (w', Ok 3%Z) /\ counter w' 2 = 3%Z /\ counted 2 (par_s 0) /\ par_s 0 = ex_state [] [] /\
  t_diag w' = [(l, 1, [(0, 8); (1, 1)]%Z)].
Proof.
  destruct (par_score 2) as [l El].
  exists (TState (par_s 3) [(2, 3)]%Z [(l, 1, [(0, 8); (1, 1)]%Z)]), l. split.
  - change (transition ex_lgam ex_rand None None None (Some 3%Z) None (fun _ => 0) (Some [2%Z]) (Some 2%Z) 4 (TState (par_s 0) [] []))
      with (transition_generic (call_kernel ex_lgam ex_rand None None None) (record_diagnostics ex_lgam) [2%Z] (Some (Z.of_nat 3)) None
              (fun _ => 0) (Some 2%Z) 4 (TState (par_s 0) [] [])).
    rewrite C38_schedule; [|discriminate|lia].
    assert (Es : script (Some 2%Z) [2%Z] 3 = [Run 2%Z; Run 2%Z; Record; Run 2%Z]).
    { unfold script, round. cbn [seq map concat app].
      destruct (Znumtheory.Zdivide_dec 2 (Z.of_nat 1)) as [[a A]|_]; [lia|].
      destruct (Znumtheory.Zdivide_dec 2 (Z.of_nat 2)) as [_|N]; [|contradiction N; exists 1%Z; reflexivity].
      destruct (Znumtheory.Zdivide_dec 2 (Z.of_nat 3)) as [[a A]|_]; [lia|]. reflexivity. }
    rewrite Es. cbn [perform]. rewrite par_call by lia. rewrite par_call by lia.
    unfold record_diagnostics. cbn [t_state]. rewrite El. cbn [perform t_state t_iters t_diag]. rewrite par_call by lia. reflexivity.
  - split; [reflexivity|]. split; [left; lia|]. split; reflexivity.
Qed.

(** C38 (time limit): a second per call, and two and a half seconds. *)
Example C38_time_ex :
  transition_generic (fun t k w => (w ++ [k], @Ok unit tt)) (fun w => (w, Ok tt)) [0; 1]%Z None (Some (5 / 2)) INR None 3 []
    = Some ([0; 1; 0]%Z, Ok 1%Z).
Proof.
  cbn [transition_generic passes one_pass due]. unfold proportion_done.
  assert (E : Reqb (5 / 2) 0 = false) by (apply Reqb_false; lra). rewrite !E. cbn [rbind].
  assert (T : forall j, (j < 3)%nat -> Rleb 1 (Rmax 0 (INR j / (5 / 2))) = false).
  { intros j Hj. apply Rleb_false. apply Rlt_not_le. apply Rmax_lub_lt; [lra|]. assert (j = 0 \/ j = 1 \/ j = 2)%nat as [->|[->| ->]] by lia; cbn; lra. }
  rewrite (T 0%nat) by lia. cbn [rbind]. rewrite (T 1%nat) by lia. rewrite (T 2%nat) by lia.
  assert (T3 : Rleb 1 (Rmax 0 (INR 3 / (5 / 2))) = true).
  { apply Rleb_true. eapply Rle_trans; [|apply Rmax_r]. cbn. lra. }
  rewrite T3. reflexivity.
Qed.

(** C38 (refusals). *)
Example C38_refused_ex :
  transition ex_lgam ex_rand None (Some [7%Z]) None None None (fun _ => 0) None None 4 (TState (ex_state [] []) [] [])
    = Some (TState (ex_state [] []) [] [], Err ValueError) /\
  transition ex_lgam ex_rand None None None None None (fun _ => 0) (Some [9%Z]) None 4 (TState (ex_state [] []) [] [])
    = Some (TState (ex_state [] []) [] [], Err KeyError).
Proof. split; reflexivity. Qed.

(** C38 (composed components): two components, one of them selected, two rounds. *)
Definition stub2 (n : Z) : foreign := Foreign (Sig [51%Z] []) (fun _ _ _ => Ok (Fin (IZR n))) (fun _ _ _ _ _ => Ok [(51%Z, VCell (Some 0))]).
Example C38_foreign_ex : exists w',
  let w := FState (CState one_s [(0%Z, stub); (1%Z, stub2 0)] 2 true) [] in
  NoDup (dkeys (cs_hooked (f_cs w))) /\
  transition_foreign (fun t f => Ok (stub2 (Z.of_nat (S t)))) (Some [51%Z]) (Some 2%Z) None (fun _ => 0) 3 w = Some (w', Ok 2%Z) /\
  component w' 0 = Some stub /\ component w' 1 = Some (stub2 2) /\ fcounter w' 1 = 2%Z /\ fcounter w' 0 = 0%Z.
Proof.
  eexists. cbv zeta. split; [repeat constructor; cbn; intuition discriminate|]. split.
  - unfold transition_foreign.
    change (foreign_kernels _ _) with (@Ok (list Z) [1%Z]). cbv iota. change (Some 2%Z) with (Some (Z.of_nat 2)).
    rewrite C38_schedule; [|discriminate|lia]. reflexivity.
  - repeat split; reflexivity.
Qed.
