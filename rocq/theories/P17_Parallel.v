(** Property C39: parallel_map under every interleaving. *)
From Verif Require Import ParallelMap.
From Coq Require Import List Arith ZArith Lia Permutation.
Import ListNotations.

Lemma upd_same {X} (f : nat -> X) j x : upd f j x j = x.
Proof. unfold upd. rewrite Nat.eqb_refl. reflexivity. Qed.
Lemma upd_other {X} (f : nat -> X) j x k : k <> j -> upd f j x k = f k.
Proof. intros H. unfold upd. apply Nat.eqb_neq in H. rewrite H. reflexivity. Qed.

Lemma set_at_length {X} (l : list X) i x : length (set_at l i x) = length l.
Proof. revert i. induction l as [|y l IH]; intros [|i]; cbn; auto. Qed.
Lemma set_at_same {X} (l : list X) i x : i < length l -> nth_error (set_at l i x) i = Some x.
Proof. revert i. induction l as [|y l IH]; intros [|i]; cbn; intros H; try lia; auto. apply IH. lia. Qed.
Lemma set_at_other {X} (l : list X) i x k : k <> i -> nth_error (set_at l i x) k = nth_error l k.
Proof. revert i k. induction l as [|y l IH]; intros [|i] [|k] H; cbn; auto; try lia. Qed.

(** The number of results still missing. *)
Fixpoint unfilled {X} (l : list (option X)) : nat :=
  match l with [] => 0 | None :: l' => S (unfilled l') | Some _ :: l' => unfilled l' end.
Lemma unfilled_repeat {X} n : unfilled (repeat (@None X) n) = n.
Proof. induction n as [|n IH]; cbn; auto. Qed.
Lemma unfilled_set {X} (l : list (option X)) i v : nth_error l i = Some None ->
  unfilled l = S (unfilled (set_at l i (Some v))).
Proof.
  revert i. induction l as [|o l IH]; intros [|i]; cbn; try discriminate.
  - intros E. injection E as ->. reflexivity.
  - intros E. destruct o; [apply IH; exact E|]. f_equal. apply IH. exact E.
Qed.
Lemma unfilled_zero {X} (l : list (option X)) : unfilled l = 0 -> forall i o, nth_error l i = Some o -> o <> None.
Proof.
  induction l as [|o l IH]; intros H [|i] o2 E; cbn in *; try discriminate.
  - injection E as <-. destruct o; [discriminate|discriminate H].
  - destruct o; [|discriminate]. eapply IH; eassumption.
Qed.
Lemma unfilled_pos {X} (l : list (option X)) : 0 < unfilled l -> exists i, nth_error l i = Some None.
Proof.
  induction l as [|[x|] l IH]; cbn; intros H; [lia| |exists 0; reflexivity].
  destruct (IH H) as [i E]. exists (S i). exact E.
Qed.

Section Invariant.
  Context {A B : Type} (F : A -> outcome B) (l : list A) (ncpu : nat) (big : nat -> bool).
  Notation config := (@config B).
  Notation n := (length l).
  Notation start := (start l).
  Notation reply := (reply F l).
  Notation worker_step := (worker_step F l big).
  Notation parent_step := (parent_step l ncpu).
  Notation step := (step F l ncpu big).
  Notation reachable := (reachable F l ncpu big).

  Definition next (p : phase) : nat :=
    match p with Initial j => j | Feed i => i | FeedGot i _ => i | _ => n end.
  Definition got (p : phase) : option nat :=
    match p with FeedGot _ j => Some j | DrainGot j => Some j | _ => None end.

  (** Where the item of worker [j] is, and whether its number has been written. *)
  Inductive slot (c : config) (j : nat) : option nat -> bool -> Prop :=
  | sl_free : ws c j = Idle -> inq c j = [] -> outq c j = [] -> slot c j None false
  | sl_queued i : ws c j = Idle -> inq c j = [Some i] -> outq c j = [] -> slot c j (Some i) false
  | sl_busy i : ws c j = Busy i -> inq c j = [] -> outq c j = [] -> slot c j (Some i) false
  | sl_wrote i : ws c j = Wrote i -> inq c j = [] -> outq c j = [] -> slot c j (Some i) true
  | sl_sending i m : ws c j = Sending m -> inq c j = [] -> outq c j = [] -> reply i = Some m -> slot c j (Some i) true
  | sl_sent i m : ws c j = Idle -> inq c j = [] -> outq c j = [m] -> reply i = Some m -> slot c j (Some i) true
  | sl_died i x : ws c j = Dead -> inq c j = [] -> outq c j = [] -> nth_error l i = Some x -> F x = Dies ->
      slot c j (Some i) false
  | sl_failed i x : ws c j = Dead -> inq c j = [] -> outq c j = [] -> nth_error l i = Some x -> F x = Unsendable ->
      slot c j (Some i) true.

  (** The item has been handed out but not run. *)
  Definition waiting (c : config) (i : nat) : Prop :=
    exists j, j < ncpu /\ (inq c j = [Some i] \/ ws c j = Busy i).

  (** The results so far are results. *)
  Definition filled_ok (c : config) : Prop :=
    length (fl c) = n /\ ctr c = Z.of_nat (unfilled (fl c)) /\
    (forall i v, nth_error (fl c) i = Some (Some v) -> i < next (ph c) /\ exists x, nth_error l i = Some x /\ F x = Value v).

  Record working (c : config) (it : nat -> option nat) (an : nat -> bool) : Prop := {
    wk_slot : forall j, j < ncpu -> slot c j (it j) (an j);
    wk_an : forall j, j < ncpu -> (an j = true <-> In j (retq c) \/ got (ph c) = Some j);
    wk_ret : NoDup (retq c) /\ forall j, In j (retq c) -> j < ncpu;
    wk_got : forall j, got (ph c) = Some j -> j < ncpu /\ ~ In j (retq c);
    wk_inj : forall j j' i, j < ncpu -> j' < ncpu -> it j = Some i -> it j' = Some i -> j = j';
    wk_it : forall j i, j < ncpu -> it j = Some i -> i < next (ph c) /\ nth_error (fl c) i = Some None;
    wk_none : forall i, i < next (ph c) -> nth_error (fl c) i = Some None -> exists j, j < ncpu /\ it j = Some i;
    wk_fl : filled_ok c;
    wk_ran : NoDup (ran c) /\ forall i, In i (ran c) <-> i < next (ph c) /\ ~ waiting c i;
    wk_ph : match ph c with
            | Initial j => j <= ncpu /\ j <= n /\ forall j', j' < ncpu -> (it j' = None <-> j <= j')
            | Feed i => i <= n /\ (i < n -> forall j, j < ncpu -> it j <> None)
            | FeedGot i j => i < n /\ forall j, j < ncpu -> it j <> None
            | Drain | DrainGot _ => True
            | _ => False
            end
  }.

  (** After the results are complete. *)
  Record finishing (c : config) : Prop := {
    fi_fl : filled_ok c;
    fi_all : unfilled (fl c) = 0;
    fi_ran : NoDup (ran c) /\ forall i, In i (ran c) <-> i < n;
    fi_ret : retq c = [];
    fi_ws : forall j, j < ncpu -> (ws c j = Idle /\ inq c j = [None]) \/ (ws c j = Exited /\ inq c j = [])
  }.

  Definition inv (c : config) : Prop :=
    match ph c with
    | Join | Return => finishing c
    | Raised => (exists i x, nth_error l i = Some x /\ forall v, F x <> Value v) /\
        NoDup (ran c) /\ (forall i, In i (ran c) -> i < n) /\ length (retq c) <= ncpu
    | _ => exists it an, working c it an
    end.

  Lemma next_n c it an : working c it an -> next (ph c) <= n.
  Proof. intros H. pose proof (wk_ph _ _ _ H) as P. destruct (ph c); cbn; try lia; tauto. Qed.

  Lemma retq_bound c it an : working c it an -> length (retq c) <= ncpu.
  Proof.
    intros H. destruct (wk_ret _ _ _ H) as [R1 R2]. rewrite <- (seq_length ncpu 0). apply NoDup_incl_length; [exact R1|].
    intros j Hj. apply in_seq. split; [lia|]. apply R2. exact Hj.
  Qed.

  Lemma start_inv : inv start.
  Proof.
    unfold inv. cbn. exists (fun _ => None), (fun _ => false). constructor; cbn.
    - intros j _. apply sl_free; reflexivity.
    - intros j _. split; [discriminate|]. intros [[]|]; discriminate.
    - split; [constructor|intros j []].
    - discriminate.
    - discriminate.
    - discriminate.
    - intros i H. lia.
    - repeat split; cbn.
      + apply repeat_length.
      + rewrite unfilled_repeat. reflexivity.
      + exfalso. apply nth_error_In, repeat_spec in H. discriminate.
      + exfalso. apply nth_error_In, repeat_spec in H. discriminate.
    - split; [constructor|]. intros i. split; [intros []|lia].
    - split; [lia|]. split; [lia|]. intros j' _. split; [lia|reflexivity].
  Qed.

  (* ---------------------------------------------------------------- *)
  (** ** Workers *)

  (** A step of worker [j] in which its item stays its item. *)
  Lemma worker_keeps c c' it an j b :
    working c it an -> j < ncpu ->
    ph c' = ph c -> fl c' = fl c -> ctr c' = ctr c ->
    (forall k, k <> j -> ws c' k = ws c k /\ inq c' k = inq c k /\ outq c' k = outq c k) ->
    slot c' j (it j) b ->
    (b = an j /\ retq c' = retq c \/ b = true /\ an j = false /\ retq c' = retq c ++ [j]) ->
    (NoDup (ran c') /\ forall i, In i (ran c') <-> i < next (ph c) /\ ~ waiting c' i) ->
    working c' it (upd an j b).
  Proof.
    intros H Hj E1 E2 E3 E4 Hs Hb Hr. constructor.
    - intros k Hk. destruct (Nat.eq_dec k j) as [->|Hn]; [rewrite upd_same; exact Hs|]. rewrite upd_other by exact Hn.
      destruct (E4 k Hn) as [A1 [A2 A3]]. pose proof (wk_slot _ _ _ H k Hk) as S.
      inversion S; [eapply sl_free|eapply sl_queued|eapply sl_busy|eapply sl_wrote|eapply sl_sending|eapply sl_sent|eapply sl_died|eapply sl_failed];
        try rewrite A1; try rewrite A2; try rewrite A3; eassumption.
    - intros k Hk. rewrite E1. destruct Hb as [[-> ->]|[-> [Hf ->]]].
      + destruct (Nat.eq_dec k j) as [->|Hn]; [rewrite upd_same|rewrite upd_other by exact Hn]; apply (wk_an _ _ _ H _ Hk).
      + rewrite in_app_iff. destruct (Nat.eq_dec k j) as [->|Hn]; [rewrite upd_same|rewrite upd_other by exact Hn].
        * split; [intros _; left; right; left; reflexivity|reflexivity].
        * rewrite (wk_an _ _ _ H _ Hk). cbn. split; [tauto|]. intros [[?|[?|[]]]|?]; auto. exfalso. apply Hn. auto.
    - destruct (wk_ret _ _ _ H) as [R1 R2]. destruct Hb as [[_ ->]|[_ [Hf ->]]]; [auto|]. split.
      + apply (Permutation_NoDup (l := j :: retq c)); [apply Permutation_cons_append|]. constructor; [|exact R1].
        intros F'. assert (an j = true) by (apply (wk_an _ _ _ H _ Hj); left; exact F'). congruence.
      + intros k Hk. apply in_app_iff in Hk. destruct Hk as [Hk|[<-|[]]]; auto.
    - rewrite E1. intros k Hk. destruct (wk_got _ _ _ H k Hk) as [G1 G2]. split; [exact G1|].
      destruct Hb as [[_ ->]|[_ [Hf ->]]]; [exact G2|]. intros F'. apply in_app_iff in F'. destruct F' as [F'|[<-|[]]]; [contradiction|].
      assert (an j = true) by (apply (wk_an _ _ _ H _ Hj); right; exact Hk). congruence.
    - apply (wk_inj _ _ _ H).
    - rewrite E1, E2. apply (wk_it _ _ _ H).
    - rewrite E1, E2. apply (wk_none _ _ _ H).
    - unfold filled_ok. rewrite E1, E2, E3. apply (wk_fl _ _ _ H).
    - rewrite E1. exact Hr.
    - rewrite E1. apply (wk_ph _ _ _ H).
  Qed.

  (** The other workers keep what they wait for. *)
  Lemma waiting_same c c' j i :
    (forall k, k <> j -> ws c' k = ws c k /\ inq c' k = inq c k) ->
    ((inq c' j = [Some i] \/ ws c' j = Busy i) <-> (inq c j = [Some i] \/ ws c j = Busy i)) ->
    (waiting c' i <-> waiting c i).
  Proof.
    intros E Ej. unfold waiting. split; intros [k [Hk X]]; exists k; (split; [exact Hk|]);
      (destruct (Nat.eq_dec k j) as [->|Hn]; [apply Ej; exact X|]); destruct (E k Hn) as [E1 E2];
      [rewrite <- E1, <- E2; exact X|rewrite E1, E2; exact X].
  Qed.

  Lemma working_inv c it an : working c it an -> inv c.
  Proof.
    intros H. pose proof (wk_ph _ _ _ H) as P. unfold inv. destruct (ph c); try (exists it, an; exact H); destruct P.
  Qed.

  (** The item that is run leaves those that wait. *)
  Lemma waiting_run c c' it an j i : working c it an -> j < ncpu -> ws c j = Busy i -> it j = Some i ->
    (forall k, k <> j -> ws c' k = ws c k /\ inq c' k = inq c k) ->
    inq c' j = [] -> (forall i0, ws c' j <> Busy i0) -> ran c' = ran c ++ [i] ->
    NoDup (ran c') /\ forall i0, In i0 (ran c') <-> i0 < next (ph c) /\ ~ waiting c' i0.
  Proof.
    intros H Hj Hw Hi E Eq En Er. destruct (wk_ran _ _ _ H) as [R1 R2].
    assert (Wi : waiting c i) by (exists j; auto). rewrite Er. split.
    - apply (Permutation_NoDup (l := i :: ran c)); [apply Permutation_cons_append|]. constructor; [|exact R1].
      intros F'. apply R2 in F'. tauto.
    - intros i0. rewrite in_app_iff, R2. cbn.
      assert (Wj : waiting c' i0 <-> waiting c i0 /\ i0 <> i).
      { unfold waiting. split.
        - intros [k [Hk X]]. destruct (Nat.eq_dec k j) as [->|Hn].
          + destruct X as [X|X]; [rewrite Eq in X; discriminate|destruct (En _ X)].
          + destruct (E k Hn) as [E1 E2]. rewrite E1, E2 in X. split; [exists k; auto|]. intros ->. apply Hn.
            apply (wk_inj _ _ _ H k j i Hk Hj); [|exact Hi]. pose proof (wk_slot _ _ _ H k Hk) as S.
            destruct X as [X|X]; inversion S; congruence.
        - intros [[k [Hk X]] Hn]. exists k. split; [exact Hk|]. destruct (Nat.eq_dec k j) as [->|Hne].
          + exfalso. destruct X as [X|X]; [|congruence]. pose proof (wk_slot _ _ _ H j Hj) as S. inversion S; congruence.
          + destruct (E k Hne) as [E1 E2]. rewrite E1, E2. exact X. }
      rewrite Wj. destruct (wk_it _ _ _ H j i Hj Hi) as [Hlt _]. destruct (Nat.eq_dec i0 i) as [->|Hne].
      + tauto.
      + intuition congruence.
  Qed.

  Lemma worker_inv c j c' : live (ph c) -> j < ncpu -> worker_step c j c' -> inv c -> inv c'.
  Proof.
    intros [L1 L2] Hj HS HI.
    assert (Cases : ph c = Join \/ exists it an, working c it an).
    { unfold inv in HI. destruct (ph c); auto; contradiction. }
    destruct Cases as [PJ|[it [an H]]].
    - unfold inv in HI. rewrite PJ in HI. pose proof (fi_ws _ HI j Hj) as W.
      inversion HS; subst; try (destruct W as [[W1 W2]|[W1 W2]]; congruence).
      assert (q = []) by (destruct W as [[W1 W2]|[W1 W2]]; congruence). subst q.
      unfold inv. cbn [set_worker set_inq ph]. rewrite PJ. constructor; cbn.
      + destruct (fi_fl _ HI) as [A1 [A2 A3]]. repeat split; cbn; auto; apply (A3 _ _ H1).
      + apply (fi_all _ HI).
      + apply (fi_ran _ HI).
      + apply (fi_ret _ HI).
      + intros k Hk. destruct (Nat.eq_dec k j) as [->|Hn]; [rewrite !upd_same; auto|]. rewrite !upd_other by exact Hn.
        apply (fi_ws _ HI k Hk).
    - pose proof (wk_slot _ _ _ H j Hj) as S.
      inversion HS as [i q W Q|q W Q|i x W X D|i x W X D|i m W X D|i m W X D|i x W X D]; subst c'.
      + inversion S; try congruence. assert (i0 = i) by congruence. subst i0. assert (q = []) by congruence. subst q.
        eapply (working_inv _ it (upd an j false)), (worker_keeps c _ it an j false H Hj); try reflexivity.
        * intros k Hn. cbn. rewrite !upd_other by exact Hn. auto.
        * rewrite <- H0. apply sl_busy; cbn; rewrite ?upd_same; auto.
        * left. split; [congruence|reflexivity].
        * cbn [ran set_worker set_inq]. destruct (wk_ran _ _ _ H) as [R1 R2]. split; [exact R1|]. intros i1. rewrite R2.
          apply and_iff_compat_l, not_iff_compat. symmetry. apply (waiting_same _ _ j).
          { intros k Hn. cbn. rewrite !upd_other by exact Hn. auto. }
          cbn. rewrite !upd_same. rewrite Q, W. split; intros [E|E]; try discriminate; injection E as ->; auto.
      + inversion S; congruence.
      + inversion S; try congruence. assert (i0 = i) by congruence. subst i0.
        eapply (working_inv _ it (upd an j true)), (worker_keeps c _ it an j true H Hj); try reflexivity.
        * intros k Hn. cbn. rewrite !upd_other by exact Hn. auto.
        * rewrite <- H0. apply sl_wrote; cbn; rewrite ?upd_same; auto.
        * right. split; [reflexivity|]. split; [congruence|reflexivity].
        * eapply (waiting_run c _ it an j i); auto.
          { intros k Hn. cbn. rewrite !upd_other by exact Hn. auto. }
          { cbn. intros i1. rewrite upd_same. discriminate. }
      + inversion S; try congruence. assert (i0 = i) by congruence. subst i0.
        eapply (working_inv _ it (upd an j false)), (worker_keeps c _ it an j false H Hj); try reflexivity.
        * intros k Hn. cbn. rewrite !upd_other by exact Hn. auto.
        * rewrite <- H0. eapply sl_died; cbn; rewrite ?upd_same; eauto.
        * left. split; [congruence|reflexivity].
        * eapply (waiting_run c _ it an j i); auto.
          { intros k Hn. cbn. rewrite !upd_other by exact Hn. auto. }
          { cbn. intros i1. rewrite upd_same. discriminate. }
      + inversion S; try congruence. assert (i0 = i) by congruence. subst i0.
        eapply (working_inv _ it (upd an j true)), (worker_keeps c _ it an j true H Hj); try reflexivity.
        * intros k Hn. cbn. rewrite !upd_other by exact Hn. auto.
        * rewrite <- H0. eapply sl_sent; cbn; rewrite ?upd_same; eauto. rewrite H4. reflexivity.
        * left. split; [congruence|reflexivity].
        * cbn [ran set_worker set_outq]. destruct (wk_ran _ _ _ H) as [R1 R2]. split; [exact R1|]. intros i1. rewrite R2.
          apply and_iff_compat_l, not_iff_compat. symmetry. apply (waiting_same _ _ j).
          { intros k Hn. cbn. rewrite !upd_other by exact Hn. auto. }
          cbn. rewrite !upd_same. rewrite W. split; intros [E|E]; try discriminate; auto.
      + inversion S; try congruence. assert (i0 = i) by congruence. subst i0.
        eapply (working_inv _ it (upd an j true)), (worker_keeps c _ it an j true H Hj); try reflexivity.
        * intros k Hn. cbn. rewrite !upd_other by exact Hn. auto.
        * rewrite <- H0. eapply sl_sending; cbn; rewrite ?upd_same; eauto.
        * left. split; [congruence|reflexivity].
        * cbn [ran set_worker]. destruct (wk_ran _ _ _ H) as [R1 R2]. split; [exact R1|]. intros i1. rewrite R2.
          apply and_iff_compat_l, not_iff_compat. symmetry. apply (waiting_same _ _ j).
          { intros k Hn. cbn. rewrite !upd_other by exact Hn. auto. }
          cbn. rewrite !upd_same. rewrite W. split; intros [E|E]; try discriminate; auto.
      + inversion S; try congruence. assert (i0 = i) by congruence. subst i0.
        eapply (working_inv _ it (upd an j true)), (worker_keeps c _ it an j true H Hj); try reflexivity.
        * intros k Hn. cbn. rewrite !upd_other by exact Hn. auto.
        * rewrite <- H0. eapply sl_failed; cbn; rewrite ?upd_same; eauto.
        * left. split; [congruence|reflexivity].
        * cbn [ran set_worker]. destruct (wk_ran _ _ _ H) as [R1 R2]. split; [exact R1|]. intros i1. rewrite R2.
          apply and_iff_compat_l, not_iff_compat. symmetry. apply (waiting_same _ _ j).
          { intros k Hn. cbn. rewrite !upd_other by exact Hn. auto. }
          cbn. rewrite !upd_same. rewrite W. split; intros [E|E]; try discriminate; auto.
  Qed.

  (* ---------------------------------------------------------------- *)
  (** ** Parent *)

  Lemma reply_value i m : reply i = Some m ->
    fst m = i /\ exists x, nth_error l i = Some x /\
      (forall v, snd m = Some v -> F x = Value v) /\ (snd m = None -> forall v, F x <> Value v).
  Proof.
    unfold ParallelMap.reply. destruct (nth_error l i) as [x|]; [|discriminate]. destruct (F x) as [v| | | |] eqn:E; intros X;
      try discriminate; injection X as <-; (split; [reflexivity|]); exists x; (split; [reflexivity|]); cbn; split; intros; congruence.
  Qed.

  Lemma receive_cases c it an j m c' : working c it an -> j < ncpu -> receive c j = Some (m, c') ->
    exists i, it j = Some i /\ an j = true /\ reply i = Some m /\
      ph c' = ph c /\ fl c' = fl c /\ ctr c' = ctr c /\ retq c' = retq c /\ ran c' = ran c /\
      inq c' = inq c /\ inq c j = [] /\ ws c' j = Idle /\ outq c' j = [] /\ (forall i, ws c j <> Busy i) /\
      forall k, k <> j -> ws c' k = ws c k /\ outq c' k = outq c k.
  Proof.
    intros H Hj. unfold receive. pose proof (wk_slot _ _ _ H j Hj) as S. inversion S as
      [W I O|i W I O|i W I O|i W I O|i m0 W I O R|i m0 W I O R|i x W I O X D|i x W I O X D]; rewrite O, ?W; try discriminate;
      intros E; injection E as <- <-; exists i; cbn; rewrite ?W, ?upd_same; repeat split; auto; try congruence; intros;
      rewrite ?upd_other by assumption; auto.
  Qed.

  Lemma working_phase c it an c' : working c it an ->
    fl c' = fl c -> ctr c' = ctr c -> ran c' = ran c -> ws c' = ws c -> inq c' = inq c -> outq c' = outq c ->
    next (ph c') = next (ph c) ->
    (NoDup (retq c') /\ forall j, In j (retq c') -> j < ncpu) ->
    (forall j, got (ph c') = Some j -> j < ncpu /\ ~ In j (retq c')) ->
    (forall j, In j (retq c') \/ got (ph c') = Some j <-> In j (retq c) \/ got (ph c) = Some j) ->
    match ph c' with
    | Initial j => j <= ncpu /\ j <= n /\ forall j', j' < ncpu -> (it j' = None <-> j <= j')
    | Feed i => i <= n /\ (i < n -> forall j, j < ncpu -> it j <> None)
    | FeedGot i j => i < n /\ forall j, j < ncpu -> it j <> None
    | Drain | DrainGot _ => True
    | _ => False
    end -> working c' it an.
  Proof.
    intros H E1 E2 E3 E4 E5 E6 E7 H1 H2 H3 H4. constructor.
    - intros j Hj. pose proof (wk_slot _ _ _ H j Hj) as S.
      inversion S; [eapply sl_free|eapply sl_queued|eapply sl_busy|eapply sl_wrote|eapply sl_sending|eapply sl_sent|eapply sl_died|eapply sl_failed];
        rewrite ?E4, ?E5, ?E6; eassumption.
    - intros j Hj. rewrite H3. apply (wk_an _ _ _ H _ Hj).
    - exact H1.
    - exact H2.
    - apply (wk_inj _ _ _ H).
    - rewrite E7, E1. apply (wk_it _ _ _ H).
    - rewrite E7, E1. apply (wk_none _ _ _ H).
    - unfold filled_ok. rewrite E1, E2, E7. apply (wk_fl _ _ _ H).
    - unfold waiting. rewrite E3, E4, E5, E7. apply (wk_ran _ _ _ H).
    - exact H4.
  Qed.

  (** A result is stored and, perhaps, the next item handed out. *)
  Lemma parent_stores c it an j m v c1 c' (o : option nat) :
    working c it an -> got (ph c) = Some j -> receive c j = Some (m, c1) -> snd m = Some v ->
    fl c' = set_at (fl c) (fst m) (Some v) -> ctr c' = (ctr c - 1)%Z -> retq c' = retq c -> ran c' = ran c ->
    ws c' = ws c1 -> outq c' = outq c1 -> got (ph c') = None ->
    (forall k, k <> j -> inq c' k = inq c k) ->
    match o with
    | None => inq c' j = [] /\ next (ph c') = next (ph c)
    | Some i => inq c' j = [Some i] /\ i = next (ph c) /\ next (ph c') = S i /\ i < n
    end ->
    match ph c' with
    | Feed i => i <= n /\ (i < n -> forall k, k < ncpu -> upd it j o k <> None)
    | Drain => True
    | _ => False
    end -> working c' (upd it j o) (upd an j false).
  Proof.
    intros H Hg Hr Hm E1 E2 E3 E4 E5 E6 E7 E8 Ho HP.
    destruct (wk_got _ _ _ H j Hg) as [Hj Hnr].
    destruct (receive_cases c it an j m c1 H Hj Hr) as [i0 [Hi [Ha [R [P1 [P2 [P3 [P4 [P5 [P6 [P7 [P8 [P9 [P10 P11]]]]]]]]]]]]]].
    destruct (reply_value _ _ R) as [Hf [x [Hx [Hv _]]]]. rewrite Hf in E1. specialize (Hv v Hm).
    destruct (wk_it _ _ _ H j i0 Hj Hi) as [Hi1 Hi2].
    pose proof (next_n _ _ _ H) as Hnn. destruct (wk_fl _ _ _ H) as [F1 [F2 F3]].
    assert (Hlen : i0 < length (fl c)) by (rewrite F1; lia).
    assert (Hnx : next (ph c) <= next (ph c')) by (destruct o; destruct Ho as [_ Ho]; lia).
    assert (Hni : forall i, o = Some i -> i = next (ph c) /\ nth_error (fl c') i = Some None /\ forall k, k < ncpu -> it k <> Some i).
    { intros i ->. destruct Ho as [_ [-> [_ Hlt]]]. split; [reflexivity|]. split.
      - rewrite E1, set_at_other by lia. destruct (nth_error (fl c) (next (ph c))) as [[w|]|] eqn:E.
        + apply F3 in E. lia.
        + reflexivity.
        + apply nth_error_None in E. lia.
      - intros k Hk E. apply (wk_it _ _ _ H k _ Hk) in E. lia. }
    constructor.
    - intros k Hk. destruct (Nat.eq_dec k j) as [->|Hn].
      + rewrite !upd_same. destruct o as [i|].
        * apply sl_queued; [rewrite E5; exact P8|apply Ho|rewrite E6; exact P9].
        * apply sl_free; [rewrite E5; exact P8|apply Ho|rewrite E6; exact P9].
      + rewrite !upd_other by exact Hn. destruct (P11 k Hn) as [Q1 Q2]. pose proof (wk_slot _ _ _ H k Hk) as S.
        inversion S; [eapply sl_free|eapply sl_queued|eapply sl_busy|eapply sl_wrote|eapply sl_sending|eapply sl_sent|eapply sl_died|eapply sl_failed];
        rewrite ?E5, ?E6, ?Q1, ?Q2, ?(E8 k Hn); eassumption.
    - intros k Hk. rewrite E3, E7. destruct (Nat.eq_dec k j) as [->|Hn].
      + rewrite upd_same. split; [discriminate|]. intros [X|X]; [contradiction|discriminate].
      + rewrite upd_other by exact Hn. rewrite (wk_an _ _ _ H _ Hk), Hg. split; intros [X|X]; auto; [congruence|discriminate].
    - rewrite E3. apply (wk_ret _ _ _ H).
    - rewrite E7. discriminate.
    - intros a b i Ha' Hb' Ea Eb. destruct (Nat.eq_dec a j) as [->|Na], (Nat.eq_dec b j) as [->|Nb]; auto.
      + rewrite upd_same in Ea. rewrite upd_other in Eb by exact Nb. destruct (Hni i Ea) as [_ [_ X]]. destruct (X b Hb' Eb).
      + rewrite upd_same in Eb. rewrite upd_other in Ea by exact Na. destruct (Hni i Eb) as [_ [_ X]]. destruct (X a Ha' Ea).
      + rewrite upd_other in Ea, Eb by assumption. apply (wk_inj _ _ _ H a b i); assumption.
    - intros k i Hk. destruct (Nat.eq_dec k j) as [->|Hn].
      + rewrite upd_same. intros E. destruct (Hni i E) as [X [Y _]]. subst o. destruct Ho as [_ [_ [Z _]]]. split; [lia|exact Y].
      + rewrite upd_other by exact Hn. intros E. destruct (wk_it _ _ _ H k i Hk E) as [X Y]. split; [lia|].
        rewrite E1, set_at_other; [exact Y|]. intros ->. apply Hn. apply (wk_inj _ _ _ H k j i0); assumption.
    - intros i Hlt E. destruct (Nat.eq_dec i i0) as [->|Hne].
      { rewrite E1, set_at_same in E by exact Hlen. discriminate. }
      rewrite E1, set_at_other in E by exact Hne. destruct (Nat.lt_ge_cases i (next (ph c))) as [Hl|Hl].
      + destruct (wk_none _ _ _ H i Hl E) as [k [Hk X]]. exists k. split; [exact Hk|]. rewrite upd_other; [exact X|].
        intros ->. congruence.
      + destruct o as [i1|]; [|lia]. exists j. split; [exact Hj|]. rewrite upd_same. f_equal. lia.
    - unfold filled_ok. rewrite E1, E2. split; [rewrite set_at_length; exact F1|]. split.
      + rewrite F2. pose proof (unfilled_set _ _ v Hi2). lia.
      + intros i w E. destruct (Nat.eq_dec i i0) as [->|Hne].
        * rewrite set_at_same in E by exact Hlen. injection E as <-. split; [lia|]. eauto.
        * rewrite set_at_other in E by exact Hne. destruct (F3 _ _ E) as [X Y]. split; [lia|exact Y].
    - rewrite E4. destruct (wk_ran _ _ _ H) as [R1 R2]. split; [exact R1|]. intros i. rewrite R2.
      assert (W : waiting c' i <-> waiting c i \/ o = Some i).
      { unfold waiting. rewrite E5. split.
        - intros [k [Hk X]]. destruct (Nat.eq_dec k j) as [->|Hn].
          + right. destruct X as [X|X]; [|congruence]. destruct o as [i1|]; destruct Ho as [Ho _]; rewrite Ho in X; [|discriminate].
            injection X as ->. reflexivity.
          + left. exists k. split; [exact Hk|]. rewrite (E8 k Hn) in X. destruct (P11 k Hn) as [Q1 _]. rewrite Q1 in X. exact X.
        - intros [[k [Hk X]]|E].
          + exists k. split; [exact Hk|]. destruct (Nat.eq_dec k j) as [->|Hn].
            * exfalso. destruct X as [X|X]; [congruence|]. destruct (P10 _ X).
            * rewrite (E8 k Hn). destruct (P11 k Hn) as [Q1 _]. rewrite Q1. exact X.
          + exists j. split; [exact Hj|]. left. subst o. apply Ho. }
      rewrite W. destruct o as [i1|].
      + destruct Ho as [_ [Y [Z _]]]. split; [intros [X1 X2]; split; [lia|]; intros [X3|X3]; [contradiction|]; injection X3 as <-; lia|].
        intros [X1 X2]. split; [|tauto]. destruct (Nat.eq_dec i i1) as [->|Hne]; [destruct X2; right; reflexivity|lia].
      + destruct Ho as [_ Ho]. rewrite Ho. split; [intros [X1 X2]; split; [exact X1|]; intros [X3|X3]; [contradiction|discriminate]|tauto].
    - destruct (ph c'); auto; destruct HP.
  Qed.

  Lemma parent_inv c c' : parent_step c c' -> inv c -> inv c'.
  Proof.
    intros HS HI.
    assert (Cases : ph c = Join \/ ~ live (ph c) \/ exists it an, working c it an).
    { unfold inv, live in *. destruct (ph c); auto; right; left; tauto. }
    destruct Cases as [PJ|[PL|[it [an H]]]].
    - unfold inv in HI. rewrite PJ in HI. inversion HS; try congruence. unfold inv. cbn. constructor; cbn.
      + destruct (fi_fl _ HI) as [A1 [A2 A3]]. repeat split; cbn; auto; destruct (A3 _ _ H2) as [B1 B2]; auto. rewrite PJ in B1. exact B1.
      + apply (fi_all _ HI).
      + apply (fi_ran _ HI).
      + apply (fi_ret _ HI).
      + apply (fi_ws _ HI).
    - exfalso. apply PL. unfold live. inversion HS as [j P|j P|i j q P|i j i' v c1 P|i j i' c1 P|i P|j q P|j i' v c1 P|j i' c1 P|P|P]; rewrite P; split; discriminate.
    - pose proof (wk_ph _ _ _ H) as HP.
      inversion HS as [j P X Y|j P X|i j q P X Y|i j i' v c1 P R|i j i' c1 P R|i P X|j q P X Y|j i' v c1 P R|j i' c1 P R|P X|P X]; subst c';
        rewrite P in HP.
      + (* the first items *)
        destruct HP as [A1 [A2 A3]]. apply (working_inv _ (upd it j (Some j)) an).
        assert (Hn : it j = None) by (apply A3; auto).
        pose proof (wk_slot _ _ _ H j X) as SL. rewrite Hn in SL. inversion SL as [W I O E1 E2| | | | | | |].
        destruct (wk_fl _ _ _ H) as [F1 [F2 F3]].
        assert (Hno : nth_error (fl c) j = Some None).
        { destruct (nth_error (fl c) j) as [[w|]|] eqn:E; [|reflexivity|].
          - apply F3 in E. rewrite P in E. cbn in E. lia.
          - apply nth_error_None in E. lia. }
        assert (Hne : forall k, k < ncpu -> it k <> Some j).
        { intros k Hk E. apply (wk_it _ _ _ H k j Hk) in E. rewrite P in E. cbn in E. lia. }
        constructor; cbn [put set_phase set_inq ph fl ctr retq inq outq ws ran next got].
        * intros k Hk. destruct (Nat.eq_dec k j) as [->|Hkn].
          { rewrite upd_same, <- E2. apply sl_queued; cbn; rewrite ?upd_same, ?I; auto. }
          rewrite upd_other by exact Hkn. pose proof (wk_slot _ _ _ H k Hk) as S'.
          inversion S'; [eapply sl_free|eapply sl_queued|eapply sl_busy|eapply sl_wrote|eapply sl_sending|eapply sl_sent|eapply sl_died|eapply sl_failed];
          cbn; rewrite ?upd_other by exact Hkn; eassumption.
        * intros k Hk. rewrite (wk_an _ _ _ H k Hk), P. cbn. tauto.
        * apply (wk_ret _ _ _ H).
        * discriminate.
        * intros a b i Ha Hb Ea Eb. destruct (Nat.eq_dec a j) as [->|Na], (Nat.eq_dec b j) as [->|Nb]; auto.
          { rewrite upd_same in Ea. rewrite upd_other in Eb by exact Nb. injection Ea as <-. destruct (Hne b Hb Eb). }
          { rewrite upd_same in Eb. rewrite upd_other in Ea by exact Na. injection Eb as <-. destruct (Hne a Ha Ea). }
          rewrite upd_other in Ea, Eb by assumption. apply (wk_inj _ _ _ H a b i); assumption.
        * intros k i Hk. destruct (Nat.eq_dec k j) as [->|Hkn].
          { rewrite upd_same. intros E. injection E as <-. split; [lia|exact Hno]. }
          rewrite upd_other by exact Hkn. intros E. destruct (wk_it _ _ _ H k i Hk E) as [Q1 Q2]. rewrite P in Q1. cbn in Q1. split; [lia|exact Q2].
        * intros i Hi E. destruct (Nat.eq_dec i j) as [->|Hin]; [exists j; rewrite upd_same; auto|].
          destruct (wk_none _ _ _ H i) as [k [Hk K]]; [rewrite P; cbn; lia|exact E|]. exists k. split; [exact Hk|].
          rewrite upd_other; [exact K|]. intros ->. congruence.
        * repeat split; cbn; auto; destruct (F3 _ _ H0) as [Q1 Q2]; auto. rewrite P in Q1. cbn in Q1. lia.
        * destruct (wk_ran _ _ _ H) as [R1 R2]. split; [exact R1|]. intros i. rewrite R2, P. cbn [next].
          assert (Wt : waiting (set_phase (put c j (Some j)) (Initial (S j))) i <-> waiting c i \/ i = j).
          { unfold waiting. cbn. split.
            - intros [k [Hk Q]]. destruct (Nat.eq_dec k j) as [->|Hkn].
              + rewrite upd_same, I in Q. cbn in Q. destruct Q as [Q|Q]; [right; congruence|congruence].
              + rewrite upd_other in Q by exact Hkn. left. exists k. auto.
            - intros [[k [Hk Q]]| ->].
              + exists k. split; [exact Hk|]. destruct (Nat.eq_dec k j) as [->|Hkn]; [destruct Q; congruence|]. rewrite upd_other by exact Hkn. exact Q.
              + exists j. split; [exact X|]. left. rewrite upd_same, I. reflexivity. }
          rewrite Wt. split; [intros [Q1 Q2]; split; [lia|]; intros [Q3|Q3]; [contradiction|lia]|].
          intros [Q1 Q2]. split; [|tauto]. destruct (Nat.eq_dec i j) as [->|Hin]; [tauto|lia].
        * split; [lia|]. split; [lia|]. intros k Hk. destruct (Nat.eq_dec k j) as [->|Hkn].
          { rewrite upd_same. split; [discriminate|lia]. }
          rewrite upd_other by exact Hkn. rewrite (A3 k Hk). lia.
      + destruct HP as [A1 [A2 A3]]. apply (working_inv _ it an), (working_phase c); auto; cbn.
        * rewrite P. reflexivity.
        * apply (wk_ret _ _ _ H).
        * discriminate.
        * intros k. rewrite P. cbn. tauto.
        * split; [lia|]. intros Hl k Hk E. apply (A3 k Hk) in E. lia.
      + destruct HP as [A1 A2]. apply (working_inv _ it an).
        destruct (wk_ret _ _ _ H) as [R1 R2]. rewrite Y in R1, R2. inversion R1; subst.
        apply (working_phase c); auto; cbn.
        * rewrite P. reflexivity.
        * split; [assumption|]. intros k Hk. apply R2. right. exact Hk.
        * intros k E. injection E as <-. split; [|assumption]. apply R2. left. reflexivity.
        * intros k. rewrite P, Y. cbn. split; intros [Q|Q]; auto; [injection Q as <-; auto|destruct Q as [->|Q]; auto|discriminate].
        * auto.
      + destruct HP as [A1 A2]. assert (Hg : got (ph c) = Some j) by (rewrite P; reflexivity).
        destruct (receive_cases c it an j _ c1 H (proj1 (wk_got _ _ _ H j Hg)) R)
          as [i0 [Hi [Ha [Rp [P1 [P2 [P3 [P4 [P5 [P6 [P7 [P8 [P9 [P10 P11]]]]]]]]]]]]]].
        apply (working_inv _ (upd it j (Some i)) (upd an j false)).
        apply (parent_stores c it an j (i', Some v) v c1); auto; cbn; rewrite ?P2, ?P3, ?P4, ?P5, ?P6, ?P; auto.
        * intros k Hn. rewrite upd_other by exact Hn. reflexivity.
        * rewrite upd_same, P7. repeat split. exact A1.
        * split; [lia|]. intros _ k Hk. destruct (Nat.eq_dec k j) as [->|Hn]; [rewrite upd_same; discriminate|].
          rewrite upd_other by exact Hn. apply A2. exact Hk.
      + unfold inv. cbn. assert (Hg : got (ph c) = Some j) by (rewrite P; reflexivity).
        destruct (receive_cases c it an j _ c1 H (proj1 (wk_got _ _ _ H j Hg)) R)
          as [i0 [Hi [Ha [Rp [_ [_ [_ [P4 [P5 _]]]]]]]]]. destruct (reply_value _ _ Rp) as [_ [x [Hx [_ Hv]]]].
        split; [exists i0, x; split; [exact Hx|]; apply Hv; reflexivity|]. rewrite P4, P5. split; [apply (wk_ran _ _ _ H)|].
        split; [|eapply retq_bound; exact H]. intros i1 F'. apply (wk_ran _ _ _ H) in F'. pose proof (next_n _ _ _ H). lia.
      + destruct HP as [A1 A2]. apply (working_inv _ it an), (working_phase c); auto; cbn.
        * rewrite P. cbn. lia.
        * apply (wk_ret _ _ _ H).
        * discriminate.
        * intros k. rewrite P. cbn. tauto.
        * exact I.
      + apply (working_inv _ it an). destruct (wk_ret _ _ _ H) as [R1 R2]. rewrite Y in R1, R2. inversion R1; subst.
        apply (working_phase c); auto; cbn.
        * rewrite P. reflexivity.
        * split; [assumption|]. intros k Hk. apply R2. right. exact Hk.
        * intros k E. injection E as <-. split; [|assumption]. apply R2. left. reflexivity.
        * intros k. rewrite P, Y. cbn. split; intros [Q|Q]; auto; [injection Q as <-; auto|destruct Q as [->|Q]; auto|discriminate].
      + assert (Hg : got (ph c) = Some j) by (rewrite P; reflexivity).
        destruct (receive_cases c it an j _ c1 H (proj1 (wk_got _ _ _ H j Hg)) R)
          as [i0 [Hi [Ha [Rp [P1 [P2 [P3 [P4 [P5 [P6 [P7 [P8 [P9 [P10 P11]]]]]]]]]]]]]].
        apply (working_inv _ (upd it j None) (upd an j false)).
        apply (parent_stores c it an j (i', Some v) v c1); auto; cbn; rewrite ?P2, ?P3, ?P4, ?P5, ?P6, ?P; auto.
      + unfold inv. cbn. assert (Hg : got (ph c) = Some j) by (rewrite P; reflexivity).
        destruct (receive_cases c it an j _ c1 H (proj1 (wk_got _ _ _ H j Hg)) R)
          as [i0 [Hi [Ha [Rp [_ [_ [_ [P4 [P5 _]]]]]]]]]. destruct (reply_value _ _ Rp) as [_ [x [Hx [_ Hv]]]].
        split; [exists i0, x; split; [exact Hx|]; apply Hv; reflexivity|]. rewrite P4, P5. split; [apply (wk_ran _ _ _ H)|].
        split; [|eapply retq_bound; exact H]. intros i1 F'. apply (wk_ran _ _ _ H) in F'. pose proof (next_n _ _ _ H). lia.
      + unfold inv. cbn [set_phase ph]. destruct (wk_fl _ _ _ H) as [F1 [F2 F3]].
        assert (Z0 : unfilled (fl c) = 0) by lia.
        assert (Hnone : forall j, j < ncpu -> it j = None).
        { intros j Hj. destruct (it j) as [i|] eqn:E; [|reflexivity]. destruct (wk_it _ _ _ H j i Hj E) as [_ E2].
          destruct (unfilled_zero _ Z0 _ _ E2). reflexivity. }
        assert (Hfree : forall j, j < ncpu -> ws c j = Idle /\ inq c j = []).
        { intros j Hj. pose proof (wk_slot _ _ _ H j Hj) as S. rewrite (Hnone j Hj) in S. inversion S. auto. }
        constructor; cbn [set_phase set_inq fl ran ws inq].
        * repeat split; cbn; auto; destruct (F3 _ _ H0) as [Q1 Q2]; auto. rewrite P in Q1. exact Q1.
        * exact Z0.
        * destruct (wk_ran _ _ _ H) as [R1 R2]. split; [exact R1|]. intros i. rewrite R2, P. cbn [next]. split; [tauto|]. intros Hi. split; [exact Hi|].
          intros [k [Hk Q]]. destruct (Hfree k Hk) as [W1 W2]. destruct Q; congruence.
        * cbn. destruct (retq c) as [|j q] eqn:Eq; [reflexivity|exfalso].
          assert (Hj : j < ncpu) by (apply (wk_ret _ _ _ H); rewrite Eq; left; reflexivity).
          pose proof (wk_slot _ _ _ H j Hj) as S. rewrite (Hnone j Hj) in S.
          assert (an j = true) by (apply (wk_an _ _ _ H j Hj); left; rewrite Eq; left; reflexivity). inversion S; congruence.
        * intros j Hj. left. destruct (Hfree j Hj) as [W1 W2]. assert (E : (j <? ncpu) = true) by (apply Nat.ltb_lt; exact Hj).
          rewrite E, W2. auto.
      + destruct HP.
  Qed.

  Theorem reachable_inv c : reachable c -> inv c.
  Proof.
    induction 1 as [|c c' _ IH S]; [apply start_inv|]. destruct S as [j L Hj S|S]; [eapply worker_inv; eassumption|eapply parent_inv; eassumption].
  Qed.

  (* ---------------------------------------------------------------- *)
  (** ** Progress *)

  (** The outcomes that end a worker. *)
  Definition lethal (x : A) : Prop := F x = Dies \/ F x = Unsendable.
  Definition final (c : config) : Prop := ph c = Return \/ ph c = Raised.
  Definition stuck (c : config) : Prop := forall c', ~ step c c'.

  (** A worker that has an item which has not been sent can move. *)
  Lemma worker_moves c it an j i : working c it an -> j < ncpu -> live (ph c) ->
    (forall x, In x l -> ~ lethal x) -> it j = Some i ->
    (exists c', step c c') \/ (an j = true /\ exists m c', receive c j = Some (m, c')).
  Proof.
    intros H Hj L HF Hi. pose proof (wk_slot _ _ _ H j Hj) as S.
    destruct (wk_it _ _ _ H j i Hj Hi) as [Hlt _]. pose proof (next_n _ _ _ H) as Hnn.
    destruct (nth_error l i) as [x|] eqn:Ex; [|apply nth_error_None in Ex; lia].
    assert (Hx : ~ lethal x) by (apply HF; eapply nth_error_In; exact Ex).
    rewrite Hi in S. inversion S as
      [W I O|i0 W I O|i0 W I O|i0 W I O|i0 m0 W I O R|i0 m0 W I O R|i0 x0 W I O X D|i0 x0 W I O X D]; subst; unfold lethal in Hx.
    - left. eexists. apply (s_worker _ _ _ _ c _ j L Hj). eapply w_take; eassumption.
    - left. eexists. apply (s_worker _ _ _ _ c _ j L Hj). eapply w_run; try eassumption. tauto.
    - left. assert (E : exists m, reply i = Some m).
      { unfold ParallelMap.reply. rewrite Ex. destruct (F x); eauto; tauto. }
      destruct E as [m E]. destruct (big i) eqn:Eb.
      + eexists. apply (s_worker _ _ _ _ c _ j L Hj). eapply w_send_big; eassumption.
      + eexists. apply (s_worker _ _ _ _ c _ j L Hj). eapply w_send; eassumption.
    - right. split; [reflexivity|]. unfold receive. rewrite O, W. eauto.
    - right. split; [reflexivity|]. unfold receive. rewrite O. eauto.
    - exfalso. apply Hx. left. congruence.
    - exfalso. apply Hx. right. congruence.
  Qed.

  Lemma parent_receives c it an j : working c it an -> got (ph c) = Some j ->
    (forall x, In x l -> ~ lethal x) -> exists c', step c c'.
  Proof.
    intros H Hg HF. destruct (wk_got _ _ _ H j Hg) as [Hj Hn].
    assert (Ha : an j = true) by (apply (wk_an _ _ _ H j Hj); right; exact Hg).
    assert (L : live (ph c)) by (split; intros E; rewrite E in Hg; discriminate).
    destruct (it j) as [i|] eqn:Ei.
    - destruct (worker_moves c it an j i H Hj L HF Ei) as [?|[_ [[i' [v|]] [c' R]]]]; [assumption| |];
        destruct (ph c) eqn:P; try discriminate; injection Hg as <-.
      + eexists. apply s_parent. eapply p_next; eassumption.
      + eexists. apply s_parent. eapply p_last; eassumption.
      + eexists. apply s_parent. eapply p_next_raise; eassumption.
      + eexists. apply s_parent. eapply p_last_raise; eassumption.
    - pose proof (wk_slot _ _ _ H j Hj) as S. rewrite Ei in S. inversion S. congruence.
  Qed.

  (** Somebody has an item: either that worker can move or the number of some worker can
      be read. *)
  Lemma waits_for c it an j i : working c it an -> j < ncpu -> live (ph c) -> got (ph c) = None ->
    (forall x, In x l -> ~ lethal x) -> it j = Some i ->
    (exists c', step c c') \/ exists j' q, retq c = j' :: q.
  Proof.
    intros H Hj L Hg HF Hi. destruct (worker_moves c it an j i H Hj L HF Hi) as [?|[Ha _]]; [auto|right].
    apply (wk_an _ _ _ H j Hj) in Ha. destruct Ha as [Ha|Ha]; [|congruence]. destruct (retq c); [destruct Ha|eauto].
  Qed.

  Lemma progress c : (0 < ncpu \/ l = []) -> (forall x, In x l -> ~ lethal x) -> inv c ->
    final c \/ exists c', step c c'.
  Proof.
    intros Hn HF HI. unfold final, inv in *. destruct (ph c) eqn:P; auto; right.
    - destruct (Nat.lt_ge_cases j ncpu) as [H1|H1]; [destruct (Nat.lt_ge_cases j n) as [H2|H2]|].
      + eexists. apply s_parent. apply (p_first _ _ c j); assumption.
      + eexists. apply s_parent. apply (p_first_end _ _ c j); [assumption|lia].
      + eexists. apply s_parent. apply (p_first_end _ _ c j); [assumption|lia].
    - destruct HI as [it [an H]]. destruct (Nat.lt_ge_cases i n) as [H1|H1].
      + pose proof (wk_ph _ _ _ H) as HP. rewrite P in HP. destruct HP as [_ HP].
        assert (H0 : 0 < ncpu) by (destruct Hn as [|E]; [assumption|rewrite E in H1; cbn in H1; lia]).
        specialize (HP H1 0 H0). destruct (it 0) as [i0|] eqn:E0; [|contradiction].
        destruct (waits_for c it an 0 i0) as [?|[j' [q E]]]; auto.
        * rewrite P. split; discriminate.
        * rewrite P. reflexivity.
        * eexists. apply s_parent. eapply p_read; eassumption.
      + eexists. apply s_parent. eapply p_feed_end; eassumption.
    - destruct HI as [it [an H]]. apply (parent_receives c it an j H); [rewrite P; reflexivity|exact HF].
    - destruct HI as [it [an H]]. destruct (Z.ltb_spec 0 (ctr c)) as [H1|H1].
      + destruct (wk_fl _ _ _ H) as [F1 [F2 F3]]. destruct (unfilled_pos (fl c)) as [i Ei]; [lia|].
        assert (Hi : i < n) by (rewrite <- F1; apply nth_error_Some; congruence).
        destruct (wk_none _ _ _ H i) as [j [Hj Ej]]; [rewrite P; exact Hi|exact Ei|].
        destruct (waits_for c it an j i) as [?|[j' [q E]]]; auto.
        * rewrite P. split; discriminate.
        * rewrite P. reflexivity.
        * eexists. apply s_parent. eapply p_drain; eassumption.
      + eexists. apply s_parent. eapply p_cancel; [assumption|lia].
    - destruct HI as [it [an H]]. apply (parent_receives c it an j H); [rewrite P; reflexivity|exact HF].
    - assert (D : (forall j, j < ncpu -> ws c j = Exited \/ ws c j = Dead) \/ exists j, j < ncpu /\ ws c j = Idle /\ inq c j = [None]).
      { pose proof (fi_ws _ HI) as W. clear - W. generalize ncpu W. induction ncpu0 as [|m IH]; intros W0.
        - left. intros j Hj. lia.
        - destruct IH as [IH|[j [Hj IH]]]; [intros j Hj; apply W0; lia| |right; exists j; split; [lia|exact IH]].
          destruct (W0 m) as [X|[X _]]; [lia|right; exists m; split; [lia|exact X]|].
          left. intros j Hj. destruct (Nat.eq_dec j m) as [->|Hne]; [auto|]. apply IH. lia. }
      destruct D as [D|[j [Hj [W I]]]].
      + eexists. apply s_parent. eapply p_join; eassumption.
      + eexists. apply (s_worker _ _ _ _ c _ j); [rewrite P; split; discriminate|exact Hj|]. eapply w_stop; eassumption.
  Qed.

  (* ---------------------------------------------------------------- *)
  (** ** Termination *)

  Definition wt (w : worker B) : nat :=
    match w with Idle => 0 | Busy _ => 7 | Wrote _ => 3 | Sending _ => 2 | Exited => 0 | Dead => 0 end.
  Definition qt (q : list (option nat)) : nat :=
    list_sum (map (fun o => match o with Some _ => 8 | None => 1 end) q).
  Definition at_worker (c : config) (j : nat) : nat := wt (ws c j) + qt (inq c j) + 2 * length (outq c j).
  Definition pw (p : phase) : nat :=
    match p with
    | Initial _ => ncpu + 6 | Feed _ => ncpu + 4 | FeedGot _ _ => ncpu + 5 | Drain => ncpu + 2 | DrainGot _ => ncpu + 3
    | Join => 1 | Return => 0 | Raised => 0
    end.
  Definition measure (c : config) : nat :=
    9 * (n - next (ph c)) + list_sum (map (at_worker c) (seq 0 ncpu)) + 2 * length (retq c) + pw (ph c).

  Lemma sum_change (f g : nat -> nat) j a b : (forall k, k <> j -> g k = f k) -> g j + a = f j + b -> j < ncpu ->
    list_sum (map g (seq 0 ncpu)) + a = list_sum (map f (seq 0 ncpu)) + b.
  Proof.
    intros E Ej Hj. assert (G : forall m s, list_sum (map g (seq s m)) + (if (s <=? j) && (j <? s + m) then a else 0)
      = list_sum (map f (seq s m)) + (if (s <=? j) && (j <? s + m) then b else 0)).
    { induction m as [|m IH]; intros s.
      - rewrite Nat.add_0_r. destruct (Nat.leb_spec s j), (Nat.ltb_spec j s); cbn; lia.
      - cbn [seq map list_sum fold_right]. specialize (IH (S s)). replace (S s + m) with (s + S m) in IH by lia.
        change (fold_right Nat.add 0 (map g (seq (S s) m))) with (list_sum (map g (seq (S s) m))).
        change (fold_right Nat.add 0 (map f (seq (S s) m))) with (list_sum (map f (seq (S s) m))).
        destruct (Nat.eq_dec s j) as [->|Hn].
        + replace (S j <=? j) with false in IH by (symmetry; apply Nat.leb_gt; lia).
          replace (j <=? j) with true by (symmetry; apply Nat.leb_le; lia).
          replace (j <? j + S m) with true by (symmetry; apply Nat.ltb_lt; lia). cbn [andb] in *. lia.
        + rewrite (E s Hn). replace (s <=? j) with (S s <=? j); [lia|].
          destruct (Nat.leb_spec (S s) j), (Nat.leb_spec s j); try reflexivity; lia. }
    specialize (G ncpu 0). replace (0 <=? j) with true in G by reflexivity.
    replace (j <? 0 + ncpu) with true in G by (symmetry; apply Nat.ltb_lt; lia). exact G.
  Qed.

  Lemma qt_app a b : qt (a ++ b) = qt a + qt b.
  Proof. unfold qt. rewrite map_app, list_sum_app. reflexivity. Qed.

  Lemma worker_measure c j c' : j < ncpu -> worker_step c j c' -> measure c' < measure c.
  Proof.
    intros Hj HS. unfold measure.
    assert (G : forall a b, (forall k, k <> j -> at_worker c' k = at_worker c k) -> at_worker c' j + a = at_worker c j + b ->
      list_sum (map (at_worker c') (seq 0 ncpu)) + a = list_sum (map (at_worker c) (seq 0 ncpu)) + b)
      by (intros; apply (sum_change _ _ j); assumption).
    inversion HS as [i q W Q|q W Q|i x W X D|i x W X D|i m W X D|i m W X D|i x W X D]; subst c'.
    - specialize (G 1 0). cbn [ph retq set_worker set_inq] in *. match type of G with ?P -> ?Q -> _ => cut (P /\ Q); [intros [G1 G2]; specialize (G G1 G2); lia|split] end.
      + intros k Hn. unfold at_worker. cbn. rewrite !upd_other by exact Hn. reflexivity.
      + unfold at_worker. cbn [ws inq outq set_worker set_inq]. rewrite !upd_same, W, Q. change (qt (Some i :: q)) with (8 + qt q). cbn [wt]. lia.
    - specialize (G 1 0). cbn [ph retq set_worker set_inq] in *. match type of G with ?P -> ?Q -> _ => cut (P /\ Q); [intros [G1 G2]; specialize (G G1 G2); lia|split] end.
      + intros k Hn. unfold at_worker. cbn. rewrite !upd_other by exact Hn. reflexivity.
      + unfold at_worker. cbn [ws inq outq set_worker set_inq]. rewrite !upd_same, W, Q. change (qt (None :: q)) with (1 + qt q). cbn [wt]. lia.
    - specialize (G 4 0). cbn [ph retq set_worker set_retq add_ran] in *. rewrite app_length. cbn [length]. match type of G with ?P -> ?Q -> _ => cut (P /\ Q); [intros [G1 G2]; specialize (G G1 G2); lia|split] end.
      + intros k Hn. unfold at_worker. cbn. rewrite !upd_other by exact Hn. reflexivity.
      + unfold at_worker. cbn [ws inq outq set_worker set_retq add_ran]. rewrite !upd_same, W. cbn [wt]. lia.
    - specialize (G 7 0). cbn [ph retq set_worker add_ran] in *. match type of G with ?P -> ?Q -> _ => cut (P /\ Q); [intros [G1 G2]; specialize (G G1 G2); lia|split] end.
      + intros k Hn. unfold at_worker. cbn. rewrite !upd_other by exact Hn. reflexivity.
      + unfold at_worker. cbn [ws inq outq set_worker add_ran]. rewrite !upd_same, W. cbn [wt]. lia.
    - specialize (G 1 0). cbn [ph retq set_worker set_outq] in *. match type of G with ?P -> ?Q -> _ => cut (P /\ Q); [intros [G1 G2]; specialize (G G1 G2); lia|split] end.
      + intros k Hn. unfold at_worker. cbn. rewrite !upd_other by exact Hn. reflexivity.
      + unfold at_worker. cbn [ws inq outq set_worker set_outq]. rewrite !upd_same, W, app_length. cbn [wt length]. lia.
    - specialize (G 1 0). cbn [ph retq set_worker] in *. match type of G with ?P -> ?Q -> _ => cut (P /\ Q); [intros [G1 G2]; specialize (G G1 G2); lia|split] end.
      + intros k Hn. unfold at_worker. cbn. rewrite !upd_other by exact Hn. reflexivity.
      + unfold at_worker. cbn [ws inq outq set_worker]. rewrite !upd_same, W. cbn [wt]. lia.
    - specialize (G 3 0). cbn [ph retq set_worker] in *. match type of G with ?P -> ?Q -> _ => cut (P /\ Q); [intros [G1 G2]; specialize (G G1 G2); lia|split] end.
      + intros k Hn. unfold at_worker. cbn. rewrite !upd_other by exact Hn. reflexivity.
      + unfold at_worker. cbn [ws inq outq set_worker]. rewrite !upd_same, W. cbn [wt]. lia.
  Qed.

  Lemma sum_le (f g : nat -> nat) : (forall k, k < ncpu -> g k <= f k + 1) ->
    list_sum (map g (seq 0 ncpu)) <= list_sum (map f (seq 0 ncpu)) + ncpu.
  Proof.
    intros H. induction ncpu as [|m IH]; [cbn; lia|]. rewrite !seq_S, !map_app, !list_sum_app. cbn [map list_sum fold_right].
    pose proof (H m ltac:(lia)). pose proof (IH ltac:(intros; apply H; lia)). cbn [Nat.add]. lia.
  Qed.

  Lemma sum_same (f g : nat -> nat) : (forall k, g k = f k) -> list_sum (map g (seq 0 ncpu)) = list_sum (map f (seq 0 ncpu)).
  Proof. intros H. f_equal. apply map_ext. exact H. Qed.

  Lemma receive_measure c j m c' : j < ncpu -> receive c j = Some (m, c') ->
    ph c' = ph c /\ retq c' = retq c /\
    list_sum (map (at_worker c') (seq 0 ncpu)) + 2 = list_sum (map (at_worker c) (seq 0 ncpu)).
  Proof.
    intros Hj. unfold receive. destruct (outq c j) as [|m0 q] eqn:O.
    - destruct (ws c j) eqn:W; try discriminate. intros E. injection E as <- <-. cbn. split; [reflexivity|]. split; [reflexivity|].
      rewrite <- (Nat.add_0_r (list_sum (map (at_worker c) _))). apply (sum_change _ _ j); [| |exact Hj].
      + intros k Hn. unfold at_worker. cbn. rewrite upd_other by exact Hn. reflexivity.
      + unfold at_worker. cbn [ws inq outq set_worker]. rewrite upd_same, W. cbn [wt]. lia.
    - intros E. injection E as <- <-. cbn. split; [reflexivity|]. split; [reflexivity|].
      rewrite <- (Nat.add_0_r (list_sum (map (at_worker c) _))). apply (sum_change _ _ j); [| |exact Hj].
      + intros k Hn. unfold at_worker. cbn. rewrite upd_other by exact Hn. reflexivity.
      + unfold at_worker. cbn [ws inq outq set_outq]. rewrite upd_same, O. cbn [length]. lia.
  Qed.

  Lemma put_measure c j i : j < ncpu ->
    list_sum (map (at_worker (put c j (Some i))) (seq 0 ncpu)) = list_sum (map (at_worker c) (seq 0 ncpu)) + 8.
  Proof.
    intros Hj. rewrite <- (Nat.add_0_r (list_sum (map (at_worker (put _ _ _)) _))). apply (sum_change _ _ j); [| |exact Hj].
    - intros k Hn. unfold at_worker. cbn. rewrite upd_other by exact Hn. reflexivity.
    - unfold at_worker. cbn [ws inq outq put set_inq]. rewrite upd_same, qt_app. change (qt [Some i]) with 8. lia.
  Qed.

  Lemma step_measure c c' : inv c -> step c c' -> measure c' < measure c.
  Proof.
    intros HI [j L Hj HS|HS]; [eapply worker_measure; eassumption|].
    assert (Hgot : forall j, got (ph c) = Some j -> j < ncpu).
    { intros j Hg. assert (HW : exists it an, working c it an) by (unfold inv in HI; destruct (ph c); try discriminate; exact HI).
      destruct HW as [it [an H]]. apply (wk_got _ _ _ H j Hg). }
    assert (Hfeed : forall i j, ph c = FeedGot i j -> i < n).
    { intros i j P. unfold inv in HI. rewrite P in HI. destruct HI as [it [an H]]. pose proof (wk_ph _ _ _ H) as HP.
      rewrite P in HP. apply HP. }
    unfold measure. inversion HS as [j P X Y|j P X|i j q P X Y|i j i' v c1 P R|i j i' c1 P R|i P X|j q P X Y|j i' v c1 P R|j i' c1 P R|P X|P X]; subst c'.
    - change (at_worker (set_phase (put c j (Some j)) (Initial (S j)))) with (at_worker (put c j (Some j))).
      rewrite put_measure by exact X. cbn [ph retq set_phase put set_inq]. rewrite P. cbn [next pw]. lia.
    - change (at_worker (set_phase c (Feed j))) with (at_worker c). cbn [ph retq set_phase]. rewrite P. cbn [next pw]. lia.
    - change (at_worker (set_phase (set_retq c q) (FeedGot i j))) with (at_worker c). cbn [ph retq set_phase set_retq].
      rewrite P, Y. cbn [next pw length]. lia.
    - assert (Hj : j < ncpu) by (apply Hgot; rewrite P; reflexivity). destruct (receive_measure _ _ _ _ Hj R) as [R1 [R2 R3]].
      change (at_worker (set_phase (put (store c1 i' v) j (Some i)) (Feed (S i)))) with (at_worker (put (store c1 i' v) j (Some i))).
      rewrite put_measure by exact Hj. change (at_worker (store c1 i' v)) with (at_worker c1).
      cbn [ph retq set_phase put set_inq store]. rewrite R2, P. pose proof (Hfeed _ _ P). cbn [next pw]. lia.
    - assert (Hj : j < ncpu) by (apply Hgot; rewrite P; reflexivity). destruct (receive_measure _ _ _ _ Hj R) as [R1 [R2 R3]].
      change (at_worker (set_phase c1 Raised)) with (at_worker c1). cbn [ph retq set_phase]. rewrite R2, P. cbn [next pw]. lia.
    - change (at_worker (set_phase c Drain)) with (at_worker c). cbn [ph retq set_phase]. rewrite P. cbn [next pw]. lia.
    - change (at_worker (set_phase (set_retq c q) (DrainGot j))) with (at_worker c). cbn [ph retq set_phase set_retq].
      rewrite P, Y. cbn [next pw length]. lia.
    - assert (Hj : j < ncpu) by (apply Hgot; rewrite P; reflexivity). destruct (receive_measure _ _ _ _ Hj R) as [R1 [R2 R3]].
      change (at_worker (set_phase (store c1 i' v) Drain)) with (at_worker c1). cbn [ph retq set_phase store]. rewrite R2, P. cbn [next pw]. lia.
    - assert (Hj : j < ncpu) by (apply Hgot; rewrite P; reflexivity). destruct (receive_measure _ _ _ _ Hj R) as [R1 [R2 R3]].
      change (at_worker (set_phase c1 Raised)) with (at_worker c1). cbn [ph retq set_phase]. rewrite R2, P. cbn [next pw]. lia.
    - match goal with |- context [at_worker ?c2] => assert (G : forall k, k < ncpu -> at_worker c2 k <= at_worker c k + 1) end.
      { intros k Hk. unfold at_worker. cbn [ws inq outq set_phase set_inq]. apply Nat.ltb_lt in Hk. rewrite Hk, qt_app. change (qt [None]) with 1. lia. }
      apply sum_le in G. cbn [ph retq set_phase set_inq] in *. rewrite P. cbn [next pw]. lia.
    - change (at_worker (set_phase c Return)) with (at_worker c). cbn [ph retq set_phase]. rewrite P. cbn [next pw]. lia.
  Qed.

  (* ---------------------------------------------------------------- *)
  (** ** C39 *)

  (** No execution is infinite, whatever the function, the list and the number of workers. *)
  Theorem C39_ends c : reachable c -> Acc (fun c2 c1 => reachable c1 /\ step c1 c2) c.
  Proof.
    intros _. remember (measure c) as m eqn:E. assert (Hm : measure c <= m) by lia. clear E. revert c Hm.
    induction m as [m IH] using lt_wf_ind. intros c Hm. constructor. intros c2 [HR HS].
    pose proof (step_measure c c2 (reachable_inv c HR) HS). apply (IH (measure c2)); lia.
  Qed.

  (** When nothing more can happen: the call has returned the results in the order of the
      items, having run each item exactly once, if all calls of the function return. *)
  Theorem C39_map (f : A -> B) c : (0 < ncpu \/ l = []) -> (forall x, In x l -> F x = Value (f x)) ->
    reachable c -> stuck c ->
    ph c = Return /\ fl c = map (fun x => Some (f x)) l /\ Permutation (ran c) (seq 0 n).
  Proof.
    intros Hn HF HR HS. pose proof (reachable_inv c HR) as HI.
    destruct (progress c Hn) as [[P|P]|[c' S]]; [|exact HI| | |destruct (HS c' S)].
    - intros x Hx [E|E]; rewrite (HF x Hx) in E; discriminate.
    - unfold inv in HI. rewrite P in HI. split; [exact P|]. destruct (fi_fl _ HI) as [F1 [F2 F3]]. split.
      + apply (nth_ext _ _ None None); [rewrite map_length; exact F1|]. intros i Hi.
        destruct (nth_error (fl c) i) as [o|] eqn:E; [|apply nth_error_None in E; lia].
        pose proof (unfilled_zero _ (fi_all _ HI) _ _ E) as Ho. destruct o as [v|]; [|contradiction].
        destruct (F3 _ _ E) as [_ [x [Hx Ev]]]. rewrite (nth_error_nth _ _ _ E).
        symmetry. apply nth_error_nth. rewrite (map_nth_error _ _ _ Hx). f_equal. f_equal.
        rewrite (HF x (nth_error_In _ _ Hx)) in Ev. injection Ev as ->. reflexivity.
      + apply NoDup_Permutation; [apply (fi_ran _ HI)|apply seq_NoDup|]. intros i. rewrite (proj2 (fi_ran _ HI)), in_seq. lia.
    - exfalso. unfold inv in HI. rewrite P in HI. destruct HI as [[i [x [Hx Hv]]] _].
      apply (Hv (f x)). apply HF. eapply nth_error_In. exact Hx.
  Qed.

  (** A call that has returned: every call of the function returned, and the results are
      theirs, in order. *)
  Theorem C39_returned c : reachable c -> ph c = Return ->
    Forall2 (fun x o => exists v, F x = Value v /\ o = Some v) l (fl c) /\ Permutation (ran c) (seq 0 n).
  Proof.
    intros HR P. pose proof (reachable_inv c HR) as HI. unfold inv in HI. rewrite P in HI.
    destruct (fi_fl _ HI) as [F1 [F2 F3]]. split.
    - assert (G : forall i o, nth_error (fl c) i = Some o -> exists x, nth_error l i = Some x /\ exists v, F x = Value v /\ o = Some v).
      { intros i o E. pose proof (unfilled_zero _ (fi_all _ HI) _ _ E). destruct o as [v|]; [|contradiction].
        destruct (F3 _ _ E) as [_ [x [Hx Ev]]]. eauto. }
      clear - F1 G. revert G F1. generalize (fl c) as o. intros o. revert l.
      induction o as [|o os IH]; intros [|x xs] G F1; try discriminate; [constructor|].
      constructor.
      + destruct (G 0 o eq_refl) as [y [Hy Q]]. injection Hy as ->. exact Q.
      + apply IH; [|injection F1 as F1; exact F1]. intros i o' E. exact (G (S i) o' E).
    - apply NoDup_Permutation; [apply (fi_ran _ HI)|apply seq_NoDup|]. intros i. rewrite (proj2 (fi_ran _ HI)), in_seq. lia.
  Qed.

  (** If a call of the function raises (or its result cannot be pickled), then when
      nothing more can happen the call has raised; and it raises only then. *)
  Theorem C39_raises c : (0 < ncpu \/ l = []) -> (forall x, In x l -> ~ lethal x) ->
    reachable c -> stuck c ->
    (ph c = Raised <-> exists x, In x l /\ forall v, F x <> Value v) /\ (ph c = Raised \/ ph c = Return).
  Proof.
    intros Hn HL HR HS. pose proof (reachable_inv c HR) as HI.
    destruct (progress c Hn HL HI) as [[P|P]|[c' S]]; [| |destruct (HS c' S)].
    - split; [|auto]. split; [rewrite P; discriminate|]. intros [x [Hx Hv]]. exfalso.
      destruct (C39_returned c HR P) as [G _]. clear - G Hx Hv. induction G as [|y o ys os [v [E _]] _ IH]; [destruct Hx|].
      destruct Hx as [->|Hx]; [destruct (Hv v E)|apply IH; exact Hx].
    - split; [|auto]. split; [|auto]. intros _. unfold inv in HI. rewrite P in HI. destruct HI as [[i [x [Hx Hv]]] _].
      exists x. split; [eapply nth_error_In; exact Hx|exact Hv].
  Qed.

  (** At no time has an item been run twice. *)
  Theorem C39_once c : reachable c -> NoDup (ran c) /\ forall i, In i (ran c) -> i < n.
  Proof.
    intros HR. pose proof (reachable_inv c HR) as HI. unfold inv in HI. 
    destruct (ph c); try (destruct HI as [it [an H]]; split; [apply (wk_ran _ _ _ H)|]; intros i0 Hi;
      apply (wk_ran _ _ _ H) in Hi; destruct Hi as [Hi _]; pose proof (next_n _ _ _ H); lia).
    - split; [apply (fi_ran _ HI)|]. intros i Hi. apply (fi_ran _ HI). exact Hi.
    - split; [apply (fi_ran _ HI)|]. intros i Hi. apply (fi_ran _ HI). exact Hi.
    - split; apply HI.
  Qed.

  (** The pipe with the numbers of the workers never holds more than one for each. *)
  Theorem C39_bounded c : reachable c -> length (retq c) <= ncpu.
  Proof.
    intros HR. pose proof (reachable_inv c HR) as HI. unfold inv in HI.
    destruct (ph c); try (destruct HI as [it [an H]]; eapply retq_bound; exact H); try (rewrite (fi_ret _ HI); cbn; lia). apply HI.
  Qed.

  (** Without workers a call on a list that is not empty never ends. *)
  Theorem C39_no_workers c : ncpu = 0 -> l <> [] -> reachable c -> ~ final c.
  Proof.
    intros H0 Hl HR. assert (G : ph c = Initial 0 \/ ph c = Feed 0 /\ retq c = []).
    { induction HR as [|c c' HR IH [j L Hj HS|HS]]; [left; reflexivity|lia|].
      assert (B0 : length (retq c) <= 0) by (rewrite <- H0; apply C39_bounded; exact HR).
      assert (E : retq c = []) by (destruct (retq c); [reflexivity|cbn in B0; lia]).
      assert (Hlen : 0 < length l) by (destruct l; [contradiction|cbn; lia]).
      inversion HS as [j P X Y|j P X|i j q P X Y|i j i' v c1 P R|i j i' c1 P R|i P X|j q P X Y|j i' v c1 P R|j i' c1 P R|P X|P X];
        destruct IH as [IH|[IH _]]; rewrite P in IH; try discriminate; try lia.
      - injection IH as ->. right. split; [reflexivity|exact E].
      - congruence.
      - injection IH as ->. lia. }
    unfold final. destruct G as [G|[G _]]; rewrite G; intros [|]; discriminate.
  Qed.

  (** A call of the function that ends its worker: if the others return, the call of
      parallel_map never ends; in any case it never returns. *)
  Theorem C39_lethal c : (exists x, In x l /\ lethal x) -> reachable c ->
    ph c <> Return /\ ((forall x, In x l -> lethal x \/ exists v, F x = Value v) -> ph c <> Raised).
  Proof.
    intros [x [Hx HLx]] HR. split.
    - intros P. destruct (C39_returned c HR P) as [G _]. clear - G Hx HLx.
      induction G as [|y o ys os [v [E _]] _ IH]; [destruct Hx|].
      destruct Hx as [->|Hx]; [destruct HLx; congruence|apply IH; exact Hx].
    - intros HA P. assert (G : forall c, reachable c -> ph c <> Raised); [|exact (G c HR P)].
      clear c HR P. intros c HR. induction HR as [|c c' HR IH HS]; [discriminate|].
      destruct HS as [j L Hj HS|HS].
      + inversion HS; subst; exact IH.
      + assert (NR : forall j i' c1, got (ph c) = Some j -> receive c j = Some ((i', None), c1) -> False).
        { intros j i' c1 Hg R. pose proof (reachable_inv c HR) as HI.
          assert (HW : exists it an, working c it an) by (unfold inv in HI; destruct (ph c); try discriminate; exact HI).
          destruct HW as [it [an H]]. destruct (wk_got _ _ _ H j Hg) as [Hj _].
          destruct (receive_cases c it an j _ c1 H Hj R) as [i0 [Hi [Ha [Rp _]]]].
          destruct (reply_value _ _ Rp) as [_ [y [Hy [_ Hv]]]].
          destruct (HA y (nth_error_In _ _ Hy)) as [[D|D]|[v D]]; [| |exact (Hv eq_refl v D)];
            unfold ParallelMap.reply in Rp; rewrite Hy, D in Rp; discriminate. }
        inversion HS as [j P X Y|j P X|i j q P X Y|i j i' v c1 P R|i j i' c1 P R|i P X|j q P X Y|j i' v c1 P R|j i' c1 P R|P X|P X];
          subst c'; cbn; try discriminate; exfalso; eapply NR; try eassumption; rewrite P; reflexivity.
  Qed.
End Invariant.
Print Assumptions C39_ends.
Print Assumptions C39_map.
Print Assumptions C39_returned.
Print Assumptions C39_raises.
Print Assumptions C39_once.
Print Assumptions C39_bounded.
Print Assumptions C39_no_workers.
Print Assumptions C39_lethal.

(* ------------------------------------------------------------------ *)
(** ** Cases *)

(** The steps as a function, for the cases below: who moves ([None]: the parent). *)
Section Exec.
  Context {A B : Type} (F : A -> outcome B) (l : list A) (ncpu : nat) (big : nat -> bool).

  Definition worker_exec (c : @config B) (j : nat) : option (@config B) :=
    match ws c j with
    | Idle => match inq c j with
              | Some i :: q => Some (set_worker (set_inq c (upd (inq c) j q)) j (Busy i))
              | None :: q => Some (set_worker (set_inq c (upd (inq c) j q)) j Exited)
              | [] => None
              end
    | Busy i => match nth_error l i with
                | None => None
                | Some x => match F x with
                            | Dies => Some (add_ran (set_worker c j Dead) i)
                            | _ => Some (add_ran (set_worker (set_retq c (retq c ++ [j])) j (Wrote i)) i)
                            end
                end
    | Wrote i => match reply F l i with
                 | None => match nth_error l i with
                           | Some x => match F x with Unsendable => Some (set_worker c j Dead) | _ => None end
                           | None => None
                           end
                 | Some m => if big i then Some (set_worker c j (Sending m))
                             else Some (set_worker (set_outq c (upd (outq c) j (outq c j ++ [m]))) j Idle)
                 end
    | _ => None
    end.

  Definition parent_exec (c : @config B) : option (@config B) :=
    match ph c with
    | Initial j => if (j <? ncpu) && (j <? length l) then Some (set_phase (put c j (Some j)) (Initial (S j)))
                   else Some (set_phase c (Feed j))
    | Feed i => if i <? length l then match retq c with j :: q => Some (set_phase (set_retq c q) (FeedGot i j)) | [] => None end
                else Some (set_phase c Drain)
    | FeedGot i j => match receive c j with
                     | Some ((i', Some v), c') => Some (set_phase (put (store c' i' v) j (Some i)) (Feed (S i)))
                     | Some ((_, None), c') => Some (set_phase c' Raised)
                     | None => None
                     end
    | Drain => if (0 <? ctr c)%Z then match retq c with j :: q => Some (set_phase (set_retq c q) (DrainGot j)) | [] => None end
               else Some (set_phase (set_inq c (fun j => if j <? ncpu then inq c j ++ [None] else inq c j)) Join)
    | DrainGot j => match receive c j with
                    | Some ((i', Some v), c') => Some (set_phase (store c' i' v) Drain)
                    | Some ((_, None), c') => Some (set_phase c' Raised)
                    | None => None
                    end
    | Join => if forallb (fun j => match ws c j with Exited | Dead => true | _ => false end) (seq 0 ncpu)
              then Some (set_phase c Return) else None
    | _ => None
    end.

  Fixpoint exec (who : list (option nat)) (c : @config B) : option (@config B) :=
    match who with
    | [] => Some c
    | None :: who' => match parent_exec c with Some c' => exec who' c' | None => None end
    | Some j :: who' =>
        match ph c with
        | Return | Raised => None
        | _ => if j <? ncpu then match worker_exec c j with Some c' => exec who' c' | None => None end else None
        end
    end.

  Lemma worker_exec_step c j c' : worker_exec c j = Some c' -> worker_step F l big c j c'.
  Proof.
    unfold worker_exec. destruct (ws c j) as [|i|i|m| |] eqn:W; try discriminate.
    - destruct (inq c j) as [|[i|] q] eqn:Q; [discriminate| |]; intros E; injection E as <-; [eapply w_take|eapply w_stop]; eassumption.
    - destruct (nth_error l i) as [x|] eqn:X; [|discriminate]. destruct (F x) eqn:D; intros E; injection E as <-;
        try (eapply w_run; try eassumption; congruence). eapply w_die; eassumption.
    - destruct (reply F l i) as [m|] eqn:R.
      + destruct (big i) eqn:Bi; intros E; injection E as <-; [eapply w_send_big|eapply w_send]; eassumption.
      + destruct (nth_error l i) as [x|] eqn:X; [|discriminate]. destruct (F x) eqn:D; try discriminate.
        intros E. injection E as <-. eapply w_fail; eassumption.
  Qed.

  Lemma parent_exec_step c c' : parent_exec c = Some c' -> parent_step l ncpu c c'.
  Proof.
    unfold parent_exec. destruct (ph c) as [j|i|i j| |j| | |] eqn:P; try discriminate.
    - destruct (Nat.ltb_spec j ncpu), (Nat.ltb_spec j (length l)); cbn [andb]; intros E; injection E as <-;
        [eapply p_first|eapply p_first_end|eapply p_first_end|eapply p_first_end]; try eassumption; lia.
    - destruct (Nat.ltb_spec i (length l)).
      + destruct (retq c) eqn:Q; [discriminate|]. intros E. injection E as <-. eapply p_read; eassumption.
      + intros E. injection E as <-. eapply p_feed_end; eassumption.
    - destruct (receive c j) as [[[i' [v|]] c1]|] eqn:R; [| |discriminate]; intros E; injection E as <-;
        [eapply p_next|eapply p_next_raise]; eassumption.
    - destruct (Z.ltb_spec 0 (ctr c)).
      + destruct (retq c) eqn:Q; [discriminate|]. intros E. injection E as <-. eapply p_drain; eassumption.
      + intros E. injection E as <-. eapply p_cancel; [eassumption|lia].
    - destruct (receive c j) as [[[i' [v|]] c1]|] eqn:R; [| |discriminate]; intros E; injection E as <-;
        [eapply p_last|eapply p_last_raise]; eassumption.
    - destruct (forallb _ (seq 0 ncpu)) eqn:D; [|discriminate]. intros E. injection E as <-. eapply p_join; [eassumption|].
      intros j Hj. rewrite forallb_forall in D. specialize (D j). destruct (ws c j); auto; discriminate D; apply in_seq; lia.
  Qed.

  Lemma exec_reachable who : forall c c', reachable F l ncpu big c -> exec who c = Some c' -> reachable F l ncpu big c'.
  Proof.
    induction who as [|[j|] who IH]; intros c c' HR; cbn [exec].
    - intros E. injection E as <-. exact HR.
    - destruct (ph c) eqn:P; try discriminate; (destruct (Nat.ltb_spec j ncpu) as [Hj|]; [|discriminate]);
        (destruct (worker_exec c j) as [c1|] eqn:W; [|discriminate]); apply IH; (eapply r_step; [exact HR|]);
        (apply (s_worker _ _ _ _ c _ j); [rewrite P; split; discriminate|exact Hj|apply worker_exec_step; exact W]).
    - destruct (parent_exec c) as [c1|] eqn:W; [|discriminate]. apply IH. eapply r_step; [exact HR|].
      apply s_parent, parent_exec_step. exact W.
  Qed.

  Lemma final_stuck c : final c -> stuck F l ncpu big c.
  Proof.
    intros [P|P] c' [j [L1 L2] _ _|S]; try contradiction;
      inversion S as [j P2|j P2|i j q P2|i j i' v c1 P2|i j i' c1 P2|i P2|j q P2|j i' v c1 P2|j i' c1 P2|P2|P2]; congruence.
  Qed.
End Exec.

(** C39: three items, two workers, the second result arriving first and the first one
    too large for its pipe. *)
Definition ex_F (x : nat) : outcome nat := Value (x * x).
Definition ex_l : list nat := [5; 6; 7].
Definition ex_big (i : nat) : bool := i =? 0.
Definition ex_who : list (option nat) :=
  [None; None; None; Some 1; Some 1; Some 0; Some 1; None; None; Some 1; Some 0; Some 0; None; Some 1;
   None; None; Some 1; None; None; None; Some 0; Some 1; None].

Example C39_ex : exists c, reachable ex_F ex_l 2 ex_big c /\ stuck ex_F ex_l 2 ex_big c /\
  ph c = Return /\ fl c = [Some 25; Some 36; Some 49] /\ ran c = [1; 0; 2].
Proof.
  destruct (exec ex_F ex_l 2 ex_big ex_who (start ex_l)) as [c|] eqn:E; [|vm_compute in E; discriminate E].
  exists c. assert (P : ph c = Return) by (vm_compute in E; injection E as <-; reflexivity).
  split; [eapply exec_reachable; [constructor|exact E]|]. split; [apply final_stuck; left; exact P|]. split; [exact P|].
  vm_compute in E. injection E as <-. split; reflexivity.
Qed.

(** C39 (raises): the second of two calls raises. *)
Definition bad_F (x : nat) : outcome nat := if x =? 6 then Raises else Value x.
Example C39_raises_ex : exists c, reachable bad_F [5; 6] 1 ex_big c /\ stuck bad_F [5; 6] 1 ex_big c /\ ph c = Raised.
Proof.
  destruct (exec bad_F [5; 6] 1 ex_big
    [None; None; Some 0; Some 0; Some 0; None; None; Some 0; Some 0; Some 0; None; None; None] (start [5; 6])) as [c|] eqn:E;
    [|vm_compute in E; discriminate E].
  exists c. assert (P : ph c = Raised) by (vm_compute in E; injection E as <-; reflexivity).
  split; [eapply exec_reachable; [constructor|exact E]|]. split; [apply final_stuck; right; exact P|exact P].
Qed.

(** Deadlock, first case: no workers (parallelism=0). *)
Theorem C39_no_workers_refuted : exists c,
  reachable ex_F ex_l 0 ex_big c /\ stuck ex_F ex_l 0 ex_big c /\ ~ final c.
Proof.
  exists (set_phase (start ex_l) (Feed 0)). split.
  - eapply r_step; [constructor|]. apply s_parent. apply (p_first_end _ _ _ 0); [reflexivity|lia].
  - split; [|intros [P|P]; discriminate P]. intros c' [j _ Hj _|S]; [lia|]. inversion S; cbn in *; try discriminate.
    injection H as <-. lia.
Qed.
Print Assumptions C39_no_workers_refuted.

(** Deadlock, second case: the call of the function returns what cannot be sent. *)
Definition gen_F (x : nat) : outcome nat := Unsendable.
Theorem C39_unsendable_refuted : exists c,
  reachable gen_F [5] 1 ex_big c /\ stuck gen_F [5] 1 ex_big c /\ ~ final c.
Proof.
  destruct (exec gen_F [5] 1 ex_big [None; None; Some 0; Some 0; Some 0; None; None] (start [5])) as [c|] eqn:E;
    [|vm_compute in E; discriminate E].
  exists c. split; [eapply exec_reachable; [constructor|exact E]|]. vm_compute in E. injection E as <-.
  split; [|intros [P|P]; discriminate P]. intros c' [j _ Hj S|S].
  - assert (j = 0) by lia. subst j. inversion S; cbn in *; discriminate.
  - inversion S; cbn in *; try discriminate; injection H as <-; discriminate.
Qed.
Print Assumptions C39_unsendable_refuted.
