(** Property C40: operations on the states of an engine. *)
From Verif Require Import Engine ListFacts P17_Parallel.
From Coq Require Import List Arith ZArith Lia Bool.
Import ListNotations.
Local Open Scope nat_scope.

(* ------------------------------------------------------------------ *)
(** ** Specification *)

(** The engine holds the states [l], in this order, all of them different objects. *)
Definition shows {St} (e : engine St) (l : list St) : Prop :=
  NoDup (e_refs e) /\ Forall2 (fun r s => nth_error (e_heap e) r = Some s) (e_refs e) l.

(** Python's index [s] into a list of length [n] means position [p]. *)
Definition means (n : nat) (s : Z) (p : nat) : Prop :=
  p < n /\ (s = Z.of_nat p \/ s = Z.of_nat p - Z.of_nat n)%Z.
(** The positions that a selection means: an empty one means all states. *)
Definition selects (n : nat) (statenos : list Z) (ps : list nat) : Prop :=
  (statenos = [] /\ ps = seq 0 n) \/ (statenos <> [] /\ Forall2 (means n) statenos ps).

(** [k] calls of a method, one after the other, whatever they return. *)
Fixpoint again {St A} (f : St -> St * res A) (k : nat) (s : St) : St :=
  match k with 0 => s | S k' => fst (f (again f k' s)) end.
Definition times (p : nat) (ps : list nat) : nat := count_occ Nat.eq_dec ps p.

(* ------------------------------------------------------------------ *)
(** ** The memory *)

Lemma shows_length {St} (e : engine St) l : shows e l -> length (e_refs e) = length l.
Proof. intros [_ H]. induction H; cbn; lia. Qed.
Lemma shows_nth {St} (e : engine St) l p s : shows e l -> nth_error l p = Some s ->
  nth_error (e_refs e) p = Some (nth p (e_refs e) 0) /\ nth_error (e_heap e) (nth p (e_refs e) 0) = Some s.
Proof.
  intros [_ H]. revert p. induction H as [|r x refs l Hr H IH]; intros [|p]; cbn; try discriminate.
  - intros E. injection E as <-. auto.
  - apply IH.
Qed.
Lemma nth_set_at {X} (l : list X) p x q : p < length l -> nth_error (set_at l p x) q = if q =? p then Some x else nth_error l q.
Proof.
  intros H. destruct (Nat.eqb_spec q p) as [->|]; [apply set_at_same; exact H|apply set_at_other; assumption].
Qed.
Lemma NoDup_nth_eq (l : list nat) p q r : NoDup l -> nth_error l p = Some r -> nth_error l q = Some r -> p = q.
Proof.
  intros N Hp Hq. apply (proj1 (NoDup_nth_error l) N); [|congruence].
  apply nth_error_Some. congruence.
Qed.
Lemma shows_iff {St} (e : engine St) l : shows e l <-> NoDup (e_refs e) /\ length (e_refs e) = length l /\
  forall p s, nth_error l p = Some s -> exists r, nth_error (e_refs e) p = Some r /\ nth_error (e_heap e) r = Some s.
Proof.
  split.
  - intros H. split; [apply H|]. split; [apply shows_length; exact H|]. intros p s E.
    destruct (shows_nth _ _ _ _ H E) as [A B]. eauto.
  - intros [N [L H]]. split; [exact N|]. clear N. revert l L H. induction (e_refs e) as [|r refs IH]; intros [|s l] L H; cbn in L; try lia; constructor.
    + destruct (H 0 s eq_refl) as [r' [E1 E2]]. cbn in E1. injection E1 as <-. exact E2.
    + apply IH; [lia|]. intros p s' E. exact (H (S p) s' E).
Qed.

(** A call changes one state. *)
Lemma call_shows {St A} (e : engine St) l p s (f : St -> St * res A) : shows e l -> nth_error l p = Some s ->
  exists h, call (e_heap e) (nth p (e_refs e) 0, f) = (h, snd (f s)) /\ length h = length (e_heap e) /\
    shows (Engine h (e_refs e)) (set_at l p (fst (f s))) /\ nth_error h (nth p (e_refs e) 0) = Some (fst (f s)).
Proof.
  intros H E. destruct (shows_nth _ _ _ _ H E) as [E1 E2]. unfold call. cbn [fst snd]. rewrite E2.
  destruct (f s) as [s' r]. cbn [fst snd]. exists (set_at (e_heap e) (nth p (e_refs e) 0) s').
  assert (Hr : nth p (e_refs e) 0 < length (e_heap e)) by (apply nth_error_Some; congruence).
  assert (Hp : p < length l) by (apply nth_error_Some; congruence).
  split; [reflexivity|]. split; [apply set_at_length|]. split; [|apply set_at_same; exact Hr].
  apply shows_iff. cbn [e_refs e_heap]. split; [apply H|]. split; [rewrite set_at_length; apply shows_length; exact H|].
  intros q x. rewrite nth_set_at by assumption. destruct (Nat.eqb_spec q p) as [->|Hne].
  - intros F. injection F as <-. exists (nth p (e_refs e) 0). split; [exact E1|apply set_at_same; exact Hr].
  - intros F. destruct (shows_nth _ _ _ _ H F) as [F1 F2]. exists (nth q (e_refs e) 0). split; [exact F1|].
    rewrite set_at_other; [exact F2|]. intros G. apply Hne. rewrite G in F1.
    eapply NoDup_nth_eq; [apply H|exact F1|exact E1].
Qed.

(* ------------------------------------------------------------------ *)
(** ** One call after the other *)

Section Ops.
  Context {St A : Type} (op : nat -> St -> St * res A).

  (** The outcome of the [i]-th call, when the calls before it were all made. *)
  Definition outcome (l : list St) (ps : list nat) (i : nat) (r : res A) : Prop :=
    exists p s, nth_error ps i = Some p /\ nth_error l p = Some s /\
      snd (op p (again (op p) (times p (firstn i ps)) s)) = r.
  (** The states after the first [m] calls. *)
  Definition after (l : list St) (ps : list nat) (m : nat) (l' : list St) : Prop :=
    length l' = length l /\
    forall p s, nth_error l p = Some s -> nth_error l' p = Some (again (op p) (times p (firstn m ps)) s).

  Lemma again_S (f : St -> St * res A) k s : again f (S k) s = again f k (fst (f s)).
  Proof. induction k as [|k IH]; [reflexivity|]. cbn [again] in *. rewrite IH. reflexivity. Qed.

  Lemma after_cons l p ps m s l' : nth_error l p = Some s -> after (set_at l p (fst (op p s))) ps m l' ->
    after l (p :: ps) (S m) l'.
  Proof.
    intros E [L H]. split; [rewrite set_at_length in L; exact L|]. intros q x Eq.
    assert (Hp : p < length l) by (apply nth_error_Some; congruence).
    cbn [firstn]. unfold times. cbn [count_occ]. destruct (Nat.eq_dec p q) as [<-|Hne].
    - rewrite Eq in E. injection E as <-. rewrite again_S. apply H. rewrite nth_set_at, Nat.eqb_refl by assumption. reflexivity.
    - apply H. rewrite nth_set_at by assumption. replace (q =? p) with false by (symmetry; apply Nat.eqb_neq; auto). exact Eq.
  Qed.
  Lemma outcome_cons l p ps i r s : nth_error l p = Some s -> outcome (set_at l p (fst (op p s))) ps i r ->
    outcome l (p :: ps) (S i) r.
  Proof.
    intros E [q [x [E1 [E2 E3]]]]. exists q.
    assert (Hp : p < length l) by (apply nth_error_Some; congruence).
    rewrite nth_set_at in E2 by assumption. unfold times in *. cbn [nth_error firstn count_occ].
    destruct (Nat.eqb_spec q p) as [->|Hne].
    - injection E2 as <-. exists s. split; [exact E1|]. split; [exact E|]. destruct (Nat.eq_dec p p); [|congruence].
      rewrite again_S. exact E3.
    - exists x. split; [exact E1|]. split; [exact E2|]. destruct (Nat.eq_dec p q); [congruence|]. exact E3.
  Qed.

  Lemma map_jobs_spec ps : forall e l, shows e l -> (forall p, In p ps -> p < length l) ->
    exists h l' m r, map_jobs (e_heap e) (args e op ps) = (h, r) /\ length h = length (e_heap e) /\
      shows (Engine h (e_refs e)) l' /\ after l ps m l' /\
      match r with
      | Ok rs => m = length ps /\ length rs = length ps /\ forall i a, nth_error rs i = Some a -> outcome l ps i (Ok a)
      | Err x => exists i, m = S i /\ outcome l ps i (Err x) /\ forall j, j < i -> exists a, outcome l ps j (Ok a)
      end.
  Proof.
    induction ps as [|p ps IH]; intros e l H Hps.
    - exists (e_heap e), l, 0, (Ok []). split; [reflexivity|]. split; [reflexivity|]. split; [destruct e; exact H|].
      split; [split; [reflexivity|]; intros p s E; exact E|]. split; [reflexivity|]. split; [reflexivity|].
      intros [|i] a; discriminate.
    - assert (Hp : p < length l) by (apply Hps; left; reflexivity).
      destruct (nth_error l p) as [s|] eqn:E; [|apply nth_error_None in E; lia].
      destruct (call_shows e l p s (op p) H E) as [h [C1 [C2 [C3 _]]]].
      cbn [args map map_jobs]. rewrite C1.
      assert (O0 : outcome l (p :: ps) 0 (snd (op p s))) by (exists p, s; auto).
      destruct (snd (op p s)) as [a|x] eqn:Er.
      + destruct (IH (Engine h (e_refs e)) _ C3) as [h' [l' [m [r [M1 [M2 [M3 [M4 M5]]]]]]]].
        { intros q Hq. rewrite set_at_length. apply Hps. right. exact Hq. }
        change (map (fun p0 => (nth p0 (e_refs e) 0, op p0)) ps) with (args (Engine h (e_refs e)) op ps).
        cbn [e_heap] in M1, M2. rewrite M1. exists h', l', (S m), (rbind r (fun l0 => Ok (a :: l0))). split; [reflexivity|].
        split; [lia|]. split; [exact M3|]. split; [eapply after_cons; eassumption|].
        destruct r as [rs|x]; cbn [rbind].
        * destruct M5 as [-> [N1 N2]]. split; [reflexivity|]. split; [cbn; lia|].
          intros [|i] b Hb; cbn in Hb; [injection Hb as <-; exact O0|]. eapply outcome_cons; [exact E|]. apply N2. exact Hb.
        * destruct M5 as [i [-> [N1 N2]]]. exists (S i). split; [reflexivity|]. split; [eapply outcome_cons; eassumption|].
          intros [|j] Hj; [eauto|]. destruct (N2 j) as [b Hb]; [lia|]. exists b. eapply outcome_cons; eassumption.
      + exists h, (set_at l p (fst (op p s))), 1, (Err x). split; [reflexivity|]. split; [exact C2|]. split; [exact C3|].
        split; [eapply after_cons; [exact E|]; split; [reflexivity|]; intros q y Eq; exact Eq|].
        exists 0. split; [reflexivity|]. split; [exact O0|]. intros j Hj. lia.
  Qed.

  (* ---------------------------------------------------------------- *)
  (** ** Parallel *)

  Context (asg : nat -> nat).

  (** How many of the first [i] items, done by worker [w], call position [p]. *)
  Definition times_by (w p : nat) (ps : list nat) (i : nat) : nat :=
    length (filter (fun j => (asg j =? w) && (nth j ps 0 =? p)) (seq 0 i)).

  Fixpoint count_by (w p : nat) (ps : list nat) (i : nat) : nat :=
    match ps with
    | [] => 0
    | q :: ps' => (if (asg i =? w) && (q =? p) then 1 else 0) + count_by w p ps' (i + 1)
    end.

  Lemma worker_spec ps w : forall i e l, shows e l -> (forall p, In p ps -> p < length l) ->
    exists l', shows (Engine (worker_heap asg w i (e_heap e) (args e op ps)) (e_refs e)) l' /\
      length (worker_heap asg w i (e_heap e) (args e op ps)) = length (e_heap e) /\ length l' = length l /\
      forall p s, nth_error l p = Some s -> nth_error l' p = Some (again (op p) (count_by w p ps i) s).
  Proof.
    induction ps as [|p ps IH]; intros i e l H Hps.
    - exists l. split; [destruct e; exact H|]. split; [reflexivity|]. split; [reflexivity|]. auto.
    - assert (Hp : p < length l) by (apply Hps; left; reflexivity).
      destruct (nth_error l p) as [s|] eqn:E; [|apply nth_error_None in E; lia].
      cbn [args map worker_heap count_by]. destruct (asg i =? w); cbn [andb].
      + destruct (call_shows e l p s (op p) H E) as [h [C1 [C2 [C3 _]]]]. rewrite C1. cbn [fst].
        destruct (IH (i + 1) (Engine h (e_refs e)) _ C3) as [l' [W1 [W2 [W3 W4]]]].
        { intros q Hq. rewrite set_at_length. apply Hps. right. exact Hq. }
        cbn [e_heap e_refs args] in *. exists l'. split; [exact W1|]. split; [etransitivity; [exact W2|exact C2]|]. split; [rewrite W3; apply set_at_length|].
        intros q x Eq. destruct (Nat.eqb_spec p q) as [<-|Hne].
        * rewrite Eq in E. injection E as <-. cbn [Nat.add]. rewrite again_S. apply W4. rewrite nth_set_at, Nat.eqb_refl by assumption. reflexivity.
        * apply W4. rewrite nth_set_at by assumption. replace (q =? p) with false by (symmetry; apply Nat.eqb_neq; auto). exact Eq.
      + destruct (IH (i + 1) e l H) as [l' [W1 [W2 [W3 W4]]]]; [intros q Hq; apply Hps; right; exact Hq|].
        exists l'. split; [exact W1|]. split; [exact W2|]. split; [exact W3|]. exact W4.
  Qed.

  Lemma count_by_app w p ps qs : forall i, count_by w p (ps ++ qs) i = count_by w p ps i + count_by w p qs (i + length ps).
  Proof.
    induction ps as [|q ps IH]; intros i; cbn [app count_by length].
    - replace (i + 0) with i by lia. reflexivity.
    - rewrite IH. replace (i + 1 + length ps) with (i + S (length ps)) by lia. lia.
  Qed.
  Lemma firstn_snoc {X} (l : list X) i x : nth_error l i = Some x -> firstn (S i) l = firstn i l ++ [x].
  Proof.
    revert i. induction l as [|y l IH]; intros [|i]; cbn; try discriminate.
    - intros E. injection E as <-. reflexivity.
    - intros E. f_equal. apply IH. exact E.
  Qed.
  Lemma count_by_times w p ps i : i <= length ps -> count_by w p (firstn i ps) 0 = times_by w p ps i.
  Proof.
    induction i as [|i IH]; intros H; [reflexivity|].
    destruct (nth_error ps i) as [q|] eqn:E; [|apply nth_error_None in E; lia].
    rewrite (firstn_snoc _ _ _ E), count_by_app, IH by lia. unfold times_by.
    rewrite seq_S, filter_app, app_length. cbn [filter length count_by Nat.add].
    rewrite firstn_length, Nat.min_l by lia. rewrite (nth_error_nth _ _ 0 E).
    destruct ((asg i =? w) && (q =? p)); reflexivity.
  Qed.

  Lemma sent_nth {B} (jobs : list (@job St B)) h : forall i before k j, nth_error jobs k = Some j ->
    nth_error (sent asg i h before jobs) k = Some (call (worker_heap asg (asg (i + k)) 0 h (before ++ firstn k jobs)) j).
  Proof.
    induction jobs as [|j0 jobs IH]; intros i before [|k] j; cbn [nth_error sent firstn]; try discriminate.
    - intros E. injection E as <-. replace (i + 0) with i by lia. rewrite app_nil_r. reflexivity.
    - intros E. rewrite (IH (i + 1) (before ++ [j0]) k j E). replace (i + 1 + k) with (i + S k) by lia.
      rewrite <- app_assoc. reflexivity.
  Qed.
  Lemma sent_length {B} (jobs : list (@job St B)) h : forall i before, length (sent asg i h before jobs) = length jobs.
  Proof. induction jobs as [|j jobs IH]; intros i before; cbn; [reflexivity|]. rewrite IH. reflexivity. Qed.

  (** What item [i] does: the call, and the state after it. *)
  Definition item (l : list St) (ps : list nat) (i : nat) (sr : St * res A) : Prop :=
    exists p s, nth_error ps i = Some p /\ nth_error l p = Some s /\
      sr = op p (again (op p) (times_by (asg i) p ps i) s).

  Lemma combine_nth_error {X Y} (l : list X) (l' : list Y) i x y :
    nth_error l i = Some x -> nth_error l' i = Some y -> nth_error (combine l l') i = Some (x, y).
  Proof.
    revert l' i. induction l as [|a l IH]; intros [|b l'] [|i]; cbn; try discriminate.
    - intros E F. injection E as ->. injection F as ->. reflexivity.
    - apply IH.
  Qed.
  Lemma nth_error_ext_eq {X} (l l' : list X) : length l = length l' ->
    (forall i x, nth_error l i = Some x -> nth_error l' i = Some x) -> l = l'.
  Proof.
    revert l'. induction l as [|a l IH]; intros [|b l'] L H; cbn in L; try lia; [reflexivity|].
    f_equal; [pose proof (H 0 a eq_refl) as E; cbn in E; congruence|]. apply IH; [lia|]. intros i x E. exact (H (S i) x E).
  Qed.
  Lemma rsequence_cases {X} (l : list (res X)) :
    match rsequence l with
    | Ok xs => length xs = length l /\ forall i x, nth_error xs i = Some x -> nth_error l i = Some (Ok x)
    | Err e => exists i, nth_error l i = Some (Err e)
    end.
  Proof.
    induction l as [|[x|e] l IH]; cbn [rsequence rbind].
    - split; [reflexivity|]. intros [|i]; discriminate.
    - destruct (rsequence l) as [xs|e]; cbn [rbind].
      + destruct IH as [L H]. split; [cbn; lia|]. intros [|i] y E; cbn in E |- *; [injection E as <-; reflexivity|apply H; exact E].
      + destruct IH as [i E]. exists (S i). exact E.
    - exists 0. reflexivity.
  Qed.

  Lemma parallel_spec ps e l : shows e l -> (forall p, In p ps -> p < length l) ->
    match parallel_jobs asg (e_heap e) (args e op ps) with
    | Ok out => length out = length ps /\ forall i s a, nth_error out i = Some (s, a) -> item l ps i (s, Ok a)
    | Err x => x = RuntimeError /\ exists i s y, item l ps i (s, Err y)
    end.
  Proof.
    intros H Hps. unfold parallel_jobs.
    match goal with |- context [rsequence (map ?g _)] => set (f := g) end.
    assert (Hl : length (args e op ps) = length ps) by apply map_length.
    assert (C : forall i y, nth_error (map f (combine (args e op ps) (sent asg 0 (e_heap e) [] (args e op ps)))) i = Some y ->
              exists sr, item l ps i sr /\ y = match snd sr with Ok a => Ok (fst sr, a) | Err _ => Err RuntimeError end).
    { intros i y E. assert (Hi : i < length ps).
      { assert (i < length (map f (combine (args e op ps) (sent asg 0 (e_heap e) [] (args e op ps))))) by (apply nth_error_Some; congruence).
        rewrite map_length, combine_length, sent_length, Hl in H0. lia. }
      destruct (nth_error ps i) as [p|] eqn:Ep; [|apply nth_error_None in Ep; lia].
      assert (Hp : p < length l) by (apply Hps; eapply nth_error_In; exact Ep).
      destruct (nth_error l p) as [s|] eqn:Es; [|apply nth_error_None in Es; lia].
      assert (Ej : nth_error (args e op ps) i = Some (nth p (e_refs e) 0, op p)).
      { unfold args. exact (map_nth_error (fun p => (nth p (e_refs e) 0, op p)) _ _ Ep). }
      rewrite (map_nth_error f _ _ (combine_nth_error _ _ _ _ _ Ej (sent_nth _ _ 0 [] _ _ Ej))) in E.
      injection E as <-. cbn [app Nat.add].
      assert (Ef : firstn i (args e op ps) = args e op (firstn i ps)) by (unfold args; rewrite firstn_map; reflexivity).
      rewrite Ef. destruct (worker_spec (firstn i ps) (asg i) 0 e l H) as [l' [W1 [W2 [W3 W4]]]].
      { intros q Hq. apply Hps. rewrite <- (firstn_skipn i ps). apply in_or_app. left. exact Hq. }
      pose proof (W4 p s Es) as W5. rewrite count_by_times in W5 by lia.
      destruct (call_shows _ _ p _ (op p) W1 W5) as [h [C1 [C2 [C3 C4]]]]. cbn [e_heap e_refs] in C1, C4.
      exists (op p (again (op p) (times_by (asg i) p ps i) s)). split; [exists p, s; auto|].
      unfold f. cbn [fst snd]. rewrite C1. cbn [fst snd]. rewrite C4.
      destruct (snd (op p (again (op p) (times_by (asg i) p ps i) s))); reflexivity. }
    pose proof (rsequence_cases (map f (combine (args e op ps) (sent asg 0 (e_heap e) [] (args e op ps))))) as R.
    destruct (rsequence _) as [out|x].
    - destruct R as [L R]. rewrite map_length, combine_length, sent_length, Hl in L. split; [lia|].
      intros i s a E. destruct (C i _ (R i _ E)) as [[s' r] [I1 I2]]. cbn [fst snd] in I2. destruct r as [b|y]; [|discriminate].
      injection I2 as -> ->. exact I1.
    - destruct R as [i E]. destruct (C i _ E) as [[s' r] [I1 I2]]. cbn [fst snd] in I2. destruct r as [b|y]; [discriminate|].
      split; [reflexivity|]. exists i, s', y. exact I1.
  Qed.
End Ops.

(* ------------------------------------------------------------------ *)
(** ** The selection *)

Lemma position_spec n s : match position n s with Ok p => means n s p | Err x => x = IndexError /\ forall p, ~ means n s p end.
Proof.
  unfold position, means. destruct (Z.ltb_spec s 0) as [H|H].
  - destruct (Z.leb_spec 0 (s + Z.of_nat n)); destruct (Z.ltb_spec (s + Z.of_nat n) (Z.of_nat n)); cbn [andb]; try lia;
      try (split; [reflexivity|]; intros; lia).
  - destruct (Z.leb_spec 0 s); destruct (Z.ltb_spec s (Z.of_nat n)); cbn [andb]; try lia;
      try (split; [reflexivity|]; intros; lia).
Qed.
Lemma means_unique n s p q : means n s p -> means n s q -> p = q.
Proof. unfold means. lia. Qed.
Lemma positions_seq n : rsequence (map (position n) (map Z.of_nat (seq 0 n))) = Ok (seq 0 n).
Proof.
  assert (H : forall k m, k + m <= n -> rsequence (map (position n) (map Z.of_nat (seq k m))) = Ok (seq k m)).
  { intros k m. revert k. induction m as [|m IH]; intros k Hk; [reflexivity|]. cbn [seq map rsequence].
    rewrite IH by lia. unfold position. destruct (Z.ltb_spec (Z.of_nat k) 0); [lia|].
    destruct (Z.leb_spec 0 (Z.of_nat k)); [|lia]. destruct (Z.ltb_spec (Z.of_nat k) (Z.of_nat n)); [|lia]. cbn [andb rbind].
    rewrite Nat2Z.id. reflexivity. }
  apply H. lia.
Qed.
Lemma Forall2_nth {X Y} (R : X -> Y -> Prop) l l' : length l' = length l ->
  (forall i x y, nth_error l i = Some x -> nth_error l' i = Some y -> R x y) -> Forall2 R l l'.
Proof.
  revert l'. induction l as [|a l IH]; intros [|b l'] L H; cbn in L; try lia; constructor.
  - exact (H 0 a b eq_refl eq_refl).
  - apply IH; [lia|]. intros i x y. exact (H (S i) x y).
Qed.
Lemma positions_spec {St} (e : engine St) statenos :
  match positions e statenos with
  | Ok ps => selects (num_states e) statenos ps
  | Err x => x = IndexError /\ exists s, In s statenos /\ forall p, ~ means (num_states e) s p
  end.
Proof.
  unfold positions, selects. destruct statenos as [|s0 ss]; cbn [selection].
  - rewrite positions_seq. left. auto.
  - pose proof (rsequence_cases (map (position (num_states e)) (s0 :: ss))) as R.
    destruct (rsequence _) as [ps|x].
    + right. split; [discriminate|]. destruct R as [L R]. rewrite map_length in L.
      apply Forall2_nth; [exact L|]. intros i s p Es Ep. specialize (R i p Ep).
      rewrite (map_nth_error _ _ _ Es) in R. injection R as R. pose proof (position_spec (num_states e) s) as P. rewrite R in P. exact P.
    + destruct R as [i E]. rewrite nth_error_map in E. destruct (nth_error (s0 :: ss) i) as [s|] eqn:Es; cbn in E; [|discriminate].
      injection E as E. pose proof (position_spec (num_states e) s) as P. rewrite E in P. destruct P as [-> P]. split; [reflexivity|].
      exists s. split; [eapply nth_error_In; exact Es|exact P].
Qed.
Lemma selects_unique n statenos ps ps' : selects n statenos ps -> selects n statenos ps' -> ps = ps'.
Proof.
  intros [[A B]|[A B]] [[C D]|[C D]]; try congruence. clear A C. revert ps' D.
  induction B as [|s p ss ps H B IH]; intros ps' D; inversion D; subst; [reflexivity|]. f_equal; [eapply means_unique; eassumption|auto].
Qed.
Lemma positions_ok {St} (e : engine St) statenos ps : selects (num_states e) statenos ps -> positions e statenos = Ok ps.
Proof.
  intros H. pose proof (positions_spec e statenos) as P. destruct (positions e statenos) as [qs|x].
  - f_equal. eapply selects_unique; eassumption.
  - exfalso. destruct P as [_ [s [Hs P]]]. destruct H as [[-> _]|[_ H]]; [destruct Hs|].
    clear - H Hs P. induction H as [|s' p ss ps M H IH]; [destruct Hs|]. destruct Hs as [->|Hs]; [exact (P p M)|auto].
Qed.
Lemma selects_bound n statenos ps p : selects n statenos ps -> In p ps -> p < n.
Proof.
  intros [[_ ->]|[_ H]] Hp; [apply in_seq in Hp; lia|]. induction H as [|s q ss qs M H IH]; [destruct Hp|].
  destruct Hp as [->|Hp]; [apply M|auto].
Qed.

(** [i] is the last place of [p] in the selection. *)
Definition last_at (ps : list nat) (p i : nat) : Prop :=
  nth_error ps i = Some p /\ forall j, i < j -> nth_error ps j <> Some p.
Lemma last_at_exists ps p : In p ps -> exists i, last_at ps p i.
Proof.
  induction ps as [|q ps IH]; [intros []|]. intros H. destruct (in_dec Nat.eq_dec p ps) as [Hin|Hn].
  - destruct (IH Hin) as [i [H1 H2]]. exists (S i). split; [exact H1|]. intros [|j] Hj; [lia|]. apply H2. lia.
  - destruct H as [->|H]; [|contradiction]. exists 0. split; [reflexivity|]. intros [|j] Hj; [lia|]. cbn. intros E.
    apply Hn. eapply nth_error_In. exact E.
Qed.
Lemma assign_length ps : forall refs new, length (assign refs ps new) = length refs.
Proof.
  unfold assign. induction ps as [|p ps IH]; intros refs [|r new]; cbn; try reflexivity. rewrite IH. apply set_at_length.
Qed.
Lemma assign_out ps p : forall refs new, ~ In p ps -> nth_error (assign refs ps new) p = nth_error refs p.
Proof.
  unfold assign. induction ps as [|q ps IH]; intros refs [|r new] H; cbn [combine fold_left]; try reflexivity. cbn in H.
  cbn [fst snd]. rewrite IH by tauto. rewrite set_at_other; [reflexivity|]. intros ->. tauto.
Qed.
Lemma assign_in ps p : forall refs new i, (forall q, In q ps -> q < length refs) -> length new = length ps ->
  last_at ps p i -> nth_error (assign refs ps new) p = nth_error new i.
Proof.
  induction ps as [|q ps IH]; intros refs [|r new] i Hb L [H1 H2]; cbn in L; try lia; [destruct i; discriminate|].
  unfold assign. cbn [combine fold_left fst snd]. destruct i as [|i]; cbn in H1.
  - injection H1 as ->. change (nth_error (assign (set_at refs p r) ps new) p = nth_error (r :: new) 0). rewrite assign_out.
    + apply set_at_same. apply Hb. left. reflexivity.
    + intros Hin. apply In_nth_error in Hin. destruct Hin as [j Hj]. exact (H2 (S j) ltac:(lia) Hj).
  - change (nth_error (assign (set_at refs q r) ps new) p = nth_error new i). apply IH; [|lia|].
    + intros x Hx. rewrite set_at_length. apply Hb. right. exact Hx.
    + split; [exact H1|]. intros j Hj. exact (H2 (S j) ltac:(lia)).
Qed.
Lemma assign_same ps : forall refs, (forall q, In q ps -> q < length refs) -> assign refs ps (map (fun p => nth p refs 0) ps) = refs.
Proof.
  intros refs H. symmetry. apply nth_error_ext_eq; [symmetry; apply assign_length|]. intros p r E.
  destruct (in_dec Nat.eq_dec p ps) as [Hin|Hn]; [|rewrite assign_out; assumption].
  destruct (last_at_exists ps p Hin) as [i Hi]. rewrite (assign_in ps p refs _ i H); [|apply map_length|exact Hi].
  rewrite (map_nth_error _ _ _ (proj1 Hi)). f_equal. apply nth_error_nth. exact E.
Qed.
Lemma nth_error_seq n m i r : nth_error (seq n m) i = Some r <-> i < m /\ r = n + i.
Proof.
  split.
  - intros E. assert (Hi : i < m). { replace m with (length (seq n m)) by apply seq_length. apply nth_error_Some. congruence. }
    split; [exact Hi|]. apply (nth_error_nth _ _ 0) in E. rewrite seq_nth in E by exact Hi. auto.
  - intros [Hi ->]. rewrite (nth_error_nth' _ 0) by (rewrite seq_length; exact Hi). rewrite seq_nth by exact Hi. reflexivity.
Qed.
Lemma assign_fresh refs ps n : NoDup refs -> (forall r, In r refs -> r < n) -> (forall q, In q ps -> q < length refs) ->
  NoDup (assign refs ps (seq n (length ps))).
Proof.
  intros N B Hb. apply NoDup_nth_error. intros p q Hp E. rewrite assign_length in Hp.
  assert (C : forall x y, nth_error (assign refs ps (seq n (length ps))) x = Some y ->
    (~ In x ps /\ nth_error refs x = Some y) \/ exists i, last_at ps x i /\ y = n + i).
  { intros x y Ex. destruct (in_dec Nat.eq_dec x ps) as [Hin|Hn].
    - right. destruct (last_at_exists ps x Hin) as [i Hi]. exists i. split; [exact Hi|].
      rewrite (assign_in ps x refs _ i Hb) in Ex; [|apply seq_length|exact Hi]. apply nth_error_seq in Ex. apply Ex.
    - left. split; [exact Hn|]. rewrite assign_out in Ex by exact Hn. exact Ex. }
  destruct (nth_error (assign refs ps (seq n (length ps))) p) as [r|] eqn:Er.
  - symmetry in E. destruct (C p r Er) as [[Np Hr]|[i [Hi Hr]]]; destruct (C q r E) as [[Nq Hq]|[j [Hj Hq]]].
    + eapply NoDup_nth_eq; eassumption.
    + apply nth_error_In in Hr. specialize (B _ Hr). lia.
    + apply nth_error_In in Hq. specialize (B _ Hq). lia.
    + assert (i = j) by lia. subst j. destruct Hi as [Hi _], Hj as [Hj _]. congruence.
  - apply nth_error_None in Er. rewrite assign_length in Er. lia.
Qed.
Lemma shows_bound {St} (e : engine St) l r : shows e l -> In r (e_refs e) -> r < length (e_heap e).
Proof.
  intros [_ H] Hr. induction H as [|r' s refs l E H IH]; [destruct Hr|]. destruct Hr as [->|Hr]; [|auto].
  apply nth_error_Some. congruence.
Qed.

Lemma shows_make {St} (h : list St) refs : NoDup refs -> (forall r, In r refs -> r < length h) ->
  exists l, shows (Engine h refs) l.
Proof.
  intros N B. unfold shows. cbn [e_refs e_heap]. assert (exists l, Forall2 (fun r s => nth_error h r = Some s) refs l) as [l Hl].
  { clear N. induction refs as [|r refs IH]; [exists []; constructor|]. destruct IH as [l Hl]; [intros; apply B; right; assumption|].
    destruct (nth_error h r) as [s|] eqn:E; [|apply nth_error_None in E; specialize (B r (or_introl eq_refl)); lia].
    exists (s :: l). constructor; assumption. }
  exists l. auto.
Qed.

(* ------------------------------------------------------------------ *)
(** ** C40: what an operation on selected states does *)

(** With [map]: one call after the other, up to the first that raises. *)
Theorem C40_map {St A} (op : nat -> St -> St * res A) e l statenos ps :
  shows e l -> selects (length l) statenos ps ->
  exists e' r l' m, modify_selected Map op statenos e = (e', r) /\ shows e' l' /\ after op l ps m l' /\
    match r with
    | Ok _ => m = length ps /\ forall i, i < length ps -> exists a, outcome op l ps i (Ok a)
    | Err x => exists i, m = S i /\ outcome op l ps i (Err x) /\ forall j, j < i -> exists a, outcome op l ps j (Ok a)
    end.
Proof.
  intros H Hs. pose proof (shows_length _ _ H) as L.
  assert (Hb : forall p, In p ps -> p < length l) by (intros p; apply (selects_bound _ _ _ _ Hs)).
  unfold modify_selected. rewrite (positions_ok e statenos ps) by (unfold num_states; rewrite L; exact Hs).
  destruct (map_jobs_spec op ps e l H Hb) as [h [l' [m [r [M1 [M2 [M3 [M4 M5]]]]]]]]. rewrite M1.
  destruct r as [rs|x].
  - destruct M5 as [-> [N1 N2]]. eexists _, _, l', (length ps). split; [reflexivity|]. split; [|split; [exact M4|]].
    + unfold args. rewrite map_map. cbn [fst]. rewrite assign_same; [exact M3|]. intros q Hq. rewrite L. apply Hb. exact Hq.
    + split; [reflexivity|]. intros i Hi. destruct (nth_error rs i) as [a|] eqn:E; [|apply nth_error_None in E; lia]. eauto.
  - eexists _, _, l', m. split; [reflexivity|]. split; [exact M3|]. split; [exact M4|]. exact M5.
Qed.

(** With parallel_map: all of the selected states are replaced, or none. *)
Theorem C40_parallel {St A} (op : nat -> St -> St * res A) asg e l statenos ps :
  shows e l -> selects (length l) statenos ps ->
  exists e' r, modify_selected (Parallel asg) op statenos e = (e', r) /\
    match r with
    | Ok _ => exists l', shows e' l' /\ length l' = length l /\
        (forall i, i < length ps -> exists s a, item op asg l ps i (s, Ok a)) /\
        (forall p s, nth_error l p = Some s -> ~ In p ps -> nth_error l' p = Some s) /\
        (forall p s i, nth_error l p = Some s -> last_at ps p i ->
           nth_error l' p = Some (again (op p) (1 + times_by asg (asg i) p ps i) s))
    | Err x => e' = e /\ x = RuntimeError /\ exists i s y, item op asg l ps i (s, Err y)
    end.
Proof.
  intros H Hs. pose proof (shows_length _ _ H) as L.
  assert (Hb : forall p, In p ps -> p < length l) by (intros p; apply (selects_bound _ _ _ _ Hs)).
  unfold modify_selected. rewrite (positions_ok e statenos ps) by (unfold num_states; rewrite L; exact Hs).
  pose proof (parallel_spec op asg ps e l H Hb) as P. destruct (parallel_jobs asg (e_heap e) (args e op ps)) as [out|x].
  2: { eexists _, _. split; [reflexivity|]. destruct P as [-> P]. auto. }
  destruct P as [P1 P2]. eexists _, _. split; [reflexivity|].
  assert (Hb' : forall q, In q ps -> q < length (e_refs e)) by (intros q Hq; rewrite L; auto).
  set (h' := e_heap e ++ map fst out). set (refs' := assign (e_refs e) ps (seq (length (e_heap e)) (length out))).
  assert (N' : NoDup refs').
  { unfold refs'. rewrite P1. apply assign_fresh; [apply H|intros r; apply (shows_bound _ _ _ H)|exact Hb']. }
  assert (R1 : forall p, ~ In p ps -> nth_error refs' p = nth_error (e_refs e) p) by (intros p; apply assign_out).
  assert (R2 : forall p i, last_at ps p i -> nth_error refs' p = Some (length (e_heap e) + i)).
  { intros p i Hi. unfold refs'. rewrite (assign_in ps p _ _ i Hb'); [|rewrite seq_length; exact P1|exact Hi].
    apply nth_error_seq. split; [|reflexivity]. rewrite P1. apply nth_error_Some. rewrite (proj1 Hi). discriminate. }
  destruct (shows_make h' refs' N') as [l' Hl'].
  { intros r Hr. unfold h'. rewrite app_length, map_length. apply In_nth_error in Hr. destruct Hr as [p Hp].
    destruct (in_dec Nat.eq_dec p ps) as [Hin|Hn].
    - destruct (last_at_exists ps p Hin) as [i Hi]. rewrite (R2 p i Hi) in Hp. injection Hp as <-.
      assert (i < length ps) by (apply nth_error_Some; rewrite (proj1 Hi); discriminate). lia.
    - rewrite R1 in Hp by exact Hn. apply nth_error_In in Hp. pose proof (shows_bound _ _ _ H Hp). lia. }
  assert (G : forall p r s, nth_error refs' p = Some r -> nth_error h' r = Some s -> nth_error l' p = Some s).
  { intros p r s Ep Es. destruct (nth_error l' p) as [x|] eqn:Ex.
    - destruct (shows_nth _ _ _ _ Hl' Ex) as [F1 F2]. cbn [e_refs e_heap] in F1, F2. rewrite Ep in F1. injection F1 as F1.
      rewrite <- F1 in F2. congruence.
    - apply nth_error_None in Ex. rewrite <- (shows_length _ _ Hl') in Ex. cbn [e_refs] in Ex.
      apply nth_error_None in Ex. congruence. }
  exists l'. split; [exact Hl'|]. split; [|split; [|split]].
  - rewrite <- (shows_length _ _ Hl'). cbn [e_refs]. unfold refs'. rewrite assign_length. exact L.
  - intros i Hi. destruct (nth_error out i) as [[s a]|] eqn:E; [|apply nth_error_None in E; lia]. exists s, a. apply P2. exact E.
  - intros p s Ep Hn. destruct (shows_nth _ _ _ _ H Ep) as [F1 F2]. eapply G; [rewrite R1 by exact Hn; exact F1|].
    unfold h'. rewrite nth_error_app1; [exact F2|]. apply nth_error_Some. congruence.
  - intros p s i Ep Hi. assert (Hi' : i < length ps) by (apply nth_error_Some; rewrite (proj1 Hi); discriminate).
    destruct (nth_error out i) as [[s' a]|] eqn:E; [|apply nth_error_None in E; lia].
    destruct (P2 i s' a E) as [q [x [Q1 [Q2 Q3]]]]. rewrite (proj1 Hi) in Q1. injection Q1 as <-. rewrite Ep in Q2. injection Q2 as <-.
    eapply G; [apply R2; exact Hi|]. unfold h'. rewrite nth_error_app2 by lia.
    replace (length (e_heap e) + i - length (e_heap e)) with i by lia. rewrite (map_nth_error fst _ _ E). cbn [fst].
    cbn [Nat.add again]. rewrite <- Q3. reflexivity.
Qed.

(* ------------------------------------------------------------------ *)
(** ** Selections without repetition: exactly the selected states, each as if on its own *)

Lemma times_nodup p ps i q : NoDup ps -> nth_error ps i = Some p -> q = p -> times q (firstn i ps) = 0.
Proof.
  intros N E ->. apply count_occ_not_In. intros Hin. rewrite <- (firstn_skipn i ps) in N.
  apply NoDup_remove_2 with (l := firstn i ps) (l' := skipn (S i) ps) (a := p).
  - rewrite <- (firstn_skipn i ps) in E. clear Hin. revert N.
    replace (skipn i ps) with (p :: skipn (S i) ps); [auto|]. rewrite firstn_skipn in E. revert ps E.
    induction i as [|i IH]; intros [|x ps] E; cbn in E |- *; try discriminate; [injection E as ->; reflexivity|]. rewrite <- (IH ps E). reflexivity.
  - apply in_or_app. left. exact Hin.
Qed.
Lemma times_by_le asg w p ps i : i <= length ps -> times_by asg w p ps i <= times p (firstn i ps).
Proof.
  induction i as [|i IH]; intros Hi; [apply le_n|]. destruct (nth_error ps i) as [q|] eqn:E; [|apply nth_error_None in E; lia].
  rewrite (firstn_snoc _ _ _ E). unfold times_by, times in *. rewrite seq_S, filter_app, app_length, count_occ_app. cbn [filter length count_occ Nat.add].
  rewrite (nth_error_nth _ _ 0 E). specialize (IH ltac:(lia)). destruct (Nat.eq_dec q p) as [->|Hne].
  - destruct ((asg i =? w) && (p =? p)); cbn; lia.
  - replace (q =? p) with false by (symmetry; apply Nat.eqb_neq; exact Hne). rewrite andb_false_r. cbn. lia.
Qed.
Lemma last_lt ps p i : last_at ps p i -> i < length ps.
Proof. intros [H _]. apply nth_error_Some. congruence. Qed.
Lemma times_one p ps : NoDup ps -> In p ps -> times p ps = 1.
Proof. intros N H. apply NoDup_count_occ'; assumption. Qed.
Lemma after_selected {St A} (op : nat -> St -> St * res A) l ps l' : NoDup ps -> after op l ps (length ps) l' ->
  forall p s, nth_error l p = Some s -> nth_error l' p = Some (if in_dec Nat.eq_dec p ps then fst (op p s) else s).
Proof.
  intros N [_ H] p s E. rewrite (H p s E), firstn_all. destruct (in_dec Nat.eq_dec p ps) as [Hin|Hn].
  - rewrite times_one by assumption. reflexivity.
  - unfold times. rewrite (proj1 (count_occ_not_In Nat.eq_dec ps p) Hn). reflexivity.
Qed.

(** Every call returns: exactly the selected states are replaced, each by what the call
    makes of it; number and order of the states stay. *)
Theorem C40_selected {St A} (m : mapper) (op : nat -> St -> St * res A) e l statenos ps :
  shows e l -> selects (length l) statenos ps -> NoDup ps ->
  (forall p s, In p ps -> nth_error l p = Some s -> exists a, snd (op p s) = Ok a) ->
  exists e' l', modify_selected m op statenos e = (e', Ok tt) /\ shows e' l' /\ length l' = length l /\
    forall p s, nth_error l p = Some s -> nth_error l' p = Some (if in_dec Nat.eq_dec p ps then fst (op p s) else s).
Proof.
  intros H Hs N Hok. destruct m as [|asg].
  - destruct (C40_map op e l statenos ps H Hs) as [e' [r [l' [m [E [S' [Af R]]]]]]]. exists e', l'. destruct r as [[]|x].
    + split; [exact E|]. split; [exact S'|]. split; [apply Af|]. destruct R as [-> _]. apply after_selected; assumption.
    + exfalso. destruct R as [i [_ [[p [s [E1 [E2 E3]]]] _]]]. rewrite (times_nodup p ps i p N E1 eq_refl) in E3.
      destruct (Hok p s (nth_error_In _ _ E1) E2) as [a Ha]. cbn [again] in E3. congruence.
  - destruct (C40_parallel op asg e l statenos ps H Hs) as [e' [r [E R]]]. destruct r as [[]|x].
    + destruct R as [l' [S' [L' [_ [R1 R2]]]]]. exists e', l'. split; [exact E|]. split; [exact S'|]. split; [exact L'|].
      intros p s Ep. destruct (in_dec Nat.eq_dec p ps) as [Hin|Hn]; [|apply R1; assumption].
      destruct (last_at_exists ps p Hin) as [i Hi]. rewrite (R2 p s i Ep Hi). pose proof (last_lt _ _ _ Hi).
      pose proof (times_by_le asg (asg i) p ps i ltac:(lia)) as T. rewrite (times_nodup p ps i p N (proj1 Hi) eq_refl) in T.
      replace (times_by asg (asg i) p ps i) with 0 by lia. reflexivity.
    + exfalso. destruct R as [_ [_ [i [s [y [p [s0 [E1 [E2 E3]]]]]]]]]. assert (i < length ps) by (apply nth_error_Some; congruence).
      pose proof (times_by_le asg (asg i) p ps i ltac:(lia)) as T. rewrite (times_nodup p ps i p N E1 eq_refl) in T.
      replace (times_by asg (asg i) p ps i) with 0 in E3 by lia. cbn [again] in E3.
      destruct (Hok p s0 (nth_error_In _ _ E1) E2) as [a Ha]. rewrite <- E3 in Ha. discriminate.
Qed.

(** Some call raises.  In parallel nothing changes and the error is a RuntimeError;
    otherwise the states up to the first failing call are changed, that one included, and
    the error is its own. *)
Theorem C40_raises_parallel {St A} asg (op : nat -> St -> St * res A) e l statenos ps p s x :
  shows e l -> selects (length l) statenos ps -> NoDup ps -> In p ps -> nth_error l p = Some s -> snd (op p s) = Err x ->
  modify_selected (Parallel asg) op statenos e = (e, Err RuntimeError).
Proof.
  intros H Hs N Hin Ep Er. destruct (C40_parallel op asg e l statenos ps H Hs) as [e' [r [E R]]]. rewrite E. destruct r as [u|y].
  - exfalso. destruct R as [_ [_ [_ [R _]]]]. apply In_nth_error in Hin. destruct Hin as [i Hi].
    assert (Hi' : i < length ps) by (apply nth_error_Some; congruence).
    destruct (R i Hi') as [s' [a [q [s0 [E1 [E2 E3]]]]]]. rewrite Hi in E1. injection E1 as <-. rewrite Ep in E2. injection E2 as <-.
    pose proof (times_by_le asg (asg i) p ps i ltac:(lia)) as T. rewrite (times_nodup p ps i p N Hi eq_refl) in T.
    replace (times_by asg (asg i) p ps i) with 0 in E3 by lia. cbn [again] in E3. rewrite <- E3 in Er. discriminate.
  - destruct R as [-> [-> _]]. reflexivity.
Qed.
Theorem C40_raises_map {St A} (op : nat -> St -> St * res A) e l statenos ps qs p rest s x :
  shows e l -> selects (length l) statenos ps -> NoDup ps -> ps = qs ++ p :: rest ->
  (forall q s, In q qs -> nth_error l q = Some s -> exists a, snd (op q s) = Ok a) ->
  nth_error l p = Some s -> snd (op p s) = Err x ->
  exists e' l', modify_selected Map op statenos e = (e', Err x) /\ shows e' l' /\ length l' = length l /\
    forall q s, nth_error l q = Some s ->
      nth_error l' q = Some (if in_dec Nat.eq_dec q (qs ++ [p]) then fst (op q s) else s).
Proof.
  intros H Hs N -> Hq Ep Er. destruct (C40_map op e l statenos _ H Hs) as [e' [r [l' [m [E [S' [Af R]]]]]]].
  assert (Np : nth_error (qs ++ p :: rest) (length qs) = Some p) by (rewrite nth_error_app2, Nat.sub_diag by lia; reflexivity).
  assert (O : outcome op l (qs ++ p :: rest) (length qs) (Err x)).
  { exists p, s. split; [exact Np|]. split; [exact Ep|]. rewrite (times_nodup p _ _ p N Np eq_refl). exact Er. }
  assert (D : forall i a b, outcome op l (qs ++ p :: rest) i a -> outcome op l (qs ++ p :: rest) i b -> a = b).
  { intros i a b [p1 [s1 [A1 [A2 A3]]]] [p2 [s2 [B1 [B2 B3]]]]. rewrite A1 in B1. injection B1 as <-. rewrite A2 in B2. injection B2 as <-. congruence. }
  destruct r as [u|y].
  { exfalso. destruct R as [_ R]. destruct (R (length qs)) as [a Ha]; [rewrite app_length; cbn; lia|]. specialize (D _ _ _ O Ha). discriminate. }
  destruct R as [i [-> [Oi R]]].
  assert (i = length qs) as ->.
  { destruct (Nat.lt_trichotomy i (length qs)) as [Hlt|[Heq|Hgt]]; [exfalso|exact Heq|exfalso].
    - destruct Oi as [q [s1 [A1 [A2 A3]]]]. rewrite (times_nodup q _ _ q N A1 eq_refl) in A3. cbn [again] in A3.
      rewrite nth_error_app1 in A1 by exact Hlt. destruct (Hq q s1 (nth_error_In _ _ A1) A2) as [a Ha]. congruence.
    - destruct (R _ Hgt) as [a Ha]. specialize (D _ _ _ O Ha). discriminate. }
  specialize (D _ _ _ O Oi). injection D as <-. exists e', l'. split; [exact E|]. split; [exact S'|]. split; [apply Af|].
  assert (F : firstn (S (length qs)) (qs ++ p :: rest) = qs ++ [p]).
  { rewrite (firstn_snoc _ _ _ Np), firstn_app, firstn_all, Nat.sub_diag. cbn. rewrite app_nil_r. reflexivity. }
  assert (N1 : NoDup (qs ++ [p])).
  { replace (qs ++ p :: rest) with ((qs ++ [p]) ++ rest) in N by (rewrite <- app_assoc; reflexivity). apply NoDup_app_elim in N. apply N. }
  intros q s1 Eq. destruct Af as [_ Af]. rewrite (Af q s1 Eq), F. destruct (in_dec Nat.eq_dec q (qs ++ [p])) as [Hin|Hn].
  - rewrite times_one by assumption. reflexivity.
  - unfold times. rewrite (proj1 (count_occ_not_In Nat.eq_dec (qs ++ [p]) q) Hn). reflexivity.
Qed.

(** An index outside the list of states: nothing happens. *)
Theorem C40_index {St A} (m : mapper) (op : nat -> St -> St * res A) (e : engine St) l statenos s : shows e l ->
  In s statenos -> (forall p, ~ means (length l) s p) -> modify_selected m op statenos e = (e, Err IndexError).
Proof.
  intros H Hin Hn. unfold modify_selected. pose proof (positions_spec e statenos) as P. destruct (positions e statenos) as [ps|x].
  - exfalso. unfold num_states in P. rewrite (shows_length _ _ H) in P. destruct P as [[-> _]|[_ P]]; [destruct Hin|].
    induction P as [|s' p ss ps M P IH]; [destruct Hin|]. destruct Hin as [->|Hin]; [exact (Hn p M)|auto].
  - destruct P as [-> _]. reflexivity.
Qed.

(* ------------------------------------------------------------------ *)
(** ** Selections with repetitions *)

(** With [map] a state selected [k] times gets the operation [k] times. *)
Theorem C40_repeated_map {St A} (op : nat -> St -> St * res A) e l statenos ps :
  shows e l -> selects (length l) statenos ps -> (forall p s, exists a, snd (op p s) = Ok a) ->
  exists e' l', modify_selected Map op statenos e = (e', Ok tt) /\ shows e' l' /\ length l' = length l /\
    forall p s, nth_error l p = Some s -> nth_error l' p = Some (again (op p) (times p ps) s).
Proof.
  intros H Hs Hok. destruct (C40_map op e l statenos ps H Hs) as [e' [r [l' [m [E [S' [Af R]]]]]]]. exists e', l'. destruct r as [[]|x].
  - split; [exact E|]. split; [exact S'|]. split; [apply Af|]. destruct R as [-> _]. intros p s Ep.
    destruct Af as [_ Af]. rewrite (Af p s Ep), firstn_all. reflexivity.
  - exfalso. destruct R as [i [_ [[p [s [E1 [E2 E3]]]] _]]].
    destruct (Hok p (again (op p) (times p (firstn i ps)) s)) as [a Ha]. congruence.
Qed.
(** In parallel it gets it at least once and at most [k] times: as often as the worker of
    its last place in the selection made the call. *)
Theorem C40_repeated_parallel {St A} asg (op : nat -> St -> St * res A) e l statenos ps :
  shows e l -> selects (length l) statenos ps -> (forall p s, exists a, snd (op p s) = Ok a) ->
  exists e' l', modify_selected (Parallel asg) op statenos e = (e', Ok tt) /\ shows e' l' /\ length l' = length l /\
    forall p s, nth_error l p = Some s ->
      (~ In p ps -> nth_error l' p = Some s) /\
      (In p ps -> exists k, 1 <= k <= times p ps /\ nth_error l' p = Some (again (op p) k s)).
Proof.
  intros H Hs Hok. destruct (C40_parallel op asg e l statenos ps H Hs) as [e' [r [E R]]]. destruct r as [[]|x].
  - destruct R as [l' [S' [L' [_ [R1 R2]]]]]. exists e', l'. split; [exact E|]. split; [exact S'|]. split; [exact L'|].
    intros p s Ep. split; [apply R1; exact Ep|]. intros Hin. destruct (last_at_exists ps p Hin) as [i Hi].
    exists (1 + times_by asg (asg i) p ps i). split; [|apply R2; assumption]. split; [lia|].
    pose proof (last_lt _ _ _ Hi) as Hlt. pose proof (times_by_le asg (asg i) p ps i ltac:(lia)) as T.
    assert (times p ps = times p (firstn i ps) + times p (skipn i ps)) as ->.
    { unfold times. rewrite <- count_occ_app, firstn_skipn. reflexivity. }
    assert (1 <= times p (skipn i ps)); [|lia]. apply count_occ_In. destruct Hi as [Hi _]. clear - Hi. revert ps Hi.
    induction i as [|i IH]; intros [|x ps] Hi; cbn in Hi |- *; try discriminate; [injection Hi as ->; left; reflexivity|]. apply IH. exact Hi.
  - exfalso. destruct R as [_ [_ [i [s [y [p [s0 [E1 [E2 E3]]]]]]]]].
    destruct (Hok p (again (op p) (times_by asg (asg i) p ps i) s0)) as [a Ha]. rewrite <- E3 in Ha. discriminate.
Qed.

(** The claim fails for repeated selections: what becomes of the state depends on which
    worker is given which item. *)
Definition bump (p : nat) (s : nat) : nat * res unit := (s + 1, Ok tt).
Definition one_state : engine nat := Engine [0] [0].
Theorem C40_repeated_refuted : exists asg asg' e l e1 l1 e2 l2,
  shows e l /\
  modify_selected (Parallel asg) bump [0; 0]%Z e = (e1, Ok tt) /\ shows e1 l1 /\
  modify_selected (Parallel asg') bump [0; 0]%Z e = (e2, Ok tt) /\ shows e2 l2 /\
  l1 <> l2.
Proof.
  exists (fun _ => 0), (fun i => i), one_state, [0], (Engine [0; 1; 2] [2]), [2], (Engine [0; 1; 1] [2]), [1].
  repeat split; try reflexivity; try (repeat constructor; cbn; tauto). discriminate.
Qed.
(** And for the empty selection, which means all states (engine.py:79 and others). *)
Theorem C40_empty_refuted : exists e l e' l', shows e l /\
  modify_selected Map bump [] e = (e', Ok tt) /\ shows e' l' /\ l' <> l.
Proof.
  exists one_state, [0], (Engine [1] [0]), [1]. repeat split; try reflexivity; try (repeat constructor; cbn; tauto). discriminate.
Qed.

(* ------------------------------------------------------------------ *)
(** ** Queries: one result for each place of the selection *)

Lemma again_const {St A} (f : St -> St * res A) k s : fst (f s) = s -> again f k s = s.
Proof. intros H. induction k as [|k IH]; [reflexivity|]. cbn [again]. rewrite IH. exact H. Qed.

(** A query that does not change the state: for every selection, also with repetitions,
    the results are those of the selected states in the order of the selection, and no
    state changes. *)
Theorem C40_evaluate {St A} (m : mapper) (op : St -> St * res A) e l statenos ps :
  shows e l -> selects (length l) statenos ps -> (forall s, In s l -> fst (op s) = s) ->
  exists e' r, evaluate m op statenos e = (e', r) /\ shows e' l /\
    match r with
    | Ok rs => length rs = length ps /\
        forall i p s, nth_error ps i = Some p -> nth_error l p = Some s -> exists a, nth_error rs i = Some a /\ snd (op s) = Ok a
    | Err x => exists p s y, In p ps /\ nth_error l p = Some s /\ snd (op s) = Err y /\
        x = match m with Map => y | Parallel _ => RuntimeError end
    end.
Proof.
  intros H Hs Hro. pose proof (shows_length _ _ H) as L.
  assert (Hb : forall p, In p ps -> p < length l) by (intros p; apply (selects_bound _ _ _ _ Hs)).
  unfold evaluate. rewrite (positions_ok e statenos ps) by (unfold num_states; rewrite L; exact Hs).
  destruct m as [|asg].
  - destruct (map_jobs_spec (fun _ => op) ps e l H Hb) as [h [l' [k [r [M1 [M2 [M3 [M4 M5]]]]]]]]. rewrite M1.
    eexists _, r. split; [reflexivity|]. split.
    + replace l with l'; [exact M3|]. symmetry. destruct M4 as [M4 M4']. apply nth_error_ext_eq; [symmetry; exact M4|].
      intros p s E. rewrite (M4' p s E), again_const; [reflexivity|]. apply Hro. eapply nth_error_In. exact E.
    + destruct r as [rs|x].
      * destruct M5 as [-> [N1 N2]]. split; [exact N1|]. intros i p s Ep Es.
        assert (i < length ps) by (apply nth_error_Some; congruence).
        destruct (nth_error rs i) as [a|] eqn:E; [|apply nth_error_None in E; lia]. exists a. split; [reflexivity|].
        destruct (N2 i a E) as [p' [s' [A1 [A2 A3]]]]. rewrite Ep in A1. injection A1 as <-. rewrite Es in A2. injection A2 as <-.
        rewrite again_const in A3; [exact A3|]. apply Hro. eapply nth_error_In. exact Es.
      * destruct M5 as [i [_ [[p [s [A1 [A2 A3]]]] _]]]. rewrite again_const in A3 by (apply Hro; eapply nth_error_In; exact A2).
        exists p, s, x. split; [eapply nth_error_In; exact A1|]. auto.
  - pose proof (parallel_spec (fun _ => op) asg ps e l H Hb) as P. destruct (parallel_jobs asg (e_heap e) (args e (fun _ => op) ps)) as [out|x].
    + destruct P as [P1 P2]. eexists _, _. split; [reflexivity|]. split; [exact H|]. cbn [rbind]. split; [rewrite map_length; exact P1|].
      intros i p s Ep Es. assert (i < length ps) by (apply nth_error_Some; congruence).
      destruct (nth_error out i) as [[s' a]|] eqn:E; [|apply nth_error_None in E; lia]. exists a. rewrite (map_nth_error snd _ _ E). split; [reflexivity|].
      destruct (P2 i s' a E) as [p' [s0 [A1 [A2 A3]]]]. rewrite Ep in A1. injection A1 as <-. rewrite Es in A2. injection A2 as <-.
      rewrite again_const in A3 by (apply Hro; eapply nth_error_In; exact Es). rewrite <- A3. reflexivity.
    + destruct P as [-> [i [s' [y [p [s [A1 [A2 A3]]]]]]]]. eexists _, _. split; [reflexivity|]. split; [exact H|]. cbn [rbind].
      rewrite again_const in A3 by (apply Hro; eapply nth_error_In; exact A2).
      exists p, s, y. split; [eapply nth_error_In; exact A1|]. split; [exact A2|]. split; [rewrite <- A3; reflexivity|reflexivity].
Qed.

(** A query that changes the state it runs on, as simulate advances the random generator:
    in parallel the states of the engine do not change at all. *)
Theorem C40_evaluate_parallel {St A} asg (op : St -> St * res A) statenos (e : engine St) :
  fst (evaluate (Parallel asg) op statenos e) = e.
Proof. unfold evaluate. destruct (positions e statenos); reflexivity. Qed.
(** With distinct states, the results are those of the single calls whichever mapper is
    used. *)
Theorem C40_evaluate_distinct {St A} (m : mapper) (op : St -> St * res A) e l statenos ps :
  shows e l -> selects (length l) statenos ps -> NoDup ps ->
  (forall p s, In p ps -> nth_error l p = Some s -> exists a, snd (op s) = Ok a) ->
  exists e' rs l', evaluate m op statenos e = (e', Ok rs) /\ shows e' l' /\ length l' = length l /\ length rs = length ps /\
    (forall i p s, nth_error ps i = Some p -> nth_error l p = Some s -> exists a, nth_error rs i = Some a /\ snd (op s) = Ok a) /\
    (forall p s, nth_error l p = Some s -> nth_error l' p = Some (match m with
       | Map => if in_dec Nat.eq_dec p ps then fst (op s) else s
       | Parallel _ => s end)).
Proof.
  intros H Hs N Hok. pose proof (shows_length _ _ H) as L.
  assert (Hb : forall p, In p ps -> p < length l) by (intros p; apply (selects_bound _ _ _ _ Hs)).
  unfold evaluate. rewrite (positions_ok e statenos ps) by (unfold num_states; rewrite L; exact Hs).
  destruct m as [|asg].
  - destruct (map_jobs_spec (fun _ => op) ps e l H Hb) as [h [l' [k [r [M1 [M2 [M3 [M4 M5]]]]]]]]. rewrite M1. destruct r as [rs|x].
    + destruct M5 as [-> [N1 N2]]. exists (Engine h (e_refs e)), rs, l'. split; [reflexivity|]. split; [exact M3|]. split; [apply M4|]. split; [exact N1|].
      split; [|apply (after_selected _ _ _ _ N M4)]. intros i p s Ep Es.
      assert (i < length ps) by (apply nth_error_Some; congruence).
      destruct (nth_error rs i) as [a|] eqn:E; [|apply nth_error_None in E; lia]. exists a. split; [reflexivity|].
      destruct (N2 i a E) as [p' [s' [A1 [A2 A3]]]]. rewrite Ep in A1. injection A1 as <-. rewrite Es in A2. injection A2 as <-.
      rewrite (times_nodup p ps i p N Ep eq_refl) in A3. exact A3.
    + exfalso. destruct M5 as [i [_ [[p [s [A1 [A2 A3]]]] _]]]. rewrite (times_nodup p ps i p N A1 eq_refl) in A3.
      destruct (Hok p s (nth_error_In _ _ A1) A2) as [a Ha]. cbn [again] in A3. congruence.
  - pose proof (parallel_spec (fun _ => op) asg ps e l H Hb) as P. destruct (parallel_jobs asg (e_heap e) (args e (fun _ => op) ps)) as [out|x].
    + destruct P as [P1 P2]. exists e, (map snd out), l. split; [reflexivity|]. split; [exact H|]. split; [reflexivity|]. split; [rewrite map_length; exact P1|].
      split; [|auto]. intros i p s Ep Es. assert (i < length ps) by (apply nth_error_Some; congruence).
      destruct (nth_error out i) as [[s' a]|] eqn:E; [|apply nth_error_None in E; lia]. exists a. rewrite (map_nth_error snd _ _ E). split; [reflexivity|].
      destruct (P2 i s' a E) as [p' [s0 [A1 [A2 A3]]]]. rewrite Ep in A1. injection A1 as <-. rewrite Es in A2. injection A2 as <-.
      pose proof (times_by_le asg (asg i) p ps i ltac:(lia)) as T. rewrite (times_nodup p ps i p N Ep eq_refl) in T.
      replace (times_by asg (asg i) p ps i) with 0 in A3 by lia. cbn [again] in A3. rewrite <- A3. reflexivity.
    + exfalso. destruct P as [_ [i [s' [y [p [s [A1 [A2 A3]]]]]]]]. assert (i < length ps) by (apply nth_error_Some; congruence).
      pose proof (times_by_le asg (asg i) p ps i ltac:(lia)) as T. rewrite (times_nodup p ps i p N A1 eq_refl) in T.
      replace (times_by asg (asg i) p ps i) with 0 in A3 by lia. cbn [again] in A3.
      destruct (Hok p s (nth_error_In _ _ A1) A2) as [a Ha]. rewrite <- A3 in Ha. discriminate.
Qed.

(* ------------------------------------------------------------------ *)
(** ** simulate and mutual_information seed every state first *)

Lemma set_seed {St} (seed : St -> Z -> St) : forall seeds refs h l, NoDup refs ->
  Forall2 (fun r s => nth_error h r = Some s) refs l -> length seeds = length l ->
  let h' := fold_left (fun h sr => match nth_error h (snd sr) with
                                   | Some s => set_at h (snd sr) (seed s (fst sr)) | None => h end) (combine seeds refs) h in
  Forall2 (fun r s => nth_error h' r = Some s) refs (map (fun sz => seed (fst sz) (snd sz)) (combine l seeds)) /\
  (forall r, ~ In r refs -> nth_error h' r = nth_error h r).
Proof.
  induction seeds as [|z seeds IH]; intros refs h l N H L.
  - destruct l; [|discriminate]. inversion H; subst. split; [constructor|reflexivity].
  - destruct l as [|s l]; [discriminate|]. inversion H as [|r s' refs' l'' E H' Er El]; subst. cbn [combine fold_left fst snd map].
    rewrite E. inversion N as [|x y Hnin N']; subst.
    assert (Hr : r < length h) by (apply nth_error_Some; congruence).
    destruct (IH refs' (set_at h r (seed s z)) l N') as [I1 I2].
    + clear - H' Hnin Hr. induction H' as [|r0 s0 refs l E H IH]; constructor.
      * rewrite set_at_other; [exact E|]. intros ->. apply Hnin. left. reflexivity.
      * apply IH. intros Hin. apply Hnin. right. exact Hin.
    + cbn in L. lia.
    + split.
      * constructor; [|exact I1]. rewrite I2 by exact Hnin. apply set_at_same. exact Hr.
      * intros r' Hr'. rewrite I2 by (intros Hin; apply Hr'; right; exact Hin). apply set_at_other. intros ->. apply Hr'. left. reflexivity.
Qed.
(** All states get a new seed, selected or not. *)
Theorem C40_seeds {St} (seed : St -> Z -> St) seeds (e : engine St) l : shows e l -> length seeds = length l ->
  shows (seed_states seed seeds e) (map (fun sz => seed (fst sz) (snd sz)) (combine l seeds)).
Proof.
  intros [N H] L. split; [exact N|]. destruct (set_seed seed seeds (e_refs e) (e_heap e) l N H L) as [R _]. exact R.
Qed.
(** So a simulation from selected states does change the others. *)
Definition reseed (s : nat * Z) (z : Z) : nat * Z := (fst s, z).
Definition two_states : engine (nat * Z) := Engine [(0, 1%Z); (1, 1%Z)] [0; 1].
Theorem C40_simulate_refuted : exists e l e' l' s s', shows e l /\
  seeded_evaluate reseed [7; 8]%Z (Parallel (fun i => i)) (fun s => (s, Ok (fst s))) [0]%Z e = (e', Ok [0]) /\
  shows e' l' /\ nth_error l 1 = Some s /\ nth_error l' 1 = Some s' /\ s' <> s.
Proof.
  exists two_states, [(0, 1%Z); (1, 1%Z)], (Engine [(0, 7%Z); (1, 8%Z)] [0; 1]), [(0, 7%Z); (1, 8%Z)], (1, 1%Z), (1, 8%Z).
  repeat split; try reflexivity; try (repeat constructor; cbn; intuition congruence).
Qed.

(* ------------------------------------------------------------------ *)
(** ** Operations on all states *)

Lemma seq_selects n : selects n [] (seq 0 n).
Proof. left. auto. Qed.
Lemma modify_all_selected {St A} (m : mapper) (op : nat -> St -> St * res A) available e l : shows e l ->
  match available with Some k => length l <= k | None => True end ->
  modify_all m op available e = modify_selected m op [] e.
Proof.
  intros H Hav. pose proof (shows_length _ _ H) as L. unfold modify_all, modify_selected, num_states.
  replace (match available with Some k => k <? length (e_refs e) | None => false end) with false.
  2: { destruct available as [k|]; [|reflexivity]. symmetry. apply Nat.ltb_ge. lia. }
  rewrite (positions_ok e [] (seq 0 (length (e_refs e)))) by apply seq_selects.
  assert (M : map fst (args e op (seq 0 (length (e_refs e)))) = e_refs e).
  { unfold args. rewrite map_map. cbn [fst]. symmetry. apply nth_error_ext_eq; [rewrite map_length, seq_length; reflexivity|].
    intros i r E. assert (Hi : i < length (e_refs e)) by (apply nth_error_Some; congruence).
    assert (Es : nth_error (seq 0 (length (e_refs e))) i = Some i) by (apply nth_error_seq; auto).
    rewrite (map_nth_error _ _ _ Es), (nth_error_nth _ _ 0 E). reflexivity. }
  destruct m as [|asg].
  - destruct (map_jobs _ _) as [h [rs|x]]; [|reflexivity]. f_equal. f_equal.
    assert (Q : assign (e_refs e) (seq 0 (length (e_refs e))) (map (fun p => nth p (e_refs e) 0) (seq 0 (length (e_refs e)))) = e_refs e).
    { apply assign_same. intros q Hq. apply in_seq in Hq. lia. }
    unfold args in *. rewrite map_map in *. cbn [fst] in *. rewrite Q. exact M.
  - pose proof (parallel_spec op asg (seq 0 (length (e_refs e))) e l H) as P.
    destruct (parallel_jobs asg (e_heap e) (args e op (seq 0 (length (e_refs e))))) as [out|x]; [|reflexivity].
    destruct P as [P _]; [intros p Hp; apply in_seq in Hp; lia|]. rewrite seq_length in P. f_equal. f_equal.
    apply nth_error_ext_eq; [rewrite assign_length, seq_length; exact P|]. intros i r E.
    assert (Hi : i < length (e_refs e)). { rewrite <- P, <- (seq_length (length out) (length (e_heap e))). apply nth_error_Some. congruence. }
    rewrite (assign_in _ i _ _ i); [exact E| | |].
    + intros q Hq. apply in_seq in Hq. lia.
    + rewrite !seq_length. exact P.
    + split; [apply nth_error_seq; auto|]. intros j Hj F. apply nth_error_seq in F. lia.
Qed.
(** Every state is replaced by what the call makes of it. *)
Theorem C40_all {St A} (m : mapper) (op : nat -> St -> St * res A) available e l : shows e l ->
  match available with Some k => length l <= k | None => True end ->
  (forall p s, nth_error l p = Some s -> exists a, snd (op p s) = Ok a) ->
  exists e' l', modify_all m op available e = (e', Ok tt) /\ shows e' l' /\ length l' = length l /\
    forall p s, nth_error l p = Some s -> nth_error l' p = Some (fst (op p s)).
Proof.
  intros H Hav Hok. rewrite (modify_all_selected m op available e l H Hav).
  destruct (C40_selected m op e l [] (seq 0 (length l)) H (seq_selects _) (seq_NoDup _ _)) as [e' [l' [E [S' [L' R]]]]].
  { intros p s _. apply Hok. }
  exists e', l'. split; [exact E|]. split; [exact S'|]. split; [exact L'|]. intros p s Ep. rewrite (R p s Ep).
  destruct (in_dec Nat.eq_dec p (seq 0 (length l))) as [_|Hn]; [reflexivity|]. exfalso. apply Hn. apply in_seq.
  assert (p < length l) by (apply nth_error_Some; congruence). lia.
Qed.
(** compose_cgpm with too few cgpms: nothing happens. *)
Theorem C40_all_short {St A} (m : mapper) (op : nat -> St -> St * res A) k e l : shows e l -> k < length l ->
  modify_all m op (Some k) e = (e, Err IndexError).
Proof.
  intros H Hk. unfold modify_all, num_states. rewrite (shows_length _ _ H).
  replace (k <? length l) with true by (symmetry; apply Nat.ltb_lt; exact Hk). reflexivity.
Qed.

(* ------------------------------------------------------------------ *)
(** ** Making, adding, getting and dropping states *)

Lemma made_shows {St} (h new : list St) (refs : list nat) l : shows (Engine h refs) l ->
  shows (Engine (h ++ new) (refs ++ seq (length h) (length new))) (l ++ new).
Proof.
  intros H. assert (B : forall r, In r refs -> r < length h) by (intros r; apply (shows_bound _ _ _ H)).
  destruct H as [N H]. cbn [e_refs e_heap] in N, H. split; cbn [e_refs e_heap].
  - apply NoDup_app_intro; [exact N|apply seq_NoDup|]. intros r Hr Hr'. apply in_seq in Hr'. specialize (B r Hr). lia.
  - apply Forall2_app.
    + clear N. induction H as [|r s refs l E H IH]; constructor; [|apply IH; intros; apply B; right; assumption].
      rewrite nth_error_app1; [exact E|]. apply B. left. reflexivity.
    + apply Forall2_nth; [rewrite seq_length; reflexivity|]. intros i r s Er Es. apply nth_error_seq in Er. destruct Er as [Hi ->].
      rewrite nth_error_app2 by lia. replace (length h + i - length h) with i by lia. exact Es.
Qed.
Theorem C40_init {St} (m : mapper) (made : list (res St)) : 
  (forall l, made = map Ok l -> exists e, engine_init m made = Ok e /\ shows e l) /\
  (forall x, In (Err x) made -> exists y, engine_init m made = Err y).
Proof.
  unfold engine_init, make_states. pose proof (rsequence_cases made) as R. split.
  - intros l ->. destruct (rsequence (map Ok l)) as [l'|x].
    + destruct R as [L R]. rewrite map_length in L. assert (l' = l) as ->.
      { apply nth_error_ext_eq; [exact L|]. intros i s E. specialize (R i s E). rewrite nth_error_map in R.
        destruct (nth_error l i); [|discriminate]. cbn in R. congruence. }
      eexists. split; [reflexivity|]. apply (made_shows [] l [] []). split; constructor.
    + exfalso. destruct R as [i E]. rewrite nth_error_map in E. destruct (nth_error l i); discriminate.
  - intros x Hx. destruct (rsequence made) as [l|y]; [|eexists; reflexivity]. exfalso. destruct R as [L R].
    apply In_nth_error in Hx. destruct Hx as [i Hi]. assert (i < length l) by (rewrite L; apply nth_error_Some; congruence).
    destruct (nth_error l i) as [s|] eqn:E; [|apply nth_error_None in E; lia]. specialize (R i s E). congruence.
Qed.
Theorem C40_get {St} (e : engine St) l z : shows e l ->
  match get_state e z with
  | Ok s => exists p, means (length l) z p /\ nth_error l p = Some s
  | Err x => x = IndexError /\ forall p, ~ means (length l) z p
  end.
Proof.
  intros H. unfold get_state, num_states. rewrite (shows_length _ _ H). pose proof (position_spec (length l) z) as P.
  destruct (position (length l) z) as [p|x]; cbn [rbind]; [|exact P].
  destruct (nth_error l p) as [s|] eqn:E; [|apply nth_error_None in E; unfold means in P; lia].
  destruct (shows_nth _ _ _ _ H E) as [_ F]. rewrite F. eauto.
Qed.
Lemma drop_shows {St} (h : list St) refs l p : shows (Engine h refs) l ->
  shows (Engine h (firstn p refs ++ skipn (1 + p) refs)) (firstn p l ++ skipn (1 + p) l).
Proof.
  intros [N H]. cbn [e_refs e_heap] in N, H. split; cbn [e_refs e_heap].
  - clear H. revert p N. induction refs as [|r refs IH]; intros p N; [destruct p; exact N|]. inversion N as [|x y Hn N']; subst.
    destruct p as [|p]; [exact N'|]. cbn [firstn skipn Nat.add app]. constructor; [|apply (IH p N')]. intros Hin. apply Hn.
    apply in_app_or in Hin. rewrite <- (firstn_skipn p refs). apply in_or_app. destruct Hin as [Hin|Hin]; [left; exact Hin|right].
    clear - Hin. revert p Hin. induction refs as [|a refs IH]; intros [|p] Hin; cbn in Hin |- *; try tauto. apply IH. exact Hin.
  - clear N. revert p. induction H as [|r s refs l E H IH]; intros [|p]; cbn [firstn skipn Nat.add app]; try constructor; try assumption. apply IH.
Qed.
Theorem C40_drop {St} (e : engine St) l z : shows e l ->
  (forall p, means (length l) z p -> exists e', drop_state z e = (e', Ok tt) /\ shows e' (firstn p l ++ skipn (1 + p) l)) /\
  ((forall p, ~ means (length l) z p) -> drop_state z e = (e, Err IndexError)).
Proof.
  intros H. unfold drop_state, num_states. rewrite (shows_length _ _ H). pose proof (position_spec (length l) z) as P. split.
  - intros p Hp. destruct (position (length l) z) as [q|x]; [|exfalso; exact (proj2 P p Hp)].
    assert (q = p) as -> by (eapply means_unique; eassumption). eexists. split; [reflexivity|]. apply drop_shows. destruct e; exact H.
  - intros Hn. destruct (position (length l) z) as [q|x]; [exfalso; exact (Hn q P)|]. destruct P as [-> _]. reflexivity.
Qed.
(** New states come after the others; a failure changes nothing. *)
Theorem C40_add {St} composite forbidden (m : mapper) (made : list (res St)) e l : shows e l ->
  exists e' r, add_state composite forbidden m made e = (e', r) /\
    match r with
    | Ok _ => exists s rest new, l = s :: rest /\ composite s = false /\ forbidden = false /\ made = map Ok new /\ shows e' (l ++ new)
    | Err _ => e' = e
    end.
Proof.
  intros H. unfold add_state. pose proof (C40_get e l 0 H) as G. destruct (get_state e 0) as [s|x]; [|eexists _, _; split; reflexivity].
  destruct G as [p [Hp Es]]. assert (p = 0) as -> by (unfold means in Hp; lia). destruct l as [|s' rest]; [discriminate|]. cbn in Es. injection Es as ->.
  destruct (composite s) eqn:Ec; [eexists _, _; split; reflexivity|]. destruct forbidden; [eexists _, _; split; reflexivity|]. unfold make_states.
  pose proof (rsequence_cases made) as R. destruct (rsequence made) as [new|x]; [|eexists _, _; split; reflexivity]. destruct R as [L R].
  eexists _, _. split; [reflexivity|]. exists s, rest, new. split; [reflexivity|]. split; [exact Ec|]. split; [reflexivity|]. split.
  - symmetry. apply nth_error_ext_eq; [rewrite map_length; exact L|]. intros i y E. rewrite nth_error_map in E.
    destruct (nth_error new i) as [a|] eqn:Ea; [|discriminate]. cbn in E. injection E as <-. apply R. exact Ea.
  - apply made_shows. destruct e; exact H.
Qed.

(* ------------------------------------------------------------------ *)
(** ** Every engine *)

(** The engines that the constructor and the operations can make. *)
Inductive ereach {St} : engine St -> Prop :=
  | er_init m made e : engine_init m made = Ok e -> ereach e
  | er_modify {A} m (op : nat -> St -> St * res A) statenos e : ereach e -> ereach (fst (modify_selected m op statenos e))
  | er_all {A} m (op : nat -> St -> St * res A) available e : ereach e -> ereach (fst (modify_all m op available e))
  | er_evaluate {A} m (op : St -> St * res A) statenos e : ereach e -> ereach (fst (evaluate m op statenos e))
  | er_seeded {A} seed seeds m (op : St -> St * res A) statenos e : length seeds = num_states e -> ereach e ->
      ereach (fst (seeded_evaluate seed seeds m op statenos e))
  | er_drop z e : ereach e -> ereach (fst (drop_state z e))
  | er_add composite forbidden m made e : ereach e -> ereach (fst (add_state composite forbidden m made e)).

Lemma modify_shows {St A} m (op : nat -> St -> St * res A) statenos e l : shows e l ->
  exists l', shows (fst (modify_selected m op statenos e)) l' /\ length l' = length l.
Proof.
  intros H. pose proof (positions_spec e statenos) as P. destruct (positions e statenos) as [ps|x] eqn:Ep.
  - unfold num_states in P. rewrite (shows_length _ _ H) in P. destruct m as [|asg].
    + destruct (C40_map op e l statenos ps H P) as [e' [r [l' [k [E [S' [Af R]]]]]]]. exists l'. rewrite E. split; [exact S'|apply Af].
    + destruct (C40_parallel op asg e l statenos ps H P) as [e' [r [E R]]]. rewrite E. cbn [fst]. destruct r.
      * destruct R as [l' [S' [L' _]]]. eauto.
      * destruct R as [-> _]. eauto.
  - exists l. unfold modify_selected. rewrite Ep. auto.
Qed.
Lemma evaluate_shows {St A} m (op : St -> St * res A) statenos e l : shows e l ->
  exists l', shows (fst (evaluate m op statenos e)) l' /\ length l' = length l.
Proof.
  intros H. destruct m as [|asg]; [|rewrite C40_evaluate_parallel; eauto]. pose proof (positions_spec e statenos) as P. unfold evaluate.
  destruct (positions e statenos) as [ps|x]; [|exists l; auto]. unfold num_states in P. rewrite (shows_length _ _ H) in P.
  destruct (map_jobs_spec (fun _ => op) ps e l H) as [h [l' [k [r [M1 [M2 [M3 [M4 M5]]]]]]]].
  { intros p. apply (selects_bound _ _ _ _ P). }
  rewrite M1. exists l'. split; [exact M3|apply M4].
Qed.
(** In every reachable engine the states are different objects, so the theorems above
    apply to every history of operations. *)
Theorem C40_reachable {St} (e : engine St) : ereach e -> exists l, shows e l.
Proof.
  induction 1 as [m made e E|A m op ss e H [l IH]|A m op av e H [l IH]|A m op ss e H [l IH]|A seed seeds m op ss e L H [l IH]|z e H [l IH]|c f m made e H [l IH]].
  - unfold engine_init in E. destruct (make_states m made) as [l|x] eqn:El; [|discriminate]. cbn [rbind] in E. injection E as <-.
    exists l. apply (made_shows [] l [] []). split; constructor.
  - destruct (modify_shows m op ss e l IH) as [l' [H' _]]. eauto.
  - destruct (match av with Some k => k <? length l | None => false end) eqn:Ek.
    + destruct av as [k|]; [|discriminate]. apply Nat.ltb_lt in Ek. rewrite (C40_all_short m op k e l IH Ek). exists l. exact IH.
    + rewrite (modify_all_selected m op av e l IH).
      * destruct (modify_shows m op [] e l IH) as [l' [H' _]]. eauto.
      * destruct av as [k|]; [|exact I]. apply Nat.ltb_ge in Ek. exact Ek.
  - destruct (evaluate_shows m op ss e l IH) as [l' [H' _]]. eauto.
  - assert (S' := C40_seeds seed seeds e l IH). unfold num_states in L. rewrite (shows_length _ _ IH) in L. specialize (S' L).
    destruct (evaluate_shows m op ss _ _ S') as [l' [H' _]]. eauto.
  - destruct (C40_drop e l z IH) as [D1 D2]. pose proof (position_spec (length l) z) as P. destruct (position (length l) z) as [p|x].
    + destruct (D1 p P) as [e' [-> H']]. eauto.
    + rewrite (D2 (proj2 P)). eauto.
  - destruct (C40_add c f m made e l IH) as [e' [r [-> R]]]. cbn [fst]. destruct r; [|subst; eauto].
    destruct R as [_ [_ [new [_ [_ [_ [_ R]]]]]]]. eauto.
Qed.

(* ------------------------------------------------------------------ *)
(** ** Examples: an engine of three states, of which the third and the first are selected *)

Definition three : engine nat := Engine [10; 20; 30] [0; 1; 2].
Definition add_or_fail (p s : nat) : nat * res nat := (s + 1, if s =? 20 then Err ValueError else Ok s).
Example three_shows : shows three [10; 20; 30].
Proof. split; [repeat constructor; cbn; intuition congruence|]. repeat constructor. Qed.
Example three_reach : ereach three.
Proof. apply (er_init Map [Ok 10; Ok 20; Ok 30]). reflexivity. Qed.
Example three_selects : selects 3 [-1; 0]%Z [2; 0].
Proof. right. split; [discriminate|]. unfold means. repeat constructor; lia. Qed.
Example C40_selected_ex m : exists e', modify_selected m add_or_fail [-1; 0]%Z three = (e', Ok tt) /\ shows e' [11; 20; 31].
Proof.
  destruct (C40_selected m add_or_fail three _ _ _ three_shows three_selects) as [e' [l' [E [S' [L R]]]]].
  - repeat constructor; cbn; intuition congruence.
  - intros p s Hp Es. destruct Hp as [<-|[<-|[]]]; cbn in Es; injection Es as <-; eexists; reflexivity.
  - exists e'. split; [exact E|]. pose proof (R 0 10 eq_refl) as R0. pose proof (R 1 20 eq_refl) as R1. pose proof (R 2 30 eq_refl) as R2.
    cbn in R0, R1, R2. destruct l' as [|a [|b [|c [|d l']]]]; cbn in L; try lia. cbn in R0, R1, R2.
    injection R0 as ->. injection R1 as ->. injection R2 as ->. exact S'.
Qed.
Example C40_raises_ex : modify_selected (Parallel (fun i => i)) add_or_fail [-1; 1; 0]%Z three = (three, Err RuntimeError) /\
  modify_selected Map add_or_fail [-1; 1; 0]%Z three = (Engine [10; 21; 31] [0; 1; 2], Err ValueError).
Proof. split; reflexivity. Qed.
Example C40_index_ex : modify_selected Map add_or_fail [0; 3]%Z three = (three, Err IndexError).
Proof. apply (C40_index Map add_or_fail three _ _ 3%Z three_shows); [cbn; auto|]. unfold means. cbn. lia. Qed.
Example C40_evaluate_ex m : exists e', evaluate m (fun s => (s, Ok (2 * s))) [-1; 0; 2]%Z three = (e', Ok [60; 20; 60]) /\ shows e' [10; 20; 30].
Proof.
  destruct (C40_evaluate m (fun s => (s, Ok (2 * s))) three [10; 20; 30] [-1; 0; 2]%Z [2; 0; 2] three_shows) as [e' [r [E [S' R]]]].
  - right. split; [discriminate|]. unfold means. repeat constructor; cbn; lia.
  - reflexivity.
  - exists e'. split; [|exact S']. rewrite E. f_equal. destruct r as [rs|x].
    + destruct R as [L R]. destruct (R 0 2 30 eq_refl eq_refl) as [a [Ea Fa]]. destruct (R 1 0 10 eq_refl eq_refl) as [b [Eb Fb]].
      destruct (R 2 2 30 eq_refl eq_refl) as [c [Ec Fc]]. cbn in Fa, Fb, Fc. injection Fa as <-. injection Fb as <-. injection Fc as <-.
      destruct rs as [|x [|y [|z [|w rs]]]]; cbn in L; try lia. cbn in Ea, Eb, Ec. congruence.
    + destruct R as [p [s [y [_ [_ [R _]]]]]]. discriminate.
Qed.
Example C40_repeated_ex : modify_selected Map bump [2; 0; 2]%Z three = (Engine [11; 20; 32] [0; 1; 2], Ok tt) /\
  modify_selected (Parallel (fun i => i)) bump [2; 0; 2]%Z three = (Engine [10; 20; 30; 31; 11; 31] [4; 1; 5], Ok tt).
Proof. split; reflexivity. Qed.
Example C40_drop_ex : drop_state (-2) three = (Engine [10; 20; 30] [0; 2], Ok tt) /\ drop_state 3 three = (three, Err IndexError).
Proof. split; reflexivity. Qed.
Example C40_add_ex : add_state (fun _ => false) false Map [Ok 5; Ok 6] three = (Engine [10; 20; 30; 5; 6] [0; 1; 2; 3; 4], Ok tt).
Proof. reflexivity. Qed.
Print Assumptions C40_selected.
Print Assumptions C40_repeated_parallel.
Print Assumptions C40_evaluate.
Print Assumptions C40_reachable.
