(** Finite random programs: a program either returns or flips a weighted coin
    with finitely many sides and continues.  This gives the samplers built on
    pflip an exact sampling distribution. *)
From Verif Require Export LogSpaceFacts.
Local Open Scope R_scope.

Inductive prog (A : Type) : Type :=
| Ret (a : A)
| Flip (w : list R) (k : nat -> prog A).
Arguments Ret {A} a.
Arguments Flip {A} w k.

(** One draw of an index with probability proportional to its weight: the
    law of pflip (general.py:128-139) on [seq 0 (length w)], see
    [run_flip]. *)
Definition flip (w : list R) : prog nat := Flip w (fun i => Ret i).

Fixpoint pbind {A B} (p : prog A) (f : A -> prog B) : prog B :=
  match p with
  | Ret a => f a
  | Flip w k => Flip w (fun i => pbind (k i) f)
  end.
Definition pmap {A B} (f : A -> B) (p : prog A) : prog B := pbind p (fun a => Ret (f a)).

(** Expected value of [f] on the result. *)
Fixpoint expect {A} (p : prog A) (f : A -> R) : R :=
  match p with
  | Ret a => f a
  | Flip w k => Rsum (map (fun i => nth i w 0 / Rsum w * expect (k i) f) (seq 0 (length w)))
  end.

(** Probability of an event. *)
Definition pr {A} (p : prog A) (E : A -> bool) : R := expect p (fun a => if E a then 1 else 0).

(** Every outcome satisfies [P]. *)
Fixpoint surely {A} (p : prog A) (P : A -> Prop) : Prop :=
  match p with
  | Ret a => P a
  | Flip w k => forall i, (i < length w)%nat -> surely (k i) P
  end.

(** Every outcome of positive probability satisfies [P]. *)
Fixpoint almost {A} (p : prog A) (P : A -> Prop) : Prop :=
  match p with
  | Ret a => P a
  | Flip w k => forall i, (i < length w)%nat -> nth i w 0 <> 0 -> almost (k i) P
  end.

(** All coins have non-negative weights and positive total. *)
Fixpoint proper {A} (p : prog A) : Prop :=
  match p with
  | Ret _ => True
  | Flip w k => Forall (fun x => 0 <= x) w /\ 0 < Rsum w /\ forall i, (i < length w)%nat -> proper (k i)
  end.

(** The outcome when the n-th flip is decided by [draws n] on the normalised
    weights. *)
Fixpoint run {A} (draws : nat -> list ext -> nat) (n : nat) (p : prog A) : A :=
  match p with
  | Ret a => a
  | Flip w k => run draws (S n) (k (match w with [_] => 0%nat | _ => draws n (normalize (map Fin w)) end))
  end.

(** [run] of a flip is pflip. *)
Lemma run_flip draws n w : (forall i, draw_ok (draws i)) -> Forall (fun x => 0 <= x) w -> 0 < Rsum w ->
  pflip (draws n) (map Fin w) (seq 0 (length w)) = Ok (run draws n (flip w)).
Proof.
  intros Hd H1 H2.
  assert (Hw : weights (map Fin w) w) by (repeat split; assumption).
  destruct (pflip_spec (draws n) (map Fin w) w (seq 0 (length w)) (Hd n) Hw (seq_length _ _))
    as [i [a [x [Ef [Ea _]]]]].
  assert (Hlt : (i < length w)%nat).
  { rewrite <- (seq_length (length w) 0). apply nth_error_Some. rewrite Ea. discriminate. }
  apply (nth_error_nth _ _ 0%nat) in Ea. rewrite seq_nth in Ea by exact Hlt.
  rewrite Ef. simpl. destruct w as [|y [|z w]].
  - simpl in H2. lra.
  - simpl in *. injection Ef as <-. reflexivity.
  - unfold pflip in Ef. cbn [map] in Ef |- *. unfold choice in Ef.
    destruct (andb _ _); [|discriminate].
    set (d := draws n _) in *.
    destruct (nth_error (seq 0 (length (y :: z :: w))) d) as [b|] eqn:Eb; [|discriminate].
    injection Ef as ->. apply nth_error_nth with (d := 0%nat) in Eb as Eb2.
    rewrite seq_nth in Eb2; [f_equal; rewrite <- Eb2; reflexivity|].
    rewrite <- (seq_length (length (y :: z :: w)) 0). apply nth_error_Some. rewrite Eb. discriminate.
Qed.

Lemma expect_bind {A B} (p : prog A) (f : A -> prog B) g :
  expect (pbind p f) g = expect p (fun a => expect (f a) g).
Proof.
  induction p as [a|w k IH]; simpl; [reflexivity|]. f_equal. apply map_ext. intros i. rewrite IH. reflexivity.
Qed.
Lemma expect_map {A B} (f : A -> B) (p : prog A) g : expect (pmap f p) g = expect p (fun a => g (f a)).
Proof. apply (expect_bind p (fun a => Ret (f a))). Qed.

Lemma expect_ext {A} (p : prog A) f g P : surely p P -> (forall a, P a -> f a = g a) ->
  expect p f = expect p g.
Proof.
  induction p as [a|w k IH]; simpl; intros Hs H; [apply H; exact Hs|].
  f_equal. apply map_ext_in. intros i Hi. apply in_seq in Hi. rewrite (IH i); [reflexivity| |exact H].
  apply Hs. lia.
Qed.
Lemma expect_ext_almost {A} (p : prog A) f g P : almost p P -> (forall a, P a -> f a = g a) ->
  expect p f = expect p g.
Proof.
  induction p as [a|w k IH]; simpl; intros Hs H; [apply H; exact Hs|].
  f_equal. apply map_ext_in. intros i Hi. apply in_seq in Hi.
  destruct (Req_EM_T (nth i w 0) 0) as [E|E].
  - rewrite E. unfold Rdiv. ring.
  - rewrite (IH i); [reflexivity| |exact H]. apply Hs; [lia|exact E].
Qed.
Lemma expect_ext_all {A} (p : prog A) f g : (forall a, f a = g a) -> expect p f = expect p g.
Proof.
  intros H. induction p as [a|w k IH]; simpl; [apply H|]. f_equal. apply map_ext. intros i. rewrite IH. reflexivity.
Qed.

Lemma Rsum_ext {A} (f g : A -> R) l : (forall x, In x l -> f x = g x) -> Rsum (map f l) = Rsum (map g l).
Proof. intros H. f_equal. apply map_ext_in. exact H. Qed.
Lemma Rsum_scal {A} c (f : A -> R) l : Rsum (map (fun x => c * f x) l) = c * Rsum (map f l).
Proof. unfold Rsum. induction l; simpl; [ring|]. rewrite IHl. ring. Qed.
Lemma Rsum_plus {A} (f g : A -> R) l : Rsum (map (fun x => f x + g x) l) = Rsum (map f l) + Rsum (map g l).
Proof. unfold Rsum. induction l; simpl; [ring|]. rewrite IHl. ring. Qed.
Lemma Rsum_zero {A} (f : A -> R) l : (forall x, In x l -> f x = 0) -> Rsum (map f l) = 0.
Proof.
  induction l as [|x l IH]; intros H; [reflexivity|]. unfold Rsum in *. simpl.
  rewrite (H x (or_introl eq_refl)), IH; [ring|]. intros y Hy. apply H. right; exact Hy.
Qed.
Lemma Rsum_app' {A} (f : A -> R) l1 l2 : Rsum (map f (l1 ++ l2)) = Rsum (map f l1) + Rsum (map f l2).
Proof. unfold Rsum. induction l1; simpl; [ring|]. rewrite IHl1. ring. Qed.

(** A sum with a single non-zero term. *)
Lemma Rsum_single {A} (f : A -> R) l x : NoDup l -> In x l -> (forall y, In y l -> y <> x -> f y = 0) ->
  Rsum (map f l) = f x.
Proof.
  intros Hnd Hx H. apply in_split in Hx. destruct Hx as [l1 [l2 ->]].
  rewrite Rsum_app'. simpl. apply NoDup_remove_2 in Hnd.
  assert (E1 : Rsum (map f l1) = 0).
  { apply Rsum_zero. intros y Hy. apply H; [apply in_app_iff; left; exact Hy|].
    intros ->. apply Hnd. apply in_app_iff. left; exact Hy. }
  assert (E2 : Rsum (map f l2) = 0).
  { apply Rsum_zero. intros y Hy. apply H; [apply in_app_iff; right; right; exact Hy|].
    intros ->. apply Hnd. apply in_app_iff. right; exact Hy. }
  unfold Rsum in *. simpl. fold (Rsum (map f l1)). fold (Rsum (map f l2)). unfold Rsum. rewrite E1, E2. ring.
Qed.

Lemma Rsum_nth w : Rsum (map (fun i => nth i w 0) (seq 0 (length w))) = Rsum w.
Proof.
  unfold Rsum. induction w as [|x w IH]; [reflexivity|]. simpl. rewrite <- seq_shift, map_map. simpl.
  rewrite IH. reflexivity.
Qed.

Lemma expect_scal {A} (p : prog A) c f : expect p (fun a => c * f a) = c * expect p f.
Proof.
  induction p as [a|w k IH]; simpl; [reflexivity|]. rewrite <- Rsum_scal. apply Rsum_ext.
  intros i _. rewrite IH. ring.
Qed.
Lemma expect_plus {A} (p : prog A) f g : expect p (fun a => f a + g a) = expect p f + expect p g.
Proof.
  induction p as [a|w k IH]; simpl; [reflexivity|]. rewrite <- Rsum_plus. apply Rsum_ext.
  intros i _. rewrite IH. ring.
Qed.
(** A proper program has total probability one. *)
Lemma expect_const {A} (p : prog A) c : proper p -> expect p (fun _ => c) = c.
Proof.
  induction p as [a|w k IH]; simpl; [reflexivity|]. intros [Hw [Hp Hk]].
  rewrite (Rsum_ext _ (fun i => c / Rsum w * nth i w 0)).
  - rewrite Rsum_scal, Rsum_nth. field. lra.
  - intros i Hi. apply in_seq in Hi. rewrite IH by (apply Hk; lia). unfold Rdiv. ring.
Qed.
Lemma expect_nonneg {A} (p : prog A) f : proper p -> (forall a, 0 <= f a) -> 0 <= expect p f.
Proof.
  intros Hp Hf. induction p as [a|w k IH]; simpl; [apply Hf|]. destruct Hp as [Hw [Hs Hk]].
  assert (H : Forall (fun x => 0 <= x) (map (fun i => nth i w 0 / Rsum w * expect (k i) f) (seq 0 (length w)))).
  { apply Forall_forall. intros x Hx. apply in_map_iff in Hx. destruct Hx as [i [<- Hi]]. apply in_seq in Hi.
    apply Rmult_le_pos; [|apply IH; apply Hk; lia].
    apply Rmult_le_pos; [|left; apply Rinv_0_lt_compat; exact Hs].
    rewrite Forall_forall in Hw. apply Hw. apply nth_In. lia. }
  revert H. generalize (map (fun i => nth i w 0 / Rsum w * expect (k i) f) (seq 0 (length w))).
  unfold Rsum. induction 1; simpl; lra.
Qed.
