(** Properties C14-C16: log-space arithmetic and weighted coin flips. *)
From Verif Require Import LogSpaceFacts P01_Prim.
Local Open Scope R_scope.

(* ------------------------------------------------------------------ *)
(** ** C14 *)

(** Real value denoted by a log weight, written independently of the model. *)
Definition weight_of (x : ext) (w : R) : Prop :=
  (exists a, x = Fin a /\ w = exp a) \/ (x = NInf /\ w = 0).

Lemma Forall2_length {A B} (R : A -> B -> Prop) l1 l2 : Forall2 R l1 l2 -> length l1 = length l2.
Proof. induction 1; simpl; auto. Qed.

Lemma weight_of_lexp l w : Forall2 weight_of l w -> Forall logw l /\ map lexp l = w.
Proof.
  induction 1 as [|x w1 l w2 H HF [IH1 IH2]]; [split; constructor|].
  destruct H as [[a [-> ->]]|[-> ->]]; simpl; rewrite IH2; split; auto; constructor; simpl; auto.
Qed.

(** Finite numbers and minus infinities: the result is the log of the sum of
    the exponentials, minus infinity exactly when that sum is zero. *)
Theorem C14_logsumexp : forall l w,
  Forall2 weight_of l w ->
  exists v, logsumexp l = Ok v /\ weight_of v (Rsum w).
Proof.
  intros l w H. destruct (weight_of_lexp l w H) as [Hl <-].
  rewrite logsumexp_logw by exact Hl. eexists. split; [reflexivity|].
  unfold log_of. destruct (Rltb 0 (Rsum (map lexp l))) eqn:E.
  - apply Rltb_true in E. left. eexists. split; [reflexivity|]. symmetry. apply exp_ln. exact E.
  - apply Rltb_false in E. right. split; [reflexivity|]. pose proof (Rsum_lexp_nonneg l). lra.
Qed.
Print Assumptions C14_logsumexp.

Example C14_logsumexp_ex : Forall2 weight_of [NInf; Fin 0; Fin 0] [0; 1; 1] /\
  logsumexp [NInf; Fin 0; Fin 0] = Ok (Fin (ln 2)).
Proof.
  split.
  - assert (W0 : weight_of NInf 0) by (right; auto).
    assert (W1 : weight_of (Fin 0) 1) by (left; exists 0; rewrite exp_0; auto).
    auto.
  - rewrite logsumexp_logw by (repeat constructor; simpl; auto). simpl. rewrite exp_0.
    unfold log_of. rdec. do 3 f_equal. lra.
Qed.

(** Infinities and NaN. *)
Theorem C14_special : forall l,
  (In NaN l -> logsumexp l = Ok NaN) /\
  (~ In NaN l -> In PInf l -> ~ In NInf l -> logsumexp l = Ok PInf) /\
  (~ In NaN l -> In PInf l -> In NInf l -> logsumexp l = Ok NaN).
Proof.
  intros l. split; [apply logsumexp_nan|].
  assert (B : existsb (fun x => eeqb x NInf) l = true <-> In NInf l).
  { rewrite existsb_exists. split.
    - intros [x [Hx E]]. destruct x; simpl in E; try discriminate; auto.
    - intros H. exists NInf. auto. }
  split; intros Hn Hp Hm; rewrite logsumexp_pinf by assumption.
  - destruct (existsb _ l); [|reflexivity]. exfalso. apply Hm, B. reflexivity.
  - apply B in Hm. rewrite Hm. reflexivity.
Qed.
Print Assumptions C14_special.

Example C14_special_ex : ~ In NaN [PInf; Fin 1] /\ In PInf [PInf; Fin 1] /\ ~ In NInf [PInf; Fin 1].
Proof. simpl. repeat split; try tauto; intros [H|[H|[]]]; discriminate. Qed.

(* ------------------------------------------------------------------ *)
(** ** C15 *)

Theorem C15_log_normalize : forall l w,
  Forall2 weight_of l w -> 0 < Rsum w ->
  exists out q, log_normalize l = Ok out /\ Forall2 weight_of out q /\
    q = map (fun x => x / Rsum w) w /\ Rsum q = 1.
Proof.
  intros l w H Hp. destruct (weight_of_lexp l w H) as [Hl <-].
  destruct (log_normalize_spec l Hl Hp) as [out [E [Ho Em]]].
  exists out, (map lexp out). split; [exact E|]. split; [|split].
  - clear - Ho. induction Ho as [|x out Hx Ho IH]; simpl; constructor; auto.
    destruct x as [a| | |]; simpl in *; try contradiction; [left; eauto|right; auto].
  - rewrite Em, map_map. reflexivity.
  - rewrite Em. apply Rsum_normalized. exact Hp.
Qed.
Print Assumptions C15_log_normalize.

(** With every weight zero the result is NaN in every position. *)
Theorem C15_log_normalize_zero : forall l,
  Forall (fun x => x = NInf) l -> log_normalize l = Ok (map (fun _ => NaN) l).
Proof.
  intros l H. unfold log_normalize.
  rewrite logsumexp_logw.
  2:{ eapply Forall_impl; [|exact H]. intros x ->. exact I. }
  assert (E : map lexp l = map (fun _ => 0) l).
  { apply map_ext_in. intros x Hx. rewrite Forall_forall in H. rewrite (H x Hx). reflexivity. }
  rewrite E, Rsum_map_const, Rmult_0_r, log_of_0. simpl. f_equal.
  apply map_ext_in. intros x Hx. rewrite Forall_forall in H. rewrite (H x Hx). reflexivity.
Qed.
Print Assumptions C15_log_normalize_zero.

Theorem C15_logmeanexp : forall l w,
  l <> [] -> Forall2 weight_of l w ->
  exists v, logmeanexp l = Ok v /\ weight_of v (Rsum w / INR (length w)).
Proof.
  intros l w Hne H. pose proof (Forall2_length _ _ _ H) as HL.
  destruct (weight_of_lexp l w H) as [Hl Ew].
  rewrite logmeanexp_logw by assumption. rewrite <- HL, <- Ew. eexists. split; [reflexivity|].
  assert (HN : 0 < INR (length l)) by (apply lt_0_INR; destruct l; [contradiction|simpl; lia]).
  pose proof (Rsum_lexp_nonneg l) as Hnn.
  set (t := Rsum (map lexp l) / INR (length l)).
  assert (Ht : 0 <= t).
  { unfold t. apply Rmult_le_pos; [exact Hnn|]. left. apply Rinv_0_lt_compat. exact HN. }
  unfold log_of. destruct (Rltb 0 t) eqn:E.
  - apply Rltb_true in E. left. eexists. split; [reflexivity|]. symmetry. apply exp_ln. exact E.
  - apply Rltb_false in E. right. split; [reflexivity|]. lra.
Qed.
Print Assumptions C15_logmeanexp.

(** A plus infinity among the values makes the mean infinite even if minus
    infinities are present. *)
Theorem C15_logmeanexp_pinf : forall l,
  ~ In NaN l -> In PInf l -> logmeanexp l = Ok PInf.
Proof.
  intros l Hn Hp. unfold logmeanexp. destruct l as [|a l]; [destruct Hp|].
  set (f := filter (fun a0 => negb (eeqb a0 NInf)) (a :: l)).
  assert (In PInf f) by (apply filter_In; auto).
  assert (~ In NaN f) by (intros F; apply filter_In in F; tauto).
  assert (~ In NInf f) by (intros F; apply filter_In in F; destruct F; discriminate).
  rewrite (proj1 (proj2 (C14_special f))) by assumption.
  rewrite plog_pos by (apply lt_0_INR; simpl; lia). reflexivity.
Qed.
Print Assumptions C15_logmeanexp_pinf.

Theorem C15_logmeanexp_weighted : forall la lw a w,
  Forall2 weight_of la a -> Forall2 weight_of lw w -> length lw = length la ->
  0 < Rsum w ->
  exists v, logmeanexp_weighted la lw = Ok v /\
    weight_of v (Rsum (map (fun p => fst p * snd p) (combine w a)) / Rsum w).
Proof.
  intros la lw a w Ha Hw HL Hp.
  destruct (weight_of_lexp la a Ha) as [HA <-]. destruct (weight_of_lexp lw w Hw) as [HW <-].
  rewrite logmeanexp_weighted_spec by assumption. eexists. split; [reflexivity|].
  assert (E : map (fun p : ext * ext => lexp (fst p) * lexp (snd p)) (combine lw la) =
              map (fun p => fst p * snd p) (combine (map lexp lw) (map lexp la))).
  { clear. revert la. induction lw as [|x lw IH]; intros [|y la]; simpl; auto. rewrite IH. reflexivity. }
  rewrite <- E. clear E.
  set (T := Rsum (map (fun p => lexp (fst p) * lexp (snd p)) (combine lw la))).
  assert (HT : 0 <= T).
  { unfold T. apply Rsum_nonneg. apply Forall_forall. intros x Hx. apply in_map_iff in Hx.
    destruct Hx as [p [<- _]]. apply Rmult_le_pos; apply lexp_nonneg. }
  set (t := T / Rsum (map lexp lw)).
  assert (Ht : 0 <= t).
  { unfold t. apply Rmult_le_pos; [exact HT|]. left. apply Rinv_0_lt_compat. exact Hp. }
  unfold log_of. destruct (Rltb 0 t) eqn:E.
  - apply Rltb_true in E. left. eexists. split; [reflexivity|]. symmetry. apply exp_ln. exact E.
  - apply Rltb_false in E. right. split; [reflexivity|]. lra.
Qed.
Print Assumptions C15_logmeanexp_weighted.

Example C15_ex : Forall2 weight_of [NInf; Fin 0] [0; 1] /\ 0 < Rsum [0; 1] /\
  logmeanexp [NInf; Fin 0] = Ok (Fin (ln (1 / 2))).
Proof.
  assert (H : Forall2 weight_of [NInf; Fin 0] [0; 1]).
  { assert (W0 : weight_of NInf 0) by (right; auto).
    assert (W1 : weight_of (Fin 0) 1) by (left; exists 0; rewrite exp_0; auto).
    auto. }
  split; [exact H|]. split; [simpl; lra|].
  rewrite logmeanexp_logw; [|discriminate|repeat constructor; simpl; auto]. simpl. rewrite exp_0.
  unfold log_of. rdec. do 3 f_equal. lra.
Qed.

(* ------------------------------------------------------------------ *)
(** ** C16 *)

(** [draw] is any random source that, given a vector with a positive entry,
    returns the index of a positive entry. *)
Theorem C16_pflip : forall A draw w (array : list A),
  draw_ok draw -> Forall (fun x => 0 <= x) w -> 0 < Rsum w ->
  length array = length w ->
  exists i a x, pflip draw (map Fin w) array = Ok a /\
    nth_error array i = Some a /\ nth_error w i = Some x /\ 0 < x.
Proof. intros. eapply pflip_spec; eauto. split; auto. Qed.
Print Assumptions C16_pflip.

Theorem C16_pflip_many : forall A draws w (array : list A) n,
  (forall j, draw_ok (draws j)) -> Forall (fun x => 0 <= x) w -> 0 < Rsum w ->
  length array = length w ->
  exists out, pflip_many draws (map Fin w) array n = Ok out /\ length out = n /\
    Forall (fun a => exists i x, nth_error array i = Some a /\ nth_error w i = Some x /\ 0 < x) out.
Proof. intros. eapply pflip_many_spec; eauto. split; auto. Qed.
Print Assumptions C16_pflip_many.

(** The vector handed to the generator is the weight vector divided by its
    sum, position by position. *)
Theorem C16_pflip_distribution : forall A draw w (array : list A),
  Forall (fun x => 0 <= x) w -> 0 < Rsum w -> length array = length w -> (2 <= length w)%nat ->
  pflip draw (map Fin w) array =
    match nth_error array (draw (map (fun x => Fin (x / Rsum w)) w)) with
    | Some a => Ok a | None => Err IndexError
    end.
Proof.
  intros A draw w array Hw Hp HL H2. unfold pflip.
  assert (W : weights (map Fin w) w) by (split; auto).
  rewrite (normalize_weights _ _ W).
  destruct w as [|x [|y w]]; [simpl in H2; lia|simpl in H2; lia|].
  set (v := x :: y :: w) in *. change (map Fin v) with (Fin x :: Fin y :: map Fin w). cbv iota beta.
  unfold choice. rewrite !map_length, HL, Nat.eqb_refl. rewrite map_map.
  assert (Hq : forallb ext_nonneg (map (fun x => Fin (x / Rsum v)) v) = true).
  { apply forallb_forall. intros z Hz. apply in_map_iff in Hz. destruct Hz as [u [<- Hu]].
    simpl. apply Rleb_true. rewrite Forall_forall in Hw. specialize (Hw u Hu).
    apply Rmult_le_pos; [exact Hw|]. left. apply Rinv_0_lt_compat; exact Hp. }
  rewrite Hq. reflexivity.
Qed.
Print Assumptions C16_pflip_distribution.

Theorem C16_log_pflip : forall A draw l w (array : list A),
  draw_ok draw -> Forall2 weight_of l w -> 0 < Rsum w -> length array = length w ->
  exists i a x, log_pflip draw l array = Ok a /\
    nth_error array i = Some a /\ nth_error w i = Some x /\ 0 < x.
Proof.
  intros A draw l w array Hd H Hp HL. pose proof (Forall2_length _ _ _ H) as HL2.
  destruct (weight_of_lexp l w H) as [Hl Ew]. rewrite <- Ew in Hp.
  destruct (log_pflip_spec draw l array Hd Hl Hp) as [i [a [y [E [Ha [Hy Py]]]]]]; [congruence|].
  exists i, a, (lexp y). rewrite <- Ew. repeat split; auto. apply map_nth_error. exact Hy.
Qed.
Print Assumptions C16_log_pflip.

Theorem C16_log_pflip_many : forall A draws l w (array : list A) n,
  (forall j, draw_ok (draws j)) -> Forall2 weight_of l w -> 0 < Rsum w ->
  length array = length w ->
  exists out, log_pflip_many draws l array n = Ok out /\ length out = n /\
    Forall (fun a => exists i x, nth_error array i = Some a /\ nth_error w i = Some x /\ 0 < x) out.
Proof.
  intros A draws l w array n Hd H Hp HL. pose proof (Forall2_length _ _ _ H) as HL2.
  destruct (weight_of_lexp l w H) as [Hl Ew]. rewrite <- Ew in Hp.
  destruct (log_pflip_many_spec draws l array n Hd Hl Hp) as [out [E [En Ho]]]; [congruence|].
  exists out. repeat split; auto. eapply Forall_impl; [|exact Ho].
  intros a [i [y [Ha [Hy Py]]]]. exists i, (lexp y). rewrite <- Ew. repeat split; auto.
  apply map_nth_error. exact Hy.
Qed.
Print Assumptions C16_log_pflip_many.

(** A random source meeting the contract: the first positive entry. *)
Fixpoint first_pos (p : list ext) : nat :=
  match p with
  | [] => 0
  | x :: p' => if eltb (Fin 0) x then 0 else S (first_pos p')
  end.
Example C16_draw_ex : draw_ok first_pos.
Proof.
  intros p _ [x [Hin Hx]]. induction p as [|y p IH]; [destruct Hin|]. cbn [first_pos].
  destruct (eltb (Fin 0) y) eqn:E; [exists y; auto|].
  destruct Hin as [->|Hin]; [congruence|]. apply IH. exact Hin.
Qed.
Example C16_pflip_ex : pflip first_pos (map Fin [0; 3; 1]) [10; 20; 30]%Z = Ok 20%Z.
Proof.
  unfold pflip. cbn [map]. cbv iota beta.
  replace (normalize [Fin 0; Fin 3; Fin 1]) with [Fin (0/4); Fin (3/4); Fin (1/4)].
  - unfold choice. simpl. rdec. simpl. rdec. reflexivity.
  - unfold normalize, esum. simpl. rdec. repeat f_equal; lra.
Qed.
